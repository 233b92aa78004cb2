(** * CleanP: in plain worlds all records are of numbers *)
From Coq Require Import ZArith Reals Lra Psatz Bool List Lia.
Import ListNotations.
From Verif Require Import Num Vec Res Arena RangeM Orient Colliders Collide EntityM SystemM OrderP Spec ResP ArenaP FrameP StepP Step2P Step3P PathP RangeP
  ArithP StoreP Store2P WakeP CollideP Geom6P RealSpec RealV OrientP Orient2P GeomP ShapeP Geom4P PhysSpec PhysP Phys2P Phys3P Phys4P TraceSpec PassP TraceP FloorSpec.
Local Open Scope R_scope.

(** A found collision of a ball and a half space has numbers. *)
Lemma plane_numbers (b : sphere_c ER) (q : plane_c ER) o1 o1' o2 o2' k : plain_ball b -> plain_plane q ->
  collide (CSphere b) (ofin o1) (ofin o1') (CPlane q) (ofin o2) (ofin o2') = Ok (Some k) ->
  exists x n, c_pos k = vfin x /\ c_normal k = vfin n /\ vdot n n = 1.
Proof.
  intros (c & r & C & R & R0) (p & n & P & N & Un) H. cbn [collide] in H. rewrite C, R, P, N, !into_world_fin, !world_move_fin in H. apply ok_inj in H.
  match type of H with collide_sphere_with_plane (Fin r) (vfin ?a) (vfin ?m) (vfin ?u) (vfin n) (vfin ?mu) = _ => pose proof (plane_law r a m u n mu R0 Un) as X end.
  cbv zeta in X. rewrite H in X. destruct X as (t & _ & _ & _ & _ & _ & X1 & X2). eexists _, _. split; [exact X1|]. split; [exact X2|].
  rewrite <- Un. vunfold. ring.
Qed.
Section Clean.
  Variables (s : system ER) (s1ents : arena (ientity ER)) (d : R) (w0 : handle -> mover).
  Hypothesis Hs : arel Rvel (s_ents s) s1ents.
  Hypothesis Pl : plain s.
  Lemma found_clean c ts st f im t : going s s1ents d w0 c ts st -> is_found (s_cols s) (l_ents st) (l_infos st) f -> fd_h1 f <> fd_h2 f ->
    clean s (mkCR (fd_h1 f) (fd_h2 f) (c_pos (fd_col f)) t (c_normal (fd_col f)) (fd_rest f) im).
  Proof.
    intros G (i1 & i2 & k1 & k2 & q1 & q2 & _ & N1 & N2 & E1 & E2 & (e1 & e2 & c1 & c2 & A1 & A2 & _ & _ & I1 & I2 & Q1 & Q2 & Ek & _) & Q1' & Q2' & Er & _) Ne.
    assert (c1 = q1) by congruence. assert (c2 = q2) by congruence. subst c1 c2. pose proof G as [LI (_ & Tl & _) OC Wh _ _].
    assert (Fl : forall i e, In i (l_infos st) -> aget (l_ents st) (i_h i) = Some e -> exists o o', e_orient e = ofin o /\ after_affected (e_orient e) (i_lin i) (i_ang i) = ofin o').
    { intros i e Hi He. destruct (Wh _ _ He) as ((_ & _ & J3 & J4 & J5 & _) & _). destruct (OC _ _ Hi He) as (L1 & L2). rewrite Tl in L1, L2.
      eexists _, _. split; [exact J3|]. rewrite L1, L2, J3, J4, J5, !vfin_scale, affected_fin. exact eq_refl. }
    destruct (Fl _ _ (nth_error_In _ _ N1) A1) as (o1 & o1' & O1 & O1'). destruct (Fl _ _ (nth_error_In _ _ N2) A2) as (o2 & o2' & O2 & O2').
    rewrite O1', O2', O1, O2 in Ek. rewrite <- E1 in A1. rewrite <- E2 in A2.
    destruct (going_entity _ _ _ _ Hs _ _ _ _ _ G A1) as (t1 & T1 & M1 & C1). destruct (going_entity _ _ _ _ Hs _ _ _ _ _ G A2) as (t2 & T2 & M2 & C2).
    assert (G1 : get_entity s (fd_h1 f) = Some (make_pub t1)) by (unfold get_entity; now rewrite T1).
    assert (G2 : get_entity s (fd_h2 f) = Some (make_pub t2)) by (unfold get_entity; now rewrite T2).
    pose proof (Pl _ _ _ _ k1 k2 q1 q2 Ne G1 G2) as X. cbn [make_pub pe_colliders pe_last_total_mass] in X. rewrite <- C1, <- C2 in X. specialize (X I1 I2 Q1' Q2').
    assert (Y : (exists x n, c_pos (fd_col f) = vfin x /\ c_normal (fd_col f) = vfin n /\ vdot n n = 1) /\
      (exists x, n_mul (mt_rest (c_mat q1)) (mt_rest (c_mat q2)) = Fin x) /\ (e_total_mass t1 <> PInf \/ e_total_mass t2 <> PInf)).
    { destruct q1 as [?|b1|b1|b1|b1], q2 as [?|b2|b2|b2|b2]; try contradiction; cbn [collide] in Ek; try discriminate.
      - destruct X as (X1 & X2 & X3). split; [|exact X3]. exact (plane_numbers b1 b2 o1 o1' o2 o2' _ X1 X2 Ek).
      - destruct X as (X1 & X2 & X3). split; [|exact X3]. change (collide (CPlane b1) (ofin o1) (ofin o1') (CSphere b2) (ofin o2) (ofin o2') = Ok (Some (fd_col f))) in Ek.
        rewrite (swap_mixed (CSphere b2) _ _ (CPlane b1) _ _ I) in Ek.
        apply rbind_ok in Ek. destruct Ek as ([k0|] & Ek & Et0); apply ok_inj in Et0; [|discriminate]. cbn [option_map] in Et0. apply some_inj in Et0. rewrite <- Et0. cbn [turn c_pos c_normal].
        destruct (plane_numbers b2 b1 o2 o2' o1 o1' _ X1 X2 Ek) as (x & n & -> & -> & Un). exists x, (vneg n). rewrite vfin_neg. split; [exact eq_refl|]. split; [exact eq_refl|].
        rewrite <- Un. vunfold. ring. }
    destruct Y as ((x & n & Y1 & Y2 & Y3) & (e & Y4) & Y5). unfold clean. cbn [cr_pos cr_normal cr_rest cr_first cr_second]. rewrite Er.
    split; [eauto|]. split; [eauto|]. split; [eauto|]. 
    destruct Y5 as [Y5|Y5]; [exists (fd_h1 f), (make_pub t1)|exists (fd_h2 f), (make_pub t2)]; (split; [eexists; split; [left; exact eq_refl|cbn [cr_first cr_second]; auto]|]); auto.
  Qed.
  Lemma iterations_clean ord n : good_order ord -> forall c ts st st', going s s1ents d w0 c ts st ->
    iterations ord (s_cols s) (Fin d) n st = Ok st' -> Forall (clean s) (l_records st) -> Forall (clean s) (l_records st').
  Proof.
    intros Ho. induction n as [|n IH]; intros c ts st st' G H Cl; cbn [iterations] in H.
    - inv_ok H. subst st'. exact Cl.
    - inv_ok H. destruct x as [st1 fin]. cbn [fst snd] in H. pose proof G as [LI AT OC Wh Tr Kn].
      destruct (iterate_parts _ _ _ _ _ _ _ _ Ho LI AT OC E) as (of & ents1 & ents2 & infos2 & dbg & c' & Rc & _ & Fr & Aw & Ad & Eh & Enb & P). cbv zeta in P.
      destruct of as [f|].
      + destruct P as (-> & Er & Ne & Hf & _). pose proof (respond_frame _ _ _ _ _ Er) as (_ & _ & _ & _ & _ & im & R6). cbn [l_records l_ctp] in R6.
        assert (Cl1 : Forall (clean s) (l_records st1)).
        { rewrite R6. apply Forall_app. split; [exact Cl|]. constructor; [|constructor]. eapply found_clean; eassumption. }
        destruct (iterate_going _ _ _ _ Hs _ _ _ _ _ _ _ Ho G E (ex_intro _ [] (eq_sym (app_nil_r _))) Cl1) as (c1 & ts1 & G1). exact (IH _ _ _ _ G1 H Cl1).
      + destruct P as (-> & -> & _). inv_ok H. subst st'. exact Cl.
  Qed.
End Clean.
Lemma step_clean ord s d s' : good_order ord -> step ord s (Fin d) = Ok s' -> n_lt (n_abs (Fin d)) EPSILON = false ->
  sound_start s d -> plain s -> Forall (clean s) (s_records s').
Proof.
  intros Ho H Hd St Pl. destruct (step_going _ _ _ _ H Hd St) as (s1 & infos & st & w0 & P1 & P2 & P3 & P4 & P6 & P7 & G & _).
  rewrite P4. eapply iterations_clean; [exact P7|exact Pl|exact Ho|exact G|exact P2|constructor].
Qed.
