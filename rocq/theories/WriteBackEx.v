(** * WriteBackEx: an entity asleep after three quarters of a turn, in exact arithmetic (C43) *)
From Coq Require Import ZArith Reals Lra Psatz Bool List Permutation Lia.
Import ListNotations.
From Verif Require Import Num Vec Res Arena RangeM Orient Colliders Collide EntityM SystemM OrderP Spec PanicSpec Examples ResP ArenaP FrameP StoreP Store2P ExecP StepP Step2P Step3P NoPanicP ValidP RangeP
  RealSpec RealV OrientP Orient2P GeomP Geom4P PhysSpec PhysP Phys2P Phys3P Phys4P MassP Mass2P Mass3P Mass4P WriteBackP PlaceP PassP RealEx TwoEx SpinP WriteBack2P.
Local Open Scope R_scope.

(** A point of mass 1 at rest, turned by three quarters of a turn; entities fall asleep at once. *)
Definition three_quarters : V := mkV 0 0 (3 * (PI / 2)).
Definition tilted : Q := rexp three_quarters.
Definition tilt : orientation R := mkO (mkV 0 0 0) tilted (mkV 0 0 0).
Definition dreamer : entity ER :=
  mkPE (vfin (mkV 0 0 0)) (vfin three_quarters) (vfin (mkV 0 0 0)) (vfin (mkV 0 0 0)) [] (Fin 1) (ofin (mkO (mkV 0 0 0) (mkQ 0 0 0 1) (mkV 0 0 0))) (Fin 0) mzero false.
Definition dream_in : ientity ER := mkE (ofin tilt) (Fin 1) (Fin 1) mzero (vfin (mkV 0 0 0)) (vfin (mkV 0 0 0)) [] false (Fin 0) false [].
Definition dream_hist : list (call ER) := [(in_order, OAddEntity dreamer); (in_order, OSetTimeThr (Fin 0))].
Definition dream : system ER := mkS (one dream_in) anew anew 5 [] (n_frac 1 1000) (Fin 0) [].
Lemma dream_len : vlen (vscale three_quarters (/ 2)) = 3 * (PI / 4).
Proof.
  unfold vlen, three_quarters. replace (vdot _ _) with ((3 * (PI / 4)) * (3 * (PI / 4))) by (vunfold; field). apply sqrt_square. pose proof PI_RGT_0. lra.
Qed.
Lemma tilted_is : tilted = mkQ 0 0 (sqrt 2 / 2) (- (sqrt 2 / 2)) .
Proof.
  unfold tilted, rexp. cbv zeta. rewrite dream_len. pose proof PI_RGT_0 as P. pose proof PI2_3_2 as P2. assert (T : tiny = / 8388608) by (unfold tiny; f_equal; cbn; lra). rewrite T.
  destruct (Rle_dec _ _) as [L|L].
  - exfalso. revert L. replace (vdot (vscale three_quarters (/ 2)) (vscale three_quarters (/ 2))) with ((3 * (PI / 4)) * (3 * (PI / 4))) by (unfold three_quarters; vunfold; field). nra.
  - assert (S : sin (3 * (PI / 4)) = sqrt 2 / 2 /\ cos (3 * (PI / 4)) = - (sqrt 2 / 2)).
    { replace (3 * (PI / 4)) with (PI / 2 + PI / 4) by field. assert (S2 : sqrt 2 * sqrt 2 = 2) by (apply sqrt_sqrt; lra). assert (N2 : sqrt 2 <> 0) by (intros Z; rewrite Z in S2; lra).
      rewrite sin_plus, cos_plus, sin_PI2, cos_PI2, sin_PI4, cos_PI4. assert (X : 1 / sqrt 2 = sqrt 2 / 2) by (field_simplify_eq; [nra|exact N2]). rewrite X. split; ring. }
    destruct S as (-> & ->). unfold three_quarters, vscale. cbn [vx vy vz]. unfold n_mul. cbn.
    f_equal; field; lra.
Qed.
Lemma tilted_unit : unit_quat tilted.
Proof. exact (rexp_unit _). Qed.
Lemma tilted_down : qw tilted < 0.
Proof. rewrite tilted_is. cbn [qw]. assert (0 < sqrt 2) by (apply sqrt_lt_R0; lra). lra. Qed.
Lemma tilted_turned : turned tilted.
Proof.
  right. rewrite tilted_is. unfold vlen, qvec. cbn [qi qj qk]. assert (S2 : sqrt 2 * sqrt 2 = 2) by (apply sqrt_sqrt; lra).
  replace (vdot (mkV 0 0 (sqrt 2 / 2)) (mkV 0 0 (sqrt 2 / 2))) with (1 / 2) by (vunfold; nra).
  assert (T : tiny = / 8388608) by (unfold tiny; f_equal; cbn; lra). rewrite T. apply Rlt_le_trans with (sqrt ((1 / 2) * (1 / 2))); [rewrite sqrt_square; lra|apply sqrt_le_1; lra].
Qed.
Lemma dream_new : entity_new_from dreamer = Some dream_in.
Proof.
  unfold entity_new_from, dreamer. cbn [pe_own_mass]. rewrite fin_0. change (@n_lt ER EReal) with er_lt. rewrite (proj2 (er_lt_fin_f _ _)) by lra.
  unfold make_orientation. cbn [pe_pos pe_rot pe_last_orient pe_vel pe_angvel ofin o_off]. rewrite orient_new_fin. exact eq_refl.
Qed.
Lemma dream_run : run dream_hist system_new = Ok (dream, [AHandle (Some (hd 0)); AUnit]).
Proof.
  unfold dream_hist, run. cbn [exec]. unfold add_entity. rewrite dream_new. exact eq_refl.
Qed.
Lemma dream_ok : Forall call_ok dream_hist.
Proof. repeat constructor; try apply in_order_good. Qed.
Lemma dream_reachable : reachable dream.
Proof. exists dream_hist, [AHandle (Some (hd 0)); AUnit]. split; [exact dream_ok|exact dream_run]. Qed.
Lemma dream_ent h e : aget (s_ents dream) h = Some e -> h = hd 0 /\ e = dream_in.
Proof.
  intros H. assert (I : In h (ahandles (s_ents dream))) by (apply ahandles_in; congruence).
  change (In h [hd 0]) in I. destruct I as [<-|[]]. split; [exact eq_refl|]. injection H as <-. exact eq_refl.
Qed.
Lemma dream_steps : exists s', step in_order dream (Fin 1) = Ok s'.
Proof.
  destruct (careful_returns in_order dream (OStep (Fin 1))) as (s' & a & E & _).
  - split; [apply in_order_good|exact Logic.I].
  - apply dream_reachable.
  - intros h k (e & He & Hk). exfalso. apply dream_ent in He. destruct He as (-> & ->). destruct Hk.
  - intros gh g H. exfalso. unfold get_generator in H. assert (I : In gh (ahandles (s_gens dream))) by (apply ahandles_in; intros X; rewrite X in H; discriminate). destruct I.
  - apply careful_callb_ok. exact eq_refl.
  - unfold exec in E. inv_ok E. eexists. exact E0.
Qed.
Lemma one_sec : n_lt (n_abs (Fin 1)) EPSILON = false.
Proof. change (n_abs (Fin 1)) with (Fin (Rabs 1)). change (EPSILON : ER) with (Fin (1 / 1000000)). change (@n_lt ER EReal) with er_lt. apply er_lt_fin_f. rewrite Rabs_R1. lra. Qed.
Lemma dream_silent s' : step in_order dream (Fin 1) = Ok s' -> s_records s' = [].
Proof.
  intros H. destruct (s_records s') as [|r l] eqn:E; [exact eq_refl|]. exfalso.
  destruct (step_records_name in_order _ (Fin 1) s' r in_order_good H one_sec) as (Ne & A & B & _); [rewrite E; now left|].
  assert (K : forall h, alive KEntity s' h -> h = hd 0).
  { intros h Ha. apply (SpinP.step_keeps _ _ _ _ H) in Ha. apply live_handles in Ha. change (In h [hd 0]) in Ha. destruct Ha as [<-|[]]. exact eq_refl. }
  apply Ne. rewrite (K _ A), (K _ B). exact eq_refl.
Qed.
Lemma still_energy (e : ientity ER) : e_total_mass e = Fin 1 -> e_prep_moi e = mzero -> (exists o, e_orient e = ofin o) -> e_vel e = vfin (mkV 0 0 0) -> e_angvel e = vfin (mkV 0 0 0) -> get_total_energy e = Fin 0.
Proof.
  intros E1 E2 (o & E3) E4 E5. unfold get_total_energy. rewrite E1. change (n_isinf (Fin 1)) with false. cbv iota zeta.
  rewrite E4, E5, vfin_scale, vfin_dot, fin_2. 
  assert (G : exists t, get_moment e = mfin t).
  { unfold get_moment. rewrite E2, E3. replace (@mzero ER EReal) with (mfin (mkM 0 0 0 0 0 0 0 0 0)) by (unfold mzero, mfin; rewrite fin_0; exact eq_refl).
    unfold finalize_moment. cbn [ofin o_rot]. rewrite rotate_fin. eexists. exact eq_refl. }
  destruct G as (t & G). rewrite G, mfin_mulmv, vfin_dot, !fin_div, fin_add by lra. f_equal. set (u := mulmv t _). clearbody u. destruct u. vunfold. field.
Qed.

Definition none : M := mkM 0 0 0 0 0 0 0 0 0.
Lemma none_fin : (mzero : Mat3 ER) = mfin none.
Proof. unfold mzero, mfin, none. rewrite fin_0. exact eq_refl. Qed.
Lemma dream_rigid : rigid (make_pub dream_in) 1 tilt none (mkV 0 0 0) (mkV 0 0 0).
Proof. split; try exact eq_refl; [exact tilted_unit|exact none_fin]. Qed.
Lemma dreaming : exists s' e, step in_order dream (Fin 1) = Ok s' /\ reachable s' /\ get_entity s' (hd 0) = Some e /\ pe_asleep e = true /\ pe_last_orient e = ofin tilt /\
  pe_colliders e = [].
Proof.
  destruct dream_steps as (s' & H). pose proof (dream_silent s' H) as Hr.
  destruct (Step3P.step_free in_order dream (Fin 1) s' in_order_good H one_sec) with (h := hd 0) (e := dream_in) as (fs & e' & (e0 & He0 & F) & He' & X); [discriminate|exact Hr|exact eq_refl|].
  apply dream_ent in He0. destruct He0 as (_ & ->). change (ahandles (s_gens dream)) with (@nil handle) in F.
  assert (Fs : fs = map force_fin []) by (destruct (pushable dream_in); [inversion F; exact eq_refl|exact F]). 
  change (e_asleep dream_in) with false in X. cbv iota in X. destruct X as (fa & ft & a & ns & X).
  assert (Pv : pushed_vel (Fin 1) fs dream_in = vfin (mkV 0 0 0)).
  { rewrite Fs, (pushed_vel_fin dream_in 1 tilt none (mkV 0 0 0) (mkV 0 0 0) [] 1 dream_rigid) by lra. f_equal. unfold vsum. cbn [map fold_right]. apply vext; vunfold; field. }
  assert (Pw : pushed_angvel (Fin 1) fs dream_in = vfin (mkV 0 0 0)).
  { rewrite Fs, (pushed_angvel_fin dream_in 1 tilt none (mkV 0 0 0) (mkV 0 0 0) [] 1 dream_rigid). f_equal. unfold vsum. cbn [map fold_right].
    assert (Z : vscale (mkV 0 0 0) 1 = mkV 0 0 0) by (apply vext; vunfold; ring). rewrite Z. generalize (rinv (rotate_moment none (o_rot tilt))) (rotate_moment none (rexp (rlog (o_rot tilt)))). intros p q. destruct p, q. apply vext; munfold; ring. }
  rewrite Pv, Pw, vfin_scale in X. change (e_orient dream_in) with (ofin tilt) in X. cbn [ofin o_pos o_rot o_off] in X.
  assert (Z : vscale (mkV 0 0 0) 1 = mkV 0 0 0) by (apply vext; vunfold; ring). rewrite Z, exp_fin, rexp_zero in X.
  assert (Eo : e_orient e' = ofin tilt).
  { rewrite X. cbn [e_set_sleep e_set_falling e_set_orient e_orient]. unfold ofin. f_equal.
    - rewrite vfin_add. f_equal. cbn [tilt o_pos]. apply vext; vunfold; ring.
    - assert (G : forall q : Q, qmul (qfin (mkQ 0 0 0 1)) (qfin q) = qfin (qmul (mkQ 0 0 0 1) q)) by (intros q; exact eq_refl). rewrite G. f_equal. destruct (o_rot tilt) as [p q r t]. qunfold. f_equal; ring. }
  assert (En : get_total_energy e' = Fin 0).
  { apply still_energy; [rewrite X; exact eq_refl|rewrite X; exact eq_refl|exists tilt; exact Eo|rewrite X; exact eq_refl|rewrite X; exact eq_refl]. }
  assert (R' : reachable s').
  { eapply follows_trans; [exact dream_reachable|]. eapply (follows_exec in_order _ (OStep (Fin 1))); [split; [apply in_order_good|exact Logic.I]|]. unfold exec. rewrite H. exact eq_refl. }
  exists s', (make_pub e'). split; [exact H|]. split; [exact R'|]. split; [unfold get_entity; rewrite He'; exact eq_refl|].
  split; [|split; [exact Eo|rewrite X; exact eq_refl]].
  destruct (sleep_period dream_hist dream [AHandle (Some (hd 0)); AUnit] in_order (Fin 1) s' (hd 0) dream_in dream_ok dream_run in_order_good H one_sec eq_refl (or_introl eq_refl)) as (_ & Q).
  cbn [make_pub pe_asleep]. destruct (e_asleep e') eqn:As; [exact eq_refl|]. exfalso.
  assert (In (DSleep (hd 0)) (s_debug s')).
  { apply Q. exists n0. split; [|change (s_time_thr dream) with (Fin 0); rewrite fin_0; change (@n_lt ER EReal) with er_lt; apply er_lt_fin_f; lra].
    assert (C : clock (hd 0) (dream_hist ++ [(in_order, OStep (Fin 1))]) system_new None = clock_step (hd 0) dream (OStep (Fin 1)) s' None).
    { assert (E1 : exec in_order system_new (OAddEntity dreamer) = Ok (s_set_ents system_new (one dream_in), AHandle (Some (hd 0)))) by (unfold exec, add_entity; rewrite dream_new; exact eq_refl).
      assert (E2 : exec in_order (s_set_ents system_new (one dream_in)) (OSetTimeThr (Fin 0)) = Ok (dream, AUnit)) by exact eq_refl.
      assert (E3 : exec in_order dream (OStep (Fin 1)) = Ok (s', AUnit)) by (unfold exec; rewrite H; exact eq_refl).
      unfold dream_hist. cbn [app clock]. rewrite E1, E2, E3. exact eq_refl. }
    rewrite C. unfold clock_step. rewrite one_sec, He', As, En. cbn [andb]. change (s_energy_thr dream) with (Fin (1 / 1000)). change (@n_lt ER EReal) with er_lt.
    rewrite (proj2 (er_lt_fin_f _ _)) by lra. exact eq_refl. }
  destruct (sleep_only_awake in_order dream (Fin 1) s' (hd 0) in_order_good H one_sec H0) as (i & i' & _ & _ & Hi' & Ha & _). congruence.
Qed.
Lemma write_back_wakes : exists s e s', reachable s /\ get_entity s (hd 0) = Some e /\ pe_asleep e = true /\ pe_last_orient e = ofin tilt /\ turned tilted /\ qw tilted < 0 /\ pe_colliders e = [] /\ update_entity in_order s (hd 0) e = Ok (s', true) /\
  ~ asleep s' (hd 0) /\ s' <> s.
Proof.
  destruct dreaming as (s & e & H & R & He & Ha & Eo & Ec).
  assert (P : (exists pt, parts_of s e pt) \/ (exists c k, In c (pe_colliders e) /\ get_collider s c = Some k /\ mass_of k = PInf)).
  { left. exists (fun _ => mkPart 0 (mkV 0 0 0) none). intros c Hc. rewrite Ec in Hc. destruct Hc. }
  assert (O : pe_colliders e <> [] \/ o_off tilt = mkV 0 0 0) by (right; exact eq_refl).
  assert (U : exists s', update_entity in_order s (hd 0) e = Ok (s', true)).
  { destruct (careful_returns in_order dream (OStep (Fin 1))) as (s0 & a & E & K1 & K2).
    - split; [apply in_order_good|exact Logic.I].
    - apply dream_reachable.
    - intros h k (i & Hi & Hk). exfalso. apply dream_ent in Hi. destruct Hi as (-> & ->). destruct Hk.
    - intros gh g Hg. exfalso. unfold get_generator in Hg. assert (I : In gh (ahandles (s_gens dream))) by (apply ahandles_in; intros X; rewrite X in Hg; discriminate). destruct I.
    - apply careful_callb_ok. exact eq_refl.
    - assert (s0 = s) as -> by (unfold exec in E; rewrite H in E; cbn [rbind] in E; congruence).
      destruct (careful_returns in_order s (OUpdateEntity (hd 0) e)) as (s1 & a1 & E1 & _); [split; [apply in_order_good|exact Logic.I]|exact R|exact K1|exact K2|apply careful_callb_ok; exact eq_refl|].
      unfold exec in E1. inv_ok E1. destruct x as [s2 b]. exists s2. rewrite E0. now rewrite (back_kept in_order s (hd 0) e R He s2 b E0). }
  destruct U as (s' & U).
  assert (W : ~ asleep s' (hd 0)) by (exact (back_wakes in_order s (hd 0) e tilt in_order_good R He Eo tilted_turned s' true U tilted_down (hd 0) (conn_start _ _))).
  exists s, e, s'. repeat (split; [first [assumption|exact tilted_turned|exact tilted_down]|]). intros ->. apply W. exists e. split; assumption.
Qed.
