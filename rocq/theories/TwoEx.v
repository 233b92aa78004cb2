(** * TwoEx: a reachable system in exact arithmetic: two balls, one rolling towards the other *)
From Coq Require Import ZArith Reals Lra Psatz Bool List Lia.
Import ListNotations.
From Verif Require Import Num Vec Res Arena RangeM Orient Colliders Collide EntityM SystemM OrderP Spec PanicSpec Examples ResP ArenaP FrameP StoreP Store2P ExecP StepP Step2P Step3P NoPanicP RangeP
  RealSpec RealV OrientP Orient2P GeomP ShapeP Geom4P Geom6P PhysSpec PhysP Phys2P Phys3P Phys4P Mass3P Mass4P TraceSpec TraceP EnergyP MomentumP RealEx.
Local Open Scope R_scope.

(** Entities of mass 1 at [p] with the velocity [v]; balls of radius 1 and mass 3 around their centres, elastic and without friction. *)
Definition puck_entity (p v : V) : entity ER :=
  mkPE (vfin p) (vfin (mkV 0 0 0)) (vfin v) (vfin (mkV 0 0 0)) [] (Fin 1)
       (ofin (mkO (mkV 0 0 0) (mkQ 0 0 0 1) (mkV 0 0 0))) (Fin 0) mzero false.
Definition puck_inside (p v : V) : ientity ER :=
  mkE (ofin (mkO p (mkQ 0 0 0 1) (mkV 0 0 0))) (Fin 1) (Fin 1) mzero (vfin v) (vfin (mkV 0 0 0)) [] false (Fin 0) false [].
Definition slick : material ER := mkMat (Fin 1) (Fin 0) (Fin 0) (Fin 0).
Definition puck_sphere (owner : option handle) : sphere_c ER := mkSphere owner (vfin (mkV 0 0 0)) (Fin 1) (Fin 3) slick.
Definition puck (owner : option handle) : collider ER := CSphere (puck_sphere owner).
Definition puck_tensor : M := mkM (6 / 5) 0 0 0 (6 / 5) 0 0 0 (6 / 5).
Definition puck_part : part := mkPart 3 (mkV 0 0 0) puck_tensor.
Definition puck_linked (p v : V) (h : handle) : ientity ER :=
  mkE (ofin (mkO p (mkQ 0 0 0 1) (mkV 0 0 0))) (Fin 1) (Fin 4) (mfin puck_tensor) (vfin v) (vfin (mkV 0 0 0)) [h] false (Fin 0) false [].
Lemma puck_entity_in p v : entity_new_from (puck_entity p v) = Some (puck_inside p v).
Proof.
  unfold entity_new_from, puck_entity. cbn [pe_own_mass]. rewrite fin_0. change (@n_lt ER EReal) with er_lt. rewrite (proj2 (er_lt_fin_f _ _)) by lra.
  unfold make_orientation. cbn [pe_pos pe_rot pe_last_orient pe_vel pe_angvel ofin o_off]. rewrite orient_new_fin, rexp_zero. exact eq_refl.
Qed.
Lemma puck_in : collider_new_from (puck None) = Some (puck None).
Proof.
  unfold collider_new_from, puck, puck_sphere. cbn [collider_valid]. unfold sphere_valid, MINIMUM_RADIUS. cbn [sp_radius sp_mass]. rewrite fin_0.
  change (@n_lt ER EReal) with er_lt. change (@n_le ER EReal) with er_le. change (n_frac 1 20) with (Fin (1 / 20)).
  rewrite (proj2 (er_lt_fin _ _)), (proj2 (er_le_fin _ _)) by lra. exact eq_refl.
Qed.
Lemma puck_part_in cols owner h : aget cols h = Some (puck owner) -> part_in cols h puck_part.
Proof.
  intros H. exists (puck owner). split; [exact H|]. split; [exact eq_refl|]. split; [exact eq_refl|].
  unfold puck, puck_sphere, puck_part. cbn [c_moi sp_mass sp_radius p_tensor]. cbv zeta.
  assert (E : n_mul (n_mul (n_div n2 n5) (Fin 3)) (Fin 1) = Fin (6 / 5)).
  { rewrite fin_2. change n5 with (Fin (5 / 1)). rewrite fin_div, !fin_mul by lra. f_equal. field. }
  rewrite E. unfold mdiag. cbn [vx vy vz]. rewrite fin_0. exact eq_refl.
Qed.
Lemma puck_recalc p v h cols owner : aget cols h = Some (puck owner) ->
  recalculate_mass [h] cols (e_set_colliders (puck_inside p v) [h]) = Ok (puck_linked p v h).
Proof.
  intros G. destruct (StoreP.recalc_total [h] cols (e_set_colliders (puck_inside p v) [h])) as (e & He); [intros c [<-|[]]; congruence|]. rewrite He. f_equal.
  assert (Hp : forall c, In c [h] -> part_in cols c ((fun _ => puck_part) c)) by (intros c [<-|[]]; exact (puck_part_in _ _ _ G)).
  assert (U : unit_o (mkO p (mkQ 0 0 0 1) (mkV 0 0 0))) by (unfold unit_o, unit_quat; cbn; ring).
  assert (Eo0 : e_orient (e_set_colliders (puck_inside p v) [h]) = ofin (mkO p (mkQ 0 0 0 1) (mkV 0 0 0))) by exact eq_refl.
  destruct (recalc_finite _ _ _ _ _ _ Eo0 U Hp He) as (o & Eo & Er & Ew & Eoff & _). cbv zeta in Eoff.
  assert (EM : parts_mass (map (fun _ => puck_part) [h]) = 3) by (unfold parts_mass, rsum; cbn; ring).
  assert (Ec : local_moment (map (fun _ => puck_part) [h]) = mkV 0 0 0) by (unfold local_moment, vsum; cbn [map fold_right puck_part p_centre p_mass]; apply vext; vunfold; ring).
  rewrite EM, Ec in Eoff. specialize (Eoff ltac:(lra)).
  assert (Eoff' : o_off o = mkV 0 0 0) by (rewrite Eoff; apply vext; vunfold; field). clear Eoff.
  assert (Uo : unit_o o) by (unfold unit_o; rewrite Er; exact U).
  assert (Epos : o_pos o = p).
  { rewrite <- (world_centre o Uo), Ew, world_form by exact U. rewrite Eoff'. cbn [o_rot o_off o_pos]. destruct p. apply vext; qunfold; field. }
  assert (Eo' : o = mkO p (mkQ 0 0 0 1) (mkV 0 0 0)) by (destruct o as [a b c]; cbn [o_pos o_rot o_off] in *; subst; exact eq_refl). subst o.
  pose proof (recalc_exact _ _ _ _ _ Hp He) as (X & Y). cbv zeta in X. rewrite EM in X. destruct (Rlt_dec 0 3); [|lra]. destruct X as (Em & _).
  specialize (Y (mkV 0 0 0)). rewrite Eo in Y. specialize (Y eq_refl).
  assert (Et : local_inertia (mkV 0 0 0) (map (fun _ : handle => puck_part) [h]) = puck_tensor).
  { unfold local_inertia, local_tensor, puck_part, puck_tensor. cbn [map fold_left p_centre p_mass p_tensor]. apply mext; unfold translate_moment; munfold; cbn; field. }
  rewrite Et in Y. cbn [e_own_mass e_set_colliders puck_inside] in Em. rewrite fin_add in Em. assert (E4 : 1 + 3 = 4) by ring. rewrite E4 in Em.
  assert (Fr : exists o m i, e = e_set_mass (e_set_colliders (puck_inside p v) [h]) o m i).
  { clear - He. unfold recalculate_mass in He. inv_ok He. destruct x as [[fi m] w]. destruct (_ && _); destruct fi; try (apply ok_inj in He; subst e; eauto); inv_ok He; apply ok_inj in He; subst e; eauto. }
  destruct Fr as (a & b & c & ->). cbn [e_set_mass e_orient e_total_mass e_prep_moi] in Eo, Em, Y. rewrite Eo, Em, Y. exact eq_refl.
Qed.

Definition two {A} (x y : A) : arena A := mkA [Occ 0%N x; Occ 0%N y; Free (Some 3%nat); Free None] 0%N (Some 2%nat).
Definition pucks (e1 e2 : ientity ER) (o1 o2 : option handle) : system ER := s_set_cols (s_set_ents system_new (two e1 e2)) (two (puck o1) (puck o2)).
Definition left_at : V := mkV 0 0 0. Definition right_at : V := mkV 3 0 0.
Definition left_vel : V := mkV 1 0 0. Definition right_vel : V := mkV 0 0 0.
Definition table (n : nat) : system ER :=
  let s := pucks (puck_linked left_at left_vel (hd 0)) (puck_linked right_at right_vel (hd 1)) (Some (hd 0)) (Some (hd 1)) in
  mkS (s_ents s) (s_cols s) (s_gens s) n (s_records s) (s_energy_thr s) (s_time_thr s) (s_debug s).
Lemma table_reachable n : reachable (table n).
Proof.
  assert (R1 : reachable (s_set_ents system_new (one (puck_inside left_at left_vel)))).
  { eapply (follows_exec in_order _ (OAddEntity (puck_entity left_at left_vel))); [split; [apply in_order_good|exact Logic.I]|].
    unfold exec, add_entity. rewrite puck_entity_in. exact eq_refl. }
  assert (R2 : reachable (s_set_ents system_new (two (puck_inside left_at left_vel) (puck_inside right_at right_vel)))).
  { eapply follows_trans; [exact R1|]. eapply (follows_exec in_order _ (OAddEntity (puck_entity right_at right_vel))); [split; [apply in_order_good|exact Logic.I]|].
    unfold exec, add_entity. rewrite puck_entity_in. exact eq_refl. }
  assert (R3 : reachable (s_set_cols (s_set_ents system_new (two (puck_inside left_at left_vel) (puck_inside right_at right_vel))) (one (puck None)))).
  { eapply follows_trans; [exact R2|]. eapply (follows_exec in_order _ (OAddCollider (puck None))); [split; [apply in_order_good|exact Logic.I]|].
    unfold exec, add_collider. rewrite puck_in. exact eq_refl. }
  assert (R4 : reachable (pucks (puck_inside left_at left_vel) (puck_inside right_at right_vel) None None)).
  { eapply follows_trans; [exact R3|]. eapply (follows_exec in_order _ (OAddCollider (puck None))); [split; [apply in_order_good|exact Logic.I]|].
    unfold exec, add_collider. rewrite puck_in. exact eq_refl. }
  assert (R5 : reachable (pucks (puck_linked left_at left_vel (hd 0)) (puck_inside right_at right_vel) (Some (hd 0)) None)).
  { eapply follows_trans; [exact R4|]. eapply (follows_exec in_order _ (OLinkCollider (hd 0) (Some (hd 0)))); [split; [apply in_order_good|exact Logic.I]|].
    unfold exec, link_collider. change (aget (s_cols (pucks _ _ None None)) (hd 0)) with (Some (puck None)).
    change (aget (s_ents (pucks (puck_inside left_at left_vel) (puck_inside right_at right_vel) None None)) (hd 0)) with (Some (puck_inside left_at left_vel)). cbv iota beta zeta.
    assert (X : recalculate_mass (in_order KColliders (hd 0) (e_colliders (e_set_colliders (puck_inside left_at left_vel) (hinsert (hd 0) (e_colliders (puck_inside left_at left_vel))))))
      (s_cols (pucks (puck_inside left_at left_vel) (puck_inside right_at right_vel) None None)) (e_set_colliders (puck_inside left_at left_vel) (hinsert (hd 0) (e_colliders (puck_inside left_at left_vel)))) =
      Ok (puck_linked left_at left_vel (hd 0))) by (apply (puck_recalc left_at left_vel (hd 0) _ None); exact eq_refl).
    rewrite X. exact eq_refl. }
  assert (R6 : reachable (pucks (puck_linked left_at left_vel (hd 0)) (puck_linked right_at right_vel (hd 1)) (Some (hd 0)) (Some (hd 1)))).
  { eapply follows_trans; [exact R5|]. eapply (follows_exec in_order _ (OLinkCollider (hd 1) (Some (hd 1)))); [split; [apply in_order_good|exact Logic.I]|].
    unfold exec, link_collider. change (aget (s_cols (pucks _ _ (Some (hd 0)) None)) (hd 1)) with (Some (puck None)).
    change (aget (s_ents (pucks (puck_linked left_at left_vel (hd 0)) (puck_inside right_at right_vel) (Some (hd 0)) None)) (hd 1)) with (Some (puck_inside right_at right_vel)). cbv iota beta zeta.
    assert (X : recalculate_mass (in_order KColliders (hd 1) (e_colliders (e_set_colliders (puck_inside right_at right_vel) (hinsert (hd 1) (e_colliders (puck_inside right_at right_vel))))))
      (s_cols (pucks (puck_linked left_at left_vel (hd 0)) (puck_inside right_at right_vel) (Some (hd 0)) None)) (e_set_colliders (puck_inside right_at right_vel) (hinsert (hd 1) (e_colliders (puck_inside right_at right_vel)))) =
      Ok (puck_linked right_at right_vel (hd 1))) by (apply (puck_recalc right_at right_vel (hd 1) _ None); exact eq_refl).
    rewrite X. exact eq_refl. }
  eapply follows_trans; [exact R6|]. eapply (follows_exec in_order _ (OSetIterationMax n)); [split; [apply in_order_good|exact Logic.I]|]. exact eq_refl.
Qed.

(** ** One step of two seconds *)
Definition puck_mover (p v : V) : mover := mkMover (Fin 4) puck_tensor (mkO p (mkQ 0 0 0 1) (mkV 0 0 0)) v (mkV 0 0 0) true.
Lemma puck_is p v h : inside (puck_linked p v h) (puck_mover p v).
Proof. repeat split. Qed.
Lemma psd_puck : psd puck_tensor.
Proof. split; [repeat split|]. intros [x y z]. unfold puck_tensor. munfold. nra. Qed.
Lemma puck_sound p v : sound_mover (puck_mover p v).
Proof. split; [cbn; lra|]. split; [exact psd_puck|]. unfold unit_o, unit_quat. cbn. ring. Qed.
Lemma puck_invertible : invertible puck_tensor.
Proof. exists (mkM (5 / 6) 0 0 0 (5 / 6) 0 0 0 (5 / 6)). unfold puck_tensor, munit. apply mext; munfold; field. Qed.
Lemma puck_unpushed p v h d : pushed_vel (Fin d) [] (puck_linked p v h) = vfin v /\ pushed_angvel (Fin d) [] (puck_linked p v h) = vfin (mkV 0 0 0).
Proof.
  assert (Z0 : Spec.vsum (T:=ER) [] = vfin (mkV 0 0 0)) by (cbn; unfold vzero; rewrite fin_0; exact eq_refl).
  unfold pushed_vel, pushed_angvel. cbn [map]. rewrite Z0, vfin_scale.
  destruct (inside_body _ _ (puck_is p v h) (puck_sound p v)) as (b & Bb & _). rewrite (body_inverse _ _ Bb), mfin_mulmv.
  assert (Z : vscale (mkV 0 0 0) d = mkV 0 0 0) by (apply vext; vunfold; ring). rewrite Z.
  split; cbn [puck_linked e_vel e_angvel]; rewrite vfin_add; f_equal; [destruct v; apply vext; vunfold; ring|destruct (b_inv b); apply vext; munfold; ring].
Qed.
Lemma no_forces (s : system ER) dt h fs : ahandles (s_gens s) = [] -> forces_on s dt h fs -> fs = [].
Proof. intros G (e & _ & F). rewrite G in F. destruct (pushable e); [inversion F; exact eq_refl|exact F]. Qed.
Lemma puck_flight p v t : after_affected (ofin (mkO p (mkQ 0 0 0 1) (mkV 0 0 0))) (vscale (vfin v) (Fin t)) (vscale (vfin (mkV 0 0 0)) (Fin t)) =
  ofin (mkO (vadd p (vscale v t)) (mkQ 0 0 0 1) (mkV 0 0 0)).
Proof.
  rewrite !vfin_scale, affected_fin. cbn [o_pos o_rot o_off]. assert (Z : vscale (mkV 0 0 0) t = mkV 0 0 0) by (apply vext; vunfold; ring). rewrite Z, rexp_zero.
  assert (Q1 : qmul (mkQ 0 0 0 1) (mkQ 0 0 0 1) = mkQ 0 0 0 1) by (unfold qmul; cbn; f_equal; ring). now rewrite Q1.
Qed.
Lemma pucks_collide o1 o2 : exists k,
  collide (puck o1) (ofin (mkO left_at (mkQ 0 0 0 1) (mkV 0 0 0))) (ofin (mkO (vadd left_at (vscale left_vel 2)) (mkQ 0 0 0 1) (mkV 0 0 0)))
          (puck o2) (ofin (mkO right_at (mkQ 0 0 0 1) (mkV 0 0 0))) (ofin (mkO (vadd right_at (vscale right_vel 2)) (mkQ 0 0 0 1) (mkV 0 0 0))) = Ok (Some k) /\
  c_time k = Fin (1 / 2) /\ c_pos k = vfin (mkV 2 0 0) /\ c_normal k = vfin (mkV 1 0 0).
Proof.
  assert (W : forall p : V, position_into_world (mkO p (mkQ 0 0 0 1) (mkV 0 0 0)) (mkV 0 0 0) = p).
  { intros p. rewrite world_form by (unfold unit_o, unit_quat; cbn; ring). cbn [o_rot o_off o_pos]. destruct p. apply vext; qunfold; field. }
  unfold puck. rewrite (collide_spheres_eq (puck_sphere o1) (puck_sphere o2) (mkV 0 0 0) (mkV 0 0 0) 1 1) by exact eq_refl. rewrite !W.
  set (w := left_at). set (w' := vadd left_at (vscale left_vel 2)). set (u := right_at). set (u' := vadd right_at (vscale right_vel 2)).
  pose proof (sphere_sphere 1 w (vsub w' w) 1 u (vsub u' u) ltac:(lra) ltac:(lra) ltac:(lra)) as S.
  specialize (S ltac:(unfold w, w', u, u', left_at, right_at, left_vel, right_vel; vunfold; lra) ltac:(unfold w, w', u, u', left_at, right_at, left_vel, right_vel, crossing; vunfold; lra)). cbv zeta in S.
  assert (T0 : forall t, (exists x, within x (vadd w (vscale (vsub w' w) t)) 1 /\ within x (vadd u (vscale (vsub u' u) t)) 1) <-> (2 * t - 3) * (2 * t - 3) <= 4).
  { intros t. rewrite balls_touch by lra. unfold w, w', u, u', left_at, right_at, left_vel, right_vel. vunfold; lra. }
  destruct (collide_sphere_with_sphere _ _ _ _ _ _) as [k|] eqn:E.
  2: { exfalso. apply (S (1 / 2)); [lra|]. apply T0. lra. }
  exists k. split; auto. destruct S as (t & x & Et & F & Ex & _).
  assert (T : t = 1 / 2).
  { destruct F as (Ft & F1 & F2). apply Rle_antisym.
    - apply F2; [lra|]. apply T0. lra.
    - apply T0 in F1. nra. }
  subst t. split; auto. apply sphere_sphere_normal in E; [|lra]. destruct E as (t' & x' & Et' & _ & Ex' & Xe & En).
  assert (t' = 1 / 2) as -> by congruence. assert (X : x' = mkV 2 0 0).
  { rewrite Xe. unfold mid, w, w', u, u', left_at, right_at, left_vel, right_vel. apply vext; vunfold; field. }
  subst x'. split; [rewrite X in Ex'; exact Ex'|]. rewrite X in En. rewrite En, vnormalize_fin.
  - f_equal. unfold vunit. unfold w, left_at. assert (L : vlen (vsub (mkV 2 0 0) (mkV 0 0 0)) = 2).
    { unfold vlen. replace (vdot (vsub (mkV 2 0 0) (mkV 0 0 0)) (vsub (mkV 2 0 0) (mkV 0 0 0))) with (2 * 2) by (vunfold; ring). apply sqrt_square. lra. }
    unfold vlen in L. rewrite L. apply vext; vunfold; field.
  - unfold w, left_at. intros Z. apply (f_equal vx) in Z. revert Z. vunfold. lra.
Qed.

Lemma table_ent n h e : aget (s_ents (table n)) h = Some e ->
  (h = hd 0 /\ e = puck_linked left_at left_vel (hd 0)) \/ (h = hd 1 /\ e = puck_linked right_at right_vel (hd 1)).
Proof.
  intros H. assert (I : In h (ahandles (s_ents (table n)))) by (apply ahandles_in; congruence).
  change (In h [hd 0; hd 1]) in I. destruct I as [<-|[<-|[]]]; [left|right]; split; try exact eq_refl; injection H as <-; exact eq_refl.
Qed.
Lemma table_col n h c : get_collider (table n) h = Some c -> c_mat c = slick.
Proof.
  intros H. assert (I : In h (ahandles (s_cols (table n)))) by (apply ahandles_in; unfold get_collider in H; congruence).
  change (In h [hd 0; hd 1]) in I. destruct I as [<-|[<-|[]]]; injection H as <-; exact eq_refl.
Qed.
Lemma table_steps n d : exists s', step in_order (table n) (Fin d) = Ok s'.
Proof.
  destruct (careful_returns in_order (table n) (OStep (Fin d))) as (s' & a & E & _).
  - split; [apply in_order_good|exact Logic.I].
  - apply table_reachable.
  - intros h k (e & He & Hk). exfalso. apply table_ent in He. destruct He as [(-> & ->)|(-> & ->)]; destruct Hk.
  - intros gh g H. exfalso. unfold get_generator in H. assert (I : In gh (ahandles (s_gens (table n)))) by (apply ahandles_in; intros X; rewrite X in H; discriminate). destruct I.
  - apply careful_callb_ok. exact eq_refl.
  - unfold exec in E. inv_ok E. eexists. exact E0.
Qed.
Lemma not_tiny d : 1 / 1000000 <= d -> n_lt (n_abs (Fin d)) EPSILON = false.
Proof.
  intros H. rewrite eps_fin. change (@n_lt ER EReal) with er_lt. change (n_abs (Fin d)) with (Fin (Rabs d)). rewrite Rabs_pos_eq by lra. apply er_lt_fin_f. lra.
Qed.
Definition hit : crecord ER -> Prop := fun r => cr_first r = hd 0 /\ cr_second r = hd 1 /\ cr_time r = Fin 1 /\ cr_pos r = vfin (mkV 2 0 0) /\ cr_normal r = vfin (mkV 1 0 0) /\ cr_rest r = Fin 1.
Lemma table_hits s' : step in_order (table 1) (Fin 2) = Ok s' -> exists r, s_records s' = [r] /\ hit r.
Proof.
  intros H. destruct (step_phases _ _ _ _ H (not_tiny 2 ltac:(lra))) as (s1 & infos & st & P1 & P2 & P3 & P4 & P5 & P6 & P7). cbv zeta in P1.
  pose proof (integrate_spec _ _ _ P1) as (_ & _ & Q3 & Q4). cbn [fst snd s_ents s_gens] in *.
  assert (E0 : aget (s_ents s1) (hd 0) = Some (puck_linked left_at left_vel (hd 0))).
  { destruct (Q3 (hd 0) _ eq_refl) as (fs & F & G). apply no_forces in F; [|exact eq_refl]. subst fs. rewrite G. destruct (puck_unpushed left_at left_vel (hd 0) 2) as (A & B).
    change (Some (e_set_vels (puck_linked left_at left_vel (hd 0)) (pushed_vel (Fin 2) [] (puck_linked left_at left_vel (hd 0))) (pushed_angvel (Fin 2) [] (puck_linked left_at left_vel (hd 0)))) = Some (puck_linked left_at left_vel (hd 0))).
    rewrite A, B. exact eq_refl. }
  assert (E1 : aget (s_ents s1) (hd 1) = Some (puck_linked right_at right_vel (hd 1))).
  { destruct (Q3 (hd 1) _ eq_refl) as (fs & F & G). apply no_forces in F; [|exact eq_refl]. subst fs. rewrite G. destruct (puck_unpushed right_at right_vel (hd 1) 2) as (A & B).
    change (Some (e_set_vels (puck_linked right_at right_vel (hd 1)) (pushed_vel (Fin 2) [] (puck_linked right_at right_vel (hd 1))) (pushed_angvel (Fin 2) [] (puck_linked right_at right_vel (hd 1)))) = Some (puck_linked right_at right_vel (hd 1))).
    rewrite A, B. exact eq_refl. }
  assert (Hs : map i_h infos = [hd 0; hd 1]).
  { rewrite P6. destruct P7 as (_ & Hh & _). rewrite Hh. exact eq_refl. }
  destruct infos as [|i0 [|i1 [|i2 infos]]]; try discriminate. cbn [map] in Hs. injection Hs as H0 H1.
  destruct (Q4 i0 (or_introl eq_refl)) as (x0 & X0 & L0 & A0 & _). destruct (Q4 i1 (or_intror (or_introl eq_refl))) as (x1 & X1 & L1 & A1 & _).
  rewrite H0, E0 in X0. injection X0 as <-. rewrite H1, E1 in X1. injection X1 as <-.
  destruct (pucks_collide (Some (hd 0)) (Some (hd 1))) as (k & K & Kt & Kp & Kn).
  set (st0 := mkL _ _ _ _ _ _) in P2. change (s_iteration_max (table 1)) with 1%nat in P2. cbn [iterations] in P2. inv_ok P2. destruct x as [st1 fin]. cbn [fst snd] in P2.
  assert (Col : forall z, collide (puck (Some (hd 0))) (e_orient (puck_linked left_at left_vel (hd 0))) (after_affected (e_orient (puck_linked left_at left_vel (hd 0))) (i_lin i0) (i_ang i0))
     (puck (Some (hd 1))) (e_orient (puck_linked right_at right_vel (hd 1))) (after_affected (e_orient (puck_linked right_at right_vel (hd 1))) (i_lin i1) (i_ang i1)) = Ok (Some z) <-> z = k).
  { intros z. rewrite L0, A0, L1, A1. cbn [puck_linked e_orient e_vel e_angvel]. rewrite !puck_flight, K. split; [intros X; apply ok_inj in X; congruence|intros ->; exact eq_refl]. }
  assert (Mt : meets (s_cols (table 1)) (l_ents st0) i0 i1 (hd 0) (hd 1) k).
  { exists (puck_linked left_at left_vel (hd 0)), (puck_linked right_at right_vel (hd 1)), (puck (Some (hd 0))), (puck (Some (hd 1))).
    unfold st0. cbn [l_ents]. rewrite H0, H1. split; [exact E0|]. split; [exact E1|]. split; [intros []|]. split; [intros []|]. split; [left; exact eq_refl|]. split; [left; exact eq_refl|].
    split; [exact eq_refl|]. split; [exact eq_refl|]. split; [now apply Col|].
    rewrite Kp, Kn. unfold velocity_at. cbn [puck_linked e_orient e_vel e_angvel ofin o_pos]. rewrite !vfin_sub, !vfin_cross, !vfin_add, vfin_sub, vfin_dot, eps_fin.
    change (@n_lt ER EReal) with er_lt. apply er_lt_fin_f. unfold left_vel, right_vel, left_at, right_at. vunfold. lra. }
  pose proof (iterate_earliest _ _ _ _ _ _ in_order_good E) as W. destruct fin.
  - exfalso. destruct W as (_ & W). specialize (W 0%nat 1%nat i0 i1 (hd 0) (hd 1) k ltac:(lia) eq_refl eq_refl Mt). rewrite Kt, fin_1 in W. change (@n_lt ER EReal) with er_lt in W. apply er_lt_fin_f in W. lra.
  - destruct W as (x & y & j1 & j2 & k1 & k2 & c & Lt & J1 & J2 & M & _ & (rest & im & Rr) & _).
    inv_ok P2. subst st. cbn [l_records] in P4. rewrite P4, Rr. cbn [app st0 l_records].
    assert (Rest : forall r, In r (s_records s') -> cr_rest r = Fin 1).
    { intros r Hr. destruct (step_records_name in_order (table 1) (Fin 2) s' r in_order_good H (not_tiny 2 ltac:(lra)) Hr) as (_ & _ & _ & k3 & k4 & c3 & c4 & _ & _ & C3 & C4 & Z).
      pose proof (step_frame _ _ _ _ H) as (_ & Fc & _). unfold get_collider in C3, C4. rewrite Fc in C3, C4. rewrite Z, (table_col 1 k3 c3 C3), (table_col 1 k4 c4 C4). cbn [mt_rest slick]. rewrite fin_mul. f_equal. lra. }
    rewrite P4, Rr in Rest. cbn [app st0 l_records] in Rest.
    unfold st0 in J1, J2. cbn [l_infos] in J1, J2.
    assert (y < 2)%nat by (assert (X : nth_error [i0; i1] y <> None) by congruence; apply nth_error_Some in X; exact X).
    assert (x = 0)%nat by lia. assert (y = 1)%nat by lia. subst x y. injection J1 as <-. injection J2 as <-.
    destruct M as (e1 & e2 & c1 & c2 & M1 & M2 & _ & _ & M3 & M4 & M5 & M6 & M7 & _). unfold st0 in M1, M2. cbn [l_ents] in M1, M2. rewrite H0 in M1. rewrite H1 in M2.
    rewrite E0 in M1. rewrite E1 in M2. injection M1 as <-. injection M2 as <-. destruct M3 as [<-|[]]. destruct M4 as [<-|[]].
    injection M5 as <-. injection M6 as <-. apply Col in M7. subst c.
    eexists. split; [exact eq_refl|]. unfold hit. cbn [cr_first cr_second cr_time cr_pos cr_normal cr_rest]. split; [exact H0|]. split; [exact H1|]. 
    split; [|split; [exact Kp|split; [exact Kn|]]].
    + unfold st0. cbn [l_ctp]. rewrite Kt, fin_0, fin_1, fin_sub, fin_mul, fin_add, fin_mul. f_equal. field.
    + exact (Rest _ (or_introl eq_refl)).
Qed.

(** The hypotheses of C63 and C64 for the table. *)
Lemma table_sound n d : sound_start (table n) d.
Proof.
  intros h e fs He F. apply no_forces in F; [|exact eq_refl]. subst fs.
  assert (G : forall p v k, exists m, starts_with d (puck_linked p v k) [] m /\ sound_mover m).
  { intros p v k. exists (puck_mover p v). split; [|apply puck_sound]. destruct (puck_unpushed p v k d) as (A & B).
    split; [exact eq_refl|]. split; [exact eq_refl|]. split; [exact eq_refl|]. split; [exact A|]. split; [exact B|exact eq_refl]. }
  apply table_ent in He. destruct He as [(_ & ->)|(_ & ->)]; apply G.
Qed.
Lemma table_clean s' : step in_order (table 1) (Fin 2) = Ok s' -> length (s_records s') = 1%nat /\ Forall (clean (table 1)) (s_records s').
Proof.
  intros H. destruct (table_hits _ H) as (r & -> & R1 & R2 & R3 & R4 & R5 & R6). split; [exact eq_refl|]. constructor; [|constructor].
  split; [eexists; exact R4|]. split; [eexists; split; [exact R5|vunfold; ring]|]. split; [eexists; exact R6|].
  eexists (hd 0), _. split; [exists r; split; [now left|left; now rewrite R1]|]. split; [exact eq_refl|]. discriminate.
Qed.
Definition table_movers (h : handle) : mover := if heqb h (hd 0) then puck_mover left_at left_vel else puck_mover right_at right_vel.
Lemma table_movers_ok n h : get_entity (table n) h <> None ->
  stored_as (table n) h (table_movers h) /\ sound_mover (table_movers h) /\ ordinary_mover (table_movers h).
Proof.
  intros H. rewrite get_entity_none in H. destruct (aget (s_ents (table n)) h) as [e|] eqn:E; [|congruence].
  apply table_ent in E. destruct E as [(-> & _)|(-> & _)]; (split; [eexists; split; [exact eq_refl|]; repeat split|]; split; [apply puck_sound|left; exact puck_invertible]).
Qed.
Lemma table_slippery n : slippery (table n).
Proof. intros c k H. apply table_col in H. rewrite H. split; exact eq_refl. Qed.
Lemma table_elastic n : elastic (table n).
Proof. intros c k H. apply table_col in H. rewrite H. exact eq_refl. Qed.
Lemma table_lossy n : lossy (table n).
Proof. intros c k H. exists 1. rewrite (table_elastic n c k H). split; [exact eq_refl|lra]. Qed.
Lemma table_energy n : total_energy (ahandles (s_ents (table n))) table_movers = 2.
Proof.
  change (ahandles (s_ents (table n))) with [hd 0; hd 1]. unfold total_energy. cbn [map]. unfold table_movers.
  change (heqb (hd 0) (hd 0)) with true. change (heqb (hd 1) (hd 0)) with false. cbv iota.
  unfold mover_energy, puck_mover, left_vel, right_vel, puck_tensor. cbn [mv_mass mv_vel mv_spin mv_o mv_tensor o_rot].
  unfold rsum. cbn [fold_right]. assert (Z : forall q, qrot q (mkV 0 0 0) = mkV 0 0 0) by (intros [a b c d]; apply vext; qunfold; ring). rewrite Z. munfold. vunfold. lra.
Qed.

(** After the step the balls have exchanged their velocities. *)
Lemma table_forces n d : forces_finite (table n) d.
Proof. intros h fs f F Hf. apply no_forces in F; [|exact eq_refl]. subst fs. destruct Hf. Qed.
Lemma table_moving n : all_moving (table n).
Proof. intros h e He. apply table_ent in He. destruct He as [(_ & ->)|(_ & ->)]; split; try discriminate; exact eq_refl. Qed.
Lemma puck_starts n d p v k m : aget (s_ents (table n)) k = Some (puck_linked p v k) -> starts_as (table n) d k m -> m = puck_mover p v.
Proof.
  intros G (e & fs & He & F & Q). rewrite G in He. injection He as <-. apply no_forces in F; [|exact eq_refl]. subst fs.
  refine (starts_unique d (puck_linked p v k) [] m (puck_mover p v) Q _). destruct (puck_unpushed p v k d) as (A & B).
  split; [exact eq_refl|]. split; [exact eq_refl|]. split; [exact eq_refl|]. split; [exact A|]. split; [exact B|exact eq_refl].
Qed.
Lemma table_exchanged s' : step in_order (table 1) (Fin 2) = Ok s' ->
  (exists e, get_entity s' (hd 0) = Some e /\ pe_vel e = vfin (mkV 0 0 0)) /\ (exists e, get_entity s' (hd 1) = Some e /\ pe_vel e = vfin (mkV 1 0 0)).
Proof.
  intros H. destruct (table_hits _ H) as (r & Er & R1 & R2 & R3 & R4 & R5 & R6). destruct (table_clean _ H) as (_ & Cl).
  destruct (step_trace _ _ _ _ in_order_good H (not_tiny 2 ltac:(lra)) (table_sound 1 2) Cl) as (w0 & w & t & ts & S0 & Tr & En & _).
  assert (N0 : get_entity (table 1) (hd 0) <> None) by discriminate. assert (N1 : get_entity (table 1) (hd 1) <> None) by discriminate.
  pose proof (En _ N0) as En0. pose proof (En _ N1) as En1. rewrite Er in En0, En1, Tr. change (Nat.eqb (length [r]) (s_iteration_max (table 1))) with true in En0, En1. cbv iota in En0, En1.
  pose proof (puck_starts 1 2 left_at left_vel (hd 0) (w0 (hd 0)) eq_refl (proj1 (S0 _ N0))) as W0. pose proof (puck_starts 1 2 right_at right_vel (hd 1) (w0 (hd 1)) eq_refl (proj1 (S0 _ N1))) as W1.
  inversion Tr as [|rs tsa wa ta r' w1 w2 t' ts' p n q1 q2 rest stat dyn thr k b1 b2 c1 c2 Tra _ _ Ne Et Ep Enn Un Erest Ei Jo _ _ Gl Wk B1 B2 Im X1 X2 Xo _ _ Xr Xts Xw Xt]; subst.
  assert (rs = [] /\ r' = r) as (-> & ->). { destruct rs as [|z rs]; [injection Xr as ->; auto|]. exfalso. apply (f_equal (@length _)) in Xr. cbn in Xr. rewrite app_length in Xr. cbn in Xr. lia. }
  assert (Z : wa = w0 /\ ta = 0). { inversion Tra as [|rs0]; [auto|]. exfalso. match goal with Q : _ ++ [_] = [] |- _ => symmetry in Q; apply app_cons_not_nil in Q; exact Q end. } destruct Z as (-> & ->).
  rewrite R1 in *. rewrite R2 in *. rewrite R3 in Et. rewrite R4 in Ep. rewrite R5 in Enn. rewrite R6 in Erest. apply fin_eq in Et. apply vfin_inj in Ep. apply vfin_inj in Enn. apply fin_eq in Erest. subst t p n rest.
  assert (G0 := Gl _ N0). assert (G1 := Gl _ N1). rewrite W0 in G0. rewrite W1 in G1.
  assert (Gp : forall pp vv m, glides (puck_mover pp vv) (1 - 0) m -> mv_mass m = Fin 4 /\ mv_vel m = vv /\ mv_spin m = mkV 0 0 0 /\ mv_awake m = true /\ o_pos (mv_o m) = vadd pp vv /\ sound_mover m).
  { intros pp vv m Gm. pose proof (glides_sound _ _ _ (puck_sound pp vv) Gm) as Sm. destruct Gm as (A & _ & B & C & _ & D & E). specialize (D eq_refl). rewrite D in E. destruct E as (E & _). cbn [puck_mover mv_mass mv_vel mv_spin mv_o o_pos] in *.
    split; [exact A|]. split; [exact B|]. split; [exact C|]. split; [exact D|]. split; [|exact Sm]. rewrite E. destruct pp, vv. apply vext; vunfold; ring. }
  destruct (Gp _ _ _ G0) as (M0 & V0 & P0 & A0 & O0 & Sm0). destruct (Gp _ _ _ G1) as (M1 & V1 & P1 & A1 & O1 & Sm1).
  assert (Jf : stat = Fin 0 /\ dyn = Fin 0).
  { destruct Jo as (k1 & k2 & x1 & x2 & _ & _ & _ & _ & Z1 & Z2 & _ & -> & -> & _). rewrite (table_col _ _ _ Z1), (table_col _ _ _ Z2). cbn [slick mt_stat mt_dyn]. rewrite fin_mul. split; f_equal; ring. } destruct Jf as (-> & ->).
  pose proof (body_sound _ _ Sm0 B1) as Sb1. pose proof (body_sound _ _ Sm1 B2) as Sb2.
  destruct (impact_slippery _ _ _ _ _ _ _ _ _ Sb1 Sb2 Im) as (C1 & C2 & Re). destruct B1 as (Q1 & _ & Q2 & Q3 & Q4). destruct B2 as (T1 & _ & T2 & T3 & T4).
  rewrite M0 in Q1. rewrite O0 in Q2. rewrite V0 in Q3. rewrite P0 in Q4. rewrite M1 in T1. rewrite O1 in T2. rewrite V1 in T3. rewrite P1 in T4.
  assert (Sp : forall b x v j, b_mass b = Fin 4 -> b_pos b = x -> b_vel b = v -> b_spin b = mkV 0 0 0 -> vcross (vsub (mkV 2 0 0) x) j = mkV 0 0 0 ->
     b_vel (pushed b (mkV 2 0 0) j) = vadd v (vscale j (1 / 4)) /\ speed_at (pushed b (mkV 2 0 0) j) (mkV 2 0 0) = vadd v (vscale j (1 / 4)) /\ speed_at b (mkV 2 0 0) = v).
  { intros b x v j Bm Bx Bv Bs Hc. assert (E1 : b_vel (pushed b (mkV 2 0 0) j) = vadd v (vscale j (1 / 4))).
    { unfold pushed. cbn [b_vel]. rewrite Bm, Bv. cbn [inv_mass]. destruct v, j. apply vext; vunfold; field. }
    assert (E2 : b_spin (pushed b (mkV 2 0 0) j) = mkV 0 0 0).
    { unfold pushed. cbn [b_spin]. rewrite Bx, Hc, Bs. destruct (b_inv b). apply vext; munfold; ring. }
    split; [exact E1|]. unfold speed_at. rewrite E1, E2, Bv, Bs, Bx. change (b_pos (pushed b (mkV 2 0 0) j)) with (b_pos b). rewrite Bx. set (y := vadd v (vscale j (1 / 4))). clearbody y. destruct v, x, y. split; apply vext; vunfold; ring. }
  destruct (Sp b1 _ _ (vscale (mkV 1 0 0) k) Q1 Q2 Q3 Q4) as (S1 & S2 & S3); [unfold left_at, left_vel; apply vext; vunfold; ring|].
  destruct (Sp b2 _ _ (vneg (vscale (mkV 1 0 0) k)) T1 T2 T3 T4) as (S4 & S5 & S6); [unfold right_at, right_vel; apply vext; vunfold; ring|].
  rewrite C1, C2 in Re. unfold relative in Re. rewrite S2, S3, S5, S6 in Re. unfold left_vel, right_vel in *.
  assert (Kk : k = -4) by (revert Re; vunfold; cbn; intros; lra).
  destruct En0 as (e0 & F1 & _ & _ & _ & F2 & _). destruct En1 as (e1 & F3 & _ & _ & _ & F4 & _). rewrite X1 in F2. rewrite X2 in F4. cbn [with_speed mv_awake mv_vel] in F2, F4. rewrite A0 in F2. rewrite A1 in F4. rewrite C1, S1 in F2. rewrite C2, S4 in F4.
  split; [exists e0; split; [exact F1|]; rewrite F2|exists e1; split; [exact F3|]; rewrite F4]; f_equal; rewrite Kk; apply vext; vunfold; lra.
Qed.

(** ** The balls get into contact *)
Lemma puck_place p v a : place (puck_mover p v) (mkV 0 0 0) a = vadd p (vscale v a).
Proof.
  unfold place. rewrite world_form by (unfold unit_o, unit_quat; cbn; ring). cbn [puck_mover mv_o mv_vel o_rot o_off o_pos]. destruct p, v. apply vext; qunfold; field.
Qed.
Lemma table_strangers n : strangers (table n) (hd 0) (hd 1).
Proof. split; [discriminate|]. split; intros (e & He & Hin); injection He as <-; destruct Hin. Qed.
Lemma table_balls n : has_ball (table n) (hd 0) (mkV 0 0 0) 1 /\ has_ball (table n) (hd 1) (mkV 0 0 0) 1.
Proof.
  split; [exists (make_pub (puck_linked left_at left_vel (hd 0))), (hd 0), (puck_sphere (Some (hd 0)))|exists (make_pub (puck_linked right_at right_vel (hd 1))), (hd 1), (puck_sphere (Some (hd 1)))];
    (split; [exact eq_refl|]; split; [left; exact eq_refl|]; split; [exact eq_refl|]; split; exact eq_refl).
Qed.
Lemma table_gap b : b <= 3 -> dist (place (table_movers (hd 0)) (mkV 0 0 0) b) (place (table_movers (hd 1)) (mkV 0 0 0) b) = 3 - b.
Proof.
  intros H. change (table_movers (hd 0)) with (puck_mover left_at left_vel). change (table_movers (hd 1)) with (puck_mover right_at right_vel). rewrite !puck_place.
  unfold dist. rewrite <- (sqrt_square (3 - b)) by lra. f_equal. unfold left_at, left_vel, right_at, right_vel. vunfold. ring.
Qed.
Lemma table_touch : first_touch (fun b => dist (place (table_movers (hd 0)) (mkV 0 0 0) b) (place (table_movers (hd 1)) (mkV 0 0 0) b) - (1 + 1)) 1.
Proof. split; [lra|]. split; [rewrite table_gap; lra|]. intros b Hb. rewrite table_gap; lra. Qed.
Lemma table_brisk : brisk_balls 2 (table_movers (hd 0)) (table_movers (hd 1)) (mkV 0 0 0) (mkV 0 0 0) 1 1 1.
Proof.
  change (table_movers (hd 0)) with (puck_mover left_at left_vel). change (table_movers (hd 1)) with (puck_mover right_at right_vel).
  unfold brisk_balls. rewrite !puck_place. cbn [puck_mover mv_vel]. cbv zeta.
  assert (E : vdot (vsub left_vel right_vel) (vsub (vadd right_at (vscale right_vel 1)) (vadd left_at (vscale left_vel 1))) / (1 + 1) = 1) by (unfold left_at, left_vel, right_at, right_vel; vunfold; field).
  rewrite E. assert (L : vlen left_vel = 1) by (unfold vlen; replace (vdot left_vel left_vel) with 1 by (unfold left_vel; vunfold; ring); apply sqrt_1).
  rewrite L. unfold left_vel, right_vel. vunfold. lra.
Qed.
Lemma table_starts n d h : get_entity (table n) h <> None -> starts_as (table n) d h (table_movers h).
Proof.
  intros H. unfold get_entity in H. destruct (aget (s_ents (table n)) h) as [e|] eqn:He; [|contradiction].
  assert (F : forces_on (table n) (Fin d) h []).
  { exists e. split; [exact He|]. change (ahandles (s_gens (table n))) with (@nil handle). destruct (pushable e); [constructor|exact eq_refl]. }
  assert (G : forall p v k, starts_with d (puck_linked p v k) [] (puck_mover p v)).
  { intros p v k. destruct (puck_unpushed p v k d) as (A & B). split; [exact eq_refl|]. split; [exact eq_refl|]. split; [exact eq_refl|]. split; [exact A|]. split; [exact B|exact eq_refl]. }
  pose proof (table_ent _ _ _ He) as [(-> & ->)|(-> & ->)]; eexists _, []; (split; [exact He|]; split; [exact F|apply G]).
Qed.
Lemma table_spinless h : spinless (table_movers h).
Proof. unfold table_movers. destruct (heqb h (hd 0)); exact eq_refl. Qed.
(** In half a second they do not reach each other. *)
Lemma pucks_miss o1 o2 : 
  collide (puck o1) (ofin (mkO left_at (mkQ 0 0 0 1) (mkV 0 0 0))) (ofin (mkO (vadd left_at (vscale left_vel (1 / 2))) (mkQ 0 0 0 1) (mkV 0 0 0)))
          (puck o2) (ofin (mkO right_at (mkQ 0 0 0 1) (mkV 0 0 0))) (ofin (mkO (vadd right_at (vscale right_vel (1 / 2))) (mkQ 0 0 0 1) (mkV 0 0 0))) = Ok None.
Proof.
  assert (W : forall p : V, position_into_world (mkO p (mkQ 0 0 0 1) (mkV 0 0 0)) (mkV 0 0 0) = p).
  { intros p. rewrite world_form by (unfold unit_o, unit_quat; cbn; ring). cbn [o_rot o_off o_pos]. destruct p. apply vext; qunfold; field. }
  unfold puck. rewrite (collide_spheres_eq (puck_sphere o1) (puck_sphere o2) (mkV 0 0 0) (mkV 0 0 0) 1 1) by exact eq_refl. rewrite !W.
  set (w := left_at). set (w' := vadd left_at (vscale left_vel (1 / 2))). set (u := right_at). set (u' := vadd right_at (vscale right_vel (1 / 2))).
  pose proof (sphere_sphere 1 w (vsub w' w) 1 u (vsub u' u) ltac:(lra) ltac:(lra) ltac:(lra)) as S.
  specialize (S ltac:(unfold w, w', u, u', left_at, right_at, left_vel, right_vel; vunfold; lra) ltac:(unfold w, w', u, u', left_at, right_at, left_vel, right_vel, crossing; vunfold; lra)). cbv zeta in S.
  destruct (collide_sphere_with_sphere _ _ _ _ _ _) as [k|] eqn:E; [exfalso|exact eq_refl].
  destruct S as (t & x & _ & (Ft & F1 & _) & _). apply (balls_touch _ _ 1 1 ltac:(lra) ltac:(lra) ltac:(lra)) in F1. revert F1. unfold w, w', u, u', left_at, right_at, left_vel, right_vel. vunfold. intros F1. nra.
Qed.
Lemma table_short : exists s', step in_order (table 1) (Fin (1 / 2)) = Ok s' /\ s_records s' = [].
Proof.
  destruct (table_steps 1 (1 / 2)) as (s' & H). exists s'. split; [exact H|].
  destruct (step_phases _ _ _ _ H (not_tiny (1 / 2) ltac:(lra))) as (s1 & infos & st & P1 & P2 & P3 & P4 & P5 & P6 & P7). cbv zeta in P1.
  pose proof (integrate_spec _ _ _ P1) as (_ & _ & Q3 & Q4). cbn [fst snd s_ents s_gens] in *.
  assert (E0 : aget (s_ents s1) (hd 0) = Some (puck_linked left_at left_vel (hd 0))).
  { destruct (Q3 (hd 0) _ eq_refl) as (fs & F & G). apply no_forces in F; [|exact eq_refl]. subst fs. rewrite G. destruct (puck_unpushed left_at left_vel (hd 0) (1 / 2)) as (A & B).
    change (Some (e_set_vels (puck_linked left_at left_vel (hd 0)) (pushed_vel (Fin (1 / 2)) [] (puck_linked left_at left_vel (hd 0))) (pushed_angvel (Fin (1 / 2)) [] (puck_linked left_at left_vel (hd 0)))) = Some (puck_linked left_at left_vel (hd 0))).
    rewrite A, B. exact eq_refl. }
  assert (E1 : aget (s_ents s1) (hd 1) = Some (puck_linked right_at right_vel (hd 1))).
  { destruct (Q3 (hd 1) _ eq_refl) as (fs & F & G). apply no_forces in F; [|exact eq_refl]. subst fs. rewrite G. destruct (puck_unpushed right_at right_vel (hd 1) (1 / 2)) as (A & B).
    change (Some (e_set_vels (puck_linked right_at right_vel (hd 1)) (pushed_vel (Fin (1 / 2)) [] (puck_linked right_at right_vel (hd 1))) (pushed_angvel (Fin (1 / 2)) [] (puck_linked right_at right_vel (hd 1)))) = Some (puck_linked right_at right_vel (hd 1))).
    rewrite A, B. exact eq_refl. }
  assert (Hs : map i_h infos = [hd 0; hd 1]).
  { rewrite P6. destruct P7 as (_ & Hh & _). rewrite Hh. exact eq_refl. }
  destruct infos as [|i0 [|i1 [|i2 infos]]]; try discriminate. cbn [map] in Hs. injection Hs as H0 H1.
  destruct (Q4 i0 (or_introl eq_refl)) as (x0 & X0 & L0 & A0 & _). destruct (Q4 i1 (or_intror (or_introl eq_refl))) as (x1 & X1 & L1 & A1 & _).
  rewrite H0, E0 in X0. injection X0 as <-. rewrite H1, E1 in X1. injection X1 as <-.
  set (st0 := mkL _ _ _ _ _ _) in P2. change (s_iteration_max (table 1)) with 1%nat in P2. cbn [iterations] in P2. inv_ok P2. destruct x as [st1 fin]. cbn [fst snd] in P2.
  pose proof (iterate_earliest _ _ _ _ _ _ in_order_good E) as W. destruct fin.
  - destruct W as (W & _). inv_ok P2. subst st. rewrite P4, W. exact eq_refl.
  - exfalso. destruct W as (x & y & j1 & j2 & k1 & k2 & c & Lt & J1 & J2 & M & _).
    unfold st0 in J1, J2. cbn [l_infos] in J1, J2.
    assert (y < 2)%nat by (assert (X : nth_error [i0; i1] y <> None) by congruence; apply nth_error_Some in X; exact X).
    assert (x = 0)%nat by lia. assert (y = 1)%nat by lia. subst x y. injection J1 as <-. injection J2 as <-.
    destruct M as (e1 & e2 & c1 & c2 & M1 & M2 & _ & _ & M3 & M4 & M5 & M6 & M7 & _). unfold st0 in M1, M2. cbn [l_ents] in M1, M2. rewrite H0 in M1. rewrite H1 in M2.
    rewrite E0 in M1. rewrite E1 in M2. injection M1 as <-. injection M2 as <-. destruct M3 as [<-|[]]. destruct M4 as [<-|[]].
    injection M5 as <-. injection M6 as <-. revert M7. rewrite L0, A0, L1, A1. cbn [puck_linked e_orient e_vel e_angvel]. rewrite !puck_flight, pucks_miss. discriminate.
Qed.
