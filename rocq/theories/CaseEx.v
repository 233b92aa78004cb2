(** * CaseEx: examples in exact arithmetic for C25, C51, C54 and C60 *)
From Coq Require Import ZArith Reals Lra Psatz Bool List Lia.
Import ListNotations.
From Verif Require Import Num Vec Res Arena RangeM Orient Colliders Collide EntityM SystemM OrderP Spec PanicSpec Examples ResP ArenaP FrameP StoreP Store2P ExecP StepP Step2P Step3P NoPanicP RangeP
  RealSpec RealV OrientP Orient2P GeomP ShapeP Geom4P Geom6P PhysSpec PhysP Phys2P Phys3P Phys4P Mass3P Mass4P PassP RealEx TwoEx.
Local Open Scope R_scope.

Lemma rest_world (p x : V) : position_into_world (rest_o p) x = vadd p x.
Proof. unfold rest_o. rewrite world_form by (unfold unit_o, unit_quat; cbn; ring). cbn [o_rot o_off o_pos]. destruct p, x. apply vext; qunfold; field. Qed.

(** ** C25: a ball rests at the origin, another comes from (3, 0, 0) with velocity (-2, 0, 0). *)
Lemma came_to_rest : exists k, collide (CSphere (ball 1)) (still (mkV 0 0 0)) (still (mkV 0 0 0)) (CSphere (ball 1)) (still (mkV 3 0 0)) (still (mkV 1 0 0)) = Ok (Some k) /\
  c_time k = Fin (1 / 2) /\ c_pos k = vfin (mkV 1 0 0) /\ c_normal k = vfin (mkV 1 0 0).
Proof.
  unfold still. rewrite (collide_spheres_eq (ball 1) (ball 1) (mkV 0 0 0) (mkV 0 0 0) 1 1) by exact eq_refl. rewrite !rest_world.
  set (w := vadd (mkV 0 0 0) (mkV 0 0 0)). set (u := vadd (mkV 3 0 0) (mkV 0 0 0)). set (u' := vadd (mkV 1 0 0) (mkV 0 0 0)).
  pose proof (sphere_sphere 1 w (vsub w w) 1 u (vsub u' u) ltac:(lra) ltac:(lra) ltac:(lra)) as S.
  specialize (S ltac:(unfold w, u, u'; vunfold; lra) ltac:(unfold w, u, u', crossing; vunfold; lra)). cbv zeta in S.
  assert (T0 : forall t, (exists x, within x (vadd w (vscale (vsub w w) t)) 1 /\ within x (vadd u (vscale (vsub u' u) t)) 1) <-> (2 * t - 3) * (2 * t - 3) <= 4).
  { intros t. rewrite balls_touch by lra. unfold w, u, u'. vunfold; lra. }
  destruct (collide_sphere_with_sphere _ _ _ _ _ _) as [k|] eqn:E.
  2: { exfalso. apply (S (1 / 2)); [lra|]. apply T0. lra. }
  exists k. split; auto. destruct S as (t & x & Et & F & Ex & _).
  assert (T : t = 1 / 2).
  { destruct F as (Ft & F1 & F2). apply Rle_antisym.
    - apply F2; [lra|]. apply T0. lra.
    - apply T0 in F1. nra. }
  subst t. split; auto. apply sphere_sphere_normal in E; [|lra]. destruct E as (t' & x' & Et' & _ & Ex' & Xe & En).
  assert (t' = 1 / 2) as -> by congruence. assert (X : x' = mkV 1 0 0).
  { rewrite Xe. unfold mid, w, u, u'. apply vext; vunfold; field. }
  subst x'. split; [rewrite X in Ex'; exact Ex'|]. rewrite X in En. rewrite En, vnormalize_fin.
  - f_equal. unfold vunit. unfold w. assert (L : vlen (vsub (mkV 1 0 0) (vadd (mkV 0 0 0) (mkV 0 0 0))) = 1).
    { unfold vlen. replace (vdot (vsub (mkV 1 0 0) (vadd (mkV 0 0 0) (mkV 0 0 0))) (vsub (mkV 1 0 0) (vadd (mkV 0 0 0) (mkV 0 0 0)))) with (1 * 1) by (vunfold; ring). apply sqrt_square. lra. }
    unfold vlen in L. rewrite L. apply vext; vunfold; field.
  - unfold w. intros Z. apply (f_equal vx) in Z. revert Z. vunfold. lra.
Qed.

(** ** C54: two balls of radius 1 whose centres are 1 apart, both moving by (5, 0, 0). *)
Lemma carried_along : exists k, collide (CSphere (ball 1)) (still (mkV 0 0 0)) (still (mkV 5 0 0)) (CSphere (ball 1)) (still (mkV 0 1 0)) (still (mkV 5 1 0)) = Ok (Some k) /\
  c_time k = Fin 0 /\ c_pos k = vfin (mkV 0 (1 / 2) 0).
Proof.
  pose proof (collide_spheres_together (ball 1) (ball 1) (mkV 0 0 0) (mkV 0 0 0) 1 1 (rest_o (mkV 0 0 0)) (rest_o (mkV 5 0 0)) (rest_o (mkV 0 1 0)) (rest_o (mkV 5 1 0))
    eq_refl eq_refl eq_refl eq_refl ltac:(lra)) as S. cbv zeta in S. rewrite !rest_world in S.
  specialize (S ltac:(apply vext; vunfold; ring)). unfold still.
  destruct (collide _ _ _ _ _ _) as [[k|]| |]; [|exfalso; revert S; vunfold; lra|destruct S|destruct S].
  exists k. split; [reflexivity|]. destruct S as (_ & S1 & S2). split; [exact S1|]. rewrite S2. f_equal. unfold mid. apply vext; vunfold; field.
Qed.

(** ** C60: at (1, 2, 3), moved by (1, 0, 0) and turned by a quarter about the z axis. *)
Lemma quarter_turn : exists o', unit_o (rest_o (mkV 1 2 3)) /\ 2 * tiny < vlen (mkV 0 0 (PI / 2)) /\
  after_affected (still (mkV 1 2 3)) (vfin (mkV 1 0 0)) (vfin (mkV 0 0 (PI / 2))) = ofin o' /\ position_into_world o' (mkV 1 0 0) = mkV 2 3 3.
Proof.
  assert (U : unit_o (rest_o (mkV 1 2 3))) by (unfold unit_o, unit_quat; cbn; ring).
  assert (PI2 : 1 < PI / 2) by (pose proof PI2_1; lra).
  assert (L : vlen (mkV 0 0 (PI / 2)) = PI / 2).
  { unfold vlen. replace (vdot (mkV 0 0 (PI / 2)) (mkV 0 0 (PI / 2))) with (PI / 2 * (PI / 2)) by (vunfold; ring). apply sqrt_square. lra. }
  assert (Ty : 2 * tiny < vlen (mkV 0 0 (PI / 2))).
  { rewrite L. unfold tiny. assert (IZR (2 ^ 23) = 8388608) as -> by (f_equal; reflexivity). lra. }
  destruct (affected_moves (rest_o (mkV 1 2 3)) (mkV 1 0 0) (mkV 0 0 (PI / 2)) U) as (o' & f & E & _ & _ & _ & W & _ & F & _).
  exists o'. split; [exact U|]. split; [exact Ty|]. split; [exact E|]. rewrite W. specialize (F Ty). unfold turns_by in F. cbv zeta in F. rewrite F, L, rest_world, cos_PI2, sin_PI2.
  cbn [rest_o o_pos]. apply vext; vunfold; field; lra.
Qed.

(** ** C51: a body of mass 2 and the unit tensor, pushed once by (0, 1, 0) at (1, 0, 0). *)
Definition once : generator ER := GenCustom (fun _ _ _ => Ok (mkF (vfin (mkV 0 1 0)) (vfin (mkV 1 0 0)), GenGravity (vfin (mkV 0 0 0)))).
Definition frame (owner : option handle) : collider ER := CNull (mkNull owner (vfin (mkV 0 0 0)) (Fin 1) (mfin munit)).
Definition frame_part : part := mkPart 1 (mkV 0 0 0) munit.
Definition framed : ientity ER :=
  mkE (still (mkV 0 0 0)) (Fin 1) (Fin 2) (mfin munit) (vfin (mkV 0 0 0)) (vfin (mkV 0 0 0)) [hd 0] false (Fin 0) false [].
Definition pushed_once : system ER := s_set_gens (s_set_cols (s_set_ents system_new (one framed)) (one (frame (Some (hd 0))))) (one once).
Lemma alone_inertia m (t : M) : local_inertia (mkV 0 0 0) [mkPart m (mkV 0 0 0) t] = t.
Proof.
  destruct t. unfold local_inertia, local_tensor. cbn [fold_left p_centre p_mass p_tensor]. apply mext; unfold translate_moment; munfold; cbn; field.
Qed.
Lemma framed_recalc : recalculate_mass [hd 0] (one (frame None)) (e_set_colliders (puck_inside (mkV 0 0 0) (mkV 0 0 0)) [hd 0]) = Ok framed.
Proof.
  set (e0 := e_set_colliders (puck_inside (mkV 0 0 0) (mkV 0 0 0)) [hd 0]).
  assert (G : aget (one (frame None)) (hd 0) = Some (frame None)) by exact eq_refl.
  destruct (StoreP.recalc_total [hd 0] (one (frame None)) e0) as (e & He); [intros c [<-|[]]; congruence|]. rewrite He. f_equal.
  assert (Hp : forall c, In c [hd 0] -> part_in (one (frame None)) c ((fun _ => frame_part) c)).
  { intros c [<-|[]]. exists (frame None). split; [exact G|]. split; [exact eq_refl|]. split; exact eq_refl. }
  assert (U : unit_o (rest_o (mkV 0 0 0))) by (unfold unit_o, unit_quat; cbn; ring).
  assert (Eo0 : e_orient e0 = ofin (rest_o (mkV 0 0 0))) by exact eq_refl.
  destruct (recalc_finite _ _ _ _ _ _ Eo0 U Hp He) as (o & Eo & Er & Ew & Eoff & _). cbv zeta in Eoff.
  assert (EM : parts_mass (map (fun _ => frame_part) [hd 0]) = 1) by (unfold parts_mass, rsum; cbn; ring).
  assert (Ec : local_moment (map (fun _ => frame_part) [hd 0]) = mkV 0 0 0) by (unfold local_moment, vsum; cbn [map fold_right frame_part p_centre p_mass]; apply vext; vunfold; ring).
  rewrite EM, Ec in Eoff. specialize (Eoff ltac:(lra)).
  assert (Eoff' : o_off o = mkV 0 0 0) by (rewrite Eoff; apply vext; vunfold; field). clear Eoff.
  assert (Uo : unit_o o) by (unfold unit_o; rewrite Er; exact U).
  assert (Epos : o_pos o = mkV 0 0 0).
  { rewrite <- (world_centre o Uo), Ew, rest_world. rewrite Eoff'. apply vext; vunfold; ring. }
  assert (Eo' : o = rest_o (mkV 0 0 0)) by (destruct o as [a b c]; cbn [o_pos o_rot o_off rest_o] in *; subst; exact eq_refl). subst o.
  pose proof (recalc_exact _ _ _ _ _ Hp He) as (X & Y). cbv zeta in X. rewrite EM in X. destruct (Rlt_dec 0 1); [|lra]. destruct X as (Em & _).
  specialize (Y (mkV 0 0 0)). rewrite Eo in Y. specialize (Y eq_refl).
  assert (Et : local_inertia (mkV 0 0 0) (map (fun _ : handle => frame_part) [hd 0]) = munit).
  { cbn [map]. apply alone_inertia. }
  rewrite Et in Y. cbn [e_own_mass e_set_colliders puck_inside e0] in Em. rewrite fin_add in Em. assert (E4 : 1 + 1 = 2) by ring. rewrite E4 in Em.
  assert (Fr : exists o m i, e = e_set_mass e0 o m i).
  { clear - He. unfold recalculate_mass in He. inv_ok He. destruct x as [[fi m] w]. destruct (_ && _); destruct fi; try (apply ok_inj in He; subst e; eauto); inv_ok He; apply ok_inj in He; subst e; eauto. }
  destruct Fr as (a & b & c & ->). cbn [e_set_mass e_orient e_total_mass e_prep_moi] in Eo, Em, Y. rewrite Eo, Em, Y. exact eq_refl.
Qed.
Lemma frame_in : collider_new_from (frame None) = Some (frame None).
Proof.
  unfold collider_new_from, frame. cbn [collider_valid]. unfold null_valid. cbn [nl_mass]. rewrite fin_0. change (@n_le ER EReal) with er_le.
  rewrite (proj2 (er_le_fin _ _)) by lra. exact eq_refl.
Qed.
Lemma pushed_once_reachable : reachable pushed_once.
Proof.
  assert (R1 : reachable (s_set_ents system_new (one (puck_inside (mkV 0 0 0) (mkV 0 0 0))))).
  { eapply (follows_exec in_order _ (OAddEntity (puck_entity (mkV 0 0 0) (mkV 0 0 0)))); [split; [apply in_order_good|exact Logic.I]|].
    unfold exec, add_entity. rewrite puck_entity_in. exact eq_refl. }
  assert (R2 : reachable (s_set_cols (s_set_ents system_new (one (puck_inside (mkV 0 0 0) (mkV 0 0 0)))) (one (frame None)))).
  { eapply follows_trans; [exact R1|]. eapply (follows_exec in_order _ (OAddCollider (frame None))); [split; [apply in_order_good|exact Logic.I]|].
    unfold exec, add_collider. rewrite frame_in. exact eq_refl. }
  assert (R3 : reachable (s_set_cols (s_set_ents system_new (one framed)) (one (frame (Some (hd 0)))))).
  { eapply follows_trans; [exact R2|]. eapply (follows_exec in_order _ (OLinkCollider (hd 0) (Some (hd 0)))); [split; [apply in_order_good|exact Logic.I]|].
    unfold exec, link_collider. change (aget (s_cols (s_set_cols _ (one (frame None)))) (hd 0)) with (Some (frame None)).
    change (aget (s_ents (s_set_cols (s_set_ents system_new (one (puck_inside (mkV 0 0 0) (mkV 0 0 0)))) (one (frame None)))) (hd 0)) with (Some (puck_inside (mkV 0 0 0) (mkV 0 0 0))). cbv iota beta zeta.
    assert (X : recalculate_mass (in_order KColliders (hd 0) (e_colliders (e_set_colliders (puck_inside (mkV 0 0 0) (mkV 0 0 0)) (hinsert (hd 0) (e_colliders (puck_inside (mkV 0 0 0) (mkV 0 0 0)))))))
      (s_cols (s_set_cols (s_set_ents system_new (one (puck_inside (mkV 0 0 0) (mkV 0 0 0)))) (one (frame None))))
      (e_set_colliders (puck_inside (mkV 0 0 0) (mkV 0 0 0)) (hinsert (hd 0) (e_colliders (puck_inside (mkV 0 0 0) (mkV 0 0 0))))) = Ok framed) by exact framed_recalc.
    rewrite X. exact eq_refl. }
  eapply follows_trans; [exact R3|]. eapply (follows_exec in_order _ (OAddGenerator once)); [split; [apply in_order_good|exact Logic.I]|]. exact eq_refl.
Qed.
Lemma once_becomes g : becomes once g -> g = once \/ g = GenGravity (vfin (mkV 0 0 0)).
Proof.
  intros B. remember once as g0 eqn:G. induction B as [g|g g1 g2 dt w h f B IH E]; [now left|]. right. destruct (IH G) as [H|H]; subst.
  - unfold make_force, once in E. apply ok_inj in E. now inversion E.
  - unfold make_force in E. inv_ok E. apply ok_inj in E. now inversion E.
Qed.
Lemma pushed_once_ent h e : aget (s_ents pushed_once) h = Some e -> h = hd 0 /\ e = framed.
Proof.
  intros H. assert (I : In h (ahandles (s_ents pushed_once))) by (apply ahandles_in; congruence). change (In h [hd 0]) in I. destruct I as [<-|[]].
  split; [exact eq_refl|]. apply some_inj. rewrite <- H. exact eq_refl.
Qed.
Lemma pushed_once_gen h g : get_generator pushed_once h = Some g -> h = hd 0 /\ g = once.
Proof.
  intros H. assert (I : In h (ahandles (s_gens pushed_once))) by (apply ahandles_in; unfold get_generator in H; congruence). change (In h [hd 0]) in I. destruct I as [<-|[]].
  split; [exact eq_refl|]. apply some_inj. rewrite <- H. exact eq_refl.
Qed.
Lemma pushed_once_step : exists s' e, reachable pushed_once /\ step in_order pushed_once (Fin 1) = Ok s' /\ n_lt (n_abs (Fin 1)) EPSILON = false /\
  get_entity pushed_once (hd 0) = Some e /\ rigid e 2 (rest_o (mkV 0 0 0)) munit (mkV 0 0 0) (mkV 0 0 0) /\ pe_asleep e = false /\
  finite_forces pushed_once (Fin 1) (hd 0) /\ ~ named (s_records s') (hd 0) /\ turned (o_rot (rest_o (mkV 0 0 0))).
Proof.
  destruct (careful_returns in_order pushed_once (OStep (Fin 1))) as (s' & a & E & _).
  - split; [apply in_order_good|exact Logic.I].
  - exact pushed_once_reachable.
  - intros h k (e & He & Hk). exfalso. apply pushed_once_ent in He. destruct He as (_ & ->). destruct Hk.
  - intros gh g H. apply pushed_once_gen in H. destruct H as (_ & ->). intros g' dt w h B W. apply once_becomes in B. destruct B as [ -> | -> ]; [eexists; exact eq_refl|].
    destruct (w_entity w h) as [x|] eqn:X; [|congruence]. unfold make_force. rewrite X. eexists. exact eq_refl.
  - apply careful_callb_ok. exact eq_refl.
  - unfold exec in E. inv_ok E. exists x, (make_pub framed). split; [exact pushed_once_reachable|]. split; [exact E0|]. split; [apply not_tiny; lra|].
    split; [exact eq_refl|]. split; [|split; [exact eq_refl|split; [|split; [|left; exact eq_refl]]]].
    + constructor; try exact eq_refl. unfold unit_o, unit_quat. cbn. ring.
    + intros gh f _ (g0 & g & w & g' & G & B & W & F). apply pushed_once_gen in G. destruct G as (_ & ->). apply once_becomes in B. destruct B as [ -> | -> ].
      * exists (mkV 0 1 0, mkV 1 0 0). unfold make_force, once in F. apply ok_inj in F. now inversion F.
      * exists (vscale (mkV 0 0 0) 2, mkV 0 0 0). unfold make_force in F. rewrite W in F.
        change (get_entity pushed_once (hd 0)) with (Some (make_pub framed)) in F. cbn [unwrap rbind] in F. apply ok_inj in F. apply (f_equal fst) in F. cbn [fst] in F. subst f.
        unfold force_fin. cbn [fst snd]. rewrite <- vfin_scale. exact eq_refl.
    + intros Nm. pose proof (step_records_name in_order pushed_once (Fin 1) x) as Rn.
      assert (Al : forall k, alive KEntity x k -> k = hd 0).
      { intros k A. cbn [alive] in A. destruct (aget (s_ents pushed_once) k) as [e|] eqn:G; [now apply pushed_once_ent in G|]. exfalso. apply A. apply get_entity_none.
        exact (proj2 (arel_none _ _ _ k (proj1 (FrameP.step_frame _ _ _ _ E0))) G). }
      assert (No : s_records x = []).
      { destruct (s_records x) as [|r l] eqn:L; [reflexivity|exfalso]. destruct (Rn r in_order_good E0 (not_tiny 1 ltac:(lra)) (or_introl eq_refl)) as (D & A1 & A2 & _).
        apply D. rewrite (Al _ A1), (Al _ A2). reflexivity. }
      rewrite No in Nm. destruct Nm as (r & [] & _).
Qed.
