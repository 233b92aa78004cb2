(** * SpinEx: a reachable system in exact arithmetic: a tumbling box (C82) *)
From Coq Require Import ZArith Reals Lra Psatz Bool List Lia.
Import ListNotations.
From Verif Require Import Num Vec Res Arena RangeM Orient Colliders Collide EntityM SystemM OrderP Spec PanicSpec Examples ResP ArenaP FrameP StoreP Store2P ExecP StepP Step2P Step3P NoPanicP RangeP
  RealSpec RealV OrientP Orient2P GeomP ShapeP PhysSpec PhysP Phys2P Phys3P Phys4P Mass3P Mass4P TraceSpec TraceP EnergyP MomentumP RealEx TwoEx SpinSpec SpinP.
Local Open Scope R_scope.

(** A brick of the sizes 1, 2, 3 and the mass 12 around the centre of an entity of mass 1, which turns with [w]. *)
Definition top_entity (w : V) : entity ER :=
  mkPE (vfin (mkV 0 0 0)) (vfin (mkV 0 0 0)) (vfin (mkV 0 0 0)) (vfin w) [] (Fin 1)
       (ofin (mkO (mkV 0 0 0) (mkQ 0 0 0 1) (mkV 0 0 0))) (Fin 0) mzero false.
Definition home : orientation R := mkO (mkV 0 0 0) (mkQ 0 0 0 1) (mkV 0 0 0).
Definition top_inside (w : V) : ientity ER := mkE (ofin home) (Fin 1) (Fin 1) mzero (vfin (mkV 0 0 0)) (vfin w) [] false (Fin 0) false [].
Definition brick (owner : option handle) : collider ER :=
  CBox (mkBox owner (vfin (mkV 0 0 0)) (vfin (mkV (- (1 / 2)) (-1) (- (3 / 2)))) (vfin (mkV (1 / 2) 1 (3 / 2))) (Fin 12) slick).
Definition brick_tensor : M := mkM 13 0 0 0 10 0 0 0 5.
Definition brick_part : part := mkPart 12 (mkV 0 0 0) brick_tensor.
Definition top_linked (w : V) (h : handle) : ientity ER := mkE (ofin home) (Fin 1) (Fin 13) (mfin brick_tensor) (vfin (mkV 0 0 0)) (vfin w) [h] false (Fin 0) false [].
Lemma top_in w : entity_new_from (top_entity w) = Some (top_inside w).
Proof.
  unfold entity_new_from, top_entity. cbn [pe_own_mass]. rewrite fin_0. change (@n_lt ER EReal) with er_lt. rewrite (proj2 (er_lt_fin_f _ _)) by lra.
  unfold make_orientation. cbn [pe_pos pe_rot pe_last_orient pe_vel pe_angvel ofin o_off]. rewrite orient_new_fin, rexp_zero. exact eq_refl.
Qed.
Lemma brick_in : collider_new_from (brick None) = Some (brick None).
Proof.
  unfold collider_new_from, brick. cbn [collider_valid]. unfold box_valid. cbn [bx_min bx_max bx_mass]. cbv zeta. rewrite fin_0, eps_fin, vfin_sub. cbn [vfin vx vy vz vsub].
  change (@n_lt ER EReal) with er_lt. change (@n_le ER EReal) with er_le.
  rewrite (proj2 (er_lt_fin (1 / 1000000) _)), (proj2 (er_lt_fin (1 / 1000000) _)), (proj2 (er_lt_fin (1 / 1000000) _)), (proj2 (er_le_fin 0 12)) by (cbn; lra). cbn [andb].
  unfold stored_new. cbn [bx_ent bx_pos bx_min bx_max bx_mass bx_mat]. unfold vmin, vmax. cbn [vfin vx vy vz].
  assert (A : forall a b, a <= b -> ty_min (Fin a) (Fin b) = Fin a /\ ty_max (Fin a) (Fin b) = Fin b).
  { intros a b H. unfold ty_min, ty_max. change (@n_lt ER EReal) with er_lt. split.
    - destruct (er_lt (Fin a) (Fin b)) eqn:E; [exact eq_refl|]. apply er_lt_fin_f in E. f_equal. lra.
    - destruct (er_lt (Fin b) (Fin a)) eqn:E; [|exact eq_refl]. apply er_lt_fin in E. lra. }
  rewrite !(fun a b H => proj1 (A a b H)), !(fun a b H => proj2 (A a b H)) by lra. exact eq_refl.
Qed.
Lemma brick_part_in cols owner h : aget cols h = Some (brick owner) -> part_in cols h brick_part.
Proof.
  intros H. exists (brick owner). split; [exact H|]. split; [exact eq_refl|]. split.
  - unfold brick. cbn [c_com bx_pos bx_min bx_max brick_part p_centre]. unfold nhalf. change (n_frac 1 2) with (Fin (1 / 2)). rewrite vfin_add, vfin_scale, vfin_add. f_equal. apply vext; vunfold; field.
  - unfold brick. cbn [c_moi bx_min bx_max bx_mass brick_part p_tensor]. cbv zeta. rewrite vfin_sub. cbn [vfin vx vy vz vsub].
    change n12 with (Fin (12 / 1)). rewrite !fin_mul, !fin_add, fin_div, !fin_mul by lra. unfold mdiag. cbn [vx vy vz]. rewrite fin_0. unfold mfin, brick_tensor. cbn.
    f_equal; f_equal; field.
Qed.
Lemma top_recalc w h cols owner : aget cols h = Some (brick owner) ->
  recalculate_mass [h] cols (e_set_colliders (top_inside w) [h]) = Ok (top_linked w h).
Proof.
  intros G. destruct (StoreP.recalc_total [h] cols (e_set_colliders (top_inside w) [h])) as (e & He); [intros c [<-|[]]; congruence|]. rewrite He. f_equal.
  assert (Hp : forall c, In c [h] -> part_in cols c ((fun _ => brick_part) c)) by (intros c [<-|[]]; exact (brick_part_in _ _ _ G)).
  assert (U : unit_o home) by (unfold unit_o, unit_quat; cbn; ring).
  assert (Eo0 : e_orient (e_set_colliders (top_inside w) [h]) = ofin home) by exact eq_refl.
  destruct (recalc_finite _ _ _ _ _ _ Eo0 U Hp He) as (o & Eo & Er & Ew & Eoff & _). cbv zeta in Eoff.
  assert (EM : parts_mass (map (fun _ => brick_part) [h]) = 12) by (unfold parts_mass, rsum; cbn; ring).
  assert (Ec : local_moment (map (fun _ => brick_part) [h]) = mkV 0 0 0) by (unfold local_moment, vsum; cbn [map fold_right brick_part p_centre p_mass]; apply vext; vunfold; ring).
  rewrite EM, Ec in Eoff. specialize (Eoff ltac:(lra)).
  assert (Eoff' : o_off o = mkV 0 0 0) by (rewrite Eoff; apply vext; vunfold; field). clear Eoff.
  assert (Uo : unit_o o) by (unfold unit_o; rewrite Er; exact U).
  assert (Epos : o_pos o = mkV 0 0 0).
  { rewrite <- (world_centre o Uo), Ew, world_form by exact U. rewrite Eoff'. cbn [home o_rot o_off o_pos]. apply vext; qunfold; field. }
  assert (Eo' : o = home) by (destruct o as [a b c]; cbn [o_pos o_rot o_off home] in *; subst; exact eq_refl). subst o.
  pose proof (recalc_exact _ _ _ _ _ Hp He) as (X & Y). cbv zeta in X. rewrite EM in X. destruct (Rlt_dec 0 12); [|lra]. destruct X as (Em & _).
  specialize (Y (mkV 0 0 0)). rewrite Eo in Y. specialize (Y eq_refl).
  assert (Et : local_inertia (mkV 0 0 0) (map (fun _ : handle => brick_part) [h]) = brick_tensor).
  { unfold local_inertia, local_tensor, brick_part, brick_tensor. cbn [map fold_left p_centre p_mass p_tensor]. apply mext; unfold translate_moment; munfold; cbn; field. }
  rewrite Et in Y. cbn [e_own_mass e_set_colliders top_inside] in Em. rewrite fin_add in Em. assert (E4 : 1 + 12 = 13) by ring. rewrite E4 in Em.
  assert (Fr : exists o m i, e = e_set_mass (e_set_colliders (top_inside w) [h]) o m i).
  { exact (FrameP.recalc_frame _ _ _ _ He). }
  destruct Fr as (a & b & c & ->). cbn [e_set_mass e_orient e_total_mass e_prep_moi] in Eo, Em, Y. rewrite Eo, Em, Y. exact eq_refl.
Qed.
Definition tops (e : ientity ER) (o : option handle) : system ER := s_set_cols (s_set_ents system_new (one e)) (one (brick o)).
Definition tumbling (w : V) : system ER := tops (top_linked w (hd 0)) (Some (hd 0)).
Lemma tumbling_reachable w : reachable (tumbling w).
Proof.
  assert (R1 : reachable (s_set_ents system_new (one (top_inside w)))).
  { eapply (follows_exec in_order _ (OAddEntity (top_entity w))); [split; [apply in_order_good|exact Logic.I]|]. unfold exec, add_entity. rewrite top_in. exact eq_refl. }
  assert (R2 : reachable (tops (top_inside w) None)).
  { eapply follows_trans; [exact R1|]. eapply (follows_exec in_order _ (OAddCollider (brick None))); [split; [apply in_order_good|exact Logic.I]|]. unfold exec, add_collider. rewrite brick_in. exact eq_refl. }
  eapply follows_trans; [exact R2|]. eapply (follows_exec in_order _ (OLinkCollider (hd 0) (Some (hd 0)))); [split; [apply in_order_good|exact Logic.I]|].
  unfold exec, link_collider. change (aget (s_cols (tops _ None)) (hd 0)) with (Some (brick None)).
  change (aget (s_ents (tops (top_inside w) None)) (hd 0)) with (Some (top_inside w)). cbv iota beta zeta.
  assert (X : recalculate_mass (in_order KColliders (hd 0) (e_colliders (e_set_colliders (top_inside w) (hinsert (hd 0) (e_colliders (top_inside w))))))
      (s_cols (tops (top_inside w) None)) (e_set_colliders (top_inside w) (hinsert (hd 0) (e_colliders (top_inside w)))) = Ok (top_linked w (hd 0))) by (apply (top_recalc w (hd 0) _ None); exact eq_refl).
  rewrite X. exact eq_refl.
Qed.
Lemma tumbling_ent w h e : aget (s_ents (tumbling w)) h = Some e -> h = hd 0 /\ e = top_linked w (hd 0).
Proof.
  intros H. assert (I : In h (ahandles (s_ents (tumbling w)))) by (apply ahandles_in; congruence).
  change (In h [hd 0]) in I. destruct I as [<-|[]]. split; [exact eq_refl|]. injection H as <-. exact eq_refl.
Qed.
Lemma tumbling_steps w d : exists s', step in_order (tumbling w) (Fin d) = Ok s'.
Proof.
  destruct (careful_returns in_order (tumbling w) (OStep (Fin d))) as (s' & a & E & _).
  - split; [apply in_order_good|exact Logic.I].
  - apply tumbling_reachable.
  - intros h k (e & He & Hk). exfalso. apply tumbling_ent in He. destruct He as (-> & ->). destruct Hk.
  - intros gh g H. exfalso. unfold get_generator in H. assert (I : In gh (ahandles (s_gens (tumbling w)))) by (apply ahandles_in; intros X; rewrite X in H; discriminate). destruct I.
  - apply careful_callb_ok. exact eq_refl.
  - unfold exec in E. inv_ok E. eexists. exact E0.
Qed.
Lemma tumbling_silent w d s' : step in_order (tumbling w) (Fin d) = Ok s' -> n_lt (n_abs (Fin d)) EPSILON = false -> s_records s' = [].
Proof.
  intros H Hd. destruct (s_records s') as [|r l] eqn:E; [exact eq_refl|]. exfalso.
  destruct (step_records_name in_order _ (Fin d) s' r in_order_good H Hd) as (Ne & A & B & _); [rewrite E; now left|].
  assert (K : forall h, alive KEntity s' h -> h = hd 0).
  { intros h Ha. apply (step_keeps _ _ _ _ H) in Ha. apply live_handles in Ha. change (In h [hd 0]) in Ha. destruct Ha as [<-|[]]. exact eq_refl. }
  apply Ne. rewrite (K _ A), (K _ B). exact eq_refl.
Qed.
Definition top_mover (w : V) : mover := mkMover (Fin 13) brick_tensor home (mkV 0 0 0) w true.
Lemma top_sound w : sound_mover (top_mover w).
Proof. split; [cbn; lra|]. split; [split; [repeat split|]; intros [x y z]; unfold top_mover, brick_tensor; cbn [mv_tensor]; munfold; nra|]. unfold unit_o, unit_quat. cbn. ring. Qed.

(** Half a turn about the diagonal between the first two axes. *)
Definition half_turn : R := PI / sqrt 2.
Definition axis : V := mkV half_turn half_turn 0.
Lemma half_turn_pos : 0 < half_turn.
Proof. apply Rdiv_lt_0_compat; [exact PI_RGT_0|apply sqrt_lt_R0; lra]. Qed.
Lemma axis_len : vlen axis = PI.
Proof.
  unfold vlen, axis. assert (S : sqrt 2 * sqrt 2 = 2) by (apply sqrt_sqrt; lra). assert (P : sqrt 2 <> 0) by (intros Z; rewrite Z in S; lra).
  replace (vdot (mkV half_turn half_turn 0) (mkV half_turn half_turn 0)) with (PI * PI); [apply sqrt_square, Rlt_le, PI_RGT_0|].
  vunfold. unfold half_turn. transitivity (PI * PI * 2 / (sqrt 2 * sqrt 2)); [rewrite S; field|field; exact P].
Qed.
Lemma axis_turn f : turns_by f axis -> forall x y, f (mkV x y 0) = mkV y x 0.
Proof.
  intros T x y. rewrite T, axis_len, cos_PI, sin_PI. unfold axis, half_turn. assert (S : sqrt 2 * sqrt 2 = 2) by (apply sqrt_sqrt; lra). assert (P : sqrt 2 <> 0) by (intros Z; rewrite Z in S; lra).
  pose proof PI_RGT_0 as Q. set (c := PI / sqrt 2 * / PI). assert (C : c * c = 1 / 2).
  { unfold c. transitivity (1 / (sqrt 2 * sqrt 2)); [field; split; lra|]. rewrite S. field. }
  assert (E : vscale (mkV (PI / sqrt 2) (PI / sqrt 2) 0) (/ PI) = mkV c c 0) by (apply vext; vunfold; unfold c; ring). rewrite E. clearbody c. pose proof (f_equal (Rmult x) C) as Cx. pose proof (f_equal (Rmult y) C) as Cy. apply vext; vunfold; lra.
Qed.
Lemma top_is w h : inside (top_linked w h) (top_mover w).
Proof. repeat split. Qed.
Lemma top_starts w h d : starts_with d (top_linked w h) [] (top_mover w).
Proof.
  assert (Z0 : Spec.vsum (T:=ER) [] = vfin (mkV 0 0 0)) by (cbn; unfold vzero; rewrite fin_0; exact eq_refl).
  split; [exact eq_refl|]. split; [exact eq_refl|]. split; [exact eq_refl|]. unfold pushed_vel, pushed_angvel. cbn [map]. rewrite Z0, vfin_scale.
  destruct (inside_body _ _ (top_is w h) (top_sound w)) as (b & Bb & _). rewrite (body_inverse _ _ Bb), mfin_mulmv.
  assert (Z : vscale (mkV 0 0 0) d = mkV 0 0 0) by (apply vext; vunfold; ring). rewrite Z.
  split; [|split; [|exact eq_refl]]; cbn [top_linked e_vel e_angvel]; rewrite vfin_add; f_equal; [apply vext; vunfold; cbn; ring|cbn [top_mover mv_spin]; destruct w, (b_inv b); apply vext; munfold; ring].
Qed.
Lemma tumbles : let q := mkV 0 0 0 in let a := half_turn in exists (s s' : system ER) w w', reachable s /\ step in_order s (Fin 1) = Ok s' /\
  ahandles (s_gens s) = [] /\ all_moving s /\ s_records s' = [] /\ 0 < a /\
  (forall h, get_entity s h <> None -> stored_as s h (w h) /\ sound_mover (w h) /\ ordinary_mover (w h)) /\
  (forall h, get_entity s h <> None -> stored_as s' h (w' h)) /\
  total_moment q (ahandles (s_ents s)) w = mkV (13 * a) (10 * a) 0 /\ total_moment q (ahandles (s_ents s)) w' = mkV (10 * a) (13 * a) 0.
Proof.
  cbv zeta. destruct (tumbling_steps axis 1) as (s' & H). pose proof (tumbling_silent _ _ _ H (not_tiny 1 ltac:(lra))) as Re.
  assert (St : sound_start (tumbling axis) 1).
  { intros h e fs He F. apply no_forces in F; [|exact eq_refl]. subst fs. apply tumbling_ent in He. destruct He as (_ & ->). exists (top_mover axis). split; [apply top_starts|apply top_sound]. }
  destruct (step_trace _ _ _ _ in_order_good H (not_tiny 1 ltac:(lra)) St) as (w0 & w1 & t & ts & S0 & T & En & _); [rewrite Re; constructor|].
  rewrite Re in T, En. change (Nat.eqb (length (@nil (crecord ER))) (s_iteration_max (tumbling axis))) with false in En. cbv iota in En.
  assert (N0 : get_entity (tumbling axis) (hd 0) <> None) by discriminate.
  assert (W0 : w0 (hd 0) = top_mover axis).
  { destruct (S0 _ N0) as ((e & fs & He & F & Q) & _). apply no_forces in F; [|exact eq_refl]. subst fs. apply tumbling_ent in He. destruct He as (_ & ->). exact (starts_unique _ _ _ _ _ Q (top_starts axis (hd 0) 1)). }
  assert (Z : w1 = w0 /\ t = 0). { inversion T as [|rs0]; [auto|]. exfalso. match goal with Q : _ ++ [_] = [] |- _ => symmetry in Q; apply app_cons_not_nil in Q; exact Q end. } destruct Z as (-> & ->).
  destruct (En _ N0) as (m & G & Ga & E). rewrite W0 in G, Ga. pose proof E as E'. apply ends_stored in E'. unfold stopped in E'. rewrite Ga in E'. change (mv_awake (top_mover axis)) with true in E'. cbv iota in E'.
  assert (Hd : forall h, get_entity (tumbling axis) h <> None -> h = hd 0).
  { intros h Hx. apply live_handles in Hx. change (In h [hd 0]) in Hx. destruct Hx as [<-|[]]. exact eq_refl. }
  exists (tumbling axis), s', (fun _ => top_mover axis), (fun _ => m). split; [apply tumbling_reachable|]. split; [exact H|]. split; [exact eq_refl|].
  split; [intros h e He; apply tumbling_ent in He; destruct He as (_ & ->); split; [discriminate|exact eq_refl]|]. split; [exact Re|]. split; [exact half_turn_pos|].
  split.
  { intros h Hx. rewrite (Hd h Hx). split; [eexists; split; [exact eq_refl|]; repeat split|]. split; [apply top_sound|]. left. apply det_invertible. unfold det. cbn. lra. }
  split; [intros h Hx; rewrite (Hd h Hx); exact E'|].
  change (ahandles (s_ents (tumbling axis))) with [hd 0]. unfold total_moment. cbn [map]. rewrite !vsum_cons. change (vsum (@nil V)) with (mkV 0 0 0).
  split.
  - unfold mover_moment, spin_moment, top_mover, home, brick_tensor, axis. cbn [mv_mass mv_o mv_vel mv_spin mv_tensor o_pos o_rot]. apply vext; qunfold; munfold; cbn; field.
  - destruct G as (G1 & G2 & G3 & G4 & _ & G5 & O). rewrite (G5 eq_refl) in O. destruct O as (_ & O). cbn [top_mover mv_mass mv_tensor mv_vel mv_spin mv_o home o_rot] in *.
    unfold mover_moment, spin_moment. rewrite G1, G2, G3, G4.
    assert (Ax : vscale axis (1 - 0) = axis) by (unfold axis; apply vext; vunfold; ring). rewrite Ax in O.
    assert (U1 : unit_quat (mkQ 0 0 0 1)) by (unfold unit_quat; cbn; ring).
    rewrite (turned_on_spin _ _ _ axis U1 O) by (exists 1; unfold axis; apply vext; vunfold; ring).
    destruct O as (r & Ur & -> & [Tr|(L & _)]).
    + assert (X : qrot (qinv (mkQ 0 0 0 1)) axis = axis) by (unfold axis; apply vext; qunfold; ring). rewrite X.
      assert (Y : mulmv brick_tensor axis = mkV (13 * half_turn) (10 * half_turn) 0) by (unfold axis, brick_tensor; apply vext; munfold; ring). rewrite Y.
      assert (Q1 : qmul r (mkQ 0 0 0 1) = r) by (destruct r; unfold qmul; cbn; f_equal; ring). rewrite Q1, (axis_turn _ Tr).
      destruct (o_pos (mv_o m)). apply vext; vunfold; ring.
    + exfalso. rewrite axis_len in L. pose proof PI_RGT_0. pose proof PI2_1. unfold tiny in L. lra.
Qed.

(** The balls of the table are round; about a point beside their path they have angular momentum. *)
Lemma table_spins : ahandles (s_gens (table 1)) = [] /\
  (forall h, get_entity (table 1) h <> None -> stored_as (table 1) h (table_movers h) /\ sound_mover (table_movers h) /\ round (table_movers h)) /\
  total_moment (mkV 0 1 0) (ahandles (s_ents (table 1))) table_movers = mkV 0 0 4.
Proof.
  split; [exact eq_refl|]. split.
  - intros h H. destruct (table_movers_ok 1 h H) as (A & B & _). split; [exact A|]. split; [exact B|]. unfold table_movers. destruct (heqb h (hd 0)); exists (6 / 5); split; try lra; exact eq_refl.
  - change (ahandles (s_ents (table 1))) with [hd 0; hd 1]. unfold total_moment. cbn [map]. rewrite !vsum_cons. change (vsum (@nil V)) with (mkV 0 0 0). unfold table_movers.
    change (heqb (hd 0) (hd 0)) with true. change (heqb (hd 1) (hd 0)) with false. cbv iota.
    unfold mover_moment, spin_moment, puck_mover, puck_tensor, left_at, left_vel, right_at, right_vel. cbn [mv_mass mv_o mv_vel mv_spin mv_tensor o_pos o_rot].
    apply vext; qunfold; munfold; cbn; field.
Qed.
