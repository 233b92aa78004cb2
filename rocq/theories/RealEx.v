(** * RealEx: examples in exact arithmetic: two bodies about to collide, and a reachable system *)
From Coq Require Import ZArith Reals Lra Psatz Bool List Permutation.
Import ListNotations.
From Verif Require Import Num Vec Res Arena RangeM Orient Colliders Collide EntityM SystemM OrderP Spec Examples ResP ArenaP FrameP StoreP RangeP RealSpec RealV OrientP Orient2P GeomP Geom4P PhysSpec PhysP Phys2P Phys3P Phys4P Mass2P Mass3P Mass4P Mass5P.
Local Open Scope R_scope.

(** ** Two bodies *)
Definition body_entity (b : body) : ientity ER :=
  mkE (mkO (vfin (b_pos b)) (qfin (mkQ 0 0 0 1)) (vfin (mkV 0 0 0))) (b_mass b) (b_mass b) (mfin (b_tensor b)) (vfin (b_vel b)) (vfin (b_spin b))
      [] false (Fin 0) false [].
Lemma body_entity_ok b : is_body (body_entity b) b.
Proof.
  destruct b as [m t x v w]. unfold is_body, body_entity. cbn [b_mass b_tensor b_pos b_vel b_spin e_total_mass e_orient e_vel e_angvel o_pos].
  split; [exact eq_refl|]. split; [|repeat split]. unfold get_moment. cbn [e_orient e_prep_moi]. unfold finalize_moment. cbn [o_rot]. rewrite rotate_fin. f_equal.
  unfold rotate_moment. cbv zeta. destruct t. apply mext; qunfold; munfold; field.
Qed.
Definition two_bodies (b1 b2 : body) : lstate ER :=
  mkL (mkA [Occ 0%N (body_entity b1); Occ 0%N (body_entity b2)] 0%N None)
      [mkInfo (hd 0) (vfin (mkV 0 0 0)) (vfin (mkV 0 0 0)) []; mkInfo (hd 1) (vfin (mkV 0 0 0)) (vfin (mkV 0 0 0)) []] (Fin 1) (Fin 0) [] [].
(** A collision of the two at [p] with normal [n], restitution [rest] and both friction coefficients [co]. *)
Definition contact (p n : V) (rest co : R) : found ER :=
  mkFound (mkC rg_unit (vfin p) (vfin n)) (Fin rest) (Fin co) (Fin co) (Fin 0) (hd 0) (hd 1) 0 1.
Lemma two_meet b1 b2 p n rest co : sound b1 -> sound b2 -> b_mass b1 <> PInf \/ b_mass b2 <> PInf -> vdot n n = 1 ->
  meeting (two_bodies b1 b2) (contact p n rest co) b1 b2 p n rest.
Proof.
  intros S1 S2 Hm Hn. unfold meeting, contact, body_at. cbn [fd_h1 fd_h2 fd_col fd_rest c_pos c_normal].
  split; [discriminate|]. split; [eexists; split; [exact eq_refl|apply body_entity_ok]|]. split; [eexists; split; [exact eq_refl|apply body_entity_ok]|].
  split; [exact S1|]. split; [exact S2|]. split; [exact Hm|]. split; [exact Hn|]. repeat split.
Qed.
Lemma two_respond b1 b2 p n rest co : exists st', respond (Fin 1) (Fin 1) (contact p n rest co) (two_bodies b1 b2) = Ok st'.
Proof.
  unfold respond. cbn [contact fd_h1 fd_h2 two_bodies l_ents].
  change (aget _ (hd 0)) with (Some (body_entity b1)). change (aget _ (hd 1)) with (Some (body_entity b2)). cbn [unwrap rbind].
  destruct (respond_pair _ _ _) as [[[e1 e2] im] ic]. destruct ic; eexists; exact eq_refl.
Qed.
Lemma psd_unit : psd munit.
Proof. split; [repeat split|]. intros [x y z]. unfold munit. munfold. nra. Qed.
Lemma psd_zero : psd (mkM 0 0 0 0 0 0 0 0 0).
Proof. split; [repeat split|]. intros [x y z]. munfold. lra. Qed.
Lemma invertible_unit : invertible munit.
Proof. exists munit. apply mext; unfold munit; munfold; ring. Qed.

(** A spinning body hits another one off centre. *)
Definition spinner : body := mkBody (Fin 2) munit (mkV 0 1 0) (mkV 1 (-1) 0) (mkV 0 0 3).
Definition target : body := mkBody (Fin 5) munit (mkV 1 (-1) 0) (mkV 0 0 0) (mkV 0 0 0).
Lemma spinner_meets rest co : meeting (two_bodies spinner target) (contact (mkV 0 0 0) (mkV 0 (-1) 0) rest co) spinner target (mkV 0 0 0) (mkV 0 (-1) 0) rest.
Proof.
  apply two_meet; [split; [cbn; lra|apply psd_unit]|split; [cbn; lra|apply psd_unit]|left; discriminate|vunfold; lra].
Qed.
Lemma spinner_approaches : 1 <= vdot (relative spinner target (mkV 0 0 0)) (mkV 0 (-1) 0).
Proof. unfold relative, speed_at. cbn [spinner target b_vel b_pos b_spin]. vunfold. lra. Qed.
Lemma spinner_ordinary : ordinary spinner /\ ordinary target.
Proof. split; left; apply invertible_unit. Qed.
Lemma contact_rough p n rest co : 0 <= co -> rough (contact p n rest co) co co.
Proof. intros H. repeat split; exact H. Qed.

(** A light body slides over the ground: the friction impulse is five times what Coulomb's law allows, and the energy grows. *)
Definition slider : body := mkBody (Fin (1 / 10)) (mkM 0 0 0 0 0 0 0 0 0) (mkV 0 1 0) (mkV 1 (-1) 0) (mkV 0 0 0).
Definition ground : body := mkBody PInf (mkM 0 0 0 0 0 0 0 0 0) (mkV 0 0 0) (mkV 0 0 0) (mkV 0 0 0).
Lemma slider_sound : sound slider /\ sound ground.
Proof. split; (split; [cbn; try lra; exact Logic.I|apply psd_zero]). Qed.
Lemma singular_zero : ~ invertible (mkM 0 0 0 0 0 0 0 0 0).
Proof. intros H. apply invertible_det in H. apply H. unfold det. cbn [m11 m12 m13 m21 m22 m23 m31 m32 m33]. ring. Qed.
Lemma slider_breaks_coulomb : exists st' c1 c2 r,
  meeting (two_bodies slider ground) (contact (mkV 0 0 0) (mkV 0 (-1) 0) 1 1) slider ground (mkV 0 0 0) (mkV 0 (-1) 0) 1 /\
  1 <= vdot (relative slider ground (mkV 0 0 0)) (mkV 0 (-1) 0) /\
  rough (contact (mkV 0 0 0) (mkV 0 (-1) 0) 1 1) 1 1 /\ ordinary slider /\ ordinary ground /\
  respond (Fin 1) (Fin 1) (contact (mkV 0 0 0) (mkV 0 (-1) 0) 1 1) (two_bodies slider ground) = Ok st' /\
  body_at st' (hd 0) c1 /\ body_at st' (hd 1) c2 /\ same_inertia c1 slider /\ same_inertia c2 ground /\
  l_records st' = [r] /\ cr_impulse r = Fin (1 / 5) /\
  vsub (vscale (b_vel c1) (1 / 10)) (vscale (b_vel slider) (1 / 10)) = mkV (-1) (1 / 5) 0 /\
  kinetic slider + kinetic ground = 1 / 10 /\ kinetic c1 + kinetic c2 = 41 / 10.
Proof.
  destruct slider_sound as (S1 & S2).
  assert (Hm : meeting (two_bodies slider ground) (contact (mkV 0 0 0) (mkV 0 (-1) 0) 1 1) slider ground (mkV 0 0 0) (mkV 0 (-1) 0) 1)
    by (apply two_meet; [exact S1|exact S2|left; discriminate|vunfold; lra]).
  destruct (two_respond slider ground (mkV 0 0 0) (mkV 0 (-1) 0) 1 1) as (st' & Hst).
  destruct (respond_bodies _ _ _ _ _ _ _ _ _ _ Hm Hst) as (k & q & Ek & _ & _ & _ & Q & G1 & G2 & Rc). cbv zeta in *.
  assert (I1 : forall v : V, mulmv (b_inv slider) v = mkV 0 0 0) by (intros v; unfold b_inv; rewrite rinv_zero, mulmv_zero by (unfold det; cbn; ring); exact eq_refl).
  assert (I2 : forall v : V, mulmv (b_inv ground) v = mkV 0 0 0) by (intros v; unfold b_inv; rewrite rinv_zero, mulmv_zero by (unfold det; cbn; ring); exact eq_refl).
  assert (D : denominator slider ground (mkV 0 0 0) (mkV 0 (-1) 0) = 10).
  { unfold denominator, spread. rewrite I1, I2. cbn [slider ground b_mass b_pos inv_mass]. vunfold. field. }
  assert (P1 : forall v w j, pushed (mkBody (Fin (1 / 10)) (mkM 0 0 0 0 0 0 0 0 0) (mkV 0 1 0) v w) (mkV 0 0 0) j = mkBody (Fin (1 / 10)) (mkM 0 0 0 0 0 0 0 0 0) (mkV 0 1 0) (vadd v (vscale j 10)) w).
  { intros v w j. unfold pushed. cbn [b_mass b_tensor b_pos b_vel b_spin inv_mass].
    change (b_inv (mkBody (Fin (1 / 10)) (mkM 0 0 0 0 0 0 0 0 0) (mkV 0 1 0) v w)) with (b_inv slider). rewrite I1. f_equal.
    - f_equal. f_equal. field.
    - destruct w. apply vext; vunfold; ring. }
  assert (P2 : forall v w j, pushed (mkBody PInf (mkM 0 0 0 0 0 0 0 0 0) (mkV 0 0 0) v w) (mkV 0 0 0) j = mkBody PInf (mkM 0 0 0 0 0 0 0 0 0) (mkV 0 0 0) v w).
  { intros v w j. unfold pushed. cbn [b_mass b_tensor b_pos b_vel b_spin inv_mass].
    change (b_inv (mkBody PInf (mkM 0 0 0 0 0 0 0 0 0) (mkV 0 0 0) v w)) with (b_inv ground). rewrite I2. f_equal.
    - destruct v, j. apply vext; vunfold; ring.
    - destruct w. apply vext; vunfold; ring. }
  rewrite D in *. assert (K : k = - (1 / 5)). { rewrite Ek. unfold relative, speed_at, slider, ground. cbn [b_vel b_pos b_spin]. vunfold. field. }
  clear Ek. subst k. unfold slider, ground in G1, G2, Q. rewrite !P1, !P2 in *.
  set (s := tangential _ _) in *. assert (Es : s = mkV 1 0 0).
  { unfold s, tangential, relative, speed_at. cbn [b_vel b_pos b_spin]. apply vext; vunfold; field. }
  clearbody s. subst s. assert (L1 : vlen (mkV 1 0 0) = 1). { unfold vlen. replace (vdot (mkV 1 0 0) (mkV 1 0 0)) with 1 by (vunfold; ring). exact sqrt_1. }
  rewrite L1 in Q. assert (Eq : q = 1). { rewrite (Q 1 1 eq_refl eq_refl) by lra. assert (Gr : forall th a b, grip th 1 1 a b = 1) by (intros; unfold grip; destruct (er_lt _ _); exact eq_refl). rewrite Gr, Rabs_Ropp, Rabs_pos_eq by lra. apply Rmin_left. lra. }
  clear Q. subst q. cbn [contact fd_h1 fd_h2] in G1, G2. eexists st', _, _, _. split; [exact Hm|]. split; [unfold relative, speed_at; cbn [slider ground b_vel b_pos b_spin]; vunfold; lra|]. split; [apply contact_rough; lra|].
  split; [right; exact eq_refl|]. split; [split; [exact eq_refl|split; exact eq_refl]|]. split; [exact Hst|]. split; [exact G1|]. split; [exact G2|].
  split; [repeat split|]. split; [repeat split|]. split; [exact Rc|]. cbn [cr_impulse b_vel slider ground]. split; [f_equal; rewrite Rabs_Ropp; apply Rabs_pos_eq; lra|].
  split; [apply vext; vunfold; field|]. unfold kinetic. cbn [b_mass b_vel b_spin b_tensor slider ground]. rewrite !mulmv_zero. split; vunfold; field.
Qed.

(** ** A reachable system: an entity of mass 1 at (1, 0, 0), moving and turning, with a ball of mass 3 around its local point (4, 0, 0) *)
Definition ball_entity : entity ER :=
  mkPE (vfin (mkV 1 0 0)) (vfin (mkV 0 0 0)) (vfin (mkV 0 1 0)) (vfin (mkV 0 0 1)) [] (Fin 1)
       (ofin (mkO (mkV 0 0 0) (mkQ 0 0 0 1) (mkV 0 0 0))) (Fin 0) mzero false.
Definition ball_inside : ientity ER :=
  mkE (ofin (mkO (mkV 1 0 0) (mkQ 0 0 0 1) (mkV 0 0 0))) (Fin 1) (Fin 1) mzero (vfin (mkV 0 1 0)) (vfin (mkV 0 0 1)) [] false (Fin 0) false [].
Definition ball_collider (owner : option handle) : collider ER := CSphere (mkSphere owner (vfin (mkV 4 0 0)) (Fin 1) (Fin 3) mat_default).
Definition ball_part : part := mkPart 3 (mkV 4 0 0) (mkM (6 / 5) 0 0 0 (6 / 5) 0 0 0 (6 / 5)).
Lemma ball_entity_in : entity_new_from ball_entity = Some ball_inside.
Proof.
  unfold entity_new_from, ball_entity. cbn [pe_own_mass]. rewrite fin_0. change (@n_lt ER EReal) with er_lt. rewrite (proj2 (er_lt_fin_f _ _)) by lra.
  unfold make_orientation. cbn [pe_pos pe_rot pe_last_orient pe_vel pe_angvel ofin o_off]. rewrite orient_new_fin, rexp_zero. exact eq_refl.
Qed.
Lemma ball_collider_in : collider_new_from (ball_collider None) = Some (ball_collider None).
Proof.
  unfold collider_new_from, ball_collider. cbn [collider_valid]. unfold sphere_valid, MINIMUM_RADIUS. cbn [sp_radius sp_mass]. rewrite fin_0.
  change (@n_lt ER EReal) with er_lt. change (@n_le ER EReal) with er_le. change (n_frac 1 20) with (Fin (1 / 20)).
  rewrite (proj2 (er_lt_fin _ _)), (proj2 (er_le_fin _ _)) by lra. exact eq_refl.
Qed.
Definition one {A} (x : A) : arena A := mkA [Occ 0%N x; Free (Some 2%nat); Free (Some 3%nat); Free None] 0%N (Some 1%nat).
Definition ball_state (e : ientity ER) (owner : option handle) : system ER :=
  s_set_cols (s_set_ents system_new (one e)) (one (ball_collider owner)).
Definition ball_linking : ientity ER := e_set_colliders ball_inside [hd 0].
Lemma ball_part_in owner : part_in (one (ball_collider owner)) (hd 0) ball_part.
Proof.
  exists (ball_collider owner). split; [exact eq_refl|]. split; [exact eq_refl|]. split; [exact eq_refl|].
  unfold ball_collider, ball_part. cbn [c_moi sp_mass sp_radius p_tensor]. cbv zeta.
  assert (E : n_mul (n_mul (n_div n2 n5) (Fin 3)) (Fin 1) = Fin (6 / 5)).
  { rewrite fin_2. change n5 with (Fin (5 / 1)). rewrite fin_div, !fin_mul by lra. f_equal. field. }
  rewrite E. unfold mdiag. cbn [vx vy vz]. rewrite fin_0. exact eq_refl.
Qed.
Lemma ball_reached : exists e, recalculate_mass [hd 0] (one (ball_collider None)) ball_linking = Ok e /\ reachable (ball_state e (Some (hd 0))).
Proof.
  destruct (StoreP.recalc_total [hd 0] (one (ball_collider None)) ball_linking) as (e & He); [intros c [<-|[]]; discriminate|].
  exists e. split; [exact He|].
  assert (R1 : reachable (s_set_ents system_new (one ball_inside))).
  { eapply (follows_exec in_order _ (OAddEntity ball_entity)); [split; [apply in_order_good|exact Logic.I]|].
    unfold exec, add_entity. rewrite ball_entity_in. exact eq_refl. }
  assert (R2 : reachable (ball_state ball_inside None)).
  { eapply follows_trans; [exact R1|]. eapply (follows_exec in_order _ (OAddCollider (ball_collider None))); [split; [apply in_order_good|exact Logic.I]|].
    unfold exec, add_collider. rewrite ball_collider_in. exact eq_refl. }
  eapply follows_trans; [exact R2|]. eapply (follows_exec in_order _ (OLinkCollider (hd 0) (Some (hd 0)))); [split; [apply in_order_good|exact Logic.I]|].
  unfold exec, link_collider. change (aget (s_cols (ball_state ball_inside None)) (hd 0)) with (Some (ball_collider None)).
  change (aget (s_ents (ball_state ball_inside None)) (hd 0)) with (Some ball_inside). cbv iota beta zeta.
  assert (X : recalculate_mass (in_order KColliders (hd 0) (e_colliders (e_set_colliders ball_inside (hinsert (hd 0) (e_colliders ball_inside)))))
    (s_cols (ball_state ball_inside None)) (e_set_colliders ball_inside (hinsert (hd 0) (e_colliders ball_inside))) = Ok e) by exact He.
  rewrite X. exact eq_refl.
Qed.
(** Everything about it is a number, its position is the centre of the ball, and so on. *)
Lemma ball_facts : exists e o, recalculate_mass [hd 0] (one (ball_collider None)) ball_linking = Ok e /\ reachable (ball_state e (Some (hd 0))) /\
  get_entity (ball_state e (Some (hd 0))) (hd 0) = Some (make_pub e) /\ e_orient e = ofin o /\ o = mkO (mkV 5 0 0) (mkQ 0 0 0 1) (mkV (-4) 0 0) /\
  e_colliders e = [hd 0] /\ parts_of (ball_state e (Some (hd 0))) (make_pub e) (fun _ => ball_part) /\ e_own_mass e = Fin 1.
Proof.
  destruct ball_reached as (e & He & R).
  assert (U : unit_o (mkO (mkV 1 0 0) (mkQ 0 0 0 1) (mkV 0 0 0))) by (unfold unit_o, unit_quat; cbn; ring).
  assert (Hp : forall c, In c [hd 0] -> part_in (one (ball_collider None)) c ((fun _ => ball_part) c)) by (intros c [<-|[]]; apply ball_part_in).
  assert (Eo0 : e_orient ball_linking = ofin (mkO (mkV 1 0 0) (mkQ 0 0 0 1) (mkV 0 0 0))) by exact eq_refl.
  destruct (recalc_finite _ _ _ _ _ _ Eo0 U Hp He) as (o & Eo & Er & Ew & Eoff & _). cbv zeta in Eoff.
  assert (EM : parts_mass (map (fun _ => ball_part) [hd 0]) = 3) by (unfold parts_mass, rsum; cbn; ring).
  assert (Ec : local_moment (map (fun _ => ball_part) [hd 0]) = mkV 12 0 0) by (unfold local_moment, vsum; cbn [map fold_right ball_part p_centre p_mass]; apply vext; vunfold; ring).
  rewrite EM, Ec in Eoff. specialize (Eoff ltac:(lra)).
  assert (Eoff' : o_off o = mkV (-4) 0 0) by (rewrite Eoff; apply vext; vunfold; field). clear Eoff.
  assert (Uo : unit_o o) by (unfold unit_o; rewrite Er; exact U).
  assert (Epos : o_pos o = mkV 5 0 0).
  { rewrite <- (world_centre o Uo), Ew, world_form by exact U. rewrite Eoff'. cbn [o_rot o_off o_pos]. apply vext; qunfold; field. }
  exists e, o. split; [exact He|]. split; [exact R|]. split; [exact eq_refl|]. split; [exact Eo|]. split.
  { destruct o as [p q f]. cbn [o_pos o_rot o_off] in *. subst. exact eq_refl. }
  assert (Ecol : e_colliders e = [hd 0] /\ e_own_mass e = Fin 1).
  { clear - He. unfold recalculate_mass in He. inv_ok He. destruct x as [[fi m] v]. destruct (_ && _); destruct fi; try (apply ok_inj in He; subst e; split; exact eq_refl); inv_ok He; apply ok_inj in He; subst e; split; exact eq_refl. }
  destruct Ecol as (Ecol & Em).
  split; [exact Ecol|]. split; [|exact Em].
  intros c Hc. cbn [make_pub pe_colliders] in Hc. rewrite Ecol in Hc. destruct Hc as [<-|[]]. apply ball_part_in.
Qed.

(** ** What goes wrong for bodies without a proper inertia tensor *)
Definition zm : M := mkM 0 0 0 0 0 0 0 0 0.
Lemma zero_pushed m x v w p j : pushed (mkBody (Fin m) zm x v w) p j = mkBody (Fin m) zm x (vadd v (vscale j (/ m))) w.
Proof.
  unfold pushed. cbn [b_mass b_tensor b_pos b_vel b_spin inv_mass]. f_equal. unfold b_inv. cbn [b_tensor].
  rewrite rinv_zero, mulmv_zero by (unfold det, zm; cbn; ring). destruct w. apply vext; vunfold; ring.
Qed.
Lemma zero_denominator m1 x1 v1 w1 m2 x2 v2 w2 p n : vdot n n = 1 -> denominator (mkBody (Fin m1) zm x1 v1 w1) (mkBody (Fin m2) zm x2 v2 w2) p n = / m1 + / m2.
Proof.
  intros Hn. unfold denominator, spread, b_inv. cbn [b_mass b_tensor b_pos inv_mass]. rewrite rinv_zero, !mulmv_zero by (unfold det, zm; cbn; ring).
  destruct n, (vsub p x1), (vsub p x2). revert Hn. vunfold. intros Hn. try lra.
Qed.
(** Two point-like bodies meet frictionlessly off centre: the angular momentum about the point of contact was zero. *)
Definition lever1 : body := mkBody (Fin 1) zm (mkV 0 1 0) (mkV 0 (-1) 0) (mkV 0 0 0).
Definition lever2 : body := mkBody (Fin 1) zm (mkV 1 (-1) 0) (mkV 0 0 0) (mkV 0 0 0).
Lemma no_slide q (s : V) : s = mkV 0 0 0 -> vscale s q = mkV 0 0 0.
Proof. intros ->. apply vext; vunfold; ring. Qed.
Lemma lever_changes : exists st' c1 c2,
  meeting (two_bodies lever1 lever2) (contact (mkV 0 0 0) (mkV 0 (-1) 0) 1 0) lever1 lever2 (mkV 0 0 0) (mkV 0 (-1) 0) 1 /\
  1 <= vdot (relative lever1 lever2 (mkV 0 0 0)) (mkV 0 (-1) 0) /\
  respond (Fin 1) (Fin 1) (contact (mkV 0 0 0) (mkV 0 (-1) 0) 1 0) (two_bodies lever1 lever2) = Ok st' /\
  body_at st' (hd 0) c1 /\ body_at st' (hd 1) c2 /\ same_inertia c1 lever1 /\ same_inertia c2 lever2 /\
  vadd (angular_momentum 1 lever1 (mkV 0 0 0)) (angular_momentum 1 lever2 (mkV 0 0 0)) = mkV 0 0 0 /\
  vadd (angular_momentum 1 c1 (mkV 0 0 0)) (angular_momentum 1 c2 (mkV 0 0 0)) = mkV 0 0 (-1).
Proof.
  assert (Hm : meeting (two_bodies lever1 lever2) (contact (mkV 0 0 0) (mkV 0 (-1) 0) 1 0) lever1 lever2 (mkV 0 0 0) (mkV 0 (-1) 0) 1)
    by (apply two_meet; [split; [cbn; lra|apply psd_zero]|split; [cbn; lra|apply psd_zero]|left; discriminate|vunfold; lra]).
  destruct (two_respond lever1 lever2 (mkV 0 0 0) (mkV 0 (-1) 0) 1 0) as (st' & Hst).
  destruct (respond_bodies _ _ _ _ _ _ _ _ _ _ Hm Hst) as (k & q & Ek & _ & _ & _ & _ & G1 & G2 & _). cbv zeta in *.
  assert (K : k = - (1)). { rewrite Ek. unfold lever1, lever2. rewrite zero_denominator by (vunfold; lra). unfold relative, speed_at. cbn [b_vel b_pos b_spin]. vunfold. field. }
  clear Ek. subst k. unfold lever1, lever2 in G1, G2. rewrite !zero_pushed in *.
  rewrite (no_slide (- q)) in G1, G2 by (unfold tangential, relative, speed_at; cbn [b_vel b_pos b_spin]; apply vext; vunfold; field).
  eexists st', _, _. split; [exact Hm|]. split; [unfold relative, speed_at; cbn [lever1 lever2 b_vel b_pos b_spin]; vunfold; lra|]. split; [exact Hst|]. split; [exact G1|]. split; [exact G2|]. split; [repeat split|]. split; [repeat split|].
  unfold angular_momentum, lever1, lever2. cbn [b_vel b_pos b_spin b_tensor]. unfold zm. rewrite !mulmv_zero. split; apply vext; vunfold; field.
Qed.
(** A spinning body with a zero tensor has no kinetic energy, until it strikes. *)
Definition whirl1 : body := mkBody (Fin 1) zm (mkV (-1) 0 0) (mkV 0 0 0) (mkV 0 0 (-3)).
Definition whirl2 : body := mkBody (Fin 1) zm (mkV 0 (-1) 0) (mkV 0 0 0) (mkV 0 0 0).
Lemma whirl_gains : exists st' c1 c2,
  meeting (two_bodies whirl1 whirl2) (contact (mkV 0 0 0) (mkV 0 (-1) 0) 1 0) whirl1 whirl2 (mkV 0 0 0) (mkV 0 (-1) 0) 1 /\
  1 <= vdot (relative whirl1 whirl2 (mkV 0 0 0)) (mkV 0 (-1) 0) /\
  rough (contact (mkV 0 0 0) (mkV 0 (-1) 0) 1 0) 0 0 /\
  respond (Fin 1) (Fin 1) (contact (mkV 0 0 0) (mkV 0 (-1) 0) 1 0) (two_bodies whirl1 whirl2) = Ok st' /\
  body_at st' (hd 0) c1 /\ body_at st' (hd 1) c2 /\ same_inertia c1 whirl1 /\ same_inertia c2 whirl2 /\
  kinetic whirl1 + kinetic whirl2 = 0 /\ kinetic c1 + kinetic c2 = 9.
Proof.
  assert (Hm : meeting (two_bodies whirl1 whirl2) (contact (mkV 0 0 0) (mkV 0 (-1) 0) 1 0) whirl1 whirl2 (mkV 0 0 0) (mkV 0 (-1) 0) 1)
    by (apply two_meet; [split; [cbn; lra|apply psd_zero]|split; [cbn; lra|apply psd_zero]|left; discriminate|vunfold; lra]).
  destruct (two_respond whirl1 whirl2 (mkV 0 0 0) (mkV 0 (-1) 0) 1 0) as (st' & Hst).
  destruct (respond_bodies _ _ _ _ _ _ _ _ _ _ Hm Hst) as (k & q & Ek & _ & _ & _ & _ & G1 & G2 & _). cbv zeta in *.
  assert (K : k = - (3)). { rewrite Ek. unfold whirl1, whirl2. rewrite zero_denominator by (vunfold; lra). unfold relative, speed_at. cbn [b_vel b_pos b_spin]. vunfold. field. }
  clear Ek. subst k. unfold whirl1, whirl2 in G1, G2. rewrite !zero_pushed in *.
  rewrite (no_slide (- q)) in G1, G2 by (unfold tangential, relative, speed_at; cbn [b_vel b_pos b_spin]; apply vext; vunfold; field).
  eexists st', _, _. split; [exact Hm|]. split; [unfold relative, speed_at; cbn [whirl1 whirl2 b_vel b_pos b_spin]; vunfold; lra|]. split; [apply contact_rough; lra|]. split; [exact Hst|]. split; [exact G1|]. split; [exact G2|]. split; [repeat split|]. split; [repeat split|].
  unfold kinetic, whirl1, whirl2. cbn [b_mass b_vel b_pos b_spin b_tensor]. unfold zm. rewrite !mulmv_zero. split; vunfold; field.
Qed.

(** ** A rotation that was never a number *)
Definition nowhere : entity ER :=
  mkPE (vfin (mkV 0 0 0)) (mkV ENaN (Fin 0) (Fin 0)) (vfin (mkV 0 0 0)) (vfin (mkV 0 0 0)) [] (Fin 1)
       (ofin (mkO (mkV 0 0 0) (mkQ 0 0 0 1) (mkV 0 0 0))) (Fin 0) mzero false.
Lemma rotation_lost : exists s h e, reachable s /\ get_entity s h = Some e /\ ~ exists r, o_rot (pe_last_orient e) = qfin r /\ unit_quat r.
Proof.
  assert (E : exists i, entity_new_from nowhere = Some i /\ qw (o_rot (e_orient i)) = ENaN).
  { unfold entity_new_from, nowhere. cbn [pe_own_mass]. rewrite fin_0. change (@n_lt ER EReal) with er_lt. rewrite (proj2 (er_lt_fin_f _ _)) by lra.
    eexists. split; [exact eq_refl|]. cbn [e_orient make_orientation]. unfold make_orientation, orient_new. cbn [o_rot pe_rot]. exact eq_refl. }
  destruct E as (i & E & L). exists (s_set_ents system_new (one i)), (hd 0), (make_pub i). split; [|split; [exact eq_refl|]].
  - eapply (follows_exec in_order _ (OAddEntity nowhere)); [split; [apply in_order_good|exact Logic.I]|].
    unfold exec, add_entity. rewrite E. exact eq_refl.
  - intros (r & Hr & _). cbn [make_pub pe_last_orient] in Hr. rewrite Hr in L. discriminate L.
Qed.

(** ** The ball, as used beside the theorems *)
Lemma ball_example : exists s h e o pt, reachable s /\ get_entity s h = Some e /\ pe_own_mass e = Fin 1 /\ pe_last_orient e = ofin o /\
  pe_colliders e = [hd 0] /\ parts_of s e pt /\ parts_mass (parts e pt) = 3 /\ o_pos o = mkV 5 0 0 /\ psd (p_tensor (pt (hd 0))).
Proof.
  destruct ball_facts as (e & o & He & R & G & Eo & -> & Ec & Hp & Em).
  exists (ball_state e (Some (hd 0))), (hd 0), (make_pub e), (mkO (mkV 5 0 0) (mkQ 0 0 0 1) (mkV (-4) 0 0)), (fun _ => ball_part).
  split; [exact R|]. split; [exact G|]. split; [exact Em|]. split; [exact Eo|]. split; [exact Ec|]. split; [exact Hp|].
  split; [unfold parts_mass, parts, rsum; cbn [make_pub pe_colliders]; rewrite Ec; cbn; lra|]. split; [exact eq_refl|].
  split; [repeat split|]. intros [x y z]. cbn [ball_part p_tensor]. munfold. nra.
Qed.
Lemma sphere_wrong : exists m r, collider_new_from (CSphere (mkSphere None (vfin (mkV 0 0 0)) (Fin r) (Fin m) mat_default)) <> None /\
  c_moi (CSphere (mkSphere None (vfin (mkV 0 0 0)) (Fin r) (Fin m) mat_default)) <> mfin (mkM (2 / 5 * m * (r * r)) 0 0 0 (2 / 5 * m * (r * r)) 0 0 0 (2 / 5 * m * (r * r))).
Proof.
  exists 1, 2. split.
  - unfold collider_new_from. cbn [collider_valid]. unfold sphere_valid, MINIMUM_RADIUS. cbn [sp_radius sp_mass]. rewrite fin_0.
    change (@n_lt ER EReal) with er_lt. change (@n_le ER EReal) with er_le. change (n_frac 1 20) with (Fin (1 / 20)).
    rewrite (proj2 (er_lt_fin _ _)), (proj2 (er_le_fin _ _)) by lra. discriminate.
  - rewrite sphere_tensor. intros E. apply (f_equal (@m11 _)) in E. cbn [mfin m11] in E. apply fin_eq in E. lra.
Qed.
