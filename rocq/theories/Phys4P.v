(** * Phys4P: what forces do in a step, in exact arithmetic *)
From Coq Require Import ZArith Reals Lra Psatz Bool List Lia.
Import ListNotations.
From Verif Require Import Num Vec Res Arena RangeM Orient Colliders Collide EntityM SystemM OrderP Spec ResP ArenaP FrameP WakeP StepP Step2P Step3P ArithP RangeP RealSpec RealV OrientP Orient2P GeomP Geom4P PhysSpec PhysP Phys2P Phys3P.
Local Open Scope R_scope.

(** ** The tensor in world directions *)
Lemma rotate_fin (i0 : M) (q : Q) : rotate_moment (mfin i0) (qfin q) = mfin (rotate_moment i0 q).
Proof. exact eq_refl. Qed.
Lemma trans_rot (q : Q) (x : V) : unit_quat q -> mulmv (mtrans (qto_matrix q)) (qrot q x) = x.
Proof.
  intros U. assert (E : mulmv (mtrans (qto_matrix q)) = mulmv (qto_matrix (qinv q))).
  { f_equal. destruct q. apply mext; qunfold; ring. }
  rewrite E, <- qrot_matrix by now apply unit_qinv. now apply qrot_qinv_l.
Qed.
Lemma rotate_turned (i0 : M) (q : Q) : unit_quat q -> turned_tensor q i0 (rotate_moment i0 q).
Proof.
  intros U x. unfold rotate_moment. cbv zeta. rewrite !mulmm_assoc_v, trans_rot by exact U. symmetry. now apply qrot_matrix.
Qed.
Lemma mulmv_ext (a b : M) : (forall x : V, mulmv a x = mulmv b x) -> a = b.
Proof.
  intros H. pose proof (H (mkV 1 0 0)) as H1. pose proof (H (mkV 0 1 0)) as H2. pose proof (H (mkV 0 0 1)) as H3.
  destruct a as [a b0 c d e f g h i], b as [a' b' c' d' e' f' g' h' i']. vunfold.
  assert (P1 := f_equal (@vx _) H1). assert (P2 := f_equal (@vy _) H1). assert (P3 := f_equal (@vz _) H1).
  assert (P4 := f_equal (@vx _) H2). assert (P5 := f_equal (@vy _) H2). assert (P6 := f_equal (@vz _) H2).
  assert (P7 := f_equal (@vx _) H3). assert (P8 := f_equal (@vy _) H3). assert (P9 := f_equal (@vz _) H3).
  clear H H1 H2 H3. unfold mulmv in *. cbn [vx vy vz] in *. munfold. apply mext; cbn [m11 m12 m13 m21 m22 m23 m31 m32 m33]; lra.
Qed.
Lemma turned_unique (q : Q) (i0 t t' : M) : unit_quat q -> turned_tensor q i0 t -> turned_tensor q i0 t' -> t = t'.
Proof. intros U H H'. apply mulmv_ext. intros x. rewrite <- (qrot_qinv_r q x U). now rewrite H, H'. Qed.
Lemma rotate_same (i0 : M) (p q : Q) : unit_quat q -> same_rotation p q -> rotate_moment i0 p = rotate_moment i0 q.
Proof.
  intros U S. assert (E : qto_matrix p = qto_matrix q) by (destruct S as [->| ->]; [exact eq_refl|]; destruct q; apply mext; qunfold; ring).
  unfold rotate_moment. cbv zeta. now rewrite E.
Qed.

(** ** Sums *)
Lemma vsum_fin_from {A} (f : A -> Vec3 ER) (g : A -> V) (l : list A) : (forall x, In x l -> f x = vfin (g x)) -> forall a,
  fold_left vadd (map f l) (vfin a) = vfin (vadd a (vsum (map g l))).
Proof.
  induction l as [|x l IH]; intros H a; cbn [map fold_left vsum fold_right].
  - f_equal. apply vext; vunfold; ring.
  - rewrite (H x) by now left. rewrite vfin_add, IH by (intros y Hy; apply H; now right). f_equal. fold (vsum (map g l)).
    set (s := vsum (map g l)). set (b := g x). destruct a, b, s. apply vext; vunfold; ring.
Qed.
Lemma vsum_fin {A} (f : A -> Vec3 ER) (g : A -> V) (l : list A) : (forall x, In x l -> f x = vfin (g x)) -> Spec.vsum (map f l) = vfin (vsum (map g l)).
Proof.
  intros H. unfold Spec.vsum. replace (@vzero ER EReal) with (vfin (mkV 0 0 0)) by (unfold vzero; now rewrite fin_0). rewrite (vsum_fin_from f g) by exact H.
  f_equal. set (s := vsum _). destruct s. apply vext; vunfold; ring.
Qed.
Lemma vsum_scale {A} (g : A -> V) k (l : list A) : vsum (map (fun x => vscale (g x) k) l) = vscale (vsum (map g l)) k.
Proof.
  induction l as [|x l IH]; cbn [map vsum fold_right]; [apply vext; unfold vsum; cbn [fold_right]; vunfold; ring|]. fold (vsum (map g l)). fold (vsum (map (fun x => vscale (g x) k) l)). rewrite IH.
  set (s := vsum _). set (b := g x). destruct b, s. apply vext; vunfold; ring.
Qed.
Lemma vsum_mulmv {A} (g : A -> V) (a : M) (l : list A) : vsum (map (fun x => mulmv a (g x)) l) = mulmv a (vsum (map g l)).
Proof.
  induction l as [|x l IH]; cbn [map vsum fold_right]; [unfold vsum; cbn [fold_right]; destruct a; apply vext; munfold; ring|]. fold (vsum (map g l)). fold (vsum (map (fun x => mulmv a (g x)) l)). rewrite IH.
  set (s := vsum _). set (b := g x). destruct a, b, s. apply vext; munfold; ring.
Qed.

(** ** Velocities after the forces *)
Definition moment_about (p : V) (f : V * V) : V := vcross (vsub (snd f) p) (fst f).
Section Pushed.
  Variables (i : ientity ER) (m : R) (o : orientation R) (i0 : M) (v w : V) (fs : list (V * V)) (d : R).
  Hypothesis (Hr : rigid (make_pub i) m o i0 v w) (Hm : 0 < m).
  Lemma pushed_vel_fin : pushed_vel (Fin d) (map force_fin fs) i = vfin (vadd v (vscale (vsum (map fst fs)) (d / m))).
  Proof.
    destruct Hr as [R1 R2 R3 R4 R5 R6]. cbn [make_pub pe_last_total_mass pe_last_orient pe_last_prep_moi pe_vel pe_angvel] in *.
    unfold pushed_vel. rewrite R1, R5, fin_1, fin_div by lra. rewrite map_map.
    rewrite (vsum_fin _ (fun f => vscale (fst f) (1 / m))) by (intros x _; exact eq_refl).
    rewrite vsum_scale, vfin_scale, vfin_add. f_equal. set (s := vsum _). clear - Hm. destruct v, s. apply vext; vunfold; field; lra.
  Qed.
  Lemma last_moment_fin : last_moment (make_pub i) = mfin (rotate_moment i0 (rexp (rlog (o_rot o)))).
  Proof.
    destruct Hr as [R1 R2 R3 R4 R5 R6]. cbn [make_pub pe_last_total_mass pe_last_orient pe_last_prep_moi pe_vel pe_angvel] in *.
    unfold last_moment, make_orientation, make_pub, orient_new, finalize_moment. cbn [pe_pos pe_rot pe_last_orient pe_last_prep_moi o_rot].
    rewrite R2, R4. unfold rotation_vec. cbn [ofin o_rot]. rewrite log_fin, exp_fin. apply rotate_fin.
  Qed.
  Lemma inverse_moment_fin : get_inverse_moment i = mfin (rinv (rotate_moment i0 (o_rot o))).
  Proof.
    destruct Hr as [R1 R2 R3 R4 R5 R6]. cbn [make_pub pe_last_total_mass pe_last_orient pe_last_prep_moi pe_vel pe_angvel] in *.
    unfold get_inverse_moment, get_moment, finalize_moment. rewrite R2, R4. cbn [ofin o_rot]. rewrite rotate_fin. apply inverse_fin.
  Qed.
  Lemma pushed_angvel_fin : pushed_angvel (Fin d) (map force_fin fs) i =
    vfin (vadd w (mulmv (rinv (rotate_moment i0 (o_rot o))) (mulmv (rotate_moment i0 (rexp (rlog (o_rot o)))) (vscale (vsum (map (moment_about (o_pos o)) fs)) d)))).
  Proof.
    unfold pushed_angvel. rewrite last_moment_fin, inverse_moment_fin.
    destruct Hr as [R1 R2 R3 R4 R5 R6]. cbn [make_pub pe_last_total_mass pe_last_orient pe_last_prep_moi pe_vel pe_angvel] in *. rewrite R6, R2. cbn [ofin o_pos].
    rewrite map_map. rewrite (vsum_fin _ (fun f => mulmv (rotate_moment i0 (rexp (rlog (o_rot o)))) (moment_about (o_pos o) f))) by (intros x _; exact eq_refl).
    rewrite vsum_mulmv, vfin_scale, mfin_mulmv, vfin_add. now rewrite !mulmv_scale.
  Qed.
End Pushed.

(** ** In a step *)
Lemma finite_list s d h fs : finite_forces s d h -> forces_on s d h fs -> exists rs, fs = map force_fin rs.
Proof.
  intros F (e & _ & H). destruct (pushable e); [|subst; now exists []].
  unfold finite_forces in F. revert F H. generalize (ahandles (s_gens s)). intros l F H. induction H as [|gh f l fs Hf H IH]; [now exists []|].
  destruct (F gh f (or_introl eq_refl) Hf) as (r & ->). destruct IH as (rs & ->); [intros g x Hg; apply F; now right|]. now exists (r :: rs).
Qed.
Lemma step_newton ord (s s' : system ER) d h e m o i0 v w : good_order ord -> step ord s (Fin d) = Ok s' -> n_lt (n_abs (Fin d)) EPSILON = false ->
  get_entity s h = Some e -> rigid e m o i0 v w -> 0 < m -> pe_asleep e = false -> finite_forces s (Fin d) h -> ~ named (s_records s') h ->
  exists fs e' t, forces_on s (Fin d) h (map force_fin fs) /\ get_entity s' h = Some e' /\ turned_tensor (o_rot o) i0 t /\
    pe_vel e' = vfin (vadd v (vscale (vsum (map fst fs)) (d / m))) /\
    (turned (o_rot o) -> invertible t -> pe_angvel e' = vfin (vadd w (vscale (vsum (map (moment_about (o_pos o)) fs)) d))) /\
    (~ invertible t -> pe_angvel e' = vfin w) /\
    (vsum (map (moment_about (o_pos o)) fs) = mkV 0 0 0 -> pe_angvel e' = vfin w).
Proof.
  intros Ho H Hd He Hr Hm Ha Hf Hn. unfold get_entity in He. destruct (aget (s_ents s) h) as [i|] eqn:Ei; [|discriminate]. injection He as <-.
  destruct (step_bystander _ _ _ _ _ _ Ho H Hd Ei Hn) as (fs & i' & F1 & F2 & [(F3 & F4)|(F3 & _)]); [|cbn [make_pub pe_asleep] in Ha; congruence].
  destruct (finite_list _ _ _ _ Hf F1) as (rs & ->). exists rs, (make_pub i'), (rotate_moment i0 (o_rot o)).
  split; [exact F1|]. split; [unfold get_entity; now rewrite F2|]. pose proof (rg_unit_o _ _ _ _ _ _ Hr) as U.
  split; [now apply rotate_turned|]. cbn [make_pub pe_vel pe_angvel]. rewrite F3, F4.
  rewrite (pushed_vel_fin i m o i0 v w rs d Hr Hm), (pushed_angvel_fin i m o i0 v w rs d Hr). split; [exact eq_refl|].
  assert (Z0 : forall k, vadd w (vscale (mkV 0 0 0) k) = w) by (intros k; destruct w; apply vext; vunfold; ring).
  split; [|split].
  - intros Tu Inv. rewrite (rotate_same _ _ _ U (exp_log_turned _ U Tu)). rewrite <- mulmm_assoc_v, rinv_l by now apply invertible_det. now rewrite mulmv_unit.
  - intros Ni. rewrite rinv_zero; [rewrite mulmv_zero|].
    + f_equal. destruct w; apply vext; vunfold; ring.
    + destruct (Req_EM_T (det (rotate_moment i0 (o_rot o))) 0) as [Z|Z]; [exact Z|]. exfalso. apply Ni. now apply det_invertible.
  - intros ->. f_equal. set (a := rinv _). set (b := rotate_moment i0 _). destruct a, b, w. apply vext; munfold; ring.
Qed.

(** ** Gravity *)
Lemma gravity_force s d h e gs gh f : gravity_only s gs -> get_entity s h = Some e -> In gh (ahandles (s_gens s)) -> force_from s d h gh f ->
  exists g, get_generator s gh = Some (GenGravity (vfin g)) /\ f = mkF (vscale (vfin g) (pe_last_total_mass e)) (pe_pos e).
Proof.
  intros G He Hi (g0 & g & w & g' & H1 & H2 & H3 & H4). unfold gravity_only in G.
  assert (X : exists a, get_generator s gh = Some (GenGravity (vfin a))).
  { clear - G Hi. induction G as [|x a l gs Hx G IH]; [destruct Hi|]. destruct Hi as [->|Hi]; [now exists a|now apply IH]. }
  destruct X as (a & Ha). exists a. split; [exact Ha|]. assert (g0 = GenGravity (vfin a)) by congruence. subst g0. apply becomes_gravity in H2. subst g.
  cbn [make_force] in H4. rewrite H3, He in H4. cbn [unwrap rbind] in H4. apply ok_inj in H4. now injection H4 as <- _.
Qed.
Lemma gravity_forces s d h e gs fs m o i0 v w : gravity_only s gs -> get_entity s h = Some e -> rigid e m o i0 v w -> Forall2 (force_from s d h) (ahandles (s_gens s)) fs ->
  fs = map force_fin (map (fun g => (vscale g m, o_pos o)) gs).
Proof.
  intros G He Hr H. assert (P : pe_pos e = vfin (o_pos o)).
  { unfold get_entity in He. destruct (aget _ _); [|discriminate]. injection He as <-. pose proof (rg_orient _ _ _ _ _ _ Hr) as R2. cbn [make_pub pe_last_orient pe_pos] in *. now rewrite R2. }
  assert (Q : forall gh f, In gh (ahandles (s_gens s)) -> force_from s d h gh f -> exists g, get_generator s gh = Some (GenGravity (vfin g)) /\ f = force_fin (vscale g m, o_pos o)).
  { intros gh f Hi Hf. destruct (gravity_force _ _ _ _ _ _ _ G He Hi Hf) as (g & G1 & ->). exists g. split; [exact G1|]. rewrite (rg_mass _ _ _ _ _ _ Hr), P. exact eq_refl. }
  unfold gravity_only in G. revert Q G H. generalize (ahandles (s_gens s)). intros l Q G. revert fs. induction G as [|gh g l gs Hg G IH]; intros fs H; inversion H as [|? f ? fs' Hf H']; subst; [exact eq_refl|].
  cbn [map]. rewrite <- (IH (fun gh f Hi => Q gh f (or_intror Hi)) fs' H'). f_equal. destruct (Q gh f (or_introl eq_refl) Hf) as (g' & G1 & ->).
  rewrite Hg in G1. injection G1 as Gx Gy Gz. destruct g as [g1 g2 g3], g' as [k1 k2 k3]. cbn [vx vy vz] in *. now subst.
Qed.
Lemma gravity_no_moment gs m p : vsum (map (moment_about p) (map (fun g => (vscale g m, p)) gs)) = mkV 0 0 0.
Proof.
  induction gs as [|g gs IH]; cbn [map vsum fold_right]; [exact eq_refl|]. unfold vsum in IH. rewrite IH. unfold moment_about. cbn [fst snd].
  destruct p, g. apply vext; vunfold; ring.
Qed.
Lemma pushable_pub s h e m o i0 v w i : get_entity s h = Some e -> aget (s_ents s) h = Some i -> rigid e m o i0 v w -> / 1000000 < m -> pushable i = true.
Proof.
  intros He Hi Hr Hm. unfold get_entity in He. rewrite Hi in He. injection He as <-. pose proof (rg_mass _ _ _ _ _ _ Hr) as R1. cbn [make_pub pe_last_total_mass] in R1.
  unfold pushable. rewrite R1. apply andb_true_intro. split; [exact eq_refl|]. change (@n_lt ER EReal) with er_lt. unfold EPSILON.
  apply er_lt_fin. lra.
Qed.
Lemma step_gravity ord (s s' : system ER) d h e m o i0 v w gs : good_order ord -> step ord s (Fin d) = Ok s' -> n_lt (n_abs (Fin d)) EPSILON = false ->
  gravity_only s gs -> get_entity s h = Some e -> rigid e m o i0 v w -> / 1000000 < m -> pe_asleep e = false -> ~ named (s_records s') h ->
  exists e', get_entity s' h = Some e' /\ pe_vel e' = vfin (vadd v (vscale (vsum gs) d)) /\ pe_angvel e' = vfin w.
Proof.
  intros Ho H Hd G He Hr Hm Ha Hn.
  assert (Hm' : 0 < m) by lra. assert (Hi : exists i, aget (s_ents s) h = Some i /\ e = make_pub i).
  { unfold get_entity in He. destruct (aget (s_ents s) h) as [i|]; [|discriminate]. exists i. injection He as <-. now split. }
  destruct Hi as (i & Hi & Hie). pose proof (pushable_pub _ _ _ _ _ _ _ _ _ He Hi Hr Hm) as Hp.
  assert (Hf : finite_forces s (Fin d) h).
  { intros gh f Hg Hf. destruct (gravity_force _ _ _ _ _ _ _ G He Hg Hf) as (g & _ & ->). exists (vscale g m, o_pos o). unfold force_fin. cbn [fst snd].
    rewrite (rg_mass _ _ _ _ _ _ Hr). f_equal. pose proof (rg_orient _ _ _ _ _ _ Hr) as R2. subst e. cbn [make_pub pe_last_orient pe_pos] in *. now rewrite R2. }
  destruct (step_newton _ _ _ _ _ _ _ _ _ _ _ Ho H Hd He Hr Hm' Ha Hf Hn) as (fs & e' & t & F1 & F2 & _ & F4 & _ & _ & F7).
  destruct F1 as (i' & Hi' & F1). assert (i' = i) by congruence. subst i'. rewrite Hp in F1.
  pose proof (gravity_forces _ _ _ _ _ _ _ _ _ _ _ G He Hr F1) as E. assert (Inj : forall a b : list (V * V), map force_fin a = map force_fin b -> a = b).
  { clear. induction a as [|[[x1 x2 x3] [x4 x5 x6]] a IH]; intros [|[[y1 y2 y3] [y4 y5 y6]] b] E; cbn [map] in E; try discriminate; [exact eq_refl|].
    pose proof (f_equal (@List.tl _) E) as E2. cbn [tl] in E2. apply IH in E2. subst. f_equal.
    assert (E1 : force_fin (mkV x1 x2 x3, mkV x4 x5 x6) = force_fin (mkV y1 y2 y3, mkV y4 y5 y6)) by congruence. clear E. unfold force_fin, vfin in E1. cbn [fst snd vx vy vz] in E1.
    injection E1 as ? ? ? ? ? ?. now subst. }
  apply Inj in E. subst fs. exists e'. split; [exact F2|]. split; [|apply F7, gravity_no_moment].
  rewrite F4. f_equal. rewrite map_map. cbn [fst]. rewrite vsum_scale, map_id. set (a := vsum gs). clear - Hm'. destruct v, a. apply vext; vunfold; field; lra.
Qed.
Lemma step_torque_unit ord (s s' : system ER) d h e m o i0 v w : good_order ord -> step ord s (Fin d) = Ok s' -> n_lt (n_abs (Fin d)) EPSILON = false ->
  get_entity s h = Some e -> rigid e m o i0 v w -> 0 < m -> pe_asleep e = false -> finite_forces s (Fin d) h -> ~ named (s_records s') h ->
  turned (o_rot o) -> i0 = munit ->
  exists fs e', forces_on s (Fin d) h (map force_fin fs) /\ get_entity s' h = Some e' /\ turned_tensor (o_rot o) i0 munit /\
    pe_angvel e' = vfin (vadd w (vscale (mulmv munit (vsum (map (moment_about (o_pos o)) fs))) d)).
Proof.
  intros Ho H Hd He Hr Hm Ha Hf Hn Ht Hi. destruct (step_newton _ _ _ _ _ _ _ _ _ _ _ Ho H Hd He Hr Hm Ha Hf Hn) as (fs & e' & t & F1 & F2 & F3 & _ & F5 & _).
  subst i0. assert (T : turned_tensor (o_rot o) munit munit) by (intros x; now rewrite !mulmv_unit).
  assert (t = munit) by (eapply turned_unique; [exact (rg_unit_o _ _ _ _ _ _ Hr)|exact F3|exact T]). subst t.
  exists fs, e'. split; [exact F1|]. split; [exact F2|]. split; [exact T|]. rewrite mulmv_unit. apply F5; [exact Ht|]. exists munit. apply mext; unfold munit; munfold; ring.
Qed.
