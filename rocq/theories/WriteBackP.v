(** * WriteBackP: writing an entity back unchanged (C43) and the reported energy (C49), in exact arithmetic *)
From Coq Require Import ZArith Reals Lra Psatz Bool List Permutation.
Import ListNotations.
From Verif Require Import Num Vec Res Arena RangeM Orient Colliders Collide EntityM SystemM OrderP Spec ResP ArenaP FrameP StoreP ExecP ValidP RangeP RealSpec RealV OrientP Orient2P GeomP Geom4P PhysSpec PhysP Phys3P Phys4P MassP Mass2P Mass3P Mass4P.
Local Open Scope R_scope.

(** Going to a rotation vector and back, when the quaternion is the short way round. *)
Lemma exp_log_up q : unit_quat q -> 0 <= qw q -> turned q -> rexp (rlog q) = q.
Proof.
  intros Hq Hw [->|Ht]; [now rewrite rlog_ident, rexp_zero|]. pose proof (log_turned q Hq Ht) as T. pose proof tiny_pos as TP.
  revert T. unfold rlog. cbv zeta. destruct (Rle_dec 0 (qw q)) as [_|]; [|contradiction]. set (v := qvec q).
  destruct (Rlt_dec 0 (vdot v v)) as [L|L].
  2: { unfold vlen. replace (vdot (mkV 0 0 0) (mkV 0 0 0)) with 0 by (vunfold; ring). rewrite sqrt_0. lra. }
  assert (P : 0 < vlen v) by (apply sqrt_lt_R0; auto). assert (S : vlen v * vlen v = vdot v v) by (apply sqrt_sqrt; lra).
  assert (U : vlen v * vlen v + Rabs (qw q) * Rabs (qw q) = 1).
  { rewrite S, <- Rabs_mult, Rabs_pos_eq by nra. unfold unit_quat in Hq. unfold v, qvec; vunfold; lra. }
  destruct (atan2_quarter (vlen v) (Rabs (qw q)) P (Rabs_pos _) U) as (F & Sf & Cf). set (f := Ratan2 (vlen v) (Rabs (qw q))) in *.
  rewrite vlen_scale by (apply Rmult_le_pos; [left; now apply Rinv_0_lt_compat|lra]).
  replace (/ vlen v * (2 * f) * vlen v) with (2 * f) by (field; lra). intros T.
  unfold rexp. cbv zeta. set (h := vscale (vscale v _) _).
  assert (Lh : vlen h = f). { unfold h. rewrite !vlen_scale by (first [lra | apply Rmult_le_pos; [left; now apply Rinv_0_lt_compat|lra]]). field. lra. }
  destruct (Rle_dec _ (tiny * tiny)) as [L'|L'].
  { exfalso. assert (X : vlen h * vlen h = vdot h h) by (apply sqrt_sqrt; apply vdot_pos). rewrite Lh in X. assert (tiny * tiny < f * f) by nra. lra. }
  rewrite Lh, Sf, Cf.
  assert (X : forall c, c * (/ vlen v * (2 * f)) * / 2 * (vlen v / f) = c) by (intros; field; lra).
  assert (Eh : mkQ (vx h * (vlen v / f)) (vy h * (vlen v / f)) (vz h * (vlen v / f)) (Rabs (qw q)) = mkQ (vx v) (vy v) (vz v) (Rabs (qw q)))
    by (unfold h; cbn [vscale vx vy vz n_mul RNum]; now rewrite !X).
  rewrite Eh. unfold v. destruct q as [i j k w]. cbn [qi qj qk qw qvec vx vy vz] in *. now rewrite Rabs_pos_eq by auto.
Qed.

(** Only the mass fields and the orientation change. *)
Lemma recalc_shape hs cols (e e' : ientity ER) : recalculate_mass hs cols e = Ok e' -> exists o m i, e' = e_set_mass e o m i.
Proof.
  unfold recalculate_mass. intros H. inv_ok H. destruct x as [[fi m] v]. destruct (_ && _); destruct fi;
    try (apply ok_inj in H; subst e'; do 3 eexists; exact eq_refl); inv_ok H; apply ok_inj in H; subst e'; do 3 eexists; exact eq_refl.
Qed.
Lemma set_mass_same (e : ientity ER) o m i : o = e_orient e -> m = e_total_mass e -> i = e_prep_moi e -> e_set_mass e o m i = e.
Proof. intros -> -> ->. destruct e. exact eq_refl. Qed.
Lemma local_moment_perm ps ps' : Permutation ps ps' -> local_moment ps = local_moment ps'.
Proof. intros P. unfold local_moment. apply vsum_perm, Permutation_map, P. Qed.
Lemma parts_mass_perm ps ps' : Permutation ps ps' -> parts_mass ps = parts_mass ps'.
Proof. intros P. unfold parts_mass. apply rsum_perm, Permutation_map, P. Qed.
Lemma form_ext (a b : M) : (forall x y, vdot x (mulmv a y) = vdot x (mulmv b y)) -> a = b.
Proof.
  intros H. pose proof (H (mkV 1 0 0) (mkV 1 0 0)) as H1. pose proof (H (mkV 1 0 0) (mkV 0 1 0)) as H2. pose proof (H (mkV 1 0 0) (mkV 0 0 1)) as H3.
  pose proof (H (mkV 0 1 0) (mkV 1 0 0)) as H4. pose proof (H (mkV 0 1 0) (mkV 0 1 0)) as H5. pose proof (H (mkV 0 1 0) (mkV 0 0 1)) as H6.
  pose proof (H (mkV 0 0 1) (mkV 1 0 0)) as H7. pose proof (H (mkV 0 0 1) (mkV 0 1 0)) as H8. pose proof (H (mkV 0 0 1) (mkV 0 0 1)) as H9.
  clear H. destruct a as [a1 a2 a3 a4 a5 a6 a7 a8 a9], b as [b1 b2 b3 b4 b5 b6 b7 b8 b9]. unfold vdot, mulmv in *. cbn [vx vy vz m11 m12 m13 m21 m22 m23 m31 m32 m33 n_add n_mul RNum] in *. f_equal; lra.
Qed.
Lemma local_inertia_perm off ps ps' : Permutation ps ps' -> local_inertia off ps = local_inertia off ps'.
Proof. intros P. apply form_ext. intros x y. rewrite !inertia_form. apply rsum_perm, Permutation_map, P. Qed.
Lemma world_same (o o' : orientation R) : unit_o o -> o_rot o' = o_rot o -> o_off o' = o_off o -> (forall x, position_into_world o' x = position_into_world o x) -> o' = o.
Proof.
  intros U E1 E2 H. assert (U' : unit_o o') by (unfold unit_o; now rewrite E1).
  specialize (H (mkV 0 0 0)). rewrite !world_form in H by assumption. rewrite E1, E2 in H. destruct o as [p q f], o' as [p' q' f']. cbn [o_pos o_rot o_off] in *. subst.
  f_equal. set (a := qrot q _) in H. clearbody a. destruct a as [a1 a2 a3], p as [p1 p2 p3], p' as [r1 r2 r3]. unfold vadd in H. cbn [vx vy vz] in H.
  assert (H1 := f_equal (@vx _) H). assert (H2 := f_equal (@vy _) H). assert (H3 := f_equal (@vz _) H). cbn [vx vy vz n_add RNum] in *. f_equal; lra.
Qed.
(** Recalculating what is cached changes nothing. *)
Definition recalculable (s : system ER) (i : ientity ER) (o : orientation R) : Prop :=
  ((exists pt, forall c, In c (e_colliders i) -> is_part s c (pt c)) \/ (exists c k, In c (e_colliders i) /\ get_collider s c = Some k /\ mass_of k = PInf)) /\
  (e_colliders i <> [] \/ o_off o = mkV 0 0 0).
Lemma mass_of_c' (k : collider ER) : mass_of k = c_mass k.
Proof. destruct k; exact eq_refl. Qed.
Lemma recalc_stable s h i o hs e' : reachable s -> aget (s_ents s) h = Some i -> e_orient i = ofin o -> recalculable s i o ->
  Permutation hs (e_colliders i) -> recalculate_mass hs (s_cols s) i = Ok e' -> e' = i.
Proof.
  intros R Hi Eo (Hp & Hoff) P H. destruct (reachable_cached s h i R Hi) as (G & C).
  assert (U : unit_o o) by (apply unit_fin; rewrite Eo in G; exact G).
  destruct Hp as [(pt & Hp)|(c & k & Hc & Gk & Em)].
  - assert (Hp2 : forall c, In c hs -> part_in (s_cols s) c (pt c)) by (intros c Hc; apply part_in_of, Hp; eapply Permutation_in; eauto).
    destruct (recalc_finite _ _ _ _ _ _ Eo U Hp2 H) as (o' & Eo' & Er & Ew & E1 & E2). cbv zeta in *.
    pose proof (recalc_exact _ _ _ _ _ Hp2 H) as (X & Y). cbv zeta in X, Y.
    assert (S : o_off o' = o_off o /\ e_total_mass i = (if Rlt_dec 0 (parts_mass (map pt hs)) then n_add (e_own_mass i) (Fin (parts_mass (map pt hs))) else e_own_mass i) /\
                e_prep_moi i = mfin (local_inertia (o_off o) (map pt hs))).
    { destruct C as [(C1 & C2 & C3)|(hs0 & e0 & e1 & P0 & G0 & Rc & S1 & S2 & S3 & S4)].
      - rewrite C1 in P. apply Permutation_sym, Permutation_nil in P. subst hs. cbn [map] in *. unfold parts_mass, rsum in *. cbn [map fold_right] in *.
        destruct (Rlt_dec 0 0); [lra|]. destruct Hoff as [Hoff|Hoff]; [contradiction|]. rewrite Hoff. split; [apply E2; lra|]. split; [exact C2|]. rewrite C3. exact eq_refl.
      - assert (PP : Permutation (map pt hs0) (map pt hs)) by (apply Permutation_map; eapply Permutation_trans; [exact P0|apply Permutation_sym, P]).
        assert (Hp0 : forall c, In c hs0 -> part_in (s_cols s) c (pt c)) by (intros c Hc; apply part_in_of, Hp; eapply Permutation_in; eauto).
        rewrite Eo in S4. destruct (recalc_offset _ _ _ _ _ _ G0 Hp0 Rc S4) as (F1 & F2). pose proof (recalc_exact _ _ _ _ _ Hp0 Rc) as (X0 & Y0). cbv zeta in *.
        cbn [o_off ofin] in F1, F2. specialize (Y0 _ S4).
        rewrite (parts_mass_perm _ _ PP) in *. rewrite (local_moment_perm _ _ PP) in *. rewrite (local_inertia_perm _ _ _ PP) in Y0.
        assert (O1 : e_own_mass e0 = e_own_mass i) by (rewrite <- S1; symmetry; exact (proj2 (recalc_rot_same _ _ _ _ Rc))).
        split; [|split].
        + destruct (Rlt_dec 0 (parts_mass (map pt hs))) as [L|L]; [rewrite (E1 L), (F1 L)|rewrite (E2 L), (F2 L)]; exact eq_refl.
        + rewrite <- S2. destruct (Rlt_dec _ _); destruct X0 as (X0 & _); rewrite X0, O1; exact eq_refl.
        + rewrite <- S3. exact Y0. }
    destruct S as (S1 & S2 & S3). assert (Eoo : o' = o) by (apply world_same; auto). subst o'.
    destruct (recalc_shape _ _ _ _ H) as (ox & mx & ix & ->). cbn [e_orient e_total_mass e_prep_moi e_set_mass] in *. apply set_mass_same.
    + congruence.
    + rewrite S2. destruct (Rlt_dec _ _); destruct X as (X & _); exact X.
    + rewrite S3. apply Y. rewrite Eo'. exact eq_refl.
  - assert (Ec : c_mass k = PInf) by (rewrite <- mass_of_c'; exact Em). unfold get_collider in Gk.
    assert (Hc2 : In c hs) by (eapply Permutation_in; [apply Permutation_sym, P|exact Hc]).
    destruct (recalc_inf _ _ _ _ _ _ Hc2 Gk Ec H) as (M1 & M2).
    destruct C as [(C1 & _)|(hs0 & e0 & e1 & P0 & G0 & Rc & S1 & S2 & S3 & S4)]; [rewrite C1 in Hc; destruct Hc|].
    assert (Hc0 : In c hs0) by (eapply Permutation_in; [apply Permutation_sym, P0|exact Hc]).
    destruct (recalc_inf _ _ _ _ _ _ Hc0 Gk Ec Rc) as (N1 & N2).
    assert (Z : o_off o = mkV 0 0 0).
    { rewrite Eo in S4. rewrite N2 in S4. cbn [ofin o_off] in S4.
      assert (F : finite_v (vsub (o_off (e_orient e0)) (o_off (e_orient e0)))) by (rewrite S4; exists (o_off o); exact eq_refl).
      apply vsub_back in F. destruct F as ((x & Fx) & _). rewrite Fx, vfin_sub in S4. apply vfin_inj in S4. rewrite <- S4. destruct x. apply vext; vunfold; ring. }
    assert (TI : forall hs e e', In c hs -> recalculate_mass hs (s_cols s) e = Ok e' -> e_total_mass e' = PInf /\
       e_orient e' = (let o := e_orient e in let off := vsub (o_off o) (o_off o) in
       mkO (vadd (o_pos o) (direction_into_world (mkO (o_pos o) (o_rot o) off) (o_off o))) (o_rot o) off)).
    { clear - Gk Ec. intros hs e e' Hc H. unfold recalculate_mass in H. inv_ok H. destruct x as [[fi m] v]. apply com_loop_spec in E. destruct fi.
      - rewrite andb_false_r in H. apply ok_inj in H. subst e'. split; exact eq_refl.
      - exfalso. destruct E as (l & L & _). clear - L Hc Gk Ec. induction L as [|c' k' hs l (G' & I') L IH]; [destruct Hc|].
        destruct Hc as [->|Hc]; [|apply IH, Hc]. rewrite Gk in G'. injection G' as <-. rewrite Ec in I'. discriminate I'. }
    destruct (TI _ _ _ Hc2 H) as (T1 & T2). destruct (TI _ _ _ Hc0 Rc) as (T3 & _).
    destruct (recalc_shape _ _ _ _ H) as (ox & mx & ix & ->). cbn [e_orient e_total_mass e_prep_moi e_set_mass] in *. apply set_mass_same; [|congruence|congruence].
    rewrite T2, Eo. cbv zeta. cbn [ofin o_pos o_rot o_off]. rewrite Z, vfin_sub.
    change (direction_into_world (mkO (vfin (o_pos o)) (qfin (o_rot o)) (vfin (vsub (mkV 0 0 0) (mkV 0 0 0)))) (vfin (mkV 0 0 0))) with
      (vfin (direction_into_world (mkO (o_pos o) (o_rot o) (vsub (mkV 0 0 0) (mkV 0 0 0))) (mkV 0 0 0))). rewrite direction_world_form, vfin_add. cbn [o_rot]. rewrite qrot_zero.
    unfold ofin. f_equal; [f_equal; destruct (o_pos o); apply vext; vunfold; ring|]. rewrite Z. f_equal. apply vext; vunfold; ring.
Qed.

Lemma no_move (v : V) : n_lt EPSILON (vmag (vsub (vfin v) (vfin v))) = false.
Proof.
  rewrite vfin_sub. assert (E : vsub v v = mkV 0 0 0) by (destruct v; apply vext; vunfold; ring). rewrite E.
  unfold vmag, vnorm2. rewrite vfin_dot. replace (vdot (mkV 0 0 0) (mkV 0 0 0)) with 0 by (vunfold; ring).
  change (n_sqrt (Fin 0)) with (er_sqrt (Fin 0)). unfold er_sqrt. destruct (Rlt_dec 0 0); [lra|]. rewrite sqrt_0.
  change (EPSILON : ER) with (Fin (1 / 1000000)). change (@n_lt ER EReal) with er_lt. apply er_lt_fin_f. lra.
Qed.
Lemma write_back ord s h e o : good_order ord -> reachable s -> get_entity s h = Some e -> pe_last_orient e = ofin o ->
  0 <= qw (o_rot o) -> turned (o_rot o) -> finite_v (pe_vel e) -> finite_v (pe_angvel e) -> pe_own_mass e <> ENaN ->
  ((exists pt, parts_of s e pt) \/ (exists c k, In c (pe_colliders e) /\ get_collider s c = Some k /\ mass_of k = PInf)) ->
  pe_colliders e <> [] \/ o_off o = mkV 0 0 0 ->
  update_entity ord s h e = Ok (s, true).
Proof.
  intros Ho R He Eo Hw Ht (v & Hv) (w & Hav) Hm Hp Hoff. pose proof (stored_own_mass s R h e He) as Hn.
  pose proof (reachable_unit s h e o R He Eo) as U.
  destruct (get_internal s h e He) as (i & Hi & ->). cbn [make_pub pe_last_orient pe_colliders pe_vel pe_angvel pe_own_mass] in *.
  unfold update_entity. rewrite Hi. unfold update_from. cbn [make_pub pe_last_orient pe_colliders pe_vel pe_angvel pe_own_mass pe_rot pe_pos]. rewrite Hn. cbv zeta.
  unfold rotation_vec. rewrite Eo. cbn [ofin o_rot o_pos o_off]. rewrite log_fin, exp_fin, exp_log_up by assumption.
  assert (C1 : n_eq (e_own_mass i) (e_own_mass i) = true).
  { clear - Hm. change (@n_eq ER EReal) with er_eq. destruct (e_own_mass i) as [r| | |]; try reflexivity; [|congruence]. simpl. destruct (Req_EM_T r r); [reflexivity|congruence]. }
  rewrite C1, Hv, Hav, !no_move. cbn [negb orb].
  match goal with |- context [n_lt EPSILON ?d] => assert (D : n_lt EPSILON d = false) end.
  { assert (S0 : forall x, n_mul (n_sub (Fin x) (Fin x)) (n_sub (Fin x) (Fin x)) = Fin 0) by (intros x; rewrite fin_sub, fin_mul; f_equal; ring).
    cbn [qfin qw qi qj qk]. rewrite !S0, !fin_add. replace (0 + 0 + 0 + 0) with 0 by ring.
    change (n_sqrt (Fin 0)) with (er_sqrt (Fin 0)). unfold er_sqrt. destruct (Rlt_dec 0 0); [lra|]. rewrite sqrt_0.
    change (EPSILON : ER) with (Fin (1 / 1000000)). change (@n_lt ER EReal) with er_lt. apply er_lt_fin_f. lra. }
  rewrite D.
  match goal with |- rbind (recalculate_mass _ _ ?x) _ = _ => assert (Ei : x = i) end.
  { destruct i. cbn in *. subst. exact eq_refl. }
  rewrite Ei. destruct (recalculate_mass (ord KColliders h (e_colliders i)) (s_cols s) i) as [e2| |] eqn:Er.
  2,3: exfalso; destruct (StoreP.recalc_total (ord KColliders h (e_colliders i)) (s_cols s) i) as (x & Hx); [|congruence];
       intros c Hc; pose proof (reachable_Inv _ R) as I; destruct (inv_fwd _ I h i c Hi) as (k & Hk & _);
       [eapply Permutation_in; [apply Ho|exact Hc]|congruence].
  cbn [rbind]. assert (E2 : e2 = i).
  { eapply recalc_stable; [exact R|exact Hi|exact Eo| | |exact Er].
    - split; [|exact Hoff]. destruct Hp as [Hp|Hp]; [left|right]; exact Hp.
    - apply Ho. }
  subst e2. rewrite (aset_same _ _ _ Hi). destruct s; exact eq_refl.
Qed.

(** ** The reported energy *)
Lemma energy_fin (m : R) (t : M) (v w : V) :
  n_add (n_div (vdot (vscale (vfin v) (Fin m)) (vfin v)) n2) (n_div (vdot (mulmv (mfin t) (vfin w)) (vfin w)) n2) =
  Fin (1 / 2 * m * vdot v v + 1 / 2 * vdot w (mulmv t w)).
Proof.
  rewrite vfin_scale, !vfin_dot, mfin_mulmv, vfin_dot, fin_2, !fin_div, fin_add by lra. f_equal.
  set (u := mulmv t w). clearbody u. destruct u, v, w. vunfold. field.
Qed.
Lemma reported_energy s h e m o v w pt : reachable s -> get_entity s h = Some e -> pe_own_mass e = Fin m -> pe_last_orient e = ofin o ->
  pe_vel e = vfin v -> pe_angvel e = vfin w -> parts_of s e pt -> turned (o_rot o) ->
  let energy := 1 / 2 * (m + parts_mass (parts e pt)) * vdot v v + 1 / 2 * parts_inertia o (o_pos o) (parts e pt) w in
  pub_energy e = Fin energy /\
  ((forall c, In c (pe_colliders e) -> psd (p_tensor (pt c))) -> 0 <= energy) /\
  (v = mkV 0 0 0 -> w = mkV 0 0 0 -> pub_energy e = Fin 0).
Proof.
  intros Rs He Em Eo Ev Ew Hp Ht energy. pose proof (reachable_total_exact s h e m pt Rs He Em Hp) as Etot.
  destruct (reachable_tensor s h e o pt Rs He Eo Hp) as (i0 & t & Ei & Tt & Et & _ & Ps).
  pose proof (reachable_unit s h e o Rs He Eo) as U. pose proof (stored_own_mass s Rs h e He) as Hn.
  assert (Hm : 0 <= m). { rewrite Em, fin_0 in Hn. change (@n_lt ER EReal) with er_lt in Hn. apply er_lt_fin_f in Hn. exact Hn. }
  pose proof (parts_mass_ge s e pt Rs Hp) as Hpm.
  assert (Tr : t = rotate_moment i0 (o_rot o)).
  { apply form_ext. intros x y. rewrite (turned_form _ _ _ _ _ U Tt), (turned_form _ _ _ _ _ U (rotate_turned i0 (o_rot o) U)). exact eq_refl. }
  assert (E : pub_energy e = Fin energy).
  { destruct (get_internal s h e He) as (i & Hi & ->).
    assert (Rg : rigid (make_pub i) (m + parts_mass (parts (make_pub i) pt)) o i0 v w) by (constructor; assumption).
    unfold pub_energy. rewrite (last_moment_fin i _ _ _ _ _ Rg), (rotate_same _ _ _ U (exp_log_turned _ U Ht)), <- Tr, Ev, Ew, Etot. rewrite energy_fin.
    unfold energy. now rewrite Et. }
  split; [exact E|]. split.
  - intros Hps. unfold energy. rewrite <- Et. destruct (Ps Hps) as (_ & (_ & Pt)). pose proof (Pt w). pose proof (vdot_pos v). nra.
  - intros -> ->. rewrite E. f_equal. unfold energy. rewrite <- Et. clear. destruct t. munfold. field.
Qed.
(** The internal one, which decides about sleeping, agrees. *)
Lemma internal_energy s h i m o v w pt : reachable s -> aget (s_ents s) h = Some i -> e_own_mass i = Fin m -> e_orient i = ofin o ->
  e_vel i = vfin v -> e_angvel i = vfin w -> parts_of s (make_pub i) pt ->
  get_total_energy i = Fin (1 / 2 * (m + parts_mass (parts (make_pub i) pt)) * vdot v v + 1 / 2 * parts_inertia o (o_pos o) (parts (make_pub i) pt) w).
Proof.
  intros Rs Hi Em Eo Ev Ew Hp. assert (He : get_entity s h = Some (make_pub i)) by (unfold get_entity; now rewrite Hi).
  pose proof (reachable_total_exact s h _ m pt Rs He Em Hp) as Etot. cbn [make_pub pe_last_total_mass] in Etot.
  destruct (reachable_tensor s h _ o pt Rs He Eo Hp) as (i0 & t & Ei & Tt & Et & _). cbn [make_pub pe_last_prep_moi] in Ei.
  pose proof (reachable_unit s h _ o Rs He Eo) as U.
  assert (Tr : t = rotate_moment i0 (o_rot o)).
  { apply form_ext. intros x y. rewrite (turned_form _ _ _ _ _ U Tt), (turned_form _ _ _ _ _ U (rotate_turned i0 (o_rot o) U)). exact eq_refl. }
  unfold get_total_energy. rewrite Etot. cbn [n_isinf EReal er_isinf]. unfold get_moment, finalize_moment. rewrite Ei, Eo. cbn [ofin o_rot]. rewrite rotate_fin, <- Tr, Ev, Ew.
  cbv zeta. rewrite energy_fin. now rewrite Et.
Qed.
Lemma immovable_energy {T} {N : Num T} (i : ientity T) thr : n_isinf (e_total_mass i) = true -> n_lt thr n0 = false -> n_lt thr n_inf = true ->
  (n_lt thr (get_total_energy i) = false <-> n_lt (vmag (e_vel i)) EPSILON = true /\ n_lt (vmag (e_angvel i)) EPSILON = true).
Proof.
  intros Hi H0 H1. unfold get_total_energy. rewrite Hi. destruct (n_lt (vmag (e_vel i)) EPSILON), (n_lt (vmag (e_angvel i)) EPSILON); cbn [andb];
    rewrite ?H0, ?H1; split; try discriminate; intros; try exact eq_refl; try split; try exact eq_refl; match goal with X : _ /\ _ |- _ => destruct X; discriminate end.
Qed.
