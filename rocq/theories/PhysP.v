(** * PhysP: the response to one collision, in exact arithmetic *)
From Coq Require Import ZArith Reals Lra Psatz Bool List.
Import ListNotations.
From Verif Require Import Num Vec Arena RangeM Orient Colliders Collide EntityM SystemM OrderP Spec RangeP RealSpec RealV OrientP PhysSpec.
Local Open Scope R_scope.

Ltac munfold := cbv [b_mass b_tensor b_pos b_vel b_spin munit mzero mdiag1 mdiag madd msub mscale vouter] in *; qunfold.

(** ** Inverse tensors *)
Definition det (m : M) : R :=
  m11 m * (m22 m * m33 m - m32 m * m23 m) - m12 m * (m21 m * m33 m - m31 m * m23 m) + m13 m * (m21 m * m32 m - m31 m * m22 m).
Definition rinv (m : M) : M :=
  if Req_EM_T (det m) 0 then mkM 0 0 0 0 0 0 0 0 0
  else mkM
    ((m22 m * m33 m - m32 m * m23 m) / det m) ((m13 m * m32 m - m33 m * m12 m) / det m) ((m12 m * m23 m - m22 m * m13 m) / det m)
    (- (m21 m * m33 m - m31 m * m23 m) / det m) ((m11 m * m33 m - m31 m * m13 m) / det m) ((m13 m * m21 m - m23 m * m11 m) / det m)
    ((m21 m * m32 m - m31 m * m22 m) / det m) ((m12 m * m31 m - m32 m * m11 m) / det m) ((m11 m * m22 m - m21 m * m12 m) / det m).
Lemma mfin_zero : mzero = mfin (mkM 0 0 0 0 0 0 0 0 0).
Proof. unfold mzero, mfin. cbn [m11 m12 m13 m21 m22 m23 m31 m32 m33]. now rewrite fin_0. Qed.
Lemma inverse_fin (m : M) : match mtry_inverse (mfin m) with Some i => i | None => mzero end = mfin (rinv m).
Proof.
  unfold mtry_inverse. cbn [mfin m11 m12 m13 m21 m22 m23 m31 m32 m33]. rewrite !fin_mul, !fin_sub, !fin_mul, !fin_sub, !fin_add, !fin_neg, fin_0.
  fold (det m). unfold rinv. change (@n_eq ER EReal) with er_eq. unfold er_eq.
  destruct (Req_EM_T (det m) 0) as [E|E]; [apply mfin_zero|]. rewrite !fin_div by auto. exact eq_refl.
Qed.
Lemma rinv_zero m : det m = 0 -> rinv m = mkM 0 0 0 0 0 0 0 0 0.
Proof. intros E. unfold rinv. destruct (Req_EM_T _ _); [|contradiction]. exact eq_refl. Qed.
Lemma rinv_r m : det m <> 0 -> mulmm m (rinv m) = munit.
Proof.
  intros E. unfold rinv. destruct (Req_EM_T _ _); [contradiction|]. unfold det in *. destruct m as [a b c d e f g h i]. cbn [m11 m12 m13 m21 m22 m23 m31 m32 m33] in *.
  apply mext; munfold; field; exact E.
Qed.
Lemma rinv_l m : det m <> 0 -> mulmm (rinv m) m = munit.
Proof.
  intros E. unfold rinv. destruct (Req_EM_T _ _); [contradiction|]. unfold det in *. destruct m as [a b c d e f g h i]. cbn [m11 m12 m13 m21 m22 m23 m31 m32 m33] in *.
  apply mext; munfold; field; exact E.
Qed.
Lemma det_mul a b : det (mulmm a b) = det a * det b.
Proof. unfold det. destruct a, b. qunfold. ring. Qed.
Lemma invertible_det m : invertible m -> det m <> 0.
Proof.
  intros [b H] E. assert (D : det (mulmm m b) = det munit) by now rewrite H. rewrite det_mul, E in D. unfold det in D. munfold. lra.
Qed.
Lemma mulmv_unit (v : V) : mulmv munit v = v.
Proof. destruct v. apply vext; munfold; ring. Qed.
Lemma mulmv_zero (v : V) : mulmv (mkM 0 0 0 0 0 0 0 0 0) v = mkV 0 0 0.
Proof. destruct v. apply vext; munfold; ring. Qed.
Lemma sym_dot (a : M) (x y : V) : symmetric a -> vdot x (mulmv a y) = vdot (mulmv a x) y.
Proof. intros (H1 & H2 & H3). destruct a as [a b c d e f g h i], x, y. cbn [m11 m12 m13 m21 m22 m23 m31 m32 m33] in *. subst. munfold. ring. Qed.
Lemma rinv_sym m : symmetric m -> symmetric (rinv m).
Proof.
  intros (H1 & H2 & H3). unfold rinv. destruct (Req_EM_T _ _); [repeat split; exact eq_refl|]. destruct m as [a b c d e f g h i]. cbn [m11 m12 m13 m21 m22 m23 m31 m32 m33] in *. subst.
  repeat split; cbn [m11 m12 m13 m21 m22 m23 m31 m32 m33]; unfold Rdiv; f_equal; ring.
Qed.
Lemma rinv_psd m : psd m -> psd (rinv m).
Proof.
  intros [S P]. split; [now apply rinv_sym|]. intros x. destruct (Req_EM_T (det m) 0) as [E|E].
  - rewrite rinv_zero, mulmv_zero by auto. destruct x. vunfold. lra.
  - assert (H : mulmv m (mulmv (rinv m) x) = x) by (rewrite <- mulmm_assoc_v, rinv_r, mulmv_unit; auto).
    rewrite <- H at 1. rewrite vdot_comm. apply P.
Qed.

(** ** Impulses *)
(** The inverse tensor of a body, and the velocities after an impulse [j] at [p]. *)
Definition b_inv (b : body) : M := rinv (b_tensor b).
Definition pushed (b : body) (p j : V) : body :=
  mkBody (b_mass b) (b_tensor b) (b_pos b) (vadd (b_vel b) (vscale j (inv_mass (b_mass b))))
    (vadd (b_spin b) (mulmv (b_inv b) (vcross (vsub p (b_pos b)) j))).
Lemma fin_inverse_mass m : massive m -> n_div n1 m = Fin (inv_mass m).
Proof.
  rewrite fin_1. destruct m as [r| | |]; cbn [massive inv_mass]; intros H; try contradiction.
  - rewrite fin_div by lra. f_equal. lra.
  - exact eq_refl.
Qed.
Lemma mfin_mulmv (m : M) (v : V) : mulmv (mfin m) (vfin v) = vfin (mulmv m v).
Proof. exact eq_refl. Qed.
Lemma body_inverse e b : is_body e b -> get_inverse_moment e = mfin (b_inv b).
Proof. intros (_ & H & _). unfold get_inverse_moment, b_inv. rewrite H. apply inverse_fin. Qed.
Lemma apply_body e b p j : is_body e b -> massive (b_mass b) -> is_body (apply_impulse e (vfin p) (vfin j)) (pushed b p j).
Proof.
  intros B Hm. pose proof (body_inverse e b B) as Hi. destruct B as (M0 & I & P & Hv & W). unfold apply_impulse. rewrite Hi, P, Hv, W, M0, fin_inverse_mass by auto.
  rewrite vfin_scale, vfin_add, vfin_sub, vfin_cross, mfin_mulmv, vfin_add.
  unfold is_body, get_moment, e_set_vels, pushed. cbn [e_orient e_total_mass e_vel e_angvel e_prep_moi b_mass b_tensor b_pos b_vel b_spin]. repeat split; auto.
Qed.
Lemma velocity_body e b p : is_body e b -> velocity_at e (vfin p) = vfin (speed_at b p).
Proof. intros (_ & _ & P & Hv & W). unfold velocity_at. now rewrite P, Hv, W, vfin_sub, vfin_cross, vfin_add. Qed.
Definition spread (b : body) (p n : V) : R :=
  vdot (vcross (mulmv (b_inv b) (vcross (vsub p (b_pos b)) n)) (vsub p (b_pos b))) n.
Definition denominator (b1 b2 : body) (p n : V) : R := inv_mass (b_mass b1) + inv_mass (b_mass b2) + spread b1 p n + spread b2 p n.
Lemma denominator_fin e1 e2 b1 b2 ts p n : is_body e1 b1 -> is_body e2 b2 -> massive (b_mass b1) -> massive (b_mass b2) ->
  impulse_denominator e1 e2 (mkC ts (vfin p) (vfin n)) = Fin (denominator b1 b2 p n).
Proof.
  intros B1 B2 M1 M2. unfold impulse_denominator. cbn [c_pos c_normal]. rewrite (body_inverse e1 b1 B1), (body_inverse e2 b2 B2).
  destruct B1 as (-> & _ & -> & _ & _), B2 as (-> & _ & -> & _ & _).
  rewrite !fin_inverse_mass by auto. rewrite !vfin_sub, !vfin_cross, !mfin_mulmv, !vfin_cross, !vfin_dot, !fin_add. exact eq_refl.
Qed.
Lemma triple (a b c : V) : vdot (vcross a b) c = vdot a (vcross b c).
Proof. destruct a, b, c. vunfold. ring. Qed.
Lemma spread_form b p n : spread b p n = vdot (vcross (vsub p (b_pos b)) n) (mulmv (b_inv b) (vcross (vsub p (b_pos b)) n)).
Proof. unfold spread. rewrite triple. apply vdot_comm. Qed.
Lemma spread_pos b p n : sound b -> 0 <= spread b p n.
Proof. intros [_ P]. rewrite spread_form. unfold b_inv. apply rinv_psd in P. apply P. Qed.
Lemma inv_mass_pos m : massive m -> 0 <= inv_mass m.
Proof. destruct m; cbn; intros; try lra. left. now apply Rinv_0_lt_compat. Qed.
Lemma denominator_pos b1 b2 p n : sound b1 -> sound b2 -> b_mass b1 <> PInf \/ b_mass b2 <> PInf -> 0 < denominator b1 b2 p n.
Proof.
  intros S1 S2 H. pose proof (spread_pos b1 p n S1). pose proof (spread_pos b2 p n S2). unfold denominator.
  assert (F : forall m, massive m -> m <> PInf -> 0 < inv_mass m).
  { intros [r| | |] Hm N; cbn in *; try contradiction. now apply Rinv_0_lt_compat. }
  destruct S1 as [M1 _], S2 as [M2 _]. pose proof (inv_mass_pos _ M1). pose proof (inv_mass_pos _ M2).
  destruct H as [H|H]; apply F in H; auto; lra.
Qed.

(** How an impulse changes the velocity at the point of application. *)
Lemma pushed_speed b p j : speed_at (pushed b p j) p =
  vadd (speed_at b p) (vadd (vscale j (inv_mass (b_mass b))) (vcross (mulmv (b_inv b) (vcross (vsub p (b_pos b)) j)) (vsub p (b_pos b)))).
Proof.
  unfold speed_at, pushed. cbn [b_vel b_spin b_pos]. set (a := mulmv _ _). destruct a, (b_vel b), (b_spin b), (b_pos b), p, j. apply vext; vunfold; ring.
Qed.
Lemma mulmv_scale (a : M) (v : V) k : mulmv a (vscale v k) = vscale (mulmv a v) k.
Proof. destruct a, v. apply vext; munfold; ring. Qed.
Lemma vcross_scale (a b : V) k : vcross a (vscale b k) = vscale (vcross a b) k.
Proof. destruct a, b. apply vext; vunfold; ring. Qed.

(** The impulse along [n] of strength [k]. *)
Lemma pushed_normal b p n k : vdot (speed_at (pushed b p (vscale n k)) p) n =
  vdot (speed_at b p) n + k * (inv_mass (b_mass b) * vdot n n + spread b p n).
Proof.
  rewrite pushed_speed. unfold spread. rewrite vcross_scale, mulmv_scale. set (a := mulmv _ _). set (r := vsub p _). set (u := speed_at b p).
  destruct a, r, u, n. vunfold. ring.
Qed.

Section Pair.
  Variables (e1 e2 : ientity ER) (b1 b2 : body) (p n : V) (ts : range ER) (rest : R).
  Hypothesis (B1 : is_body e1 b1) (B2 : is_body e2 b2) (S1 : sound b1) (S2 : sound b2).
  Hypothesis Hmass : b_mass b1 <> PInf \/ b_mass b2 <> PInf.
  Hypothesis Hn : vdot n n = 1.
  Let c := mkC ts (vfin p) (vfin n).
  Let u := vdot (relative b1 b2 p) n.
  Let K := denominator b1 b2 p n.
  Let k := - (1 + rest) * u / K.
  Let j := vscale n k.

  Lemma K_pos : 0 < K. Proof. now apply denominator_pos. Qed.
  Lemma impulse_fin : collision_impulse e1 e2 (Fin rest) c = vfin j.
  Proof.
    unfold collision_impulse. pose proof (denominator_fin e1 e2 b1 b2 ts p n B1 B2 (proj1 S1) (proj1 S2)) as D. fold c in D. rewrite D. fold K.
    unfold c. cbn [c_pos c_normal]. rewrite (velocity_body e1 b1), (velocity_body e2 b2) by auto.
    rewrite vfin_sub, vfin_dot. fold (relative b1 b2 p). fold u. rewrite fin_1, fin_add, fin_neg, fin_mul, fin_div by (pose proof K_pos; lra). rewrite vfin_scale. exact eq_refl.
  Qed.
  Definition after1 := pushed b1 p j.
  Definition after2 := pushed b2 p (vneg j).
  Lemma vneg_scale (a : V) x : vneg (vscale a x) = vscale a (- x).
  Proof. destruct a. apply vext; vunfold; ring. Qed.
  Lemma restitution_law : vdot (relative after1 after2 p) n = - rest * u.
  Proof.
    unfold relative, after1, after2, j. rewrite vneg_scale.
    assert (E : forall x y : V, vdot (vsub x y) n = vdot x n - vdot y n) by (intros; destruct n; vunfold; ring).
    rewrite E, !pushed_normal, Hn.
    assert (D : k * K = - (1 + rest) * u) by (unfold k; pose proof K_pos; field; lra).
    transitivity (u + k * K); [|rewrite D; ring]. unfold u, relative. rewrite E. unfold K, denominator. ring.
  Qed.

End Pair.

(** Energy: what an impulse [x] at [p] does to the kinetic energy of one body. *)
Definition gain (b : body) (p x : V) : R :=
  vdot x (speed_at b p) + 1 / 2 * vdot x (vadd (vscale x (inv_mass (b_mass b))) (vcross (mulmv (b_inv b) (vcross (vsub p (b_pos b)) x)) (vsub p (b_pos b)))).
Lemma energy_change b p x : sound b -> ordinary b -> kinetic (pushed b p x) = kinetic b + gain b p x.
Proof.
  intros [Hm [Sy P]] F. unfold ordinary in F. unfold gain. set (r := vsub p (b_pos b)). set (t := vcross r x).
  assert (T1 : vdot x (vcross (mulmv (b_inv b) t) r) = vdot t (mulmv (b_inv b) t)).
  { rewrite vdot_comm, triple. fold t. apply vdot_comm. }
  assert (T2 : vdot x (speed_at b p) = vdot x (b_vel b) + vdot t (b_spin b)).
  { unfold speed_at. fold r. unfold t. destruct x, r, (b_vel b), (b_spin b). vunfold. ring. }
  assert (T3 : forall y z w : V, vdot y (vadd z w) = vdot y z + vdot y w) by (intros; vunfold; ring).
  rewrite T2, T3, T1. unfold kinetic, pushed. cbn [b_mass b_tensor b_pos b_vel b_spin]. fold r. fold t.
  destruct (b_mass b) as [m| | |] eqn:E; cbn [massive] in Hm; try contradiction; cbn [inv_mass].
  - assert (L : 1 / 2 * m * vdot (vadd (b_vel b) (vscale x (/ m))) (vadd (b_vel b) (vscale x (/ m))) =
                1 / 2 * m * vdot (b_vel b) (b_vel b) + vdot x (b_vel b) + 1 / 2 * vdot x (vscale x (/ m))).
    { destruct x, (b_vel b). vunfold. field. lra. }
    rewrite L. set (w := b_spin b) in *. set (q := mulmv (b_inv b) t).
    assert (A : 1 / 2 * vdot (vadd w q) (mulmv (b_tensor b) (vadd w q)) = 1 / 2 * vdot w (mulmv (b_tensor b) w) + vdot t w + 1 / 2 * vdot t q).
    { assert (X : forall y z : V, mulmv (b_tensor b) (vadd y z) = vadd (mulmv (b_tensor b) y) (mulmv (b_tensor b) z)).
      { intros y z. destruct (b_tensor b), y, z. apply vext; munfold; ring. }
      assert (Y : forall y z w : V, vdot (vadd y z) w = vdot y w + vdot z w) by (intros; vunfold; ring).
      rewrite X, !T3, !Y. rewrite (sym_dot _ w q Sy), (vdot_comm (mulmv _ w) q).
      unfold q, b_inv. destruct (Req_EM_T (det (b_tensor b)) 0) as [D|D].
      - destruct F as [F|F]; [apply invertible_det in F; contradiction|].
        rewrite rinv_zero, mulmv_zero, F by auto.
        assert (Z : forall y : V, vdot (mkV 0 0 0) y = 0) by (intros; vunfold; ring).
        assert (Z' : forall y : V, vdot y (mkV 0 0 0) = 0) by (intros; vunfold; ring). rewrite !Z, !Z'. lra.
      - assert (H : mulmv (b_tensor b) (mulmv (rinv (b_tensor b)) t) = t) by (rewrite <- mulmm_assoc_v, rinv_r, mulmv_unit; auto).
        rewrite (sym_dot _ (mulmv (rinv (b_tensor b)) t) w Sy), !H. rewrite (vdot_comm (mulmv (rinv (b_tensor b)) t) t). lra. }
    rewrite A. ring.
  - destruct F as [F [R1 R2]]. rewrite R1, R2. unfold b_inv. rewrite F, rinv_zero, mulmv_zero by (unfold det; munfold; ring). destruct x, t. vunfold. ring.
Qed.

Section Pair2.
  Variables (e1 e2 : ientity ER) (b1 b2 : body) (p n : V) (ts : range ER) (rest : R).
  Hypothesis (B1 : is_body e1 b1) (B2 : is_body e2 b2) (S1 : sound b1) (S2 : sound b2).
  Hypothesis Hmass : b_mass b1 <> PInf \/ b_mass b2 <> PInf.
  Hypothesis Hn : vdot n n = 1.
  Let c := mkC ts (vfin p) (vfin n).
  Let u := vdot (relative b1 b2 p) n.
  Let K := denominator b1 b2 p n.
  Let k := - (1 + rest) * u / K.
  Let j := vscale n k.
  Let a1 := pushed b1 p j.
  Let a2 := pushed b2 p (vneg j).

  Lemma energy_law : ordinary b1 -> ordinary b2 ->
    kinetic a1 + kinetic a2 = kinetic b1 + kinetic b2 - (1 - rest * rest) * (u * u) / (2 * K).
  Proof.
    intros O1 O2. assert (HK : 0 < K) by now apply denominator_pos.
    unfold a1, a2. rewrite !energy_change by auto. unfold gain, j. rewrite vneg_scale, !vcross_scale, !mulmv_scale.
    fold (b_inv b1). fold (b_inv b2).
    set (r1 := vsub p (b_pos b1)). set (r2 := vsub p (b_pos b2)).
    assert (E : forall b r, vdot (vscale n k) (vadd (vscale (vscale n k) (inv_mass (b_mass b))) (vcross (vscale (mulmv (b_inv b) (vcross r n)) k) r)) =
        k * k * (inv_mass (b_mass b) * vdot n n + vdot (vcross (mulmv (b_inv b) (vcross r n)) r) n)).
    { intros b r. set (q := mulmv _ _). destruct q, r, n. vunfold. ring. }
    assert (E' : forall b r, vdot (vscale n (- k)) (vadd (vscale (vscale n (- k)) (inv_mass (b_mass b))) (vcross (vscale (mulmv (b_inv b) (vcross r n)) (- k)) r)) =
        k * k * (inv_mass (b_mass b) * vdot n n + vdot (vcross (mulmv (b_inv b) (vcross r n)) r) n)).
    { intros b r. set (q := mulmv _ _). destruct q, r, n. vunfold. ring. }
    rewrite E, E', Hn. unfold r1, r2. fold (spread b1 p n). fold (spread b2 p n). rewrite !vscale_dot, !(vdot_comm n).
    assert (U : u = vdot (speed_at b1 p) n - vdot (speed_at b2 p) n) by (unfold u, relative; destruct n; vunfold; ring).
    transitivity (kinetic b1 + kinetic b2 + (k * u + 1 / 2 * (k * k) * K)).
    - rewrite U. unfold K, denominator. ring.
    - unfold k. field. lra.
  Qed.
  Lemma energy_drops : 0 <= rest <= 1 -> ordinary b1 -> ordinary b2 -> kinetic a1 + kinetic a2 <= kinetic b1 + kinetic b2.
  Proof.
    intros Hr O1 O2. assert (HK : 0 < K) by now apply denominator_pos. rewrite energy_law by auto.
    assert (0 <= (1 - rest * rest) * (u * u) / (2 * K)); [|lra].
    apply Rmult_le_pos; [apply Rmult_le_pos; nra|]. left. apply Rinv_0_lt_compat. lra.
  Qed.
  Lemma energy_kept : rest = 1 -> ordinary b1 -> ordinary b2 -> kinetic a1 + kinetic a2 = kinetic b1 + kinetic b2.
  Proof. intros Hr O1 O2. assert (HK : 0 < K) by now apply denominator_pos. rewrite energy_law by auto. rewrite Hr. field. lra. Qed.
End Pair2.

(** ** Friction *)
Lemma fin_eq a b : Fin a = Fin b -> a = b.
Proof. intros H. now apply (f_equal (fun z => match z with Fin r => r | _ => 0 end)) in H. Qed.
Lemma capped (x : ER) : exists q, (let y := if n_lt n1 x then n1 else x in if n_isfin y then y else n0) = Fin q /\ q <= 1 /\
  (forall r, x = Fin r -> q = r \/ (q = 1 /\ 1 < r)).
Proof.
  rewrite fin_0, fin_1. change (@n_lt ER EReal) with er_lt. change (@n_isfin ER EReal) with er_isfin. cbv zeta.
  destruct x as [r| | |]; cbn [er_isfin er_lt].
  - destruct (Rlt_dec 1 r) as [L|L].
    + exists 1. split; [exact eq_refl|]. split; [lra|]. intros r0 H. apply fin_eq in H. subst r0. right. split; [exact eq_refl|exact L].
    + exists r. split; [exact eq_refl|]. split; [lra|]. intros r0 H. apply fin_eq in H. left. exact H.
  - exists 1. split; [exact eq_refl|]. split; [lra|]. discriminate.
  - exists 0. split; [exact eq_refl|]. split; [lra|]. discriminate.
  - exists 0. split; [exact eq_refl|]. split; [lra|]. discriminate.
Qed.
Lemma sliding_tangential (a n : V) : vdot n n = 1 -> vdot (vsub a (vscale n (vdot a n))) n = 0.
Proof.
  intros Hn. assert (E : vdot (vsub a (vscale n (vdot a n))) n = vdot a n - vdot a n * vdot n n) by (destruct a, n; vunfold; ring).
  rewrite E, Hn. ring.
Qed.
Section Friction.
  Variables (e1 e2 : ientity ER) (b1 b2 : body) (p n j : V) (f : found ER) (ts : range ER).
  Hypothesis (B1 : is_body e1 b1) (B2 : is_body e2 b2) (S1 : sound b1) (S2 : sound b2).
  Hypothesis Hmass : b_mass b1 <> PInf \/ b_mass b2 <> PInf.
  Hypothesis Hn : vdot n n = 1.
  Hypothesis Hc : fd_col f = mkC ts (vfin p) (vfin n).
  Let u := vdot (relative b1 b2 p) n.
  Let s := vsub (relative b1 b2 p) (vscale n u).
  Let K := denominator b1 b2 p n.

  (** The friction impulse is minus a fraction of the sliding velocity, whatever the coefficients. *)
  Lemma friction_fin : exists q, friction e1 e2 f (vfin j) = (vfin (vscale s (- q)), (if Rlt_dec (Rabs u) (1 / 1000000) then true else false)) /\ q <= 1 /\
    (forall cs cd, fd_stat f = Fin cs -> fd_dyn f = Fin cd -> 0 <= cs -> 0 <= cd ->
       0 <= q /\ (q * vlen s <= vlen j * cs * K \/ q * vlen s <= vlen j * cd * K)) /\
    (forall cs cd, fd_stat f = Fin cs -> fd_dyn f = Fin cd -> 0 < vlen s -> q = Rmin 1 (vlen j * grip (fd_thr f) cs cd u (vlen s) * K / vlen s)).
  Proof.
    unfold friction. rewrite Hc. cbn [c_pos c_normal]. rewrite (denominator_fin e1 e2 b1 b2) by (auto; now destruct S1, S2). fold K.
    rewrite (velocity_body e1 b1), (velocity_body e2 b2), vfin_sub, vfin_dot by auto. fold (relative b1 b2 p). fold u.
    rewrite vfin_scale, vfin_sub. fold s. rewrite !vmag_fin. fold (vlen s). fold (vlen j). rewrite fin_abs.
    assert (HK : 0 < K) by now apply denominator_pos. rewrite (fin_div (vlen s) K) by lra.
    assert (EE : n_lt (Fin (Rabs u)) EPSILON = if Rlt_dec (Rabs u) (1 / 1000000) then true else false) by exact eq_refl. rewrite EE.
    set (co := if n_lt (n_div (Fin (Rabs u)) (Fin (vlen s))) (fd_thr f) then fd_stat f else fd_dyn f).
    set (pc := n_div (n_mul (Fin (vlen j)) co) (Fin (vlen s / K))).
    set (pc' := if n_lt n1 pc then n1 else pc). set (pc'' := if n_isfin pc' then pc' else n0).
    assert (Hj : 0 <= vlen j) by apply sqrt_pos. assert (Hs : 0 <= vlen s) by apply sqrt_pos.
    destruct (capped pc) as (q & Eq0 & Q1 & Q3). assert (Eq : pc'' = Fin q) by exact Eq0.
    assert (Q2 : forall x, co = Fin x -> 0 <= x -> 0 <= q /\ q * vlen s <= vlen j * x * K).
    { intros x Eco Hx. destruct (Rle_lt_or_eq_dec _ _ Hs) as [Pos|Zero].
      - assert (HsK : 0 < vlen s / K) by (apply Rdiv_lt_0_compat; lra).
        assert (Epc : pc = Fin (vlen j * x / (vlen s / K))) by (unfold pc; rewrite Eco, fin_mul, fin_div by lra; exact eq_refl).
        assert (Hp : 0 <= vlen j * x / (vlen s / K)).
        { apply Rmult_le_pos; [now apply Rmult_le_pos|]. left. now apply Rinv_0_lt_compat. }
        destruct (Q3 _ Epc) as [->|[-> L]].
        + split; [exact Hp|]. right. field. split; lra.
        + split; [lra|]. assert (vlen s / K < vlen j * x). { apply Rmult_lt_reg_r with (/ (vlen s / K)); [now apply Rinv_0_lt_compat|]. rewrite Rinv_r by lra. exact L. }
          assert (E : vlen s = vlen s / K * K) by (field; lra). rewrite Rmult_1_l. rewrite E. apply Rmult_le_compat_r; lra.
      - rewrite <- Zero. assert (Hp : 0 <= vlen j * x) by now apply Rmult_le_pos.
        split; [|replace (q * 0) with 0 by ring; apply Rmult_le_pos; lra].
        assert (Epc : pc = er_inf_times (vlen j * x)).
        { unfold pc. rewrite Eco, fin_mul, <- Zero. replace (0 / K) with 0 by (field; lra). change (@n_div ER EReal) with er_div. unfold er_div. destruct (Req_EM_T 0 0); [exact eq_refl|lra]. }
        clear Eq0. unfold pc'', pc' in Eq. rewrite Epc in Eq. unfold er_inf_times in Eq. destruct (Req_EM_T (vlen j * x) 0) as [Z|Z].
        + rewrite fin_0, fin_1 in Eq. cbn in Eq. apply fin_eq in Eq. lra.
        + destruct (Rlt_dec 0 (vlen j * x)) as [Z'|Z']; [|lra]. rewrite fin_0, fin_1 in Eq. cbn in Eq. apply fin_eq in Eq. lra. }
    assert (Q4 : forall cs cd, fd_stat f = Fin cs -> fd_dyn f = Fin cd -> 0 < vlen s -> q = Rmin 1 (vlen j * grip (fd_thr f) cs cd u (vlen s) * K / vlen s)).
    { intros cs cd E1 E2 Pos. set (x := grip _ _ _ _ _). assert (HsK : 0 < vlen s / K) by (apply Rdiv_lt_0_compat; lra).
      assert (Eco : co = Fin x) by (unfold co, x, grip; rewrite E1, E2, fin_div by lra; change (@n_lt ER EReal) with er_lt; destruct (er_lt _ _); exact eq_refl).
      assert (Epc : pc = Fin (vlen j * x / (vlen s / K))) by (unfold pc; rewrite Eco, fin_mul, fin_div by lra; exact eq_refl).
      replace (vlen j * x * K / vlen s) with (vlen j * x / (vlen s / K)) by (field; split; lra).
      destruct (Q3 _ Epc) as [->|[-> L]].
      - symmetry. apply Rmin_right. exact Q1.
      - symmetry. apply Rmin_left. lra. }
    clear Eq0. exists q. rewrite Eq, fin_neg, vfin_scale. split; [exact eq_refl|]. split; [exact Q1|]. split; [|exact Q4].
    intros cs cd E1 E2 P1 P2. unfold co in Q2. destruct (n_lt (n_div (Fin (Rabs u)) (Fin (vlen s))) (fd_thr f)).
    - destruct (Q2 cs E1 P1). auto.
    - destruct (Q2 cd E2 P2). auto.
  Qed.
End Friction.

(** ** The whole response *)
Lemma pushed_sound b p j : sound b -> sound (pushed b p j).
Proof. exact (fun H => H). Qed.
Lemma pushed_same b p j : same_inertia (pushed b p j) b.
Proof. repeat split. Qed.
Lemma pushed_linear b p j m : b_mass b = Fin m -> 0 < m -> vscale (b_vel (pushed b p j)) m = vadd (vscale (b_vel b) m) j.
Proof. intros E H. unfold pushed. cbn [b_vel]. rewrite E. cbn [inv_mass]. destruct (b_vel b), j. apply vext; vunfold; field; lra. Qed.
Lemma pushed_angular b p j m q : b_mass b = Fin m -> 0 < m -> invertible (b_tensor b) ->
  angular_momentum m (pushed b p j) q = vadd (angular_momentum m b q) (vcross (vsub p q) j).
Proof.
  intros E H I. unfold angular_momentum. rewrite (pushed_linear b p j m E H). unfold pushed. cbn [b_pos b_tensor b_spin].
  assert (X : forall y z : V, mulmv (b_tensor b) (vadd y z) = vadd (mulmv (b_tensor b) y) (mulmv (b_tensor b) z)).
  { intros y z. destruct (b_tensor b), y, z. apply vext; munfold; ring. }
  rewrite X. unfold b_inv. rewrite <- mulmm_assoc_v, rinv_r, mulmv_unit by now apply invertible_det.
  set (t := mulmv _ _). destruct t, (b_pos b), (b_vel b), j, p, q. apply vext; vunfold; ring.
Qed.

Section Whole.
  Variables (e1 e2 : ientity ER) (b1 b2 : body) (p n : V) (f : found ER) (ts : range ER) (rest : R).
  Hypothesis (B1 : is_body e1 b1) (B2 : is_body e2 b2) (S1 : sound b1) (S2 : sound b2).
  Hypothesis Hmass : b_mass b1 <> PInf \/ b_mass b2 <> PInf.
  Hypothesis Hn : vdot n n = 1.
  Hypothesis Hc : fd_col f = mkC ts (vfin p) (vfin n).
  Hypothesis Hr : fd_rest f = Fin rest.
  Let u := vdot (relative b1 b2 p) n.
  Let k := - (1 + rest) * u / denominator b1 b2 p n.
  Let j := vscale n k.
  Let a1 := pushed b1 p j.
  Let a2 := pushed b2 p (vneg j).
  Let u' := vdot (relative a1 a2 p) n.
  Let s := vsub (relative a1 a2 p) (vscale n u').

  Lemma response : exists q fr, fr = vscale s (- q) /\ q <= 1 /\ vdot s n = 0 /\
    (forall cs cd, fd_stat f = Fin cs -> fd_dyn f = Fin cd -> 0 <= cs -> 0 <= cd ->
       0 <= q /\ (q * vlen s <= vlen j * cs * denominator b1 b2 p n \/ q * vlen s <= vlen j * cd * denominator b1 b2 p n)) /\
    (forall cs cd, fd_stat f = Fin cs -> fd_dyn f = Fin cd -> 0 < vlen s -> q = Rmin 1 (vlen j * grip (fd_thr f) cs cd u' (vlen s) * denominator b1 b2 p n / vlen s)) /\
    exists e1' e2', respond_pair e1 e2 f = (e1', e2', vfin j, if Rlt_dec (Rabs u') (1 / 1000000) then true else false) /\
      is_body (apply_impulse e1 (vfin p) (vfin j)) a1 /\ is_body (apply_impulse e2 (vfin p) (vneg (vfin j))) a2 /\
      is_body e1' (pushed a1 p fr) /\ is_body e2' (pushed a2 p (vneg fr)).
  Proof.
    assert (A1 : is_body (apply_impulse e1 (vfin p) (vfin j)) a1) by (apply apply_body; [exact B1|exact (proj1 S1)]).
    assert (A2 : is_body (apply_impulse e2 (vfin p) (vneg (vfin j))) a2) by (rewrite vfin_neg; apply apply_body; [exact B2|exact (proj1 S2)]).
    destruct (friction_fin _ _ a1 a2 p n j f ts A1 A2 S1 S2 Hmass Hc) as (q & F & Q1 & Q2 & Q4). cbv beta zeta in F, Q2, Q4.
    fold u' in F, Q2, Q4. fold s in F, Q2, Q4.
    exists q, (vscale s (- q)). split; [exact eq_refl|]. split; [exact Q1|]. split; [exact (sliding_tangential _ n Hn)|]. split; [exact Q2|]. split; [exact Q4|].
    pose proof (impulse_fin e1 e2 b1 b2 p n ts rest B1 B2 S1 S2 Hmass) as I. cbv beta zeta in I. fold u in I. fold k in I. fold j in I.
    eexists _, _. split; [|split; [exact A1|split; [exact A2|]]].
    - unfold respond_pair. rewrite Hc, Hr, I. cbn [c_pos]. rewrite F. exact eq_refl.
    - rewrite (vfin_neg (vscale s (- q))). split; apply apply_body; [exact A1|exact (proj1 S1)|exact A2|exact (proj1 S2)].
  Qed.
End Whole.
