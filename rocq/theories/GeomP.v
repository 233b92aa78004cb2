(** * GeomP: what collision detection means geometrically, in exact arithmetic *)
From Coq Require Import ZArith Reals List Bool Lra Lia Psatz.
Import ListNotations.
From Verif Require Import Num Vec Res RangeM Orient Colliders Collide OrderP Spec RangeP CollideP RealSpec RealV.
Local Open Scope R_scope.

(** ** Helpers *)
Lemma rg_range_le a b : a <= b -> rg_range (Fin a) (Fin b) = mkR (Fin a) (Fin b).
Proof. intros H. unfold rg_range. simpl n_lt. destruct (Rlt_dec a b); auto. assert (a = b) as -> by lra. reflexivity. Qed.
Lemma in_fin t a b : in_range (Fin t) (mkR (Fin a) (Fin b)) = true <-> a <= t <= b.
Proof. unfold in_range. cbn [r_min r_max]. rewrite andb_true_iff. change (@n_le ER EReal) with er_le. rewrite !er_le_fin. tauto. Qed.
Lemma in_down t b : in_range (Fin t) (mkR NInf (Fin b)) = true <-> t <= b.
Proof. unfold in_range. cbn [r_min r_max]. rewrite andb_true_iff. change (@n_le ER EReal) with er_le. rewrite er_le_fin. simpl. tauto. Qed.
Lemma proper_fin a b : a <= b -> proper (mkR (Fin a) (Fin b)).
Proof. intros H. split; [|split; discriminate]. now apply er_le_fin. Qed.
Lemma sqr_le_abs a r : 0 <= r -> a * a <= r * r -> - r <= a <= r.
Proof. intros. split; nra. Qed.

(** Overlap of two intervals, the second moving; [v] zero or at least EPSILON. *)
Lemma linear_fin a b c d v t : a <= b -> c <= d -> speedy v ->
  (in_range (Fin t) (rg_linear_overlap (mkR (Fin a) (Fin b)) (mkR (Fin c) (Fin d)) (Fin v)) = true <-> a <= d + v * t /\ c + v * t <= b).
Proof.
  intros Hab Hcd [->|Hv].
  - rewrite linear_slow; auto using proper_fin; [|apply abs_lt_eps; rewrite Rabs_R0; lra].
    setoid_rewrite in_fin. split.
    + intros (x & H1 & H2). lra.
    + intros (H1 & H2). exists (Rmax a c). pose proof (Rmax_l a c). pose proof (Rmax_r a c). 
      assert (Rmax a c <= b) by (apply Rmax_lub; lra). assert (Rmax a c <= d) by (apply Rmax_lub; lra). lra.
  - rewrite linear_fast; auto using proper_fin, not_abs_lt; try (simpl; intros [? ?]; discriminate).
    setoid_rewrite in_fin. split.
    + intros (x & H1 & H2). lra.
    + intros (H1 & H2). exists (Rmax a (c + v * t)). pose proof (Rmax_l a (c + v * t)). pose proof (Rmax_r a (c + v * t)).
      assert (Rmax a (c + v * t) <= b) by (apply Rmax_lub; lra). assert (Rmax a (c + v * t) <= d + v * t) by (apply Rmax_lub; lra). lra.
Qed.

(** ** Ball against half space *)
Lemma halfspace_touch (c p n : V) r : 0 <= r -> vdot n n = 1 ->
  ((exists x, within x c r /\ behind x p n) <-> vdot c n - r <= vdot p n).
Proof.
  intros Hr Hn. unfold within, behind. split.
  - intros (x & H1 & H2). pose proof (cauchy (vsub x c) n) as C. rewrite Hn in C.
    assert (C' : vdot (vsub x c) n * vdot (vsub x c) n <= r * r) by lra. apply sqr_le_abs in C'; auto.
    assert (vdot (vsub x c) n = vdot x n - vdot c n) by (vunfold; ring).
    assert (vdot (vsub x p) n = vdot x n - vdot p n) by (vunfold; ring). lra.
  - intros H. exists (vadd c (vscale n (- r))). split.
    + assert (E : vdot (vsub (vadd c (vscale n (- r))) c) (vsub (vadd c (vscale n (- r))) c) = r * r * vdot n n) by (vunfold; ring).
      rewrite E, Hn. lra.
    + assert (E : vdot (vsub (vadd c (vscale n (- r))) p) n = vdot c n - r * vdot n n - vdot p n) by (vunfold; ring).
      rewrite E, Hn. lra.
Qed.

Lemma sphere_plane_times (r : R) (c m p n mv : V) t : 0 <= r -> vdot n n = 1 -> speedy (vdot mv n - vdot m n) ->
  (in_range (Fin t) (sphere_plane_overlap_time (Fin r) (vfin c) (vfin m) (vfin p) (vfin n) (vfin mv) true) = true <->
   vdot (vadd c (vscale m t)) n - r <= vdot (vadd p (vscale mv t)) n).
Proof.
  intros Hr Hn Hs. unfold sphere_plane_overlap_time. cbv zeta.
  rewrite fin_neg, !vfin_scale, !vfin_add, !vfin_dot, fin_sub.
  assert (E1 : vdot (vadd c (vscale n (- r))) n = vdot c n - r * vdot n n) by (vunfold; ring).
  assert (E2 : vdot (vadd c (vscale n r)) n = vdot c n + r * vdot n n) by (vunfold; ring).
  rewrite E1, E2, Hn, rg_range_le by lra.
  assert (E3 : rg_range (Fin (vdot p n)) (n_neg n_inf) = mkR NInf (Fin (vdot p n))) by reflexivity.
  rewrite E3. clear E1 E2 E3.
  assert (E1 : vdot (vadd c (vscale m t)) n = vdot c n + t * vdot m n) by (vunfold; ring).
  assert (E2 : vdot (vadd p (vscale mv t)) n = vdot p n + t * vdot mv n) by (vunfold; ring).
  rewrite E1, E2. set (v := vdot mv n - vdot m n) in *.
  assert (Pa : proper (mkR (Fin (vdot c n - r * 1)) (Fin (vdot c n + r * 1)))) by (apply proper_fin; lra).
  assert (Pb : proper (mkR NInf (Fin (vdot p n)))) by (split; [reflexivity|split; discriminate]).
  destruct Hs as [Hs|Hs].
  - rewrite linear_slow; auto; [|rewrite Hs; apply abs_lt_eps; rewrite Rabs_R0; lra].
    setoid_rewrite in_fin. setoid_rewrite in_down.
    assert (t * vdot mv n = t * vdot m n) by (unfold v in Hs; f_equal; lra). split.
    + intros (x & H1 & H2). lra.
    + intros H1. exists (vdot c n - r). lra.
  - rewrite linear_fast; auto using not_abs_lt; try (simpl; intros [? ?]; discriminate).
    setoid_rewrite in_fin. setoid_rewrite in_down.
    assert (EV : v * t = t * vdot mv n - t * vdot m n) by (unfold v; ring). split.
    + intros (x & H1 & H2). lra.
    + intros H. exists (vdot c n - r). lra.
Qed.

(** C23. *)
Lemma sphere_plane (r : R) (c m p n mv : V) : 0 <= r -> vdot n n = 1 -> speedy (vdot mv n - vdot m n) ->
  let centre t := vadd c (vscale m t) in
  let touches t := exists x, within x (centre t) r /\ behind x (vadd p (vscale mv t)) n in
  match collide_sphere_with_plane (Fin r) (vfin c) (vfin m) (vfin p) (vfin n) (vfin mv) with
  | None => forall t, 0 <= t <= 1 -> ~ touches t
  | Some k => exists t x, c_time k = Fin t /\ first_instant touches t /\ c_normal k = vfin (vneg n) /\
      c_pos k = vfin x /\ within x (centre t) r /\ forall y, within y (centre t) r -> vdot x n <= vdot y n
  end.
Proof.
  intros Hr Hn Hs centre touches. unfold collide_sphere_with_plane. cbv zeta.
  pose proof (cut_first (sphere_plane_overlap_time (Fin r) (vfin c) (vfin m) (vfin p) (vfin n) (vfin mv) true) touches) as C.
  cbv zeta in C. specialize (C ltac:(intros t Ht; rewrite sphere_plane_times by auto; unfold touches, centre; now rewrite halfspace_touch)).
  destruct (rg_is_empty _); [exact C|]. destruct C as (t & Et & F). unfold c_time. cbn [c_times c_normal c_pos].
  exists t, (vadd (vadd c (vscale n (- r))) (vscale m t)). rewrite Et. split; auto. split; auto. split; [reflexivity|]. split; [reflexivity|].
  unfold within, centre. split.
  - match goal with |- ?a <= _ => assert (E : a = r * r * vdot n n) by (vunfold; ring) end. rewrite E, Hn. lra.
  - intros y Hy. pose proof (cauchy (vsub y (vadd c (vscale m t))) n) as Cy. rewrite Hn in Cy.
    assert (C' : vdot (vsub y (vadd c (vscale m t))) n * vdot (vsub y (vadd c (vscale m t))) n <= r * r) by lra.
    apply sqr_le_abs in C'; auto.
    assert (E1 : vdot (vadd (vadd c (vscale n (- r))) (vscale m t)) n = vdot (vadd c (vscale m t)) n - r * vdot n n) by (vunfold; ring).
    assert (E2 : vdot (vsub y (vadd c (vscale m t))) n = vdot y n - vdot (vadd c (vscale m t)) n) by (vunfold; ring).
    rewrite E1, Hn. lra.
Qed.

(** ** Ball against ball *)
Lemma mid_sub1 c1 c2 r1 r2 : 0 < r1 + r2 -> vsub (mid c1 c2 r1 r2) c1 = vscale (vsub c2 c1) (r1 / (r1 + r2)).
Proof. intros. apply vext; unfold mid; vunfold; field; lra. Qed.
Lemma mid_sub2 c1 c2 r1 r2 : 0 < r1 + r2 -> vsub (mid c1 c2 r1 r2) c2 = vscale (vsub c1 c2) (r2 / (r1 + r2)).
Proof. intros. apply vext; unfold mid; vunfold; field; lra. Qed.
Lemma vdot_scale2 (a : V) k : vdot (vscale a k) (vscale a k) = k * k * vdot a a.
Proof. vunfold. ring. Qed.
Lemma dist_sym (a b : V) : vdot (vsub a b) (vsub a b) = vdot (vsub b a) (vsub b a).
Proof. vunfold. ring. Qed.
Lemma frac_sq a s d : 0 <= a -> 0 < s -> d <= s * s -> a / s * (a / s) * d <= a * a.
Proof.
  intros Ha Hs Hd. assert (E : a / s * (a / s) * (s * s) = a * a) by (field; lra). rewrite <- E.
  apply Rmult_le_compat_l; auto. assert (0 <= a / s) by (apply Rmult_le_pos; auto; left; now apply Rinv_0_lt_compat). nra.
Qed.
Lemma balls_touch (c1 c2 : V) r1 r2 : 0 <= r1 -> 0 <= r2 -> 0 < r1 + r2 ->
  ((exists x, within x c1 r1 /\ within x c2 r2) <-> vdot (vsub c1 c2) (vsub c1 c2) <= (r1 + r2) * (r1 + r2)).
Proof.
  intros H1 H2 H. unfold within. split.
  - intros (x & Hx1 & Hx2).
    assert (E : vdot (vsub c1 c2) (vsub c1 c2) = vdot (vsub x c1) (vsub x c1) + vdot (vsub x c2) (vsub x c2) - 2 * vdot (vsub x c1) (vsub x c2)) by (vunfold; ring).
    pose proof (cauchy (vsub x c1) (vsub x c2)) as C. pose proof (vdot_pos (vsub x c1)). pose proof (vdot_pos (vsub x c2)).
    set (d := vdot (vsub x c1) (vsub x c2)) in *. set (p := vdot (vsub x c1) (vsub x c1)) in *. set (q := vdot (vsub x c2) (vsub x c2)) in *.
    assert (d * d <= r1 * r2 * (r1 * r2)). { apply Rle_trans with (p * q); auto. replace (r1 * r2 * (r1 * r2)) with (r1 * r1 * (r2 * r2)) by ring. apply Rmult_le_compat; auto. }
    assert (- (r1 * r2) <= d <= r1 * r2) by (apply sqr_le_abs; auto; apply Rmult_le_pos; auto). rewrite E. lra.
  - intros D. exists (mid c1 c2 r1 r2). rewrite mid_sub1, mid_sub2, !vdot_scale2 by auto. rewrite (dist_sym c2 c1). split; now apply frac_sq.
Qed.

(** The quadratic of the two centres. *)
Lemma centres_quadratic (c1 m1 c2 m2 : V) r t :
  let dv := vsub m1 m2 in let dc := vsub c1 c2 in
  vdot dv dv * t * t + 2 * vdot dv dc * t + (vdot dc dc - r * r) =
  vdot (vsub (vadd c1 (vscale m1 t)) (vadd c2 (vscale m2 t))) (vsub (vadd c1 (vscale m1 t)) (vadd c2 (vscale m2 t))) - r * r.
Proof. cbv zeta. vunfold. ring. Qed.

(** The discriminant of that quadratic (positive when the balls' paths really cross). *)

Lemma sphere_sphere_lift (r1 : R) (c1 m1 : V) (r2 : R) (c2 m2 : V) : 0 < r1 + r2 ->
  let times := rg_intersect (rg_quadratic_zeros (Fin (vdot (vsub m1 m2) (vsub m1 m2))) (Fin (2 * vdot (vsub m1 m2) (vsub c1 c2)))
      (Fin (vdot (vsub c1 c2) (vsub c1 c2) - (r1 + r2) * (r1 + r2)))) rg_unit in
  collide_sphere_with_sphere (Fin r1) (vfin c1) (vfin m1) (Fin r2) (vfin c2) (vfin m2) =
  if rg_is_empty times then None
  else match rg_min times with
       | Fin t => let x := mid (vadd c1 (vscale m1 t)) (vadd c2 (vscale m2 t)) r1 r2 in
                  Some (mkC times (vfin x) (vnormalize (vfin (vsub x c1))))
       | _ => None
       end.
Proof.
  intros Hr times. unfold collide_sphere_with_sphere. cbv zeta. rewrite !vfin_sub, !vfin_dot, fin_2, !fin_add, !fin_mul, fin_sub. fold times.
  destruct (rg_is_empty times) eqn:E; auto.
  assert (exists t, rg_min times = Fin t) as (t & ->).
  { unfold rg_min. rewrite E. destruct (ok_intersect (rg_quadratic_zeros (Fin (vdot (vsub m1 m2) (vsub m1 m2))) (Fin (2 * vdot (vsub m1 m2) (vsub c1 c2)))
      (Fin (vdot (vsub c1 c2) (vsub c1 c2) - (r1 + r2) * (r1 + r2)))) rg_unit) as [X|X]; [fold times in X; congruence|].
    destruct (in_min _ E X) as [Y _]. unfold times in Y at 2. rewrite in_intersect in Y. apply andb_true_iff in Y. destruct Y as [_ Y].
    apply unit_range_fin in Y. destruct Y as (t & Et & _). now exists t. }
  rewrite fin_1, fin_div by lra. f_equal. unfold mid.
  replace (1 / (r1 + r2)) with (/ (r1 + r2)) by (field; lra). reflexivity.
Qed.

(** C24. *)
Lemma sphere_sphere (r1 : R) (c1 m1 : V) (r2 : R) (c2 m2 : V) : 0 <= r1 -> 0 <= r2 -> 0 < r1 + r2 ->
  1 / 1000000 <= vdot (vsub m1 m2) (vsub m1 m2) -> 1 / 1000000 <= crossing c1 m1 c2 m2 (r1 + r2) ->
  let centre1 t := vadd c1 (vscale m1 t) in
  let centre2 t := vadd c2 (vscale m2 t) in
  let touches t := exists x, within x (centre1 t) r1 /\ within x (centre2 t) r2 in
  match collide_sphere_with_sphere (Fin r1) (vfin c1) (vfin m1) (Fin r2) (vfin c2) (vfin m2) with
  | None => forall t, 0 <= t <= 1 -> ~ touches t
  | Some k => exists t x, c_time k = Fin t /\ first_instant touches t /\ c_pos k = vfin x /\
      vscale (vsub x (centre1 t)) r2 = vscale (vsub (centre2 t) x) r1 /\
      within x (centre1 t) r1 /\ within x (centre2 t) r2 /\
      (0 < t -> on_sphere x (centre1 t) r1 /\ on_sphere x (centre2 t) r2)
  end.
Proof.
  intros H1 H2 Hr Ha Hd centre1 centre2 touches. rewrite sphere_sphere_lift by auto. cbv zeta.
  set (Z := rg_quadratic_zeros _ _ _).
  assert (HZ : forall t, in_range (Fin t) Z = true <-> touches t).
  { intros t. unfold Z. rewrite qz_inside; auto.
    rewrite (centres_quadratic c1 m1 c2 m2 (r1 + r2) t). unfold touches. rewrite balls_touch by auto. unfold centre1, centre2. lra. }
  pose proof (cut_first Z touches (fun t _ => HZ t)) as C. cbv zeta in C.
  destruct (rg_is_empty _); [exact C|]. destruct C as (t & -> & F). 
  exists t, (mid (centre1 t) (centre2 t) r1 r2). cbv zeta. cbn [c_pos c_times]. split; [|split; [exact F|split; [reflexivity|]]].
  { unfold c_time. cbn [c_times]. assert (X := cut_first Z touches (fun t _ => HZ t)). cbv zeta in X.
    destruct F as [F1 [F2 F3]]. destruct (rg_is_empty (rg_intersect Z rg_unit)); [exfalso; exact (X t F1 F2)|].
    destruct X as (t' & -> & F1' & F2' & F3'). f_equal. apply Rle_antisym; auto. }
  assert (D : vdot (vsub (centre1 t) (centre2 t)) (vsub (centre1 t) (centre2 t)) <= (r1 + r2) * (r1 + r2)).
  { rewrite <- balls_touch by auto. apply F. }
  unfold within, on_sphere. rewrite mid_sub1, mid_sub2, !vdot_scale2 by auto. rewrite (dist_sym (centre2 t)).
  split; [apply vext; unfold mid; vunfold; field; lra|]. split; [now apply frac_sq|]. split; [now apply frac_sq|].
  intros Ht. assert (D' : vdot (vsub (centre1 t) (centre2 t)) (vsub (centre1 t) (centre2 t)) = (r1 + r2) * (r1 + r2)).
  { apply Rle_antisym; auto. apply Rnot_lt_le. intros Lt. destruct F as (Ft & _ & Fmin).
    set (b := 2 * vdot (vsub m1 m2) (vsub c1 c2)) in *. set (a := vdot (vsub m1 m2) (vsub m1 m2)) in *.
    set (cc := vdot (vsub c1 c2) (vsub c1 c2) - (r1 + r2) * (r1 + r2)).
    assert (Q : forall s, vdot (vsub (centre1 s) (centre2 s)) (vsub (centre1 s) (centre2 s)) - (r1 + r2) * (r1 + r2) = a * s * s + b * s + cc)
      by (intros s; symmetry; apply centres_quadratic).
    pose proof (Q t) as Qt. set (e := a * t * t + b * t + cc) in *. assert (He : e < 0) by lra.
    (* slightly earlier they still overlap *)
    set (K := a + Rabs (2 * a * t + b) + 1). assert (Kp : 1 <= K) by (unfold K; pose proof (Rabs_pos (2 * a * t + b)); lra).
    set (d := Rmin t (Rmin 1 (- e / K))). assert (Dp : 0 < d).
    { unfold d. apply Rmin_glb_lt; auto. apply Rmin_glb_lt; [lra|]. apply Rmult_lt_0_compat; [lra|]. apply Rinv_0_lt_compat. lra. }
    assert (d <= t) by apply Rmin_l. assert (d <= 1) by (unfold d; eapply Rle_trans; [apply Rmin_r|apply Rmin_l]).
    assert (DK : d * K <= - e). { assert (H4 : d <= - e / K) by (unfold d; eapply Rle_trans; [apply Rmin_r|apply Rmin_r]).
      apply Rmult_le_compat_r with (r := K) in H4; [|lra]. replace (- e / K * K) with (- e) in H4 by (field; lra). exact H4. }
    assert (T : touches (t - d)).
    { unfold touches. rewrite balls_touch by auto. pose proof (Q (t - d)) as Q'.
      assert (E : a * (t - d) * (t - d) + b * (t - d) + cc = e - d * (2 * a * t + b) + a * (d * d)) by (unfold e; ring).
      assert (- d * (2 * a * t + b) <= d * Rabs (2 * a * t + b)). { pose proof (Rle_abs (- (2 * a * t + b))) as R. rewrite Rabs_Ropp in R. nra. }
      assert (a * (d * d) <= a * d) by (apply Rmult_le_compat_l; nra).
      assert (d * K = d * a + d * Rabs (2 * a * t + b) + d) by (unfold K; ring). lra. }
    specialize (Fmin (t - d) ltac:(lra) T). lra. }
  rewrite D'. split; field; lra.
Qed.

(** ** The normal of two spheres *)
Lemma sphere_sphere_normal (r1 : R) (c1 m1 : V) (r2 : R) (c2 m2 : V) k : 0 < r1 + r2 ->
  collide_sphere_with_sphere (Fin r1) (vfin c1) (vfin m1) (Fin r2) (vfin c2) (vfin m2) = Some k ->
  exists t x, c_time k = Fin t /\ 0 <= t <= 1 /\ c_pos k = vfin x /\ x = mid (vadd c1 (vscale m1 t)) (vadd c2 (vscale m2 t)) r1 r2 /\
    c_normal k = vnormalize (vfin (vsub x c1)).
Proof.
  intros Hr. rewrite sphere_sphere_lift by auto. cbv zeta. set (Z := rg_quadratic_zeros _ _ _). intros H.
  pose proof (cut_first Z (fun t => in_range (Fin t) Z = true) ltac:(tauto)) as C. cbv zeta in C.
  destruct (rg_is_empty _); [discriminate|]. destruct C as (t & Et & F). rewrite Et in H. injection H as <-.
  exists t. eexists. unfold c_time. cbn [c_times c_pos c_normal]. split; [exact Et|]. split; [apply F|]. split; [reflexivity|]. split; reflexivity.
Qed.
Lemma vunit_along d : d <> mkV 0 0 0 -> unit_along (vunit d) d.
Proof.
  intros H. split; [now apply vunit_unit|]. exists (sqrt (vdot d d)). pose proof (sqrt_norm_pos d H). split; auto.
  unfold vunit. apply vext; vunfold; field; lra.
Qed.
Lemma unit_along_scale v d k : 0 < k -> unit_along v (vscale d k) -> unit_along v d.
Proof.
  intros Hk [H1 (j & Hj & E)]. split; auto. exists (j / k). split; [apply Rmult_lt_0_compat; auto; now apply Rinv_0_lt_compat|].
  assert (X : vscale (vscale d k) (/ k) = d) by (apply vext; vunfold; field; lra). rewrite <- X, E. apply vext; vunfold; field; lra.
Qed.
Lemma vscale_nonzero (d : V) k : k <> 0 -> d <> mkV 0 0 0 -> vscale d k <> mkV 0 0 0.
Proof.
  intros Hk Hd E. apply Hd. assert (X : vscale (vscale d k) (/ k) = d) by (apply vext; vunfold; field; lra). rewrite <- X, E. apply vext; vunfold; ring.
Qed.
(** The normal points from where the first centre was at the start of the step to the contact point. *)
Lemma sphere_sphere_normal_start (r1 : R) (c1 m1 : V) (r2 : R) (c2 m2 : V) k : 0 < r1 + r2 ->
  collide_sphere_with_sphere (Fin r1) (vfin c1) (vfin m1) (Fin r2) (vfin c2) (vfin m2) = Some k ->
  exists x, c_pos k = vfin x /\ (x <> c1 -> exists n, c_normal k = vfin n /\ unit_along n (vsub x c1)).
Proof.
  intros Hr H. apply sphere_sphere_normal in H; auto. destruct H as (t & x & _ & _ & Ex & _ & En). exists x. split; auto.
  intros Hx. assert (D : vsub x c1 <> mkV 0 0 0).
  { intros E. apply Hx. apply vext; [assert (X := f_equal vx E)|assert (X := f_equal vy E)|assert (X := f_equal vz E)]; vunfold; lra. }
  rewrite vnormalize_fin in En by auto. eexists. split; [exact En|]. now apply vunit_along.
Qed.
(** C25 when the first sphere rests. *)
Lemma sphere_sphere_normal_rest (r1 : R) (c1 : V) (r2 : R) (c2 m2 : V) k : 0 < r1 -> 0 <= r2 ->
  collide_sphere_with_sphere (Fin r1) (vfin c1) vzero (Fin r2) (vfin c2) (vfin m2) = Some k ->
  exists t, c_time k = Fin t /\ 0 <= t <= 1 /\
    let d := vsub (vadd c2 (vscale m2 t)) c1 in d <> mkV 0 0 0 -> exists n, c_normal k = vfin n /\ unit_along n d.
Proof.
  intros H1 H2 H. rewrite vfin_zero in H. apply sphere_sphere_normal in H; [|lra]. destruct H as (t & x & Et & Ht & _ & Ex & En).
  exists t. split; auto. split; auto. cbv zeta. intros Hd.
  assert (E : vsub x c1 = vscale (vsub (vadd c2 (vscale m2 t)) c1) (r1 / (r1 + r2))) by (rewrite Ex; unfold mid; apply vext; vunfold; field; lra).
  assert (K : 0 < r1 / (r1 + r2)) by (apply Rmult_lt_0_compat; auto; apply Rinv_0_lt_compat; lra).
  assert (D : vsub x c1 <> mkV 0 0 0) by (rewrite E; apply vscale_nonzero; auto; lra).
  rewrite vnormalize_fin in En by auto. eexists. split; [exact En|]. apply unit_along_scale with (k := r1 / (r1 + r2)); auto. rewrite <- E. now apply vunit_along.
Qed.
(** ... and a case where the normal is not along the line of centres: a ball moving by (6,0,0) from
    the origin hits, halfway, a resting one that is at (1.2, 1.6, 0) from it. *)
Lemma sphere_sphere_normal_wrong :
  exists k t n, collide_sphere_with_sphere (Fin 1) (vfin (mkV 0 0 0)) (vfin (mkV 6 0 0)) (Fin 1) (vfin (mkV (42/10) (16/10) 0)) (vfin (mkV 0 0 0)) = Some k /\
    c_time k = Fin t /\ c_normal k = vfin n /\
    ~ unit_along n (vsub (vadd (mkV (42/10) (16/10) 0) (vscale (mkV 0 0 0) t)) (vadd (mkV 0 0 0) (vscale (mkV 6 0 0) t))).
Proof.
  pose proof (sphere_sphere 1 (mkV 0 0 0) (mkV 6 0 0) 1 (mkV (42/10) (16/10) 0) (mkV 0 0 0) ltac:(lra) ltac:(lra) ltac:(lra)) as S.
  specialize (S ltac:(vunfold; lra) ltac:(unfold crossing; vunfold; lra)). cbv zeta in S.
  destruct (collide_sphere_with_sphere _ _ _ _ _ _) as [k|] eqn:E.
  2: { exfalso. apply (S (1/2)); [lra|]. rewrite balls_touch by lra. vunfold. lra. }
  destruct S as (t & x & Et & F & _). apply sphere_sphere_normal in E; [|lra]. destruct E as (t' & x' & Et' & _ & _ & Ex & En).
  assert (t' = t) as -> by congruence.
  assert (T : t = 1 / 2).
  { destruct F as (Ft & F1 & F2). apply Rle_antisym.
    - apply F2; [lra|]. rewrite balls_touch by lra. vunfold. lra.
    - rewrite balls_touch in F1 by lra. vunfold. nra. }
  subst t. assert (X : vsub x' (mkV 0 0 0) = mkV (36/10) (8/10) 0) by (rewrite Ex; unfold mid; apply vext; vunfold; field).
  rewrite X in En. rewrite vnormalize_fin in En by (intros D; injection D; lra). exists k, (1/2). eexists. split; auto. split; auto. split; [exact En|].
  intros [_ (j & Hj & D)]. set (s := / sqrt (vdot (mkV (36/10) (8/10) 0) (mkV (36/10) (8/10) 0))) in *.
  unfold vunit in D. fold s in D.
  assert (D1 := f_equal vx D). assert (D2 := f_equal vy D). clear -D1 D2. vunfold.
  assert (A : s * j = 1/3) by lra. assert (B : s * j = 2) by lra. lra.
Qed.
