(** * Geom8P: balls against segments and whole boxes, up to EPSILON, in exact arithmetic *)
From Coq Require Import ZArith Reals List Bool Arith Lra Lia Psatz.
Import ListNotations.
From Verif Require Import Num Vec Res RangeM Orient Colliders Collide OrderP Spec RangeP ResP MeshP CollideP RealSpec RealV OrientP Orient2P GeomP Geom2P Geom3P Geom7P BoxSpec.
Local Open Scope R_scope.

Lemma some_eq {A} (x y : A) : Some x = Some y -> x = y. Proof. congruence. Qed.
Lemma of_fin a b : Fin a = Fin b -> a = b. Proof. congruence. Qed.

(** ** The solver *)
Section Solver.
  Variables a b c : R.
  Let poly t := a * t * t + b * t + c.
  Let Z := rg_quadratic_zeros (Fin a) (Fin b) (Fin c).
  Hypothesis H : a = 0 /\ b = 0 \/ 1 / 1000000 <= a /\ clear (b * b - 4 * a * c).
  Lemma solver_miss t : 1 / 1000000 <= a -> b * b - 4 * a * c < - (1 / 1000000) -> 0 < poly t.
  Proof.
    intros Ha D. assert (E : 4 * a * poly t = Rsqr (2 * a * t + b) - (b * b - 4 * a * c)) by (unfold poly, Rsqr; ring).
    pose proof (Rle_0_sqr (2 * a * t + b)). apply Rmult_lt_reg_l with (4 * a); lra.
  Qed.
  Lemma solver_complete t : poly t <= 0 -> in_range (Fin t) Z = true.
  Proof.
    unfold poly, Z. intros P. destruct H as [[-> ->]|[Ha [D|D]]].
    - rewrite qz_const by (rewrite Rabs_R0; lra). destruct (Rlt_dec _ _); [reflexivity|lra].
    - pose proof (solver_miss t Ha D) as M. unfold poly in M. lra.
    - apply qz_inside; auto.
  Qed.
  Lemma solver_sound t : in_range (Fin t) Z = true -> poly t < 1 / 1000000.
  Proof.
    unfold poly, Z. destruct H as [[-> ->]|[Ha [D|D]]].
    - rewrite qz_const by (rewrite Rabs_R0; lra). destruct (Rlt_dec _ _); [intros _; lra|]. discriminate.
    - destruct (qz_none a b c) as [E _]; [rewrite Rabs_pos_eq; lra|auto|]. intros I. rewrite in_nan in I; auto. discriminate.
    - intros I. apply qz_inside in I; auto. lra.
  Qed.
  Lemma solver_exact t0 t : poly t0 <= 0 -> in_range (Fin t) Z = true -> poly t <= 0.
  Proof.
    unfold poly, Z. destruct H as [[-> ->]|[Ha [D|D]]].
    - intros ? _. lra.
    - intros P. pose proof (solver_miss t0 Ha D) as M. unfold poly in M. lra.
    - intros _ I. apply qz_inside in I; auto.
  Qed.
End Solver.

(** ** Ball against point *)
Section Point.
  Variables (r : R) (c m p mv : V).
  Hypothesis R0 : 0 < r.
  Hypothesis H : vsub m mv = mkV 0 0 0 \/ 1 / 1000000 <= vdot (vsub m mv) (vsub m mv) /\ clear (crossing c m p mv r).
  Let far t := vdot (vsub (vadd p (vscale mv t)) (vadd c (vscale m t))) (vsub (vadd p (vscale mv t)) (vadd c (vscale m t))).
  Lemma point_case : let a := vdot (vsub m mv) (vsub m mv) in let b := 2 * vdot (vsub m mv) (vsub c p) in
    a = 0 /\ b = 0 \/ 1 / 1000000 <= a /\ clear (b * b - 4 * a * (vdot (vsub c p) (vsub c p) - (r + 0) * (r + 0))).
  Proof.
    cbv zeta. destruct H as [E|[A D]]; [left; rewrite E; split; vunfold; ring|right; split; auto].
    unfold crossing in D. cbv zeta in D. rewrite !Rplus_0_r. exact D.
  Qed.
  Lemma point_poly t : vdot (vsub m mv) (vsub m mv) * t * t + 2 * vdot (vsub m mv) (vsub c p) * t + (vdot (vsub c p) (vsub c p) - (r + 0) * (r + 0)) = far t - r * r.
  Proof. rewrite centres_quadratic. unfold far. rewrite dist_sym. ring. Qed.
  Lemma point_some k : collide_sphere_with_sphere (Fin r) (vfin c) (vfin m) n0 (vfin p) (vfin mv) = Some k ->
    exists t, c_time k = Fin t /\ 0 <= t <= 1 /\ far t < r * r + 1 / 1000000.
  Proof.
    rewrite fin_0, sphere_sphere_lift by lra. cbv zeta. set (Z := rg_quadratic_zeros _ _ _).
    pose proof (cut_first Z (fun t => in_range (Fin t) Z = true) ltac:(tauto)) as C. cbv zeta in C.
    destruct (rg_is_empty _) eqn:E; [discriminate|]. destruct C as (t & Et & F). rewrite Et. intros K. apply some_eq in K. subst k.
    unfold c_time. cbn [c_times]. exists t. split; [exact Et|]. split; [apply F|]. destruct F as (_ & I & _).
    apply (solver_sound _ _ _ point_case) in I. rewrite point_poly in I. lra.
  Qed.
  Lemma point_complete t : 0 <= t <= 1 -> far t <= r * r ->
    exists k t', collide_sphere_with_sphere (Fin r) (vfin c) (vfin m) n0 (vfin p) (vfin mv) = Some k /\ c_time k = Fin t' /\ 0 <= t' <= t.
  Proof.
    intros Ht D. rewrite fin_0, sphere_sphere_lift by lra. cbv zeta. set (Z := rg_quadratic_zeros _ _ _).
    assert (I : in_range (Fin t) Z = true). { apply (solver_complete _ _ _ point_case). rewrite point_poly. lra. }
    pose proof (cut_first Z (fun t => in_range (Fin t) Z = true) ltac:(tauto)) as C. cbv zeta in C.
    destruct (rg_is_empty _) eqn:E; [exfalso; exact (C t Ht I)|]. destruct C as (t' & Et & F). rewrite Et.
    eexists. exists t'. split; [reflexivity|]. unfold c_time. cbn [c_times]. split; [exact Et|]. split; [apply F|]. now apply F.
  Qed.
End Point.

(** ** Ball against line and segment *)
Section Segment.
  Variables (r : R) (c m p q mv : V).
  Hypothesis R0 : 0 < r.
  Hypothesis Hpq : p <> q.
  Let dir := vsub q p.
  Let b := vcross (vsub m mv) (vunit dir).
  Hypothesis H : b = mkV 0 0 0 \/ 1 / 1000000 <= vdot b b /\ clear (line_crossing r c m p dir mv).
  Let centre t := vadd c (vscale m t).
  Let point i t := vadd (vadd p (vscale dir i)) (vscale mv t).
  Let far i t := vdot (vsub (point i t) (centre t)) (vsub (point i t) (centre t)).
  (** The foot of the perpendicular on the line, and its distance. *)
  Let foot t := vdot (vsub (centre t) (vadd p (vscale mv t))) dir / vdot dir dir.
  Lemma dir_nz : dir <> mkV 0 0 0.
  Proof. intros E. apply Hpq. unfold dir in E. apply vext; [assert (X := f_equal vx E)|assert (X := f_equal vy E)|assert (X := f_equal vz E)]; vunfold; lra. Qed.
  Lemma dir_pos : 0 < vdot dir dir.
  Proof.
    destruct (Rle_lt_or_eq_dec 0 (vdot dir dir) (vdot_pos dir)); auto. exfalso. apply dir_nz. symmetry in e.
    apply vext; vunfold; nra.
  Qed.
  Lemma far_split i t : far i t = far (foot t) t + (i - foot t) * (i - foot t) * vdot dir dir.
  Proof.
    pose proof dir_pos as P. unfold far, foot, point. set (D := vdot dir dir) in *.
    set (w := vsub (centre t) (vadd p (vscale mv t))).
    assert (E : forall i, vdot (vsub (vadd (vadd p (vscale dir i)) (vscale mv t)) (centre t)) (vsub (vadd (vadd p (vscale dir i)) (vscale mv t)) (centre t)) =
      vdot w w - 2 * i * vdot w dir + i * i * D) by (intros; unfold w, D; vunfold; ring).
    rewrite !E. field. lra.
  Qed.
  Lemma far_cross t : let w := vcross (vsub (centre t) (vadd p (vscale mv t))) (vunit dir) in far (foot t) t = vdot w w.
  Proof.
    cbv zeta. pose proof (vunit_unit dir dir_nz) as U. pose proof dir_pos as P. pose proof (sqrt_norm_pos dir dir_nz) as S.
    set (w := vsub (centre t) (vadd p (vscale mv t))).
    pose proof (lagrange w (vunit dir) (vdot w (vunit dir)) U) as L.
    assert (X : vscale (vunit dir) (vdot w (vunit dir)) = vscale dir (foot t)).
    { unfold foot. fold w. unfold vunit. assert (Q : sqrt (vdot dir dir) * sqrt (vdot dir dir) = vdot dir dir) by (apply sqrt_sqrt; lra).
      set (n := sqrt (vdot dir dir)) in *. rewrite <- Q. apply vext; vunfold; field; lra. }
    rewrite X in L. transitivity (vdot (vsub w (vscale dir (foot t))) (vsub w (vscale dir (foot t)))); [|rewrite L; ring].
    unfold far, point, w. rewrite dist_sym. f_equal; apply vext; vunfold; ring.
  Qed.
  Lemma line_case : let a := vcross (vsub c p) (vunit dir) in
    vdot b b = 0 /\ 2 * vdot a b = 0 \/ 1 / 1000000 <= vdot b b /\ clear (2 * vdot a b * (2 * vdot a b) - 4 * vdot b b * (vdot a a - r * r)).
  Proof. cbv zeta. destruct H as [->|[A D]]; [left; split; vunfold; ring|right; split; auto]. Qed.
  Lemma line_poly t : let a := vcross (vsub c p) (vunit dir) in
    vdot b b * t * t + 2 * vdot a b * t + (vdot a a - r * r) = far (foot t) t - r * r.
  Proof. cbv zeta. rewrite far_cross. exact (line_quadratic c m p mv (vunit dir) r t). Qed.

  Lemma line_some k : collide_sphere_with_line (Fin r) (vfin c) (vfin m) (vfin p) (vfin dir) (vfin mv) = Some k ->
    exists t, c_time k = Fin t /\ 0 <= t <= 1 /\ c_pos k = vfin (point (foot t) t) /\ far (foot t) t < r * r + 1 / 1000000 /\
      forall t0, far (foot t0) t0 <= r * r -> far (foot t) t <= r * r.
  Proof.
    intros K. pose proof (sphere_line_some r c m p dir mv k dir_nz K) as (t & x & j & Ht & Ht' & Hx & Ex & Eo & _).
    exists t. split; auto. split; auto.
    assert (Ej : j = foot t).
    { unfold foot. pose proof dir_pos as P. subst x. 
      assert (Y : vdot (vsub (vadd c (vscale m t)) (vadd (vadd p (vscale mv t)) (vscale dir j))) dir = vdot (vsub (centre t) (vadd p (vscale mv t))) dir - j * vdot dir dir) by (unfold centre; vunfold; ring).
      rewrite Y in Eo. apply Rmult_eq_reg_r with (vdot dir dir); [|lra].
      replace (vdot (vsub (centre t) (vadd p (vscale mv t))) dir / vdot dir dir * vdot dir dir) with (vdot (vsub (centre t) (vadd p (vscale mv t))) dir) by (field; lra). lra. }
    split. { rewrite Hx, Ex, Ej. f_equal. unfold point. apply vext; vunfold; ring. }
    revert K. unfold collide_sphere_with_line. cbv zeta. rewrite vnormalize_fin by apply dir_nz.
    rewrite !vfin_sub, !vfin_cross, !vfin_dot, fin_2, !fin_mul, fin_sub. fold b.
    match goal with |- context [rg_intersect ?z rg_unit] => set (Z := z) end.
    pose proof (cut_first Z (fun t => in_range (Fin t) Z = true) ltac:(tauto)) as C. cbv zeta in C.
    destruct (rg_is_empty _) eqn:E; [discriminate|]. destruct C as (t' & Et & F). intros K. apply some_eq in K. subst k.
    unfold c_time in Ht. cbn [c_times] in Ht. rewrite Et in Ht. apply of_fin in Ht. subst t'. destruct F as (_ & I & _). split.
    - apply (solver_sound _ _ _ line_case) in I. rewrite line_poly in I. lra.
    - intros t0 L0. pose proof (solver_exact _ _ _ line_case t0 t) as X. cbv beta zeta in X. rewrite (line_poly t0), (line_poly t) in X. specialize (X ltac:(lra) I). lra.
  Qed.
  Lemma line_complete t : 0 <= t <= 1 -> far (foot t) t <= r * r ->
    exists k t', collide_sphere_with_line (Fin r) (vfin c) (vfin m) (vfin p) (vfin dir) (vfin mv) = Some k /\ c_time k = Fin t' /\ 0 <= t' <= t.
  Proof.
    intros Ht D. unfold collide_sphere_with_line. cbv zeta. rewrite vnormalize_fin by apply dir_nz.
    rewrite !vfin_sub, !vfin_cross, !vfin_dot, fin_2, !fin_mul, fin_sub. fold b.
    match goal with |- context [rg_intersect ?z rg_unit] => set (Z := z) end.
    assert (I : in_range (Fin t) Z = true). { apply (solver_complete _ _ _ line_case). rewrite line_poly. lra. }
    pose proof (cut_first Z (fun t => in_range (Fin t) Z = true) ltac:(tauto)) as C. cbv zeta in C.
    destruct (rg_is_empty _) eqn:E; [exfalso; exact (C t Ht I)|]. destruct C as (t' & Et & F).
    eexists. exists t'. split; [reflexivity|]. unfold c_time. cbn [c_times]. split; [exact Et|]. split; [apply F|]. now apply F.
  Qed.

  Let len := dist q p.
  Lemma len_pos : 0 < len. Proof. unfold len, dist. apply sqrt_lt_R0. exact dir_pos. Qed.
  Lemma len_sq : len * len = vdot dir dir. Proof. unfold len, dist. apply sqrt_sqrt. pose proof dir_pos. fold dir. lra. Qed.
  Lemma ends i t : dist (vadd p (vscale mv t)) (point i t) + dist (vadd q (vscale mv t)) (point i t) = len * (Rabs i + Rabs (1 - i)).
  Proof.
    assert (S : forall x, sqrt (x * x * vdot dir dir) = len * Rabs x).
    { intros x. rewrite <- len_sq. replace (x * x * (len * len)) with ((x * len) * (x * len)) by ring.
      change ((x * len) * (x * len)) with (Rsqr (x * len)). rewrite sqrt_Rsqr_abs, Rabs_mult, (Rabs_pos_eq len); [ring|]. pose proof len_pos. lra. }
    unfold dist at 1 2.
    replace (vdot (vsub (vadd p (vscale mv t)) (point i t)) (vsub (vadd p (vscale mv t)) (point i t))) with (i * i * vdot dir dir) by (unfold point; vunfold; ring).
    replace (vdot (vsub (vadd q (vscale mv t)) (point i t)) (vsub (vadd q (vscale mv t)) (point i t))) with ((1 - i) * (1 - i) * vdot dir dir) by (unfold point, dir; vunfold; ring).
    rewrite !S. ring.
  Qed.
  Lemma segment_sound k : collide_sphere_with_mid_line_segment (Fin r) (vfin c) (vfin m) (vfin p) (vfin q) (vfin mv) = Some k ->
    exists t i, c_time k = Fin t /\ 0 <= t <= 1 /\ 0 <= i <= 1 /\ within (point i t) (centre t) (slack r).
  Proof.
    intros K. apply segment_some in K; auto. destruct K as (K & t & x & Et & Ex & A). cbv zeta in A. fold dir in K.
    apply line_some in K. destruct K as (t' & Et' & Ht' & Ex' & D & _). rewrite Et in Et'. apply of_fin in Et'. subst t'.
    rewrite Ex in Ex'. apply vfin_inj in Ex'. subst x. rewrite ends in A. fold len in A.
    set (j := foot t) in *. pose proof len_pos as LP. apply Rabs_def2 in A. destruct A as [A _].
    set (i := Rmax 0 (Rmin 1 j)). exists t, i. split; auto. split; auto.
    assert (Hi : 0 <= i <= 1). { unfold i. split; [apply Rmax_l|]. apply Rmax_lub; [lra|apply Rmin_l]. }
    split; auto.
    assert (O : Rabs (i - j) * len <= 1 / 1000000).
    { unfold i. unfold Rmin, Rmax. destruct (Rle_dec 1 j).
      - destruct (Rle_dec 0 1); [|lra]. rewrite Rabs_left1 in * by lra. rewrite (Rabs_pos_eq j) in A by lra. rewrite Rabs_left1 in A by lra. nra.
      - destruct (Rle_dec 0 j); [replace (j - j) with 0 by ring; rewrite Rabs_R0; lra|].
        rewrite (Rabs_pos_eq (0 - j)) by lra. rewrite (Rabs_left1 j) in A by lra. rewrite (Rabs_pos_eq (1 - j)) in A by lra. nra. }
    unfold within. fold (far i t). rewrite far_split. fold j. rewrite <- len_sq.
    assert (E : (i - j) * (i - j) * (len * len) = (Rabs (i - j) * len) * (Rabs (i - j) * len)).
    { transitivity (Rsqr (i - j) * (len * len)); [unfold Rsqr; ring|]. rewrite (Rsqr_abs (i - j)). unfold Rsqr. ring. }
    rewrite E. set (o := Rabs (i - j) * len) in *. assert (O0 : 0 <= o) by (unfold o; apply Rmult_le_pos; [apply Rabs_pos|lra]).
    unfold slack. set (s := sqrt (r * r + 1 / 1000000)). assert (S : s * s = r * r + 1 / 1000000) by (unfold s; apply sqrt_sqrt; nra).
    assert (S0 : 0 <= s) by apply sqrt_pos. clearbody s o. nra.
  Qed.
  (** Whenever the ball touches the segment, the segment or one of its ends was hit before. *)
  Lemma segment_complete t i : 0 <= t <= 1 -> 0 <= i <= 1 -> within (point i t) (centre t) r ->
    (exists k t', collide_sphere_with_mid_line_segment (Fin r) (vfin c) (vfin m) (vfin p) (vfin q) (vfin mv) = Some k /\ c_time k = Fin t' /\ 0 <= t' <= t) \/
    (exists t' e, 0 <= t' <= t /\ (e = p \/ e = q) /\ within (vadd e (vscale mv t')) (centre t') r).
  Proof.
    intros Ht Hi W. unfold within in W. fold (far i t) in W.
    assert (Lt : far (foot t) t <= r * r).
    { rewrite far_split in W. pose proof dir_pos. pose proof (Rle_0_sqr (i - foot t)) as S. unfold Rsqr in S.
      assert (0 <= (i - foot t) * (i - foot t) * vdot dir dir) by (apply Rmult_le_pos; lra). lra. }
    (* the squared distance from a point of the line, moving its parameter along with time, is convex *)
    destruct (line_complete t Ht Lt) as (k & t' & K & Et & Ht').
    destruct (line_some k K) as (t2 & Et2 & Ht2 & Ex & _ & X). rewrite Et in Et2. apply of_fin in Et2. subst t2.
    specialize (X t Lt). set (j := foot t') in *.
    destruct (Rle_dec 0 j) as [J0|J0]; [destruct (Rle_dec j 1) as [J1|J1]|].
    - left. exists k, t'. split; [|auto]. apply segment_some; auto. split; [exact K|]. exists t', (point j t'). split; auto. split; auto.
      cbv zeta. rewrite ends. fold len. rewrite (Rabs_pos_eq j), (Rabs_pos_eq (1 - j)) by lra. replace (len * (j + (1 - j)) - len) with 0 by ring. rewrite Rabs_R0. lra.
    - right. set (u := (j - 1) / (j - i)). assert (U : 0 <= u <= 1).
      { unfold u. split; [apply Rmult_le_pos; [lra|]; left; apply Rinv_0_lt_compat; lra|].
        apply Rmult_le_reg_r with (j - i); [lra|]. replace ((j - 1) / (j - i) * (j - i)) with (j - 1) by (field; lra). lra. }
      exists (t' + u * (t - t')), q. split; [split; [apply Rplus_le_le_0_compat; [lra|apply Rmult_le_pos; lra]|nra]|]. split; auto.
      assert (Q : vadd q (vscale mv (t' + u * (t - t'))) = vadd (vscale (point j t') (1 - u)) (vscale (point i t) u)).
      { assert (Eu : j * (1 - u) + i * u = 1) by (unfold u; field; lra). unfold point.
        transitivity (vadd (vadd p (vscale dir (j * (1 - u) + i * u))) (vscale mv (t' + u * (t - t')))); [rewrite Eu; unfold dir|]; apply vext; vunfold; ring. }
      unfold within. rewrite Q.
      pose proof (vdot_pos (vsub (vsub (point j t') (centre t')) (vsub (point i t) (centre t)))) as V. unfold far in W, X.
      assert (E : vdot (vsub (vadd (vscale (point j t') (1 - u)) (vscale (point i t) u)) (centre (t' + u * (t - t')))) (vsub (vadd (vscale (point j t') (1 - u)) (vscale (point i t) u)) (centre (t' + u * (t - t')))) =
        (1 - u) * vdot (vsub (point j t') (centre t')) (vsub (point j t') (centre t')) + u * vdot (vsub (point i t) (centre t)) (vsub (point i t) (centre t)) -
        u * (1 - u) * vdot (vsub (vsub (point j t') (centre t')) (vsub (point i t) (centre t))) (vsub (vsub (point j t') (centre t')) (vsub (point i t) (centre t)))).
      { generalize (point j t') (point i t). intros y z. unfold centre. vunfold. ring. }
      rewrite E. clear E. assert (0 <= u * (1 - u)) by (apply Rmult_le_pos; lra). set (A := vdot (vsub (point j t') _) _) in *. set (B := vdot (vsub (point i t) _) _) in *. set (V2 := vdot (vsub (vsub _ _) _) _) in *.
      assert (0 <= u * (1 - u) * V2) by (apply Rmult_le_pos; lra). clearbody u A B V2. nra.
    - right. set (u := (0 - j) / (i - j)). assert (U : 0 <= u <= 1).
      { unfold u. split; [apply Rmult_le_pos; [lra|]; left; apply Rinv_0_lt_compat; lra|].
        apply Rmult_le_reg_r with (i - j); [lra|]. replace ((0 - j) / (i - j) * (i - j)) with (0 - j) by (field; lra). lra. }
      exists (t' + u * (t - t')), p. split; [split; [apply Rplus_le_le_0_compat; [lra|apply Rmult_le_pos; lra]|nra]|]. split; auto.
      assert (Q : vadd p (vscale mv (t' + u * (t - t'))) = vadd (vscale (point j t') (1 - u)) (vscale (point i t) u)).
      { assert (Eu : j * (1 - u) + i * u = 0) by (unfold u; field; lra). unfold point.
        transitivity (vadd (vadd p (vscale dir (j * (1 - u) + i * u))) (vscale mv (t' + u * (t - t')))); [rewrite Eu; unfold dir|]; apply vext; vunfold; ring. }
      unfold within. rewrite Q.
      pose proof (vdot_pos (vsub (vsub (point j t') (centre t')) (vsub (point i t) (centre t)))) as V. unfold far in W, X.
      assert (E : vdot (vsub (vadd (vscale (point j t') (1 - u)) (vscale (point i t) u)) (centre (t' + u * (t - t')))) (vsub (vadd (vscale (point j t') (1 - u)) (vscale (point i t) u)) (centre (t' + u * (t - t')))) =
        (1 - u) * vdot (vsub (point j t') (centre t')) (vsub (point j t') (centre t')) + u * vdot (vsub (point i t) (centre t)) (vsub (point i t) (centre t)) -
        u * (1 - u) * vdot (vsub (vsub (point j t') (centre t')) (vsub (point i t) (centre t))) (vsub (vsub (point j t') (centre t')) (vsub (point i t) (centre t)))).
      { generalize (point j t') (point i t). intros y z. unfold centre. vunfold. ring. }
      rewrite E. clear E. assert (0 <= u * (1 - u)) by (apply Rmult_le_pos; lra). set (A := vdot (vsub (point j t') _) _) in *. set (B := vdot (vsub (point i t) _) _) in *. set (V2 := vdot (vsub (vsub _ _) _) _) in *.
      assert (0 <= u * (1 - u) * V2) by (apply Rmult_le_pos; lra). clearbody u A B V2. nra.
  Qed.
End Segment.

(** ** Ball against box *)
Lemma clamp_near lo hi a : lo <= hi ->
  lo <= a <= hi \/ exists e, (e = lo \/ e = hi) /\ forall x, lo <= x <= hi -> (e - a) * (e - a) <= (x - a) * (x - a).
Proof.
  intros L. destruct (Rlt_dec a lo); [right; exists lo; split; auto; intros; nra|].
  destruct (Rlt_dec hi a); [right; exists hi; split; auto; intros; nra|]. left. lra.
Qed.
Lemma sq_le_abs x r : 0 <= r -> x * x <= r * r -> - r <= x <= r.
Proof. intros. nra. Qed.
Lemma box_regions r (c mn mx : V) : 0 <= r -> vx mn < vx mx -> vy mn < vy mx -> vz mn < vz mx -> ball_meets_box r c mn mx ->
  facing r mn mx c \/
  (exists p q i, is_edge mn mx p q /\ 0 <= i <= 1 /\ within (vadd p (vscale (vsub q p) i)) c r) \/
  (exists p, is_corner mn mx p /\ within p c r).
Proof.
  intros R0 Lx Ly Lz (x & (Bx & By & Bz) & W). unfold within in W.
  replace (vdot (vsub x c) (vsub x c)) with ((vx x - vx c) * (vx x - vx c) + (vy x - vy c) * (vy x - vy c) + (vz x - vz c) * (vz x - vz c)) in W by (vunfold; ring).
  assert (Sx := Rle_0_sqr (vx x - vx c)). assert (Sy := Rle_0_sqr (vy x - vy c)). assert (Sz := Rle_0_sqr (vz x - vz c)). unfold Rsqr in *.
  assert (P : forall lo hi a, lo < hi -> lo <= a <= hi -> 0 <= (a - lo) / (hi - lo) <= 1).
  { intros lo hi a L A. split; [apply Rmult_le_pos; [lra|left; apply Rinv_0_lt_compat; lra]|].
    apply Rmult_le_reg_r with (hi - lo); [lra|]. replace ((a - lo) / (hi - lo) * (hi - lo)) with (a - lo) by (field; lra). lra. }
  destruct (clamp_near (vx mn) (vx mx) (vx c)) as [Cx|(ex & Ex & Mx)]; [lra| |specialize (Mx _ Bx)];
  (destruct (clamp_near (vy mn) (vy mx) (vy c)) as [Cy|(ey & Ey & My)]; [lra| |specialize (My _ By)]);
  (destruct (clamp_near (vz mn) (vz mx) (vz c)) as [Cz|(ez & Ez & Mz)]; [lra| |specialize (Mz _ Bz)]).
  - left. unfold facing. lra.
  - left. right. right. pose proof (sq_le_abs (ez - vz c) r R0 ltac:(lra)). destruct Ez; subst ez; lra.
  - left. right. left. pose proof (sq_le_abs (ey - vy c) r R0 ltac:(lra)). destruct Ey; subst ey; lra.
  - right. left. exists (mkV (vx mn) ey ez), (mkV (vx mx) ey ez), ((vx c - vx mn) / (vx mx - vx mn)).
    split; [unfold is_edge, is_corner; cbn [vx vy vz]; tauto|]. split; [auto|]. unfold within.
    match goal with |- ?l <= _ => replace l with ((ey - vy c) * (ey - vy c) + (ez - vz c) * (ez - vz c)) by (vunfold; field; lra) end. lra.
  - left. left. pose proof (sq_le_abs (ex - vx c) r R0 ltac:(lra)). destruct Ex; subst ex; lra.
  - right. left. exists (mkV ex (vy mn) ez), (mkV ex (vy mx) ez), ((vy c - vy mn) / (vy mx - vy mn)).
    split; [unfold is_edge, is_corner; cbn [vx vy vz]; tauto|]. split; [auto|]. unfold within.
    match goal with |- ?l <= _ => replace l with ((ex - vx c) * (ex - vx c) + (ez - vz c) * (ez - vz c)) by (vunfold; field; lra) end. lra.
  - right. left. exists (mkV ex ey (vz mn)), (mkV ex ey (vz mx)), ((vz c - vz mn) / (vz mx - vz mn)).
    split; [unfold is_edge, is_corner; cbn [vx vy vz]; tauto|]. split; [auto|]. unfold within.
    match goal with |- ?l <= _ => replace l with ((ex - vx c) * (ex - vx c) + (ey - vy c) * (ey - vy c)) by (vunfold; field; lra) end. lra.
  - right. right. exists (mkV ex ey ez). split; [unfold is_corner; cbn [vx vy vz]; tauto|]. unfold within.
    match goal with |- ?l <= _ => replace l with ((ex - vx c) * (ex - vx c) + (ey - vy c) * (ey - vy c) + (ez - vz c) * (ez - vz c)) by (vunfold; ring) end. lra.
Qed.

Lemma lively_speedy v : lively v -> speedy v.
Proof. intros [->|L]; [left; auto|right; lra]. Qed.
Lemma lively_sq v : lively v -> v = 0 \/ 1 / 1000000 <= v * v.
Proof.
  intros [->|L]; auto. right. assert (E : v * v = Rabs v * Rabs v) by (transitivity (Rsqr v); [reflexivity|rewrite (Rsqr_abs v); reflexivity]). rewrite E. nra.
Qed.
Lemma slack_ge r : 0 < r -> r * r + 1 / 1000000 <= slack r * slack r.
Proof.
  intros R0. unfold slack. set (s := sqrt (r * r + 1 / 1000000)). assert (S : s * s = r * r + 1 / 1000000) by (unfold s; apply sqrt_sqrt; nra).
  assert (S0 : 0 <= s) by apply sqrt_pos. clearbody s. nra.
Qed.
Section Box.
  Variables (r : R) (c m mn mx : V).
  Hypothesis R0 : 0 < r. Hypothesis Lx : vx mn < vx mx. Hypothesis Ly : vy mn < vy mx. Hypothesis Lz : vz mn < vz mx.
  Hypothesis Vx : lively (vx m). Hypothesis Vy : lively (vy m). Hypothesis Vz : lively (vz m).
  Hypothesis G : grazes_nothing r c m mn mx.
  Let centre t := vadd c (vscale m t).
  Let touches t := ball_meets_box r (centre t) mn mx.

  Lemma still_sub : vsub m (mkV 0 0 0) = m. Proof. apply vext; vunfold; ring. Qed.
  Lemma corner_hyp p : is_corner mn mx p ->
    vsub m (mkV 0 0 0) = mkV 0 0 0 \/ 1 / 1000000 <= vdot (vsub m (mkV 0 0 0)) (vsub m (mkV 0 0 0)) /\ clear (crossing c m p (mkV 0 0 0) r).
  Proof.
    intros C. rewrite still_sub. destruct G as [Gc _]. destruct (Gc p C) as [->|D]; auto.
    pose proof (Rle_0_sqr (vx m)) as Qx. pose proof (Rle_0_sqr (vy m)) as Qy. pose proof (Rle_0_sqr (vz m)) as Qz. unfold Rsqr in *.
    assert (E : vdot m m = vx m * vx m + vy m * vy m + vz m * vz m) by (vunfold; ring). rewrite E.
    destruct (lively_sq _ Vx) as [Ex|]; [|right; split; auto; lra]. destruct (lively_sq _ Vy) as [Ey|]; [|right; split; auto; lra].
    destruct (lively_sq _ Vz) as [Ez|]; [|right; split; auto; lra]. left. apply vext; auto.
  Qed.
  Lemma edge_ne p q : is_edge mn mx p q -> p <> q.
  Proof. intros (_ & _ & E) ->. lra. Qed.
  Lemma edge_hyp p q : is_edge mn mx p q -> let b := vcross (vsub m (mkV 0 0 0)) (vunit (vsub q p)) in
    b = mkV 0 0 0 \/ 1 / 1000000 <= vdot b b /\ clear (line_crossing r c m p (vsub q p) (mkV 0 0 0)).
  Proof.
    intros E. cbv zeta. rewrite still_sub. pose proof (edge_ne p q E) as N. pose proof (dir_pos p q N) as P.
    assert (Q : sqrt (vdot (vsub q p) (vsub q p)) * sqrt (vdot (vsub q p) (vsub q p)) = vdot (vsub q p) (vsub q p)) by (apply sqrt_sqrt; lra).
    assert (S : 0 < sqrt (vdot (vsub q p) (vsub q p))) by (apply sqrt_lt_R0; auto).
    destruct G as [_ Ge]. destruct (Ge p q E) as [Z|D].
    { left. unfold vunit. set (n := / sqrt _). assert (X : vcross m (vscale (vsub q p) n) = vscale (vcross m (vsub q p)) n) by (apply vext; vunfold; ring).
      rewrite X, Z. apply vext; vunfold; ring. }
    assert (Y : vdot (vcross m (vunit (vsub q p))) (vcross m (vunit (vsub q p))) * vdot (vsub q p) (vsub q p) = vdot (vcross m (vsub q p)) (vcross m (vsub q p))).
    { unfold vunit. set (n := sqrt _) in *. rewrite <- Q. vunfold. field. lra. }
    pose proof (Rle_0_sqr (vx m)) as Qx. pose proof (Rle_0_sqr (vy m)) as Qy. pose proof (Rle_0_sqr (vz m)) as Qz. unfold Rsqr in *.
    set (b := vcross m (vunit (vsub q p))) in *.
    assert (F : vdot b b = vy m * vy m + vz m * vz m \/ vdot b b = vx m * vx m + vz m * vz m \/ vdot b b = vx m * vx m + vy m * vy m).
    { destruct E as (_ & _ & [(A1 & A2 & A3 & A4)|[(A1 & A2 & A3 & A4)|(A1 & A2 & A3 & A4)]]); [left|right; left|right; right];
        apply Rmult_eq_reg_r with (vdot (vsub q p) (vsub q p)); try lra; rewrite Y; vunfold; rewrite ?A1, ?A2, ?A3, ?A4; ring. }
    assert (Z0 : vdot b b = 0 -> b = mkV 0 0 0).
    { intros Z. pose proof (Rle_0_sqr (vx b)) as X1. pose proof (Rle_0_sqr (vy b)) as X2. pose proof (Rle_0_sqr (vz b)) as X3. unfold Rsqr in *.
      assert (E' : vdot b b = vx b * vx b + vy b * vy b + vz b * vz b) by (clearbody b; vunfold; ring). rewrite E' in Z.
      apply vext; cbn [vx vy vz]; apply Rsqr_0_uniq; unfold Rsqr; lra. }
    destruct (lively_sq _ Vx) as [Ex|]; destruct (lively_sq _ Vy) as [Ey|]; destruct (lively_sq _ Vz) as [Ez|];
      (destruct F as [F|[F|F]]); rewrite ?Ex, ?Ey, ?Ez in F; try (left; apply Z0; lra); right; (split; [lra|auto]).
  Qed.
  Lemma centre0 t : vadd c (vscale m t) = centre t. Proof. reflexivity. Qed.
  Lemma still_at (x : V) t : vadd x (vscale (mkV 0 0 0) t) = x. Proof. apply vext; vunfold; ring. Qed.
  Lemma vzero_fin : @vzero ER EReal = vfin (mkV 0 0 0). Proof. unfold vzero, vfin. cbn [vx vy vz]. now rewrite fin_0. Qed.
  Lemma corner_in p : is_corner mn mx p -> in_box mn mx p.
  Proof. intros (A & B & C). unfold in_box. destruct A as [->| ->], B as [->| ->], C as [->| ->]; lra. Qed.
  Lemma between_in p q i : in_box mn mx p -> in_box mn mx q -> 0 <= i <= 1 -> in_box mn mx (vadd p (vscale (vsub q p) i)).
  Proof. unfold in_box. intros (P1 & P2 & P3) (Q1 & Q2 & Q3) I. vunfold. repeat split; nra. Qed.

  Lemma part_sound k : box_part (Fin r) (vfin c) (vfin m) (vfin mn) (vfin mx) k ->
    exists t, c_time k = Fin t /\ 0 <= t <= 1 /\ ball_meets_box (slack r) (centre t) mn mx.
  Proof.
    pose proof (slack_ge r R0) as SG.
    intros [k' K|p' q' k' E K|p' k' C K].
    - apply (face_sound r c m mn mx) in K; auto using lively_speedy; try lra. destruct K as (t & Et & Ht & x & B & W).
      exists t. split; auto. split; auto. exists x. split; auto. unfold within in *. fold (centre t) in W. lra.
    - assert (EF : exists p q, p' = vfin p /\ q' = vfin q /\ is_edge mn mx p q).
      { assert (CF : forall p', is_corner (vfin mn) (vfin mx) p' -> exists p, p' = vfin p /\ is_corner mn mx p).
        { intros [a b d] (A & B & D). cbn [vx vy vz vfin] in A, B, D. 
          exists (mkV (match a with Fin u => u | _ => 0 end) (match b with Fin u => u | _ => 0 end) (match d with Fin u => u | _ => 0 end)).
          unfold is_corner. cbn [vx vy vz]. destruct A as [->| ->], B as [->| ->], D as [->| ->]; (split; [exact eq_refl|tauto]). }
        destruct E as (C1 & C2 & E). destruct (CF _ C1) as (p & -> & Cp). destruct (CF _ C2) as (q & -> & Cq).
        exists p, q. split; auto. split; auto. split; auto. split; auto. cbn [vx vy vz vfin] in E.
        destruct E as [(A1 & A2 & A3 & A4)|[(A1 & A2 & A3 & A4)|(A1 & A2 & A3 & A4)]]; apply of_fin in A1, A2, A3, A4; tauto. }
      destruct EF as (p & q & -> & -> & Ed). rewrite vzero_fin in K.
      apply (segment_sound r c m p q (mkV 0 0 0) (edge_ne _ _ Ed) (edge_hyp _ _ Ed)) in K.
      destruct K as (t & i & Et & Ht & Hi & W). exists t. split; auto. split; auto. rewrite still_at in W. 
      eexists. split; [|exact W]. destruct Ed as (Cp & Cq & _). apply between_in; auto using corner_in.
    - assert (CF : exists p, p' = vfin p /\ is_corner mn mx p).
      { destruct p' as [a b d]. destruct C as (A & B & D). cbn [vx vy vz vfin] in A, B, D. 
        exists (mkV (match a with Fin u => u | _ => 0 end) (match b with Fin u => u | _ => 0 end) (match d with Fin u => u | _ => 0 end)).
        unfold is_corner. cbn [vx vy vz]. destruct A as [->| ->], B as [->| ->], D as [->| ->]; (split; [exact eq_refl|tauto]). }
      destruct CF as (p & -> & Cp). rewrite vzero_fin in K.
      apply (point_some r c m p (mkV 0 0 0) R0 (corner_hyp _ Cp)) in K. destruct K as (t & Et & Ht & D). exists t. split; auto. split; auto.
      rewrite still_at in D. exists p. split; auto using corner_in. unfold within. unfold centre. lra.
  Qed.
  Lemma part_complete t : 0 <= t <= 1 -> touches t ->
    exists k t', box_part (Fin r) (vfin c) (vfin m) (vfin mn) (vfin mx) k /\ c_time k = Fin t' /\ 0 <= t' <= t.
  Proof.
    intros Ht T. assert (CO : forall p t0, is_corner mn mx p -> 0 <= t0 <= t -> within p (centre t0) r ->
      exists k t', box_part (Fin r) (vfin c) (vfin m) (vfin mn) (vfin mx) k /\ c_time k = Fin t' /\ 0 <= t' <= t).
    { intros p t0 Cp H0 W. destruct (point_complete r c m p (mkV 0 0 0) R0 (corner_hyp _ Cp) t0 ltac:(lra)) as (k & t' & K & Et & Ht').
      { rewrite still_at. exact W. }
      exists k, t'. split; [|split; [auto|lra]]. apply BP_corner with (p := vfin p); [|now rewrite vzero_fin].
      destruct Cp as (A & B & C). unfold is_corner. cbn [vx vy vz vfin]. destruct A as [->| ->], B as [->| ->], C as [->| ->]; tauto. }
    destruct (box_regions r (centre t) mn mx ltac:(lra) Lx Ly Lz T) as [F|[(p & q & i & Ed & Hi & W)|(p & Cp & W)]].
    - destruct (face_complete r c m mn mx ltac:(lra) ltac:(lra) ltac:(lra) ltac:(lra) (lively_speedy _ Vx) (lively_speedy _ Vy) (lively_speedy _ Vz) t Ht F) as (k & t' & K & Et & L).
      exists k, t'. split; [now apply BP_face|]. split; auto. split; auto.
      apply (face_sound r c m mn mx) in K; auto using lively_speedy; try lra. destruct K as (t2 & Et2 & Ht2 & _). rewrite Et in Et2. apply of_fin in Et2. lra.
    - destruct (segment_complete r c m p q (mkV 0 0 0) (edge_ne _ _ Ed) (edge_hyp _ _ Ed) t i Ht Hi) as [(k & t' & K & Et & L)|(t' & e & L & Ee & We)].
      + rewrite still_at. exact W.
      + exists k, t'. split; [|auto]. apply BP_edge with (p := vfin p) (q := vfin q); [|now rewrite vzero_fin].
        destruct Ed as ((A1 & B1 & C1) & (A2 & B2 & C2) & E). unfold is_edge, is_corner. cbn [vx vy vz vfin].
        split; [destruct A1 as [->| ->], B1 as [->| ->], C1 as [->| ->]; tauto|]. split; [destruct A2 as [->| ->], B2 as [->| ->], C2 as [->| ->]; tauto|].
        destruct E as [(-> & -> & -> & ->)|[(-> & -> & -> & ->)|(-> & -> & -> & ->)]]; tauto.
      + rewrite still_at in We. apply (CO e t'); auto. destruct Ed as (Cp & Cq & _). destruct Ee as [->| ->]; auto.
    - apply (CO p t); auto. lra.
  Qed.
  Lemma ball_box_upto :
    match collide_sphere_with_aligned_box (Fin r) (vfin c) (vfin m) (vfin mn) (vfin mx) with
    | None => forall t, 0 <= t <= 1 -> ~ touches t
    | Some k => exists t, c_time k = Fin t /\ 0 <= t <= 1 /\ ball_meets_box (slack r) (centre t) mn mx /\ forall t', 0 <= t' <= 1 -> touches t' -> t <= t'
    end.
  Proof.
    pose proof (box_earliest (Fin r) (vfin c) (vfin m) (vfin mn) (vfin mx)) as B.
    destruct (collide_sphere_with_aligned_box _ _ _ _ _) as [k|] eqn:E.
    - destruct B as [P M]. destruct (part_sound k P) as (t & Et & Ht & W). exists t. split; auto. split; auto. split; auto.
      intros t' Ht' T. destruct (part_complete t' Ht' T) as (k' & t2 & P' & Et' & L). specialize (M k' P'). rewrite Et, Et' in M.
      apply er_lt_fin_f in M. lra.
    - intros t Ht T. destruct (part_complete t Ht T) as (k' & t2 & P' & _). exact (B k' P').
  Qed.
End Box.
(** In the world, through [collide], for a box that does not turn. *)
Lemma collide_box_upto (s : sphere_c ER) (b : box_c ER) (cs mn mx : V) (r : R) (s1 e1 s2 e2 : orientation R) :
  sp_center s = vfin cs -> sp_radius s = Fin r -> bx_min b = vfin mn -> bx_max b = vfin mx ->
  0 < r -> vx mn < vx mx -> vy mn < vy mx -> vz mn < vz mx -> steady s2 e2 ->
  let from := position_into_local s2 (position_into_world s1 cs) in
  let to := position_into_local e2 (position_into_world e1 cs) in
  let m := vsub to from in
  lively (vx m) -> lively (vy m) -> lively (vz m) -> grazes_nothing r from m mn mx ->
  let touches r t := exists y, in_box mn mx y /\
    within (along (position_into_world s2 y) (position_into_world e2 y) t) (along (position_into_world s1 cs) (position_into_world e1 cs) t) r in
  match collide (CSphere s) (ofin s1) (ofin e1) (CBox b) (ofin s2) (ofin e2) with
  | Ok None => forall t, 0 <= t <= 1 -> ~ touches r t
  | Ok (Some k) => exists t, c_time k = Fin t /\ 0 <= t <= 1 /\ touches (slack r) t /\ forall t', 0 <= t' <= 1 -> touches r t' -> t <= t'
  | _ => False
  end.
Proof.
  intros Hc Hr Hmn Hmx R0 Lx Ly Lz St from to m Vx Vy Vz G touches.
  rewrite (box_eq s b cs mn mx r s1 e1 s2 e2 Hc Hr Hmn Hmx). fold from to.
  assert (T : forall r t, touches r t <-> ball_meets_box r (vadd from (vscale m t)) mn mx).
  { intros r' t. unfold touches. symmetry. exact (box_world cs mn mx r' s1 e1 s2 e2 St t). }
  pose proof (ball_box_upto r from m mn mx R0 Lx Ly Lz Vx Vy Vz G) as B. fold m.
  destruct (collide_sphere_with_aligned_box _ _ _ _ _) as [k|]; cbn [option_map].
  - destruct B as (t & Et & Ht & W & M). exists t. split; [exact Et|]. split; auto. split; [now apply T|]. intros t' Ht' T'. apply M; auto. now apply T.
  - intros t Ht T'. apply (B t Ht). now apply T.
Qed.
