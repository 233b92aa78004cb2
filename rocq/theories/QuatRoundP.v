(** * QuatRoundP: rounding in products and exponentials of quaternions (C87) *)
From Coq Require Import ZArith Reals Bool Lra Lia Psatz List.
Import ListNotations.
From Flocq Require Import Core Relative IEEE754.BinarySingleNaN.
From Verif Require Import Num Vec Res Arena Orient EntityM SystemM OrderP ArithP Spec ResP RealSpec RealV AlgebraSpec AlgebraP RoundSpec RoundP TurnSpec.
Local Open Scope R_scope.

(** The unit of rounding. *)
Definition uu : R := / 16777216.
Lemma uu_is : powerRZ 2 (-24) = uu.
Proof. unfold uu. rewrite pow_bpow. exact eq_refl. Qed.
(** A number far below everything else here. *)
Definition eta : R := powerRZ 2 (-150).
Lemma eta_small : 0 < eta <= uu * uu * uu * uu * uu * uu.
Proof.
  unfold eta. rewrite <- uu_is, !pow_bpow, <- !bpow_plus. split; [apply bpow_gt_0|]. apply bpow_le. lia.
Qed.
Lemma near_fin a got r : agrees (Fin a) got -> got = Fin r -> Rabs (r - a) <= uu * Rabs a + eta.
Proof. intros A E. pose proof (agrees_fin _ _ _ A E) as H. rewrite uu_is in H. unfold eta. lra. Qed.

Lemma plus_back (x y : f32) z : B2ER (Bplus mode_NE x y) = Fin z -> exists a b, B2ER x = Fin a /\ B2ER y = Fin b /\ Rabs (z - (a + b)) <= uu * Rabs (a + b) + eta.
Proof.
  intros H. pose proof (plus_agrees x y) as A. destruct (B2ER x) as [a| | |], (B2ER y) as [b| | |]; cbn [er_add agrees] in A; try congruence.
  exists a, b. split; [exact eq_refl|]. split; [exact eq_refl|]. exact (near_fin _ _ _ A H).
Qed.
Lemma minus_back (x y : f32) z : B2ER (Bminus mode_NE x y) = Fin z -> exists a b, B2ER x = Fin a /\ B2ER y = Fin b /\ Rabs (z - (a - b)) <= uu * Rabs (a - b) + eta.
Proof.
  intros H. pose proof (minus_agrees x y) as A. destruct (B2ER x) as [a| | |], (B2ER y) as [b| | |]; cbn in A; try congruence.
  exists a, b. split; [exact eq_refl|]. split; [exact eq_refl|]. change (a + - b) with (a - b) in A. exact (near_fin _ _ _ A H).
Qed.
Lemma mult_back (x y : f32) z : B2ER (Bmult mode_NE x y) = Fin z -> exists a b, B2ER x = Fin a /\ B2ER y = Fin b /\ Rabs (z - a * b) <= uu * Rabs (a * b) + eta.
Proof.
  intros H. pose proof (mult_agrees x y) as A. destruct (B2ER x) as [a| | |] eqn:Ex, (B2ER y) as [b| | |] eqn:Ey; cbn [er_mul] in A;
    try (unfold er_inf_times in A); repeat match type of A with context [if ?c then _ else _] => destruct c end; cbn [agrees] in A; try congruence.
  exists a, b. split; [exact eq_refl|]. split; [exact eq_refl|]. exact (near_fin _ _ _ A H).
Qed.

(** ** Sums of four products *)
Lemma near_bound x a b k : Rabs a <= b -> Rabs (x - a) <= uu * Rabs a + k -> Rabs x <= (1 + uu) * b + k /\ Rabs (x - a) <= uu * b + k.
Proof.
  intros H1 H2. assert (U : 0 < uu) by (unfold uu; lra). assert (uu * Rabs a <= uu * b) by (apply Rmult_le_compat_l; lra).
  pose proof (Rabs_triang a (x - a)) as T. replace (a + (x - a)) with x in T by ring. split; lra.
Qed.
Lemma four_round t1 t2 t3 t4 m1 m2 m3 m4 s1 s2 s3 :
  Rabs (m1 - t1) <= uu * Rabs t1 + eta -> Rabs (m2 - t2) <= uu * Rabs t2 + eta -> Rabs (m3 - t3) <= uu * Rabs t3 + eta -> Rabs (m4 - t4) <= uu * Rabs t4 + eta ->
  Rabs (s1 - (m1 + m2)) <= uu * Rabs (m1 + m2) + eta -> Rabs (s2 - (s1 + m3)) <= uu * Rabs (s1 + m3) + eta -> Rabs (s3 - (s2 + m4)) <= uu * Rabs (s2 + m4) + eta ->
  Rabs (s3 - (t1 + t2 + t3 + t4)) <= 41 / 10 * uu * (Rabs t1 + Rabs t2 + Rabs t3 + Rabs t4) + 20 * eta.
Proof.
  intros M1 M2 M3 M4 S1 S2 S3. pose proof eta_small as (E0 & _). set (e := eta) in *. clearbody e.
  pose proof (Rabs_pos t1) as P1. pose proof (Rabs_pos t2) as P2. pose proof (Rabs_pos t3) as P3. pose proof (Rabs_pos t4) as P4.
  destruct (near_bound m1 t1 (Rabs t1) e ltac:(lra) M1) as (B1 & _). destruct (near_bound m2 t2 (Rabs t2) e ltac:(lra) M2) as (B2 & _).
  destruct (near_bound m3 t3 (Rabs t3) e ltac:(lra) M3) as (B3 & _). destruct (near_bound m4 t4 (Rabs t4) e ltac:(lra) M4) as (B4 & _).
  set (a1 := Rabs t1) in *. set (a2 := Rabs t2) in *. set (a3 := Rabs t3) in *. set (a4 := Rabs t4) in *.
  pose proof (Rabs_triang m1 m2) as T1. destruct (near_bound s1 (m1 + m2) _ e (Rle_trans _ _ _ T1 (Rplus_le_compat _ _ _ _ B1 B2)) S1) as (C1 & D1).
  pose proof (Rabs_triang s1 m3) as T2. destruct (near_bound s2 (s1 + m3) _ e (Rle_trans _ _ _ T2 (Rplus_le_compat _ _ _ _ C1 B3)) S2) as (C2 & D2).
  pose proof (Rabs_triang s2 m4) as T3. destruct (near_bound s3 (s2 + m4) _ e (Rle_trans _ _ _ T3 (Rplus_le_compat _ _ _ _ C2 B4)) S3) as (C3 & D3).
  assert (X : Rabs (s3 - (t1 + t2 + t3 + t4)) <= Rabs (s3 - (s2 + m4)) + Rabs (s2 - (s1 + m3)) + Rabs (s1 - (m1 + m2)) + Rabs (m1 - t1) + Rabs (m2 - t2) + Rabs (m3 - t3) + Rabs (m4 - t4)).
  { replace (s3 - (t1 + t2 + t3 + t4)) with ((s3 - (s2 + m4)) + (s2 - (s1 + m3)) + (s1 - (m1 + m2)) + (m1 - t1) + (m2 - t2) + (m3 - t3) + (m4 - t4)) by ring.
    repeat (eapply Rle_trans; [apply Rabs_triang|apply Rplus_le_compat_r]). lra. }
  clearbody a1 a2 a3 a4. clear - X M1 M2 M3 M4 D1 D2 D3 P1 P2 P3 P4 E0. unfold uu in *. lra.
Qed.
Lemma cauchy a1 a2 a3 a4 b1 b2 b3 b4 : let s := Rabs (a1 * b1) + Rabs (a2 * b2) + Rabs (a3 * b3) + Rabs (a4 * b4) in
  s * s <= (a1 * a1 + a2 * a2 + a3 * a3 + a4 * a4) * (b1 * b1 + b2 * b2 + b3 * b3 + b4 * b4).
Proof.
  cbv zeta. rewrite !Rabs_mult. assert (Q : forall x, x * x = Rabs x * Rabs x) by (intros x; rewrite <- Rabs_mult; symmetry; apply Rabs_pos_eq; nra).
  rewrite (Q a1), (Q a2), (Q a3), (Q a4), (Q b1), (Q b2), (Q b3), (Q b4). clear Q.
  set (x1 := Rabs a1). set (x2 := Rabs a2). set (x3 := Rabs a3). set (x4 := Rabs a4). set (y1 := Rabs b1). set (y2 := Rabs b2). set (y3 := Rabs b3). set (y4 := Rabs b4).
  clearbody x1 x2 x3 x4 y1 y2 y3 y4.
  assert (S : forall x, 0 <= x * x) by (intros; nra).
  pose proof (S (x1 * y2 - x2 * y1)). pose proof (S (x1 * y3 - x3 * y1)). pose proof (S (x1 * y4 - x4 * y1)).
  pose proof (S (x2 * y3 - x3 * y2)). pose proof (S (x2 * y4 - x4 * y2)). pose proof (S (x3 * y4 - x4 * y3)).
  match goal with |- ?l <= ?r => assert (E : r - l = (x1 * y2 - x2 * y1) * (x1 * y2 - x2 * y1) + (x1 * y3 - x3 * y1) * (x1 * y3 - x3 * y1) + (x1 * y4 - x4 * y1) * (x1 * y4 - x4 * y1) +
    (x2 * y3 - x3 * y2) * (x2 * y3 - x3 * y2) + (x2 * y4 - x4 * y2) * (x2 * y4 - x4 * y2) + (x3 * y4 - x4 * y3) * (x3 * y4 - x4 * y3)) by ring end.
  lra.
Qed.
Lemma four_close t1 t2 t3 t4 a1 a2 a3 a4 b1 b2 b3 b4 z : Rabs t1 = Rabs (a1 * b1) -> Rabs t2 = Rabs (a2 * b2) -> Rabs t3 = Rabs (a3 * b3) -> Rabs t4 = Rabs (a4 * b4) ->
  (a1 * a1 + a2 * a2 + a3 * a3 + a4 * a4) * (b1 * b1 + b2 * b2 + b3 * b3 + b4 * b4) <= 2 ->
  Rabs (z - (t1 + t2 + t3 + t4)) <= 41 / 10 * uu * (Rabs t1 + Rabs t2 + Rabs t3 + Rabs t4) + 20 * eta -> Rabs (z - (t1 + t2 + t3 + t4)) <= 6 * uu.
Proof.
  intros -> -> -> -> H K. pose proof (cauchy a1 a2 a3 a4 b1 b2 b3 b4) as C. cbv zeta in C. set (s := Rabs (a1 * b1) + _ + _ + _) in *. clearbody s.
  assert (s <= 142 / 100) by (destruct (Rle_lt_dec s (142 / 100)) as [G|G]; [exact G|exfalso; assert ((142 / 100) * (142 / 100) <= s * s) by (apply Rmult_le_compat; lra); lra]). pose proof eta_small as (_ & E). unfold uu in *. lra.
Qed.
Lemma squares_close x1 x2 x3 x4 z1 z2 z3 z4 : Rabs (z1 - x1) <= 6 * uu -> Rabs (z2 - x2) <= 6 * uu -> Rabs (z3 - x3) <= 6 * uu -> Rabs (z4 - x4) <= 6 * uu ->
  x1 * x1 + x2 * x2 + x3 * x3 + x4 * x4 <= 2 -> Rabs (z1 * z1 + z2 * z2 + z3 * z3 + z4 * z4 - (x1 * x1 + x2 * x2 + x3 * x3 + x4 * x4)) <= 35 * uu.
Proof.
  intros H1 H2 H3 H4 H. pose proof (cauchy x1 x2 x3 x4 1 1 1 1) as C. cbv zeta in C. rewrite !Rmult_1_r in C. set (s := Rabs x1 + _ + _ + _) in *.
  assert (S : s <= 284 / 100) by (assert (0 <= s) by (unfold s; pose proof (Rabs_pos x1); pose proof (Rabs_pos x2); pose proof (Rabs_pos x3); pose proof (Rabs_pos x4); lra); destruct (Rle_lt_dec s (284 / 100)) as [G|G]; [exact G|exfalso; assert ((284 / 100) * (284 / 100) <= s * s) by (apply Rmult_le_compat; lra); lra]).
  assert (D : forall z x, Rabs (z - x) <= 6 * uu -> Rabs (z * z - x * x) <= 12 * uu * Rabs x + 36 * uu * uu).
  { intros z x Hz. replace (z * z - x * x) with (2 * x * (z - x) + (z - x) * (z - x)) by ring. eapply Rle_trans; [apply Rabs_triang|]. rewrite !Rabs_mult. rewrite (Rabs_pos_eq 2) by lra.
    pose proof (Rabs_pos (z - x)). pose proof (Rabs_pos x). set (d := Rabs (z - x)) in *. set (a := Rabs x) in *. assert (a * d <= a * (6 * uu)) by (apply Rmult_le_compat_l; lra). assert (d * d <= (6 * uu) * (6 * uu)) by (apply Rmult_le_compat; lra). lra. }
  apply D in H1, H2, H3, H4.
  replace (z1 * z1 + z2 * z2 + z3 * z3 + z4 * z4 - (x1 * x1 + x2 * x2 + x3 * x3 + x4 * x4)) with ((z1 * z1 - x1 * x1) + (z2 * z2 - x2 * x2) + (z3 * z3 - x3 * x3) + (z4 * z4 - x4 * x4)) by ring.
  set (d1 := z1 * z1 - x1 * x1) in *. set (d2 := z2 * z2 - x2 * x2) in *. set (d3 := z3 * z3 - x3 * x3) in *. set (d4 := z4 * z4 - x4 * x4) in *.
  pose proof (Rabs_triang (d1 + d2 + d3) d4). pose proof (Rabs_triang (d1 + d2) d3). pose proof (Rabs_triang d1 d2).
  unfold s in S. unfold uu in *. lra.
Qed.

(** ** The exponential *)
Lemma Rabs_le_lt x b : Rabs x <= b <-> - b <= x <= b.
Proof. split; [intros H; unfold Rabs in H; destruct (Rcase_abs x); lra|intros H; apply Rabs_le; exact H]. Qed.
Lemma square_near q y d : Rabs (q - y) <= d -> Rabs (q * q - y * y) <= 2 * Rabs y * d + d * d.
Proof.
  intros H. replace (q * q - y * y) with (2 * y * (q - y) + (q - y) * (q - y)) by ring. eapply Rle_trans; [apply Rabs_triang|]. rewrite !Rabs_mult. rewrite (Rabs_pos_eq 2) by lra.
  pose proof (Rabs_pos (q - y)). pose proof (Rabs_pos y). assert (Rabs y * Rabs (q - y) <= Rabs y * d) by (apply Rmult_le_compat_l; lra). assert (Rabs (q - y) * Rabs (q - y) <= d * d) by (apply Rmult_le_compat; lra). lra.
Qed.
Lemma abs_sq x : Rabs x * Rabs x = x * x.
Proof. rewrite <- Rabs_mult. apply Rabs_pos_eq. nra. Qed.
Lemma small_sq q y : Rabs (q - y) <= uu * Rabs y + eta -> Rabs (q * q - y * y) <= 202 / 100 * uu * (y * y) + 4 * eta.
Proof.
  intros H. apply square_near in H. set (z := Rabs (q * q - y * y)) in *. clearbody z. pose proof (abs_sq y) as Q. pose proof (Rabs_pos y) as P. pose proof eta_small as (E0 & E1). set (a := Rabs y) in *. clearbody a. rewrite <- Q. clear Q.
  assert (A : eta * a <= eta * ((1 + a * a) / 2)) by (apply Rmult_le_compat_l; [lra|]; clear; pose proof (Rle_0_sqr (a - 1)) as Q; unfold Rsqr in Q; lra).
  assert (X : 2 * a * (uu * a + eta) + (uu * a + eta) * (uu * a + eta) = (2 * uu + uu * uu) * (a * a) + (2 + 2 * uu) * (eta * a) + eta * eta) by ring. rewrite X in H.
  assert (B : (2 + 2 * uu) * (eta * a) <= (2 + 2 * uu) * (eta * ((1 + a * a) / 2))) by (apply Rmult_le_compat_l; [unfold uu; lra|exact A]).
  assert (C : eta * eta <= eta * uu) by (apply Rmult_le_compat_l; [lra|]; unfold uu in *; lra).
  assert (D : eta * (a * a) <= uu * uu * uu * uu * uu * uu * (a * a)) by (apply Rmult_le_compat_r; [nra|lra]).
  assert (F : 0 <= a * a) by nra. set (w := a * a) in *. clearbody w. unfold uu in *. lra.
Qed.
Lemma exp_real hx hy hz nn n S C s q1 q2 q3 delta : let P := hx * hx + hy * hy + hz * hz in
  Rabs (nn - P) <= 41 / 10 * uu * P + 20 * eta -> 4 * uu * uu < nn -> n <= 2 ^ 65 -> Rabs (n - sqrt nn) <= uu * Rabs (sqrt nn) + eta ->
  Rabs (s - S / n) <= uu * Rabs (S / n) + eta ->
  Rabs (q1 - hx * s) <= uu * Rabs (hx * s) + eta -> Rabs (q2 - hy * s) <= uu * Rabs (hy * s) + eta -> Rabs (q3 - hz * s) <= uu * Rabs (hz * s) + eta ->
  Rabs (S * S + C * C - 1) <= delta -> delta <= 1 / 8 ->
  Rabs (q1 * q1 + q2 * q2 + q3 * q3 + C * C - 1) <= delta + 16 * uu.
Proof.
  intros P H1 H2 H3 H4 H5 H6 H7 H8 H9 Hd. pose proof eta_small as (E0 & E1).
  assert (P0 : 0 <= P) by (unfold P; nra).
  (* the square of the half angle *)
  assert (P1 : 3 * uu * uu <= P) by (apply Rabs_le_lt in H1; clear - H1 H2 E1 P0; clearbody P; unfold uu in *; lra).
  assert (R1 : Rabs (nn - P) <= 42 / 10 * uu * P) by (clear - H1 E1 P1; clearbody P; set (z := Rabs (nn - P)) in *; clearbody z; unfold uu in *; lra). clear H1.
  (* the half angle *)
  assert (N0 : 0 < nn) by (clear - H2; unfold uu in *; lra).
  assert (G2 : sqrt nn * sqrt nn = nn) by (apply sqrt_sqrt; lra). assert (G0 : 0 < sqrt nn) by (apply sqrt_lt_R0; exact N0). set (g := sqrt nn) in *. clearbody g.
  assert (G1 : 2 * uu <= g) by (destruct (Rle_lt_dec (2 * uu) g) as [X|X]; [exact X|exfalso; assert (g * g <= 2 * uu * (2 * uu)) by (apply Rmult_le_compat; lra); lra]).
  assert (R2 : Rabs (n - g) <= 101 / 100 * uu * g) by (rewrite (Rabs_pos_eq g) in H4 by lra; clear - H4 E1 G1; set (z := Rabs (n - g)) in *; clearbody z; unfold uu in *; lra). clear H4.
  assert (R3 : Rabs (n * n - nn) <= 203 / 100 * uu * nn).
  { apply square_near in R2. rewrite (Rabs_pos_eq g) in R2 by lra. rewrite <- G2. set (z := Rabs _) in *. clearbody z. 
    assert (X : 2 * g * (101 / 100 * uu * g) + 101 / 100 * uu * g * (101 / 100 * uu * g) = (202 / 100 * uu + 101 / 100 * 101 / 100 * uu * uu) * (g * g)) by field. rewrite X in R2.
    assert (0 <= g * g) by nra. set (w := g * g) in *. clearbody w. clear - R2 H. unfold uu in *. lra. }
  assert (R4 : Rabs (n * n - P) <= 63 / 10 * uu * P) by (apply Rabs_le_lt; apply Rabs_le_lt in R1; apply Rabs_le_lt in R3; clear - R1 R3 P0; clearbody P; unfold uu in *; lra).
  assert (Np : 0 < n) by (apply Rabs_le_lt in R2; clear - R2 G0; unfold uu in *; lra).
  assert (PP : 0 < P) by (clear - P1; clearbody P; unfold uu in *; lra).
  set (rho := P / (n * n)). assert (Er : P = rho * (n * n)) by (unfold rho; field; lra).
  assert (Rr : Rabs (rho - 1) <= 64 / 10 * uu).
  { assert (NN : 0 < n * n) by nra. apply Rabs_le_lt in R4. apply Rabs_le_lt. clear - Er R4 NN. clearbody P rho. set (w := n * n) in *. clearbody w. subst P. unfold uu in *. split; nra. }
  (* the factor *)
  assert (S2 : S * S <= 9 / 8) by (apply Rabs_le_lt in H9; nra).
  assert (Sa : Rabs S <= 107 / 100) by (pose proof (abs_sq S); pose proof (Rabs_pos S); destruct (Rle_lt_dec (Rabs S) (107 / 100)) as [X|X]; [exact X|exfalso; assert (107 / 100 * (107 / 100) <= Rabs S * Rabs S) by (apply Rmult_le_compat; lra); lra]).
  set (k := s * n). assert (K1 : Rabs (k - S) <= 108 / 100 * uu).
  { assert (X : k - S = (s - S / n) * n) by (unfold k; field; lra). rewrite X, Rabs_mult, (Rabs_pos_eq n) by lra.
    assert (Y : Rabs (s - S / n) * n <= (uu * Rabs (S / n) + eta) * n) by (apply Rmult_le_compat_r; lra).
    assert (Z : Rabs (S / n) * n = Rabs S) by (rewrite <- (Rabs_pos_eq n) at 2 by lra; rewrite <- Rabs_mult; f_equal; field; lra).
    assert (W : eta * n <= uu * uu * uu * uu * uu * uu * 2 ^ 65) by (apply Rmult_le_compat; lra).
    replace ((uu * Rabs (S / n) + eta) * n) with (uu * (Rabs (S / n) * n) + eta * n) in Y by ring. rewrite Z in Y. clear - Y W Sa. set (a := Rabs S) in *. clearbody a. unfold uu in *. lra. }
  assert (K2 : Rabs (k * k - S * S) <= 233 / 100 * uu).
  { apply square_near in K1. assert (2 * Rabs S * (108 / 100 * uu) <= 2 * (107 / 100) * (108 / 100 * uu)) by (apply Rmult_le_compat_r; [unfold uu|]; lra). clear - K1 H. unfold uu in *. lra. }
  assert (Ps : P * (s * s) = rho * (k * k)) by (rewrite Er; unfold k; ring).
  assert (K3 : Rabs (rho * (k * k) - k * k) <= 74 / 10 * uu /\ 0 <= k * k <= 114 / 100).
  { assert (KK : 0 <= k * k <= 114 / 100) by (apply Rabs_le_lt in K2; clear - K2 S2; split; [nra|]; unfold uu in *; lra). split; [|exact KK].
    replace (rho * (k * k) - k * k) with ((rho - 1) * (k * k)) by ring. rewrite Rabs_mult, (Rabs_pos_eq (k * k)) by lra.
    assert (Rabs (rho - 1) * (k * k) <= 64 / 10 * uu * (114 / 100)) by (apply Rmult_le_compat; try lra; apply Rabs_pos). clear - H. unfold uu in *. lra. }
  destruct K3 as (K3 & K4).
  (* the products *)
  apply small_sq in H6, H7, H8.
  assert (Sum : hx * s * (hx * s) + hy * s * (hy * s) + hz * s * (hz * s) = rho * (k * k)) by (rewrite <- Ps; unfold P; ring).
  apply Rabs_le_lt in H6, H7, H8, H9, K2, K3. apply Rabs_le_lt.
  set (y1 := hx * s * (hx * s)) in *. set (y2 := hy * s * (hy * s)) in *. set (y3 := hz * s * (hz * s)) in *. set (m := rho * (k * k)) in *. set (kk := k * k) in *.
  set (z1 := q1 * q1) in *. set (z2 := q2 * q2) in *. set (z3 := q3 * q3) in *. set (cc := C * C) in *. set (ss := S * S) in *.
  clearbody y1 y2 y3 m kk z1 z2 z3 cc ss. clear - H6 H7 H8 H9 K2 K3 K4 Sum E1. unfold uu in *. lra.
Qed.

Section Quat.
  Context (L : Libm).
  #[local] Instance NQ : Num f32 := F32 L.
  Definition op (o : bool) (x y : f32) : f32 := if o then Bminus mode_NE x y else Bplus mode_NE x y.
  Definition sg (o : bool) : R := if o then -1 else 1.
  Lemma op_back o x y z : B2ER (op o x y) = Fin z -> exists a b, B2ER x = Fin a /\ B2ER y = Fin b /\ Rabs (z - (a + sg o * b)) <= uu * Rabs (a + sg o * b) + eta.
  Proof.
    destruct o; unfold op, sg; intros H; [apply minus_back in H|apply plus_back in H]; destruct H as (a & b & A & B & C); exists a, b; split; [exact A| |exact A|]; (split; [exact B|]).
    - replace (a + -1 * b) with (a - b) by ring. exact C.
    - replace (a + 1 * b) with (a + b) by ring. exact C.
  Qed.
  Lemma sg_near o m t : Rabs (m - t) <= uu * Rabs t + eta -> Rabs (sg o * m - sg o * t) <= uu * Rabs (sg o * t) + eta.
  Proof.
    intros H. replace (sg o * m - sg o * t) with (sg o * (m - t)) by ring. rewrite !Rabs_mult. assert (S : Rabs (sg o) = 1) by (destruct o; unfold sg, Rabs; destruct (Rcase_abs _); lra). rewrite S. lra.
  Qed.
  Lemma sg_abs o t : Rabs (sg o * t) = Rabs t.
  Proof. rewrite Rabs_mult. assert (S : Rabs (sg o) = 1) by (destruct o; unfold sg, Rabs; destruct (Rcase_abs _); lra). rewrite S. ring. Qed.
  (** A sum of four products, with signs. *)
  Lemma four_back o2 o3 o4 x1 y1 x2 y2 x3 y3 x4 y4 z :
    B2ER (op o4 (op o3 (op o2 (Bmult mode_NE x1 y1) (Bmult mode_NE x2 y2)) (Bmult mode_NE x3 y3)) (Bmult mode_NE x4 y4)) = Fin z ->
    exists a1 b1 a2 b2 a3 b3 a4 b4, (B2ER x1 = Fin a1 /\ B2ER x2 = Fin a2 /\ B2ER x3 = Fin a3 /\ B2ER x4 = Fin a4) /\ (B2ER y1 = Fin b1 /\ B2ER y2 = Fin b2 /\ B2ER y3 = Fin b3 /\ B2ER y4 = Fin b4) /\
      ((a1 * a1 + a2 * a2 + a3 * a3 + a4 * a4) * (b1 * b1 + b2 * b2 + b3 * b3 + b4 * b4) <= 2 ->
       Rabs (z - (a1 * b1 + sg o2 * (a2 * b2) + sg o3 * (a3 * b3) + sg o4 * (a4 * b4))) <= 6 * uu).
  Proof.
    intros H. apply op_back in H. destruct H as (s2 & m4 & H & M4 & S3). apply op_back in H. destruct H as (s1 & m3 & H & M3 & S2). apply op_back in H. destruct H as (m1 & m2 & M1 & M2 & S1).
    apply mult_back in M1, M2, M3, M4. destruct M1 as (a1 & b1 & A1 & B1 & M1), M2 as (a2 & b2 & A2 & B2 & M2), M3 as (a3 & b3 & A3 & B3 & M3), M4 as (a4 & b4 & A4 & B4 & M4).
    exists a1, b1, a2, b2, a3, b3, a4, b4. split; [auto|]. split; [auto|]. intros K.
    eapply four_close; [| | | |exact K|]; [exact eq_refl|apply sg_abs|apply sg_abs|apply sg_abs|].
    eapply four_round; [exact M1|apply sg_near, M2|apply sg_near, M3|apply sg_near, M4|exact S1|exact S2|exact S3].
  Qed.
  Ltac same := repeat match goal with H : B2ER ?x = Fin ?a, K : B2ER ?x = Fin ?b |- _ => assert (b = a) by congruence; subst b; clear K end.
  Lemma mul_rounds (p q : Quat f32) r : is_quat (qmul p q) r -> exists a b, is_quat p a /\ is_quat q b /\
    (square a * square b <= 2 -> Rabs (square r - square a * square b) <= 35 * uu).
  Proof.
    intros (H1 & H2 & H3 & H4). destruct p as [p1 p2 p3 p4], q as [q1 q2 q3 q4], r as [r1 r2 r3 r4]. unfold qmul in *. cbn [qi qj qk qw] in *.
    destruct (four_back false false true _ _ _ _ _ _ _ _ _ H1) as (? & ? & ? & ? & ? & ? & ? & ? & (? & ? & ? & ?) & (? & ? & ? & ?) & K1).
    destruct (four_back true false false _ _ _ _ _ _ _ _ _ H2) as (? & ? & ? & ? & ? & ? & ? & ? & (? & ? & ? & ?) & (? & ? & ? & ?) & K2).
    destruct (four_back false true false _ _ _ _ _ _ _ _ _ H3) as (? & ? & ? & ? & ? & ? & ? & ? & (? & ? & ? & ?) & (? & ? & ? & ?) & K3).
    destruct (four_back true true true _ _ _ _ _ _ _ _ _ H4) as (? & ? & ? & ? & ? & ? & ? & ? & (? & ? & ? & ?) & (? & ? & ? & ?) & K4).
    clear H1 H2 H3 H4. same.
    match goal with A1 : B2ER p1 = Fin ?a1, A2 : B2ER p2 = Fin ?a2, A3 : B2ER p3 = Fin ?a3, A4 : B2ER p4 = Fin ?a4, B1 : B2ER q1 = Fin ?b1, B2 : B2ER q2 = Fin ?b2, B3 : B2ER q3 = Fin ?b3, B4 : B2ER q4 = Fin ?b4 |- _ =>
      exists (mkQ a1 a2 a3 a4), (mkQ b1 b2 b3 b4); rename a1 into u1, a2 into u2, a3 into u3, a4 into u4, b1 into v1, b2 into v2, b3 into v3, b4 into v4;
      split; [unfold is_quat; cbn; auto|]; split; [unfold is_quat; cbn; auto|] end.
    unfold square. cbn [qi qj qk qw]. intros K. unfold sg in *.
    specialize (K1 ltac:(lra)). specialize (K2 ltac:(lra)). specialize (K3 ltac:(lra)). specialize (K4 ltac:(lra)).
    match type of K1 with Rabs (r1 - ?a) <= _ => match type of K2 with Rabs (r2 - ?b) <= _ => match type of K3 with Rabs (r3 - ?c) <= _ => match type of K4 with Rabs (r4 - ?d) <= _ =>
      assert (E : (u1 * u1 + u2 * u2 + u3 * u3 + u4 * u4) * (v1 * v1 + v2 * v2 + v3 * v3 + v4 * v4) = a * a + b * b + c * c + d * d) by ring end end end end.
    rewrite E in *. now apply squares_close.
  Qed.
  Lemma by_bits (x : f32) m e : B2SF x = SpecFloat.S754_finite false m e -> B2ER x = Fin (F2R (Float radix2 (Zpos m) e)).
  Proof. destruct x; cbn [B2SF]; intros H; try discriminate. injection H as -> -> ->. exact eq_refl. Qed.
  Lemma eps_sq : B2ER (n_mul (MACHINE_EPSILON (N := NQ)) MACHINE_EPSILON) = Fin (4 * uu * uu).
  Proof.
    rewrite (by_bits _ 8388608 (-69)) by (vm_compute; exact eq_refl). f_equal. unfold F2R. cbn [Fnum Fexp]. unfold uu. cbn. lra.
  Qed.
  Lemma zero_is : B2ER (@n0 f32 NQ) = Fin 0.
  Proof. assert (E : @n0 f32 NQ = B754_zero false) by (vm_compute; exact eq_refl). rewrite E. exact eq_refl. Qed.
  Lemma one_is : B2ER (@n1 f32 NQ) = Fin 1.
  Proof. rewrite (by_bits _ 8388608 (-23)) by (vm_compute; exact eq_refl). f_equal. unfold F2R. cbn. lra. Qed.
  Lemma le_false (x y : f32) a b : B2ER x = Fin a -> B2ER y = Fin b -> n_le x y = false -> b < a.
  Proof.
    intros A B H. change (Bleb x y = false) in H. destruct (order_agrees x y) as (_ & O & _). rewrite O, A, B in H. cbn [er_le] in H. destruct (Rle_dec a b); [discriminate|lra].
  Qed.
  Lemma sqrt_back (x : f32) z : B2ER (Bsqrt mode_NE x) = Fin z -> exists a, B2ER x = Fin a /\ 0 <= a < 2 ^ 128 /\ Rabs (z - sqrt a) <= uu * Rabs (sqrt a) + eta.
  Proof.
    intros H. pose proof (sqrt_agrees x) as A. destruct (B2ER x) as [a| | |] eqn:E; cbn [er_sqrt] in A; try (cbn [agrees] in A; congruence).
    destruct (Rlt_dec a 0) as [L0|L0]; cbn [agrees] in A; [congruence|]. exists a. split; [exact eq_refl|]. split; [|exact (near_fin _ _ _ A H)]. split; [lra|].
    assert (Ea : a = B2R x) by (destruct x as [|[]| |]; cbn [B2ER] in E; try discriminate; injection E as E; symmetry; exact E).
    pose proof (abs_B2R_lt_emax 24 128 x) as B. rewrite <- Ea in B. pose proof (Rle_abs a). replace (2 ^ 128) with (bpow radix2 128); [lra|]. rewrite (pow_IZR 2 128). exact eq_refl.
  Qed.
  Lemma div_back (x y : f32) z b : B2ER y = Fin b -> 0 < b -> B2ER (Bdiv mode_NE x y) = Fin z -> exists a, B2ER x = Fin a /\ Rabs (z - a / b) <= uu * Rabs (a / b) + eta.
  Proof.
    intros Hy Hb H. pose proof (div_agrees x y) as A. rewrite Hy in A. assert (Ny : y <> B754_zero true) by (intros ->; cbn in Hy; injection Hy as Hy; lra). specialize (A Ny).
    destruct (B2ER x) as [a| | |]; cbn [er_div] in A; repeat match type of A with context [if ?c then _ else _] => destruct c end; cbn [agrees] in A; try congruence; try lra.
    exists a. split; [exact eq_refl|exact (near_fin _ _ _ A H)].
  Qed.
  Lemma exp_rounds v r delta : libm_ok L delta -> delta <= 1 / 8 -> is_quat (qfrom_scaled_axis v) r -> Rabs (square r - 1) <= delta + 16 * uu.
  Proof.
    intros (Lf & Ln) Hd (H1 & H2 & H3 & H4).
    assert (D0 : 0 <= delta) by (destruct (Lf (B754_zero false) 0 eq_refl) as (a & b & _ & _ & X); pose proof (Rabs_pos (a * a + b * b - 1)); lra).
    destruct r as [r1 r2 r3 r4]. unfold qfrom_scaled_axis in *. cbv zeta in *. set (h := vdivs v n2) in *. clearbody h. unfold vnorm2 in *. cbn [qi qj qk qw] in *.
    destruct (n_le (vdot h h) _) eqn:Le.
    - unfold qident in *. cbn [qi qj qk qw] in *. rewrite zero_is in *. rewrite one_is in H4.
      assert (r1 = 0) by congruence. assert (r2 = 0) by congruence. assert (r3 = 0) by congruence. assert (r4 = 1) by congruence. subst. unfold square. cbn [qi qj qk qw]. apply Rabs_le_lt. unfold uu. lra.
    - cbn [qi qj qk qw vx vy vz vscale] in *. change (n_cos (n_sqrt (vdot h h))) with (l_cos L (Bsqrt mode_NE (vdot h h))) in H4. change (n_sin (n_sqrt (vdot h h))) with (l_sin L (Bsqrt mode_NE (vdot h h))) in *.
      change (n_sqrt (vdot h h)) with (Bsqrt (prec := 24) (emax := 128) mode_NE (vdot h h)) in *. set (n := Bsqrt mode_NE (vdot h h)) in *.
      assert (Fn : exists rn, B2ER n = Fin rn).
      { destruct (B2ER n) as [rn| | |] eqn:En; [now exists rn| | |]; exfalso; rewrite Ln in H4 by (intros z; congruence); discriminate. }
      destruct Fn as (rn & En). destruct (Lf n rn En) as (S & C & ES & EC & HSC). assert (r4 = C) by congruence. subst r4.
      destruct (sqrt_back _ _ En) as (nn & Enn & Bnn & Hn).
      pose proof (le_false _ _ _ _ Enn eps_sq Le) as Big.
      change (n_mul ?a ?b) with (Bmult mode_NE a b) in H1, H2, H3. 
      apply mult_back in H1, H2, H3. destruct H1 as (hx & s & Hx & Es & Q1), H2 as (hy & s2 & Hy & Es2 & Q2), H3 as (hz & s3 & Hz & Es3 & Q3). same.
      assert (Rn : 0 < rn <= 2 ^ 65).
      { pose proof eta_small as (E0 & E1). assert (G2 : sqrt nn * sqrt nn = nn) by (apply sqrt_sqrt; lra). pose proof (sqrt_pos nn) as G0. rewrite (Rabs_pos_eq _ G0) in Hn. set (g := sqrt nn) in *. clearbody g.
        assert (G1 : 2 * uu <= g) by (destruct (Rle_lt_dec (2 * uu) g) as [X|X]; [exact X|exfalso; assert (g * g <= 2 * uu * (2 * uu)) by (apply Rmult_le_compat; lra); lra]).
        assert (G3 : g <= 2 ^ 64) by (destruct (Rle_lt_dec g (2 ^ 64)) as [X|X]; [exact X|exfalso; assert (2 ^ 64 * 2 ^ 64 <= g * g) by (apply Rmult_le_compat; lra); lra]).
        apply Rabs_le_lt in Hn. clear - Hn G1 G3 E1. unfold uu in *. split; lra. }
      change (n_div (l_sin L n) n) with (Bdiv mode_NE (l_sin L n) n) in Es. destruct (div_back _ _ _ _ En (proj1 Rn) Es) as (S' & ES' & Hs). same.
      unfold square. cbn [qi qj qk qw]. refine (exp_real hx hy hz nn rn _ C s r1 r2 r3 delta _ Big (proj2 Rn) Hn Hs Q1 Q2 Q3 HSC Hd).
      clear - Enn Hx Hy Hz. unfold vdot in Enn.
      change (B2ER (op false (op false (Bmult mode_NE (vx h) (vx h)) (Bmult mode_NE (vy h) (vy h))) (Bmult mode_NE (vz h) (vz h))) = Fin nn) in Enn.
      apply op_back in Enn. destruct Enn as (s1 & m3 & H & M3 & S2). apply op_back in H. destruct H as (m1 & m2 & M1 & M2 & S1). unfold sg in *. rewrite !Rmult_1_l in *.
      apply mult_back in M1, M2, M3. destruct M1 as (? & ? & ? & ? & M1), M2 as (? & ? & ? & ? & M2), M3 as (? & ? & ? & ? & M3). same.
      assert (E0 := proj1 eta_small).
      pose proof (four_round (hx * hx) (hy * hy) (hz * hz) 0 m1 m2 m3 0 s1 nn nn M1 M2 M3) as F. rewrite Rabs_R0, !Rplus_0_r in F.
      assert (Z : forall x, Rabs (x - x) <= uu * Rabs x + eta) by (intros x; rewrite Rminus_eq_0, Rabs_R0; pose proof (Rabs_pos x); unfold uu; lra).
      rewrite !(Rabs_pos_eq (_ * _)) in F by nra. apply F; [|exact S1|exact S2|apply Z].
      rewrite Rminus_0_r, Rabs_R0, Rmult_0_r. lra.
  Qed.
End Quat.
