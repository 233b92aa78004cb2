(** * ArithP: what rounding does to sums, differences and products of binary32 values,
    and the few arithmetic facts that hold in both arithmetics *)
From Coq Require Import ZArith Reals Bool Lra Lia.
From Flocq Require Import Core IEEE754.BinarySingleNaN.
From Verif Require Import Num OrderP.
Local Open Scope R_scope.

(** Rounding of a real to binary32 (no overflow). *)
Notation rnd := (round radix2 (SpecFloat.fexp 24 128) (round_mode mode_NE)).
Definition fmax : R := bpow radix2 128.

Lemma rnd_0 : rnd 0 = 0.
Proof. apply round_0, valid_rnd_round_mode. Qed.
Lemma rnd_le a b : a <= b -> rnd a <= rnd b.
Proof. apply round_le; [apply fexp_correct, f32_prec_gt_0|apply valid_rnd_round_mode]. Qed.
Lemma rnd_B2R (x : f32) : rnd (B2R x) = B2R x.
Proof. apply round_generic; [apply valid_rnd_round_mode|]. apply generic_format_B2R. Qed.

Lemma B2SF_inf (x : f32) s : B2SF x = SpecFloat.S754_infinity s -> x = B754_infinity s.
Proof. destruct x; simpl; intros H; try discriminate. now injection H as <-. Qed.

(** The sign of a finite binary32 value bounds its real value. *)
Lemma Bsign_pos (x : f32) : Bsign x = false -> is_finite x = true -> 0 <= B2R x.
Proof. destruct x as [s|s| |s m e H]; simpl; intros E F; try discriminate; try lra. subst. apply F2R_ge_0. simpl. lia. Qed.
Lemma Bsign_neg (x : f32) : Bsign x = true -> is_finite x = true -> B2R x <= 0.
Proof. destruct x as [s|s| |s m e H]; simpl; intros E F; try discriminate; try lra. subst. apply F2R_le_0. simpl. lia. Qed.

(** Sum, difference and product of finite values: either the rounded exact
    value, or an infinity when that is too large. *)
Lemma Bplus_fin (x y : f32) : is_finite x = true -> is_finite y = true ->
  (Rabs (rnd (B2R x + B2R y)) < fmax /\ B2ER (Bplus mode_NE x y) = Fin (rnd (B2R x + B2R y)) /\ is_finite (Bplus mode_NE x y) = true) \/
  (fmax <= Rabs (rnd (B2R x + B2R y)) /\ Bplus mode_NE x y = B754_infinity (Bsign x) /\ Bsign x = Bsign y).
Proof.
  intros Fx Fy. pose proof (Bplus_correct 24 128 _ _ mode_NE x y Fx Fy) as H.
  destruct (Rlt_bool_spec (Rabs (rnd (B2R x + B2R y))) (bpow radix2 128)) as [Hl|Hl].
  - left. destruct H as (H1 & H2 & _). split; [exact Hl|]. split; auto. rewrite B2ER_fin, H1; auto.
  - right. destruct H as (H1 & H2). split; [exact Hl|]. split; auto. apply B2SF_inf. rewrite H1. destruct (Bsign x); reflexivity.
Qed.
Lemma Bminus_fin (x y : f32) : is_finite x = true -> is_finite y = true ->
  (Rabs (rnd (B2R x - B2R y)) < fmax /\ B2ER (Bminus mode_NE x y) = Fin (rnd (B2R x - B2R y)) /\ is_finite (Bminus mode_NE x y) = true) \/
  (fmax <= Rabs (rnd (B2R x - B2R y)) /\ Bminus mode_NE x y = B754_infinity (Bsign x) /\ Bsign x = negb (Bsign y)).
Proof.
  intros Fx Fy. pose proof (Bminus_correct 24 128 _ _ mode_NE x y Fx Fy) as H.
  destruct (Rlt_bool_spec (Rabs (rnd (B2R x - B2R y))) (bpow radix2 128)) as [Hl|Hl].
  - left. destruct H as (H1 & H2 & _). split; [exact Hl|]. split; auto. rewrite B2ER_fin, H1; auto.
  - right. destruct H as (H1 & H2). split; [exact Hl|]. split; auto. apply B2SF_inf. rewrite H1. destruct (Bsign x); reflexivity.
Qed.
Lemma Bmult_fin (x y : f32) : is_finite x = true -> is_finite y = true ->
  (Rabs (rnd (B2R x * B2R y)) < fmax /\ B2ER (Bmult mode_NE x y) = Fin (rnd (B2R x * B2R y)) /\ is_finite (Bmult mode_NE x y) = true) \/
  (fmax <= Rabs (rnd (B2R x * B2R y)) /\ Bmult mode_NE x y = B754_infinity (xorb (Bsign x) (Bsign y))).
Proof.
  intros Fx Fy. pose proof (Bmult_correct 24 128 _ _ mode_NE x y) as H.
  destruct (Rlt_bool_spec (Rabs (rnd (B2R x * B2R y))) (bpow radix2 128)) as [Hl|Hl].
  - left. destruct H as (H1 & H2 & _). rewrite Fx, Fy in H2. split; [exact Hl|]. split; auto. rewrite B2ER_fin, H1; auto.
  - right. split; [exact Hl|]. apply B2SF_inf. rewrite H. destruct (xorb (Bsign x) (Bsign y)); reflexivity.
Qed.

(** Laws common to both arithmetics. *)
Class Ord2 {T : Type} {N : Num T} (O : Ord N) : Prop := {
  sub_pos : forall x y, n_lt n0 (n_sub x y) = true -> n_lt y x = true;
  mul_1_r : forall x, n_mul x n1 = x;
  add_0_mul : forall x d, n_isfin d = true -> key (n_add x (n_mul n0 d)) = key x;
  neg_neg : forall x, n_neg (n_neg x) = x;
  mul_m1 : forall x, n_mul x nm1 = n_neg x
}.
#[global] Instance Ord2_ER : Ord2 Ord_ER.
Proof.
  split.
  - intros x y. unfold n0. destruct x as [a| | |], y as [b| | |]; simpl; try congruence.
    destruct (Rlt_dec _ _), (Rlt_dec b a); try congruence; lra.
  - intros x. unfold n1. destruct x as [a| | |]; simpl; try (f_equal; lra); try reflexivity;
      unfold er_inf_times; destruct (Req_EM_T (1 / 1) 0); try (exfalso; lra); destruct (Rlt_dec 0 (1 / 1)); auto; exfalso; lra.
  - intros x d. unfold n0. destruct d as [d| | |]; simpl; try discriminate. intros _. destruct x as [a| | |]; simpl; auto. f_equal. lra.
  - intros [a| | |]; simpl; auto. f_equal. lra.
  - intros x. unfold nm1, n1. destruct x as [a| | |]; simpl; try (f_equal; lra); try reflexivity;
      unfold er_inf_times; destruct (Req_EM_T (- (1 / 1)) 0); try (exfalso; lra); destruct (Rlt_dec 0 (- (1 / 1))); auto; exfalso; lra.
Qed.
Lemma Bmult_1_r (L : Libm) (x : f32) : Bmult mode_NE x (@n1 f32 (F32 L)) = x.
Proof.
  destruct (is_finite x) eqn:F.
  - assert (F1 : is_finite (@n1 f32 (F32 L)) = true) by reflexivity.
    assert (R1 : B2R (@n1 f32 (F32 L)) = 1).
    { pose proof (@key_1 f32 (F32 L) (Ord_F32 L)) as K. change (@key f32 (F32 L) (Ord_F32 L)) with B2ER in K.
      rewrite (B2ER_fin _ F1) in K. now injection K. }
    pose proof (Bmult_correct 24 128 _ _ mode_NE x (@n1 f32 (F32 L))) as H. rewrite R1, Rmult_1_r in H. rewrite rnd_B2R in H.
    rewrite Rlt_bool_true in H by apply abs_B2R_lt_emax. destruct H as (H1 & H2 & H3). rewrite F, F1 in H2.
    apply B2R_Bsign_inj; auto. rewrite H3; [|destruct (Bmult _ _ _); auto; discriminate].
    change (Bsign (@n1 f32 (F32 L))) with false. now rewrite xorb_false_r.
  - destruct x as [s|[]| |s m e H]; try discriminate; reflexivity.
Qed.
Lemma Bmult_m1 (L : Libm) (x : f32) : Bmult mode_NE x (@nm1 f32 (F32 L)) = Bopp x.
Proof.
  destruct (is_finite x) eqn:F.
  - assert (F1 : is_finite (@nm1 f32 (F32 L)) = true) by reflexivity.
    assert (R1 : B2R (@nm1 f32 (F32 L)) = -1).
    { change (@nm1 f32 (F32 L)) with (Bopp (@n1 f32 (F32 L))). rewrite B2R_Bopp.
      pose proof (@key_1 f32 (F32 L) (Ord_F32 L)) as K. change (@key f32 (F32 L) (Ord_F32 L)) with B2ER in K.
      rewrite (B2ER_fin (@n1 f32 (F32 L))) in K by reflexivity. assert (K1 : B2R (@n1 f32 (F32 L)) = 1) by now injection K. rewrite K1. reflexivity. }
    pose proof (Bmult_correct 24 128 _ _ mode_NE x (@nm1 f32 (F32 L))) as H. rewrite R1 in H.
    replace (B2R x * -1) with (B2R (Bopp x)) in H by (rewrite B2R_Bopp; lra). rewrite rnd_B2R in H.
    rewrite Rlt_bool_true in H by apply abs_B2R_lt_emax. destruct H as (H1 & H2 & H3). rewrite F, F1 in H2.
    apply B2R_Bsign_inj; auto; [now rewrite is_finite_Bopp|].
    rewrite H3; [|destruct (Bmult _ _ _); auto; discriminate].
    change (Bsign (@nm1 f32 (F32 L))) with true. rewrite Bsign_Bopp by (destruct x; auto; discriminate). now destruct (Bsign x).
  - destruct x as [s|[]| |s m e H]; try discriminate; reflexivity.
Qed.
Lemma Bplus_0_mul (L : Libm) (x d : f32) : is_finite d = true -> B2ER (Bplus mode_NE x (Bmult mode_NE (@n0 f32 (F32 L)) d)) = B2ER x.
Proof.
  intros Fd. assert (Z : exists s, Bmult mode_NE (@n0 f32 (F32 L)) d = B754_zero s).
  { destruct d as [s|[]| |s m e H]; try discriminate; eexists; reflexivity. }
  destruct Z as (s & ->). destruct x as [s'|[]| |s' m e H]; try reflexivity. simpl. destruct (Bool.eqb s' s); reflexivity.
Qed.
Lemma fmax_pos : 0 < fmax.
Proof. apply bpow_gt_0. Qed.
#[global] Instance Ord2_F32 (L : Libm) : Ord2 (Ord_F32 L).
Proof.
  split; [|apply Bmult_1_r|apply Bplus_0_mul|exact (@Bopp_involutive 24 128)|apply Bmult_m1]. intros x y. rewrite !key_lt, key_0. change (@key f32 (F32 L) (Ord_F32 L)) with B2ER.
  change (@n_sub f32 (F32 L)) with (@Bminus 24 128 _ _ mode_NE).
  destruct (is_finite x) eqn:Fx, (is_finite y) eqn:Fy.
  - rewrite (B2ER_fin x Fx), (B2ER_fin y Fy). simpl.
    destruct (Bminus_fin x y Fx Fy) as [(_ & -> & _)|(H1 & -> & H2)].
    + destruct (Rlt_dec 0 _) as [H|]; [|congruence]. intros _. destruct (Rlt_dec (B2R y) (B2R x)); auto. exfalso.
      assert (rnd (B2R x - B2R y) <= rnd 0) by (apply rnd_le; lra). rewrite rnd_0 in *. lra.
    + destruct (Bsign x) eqn:Sx; simpl; [congruence|]. intros _.
      destruct (Bsign y) eqn:Sy; [|discriminate].
      pose proof (Bsign_pos x Sx Fx). pose proof (Bsign_neg y Sy Fy).
      destruct (Rlt_dec (B2R y) (B2R x)); auto. exfalso.
      assert (E : B2R x - B2R y = 0) by lra. rewrite E, rnd_0, Rabs_R0 in H1. pose proof fmax_pos. lra.
  - rewrite (B2ER_fin x Fx). destruct x as [s|[]| |s m e H]; try discriminate; destruct y as [s'|[]| |s' m' e' H']; try discriminate; simpl; auto.
  - rewrite (B2ER_fin y Fy). destruct x as [s|[]| |s m e H]; try discriminate; destruct y as [s'|[]| |s' m' e' H']; try discriminate; simpl; auto.
  - destruct x as [s|[]| |s m e H]; try discriminate; destruct y as [s'|[]| |s' m' e' H']; try discriminate; simpl; auto.
Qed.
