(** * TurnRoundP: how far the rotations of entities are from unit length in binary32 (C87) *)
From Coq Require Import ZArith Reals Bool Lra Lia Psatz List.
Import ListNotations.
From Flocq Require Import Core Relative IEEE754.BinarySingleNaN.
From Verif Require Import Num Vec Res Arena Orient EntityM SystemM OrderP ArithP Spec ResP RealSpec RealV AlgebraSpec AlgebraP RoundSpec RoundP TurnSpec QuatRoundP TurnP.
Local Open Scope R_scope.

Lemma kappa_is delta : 2 * delta + powerRZ 2 (-18) = 2 * delta + 64 * uu.
Proof. unfold uu. rewrite pow_bpow. cbn [bpow]. unfold radix2. cbn. lra. Qed.
Lemma libm_pos L delta : libm_ok L delta -> 0 <= delta.
Proof. intros (Lf & _). destruct (Lf (B754_zero false) 0 eq_refl) as (a & b & _ & _ & X). pose proof (Rabs_pos (a * a + b * b - 1)). lra. Qed.

Section Drift.
  Variable L : Libm.
  #[local] Instance ND : Num f32 := F32 L.

  Lemma spun_square delta k q r : libm_ok L delta -> spun (N := ND) k q -> is_quat q r ->
    INR (S k) * (2 * delta + 64 * uu) <= 1 / 4 -> Rabs (square r - 1) <= INR (S k) * (2 * delta + 64 * uu).
  Proof.
    intros HL H. revert r. pose proof (libm_pos _ _ HL) as D0.
    assert (U : 0 < uu <= / 1000000) by (unfold uu; lra).
    induction H as [v|k v q H IH]; intros r Hr Hc.
    - change (INR 1) with 1 in *. assert (Hd : delta <= 1 / 8) by lra.
      pose proof (exp_rounds L v r delta HL Hd Hr). lra.
    - rewrite S_INR in Hc |- *. pose proof (pos_INR (S k)) as P. rewrite S_INR in P. pose proof (pos_INR k) as P0. rewrite S_INR in *.
      assert (Hd : delta <= 1 / 8) by nra.
      destruct (mul_rounds L _ _ _ Hr) as (a & b & Ha & Hb & Hm).
      pose proof (exp_rounds L v a delta HL Hd Ha) as Ea.
      set (K := 2 * delta + 64 * uu) in *. assert (K0 : 0 <= K) by (unfold K; lra).
      assert (Eb : Rabs (square b - 1) <= (INR k + 1) * K) by (apply IH; [exact Hb|nra]).
      set (D := (INR k + 1) * K) in *. assert (HD : 0 <= D /\ D + K <= 1 / 4) by (unfold D; split; nra).
      apply Rabs_le_inv in Ea. apply Rabs_le_inv in Eb. set (x := square a - 1) in *. set (y := square b - 1) in *.
      assert (X : square a * square b = 1 + x + y + x * y) by (unfold x, y; ring).
      assert (XY : Rabs (x * y) <= (delta + 16 * uu) * (1 / 4)).
      { rewrite Rabs_mult. apply Rmult_le_compat; try apply Rabs_pos; apply Rabs_le; lra. }
      apply Rabs_le_inv in XY.
      assert (Hm2 : Rabs (square r - square a * square b) <= 35 * uu) by (apply Hm; rewrite X; lra).
      apply Rabs_le_inv in Hm2. rewrite X in Hm2.
      replace ((INR k + 1 + 1) * K) with (D + K) by (unfold D; ring). unfold K. apply Rabs_le. lra.
  Qed.

  Lemma history_square delta hist s ans h e r : libm_ok L delta -> Forall call_ok hist -> run hist system_new = Ok (s, ans) ->
    get_entity s h = Some e -> is_quat (o_rot (pe_last_orient e)) r ->
    INR (S (pieces hist system_new)) * (2 * delta + powerRZ 2 (-18)) <= 1 / 4 ->
    Rabs (square r - 1) <= INR (S (pieces hist system_new)) * (2 * delta + powerRZ 2 (-18)).
  Proof.
    rewrite kappa_is. intros HL HF HR He Hr Hc. unfold get_entity in He. destruct (aget (s_ents s) h) as [e0|] eqn:E0; [|discriminate].
    cbn [option_map] in He. injection He as <-. cbn [pe_last_orient make_pub] in Hr.
    destruct (turned_history hist s ans h e0 HF HR E0) as (k & Lk & Hk).
    assert (M : INR (S k) * (2 * delta + 64 * uu) <= INR (S (pieces hist system_new)) * (2 * delta + 64 * uu)).
    { apply Rmult_le_compat_r; [pose proof (libm_pos _ _ HL); unfold uu; lra|]. apply le_INR. lia. }
    eapply Rle_trans; [apply (spun_square delta k _ _ HL Hk Hr)|]; lra.
  Qed.
End Drift.

(** ** What a quaternion near unit length does to vectors *)
Lemma qrot_length (q : Quat R) (x : Vec3 R) :
  vdot (qrot q x) (qrot q x) = vdot x x + 4 * (square q - 1) * vdot (vcross (qvec q) x) (vcross (qvec q) x).
Proof. destruct q as [a b c d], x as [x y z]. unfold square. vunfold. cbn. field. Qed.
Lemma cross_short (u x : Vec3 R) : vdot (vcross u x) (vcross u x) <= vdot u u * vdot x x.
Proof.
  destruct u as [a b c], x as [x y z]. vunfold. cbn.
  pose proof (Rle_0_sqr (a * x + b * y + c * z)) as H. unfold Rsqr in H. nra.
Qed.
Lemma lengths_near (q : Quat R) (x : Vec3 R) d : Rabs (square q - 1) <= d -> d <= 1 / 4 ->
  Rabs (vdot (qrot q x) (qrot q x) - vdot x x) <= 5 * d * vdot x x.
Proof.
  intros H Hd. rewrite qrot_length. set (c := vdot (vcross (qvec q) x) (vcross (qvec q) x)).
  assert (X0 : 0 <= vdot x x) by (destruct x as [x y z]; vunfold; cbn; nra).
  assert (C0 : 0 <= c) by (unfold c; generalize (vcross (qvec q) x); intros [a b e]; vunfold; cbn; nra).
  assert (C1 : c <= 5 / 4 * vdot x x).
  { eapply Rle_trans; [apply cross_short|]. apply Rmult_le_compat_r; [exact X0|]. apply Rabs_le_inv in H.
    assert (Q : vdot (qvec q) (qvec q) <= square q) by (destruct q as [e f g w]; unfold square; vunfold; cbn; nra). lra. }
  replace (vdot x x + 4 * (square q - 1) * c - vdot x x) with (4 * (square q - 1) * c) by ring.
  rewrite !Rabs_mult, (Rabs_right 4), (Rabs_right c) by lra.
  replace (5 * d * vdot x x) with (4 * d * (5 / 4 * vdot x x)) by field.
  apply Rmult_le_compat; [|exact C0| |exact C1]; pose proof (Rabs_pos (square q - 1)); lra.
Qed.
Lemma history_lengths L delta (N := F32 L) hist s ans h e r x : libm_ok L delta -> Forall call_ok hist -> run hist system_new = Ok (s, ans) ->
  get_entity s h = Some e -> is_quat (o_rot (pe_last_orient e)) r ->
  INR (S (pieces hist system_new)) * (2 * delta + powerRZ 2 (-18)) <= 1 / 4 ->
  Rabs (vdot (qrot r x) (qrot r x) - vdot x x) <= 5 * (INR (S (pieces hist system_new)) * (2 * delta + powerRZ 2 (-18))) * vdot x x.
Proof. intros HL HF HR He Hr Hc. apply lengths_near; [|exact Hc]. eapply history_square; eauto. Qed.

(** ** Correctly rounded sines and cosines *)
Definition nearest (r : R) : f32 :=
  binary_normalize 24 128 _ _ mode_NE (ZnearestE (scaled_mantissa radix2 (FLT_exp (3 - 128 - 24) 24) r)) (cexp radix2 (FLT_exp (3 - 128 - 24) 24) r) false.
Lemma nearest_is r : Rabs r <= 1 -> B2ER (nearest r) = Fin (rnd r).
Proof.
  intros H. unfold nearest.
  pose proof (binary_normalize_correct 24 128 f32_prec_gt_0 f32_prec_lt_emax mode_NE (ZnearestE (scaled_mantissa radix2 (FLT_exp (3 - 128 - 24) 24) r)) (cexp radix2 (FLT_exp (3 - 128 - 24) 24) r) false) as C.
  change (F2R {| Fnum := ZnearestE (scaled_mantissa radix2 (FLT_exp (3 - 128 - 24) 24) r); Fexp := cexp radix2 (FLT_exp (3 - 128 - 24) 24) r |}) with (rnd r) in C.
  cbv zeta in C.
  match type of C with context [Rlt_bool (Rabs ?a) _] => assert (G : a = rnd r) by
    (change a with (rnd (rnd r)); apply round_generic; [apply valid_rnd_N|apply generic_format_round; [apply FLT_exp_valid; exact eq_refl|apply valid_rnd_N]]) end.
  rewrite G in C.
  rewrite Rlt_bool_true in C.
  - destruct C as (C1 & C2 & _). destruct (binary_normalize _ _ _ _ _ _ _ _) as [s|s| |s m e B]; cbn in C2; try discriminate; (rewrite <- C1; exact eq_refl).
  - assert (R1 : rnd 1 = 1). { apply round_generic; [apply valid_rnd_N|]. change 1 with (bpow radix2 0). apply generic_format_bpow. cbn. lia. }
    apply Rabs_le_inv in H. destruct H as (H1 & H2). apply rnd_le in H1, H2. rewrite rnd_opp, R1 in H1. rewrite R1 in H2.
    apply Rle_lt_trans with 1; [apply Rabs_le; lra|]. change 1 with (bpow radix2 0). apply bpow_lt. lia.
Qed.
Definition exactly (f : R -> R) (x : f32) : f32 := if is_finite x then nearest (f (B2R x)) else B754_nan.
Definition rounded : Libm := {| l_sin := exactly sin; l_cos := exactly cos; l_atan2 := fun y _ => y |}.
Lemma rounded_ok : libm_ok rounded (powerRZ 2 (-22)).
Proof.
  split.
  - intros x r H. assert (F : is_finite x = true) by (destruct x as [s|s| |s m e B]; try (destruct s; discriminate); try discriminate; exact eq_refl). cbn [l_sin l_cos rounded]. unfold exactly. rewrite F.
    set (t := B2R x). exists (rnd (sin t)), (rnd (cos t)).
    split; [apply nearest_is, Rabs_le, SIN_bound|]. split; [apply nearest_is, Rabs_le, COS_bound|].
    pose proof (rnd_good (sin t)) as A. pose proof (rnd_good (cos t)) as B. pose proof (sin2_cos2 t) as P. unfold Rsqr in P.
    rewrite uu_is in A, B. fold eta in A, B. pose proof eta_small as E.
    assert (U : powerRZ 2 (-22) = 4 * uu) by (unfold uu; rewrite pow_bpow; cbn; lra). rewrite U.
    assert (U0 : 0 < uu <= / 1000000) by (unfold uu; lra).
    assert (E2 : eta <= uu / 1000000).
    { destruct E as (_ & E). eapply Rle_trans; [exact E|]. assert (0 <= uu * uu * uu * uu * uu <= / 1000000); [|nra]. split; [repeat apply Rmult_le_pos; lra|].
      assert (uu * uu <= 1) by nra. assert (0 <= uu * uu) by nra. assert (0 <= uu * uu * uu * uu <= 1) by (split; nra). nra. }
    set (a := sin t) in *. set (b := cos t) in *. clearbody a b. set (a' := rnd a) in *. set (b' := rnd b) in *. clearbody a' b'.
    assert (S : forall u u', Rabs (u' - u) <= Rabs u * uu + eta -> u * u <= 1 -> Rabs (u' * u' - u * u) <= (2 * uu + uu / 100) * (u * u) + uu / 1000).
    { intros u u' H0 H1. assert (Hu : Rabs u <= 1) by (apply Rabs_le; nra). pose proof (Rabs_pos u) as Hu0.
      replace (u' * u' - u * u) with ((u' - u) * (u' - u) + 2 * u * (u' - u)) by ring.
      eapply Rle_trans; [apply Rabs_triang|]. rewrite !Rabs_mult, (Rabs_right 2) by lra.
      replace (u * u) with (Rabs u * Rabs u) by (rewrite <- Rabs_mult; apply Rabs_right; nra).
      set (m := Rabs u) in *. set (g := Rabs (u' - u)) in *. assert (G0 : 0 <= g) by apply Rabs_pos. clearbody m g.
      assert (G1 : g * g <= (m * uu + eta) * (m * uu + eta)) by (apply Rmult_le_compat; lra).
      assert (G2 : 2 * m * g <= 2 * m * (m * uu + eta)) by (apply Rmult_le_compat_l; lra).
      assert (G3 : m * eta <= uu / 1000000) by nra.
      assert (G4 : (m * uu) * (m * uu) <= uu / 1000 * (m * m)) by nra.
      assert (G5 : (m * uu) * eta <= uu / 1000000) by nra.
      assert (G6 : eta * eta <= uu / 1000000) by nra. assert (G7 : 0 <= uu * (m * m)) by nra. lra. }
    assert (A2 := S _ _ A ltac:(nra)). assert (B2 := S _ _ B ltac:(nra)). apply Rabs_le_inv in A2, B2. apply Rabs_le. nra.
  - intros x H. cbn [l_cos rounded]. unfold exactly. destruct x; cbn [is_finite]; first [exact eq_refl | exfalso; refine (H _ _); exact eq_refl].
Qed.
Lemma rounded_exists : exists L, libm_ok L (powerRZ 2 (-22)) /\ (forall x r, B2ER x = Fin r -> l_sin L x = nearest (sin (B2R x)) /\ l_cos L x = nearest (cos (B2R x))) /\
  forall r, Rabs r <= 1 -> B2ER (nearest r) = Fin (rnd r).
Proof.
  exists rounded. split; [exact rounded_ok|]. split; [|exact nearest_is].
  intros x r H. assert (F : is_finite x = true) by (destruct x as [s|s| |s m e B]; try (destruct s; discriminate); try discriminate; exact eq_refl).
  cbn [l_sin l_cos rounded]. unfold exactly. now rewrite F.
Qed.
