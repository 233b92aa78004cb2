(** * AlgebraP: laws of vectors, matrices and quaternions (C83); binary32 against exact arithmetic (C84) *)
From Coq Require Import ZArith Reals Bool Lra Lia Psatz.
From Flocq Require Import Core Relative IEEE754.BinarySingleNaN.
From Verif Require Import Num Vec OrderP ArithP Spec RealSpec RealV OrientP PhysSpec PhysP AlgebraSpec.
Local Open Scope R_scope.

Lemma vector_laws : (forall a b : V, vadd a b = mkV (vx a + vx b) (vy a + vy b) (vz a + vz b)) /\ (forall (a : V) k, vscale a k = mkV (vx a * k) (vy a * k) (vz a * k)) /\
  (forall a b : V, vadd (vsub a b) b = a) /\ (forall a : V, vadd (vneg a) a = mkV 0 0 0) /\
  (forall a b : V, vdot a b = vdot b a) /\ (forall a : V, linear_form (vdot a)) /\
  vdot axis1 axis1 = 1 /\ vdot axis2 axis2 = 1 /\ vdot axis3 axis3 = 1 /\ vdot axis1 axis2 = 0 /\ vdot axis2 axis3 = 0 /\ vdot axis3 axis1 = 0 /\
  bilinear vcross /\ (forall a : V, vcross a a = mkV 0 0 0) /\ vcross axis1 axis2 = axis3 /\ vcross axis2 axis3 = axis1 /\ vcross axis3 axis1 = axis2.
Proof.
  unfold bilinear, linear, linear_form, axis1, axis2, axis3.
  repeat match goal with |- _ /\ _ => split | |- forall _, _ => intro end; try (apply vext); repeat match goal with v : V |- _ => destruct v end; vunfold; ring.
Qed.
Lemma length_laws (a : V) : (exists r, vmag (vfin a) = Fin r /\ 0 <= r /\ r * r = vdot a a) /\
  (a <> mkV 0 0 0 -> exists u k, vnormalize (vfin a) = vfin u /\ vdot u u = 1 /\ 0 < k /\ a = vscale u k).
Proof.
  split; [rewrite vmag_fin; eexists; split; [exact eq_refl|]; split; [apply sqrt_pos|apply sqrt_sqrt, vdot_pos]|]. intros Na.
  rewrite (vnormalize_fin _ Na). exists (vunit a), (sqrt (vdot a a)). split; [exact eq_refl|]. split; [now apply vunit_unit|]. pose proof (sqrt_norm_pos a Na) as P. split; [exact P|].
  unfold vunit. set (s := sqrt _) in *. clearbody s. destruct a. apply vext; vunfold; field; lra.
Qed.
Lemma matrix_laws (a b : M) (u v : V) k : linear (mulmv a) /\
  mulmv a axis1 = mkV (m11 a) (m21 a) (m31 a) /\ mulmv a axis2 = mkV (m12 a) (m22 a) (m32 a) /\ mulmv a axis3 = mkV (m13 a) (m23 a) (m33 a) /\
  mulmv (mulmm a b) v = mulmv a (mulmv b v) /\ mulmv (madd a b) v = vadd (mulmv a v) (mulmv b v) /\ mulmv (msub a b) v = vsub (mulmv a v) (mulmv b v) /\
  mulmv (mscale a k) v = vscale (mulmv a v) k /\ vdot (mulmv (mtrans a) u) v = vdot u (mulmv a v) /\ (forall x, mulmv (vouter u v) x = vscale u (vdot v x)) /\
  (forall x, mulmv (mdiag u) x = mkV (vx u * vx x) (vy u * vy x) (vz u * vz x)).
Proof.
  unfold linear, axis1, axis2, axis3. destruct a as [a1 a2 a3 a4 a5 a6 a7 a8 a9], b as [b1 b2 b3 b4 b5 b6 b7 b8 b9], u as [u1 u2 u3], v as [v1 v2 v3].
  repeat match goal with |- _ /\ _ => split | |- forall _, _ => intro end; try (apply vext); repeat match goal with v : V |- _ => destruct v end; munfold; cbv [mtrans m11 m12 m13 m21 m22 m23 m31 m32 m33]; munfold; try ring; field.
Qed.
(** The inverse: there is one exactly when the columns span a volume. *)
Lemma volume_det a : volume a = det a.
Proof. destruct a as [a1 a2 a3 a4 a5 a6 a7 a8 a9]. unfold volume, axis1, axis2, axis3, det. munfold. ring. Qed.
Lemma inverse_laws a : match mtry_inverse (mfin a) with
  | Some i => volume a <> 0 /\ exists b, i = mfin b /\ (forall v, mulmv a (mulmv b v) = v) /\ (forall v, mulmv b (mulmv a v) = v)
  | None => volume a = 0 end.
Proof.
  rewrite volume_det. unfold mtry_inverse. cbn [mfin m11 m12 m13 m21 m22 m23 m31 m32 m33]. rewrite !fin_mul, !fin_sub, !fin_mul, !fin_sub, !fin_add, !fin_neg, fin_0.
  fold (det a). change (@n_eq ER EReal) with er_eq. unfold er_eq. destruct (Req_EM_T (det a) 0) as [E|E]; [exact E|]. split; [exact E|]. rewrite !fin_div by auto.
  exists (rinv a). split; [unfold rinv; destruct (Req_EM_T _ _); [contradiction|exact eq_refl]|].
  split; intros v; rewrite <- mulmm_assoc_v, ?rinv_r, ?rinv_l by exact E; apply mulmv_unit.
Qed.
(** Hamilton's rules. *)
Lemma quaternion_laws (a b c : Q) k :
  qmul (qplus a b) c = qplus (qmul a c) (qmul b c) /\ qmul c (qplus a b) = qplus (qmul c a) (qmul c b) /\
  qmul (qtimes a k) b = qtimes (qmul a b) k /\ qmul a (qtimes b k) = qtimes (qmul a b) k /\ qmul (qmul a b) c = qmul a (qmul b c) /\
  qmul (number 1) a = a /\ qmul a (number 1) = a /\
  qmul (pure axis1) (pure axis1) = number (-1) /\ qmul (pure axis2) (pure axis2) = number (-1) /\ qmul (pure axis3) (pure axis3) = number (-1) /\
  qmul (qmul (pure axis1) (pure axis2)) (pure axis3) = number (-1).
Proof.
  unfold axis1, axis2, axis3, number, pure, qplus, qtimes. destruct a as [a1 a2 a3 a4], b as [b1 b2 b3 b4], c as [c1 c2 c3 c4].
  repeat match goal with |- _ /\ _ => split end; qunfold; cbn [qi qj qk qw]; f_equal; ring.
Qed.
(** Unit quaternions turn vectors. *)
Lemma pure_turn (q : Q) (v : V) : qmul (qmul q (pure v)) (qinv q) = qplus (qtimes (pure (qrot q v)) 1) (qtimes (pure v) (qi q * qi q + qj q * qj q + qk q * qk q + qw q * qw q - 1)).
Proof. unfold pure, qplus, qtimes. destruct q as [a b c d], v as [x y z]. qunfold. cbn [qi qj qk qw vx vy vz]. f_equal; field. Qed.
Lemma turning_laws (q r : Q) (u v : V) : unit_quat q -> unit_quat r ->
  pure (qrot q v) = qmul (qmul q (pure v)) (qinv q) /\ qmul q (qinv q) = number 1 /\ qmul (qinv q) q = number 1 /\
  qrot (qmul q r) v = qrot q (qrot r v) /\ mulmv (qto_matrix q) v = qrot q v /\ qrot qident v = v /\
  vdot (qrot q u) (qrot q v) = vdot u v /\ qrot q (vcross u v) = vcross (qrot q u) (qrot q v) /\ unit_quat (qmul q r) /\ unit_quat (qinv q).
Proof.
  intros Uq Ur. split.
  { rewrite pure_turn. unfold unit_quat in Uq. rewrite Uq. unfold pure, qplus, qtimes. cbn [qi qj qk qw]. f_equal; ring. }
  split; [unfold number, unit_quat in *; destruct q as [a b c d]; qunfold; cbn [qi qj qk qw] in *; f_equal; lra|].
  split; [unfold number, unit_quat in *; destruct q as [a b c d]; qunfold; cbn [qi qj qk qw] in *; f_equal; lra|].
  split; [now apply qrot_mul|]. split; [symmetry; now apply qrot_matrix|]. split; [apply qrot_ident|]. split; [now apply qrot_dot|]. split; [now apply qrot_cross|].
  split; [now apply unit_qmul|now apply unit_qinv].
Qed.
(** The operations of the model on finite values are these. *)
Lemma fin_laws (a b : V) (m n : M) (q r : Q) k : vadd (vfin a) (vfin b) = vfin (vadd a b) /\ vsub (vfin a) (vfin b) = vfin (vsub a b) /\ vneg (vfin a) = vfin (vneg a) /\
  vscale (vfin a) (Fin k) = vfin (vscale a k) /\ vdot (vfin a) (vfin b) = Fin (vdot a b) /\ vcross (vfin a) (vfin b) = vfin (vcross a b) /\
  mulmv (mfin m) (vfin a) = vfin (mulmv m a) /\ mulmm (mfin m) (mfin n) = mfin (mulmm m n) /\ mtrans (mfin m) = mfin (mtrans m) /\ vouter (vfin a) (vfin b) = mfin (vouter a b) /\
  madd (mfin m) (mfin n) = mfin (madd m n) /\ msub (mfin m) (mfin n) = mfin (msub m n) /\ mscale (mfin m) (Fin k) = mfin (mscale m k) /\
  qmul (qfin q) (qfin r) = qfin (qmul q r) /\ qinv (qfin q) = qfin (qinv q) /\ qrot (qfin q) (vfin a) = vfin (qrot q a).
Proof. repeat split; exact eq_refl. Qed.

(** ** Binary32 *)
Lemma pow_bpow e : powerRZ 2 e = bpow radix2 e.
Proof. now rewrite bpow_powerRZ. Qed.
Lemma rnd_good a : Rabs (rnd a - a) <= Rabs a * powerRZ 2 (-24) + powerRZ 2 (-150).
Proof.
  rewrite !pow_bpow. destruct (error_N_FLT radix2 (3 - 128 - 24) 24 eq_refl (fun x => negb (Z.even x)) a) as (eps & eta & He & Hn & _ & E).
  change (rnd a) with (round radix2 (FLT_exp (3 - 128 - 24) 24) (Znearest (fun x => negb (Z.even x))) a). rewrite E.
  replace (a * (1 + eps) + eta - a) with (a * eps + eta) by ring. eapply Rle_trans; [apply Rabs_triang|]. rewrite Rabs_mult.
  assert (E1 : / 2 * bpow radix2 (- (24) + 1) = bpow radix2 (-24)) by (change (/ 2) with (bpow radix2 (-1)); rewrite <- bpow_plus; exact eq_refl).
  assert (E2 : / 2 * bpow radix2 (3 - 128 - 24) = bpow radix2 (-150)) by (change (/ 2) with (bpow radix2 (-1)); rewrite <- bpow_plus; exact eq_refl).
  rewrite E1 in He. rewrite E2 in Hn. apply Rplus_le_compat; [apply Rmult_le_compat_l; [apply Rabs_pos|exact He]|exact Hn].
Qed.
Lemma rnd_opp a : rnd (- a) = - rnd a.
Proof. exact (round_NE_opp radix2 (FLT_exp (3 - 128 - 24) 24) a). Qed.
Lemma largest_format : generic_format radix2 (SpecFloat.fexp 24 128) largest.
Proof.
  unfold largest. rewrite !pow_bpow. assert (E : bpow radix2 128 - bpow radix2 104 = F2R (Float radix2 16777215 104)).
  { unfold F2R. cbn [Fnum Fexp]. replace (bpow radix2 128) with (bpow radix2 24 * bpow radix2 104) by (rewrite <- bpow_plus; exact eq_refl).
    replace (bpow radix2 24) with 16777216 by (cbn; lra). lra. }
  rewrite E. apply generic_format_F2R. intros _. unfold cexp. rewrite (mag_F2R_Zdigits radix2 16777215 104) by discriminate. cbn. lia.
Qed.
Lemma rnd_large a : fmax <= Rabs (rnd a) -> largest < Rabs a.
Proof.
  intros H. destruct (Rlt_le_dec largest (Rabs a)) as [|C]; [assumption|]. exfalso.
  assert (A : Rabs (rnd a) = rnd (Rabs a)). { unfold Rabs at 2. destruct (Rcase_abs a) as [N|N].
    - rewrite rnd_opp. apply Rabs_left1. rewrite <- rnd_0. apply rnd_le. lra.
    - apply Rabs_right. apply Rle_ge. rewrite <- rnd_0. apply rnd_le. lra. }
  rewrite A in H. apply rnd_le in C. rewrite (round_generic _ _ _ largest) in C by apply largest_format.
  unfold largest in C. rewrite !pow_bpow in C. unfold fmax in H. pose proof (bpow_gt_0 radix2 104). lra.
Qed.
Lemma good_rounded a (z : f32) : B2ER z = Fin (rnd a) -> good_bits a (B2ER z).
Proof. intros ->. left. exists (rnd a). split; [exact eq_refl|apply rnd_good]. Qed.
Lemma good_overflow a (s : bool) : fmax <= Rabs (rnd a) -> (s = true -> a <= 0) -> (s = false -> 0 <= a) -> good_bits a (B2ER (B754_infinity s)).
Proof.
  intros H H1 H2. right. apply rnd_large in H. split; [exact H|].
  assert (L : 0 < largest) by (unfold largest; rewrite !pow_bpow; pose proof (bpow_lt radix2 104 128 ltac:(lia)); lra).
  assert (N : a <> 0) by (intros ->; rewrite Rabs_R0 in H; lra). cbn [B2ER]. destruct s; destruct (Rlt_dec 0 a); try exact eq_refl; exfalso; [specialize (H1 eq_refl)|specialize (H2 eq_refl)]; lra.
Qed.
Lemma plus_agrees (x y : f32) : agrees (er_add (B2ER x) (B2ER y)) (B2ER (Bplus mode_NE x y)).
Proof.
  destruct (is_finite x) eqn:Fx, (is_finite y) eqn:Fy.
  - rewrite (B2ER_fin x Fx), (B2ER_fin y Fy). cbn [er_add agrees]. destruct (Bplus_fin x y Fx Fy) as [(_ & E & _)|(O & -> & Sg)]; [now apply good_rounded|].
    apply good_overflow; [exact O| |]; intros S.
    + pose proof (Bsign_neg x S Fx). rewrite Sg in S. pose proof (Bsign_neg y S Fy). lra.
    + pose proof (Bsign_pos x S Fx). rewrite Sg in S. pose proof (Bsign_pos y S Fy). lra.
  - rewrite (B2ER_fin x Fx). destruct x as [s|s| |s m e H]; try discriminate; destruct y as [s'|[]| |s' m' e' H']; try discriminate; exact eq_refl.
  - rewrite (B2ER_fin y Fy). destruct x as [s|[]| |s m e H]; try discriminate; destruct y as [s'|s'| |s' m' e' H']; try discriminate; exact eq_refl.
  - destruct x as [s|[]| |s m e H]; try discriminate; destruct y as [s'|[]| |s' m' e' H']; try discriminate; exact eq_refl.
Qed.
Lemma minus_agrees (x y : f32) : agrees (er_sub (B2ER x) (B2ER y)) (B2ER (Bminus mode_NE x y)).
Proof.
  destruct (is_finite x) eqn:Fx, (is_finite y) eqn:Fy.
  - rewrite (B2ER_fin x Fx), (B2ER_fin y Fy). cbn [er_sub agrees]. destruct (Bminus_fin x y Fx Fy) as [(_ & E & _)|(O & -> & Sg)]; [now apply good_rounded|].
    apply good_overflow; [exact O| |]; intros S.
    + pose proof (Bsign_neg x S Fx). assert (S' : Bsign y = false) by (destruct (Bsign y); [rewrite Sg in S; discriminate|exact eq_refl]). pose proof (Bsign_pos y S' Fy). lra.
    + pose proof (Bsign_pos x S Fx). assert (S' : Bsign y = true) by (destruct (Bsign y); [exact eq_refl|rewrite Sg in S; discriminate]). pose proof (Bsign_neg y S' Fy). lra.
  - rewrite (B2ER_fin x Fx). destruct x as [s|s| |s m e H]; try discriminate; destruct y as [s'|[]| |s' m' e' H']; try discriminate; exact eq_refl.
  - rewrite (B2ER_fin y Fy). destruct x as [s|[]| |s m e H]; try discriminate; destruct y as [s'|s'| |s' m' e' H']; try discriminate; exact eq_refl.
  - destruct x as [s|[]| |s m e H]; try discriminate; destruct y as [s'|[]| |s' m' e' H']; try discriminate; exact eq_refl.
Qed.
(** An infinity times or by something finite. *)
Lemma finite_sign (x : f32) s m e H : x = B754_finite s m e H -> (s = true -> B2R x < 0) /\ (s = false -> 0 < B2R x).
Proof.
  intros ->. cbn [B2R]. split; intros ->; cbn [SpecFloat.cond_Zopp]; [apply F2R_lt_0|apply F2R_gt_0]; cbn [Fnum]; lia.
Qed.
Lemma inf_times_sign (x : f32) : is_finite x = true -> er_inf_times (B2R x) = match x with B754_zero _ => ENaN | _ => if Bsign x then NInf else PInf end.
Proof.
  intros F. unfold er_inf_times. destruct x as [s|s| |s m e H] eqn:E; try discriminate.
  - cbn [B2R]. destruct (Req_EM_T 0 0); [exact eq_refl|lra].
  - destruct (finite_sign _ _ _ _ _ eq_refl : (s = true -> B2R (B754_finite s m e H) < 0) /\ (s = false -> 0 < B2R (B754_finite s m e H))) as (A & B).
    cbn [Bsign]. destruct s; [specialize (A eq_refl)|specialize (B eq_refl)]; destruct (Req_EM_T _ 0); try lra; destruct (Rlt_dec 0 _); try lra; exact eq_refl.
Qed.
Lemma mult_agrees (x y : f32) : agrees (er_mul (B2ER x) (B2ER y)) (B2ER (Bmult mode_NE x y)).
Proof.
  destruct (is_finite x) eqn:Fx, (is_finite y) eqn:Fy.
  - rewrite (B2ER_fin x Fx), (B2ER_fin y Fy). cbn [er_mul agrees]. destruct (Bmult_fin x y Fx Fy) as [(_ & E & _)|(O & ->)]; [now apply good_rounded|].
    apply good_overflow; [exact O| |]; intros S; destruct (Bsign x) eqn:Sx, (Bsign y) eqn:Sy; try discriminate;
      repeat match goal with Z : Bsign _ = true |- _ => apply Bsign_neg in Z; [|assumption] | Z : Bsign _ = false |- _ => apply Bsign_pos in Z; [|assumption] end; nra.
  - rewrite (B2ER_fin x Fx). destruct y as [s'|[]| |s' m' e' H']; try discriminate; cbn [B2ER er_mul]; rewrite ?inf_times_sign by assumption;
      destruct x as [s|s| |s m e H]; try discriminate; destruct s; exact eq_refl.
  - rewrite (B2ER_fin y Fy). destruct x as [s|[]| |s m e H]; try discriminate; cbn [B2ER er_mul]; rewrite ?inf_times_sign by assumption;
      destruct y as [s'|s'| |s' m' e' H']; try discriminate; destruct s'; exact eq_refl.
  - destruct x as [s|[]| |s m e H]; try discriminate; destruct y as [s'|[]| |s' m' e' H']; try discriminate; exact eq_refl.
Qed.
Lemma good_zero : good_bits 0 (Fin 0).
Proof. left. exists 0. split; [exact eq_refl|]. rewrite !pow_bpow, Rminus_0_r, Rabs_R0. pose proof (bpow_gt_0 radix2 (-150)). lra. Qed.
Lemma Bdiv_fin (x y : f32) : is_finite x = true -> is_finite y = true -> B2R y <> 0 ->
  (B2ER (Bdiv mode_NE x y) = Fin (rnd (B2R x / B2R y))) \/
  (fmax <= Rabs (rnd (B2R x / B2R y)) /\ Bdiv mode_NE x y = B754_infinity (xorb (Bsign x) (Bsign y))).
Proof.
  intros Fx Fy Ny. pose proof (Bdiv_correct 24 128 _ _ mode_NE x y Ny) as H.
  destruct (Rlt_bool_spec (Rabs (rnd (B2R x / B2R y))) (bpow radix2 128)) as [Hl|Hl].
  - left. destruct H as (H1 & H2 & _). rewrite Fx in H2. rewrite B2ER_fin, H1; auto.
  - right. split; [exact Hl|]. apply B2SF_inf. rewrite H. destruct (xorb (Bsign x) (Bsign y)); reflexivity.
Qed.
Lemma div_agrees (x y : f32) : y <> B754_zero true -> agrees (er_div (B2ER x) (B2ER y)) (B2ER (Bdiv mode_NE x y)).
Proof.
  intros Ny. destruct (is_finite x) eqn:Fx, (is_finite y) eqn:Fy.
  - rewrite (B2ER_fin x Fx), (B2ER_fin y Fy). cbn [er_div]. destruct (Req_EM_T (B2R y) 0) as [Z|NZ].
    + rewrite inf_times_sign by assumption. destruct y as [[]|s'| |s' m' e' H'] eqn:Ey; try discriminate; [contradiction| |exfalso; destruct (finite_sign _ _ _ _ _ Ey) as (A & B); rewrite <- Ey in Z; destruct s'; [specialize (A eq_refl)|specialize (B eq_refl)]; rewrite ?Ey in *; lra].
      destruct x as [s|s| |s m e H]; try discriminate; destruct s; exact eq_refl.
    + cbn [agrees]. destruct (Bdiv_fin x y Fx Fy NZ) as [E|(O & ->)]; [now apply good_rounded|].
      apply good_overflow; [exact O| |]; intros S; destruct (Bsign x) eqn:Sx, (Bsign y) eqn:Sy; try discriminate;
        repeat match goal with Z : Bsign _ = true |- _ => apply Bsign_neg in Z; [|assumption] | Z : Bsign _ = false |- _ => apply Bsign_pos in Z; [|assumption] end;
        unfold Rdiv; [assert (0 < / B2R y) by (apply Rinv_0_lt_compat; lra)|assert (/ B2R y < 0) by (apply Rinv_lt_0_compat; lra)|assert (/ B2R y < 0) by (apply Rinv_lt_0_compat; lra)|assert (0 < / B2R y) by (apply Rinv_0_lt_compat; lra)]; nra.
  - rewrite (B2ER_fin x Fx). destruct y as [s'|[]| |s' m' e' H']; try discriminate; destruct x as [s|s| |s m e H]; try discriminate; destruct s; try exact eq_refl; exact good_zero.
  - rewrite (B2ER_fin y Fy). destruct x as [s|[]| |s m e H]; try discriminate; cbn [B2ER er_div].
    3: exact eq_refl.
    all: destruct y as [[]|s'| |s' m' e' H'] eqn:Ey; try discriminate; try contradiction; cbn [B2R]; try (destruct (Rlt_dec 0 0); [lra|exact eq_refl]);
      destruct (finite_sign _ _ _ _ _ Ey) as (A & B); change (F2R _) with (B2R (B754_finite s' m' e' H')); rewrite <- Ey in *;
      destruct s'; [specialize (A eq_refl)|specialize (B eq_refl)]; destruct (Rlt_dec (B2R y) 0); try lra; rewrite Ey; exact eq_refl.
  - destruct x as [s|[]| |s m e H]; try discriminate; destruct y as [s'|[]| |s' m' e' H']; try discriminate; exact eq_refl.
Qed.

Lemma sqrt_agrees (x : f32) : agrees (er_sqrt (B2ER x)) (B2ER (Bsqrt mode_NE x)).
Proof.
  destruct (is_finite x) eqn:Fx.
  - rewrite (B2ER_fin x Fx). cbn [er_sqrt]. destruct (Bsqrt_correct 24 128 _ _ mode_NE x) as (H1 & H2 & _).
    destruct x as [s|s| |s m e H] eqn:Ex; try discriminate.
    + cbn [B2R]. destruct (Rlt_dec 0 0); [lra|]. cbn [agrees]. rewrite sqrt_0. exact good_zero.
    + destruct (finite_sign _ _ _ _ _ Ex) as (A & B). rewrite <- Ex in *. destruct s; [specialize (A eq_refl)|specialize (B eq_refl)].
      * destruct (Rlt_dec _ 0); [|lra]. cbn [agrees]. rewrite Ex. exact eq_refl.
      * destruct (Rlt_dec _ 0); [lra|]. cbn [agrees]. apply good_rounded. rewrite B2ER_fin, H1; [exact eq_refl|]. rewrite H2, ?Ex. exact eq_refl.
  - destruct x as [s|[]| |s m e H]; try discriminate; exact eq_refl.
Qed.
Lemma signum_agrees (x : f32) : x <> B754_zero true -> B2ER (f32_signum x) = er_signum (B2ER x).
Proof.
  intros Nx. assert (O1 : B2ER f32_one = Fin 1). { pose proof (@key_1 f32 (F32 (Build_Libm (fun x => x) (fun x => x) (fun x _ => x))) (Ord_F32 _)) as K. exact K. }
  assert (O2 : B2ER (Bopp f32_one) = Fin (-1)) by (rewrite Bopp_ER, O1; exact eq_refl).
  unfold f32_signum. destruct x as [[]|[]| |s m e H] eqn:Ex; cbn [is_nan Bsign]; rewrite ?O1, ?O2; try contradiction; try exact eq_refl.
  - cbn [B2ER er_signum]. destruct (Rlt_dec 0 0); [lra|exact eq_refl].
  - destruct (finite_sign _ _ _ _ _ Ex) as (A & B). rewrite (B2ER_fin (B754_finite s m e H)) by exact eq_refl. rewrite <- Ex in *. cbn [er_signum].
    destruct s; [specialize (A eq_refl)|specialize (B eq_refl)]; destruct (Rlt_dec (B2R x) 0); try lra; rewrite ?O1, ?O2; exact eq_refl.
Qed.
(** Whole numbers of up to 24 bits are exact. *)
Lemma of_Z_exact z : (Z.abs z <= 2 ^ 24)%Z -> B2R (f32_of_Z z) = IZR z /\ is_finite (f32_of_Z z) = true.
Proof.
  intros Hz. unfold f32_of_Z. pose proof (binary_normalize_correct 24 128 _ _ mode_NE z 0 false) as H. cbv zeta in H.
  assert (Fz : F2R (Float radix2 z 0) = IZR z) by (unfold F2R; cbn; ring). rewrite Fz in H.
  assert (G : generic_format radix2 (SpecFloat.fexp 24 128) (IZR z)).
  { destruct (Z.eq_dec (Z.abs z) (2 ^ 24)) as [E|N].
    - assert (K : generic_format radix2 (SpecFloat.fexp 24 128) (bpow radix2 24)) by (apply generic_format_bpow; cbn; lia).
      assert (B : bpow radix2 24 = IZR (2 ^ 24)) by exact eq_refl. rewrite B in K.
      destruct (Z.abs_spec z) as [(_ & Q)|(_ & Q)]; [replace z with (2 ^ 24)%Z by lia; exact K|replace z with (- (2 ^ 24))%Z by lia; rewrite opp_IZR; now apply generic_format_opp].
    - apply (generic_format_FLT radix2 (3 - 128 - 24) 24). exists (Float radix2 z 0); [now rewrite Fz|cbn [Fnum]; cbn; lia|cbn; lia]. }
  rewrite (round_generic _ _ _ (IZR z)) in H by exact G.
  rewrite Rlt_bool_true in H; [destruct H as (H1 & H2 & _); auto|].
  rewrite <- abs_IZR. apply Rle_lt_trans with (IZR (2 ^ 24)); [now apply IZR_le|]. change (IZR (2 ^ 24)) with (bpow radix2 24). apply bpow_lt. lia.
Qed.
Lemma frac_agrees p q : (Z.abs p <= 2 ^ 24)%Z -> (Zpos q <= 2 ^ 24)%Z -> good_bits (IZR p / IZR (Zpos q)) (B2ER (f32_frac p q)).
Proof.
  intros Hp Hq. destruct (of_Z_exact p Hp) as (P1 & P2). destruct (of_Z_exact (Zpos q) Hq) as (Q1 & Q2).
  assert (N : B2R (f32_of_Z (Zpos q)) <> 0) by (rewrite Q1; apply not_0_IZR; discriminate).
  pose proof (div_agrees (f32_of_Z p) (f32_of_Z (Zpos q))) as D. rewrite (B2ER_fin _ P2), (B2ER_fin _ Q2), P1, Q1 in D. cbn [er_div] in D.
  rewrite Q1 in N. destruct (Req_EM_T (IZR (Zpos q)) 0); [contradiction|]. apply D. intros E. rewrite E in Q1. cbn in Q1. lra.
Qed.
Lemma order_agrees (x y : f32) : Bltb x y = er_lt (B2ER x) (B2ER y) /\ Bleb x y = er_le (B2ER x) (B2ER y) /\ Beqb x y = er_eq (B2ER x) (B2ER y) /\
  is_nan x = er_isnan (B2ER x) /\ f32_isinf x = er_isinf (B2ER x) /\ is_finite x = er_isfin (B2ER x) /\ B2ER (Bopp x) = er_neg (B2ER x) /\ B2ER (Babs x) = er_abs (B2ER x).
Proof.
  split; [apply Bltb_ER|]. split; [apply Bleb_ER|]. split; [apply Beqb_ER|]. split; [apply isnan_ER|]. split; [apply isinf_ER|]. split; [apply isfin_ER|]. split; [apply Bopp_ER|apply Babs_ER].
Qed.
Lemma negative_zero L (N := F32 L) : B2ER (n_div n1 (B754_zero true)) = NInf /\ n_div (B2ER n1) (B2ER (B754_zero true)) = PInf /\
  B2ER (n_signum (B754_zero true)) = Fin (-1) /\ n_signum (B2ER (B754_zero true)) = Fin 1.
Proof.
  assert (O1 : B2ER f32_one = Fin 1) by exact (@key_1 f32 (F32 L) (Ord_F32 L)). assert (O2 : B2ER (Bopp f32_one) = Fin (-1)) by (rewrite Bopp_ER, O1; exact eq_refl).
  split; [vm_compute; reflexivity|]. split; [|split; [exact O2|]].
  - change (B2ER n1) with (B2ER (@n1 f32 (F32 L))). rewrite (@key_1 f32 (F32 L) (Ord_F32 L) : B2ER (@n1 f32 (F32 L)) = Fin 1). cbn [B2ER n_div EReal er_div].
    destruct (Req_EM_T 0 0); [|lra]. unfold er_inf_times. destruct (Req_EM_T 1 0); [lra|]. destruct (Rlt_dec 0 1); [exact eq_refl|lra].
  - cbn [B2ER n_signum EReal er_signum]. destruct (Rlt_dec 0 0); [lra|exact eq_refl].
Qed.
