(** * OrderP: comparisons of both arithmetics, read in the extended reals *)
From Coq Require Import ZArith Reals Bool Lra Lia.
From Flocq Require Import Core.Zaux Core.Raux Core.Defs IEEE754.BinarySingleNaN.
From Verif Require Import Num.

(** [key x]: the extended real that [x] denotes.  Comparisons, tests, negation
    and absolute value are exact, so they commute with [key]. *)
Class Ord {T : Type} (N : Num T) : Type := {
  key : T -> ER;
  key_lt : forall x y, n_lt x y = er_lt (key x) (key y);
  key_le : forall x y, n_le x y = er_le (key x) (key y);
  key_eq : forall x y, n_eq x y = er_eq (key x) (key y);
  key_isnan : forall x, n_isnan x = er_isnan (key x);
  key_isinf : forall x, n_isinf x = er_isinf (key x);
  key_isfin : forall x, n_isfin x = er_isfin (key x);
  key_neg : forall x, key (n_neg x) = er_neg (key x);
  key_abs : forall x, key (n_abs x) = er_abs (key x);
  key_inf : key n_inf = PInf;
  key_nan : key n_nan = ENaN;
  key_0 : key n0 = Fin 0;
  key_1 : key n1 = Fin 1;
  key_2 : key n2 = Fin 2;
  key_eps : exists e, key EPSILON = Fin e /\ (0 < e < 1 / 100000)%R;
  key_minr : exists e, key (n_frac 1 20) = Fin e /\ (0 < e < 1 / 10)%R
}.

#[global] Instance Ord_ER : Ord EReal.
Proof.
  refine (Build_Ord ER EReal (fun x => x) _ _ _ _ _ _ _ _ _ _ _ _ _ _ _); try reflexivity.
  - unfold n0. simpl. f_equal. lra.
  - unfold n1. simpl. f_equal. lra.
  - unfold n2. simpl. f_equal. lra.
  - unfold EPSILON. simpl. eexists. split; [reflexivity|]. lra.
  - simpl. eexists. split; [reflexivity|]. lra.
Defined.

(** ** binary32 *)
Definition B2ER (x : f32) : ER :=
  match x with
  | B754_zero _ => Fin 0
  | B754_infinity false => PInf
  | B754_infinity true => NInf
  | B754_nan => ENaN
  | B754_finite _ _ _ _ => Fin (B2R x)
  end.
Lemma B2ER_fin (x : f32) : is_finite x = true -> B2ER x = Fin (B2R x).
Proof. destruct x as [s|[]| |s m e H]; simpl; intros; try discriminate; reflexivity. Qed.

Lemma Rcompare_lt_dec (a b : R) : match Rcompare a b with Lt => true | _ => false end = if Rlt_dec a b then true else false.
Proof.
  destruct (Rcompare_spec a b); destruct (Rlt_dec a b); try reflexivity; lra.
Qed.
Lemma Rcompare_le_dec (a b : R) : match Rcompare a b with Gt => false | _ => true end = if Rle_dec a b then true else false.
Proof.
  destruct (Rcompare_spec a b); destruct (Rle_dec a b); try reflexivity; lra.
Qed.
Lemma Rcompare_eq_dec (a b : R) : match Rcompare a b with Eq => true | _ => false end = if Req_EM_T a b then true else false.
Proof.
  destruct (Rcompare_spec a b); destruct (Req_EM_T a b); try reflexivity; lra.
Qed.

Lemma Bltb_ER (x y : f32) : Bltb x y = er_lt (B2ER x) (B2ER y).
Proof.
  destruct (is_finite x) eqn:Fx, (is_finite y) eqn:Fy.
  - rewrite (Bltb_correct 24 128 x y Fx Fy), (B2ER_fin x Fx), (B2ER_fin y Fy). simpl.
    unfold Rlt_bool. apply Rcompare_lt_dec.
  - rewrite (B2ER_fin x Fx). destruct x as [s|[]| |s m e H]; try discriminate; destruct y as [s'|[]| |s' m' e' H']; try discriminate; reflexivity.
  - rewrite (B2ER_fin y Fy). destruct x as [s|[]| |s m e H]; try discriminate; destruct y as [s'|[]| |s' m' e' H']; try discriminate; reflexivity.
  - destruct x as [s|[]| |s m e H]; try discriminate; destruct y as [s'|[]| |s' m' e' H']; try discriminate; reflexivity.
Qed.
Lemma Bleb_ER (x y : f32) : Bleb x y = er_le (B2ER x) (B2ER y).
Proof.
  destruct (is_finite x) eqn:Fx, (is_finite y) eqn:Fy.
  - rewrite (Bleb_correct 24 128 x y Fx Fy), (B2ER_fin x Fx), (B2ER_fin y Fy). simpl.
    unfold Rle_bool. apply Rcompare_le_dec.
  - rewrite (B2ER_fin x Fx). destruct x as [s|[]| |s m e H]; try discriminate; destruct y as [s'|[]| |s' m' e' H']; try discriminate; reflexivity.
  - rewrite (B2ER_fin y Fy). destruct x as [s|[]| |s m e H]; try discriminate; destruct y as [s'|[]| |s' m' e' H']; try discriminate; reflexivity.
  - destruct x as [s|[]| |s m e H]; try discriminate; destruct y as [s'|[]| |s' m' e' H']; try discriminate; reflexivity.
Qed.
Lemma Beqb_ER (x y : f32) : Beqb x y = er_eq (B2ER x) (B2ER y).
Proof.
  destruct (is_finite x) eqn:Fx, (is_finite y) eqn:Fy.
  - rewrite (Beqb_correct 24 128 x y Fx Fy), (B2ER_fin x Fx), (B2ER_fin y Fy). simpl.
    unfold Req_bool. apply Rcompare_eq_dec.
  - rewrite (B2ER_fin x Fx). destruct x as [s|[]| |s m e H]; try discriminate; destruct y as [s'|[]| |s' m' e' H']; try discriminate; reflexivity.
  - rewrite (B2ER_fin y Fy). destruct x as [s|[]| |s m e H]; try discriminate; destruct y as [s'|[]| |s' m' e' H']; try discriminate; reflexivity.
  - destruct x as [s|[]| |s m e H]; try discriminate; destruct y as [s'|[]| |s' m' e' H']; try discriminate; reflexivity.
Qed.
Lemma Bopp_ER (x : f32) : B2ER (Bopp x) = er_neg (B2ER x).
Proof.
  destruct x as [s|[]| |s m e H]; try reflexivity.
  - simpl. f_equal. lra.
  - change (Fin (B2R (Bopp (B754_finite s m e H))) = Fin (- B2R (B754_finite s m e H))). f_equal. apply B2R_Bopp.
Qed.
Lemma Babs_ER (x : f32) : B2ER (Babs x) = er_abs (B2ER x).
Proof.
  destruct x as [s|[]| |s m e H]; try reflexivity.
  - simpl. f_equal. rewrite Rabs_R0. reflexivity.
  - change (Fin (B2R (Babs (B754_finite s m e H))) = Fin (Rabs (B2R (B754_finite s m e H)))). f_equal. apply B2R_Babs.
Qed.
Lemma isnan_ER (x : f32) : is_nan x = er_isnan (B2ER x).
Proof. destruct x as [s|[]| |s m e H]; reflexivity. Qed.
Lemma isinf_ER (x : f32) : f32_isinf x = er_isinf (B2ER x).
Proof. destruct x as [s|[]| |s m e H]; reflexivity. Qed.
Lemma isfin_ER (x : f32) : is_finite x = er_isfin (B2ER x).
Proof. destruct x as [s|[]| |s m e H]; reflexivity. Qed.

(** Constants: compute the binary32 value, then its real value. *)
Definition sf_R (sf : SpecFloat.spec_float) : R :=
  match sf with
  | SpecFloat.S754_finite s m e => (IZR (cond_Zopp s (Zpos m)) * (if (0 <=? e)%Z then IZR (2 ^ e) else / IZR (2 ^ (- e))))%R
  | _ => 0%R
  end.
Lemma B2ER_SF (x : f32) : is_finite x = true -> B2ER x = Fin (sf_R (B2SF x)).
Proof.
  intros F. rewrite (B2ER_fin x F). f_equal. destruct x as [s|[]| |s m e H]; try discriminate; simpl; auto.
  unfold F2R. simpl. f_equal. unfold bpow. destruct e as [|p|p]; simpl; auto.
Qed.

Ltac sf_compute := match goal with |- context [sf_R (B2SF ?x)] =>
  let v := eval vm_compute in (B2SF x) in
  let H := fresh in assert (H : B2SF x = v) by (vm_compute; reflexivity); rewrite H; clear H; cbv [sf_R cond_Zopp Z.leb Z.compare Z.opp Z.pow Z.pow_pos Pos.iter Z.mul Pos.mul] end.

#[global] Instance Ord_F32 (L : Libm) : Ord (F32 L).
Proof.
  refine (Build_Ord f32 (F32 L) B2ER Bltb_ER Bleb_ER Beqb_ER isnan_ER isinf_ER isfin_ER Bopp_ER Babs_ER eq_refl eq_refl _ _ _ _ _).
  - reflexivity.
  - rewrite B2ER_SF by reflexivity. f_equal. sf_compute. lra.
  - rewrite B2ER_SF by reflexivity. f_equal. sf_compute. lra.
  - rewrite B2ER_SF by reflexivity. eexists. split; [reflexivity|]. sf_compute. lra.
  - rewrite B2ER_SF by reflexivity. eexists. split; [reflexivity|]. sf_compute. lra.
Defined.

(** ** Working with keys *)
Section Keys.
  Context {T : Type} {N : Num T} {O : Ord N}.
  Implicit Types x y z : T.
  Local Open Scope R_scope.

  Lemma lt_irrefl x : n_lt x x = false.
  Proof. rewrite key_lt. destruct (key x); simpl; auto. destruct (Rlt_dec r r); auto; lra. Qed.
  Lemma lt_asym x y : n_lt x y = true -> n_lt y x = false.
  Proof.
    rewrite !key_lt. destruct (key x), (key y); simpl; try congruence.
    destruct (Rlt_dec r r0), (Rlt_dec r0 r); try congruence; lra.
  Qed.
  Lemma lt_trans x y z : n_lt x y = true -> n_lt y z = true -> n_lt x z = true.
  Proof.
    rewrite !key_lt. destruct (key x), (key y), (key z); simpl; try congruence.
    destruct (Rlt_dec r r0), (Rlt_dec r0 r1), (Rlt_dec r r1); try congruence; lra.
  Qed.
  Lemma le_refl x : n_isnan x = false -> n_le x x = true.
  Proof. rewrite key_isnan, key_le. destruct (key x); simpl; try congruence. destruct (Rle_dec r r); auto; lra. Qed.
  Lemma le_trans x y z : n_le x y = true -> n_le y z = true -> n_le x z = true.
  Proof.
    rewrite !key_le. destruct (key x), (key y), (key z); simpl; try congruence.
    destruct (Rle_dec r r0), (Rle_dec r0 r1), (Rle_dec r r1); try congruence; lra.
  Qed.
  Lemma lt_le x y : n_lt x y = true -> n_le x y = true.
  Proof.
    rewrite key_lt, key_le. destruct (key x), (key y); simpl; try congruence.
    destruct (Rlt_dec r r0), (Rle_dec r r0); try congruence; lra.
  Qed.
  Lemma not_lt_le x y : n_isnan x = false -> n_isnan y = false -> n_lt x y = false -> n_le y x = true.
  Proof.
    rewrite !key_isnan, key_lt, key_le. destruct (key x), (key y); simpl; try congruence.
    destruct (Rlt_dec r r0), (Rle_dec r0 r); try congruence; lra.
  Qed.
  Lemma le_not_lt x y : n_le x y = true -> n_lt y x = false.
  Proof.
    rewrite key_lt, key_le. destruct (key x), (key y); simpl; try congruence.
    destruct (Rlt_dec r0 r), (Rle_dec r r0); try congruence; lra.
  Qed.
  Lemma le_nan_l x y : n_le x y = true -> n_isnan x = false.
  Proof. rewrite key_le, key_isnan. destruct (key x), (key y); simpl; congruence. Qed.
  Lemma le_nan_r x y : n_le x y = true -> n_isnan y = false.
  Proof. rewrite key_le, key_isnan. destruct (key x), (key y); simpl; congruence. Qed.
  Lemma lt_nan_l x y : n_lt x y = true -> n_isnan x = false.
  Proof. rewrite key_lt, key_isnan. destruct (key x), (key y); simpl; congruence. Qed.
  Lemma lt_nan_r x y : n_lt x y = true -> n_isnan y = false.
  Proof. rewrite key_lt, key_isnan. destruct (key x), (key y); simpl; congruence. Qed.
  Lemma le_lt_trans x y z : n_le x y = true -> n_lt y z = true -> n_lt x z = true.
  Proof.
    rewrite !key_lt, key_le. destruct (key x), (key y), (key z); simpl; try congruence.
    destruct (Rle_dec r r0), (Rlt_dec r0 r1), (Rlt_dec r r1); try congruence; lra.
  Qed.
  Lemma lt_le_trans x y z : n_lt x y = true -> n_le y z = true -> n_lt x z = true.
  Proof.
    rewrite !key_lt, key_le. destruct (key x), (key y), (key z); simpl; try congruence.
    destruct (Rlt_dec r r0), (Rle_dec r0 r1), (Rlt_dec r r1); try congruence; lra.
  Qed.
  Lemma nan_isnan : n_isnan n_nan = true.
  Proof. now rewrite key_isnan, key_nan. Qed.
  Lemma n0_notnan : n_isnan n0 = false.
  Proof. now rewrite key_isnan, key_0. Qed.
  Lemma n1_notnan : n_isnan n1 = false.
  Proof. now rewrite key_isnan, key_1. Qed.
  Lemma lt_0_1 : n_lt n0 n1 = true.
  Proof. rewrite key_lt, key_0, key_1. simpl. destruct (Rlt_dec 0 1); auto; lra. Qed.
  Lemma lt_nan_x y : n_lt n_nan y = false.
  Proof. rewrite key_lt, key_nan. reflexivity. Qed.
  Lemma isfin_notnan x : n_isfin x = true -> n_isnan x = false.
  Proof. rewrite key_isfin, key_isnan. destruct (key x); simpl; congruence. Qed.
End Keys.
