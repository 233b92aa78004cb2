(** * Num: the scalar operations the crate uses, and the two instances we prove things about.

    The whole model is written once, over an abstract collection of scalar
    operations [Num T].  It is then used at two instances:

    - [F32 L]: IEEE-754 binary32, round to nearest even, NaN, infinities and
      signed zeros included (Flocq's [BinarySingleNaN]); this is Rust's [f32].
      [L : Libm] supplies [sin], [cos] and [atan2], about which nothing is
      assumed: theorems at this instance hold for every [L].
    - [EReal]: exact real arithmetic extended with +oo, -oo and NaN (no
      rounding, no overflow, one zero).  This is the "ideal arithmetic"
      reading of the same code, used for the physical laws. *)

From Coq Require Import ZArith Reals Bool Lra.
From Flocq Require Import IEEE754.BinarySingleNaN.

(** Rust [f32] primitive operations used anywhere in /repo/src.  The
    comparisons are the IEEE ones: false as soon as one side is NaN. *)
Class Num (T : Type) : Type := {
  n_add : T -> T -> T;              (* a + b *)
  n_sub : T -> T -> T;              (* a - b *)
  n_mul : T -> T -> T;              (* a * b *)
  n_div : T -> T -> T;              (* a / b *)
  n_neg : T -> T;                   (* -a *)
  n_abs : T -> T;                   (* f32::abs *)
  n_sqrt : T -> T;                  (* f32::sqrt *)
  n_lt : T -> T -> bool;            (* a < b *)
  n_le : T -> T -> bool;            (* a <= b *)
  n_eq : T -> T -> bool;            (* a == b *)
  n_isnan : T -> bool;              (* f32::is_nan *)
  n_isinf : T -> bool;              (* f32::is_infinite *)
  n_isfin : T -> bool;              (* f32::is_finite *)
  n_signum : T -> T;                (* f32::signum: 1 for +0, -1 for -0, NaN for NaN *)
  n_frac : Z -> positive -> T;      (* the literal p/q, correctly rounded *)
  n_inf : T;                        (* std::f32::INFINITY *)
  n_nan : T;                        (* std::f32::NAN *)
  n_sin : T -> T;                   (* f32::sin *)
  n_cos : T -> T;                   (* f32::cos *)
  n_atan2 : T -> T -> T             (* y.atan2(x) *)
}.

Arguments n_frac {T Num} _%Z _%positive.

Declare Scope num_scope.
Delimit Scope num_scope with num.
Infix "+" := n_add : num_scope.
Infix "-" := n_sub : num_scope.
Infix "*" := n_mul : num_scope.
Infix "/" := n_div : num_scope.
Notation "- x" := (n_neg x) : num_scope.
Infix "<?" := n_lt : num_scope.
Infix "<=?" := n_le : num_scope.
Infix "=?" := n_eq : num_scope.

Section Consts.
  Context {T : Type} {N : Num T}.
  Definition n0 : T := n_frac 0 1.
  Definition n1 : T := n_frac 1 1.
  Definition n2 : T := n_frac 2 1.
  Definition n4 : T := n_frac 4 1.
  Definition n5 : T := n_frac 5 1.
  Definition n12 : T := n_frac 12 1.
  Definition nhalf : T := n_frac 1 2.
  Definition nm1 : T := n_neg n1.

  (** consts.rs:3 [pub const EPSILON : f32 = 1e-6;] *)
  Definition EPSILON : T := n_frac 1 1000000.

  (** [f32::EPSILON] = 2^-23, used inside nalgebra's quaternion exponential. *)
  Definition MACHINE_EPSILON : T := n_frac 1 8388608.

  Definition n_neginf : T := n_neg n_inf.

  (** types.rs:20-22 [pub fn min] *)
  Definition ty_min (val1 val2 : T) : T := if n_lt val1 val2 then val1 else val2.
  (** types.rs:25-27 [pub fn max] *)
  Definition ty_max (val1 val2 : T) : T := if n_lt val2 val1 then val1 else val2.
End Consts.

(** ** Instance 1: IEEE binary32 *)

Definition f32 : Set := binary_float 24 128.

Lemma f32_prec_gt_0 : FLX.Prec_gt_0 24.
Proof. reflexivity. Qed.
Lemma f32_prec_lt_emax : Prec_lt_emax 24 128.
Proof. reflexivity. Qed.
#[global] Existing Instance f32_prec_gt_0.
#[global] Existing Instance f32_prec_lt_emax.

(** The libm functions: arbitrary, no property assumed. *)
Record Libm := { l_sin : f32 -> f32; l_cos : f32 -> f32; l_atan2 : f32 -> f32 -> f32 }.

Definition f32_of_Z (z : Z) : f32 := binary_normalize 24 128 _ _ mode_NE z 0 false.
Definition f32_one : f32 := f32_of_Z 1.
Definition f32_isinf (x : f32) : bool := match x with B754_infinity _ => true | _ => false end.
Definition f32_signum (x : f32) : f32 :=
  if is_nan x then B754_nan else if Bsign x then Bopp f32_one else f32_one.
(** Correctly rounded p/q for p, q exactly representable (all literals of the
    crate, e.g. 1e-6 = 1/1000000, are of this form). *)
Definition f32_frac (p : Z) (q : positive) : f32 := Bdiv mode_NE (f32_of_Z p) (f32_of_Z (Zpos q)).

#[global] Instance F32 (L : Libm) : Num f32 := {|
  n_add := Bplus mode_NE;
  n_sub := Bminus mode_NE;
  n_mul := Bmult mode_NE;
  n_div := Bdiv mode_NE;
  n_neg := fun x => Bopp x;
  n_abs := fun x => Babs x;
  n_sqrt := Bsqrt mode_NE;
  n_lt := fun x y => Bltb x y;
  n_le := fun x y => Bleb x y;
  n_eq := fun x y => Beqb x y;
  n_isnan := fun x => is_nan x;
  n_isinf := f32_isinf;
  n_isfin := fun x => is_finite x;
  n_signum := f32_signum;
  n_frac := f32_frac;
  n_inf := B754_infinity false;
  n_nan := B754_nan;
  n_sin := l_sin L;
  n_cos := l_cos L;
  n_atan2 := l_atan2 L
|}.

(** ** Instance 2: extended reals *)

Inductive ER : Set := Fin (r : R) | PInf | NInf | ENaN.

Definition er_isnan (x : ER) : bool := match x with ENaN => true | _ => false end.
Definition er_isinf (x : ER) : bool := match x with PInf | NInf => true | _ => false end.
Definition er_isfin (x : ER) : bool := match x with Fin _ => true | _ => false end.

Definition er_neg (x : ER) : ER :=
  match x with Fin a => Fin (- a) | PInf => NInf | NInf => PInf | ENaN => ENaN end.
Definition er_abs (x : ER) : ER :=
  match x with Fin a => Fin (Rabs a) | PInf | NInf => PInf | ENaN => ENaN end.
Definition er_add (x y : ER) : ER :=
  match x, y with
  | ENaN, _ | _, ENaN => ENaN
  | Fin a, Fin b => Fin (a + b)
  | PInf, NInf | NInf, PInf => ENaN
  | PInf, _ | _, PInf => PInf
  | NInf, _ | _, NInf => NInf
  end.
Definition er_sub (x y : ER) : ER :=
  match x, y with Fin a, Fin b => Fin (a - b) | _, _ => er_add x (er_neg y) end.
(** [er_inf_times a]: +oo times the finite [a]. *)
Definition er_inf_times (a : R) : ER :=
  if Req_EM_T a 0 then ENaN else if Rlt_dec 0 a then PInf else NInf.
Definition er_mul (x y : ER) : ER :=
  match x, y with
  | ENaN, _ | _, ENaN => ENaN
  | Fin a, Fin b => Fin (a * b)
  | PInf, Fin b => er_inf_times b
  | NInf, Fin b => er_neg (er_inf_times b)
  | Fin a, PInf => er_inf_times a
  | Fin a, NInf => er_neg (er_inf_times a)
  | PInf, PInf | NInf, NInf => PInf
  | PInf, NInf | NInf, PInf => NInf
  end.
(** Division.  SIMPLIFICATION: there is one zero, treated as +0, so a/0 is
    +oo, -oo or NaN by the sign of a (IEEE also looks at the sign of the zero). *)
Definition er_div (x y : ER) : ER :=
  match x, y with
  | ENaN, _ | _, ENaN => ENaN
  | Fin a, Fin b => if Req_EM_T b 0 then er_inf_times a else Fin (a / b)
  | Fin _, (PInf | NInf) => Fin 0
  | PInf, Fin b => if Rlt_dec b 0 then NInf else PInf
  | NInf, Fin b => if Rlt_dec b 0 then PInf else NInf
  | (PInf | NInf), (PInf | NInf) => ENaN
  end.
Definition er_sqrt (x : ER) : ER :=
  match x with
  | Fin a => if Rlt_dec a 0 then ENaN else Fin (sqrt a)
  | PInf => PInf
  | NInf | ENaN => ENaN
  end.
Definition er_lt (x y : ER) : bool :=
  match x, y with
  | ENaN, _ | _, ENaN => false
  | Fin a, Fin b => if Rlt_dec a b then true else false
  | NInf, (Fin _ | PInf) => true
  | Fin _, PInf => true
  | _, _ => false
  end.
Definition er_le (x y : ER) : bool :=
  match x, y with
  | ENaN, _ | _, ENaN => false
  | Fin a, Fin b => if Rle_dec a b then true else false
  | NInf, _ => true
  | _, PInf => true
  | _, _ => false
  end.
Definition er_eq (x y : ER) : bool :=
  match x, y with
  | Fin a, Fin b => if Req_EM_T a b then true else false
  | PInf, PInf | NInf, NInf => true
  | _, _ => false
  end.
Definition er_signum (x : ER) : ER :=
  match x with
  | Fin a => if Rlt_dec a 0 then Fin (-1) else Fin 1
  | PInf => Fin 1
  | NInf => Fin (-1)
  | ENaN => ENaN
  end.
(** sin, cos and atan2 of the ideal arithmetic; a non-finite argument gives
    NaN (as [f32::sin] does; atan2 of an infinity is simplified to NaN). *)
Definition er_sin (x : ER) : ER := match x with Fin a => Fin (sin a) | _ => ENaN end.
Definition er_cos (x : ER) : ER := match x with Fin a => Fin (cos a) | _ => ENaN end.
(** The angle of the point (x, y), in (-PI, PI]. *)
Definition Ratan2 (y x : R) : R :=
  if Rlt_dec 0 x then atan (y / x)
  else if Rlt_dec x 0 then (if Rle_dec 0 y then atan (y / x) + PI else atan (y / x) - PI)
  else if Rlt_dec 0 y then PI / 2
  else if Rlt_dec y 0 then - (PI / 2)
  else 0.
Definition er_atan2 (y x : ER) : ER :=
  match y, x with Fin a, Fin b => Fin (Ratan2 a b) | _, _ => ENaN end.

#[global] Instance EReal : Num ER := {|
  n_add := er_add;
  n_sub := er_sub;
  n_mul := er_mul;
  n_div := er_div;
  n_neg := er_neg;
  n_abs := er_abs;
  n_sqrt := er_sqrt;
  n_lt := er_lt;
  n_le := er_le;
  n_eq := er_eq;
  n_isnan := er_isnan;
  n_isinf := er_isinf;
  n_isfin := er_isfin;
  n_signum := er_signum;
  n_frac := fun p q => Fin (IZR p / IZR (Zpos q));
  n_inf := PInf;
  n_nan := ENaN;
  n_sin := er_sin;
  n_cos := er_cos;
  n_atan2 := er_atan2
|}.
