(** * AlgebraSpec: what vectors, matrices, quaternions (C83) and the two arithmetics (C84) are measured against.

    Small independent definitions; nothing here is part of the model. *)
From Coq Require Import ZArith Reals List Bool.
From Flocq Require Import IEEE754.BinarySingleNaN.
From Verif Require Import Num Vec OrderP Spec RealSpec.
Local Open Scope R_scope.

(** The three axes. *)
Definition axis1 : V := mkV 1 0 0.
Definition axis2 : V := mkV 0 1 0.
Definition axis3 : V := mkV 0 0 1.

(** Functions of one and of two vectors that are linear. *)
Definition linear (f : V -> V) : Prop := (forall a b, f (vadd a b) = vadd (f a) (f b)) /\ forall a k, f (vscale a k) = vscale (f a) k.
Definition bilinear (f : V -> V -> V) : Prop := (forall a, linear (f a)) /\ forall b, linear (fun a => f a b).
Definition linear_form (f : V -> R) : Prop := (forall a b, f (vadd a b) = f a + f b) /\ forall a k, f (vscale a k) = f a * k.

(** The (signed) volume spanned by the images of the axes. *)
Definition volume (a : M) : R := vdot (vcross (mulmv a axis1) (mulmv a axis2)) (mulmv a axis3).

(** Quaternions as sums of a number and a vector. *)
Definition qplus (a b : Q) : Q := mkQ (qi a + qi b) (qj a + qj b) (qk a + qk b) (qw a + qw b).
Definition qtimes (a : Q) (k : R) : Q := mkQ (qi a * k) (qj a * k) (qk a * k) (qw a * k).
Definition number (x : R) : Q := mkQ 0 0 0 x.
Definition pure (v : V) : Q := mkQ (vx v) (vy v) (vz v) 0.

(** ** Binary32 against exact arithmetic *)
(** The largest binary32 number. *)
Definition largest : R := powerRZ 2 128 - powerRZ 2 104.
(** What binary32 may give where the exact result is the number [a]: a number with 24 good bits (or off by 2^-150 close to zero),
    or the infinity on its side when it is larger than all binary32 numbers. *)
Definition good_bits (a : R) (got : ER) : Prop :=
  (exists r, got = Fin r /\ Rabs (r - a) <= Rabs a * powerRZ 2 (-24) + powerRZ 2 (-150)) \/
  (largest < Rabs a /\ got = if Rlt_dec 0 a then PInf else NInf).
(** Infinities and NaN come out as they are. *)
Definition agrees (exact got : ER) : Prop := match exact with Fin a => good_bits a got | x => got = x end.
