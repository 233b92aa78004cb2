(** * TurnSpec: rotations in binary32 (C87).

    Small independent definitions; nothing here is part of the model. *)
From Coq Require Import Reals List Bool.
Import ListNotations.
From Verif Require Import Num Vec Res Arena Orient EntityM SystemM OrderP Spec.
Local Open Scope R_scope.

(** The quaternion [q] of binary32 numbers is finite; its exact value is [r]. *)
Definition is_quat (q : Quat f32) (r : Quat R) : Prop :=
  B2ER (qi q) = Fin (qi r) /\ B2ER (qj q) = Fin (qj r) /\ B2ER (qk q) = Fin (qk r) /\ B2ER (qw q) = Fin (qw r).
(** The square of the length of a quaternion; 1 for rotations. *)
Definition square (r : Quat R) : R := qi r * qi r + qj r * qj r + qk r * qk r + qw r * qw r.
(** Sine and cosine of finite numbers are finite, and their squares add up to 1, give or take [delta]; the cosine of anything else is NaN. *)
Definition libm_ok (L : Libm) (delta : R) : Prop :=
  (forall x r, B2ER x = Fin r -> exists a b, B2ER (l_sin L x) = Fin a /\ B2ER (l_cos L x) = Fin b /\ Rabs (a * a + b * b - 1) <= delta) /\
  (forall x, (forall r, B2ER x <> Fin r) -> B2ER (l_cos L x) = ENaN).
(** How often entities were turned: in every step once for every collision, and once more. *)
Fixpoint pieces {T} {N : Num T} (hist : list (call T)) (s : system T) : nat :=
  match hist with
  | [] => 0
  | (ord, o) :: rest =>
    match exec ord s o with
    | Ok (s', _) => (match o with OStep _ => S (length (s_records s')) | _ => 0 end) + pieces rest s'
    | _ => 0
    end
  end.
