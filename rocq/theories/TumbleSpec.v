(** * TumbleSpec: words for bodies that turn freely (C86).

    Small independent definitions; nothing here is part of the model. *)
From Coq Require Import Reals List.
Import ListNotations.
From Verif Require Import Num Vec Res Arena Orient EntityM SystemM OrderP Spec RealSpec PhysSpec.
Local Open Scope R_scope.

(** The steps [l], none shorter than a millionth, lead from [s] to [s'].  The entity [h] is awake at the start of each of them and in no collision, and
    the steps do not run out of iterations.  [n] counts the steps and the collisions of others in them: the pieces of the flight. *)
Inductive flights (h : handle) : system ER -> list (set_order * R) -> nat -> system ER -> Prop :=
| fl_none s : flights h s [] 0 s
| fl_step s ord d s1 l n s' : good_order ord -> 1 / 1000000 <= Rabs d -> step ord s (Fin d) = Ok s1 ->
    (exists e, get_entity s h = Some e /\ pe_asleep e = false) ->
    ~ named (s_records s1) h -> length (s_records s1) <> s_iteration_max s ->
    flights h s1 l n s' -> flights h s ((ord, d) :: l) (S (length (s_records s1)) + n) s'.
(** Where the vector [x] is after turning for the time [t] with the angular velocity [w] (Rodrigues). *)
Definition turn_about (w : V) (t : R) (x : V) : V :=
  let u := vscale w (/ vlen w) in let a := vlen w * t in
  vadd (vadd (vscale x (cos a)) (vscale (vcross u x) (sin a))) (vscale u (vdot u x * (1 - cos a))).
(** The angular momentum of the spin [w] of a body with orientation [o], whose tensor in its own directions is [i0]. *)
Definition spin_momentum (o : orientation R) (i0 : M) (w : V) : V := direction_into_world o (mulmv i0 (direction_into_local o w)).
