(** * FlightSpec: bodies in free flight over many steps (C80).

    Small independent definitions; nothing here is part of the model. *)
From Coq Require Import Reals List Bool.
Import ListNotations.
From Verif Require Import Num Vec Res Arena Orient Colliders Collide EntityM SystemM OrderP Spec RealSpec PhysSpec.
Local Open Scope R_scope.

(** The steps [l] lead from [s] to [s'].  Before each of them the entity [h] is awake, none of them reports a collision of [h],
    none of them is too short to be done, and none of them runs out of iterations. *)
Inductive undisturbed (h : handle) : system ER -> list (set_order * R) -> system ER -> Prop :=
| un_none s : undisturbed h s [] s
| un_step s ord d s1 l s' : good_order ord -> 1 / 1000000 <= Rabs d -> step ord s (Fin d) = Ok s1 ->
    (exists e, get_entity s h = Some e /\ pe_asleep e = false) ->
    ~ named (s_records s1) h -> length (s_records s1) <> s_iteration_max s ->
    undisturbed h s1 l s' -> undisturbed h s ((ord, d) :: l) s'.
(** The time the steps take together, and the sum of the squares of their lengths. *)
Definition total_time (l : list (set_order * R)) : R := rsum (map (fun x => snd x) l).
Definition total_square (l : list (set_order * R)) : R := rsum (map (fun x => snd x * snd x) l).
(** Where a body is after the time [t] of constant acceleration [g]. *)
Definition parabola (p v g : V) (t : R) : V := vadd (vadd p (vscale v t)) (vscale g (t * t / 2)).
(** Energy per unit of mass in a uniform field [g]. *)
Definition fall_energy (p v g : V) : R := vdot v v / 2 - vdot g p.
