(** * RoundSpec: coasting in binary32 (C85).

    Small independent definitions; nothing here is part of the model. *)
From Coq Require Import Reals List Bool.
Import ListNotations.
From Verif Require Import Num Vec Res Arena EntityM SystemM OrderP Spec.
Local Open Scope R_scope.

(** The vector [v] of binary32 numbers is finite; its exact value is [r]. *)
Definition is_vec (v : Vec3 f32) (r : Vec3 R) : Prop := B2ER (vx v) = Fin (vx r) /\ B2ER (vy v) = Fin (vy r) /\ B2ER (vz v) = Fin (vz r).
(** The steps, of the lengths [l], lead from [s] to [s'] without any collision; before each of them the entity [h] is awake, and after
    each of them it is still within the distance [B] of the origin, along every axis. *)
Inductive coasts {L : Libm} (h : handle) (B : R) : system f32 -> list R -> system f32 -> Prop :=
| co_none s : coasts h B s [] s
| co_step s ord (dt : f32) d s1 l s' : good_order ord -> step (N := F32 L) ord s dt = Ok s1 -> n_lt (Num := F32 L) (n_abs (Num := F32 L) dt) (EPSILON (N := F32 L)) = false ->
    B2ER dt = Fin d -> s_records s1 = [] -> (exists e, get_entity (N := F32 L) s h = Some e /\ pe_asleep e = false) ->
    (exists e r, get_entity (N := F32 L) s1 h = Some e /\ is_vec (pe_pos e) r /\ Rabs (vx r) <= B /\ Rabs (vy r) <= B /\ Rabs (vz r) <= B) ->
    coasts h B s1 l s' -> coasts h B s (d :: l) s'.
(** Sums. *)
Definition sum (l : list R) : R := fold_right Rplus 0 l.
(** How far rounding may take a coordinate away from [x + v * sum l]. *)
Definition drift (B v : R) (l : list R) : R :=
  powerRZ 2 (-24) * (INR (length l) * B + 3 * (Rabs v * sum (map Rabs l))) + INR (length l) * powerRZ 2 (-148).
