(** * Properties of the course of a step: C15 and C62. *)
From Coq Require Import ZArith Reals List Bool Sorting.Sorted.
From Flocq Require Import IEEE754.BinarySingleNaN.
Import ListNotations.
From Verif Require Import Num Vec Res Arena Orient Colliders Collide EntityM SystemM OrderP Spec PathSpec Examples
  ResP ArenaP ArithP RealSpec TimeP PathP.

(** ** C15 Collision records are ordered in time and lie within the step *)
(** Binary32: every state, every finite [dt] of at least EPSILON, rounding included. *)
Theorem C15_times : forall (L : Libm) ord (s : system f32) dt s', let N := F32 L in
  good_order ord -> step ord s dt = Ok s' -> is_finite dt = true -> n_le EPSILON dt = true ->
  StronglySorted (fun r1 r2 => n_le (cr_time r1) (cr_time r2) = true) (s_records s') /\
  Forall (fun r => n_le n0 (cr_time r) = true /\ n_le (cr_time r) dt = true) (s_records s').
Proof. intros L. exact (@step_times f32 (F32 L) _ _). Qed.
Print Assumptions C15_times.
Theorem C15_exact : forall ord (s : system ER) d s',
  good_order ord -> step ord s (Fin d) = Ok s' -> n_le EPSILON (Fin d) = true ->
  StronglySorted (fun r1 r2 => n_le (cr_time r1) (cr_time r2) = true) (s_records s') /\
  Forall (fun r => n_le n0 (cr_time r) = true /\ n_le (cr_time r) (Fin d) = true) (s_records s').
Proof. intros ord s d s' Ho H. exact (step_times ord s (Fin d) s' Ho H eq_refl). Qed.
Print Assumptions C15_exact.
(** A step of one second with three collisions, not all at the start. *)
Example C15_example : let N := F32 crude in
  ok_with (step in_order (slept_at 16) n1) (fun s => is_finite (n1 : f32) && n_le EPSILON n1 && Nat.eqb (length (s_records s)) 3 &&
    existsb (fun r => n_lt (n_frac 1 10) (cr_time r) && n_lt (cr_time r) n1) (s_records s)) = true.
Proof. vm_compute. reflexivity. Qed.

(** ** C62 Between collisions entities fly on straight *)
(** The path of an awake entity through a step: see PathSpec.  If the step stopped after [iteration_max] collisions, the
    entity stays where it was at the last one; otherwise it flies on to the end of the step. *)
Theorem C62_path : forall ord (s : system ER) d s' h e, good_order ord -> step ord s (Fin d) = Ok s' -> n_lt (n_abs (Fin d)) EPSILON = false ->
  aget (s_ents s) h = Some e -> e_asleep e = false ->
  exists fs o v w t e', forces_on s (Fin d) h fs /\
    path h (e_orient e) (pushed_vel (Fin d) fs e) (pushed_angvel (Fin d) fs e) (s_records s') o v w t /\
    aget (s_ents s') h = Some e' /\ e_vel e' = v /\ e_angvel e' = w /\
    e_orient e' = if Nat.eqb (length (s_records s')) (s_iteration_max s) then o else fly o v w (d - t).
Proof. exact step_path. Qed.
Print Assumptions C62_path.
(** So an entity that collides with nothing moves exactly as if the others' collisions had not happened. *)
Theorem C62_straight : forall ord (s : system ER) d s' h e p u, good_order ord -> step ord s (Fin d) = Ok s' -> n_lt (n_abs (Fin d)) EPSILON = false ->
  aget (s_ents s) h = Some e -> e_asleep e = false -> o_pos (e_orient e) = vfin p -> ~ named (s_records s') h ->
  (forall fs, forces_on s (Fin d) h fs -> pushed_vel (Fin d) fs e = vfin u) -> length (s_records s') <> s_iteration_max s ->
  exists e', aget (s_ents s') h = Some e' /\ e_vel e' = vfin u /\ o_pos (e_orient e') = vfin (vadd p (vscale u d)).
Proof. exact step_straight. Qed.
Print Assumptions C62_straight.
