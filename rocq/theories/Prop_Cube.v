(** * No direction of an axis is special: C92.

    The words used here are in CubeSpec.v, QuarterSpec.v, CycleSpec.v and MoveSpec.v. *)
From Coq Require Import ZArith Reals List Bool.
Import ListNotations.
From Verif Require Import Num Vec Res Arena RangeM Orient Colliders Collide EntityM SystemM Spec RealSpec Examples TwoEx MoveSpec MoveEx CycleSpec QuarterSpec CycleEx CubeSpec CubeP CubeEx.
Local Open Scope R_scope.

(** ** C92 The world may be turned onto any of its axes *)
(** Thirds of a turn about the diagonal and quarter turns about the third axis, any number of them in any order.  The same calls made turned
    return the same answers turned, panic when the others panic, and leave the same system turned.  Missing: boxes, see the refutation below;
    force generators other than gravity; steps made while a tensor of inertia is not finite. *)
Theorem C92_history_partial : forall ts hist, Forall call_ok hist -> Forall (fun c => boxless_op (snd c)) hist -> weighed_at_steps hist ->
  run (map (turns turn_call ts) hist) system_new = returned (fun r => (turns turn_system ts (fst r), map (turns turn_answer ts) (snd r))) (run hist system_new).
Proof. intros ts hist C P W. exact (proj2 (turned_all ts hist C P W)). Qed.
Print Assumptions C92_history_partial.
(** Those are all the rotations that take axes to axes: the first two axes can be taken to any two different axes, either way round. *)
Theorem C92_all_rotations : forall i j b c, (i < 3)%nat -> (j < 3)%nat -> i <> j -> exists ts,
  turns turn_v ts (vfin (axis_dir 0 false)) = vfin (axis_dir i b) /\ turns turn_v ts (vfin (axis_dir 1 false)) = vfin (axis_dir j c).
Proof. exact all_rotations. Qed.
Print Assumptions C92_all_rotations.
(** What there is to be seen after the calls: entities, colliders and the records of the last step. *)
Theorem C92_seen_partial : forall ts hist s ans, Forall call_ok hist -> Forall (fun c => boxless_op (snd c)) hist -> weighed_at_steps hist -> run hist system_new = Ok (s, ans) ->
  exists s', run (map (turns turn_call ts) hist) system_new = Ok (s', map (turns turn_answer ts) ans) /\
    (forall h, get_entity s' h = option_map (turns turn_entity ts) (get_entity s h)) /\ (forall h, get_collider s' h = option_map (turns turn_collider ts) (get_collider s h)) /\
    s_records s' = map (turns turn_record ts) (s_records s).
Proof. exact turned_seen. Qed.
Print Assumptions C92_seen_partial.
(** One step, from any state such calls lead to. *)
Theorem C92_step_partial : forall ts ord hist s ans dt, Forall call_ok hist -> Forall (fun c => boxless_op (snd c)) hist -> run hist system_new = Ok (s, ans) -> weighed s ->
  step ord (turns turn_system ts s) dt = returned (turns turn_system ts) (step ord s dt).
Proof. exact turned_step. Qed.
Print Assumptions C92_step_partial.
(** One test of two colliders, however they are placed and turned. *)
Theorem C92_collide_partial : forall ts c1 s1 e1 c2 s2 e2, no_box c1 -> no_box c2 ->
  collide (turns turn_collider ts c1) (turns turn_o ts s1) (turns turn_o ts e1) (turns turn_collider ts c2) (turns turn_o ts s2) (turns turn_o ts e2) =
    returned (option_map (turns turn_collision ts)) (collide c1 s1 e1 c2 s2 e2).
Proof. exact turned_collide. Qed.
Print Assumptions C92_collide_partial.
(** Meshes that can be built can still be built when turned, so the turned calls are calls a program can make. *)
Theorem C92_calls : forall t c, call_ok c -> call_ok (turn_call t c).
Proof. exact call_turned. Qed.
Print Assumptions C92_calls.
(** Two pucks that meet at (2, 0, 0) one second into a step; turned twice by a quarter and then about the diagonal they meet at (0, -2, 0), at the same time, and the normal points against the second axis. *)
Example C92_example : exists s s' ans r r', Forall call_ok table_calls /\ Forall (fun c => boxless_op (snd c)) table_calls /\ weighed_at_steps table_calls /\
  run table_calls system_new = Ok (s, ans) /\ s_records s = [r] /\ cr_pos r = vfin (mkV 2 0 0) /\ cr_normal r = vfin (mkV 1 0 0) /\
  run (map (turns turn_call [Around; Quarter; Quarter]) table_calls) system_new = Ok (s', map (turns turn_answer [Around; Quarter; Quarter]) ans) /\ s_records s' = [r'] /\
  cr_time r' = Fin 1 /\ cr_pos r' = vfin (mkV 0 (-2) 0) /\ cr_normal r' = vfin (mkV 0 (-1) 0).
Proof. exact table_turned. Qed.
(** False with boxes.  A ball is inside a cube, as far out along the first axis as along the second, and the normal reported is along the
    first.  A quarter turn takes the ball to the other side along the first axis; the normal reported is still along the first, where the
    quarter turn takes it along the second. *)
Theorem C92_boxes_refuted : forall (L : Libm) (N := F32 L), exists k k', tie L 1 1 0 = Ok (Some k) /\ tie L (-1) 1 0 = Ok (Some k') /\
  n_lt (vx (c_normal k)) (n_frac (-1) 2) = true /\ n_eq (vy (c_normal k')) n0 = true.
Proof. exact box_prefers. Qed.
Print Assumptions C92_boxes_refuted.
