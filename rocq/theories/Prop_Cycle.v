(** * No axis is special: C91.

    The words used here are in CycleSpec.v and MoveSpec.v. *)
From Coq Require Import ZArith Reals List Bool.
Import ListNotations.
From Verif Require Import Num Vec Res Arena RangeM Orient Colliders Collide EntityM SystemM Spec RealSpec Examples TwoEx MoveSpec MoveEx CycleSpec CycleP Cycle3P CycleEx.
Local Open Scope R_scope.

(** ** C91 No axis is special *)
(** The first axis takes the place of the second, the second that of the third, the third that of the first.  The same calls made so return
    the same answers with the axes exchanged, panic when the others panic, and leave the same system with the axes exchanged.  Missing:
    boxes, see the refutation below; force generators other than gravity; steps made while a tensor of inertia is not finite. *)
Theorem C91_history_partial : forall hist, Forall call_ok hist -> Forall (fun c => boxless_op (snd c)) hist -> weighed_at_steps hist ->
  run (map around_call hist) system_new = returned (fun r => (around_system (fst r), map around_answer (snd r))) (run hist system_new).
Proof. exact around_history. Qed.
Print Assumptions C91_history_partial.
(** What there is to be seen after the calls: entities, colliders and the records of the last step. *)
Theorem C91_seen_partial : forall hist s ans, Forall call_ok hist -> Forall (fun c => boxless_op (snd c)) hist -> weighed_at_steps hist -> run hist system_new = Ok (s, ans) ->
  exists s', run (map around_call hist) system_new = Ok (s', map around_answer ans) /\
    (forall h, get_entity s' h = option_map around_entity (get_entity s h)) /\ (forall h, get_collider s' h = option_map around_collider (get_collider s h)) /\
    s_records s' = map around_record (s_records s).
Proof. exact around_seen. Qed.
Print Assumptions C91_seen_partial.
(** One step, from any state such calls lead to. *)
Theorem C91_step_partial : forall ord hist s ans dt, Forall call_ok hist -> Forall (fun c => boxless_op (snd c)) hist -> run hist system_new = Ok (s, ans) -> weighed s ->
  step ord (around_system s) dt = returned around_system (step ord s dt).
Proof. exact around_step. Qed.
Print Assumptions C91_step_partial.
(** One test of two colliders, however they are placed and turned. *)
Theorem C91_collide_partial : forall c1 s1 e1 c2 s2 e2, no_box c1 -> no_box c2 ->
  collide (around_collider c1) (around_o s1) (around_o e1) (around_collider c2) (around_o s2) (around_o e2) = returned (option_map around_collision) (collide c1 s1 e1 c2 s2 e2).
Proof. exact collide_around. Qed.
Print Assumptions C91_collide_partial.
(** Two pucks that meet at (2, 0, 0) one second into a step; with the axes exchanged they meet at (0, 2, 0), at the same time, and the normal points along the second axis. *)
Example C91_example : exists s s' ans r r', Forall call_ok table_calls /\ Forall (fun c => boxless_op (snd c)) table_calls /\ weighed_at_steps table_calls /\
  run table_calls system_new = Ok (s, ans) /\ s_records s = [r] /\ cr_pos r = vfin (mkV 2 0 0) /\ cr_normal r = vfin (mkV 1 0 0) /\
  run (map around_call table_calls) system_new = Ok (s', map around_answer ans) /\ s_records s' = [r'] /\
  cr_time r' = Fin 1 /\ cr_pos r' = vfin (mkV 0 2 0) /\ cr_normal r' = vfin (mkV 0 1 0).
Proof. exact table_around. Qed.
(** False with boxes.  A ball is inside a cube, as far out along the second axis as along the third, and the normal reported is along the
    second.  With the axes exchanged it is as far out along the third as along the first; the normal is not along the third, where the
    exchange takes it, but along the first. *)
Theorem C91_boxes_refuted : forall (L : Libm) (N := F32 L), exists k k', tie L 0 1 1 = Ok (Some k) /\ tie L 1 0 1 = Ok (Some k') /\
  n_lt (vy (c_normal k)) (n_frac (-1) 2) = true /\ n_eq (vz (c_normal k')) n0 = true.
Proof. exact cube_prefers. Qed.
Print Assumptions C91_boxes_refuted.
(** False in binary32 even without colliders: sums are rounded in the order of the axes.  The same entity with its velocity along other axes
    has another energy; one falls asleep and the other does not. *)
Theorem C91_rounding_refuted : forall (L : Libm) (N := F32 L), Forall call_ok (hist_fast L (vec 1 4096 1)) /\ Forall call_ok (hist_fast L (vec 1 1 4096)) /\
  (exists s a e, run (hist_fast L (vec 1 4096 1)) system_new = Ok (s, a) /\ get_entity s (hd 0) = Some e /\ pe_asleep e = true) /\
  (exists s a e, run (hist_fast L (vec 1 1 4096)) system_new = Ok (s, a) /\ get_entity s (hd 0) = Some e /\ pe_asleep e = false).
Proof. intros L N. exact (conj (hist_fast_ok L _) (conj (hist_fast_ok L _) (fast_differs L))). Qed.
Print Assumptions C91_rounding_refuted.
