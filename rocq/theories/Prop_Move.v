(** * The world moved as a whole: C88, in exact arithmetic.

    The words used here are in MoveSpec.v. *)
From Coq Require Import Reals List Bool.
Import ListNotations.
From Verif Require Import Num Vec Res Arena RangeM Orient Colliders Collide EntityM SystemM Spec RealSpec PhysSpec TwoEx MoveSpec Move2P Move3P Move4P MoveEx.
Local Open Scope R_scope.

(** ** C88 The world has no special place *)
(** Whatever calls are made: the same calls with every entity placed [d] further return the same answers, panic when the others panic,
    and leave the same system moved by [d] (the records of the last step included). *)
Theorem C88_history : forall d hist, Forall call_ok hist -> Forall (fun c => plain_op (snd c)) hist ->
  run (map (move_call d) hist) system_new = returned (fun r => (move_system d (fst r), snd r)) (run hist system_new).
Proof. exact moved_history. Qed.
Print Assumptions C88_history.
(** So every entity is seen [d] further, and is otherwise the same. *)
Theorem C88_seen : forall d hist s ans, Forall call_ok hist -> Forall (fun c => plain_op (snd c)) hist -> run hist system_new = Ok (s, ans) ->
  exists s', run (map (move_call d) hist) system_new = Ok (s', ans) /\
    (forall h, get_entity s' h = option_map (move_entity d) (get_entity s h)) /\ (forall h, get_collider s' h = get_collider s h).
Proof. exact moved_seen. Qed.
Print Assumptions C88_seen.
(** One step, from any state such calls lead to. *)
Theorem C88_step : forall d ord hist s ans dt, Forall call_ok hist -> Forall (fun c => plain_op (snd c)) hist -> run hist system_new = Ok (s, ans) ->
  step ord (move_system d s) dt = returned (move_system d) (step ord s dt).
Proof. exact moved_step. Qed.
Print Assumptions C88_step.
(** One test of two colliders of any kinds: the same times and normal, the point [d] further. *)
Theorem C88_collide : forall d c1 s1 e1 c2 s2 e2, solid c1 -> solid c2 ->
  unit_or_lost (o_rot s1) -> unit_or_lost (o_rot e1) -> unit_or_lost (o_rot s2) -> unit_or_lost (o_rot e2) ->
  collide c1 (move_o d s1) (move_o d e1) c2 (move_o d s2) (move_o d e2) = returned (option_map (move_collision d)) (collide c1 s1 e1 c2 s2 e2).
Proof. exact collide_move. Qed.
Print Assumptions C88_collide.
(** Two pucks that meet at (2, 0, 0) one second into a step of two; (5, -7, 11) further they meet at (7, -7, 11), at the same time. *)
Example C88_example : exists s s' ans r r', Forall call_ok table_calls /\ Forall (fun c => plain_op (snd c)) table_calls /\
  run table_calls system_new = Ok (s, ans) /\ s_records s = [r] /\ cr_pos r = vfin (mkV 2 0 0) /\
  run (map (move_call away) table_calls) system_new = Ok (s', ans) /\ s_records s' = [r'] /\
  cr_time r' = Fin 1 /\ cr_pos r' = vfin (mkV 7 (-7) 11) /\ cr_normal r' = vfin (mkV 1 0 0).
Proof. exact table_moved. Qed.
