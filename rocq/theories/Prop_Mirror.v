(** * The world seen in mirrors across the axes: C90.

    The words used here are in MirrorSpec.v and MoveSpec.v. *)
From Coq Require Import ZArith Reals List Bool.
Import ListNotations.
From Verif Require Import Num Vec Res Arena RangeM Orient Colliders Collide EntityM SystemM Spec RealSpec Examples TwoEx MoveSpec MoveEx MirrorSpec MirrorP Mirror3P MirrorEx.
Local Open Scope R_scope.

(** ** C90 The world looks right in a mirror *)
(** Any of the three axes may be turned round: [a] is a mirror, a half turn, or all three.  The same calls made in the mirror return what
    the mirror shows of the answers, panic when the others panic, and leave what the mirror shows of the system.  Missing: boxes, and
    meshes when one axis or all three are turned round; see the two refutations below. *)
Theorem C90_history_partial : forall a hist, Forall call_ok hist -> Forall (fun c => even_op a (snd c)) hist ->
  run (map (mirror_call a) hist) system_new = returned (fun r => (mirror_system a (fst r), map (mirror_answer a) (snd r))) (run hist system_new).
Proof. exact mirror_history. Qed.
Print Assumptions C90_history_partial.
(** What there is to be seen after the calls: entities, colliders and the records of the last step. *)
Theorem C90_seen_partial : forall a hist s ans, Forall call_ok hist -> Forall (fun c => even_op a (snd c)) hist -> run hist system_new = Ok (s, ans) ->
  exists s', run (map (mirror_call a) hist) system_new = Ok (s', map (mirror_answer a) ans) /\
    (forall h, get_entity s' h = option_map (mirror_entity a) (get_entity s h)) /\ (forall h, get_collider s' h = option_map (mirror_collider a) (get_collider s h)) /\
    s_records s' = map (mirror_record a) (s_records s).
Proof. exact mirror_seen. Qed.
Print Assumptions C90_seen_partial.
(** One step, from any state such calls lead to. *)
Theorem C90_step_partial : forall a ord hist s ans dt, Forall call_ok hist -> Forall (fun c => even_op a (snd c)) hist -> run hist system_new = Ok (s, ans) ->
  step ord (mirror_system a s) dt = returned (mirror_system a) (step ord s dt).
Proof. exact mirror_step. Qed.
Print Assumptions C90_step_partial.
(** One test of two colliders, however they are placed and turned. *)
Theorem C90_collide_partial : forall a c1 s1 e1 c2 s2 e2, even_shape a c1 -> even_shape a c2 ->
  collide (mirror_collider a c1) (mirror_o a s1) (mirror_o a e1) (mirror_collider a c2) (mirror_o a s2) (mirror_o a e2) = returned (option_map (mirror_collision a)) (collide c1 s1 e1 c2 s2 e2).
Proof. exact collide_mirror. Qed.
Print Assumptions C90_collide_partial.
(** Two pucks that meet at (2, 0, 0) one second into a step; in the mirror they meet at (-2, 0, 0), at the same time, and the normal points the other way. *)
Example C90_example : exists s s' ans r r', Forall call_ok table_calls /\ Forall (fun c => even_op looking (snd c)) table_calls /\
  run table_calls system_new = Ok (s, ans) /\ s_records s = [r] /\ cr_pos r = vfin (mkV 2 0 0) /\ cr_normal r = vfin (mkV 1 0 0) /\
  run (map (mirror_call looking) table_calls) system_new = Ok (s', map (mirror_answer looking) ans) /\ s_records s' = [r'] /\
  cr_time r' = Fin 1 /\ cr_pos r' = vfin (mkV (-2) 0 0) /\ cr_normal r' = vfin (mkV (-1) 0 0).
Proof. exact table_mirrored. Qed.
(** False with boxes.  A ball is in the middle of a box that is its own image in every mirror.  When the ball moves along the first axis
    the step records a collision; when it moves the other way it records none. *)
Theorem C90_boxes_refuted : forall (L : Libm) (N := F32 L), Forall call_ok (hist_middle L (vec 1 0 0)) /\ Forall call_ok (hist_middle L (vec (-1) 0 0)) /\
  exists s a t b, run (hist_middle L (vec 1 0 0)) system_new = Ok (s, a) /\ run (hist_middle L (vec (-1) 0 0)) system_new = Ok (t, b) /\
    length (s_records s) = 1%nat /\ length (s_records t) = 0%nat.
Proof. intros L N. exact (conj (hist_middle_ok L _) (conj (hist_middle_ok L _) (middle_differs L))). Qed.
Print Assumptions C90_boxes_refuted.
(** False with meshes.  Two triangles lie in the plane of the first two axes and stay in it, so a mirror across the third axis shows the
    same two triangles.  The normal reported points out of that plane, so the mirror shows another normal. *)
Theorem C90_meshes_refuted : forall (L : Libm) (N := F32 L), exists k,
  collide (flat L) (lying L (-6) 0) (lying L 0 0) (flat L) (lying L 1 (-1)) (lying L 1 (-1)) = Ok (Some k) /\ n_lt (n_frac 1 2) (vz (c_normal k)) = true.
Proof. exact flat_leaves. Qed.
Print Assumptions C90_meshes_refuted.
