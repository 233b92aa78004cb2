(** * Properties of orientations: C41, C58, C59, C60.  Exact arithmetic.

    The operations of the model on finite real inputs are those over [R]
    ([vfin], [ofin] embed finite vectors and orientations). *)
From Coq Require Import ZArith Reals List Bool Lra.
From Verif Require Import Num Vec Orient RealSpec RealV OrientP Orient2P Geom6P MassEx CaseEx.
Local Open Scope R_scope.

(** ** C41 World and local coordinates are inverse rigid motions *)
Theorem C41_inverse : forall o x, unit_o o ->
  position_into_local (ofin o) (position_into_world (ofin o) (vfin x)) = vfin x /\
  position_into_world (ofin o) (position_into_local (ofin o) (vfin x)) = vfin x /\
  direction_into_local (ofin o) (direction_into_world (ofin o) (vfin x)) = vfin x /\
  direction_into_world (ofin o) (direction_into_local (ofin o) (vfin x)) = vfin x.
Proof.
  intros o x U. split; [|split; [|split]].
  - exact (f_equal vfin (local_world o x U)).
  - exact (f_equal vfin (world_local o x U)).
  - exact (f_equal vfin (direction_local_world o x U)).
  - exact (f_equal vfin (direction_world_local o x U)).
Qed.
Print Assumptions C41_inverse.

Theorem C41_rigid : forall o x y, unit_o o -> exists x' y' dx dy dz,
  position_into_world (ofin o) (vfin x) = vfin x' /\ position_into_world (ofin o) (vfin y) = vfin y' /\
  direction_into_world (ofin o) (vfin x) = vfin dx /\ direction_into_world (ofin o) (vfin y) = vfin dy /\
  direction_into_world (ofin o) (vfin (vcross x y)) = vfin dz /\
  dist x' y' = dist x y /\ vdot dx dy = vdot x y /\ dz = vcross dx dy.
Proof.
  intros o x y U. exists (position_into_world o x), (position_into_world o y), (direction_into_world o x), (direction_into_world o y), (direction_into_world o (vcross x y)).
  split; [reflexivity|]. split; [reflexivity|]. split; [reflexivity|]. split; [reflexivity|]. split; [reflexivity|].
  split; [exact (world_dist o x y U)|]. split; [exact (direction_dot o x y U)|exact (direction_cross o x y U)].
Qed.
Print Assumptions C41_rigid.

(** The entity position is where the local point minus the offset is, and points are carried along by their difference from it. *)
Theorem C41_origin : forall o x, unit_o o ->
  position_into_world (ofin o) (vfin (vneg (o_off o))) = vfin (o_pos o) /\
  local_origin_in_world (ofin o) = position_into_world (ofin o) (vfin (mkV 0 0 0)) /\
  direction_into_world (ofin o) (vfin (vadd x (o_off o))) = vsub (position_into_world (ofin o) (vfin x)) (vfin (o_pos o)).
Proof. exact origin_facts. Qed.
Print Assumptions C41_origin.
(** Orientations that are really turned exist: half a turn around z. *)
Example C41_example : unit_o (mkO (mkV 1 2 3) (mkQ 0 0 1 0) (mkV 4 5 6)) /\
  position_into_world (mkO (mkV 1 2 3) (mkQ 0 0 1 0) (mkV 4 5 6)) (mkV 1 0 0) = mkV (-4) (-3) 9.
Proof. exact half_turn_example. Qed.

(** ** C58 Rotation vectors mean what they say *)
(** [turns_by f v]: f turns by [vlen v] radians around [v].  Rotations of at most 2^-22 radians are dropped. *)
Theorem C58_new : forall p v off, exists o, orient_new (vfin p) (vfin v) (vfin off) = ofin o /\ o_pos o = p /\ o_off o = off /\ unit_o o /\
  (2 * tiny < vlen v -> turns_by (direction_into_world o) v) /\ (vlen v <= 2 * tiny -> o_rot o = mkQ 0 0 0 1).
Proof. exact orient_new_turns. Qed.
Print Assumptions C58_new.
Theorem C58_rotation_vec : forall o, unit_o o -> exists v, rotation_vec (ofin o) = vfin v /\ vlen v <= PI /\
  (o_rot o = mkQ 0 0 0 1 -> v = mkV 0 0 0) /\ (tiny < vlen (qvec (o_rot o)) -> turns_by (direction_into_world o) v).
Proof. exact rotation_vec_turns. Qed.
Print Assumptions C58_rotation_vec.
Theorem C58_round_trip : forall p v off, vlen v <= PI -> 2 * tiny < vlen v \/ v = mkV 0 0 0 ->
  rotation_vec (orient_new (vfin p) (vfin v) (vfin off)) = vfin v.
Proof. exact rotation_round_trip. Qed.
Print Assumptions C58_round_trip.
Example C58_example : vlen (mkV 0 0 1) <= PI /\ 2 * tiny < vlen (mkV 0 0 1).
Proof. exact radian_example. Qed.

(** ** C59 Interpolated orientations lead from start to end *)
Theorem C59_lerp : forall s e t, unit_o s -> unit_o e -> exists o,
  orient_lerp (Fin t) (ofin s) (ofin e) = ofin o /\ unit_o o /\ o_pos o = along (o_pos s) (o_pos e) t /\ o_off o = o_off s /\
  (t = 0 -> turned (o_rot s) -> forall x, position_into_world o x = position_into_world s x /\ direction_into_world o x = direction_into_world s x) /\
  (t = 1 -> turned (o_rot e) -> forall x, direction_into_world o x = direction_into_world e x /\ (o_off e = o_off s -> position_into_world o x = position_into_world e x)) /\
  (steady s e -> forall x, position_into_world o x = along (position_into_world s x) (position_into_world e x) t /\ direction_into_world o x = direction_into_world s x).
Proof. exact lerp_ends. Qed.
Print Assumptions C59_lerp.
(** From half a turn about z to half a turn about x; and a shift. *)
Example C59_example : let s := mkO (mkV 1 2 3) (mkQ 0 0 1 0) (mkV 4 5 6) in let e := mkO (mkV 2 2 2) (mkQ 1 0 0 0) (mkV 4 5 6) in
  unit_o s /\ unit_o e /\ turned (o_rot s) /\ turned (o_rot e) /\ o_off e = o_off s /\ steady s (mkO (mkV 2 2 2) (mkQ 0 0 1 0) (mkV 4 5 6)).
Proof. exact lerp_example. Qed.

(** ** C60 A movement turns around the centre of mass and shifts *)
Theorem C60_affected : forall o l a, unit_o o -> exists o' f,
  after_affected (ofin o) (vfin l) (vfin a) = ofin o' /\ unit_o o' /\ o_pos o' = vadd (o_pos o) l /\ o_off o' = o_off o /\
  (forall x, position_into_world o' x = vadd (f (vsub (position_into_world o x) (o_pos o))) (vadd (o_pos o) l)) /\
  (forall d, direction_into_world o' d = f (direction_into_world o d)) /\
  (2 * tiny < vlen a -> turns_by f a) /\ (vlen a <= 2 * tiny -> forall x, f x = x).
Proof. exact affected_moves. Qed.
Print Assumptions C60_affected.
(** At (1, 2, 3), moved by (1, 0, 0) and turned by a quarter about the z axis. *)
Example C60_example : exists o', unit_o (rest_o (mkV 1 2 3)) /\ 2 * tiny < vlen (mkV 0 0 (PI / 2)) /\
  after_affected (still (mkV 1 2 3)) (vfin (mkV 1 0 0)) (vfin (mkV 0 0 (PI / 2))) = ofin o' /\ position_into_world o' (mkV 1 0 0) = mkV 2 3 3.
Proof. exact quarter_turn. Qed.
