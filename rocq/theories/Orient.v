(** * Orient: /repo/src/orientation.rs *)
From Verif Require Import Num Vec.
Local Open Scope num_scope.

(** orientation.rs:10-33 [struct Orientation]. *)
Record orientation (T : Type) := mkO { o_pos : Vec3 T; o_rot : Quat T; o_off : Vec3 T }.
Arguments mkO {T}. Arguments o_pos {T}. Arguments o_rot {T}. Arguments o_off {T}.

Section Orient.
  Context {T : Type} {N : Num T}.

  (** orientation.rs:38-40 [translate_moment_of_inertia] *)
  Definition translate_moment (moment : Mat3 T) (total_mass : T) (translation : Vec3 T) : Mat3 T :=
    madd moment (mscale (msub (mdiag1 (vdot translation translation)) (vouter translation translation)) total_mass).
  (** orientation.rs:45-48 [rotate_moment_of_inertia] *)
  Definition rotate_moment (moment : Mat3 T) (rotation : Quat T) : Mat3 T :=
    let out_of := qto_matrix rotation in
    mulmm (mulmm out_of moment) (mtrans out_of).

  (** orientation.rs:52-58 [Orientation::new] *)
  Definition orient_new (position rotation internal_origin_offset : Vec3 T) : orientation T :=
    mkO position (qfrom_scaled_axis rotation) internal_origin_offset.
  (** orientation.rs:61-66 [into_local] *)
  Definition into_local (o : orientation T) : Iso T :=
    iso_append_translation
      (iso_append_rotation (mkI (vneg (o_pos o)) qident) (qinv (o_rot o)))
      (vneg (o_off o)).
  (** orientation.rs:69-73 [into_world] *)
  Definition into_world (o : orientation T) : Iso T := iso_inverse (into_local o).
  (** orientation.rs:89-91 [position_into_local] *)
  Definition position_into_local (o : orientation T) (p : Vec3 T) : Vec3 T := iso_point (into_local o) p.
  (** orientation.rs:96-98 [position_into_world] *)
  Definition position_into_world (o : orientation T) (p : Vec3 T) : Vec3 T := iso_point (into_world o) p.
  (** orientation.rs:103-105 [direction_into_local] *)
  Definition direction_into_local (o : orientation T) (d : Vec3 T) : Vec3 T := iso_vector (into_local o) d.
  (** orientation.rs:110-112 [direction_into_world] *)
  Definition direction_into_world (o : orientation T) (d : Vec3 T) : Vec3 T := iso_vector (into_world o) d.
  (** orientation.rs:135-138 [rotation_vec] *)
  Definition rotation_vec (o : orientation T) : Vec3 T := qscaled_axis (o_rot o).
  (** orientation.rs:76-84 [Orientation::lerp] *)
  Definition orient_lerp (time : T) (start end_ : orientation T) : orientation T :=
    let opposite := n1 - time in
    let rot := vadd (vscale (rotation_vec start) opposite) (vscale (rotation_vec end_) time) in
    mkO (vadd (vscale (o_pos start) opposite) (vscale (o_pos end_) time))
        (qfrom_scaled_axis rot) (o_off start).
  (** orientation.rs:119-121 [prep_moment_of_inertia] *)
  Definition prep_moment (o : orientation T) (center_of_mass : Vec3 T) (total_mass : T) (moment : Mat3 T) : Mat3 T :=
    translate_moment moment total_mass (vadd (o_off o) center_of_mass).
  (** orientation.rs:126-128 [finalize_moment_of_inertia] *)
  Definition finalize_moment (o : orientation T) (moment : Mat3 T) : Mat3 T := rotate_moment moment (o_rot o).
  (** orientation.rs:131-133 [local_origin_in_world] *)
  Definition local_origin_in_world (o : orientation T) : Vec3 T := position_into_world o vzero.
  (** orientation.rs:141-144 [affect_with] and 147-151 [after_affected] *)
  Definition after_affected (o : orientation T) (linear angular : Vec3 T) : orientation T :=
    mkO (vadd (o_pos o) linear) (qmul (qfrom_scaled_axis angular) (o_rot o)) (o_off o).
End Orient.
