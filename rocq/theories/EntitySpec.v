(** * EntitySpec: words used in the properties about single entities (C36).

    Small independent definitions; nothing here is part of the model. *)
From Coq Require Import List.
Import ListNotations.
From Verif Require Import Num Vec Arena Orient Colliders Collide EntityM SystemM OrderP Spec.

Section EntitySpec.
  Context {T : Type} {N : Num T}.
  (** All components are finite. *)
  Definition vfinite (v : Vec3 T) : Prop := n_isfin (vx v) = true /\ n_isfin (vy v) = true /\ n_isfin (vz v) = true.
  Definition mfinite (m : Mat3 T) : Prop :=
    vfinite (mkV (m11 m) (m12 m) (m13 m)) /\ vfinite (mkV (m21 m) (m22 m) (m23 m)) /\ vfinite (mkV (m31 m) (m32 m) (m33 m)).
  (** The entity owns a collider of infinite mass. *)
  Definition has_infinite (s : system T) (e : ientity T) : Prop :=
    exists c k, In c (e_colliders e) /\ get_collider s c = Some k /\ n_isinf (mass_of k) = true.
  (** The impulse [j] at the point [p], and its moment about the position of [e], are finite. *)
  Definition finite_impulse (e : ientity T) (p j : Vec3 T) : Prop :=
    vfinite j /\ vfinite (vcross (vsub p (o_pos (e_orient e))) j).
  (** The orientation of [e] is finite, as a matrix. *)
  Definition finite_rotation (e : ientity T) : Prop := mfinite (qto_matrix (o_rot (e_orient e))).
End EntitySpec.
