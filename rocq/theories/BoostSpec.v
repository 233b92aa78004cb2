(** * BoostSpec: the world seen by an observer who moves steadily (C89).

    Small independent definitions; nothing here is part of the model. *)
From Coq Require Import Reals List.
Import ListNotations.
From Verif Require Import Num Vec Res Arena RangeM Orient Colliders Collide EntityM SystemM Spec RealSpec MoveSpec.

(** The body [e] with the velocity [u] added to its own; nothing else changes. *)
Definition boost (u : V) (e : ientity ER) : ientity ER :=
  mkE (e_orient e) (e_own_mass e) (e_total_mass e) (e_prep_moi e) (vadd (e_vel e) (vfin u)) (e_angvel e) (e_colliders e)
      (e_falling e) (e_falling_time e) (e_asleep e) (e_neighbors e).
(** The contacts [a] and [b] of one motion and of the same motion with the displacement [w] added to both bodies: found in both or
    in neither, at the same times, [w] times the time apart. *)
Definition same_meeting (w : V) (a b : res (option (collision ER))) : Prop :=
  match a, b with
  | Ok (Some k), Ok (Some k') => c_times k' = c_times k /\ exists t, c_time k = Fin t /\ c_pos k' = vadd (c_pos k) (vfin (vscale w t))
  | Ok None, Ok None => True
  | _, _ => False
  end.
(** ... and with the same normal. *)
Definition same_contact (w : V) (a b : res (option (collision ER))) : Prop :=
  same_meeting w a b /\ match a, b with Ok (Some k), Ok (Some k') => c_normal k' = c_normal k | _, _ => True end.

Section Boosted.
  Context {T : Type} {N : Num T}.
  Definition same_v (a b : Vec3 T) : Prop := n_eq (vx a) (vx b) = true /\ n_eq (vy a) (vy b) = true /\ n_eq (vz a) (vz b) = true.
  (** [t] is [s] with [u] added to all velocities. *)
  Definition boosted (u : Vec3 T) (s t : system T) : Prop :=
    (forall h, match get_entity s h, get_entity t h with
      | Some a, Some b => pe_pos b = pe_pos a /\ pe_rot b = pe_rot a /\ same_v (pe_vel b) (vadd (pe_vel a) u) /\ pe_angvel b = pe_angvel a /\
          pe_colliders b = pe_colliders a /\ pe_own_mass b = pe_own_mass a /\ pe_last_total_mass b = pe_last_total_mass a /\ pe_asleep b = pe_asleep a
      | None, None => True
      | _, _ => False
      end) /\
    (forall h, get_collider t h = get_collider s h) /\ (forall h, get_generator s h = None /\ get_generator t h = None).
End Boosted.
