(** * MoveSpec: the world moved as a whole (C88).

    Small independent definitions; nothing here is part of the model. *)
From Coq Require Import Reals List.
Import ListNotations.
From Verif Require Import Num Vec Res Arena RangeM Orient Colliders Collide EntityM SystemM Spec RealSpec.

(** Everything moved by [d]: points of the world move, directions, velocities, rotations and everything local to an entity do not. *)
Definition move_v (d : V) (x : Vec3 ER) : Vec3 ER := vadd x (vfin d).
Definition move_o (d : V) (o : orientation ER) : orientation ER := mkO (move_v d (o_pos o)) (o_rot o) (o_off o).
Definition move_entity (d : V) (e : entity ER) : entity ER :=
  mkPE (move_v d (pe_pos e)) (pe_rot e) (pe_vel e) (pe_angvel e) (pe_colliders e) (pe_own_mass e) (move_o d (pe_last_orient e))
       (pe_last_total_mass e) (pe_last_prep_moi e) (pe_asleep e).
Definition move_internal (d : V) (e : ientity ER) : ientity ER :=
  mkE (move_o d (e_orient e)) (e_own_mass e) (e_total_mass e) (e_prep_moi e) (e_vel e) (e_angvel e) (e_colliders e)
      (e_falling e) (e_falling_time e) (e_asleep e) (e_neighbors e).
Definition move_collision (d : V) (k : collision ER) : collision ER := mkC (c_times k) (move_v d (c_pos k)) (c_normal k).
Definition move_record (d : V) (r : crecord ER) : crecord ER :=
  mkCR (cr_first r) (cr_second r) (move_v d (cr_pos r)) (cr_time r) (cr_normal r) (cr_rest r) (cr_impulse r).
(** The values stored in an arena, each replaced. *)
Definition aeach {A} (f : A -> A) (a : arena A) : arena A :=
  mkA (map (fun x => match x with Free n => Free n | Occ g v => Occ g (f v) end) (a_items a)) (a_gen a) (a_head a).
Definition move_system (d : V) (s : system ER) : system ER :=
  mkS (aeach (move_internal d) (s_ents s)) (s_cols s) (s_gens s) (s_iteration_max s) (map (move_record d) (s_records s))
      (s_energy_thr s) (s_time_thr s) (s_debug s).
(** The same call with the entity at the moved place. *)
Definition move_op (d : V) (o : op ER) : op ER :=
  match o with
  | OAddEntity src => OAddEntity (move_entity d src)
  | OUpdateEntity h src => OUpdateEntity h (move_entity d src)
  | o => o
  end.
Definition move_call (d : V) (c : call ER) : call ER := (fst c, move_op d (snd c)).
(** [f] applied to what a call returned, if it returned. *)
Definition returned {A B} (f : A -> B) (r : res A) : res B := match r with Ok a => Ok (f a) | Panic => Panic | Fuel => Fuel end.

(** Radii of balls and normals of planes are numbers. *)
Definition plain_shape (c : collider ER) : Prop :=
  match c with
  | CSphere s => exists r, sp_radius s = Fin r
  | CPlane p => exists n, pl_normal p = vfin n
  | _ => True
  end.
(** ... in the colliders a call brings in; and no force generators but gravity. *)
Definition plain_op (o : op ER) : Prop :=
  match o with
  | OAddCollider c | OUpdateCollider _ c => plain_shape c
  | OAddGenerator g => exists a, g = GenGravity a
  | _ => True
  end.
(** Balls have a positive radius, planes a normal of numbers. *)
Definition solid (c : collider ER) : Prop :=
  match c with
  | CSphere s => exists r, sp_radius s = Fin r /\ (0 < r)%R
  | CPlane p => exists n, pl_normal p = vfin n
  | _ => True
  end.
