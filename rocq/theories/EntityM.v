(** * EntityM: /repo/src/entity.rs *)
From Coq Require Import ZArith List Arith Bool.
Import ListNotations.
From Verif Require Import Num Vec Res Arena RangeM Orient Colliders.
Local Open Scope num_scope.

(** entity.rs:13-52 [struct InternalEntity]. *)
Record ientity (T : Type) := mkE {
  e_orient : orientation T;
  e_own_mass : T;
  e_total_mass : T;
  e_prep_moi : Mat3 T;
  e_vel : Vec3 T;
  e_angvel : Vec3 T;
  e_colliders : list handle;
  e_falling : bool;
  e_falling_time : T;
  e_asleep : bool;
  e_neighbors : list handle }.
Arguments mkE {T}. Arguments e_orient {T}. Arguments e_own_mass {T}. Arguments e_total_mass {T}.
Arguments e_prep_moi {T}. Arguments e_vel {T}. Arguments e_angvel {T}. Arguments e_colliders {T}.
Arguments e_falling {T}. Arguments e_falling_time {T}. Arguments e_asleep {T}. Arguments e_neighbors {T}.

(** entity.rs:268-324 [struct Entity], the public copy.  The fields
    [pe_colliders], [pe_last_...] and [pe_asleep] are private in the code: a
    user gets them from [Entity::new] or [get_entity] and cannot edit them. *)
Record entity (T : Type) := mkPE {
  pe_pos : Vec3 T;
  pe_rot : Vec3 T;
  pe_vel : Vec3 T;
  pe_angvel : Vec3 T;
  pe_colliders : list handle;
  pe_own_mass : T;
  pe_last_orient : orientation T;
  pe_last_total_mass : T;
  pe_last_prep_moi : Mat3 T;
  pe_asleep : bool }.
Arguments mkPE {T}. Arguments pe_pos {T}. Arguments pe_rot {T}. Arguments pe_vel {T}. Arguments pe_angvel {T}.
Arguments pe_colliders {T}. Arguments pe_own_mass {T}. Arguments pe_last_orient {T}.
Arguments pe_last_total_mass {T}. Arguments pe_last_prep_moi {T}. Arguments pe_asleep {T}.

(** The lines of the public [debug : Vec<String>] log (physics_system.rs:54),
    as structured messages: physics_system.rs:635, entity.rs:257, entity.rs:245,
    physics_system.rs:674 (of the latter only the handle is kept). *)
Inductive dmsg := DRanOut | DWaking (h : handle) | DRemoved (target from : handle) | DSleep (h : handle).

(** Which of an entity's two hash sets is being iterated, see [set_order]. *)
Inductive setk := KColliders | KNeighbors.
(** The iteration order of the hash sets during one API call: for the set of
    kind [k] owned by entity [h] with elements [l], the order they are visited in. *)
Definition set_order : Type := setk -> handle -> list handle -> list handle.

Section Setters.
  Context {T : Type}.
  Definition e_set_orient (e : ientity T) o := mkE o (e_own_mass e) (e_total_mass e) (e_prep_moi e) (e_vel e) (e_angvel e) (e_colliders e) (e_falling e) (e_falling_time e) (e_asleep e) (e_neighbors e).
  Definition e_set_vels (e : ientity T) v w := mkE (e_orient e) (e_own_mass e) (e_total_mass e) (e_prep_moi e) v w (e_colliders e) (e_falling e) (e_falling_time e) (e_asleep e) (e_neighbors e).
  Definition e_set_mass (e : ientity T) o m i := mkE o (e_own_mass e) m i (e_vel e) (e_angvel e) (e_colliders e) (e_falling e) (e_falling_time e) (e_asleep e) (e_neighbors e).
  Definition e_set_colliders (e : ientity T) c := mkE (e_orient e) (e_own_mass e) (e_total_mass e) (e_prep_moi e) (e_vel e) (e_angvel e) c (e_falling e) (e_falling_time e) (e_asleep e) (e_neighbors e).
  Definition e_set_falling (e : ientity T) f t := mkE (e_orient e) (e_own_mass e) (e_total_mass e) (e_prep_moi e) (e_vel e) (e_angvel e) (e_colliders e) f t (e_asleep e) (e_neighbors e).
  Definition e_set_sleep (e : ientity T) a ns := mkE (e_orient e) (e_own_mass e) (e_total_mass e) (e_prep_moi e) (e_vel e) (e_angvel e) (e_colliders e) (e_falling e) (e_falling_time e) a ns.
End Setters.

Section Entity.
  Context {T : Type} {N : Num T}.

  (** entity.rs:329-347 [Entity::new] *)
  Definition entity_new : entity T :=
    mkPE vzero vzero vzero vzero [] n0 (orient_new vzero vzero vzero) n0 mzero false.
  (** entity.rs:367-373 [make_orientation] *)
  Definition make_orientation (e : entity T) : orientation T :=
    orient_new (pe_pos e) (pe_rot e) (o_off (pe_last_orient e)).
  (** entity.rs:379-381 [get_last_moment_of_inertia] *)
  Definition last_moment (e : entity T) : Mat3 T := finalize_moment (make_orientation e) (pe_last_prep_moi e).
  (** entity.rs:384-388 [Entity::get_total_energy] (the public one) *)
  Definition pub_energy (e : entity T) : T :=
    let linear_energy := vdot (vscale (pe_vel e) (pe_last_total_mass e)) (pe_vel e) / n2 in
    let angular_energy := vdot (mulmv (last_moment e) (pe_angvel e)) (pe_angvel e) / n2 in
    linear_energy + angular_energy.

  (** entity.rs:56-75 [InternalEntity::new_from]; [None] is [Err(())]. *)
  Definition entity_new_from (s : entity T) : option (ientity T) :=
    if pe_own_mass s <? n0 then None
    else Some (mkE (make_orientation s) (pe_own_mass s) (pe_own_mass s) mzero (pe_vel s) (pe_angvel s)
                   [] false n0 false []).

  (** entity.rs:78-97 [make_pub] *)
  Definition make_pub (e : ientity T) : entity T :=
    mkPE (o_pos (e_orient e)) (rotation_vec (e_orient e)) (e_vel e) (e_angvel e) (e_colliders e)
         (e_own_mass e) (e_orient e) (e_total_mass e) (e_prep_moi e) (e_asleep e).

  (** entity.rs:100-126 [update_from]: [None] is [Err(())]; otherwise the new
      value and whether anything changed noticeably. *)
  Definition update_from (e : ientity T) (s : entity T) : option (ientity T * bool) :=
    if pe_own_mass s <? n0 then None
    else
      let new_rotation := qfrom_scaled_axis (pe_rot s) in
      let old := o_rot (e_orient e) in
      let rotation_delta := n_sqrt
        ((qw new_rotation - qw old) * (qw new_rotation - qw old) +
         (qi new_rotation - qi old) * (qi new_rotation - qi old) +
         (qj new_rotation - qj old) * (qj new_rotation - qj old) +
         (qk new_rotation - qk old) * (qk new_rotation - qk old)) in
      let changed :=
        negb (e_own_mass e =? pe_own_mass s) ||
        (EPSILON <? vmag (vsub (o_pos (e_orient e)) (pe_pos s))) ||
        (EPSILON <? rotation_delta) ||
        (EPSILON <? vmag (vsub (e_vel e) (pe_vel s))) ||
        (EPSILON <? vmag (vsub (e_angvel e) (pe_angvel s))) in
      Some (mkE (mkO (pe_pos s) new_rotation (o_off (e_orient e))) (pe_own_mass s) (e_total_mass e) (e_prep_moi e)
                (pe_vel s) (pe_angvel s) (e_colliders e) (e_falling e) (e_falling_time e) (e_asleep e) (e_neighbors e),
            changed).

  (** entity.rs:135-144: the loop over the colliders: (found_infinite,
      total_other_mass, center_of_mass sum).  [hs] is the iteration order. *)
  Fixpoint com_loop (o : orientation T) (cols : arena (collider T)) (hs : list handle)
      (total_other : T) (com : Vec3 T) : res (bool * T * Vec3 T) :=
    match hs with
    | [] => Ok (false, total_other, com)
    | h :: hs' =>
      match aget cols h with
      | None => Panic
      | Some c =>
        let m := c_mass c in
        if n_isinf m then Ok (true, total_other, com)
        else com_loop o cols hs' (total_other + m)
               (vadd com (vscale (position_into_world o (c_com c)) m))
      end
    end.
  (** entity.rs:168-175: the second loop. *)
  Definition moi_loop (o : orientation T) (cols : arena (collider T)) (hs : list handle) : res (Mat3 T) :=
    rfold (fun acc h =>
      rbind (unwrap (aget cols h)) (fun c =>
      Ok (madd acc (prep_moment o (c_com c) (c_mass c) (c_moi c))))) hs mzero.

  (** entity.rs:129-177 [recalculate_mass]; [hs] is the order in which the
      entity's collider set is iterated. *)
  Definition recalculate_mass (hs : list handle) (cols : arena (collider T)) (e : ientity T) : res (ientity T) :=
    let o := e_orient e in
    rbind (com_loop o cols hs n0 vzero) (fun r =>
    let '(found_infinite, total_other_mass, com_sum) := r in
    let total_mass := if found_infinite then n_inf else e_own_mass e in
    let '(total_mass, o') :=
      if (n0 <? total_other_mass) && negb found_infinite then
        let com := vdivs com_sum total_other_mass in
        let movement := vsub com (o_pos o) in
        (total_mass + total_other_mass,
         mkO (vadd (o_pos o) movement) (o_rot o) (vsub (o_off o) (direction_into_local o movement)))
      else
        let local_movement := o_off o in
        let o1 := mkO (o_pos o) (o_rot o) (vsub (o_off o) local_movement) in
        (total_mass,
         mkO (vadd (o_pos o) (direction_into_world o1 local_movement)) (o_rot o) (o_off o1)) in
    if found_infinite then Ok (e_set_mass e o' total_mass mzero)
    else rbind (moi_loop o' cols hs) (fun moi => Ok (e_set_mass e o' total_mass moi))).

  (** entity.rs:185-187 [get_moment_of_inertia] *)
  Definition get_moment (e : ientity T) : Mat3 T := finalize_moment (e_orient e) (e_prep_moi e).
  (** entity.rs:190-200 [get_inverse_moment_of_inertia] (the warning print is omitted) *)
  Definition get_inverse_moment (e : ientity T) : Mat3 T :=
    match mtry_inverse (get_moment e) with Some i => i | None => mzero end.
  (** entity.rs:203-205 [get_velocity_at_world_position] *)
  Definition velocity_at (e : ientity T) (position : Vec3 T) : Vec3 T :=
    vadd (e_vel e) (vcross (e_angvel e) (vsub position (o_pos (e_orient e)))).
  (** entity.rs:208-220 [get_total_energy] *)
  Definition get_total_energy (e : ientity T) : T :=
    if n_isinf (e_total_mass e) then
      if (vmag (e_vel e) <? EPSILON) && (vmag (e_angvel e) <? EPSILON) then n0 else n_inf
    else
      let linear_energy := vdot (vscale (e_vel e) (e_total_mass e)) (e_vel e) / n2 in
      let angular_energy := vdot (mulmv (get_moment e) (e_angvel e)) (e_angvel e) / n2 in
      linear_energy + angular_energy.
  (** entity.rs:223-226 [apply_impulse] *)
  Definition apply_impulse (e : ientity T) (position impulse : Vec3 T) : ientity T :=
    e_set_vels e
      (vadd (e_vel e) (vscale impulse (n1 / e_total_mass e)))
      (vadd (e_angvel e) (mulmv (get_inverse_moment e) (vcross (vsub position (o_pos (e_orient e))) impulse))).

  (** ** Waking up *)

  (** entity.rs:236-251: the loop over the target's neighbours. *)
  Definition wake_neighbor (target : handle) (completed : list handle)
      (st : arena (ientity T) * list dmsg * list handle) (n : handle)
      : res (arena (ientity T) * list dmsg * list handle) :=
    let '(ents, dbg, queue) := st in
    if hmem n completed then Ok st
    else
      rbind (unwrap (aget ents n)) (fun e =>
      if n_isinf (e_total_mass e)
      then Ok (aset ents n (e_set_sleep e (e_asleep e) (hremove target (e_neighbors e))),
               dbg ++ [DRemoved target n], queue)
      else Ok (ents, dbg, queue ++ [n])).

  (** entity.rs:233-262: the work list; [fuel] bounds the number of targets processed. *)
  Fixpoint wake_loop (ord : set_order) (fuel : nat) (completed queue : list handle)
      (ents : arena (ientity T)) (dbg : list dmsg) : res (arena (ientity T) * list dmsg) :=
    match queue with
    | [] => Ok (ents, dbg)
    | target :: queue' =>
      match fuel with
      | O => Fuel
      | S fuel' =>
        let completed := hinsert target completed in
        rbind (unwrap (aget ents target)) (fun t =>
        rbind (rfold (wake_neighbor target completed)
                     (ord KNeighbors target (e_neighbors t)) (ents, dbg, queue')) (fun st =>
        let '(ents, dbg, queue) := st in
        rbind (unwrap (aget ents target)) (fun t =>
        let dbg := if e_asleep t then dbg ++ [DWaking target] else dbg in
        wake_loop ord fuel' completed queue (aset ents target (e_set_sleep t false [])) dbg)))
      end
    end.

  (** The number of (entity, neighbour) pairs, which bounds the pushes. *)
  Definition edge_count (ents : arena (ientity T)) : nat :=
    fold_right (fun e n => length (e_neighbors e) + n)%nat O (avalues ents).

  (** entity.rs:229-263 [wake_up] *)
  Definition wake_up (ord : set_order) (start : handle) (ents : arena (ientity T)) (dbg : list dmsg)
      : res (arena (ientity T) * list dmsg) :=
    wake_loop ord (S (edge_count ents)) [] [start] ents dbg.
End Entity.
