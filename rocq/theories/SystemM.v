(** * SystemM: /repo/src/physics_system.rs, force.rs, gravity_generator.rs,
    unary_force_generator.rs, collision_record.rs *)
From Coq Require Import ZArith List Arith Bool.
Import ListNotations.
From Verif Require Import Num Vec Res Arena RangeM Orient Colliders Collide EntityM.
Local Open Scope num_scope.

(** force.rs:4-9 [struct Force]. *)
Record force (T : Type) := mkF { f_force : Vec3 T; f_pos : Vec3 T }.
Arguments mkF {T}. Arguments f_force {T}. Arguments f_pos {T}.

(** What a force generator can see of the [&PhysicsSystem] it is handed
    (unary_force_generator.rs:12): the two public observers and the public
    fields ([collision_records] and [debug] are empty at that point,
    physics_system.rs:337-338). *)
Record view (T : Type) := mkView {
  w_entity : handle -> option (entity T);
  w_collider : handle -> option (collider T);
  w_iteration_max : nat; w_energy_thr : T; w_time_thr : T }.
Arguments mkView {T}. Arguments w_entity {T}. Arguments w_collider {T}.
Arguments w_iteration_max {T}. Arguments w_energy_thr {T}. Arguments w_time_thr {T}.

(** unary_force_generator.rs:10-13 [trait UnaryForceGenerator]: gravity, or an
    arbitrary user implementation, which may keep internal state (it returns
    its own successor) and may panic. *)
Inductive generator (T : Type) :=
  | GenGravity (acceleration : Vec3 T)
  | GenCustom (f : T -> view T -> handle -> res (force T * generator T)).
Arguments GenGravity {T}. Arguments GenCustom {T}.

(** collision_record.rs:3-19 [struct CollisionRecord]. *)
Record crecord (T : Type) := mkCR {
  cr_first : handle; cr_second : handle; cr_pos : Vec3 T; cr_time : T; cr_normal : Vec3 T;
  cr_rest : T; cr_impulse : T }.
Arguments mkCR {T}. Arguments cr_first {T}. Arguments cr_second {T}. Arguments cr_pos {T}.
Arguments cr_time {T}. Arguments cr_normal {T}. Arguments cr_rest {T}. Arguments cr_impulse {T}.

(** physics_system.rs:25-55 [struct PhysicsSystem].  [s_iteration_max] is a u8
    in the code; an unbounded [nat] here. *)
Record system (T : Type) := mkS {
  s_ents : arena (ientity T);
  s_cols : arena (collider T);
  s_gens : arena (generator T);
  s_iteration_max : nat;
  s_records : list (crecord T);
  s_energy_thr : T;
  s_time_thr : T;
  s_debug : list dmsg }.
Arguments mkS {T}. Arguments s_ents {T}. Arguments s_cols {T}. Arguments s_gens {T}.
Arguments s_iteration_max {T}. Arguments s_records {T}. Arguments s_energy_thr {T}.
Arguments s_time_thr {T}. Arguments s_debug {T}.

(** physics_system.rs:58-67 [struct EntityStepInfo]. *)
Record info (T : Type) := mkInfo { i_h : handle; i_lin : Vec3 T; i_ang : Vec3 T; i_nbrs : list handle }.
Arguments mkInfo {T}. Arguments i_h {T}. Arguments i_lin {T}. Arguments i_ang {T}. Arguments i_nbrs {T}.

(** physics_system.rs:399-408: the earliest collision found so far (the
    [earliest_collision...] variables other than the percentage). *)
Record found (T : Type) := mkFound {
  fd_col : collision T; fd_rest : T; fd_stat : T; fd_dyn : T; fd_thr : T;
  fd_h1 : handle; fd_h2 : handle; fd_i1 : nat; fd_i2 : nat }.
Arguments mkFound {T}. Arguments fd_col {T}. Arguments fd_rest {T}. Arguments fd_stat {T}. Arguments fd_dyn {T}.
Arguments fd_thr {T}. Arguments fd_h1 {T}. Arguments fd_h2 {T}. Arguments fd_i1 {T}. Arguments fd_i2 {T}.

(** The variables carried from one iteration of the collision loop to the
    next (physics_system.rs:391-394) and the system fields it changes. *)
Record lstate (T : Type) := mkL {
  l_ents : arena (ientity T); l_infos : list (info T); l_left : T; l_ctp : T;
  l_records : list (crecord T); l_debug : list dmsg }.
Arguments mkL {T}. Arguments l_ents {T}. Arguments l_infos {T}. Arguments l_left {T}. Arguments l_ctp {T}.
Arguments l_records {T}. Arguments l_debug {T}.

Section SysSetters.
  Context {T : Type}.
  Definition s_set_ents (s : system T) x := mkS x (s_cols s) (s_gens s) (s_iteration_max s) (s_records s) (s_energy_thr s) (s_time_thr s) (s_debug s).
  Definition s_set_cols (s : system T) x := mkS (s_ents s) x (s_gens s) (s_iteration_max s) (s_records s) (s_energy_thr s) (s_time_thr s) (s_debug s).
  Definition s_set_gens (s : system T) x := mkS (s_ents s) (s_cols s) x (s_iteration_max s) (s_records s) (s_energy_thr s) (s_time_thr s) (s_debug s).
  Definition s_set_debug (s : system T) x := mkS (s_ents s) (s_cols s) (s_gens s) (s_iteration_max s) (s_records s) (s_energy_thr s) (s_time_thr s) x.
End SysSetters.

Section System.
  Context {T : Type} {N : Num T}.

  (** physics_system.rs:71-83 [PhysicsSystem::new] *)
  Definition system_new : system T := mkS anew anew anew 5 [] (n_frac 1 1000) (n_frac 1 10) [].

  (** physics_system.rs:86-89 [add_entity]; [None] is [Err(())]. *)
  Definition add_entity (s : system T) (src : entity T) : res (system T * option handle) :=
    match entity_new_from src with
    | None => Ok (s, None)
    | Some e => rbind (ainsert (s_ents s) e) (fun r => Ok (s_set_ents s (fst r), Some (snd r)))
    end.

  (** physics_system.rs:178-187 [remove_collider].  The [borrow_mut()] in the
      [if let] scrutinee is still alive when line 183 calls
      [self.colliders.borrow()], so reaching line 183 panics (BorrowError). *)
  Definition remove_collider (s : system T) (h : handle) : res (system T) :=
    match aremove (s_cols s) h with
    | None => Ok s
    | Some (cols, remainder) =>
      match c_entity remainder with
      | Some eh =>
        match aget (s_ents s) eh with
        | Some _ => Panic
        | None => Ok (s_set_cols s cols)
        end
      | None => Ok (s_set_cols s cols)
      end
    end.

  (** physics_system.rs:94-103 [remove_entity] *)
  Definition remove_entity (ord : set_order) (s : system T) (h : handle) : res (system T * bool) :=
    match aremove (s_ents s) h with
    | None => Ok (s, false)
    | Some (ents, e) =>
      rbind (rfold remove_collider (ord KColliders h (e_colliders e)) (s_set_ents s ents)) (fun s' =>
      Ok (s', true))
    end.

  (** physics_system.rs:108-110 [get_entity] *)
  Definition get_entity (s : system T) (h : handle) : option (entity T) := option_map make_pub (aget (s_ents s) h).
  (** physics_system.rs:192-212 [get_collider] *)
  Definition get_collider (s : system T) (h : handle) : option (collider T) := aget (s_cols s) h.

  (** physics_system.rs:115-129 [update_entity]; the boolean is [Ok(())]. *)
  Definition update_entity (ord : set_order) (s : system T) (h : handle) (src : entity T) : res (system T * bool) :=
    match aget (s_ents s) h with
    | None => Ok (s, false)
    | Some e =>
      match update_from e src with
      | None => Ok (s, false)
      | Some (e1, woke_up) =>
        rbind (recalculate_mass (ord KColliders h (e_colliders e1)) (s_cols s) e1) (fun e2 =>
        let s1 := s_set_ents s (aset (s_ents s) h e2) in
        if woke_up then
          rbind (wake_up ord h (s_ents s1) (s_debug s1)) (fun r =>
          Ok (s_set_debug (s_set_ents s1 (fst r)) (snd r), true))
        else Ok (s1, true))
      end
    end.

  (** physics_system.rs:132-175 [add_collider] *)
  Definition add_collider (s : system T) (src : collider T) : res (system T * option handle) :=
    match collider_new_from src with
    | None => Ok (s, None)
    | Some c => rbind (ainsert (s_cols s) c) (fun r => Ok (s_set_cols s (fst r), Some (snd r)))
    end.

  (** physics_system.rs:219-272 [update_collider] *)
  Definition update_collider (ord : set_order) (s : system T) (h : handle) (src : collider T) : res (system T * bool) :=
    match aget (s_cols s) h with
    | None => Ok (s, false)
    | Some c =>
      let finish (cols : arena (collider T)) (result : bool) : res (system T * bool) :=
        match c_entity c with
        | Some eh =>
          match aget (s_ents s) eh with
          | Some e =>
            rbind (recalculate_mass (ord KColliders eh (e_colliders e)) cols e) (fun e' =>
            Ok (s_set_ents (s_set_cols s cols) (aset (s_ents s) eh e'), result))
          | None => Ok (s_set_cols s cols, result)
          end
        | None => Ok (s_set_cols s cols, result)
        end in
      match collider_update_from c src with
      | UMismatch => Ok (s, false)
      | UInvalid => finish (s_cols s) false
      | UOk c' => finish (aset (s_cols s) h c') true
      end
    end.

  (** physics_system.rs:277-314 [link_collider] *)
  Definition link_collider (ord : set_order) (s : system T) (ch : handle) (target : option handle)
      : res (system T * bool) :=
    match aget (s_cols s) ch with
    | None => Ok (s, false)
    | Some c =>
      let attach : res (option (arena (ientity T))) :=
        match target with
        | None => Ok (Some (s_ents s))
        | Some h =>
          match aget (s_ents s) h with
          | None => Ok None
          | Some e =>
            let e1 := e_set_colliders e (hinsert ch (e_colliders e)) in
            rbind (recalculate_mass (ord KColliders h (e_colliders e1)) (s_cols s) e1) (fun e2 =>
            Ok (Some (aset (s_ents s) h e2)))
          end
        end in
      rbind attach (fun o =>
      match o with
      | None => Ok (s, false)
      | Some ents =>
        let prior := c_entity c in
        let cols := aset (s_cols s) ch (c_set_entity c target) in
        let same := match prior, target with
                    | None, None => true | Some a, Some b => heqb a b | _, _ => false end in
        let s1 := s_set_cols (s_set_ents s ents) cols in
        if same then Ok (s1, true)
        else
          match prior with
          | None => Ok (s1, true)
          | Some ph =>
            match aget ents ph with
            | None => Ok (s1, true)
            | Some p =>
              let p1 := e_set_colliders p (hremove ch (e_colliders p)) in
              rbind (recalculate_mass (ord KColliders ph (e_colliders p1)) cols p1) (fun p2 =>
              Ok (s_set_ents s1 (aset ents ph p2), true))
            end
          end
      end)
    end.

  (** physics_system.rs:317-319 [add_unary_force_generator] *)
  Definition add_generator (s : system T) (g : generator T) : res (system T * handle) :=
    rbind (ainsert (s_gens s) g) (fun r => Ok (s_set_gens s (fst r), snd r)).
  (** physics_system.rs:322-324 [remove_unary_force_generator] *)
  Definition remove_generator (s : system T) (h : handle) : system T * option (generator T) :=
    match aremove (s_gens s) h with
    | Some (g, x) => (s_set_gens s g, Some x)
    | None => (s, None)
    end.

  (** ** [step] *)

  Definition view_of (s : system T) : view T :=
    mkView (get_entity s) (get_collider s) (s_iteration_max s) (s_energy_thr s) (s_time_thr s).

  (** gravity_generator.rs:21-27 [make_force] and the trait's dynamic dispatch. *)
  Definition make_force (g : generator T) (dt : T) (w : view T) (h : handle) : res (force T * generator T) :=
    match g with
    | GenGravity a =>
        rbind (unwrap (w_entity w h)) (fun e => Ok (mkF (vscale a (pe_last_total_mass e)) (pe_pos e), g))
    | GenCustom f => f dt w h
    end.

  (** physics_system.rs:358-365: all generators on one entity. *)
  Definition sum_forces (dt : T) (h : handle) (copy : entity T) (s : system T) (ghs : list handle)
      : res (system T * Vec3 T * Vec3 T) :=
    rfold (fun st gh =>
      let '(s, acceleration, torque) := st in
      rbind (unwrap (aget (s_gens s) gh)) (fun g =>
      rbind (make_force g dt (view_of s) h) (fun fg =>
      let '(f, g') := fg in
      Ok (s_set_gens s (aset (s_gens s) gh g'),
          vadd acceleration (vscale (f_force f) (n1 / pe_last_total_mass copy)),
          vadd torque (mulmv (last_moment copy) (vcross (vsub (f_pos f) (pe_pos copy)) (f_force f)))))))
      ghs (s, vzero, vzero).

  (** physics_system.rs:349-386: integrate one entity. *)
  Definition integrate_one (dt : T) (ghs : list handle) (st : system T * list (info T)) (h : handle)
      : res (system T * list (info T)) :=
    let '(s, infos) := st in
    rbind (unwrap (get_entity s h)) (fun copy =>
    let total_mass := pe_last_total_mass copy in
    rbind (if n_isfin total_mass && (EPSILON <? total_mass)
           then sum_forces dt h copy s ghs else Ok (s, vzero, vzero)) (fun r =>
    let '(s, acceleration, torque) := r in
    rbind (unwrap (aget (s_ents s) h)) (fun e =>
    let v := vadd (e_vel e) (vscale acceleration dt) in
    let w := vadd (e_angvel e) (mulmv (get_inverse_moment e) (vscale torque dt)) in
    Ok (s_set_ents s (aset (s_ents s) h (e_set_vels e v w)),
        infos ++ [mkInfo h (vscale v dt) (vscale w dt) []])))).

  (** All unordered pairs of a list, in the order of the two nested loops of
      physics_system.rs:410-415. *)
  Fixpoint all_pairs {X} (l : list X) : list (X * X) :=
    match l with [] => [] | x :: l' => map (pair x) l' ++ all_pairs l' end.

  (** physics_system.rs:434-481: one pair of colliders. *)
  Definition check_colliders (cols : arena (collider T)) (e1 e2 : ientity T) (x1 x2 : nat * info T)
      (best : T * option (found T)) (chs : handle * handle) : res (T * option (found T)) :=
    rbind (unwrap (aget cols (fst chs))) (fun c1 =>
    rbind (unwrap (aget cols (snd chs))) (fun c2 =>
    let o1 := e_orient e1 in
    let o2 := e_orient e2 in
    rbind (collide c1 o1 (after_affected o1 (i_lin (snd x1)) (i_ang (snd x1)))
                   c2 o2 (after_affected o2 (i_lin (snd x2)) (i_ang (snd x2)))) (fun oc =>
    match oc with
    | None => Ok best
    | Some c =>
      let time := c_time c in
      let velocity_delta := vsub (velocity_at e1 (c_pos c)) (velocity_at e2 (c_pos c)) in
      if vdot velocity_delta (c_normal c) <? EPSILON then Ok best
      else if time <? fst best then
        Ok (time, Some (mkFound c
              (mt_rest (c_mat c1) * mt_rest (c_mat c2)) (mt_stat (c_mat c1) * mt_stat (c_mat c2))
              (mt_dyn (c_mat c1) * mt_dyn (c_mat c2)) (mt_thr (c_mat c1) * mt_thr (c_mat c2))
              (i_h (snd x1)) (i_h (snd x2)) (fst x1) (fst x2)))
      else Ok best
    end))).

  (** physics_system.rs:416-483: one pair of entities. *)
  Definition check_entities (ord : set_order) (cols : arena (collider T)) (ents : arena (ientity T))
      (best : T * option (found T)) (p : (nat * info T) * (nat * info T)) : res (T * option (found T)) :=
    let '(x1, x2) := p in
    let h1 := i_h (snd x1) in
    let h2 := i_h (snd x2) in
    rbind (unwrap (aget ents h1)) (fun e1 =>
    rbind (unwrap (aget ents h2)) (fun e2 =>
    if hmem h2 (e_neighbors e1) then Ok best
    else if hmem h1 (e_neighbors e2) then Ok best
    else rfold (check_colliders cols e1 e2 x1 x2)
           (list_prod (ord KColliders h1 (e_colliders e1)) (ord KColliders h2 (e_colliders e2))) best)).

  (** physics_system.rs:398-485: the earliest collision of this iteration. *)
  Definition find_earliest (ord : set_order) (cols : arena (collider T)) (ents : arena (ientity T))
      (infos : list (info T)) : res (T * option (found T)) :=
    rfold (check_entities ord cols ents) (all_pairs (combine (seq 0 (length infos)) infos)) (n1, None).

  (** physics_system.rs:488-498 (and 499-509): wake one side of the collision
      unless its mass is not finite. *)
  Definition wake_finite (ord : set_order) (h : handle) (st : arena (ientity T) * list dmsg)
      : res (arena (ientity T) * list dmsg) :=
    rbind (unwrap (aget (fst st) h)) (fun e =>
    if n_isfin (e_total_mass e) then wake_up ord h (fst st) (snd st) else Ok st).

  (** physics_system.rs:517-529: move everything that is awake. *)
  Definition advance_one (percent after : T) (st : arena (ientity T) * list (info T)) (i : info T)
      : res (arena (ientity T) * list (info T)) :=
    let '(ents, infos) := st in
    rbind (unwrap (aget ents (i_h i))) (fun e =>
    let ents := if e_asleep e then ents
                else aset ents (i_h i) (e_set_orient e
                       (after_affected (e_orient e) (vscale (i_lin i) percent) (vscale (i_ang i) percent))) in
    Ok (ents, infos ++ [mkInfo (i_h i) (vscale (i_lin i) after) (vscale (i_ang i) after) (i_nbrs i)])).
  Definition advance (percent after : T) (ents : arena (ientity T)) (infos : list (info T))
      : res (arena (ientity T) * list (info T)) :=
    rfold (advance_one percent after) infos (ents, []).

  (** physics_system.rs:684-695 [calc_collision_impulse_denominator] *)
  Definition impulse_denominator (e1 e2 : ientity T) (c : collision T) : T :=
    let first_offset := vsub (c_pos c) (o_pos (e_orient e1)) in
    let second_offset := vsub (c_pos c) (o_pos (e_orient e2)) in
    let first_linear := n1 / e_total_mass e1 in
    let second_linear := n1 / e_total_mass e2 in
    let first_amount := mulmv (get_inverse_moment e1) (vcross first_offset (c_normal c)) in
    let first_angular := vdot (vcross first_amount first_offset) (c_normal c) in
    let second_amount := mulmv (get_inverse_moment e2) (vcross second_offset (c_normal c)) in
    let second_angular := vdot (vcross second_amount second_offset) (c_normal c) in
    first_linear + second_linear + first_angular + second_angular.
  (** physics_system.rs:698-710 [calc_collision_impulse] *)
  Definition collision_impulse (e1 e2 : ientity T) (restitution : T) (c : collision T) : Vec3 T :=
    let velocity_delta := vsub (velocity_at e1 (c_pos c)) (velocity_at e2 (c_pos c)) in
    let normal_coincidence := vdot velocity_delta (c_normal c) in
    let numerator := - (n1 + restitution) * normal_coincidence in
    vscale (c_normal c) (numerator / impulse_denominator e1 e2 c).
  (** physics_system.rs:717-718, part of [apply_collision_impulse] (713-719):
      the planned movement is recomputed from the new velocities. *)
  Definition replan (i : info T) (e : ientity T) (remaining : T) : info T :=
    mkInfo (i_h i) (vscale (e_vel e) remaining) (vscale (e_angvel e) remaining) (i_nbrs i).

  (** physics_system.rs:583-601: the friction impulse and whether the two are left in contact. *)
  Definition friction (e1 e2 : ientity T) (f : found T) (impulse : Vec3 T) : Vec3 T * bool :=
    let c := fd_col f in
    let velocity_delta := vsub (velocity_at e1 (c_pos c)) (velocity_at e2 (c_pos c)) in
    let normal_coincidence := vdot velocity_delta (c_normal c) in
    let in_contact := n_abs normal_coincidence <? EPSILON in
    let sliding := vsub velocity_delta (vscale (c_normal c) normal_coincidence) in
    let sliding_magnitude := vmag sliding in
    let coefficient := if n_abs normal_coincidence / sliding_magnitude <? fd_thr f then fd_stat f else fd_dyn f in
    let max_friction_impulse := sliding_magnitude / impulse_denominator e1 e2 c in
    let percent := (vmag impulse * coefficient) / max_friction_impulse in
    let percent := if n1 <? percent then n1 else percent in
    let percent := if n_isfin percent then percent else n0 in
    (vscale sliding (- percent), in_contact).

  (** The new velocities of the two entities of a collision: restitution
      impulse (554-577), then friction (583-616). *)
  Definition respond_pair (e1 e2 : ientity T) (f : found T) : ientity T * ientity T * Vec3 T * bool :=
    let c := fd_col f in
    let impulse := collision_impulse e1 e2 (fd_rest f) c in
    let e1a := apply_impulse e1 (c_pos c) impulse in
    let e2a := apply_impulse e2 (c_pos c) (vneg impulse) in
    let '(fr, in_contact) := friction e1a e2a f impulse in
    (apply_impulse e1a (c_pos c) fr, apply_impulse e2a (c_pos c) (vneg fr), impulse, in_contact).

  (** [entity_info[index] = ...]; out of bounds panics. *)
  Definition upd_info (l : list (info T)) (i : nat) (f : info T -> info T) : res (list (info T)) :=
    rbind (unwrap (nth_error l i)) (fun x => Ok (list_set l i (f x))).

  Definition add_nbr (h : handle) (i : info T) : info T := mkInfo (i_h i) (i_lin i) (i_ang i) (hinsert h (i_nbrs i)).

  (** physics_system.rs:533-627: respond to the collision.  The two
      [apply_collision_impulse] calls per entity each overwrite its planned
      movement; only the last one's values survive, so [replan] is applied once. *)
  Definition respond (dt time_after : T) (f : found T) (st : lstate T) : res (lstate T) :=
    let c := fd_col f in
    rbind (unwrap (aget (l_ents st) (fd_h1 f))) (fun e1 =>
    rbind (unwrap (aget (l_ents st) (fd_h2 f))) (fun e2 =>
    let '(e1', e2', impulse, in_contact) := respond_pair e1 e2 f in
    rbind (upd_info (l_infos st) (fd_i1 f) (fun i => replan i e1' time_after)) (fun infos =>
    rbind (upd_info infos (fd_i2 f) (fun i => replan i e2' time_after)) (fun infos =>
    rbind (if in_contact then
             rbind (upd_info infos (fd_i1 f) (add_nbr (fd_h2 f))) (fun infos =>
             upd_info infos (fd_i2 f) (add_nbr (fd_h1 f)))
           else Ok infos) (fun infos =>
    Ok (mkL (aset (aset (l_ents st) (fd_h1 f) e1') (fd_h2 f) e2') infos (l_left st) (l_ctp st)
            (l_records st ++ [mkCR (fd_h1 f) (fd_h2 f) (c_pos c) (l_ctp st * dt) (c_normal c)
                                   (fd_rest f) (vmag impulse)])
            (l_debug st))))))).

  (** physics_system.rs:394-633: one iteration; the boolean says whether the
      loop concluded (no collision found). *)
  Definition iterate (ord : set_order) (cols : arena (collider T)) (dt : T) (st : lstate T)
      : res (lstate T * bool) :=
    rbind (find_earliest ord cols (l_ents st) (l_infos st)) (fun best =>
    let '(percent, of) := best in
    rbind (match of with
           | None => Ok (l_ents st, l_debug st)
           | Some f => rbind (wake_finite ord (fd_h1 f) (l_ents st, l_debug st)) (fun r =>
                       wake_finite ord (fd_h2 f) r)
           end) (fun r =>
    let '(ents, dbg) := r in
    let after := n1 - percent in
    let ctp := l_ctp st + (n1 - l_ctp st) * percent in
    let time_after := l_left st * after in
    rbind (advance percent after ents (l_infos st)) (fun r =>
    let '(ents, infos) := r in
    let st' := mkL ents infos time_after ctp (l_records st) dbg in
    match of with
    | None => Ok (st', true)
    | Some f => rbind (respond dt time_after f st') (fun st'' => Ok (st'', false))
    end))).

  (** physics_system.rs:394-636: the loop. *)
  Fixpoint iterations (ord : set_order) (cols : arena (collider T)) (dt : T) (n : nat) (st : lstate T)
      : res (lstate T) :=
    match n with
    | O => Ok (mkL (l_ents st) (l_infos st) (l_left st) (l_ctp st) (l_records st) (l_debug st ++ [DRanOut]))
    | S n' =>
      rbind (iterate ord cols dt st) (fun r =>
      if snd r then Ok (fst r) else iterations ord cols dt n' (fst r))
    end.

  (** physics_system.rs:642-674: decide on sleep for one entity; [None] when it
      does not go to sleep now (the [continue]s), with its new value. *)
  Definition sleep_decision (dt energy_thr time_thr : T) (nbrs : list handle) (e : ientity T) : ientity T * bool :=
    if e_asleep e then (e_set_vels e vzero vzero, false)
    else if energy_thr <? get_total_energy e then (e_set_falling e false n0, false)
    else
      let t := if e_falling e then e_falling_time e + dt else e_falling_time e in
      let e1 := e_set_falling e true t in
      if t <? time_thr then (e1, false)
      else (e_set_sleep e1 true nbrs, true).

  (** physics_system.rs:638-681: the sleep phase for one entity. *)
  Definition sleep_one (dt energy_thr time_thr : T) (st : arena (ientity T) * list dmsg) (i : info T)
      : res (arena (ientity T) * list dmsg) :=
    let '(ents, dbg) := st in
    rbind (unwrap (aget ents (i_h i))) (fun e =>
    let '(e', slept) := sleep_decision dt energy_thr time_thr (i_nbrs i) e in
    let ents := aset ents (i_h i) e' in
    if slept then
      rbind (rfold (fun ents nh =>
        rbind (unwrap (aget ents nh)) (fun n =>
        Ok (aset ents nh (e_set_sleep n (e_asleep n) (hinsert (i_h i) (e_neighbors n)))))) (i_nbrs i) ents) (fun ents =>
      Ok (ents, dbg ++ [DSleep (i_h i)]))
    else Ok (ents, dbg)).

  (** physics_system.rs:331-682 [step] *)
  Definition step (ord : set_order) (s : system T) (dt : T) : res (system T) :=
    if n_abs dt <? EPSILON then Ok s
    else
      let s0 := mkS (s_ents s) (s_cols s) (s_gens s) (s_iteration_max s) [] (s_energy_thr s) (s_time_thr s) [] in
      rbind (rfold (integrate_one dt (ahandles (s_gens s0))) (ahandles (s_ents s0)) (s0, [])) (fun r =>
      let '(s1, infos) := r in
      rbind (iterations ord (s_cols s1) dt (s_iteration_max s1)
               (mkL (s_ents s1) infos dt n0 (s_records s1) (s_debug s1))) (fun st =>
      rbind (rfold (sleep_one dt (s_energy_thr s1) (s_time_thr s1)) (l_infos st) (l_ents st, l_debug st)) (fun r =>
      Ok (mkS (fst r) (s_cols s1) (s_gens s1) (s_iteration_max s1) (l_records st) (s_energy_thr s1) (s_time_thr s1) (snd r))))).

  (** ** Histories of API calls *)

  (** One call by the user of the crate. *)
  Inductive op :=
    | OAddEntity (src : entity T)
    | ORemoveEntity (h : handle)
    | OUpdateEntity (h : handle) (src : entity T)
    | OAddCollider (src : collider T)
    | ORemoveCollider (h : handle)
    | OUpdateCollider (h : handle) (src : collider T)
    | OLinkCollider (ch : handle) (target : option handle)
    | OAddGenerator (g : generator T)
    | ORemoveGenerator (h : handle)
    | OStep (dt : T)
    | OSetIterationMax (n : nat)
    | OSetEnergyThr (x : T)
    | OSetTimeThr (x : T).

  (** What the call returned. *)
  Inductive answer :=
    | AHandle (h : option handle)     (* Result<Handle, ()> *)
    | ABool (b : bool)                (* bool, or Result<(), ()> *)
    | AGen (g : option (generator T))
    | AUnit.

  Definition exec (ord : set_order) (s : system T) (o : op) : res (system T * answer) :=
    match o with
    | OAddEntity src => rbind (add_entity s src) (fun r => Ok (fst r, AHandle (snd r)))
    | ORemoveEntity h => rbind (remove_entity ord s h) (fun r => Ok (fst r, ABool (snd r)))
    | OUpdateEntity h src => rbind (update_entity ord s h src) (fun r => Ok (fst r, ABool (snd r)))
    | OAddCollider src => rbind (add_collider s src) (fun r => Ok (fst r, AHandle (snd r)))
    | ORemoveCollider h => rbind (remove_collider s h) (fun s' => Ok (s', AUnit))
    | OUpdateCollider h src => rbind (update_collider ord s h src) (fun r => Ok (fst r, ABool (snd r)))
    | OLinkCollider ch t => rbind (link_collider ord s ch t) (fun r => Ok (fst r, ABool (snd r)))
    | OAddGenerator g => rbind (add_generator s g) (fun r => Ok (fst r, AHandle (Some (snd r))))
    | ORemoveGenerator h => let r := remove_generator s h in Ok (fst r, AGen (snd r))
    | OStep dt => rbind (step ord s dt) (fun s' => Ok (s', AUnit))
    | OSetIterationMax n => Ok (mkS (s_ents s) (s_cols s) (s_gens s) n (s_records s) (s_energy_thr s) (s_time_thr s) (s_debug s), AUnit)
    | OSetEnergyThr x => Ok (mkS (s_ents s) (s_cols s) (s_gens s) (s_iteration_max s) (s_records s) x (s_time_thr s) (s_debug s), AUnit)
    | OSetTimeThr x => Ok (mkS (s_ents s) (s_cols s) (s_gens s) (s_iteration_max s) (s_records s) (s_energy_thr s) x (s_debug s), AUnit)
    end.
End System.
Arguments op : clear implicits.
Arguments answer : clear implicits.
