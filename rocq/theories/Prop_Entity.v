(** * Properties of single entities and colliders: C07, C36, C43, C49, C50 and the negative half of C51. *)
From Coq Require Import ZArith Reals List Bool Lra.
From Flocq Require Import IEEE754.BinarySingleNaN.
Import ListNotations.
From Verif Require Import Num Vec Res Arena Orient Colliders Collide EntityM SystemM OrderP Spec EntitySpec Examples
  ResP ArenaP ArithP RealSpec RealV OrientP PhysSpec PhysP InfMassP WriteBackP ShapeP EntityEx RejectP FloorEx MassEx WriteBack2P WriteBackEx.
Local Open Scope R_scope.

(** ** C07 Rejected updates of colliders, in exact arithmetic *)
(** With C07_rejected_no_effect_partial: no rejected call has an effect, for owners placed by numbers whose colliders
    have finite mass and inertia or one of which has infinite mass.  In binary32 this fails: C07_rejected_no_effect_refuted. *)
Theorem C07_exact_partial : forall ord (s : system ER) h src s', good_order ord -> reachable s -> update_collider ord s h src = Ok (s', false) ->
  (forall k e, owner s h = Some k -> get_entity s k = Some e -> (exists o, pe_last_orient e = ofin o) /\
     ((exists pt, parts_of s e pt) \/ (exists c u, In c (pe_colliders e) /\ get_collider s c = Some u /\ mass_of u = PInf))) ->
  s' = s.
Proof. exact rejected_exact. Qed.
Print Assumptions C07_exact_partial.
(** A radius of 0 is the right kind of value, and rejected. *)
Example C07_exact_example : exists (s : system ER) h k e o pt, reachable s /\ owner s h = Some k /\ get_entity s k = Some e /\ pe_last_orient e = ofin o /\ parts_of s e pt /\
  update_collider in_order s h (CSphere (sphere_new n0)) = Ok (s, false) /\ exists c, get_collider s h = Some c /\ kind_same c (CSphere (sphere_new n0)).
Proof. exact ball_rejects. Qed.

(** ** C36 Infinite-mass entities are immovable *)
(** [vkey] is the value as a number, so that -0 and 0 are the same.  Missing: impulses whose moment about the entity
    overflows, see below. *)
Theorem C36_impulse_partial : forall (L : Libm) (s : system f32) h e p j, let N := F32 L in
  reachable s -> aget (s_ents s) h = Some e -> has_infinite s e -> finite_rotation e -> finite_impulse e p j ->
  vkey (e_vel (apply_impulse e p j)) = vkey (e_vel e) /\ vkey (e_angvel (apply_impulse e p j)) = vkey (e_angvel e).
Proof. intros L. exact (@infinite_impulse f32 (F32 L) _ _). Qed.
Print Assumptions C36_impulse_partial.
(** Both sides of a whole collision response, with friction. *)
Theorem C36_response_partial : forall (L : Libm) (s : system f32) h e e2 f, let N := F32 L in
  reachable s -> aget (s_ents s) h = Some e -> has_infinite s e -> finite_rotation e ->
  (let j := collision_impulse e e2 (fd_rest f) (fd_col f) in
   let p := c_pos (fd_col f) in
   let fr := fst (friction (apply_impulse e p j) (apply_impulse e2 p (vneg j)) f j) in
   finite_impulse e p j -> finite_impulse e p fr ->
   vkey (e_vel (fst (fst (fst (respond_pair e e2 f))))) = vkey (e_vel e) /\
   vkey (e_angvel (fst (fst (fst (respond_pair e e2 f))))) = vkey (e_angvel e)) /\
  (let j := collision_impulse e2 e (fd_rest f) (fd_col f) in
   let p := c_pos (fd_col f) in
   let fr := fst (friction (apply_impulse e2 p j) (apply_impulse e p (vneg j)) f j) in
   finite_impulse e p (vneg j) -> finite_impulse e p (vneg fr) ->
   vkey (e_vel (snd (fst (fst (respond_pair e2 e f))))) = vkey (e_vel e) /\
   vkey (e_angvel (snd (fst (fst (respond_pair e2 e f))))) = vkey (e_angvel e)).
Proof. intros L. exact (@infinite_response f32 (F32 L) _ _). Qed.
Print Assumptions C36_response_partial.
(** Force generators: whatever they answer, NaN included. *)
Theorem C36_forces : forall (L : Libm) ord (s : system f32) dt s' h e, let N := F32 L in
  good_order ord -> reachable s -> step ord s dt = Ok s' -> n_lt (n_abs dt) EPSILON = false -> is_finite dt = true ->
  aget (s_ents s) h = Some e -> has_infinite s e -> finite_rotation e -> e_asleep e = false -> ~ named (s_records s') h ->
  exists e', aget (s_ents s') h = Some e' /\ vkey (e_vel e') = vkey (e_vel e) /\ vkey (e_angvel e') = vkey (e_angvel e).
Proof. intros L. exact (@infinite_unpushed f32 (F32 L) _ _ _). Qed.
Print Assumptions C36_forces.
Example C36_example : forall L, let N := F32 L in
  exists (s : system f32) h e p j, reachable s /\ aget (s_ents s) h = Some e /\ has_infinite s e /\ finite_rotation e /\ finite_impulse e p j.
Proof. exact floor_hit. Qed.
(** A finite impulse at a finite point makes the spin NaN: its moment overflows, and the inverse inertia is 0. *)
Theorem C36_overflow_refuted : forall L, let N := F32 L in
  exists (s : system f32) h e p j, reachable s /\ aget (s_ents s) h = Some e /\ has_infinite s e /\ finite_rotation e /\ vfinite p /\ vfinite j /\
    e_angvel e = vzero /\ n_isnan (vz (e_angvel (apply_impulse e p j))) = true.
Proof. exact floor_overflow. Qed.
Print Assumptions C36_overflow_refuted.

(** ** C43 Reading an entity and writing it back changes nothing *)
(** The whole system is unchanged, so nothing wakes either.  Missing: a quaternion with negative [w] (below), rotations so
    small that the code snaps them to none ([turned] excludes them), and an entity with an offset but no colliders. *)
Theorem C43_write_back_partial : forall ord (s : system ER) h e o, good_order ord -> reachable s -> get_entity s h = Some e -> pe_last_orient e = ofin o ->
  (0 <= qw (o_rot o)) -> turned (o_rot o) -> finite_v (pe_vel e) -> finite_v (pe_angvel e) -> pe_own_mass e <> ENaN ->
  ((exists pt, parts_of s e pt) \/ (exists c k, In c (pe_colliders e) /\ get_collider s c = Some k /\ mass_of k = PInf)) ->
  pe_colliders e <> [] \/ o_off o = mkV 0 0 0 ->
  update_entity ord s h e = Ok (s, true).
Proof. exact write_back. Qed.
Print Assumptions C43_write_back_partial.
(** The example for C43 and C49: the moving and turning ball of RealEx. *)
Example C43_C49_example : exists (s : system ER) h e o pt, reachable s /\ get_entity s h = Some e /\ pe_last_orient e = ofin o /\ (0 <= qw (o_rot o)) /\ turned (o_rot o) /\
  finite_v (pe_vel e) /\ finite_v (pe_angvel e) /\ pe_own_mass e <> ENaN /\ parts_of s e pt /\ pe_colliders e <> [] /\ o_off o <> mkV 0 0 0 /\
  pe_own_mass e = Fin 1 /\ (exists v w, pe_vel e = vfin v /\ pe_angvel e = vfin w /\ v <> mkV 0 0 0 /\ w <> mkV 0 0 0).
Proof. exact ball_write_back. Qed.
(** Whatever the sign of [w], writing back moves and turns nothing, and keeps the velocities. *)
Theorem C43_same_place_partial : forall ord (s : system ER) h e o, good_order ord -> reachable s -> get_entity s h = Some e -> pe_last_orient e = ofin o -> turned (o_rot o) ->
  ((exists pt, parts_of s e pt) \/ (exists c k, In c (pe_colliders e) /\ get_collider s c = Some k /\ mass_of k = PInf)) ->
  pe_colliders e <> [] \/ o_off o = mkV 0 0 0 ->
  forall s' b, update_entity ord s h e = Ok (s', b) -> exists e' o', get_entity s' h = Some e' /\ pe_last_orient e' = ofin o' /\ pe_pos e' = pe_pos e /\
    pe_vel e' = pe_vel e /\ pe_angvel e' = pe_angvel e /\
    (forall x, position_into_world o' x = position_into_world o x) /\ (forall x, direction_into_world o' x = direction_into_world o x).
Proof. exact back_placed. Qed.
Print Assumptions C43_same_place_partial.
(** But if [w] is negative (the body has been turned by more than half a turn) the code takes the same rotation for another one, and wakes the entity and
    everything that rests against it. *)
Theorem C43_turned_over_partial : forall ord (s : system ER) h e o, good_order ord -> reachable s -> get_entity s h = Some e -> pe_last_orient e = ofin o -> turned (o_rot o) ->
  forall s' b, update_entity ord s h e = Ok (s', b) -> (qw (o_rot o) < 0) -> forall k, connected (s_ents s) h k -> ~ asleep s' k.
Proof. exact back_wakes. Qed.
Print Assumptions C43_turned_over_partial.
(** A sleeper that was stored with three quarters of a turn is woken by writing it back unchanged. *)
Theorem C43_turned_over_refuted : exists s e s', reachable s /\ get_entity s (hd 0) = Some e /\ pe_asleep e = true /\ pe_last_orient e = ofin tilt /\ turned tilted /\ (qw tilted < 0) /\ pe_colliders e = [] /\
  update_entity in_order s (hd 0) e = Ok (s', true) /\ ~ asleep s' (hd 0) /\ s' <> s.
Proof. exact write_back_wakes. Qed.
Print Assumptions C43_turned_over_refuted.
(** A copy of an entity keeps its offset but not its colliders; writing the copy back unchanged moves it from 5 to 1. *)
Theorem C43_copy_refuted : forall L, let N := F32 L in
  exists (s : system f32) h e s' e', reachable s /\ get_entity s h = Some e /\ update_entity in_order s h e = Ok (s', true) /\ get_entity s' h = Some e' /\
    n_eq (vx (pe_pos e)) n5 = true /\ n_eq (vx (pe_pos e')) n1 = true.
Proof. exact copy_moves. Qed.
Print Assumptions C43_copy_refuted.

(** ** C49 Reported energy is the kinetic energy *)
(** [parts_inertia o (o_pos o) ps w] is the moment of inertia of the parts about the axis [w] through the position,
    times the square of the length of [w].  Missing: infinite mass. *)
Theorem C49_reported_partial : forall (s : system ER) h e m o v w pt, reachable s -> get_entity s h = Some e -> pe_own_mass e = Fin m -> pe_last_orient e = ofin o ->
  pe_vel e = vfin v -> pe_angvel e = vfin w -> parts_of s e pt -> turned (o_rot o) ->
  let energy := (1 / 2 * (m + parts_mass (parts e pt)) * vdot v v + 1 / 2 * parts_inertia o (o_pos o) (parts e pt) w) in
  pub_energy e = Fin energy /\
  ((forall c, In c (pe_colliders e) -> psd (p_tensor (pt c))) -> (0 <= energy)) /\
  (v = mkV 0 0 0 -> w = mkV 0 0 0 -> pub_energy e = Fin 0).
Proof. exact reported_energy. Qed.
Print Assumptions C49_reported_partial.
(** The energy the sleep test uses. *)
Theorem C49_internal_partial : forall (s : system ER) h i m o v w pt, reachable s -> aget (s_ents s) h = Some i -> e_own_mass i = Fin m -> e_orient i = ofin o ->
  e_vel i = vfin v -> e_angvel i = vfin w -> parts_of s (make_pub i) pt ->
  get_total_energy i = Fin (1 / 2 * (m + parts_mass (parts (make_pub i) pt)) * vdot v v + 1 / 2 * parts_inertia o (o_pos o) (parts (make_pub i) pt) w).
Proof. exact internal_energy. Qed.
Print Assumptions C49_internal_partial.
(** Bodies of infinite mass: any threshold from 0 up to infinity tells whether they are at rest, both moving and turning (they may fall asleep) or not. *)
Theorem C49_immovable : forall (T : Type) (N : Num T) (i : ientity T) thr, n_isinf (e_total_mass i) = true -> n_lt thr n0 = false -> n_lt thr n_inf = true ->
  (n_lt thr (get_total_energy i) = false <-> n_lt (vmag (e_vel i)) EPSILON = true /\ n_lt (vmag (e_angvel i)) EPSILON = true).
Proof. exact @immovable_energy. Qed.
Print Assumptions C49_immovable.
(** Floors that turn do not fall asleep. *)
Example C49_immovable_example : let N := F32 crude in let thr := n_frac 1 10 in let floor (w : Vec3 f32) := mkE (orient_new vzero vzero vzero) n_inf n_inf mzero vzero w [] false n0 false [] in
  (n_isinf (e_total_mass (floor vzero)), n_lt thr n0, n_lt thr n_inf, n_lt thr (get_total_energy (floor vzero)), n_lt thr (get_total_energy (floor (mkV n0 n1 n0)))) = (true, false, true, false, true).
Proof. vm_compute. reflexivity. Qed.
Theorem C49_infinite_refuted : forall L, let N := F32 L in
  exists (s : system f32) h e, reachable s /\ get_entity s h = Some e /\ pe_vel e = vzero /\ pe_angvel e = vzero /\ n_isnan (pub_energy e) = true.
Proof. exact floor_energy. Qed.
Print Assumptions C49_infinite_refuted.

(** ** C50 Documented input tolerance of colliders *)
(** No box is accepted both ways round: every accepted box is a witness. *)
Theorem C50_corners_refuted : forall (T : Type) (N : Num T) (O : Ord N) (O2 : Ord2 O) (b : box_c T), collider_new_from (CBox b) <> None ->
  collider_new_from (CBox (mkBox (bx_ent b) (bx_pos b) (bx_max b) (bx_min b) (bx_mass b) (bx_mat b))) = None.
Proof. exact @swapped_rejected. Qed.
Print Assumptions C50_corners_refuted.
Example C50_box_example : forall L, let N := F32 L in
  is_some (collider_new_from (CBox (mkBox None vzero (vec 0 0 0) (vec 1 2 3) n1 mat_default))) = true.
Proof. intros L. vm_compute. reflexivity. Qed.
(** What holds: well separated corners in the right order. *)
Theorem C50_box_partial : forall (a b pos : V) m mat, (forall f : V -> R, In f [vx (T:=R); vy (T:=R); vz (T:=R)] -> (1 / 1000000 < Rabs (f b - f a))) ->
  (0 <= m) -> (collider_new_from (CBox (mkBox None (vfin pos) (vfin a) (vfin b) (Fin m) mat)) <> None <-> (vx a < vx b /\ vy a < vy b /\ vz a < vz b)).
Proof. exact box_accepted. Qed.
Print Assumptions C50_box_partial.
(** A plane that is added gets a normal of length 1 in the direction given; one that is updated does not. *)
Theorem C50_plane_partial : forall (s s' : system ER) h p n c, reachable s -> add_collider s (CPlane p) = Ok (s', Some h) -> pl_normal p = vfin n -> get_collider s' h = Some c ->
  exists u q, c = CPlane q /\ pl_normal q = vfin u /\ unit_along u n /\ pl_pos q = pl_pos p /\ pl_mass q = pl_mass p.
Proof. exact plane_normalised. Qed.
Print Assumptions C50_plane_partial.
Example C50_plane_example : exists (s s' : system ER) h p n c, reachable s /\ add_collider s (CPlane p) = Ok (s', Some h) /\ pl_normal p = vfin n /\ get_collider s' h = Some c /\ n = up.
Proof. exact floor_added. Qed.
Theorem C50_update_refuted : forall L, let N := F32 L in
  exists s s' : system f32, reachable s /\ reachable s' /\ exec in_order s (OUpdateCollider (hd 0) floor) = Ok (s', ABool true) /\
    some_with (normal_of s) (fun n => n_eq (vmag n) n1) = true /\ some_with (normal_of s') (fun n => n_eq (vmag n) n2) = true.
Proof. exact tilt_unnormalised. Qed.
Print Assumptions C50_update_refuted.

(** ** C51 Off-centre forces: not the physical acceleration *)
(** The ball has inertia 2/5 about the axis of the torque 1, so the spin after one second should be 5/2. *)
Theorem C51_acceleration_refuted : forall L, let N := F32 L in
  exists (s s' : system f32) e e', reachable s /\ step in_order s n1 = Ok s' /\ get_entity s (hd 0) = Some e /\ get_entity s' (hd 0) = Some e' /\
    pe_angvel e = vzero /\ o_rot (pe_last_orient e) = qident /\
    n_lt (m33 (pe_last_prep_moi e)) (n_frac 1 2) = true /\ n_lt (n_frac 99 100) (vz (pe_angvel e')) = true /\ n_lt (vz (pe_angvel e')) n2 = true.
Proof. exact push_wrong. Qed.
Print Assumptions C51_acceleration_refuted.
