(** * Properties of the calls as a whole: C71 the debug log, C72 the talk with the force generators, C73 what a call leaves
    alone, C74 updates put entities where asked, C75 defaults, C76 opposite forces. *)
From Coq Require Import ZArith Reals List Bool Arith.
Import ListNotations.
From Verif Require Import Num Vec Res Arena Orient Colliders Collide EntityM SystemM OrderP Spec PathSpec RealSpec PhysSpec TraceSpec LogSpec ForceSpec ApiSpec Examples
  RealV ArithP LogP ForceP ApiP WriteBackP PlaceP PlaceEx BalanceP BalanceEx Prop_Store.
Local Close Scope R_scope.
Local Open Scope nat_scope.

(** ** C71 The debug log tells who was woken, who fell asleep, and whether iterations ran out *)
Theorem C71_step : forall (T : Type) (N : Num T) (O : Ord N) ord (s : system T) dt s',
  good_order ord -> step ord s dt = Ok s' -> n_lt (n_abs dt) EPSILON = false ->
  exists l hs,
    s_debug s' = l ++ (if Nat.eqb (length (s_records s')) (s_iteration_max s) then [DRanOut] else []) ++ map DSleep hs /\
    wake_report (s_ents s) (roused s s') l /\ NoDup hs /\
    (forall k, In k hs <-> asleep s' k /\ (asleep s k -> roused s s' k)).
Proof. exact @step_log. Qed.
Print Assumptions C71_step.
(** An update appends to the log. *)
Theorem C71_update : forall (T : Type) (N : Num T) ord (s : system T) h src s' b e,
  good_order ord -> update_entity ord s h src = Ok (s', b) -> aget (s_ents s) h = Some e ->
  exists l, s_debug s' = s_debug s ++ l /\
    wake_report (s_ents s) (fun k => b = true /\ noticed e src /\ connected (s_ents s) h k) l.
Proof. exact @update_entity_log. Qed.
Print Assumptions C71_update.
(** In the first step balls 0, 1 and 2 fall asleep; in the second ball 3 hits ball 0, which wakes 0 and 1. *)
Definition same_msg (x y : dmsg) : bool :=
  match x, y with DSleep h, DSleep k | DWaking h, DWaking k => heqb h k | DRanOut, DRanOut => true | _, _ => false end.
Definition told (l : list dmsg) (m : dmsg) : bool := existsb (same_msg m) l.
Example C71_example : let N := F32 crude in
  ok_with (step in_order (slept_at 11) (n_frac 3 2)) (fun s => negb (n_lt (n_abs (n_frac 3 2)) EPSILON) &&
    Nat.eqb (length (s_debug s)) 3 && told (s_debug s) (DSleep (hd 0)) && told (s_debug s) (DSleep (hd 1)) && told (s_debug s) (DSleep (hd 2))) = true /\
  ok_with (step in_order (slept_at 16) n1) (fun s => negb (n_lt (n_abs n1) EPSILON) &&
    Nat.eqb (length (s_debug s)) 2 && told (s_debug s) (DWaking (hd 0)) && told (s_debug s) (DWaking (hd 1))) = true /\
  ok_with (run (calls [OSetIterationMax 1; OStep (n_frac 3 2)]) (slept_at 11)) (fun r => told (s_debug (fst r)) DRanOut) = true /\
  ok_with (update_entity in_order (slept_at 16) (hd 0) (ent (vec 0 7 0) vzero n0)) (fun r => snd r &&
    told (s_debug (fst r)) (DWaking (hd 0)) && told (s_debug (fst r)) (DWaking (hd 1))) = true.
Proof. repeat split; vm_compute; reflexivity. Qed.

(** ** C72 Every generator is asked about every pushable entity, in order, and its answers count *)
(** There is a conversation in which the generators are asked, entity after entity and generator after generator, about the
    pushable entities; each question shows the generator the entities with the velocities of this moment.  Afterwards the
    generators are as the conversation left them, and entities that do not collide have the velocities that the sum of their
    forces gives them. *)
Theorem C72_talk : forall (T : Type) (N : Num T) (O : Ord N) ord (s : system T) dt s',
  good_order ord -> step ord s dt = Ok s' -> n_lt (n_abs dt) EPSILON = false ->
  exists qs, talk s dt qs /\
    map (fun q => (q_h q, q_gh q)) qs = list_prod (filter (pushable_at s) (ahandles (s_ents s))) (ahandles (s_gens s)) /\
    (forall gh, get_generator s' gh = gen_after s qs gh) /\
    (forall h e, aget (s_ents s) h = Some e -> ~ named (s_records s') h ->
       exists e', aget (s_ents s') h = Some e' /\
         ((e_vel e' = pushed_vel dt (forces_in qs h) e /\ e_angvel e' = pushed_angvel dt (forces_in qs h) e) \/
          (e_asleep e = true /\ e_asleep e' = true /\ e_vel e' = vzero /\ e_angvel e' = vzero))).
Proof. exact @step_talk. Qed.
Print Assumptions C72_talk.
(** Two pushable entities, two generators: gravity and a logger. *)
Example C72_example : forall L (N := F32 L),
  let s := match exec in_order (reached L 8) (OAddGenerator (logger 9 [])) with Ok (s, _) => s | _ => system_new end in
  list_prod (filter (pushable_at s) (ahandles (s_ents s))) (ahandles (s_gens s)) = [(hd 0, hd 0); (hd 0, hd 1); (hd 1, hd 0); (hd 1, hd 1)] /\
  ok_with (step in_order s (n_frac 1 10)) (fun s' => negb (n_lt (n_abs (n_frac 1 10)) EPSILON) &&
    some_with (get_entity s (hd 0)) (fun e => some_with (get_entity s' (hd 0)) (fun e' => negb (n_eq (vy (pe_vel e)) (vy (pe_vel e')))))) = true.
Proof. intros L N. split; vm_compute; reflexivity. Qed.

(** ** C73 A call changes only what it is for *)
Theorem C73_frame : forall (T : Type) (N : Num T) ord (s s' : system T) o a,
  good_order ord -> reachable s -> exec ord s o = Ok (s', a) ->
  settings s' = new_settings s o /\
  (~ may_record o -> s_records s' = s_records s) /\
  (~ may_log o -> s_debug s' = s_debug s) /\
  (~ may_change_generators o -> forall g, get_generator s' g = get_generator s g) /\
  (~ may_change_colliders o -> forall c, get_collider s' c = get_collider s c) /\
  (~ may_change_entities o -> forall h, get_entity s' h = get_entity s h).
Proof. exact @call_frame. Qed.
Print Assumptions C73_frame.
Theorem C73_add_generator : forall (T : Type) (N : Num T) (s : system T) g, reachable s ->
  exists s' h, add_generator s g = Ok (s', h) /\ get_generator s h = None /\ get_generator s' h = Some g /\
    (forall h', h' <> h -> get_generator s' h' = get_generator s h').
Proof. exact @add_generator_map. Qed.
Print Assumptions C73_add_generator.
Theorem C73_remove_generator : forall (T : Type) (N : Num T) (s : system T) h, reachable s ->
  let r := remove_generator s h in
  snd r = get_generator s h /\ get_generator (fst r) h = None /\
  (forall h', h' <> h -> get_generator (fst r) h' = get_generator s h').
Proof. exact @remove_generator_map. Qed.
Print Assumptions C73_remove_generator.
Theorem C73_new : forall (T : Type) (N : Num T),
  (forall h, @get_entity T N system_new h = None) /\ (forall c, get_collider (@system_new T N) c = None) /\
  (forall g, get_generator (@system_new T N) g = None) /\
  settings (@system_new T N) = (5, n_frac 1%Z 1000%positive, n_frac 1%Z 10%positive) /\
  s_records (@system_new T N) = [] /\ s_debug (@system_new T N) = [].
Proof. exact @new_empty. Qed.
Print Assumptions C73_new.
(** Calls in a state with records, a log, entities, colliders and a generator. *)
Example C73_example : forall L (N := F32 L), reachable (reached L 13) /\
  get_generator (reached L 13) (hd 0) = Some (GenGravity (vec 0 (-10) 0)) /\
  forallb (fun o => ok_with (exec in_order (reached L 13) o) (fun _ => true))
    [OAddEntity (ent vzero vzero n1); ORemoveEntity (hd 1); OUpdateEntity (hd 1) (ent (vec 1 2 3) vzero n1); OAddCollider floor;
     ORemoveCollider (hd 2); OUpdateCollider (hd 1) (ball vzero n2 n2); OLinkCollider (hd 2) (Some (hd 1)); OAddGenerator (logger 3 []);
     ORemoveGenerator (hd 0); OStep n1; OSetIterationMax 7; OSetEnergyThr n1; OSetTimeThr n2] = true /\
  ok_with (run (firstn 12 hist_sleep) (@system_new f32 (F32 crude))) (fun r => Nat.eqb (length (s_records (fst r))) 1 && Nat.eqb (length (s_debug (fst r))) 3) = true.
Proof. intros L N. split; [apply reached_reachable|]. split; [reflexivity|]. split; vm_compute; reflexivity. Qed.

(** ** C75 New entities and colliders have the documented values *)
(** True of entities, null colliders and spheres, and of the rest but for the friction fields and the mass of a box. *)
Theorem C75_defaults_partial : forall L (N := F32 L) (radius : f32),
  entity_new = doc_entity /\ null_new = mkNull None vzero n0 mzero /\
  sphere_new radius = mkSphere None vzero radius n0 doc_sphere_material /\
  (exists m, plane_new = mkPlane None vzero (mkV n0 n1 n0) n0 m /\ mt_rest m = n1 /\ mt_dyn m = n_frac 3 10) /\
  (exists m, mesh_new = mkMesh None vzero [] [] [] m /\ mt_rest m = n1 /\ mt_dyn m = n_frac 3 10) /\
  (exists m mass, box_new = mkBox None vzero vzero (mkV n1 n1 n1) mass m /\ mt_rest m = n1 /\ mt_dyn m = n_frac 3 10).
Proof. exact @defaults_documented. Qed.
Print Assumptions C75_defaults_partial.
(** The friction threshold and the static friction of planes, meshes and boxes are documented the wrong way round. *)
Theorem C75_friction_refuted : forall L (N := F32 L),
  pl_mat plane_new <> doc_material /\ me_mat mesh_new <> doc_material /\ bx_mat box_new <> doc_material.
Proof. exact @defaults_friction. Qed.
Print Assumptions C75_friction_refuted.
(** Boxes are documented to have mass one. *)
Theorem C75_box_mass_refuted : forall L (N := F32 L), bx_mass (@box_new f32 N) <> n1.
Proof. exact @defaults_box_mass. Qed.
Print Assumptions C75_box_mass_refuted.

Local Open Scope R_scope.
(** ** C74 An update puts the entity where it was asked to be *)
(** Missing: numbers that are not finite, and an entity whose colliders were all removed while its centre of mass was off
    its origin (C43). *)
Theorem C74_placed_partial : forall ord s h src s' e o p r,
  good_order ord -> reachable s -> get_entity s h = Some e -> pe_last_orient e = ofin o ->
  pe_pos src = vfin p -> pe_rot src = vfin r ->
  ((exists pt, parts_of s e pt) \/ (exists c k, In c (pe_colliders e) /\ get_collider s c = Some k /\ mass_of k = PInf)) ->
  pe_colliders e <> [] \/ o_off o = mkV 0 0 0 ->
  update_entity ord s h src = Ok (s', true) ->
  exists e' o', get_entity s' h = Some e' /\ pe_pos e' = vfin p /\ pe_last_orient e' = ofin o' /\ o_pos o' = p /\ o_off o' = o_off o /\ unit_o o' /\
    (2 * tiny < vlen r -> turns_by (direction_into_world o') r) /\ (vlen r <= 2 * tiny -> o_rot o' = mkQ 0 0 0 1) /\
    (vlen r <= PI -> 2 * tiny < vlen r \/ r = mkV 0 0 0 -> pe_rot e' = vfin r).
Proof. exact @update_turned. Qed.
Print Assumptions C74_placed_partial.
Example C74_example : exists s h e o pt s', reachable s /\ get_entity s h = Some e /\ pe_last_orient e = ofin o /\ parts_of s e pt /\ pe_colliders e <> [] /\
  o_off o <> mkV 0 0 0 /\ o_pos o <> mkV 7 8 9 /\ pe_pos moved = vfin (mkV 7 8 9) /\ pe_rot moved = vfin (mkV 1 0 0) /\ update_entity in_order s h moved = Ok (s', true).
Proof. exact ball_placed. Qed.

(** ** C76 Opposite forces leave the total momentum alone *)
(** Forces that depend only on where the entities are, and cancel, in steps without collisions (C65 covers collisions when
    the forces are known). *)
Theorem C76_balanced_partial : forall ord s d s' F m v,
  good_order ord -> step ord s (Fin d) = Ok s' -> n_lt (n_abs (Fin d)) EPSILON = false -> s_records s' = [] ->
  (forall h e, get_entity s h = Some e ->
     pe_last_total_mass e = Fin (m h) /\ 1 / 1000000 < m h /\ pe_vel e = vfin (v h) /\ pe_asleep e = false) ->
  forces_of_place s (Fin d) (fun gh h => vfin (F gh h)) ->
  vsum (map (fun gh => vsum (map (F gh) (ahandles (s_ents s)))) (ahandles (s_gens s))) = mkV 0 0 0 ->
  exists v',
    (forall h, get_entity s h <> None -> exists e', get_entity s' h = Some e' /\ pe_last_total_mass e' = Fin (m h) /\ pe_vel e' = vfin (v' h)) /\
    vsum (map (fun h => vscale (v' h) (m h)) (ahandles (s_ents s))) = vsum (map (fun h => vscale (v h) (m h)) (ahandles (s_ents s))).
Proof. exact balanced_momentum. Qed.
Print Assumptions C76_balanced_partial.
(** Two entities that pull each other. *)
Example C76_example : exists s', step in_order pair_state (Fin (1 / 2)) = Ok s' /\ n_lt (n_abs (Fin (1 / 2))) EPSILON = false /\ s_records s' = [] /\
  (forall h e, get_entity pair_state h = Some e -> pe_last_total_mass e = Fin 1 /\ 1 / 1000000 < 1 /\ pe_vel e = vfin (pair_vel h) /\ pe_asleep e = false) /\
  forces_of_place pair_state (Fin (1 / 2)) (fun gh h => vfin (pullF gh h)) /\
  vsum (map (fun gh => vsum (map (pullF gh) (ahandles (s_ents pair_state)))) (ahandles (s_gens pair_state))) = mkV 0 0 0 /\
  ahandles (s_ents pair_state) = [hd 0; hd 1].
Proof. exact pair_example. Qed.
(** A damper that always answers opposite forces for the same state stops both entities: the second is shown the first
    with its new velocity. *)
Theorem C76_damper_refuted : forall L (N := F32 L),
  (forall n dt w f g f' g', make_force (damper L n) dt w (hd 0) = Ok (f, g) -> make_force (damper L n) dt w (hd 1) = Ok (f', g') -> f_force f' = vneg (f_force f)) /\
  exists s s', reachable s /\ get_generator s (hd 0) = Some (damper L 9) /\ ahandles (s_gens s) = [hd 0] /\ ahandles (s_ents s) = [hd 0; hd 1] /\
    step in_order s n1 = Ok s' /\ s_records s' = [] /\ speeds L s true = true /\ speeds L s' false = true.
Proof. intros L N. exact (conj (damper_opposite L) (damper_slows L)). Qed.
Print Assumptions C76_damper_refuted.
