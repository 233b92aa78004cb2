(** * Properties of the stores: C01-C08, C44, C45.

    [reachable s] means: some history of API calls leads from [system_new] to [s]
    (Spec.v).  Theorems over [T] and [N : Num T] hold in particular for
    binary32 ([F32 L], any libm) and for exact arithmetic ([EReal]). *)
From Coq Require Import ZArith List Bool Permutation.
From Flocq Require Import IEEE754.BinarySingleNaN.
Import ListNotations.
From Verif Require Import Num Vec Res Arena Orient Colliders Collide EntityM SystemM Spec Examples
  ResP ArenaP StoreP Store2P OrderP MeshP ArithP ValidP RejectP.

(** ** C01 Handles never alias *)
Theorem C01_handles_unique : forall (T : Type) (N : Num T) (hist : list (call T)) s ans,
  Forall call_ok hist -> run hist system_new = Ok (s, ans) ->
  forall k i j h, created k hist ans i h -> created k hist ans j h -> i = j.
Proof. exact @handles_unique_new. Qed.
Print Assumptions C01_handles_unique.

Theorem C01_removed_stays_removed : forall (T : Type) (N : Num T) k (s0 s1 s2 : system T) h,
  reachable s0 -> follows s0 s1 -> follows s1 s2 ->
  alive k s0 h -> ~ alive k s1 h -> ~ alive k s2 h.
Proof. exact @dead_forever. Qed.
Print Assumptions C01_removed_stays_removed.

(** A history that removes an entity and reuses its slot: calls 0, 1 and 10 return entity handles. *)
Example C01_example : forall L (N := F32 L), exists s ans, Forall call_ok (hist_store L) /\
  @run f32 (F32 L) (hist_store L) (@system_new f32 (F32 L)) = Ok (s, ans) /\
  created KEntity (hist_store L) ans 0 (mkH 0 0) /\ created KEntity (hist_store L) ans 10 (mkH 0 1) /\
  ~ @alive f32 (F32 L) KEntity s (mkH 0 0) /\ @alive f32 (F32 L) KEntity s (mkH 0 1).
Proof.
  intros L N. exists (state_after L (hist_store L)), (answers L (hist_store L)).
  split; [apply hist_store_ok|]. split; [apply run_state; vm_compute; reflexivity|].
  split; [|split; [|split]].
  - eexists _, _. split; [reflexivity|]. split; [exact I|vm_compute; reflexivity].
  - eexists _, _. split; [reflexivity|]. split; [exact I|vm_compute; reflexivity].
  - apply is_none_ok. vm_compute. reflexivity.
  - apply is_some_ok. vm_compute. reflexivity.
Qed.

(** ** C02 Entity store behaves as a map *)
Theorem C02_add_entity : forall (T : Type) (N : Num T) (s : system T) src, reachable s ->
  if n_lt (pe_own_mass src) n0 then add_entity s src = Ok (s, None)
  else exists s' h e, add_entity s src = Ok (s', Some h) /\ get_entity s h = None /\ get_entity s' h = Some e /\
    pe_pos e = pe_pos src /\ pe_rot e = qscaled_axis (qfrom_scaled_axis (pe_rot src)) /\
    pe_vel e = pe_vel src /\ pe_angvel e = pe_angvel src /\
    pe_own_mass e = pe_own_mass src /\ pe_last_total_mass e = pe_own_mass src /\
    pe_asleep e = false /\ pe_colliders e = [] /\
    (forall h', h' <> h -> get_entity s' h' = get_entity s h') /\
    (forall c, get_collider s' c = get_collider s c) /\ (forall g, get_generator s' g = get_generator s g).
Proof. exact @add_entity_map. Qed.
Print Assumptions C02_add_entity.

Theorem C02_remove_entity : forall (T : Type) (N : Num T) ord (s : system T) h s' b,
  good_order ord -> reachable s -> remove_entity ord s h = Ok (s', b) ->
  get_entity s' h = None /\ (forall h', h' <> h -> get_entity s' h' = get_entity s h').
Proof. exact @remove_entity_map. Qed.
Print Assumptions C02_remove_entity.

Theorem C02_link_frame : forall (T : Type) (N : Num T) ord (s : system T) ch t s' b,
  good_order ord -> reachable s -> link_collider ord s ch t = Ok (s', b) ->
  forall h, t <> Some h -> owner s ch <> Some h -> get_entity s' h = get_entity s h.
Proof. exact @link_entity_frame. Qed.
Print Assumptions C02_link_frame.

Theorem C02_update_collider_frame : forall (T : Type) (N : Num T) ord (s : system T) ch src s' b,
  good_order ord -> reachable s -> update_collider ord s ch src = Ok (s', b) ->
  forall h, owner s ch <> Some h -> get_entity s' h = get_entity s h.
Proof. exact @update_collider_entity_frame. Qed.
Print Assumptions C02_update_collider_frame.

(** [update_entity] may wake other entities; it changes nothing else about them. *)
Theorem C02_update_entity : forall (T : Type) (N : Num T) ord (s : system T) h src s' b,
  good_order ord -> reachable s -> update_entity ord s h src = Ok (s', b) ->
  (b = true <-> get_entity s h <> None /\ n_lt (pe_own_mass src) n0 = false) /\
  (b = true -> exists e e', get_entity s h = Some e /\ get_entity s' h = Some e' /\
    pe_vel e' = pe_vel src /\ pe_angvel e' = pe_angvel src /\ pe_own_mass e' = pe_own_mass src /\
    pe_rot e' = qscaled_axis (qfrom_scaled_axis (pe_rot src)) /\
    pe_colliders e' = pe_colliders e) /\
  (forall h' e, h' <> h -> get_entity s h' = Some e -> exists e', get_entity s' h' = Some e' /\ same_but_asleep e e') /\
  (forall h', get_entity s' h' = None <-> get_entity s h' = None) /\
  (forall c, get_collider s' c = get_collider s c) /\ (forall g, get_generator s' g = get_generator s g).
Proof. exact @update_entity_map. Qed.
Print Assumptions C02_update_entity.

Definition reached (L : Libm) (n : nat) : system f32 := state_after L (firstn n (hist_store L)).
(** Every prefix of the example history is reachable, and the calls of the theorems succeed on it. *)
Lemma reached_reachable : forall L n, @reachable f32 (F32 L) (reached L n).
Proof.
  intros L n. apply state_reachable.
  - apply Forall_forall. intros c Hc. pose proof (hist_store_ok L) as H. rewrite Forall_forall in H. apply H.
    rewrite <- (firstn_skipn n). apply in_or_app. now left.
  - do 14 (destruct n as [|n]; [vm_compute; reflexivity|]). vm_compute. reflexivity.
Qed.
Definition succeeds {A} (r : res (system f32 * A)) (f : A -> bool) : bool := match r with Ok (_, a) => f a | _ => false end.
Example C02_example : forall L (N := F32 L),
  succeeds (add_entity (reached L 13) (ent (vec 1 2 3) (vec 4 5 6) n1)) (fun a => match a with Some _ => true | None => false end) = true /\
  succeeds (remove_entity in_order (reached L 13) (mkH 0 1)) (fun b => b) = true /\
  succeeds (link_collider in_order (reached L 9) (hd 0) (Some (hd 1))) (fun b => b) = true /\
  succeeds (update_collider in_order (reached L 9) (hd 0) (ball vzero n2 n2)) (fun b => b) = true /\
  succeeds (update_entity in_order (reached L 9) (hd 0) (ent (vec 1 2 3) (vec 4 5 6) n1)) (fun b => b) = true.
Proof. intros L N. vm_compute. auto. Qed.

(** ** C03 Collider store behaves as a map *)
Theorem C03_add_collider : forall (T : Type) (N : Num T) (O : Ord N) (O2 : Ord2 O) (s : system T) src,
  reachable s -> forall s' ans, add_collider s src = Ok (s', ans) ->
  (ans = None <-> ~ acceptable src) /\
  (forall h, ans = Some h -> get_collider s h = None /\
    (exists c, get_collider s' h = Some c /\ stored_as (fun v => vdivs v (vmag v)) None src c) /\
    (forall h', h' <> h -> get_collider s' h' = get_collider s h') /\
    (forall k, get_entity s' k = get_entity s k) /\ (forall g, get_generator s' g = get_generator s g)).
Proof. exact @add_collider_stored. Qed.
Print Assumptions C03_add_collider.

Theorem C03_update_collider : forall (T : Type) (N : Num T) (O : Ord N) (O2 : Ord2 O) ord (s : system T) h src s' b,
  good_order ord -> reachable s -> update_collider ord s h src = Ok (s', b) ->
  (forall h', h' <> h -> get_collider s' h' = get_collider s h') /\
  (b = true <-> exists c, get_collider s h = Some c /\ kind_same c src /\ acceptable src) /\
  (b = true -> exists c', get_collider s' h = Some c' /\ stored_as (fun v => v) (owner s h) src c') /\
  (b = false -> get_collider s' h = get_collider s h).
Proof. exact @update_collider_stored. Qed.
Print Assumptions C03_update_collider.

Theorem C03_remove_collider : forall (T : Type) (N : Num T) (s : system T) h s',
  reachable s -> remove_collider s h = Ok s' ->
  get_collider s' h = None /\ (forall h', h' <> h -> get_collider s' h' = get_collider s h') /\
  (forall e, get_entity s' e = get_entity s e).
Proof. exact @remove_collider_map. Qed.
Print Assumptions C03_remove_collider.

Theorem C03_link_collider : forall (T : Type) (N : Num T) ord (s : system T) ch t s' b,
  good_order ord -> reachable s -> link_collider ord s ch t = Ok (s', b) ->
  (forall h', h' <> ch -> get_collider s' h' = get_collider s h') /\
  (b = true -> exists c, get_collider s ch = Some c /\ get_collider s' ch = Some (c_set_entity c t)).
Proof. exact @link_collider_map. Qed.
Print Assumptions C03_link_collider.

(** The two laws of arithmetic used ([Ord], [Ord2]) hold of binary32 and of the extended reals. *)
Definition C03_f32 (L : Libm) := C03_add_collider f32 (F32 L) (Ord_F32 L) (Ord2_F32 L).
Definition C03_er := C03_add_collider ER EReal Ord_ER Ord2_ER.
Example C03_example : forall L (N := F32 L),
  succeeds (add_collider (reached L 9) (crate n2)) (fun a => match a with Some _ => true | None => false end) = true /\
  succeeds (add_collider (reached L 9) (ball vzero n0 n1)) (fun a => match a with Some _ => false | None => true end) = true /\
  succeeds (update_collider in_order (reached L 9) (hd 2) floor) (fun b => b) = true /\
  (match remove_collider (reached L 9) (hd 2) with Ok s => match get_collider s (hd 2) with None => true | _ => false end | _ => false end) = true.
Proof. intros L N. vm_compute. auto. Qed.

(** ** C04 Links are always consistent in both directions *)
Theorem C04_links_consistent : forall (T : Type) (N : Num T) (s : system T), reachable s ->
  forall h c, lists_collider s h c <-> owner s c = Some h.
Proof. exact @links_consistent. Qed.
Print Assumptions C04_links_consistent.
Theorem C04_listed_once : forall (T : Type) (N : Num T) (s : system T) h (e : entity T), reachable s ->
  get_entity s h = Some e -> NoDup (pe_colliders e).
Proof. exact @colliders_nodup. Qed.
Print Assumptions C04_listed_once.
Theorem C04_listed_alive : forall (T : Type) (N : Num T) (s : system T) h c, reachable s ->
  lists_collider s h c -> alive KCollider s c.
Proof. exact @listed_alive. Qed.
Print Assumptions C04_listed_alive.
Theorem C04_owner_alive : forall (T : Type) (N : Num T) (s : system T) h c, reachable s ->
  owner s c = Some h -> alive KEntity s h.
Proof. exact @owner_alive. Qed.
Print Assumptions C04_owner_alive.
Example C04_example : forall L, @reachable f32 (F32 L) (reached L 9) /\ @owner f32 (reached L 9) (hd 1) = Some (hd 1).
Proof. intros L. split; [apply reached_reachable|vm_compute; reflexivity]. Qed.

(** ** C05 link_collider moves exactly one collider *)
Theorem C05_link_moves : forall (T : Type) (N : Num T) ord (s : system T) ch t, good_order ord -> reachable s ->
  exists s' b, link_collider ord s ch t = Ok (s', b) /\
    (b = true <-> alive KCollider s ch /\ (forall h, t = Some h -> alive KEntity s h)) /\
    (b = false -> s' = s) /\
    (b = true -> owner s' ch = t /\ (forall c, c <> ch -> owner s' c = owner s c) /\
       (forall h c, lists_collider s' h c <-> if heqb c ch then t = Some h else lists_collider s h c)).
Proof. exact @link_moves. Qed.
Print Assumptions C05_link_moves.
(** Moving a collider from one entity to another. *)
Example C05_example : forall L (N := F32 L), @reachable f32 (F32 L) (reached L 9) /\
  owner (reached L 9) (hd 0) = Some (hd 0) /\
  match link_collider backwards (reached L 9) (hd 0) (Some (hd 1)) with
  | Ok (s', true) => owner s' (hd 0) = Some (hd 1) | _ => False end.
Proof. intros L N. split; [apply reached_reachable|]. vm_compute. auto. Qed.

(** ** C06 remove_entity removes the entity and its colliders, nothing else *)
Theorem C06_remove_entity : forall (T : Type) (N : Num T) ord (s : system T) h, good_order ord -> reachable s ->
  exists s' b, remove_entity ord s h = Ok (s', b) /\
    (b = true <-> alive KEntity s h) /\ (b = false -> s' = s) /\
    (forall h', get_entity s' h' = if heqb h h' then None else get_entity s h') /\
    (forall c, owner s c = Some h -> get_collider s' c = None) /\
    (forall c, owner s c <> Some h -> get_collider s' c = get_collider s c) /\
    (forall g, get_generator s' g = get_generator s g) /\
    s_records s' = s_records s /\ s_debug s' = s_debug s /\ s_iteration_max s' = s_iteration_max s /\
    s_energy_thr s' = s_energy_thr s /\ s_time_thr s' = s_time_thr s.
Proof. exact @remove_entity_exact. Qed.
Print Assumptions C06_remove_entity.
Example C06_example : forall L, @reachable f32 (F32 L) (reached L 9) /\ @alive f32 (F32 L) KEntity (reached L 9) (hd 0) /\
  @owner f32 (reached L 9) (hd 0) = Some (hd 0).
Proof. intros L. split; [apply reached_reachable|]. split; [apply is_some_ok|]; vm_compute; reflexivity. Qed.

(** ** C07 Rejected calls have no effect.
    Full statement: the state is unchanged whenever a call reports failure.
    Missing from the partial theorems: [update_collider] rejecting an invalid
    value of the right kind, which recomputes the owner's mass. *)
Theorem C07_rejected_no_effect_partial : forall (T : Type) (N : Num T) ord (s : system T) o s', good_order ord -> reachable s ->
  match o with
  | OAddEntity _ | OAddCollider _ => exec ord s o = Ok (s', AHandle None)
  | ORemoveEntity _ | OUpdateEntity _ _ | OLinkCollider _ _ => exec ord s o = Ok (s', ABool false)
  | OUpdateCollider h src => exec ord s o = Ok (s', ABool false) /\
      (forall c, get_collider s h = Some c -> ~ kind_same c src)
  | ORemoveGenerator _ => exec ord s o = Ok (s', AGen None)
  | _ => False
  end -> s' = s.
Proof. exact @rejected_other_kind. Qed.
Print Assumptions C07_rejected_no_effect_partial.
(** In the remaining case only the owner's position, mass and inertia are recomputed. *)
Theorem C07_rejected_update_collider_partial : forall (T : Type) (N : Num T) ord (s : system T) h src s',
  good_order ord -> reachable s -> update_collider ord s h src = Ok (s', false) ->
  (forall c, get_collider s' c = get_collider s c) /\ (forall g, get_generator s' g = get_generator s g) /\
  (forall k, owner s h <> Some k -> get_entity s' k = get_entity s k) /\
  (forall k e, owner s h = Some k -> get_entity s k = Some e -> exists e', get_entity s' k = Some e' /\
     pe_vel e' = pe_vel e /\ pe_angvel e' = pe_angvel e /\ pe_colliders e' = pe_colliders e /\
     pe_own_mass e' = pe_own_mass e /\ pe_asleep e' = pe_asleep e).
Proof. exact @rejected_update_collider. Qed.
Print Assumptions C07_rejected_update_collider_partial.
(** The full statement is false in binary32: the recomputation moves the entity by a rounding error. *)
Theorem C07_rejected_no_effect_refuted : forall L (N := F32 L), exists (s : system f32) h src s',
  reachable s /\ update_collider in_order s h src = Ok (s', false) /\
  exists k e e', get_entity s k = Some e /\ get_entity s' k = Some e' /\
    is_finite (vx (pe_pos e)) = true /\ n_eq (vx (pe_pos e')) (vx (pe_pos e)) = false.
Proof.
  intros L N. set (s := state_after L (hist_drift L)). set (src := CSphere (sphere_new n0)).
  assert (H : ok_with (update_collider in_order s (hd 0) src) (fun r => negb (snd r) &&
     some_with (get_entity s (hd 0)) (fun e => some_with (get_entity (fst r) (hd 0)) (fun e' =>
       is_finite (vx (pe_pos e)) && negb (n_eq (vx (pe_pos e')) (vx (pe_pos e)))))) = true) by (vm_compute; reflexivity).
  apply ok_with_ex in H. destruct H as ([s' b] & E & H). cbn [fst snd] in H. apply andb_true_iff in H. destruct H as (Hb & H).
  apply negb_true_iff in Hb. apply some_with_ex in H. destruct H as (e & E1 & H).
  apply some_with_ex in H. destruct H as (e' & E2 & H). apply andb_true_iff in H. destruct H as (H1 & H2). apply negb_true_iff in H2.
  exists s, (hd 0), src, s'. split; [apply state_reachable; [apply hist_drift_ok|vm_compute; reflexivity]|].
  split; [rewrite E; now rewrite Hb|]. exists (hd 0), e, e'. auto.
Qed.
Print Assumptions C07_rejected_no_effect_refuted.
Example C07_example : forall L (N := F32 L), succeeds (update_entity in_order (reached L 9) (mkH 7 0) entity_new) negb = true /\
  succeeds (update_collider in_order (reached L 9) (hd 0) floor) negb = true /\
  succeeds (link_collider in_order (reached L 9) (hd 0) (Some (mkH 7 0))) negb = true.
Proof. intros L N. vm_compute. auto. Qed.

(** ** C08 Only valid objects are ever stored *)
Theorem C08_stored_colliders_valid : forall L (N := F32 L) (s : system f32), reachable s ->
  forall h c, get_collider s h = Some c -> collider_ok c.
Proof. exact (fun L => @stored_colliders_ok f32 (F32 L) (Ord_F32 L) (Ord2_F32 L)). Qed.
Print Assumptions C08_stored_colliders_valid.
Theorem C08_stored_own_mass : forall (T : Type) (N : Num T) (s : system T), reachable s ->
  forall h (e : entity T), get_entity s h = Some e -> n_lt (pe_own_mass e) n0 = false.
Proof. exact @stored_own_mass. Qed.
Print Assumptions C08_stored_own_mass.
(** "Not negative and not NaN" is what [0 <= m] says in binary32. *)
Example C08_le_excludes_nan : n_le (Num := F32 {| l_sin := fun x => x; l_cos := fun x => x; l_atan2 := fun x y => x |}) (n0 (N := F32 {| l_sin := fun x => x; l_cos := fun x => x; l_atan2 := fun x y => x |})) B754_nan = false.
Proof. reflexivity. Qed.
Example C08_example : forall L, @reachable f32 (F32 L) (reached L 9) /\ exists c, get_collider (reached L 9) (hd 2) = Some c.
Proof. intros L. split; [apply reached_reachable|]. apply is_some_ex. vm_compute. reflexivity. Qed.

(** ** C44 Mesh geometry stays well formed *)
Theorem C44_mesh_well_formed : forall (T : Type) (N : Num T) (m : mesh_c T), mesh_built m -> mesh_wf m.
Proof. exact @mesh_built_wf. Qed.
Print Assumptions C44_mesh_well_formed.
Theorem C44_add_face : forall (T : Type) (N : Num T) (m : mesh_c T) pts m', mesh_wf m -> add_face m pts = Ok m' ->
  mesh_wf m' /\ me_pos m' = me_pos m /\ me_mat m' = me_mat m /\ me_ent m' = me_ent m /\
  (exists ext, me_verts m' = me_verts m ++ ext /\ incl ext pts) /\
  exists face, me_faces m' = me_faces m ++ [face] /\ Forall2 (near_vertex (me_verts m')) face pts /\
    (forall e, In e (me_edges m') <-> In e (me_edges m) \/ exists a b, next_to face a b /\ e = (min a b, max a b)).
Proof. exact @add_face_spec. Qed.
Print Assumptions C44_add_face.
Theorem C44_add_face_accepts : forall (T : Type) (N : Num T) (m : mesh_c T) pts,
  (exists m', add_face m pts = Ok m') <-> flat_convex pts.
Proof. exact @add_face_accepts. Qed.
Print Assumptions C44_add_face_accepts.
Example C44_example : forall L, exists m, tetra L = Ok m /\ length (me_verts m) = 4 /\ length (me_faces m) = 4 /\ length (me_edges m) = 6.
Proof.
  intros L. assert (H : ok_with (tetra L) (fun m => Nat.eqb (length (me_verts m)) 4 && Nat.eqb (length (me_faces m)) 4 &&
    Nat.eqb (length (me_edges m)) 6) = true) by (vm_compute; reflexivity).
  apply ok_with_ex in H. destruct H as (m & E & H). apply andb_true_iff in H. destruct H as (H & H3).
  apply andb_true_iff in H. destruct H as (H1 & H2). apply Nat.eqb_eq in H1, H2, H3. eauto.
Qed.

(** ** C45 A step never touches colliders, links, masses or generators *)
Theorem C45_step_frame : forall (T : Type) (N : Num T) ord (s : system T) dt s', step ord s dt = Ok s' ->
  (forall c, get_collider s' c = get_collider s c) /\
  (forall g, alive KGenerator s' g <-> alive KGenerator s g) /\
  (forall h, alive KEntity s' h <-> alive KEntity s h) /\
  (forall h e e', get_entity s h = Some e -> get_entity s' h = Some e' ->
     pe_colliders e' = pe_colliders e /\ pe_own_mass e' = pe_own_mass e /\
     pe_last_total_mass e' = pe_last_total_mass e /\ pe_last_prep_moi e' = pe_last_prep_moi e) /\
  s_iteration_max s' = s_iteration_max s /\ s_energy_thr s' = s_energy_thr s /\ s_time_thr s' = s_time_thr s.
Proof. exact @step_frame_pub. Qed.
Print Assumptions C45_step_frame.
Example C45_example : forall L (N := F32 L), match step in_order (reached L 9) (n_frac 1 10) with Ok _ => true | _ => false end = true.
Proof. intros L N. vm_compute. reflexivity. Qed.
