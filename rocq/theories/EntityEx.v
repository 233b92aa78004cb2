(** * EntityEx: concrete entities and colliders for the properties C36, C43, C49, C50 and C51 *)
From Coq Require Import ZArith Reals Lra Psatz Bool List Permutation.
From Flocq Require Import IEEE754.BinarySingleNaN.
Import ListNotations.
From Verif Require Import Num Vec Res Arena RangeM Orient Colliders Collide EntityM SystemM OrderP Spec EntitySpec Examples ResP ArenaP ArithP FrameP StoreP RangeP
  RealSpec RealV OrientP Orient2P GeomP PhysSpec PhysP Mass2P Mass3P Mass4P Mass5P WriteBackP RealEx.

(** ** Binary32 *)
Section F32Ex.
  Context (L : Libm).
  #[local] Instance NE : Num f32 := F32 L.
  (** An entity that owns the floor. *)
  Definition hist_floor : list (call f32) := calls [OAddEntity (ent (vec 0 0 0) vzero n1); OAddCollider floor; OLinkCollider (hd 0) (Some (hd 0))].
  Lemma hist_floor_ok : Forall call_ok hist_floor.
  Proof. apply calls_ok. repeat constructor. Qed.
  Definition floor_state : system f32 := state_after L hist_floor.
  Lemma floor_reachable : reachable floor_state.
  Proof. apply state_reachable; [apply hist_floor_ok|vm_compute; reflexivity]. Qed.
  Definition vfiniteb (v : Vec3 f32) : bool := n_isfin (vx v) && n_isfin (vy v) && n_isfin (vz v).
  Lemma vfiniteb_ok v : vfiniteb v = true -> vfinite v.
  Proof. unfold vfiniteb, vfinite. rewrite !andb_true_iff. tauto. Qed.
  Definition rotationb (e : ientity f32) : bool :=
    let m := qto_matrix (o_rot (e_orient e)) in
    vfiniteb (mkV (m11 m) (m12 m) (m13 m)) && vfiniteb (mkV (m21 m) (m22 m) (m23 m)) && vfiniteb (mkV (m31 m) (m32 m) (m33 m)).
  Lemma rotationb_ok e : rotationb e = true -> finite_rotation e.
  Proof. unfold rotationb, finite_rotation, mfinite. cbv zeta. rewrite !andb_true_iff. intros ((A & B) & C). auto using vfiniteb_ok. Qed.
  Definition infiniteb (s : system f32) (e : ientity f32) : bool :=
    existsb (fun c => match get_collider s c with Some k => n_isinf (mass_of k) | None => false end) (e_colliders e).
  Lemma infiniteb_ok s e : infiniteb s e = true -> has_infinite s e.
  Proof.
    unfold infiniteb. intros H. apply existsb_exists in H. destruct H as (c & Hc & H). destruct (get_collider s c) as [k|] eqn:E; [|discriminate]. exists c, k. auto.
  Qed.
  Definition impulseb (e : ientity f32) (p j : Vec3 f32) : bool := vfiniteb j && vfiniteb (vcross (vsub p (o_pos (e_orient e))) j).
  Lemma impulseb_ok e p j : impulseb e p j = true -> finite_impulse e p j.
  Proof. unfold impulseb, finite_impulse. rewrite andb_true_iff. intros (A & B). auto using vfiniteb_ok. Qed.
  (** The floor hit by a finite impulse. *)
  Lemma floor_hit : exists s h e p j, reachable s /\ aget (s_ents s) h = Some e /\ has_infinite s e /\ finite_rotation e /\ finite_impulse e p j.
  Proof.
    exists floor_state, (hd 0).
    assert (H : some_with (aget (s_ents floor_state) (hd 0)) (fun e => infiniteb floor_state e && rotationb e && impulseb e (vec 1 1 0) (vec 0 (-5) 2)) = true) by (vm_compute; reflexivity).
    apply some_with_ex in H. destruct H as (e & He & H). apply andb_true_iff in H. destruct H as (H & C). apply andb_true_iff in H. destruct H as (A & B).
    exists e, (vec 1 1 0), (vec 0 (-5) 2). split; [apply floor_reachable|]. split; [exact He|]. split; [now apply infiniteb_ok|]. split; [now apply rotationb_ok|now apply impulseb_ok].
  Qed.
  (** A finite impulse that acts so far away that its moment overflows: 0 times infinity. *)
  Lemma floor_overflow : exists s h e p j, reachable s /\ aget (s_ents s) h = Some e /\ has_infinite s e /\ finite_rotation e /\ vfinite p /\ vfinite j /\
    e_angvel e = vzero /\ n_isnan (vz (e_angvel (apply_impulse e p j))) = true.
  Proof.
    set (big := n_frac (2 ^ 100) 1). set (p := mkV big n0 n0). set (j := mkV n0 big n0). exists floor_state, (hd 0).
    assert (H : some_with (aget (s_ents floor_state) (hd 0)) (fun e => infiniteb floor_state e && rotationb e && vfiniteb p && vfiniteb j &&
      n_isnan (vz (e_angvel (apply_impulse e p j)))) = true) by (vm_compute; reflexivity).
    apply some_with_ex in H. destruct H as (e & He & H). rewrite !andb_true_iff in H. destruct H as ((((A & B) & C) & D) & E).
    exists e, p, j. split; [apply floor_reachable|]. split; [exact He|]. split; [now apply infiniteb_ok|]. split; [now apply rotationb_ok|].
    split; [now apply vfiniteb_ok|]. split; [now apply vfiniteb_ok|]. split; [|exact E].
    assert (X : option_map (fun e => e_angvel e) (aget (s_ents floor_state) (hd 0)) = Some vzero) by reflexivity.
    rewrite He in X. injection X as X. exact X.
  Qed.

  (** A plane is added and then updated with a normal of length 2. *)
  Definition hist_tilt : list (call f32) := calls [OAddCollider floor; OUpdateCollider (hd 0) floor].
  Definition normal_of (s : system f32) : option (Vec3 f32) := match get_collider s (hd 0) with Some (CPlane p) => Some (pl_normal p) | _ => None end.
  Lemma tilt_unnormalised : exists s s', reachable s /\ reachable s' /\ exec in_order s (OUpdateCollider (hd 0) floor) = Ok (s', ABool true) /\
    some_with (normal_of s) (fun n => n_eq (vmag n) n1) = true /\ some_with (normal_of s') (fun n => n_eq (vmag n) n2) = true.
  Proof.
    exists (state_after L (firstn 1 hist_tilt)), (state_after L hist_tilt).
    assert (K : Forall call_ok hist_tilt) by (apply calls_ok; repeat constructor).
    split; [apply state_reachable; [apply Forall_cons_iff in K; destruct K as (K & _); constructor; [exact K|constructor]|vm_compute; reflexivity]|].
    split; [apply state_reachable; [exact K|vm_compute; reflexivity]|]. split; [reflexivity|]. split; vm_compute; reflexivity.
  Qed.

  (** A ball of mass 1 and radius 1 at the origin (inertia 2/5), pushed along y at the point (1, 0, 0) for one second.
      With no iterations allowed it does not move, so no sines are needed. *)
  Fixpoint pusher (n : nat) : generator f32 :=
    GenCustom (fun _ _ _ => match n with O => Panic | S n' => Ok (mkF (vec 0 1 0) (vec 1 0 0), pusher n') end).
  Definition hist_push : list (call f32) := calls [OAddEntity (ent (vec 0 0 0) vzero n0); OAddCollider (Examples.ball vzero n1 n1);
    OLinkCollider (hd 0) (Some (hd 0)); OAddGenerator (pusher 9); OSetIterationMax 0].
  Definition push_state : system f32 := state_after L hist_push.
  (** Angular acceleration 1 / (2/5) = 5/2 is right; the code gives less than 2. *)
  Lemma push_wrong : exists s s' e e', reachable s /\ step in_order s n1 = Ok s' /\ get_entity s (hd 0) = Some e /\ get_entity s' (hd 0) = Some e' /\
    pe_angvel e = vzero /\ o_rot (pe_last_orient e) = qident /\
    n_lt (m33 (pe_last_prep_moi e)) (n_frac 1 2) = true /\ n_lt (n_frac 99 100) (vz (pe_angvel e')) = true /\ n_lt (vz (pe_angvel e')) n2 = true.
  Proof.
    assert (H : ok_with (step in_order push_state n1) (fun s' => some_with (get_entity push_state (hd 0)) (fun e => some_with (get_entity s' (hd 0)) (fun e' =>
      n_lt (m33 (pe_last_prep_moi e)) (n_frac 1 2) && n_lt (n_frac 99 100) (vz (pe_angvel e')) && n_lt (vz (pe_angvel e')) n2))) = true) by (vm_compute; reflexivity).
    apply ok_with_ex in H. destruct H as (s' & Hs & H). apply some_with_ex in H. destruct H as (e & He & H). apply some_with_ex in H. destruct H as (e' & He' & H).
    rewrite !andb_true_iff in H. destruct H as ((A & B) & C). exists push_state, s', e, e'.
    split; [apply state_reachable; [apply calls_ok; repeat constructor|vm_compute; reflexivity]|]. split; [exact Hs|]. split; [exact He|]. split; [exact He'|].
    assert (X : option_map (fun e => (pe_angvel e, o_rot (pe_last_orient e))) (get_entity push_state (hd 0)) = Some (vzero, qident)) by reflexivity.
    rewrite He in X. injection X as X1 X2. auto 10.
  Qed.

  (** The public energy of the entity with the floor, at rest. *)
  Lemma floor_energy : exists s h e, reachable s /\ get_entity s h = Some e /\ pe_vel e = vzero /\ pe_angvel e = vzero /\ n_isnan (pub_energy e) = true.
  Proof.
    exists floor_state, (hd 0).
    assert (H : some_with (get_entity floor_state (hd 0)) (fun e => n_isnan (pub_energy e)) = true) by (vm_compute; reflexivity).
    apply some_with_ex in H. destruct H as (e & He & H). exists e. split; [apply floor_reachable|]. split; [exact He|].
    assert (X : option_map (fun e => (pe_vel e, pe_angvel e)) (get_entity floor_state (hd 0)) = Some (vzero, vzero)) by reflexivity.
    rewrite He in X. injection X as X1 X2. auto.
  Qed.

  (** An entity with an off-centre ball is read, and what was read is added as a second entity.  The copy has no colliders
      but keeps the offset.  Writing the copy back unchanged moves it by 4. *)
  Definition hist_copy : list (call f32) := calls [OAddEntity (ent (vec 1 0 0) vzero n1); OAddCollider (Examples.ball (vec 4 0 0) n1 n1);
    OLinkCollider (hd 0) (Some (hd 0))].
  Definition copied : option (system f32) := match get_entity (state_after L hist_copy) (hd 0) with
    | Some e => match exec in_order (state_after L hist_copy) (OAddEntity e) with Ok (s, _) => Some s | _ => None end
    | None => None end.
  Lemma copy_moves : exists s h e s' e', reachable s /\ get_entity s h = Some e /\ update_entity in_order s h e = Ok (s', true) /\ get_entity s' h = Some e' /\
    n_eq (vx (pe_pos e)) n5 = true /\ n_eq (vx (pe_pos e')) n1 = true.
  Proof.
    assert (H : some_with copied (fun s => some_with (get_entity s (hd 1)) (fun e => ok_with (update_entity in_order s (hd 1) e) (fun r =>
      some_with (get_entity (fst r) (hd 1)) (fun e' => snd r && n_eq (vx (pe_pos e)) n5 && n_eq (vx (pe_pos e')) n1)))) = true) by (vm_compute; reflexivity).
    apply some_with_ex in H. destruct H as (s & Hs & H). apply some_with_ex in H. destruct H as (e & He & H). apply ok_with_ex in H. destruct H as ((s' & b) & Hu & H).
    apply some_with_ex in H. destruct H as (e' & He' & H). cbn [fst snd] in *. rewrite !andb_true_iff in H. destruct H as ((-> & A) & B).
    exists s, (hd 1), e, s', e'. split; [|auto 10]. unfold copied in Hs. destruct (get_entity (state_after L hist_copy) (hd 0)) as [x|]; [|discriminate].
    destruct (exec in_order (state_after L hist_copy) (OAddEntity x)) as [[y a]| |] eqn:Ex; try discriminate. injection Hs as ->.
    eapply follows_trans; [apply (state_reachable L hist_copy); [apply calls_ok; repeat constructor|vm_compute; reflexivity]|].
    eapply (follows_exec in_order _ (OAddEntity x)); [split; [apply in_order_good|exact Logic.I]|exact Ex].
  Qed.
End F32Ex.
Local Open Scope R_scope.

(** ** Exact arithmetic: the ball of RealEx *)
Lemma ball_write_back : exists s h e o pt, reachable s /\ get_entity s h = Some e /\ pe_last_orient e = ofin o /\ 0 <= qw (o_rot o) /\ turned (o_rot o) /\
  finite_v (pe_vel e) /\ finite_v (pe_angvel e) /\ pe_own_mass e <> ENaN /\ parts_of s e pt /\ pe_colliders e <> [] /\ o_off o <> mkV 0 0 0 /\
  pe_own_mass e = Fin 1 /\ (exists v w, pe_vel e = vfin v /\ pe_angvel e = vfin w /\ v <> mkV 0 0 0 /\ w <> mkV 0 0 0).
Proof.
  destruct ball_facts as (e & o & He & R & G & Eo & -> & Ec & Hp & Em).
  exists (ball_state e (Some (hd 0))), (hd 0), (make_pub e), (mkO (mkV 5 0 0) (mkQ 0 0 0 1) (mkV (-4) 0 0)), (fun _ => ball_part).
  destruct (recalc_shape _ _ _ _ He) as (o' & m' & i' & E).
  assert (V : e_vel e = vfin (mkV 0 1 0) /\ e_angvel e = vfin (mkV 0 0 1)) by (rewrite E; split; exact eq_refl). destruct V as (V & W).
  cbn [make_pub pe_last_orient pe_vel pe_angvel pe_own_mass pe_colliders]. rewrite V, W, Em, Ec.
  split; [exact R|]. split; [exact G|]. split; [exact Eo|]. split; [cbn [o_rot qw]; lra|]. split; [left; exact eq_refl|].
  split; [eexists; exact eq_refl|]. split; [eexists; exact eq_refl|]. split; [discriminate|]. split; [exact Hp|]. split; [discriminate|].
  split; [cbn [o_off]; intros X; injection X; lra|]. split; [exact eq_refl|].
  exists (mkV 0 1 0), (mkV 0 0 1). split; [exact eq_refl|]. split; [exact eq_refl|]. split; intros X; injection X; lra.
Qed.
