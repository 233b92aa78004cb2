(** * Concrete cases for C89: bodies seen by an observer who moves steadily *)
From Coq Require Import ZArith Reals List Bool Lra Lia.
From Flocq Require Import IEEE754.BinarySingleNaN.
Import ListNotations.
From Verif Require Import Num Vec Res Arena RangeM Orient Colliders Collide EntityM SystemM OrderP Spec PanicSpec Examples ResP ArenaP FrameP StoreP Store2P ExecP StepP Step2P NoPanicP
  RealSpec RealV OrientP Orient2P GeomP PhysSpec PhysP Phys2P MoveSpec RealEx TwoEx CaseEx FlightSpec FlightP BoostSpec BoostP TraceP EnergyP MomentumP SpinP Geom7P.

(** ** Two balls meet head-on; seen from the side nothing of that is left. *)
Section Seen.
  Context (L : Libm).
  #[local] Instance NB : Num f32 := F32 L.
  Definition smooth : collider f32 := CSphere (mkSphere None vzero n1 n1 (mkMat n1 n0 n0 n0)).
  (** One ball at rest at the origin, another comes along the first axis; everything with the velocity [u] on top. *)
  Definition hist_meet (u : Vec3 f32) : list (call f32) := calls [
    OAddEntity (ent (vec 0 0 0) (vadd (vec 0 0 0) u) n0); OAddEntity (ent (vec 4 0 0) (vadd (vec (-2) 0 0) u) n0);
    OAddCollider smooth; OAddCollider smooth; OLinkCollider (hd 0) (Some (hd 0)); OLinkCollider (hd 1) (Some (hd 1)); OSetIterationMax 1].
  Definition here : system f32 := state_after L (hist_meet (vec 0 0 0)).
  Definition aside : system f32 := state_after L (hist_meet (vec 0 4 0)).
  Lemma hist_meet_ok u : Forall call_ok (hist_meet u).
  Proof. apply calls_ok. repeat constructor. Qed.
  Definition stepped (s : system f32) : system f32 := match step in_order s n2 with Ok s' => s' | _ => s end.
  Lemma stepped_ok s : match step in_order s n2 with Ok _ => true | _ => false end = true -> step in_order s n2 = Ok (stepped s).
  Proof. unfold stepped. destruct (step in_order s n2); [reflexivity|discriminate|discriminate]. Qed.
  (** Comparisons that compute. *)
  Definition handle_eqd (a b : handle) : {a = b} + {a <> b}.
  Proof. decide equality; [apply N.eq_dec|apply Nat.eq_dec]. Defined.
  Definition feqb (a b : f32) : bool :=
    match B2SF a, B2SF b with
    | SpecFloat.S754_zero s, SpecFloat.S754_zero t | SpecFloat.S754_infinity s, SpecFloat.S754_infinity t => Bool.eqb s t
    | SpecFloat.S754_nan, SpecFloat.S754_nan => true
    | SpecFloat.S754_finite s m e, SpecFloat.S754_finite t n f => Bool.eqb s t && Pos.eqb m n && Z.eqb e f
    | _, _ => false
    end.
  Lemma feqb_ok a b : feqb a b = true -> a = b.
  Proof.
    unfold feqb. intros H. apply B2SF_inj. revert H. destruct (B2SF a), (B2SF b); intros H; try discriminate H; try (apply eqb_prop in H; now subst); [reflexivity|].
    apply andb_true_iff in H. destruct H as (H & E). apply andb_true_iff in H. destruct H as (H & M). apply eqb_prop in H. apply Pos.eqb_eq in M. apply Z.eqb_eq in E. now subst.
  Qed.
  Definition veqb (a b : Vec3 f32) : bool := feqb (vx a) (vx b) && feqb (vy a) (vy b) && feqb (vz a) (vz b).
  Lemma veqb_ok a b : veqb a b = true -> a = b.
  Proof. destruct a as [a1 a2 a3], b as [b1 b2 b3]. unfold veqb. cbn [vx vy vz]. rewrite !andb_true_iff. intros ((A & B) & C). apply feqb_ok in A, B, C. now subst. Qed.
  Definition qeqb (a b : Quat f32) : bool := feqb (qi a) (qi b) && feqb (qj a) (qj b) && feqb (qk a) (qk b) && feqb (qw a) (qw b).
  Lemma qeqb_ok a b : qeqb a b = true -> a = b.
  Proof. destruct a as [a1 a2 a3 a4], b as [b1 b2 b3 b4]. unfold qeqb. cbn [qi qj qk qw]. rewrite !andb_true_iff. intros (((A & B) & C) & D). apply feqb_ok in A, B, C, D. now subst. Qed.
  Definition pairb (h : handle) : bool :=
    some_with (aget (s_ents here) h) (fun a => some_with (aget (s_ents aside) h) (fun b =>
      veqb (o_pos (e_orient b)) (o_pos (e_orient a)) && qeqb (o_rot (e_orient b)) (o_rot (e_orient a)) && veqb (o_off (e_orient b)) (o_off (e_orient a)) &&
      (let v := vadd (e_vel a) (vec 0 4 0) in n_eq (vx (e_vel b)) (vx v) && n_eq (vy (e_vel b)) (vy v) && n_eq (vz (e_vel b)) (vz v)) && veqb (e_angvel b) (e_angvel a) &&
      (if list_eq_dec handle_eqd (e_colliders b) (e_colliders a) then true else false) && feqb (e_own_mass b) (e_own_mass a) && feqb (e_total_mass b) (e_total_mass a) && Bool.eqb (e_asleep b) (e_asleep a))).
  Lemma pair_ok h : pairb h = true -> match get_entity here h, get_entity aside h with
      | Some a, Some b => pe_pos b = pe_pos a /\ pe_rot b = pe_rot a /\ same_v (pe_vel b) (vadd (pe_vel a) (vec 0 4 0)) /\ pe_angvel b = pe_angvel a /\
          pe_colliders b = pe_colliders a /\ pe_own_mass b = pe_own_mass a /\ pe_last_total_mass b = pe_last_total_mass a /\ pe_asleep b = pe_asleep a
      | None, None => True
      | _, _ => False
      end.
  Proof.
    unfold pairb, get_entity. destruct (aget (s_ents here) h) as [a|]; [|discriminate]. destruct (aget (s_ents aside) h) as [b|]; [|discriminate]. cbn [some_with option_map].
    destruct (list_eq_dec _ _ _) as [C|]; [|rewrite !andb_false_r; discriminate]. rewrite !andb_true_iff. intros ((((((((O & Q) & F) & V) & W) & _) & M) & T) & S).
    apply veqb_ok in O, F, W. apply qeqb_ok in Q. apply feqb_ok in M, T. apply eqb_prop in S. unfold make_pub. cbn [pe_pos pe_rot pe_vel pe_angvel pe_colliders pe_own_mass pe_last_total_mass pe_asleep].
    unfold rotation_vec, same_v. rewrite Q. tauto.
  Qed.
  Definition ownb (a b : option handle) : bool := match a, b with Some x, Some y => if handle_eqd x y then true else false | None, None => true | _, _ => false end.
  Lemma ownb_ok a b : ownb a b = true -> a = b.
  Proof. destruct a as [x|], b as [y|]; cbn [ownb]; intros H; try discriminate H; [destruct (handle_eqd x y); [now subst|discriminate H]|reflexivity]. Qed.
  Definition colb (a b : collider f32) : bool :=
    match a, b with
    | CSphere s, CSphere t => ownb (sp_ent s) (sp_ent t) && veqb (sp_center s) (sp_center t) && feqb (sp_radius s) (sp_radius t) && feqb (sp_mass s) (sp_mass t) &&
        feqb (mt_rest (sp_mat s)) (mt_rest (sp_mat t)) && feqb (mt_thr (sp_mat s)) (mt_thr (sp_mat t)) && feqb (mt_stat (sp_mat s)) (mt_stat (sp_mat t)) && feqb (mt_dyn (sp_mat s)) (mt_dyn (sp_mat t))
    | _, _ => false
    end.
  Lemma colb_ok a b : colb a b = true -> a = b.
  Proof.
    destruct a as [|s| | |], b as [|t| | |]; try discriminate. destruct s as [a1 a2 a3 a4 [a5 a6 a7 a8]], t as [b1 b2 b3 b4 [b5 b6 b7 b8]]. cbn [colb].
    cbn [sp_ent sp_center sp_radius sp_mass sp_mat mt_rest mt_thr mt_stat mt_dyn]. rewrite !andb_true_iff. intros (((((((A & B) & C) & D) & E) & F) & G) & H).
    apply ownb_ok in A. apply veqb_ok in B. apply feqb_ok in C, D, E, F, G, H. now subst.
  Qed.
  Lemma meet_cols h : get_collider aside h = get_collider here h.
  Proof.
    assert (K : ahandles (s_cols here) = [hd 0; hd 1]) by (vm_compute; reflexivity). assert (K' : ahandles (s_cols aside) = [hd 0; hd 1]) by (vm_compute; reflexivity).
    destruct (in_dec handle_eq_dec h [hd 0; hd 1]) as [I|I].
    - assert (C : some_with (get_collider aside h) (fun a => some_with (get_collider here h) (colb a)) = true) by (destruct I as [<-|[<-|[]]]; vm_compute; reflexivity).
      destruct (get_collider aside h) as [a|]; [|discriminate C]. destruct (get_collider here h) as [b|]; [|discriminate C]. cbn [some_with] in C. apply colb_ok in C. now subst.
    - unfold get_collider. destruct (aget (s_cols aside) h) eqn:E; [exfalso; apply I; rewrite <- K'; apply ahandles_in; rewrite E; discriminate|].
      destruct (aget (s_cols here) h) eqn:F; [exfalso; apply I; rewrite <- K; apply ahandles_in; rewrite F; discriminate|]. reflexivity.
  Qed.
  Lemma head_on : reachable here /\ reachable aside /\ boosted (vec 0 4 0) here aside /\
    exists s' t' a b, step in_order here n2 = Ok s' /\ step in_order aside n2 = Ok t' /\
      get_entity s' (hd 0) = Some a /\ get_entity t' (hd 0) = Some b /\
      n_eq (vx (pe_vel a)) (n_frac (-2) 1) = true /\ n_lt (n_frac (-1) 20) (vx (pe_vel b)) = true /\
      n_eq (vmag (pe_angvel a)) n0 = true /\ n_lt (n_frac 1 4) (vmag (pe_angvel b)) = true.
  Proof.
    split; [apply state_reachable; [apply hist_meet_ok|vm_compute; reflexivity]|]. split; [apply state_reachable; [apply hist_meet_ok|vm_compute; reflexivity]|].
    split.
    { split; [|split].
      - assert (K : ahandles (s_ents here) = [hd 0; hd 1]) by (vm_compute; reflexivity). assert (K' : ahandles (s_ents aside) = [hd 0; hd 1]) by (vm_compute; reflexivity).
        intros h. destruct (in_dec handle_eq_dec h [hd 0; hd 1]) as [I|I].
        + apply pair_ok. destruct I as [<-|[<-|[]]]; vm_compute; reflexivity.
        + assert (X : get_entity here h = None). { unfold get_entity. destruct (aget (s_ents here) h) eqn:E; [|reflexivity]. exfalso. apply I. rewrite <- K. apply ahandles_in. rewrite E. discriminate. }
          assert (Y : get_entity aside h = None). { unfold get_entity. destruct (aget (s_ents aside) h) eqn:E; [|reflexivity]. exfalso. apply I. rewrite <- K'. apply ahandles_in. rewrite E. discriminate. }
          rewrite X, Y. exact Logic.I.
      - exact meet_cols.
      - assert (X : ahandles (s_gens here) = []) by (vm_compute; reflexivity). assert (Y : ahandles (s_gens aside) = []) by (vm_compute; reflexivity).
        assert (Z : forall s : system f32, ahandles (s_gens s) = [] -> forall h, get_generator s h = None).
        { intros s Hs h. unfold get_generator. destruct (aget (s_gens s) h) eqn:E; [|reflexivity]. exfalso. assert (I : In h (ahandles (s_gens s))) by (apply ahandles_in; rewrite E; discriminate). rewrite Hs in I. destruct I. }
        intros h. split; apply Z; assumption. }
    exists (stepped here), (stepped aside).
    assert (S1 : step in_order here n2 = Ok (stepped here)) by (apply stepped_ok; vm_compute; reflexivity).
    assert (S2 : step in_order aside n2 = Ok (stepped aside)) by (apply stepped_ok; vm_compute; reflexivity).
    assert (H1 : some_with (get_entity (stepped here) (hd 0)) (fun e => n_eq (vx (pe_vel e)) (n_frac (-2) 1) && n_eq (vmag (pe_angvel e)) n0) = true) by (vm_compute; reflexivity).
    assert (H2 : some_with (get_entity (stepped aside) (hd 0)) (fun e => n_lt (n_frac (-1) 20) (vx (pe_vel e)) && n_lt (n_frac 1 4) (vmag (pe_angvel e))) = true) by (vm_compute; reflexivity).
    apply some_with_ex in H1, H2. destruct H1 as (a & A & Ha), H2 as (b & B & Hb). apply andb_true_iff in Ha, Hb. destruct Ha as (Ha1 & Ha2), Hb as (Hb1 & Hb2). exists a, b. exact (conj S1 (conj S2 (conj A (conj B (conj Ha1 (conj Hb1 (conj Ha2 Hb2))))))).
  Qed.
End Seen.

(** ** A body alone *)
Local Open Scope R_scope.
Definition drifting (v : V) : system ER := s_set_ents system_new (one (puck_inside (mkV 0 0 0) v)).
Lemma drifting_reachable v : reachable (drifting v).
Proof.
  eapply (follows_exec in_order _ (OAddEntity (puck_entity (mkV 0 0 0) v))); [split; [apply in_order_good|exact Logic.I]|]. unfold exec, add_entity. rewrite puck_entity_in. exact eq_refl.
Qed.
Lemma drifting_ent v h : get_entity (drifting v) h <> None -> h = hd 0.
Proof. intros Hx. apply live_handles in Hx. change (In h [hd 0]) in Hx. destruct Hx as [<-|[]]. exact eq_refl. Qed.
Lemma drifting_steps v d : exists s', step in_order (drifting v) (Fin d) = Ok s'.
Proof.
  destruct (careful_returns in_order (drifting v) (OStep (Fin d))) as (s' & a & E & _).
  - split; [apply in_order_good|exact Logic.I].
  - apply drifting_reachable.
  - intros h k (e & He & Hk). exfalso. assert (h = hd 0) as -> by (apply (drifting_ent v); unfold get_entity; rewrite He; discriminate).
    change (aget (s_ents (drifting v)) (hd 0)) with (Some (puck_inside (mkV 0 0 0) v)) in He. apply (f_equal (fun x => match x with Some e => e_neighbors e | None => [] end)) in He. cbn in He. rewrite <- He in Hk. destruct Hk.
  - intros gh g H. exfalso. unfold get_generator in H. assert (I : In gh (ahandles (s_gens (drifting v)))) by (apply ahandles_in; intros X; rewrite X in H; discriminate). destruct I.
  - apply careful_callb_ok. exact eq_refl.
  - unfold exec in E. inv_ok E. eexists. exact E0.
Qed.
Lemma drifting_silent v d s' : step in_order (drifting v) (Fin d) = Ok s' -> n_lt (n_abs (Fin d)) EPSILON = false -> s_records s' = [].
Proof.
  intros H Hd. destruct (s_records s') as [|r l] eqn:E; [exact eq_refl|]. exfalso.
  destruct (step_records_name in_order _ (Fin d) s' r in_order_good H Hd) as (Ne & A & B & _); [rewrite E; now left|].
  assert (K : forall h, alive KEntity s' h -> h = hd 0).
  { intros h Ha. apply (step_keeps _ _ _ _ H) in Ha. apply live_handles in Ha. change (In h [hd 0]) in Ha. destruct Ha as [<-|[]]. exact eq_refl. }
  apply Ne. rewrite (K _ A), (K _ B). exact eq_refl.
Qed.
Lemma drifts v : exists s', undisturbed (hd 0) (drifting v) [(in_order, 1)] s'.
Proof.
  destruct (drifting_steps v 1) as (s' & H). assert (Nt : n_lt (n_abs (Fin 1)) EPSILON = false) by (apply not_tiny; lra). pose proof (drifting_silent _ _ _ H Nt) as Re.
  exists s'. eapply un_step; [apply in_order_good|rewrite Rabs_pos_eq; lra|exact H| | | |apply un_none].
  - eexists. split; [exact eq_refl|exact eq_refl].
  - rewrite Re. intros (r & [] & _).
  - rewrite Re. discriminate.
Qed.
(** Seen by somebody who moves with (0, -3, 0). *)
Lemma drifts_seen : let s := drifting (mkV 2 0 0) in let t := drifting (mkV 2 3 0) in
  reachable s /\ reachable t /\ gravity_only s [] /\ gravity_only t [] /\ (exists s', undisturbed (hd 0) s [(in_order, 1)] s') /\ (exists t', undisturbed (hd 0) t [(in_order, 1)] t') /\
  exists e e2, get_entity s (hd 0) = Some e /\ get_entity t (hd 0) = Some e2 /\ pe_last_total_mass e = Fin 1 /\ pe_last_total_mass e2 = Fin 1 /\
    pe_pos e = vfin (mkV 0 0 0) /\ pe_pos e2 = vfin (mkV 0 0 0) /\ pe_vel e = vfin (mkV 2 0 0) /\ pe_vel e2 = vfin (vadd (mkV 2 0 0) (mkV 0 3 0)).
Proof.
  cbv zeta. repeat (split; [first [apply drifting_reachable|apply drifts|constructor]|]).
  assert (P : forall v, pe_pos (make_pub (puck_inside (mkV 0 0 0) v)) = vfin (mkV 0 0 0)).
  { intros v. exact eq_refl. }
  eexists. eexists. split; [exact eq_refl|]. split; [exact eq_refl|]. split; [exact eq_refl|]. split; [exact eq_refl|]. split; [apply P|]. split; [apply P|]. split; [exact eq_refl|].
  cbn [make_pub puck_inside pe_vel e_vel]. f_equal. apply vext; vunfold; ring.
Qed.

(** ** Two balls that meet, one at rest; seen by somebody who moves with (0, -4, 0) they meet as well, the normal is off. *)
Lemma meeting_seen : exists k k', 
  collide (CSphere (ball 1)) (still (mkV 0 0 0)) (still (mkV 0 0 0)) (CSphere (ball 1)) (still (mkV 3 0 0)) (still (mkV 1 0 0)) = Ok (Some k) /\
  collide (CSphere (ball 1)) (still (mkV 0 0 0)) (move_o (mkV 0 4 0) (still (mkV 0 0 0))) (CSphere (ball 1)) (still (mkV 3 0 0)) (move_o (mkV 0 4 0) (still (mkV 1 0 0))) = Ok (Some k') /\
  c_time k = Fin (1 / 2) /\ c_times k' = c_times k /\ c_pos k = vfin (mkV 1 0 0) /\ c_pos k' = vfin (mkV 1 2 0).
Proof.
  destruct came_to_rest as (k & E & Et & Ep & _).
  assert (U : forall p, unit_o (rest_o p)) by (intros p; unfold unit_o, unit_quat; cbn; ring).
  pose proof (boost_spheres (mkV 0 4 0) (ball 1) (ball 1) 1 1 _ _ _ _ eq_refl eq_refl ltac:(lra) (U (mkV 0 0 0)) (U (mkV 0 0 0)) (U (mkV 3 0 0)) (U (mkV 1 0 0))) as B.
  unfold still in *. cbv zeta in B. rewrite E in B. destruct (collide _ _ (move_o _ _) _ _ _) as [[k'|]| |] eqn:E'; try contradiction B. destruct B as (B1 & t & B2 & B3).
  exists k, k'. split; [exact E|]. split; [exact eq_refl|]. split; [exact Et|]. split; [exact B1|]. split; [exact Ep|]. assert (t = 1 / 2) as -> by congruence.
  rewrite B3, Ep, vfin_add. f_equal. apply vext; vunfold; field.
Qed.

(** ** A ball that lands on the ground, seen by somebody who moves with (-4, 0, 0) *)
Lemma landing_seen : exists k k',
  collide (CSphere (ball 1)) (still (mkV 0 0 3)) (still (mkV 0 0 0)) (CPlane RealSpec.ground) (still (mkV 0 0 0)) (still (mkV 0 0 0)) = Ok (Some k) /\
  collide (CSphere (ball 1)) (still (mkV 0 0 3)) (move_o (mkV 4 0 0) (still (mkV 0 0 0))) (CPlane RealSpec.ground) (still (mkV 0 0 0)) (move_o (mkV 4 0 0) (still (mkV 0 0 0))) = Ok (Some k') /\
  c_times k' = c_times k /\ c_normal k' = c_normal k.
Proof.
  destruct ball_lands as (k & E & _).
  assert (U : forall p, unit_o (rest_o p)) by (intros p; unfold unit_o, unit_quat; cbn; ring).
  pose proof (boost_sphere_plane (mkV 4 0 0) (ball 1) RealSpec.ground (mkV 0 0 1) _ _ _ _ eq_refl (U (mkV 0 0 3)) (U (mkV 0 0 0)) (U (mkV 0 0 0)) (U (mkV 0 0 0))) as (B & Bn).
  unfold still in *. rewrite E in B, Bn. destruct (collide _ _ (move_o _ _) _ _ _) as [[k'|]| |] eqn:E'; try contradiction B. destruct B as (B1 & _).
  exists k, k'. repeat split; assumption.
Qed.
