(** * ContactEx: histories for the properties of contacts (C66 to C69) *)
From Coq Require Import ZArith List Bool Permutation.
Import ListNotations.
From Verif Require Import Num Vec Res Arena Orient Colliders Collide EntityM SystemM Spec Examples ResP ArenaP.

(** Ball 1, nine times as heavy, pushes the resting ball 0, which falls asleep at once.  Ball 1 stays awake, knows
    ball 0 and in the next step passes through it; then it falls asleep as well. *)
Section Ghost.
  #[local] Instance N1 : Num f32 := F32 crude.
  Definition heavy : collider f32 := CSphere (mkSphere None vzero n1 (n_frac 9 1) (mkMat n0 n0 n0 n0)).
  Definition hist_ghost : list (call f32) := calls [
    OAddEntity (ent (vec 0 0 0) vzero n0);
    OAddEntity (ent (vec 3 0 0) (vec (-1) 0 0) n0);
    OAddCollider dull; OAddCollider heavy;
    OLinkCollider (hd 0) (Some (hd 0)); OLinkCollider (hd 1) (Some (hd 1));
    OSetEnergyThr n1; OSetTimeThr n0;
    OStep (n_frac 3 2);
    OStep (n_frac 10 1);
    OSetEnergyThr (n_frac 100 1);
    OStep n1 ].
  Lemma hist_ghost_ok n : Forall call_ok (firstn n hist_ghost).
  Proof.
    assert (H : Forall call_ok hist_ghost) by (apply calls_ok; repeat constructor).
    rewrite Forall_forall in *. intros c Hc. apply H. rewrite <- (firstn_skipn n). apply in_or_app. now left.
  Qed.
  Definition ghost (n : nat) : system f32 := state_after crude (firstn n hist_ghost).
  Lemma ghost_reachable n : n <= 12 -> reachable (ghost n).
  Proof. intros H. apply state_reachable; [apply hist_ghost_ok|]. do 13 (destruct n as [|n]; [vm_compute; reflexivity|]). exfalso. do 12 apply le_S_n in H. inversion H. Qed.
End Ghost.

(** Ball 1 overtakes ball 0 in one long step. *)
Section Chase.
  #[local] Instance N2 : Num f32 := F32 crude.
  Definition hist_chase : list (call f32) := calls [
    OAddEntity (ent (vec 0 0 0) (vec 1 0 0) n0);
    OAddEntity (ent (vec (-5) 0 0) (vec 3 0 0) n0);
    OAddCollider dull; OAddCollider dull;
    OLinkCollider (hd 0) (Some (hd 0)); OLinkCollider (hd 1) (Some (hd 1)) ].
  Definition chase : system f32 := state_after crude hist_chase.
  Lemma chase_reachable : reachable chase.
  Proof. apply state_reachable; [apply calls_ok; repeat constructor|vm_compute; reflexivity]. Qed.
End Chase.

(** The x coordinate of an entity's position; NaN if there is none. *)
Definition x_of (s : system f32) (h : handle) : f32 :=
  match @get_entity f32 (F32 crude) s h with Some e => vx (pe_pos e) | None => @n_nan f32 (F32 crude) end.
(** Both entities are on the x axis. *)
Definition on_axis (s : system f32) (h : handle) : bool :=
  some_with (@get_entity f32 (F32 crude) s h) (fun e => @n_eq f32 (F32 crude) (vy (pe_pos e)) (@n0 f32 (F32 crude)) && @n_eq f32 (F32 crude) (vz (pe_pos e)) (@n0 f32 (F32 crude))).
Definition knows_of (s : system f32) (h k : handle) : bool := some_with (aget (s_ents s) h) (fun e => hmem k (e_neighbors e)).
Lemma knows_contact s h k : knows_of s h k = true <-> contact (s_ents s) h k.
Proof.
  unfold knows_of, contact, some_with, hmem. destruct (aget (s_ents s) h) as [e|]; [|split; [discriminate|intros (? & ? & _); discriminate]].
  rewrite existsb_exists. split.
  - intros (x & Hx & E). destruct (heqb_spec k x) as [->|]; [|discriminate]. exists e. auto.
  - intros (e' & E & Hk). injection E as <-. exists k. split; [exact Hk|apply heqb_refl].
Qed.
Definition ball_of (s : system f32) (h : handle) : bool :=
  some_with (@get_entity f32 (F32 crude) s h) (fun e => match pe_colliders e with [c] => some_with (aget (s_cols s) c) (fun k => match k with CSphere b => @n_eq f32 (F32 crude) (sp_radius b) (@n1 f32 (F32 crude)) | _ => false end) | _ => false end).

(** The same along y, and a floor: an infinitely heavy entity at rest whose only collider is the half space y <= 0. *)
Definition y_of (s : system f32) (h : handle) : f32 :=
  match @get_entity f32 (F32 crude) s h with Some e => vy (pe_pos e) | None => @n_nan f32 (F32 crude) end.
(** Both zeros are zero. *)
Definition at_zero (v : Vec3 f32) : bool := let N := F32 crude in n_eq (vx v) n0 && n_eq (vy v) n0 && n_eq (vz v) n0.
Definition floor_of (s : system f32) (h : handle) : bool := let N := F32 crude in
  some_with (get_entity s h) (fun e => at_zero (pe_pos e) && at_zero (pe_vel e) && at_zero (pe_angvel e) && n_eq (pe_last_total_mass e) n_inf &&
    match pe_colliders e with
    | [c] => some_with (aget (s_cols s) c) (fun k => match k with
        CPlane q => n_eq (vx (pl_normal q)) n0 && n_eq (vy (pl_normal q)) n1 && n_eq (vz (pl_normal q)) n0 && at_zero (pl_pos q) | _ => false end)
    | _ => false end).
(** A ball slides along the floor; after seven steps the floor, which does not move, falls asleep and has the ball as its
    neighbour.  From then on the ball falls. *)
Section Slide.
  #[local] Instance N3 : Num f32 := F32 crude.
  Definition slide_start : list (call f32) := calls ([
    OAddEntity (ent vzero vzero n0);
    OAddEntity (ent (vec 0 1 0) (vec 3 0 0) n0);
    OAddCollider floor; OAddCollider dull;
    OLinkCollider (hd 0) (Some (hd 0)); OLinkCollider (hd 1) (Some (hd 1));
    OAddGenerator (GenGravity (vec 0 (-10) 0))]).
  Definition slide_steps (n : nat) : list (call f32) := calls (repeat (OStep (n_frac 1 60)) n).
  Definition slide : system f32 := state_after crude slide_start.
  Lemma slide_reachable : reachable slide.
  Proof. apply state_reachable; [apply calls_ok; repeat constructor|vm_compute; reflexivity]. Qed.
End Slide.
(** A turning ball falls towards the floor. *)
Section Spin.
  #[local] Instance N4 : Num f32 := F32 crude.
  Definition hist_spin : list (call f32) := calls [
    OAddEntity (ent vzero vzero n0);
    OAddEntity (mkPE (vec 0 2 0) vzero (vec 10 (-3) 0) (vec 0 0 10) [] n0 (orient_new vzero vzero vzero) n0 mzero false);
    OAddCollider floor; OAddCollider dull;
    OLinkCollider (hd 0) (Some (hd 0)); OLinkCollider (hd 1) (Some (hd 1))].
  Definition spin : system f32 := state_after crude hist_spin.
  Lemma spin_reachable : reachable spin.
  Proof. apply state_reachable; [apply calls_ok; repeat constructor|vm_compute; reflexivity]. Qed.
End Spin.
(** A ball of radius 1 and restitution 9/10 is dropped on a floor of restitution 1 from the height 5/8. *)
Section Drop.
  #[local] Instance N5 : Num f32 := F32 crude.
  Definition lively (e : f32) : material f32 := mkMat e n0 n0 n0.
  Definition drop_start : list (call f32) := calls ([
    OAddEntity (ent vzero vzero n0);
    OAddEntity (ent (mkV n0 (n_frac 13 8) n0) vzero n0);
    OAddCollider (CPlane (mkPlane None vzero (vec 0 1 0) n_inf (lively n1)));
    OAddCollider (CSphere (mkSphere None vzero n1 n1 (lively (n_frac 9 10))));
    OLinkCollider (hd 0) (Some (hd 0)); OLinkCollider (hd 1) (Some (hd 1));
    OAddGenerator (GenGravity (vec 0 (-8) 0))]).
  Definition drop_steps (n : nat) : list (call f32) := calls (repeat (OStep (n_frac 1 4)) n).
  Definition drop : system f32 := state_after crude drop_start.
  Lemma drop_reachable : reachable drop.
  Proof. apply state_reachable; [apply calls_ok; repeat constructor|vm_compute; reflexivity]. Qed.
End Drop.
(** All coefficients of restitution are between 0 and 1; the entity does not move. *)
Definition rests_ok (s : system f32) : bool := let N := F32 crude in
  forallb (fun c => some_with (aget (s_cols s) c) (fun k => n_le n0 (mt_rest (c_mat k)) && n_le (mt_rest (c_mat k)) n1)) (ahandles (s_cols s)).
Definition at_rest (s : system f32) (h : handle) : bool := let N := F32 crude in
  some_with (get_entity s h) (fun e => at_zero (pe_vel e) && at_zero (pe_angvel e)).
(** The only forces are gravity, downwards. *)
Definition gravity_down (s : system f32) : bool := let N := F32 crude in
  forallb (fun g => some_with (aget (s_gens s) g) (fun x => match x with GenGravity v => n_eq (vx v) n0 && n_lt (vy v) n0 && n_eq (vz v) n0 | _ => false end)) (ahandles (s_gens s)).
