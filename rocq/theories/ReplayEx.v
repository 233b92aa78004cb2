(** * ReplayEx: the same calls with two different orders of the hash sets (C81) *)
From Coq Require Import ZArith List Bool Permutation Lia.
From Flocq Require Import IEEE754.BinarySingleNaN.
Import ListNotations.
From Verif Require Import Num Vec Res Arena Orient Colliders Collide EntityM SystemM Spec OrderP PanicSpec Examples ResP ArenaP ArithP StoreP NoPanicP ReplaySpec.

(** The calls of [hist], made while hash sets iterate backwards. *)
Definition reversed {T} (hist : list (call T)) : list (call T) := map (fun c => (backwards, snd c)) hist.
Lemma reversed_same {T} (hist : list (call T)) : map snd hist = map snd (reversed hist).
Proof. unfold reversed. rewrite map_map. reflexivity. Qed.
Lemma reversed_ok {T} {N : Num T} (hist : list (call T)) : Forall call_ok hist -> Forall call_ok (reversed hist).
Proof. intros H. unfold reversed. apply Forall_map. revert H. apply Forall_impl. intros [ord o] (_ & H). split; [apply backwards_good|exact H]. Qed.

Section Slim.
  Context (L : Libm).
  #[local] Instance NS : Num f32 := F32 L.
  Definition slimb (s : system f32) : bool := forallb (fun h => some_with (aget (s_ents s) h) (fun e => Nat.leb (length (e_colliders e)) 1)) (ahandles (s_ents s)).
  Lemma slimb_ok s : slimb s = true -> slim s.
  Proof.
    intros H h e He. unfold get_entity in He. destruct (aget (s_ents s) h) as [i|] eqn:E; [|discriminate]. injection He as <-. unfold slimb in H. rewrite forallb_forall in H.
    specialize (H h). rewrite E in H. cbn [some_with] in H. apply Nat.leb_le. apply H. apply ahandles_in. congruence.
  Qed.
  Lemma state_eq hist s ans : run hist system_new = Ok (s, ans) -> state_after L hist = s.
  Proof. intros E. exact (f_equal (fun r => match r with Ok (s, _) => s | _ => system_new end) E). Qed.
  Definition slim_alongb (hist : list (call f32)) : bool := forallb (fun n => slimb (state_after L (firstn n hist))) (seq 0 (S (length hist))).
  Lemma slim_alongb_ok hist : slim_alongb hist = true -> slim_along hist system_new.
  Proof.
    intros H n s ans E. apply slimb_ok. unfold slim_alongb in H. rewrite forallb_forall in H. destruct (Nat.le_gt_cases n (length hist)) as [K|K].
    - specialize (H n). rewrite (state_eq _ _ _ E) in H. apply H. apply in_seq. lia.
    - specialize (H (length hist)). rewrite firstn_all in H. rewrite firstn_all2 in E by lia. rewrite (state_eq _ _ _ E) in H. apply H. apply in_seq. lia.
  Qed.
End Slim.
(** Balls meet, fall asleep, are woken: no matter how the sets are ordered. *)
Lemma sleep_slim : let N := F32 crude in slim_along hist_sleep system_new.
Proof. apply slim_alongb_ok. vm_compute. reflexivity. Qed.

(** ** Three balls on one entity: 2^24, 1 and 1 add up to 2^24 or to 2^24 + 2. *)
Section Sum.
  Context (L : Libm).
  #[local] Instance NM : Num f32 := F32 L.
  Definition hist_sum : list (call f32) := calls [
    OAddEntity (ent vzero vzero n0);
    OAddCollider (ball vzero n1 (n_frac 16777216 1)); OAddCollider (ball vzero n1 n1); OAddCollider (ball vzero n1 n1);
    OLinkCollider (hd 0) (Some (hd 0)); OLinkCollider (hd 1) (Some (hd 0)); OLinkCollider (hd 2) (Some (hd 0))].
  Lemma hist_sum_ok : Forall call_ok hist_sum.
  Proof. apply calls_ok. repeat constructor. Qed.
  Lemma sums_differ : exists s1 s2 ans e1 e2, run hist_sum system_new = Ok (s1, ans) /\ run (reversed hist_sum) system_new = Ok (s2, ans) /\
    get_entity s1 (hd 0) = Some e1 /\ get_entity s2 (hd 0) = Some e2 /\
    n_eq (pe_last_total_mass e1) (n_frac 16777216 1) = true /\ n_eq (pe_last_total_mass e2) (n_frac 16777218 1) = true.
  Proof.
    exists (state_after L hist_sum), (state_after L (reversed hist_sum)), (answers L hist_sum).
    assert (A : answers L (reversed hist_sum) = answers L hist_sum) by (vm_compute; reflexivity).
    assert (R1 : run hist_sum system_new = Ok (state_after L hist_sum, answers L hist_sum)) by (apply run_state; vm_compute; reflexivity).
    assert (R2 : run (reversed hist_sum) system_new = Ok (state_after L (reversed hist_sum), answers L hist_sum)) by (rewrite <- A; apply run_state; vm_compute; reflexivity).
    assert (H1 : some_with (get_entity (state_after L hist_sum) (hd 0)) (fun e => n_eq (pe_last_total_mass e) (n_frac 16777216 1)) = true) by (vm_compute; reflexivity).
    assert (H2 : some_with (get_entity (state_after L (reversed hist_sum)) (hd 0)) (fun e => n_eq (pe_last_total_mass e) (n_frac 16777218 1)) = true) by (vm_compute; reflexivity).
    apply some_with_ex in H1, H2. destruct H1 as (e1 & E1 & M1), H2 as (e2 & E2 & M2). exists e1, e2. auto 10.
  Qed.
End Sum.

(** ** A dumbbell falls flat on the floor: the ball that is looked at first bounces first. *)
Section Dumbbell.
  #[local] Instance ND : Num f32 := F32 crude.
  Definition hist_dumbbell : list (call f32) := calls [
    OAddEntity (ent vzero vzero n0); OAddCollider (CPlane (mkPlane None vzero (vec 0 1 0) n_inf (mkMat n1 n0 n0 n0))); OLinkCollider (hd 0) (Some (hd 0));
    OAddEntity (ent (vec 0 2 0) (vec 0 (-2) 0) n0);
    OAddCollider (CSphere (mkSphere None (vec 2 0 0) n1 n1 (mkMat n1 n0 n0 n0))); OAddCollider (CSphere (mkSphere None (vec (-2) 0 0) n1 n1 (mkMat n1 n0 n0 n0)));
    OLinkCollider (hd 1) (Some (hd 1)); OLinkCollider (hd 2) (Some (hd 1));
    OStep n1].
  Lemma hist_dumbbell_ok : Forall call_ok hist_dumbbell.
  Proof. apply calls_ok. repeat constructor. Qed.
  Lemma spins_differ : exists s1 s2 ans e1 e2, run hist_dumbbell system_new = Ok (s1, ans) /\ run (reversed hist_dumbbell) system_new = Ok (s2, ans) /\
    get_entity s1 (hd 1) = Some e1 /\ get_entity s2 (hd 1) = Some e2 /\ n_lt n0 (vz (pe_angvel e1)) = true /\ n_lt (vz (pe_angvel e2)) n0 = true.
  Proof.
    exists (state_after crude hist_dumbbell), (state_after crude (reversed hist_dumbbell)), (answers crude hist_dumbbell).
    assert (A : answers crude (reversed hist_dumbbell) = answers crude hist_dumbbell) by (vm_compute; reflexivity).
    assert (R1 : run hist_dumbbell system_new = Ok (state_after crude hist_dumbbell, answers crude hist_dumbbell)) by (apply run_state; vm_compute; reflexivity).
    assert (R2 : run (reversed hist_dumbbell) system_new = Ok (state_after crude (reversed hist_dumbbell), answers crude hist_dumbbell)) by (rewrite <- A; apply run_state; vm_compute; reflexivity).
    assert (H1 : some_with (get_entity (state_after crude hist_dumbbell) (hd 1)) (fun e => n_lt n0 (vz (pe_angvel e))) = true) by (vm_compute; reflexivity).
    assert (H2 : some_with (get_entity (state_after crude (reversed hist_dumbbell)) (hd 1)) (fun e => n_lt (vz (pe_angvel e)) n0) = true) by (vm_compute; reflexivity).
    apply some_with_ex in H1, H2. destruct H1 as (e1 & E1 & M1), H2 as (e2 & E2 & M2). exists e1, e2. auto 10.
  Qed.
End Dumbbell.
(** ** An entity with two colliders is removed: which slot is used next depends on which collider went first. *)
Section Handles.
  Context (L : Libm).
  #[local] Instance NH : Num f32 := F32 L.
  Definition hist_handles : list (call f32) := calls [
    OAddEntity (ent vzero vzero n0); OAddCollider (ball vzero n1 n1); OAddCollider (ball vzero n1 n1);
    OLinkCollider (hd 0) (Some (hd 0)); OLinkCollider (hd 1) (Some (hd 0)); ORemoveEntity (hd 0); OAddCollider (ball vzero n1 n1)].
  Lemma hist_handles_ok : Forall call_ok hist_handles.
  Proof. apply calls_ok. repeat constructor. Qed.
  Lemma handles_differ : exists s1 s2 ans, run hist_handles system_new = Ok (s1, ans ++ [AHandle (Some (mkH 1 2))]) /\
    run (reversed hist_handles) system_new = Ok (s2, ans ++ [AHandle (Some (mkH 0 2))]).
  Proof.
    exists (state_after L hist_handles), (state_after L (reversed hist_handles)), (answers L (firstn 6 hist_handles)).
    assert (A : answers L hist_handles = answers L (firstn 6 hist_handles) ++ [AHandle (Some (mkH 1 2))]) by (vm_compute; reflexivity).
    assert (B : answers L (reversed hist_handles) = answers L (firstn 6 hist_handles) ++ [AHandle (Some (mkH 0 2))]) by (vm_compute; reflexivity).
    rewrite <- A, <- B. split; apply run_state; vm_compute; reflexivity.
  Qed.
End Handles.

(** ** The same three balls in exact arithmetic *)
Definition exact_sum : list (call ER) := calls [
  OAddEntity (ent vzero vzero n0);
  OAddCollider (ball vzero n1 (n_frac 16777216 1)); OAddCollider (ball vzero n1 n1); OAddCollider (ball vzero n1 n1);
  OLinkCollider (hd 0) (Some (hd 0)); OLinkCollider (hd 1) (Some (hd 0)); OLinkCollider (hd 2) (Some (hd 0))].
Lemma exact_sum_meets : Forall call_ok exact_sum /\ Forall (fun c => calm (snd c)) exact_sum /\ exists s ans, run exact_sum system_new = Ok (s, ans).
Proof.
  assert (H : Forall call_ok exact_sum) by (apply calls_ok; repeat constructor). split; [exact H|]. split; [repeat constructor|].
  apply careful_history; [exact H|]. unfold exact_sum, calls. cbn [map careful careful_call]. repeat (split; [exact I|intros ? ? _]). exact I.
Qed.
