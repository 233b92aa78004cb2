(** * Prop_Replay: C81, what does not depend on the order of hash sets *)
From Coq Require Import ZArith List Bool Permutation.
From Flocq Require Import IEEE754.BinarySingleNaN.
Import ListNotations.
From Verif Require Import Num Vec Res Arena Orient Colliders Collide EntityM SystemM Spec Examples ReplaySpec ReplayP Replay2P ReplayEx.

(** ** C81: the outcome of a history does not depend on the order of hash sets *)
(** In any arithmetic, single precision included, as long as no entity ever has two colliders. *)
Theorem C81_reproducible_partial : forall (T : Type) (N : Num T) (hist1 hist2 : list (call T)) (s s1 : system T) ans,
  map snd hist1 = map snd hist2 -> Forall call_ok hist1 -> Forall call_ok hist2 -> slim_along hist1 s ->
  run hist1 s = Ok (s1, ans) -> exists s2, run hist2 s = Ok (s2, ans) /\ looks_same s1 s2.
Proof. exact @replay. Qed.
Print Assumptions C81_reproducible_partial.
(** In exact arithmetic, whatever the entities consist of, as long as nothing moves and no entity is removed. *)
Theorem C81_exact_partial : forall (hist1 hist2 : list (call ER)) (s s1 : system ER) ans,
  map snd hist1 = map snd hist2 -> Forall call_ok hist1 -> Forall call_ok hist2 -> Forall (fun c => calm (snd c)) hist1 -> reachable s ->
  run hist1 s = Ok (s1, ans) -> exists s2, run hist2 s = Ok (s2, ans) /\ looks_same s1 s2.
Proof. exact calm_replay. Qed.
Print Assumptions C81_exact_partial.
(** Balls that meet, fall asleep and are woken, with sets that iterate forwards and backwards. *)
Example C81_example : let N := F32 crude in map snd hist_sleep = map snd (reversed hist_sleep) /\ Forall call_ok hist_sleep /\ Forall call_ok (reversed hist_sleep) /\
  slim_along hist_sleep system_new /\ exists s ans, run hist_sleep system_new = Ok (s, ans) /\ length ans = 17.
Proof.
  intros N. split; [apply reversed_same|]. split; [exact (hist_sleep_ok 17)|]. split; [apply reversed_ok; exact (hist_sleep_ok 17)|]. split; [exact sleep_slim|].
  exists (state_after crude hist_sleep), (answers crude hist_sleep). split; [apply run_state; vm_compute; reflexivity|vm_compute; reflexivity].
Qed.
(** Three balls on one entity, in exact arithmetic. *)
Example C81_example_exact : Forall call_ok exact_sum /\ Forall (fun c => calm (snd c)) exact_sum /\ exists s ans, run exact_sum system_new = Ok (s, ans).
Proof. exact exact_sum_meets. Qed.
(** It is false in single precision for entities with several colliders: the same three links give two different masses, ... *)
Theorem C81_mass_refuted : forall L : Libm, let N := F32 L in exists hist1 hist2 (s1 s2 : system f32) ans e1 e2,
  map snd hist1 = map snd hist2 /\ Forall call_ok hist1 /\ Forall call_ok hist2 /\ run hist1 system_new = Ok (s1, ans) /\ run hist2 system_new = Ok (s2, ans) /\
  get_entity s1 (hd 0) = Some e1 /\ get_entity s2 (hd 0) = Some e2 /\
  n_eq (pe_last_total_mass e1) (n_frac 16777216 1) = true /\ n_eq (pe_last_total_mass e2) (n_frac 16777218 1) = true.
Proof.
  intros L N. destruct (sums_differ L) as (s1 & s2 & ans & e1 & e2 & H). exists (hist_sum L), (reversed (hist_sum L)), s1, s2, ans, e1, e2.
  split; [apply reversed_same|]. split; [apply hist_sum_ok|]. split; [apply reversed_ok, hist_sum_ok|]. exact H.
Qed.
Print Assumptions C81_mass_refuted.
(** ... a dumbbell that falls flat on the floor starts to turn one way or the other, ... *)
Theorem C81_step_refuted : let N := F32 crude in exists hist1 hist2 (s1 s2 : system f32) ans e1 e2,
  map snd hist1 = map snd hist2 /\ Forall call_ok hist1 /\ Forall call_ok hist2 /\ run hist1 system_new = Ok (s1, ans) /\ run hist2 system_new = Ok (s2, ans) /\
  get_entity s1 (hd 1) = Some e1 /\ get_entity s2 (hd 1) = Some e2 /\ n_lt n0 (vz (pe_angvel e1)) = true /\ n_lt (vz (pe_angvel e2)) n0 = true.
Proof.
  intros N. destruct spins_differ as (s1 & s2 & ans & e1 & e2 & H). exists hist_dumbbell, (reversed hist_dumbbell), s1, s2, ans, e1, e2.
  split; [apply reversed_same|]. split; [apply hist_dumbbell_ok|]. split; [apply reversed_ok, hist_dumbbell_ok|]. exact H.
Qed.
Print Assumptions C81_step_refuted.
(** ... and after the removal of an entity with two colliders the next collider gets one handle or another. *)
Theorem C81_handle_refuted : forall L : Libm, let N := F32 L in exists hist1 hist2 (s1 s2 : system f32) ans h1 h2,
  map snd hist1 = map snd hist2 /\ Forall call_ok hist1 /\ Forall call_ok hist2 /\ run hist1 system_new = Ok (s1, ans ++ [AHandle (Some h1)]) /\
  run hist2 system_new = Ok (s2, ans ++ [AHandle (Some h2)]) /\ h1 <> h2.
Proof.
  intros L N. destruct (handles_differ L) as (s1 & s2 & ans & H1 & H2). exists (hist_handles L), (reversed (hist_handles L)), s1, s2, ans, (mkH 1 2), (mkH 0 2).
  split; [apply reversed_same|]. split; [apply hist_handles_ok|]. split; [apply reversed_ok, hist_handles_ok|]. split; [exact H1|]. split; [exact H2|]. discriminate.
Qed.
Print Assumptions C81_handle_refuted.
