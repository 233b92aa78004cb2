(** * Rounding: C85, in binary32.

    The words used here are in RoundSpec.v. *)
From Coq Require Import ZArith Reals List Bool.
Import ListNotations.
From Flocq Require Import IEEE754.BinarySingleNaN.
From Verif Require Import Num Vec Res Arena Orient EntityM SystemM OrderP Spec Examples RoundSpec RoundP RoundEx.
Local Open Scope R_scope.

(** ** C85 Coasting bodies move at their velocity, up to rounding *)
(** Over any number of steps without collisions and without force generators: a body that stays awake and within [B] keeps its velocity
    exactly, and along each axis ends within [drift] of the place it would reach in exact arithmetic; in single precision that is,
    for each step, 2^-24 of [B] and of three times the distance covered, and 2^-148 for numbers too small to be normal.
    Missing: forces, spins, and steps with collisions. *)
Theorem C85_drift_partial : forall L h B (s : system f32) l s', coasts (L := L) h B s l s' -> ahandles (s_gens s) = [] -> s_iteration_max s <> 0%nat ->
  forall e p v, get_entity (N := F32 L) s h = Some e -> is_vec (pe_pos e) p -> is_vec (pe_vel e) v -> Rabs (vx p) <= B -> Rabs (vy p) <= B -> Rabs (vz p) <= B ->
  exists e' r, get_entity (N := F32 L) s' h = Some e' /\ is_vec (pe_pos e') r /\ is_vec (pe_vel e') v /\
    Rabs (vx r - (vx p + vx v * sum l)) <= drift B (vx v) l /\
    Rabs (vy r - (vy p + vy v * sum l)) <= drift B (vy v) l /\
    Rabs (vz r - (vz p + vz v * sum l)) <= drift B (vz v) l.
Proof. exact coasting. Qed.
Print Assumptions C85_drift_partial.
(** Two steps of a sixtieth of a body with the velocity (3, 0, 1). *)
Example C85_example : forall L (N := F32 L), exists s' e p v, reachable (near L) /\ coasts (L := L) (hd 0) 8 (near L) (repeat (B2R (sixtieth L)) 2) s' /\
  ahandles (s_gens (near L)) = [] /\ s_iteration_max (near L) <> 0%nat /\ get_entity (near L) (hd 0) = Some e /\
  is_vec (pe_pos e) p /\ is_vec (pe_vel e) v /\ Rabs (vx p) <= 8 /\ Rabs (vy p) <= 8 /\ Rabs (vz p) <= 8 /\ n_lt n1 (vx (pe_vel e)) = true.
Proof. exact near_coasts. Qed.
(** The rounding does not cancel out: an awake body at (2^19, 0, 0) with the velocity (1, 0, 0) stays where it is for ever when steps
    of a sixtieth of a second are taken. *)
Theorem C85_stuck_refuted : forall L (N := F32 L), exists (s : system f32) h e, reachable s /\ (forall k, get_entity s k <> None -> k = h) /\ ahandles (s_gens s) = [] /\
  get_entity s h = Some e /\ pe_pos e = vec 524288 0 0 /\ pe_vel e = vec 1 0 0 /\ pe_asleep e = false /\
  forall n, exists s' ans e', run (calls (repeat (OStep (n_frac 1 60)) n)) s = Ok (s', ans) /\ get_entity s' h = Some e' /\
    pe_asleep e' = false /\ pe_pos e' = pe_pos e /\ pe_vel e' = pe_vel e.
Proof. exact far_stuck. Qed.
Print Assumptions C85_stuck_refuted.
