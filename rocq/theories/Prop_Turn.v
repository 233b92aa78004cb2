(** * Rotations in binary32: C87.

    The words used here are in TurnSpec.v. *)
From Coq Require Import ZArith Reals List Bool.
Import ListNotations.
From Flocq Require Import Core IEEE754.BinarySingleNaN.
From Verif Require Import Num Vec Res Arena Orient EntityM SystemM OrderP ArithP Spec RealSpec RealV Examples TurnSpec TurnRoundP TurnEx.
Local Open Scope R_scope.

(** ** C87 Rotations stay rotations, up to rounding *)
(** After any history: the square of the length of every finite rotation is 1, give or take 2^-18, and twice the error [delta] of
    sine and cosine, for each time the entity was turned; as long as that is at most a quarter. *)
Theorem C87_drift : forall L delta (N := F32 L) hist (s : system f32) ans h e r, libm_ok L delta -> Forall call_ok hist -> run hist system_new = Ok (s, ans) ->
  get_entity s h = Some e -> is_quat (o_rot (pe_last_orient e)) r ->
  INR (S (pieces hist system_new)) * (2 * delta + powerRZ 2 (-18)) <= 1 / 4 ->
  Rabs (square r - 1) <= INR (S (pieces hist system_new)) * (2 * delta + powerRZ 2 (-18)).
Proof. exact history_square. Qed.
Print Assumptions C87_drift.
(** So turning a vector with it keeps the square of its length up to five times that. *)
Theorem C87_lengths : forall L delta (N := F32 L) hist (s : system f32) ans h e r (x : Vec3 R), libm_ok L delta -> Forall call_ok hist -> run hist system_new = Ok (s, ans) ->
  get_entity s h = Some e -> is_quat (o_rot (pe_last_orient e)) r ->
  INR (S (pieces hist system_new)) * (2 * delta + powerRZ 2 (-18)) <= 1 / 4 ->
  Rabs (vdot (qrot r x) (qrot r x) - vdot x x) <= 5 * (INR (S (pieces hist system_new)) * (2 * delta + powerRZ 2 (-18))) * vdot x x.
Proof. exact history_lengths. Qed.
Print Assumptions C87_lengths.
(** Correctly rounded sines and cosines are good for [delta] = 2^-22. *)
Example C87_libm : exists L, libm_ok L (powerRZ 2 (-22)) /\ (forall x r, B2ER x = Fin r -> l_sin L x = nearest (sin (B2R x)) /\ l_cos L x = nearest (cos (B2R x))) /\
  forall r, Rabs r <= 1 -> B2ER (nearest r) = Fin (rnd r).
Proof. exact rounded_exists. Qed.
(** A concrete libm, two steps and one collision: the rotation is not exactly of unit length. *)
Example C87_example : let N := F32 corner in exists hist s ans e r, libm_ok corner (powerRZ 2 (-22)) /\ Forall call_ok hist /\ run hist system_new = Ok (s, ans) /\
  get_entity s (hd 0) = Some e /\ is_quat (o_rot (pe_last_orient e)) r /\ pieces hist system_new = 3%nat /\
  INR 4 * (2 * powerRZ 2 (-22) + powerRZ 2 (-18)) <= 1 / 4 /\ square r <> 1.
Proof. exact corner_turns. Qed.
