(** * Properties of isolated systems over any number of steps, exact arithmetic: C64, C65, C82. *)
From Coq Require Import ZArith Reals List Bool Lra.
Import ListNotations.
From Verif Require Import Num Vec Res Arena Orient Colliders Collide EntityM SystemM OrderP Spec PathSpec Examples RealSpec PhysSpec TraceSpec
  SpinSpec TraceP RealEx TwoEx SpinP SpinEx.
Local Open Scope R_scope.

(** The table of Prop_Trace again: two balls, one step of two seconds, in which they collide. *)
Example one_clean_step : forall P : system ER -> Prop, P (table 1) -> exists s', clean_steps P (table 1) [(in_order, 2)] s' /\ length (s_records s') = 1%nat.
Proof.
  intros P HP. destruct (table_steps 1 2) as (s' & H). destruct (table_clean s' H) as (L & C). exists s'. split; [|exact L].
  refine (cs_step _ _ _ _ _ _ _ HP in_order_good H C (cs_none _ _)).
Qed.
(** ** C64 over any number of steps *)
Theorem C64_steps : forall s l s' w,
  clean_steps (fun _ => True) s l s' -> ahandles (s_gens s) = [] -> slippery s -> lossy s ->
  (forall h, get_entity s h <> None -> stored_as s h (w h) /\ sound_mover (w h) /\ ordinary_mover (w h)) ->
  exists w', (forall h, get_entity s' h <> None -> stored_as s' h (w' h) /\ sound_mover (w' h) /\ ordinary_mover (w' h)) /\
    ahandles (s_ents s') = ahandles (s_ents s) /\
    total_energy (ahandles (s_ents s)) w' <= total_energy (ahandles (s_ents s)) w.
Proof. exact steps_energy_falls. Qed.
Print Assumptions C64_steps.
(** While nobody is asleep, elastic bodies keep their energy. *)
Theorem C64_elastic_steps : forall s l s' w,
  clean_steps all_awake s l s' -> ahandles (s_gens s) = [] -> slippery s -> elastic s ->
  (forall h, get_entity s h <> None -> stored_as s h (w h) /\ sound_mover (w h) /\ ordinary_mover (w h)) ->
  exists w', (forall h, get_entity s' h <> None -> stored_as s' h (w' h) /\ sound_mover (w' h) /\ ordinary_mover (w' h)) /\
    total_energy (ahandles (s_ents s)) w' = total_energy (ahandles (s_ents s)) w.
Proof. exact steps_energy_kept. Qed.
Print Assumptions C64_elastic_steps.

(** ** C65 over any number of steps *)
Theorem C65_steps : forall s l s' w,
  clean_steps all_moving s l s' -> ahandles (s_gens s) = [] ->
  (forall h, get_entity s h <> None -> stored_as s h (w h) /\ sound_mover (w h)) ->
  exists w', (forall h, get_entity s' h <> None -> stored_as s' h (w' h) /\ sound_mover (w' h)) /\
    total_momentum (ahandles (s_ents s)) w' = total_momentum (ahandles (s_ents s)) w.
Proof. exact steps_momentum_kept. Qed.
Print Assumptions C65_steps.

(** ** C82 An isolated system keeps its angular momentum *)
(** Bodies as hard to turn about any axis, like balls; with friction too. *)
Theorem C82_round_partial : forall s l s' q w,
  clean_steps all_moving s l s' -> ahandles (s_gens s) = [] ->
  (forall h, get_entity s h <> None -> stored_as s h (w h) /\ sound_mover (w h) /\ round (w h)) ->
  exists w', (forall h, get_entity s' h <> None -> stored_as s' h (w' h) /\ sound_mover (w' h) /\ round (w' h)) /\
    total_moment q (ahandles (s_ents s)) w' = total_moment q (ahandles (s_ents s)) w.
Proof. exact steps_moment_kept. Qed.
Print Assumptions C82_round_partial.
Example C82_example : ahandles (s_gens (table 1)) = [] /\
  (forall h, get_entity (table 1) h <> None -> stored_as (table 1) h (table_movers h) /\ sound_mover (table_movers h) /\ round (table_movers h)) /\
  total_moment (mkV 0 1 0) (ahandles (s_ents (table 1))) table_movers = mkV 0 0 4.
Proof. exact table_spins. Qed.
(** A brick alone in space, turning half round about an axis that is not one of its own: nothing touches it, and its angular momentum about
    the origin turns with it.  (Its angular velocity stays the same instead.) *)
Theorem C82_tumbling_refuted : let q := mkV 0 0 0 in let a := half_turn in exists (s s' : system ER) w w', reachable s /\ step in_order s (Fin 1) = Ok s' /\
  ahandles (s_gens s) = [] /\ all_moving s /\ s_records s' = [] /\ 0 < a /\
  (forall h, get_entity s h <> None -> stored_as s h (w h) /\ sound_mover (w h) /\ ordinary_mover (w h)) /\
  (forall h, get_entity s h <> None -> stored_as s' h (w' h)) /\
  total_moment q (ahandles (s_ents s)) w = mkV (13 * a) (10 * a) 0 /\ total_moment q (ahandles (s_ents s)) w' = mkV (10 * a) (13 * a) 0.
Proof. exact tumbles. Qed.
Print Assumptions C82_tumbling_refuted.
