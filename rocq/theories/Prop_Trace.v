(** * Properties of whole steps as sequences of collisions, exact arithmetic: C63, C64, C65, C68 (the part that holds). *)
From Coq Require Import ZArith Reals List Bool.
Import ListNotations.
From Verif Require Import Num Vec Res Arena Orient Colliders Collide EntityM SystemM OrderP Spec PathSpec Examples RealSpec PhysSpec TraceSpec
  TraceP EnergyP MomentumP RealEx TwoEx PathP.
Local Open Scope R_scope.

(** The system of all examples: two balls of mass 4 on the x axis, the left one rolling towards the right one. *)
Example table_is_reached : forall n, reachable (table n). Proof. exact table_reachable. Qed.

(** ** C63 A step is a sequence of rigid-body collisions *)
(** The definitions are in TraceSpec.  Recorded collisions are real (the two approach each other, balls and half spaces touch) and
    none is missed that is brisk. *)
Theorem C63_trace : forall ord (s : system ER) d s',
  good_order ord -> step ord s (Fin d) = Ok s' -> n_lt (n_abs (Fin d)) EPSILON = false ->
  sound_start s d -> Forall (clean s) (s_records s') ->
  exists w0 w t ts, (forall h, get_entity s h <> None -> starts_as s d h (w0 h) /\ sound_mover (w0 h)) /\
    trace s d w0 (s_records s') ts w t /\
    (forall h, get_entity s h <> None ->
      if Nat.eqb (length (s_records s')) (s_iteration_max s) then ends_as s' h (w h)
      else exists m, glides (w h) (d - t) m /\ mv_awake m = mv_awake (w h) /\ ends_as s' h m) /\
    (length (s_records s') <> s_iteration_max s -> undisturbed s d w t d) /\
    forall h, In (DSleep h) (s_debug s') -> forall k, Spec.contact (s_ents s') h k <-> paired ts h k.
Proof. exact step_trace. Qed.
Print Assumptions C63_trace.
Example C63_example : exists s', step in_order (table 1) (Fin 2) = Ok s' /\ n_lt (n_abs (Fin 2)) EPSILON = false /\
  sound_start (table 1) 2 /\ length (s_records s') = 1%nat /\ Forall (clean (table 1)) (s_records s').
Proof.
  destruct (table_steps 1 2) as (s' & H). exists s'. split; [exact H|]. split; [apply not_tiny; Lra.lra|]. split; [apply table_sound|]. now apply table_clean.
Qed.
(** In the step the balls exchange their velocities. *)
Example C63_outcome : forall s', step in_order (table 1) (Fin 2) = Ok s' ->
  (exists e, get_entity s' (hd 0) = Some e /\ pe_vel e = vfin (mkV 0 0 0)) /\
  (exists e, get_entity s' (hd 1) = Some e /\ pe_vel e = vfin (mkV 1 0 0)).
Proof. exact table_exchanged. Qed.

(** ** C64 Without friction and forces a step creates no kinetic energy *)
Theorem C64_energy : forall ord (s : system ER) d s' w,
  good_order ord -> step ord s (Fin d) = Ok s' -> ahandles (s_gens s) = [] -> slippery s -> lossy s ->
  (forall h, get_entity s h <> None -> stored_as s h (w h) /\ sound_mover (w h) /\ ordinary_mover (w h)) ->
  Forall (clean s) (s_records s') ->
  exists w', (forall h, get_entity s h <> None -> stored_as s' h (w' h)) /\
    total_energy (ahandles (s_ents s)) w' <= total_energy (ahandles (s_ents s)) w /\
    (elastic s ->
     (forall h e, aget (s_ents s) h = Some e -> e_asleep e = true -> e_vel e = vfin (mkV 0 0 0) /\ e_angvel e = vfin (mkV 0 0 0)) ->
     total_energy (ahandles (s_ents s)) w' = total_energy (ahandles (s_ents s)) w).
Proof. exact step_energy. Qed.
Print Assumptions C64_energy.
(** The hypotheses hold for the table, also those for equality; its energy is 2. *)
Example C64_example : ahandles (s_gens (table 1)) = [] /\ slippery (table 1) /\ lossy (table 1) /\ elastic (table 1) /\
  (forall h, get_entity (table 1) h <> None -> stored_as (table 1) h (table_movers h) /\ sound_mover (table_movers h) /\ ordinary_mover (table_movers h)) /\
  (forall s', step in_order (table 1) (Fin 2) = Ok s' -> length (s_records s') = 1%nat /\ Forall (clean (table 1)) (s_records s')) /\
  total_energy (ahandles (s_ents (table 1))) table_movers = 2.
Proof.
  split; [exact eq_refl|]. split; [apply table_slippery|]. split; [apply table_lossy|]. split; [apply table_elastic|].
  split; [apply table_movers_ok|]. split; [exact table_clean|apply table_energy].
Qed.

(** ** C65 A step changes the total momentum only by the forces *)
(** With friction too.  All entities are awake and of finite mass. *)
Theorem C65_momentum : forall ord (s : system ER) d s' w,
  good_order ord -> step ord s (Fin d) = Ok s' -> n_lt (n_abs (Fin d)) EPSILON = false ->
  sound_start s d -> forces_finite s d -> all_moving s ->
  (forall h, get_entity s h <> None -> stored_as s h (w h)) -> Forall (clean s) (s_records s') ->
  exists w' js, (forall h, get_entity s h <> None -> stored_as s' h (w' h) /\ forces_are s d h (js h)) /\
    total_momentum (ahandles (s_ents s)) w' =
    vadd (total_momentum (ahandles (s_ents s)) w) (vscale (vsum (map (fun h => vsum (js h)) (ahandles (s_ents s)))) d).
Proof. exact step_momentum. Qed.
Print Assumptions C65_momentum.
Example C65_example : sound_start (table 1) 2 /\ forces_finite (table 1) 2 /\ all_moving (table 1) /\
  (forall h, get_entity (table 1) h <> None -> stored_as (table 1) h (table_movers h)) /\
  (forall s', step in_order (table 1) (Fin 2) = Ok s' -> length (s_records s') = 1%nat /\ Forall (clean (table 1)) (s_records s')).
Proof.
  split; [apply table_sound|]. split; [apply table_forces|]. split; [apply table_moving|]. split; [intros h H; now apply table_movers_ok|exact table_clean].
Qed.

(** ** C62, an example *)
(** The left ball of the table is named by the record, at the time 1. *)
Example C62_example : exists s', step in_order (table 1) (Fin 2) = Ok s' /\ n_lt (n_abs (Fin 2)) EPSILON = false /\
  (exists e, aget (s_ents (table 1)) (hd 0) = Some e /\ e_asleep e = false) /\
  exists r, s_records s' = [r] /\ cr_first r = hd 0 /\ cr_time r = Fin 1.
Proof.
  destruct (table_steps 1 2) as (s' & H). exists s'. split; [exact H|]. split; [apply not_tiny; Lra.lra|].
  split; [eexists; split; exact eq_refl|]. destruct (table_hits _ H) as (r & E & R1 & _ & R3 & _). now exists r.
Qed.

(** ** C68 Balls do not pass through each other, or through half spaces: the part that holds *)
(** A step without collisions: no ball came into brisk contact with a half space or with another ball (if they
    overlap at the start: at once).  Not covered: entities
    that turn, neighbours, slow or grazing contacts (the thresholds are in [brisk_balls]), a first ball overtaken by the second,
    and rounding.  [C63_trace] has the same for the flights between collisions. *)
Theorem C68_partial : forall ord (s : system ER) d s',
  good_order ord -> step ord s (Fin d) = Ok s' -> n_lt (n_abs (Fin d)) EPSILON = false ->
  sound_start s d -> s_iteration_max s <> 0%nat -> s_records s' = [] ->
  exists w, (forall h, get_entity s h <> None -> starts_as s d h (w h) /\ sound_mover (w h) /\ exists m, glides (w h) d m /\ ends_as s' h m) /\
    undisturbed s d w 0 d.
Proof. exact step_silent. Qed.
Print Assumptions C68_partial.
(** The balls of the table would get into brisk contact after one second, so its step of two seconds is not without collisions. *)
Example C68_example : strangers (table 1) (hd 0) (hd 1) /\ (h_idx (hd 0) < h_idx (hd 1))%nat /\
  has_ball (table 1) (hd 0) (mkV 0 0 0) 1 /\ has_ball (table 1) (hd 1) (mkV 0 0 0) 1 /\
  (forall h, get_entity (table 1) h <> None -> starts_as (table 1) 2 h (table_movers h) /\ spinless (table_movers h)) /\
  first_touch (fun b => dist (place (table_movers (hd 0)) (mkV 0 0 0) b) (place (table_movers (hd 1)) (mkV 0 0 0) b) - (1 + 1)) 1 /\
  brisk_balls 2 (table_movers (hd 0)) (table_movers (hd 1)) (mkV 0 0 0) (mkV 0 0 0) 1 1 1.
Proof.
  split; [apply table_strangers|]. split; [apply le_n|]. split; [apply table_balls|]. split; [apply table_balls|]. split; [|split; [apply table_touch|apply table_brisk]].
  intros h H. split; [now apply table_starts|]. apply table_spinless.
Qed.
(** A short step of it is. *)
Example C68_silent : exists s', step in_order (table 1) (Fin (1 / 2)) = Ok s' /\ n_lt (n_abs (Fin (1 / 2))) EPSILON = false /\ sound_start (table 1) (1 / 2) /\ s_records s' = [].
Proof. destruct table_short as (s' & H & R). exists s'. split; [exact H|]. split; [apply not_tiny; Lra.lra|]. split; [apply table_sound|exact R]. Qed.
