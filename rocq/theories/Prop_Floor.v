(** * A ball over a floor, exact arithmetic: C63 (records are clean), C69 and C70 (the parts that hold).

    The definitions are in FloorSpec. *)
From Coq Require Import ZArith Reals List Bool.
Import ListNotations.
From Verif Require Import Num Vec Res Arena Orient Colliders Collide EntityM SystemM OrderP Spec Examples RealSpec PhysSpec TraceSpec FloorSpec
  CleanP FloorP RealEx TwoEx FloorEx.
Local Open Scope R_scope.

(** The system of all examples: a ball of radius 1, with its lowest point 4 above a floor, under gravity. *)
Example yard_is_reached : reachable yard. Proof. exact yard_reachable. Qed.

(** ** C63 In a world of balls and half spaces all records are clean *)
Theorem C63_clean : forall ord (s : system ER) d s',
  good_order ord -> step ord s (Fin d) = Ok s' -> n_lt (n_abs (Fin d)) EPSILON = false -> sound_start s d -> plain s ->
  Forall (clean s) (s_records s').
Proof. exact step_clean. Qed.
Print Assumptions C63_clean.
Example C63_clean_example : sound_start yard 1 /\ plain yard /\ (exists s', step in_order yard (Fin 1) = Ok s') /\ n_lt (n_abs (Fin 1)) EPSILON = false.
Proof.
  destruct yard_over as (mb & mf & A & B & C & D & _). split; [exact (court_sound _ _ _ _ _ _ _ _ 1 _ _ yard_court A B C D)|].
  split; [exact (court_plain _ _ _ _ _ _ _ _ _ yard_court A C)|]. split; [|apply not_tiny; Lra.lra].
  destruct (court_careful _ _ _ _ _ _ _ _ in_order 1 yard_court yard_reachable in_order_good) as (s' & E & _). exists s'. exact E.
Qed.

(** ** C69 A ball stays above the floor (partly) *)
(** One step: the ball sleeps, flies freely, or bounces once; after it the situation is of the same kind. *)
Theorem C69_step : forall (s : system ER) b f c r p n g h v ord d s',
  court s b f c r p n g -> ball_over s b f c r p n h v -> good_order ord -> 1 / 1000000 <= d -> step ord s (Fin d) = Ok s' ->
  exists e h' v', restitution s b f e /\ court s' b f c r p n g /\ ball_over s' b f c r p n h' v' /\ ball_moves s s' b e (vdot g n) h v d h' v'.
Proof. exact ball_step. Qed.
Print Assumptions C69_step.
(** Any number of steps, none longer than [D]: no call panics and the ball is never deeper in the floor than a millionth of [D]
    (of 1, if [D] is smaller).  Missing: balls that turn, friction, other shapes of floors, more than two entities, bounces slower
    than the approach together with sleeping (where it is false), steps so short that gravity is below the thresholds. *)
Theorem C69_partial : forall (s : system ER) b f c r p n g D h v l,
  reachable s -> court s b f c r p n g -> ball_over s b f c r p n h v -> 0 <= h ->
  Forall (fun x => good_order (fst x) /\ 1 / 1000000 <= snd x <= D /\ 2 / 1000000 <= - vdot g n * snd x) l ->
  exists s' ans h' v', run (steps l) s = Ok (s', ans) /\ court s' b f c r p n g /\ ball_over s' b f c r p n h' v' /\ - (1 / 1000000 * Rmax 1 D) <= h'.
Proof. exact floor_holds. Qed.
Print Assumptions C69_partial.
(** The ball of the yard, with a thousand steps of 1/60. *)
Example C69_example : reachable yard /\ court yard (hd 0) (hd 1) origin 1 origin up pull /\ ball_over yard (hd 0) (hd 1) origin 1 origin up 4 0 /\
  Forall (fun x => good_order (fst x) /\ 1 / 1000000 <= snd x <= 1 / 60 /\ 2 / 1000000 <= - vdot pull up * snd x) (repeat (in_order, 1 / 60) 1000).
Proof.
  split; [exact yard_reachable|]. split; [exact yard_court|]. split; [exact yard_over|]. apply Forall_forall. intros x H. apply repeat_spec in H. subst x. cbn [fst snd].
  split; [exact in_order_good|]. unfold pull, up, vdot. cbn. Lra.lra.
Qed.

(** ** C70 A dropped ball does not rise above where it was dropped (partly) *)
(** A step without a collision does not increase the energy (per mass), one with a bounce does by no more than this.  Missing:
    that it does not increase at all, which is false. *)
Theorem C70_partial : forall (s : system ER) b f c r p n g h v e ord d s',
  court s b f c r p n g -> ball_over s b f c r p n h v -> restitution s b f e -> e <= 1 -> vdot g n <= 0 ->
  good_order ord -> 1 / 1000000 <= d -> step ord s (Fin d) = Ok s' ->
  let energy := fun x y => y * y / 2 - vdot g n * x in
  exists h' v', court s' b f c r p n g /\ ball_over s' b f c r p n h' v' /\
    (s_records s' = [] -> energy h' v' <= energy h v) /\
    energy h' v' <= energy h v - 2 * vdot g n * d * Rabs (v + vdot g n * d).
Proof. exact ball_energy. Qed.
Print Assumptions C70_partial.
Example C70_example : court yard (hd 0) (hd 1) origin 1 origin up pull /\ ball_over yard (hd 0) (hd 1) origin 1 origin up 4 0 /\ restitution yard (hd 0) (hd 1) 1 /\
  vdot pull up <= 0 /\ exists s', step in_order yard (Fin 1) = Ok s'.
Proof.
  split; [exact yard_court|]. split; [exact yard_over|]. split; [|split].
  - destruct (ct_colliders _ _ _ _ _ _ _ _ yard_court) as (sp & pl & A & B & _). exists (puck (Some (hd 0))), (CPlane (floor_plane (Some (hd 1)))).
    split; [eexists _, (hd 0); split; [exact eq_refl|split; exact eq_refl]|]. split; [eexists _, (hd 1); split; [exact eq_refl|split; exact eq_refl]|]. cbn [c_mat puck puck_sphere floor_plane sp_mat pl_mat slick mt_rest].
    change (Fin (1 * 1) = Fin 1). f_equal. Lra.lra.
  - unfold pull, up, vdot. cbn. Lra.lra.
  - destruct C63_clean_example as (_ & _ & H & _). exact H.
Qed.
