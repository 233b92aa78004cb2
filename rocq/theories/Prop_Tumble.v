(** * Bodies that turn freely: C86, in exact arithmetic.

    The words used here are in TumbleSpec.v, PhysSpec.v and RealSpec.v; [total_time] is in FlightSpec.v. *)
From Coq Require Import ZArith Reals List Bool Lra.
Import ListNotations.
From Verif Require Import Num Vec Res Arena Orient Colliders Collide EntityM SystemM OrderP Spec RealSpec RealV OrientP PhysSpec PhysP Examples RealEx TwoEx SpinEx FlightSpec TumbleSpec TumbleP.
Local Open Scope R_scope.

(** ** C86 A body in free flight turns steadily *)
(** After any number of steps, whatever other bodies do meanwhile, its angular velocity [w] is what it was, and it has turned about [w] for a time [a].
    That is the time that has passed, but for at most [2 * tiny] of angle for each piece of the flight; pieces that turn by more lose nothing.  Its angular
    momentum has turned with it (and so is not kept, unless it points along [w]: C82). *)
Theorem C86_turning : forall h gs m s l n s' e o i0 v w,
  flights h s l n s' -> gravity_only s gs -> get_entity s h = Some e -> rigid e m o i0 v w -> / 1000000 < m ->
  exists e' o' a, get_entity s' h = Some e' /\ rigid e' m o' i0 (vadd v (vscale (vsum gs) (total_time l))) w /\ o_off o' = o_off o /\
    (forall x, direction_into_world o' x = turn_about w a (direction_into_world o x)) /\
    spin_momentum o' i0 w = turn_about w a (spin_momentum o i0 w) /\
    vlen w * Rabs (total_time l - a) <= 2 * tiny * INR n /\
    (n = length l -> Forall (fun x => 2 * tiny < vlen w * Rabs (snd x)) l -> a = total_time l).
Proof. exact flights_spin. Qed.
Print Assumptions C86_turning.
(** The amount of its angular momentum and its energy of rotation are kept for ever. *)
Theorem C86_constants : forall h gs m s l n s' e o i0 v w,
  flights h s l n s' -> gravity_only s gs -> get_entity s h = Some e -> rigid e m o i0 v w -> / 1000000 < m ->
  exists e' o' v', get_entity s' h = Some e' /\ rigid e' m o' i0 v' w /\
    vlen (spin_momentum o' i0 w) = vlen (spin_momentum o i0 w) /\
    vdot w (spin_momentum o' i0 w) / 2 = vdot w (spin_momentum o i0 w) / 2.
Proof. exact flights_constants. Qed.
Print Assumptions C86_constants.
(** A brick turning half round in a step about an axis that is not one of its own. *)
Example C86_example : reachable (tumbling axis) /\ (exists s', flights (hd 0) (tumbling axis) [(in_order, 1)] 1 s') /\ gravity_only (tumbling axis) [] /\
  (exists e, get_entity (tumbling axis) (hd 0) = Some e /\ rigid e 13 home brick_tensor (mkV 0 0 0) axis) /\
  Forall (fun x : set_order * R => 2 * tiny < vlen axis * Rabs (snd x)) [(in_order, 1)] /\
  spin_momentum home brick_tensor axis = mkV (13 * half_turn) (10 * half_turn) 0 /\ 0 < half_turn.
Proof.
  split; [apply tumbling_reachable|]. split.
  { destruct (tumbling_steps axis 1) as (s' & H). exists s'. pose proof (tumbling_silent _ _ _ H (not_tiny 1 ltac:(lra))) as Re.
    pose proof (fl_step (hd 0) (tumbling axis) in_order 1 s' [] 0 s' in_order_good) as F. rewrite Re in F. apply F; clear F; [rewrite Rabs_pos_eq; lra|exact H| | |discriminate|constructor].
    - eexists. split; exact eq_refl.
    - intros (r & [] & _). }
  split; [constructor|]. split.
  { eexists. split; [exact eq_refl|]. constructor; try exact eq_refl. unfold unit_o, unit_quat. cbn. ring. }
  split; [constructor; [|constructor]; cbn [snd]; rewrite axis_len, Rabs_pos_eq by lra; pose proof PI_RGT_0; pose proof PI2_1; unfold tiny; lra|].
  split; [|exact half_turn_pos]. unfold spin_momentum. rewrite direction_world_form, direction_local_form. unfold home, brick_tensor, axis. cbn [o_rot]. apply vext; qunfold; munfold; cbn; field.
Qed.
