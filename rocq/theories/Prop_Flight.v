(** * Free flight over any number of steps: C80, in exact arithmetic.

    The words used here are in FlightSpec.v, PhysSpec.v and RealSpec.v. *)
From Coq Require Import ZArith Reals List Bool.
Import ListNotations.
From Verif Require Import Num Vec Res Arena Orient Colliders Collide EntityM SystemM OrderP Spec RealSpec PhysSpec Examples FloorEx FlightSpec FlightP FlightEx.
Local Open Scope R_scope.

(** ** C80 Bodies fall as they should between collisions *)
(** After any number of steps of any lengths: the velocity is that of a falling body, and the position is ahead of Newton's
    parabola by half the acceleration times the sum of the squares of the lengths of the steps; nothing accumulates beyond this.
    Missing: bodies that fall asleep on the way, for which it is false. *)
Theorem C80_flight_partial : forall h gs m s l s' e p v,
  undisturbed h s l s' -> gravity_only s gs ->
  get_entity s h = Some e -> pe_last_total_mass e = Fin m -> / 1000000 < m -> pe_pos e = vfin p -> pe_vel e = vfin v ->
  exists e', get_entity s' h = Some e' /\ pe_vel e' = vfin (vadd v (vscale (vsum gs) (total_time l))) /\
    pe_pos e' = vfin (vadd (parabola p v (vsum gs) (total_time l)) (vscale (vsum gs) (total_square l / 2))).
Proof. exact flight. Qed.
Print Assumptions C80_flight_partial.
(** With steps no longer than [D] the error grows no faster than the time: halving the steps halves it. *)
Theorem C80_error_partial : forall h gs m s l s' e p v D,
  undisturbed h s l s' -> gravity_only s gs ->
  get_entity s h = Some e -> pe_last_total_mass e = Fin m -> / 1000000 < m -> pe_pos e = vfin p -> pe_vel e = vfin v ->
  Forall (fun x => 0 <= snd x <= D) l ->
  exists e' p', get_entity s' h = Some e' /\ pe_pos e' = vfin p' /\
    vlen (vsub p' (parabola p v (vsum gs) (total_time l))) <= vlen (vsum gs) * (D * total_time l) / 2.
Proof. exact flight_error. Qed.
Print Assumptions C80_error_partial.
(** Free flight never gains energy; it loses exactly this much. *)
Theorem C80_energy_partial : forall h gs m s l s' e p v,
  undisturbed h s l s' -> gravity_only s gs ->
  get_entity s h = Some e -> pe_last_total_mass e = Fin m -> / 1000000 < m -> pe_pos e = vfin p -> pe_vel e = vfin v ->
  exists e' p' v', get_entity s' h = Some e' /\ pe_pos e' = vfin p' /\ pe_vel e' = vfin v' /\
    fall_energy p' v' (vsum gs) = fall_energy p v (vsum gs) - vdot (vsum gs) (vsum gs) * total_square l / 2.
Proof. exact flight_energy. Qed.
Print Assumptions C80_energy_partial.
(** The ball of the yard flies undisturbed for two quarters of a second. *)
Example C80_example : (exists s', undisturbed (hd 0) yard two_quarters s') /\ gravity_only yard [pull] /\
  exists e, get_entity yard (hd 0) = Some e /\ pe_last_total_mass e = Fin 4 /\ pe_pos e = vfin ball_at /\ pe_vel e = vfin ball_vel.
Proof. split; [exact yard_flight|]. split; [exact yard_gravity|]. eexists. split; [exact eq_refl|]. repeat (split; [exact eq_refl|]). exact eq_refl. Qed.
(** A body of one gram, alone in the world and dropped: while it falls at more than 1 unit per second it is put to sleep, and from
    then on it hangs where it is, whatever steps follow. *)
Theorem C80_refuted : forall (L : Libm) (N := F32 L), exists (s6 s7 : system f32) h e6 e7, reachable s6 /\ step in_order s6 (n_frac 1 60) = Ok s7 /\
  (exists gh g, get_generator s7 gh = Some (GenGravity g) /\ n_eq (vy g) (n_frac (-10) 1) = true) /\ (forall k, get_entity s7 k <> None -> k = h) /\
  get_entity s6 h = Some e6 /\ n_lt (vy (pe_vel e6)) (n_frac (-99) 100) = true /\ pe_asleep e6 = false /\
  get_entity s7 h = Some e7 /\ n_lt (vy (pe_vel e7)) (n_frac (-115) 100) = true /\ n_eq (pe_last_total_mass e7) (n_frac 1 1000) = true /\
  forall l s' ans, Forall (fun x => good_order (fst x)) l -> run (map (fun x => (fst x, OStep (snd x))) l) s7 = Ok (s', ans) ->
    exists e', get_entity s' h = Some e' /\ pe_pos e' = pe_pos e7.
Proof. exact hovers. Qed.
Print Assumptions C80_refuted.
