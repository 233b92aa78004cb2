(** * Properties of contacts between entities: C66 to C70, C77.

    [contact (s_ents s) h k]: entity [h] has [k] in its set of neighbours. *)
From Coq Require Import ZArith List Bool.
Import ListNotations.
From Verif Require Import Num Vec Res Arena Orient Colliders Collide EntityM SystemM OrderP Spec ContactSpec Examples ArithP ContactP ContactEx FrictionEx.

(** ** C66 Neighbours are those touched in the step, know each other, and are forgotten on waking *)
(** An entity falling asleep gets as neighbours entities it collided with, and they get it.  The others get new neighbours
    only so; those that are woken forget the old ones and those that are not keep them. *)
Theorem C66_step : forall (T : Type) (N : Num T) (O : Ord N) ord (s : system T) dt s',
  good_order ord -> step ord s dt = Ok s' -> n_lt (n_abs dt) EPSILON = false ->
  (forall h k, In (DSleep h) (s_debug s') -> contact (s_ents s') h k -> met (s_records s') h k /\ contact (s_ents s') k h) /\
  (forall h k, ~ In (DSleep h) (s_debug s') -> contact (s_ents s') h k ->
     (~ roused s s' h /\ contact (s_ents s) h k) \/ (In (DSleep k) (s_debug s') /\ contact (s_ents s') k h)) /\
  (forall h k, ~ In (DSleep h) (s_debug s') -> ~ roused s s' h -> movable (s_ents s) h -> contact (s_ents s) h k -> contact (s_ents s') h k).
Proof. exact @step_mutual. Qed.
Print Assumptions C66_step.
(** Updates that wake: the woken entities forget their neighbours, the others keep theirs; only those of infinite mass lose
    the woken ones. *)
Theorem C66_update : forall (T : Type) (N : Num T) ord (s : system T) h src s' b e,
  good_order ord -> update_entity ord s h src = Ok (s', b) -> aget (s_ents s) h = Some e ->
  let woken k := b = true /\ noticed e src /\ connected (s_ents s) h k in
  (forall k x, woken k -> ~ contact (s_ents s') k x) /\
  (forall k x, contact (s_ents s') k x -> contact (s_ents s) k x) /\
  (forall k x, ~ woken k -> movable (s_ents s) k \/ ~ woken x -> contact (s_ents s) k x -> contact (s_ents s') k x).
Proof. exact @update_contacts. Qed.
Print Assumptions C66_update.
(** Balls 0 and 1 meet and fall asleep in one step; both remember the other.  After ball 3 has hit ball 0 both are awake and
    have forgotten, and so they have when ball 0 is moved by the user. *)
Example C66_example : let N := F32 crude in
  n_lt (n_abs (n_frac 3 2)) EPSILON = false /\
  ok_with (step in_order (slept_at 11) (n_frac 3 2)) (fun s => knows_of s (hd 0) (hd 1) && knows_of s (hd 1) (hd 0) && Nat.eqb (length (s_records s)) 1) = true /\
  ok_with (step in_order (slept_at 16) n1) (fun s => negb (knows_of s (hd 0) (hd 1)) && negb (knows_of s (hd 1) (hd 0)) && Nat.eqb (length (s_records s)) 3) = true /\
  ok_with (update_entity in_order (slept_at 16) (hd 0) (ent (vec 0 7 0) vzero n0)) (fun r => snd r && negb (knows_of (fst r) (hd 0) (hd 1)) && negb (knows_of (fst r) (hd 1) (hd 0))) = true.
Proof. repeat split; vm_compute; reflexivity. Qed.

(** ** C67 Neighbours know each other (false) *)
(** An entity that falls asleep later than its neighbour forgets it: sets of neighbours are not mutual. *)
Theorem C67_refuted : let N := F32 crude in exists (s : system f32) h k, reachable s /\ asleep s h /\ asleep s k /\
  contact (s_ents s) h k /\ ~ contact (s_ents s) k h.
Proof.
  exists (ghost 12), (hd 0), (hd 1). split; [apply ghost_reachable, le_n|].
  assert (A : forall h, some_with (@get_entity f32 (F32 crude) (ghost 12) h) (fun e => pe_asleep e) = true -> @asleep f32 (F32 crude) (ghost 12) h).
  { intros h. unfold asleep, some_with. destruct (get_entity (ghost 12) h) as [e|]; [|discriminate]. intros H. exists e. auto. }
  split; [apply A; vm_compute; reflexivity|]. split; [apply A; vm_compute; reflexivity|].
  split; [apply knows_contact; vm_compute; reflexivity|]. rewrite <- knows_contact. vm_compute. discriminate.
Qed.
Print Assumptions C67_refuted.

(** ** C68 Balls do not pass through each other (false in general) *)
(** [passes s dt h k]: two balls of radius 1 on the x axis change places in one step and no collision is recorded. *)
Definition passes (s : system f32) (dt : f32) (h k : handle) : bool := let N := F32 crude in
  ball_of s h && ball_of s k && on_axis s h && on_axis s k && n_lt (x_of s h) (x_of s k) &&
  ok_with (step in_order s dt) (fun s' => on_axis s' h && on_axis s' k && n_lt (x_of s' k) (x_of s' h) && Nat.eqb (length (s_records s')) 0).
(** A ball overtaken by a faster one: the normal is taken from where its centre was at the start of the step, on the wrong
    side, so that the two seem to move apart. *)
Theorem C68_chase_refuted : exists s dt h k, @reachable f32 (F32 crude) s /\ passes s dt h k = true.
Proof. exists chase, (@n_frac f32 (F32 crude) 10 1), (hd 1), (hd 0). split; [exact chase_reachable|vm_compute; reflexivity]. Qed.
Print Assumptions C68_chase_refuted.
(** Neighbours are not checked against each other: an awake ball moves through its sleeping neighbour. *)
Theorem C68_neighbour_refuted : exists s dt h k, @reachable f32 (F32 crude) s /\ @asleep f32 (F32 crude) s h /\ passes s dt h k = true.
Proof.
  exists (ghost 9), (@n_frac f32 (F32 crude) 10 1), (hd 0), (hd 1). split; [apply ghost_reachable; do 3 apply le_S; apply le_n|].
  split; [|vm_compute; reflexivity].
  assert (A : forall h, some_with (@get_entity f32 (F32 crude) (ghost 9) h) (fun e => pe_asleep e) = true -> @asleep f32 (F32 crude) (ghost 9) h).
  { intros h. unfold asleep, some_with. destruct (get_entity (ghost 9) h) as [e|]; [|discriminate]. intros H. exists e. auto. }
  apply A. vm_compute. reflexivity.
Qed.
Print Assumptions C68_neighbour_refuted.

(** ** C69 A ball stays above the floor (false in general) *)
(** [over s f b]: the entity [f] is a floor at y = 0, and [b] a ball of radius 1 above it or on it. *)
Definition over (s : system f32) (f b : handle) : bool := let N := F32 crude in floor_of s f && ball_of s b && n_le n1 (y_of s b).
(** [under s f b]: the same ball is wholly under the same floor. *)
Definition under (s : system f32) (f b : handle) : bool := let N := F32 crude in floor_of s f && ball_of s b && n_le (y_of s b) (n_neg n1).
(** With the default settings: a ball slides along the floor under gravity.  The floor falls asleep (it does not move) while the
    ball is in contact with it, and takes the ball as a neighbour; neighbours are not checked and the ball, awake, falls through
    the floor. *)
Theorem C69_floor_refuted : exists s f b n, @reachable f32 (F32 crude) s /\ over s f b = true /\
  s_iteration_max s = 5 /\ s_energy_thr s = @n_frac f32 (F32 crude) 1 1000 /\ s_time_thr s = @n_frac f32 (F32 crude) 1 10 /\
  ok_with (@run f32 (F32 crude) (slide_steps n) s) (fun r => under (fst r) f b && some_with (@get_entity f32 (F32 crude) (fst r) b) (fun e => negb (pe_asleep e))) = true.
Proof. exists slide, (hd 0), (hd 1), 50. split; [exact slide_reachable|]. repeat split; vm_compute; reflexivity. Qed.
Print Assumptions C69_floor_refuted.
(** A turning ball falls through the floor in one step: the approach test is made with the velocity of a point that is not on the
    ball any more but where it was at the start. *)
Theorem C69_spin_refuted : exists s f b dt, @reachable f32 (F32 crude) s /\ over s f b = true /\
  ok_with (@step f32 (F32 crude) in_order s dt) (fun s' => under s' f b && Nat.eqb (length (s_records s')) 0) = true.
Proof. exists spin, (hd 0), (hd 1), (@n1 f32 (F32 crude)). split; [exact spin_reachable|]. split; vm_compute; reflexivity. Qed.
Print Assumptions C69_spin_refuted.

(** ** C70 A dropped ball does not rise above where it was dropped (false) *)
(** The restitutions are 1 and 9/10 and the ball starts at rest; after two steps it is higher.  The velocity of the whole step is
    given to the ball before it falls the first part of it, and is reversed for the rest. *)
Theorem C70_refuted : exists s f b n, @reachable f32 (F32 crude) s /\ over s f b = true /\ at_rest s b = true /\ rests_ok s = true /\ gravity_down s = true /\
  s_iteration_max s = 5 /\ s_energy_thr s = @n_frac f32 (F32 crude) 1 1000 /\ s_time_thr s = @n_frac f32 (F32 crude) 1 10 /\
  ok_with (@run f32 (F32 crude) (drop_steps n) s) (fun r => over (fst r) f b && @n_lt f32 (F32 crude) (y_of s b) (y_of (fst r) b)) = true.
Proof.
  exists drop, (hd 0), (hd 1), 2. split; [exact drop_reachable|]. repeat split; vm_compute; reflexivity.
Qed.
Print Assumptions C70_refuted.

(** ** C77 Fast sliding meets the dynamic friction coefficient, slow sliding the static one (false) *)
(** README.md:16: "if there's a lot of relative motion that the friction would oppose, the system uses the lower dynamic
    friction coefficient".  Two balls of mass 1 hit a floor with speed 1, with static coefficient 1/4, dynamic coefficient
    1/16 and threshold 1.  The one sliding with 100 is slowed down by the static coefficient times the change 2 of the normal
    speed, the one sliding with 1/2 by the dynamic one. *)
Theorem C77_refuted : let N := F32 crude in
  reachable (skid 200) /\ reachable (skid 1) /\
  (forall v c, v = 200%Z \/ v = 1%Z -> c = hd 0 \/ c = hd 1 -> rubbery (skid v) c = true) /\
  (exists s', step in_order (skid 200) n2 = Ok s' /\ length (s_records s') = 1 /\
     skids (skid 200) (n_frac 100 1) (n_neg n1) = true /\ skids s' (n_sub (n_frac 100 1) (n_mul n2 (n_frac 1 4))) n1 = true) /\
  (exists s', step in_order (skid 1) n2 = Ok s' /\ length (s_records s') = 1 /\
     skids (skid 1) (n_frac 1 2) (n_neg n1) = true /\ skids s' (n_sub (n_frac 1 2) (n_mul n2 (n_frac 1 16))) n1 = true).
Proof.
  split; [exact (skid_reachable _ (or_introl eq_refl))|]. split; [exact (skid_reachable _ (or_intror eq_refl))|].
  split; [|exact (conj skid_fast skid_slow)]. intros v c Hv [-> | ->]; [exact (proj1 (skid_material v Hv))|exact (proj2 (skid_material v Hv))].
Qed.
Print Assumptions C77_refuted.
