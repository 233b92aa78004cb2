(** * TraceSpec: a step as a sequence of collisions between rigid bodies (C63, C64).

    Small independent definitions; nothing here is part of the model. *)
From Coq Require Import Reals List Bool.
Import ListNotations.
From Verif Require Import Num Vec Arena Orient Colliders Collide EntityM SystemM OrderP Spec RealSpec PhysSpec.
Local Open Scope R_scope.

(** What a step knows about an entity: mass, inertia tensor in its own directions, orientation, velocities, awake or not. *)
Record mover := mkMover { mv_mass : ER; mv_tensor : M; mv_o : orientation R; mv_vel : V; mv_spin : V; mv_awake : bool }.
(** The mover as a body in the world. *)
Definition body_of (m : mover) (b : body) : Prop :=
  b_mass b = mv_mass m /\ turned_tensor (o_rot (mv_o m)) (mv_tensor m) (b_tensor b) /\ b_pos b = o_pos (mv_o m) /\
  b_vel b = mv_vel m /\ b_spin b = mv_spin m.
Definition sound_mover (m : mover) : Prop := massive (mv_mass m) /\ psd (mv_tensor m) /\ unit_o (mv_o m).
Definition with_speed (m : mover) (b : body) : mover := mkMover (mv_mass m) (mv_tensor m) (mv_o m) (b_vel b) (b_spin b) (mv_awake m).

(** The rotation [q] turned on by the rotation vector [v]; very small turns are dropped. *)
Definition turned_on (q : Q) (v : V) (q' : Q) : Prop :=
  exists r, unit_quat r /\ q' = qmul r q /\ (turns_by (qrot r) v \/ (vlen v <= 2 * tiny /\ r = mkQ 0 0 0 1)).
(** Moving freely for the time [t]: position and rotation change steadily, and if it is asleep not at all. *)
Definition glides (m : mover) (t : R) (m' : mover) : Prop :=
  mv_mass m' = mv_mass m /\ mv_tensor m' = mv_tensor m /\ mv_vel m' = mv_vel m /\ mv_spin m' = mv_spin m /\
  o_off (mv_o m') = o_off (mv_o m) /\ (mv_awake m = true -> mv_awake m' = true) /\
  if mv_awake m' then o_pos (mv_o m') = vadd (o_pos (mv_o m)) (vscale (mv_vel m) t) /\ turned_on (o_rot (mv_o m)) (vscale (mv_spin m) t) (o_rot (mv_o m'))
  else mv_o m' = mv_o m.

(** [k1] is a collider of [h1] and [k2] one of [h2], and these are the restitution and friction coefficients and the friction threshold they have together. *)
Definition joint (s : system ER) (h1 h2 : handle) (k1 k2 : collider ER) (rest stat dyn thr : ER) : Prop :=
  exists c1 c2 e1 e2, get_entity s h1 = Some e1 /\ get_entity s h2 = Some e2 /\ In c1 (pe_colliders e1) /\ In c2 (pe_colliders e2) /\
    get_collider s c1 = Some k1 /\ get_collider s c2 = Some k2 /\
    rest = n_mul (mt_rest (c_mat k1)) (mt_rest (c_mat k2)) /\ stat = n_mul (mt_stat (c_mat k1)) (mt_stat (c_mat k2)) /\
    dyn = n_mul (mt_dyn (c_mat k1)) (mt_dyn (c_mat k2)) /\ thr = n_mul (mt_thr (c_mat k1)) (mt_thr (c_mat k2)).
(** [c1] and [c2] are what becomes of the bodies [b1] and [b2] when they meet at [p] with normal [n]: opposite impulses [k n]
    reverse the relative normal velocity by the factor [rest]; then opposite tangential impulses against the sliding act, as
    great as the friction coefficient ([grip]) times the change of the normal velocity, but no greater than the sliding. *)
Definition impact (p n : V) (rest : R) (stat dyn thr : ER) (k : R) (b1 b2 c1 c2 : body) : Prop :=
  exists a1 a2 q, let sliding := tangential (relative a1 a2 p) n in let fr := vscale sliding (- q) in
    struck_by b1 p (vscale n k) a1 /\ struck_by b2 p (vneg (vscale n k)) a2 /\
    vdot (relative a1 a2 p) n = - rest * vdot (relative b1 b2 p) n /\
    vdot fr n = 0 /\ q <= 1 /\
    (forall xs xd, stat = Fin xs -> dyn = Fin xd -> 0 <= xs -> 0 <= xd ->
       0 <= q /\ vlen fr <= Rmax xs xd * Rabs ((1 + rest) * vdot (relative b1 b2 p) n)) /\
    (forall xs xd, stat = Fin xs -> dyn = Fin xd -> 0 < vlen sliding ->
       q = Rmin 1 (grip thr xs xd (vdot (relative a1 a2 p) n) (vlen sliding) * Rabs ((1 + rest) * vdot (relative b1 b2 p) n) / vlen sliding)) /\
    struck_by a1 p fr c1 /\ struck_by a2 p (vneg fr) c2.

(** ** Contacts on the way *)
(** An entity that does not turn; where its point [c] (in its own coordinates) is after the time [a] (if it is asleep: would be
    if it moved with its velocity). *)
Definition spinless (m : mover) : Prop := mv_spin m = mkV 0 0 0.
Definition place (m : mover) (c : V) (a : R) : V := vadd (position_into_world (mv_o m) c) (vscale (mv_vel m) a).
(** One of the colliders of [h] is this ball; this half space (its normal is not turned with the entity). *)
Definition has_ball (s : system ER) (h : handle) (c : V) (r : R) : Prop := exists e k b,
  get_entity s h = Some e /\ In k (pe_colliders e) /\ get_collider s k = Some (CSphere b) /\ sp_center b = vfin c /\ sp_radius b = Fin r.
Definition has_plane (s : system ER) (h : handle) (p n : V) : Prop := exists e k b,
  get_entity s h = Some e /\ In k (pe_colliders e) /\ get_collider s k = Some (CPlane b) /\ pl_pos b = vfin p /\ pl_normal b = vfin n /\ vdot n n = 1.
Definition strangers (s : system ER) (h k : handle) : Prop := h <> k /\ ~ contact (s_ents s) h k /\ ~ contact (s_ents s) k h.
(** Two things that are [gap] apart touch for the first time after [a]; if they overlap at the beginning, that is at once. *)
Definition first_touch (gap : R -> R) (a : R) : Prop := 0 <= a /\ gap a <= 0 /\ forall b, 0 <= b < a -> 0 < gap b.
(** The contact of two balls is brisk: there the centres approach each other fast enough for the thresholds of the code (which
    are about the movement planned for the remaining time [left]), and the first ball, whose centre at the beginning the normal is
    taken from, is not overtaken. *)
Definition brisk_balls (left : R) (m1 m2 : mover) (c1 c2 : V) (r1 r2 a : R) : Prop :=
  let closing := vdot (vsub (mv_vel m1) (mv_vel m2)) (vsub (place m2 c2 a) (place m1 c1 a)) / (r1 + r2) in
  1 / 1000 <= closing * left /\ 1 / 2000 <= closing * left * (r1 + r2) /\
  1 / 1000000 * (vlen (mv_vel m1) * a + r1) <= r1 * closing /\ vdot (mv_vel m1) (mv_vel m2) <= vdot (mv_vel m1) (mv_vel m1).
(** The same for a ball and a half space that touch after the time [a]; if at once, only the speed matters. *)
Definition brisk_plane (left : R) (m1 m2 : mover) (n : V) (a : R) : Prop :=
  let closing := vdot (vsub (mv_vel m2) (mv_vel m1)) n in 1 / 1000000 <= closing /\ (a = 0 \/ 1 / 1000000 <= closing * left).
(** While the entities glide as [w] from the time [t] of the step to [t'], no ball comes into brisk contact with a half space or
    with a ball; [d] is the length of the step. *)
Definition undisturbed (s : system ER) (d : R) (w : handle -> mover) (t t' : R) : Prop := forall h k a,
  strangers s h k -> spinless (w h) -> spinless (w k) -> t + a < t' ->
  (forall c1 r1 c2 r2, (h_idx h < h_idx k)%nat -> has_ball s h c1 r1 -> has_ball s k c2 r2 -> 0 < r1 -> 0 <= r2 ->
     first_touch (fun b => dist (place (w h) c1 b) (place (w k) c2 b) - (r1 + r2)) a -> ~ brisk_balls (d - t) (w h) (w k) c1 c2 r1 r2 a) /\
  (forall c r p n, has_ball s h c r -> has_plane s k p n -> 0 <= r ->
     first_touch (fun b => vdot (vsub (place (w h) c b) (place (w k) p b)) n - r) a -> ~ brisk_plane (d - t) (w h) (w k) n a).

(** ** What is recorded happens *)
(** The two approach each other at [p] along [n]. *)
Definition approaching (m1 m2 : mover) (p n : V) : Prop :=
  exists b1 b2, body_of m1 b1 /\ body_of m2 b2 /\ 1 / 1000000 <= vdot (relative b1 b2 p) n.
(** After the time [a] the ball with the centre [c] and the radius [r] of [m1] touches the half space with the point [p] and the
    normal [n] of [m2]; if that is not at once they just touch.  The place of the contact is the ball's point nearest to the half
    space, the normal points into it. *)
Definition on_plane (m1 m2 : mover) (c : V) (r : R) (p n : V) (a : R) (x u : V) : Prop :=
  let gap := vdot (vsub (place m1 c a) (place m2 p a)) n - r in
  gap <= 0 /\ (a <> 0 -> gap = 0) /\ x = vsub (place m1 c a) (vscale n r) /\ u = vneg n.
(** The contact of two balls is between the centres, in the ratio of the radii; the normal points there from where the centre of
    the first was at the beginning. *)
Definition between_balls (m1 m2 : mover) (c1 : V) (r1 : R) (c2 : V) (r2 : R) (a : R) (x u : V) : Prop :=
  vscale (vsub x (place m1 c1 a)) r2 = vscale (vsub (place m2 c2 a) x) r1 /\
  (x <> place m1 c1 0 -> exists y, 0 < y /\ vsub x (place m1 c1 0) = vscale u y).
(** What a contact of these two colliders after the time [a] at [x] with the normal [u] means, if they are balls or half spaces. *)
Definition touching (k1 k2 : collider ER) (m1 m2 : mover) (a : R) (x u : V) : Prop :=
  match k1, k2 with
  | CSphere b, CPlane q => forall c r p n, sp_center b = vfin c -> sp_radius b = Fin r -> pl_pos q = vfin p -> pl_normal q = vfin n ->
      vdot n n = 1 -> 0 <= r -> on_plane m1 m2 c r p n a x u
  | CPlane q, CSphere b => forall c r p n, sp_center b = vfin c -> sp_radius b = Fin r -> pl_pos q = vfin p -> pl_normal q = vfin n ->
      vdot n n = 1 -> 0 <= r -> on_plane m2 m1 c r p n a x (vneg u)
  | CSphere b1, CSphere b2 => forall c1 r1 c2 r2, sp_center b1 = vfin c1 -> sp_radius b1 = Fin r1 -> sp_center b2 = vfin c2 -> sp_radius b2 = Fin r2 ->
      0 < r1 + r2 -> between_balls m1 m2 c1 r1 c2 r2 a x u
  | _, _ => True
  end.

(** After the restitution the two bodies hardly move along the normal. *)
Definition stays_close (p n : V) (rest : R) (b1 b2 : body) : Prop := Rabs (rest * vdot (relative b1 b2 p) n) < 1 / 1000000.
Definition paired (ts : list (handle * handle)) (h k : handle) : Prop := In (h, k) ts \/ In (k, h) ts.

(** [t'] is not before [t] and not after [d]; the other way round if the step goes backwards. *)
Definition between (t t' d : R) : Prop := exists a, 0 <= a <= 1 /\ t' = t + a * (d - t).
(** [trace s d w0 rs ts w t]: the entities start as [w0] at the time 0 of the step and go through the collisions [rs]; just after
    the last one, at the time [t], they are [w].  The list [ts] has the pairs left in contact.  Between the collisions they glide; a collision changes the two entities it
    names by [impact] and nothing else.  There the two approach each other and, being balls or half spaces that do not turn, touch; and no
    brisk contact is passed over.  Sleepers may wake up (C10 says which), those of finite mass that are hit do. *)
Inductive trace (s : system ER) (d : R) (w0 : handle -> mover) : list (crecord ER) -> list (handle * handle) -> (handle -> mover) -> R -> Prop :=
| trace_start : trace s d w0 [] [] w0 0
| trace_next : forall rs ts w t r w1 w2 t' ts' p n k1 k2 rest stat dyn thr k b1 b2 c1 c2,
    trace s d w0 rs ts w t -> between t t' d -> undisturbed s d w t t' ->
    cr_first r <> cr_second r -> cr_time r = Fin t' -> cr_pos r = vfin p -> cr_normal r = vfin n -> vdot n n = 1 ->
    cr_rest r = Fin rest -> cr_impulse r = Fin (Rabs k) -> joint s (cr_first r) (cr_second r) k1 k2 (Fin rest) stat dyn thr ->
    approaching (w (cr_first r)) (w (cr_second r)) p n ->
    (spinless (w (cr_first r)) -> spinless (w (cr_second r)) -> touching k1 k2 (w (cr_first r)) (w (cr_second r)) (t' - t) p n) ->
    (forall h, get_entity s h <> None -> glides (w h) (t' - t) (w1 h)) ->
    (forall h m, named [r] h -> mv_mass (w1 h) = Fin m -> mv_awake (w1 h) = true) ->
    body_of (w1 (cr_first r)) b1 -> body_of (w1 (cr_second r)) b2 -> impact p n rest stat dyn thr k b1 b2 c1 c2 ->
    w2 (cr_first r) = with_speed (w1 (cr_first r)) c1 -> w2 (cr_second r) = with_speed (w1 (cr_second r)) c2 ->
    (forall h, ~ named [r] h -> w2 h = w1 h) ->
    (stays_close p n rest b1 b2 -> ts' = (cr_first r, cr_second r) :: ts) -> (~ stays_close p n rest b1 b2 -> ts' = ts) ->
    trace s d w0 (rs ++ [r]) ts' w2 t'.

(** How the entity [h] of [s] starts: as it is stored, with the velocities that the forces of the step give it. *)
Definition starts_with (d : R) (e : ientity ER) (fs : list (force ER)) (m : mover) : Prop :=
  e_total_mass e = mv_mass m /\ e_prep_moi e = mfin (mv_tensor m) /\ e_orient e = ofin (mv_o m) /\
  pushed_vel (Fin d) fs e = vfin (mv_vel m) /\ pushed_angvel (Fin d) fs e = vfin (mv_spin m) /\ e_asleep e = negb (mv_awake m).
Definition starts_as (s : system ER) (d : R) (h : handle) (m : mover) : Prop :=
  exists e fs, aget (s_ents s) h = Some e /\ forces_on s (Fin d) h fs /\ starts_with d e fs m.
(** Whatever the generators do, every entity starts with numbers, a positive or infinite mass, a positive tensor and a rotation. *)
Definition sound_start (s : system ER) (d : R) : Prop :=
  forall h e fs, aget (s_ents s) h = Some e -> forces_on s (Fin d) h fs -> exists m, starts_with d e fs m /\ sound_mover m.
(** How it is stored at the end; a sleeper loses its velocities. *)
Definition ends_as (s' : system ER) (h : handle) (m : mover) : Prop :=
  exists e, get_entity s' h = Some e /\ pe_last_total_mass e = mv_mass m /\ pe_last_prep_moi e = mfin (mv_tensor m) /\ pe_last_orient e = ofin (mv_o m) /\
    pe_vel e = vfin (if mv_awake m then mv_vel m else mkV 0 0 0) /\ pe_angvel e = vfin (if mv_awake m then mv_spin m else mkV 0 0 0).
(** A record whose numbers are numbers, with a unit normal, and of entities not both infinitely heavy. *)
Definition clean (s : system ER) (r : crecord ER) : Prop :=
  (exists p, cr_pos r = vfin p) /\ (exists n, cr_normal r = vfin n /\ vdot n n = 1) /\ (exists x, cr_rest r = Fin x) /\
  exists h e, named [r] h /\ get_entity s h = Some e /\ pe_last_total_mass e <> PInf.

(** ** Energy *)
(** Kinetic energy: half of mass times velocity squared, and of the spin in the mover's own directions. *)
Definition mover_energy (m : mover) : R :=
  match mv_mass m with
  | Fin x => let u := qrot (qinv (o_rot (mv_o m))) (mv_spin m) in
      1 / 2 * x * vdot (mv_vel m) (mv_vel m) + 1 / 2 * vdot u (mulmv (mv_tensor m) u)
  | _ => 0
  end.
Definition total_energy (hs : list handle) (w : handle -> mover) : R := rsum (map (fun h => mover_energy (w h)) hs).
(** Turning only with a proper tensor; if infinitely heavy, at rest and without a tensor. *)
Definition ordinary_mover (m : mover) : Prop :=
  match mv_mass m with
  | Fin _ => invertible (mv_tensor m) \/ mv_spin m = mkV 0 0 0
  | _ => mv_tensor m = mkM 0 0 0 0 0 0 0 0 0 /\ mv_vel m = mkV 0 0 0 /\ mv_spin m = mkV 0 0 0
  end.
(** Every collider has the friction coefficients 0. *)
Definition slippery (s : system ER) : Prop :=
  forall c k, get_collider s c = Some k -> mt_stat (c_mat k) = Fin 0 /\ mt_dyn (c_mat k) = Fin 0.
(** Every coefficient of restitution is between 0 and 1; every one is 1. *)
Definition lossy (s : system ER) : Prop := forall c k, get_collider s c = Some k -> exists x, mt_rest (c_mat k) = Fin x /\ 0 <= x <= 1.
Definition elastic (s : system ER) : Prop := forall c k, get_collider s c = Some k -> mt_rest (c_mat k) = Fin 1.
(** The entity [h] is stored with these numbers. *)
Definition stored_as (s : system ER) (h : handle) (m : mover) : Prop :=
  exists e, get_entity s h = Some e /\ pe_last_total_mass e = mv_mass m /\ pe_last_prep_moi e = mfin (mv_tensor m) /\ pe_last_orient e = ofin (mv_o m) /\
    pe_vel e = vfin (mv_vel m) /\ pe_angvel e = vfin (mv_spin m).

(** ** Momentum *)
(** Mass times velocity, summed over the entities; all of finite mass. *)
Definition mover_momentum (m : mover) : V := match mv_mass m with Fin x => vscale (mv_vel m) x | _ => mkV 0 0 0 end.
Definition total_momentum (hs : list handle) (w : handle -> mover) : V := vsum (map (fun h => mover_momentum (w h)) hs).
(** Every entity has a finite mass and is awake. *)
Definition all_moving (s : system ER) : Prop := forall h e, aget (s_ents s) h = Some e -> e_total_mass e <> PInf /\ e_asleep e = false.
(** The vectors [js] are the forces on [h] in the step. *)
Definition forces_are (s : system ER) (d : R) (h : handle) (js : list V) : Prop :=
  exists fs, forces_on s (Fin d) h fs /\ map f_force fs = map (fun j => vfin j) js.
Definition forces_finite (s : system ER) (d : R) : Prop :=
  forall h fs f, forces_on s (Fin d) h fs -> In f fs -> exists j, f_force f = vfin j.
