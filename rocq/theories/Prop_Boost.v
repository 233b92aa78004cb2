(** * The world seen by somebody who moves steadily: C89.

    The words used here are in BoostSpec.v, MoveSpec.v and FlightSpec.v. *)
From Coq Require Import Reals List Bool.
Import ListNotations.
From Verif Require Import Num Vec Res Arena RangeM Orient Colliders Collide EntityM SystemM OrderP Spec RealSpec PhysSpec Examples CaseEx MoveSpec FlightSpec BoostSpec BoostP BoostEx.
Local Open Scope R_scope.

(** ** C89 The world has no special speed *)
(** The response to a given contact: with [u] on top of both velocities the impulses are the same, and [u] stays on top. *)
Theorem C89_response : forall u e1 e2 f, respond_pair (boost u e1) (boost u e2) f =
  let '(a, b, impulse, touching) := respond_pair e1 e2 f in (boost u a, boost u b, impulse, touching).
Proof. exact boost_respond. Qed.
Print Assumptions C89_response.
(** Bodies in free flight stay the distance apart that [u] makes in the time passed. *)
Theorem C89_flight_partial : forall h gs m s l s' e p v t l2 t' e2 u,
  undisturbed h s l s' -> undisturbed h t l2 t' -> map snd l2 = map snd l -> gravity_only s gs -> gravity_only t gs ->
  get_entity s h = Some e -> get_entity t h = Some e2 -> pe_last_total_mass e = Fin m -> pe_last_total_mass e2 = Fin m -> / 1000000 < m ->
  pe_pos e = vfin p -> pe_pos e2 = vfin p -> pe_vel e = vfin v -> pe_vel e2 = vfin (vadd v u) ->
  exists e' e2', get_entity s' h = Some e' /\ get_entity t' h = Some e2' /\
    pe_vel e2' = vadd (pe_vel e') (vfin u) /\ pe_pos e2' = vadd (pe_pos e') (vfin (vscale u (total_time l))).
Proof. exact boost_flight. Qed.
Print Assumptions C89_flight_partial.
Example C89_flight_example : let s := drifting (mkV 2 0 0) in let t := drifting (mkV 2 3 0) in
  reachable s /\ reachable t /\ gravity_only s [] /\ gravity_only t [] /\ (exists s', undisturbed (hd 0) s [(in_order, 1)] s') /\ (exists t', undisturbed (hd 0) t [(in_order, 1)] t') /\
  exists e e2, get_entity s (hd 0) = Some e /\ get_entity t (hd 0) = Some e2 /\ pe_last_total_mass e = Fin 1 /\ pe_last_total_mass e2 = Fin 1 /\
    pe_pos e = vfin (mkV 0 0 0) /\ pe_pos e2 = vfin (mkV 0 0 0) /\ pe_vel e = vfin (mkV 2 0 0) /\ pe_vel e2 = vfin (vadd (mkV 2 0 0) (mkV 0 3 0)).
Proof. exact drifts_seen. Qed.
(** A ball and a plane that both move [w] further meet at the same times, with the same normal, at the point moved along. *)
Theorem C89_sphere_plane_partial : forall w (s : sphere_c ER) (p : plane_c ER) n o1 e1 o2 e2, pl_normal p = vfin n ->
  unit_o o1 -> unit_o e1 -> unit_o o2 -> unit_o e2 ->
  same_contact w (collide (CSphere s) (ofin o1) (ofin e1) (CPlane p) (ofin o2) (ofin e2))
                 (collide (CSphere s) (ofin o1) (move_o w (ofin e1)) (CPlane p) (ofin o2) (move_o w (ofin e2))).
Proof. exact boost_sphere_plane. Qed.
Print Assumptions C89_sphere_plane_partial.
Example C89_sphere_plane_example : exists k k',
  collide (CSphere (RealSpec.ball 1)) (still (mkV 0 0 3)) (still (mkV 0 0 0)) (CPlane RealSpec.ground) (still (mkV 0 0 0)) (still (mkV 0 0 0)) = Ok (Some k) /\
  collide (CSphere (RealSpec.ball 1)) (still (mkV 0 0 3)) (move_o (mkV 4 0 0) (still (mkV 0 0 0))) (CPlane RealSpec.ground) (still (mkV 0 0 0)) (move_o (mkV 4 0 0) (still (mkV 0 0 0))) = Ok (Some k') /\
  c_times k' = c_times k /\ c_normal k' = c_normal k.
Proof. exact landing_seen. Qed.
(** Two balls that both move [w] further meet at the same times, at the point moved along; the normal may differ. *)
Theorem C89_spheres_partial : forall w (s1 s2 : sphere_c ER) r1 r2 o1 e1 o2 e2, sp_radius s1 = Fin r1 -> sp_radius s2 = Fin r2 -> 0 < r1 + r2 ->
  unit_o o1 -> unit_o e1 -> unit_o o2 -> unit_o e2 ->
  same_meeting w (collide (CSphere s1) (ofin o1) (ofin e1) (CSphere s2) (ofin o2) (ofin e2))
                 (collide (CSphere s1) (ofin o1) (move_o w (ofin e1)) (CSphere s2) (ofin o2) (move_o w (ofin e2))).
Proof. exact boost_spheres. Qed.
Print Assumptions C89_spheres_partial.
Example C89_spheres_example : exists k k',
  collide (CSphere (RealSpec.ball 1)) (still (mkV 0 0 0)) (still (mkV 0 0 0)) (CSphere (RealSpec.ball 1)) (still (mkV 3 0 0)) (still (mkV 1 0 0)) = Ok (Some k) /\
  collide (CSphere (RealSpec.ball 1)) (still (mkV 0 0 0)) (move_o (mkV 0 4 0) (still (mkV 0 0 0))) (CSphere (RealSpec.ball 1)) (still (mkV 3 0 0)) (move_o (mkV 0 4 0) (still (mkV 1 0 0))) = Ok (Some k') /\
  c_time k = Fin (1 / 2) /\ c_times k' = c_times k /\ c_pos k = vfin (mkV 1 0 0) /\ c_pos k' = vfin (mkV 1 2 0).
Proof. exact meeting_seen. Qed.
(** False for the step as a whole: two balls of the same mass meet head-on without friction.  The first one, at rest before, leaves with the
    whole velocity.  With the same velocity sideways on top of both, it gets next to nothing and starts to spin, because the normal
    points from where its centre was at the start of the step. *)
Theorem C89_refuted : forall (L : Libm) (N := F32 L), exists (s t : system f32), reachable s /\ reachable t /\ boosted (vec 0 4 0) s t /\
  exists s' t' a b, step in_order s n2 = Ok s' /\ step in_order t n2 = Ok t' /\
    get_entity s' (hd 0) = Some a /\ get_entity t' (hd 0) = Some b /\
    n_eq (vx (pe_vel a)) (n_frac (-2) 1) = true /\ n_lt (n_frac (-1) 20) (vx (pe_vel b)) = true /\
    n_eq (vmag (pe_angvel a)) n0 = true /\ n_lt (n_frac 1 4) (vmag (pe_angvel b)) = true.
Proof. intros L. exact (ex_intro _ (here L) (ex_intro _ (aside L) (head_on L))). Qed.
Print Assumptions C89_refuted.
