(** * FloorSpec: worlds of balls and half spaces, and a ball over a floor (C63, C69).

    Small independent definitions; nothing here is part of the model. *)
From Coq Require Import Reals List Bool.
Import ListNotations.
From Verif Require Import Num Vec Arena Orient Colliders Collide EntityM SystemM OrderP Spec RealSpec PhysSpec TraceSpec.
Local Open Scope R_scope.

(** ** Plain worlds *)
(** A ball, a half space given by numbers. *)
Definition plain_ball (b : sphere_c ER) : Prop := exists c r, sp_center b = vfin c /\ sp_radius b = Fin r /\ 0 <= r.
Definition plain_plane (q : plane_c ER) : Prop := exists p n, pl_pos q = vfin p /\ pl_normal q = vfin n /\ vdot n n = 1.
(** Wherever colliders of different entities can meet, one is a ball and the other a half space; their restitution is a number and
    not both of the entities are infinitely heavy. *)
Definition plain (s : system ER) : Prop := forall h k e1 e2 c1 c2 k1 k2, h <> k ->
  get_entity s h = Some e1 -> get_entity s k = Some e2 -> In c1 (pe_colliders e1) -> In c2 (pe_colliders e2) ->
  get_collider s c1 = Some k1 -> get_collider s c2 = Some k2 ->
  match k1, k2 with
  | CSphere b, CPlane q | CPlane q, CSphere b => plain_ball b /\ plain_plane q /\
      (exists x, n_mul (mt_rest (c_mat k1)) (mt_rest (c_mat k2)) = Fin x) /\ (pe_last_total_mass e1 <> PInf \/ pe_last_total_mass e2 <> PInf)
  | CPlane _, (CPlane _ | CBox _) | CBox _, (CPlane _ | CMesh _ | CBox _) | CMesh _, CBox _ | CNull _, _ | _, CNull _ => True
  | _, _ => False
  end.

(** ** A ball over a floor *)
(** The entity [h] has only this collider. *)
Definition only_collider (s : system ER) (h : handle) (k : collider ER) : Prop :=
  exists e c, get_entity s h = Some e /\ pe_colliders e = [c] /\ get_collider s c = Some k.
(** The two materials have no friction with each other, and bounces keep at least the speed, or nobody ever falls asleep. *)
Definition springy (s : system ER) (m1 m2 : material ER) : Prop := exists e1 e2 s1 s2 d1 d2,
  mt_rest m1 = Fin e1 /\ mt_rest m2 = Fin e2 /\ mt_stat m1 = Fin s1 /\ mt_stat m2 = Fin s2 /\ mt_dyn m1 = Fin d1 /\ mt_dyn m2 = Fin d2 /\
  s1 * s2 = 0 /\ d1 * d2 = 0 /\ 0 <= e1 * e2 /\
  (1 <= e1 * e2 \/ (s_time_thr s = PInf /\ forall h x, aget (s_ents s) h = Some x -> exists t, e_falling_time x = Fin t)).
(** The system consists of the entity [b] with a ball of centre [c] and radius [r], and [f] with the half space through [p] with
    the normal [n].  All forces are gravity, [g].  Nobody has neighbours. *)
Record court (s : system ER) (b f : handle) (c : V) (r : R) (p n g : V) : Prop := {
  ct_two : forall h, get_entity s h <> None <-> h = b \/ h = f;
  ct_apart : b <> f;
  ct_colliders : exists sp pl, only_collider s b (CSphere sp) /\ only_collider s f (CPlane pl) /\
    sp_center sp = vfin c /\ sp_radius sp = Fin r /\ pl_pos pl = vfin p /\ pl_normal pl = vfin n /\
    springy s (sp_mat sp) (pl_mat pl);
  ct_radius : 0 <= r;
  ct_normal : vdot n n = 1;
  ct_gravity : exists gs, gravity_only s gs /\ vsum gs = g;
  ct_iterations : (2 <= s_iteration_max s)%nat;
  ct_alone : forall h k, ~ contact (s_ents s) h k }.
(** A body of finite mass that does not turn, with its centre of mass at its point [c]. *)
Definition ball_mover (c : V) (m : mover) : Prop :=
  sound_mover m /\ spinless m /\ vadd c (o_off (mv_o m)) = mkV 0 0 0 /\ exists x, mv_mass m = Fin x /\ 1 / 1000000 < x.
(** An infinitely heavy one at rest. *)
Definition floor_mover (m : mover) : Prop :=
  sound_mover m /\ spinless m /\ mv_vel m = mkV 0 0 0 /\ mv_mass m = PInf /\ mv_tensor m = mkM 0 0 0 0 0 0 0 0 0.
(** The ball is [h] above the floor (less than 0: this deep in it) and rises with the velocity [v]. *)
Definition ball_over (s : system ER) (b f : handle) (c : V) (r : R) (p n : V) (h v : R) : Prop :=
  exists mb mf, stored_as s b mb /\ stored_as s f mf /\ ball_mover c mb /\ floor_mover mf /\
    h = vdot (vsub (o_pos (mv_o mb)) (position_into_world (mv_o mf) p)) n - r /\ v = vdot (mv_vel mb) n.
(** A number of steps, each with its length and the order in which sets are gone through. *)
Definition steps (l : list (set_order * R)) : list (call ER) := map (fun x => (fst x, OStep (Fin (snd x)))) l.
(** The product of the coefficients of restitution. *)
Definition restitution (s : system ER) (b f : handle) (e : R) : Prop :=
  exists k1 k2, only_collider s b k1 /\ only_collider s f k2 /\ n_mul (mt_rest (c_mat k1)) (mt_rest (c_mat k2)) = Fin e.
(** The ball, [h] above the floor, moves for the time [d] with the velocity [v].  It may do so through the floor only if it is slow. *)
Definition flies (h v d h' v' : R) : Prop := h' = h + v * d /\ v' = v /\ (h <= 0 -> - (1 / 1000000) < v) /\
  (0 < h -> h' < 0 -> - (1 / 1000000) < v \/ - (1 / 1000000) < v * d).
(** It touches the floor after the time [t] and leaves it with [e] times the velocity it came with. *)
Definition bounces (e h v d h' v' : R) : Prop := exists t, 0 <= t <= d /\ v <= - (1 / 1000000) /\ h + v * t <= 0 /\ (t <> 0 -> h + v * t = 0) /\
  v' = - e * v /\ h' = h + v * t + v' * (d - t).
(** What a step of length [d] with the acceleration [a] upwards does to the ball. *)
Definition ball_moves (s s' : system ER) (b : handle) (e a h v d h' v' : R) : Prop :=
  (s_records s' = [] /\ (exists x, get_entity s b = Some x /\ pe_asleep x = true) /\ h' = h /\ v' = 0) \/
  (s_records s' = [] /\ flies h (v + a * d) d h' v') \/
  (length (s_records s') = 1%nat /\ bounces e h (v + a * d) d h' v').
