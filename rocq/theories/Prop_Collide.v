(** * Properties of collision detection: C20-C27, C48, C52-C57.

    C20-C22 and C27 hold for every arithmetic with an order, in particular
    binary32 with NaN, infinities and signed zeros.  The geometric ones are in
    exact arithmetic: [vfin], [ofin] are finite real vectors and orientations
    as the scalars [ER] of the model. *)
From Coq Require Import ZArith Reals List Bool Lra.
Import ListNotations.
From Verif Require Import Num Vec Res RangeM Orient Colliders Collide OrderP Spec Examples RealSpec ArithP
  RealV CollideP OrientP Orient2P GeomP Geom2P Geom3P Geom4P Geom5P Geom6P Geom7P CaseEx.
Local Open Scope R_scope.

(** ** C20 Every reported collision time lies in the step *)
Theorem C20_time_in_step : forall (T : Type) (N : Num T) (O : Ord N) c1 s1 e1 c2 s2 e2 k,
  collide c1 s1 e1 c2 s2 e2 = Ok (Some k) -> n_le n0 (c_time k) = true /\ n_le (c_time k) n1 = true.
Proof. exact @collide_time. Qed.
Print Assumptions C20_time_in_step.

(** In binary32: [<=] is false on NaN, so the time is a number. *)
Theorem C20_binary32 : forall (L : Libm) (N := F32 L) c1 s1 e1 c2 s2 e2 k,
  collide c1 s1 e1 c2 s2 e2 = Ok (Some k) ->
  n_isnan (c_time k) = false /\ n_le n0 (c_time k) = true /\ n_le (c_time k) n1 = true.
Proof.
  intros L N c1 s1 e1 c2 s2 e2 k H. pose proof (@collide_time _ N (Ord_F32 L) _ _ _ _ _ _ _ H) as [H1 H2].
  split; auto. exact (le_nan_r (O := Ord_F32 L) _ _ H1).
Qed.
Print Assumptions C20_binary32.

(** ** C21 Null colliders and unsupported pairs never collide *)
Theorem C21_null : forall (T : Type) (N : Num T) n c s1 e1 s2 e2,
  collide (CNull n) s1 e1 c s2 e2 = Ok None /\ collide c s2 e2 (CNull n) s1 e1 = Ok None.
Proof. intros T N n c s1 e1 s2 e2. now destruct c. Qed.
Print Assumptions C21_null.

Theorem C21_unsupported : forall (T : Type) (N : Num T) (c1 c2 : collider T) s1 e1 s2 e2,
  match c1, c2 with
  | CPlane _, CPlane _ | CPlane _, CBox _ | CBox _, CPlane _ | CMesh _, CBox _ | CBox _, CMesh _ | CBox _, CBox _ => True
  | _, _ => False
  end -> collide c1 s1 e1 c2 s2 e2 = Ok None.
Proof. intros T N [] [] s1 e1 s2 e2; simpl; tauto. Qed.
Print Assumptions C21_unsupported.

(** ** C22 Collision detection is symmetric in its arguments *)
(** All pairs of different kinds: same cases, times and position, opposite normal, bit for bit
    ([turn] negates the normal).  Missing: two spheres and two meshes, below. *)
Theorem C22_mixed_partial : forall (T : Type) (N : Num T) (O : Ord N) (O2 : Ord2 O) c1 s1 e1 c2 s2 e2, mixed c1 c2 ->
  match collide c1 s1 e1 c2 s2 e2 with
  | Ok None => collide c2 s2 e2 c1 s1 e1 = Ok None
  | Ok (Some k) => exists k', collide c2 s2 e2 c1 s1 e1 = Ok (Some k') /\ c_times k' = c_times k /\ c_pos k' = c_pos k /\ c_normal k' = vneg (c_normal k)
  | Panic => collide c2 s2 e2 c1 s1 e1 = Panic
  | Fuel => collide c2 s2 e2 c1 s1 e1 = Fuel
  end.
Proof.
  intros T N O O2 c1 s1 e1 c2 s2 e2 M. rewrite (swap_mixed c1 s1 e1 c2 s2 e2 M).
  destruct (collide c1 s1 e1 c2 s2 e2) as [[k|]| |]; simpl; auto. exists (turn k). auto.
Qed.
Print Assumptions C22_mixed_partial.

(** Two spheres: the normal is missing (and wrong, see the refutation). *)
Theorem C22_spheres_partial : forall (s1 s2 : sphere_c ER) (c1 c2 : V) (r1 r2 : R) (o1 e1 o2 e2 : orientation R),
  sp_center s1 = vfin c1 -> sp_center s2 = vfin c2 -> sp_radius s1 = Fin r1 -> sp_radius s2 = Fin r2 -> 0 < r1 + r2 ->
  match collide (CSphere s1) (ofin o1) (ofin e1) (CSphere s2) (ofin o2) (ofin e2), collide (CSphere s2) (ofin o2) (ofin e2) (CSphere s1) (ofin o1) (ofin e1) with
  | Ok None, Ok None => True
  | Ok (Some k), Ok (Some k') => c_times k' = c_times k /\ c_pos k' = c_pos k
  | _, _ => False
  end.
Proof. exact swap_spheres. Qed.
Print Assumptions C22_spheres_partial.

(** Two meshes: symmetric unless a corner of each hits the other at the same time. *)
Theorem C22_meshes_partial : forall (T : Type) (N : Num T) (O : Ord N) (O2 : Ord2 O) m1 s1 e1 m2 s2 e2,
  match collide (CMesh m1) s1 e1 (CMesh m2) s2 e2, collide (CMesh m2) s2 e2 (CMesh m1) s1 e1 with
  | Ok None, Ok None => True
  | Ok (Some c), Ok (Some c') => c' = turn c \/
      (n_eq (c_time c) (c_time c') = true /\
       (exists k, corner_hit (mesh_point_pairs m1 s1 e1) (me_faces m2) (mesh_point_pairs m2 s2 e2) k /\ same_line k c) /\
       (exists k', corner_hit (mesh_point_pairs m2 s2 e2) (me_faces m1) (mesh_point_pairs m1 s1 e1) k' /\ same_line k' c'))
  | Ok _, _ | _, Ok _ => False
  | _, _ => True
  end.
Proof. exact @swap_meshes. Qed.
Print Assumptions C22_meshes_partial.

(** A moving and a resting ball that meet off centre: the two normals are not opposite. *)
Theorem C22_sphere_normals_refuted :
  let a := mkV 0 0 0 in let a' := mkV 6 0 0 in let b := mkV (42 / 10) (16 / 10) 0 in
  exists k k', collide (CSphere (ball 1)) (still a) (still a') (CSphere (ball 1)) (still b) (still b) = Ok (Some k) /\
    collide (CSphere (ball 1)) (still b) (still b) (CSphere (ball 1)) (still a) (still a') = Ok (Some k') /\ c_normal k' <> vneg (c_normal k).
Proof. exact swap_normal_wrong. Qed.
Print Assumptions C22_sphere_normals_refuted.

(** ** C23 Sphere-plane collisions are exact *)
Theorem C23_sphere_plane : forall s p (cs : V) r (pp n : V) s1 e1 s2 e2,
  sp_center s = vfin cs -> sp_radius s = Fin r -> pl_pos p = vfin pp -> pl_normal p = vfin n ->
  0 <= r -> vdot n n = 1 ->
  let centre := along (position_into_world s1 cs) (position_into_world e1 cs) in
  let plane := along (position_into_world s2 pp) (position_into_world e2 pp) in
  speedy (vdot (vsub (plane 1) (plane 0)) n - vdot (vsub (centre 1) (centre 0)) n) ->
  let touches t := exists x, within x (centre t) r /\ behind x (plane t) n in
  match collide (CSphere s) (ofin s1) (ofin e1) (CPlane p) (ofin s2) (ofin e2) with
  | Ok None => forall t, 0 <= t <= 1 -> ~ touches t
  | Ok (Some k) => exists t x, c_time k = Fin t /\ first_instant touches t /\ c_normal k = vfin (vneg n) /\
      c_pos k = vfin x /\ within x (centre t) r /\ forall y, within y (centre t) r -> vdot x n <= vdot y n
  | _ => False
  end.
Proof. exact collide_sphere_plane. Qed.
Print Assumptions C23_sphere_plane.
(** A ball of radius 1 falling from height 3 to 0 reaches the ground two thirds of the way. *)
Example C23_example : exists k, collide (CSphere (ball 1)) (still (mkV 0 0 3)) (still (mkV 0 0 0)) (CPlane ground) (still (mkV 0 0 0)) (still (mkV 0 0 0)) = Ok (Some k) /\
  c_time k = Fin (2 / 3).
Proof. exact ball_lands. Qed.

(** ** C24 Sphere-sphere collision times are exact *)
Theorem C24_sphere_sphere : forall (s1 s2 : sphere_c ER) (c1 c2 : V) (r1 r2 : R) (o1 e1 o2 e2 : orientation R),
  sp_center s1 = vfin c1 -> sp_center s2 = vfin c2 -> sp_radius s1 = Fin r1 -> sp_radius s2 = Fin r2 -> 0 <= r1 -> 0 <= r2 -> 0 < r1 + r2 ->
  let w1 := position_into_world o1 c1 in let w1' := position_into_world e1 c1 in
  let w2 := position_into_world o2 c2 in let w2' := position_into_world e2 c2 in
  let touches t := exists x, within x (along w1 w1' t) r1 /\ within x (along w2 w2' t) r2 in
  1 / 1000000 <= vdot (vsub (vsub w1' w1) (vsub w2' w2)) (vsub (vsub w1' w1) (vsub w2' w2)) ->
  1 / 1000000 <= crossing w1 (vsub w1' w1) w2 (vsub w2' w2) (r1 + r2) ->
  match collide (CSphere s1) (ofin o1) (ofin e1) (CSphere s2) (ofin o2) (ofin e2) with
  | Ok None => forall t, 0 <= t <= 1 -> ~ touches t
  | Ok (Some k) => exists t x, c_time k = Fin t /\ first_instant touches t /\ c_pos k = vfin x /\
      vscale (vsub x (along w1 w1' t)) r2 = vscale (vsub (along w2 w2' t) x) r1 /\
      within x (along w1 w1' t) r1 /\ within x (along w2 w2' t) r2 /\
      (0 < t -> on_sphere x (along w1 w1' t) r1 /\ on_sphere x (along w2 w2' t) r2)
  | _ => False
  end.
Proof. exact collide_spheres. Qed.
Print Assumptions C24_sphere_sphere.
(** The meeting used above, halfway through the step. *)
Example C24_example : exists k,
  collide (CSphere (ball 1)) (still (mkV 0 0 0)) (still (mkV 6 0 0)) (CSphere (ball 1)) (still (mkV (42 / 10) (16 / 10) 0)) (still (mkV (42 / 10) (16 / 10) 0)) = Ok (Some k) /\
  c_time k = Fin (1 / 2) /\ c_pos k = vfin (mkV (36 / 10) (8 / 10) 0).
Proof. destruct (glancing false) as (k & H1 & H2 & H3 & _). eauto. Qed.

(** ** C25 The collision normal of two spheres points along the line of centres *)
(** What the code does: the normal points from the first centre at the start of the step to the contact point. *)
Theorem C25_from_start_partial : forall (s1 s2 : sphere_c ER) (c1 c2 : V) (r1 r2 : R) (o1 e1 o2 e2 : orientation R),
  sp_center s1 = vfin c1 -> sp_center s2 = vfin c2 -> sp_radius s1 = Fin r1 -> sp_radius s2 = Fin r2 -> 0 < r1 + r2 ->
  forall k, collide (CSphere s1) (ofin o1) (ofin e1) (CSphere s2) (ofin o2) (ofin e2) = Ok (Some k) ->
    exists x, c_pos k = vfin x /\ (x <> position_into_world o1 c1 -> exists n, c_normal k = vfin n /\ unit_along n (vsub x (position_into_world o1 c1))).
Proof. exact collide_spheres_normal. Qed.
Print Assumptions C25_from_start_partial.
(** So it is right when the first centre does not move. *)
Theorem C25_resting_partial : forall (s1 s2 : sphere_c ER) (c1 c2 : V) (r1 r2 : R) (o1 e1 o2 e2 : orientation R),
  sp_center s1 = vfin c1 -> sp_center s2 = vfin c2 -> sp_radius s1 = Fin r1 -> sp_radius s2 = Fin r2 -> 0 <= r2 ->
  let w1 := position_into_world o1 c1 in let w1' := position_into_world e1 c1 in
  let w2 := position_into_world o2 c2 in let w2' := position_into_world e2 c2 in
  forall k, w1' = w1 -> 0 < r1 ->
    collide (CSphere s1) (ofin o1) (ofin e1) (CSphere s2) (ofin o2) (ofin e2) = Ok (Some k) ->
    exists t, c_time k = Fin t /\ 0 <= t <= 1 /\ (along w2 w2' t <> w1 -> exists n, c_normal k = vfin n /\ unit_along n (vsub (along w2 w2' t) w1)).
Proof. exact collide_spheres_normal_rest. Qed.
Print Assumptions C25_resting_partial.
(** A ball rests at the origin, another comes from (3, 0, 0) to (1, 0, 0). *)
Example C25_example : exists k, collide (CSphere (ball 1)) (still (mkV 0 0 0)) (still (mkV 0 0 0)) (CSphere (ball 1)) (still (mkV 3 0 0)) (still (mkV 1 0 0)) = Ok (Some k) /\
  c_time k = Fin (1 / 2) /\ c_pos k = vfin (mkV 1 0 0) /\ c_normal k = vfin (mkV 1 0 0).
Proof. exact came_to_rest. Qed.
Theorem C25_refuted :
  let a := mkV 0 0 0 in let a' := mkV 6 0 0 in let b := mkV (42 / 10) (16 / 10) 0 in
  exists k n t, collide (CSphere (ball 1)) (still a) (still a') (CSphere (ball 1)) (still b) (still b) = Ok (Some k) /\
    c_time k = Fin t /\ c_normal k = vfin n /\ ~ unit_along n (vsub b (along a a' t)).
Proof. exact normal_off_centres. Qed.
Print Assumptions C25_refuted.

(** ** C26 Sphere-box face contacts are sound and complete *)
(** [from] and [to] are the centre of the ball seen from the box at the start and the end. *)
Theorem C26_face_sound : forall (r : R) (c m mn mx : V), 0 <= r -> vx mn <= vx mx -> vy mn <= vy mx -> vz mn <= vz mx ->
  speedy (vx m) -> speedy (vy m) -> speedy (vz m) ->
  forall k, box_face_collision (Fin r) (vfin c) (vfin m) (vfin mn) (vfin mx) = Some k ->
    exists t, c_time k = Fin t /\ 0 <= t <= 1 /\ ball_meets_box r (vadd c (vscale m t)) mn mx.
Proof. exact face_sound. Qed.
Print Assumptions C26_face_sound.
Theorem C26_face_contact : forall (r : R) (c m mn mx : V), 0 <= r -> vx mn < vx mx -> vy mn < vy mx -> vz mn < vz mx ->
  forall k, box_face_collision (Fin r) (vfin c) (vfin m) (vfin mn) (vfin mx) = Some k ->
    exists t n, c_time k = Fin t /\ 0 <= t <= 1 /\ c_normal k = vfin n /\ c_pos k = vfin (vadd (vadd c (vscale m t)) (vscale n r)) /\
      (n = mkV 1 0 0 \/ n = mkV (-1) 0 0 \/ n = mkV 0 1 0 \/ n = mkV 0 (-1) 0 \/ n = mkV 0 0 1 \/ n = mkV 0 0 (-1)) /\
      inward mn mx (vadd c (vscale m t)) n.
Proof. exact face_contact. Qed.
Print Assumptions C26_face_contact.
Theorem C26_complete : forall (s : sphere_c ER) (b : box_c ER) (cs mn mx : V) (r : R) (s1 e1 s2 e2 : orientation R),
  sp_center s = vfin cs -> sp_radius s = Fin r -> bx_min b = vfin mn -> bx_max b = vfin mx ->
  0 <= r -> vx mn < vx mx -> vy mn < vy mx -> vz mn < vz mx ->
  let from := position_into_local s2 (position_into_world s1 cs) in
  let to := position_into_local e2 (position_into_world e1 cs) in
  speedy (vx to - vx from) -> speedy (vy to - vy from) -> speedy (vz to - vz from) ->
  forall t, 0 <= t <= 1 -> facing r mn mx (along from to t) ->
    exists k t', collide (CSphere s) (ofin s1) (ofin e1) (CBox b) (ofin s2) (ofin e2) = Ok (Some k) /\ c_time k = Fin t' /\ 0 <= t' <= t.
Proof. exact collide_box_complete. Qed.
Print Assumptions C26_complete.
(** For a box that is not turned during the step, what is seen from the box is what happens in the world. *)
Theorem C26_world : forall (cs mn mx : V) (r : R) (s1 e1 s2 e2 : orientation R), steady s2 e2 ->
  let from := position_into_local s2 (position_into_world s1 cs) in
  let to := position_into_local e2 (position_into_world e1 cs) in
  forall t, ball_meets_box r (along from to t) mn mx <->
    exists y, in_box mn mx y /\ within (along (position_into_world s2 y) (position_into_world e2 y) t) (along (position_into_world s1 cs) (position_into_world e1 cs) t) r.
Proof. exact box_world. Qed.
Print Assumptions C26_world.
Example C26_example : facing 1 (mkV (-1) (-1) (-1)) (mkV 1 1 1) (mkV 0 0 2) /\ ~ facing 1 (mkV (-1) (-1) (-1)) (mkV 1 1 1) (mkV 0 0 (21 / 10)).
Proof. unfold facing. simpl. split; [right; right|]; lra. Qed.

(** ** C27 Sphere-box reports the earliest of faces, edges and corners *)
Theorem C27_box : forall (T : Type) (N : Num T) (O : Ord N) (r : T) c m mn mx,
  match collide_sphere_with_aligned_box r c m mn mx with
  | Some k => box_part r c m mn mx k /\ forall k', box_part r c m mn mx k' -> n_lt (c_time k') (c_time k) = false
  | None => forall k', ~ box_part r c m mn mx k'
  end.
Proof. exact @box_earliest. Qed.
Print Assumptions C27_box.
Theorem C27_mesh : forall (T : Type) (N : Num T) (O : Ord N) s (m : mesh_c T) s1 e1 s2 e2 o,
  collide (CSphere s) s1 e1 (CMesh m) s2 e2 = Ok o ->
  let part := mesh_part (sp_radius s) (position_into_world s1 (sp_center s)) (vsub (position_into_world e1 (sp_center s)) (position_into_world s1 (sp_center s)))
                (map (fun v => position_into_world s2 (vadd (me_pos m) v)) (me_verts m)) (me_edges m) (me_faces m)
                (vsub (position_into_world e2 (me_pos m)) (position_into_world s2 (me_pos m))) in
  match o with
  | Some k => part k /\ forall k', part k' -> n_lt (c_time k') (c_time k) = false
  | None => forall k', ~ part k'
  end.
Proof. intros T N O s m s1 e1 s2 e2 o H. exact (mesh_earliest _ _ _ _ _ _ _ _ H). Qed.
Print Assumptions C27_mesh.
(** Through [collide], in exact arithmetic; the contact found in the coordinates of the box is put where the box is at that time. *)
Theorem C27_box_world : forall (s : sphere_c ER) (b : box_c ER) (cs mn mx : V) (r : R) (s1 e1 s2 e2 : orientation R),
  sp_center s = vfin cs -> sp_radius s = Fin r -> bx_min b = vfin mn -> bx_max b = vfin mx ->
  let from := position_into_local s2 (position_into_world s1 cs) in
  let to := position_into_local e2 (position_into_world e1 cs) in
  let part := box_part (Fin r) (vfin from) (vfin (vsub to from)) (vfin mn) (vfin mx) in
  match collide (CSphere s) (ofin s1) (ofin e1) (CBox b) (ofin s2) (ofin e2) with
  | Ok None => forall k, ~ part k
  | Ok (Some k) => exists k0 t, part k0 /\ (forall k', part k' -> n_lt (c_time k') (c_time k0) = false) /\
      c_time k0 = Fin t /\ 0 <= t <= 1 /\ c_times k = c_times k0 /\
      (steady s2 e2 -> forall x n, c_pos k0 = vfin x -> c_normal k0 = vfin n ->
         c_pos k = vfin (along (position_into_world s2 x) (position_into_world e2 x) t) /\ c_normal k = vfin (direction_into_world s2 n))
  | _ => False
  end.
Proof. exact collide_box_earliest. Qed.
Print Assumptions C27_box_world.
(** In binary32: a ball of radius 1 moving from (-5,3/2,0) to (3,3/2,0) hits the box from (-1,-1,-1) to (1,1,1) at
    an edge between 3/8 and 1/2 of the way, and later at a face; the edge is reported.  The other way round the result is the same with the normal turned. *)
Example C20_C22_C27_example : let N := F32 crude in
  let s := sphere_new n1 in let b := mkBox None vzero (vec (-1) (-1) (-1)) (vec 1 1 1) n1 mat_default in
  let o x := orient_new (mkV x (n_frac 3 2) n0) vzero vzero in let z := orient_new vzero vzero vzero in
  match collide (CSphere s) (o (n_frac (-5) 1)) (o (n_frac 3 1)) (CBox b) z z, collide (CBox b) z z (CSphere s) (o (n_frac (-5) 1)) (o (n_frac 3 1)) with
  | Ok (Some k), Ok (Some k') => n_lt (n_frac 3 8) (c_time k) && n_lt (c_time k) nhalf && n_eq (c_time k) (c_time k') &&
      n_lt n0 (vx (c_normal k)) && n_lt (vy (c_normal k)) n0 && n_lt (vx (c_normal k')) n0 && n_lt n0 (vy (c_normal k')) &&
      match box_face_collision n1 (mkV (n_frac (-5) 1) (n_frac 3 2) n0) (vec 8 0 0) (vec (-1) (-1) (-1)) (vec 1 1 1) with Some f => n_lt (c_time k) (c_time f) | None => false end
  | _, _ => false
  end = true.
Proof. vm_compute. reflexivity. Qed.

(** ** C48 Point-against-face contacts are real *)
(** Corner against face: [corner_meets] and [corner_misses] (RealSpec.v) say where the corner is at the reported time. *)
Theorem C48_corner_face : forall (a b p0 : V) rest o, let pol := p0 :: rest in
  collide_point_with_polygon (vfin a) (vfin b) (map vfin pol) = Ok o ->
  exists n, vdot n n = 1 /\ corner_normal pol n /\
    match o with
    | Some k => exists t x nn, c_times k = rg_single (Fin t) /\ c_pos k = vfin x /\ c_normal k = vfin nn /\ corner_meets pol n p0 a b t x nn
    | None => corner_misses pol n p0 a b
    end.
Proof. exact point_polygon. Qed.
Print Assumptions C48_corner_face.
(** Mesh against mesh: the earliest such contact of a corner of the one with a face of the other; the normal is the
    face normal up to its sense, which points away from at least half of the corners of the first mesh (or towards those of the second). *)
Theorem C48_mesh_mesh : forall (m1 m2 : mesh_c ER) p1 vs1 p2 vs2 s1 e1 s2 e2 o,
  me_pos m1 = vfin p1 -> me_verts m1 = map vfin vs1 -> me_pos m2 = vfin p2 -> me_verts m2 = map vfin vs2 ->
  collide (CMesh m1) (ofin s1) (ofin e1) (CMesh m2) (ofin s2) (ofin e2) = Ok o ->
  let ps1 := mesh_moves p1 vs1 s1 e1 in let ps2 := mesh_moves p2 vs2 s2 e2 in
  match o with
  | Some k => exists t x n, c_time k = Fin t /\ c_pos k = vfin x /\ c_normal k = vfin n /\
      ((half_ahead x (vneg n) (at_time ps1 t) /\ exists nn, (n = nn \/ n = vneg nn) /\ corner_face ps1 (me_faces m2) ps2 t x nn) \/
       (half_ahead x n (at_time ps2 t) /\ exists nn, (n = nn \/ n = vneg nn) /\ corner_face ps2 (me_faces m1) ps1 t x nn)) /\
      no_corner_before ps1 (me_faces m2) ps2 (fun t' => t' < t) /\ no_corner_before ps2 (me_faces m1) ps1 (fun t' => t' < t)
  | None => no_corner_before ps1 (me_faces m2) ps2 (fun _ => True) /\ no_corner_before ps2 (me_faces m1) ps1 (fun _ => True)
  end.
Proof. exact mesh_mesh_fin. Qed.
Print Assumptions C48_mesh_mesh.
(** In any arithmetic: one of the corner hits, and none is earlier. *)
Theorem C48_earliest : forall (T : Type) (N : Num T) (O : Ord N) (O2 : Ord2 O) m1 s1 e1 m2 s2 e2 o,
  collide (CMesh m1) s1 e1 (CMesh m2) s2 e2 = Ok o ->
  let hit k := corner_hit (mesh_point_pairs m1 s1 e1) (me_faces m2) (mesh_point_pairs m2 s2 e2) k \/
               corner_hit (mesh_point_pairs m2 s2 e2) (me_faces m1) (mesh_point_pairs m1 s1 e1) k in
  match o with
  | Some c => (exists k, hit k /\ same_line k c) /\ forall k, hit k -> n_lt (c_time k) (c_time c) = false
  | None => forall k, ~ hit k
  end.
Proof. exact @mesh_mesh_earliest. Qed.
Print Assumptions C48_earliest.
(** A tetrahedron moving up into a resting one, in binary32: its apex hits the bottom face halfway. *)
Example C48_example : let N := F32 crude in
  match tetra crude with
  | Ok m => match collide (CMesh m) (orient_new (vec 0 0 2) vzero vzero) (orient_new (vec 0 0 2) vzero vzero) (CMesh m) (orient_new (mkV (n_frac 1 8) (n_frac 1 8) n0) vzero vzero) (orient_new (mkV (n_frac 1 8) (n_frac 1 8) n2) vzero vzero) with
            | Ok (Some k) => n_eq (c_time k) nhalf
            | _ => false
            end
  | _ => false
  end = true.
Proof. vm_compute. reflexivity. Qed.

(** ** C52 Detected collisions have well-defined positions and normals *)
(** Proved here for a sphere with a plane and for two meshes; false for concentric spheres and for flat meshes on planes.
    Prop_Shape.v has the complete list of exceptions for all pairs. *)
Theorem C52_sphere_plane_partial : forall s p (cs : V) r (pp n : V) s1 e1 s2 e2 k,
  sp_center s = vfin cs -> sp_radius s = Fin r -> pl_pos p = vfin pp -> pl_normal p = vfin n ->
  collide (CSphere s) (ofin s1) (ofin e1) (CPlane p) (ofin s2) (ofin e2) = Ok (Some k) -> finite_v (c_pos k) /\ finite_v (c_normal k).
Proof. exact sphere_plane_finite. Qed.
Print Assumptions C52_sphere_plane_partial.
Theorem C52_meshes_partial : forall (m1 m2 : mesh_c ER) p1 vs1 p2 vs2 s1 e1 s2 e2 k,
  me_pos m1 = vfin p1 -> me_verts m1 = map vfin vs1 -> me_pos m2 = vfin p2 -> me_verts m2 = map vfin vs2 ->
  collide (CMesh m1) (ofin s1) (ofin e1) (CMesh m2) (ofin s2) (ofin e2) = Ok (Some k) -> finite_v (c_pos k) /\ finite_v (c_normal k).
Proof.
  intros m1 m2 p1 vs1 p2 vs2 s1 e1 s2 e2 k H1 H2 H3 H4 H.
  destruct (mesh_mesh_fin m1 m2 p1 vs1 p2 vs2 s1 e1 s2 e2 _ H1 H2 H3 H4 H) as (t & x & n & _ & Ex & En & _). split; [now exists x|now exists n].
Qed.
Print Assumptions C52_meshes_partial.
Theorem C52_concentric_refuted : exists k,
  collide (CSphere (ball 1)) (still (mkV 0 0 0)) (still (mkV 0 0 0)) (CSphere (ball 1)) (still (mkV 0 0 0)) (still (mkV 0 0 0)) = Ok (Some k) /\
  c_normal k = mkV ENaN ENaN ENaN.
Proof. exact concentric_nan. Qed.
Print Assumptions C52_concentric_refuted.
Theorem C52_flat_mesh_refuted : exists k,
  collide (CMesh triangle) (still (mkV 0 0 0)) (still (mkV 0 0 0)) (CPlane ground) (still (mkV 0 0 0)) (still (mkV 0 0 0)) = Ok (Some k) /\
  c_pos k = mkV ENaN ENaN ENaN.
Proof. exact flat_mesh_nan. Qed.
Print Assumptions C52_flat_mesh_refuted.

(** ** C53 A box collider is where it says it is *)
(** What the code does: the position of a box plays no part at all. *)
Theorem C53_ignored_partial : forall (T : Type) (N : Num T) (b : box_c T) p c1 s1 e1 s2 e2,
  let b' := mkBox (bx_ent b) p (bx_min b) (bx_max b) (bx_mass b) (bx_mat b) in
  collide c1 s1 e1 (CBox b') s2 e2 = collide c1 s1 e1 (CBox b) s2 e2 /\ collide (CBox b') s2 e2 c1 s1 e1 = collide (CBox b) s2 e2 c1 s1 e1.
Proof. exact @box_position_ignored. Qed.
Print Assumptions C53_ignored_partial.
(** [far_box] has corners (-1,-1,-1), (1,1,1) and position (10,0,0), and is hit at the origin. *)
Theorem C53_refuted : exists k, collide (CSphere (ball 1)) (still (mkV 0 0 0)) (still (mkV 0 0 0)) (CBox far_box) (still (mkV 0 0 0)) (still (mkV 0 0 0)) = Ok (Some k) /\
  ~ ball_meets_box 1 (mkV 0 0 0) (vadd (mkV 10 0 0) (mkV (-1) (-1) (-1))) (vadd (mkV 10 0 0) (mkV 1 1 1)).
Proof. exact box_not_at_position. Qed.
Print Assumptions C53_refuted.

(** ** C54 Overlapping spheres are always detected *)
(** True for spheres that move together; false for slowly approaching ones. *)
Theorem C54_together_partial : forall (s1 s2 : sphere_c ER) (c1 c2 : V) (r1 r2 : R) (o1 e1 o2 e2 : orientation R),
  sp_center s1 = vfin c1 -> sp_center s2 = vfin c2 -> sp_radius s1 = Fin r1 -> sp_radius s2 = Fin r2 -> 0 < r1 + r2 ->
  let w1 := position_into_world o1 c1 in let w1' := position_into_world e1 c1 in
  let w2 := position_into_world o2 c2 in let w2' := position_into_world e2 c2 in
  vsub w1' w1 = vsub w2' w2 ->
  match collide (CSphere s1) (ofin o1) (ofin e1) (CSphere s2) (ofin o2) (ofin e2) with
  | Ok None => (r1 + r2) * (r1 + r2) + 1 / 1000000 <= vdot (vsub w1 w2) (vsub w1 w2)
  | Ok (Some k) => vdot (vsub w1 w2) (vsub w1 w2) < (r1 + r2) * (r1 + r2) + 1 / 1000000 /\
      c_time k = Fin 0 /\ c_pos k = vfin (mid w1 w2 r1 r2)
  | _ => False
  end.
Proof. exact collide_spheres_together. Qed.
Print Assumptions C54_together_partial.
(** Two balls of radius 1 whose centres are 1 apart, both moving by (5, 0, 0). *)
Example C54_example : exists k, collide (CSphere (ball 1)) (still (mkV 0 0 0)) (still (mkV 5 0 0)) (CSphere (ball 1)) (still (mkV 0 1 0)) (still (mkV 5 1 0)) = Ok (Some k) /\
  c_time k = Fin 0 /\ c_pos k = vfin (mkV 0 (1 / 2) 0).
Proof. exact carried_along. Qed.
(** Two balls of radius 1 whose centres are 1 apart, approaching by 1/2000 in the step: no collision. *)
Theorem C54_refuted :
  (exists x, within x (mkV 0 0 0) 1 /\ within x (mkV 1 0 0) 1) /\
  collide (CSphere (ball 1)) (still (mkV 0 0 0)) (still (mkV 0 0 0)) (CSphere (ball 1)) (still (mkV 1 0 0)) (still (mkV (1 - 1 / 2000) 0 0)) = Ok None.
Proof. exact slow_overlap_missed. Qed.
Print Assumptions C54_refuted.

(** ** C55 Sphere-edge contacts are exact *)
Theorem C55_line : forall (r : R) (c m1 s dir m2 : V), 0 <= r -> dir <> mkV 0 0 0 ->
  1 / 1000000 <= vdot (vcross (vsub m1 m2) (vunit dir)) (vcross (vsub m1 m2) (vunit dir)) -> 1 / 1000000 <= line_crossing r c m1 s dir m2 ->
  let centre t := vadd c (vscale m1 t) in
  let touches t := exists j, within (vadd (vadd s (vscale m2 t)) (vscale dir j)) (centre t) r in
  match collide_sphere_with_line (Fin r) (vfin c) (vfin m1) (vfin s) (vfin dir) (vfin m2) with
  | None => forall t, 0 <= t <= 1 -> ~ touches t
  | Some k => exists t x, c_time k = Fin t /\ first_instant touches t /\ c_pos k = vfin x /\ within x (centre t) r /\
      (exists j, x = vadd (vadd s (vscale m2 t)) (vscale dir j)) /\ vdot (vsub (centre t) x) dir = 0
  end.
Proof. exact sphere_line. Qed.
Print Assumptions C55_line.
(** An edge is hit when its line is, at a point between its ends (up to EPSILON). *)
Theorem C55_segment : forall (r : R) (c m1 p q m2 : V) k, p <> q ->
  collide_sphere_with_mid_line_segment (Fin r) (vfin c) (vfin m1) (vfin p) (vfin q) (vfin m2) = Some k <->
  collide_sphere_with_line (Fin r) (vfin c) (vfin m1) (vfin p) (vfin (vsub q p)) (vfin m2) = Some k /\
  exists t x, c_time k = Fin t /\ c_pos k = vfin x /\
    let p' := vadd p (vscale m2 t) in let q' := vadd q (vscale m2 t) in
    Rabs (dist p' x + dist q' x - dist q p) < 1 / 1000000.
Proof. exact segment_some. Qed.
Print Assumptions C55_segment.
(** The normal points from the centre at the start of the step to the contact point. *)
Theorem C55_normal : forall (r : R) (c m1 s dir m2 : V) k, dir <> mkV 0 0 0 ->
  collide_sphere_with_line (Fin r) (vfin c) (vfin m1) (vfin s) (vfin dir) (vfin m2) = Some k ->
  exists x, c_pos k = vfin x /\ (x <> c -> exists n, c_normal k = vfin n /\ unit_along n (vsub x c)).
Proof. exact line_normal. Qed.
Print Assumptions C55_normal.
(** A ball of radius 1 moving from (-5,0,0) to (3,0,0), and the second axis as the line: both hypotheses of C55_line hold. *)
Example C55_example : mkV 0 1 0 <> mkV 0 0 0 /\ vunit (mkV 0 1 0) = mkV 0 1 0 /\
  vdot (vcross (vsub (mkV 8 0 0) (mkV 0 0 0)) (vunit (mkV 0 1 0))) (vcross (vsub (mkV 8 0 0) (mkV 0 0 0)) (vunit (mkV 0 1 0))) = 64 /\
  line_crossing 1 (mkV (-5) 0 0) (mkV 8 0 0) (mkV 0 0 0) (mkV 0 1 0) (mkV 0 0 0) = 256 /\
  first_instant (fun t => exists j, within (vadd (vadd (mkV 0 0 0) (vscale (mkV 0 0 0) t)) (vscale (mkV 0 1 0) j)) (vadd (mkV (-5) 0 0) (vscale (mkV 8 0 0) t)) 1) (1 / 2).
Proof.
  assert (U : vunit (mkV 0 1 0) = mkV 0 1 0) by (unfold vunit; vunfold; replace (0 * 0 + 1 * 1 + 0 * 0) with 1 by ring; rewrite sqrt_1; f_equal; field).
  split; [intros H; injection H; lra|]. split; [exact U|]. split; [rewrite U; vunfold; ring|]. split; [unfold line_crossing; rewrite U; vunfold; ring|].
  unfold first_instant, within. split; [lra|]. split; [exists 0; vunfold; lra|]. intros t H (j & H'). revert H'. vunfold. nra.
Qed.

(** ** C56 Sphere-face contacts are exact *)
Theorem C56_polygon : forall (r : R) (c m k0 k1 k2 : V) rest (mv : V), 0 <= r ->
  let pol := k0 :: k1 :: k2 :: rest in
  let cr := vcross (vsub k1 k0) (vsub k2 k0) in cr <> mkV 0 0 0 ->
  let n := vunit cr in speedy (vdot mv n - vdot m n) ->
  let centre t := vadd c (vscale m t) in
  let plane t x := vdot (vsub x (vadd k0 (vscale mv t))) n = 0 in
  let touches t := exists x, within x (centre t) r /\ plane t x in
  match collide_sphere_with_polygon_surface (Fin r) (vfin c) (vfin m) (map vfin pol) (vfin mv) with
  | Ok (Some k) => exists t x nn, c_time k = Fin t /\ first_instant touches t /\ c_pos k = vfin x /\ plane t x /\ within x (centre t) r /\
      c_normal k = vfin nn /\ unit_along nn (vsub x (centre t)) /\ vcross nn n = mkV 0 0 0 /\ same_side n pol (vsub x (vscale mv t))
  | Ok None => forall t x j, first_instant touches t -> plane t x -> vsub x (centre t) = vscale n j -> x <> centre t ->
      ~ same_side n pol (vsub x (vscale mv t))
  | _ => False
  end.
Proof. exact sphere_polygon. Qed.
Print Assumptions C56_polygon.
(** A ball of radius 1 falling from height 3 to 0 onto a triangle: the hypotheses of C56_polygon hold. *)
Example C56_example : let cr := vcross (vsub (mkV 0 2 0) (mkV 2 0 0)) (vsub (mkV (-2) (-2) 0) (mkV 2 0 0)) in
  cr = mkV 0 0 12 /\ vunit cr = mkV 0 0 1 /\ speedy (vdot (mkV 0 0 0) (vunit cr) - vdot (mkV 0 0 (-3)) (vunit cr)) /\
  first_instant (fun t => exists x, within x (vadd (mkV 0 0 3) (vscale (mkV 0 0 (-3)) t)) 1 /\ vdot (vsub x (vadd (mkV 2 0 0) (vscale (mkV 0 0 0) t))) (vunit cr) = 0) (2 / 3).
Proof.
  cbv zeta. assert (C : vcross (vsub (mkV 0 2 0) (mkV 2 0 0)) (vsub (mkV (-2) (-2) 0) (mkV 2 0 0)) = mkV 0 0 12) by (vunfold; f_equal; ring). rewrite C.
  assert (U : vunit (mkV 0 0 12) = mkV 0 0 1) by (unfold vunit; vunfold; replace (0 * 0 + 0 * 0 + 12 * 12) with (Rsqr 12) by (unfold Rsqr; ring); rewrite sqrt_Rsqr by lra; f_equal; field).
  split; [reflexivity|]. rewrite U. split; [reflexivity|]. split; [right; vunfold; rewrite Rabs_pos_eq; lra|].
  unfold first_instant, within. split; [lra|]. split; [exists (mkV 0 0 0); vunfold; lra|]. intros t H ([x y z] & H1 & H2). revert H1 H2. vunfold. intros H1 H2. assert (z = 0) by lra. subst z. nra.
Qed.

(** ** C57 Mesh-plane contacts *)
(** [heights t] are the heights of the vertices over the plane. The lowest height is taken to change steadily from its
    value at the start to its value at the end. *)
Theorem C57_mesh_plane : forall (m : mesh_c ER) (p : plane_c ER) (vs : list V) (pos pp n : V) (s1 e1 s2 e2 : orientation R),
  me_pos m = vfin pos -> me_verts m = map vfin vs -> vs <> [] -> pl_pos p = vfin pp -> pl_normal p = vfin n ->
  let plane := along (position_into_world s2 pp) (position_into_world e2 pp) in
  let vertices t := at_time (mesh_moves pos vs s1 e1) t in
  let heights t := map (fun x => vdot (vsub x (plane t)) n) (vertices t) in
  forall lo hi lo' hi', lowest (heights 0) lo -> highest (heights 0) hi -> lowest (heights 1) lo' -> highest (heights 1) hi' ->
  speedy (lo' - lo) ->
  match collide (CMesh m) (ofin s1) (ofin e1) (CPlane p) (ofin s2) (ofin e2) with
  | Ok None => forall t, 0 <= t <= 1 -> 0 < lo + (lo' - lo) * t
  | Ok (Some k) => exists t, c_time k = Fin t /\ first_instant (fun t => lo + (lo' - lo) * t <= 0) t /\ c_normal k = vfin (vneg n) /\
      (lo < hi -> lo' < hi' -> exists s e, c_pos k = vfin (along s e t) /\ average (bottom (vertices 0) (plane 0) n lo hi) s /\ average (bottom (vertices 1) (plane 1) n lo' hi') e) /\
      (lo = hi \/ lo' = hi' -> c_pos k = mkV ENaN ENaN ENaN)
  | _ => False
  end.
Proof. exact collide_mesh_plane. Qed.
Print Assumptions C57_mesh_plane.
(** A mesh that does not turn: exactly the first moment at which a vertex is behind the plane. *)
Theorem C57_translating : forall (m : mesh_c ER) (p : plane_c ER) (vs : list V) (pos pp n : V) (s1 e1 s2 e2 : orientation R),
  me_pos m = vfin pos -> me_verts m = map vfin vs -> vs <> [] -> pl_pos p = vfin pp -> pl_normal p = vfin n ->
  let plane := along (position_into_world s2 pp) (position_into_world e2 pp) in
  let vertices t := at_time (mesh_moves pos vs s1 e1) t in
  forall d, (forall v, In v vs -> vsub (position_into_world e1 (vadd pos v)) (position_into_world s1 (vadd pos v)) = d) ->
  speedy (vdot d n - vdot (vsub (plane 1) (plane 0)) n) ->
  let touches t := exists x, In x (vertices t) /\ behind x (plane t) n in
  match collide (CMesh m) (ofin s1) (ofin e1) (CPlane p) (ofin s2) (ofin e2) with
  | Ok None => forall t, 0 <= t <= 1 -> ~ touches t
  | Ok (Some k) => exists t, c_time k = Fin t /\ first_instant touches t /\ c_normal k = vfin (vneg n)
  | _ => False
  end.
Proof. exact collide_mesh_plane_translating. Qed.
Print Assumptions C57_translating.
(** The flat triangle on the ground (of the C52 refutation) meets these hypotheses. *)
Example C57_example : lowest [0; 0; 0] 0 /\ highest [0; 0; 0] 0 /\ speedy (0 - 0).
Proof. split; [|split]; [split; [now left|intros e [<-|[<-|[<-|[]]]]; lra]|split; [now left|intros e [<-|[<-|[<-|[]]]]; lra]|left; lra]. Qed.
