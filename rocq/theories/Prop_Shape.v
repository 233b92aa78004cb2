(** * Whole shapes: C78 (balls and boxes), C79 (balls and meshes) and C52 (all pairs), in exact arithmetic.

    The words used here are in BoxSpec.v and RealSpec.v; the model's own parts of
    boxes and meshes (faces, edges, corners) do not appear in the statements. *)
From Coq Require Import ZArith Reals List Bool Lra.
Import ListNotations.
From Verif Require Import Num Vec Res Orient Colliders Collide Spec RealSpec BoxSpec FiniteSpec Geom8P Geom9P FiniteP ShapeEx.
Local Open Scope R_scope.

(** ** C78 A ball is reported to meet a box at the moment it first does, and only then *)
(** [from] and [to] are the centre of the ball seen from the box.  The reported time is no later than any moment of contact,
    and at that time the ball, grown by the tolerance of the solver, touches the box.
    Missing: boxes that turn, motion that grazes an edge or a corner within EPSILON, and motion slower than the solver sees. *)
Theorem C78_ball_box_partial : forall (s : sphere_c ER) (b : box_c ER) (cs mn mx : V) (r : R) (s1 e1 s2 e2 : orientation R),
  sp_center s = vfin cs -> sp_radius s = Fin r -> bx_min b = vfin mn -> bx_max b = vfin mx ->
  0 < r -> vx mn < vx mx -> vy mn < vy mx -> vz mn < vz mx -> steady s2 e2 ->
  let from := position_into_local s2 (position_into_world s1 cs) in
  let to := position_into_local e2 (position_into_world e1 cs) in
  let m := vsub to from in
  lively (vx m) -> lively (vy m) -> lively (vz m) -> grazes_nothing r from m mn mx ->
  let touches r t := exists y, in_box mn mx y /\
    within (along (position_into_world s2 y) (position_into_world e2 y) t) (along (position_into_world s1 cs) (position_into_world e1 cs) t) r in
  match collide (CSphere s) (ofin s1) (ofin e1) (CBox b) (ofin s2) (ofin e2) with
  | Ok None => forall t, 0 <= t <= 1 -> ~ touches r t
  | Ok (Some k) => exists t, c_time k = Fin t /\ 0 <= t <= 1 /\ touches (slack r) t /\ forall t', 0 <= t' <= 1 -> touches r t' -> t <= t'
  | _ => False
  end.
Proof. exact collide_box_upto. Qed.
Print Assumptions C78_ball_box_partial.
(** A ball flying diagonally at an edge of a cube. *)
Example C78_example : grazes_nothing 1 start_at (vsub end_at start_at) cube_lo cube_hi /\
  exists k t, collide (CSphere (flyer 1)) (still start_at) (still end_at) (CBox cube) (still (mkV 0 0 0)) (still (mkV 0 0 0)) = Ok (Some k) /\
    c_time k = Fin t /\ 0 < t <= 1 / 2.
Proof. exact (conj cube_clear cube_example). Qed.

(** ** C79 A ball is reported to meet a mesh at the moment it first does, and only then *)
(** Missing: meshes that turn, grazing and slow motion as in C78; false if the centre starts in the plane of a face (below). *)
Theorem C79_ball_mesh_partial : forall (s : sphere_c ER) (m : mesh_c ER) (cs pos : V) (vs : list V) (r : R) (s1 e1 s2 e2 : orientation R),
  sp_center s = vfin cs -> sp_radius s = Fin r -> me_pos m = vfin pos -> me_verts m = map vfin vs ->
  mesh_wf m -> sides_listed (me_edges m) (me_faces m) -> 0 < r -> steady s2 e2 ->
  let from := position_into_world s1 cs in let to := position_into_world e1 cs in
  let start := map (fun v => position_into_world s2 (vadd pos v)) vs in
  let mv := vsub (position_into_world e2 pos) (position_into_world s2 pos) in
  grazes_no_mesh r from (vsub to from) start (me_edges m) (me_faces m) mv ->
  let corners t := at_time (mesh_moves pos vs s2 e2) t in
  match collide (CSphere s) (ofin s1) (ofin e1) (CMesh m) (ofin s2) (ofin e2) with
  | Ok None => forall t, 0 <= t <= 1 -> ~ ball_meets_mesh r (along from to t) (corners t) (me_edges m) (me_faces m)
  | Ok (Some k) => exists t, c_time k = Fin t /\ 0 <= t <= 1 /\ ball_nears_mesh r (along from to t) (corners t) (me_edges m) (me_faces m) /\
      forall t', 0 <= t' <= 1 -> ball_meets_mesh r (along from to t') (corners t') (me_edges m) (me_faces m) -> t <= t'
  | _ => False
  end.
Proof. exact collide_mesh_upto. Qed.
Print Assumptions C79_ball_mesh_partial.
(** Meshes made with [MeshCollider::new] and [add_face] list the sides of their faces. *)
Theorem C79_built_partial : forall (T : Type) (N : Num T) (m : mesh_c T), mesh_built m -> mesh_wf m /\ sides_listed (me_edges m) (me_faces m).
Proof. intros T N m B. split; [now apply MeshP.mesh_built_wf|now apply built_listed]. Qed.
Print Assumptions C79_built_partial.
(** [in_face], used in [ball_meets_mesh], for a triangle: its convex combinations. *)
Theorem C79_triangle_partial : forall n (a b c x : V), proper_face n [a; b; c] ->
  (in_face n [a; b; c] x <-> exists u v, 0 <= u /\ 0 <= v /\ u + v <= 1 /\ x = vadd a (vadd (vscale (vsub b a) u) (vscale (vsub c a) v))).
Proof. exact triangle_points. Qed.
Print Assumptions C79_triangle_partial.
(** A ball falling onto a triangle. *)
Example C79_example : mesh_wf tri /\ sides_listed (me_edges tri) (me_faces tri) /\
  grazes_no_mesh (1 / 2) drop_from (vsub drop_to drop_from) tri_corners (me_edges tri) (me_faces tri) (mkV 0 0 0) /\
  exists k t, collide (CSphere (flyer (1 / 2))) (still drop_from) (still drop_to) (CMesh tri) (still (mkV 0 0 0)) (still (mkV 0 0 0)) = Ok (Some k) /\
    c_time k = Fin t /\ t <= 5 / 8.
Proof. exact (conj tri_wf (conj tri_listed (conj tri_clear tri_example))). Qed.
(** With its centre exactly in the plane of a face, a ball in the middle of the face is not noticed. *)
Theorem C79_refuted : let o := mkV 0 0 0 in
  collide (CSphere (flyer 1)) (still o) (still o) (CMesh wide) (still o) (still o) = Ok None /\
  ball_meets_mesh 1 o wide_corners (me_edges wide) (me_faces wide).
Proof. exact wide_unnoticed. Qed.
Print Assumptions C79_refuted.

(** ** C52 Which collisions have a position and a normal *)
(** All pairs of valid colliders given by numbers, in any motion: the position is lost exactly when a mesh is level with a plane at
    the start or the end of the step, and the normal at most when a ball (the first of two) touches a ball, a vertex or an edge in the
    point where its centre was at the start.  Boxes never lose either.  See FiniteSpec.v for the words. *)
Theorem C52_well_defined_partial : forall (c1 : collider ER) s1 e1 (c2 : collider ER) s2 e2 k, proper_shape c1 -> proper_shape c2 ->
  collide c1 (ofin s1) (ofin e1) c2 (ofin s2) (ofin e2) = Ok (Some k) ->
  (flat_contact c1 s1 e1 c2 s2 e2 -> c_pos k = mkV ENaN ENaN ENaN) /\ (~ flat_contact c1 s1 e1 c2 s2 e2 -> finite_v (c_pos k)) /\
  (finite_v (c_normal k) \/ (c_normal k = mkV ENaN ENaN ENaN /\ centred_contact c1 s1 c2 s2 k)).
Proof. exact well_defined. Qed.
Print Assumptions C52_well_defined_partial.
(** For two balls the normal is lost exactly then. *)
Theorem C52_balls_partial : forall a s1 e1 b s2 e2 k, proper_shape (CSphere a) -> proper_shape (CSphere b) ->
  collide (CSphere a) (ofin s1) (ofin e1) (CSphere b) (ofin s2) (ofin e2) = Ok (Some k) ->
  (c_normal k = mkV ENaN ENaN ENaN <-> c_pos k = position_into_world (ofin s1) (sp_center a)).
Proof. exact balls_lost. Qed.
Print Assumptions C52_balls_partial.
(** The ball and the cube of C78. *)
Example C52_example : proper_shape (CSphere (flyer 1)) /\ proper_shape (CBox cube) /\
  exists k, collide (CSphere (flyer 1)) (still start_at) (still end_at) (CBox cube) (still (mkV 0 0 0)) (still (mkV 0 0 0)) = Ok (Some k).
Proof. exact cube_shapes. Qed.
