(** * RealSpec: real vectors and the geometry that the properties talk about.

    Small independent definitions; nothing here is part of the model. *)
From Coq Require Import ZArith Reals List.
Import ListNotations.
From Verif Require Import Num Vec RangeM Orient Colliders Collide OrderP Spec.
Local Open Scope R_scope.

(** Real numbers as scalars.  Only used to write vector algebra (dot, cross,
    quaternion products, ...) over R; there are no infinities and no NaN. *)
#[global] Instance RNum : Num R := {|
  n_add := Rplus; n_sub := Rminus; n_mul := Rmult; n_div := Rdiv; n_neg := Ropp; n_abs := Rabs; n_sqrt := sqrt;
  n_lt := fun x y => if Rlt_dec x y then true else false;
  n_le := fun x y => if Rle_dec x y then true else false;
  n_eq := fun x y => if Req_EM_T x y then true else false;
  n_isnan := fun _ => false; n_isinf := fun _ => false; n_isfin := fun _ => true;
  n_signum := fun x => if Rlt_dec x 0 then -1 else 1;
  n_frac := fun p q => IZR p / IZR (Zpos q);
  n_inf := 0; n_nan := 0;
  n_sin := sin; n_cos := cos; n_atan2 := Ratan2 |}.

Notation V := (Vec3 R).
Notation M := (Mat3 R).
Notation Q := (Quat R).
Definition vfin (v : V) : Vec3 ER := mkV (Fin (vx v)) (Fin (vy v)) (Fin (vz v)).
Definition mfin (m : M) : Mat3 ER :=
  mkM (Fin (m11 m)) (Fin (m12 m)) (Fin (m13 m)) (Fin (m21 m)) (Fin (m22 m)) (Fin (m23 m)) (Fin (m31 m)) (Fin (m32 m)) (Fin (m33 m)).
Definition qfin (q : Q) : Quat ER := mkQ (Fin (qi q)) (Fin (qj q)) (Fin (qk q)) (Fin (qw q)).

Definition ofin (o : orientation R) : orientation ER := mkO (vfin (o_pos o)) (qfin (o_rot o)) (vfin (o_off o)).

(** The first moment in the step at which [P] holds. *)
Definition first_instant (P : R -> Prop) (t : R) : Prop :=
  0 <= t <= 1 /\ P t /\ forall t', 0 <= t' <= 1 -> P t' -> t <= t'.

(** Where a point moving steadily from [a] to [b] is at time [t]. *)
Definition along (a b : V) (t : R) : V := vadd a (vscale (vsub b a) t).
(** [x] is in the ball with centre [c] and radius [r]. *)
Definition within (x c : V) (r : R) : Prop := vdot (vsub x c) (vsub x c) <= r * r.
(** [x] is on its surface. *)
Definition on_sphere (x c : V) (r : R) : Prop := vdot (vsub x c) (vsub x c) = r * r.
(** [x] is in the half space behind the plane through [p] with normal [n]. *)
Definition behind (x p n : V) : Prop := vdot (vsub x p) n <= 0.
(** [x] is in the box with extreme corners [mn] and [mx]. *)
Definition in_box (mn mx x : V) : Prop := vx mn <= vx x <= vx mx /\ vy mn <= vy x <= vy mx /\ vz mn <= vz x <= vz mx.
Definition unit_quat (q : Q) : Prop := qi q * qi q + qj q * qj q + qk q * qk q + qw q * qw q = 1.
(** [v] is the unit vector in the direction of [d]. *)
Definition unit_along (v d : V) : Prop := vdot v v = 1 /\ exists k, 0 < k /\ d = vscale v k.
(** [x] lies, up to EPSILON, on the same side of every edge of the polygon [pol], seen along [n]. *)
Definition same_side (n : V) (pol : list V) (x : V) : Prop :=
  let side f s := vdot (vcross (vsub x f) (vsub s f)) n in
  (forall f s, next_to pol f s -> side f s < 1 / 1000000) \/ (forall f s, next_to pol f s -> - (1 / 1000000) < side f s).
(** [n] is the unit normal of the polygon at one of its corners. *)
Definition corner_normal (pol : list V) (n : V) : Prop :=
  exists i a b c, nth_error pol ((i + length pol - 1) mod length pol) = Some a /\ nth_error pol i = Some b /\
    nth_error pol ((i + 1) mod length pol) = Some c /\ unit_along n (vcross (vsub a b) (vsub c b)).
(** The point moving from [a] to [b] crosses, at time [t], the edge from [p] to [q] of a polygon with
    normal [n] in whose plane it moves. *)
Definition crosses_edge (n a b p q : V) (t : R) : Prop :=
  let o := vcross n (vsub q p) in let x := along a b t in
  0 <= t <= 1 /\ vdot (vsub x p) o = 0 /\ vdot (vsub b a) o <> 0 /\ 0 <= vdot (vsub x p) (vsub q p) <= vdot (vsub q p) (vsub q p).

(** A speed that the code treats exactly: none at all, or at least EPSILON. *)
Definition speedy (v : R) : Prop := v = 0 \/ 1 / 1000000 <= Rabs v.
(** The vector [a] scaled to length one. *)
Definition vunit (a : V) : V := vscale a (/ sqrt (vdot a a)).
(** The distance between two points. *)
Definition dist (a b : V) : R := sqrt (vdot (vsub a b) (vsub a b)).
(** The point dividing the segment between two centres in the ratio of the radii. *)
Definition mid (c1 c2 : V) (r1 r2 : R) : V := vscale (vadd (vscale c1 r2) (vscale c2 r1)) (/ (r1 + r2)).
(** The discriminant of the equation for the moment at which two moving centres are [r] apart. *)
Definition crossing (c1 m1 : V) (c2 m2 : V) (r : R) : R :=
  let dv := vsub m1 m2 in let dc := vsub c1 c2 in
  2 * vdot dv dc * (2 * vdot dv dc) - 4 * vdot dv dv * (vdot dc dc - r * r).
(** The same for a moving centre and a moving line. *)
Definition line_crossing (r : R) (c m1 s dir m2 : V) : R :=
  let a := vcross (vsub c s) (vunit dir) in let b := vcross (vsub m1 m2) (vunit dir) in
  2 * vdot a b * (2 * vdot a b) - 4 * vdot b b * (vdot a a - r * r).
(** The ball with centre [c] touches the box. *)
Definition ball_meets_box (r : R) (c mn mx : V) : Prop := exists x, in_box mn mx x /\ within x c r.
(** The centre is in the box grown by [r] along one axis. *)
Definition facing (r : R) (mn mx c : V) : Prop :=
  (vx mn - r <= vx c <= vx mx + r /\ vy mn <= vy c <= vy mx /\ vz mn <= vz c <= vz mx) \/
  (vx mn <= vx c <= vx mx /\ vy mn - r <= vy c <= vy mx + r /\ vz mn <= vz c <= vz mx) \/
  (vx mn <= vx c <= vx mx /\ vy mn <= vy c <= vy mx /\ vz mn - r <= vz c <= vz mx + r).
(** [n] is the axis direction from a centre facing the box squarely into the box. *)
Definition inward (mn mx c n : V) : Prop :=
  let inx := vx mn <= vx c <= vx mx in let iny := vy mn <= vy c <= vy mx in let inz := vz mn <= vz c <= vz mx in
  (vx c < vx mn -> iny -> inz -> n = mkV 1 0 0) /\ (vx mx < vx c -> iny -> inz -> n = mkV (-1) 0 0) /\
  (vy c < vy mn -> inx -> inz -> n = mkV 0 1 0) /\ (vy mx < vy c -> inx -> inz -> n = mkV 0 (-1) 0) /\
  (vz c < vz mn -> inx -> iny -> n = mkV 0 0 1) /\ (vz mx < vz c -> inx -> iny -> n = mkV 0 0 (-1)).
(** ** Corners against faces *)
(** The unit vector [n'] is [n] or its opposite, chosen to face the start [a] of the motion from [a] to
    [b]; when [a] is (nearly) on the plane through [p0], it faces away from the end. *)
Definition faces_start (n' n p0 a b : V) : Prop :=
  (n' = n \/ n' = vneg n) /\
  (1 / 1000000 <= vdot (vsub a p0) n' \/ (Rabs (vdot (vsub a p0) n') <= 1 / 1000000 /\ vdot (vsub b p0) n' <= 0)).
(** [x] is (nearly) a vertex of the polygon. *)
Definition near_vertex (pol : list V) (x : V) : Prop := exists p, In p pol /\ dist x p < 1 / 1000000.
(** A corner moving steadily from [a] to [b] meets, at time [t] and place [x], the polygon [pol] with normal [n];
    [nn] is the normal of the contact. *)
Definition corner_meets (pol : list V) (n p0 a b : V) (t : R) (x nn : V) : Prop :=
  let on y := Rabs (vdot (vsub y p0) n) < 1 / 1000000 in
  x = along a b t /\ 0 <= t <= 1 /\
  ((on a /\ on b /\ nn = n /\ first_instant (fun t => exists p q, next_to pol p q /\ crosses_edge n a b p q t) t) \/
   (~ (on a /\ on b) /\ vdot (vsub x p0) n = 0 /\ faces_start nn n p0 a b /\ (near_vertex pol x \/ same_side n pol x))).
(** No such meeting, leaving out the cases within EPSILON. *)
Definition corner_misses (pol : list V) (n p0 a b : V) : Prop :=
  let on y := Rabs (vdot (vsub y p0) n) < 1 / 1000000 in
  (on a /\ on b /\ forall t p q, next_to pol p q -> ~ crosses_edge n a b p q t) \/
  (~ (on a /\ on b) /\ forall t, 0 <= t <= 1 -> vdot (vsub (along a b t) p0) n = 0 -> ~ same_side n pol (along a b t)).
(** Moving points as (start, end) pairs, and where they are at time [t]. *)
Definition at_time (ps : list (V * V)) (t : R) : list V := map (fun p => along (fst p) (snd p) t) ps.
(** At least half of the points are on the side of [x] that [n] points to. *)
Definition half_ahead (x n : V) (ps : list V) : Prop :=
  (length ps <= 2 * length (filter (fun v => if Rlt_dec (vdot (vsub v x) n) 0 then false else true) ps))%nat.
(** The polygon of a face, taken halfway through the motion of its vertices. *)
Definition face_polygon (ps : list (V * V)) (f : list nat) (pol : list V) : Prop :=
  Forall2 (fun i p => nth_error (at_time ps (1 / 2)) i = Some p) f pol.
(** The moving vertices of a mesh. *)
Definition mesh_moves (pos : V) (vs : list V) (s e : orientation R) : list (V * V) :=
  map (fun v => (position_into_world s (vadd pos v), position_into_world e (vadd pos v))) vs.
(** Some corner of the one set of moving points meets some face of the other. *)
Definition corner_face (ps1 : list (V * V)) (fs : list (list nat)) (ps2 : list (V * V)) (t : R) (x nn : V) : Prop :=
  exists a b f p0 rest n, In (a, b) ps1 /\ In f fs /\ face_polygon ps2 f (p0 :: rest) /\
    vdot n n = 1 /\ corner_normal (p0 :: rest) n /\ corner_meets (p0 :: rest) n p0 a b t x nn.
(** Every corner either meets no face or does so no earlier than [t]. *)
Definition no_corner_before (ps1 : list (V * V)) (fs : list (list nat)) (ps2 : list (V * V)) (before : R -> Prop) : Prop :=
  forall a b f, In (a, b) ps1 -> In f fs -> exists p0 rest n, face_polygon ps2 f (p0 :: rest) /\ vdot n n = 1 /\ corner_normal (p0 :: rest) n /\
    (corner_misses (p0 :: rest) n p0 a b \/ exists t x nn, corner_meets (p0 :: rest) n p0 a b t x nn /\ ~ before t).
(** ** Meshes against planes *)
Definition lowest (ds : list R) (d : R) : Prop := In d ds /\ forall e, In e ds -> d <= e.
Definition highest (ds : list R) (d : R) : Prop := In d ds /\ forall e, In e ds -> e <= d.
Definition vsum (l : list V) : V := fold_right vadd (mkV 0 0 0) l.
Definition average (l : list V) (x : V) : Prop := l <> [] /\ vscale x (INR (length l)) = vsum l.
(** The points whose height over the plane through [p] with normal [n] is within one hundredth of the spread of the lowest. *)
Definition bottom (ps : list V) (p n : V) (lo hi : R) : list V :=
  filter (fun x => if Rlt_dec (Rabs (vdot (vsub x p) n - lo)) ((hi - lo) / 100) then true else false) ps.

(** ** Orientations and rotations *)
Definition unit_o (o : orientation R) : Prop := unit_quat (o_rot o).
Definition vlen (v : V) : R := sqrt (vdot v v).
(** [f] turns space around the axis [v] by [vlen v] radians (Rodrigues' formula). *)
Definition turns_by (f : V -> V) (v : V) : Prop :=
  let u := vscale v (/ vlen v) in let a := vlen v in
  forall x, f x = vadd (vadd (vscale x (cos a)) (vscale (vcross u x) (sin a))) (vscale u (vdot u x * (1 - cos a))).
(** Two quaternions describe the same rotation. *)
Definition same_rotation (p q : Q) : Prop := p = q \/ p = mkQ (- qi q) (- qj q) (- qk q) (- qw q).
(** f32::EPSILON, the angle below which half a rotation is dropped. *)
Definition tiny : R := / IZR (2 ^ 23).
(** A vector without NaN or infinity. *)
Definition finite_v (v : Vec3 ER) : Prop := exists x, v = vfin x.
(** Not turned at all, or by more than what is dropped. *)
Definition turned (q : Q) : Prop := q = mkQ 0 0 0 1 \/ tiny < vlen (qvec q).
(** Moved but not turned during the step. *)
Definition steady (s e : orientation R) : Prop := o_rot e = o_rot s /\ o_off e = o_off s /\ unit_o s /\ turned (o_rot s).

(** ** Concrete orientations and colliders for examples and counterexamples *)
(** Not rotated, at [p]. *)
Definition rest_o (p : V) : orientation R := mkO p (mkQ 0 0 0 1) (mkV 0 0 0).
Definition still (p : V) : orientation ER := ofin (rest_o p).
Definition plain : material ER := mkMat (Fin 1) (Fin 0) (Fin 0) (Fin 0).
Definition ball (r : R) : sphere_c ER := mkSphere None (vfin (mkV 0 0 0)) (Fin r) (Fin 1) plain.
Definition triangle : mesh_c ER := mkMesh None (vfin (mkV 0 0 0)) (map vfin [mkV 0 0 0; mkV 1 0 0; mkV 0 1 0]) [[0; 1; 2]%nat] [(0, 1); (1, 2); (2, 0)]%nat plain.
Definition ground : plane_c ER := mkPlane None (vfin (mkV 0 0 0)) (vfin (mkV 0 0 1)) PInf plain.
Definition far_box : box_c ER := mkBox None (vfin (mkV 10 0 0)) (vfin (mkV (-1) (-1) (-1))) (vfin (mkV 1 1 1)) (Fin 1) plain.
