(** * BoxSpec: what it means that a moving ball meets a box, and that it grazes neither its edges nor its corners *)
From Coq Require Import Reals List.
Import ListNotations.
From Verif Require Import Num Vec Spec RealSpec.
Local Open Scope R_scope.

(** A speed that is zero or of ordinary size. *)
Definition lively (v : R) : Prop := v = 0 \/ 1 / 1000 <= Rabs v.
(** A discriminant that is not within EPSILON of zero: the paths either miss each other or cross, but do not just graze. *)
Definition clear (d : R) : Prop := d < - (1 / 1000000) \/ 1 / 1000000 <= d.
(** A ball of radius [r] with its centre moving from [c] by [m] grazes no corner and no edge of the resting box.
    (An edge along which it moves cannot be grazed, nor can anything if it rests.) *)
Definition grazes_nothing (r : R) (c m mn mx : V) : Prop :=
  (forall p, is_corner mn mx p -> m = mkV 0 0 0 \/ clear (crossing c m p (mkV 0 0 0) r)) /\
  (forall p q, is_edge mn mx p q -> vcross m (vsub q p) = mkV 0 0 0 \/ clear (line_crossing r c m p (vsub q p) (mkV 0 0 0))).
(** The radius with the tolerance of the solver added. *)
Definition slack (r : R) : R := sqrt (r * r + 1 / 1000000) + 1 / 1000000.

(** ** Meshes *)
(** The corners of a face. *)
Definition face_of (vs : list V) (f : list nat) (pol : list V) : Prop := Forall2 (fun i p => nth_error vs i = Some p) f pol.
(** The polygon is flat, and turns the same way about the unit vector [n] at each corner. *)
Definition proper_face (n : V) (pol : list V) : Prop :=
  vdot n n = 1 /\ (forall p q, In p pol -> In q pol -> vdot (vsub q p) n = 0) /\
  (forall p q s, next_to pol p q -> next_to pol q s -> 0 < vdot (vcross (vsub q p) (vsub s q)) n).
(** [x] is in the plane of the polygon. *)
Definition in_plane (n : V) (pol : list V) (x : V) : Prop := forall q, In q pol -> vdot (vsub x q) n = 0.
(** [x] is in the polygon: in its plane, and to the left of each side. *)
Definition in_face (n : V) (pol : list V) (x : V) : Prop :=
  in_plane n pol x /\ forall p q, next_to pol p q -> 0 <= vdot (vcross (vsub q p) (vsub x p)) n.
(** The point of the segment from [p] to [q] at the fraction [i] of its length. *)
Definition between (p q : V) (i : R) : V := vadd p (vscale (vsub q p) i).
(** A ball touches a vertex, an edge or a face of a mesh. *)
Definition ball_meets_mesh (r : R) (c : V) (vs : list V) (es : list (nat * nat)) (fs : list (list nat)) : Prop :=
  (exists v, In v vs /\ within v c r) \/
  (exists a b p q i, In (a, b) es /\ nth_error vs a = Some p /\ nth_error vs b = Some q /\ 0 <= i <= 1 /\ within (between p q i) c r) \/
  (exists f pol n x, In f fs /\ face_of vs f pol /\ proper_face n pol /\ in_face n pol x /\ within x c r).
(** The same up to the tolerance of the code. *)
Definition ball_nears_mesh (r : R) (c : V) (vs : list V) (es : list (nat * nat)) (fs : list (list nat)) : Prop :=
  (exists v, In v vs /\ within v c (slack r)) \/
  (exists a b p q i, In (a, b) es /\ nth_error vs a = Some p /\ nth_error vs b = Some q /\ 0 <= i <= 1 /\ within (between p q i) c (slack r)) \/
  (exists f pol n x, In f fs /\ face_of vs f pol /\ proper_face n pol /\ in_plane n pol x /\ same_side n pol x /\ within x c r).
(** The relative motion [d] does not graze a vertex or an edge, is not slower than the solver can see, and the ball does
    not start with its centre exactly in the plane of a face. *)
Definition grazes_no_mesh (r : R) (c m : V) (vs : list V) (es : list (nat * nat)) (fs : list (list nat)) (mv : V) : Prop :=
  let d := vsub m mv in
  (forall v, In v vs -> d = mkV 0 0 0 \/ 1 / 1000000 <= vdot d d /\ clear (crossing c m v mv r)) /\
  (forall a b p q, In (a, b) es -> nth_error vs a = Some p -> nth_error vs b = Some q ->
     p <> q /\ let e := vcross d (vunit (vsub q p)) in e = mkV 0 0 0 \/ 1 / 1000000 <= vdot e e /\ clear (line_crossing r c m p (vsub q p) mv)) /\
  (forall f, In f fs -> exists pol n, face_of vs f pol /\ proper_face n pol /\ (3 <= length pol)%nat /\
     speedy (vdot d n) /\ forall p, In p pol -> vdot (vsub c p) n <> 0).
(** Every side of every face is among the edges (as built by [MeshCollider::add_face]). *)
Definition sides_listed (es : list (nat * nat)) (fs : list (list nat)) : Prop :=
  forall f a b, In f fs -> next_to f a b -> In (min a b, max a b) es.
