(** * FiniteSpec: words for C52 *)
From Coq Require Import Reals List.
Import ListNotations.
From Verif Require Import Num Vec Orient Colliders Collide RealSpec.
Local Open Scope R_scope.

(** Colliders whose shape is given by numbers, and that [is_valid] accepts. *)
Definition proper_shape (c : collider ER) : Prop :=
  match c with
  | CNull _ => True
  | CSphere s => (exists x, sp_center s = vfin x) /\ exists r, sp_radius s = Fin r /\ 1 / 20 < r
  | CPlane p => (exists x, pl_pos p = vfin x) /\ exists n, pl_normal p = vfin n
  | CMesh m => (exists x, me_pos m = vfin x) /\ exists vs, me_verts m = map vfin vs /\ vs <> []
  | CBox b => exists mn mx, bx_min b = vfin mn /\ bx_max b = vfin mx /\ vx mn < vx mx /\ vy mn < vy mx /\ vz mn < vz mx
  end.
(** With the mesh oriented like [o], all its vertices are equally far along the normal of the plane. *)
Definition level (m : mesh_c ER) (o : orientation R) (p : plane_c ER) : Prop :=
  forall pos n v w, me_pos m = vfin pos -> pl_normal p = vfin n -> In (vfin v) (me_verts m) -> In (vfin w) (me_verts m) ->
    vdot (vsub (position_into_world o (vadd pos v)) (position_into_world o (vadd pos w))) n = 0.
(** A mesh that is level with a plane at the start or at the end of the step. *)
Definition flat_contact (c1 : collider ER) (s1 e1 : orientation R) (c2 : collider ER) (s2 e2 : orientation R) : Prop :=
  match c1, c2 with
  | CMesh m, CPlane p => level m s1 p \/ level m e1 p
  | CPlane p, CMesh m => level m s2 p \/ level m e2 p
  | _, _ => False
  end.
(** The point of contact is where the centre of the ball (the first of two) was at the start of the step. *)
Definition centred_contact (c1 : collider ER) (s1 : orientation R) (c2 : collider ER) (s2 : orientation R) (k : collision ER) : Prop :=
  match c1, c2 with
  | CSphere a, CSphere _ | CSphere a, CMesh _ => c_pos k = position_into_world (ofin s1) (sp_center a)
  | CMesh _, CSphere a => c_pos k = position_into_world (ofin s2) (sp_center a)
  | _, _ => False
  end.
