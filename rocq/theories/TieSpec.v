(** * TieSpec: which of the parts of a mesh or box is said to be hit (C94).

    Small independent definitions; nothing here is part of the model. *)
From Coq Require Import List.
Import ListNotations.
From Verif Require Import Num Vec Res RangeM Orient Colliders Collide Spec.

Section Tie.
  Context {T : Type} {N : Num T}.
  (** [r] is the first of the earliest among the collisions in [parts]: strictly earlier than those listed before it, no later than those
      listed after it; there is none only if there is none in [parts]. *)
  Definition first_of (parts : list (option (collision T))) (r : option (collision T)) : Prop :=
    match r with
    | None => forall k, ~ In (Some k) parts
    | Some k => exists before after, parts = before ++ Some k :: after /\
        (forall k', In (Some k') before -> n_lt (c_time k) (c_time k') = true) /\
        (forall k', In (Some k') after -> n_le (c_time k) (c_time k') = true)
    end.
  (** What a ball hits of the vertices of a mesh, then of its edges, then of its faces, in the order in which the mesh lists them. *)
  Definition mesh_parts (r : T) (c m : Vec3 T) (vs : list (Vec3 T)) (es : list (nat * nat)) (fs : list (list nat)) (mv : Vec3 T)
      (parts : list (option (collision T))) : Prop :=
    exists pv pe pf, parts = pv ++ pe ++ pf /\
      Forall2 (fun v o => o = collide_sphere_with_sphere r c m n0 v mv) vs pv /\
      Forall2 (fun e o => exists a b, nth_error vs (fst e) = Some a /\ nth_error vs (snd e) = Some b /\
        o = collide_sphere_with_mid_line_segment r c m a b mv) es pe /\
      Forall2 (fun f o => exists ps, Forall2 (fun i p => nth_error vs i = Some p) f ps /\ collide_sphere_with_polygon_surface r c m ps mv = Ok o) fs pf.
  (** What the moving points [p1] hit of the faces [fs], which are made of the points [p2]: all faces for the first point, then for the second, and so on. *)
  Definition corner_parts (p1 : list (Vec3 T * Vec3 T)) (fs : list (list nat)) (p2 : list (Vec3 T * Vec3 T)) (parts : list (option (collision T))) : Prop :=
    exists rows, parts = concat rows /\
      Forall2 (fun pt row => Forall2 (fun f o => exists pol, Forall2 (fun i pe => nth_error p2 i = Some pe) f pol /\
        collide_point_with_polygon (fst pt) (snd pt) (map halfway pol) = Ok o) fs row) p1 rows.
  (** The same collision, but for the side to which its normal points. *)
  Definition same_but_side (o o' : option (collision T)) : Prop :=
    match o, o' with Some k, Some k' => same_line k k' | None, None => True | _, _ => False end.
End Tie.
