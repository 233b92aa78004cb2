(** * PanicSpec: the ways in which a call can panic (C09).

    Small independent definitions that the property theorems refer to. *)
From Coq Require Import ZArith List Bool Arith.
Import ListNotations.
From Verif Require Import Num Vec Res Arena Orient Colliders Collide EntityM SystemM OrderP Spec.
Local Open Scope nat_scope.

Section PanicSpec.
  Context {T : Type} {N : Num T}.
  (** No corner of the polygon is sharp enough to tell its normal: the cross product of the two
      sides meeting there is not longer than EPSILON, or not finite. *)
  Definition flat_face (ps : list (Vec3 T)) : Prop :=
    forall i a b c, nth_error ps i = Some a -> nth_error ps ((i + 1) mod length ps) = Some b ->
      nth_error ps ((i + 2) mod length ps) = Some c ->
      let d := vcross (vsub a b) (vsub c b) in n_isfin (vmag d) = false \/ n_lt EPSILON (vmag d) = false.
  (** A face of the mesh is flat when each corner is put halfway between its places at start and end. *)
  Definition collapses (m : mesh_c T) (start end_ : orientation T) : Prop :=
    exists f, In f (me_faces m) /\
      flat_face (map (fun i => let p := vadd (me_pos m) (nth i (me_verts m) vzero) in
                               halfway (position_into_world start p, position_into_world end_ p)) f).
  (** Two different entities own a mesh each. *)
  Definition two_meshes (s : system T) (m1 m2 : mesh_c T) : Prop :=
    exists h1 h2 k1 k2, h1 <> h2 /\ lists_collider s h1 k1 /\ lists_collider s h2 k2 /\
      get_collider s k1 = Some (CMesh m1) /\ get_collider s k2 = Some (CMesh m2).
  (** Every recorded contact is with an entity that still exists. *)
  Definition contacts_alive (s : system T) : Prop :=
    forall h k, contact (s_ents s) h k -> alive KEntity s k.
  (** A force generator that always answers when asked about an existing entity. *)
  Definition gen_answers (g : generator T) : Prop :=
    forall g' dt w h, becomes g g' -> w_entity w h <> None -> exists r, make_force g' dt w h = Ok r.
  Definition gens_answer (s : system T) : Prop := forall gh g, get_generator s gh = Some g -> gen_answers g.
  (** A call made with care: no collider is removed while linked, no entity while another one
      rests against it, generators answer, and a step is not taken while two entities own meshes. *)
  Definition careful_call (s : system T) (o : op T) : Prop :=
    match o with
    | ORemoveCollider h => owner s h = None
    | ORemoveEntity h => forall k, contact (s_ents s) k h -> k = h
    | OAddGenerator g => gen_answers g
    | OStep _ => forall m1 m2, ~ two_meshes s m1 m2
    | _ => True
    end.
  Fixpoint careful (hist : list (call T)) (s : system T) : Prop :=
    match hist with
    | [] => True
    | (ord, o) :: rest => careful_call s o /\ forall s' a, exec ord s o = Ok (s', a) -> careful rest s'
    end.
End PanicSpec.
