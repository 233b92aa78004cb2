(** * Parts hit at the same time: C94.

    The words used here are in TieSpec.v. *)
From Coq Require Import ZArith List Bool.
Import ListNotations.
From Verif Require Import Num Vec Res Arena RangeM Orient Colliders Collide EntityM SystemM OrderP Spec ArithP Examples TieSpec TieP.

(** ** C94 Of the parts of a mesh or box that are hit first, the one listed first is reported *)
Theorem C94_mesh : forall (T : Type) (N : Num T) (O : Ord N) r c m vs es fs mv o, collide_sphere_with_mesh r c m vs es fs mv = Ok o ->
  exists parts, mesh_parts r c m vs es fs mv parts /\ first_of parts o.
Proof. exact @mesh_first. Qed.
Print Assumptions C94_mesh.
(** A box: its sides, which are one part, then its edges, then its corners. *)
Theorem C94_box : forall (T : Type) (N : Num T) (O : Ord N) r c m mn mx, first_of (box_face_collision r c m mn mx ::
    map (fun e => collide_sphere_with_mid_line_segment r c m (nth (fst e) (box_corners mn mx) vzero) (nth (snd e) (box_corners mn mx) vzero) vzero) box_edges ++
    map (fun p => collide_sphere_with_sphere r c m n0 p vzero) (box_corners mn mx)) (collide_sphere_with_aligned_box r c m mn mx).
Proof. exact @box_first. Qed.
Print Assumptions C94_box.
(** Two meshes: the corners of the first against the faces of the second, then the other way round; the side to which the normal points is decided afterwards. *)
Theorem C94_meshes : forall (T : Type) (N : Num T) (O : Ord N) (O2 : Ord2 O) m1 s1 e1 m2 s2 e2 o, collide (CMesh m1) s1 e1 (CMesh m2) s2 e2 = Ok o ->
  exists parts parts' o', corner_parts (mesh_point_pairs m1 s1 e1) (me_faces m2) (mesh_point_pairs m2 s2 e2) parts /\
    corner_parts (mesh_point_pairs m2 s2 e2) (me_faces m1) (mesh_point_pairs m1 s1 e1) parts' /\ first_of (parts ++ parts') o' /\ same_but_side o' o.
Proof. exact @meshes_first. Qed.
Print Assumptions C94_meshes.
Definition C94_mesh_f32 (L : Libm) := C94_mesh f32 (F32 L) (Ord_F32 L).
Definition C94_meshes_f32 (L : Libm) := C94_meshes f32 (F32 L) (Ord_F32 L) (Ord2_F32 L).
Definition C94_meshes_er := C94_meshes ER EReal Ord_ER Ord2_ER.
Definition C94_mesh_er := C94_mesh ER EReal Ord_ER.
Definition C94_box_f32 (L : Libm) := C94_box f32 (F32 L) (Ord_F32 L).
Definition C94_box_er := C94_box ER EReal Ord_ER.
(** A ball falls into the middle of a valley and touches both slopes at once.  Which of the two normals is reported depends on which slope was added first. *)
Section Valley.
  Context (L : Libm).
  #[local] Instance NV : Num f32 := F32 L.
  Definition left_slope : list (Vec3 f32) := [vec 0 0 (-9); vec 0 0 9; vec (-9) 9 0].
  Definition right_slope : list (Vec3 f32) := [vec 0 0 9; vec 0 0 (-9); vec 9 9 0].
  Definition fall_into (faces : list (list (Vec3 f32))) : option (option (Vec3 f32)) :=
    match rfold (fun m pts => add_face m pts) faces mesh_new with
    | Ok m => match collide (ball vzero n1 n1) (orient_new (vec 0 4 0) vzero vzero) (orient_new (vec 0 0 0) vzero vzero) (CMesh m) (orient_new vzero vzero vzero) (orient_new vzero vzero vzero) with
              | Ok o => Some (option_map c_normal o)
              | _ => None
              end
    | _ => None
    end.
  Definition leans (faces : list (list (Vec3 f32))) : option bool :=
    match fall_into faces with Some (Some n) => Some (n_lt (vx n) n0) | _ => None end.
End Valley.
Example C94_example : leans crude [left_slope crude; right_slope crude] = Some true /\ leans crude [right_slope crude; left_slope crude] = Some false.
Proof. split; vm_compute; reflexivity. Qed.
(** A triangle falls flat onto a larger one, so that its three corners arrive at once; the collision is placed at whichever of its corners was listed first. *)
Section Flat.
  Context (L : Libm).
  #[local] Instance NF : Num f32 := F32 L.
  Definition large : list (Vec3 f32) := [vec (-9) 0 (-9); vec 0 0 9; vec 9 0 (-9)].
  Definition lands (tri : list (Vec3 f32)) : option (f32 * f32) :=
    match add_face mesh_new tri, add_face mesh_new large with
    | Ok m, Ok m' => match collide (CMesh m) (orient_new (vec 0 1 0) vzero vzero) (orient_new (vec 0 (-1) 0) vzero vzero) (CMesh m') (orient_new vzero vzero vzero) (orient_new vzero vzero vzero) with
                     | Ok (Some c) => Some (vx (c_pos c), vz (c_pos c))
                     | _ => None
                     end
    | _, _ => None
    end.
  Definition lands_at (tri : list (Vec3 f32)) (x z : Z) : bool :=
    match lands tri with Some p => n_eq (fst p) (n_frac x 1) && n_eq (snd p) (n_frac z 1) | None => false end.
End Flat.
Example C94_meshes_example (N := F32 crude) : lands_at crude [vec 0 0 0; vec 0 0 1; vec 1 0 0] 0 0 = true /\
  lands_at crude [vec 0 0 1; vec 1 0 0; vec 0 0 0] 0 1 = true /\ lands_at crude [vec 1 0 0; vec 0 0 0; vec 0 0 1] 1 0 = true.
Proof. repeat split; vm_compute; reflexivity. Qed.
