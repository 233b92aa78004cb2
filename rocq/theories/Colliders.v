(** * Colliders: null_collider.rs, sphere_collider.rs, plane_collider.rs,
    mesh_collider.rs, aligned_box_collider.rs, collider_wrapper.rs.

    SIMPLIFICATION: every public collider struct (what the user fills in and
    gets back) and its [Internal...] twin have the same fields, so one record
    serves for both; the [entity] field of a value passed in by the user is
    ignored, as in the code.  The four surface coefficients are grouped in a
    [material] record. *)
From Coq Require Import ZArith List Arith Bool.
Import ListNotations.
From Verif Require Import Num Vec Res Arena Orient.
Local Open Scope num_scope.

(** sphere_collider.rs:24-34 (same fields in plane, mesh and box). *)
Record material (T : Type) := mkMat { mt_rest : T; mt_thr : T; mt_stat : T; mt_dyn : T }.
Arguments mkMat {T}. Arguments mt_rest {T}. Arguments mt_thr {T}. Arguments mt_stat {T}. Arguments mt_dyn {T}.

(** null_collider.rs:6-15, 86-106. *)
Record null_c (T : Type) := mkNull { nl_ent : option handle; nl_pos : Vec3 T; nl_mass : T; nl_moi : Mat3 T }.
Arguments mkNull {T}. Arguments nl_ent {T}. Arguments nl_pos {T}. Arguments nl_mass {T}. Arguments nl_moi {T}.
(** sphere_collider.rs:9-35, 124-164. *)
Record sphere_c (T : Type) := mkSphere { sp_ent : option handle; sp_center : Vec3 T; sp_radius : T; sp_mass : T; sp_mat : material T }.
Arguments mkSphere {T}. Arguments sp_ent {T}. Arguments sp_center {T}. Arguments sp_radius {T}. Arguments sp_mass {T}. Arguments sp_mat {T}.
(** plane_collider.rs:7-33, 125-169. *)
Record plane_c (T : Type) := mkPlane { pl_ent : option handle; pl_pos : Vec3 T; pl_normal : Vec3 T; pl_mass : T; pl_mat : material T }.
Arguments mkPlane {T}. Arguments pl_ent {T}. Arguments pl_pos {T}. Arguments pl_normal {T}. Arguments pl_mass {T}. Arguments pl_mat {T}.
(** mesh_collider.rs:8-35, 133-180. *)
Record mesh_c (T : Type) := mkMesh { me_ent : option handle; me_pos : Vec3 T; me_verts : list (Vec3 T);
  me_faces : list (list nat); me_edges : list (nat * nat); me_mat : material T }.
Arguments mkMesh {T}. Arguments me_ent {T}. Arguments me_pos {T}. Arguments me_verts {T}.
Arguments me_faces {T}. Arguments me_edges {T}. Arguments me_mat {T}.
(** aligned_box_collider.rs:8-36, 149-200. *)
Record box_c (T : Type) := mkBox { bx_ent : option handle; bx_pos : Vec3 T; bx_min : Vec3 T; bx_max : Vec3 T; bx_mass : T; bx_mat : material T }.
Arguments mkBox {T}. Arguments bx_ent {T}. Arguments bx_pos {T}. Arguments bx_min {T}. Arguments bx_max {T}. Arguments bx_mass {T}. Arguments bx_mat {T}.

(** collider_wrapper.rs:10-16 [enum ColliderWrapper]; also stands for
    [Box<dyn InternalCollider>] (collider.rs:24-56). *)
Inductive collider (T : Type) :=
  | CNull (c : null_c T) | CSphere (c : sphere_c T) | CPlane (c : plane_c T)
  | CMesh (c : mesh_c T) | CBox (c : box_c T).
Arguments CNull {T}. Arguments CSphere {T}. Arguments CPlane {T}. Arguments CMesh {T}. Arguments CBox {T}.

Section Colliders.
  Context {T : Type} {N : Num T}.

  (** sphere_collider.rs:174-177 (same defaults in plane, mesh, box). *)
  Definition mat_default : material T := mkMat n1 (n_frac 1 4) n1 (n_frac 3 10).
  (** null_collider.rs:110-117 [NullCollider::new] *)
  Definition null_new : null_c T := mkNull None vzero n0 mzero.
  (** sphere_collider.rs:168-179 [SphereCollider::new] *)
  Definition sphere_new (radius : T) : sphere_c T := mkSphere None vzero radius n0 mat_default.
  (** plane_collider.rs:173-184 [PlaneCollider::new] *)
  Definition plane_new : plane_c T := mkPlane None vzero (mkV n0 n1 n0) n0 mat_default.
  (** mesh_collider.rs:186-198 [MeshCollider::new] *)
  Definition mesh_new : mesh_c T := mkMesh None vzero [] [] [] mat_default.
  (** aligned_box_collider.rs:204-216 [AlignedBoxCollider::new] *)
  Definition box_new : box_c T := mkBox None vzero vzero (mkV n1 n1 n1) n0 mat_default.

  (** sphere_collider.rs:5 [MINIMUM_RADIUS] *)
  Definition MINIMUM_RADIUS : T := n_frac 1 20.

  (** null_collider.rs:120-122 [is_valid] *)
  Definition null_valid (c : null_c T) : bool := n0 <=? nl_mass c.
  (** sphere_collider.rs:181-183 [is_valid] *)
  Definition sphere_valid (c : sphere_c T) : bool := (MINIMUM_RADIUS <? sp_radius c) && (n0 <=? sp_mass c).
  (** plane_collider.rs:187-189 [is_valid] *)
  Definition plane_valid (c : plane_c T) : bool := (n0 <=? pl_mass c) && (EPSILON <? vmag (pl_normal c)).
  (** mesh_collider.rs:282-284 [is_valid] *)
  Definition mesh_valid (c : mesh_c T) : bool :=
    (3 <=? length (me_verts c))%nat && (1 <=? length (me_faces c))%nat && (1 <=? length (me_edges c))%nat.
  (** aligned_box_collider.rs:219-222 [is_valid] *)
  Definition box_valid (c : box_c T) : bool :=
    let size := vsub (bx_max c) (bx_min c) in
    (EPSILON <? vx size) && (EPSILON <? vy size) && (EPSILON <? vz size) && (n0 <=? bx_mass c).

  Definition collider_valid (c : collider T) : bool :=
    match c with
    | CNull c => null_valid c | CSphere c => sphere_valid c | CPlane c => plane_valid c
    | CMesh c => mesh_valid c | CBox c => box_valid c
    end.

  (** aligned_box_collider.rs:46-55, 86-95: the componentwise min and max. *)
  Definition vmin (a b : Vec3 T) : Vec3 T := mkV (ty_min (vx a) (vx b)) (ty_min (vy a) (vy b)) (ty_min (vz a) (vz b)).
  Definition vmax (a b : Vec3 T) : Vec3 T := mkV (ty_max (vx a) (vx b)) (ty_max (vy a) (vy b)) (ty_max (vz a) (vz b)).

  (** What [new_from] stores for a valid source: null_collider.rs:23-28,
      sphere_collider.rs:43-52, plane_collider.rs:41-50,
      mesh_collider.rs:43-53, aligned_box_collider.rs:43-61. *)
  Definition stored_new (c : collider T) : collider T :=
    match c with
    | CNull c => CNull (mkNull None (nl_pos c) (nl_mass c) (nl_moi c))
    | CSphere c => CSphere (mkSphere None (sp_center c) (sp_radius c) (sp_mass c) (sp_mat c))
    | CPlane c => CPlane (mkPlane None (pl_pos c) (vnormalize (pl_normal c)) (pl_mass c) (pl_mat c))
    | CMesh c => CMesh (mkMesh None (me_pos c) (me_verts c) (me_faces c) (me_edges c) (me_mat c))
    | CBox c => CBox (mkBox None (bx_pos c) (vmin (bx_min c) (bx_max c)) (vmax (bx_min c) (bx_max c)) (bx_mass c) (bx_mat c))
    end.
  (** [Internal...::new_from] for the five kinds (lines as above); [None] is [Err(())]. *)
  Definition collider_new_from (c : collider T) : option (collider T) :=
    if collider_valid c then Some (stored_new c) else None.

  (** [Internal...::update_from] (null 43-52, sphere 71-84, plane 69-82, mesh
      73-87, box 81-103) behind the downcasts of physics_system.rs:228-264.
      [UMismatch]: the kinds differ (early return); [UInvalid]: [Err(())] from
      [update_from]; [UOk c']: the new stored value, link kept.  Note that the
      plane's normal is copied without being normalised (plane 74). *)
  Inductive upd := UMismatch | UInvalid | UOk (c : collider T).
  Definition collider_update_from (old src : collider T) : upd :=
    match old, src with
    | CNull o, CNull s =>
        if null_valid s then UOk (CNull (mkNull (nl_ent o) (nl_pos s) (nl_mass s) (nl_moi s))) else UInvalid
    | CSphere o, CSphere s =>
        if sphere_valid s then UOk (CSphere (mkSphere (sp_ent o) (sp_center s) (sp_radius s) (sp_mass s) (sp_mat s))) else UInvalid
    | CPlane o, CPlane s =>
        if plane_valid s then UOk (CPlane (mkPlane (pl_ent o) (pl_pos s) (pl_normal s) (pl_mass s) (pl_mat s))) else UInvalid
    | CMesh o, CMesh s =>
        if mesh_valid s then UOk (CMesh (mkMesh (me_ent o) (me_pos s) (me_verts s) (me_faces s) (me_edges s) (me_mat s))) else UInvalid
    | CBox o, CBox s =>
        if box_valid s then UOk (CBox (mkBox (bx_ent o) (bx_pos s) (vmin (bx_min s) (bx_max s)) (vmax (bx_min s) (bx_max s)) (bx_mass s) (bx_mat s))) else UInvalid
    | _, _ => UMismatch
    end.

  (** [get_entity]: null 67/128, sphere 99/189, plane 97/195, mesh 111/290, box 118/228. *)
  Definition c_entity (c : collider T) : option handle :=
    match c with CNull c => nl_ent c | CSphere c => sp_ent c | CPlane c => pl_ent c | CMesh c => me_ent c | CBox c => bx_ent c end.
  (** [set_entity]: null 60-64, sphere 92-96, plane 90-94, mesh 104-108, box 111-115. *)
  Definition c_set_entity (c : collider T) (h : option handle) : collider T :=
    match c with
    | CNull c => CNull (mkNull h (nl_pos c) (nl_mass c) (nl_moi c))
    | CSphere c => CSphere (mkSphere h (sp_center c) (sp_radius c) (sp_mass c) (sp_mat c))
    | CPlane c => CPlane (mkPlane h (pl_pos c) (pl_normal c) (pl_mass c) (pl_mat c))
    | CMesh c => CMesh (mkMesh h (me_pos c) (me_verts c) (me_faces c) (me_edges c) (me_mat c))
    | CBox c => CBox (mkBox h (bx_pos c) (bx_min c) (bx_max c) (bx_mass c) (bx_mat c))
    end.
  (** [get_local_center_of_mass]: null 69, sphere 104, plane 102, mesh 116, box 123. *)
  Definition c_com (c : collider T) : Vec3 T :=
    match c with
    | CNull c => nl_pos c | CSphere c => sp_center c | CPlane c => pl_pos c | CMesh c => me_pos c
    | CBox c => vadd (bx_pos c) (vscale (vadd (bx_min c) (bx_max c)) nhalf)
    end.
  (** [get_mass]: null 71, sphere 106, plane 104, mesh 118 (always 0), box 125. *)
  Definition c_mass (c : collider T) : T :=
    match c with CNull c => nl_mass c | CSphere c => sp_mass c | CPlane c => pl_mass c | CMesh _ => n0 | CBox c => bx_mass c end.
  (** [get_moment_of_inertia_tensor]: null 73, sphere 108-111, plane 106, mesh 120, box 127-136. *)
  Definition c_moi (c : collider T) : Mat3 T :=
    match c with
    | CNull c => nl_moi c
    | CSphere c => let inertia := n2 / n5 * sp_mass c * sp_radius c in mdiag (mkV inertia inertia inertia)
    | CPlane _ => mzero
    | CMesh _ => mzero
    | CBox c =>
        let size := vsub (bx_max c) (bx_min c) in
        let sx := vx size * vx size in let sy := vy size * vy size in let sz := vz size * vz size in
        let coefficient := bx_mass c / n12 in
        mdiag (mkV (coefficient * (sy + sz)) (coefficient * (sx + sz)) (coefficient * (sx + sy)))
    end.
  (** The four coefficient getters: null 75-81, sphere 113-119, plane 108-114,
      mesh 122-128, box 138-144. *)
  Definition c_mat (c : collider T) : material T :=
    match c with
    | CNull _ => mkMat n0 n1 n0 n0
    | CSphere c => sp_mat c | CPlane c => pl_mat c | CMesh c => me_mat c | CBox c => bx_mat c
    end.

  (** ** Building a mesh *)

  (** mesh_collider.rs:256-262: the first stored vertex within EPSILON. *)
  Fixpoint find_vertex (p : Vec3 T) (i : nat) (l : list (Vec3 T)) : option nat :=
    match l with
    | [] => None
    | v :: l' => if vmag (vsub v p) <? EPSILON then Some i else find_vertex p (S i) l'
    end.
  (** mesh_collider.rs:252-269 [add_points] *)
  Fixpoint add_points (verts points : list (Vec3 T)) : list (Vec3 T) * list nat :=
    match points with
    | [] => (verts, [])
    | p :: ps =>
      match find_vertex p 0 verts with
      | Some i => let '(v, is) := add_points verts ps in (v, i :: is)
      | None => let '(v, is) := add_points (verts ++ [p]) ps in (v, length verts :: is)
      end
    end.
  (** mesh_collider.rs:233-247 [add_edge] *)
  Definition add_edge (edges : list (nat * nat)) (index1 index2 : nat) : list (nat * nat) :=
    let '(i, j) := if Nat.ltb index2 index1 then (index2, index1) else (index1, index2) in
    if existsb (fun e => Nat.eqb i (fst e) && Nat.eqb j (snd e)) edges then edges else edges ++ [(i, j)].
  (** mesh_collider.rs:220-225: the edges of a closed loop of indices. *)
  Definition loop_pairs {X} (l : list X) : list (X * X) :=
    match l with [] => [] | x :: l' => combine l (l' ++ [x]) end.
  Definition add_edges (edges : list (nat * nat)) (is : list nat) : list (nat * nat) :=
    fold_left (fun es p => add_edge es (fst p) (snd p)) (loop_pairs is) edges.
  (** mesh_collider.rs:208 and 213: the unit normal of three points. *)
  Definition tri_normal (a b c : Vec3 T) : Vec3 T := vnormalize (vcross (vsub b a) (vsub c a)).
  (** mesh_collider.rs:209-215: every corner turns the same way. *)
  Definition corner_ok (points : list (Vec3 T)) (normal : Vec3 T) (index : nat) : bool :=
    let n := length points in
    let at_ i := nth i points vzero in
    let first := at_ index in
    let second := at_ (if Nat.ltb (index + 1) n then index + 1 else index + 1 - n)%nat in
    let third := at_ (if Nat.ltb (index + 2) n then index + 2 else index + 2 - n)%nat in
    n_abs (vdot (tri_normal first second third) normal - n1) <? EPSILON.
  (** mesh_collider.rs:205-228 [add_face]; a failed [assert!] panics. *)
  Definition add_face (m : mesh_c T) (points : list (Vec3 T)) : res (mesh_c T) :=
    if Nat.ltb (length points) 3 then Panic
    else
      let normal := tri_normal (nth 0 points vzero) (nth 1 points vzero) (nth 2 points vzero) in
      if forallb (corner_ok points normal) (seq 0 (length points)) then
        let '(verts, is) := add_points (me_verts m) points in
        Ok (mkMesh (me_ent m) (me_pos m) verts (me_faces m ++ [is]) (add_edges (me_edges m) is) (me_mat m))
      else Panic.

  (** mesh_collider.rs:90-96 [vertices_in_world] *)
  Definition vertices_in_world (m : mesh_c T) (o : orientation T) : list (Vec3 T) :=
    map (fun v => position_into_world o (vadd (me_pos m) v)) (me_verts m).

  (** A mesh value the public API can produce: [vertices], [faces] and [edges]
      are private (mesh_collider.rs:149-159), so they come from [new] and
      [add_face] only; [position] and the coefficients are public fields. *)
  Inductive mesh_built : mesh_c T -> Prop :=
    | mb_new : mesh_built mesh_new
    | mb_face m pts m' : mesh_built m -> add_face m pts = Ok m' -> mesh_built m'
    | mb_fields m e p mt : mesh_built m -> mesh_built (mkMesh e p (me_verts m) (me_faces m) (me_edges m) mt).
  (** A collider value the public API can produce. *)
  Definition collider_built (c : collider T) : Prop :=
    match c with CMesh m => mesh_built m | _ => True end.
End Colliders.
Arguments upd : clear implicits.
