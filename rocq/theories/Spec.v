(** * Spec: histories of API calls and what is observable of a system.

    Small independent definitions that the property theorems refer to. *)
From Coq Require Import ZArith List Permutation Bool.
Import ListNotations.
Local Open Scope nat_scope.
From Verif Require Import Num Vec Res Arena RangeM Orient Colliders Collide EntityM SystemM OrderP.

Section Spec.
  Context {T : Type} {N : Num T}.

  (** The iteration order of a hash set is arbitrary, but visits each element exactly once. *)
  Definition good_order (ord : set_order) : Prop := forall k h l, Permutation (ord k h l) l.

  (** One API call: the hash-set iteration order in force, and the call itself. *)
  Definition call : Type := (set_order * op T)%type.
  (** A call a user can make: mesh values are private inside, so they were built with [add_face]. *)
  Definition call_ok (c : call) : Prop :=
    good_order (fst c) /\
    match snd c with
    | OAddCollider src => collider_built src
    | OUpdateCollider _ src => collider_built src
    | _ => True
    end.

  (** Running a history; stops with the panic if one happens. *)
  Fixpoint run (hist : list call) (s : system T) : res (system T * list (answer T)) :=
    match hist with
    | [] => Ok (s, [])
    | (ord, o) :: rest =>
      match exec ord s o with
      | Ok (s', a) => match run rest s' with
                      | Ok (s'', l) => Ok (s'', a :: l)
                      | Panic => Panic
                      | Fuel => Fuel
                      end
      | Panic => Panic
      | Fuel => Fuel
      end
    end.

  (** [follows s s']: some history of calls leads from [s] to [s']. *)
  Definition follows (s s' : system T) : Prop :=
    exists hist ans, Forall call_ok hist /\ run hist s = Ok (s', ans).
  Definition reachable (s : system T) : Prop := follows system_new s.

  Definition get_generator (s : system T) (h : handle) : option (generator T) := aget (s_gens s) h.

  (** The three kinds of stored object, and what it means for a handle of that
      kind to be alive: the getter returns something. *)
  Inductive kind := KEntity | KCollider | KGenerator.
  Definition alive (k : kind) (s : system T) (h : handle) : Prop :=
    match k with
    | KEntity => get_entity s h <> None
    | KCollider => get_collider s h <> None
    | KGenerator => get_generator s h <> None
    end.
  (** The calls that create an object of that kind. *)
  Definition creates (k : kind) (o : op T) : Prop :=
    match k, o with
    | KEntity, OAddEntity _ | KCollider, OAddCollider _ | KGenerator, OAddGenerator _ => True
    | _, _ => False
    end.
  (** The [i]-th call of the history created an object of kind [k] and returned its handle [h]. *)
  Definition created (k : kind) (hist : list call) (ans : list (answer T)) (i : nat) (h : handle) : Prop :=
    exists ord o, nth_error hist i = Some (ord, o) /\ creates k o /\ nth_error ans i = Some (AHandle (Some h)).

  (** Equal in everything a user can see except whether it is asleep. *)
  Definition same_but_asleep (e e' : entity T) : Prop :=
    e' = mkPE (pe_pos e) (pe_rot e) (pe_vel e) (pe_angvel e) (pe_colliders e) (pe_own_mass e)
              (pe_last_orient e) (pe_last_total_mass e) (pe_last_prep_moi e) (pe_asleep e').

  (** The owner of a collider, as [get_collider(c).get_entity()] reports it. *)
  Definition owner (s : system T) (c : handle) : option handle :=
    match get_collider s c with Some k => c_entity k | None => None end.
  (** The colliders of an entity, as [get_entity(h).get_colliders()] reports them. *)
  Definition lists_collider (s : system T) (h c : handle) : Prop :=
    exists e, get_entity s h = Some e /\ In c (pe_colliders e).

  (** ** Meshes *)
  (** No stored vertex lies within EPSILON of an earlier one. *)
  Definition separated (verts : list (Vec3 T)) : Prop :=
    forall i j v w, i < j -> nth_error verts i = Some v -> nth_error verts j = Some w ->
      n_lt (vmag (vsub v w)) EPSILON = false.
  (** Index [i] is a stored vertex that is the given point or within EPSILON of it. *)
  Definition near_vertex (verts : list (Vec3 T)) (i : nat) (p : Vec3 T) : Prop :=
    exists v, nth_error verts i = Some v /\ (v = p \/ n_lt (vmag (vsub v p)) EPSILON = true).
  Definition mesh_wf (m : mesh_c T) : Prop :=
    separated (me_verts m) /\
    Forall (fun face => 3 <= length face /\ Forall (fun i => i < length (me_verts m)) face) (me_faces m) /\
    Forall (fun e => fst e <= snd e < length (me_verts m)) (me_edges m) /\
    NoDup (me_edges m).

  (** [b] comes right after [a] going round the list (the first follows the last). *)
  Definition next_to {X} (l : list X) (a b : X) : Prop :=
    exists i, nth_error l i = Some a /\ nth_error l ((i + 1) mod length l) = Some b.
  (** The unit normal of the triangle at three points. *)
  Definition unit_normal (a b c : Vec3 T) : Vec3 T :=
    let d := vcross (vsub b a) (vsub c a) in vdivs d (vmag d).
  (** The documented condition for a face: every corner turns about the same normal
      as the first (coplanar and convex), up to EPSILON. *)
  Definition flat_convex (pts : list (Vec3 T)) : Prop :=
    3 <= length pts /\
    forall p0 p1 p2 i a b c, nth_error pts 0 = Some p0 -> nth_error pts 1 = Some p1 -> nth_error pts 2 = Some p2 ->
      nth_error pts i = Some a -> nth_error pts ((i + 1) mod length pts) = Some b ->
      nth_error pts ((i + 2) mod length pts) = Some c ->
      n_lt (n_abs (n_sub (vdot (unit_normal a b c) (unit_normal p0 p1 p2)) n1)) EPSILON = true.

  (** ** Colliders *)
  Definition kind_same (a b : collider T) : Prop :=
    match a, b with
    | CNull _, CNull _ | CSphere _, CSphere _ | CPlane _, CPlane _ | CMesh _, CMesh _ | CBox _, CBox _ => True
    | _, _ => False
    end.
  (** [mass], for any kind of collider (meshes have none). *)
  Definition mass_of (c : collider T) : T :=
    match c with CNull c => nl_mass c | CSphere c => sp_mass c | CPlane c => pl_mass c | CMesh _ => n0 | CBox c => bx_mass c end.
  Definition vless (a b : Vec3 T) : Prop :=
    n_lt (vx a) (vx b) = true /\ n_lt (vy a) (vy b) = true /\ n_lt (vz a) (vz b) = true.
  (** What the documentation promises of a stored collider. *)
  Definition collider_ok (c : collider T) : Prop :=
    n_le n0 (mass_of c) = true /\
    match c with
    | CNull _ => True
    | CSphere c => n_lt (n_frac 1%Z 20%positive) (sp_radius c) = true
    | CPlane c => exists v, n_lt EPSILON (vmag v) = true /\ (pl_normal c = v \/ pl_normal c = vdivs v (vmag v))
    | CMesh c => 3 <= length (me_verts c) /\ 1 <= length (me_faces c) /\ 1 <= length (me_edges c) /\ mesh_wf c
    | CBox c => vless (bx_min c) (bx_max c)
    end.
  (** The documented conditions under which a collider is accepted. *)
  Definition acceptable (c : collider T) : Prop :=
    match c with
    | CNull c => n_le n0 (nl_mass c) = true
    | CSphere c => n_lt (n_frac 1%Z 20%positive) (sp_radius c) = true /\ n_le n0 (sp_mass c) = true
    | CPlane c => n_le n0 (pl_mass c) = true /\ n_lt EPSILON (vmag (pl_normal c)) = true
    | CMesh c => 3 <= length (me_verts c) /\ 1 <= length (me_faces c) /\ 1 <= length (me_edges c)
    | CBox c => n_lt EPSILON (n_sub (vx (bx_max c)) (vx (bx_min c))) = true /\
                n_lt EPSILON (n_sub (vy (bx_max c)) (vy (bx_min c))) = true /\
                n_lt EPSILON (n_sub (vz (bx_max c)) (vz (bx_min c))) = true /\ n_le n0 (bx_mass c) = true
    end.
  (** [c] is [src] as stored: the same values, with the given link.
      [normal v] is what the plane normal [v] becomes. *)
  Definition stored_as (normal : Vec3 T -> Vec3 T) (link : option handle) (src c : collider T) : Prop :=
    match src, c with
    | CNull a, CNull b => nl_ent b = link /\ nl_pos b = nl_pos a /\ nl_mass b = nl_mass a /\ nl_moi b = nl_moi a
    | CSphere a, CSphere b => sp_ent b = link /\ sp_center b = sp_center a /\ sp_radius b = sp_radius a /\
        sp_mass b = sp_mass a /\ sp_mat b = sp_mat a
    | CPlane a, CPlane b => pl_ent b = link /\ pl_pos b = pl_pos a /\ pl_normal b = normal (pl_normal a) /\
        pl_mass b = pl_mass a /\ pl_mat b = pl_mat a
    | CMesh a, CMesh b => me_ent b = link /\ me_pos b = me_pos a /\ me_verts b = me_verts a /\
        me_faces b = me_faces a /\ me_edges b = me_edges a /\ me_mat b = me_mat a
    | CBox a, CBox b => bx_ent b = link /\ bx_pos b = bx_pos a /\ bx_min b = bx_min a /\ bx_max b = bx_max a /\
        bx_mass b = bx_mass a /\ bx_mat b = bx_mat a
    | _, _ => False
    end.
End Spec.
Arguments call : clear implicits.

(** ** Waking *)
Section WakeSpec.
  Context {T : Type} {N : Num T}.
  (** Entity [a] has a recorded contact with [b]. *)
  Definition contact (ents : arena (ientity T)) (a b : handle) : Prop :=
    exists e, aget ents a = Some e /\ In b (e_neighbors e).
  Definition movable (ents : arena (ientity T)) (b : handle) : Prop :=
    exists e, aget ents b = Some e /\ n_isinf (e_total_mass e) = false.
  (** The entities connected to [start] through recorded contacts between entities that are
      not infinitely heavy. *)
  Inductive connected (ents : arena (ientity T)) (start : handle) : handle -> Prop :=
    | conn_start : connected ents start start
    | conn_next a b : connected ents start a -> contact ents a b -> movable ents b -> connected ents start b.
End WakeSpec.

(** ** Steps *)
Section StepSpec.
  Context {T : Type} {N : Num T}.
  Definition vsum (l : list (Vec3 T)) : Vec3 T := fold_left vadd l vzero.

  (** [g'] is what the generator [g] can turn into by being asked for forces. *)
  Inductive becomes : generator T -> generator T -> Prop :=
    | becomes_refl g : becomes g g
    | becomes_asked g g1 g2 dt w h f : becomes g g1 -> make_force g1 dt w h = Ok (f, g2) -> becomes g g2.
  (** The generator behind [gh] answers [f] for entity [h], seeing [h] as it is in [s]. *)
  Definition force_from (s : system T) (dt : T) (h gh : handle) (f : force T) : Prop :=
    exists g0 g w g', get_generator s gh = Some g0 /\ becomes g0 g /\ w_entity w h = get_entity s h /\
      make_force g dt w h = Ok (f, g').
  (** Entities on which force generators act. *)
  Definition pushable (e : ientity T) : bool := n_isfin (e_total_mass e) && n_lt EPSILON (e_total_mass e).
  Definition pushable_at (s : system T) (h : handle) : bool :=
    match aget (s_ents s) h with Some e => pushable e | None => false end.
  (** A force generator whose own code always comes to an end. *)
  Definition gen_ends (g : generator T) : Prop := forall g' dt w h, becomes g g' -> make_force g' dt w h <> Fuel.
  Definition gens_end (s : system T) : Prop := forall gh g, get_generator s gh = Some g -> gen_ends g.
  (** Entity [x] takes part in one of the collisions [rs]. *)
  Definition named (rs : list (crecord T)) (x : handle) : Prop :=
    exists r, In r rs /\ (x = cr_first r \/ x = cr_second r).
  (** The forces on entity [h] of [s]: one from each generator, in storage order; none if it is not pushable. *)
  Definition forces_on (s : system T) (dt : T) (h : handle) (fs : list (force T)) : Prop :=
    exists e, aget (s_ents s) h = Some e /\
      if pushable e then Forall2 (force_from s dt h) (ahandles (s_gens s)) fs else fs = [].
  (** The velocities that the forces [fs] give to [e] in time [dt]. *)
  Definition pushed_vel (dt : T) (fs : list (force T)) (e : ientity T) : Vec3 T :=
    vadd (e_vel e) (vscale (vsum (map (fun f => vscale (f_force f) (n_div n1 (e_total_mass e))) fs)) dt).
  Definition pushed_angvel (dt : T) (fs : list (force T)) (e : ientity T) : Vec3 T :=
    vadd (e_angvel e) (mulmv (get_inverse_moment e) (vscale (vsum (map (fun f =>
      mulmv (last_moment (make_pub e)) (vcross (vsub (f_pos f) (o_pos (e_orient e))) (f_force f))) fs)) dt)).

  (** A generator that pushes nothing and notes which entities it was asked about;
      it can be asked [n] times. *)
  Fixpoint logger (n : nat) (log : list handle) : generator T :=
    GenCustom (fun dt w h => match n with
                             | O => Panic
                             | S n' => Ok (mkF vzero vzero, logger n' (log ++ [h]))
                             end).

  (** [src] differs noticeably from the stored entity [e]: in own mass, or by more than EPSILON in
      position, rotation (as quaternions), velocity or angular velocity. *)
  Definition noticed (e : ientity T) (src : entity T) : Prop :=
    let q := qfrom_scaled_axis (pe_rot src) in
    let d f := n_sub (f q) (f (o_rot (e_orient e))) in
    let sq x := n_mul x x in
    n_eq (e_own_mass e) (pe_own_mass src) = false \/
    n_lt EPSILON (vmag (vsub (o_pos (e_orient e)) (pe_pos src))) = true \/
    n_lt EPSILON (n_sqrt (n_add (n_add (n_add (sq (d qw)) (sq (d qi))) (sq (d qj))) (sq (d qk)))) = true \/
    n_lt EPSILON (vmag (vsub (e_vel e) (pe_vel src))) = true \/
    n_lt EPSILON (vmag (vsub (e_angvel e) (pe_angvel src))) = true.

  (** Asleep, as the getter reports it. *)
  Definition asleep (s : system T) (h : handle) : Prop := exists e, get_entity s h = Some e /\ pe_asleep e = true.
  (** A collision record of the step that led to [s'] names [x], which is not infinitely heavy. *)
  Definition struck (s' : system T) (x : handle) : Prop :=
    (exists r, In r (s_records s') /\ (x = cr_first r \/ x = cr_second r)) /\
    (exists e, get_entity s' x = Some e /\ n_isfin (pe_last_total_mass e) = true).
  (** Entity [k] was connected before the step to one that was struck during it. *)
  Definition roused (s s' : system T) (k : handle) : Prop := exists x, struck s' x /\ connected (s_ents s) x k.

  (** The low-energy clock of entity [h]: how long it has been quiet, updated by each call. *)
  Definition clock_step (h : handle) (s : system T) (o : op T) (s' : system T) (c : option T) : option T :=
    match o with
    | OStep dt =>
      if n_lt (n_abs dt) EPSILON then c
      else match aget (s_ents s') h with
           | None => None
           | Some e =>
             if e_asleep e && negb (existsb (fun m => match m with DSleep k => heqb k h | _ => false end) (s_debug s'))
             then c
             else if n_lt (s_energy_thr s) (get_total_energy e) then None
             else match c with None => Some n0 | Some t => Some (n_add t dt) end
           end
    | _ => match aget (s_ents s') h with None => None | Some _ => c end
    end.
  Fixpoint clock (h : handle) (hist : list (call T)) (s : system T) (c : option T) : option T :=
    match hist with
    | [] => c
    | (ord, o) :: rest => match exec ord s o with
                          | Ok (s', _) => clock h rest s' (clock_step h s o s' c)
                          | _ => c
                          end
    end.

  (** A collision that a step may respond to, between entities [h1] and [h2] (with planned
      movements [i1], [i2]) and their colliders [k1], [k2]: they are not resting against each
      other, their colliders meet on the way, and they approach each other there. *)
  Definition meets (cols : arena (collider T)) (ents : arena (ientity T)) (i1 i2 : info T) (k1 k2 : handle) (c : collision T) : Prop :=
    exists e1 e2 c1 c2,
      aget ents (i_h i1) = Some e1 /\ aget ents (i_h i2) = Some e2 /\
      ~ In (i_h i2) (e_neighbors e1) /\ ~ In (i_h i1) (e_neighbors e2) /\
      In k1 (e_colliders e1) /\ In k2 (e_colliders e2) /\ aget cols k1 = Some c1 /\ aget cols k2 = Some c2 /\
      collide c1 (e_orient e1) (after_affected (e_orient e1) (i_lin i1) (i_ang i1))
              c2 (e_orient e2) (after_affected (e_orient e2) (i_lin i2) (i_ang i2)) = Ok (Some c) /\
      n_lt (vdot (vsub (velocity_at e1 (c_pos c)) (velocity_at e2 (c_pos c))) (c_normal c)) EPSILON = false.
End StepSpec.

(** The real numbers (or infinities, or NaN) that the coordinates of a vector denote. *)
Definition vkey {T : Type} {N : Num T} {O : Ord N} (v : Vec3 T) : ER * ER * ER := (key (vx v), key (vy v), key (vz v)).

(** ** Ranges as sets of numbers *)
Section RangeSpec.
  Context {T : Type} {N : Num T}.
  Definition in_range (x : T) (r : range T) : bool := (n_le (r_min r) x && n_le x (r_max r))%bool.
  (** The ranges that the functions of range.rs can make. *)
  Inductive range_made : range T -> Prop :=
  | RM_empty : range_made rg_empty
  | RM_single v : range_made (rg_single v)
  | RM_range a b : range_made (rg_range a b)
  | RM_everything : range_made rg_everything
  | RM_intersect a b : range_made a -> range_made b -> range_made (rg_intersect a b)
  | RM_contain a b : range_made a -> range_made b -> range_made (rg_contain a b)
  | RM_quadratic a b c : range_made (rg_quadratic_zeros a b c)
  | RM_linear a b m : range_made a -> range_made b -> range_made (rg_linear_overlap a b m).
  Definition range_ok (r : range T) : Prop := rg_is_empty r = true \/ n_le (r_min r) (r_max r) = true.
End RangeSpec.
(** A range of the ideal arithmetic with at least one real number in it; its ends may be infinite. *)
Definition proper (r : range ER) : Prop := er_le (r_min r) (r_max r) = true /\ r_min r <> PInf /\ r_max r <> NInf.

(** ** The parts of a box and of a mesh that a ball can hit *)
Section PartSpec.
  Context {T : Type} {N : Num T}.
  (** [p] is one of the eight corners of the box with extreme corners [mn] and [mx]. *)
  Definition is_corner (mn mx p : Vec3 T) : Prop :=
    (vx p = vx mn \/ vx p = vx mx) /\ (vy p = vy mn \/ vy p = vy mx) /\ (vz p = vz mn \/ vz p = vz mx).
  (** [p]-[q] is one of its twelve edges: two corners that differ in one coordinate. *)
  Definition is_edge (mn mx p q : Vec3 T) : Prop :=
    is_corner mn mx p /\ is_corner mn mx q /\
    ((vx p = vx mn /\ vx q = vx mx /\ vy p = vy q /\ vz p = vz q) \/
     (vx p = vx q /\ vy p = vy mn /\ vy q = vy mx /\ vz p = vz q) \/
     (vx p = vx q /\ vy p = vy q /\ vz p = vz mn /\ vz q = vz mx)).
  (** A collision of the moving ball with a face, an edge or a corner of a resting box. *)
  Inductive box_part (r : T) (c m mn mx : Vec3 T) : collision T -> Prop :=
  | BP_face k : box_face_collision r c m mn mx = Some k -> box_part r c m mn mx k
  | BP_edge p q k : is_edge mn mx p q -> collide_sphere_with_mid_line_segment r c m p q vzero = Some k -> box_part r c m mn mx k
  | BP_corner p k : is_corner mn mx p -> collide_sphere_with_sphere r c m n0 p vzero = Some k -> box_part r c m mn mx k.
  (** A collision of the moving ball with a face, an edge or a vertex of a mesh moving by [mv]. *)
  Inductive mesh_part (r : T) (c m : Vec3 T) (vs : list (Vec3 T)) (es : list (nat * nat)) (fs : list (list nat)) (mv : Vec3 T)
      : collision T -> Prop :=
  | MP_vertex v k : In v vs -> collide_sphere_with_sphere r c m n0 v mv = Some k -> mesh_part r c m vs es fs mv k
  | MP_edge i j p q k : In (i, j) es -> nth_error vs i = Some p -> nth_error vs j = Some q ->
      collide_sphere_with_mid_line_segment r c m p q mv = Some k -> mesh_part r c m vs es fs mv k
  | MP_face f ps k : In f fs -> Forall2 (fun i p => nth_error vs i = Some p) f ps ->
      collide_sphere_with_polygon_surface r c m ps mv = Ok (Some k) -> mesh_part r c m vs es fs mv k.
End PartSpec.

(** ** Exchanging the two sides of a collision *)
Section SwapSpec.
  Context {T : Type} {N : Num T}.
  (** Two colliders of different kinds, or at least not two spheres and not two meshes. *)
  Definition mixed (c1 c2 : collider T) : Prop :=
    match c1, c2 with CSphere _, CSphere _ | CMesh _, CMesh _ => False | _, _ => True end.
  (** The same collision seen from the other side. *)
  Definition turn (c : collision T) : collision T := mkC (c_times c) (c_pos c) (vneg (c_normal c)).
  (** A corner of a mesh (its vertices given at start and end) hits a face of another,
      the face being taken halfway through its motion. *)
  Definition halfway (pe : Vec3 T * Vec3 T) : Vec3 T := vdivs (vadd (fst pe) (snd pe)) n2.
  Definition corner_hit (p1 : list (Vec3 T * Vec3 T)) (fs : list (list nat)) (p2 : list (Vec3 T * Vec3 T)) (c : collision T) : Prop :=
    exists pt f pol, In pt p1 /\ In f fs /\ Forall2 (fun i pe => nth_error p2 i = Some pe) f pol /\
      collide_point_with_polygon (fst pt) (snd pt) (map halfway pol) = Ok (Some c).
  (** Up to the sense of the normal. *)
  Definition same_line (c c' : collision T) : Prop :=
    c_times c' = c_times c /\ c_pos c' = c_pos c /\ (c_normal c' = c_normal c \/ c_normal c' = vneg (c_normal c)).
End SwapSpec.
