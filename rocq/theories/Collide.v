(** * Collide: /repo/src/collision.rs

    Debug printing is omitted.  Functions that can panic return [res]. *)
From Coq Require Import ZArith List Arith Bool.
Import ListNotations.
From Verif Require Import Num Vec Res Arena RangeM Orient Colliders.
Local Open Scope num_scope.

(** collision.rs:15-22 [struct Collision]. *)
Record collision (T : Type) := mkC { c_times : range T; c_pos : Vec3 T; c_normal : Vec3 T }.
Arguments mkC {T}. Arguments c_times {T}. Arguments c_pos {T}. Arguments c_normal {T}.

Section Collide.
  Context {T : Type} {N : Num T}.

  (** [collision.times.min()]: the instant the collision starts, as a fraction of the time left. *)
  Definition c_time (c : collision T) : T := rg_min (c_times c).

  (** collision.rs:27-31 [transform_out_of] *)
  Definition transform_out_of (c : collision T) (start end_ : orientation T) : collision T :=
    let o := orient_lerp (c_time c) start end_ in
    mkC (c_times c) (position_into_world o (c_pos c)) (direction_into_world o (c_normal c)).
  (** [collision.normal *= k] (collision.rs:98, 144, 188, 251, 710, 712). *)
  Definition scale_normal (c : collision T) (k : T) : collision T :=
    mkC (c_times c) (c_pos c) (vscale (c_normal c) k).

  (** collision.rs:262-278 [sphere_plane_overlap_time] *)
  Definition sphere_plane_overlap_time (radius1 : T) (center1 movement1 position2 normal2 movement2 : Vec3 T)
      (infinite_backdrop : bool) : range T :=
    let start_nearest := vadd center1 (vscale normal2 (- radius1)) in
    let start_farthest := vadd center1 (vscale normal2 radius1) in
    let circle_range := rg_range (vdot start_nearest normal2) (vdot start_farthest normal2) in
    let plane_value := vdot position2 normal2 in
    let plane_range := rg_range plane_value (if infinite_backdrop then - n_inf else plane_value) in
    rg_linear_overlap circle_range plane_range (vdot movement2 normal2 - vdot movement1 normal2).

  (** collision.rs:281-295 [collide_sphere_with_plane] *)
  Definition collide_sphere_with_plane (radius1 : T) (center1 movement1 position2 normal2 movement2 : Vec3 T)
      : option (collision T) :=
    let times := rg_intersect
      (sphere_plane_overlap_time radius1 center1 movement1 position2 normal2 movement2 true) rg_unit in
    if rg_is_empty times then None
    else
      let start_nearest := vadd center1 (vscale normal2 (- radius1)) in
      Some (mkC times (vadd start_nearest (vscale movement1 (rg_min times))) (vneg normal2)).

  (** collision.rs:298-319 [collide_sphere_with_sphere] *)
  Definition collide_sphere_with_sphere (radius1 : T) (center1 movement1 : Vec3 T)
      (radius2 : T) (center2 movement2 : Vec3 T) : option (collision T) :=
    let dv := vsub movement1 movement2 in
    let dc := vsub center1 center2 in
    let radius := radius1 + radius2 in
    let times := rg_intersect
      (rg_quadratic_zeros (vdot dv dv) (n2 * vdot dv dc) (vdot dc dc - radius * radius)) rg_unit in
    if rg_is_empty times then None
    else
      let position := vscale (vadd (vscale (vadd center1 (vscale movement1 (rg_min times))) radius2)
                                   (vscale (vadd center2 (vscale movement2 (rg_min times))) radius1))
                             (n1 / radius) in
      Some (mkC times position (vnormalize (vsub position center1))).

  (** collision.rs:322-344 [collide_sphere_with_line] *)
  Definition collide_sphere_with_line (radius1 : T) (center1 movement1 start2 direction2 movement2 : Vec3 T)
      : option (collision T) :=
    let direction := vnormalize direction2 in
    let movement := vsub movement1 movement2 in
    let a := vcross (vsub center1 start2) direction in
    let b := vcross movement direction in
    let times := rg_intersect
      (rg_quadratic_zeros (vdot b b) (n2 * vdot a b) (vdot a a - radius1 * radius1)) rg_unit in
    if rg_is_empty times then None
    else
      let line_position := vadd start2 (vscale movement2 (rg_min times)) in
      let center_position := vadd center1 (vscale movement1 (rg_min times)) in
      let along_length := vdot (vsub center_position line_position) direction in
      let position := vadd line_position (vscale direction along_length) in
      Some (mkC times position (vnormalize (vsub position center1))).

  (** collision.rs:349-359 [collide_sphere_with_mid_line_segment] *)
  Definition collide_sphere_with_mid_line_segment (radius1 : T) (center1 movement1 start2 end2 movement2 : Vec3 T)
      : option (collision T) :=
    let length := vsub end2 start2 in
    match collide_sphere_with_line radius1 center1 movement1 start2 length movement2 with
    | Some hit =>
      let hit_movement := vscale movement2 (rg_min (c_times hit)) in
      let hit_start := vadd start2 hit_movement in
      let hit_end := vadd end2 hit_movement in
      if n_abs ((vmag (vsub hit_start (c_pos hit)) + vmag (vsub hit_end (c_pos hit))) - vmag length) <? EPSILON
      then Some hit else None
    | None => None
    end.

  (** collision.rs:382-399: does [hit] lie on the same side of every edge?
      [sides] are the (first, second) corner pairs, in order. *)
  Fixpoint polygon_sides_ok (hit normal tpm : Vec3 T) (expected : T) (sides : list (Vec3 T * Vec3 T)) : bool :=
    match sides with
    | [] => true
    | (f, s) :: rest =>
      let first := vadd f tpm in
      let second := vadd s tpm in
      let sign := vdot (vcross (vsub hit first) (vsub second first)) normal in
      if n_abs sign <? EPSILON then polygon_sides_ok hit normal tpm expected rest
      else if n0 =? expected then polygon_sides_ok hit normal tpm (n_signum sign) rest
      else if negb (expected =? n_signum sign) then false
      else polygon_sides_ok hit normal tpm expected rest
    end.

  (** collision.rs:366-407 [collide_sphere_with_polygon_surface] *)
  Definition collide_sphere_with_polygon_surface (radius1 : T) (center1 movement1 : Vec3 T)
      (corners2 : list (Vec3 T)) (movement2 : Vec3 T) : res (option (collision T)) :=
    match corners2 with
    | k0 :: k1 :: k2 :: _ =>
      let normal := vnormalize (vcross (vsub k1 k0) (vsub k2 k0)) in
      let times := rg_intersect
        (sphere_plane_overlap_time radius1 center1 movement1 k0 normal movement2 false) rg_unit in
      if rg_is_empty times then Ok None
      else
        let sphere_hit_position := vadd center1 (vscale movement1 (rg_min times)) in
        let total_plane_movement := vscale movement2 (rg_min times) in
        let plane_hit_position := vadd k0 total_plane_movement in
        let hit_position := vsub sphere_hit_position
          (vscale normal (vdot (vsub sphere_hit_position plane_hit_position) normal)) in
        let normal := vnormalize (vsub hit_position sphere_hit_position) in
        if polygon_sides_ok hit_position normal total_plane_movement n0 (loop_pairs corners2)
        then Ok (Some (mkC times hit_position normal))
        else Ok None
    | _ => Panic
    end.

  (** collision.rs:410-443 [EarliestCollisionAccumulator]: (earliest, earliest_time). *)
  Definition accum : Type := (option (collision T) * T)%type.
  Definition acc_new : accum := (None, n_inf).
  Definition acc_consider (acc : accum) (possible : option (collision T)) : accum :=
    match possible with
    | Some c => if c_time c <? snd acc then (Some c, c_time c) else acc
    | None => acc
    end.

  (** collision.rs:446-477 [collide_sphere_with_mesh] *)
  Definition collide_sphere_with_mesh (radius1 : T) (center1 movement1 : Vec3 T)
      (vertices2 : list (Vec3 T)) (edges2 : list (nat * nat)) (faces2 : list (list nat)) (movement2 : Vec3 T)
      : res (option (collision T)) :=
    let acc := fold_left (fun acc v =>
      acc_consider acc (collide_sphere_with_sphere radius1 center1 movement1 n0 v movement2)) vertices2 acc_new in
    rbind (rfold (fun acc e =>
      rbind (unwrap (nth_error vertices2 (fst e))) (fun v1 =>
      rbind (unwrap (nth_error vertices2 (snd e))) (fun v2 =>
      Ok (acc_consider acc (collide_sphere_with_mid_line_segment radius1 center1 movement1 v1 v2 movement2)))))
      edges2 acc) (fun acc =>
    rbind (rfold (fun acc face =>
      rbind (rmap (fun i => unwrap (nth_error vertices2 i)) face) (fun corners =>
      rbind (collide_sphere_with_polygon_surface radius1 center1 movement1 corners movement2) (fun c =>
      Ok (acc_consider acc c))))
      faces2 acc) (fun acc =>
    Ok (fst acc))).

  (** collision.rs:479-485 [_MeshCollisionInfo]. *)
  Record mesh_info := mkMI { mi_start : Vec3 T; mi_end : Vec3 T; mi_sd : T; mi_ed : T }.

  (** collision.rs:488-545 [collide_mesh_with_plane] *)
  Definition collide_mesh_with_plane (mesh_vertices : list (Vec3 T)) (mesh_position : Vec3 T)
      (mesh_start mesh_end : orientation T) (plane_start plane_end plane_normal : Vec3 T) : option (collision T) :=
    let calculated := map (fun vertex =>
      let p := vadd mesh_position vertex in
      let s := position_into_world mesh_start p in
      let e := position_into_world mesh_end p in
      mkMI s e (vdot (vsub s plane_start) plane_normal) (vdot (vsub e plane_end) plane_normal)) mesh_vertices in
    let start_distances := fold_left (fun r i => rg_contain r (rg_single (mi_sd i))) calculated rg_empty in
    let end_distances := fold_left (fun r i => rg_contain r (rg_single (mi_ed i))) calculated rg_empty in
    let times := rg_intersect
      (rg_linear_overlap (rg_range (- n_inf) n0) start_distances (rg_min end_distances - rg_min start_distances))
      rg_unit in
    if rg_is_empty times then None
    else
      let hundredth := n_frac 1 100 in
      let start_epsilon := rg_size start_distances * hundredth in
      let end_epsilon := rg_size end_distances * hundredth in
      let '(ssum, scount) := fold_left (fun a i =>
        if n_abs (mi_sd i - rg_min start_distances) <? start_epsilon
        then (vadd (fst a) (mi_start i), snd a + n1) else a) calculated (vzero, n0) in
      let '(esum, ecount) := fold_left (fun a i =>
        if n_abs (mi_ed i - rg_min end_distances) <? end_epsilon
        then (vadd (fst a) (mi_end i), snd a + n1) else a) calculated (vzero, n0) in
      let s := vdivs ssum scount in
      let e := vdivs esum ecount in
      let time := rg_min times in
      Some (mkC times (vadd (vscale s (n1 - time)) (vscale e time)) (vneg plane_normal)).

  (** collision.rs:547-559 [get_polygon_normal]; [index] runs over the
      remaining indices.  Panics when no corner gives a long enough normal. *)
  Fixpoint polygon_normal_from (points : list (Vec3 T)) (indices : list nat) : res (Vec3 T) :=
    match indices with
    | [] => Panic
    | index :: rest =>
      let n := length points in
      let next_index := (if n <=? index + 1 then index + 1 - n else index + 1)%nat in
      let prev_index := (if 0 <? index then index - 1 else n - 1)%nat in
      let at_ i := nth i points vzero in
      let normal := vcross (vsub (at_ prev_index) (at_ index)) (vsub (at_ next_index) (at_ index)) in
      let length := vmag normal in
      if n_isfin length && (EPSILON <? length) then Ok (vdivs normal length)
      else polygon_normal_from points rest
    end.
  Definition get_polygon_normal (points : list (Vec3 T)) : res (Vec3 T) :=
    polygon_normal_from points (seq 0 (length points)).

  (** collision.rs:561-563 [point_is_on_plane] *)
  Definition point_is_on_plane (point plane_normal plane_point : Vec3 T) : bool :=
    n_abs (vdot (vsub point plane_point) plane_normal) <? EPSILON.

  (** collision.rs:578-599: the on-the-plane case; [best] is (closest_time, closest_position). *)
  Fixpoint closest_side (point_start point_end plane_normal : Vec3 T) (best : T * Vec3 T)
      (sides : list (Vec3 T * Vec3 T)) : T * Vec3 T :=
    match sides with
    | [] => best
    | (p, q) :: rest =>
      let point_delta := vsub point_end point_start in
      let direction := vsub q p in
      let line_ortho := vnormalize (vcross plane_normal direction) in
      let ods := vdot (vsub point_start p) line_ortho in
      let odd := vdot (vsub point_end p) line_ortho - ods in
      let time := ods / - odd in
      let best' :=
        if negb (n_isfin time) || (time <? n0) || (n1 <? time) then best
        else
          let position := vadd point_start (vscale point_delta time) in
          let along := vdot (vsub position p) direction in
          if (along <? n0) || (vdot direction direction <? along) then best
          else if time <? fst best then (time, position) else best in
      closest_side point_start point_end plane_normal best' rest
    end.

  (** collision.rs:629-646: is the point inside the polygon? *)
  Fixpoint point_inside (point plane_normal : Vec3 T) (expected : T) (sides : list (Vec3 T * Vec3 T)) : bool :=
    match sides with
    | [] => true
    | (p, q) :: rest =>
      let distance := vsub point p in
      if vmag distance <? EPSILON then true
      else
        let cross := vdot (vcross (vsub q p) distance) plane_normal in
        if n_abs cross <? EPSILON then point_inside point plane_normal expected rest
        else
          let sign := n_signum cross in
          if negb (n0 =? expected) && negb (expected =? sign) then false
          else point_inside point plane_normal sign rest
    end.

  (** collision.rs:568-658 [collide_point_with_polygon] *)
  Definition collide_point_with_polygon (point_start point_end : Vec3 T) (polygon : list (Vec3 T))
      : res (option (collision T)) :=
    let point_delta := vsub point_end point_start in
    rbind (get_polygon_normal polygon) (fun plane_normal =>
    let p0 := nth 0 polygon vzero in
    if point_is_on_plane point_start plane_normal p0 && point_is_on_plane point_end plane_normal p0 then
      let '(closest_time, closest_position) :=
        closest_side point_start point_end plane_normal (n2, vzero) (loop_pairs polygon) in
      if closest_time <=? n1
      then Ok (Some (mkC (rg_single closest_time) closest_position plane_normal))
      else Ok None
    else
      let time := vdot (vsub point_start p0) plane_normal / - vdot point_delta plane_normal in
      if negb (n_isfin time) || (time <? n0) || (n1 <? time) then Ok None
      else
        let point := vadd point_start (vscale point_delta time) in
        let start_coincidence := vdot (vsub point_start p0) plane_normal in
        let plane_normal :=
          if start_coincidence <? - EPSILON then vscale plane_normal nm1
          else if start_coincidence <? EPSILON then
            (if n0 <? vdot (vsub point_end p0) plane_normal then vscale plane_normal nm1 else plane_normal)
          else plane_normal in
        if point_inside point plane_normal n0 (loop_pairs polygon)
        then Ok (Some (mkC (rg_single time) point plane_normal))
        else Ok None).

  (** collision.rs:660-675 [MeshPointPairs], [precompute_mesh_point_pairs]: (start, end) of each vertex. *)
  Definition mesh_point_pairs (m : mesh_c T) (start end_ : orientation T) : list (Vec3 T * Vec3 T) :=
    map (fun point => let p := vadd (me_pos m) point in
      (position_into_world start p, position_into_world end_ p)) (me_verts m).

  (** collision.rs:677-715 [collide_mesh_points_with_mesh_faces] *)
  Definition collide_mesh_points_with_mesh_faces (output : accum) (mesh1_points : list (Vec3 T * Vec3 T))
      (faces2 : list (list nat)) (mesh2_points : list (Vec3 T * Vec3 T)) (normal_factor : T) : res accum :=
    rbind (rfold (fun acc pt =>
      rfold (fun acc face =>
        rbind (rmap (fun i => rbind (unwrap (nth_error mesh2_points i)) (fun pe =>
                 Ok (vdivs (vadd (fst pe) (snd pe)) n2))) face) (fun face_points =>
        rbind (collide_point_with_polygon (fst pt) (snd pt) face_points) (fun c =>
        Ok (acc_consider acc c)))) faces2 acc) mesh1_points acc_new) (fun acc =>
    match fst acc with
    | None => Ok output
    | Some col =>
      let time := c_time col in
      let '(negate, keep) := fold_left (fun nk pt =>
        let point := vadd (vscale (fst pt) (n1 - time)) (vscale (snd pt) time) in
        let sign := vdot (vsub point (c_pos col)) (c_normal col) in
        if sign <? n0 then (S (fst nk), snd nk) else (fst nk, S (snd nk))) mesh1_points (0%nat, 0%nat) in
      let col := if Nat.ltb keep negate then scale_normal col nm1 else col in
      Ok (acc_consider output (Some (scale_normal col normal_factor)))
    end).

  (** collision.rs:717-738 [collide_mesh_with_mesh] *)
  Definition collide_mesh_with_mesh (mesh1 : mesh_c T) (start1 end1 : orientation T)
      (mesh2 : mesh_c T) (start2 end2 : orientation T) : res (option (collision T)) :=
    let p1 := mesh_point_pairs mesh1 start1 end1 in
    let p2 := mesh_point_pairs mesh2 start2 end2 in
    rbind (collide_mesh_points_with_mesh_faces acc_new p1 (me_faces mesh2) p2 nm1) (fun acc =>
    rbind (collide_mesh_points_with_mesh_faces acc p2 (me_faces mesh1) p1 n1) (fun acc =>
    Ok (fst acc))).

  (** collision.rs:1172-1181: the eight corners. *)
  Definition box_corners (mn mx : Vec3 T) : list (Vec3 T) :=
    [ mkV (vx mn) (vy mn) (vz mn); mkV (vx mx) (vy mn) (vz mn);
      mkV (vx mn) (vy mx) (vz mn); mkV (vx mx) (vy mx) (vz mn);
      mkV (vx mn) (vy mn) (vz mx); mkV (vx mx) (vy mn) (vz mx);
      mkV (vx mn) (vy mx) (vz mx); mkV (vx mx) (vy mx) (vz mx) ].
  (** collision.rs:1182-1198: the twelve edges as corner indices. *)
  Definition box_edges : list (nat * nat) :=
    [ (0,1); (2,3); (4,5); (6,7); (0,2); (1,3); (4,6); (5,7); (0,4); (1,5); (2,6); (3,7) ]%nat.

  (** collision.rs:1123-1141: when the sphere overlaps the box through a face. *)
  Definition box_face_times (radius : T) (center movement min_corner max_corner : Vec3 T) : range T :=
    let box_x := rg_range (vx min_corner) (vx max_corner) in
    let box_y := rg_range (vy min_corner) (vy max_corner) in
    let box_z := rg_range (vz min_corner) (vz max_corner) in
    let sphere_x := rg_range (vx center - radius) (vx center + radius) in
    let sphere_y := rg_range (vy center - radius) (vy center + radius) in
    let sphere_z := rg_range (vz center - radius) (vz center + radius) in
    let x_narrow := rg_linear_overlap box_x (rg_single (vx center)) (vx movement) in
    let x_broad  := rg_linear_overlap box_x sphere_x (vx movement) in
    let y_narrow := rg_linear_overlap box_y (rg_single (vy center)) (vy movement) in
    let y_broad  := rg_linear_overlap box_y sphere_y (vy movement) in
    let z_narrow := rg_linear_overlap box_z (rg_single (vz center)) (vz movement) in
    let z_broad  := rg_linear_overlap box_z sphere_z (vz movement) in
    let x_overlap := rg_intersect (rg_intersect x_broad y_narrow) z_narrow in
    let y_overlap := rg_intersect (rg_intersect x_narrow y_broad) z_narrow in
    let z_overlap := rg_intersect (rg_intersect x_narrow y_narrow) z_broad in
    rg_intersect (rg_contain (rg_contain x_overlap y_overlap) z_overlap) rg_unit.

  (** collision.rs:1145-1163: the axis direction chosen as normal. *)
  Definition box_face_normal (center_at_collision min_corner max_corner : Vec3 T) : Vec3 T :=
    let box_center := vdivs (vadd min_corner max_corner) n2 in
    let box_size := vsub max_corner min_corner in
    let n := vsub box_center center_at_collision in
    let nx := vx n / vx box_size in
    let ny := vy n / vy box_size in
    let nz := vz n / vz box_size in
    if n_abs nx <? n_abs ny then
      if n_abs ny <? n_abs nz then mkV n0 n0 (n_signum nz) else mkV n0 (n_signum ny) n0
    else
      if n_abs nx <? n_abs nz then mkV n0 n0 (n_signum nz) else mkV (n_signum nx) n0 n0.

  (** collision.rs:1119-1170: the face part. *)
  Definition box_face_collision (radius : T) (center movement min_corner max_corner : Vec3 T) : option (collision T) :=
    let minimum_times := box_face_times radius center movement min_corner max_corner in
    if rg_is_empty minimum_times then None
    else
      let center_at_collision := vadd center (vscale movement (rg_min minimum_times)) in
      let normal := box_face_normal center_at_collision min_corner max_corner in
      Some (mkC minimum_times (vadd center_at_collision (vscale normal radius)) normal).

  (** collision.rs:1112-1213 [collide_sphere_with_aligned_box].  The edge
      indices are literals in range, so [nth] never uses its default. *)
  Definition collide_sphere_with_aligned_box (radius : T) (center movement min_corner max_corner : Vec3 T)
      : option (collision T) :=
    let corners := box_corners min_corner max_corner in
    let acc := acc_consider acc_new (box_face_collision radius center movement min_corner max_corner) in
    let acc := fold_left (fun acc e =>
      acc_consider acc (collide_sphere_with_mid_line_segment radius center movement
        (nth (fst e) corners vzero) (nth (snd e) corners vzero) vzero)) box_edges acc in
    let acc := fold_left (fun acc corner =>
      acc_consider acc (collide_sphere_with_sphere radius center movement n0 corner vzero)) corners acc in
    fst acc.

  (** collision.rs:97-102 (and 143-148, 187-192): negate the normal of the result. *)
  Definition flip (o : option (collision T)) : option (collision T) :=
    match o with Some c => Some (scale_normal c nm1) | None => None end.

  (** The world position of a local point at start, and its movement to end
      (the pattern [start.position_into_world(p)], [end... - start...]). *)
  Definition world_move (p : Vec3 T) (start end_ : orientation T) : Vec3 T :=
    vsub (position_into_world end_ p) (position_into_world start p).

  (** collision.rs:35-259 [collide]; the kinds are tested one pair at a time,
      the order of the tests does not matter. *)
  Definition collide (collider1 : collider T) (start1 end1 : orientation T)
      (collider2 : collider T) (start2 end2 : orientation T) : res (option (collision T)) :=
    match collider1, collider2 with
    | CNull _, _ | _, CNull _ => Ok None
    | CSphere s1, CSphere s2 =>
        Ok (collide_sphere_with_sphere
              (sp_radius s1) (position_into_world start1 (sp_center s1)) (world_move (sp_center s1) start1 end1)
              (sp_radius s2) (position_into_world start2 (sp_center s2)) (world_move (sp_center s2) start2 end2))
    | CSphere s, CPlane p =>
        Ok (collide_sphere_with_plane
              (sp_radius s) (position_into_world start1 (sp_center s)) (world_move (sp_center s) start1 end1)
              (position_into_world start2 (pl_pos p)) (pl_normal p) (world_move (pl_pos p) start2 end2))
    | CPlane p, CSphere s =>
        Ok (flip (collide_sphere_with_plane
              (sp_radius s) (position_into_world start2 (sp_center s)) (world_move (sp_center s) start2 end2)
              (position_into_world start1 (pl_pos p)) (pl_normal p) (world_move (pl_pos p) start1 end1)))
    | CSphere s, CMesh m =>
        collide_sphere_with_mesh
          (sp_radius s) (position_into_world start1 (sp_center s)) (world_move (sp_center s) start1 end1)
          (vertices_in_world m start2) (me_edges m) (me_faces m) (world_move (me_pos m) start2 end2)
    | CMesh m, CSphere s =>
        rbind (collide_sphere_with_mesh
          (sp_radius s) (position_into_world start2 (sp_center s)) (world_move (sp_center s) start2 end2)
          (vertices_in_world m start1) (me_edges m) (me_faces m) (world_move (me_pos m) start1 end1))
          (fun o => Ok (flip o))
    | CMesh m, CPlane p =>
        Ok (collide_mesh_with_plane (me_verts m) (me_pos m) start1 end1
              (position_into_world start2 (pl_pos p)) (position_into_world end2 (pl_pos p)) (pl_normal p))
    | CPlane p, CMesh m =>
        Ok (flip (collide_mesh_with_plane (me_verts m) (me_pos m) start2 end2
              (position_into_world start1 (pl_pos p)) (position_into_world end1 (pl_pos p)) (pl_normal p)))
    | CMesh m1, CMesh m2 => collide_mesh_with_mesh m1 start1 end1 m2 start2 end2
    | CSphere s, CBox b =>
        let sphere_start := position_into_local start2 (position_into_world start1 (sp_center s)) in
        let sphere_end := position_into_local end2 (position_into_world end1 (sp_center s)) in
        match collide_sphere_with_aligned_box (sp_radius s) sphere_start (vsub sphere_end sphere_start) (bx_min b) (bx_max b) with
        | Some c => Ok (Some (transform_out_of c start2 end2))
        | None => Ok None
        end
    | CBox b, CSphere s =>
        let sphere_start := position_into_local start1 (position_into_world start2 (sp_center s)) in
        let sphere_end := position_into_local end1 (position_into_world end2 (sp_center s)) in
        match collide_sphere_with_aligned_box (sp_radius s) sphere_start (vsub sphere_end sphere_start) (bx_min b) (bx_max b) with
        | Some c => Ok (Some (scale_normal (transform_out_of c start1 end1) nm1))
        | None => Ok None
        end
    | CPlane _, CPlane _ | CPlane _, CBox _ | CBox _, CPlane _ => Ok None
    | CMesh _, CBox _ | CBox _, CMesh _ | CBox _, CBox _ => Ok None
    end.
End Collide.
Arguments mesh_info : clear implicits.
Arguments accum : clear implicits.
