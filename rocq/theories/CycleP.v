(** * CycleP: the tests for collisions with the axes exchanged in a circle (C91) *)
From Coq Require Import ZArith Reals List Bool Arith Lra Lia.
Import ListNotations.
From Verif Require Import Num Vec Res Arena RangeM Orient Colliders Collide EntityM SystemM Spec ResP RealSpec RealV MoveSpec MoveP Move2P CollideP CycleSpec.
Local Open Scope R_scope.

(** ** The order in which sums are taken does not matter, for all values including the infinities and NaN *)
Lemma ac_comm (x y : ER) : n_add x y = n_add y x.
Proof. destruct x as [x| | |], y as [y| | |]; try reflexivity. cbn. f_equal. ring. Qed.
Lemma ac_assoc (x y z : ER) : n_add (n_add x y) z = n_add x (n_add y z).
Proof. destruct x as [x| | |], y as [y| | |], z as [z| | |]; try reflexivity. cbn. f_equal. ring. Qed.
Lemma ac_sub (x y : ER) : n_sub x y = n_add x (n_neg y).
Proof. destruct x as [x| | |], y as [y| | |]; reflexivity. Qed.
Lemma ac_turn (x y z : ER) : n_add (n_add z x) y = n_add (n_add x y) z.
Proof. rewrite (ac_comm z x), !ac_assoc. f_equal. apply ac_comm. Qed.
Lemma ac_four (x y z : ER) : n_add x (n_add y z) = n_add y (n_add z x).
Proof. rewrite (ac_comm x), ac_assoc. reflexivity. Qed.

Section Around.
  Notation mv := around_v.
  Notation mq := around_q.
  Notation mo := around_o.
  Notation mk := (option_map around_collision).

  Lemma mv_zero : mv vzero = vzero. Proof. reflexivity. Qed.
  Lemma mv_add x y : vadd (mv x) (mv y) = mv (vadd x y). Proof. reflexivity. Qed.
  Lemma mv_sub x y : vsub (mv x) (mv y) = mv (vsub x y). Proof. reflexivity. Qed.
  Lemma mv_neg x : vneg (mv x) = mv (vneg x). Proof. reflexivity. Qed.
  Lemma mv_scale x k : vscale (mv x) k = mv (vscale x k). Proof. reflexivity. Qed.
  Lemma mv_divs x k : vdivs (mv x) k = mv (vdivs x k). Proof. reflexivity. Qed.
  Lemma mv_dot x y : vdot (mv x) (mv y) = vdot x y. Proof. unfold vdot, around_v. cbn [vx vy vz]. apply ac_turn. Qed.
  Lemma mv_cross x y : vcross (mv x) (mv y) = mv (vcross x y). Proof. reflexivity. Qed.
  Lemma mv_mag x : vmag (mv x) = vmag x. Proof. unfold vmag, vnorm2. now rewrite mv_dot. Qed.
  Lemma mv_normalize x : vnormalize (mv x) = mv (vnormalize x). Proof. unfold vnormalize. now rewrite mv_mag, mv_divs. Qed.

  Lemma mq_vec q : qvec (mq q) = mv (qvec q). Proof. reflexivity. Qed.
  Lemma mq_mul q r : qmul (mq q) (mq r) = mq (qmul q r).
  Proof.
    unfold qmul, around_q. cbn [qi qj qk qw]. rewrite !ac_sub, !ac_assoc. f_equal; f_equal; apply ac_four.
  Qed.
  Lemma mq_ident : mq qident = qident. Proof. reflexivity. Qed.
  Lemma mq_mul_ident q : qmul (mq q) qident = mq (qmul q qident). Proof. rewrite <- mq_mul, mq_ident. reflexivity. Qed.
  Lemma mq_inv q : qinv (mq q) = mq (qinv q). Proof. reflexivity. Qed.
  Lemma mq_rot q x : qrot (mq q) (mv x) = mv (qrot q x). Proof. reflexivity. Qed.
  Lemma mv_world (o : orientation ER) x : position_into_world (mo o) (mv x) = mv (position_into_world o x).
  Proof.
    unfold position_into_world, into_world, into_local, iso_inverse, iso_point, iso_append_translation, iso_append_rotation. cbn [i_tr i_rot around_o o_pos o_rot o_off].
    repeat first [rewrite mq_mul_ident | rewrite mq_inv | rewrite mq_mul | rewrite mv_neg | rewrite mq_rot | rewrite mv_add]. reflexivity.
  Qed.

  Notation mm := around_m.
  Lemma mq_exp w : qfrom_scaled_axis (mv w) = mq (qfrom_scaled_axis w).
  Proof.
    unfold qfrom_scaled_axis. cbv zeta. rewrite mv_divs. unfold vnorm2. rewrite mv_dot. destruct (n_le _ _); reflexivity.
  Qed.
  Lemma mq_log q : qscaled_axis (mq q) = mv (qscaled_axis q).
  Proof.
    unfold qscaled_axis. cbv zeta. change (qw (mq q)) with (qw q). rewrite mq_vec, mv_neg, mv_mag.
    assert (E : (if n_le n0 (qw q) then mv (qvec q) else mv (vneg (qvec q))) = mv (if n_le n0 (qw q) then qvec q else vneg (qvec q))) by now destruct (n_le _ _).
    rewrite E. unfold vnorm2. rewrite mv_dot. destruct (n_lt _ _); reflexivity.
  Qed.
  Lemma mm_zero : mm mzero = mzero. Proof. reflexivity. Qed.
  Lemma mm_mulv m w : mulmv (mm m) (mv w) = mv (mulmv m w).
  Proof. unfold mulmv, around_m, around_v. cbn [m11 m12 m13 m21 m22 m23 m31 m32 m33 vx vy vz]. f_equal; apply ac_turn. Qed.
  Lemma mm_mul m n : mulmm (mm m) (mm n) = mm (mulmm m n).
  Proof. unfold mulmm, mofcols, mulmv, mcol1, mcol2, mcol3, around_m. cbn [m11 m12 m13 m21 m22 m23 m31 m32 m33 vx vy vz]. f_equal; apply ac_turn. Qed.
  Lemma mm_trans m : mtrans (mm m) = mm (mtrans m). Proof. reflexivity. Qed.
  Lemma mm_add m n : madd (mm m) (mm n) = mm (madd m n). Proof. reflexivity. Qed.
  Lemma mm_sub m n : msub (mm m) (mm n) = mm (msub m n). Proof. reflexivity. Qed.
  Lemma mm_scale m k : mscale (mm m) k = mm (mscale m k). Proof. reflexivity. Qed.
  Lemma mm_diag1 k : mm (mdiag1 k) = mdiag1 k. Proof. reflexivity. Qed.
  Lemma mm_outer x y : vouter (mv x) (mv y) = mm (vouter x y). Proof. reflexivity. Qed.
  Lemma ac_mul (x y : ER) : n_mul x y = n_mul y x.
  Proof. destruct x as [x| | |], y as [y| | |]; try reflexivity. cbn. f_equal. ring. Qed.
  Lemma mm_matrix q : qto_matrix (mq q) = mm (qto_matrix q).
  Proof.
    unfold qto_matrix, around_m, around_q. cbv zeta. cbn [m11 m12 m13 m21 m22 m23 m31 m32 m33 qi qj qk qw].
    rewrite !ac_sub, (ac_mul (qk q) (qi q)), (ac_mul (qk q) (qj q)), !ac_assoc.
    f_equal; try reflexivity; try apply ac_comm; f_equal; apply ac_four || (rewrite ac_four; apply ac_four).
  Qed.
  Lemma mm_inverse m : mtry_inverse (mm (mfin m)) = option_map mm (mtry_inverse (mfin m)).
  Proof.
    destruct m as [a b c d e f g h i]. unfold mtry_inverse, around_m, mfin. cbv zeta. cbn [m11 m12 m13 m21 m22 m23 m31 m32 m33]. repeat first [rewrite fin_mul | rewrite fin_sub | rewrite fin_add].
    match goal with |- (if n_eq (Fin ?d1) n0 then _ else _) = option_map _ (if n_eq (Fin ?d2) n0 then _ else _) => assert (D : d1 = d2) by ring; rewrite D; clear D; generalize d2; intros det end.
    destruct (n_eq (Fin det) n0); [reflexivity|]. cbn [option_map m11 m12 m13 m21 m22 m23 m31 m32 m33]. rewrite !fin_neg. f_equal. f_equal; f_equal; f_equal; ring.
  Qed.
  Lemma translate_around m k x : translate_moment (mm m) k (mv x) = mm (translate_moment m k x).
  Proof. unfold translate_moment. now rewrite mv_dot, mm_outer, <- mm_add, <- mm_scale, <- mm_sub, mm_diag1. Qed.
  Lemma rotate_around m q : rotate_moment (mm m) (mq q) = mm (rotate_moment m q).
  Proof. unfold rotate_moment. cbv zeta. now rewrite mm_matrix, mm_trans, !mm_mul. Qed.
  Lemma prep_around (o : orientation ER) c k m : prep_moment (mo o) (mv c) k (mm m) = mm (prep_moment o c k m).
  Proof. unfold prep_moment. cbn [around_o o_off]. now rewrite mv_add, translate_around. Qed.
  Lemma finalize_around (o : orientation ER) m : finalize_moment (mo o) (mm m) = mm (finalize_moment o m).
  Proof. unfold finalize_moment. cbn [around_o o_rot]. apply rotate_around. Qed.
  Lemma mv_dir_world (o : orientation ER) x : direction_into_world (mo o) (mv x) = mv (direction_into_world o x).
  Proof.
    unfold direction_into_world, into_world, into_local, iso_inverse, iso_vector, iso_append_translation, iso_append_rotation. cbn [i_tr i_rot around_o o_pos o_rot o_off].
    repeat first [rewrite mq_mul_ident | rewrite mq_inv | rewrite mq_mul | rewrite mq_rot]. reflexivity.
  Qed.
  Lemma mv_dir_local (o : orientation ER) x : direction_into_local (mo o) (mv x) = mv (direction_into_local o x).
  Proof.
    unfold direction_into_local, into_local, iso_vector, iso_append_translation, iso_append_rotation. cbn [i_tr i_rot around_o o_pos o_rot o_off].
    repeat first [rewrite mq_mul_ident | rewrite mq_inv | rewrite mq_mul | rewrite mq_rot]. reflexivity.
  Qed.
  Lemma mo_after (o : orientation ER) l w : after_affected (mo o) (mv l) (mv w) = mo (after_affected o l w).
  Proof. unfold after_affected, around_o. cbn [o_pos o_rot o_off]. now rewrite mv_add, mq_exp, mq_mul. Qed.

  (** ** Collisions *)

  Lemma sphere_sphere_around (r1 : ER) (c1 m1 : Vec3 ER) (r2 : ER) (c2 m2 : Vec3 ER) : collide_sphere_with_sphere r1 (mv c1) (mv m1) r2 (mv c2) (mv m2) = mk (collide_sphere_with_sphere r1 c1 m1 r2 c2 m2).
  Proof.
    unfold collide_sphere_with_sphere. cbv zeta. rewrite !mv_sub, !mv_dot. destruct (rg_is_empty _); [reflexivity|]. cbn [option_map]. unfold around_collision. cbn [c_times c_pos c_normal].
    repeat first [rewrite mv_scale | rewrite mv_add | rewrite mv_sub | rewrite mv_normalize]. reflexivity.
  Qed.
  Lemma sphere_plane_around (r : ER) (c m p n m2 : Vec3 ER) : collide_sphere_with_plane r (mv c) (mv m) (mv p) (mv n) (mv m2) = mk (collide_sphere_with_plane r c m p n m2).
  Proof.
    unfold collide_sphere_with_plane, sphere_plane_overlap_time. cbv zeta. rewrite !mv_scale, !mv_add, !mv_dot. destruct (rg_is_empty _); [reflexivity|].
    cbn [option_map]. unfold around_collision. cbn [c_times c_pos c_normal]. repeat first [rewrite mv_neg | rewrite mv_scale | rewrite mv_add]. reflexivity.
  Qed.
  Lemma flip_around (k : option (collision ER)) : flip (mk k) = mk (flip k).
  Proof. destruct k as [k|]; [|reflexivity]. cbn [option_map flip]. unfold scale_normal, around_collision. cbn [c_times c_pos c_normal]. now rewrite mv_scale. Qed.
  Lemma scale_around (k : collision ER) (x : ER) : scale_normal (around_collision k) x = around_collision (scale_normal k x).
  Proof. unfold scale_normal, around_collision. cbn [c_times c_pos c_normal]. now rewrite mv_scale. Qed.

  (** ** The accumulator *)
  Definition macc2 (x : accum ER) : accum ER := (mk (fst x), snd x).
  Lemma consider_around x o : acc_consider (macc2 x) (mk o) = macc2 (acc_consider x o).
  Proof. destruct x as [x t], o as [c|]; [|reflexivity]. cbn [option_map acc_consider macc2 fst snd]. unfold c_time. cbn [around_collision c_times]. destruct (n_lt _ t); reflexivity. Qed.
  Lemma fold_consider_around {X Y} (g : X -> Y) (f : X -> option (collision ER)) (f' : Y -> option (collision ER)) l : (forall x, f' (g x) = mk (f x)) ->
    forall x, fold_left (fun x y => acc_consider x (f' y)) (map g l) (macc2 x) = macc2 (fold_left (fun x y => acc_consider x (f y)) l x).
  Proof. intros H. induction l as [|y l IH]; intros x; [reflexivity|]. cbn [map fold_left]. now rewrite H, consider_around, IH. Qed.

  (** ** A mesh and a plane *)
  Definition mminfo (i : mesh_info ER) : mesh_info ER := mkMI (mv (mi_start i)) (mv (mi_end i)) (mi_sd i) (mi_ed i).
  Lemma sums_around (pos : mesh_info ER -> Vec3 ER) (ok : mesh_info ER -> bool) l : (forall i, pos (mminfo i) = mv (pos i)) -> (forall i, ok (mminfo i) = ok i) ->
    forall x (c : ER), fold_left (fun x i => if ok i then (vadd (fst x) (pos i), n_add (snd x) n1) else x) (map mminfo l) (mv x, c) =
      (mv (fst (fold_left (fun x i => if ok i then (vadd (fst x) (pos i), n_add (snd x) n1) else x) l (x, c))), snd (fold_left (fun x i => if ok i then (vadd (fst x) (pos i), n_add (snd x) n1) else x) l (x, c))).
  Proof.
    intros P O. induction l as [|i l IH]; intros x c; [reflexivity|]. cbn [map fold_left]. rewrite O. destruct (ok i); [|apply IH]. cbn [fst snd]. rewrite P, mv_add. apply IH.
  Qed.
  Lemma mesh_plane_around vs p s e ps pe n :
    collide_mesh_with_plane (map mv vs) (mv p) (mo s) (mo e) (mv ps) (mv pe) (mv n) = mk (collide_mesh_with_plane vs p s e ps pe n).
  Proof.
    unfold collide_mesh_with_plane. cbv zeta.
    set (C := map (fun vertex => mkMI (position_into_world s (vadd p vertex)) (position_into_world e (vadd p vertex))
      (vdot (vsub (position_into_world s (vadd p vertex)) ps) n) (vdot (vsub (position_into_world e (vadd p vertex)) pe) n)) vs).
    assert (EC : map (fun vertex => mkMI (position_into_world (mo s) (vadd (mv p) vertex)) (position_into_world (mo e) (vadd (mv p) vertex))
      (vdot (vsub (position_into_world (mo s) (vadd (mv p) vertex)) (mv ps)) (mv n)) (vdot (vsub (position_into_world (mo e) (vadd (mv p) vertex)) (mv pe)) (mv n))) (map mv vs) = map mminfo C).
    { unfold C. rewrite !map_map. apply map_ext. intros v. unfold mminfo. cbn [mi_start mi_end mi_sd mi_ed]. now rewrite !mv_add, !mv_world, !mv_sub, !mv_dot. }
    rewrite EC. clear EC. clearbody C.
    rewrite (fold_map_ext mminfo _ (fun r i => rg_contain r (rg_single (mi_sd i)))) by (intros; reflexivity).
    rewrite (fold_map_ext mminfo _ (fun r i => rg_contain r (rg_single (mi_ed i)))) by (intros; reflexivity).
    set (D1 := fold_left _ C rg_empty). set (D2 := fold_left _ C rg_empty).
    match goal with |- context [rg_intersect ?r rg_unit] => set (I := r) end. destruct (rg_is_empty (rg_intersect I rg_unit)) eqn:EI; [reflexivity|].
    pose proof mv_zero as Z.
    assert (SM : forall (pos : mesh_info ER -> Vec3 ER) (ok : mesh_info ER -> bool), (forall i, pos (mminfo i) = mv (pos i)) -> (forall i, ok (mminfo i) = ok i) ->
      fold_left (fun x i => if ok i then (vadd (fst x) (pos i), n_add (snd x) n1) else x) (map mminfo C) (@vzero ER EReal, @n0 ER EReal) =
      (mv (fst (fold_left (fun x i => if ok i then (vadd (fst x) (pos i), n_add (snd x) n1) else x) C (@vzero ER EReal, @n0 ER EReal))), snd (fold_left (fun x i => if ok i then (vadd (fst x) (pos i), n_add (snd x) n1) else x) C (@vzero ER EReal, @n0 ER EReal)))).
    { intros pos ok P O. rewrite <- (sums_around pos ok C P O), Z. reflexivity. }
    rewrite (SM mi_start (fun i => n_lt (n_abs (n_sub (mi_sd i) (rg_min D1))) (n_mul (rg_size D1) (n_frac 1 100))) (fun _ => eq_refl) (fun _ => eq_refl)).
    rewrite (SM mi_end (fun i => n_lt (n_abs (n_sub (mi_ed i) (rg_min D2))) (n_mul (rg_size D2) (n_frac 1 100))) (fun _ => eq_refl) (fun _ => eq_refl)).
    repeat match goal with |- context [fold_left ?f C (vzero, n0)] => destruct (fold_left f C (vzero, n0)) end. cbn [fst snd option_map]. unfold around_collision. cbn [c_times c_pos c_normal].
    repeat first [rewrite mv_divs | rewrite mv_scale | rewrite mv_add | rewrite mv_neg]. reflexivity.
  Qed.

  Lemma verts_around (m : mesh_c ER) o m' : me_pos m' = mv (me_pos m) -> me_verts m' = map mv (me_verts m) -> vertices_in_world m' (mo o) = map mv (vertices_in_world m o).
  Proof. intros P V. unfold vertices_in_world. rewrite P, V, !map_map. apply map_ext. intros v. now rewrite mv_add, mv_world. Qed.

  (** ** Meshes *)
    Ltac mirs := repeat first [rewrite mv_scale | rewrite mv_add | rewrite mv_sub | rewrite mv_cross | rewrite mv_normalize | rewrite mv_divs | rewrite mv_neg | rewrite mv_dot | rewrite mv_mag].
    Definition mpair2 (p : Vec3 ER * Vec3 ER) : Vec3 ER * Vec3 ER := (mv (fst p), mv (snd p)).
    Lemma overlap_around (r : ER) (c m p n m2 : Vec3 ER) b : sphere_plane_overlap_time r (mv c) (mv m) (mv p) (mv n) (mv m2) b = sphere_plane_overlap_time r c m p n m2 b.
    Proof. unfold sphere_plane_overlap_time. cbv zeta. mirs. reflexivity. Qed.
    Lemma sphere_line_around (r : ER) (c m s dir m2 : Vec3 ER) : collide_sphere_with_line r (mv c) (mv m) (mv s) (mv dir) (mv m2) = mk (collide_sphere_with_line r c m s dir m2).
    Proof. unfold collide_sphere_with_line. cbv zeta. mirs. destruct (rg_is_empty _); [reflexivity|]. cbn [option_map]. unfold around_collision. cbn [c_times c_pos c_normal]. mirs. reflexivity. Qed.
    Lemma sphere_segment_around (r : ER) (c m s e m2 : Vec3 ER) :
      collide_sphere_with_mid_line_segment r (mv c) (mv m) (mv s) (mv e) (mv m2) = mk (collide_sphere_with_mid_line_segment r c m s e m2).
    Proof.
      unfold collide_sphere_with_mid_line_segment. cbv zeta. rewrite mv_sub, sphere_line_around. destruct (collide_sphere_with_line _ _ _ _ _ _) as [hit|]; [|reflexivity].
      cbn [option_map around_collision c_times c_pos]. mirs. destruct (n_lt _ _); reflexivity.
    Qed.
    Lemma sides_around hit n tpm l : forall x, polygon_sides_ok (mv hit) (mv n) (mv tpm) x (map mpair2 l) = polygon_sides_ok hit n tpm x l.
    Proof. induction l as [|[f s] l IH]; intros x; [reflexivity|]. cbn [map mpair2 polygon_sides_ok fst snd]. cbv zeta. mirs. rewrite !IH. reflexivity. Qed.
    Lemma sphere_polygon_around (r : ER) (c m : Vec3 ER) ks (m2 : Vec3 ER) :
      collide_sphere_with_polygon_surface r (mv c) (mv m) (map mv ks) (mv m2) = returned mk (collide_sphere_with_polygon_surface r c m ks m2).
    Proof.
      unfold collide_sphere_with_polygon_surface. destruct ks as [|k0 [|k1 [|k2 ks]]]; try reflexivity. cbn [map]. cbv zeta. mirs. rewrite overlap_around.
      change (mv k0 :: mv k1 :: mv k2 :: map mv ks) with (map mv (k0 :: k1 :: k2 :: ks)). rewrite loop_pairs_map. destruct (rg_is_empty _); [reflexivity|].
      change (fun p : Vec3 ER * Vec3 ER => (mv (fst p), mv (snd p))) with mpair2.
      mirs. rewrite sides_around. destruct (polygon_sides_ok _ _ _ _ _); reflexivity.
    Qed.
    Lemma sphere_mesh_around (r : ER) (c m : Vec3 ER) vs es fs (m2 : Vec3 ER) :
      collide_sphere_with_mesh r (mv c) (mv m) (map mv vs) es fs (mv m2) = returned mk (collide_sphere_with_mesh r c m vs es fs m2).
    Proof.
      unfold collide_sphere_with_mesh. cbv zeta. change (@acc_new ER EReal) with (macc2 acc_new) at 1.
      rewrite (fold_consider_around mv (fun v => collide_sphere_with_sphere r c m n0 v m2)) by (intros v; apply sphere_sphere_around).
      set (x := fold_left _ vs acc_new). clearbody x.
      rewrite (rfold_returned macc2 (fun acc e => rbind (unwrap (nth_error vs (fst e))) (fun v1 => rbind (unwrap (nth_error vs (snd e))) (fun v2 =>
        Ok (acc_consider acc (collide_sphere_with_mid_line_segment r c m v1 v2 m2)))))).
      2:{ intros s e _. rewrite !nth_error_map, !unwrap_returned, !rbind_returned, returned_rbind. apply rbind_ext. intros v1 _. rewrite rbind_returned, returned_rbind. apply rbind_ext. intros v2 _.
          now rewrite sphere_segment_around, consider_around. }
      rewrite rbind_returned, returned_rbind. apply rbind_ext. intros a1 _.
      rewrite (rfold_returned macc2 (fun acc face => rbind (rmap (fun i => unwrap (nth_error vs i)) face) (fun corners =>
        rbind (collide_sphere_with_polygon_surface r c m corners m2) (fun c => Ok (acc_consider acc c))))).
      2:{ intros s f _. rewrite (rmap_ext _ (fun i => returned mv (unwrap (nth_error vs i)))) by (intros i; now rewrite nth_error_map, unwrap_returned).
          rewrite rmap_returned, rbind_returned, returned_rbind. apply rbind_ext. intros ks _. rewrite sphere_polygon_around, rbind_returned, returned_rbind. apply rbind_ext. intros o _.
          now rewrite consider_around. }
      rewrite rbind_returned, returned_rbind. apply rbind_ext. intros a2 _. reflexivity.
    Qed.
    Lemma nth_around i l : nth i (map mv l) vzero = mv (nth i l vzero).
    Proof. rewrite <- mv_zero at 1. apply map_nth. Qed.
    Lemma polygon_normal_around l is : polygon_normal_from (map mv l) is = returned mv (polygon_normal_from l is).
    Proof.
      induction is as [|i is IH]; [reflexivity|]. cbn [polygon_normal_from]. cbv zeta. rewrite map_length, !nth_around. mirs. rewrite IH. destruct (_ && _); reflexivity.
    Qed.
    Lemma get_normal_around l : get_polygon_normal (map mv l) = returned mv (get_polygon_normal l).
    Proof. unfold get_polygon_normal. rewrite map_length. apply polygon_normal_around. Qed.
    Lemma on_plane_around p n q : point_is_on_plane (mv p) (mv n) (mv q) = point_is_on_plane p n q.
    Proof. unfold point_is_on_plane. mirs. reflexivity. Qed.
    Lemma inside_around p n l : forall x, point_inside (mv p) (mv n) x (map mpair2 l) = point_inside p n x l.
    Proof. induction l as [|[b c] l IH]; intros x; [reflexivity|]. cbn [map mpair2 point_inside fst snd]. cbv zeta. mirs. rewrite !IH. reflexivity. Qed.
    Definition mclosest (b : ER * Vec3 ER) : ER * Vec3 ER := (fst b, mv (snd b)).
    Lemma closest_around ps pe n l : forall b, closest_side (mv ps) (mv pe) (mv n) (mclosest b) (map mpair2 l) = mclosest (closest_side ps pe n b l).
    Proof.
      induction l as [|[p q] l IH]; intros b; [reflexivity|]. cbn [map mpair2 closest_side fst snd]. cbv zeta. rewrite <- IH. mirs. f_equal.
      destruct (_ || _); [reflexivity|]. destruct (_ || _); [reflexivity|]. cbn [mclosest fst]. destruct (n_lt _ _); reflexivity.
    Qed.
    Lemma point_polygon_around ps pe l : collide_point_with_polygon (mv ps) (mv pe) (map mv l) = returned mk (collide_point_with_polygon ps pe l).
    Proof.
      unfold collide_point_with_polygon. cbv zeta. rewrite get_normal_around, rbind_returned, returned_rbind. apply rbind_ext. intros n _.
      rewrite nth_around, !on_plane_around, loop_pairs_map. change (fun p : Vec3 ER * Vec3 ER => (mv (fst p), mv (snd p))) with mpair2.
      destruct (point_is_on_plane _ _ _ && point_is_on_plane _ _ _).
      - assert (Z : (@n2 ER EReal, @vzero ER EReal) = mclosest (n2, vzero)) by (unfold mclosest; cbn [fst snd]; now rewrite mv_zero). rewrite Z at 1. rewrite closest_around.
        destruct (closest_side ps pe n _ _) as [t p]. cbn [mclosest fst snd]. destruct (n_le t n1); reflexivity.
      - mirs. destruct (_ || _); [reflexivity|].
        match goal with |- context [point_inside (mv ?p) ?b n0 _] => assert (B : forall x y z w : bool, (if x then mv (vscale n nm1) else if y then (if z then mv (vscale n nm1) else mv n) else mv n) = mv (if x then vscale n nm1 else if y then (if z then vscale n nm1 else n) else n)) by (intros [] [] [] []; reflexivity); rewrite (B _ _ _ true) end.
        rewrite inside_around. destruct (point_inside _ _ _ _); reflexivity.
    Qed.
    Lemma corners_faces_around p1 fs p2 : corners_faces (map mpair2 p1) fs (map mpair2 p2) = returned mk (corners_faces p1 fs p2).
    Proof.
      unfold corners_faces.
      assert (R : forall a0, rfold (fun acc pt => rfold (fun acc face =>
          rbind (rmap (fun i => rbind (unwrap (nth_error (map mpair2 p2) i)) (fun pe => Ok (vdivs (vadd (fst pe) (snd pe)) n2))) face) (fun face_points =>
          rbind (collide_point_with_polygon (fst pt) (snd pt) face_points) (fun c => Ok (acc_consider acc c)))) fs acc) (map mpair2 p1) (macc2 a0) =
        returned macc2 (rfold (fun acc pt => rfold (fun acc face =>
          rbind (rmap (fun i => rbind (unwrap (nth_error p2 i)) (fun pe => Ok (vdivs (vadd (fst pe) (snd pe)) n2))) face) (fun face_points =>
          rbind (collide_point_with_polygon (fst pt) (snd pt) face_points) (fun c => Ok (acc_consider acc c)))) fs acc) p1 a0)).
      { induction p1 as [|[ps pe] p1 IH]; intros a0; [reflexivity|]. cbn [map rfold]. rewrite returned_rbind. erewrite rfold_returned; [rewrite rbind_returned; apply rbind_ext; intros a1 _; apply IH|].
        intros x f _. cbn [mpair2 fst snd]. rewrite (rmap_ext _ (fun i => returned mv (rbind (unwrap (nth_error p2 i)) (fun pe => Ok (vdivs (vadd (fst pe) (snd pe)) n2))))).
        2:{ intros i. rewrite nth_error_map, unwrap_returned, rbind_returned, returned_rbind. apply rbind_ext. intros pq _. cbn [mpair2 fst snd returned]. now rewrite mv_add, mv_divs. }
        rewrite rmap_returned, rbind_returned, returned_rbind. apply rbind_ext. intros ks _. rewrite point_polygon_around, rbind_returned, returned_rbind. apply rbind_ext. intros o _.
        now rewrite consider_around. }
      change (@acc_new ER EReal) with (macc2 acc_new) at 1. rewrite R, rbind_returned, returned_rbind. apply rbind_ext. intros [[k|] t] _; [|reflexivity].
      cbn [macc2 fst option_map]. cbv zeta. change (c_time (around_collision k)) with (c_time k). cbn [around_collision c_pos c_normal].
      rewrite (fold_map_ext mpair2 _ (fun nk pt => if n_lt (vdot (vsub (vadd (vscale (fst pt) (n_sub n1 (c_time k))) (vscale (snd pt) (c_time k))) (c_pos k)) (c_normal k)) n0 then (S (fst nk), snd nk) else (fst nk, S (snd nk)))).
      2:{ intros c pt. cbn [mpair2 fst snd]. mirs. reflexivity. }
      destruct (fold_left _ p1 _) as [ng kp]. destruct (Nat.ltb kp ng); [|reflexivity]. cbn [returned option_map]. rewrite <- scale_around. reflexivity.
    Qed.
    Lemma pairs_around (m m' : mesh_c ER) s e : me_pos m' = mv (me_pos m) -> me_verts m' = map mv (me_verts m) -> mesh_point_pairs m' (mo s) (mo e) = map mpair2 (mesh_point_pairs m s e).
    Proof. intros P V. unfold mesh_point_pairs. rewrite P, V, !map_map. apply map_ext. intros v. unfold mpair2. cbn [fst snd]. now rewrite mv_add, !mv_world. Qed.
    Lemma turn_around o : option_map turn (mk o) = mk (option_map turn o).
    Proof. destruct o as [k|]; [|reflexivity]. cbn [option_map]. unfold turn, around_collision. cbn [c_times c_pos c_normal]. now rewrite mv_neg. Qed.
    Lemma mesh_mesh_around (m1 m1' : mesh_c ER) s1 e1 (m2 m2' : mesh_c ER) s2 e2 : me_pos m1' = mv (me_pos m1) -> me_verts m1' = map mv (me_verts m1) -> me_faces m1' = me_faces m1 ->
      me_pos m2' = mv (me_pos m2) -> me_verts m2' = map mv (me_verts m2) -> me_faces m2' = me_faces m2 ->
      collide_mesh_with_mesh m1' (mo s1) (mo e1) m2' (mo s2) (mo e2) = returned mk (collide_mesh_with_mesh m1 s1 e1 m2 s2 e2).
    Proof.
      intros A1 A2 A3 B1 B2 B3. rewrite !mesh_mesh_split, (pairs_around m1 m1'), (pairs_around m2 m2'), A3, B3, corners_faces_around, rbind_returned, returned_rbind by assumption. apply rbind_ext. intros x _.
      rewrite corners_faces_around, rbind_returned, returned_rbind. apply rbind_ext. intros b _. cbn [returned]. change (@acc_new ER EReal) with (macc2 acc_new) at 1.
      now rewrite turn_around, !consider_around.
    Qed.

  Lemma collide_around c1 s1 e1 c2 s2 e2 : no_box c1 -> no_box c2 ->
    collide (around_collider c1) (mo s1) (mo e1) (around_collider c2) (mo s2) (mo e2) = returned mk (collide c1 s1 e1 c2 s2 e2).
  Proof.
    intros R1 R2. destruct c1 as [c|c|c|c|c]; try contradiction; destruct c2 as [k|k|k|k|k]; try contradiction; try reflexivity;
      cbn [around_collider collide sp_radius sp_center pl_pos pl_normal me_pos me_verts me_edges me_faces returned] in *; unfold world_move; rewrite ?mv_world, ?mv_sub.
    - now rewrite sphere_sphere_around.
    - now rewrite sphere_plane_around.
    - rewrite (verts_around k) by reflexivity. now apply sphere_mesh_around.
    - now rewrite sphere_plane_around, flip_around.
    - now rewrite mesh_plane_around, flip_around.
    - rewrite (verts_around c), sphere_mesh_around, rbind_returned, returned_rbind by (reflexivity || assumption). apply rbind_ext. intros o _. now rewrite flip_around.
    - now rewrite mesh_plane_around.
    - apply mesh_mesh_around; reflexivity.
  Qed.
End Around.
