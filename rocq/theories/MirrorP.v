(** * MirrorP: vectors, rotations, tensors and collisions in a mirror (C90) *)
From Coq Require Import ZArith Reals List Bool Arith Lra Lia.
Import ListNotations.
From Verif Require Import Num Vec Res Arena RangeM Orient Colliders Collide EntityM SystemM Spec ResP RealSpec RealV MoveSpec MoveP Move2P CollideP MirrorSpec.
Local Open Scope R_scope.

(** ** Signs, for all values including the infinities and NaN *)
Lemma inf_times_neg a : er_inf_times (- a) = er_neg (er_inf_times a).
Proof. unfold er_inf_times. destruct (Req_EM_T (- a) 0), (Req_EM_T a 0); try (exfalso; lra); [reflexivity|]. destruct (Rlt_dec 0 (- a)), (Rlt_dec 0 a); try (exfalso; lra); reflexivity. Qed.
Lemma sg_neg (x : ER) : n_neg (n_neg x) = x.
Proof. destruct x as [x| | |]; try reflexivity. cbn. f_equal. ring. Qed.
Lemma er_neg2 (x : ER) : er_neg (er_neg x) = x.
Proof. exact (sg_neg x). Qed.
Lemma sg_0 : n_neg (n0 : ER) = n0.
Proof. rewrite fin_0. cbn. f_equal. ring. Qed.
Lemma sg_add (x y : ER) : n_add (n_neg x) (n_neg y) = n_neg (n_add x y).
Proof. destruct x as [x| | |], y as [y| | |]; try reflexivity. cbn. f_equal. ring. Qed.
Lemma sg_sub (x y : ER) : n_sub (n_neg x) (n_neg y) = n_neg (n_sub x y).
Proof. destruct x as [x| | |], y as [y| | |]; try reflexivity. cbn. f_equal. ring. Qed.
Lemma sg_mul_l (x y : ER) : n_mul (n_neg x) y = n_neg (n_mul x y).
Proof. destruct x as [x| | |], y as [y| | |]; cbn; try reflexivity; rewrite ?inf_times_neg, ?er_neg2; try reflexivity. f_equal. ring. Qed.
Lemma sg_mul_r (x y : ER) : n_mul x (n_neg y) = n_neg (n_mul x y).
Proof. destruct x as [x| | |], y as [y| | |]; cbn; try reflexivity; rewrite ?inf_times_neg, ?er_neg2; try reflexivity. f_equal. ring. Qed.
Lemma sg_div (x y : ER) : n_div (n_neg x) y = n_neg (n_div x y).
Proof.
  destruct x as [x| | |], y as [y| | |]; cbn; try reflexivity; try (f_equal; ring).
  - destruct (Req_EM_T y 0); [apply inf_times_neg|]. cbn. f_equal. field. assumption.
  - destruct (Rlt_dec y 0); reflexivity.
  - destruct (Rlt_dec y 0); reflexivity.
Qed.
Lemma sg_inv (x y : ER) : n_neg x = n_neg y -> x = y.
Proof. intros H. rewrite <- (sg_neg x), H. apply sg_neg. Qed.

Ltac signs := repeat first [rewrite sg_neg | rewrite sg_mul_l | rewrite sg_mul_r | rewrite sg_add | rewrite sg_sub | rewrite sg_div | rewrite sg_0].
Ltac munf := unfold mirror_o, mirror_q, mirror_m, mirror_w, mirror_v; cbv zeta; cbn [vx vy vz qi qj qk qw m11 m12 m13 m21 m22 m23 m31 m32 m33 ax1 ax2 ax3 xorb turned o_pos o_rot o_off].
(** All eight choices of axes. *)
Ltac each a := destruct a as [[] [] []]; munf; signs; try reflexivity.

Section Mirror.
  Variable a : axes.
  Notation mv := (mirror_v a).
  Notation mw := (mirror_w a).
  Notation mq := (mirror_q a).
  Notation mm := (mirror_m a).
  Notation mo := (mirror_o a).
  Implicit Types (x y v w : Vec3 ER) (q r : Quat ER) (m : Mat3 ER) (k : ER).

  Lemma mv_zero : mv vzero = vzero. Proof. unfold vzero. each a. Qed.
  Lemma mw_zero : mw vzero = vzero. Proof. unfold vzero. each a. Qed.
  Lemma mm_zero : mm mzero = mzero. Proof. unfold mzero. each a. Qed.
  Lemma mv_add x y : vadd (mv x) (mv y) = mv (vadd x y). Proof. unfold vadd. each a. Qed.
  Lemma mv_sub x y : vsub (mv x) (mv y) = mv (vsub x y). Proof. unfold vsub. each a. Qed.
  Lemma mv_neg x : vneg (mv x) = mv (vneg x). Proof. unfold vneg. each a. Qed.
  Lemma mv_scale x k : vscale (mv x) k = mv (vscale x k). Proof. unfold vscale. each a. Qed.
  Lemma mv_divs x k : vdivs (mv x) k = mv (vdivs x k). Proof. unfold vdivs. each a. Qed.
  Lemma mv_dot x y : vdot (mv x) (mv y) = vdot x y. Proof. unfold vdot. each a. Qed.
  Lemma mw_add x y : vadd (mw x) (mw y) = mw (vadd x y). Proof. unfold vadd. each a. Qed.
  Lemma mw_sub x y : vsub (mw x) (mw y) = mw (vsub x y). Proof. unfold vsub. each a. Qed.
  Lemma mw_neg x : vneg (mw x) = mw (vneg x). Proof. unfold vneg. each a. Qed.
  Lemma mw_scale x k : vscale (mw x) k = mw (vscale x k). Proof. unfold vscale. each a. Qed.
  Lemma mw_divs x k : vdivs (mw x) k = mw (vdivs x k). Proof. unfold vdivs. each a. Qed.
  Lemma mw_dot x y : vdot (mw x) (mw y) = vdot x y. Proof. unfold vdot. each a. Qed.
  Lemma mv_cross x y : vcross (mv x) (mv y) = mw (vcross x y). Proof. unfold vcross. each a. Qed.
  Lemma wv_cross x y : vcross (mw x) (mv y) = mv (vcross x y). Proof. unfold vcross. each a. Qed.
  Lemma mv_mag x : vmag (mv x) = vmag x. Proof. unfold vmag, vnorm2. now rewrite mv_dot. Qed.
  Lemma mw_mag x : vmag (mw x) = vmag x. Proof. unfold vmag, vnorm2. now rewrite mw_dot. Qed.
  Lemma mv_normalize x : vnormalize (mv x) = mv (vnormalize x). Proof. unfold vnormalize. now rewrite mv_mag, mv_divs. Qed.

  Lemma mq_ident : mq qident = qident. Proof. unfold qident. each a. Qed.
  Lemma mq_vec q : qvec (mq q) = mw (qvec q). Proof. reflexivity. Qed.
  Lemma mq_mul q r : qmul (mq q) (mq r) = mq (qmul q r). Proof. unfold qmul. each a. Qed.
  Lemma mq_mul_ident q : qmul (mq q) qident = mq (qmul q qident). Proof. rewrite <- mq_mul, mq_ident. reflexivity. Qed.
  Lemma mq_inv q : qinv (mq q) = mq (qinv q). Proof. unfold qinv. each a. Qed.
  Lemma mq_rot q x : qrot (mq q) (mv x) = mv (qrot q x).
  Proof. unfold qrot. cbv zeta. rewrite mq_vec, !wv_cross, mv_scale, wv_cross, mv_scale. change (qw (mq q)) with (qw q). now rewrite ?mv_scale, !mv_add. Qed.
  Lemma mq_exp w : qfrom_scaled_axis (mw w) = mq (qfrom_scaled_axis w).
  Proof.
    unfold qfrom_scaled_axis. cbv zeta. rewrite mw_divs. unfold vnorm2. rewrite mw_dot. destruct (n_le _ _); [now rewrite mq_ident|]. rewrite mw_scale. reflexivity.
  Qed.
  Lemma mq_log q : qscaled_axis (mq q) = mw (qscaled_axis q).
  Proof.
    unfold qscaled_axis. cbv zeta. change (qw (mq q)) with (qw q). rewrite mq_vec, mw_neg, mw_mag.
    assert (E : (if n_le n0 (qw q) then mw (qvec q) else mw (vneg (qvec q))) = mw (if n_le n0 (qw q) then qvec q else vneg (qvec q))) by now destruct (n_le _ _).
    rewrite E. unfold vnorm2. rewrite mw_dot. destruct (n_lt _ _); [now rewrite mw_divs, mw_scale|now rewrite mw_zero].
  Qed.
  Lemma mm_mulv m w : mulmv (mm m) (mw w) = mw (mulmv m w). Proof. unfold mulmv. each a. Qed.
  Lemma mm_mul m n : mulmm (mm m) (mm n) = mm (mulmm m n).
  Proof. unfold mulmm, mofcols, mulmv, mcol1, mcol2, mcol3. each a. Qed.
  Lemma mm_trans m : mtrans (mm m) = mm (mtrans m). Proof. unfold mtrans. each a. Qed.
  Lemma mm_add m n : madd (mm m) (mm n) = mm (madd m n). Proof. unfold madd. each a. Qed.
  Lemma mm_sub m n : msub (mm m) (mm n) = mm (msub m n). Proof. unfold msub. each a. Qed.
  Lemma mm_scale m k : mscale (mm m) k = mm (mscale m k). Proof. unfold mscale. each a. Qed.
  Lemma mm_diag x : mm (mdiag x) = mdiag x. Proof. unfold mdiag. each a. Qed.
  Lemma mm_outer x y : vouter (mv x) (mv y) = mm (vouter x y). Proof. unfold vouter. each a. Qed.
  Lemma mm_matrix q : qto_matrix (mq q) = mm (qto_matrix q). Proof. unfold qto_matrix. each a. Qed.
  Lemma mm_inverse m : mtry_inverse (mm m) = option_map mm (mtry_inverse m).
  Proof.
    unfold mtry_inverse. cbv zeta.
    match goal with |- (if n_eq ?d n0 then _ else _) = option_map _ (if n_eq ?d' n0 then _ else _) => assert (D : d = d') by (each a) end.
    rewrite D. match goal with |- context [n_eq ?d n0] => generalize d; intros det end. destruct (n_eq det n0); [reflexivity|]. cbn [option_map]. f_equal. clear D. each a.
  Qed.
  Lemma translate_mirror m k x : translate_moment (mm m) k (mv x) = mm (translate_moment m k x).
  Proof. unfold translate_moment, mdiag1. rewrite mv_dot, mm_outer, <- mm_add, <- mm_scale, <- mm_sub, mm_diag. reflexivity. Qed.
  Lemma rotate_mirror m q : rotate_moment (mm m) (mq q) = mm (rotate_moment m q).
  Proof. unfold rotate_moment. cbv zeta. now rewrite mm_matrix, mm_trans, !mm_mul. Qed.

  (** ** Orientations *)
  Lemma prep_mirror (o : orientation ER) c k m : prep_moment (mo o) (mv c) k (mm m) = mm (prep_moment o c k m).
  Proof. unfold prep_moment. cbn [mirror_o o_off]. now rewrite mv_add, translate_mirror. Qed.
  Lemma finalize_mirror (o : orientation ER) m : finalize_moment (mo o) (mm m) = mm (finalize_moment o m).
  Proof. unfold finalize_moment. cbn [mirror_o o_rot]. apply rotate_mirror. Qed.
  Lemma mv_world (o : orientation ER) x : position_into_world (mo o) (mv x) = mv (position_into_world o x).
  Proof.
    unfold position_into_world, into_world, into_local, iso_inverse, iso_point, iso_append_translation, iso_append_rotation. cbn [i_tr i_rot mirror_o o_pos o_rot o_off].
    repeat first [rewrite mq_mul_ident | rewrite mq_inv | rewrite mq_mul | rewrite mv_neg | rewrite mq_rot | rewrite mv_add]. reflexivity.
  Qed.
  Lemma mv_dir_world (o : orientation ER) x : direction_into_world (mo o) (mv x) = mv (direction_into_world o x).
  Proof.
    unfold direction_into_world, into_world, into_local, iso_inverse, iso_vector, iso_append_translation, iso_append_rotation. cbn [i_tr i_rot mirror_o o_pos o_rot o_off].
    repeat first [rewrite mq_mul_ident | rewrite mq_inv | rewrite mq_mul | rewrite mq_rot]. reflexivity.
  Qed.
  Lemma mv_dir_local (o : orientation ER) x : direction_into_local (mo o) (mv x) = mv (direction_into_local o x).
  Proof.
    unfold direction_into_local, into_local, iso_vector, iso_append_translation, iso_append_rotation. cbn [i_tr i_rot mirror_o o_pos o_rot o_off].
    repeat first [rewrite mq_mul_ident | rewrite mq_inv | rewrite mq_mul | rewrite mq_rot]. reflexivity.
  Qed.
  Lemma mo_after (o : orientation ER) l w : after_affected (mo o) (mv l) (mw w) = mo (after_affected o l w).
  Proof. unfold after_affected, mirror_o. cbn [o_pos o_rot o_off]. now rewrite mv_add, mq_exp, mq_mul. Qed.

  (** ** Collisions *)

  Notation mk := (option_map (mirror_collision a)).
  Lemma sphere_sphere_mirror (r1 : ER) (c1 m1 : Vec3 ER) (r2 : ER) (c2 m2 : Vec3 ER) : collide_sphere_with_sphere r1 (mv c1) (mv m1) r2 (mv c2) (mv m2) = mk (collide_sphere_with_sphere r1 c1 m1 r2 c2 m2).
  Proof.
    unfold collide_sphere_with_sphere. cbv zeta. rewrite !mv_sub, !mv_dot. destruct (rg_is_empty _); [reflexivity|]. cbn [option_map]. unfold mirror_collision. cbn [c_times c_pos c_normal].
    repeat first [rewrite mv_scale | rewrite mv_add | rewrite mv_sub | rewrite mv_normalize]. reflexivity.
  Qed.
  Lemma sphere_plane_mirror (r : ER) (c m p n m2 : Vec3 ER) : collide_sphere_with_plane r (mv c) (mv m) (mv p) (mv n) (mv m2) = mk (collide_sphere_with_plane r c m p n m2).
  Proof.
    unfold collide_sphere_with_plane, sphere_plane_overlap_time. cbv zeta. rewrite !mv_scale, !mv_add, !mv_dot. destruct (rg_is_empty _); [reflexivity|].
    cbn [option_map]. unfold mirror_collision. cbn [c_times c_pos c_normal]. repeat first [rewrite mv_neg | rewrite mv_scale | rewrite mv_add]. reflexivity.
  Qed.
  Lemma flip_mirror (k : option (collision ER)) : flip (mk k) = mk (flip k).
  Proof. destruct k as [k|]; [|reflexivity]. cbn [option_map flip]. unfold scale_normal, mirror_collision. cbn [c_times c_pos c_normal]. now rewrite mv_scale. Qed.
  Lemma scale_mirror (k : collision ER) (x : ER) : scale_normal (mirror_collision a k) x = mirror_collision a (scale_normal k x).
  Proof. unfold scale_normal, mirror_collision. cbn [c_times c_pos c_normal]. now rewrite mv_scale. Qed.

End Mirror.

Section Mirror2.
  Variable a : axes.
  Notation mv := (mirror_v a).
  Notation mw := (mirror_w a).
  Notation mo := (mirror_o a).
  Notation mk := (option_map (mirror_collision a)).
  (** ** The accumulator *)
  Definition macc2 (x : accum ER) : accum ER := (mk (fst x), snd x).
  Lemma consider_mirror x o : acc_consider (macc2 x) (mk o) = macc2 (acc_consider x o).
  Proof. destruct x as [x t], o as [c|]; [|reflexivity]. cbn [option_map acc_consider macc2 fst snd]. unfold c_time. cbn [mirror_collision c_times]. destruct (n_lt _ t); reflexivity. Qed.
  Lemma fold_consider_mirror {X Y} (g : X -> Y) (f : X -> option (collision ER)) (f' : Y -> option (collision ER)) l : (forall x, f' (g x) = mk (f x)) ->
    forall x, fold_left (fun x y => acc_consider x (f' y)) (map g l) (macc2 x) = macc2 (fold_left (fun x y => acc_consider x (f y)) l x).
  Proof. intros H. induction l as [|y l IH]; intros x; [reflexivity|]. cbn [map fold_left]. now rewrite H, consider_mirror, IH. Qed.

  (** ** A mesh and a plane *)
  Definition mminfo (i : mesh_info ER) : mesh_info ER := mkMI (mv (mi_start i)) (mv (mi_end i)) (mi_sd i) (mi_ed i).
  Lemma sums_mirror (pos : mesh_info ER -> Vec3 ER) (ok : mesh_info ER -> bool) l : (forall i, pos (mminfo i) = mv (pos i)) -> (forall i, ok (mminfo i) = ok i) ->
    forall x (c : ER), fold_left (fun x i => if ok i then (vadd (fst x) (pos i), n_add (snd x) n1) else x) (map mminfo l) (mv x, c) =
      (mv (fst (fold_left (fun x i => if ok i then (vadd (fst x) (pos i), n_add (snd x) n1) else x) l (x, c))), snd (fold_left (fun x i => if ok i then (vadd (fst x) (pos i), n_add (snd x) n1) else x) l (x, c))).
  Proof.
    intros P O. induction l as [|i l IH]; intros x c; [reflexivity|]. cbn [map fold_left]. rewrite O. destruct (ok i); [|apply IH]. cbn [fst snd]. rewrite P, mv_add. apply IH.
  Qed.
  Lemma mesh_plane_mirror vs p s e ps pe n :
    collide_mesh_with_plane (map mv vs) (mv p) (mo s) (mo e) (mv ps) (mv pe) (mv n) = mk (collide_mesh_with_plane vs p s e ps pe n).
  Proof.
    unfold collide_mesh_with_plane. cbv zeta.
    set (C := map (fun vertex => mkMI (position_into_world s (vadd p vertex)) (position_into_world e (vadd p vertex))
      (vdot (vsub (position_into_world s (vadd p vertex)) ps) n) (vdot (vsub (position_into_world e (vadd p vertex)) pe) n)) vs).
    assert (EC : map (fun vertex => mkMI (position_into_world (mo s) (vadd (mv p) vertex)) (position_into_world (mo e) (vadd (mv p) vertex))
      (vdot (vsub (position_into_world (mo s) (vadd (mv p) vertex)) (mv ps)) (mv n)) (vdot (vsub (position_into_world (mo e) (vadd (mv p) vertex)) (mv pe)) (mv n))) (map mv vs) = map mminfo C).
    { unfold C. rewrite !map_map. apply map_ext. intros v. unfold mminfo. cbn [mi_start mi_end mi_sd mi_ed]. now rewrite !mv_add, !mv_world, !mv_sub, !mv_dot. }
    rewrite EC. clear EC. clearbody C.
    rewrite (fold_map_ext mminfo _ (fun r i => rg_contain r (rg_single (mi_sd i)))) by (intros; reflexivity).
    rewrite (fold_map_ext mminfo _ (fun r i => rg_contain r (rg_single (mi_ed i)))) by (intros; reflexivity).
    set (D1 := fold_left _ C rg_empty). set (D2 := fold_left _ C rg_empty).
    match goal with |- context [rg_intersect ?r rg_unit] => set (I := r) end. destruct (rg_is_empty (rg_intersect I rg_unit)) eqn:EI; [reflexivity|].
    pose proof (mv_zero a) as Z.
    assert (SM : forall (pos : mesh_info ER -> Vec3 ER) (ok : mesh_info ER -> bool), (forall i, pos (mminfo i) = mv (pos i)) -> (forall i, ok (mminfo i) = ok i) ->
      fold_left (fun x i => if ok i then (vadd (fst x) (pos i), n_add (snd x) n1) else x) (map mminfo C) (@vzero ER EReal, @n0 ER EReal) =
      (mv (fst (fold_left (fun x i => if ok i then (vadd (fst x) (pos i), n_add (snd x) n1) else x) C (@vzero ER EReal, @n0 ER EReal))), snd (fold_left (fun x i => if ok i then (vadd (fst x) (pos i), n_add (snd x) n1) else x) C (@vzero ER EReal, @n0 ER EReal)))).
    { intros pos ok P O. rewrite <- (sums_mirror pos ok C P O), Z. reflexivity. }
    rewrite (SM mi_start (fun i => n_lt (n_abs (n_sub (mi_sd i) (rg_min D1))) (n_mul (rg_size D1) (n_frac 1 100))) (fun _ => eq_refl) (fun _ => eq_refl)).
    rewrite (SM mi_end (fun i => n_lt (n_abs (n_sub (mi_ed i) (rg_min D2))) (n_mul (rg_size D2) (n_frac 1 100))) (fun _ => eq_refl) (fun _ => eq_refl)).
    repeat match goal with |- context [fold_left ?f C (vzero, n0)] => destruct (fold_left f C (vzero, n0)) end. cbn [fst snd option_map]. unfold mirror_collision. cbn [c_times c_pos c_normal].
    repeat first [rewrite mv_divs | rewrite mv_scale | rewrite mv_add | rewrite mv_neg]. reflexivity.
  Qed.

  Lemma verts_mirror (m : mesh_c ER) o m' : me_pos m' = mv (me_pos m) -> me_verts m' = map mv (me_verts m) -> vertices_in_world m' (mo o) = map mv (vertices_in_world m o).
  Proof. intros P V. unfold vertices_in_world. rewrite P, V, !map_map. apply map_ext. intros v. now rewrite mv_add, mv_world. Qed.

  (** ** Meshes, when nothing changes hands *)
  Section Half.
    Hypothesis half : half_turn a.
    Lemma half_same x : mw x = mv x.
    Proof. unfold half_turn in half. destruct a as [[] [] []]; try discriminate half; reflexivity. Qed.
    Lemma half_cross x y : vcross (mv x) (mv y) = mv (vcross x y).
    Proof. now rewrite mv_cross, half_same. Qed.
    Ltac mirs := repeat first [rewrite mv_scale | rewrite mv_add | rewrite mv_sub | rewrite half_cross | rewrite mv_normalize | rewrite mv_divs | rewrite mv_neg | rewrite mv_dot | rewrite mv_mag].
    Definition mpair2 (p : Vec3 ER * Vec3 ER) : Vec3 ER * Vec3 ER := (mv (fst p), mv (snd p)).
    Lemma overlap_mirror (r : ER) (c m p n m2 : Vec3 ER) b : sphere_plane_overlap_time r (mv c) (mv m) (mv p) (mv n) (mv m2) b = sphere_plane_overlap_time r c m p n m2 b.
    Proof. unfold sphere_plane_overlap_time. cbv zeta. mirs. reflexivity. Qed.
    Lemma sphere_line_mirror (r : ER) (c m s dir m2 : Vec3 ER) : collide_sphere_with_line r (mv c) (mv m) (mv s) (mv dir) (mv m2) = mk (collide_sphere_with_line r c m s dir m2).
    Proof. unfold collide_sphere_with_line. cbv zeta. mirs. destruct (rg_is_empty _); [reflexivity|]. cbn [option_map]. unfold mirror_collision. cbn [c_times c_pos c_normal]. mirs. reflexivity. Qed.
    Lemma sphere_segment_mirror (r : ER) (c m s e m2 : Vec3 ER) :
      collide_sphere_with_mid_line_segment r (mv c) (mv m) (mv s) (mv e) (mv m2) = mk (collide_sphere_with_mid_line_segment r c m s e m2).
    Proof.
      unfold collide_sphere_with_mid_line_segment. cbv zeta. rewrite mv_sub, sphere_line_mirror. destruct (collide_sphere_with_line _ _ _ _ _ _) as [hit|]; [|reflexivity].
      cbn [option_map mirror_collision c_times c_pos]. mirs. destruct (n_lt _ _); reflexivity.
    Qed.
    Lemma sides_mirror hit n tpm l : forall x, polygon_sides_ok (mv hit) (mv n) (mv tpm) x (map mpair2 l) = polygon_sides_ok hit n tpm x l.
    Proof. induction l as [|[f s] l IH]; intros x; [reflexivity|]. cbn [map mpair2 polygon_sides_ok fst snd]. cbv zeta. mirs. rewrite !IH. reflexivity. Qed.
    Lemma sphere_polygon_mirror (r : ER) (c m : Vec3 ER) ks (m2 : Vec3 ER) :
      collide_sphere_with_polygon_surface r (mv c) (mv m) (map mv ks) (mv m2) = returned mk (collide_sphere_with_polygon_surface r c m ks m2).
    Proof.
      unfold collide_sphere_with_polygon_surface. destruct ks as [|k0 [|k1 [|k2 ks]]]; try reflexivity. cbn [map]. cbv zeta. mirs. rewrite overlap_mirror.
      change (mv k0 :: mv k1 :: mv k2 :: map mv ks) with (map mv (k0 :: k1 :: k2 :: ks)). rewrite loop_pairs_map. destruct (rg_is_empty _); [reflexivity|].
      change (fun p : Vec3 ER * Vec3 ER => (mv (fst p), mv (snd p))) with mpair2.
      mirs. rewrite sides_mirror. destruct (polygon_sides_ok _ _ _ _ _); reflexivity.
    Qed.
    Lemma sphere_mesh_mirror (r : ER) (c m : Vec3 ER) vs es fs (m2 : Vec3 ER) :
      collide_sphere_with_mesh r (mv c) (mv m) (map mv vs) es fs (mv m2) = returned mk (collide_sphere_with_mesh r c m vs es fs m2).
    Proof.
      unfold collide_sphere_with_mesh. cbv zeta. change (@acc_new ER EReal) with (macc2 acc_new) at 1.
      rewrite (fold_consider_mirror mv (fun v => collide_sphere_with_sphere r c m n0 v m2)) by (intros v; apply sphere_sphere_mirror).
      set (x := fold_left _ vs acc_new). clearbody x.
      rewrite (rfold_returned macc2 (fun acc e => rbind (unwrap (nth_error vs (fst e))) (fun v1 => rbind (unwrap (nth_error vs (snd e))) (fun v2 =>
        Ok (acc_consider acc (collide_sphere_with_mid_line_segment r c m v1 v2 m2)))))).
      2:{ intros s e _. rewrite !nth_error_map, !unwrap_returned, !rbind_returned, returned_rbind. apply rbind_ext. intros v1 _. rewrite rbind_returned, returned_rbind. apply rbind_ext. intros v2 _.
          now rewrite sphere_segment_mirror, consider_mirror. }
      rewrite rbind_returned, returned_rbind. apply rbind_ext. intros a1 _.
      rewrite (rfold_returned macc2 (fun acc face => rbind (rmap (fun i => unwrap (nth_error vs i)) face) (fun corners =>
        rbind (collide_sphere_with_polygon_surface r c m corners m2) (fun c => Ok (acc_consider acc c))))).
      2:{ intros s f _. rewrite (rmap_ext _ (fun i => returned mv (unwrap (nth_error vs i)))) by (intros i; now rewrite nth_error_map, unwrap_returned).
          rewrite rmap_returned, rbind_returned, returned_rbind. apply rbind_ext. intros ks _. rewrite sphere_polygon_mirror, rbind_returned, returned_rbind. apply rbind_ext. intros o _.
          now rewrite consider_mirror. }
      rewrite rbind_returned, returned_rbind. apply rbind_ext. intros a2 _. reflexivity.
    Qed.
    Lemma nth_mirror i l : nth i (map mv l) vzero = mv (nth i l vzero).
    Proof. rewrite <- (mv_zero a) at 1. apply map_nth. Qed.
    Lemma polygon_normal_mirror l is : polygon_normal_from (map mv l) is = returned mv (polygon_normal_from l is).
    Proof.
      induction is as [|i is IH]; [reflexivity|]. cbn [polygon_normal_from]. cbv zeta. rewrite map_length, !nth_mirror. mirs. rewrite IH. destruct (_ && _); reflexivity.
    Qed.
    Lemma get_normal_mirror l : get_polygon_normal (map mv l) = returned mv (get_polygon_normal l).
    Proof. unfold get_polygon_normal. rewrite map_length. apply polygon_normal_mirror. Qed.
    Lemma on_plane_mirror p n q : point_is_on_plane (mv p) (mv n) (mv q) = point_is_on_plane p n q.
    Proof. unfold point_is_on_plane. mirs. reflexivity. Qed.
    Lemma inside_mirror p n l : forall x, point_inside (mv p) (mv n) x (map mpair2 l) = point_inside p n x l.
    Proof. induction l as [|[b c] l IH]; intros x; [reflexivity|]. cbn [map mpair2 point_inside fst snd]. cbv zeta. mirs. rewrite !IH. reflexivity. Qed.
    Definition mclosest (b : ER * Vec3 ER) : ER * Vec3 ER := (fst b, mv (snd b)).
    Lemma closest_mirror ps pe n l : forall b, closest_side (mv ps) (mv pe) (mv n) (mclosest b) (map mpair2 l) = mclosest (closest_side ps pe n b l).
    Proof.
      induction l as [|[p q] l IH]; intros b; [reflexivity|]. cbn [map mpair2 closest_side fst snd]. cbv zeta. rewrite <- IH. mirs. f_equal.
      destruct (_ || _); [reflexivity|]. destruct (_ || _); [reflexivity|]. cbn [mclosest fst]. destruct (n_lt _ _); reflexivity.
    Qed.
    Lemma point_polygon_mirror ps pe l : collide_point_with_polygon (mv ps) (mv pe) (map mv l) = returned mk (collide_point_with_polygon ps pe l).
    Proof.
      unfold collide_point_with_polygon. cbv zeta. rewrite get_normal_mirror, rbind_returned, returned_rbind. apply rbind_ext. intros n _.
      rewrite nth_mirror, !on_plane_mirror, loop_pairs_map. change (fun p : Vec3 ER * Vec3 ER => (mv (fst p), mv (snd p))) with mpair2.
      destruct (point_is_on_plane _ _ _ && point_is_on_plane _ _ _).
      - assert (Z : (@n2 ER EReal, @vzero ER EReal) = mclosest (n2, vzero)) by (unfold mclosest; cbn [fst snd]; now rewrite mv_zero). rewrite Z at 1. rewrite closest_mirror.
        destruct (closest_side ps pe n _ _) as [t p]. cbn [mclosest fst snd]. destruct (n_le t n1); reflexivity.
      - mirs. destruct (_ || _); [reflexivity|].
        match goal with |- context [point_inside (mv ?p) ?b n0 _] => assert (B : forall x y z w : bool, (if x then mv (vscale n nm1) else if y then (if z then mv (vscale n nm1) else mv n) else mv n) = mv (if x then vscale n nm1 else if y then (if z then vscale n nm1 else n) else n)) by (intros [] [] [] []; reflexivity); rewrite (B _ _ _ true) end.
        rewrite inside_mirror. destruct (point_inside _ _ _ _); reflexivity.
    Qed.
    Lemma corners_faces_mirror p1 fs p2 : corners_faces (map mpair2 p1) fs (map mpair2 p2) = returned mk (corners_faces p1 fs p2).
    Proof.
      unfold corners_faces.
      assert (R : forall a0, rfold (fun acc pt => rfold (fun acc face =>
          rbind (rmap (fun i => rbind (unwrap (nth_error (map mpair2 p2) i)) (fun pe => Ok (vdivs (vadd (fst pe) (snd pe)) n2))) face) (fun face_points =>
          rbind (collide_point_with_polygon (fst pt) (snd pt) face_points) (fun c => Ok (acc_consider acc c)))) fs acc) (map mpair2 p1) (macc2 a0) =
        returned macc2 (rfold (fun acc pt => rfold (fun acc face =>
          rbind (rmap (fun i => rbind (unwrap (nth_error p2 i)) (fun pe => Ok (vdivs (vadd (fst pe) (snd pe)) n2))) face) (fun face_points =>
          rbind (collide_point_with_polygon (fst pt) (snd pt) face_points) (fun c => Ok (acc_consider acc c)))) fs acc) p1 a0)).
      { induction p1 as [|[ps pe] p1 IH]; intros a0; [reflexivity|]. cbn [map rfold]. rewrite returned_rbind. erewrite rfold_returned; [rewrite rbind_returned; apply rbind_ext; intros a1 _; apply IH|].
        intros x f _. cbn [mpair2 fst snd]. rewrite (rmap_ext _ (fun i => returned mv (rbind (unwrap (nth_error p2 i)) (fun pe => Ok (vdivs (vadd (fst pe) (snd pe)) n2))))).
        2:{ intros i. rewrite nth_error_map, unwrap_returned, rbind_returned, returned_rbind. apply rbind_ext. intros pq _. cbn [mpair2 fst snd returned]. now rewrite mv_add, mv_divs. }
        rewrite rmap_returned, rbind_returned, returned_rbind. apply rbind_ext. intros ks _. rewrite point_polygon_mirror, rbind_returned, returned_rbind. apply rbind_ext. intros o _.
        now rewrite consider_mirror. }
      change (@acc_new ER EReal) with (macc2 acc_new) at 1. rewrite R, rbind_returned, returned_rbind. apply rbind_ext. intros [[k|] t] _; [|reflexivity].
      cbn [macc2 fst option_map]. cbv zeta. change (c_time (mirror_collision a k)) with (c_time k). cbn [mirror_collision c_pos c_normal].
      rewrite (fold_map_ext mpair2 _ (fun nk pt => if n_lt (vdot (vsub (vadd (vscale (fst pt) (n_sub n1 (c_time k))) (vscale (snd pt) (c_time k))) (c_pos k)) (c_normal k)) n0 then (S (fst nk), snd nk) else (fst nk, S (snd nk)))).
      2:{ intros c pt. cbn [mpair2 fst snd]. mirs. reflexivity. }
      destruct (fold_left _ p1 _) as [ng kp]. destruct (Nat.ltb kp ng); [|reflexivity]. cbn [returned option_map]. rewrite <- scale_mirror. reflexivity.
    Qed.
    Lemma pairs_mirror (m m' : mesh_c ER) s e : me_pos m' = mv (me_pos m) -> me_verts m' = map mv (me_verts m) -> mesh_point_pairs m' (mo s) (mo e) = map mpair2 (mesh_point_pairs m s e).
    Proof. intros P V. unfold mesh_point_pairs. rewrite P, V, !map_map. apply map_ext. intros v. unfold mpair2. cbn [fst snd]. now rewrite mv_add, !mv_world. Qed.
    Lemma turn_mirror o : option_map turn (mk o) = mk (option_map turn o).
    Proof. destruct o as [k|]; [|reflexivity]. cbn [option_map]. unfold turn, mirror_collision. cbn [c_times c_pos c_normal]. now rewrite mv_neg. Qed.
    Lemma mesh_mesh_mirror (m1 m1' : mesh_c ER) s1 e1 (m2 m2' : mesh_c ER) s2 e2 : me_pos m1' = mv (me_pos m1) -> me_verts m1' = map mv (me_verts m1) -> me_faces m1' = me_faces m1 ->
      me_pos m2' = mv (me_pos m2) -> me_verts m2' = map mv (me_verts m2) -> me_faces m2' = me_faces m2 ->
      collide_mesh_with_mesh m1' (mo s1) (mo e1) m2' (mo s2) (mo e2) = returned mk (collide_mesh_with_mesh m1 s1 e1 m2 s2 e2).
    Proof.
      intros A1 A2 A3 B1 B2 B3. rewrite !mesh_mesh_split, (pairs_mirror m1 m1'), (pairs_mirror m2 m2'), A3, B3, corners_faces_mirror, rbind_returned, returned_rbind by assumption. apply rbind_ext. intros x _.
      rewrite corners_faces_mirror, rbind_returned, returned_rbind. apply rbind_ext. intros b _. cbn [returned]. change (@acc_new ER EReal) with (macc2 acc_new) at 1.
      now rewrite turn_mirror, !consider_mirror.
    Qed.
  End Half.

  Lemma collide_mirror c1 s1 e1 c2 s2 e2 : even_shape a c1 -> even_shape a c2 ->
    collide (mirror_collider a c1) (mo s1) (mo e1) (mirror_collider a c2) (mo s2) (mo e2) = returned mk (collide c1 s1 e1 c2 s2 e2).
  Proof.
    intros R1 R2. destruct c1 as [c|c|c|c|c]; try contradiction; destruct c2 as [k|k|k|k|k]; try contradiction; try reflexivity;
      cbn [mirror_collider collide sp_radius sp_center pl_pos pl_normal me_pos me_verts me_edges me_faces returned even_shape] in *; unfold world_move; rewrite ?mv_world, ?mv_sub.
    - now rewrite sphere_sphere_mirror.
    - now rewrite sphere_plane_mirror.
    - rewrite (verts_mirror k) by reflexivity. now apply sphere_mesh_mirror.
    - now rewrite sphere_plane_mirror, flip_mirror.
    - now rewrite mesh_plane_mirror, flip_mirror.
    - rewrite (verts_mirror c), sphere_mesh_mirror, rbind_returned, returned_rbind by (reflexivity || assumption). apply rbind_ext. intros o _. now rewrite flip_mirror.
    - now rewrite mesh_plane_mirror.
    - apply mesh_mesh_mirror; try reflexivity. assumption.
  Qed.
End Mirror2.
