(** * FiniteP: which collisions have a position and a normal (C52) *)
From Coq Require Import ZArith Reals List Bool Arith Lra Lia Psatz.
Import ListNotations.
From Verif Require Import Num Vec Res RangeM Orient Colliders Collide OrderP ArithP Spec RangeP ResP MeshP CollideP RealSpec RealV OrientP Orient2P GeomP Geom2P Geom3P Geom4P Geom5P Geom6P Geom7P Geom8P PassP FiniteSpec.
Local Open Scope R_scope.
Definition nanv : Vec3 ER := mkV ENaN ENaN ENaN.

Lemma diff_zero (x c : V) : vsub x c = mkV 0 0 0 -> x = c.
Proof. intros D. apply vext; [assert (X := f_equal vx D)|assert (X := f_equal vy D)|assert (X := f_equal vz D)]; vunfold; lra. Qed.
Lemma diff_self (x : V) : vsub x x = mkV 0 0 0.
Proof. apply vext; vunfold; ring. Qed.
Lemma V_dec (x y : V) : x = y \/ x <> y.
Proof.
  destruct (Req_dec (vx x) (vx y)) as [A|A]; [|right; congruence]. destruct (Req_dec (vy x) (vy y)) as [B|B]; [|right; congruence].
  destruct (Req_dec (vz x) (vz y)) as [C|C]; [|right; congruence]. left. now apply vext.
Qed.
(** The normal from one point to another. *)
Lemma normal_or (x c : V) : (x <> c /\ finite_v (vnormalize (vfin (vsub x c)))) \/ (x = c /\ vnormalize (vfin (vsub x c)) = nanv).
Proof.
  destruct (V_dec x c) as [->|H].
  - right. split; [exact eq_refl|]. rewrite diff_self. exact vnormalize_zero.
  - left. split; [exact H|]. rewrite vnormalize_fin; [eexists; exact eq_refl|]. intros D. exact (H (diff_zero _ _ D)).
Qed.
(** ** Balls against balls, vertices and edges *)
Definition settled (c : V) (k : collision ER) : Prop := exists x, c_pos k = vfin x /\ ((x <> c /\ finite_v (c_normal k)) \/ (x = c /\ c_normal k = nanv)).
Lemma ball_settled (r1 : R) (c1 m1 : V) (r2 : R) (c2 m2 : V) k : 0 < r1 + r2 ->
  collide_sphere_with_sphere (Fin r1) (vfin c1) (vfin m1) (Fin r2) (vfin c2) (vfin m2) = Some k -> settled c1 k.
Proof.
  intros Hr H. apply sphere_sphere_normal in H; [|exact Hr]. destruct H as (t & x & _ & _ & Ex & _ & En). exists x. split; [exact Ex|]. rewrite En. apply normal_or.
Qed.
Lemma line_settled (r : R) (c m1 s dir m2 : V) k :
  collide_sphere_with_line (Fin r) (vfin c) (vfin m1) (vfin s) (vfin dir) (vfin m2) = Some k -> dir <> mkV 0 0 0 /\ settled c k.
Proof.
  intros H. destruct (V_dec dir (mkV 0 0 0)) as [->|Hd].
  - exfalso. revert H. unfold collide_sphere_with_line. cbv zeta. rewrite vnormalize_zero. rewrite !vfin_sub.
    assert (C : forall v : V, vcross (vfin v) (mkV ENaN ENaN ENaN) = mkV ENaN ENaN ENaN) by (intros [v1 v2 v3]; unfold vcross, vfin; cbn; reflexivity). rewrite !C.
    assert (D : vdot (mkV ENaN ENaN ENaN) (mkV ENaN ENaN ENaN) = ENaN :> ER) by reflexivity. rewrite D.
    assert (Q : forall b x : ER, rg_is_empty (rg_intersect (rg_quadratic_zeros ENaN b x) rg_unit) = true).
    { intros b x. unfold rg_quadratic_zeros. change (n_lt (n_abs ENaN) EPSILON) with false. cbv iota zeta.
      assert (E : n_sub (n_mul b b) (n_mul (n_mul n4 ENaN) x) = ENaN) by (cbn; destruct b; cbn; try reflexivity; destruct (Req_EM_T _ _); reflexivity).
      rewrite E. change (n_lt ENaN (n_neg EPSILON)) with false. change (n_lt ENaN EPSILON) with false. cbv iota. change (n_sqrt ENaN) with ENaN.
      assert (M : n_mul n2 ENaN = ENaN) by reflexivity. rewrite M. assert (Dv : forall y : ER, n_div y ENaN = ENaN) by (intros []; reflexivity). rewrite !Dv. exact eq_refl. }
    rewrite Q. discriminate.
  - split; [exact Hd|]. apply sphere_line_some in H; [|exact Hd]. destruct H as (t & x & j & _ & _ & Ex & _ & _ & En). exists x. split; [exact Ex|]. rewrite En. apply normal_or.
Qed.
Lemma segment_settled (r : R) (c m1 p q m2 : V) k :
  collide_sphere_with_mid_line_segment (Fin r) (vfin c) (vfin m1) (vfin p) (vfin q) (vfin m2) = Some k -> p <> q /\ settled c k.
Proof.
  unfold collide_sphere_with_mid_line_segment. cbv zeta. rewrite vfin_sub. destruct (collide_sphere_with_line _ _ _ _ _ _) as [h|] eqn:E; [|discriminate].
  intros H. assert (h = k) as -> by (destruct (n_lt _ _); congruence). apply line_settled in E. destruct E as (E & S). split; [|exact S]. intros ->. apply E, diff_self.
Qed.
(** ** Balls against faces: always a position and a normal *)
Lemma polygon_settled (r : R) (c m : V) pol (mv : V) k :
  collide_sphere_with_polygon_surface (Fin r) (vfin c) (vfin m) (map vfin pol) (vfin mv) = Ok (Some k) -> finite_v (c_pos k) /\ finite_v (c_normal k).
Proof.
  destruct pol as [|k0 [|k1 [|k2 rest]]]; try discriminate. set (pol := k0 :: k1 :: k2 :: rest). unfold pol at 1. cbn [map collide_sphere_with_polygon_surface]. cbv zeta.
  change (vfin k0 :: vfin k1 :: vfin k2 :: map vfin rest) with (map vfin pol).
  rewrite !vfin_sub, vfin_cross. set (cr := vcross _ _). destruct (V_dec cr (mkV 0 0 0)) as [->|Hcr].
  - rewrite vnormalize_zero.
    assert (Q : rg_is_empty (rg_intersect (sphere_plane_overlap_time (Fin r) (vfin c) (vfin m) (vfin k0) (mkV ENaN ENaN ENaN) (vfin mv) false) rg_unit) = true).
    { unfold sphere_plane_overlap_time. cbv zeta. change (n_sub (vdot (vfin mv) (mkV ENaN ENaN ENaN)) (vdot (vfin m) (mkV ENaN ENaN ENaN))) with ENaN.
      unfold rg_linear_overlap. change (n_lt (n_abs ENaN) EPSILON) with false. cbv iota.
      assert (Dv : forall y : ER, n_div y ENaN = ENaN) by (intros []; reflexivity). rewrite !Dv. exact eq_refl. }
    rewrite Q. discriminate.
  - rewrite vnormalize_fin by auto. set (n := vunit cr).
    set (Z := sphere_plane_overlap_time _ _ _ _ _ _ _).
    pose proof (cut_first Z (fun t => in_range (Fin t) Z = true) ltac:(tauto)) as C. cbv zeta in C.
    destruct (rg_is_empty _) eqn:E; [discriminate|].
    destruct C as (t & Et & F). rewrite Et. rewrite !vfin_scale, !vfin_add, !vfin_sub, !vfin_dot, vfin_scale, !vfin_sub.
    match goal with |- context [vnormalize (vfin (vsub ?x ?y))] => destruct (normal_or x y) as [(D & (nn & G))|(D & G)]; rewrite G end.
    + destruct (polygon_sides_ok _ _ _ _ _); [|discriminate]. intros H. assert (X := f_equal (fun o => match o with Ok (Some y) => y | _ => k end) H). cbv beta iota in X. subst k.
      cbn [c_pos c_normal]. split; [eexists; exact eq_refl|exists nn; exact eq_refl].
    + rewrite loop_pairs_map. change (fun p : V * V => (vfin (fst p), vfin (snd p))) with lift2.
      unfold pol at 1. unfold loop_pairs. cbn [app combine map]. unfold nanv. rewrite sides_nan. discriminate.
Qed.
(** ** Balls against boxes *)
Definition calm_v (v : R) : R := if Rlt_dec (Rabs v) (1 / 1000000) then 0 else v.
Lemma calm_speedy v : speedy (calm_v v).
Proof. unfold calm_v. destruct (Rlt_dec _ _); [now left|right; lra]. Qed.
Lemma calm_overlap a b v : rg_linear_overlap a b (Fin (calm_v v)) = rg_linear_overlap a b (Fin v).
Proof. unfold calm_v. destruct (Rlt_dec _ _) as [H|H]; [|exact eq_refl]. symmetry. now apply overlap_slow. Qed.
Lemma face_times_of {T} {N : Num T} (r : T) c m mn mx k : box_face_collision r c m mn mx = Some k -> rg_is_empty (box_face_times r c m mn mx) = false /\ c_times k = box_face_times r c m mn mx.
Proof. unfold box_face_collision. cbv zeta. destruct (rg_is_empty _); [discriminate|]. intros H. inversion H. split; reflexivity. Qed.
Lemma face_of_times {T} {N : Num T} (r : T) c m mn mx : rg_is_empty (box_face_times r c m mn mx) = false -> exists k, box_face_collision r c m mn mx = Some k /\ c_times k = box_face_times r c m mn mx.
Proof. intros H. unfold box_face_collision. cbv zeta. rewrite H. eexists. split; reflexivity. Qed.
Lemma face_at_start (r : R) (c m mn mx : V) : 0 <= r -> vx mn < vx mx -> vy mn < vy mx -> vz mn < vz mx -> facing r mn mx c ->
  exists k, box_face_collision (Fin r) (vfin c) (vfin m) (vfin mn) (vfin mx) = Some k /\ c_time k = Fin 0.
Proof.
  intros Hr Hx Hy Hz F. set (m' := mkV (calm_v (vx m)) (calm_v (vy m)) (calm_v (vz m))).
  assert (E : box_face_times (Fin r) (vfin c) (vfin m') (vfin mn) (vfin mx) = box_face_times (Fin r) (vfin c) (vfin m) (vfin mn) (vfin mx)).
  { unfold box_face_times. cbv zeta. cbn [vx vy vz vfin m']. rewrite !calm_overlap. exact eq_refl. }
  assert (Z : vadd c (vscale m' 0) = c) by (apply vext; vunfold; ring).
  destruct (face_complete r c m' mn mx Hr (Rlt_le _ _ Hx) (Rlt_le _ _ Hy) (Rlt_le _ _ Hz) (calm_speedy _) (calm_speedy _) (calm_speedy _) 0) as (k & t & K & Et & Lt); [lra|rewrite Z; exact F|].
  destruct (face_some r c m' mn mx Hr (Rlt_le _ _ Hx) (Rlt_le _ _ Hy) (Rlt_le _ _ Hz) k K) as (t' & Et' & Rt & _). assert (t = 0) by (rewrite Et in Et'; injection Et'; lra). subst t.
  apply face_times_of in K. destruct K as (K1 & K2). rewrite E in K1, K2. destruct (face_of_times _ _ _ _ _ K1) as (k1 & K3 & K4). exists k1. split; [exact K3|].
  unfold c_time in *. rewrite K4, <- K2. exact Et.
Qed.
Lemma fold_stay {X} (f : X -> option (collision ER)) l (k : collision ER) t : (forall e k', In e l -> f e = Some k' -> n_lt (c_time k') t = false) ->
  fold_left (fun a e => acc_consider a (f e)) l (Some k, t) = (Some k, t).
Proof.
  induction l as [|e l IH]; intros H; [exact eq_refl|]. cbn [fold_left]. assert (E : acc_consider (Some k, t) (f e) = (Some k, t)).
  { unfold acc_consider. destruct (f e) as [k'|] eqn:Ef; [|exact eq_refl]. cbn [snd]. rewrite (H e k' (or_introl eq_refl) Ef). exact eq_refl. }
  rewrite E. apply IH. intros e' k' Hi. apply H. now right.
Qed.
Lemma timely_not_before o (k : collision ER) : timely o -> o = Some k -> n_lt (c_time k) (Fin 0) = false.
Proof.
  intros H E. destruct (H k E) as (X & _). clear H. rename X into H. rewrite fin_0 in H. destruct (c_time k) as [t| | |]; try reflexivity.
  - apply er_le_fin in H. apply er_lt_fin_f. exact H.
  - discriminate.
Qed.
Lemma coord_dist (a b : V) : Rabs (vx a - vx b) <= dist a b /\ Rabs (vy a - vy b) <= dist a b /\ Rabs (vz a - vz b) <= dist a b.
Proof.
  assert (X : forall u s, u * u <= s -> Rabs u <= sqrt s) by (intros u s H; rewrite <- sqrt_Rsqr_abs; apply sqrt_le_1_alt; exact H).
  destruct a as [a1 a2 a3], b as [b1 b2 b3]. unfold dist. vunfold. pose proof (Rle_0_sqr (a1 - b1)). pose proof (Rle_0_sqr (a2 - b2)). pose proof (Rle_0_sqr (a3 - b3)). unfold Rsqr in *. split; [|split]; apply X; lra.
Qed.
Lemma axis_dist (p q : V) s : 0 <= s -> vdot (vsub q p) (vsub q p) = s * s -> dist q p = s.
Proof. intros H E. unfold dist. rewrite E. now apply sqrt_square. Qed.
Lemma span (a b x d e : R) da : Rabs (a - x) <= da -> Rabs (b - x) <= d -> a < b -> da + d < b - a + e -> a - e <= x <= b + e.
Proof. unfold Rabs. repeat destruct (Rcase_abs _); lra. Qed.
Lemma near_edge_facing (r : R) (mn mx p q c : V) j : 1 / 1000000 <= r -> vx mn < vx mx -> vy mn < vy mx -> vz mn < vz mx -> is_edge mn mx p q ->
  c = vadd p (vscale (vsub q p) j) -> Rabs (dist p c + dist q c - dist q p) < 1 / 1000000 -> facing r mn mx c.
Proof.
  intros Hr Hx Hy Hz (P & Q & E) Ec D. destruct (coord_dist p c) as (A1 & A2 & A3), (coord_dist q c) as (B1 & B2 & B3).
  apply Rabs_def2 in D. destruct D as (D & _). destruct P as (P1 & P2 & P3), Q as (Q1 & Q2 & Q3).
  assert (Cx : vx c = vx p + (vx q - vx p) * j) by (rewrite Ec; vunfold; ring). assert (Cy : vy c = vy p + (vy q - vy p) * j) by (rewrite Ec; vunfold; ring).
  assert (Cz : vz c = vz p + (vz q - vz p) * j) by (rewrite Ec; vunfold; ring). clear Ec. unfold facing.
  destruct E as [(E1 & E2 & E3 & E4)|[(E1 & E2 & E3 & E4)|(E1 & E2 & E3 & E4)]].
  - left. assert (L : dist q p = vx mx - vx mn) by (apply axis_dist; [lra|vunfold; rewrite E1, E2, E3, E4; ring]).
    destruct (span _ _ _ _ (1 / 1000000) _ A1 B1 ltac:(lra) ltac:(lra)) as (S1 & S2). rewrite Cy, Cz, E3, E4.
    split; [lra|]. split; [destruct Q2 as [-> | ->]|destruct Q3 as [-> | ->]]; lra.
  - right. left. assert (L : dist q p = vy mx - vy mn) by (apply axis_dist; [lra|vunfold; rewrite E1, E2, E3, E4; ring]).
    destruct (span _ _ _ _ (1 / 1000000) _ A2 B2 ltac:(lra) ltac:(lra)) as (S1 & S2). rewrite Cx, Cz, E1, E4.
    split; [destruct Q1 as [-> | ->]; lra|]. split; [lra|]. destruct Q3 as [-> | ->]; lra.
  - right. right. assert (L : dist q p = vz mx - vz mn) by (apply axis_dist; [lra|vunfold; rewrite E1, E2, E3, E4; ring]).
    destruct (span _ _ _ _ (1 / 1000000) _ A3 B3 ltac:(lra) ltac:(lra)) as (S1 & S2). rewrite Cx, Cy, E1, E2.
    split; [destruct Q1 as [-> | ->]; lra|]. split; [destruct Q2 as [-> | ->]; lra|]. lra.
Qed.
Lemma corner_facing (r : R) (mn mx c : V) : 0 <= r -> vx mn < vx mx -> vy mn < vy mx -> vz mn < vz mx -> is_corner mn mx c -> facing r mn mx c.
Proof.
  intros Hr Hx Hy Hz (P1 & P2 & P3). left. split; [destruct P1 as [-> | ->]; lra|]. split; [destruct P2 as [-> | ->]; lra|destruct P3 as [-> | ->]; lra].
Qed.
Lemma facing_dec (r : R) (mn mx c : V) : facing r mn mx c \/ ~ facing r mn mx c.
Proof. apply Classical_Prop.classic. Qed.
Lemma corner_fin (mn mx : V) p' : is_corner (vfin mn) (vfin mx) p' -> exists p, p' = vfin p /\ is_corner mn mx p.
Proof.
  destruct p' as [a b d]. intros (A & B & D). cbn [vx vy vz vfin] in A, B, D.
  exists (mkV (match a with Fin u => u | _ => 0 end) (match b with Fin u => u | _ => 0 end) (match d with Fin u => u | _ => 0 end)).
  unfold is_corner. cbn [vx vy vz]. destruct A as [->| ->], B as [->| ->], D as [->| ->]; (split; [exact eq_refl|tauto]).
Qed.
Lemma edge_fin (mn mx : V) p' q' : is_edge (vfin mn) (vfin mx) p' q' -> exists p q, p' = vfin p /\ q' = vfin q /\ is_edge mn mx p q.
Proof.
  intros (C1 & C2 & E). destruct (corner_fin _ _ _ C1) as (p & -> & Cp). destruct (corner_fin _ _ _ C2) as (q & -> & Cq).
  exists p, q. split; auto. split; auto. split; auto. split; auto. cbn [vx vy vz vfin] in E.
  destruct E as [(A1 & A2 & A3 & A4)|[(A1 & A2 & A3 & A4)|(A1 & A2 & A3 & A4)]]; apply of_fin in A1, A2, A3, A4; tauto.
Qed.
Lemma part_time (r : ER) c m mn mx k : box_part r c m mn mx k -> unit_t (c_time k).
Proof.
  intros [k' K|p q k' _ K|p k' _ K]; [exact (box_face_timely _ _ _ _ _ _ K)|exact (sphere_segment_timely _ _ _ _ _ _ _ K)|exact (sphere_sphere_timely _ _ _ _ _ _ _ K)].
Qed.
Lemma vfin_inj (a b : V) : vfin a = vfin b -> a = b.
Proof. intros H. apply vext; [assert (X := f_equal vx H)|assert (X := f_equal vy H)|assert (X := f_equal vz H)]; now apply of_fin. Qed.
Lemma box_settled (r : R) (c m mn mx : V) k : 1 / 20 < r -> vx mn < vx mx -> vy mn < vy mx -> vz mn < vz mx ->
  collide_sphere_with_aligned_box (Fin r) (vfin c) (vfin m) (vfin mn) (vfin mx) = Some k ->
  (exists t, c_time k = Fin t) /\ finite_v (c_pos k) /\ finite_v (c_normal k).
Proof.
  intros Hr Hx Hy Hz H.
  assert (Face : forall k0, box_face_collision (Fin r) (vfin c) (vfin m) (vfin mn) (vfin mx) = Some k0 -> (exists t, c_time k0 = Fin t) /\ finite_v (c_pos k0) /\ finite_v (c_normal k0)).
  { intros k0 K. apply face_contact in K; try assumption; [|lra]. destruct K as (t & n & Et & _ & En & Ep & _). split; [exists t; exact Et|]. split; [exists (vadd (vadd c (vscale m t)) (vscale n r)); exact Ep|exists n; exact En]. }
  destruct (facing_dec r mn mx c) as [F|F].
  - destruct (face_at_start r c m mn mx ltac:(lra) Hx Hy Hz F) as (k0 & K & Kt). assert (k = k0); [|subst k; now apply Face].
    revert H. unfold collide_sphere_with_aligned_box. cbv zeta. rewrite K.
    assert (A : acc_consider acc_new (Some k0) = (Some k0, Fin 0)) by (unfold acc_consider; rewrite Kt; exact eq_refl). rewrite A.
    rewrite (fold_stay (fun e => collide_sphere_with_mid_line_segment (Fin r) (vfin c) (vfin m) (nth (fst e) (box_corners (vfin mn) (vfin mx)) vzero) (nth (snd e) (box_corners (vfin mn) (vfin mx)) vzero) vzero))
      by (intros e k' _ E; exact (timely_not_before _ _ (sphere_segment_timely _ _ _ _ _ _) E)).
    rewrite (fold_stay (fun corner => collide_sphere_with_sphere (Fin r) (vfin c) (vfin m) n0 corner vzero))
      by (intros e k' _ E; exact (timely_not_before _ _ (sphere_sphere_timely _ _ _ _ _ _) E)).
    cbn [fst]. intros X. congruence.
  - pose proof (box_earliest (Fin r) (vfin c) (vfin m) (vfin mn) (vfin mx)) as B. rewrite H in B. destruct B as (B & _).
    assert (Tm : exists t, c_time k = Fin t).
    { destruct (part_time _ _ _ _ _ _ B) as (T1 & T2). rewrite fin_0 in T1. rewrite fin_1 in T2. destruct (c_time k) as [t| | |]; try discriminate. exists t. exact eq_refl. }
    destruct B as [k K|p' q' k E K|p' k C K].
    + now apply Face.
    + split; [exact Tm|]. destruct (edge_fin _ _ _ _ E) as (p & q & -> & -> & Ed). rewrite vzero_fin in K.
      destruct (segment_settled _ _ _ _ _ _ _ K) as (Ne & x & Ex & [(D & N)|(D & N)]); [split; [exists x; exact Ex|exact N]|]. exfalso. apply F. subst x.
      apply segment_some in K; [|exact Ne]. destruct K as (K & t & x & Et & Ex' & Dx). rewrite Ex in Ex'. assert (x = c) by (apply vfin_inj; congruence). subst x.
      apply sphere_line_some in K; [|intros Z; apply Ne; symmetry; now apply diff_zero]. destruct K as (t' & x & j & _ & _ & Ex'' & Xj & _).
      rewrite Ex in Ex''. assert (Q : x = c) by (apply vfin_inj; congruence). rewrite Q in Xj.
      assert (Z : forall (p : V) t, vadd p (vscale (mkV 0 0 0) t) = p) by (intros; apply vext; vunfold; ring). rewrite Z in Xj. cbv zeta in Dx. rewrite !Z in Dx.
      exact (near_edge_facing r mn mx p q c j ltac:(lra) Hx Hy Hz Ed Xj Dx).
    + split; [exact Tm|]. destruct (corner_fin _ _ _ C) as (p & -> & Cp). rewrite vzero_fin, fin_0 in K.
      destruct (ball_settled r c m 0 p (mkV 0 0 0) k ltac:(lra) K) as (x & Ex & [(D & N)|(D & N)]); [split; [exists x; exact Ex|exact N]|]. exfalso. apply F. subst x.
      apply sphere_sphere_normal in K; [|lra]. destruct K as (t & x & _ & _ & Ex' & Xm & _). rewrite Ex in Ex'. assert (Q : x = c) by (apply vfin_inj; congruence). rewrite Q in Xm.
      assert (c = p). { rewrite Xm. unfold mid. apply vext; vunfold; field; lra. }
      subst p. apply corner_facing; try assumption. lra.
Qed.
(** ** Meshes against planes *)
Section MeshPlane.
  Variables (vs : list V) (pos : V) (os oe : orientation R) (ps pe n : V).
  Hypothesis Hv : vs <> [].
  Let moves := mesh_moves pos vs os oe.
  Let starts := map fst moves.
  Let ends := map snd moves.
  Let hs (x : V) := vdot (vsub x ps) n.
  Let he (x : V) := vdot (vsub x pe) n.
  Lemma plane_settled lo hi lo' hi' : lowest (map hs starts) lo -> highest (map hs starts) hi -> lowest (map he ends) lo' -> highest (map he ends) hi' ->
    forall k, collide_mesh_with_plane (map vfin vs) (vfin pos) (ofin os) (ofin oe) (vfin ps) (vfin pe) (vfin n) = Some k ->
    finite_v (c_normal k) /\ (lo < hi -> lo' < hi' -> finite_v (c_pos k)) /\ (lo = hi \/ lo' = hi' -> c_pos k = mkV ENaN ENaN ENaN).
  Proof.
    intros Lo Hi Lo' Hi' k. unfold collide_mesh_with_plane. cbv zeta.
    set (calc := map _ (map vfin vs)).
    assert (Ec : calc = map (fun p => mkMI (vfin (fst p)) (vfin (snd p)) (Fin (hs (fst p))) (Fin (he (snd p)))) moves).
    { unfold calc, moves, mesh_moves. rewrite !map_map. reflexivity. }
    assert (Hm : moves <> []) by (unfold moves, mesh_moves; destruct vs; [congruence|discriminate]).
    assert (Uniq : forall l a b, lowest l a -> lowest l b -> a = b) by (intros l a b [H1 H2] [H3 H4]; apply Rle_antisym; auto).
    assert (Uniq' : forall l a b, highest l a -> highest l b -> a = b) by (intros l a b [H1 H2] [H3 H4]; apply Rle_antisym; auto).
    assert (Es : fold_left (fun r i => rg_contain r (rg_single (mi_sd i))) calc rg_empty = mkR (Fin lo) (Fin hi) /\ lo <= hi).
    { rewrite Ec, fold_left_map'. cbn [mi_sd]. rewrite <- (fold_left_map' (fun r d => rg_contain r (rg_single (Fin d))) (fun p => hs (fst p)) moves).
      assert (Em : map (fun p : V * V => hs (fst p)) moves = map hs starts) by (unfold starts; now rewrite map_map). rewrite Em.
      destruct (spread (map hs starts)) as (a & b & E & L & A & B). { unfold starts. destruct moves; [congruence|discriminate]. }
      rewrite E. rewrite (Uniq _ _ _ Lo A), (Uniq' _ _ _ Hi B). auto. }
    assert (Ee : fold_left (fun r i => rg_contain r (rg_single (mi_ed i))) calc rg_empty = mkR (Fin lo') (Fin hi') /\ lo' <= hi').
    { rewrite Ec, fold_left_map'. cbn [mi_ed]. rewrite <- (fold_left_map' (fun r d => rg_contain r (rg_single (Fin d))) (fun p => he (snd p)) moves).
      assert (Em : map (fun p : V * V => he (snd p)) moves = map he ends) by (unfold ends; now rewrite map_map). rewrite Em.
      destruct (spread (map he ends)) as (a & b & E & L & A & B). { unfold ends. destruct moves; [congruence|discriminate]. }
      rewrite E. rewrite (Uniq _ _ _ Lo' A), (Uniq' _ _ _ Hi' B). auto. }
    destruct Es as [Es Ls], Ee as [Ee Le]. rewrite Es, Ee.
    assert (Rm : forall a b, rg_min (mkR (Fin a) (Fin b)) = Fin a) by reflexivity. assert (Rs : forall a b, rg_size (mkR (Fin a) (Fin b)) = Fin (b - a)) by reflexivity.
    rewrite !Rm, !Rs, fin_sub.
    match goal with |- context [rg_intersect ?z rg_unit] => set (Z := z) end.
    pose proof (cut_first Z (fun t => in_range (Fin t) Z = true) ltac:(tauto)) as C. cbv zeta in C.
    destruct (rg_is_empty _) eqn:Emp; [discriminate|].
    destruct C as (t & Et & F). set (times := rg_intersect Z rg_unit) in *.
    set (F1 := fun (a : Vec3 ER * ER) i => _). set (F2 := fun (a : Vec3 ER * ER) i => if n_lt (n_abs (n_sub (mi_ed i) _)) _ then _ else _).
    rewrite fin_0, vfin_zero, Ec, !fold_left_map'.
    assert (Hd : n_frac 1 100 = Fin (1 / 100)) by (rewrite n_frac_val; reflexivity).
    destruct (select_sum (fun p => if Rlt_dec (Rabs (hs (fst p) - lo)) ((hi - lo) / 100) then true else false) fst
      (fun a p => F1 a (mkMI (vfin (fst p)) (vfin (snd p)) (Fin (hs (fst p))) (Fin (he (snd p))))) moves) with (s := @vzero R RNum) (c := 0) as (s' & c' & E1 & S1 & C1).
    { intros s c p. unfold F1. cbn [mi_sd mi_start fst snd]. rewrite Hd, fin_mul, fin_sub, fin_abs, vfin_add, fin_1, fin_add.
      change (@n_lt ER EReal) with er_lt. destruct (Rlt_dec (Rabs (hs (fst p) - lo)) ((hi - lo) / 100)).
      - rewrite (proj2 (er_lt_fin _ _)) by lra. reflexivity.
      - rewrite (proj2 (er_lt_fin_f _ _)) by lra. reflexivity. }
    destruct (select_sum (fun p => if Rlt_dec (Rabs (he (snd p) - lo')) ((hi' - lo') / 100) then true else false) snd
      (fun a p => F2 a (mkMI (vfin (fst p)) (vfin (snd p)) (Fin (hs (fst p))) (Fin (he (snd p))))) moves) with (s := @vzero R RNum) (c := 0) as (s2 & c2 & E2 & S2 & C2).
    { intros s c p. unfold F2. cbn [mi_ed mi_end fst snd]. rewrite Hd, fin_mul, fin_sub, fin_abs, vfin_add, fin_1, fin_add.
      change (@n_lt ER EReal) with er_lt. destruct (Rlt_dec (Rabs (he (snd p) - lo')) ((hi' - lo') / 100)).
      - rewrite (proj2 (er_lt_fin _ _)) by lra. reflexivity.
      - rewrite (proj2 (er_lt_fin_f _ _)) by lra. reflexivity. }
    cbv beta in E1, E2 |- *. rewrite E1, E2. intros X. assert (Y := f_equal (fun o => match o with Some y => y | None => k end) X). cbv beta iota in Y. subst k. clear X. cbn [c_pos c_normal]. rewrite Et.
    split; [exists (vneg n); exact eq_refl|]. split. 2: {
      assert (D0 : vdivs (vfin (vadd vzero (mkV 0 0 0))) (Fin 0) = mkV ENaN ENaN ENaN).
      { unfold vdivs, vfin. vunfold. cbn. destruct (Req_EM_T 0 0); [|lra]. unfold er_inf_times.
        replace (0 / 1 + 0) with 0 by lra. destruct (Req_EM_T 0 0); [reflexivity|lra]. }
      assert (AN : forall u : Vec3 ER, vadd (mkV ENaN ENaN ENaN) u = mkV ENaN ENaN ENaN) by reflexivity.
      assert (NA : forall u : Vec3 ER, vadd u (mkV ENaN ENaN ENaN) = mkV ENaN ENaN ENaN) by (intros [u1 u2 u3]; unfold vadd; cbn; destruct u1, u2, u3; reflexivity).
      assert (SN : forall u : ER, vscale (mkV ENaN ENaN ENaN) u = mkV ENaN ENaN ENaN) by reflexivity.
      intros [Eq|Eq].
      - rewrite S1, C1, <- Eq, (filter_none (fun p => hs (fst p))). cbn [map vsum fold_right length INR]. rewrite Rplus_0_l, D0, SN. apply AN.
      - rewrite S2, C2, <- Eq, (filter_none (fun p => he (snd p))). cbn [map vsum fold_right length INR]. rewrite Rplus_0_l, D0, SN. apply NA. }
    intros Ln Le'.
    assert (Nz : forall (h : V -> R) (l : list V) a b, lowest (map h l) a -> a < b -> filter (fun x => if Rlt_dec (Rabs (h x - a)) ((b - a) / 100) then true else false) l <> []).
    { intros h l a b [Ia _] Hab X. apply in_map_iff in Ia. destruct Ia as (x & Hx & Ix).
      assert (In x []). { rewrite <- X. apply filter_In. split; auto. rewrite Hx. replace (a - a) with 0 by ring. rewrite Rabs_R0. destruct (Rlt_dec 0 ((b - a) / 100)); auto. lra. }
      contradiction. }
    assert (B1 : bottom starts ps n lo hi <> []) by (apply (Nz hs starts lo hi); auto).
    assert (B2 : bottom ends pe n lo' hi' <> []) by (apply (Nz he ends lo' hi'); auto).
    assert (M1 : bottom starts ps n lo hi = map fst (filter (fun p => if Rlt_dec (Rabs (hs (fst p) - lo)) ((hi - lo) / 100) then true else false) moves))
      by (unfold bottom, starts; rewrite filter_map; reflexivity).
    assert (M2 : bottom ends pe n lo' hi' = map snd (filter (fun p => if Rlt_dec (Rabs (he (snd p) - lo')) ((hi' - lo') / 100) then true else false) moves))
      by (unfold bottom, ends; rewrite filter_map; reflexivity).
    rewrite <- M1 in S1. rewrite <- M2 in S2. rewrite <- (map_length fst), <- M1 in C1. rewrite <- (map_length snd), <- M2 in C2.
    assert (L0 : forall l : list V, l <> [] -> 0 < INR (length l)) by (intros [|y l]; [congruence|intros _; apply lt_0_INR; simpl; lia]).
    pose proof (L0 _ B1) as P1. pose proof (L0 _ B2) as P2. rewrite Rplus_0_l in C1, C2.
    rewrite !vdivs_fin by lra. rewrite fin_1, fin_sub, !vfin_scale, vfin_add. eexists. exact eq_refl.
  Qed.
End MeshPlane.

(** ** All kinds of colliders *)
Lemma flat_same (l : list R) a b : lowest l a -> highest l b -> ((forall x y, In x l -> In y l -> x = y) <-> a = b) /\ a <= b.
Proof.
  intros (A1 & A2) (B1 & B2). split; [|now apply A2]. split.
  - intros H. now apply H.
  - intros <- x y Hx Hy. pose proof (A2 _ Hx). pose proof (A2 _ Hy). pose proof (B2 _ Hx). pose proof (B2 _ Hy). lra.
Qed.
Lemma level_heights (m : mesh_c ER) o (p : plane_c ER) pos vs n (a : V) : me_pos m = vfin pos -> me_verts m = map vfin vs -> pl_normal p = vfin n ->
  (level m o p <-> forall x y, In x (map (fun v => vdot (vsub (position_into_world o (vadd pos v)) a) n) vs) ->
                               In y (map (fun v => vdot (vsub (position_into_world o (vadd pos v)) a) n) vs) -> x = y).
Proof.
  intros Ep Ev En.
  assert (D : forall u w : V, vdot (vsub u w) n = vdot (vsub u a) n - vdot (vsub w a) n) by (intros; vunfold; ring).
  unfold level. rewrite Ev. split.
  - intros H x y Hx Hy. apply in_map_iff in Hx, Hy. destruct Hx as (v & <- & Hv), Hy as (w & <- & Hw).
    specialize (H pos n v w Ep En (in_map vfin _ _ Hv) (in_map vfin _ _ Hw)). rewrite D in H. lra.
  - intros H pos' n' v w Ep' En' Hv Hw. rewrite Ep in Ep'. apply vfin_inj in Ep'. subst pos'. rewrite En in En'. apply vfin_inj in En'. subst n'.
    apply in_map_iff in Hv, Hw. destruct Hv as (v' & Qv & Hv), Hw as (w' & Qw & Hw). apply vfin_inj in Qv, Qw. subst v' w'. rewrite D.
    rewrite (H (vdot (vsub (position_into_world o (vadd pos v)) a) n) (vdot (vsub (position_into_world o (vadd pos w)) a) n)); [ring| |]; apply in_map_iff; eexists; (split; [exact eq_refl|assumption]).
Qed.
Lemma mesh_plane_settled (m : mesh_c ER) (p : plane_c ER) s1 e1 s2 e2 k : proper_shape (CMesh m) -> proper_shape (CPlane p) ->
  collide_mesh_with_plane (me_verts m) (me_pos m) (ofin s1) (ofin e1) (position_into_world (ofin s2) (pl_pos p)) (position_into_world (ofin e2) (pl_pos p)) (pl_normal p) = Some k ->
  finite_v (c_normal k) /\ (level m s1 p \/ level m e1 p -> c_pos k = nanv) /\ (~ (level m s1 p \/ level m e1 p) -> finite_v (c_pos k)).
Proof.
  intros ((pos & Ep) & vs & Ev & Nv) ((pp & Epp) & n & En) H. rewrite Ep, Ev, Epp, En, !into_world_fin in H.
  set (ps := position_into_world s2 pp) in *. set (pe := position_into_world e2 pp) in *.
  assert (Hs : map (fun x : V => vdot (vsub x ps) n) (map fst (mesh_moves pos vs s1 e1)) = map (fun v => vdot (vsub (position_into_world s1 (vadd pos v)) ps) n) vs)
    by (unfold mesh_moves; rewrite !map_map; exact eq_refl).
  assert (He : map (fun x : V => vdot (vsub x pe) n) (map snd (mesh_moves pos vs s1 e1)) = map (fun v => vdot (vsub (position_into_world e1 (vadd pos v)) pe) n) vs)
    by (unfold mesh_moves; rewrite !map_map; exact eq_refl).
  assert (NE : forall f : V -> R, map f vs <> []) by (intros f; destruct vs; [congruence|discriminate]).
  destruct (spread _ (NE (fun v => vdot (vsub (position_into_world s1 (vadd pos v)) ps) n))) as (lo & hi & _ & _ & Lo & Hi).
  destruct (spread _ (NE (fun v => vdot (vsub (position_into_world e1 (vadd pos v)) pe) n))) as (lo' & hi' & _ & _ & Lo' & Hi').
  destruct (flat_same _ _ _ Lo Hi) as (F1 & L1). destruct (flat_same _ _ _ Lo' Hi') as (F2 & L2).
  rewrite (level_heights m s1 p pos vs n ps Ep Ev En), (level_heights m e1 p pos vs n pe Ep Ev En), F1, F2.
  rewrite <- Hs in Lo, Hi. rewrite <- He in Lo', Hi'.
  destruct (plane_settled vs pos s1 e1 ps pe n Nv lo hi lo' hi' Lo Hi Lo' Hi' k H) as (A & B & C). split; [exact A|]. split; [exact C|]. intros D. apply B; lra.
Qed.
Lemma ball_mesh_settled (a : sphere_c ER) (m : mesh_c ER) s1 e1 s2 e2 k : proper_shape (CSphere a) -> proper_shape (CMesh m) ->
  collide_sphere_with_mesh (sp_radius a) (position_into_world (ofin s1) (sp_center a)) (world_move (sp_center a) (ofin s1) (ofin e1))
    (vertices_in_world m (ofin s2)) (me_edges m) (me_faces m) (world_move (me_pos m) (ofin s2) (ofin e2)) = Ok (Some k) ->
  finite_v (c_pos k) /\ (finite_v (c_normal k) \/ (c_normal k = nanv /\ c_pos k = position_into_world (ofin s1) (sp_center a))).
Proof.
  intros ((x & Ex) & r & Er & Hr) ((pos & Ep) & vs & Ev & Nv) H. apply mesh_earliest in H. destruct H as (H & _). rewrite Ex, Er, Ep, into_world_fin, !world_move_fin in *.
  set (c := position_into_world s1 x) in *. set (mv := vsub (position_into_world e2 pos) _) in *. set (d := vsub (position_into_world e1 x) _) in *.
  assert (W : vertices_in_world m (ofin s2) = map vfin (map (fun v => position_into_world s2 (vadd pos v)) vs)).
  { unfold vertices_in_world. rewrite Ep, Ev, !map_map. exact eq_refl. }
  rewrite W in H. set (ws := map (fun v => position_into_world s2 (vadd pos v)) vs) in *.
  assert (S : forall k, settled c k -> finite_v (c_pos k) /\ (finite_v (c_normal k) \/ (c_normal k = nanv /\ c_pos k = vfin c))).
  { intros k0 (y & Ey & [(D & N)|(D & N)]); (split; [exists y; exact Ey|]); [left; exact N|right; split; [exact N|congruence]]. }
  assert (NF : forall i p, nth_error (map vfin ws) i = Some p -> exists q, p = vfin q).
  { intros i p E. apply nth_error_In in E. apply in_map_iff in E. destruct E as (q & E & _). exists q. congruence. }
  destruct H as [v k Hv K|i j p q k _ Hp Hq K|f ps k _ Hf K].
  - apply in_map_iff in Hv. destruct Hv as (w & <- & _). rewrite fin_0 in K. apply S. exact (ball_settled r c d 0 w mv k ltac:(lra) K).
  - destruct (NF _ _ Hp) as (p' & ->), (NF _ _ Hq) as (q' & ->). apply S. exact (proj2 (segment_settled _ _ _ _ _ _ _ K)).
  - assert (E : exists pol, ps = map vfin pol).
    { clear K. induction Hf as [|i p f ps Hi Hf IH]; [exists []; exact eq_refl|]. destruct IH as (pol & ->). destruct (NF _ _ Hi) as (q & ->). exists (q :: pol). exact eq_refl. }
    destruct E as (pol & ->). apply polygon_settled in K. destruct K as (K1 & K2). split; [exact K1|left; exact K2].
Qed.
Lemma transform_settled (k : collision ER) s e t : c_time k = Fin t -> finite_v (c_pos k) -> finite_v (c_normal k) ->
  finite_v (c_pos (transform_out_of k (ofin s) (ofin e))) /\ finite_v (c_normal (transform_out_of k (ofin s) (ofin e))).
Proof.
  intros Et (x & Ex) (n & En). unfold transform_out_of. rewrite Et, lerp_fin, Ex, En. cbn [c_pos c_normal]. split.
  - exists (position_into_world (rlerp t s e) x). exact eq_refl.
  - exists (direction_into_world (rlerp t s e) n). exact eq_refl.
Qed.
Lemma flip_fin (k : collision ER) : finite_v (c_normal k) -> finite_v (c_normal (scale_normal k nm1)).
Proof. intros (n & En). unfold scale_normal. cbn [c_normal]. rewrite En, fin_m1, vfin_scale. eexists. exact eq_refl. Qed.
Lemma flip_pos (k : collision ER) x : c_pos (scale_normal k x) = c_pos k.
Proof. exact eq_refl. Qed.
Lemma flip_nan (k : collision ER) : c_normal k = nanv -> c_normal (scale_normal k nm1) = nanv.
Proof. intros En. unfold scale_normal. cbn [c_normal]. rewrite En, fin_m1. exact eq_refl. Qed.
Lemma flip_some (o : option (collision ER)) k : flip o = Some k -> exists k0, o = Some k0 /\ k = scale_normal k0 nm1.
Proof. destruct o as [k0|]; [|discriminate]. intros H. exists k0. split; [exact eq_refl|]. cbn [flip] in H. congruence. Qed.

Lemma ball_box_inv {T} {N : Num T} (a : sphere_c T) s1 e1 (b : box_c T) s2 e2 k : collide (CSphere a) s1 e1 (CBox b) s2 e2 = Ok (Some k) ->
  exists k0, collide_sphere_with_aligned_box (sp_radius a) (position_into_local s2 (position_into_world s1 (sp_center a)))
    (vsub (position_into_local e2 (position_into_world e1 (sp_center a))) (position_into_local s2 (position_into_world s1 (sp_center a)))) (bx_min b) (bx_max b) = Some k0 /\
    k = transform_out_of k0 s2 e2.
Proof. intros H. cbn [collide] in H. destruct (collide_sphere_with_aligned_box _ _ _ _ _) as [k0|]; [|discriminate]. exists k0. split; [reflexivity|congruence]. Qed.
Lemma box_ball_inv {T} {N : Num T} (b : box_c T) s1 e1 (a : sphere_c T) s2 e2 k : collide (CBox b) s1 e1 (CSphere a) s2 e2 = Ok (Some k) ->
  exists k0, collide_sphere_with_aligned_box (sp_radius a) (position_into_local s1 (position_into_world s2 (sp_center a)))
    (vsub (position_into_local e1 (position_into_world e2 (sp_center a))) (position_into_local s1 (position_into_world s2 (sp_center a)))) (bx_min b) (bx_max b) = Some k0 /\
    k = scale_normal (transform_out_of k0 s1 e1) nm1.
Proof. intros H. cbn [collide] in H. destruct (collide_sphere_with_aligned_box _ _ _ _ _) as [k0|]; [|discriminate]. exists k0. split; [reflexivity|congruence]. Qed.
Definition well k c1 s1 e1 c2 s2 e2 : Prop :=
  (flat_contact c1 s1 e1 c2 s2 e2 -> c_pos k = nanv) /\ (~ flat_contact c1 s1 e1 c2 s2 e2 -> finite_v (c_pos k)) /\
  (finite_v (c_normal k) \/ (c_normal k = nanv /\ centred_contact c1 s1 c2 s2 k)).
Lemma well_ball_ball a s1 e1 b s2 e2 k : proper_shape (CSphere a) -> proper_shape (CSphere b) -> collide (CSphere a) (ofin s1) (ofin e1) (CSphere b) (ofin s2) (ofin e2) = Ok (Some k) ->
  well k (CSphere a) s1 e1 (CSphere b) s2 e2.
Proof.
  intros P1 P2 H. cbn [collide] in H. unfold well. cbn [flat_contact centred_contact].
  apply ok_inj in H. destruct P1 as ((x & Ex) & r & Er & Hr), P2 as ((y & Ey) & r' & Er' & Hr'). rewrite Ex, Er, Ey, Er', !into_world_fin, !world_move_fin in *.
    apply ball_settled in H; [|lra]. destruct H as (z & Ez & H). split; [intros []|]. split; [intros _; exists z; exact Ez|].
    destruct H as [(D & N)|(D & N)]; [left; exact N|right; split; [exact N|congruence]].
Qed.
Lemma well_ball_plane a s1 e1 b s2 e2 k : proper_shape (CSphere a) -> proper_shape (CPlane b) -> collide (CSphere a) (ofin s1) (ofin e1) (CPlane b) (ofin s2) (ofin e2) = Ok (Some k) ->
  well k (CSphere a) s1 e1 (CPlane b) s2 e2.
Proof.
  intros P1 P2 H. cbn [collide] in H. unfold well. cbn [flat_contact centred_contact].
  destruct P1 as ((x & Ex) & r & Er & Hr), P2 as ((y & Ey) & n & En).
    assert (H' : collide (CSphere a) (ofin s1) (ofin e1) (CPlane b) (ofin s2) (ofin e2) = Ok (Some k)) by exact H.
    destruct (sphere_plane_finite _ _ _ _ _ _ _ _ _ _ _ Ex Er Ey En H') as (F1 & F2). split; [intros []|]. split; [intros _; exact F1|left; exact F2].
Qed.
Lemma well_ball_mesh a s1 e1 b s2 e2 k : proper_shape (CSphere a) -> proper_shape (CMesh b) -> collide (CSphere a) (ofin s1) (ofin e1) (CMesh b) (ofin s2) (ofin e2) = Ok (Some k) ->
  well k (CSphere a) s1 e1 (CMesh b) s2 e2.
Proof.
  intros P1 P2 H. cbn [collide] in H. unfold well. cbn [flat_contact centred_contact].
  apply ball_mesh_settled in H; [|exact P1|exact P2]. destruct H as (F1 & F2). split; [intros []|]. split; [intros _; exact F1|exact F2].
Qed.
Lemma well_ball_box a s1 e1 b s2 e2 k : proper_shape (CSphere a) -> proper_shape (CBox b) -> collide (CSphere a) (ofin s1) (ofin e1) (CBox b) (ofin s2) (ofin e2) = Ok (Some k) ->
  well k (CSphere a) s1 e1 (CBox b) s2 e2.
Proof.
  intros P1 P2 H. apply ball_box_inv in H. destruct H as (k0 & K & ->). unfold well. cbn [flat_contact centred_contact].
  destruct P1 as ((x & Ex) & r & Er & Hr), P2 as (mn & mx & E1 & E2 & Hx & Hy & Hz). rewrite Ex, Er, E1, E2, !into_world_fin, !into_local_fin, vfin_sub in K.
    apply box_settled in K; try assumption. destruct K as ((t & Et) & F1 & F2). destruct (transform_settled k0 s2 e2 t Et F1 F2) as (G1 & G2).
    split; [intros []|]. split; [intros _; exact G1|left; exact G2].
Qed.
Lemma well_plane_ball a s1 e1 b s2 e2 k : proper_shape (CPlane a) -> proper_shape (CSphere b) -> collide (CPlane a) (ofin s1) (ofin e1) (CSphere b) (ofin s2) (ofin e2) = Ok (Some k) ->
  well k (CPlane a) s1 e1 (CSphere b) s2 e2.
Proof.
  intros P1 P2 H. cbn [collide] in H. unfold well. cbn [flat_contact centred_contact].
  apply ok_inj in H. destruct (flip_some _ _ H) as (k0 & K & ->). clear H. destruct P2 as ((x & Ex) & r & Er & Hr), P1 as ((y & Ey) & n & En).
    assert (H' : collide (CSphere b) (ofin s2) (ofin e2) (CPlane a) (ofin s1) (ofin e1) = Ok (Some k0)) by exact (f_equal Ok K).
    destruct (sphere_plane_finite _ _ _ _ _ _ _ _ _ _ _ Ex Er Ey En H') as (F1 & F2). split; [intros []|]. split; [intros _; exact F1|left; exact (flip_fin _ F2)].
Qed.
Lemma well_plane_mesh a s1 e1 b s2 e2 k : proper_shape (CPlane a) -> proper_shape (CMesh b) -> collide (CPlane a) (ofin s1) (ofin e1) (CMesh b) (ofin s2) (ofin e2) = Ok (Some k) ->
  well k (CPlane a) s1 e1 (CMesh b) s2 e2.
Proof.
  intros P1 P2 H. cbn [collide] in H. unfold well. cbn [flat_contact centred_contact].
  apply ok_inj in H. destruct (flip_some _ _ H) as (k0 & K & ->). clear H.
    destruct (mesh_plane_settled _ _ _ _ _ _ _ P2 P1 K) as (F1 & F2 & F3). split; [exact F2|]. split; [exact F3|]. left. exact (flip_fin _ F1).
Qed.
Lemma well_mesh_ball a s1 e1 b s2 e2 k : proper_shape (CMesh a) -> proper_shape (CSphere b) -> collide (CMesh a) (ofin s1) (ofin e1) (CSphere b) (ofin s2) (ofin e2) = Ok (Some k) ->
  well k (CMesh a) s1 e1 (CSphere b) s2 e2.
Proof.
  intros P1 P2 H. cbn [collide] in H. unfold well. cbn [flat_contact centred_contact].
  destruct (collide_sphere_with_mesh _ _ _ _ _ _ _) as [o| |] eqn:K; cbn [rbind] in H; try discriminate. apply ok_inj in H. destruct (flip_some _ _ H) as (k0 & -> & ->). clear H.
    apply ball_mesh_settled in K; [|exact P2|exact P1]. destruct K as (F1 & F2). split; [intros []|]. split; [intros _; exact F1|].
    destruct F2 as [F2|(F2 & F3)]; [left; exact (flip_fin _ F2)|right; split; [exact (flip_nan _ F2)|exact F3]].
Qed.
Lemma well_mesh_plane a s1 e1 b s2 e2 k : proper_shape (CMesh a) -> proper_shape (CPlane b) -> collide (CMesh a) (ofin s1) (ofin e1) (CPlane b) (ofin s2) (ofin e2) = Ok (Some k) ->
  well k (CMesh a) s1 e1 (CPlane b) s2 e2.
Proof.
  intros P1 P2 H. cbn [collide] in H. unfold well. cbn [flat_contact centred_contact].
  apply ok_inj in H.
    destruct (mesh_plane_settled _ _ _ _ _ _ _ P1 P2 H) as (F1 & F2 & F3). split; [exact F2|]. split; [exact F3|]. left. exact F1.
Qed.
Lemma well_mesh_mesh a s1 e1 b s2 e2 k : proper_shape (CMesh a) -> proper_shape (CMesh b) -> collide (CMesh a) (ofin s1) (ofin e1) (CMesh b) (ofin s2) (ofin e2) = Ok (Some k) ->
  well k (CMesh a) s1 e1 (CMesh b) s2 e2.
Proof.
  intros P1 P2 H. cbn [collide] in H. unfold well. cbn [flat_contact centred_contact].
  destruct P1 as ((x & Ex) & vs & Ev & _), P2 as ((y & Ey) & ws & Ew & _).
    destruct (mesh_mesh_fin a b x vs y ws s1 e1 s2 e2 _ Ex Ev Ey Ew H) as (t & z & n & _ & Ez & En & _). split; [intros []|]. split; [intros _; exists z; exact Ez|left; exists n; exact En].
Qed.
Lemma well_box_ball a s1 e1 b s2 e2 k : proper_shape (CBox a) -> proper_shape (CSphere b) -> collide (CBox a) (ofin s1) (ofin e1) (CSphere b) (ofin s2) (ofin e2) = Ok (Some k) ->
  well k (CBox a) s1 e1 (CSphere b) s2 e2.
Proof.
  intros P1 P2 H. apply box_ball_inv in H. destruct H as (k0 & K & ->). unfold well. cbn [flat_contact centred_contact].
  destruct P2 as ((x & Ex) & r & Er & Hr), P1 as (mn & mx & E1 & E2 & Hx & Hy & Hz). rewrite Ex, Er, E1, E2, !into_world_fin, !into_local_fin, vfin_sub in K.
    apply box_settled in K; try assumption. destruct K as ((t & Et) & F1 & F2). destruct (transform_settled k0 s1 e1 t Et F1 F2) as (G1 & G2).
    split; [intros []|]. split; [intros _; rewrite flip_pos; exact G1|left; exact (flip_fin _ G2)].
Qed.
Lemma well_defined c1 s1 e1 c2 s2 e2 k : proper_shape c1 -> proper_shape c2 -> collide c1 (ofin s1) (ofin e1) c2 (ofin s2) (ofin e2) = Ok (Some k) ->
  (flat_contact c1 s1 e1 c2 s2 e2 -> c_pos k = nanv) /\ (~ flat_contact c1 s1 e1 c2 s2 e2 -> finite_v (c_pos k)) /\
  (finite_v (c_normal k) \/ (c_normal k = nanv /\ centred_contact c1 s1 c2 s2 k)).
Proof.
  intros P1 P2 H. change (well k c1 s1 e1 c2 s2 e2).
  destruct c1 as [a|a|a|a|a], c2 as [b|b|b|b|b]; try (exfalso; discriminate H).
  - exact (well_ball_ball a s1 e1 b s2 e2 k P1 P2 H).
  - exact (well_ball_plane a s1 e1 b s2 e2 k P1 P2 H).
  - exact (well_ball_mesh a s1 e1 b s2 e2 k P1 P2 H).
  - exact (well_ball_box a s1 e1 b s2 e2 k P1 P2 H).
  - exact (well_plane_ball a s1 e1 b s2 e2 k P1 P2 H).
  - exact (well_plane_mesh a s1 e1 b s2 e2 k P1 P2 H).
  - exact (well_mesh_ball a s1 e1 b s2 e2 k P1 P2 H).
  - exact (well_mesh_plane a s1 e1 b s2 e2 k P1 P2 H).
  - exact (well_mesh_mesh a s1 e1 b s2 e2 k P1 P2 H).
  - exact (well_box_ball a s1 e1 b s2 e2 k P1 P2 H).
Qed.
(** Two balls: the normal is lost exactly then. *)
Lemma balls_lost a s1 e1 b s2 e2 k : proper_shape (CSphere a) -> proper_shape (CSphere b) -> collide (CSphere a) (ofin s1) (ofin e1) (CSphere b) (ofin s2) (ofin e2) = Ok (Some k) ->
  (c_normal k = nanv <-> c_pos k = position_into_world (ofin s1) (sp_center a)).
Proof.
  intros ((x & Ex) & r & Er & Hr) ((y & Ey) & r' & Er' & Hr') H. cbn [collide] in H. apply ok_inj in H. rewrite Ex, Er, Ey, Er', !into_world_fin, !world_move_fin in *.
  apply ball_settled in H; [|lra]. destruct H as (z & Ez & [(D & (n & N))|(D & N)]).
  - split; intros Q; exfalso.
    + rewrite N in Q. assert (X := f_equal vx Q). discriminate.
    + apply D. apply vfin_inj. congruence.
  - split; intros _; [congruence|exact N].
Qed.
