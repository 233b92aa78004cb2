(** * PassP: brisk contacts are found (for C63 and C68) *)
From Coq Require Import ZArith Reals List Bool Arith Lra Lia Psatz.
Import ListNotations.
From Verif Require Import Num Vec Res Arena RangeM Orient Colliders Collide EntityM SystemM OrderP Spec PhysSpec TraceSpec
  ResP ArenaP RangeP MeshP CollideP RealSpec RealV OrientP Orient2P GeomP Geom2P Geom3P Geom4P Geom5P Geom6P ShapeP.
Local Open Scope R_scope.

(** ** Order of handles *)
Section Sorted.
  Context {A : Type}.
  Lemma ahandles_from_sorted (l : list (entry A)) : forall i x y h k, nth_error (ahandles_from i l) x = Some h -> nth_error (ahandles_from i l) y = Some k ->
    (h_idx h < h_idx k)%nat -> (x < y)%nat.
  Proof.
    induction l as [|[f|g a] l IH]; intros i x y h k Hx Hy Hl; cbn [ahandles_from] in *.
    - destruct x; discriminate.
    - eauto.
    - assert (L : forall z q, nth_error (ahandles_from (S i) l) z = Some q -> (i < h_idx q)%nat).
      { intros z q Hz. apply nth_error_In, ahandles_from_in in Hz. destruct Hz as (u & Hz & _). lia. }
      destruct x as [|x], y as [|y]; cbn [nth_error] in *.
      + exfalso. injection Hx as <-. injection Hy as <-. lia.
      + lia.
      + exfalso. injection Hy as <-. apply L in Hx. cbn [h_idx] in Hl. lia.
      + pose proof (IH _ _ _ _ _ Hx Hy Hl). lia.
  Qed.
  Lemma ahandles_idx (a : arena A) h k : aget a h <> None -> aget a k <> None -> h_idx h = h_idx k -> h = k.
  Proof.
    intros Hh Hk E. destruct (aget a h) as [x|] eqn:A1; [|contradiction]. destruct (aget a k) as [y|] eqn:A2; [|contradiction].
    apply aget_nth in A1. apply aget_nth in A2. rewrite E in A1. rewrite A1 in A2. injection A2 as G _. destruct h, k. cbn in *. congruence.
  Qed.
End Sorted.

(** ** Entities that fly straight *)
(** The entity [e] with the planned movement [i] for the time [D] is the mover [m], not turning. *)
Definition flies (e : ientity ER) (i : info ER) (m : mover) (D : R) : Prop :=
  e_orient e = ofin (mv_o m) /\ unit_o (mv_o m) /\ e_vel e = vfin (mv_vel m) /\ e_angvel e = vfin (mkV 0 0 0) /\
  i_lin i = vscale (e_vel e) (Fin D) /\ i_ang i = vscale (e_angvel e) (Fin D).
Definition moved (m : mover) (D : R) : orientation R := mkO (vadd (o_pos (mv_o m)) (vscale (mv_vel m) D)) (o_rot (mv_o m)) (o_off (mv_o m)).
Lemma rexp_rest D : rexp (vscale (mkV 0 0 0) D) = mkQ 0 0 0 1.
Proof.
  unfold rexp. cbv zeta. destruct (Rle_dec _ _) as [|N]; [exact eq_refl|exfalso]. apply N. pose proof tiny_pos.
  replace (vdot _ _) with 0 by (vunfold; ring). nra.
Qed.
Lemma flies_end e i m D : flies e i m D -> after_affected (e_orient e) (i_lin i) (i_ang i) = ofin (moved m D).
Proof.
  intros (A & _ & B & C & L1 & L2). rewrite L1, L2, A, B, C. unfold after_affected. cbn [ofin o_pos o_rot o_off]. rewrite !vfin_scale, exp_fin, rexp_rest, vfin_add.
  unfold moved, ofin. cbn [o_pos o_rot o_off]. f_equal. change (qmul (qfin (mkQ 0 0 0 1)) (qfin (o_rot (mv_o m))) = qfin (o_rot (mv_o m))).
  replace (qmul (qfin (mkQ 0 0 0 1)) (qfin (o_rot (mv_o m)))) with (qfin (qmul (mkQ 0 0 0 1) (o_rot (mv_o m)))) by exact eq_refl. f_equal.
  destruct (o_rot (mv_o m)) as [ri rj rk rw]. unfold qmul. f_equal; qunfold; ring.
Qed.
Lemma moved_place m D c : unit_o (mv_o m) -> position_into_world (moved m D) c = place m c D.
Proof.
  intros U. unfold place. rewrite !world_form by exact U. unfold moved. cbn [o_pos o_rot o_off]. apply vext; vunfold; ring.
Qed.
Lemma along_place m D c u : unit_o (mv_o m) -> along (position_into_world (mv_o m) c) (position_into_world (moved m D) c) u = place m c (u * D).
Proof. intros U. rewrite moved_place by exact U. unfold along, place. apply vext; vunfold; ring. Qed.
Lemma place_move m D c : unit_o (mv_o m) -> vsub (position_into_world (moved m D) c) (position_into_world (mv_o m) c) = vscale (mv_vel m) D.
Proof. intros U. rewrite moved_place by exact U. unfold place. apply vext; vunfold; ring. Qed.
Lemma flies_speed e i m D x : flies e i m D -> velocity_at e (vfin x) = vfin (mv_vel m).
Proof.
  intros (A & _ & B & C & _). unfold velocity_at. rewrite A, B, C. cbn [ofin o_pos]. rewrite vfin_sub, vfin_cross, vfin_add. f_equal. apply vext; vunfold; ring.
Qed.

(** ** Ball and half space, at any speed *)
Lemma some_inj {A} (x y : A) : Some x = Some y -> x = y.
Proof. intros H. exact (f_equal (fun o => match o with Some z => z | None => x end) H). Qed.
(** A movement slower than the threshold is taken for none. *)
Lemma overlap_slow a b v : Rabs v < 1 / 1000000 -> rg_linear_overlap a b (Fin v) = rg_linear_overlap a b (Fin 0).
Proof.
  intros H. unfold rg_linear_overlap. rewrite !(proj2 (abs_lt_eps _)); [exact eq_refl|rewrite Rabs_R0; lra|exact H].
Qed.
Lemma plane_law (r : R) (c m p n mv : V) : 0 <= r -> vdot n n = 1 ->
  let gap t := vdot (vsub (vadd c (vscale m t)) (vadd p (vscale mv t))) n - r in
  match collide_sphere_with_plane (Fin r) (vfin c) (vfin m) (vfin p) (vfin n) (vfin mv) with
  | None => 0 < gap 0 /\ (1 / 1000000 <= Rabs (vdot mv n - vdot m n) -> forall t, 0 <= t <= 1 -> 0 < gap t)
  | Some k => exists t, c_time k = Fin t /\ 0 <= t <= 1 /\ gap t <= 0 /\ (t <> 0 -> gap t = 0) /\ (forall u, 0 <= u < t -> 0 < gap u) /\
      c_pos k = vfin (vsub (vadd c (vscale m t)) (vscale n r)) /\ c_normal k = vfin (vneg n)
  end.
Proof.
  intros R0 Un gap.
  assert (Lin : forall t, gap t = gap 0 + t * (vdot m n - vdot mv n)) by (intros; unfold gap; vunfold; ring).
  assert (Tch : forall t, (exists x, within x (vadd c (vscale m t)) r /\ behind x (vadd p (vscale mv t)) n) <-> gap t <= 0).
  { intros t. refine (iff_trans (halfspace_touch _ _ n r R0 Un) _). unfold gap.
    replace (vdot (vsub (vadd c (vscale m t)) (vadd p (vscale mv t))) n) with (vdot (vadd c (vscale m t)) n - vdot (vadd p (vscale mv t)) n) by (vunfold; ring). lra. }
  destruct (Rlt_le_dec (Rabs (vdot mv n - vdot m n)) (1 / 1000000)) as [Sl|Fa].
  - pose proof (sphere_plane r c (mkV 0 0 0) p n (mkV 0 0 0) R0 Un) as X. cbv zeta in X. specialize (X ltac:(left; vunfold; ring)).
    assert (Tch0 : forall t, (exists x, within x (vadd c (vscale (mkV 0 0 0) t)) r /\ behind x (vadd p (vscale (mkV 0 0 0) t)) n) <-> gap 0 <= 0).
    { intros t. refine (iff_trans _ (Tch 0)).
      assert (E : forall q u : V, vadd q (vscale (mkV 0 0 0) t) = vadd q (vscale u 0)) by (intros; apply vext; vunfold; ring).
      rewrite (E c m), (E p mv). apply iff_refl. }
    unfold collide_sphere_with_plane in *. cbv zeta in *.
    assert (Eo : forall mm vv : V, vdot vv n - vdot mm n = 0 -> 
      sphere_plane_overlap_time (Fin r) (vfin c) (vfin m) (vfin p) (vfin n) (vfin mv) true = sphere_plane_overlap_time (Fin r) (vfin c) (vfin mm) (vfin p) (vfin n) (vfin vv) true).
    { intros mm vv Z. unfold sphere_plane_overlap_time. cbv zeta. rewrite !(vfin_dot mv), !(vfin_dot m), (vfin_dot vv), (vfin_dot mm), !fin_sub, Z. now apply overlap_slow. }
    rewrite (Eo (mkV 0 0 0) (mkV 0 0 0)) by (vunfold; ring). destruct (rg_is_empty _).
    + split; [|intros; lra]. destruct (Rlt_le_dec 0 (gap 0)) as [|L]; [assumption|exfalso]. apply (X 0); [lra|]. now apply Tch0.
    + destruct X as (t & x & Et & (Ht & H1 & H2) & _). unfold c_time in Et. cbn [c_times] in Et.
      assert (G0 : gap 0 <= 0) by (apply (Tch0 t); exact H1). assert (t <= 0) by (apply H2; [lra|]; now apply Tch0). assert (t = 0) by lra. subst t.
      exists 0. unfold c_time. cbn [c_times c_pos c_normal]. rewrite Et. split; [exact eq_refl|]. split; [lra|]. split; [exact G0|]. split; [intros; lra|]. split; [intros; lra|].
      split; [|exact (vfin_neg n)]. rewrite fin_neg, !vfin_scale, !vfin_add. f_equal. apply vext; vunfold; ring.
  - pose proof (sphere_plane r c m p n mv R0 Un (or_intror Fa)) as X. cbv zeta in X.
    assert (Pos : forall k t, collide_sphere_with_plane (Fin r) (vfin c) (vfin m) (vfin p) (vfin n) (vfin mv) = Some k -> c_time k = Fin t ->
      c_pos k = vfin (vsub (vadd c (vscale m t)) (vscale n r))).
    { intros k t. unfold collide_sphere_with_plane. cbv zeta. destruct (rg_is_empty _); [discriminate|]. intros E. assert (E' := some_inj _ _ E). subst k. unfold c_time. cbn [c_times c_pos]. intros ->.
      rewrite fin_neg, !vfin_scale, !vfin_add. f_equal. apply vext; vunfold; ring. }
    destruct (collide_sphere_with_plane _ _ _ _ _ _) as [k|].
    + destruct X as (t & x & Et & (Ht & H1 & H2) & Hn & _ ). exists t. split; [exact Et|]. split; [exact Ht|].
      assert (G : gap t <= 0) by (apply Tch; exact H1). split; [exact G|].
      assert (B : forall u, 0 <= u < t -> 0 < gap u).
      { intros u Hu. destruct (Rlt_le_dec 0 (gap u)) as [|L]; [assumption|exfalso]. assert (t <= u) by (apply H2; [lra|]; now apply Tch). lra. }
      split; [|split; [exact B|split; [exact (Pos _ _ eq_refl Et)|exact Hn]]].
      intros T0. destruct G as [G|G]; [exfalso|exact G]. assert (G0 : 0 < gap 0) by (apply B; lra).
      set (u := t * (gap 0 / (gap 0 - gap t))).
      assert (0 < gap 0 / (gap 0 - gap t) < 1).
      { split; [apply Rdiv_lt_0_compat; lra|]. apply Rmult_lt_reg_r with (gap 0 - gap t); [lra|]. unfold Rdiv. rewrite Rmult_assoc, Rinv_l by lra. lra. }
      assert (Hu : 0 <= u < t) by (unfold u; split; nra). specialize (B _ Hu). rewrite Lin in B. rewrite (Lin t) in G.
      assert (E : u * (vdot m n - vdot mv n) = - gap 0); [|lra]. unfold u. pose proof (Lin t) as Lt.
      replace (t * (gap 0 / (gap 0 - gap t)) * (vdot m n - vdot mv n)) with (t * (vdot m n - vdot mv n) * (gap 0 / (gap 0 - gap t))) by ring.
      replace (t * (vdot m n - vdot mv n)) with (gap t - gap 0) by lra. field. lra.
    + assert (forall t, 0 <= t <= 1 -> 0 < gap t).
      { intros t Ht. destruct (Rlt_le_dec 0 (gap t)) as [|L]; [assumption|exfalso]. apply (X t Ht). now apply Tch. }
      split; [apply H; lra|auto].
Qed.

(** ** Two balls *)
Lemma vlen_sq (v : V) : vlen v * vlen v = vdot v v. Proof. apply sqrt_sqrt, vdot_pos. Qed.
Lemma vlen_add (v u : V) : vlen (vadd v u) <= vlen v + vlen u.
Proof.
  assert (P := sqrt_pos (vdot v v)). assert (P' := sqrt_pos (vdot u u)). fold (vlen v) in P. fold (vlen u) in P'.
  apply Rsqr_incr_0_var; [|lra]. unfold Rsqr. rewrite vlen_sq. pose proof (vlen_sq v) as E1. pose proof (vlen_sq u) as E2.
  assert (E : vdot (vadd v u) (vadd v u) = vdot v v + vdot u u + 2 * vdot v u) by (vunfold; ring). rewrite E.
  pose proof (cauchy v u) as C. rewrite <- E1, <- E2 in C. 
  assert (- (vlen v * vlen u) <= vdot v u <= vlen v * vlen u).
  { apply sqr_le_abs; [apply Rmult_le_pos; assumption|]. eapply Rle_trans; [exact C|]. right. ring. }
  nra.
Qed.
Lemma near_touch (x1 x2 : V) r1 r2 : 0 <= r1 -> 0 <= r2 -> 0 < r1 + r2 -> (exists x, within x x1 r1 /\ within x x2 r2) <-> dist x1 x2 <= r1 + r2.
Proof.
  intros H1 H2 H. refine (iff_trans (balls_touch x1 x2 r1 r2 H1 H2 H) _). unfold dist. set (z := vdot _ _). assert (Z : 0 <= z) by apply vdot_pos. split; intros L.
  - rewrite <- (sqrt_square (r1 + r2)) by lra. now apply sqrt_le_1_alt.
  - rewrite <- (sqrt_sqrt z) by exact Z. assert (0 <= sqrt z) by apply sqrt_pos. nra.
Qed.
Section Pair.
  Variables (cols : arena (collider ER)) (ents : arena (ientity ER)) (i1 i2 : info ER) (e1 e2 : ientity ER) (k1 k2 : handle) (m1 m2 : mover) (D a : R).
  Hypothesis G1 : aget ents (i_h i1) = Some e1.
  Hypothesis G2 : aget ents (i_h i2) = Some e2.
  Hypothesis N1 : ~ In (i_h i2) (e_neighbors e1).
  Hypothesis N2 : ~ In (i_h i1) (e_neighbors e2).
  Hypothesis K1 : In k1 (e_colliders e1).
  Hypothesis K2 : In k2 (e_colliders e2).
  Hypothesis F1 : flies e1 i1 m1 D.
  Hypothesis F2 : flies e2 i2 m2 D.
  Hypothesis D0 : 0 < D.
  Hypothesis AD : a <= D.

  Lemma unit_time : 0 <= a -> 0 <= a / D <= 1.
  Proof.
    intros A0. pose proof (Rinv_0_lt_compat _ D0). assert (E : D * / D = 1) by (field; lra). unfold Rdiv. split; nra.
  Qed.
  Lemma time_back : a / D * D = a. Proof. field. lra. Qed.

  Lemma balls_found b1 b2 c1 r1 c2 r2 : aget cols k1 = Some (CSphere b1) -> aget cols k2 = Some (CSphere b2) ->
    sp_center b1 = vfin c1 -> sp_radius b1 = Fin r1 -> sp_center b2 = vfin c2 -> sp_radius b2 = Fin r2 -> 0 < r1 -> 0 <= r2 ->
    first_touch (fun b => dist (place m1 c1 b) (place m2 c2 b) - (r1 + r2)) a -> brisk_balls D m1 m2 c1 c2 r1 r2 a ->
    exists k, meets cols ents i1 i2 k1 k2 k /\ c_time k = Fin (a / D).
  Proof.
    intros Q1 Q2 C1 R1 C2 R2 P1 P2 (A0 & T1 & T2) (B1 & B2 & B3 & B4). cbv beta zeta in *.
    set (v1 := mv_vel m1) in *. set (v2 := mv_vel m2) in *. set (rs := r1 + r2) in *. assert (Rp : 0 < rs) by (unfold rs; lra).
    set (dv := vsub v1 v2) in *. set (gap := vsub (place m2 c2 a) (place m1 c1 a)) in *.
    set (q := vdot dv gap / rs) in *.
    assert (Hq : vdot dv gap = q * rs) by (unfold q; field; lra).
    pose proof F1 as (O1 & U1 & V1 & _). pose proof F2 as (O2 & U2 & V2 & _).
    assert (Gq : vdot gap gap <= rs * rs).
    { assert (E : dist (place m1 c1 a) (place m2 c2 a) <= rs) by lra. unfold dist in E.
      assert (S := sqrt_pos (vdot (vsub (place m1 c1 a) (place m2 c2 a)) (vsub (place m1 c1 a) (place m2 c2 a)))).
      assert (Eg : vdot gap gap = vdot (vsub (place m1 c1 a) (place m2 c2 a)) (vsub (place m1 c1 a) (place m2 c2 a))) by apply dist_sym.
      rewrite Eg, <- (sqrt_sqrt (vdot (vsub (place m1 c1 a) (place m2 c2 a)) (vsub (place m1 c1 a) (place m2 c2 a)))) by apply vdot_pos. now apply Rmult_le_compat. }
    assert (Qpos : 0 < q). { pose proof (sqrt_pos (vdot v1 v1)) as S. fold (vlen v1) in S. assert (0 <= vlen v1 * a) by (apply Rmult_le_pos; lra). nra. }
    assert (Qs : q * q <= vdot dv dv). { pose proof (cauchy dv gap) as C. rewrite Hq in C. assert (0 < rs * rs) by nra. apply Rmult_le_reg_r with (rs * rs); [assumption|].
      assert (vdot dv dv * vdot gap gap <= vdot dv dv * (rs * rs)) by (apply Rmult_le_compat_l; [apply vdot_pos|exact Gq]). lra. }
    set (w1 := position_into_world (mv_o m1) c1) in *. set (w2 := position_into_world (mv_o m2) c2) in *.
    assert (Eg : gap = vsub (vsub w2 w1) (vscale dv a)) by (unfold gap, place, dv; fold w1 w2 v1 v2; apply vext; vunfold; ring).
    assert (M1 := place_move m1 D c1 U1). assert (M2 := place_move m2 D c2 U2). fold w1 v1 in M1. fold w2 v2 in M2.
    assert (Hspeed : 1 / 1000000 <= vdot (vsub (vscale v1 D) (vscale v2 D)) (vsub (vscale v1 D) (vscale v2 D))).
    { replace (vdot _ _) with (D * D * vdot dv dv) by (unfold dv; vunfold; ring). assert (0 <= D * D) by nra. assert (D * D * (q * q) <= D * D * vdot dv dv) by (apply Rmult_le_compat_l; auto). nra. }
    assert (Hcross : 1 / 1000000 <= crossing w1 (vscale v1 D) w2 (vscale v2 D) rs).
    { assert (E : crossing w1 (vscale v1 D) w2 (vscale v2 D) rs = 4 * (D * D) * (vdot dv gap * vdot dv gap) - 4 * (D * D) * vdot dv dv * (vdot gap gap - rs * rs)).
      { rewrite Eg. unfold crossing, dv. vunfold. ring. }
      rewrite E, Hq. assert (0 <= D * D * (vdot dv dv * (rs * rs - vdot gap gap))) by (apply Rmult_le_pos; [nra|apply Rmult_le_pos; [apply vdot_pos|lra]]).
      replace (_ - _) with (4 * ((q * D * rs) * (q * D * rs)) + 4 * (D * D * (vdot dv dv * (rs * rs - vdot gap gap)))) by ring. nra. }
    assert (Tch : forall u, (exists x, within x (place m1 c1 (u * D)) r1 /\ within x (place m2 c2 (u * D)) r2) <-> dist (place m1 c1 (u * D)) (place m2 c2 (u * D)) <= rs).
    { intros u. apply (near_touch (place m1 c1 (u * D)) (place m2 c2 (u * D)) r1 r2); [left; exact P1|exact P2|exact Rp]. }
    assert (Tu := unit_time A0). assert (Tb := time_back).
    pose proof (collide_spheres b1 b2 c1 c2 r1 r2 (mv_o m1) (moved m1 D) (mv_o m2) (moved m2 D) C1 C2 R1 R2 ltac:(lra) P2 Rp) as X. cbv zeta in X.
    fold w1 w2 in X. rewrite M1, M2 in X. specialize (X Hspeed Hcross).
    pose proof (collide_spheres_normal b1 b2 c1 c2 r1 r2 (mv_o m1) (moved m1 D) (mv_o m2) (moved m2 D) C1 C2 R1 R2 Rp) as Y. fold w1 w2 in Y.
    assert (Al : forall u, along w1 (position_into_world (moved m1 D) c1) u = place m1 c1 (u * D) /\ along w2 (position_into_world (moved m2 D) c2) u = place m2 c2 (u * D)).
    { intros u. split; [exact (along_place m1 D c1 u U1)|exact (along_place m2 D c2 u U2)]. }
    destruct (collide _ _ _ _ _ _) as [[k|]| |] eqn:Ek in X; [| |contradiction|contradiction].
    2:{ exfalso. apply (X (a / D) Tu). destruct (Al (a / D)) as (-> & ->). apply Tch. rewrite Tb. lra. }
    destruct X as (t & x & Et & (Ht & (x0 & Hx0) & Hfirst) & Hx & Hmid & _). rewrite (proj1 (Al t)), (proj2 (Al t)) in *.
    assert (t = a / D).
    { apply Rle_antisym.
      - apply Hfirst; [exact Tu|]. destruct (Al (a / D)) as (-> & ->). apply Tch. rewrite Tb. lra.
      - destruct (Rle_lt_dec (a / D) t) as [|L]; [assumption|exfalso]. assert (L2 : t * D < a) by (rewrite <- Tb; now apply Rmult_lt_compat_r).
        assert (0 <= t * D) by (apply Rmult_le_pos; lra). specialize (T2 (t * D) ltac:(lra)).
        assert (dist (place m1 c1 (t * D)) (place m2 c2 (t * D)) <= rs) by (apply Tch; eauto). lra. }
    subst t. rewrite Tb in Hmid. exists k. split; [|exact Et].
    assert (Yx : vscale (vsub x w1) rs = vadd (vscale v1 (a * rs)) (vscale gap r1)).
    { assert (E : place m1 c1 a = vadd w1 (vscale v1 a)) by exact eq_refl. unfold gap. rewrite E in *.
      apply vext; [assert (Z := f_equal vx Hmid)|assert (Z := f_equal vy Hmid)|assert (Z := f_equal vz Hmid)]; unfold rs; vunfold; lra. }
    assert (Dy : vdot dv (vsub x w1) * rs = rs * (a * (vdot v1 v1 - vdot v1 v2) + r1 * q)).
    { replace (vdot dv (vsub x w1) * rs) with (vdot dv (vscale (vsub x w1) rs)) by (vunfold; ring). rewrite Yx.
      replace (vdot dv (vadd (vscale v1 (a * rs)) (vscale gap r1))) with (a * rs * (vdot v1 v1 - vdot v1 v2) + r1 * vdot dv gap) by (unfold dv; vunfold; ring).
      rewrite Hq. ring. }
    assert (Dy' : r1 * q <= vdot dv (vsub x w1)).
    { assert (vdot dv (vsub x w1) = a * (vdot v1 v1 - vdot v1 v2) + r1 * q) by (apply Rmult_eq_reg_r with rs; lra). nra. }
    assert (Xw : x <> w1). { intros ->. replace (vdot dv (vsub w1 w1)) with 0 in Dy' by (vunfold; ring). nra. }
    destruct (Y k Ek) as (x' & Hx' & Hn). rewrite Hx in Hx'. apply vfin_inj in Hx'. subst x'. destruct (Hn Xw) as (n & En & Un & kap & Kp & Ey).
    assert (Ly : kap <= a * vlen v1 + r1).
    { apply Rmult_le_reg_r with rs; [exact Rp|]. pose proof (vlen_add (vscale v1 (a * rs)) (vscale gap r1)) as L. rewrite <- Yx in L.
      rewrite (vlen_scale v1), (vlen_scale gap) in L; [|lra|apply Rmult_le_pos; lra].
      rewrite Ey in L. rewrite !vlen_scale in L by lra.
      assert (Ln : vlen n = 1) by (unfold vlen; rewrite Un; apply sqrt_1). assert (Lg : vlen gap <= rs) by (unfold vlen; rewrite <- (sqrt_square rs) by lra; now apply sqrt_le_1_alt).
      rewrite Ln in L. assert (r1 * vlen gap <= r1 * rs) by (apply Rmult_le_compat_l; lra). lra. }
    assert (Fast : 1 / 1000000 <= vdot dv n).
    { apply Rmult_le_reg_r with kap; [exact Kp|]. replace (vdot dv n * kap) with (vdot dv (vsub x w1)) by (rewrite Ey; vunfold; ring). nra. }
    exists e1, e2, (CSphere b1), (CSphere b2). repeat (split; [assumption|]).
    rewrite (flies_end _ _ _ _ F1), (flies_end _ _ _ _ F2), O1, O2. split; [exact Ek|].
    rewrite Hx, (flies_speed _ _ _ _ x F1), (flies_speed _ _ _ _ x F2), En, vfin_sub, vfin_dot, eps_fin. fold v1 v2 dv. apply er_lt_fin_f. exact Fast.
  Qed.

  (** ** A ball and a half space *)
  Lemma plane_moves b p c r pp n : sp_center b = vfin c -> sp_radius b = Fin r -> pl_pos p = vfin pp -> pl_normal p = vfin n ->
    collide (CSphere b) (e_orient e1) (after_affected (e_orient e1) (i_lin i1) (i_ang i1)) (CPlane p) (e_orient e2) (after_affected (e_orient e2) (i_lin i2) (i_ang i2)) =
    Ok (collide_sphere_with_plane (Fin r) (vfin (place m1 c 0)) (vfin (vscale (mv_vel m1) D)) (vfin (place m2 pp 0)) (vfin n) (vfin (vscale (mv_vel m2) D))).
  Proof.
    intros C R P N. rewrite (flies_end _ _ _ _ F1), (flies_end _ _ _ _ F2). pose proof F1 as (-> & U1 & _). pose proof F2 as (-> & U2 & _).
    cbn [collide]. rewrite C, R, P, N, !into_world_fin, !world_move_fin, !place_move by assumption.
    assert (E : forall m x, position_into_world (mv_o m) x = place m x 0) by (intros; unfold place; apply vext; vunfold; ring). rewrite !E. exact eq_refl.
  Qed.
  Lemma place_later m c b : vadd (place m c 0) (vscale (vscale (mv_vel m) D) b) = place m c (b * D).
  Proof. unfold place. apply vext; vunfold; ring. Qed.
  Lemma plane_collides b p c r pp n : sp_center b = vfin c -> sp_radius b = Fin r -> pl_pos p = vfin pp -> pl_normal p = vfin n -> vdot n n = 1 -> 0 <= r ->
    first_touch (fun u => vdot (vsub (place m1 c u) (place m2 pp u)) n - r) a -> brisk_plane D m1 m2 n a ->
    exists k x, collide (CSphere b) (e_orient e1) (after_affected (e_orient e1) (i_lin i1) (i_ang i1)) (CPlane p) (e_orient e2) (after_affected (e_orient e2) (i_lin i2) (i_ang i2)) = Ok (Some k) /\
      c_time k = Fin (a / D) /\ c_pos k = vfin x /\ c_normal k = vfin (vneg n).
  Proof.
    intros C R P N Un R0 (A0 & T1 & T2) (B1 & B2). cbv beta zeta in *. rewrite (plane_moves b p c r pp n C R P N).
    pose proof (plane_law r (place m1 c 0) (vscale (mv_vel m1) D) (place m2 pp 0) n (vscale (mv_vel m2) D) R0 Un) as X. cbv zeta in X.
    assert (Tu := unit_time A0). assert (Tb := time_back).
    destruct (collide_sphere_with_plane _ _ _ _ _ _) as [k|].
    - destruct X as (t & Et & Ht & G & _ & Be & Hx & Hn). rewrite !place_later in G. eexists k, _. split; [exact eq_refl|]. split; [|split; [exact Hx|exact Hn]].
      rewrite Et. f_equal. apply Rle_antisym.
      + destruct (Rle_lt_dec t (a / D)) as [|L]; [assumption|exfalso]. specialize (Be (a / D) ltac:(lra)). rewrite !place_later, Tb in Be. lra.
      + destruct (Rle_lt_dec (a / D) t) as [|L]; [assumption|exfalso]. assert (L2 : t * D < a) by (rewrite <- Tb; now apply Rmult_lt_compat_r).
        assert (0 <= t * D) by (apply Rmult_le_pos; lra). specialize (T2 (t * D) ltac:(lra)). lra.
    - exfalso. destruct X as (X1 & X2). destruct B2 as [->|B2].
      + rewrite !place_later, Rmult_0_l in X1. lra.
      + assert (S : 1 / 1000000 <= Rabs (vdot (vscale (mv_vel m2) D) n - vdot (vscale (mv_vel m1) D) n)).
        { eapply Rle_trans; [exact B2|]. eapply Rle_trans; [apply Rle_abs|]. right. f_equal. vunfold. ring. }
        specialize (X2 S (a / D) Tu). rewrite !place_later, Tb in X2. lra.
  Qed.
  (** What a collision with a half space that was found says. *)
  Lemma plane_sound b p c r pp n k : sp_center b = vfin c -> sp_radius b = Fin r -> pl_pos p = vfin pp -> pl_normal p = vfin n -> vdot n n = 1 -> 0 <= r ->
    collide (CSphere b) (e_orient e1) (after_affected (e_orient e1) (i_lin i1) (i_ang i1)) (CPlane p) (e_orient e2) (after_affected (e_orient e2) (i_lin i2) (i_ang i2)) = Ok (Some k) ->
    exists t x, c_time k = Fin t /\ 0 <= t <= 1 /\ c_pos k = vfin x /\ c_normal k = vfin (vneg n) /\ on_plane m1 m2 c r pp n (t * D) x (vneg n).
  Proof.
    intros C R P N Un R0 Ek. rewrite (plane_moves b p c r pp n C R P N) in Ek. apply ok_inj in Ek.
    pose proof (plane_law r (place m1 c 0) (vscale (mv_vel m1) D) (place m2 pp 0) n (vscale (mv_vel m2) D) R0 Un) as X. cbv zeta in X. rewrite Ek in X.
    destruct X as (t & Et & Ht & G & G0 & Be & Hx & Hn). rewrite !place_later in *. eexists t, _. split; [exact Et|]. split; [exact Ht|]. split; [exact Hx|]. split; [exact Hn|].
    split; [exact G|]. split; [|split; exact eq_refl]. intros Z. apply G0. intros ->. apply Z. ring.
  Qed.
  (** The same for two balls. *)
  Lemma balls_sound b1 b2 c1 r1 c2 r2 k : sp_center b1 = vfin c1 -> sp_radius b1 = Fin r1 -> sp_center b2 = vfin c2 -> sp_radius b2 = Fin r2 -> 0 < r1 + r2 ->
    collide (CSphere b1) (e_orient e1) (after_affected (e_orient e1) (i_lin i1) (i_ang i1)) (CSphere b2) (e_orient e2) (after_affected (e_orient e2) (i_lin i2) (i_ang i2)) = Ok (Some k) ->
    exists t x, c_time k = Fin t /\ c_pos k = vfin x /\ forall n, c_normal k = vfin n -> between_balls m1 m2 c1 r1 c2 r2 (t * D) x n.
  Proof.
    intros C1 R1 C2 R2 Rp Ek. rewrite (flies_end _ _ _ _ F1), (flies_end _ _ _ _ F2) in Ek. pose proof F1 as (O1 & U1 & _). pose proof F2 as (O2 & U2 & _). rewrite O1, O2 in Ek.
    destruct (collide_spheres_normal b1 b2 c1 c2 r1 r2 (mv_o m1) (moved m1 D) (mv_o m2) (moved m2 D) C1 C2 R1 R2 Rp k Ek) as (x & Hx & Hn).
    rewrite (collide_spheres_eq b1 b2 c1 c2 r1 r2 (mv_o m1) (moved m1 D) (mv_o m2) (moved m2 D) C1 C2 R1 R2) in Ek. apply ok_inj in Ek.
    rewrite sphere_sphere_lift in Ek by exact Rp. cbv zeta in Ek. destruct (rg_is_empty _) in Ek; [discriminate|].
    set (times := rg_intersect _ _) in Ek. destruct (rg_min times) as [t| | |] eqn:Et; try discriminate. apply some_inj in Ek. subst k. cbn [c_pos c_normal] in *.
    apply vfin_inj in Hx. clearbody times. rewrite !place_move in * by assumption.
    assert (Z : forall m c, position_into_world (mv_o m) c = place m c 0) by (intros; unfold place; apply vext; vunfold; ring). rewrite !Z in *. rewrite !place_later in Hx.
    exists t, x. split; [exact Et|]. rewrite !place_later in *. split; [now rewrite Hx|]. intros n En. split.
    - subst x. unfold mid. apply vext; vunfold; field; lra.
    - intros Nx. destruct (Hn Nx) as (n' & En' & _ & y & Y1 & Y2). assert (n' = n) by (apply vfin_inj; rewrite <- En', <- En; exact eq_refl).
      subst n'. exists y. split; [exact Y1|exact Y2].
  Qed.
  Lemma plane_found b p c r pp n : aget cols k1 = Some (CSphere b) -> aget cols k2 = Some (CPlane p) ->
    sp_center b = vfin c -> sp_radius b = Fin r -> pl_pos p = vfin pp -> pl_normal p = vfin n -> vdot n n = 1 -> 0 <= r ->
    first_touch (fun u => vdot (vsub (place m1 c u) (place m2 pp u)) n - r) a -> brisk_plane D m1 m2 n a ->
    (exists k, meets cols ents i1 i2 k1 k2 k /\ c_time k = Fin (a / D)) /\ (exists k, meets cols ents i2 i1 k2 k1 k /\ c_time k = Fin (a / D)).
  Proof.
    intros Q1 Q2 C R P N Un R0 T B. destruct (plane_collides b p c r pp n C R P N Un R0 T B) as (k & x & Ek & Et & Hx & Hn). destruct B as (B1 & _).
    pose proof F1 as (O1 & U1 & V1 & _). pose proof F2 as (O2 & U2 & V2 & _). split.
    - exists k. split; [|exact Et]. exists e1, e2, (CSphere b), (CPlane p). repeat (split; [assumption|]).
      rewrite Hx, (flies_speed _ _ _ _ x F1), (flies_speed _ _ _ _ x F2), Hn, vfin_sub, vfin_dot, eps_fin. apply er_lt_fin_f.
      replace (vdot _ _) with (vdot (vsub (mv_vel m2) (mv_vel m1)) n) by (vunfold; ring). exact B1.
    - exists (turn k). split; [|exact Et]. exists e2, e1, (CPlane p), (CSphere b). repeat (split; [assumption|]).
      split.
      + rewrite (swap_mixed (CSphere b) _ _ (CPlane p) _ _ I), Ek. exact eq_refl.
      + cbn [turn c_pos c_normal]. rewrite Hx, (flies_speed _ _ _ _ x F1), (flies_speed _ _ _ _ x F2), Hn, vfin_neg, vfin_sub, vfin_dot, eps_fin. apply er_lt_fin_f.
        replace (vdot _ _) with (vdot (vsub (mv_vel m2) (mv_vel m1)) n) by (vunfold; ring). exact B1.
  Qed.
End Pair.
