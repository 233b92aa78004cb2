(** * Geom6P: colliders as a whole, in exact arithmetic *)
From Coq Require Import ZArith Reals List Bool Arith Lra Lia Psatz.
Import ListNotations.
From Verif Require Import Num Vec Res RangeM Orient Colliders Collide OrderP Spec RangeP ResP MeshP CollideP RealSpec RealV OrientP GeomP Geom2P Geom3P Geom4P Geom5P.
Local Open Scope R_scope.

Lemma into_world_fin o p : position_into_world (ofin o) (vfin p) = vfin (position_into_world o p).
Proof. reflexivity. Qed.
Lemma into_local_fin o p : position_into_local (ofin o) (vfin p) = vfin (position_into_local o p).
Proof. reflexivity. Qed.
Lemma world_move_fin p s e : world_move (vfin p) (ofin s) (ofin e) = vfin (vsub (position_into_world e p) (position_into_world s p)).
Proof. reflexivity. Qed.
Lemma first_instant_ext (P P' : R -> Prop) t : (forall s, P s <-> P' s) -> first_instant P t -> first_instant P' t.
Proof. intros H (A & B & C). split; auto. split; [now apply H|]. intros t' Ht Hp. apply C; auto. now apply H. Qed.

(** ** Spheres and planes *)
Lemma collide_sphere_plane s p (cs : V) r (pp n : V) s1 e1 s2 e2 :
  sp_center s = vfin cs -> sp_radius s = Fin r -> pl_pos p = vfin pp -> pl_normal p = vfin n ->
  0 <= r -> vdot n n = 1 ->
  let centre := along (position_into_world s1 cs) (position_into_world e1 cs) in
  let plane := along (position_into_world s2 pp) (position_into_world e2 pp) in
  speedy (vdot (vsub (plane 1) (plane 0)) n - vdot (vsub (centre 1) (centre 0)) n) ->
  let touches t := exists x, within x (centre t) r /\ behind x (plane t) n in
  match collide (CSphere s) (ofin s1) (ofin e1) (CPlane p) (ofin s2) (ofin e2) with
  | Ok None => forall t, 0 <= t <= 1 -> ~ touches t
  | Ok (Some k) => exists t x, c_time k = Fin t /\ first_instant touches t /\ c_normal k = vfin (vneg n) /\
      c_pos k = vfin x /\ within x (centre t) r /\ forall y, within y (centre t) r -> vdot x n <= vdot y n
  | _ => False
  end.
Proof.
  intros Hc Hr Hp Hn R0 N1 centre plane Hs touches. cbn [collide]. rewrite Hc, Hr, Hp, Hn, !into_world_fin, !world_move_fin.
  assert (E : forall a b : V, vsub (along a b 1) (along a b 0) = vsub b a) by (intros; unfold along; apply vext; vunfold; ring).
  unfold plane, centre in Hs. rewrite !E in Hs.
  exact (sphere_plane r _ _ _ n _ R0 N1 Hs).
Qed.

(** ** Two spheres *)
Section Spheres.
  Variables (s1 s2 : sphere_c ER) (c1 c2 : V) (r1 r2 : R) (o1 e1 o2 e2 : orientation R).
  Hypothesis Hc1 : sp_center s1 = vfin c1. Hypothesis Hc2 : sp_center s2 = vfin c2.
  Hypothesis Hr1 : sp_radius s1 = Fin r1. Hypothesis Hr2 : sp_radius s2 = Fin r2.
  Hypothesis R1 : 0 <= r1. Hypothesis R2 : 0 <= r2. Hypothesis R12 : 0 < r1 + r2.
  Let w1 := position_into_world o1 c1. Let w1' := position_into_world e1 c1.
  Let w2 := position_into_world o2 c2. Let w2' := position_into_world e2 c2.
  Let touches t := exists x, within x (along w1 w1' t) r1 /\ within x (along w2 w2' t) r2.

  Lemma collide_spheres_eq : collide (CSphere s1) (ofin o1) (ofin e1) (CSphere s2) (ofin o2) (ofin e2) =
    Ok (collide_sphere_with_sphere (Fin r1) (vfin w1) (vfin (vsub w1' w1)) (Fin r2) (vfin w2) (vfin (vsub w2' w2))).
  Proof. cbn [collide]. now rewrite Hc1, Hc2, Hr1, Hr2, !into_world_fin, !world_move_fin. Qed.

  Lemma collide_spheres :
    1 / 1000000 <= vdot (vsub (vsub w1' w1) (vsub w2' w2)) (vsub (vsub w1' w1) (vsub w2' w2)) ->
    1 / 1000000 <= crossing w1 (vsub w1' w1) w2 (vsub w2' w2) (r1 + r2) ->
    match collide (CSphere s1) (ofin o1) (ofin e1) (CSphere s2) (ofin o2) (ofin e2) with
    | Ok None => forall t, 0 <= t <= 1 -> ~ touches t
    | Ok (Some k) => exists t x, c_time k = Fin t /\ first_instant touches t /\ c_pos k = vfin x /\
        vscale (vsub x (along w1 w1' t)) r2 = vscale (vsub (along w2 w2' t) x) r1 /\
        within x (along w1 w1' t) r1 /\ within x (along w2 w2' t) r2 /\
        (0 < t -> on_sphere x (along w1 w1' t) r1 /\ on_sphere x (along w2 w2' t) r2)
    | _ => False
    end.
  Proof.
    intros Ha Hd. rewrite collide_spheres_eq. exact (sphere_sphere r1 w1 (vsub w1' w1) r2 w2 (vsub w2' w2) R1 R2 R12 Ha Hd).
  Qed.

  (** Two spheres that move together (or not at all). *)
  Lemma collide_spheres_together : vsub w1' w1 = vsub w2' w2 ->
    match collide (CSphere s1) (ofin o1) (ofin e1) (CSphere s2) (ofin o2) (ofin e2) with
    | Ok None => (r1 + r2) * (r1 + r2) + 1 / 1000000 <= vdot (vsub w1 w2) (vsub w1 w2)
    | Ok (Some k) => vdot (vsub w1 w2) (vsub w1 w2) < (r1 + r2) * (r1 + r2) + 1 / 1000000 /\
        c_time k = Fin 0 /\ c_pos k = vfin (mid w1 w2 r1 r2)
    | _ => False
    end.
  Proof.
    intros E. rewrite collide_spheres_eq, sphere_sphere_lift by auto. cbv zeta. rewrite E.
    set (a := vdot (vsub (vsub w2' w2) _) (vsub (vsub w2' w2) _)). set (b := 2 * vdot (vsub (vsub w2' w2) (vsub w2' w2)) (vsub w1 w2)).
    assert (A : a = 0) by (unfold a; vunfold; ring). assert (B : b = 0) by (unfold b; vunfold; ring). rewrite A, B. clear a A b B.
    set (c := vdot (vsub w1 w2) (vsub w1 w2) - (r1 + r2) * (r1 + r2)).
    assert (Q : rg_quadratic_zeros (Fin 0) (Fin 0) (Fin c) = if Rlt_dec c (1 / 1000000) then rg_everything else rg_empty).
    { unfold rg_quadratic_zeros. rewrite (proj2 (abs_lt_eps 0)) by (rewrite Rabs_R0; lra). rewrite eps_val. simpl n_lt. destruct (Rlt_dec c (1 / 1000000)); reflexivity. }
    rewrite Q. destruct (Rlt_dec c (1 / 1000000)) as [L|L].
    - pose proof (cut_first rg_everything (fun _ => True) ltac:(intros; rewrite in_everything; split; auto)) as C. cbv zeta in C.
      destruct (rg_is_empty _); [exfalso; exact (C 0 ltac:(lra) I)|]. destruct C as (t & Et & F). rewrite Et.
      assert (t = 0) as -> by (destruct F as ((F1 & _) & _ & F2); specialize (F2 0 ltac:(lra) I); lra).
      unfold c_time. cbn [c_times c_pos]. split; [unfold c in L; lra|]. split; auto. f_equal. f_equal; apply vext; vunfold; ring.
    - assert (Em : rg_is_empty (rg_intersect rg_empty (@rg_unit ER EReal)) = true) by reflexivity. rewrite Em. unfold c in L. lra.
  Qed.

  (** The normal points from the first centre's start of step to the contact point. *)
  Lemma collide_spheres_normal k : collide (CSphere s1) (ofin o1) (ofin e1) (CSphere s2) (ofin o2) (ofin e2) = Ok (Some k) ->
    exists x, c_pos k = vfin x /\ (x <> w1 -> exists n, c_normal k = vfin n /\ unit_along n (vsub x w1)).
  Proof. rewrite collide_spheres_eq. intros H. apply ok_inj in H. exact (sphere_sphere_normal_start _ _ _ _ _ _ k R12 H). Qed.
  Lemma collide_spheres_normal_rest k : w1' = w1 -> 0 < r1 ->
    collide (CSphere s1) (ofin o1) (ofin e1) (CSphere s2) (ofin o2) (ofin e2) = Ok (Some k) ->
    exists t, c_time k = Fin t /\ 0 <= t <= 1 /\ (along w2 w2' t <> w1 -> exists n, c_normal k = vfin n /\ unit_along n (vsub (along w2 w2' t) w1)).
  Proof.
    intros Hw Hr H. rewrite collide_spheres_eq in H. apply ok_inj in H. rewrite Hw in H.
    assert (Z : vfin (vsub w1 w1) = vzero) by (rewrite vfin_zero; f_equal; apply vext; vunfold; field). rewrite Z in H.
    apply sphere_sphere_normal_rest in H; auto. destruct H as (t & Et & Ht & H). exists t. split; auto. split; auto. intros Hx. apply H.
    fold (along w2 w2' t). intros D. apply Hx. apply vext; [assert (X := f_equal vx D)|assert (X := f_equal vy D)|assert (X := f_equal vz D)]; vunfold; lra.
  Qed.
End Spheres.

(** Exchanging two spheres keeps times and position. *)
Lemma swap_spheres (s1 s2 : sphere_c ER) (c1 c2 : V) (r1 r2 : R) (o1 e1 o2 e2 : orientation R) :
  sp_center s1 = vfin c1 -> sp_center s2 = vfin c2 -> sp_radius s1 = Fin r1 -> sp_radius s2 = Fin r2 -> 0 < r1 + r2 ->
  match collide (CSphere s1) (ofin o1) (ofin e1) (CSphere s2) (ofin o2) (ofin e2), collide (CSphere s2) (ofin o2) (ofin e2) (CSphere s1) (ofin o1) (ofin e1) with
  | Ok None, Ok None => True
  | Ok (Some k), Ok (Some k') => c_times k' = c_times k /\ c_pos k' = c_pos k
  | _, _ => False
  end.
Proof.
  intros H1 H2 H3 H4 R12. rewrite (collide_spheres_eq s1 s2 c1 c2 r1 r2), (collide_spheres_eq s2 s1 c2 c1 r2 r1) by auto.
  set (w1 := position_into_world o1 c1). set (w2 := position_into_world o2 c2). set (m1 := vsub _ w1). set (m2 := vsub _ w2).
  rewrite !sphere_sphere_lift by lra. cbv zeta.
  assert (A : vdot (vsub m2 m1) (vsub m2 m1) = vdot (vsub m1 m2) (vsub m1 m2)) by apply dist_sym.
  assert (B : vdot (vsub m2 m1) (vsub w2 w1) = vdot (vsub m1 m2) (vsub w1 w2)) by (vunfold; ring).
  rewrite A, B, (dist_sym w2 w1), (Rplus_comm r2 r1). set (times := rg_intersect _ _).
  destruct (rg_is_empty times) eqn:E; auto.
  assert (exists t, rg_min times = Fin t) as (t & ->).
  { pose proof (cut_first (rg_quadratic_zeros (Fin (vdot (vsub m1 m2) (vsub m1 m2))) (Fin (2 * vdot (vsub m1 m2) (vsub w1 w2))) (Fin (vdot (vsub w1 w2) (vsub w1 w2) - (r1 + r2) * (r1 + r2))))
      (fun t => in_range (Fin t) (rg_quadratic_zeros (Fin (vdot (vsub m1 m2) (vsub m1 m2))) (Fin (2 * vdot (vsub m1 m2) (vsub w1 w2))) (Fin (vdot (vsub w1 w2) (vsub w1 w2) - (r1 + r2) * (r1 + r2)))) = true) ltac:(tauto)) as C. cbv zeta in C. fold times in C.
    rewrite E in C. destruct C as (t & Et & _). eauto. }
  cbn [c_times c_pos]. split; auto. f_equal. unfold mid. apply vext; vunfold; field; lra.
Qed.

(** ** Concrete cases *)
Lemma rest_unit p : unit_o (rest_o p).
Proof. unfold unit_o, unit_quat. simpl. lra. Qed.
Lemma rest_world p x : position_into_world (rest_o p) x = vadd p x.
Proof. rewrite world_form by apply rest_unit. destruct p, x. cbn [rest_o o_pos o_rot o_off]. apply vext; qunfold; field. Qed.
Lemma rest_local p x : position_into_local (rest_o p) x = vsub x p.
Proof. rewrite local_form. destruct p, x. cbn [rest_o o_pos o_rot o_off]. apply vext; qunfold; field. Qed.

Lemma balls_eq r1 r2 a a' b b' : collide (CSphere (ball r1)) (still a) (still a') (CSphere (ball r2)) (still b) (still b') =
  Ok (collide_sphere_with_sphere (Fin r1) (vfin a) (vfin (vsub a' a)) (Fin r2) (vfin b) (vfin (vsub b' b))).
Proof.
  unfold still. rewrite (collide_spheres_eq _ _ (mkV 0 0 0) (mkV 0 0 0) r1 r2) by reflexivity. rewrite !rest_world.
  assert (E : forall v : V, vadd v (mkV 0 0 0) = v) by (intros; apply vext; vunfold; ring). now rewrite !E.
Qed.
Lemma single_out x0 : ~ 0 <= x0 <= 1 -> rg_is_empty (rg_intersect (mkR (Fin x0) (Fin x0)) rg_unit) = true.
Proof.
  intros H. pose proof (cut_first (mkR (Fin x0) (Fin x0)) (fun t => t = x0) ltac:(intros; rewrite in_fin; lra)) as C. cbv zeta in C.
  destruct (rg_is_empty _); auto. destruct C as (t & _ & F1 & F2 & _). subst t. contradiction.
Qed.

(** Two balls of radius 1, well into each other, approaching at 1/2000 a step: not detected. *)
Lemma slow_overlap_missed :
  (exists x, within x (mkV 0 0 0) 1 /\ within x (mkV 1 0 0) 1) /\
  collide (CSphere (ball 1)) (still (mkV 0 0 0)) (still (mkV 0 0 0)) (CSphere (ball 1)) (still (mkV 1 0 0)) (still (mkV (1 - 1 / 2000) 0 0)) = Ok None.
Proof.
  split; [rewrite balls_touch by lra; vunfold; lra|].
  rewrite balls_eq, sphere_sphere_lift by lra. cbv zeta.
  set (a := vdot _ _). set (b := 2 * _). set (c := _ - _).
  assert (A : a = 1 / 4000000) by (unfold a; vunfold; field). assert (B : b = - (1 / 1000)) by (unfold b; vunfold; field). assert (C : c = - 3) by (unfold c; vunfold; field).
  rewrite A, B, C. destruct (qz_linear (1 / 4000000) (- (1 / 1000)) (- 3)) as (x0 & -> & X & _).
  - rewrite Rabs_pos_eq; lra.
  - rewrite Rabs_left; lra.
  - rewrite single_out; auto. lra.
Qed.

(** A ball moving by (6,0,0) from the origin hits, halfway, a resting one at (4.2, 1.6, 0). *)
Lemma glancing (sw : bool) :
  let a := mkV 0 0 0 in let a' := mkV 6 0 0 in let b := mkV (42 / 10) (16 / 10) 0 in
  exists k, (if sw then collide (CSphere (ball 1)) (still b) (still b) (CSphere (ball 1)) (still a) (still a')
             else collide (CSphere (ball 1)) (still a) (still a') (CSphere (ball 1)) (still b) (still b)) = Ok (Some k) /\
    c_time k = Fin (1 / 2) /\ c_pos k = vfin (mkV (36 / 10) (8 / 10) 0) /\
    exists n, c_normal k = vfin n /\ unit_along n (if sw then mkV (- (6 / 10)) (- (8 / 10)) 0 else mkV (36 / 10) (8 / 10) 0).
Proof.
  cbv zeta. set (a := mkV 0 0 0 : V). set (a' := mkV 6 0 0 : V). set (b := mkV (42 / 10) (16 / 10) 0 : V).
  set (w := if sw then b else a). set (w' := if sw then b else a'). set (u := if sw then a else b). set (u' := if sw then a' else b).
  assert (E : (if sw then collide (CSphere (ball 1)) (still b) (still b) (CSphere (ball 1)) (still a) (still a')
             else collide (CSphere (ball 1)) (still a) (still a') (CSphere (ball 1)) (still b) (still b)) =
     collide (CSphere (ball 1)) (still w) (still w') (CSphere (ball 1)) (still u) (still u')) by (unfold w, w', u, u'; destruct sw; reflexivity).
  rewrite E. clear E. rewrite balls_eq.
  pose proof (sphere_sphere 1 w (vsub w' w) 1 u (vsub u' u) ltac:(lra) ltac:(lra) ltac:(lra)) as S.
  specialize (S ltac:(unfold w, w', u, u', a, a', b; destruct sw; vunfold; lra) ltac:(unfold w, w', u, u', a, a', b, crossing; destruct sw; vunfold; lra)). cbv zeta in S.
  assert (T0 : forall t, (exists x, within x (vadd w (vscale (vsub w' w) t)) 1 /\ within x (vadd u (vscale (vsub u' u) t)) 1) <-> (6 * t - 42 / 10) * (6 * t - 42 / 10) <= 144 / 100).
  { intros t. rewrite balls_touch by lra. unfold w, w', u, u', a, a', b. destruct sw; vunfold; lra. }
  destruct (collide_sphere_with_sphere _ _ _ _ _ _) as [k|] eqn:E.
  2: { exfalso. apply (S (1 / 2)); [lra|]. apply T0. lra. }
  exists k. split; auto. destruct S as (t & x & Et & F & Ex & _). 
  assert (T : t = 1 / 2).
  { destruct F as (Ft & F1 & F2). apply Rle_antisym.
    - apply F2; [lra|]. apply T0. lra.
    - apply T0 in F1. nra. }
  subst t. split; auto. apply sphere_sphere_normal in E; [|lra]. destruct E as (t' & x' & Et' & _ & Ex' & Xe & En).
  assert (t' = 1 / 2) as -> by congruence. assert (X : x' = mkV (36 / 10) (8 / 10) 0).
  { rewrite Xe. unfold mid, w, w', u, u', a, a', b. destruct sw; apply vext; vunfold; field. }
  subst x'. split; [rewrite X in Ex'; exact Ex'|]. rewrite X in En.
  assert (D : vsub (mkV (36 / 10) (8 / 10) 0) w = if sw then mkV (- (6 / 10)) (- (8 / 10)) 0 else mkV (36 / 10) (8 / 10) 0) by (unfold w, a, b; destruct sw; apply vext; vunfold; field).
  rewrite D in En. rewrite vnormalize_fin in En.
  - eexists. split; [exact En|]. apply vunit_along. destruct sw; intros Z; injection Z; lra.
  - destruct sw; intros Z; injection Z; lra.
Qed.
Lemma normal_off_centres :
  let a := mkV 0 0 0 in let a' := mkV 6 0 0 in let b := mkV (42 / 10) (16 / 10) 0 in
  exists k n t, collide (CSphere (ball 1)) (still a) (still a') (CSphere (ball 1)) (still b) (still b) = Ok (Some k) /\
    c_time k = Fin t /\ c_normal k = vfin n /\ ~ unit_along n (vsub b (along a a' t)).
Proof.
  destruct (glancing false) as (k & E & Et & _ & n & En & U). exists k, n, (1 / 2). split; auto. split; auto. split; auto.
  intros [_ (j & Hj & D)]. destruct U as [_ (i & Hi & D')].
  assert (D1 := f_equal vx D). assert (D2 := f_equal vy D). assert (D3 := f_equal vx D'). assert (D4 := f_equal vy D'). unfold along in *. destruct n. vunfold.
  assert (i = j / 2) by nra. subst i. nra.
Qed.
Lemma swap_normal_wrong :
  let a := mkV 0 0 0 in let a' := mkV 6 0 0 in let b := mkV (42 / 10) (16 / 10) 0 in
  exists k k', collide (CSphere (ball 1)) (still a) (still a') (CSphere (ball 1)) (still b) (still b) = Ok (Some k) /\
    collide (CSphere (ball 1)) (still b) (still b) (CSphere (ball 1)) (still a) (still a') = Ok (Some k') /\ c_normal k' <> vneg (c_normal k).
Proof.
  destruct (glancing false) as (k & E & _ & _ & n & En & U). destruct (glancing true) as (k' & E' & _ & _ & n' & En' & U').
  exists k, k'. split; auto. split; auto. rewrite En, En', vfin_neg. intros X. apply vfin_inj in X. subst n'.
  destruct U as [_ (i & Hi & D)], U' as [_ (j & Hj & D')].
  assert (D1 := f_equal vx D). assert (D2 := f_equal vy D). assert (D3 := f_equal vx D'). assert (D4 := f_equal vy D'). destruct n. vunfold.
  assert (i = j) by nra. subst i. nra.
Qed.

(** ** Undefined normals and positions *)
(** Two concentric resting balls: the normal is NaN. *)
Lemma concentric_nan : exists k, collide (CSphere (ball 1)) (still (mkV 0 0 0)) (still (mkV 0 0 0)) (CSphere (ball 1)) (still (mkV 0 0 0)) (still (mkV 0 0 0)) = Ok (Some k) /\
  c_normal k = mkV ENaN ENaN ENaN.
Proof.
  pose proof (collide_spheres_together (ball 1) (ball 1) (mkV 0 0 0) (mkV 0 0 0) 1 1 (rest_o (mkV 0 0 0)) (rest_o (mkV 0 0 0)) (rest_o (mkV 0 0 0)) (rest_o (mkV 0 0 0))
    eq_refl eq_refl eq_refl eq_refl ltac:(lra) eq_refl) as S. fold (still (mkV 0 0 0)) in S.
  rewrite !rest_world in S. destruct (collide _ _ _ _ _ _) as [[k|]| |] eqn:E; try contradiction.
  - exists k. split; auto. rewrite balls_eq in E. apply ok_inj in E. apply sphere_sphere_normal in E; [|lra]. destruct E as (t & x & _ & _ & Ex & _ & En).
    destruct S as (_ & _ & Ex'). rewrite Ex in Ex'. apply vfin_inj in Ex'. subst x. rewrite En.
    match goal with |- vnormalize (vfin ?d) = _ => assert (D : d = mkV 0 0 0) by (unfold mid; apply vext; vunfold; field) end. rewrite D. apply vnormalize_zero.
  - exfalso. revert S. vunfold. lra.
Qed.

