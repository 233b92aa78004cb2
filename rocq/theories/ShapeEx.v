(** * ShapeEx: concrete balls, boxes and triangles for C78 and C79 *)
From Coq Require Import ZArith Reals List Bool Arith Lra Lia Psatz.
Import ListNotations.
From Verif Require Import Num Vec Res RangeM Orient Colliders Collide OrderP Spec RangeP ResP MeshP CollideP RealSpec RealV OrientP Orient2P GeomP Geom2P Geom3P Geom4P Geom5P Geom6P Geom7P BoxSpec Geom8P Geom9P FiniteSpec.
Local Open Scope R_scope.

(** The discriminant without square roots. *)
Lemma line_crossing_scaled r (c m p dir mv : V) : dir <> mkV 0 0 0 ->
  let A := vcross (vsub c p) dir in let B := vcross (vsub m mv) dir in let D := vdot dir dir in
  line_crossing r c m p dir mv = (2 * vdot A B * (2 * vdot A B) - 4 * vdot B B * (vdot A A - r * r * D)) / (D * D).
Proof.
  intros N. cbv zeta. pose proof (sqrt_norm_pos dir N) as S. assert (P : 0 < vdot dir dir). { destruct (Rlt_dec 0 (vdot dir dir)); auto. exfalso. rewrite sqrt_neg_0 in S; lra. }
  unfold line_crossing. cbv zeta. unfold vunit.
  assert (Q : sqrt (vdot dir dir) * sqrt (vdot dir dir) = vdot dir dir) by (apply sqrt_sqrt; lra).
  set (k := sqrt (vdot dir dir)) in *.
  assert (E : forall x, vcross x (vscale dir (/ k)) = vscale (vcross x dir) (/ k)) by (intros; apply vext; vunfold; ring). rewrite !E.
  set (A := vcross (vsub c p) dir). set (B := vcross (vsub m mv) dir).
  assert (F : forall x y : V, vdot (vscale x (/ k)) (vscale y (/ k)) = vdot x y / vdot dir dir). { intros. rewrite <- Q. vunfold. field. lra. }
  rewrite !F. set (D := vdot dir dir) in *. clearbody D A B. field. lra.
Qed.

(** ** A ball of radius 1 flies diagonally at an edge of the cube with corners at -1 and 1 *)
Definition cube_lo : V := mkV (-1) (-1) (-1).
Definition cube_hi : V := mkV 1 1 1.
Definition cube : box_c ER := mkBox None (vfin (mkV 0 0 0)) (vfin cube_lo) (vfin cube_hi) PInf plain.
Definition flyer (r : R) : sphere_c ER := mkSphere None (vfin (mkV 0 0 0)) (Fin r) (Fin 1) plain.
Definition start_at : V := mkV 3 3 (1 / 2).
Definition end_at : V := mkV 0 0 (1 / 2).
Ltac halves := repeat match goal with H : _ \/ _ |- _ => destruct H end.
Lemma rest_world (p x : V) : position_into_world (rest_o p) x = vadd x p.
Proof. rewrite world_form; [|unfold unit_o, unit_quat, rest_o; cbn [o_rot qi qj qk qw]; ring]. unfold rest_o. cbn [o_rot o_off o_pos]. qunfold. apply vext; vunfold; ring. Qed.
Lemma rest_local (p x : V) : position_into_local (rest_o p) x = vsub x p.
Proof.
  assert (U : unit_o (rest_o p)) by (unfold unit_o, unit_quat, rest_o; cbn [o_rot qi qj qk qw]; ring).
  rewrite <- (world_local (rest_o p) x U) at 2. rewrite rest_world. apply vext; vunfold; ring.
Qed.
Lemma rest_steady p q : steady (rest_o p) (rest_o q).
Proof. split; [reflexivity|]. split; [reflexivity|]. split; [unfold unit_o, unit_quat, rest_o; cbn [o_rot qi qj qk qw]; ring|left; reflexivity]. Qed.
Lemma clear_at x d : x = d -> (d < - (1 / 1000000) \/ 1 / 1000000 <= d) -> clear x. Proof. intros ->. auto. Qed.
Lemma cube_clear : grazes_nothing 1 start_at (vsub end_at start_at) cube_lo cube_hi.
Proof.
  split.
  - intros p (Hx & Hy & Hz). right. unfold cube_lo, cube_hi in *. cbn [vx vy vz] in *. destruct p as [x y z]. cbn [vx vy vz] in *.
    halves; subst; unfold crossing, start_at, end_at; cbv zeta; vunfold; unfold clear; lra.
  - intros p q ((Hx & Hy & Hz) & (Hx' & Hy' & Hz') & E). right. unfold cube_lo, cube_hi in *. cbn [vx vy vz] in *.
    destruct p as [x y z], q as [x' y' z']. cbn [vx vy vz] in *.
    rewrite line_crossing_scaled.
    2: { intros Z. assert (Z1 := f_equal vx Z). assert (Z2 := f_equal vy Z). assert (Z3 := f_equal vz Z). vunfold. lra. }
    destruct E as [(A1 & A2 & A3 & A4)|[(A1 & A2 & A3 & A4)|(A1 & A2 & A3 & A4)]]; subst; halves; subst; try lra;
      unfold start_at, end_at; cbv zeta; vunfold; (eapply clear_at; [field_simplify; reflexivity|lra]).
Qed.
(** The ball meets the edge at (1, 1, 1/2). *)
Lemma cube_met : ball_meets_box 1 (along start_at end_at (1 / 2)) cube_lo cube_hi.
Proof.
  exists (mkV 1 1 (1 / 2)). split; [unfold in_box, cube_lo, cube_hi; cbn [vx vy vz]; lra|].
  unfold within, along, start_at, end_at. vunfold. lra.
Qed.
Lemma rest_origin (p : V) : position_into_local (rest_o (mkV 0 0 0)) (position_into_world (rest_o p) (mkV 0 0 0)) = p.
Proof. rewrite rest_world, rest_local. apply vext; vunfold; ring. Qed.
Lemma cube_vx : lively (vx (vsub end_at start_at)). Proof. right. unfold start_at, end_at. vunfold. rewrite Rabs_left; lra. Qed.
Lemma cube_vy : lively (vy (vsub end_at start_at)). Proof. right. unfold start_at, end_at. vunfold. rewrite Rabs_left; lra. Qed.
Lemma cube_vz : lively (vz (vsub end_at start_at)). Proof. left. unfold start_at, end_at. vunfold. lra. Qed.
Lemma cube_touches r t : (exists y, in_box cube_lo cube_hi y /\ within (along (position_into_world (rest_o (mkV 0 0 0)) y) (position_into_world (rest_o (mkV 0 0 0)) y) t)
    (along (position_into_world (rest_o start_at) (mkV 0 0 0)) (position_into_world (rest_o end_at) (mkV 0 0 0)) t) r) <-> ball_meets_box r (along start_at end_at t) cube_lo cube_hi.
Proof.
  assert (Y : forall y : V, along (vadd y (mkV 0 0 0)) (vadd y (mkV 0 0 0)) t = y) by (intros; unfold along; apply vext; vunfold; ring).
  assert (Z : forall p : V, vadd (mkV 0 0 0) p = p) by (intros; apply vext; vunfold; ring).
  unfold ball_meets_box. rewrite !rest_world, !Z.
  split; intros (y & I & W); exists y; (split; [exact I|]); revert W; rewrite rest_world, Y; intros W; exact W.
Qed.
Lemma cube_example : exists k t, collide (CSphere (flyer 1)) (still start_at) (still end_at) (CBox cube) (still (mkV 0 0 0)) (still (mkV 0 0 0)) = Ok (Some k) /\
  c_time k = Fin t /\ 0 < t <= 1 / 2.
Proof.
  pose proof (collide_box_upto (flyer 1) cube (mkV 0 0 0) cube_lo cube_hi 1 (rest_o start_at) (rest_o end_at) (rest_o (mkV 0 0 0)) (rest_o (mkV 0 0 0))
    eq_refl eq_refl eq_refl eq_refl ltac:(lra) ltac:(cbn [cube_lo cube_hi vx]; lra) ltac:(cbn [cube_lo cube_hi vy]; lra) ltac:(cbn [cube_lo cube_hi vz]; lra) (rest_steady _ _)) as C.
  cbv zeta in C.
  rewrite !rest_origin in C. specialize (C cube_vx cube_vy cube_vz cube_clear).
  pose proof cube_touches as QQ.
  change (ofin (rest_o start_at)) with (still start_at) in C. change (ofin (rest_o end_at)) with (still end_at) in C. change (ofin (rest_o (mkV 0 0 0))) with (still (mkV 0 0 0)) in C.
  destruct (collide _ _ _ _ _ _) as [[k|]| |] eqn:E; [| |contradiction|contradiction].
  - destruct C as (t & Et & Ht & W & M). exists k, t. split; auto. split; auto. apply QQ in W.
    specialize (M (1 / 2) ltac:(lra)). assert (T : t <= 1 / 2) by (apply M; apply QQ; exact cube_met). split; auto.
    destruct (Req_dec t 0) as [->|]; [|lra]. exfalso. clear - W. destruct W as (y & (Bx & By & Bz) & W).
    unfold within, along, start_at, end_at, cube_lo, cube_hi in *. vunfold. cbn [vx vy vz] in *.
    assert (S : slack 1 * slack 1 < 2).
    { unfold slack. set (q := sqrt (1 * 1 + 1 / 1000000)). assert (Q0 : q * q = 1 * 1 + 1 / 1000000) by (unfold q; apply sqrt_sqrt; lra). assert (0 <= q) by apply sqrt_pos. clearbody q. nra. }
    nra.
  - exfalso. apply (C (1 / 2) ltac:(lra)). apply QQ. exact cube_met.
Qed.

(** ** A ball of radius 1/2 falls onto a triangle *)
Definition tri_corners : list V := [mkV 0 0 0; mkV 4 0 0; mkV 0 4 0].
Definition tri : mesh_c ER := mkMesh None (vfin (mkV 0 0 0)) (map vfin tri_corners) [[0; 1; 2]%nat] [(0, 1); (1, 2); (0, 2)]%nat plain.
Definition drop_from : V := mkV 1 1 3.
Definition drop_to : V := mkV 1 1 (-1).
Lemma tri_proper : proper_face (mkV 0 0 1) tri_corners.
Proof.
  unfold tri_corners. split; [vunfold; ring|]. split.
  - intros p q [<-|[<-|[<-|[]]]] [<-|[<-|[<-|[]]]]; vunfold; ring.
  - assert (L : forall a b c p q : V, next_to [a; b; c] p q -> (p = a /\ q = b) \/ (p = b /\ q = c) \/ (p = c /\ q = a)).
    { intros a b c p q (i & Hp & Hq). destruct i as [|[|[|i]]]; simpl in Hp, Hq; try (injection Hp as <-; injection Hq as <-; auto). destruct i; discriminate. }
    assert (X : forall x y : R, x = y -> False -> x <> y) by tauto.
    intros p q s N1 N2. apply L in N1, N2.
    destruct N1 as [(-> & ->)|[(-> & ->)|(-> & ->)]], N2 as [(E & ->)|[(E & ->)|(E & ->)]];
      try (exfalso; assert (E1 := f_equal vx E); assert (E2 := f_equal vy E); cbn [vx vy] in E1, E2; lra); vunfold; lra.
Qed.
Lemma tri_clear : grazes_no_mesh (1 / 2) drop_from (vsub drop_to drop_from) tri_corners (me_edges tri) (me_faces tri) (mkV 0 0 0).
Proof.
  unfold grazes_no_mesh. cbv zeta. split; [|split].
  - intros v I. right. unfold tri_corners in I. destruct I as [<-|[<-|[<-|[]]]]; unfold crossing, drop_from, drop_to; cbv zeta; vunfold; unfold clear; split; lra.
  - intros a b p q I Hp Hq. unfold tri, tri_corners in *. cbn [me_edges] in I.
    assert (PQ : (p = mkV 0 0 0 /\ q = mkV 4 0 0) \/ (p = mkV 4 0 0 /\ q = mkV 0 4 0) \/ (p = mkV 0 0 0 /\ q = mkV 0 4 0)).
    { destruct I as [E|[E|[E|[]]]]; injection E as <- <-; cbn [nth_error] in Hp, Hq; apply some_eq in Hp; apply some_eq in Hq; subst p q; tauto. }
    assert (N : p <> q). { intros E. assert (E1 := f_equal vx E). assert (E2 := f_equal vy E). destruct PQ as [(-> & ->)|[(-> & ->)|(-> & ->)]]; cbn [vx vy] in *; lra. }
    split; auto. right. pose proof (dir_nz p q N) as Dn. pose proof (sqrt_norm_pos _ Dn) as S. pose proof (dir_pos p q N) as Dp.
    assert (B : let e := vcross (vsub (vsub drop_to drop_from) (mkV 0 0 0)) (vunit (vsub q p)) in
      vdot e e = vdot (vcross (vsub (vsub drop_to drop_from) (mkV 0 0 0)) (vsub q p)) (vcross (vsub (vsub drop_to drop_from) (mkV 0 0 0)) (vsub q p)) / vdot (vsub q p) (vsub q p)).
    { cbv zeta. unfold vunit. assert (Q : sqrt (vdot (vsub q p) (vsub q p)) * sqrt (vdot (vsub q p) (vsub q p)) = vdot (vsub q p) (vsub q p)) by (apply sqrt_sqrt; lra).
      set (k := sqrt _) in *. generalize (vsub (vsub drop_to drop_from) (mkV 0 0 0)). intros w. set (d := vsub q p) in *. rewrite <- Q. clearbody d k. vunfold. field. lra. }
    cbv zeta in B. rewrite B, line_crossing_scaled by auto.
    destruct PQ as [(-> & ->)|[(-> & ->)|(-> & ->)]]; unfold drop_from, drop_to; cbv zeta; vunfold; (split; [apply Rmult_le_reg_r with 1; [lra|]; field_simplify; lra|]);
      (eapply clear_at; [field_simplify; reflexivity|lra]).
  - intros f [<-|[]]. exists tri_corners, (mkV 0 0 1). split; [repeat constructor|]. split; [exact tri_proper|]. split; [simpl; lia|].
    split; [right; unfold drop_from, drop_to; vunfold; rewrite Rabs_left; lra|].
    intros p I. unfold tri_corners in I. destruct I as [<-|[<-|[<-|[]]]]; unfold drop_from; vunfold; lra.
Qed.
Lemma tri_wf : mesh_wf tri.
Proof.
  unfold mesh_wf, tri. cbn [me_verts me_faces me_edges]. split; [|split; [|split]].
  - unfold separated, tri_corners. cbn [map]. intros i j v w L Hv Hw.
    assert (M : forall a b : V, 1 <= vdot (vsub a b) (vsub a b) -> n_lt (vmag (vsub (vfin a) (vfin b))) EPSILON = false).
    { intros a b H. rewrite vfin_sub, vmag_fin, eps_val. apply er_lt_fin_f. apply Rle_trans with (sqrt 1); [rewrite sqrt_1; lra|apply sqrt_le_1; lra]. }
    destruct i as [|[|[|i]]], j as [|[|[|j]]]; try lia; cbn [nth_error] in Hv, Hw; try (apply some_eq in Hv; apply some_eq in Hw; subst v w; apply M; vunfold; lra);
      try (destruct j; discriminate); try (destruct i; discriminate).
  - repeat constructor.
  - repeat constructor.
  - repeat constructor; simpl; intros H; repeat (destruct H as [H|H]; [discriminate|]); auto.
Qed.
Lemma tri_listed : sides_listed (me_edges tri) (me_faces tri).
Proof.
  intros f a b [<-|[]] (i & Ha & Hb). destruct i as [|[|[|i]]]; simpl in Ha, Hb; try (injection Ha as <-; injection Hb as <-; simpl; tauto). destruct i; discriminate.
Qed.
Lemma zero_left (p : V) : vadd (mkV 0 0 0) p = p. Proof. apply vext; vunfold; ring. Qed.
Lemma tri_still : vsub (vadd (mkV 0 0 0) (mkV 0 0 0)) (vadd (mkV 0 0 0) (mkV 0 0 0)) = (mkV 0 0 0 : V). Proof. apply vext; vunfold; ring. Qed.
Lemma tri_start : map (fun v => position_into_world (rest_o (mkV 0 0 0)) (vadd (mkV 0 0 0) v)) tri_corners = tri_corners.
Proof. rewrite <- (map_id tri_corners) at 2. apply map_ext. intros v. rewrite rest_world. apply vext; vunfold; ring. Qed.
Lemma tri_met : ball_meets_mesh (1 / 2) (along drop_from drop_to (5 / 8)) (at_time (mesh_moves (mkV 0 0 0) tri_corners (rest_o (mkV 0 0 0)) (rest_o (mkV 0 0 0))) (5 / 8)) (me_edges tri) (me_faces tri).
Proof.
  assert (E : at_time (mesh_moves (mkV 0 0 0) tri_corners (rest_o (mkV 0 0 0)) (rest_o (mkV 0 0 0))) (5 / 8) = tri_corners).
    { unfold at_time, mesh_moves. rewrite map_map. rewrite <- (map_id tri_corners) at 2. apply map_ext. intros v. cbn [fst snd]. rewrite rest_world. unfold along. apply vext; vunfold; ring. }
    rewrite E. right. right. exists [0; 1; 2]%nat, tri_corners, (mkV 0 0 1), (mkV 1 1 0). split; [now left|]. split; [repeat constructor|]. split; [exact tri_proper|]. split.
    - apply triangle_points; [exact tri_proper|]. exists (1 / 4), (1 / 4). split; [lra|]. split; [lra|]. split; [lra|]. apply vext; vunfold; field.
    - unfold within, along, drop_from, drop_to. vunfold. lra.
Qed.
Lemma tri_example : exists k t, collide (CSphere (flyer (1 / 2))) (still drop_from) (still drop_to) (CMesh tri) (still (mkV 0 0 0)) (still (mkV 0 0 0)) = Ok (Some k) /\
  c_time k = Fin t /\ t <= 5 / 8.
Proof.
  pose proof (collide_mesh_upto (flyer (1 / 2)) tri (mkV 0 0 0) (mkV 0 0 0) tri_corners (1 / 2) (rest_o drop_from) (rest_o drop_to) (rest_o (mkV 0 0 0)) (rest_o (mkV 0 0 0))
    eq_refl eq_refl eq_refl eq_refl tri_wf tri_listed ltac:(lra) (rest_steady _ _)) as C. cbv zeta in C. rewrite !rest_world in C.
  rewrite tri_still in C. rewrite !zero_left in C.
  rewrite tri_start in C. specialize (C tri_clear).
  pose proof tri_met as T.
  change (ofin (rest_o drop_from)) with (still drop_from) in C. change (ofin (rest_o drop_to)) with (still drop_to) in C. change (ofin (rest_o (mkV 0 0 0))) with (still (mkV 0 0 0)) in C.
  destruct (collide _ _ _ _ _ _) as [[k|]| |] eqn:E; [| |contradiction|contradiction].
  - destruct C as (t & Et & Ht & _ & Mi). exists k, t. split; auto. split; auto. apply Mi; [lra|exact T].
  - exfalso. exact (C (5 / 8) ltac:(lra) T).
Qed.

(** ** A ball with its centre in the plane of a face *)
Definition wide_corners : list V := [mkV (-10) (-10) 0; mkV 20 (-10) 0; mkV (-10) 20 0].
Definition wide : mesh_c ER := mkMesh None (vfin (mkV 0 0 0)) (map vfin wide_corners) [[0; 1; 2]%nat] [(0, 1); (1, 2); (0, 2)]%nat plain.
Lemma wide_proper : proper_face (mkV 0 0 1) wide_corners.
Proof.
  unfold wide_corners. split; [vunfold; ring|]. split.
  - intros p q [<-|[<-|[<-|[]]]] [<-|[<-|[<-|[]]]]; vunfold; ring.
  - assert (L : forall a b c p q : V, next_to [a; b; c] p q -> (p = a /\ q = b) \/ (p = b /\ q = c) \/ (p = c /\ q = a)).
    { intros a b c p q (i & Hp & Hq). destruct i as [|[|[|i]]]; simpl in Hp, Hq; try (injection Hp as <-; injection Hq as <-; auto). destruct i; discriminate. }
    intros p q s N1 N2. apply L in N1, N2.
    destruct N1 as [(-> & ->)|[(-> & ->)|(-> & ->)]], N2 as [(E & ->)|[(E & ->)|(E & ->)]];
      try (exfalso; assert (E1 := f_equal vx E); assert (E2 := f_equal vy E); cbn [vx vy] in E1, E2; lra); vunfold; lra.
Qed.
Lemma slack1 : slack 1 * slack 1 < 2.
Proof.
  unfold slack. set (q := sqrt (1 * 1 + 1 / 1000000)). assert (Q0 : q * q = 1 * 1 + 1 / 1000000) by (unfold q; apply sqrt_sqrt; lra). assert (0 <= q) by apply sqrt_pos. clearbody q. nra.
Qed.
Lemma wide_unnoticed : let o := mkV 0 0 0 in
  collide (CSphere (flyer 1)) (still o) (still o) (CMesh wide) (still o) (still o) = Ok None /\
  ball_meets_mesh 1 o wide_corners (me_edges wide) (me_faces wide).
Proof.
  cbv zeta. split.
  2: { right. right. exists [0; 1; 2]%nat, wide_corners, (mkV 0 0 1), (mkV 0 0 0). split; [now left|]. split; [repeat constructor|]. split; [exact wide_proper|]. split.
       - apply triangle_points; [exact wide_proper|]. exists (1 / 3), (1 / 3). split; [lra|]. split; [lra|]. split; [lra|]. apply vext; vunfold; field.
       - unfold within. vunfold. lra. }
  change (still (mkV 0 0 0)) with (ofin (rest_o (mkV 0 0 0))). cbn [collide]. unfold vertices_in_world, world_move, flyer, wide. cbn [sp_center sp_radius me_verts me_edges me_faces me_pos].
  rewrite map_map, !into_world_fin, !rest_world, !vfin_sub.
  assert (Z : vadd (mkV 0 0 0) (mkV 0 0 0) = mkV 0 0 0) by (apply vext; vunfold; ring). rewrite !Z.
  assert (Z' : vsub (mkV 0 0 0) (mkV 0 0 0) = mkV 0 0 0) by (apply vext; vunfold; ring). rewrite !Z'.
  assert (M : map (fun x : V => position_into_world (ofin (rest_o (mkV 0 0 0))) (vadd (vfin (mkV 0 0 0)) (vfin x))) wide_corners = map vfin wide_corners).
  { apply map_ext. intros v. rewrite vfin_add, into_world_fin, rest_world. f_equal. apply vext; vunfold; ring. }
  rewrite M.
  assert (NP : forall k, ~ mesh_part (Fin 1) (vfin (mkV 0 0 0)) (vfin (mkV 0 0 0)) (map vfin wide_corners) [(0, 1); (1, 2); (0, 2)]%nat [[0; 1; 2]%nat] (vfin (mkV 0 0 0)) k).
  { intros k [v' k' I K|a b p' q' k' I Hp Hq K|f ps k' I F K].
    - apply in_map_iff in I. destruct I as (v & <- & I). apply (point_some 1 _ _ v _ ltac:(lra) (or_introl Z')) in K. destruct K as (t & _ & _ & D).
      unfold wide_corners in I. destruct I as [<-|[<-|[<-|[]]]]; vunfold; lra.
    - assert (PQ : exists p q, p' = vfin p /\ q' = vfin q /\ ((p = mkV (-10) (-10) 0 /\ q = mkV 20 (-10) 0) \/ (p = mkV 20 (-10) 0 /\ q = mkV (-10) 20 0) \/ (p = mkV (-10) (-10) 0 /\ q = mkV (-10) 20 0))).
      { unfold wide_corners in Hp, Hq. destruct I as [E|[E|[E|[]]]]; injection E as <- <-; cbn [map nth_error] in Hp, Hq; apply some_eq in Hp; apply some_eq in Hq; subst p' q'; eexists; eexists; (split; [reflexivity|split; [reflexivity|tauto]]). }
      destruct PQ as (p & q & -> & -> & PQ).
      assert (N : p <> q). { intros E. assert (E1 := f_equal vx E). assert (E2 := f_equal vy E). destruct PQ as [(-> & ->)|[(-> & ->)|(-> & ->)]]; cbn [vx vy] in *; lra. }
      assert (H : vcross (vsub (mkV 0 0 0) (mkV 0 0 0)) (vunit (vsub q p)) = mkV 0 0 0) by (rewrite Z'; apply vext; vunfold; ring).
      apply (segment_sound 1 _ _ p q _ N (or_introl H)) in K. destruct K as (t & i & _ & _ & Hi & W). pose proof slack1 as SL. unfold within in W.
      clear - W SL Hi PQ. revert W SL. generalize (slack 1 * slack 1). intros w W SL.
      destruct PQ as [(-> & ->)|[(-> & ->)|(-> & ->)]]; unfold between, along in W; vunfold; pose proof (Rle_0_sqr (-10 + 30 * i)) as Q1; pose proof (Rle_0_sqr (5 - 10 * i)) as Q2; unfold Rsqr in Q1, Q2; nra.
    - destruct I as [<-|[]].
      assert (ps = map vfin wide_corners) as ->.
      { unfold wide_corners in *. inversion F as [|? p0 ? ? F0 F1]; subst. inversion F1 as [|? p1 ? ? F2 F3]; subst. inversion F3 as [|? p2 ? ? F4 F5]; subst. inversion F5; subst.
        cbn [map nth_error] in *. apply some_eq in F0; apply some_eq in F2; apply some_eq in F4. subst. reflexivity. }
      destruct (face_normal (mkV 0 0 1) (mkV (-10) (-10) 0) (mkV 20 (-10) 0) (mkV (-10) 20 0) [] wide_proper) as [Nz En].
      pose proof (sphere_polygon 1 (mkV 0 0 0) (mkV 0 0 0) (mkV (-10) (-10) 0) (mkV 20 (-10) 0) (mkV (-10) 20 0) [] (mkV 0 0 0) ltac:(lra) Nz) as S. cbv zeta in S. rewrite En in S.
      specialize (S ltac:(left; vunfold; ring)). unfold wide_corners in K. rewrite K in S.
      destruct S as (t & x & nn & _ & _ & _ & Px & _ & _ & (Un & j & J & A) & Cr & _).
      assert (Ax := f_equal vx A). assert (Ay := f_equal vy A). assert (Az := f_equal vz A). assert (Cx := f_equal vx Cr). assert (Cy := f_equal vy Cr).
      clear - Px Un J Az Cx Cy. destruct x as [x1 x2 x3], nn as [n1 n2 n3]. vunfold. cbn [vx vy vz] in *.
      assert (n1 = 0) by lra. assert (n2 = 0) by lra. assert (x3 = 0) by lra. subst.
      assert (P : n3 * j = 0) by lra. apply Rmult_integral in P. destruct P; subst; lra. }
  assert (T : exists o, collide_sphere_with_mesh (Fin 1) (vfin (mkV 0 0 0)) (vfin (mkV 0 0 0)) (map vfin wide_corners) [(0, 1); (1, 2); (0, 2)]%nat [[0; 1; 2]%nat] (vfin (mkV 0 0 0)) = Ok o).
  { unfold collide_sphere_with_mesh, wide_corners. cbv zeta. cbn [map rfold rbind unwrap nth_error fst snd rmap].
    unfold collide_sphere_with_polygon_surface at 1. destruct (rg_is_empty _); [cbn [rbind]; eexists; reflexivity|]. destruct (polygon_sides_ok _ _ _ _ _); cbn [rbind]; eexists; reflexivity. }
  destruct T as (o & E). change (Ok (A := option (collision ER)) None) with (Ok (@None (collision ER))). rewrite E. apply mesh_earliest in E. destruct o as [k|]; auto. destruct E as [P _]. exfalso. exact (NP k P).
Qed.
Lemma cube_shapes : proper_shape (CSphere (flyer 1)) /\ proper_shape (CBox cube) /\
  exists k, collide (CSphere (flyer 1)) (still start_at) (still end_at) (CBox cube) (still (mkV 0 0 0)) (still (mkV 0 0 0)) = Ok (Some k).
Proof.
  split; [split; [exists (mkV 0 0 0); exact eq_refl|exists 1; split; [exact eq_refl|lra]]|].
  split; [exists cube_lo, cube_hi; split; [exact eq_refl|]; split; [exact eq_refl|]; cbn; lra|].
  destruct cube_example as (k & t & K & _). exists k. exact K.
Qed.
