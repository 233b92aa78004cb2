(** * Geom3P: balls against lines and polygons, corners against faces, in exact arithmetic *)
From Coq Require Import ZArith Reals List Bool Arith Lra Lia Psatz.
Import ListNotations.
From Verif Require Import Num Vec Res RangeM Orient Colliders Collide OrderP Spec RangeP ResP MeshP CollideP RealSpec RealV GeomP Geom2P.
Local Open Scope R_scope.

Lemma Rabs_le_inv a b : Rabs a <= b -> - b <= a <= b.
Proof. intros H. pose proof (Rle_abs a). pose proof (Rle_abs (- a)). rewrite Rabs_Ropp in *. lra. Qed.

(** ** Ball against line *)
Lemma lagrange (w d : V) j : vdot d d = 1 ->
  vdot (vsub w (vscale d j)) (vsub w (vscale d j)) = vdot (vcross w d) (vcross w d) + (vdot w d - j) * (vdot w d - j).
Proof.
  intros H. assert (E : vdot (vcross w d) (vcross w d) = vdot w w * vdot d d - vdot w d * vdot w d) by (vunfold; ring).
  rewrite E, H. assert (E' : vdot (vsub w (vscale d j)) (vsub w (vscale d j)) = vdot w w - 2 * j * vdot w d + j * j * vdot d d) by (vunfold; ring).
  rewrite E', H. ring.
Qed.
Lemma line_touch (c s dir : V) r : 0 <= r -> dir <> mkV 0 0 0 ->
  ((exists j, within (vadd s (vscale dir j)) c r) <-> vdot (vcross (vsub c s) (vunit dir)) (vcross (vsub c s) (vunit dir)) <= r * r).
Proof.
  intros Hr Hd. pose proof (vunit_unit dir Hd) as U. pose proof (sqrt_norm_pos dir Hd) as P. unfold within.
  assert (E : forall j, vdot (vsub (vadd s (vscale dir j)) c) (vsub (vadd s (vscale dir j)) c) =
     vdot (vcross (vsub c s) (vunit dir)) (vcross (vsub c s) (vunit dir)) +
     (vdot (vsub c s) (vunit dir) - j * sqrt (vdot dir dir)) * (vdot (vsub c s) (vunit dir) - j * sqrt (vdot dir dir))).
  { intros j. rewrite <- lagrange by auto. rewrite dist_sym.
    assert (X : vsub c (vadd s (vscale dir j)) = vsub (vsub c s) (vscale (vunit dir) (j * sqrt (vdot dir dir)))).
    { unfold vunit. set (q := sqrt (vdot dir dir)) in *. apply vext; vunfold; field; lra. }
    now rewrite X. }
  split.
  - intros (j & H). rewrite E in H. pose proof (Rle_0_sqr (vdot (vsub c s) (vunit dir) - j * sqrt (vdot dir dir))) as S. unfold Rsqr in S. lra.
  - intros H. exists (vdot (vsub c s) (vunit dir) / sqrt (vdot dir dir)). rewrite E.
    replace (vdot (vsub c s) (vunit dir) / sqrt (vdot dir dir) * sqrt (vdot dir dir)) with (vdot (vsub c s) (vunit dir)) by (field; lra). lra.
Qed.
Lemma line_quadratic (c m1 s m2 d : V) r t :
  let a := vcross (vsub c s) d in let b := vcross (vsub m1 m2) d in
  vdot b b * t * t + 2 * vdot a b * t + (vdot a a - r * r) =
  vdot (vcross (vsub (vadd c (vscale m1 t)) (vadd s (vscale m2 t))) d) (vcross (vsub (vadd c (vscale m1 t)) (vadd s (vscale m2 t))) d) - r * r.
Proof. cbv zeta. vunfold. ring. Qed.


(** What a hit on a line looks like (any motion). *)
Lemma sphere_line_some (r : R) (c m1 s dir m2 : V) k : dir <> mkV 0 0 0 ->
  collide_sphere_with_line (Fin r) (vfin c) (vfin m1) (vfin s) (vfin dir) (vfin m2) = Some k ->
  exists t x j, c_time k = Fin t /\ 0 <= t <= 1 /\ c_pos k = vfin x /\ x = vadd (vadd s (vscale m2 t)) (vscale dir j) /\
    vdot (vsub (vadd c (vscale m1 t)) x) dir = 0 /\ c_normal k = vnormalize (vfin (vsub x c)).
Proof.
  intros Hd. unfold collide_sphere_with_line. cbv zeta. rewrite vnormalize_fin by auto. set (d := vunit dir).
  rewrite !vfin_sub, !vfin_cross, !vfin_dot, fin_2, !fin_mul, fin_sub.
  match goal with |- context [rg_intersect ?z rg_unit] => set (Z := z) end.
  pose proof (cut_first Z (fun t => in_range (Fin t) Z = true) ltac:(tauto)) as C. cbv zeta in C.
  destruct (rg_is_empty _) eqn:E; [discriminate|]. destruct C as (t & Et & F). rewrite Et. intros H. injection H as <-.
  unfold c_time. cbn [c_times c_pos c_normal].
  pose proof (vunit_unit dir Hd) as U. pose proof (sqrt_norm_pos dir Hd) as P. fold d in U.
  set (w := vsub (vadd c (vscale m1 t)) (vadd s (vscale m2 t))).
  exists t, (vadd (vadd s (vscale m2 t)) (vscale d (vdot w d))), (vdot w d / sqrt (vdot dir dir)).
  split; [exact Et|]. split; [apply F|]. split; [reflexivity|]. split; [|split].
  - unfold d, vunit. set (q := sqrt (vdot dir dir)) in *. apply vext; vunfold; field; lra.
  - assert (X : dir = vscale d (sqrt (vdot dir dir))). { unfold d, vunit. set (q := sqrt (vdot dir dir)) in *. apply vext; vunfold; field; lra. }
    rewrite X at 1. 
    assert (Y : vdot (vsub (vadd c (vscale m1 t)) (vadd (vadd s (vscale m2 t)) (vscale d (vdot w d)))) (vscale d (sqrt (vdot dir dir))) =
      sqrt (vdot dir dir) * (vdot w d - vdot w d * vdot d d)) by (unfold w; vunfold; ring).
    rewrite Y, U. ring.
  - reflexivity.
Qed.
Lemma sphere_line (r : R) (c m1 s dir m2 : V) : 0 <= r -> dir <> mkV 0 0 0 ->
  1 / 1000000 <= vdot (vcross (vsub m1 m2) (vunit dir)) (vcross (vsub m1 m2) (vunit dir)) -> 1 / 1000000 <= line_crossing r c m1 s dir m2 ->
  let centre t := vadd c (vscale m1 t) in
  let touches t := exists j, within (vadd (vadd s (vscale m2 t)) (vscale dir j)) (centre t) r in
  match collide_sphere_with_line (Fin r) (vfin c) (vfin m1) (vfin s) (vfin dir) (vfin m2) with
  | None => forall t, 0 <= t <= 1 -> ~ touches t
  | Some k => exists t x, c_time k = Fin t /\ first_instant touches t /\ c_pos k = vfin x /\ within x (centre t) r /\
      (exists j, x = vadd (vadd s (vscale m2 t)) (vscale dir j)) /\ vdot (vsub (centre t) x) dir = 0
  end.
Proof.
  intros Hr Hd Hb Hc centre touches. pose proof (sphere_line_some r c m1 s dir m2) as SL.
  unfold collide_sphere_with_line in *. cbv zeta in *. rewrite vnormalize_fin in * by auto. set (d := vunit dir) in *.
  rewrite !vfin_sub, !vfin_cross, !vfin_dot, fin_2, !fin_mul, fin_sub in *.
  match goal with |- context [rg_intersect ?z rg_unit] => set (Z := z) in * end.
  assert (HZ : forall t, in_range (Fin t) Z = true <-> touches t).
  { intros t. unfold Z. rewrite qz_inside; auto. rewrite (line_quadratic c m1 s m2 d r t). unfold touches. rewrite line_touch by auto. fold d. unfold centre. lra. }
  pose proof (cut_first Z touches (fun t _ => HZ t)) as C. cbv zeta in C.
  destruct (rg_is_empty _) eqn:E; [exact C|]. destruct C as (t & Et & F).
  match goal with |- exists t x, c_time ?k = _ /\ _ => destruct (SL k Hd eq_refl) as (t' & x & j & H1 & H2 & H3 & H4 & H5 & _) end.
  assert (t' = t) as -> by (unfold c_time in H1; cbn [c_times] in H1; congruence).
  exists t, x. split; [exact H1|]. split; [exact F|]. split; [exact H3|]. split; [|split; [exists j; exact H4|exact H5]].
  destruct F as (_ & (j' & T) & _). unfold within in *. subst x.
  assert (P : vdot (vsub (vadd (vadd s (vscale m2 t)) (vscale dir j')) (centre t)) (vsub (vadd (vadd s (vscale m2 t)) (vscale dir j')) (centre t)) =
    vdot (vsub (vadd (vadd s (vscale m2 t)) (vscale dir j)) (centre t)) (vsub (vadd (vadd s (vscale m2 t)) (vscale dir j)) (centre t)) +
    (j' - j) * (j' - j) * vdot dir dir - 2 * (j' - j) * vdot (vsub (centre t) (vadd (vadd s (vscale m2 t)) (vscale dir j))) dir) by (vunfold; ring).
  unfold centre in *. rewrite H5 in P. pose proof (vdot_pos dir). pose proof (Rle_0_sqr (j' - j)) as S. unfold Rsqr in S.
  assert (0 <= (j' - j) * (j' - j) * vdot dir dir) by (apply Rmult_le_pos; auto). lra.
Qed.

(** ** Ball against the middle of a segment *)
Lemma segment_some (r : R) (c m1 p q m2 : V) k : p <> q ->
  collide_sphere_with_mid_line_segment (Fin r) (vfin c) (vfin m1) (vfin p) (vfin q) (vfin m2) = Some k <->
  collide_sphere_with_line (Fin r) (vfin c) (vfin m1) (vfin p) (vfin (vsub q p)) (vfin m2) = Some k /\
  exists t x, c_time k = Fin t /\ c_pos k = vfin x /\
    let p' := vadd p (vscale m2 t) in let q' := vadd q (vscale m2 t) in
    Rabs (dist p' x + dist q' x - dist q p) < 1 / 1000000.
Proof.
  intros Hpq. assert (Hd : vsub q p <> mkV 0 0 0).
  { intros E. apply Hpq. apply vext; [assert (X := f_equal vx E)|assert (X := f_equal vy E)|assert (X := f_equal vz E)]; vunfold; lra. }
  unfold collide_sphere_with_mid_line_segment. cbv zeta. rewrite vfin_sub.
  destruct (collide_sphere_with_line _ _ _ _ _ _) as [hit|] eqn:E; [|split; [discriminate|intros [? _]; discriminate]].
  destruct (sphere_line_some _ _ _ _ _ _ _ Hd E) as (t & x & j & Ht & Ht' & Hx & _).
  change (rg_min (c_times hit)) with (c_time hit). rewrite Ht, Hx, !vfin_scale, !vfin_add, !vfin_sub, !vmag_fin, fin_add, fin_sub.
  destruct (n_lt _ _) eqn:L; [apply abs_lt_eps in L|].
  - split; [intros H; injection H as <-|intros [H _]; auto]. split; auto. exists t, x. split; auto.
  - split; [discriminate|]. intros [H (t' & x' & H1 & H2 & H3)]. injection H as <-. assert (t' = t) as -> by congruence. 
    assert (x' = x) as -> by (apply vfin_inj; congruence). apply abs_lt_eps in H3. unfold dist in H3. congruence.
Qed.

(** ** Ball against polygon *)
Lemma loop_pairs_map {X Y} (g : X -> Y) l : loop_pairs (map g l) = map (fun p => (g (fst p), g (snd p))) (loop_pairs l).
Proof.
  destruct l as [|x l]; [reflexivity|]. unfold loop_pairs. cbn [map].
  assert (A : forall (a b : list X), combine (map g a) (map g b) = map (fun p => (g (fst p), g (snd p))) (combine a b)).
  { induction a as [|y a IH]; intros [|z b]; simpl; auto. now rewrite IH. }
  rewrite <- A. cbn [map]. f_equal. now rewrite map_app.
Qed.
Definition lift2 (p : V * V) : Vec3 ER * Vec3 ER := (vfin (fst p), vfin (snd p)).
Lemma fin_eq a b : n_eq (Fin a) (Fin b) = true <-> a = b.
Proof. simpl. rdec; split; auto; try congruence. Qed.
Lemma fin_eq_f a b : n_eq (Fin a) (Fin b) = false <-> a <> b.
Proof. simpl. rdec; split; auto; try congruence; contradiction. Qed.

Lemma sides_ok_spec (hit n tpm : V) sides : 
  let side (p : V * V) := vdot (vcross (vsub hit (vadd (fst p) tpm)) (vsub (vadd (snd p) tpm) (vadd (fst p) tpm))) n in
  let ok e := polygon_sides_ok (vfin hit) (vfin n) (vfin tpm) (Fin e) (map lift2 sides) in
  (ok 1 = true <-> forall p, In p sides -> - (1 / 1000000) < side p) /\
  (ok (-1) = true <-> forall p, In p sides -> side p < 1 / 1000000) /\
  (ok 0 = true <-> (forall p, In p sides -> side p < 1 / 1000000) \/ (forall p, In p sides -> - (1 / 1000000) < side p)).
Proof.
  intros side. cbv zeta. induction sides as [|[f s] l IH].
  { simpl. split; [|split]; split; auto; intros _; try (intros ? []). left. intros ? []. }
  destruct IH as (IH1 & IH2 & IH3). cbn [map lift2 fst snd polygon_sides_ok].
  rewrite !vfin_add, !vfin_sub, !vfin_cross, !vfin_dot, !fin_0.
  change (vdot (vcross (vsub hit (vadd f tpm)) (vsub (vadd s tpm) (vadd f tpm))) n) with (side (f, s)).
  set (v := side (f, s)).
  assert (A : forall P : R -> Prop, (forall p, In p ((f, s) :: l) -> P (side p)) <-> P v /\ forall p, In p l -> P (side p)).
  { intros P. split; [intros H; split; [apply H; now left|intros p Hp; apply H; now right]|intros [H1 H2] p [<-|Hp]; auto]. }
  rewrite !(A (fun x => - (1 / 1000000) < x)), !(A (fun x => x < 1 / 1000000)).
  assert (E01 : n_eq (Fin 0) (Fin 1) = false) by (apply fin_eq_f; lra). assert (E0m : n_eq (Fin 0) (Fin (-1)) = false) by (apply fin_eq_f; lra).
  assert (E00 : n_eq (Fin 0) (Fin 0) = true) by (now apply fin_eq). rewrite E01, E0m, E00.
  assert (S : n_signum (Fin v) = Fin (if Rlt_dec v 0 then -1 else 1)) by (simpl; now destruct (Rlt_dec v 0)). rewrite S.
  destruct (n_lt (n_abs (Fin v)) EPSILON) eqn:L.
  - apply abs_lt_eps in L. apply Rabs_def2 in L. rewrite IH1, IH2, IH3. repeat split; try tauto; try lra.
  - assert (L' : 1 / 1000000 <= Rabs v) by (rewrite eps_val in L; now apply er_lt_fin_f in L). clear L.
    destruct (Rlt_dec v 0) as [H|H]; [rewrite Rabs_left in L' by auto|rewrite Rabs_pos_eq in L' by lra].
    + replace (n_eq (Fin 1) (Fin (-1))) with false by (symmetry; apply fin_eq_f; lra).
      replace (n_eq (Fin (-1)) (Fin (-1))) with true by (symmetry; now apply fin_eq). cbn [negb]. rewrite IH2. 
      split; [split; [discriminate|intros [? _]; lra]|]. split; [split; [intros; split; auto; lra|tauto]|].
      split; [intros; left; split; auto; lra|intros [[? ?]|[? ?]]; auto; lra].
    + replace (n_eq (Fin 1) (Fin 1)) with true by (symmetry; now apply fin_eq).
      replace (n_eq (Fin (-1)) (Fin 1)) with false by (symmetry; apply fin_eq_f; lra). cbn [negb]. rewrite IH1.
      split; [split; [intros; split; auto; lra|tauto]|]. split; [split; [discriminate|intros [? _]; lra]|].
      split; [intros; right; split; auto; lra|intros [[? ?]|[? ?]]; auto; lra].
Qed.
Lemma same_side_neg n pol x k : k <> 0 -> Rabs k = 1 -> same_side (vscale n k) pol x <-> same_side n pol x.
Proof.
  intros Hk Hk'. unfold same_side. cbv zeta.
  assert (E : forall f s, vdot (vcross (vsub x f) (vsub s f)) (vscale n k) = k * vdot (vcross (vsub x f) (vsub s f)) n) by (intros; vunfold; ring).
  setoid_rewrite E. destruct (Rcase_abs k).
  - rewrite Rabs_left in Hk' by auto. assert (k = -1) as -> by lra.
    split; (intros [H|H]; [right|left]; intros f s Hn; specialize (H f s Hn); lra).
  - rewrite Rabs_pos_eq in Hk' by lra. subst k. split; (intros [H|H]; [left|right]; intros f s Hn; specialize (H f s Hn); lra).
Qed.
Lemma sides_ok_same (hit n tpm : V) pol :
  polygon_sides_ok (vfin hit) (vfin n) (vfin tpm) n0 (loop_pairs (map vfin pol)) = true <-> same_side n pol (vsub hit tpm).
Proof.
  rewrite loop_pairs_map, fin_0. change (fun p : V * V => (vfin (fst p), vfin (snd p))) with lift2.
  destruct (sides_ok_spec hit n tpm (loop_pairs pol)) as (_ & _ & H). rewrite H. clear H. unfold same_side. cbv zeta.
  assert (E : forall f s, vdot (vcross (vsub hit (vadd f tpm)) (vsub (vadd s tpm) (vadd f tpm))) n = vdot (vcross (vsub (vsub hit tpm) f) (vsub s f)) n)
    by (intros; vunfold; ring).
  split; (intros [H|H]; [left|right]).
  - intros f s Hn. apply loop_pairs_next in Hn. specialize (H _ Hn). cbn [fst snd] in H. rewrite E in H. exact H.
  - intros f s Hn. apply loop_pairs_next in Hn. specialize (H _ Hn). cbn [fst snd] in H. rewrite E in H. exact H.
  - intros [f s] Hn. apply loop_pairs_next in Hn. cbn [fst snd]. rewrite E. auto.
  - intros [f s] Hn. apply loop_pairs_next in Hn. cbn [fst snd]. rewrite E. auto.
Qed.
Lemma sides_nan (hit tpm : V) a b l : polygon_sides_ok (vfin hit) (mkV ENaN ENaN ENaN) (vfin tpm) n0 (lift2 a :: lift2 b :: l) = false.
Proof.
  cbn [lift2 polygon_sides_ok]. rewrite !vfin_add, !vfin_sub, !vfin_cross.
  assert (D : forall v, vdot (vfin v) (mkV ENaN ENaN ENaN) = ENaN) by reflexivity. rewrite !D.
  assert (A : n_lt (n_abs ENaN) EPSILON = false) by reflexivity. rewrite !A.
  assert (B : n_eq (n0 : ER) n0 = true) by (rewrite fin_0; now apply fin_eq). rewrite B.
  change (n_signum ENaN) with ENaN. change (n_eq n0 ENaN) with false. change (n_eq ENaN ENaN) with false. reflexivity.
Qed.

Lemma sphere_surface_times (r : R) (c m p n mv : V) t : 0 <= r -> vdot n n = 1 -> speedy (vdot mv n - vdot m n) ->
  (in_range (Fin t) (sphere_plane_overlap_time (Fin r) (vfin c) (vfin m) (vfin p) (vfin n) (vfin mv) false) = true <->
   Rabs (vdot (vsub (vadd c (vscale m t)) (vadd p (vscale mv t))) n) <= r).
Proof.
  intros Hr Hn Hs. unfold sphere_plane_overlap_time. cbv zeta.
  rewrite fin_neg, !vfin_scale, !vfin_add, !vfin_dot, fin_sub.
  assert (E1 : vdot (vadd c (vscale n (- r))) n = vdot c n - r * vdot n n) by (vunfold; ring).
  assert (E2 : vdot (vadd c (vscale n r)) n = vdot c n + r * vdot n n) by (vunfold; ring).
  rewrite E1, E2, Hn, !rg_range_le by lra. rewrite linear_fin; auto; try lra.
  assert (E : vdot (vsub (vadd c (vscale m t)) (vadd p (vscale mv t))) n = vdot c n - vdot p n - (vdot mv n - vdot m n) * t) by (vunfold; ring).
  rewrite E. split.
  - intros [H1 H2]. apply Rabs_le. lra.
  - intros H. apply Rabs_le_inv in H. lra.
Qed.
Lemma surface_touch (c p n : V) r : 0 <= r -> vdot n n = 1 ->
  ((exists x, within x c r /\ vdot (vsub x p) n = 0) <-> Rabs (vdot (vsub c p) n) <= r).
Proof.
  intros Hr Hn. unfold within. split.
  - intros (x & H1 & H2). pose proof (cauchy (vsub x c) n) as C. rewrite Hn in C.
    assert (C' : vdot (vsub x c) n * vdot (vsub x c) n <= r * r) by lra. apply sqr_le_abs in C'; auto.
    assert (vdot (vsub c p) n = vdot (vsub x p) n - vdot (vsub x c) n) by (vunfold; ring). apply Rabs_le. lra.
  - intros H. apply Rabs_le_inv in H. exists (vsub c (vscale n (vdot (vsub c p) n))). split.
    + assert (E : vdot (vsub (vsub c (vscale n (vdot (vsub c p) n))) c) (vsub (vsub c (vscale n (vdot (vsub c p) n))) c) =
        vdot (vsub c p) n * vdot (vsub c p) n * vdot n n) by (vunfold; ring). rewrite E, Hn. nra.
    + assert (E : vdot (vsub (vsub c (vscale n (vdot (vsub c p) n))) p) n = vdot (vsub c p) n * (1 - vdot n n)) by (vunfold; ring). rewrite E, Hn. ring.
Qed.

Lemma sphere_polygon (r : R) (c m k0 k1 k2 : V) rest (mv : V) : 0 <= r ->
  let pol := k0 :: k1 :: k2 :: rest in
  let cr := vcross (vsub k1 k0) (vsub k2 k0) in cr <> mkV 0 0 0 ->
  let n := vunit cr in speedy (vdot mv n - vdot m n) ->
  let centre t := vadd c (vscale m t) in
  let plane t x := vdot (vsub x (vadd k0 (vscale mv t))) n = 0 in
  let touches t := exists x, within x (centre t) r /\ plane t x in
  match collide_sphere_with_polygon_surface (Fin r) (vfin c) (vfin m) (map vfin pol) (vfin mv) with
  | Ok (Some k) => exists t x nn, c_time k = Fin t /\ first_instant touches t /\ c_pos k = vfin x /\ plane t x /\ within x (centre t) r /\
      c_normal k = vfin nn /\ unit_along nn (vsub x (centre t)) /\ vcross nn n = mkV 0 0 0 /\ same_side n pol (vsub x (vscale mv t))
  | Ok None => forall t x j, first_instant touches t -> plane t x -> vsub x (centre t) = vscale n j -> x <> centre t ->
      ~ same_side n pol (vsub x (vscale mv t))
  | _ => False
  end.
Proof.
  intros Hr pol cr Hcr n Hs centre plane touches. unfold pol at 1. cbn [map collide_sphere_with_polygon_surface]. cbv zeta.
  change (vfin k0 :: vfin k1 :: vfin k2 :: map vfin rest) with (map vfin pol).
  rewrite !vfin_sub, vfin_cross. fold cr. rewrite vnormalize_fin by auto. fold n.
  pose proof (vunit_unit cr Hcr) as U. fold n in U.
  set (Z := sphere_plane_overlap_time _ _ _ _ _ _ _).
  assert (HZ : forall t, in_range (Fin t) Z = true <-> touches t).
  { intros t. unfold Z. rewrite sphere_surface_times by auto. unfold touches, plane, centre. now rewrite surface_touch. }
  pose proof (cut_first Z touches (fun t _ => HZ t)) as C. cbv zeta in C.
  destruct (rg_is_empty _) eqn:E.
  { intros t x j (F1 & F2 & _) _ _ _. exfalso. exact (C t F1 F2). }
  destruct C as (t & Et & F). rewrite Et. rewrite !vfin_scale, !vfin_add, !vfin_sub, !vfin_dot, vfin_scale, !vfin_sub.
  set (w := vdot (vsub (vadd c (vscale m t)) (vadd k0 (vscale mv t))) n).
  set (x := vsub (vadd c (vscale m t)) (vscale n w)).
  assert (Px : plane t x). { unfold plane, x. assert (Y : vdot (vsub (vsub (vadd c (vscale m t)) (vscale n w)) (vadd k0 (vscale mv t))) n = w - w * vdot n n) by (unfold w; vunfold; ring). rewrite Y, U. ring. }
  assert (Dx : vsub x (centre t) = vscale n (- w)) by (unfold x, centre; apply vext; vunfold; ring).
  assert (Wx : within x (centre t) r).
  { unfold within. rewrite Dx, vdot_scale2, U. assert (T : touches t) by apply F. unfold touches, plane, centre in T. rewrite surface_touch in T by auto. fold w in T.
    apply Rabs_le_inv in T. nra. }
  assert (OnlyX : forall t' y j, first_instant touches t' -> plane t' y -> vsub y (centre t') = vscale n j -> t' = t /\ y = x).
  { intros t' y j (G1 & G2 & G3) Py Dy. destruct F as (F1 & F2 & F3). assert (t' = t) as -> by (apply Rle_antisym; auto). split; auto.
    assert (Y : vdot (vsub y (vadd k0 (vscale mv t))) n = vdot (vsub y (centre t)) n + w) by (unfold w, centre; vunfold; ring).
    unfold plane in Py. rewrite Py, Dy, vscale_dot, U in Y. assert (j = - w) as -> by lra.
    apply vext; [assert (X := f_equal vx Dy)|assert (X := f_equal vy Dy)|assert (X := f_equal vz Dy)]; unfold x; fold (centre t); vunfold; lra. }
  destruct (Req_EM_T w 0) as [W|W].
  - (* centre on the plane: NaN normal, rejected *)
    assert (Z0 : vsub x (vadd c (vscale m t)) = mkV 0 0 0) by (unfold centre in Dx; rewrite Dx, W; apply vext; vunfold; ring).
    rewrite Z0, vnormalize_zero. rewrite loop_pairs_map. change (fun p : V * V => (vfin (fst p), vfin (snd p))) with lift2.
    unfold pol at 1. unfold loop_pairs. cbn [app combine map]. rewrite sides_nan.
    intros t' y j G Py Dy Ny. exfalso. destruct (OnlyX t' y j G Py Dy) as [-> ->]. apply Ny.
    apply vext; [assert (X := f_equal vx Z0)|assert (X := f_equal vy Z0)|assert (X := f_equal vz Z0)]; unfold centre; vunfold; lra.
  - assert (Nz : vsub x (vadd c (vscale m t)) <> mkV 0 0 0).
    { unfold centre in Dx. rewrite Dx. apply vscale_nonzero; [lra|]. intros N0. rewrite N0 in U. vunfold. lra. }
    rewrite vnormalize_fin by auto. set (nn := vunit (vsub x (vadd c (vscale m t)))).
    assert (EN : exists k, k <> 0 /\ Rabs k = 1 /\ nn = vscale n k).
    { exists (if Rlt_dec w 0 then 1 else -1). split; [destruct (Rlt_dec w 0); lra|].
      split; [destruct (Rlt_dec w 0); [apply Rabs_R1|rewrite Rabs_left; lra]|].
      unfold nn, vunit. unfold centre in Dx. rewrite Dx, vdot_scale2, U.
      replace (- w * - w * 1) with (Rsqr w) by (unfold Rsqr; ring). rewrite sqrt_Rsqr_abs.
      destruct (Rlt_dec w 0); [rewrite Rabs_left by auto|rewrite Rabs_pos_eq by lra]; apply vext; vunfold; field; lra. }
    destruct EN as (kk & K1 & K2 & EN).
    destruct (polygon_sides_ok _ _ _ _ _) eqn:S.
    + apply sides_ok_same in S. rewrite EN in S. rewrite same_side_neg in S by auto.
      exists t, x, nn. unfold c_time. cbn [c_times c_pos c_normal]. repeat (split; [now auto|]).
      split; [now apply vunit_along|]. split; [rewrite EN; apply vext; vunfold; ring|exact S].
    + intros t' y j G Py Dy Ny SS. destruct (OnlyX t' y j G Py Dy) as [-> ->].
      assert (X : same_side nn pol (vsub x (vscale mv t))) by (rewrite EN; now apply same_side_neg).
      apply sides_ok_same in X. congruence.
Qed.
