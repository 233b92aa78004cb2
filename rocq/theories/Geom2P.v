(** * Geom2P: balls against boxes, lines and polygons, in exact arithmetic *)
From Coq Require Import ZArith Reals List Bool Lra Lia Psatz.
Import ListNotations.
From Verif Require Import Num Vec Res RangeM Orient Colliders Collide OrderP Spec RangeP CollideP RealSpec RealV GeomP.
Local Open Scope R_scope.

(** ** Ranges that are empty or contain real numbers *)
Definition nice (r : range ER) : Prop := rg_is_empty r = true \/ proper r.
Lemma proper_nonempty r : proper r -> rg_is_empty r = false.
Proof. intros (H & _). unfold rg_is_empty. destruct (r_min r), (r_max r); simpl in *; auto; discriminate. Qed.
Lemma nice_range a b : nice (rg_range (Fin a) (Fin b)).
Proof. right. unfold rg_range. simpl n_lt. destruct (Rlt_dec a b); apply proper_fin; lra. Qed.
Lemma nice_contain a b : nice a -> nice b -> nice (rg_contain a b).
Proof.
  intros Ha Hb. unfold rg_contain. destruct (rg_is_empty a) eqn:Ea; auto. destruct (rg_is_empty b) eqn:Eb; auto.
  destruct Ha as [|(A1 & A2 & A3)]; [congruence|]. destruct Hb as [|(B1 & B2 & B3)]; [congruence|].
  right. unfold proper. cbn [r_min r_max]. split; [|split].
  - destruct (n_lt (r_min a) (r_min b)) eqn:E1, (n_lt (r_max b) (r_max a)) eqn:E2; auto;
      simpl in *; destruct (r_min a), (r_max a), (r_min b), (r_max b); simpl in *; try discriminate; try congruence; auto; rdec; try discriminate; auto; lra.
  - destruct (n_lt (r_min a) (r_min b)); auto.
  - destruct (n_lt (r_max b) (r_max a)); auto.
Qed.
Lemma nice_intersect a b : nice a -> nice b -> nice (rg_intersect a b).
Proof.
  intros Ha Hb. unfold rg_intersect. destruct (rg_is_empty a) eqn:Ea; [left; reflexivity|]. destruct (rg_is_empty b) eqn:Eb; [left; reflexivity|].
  destruct Ha as [|(A1 & A2 & A3)]; [congruence|]. destruct Hb as [|(B1 & B2 & B3)]; [congruence|]. cbn [orb].
  match goal with |- nice (if ?c then _ else _) => destruct c eqn:E end; [left; reflexivity|].
  right. unfold proper. cbn [r_min r_max]. split; [|split].
  - revert E. destruct (n_lt (r_min b) (r_min a)) eqn:E1, (n_lt (r_max a) (r_max b)) eqn:E2; 
      simpl in *; destruct (r_min a), (r_max a), (r_min b), (r_max b); simpl in *; try discriminate; try congruence; auto; rdec; try discriminate; auto; lra.
  - destruct (n_lt (r_min b) (r_min a)); auto.
  - destruct (n_lt (r_max a) (r_max b)); auto.
Qed.
Lemma nice_linear a b c d v : a <= b -> c <= d -> nice (rg_linear_overlap (mkR (Fin a) (Fin b)) (mkR (Fin c) (Fin d)) (Fin v)).
Proof.
  intros H1 H2. unfold rg_linear_overlap. destruct (n_lt (n_abs (Fin v)) EPSILON) eqn:E.
  - destruct (rg_is_empty _); [left; reflexivity|]. right. split; [reflexivity|split; discriminate].
  - apply fast_enough in E. unfold rg_min, rg_max. change (rg_is_empty (mkR (Fin a) (Fin b))) with false. change (rg_is_empty (mkR (Fin c) (Fin d))) with false.
    cbn [r_min r_max]. rewrite !fin_sub, !fin_div by auto. apply nice_contain; apply nice_range.
Qed.

(** A point of the hull of two ranges lies between points of them. *)
Lemma proper_low r t : proper r -> n_le (r_min r) (Fin t) = true -> exists t1, t1 <= t /\ in_range (Fin t1) r = true.
Proof.
  destruct r as [p q]. intros (H1 & H2 & H3) H. cbn [r_min r_max] in *. unfold in_range. cbn [r_min r_max].
  destruct p as [p| | |]; simpl in *; try congruence; try discriminate.
  - exists p. destruct (Rle_dec p t); [|discriminate]. split; auto. destruct (Rle_dec p p); [|lra]. exact H1.
  - destruct q as [q| | |]; simpl in *; try congruence.
    + exists (Rmin t q). split; [apply Rmin_l|]. destruct (Rle_dec (Rmin t q) q); auto. pose proof (Rmin_r t q). lra.
    + exists t. split; auto. lra.
Qed.
Lemma proper_high r t : proper r -> n_le (Fin t) (r_max r) = true -> exists t2, t <= t2 /\ in_range (Fin t2) r = true.
Proof.
  destruct r as [p q]. intros (H1 & H2 & H3) H. cbn [r_min r_max] in *. unfold in_range. cbn [r_min r_max].
  destruct q as [q| | |]; simpl in *; try congruence; try discriminate.
  - exists q. destruct (Rle_dec t q); [|discriminate]. split; auto. destruct (Rle_dec q q); [|lra]. destruct p; simpl in *; auto. now rewrite H1.
  - destruct p as [p| | |]; simpl in *; try congruence.
    + exists (Rmax t p). split; [apply Rmax_l|]. destruct (Rle_dec p (Rmax t p)); auto. pose proof (Rmax_r t p). lra.
    + exists t. split; auto. lra.
Qed.
Lemma hull_between a b t : nice a -> nice b -> in_range (Fin t) (rg_contain a b) = true ->
  (exists t1, t1 <= t /\ (in_range (Fin t1) a = true \/ in_range (Fin t1) b = true)) /\
  (exists t2, t <= t2 /\ (in_range (Fin t2) a = true \/ in_range (Fin t2) b = true)).
Proof.
  intros Ha Hb. unfold rg_contain. destruct (rg_is_empty a) eqn:Ea.
  { intros H. split; exists t; split; auto; lra. }
  destruct (rg_is_empty b) eqn:Eb.
  { intros H. split; exists t; split; auto; lra. }
  destruct Ha as [|Ha]; [congruence|]. destruct Hb as [|Hb]; [congruence|].
  intros H. unfold in_range in H. cbn [r_min r_max] in H. apply andb_true_iff in H. destruct H as [H1 H2]. split.
  - destruct (n_lt (r_min a) (r_min b)).
    + destruct (proper_low a t Ha H1) as (t1 & L & I). exists t1. auto.
    + destruct (proper_low b t Hb H1) as (t1 & L & I). exists t1. auto.
  - destruct (n_lt (r_max b) (r_max a)).
    + destruct (proper_high a t Ha H2) as (t1 & L & I). exists t1. auto.
    + destruct (proper_high b t Hb H2) as (t1 & L & I). exists t1. auto.
Qed.
Definition convex (P : R -> Prop) : Prop := forall t1 t t2, t1 <= t <= t2 -> P t1 -> P t2 -> P t.
Lemma hull_convex a b P : nice a -> nice b -> convex P ->
  (forall t, in_range (Fin t) a = true -> P t) -> (forall t, in_range (Fin t) b = true -> P t) ->
  forall t, in_range (Fin t) (rg_contain a b) = true -> P t.
Proof.
  intros Ha Hb C Pa Pb t H. destruct (hull_between a b t Ha Hb H) as [(t1 & L1 & I1) (t2 & L2 & I2)].
  apply (C t1 t t2); [lra|destruct I1; auto|destruct I2; auto].
Qed.

(** ** Ball against box *)
Lemma convex_norm (u w : V) k s : 0 <= k <= 1 -> vdot u u <= s -> vdot w w <= s ->
  vdot (vadd (vscale u (1 - k)) (vscale w k)) (vadd (vscale u (1 - k)) (vscale w k)) <= s.
Proof.
  intros Hk Hu Hw.
  assert (E : vdot (vadd (vscale u (1 - k)) (vscale w k)) (vadd (vscale u (1 - k)) (vscale w k)) =
    (1 - k) * vdot u u + k * vdot w w - k * (1 - k) * vdot (vsub u w) (vsub u w)) by (vunfold; ring).
  pose proof (vdot_pos (vsub u w)). rewrite E. assert (0 <= k * (1 - k)) by nra.
  assert ((1 - k) * vdot u u <= (1 - k) * s) by (apply Rmult_le_compat_l; lra).
  assert (k * vdot w w <= k * s) by (apply Rmult_le_compat_l; lra).
  assert (0 <= k * (1 - k) * vdot (vsub u w) (vsub u w)) by (apply Rmult_le_pos; auto). lra.
Qed.
Lemma between a x y b k : 0 <= k <= 1 -> a <= x <= b -> a <= y <= b -> a <= x * (1 - k) + y * k <= b.
Proof. intros. nra. Qed.
Lemma ball_box_convex r c m mn mx : convex (fun t => ball_meets_box r (vadd c (vscale m t)) mn mx).
Proof.
  intros t1 t t2 Ht (x1 & B1 & W1) (x2 & B2 & W2). destruct (Req_dec t1 t2) as [->|Hne].
  { assert (t = t2) as -> by lra. now exists x2. }
  set (k := (t - t1) / (t2 - t1)). assert (Hk : 0 <= k <= 1).
  { unfold k. split; [apply Rmult_le_pos; [lra|]; left; apply Rinv_0_lt_compat; lra|]. 
    replace 1 with ((t2 - t1) / (t2 - t1)) by (field; lra). apply Rmult_le_compat_r; [|lra]. left. apply Rinv_0_lt_compat. lra. }
  assert (Et : t = t1 * (1 - k) + t2 * k) by (unfold k; field; lra).
  exists (vadd (vscale x1 (1 - k)) (vscale x2 k)). split.
  - destruct B1 as (? & ? & ?), B2 as (? & ? & ?). split; [|split]; cbn [vx vy vz vadd vscale n_add n_mul RNum]; apply between; auto.
  - unfold within in *. pose proof (convex_norm _ _ k _ Hk W1 W2) as C.
    replace (vsub (vadd (vscale x1 (1 - k)) (vscale x2 k)) (vadd c (vscale m t)))
      with (vadd (vscale (vsub x1 (vadd c (vscale m t1))) (1 - k)) (vscale (vsub x2 (vadd c (vscale m t2))) k)); auto.
    rewrite Et. apply vext; vunfold; ring.
Qed.

(** The centre is in the box grown by the radius along one axis. *)
Lemma clamp a b x r : a <= b -> a - r <= x <= b + r -> 0 <= r -> exists y, a <= y <= b /\ (y - x) * (y - x) <= r * r.
Proof.
  intros. destruct (Rlt_dec x a); [exists a; split; [lra|nra]|]. destruct (Rlt_dec b x); [exists b; split; [lra|nra]|].
  exists x. split; [lra|]. nra.
Qed.
Lemma facing_meets r mn mx c : 0 <= r -> vx mn <= vx mx -> vy mn <= vy mx -> vz mn <= vz mx -> facing r mn mx c -> ball_meets_box r c mn mx.
Proof.
  intros Hr Hx Hy Hz [(A & B & C)|[(A & B & C)|(A & B & C)]].
  - destruct (clamp _ _ _ _ Hx A Hr) as (y & Y1 & Y2). exists (mkV y (vy c) (vz c)). split; [repeat split; cbn [vx vy vz]; lra|].
    unfold within. vunfold. lra.
  - destruct (clamp _ _ _ _ Hy B Hr) as (y & Y1 & Y2). exists (mkV (vx c) y (vz c)). split; [repeat split; cbn [vx vy vz]; lra|].
    unfold within. vunfold. lra.
  - destruct (clamp _ _ _ _ Hz C Hr) as (y & Y1 & Y2). exists (mkV (vx c) (vy c) y). split; [repeat split; cbn [vx vy vz]; lra|].
    unfold within. vunfold. lra.
Qed.

Section BoxFaces.
  Context (r : R) (c m mn mx : V).
  Context (Hr : 0 <= r) (Hx : vx mn <= vx mx) (Hy : vy mn <= vy mx) (Hz : vz mn <= vz mx).
  Context (Sx : speedy (vx m)) (Sy : speedy (vy m)) (Sz : speedy (vz m)).
  Let centre t := vadd c (vscale m t).
  Let narrow (a b x v : R) := rg_linear_overlap (mkR (Fin a) (Fin b)) (mkR (Fin x) (Fin x)) (Fin v).
  Let broad (a b x v : R) := rg_linear_overlap (mkR (Fin a) (Fin b)) (mkR (Fin (x - r)) (Fin (x + r))) (Fin v).
  Let XO := rg_intersect (rg_intersect (broad (vx mn) (vx mx) (vx c) (vx m)) (narrow (vy mn) (vy mx) (vy c) (vy m))) (narrow (vz mn) (vz mx) (vz c) (vz m)).
  Let YO := rg_intersect (rg_intersect (narrow (vx mn) (vx mx) (vx c) (vx m)) (broad (vy mn) (vy mx) (vy c) (vy m))) (narrow (vz mn) (vz mx) (vz c) (vz m)).
  Let ZO := rg_intersect (rg_intersect (narrow (vx mn) (vx mx) (vx c) (vx m)) (narrow (vy mn) (vy mx) (vy c) (vy m))) (broad (vz mn) (vz mx) (vz c) (vz m)).
  Let hull := rg_contain (rg_contain XO YO) ZO.

  Lemma box_face_times_eq : box_face_times (Fin r) (vfin c) (vfin m) (vfin mn) (vfin mx) = rg_intersect hull rg_unit.
  Proof.
    unfold box_face_times. cbv zeta. cbn [vx vy vz vfin]. rewrite !fin_sub, !fin_add, !rg_range_le by lra. reflexivity.
  Qed.
  Lemma narrow_in a b x v t : a <= b -> speedy v -> (in_range (Fin t) (narrow a b x v) = true <-> a <= x + v * t <= b).
  Proof. intros. unfold narrow. rewrite linear_fin; auto; lra. Qed.
  Lemma broad_in a b x v t : a <= b -> speedy v -> (in_range (Fin t) (broad a b x v) = true <-> a - r <= x + v * t <= b + r).
  Proof. intros. unfold broad. rewrite linear_fin; auto; lra. Qed.
  Lemma nice_narrow a b x v : a <= b -> nice (narrow a b x v).
  Proof. intros. apply nice_linear; lra. Qed.
  Lemma nice_broad a b x v : a <= b -> nice (broad a b x v).
  Proof. intros. apply nice_linear; lra. Qed.
  Lemma nice_XO : nice XO. Proof. apply nice_intersect; [apply nice_intersect|]; auto using nice_narrow, nice_broad. Qed.
  Lemma nice_YO : nice YO. Proof. apply nice_intersect; [apply nice_intersect|]; auto using nice_narrow, nice_broad. Qed.
  Lemma nice_ZO : nice ZO. Proof. apply nice_intersect; [apply nice_intersect|]; auto using nice_narrow, nice_broad. Qed.
  Lemma overlaps_in t : (in_range (Fin t) XO = true \/ in_range (Fin t) YO = true \/ in_range (Fin t) ZO = true) <-> facing r mn mx (centre t).
  Proof.
    unfold XO, YO, ZO. rewrite !in_intersect, !andb_true_iff, !narrow_in, !broad_in by auto.
    unfold facing, centre. cbn [vx vy vz vadd vscale n_add n_mul RNum]. tauto.
  Qed.
  Lemma made_linear a b x y v : range_made (rg_linear_overlap (mkR (Fin a) (Fin b)) (mkR (Fin x) (Fin y)) (Fin v)) \/ ~ (a <= b /\ x <= y).
  Proof.
    destruct (Rle_dec a b) as [H1|]; [|right; lra]. destruct (Rle_dec x y) as [H2|]; [|right; lra]. left.
    rewrite <- (rg_range_le a b), <- (rg_range_le x y) by auto. apply RM_linear; apply RM_range.
  Qed.
  Lemma made_narrow a b x v : a <= b -> range_made (narrow a b x v).
  Proof. intros. destruct (made_linear a b x x v); auto. exfalso. lra. Qed.
  Lemma made_broad a b x v : a <= b -> range_made (broad a b x v).
  Proof. intros. destruct (made_linear a b (x - r) (x + r) v); auto. exfalso. lra. Qed.
  Lemma made_XO : range_made XO. Proof. apply RM_intersect; [apply RM_intersect|]; auto using made_narrow, made_broad. Qed.
  Lemma made_YO : range_made YO. Proof. apply RM_intersect; [apply RM_intersect|]; auto using made_narrow, made_broad. Qed.
  Lemma made_ZO : range_made ZO. Proof. apply RM_intersect; [apply RM_intersect|]; auto using made_narrow, made_broad. Qed.

  Lemma hull_sound t : in_range (Fin t) hull = true -> ball_meets_box r (centre t) mn mx.
  Proof.
    set (P := fun t => ball_meets_box r (vadd c (vscale m t)) mn mx). change (in_range (Fin t) hull = true -> P t). revert t.
    apply hull_convex; [apply nice_contain; [apply nice_XO|apply nice_YO]|apply nice_ZO|apply ball_box_convex| |].
    - apply hull_convex; [apply nice_XO|apply nice_YO|apply ball_box_convex| |]; intros t' H; apply facing_meets; auto; apply overlaps_in; auto.
    - intros t' H; apply facing_meets; auto; apply overlaps_in; auto.
  Qed.
  Lemma hull_complete t : facing r mn mx (centre t) -> in_range (Fin t) hull = true.
  Proof.
    intros H. apply overlaps_in in H. unfold hull.
    assert (M1 : range_made (rg_contain XO YO)) by (apply RM_contain; [apply made_XO|apply made_YO]).
    destruct H as [H|[H|H]].
    - apply in_contain_l; auto using made_ZO. apply in_contain_l; auto using made_XO, made_YO.
    - apply in_contain_l; auto using made_ZO. apply in_contain_r; auto using made_XO, made_YO.
    - apply in_contain_r; auto using made_ZO.
  Qed.

  Lemma face_some k : box_face_collision (Fin r) (vfin c) (vfin m) (vfin mn) (vfin mx) = Some k ->
    exists t, c_time k = Fin t /\ 0 <= t <= 1 /\ in_range (Fin t) hull = true /\
      c_normal k = box_face_normal (vfin (centre t)) (vfin mn) (vfin mx) /\ c_pos k = vadd (vfin (centre t)) (vscale (c_normal k) (Fin r)).
  Proof.
    unfold box_face_collision. rewrite box_face_times_eq. cbv zeta.
    pose proof (cut_first hull (fun t => in_range (Fin t) hull = true) ltac:(tauto)) as C. cbv zeta in C.
    destruct (rg_is_empty _) eqn:E; [discriminate|]. intros H. injection H as <-. destruct C as (t & Et & F).
    exists t. unfold c_time. cbn [c_times c_normal c_pos]. rewrite Et. split; auto. split; [apply F|]. split; [apply F|].
    rewrite vfin_scale, vfin_add. split; reflexivity.
  Qed.
  Lemma face_sound k : box_face_collision (Fin r) (vfin c) (vfin m) (vfin mn) (vfin mx) = Some k ->
    exists t, c_time k = Fin t /\ 0 <= t <= 1 /\ ball_meets_box r (centre t) mn mx.
  Proof. intros H. apply face_some in H. destruct H as (t & H1 & H2 & H3 & _). exists t. auto using hull_sound. Qed.
  Lemma face_complete t : 0 <= t <= 1 -> facing r mn mx (centre t) ->
    exists k t', box_face_collision (Fin r) (vfin c) (vfin m) (vfin mn) (vfin mx) = Some k /\ c_time k = Fin t' /\ t' <= t.
  Proof.
    intros Ht H. apply hull_complete in H.
    unfold box_face_collision. rewrite box_face_times_eq. cbv zeta.
    pose proof (cut_first hull (fun t => in_range (Fin t) hull = true) ltac:(tauto)) as C. cbv zeta in C.
    destruct (rg_is_empty _) eqn:E; [exfalso; exact (C t Ht H)|]. destruct C as (t' & Et & F).
    eexists. exists t'. split; [reflexivity|]. unfold c_time. cbn [c_times]. split; auto. now apply F.
  Qed.
End BoxFaces.

(** The normal of a face contact: towards the box along the one axis on which the centre is outside. *)
Lemma offset_in a b x : a < b -> a <= x <= b -> Rabs (((a + b) / 2 - x) / (b - a)) <= 1 / 2.
Proof.
  intros H1 H2. unfold Rdiv. rewrite Rabs_mult, (Rabs_pos_eq (/ (b - a))) by (left; apply Rinv_0_lt_compat; lra).
  apply Rmult_le_reg_r with (b - a); [lra|]. rewrite Rmult_assoc, Rinv_l, Rmult_1_r by lra. apply Rabs_le. lra.
Qed.
Lemma offset_out_lo a b x : a < b -> x < a -> 1 / 2 < ((a + b) / 2 - x) / (b - a).
Proof. intros H1 H2. apply Rmult_lt_reg_r with (b - a); [lra|]. unfold Rdiv at 2. rewrite Rmult_assoc, Rinv_l, Rmult_1_r by lra. lra. Qed.
Lemma offset_out_hi a b x : a < b -> b < x -> ((a + b) / 2 - x) / (b - a) < - (1 / 2).
Proof. intros H1 H2. apply Rmult_lt_reg_r with (b - a); [lra|]. unfold Rdiv at 1. rewrite Rmult_assoc, Rinv_l, Rmult_1_r by lra. lra. Qed.
Lemma face_normal_axis (c mn mx : V) : vx mn < vx mx -> vy mn < vy mx -> vz mn < vz mx ->
  exists n, box_face_normal (vfin c) (vfin mn) (vfin mx) = vfin n /\ vdot n n = 1 /\
    (n = mkV 1 0 0 \/ n = mkV (-1) 0 0 \/ n = mkV 0 1 0 \/ n = mkV 0 (-1) 0 \/ n = mkV 0 0 1 \/ n = mkV 0 0 (-1)) /\ inward mn mx c n.
Proof.
  intros Hx Hy Hz. unfold box_face_normal. cbv zeta. rewrite vfin_add, fin_2, vdivs_fin, !vfin_sub by lra. cbn [vx vy vz vfin]. rewrite !fin_div by (vunfold; lra).
  cbn [vx vy vz vsub vadd vscale n_add n_sub n_mul RNum].
  set (ux := ((vx mn + vx mx) / 2 - vx c) / (vx mx - vx mn)). set (uy := ((vy mn + vy mx) / 2 - vy c) / (vy mx - vy mn)). set (uz := ((vz mn + vz mx) / 2 - vz c) / (vz mx - vz mn)).
  change ((vx mn + vx mx) * / 2) with ((vx mn + vx mx) / 2). change ((vy mn + vy mx) * / 2) with ((vy mn + vy mx) / 2). change ((vz mn + vz mx) * / 2) with ((vz mn + vz mx) / 2).
  fold ux uy uz. rewrite !fin_abs. change (@n_lt ER EReal) with er_lt. change (@n_signum ER EReal) with er_signum. rewrite !fin_0.
  pose proof (offset_in _ _ (vx c) Hx) as Ix. pose proof (offset_in _ _ (vy c) Hy) as Iy. pose proof (offset_in _ _ (vz c) Hz) as Iz.
  pose proof (offset_out_lo _ _ (vx c) Hx) as Lx. pose proof (offset_out_lo _ _ (vy c) Hy) as Ly. pose proof (offset_out_lo _ _ (vz c) Hz) as Lz.
  pose proof (offset_out_hi _ _ (vx c) Hx) as Ux. pose proof (offset_out_hi _ _ (vy c) Hy) as Uy. pose proof (offset_out_hi _ _ (vz c) Hz) as Uz.
  fold ux in Ix, Lx, Ux. fold uy in Iy, Ly, Uy. fold uz in Iz, Lz, Uz. clearbody ux uy uz.
  assert (P : forall u : R, (0 <= u /\ Rabs u = u) \/ (u < 0 /\ Rabs u = - u)).
  { intros u. destruct (Rle_lt_dec 0 u); [left|right]; split; auto; [now apply Rabs_pos_eq|now apply Rabs_left]. }
  unfold inward. cbv zeta.
  assert (Z : forall (sx : R) (b : bool), er_signum (Fin sx) = Fin (if Rlt_dec sx 0 then -1 else 1)) by (intros; simpl; now destruct (Rlt_dec sx 0)).
  rewrite !Z by exact true. clear Z.
  destruct (er_lt (Fin (Rabs ux)) (Fin (Rabs uy))) eqn:E1; [apply er_lt_fin in E1|apply er_lt_fin_f in E1].
  - destruct (er_lt (Fin (Rabs uy)) (Fin (Rabs uz))) eqn:E2; [apply er_lt_fin in E2|apply er_lt_fin_f in E2].
    + exists (mkV 0 0 (if Rlt_dec uz 0 then -1 else 1)). split; [reflexivity|].
      split; [vunfold; destruct (Rlt_dec uz 0); ring|]. split; [destruct (Rlt_dec uz 0); auto 10|].
      pose proof (P ux). pose proof (P uy). pose proof (P uz). repeat split; intros; try (exfalso; lra); destruct (Rlt_dec uz 0); try reflexivity; exfalso; lra.
    + exists (mkV 0 (if Rlt_dec uy 0 then -1 else 1) 0). split; [reflexivity|].
      split; [vunfold; destruct (Rlt_dec uy 0); ring|]. split; [destruct (Rlt_dec uy 0); auto 10|].
      pose proof (P ux). pose proof (P uy). pose proof (P uz). repeat split; intros; try (exfalso; lra); destruct (Rlt_dec uy 0); try reflexivity; exfalso; lra.
  - destruct (er_lt (Fin (Rabs ux)) (Fin (Rabs uz))) eqn:E2; [apply er_lt_fin in E2|apply er_lt_fin_f in E2].
    + exists (mkV 0 0 (if Rlt_dec uz 0 then -1 else 1)). split; [reflexivity|].
      split; [vunfold; destruct (Rlt_dec uz 0); ring|]. split; [destruct (Rlt_dec uz 0); auto 10|].
      pose proof (P ux). pose proof (P uy). pose proof (P uz). repeat split; intros; try (exfalso; lra); destruct (Rlt_dec uz 0); try reflexivity; exfalso; lra.
    + exists (mkV (if Rlt_dec ux 0 then -1 else 1) 0 0). split; [reflexivity|].
      split; [vunfold; destruct (Rlt_dec ux 0); ring|]. split; [destruct (Rlt_dec ux 0); auto 10|].
      pose proof (P ux). pose proof (P uy). pose proof (P uz). repeat split; intros; try (exfalso; lra); destruct (Rlt_dec ux 0); try reflexivity; exfalso; lra.
Qed.
