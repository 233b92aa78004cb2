(** * Geom9P: balls against whole meshes, up to EPSILON, in exact arithmetic *)
From Coq Require Import ZArith Reals List Bool Arith Lra Lia Psatz.
Import ListNotations.
From Verif Require Import Num Vec Res RangeM Orient Colliders Collide OrderP Spec RangeP ResP MeshP CollideP RealSpec RealV OrientP Orient2P GeomP Geom2P Geom3P Geom4P Geom5P Geom6P Geom7P BoxSpec Geom8P.
Local Open Scope R_scope.

(** ** Walking into a convex region: the first moment at which all of finitely many linear functions are nonnegative *)
Lemma last_zero (l : list (R * R)) : (forall a b, In (a, b) l -> 0 <= b) ->
  (forall a b, In (a, b) l -> 0 <= a) \/
  exists u a0 b0, 0 <= u <= 1 /\ In (a0, b0) l /\ (1 - u) * a0 + u * b0 = 0 /\ forall a b, In (a, b) l -> 0 <= (1 - u) * a + u * b.
Proof.
  induction l as [|[a b] l IH]; intros B. { left. intros ? ? []. }
  assert (Bb : 0 <= b) by (apply (B a b); now left).
  destruct IH as [A|(u & a0 & b0 & U & I & Z & P)]. { intros a' b' I. apply (B a' b'). now right. }
  - destruct (Rle_dec 0 a) as [Ha|Ha]. { left. intros a' b' [E|I]; [injection E as <- <-; auto|eapply A; eauto]. }
    right. exists (a / (a - b)), a, b. assert (D : a - b < 0) by lra. 
    assert (U : 0 <= a / (a - b) <= 1).
    { replace (a / (a - b)) with ((- a) / (b - a)) by (field; lra). split; [apply Rmult_le_pos; [lra|left; apply Rinv_0_lt_compat; lra]|].
      apply Rmult_le_reg_r with (b - a); [lra|]. replace (- a / (b - a) * (b - a)) with (- a) by (field; lra). lra. }
    split; auto. split; [now left|]. split; [field; lra|]. intros a' b' [E|I]; [injection E as <- <-; right; field; lra|].
    pose proof (A a' b' I). assert (0 <= b') by (apply (B a' b'); now right). set (u := a / (a - b)) in *. clearbody u.
    assert (0 <= (1 - u) * a') by (apply Rmult_le_pos; lra). assert (0 <= u * b') by (apply Rmult_le_pos; lra). lra.
  - right. destruct (Rle_dec 0 ((1 - u) * a + u * b)) as [G|G].
    { exists u, a0, b0. split; auto. split; [now right|]. split; auto. intros a' b' [E|I']; [injection E as <- <-; auto|auto]. }
    apply Rnot_le_lt in G. set (g := (1 - u) * a + u * b) in *. assert (D : 0 < b - g) by lra.
    set (v := - g / (b - g)). assert (V : 0 <= v <= 1).
    { unfold v. split; [apply Rmult_le_pos; [lra|left; apply Rinv_0_lt_compat; lra]|].
      apply Rmult_le_reg_r with (b - g); [lra|]. replace (- g / (b - g) * (b - g)) with (- g) by (field; lra). lra. }
    assert (L : forall x y, (1 - (u + v * (1 - u))) * x + (u + v * (1 - u)) * y = (1 - v) * ((1 - u) * x + u * y) + v * y) by (intros; ring).
    exists (u + v * (1 - u)), a, b. split; [nra|]. split; [now left|]. split.
    { rewrite L. fold g. unfold v. field. lra. }
    intros a' b' [E|I']; rewrite L.
    + injection E as <- <-. fold g. right. unfold v. field. lra.
    + pose proof (P a' b' I'). assert (0 <= b') by (apply (B a' b'); now right).
      assert (0 <= (1 - v) * ((1 - u) * a' + u * b')) by (apply Rmult_le_pos; lra). assert (0 <= v * b') by (apply Rmult_le_pos; lra). lra.
Qed.

(** ** Going round a polygon *)
Lemma next_after {X} (l : list X) (a b : X) : next_to l a b -> exists c, next_to l b c.
Proof.
  intros (i & Ha & Hb). assert (L : (i < length l)%nat) by (apply nth_error_Some; congruence).
  set (j := ((i + 1) mod length l)%nat) in *. assert (J : (j < length l)%nat) by (apply Nat.mod_upper_bound; lia).
  assert (K : ((j + 1) mod length l < length l)%nat) by (apply Nat.mod_upper_bound; lia).
  destruct (nth_error l ((j + 1) mod length l)) as [c|] eqn:E; [|apply nth_error_None in E; lia]. exists c, j. auto.
Qed.
Lemma next_before {X} (l : list X) (a b : X) : next_to l a b -> exists c, next_to l c a.
Proof.
  intros (i & Ha & Hb). assert (L : (i < length l)%nat) by (apply nth_error_Some; congruence).
  set (j := ((i + length l - 1) mod length l)%nat). assert (J : (j < length l)%nat) by (apply Nat.mod_upper_bound; lia).
  destruct (nth_error l j) as [c|] eqn:E; [|apply nth_error_None in E; lia]. exists c, j. split; auto.
  replace ((j + 1) mod length l)%nat with i; auto. unfold j.
  destruct i as [|i]; [|destruct (Nat.eq_dec (length l) 1)].
  - replace (0 + length l - 1)%nat with (length l - 1)%nat by lia. rewrite (Nat.mod_small (length l - 1)) by lia. replace (length l - 1 + 1)%nat with (length l) by lia. now rewrite Nat.mod_same by lia.
  - lia.
  - replace (S i + length l - 1)%nat with (i + 1 * length l)%nat by lia. rewrite Nat.mod_add by lia. rewrite (Nat.mod_small i) by lia. rewrite Nat.mod_small by lia. lia.
Qed.
Lemma next_in {X} (l : list X) (a b : X) : next_to l a b -> In a l /\ In b l.
Proof. intros (i & Ha & Hb). split; eapply nth_error_In; eauto. Qed.

(** ** A point of a face with one side zero is on that side *)
Lemma cross_along (a b n : V) : vdot n n = 1 -> vdot a n = 0 -> vdot b n = 0 -> vcross a b = vscale n (vdot (vcross a b) n).
Proof.
  intros U A B.
  (* [a] and [b] are orthogonal to [n], so their product is along it *)
  assert (E : vcross n (vcross a b) = mkV 0 0 0).
  { assert (X : vcross n (vcross a b) = vsub (vscale a (vdot n b)) (vscale b (vdot n a))) by (apply vext; vunfold; ring).
    assert (A' : vdot n a = 0) by (rewrite <- A; vunfold; ring). assert (B' : vdot n b = 0) by (rewrite <- B; vunfold; ring).
    rewrite X, A', B'. apply vext; vunfold; ring. }
  set (w := vcross a b) in *.
  assert (Y : vsub (vscale w (vdot n n)) (vscale n (vdot w n)) = vneg (vcross n (vcross n w))) by (apply vext; vunfold; ring).
  rewrite E, U in Y. apply vext; [assert (X := f_equal vx Y)|assert (X := f_equal vy Y)|assert (X := f_equal vz Y)]; vunfold; lra.
Qed.
Lemma side_point n pol p q z : proper_face n pol -> next_to pol p q -> in_face n pol z -> vdot (vcross (vsub q p) (vsub z p)) n = 0 ->
  p <> q /\ exists i, 0 <= i <= 1 /\ z = between p q i.
Proof.
  intros (U & Fl & Cv) Npq (Pz & Sz) Z. destruct (next_in _ _ _ Npq) as [Ip Iq].
  destruct (next_after _ _ _ Npq) as (s & Nqs). destruct (next_before _ _ _ Npq) as (o & Nop).
  pose proof (Cv _ _ _ Npq Nqs) as C1. pose proof (Cv _ _ _ Nop Npq) as C0. pose proof (Sz _ _ Nqs) as S1. pose proof (Sz _ _ Nop) as S0.
  assert (Npq' : p <> q). { intros ->. assert (X : vdot (vcross (vsub q q) (vsub s q)) n = 0) by (vunfold; ring). lra. }
  split; auto. pose proof (dir_pos p q Npq') as D. set (e := vsub q p) in *. set (w := vsub z p) in *.
  assert (W : vcross e w = mkV 0 0 0).
  { rewrite (cross_along e w n U); [rewrite Z; apply vext; vunfold; ring|apply Fl; auto|apply Pz; auto]. }
  set (i := vdot w e / vdot e e).
  assert (Ew : w = vscale e i).
  { assert (X : vsub (vscale w (vdot e e)) (vscale e (vdot w e)) = vneg (vcross e (vcross e w))) by (apply vext; vunfold; ring).
    rewrite W in X. unfold i.
    assert (Y : vscale w (vdot e e) = vscale e (vdot w e)).
    { apply vext; [assert (X' := f_equal vx X)|assert (X' := f_equal vy X)|assert (X' := f_equal vz X)]; clearbody e w; vunfold; lra. }
    assert (K : forall a b, a * vdot e e = b * vdot w e -> a = b * (vdot w e / vdot e e)).
    { intros a b X'. apply Rmult_eq_reg_r with (vdot e e); [|lra]. rewrite X'. field. lra. }
    apply vext; apply K; [exact (f_equal vx Y)|exact (f_equal vy Y)|exact (f_equal vz Y)]. }
  exists i. split; [|unfold between; fold e; rewrite <- Ew; unfold w; apply vext; vunfold; ring].
  assert (Ez : z = vadd p (vscale e i)) by (rewrite <- Ew; unfold w; apply vext; vunfold; ring).
  split.
  - assert (X : vdot (vcross (vsub p o) (vsub z o)) n = i * vdot (vcross (vsub p o) e) n) by (rewrite Ez; vunfold; ring).
    rewrite X in S0. apply Rmult_le_reg_r with (vdot (vcross (vsub p o) e) n); lra.
  - assert (X : vdot (vcross (vsub s q) (vsub z q)) n = (1 - i) * vdot (vcross e (vsub s q)) n) by (rewrite Ez; unfold e; vunfold; ring).
    rewrite X in S1. apply Rmult_le_reg_r with (vdot (vcross e (vsub s q)) n); lra.
Qed.
(** From a point of the plane to a point of the face: already in the face, or there is a point of a side on the way. *)
Lemma into_face n pol x y : proper_face n pol -> in_plane n pol y -> in_face n pol x ->
  in_face n pol y \/ exists u p q i, 0 <= u <= 1 /\ next_to pol p q /\ p <> q /\ 0 <= i <= 1 /\ vadd (vscale y (1 - u)) (vscale x u) = between p q i.
Proof.
  intros Pf Py (Px & Sx). 
  set (g (z : V) (e : V * V) := vdot (vcross (vsub (snd e) (fst e)) (vsub z (fst e))) n).
  assert (G : forall u e, g (vadd (vscale y (1 - u)) (vscale x u)) e = (1 - u) * g y e + u * g x e) by (intros; unfold g; vunfold; ring).
  destruct (last_zero (map (fun e => (g y e, g x e)) (loop_pairs pol))) as [A|(u & a0 & b0 & U & I & Z & P)].
  - intros a b I. apply in_map_iff in I. destruct I as ([p q] & E & I). injection E as <- <-. apply loop_pairs_next in I. exact (Sx _ _ I).
  - left. split; auto. intros p q N. apply loop_pairs_next in N. apply (A (g y (p, q)) (g x (p, q))). apply in_map_iff. exists (p, q). auto.
  - right. apply in_map_iff in I. destruct I as ([p q] & E & I). injection E as <- <-. apply loop_pairs_next in I. rewrite <- G in Z.
    destruct (side_point n pol p q (vadd (vscale y (1 - u)) (vscale x u)) Pf I) as (N & i & Hi & Ei); [|exact Z|].
    + split.
      * intros s Is. specialize (Py s Is). specialize (Px s Is).
        transitivity ((1 - u) * vdot (vsub y s) n + u * vdot (vsub x s) n); [vunfold; ring|]. rewrite Py, Px. ring.
      * intros p' q' N. apply loop_pairs_next in N. specialize (P (g y (p', q')) (g x (p', q'))). rewrite <- G in P. apply P. apply in_map_iff. exists (p', q'). auto.
    + exists u, p, q, i. auto.
Qed.
Lemma in_face_side n pol x : in_face n pol x -> same_side n pol x.
Proof.
  intros (_ & S). left. intros f s N. specialize (S _ _ N).
  assert (E : vdot (vcross (vsub x f) (vsub s f)) n = - vdot (vcross (vsub s f) (vsub x f)) n) by (vunfold; ring). rewrite E. lra.
Qed.

(** ** Ball against face *)
Lemma vunit_scale (n : V) a : 0 < a -> vdot n n = 1 -> vunit (vscale n a) = n.
Proof.
  intros A U. unfold vunit. rewrite vdot_scale2, U. replace (a * a * 1) with (Rsqr a) by (unfold Rsqr; ring). rewrite sqrt_Rsqr by lra.
  apply vext; vunfold; field; lra.
Qed.
Lemma mix_within (y x c c' : V) r u : 0 <= u <= 1 -> within y c r -> within x c' r ->
  within (vadd (vscale y (1 - u)) (vscale x u)) (vadd (vscale c (1 - u)) (vscale c' u)) r.
Proof.
  unfold within. intros U Y X.
  pose proof (vdot_pos (vsub (vsub y c) (vsub x c'))) as V0.
  match goal with |- ?l <= _ => replace l with
    ((1 - u) * vdot (vsub y c) (vsub y c) + u * vdot (vsub x c') (vsub x c') - u * (1 - u) * vdot (vsub (vsub y c) (vsub x c')) (vsub (vsub y c) (vsub x c'))) by (vunfold; ring) end.
  assert (0 <= u * (1 - u)) by (apply Rmult_le_pos; lra). set (A := vdot (vsub y c) _) in *. set (B := vdot (vsub x c') _) in *. set (V2 := vdot (vsub (vsub _ _) _) _) in *.
  assert (0 <= u * (1 - u) * V2) by (apply Rmult_le_pos; lra). clearbody A B V2. nra.
Qed.
Section Face.
  Variables (r : R) (c m mv n k0 k1 k2 : V) (rest : list V).
  Let pol := k0 :: k1 :: k2 :: rest.
  Hypothesis R0 : 0 < r. Hypothesis Pf : proper_face n pol. Hypothesis Sp : speedy (vdot (vsub m mv) n).
  Hypothesis Off : vdot (vsub c k0) n <> 0.
  Let centre t := vadd c (vscale m t).
  Lemma face_normal : let cr := vcross (vsub k1 k0) (vsub k2 k0) in cr <> mkV 0 0 0 /\ vunit cr = n.
  Proof.
    destruct Pf as (U & Fl & Cv). cbv zeta.
    assert (I0 : In k0 pol) by now left. assert (I1 : In k1 pol) by (right; now left). assert (I2 : In k2 pol) by (right; right; now left).
    assert (N0 : next_to pol k0 k1). { exists 0%nat. split; auto. rewrite Nat.mod_small; [reflexivity|]. unfold pol. cbn [length]. lia. }
    assert (N1 : next_to pol k1 k2). { exists 1%nat. split; auto. rewrite Nat.mod_small; [reflexivity|]. unfold pol. cbn [length]. lia. }
    pose proof (Cv _ _ _ N0 N1) as C.
    assert (E : vcross (vsub k1 k0) (vsub k2 k0) = vcross (vsub k1 k0) (vsub k2 k1)) by (apply vext; vunfold; ring).
    assert (F : vcross (vsub k1 k0) (vsub k2 k0) = vscale n (vdot (vcross (vsub k1 k0) (vsub k2 k1)) n)).
    { rewrite (cross_along (vsub k1 k0) (vsub k2 k0) n U) by (apply Fl; auto). now rewrite E. }
    rewrite F. split; [|now apply vunit_scale].
    intros Z. assert (X : vdot (vscale n (vdot (vcross (vsub k1 k0) (vsub k2 k1)) n)) n = 0) by (rewrite Z; vunfold; ring).
    rewrite vscale_dot, U in X. lra.
  Qed.
  Let w t := vdot (vsub (centre t) (vadd k0 (vscale mv t))) n.
  Lemma w_line t t' u : w (t + u * (t' - t)) = (1 - u) * w t + u * w t'. Proof. unfold w, centre. vunfold. ring. Qed.
  Let plane t x := vdot (vsub x (vadd k0 (vscale mv t))) n = 0.
  Let ptouches t := exists x, within x (centre t) r /\ plane t x.
  Lemma ptouches_w t : ptouches t <-> Rabs (w t) <= r.
  Proof. unfold ptouches, plane. apply surface_touch; [lra|apply Pf]. Qed.
  Lemma speedy_rel : speedy (vdot mv n - vdot m n).
  Proof.
    replace (vdot mv n - vdot m n) with (- vdot (vsub m mv) n) by (vunfold; ring).
    destruct Sp as [->|H]; [left; ring|right; now rewrite Rabs_Ropp].
  Qed.
  Lemma ptouches_first t : 0 <= t <= 1 -> ptouches t -> exists t1, t1 <= t /\ first_instant ptouches t1.
  Proof.
    intros Ht T. set (Z := sphere_plane_overlap_time (Fin r) (vfin c) (vfin m) (vfin k0) (vfin n) (vfin mv) false).
    assert (HZ : forall t, in_range (Fin t) Z = true <-> ptouches t).
    { intros t'. unfold Z. rewrite sphere_surface_times; [now rewrite ptouches_w|lra|apply Pf|apply speedy_rel]. }
    pose proof (cut_first Z ptouches (fun t _ => HZ t)) as C. cbv zeta in C. destruct (rg_is_empty _); [exfalso; exact (C t Ht T)|].
    destruct C as (t1 & _ & F). exists t1. split; auto. now apply F.
  Qed.
  Lemma first_off t1 : first_instant ptouches t1 -> w t1 <> 0.
  Proof.
    intros (Ht & T & M) Z. assert (W0 : w 0 <> 0). { intros E. apply Off. rewrite <- E. unfold w, centre. vunfold. ring. }
    destruct (Req_dec t1 0) as [->|N]; auto. set (h := Rmin 1 (r / Rabs (w 0))). assert (A : 0 < Rabs (w 0)) by now apply Rabs_pos_lt.
    assert (H : 0 < h <= 1). { unfold h. split; [apply Rmin_glb_lt; [lra|apply Rdiv_lt_0_compat; lra]|apply Rmin_l]. }
    assert (L : h * Rabs (w 0) <= r).
    { apply Rle_trans with (r / Rabs (w 0) * Rabs (w 0)); [apply Rmult_le_compat_r; [lra|apply Rmin_r]|]. right. field. lra. }
    assert (E : w (t1 + h * (0 - t1)) = h * w 0) by (rewrite w_line, Z; ring).
    specialize (M (t1 + h * (0 - t1))). assert (X : t1 <= t1 + h * (0 - t1)); [|nra].
    apply M; [nra|]. apply ptouches_w. rewrite E, Rabs_mult, (Rabs_pos_eq h) by lra. exact L.
  Qed.
  Lemma face_touched t x : 0 <= t <= 1 -> in_face n pol x -> within (vadd x (vscale mv t)) (centre t) r ->
    (exists k t', collide_sphere_with_polygon_surface (Fin r) (vfin c) (vfin m) (map vfin pol) (vfin mv) = Ok (Some k) /\ c_time k = Fin t' /\ 0 <= t' <= t) \/
    (exists t' p q i, 0 <= t' <= t /\ next_to pol p q /\ 0 <= i <= 1 /\ within (vadd (between p q i) (vscale mv t')) (centre t') r).
  Proof.
    intros Ht Fx Wx. destruct face_normal as [Nz En]. pose proof (proj1 Pf) as U. destruct Pf as (_ & Fl & _).
    pose proof (sphere_polygon r c m k0 k1 k2 rest mv ltac:(lra) Nz) as S. cbv zeta in S. rewrite En in S. specialize (S speedy_rel).
    fold centre in S. fold pol in S.
    assert (Tt : ptouches t).
    { exists (vadd x (vscale mv t)). split; auto. unfold plane. destruct Fx as [Px _]. rewrite <- (Px k0 ltac:(now left)). vunfold. ring. }
    destruct (collide_sphere_with_polygon_surface _ _ _ _ _) as [[k|]| |] eqn:EK; [| |contradiction|contradiction].
    - left. destruct S as (t1 & x1 & nn & Et & F & _). exists k, t1. split; auto. split; auto. split; [apply F|]. apply F; auto.
    - right. destruct (ptouches_first t Ht Tt) as (t1 & L1 & F). pose proof (first_off t1 F) as W.
      set (y := vsub (centre t1) (vscale n (w t1))).
      assert (Py : plane t1 y).
      { unfold plane, y. transitivity (w t1 - w t1 * vdot n n); [unfold w; vunfold; ring|rewrite U; ring]. }
      assert (Wy : within y (centre t1) r).
      { unfold within, y. apply Rle_trans with (w t1 * w t1 * vdot n n); [right; vunfold; ring|]. rewrite U. destruct F as (_ & T1 & _). apply ptouches_w in T1.
        apply Rabs_le_inv in T1. nra. }
      assert (NS : ~ same_side n pol (vsub y (vscale mv t1))).
      { apply (S t1 y (- w t1)); auto; [unfold y; change (vadd c (vscale m t1)) with (centre t1); generalize (w t1) (centre t1); intros h1 h2; apply vext; vunfold; ring|]. intros E. apply W.
        assert (X : vscale n (w t1) = mkV 0 0 0).
        { change (vadd c (vscale m t1)) with (centre t1) in E. clear -E. unfold y in E. revert E. generalize (w t1) (centre t1). intros h1 h2 E.
          apply vext; [assert (X := f_equal vx E)|assert (X := f_equal vy E)|assert (X := f_equal vz E)]; vunfold; lra. }
        assert (X2 : vdot (vscale n (w t1)) n = 0) by (rewrite X; vunfold; ring). rewrite vscale_dot, U in X2. lra. }
      assert (Py' : in_plane n pol (vsub y (vscale mv t1))).
      { intros q Iq. transitivity (vdot (vsub y (vadd k0 (vscale mv t1))) n - vdot (vsub q k0) n); [vunfold; ring|].
        unfold plane in Py. rewrite Py, (Fl k0 q); auto; [ring|now left]. }
      destruct (into_face n pol x (vsub y (vscale mv t1)) Pf Py' Fx) as [I|(u & p & q & i & Hu & N & _ & Hi & E)]; [exfalso; apply NS; now apply in_face_side|].
      assert (T1 : 0 <= t1 <= 1) by apply F.
      exists (t1 + u * (t - t1)), p, q, i. split; [nra|]. split; auto. split; auto. rewrite <- E.
      pose proof (mix_within _ _ _ _ r u Hu Wy Wx) as MW.
      match goal with |- within ?a ?b _ => replace a with (vadd (vscale y (1 - u)) (vscale (vadd x (vscale mv t)) u)) by (apply vext; vunfold; ring);
        replace b with (vadd (vscale (centre t1) (1 - u)) (vscale (centre t) u)) by (unfold centre; apply vext; vunfold; ring) end. exact MW.
  Qed.
End Face.

(** ** Moving a mesh along *)
Definition shift (d v : V) : V := vadd v d.
Lemma next_map {X Y} (g : X -> Y) l a b : next_to (map g l) a b <-> exists a' b', next_to l a' b' /\ a = g a' /\ b = g b'.
Proof.
  unfold next_to. rewrite map_length. split.
  - intros (i & Ha & Hb). rewrite nth_error_map in Ha, Hb.
    destruct (nth_error l i) as [a'|] eqn:Ea; [|discriminate]. destruct (nth_error l ((i + 1) mod length l)) as [b'|] eqn:Eb; [|discriminate].
    exists a', b'. split; [exists i; auto|]. split; apply some_eq; symmetry; assumption.
  - intros (a' & b' & (i & Ha & Hb) & -> & ->). exists i. rewrite !nth_error_map, Ha, Hb. auto.
Qed.
Lemma shift_sub d p q : vsub (shift d q) (shift d p) = vsub q p. Proof. unfold shift. apply vext; vunfold; ring. Qed.
Lemma shift_between d p q i : between (shift d p) (shift d q) i = shift d (between p q i). Proof. unfold between, shift. apply vext; vunfold; ring. Qed.
Lemma shift_within d x c r : within (shift d x) (shift d c) r <-> within x c r. Proof. unfold within. now rewrite shift_sub. Qed.
Lemma proper_shift n d pol : proper_face n (map (shift d) pol) <-> proper_face n pol.
Proof.
  unfold proper_face. split; intros (U & Fl & Cv); (split; [auto|split]).
  - intros p q Ip Iq. rewrite <- (shift_sub d). apply Fl; now apply in_map.
  - intros p q s N1 N2. rewrite <- (shift_sub d p q), <- (shift_sub d q s). apply Cv; apply next_map; eauto.
  - intros p q Ip Iq. apply in_map_iff in Ip, Iq. destruct Ip as (p' & <- & Ip), Iq as (q' & <- & Iq). rewrite shift_sub. auto.
  - intros p q s N1 N2. apply next_map in N1, N2. destruct N1 as (p1 & q1 & N1 & -> & ->). destruct N2 as (q2 & s2 & N2 & E & ->).
    assert (q1 = q2) as <-. { unfold shift in E. apply vext; [assert (X := f_equal vx E)|assert (X := f_equal vy E)|assert (X := f_equal vz E)]; vunfold; lra. }
    rewrite !shift_sub. eauto.
Qed.
Lemma plane_shift n d pol x : in_plane n (map (shift d) pol) (shift d x) <-> in_plane n pol x.
Proof.
  unfold in_plane. split.
  - intros H q I. rewrite <- (shift_sub d). apply H. now apply in_map.
  - intros H q I. apply in_map_iff in I. destruct I as (q' & <- & I). rewrite shift_sub. auto.
Qed.
Lemma in_face_shift n d pol x : in_face n (map (shift d) pol) (shift d x) <-> in_face n pol x.
Proof.
  unfold in_face. rewrite plane_shift. split; intros (P & S); (split; [auto|]); intros p q N.
  - rewrite <- (shift_sub d p q), <- (shift_sub d p x). apply S. apply next_map. eauto.
  - apply next_map in N. destruct N as (p' & q' & N & -> & ->). rewrite !shift_sub. auto.
Qed.
Lemma same_side_shift n d pol x : same_side n (map (shift d) pol) (shift d x) <-> same_side n pol x.
Proof.
  unfold same_side. cbv zeta.
  assert (E : forall p q, vdot (vcross (vsub (shift d x) (shift d p)) (vsub (shift d q) (shift d p))) n = vdot (vcross (vsub x p) (vsub q p)) n) by (intros; now rewrite !shift_sub).
  split; (intros [S|S]; [left|right]); intros p q N.
  - rewrite <- E. apply S. apply next_map. eauto.
  - rewrite <- E. apply S. apply next_map. eauto.
  - apply next_map in N. destruct N as (p' & q' & N & -> & ->). rewrite E. auto.
  - apply next_map in N. destruct N as (p' & q' & N & -> & ->). rewrite E. auto.
Qed.
Lemma face_of_map {d} vs f pol : face_of vs f pol -> face_of (map (shift d) vs) f (map (shift d) pol).
Proof. unfold face_of. induction 1; simpl; constructor; auto. now apply map_nth_error. Qed.
Lemma face_of_fun vs f pol pol' : face_of vs f pol -> face_of vs f pol' -> pol = pol'.
Proof.
  unfold face_of. intros H. revert pol'. induction H; intros pol' H'; inversion H'; subst; auto. f_equal; auto. congruence.
Qed.
Lemma face_of_length vs f pol : face_of vs f pol -> length f = length pol.
Proof. unfold face_of. induction 1; simpl; auto. Qed.
Lemma face_of_next vs f pol p q : face_of vs f pol -> next_to pol p q -> exists a b, next_to f a b /\ nth_error vs a = Some p /\ nth_error vs b = Some q.
Proof.
  intros F (i & Hp & Hq). pose proof (face_of_length _ _ _ F) as L.
  assert (G : forall j x, nth_error pol j = Some x -> exists a, nth_error f j = Some a /\ nth_error vs a = Some x).
  { clear -F. unfold face_of in F. induction F; intros [|j] x' E; simpl in E; try discriminate; [injection E as <-; simpl; eauto|]. simpl. eauto. }
  destruct (G _ _ Hp) as (a & Ea & Va). destruct (G _ _ Hq) as (b & Eb & Vb). exists a, b. split; [exists i; rewrite L; auto|auto].
Qed.

Section Mesh.
  Variables (r : R) (c m mv : V) (vs : list V) (es : list (nat * nat)) (fs : list (list nat)).
  Hypothesis R0 : 0 < r. Hypothesis G : grazes_no_mesh r c m vs es fs mv. Hypothesis L : sides_listed es fs.
  Let centre t := vadd c (vscale m t).
  Let vs_at t := map (shift (vscale mv t)) vs.
  Let part := mesh_part (Fin r) (vfin c) (vfin m) (map vfin vs) es fs (vfin mv).

  Lemma nth_fin i p : nth_error (map vfin vs) i = Some p <-> exists q, nth_error vs i = Some q /\ p = vfin q.
  Proof.
    rewrite nth_error_map. destruct (nth_error vs i) as [q|]; simpl; split.
    - intros E. injection E as <-. eauto. - intros (q' & E & ->). injection E as <-. auto. - discriminate. - intros (q' & E & _). discriminate.
  Qed.
  Lemma face_fin f ps : Forall2 (fun i p => nth_error (map vfin vs) i = Some p) f ps -> exists pol, face_of vs f pol /\ ps = map vfin pol.
  Proof.
    induction 1 as [|i p f ps H F IH]; [exists []; split; [constructor|auto]|]. destruct IH as (pol & Fp & ->). apply nth_fin in H. destruct H as (q & Hq & ->).
    exists (q :: pol). split; [constructor; auto|auto].
  Qed.
  Lemma fin_face f pol : face_of vs f pol -> Forall2 (fun i p => nth_error (map vfin vs) i = Some p) f (map vfin pol).
  Proof. unfold face_of. induction 1; simpl; constructor; auto. apply nth_fin. eauto. Qed.
  Lemma long_face (pol : list V) : (3 <= length pol)%nat -> exists k0 k1 k2 rest, pol = k0 :: k1 :: k2 :: rest.
  Proof. destruct pol as [|k0 [|k1 [|k2 rest]]]; simpl; intros; try lia. eauto. Qed.

  Lemma mesh_part_sound k : part k -> exists t, c_time k = Fin t /\ 0 <= t <= 1 /\ ball_nears_mesh r (centre t) (vs_at t) es fs.
  Proof.
    destruct G as (Gv & Ge & Gf). unfold part. intros [v' k' I K|a b p' q' k' I Hp Hq K|f ps k' I F K].
    - apply in_map_iff in I. destruct I as (v & <- & I). pose proof (slack_ge r R0) as SG.
      apply (point_some r c m v mv R0 (Gv v I)) in K. destruct K as (t & Et & Ht & D). exists t. split; auto. split; auto. left.
      exists (shift (vscale mv t) v). split; [now apply in_map|]. unfold within, shift. fold (centre t) in D. lra.
    - apply nth_fin in Hp, Hq. destruct Hp as (p & Hp & ->), Hq as (q & Hq & ->). destruct (Ge a b p q I Hp Hq) as [N H].
      apply (segment_sound r c m p q mv N H) in K. destruct K as (t & i & Et & Ht & Hi & W). exists t. split; auto. split; auto. right. left.
      exists a, b, (shift (vscale mv t) p), (shift (vscale mv t) q), i. split; auto. split; [now apply map_nth_error|]. split; [now apply map_nth_error|].
      split; auto. rewrite shift_between. exact W.
    - apply face_fin in F. destruct F as (pol & F & ->). destruct (Gf f I) as (pol' & n & F' & Pf & Len & Sp & Off).
      assert (pol' = pol) as -> by (eapply face_of_fun; eauto). destruct (long_face pol Len) as (k0 & k1 & k2 & rest & ->).
      destruct (face_normal n k0 k1 k2 rest Pf) as [Nz En].
      pose proof (sphere_polygon r c m k0 k1 k2 rest mv ltac:(lra) Nz) as S. cbv zeta in S. rewrite En in S.
      specialize (S (speedy_rel m mv n Sp)). rewrite K in S.
      destruct S as (t & x & nn & Et & Fi & _ & Px & Wx & _ & _ & _ & Ss). exists t. split; auto. split; [apply Fi|]. right. right.
      exists f, (map (shift (vscale mv t)) (k0 :: k1 :: k2 :: rest)), n, x. split; auto. split; [now apply face_of_map|]. split; [now apply proper_shift|].
      assert (Ex : x = shift (vscale mv t) (vsub x (vscale mv t))) by (unfold shift; apply vext; vunfold; ring).
      split; [|split; [rewrite Ex; now apply same_side_shift|exact Wx]].
      rewrite Ex. apply plane_shift. intros q Iq. destruct Pf as (_ & Fl & _).
      transitivity (vdot (vsub x (vadd k0 (vscale mv t))) n - vdot (vsub q k0) n); [vunfold; ring|]. rewrite Px, (Fl k0 q); auto; [ring|now left].
  Qed.
  Lemma mesh_part_complete t : 0 <= t <= 1 -> ball_meets_mesh r (centre t) (vs_at t) es fs -> exists k t', part k /\ c_time k = Fin t' /\ 0 <= t' <= t.
  Proof.
    intros Ht M. destruct G as (Gv & Ge & Gf).
    assert (CV : forall v t0, In v vs -> 0 <= t0 <= t -> within (shift (vscale mv t0) v) (centre t0) r -> exists k t', part k /\ c_time k = Fin t' /\ 0 <= t' <= t).
    { intros v t0 I H0 W. destruct (point_complete r c m v mv R0 (Gv v I) t0 ltac:(lra)) as (k & t' & K & Et & Ht'). { exact W. }
      exists k, t'. split; [|split; [auto|lra]]. apply MP_vertex with (v := vfin v); auto. now apply in_map. }
    assert (CE : forall a b p q i t0, In (a, b) es -> nth_error vs a = Some p -> nth_error vs b = Some q -> 0 <= i <= 1 -> 0 <= t0 <= t ->
      within (shift (vscale mv t0) (between p q i)) (centre t0) r -> exists k t', part k /\ c_time k = Fin t' /\ 0 <= t' <= t).
    { intros a b p q i t0 I Hp Hq Hi H0 W. destruct (Ge a b p q I Hp Hq) as [N H].
      destruct (segment_complete r c m p q mv N H t0 i ltac:(lra) Hi W) as [(k & t' & K & Et & L')|(t' & e & L' & Ee & We)].
      - exists k, t'. split; [|split; [auto|lra]]. apply MP_edge with (i := a) (j := b) (p := vfin p) (q := vfin q); auto; apply nth_fin; eauto.
      - apply (CV e t'); auto; [|lra]. destruct Ee as [->| ->]; eapply nth_error_In; eauto. }
    destruct M as [(v & I & W)|[(a & b & p & q & i & I & Hp & Hq & Hi & W)|(f & pol & n & x & I & F & Pf & Fx & W)]].
    - apply in_map_iff in I. destruct I as (v' & <- & I). apply (CV v' t); auto. lra.
    - unfold vs_at in Hp, Hq. rewrite nth_error_map in Hp, Hq.
      destruct (nth_error vs a) as [p'|] eqn:Ep; [|discriminate]. destruct (nth_error vs b) as [q'|] eqn:Eq; [|discriminate].
      simpl in Hp, Hq. apply some_eq in Hp, Hq. subst p q. rewrite shift_between in W. apply (CE a b p' q' i t); auto. lra.
    - destruct (Gf f I) as (pol' & n' & F' & Pf' & Len & Sp & Off).
      assert (pol = map (shift (vscale mv t)) pol') as -> by (eapply face_of_fun; [exact F|now apply face_of_map]).
      apply (proj1 (proper_shift _ _ _)) in Pf. destruct (long_face pol' Len) as (k0 & k1 & k2 & rest & ->).
      assert (n = n') as ->. { destruct (face_normal n k0 k1 k2 rest Pf) as [_ <-]. destruct (face_normal n' k0 k1 k2 rest Pf') as [_ E]. exact E. }
      assert (Ex : x = shift (vscale mv t) (vsub x (vscale mv t))) by (unfold shift; apply vext; vunfold; ring).
      rewrite Ex in Fx, W. apply (proj1 (in_face_shift _ _ _ _)) in Fx.
      destruct (face_touched r c m mv n' k0 k1 k2 rest R0 Pf' Sp (Off k0 ltac:(now left)) t _ Ht Fx W) as [(k & t' & K & Et & L')|(t' & p & q & i & L' & N & Hi & W')].
      + exists k, t'. split; [|split; [exact Et|exact L']]. exact (MP_face _ _ _ _ _ _ _ f _ k I (fin_face f _ F') K).
      + destruct (face_of_next _ _ _ _ _ F' N) as (a & b & Nf & Ha & Hb). pose proof (L f a b I Nf) as Le.
        destruct (Nat.le_ge_cases a b) as [Lab|Lab].
        * rewrite Nat.min_l, Nat.max_r in Le by auto. apply (CE a b p q i t'); auto.
        * rewrite Nat.min_r, Nat.max_l in Le by auto. apply (CE b a q p (1 - i) t'); auto; [lra|].
          replace (between q p (1 - i)) with (between p q i) by (unfold between; apply vext; vunfold; ring). exact W'.
  Qed.
  Lemma ball_mesh_upto o : collide_sphere_with_mesh (Fin r) (vfin c) (vfin m) (map vfin vs) es fs (vfin mv) = Ok o ->
    match o with
    | None => forall t, 0 <= t <= 1 -> ~ ball_meets_mesh r (centre t) (vs_at t) es fs
    | Some k => exists t, c_time k = Fin t /\ 0 <= t <= 1 /\ ball_nears_mesh r (centre t) (vs_at t) es fs /\
        forall t', 0 <= t' <= 1 -> ball_meets_mesh r (centre t') (vs_at t') es fs -> t <= t'
    end.
  Proof.
    intros E. apply mesh_earliest in E. destruct o as [k|].
    - destruct E as [P M]. destruct (mesh_part_sound k P) as (t & Et & Ht & W). exists t. split; auto. split; auto. split; auto.
      intros t' Ht' T. destruct (mesh_part_complete t' Ht' T) as (k' & t2 & P' & Et' & L'). specialize (M k' P'). rewrite Et, Et' in M. apply er_lt_fin_f in M. lra.
    - intros t Ht T. destruct (mesh_part_complete t Ht T) as (k' & t2 & P' & _). exact (E k' P').
  Qed.
End Mesh.

(** ** Meshes as built by the crate, through [collide] *)
Lemma built_listed {T} {N : Num T} (m : mesh_c T) : mesh_built m -> sides_listed (me_edges m) (me_faces m).
Proof.
  induction 1 as [|m pts m' B IH A|m e p mt B IH].
  - intros f a b [].
  - destruct (add_face_spec m pts m' (mesh_built_wf m B) A) as (_ & _ & _ & _ & _ & face & Ef & _ & Ee).
    intros f a b I Nx. apply Ee. rewrite Ef in I. apply in_app_iff in I. destruct I as [I|[<-|[]]]; [left; eauto|right; eauto].
  - exact IH.
Qed.
Lemma rfold_all {A X} (f : A -> X -> res A) l : (forall a x, In x l -> exists a', f a x = Ok a') -> forall a, exists a', rfold f l a = Ok a'.
Proof.
  induction l as [|x l IH]; intros H a; [exists a; reflexivity|]. destruct (H a x ltac:(now left)) as (a1 & E). cbn [rfold]. rewrite E. cbn [rbind].
  apply IH. intros a' x' I. apply H. now right.
Qed.
Lemma rmap_total {X Y} (f : X -> res Y) l l' : Forall2 (fun x y => f x = Ok y) l l' -> rmap f l = Ok l'.
Proof. induction 1 as [|x y l l' E F IH]; [reflexivity|]. cbn [rmap]. rewrite E. cbn [rbind]. rewrite IH. reflexivity. Qed.
Lemma sphere_mesh_total (r : R) c m vs es fs mv : 0 < r -> grazes_no_mesh r c m vs es fs mv ->
  Forall (fun e => fst e < length vs /\ snd e < length vs)%nat es ->
  exists o, collide_sphere_with_mesh (Fin r) (vfin c) (vfin m) (map vfin vs) es fs (vfin mv) = Ok o.
Proof.
  intros R0 (_ & _ & Gf) We. unfold collide_sphere_with_mesh. cbv zeta.
  match goal with |- context [rfold ?f es ?x] => destruct (fun H => rfold_all f es H x) as (a1 & E1) end.
  { intros a [i j] I. rewrite Forall_forall in We. destruct (We _ I) as [Wi Wj]. cbn [fst snd] in *.
    destruct (nth_error (map vfin vs) i) as [p|] eqn:Ep; [|apply nth_error_None in Ep; rewrite map_length in Ep; lia].
    destruct (nth_error (map vfin vs) j) as [q|] eqn:Eq; [|apply nth_error_None in Eq; rewrite map_length in Eq; lia].
    cbn [unwrap rbind]. eexists. reflexivity. }
  rewrite E1. cbn [rbind].
  match goal with |- context [rfold ?f fs a1] => destruct (fun H => rfold_all f fs H a1) as (a2 & E2) end.
  { intros a f I. destruct (Gf f I) as (pol & n & F & Pf & Len & Sp & _).
    rewrite (rmap_total (fun i => unwrap (nth_error (map vfin vs) i)) f (map vfin pol)).
    2: { pose proof (fin_face vs f pol F) as F2. clear -F2. induction F2 as [|i p f' l E F' IH]; constructor; auto. now rewrite E. }
    cbn [rbind]. destruct (long_face pol Len) as (k0 & k1 & k2 & rest & ->). destruct (face_normal n k0 k1 k2 rest Pf) as [Nz En].
    pose proof (sphere_polygon r c m k0 k1 k2 rest mv ltac:(lra) Nz) as S. cbv zeta in S. rewrite En in S. specialize (S (speedy_rel m mv n Sp)).
    destruct (collide_sphere_with_polygon_surface _ _ _ _ _) as [o| |]; [|contradiction|contradiction]. cbn [rbind]. eexists. reflexivity. }
  rewrite E2. cbn [rbind]. eexists. reflexivity.
Qed.
Lemma collide_mesh_upto (s : sphere_c ER) (m : mesh_c ER) (cs pos : V) (vs : list V) (r : R) (s1 e1 s2 e2 : orientation R) :
  sp_center s = vfin cs -> sp_radius s = Fin r -> me_pos m = vfin pos -> me_verts m = map vfin vs ->
  mesh_wf m -> sides_listed (me_edges m) (me_faces m) -> 0 < r -> steady s2 e2 ->
  let from := position_into_world s1 cs in let to := position_into_world e1 cs in
  let start := map (fun v => position_into_world s2 (vadd pos v)) vs in
  let mv := vsub (position_into_world e2 pos) (position_into_world s2 pos) in
  grazes_no_mesh r from (vsub to from) start (me_edges m) (me_faces m) mv ->
  let corners t := at_time (mesh_moves pos vs s2 e2) t in
  match collide (CSphere s) (ofin s1) (ofin e1) (CMesh m) (ofin s2) (ofin e2) with
  | Ok None => forall t, 0 <= t <= 1 -> ~ ball_meets_mesh r (along from to t) (corners t) (me_edges m) (me_faces m)
  | Ok (Some k) => exists t, c_time k = Fin t /\ 0 <= t <= 1 /\ ball_nears_mesh r (along from to t) (corners t) (me_edges m) (me_faces m) /\
      forall t', 0 <= t' <= 1 -> ball_meets_mesh r (along from to t') (corners t') (me_edges m) (me_faces m) -> t <= t'
  | _ => False
  end.
Proof.
  intros Hc Hr Hp Hv Wf Li R0 St from to start mv G corners.
  assert (C : forall t, corners t = map (shift (vscale mv t)) start).
  { intros t. unfold corners, at_time, mesh_moves, start. rewrite !map_map. apply map_ext. intros v. cbn [fst snd]. unfold along, shift, mv.
    destruct St as (Er & Eo & U & _). assert (U' : unit_o e2) by (unfold unit_o; now rewrite Er).
    rewrite !world_form by auto. rewrite Er, Eo. rewrite !qrot_add. apply vext; vunfold; ring. }
  cbn [collide]. unfold vertices_in_world, world_move. rewrite Hc, Hr, Hp, Hv, map_map, !into_world_fin, !vfin_sub.
  assert (Ev : map (fun x : V => position_into_world (ofin s2) (vadd (vfin pos) (vfin x))) vs = map vfin start).
  { unfold start. rewrite map_map. apply map_ext. intros v. now rewrite vfin_add, into_world_fin. }
  rewrite Ev. fold from to mv.
  assert (We : Forall (fun e => fst e < length start /\ snd e < length start)%nat (me_edges m)).
  { destruct Wf as (_ & _ & W & _). eapply Forall_impl; [|exact W]. intros e We. cbv beta in We. rewrite Hv, map_length in We. unfold start. rewrite map_length. lia. }
  destruct (sphere_mesh_total r from (vsub to from) start _ _ mv R0 G We) as (o & E). rewrite E.
  pose proof (ball_mesh_upto r from (vsub to from) mv start _ _ R0 G Li o E) as B.
  destruct o as [k|].
  - destruct B as (t & Et & Ht & W & M). exists t. split; auto. split; auto. split; [rewrite C; exact W|]. intros t' Ht'. rewrite C. apply M; auto.
  - intros t Ht. rewrite C. apply B; auto.
Qed.

(** ** What [in_face] means for a triangle *)
Lemma triangle_points n (a b c x : V) : proper_face n [a; b; c] ->
  (in_face n [a; b; c] x <-> exists u v, 0 <= u /\ 0 <= v /\ u + v <= 1 /\ x = vadd a (vadd (vscale (vsub b a) u) (vscale (vsub c a) v))).
Proof.
  intros (U & Fl & Cv).
  assert (N1 : next_to [a; b; c] a b) by (exists 0%nat; split; reflexivity). assert (N2 : next_to [a; b; c] b c) by (exists 1%nat; split; reflexivity).
  assert (N3 : next_to [a; b; c] c a) by (exists 2%nat; split; reflexivity).
  pose proof (Cv _ _ _ N1 N2) as D. replace (vdot (vcross (vsub b a) (vsub c b)) n) with (vdot (vcross (vsub b a) (vsub c a)) n) in D by (vunfold; ring).
  assert (Fb : vdot (vsub b a) n = 0) by (apply Fl; simpl; auto). assert (Fc : vdot (vsub c a) n = 0) by (apply Fl; simpl; auto).
  split.
  - intros (Px & S). pose proof (S _ _ N1) as S1. pose proof (S _ _ N2) as S2. pose proof (S _ _ N3) as S3.
    assert (Fx : vdot (vsub x a) n = 0) by (apply Px; simpl; auto).
    set (e := vsub b a) in *. set (f := vsub c a) in *. set (w := vsub x a) in *. set (dd := vdot (vcross e f) n) in *.
    assert (E2 : vdot (vcross (vsub c b) (vsub x b)) n = dd - vdot (vcross w f) n - vdot (vcross e w) n) by (unfold dd, e, f, w; vunfold; ring).
    assert (E3 : vdot (vcross (vsub a c) (vsub x c)) n = vdot (vcross w f) n) by (unfold f, w; vunfold; ring).
    rewrite E2 in S2. rewrite E3 in S3.
    exists (vdot (vcross w f) n / dd), (vdot (vcross e w) n / dd).
    split; [apply Rmult_le_pos; [lra|left; now apply Rinv_0_lt_compat]|]. split; [apply Rmult_le_pos; [lra|left; now apply Rinv_0_lt_compat]|].
    split. { apply Rmult_le_reg_r with dd; auto. replace ((vdot (vcross w f) n / dd + vdot (vcross e w) n / dd) * dd) with (vdot (vcross w f) n + vdot (vcross e w) n) by (field; lra). lra. }
    assert (Z : vdot (vcross e f) w = 0). { rewrite (cross_along e f n U Fb Fc). rewrite vscale_dot. replace (vdot n w) with (vdot w n) by (vunfold; ring). rewrite Fx. ring. }
    assert (I : vscale w dd = vadd (vadd (vscale e (vdot (vcross w f) n)) (vscale f (vdot (vcross e w) n))) (vscale n (vdot (vcross e f) w))) by (unfold dd; clearbody e f w; apply vext; vunfold; ring).
    rewrite Z in I. set (g := vdot (vcross w f) n) in *. set (h := vdot (vcross e w) n) in *. clearbody g h dd.
    assert (K : forall xx ww ee ff nn, ww * dd = ee * g + ff * h + nn * 0 -> xx = ww -> xx = ee * (g / dd) + ff * (h / dd)).
    { intros xx ww ee ff nn X ->. apply Rmult_eq_reg_r with dd; [|lra]. rewrite X. field. lra. }
    assert (W : w = vadd (vscale e (g / dd)) (vscale f (h / dd))).
    { apply vext; [exact (K _ _ _ _ _ (f_equal vx I) eq_refl)|exact (K _ _ _ _ _ (f_equal vy I) eq_refl)|exact (K _ _ _ _ _ (f_equal vz I) eq_refl)]. }
    rewrite <- W. unfold w. apply vext; vunfold; ring.
  - intros (u & v & Hu & Hv & Huv & ->).
    assert (L : forall p q, next_to [a; b; c] p q -> (p = a /\ q = b) \/ (p = b /\ q = c) \/ (p = c /\ q = a)).
    { intros p q (i & Hp & Hq). destruct i as [|[|[|i]]]; simpl in Hp, Hq; try (injection Hp as <-; injection Hq as <-; auto). destruct i; discriminate. }
    split.
    + intros q [<-|[<-|[<-|[]]]].
      * transitivity (u * vdot (vsub b a) n + v * vdot (vsub c a) n); [vunfold; ring|rewrite Fb, Fc; ring].
      * transitivity ((u - 1) * vdot (vsub b a) n + v * vdot (vsub c a) n); [vunfold; ring|rewrite Fb, Fc; ring].
      * transitivity (u * vdot (vsub b a) n + (v - 1) * vdot (vsub c a) n); [vunfold; ring|rewrite Fb, Fc; ring].
    + intros p q N. apply L in N. destruct N as [(-> & ->)|[(-> & ->)|(-> & ->)]].
      * match goal with |- 0 <= ?g => replace g with (v * vdot (vcross (vsub b a) (vsub c a)) n) by (vunfold; ring) end. apply Rmult_le_pos; lra.
      * match goal with |- 0 <= ?g => replace g with ((1 - u - v) * vdot (vcross (vsub b a) (vsub c a)) n) by (vunfold; ring) end. apply Rmult_le_pos; lra.
      * match goal with |- 0 <= ?g => replace g with (u * vdot (vcross (vsub b a) (vsub c a)) n) by (vunfold; ring) end. apply Rmult_le_pos; lra.
Qed.
