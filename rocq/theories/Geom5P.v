(** * Geom5P: mesh against plane in exact arithmetic *)
From Coq Require Import ZArith Reals List Bool Arith Lra Lia Psatz.
Import ListNotations.
From Verif Require Import Num Vec Res RangeM Orient Colliders Collide OrderP Spec RangeP ResP MeshP CollideP RealSpec RealV GeomP Geom2P Geom3P Geom4P.
Local Open Scope R_scope.

Lemma fold_left_map' {A B C} (f : C -> B -> C) (g : A -> B) l : forall c, fold_left f (map g l) c = fold_left (fun c a => f c (g a)) l c.
Proof. induction l; simpl; auto. Qed.

(** The spread of a list of heights. *)
Lemma contain_single a b d : a <= b -> rg_contain (mkR (Fin a) (Fin b)) (rg_single (Fin d)) = mkR (Fin (Rmin a d)) (Fin (Rmax b d)).
Proof.
  intros H. unfold rg_contain, rg_is_empty, rg_single. cbn [r_min r_max]. change (n_isnan (Fin a)) with false. change (n_isnan (Fin b)) with false.
  change (n_isnan (Fin d)) with false. cbn [orb]. change (@n_lt ER EReal) with er_lt.
  destruct (er_lt (Fin a) (Fin d)) eqn:E1; [apply er_lt_fin in E1|apply er_lt_fin_f in E1];
  (destruct (er_lt (Fin d) (Fin b)) eqn:E2; [apply er_lt_fin in E2|apply er_lt_fin_f in E2]);
  unfold Rmin, Rmax; destruct (Rle_dec a d), (Rle_dec b d); f_equal; f_equal; lra.
Qed.
Lemma spread_from l : forall a b, a <= b -> exists a' b',
  fold_left (fun r d => rg_contain r (rg_single (Fin d))) l (mkR (Fin a) (Fin b)) = mkR (Fin a') (Fin b') /\ a' <= b' /\
  (forall ds, lowest ds a -> lowest (ds ++ l) a') /\ (forall ds, highest ds b -> highest (ds ++ l) b').
Proof.
  induction l as [|d l IH]; intros a b H.
  - exists a, b. cbn [fold_left]. split; auto. split; auto. split; intros ds; now rewrite app_nil_r.
  - cbn [fold_left]. rewrite contain_single by auto.
    destruct (IH (Rmin a d) (Rmax b d)) as (a' & b' & E & L & P1 & P2).
    { unfold Rmin, Rmax. destruct (Rle_dec a d), (Rle_dec b d); lra. }
    exists a', b'. split; auto. split; auto. split; intros ds [I M].
    + change (d :: l) with ([d] ++ l). rewrite app_assoc. apply P1. split.
      * apply in_or_app. unfold Rmin. destruct (Rle_dec a d); [now left|right; now left].
      * intros e He. apply in_app_or in He. destruct He as [He|[<-|[]]]; [apply M in He; pose proof (Rmin_l a d); lra|apply Rmin_r].
    + change (d :: l) with ([d] ++ l). rewrite app_assoc. apply P2. split.
      * apply in_or_app. unfold Rmax. destruct (Rle_dec b d); [right; now left|now left].
      * intros e He. apply in_app_or in He. destruct He as [He|[<-|[]]]; [apply M in He; pose proof (Rmax_l b d); lra|apply Rmax_r].
Qed.
Lemma spread l : l <> [] -> exists lo hi, fold_left (fun r d => rg_contain r (rg_single (Fin d))) l rg_empty = mkR (Fin lo) (Fin hi) /\
  lo <= hi /\ lowest l lo /\ highest l hi.
Proof.
  destruct l as [|d l]; [congruence|]. intros _. cbn [fold_left].
  assert (E : rg_contain rg_empty (rg_single (Fin d)) = mkR (Fin d) (Fin d)) by reflexivity. rewrite E.
  destruct (spread_from l d d (Rle_refl d)) as (a & b & Ef & L & P1 & P2). exists a, b. split; auto. split; auto.
  split; [apply (P1 [d])|apply (P2 [d])]; split; try (now left); intros e [<-|[]]; lra.
Qed.

Lemma overlap_down lo hi v t : lo <= hi -> speedy v ->
  (in_range (Fin t) (rg_linear_overlap (rg_range (n_neg n_inf) n0) (mkR (Fin lo) (Fin hi)) (Fin v)) = true <-> lo + v * t <= 0).
Proof.
  intros H Hs. assert (E : rg_range (n_neg n_inf) n0 = mkR NInf (Fin 0)) by (rewrite fin_0; reflexivity). rewrite E.
  assert (Pa : proper (mkR (Fin lo) (Fin hi))) by (now apply proper_fin).
  assert (Pb : proper (mkR NInf (Fin 0))) by (split; [reflexivity|split; discriminate]).
  destruct Hs as [->|Hs].
  - rewrite linear_slow; auto; [|apply abs_lt_eps; rewrite Rabs_R0; lra]. setoid_rewrite in_fin. setoid_rewrite in_down. split.
    + intros (x & H1 & H2). lra.
    + intros H1. exists lo. lra.
  - rewrite linear_fast; auto using not_abs_lt; try (simpl; intros [? ?]; discriminate). setoid_rewrite in_fin. setoid_rewrite in_down. split.
    + intros (x & H1 & H2). lra.
    + intros H1. exists (lo + v * t). lra.
Qed.

(** The average of the selected points. *)
Lemma select_sum {X} (sel : X -> bool) (g : X -> V) (F : Vec3 ER * ER -> X -> Vec3 ER * ER) l :
  (forall s c i, F (vfin s, Fin c) i = if sel i then (vfin (vadd s (g i)), Fin (c + 1)) else (vfin s, Fin c)) ->
  forall s c, exists s' c', fold_left F l (vfin s, Fin c) = (vfin s', Fin c') /\
    s' = vadd s (vsum (map g (filter sel l))) /\ c' = c + INR (length (filter sel l)).
Proof.
  intros HF. induction l as [|i l IH]; intros s c.
  - exists s, c. cbn [fold_left filter map vsum fold_right length INR]. split; auto. split; [apply vext; vunfold; ring|ring].
  - cbn [fold_left filter]. rewrite HF. destruct (sel i).
    + destruct (IH (vadd s (g i)) (c + 1)) as (s' & c' & E & -> & ->). eexists _, _. split; [exact E|].
      cbn [map vsum fold_right length]. rewrite S_INR. split; [apply vext; unfold vsum; vunfold; ring|ring].
    + destruct (IH s c) as (s' & c' & E & -> & ->). eauto.
Qed.
Lemma filter_map {X Y} (g : X -> Y) f l : filter f (map g l) = map g (filter (fun x => f (g x)) l).
Proof. induction l; simpl; auto. destruct (f (g a)); simpl; congruence. Qed.

Lemma filter_none {A} (h : A -> R) a l : filter (fun p => if Rlt_dec (Rabs (h p - a)) ((a - a) / 100) then true else false) l = [].
Proof.
  induction l as [|p l IH]; cbn [filter]; auto. destruct (Rlt_dec _ _) as [L|L]; [|exact IH].
  exfalso. revert L. replace ((a - a) / 100) with 0 by field. pose proof (Rabs_pos (h p - a)). lra.
Qed.
Section MeshPlane.
  Variables (vs : list V) (pos : V) (os oe : orientation R) (ps pe n : V).
  Hypothesis Hv : vs <> [].
  Let moves := mesh_moves pos vs os oe.
  Let starts := map fst moves.
  Let ends := map snd moves.
  Let hs (x : V) := vdot (vsub x ps) n.
  Let he (x : V) := vdot (vsub x pe) n.

  Lemma mesh_plane lo hi lo' hi' : lowest (map hs starts) lo -> highest (map hs starts) hi -> lowest (map he ends) lo' -> highest (map he ends) hi' ->
    speedy (lo' - lo) ->
    match collide_mesh_with_plane (map vfin vs) (vfin pos) (ofin os) (ofin oe) (vfin ps) (vfin pe) (vfin n) with
    | None => forall t, 0 <= t <= 1 -> 0 < lo + (lo' - lo) * t
    | Some k => exists t, c_time k = Fin t /\ first_instant (fun t => lo + (lo' - lo) * t <= 0) t /\ c_normal k = vfin (vneg n) /\
        (lo < hi -> lo' < hi' -> exists s e, c_pos k = vfin (along s e t) /\ average (bottom starts ps n lo hi) s /\ average (bottom ends pe n lo' hi') e) /\
        (lo = hi \/ lo' = hi' -> c_pos k = mkV ENaN ENaN ENaN)
    end.
  Proof.
    intros Lo Hi Lo' Hi' Hs. unfold collide_mesh_with_plane. cbv zeta.
    set (calc := map _ (map vfin vs)).
    assert (Ec : calc = map (fun p => mkMI (vfin (fst p)) (vfin (snd p)) (Fin (hs (fst p))) (Fin (he (snd p)))) moves).
    { unfold calc, moves, mesh_moves. rewrite !map_map. reflexivity. }
    assert (Hm : moves <> []) by (unfold moves, mesh_moves; destruct vs; [congruence|discriminate]).
    assert (Uniq : forall l a b, lowest l a -> lowest l b -> a = b) by (intros l a b [H1 H2] [H3 H4]; apply Rle_antisym; auto).
    assert (Uniq' : forall l a b, highest l a -> highest l b -> a = b) by (intros l a b [H1 H2] [H3 H4]; apply Rle_antisym; auto).
    assert (Es : fold_left (fun r i => rg_contain r (rg_single (mi_sd i))) calc rg_empty = mkR (Fin lo) (Fin hi) /\ lo <= hi).
    { rewrite Ec, fold_left_map'. cbn [mi_sd]. rewrite <- (fold_left_map' (fun r d => rg_contain r (rg_single (Fin d))) (fun p => hs (fst p)) moves).
      assert (Em : map (fun p : V * V => hs (fst p)) moves = map hs starts) by (unfold starts; now rewrite map_map). rewrite Em.
      destruct (spread (map hs starts)) as (a & b & E & L & A & B). { unfold starts. destruct moves; [congruence|discriminate]. }
      rewrite E. rewrite (Uniq _ _ _ Lo A), (Uniq' _ _ _ Hi B). auto. }
    assert (Ee : fold_left (fun r i => rg_contain r (rg_single (mi_ed i))) calc rg_empty = mkR (Fin lo') (Fin hi') /\ lo' <= hi').
    { rewrite Ec, fold_left_map'. cbn [mi_ed]. rewrite <- (fold_left_map' (fun r d => rg_contain r (rg_single (Fin d))) (fun p => he (snd p)) moves).
      assert (Em : map (fun p : V * V => he (snd p)) moves = map he ends) by (unfold ends; now rewrite map_map). rewrite Em.
      destruct (spread (map he ends)) as (a & b & E & L & A & B). { unfold ends. destruct moves; [congruence|discriminate]. }
      rewrite E. rewrite (Uniq _ _ _ Lo' A), (Uniq' _ _ _ Hi' B). auto. }
    destruct Es as [Es Ls], Ee as [Ee Le]. rewrite Es, Ee.
    assert (Rm : forall a b, rg_min (mkR (Fin a) (Fin b)) = Fin a) by reflexivity. assert (Rs : forall a b, rg_size (mkR (Fin a) (Fin b)) = Fin (b - a)) by reflexivity.
    rewrite !Rm, !Rs, fin_sub.
    pose proof (cut_first _ (fun t => lo + (lo' - lo) * t <= 0) (fun t _ => overlap_down lo hi (lo' - lo) t Ls Hs)) as C. cbv zeta in C.
    destruct (rg_is_empty _) eqn:Emp.
    { intros t Ht. specialize (C t Ht). lra. }
    destruct C as (t & Et & F). set (times := rg_intersect _ _) in *.
    set (F1 := fun (a : Vec3 ER * ER) i => _). set (F2 := fun (a : Vec3 ER * ER) i => if n_lt (n_abs (n_sub (mi_ed i) _)) _ then _ else _).
    rewrite fin_0, vfin_zero, Ec, !fold_left_map'.
    assert (Hd : n_frac 1 100 = Fin (1 / 100)) by (rewrite n_frac_val; reflexivity).
    destruct (select_sum (fun p => if Rlt_dec (Rabs (hs (fst p) - lo)) ((hi - lo) / 100) then true else false) fst
      (fun a p => F1 a (mkMI (vfin (fst p)) (vfin (snd p)) (Fin (hs (fst p))) (Fin (he (snd p))))) moves) with (s := @vzero R RNum) (c := 0) as (s' & c' & E1 & S1 & C1).
    { intros s c p. unfold F1. cbn [mi_sd mi_start fst snd]. rewrite Hd, fin_mul, fin_sub, fin_abs, vfin_add, fin_1, fin_add.
      change (@n_lt ER EReal) with er_lt. destruct (Rlt_dec (Rabs (hs (fst p) - lo)) ((hi - lo) / 100)).
      - rewrite (proj2 (er_lt_fin _ _)) by lra. reflexivity.
      - rewrite (proj2 (er_lt_fin_f _ _)) by lra. reflexivity. }
    destruct (select_sum (fun p => if Rlt_dec (Rabs (he (snd p) - lo')) ((hi' - lo') / 100) then true else false) snd
      (fun a p => F2 a (mkMI (vfin (fst p)) (vfin (snd p)) (Fin (hs (fst p))) (Fin (he (snd p))))) moves) with (s := @vzero R RNum) (c := 0) as (s2 & c2 & E2 & S2 & C2).
    { intros s c p. unfold F2. cbn [mi_ed mi_end fst snd]. rewrite Hd, fin_mul, fin_sub, fin_abs, vfin_add, fin_1, fin_add.
      change (@n_lt ER EReal) with er_lt. destruct (Rlt_dec (Rabs (he (snd p) - lo')) ((hi' - lo') / 100)).
      - rewrite (proj2 (er_lt_fin _ _)) by lra. reflexivity.
      - rewrite (proj2 (er_lt_fin_f _ _)) by lra. reflexivity. }
    cbv beta in E1, E2 |- *. rewrite E1, E2. unfold c_time. cbn [c_times c_pos c_normal]. exists t. rewrite Et. split; auto. split; auto. split; auto.
    split. 2: {
      assert (D0 : vdivs (vfin (vadd vzero (mkV 0 0 0))) (Fin 0) = mkV ENaN ENaN ENaN).
      { unfold vdivs, vfin. vunfold. cbn. destruct (Req_EM_T 0 0); [|lra]. unfold er_inf_times.
        replace (0 / 1 + 0) with 0 by lra. destruct (Req_EM_T 0 0); [reflexivity|lra]. }
      assert (AN : forall u : Vec3 ER, vadd (mkV ENaN ENaN ENaN) u = mkV ENaN ENaN ENaN) by reflexivity.
      assert (NA : forall u : Vec3 ER, vadd u (mkV ENaN ENaN ENaN) = mkV ENaN ENaN ENaN) by (intros [u1 u2 u3]; unfold vadd; cbn; destruct u1, u2, u3; reflexivity).
      assert (SN : forall u : ER, vscale (mkV ENaN ENaN ENaN) u = mkV ENaN ENaN ENaN) by reflexivity.
      intros [Eq|Eq].
      - rewrite S1, C1, <- Eq, (filter_none (fun p => hs (fst p))). cbn [map vsum fold_right length INR]. rewrite Rplus_0_l, D0, SN. apply AN.
      - rewrite S2, C2, <- Eq, (filter_none (fun p => he (snd p))). cbn [map vsum fold_right length INR]. rewrite Rplus_0_l, D0, SN. apply NA. }
    intros Ln Le'.
    assert (Nz : forall (h : V -> R) (l : list V) a b, lowest (map h l) a -> a < b -> filter (fun x => if Rlt_dec (Rabs (h x - a)) ((b - a) / 100) then true else false) l <> []).
    { intros h l a b [Ia _] Hab X. apply in_map_iff in Ia. destruct Ia as (x & Hx & Ix).
      assert (In x []). { rewrite <- X. apply filter_In. split; auto. rewrite Hx. replace (a - a) with 0 by ring. rewrite Rabs_R0. destruct (Rlt_dec 0 ((b - a) / 100)); auto. lra. }
      contradiction. }
    assert (B1 : bottom starts ps n lo hi <> []) by (apply (Nz hs starts lo hi); auto).
    assert (B2 : bottom ends pe n lo' hi' <> []) by (apply (Nz he ends lo' hi'); auto).
    assert (M1 : bottom starts ps n lo hi = map fst (filter (fun p => if Rlt_dec (Rabs (hs (fst p) - lo)) ((hi - lo) / 100) then true else false) moves))
      by (unfold bottom, starts; rewrite filter_map; reflexivity).
    assert (M2 : bottom ends pe n lo' hi' = map snd (filter (fun p => if Rlt_dec (Rabs (he (snd p) - lo')) ((hi' - lo') / 100) then true else false) moves))
      by (unfold bottom, ends; rewrite filter_map; reflexivity).
    rewrite <- M1 in S1. rewrite <- M2 in S2. rewrite <- (map_length fst), <- M1 in C1. rewrite <- (map_length snd), <- M2 in C2.
    assert (L0 : forall l : list V, l <> [] -> 0 < INR (length l)) by (intros [|y l]; [congruence|intros _; apply lt_0_INR; simpl; lia]).
    pose proof (L0 _ B1) as P1. pose proof (L0 _ B2) as P2. rewrite Rplus_0_l in C1, C2.
    exists (vscale s' (/ c')), (vscale s2 (/ c2)). split.
    - rewrite !vdivs_fin by lra. rewrite fin_1, fin_sub, !vfin_scale, vfin_add. f_equal. unfold along. apply vext; vunfold; ring.
    - rewrite C1, C2. split; (split; auto); [rewrite S1|rewrite S2]; apply vext; vunfold; field; lra.
  Qed.
End MeshPlane.

(** ** The whole colliders *)
Section MeshPlaneCollide.
  Variables (m : mesh_c ER) (p : plane_c ER) (vs : list V) (pos pp n : V) (s1 e1 s2 e2 : orientation R).
  Hypothesis Hm : me_pos m = vfin pos. Hypothesis Hv : me_verts m = map vfin vs. Hypothesis Hne : vs <> [].
  Hypothesis Hp : pl_pos p = vfin pp. Hypothesis Hn : pl_normal p = vfin n.
  Let plane := along (position_into_world s2 pp) (position_into_world e2 pp).
  Let vertices t := at_time (mesh_moves pos vs s1 e1) t.
  Let heights t := map (fun x => vdot (vsub x (plane t)) n) (vertices t).

  Lemma collide_mesh_plane lo hi lo' hi' : lowest (heights 0) lo -> highest (heights 0) hi -> lowest (heights 1) lo' -> highest (heights 1) hi' ->
    speedy (lo' - lo) ->
    match collide (CMesh m) (ofin s1) (ofin e1) (CPlane p) (ofin s2) (ofin e2) with
    | Ok None => forall t, 0 <= t <= 1 -> 0 < lo + (lo' - lo) * t
    | Ok (Some k) => exists t, c_time k = Fin t /\ first_instant (fun t => lo + (lo' - lo) * t <= 0) t /\ c_normal k = vfin (vneg n) /\
        (lo < hi -> lo' < hi' -> exists s e, c_pos k = vfin (along s e t) /\ average (bottom (vertices 0) (plane 0) n lo hi) s /\ average (bottom (vertices 1) (plane 1) n lo' hi') e) /\
        (lo = hi \/ lo' = hi' -> c_pos k = mkV ENaN ENaN ENaN)
    | _ => False
    end.
  Proof.
    assert (A0 : forall a b : V, along a b 0 = a) by (intros; unfold along; apply vext; vunfold; ring).
    assert (A1 : forall a b : V, along a b 1 = b) by (intros; unfold along; apply vext; vunfold; ring).
    assert (P0 : plane 0 = position_into_world s2 pp) by apply A0. assert (P1 : plane 1 = position_into_world e2 pp) by apply A1.
    assert (V0 : vertices 0 = map fst (mesh_moves pos vs s1 e1)) by (unfold vertices, at_time; apply map_ext; intros; apply A0).
    assert (V1 : vertices 1 = map snd (mesh_moves pos vs s1 e1)) by (unfold vertices, at_time; apply map_ext; intros; apply A1).
    unfold heights. rewrite P0, P1, V0, V1. intros L0 H0 L1 H1 Hs. cbn [collide]. rewrite Hm, Hv, Hp, Hn.
    exact (mesh_plane vs pos s1 e1 _ _ n Hne lo hi lo' hi' L0 H0 L1 H1 Hs).
  Qed.

  (** A mesh that only translates relative to the plane: exactly when a vertex gets behind the plane. *)
  Lemma collide_mesh_plane_translating d :
    (forall v, In v vs -> vsub (position_into_world e1 (vadd pos v)) (position_into_world s1 (vadd pos v)) = d) ->
    speedy (vdot d n - vdot (vsub (plane 1) (plane 0)) n) ->
    let touches t := exists x, In x (vertices t) /\ behind x (plane t) n in
    match collide (CMesh m) (ofin s1) (ofin e1) (CPlane p) (ofin s2) (ofin e2) with
    | Ok None => forall t, 0 <= t <= 1 -> ~ touches t
    | Ok (Some k) => exists t, c_time k = Fin t /\ first_instant touches t /\ c_normal k = vfin (vneg n)
    | _ => False
    end.
  Proof.
    intros Hd Hs touches. set (v := vdot d n - vdot (vsub (plane 1) (plane 0)) n) in *.
    assert (H0 : heights 0 <> []) by (unfold heights, vertices, at_time, mesh_moves; destruct vs; [congruence|discriminate]).
    destruct (spread _ H0) as (lo & hi & _ & _ & Lo & Hi).
    assert (Ht : forall t, heights t = map (fun h => h + v * t) (heights 0)).
    { intros t. unfold heights, vertices, at_time, mesh_moves. rewrite !map_map. apply map_ext_in. intros x Ix. cbn [fst snd].
      specialize (Hd x Ix). unfold v, plane. rewrite <- Hd. unfold along. vunfold. ring. }
    assert (Lt : forall t, lowest (heights t) (lo + v * t)).
    { intros t. rewrite Ht. destruct Lo as [I M]. split; [apply in_map_iff; eauto|]. intros e He. apply in_map_iff in He. destruct He as (h & <- & Ih). specialize (M h Ih). lra. }
    assert (Hit : highest (heights 1) (hi + v * 1)).
    { rewrite Ht. destruct Hi as [I M]. split; [apply in_map_iff; eauto|]. intros e He. apply in_map_iff in He. destruct He as (h & <- & Ih). specialize (M h Ih). lra. }
    assert (T : forall t, lo + (lo + v * 1 - lo) * t <= 0 <-> touches t).
    { intros t. destruct (Lt t) as [I M]. replace (lo + (lo + v * 1 - lo) * t) with (lo + v * t) by ring. split.
      - intros H. apply in_map_iff in I. destruct I as (x & Ex & Ix). exists x. split; auto. unfold behind. lra.
      - intros (x & Ix & Bx). unfold behind in Bx. apply Rle_trans with (vdot (vsub x (plane t)) n); auto. apply M. now apply (in_map (fun x => vdot (vsub x (plane t)) n)). }
    pose proof (collide_mesh_plane lo hi (lo + v * 1) (hi + v * 1) Lo Hi (Lt 1) Hit ltac:(replace (lo + v * 1 - lo) with v by ring; exact Hs)) as C.
    destruct (collide _ _ _ _ _ _) as [[k|]| |]; try contradiction.
    - destruct C as (t & Et & (F1 & F2 & F3) & En & _). exists t. split; auto. split; [|auto]. split; auto. split; [now apply T|]. intros t' Ht' Tt. apply F3; auto. now apply T.
    - intros t Ht' Tt. apply T in Tt. specialize (C t Ht'). lra.
  Qed.
End MeshPlaneCollide.
