(** * Geom4P: corners against faces, mesh against mesh and mesh against plane, in exact arithmetic *)
From Coq Require Import ZArith Reals List Bool Arith Lra Lia Psatz.
Import ListNotations.
From Verif Require Import Num Vec Res RangeM Orient Colliders Collide OrderP Spec RangeP ResP MeshP CollideP RealSpec RealV GeomP Geom2P Geom3P.
Local Open Scope R_scope.

(** ** The normal of a polygon *)
Lemma ok_inj {X} (a b : X) : Ok a = Ok b -> a = b.
Proof. congruence. Qed.
Lemma nth_map_fin pol i : nth i (map vfin pol) vzero = vfin (nth i pol vzero).
Proof. rewrite vfin_zero at 1. apply map_nth. Qed.
Lemma wrap_next n i : (i < n)%nat -> (if n <=? i + 1 then i + 1 - n else i + 1)%nat = ((i + 1) mod n)%nat.
Proof.
  intros H. destruct (Nat.leb_spec n (i + 1)).
  - assert (i + 1 = n)%nat as -> by lia. rewrite Nat.mod_same by lia. lia.
  - now rewrite Nat.mod_small by lia.
Qed.
Lemma wrap_prev n i : (i < n)%nat -> (if 0 <? i then i - 1 else n - 1)%nat = ((i + n - 1) mod n)%nat.
Proof.
  intros H. destruct (Nat.ltb_spec 0 i).
  - replace (i + n - 1)%nat with ((i - 1) + 1 * n)%nat by lia. rewrite Nat.mod_add by lia. now rewrite Nat.mod_small by lia.
  - replace i with 0%nat by lia. rewrite Nat.mod_small; lia.
Qed.
Lemma nth_error_some {X} (l : list X) d i : (i < length l)%nat -> nth_error l i = Some (nth i l d).
Proof. revert i. induction l as [|x l IH]; intros [|i] H; simpl in *; auto; try lia. apply IH. lia. Qed.

Lemma polygon_normal_fin pol v : get_polygon_normal (map vfin pol) = Ok v ->
  exists n, v = vfin n /\ vdot n n = 1 /\ corner_normal pol n.
Proof.
  unfold get_polygon_normal. rewrite map_length.
  assert (G : forall is, (forall i, In i is -> (i < length pol)%nat) -> polygon_normal_from (map vfin pol) is = Ok v ->
     exists n, v = vfin n /\ vdot n n = 1 /\ corner_normal pol n).
  { induction is as [|i is IH]; intros Hi H; cbn [polygon_normal_from] in H; [discriminate|]. cbv zeta in H.
    rewrite map_length in H. assert (Li : (i < length pol)%nat) by (apply Hi; now left). rewrite wrap_next, wrap_prev, !nth_map_fin, !vfin_sub, vfin_cross, vmag_fin in H by auto.
    set (cr := vcross _ _) in *.
    destruct (n_isfin _ && n_lt _ _)%bool eqn:C; [|apply IH; auto; intros j Hj; apply Hi; now right].
    apply ok_inj in H. subst v. apply andb_true_iff in C. destruct C as [_ C]. rewrite eps_val in C. apply er_lt_fin in C.
    assert (Hc : cr <> mkV 0 0 0). { intros E. rewrite E in C. replace (vdot (mkV 0 0 0) (mkV 0 0 0)) with 0 in C by (vunfold; ring). rewrite sqrt_0 in C. lra. }
    exists (vunit cr). split; [rewrite vdivs_fin by lra; reflexivity|]. split; [now apply vunit_unit|].
    assert (L1 : ((i + 1) mod length pol < length pol)%nat) by (apply Nat.mod_upper_bound; lia).
    assert (L2 : ((i + length pol - 1) mod length pol < length pol)%nat) by (apply Nat.mod_upper_bound; lia).
    exists i. eexists. eexists. eexists. rewrite !(nth_error_some pol vzero) by auto. split; [reflexivity|]. split; [reflexivity|]. split; [reflexivity|].
    now apply vunit_along. }
  apply G. intros i Hi. apply in_seq in Hi. lia.
Qed.

(** ** A point moving in the plane of a polygon *)
Lemma edge_time (n a b p q : V) : 
  let o := vcross n (vsub q p) in
  let lo := vnormalize (vfin o) in
  let ods := vdot (vfin (vsub a p)) lo in
  let time := n_div ods (n_neg (n_sub (vdot (vfin (vsub b p)) lo) ods)) in
  (exists t, time = Fin t /\ vdot (vsub b a) o <> 0 /\ forall s, vdot (vsub (along a b s) p) o = 0 <-> s = t) \/
  (n_isfin time = false /\ vdot (vsub b a) o = 0).
Proof.
  cbv zeta. set (o := vcross n (vsub q p)).
  assert (Z : {o = mkV 0 0 0} + {o <> mkV 0 0 0}).
  { destruct (Req_EM_T (vx o) 0), (Req_EM_T (vy o) 0), (Req_EM_T (vz o) 0); try (right; intros E; rewrite E in *; cbn in *; congruence).
    left. apply vext; auto. }
  destruct Z as [Z|Z].
  { right. rewrite Z, vnormalize_zero. split; [reflexivity|]. vunfold. ring. }
  rewrite vnormalize_fin by auto. rewrite !vfin_dot, fin_sub, fin_neg.
  pose proof (sqrt_norm_pos o Z) as P. set (q' := sqrt (vdot o o)) in *.
  assert (E : forall w, vdot w (vunit o) = vdot w o / q'). { intros w. unfold vunit. fold q'. rewrite vdot_comm, vscale_dot, vdot_comm. field. lra. }
  rewrite !E. assert (D : vdot (vsub b p) o / q' - vdot (vsub a p) o / q' = vdot (vsub b a) o / q') by (vunfold; field; lra). rewrite D.
  destruct (Req_EM_T (vdot (vsub b a) o) 0) as [B|B].
  - right. split; auto. rewrite B. replace (- (0 / q')) with 0 by (field; lra). simpl. destruct (Req_EM_T 0 0); [|lra]. unfold er_inf_times. rdec; reflexivity.
  - left. rewrite fin_div. 2: { intros X. apply B. replace (vdot (vsub b a) o) with (- - (vdot (vsub b a) o / q') * q') by (field; lra). rewrite X. ring. }
    eexists. split; [reflexivity|]. split; auto. intros s.
    assert (A : vdot (vsub (along a b s) p) o = vdot (vsub a p) o + s * vdot (vsub b a) o) by (unfold along; vunfold; ring). rewrite A. split.
    + intros H. set (B1 := vdot (vsub b a) o) in *. set (A1 := vdot (vsub a p) o) in *.
      replace (A1 / q' / - (B1 / q')) with (- A1 / B1) by (field; split; lra).
      apply Rmult_eq_reg_r with B1; auto. replace (- A1 / B1 * B1) with (- A1) by (field; auto). lra.
    + intros ->. field. split; lra.
Qed.
Lemma edge_skip (n a b p q : V) (best : R * V) rest :
  let r := closest_side (vfin a) (vfin b) (vfin n) (Fin (fst best), vfin (snd best)) (lift2 (p, q) :: rest) in
  exists best', r = closest_side (vfin a) (vfin b) (vfin n) (Fin (fst best'), vfin (snd best')) rest /\
    fst best' <= fst best /\
    (best' = best \/ (crosses_edge n a b p q (fst best') /\ snd best' = along a b (fst best'))) /\
    forall s, crosses_edge n a b p q s -> fst best' <= s.
Proof.
  cbv zeta. cbn [lift2 fst snd closest_side]. rewrite !vfin_sub, !vfin_cross.
  pose proof (edge_time n a b p q) as T. cbv zeta in T. set (o := vcross n (vsub q p)) in *. set (time := n_div _ _) in *.
  destruct T as [(t & Et & B & U)|[Et B]].
  - rewrite Et. change (n_isfin (Fin t)) with true. cbn [negb orb].
    assert (A : forall s, crosses_edge n a b p q s -> s = t) by (intros s (_ & H & _); now apply U).
    change (@n_lt ER EReal) with er_lt. rewrite fin_0, fin_1.
    destruct (er_lt (Fin t) (Fin 0)) eqn:L0; cbn [orb]; [apply er_lt_fin in L0|apply er_lt_fin_f in L0].
    { exists best. split; [reflexivity|]. split; [lra|]. split; auto. intros s Hs. exfalso. pose proof (A s Hs). destruct Hs as (Hs & _). lra. }
    destruct (er_lt (Fin 1) (Fin t)) eqn:L1; cbn [orb]; [apply er_lt_fin in L1|apply er_lt_fin_f in L1].
    { exists best. split; [reflexivity|]. split; [lra|]. split; auto. intros s Hs. exfalso. pose proof (A s Hs). destruct Hs as (Hs & _). lra. }
    rewrite vfin_scale, vfin_add, vfin_sub, !vfin_dot. fold (along a b t).
    destruct (er_lt (Fin (vdot (vsub (along a b t) p) (vsub q p))) (Fin 0)) eqn:L2; cbn [orb]; [apply er_lt_fin in L2|apply er_lt_fin_f in L2].
    { exists best. split; [reflexivity|]. split; [lra|]. split; auto. intros s Hs. exfalso. pose proof (A s Hs) as ->. destruct Hs as (_ & _ & _ & Hs). lra. }
    destruct (er_lt (Fin (vdot (vsub q p) (vsub q p))) (Fin (vdot (vsub (along a b t) p) (vsub q p)))) eqn:L3; [apply er_lt_fin in L3|apply er_lt_fin_f in L3].
    { exists best. split; [reflexivity|]. split; [lra|]. split; auto. intros s Hs. exfalso. pose proof (A s Hs) as ->. destruct Hs as (_ & _ & _ & Hs). lra. }
    assert (C : crosses_edge n a b p q t). { split; [lra|]. fold o. split; [now apply U|]. split; auto. }
    destruct (er_lt (Fin t) (Fin (fst best))) eqn:L4; [apply er_lt_fin in L4|apply er_lt_fin_f in L4].
    + exists (t, along a b t). cbn [fst snd]. split; [reflexivity|]. split; [lra|]. split; auto. intros s Hs. rewrite (A s Hs). lra.
    + exists best. split; [reflexivity|]. split; [lra|]. split; auto. intros s Hs. rewrite (A s Hs). lra.
  - rewrite Et. cbn [negb orb]. exists best. split; [reflexivity|]. split; [lra|]. split; auto. intros s (_ & _ & Hs & _). contradiction.
Qed.
Lemma closest_side_fin (n a b : V) sides : forall best : R * V,
  exists best', closest_side (vfin a) (vfin b) (vfin n) (Fin (fst best), vfin (snd best)) (map lift2 sides) = (Fin (fst best'), vfin (snd best')) /\
    fst best' <= fst best /\
    (best' = best \/ exists p q, In (p, q) sides /\ crosses_edge n a b p q (fst best') /\ snd best' = along a b (fst best')) /\
    forall p q s, In (p, q) sides -> crosses_edge n a b p q s -> fst best' <= s.
Proof.
  induction sides as [|[p q] l IH]; intros best.
  - exists best. cbn [map closest_side]. split; [reflexivity|]. split; [lra|]. split; auto. intros p q s [].
  - cbn [map]. destruct (edge_skip n a b p q best (map lift2 l)) as (b1 & -> & L1 & O1 & M1).
    destruct (IH b1) as (b2 & E & L2 & O2 & M2). exists b2. split; [exact E|]. split; [lra|]. split.
    + destruct O2 as [->|(p' & q' & I & H)]; [|right; exists p', q'; split; [now right|exact H]].
      destruct O1 as [->|H]; [now left|]. right. exists p, q. split; [now left|exact H].
    + intros p' q' s [H|H] Hs; [|eauto]. injection H as -> ->. specialize (M1 s Hs). lra.
Qed.

(** ** Inside the polygon *)
Lemma inside_spec (x n : V) sides :
  let side (p : V * V) := vdot (vcross (vsub (snd p) (fst p)) (vsub x (fst p))) n in
  let near := exists p, In p sides /\ dist x (fst p) < 1 / 1000000 in
  let pos := forall p, In p sides -> - (1 / 1000000) < side p in
  let neg := forall p, In p sides -> side p < 1 / 1000000 in
  let ok e := point_inside (vfin x) (vfin n) (Fin e) (map lift2 sides) in
  ((ok 1 = true -> near \/ pos) /\ (pos -> ok 1 = true)) /\
  ((ok (-1) = true -> near \/ neg) /\ (neg -> ok (-1) = true)) /\
  ((ok 0 = true -> near \/ pos \/ neg) /\ (pos \/ neg -> ok 0 = true)).
Proof.
  cbv zeta. set (side := fun p : V * V => vdot (vcross (vsub (snd p) (fst p)) (vsub x (fst p))) n).
  induction sides as [|[f s] l IH].
  { simpl. split; [|split]; split; auto; intros _; right; try (intros ? []). left. intros ? []. }
  destruct IH as ((P1 & P2) & (M1 & M2) & Z1 & Z2). cbn [map lift2 fst snd point_inside].
  rewrite !vfin_sub, !vfin_cross, !vfin_dot, !vmag_fin, !fin_0. fold (dist x f).
  change (vdot (vcross (vsub s f) (vsub x f)) n) with (side (f, s)). set (v := side (f, s)).
  assert (A : forall P : R -> Prop, (forall p, In p ((f, s) :: l) -> P (side p)) <-> P v /\ forall p, In p l -> P (side p)).
  { intros P. split; [intros H; split; [apply H; now left|intros p Hp; apply H; now right]|intros [H1 H2] p [<-|Hp]; auto]. }
  rewrite !(A (fun x => - (1 / 1000000) < x)), !(A (fun x => x < 1 / 1000000)).
  assert (Nr : (exists p, In p l /\ dist x (fst p) < 1 / 1000000) -> exists p, In p ((f, s) :: l) /\ dist x (fst p) < 1 / 1000000).
  { intros (p & Hp & H). exists p. split; auto. now right. }
  rewrite eps_val. change (@n_lt ER EReal) with er_lt.
  destruct (er_lt (Fin (dist x f)) (Fin (1 / 1000000))) eqn:D; [apply er_lt_fin in D|].
  { assert (Nn : exists p, In p ((f, s) :: l) /\ dist x (fst p) < 1 / 1000000) by (exists (f, s); split; [now left|exact D]). tauto. }
  clear D. rewrite <- eps_val. change er_lt with (@n_lt ER EReal).
  assert (E01 : n_eq (Fin 0) (Fin 1) = false) by (apply fin_eq_f; lra). assert (E0m : n_eq (Fin 0) (Fin (-1)) = false) by (apply fin_eq_f; lra).
  assert (E00 : n_eq (Fin 0) (Fin 0) = true) by (now apply fin_eq). rewrite E01, E0m, E00.
  assert (S : n_signum (Fin v) = Fin (if Rlt_dec v 0 then -1 else 1)) by (simpl; now destruct (Rlt_dec v 0)). rewrite S.
  destruct (n_lt (n_abs (Fin v)) EPSILON) eqn:L.
  - apply abs_lt_eps in L. apply Rabs_def2 in L. tauto.
  - assert (L' : 1 / 1000000 <= Rabs v) by (rewrite eps_val in L; now apply er_lt_fin_f in L). clear L.
    destruct (Rlt_dec v 0) as [H|H]; [rewrite Rabs_left in L' by auto|rewrite Rabs_pos_eq in L' by lra].
    + replace (n_eq (Fin 1) (Fin (-1))) with false by (symmetry; apply fin_eq_f; lra).
      replace (n_eq (Fin (-1)) (Fin (-1))) with true by (symmetry; now apply fin_eq). cbn [negb andb].
      split; [split; [discriminate|intros [? _]; lra]|]. assert (v < 1 / 1000000) by lra. assert (~ - (1 / 1000000) < v) by lra. tauto.
    + replace (n_eq (Fin 1) (Fin 1)) with true by (symmetry; now apply fin_eq).
      replace (n_eq (Fin (-1)) (Fin 1)) with false by (symmetry; apply fin_eq_f; lra). cbn [negb andb].
      assert (- (1 / 1000000) < v) by lra. assert (~ v < 1 / 1000000) by lra. split; [tauto|]. split; [split; [discriminate|tauto]|tauto].
Qed.
Lemma inside_same (x n : V) pol :
  (point_inside (vfin x) (vfin n) n0 (loop_pairs (map vfin pol)) = true ->
     (exists p, In p pol /\ dist x p < 1 / 1000000) \/ same_side n pol x) /\
  (same_side n pol x -> point_inside (vfin x) (vfin n) n0 (loop_pairs (map vfin pol)) = true).
Proof.
  rewrite loop_pairs_map, fin_0. change (fun p : V * V => (vfin (fst p), vfin (snd p))) with lift2.
  destruct (inside_spec x n (loop_pairs pol)) as (_ & _ & H1 & H2). cbv zeta in *.
  assert (E : forall f s, vdot (vcross (vsub s f) (vsub x f)) n = - vdot (vcross (vsub x f) (vsub s f)) n) by (intros; vunfold; ring).
  unfold same_side. cbv zeta. split.
  - intros H. destruct (H1 H) as [((f, s) & I & D)|[P|P]].
    + left. exists f. split; auto. now apply loop_pairs_in in I.
    + right. left. intros f s Hn. apply loop_pairs_next in Hn. specialize (P _ Hn). cbn [fst snd] in P. rewrite E in P. lra.
    + right. right. intros f s Hn. apply loop_pairs_next in Hn. specialize (P _ Hn). cbn [fst snd] in P. rewrite E in P. lra.
  - intros [P|P]; apply H2; [left|right]; intros [f s] I; apply loop_pairs_next in I; cbn [fst snd]; rewrite E; specialize (P _ _ I); lra.
Qed.

(** ** A corner against a face *)
Lemma along_dot (a b p n : V) t : vdot (vsub (along a b t) p) n = vdot (vsub a p) n + t * vdot (vsub b a) n.
Proof. unfold along. vunfold. ring. Qed.
Lemma rg_min_single x : n_isnan x = false -> rg_min (rg_single (T := ER) x) = x.
Proof. intros H. unfold rg_min, rg_is_empty, rg_single. simpl in *. now rewrite H. Qed.
Lemma on_plane_fin (y n p : V) : point_is_on_plane (vfin y) (vfin n) (vfin p) = true <-> Rabs (vdot (vsub y p) n) < 1 / 1000000.
Proof. unfold point_is_on_plane. rewrite vfin_sub, vfin_dot. apply abs_lt_eps. Qed.
Lemma point_polygon (a b p0 : V) rest o : let pol := p0 :: rest in
  collide_point_with_polygon (vfin a) (vfin b) (map vfin pol) = Ok o ->
  exists n, vdot n n = 1 /\ corner_normal pol n /\
    match o with
    | Some k => exists t x nn, c_times k = rg_single (Fin t) /\ c_pos k = vfin x /\ c_normal k = vfin nn /\ corner_meets pol n p0 a b t x nn
    | None => corner_misses pol n p0 a b
    end.
Proof.
  intros pol. unfold collide_point_with_polygon. intros H. inv_ok H. apply polygon_normal_fin in E.
  destruct E as (n & -> & U & CN). exists n. split; auto. split; auto.
  change (nth 0 (map vfin pol) vzero) with (vfin p0) in H.
  unfold corner_meets, corner_misses. cbv zeta.
  destruct (point_is_on_plane (vfin a) (vfin n) (vfin p0)) eqn:Ea; [apply on_plane_fin in Ea|assert (Na : ~ Rabs (vdot (vsub a p0) n) < 1 / 1000000) by (intros X; apply on_plane_fin in X; congruence)];
  (destruct (point_is_on_plane (vfin b) (vfin n) (vfin p0)) eqn:Eb; [apply on_plane_fin in Eb|assert (Nb : ~ Rabs (vdot (vsub b p0) n) < 1 / 1000000) by (intros X; apply on_plane_fin in X; congruence)]);
  cbn [andb] in H.
  { rewrite loop_pairs_map in H. change (fun p : V * V => (vfin (fst p), vfin (snd p))) with lift2 in H.
    rewrite fin_2, vfin_zero in H.
    destruct (closest_side_fin n a b (loop_pairs pol) (2, vzero)) as (best & E & L & O & M). cbn [fst snd] in *. rewrite E in H.
    rewrite fin_1 in H. change (@n_le ER EReal) with er_le in H. destruct (er_le (Fin (fst best)) (Fin 1)) eqn:Et.
    - apply ok_inj in H. subst o. apply er_le_fin in Et. destruct O as [->|(p & q & I & C & X)]; [cbn in Et; lra|].
      exists (fst best), (snd best), n. split; [reflexivity|]. split; [reflexivity|]. split; [reflexivity|]. split; auto.
      split; [now destruct C|]. left. split; auto. split; auto. split; auto. split; [now destruct C|].
      split; [exists p, q; split; auto; now apply loop_pairs_next|].
      intros t' _ (p' & q' & I' & C'). apply (M p' q'); auto. now apply loop_pairs_next.
    - apply ok_inj in H. subst o. left. split; auto. split; auto. intros t p q I C. apply loop_pairs_next in I. specialize (M p q t I C).
      destruct C as ((_ & C) & _). rewrite <- not_true_iff_false in Et. apply Et. apply er_le_fin. lra. }
  all: set (OnA := Rabs (vdot (vsub a p0) n) < 1 / 1000000) in *; set (OnB := Rabs (vdot (vsub b p0) n) < 1 / 1000000) in *.
  all: assert (NB : ~ (OnA /\ OnB)) by tauto; subst OnA OnB.
  all: try clear Ea; try clear Eb; try clear Na; try clear Nb.
  all: rewrite !vfin_sub, !vfin_dot, fin_neg in H.
  all: assert (B0 : vdot (vsub b a) n = 0 -> vdot (vsub a p0) n <> 0);
   [intros B A; apply NB; assert (Eb : vdot (vsub b p0) n = vdot (vsub a p0) n + vdot (vsub b a) n) by (vunfold; ring);
    rewrite Eb, B, A, Rplus_0_r, Rabs_R0; lra|].
  all: (destruct (Req_EM_T (vdot (vsub b a) n) 0) as [B|B];
   [ specialize (B0 B); rewrite B, Ropp_0 in H;
     assert (I : n_isfin (n_div (Fin (vdot (vsub a p0) n)) (Fin 0)) = false) by (simpl; destruct (Req_EM_T 0 0); [|lra]; unfold er_inf_times; rdec; reflexivity);
     rewrite I in H; cbn [negb orb] in H; apply ok_inj in H; subst o; right; split; auto; intros t Ht X; rewrite along_dot, B in X; exfalso; apply B0; lra
   | clear B0; rewrite fin_div in H by lra; set (t := vdot (vsub a p0) n / - vdot (vsub b a) n) in *; change (n_isfin (Fin t)) with true in H; cbn [negb orb] in H;
     assert (U1 : forall s, vdot (vsub (along a b s) p0) n = 0 -> s = t);
     [ intros s X; rewrite along_dot in X; unfold t; apply Rmult_eq_reg_r with (vdot (vsub b a) n); auto;
       replace (vdot (vsub a p0) n / - vdot (vsub b a) n * vdot (vsub b a) n) with (- vdot (vsub a p0) n) by (field; auto); lra|];
     assert (U2 : vdot (vsub (along a b t) p0) n = 0) by (rewrite along_dot; unfold t; field; auto);
     rewrite fin_0, fin_1 in H; change (@n_lt ER EReal) with er_lt in H ]).
  all: destruct (er_lt (Fin t) (Fin 0)) eqn:L0; cbn [orb] in H; [apply er_lt_fin in L0; apply ok_inj in H; subst o; right; split; auto; intros s Hs X; apply U1 in X; lra|apply er_lt_fin_f in L0].
  all: destruct (er_lt (Fin 1) (Fin t)) eqn:L1; [apply er_lt_fin in L1; apply ok_inj in H; subst o; right; split; auto; intros s Hs X; apply U1 in X; lra|apply er_lt_fin_f in L1].
  all: rewrite vfin_scale, vfin_add in H; fold (along a b t) in H.
  all: match type of H with (if point_inside _ ?w _ _ then _ else _) = _ => set (wn := w) in * end.
  all: assert (W : exists nn, wn = vfin nn /\ faces_start nn n p0 a b /\ exists k, nn = vscale n k /\ k <> 0 /\ Rabs k = 1).
  1, 3, 5: unfold wn, faces_start; rewrite eps_val, fin_neg, fin_m1, vfin_scale;
    assert (S1 : vscale n (-1) = vneg n) by (apply vext; vunfold; ring);
    assert (S2 : n = vscale n 1) by (apply vext; vunfold; ring);
    assert (K1 : Rabs (-1) = 1) by (rewrite Rabs_left; lra);
    assert (D1 : forall y, vdot (vsub y p0) (vneg n) = - vdot (vsub y p0) n) by (intros; vunfold; ring);
    (destruct (er_lt (Fin (vdot (vsub a p0) n)) (Fin (- (1 / 1000000)))) eqn:G1; [apply er_lt_fin in G1|apply er_lt_fin_f in G1]);
    [exists (vneg n); rewrite <- S1 at 1; split; auto; split; [split; [now right|left; rewrite D1; lra]|exists (-1); split; auto; split; [lra|auto]]|];
    (destruct (er_lt (Fin (vdot (vsub a p0) n)) (Fin (1 / 1000000))) eqn:G2; [apply er_lt_fin in G2|apply er_lt_fin_f in G2]);
    [|exists n; split; auto; split; [split; [now left|left; lra]|exists 1; split; auto; split; [lra|apply Rabs_R1]]];
    (destruct (er_lt (Fin 0) (Fin (vdot (vsub b p0) n))) eqn:G3; [apply er_lt_fin in G3|apply er_lt_fin_f in G3]);
    [exists (vneg n); rewrite <- S1 at 1; split; auto; split; [split; [now right|right; rewrite !D1; split; [apply Rabs_le; lra|lra]]|exists (-1); split; auto; split; [lra|auto]]
    |exists n; split; auto; split; [split; [now left|right; split; [apply Rabs_le; lra|lra]]|exists 1; split; auto; split; [lra|apply Rabs_R1]]].
  all: destruct W as (nn & -> & FS & kk & Ek & K0 & K1).
  all: destruct (inside_same (along a b t) nn pol) as [P1 P2]; rewrite fin_0 in P1, P2.
  all: assert (SS : same_side nn pol (along a b t) <-> same_side n pol (along a b t)) by (rewrite Ek; now apply same_side_neg).
  all: destruct (point_inside _ _ _ _) eqn:PI; apply ok_inj in H; subst o.
  1, 3, 5: exists t, (along a b t), nn; split; [reflexivity|]; split; [reflexivity|]; split; [reflexivity|]; split; auto; split; [lra|]; right; split; auto; split; auto; split; auto;
    destruct (P1 eq_refl) as [X|X]; [now left|right; now apply SS].
  all: right; split; auto; intros s Hs X Y; apply U1 in X; subst s; apply SS in Y; specialize (P2 Y); discriminate.
Qed.

(** ** Mesh against mesh *)
Lemma rfold_each {A S} (f : S -> A -> res S) l : forall s s', rfold f l s = Ok s' -> forall a, In a l -> exists s1 s2, f s1 a = Ok s2.
Proof.
  induction l as [|b l IH]; simpl; intros s s' H a I; [contradiction|]. apply rbind_ok in H. destruct H as (s1 & E & H).
  destruct I as [<-|I]; eauto.
Qed.
Lemma corners_faces_each {T} {N : Num T} (p1 : list (Vec3 T * Vec3 T)) fs p2 o : corners_faces p1 fs p2 = Ok o ->
  forall pt f, In pt p1 -> In f fs -> exists o', face_res p2 pt f o'.
Proof.
  intros H pt f Ip If. unfold corners_faces in H. inv_ok H. clear H.
  pose proof (rfold_each _ _ _ _ E pt Ip) as (s1 & s2 & E1). cbv beta in E1.
  pose proof (rfold_each _ _ _ _ E1 f If) as (s3 & s4 & E2). cbv beta in E2. inv_ok E2. inv_ok E2.
  apply face_points_ok in E0. destruct E0 as (pol & F & ->). exists x1, pol. auto.
Qed.

Lemma votes_fin (ps : list (V * V)) (k : collision ER) t x n : c_time k = Fin t -> c_pos k = vfin x -> c_normal k = vfin n ->
  let ahead := length (filter (fun v => if Rlt_dec (vdot (vsub v x) n) 0 then false else true) (at_time ps t)) in
  votes (map lift2 ps) k = (length ps - ahead, ahead)%nat /\ (ahead <= length ps)%nat.
Proof.
  intros Ht Hx Hn. cbv zeta. unfold votes. rewrite Ht, Hx, Hn. set (F := fun nk pt => _).
  assert (St : forall nk a b, F nk (lift2 (a, b)) = if Rlt_dec (vdot (vsub (along a b t) x) n) 0 then (S (fst nk), snd nk) else (fst nk, S (snd nk))).
  { intros nk a b. unfold F. cbn [lift2 fst snd]. rewrite fin_0, fin_1, fin_sub, !vfin_scale, vfin_add, vfin_sub, vfin_dot.
    assert (E : vadd (vscale a (1 - t)) (vscale b t) = along a b t) by (unfold along; apply vext; vunfold; ring). rewrite E.
    change (@n_lt ER EReal) with er_lt. destruct (Rlt_dec (vdot (vsub (along a b t) x) n) 0) as [L|L].
    - now rewrite (proj2 (er_lt_fin _ _)).
    - now rewrite (proj2 (er_lt_fin_f _ _)) by lra. }
  assert (G : forall l ng kp, let ahead := length (filter (fun v => if Rlt_dec (vdot (vsub v x) n) 0 then false else true) (at_time l t)) in
    fold_left F (map lift2 l) (ng, kp) = (ng + (length l - ahead), kp + ahead)%nat /\ (ahead <= length l)%nat).
  { clearbody F. induction l as [|[a b] l IH]; intros ng kp; cbv zeta in *.
    - simpl. split; [f_equal; lia|lia].
    - cbn [map fold_left length at_time filter]. rewrite St. cbn [fst snd]. fold (at_time l t).
      destruct (Rlt_dec (vdot (vsub (along a b t) x) n) 0) as [L|L].
      + destruct (IH (S ng) kp) as [IH1 IH2]. rewrite IH1. split; [f_equal; lia|lia].
      + destruct (IH ng (S kp)) as [IH1 IH2]. rewrite IH1. cbn [length]. split; [f_equal; lia|lia]. }
  destruct (G ps 0%nat 0%nat) as [G1 G2]. split; auto.
Qed.
Lemma voted_fin (ps : list (V * V)) (k : collision ER) t x n : c_times k = rg_single (Fin t) -> c_pos k = vfin x -> c_normal k = vfin n ->
  exists n', c_times (voted (map lift2 ps) k) = rg_single (Fin t) /\ c_pos (voted (map lift2 ps) k) = vfin x /\
    c_normal (voted (map lift2 ps) k) = vfin n' /\ (n' = n \/ n' = vneg n) /\ half_ahead x n' (at_time ps t).
Proof.
  intros Ht Hx Hn. assert (Ht' : c_time k = Fin t) by (unfold c_time; rewrite Ht; now apply rg_min_single).
  destruct (votes_fin ps k t x n Ht' Hx Hn) as [V L]. unfold voted. rewrite V. set (ah := length (filter _ _)) in *.
  assert (Len : length (at_time ps t) = length ps) by (unfold at_time; now rewrite map_length).
  destruct (Nat.ltb_spec ah (length ps - ah)) as [C|C].
  - exists (vneg n). cbn [scale_normal c_times c_pos c_normal]. split; auto. split; auto. split.
    { rewrite Hn, fin_m1, vfin_scale. f_equal. apply vext; vunfold; ring. }
    split; auto. unfold half_ahead. rewrite Len.
    assert (F : (length ps - ah <= length (filter (fun v => if Rlt_dec (vdot (vsub v x) (vneg n)) 0 then false else true) (at_time ps t)))%nat).
    { unfold ah. rewrite <- Len. clear. induction (at_time ps t) as [|v l IH]; [simpl; lia|]. cbn [filter length].
      assert (D : vdot (vsub v x) (vneg n) = - vdot (vsub v x) n) by (vunfold; ring). rewrite D. clear D.
      destruct (Rlt_dec (vdot (vsub v x) n) 0), (Rlt_dec (- vdot (vsub v x) n) 0); cbn [length]; try lra; lia. }
    lia.
  - exists n. split; auto. split; auto. split; auto. split; auto. unfold half_ahead. rewrite Len. fold ah. lia.
Qed.

Lemma halfway_fin (pe : V * V) : halfway (lift2 pe) = vfin (along (fst pe) (snd pe) (1 / 2)).
Proof.
  unfold halfway. cbn [lift2 fst snd]. rewrite vfin_add, fin_2, vdivs_fin by lra. f_equal. unfold along. apply vext; vunfold; field.
Qed.
Lemma face_polygon_fin ps f pol : Forall2 (fun i pe => nth_error (map lift2 ps) i = Some pe) f pol ->
  exists pol', map halfway pol = map vfin pol' /\ face_polygon ps f pol'.
Proof.
  unfold face_polygon. intros H. induction H as [|i pe f pol H _ (pol' & IH1 & IH2)]; [now exists []|].
  rewrite nth_error_map in H. destruct (nth_error ps i) as [q|] eqn:E; [|discriminate]. simpl in H. injection H as <-.
  exists (along (fst q) (snd q) (1 / 2) :: pol'). cbn [map]. rewrite IH1, halfway_fin. split; auto. constructor; auto.
  unfold at_time. rewrite nth_error_map, E. reflexivity.
Qed.
Lemma face_res_fin ps a b f o : face_res (map lift2 ps) (lift2 (a, b)) f o ->
  exists p0 rest n, face_polygon ps f (p0 :: rest) /\ vdot n n = 1 /\ corner_normal (p0 :: rest) n /\
    match o with
    | Some k => exists t x nn, c_times k = rg_single (Fin t) /\ c_pos k = vfin x /\ c_normal k = vfin nn /\ corner_meets (p0 :: rest) n p0 a b t x nn
    | None => corner_misses (p0 :: rest) n p0 a b
    end.
Proof.
  intros (pol & F & H). apply face_polygon_fin in F. destruct F as (pol' & E & F). rewrite E in H. cbn [lift2 fst snd] in H.
  destruct pol' as [|p0 rest]; [discriminate|]. apply point_polygon in H. destruct H as (n & U & C & H). exists p0, rest, n. auto.
Qed.

Lemma corners_faces_fin ps1 fs ps2 o : corners_faces (map lift2 ps1) fs (map lift2 ps2) = Ok o ->
  match o with
  | Some c => exists t x n, c_time c = Fin t /\ c_pos c = vfin x /\ c_normal c = vfin n /\ half_ahead x n (at_time ps1 t) /\
      (exists nn, (n = nn \/ n = vneg nn) /\ corner_face ps1 fs ps2 t x nn) /\ no_corner_before ps1 fs ps2 (fun t' => t' < t)
  | None => no_corner_before ps1 fs ps2 (fun _ => True)
  end.
Proof.
  intros H. pose proof (corners_faces_each _ _ _ _ H) as Each. apply corners_faces_hits in H.
  assert (Each' : forall a b f, In (a, b) ps1 -> In f fs -> exists o', face_res (map lift2 ps2) (lift2 (a, b)) f o').
  { intros a b f Ia If. apply Each; auto. now apply in_map. }
  destruct o as [c|].
  - destruct H as ((k & (pt & f & pol & Ip & If & F & Hk) & ->) & _ & M). apply in_map_iff in Ip. destruct Ip as ([a b] & <- & Ia).
    destruct (face_res_fin ps2 a b f (Some k)) as (p0 & rest & n & FP & U & CN & t & x & nn & Kt & Kx & Kn & CM); [exists pol; auto|].
    destruct (voted_fin ps1 k t x nn Kt Kx Kn) as (n' & Vt & Vx & Vn & S & HA).
    assert (Ct : c_time (voted (map lift2 ps1) k) = Fin t) by (unfold c_time; rewrite Vt; now apply rg_min_single).
    exists t, x, n'. split; auto. split; auto. split; auto. split; auto. split; [exists nn; split; auto; exists a, b, f, p0, rest, n; auto 10|].
    intros a' b' f' Ia' If'. destruct (Each' a' b' f' Ia' If') as (o' & R). pose proof R as R'. apply face_res_fin in R.
    destruct R as (p0' & rest' & m & FP' & U' & CN' & R). exists p0', rest', m. split; auto. split; auto. split; auto.
    destruct o' as [k'|]; [|now left]. destruct R as (t' & x' & nn' & Kt' & Kx' & Kn' & CM'). right. exists t', x', nn'. split; auto.
    assert (Hit : corner_hit (map lift2 ps1) fs (map lift2 ps2) k').
    { destruct R' as (pol' & F' & Hk'). exists (lift2 (a', b')), f', pol'. split; [now apply in_map|]. auto. }
    specialize (M k' Hit). unfold c_time in M, Ct. rewrite Ct, Kt', rg_min_single in M by auto.
    apply er_lt_fin_f in M. lra.
  - intros a' b' f' Ia' If'. destruct (Each' a' b' f' Ia' If') as (o' & R). pose proof R as R'. apply face_res_fin in R.
    destruct R as (p0' & rest' & m & FP' & U' & CN' & R). exists p0', rest', m. split; auto. split; auto. split; auto.
    destruct o' as [k'|]; [|now left]. exfalso. apply (H k'). destruct R' as (pol' & F' & Hk'). exists (lift2 (a', b')), f', pol'. split; [now apply in_map|]. auto.
Qed.

Lemma no_corner_weaken ps1 fs ps2 (P P' : R -> Prop) : (forall t, P t -> P' t) -> no_corner_before ps1 fs ps2 P' -> no_corner_before ps1 fs ps2 P.
Proof.
  intros W H a b f Ia If. destruct (H a b f Ia If) as (p0 & rest & n & F & U & C & [X|(t & x & nn & X & Y)]); exists p0, rest, n; split; auto; split; auto; split; auto.
  right. exists t, x, nn. split; auto.
Qed.
Lemma mesh_pairs_fin (m : mesh_c ER) pos vs s e : me_pos m = vfin pos -> me_verts m = map vfin vs ->
  mesh_point_pairs m (ofin s) (ofin e) = map lift2 (mesh_moves pos vs s e).
Proof. intros Hp Hv. unfold mesh_point_pairs, mesh_moves. rewrite Hp, Hv, !map_map. reflexivity. Qed.

(** C48. *)
Lemma mesh_mesh_fin (m1 m2 : mesh_c ER) p1 vs1 p2 vs2 s1 e1 s2 e2 o :
  me_pos m1 = vfin p1 -> me_verts m1 = map vfin vs1 -> me_pos m2 = vfin p2 -> me_verts m2 = map vfin vs2 ->
  collide (CMesh m1) (ofin s1) (ofin e1) (CMesh m2) (ofin s2) (ofin e2) = Ok o ->
  let ps1 := mesh_moves p1 vs1 s1 e1 in let ps2 := mesh_moves p2 vs2 s2 e2 in
  match o with
  | Some k => exists t x n, c_time k = Fin t /\ c_pos k = vfin x /\ c_normal k = vfin n /\
      ((half_ahead x (vneg n) (at_time ps1 t) /\ exists nn, (n = nn \/ n = vneg nn) /\ corner_face ps1 (me_faces m2) ps2 t x nn) \/
       (half_ahead x n (at_time ps2 t) /\ exists nn, (n = nn \/ n = vneg nn) /\ corner_face ps2 (me_faces m1) ps1 t x nn)) /\
      no_corner_before ps1 (me_faces m2) ps2 (fun t' => t' < t) /\ no_corner_before ps2 (me_faces m1) ps1 (fun t' => t' < t)
  | None => no_corner_before ps1 (me_faces m2) ps2 (fun _ => True) /\ no_corner_before ps2 (me_faces m1) ps1 (fun _ => True)
  end.
Proof.
  intros H1 H2 H3 H4 H ps1 ps2. cbn [collide] in H. rewrite mesh_mesh_split in H. rewrite (mesh_pairs_fin m1 p1 vs1), (mesh_pairs_fin m2 p2 vs2) in H by auto. fold ps1 ps2 in H.
  inv_ok H. inv_ok H. apply ok_inj in H. subst o. pose proof (corners_faces_hits _ _ _ _ E) as Ha. pose proof (corners_faces_hits _ _ _ _ E0) as Hb.
  apply corners_faces_fin in E. apply corners_faces_fin in E0.
  assert (NN : forall w : V, vneg (vneg w) = w) by (intros; apply vext; vunfold; ring).
  assert (TN : forall c n, c_normal c = vfin n -> c_normal (turn c) = vfin (vneg n)) by (intros c n Hc; cbn [turn c_normal]; rewrite Hc; reflexivity).
  destruct x as [ca|], x0 as [cb|]; cbn [option_map acc_consider acc_new fst snd].
  - destruct E as (t & x & n & Et & Ex & En & HA & (nn & S & CF) & NB), E0 as (t' & x' & n' & Et' & Ex' & En' & HA' & (nn' & S' & CF') & NB').
    change (c_time (turn ca)) with (c_time ca). rewrite unit_lt_inf by apply Ha. cbn [fst snd]. rewrite Et, Et'. change (@n_lt ER EReal) with er_lt.
    destruct (er_lt (Fin t') (Fin t)) eqn:L; cbn [fst]; [apply er_lt_fin in L|apply er_lt_fin_f in L].
    + exists t', x', n'. split; auto. split; auto. split; auto. split; [right; split; eauto|]. split; auto. eapply no_corner_weaken; [|exact NB]. intros; cbv beta in *; lra.
    + exists t, x, (vneg n). split; auto. split; auto. split; [now apply TN|]. split; [left; rewrite NN; split; auto; exists nn; split; auto|].
      { destruct S as [->| ->]; [now right|rewrite NN; now left]. }
      split; auto. eapply no_corner_weaken; [|exact NB']. intros; cbv beta in *; lra.
  - destruct E as (t & x & n & Et & Ex & En & HA & (nn & S & CF) & NB). change (c_time (turn ca)) with (c_time ca). rewrite unit_lt_inf by apply Ha. cbn [fst].
    exists t, x, (vneg n). split; auto. split; auto. split; [now apply TN|]. split; [left; rewrite NN; split; auto; exists nn; split; auto|].
    { destruct S as [->| ->]; [now right|rewrite NN; now left]. }
    split; auto. eapply no_corner_weaken; [|exact E0]. intros; exact I.
  - destruct E0 as (t' & x' & n' & Et' & Ex' & En' & HA' & (nn' & S' & CF') & NB'). rewrite unit_lt_inf by apply Hb. cbn [fst].
    exists t', x', n'. split; auto. split; auto. split; auto. split; [right; split; eauto|]. split; auto. eapply no_corner_weaken; [|exact E]. intros; exact I.
  - auto.
Qed.
