(** * PlaceP: an update puts the entity where it was asked to be (C74), in exact arithmetic *)
From Coq Require Import ZArith Reals Lra Psatz Bool List Permutation.
Import ListNotations.
From Verif Require Import Num Vec Res Arena RangeM Orient Colliders Collide EntityM SystemM OrderP Spec ResP ArenaP FrameP StoreP ExecP ValidP RangeP RealSpec RealV OrientP Orient2P GeomP Geom4P PhysSpec PhysP Phys3P Phys4P MassP Mass2P Mass3P Mass4P WriteBackP.
Local Open Scope R_scope.

Lemma recalc_inf_orient cols c (k : collider ER) hs e e' : aget cols c = Some k -> c_mass k = PInf -> In c hs -> recalculate_mass hs cols e = Ok e' ->
  e_orient e' = (let o := e_orient e in let off := vsub (o_off o) (o_off o) in
    mkO (vadd (o_pos o) (direction_into_world (mkO (o_pos o) (o_rot o) off) (o_off o))) (o_rot o) off).
Proof.
  intros Gk Ec Hc H. unfold recalculate_mass in H. inv_ok H. destruct x as [[fi m] v]. apply com_loop_spec in E. destruct fi.
  - rewrite andb_false_r in H. apply ok_inj in H. subst e'. exact eq_refl.
  - exfalso. destruct E as (l & L & _). clear - L Hc Gk Ec. induction L as [|c' k' hs l (G' & I') L IH]; [destruct Hc|].
    destruct Hc as [->|Hc]; [|apply IH, Hc]. rewrite Gk in G'. injection G' as <-. rewrite Ec in I'. discriminate I'.
Qed.

(** Recalculating after only the placement was changed does not move the entity. *)
Lemma recalc_placed s h i o hs e1 e' p q : reachable s -> aget (s_ents s) h = Some i -> e_orient i = ofin o -> recalculable s i o ->
  Permutation hs (e_colliders i) -> e_orient e1 = ofin (mkO p q (o_off o)) -> unit_quat q -> recalculate_mass hs (s_cols s) e1 = Ok e' ->
  e_orient e' = ofin (mkO p q (o_off o)).
Proof.
  intros R Hi Eo Hr P E1 Uq H. pose proof Hr as (Hp & Hoff).
  destruct (StoreP.recalc_total hs (s_cols s) i) as (i' & Hi').
  { intros c Hc. pose proof (reachable_Inv _ R) as I. destruct (inv_fwd _ I h i c Hi) as (k & Hk & _); [eapply Permutation_in; eauto|congruence]. }
  pose proof (recalc_stable s h i o hs i' R Hi Eo Hr P Hi') as ->.
  destruct (reachable_cached s h i R Hi) as (G & C).
  assert (U : unit_o o) by (apply unit_fin; rewrite Eo in G; exact G).
  destruct Hp as [(pt & Hp)|(c & k & Hc & Gk & Em)].
  - assert (Hp2 : forall c, In c hs -> part_in (s_cols s) c (pt c)) by (intros c Hc; apply part_in_of, Hp; eapply Permutation_in; eauto).
    destruct (recalc_finite _ _ _ _ _ _ Eo U Hp2 Hi') as (o1 & Eo1 & _ & _ & A1 & A2).
    rewrite Eo in Eo1. apply ofin_inj in Eo1. subst o1.
    assert (U1 : unit_o (mkO p q (o_off o))) by exact Uq.
    destruct (recalc_finite _ _ _ _ _ _ E1 U1 Hp2 H) as (o' & Eo' & Er & Ew & B1 & B2). cbv zeta in *.
    rewrite Eo'. f_equal. apply world_same; auto. cbn [o_off].
    destruct (Rlt_dec 0 (parts_mass (map pt hs))) as [L|L]; [rewrite (A1 L), (B1 L)|rewrite (A2 L), (B2 L)]; exact eq_refl.
  - assert (Ec : c_mass k = PInf) by (rewrite <- mass_of_c'; exact Em). unfold get_collider in Gk.
    assert (Hc2 : In c hs) by (eapply Permutation_in; [apply Permutation_sym, P|exact Hc]).
    pose proof (recalc_inf_orient _ _ _ _ _ _ Gk Ec Hc2 Hi') as T1. pose proof (recalc_inf_orient _ _ _ _ _ _ Gk Ec Hc2 H) as T2. cbv zeta in T1, T2.
    assert (Z : o_off o = mkV 0 0 0).
    { rewrite Eo in T1. assert (X := f_equal (@o_off _) T1). cbn [ofin o_off] in X. rewrite vfin_sub in X. apply vfin_inj in X. rewrite X.
      destruct (o_off o). apply vext; vunfold; ring. }
    rewrite T2, E1. cbn [ofin o_pos o_rot o_off]. rewrite Z, vfin_sub.
    change (direction_into_world (mkO (vfin p) (qfin q) (vfin (vsub (mkV 0 0 0) (mkV 0 0 0)))) (vfin (mkV 0 0 0))) with
      (vfin (direction_into_world (mkO p q (vsub (mkV 0 0 0) (mkV 0 0 0))) (mkV 0 0 0))). rewrite direction_world_form, vfin_add. cbn [o_rot]. rewrite qrot_zero.
    unfold ofin. cbn [o_pos o_rot o_off]. f_equal; [f_equal; destruct p; apply vext; vunfold; ring|]. f_equal. apply vext; vunfold; ring.
Qed.

Lemma update_placed ord s h src s' e o p r : good_order ord -> reachable s -> get_entity s h = Some e -> pe_last_orient e = ofin o ->
  pe_pos src = vfin p -> pe_rot src = vfin r ->
  ((exists pt, parts_of s e pt) \/ (exists c k, In c (pe_colliders e) /\ get_collider s c = Some k /\ mass_of k = PInf)) ->
  pe_colliders e <> [] \/ o_off o = mkV 0 0 0 ->
  update_entity ord s h src = Ok (s', true) ->
  exists e', get_entity s' h = Some e' /\ pe_pos e' = vfin p /\ pe_last_orient e' = ofin (mkO p (rexp r) (o_off o)).
Proof.
  intros Ho R He Eo Ep Er Hp Hoff H. destruct (get_internal s h e He) as (i & Hi & ->). cbn [make_pub pe_last_orient pe_colliders] in *.
  pose proof (reachable_Inv _ R) as I.
  destruct (update_entity_effect ord s h src s' true Ho I H) as (_ & _ & _ & _ & _ & _ & _ & _ & Ht).
  destruct (Ht eq_refl) as (i0 & e1 & w & e2 & e3 & hs & G1 & G2 & G3 & G4 & G5 & (a & ns & G6) & _).
  assert (i0 = i) as -> by (rewrite Hi in G1; now injection G1).
  unfold update_from in G2. destruct (n_lt (pe_own_mass src) n0); [discriminate|]. cbv zeta in G2. assert (SI : forall A (x y : A), Some x = Some y -> x = y) by (intros; congruence); apply SI in G2; assert (G2' := f_equal fst G2); cbn [fst] in G2'; clear G2; rename G2' into G2.
  assert (E1 : e_orient e1 = ofin (mkO p (rexp r) (o_off o))).
  { rewrite <- G2. cbn [e_orient]. rewrite Ep, Er, Eo, exp_fin. exact eq_refl. }
  assert (Ec : e_colliders e1 = e_colliders i) by (rewrite <- G2; exact eq_refl).
  rewrite Ec in G3.
  pose proof (recalc_placed s h i o hs e1 e2 p (rexp r) R Hi Eo (conj Hp Hoff) G3 E1 (rexp_unit r) G4) as E2.
  exists (make_pub e3). split; [unfold get_entity; now rewrite G5|]. subst e3. unfold make_pub. cbn [e_set_sleep e_orient pe_pos pe_last_orient]. rewrite E2. split; exact eq_refl.
Qed.
(** The same, with the turn described. *)
Lemma update_turned ord s h src s' e o p r : good_order ord -> reachable s -> get_entity s h = Some e -> pe_last_orient e = ofin o ->
  pe_pos src = vfin p -> pe_rot src = vfin r ->
  ((exists pt, parts_of s e pt) \/ (exists c k, In c (pe_colliders e) /\ get_collider s c = Some k /\ mass_of k = PInf)) ->
  pe_colliders e <> [] \/ o_off o = mkV 0 0 0 -> update_entity ord s h src = Ok (s', true) ->
  exists e' o', get_entity s' h = Some e' /\ pe_pos e' = vfin p /\ pe_last_orient e' = ofin o' /\ o_pos o' = p /\ o_off o' = o_off o /\ unit_o o' /\
    (2 * tiny < vlen r -> turns_by (direction_into_world o') r) /\ (vlen r <= 2 * tiny -> o_rot o' = mkQ 0 0 0 1) /\
    (vlen r <= PI -> 2 * tiny < vlen r \/ r = mkV 0 0 0 -> pe_rot e' = vfin r).
Proof.
  intros Ho R G Eo Ep Er P C H. destruct (update_placed ord s h src s' e o p r Ho R G Eo Ep Er P C H) as (e' & G' & Ep' & Eo').
  destruct (orient_new_turns p r (o_off o)) as (o' & E & A & B & U & D & F). rewrite orient_new_fin in E. apply ofin_inj in E.
  exists e', o'. rewrite <- E in *. repeat (split; [assumption|]).
  intros L1 L2. destruct (get_internal s' h e' G') as (i & _ & ->).
  cbn [make_pub pe_rot pe_last_orient] in *. rewrite Eo'. rewrite <- orient_new_fin. now apply rotation_round_trip.
Qed.
