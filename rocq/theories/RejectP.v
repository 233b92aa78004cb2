(** * RejectP: rejected calls (C07) *)
From Coq Require Import List Permutation Reals Lra.
Import ListNotations.
From Verif Require Import Num Vec Res Arena Orient Colliders Collide EntityM SystemM OrderP Spec ResP ArenaP StoreP Store2P RealSpec RealV OrientP PhysSpec PhysP Mass3P Mass4P WriteBackP Examples RealEx RangeP.

(** A value of another kind is not invalid but a mismatch. *)
Lemma other_kind {T} {N : Num T} (c src : collider T) : ~ kind_same c src -> collider_update_from c src <> UInvalid.
Proof. destruct c, src; simpl; intros H; try discriminate; tauto. Qed.
Lemma rejected_other_kind {T} {N : Num T} ord (s : system T) o s' : good_order ord -> reachable s ->
  match o with
  | OAddEntity _ | OAddCollider _ => exec ord s o = Ok (s', AHandle None)
  | ORemoveEntity _ | OUpdateEntity _ _ | OLinkCollider _ _ => exec ord s o = Ok (s', ABool false)
  | OUpdateCollider h src => exec ord s o = Ok (s', ABool false) /\ (forall c, get_collider s h = Some c -> ~ kind_same c src)
  | ORemoveGenerator _ => exec ord s o = Ok (s', AGen None)
  | _ => False
  end -> s' = s.
Proof.
  intros Ho R H. apply (rejected_no_effect ord s o s' Ho R). destruct o; try exact H. destruct H as (H & K). split; [exact H|]. intros c Hc. apply other_kind. now apply K.
Qed.
(** In exact arithmetic the recomputation gives what was there. *)
Lemma rejected_exact ord (s : system ER) h src s' : good_order ord -> reachable s -> update_collider ord s h src = Ok (s', false) ->
  (forall k e, owner s h = Some k -> get_entity s k = Some e -> (exists o, pe_last_orient e = ofin o) /\
     ((exists pt, parts_of s e pt) \/ (exists c u, In c (pe_colliders e) /\ get_collider s c = Some u /\ mass_of u = PInf))) ->
  s' = s.
Proof.
  intros Ho R H F. unfold update_collider in H. unfold owner, get_collider in F. destruct (aget (s_cols s) h) as [c|] eqn:Ec; [|inversion H; reflexivity]. cbv zeta in H.
  assert (Same : s_set_cols s (s_cols s) = s) by now destruct s.
  destruct (collider_update_from c src) as [ | |c'].
  - inversion H. reflexivity.
  - rewrite Same in H. destruct (c_entity c) as [k|] eqn:Eo; [|inversion H; reflexivity].
    destruct (inv_bwd _ (reachable_Inv _ R) h c k Ec Eo) as (e & Ek & He). rewrite Ek in H.
    destruct (recalculate_mass (ord KColliders k (e_colliders e)) (s_cols s) e) as [e'| |] eqn:Er; cbn [rbind] in H; try discriminate.
    specialize (F k (make_pub e) eq_refl). unfold get_entity in F. rewrite Ek in F. destruct (F eq_refl) as ((o & Oo) & P).
    assert (E : e' = e).
    { refine (recalc_stable s k e o _ e' R Ek Oo _ (Ho _ _ _) Er). split; [exact P|]. left. intros Z. rewrite Z in He. destruct He. }
    subst e'. rewrite (aset_same _ _ _ Ek) in H. inversion H. now destruct s.
  - exfalso. destruct (c_entity c) as [k|]; [|discriminate]. destruct (aget (s_ents s) k); [|discriminate]. destruct (recalculate_mass _ _ _); discriminate.
Qed.
(** The ball of RealEx, given a radius of nothing. *)
Lemma ball_rejects : exists (s : system ER) h k e o pt, reachable s /\ owner s h = Some k /\ get_entity s k = Some e /\ pe_last_orient e = ofin o /\ parts_of s e pt /\
  update_collider in_order s h (CSphere (sphere_new n0)) = Ok (s, false) /\ exists c, get_collider s h = Some c /\ kind_same c (CSphere (sphere_new n0)).
Proof.
  destruct ball_facts as (e & o & He & R & G & Eo & _ & Ec & Hp & _). set (s := ball_state e (Some (hd 0))) in *.
  exists s, (hd 0), (hd 0), (make_pub e), o, (fun _ => ball_part). split; [exact R|]. split; [exact eq_refl|]. split; [exact G|]. split; [exact Eo|]. split; [exact Hp|].
  split; [|eexists; split; [exact eq_refl|exact I]].
  assert (V : sphere_valid (sphere_new (n0 : ER)) = false).
  { unfold sphere_valid. cbn [sphere_new sp_radius]. replace (MINIMUM_RADIUS <? n0)%num with false; [exact eq_refl|].
    unfold MINIMUM_RADIUS. rewrite fin_0. change (@n_lt ER EReal) with er_lt. change (n_frac 1 20) with (Fin (1 / 20)).
    symmetry. apply Bool.not_true_is_false. intros Z. apply er_lt_fin in Z. lra. }
  assert (X : exists s', update_collider in_order s (hd 0) (CSphere (sphere_new n0)) = Ok (s', false)).
  { unfold update_collider. change (aget (s_cols s) (hd 0)) with (Some (ball_collider (Some (hd 0)))). cbv zeta. unfold ball_collider at 1. cbn [collider_update_from]. rewrite V.
    change (c_entity (ball_collider (Some (hd 0)))) with (Some (hd 0)). change (aget (s_ents s) (hd 0)) with (Some e).
    assert (Y : exists e', recalculate_mass (in_order KColliders (hd 0) (e_colliders e)) (s_cols s) e = Ok e').
    { apply recalc_total. unfold in_order. rewrite Ec. intros c [<-|[]]. discriminate. }
    destruct Y as (e' & Y). eexists. exact (f_equal (fun r => rbind r _) Y). }
  destruct X as (s' & X). rewrite X. f_equal. f_equal. refine (rejected_exact in_order s (hd 0) _ s' in_order_good R X _).
  intros k e' Ok' Ge. assert (k = hd 0) by (change (Some (hd 0) = Some k) in Ok'; congruence). subst k. rewrite G in Ge. assert (e' = make_pub e) by congruence. subst e'.
  split; [exists o; exact Eo|left; exists (fun _ => ball_part); exact Hp].
Qed.
