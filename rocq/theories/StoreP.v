(** * StoreP: effects of the storage operations and the link invariant (any [Num]) *)
From Coq Require Import List Permutation Bool Arith Lia NArith.
Import ListNotations.
From Verif Require Import Num Vec Res Arena Orient Colliders Collide EntityM SystemM Spec ResP ArenaP FrameP.

Section Store.
  Context {T : Type} {N : Num T}.
  Implicit Types (s : system T) (h : handle).

  (** ** The structural invariant of every reachable system *)
  Record Inv s : Prop := {
    inv_we : awf (s_ents s);
    inv_wc : awf (s_cols s);
    inv_wg : awf (s_gens s);
    inv_nd : forall h e, aget (s_ents s) h = Some e -> NoDup (e_colliders e);
    inv_fwd : forall h e c, aget (s_ents s) h = Some e -> In c (e_colliders e) ->
      exists k, aget (s_cols s) c = Some k /\ c_entity k = Some h;
    inv_bwd : forall c k h, aget (s_cols s) c = Some k -> c_entity k = Some h ->
      exists e, aget (s_ents s) h = Some e /\ In c (e_colliders e) }.

  Lemma Inv_new : Inv system_new.
  Proof.
    split; simpl; try apply awf_anew; intros *; rewrite aget_anew; congruence.
  Qed.

  (** ** Totality of mass recalculation *)
  Lemma com_loop_total o cols hs tm cs : (forall c, In c hs -> aget cols c <> None) ->
    exists r, com_loop (T:=T) o cols hs tm cs = Ok r.
  Proof.
    revert tm cs; induction hs as [|c hs IH]; simpl; intros tm cs H; [eauto|].
    destruct (aget cols c) as [k|] eqn:E; [|exfalso; eapply H; eauto].
    destruct (n_isinf _); eauto.
  Qed.
  Lemma moi_loop_total o cols hs : (forall c, In c hs -> aget cols c <> None) ->
    exists r, moi_loop (T:=T) o cols hs = Ok r.
  Proof.
    intros H. unfold moi_loop.
    destruct (rfold_total (fun acc h => rbind (unwrap (aget cols h)) (fun c =>
      Ok (madd acc (prep_moment o (c_com c) (c_mass c) (c_moi c))))) (fun _ => True) hs) with (s := mzero (T:=T)) as (r & E & _); eauto.
    intros acc c Hc _. destruct (aget cols c) as [k|] eqn:E; [|exfalso; eapply H; eauto]. simpl. eauto.
  Qed.
  Lemma recalc_total hs cols (e : ientity T) : (forall c, In c hs -> aget cols c <> None) ->
    exists e', recalculate_mass hs cols e = Ok e'.
  Proof.
    intros H. unfold recalculate_mass. destruct (com_loop_total (e_orient e) cols hs n0 vzero H) as ([[fi tm] cs] & ->).
    cbn [rbind]. destruct ((_ <? tm)%num && negb fi).
    - destruct fi; [eauto|]. destruct (moi_loop_total (mkO (vadd (o_pos (e_orient e)) (vsub (vdivs cs tm) (o_pos (e_orient e)))) (o_rot (e_orient e))
         (vsub (o_off (e_orient e)) (direction_into_local (e_orient e) (vsub (vdivs cs tm) (o_pos (e_orient e)))))) cols hs H) as (r & ->).
      simpl. eauto.
    - destruct fi; [eauto|]. destruct (moi_loop_total (mkO (vadd (o_pos (e_orient e))
        (direction_into_world (mkO (o_pos (e_orient e)) (o_rot (e_orient e)) (vsub (o_off (e_orient e)) (o_off (e_orient e)))) (o_off (e_orient e))))
        (o_rot (e_orient e)) (vsub (o_off (e_orient e)) (o_off (e_orient e)))) cols hs H) as (r & E).
      simpl in *. rewrite E. simpl. eauto.
  Qed.

  (** ** Colliders *)
  Lemma c_entity_set c t : c_entity (c_set_entity (T:=T) c t) = t.
  Proof. destruct c; reflexivity. Qed.
  Lemma stored_new_unlinked c : c_entity (stored_new (T:=T) c) = None.
  Proof. destruct c; reflexivity. Qed.
  Lemma update_from_link (c src c' : collider T) : collider_update_from c src = UOk c' -> c_entity c' = c_entity c.
  Proof.
    destruct c, src; simpl; try congruence;
      match goal with |- (if ?b then _ else _) = _ -> _ => destruct b end; intros H; try congruence; injection H as <-; reflexivity.
  Qed.

  (** ** [add_entity] *)
  Lemma add_entity_effect s src : Inv s ->
    match entity_new_from src with
    | None => add_entity s src = Ok (s, None)
    | Some e => exists s' h, add_entity s src = Ok (s', Some h) /\ Inv s' /\
        aget (s_ents s) h = None /\ aget (s_ents s') h = Some e /\
        (forall h', h' <> h -> aget (s_ents s') h' = aget (s_ents s) h') /\
        aevo (s_ents s) (s_ents s') /\ (forall h', issued (s_ents s) h' -> h' <> h) /\ issued (s_ents s') h /\
        exists ents, s' = s_set_ents s ents
    end.
  Proof.
    intros I. unfold add_entity. destruct (entity_new_from src) as [e|] eqn:En; auto.
    destruct (ainsert_spec (s_ents s) e (inv_we _ I)) as (a & h & E & Hw & Hg & Hg' & Hn & Hs & Ho).
    exists (s_set_ents s a), h. rewrite E. simpl. split; auto.
    assert (Hc : e_colliders e = []).
    { unfold entity_new_from in En. destruct (n_lt _ _); [congruence|]. injection En as <-. reflexivity. }
    split.
    - destruct I as [I1 I2 I3 I4 I5 I6]. split; simpl; auto.
      + intros k e' H. destruct (handle_eq_dec k h) as [->|Hne].
        * assert (e' = e) by congruence. subst. rewrite Hc. constructor.
        * rewrite Ho in H by auto. eauto.
      + intros k e' c H Hin. destruct (handle_eq_dec k h) as [->|Hne].
        * assert (e' = e) by congruence. subst. rewrite Hc in Hin. destruct Hin.
        * rewrite Ho in H by auto. eauto.
      + intros c k k' H1 H2. destruct (I6 _ _ _ H1 H2) as (e' & H3 & H4). exists e'. split; auto.
        rewrite Ho; auto. congruence.
    - split; auto. split; auto. split; auto. split; [eapply aevo_ainsert; eauto|].
      destruct (ainsert_issued _ _ _ _ (inv_we _ I) E) as (Hi1 & _ & Hi2). split; auto. split; eauto.
  Qed.

  (** ** [add_collider] *)
  Lemma add_collider_effect s src : Inv s ->
    match collider_new_from src with
    | None => add_collider s src = Ok (s, None)
    | Some c => exists s' h, add_collider s src = Ok (s', Some h) /\ Inv s' /\
        aget (s_cols s) h = None /\ aget (s_cols s') h = Some c /\
        (forall h', h' <> h -> aget (s_cols s') h' = aget (s_cols s) h') /\
        aevo (s_cols s) (s_cols s') /\ (forall h', issued (s_cols s) h' -> h' <> h) /\ issued (s_cols s') h /\
        exists cols, s' = s_set_cols s cols
    end.
  Proof.
    intros I. unfold add_collider. destruct (collider_new_from src) as [c|] eqn:En; auto.
    destruct (ainsert_spec (s_cols s) c (inv_wc _ I)) as (a & h & E & Hw & Hg & Hg' & Hn & Hs & Ho).
    exists (s_set_cols s a), h. rewrite E. simpl. split; auto.
    assert (Hc : c_entity c = None).
    { unfold collider_new_from in En. destruct (collider_valid src); [|congruence]. injection En as <-. apply stored_new_unlinked. }
    split.
    - destruct I as [I1 I2 I3 I4 I5 I6]. split; simpl; auto.
      + intros k e' c' H Hin. destruct (I5 _ _ _ H Hin) as (k' & H1 & H2).
        exists k'. split; auto. rewrite Ho; auto. congruence.
      + intros c' k k' H1 H2. destruct (handle_eq_dec c' h) as [->|Hne]; [congruence|].
        rewrite Ho in H1 by auto. eauto.
    - split; auto. split; auto. split; auto. split; [eapply aevo_ainsert; eauto|].
      destruct (ainsert_issued _ _ _ _ (inv_wc _ I) E) as (Hi1 & _ & Hi2). split; auto. split; eauto.
  Qed.

  (** ** Generators *)
  Lemma add_generator_effect s g : Inv s ->
    exists s' h, add_generator s g = Ok (s', h) /\ Inv s' /\
        aget (s_gens s) h = None /\ aget (s_gens s') h = Some g /\
        (forall h', h' <> h -> aget (s_gens s') h' = aget (s_gens s) h') /\
        aevo (s_gens s) (s_gens s') /\ (forall h', issued (s_gens s) h' -> h' <> h) /\ issued (s_gens s') h /\
        exists gens, s' = s_set_gens s gens.
  Proof.
    intros I. unfold add_generator.
    destruct (ainsert_spec (s_gens s) g (inv_wg _ I)) as (a & h & E & Hw & Hg & Hg' & Hn & Hs & Ho).
    exists (s_set_gens s a), h. rewrite E. simpl. split; auto.
    split.
    - destruct I as [I1 I2 I3 I4 I5 I6]. split; simpl; auto.
    - split; auto. split; auto. split; auto. split; [eapply aevo_ainsert; eauto|].
      destruct (ainsert_issued _ _ _ _ (inv_wg _ I) E) as (Hi1 & _ & Hi2). split; auto. split; eauto.
  Qed.
  Lemma remove_generator_effect s h s' o : Inv s -> remove_generator s h = (s', o) ->
    Inv s' /\ o = aget (s_gens s) h /\ aget (s_gens s') h = None /\
    (forall h', h' <> h -> aget (s_gens s') h' = aget (s_gens s) h') /\
    aevo (s_gens s) (s_gens s') /\ (exists gens, s' = s_set_gens s gens) /\ (o = None -> s' = s).
  Proof.
    intros I. unfold remove_generator. destruct (aget (s_gens s) h) as [g|] eqn:E.
    - destruct (aremove_spec _ _ _ (inv_wg _ I) E) as (a & Ea & Hw & Hg & Hn & Ho). rewrite Ea.
      intros H. injection H as <- <-. simpl. split; [|split; [|split; [|split; [|split; [|split]]]]]; auto; try congruence.
      + destruct I. split; simpl; auto.
      + eapply aevo_aremove; eauto.
      + eauto.
    - rewrite aremove_none by auto. intros H. injection H as <- <-. split; [|split; [|split; [|split; [|split; [|split]]]]]; auto.
      + apply aevo_refl.
      + exists (s_gens s). now destruct s.
  Qed.

  (** ** [remove_collider] *)
  (** The removed collider was not linked: the only case that returns. *)
  Lemma remove_collider_effect s h : Inv s ->
    match aget (s_cols s) h with
    | None => remove_collider s h = Ok s
    | Some c =>
      match c_entity c with
      | Some _ => remove_collider s h = Panic
      | None => exists s', remove_collider s h = Ok s' /\ Inv s' /\ aget (s_cols s') h = None /\
          (forall h', h' <> h -> aget (s_cols s') h' = aget (s_cols s) h') /\
          aevo (s_cols s) (s_cols s') /\ exists cols, s' = s_set_cols s cols
      end
    end.
  Proof.
    intros I. unfold remove_collider. destruct (aget (s_cols s) h) as [c|] eqn:E.
    2:{ now rewrite aremove_none. }
    destruct (aremove_spec _ _ _ (inv_wc _ I) E) as (a & Ea & Hw & Hg & Hn & Ho). rewrite Ea.
    destruct (c_entity c) as [eh|] eqn:Ec.
    { destruct (inv_bwd _ I _ _ _ E Ec) as (e & He & _). now rewrite He. }
    exists (s_set_cols s a). split; auto. simpl. split; [|split; [|split; [|split]]]; auto.
    - destruct I as [I1 I2 I3 I4 I5 I6]. split; simpl; auto.
      + intros k e' c' H Hin. destruct (I5 _ _ _ H Hin) as (k' & H1 & H2).
        exists k'. split; auto. rewrite Ho; auto. congruence.
      + intros c' k k' H1 H2. destruct (handle_eq_dec c' h) as [->|Hne]; [congruence|].
        rewrite Ho in H1 by auto. eauto.
    - eapply aevo_aremove; eauto.
    - eauto.
  Qed.

  (** ** [remove_entity] *)
  Lemma remove_colliders_effect h hs : forall s, awf (s_cols s) -> aget (s_ents s) h = None -> NoDup hs ->
    (forall c, In c hs -> exists k, aget (s_cols s) c = Some k /\ c_entity k = Some h) ->
    exists cols, rfold (remove_collider (T:=T)) hs s = Ok (s_set_cols s cols) /\ awf cols /\ aevo (s_cols s) cols /\
      (forall c, In c hs -> aget cols c = None) /\ (forall c, ~ In c hs -> aget cols c = aget (s_cols s) c).
  Proof.
    induction hs as [|c hs IH]; intros s Hw Hd Hnd Hall; simpl.
    - exists (s_cols s). split; [now destruct s|]. split; auto. split; [apply aevo_refl|]. split; tauto.
    - inversion Hnd as [|? ? Hni Hnd']; subst.
      destruct (Hall c (or_introl eq_refl)) as (k & Hk & Hke).
      destruct (aremove_spec _ _ _ Hw Hk) as (a & Ea & Hwa & Hg & Hn & Ho).
      unfold remove_collider at 1. rewrite Ea, Hke, Hd. cbn [rbind].
      destruct (IH (s_set_cols s a)) as (cols & E & Hwc & Hev & Hin & Hout); auto.
      { intros c' Hc'. simpl. destruct (Hall c' (or_intror Hc')) as (k' & Hk' & Hke').
        exists k'. split; auto. rewrite Ho; auto. congruence. }
      exists cols. split; [rewrite E; now destruct s|]. split; auto. split.
      { eapply aevo_trans; [eapply aevo_aremove; eauto|exact Hev]. }
      split.
      + intros c' [<-|Hc']; auto. rewrite Hout by auto. exact Hn.
      + intros c' Hc'. rewrite Hout by tauto. simpl. apply Ho. intros ->. tauto.
  Qed.

  Lemma remove_entity_effect ord s h : good_order ord -> Inv s ->
    match aget (s_ents s) h with
    | None => remove_entity ord s h = Ok (s, false)
    | Some e => exists s', remove_entity ord s h = Ok (s', true) /\ Inv s' /\
        aget (s_ents s') h = None /\ (forall h', h' <> h -> aget (s_ents s') h' = aget (s_ents s) h') /\
        (forall c, In c (e_colliders e) -> aget (s_cols s') c = None) /\
        (forall c, ~ In c (e_colliders e) -> aget (s_cols s') c = aget (s_cols s) c) /\
        aevo (s_ents s) (s_ents s') /\ aevo (s_cols s) (s_cols s') /\
        exists ents cols, s' = s_set_cols (s_set_ents s ents) cols
    end.
  Proof.
    intros Hord I. unfold remove_entity. destruct (aget (s_ents s) h) as [e|] eqn:E.
    2:{ now rewrite aremove_none. }
    destruct (aremove_spec _ _ _ (inv_we _ I) E) as (a & Ea & Hw & Hg & Hn & Ho). rewrite Ea.
    assert (HP : Permutation (ord KColliders h (e_colliders e)) (e_colliders e)) by apply Hord.
    destruct (remove_colliders_effect h (ord KColliders h (e_colliders e)) (s_set_ents s a)) as (cols & Er & Hwc & Hev & Hin & Hout); auto.
    { apply (inv_wc _ I). }
    { eapply Permutation_NoDup; [symmetry; exact HP|]. eapply inv_nd; eauto. }
    { intros c Hc. apply (Permutation_in _ HP) in Hc. exact (inv_fwd _ I _ _ _ E Hc). }
    rewrite Er. cbn [rbind].
    assert (Hin' : forall c, In c (e_colliders e) -> aget cols c = None).
    { intros c Hc. apply Hin. eapply Permutation_in; [symmetry; exact HP|auto]. }
    assert (Hout' : forall c, ~ In c (e_colliders e) -> aget cols c = aget (s_cols s) c).
    { intros c Hc. rewrite Hout; auto. intros H. apply Hc. eapply Permutation_in; [exact HP|auto]. }
    eexists. split; [reflexivity|]. simpl.
    split; [|split; [|split; [|split; [|split; [|split; [|split]]]]]]; auto.
    - destruct I as [I1 I2 I3 I4 I5 I6]. split; simpl; auto.
      + intros k e' H. destruct (handle_eq_dec k h) as [->|Hne]; [congruence|]. rewrite Ho in H by auto. eauto.
      + intros k e' c H Hc. destruct (handle_eq_dec k h) as [->|Hne]; [congruence|]. rewrite Ho in H by auto.
        destruct (I5 _ _ _ H Hc) as (k' & H1 & H2). exists k'. split; auto. rewrite Hout'; auto.
        intros Hc'. destruct (I5 _ _ _ E Hc') as (k2 & H3 & H4). congruence.
      + intros c k k' H1 H2. destruct (in_dec handle_eq_dec c (e_colliders e)) as [Hc|Hc].
        * rewrite Hin' in H1; congruence.
        * rewrite Hout' in H1 by auto. destruct (I6 _ _ _ H1 H2) as (e' & H3 & H4). exists e'. split; auto.
          destruct (handle_eq_dec k' h) as [->|Hne]; [|rewrite Ho; auto]. congruence.
    - eapply aevo_aremove; eauto.
    - eauto.
  Qed.

  (** ** Linking *)
  (** The entity [e] with its collider set replaced and its mass recomputed. *)
  Definition relinked (cols : arena (collider T)) (e e' : ientity T) (set : list handle) : Prop :=
    exists hs, Permutation hs set /\ recalculate_mass hs cols (e_set_colliders e set) = Ok e'.

  Lemma relinked_frame cols e e' set : relinked cols e e' set -> exists o m i, e' = e_set_mass (e_set_colliders e set) o m i.
  Proof. intros (hs & _ & H). eapply recalc_frame; eauto. Qed.

  Lemma aget_aset_dom {A} (a : arena A) h x c : aget (aset a h x) c <> None <-> aget a c <> None.
  Proof. rewrite aget_aset_none. reflexivity. Qed.

  (** The effect in one place: [link_ents] gives the new entity store. *)
  Lemma link_collider_effect ord s ch t : good_order ord -> Inv s ->
    match aget (s_cols s) ch with
    | None => link_collider ord s ch t = Ok (s, false)
    | Some c =>
      match t with
      | Some h => aget (s_ents s) h = None -> link_collider ord s ch t = Ok (s, false)
      | None => True
      end /\
      (match t with Some h => aget (s_ents s) h <> None | None => True end ->
       exists s', link_collider ord s ch t = Ok (s', true) /\ Inv s' /\
         (exists ents, s' = s_set_cols (s_set_ents s ents) (aset (s_cols s) ch (c_set_entity c t))) /\
         aevo (s_ents s) (s_ents s') /\ ahandles (s_ents s') = ahandles (s_ents s) /\
         (* uninvolved entities are untouched *)
         (forall h, Some h <> t -> Some h <> c_entity c -> aget (s_ents s') h = aget (s_ents s) h) /\
         (* the target gains the collider *)
         (forall h e, t = Some h -> aget (s_ents s) h = Some e ->
            exists e', aget (s_ents s') h = Some e' /\ relinked (s_cols s) e e' (hinsert ch (e_colliders e))) /\
         (* the previous owner loses it *)
         (forall h e, c_entity c = Some h -> t <> Some h -> aget (s_ents s) h = Some e ->
            exists e', aget (s_ents s') h = Some e' /\
              relinked (aset (s_cols s) ch (c_set_entity c t)) e e' (hremove ch (e_colliders e))))
    end.
  Proof.
    intros Hord I. unfold link_collider. destruct (aget (s_cols s) ch) as [c|] eqn:E; auto.
    split. { destruct t as [h|]; auto. intros Hd. rewrite Hd. reflexivity. }
    intros Ht.
    set (cols' := aset (s_cols s) ch (c_set_entity c t)).
    assert (Hcols : forall k, aget cols' k = if heqb ch k then Some (c_set_entity c t) else aget (s_cols s) k).
    { intros k. unfold cols'. rewrite aget_aset, E. reflexivity. }
    (* attaching *)
    assert (Hatt : exists ents1,
      (match t with
        | None => Ok (Some (s_ents s))
        | Some h =>
          match aget (s_ents s) h with
          | None => Ok None
          | Some e =>
            let e1 := e_set_colliders e (hinsert ch (e_colliders e)) in
            rbind (recalculate_mass (ord KColliders h (e_colliders e1)) (s_cols s) e1) (fun e2 =>
            Ok (Some (aset (s_ents s) h e2)))
          end
        end) = Ok (Some ents1) /\ aevo (s_ents s) ents1 /\ ahandles ents1 = ahandles (s_ents s) /\
        (forall h, Some h <> t -> aget ents1 h = aget (s_ents s) h) /\
        (forall h e, t = Some h -> aget (s_ents s) h = Some e ->
            exists e', aget ents1 h = Some e' /\ relinked (s_cols s) e e' (hinsert ch (e_colliders e)))).
    { destruct t as [h|].
      - destruct (aget (s_ents s) h) as [e|] eqn:Ee; [|congruence].
        destruct (recalc_total (ord KColliders h (hinsert ch (e_colliders e))) (s_cols s)
                    (e_set_colliders e (hinsert ch (e_colliders e)))) as (e2 & E2).
        { intros c' Hc'. apply (Permutation_in _ (Hord _ _ _)) in Hc'. apply hinsert_in in Hc'.
          destruct Hc' as [->|Hc']; [congruence|]. destruct (inv_fwd _ I _ _ _ Ee Hc') as (k & Hk & _). congruence. }
        cbn zeta. cbn [e_colliders e_set_colliders]. rewrite E2. cbn [rbind].
        eexists. split; [reflexivity|]. split; [apply aevo_aset|]. split; [apply ahandles_aset|]. split.
        + intros k Hk. apply aget_aset_neq. congruence.
        + intros k e' Hk He'. injection Hk as <-. assert (e' = e) by congruence. subst e'.
          exists e2. split; [eapply aget_aset_eq; eauto|]. eexists. split; [|exact E2]. apply Hord.
      - exists (s_ents s). split; auto. split; [apply aevo_refl|]. split; auto. split; auto. congruence. }
    destruct Hatt as (ents1 & Eatt & Hev1 & Hh1 & Hout1 & Hin1).
    cbn zeta in Eatt. cbn zeta. rewrite Eatt. cbn [rbind]. fold cols'.
    (* facts about ents1 used for the invariant *)
    assert (Hw1 : awf ents1) by (apply Hev1, I).
    (* detaching *)
    assert (Hdet : exists s',
      (if match c_entity c, t with None, None => true | Some a, Some b => heqb a b | _, _ => false end
       then Ok (s_set_cols (s_set_ents s ents1) cols', true)
       else match c_entity c with
            | None => Ok (s_set_cols (s_set_ents s ents1) cols', true)
            | Some ph =>
              match aget ents1 ph with
              | None => Ok (s_set_cols (s_set_ents s ents1) cols', true)
              | Some p =>
                rbind (recalculate_mass (ord KColliders ph (e_colliders (e_set_colliders p (hremove ch (e_colliders p))))) cols'
                         (e_set_colliders p (hremove ch (e_colliders p)))) (fun p2 =>
                Ok (s_set_ents (s_set_cols (s_set_ents s ents1) cols') (aset ents1 ph p2), true))
              end
            end) = Ok (s', true) /\
      (exists ents, s' = s_set_cols (s_set_ents s ents) cols') /\
      aevo ents1 (s_ents s') /\ ahandles (s_ents s') = ahandles ents1 /\
      (forall h, (Some h <> c_entity c \/ t = Some h) -> aget (s_ents s') h = aget ents1 h) /\
      (forall h e, c_entity c = Some h -> t <> Some h -> aget (s_ents s) h = Some e ->
            exists e', aget (s_ents s') h = Some e' /\ relinked cols' e e' (hremove ch (e_colliders e)))).
    { destruct (c_entity c) as [ph|] eqn:Ec.
      2:{ exists (s_set_cols (s_set_ents s ents1) cols'). simpl.
          split; [destruct t; reflexivity|]. split; [eauto|]. split; [apply aevo_refl|]. split; auto. split; auto. congruence. }
      assert (Hsame : {t = Some ph} + {t <> Some ph}).
      { destruct t as [h|]; [|right; congruence]. destruct (handle_eq_dec h ph); [left|right]; congruence. }
      destruct Hsame as [->|Hne].
      { rewrite heqb_refl. eexists. split; [reflexivity|]. split; [eauto|]. simpl. split; [apply aevo_refl|].
        split; auto. split; auto. congruence. }
      replace (match t with Some b => heqb ph b | None => false end) with false
        by (destruct t; auto; symmetry; apply heqb_neq; congruence).
      destruct (inv_bwd _ I _ _ _ E Ec) as (p & Hp & Hpin).
      rewrite Hout1 by congruence. rewrite Hp.
      destruct (recalc_total (ord KColliders ph (hremove ch (e_colliders p))) cols'
                  (e_set_colliders p (hremove ch (e_colliders p)))) as (p2 & E2).
      { intros c' Hc'. apply (Permutation_in _ (Hord _ _ _)) in Hc'. apply hremove_in in Hc'. destruct Hc' as (Hc1 & Hc2).
        destruct (inv_fwd _ I _ _ _ Hp Hc2) as (k & Hk & _). rewrite Hcols, heqb_neq by congruence. congruence. }
      cbn [e_colliders e_set_colliders]. rewrite E2. cbn [rbind].
      eexists. split; [reflexivity|]. split; [eexists; reflexivity|]. simpl. split; [apply aevo_aset|].
      split; [apply ahandles_aset|]. split.
      - intros h Hh. apply aget_aset_neq. intros <-. destruct Hh; congruence.
      - intros h e Hh _ He. injection Hh as <-. assert (e = p) by congruence. subst e. exists p2. split.
        + eapply aget_aset_eq. rewrite Hout1 by congruence. exact Hp.
        + eexists. split; [|exact E2]. apply Hord. }
    destruct Hdet as (s' & Edet & (ents & Es') & Hev2 & Hh2 & Hout2 & Hprev).
    exists s'. split; [exact Edet|].
    assert (Hun : forall h, Some h <> t -> Some h <> c_entity c -> aget (s_ents s') h = aget (s_ents s) h).
    { intros h H1 H2. rewrite Hout2 by auto. apply Hout1; auto. }
    assert (Htg : forall h e, t = Some h -> aget (s_ents s) h = Some e ->
            exists e', aget (s_ents s') h = Some e' /\ relinked (s_cols s) e e' (hinsert ch (e_colliders e))).
    { intros h e Hh He. destruct (Hin1 h e Hh He) as (e' & H1 & H2). exists e'. split; auto. rewrite Hout2; auto. }
    split; [|split; [exists ents; exact Es'|split; [eapply aevo_trans; eauto|split; [congruence|auto]]]].
    (* the invariant *)
    assert (Hcs : s_cols s' = cols') by (subst s'; reflexivity).
    assert (Hgs : s_gens s' = s_gens s) by (subst s'; reflexivity).
    (* every entity's new collider set *)
    assert (Hset : forall h e', aget (s_ents s') h = Some e' ->
       exists e, aget (s_ents s) h = Some e /\ NoDup (e_colliders e') /\
         forall c', In c' (e_colliders e') <-> (if heqb ch c' then t = Some h else In c' (e_colliders e))).
    { intros h e' He'.
      assert (Hold : exists e, aget (s_ents s) h = Some e).
      { assert (Hi : In h (ahandles (s_ents s'))) by (apply ahandles_in; congruence).
        rewrite Hh2, Hh1 in Hi. apply ahandles_in in Hi. destruct (aget (s_ents s) h); eauto. congruence. }
      destruct Hold as (e & He). exists e. split; auto.
      pose proof (inv_nd _ I _ _ He) as Hnd.
      assert (Hth : {t = Some h} + {t <> Some h}).
      { destruct t as [k|]; [|right; congruence]. destruct (handle_eq_dec k h); [left|right]; congruence. }
      destruct Hth as [Hth|Hth].
      - destruct (Htg h e Hth He) as (e2 & H1 & H2). assert (e2 = e') by congruence. subst e2.
        apply relinked_frame in H2. destruct H2 as (o & m & i & ->). simpl. split; [now apply hinsert_nodup|].
        intros c'. rewrite hinsert_in. destruct (heqb_spec ch c') as [<-|Hne]; intuition congruence.
      - assert (Hch : {c_entity c = Some h} + {c_entity c <> Some h}).
        { destruct (c_entity c) as [k|]; [|right; congruence]. destruct (handle_eq_dec k h); [left|right]; congruence. }
        destruct Hch as [Hch|Hch].
        + destruct (Hprev h e Hch Hth He) as (e2 & H1 & H2). assert (e2 = e') by congruence. subst e2.
          apply relinked_frame in H2. destruct H2 as (o & m & i & ->). simpl. split; [now apply hremove_nodup|].
          intros c'. rewrite hremove_in. destruct (heqb_spec ch c') as [<-|Hne]; intuition congruence.
        + rewrite Hun in He' by congruence. assert (e' = e) by congruence. subst e'. split; auto.
          intros c'. destruct (heqb_spec ch c') as [<-|Hne]; [|reflexivity]. split; [|congruence].
          intros Hin. destruct (inv_fwd _ I _ _ _ He Hin) as (k & Hk & Hke). congruence. }
    split.
    - subst s'. apply Hev2, Hw1.
    - rewrite Hcs. apply awf_aset, I.
    - rewrite Hgs. apply I.
    - intros h e' He'. destruct (Hset h e' He') as (e & _ & H & _). exact H.
    - intros h e' c' He' Hc'. destruct (Hset h e' He') as (e & He & _ & Hs). apply Hs in Hc'.
      rewrite Hcs, Hcols. destruct (heqb ch c').
      + exists (c_set_entity c t). split; auto. rewrite c_entity_set. auto.
      + eapply inv_fwd; eauto.
    - intros c' k h Hk Hke. rewrite Hcs, Hcols in Hk.
      assert (Hal : exists e, aget (s_ents s) h = Some e /\ (if heqb ch c' then t = Some h else In c' (e_colliders e))).
      { destruct (heqb ch c').
        - injection Hk as <-. rewrite c_entity_set in Hke. subst t.
          destruct (aget (s_ents s) h) as [e|] eqn:He; [eauto|congruence].
        - destruct (inv_bwd _ I _ _ _ Hk Hke) as (e & He & Hin). eauto. }
      destruct Hal as (e & He & Hc').
      assert (Hnew : exists e', aget (s_ents s') h = Some e').
      { assert (Hi : In h (ahandles (s_ents s))) by (apply ahandles_in; congruence).
        rewrite <- Hh1, <- Hh2 in Hi. apply ahandles_in in Hi. destruct (aget (s_ents s') h); eauto. congruence. }
      destruct Hnew as (e' & He'). exists e'. split; auto. destruct (Hset h e' He') as (e0 & He0 & _ & Hs).
      assert (e0 = e) by congruence. subst e0. apply Hs. exact Hc'.
  Qed.

  (** ** Replacing entities without touching links *)
  Lemma Inv_ents s ents gens mx rec et tt dbg : Inv s ->
    arel (fun _ e e' => e_colliders e' = e_colliders e) (s_ents s) ents -> awf gens ->
    Inv (mkS ents (s_cols s) gens mx rec et tt dbg).
  Proof.
    intros [I1 I2 I3 I4 I5 I6] H Hg. split; simpl; auto.
    - apply H; auto.
    - intros h e He. destruct (arel_get_r _ _ _ _ _ H He) as (e0 & He0 & Hc). rewrite Hc. eauto.
    - intros h e c He Hin. destruct (arel_get_r _ _ _ _ _ H He) as (e0 & He0 & Hc). rewrite Hc in Hin. eauto.
    - intros c k h Hk Hke. destruct (I6 _ _ _ Hk Hke) as (e & He & Hin).
      destruct (arel_get _ _ _ _ _ H He) as (e' & He' & Hc). exists e'. split; auto. now rewrite Hc.
  Qed.

  (** ** [update_entity] *)
  Lemma update_entity_effect ord s h src s' b : good_order ord -> Inv s ->
    update_entity ord s h src = Ok (s', b) ->
    Inv s' /\ aevo (s_ents s) (s_ents s') /\ ahandles (s_ents s') = ahandles (s_ents s) /\
    (b = false <-> aget (s_ents s) h = None \/ n_lt (pe_own_mass src) n0 = true) /\
    (b = false -> s' = s) /\ s_cols s' = s_cols s /\ s_gens s' = s_gens s /\
    (forall h' e, h' <> h -> aget (s_ents s) h' = Some e -> exists e', aget (s_ents s') h' = Some e' /\ Rsleep h' e e') /\
    (b = true -> exists e e1 w e2 e3 hs, aget (s_ents s) h = Some e /\ update_from e src = Some (e1, w) /\
       Permutation hs (e_colliders e1) /\ recalculate_mass hs (s_cols s) e1 = Ok e2 /\
       aget (s_ents s') h = Some e3 /\ Rsleep h e2 e3 /\ (w = false -> e3 = e2)).
  Proof.
    intros Hord I H. unfold update_entity in H. destruct (aget (s_ents s) h) as [e|] eqn:E.
    2:{ inv_ok H. subst. split; auto. split; [apply aevo_refl|]. split; auto. split; [tauto|]. split; auto. split; auto. split; auto.
        split; [|congruence]. intros h' e Hne He. exists e. split; auto. apply Rsleep_refl. }
    destruct (update_from e src) as [[e1 w]|] eqn:Eu.
    2:{ inv_ok H. subst. split; auto. split; [apply aevo_refl|]. split; auto. split.
        { unfold update_from in Eu. destruct (n_lt (pe_own_mass src) n0); [tauto|congruence]. }
        split; auto. split; auto. split; auto.
        split; [|congruence]. intros h' e' Hne He. exists e'. split; auto. apply Rsleep_refl. }
    inv_ok H.
    assert (Hm : n_lt (pe_own_mass src) n0 = false).
    { unfold update_from in Eu. destruct (n_lt (pe_own_mass src) n0); [congruence|auto]. }
    assert (Hcol : e_colliders x = e_colliders e).
    { apply recalc_frame in E0. destruct E0 as (o & m & i & ->). unfold update_from in Eu.
      rewrite Hm in Eu. injection Eu as <- _. reflexivity. }
    assert (A1 : arel (fun _ e e' => e_colliders e' = e_colliders e) (s_ents s) (aset (s_ents s) h x)).
    { eapply arel_aset; eauto. }
    assert (Hget : aget (aset (s_ents s) h x) h = Some x) by (eapply aget_aset_eq; eauto).
    destruct w.
    - inv_ok H. inv_ok H. subst b s'. simpl in *. apply wake_up_frame in E1.
      assert (A2 : arel (fun _ e e' => e_colliders e' = e_colliders e) (s_ents s) (fst x0)).
      { eapply arel_trans; [|exact A1|]. - intros; congruence.
        - eapply arel_impl; [|exact E1]. intros k y z (a & ns & ->). reflexivity. }
      split; [|split; [|split; [|split; [|split; [|split; [|split; [|split]]]]]]]; auto.
      + exact (Inv_ents s _ _ _ _ _ _ _ I ltac:(eassumption) (inv_wg _ I)).
      + apply A2.
      + apply A2.
      + split; [congruence|]. intros [?|?]; congruence.
      + congruence.
      + intros h' e' Hne He'. destruct (arel_get _ _ _ h' e' E1) as (e'' & H1 & H2).
        { rewrite aget_aset_neq; auto. } eauto.
      + intros _. destruct (arel_get _ _ _ h x E1 Hget) as (e3 & H1 & H2).
        exists e, e1, true, x, e3, (ord KColliders h (e_colliders e1)). split; auto. split; auto. split; [apply Hord|]. split; auto. split; auto. split; auto. congruence.
    - inv_ok H. subst b s'. simpl in *.
      split; [|split; [|split; [|split; [|split; [|split; [|split; [|split]]]]]]]; auto.
      + exact (Inv_ents s _ _ _ _ _ _ _ I ltac:(eassumption) (inv_wg _ I)).
      + apply A1.
      + apply A1.
      + split; [congruence|]. intros [?|?]; congruence.
      + congruence.
      + intros h' e' Hne He'. exists e'. rewrite aget_aset_neq by auto. split; auto. apply Rsleep_refl.
      + intros _. exists e, e1, false, x, x, (ord KColliders h (e_colliders e1)). split; auto. split; auto. split; [apply Hord|]. split; auto. split; auto. split; auto. apply Rsleep_refl.
  Qed.

  (** ** [update_collider] *)
  Lemma update_collider_effect ord s h src : good_order ord -> Inv s ->
    match aget (s_cols s) h with
    | None => update_collider ord s h src = Ok (s, false)
    | Some c =>
      match collider_update_from c src with
      | UMismatch => update_collider ord s h src = Ok (s, false)
      | u =>
        let cols := match u with UOk c' => aset (s_cols s) h c' | _ => s_cols s end in
        exists s', update_collider ord s h src = Ok (s', match u with UOk _ => true | _ => false end) /\ Inv s' /\
          (exists ents, s' = s_set_ents (s_set_cols s cols) ents) /\
          aevo (s_ents s) (s_ents s') /\ aevo (s_cols s) (s_cols s') /\ ahandles (s_ents s') = ahandles (s_ents s) /\
          (forall k, Some k <> c_entity c -> aget (s_ents s') k = aget (s_ents s) k) /\
          (forall k e, c_entity c = Some k -> aget (s_ents s) k = Some e ->
             exists e', aget (s_ents s') k = Some e' /\ relinked cols e e' (e_colliders e))
      end
    end.
  Proof.
    intros Hord I. unfold update_collider. destruct (aget (s_cols s) h) as [c|] eqn:E; auto.
    assert (G : forall cols (b : bool), awf cols -> aevo (s_cols s) cols ->
      (forall k, match aget (s_cols s) k, aget cols k with Some x, Some y => c_entity y = c_entity x | None, None => True | _, _ => False end) ->
      exists s', (match c_entity c with
        | Some eh =>
          match aget (s_ents s) eh with
          | Some e =>
            rbind (recalculate_mass (ord KColliders eh (e_colliders e)) cols e) (fun e' =>
            Ok (s_set_ents (s_set_cols s cols) (aset (s_ents s) eh e'), b))
          | None => Ok (s_set_cols s cols, b)
          end
        | None => Ok (s_set_cols s cols, b)
        end) = Ok (s', b) /\ Inv s' /\
          (exists ents, s' = s_set_ents (s_set_cols s cols) ents) /\
          aevo (s_ents s) (s_ents s') /\ aevo (s_cols s) (s_cols s') /\ ahandles (s_ents s') = ahandles (s_ents s) /\
          (forall k, Some k <> c_entity c -> aget (s_ents s') k = aget (s_ents s) k) /\
          (forall k e, c_entity c = Some k -> aget (s_ents s) k = Some e ->
             exists e', aget (s_ents s') k = Some e' /\ relinked cols e e' (e_colliders e))).
    { intros cols b Hwc Hev Hlink.
      assert (Iold : Inv (s_set_cols s cols)).
      { destruct I as [I1 I2 I3 I4 I5 I6]. split; simpl; auto.
        - intros k e c' He Hin. destruct (I5 _ _ _ He Hin) as (y & Hy & Hye). specialize (Hlink c'). rewrite Hy in Hlink.
          destruct (aget cols c') as [z|]; [|tauto]. exists z. split; auto. congruence.
        - intros c' y k Hy Hye. specialize (Hlink c'). rewrite Hy in Hlink.
          destruct (aget (s_cols s) c') as [z|] eqn:Ez; [|tauto]. apply (I6 c' z); auto. congruence. }
      destruct (c_entity c) as [eh|] eqn:Ec.
      2:{ exists (s_set_cols s cols). split; auto. split; auto. split; [exists (s_ents s); now destruct s|].
          split; [apply aevo_refl|]. split; auto. split; auto. split; auto. congruence. }
      destruct (inv_bwd _ I _ _ _ E Ec) as (e & He & Hin). rewrite He.
      destruct (recalc_total (ord KColliders eh (e_colliders e)) cols e) as (e' & Er).
      { intros c' Hc'. apply (Permutation_in _ (Hord _ _ _)) in Hc'. destruct (inv_fwd _ I _ _ _ He Hc') as (k & Hk & _).
        specialize (Hlink c'). rewrite Hk in Hlink. destruct (aget cols c'); [congruence|tauto]. }
      rewrite Er. cbn [rbind]. eexists. split; [reflexivity|]. simpl.
      assert (A1 : arel (fun _ e e' => e_colliders e' = e_colliders e) (s_ents s) (aset (s_ents s) eh e')).
      { eapply arel_aset; eauto. apply recalc_frame in Er. destruct Er as (o & m & i & ->). reflexivity. }
      split. { exact (Inv_ents (s_set_cols s cols) _ _ _ _ _ _ _ Iold A1 (inv_wg _ I)). }
      split; [eexists; reflexivity|]. split; [apply A1|]. split; auto. split; [apply A1|]. split.
      - intros k Hk. apply aget_aset_neq. congruence.
      - intros k e0 Hk He0. injection Hk as <-. assert (e0 = e) by congruence. subst e0. exists e'. split; [eapply aget_aset_eq; eauto|].
        exists (ord KColliders eh (e_colliders e)). split; [apply Hord|].
        replace (e_set_colliders e (e_colliders e)) with e by (now destruct e). exact Er. }
    destruct (collider_update_from c src) as [| |c'] eqn:Eu; auto.
    - apply G; [apply I|apply aevo_refl|]. intros k. destruct (aget (s_cols s) k); auto.
    - apply G; [apply awf_aset, I|apply aevo_aset|]. intros k. rewrite aget_aset, E.
      destruct (heqb_spec h k) as [<-|Hne].
      + rewrite E. eapply update_from_link; eauto.
      + destruct (aget (s_cols s) k); auto.
  Qed.

  (** ** [step] *)
  Lemma step_Inv ord s dt s' : Inv s -> step ord s dt = Ok s' -> Inv s'.
  Proof.
    intros I H. apply step_frame in H. destruct H as (H1 & H2 & H3 & _). destruct s'; simpl in *. subst.
    apply (Inv_ents s); auto.
    - eapply arel_impl; [|exact H1]. intros k e e' Hr. apply Hr.
    - apply H3, I.
  Qed.

  (** ** One API call preserves the invariant, and evolves all three arenas *)
  Record sys_evo s s' : Prop := {
    se_inv : Inv s';
    se_ents : aevo (s_ents s) (s_ents s');
    se_cols : aevo (s_cols s) (s_cols s');
    se_gens : aevo (s_gens s) (s_gens s') }.

  Lemma exec_evo ord s o s' a : good_order ord -> Inv s -> exec ord s o = Ok (s', a) -> sys_evo s s'.
  Proof.
    intros Hord I H. destruct o; simpl in H.
    - pose proof (add_entity_effect s src I) as P. destruct (entity_new_from src).
      + destruct P as (s1 & h & E & I1 & _ & _ & _ & Ev & _ & _ & (ents & ->)). rewrite E in H. simpl in H. inv_ok H. subst.
        split; auto; apply aevo_refl.
      + rewrite P in H. simpl in H. inv_ok H. subst. split; auto; apply aevo_refl.
    - pose proof (remove_entity_effect ord s h Hord I) as P. destruct (aget (s_ents s) h).
      + destruct P as (s1 & E & I1 & _ & _ & _ & _ & Ev1 & Ev2 & (ents & cols & ->)). rewrite E in H. simpl in H. inv_ok H. subst.
        split; auto; apply aevo_refl.
      + rewrite P in H. simpl in H. inv_ok H. subst. split; auto; apply aevo_refl.
    - inv_ok H. inv_ok H. subst. destruct x as [s1 b]. apply update_entity_effect in E; auto.
      destruct E as (I1 & Ev & _ & _ & _ & Hc & Hg & _). simpl. split; auto; rewrite ?Hc, ?Hg; apply aevo_refl.
    - pose proof (add_collider_effect s src I) as P. destruct (collider_new_from src).
      + destruct P as (s1 & h & E & I1 & _ & _ & _ & Ev & _ & _ & (ents & ->)). rewrite E in H. simpl in H. inv_ok H. subst.
        split; auto; apply aevo_refl.
      + rewrite P in H. simpl in H. inv_ok H. subst. split; auto; apply aevo_refl.
    - pose proof (remove_collider_effect s h I) as P. destruct (aget (s_cols s) h) as [c|].
      + destruct (c_entity c).
        * rewrite P in H. simpl in H. congruence.
        * destruct P as (s1 & E & I1 & _ & _ & Ev & (cols & ->)). rewrite E in H. simpl in H. inv_ok H. subst.
          split; auto; apply aevo_refl.
      + rewrite P in H. simpl in H. inv_ok H. subst. split; auto; apply aevo_refl.
    - pose proof (update_collider_effect ord s h src Hord I) as P. destruct (aget (s_cols s) h) as [c|].
      + destruct (collider_update_from c src).
        * rewrite P in H. simpl in H. inv_ok H. subst. split; auto; apply aevo_refl.
        * destruct P as (s1 & E & I1 & (ents & ->) & Ev1 & Ev2 & _). rewrite E in H. simpl in H. inv_ok H. subst.
          split; auto; apply aevo_refl.
        * destruct P as (s1 & E & I1 & (ents & ->) & Ev1 & Ev2 & _). rewrite E in H. simpl in H. inv_ok H. subst.
          split; auto; apply aevo_refl.
      + rewrite P in H. simpl in H. inv_ok H. subst. split; auto; apply aevo_refl.
    - pose proof (link_collider_effect ord s ch target Hord I) as P. destruct (aget (s_cols s) ch) as [c|].
      + destruct P as (P1 & P2).
        assert (D : (match target with Some h => aget (s_ents s) h <> None | None => True end) \/
                    (exists h, target = Some h /\ aget (s_ents s) h = None)).
        { destruct target as [h|]; auto. destruct (aget (s_ents s) h) eqn:Eh; [left; congruence|right; eauto]. }
        destruct D as [D|(h & -> & D)].
        * destruct (P2 D) as (s1 & E & I1 & (ents & ->) & Ev & _). rewrite E in H. simpl in H. inv_ok H. subst.
          split; auto; simpl; try apply aevo_refl. apply aevo_aset.
        * rewrite (P1 D) in H. simpl in H. inv_ok H. subst. split; auto; apply aevo_refl.
      + rewrite P in H. simpl in H. inv_ok H. subst. split; auto; apply aevo_refl.
    - destruct (add_generator_effect s g I) as (s1 & h & E & I1 & _ & _ & _ & Ev & _ & _ & (gens & ->)).
      rewrite E in H. simpl in H. inv_ok H. subst. split; auto; apply aevo_refl.
    - destruct (remove_generator s h) as [s1 og] eqn:E. simpl in H. inv_ok H. subst.
      apply remove_generator_effect in E; auto. destruct E as (I1 & _ & _ & _ & Ev & (gens & ->) & _).
      split; auto; apply aevo_refl.
    - inv_ok H. inv_ok H. subst. pose proof (step_Inv _ _ _ _ I E). apply step_frame in E.
      destruct E as (E1 & E2 & E3 & _). split; auto.
      + apply E1. + rewrite E2. apply aevo_refl. + apply E3.
    - inv_ok H. subst. destruct I. split; [split| | |]; simpl; auto; apply aevo_refl.
    - inv_ok H. subst. destruct I. split; [split| | |]; simpl; auto; apply aevo_refl.
    - inv_ok H. subst. destruct I. split; [split| | |]; simpl; auto; apply aevo_refl.
  Qed.

  Lemma run_cons ord o hist s s' ans : run ((ord, o) :: hist) s = Ok (s', ans) ->
    exists s1 a ans', exec ord s o = Ok (s1, a) /\ run hist s1 = Ok (s', ans') /\ ans = a :: ans'.
  Proof.
    simpl. destruct (exec ord s o) as [[s1 a]| |] eqn:E; try congruence.
    destruct (run hist s1) as [[s2 l]| |] eqn:E2; try congruence. intros H. injection H as <- <-. eauto 10.
  Qed.
  Lemma run_app (h1 h2 : list (call T)) s s' ans : run (h1 ++ h2) s = Ok (s', ans) <->
    exists s1 a1 a2, run h1 s = Ok (s1, a1) /\ run h2 s1 = Ok (s', a2) /\ ans = a1 ++ a2.
  Proof.
    revert s ans; induction h1 as [|[ord o] h1 IH]; intros s ans.
    - simpl. split.
      + intros H. eexists s, [], ans. auto.
      + intros (s1 & a1 & a2 & H1 & H2 & ->). injection H1 as <- <-. exact H2.
    - split.
      + intros H. apply run_cons in H. destruct H as (s1 & a & ans' & E & H & ->).
        apply IH in H. destruct H as (s2 & a1 & a2 & H1 & H2 & ->). exists s2, (a :: a1), a2.
        simpl. rewrite E, H1. auto.
      + intros (s1 & a1 & a2 & H1 & H2 & ->). apply run_cons in H1. destruct H1 as (s2 & a & a1' & E & H1 & ->).
        simpl. rewrite E. destruct (IH s2 (a1' ++ a2)) as (_ & IH2). rewrite IH2; eauto 10.
  Qed.

  Lemma run_evo hist s s' ans : Forall (fun c => good_order (fst c)) hist -> Inv s -> run hist s = Ok (s', ans) ->
    sys_evo s s'.
  Proof.
    revert s ans; induction hist as [|[ord o] hist IH]; intros s ans HF I H.
    - simpl in H. injection H as <- _. split; auto; apply aevo_refl.
    - apply run_cons in H. destruct H as (s1 & a & ans' & E & H & ->). inversion HF; subst.
      apply exec_evo in E; auto. destruct E as [I1 A1 A2 A3]. destruct (IH s1 ans') as [I2 B1 B2 B3]; auto.
      split; auto; eapply aevo_trans; eauto.
  Qed.

  Lemma call_ok_orders hist : Forall (call_ok (T:=T)) hist -> Forall (fun c => good_order (fst c)) hist.
  Proof. apply Forall_impl. intros c H. apply H. Qed.
  Lemma follows_evo s s' : Inv s -> follows s s' -> sys_evo s s'.
  Proof. intros I (hist & ans & HF & H). apply call_ok_orders in HF. eapply run_evo; eauto. Qed.
  Lemma reachable_Inv s : reachable s -> Inv s.
  Proof. intros H. apply follows_evo in H; [apply H|apply Inv_new]. Qed.
  Lemma follows_refl s : follows s s.
  Proof. exists [], []. split; auto. Qed.
  Lemma follows_trans a b c : follows a b -> follows b c -> follows a c.
  Proof.
    intros (h1 & a1 & F1 & R1) (h2 & a2 & F2 & R2). exists (h1 ++ h2), (a1 ++ a2). split; [now apply Forall_app|].
    apply run_app. eauto 10.
  Qed.
  Lemma follows_exec ord s o s' a : call_ok (ord, o) -> exec ord s o = Ok (s', a) -> follows s s'.
  Proof. intros Hc H. exists [(ord, o)], [a]. split; auto. simpl. now rewrite H. Qed.

  (** A property preserved by every call holds in every reachable state. *)
  Lemma reachable_ind (P : system T -> Prop) :
    P system_new ->
    (forall ord s o s' a, call_ok (ord, o) -> Inv s -> P s -> exec ord s o = Ok (s', a) -> P s') ->
    forall s, reachable s -> P s.
  Proof.
    intros H0 HS s (hist & ans & HF & H).
    assert (G : forall hist s0 ans s, Forall call_ok hist -> Inv s0 -> P s0 -> run hist s0 = Ok (s, ans) -> P s).
    { clear - HS. induction hist as [|[ord o] hist IH]; intros s0 ans s HF I H0 H.
      - simpl in H. congruence.
      - apply run_cons in H. destruct H as (s1 & a & ans' & E & H & ->). inversion HF; subst.
        eapply IH; [| | |exact H]; eauto. apply exec_evo in E; auto. apply E. match goal with H : call_ok _ |- _ => apply H end. }
    eapply G; eauto. apply Inv_new.
  Qed.
End Store.
