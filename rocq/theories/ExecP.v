(** * ExecP: what one API call can do to one collider and to one entity (any [Num]) *)
From Coq Require Import List Permutation Bool Arith Lia.
Import ListNotations.
From Verif Require Import Num Vec Res Arena Orient Colliders Collide EntityM SystemM Spec ResP ArenaP FrameP StoreP.

Section Exec.
  Context {T : Type} {N : Num T}.
  Implicit Types (s : system T) (h : handle) (e : ientity T).

  (** Mass recalculation only looks at mass, centre of mass and inertia of the colliders. *)
  Definition same_body (o o' : option (collider T)) : Prop :=
    match o, o' with
    | Some c, Some c' => c_mass c' = c_mass c /\ c_com c' = c_com c /\ c_moi c' = c_moi c
    | None, None => True
    | _, _ => False
    end.
  Lemma same_body_refl o : same_body o o.
  Proof. destruct o; simpl; auto. Qed.
  Lemma same_body_link c t : same_body (Some c) (Some (c_set_entity c t)).
  Proof. destruct c; simpl; auto. Qed.

  Lemma com_loop_ext o cols cols' hs : (forall h, In h hs -> same_body (aget cols h) (aget cols' h)) ->
    forall m v, com_loop (T:=T) o cols hs m v = com_loop o cols' hs m v.
  Proof.
    induction hs as [|h hs IH]; intros H m v; simpl; auto.
    pose proof (H h (or_introl eq_refl)) as Hh. destruct (aget cols h), (aget cols' h); simpl in Hh; try tauto.
    destruct Hh as (-> & -> & _). destruct (n_isinf _); auto. apply IH. intros; apply H; now right.
  Qed.
  Lemma moi_loop_ext o cols cols' hs : (forall h, In h hs -> same_body (aget cols h) (aget cols' h)) ->
    moi_loop (T:=T) o cols hs = moi_loop o cols' hs.
  Proof.
    unfold moi_loop. generalize (mzero (T:=T)). induction hs as [|h hs IH]; intros acc H; simpl; auto.
    pose proof (H h (or_introl eq_refl)) as Hh. destruct (aget cols h), (aget cols' h); simpl in Hh; try tauto; simpl; auto.
    destruct Hh as (-> & -> & ->). apply IH. intros; apply H; now right.
  Qed.
  Lemma recalc_ext cols cols' hs e : (forall h, In h hs -> same_body (aget cols h) (aget cols' h)) ->
    recalculate_mass (T:=T) hs cols e = recalculate_mass hs cols' e.
  Proof.
    intros H. unfold recalculate_mass. rewrite (com_loop_ext _ _ _ _ H). destruct (com_loop _ _ _ _ _) as [[[fi m] v]| |]; simpl; auto.
    destruct ((_ <? m)%num && negb fi); destruct fi; auto; now rewrite (moi_loop_ext _ _ _ _ H).
  Qed.
  Lemma relinked_ext cols cols' e e' set : (forall h, In h set -> same_body (aget cols h) (aget cols' h)) ->
    relinked cols e e' set -> relinked cols' e e' set.
  Proof.
    intros H (hs & HP & E). exists hs. split; auto. rewrite <- E. symmetry. apply recalc_ext.
    intros h Hh. apply H. eapply Permutation_in; eauto.
  Qed.


  (** One collider. *)
  Lemma exec_collider ord s o s' a h c' : good_order ord -> Inv s -> exec ord s o = Ok (s', a) ->
    aget (s_cols s') h = Some c' ->
    (exists src, o = OAddCollider src /\ collider_valid src = true /\ c' = stored_new src /\ aget (s_cols s) h = None) \/
    (exists c, aget (s_cols s) h = Some c /\
       (c' = c \/ (exists t, o = OLinkCollider h t /\ c' = c_set_entity c t) \/
        (exists src, o = OUpdateCollider h src /\ collider_update_from c src = UOk c'))).
  Proof.
    intros Hord I H Hc. destruct o; simpl in H.
    - right. pose proof (add_entity_effect s src I) as P. destruct (entity_new_from src).
      + destruct P as (s1 & k & E & _ & _ & _ & _ & _ & _ & _ & (ents & ->)). rewrite E in H. simpl in H. inv_ok H. subst. eauto.
      + rewrite P in H. simpl in H. inv_ok H. subst. eauto.
    - right. pose proof (remove_entity_effect ord s h0 Hord I) as P. destruct (aget (s_ents s) h0) as [e|].
      + destruct P as (s1 & E & _ & _ & _ & Hin & Hout & _). rewrite E in H. simpl in H. inv_ok H. subst.
        destruct (in_dec handle_eq_dec h (e_colliders e)) as [Hi|Hi]; [rewrite Hin in Hc; congruence|].
        rewrite Hout in Hc by auto. eauto.
      + rewrite P in H. simpl in H. inv_ok H. subst. eauto.
    - right. inv_ok H. inv_ok H. subst. destruct x as [s1 b]. apply update_entity_effect in E; auto.
      destruct E as (_ & _ & _ & _ & _ & Hcs & _). simpl in Hc. rewrite Hcs in Hc. eauto.
    - pose proof (add_collider_effect s src I) as P. unfold collider_new_from in P. destruct (collider_valid src) eqn:V.
      + destruct P as (s1 & k & E & _ & Hn & Hs & Ho & _). rewrite E in H. simpl in H. inv_ok H. subst.
        destruct (handle_eq_dec h k) as [->|Hne].
        * left. exists src. rewrite Hs in Hc. injection Hc as <-. auto.
        * right. rewrite Ho in Hc by auto. eauto.
      + rewrite P in H. simpl in H. inv_ok H. subst. eauto.
    - right. pose proof (remove_collider_effect s h0 I) as P. destruct (aget (s_cols s) h0) as [c|].
      + destruct (c_entity c); [rewrite P in H; discriminate|].
        destruct P as (s1 & E & _ & Hn & Ho & _). rewrite E in H. simpl in H. inv_ok H. subst.
        destruct (handle_eq_dec h h0) as [->|Hne]; [congruence|]. rewrite Ho in Hc by auto. eauto.
      + rewrite P in H. simpl in H. inv_ok H. subst. eauto.
    - right. pose proof (update_collider_effect ord s h0 src Hord I) as P. destruct (aget (s_cols s) h0) as [c|] eqn:E0.
      + destruct (collider_update_from c src) as [| |c2] eqn:U.
        * rewrite P in H. simpl in H. inv_ok H. subst. eauto.
        * destruct P as (s1 & E & _ & (ents & ->) & _). rewrite E in H. simpl in H. inv_ok H. subst. eauto.
        * destruct P as (s1 & E & _ & (ents & ->) & _). rewrite E in H. simpl in H. inv_ok H. subst. simpl in Hc.
          rewrite aget_aset, E0 in Hc. destruct (heqb_spec h0 h) as [<-|Hne]; [|eauto].
          injection Hc as <-. exists c. split; auto. right. right. eauto.
      + rewrite P in H. simpl in H. inv_ok H. subst. eauto.
    - right. pose proof (link_collider_effect ord s ch target Hord I) as P. destruct (aget (s_cols s) ch) as [c|] eqn:E0.
      + destruct P as (P1 & P2).
        assert (D : (match target with Some h => aget (s_ents s) h <> None | None => True end) \/
                    (exists h, target = Some h /\ aget (s_ents s) h = None)).
        { destruct target as [k|]; auto. destruct (aget (s_ents s) k) eqn:Eh; [left; congruence|right; eauto]. }
        destruct D as [D|(k & -> & D)].
        * destruct (P2 D) as (s1 & E & _ & (ents & ->) & _). rewrite E in H. simpl in H. inv_ok H. subst. simpl in Hc.
          rewrite aget_aset, E0 in Hc. destruct (heqb_spec ch h) as [<-|Hne]; [|eauto].
          injection Hc as <-. exists c. split; auto. right. left. eauto.
        * rewrite (P1 D) in H. simpl in H. inv_ok H. subst. eauto.
      + rewrite P in H. simpl in H. inv_ok H. subst. eauto.
    - right. destruct (add_generator_effect s g I) as (s1 & k & E & _ & _ & _ & _ & _ & _ & _ & (gens & ->)).
      rewrite E in H. simpl in H. inv_ok H. subst. eauto.
    - right. destruct (remove_generator s h0) as [s1 og] eqn:E. simpl in H. inv_ok H. subst.
      apply remove_generator_effect in E; auto. destruct E as (_ & _ & _ & _ & _ & (gens & ->) & _). eauto.
    - right. inv_ok H. inv_ok H. subst. apply step_frame in E. destruct E as (_ & E2 & _). rewrite E2 in Hc. eauto.
    - right. inv_ok H. subst. eauto.
    - right. inv_ok H. subst. eauto.
    - right. inv_ok H. subst. eauto.
  Qed.

  (** One entity: what [e] can have become. *)
  Inductive ent_change (ord : set_order) s s' (o : op T) (h : handle) e : ientity T -> Prop :=
    | ec_same : (forall c, In c (e_colliders e) -> same_body (aget (s_cols s) c) (aget (s_cols s') c)) -> ent_change ord s s' o h e e
    | ec_sleep e' k src : o = OUpdateEntity k src -> k <> h -> s_cols s' = s_cols s -> Rsleep h e e' -> ent_change ord s s' o h e e'
    | ec_update src e1 w e2 e' : o = OUpdateEntity h src -> s_cols s' = s_cols s -> update_from e src = Some (e1, w) ->
        relinked (s_cols s') e1 e2 (e_colliders e1) -> Rsleep h e2 e' -> (w = false -> e' = e2) -> ent_change ord s s' o h e e'
    | ec_relink e' : match o with OUpdateCollider _ _ | OLinkCollider _ _ => True | _ => False end ->
        relinked (s_cols s') e e' (e_colliders e') -> ent_change ord s s' o h e e'
    | ec_step dt e' : o = OStep dt -> step ord s dt = Ok s' -> ent_change ord s s' o h e e'.

  Lemma relinked_set cols e e' set : relinked cols e e' set -> e_colliders e' = set.
  Proof. intros H. apply relinked_frame in H. destruct H as (? & ? & ? & ->). reflexivity. Qed.
  Lemma update_from_colliders e src e1 w : update_from e src = Some (e1, w) -> e_colliders e1 = e_colliders e.
  Proof. unfold update_from. destruct (n_lt _ _); intros H; inversion H; reflexivity. Qed.

  Lemma exec_entity ord s o s' a h e' : good_order ord -> Inv s -> exec ord s o = Ok (s', a) ->
    aget (s_ents s') h = Some e' ->
    (exists src, o = OAddEntity src /\ entity_new_from src = Some e' /\ aget (s_ents s) h = None) \/
    (exists e, aget (s_ents s) h = Some e /\ ent_change ord s s' o h e e').
  Proof.
    intros Hord I H He.
    assert (Keep : forall e1, aget (s_ents s) h = Some e1 -> aget (s_ents s') h = Some e1 ->
      (forall c, In c (e_colliders e1) -> same_body (aget (s_cols s) c) (aget (s_cols s') c)) ->
      (exists e, aget (s_ents s) h = Some e /\ ent_change ord s s' o h e e')).
    { intros e1 H1 H2 H3. exists e1. split; auto. assert (e' = e1) as -> by congruence. now constructor. }
    destruct o; simpl in H.
    - pose proof (add_entity_effect s src I) as P. destruct (entity_new_from src) eqn:En.
      + destruct P as (s1 & k & E & _ & Hn & Hs & Ho & _ & _ & _ & (ents & ->)). rewrite E in H. simpl in H. inv_ok H. subst.
        destruct (handle_eq_dec h k) as [->|Hne].
        * left. exists src. rewrite Hs in He. injection He as <-. auto.
        * right. pose proof He as He2. rewrite Ho in He2 by auto. eapply Keep; eauto. intros; apply same_body_refl.
      + right. rewrite P in H. simpl in H. inv_ok H. subst. eapply Keep; eauto. intros; apply same_body_refl.
    - right. pose proof (remove_entity_effect ord s h0 Hord I) as P. destruct (aget (s_ents s) h0) as [e|] eqn:E0.
      + destruct P as (s1 & E & _ & Hn & Ho & Hin & Hout & _). rewrite E in H. simpl in H. inv_ok H. subst.
        destruct (handle_eq_dec h h0) as [->|Hne]; [congruence|]. pose proof He as He2. rewrite Ho in He2 by auto.
        eapply Keep; eauto. intros c Hc. rewrite Hout; [apply same_body_refl|]. intros Hc2.
        destruct (inv_fwd _ I _ _ _ He2 Hc) as (k1 & G1 & G2). destruct (inv_fwd _ I _ _ _ E0 Hc2) as (k2 & G3 & G4). congruence.
      + rewrite P in H. simpl in H. inv_ok H. subst. eapply Keep; eauto. intros; apply same_body_refl.
    - right. inv_ok H. inv_ok H. subst. destruct x as [s1 b]. simpl in *.
      destruct (update_entity_effect _ _ _ _ _ _ Hord I E) as (_ & _ & Hh & Hb & Hbf & Hcs & _ & Hoth & Ht).
      destruct b.
      + destruct (handle_eq_dec h h0) as [->|Hne].
        * destruct (Ht eq_refl) as (e & e1 & w & e2 & e3 & hs & G1 & G2 & G3 & G4 & G5 & G6 & G7).
          exists e. split; auto. assert (e' = e3) as -> by congruence.
          assert (RL : relinked (s_cols s1) e1 e2 (e_colliders e1)).
          { rewrite Hcs. exists hs. split; [exact G3|]. replace (e_set_colliders e1 (e_colliders e1)) with e1 by now destruct e1. exact G4. }
          exact (ec_update ord s s1 (OUpdateEntity h0 src) h0 e src e1 w e2 e3 eq_refl Hcs G2 RL G6 G7).
        * destruct (aget (s_ents s) h) as [e|] eqn:E1.
          -- destruct (Hoth h e Hne E1) as (e2 & G1 & G2). exists e. split; auto.
             assert (e' = e2) as -> by congruence. eapply ec_sleep; eauto.
          -- exfalso. assert (Hin : In h (ahandles (s_ents s1))) by (apply ahandles_in; congruence).
             rewrite Hh in Hin. apply ahandles_in in Hin. congruence.
      + rewrite (Hbf eq_refl) in *. eapply Keep; eauto. intros; apply same_body_refl.
    - right. pose proof (add_collider_effect s src I) as P. destruct (collider_new_from src) eqn:V.
      + destruct P as (s1 & k & E & _ & Hn & Hs & Ho & _ & _ & _ & (cols & ->)). rewrite E in H. simpl in H. inv_ok H. subst.
        simpl in *. eapply Keep; eauto. intros c1 Hc. destruct (inv_fwd _ I _ _ _ He Hc) as (k1 & G1 & G2).
        rewrite Ho by congruence. apply same_body_refl.
      + rewrite P in H. simpl in H. inv_ok H. subst. eapply Keep; eauto. intros; apply same_body_refl.
    - right. pose proof (remove_collider_effect s h0 I) as P. destruct (aget (s_cols s) h0) as [c|] eqn:E0.
      + destruct (c_entity c) eqn:Ec; [rewrite P in H; discriminate|].
        destruct P as (s1 & E & _ & Hn & Ho & _ & (cols & ->)). rewrite E in H. simpl in H. inv_ok H. subst. simpl in *.
        eapply Keep; eauto. intros c1 Hc. destruct (inv_fwd _ I _ _ _ He Hc) as (k1 & G1 & G2).
        rewrite Ho by congruence. apply same_body_refl.
      + rewrite P in H. simpl in H. inv_ok H. subst. eapply Keep; eauto. intros; apply same_body_refl.
    - right. pose proof (update_collider_effect ord s h0 src Hord I) as P. destruct (aget (s_cols s) h0) as [c|] eqn:E0.
      2:{ rewrite P in H. simpl in H. inv_ok H. subst. eapply Keep; eauto. intros; apply same_body_refl. }
      assert (Main : forall s1 cols b, (forall k, k <> h0 -> aget cols k = aget (s_cols s) k) ->
        update_collider ord s h0 src = Ok (s1, b) ->
        (exists ents, s1 = s_set_ents (s_set_cols s cols) ents) ->
        (forall k, Some k <> c_entity c -> aget (s_ents s1) k = aget (s_ents s) k) ->
        ahandles (s_ents s1) = ahandles (s_ents s) ->
          (forall k e, c_entity c = Some k -> aget (s_ents s) k = Some e ->
             exists e', aget (s_ents s1) k = Some e' /\ relinked cols e e' (e_colliders e)) ->
        exists e, aget (s_ents s) h = Some e /\ ent_change ord s s' (OUpdateCollider h0 src) h e e').
      { intros s1 cols b Hcols E (ents & ->) Hun Hh Hre. rewrite E in H. simpl in H. inv_ok H. subst s'.
        destruct (option_map (heqb h) (c_entity c)) as [[]|] eqn:Eo.
        - destruct (c_entity c) as [k|] eqn:Ec; simpl in Eo; [|discriminate]. injection Eo as Eo.
          destruct (heqb_spec h k) as [->|]; [|discriminate].
          assert (Hin : In k (ahandles (s_ents s))) by (rewrite <- Hh; apply ahandles_in; simpl in *; congruence).
          apply ahandles_in in Hin. destruct (aget (s_ents s) k) as [e|] eqn:Ee; [|congruence].
          destruct (Hre k e eq_refl Ee) as (e2 & G1 & G2). exists e. split; auto.
          assert (e' = e2) as -> by (simpl in *; congruence). apply ec_relink; [exact Logic.I|].
          now rewrite (relinked_set _ _ _ _ G2).
        - destruct (c_entity c) as [k|] eqn:Ec; simpl in Eo; [|discriminate]. injection Eo as Eo.
          assert (h <> k) by (intros ->; rewrite heqb_refl in Eo; discriminate).
          assert (He2 : aget (s_ents s) h = Some e') by (rewrite <- Hun by congruence; exact He).
          eapply Keep; eauto. intros c1 Hc1. destruct (inv_fwd _ I _ _ _ He2 Hc1) as (k1 & G1 & G2). simpl.
          rewrite Hcols by congruence. apply same_body_refl.
        - destruct (c_entity c) as [k|] eqn:Ec; simpl in Eo; [discriminate|].
          assert (He2 : aget (s_ents s) h = Some e') by (rewrite <- Hun by congruence; exact He).
          eapply Keep; eauto. intros c1 Hc1. destruct (inv_fwd _ I _ _ _ He2 Hc1) as (k1 & G1 & G2). simpl.
          rewrite Hcols by congruence. apply same_body_refl. }
      destruct (collider_update_from c src) as [| |c2] eqn:U.
      + rewrite P in H. simpl in H. inv_ok H. subst. eapply Keep; eauto. intros; apply same_body_refl.
      + destruct P as (s1 & E & _ & Hs1 & _ & _ & Hh & Hun & Hre). eapply Main; eauto.
      + destruct P as (s1 & E & _ & Hs1 & _ & _ & Hh & Hun & Hre). eapply Main; [|exact E|exact Hs1| | |]; eauto.
        intros k Hk. apply aget_aset_neq; congruence.
    - right. pose proof (link_collider_effect ord s ch target Hord I) as P. destruct (aget (s_cols s) ch) as [c|] eqn:E0.
      2:{ rewrite P in H. simpl in H. inv_ok H. subst. eapply Keep; eauto. intros; apply same_body_refl. }
      destruct P as (P1 & P2).
      assert (D : (match target with Some h => aget (s_ents s) h <> None | None => True end) \/
                    (exists h, target = Some h /\ aget (s_ents s) h = None)).
      { destruct target as [k|]; auto. destruct (aget (s_ents s) k) eqn:Eh; [left; congruence|right; eauto]. }
      destruct D as [D|(k & -> & D)].
      2:{ rewrite (P1 D) in H. simpl in H. inv_ok H. subst. eapply Keep; eauto. intros; apply same_body_refl. }
      destruct (P2 D) as (s1 & E & _ & (ents & ->) & _ & Hh & Hun & Hta & Hpr). rewrite E in H. simpl in H. inv_ok H. subst s'.
      assert (Hin : In h (ahandles (s_ents s))) by (rewrite <- Hh; apply ahandles_in; simpl in *; congruence).
      apply ahandles_in in Hin. destruct (aget (s_ents s) h) as [e|] eqn:Ee; [|congruence]. clear Hin.
      assert (SB : forall k, same_body (aget (s_cols s) k) (aget (aset (s_cols s) ch (c_set_entity c target)) k)).
      { intros k. rewrite aget_aset, E0. destruct (heqb_spec ch k) as [<-|]; [rewrite E0; apply same_body_link|apply same_body_refl]. }
      destruct (option_map (heqb h) target) as [[]|] eqn:Eo.
      + destruct target as [k|]; simpl in Eo; [|discriminate]. injection Eo as Eo. destruct (heqb_spec h k) as [->|]; [|discriminate].
        destruct (Hta k e eq_refl Ee) as (e2 & G1 & G2). exists e. split; auto.
        assert (e' = e2) as -> by (simpl in *; congruence). apply ec_relink; [exact Logic.I|]. simpl.
        rewrite (relinked_set _ _ _ _ G2). eapply relinked_ext; [|exact G2]. intros; apply SB.
      + destruct target as [k|]; simpl in Eo; [|discriminate]. injection Eo as Eo.
        assert (h <> k) by (intros ->; rewrite heqb_refl in Eo; discriminate).
        destruct (c_entity c) as [p|] eqn:Ec.
        * destruct (handle_eq_dec h p) as [->|Hne].
          -- destruct (Hpr p e eq_refl ltac:(congruence) Ee) as (e2 & G1 & G2). exists e. split; auto.
             assert (e' = e2) as -> by (simpl in *; congruence). apply ec_relink; [exact Logic.I|]. simpl.
             now rewrite (relinked_set _ _ _ _ G2).
          -- eapply Keep; [reflexivity| |].
             { rewrite Hun by congruence. exact Ee. } intros; apply SB.
        * eapply Keep; [reflexivity| |].
             { rewrite Hun by congruence. exact Ee. } intros; apply SB.
      + destruct target as [k|]; simpl in Eo; [discriminate|].
        destruct (c_entity c) as [p|] eqn:Ec.
        * destruct (handle_eq_dec h p) as [->|Hne].
          -- destruct (Hpr p e eq_refl ltac:(congruence) Ee) as (e2 & G1 & G2). exists e. split; auto.
             assert (e' = e2) as -> by (simpl in *; congruence). apply ec_relink; [exact Logic.I|]. simpl.
             now rewrite (relinked_set _ _ _ _ G2).
          -- eapply Keep; [reflexivity| |].
             { rewrite Hun by congruence. exact Ee. } intros; apply SB.
        * eapply Keep; [reflexivity| |].
             { rewrite Hun by congruence. exact Ee. } intros; apply SB.
    - right. destruct (add_generator_effect s g I) as (s1 & k & E & _ & _ & _ & _ & _ & _ & _ & (gens & ->)).
      rewrite E in H. simpl in H. inv_ok H. subst. eapply Keep; eauto. intros; apply same_body_refl.
    - right. destruct (remove_generator s h0) as [s1 og] eqn:E. simpl in H. inv_ok H. subst.
      apply remove_generator_effect in E; auto. destruct E as (_ & _ & _ & _ & _ & (gens & ->) & _).
      eapply Keep; eauto. intros; apply same_body_refl.
    - right. inv_ok H. inv_ok H. subst. pose proof E as E'. apply step_frame in E'. destruct E' as (E1 & _).
      destruct (arel_get_r _ _ _ _ _ E1 He) as (e & G1 & _). exists e. split; auto. eapply ec_step; eauto.
    - right. inv_ok H. subst. eapply Keep; eauto. intros; apply same_body_refl.
    - right. inv_ok H. subst. eapply Keep; eauto. intros; apply same_body_refl.
    - right. inv_ok H. subst. eapply Keep; eauto. intros; apply same_body_refl.
  Qed.
End Exec.
