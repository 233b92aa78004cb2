(** * Store2P: proofs of the storage properties (C01-C07, C45) *)
From Coq Require Import List Permutation Bool Arith Lia NArith.
Import ListNotations.
From Verif Require Import Num Vec Res Arena Orient Colliders Collide EntityM SystemM Spec ResP ArenaP FrameP StoreP.

Section Store2.
  Context {T : Type} {N : Num T}.
  Implicit Types (s : system T) (h : handle).

  Lemma get_entity_none s h : get_entity s h = None <-> aget (s_ents s) h = None.
  Proof. unfold get_entity. destruct (aget _ _); simpl; split; congruence. Qed.

  (** ** C01 *)
  Lemma alive_issued {A} (a : arena A) h : awf a -> aget a h <> None -> issued a h.
  Proof.
    intros Hw H. destruct (aget a h) as [x|] eqn:E; [|congruence]. split; [|congruence].
    apply aget_nth in E. eapply awf_gen; eauto.
  Qed.
  Definition issued_k (k : kind) s h : Prop :=
    match k with KEntity => issued (s_ents s) h | KCollider => issued (s_cols s) h | KGenerator => issued (s_gens s) h end.
  Lemma alive_issued_k k s h : Inv s -> alive k s h -> issued_k k s h.
  Proof.
    intros I H. destruct k; simpl in *.
    - apply alive_issued; [apply I|]. intros E. apply H. now apply get_entity_none.
    - apply alive_issued; [apply I|exact H].
    - apply alive_issued; [apply I|exact H].
  Qed.
  Lemma issued_k_evo k s s' h : Inv s -> sys_evo s s' -> issued_k k s h -> issued_k k s' h.
  Proof. intros I [I' A B C] H. destruct k; simpl in *; [apply A|apply B|apply C]; auto; apply I. Qed.
  Lemma dead_evo k s s' h : Inv s -> sys_evo s s' -> issued_k k s h -> ~ alive k s h -> ~ alive k s' h.
  Proof.
    intros I [I' A B C] Hi H. destruct k; simpl in *.
    - intros G. apply G, get_entity_none. apply A; auto; [apply I|]. apply get_entity_none.
      destruct (get_entity s h); auto. exfalso; apply H; congruence.
    - intros G. apply G. unfold get_collider in *. apply B; auto; [apply I|].
      destruct (aget (s_cols s) h); auto. exfalso; apply H; congruence.
    - intros G. apply G. unfold get_generator in *. apply C; auto; [apply I|].
      destruct (aget (s_gens s) h); auto. exfalso; apply H; congruence.
  Qed.

  Lemma dead_forever k s0 s1 s2 h : reachable s0 -> follows s0 s1 -> follows s1 s2 ->
    alive k s0 h -> ~ alive k s1 h -> ~ alive k s2 h.
  Proof.
    intros R F1 F2 Ha Hd. pose proof (reachable_Inv _ R) as I0.
    pose proof (follows_evo _ _ I0 F1) as E1. assert (I1 : Inv s1) by apply E1.
    pose proof (follows_evo _ _ I1 F2) as E2.
    exact (dead_evo k s1 s2 h I1 E2 (issued_k_evo k s0 s1 h I0 E1 (alive_issued_k k s0 h I0 Ha)) Hd).
  Qed.

  (** A creating call returns a handle that was not issued before, and it is issued afterwards. *)
  Lemma creates_fresh k ord s o s' h : Inv s -> creates k o -> exec ord s o = Ok (s', AHandle (Some h)) ->
    alive k s' h /\ (forall h', issued_k k s h' -> h' <> h).
  Proof.
    intros I Hc H. destruct k, o; simpl in Hc; try tauto; simpl in H.
    - pose proof (add_entity_effect s src I) as P. destruct (entity_new_from src) as [e|].
      + destruct P as (s1 & h1 & E & I1 & Hn & Hs & _ & _ & Hf & Hi & _). rewrite E in H. simpl in H.
        injection H as <- <-. split; auto. simpl. intros G. apply get_entity_none in G. congruence.
      + rewrite P in H. simpl in H. congruence.
    - pose proof (add_collider_effect s src I) as P. destruct (collider_new_from src) as [e|].
      + destruct P as (s1 & h1 & E & I1 & Hn & Hs & _ & _ & Hf & Hi & _). rewrite E in H. simpl in H.
        injection H as <- <-. split; auto. simpl. unfold get_collider. congruence.
      + rewrite P in H. simpl in H. congruence.
    - destruct (add_generator_effect s g I) as (s1 & h1 & E & I1 & Hn & Hs & _ & _ & Hf & Hi & _).
      rewrite E in H. simpl in H. injection H as <- <-. split; auto. simpl. unfold get_generator. congruence.
  Qed.

  Lemma run_length hist s s' ans : run hist s = Ok (s', ans) -> length ans = length (hist : list (call T)).
  Proof.
    revert s ans; induction hist as [|[ord o] hist IH]; intros s ans H.
    - simpl in H. injection H as _ <-. reflexivity.
    - apply run_cons in H. destruct H as (s1 & a & ans' & _ & H & ->). simpl. f_equal. eauto.
  Qed.
  (** Handles created later than a state are different from those issued before it. *)
  Lemma created_fresh k hist : forall s s' ans j h, Forall call_ok hist -> Inv s -> run hist s = Ok (s', ans) ->
    issued_k k s h -> ~ created k hist ans j h.
  Proof.
    induction hist as [|[ord o] hist IH]; intros s s' ans j h HF I H Hi (ord' & o' & H1 & H2 & H3).
    - destruct j; discriminate.
    - apply run_cons in H. destruct H as (s1 & a & ans' & E & H & ->). inversion HF as [|? ? Hc HF']; subst.
      destruct j as [|j]; simpl in *.
      + injection H1 as -> ->. injection H3 as ->. destruct (creates_fresh k _ _ _ _ _ I H2 E) as (_ & Hf).
        exact (Hf h Hi eq_refl).
      + pose proof (exec_evo _ _ _ _ _ (proj1 Hc) I E) as Ev.
        apply (IH s1 s' ans' j h HF' (se_inv _ _ Ev) H (issued_k_evo k s s1 h I Ev Hi)).
        exists ord', o'. auto.
  Qed.
  Lemma handles_unique hist : forall s s' ans, Forall call_ok hist -> Inv s -> run hist s = Ok (s', ans) ->
    forall k i j h, created k hist ans i h -> created k hist ans j h -> i = j.
  Proof.
    induction hist as [|[ord o] hist IH]; intros s s' ans HF I H k i j h Ci Cj.
    - destruct Ci as (? & ? & C & _). destruct i; discriminate.
    - apply run_cons in H. destruct H as (s1 & a & ans' & E & H & ->). inversion HF as [|? ? Hc HF']; subst.
      pose proof (exec_evo _ _ _ _ _ (proj1 Hc) I E) as Ev.
      assert (Hcase : forall i, created k ((ord, o) :: hist) (a :: ans') i h ->
        (i = 0 /\ creates k o /\ a = AHandle (Some h)) \/ exists i', i = S i' /\ created k hist ans' i' h).
      { intros n (ord' & o' & H1 & H2 & H3). destruct n as [|n]; simpl in *.
        - left. injection H1 as -> ->. injection H3 as ->. auto.
        - right. exists n. split; auto. exists ord', o'. auto. }
      assert (Hno : creates k o -> a = AHandle (Some h) -> forall j', ~ created k hist ans' j' h).
      { intros Hk -> j'. destruct (creates_fresh k _ _ _ _ _ I Hk E) as (Ha & _).
        apply (created_fresh k hist s1 s' ans' j' h HF' (se_inv _ _ Ev) H). apply alive_issued_k; auto. apply Ev. }
      destruct (Hcase _ Ci) as [(-> & K1 & K2)|(i' & -> & Ci')], (Hcase _ Cj) as [(-> & _ & _)|(j' & -> & Cj')]; auto.
      + exfalso. eapply Hno; eauto.
      + exfalso. destruct (Hcase _ Cj) as [(_ & K1 & K2)|(? & ? & _)]; [|discriminate]. eapply Hno; eauto.
      + f_equal. exact (IH s1 s' ans' HF' (se_inv _ _ Ev) H k i' j' h Ci' Cj').
  Qed.
  Lemma handles_unique_new hist s ans : Forall call_ok hist -> run hist system_new = Ok (s, ans) ->
    forall k i j h, created k hist ans i h -> created k hist ans j h -> i = j.
  Proof. intros HF H. eapply handles_unique; eauto. apply Inv_new. Qed.

  (** ** C02 *)
  Lemma add_entity_map s src : reachable s ->
    if n_lt (pe_own_mass src) n0 then add_entity s src = Ok (s, None)
    else exists s' h e, add_entity s src = Ok (s', Some h) /\ get_entity s h = None /\ get_entity s' h = Some e /\
      pe_pos e = pe_pos src /\ pe_rot e = qscaled_axis (qfrom_scaled_axis (pe_rot src)) /\
      pe_vel e = pe_vel src /\ pe_angvel e = pe_angvel src /\
      pe_own_mass e = pe_own_mass src /\ pe_last_total_mass e = pe_own_mass src /\
      pe_asleep e = false /\ pe_colliders e = [] /\
      (forall h', h' <> h -> get_entity s' h' = get_entity s h') /\
      (forall c, get_collider s' c = get_collider s c) /\ (forall g, get_generator s' g = get_generator s g).
  Proof.
    intros R. apply reachable_Inv in R. pose proof (add_entity_effect s src R) as P.
    unfold entity_new_from in P. destruct (n_lt (pe_own_mass src) n0); auto.
    destruct P as (s' & h & E & _ & Hn & Hs & Ho & _ & _ & _ & (ents & Es)).
    eexists s', h, _. split; [exact E|]. split; [now apply get_entity_none|].
    split; [unfold get_entity; rewrite Hs; reflexivity|]. simpl. repeat (split; [reflexivity|]).
    split; [intros h' Hh'; unfold get_entity; now rewrite Ho|].
    subst s'. split; reflexivity.
  Qed.
  Lemma remove_entity_map ord s h s' b : good_order ord -> reachable s -> remove_entity ord s h = Ok (s', b) ->
    get_entity s' h = None /\ (forall h', h' <> h -> get_entity s' h' = get_entity s h').
  Proof.
    intros Ho R H. apply reachable_Inv in R. pose proof (remove_entity_effect ord s h Ho R) as P.
    destruct (aget (s_ents s) h) eqn:E.
    - destruct P as (s1 & E1 & _ & Hn & Hr & _). rewrite E1 in H. injection H as <- <-.
      split; [now apply get_entity_none|]. intros h' Hh'. unfold get_entity. now rewrite Hr.
    - rewrite P in H. injection H as <- <-. split; [now apply get_entity_none|auto].
  Qed.
  Lemma link_entity_frame ord s ch t s' b : good_order ord -> reachable s -> link_collider ord s ch t = Ok (s', b) ->
    forall h, t <> Some h -> owner s ch <> Some h -> get_entity s' h = get_entity s h.
  Proof.
    intros Ho R H h Ht Hown. apply reachable_Inv in R. pose proof (link_collider_effect ord s ch t Ho R) as P.
    unfold owner, get_collider in Hown. destruct (aget (s_cols s) ch) as [c|] eqn:E.
    - destruct P as (P1 & P2).
      assert (D : (match t with Some h => aget (s_ents s) h <> None | None => True end) \/
                    (exists h, t = Some h /\ aget (s_ents s) h = None)).
      { destruct t as [k|]; auto. destruct (aget (s_ents s) k) eqn:Eh; [left; congruence|right; eauto]. }
      destruct D as [D|(k & -> & D)].
      + destruct (P2 D) as (s1 & E1 & _ & _ & _ & _ & Hun & _). rewrite E1 in H. injection H as <- <-.
        unfold get_entity. now rewrite Hun by congruence.
      + rewrite (P1 D) in H. now injection H as <- <-.
    - rewrite P in H. now injection H as <- <-.
  Qed.
  Lemma update_collider_entity_frame ord s ch src s' b : good_order ord -> reachable s ->
    update_collider ord s ch src = Ok (s', b) ->
    forall h, owner s ch <> Some h -> get_entity s' h = get_entity s h.
  Proof.
    intros Ho R H h Hown. apply reachable_Inv in R. pose proof (update_collider_effect ord s ch src Ho R) as P.
    unfold owner, get_collider in Hown. destruct (aget (s_cols s) ch) as [c|] eqn:E.
    - destruct (collider_update_from c src).
      + rewrite P in H. now injection H as <- <-.
      + destruct P as (s1 & E1 & _ & _ & _ & _ & _ & Hun & _). rewrite E1 in H. injection H as <- <-.
        unfold get_entity. now rewrite Hun by congruence.
      + destruct P as (s1 & E1 & _ & _ & _ & _ & _ & Hun & _). rewrite E1 in H. injection H as <- <-.
        unfold get_entity. now rewrite Hun by congruence.
    - rewrite P in H. now injection H as <- <-.
  Qed.
  Lemma Rsleep_pub h (e e' : ientity T) : Rsleep h e e' -> same_but_asleep (make_pub e) (make_pub e').
  Proof. intros (a & ns & ->). reflexivity. Qed.

  Lemma recalc_rot hs cols (e e' : ientity T) : recalculate_mass hs cols e = Ok e' -> o_rot (e_orient e') = o_rot (e_orient e).
  Proof.
    unfold recalculate_mass. intros H. inv_ok H. destruct x as [[fi tm] cs].
    destruct ((_ <? tm)%num && negb fi).
    - destruct fi; [inv_ok H; subst; reflexivity|]. inv_ok H. inv_ok H. subst; reflexivity.
    - destruct fi; [inv_ok H; subst; reflexivity|]. inv_ok H. inv_ok H. subst; reflexivity.
  Qed.

  Lemma update_entity_map ord s h src s' b : good_order ord -> reachable s ->
    update_entity ord s h src = Ok (s', b) ->
    (b = true <-> get_entity s h <> None /\ n_lt (pe_own_mass src) n0 = false) /\
    (b = true -> exists e e', get_entity s h = Some e /\ get_entity s' h = Some e' /\
      pe_vel e' = pe_vel src /\ pe_angvel e' = pe_angvel src /\ pe_own_mass e' = pe_own_mass src /\
      pe_rot e' = qscaled_axis (qfrom_scaled_axis (pe_rot src)) /\
      pe_colliders e' = pe_colliders e) /\
    (forall h' e, h' <> h -> get_entity s h' = Some e -> exists e', get_entity s' h' = Some e' /\ same_but_asleep e e') /\
    (forall h', get_entity s' h' = None <-> get_entity s h' = None) /\
    (forall c, get_collider s' c = get_collider s c) /\ (forall g, get_generator s' g = get_generator s g).
  Proof.
    intros Ho R H. apply reachable_Inv in R. pose proof H as H0.
    destruct (update_entity_effect ord s h src s' b Ho R H) as (_ & _ & Hh & Hb & Hf & Hc & Hg & Hoth & Ht).
    split.
    { split.
      - intros ->. split.
        + intros G. apply get_entity_none in G. assert (true = false) by (apply Hb; auto). congruence.
        + destruct (n_lt _ _); auto. assert (true = false) by (apply Hb; auto). congruence.
      - intros (G1 & G2). destruct b; auto. exfalso. destruct (proj1 Hb eq_refl) as [G|G]; [|congruence].
        apply G1. now apply get_entity_none. }
    split.
    { intros Hb1. destruct (Ht Hb1) as (e & e1 & w & e2 & e3 & hs & G1 & G2 & G3 & G4 & G5 & (a & ns & G6) & _).
      exists (make_pub e), (make_pub e3). unfold get_entity. rewrite G1, G5. split; auto. split; auto.
      pose proof (recalc_frame _ _ _ _ G4) as (o & m & i & Er).
      assert (Hrot : o_rot (e_orient e2) = o_rot (e_orient e1)).
      { eapply recalc_rot; eauto. }
      unfold update_from in G2. destruct (n_lt _ _) eqn:Hm; [congruence|]. injection G2 as G2 _.
      subst e3. rewrite Er in *. simpl in *. subst e1. simpl in *. repeat split; auto.
      unfold rotation_vec. simpl. now rewrite Hrot. }
    split.
    { intros h' e Hne He. unfold get_entity in He. destruct (aget (s_ents s) h') as [ie|] eqn:E; [|discriminate].
      simpl in He. injection He as <-. destruct (Hoth h' ie Hne E) as (e' & G1 & G2).
      exists (make_pub e'). unfold get_entity. rewrite G1. split; auto. eapply Rsleep_pub; eauto. }
    split.
    { intros h'. rewrite !get_entity_none. split; intros G.
      - destruct (aget (s_ents s) h') eqn:E; auto. exfalso.
        assert (In h' (ahandles (s_ents s'))) as Hin by (rewrite Hh; apply ahandles_in; congruence).
        apply ahandles_in in Hin. congruence.
      - destruct (aget (s_ents s') h') eqn:E; auto. exfalso.
        assert (In h' (ahandles (s_ents s))) as Hin by (rewrite <- Hh; apply ahandles_in; congruence).
        apply ahandles_in in Hin. congruence. }
    unfold get_collider, get_generator. now rewrite Hc, Hg.
  Qed.

  (** ** C03 *)
  (** What a stored collider looks like, field by field: see [stored_as] in the property file. *)
  Lemma add_collider_map s src : reachable s ->
    if collider_valid src then
      exists s' h, add_collider s src = Ok (s', Some h) /\ get_collider s h = None /\
        get_collider s' h = Some (stored_new src) /\
        (forall h', h' <> h -> get_collider s' h' = get_collider s h') /\
        (forall e, get_entity s' e = get_entity s e) /\ (forall g, get_generator s' g = get_generator s g)
    else add_collider s src = Ok (s, None).
  Proof.
    intros R. apply reachable_Inv in R. pose proof (add_collider_effect s src R) as P.
    unfold collider_new_from in P. destruct (collider_valid src); auto.
    destruct P as (s' & h & E & _ & Hn & Hs & Ho & _ & _ & _ & (cols & Es)).
    exists s', h. split; [exact E|]. split; [exact Hn|]. split; [exact Hs|]. split; [exact Ho|]. subst s'; split; reflexivity.
  Qed.
  Lemma update_collider_map ord s h src s' b : good_order ord -> reachable s ->
    update_collider ord s h src = Ok (s', b) ->
    (forall h', h' <> h -> get_collider s' h' = get_collider s h') /\
    (b = true -> exists c c', get_collider s h = Some c /\ collider_update_from c src = UOk c' /\ get_collider s' h = Some c') /\
    (b = false -> get_collider s' h = get_collider s h) /\
    (forall c, get_collider s h = Some c -> (b = true <-> exists c', collider_update_from c src = UOk c')) /\
    (get_collider s h = None -> b = false).
  Proof.
    intros Ho R H. apply reachable_Inv in R. pose proof (update_collider_effect ord s h src Ho R) as P.
    unfold get_collider. destruct (aget (s_cols s) h) as [c|] eqn:E.
    - destruct (collider_update_from c src) as [| |c'] eqn:Eu.
      + rewrite P in H. injection H as <- <-. split; auto. split; [congruence|]. split; auto.
        split; [|congruence]. intros c0 Hc0. injection Hc0 as <-. rewrite Eu. split; [congruence|]. intros (? & ?). congruence.
      + destruct P as (s1 & E1 & _ & (ents & Es) & _). rewrite E1 in H. injection H as <- <-. subst s1. simpl.
        split; auto. split; [congruence|]. split; auto.
        split; [|congruence]. intros c0 Hc0. injection Hc0 as <-. rewrite Eu. split; [congruence|]. intros (? & ?). congruence.
      + destruct P as (s1 & E1 & _ & (ents & Es) & _). rewrite E1 in H. injection H as <- <-. subst s1. simpl.
        split; [intros h' Hne; apply aget_aset_neq; congruence|]. split.
        { intros _. exists c, c'. split; auto. split; auto. eapply aget_aset_eq; eauto. }
        split; [congruence|]. split; [|congruence]. intros c0 Hc0. injection Hc0 as <-. rewrite Eu. split; eauto.
    - rewrite P in H. injection H as <- <-. split; auto. split; [congruence|]. split; auto. split; [congruence|auto].
  Qed.
  Lemma remove_collider_map s h s' : reachable s -> remove_collider s h = Ok s' ->
    get_collider s' h = None /\ (forall h', h' <> h -> get_collider s' h' = get_collider s h') /\
    (forall e, get_entity s' e = get_entity s e).
  Proof.
    intros R H. apply reachable_Inv in R. pose proof (remove_collider_effect s h R) as P.
    unfold get_collider. destruct (aget (s_cols s) h) as [c|] eqn:E.
    - destruct (c_entity c); [congruence|]. destruct P as (s1 & E1 & _ & Hn & Ho & _ & (cols & Es)).
      rewrite E1 in H. injection H as <-. split; auto. split; auto. subst s1. reflexivity.
    - rewrite P in H. injection H as <-. auto.
  Qed.
  Lemma link_collider_map ord s ch t s' b : good_order ord -> reachable s -> link_collider ord s ch t = Ok (s', b) ->
    (forall h', h' <> ch -> get_collider s' h' = get_collider s h') /\
    (b = true -> exists c, get_collider s ch = Some c /\ get_collider s' ch = Some (c_set_entity c t)).
  Proof.
    intros Ho R H. apply reachable_Inv in R. pose proof (link_collider_effect ord s ch t Ho R) as P.
    unfold get_collider. destruct (aget (s_cols s) ch) as [c|] eqn:E.
    - destruct P as (P1 & P2).
      assert (D : (match t with Some h => aget (s_ents s) h <> None | None => True end) \/
                    (exists h, t = Some h /\ aget (s_ents s) h = None)).
      { destruct t as [k|]; auto. destruct (aget (s_ents s) k) eqn:Eh; [left; congruence|right; eauto]. }
      destruct D as [D|(k & -> & D)].
      + destruct (P2 D) as (s1 & E1 & _ & (ents & Es) & _). rewrite E1 in H. injection H as <- <-. subst s1. simpl.
        split; [intros h' Hne; apply aget_aset_neq; congruence|]. intros _. exists c. split; auto. eapply aget_aset_eq; eauto.
      + rewrite (P1 D) in H. injection H as <- <-. split; auto. congruence.
    - rewrite P in H. injection H as <- <-. split; auto. congruence.
  Qed.

  (** ** C04 *)
  Lemma links_consistent s : reachable s -> forall h c, lists_collider s h c <-> owner s c = Some h.
  Proof.
    intros R h c. apply reachable_Inv in R. unfold lists_collider, owner, get_collider, get_entity. split.
    - intros (e & He & Hin). destruct (aget (s_ents s) h) as [ie|] eqn:E; [|discriminate]. simpl in He. injection He as <-.
      destruct (inv_fwd _ R _ _ _ E Hin) as (k & Hk & Hke). rewrite Hk. exact Hke.
    - intros H. destruct (aget (s_cols s) c) as [k|] eqn:E; [|discriminate].
      destruct (inv_bwd _ R _ _ _ E H) as (ie & Hi & Hin). exists (make_pub ie). rewrite Hi. auto.
  Qed.
  Lemma colliders_nodup s h e : reachable s -> get_entity s h = Some e -> NoDup (pe_colliders e).
  Proof.
    intros R H. apply reachable_Inv in R. unfold get_entity in H. destruct (aget (s_ents s) h) as [ie|] eqn:E; [|discriminate].
    simpl in H. injection H as <-. simpl. eapply inv_nd; eauto.
  Qed.
  Lemma listed_alive s h c : reachable s -> lists_collider s h c -> alive KCollider s c.
  Proof. intros R H. apply links_consistent in H; auto. unfold owner in H. simpl. destruct (get_collider s c); congruence. Qed.
  Lemma owner_alive s h c : reachable s -> owner s c = Some h -> alive KEntity s h.
  Proof. intros R H. apply links_consistent in H; auto. destruct H as (e & He & _). simpl. congruence. Qed.

  (** ** C05 *)
  Lemma link_moves ord s ch t : good_order ord -> reachable s ->
    exists s' b, link_collider ord s ch t = Ok (s', b) /\
      (b = true <-> alive KCollider s ch /\ (forall h, t = Some h -> alive KEntity s h)) /\
      (b = false -> s' = s) /\
      (b = true -> owner s' ch = t /\ (forall c, c <> ch -> owner s' c = owner s c) /\
         (forall h c, lists_collider s' h c <-> if heqb c ch then t = Some h else lists_collider s h c)).
  Proof.
    intros Ho R. pose proof (reachable_Inv _ R) as I. pose proof (link_collider_effect ord s ch t Ho I) as P.
    destruct (aget (s_cols s) ch) as [c|] eqn:E.
    - destruct P as (P1 & P2).
      assert (D : (match t with Some h => aget (s_ents s) h <> None | None => True end) \/
                    (exists h, t = Some h /\ aget (s_ents s) h = None)).
      { destruct t as [k|]; auto. destruct (aget (s_ents s) k) eqn:Eh; [left; congruence|right; eauto]. }
      destruct D as [D|(k & -> & D)].
      + destruct (P2 D) as (s1 & E1 & I1 & (ents & Es) & _). exists s1, true. split; auto.
        split.
        { split; auto. intros _. split; [simpl; unfold get_collider; congruence|]. intros h ->. simpl.
          rewrite get_entity_none. exact D. }
        split; [congruence|]. intros _.
        assert (Ow : forall c', owner s1 c' = if heqb c' ch then t else owner s c').
        { intros c'. unfold owner, get_collider. subst s1. simpl. rewrite aget_aset, E, heqb_sym.
          destruct (heqb_spec c' ch) as [->|Hne]; auto. now rewrite c_entity_set. }
        split; [now rewrite Ow, heqb_refl|]. split; [intros c' Hne; now rewrite Ow, heqb_neq|].
        intros h c'.
        assert (L1 : lists_collider s1 h c' <-> owner s1 c' = Some h).
        { eapply links_consistent. eapply follows_trans; [exact R|]. apply (follows_exec ord s (OLinkCollider ch t) s1 (ABool true)).
          { split; simpl; auto. } { simpl. now rewrite E1. } }
        rewrite L1, Ow. destruct (heqb c' ch); [reflexivity|]. symmetry. now apply links_consistent.
      + exists s, false. split; auto. split; [|split; auto; congruence]. split; [congruence|]. intros (_ & G).
        specialize (G k eq_refl). simpl in G. rewrite get_entity_none in G. tauto.
    - exists s, false. split; auto. split; [|split; auto; congruence]. split; [congruence|]. intros (G & _).
      simpl in G. unfold get_collider in G. congruence.
  Qed.

  (** ** C06 *)
  Lemma remove_entity_exact ord s h : good_order ord -> reachable s ->
    exists s' b, remove_entity ord s h = Ok (s', b) /\
      (b = true <-> alive KEntity s h) /\ (b = false -> s' = s) /\
      (forall h', get_entity s' h' = if heqb h h' then None else get_entity s h') /\
      (forall c, owner s c = Some h -> get_collider s' c = None) /\
      (forall c, owner s c <> Some h -> get_collider s' c = get_collider s c) /\
      (forall g, get_generator s' g = get_generator s g) /\
      s_records s' = s_records s /\ s_debug s' = s_debug s /\ s_iteration_max s' = s_iteration_max s /\
      s_energy_thr s' = s_energy_thr s /\ s_time_thr s' = s_time_thr s.
  Proof.
    intros Ho R. pose proof (reachable_Inv _ R) as I. pose proof (remove_entity_effect ord s h Ho I) as P.
    destruct (aget (s_ents s) h) as [e|] eqn:E.
    - destruct P as (s' & E1 & I1 & Hn & Hr & Hc1 & Hc2 & _ & _ & (ents & cols & Es)).
      exists s', true. split; auto. split.
      { split; auto. intros _. simpl. rewrite get_entity_none. congruence. }
      split; [congruence|]. split.
      { intros h'. destruct (heqb_spec h h') as [<-|Hne]; [now apply get_entity_none|]. unfold get_entity. rewrite Hr by congruence. reflexivity. }
      assert (Hown : forall c, owner s c = Some h <-> In c (e_colliders e)).
      { intros c. rewrite <- (links_consistent s R h c). unfold lists_collider, get_entity. rewrite E. simpl. split.
        - intros (e' & G1 & G2). injection G1 as <-. exact G2.
        - eauto. }
      split; [intros c G; apply Hown in G; unfold get_collider; auto|].
      split; [intros c G; rewrite Hown in G; unfold get_collider; auto|].
      subst s'. repeat split.
    - exists s, false. split; auto. split; [|split; [auto|split; [|split; [|auto 10]]]].
      + simpl. rewrite get_entity_none. split; congruence.
      + intros h'. destruct (heqb_spec h h') as [<-|Hne]; auto. now apply get_entity_none.
      + intros c G. apply owner_alive in G; auto. simpl in G. rewrite get_entity_none in G. tauto.
  Qed.

  (** ** C07 *)
  (** Every rejection except [update_collider] with an invalid value of the right kind. *)
  Lemma rejected_no_effect ord s o s' : good_order ord -> reachable s ->
    match o with
    | OAddEntity _ | OAddCollider _ => exec ord s o = Ok (s', AHandle None)
    | ORemoveEntity _ | OUpdateEntity _ _ | OLinkCollider _ _ => exec ord s o = Ok (s', ABool false)
    | OUpdateCollider h src => exec ord s o = Ok (s', ABool false) /\
        (forall c, get_collider s h = Some c -> collider_update_from c src <> UInvalid)
    | ORemoveGenerator _ => exec ord s o = Ok (s', AGen None)
    | _ => False
    end -> s' = s.
  Proof.
    intros Ho R H. pose proof (reachable_Inv _ R) as I. destruct o; try tauto; simpl in H.
    - pose proof (add_entity_map s src R) as P. destruct (n_lt _ _).
      + rewrite P in H. simpl in H. congruence.
      + destruct P as (s1 & h & e & E & _). rewrite E in H. simpl in H. congruence.
    - destruct (remove_entity_exact ord s h Ho R) as (s1 & b & E & _ & Hf & _). rewrite E in H. simpl in H.
      injection H as <- ->. auto.
    - apply rbind_ok in H. destruct H as ([s1 b] & E & H). simpl in H. injection H as <- ->.
      apply update_entity_effect in E; auto. apply E; auto.
    - pose proof (add_collider_map s src R) as P. destruct (collider_valid src).
      + destruct P as (s1 & h & E & _). rewrite E in H. simpl in H. congruence.
      + rewrite P in H. simpl in H. congruence.
    - destruct H as (H & Hv). pose proof (update_collider_effect ord s h src Ho I) as P. unfold get_collider in Hv.
      destruct (aget (s_cols s) h) as [c|].
      + specialize (Hv c eq_refl). destruct (collider_update_from c src).
        * rewrite P in H. simpl in H. congruence.
        * congruence.
        * destruct P as (s1 & E & _). rewrite E in H. simpl in H. congruence.
      + rewrite P in H. simpl in H. congruence.
    - destruct (link_moves ord s ch target Ho R) as (s1 & b & E & _ & Hf & _). rewrite E in H. simpl in H.
      injection H as <- ->. auto.
    - destruct (remove_generator s h) as [s1 og] eqn:E. simpl in H. injection H as <- ->.
      apply remove_generator_effect in E; auto. apply E; auto.
  Qed.
  (** The remaining rejection: only the owner's cached mass data can move. *)
  Lemma rejected_update_collider ord s h src s' : good_order ord -> reachable s ->
    update_collider ord s h src = Ok (s', false) ->
    (forall c, get_collider s' c = get_collider s c) /\ (forall g, get_generator s' g = get_generator s g) /\
    (forall k, owner s h <> Some k -> get_entity s' k = get_entity s k) /\
    (forall k e, owner s h = Some k -> get_entity s k = Some e -> exists e', get_entity s' k = Some e' /\
       pe_vel e' = pe_vel e /\ pe_angvel e' = pe_angvel e /\ pe_colliders e' = pe_colliders e /\
       pe_own_mass e' = pe_own_mass e /\ pe_asleep e' = pe_asleep e).
  Proof.
    intros Ho R H. pose proof (reachable_Inv _ R) as I.
    destruct (update_collider_map ord s h src s' false Ho R H) as (M1 & _ & M2 & _).
    assert (Hc : forall c, get_collider s' c = get_collider s c).
    { intros c. destruct (handle_eq_dec c h) as [->|Hne]; auto. }
    split; auto.
    pose proof (update_collider_effect ord s h src Ho I) as P. unfold owner, get_collider in *.
    destruct (aget (s_cols s) h) as [c|] eqn:E.
    - destruct (collider_update_from c src).
      + rewrite P in H. injection H as <-. split; auto. split; auto. intros k e _ He. exists e. auto 10.
      + destruct P as (s1 & E1 & _ & (ents & Es) & _ & _ & _ & Hun & Hre). rewrite E1 in H. injection H as <-.
        split; [subst s1; reflexivity|]. split; [intros k Hk; unfold get_entity; now rewrite Hun by congruence|].
        intros k e Hk He. unfold get_entity in He. destruct (aget (s_ents s) k) as [ie|] eqn:Ei; [|discriminate].
        simpl in He. injection He as <-. destruct (Hre k ie Hk Ei) as (e' & G1 & G2).
        exists (make_pub e'). unfold get_entity. rewrite G1. split; auto. apply relinked_frame in G2.
        destruct G2 as (o & m & i & ->). auto 10.
      + destruct P as (s1 & E1 & _). congruence.
    - rewrite P in H. injection H as <-. split; auto. split; auto. intros k e _ He. exists e. auto 10.
  Qed.

  (** ** C45 *)
  Lemma step_frame_pub ord s dt s' : step ord s dt = Ok s' ->
    (forall c, get_collider s' c = get_collider s c) /\
    (forall g, alive KGenerator s' g <-> alive KGenerator s g) /\
    (forall h, alive KEntity s' h <-> alive KEntity s h) /\
    (forall h e e', get_entity s h = Some e -> get_entity s' h = Some e' ->
       pe_colliders e' = pe_colliders e /\ pe_own_mass e' = pe_own_mass e /\
       pe_last_total_mass e' = pe_last_total_mass e /\ pe_last_prep_moi e' = pe_last_prep_moi e) /\
    s_iteration_max s' = s_iteration_max s /\ s_energy_thr s' = s_energy_thr s /\ s_time_thr s' = s_time_thr s.
  Proof.
    intros H. apply step_frame in H. destruct H as (H1 & H2 & H3 & H4 & H5 & H6).
    split; [intros c; unfold get_collider; now rewrite H2|].
    split; [intros g; simpl; unfold get_generator; now rewrite (arel_none _ _ _ _ H3)|].
    split; [intros h; simpl; rewrite !get_entity_none; now rewrite (arel_none _ _ _ _ H1)|].
    split; [|auto]. intros h e e' He He'. unfold get_entity in *.
    destruct (aget (s_ents s) h) as [ie|] eqn:Ei; [|discriminate]. simpl in He. injection He as <-.
    destruct (arel_get _ _ _ _ _ H1 Ei) as (ie' & G1 & G2). rewrite G1 in He'. simpl in He'. injection He' as <-.
    destruct G2 as (A & B & C & D & _). simpl. auto.
  Qed.
End Store2.
