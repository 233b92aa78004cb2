(** * Step2P: waking, sleeping and steps as the user sees them *)
From Coq Require Import List Permutation Bool Arith Lia.
Import ListNotations.
From Verif Require Import Num Vec Res Arena Orient Colliders Collide EntityM SystemM Spec ResP ArenaP OrderP FrameP StoreP Store2P ExecP WakeP StepP.

Section Step2.
  Context {T : Type} {N : Num T}.
  Implicit Types (s : system T) (e : ientity T).

  Lemma asleep_spec s h : asleep s h <-> exists e, aget (s_ents s) h = Some e /\ e_asleep e = true.
  Proof.
    unfold asleep, get_entity. destruct (aget (s_ents s) h) as [e|]; simpl; split.
    - intros (p & Hp & Ha). injection Hp as <-. exists e. auto.
    - intros (e' & He & Ha). injection He as <-. exists (make_pub e). auto.
    - intros (p & Hp & _). discriminate.
    - intros (p & Hp & _). discriminate.
  Qed.

  (** ** C10: updating an entity *)
  Lemma update_from_noticed e src e1 w : update_from e src = Some (e1, w) -> (w = true <-> noticed e src).
  Proof.
    unfold update_from, noticed. destruct (n_lt _ _); [discriminate|]. intros H. injection H as _ <-. cbv zeta.
    rewrite !orb_true_iff, negb_true_iff. tauto.
  Qed.
  Lemma update_from_sleep e src e1 w : update_from e src = Some (e1, w) ->
    e_neighbors e1 = e_neighbors e /\ e_asleep e1 = e_asleep e /\ e_falling e1 = e_falling e /\ e_falling_time e1 = e_falling_time e.
  Proof. unfold update_from. destruct (n_lt _ _); [discriminate|]. intros H. injection H as <- _. auto. Qed.

  Lemma update_entity_wakes ord s h src s' b e : good_order ord ->
    update_entity ord s h src = Ok (s', b) -> aget (s_ents s) h = Some e ->
    (b = true -> noticed e src -> forall k, connected (s_ents s) h k -> ~ asleep s' k) /\
    (forall k, ~ (b = true /\ noticed e src /\ connected (s_ents s) h k) -> (asleep s' k <-> asleep s k)).
  Proof.
    intros Ho H He. unfold update_entity in H. rewrite He in H.
    destruct (update_from e src) as [[e1 w]|] eqn:U.
    2:{ inv_ok H. subst. split; [congruence|]. tauto. }
    inv_ok H. rename x into e2. pose proof (update_from_noticed _ _ _ _ U) as Hn. pose proof (update_from_sleep _ _ _ _ U) as (N1 & A1 & _).
    apply recalc_frame in E. destruct E as (o & m & i & ->).
    assert (Flags : forall k ek, aget (aset (s_ents s) h (e_set_mass e1 o m i)) k = Some ek ->
      exists e0, aget (s_ents s) k = Some e0 /\ e_asleep e0 = e_asleep ek).
    { intros k ek Hk. destruct (handle_eq_dec h k) as [<-|Hne].
      - rewrite (aget_aset_eq _ _ _ _ He) in Hk. injection Hk as <-. exists e. simpl. split; auto.
      - rewrite aget_aset_neq in Hk by auto. eauto. }
    assert (Flags' : forall k e0, aget (s_ents s) k = Some e0 -> exists ek, aget (aset (s_ents s) h (e_set_mass e1 o m i)) k = Some ek /\
      e_asleep ek = e_asleep e0).
    { intros k e0 Hk. destruct (handle_eq_dec h k) as [<-|Hne].
      - rewrite (aget_aset_eq _ _ _ _ He). eexists. split; eauto. simpl. congruence.
      - rewrite aget_aset_neq by auto. eauto. }
    destruct w.
    - inv_ok H. inv_ok H. subst s' b. simpl in E. destruct x as [ents' dbg']. simpl in *.
      destruct (wake_up_exact _ _ _ _ _ _ Ho E) as (W & Dec & _).
      assert (C : forall k, connected (s_ents s) h k <-> connected (aset (s_ents s) h (e_set_mass e1 o m i)) h k).
      { assert (Ct : forall a b, contact (s_ents s) a b <-> contact (aset (s_ents s) h (e_set_mass e1 o m i)) a b).
        { intros a b. unfold contact. destruct (handle_eq_dec h a) as [<-|Hne].
          - rewrite (aget_aset_eq _ _ _ _ He). split; intros (x & Hx & Hb); [assert (x = e) by congruence; subst x; eexists|injection Hx as <-; exists e]; split; eauto; simpl in *; congruence.
          - rewrite aget_aset_neq by auto. tauto. }
        assert (Mv : forall b, b <> h -> movable (s_ents s) b <-> movable (aset (s_ents s) h (e_set_mass e1 o m i)) b).
        { intros b Hb. unfold movable. rewrite aget_aset_neq by congruence. tauto. }
        intros k. split; intros Hk; induction Hk as [|a b Ha IH Hab Hb]; try apply conn_start;
          (destruct (handle_eq_dec b h) as [->|Hne]; [apply conn_start|apply (conn_next _ _ a); [exact IH|now apply Ct|now apply Mv]]). }
      split.
      + intros _ _ k Hk. rewrite asleep_spec. simpl. intros (ek & Hek & Hs). specialize (W k). rewrite Hek in W.
        destruct (aget (aset (s_ents s) h (e_set_mass e1 o m i)) k) as [e0|]; [|tauto]. destruct W as (W & _).
        apply C in Hk. specialize (W Hk). subst ek. discriminate.
      + intros k Hk. assert (Hk' : ~ connected (aset (s_ents s) h (e_set_mass e1 o m i)) h k).
        { rewrite <- C. intros Hx. apply Hk. split; auto. split; auto. now apply Hn. }
        rewrite !asleep_spec. simpl. specialize (W k).
        assert (Same : forall e0 ek, after_wake (aset (s_ents s) h (e_set_mass e1 o m i)) h (connected (aset (s_ents s) h (e_set_mass e1 o m i)) h) k e0 ek ->
          e_asleep ek = e_asleep e0).
        { intros e0 ek (B1 & B2 & B3). destruct (handle_eq_dec k h) as [->|Hne]; [exfalso; apply Hk', conn_start|].
          destruct (n_isinf (e_total_mass e0)) eqn:Hi.
          - destruct (B3 Hk' Hne eq_refl) as (ns & -> & _). reflexivity.
          - rewrite B2; auto. }
        split; intros (x & Hx & Ha).
        * rewrite Hx in W. destruct (aget (aset (s_ents s) h (e_set_mass e1 o m i)) k) as [e0|] eqn:E0; [|tauto].
          destruct (Flags _ _ E0) as (y & Hy & Hay). exists y. split; auto. rewrite Hay, <- (Same _ _ W). exact Ha.
        * destruct (Flags' _ _ Hx) as (y & Hy & Hay). rewrite Hy in W. destruct (aget ents' k) as [ek|]; [|tauto].
          exists ek. split; auto. rewrite (Same _ _ W). congruence.
    - inv_ok H. subst s' b. split.
      + intros _ Hx. apply Hn in Hx. discriminate.
      + intros k _. rewrite !asleep_spec. simpl. split; intros (x & Hx & Ha).
        * destruct (Flags _ _ Hx) as (y & Hy & Hay). exists y. split; auto. congruence.
        * destruct (Flags' _ _ Hx) as (y & Hy & Hay). exists y. split; auto. congruence.
  Qed.

  (** The other calls neither wake nor put to sleep. *)
  Lemma exec_sleep_frame ord s o s' a : good_order ord -> Inv s -> exec ord s o = Ok (s', a) ->
    match o with OStep _ | OUpdateEntity _ _ => False | _ => True end ->
    forall k, (asleep s' k -> asleep s k) /\ (asleep s k -> get_entity s' k <> None -> asleep s' k).
  Proof.
    intros Ho HI H Hop k.
    assert (G : forall e', aget (s_ents s') k = Some e' -> (aget (s_ents s) k = None /\ e_asleep e' = false) \/
      exists e, aget (s_ents s) k = Some e /\ e_asleep e' = e_asleep e).
    { intros e' He'. destruct (exec_entity _ _ _ _ _ _ _ Ho HI H He') as [(src & Hsrc & Hn & Hx)|(e & He & Hc)].
      - left. split; auto. unfold entity_new_from in Hn. destruct (n_lt _ _); [discriminate|]. injection Hn as <-. reflexivity.
      - right. exists e. split; auto. destruct Hc as [|x y z Hx|x y z u v Hx|e'' Hx Hr|d e'' Hx]; subst; auto; try tauto.
        apply relinked_frame in Hr. destruct Hr as (oo & mm & ii & ->). reflexivity. }
    rewrite !asleep_spec. split.
    - intros (e' & He' & Ha). destruct (G _ He') as [(_ & Hf)|(e & He & Heq)]; [congruence|]. exists e. split; auto. congruence.
    - intros (e & He & Ha) Hal. rewrite get_entity_none in Hal. destruct (aget (s_ents s') k) as [e'|] eqn:He'; [|congruence].
      destruct (G _ eq_refl) as [(Hn & _)|(e0 & He0 & Heq)]; [congruence|]. exists e'. split; auto. congruence.
  Qed.

  Section WithOrd.
    Context {O : Ord N}.

    (** What the sleep decision means. *)
    Lemma decision_asleep dt et tt ns e : e_asleep e = true ->
      sleep_decision dt et tt ns e = (e_set_vels e vzero vzero, false).
    Proof. unfold sleep_decision. now intros ->. Qed.
    Lemma decision_awake dt et tt ns e : e_asleep e = false ->
      snd (sleep_decision dt et tt ns e) = e_asleep (fst (sleep_decision dt et tt ns e)) /\
      e_orient (fst (sleep_decision dt et tt ns e)) = e_orient e /\
      e_vel (fst (sleep_decision dt et tt ns e)) = e_vel e /\ e_angvel (fst (sleep_decision dt et tt ns e)) = e_angvel e /\
      get_total_energy (fst (sleep_decision dt et tt ns e)) = get_total_energy e.
    Proof.
      unfold sleep_decision. intros H. rewrite H. destruct (n_lt et _); [simpl; auto 10|]. destruct (n_lt _ tt); simpl; auto 10.
    Qed.

    (** ** C10, C11: steps *)
    Lemma step_sleepers ord s dt s' : good_order ord -> step ord s dt = Ok s' -> n_lt (n_abs dt) EPSILON = false ->
      forall k, asleep s' k <-> In (DSleep k) (s_debug s') \/ (asleep s k /\ ~ roused s s' k).
    Proof.
      intros Ho H Hd k. pose proof (step_frame _ _ _ _ H) as (Fs & _).
      destruct (step_entity _ _ _ _ Ho H Hd) as (Dec & Ent & Dead & _). rewrite !asleep_spec.
      destruct (aget (s_ents s) k) as [e|] eqn:E.
      - destruct (Ent k e E) as (e1 & e2 & e' & ES). destruct (es_decided _ _ _ _ _ _ _ _ ES) as (ns & (ms & Hr) & Hs).
        pose proof (es_after _ _ _ _ _ _ _ _ ES) as Ha. rewrite Ha, Hs.
        assert (Ha2 : e_asleep e2 = false \/ (e_asleep e = true /\ ~ roused s s' k /\ e_asleep e2 = true)).
        { destruct (Dec k) as [Hk|Hk].
          - left. apply (es_roused _ _ _ _ _ _ _ _ ES Hk).
          - destruct (es_sleeping _ _ _ _ _ _ _ _ ES Hk) as (Hk2 & _). destruct (e_asleep e) eqn:Ee; [right|left]; auto. }
        destruct Ha2 as [Ha2|(Ha2 & Hk & Ha3)].
        + destruct (decision_awake dt (s_energy_thr s) (s_time_thr s) ns e2 Ha2) as (D1 & _). split.
          * intros (e'' & He & Hx). injection He as <-. left. rewrite D1. subst e'. exact Hx.
          * intros [Hx|((e'' & He & Hx) & Hk)].
            -- exists e'. split; auto. subst e'. simpl. congruence.
            -- injection He as <-. destruct (es_sleeping _ _ _ _ _ _ _ _ ES Hk) as (Hk2 & _). congruence.
        + rewrite (decision_asleep _ _ _ _ _ Ha3) in *. simpl in *. split.
          * intros _. right. split; auto. eauto.
          * intros _. exists e'. split; auto. subst e'. simpl. auto.
      - pose proof (proj2 (arel_none _ _ _ _ Fs) E) as E'. rewrite E'. split.
        + intros (e & He & _). discriminate.
        + intros [Hx|((e & He & _) & _)]; [|discriminate]. exfalso. eapply Dead; eauto.
    Qed.

    (** A struck entity, and all connected to it, are awake when the step ends unless they fell asleep in it. *)
    Lemma step_still ord s dt s' : good_order ord -> step ord s dt = Ok s' -> n_lt (n_abs dt) EPSILON = false ->
      forall k e, aget (s_ents s) k = Some e -> e_asleep e = true -> ~ roused s s' k ->
      exists e', aget (s_ents s') k = Some e' /\ e_orient e' = e_orient e /\ e_vel e' = vzero /\ e_angvel e' = vzero /\
        e_asleep e' = true /\ e_falling e' = e_falling e /\ e_falling_time e' = e_falling_time e.
    Proof.
      intros Ho H Hd k e He Ha Hk. destruct (step_entity _ _ _ _ Ho H Hd) as (Dec & Ent & _).
      destruct (Ent k e He) as (e1 & e2 & e' & ES). destruct (es_sleeping _ _ _ _ _ _ _ _ ES Hk) as (H1 & _ & _ & H2).
      destruct (es_falling _ _ _ _ _ _ _ _ ES) as (F1 & F2). destruct (es_forces _ _ _ _ _ _ _ _ ES) as (fs & _ & ->). simpl in F1, F2.
      destruct (es_decided _ _ _ _ _ _ _ _ ES) as (ns & (ms & Hr) & _). rewrite decision_asleep in Hr by congruence.
      exists e'. split; [exact (es_after _ _ _ _ _ _ _ _ ES)|]. subst e'. simpl in *. rewrite H2 by auto. repeat (split; [solve [auto|congruence]|]). auto.
    Qed.
    Lemma step_still_pub ord s dt s' : good_order ord -> step ord s dt = Ok s' -> n_lt (n_abs dt) EPSILON = false ->
      forall k (e : entity T), get_entity s k = Some e -> pe_asleep e = true -> ~ In (DSleep k) (s_debug s') -> asleep s' k ->
      exists e' : entity T, get_entity s' k = Some e' /\
        e' = mkPE (pe_pos e) (pe_rot e) vzero vzero (pe_colliders e) (pe_own_mass e) (pe_last_orient e)
                  (pe_last_total_mass e) (pe_last_prep_moi e) true.
    Proof.
      intros Ho H Hd k e He Ha Hns Hs'. pose proof (step_frame _ _ _ _ H) as (Fs & _).
      apply (step_sleepers _ _ _ _ Ho H Hd) in Hs'. destruct Hs' as [Hs'|(_ & Hr)]; [tauto|].
      unfold get_entity in *. destruct (aget (s_ents s) k) as [i|] eqn:E; [|discriminate]. simpl in He. injection He as <-.
      destruct (step_still _ _ _ _ Ho H Hd k i E Ha Hr) as (e' & E' & G1 & G2 & G3 & G4 & _).
      destruct (arel_get _ _ _ _ _ Fs E) as (e'' & E'' & R1 & R2 & R3 & R4 & _). assert (e'' = e') by congruence. subst e''.
      exists (make_pub e'). rewrite E'. split; auto. unfold make_pub. simpl. congruence.
    Qed.

    (** ** C12: the low-energy clock *)
    Definition clock_inv (h : handle) s (c : option T) : Prop :=
      match aget (s_ents s) h with
      | None => c = None
      | Some e => match c with
                  | Some t => e_falling e = true /\ e_falling_time e = t
                  | None => e_falling e = false /\ e_falling_time e = n0
                  end
      end.
    Lemma dsleep_in h dbg : existsb (fun m => match m with DSleep k => heqb k h | _ => false end) dbg = true <-> In (DSleep h) dbg.
    Proof.
      rewrite existsb_exists. split.
      - intros (m & Hm & Hb). destruct m; try discriminate. destruct (heqb_spec h0 h); [subst|discriminate]. auto.
      - intros H. exists (DSleep h). split; auto. apply heqb_refl.
    Qed.

    Lemma clock_step_step ord s dt s' h c : good_order ord -> step ord s dt = Ok s' -> clock_inv h s c ->
      clock_inv h s' (clock_step h s (OStep dt) s' c) /\
      (n_lt (n_abs dt) EPSILON = false -> forall e, aget (s_ents s) h = Some e ->
         e_asleep e = false \/ roused s s' h ->
         (In (DSleep h) (s_debug s') <-> exists t, clock_step h s (OStep dt) s' c = Some t /\ n_lt t (s_time_thr s) = false)).
    Proof.
      intros Ho H HC. pose proof (step_frame _ _ _ _ H) as (Fs & _).
      destruct (n_lt (n_abs dt) EPSILON) eqn:Hd.
      { unfold step in H. rewrite Hd in H. inv_ok H. subst s'. split; [|discriminate]. unfold clock_step. rewrite Hd. exact HC. }
      destruct (step_entity _ _ _ _ Ho H Hd) as (Dec & Ent & Dead & _). unfold clock_inv, clock_step in *. rewrite Hd.
      destruct (aget (s_ents s) h) as [e|] eqn:E.
      2:{ rewrite (proj2 (arel_none _ _ _ _ Fs) E). split; auto. intros _ e He. discriminate. }
      destruct (Ent h e E) as (e1 & e2 & e' & ES). destruct (es_decided _ _ _ _ _ _ _ _ ES) as (ns & (ms & Hr) & Hs).
      pose proof (es_after _ _ _ _ _ _ _ _ ES) as Ha. rewrite Ha. destruct (es_falling _ _ _ _ _ _ _ _ ES) as (F1 & F2).
      destruct (es_forces _ _ _ _ _ _ _ _ ES) as (fs & _ & He1).
      assert (F1' : e_falling e2 = e_falling e) by (rewrite F1, He1; reflexivity).
      assert (F2' : e_falling_time e2 = e_falling_time e) by (rewrite F2, He1; reflexivity).
      pose proof (dsleep_in h (s_debug s')) as DI.
      destruct (e_asleep e2) eqn:A2.
      - rewrite (decision_asleep _ _ _ _ _ A2) in Hr, Hs. simpl in Hr, Hs.
        assert (X : existsb (fun m => match m with DSleep k => heqb k h | _ => false end) (s_debug s') = false).
        { destruct (existsb _ _) eqn:X; auto. exfalso. pose proof (proj1 DI eq_refl) as Y. apply Hs in Y. discriminate. }
        rewrite X. assert (Ae : e_asleep e' = true) by (subst e'; simpl; auto). rewrite Ae. simpl. split.
        + subst e'. simpl. rewrite F1', F2'. exact HC.
        + intros _ e0 He0 [Hx|Hx]; exfalso.
          * injection He0 as <-. destruct (Dec h) as [Hk|Hk].
            -- destruct (es_roused _ _ _ _ _ _ _ _ ES Hk). congruence.
            -- destruct (es_sleeping _ _ _ _ _ _ _ _ ES Hk) as (Hk2 & _). congruence.
          * destruct (es_roused _ _ _ _ _ _ _ _ ES Hx). congruence.
      - destruct (decision_awake dt (s_energy_thr s) (s_time_thr s) ns e2 A2) as (D1 & D2 & D3 & D4 & D5).
        assert (Ae : e_asleep e' = snd (sleep_decision dt (s_energy_thr s) (s_time_thr s) ns e2)) by (subst e'; simpl; congruence).
        assert (X : e_asleep e' && negb (existsb (fun m => match m with DSleep k => heqb k h | _ => false end) (s_debug s')) = false).
        { destruct (e_asleep e') eqn:Y; auto. simpl. apply negb_false_iff. apply DI, Hs. auto. }
        rewrite X. assert (En : get_total_energy e' = get_total_energy e2).
        { rewrite Hr. change (get_total_energy (e_set_sleep ?a ?b ?c)) with (get_total_energy a). exact D5. }
        rewrite En. setoid_rewrite Hs. unfold sleep_decision in *. rewrite A2 in *.
        destruct (n_lt (s_energy_thr s) (get_total_energy e2)) eqn:L.
        + simpl in *. split; [subst e'; simpl; auto|]. intros _ _ _ _. split; [discriminate|]. intros (t & Ht & _). discriminate.
        + assert (Tm : exists t, (match c with None => Some n0 | Some t => Some (n_add t dt) end = Some t) /\
            (if e_falling e2 then n_add (e_falling_time e2) dt else e_falling_time e2) = t).
          { destruct c as [t|]; destruct HC as (C1 & C2); rewrite F1', F2', C1, C2; eauto. }
          destruct Tm as (t & Tm1 & Tm2). rewrite Tm1. rewrite Tm2 in *. split.
          * destruct (n_lt t (s_time_thr s)); subst e'; simpl; auto.
          * intros _ _ _ _. destruct (n_lt t (s_time_thr s)) eqn:Lt; simpl; split; try discriminate; auto.
            -- intros (t' & Ht & Hl). congruence.
            -- intros _. eauto.
    Qed.
    Lemma clock_step_exec ord s o s' a h c : good_order ord -> Inv s -> exec ord s o = Ok (s', a) -> clock_inv h s c ->
      clock_inv h s' (clock_step h s o s' c).
    Proof.
      intros Ho HI H HC.
      assert (Hoth : match o with OStep _ => False | _ => True end -> clock_inv h s' (match aget (s_ents s') h with None => None | Some _ => c end)).
      { intros Hop. unfold clock_inv in *. destruct (aget (s_ents s') h) as [e'|] eqn:E'; auto.
        destruct (exec_entity _ _ _ _ _ _ _ Ho HI H E') as [(src & Hsrc & Hn & Hx)|(e & He & Hc)].
        - rewrite Hx in HC. subst c. unfold entity_new_from in Hn. destruct (n_lt _ _); [discriminate|]. injection Hn as <-. auto.
        - rewrite He in HC.
          assert (F : e_falling e' = e_falling e /\ e_falling_time e' = e_falling_time e).
          { destruct Hc as [|x y z Hx Hy Hz (sa & sn & ->)|x e1 w e2 e'' Hx Hy Hu Hr (sa & sn & ->) _|e'' Hx Hr|d e'' Hx]; subst; auto; try tauto.
            - apply relinked_frame in Hr. destruct Hr as (oo & mm & ii & ->). apply update_from_sleep in Hu. simpl. tauto.
            - apply relinked_frame in Hr. destruct Hr as (oo & mm & ii & ->). auto. }
          destruct F as (-> & ->). exact HC. }
      destruct o; try (apply Hoth; exact I).
      simpl in H. inv_ok H. inv_ok H. subst x a. exact (proj1 (clock_step_step _ _ _ _ _ _ Ho E HC)).
    Qed.
    Lemma clock_run h hist : forall s c s' ans, Forall call_ok hist -> Inv s -> clock_inv h s c -> run hist s = Ok (s', ans) ->
      clock_inv h s' (clock h hist s c).
    Proof.
      induction hist as [|[ord o] hist IH]; intros s c s' ans HF HI HC H.
      - simpl in H. injection H as <- _. exact HC.
      - apply run_cons in H. destruct H as (s1 & a & ans' & E & H & ->). inversion HF as [|? ? F1 F2]; subst. simpl. rewrite E.
        destruct F1 as (Ho & _). eapply IH; eauto; [apply (exec_evo _ _ _ _ _ Ho HI E)|]. eapply clock_step_exec; eauto.
    Qed.
    Lemma clock_app h h1 h2 : forall s c s' ans, run h1 s = Ok (s', ans) -> clock h (h1 ++ h2) s c = clock h h2 s' (clock h h1 s c).
    Proof.
      induction h1 as [|[ord o] h1 IH]; intros s c s' ans H.
      - simpl in H. injection H as <- _. reflexivity.
      - apply run_cons in H. destruct H as (s1 & a & ans' & E & H & ->). simpl. rewrite E. eapply IH; eauto.
    Qed.

    Lemma sleep_period hist s ans ord dt s' h e : Forall call_ok hist -> run hist system_new = Ok (s, ans) ->
      good_order ord -> step ord s dt = Ok s' -> n_lt (n_abs dt) EPSILON = false ->
      aget (s_ents s) h = Some e -> e_asleep e = false \/ roused s s' h ->
      (In (DSleep h) (s_debug s') <->
       exists t, clock h (hist ++ [(ord, OStep dt)]) system_new None = Some t /\ n_lt t (s_time_thr s) = false).
    Proof.
      intros HF HR Ho HS Hd He Ha.
      assert (HI : Inv s) by (apply (run_evo hist system_new s ans (call_ok_orders _ HF) Inv_new HR)).
      assert (C0 : clock_inv h system_new None).
      { unfold clock_inv. change (s_ents system_new) with (@anew (ientity T)). now rewrite aget_anew. }
      pose proof (clock_run h hist _ _ _ _ HF Inv_new C0 HR) as C1.
      rewrite (clock_app _ _ _ _ _ _ _ HR). simpl. rewrite HS. simpl.
      exact (proj2 (clock_step_step _ _ _ _ _ _ Ho HS C1) Hd e He Ha).
    Qed.
    (** Putting to sleep happens only to entities that are awake at that point. *)
    Lemma sleep_only_awake ord s dt s' h : good_order ord -> step ord s dt = Ok s' -> n_lt (n_abs dt) EPSILON = false ->
      In (DSleep h) (s_debug s') -> exists e e', aget (s_ents s) h = Some e /\ (e_asleep e = false \/ roused s s' h) /\
        aget (s_ents s') h = Some e' /\ e_asleep e' = true /\ n_lt (s_energy_thr s) (get_total_energy e') = false.
    Proof.
      intros Ho H Hd Hin. destruct (step_entity _ _ _ _ Ho H Hd) as (Dec & Ent & Dead & _).
      destruct (aget (s_ents s) h) as [e|] eqn:E; [|exfalso; eapply Dead; eauto].
      destruct (Ent h e E) as (e1 & e2 & e' & ES). destruct (es_decided _ _ _ _ _ _ _ _ ES) as (ns & (ms & Hr) & Hs).
      pose proof (es_after _ _ _ _ _ _ _ _ ES) as Ha. apply Hs in Hin. exists e, e'. split; auto.
      destruct (e_asleep e2) eqn:A2; [rewrite (decision_asleep _ _ _ _ _ A2) in Hin; discriminate|].
      destruct (decision_awake dt (s_energy_thr s) (s_time_thr s) ns e2 A2) as (D1 & D2 & D3 & D4 & D5).
      split; [|split; auto; split].
      - destruct (Dec h) as [Hk|Hk]; auto. left. destruct (es_sleeping _ _ _ _ _ _ _ _ ES Hk) as (Hk2 & _). congruence.
      - subst e'. simpl. congruence.
      - rewrite Hr. change (get_total_energy (e_set_sleep ?a ?b ?c)) with (get_total_energy a). rewrite D5.
        unfold sleep_decision in Hin. rewrite A2 in Hin. destruct (n_lt (s_energy_thr s) _); [discriminate|auto].
    Qed.

    (** ** C13, C14, C16 *)
    Lemma step_tiny ord s dt : n_lt (n_abs dt) EPSILON = true -> step ord s dt = Ok s.
    Proof. unfold step. now intros ->. Qed.
    Lemma step_records ord s dt s' : good_order ord -> step ord s dt = Ok s' -> n_lt (n_abs dt) EPSILON = false ->
      length (s_records s') <= s_iteration_max s /\
      (In DRanOut (s_debug s') <-> length (s_records s') = s_iteration_max s).
    Proof. intros Ho H Hd. destruct (step_entity _ _ _ _ Ho H Hd) as (_ & _ & _ & _ & H1). exact H1. Qed.
    Lemma step_records_name ord s dt s' r : good_order ord -> step ord s dt = Ok s' -> n_lt (n_abs dt) EPSILON = false ->
      In r (s_records s') ->
      cr_first r <> cr_second r /\ alive KEntity s' (cr_first r) /\ alive KEntity s' (cr_second r) /\
      exists k1 k2 c1 c2, lists_collider s' (cr_first r) k1 /\ lists_collider s' (cr_second r) k2 /\
        get_collider s' k1 = Some c1 /\ get_collider s' k2 = Some c2 /\
        cr_rest r = n_mul (mt_rest (c_mat c1)) (mt_rest (c_mat c2)).
    Proof.
      intros Ho H Hd Hr. pose proof (step_frame _ _ _ _ H) as (Fs & Fc & _).
      destruct (step_entity _ _ _ _ Ho H Hd) as (_ & _ & _ & HF & _). rewrite Forall_forall in HF.
      destruct (HF r Hr) as (Hne & e1 & e2 & k1 & k2 & c1 & c2 & A1 & A2 & A3 & A4 & A5 & A6 & A7).
      destruct (arel_get _ _ _ _ _ Fs A1) as (e1' & B1 & C1 & _). destruct (arel_get _ _ _ _ _ Fs A2) as (e2' & B2 & C2 & _).
      split; auto. simpl. rewrite !get_entity_none. split; [congruence|]. split; [congruence|].
      exists k1, k2, c1, c2. unfold lists_collider, get_entity, get_collider. rewrite B1, B2, Fc. simpl.
      split; [eexists; split; eauto; simpl; congruence|]. split; [eexists; split; eauto; simpl; congruence|]. auto.
    Qed.
  End WithOrd.
End Step2.
