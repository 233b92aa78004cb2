(** * ContactP: the neighbour sets over a step (C66) *)
From Coq Require Import ZArith List Bool Arith Lia Permutation.
Import ListNotations.
From Verif Require Import Num Vec Res Arena RangeM Orient Colliders Collide EntityM SystemM OrderP Spec ContactSpec ResP ArenaP FrameP StoreP WakeP ArithP StepP Step2P.

Section Contact.
  Context {T : Type} {N : Num T}.

  (** ** In the loop *)
  Definition knows (l : list (info T)) (h k : handle) : Prop := exists i, In i l /\ i_h i = h /\ In k (i_nbrs i).
  Lemma knows_maps (l l' : list (info T)) : map i_h l' = map i_h l -> map i_nbrs l' = map i_nbrs l -> forall h k, knows l h k -> knows l' h k.
  Proof.
    revert l'. induction l as [|i l IH]; intros [|i' l'] A B h k (j & Hj & H); try discriminate; [destruct Hj|]. cbn [map] in A, B. injection A as A1 A2. injection B as B1 B2.
    destruct Hj as [->|Hj]; [exists i'; split; [now left|]; now rewrite A1, B1|]. destruct (IH l' A2 B2 h k) as (j' & J1 & J2); [exists j; auto|]. exists j'. split; [now right|exact J2].
  Qed.
  Lemma upd_nbrs (l l' : list (info T)) i f : upd_info l i f = Ok l' -> (forall x, i_nbrs (f x) = i_nbrs x) -> map i_nbrs l' = map i_nbrs l.
  Proof. intros H Hf. apply upd_info_ok in H. destruct H as (x & E & ->). eapply map_list_set; eauto. Qed.
  Lemma upd_add (l l' : list (info T)) i x a : nth_error l i = Some x -> upd_info l i (add_nbr a) = Ok l' ->
    forall h k, knows l' h k <-> knows l h k \/ (h = i_h x /\ k = a).
  Proof.
    intros Hx H. apply upd_info_ok in H. destruct H as (x' & E & ->). assert (x' = x) by congruence. subst x'. intros h k. split.
    - intros (j & Hj & A & B). apply in_list_set in Hj. destruct Hj as [->|Hj]; [|left; exists j; auto]. cbn [add_nbr i_h i_nbrs] in A, B. apply hinsert_in in B.
      destruct B as [->|B]; [right; auto|]. left. exists x. split; [eapply nth_error_In; exact E|auto].
    - assert (Hi : In (add_nbr a x) (list_set l i (add_nbr a x))) by (eapply nth_error_In; apply nth_error_list_set_eq; eapply nth_error_Some; congruence).
      intros [(j & Hj & A & B)|(-> & ->)].
      + apply In_nth_error in Hj. destruct Hj as (n & Hn). destruct (Nat.eq_dec i n) as [->|Ne].
        * assert (j = x) by congruence. subst j. exists (add_nbr a x). split; [exact Hi|]. split; [exact A|]. apply hinsert_in. now right.
        * exists j. split; [|auto]. eapply nth_error_In. rewrite nth_error_list_set_neq by exact Ne. exact Hn.
      + exists (add_nbr a x). split; [exact Hi|]. split; [exact eq_refl|]. apply hinsert_in. now left.
  Qed.

  (** The restitution impulse leaves the two in contact. *)
  Definition leaves_contact (st : lstate T) (f : found T) : Prop :=
    exists e1 e2, aget (l_ents st) (fd_h1 f) = Some e1 /\ aget (l_ents st) (fd_h2 f) = Some e2 /\ snd (respond_pair e1 e2 f) = true.
  Definition pair_of (f : found T) (h k : handle) : Prop := (h = fd_h1 f /\ k = fd_h2 f) \/ (h = fd_h2 f /\ k = fd_h1 f).
  Lemma respond_knows dt ta f st st' i1 i2 : respond dt ta f st = Ok st' ->
    nth_error (l_infos st) (fd_i1 f) = Some i1 -> nth_error (l_infos st) (fd_i2 f) = Some i2 -> i_h i1 = fd_h1 f -> i_h i2 = fd_h2 f ->
    forall h k, knows (l_infos st') h k <-> knows (l_infos st) h k \/ (leaves_contact st f /\ pair_of f h k).
  Proof.
    unfold respond. intros H N1 N2 H1 H2 h k. inv_ok H. inv_ok H. rename x into e1, x0 into e2, E into G1, E0 into G2.
    destruct (respond_pair e1 e2 f) as [[[e1' e2'] im] ic] eqn:Er. inv_ok H. inv_ok H. inv_ok H. inv_ok H. subst st'. cbn [l_infos]. rename x into l1, x0 into l2, x1 into l3.
    assert (Hm : map i_h l2 = map i_h (l_infos st)).
    { apply upd_info_handles in E; [|intros; exact eq_refl]. apply upd_info_handles in E0; [|intros; exact eq_refl]. congruence. }
    assert (Nm : map i_nbrs l2 = map i_nbrs (l_infos st)).
    { apply upd_nbrs in E; [|intros; exact eq_refl]. apply upd_nbrs in E0; [|intros; exact eq_refl]. congruence. }
    assert (K : forall h k, knows l2 h k <-> knows (l_infos st) h k) by (intros; split; apply knows_maps; congruence).
    assert (P : forall n i, nth_error (l_infos st) n = Some i -> exists i', nth_error l2 n = Some i' /\ i_h i' = i_h i).
    { intros n i Hn. assert (A : nth_error (map i_h l2) n = Some (i_h i)) by (rewrite Hm; now apply map_nth_error).
      destruct (nth_error l2 n) as [i'|] eqn:En; [|apply nth_error_None in En; assert (n < length l2) by (rewrite <- (map_length i_h); apply nth_error_Some; congruence); lia].
      exists i'. split; [exact eq_refl|]. apply (map_nth_error i_h) in En. congruence. }
    destruct ic.
    - inv_ok E1. rename x into l4. destruct (P _ _ N1) as (j1 & J1 & Q1). destruct (P _ _ N2) as (j2 & J2 & Q2).
      assert (P4 : exists j, nth_error l4 (fd_i2 f) = Some j /\ i_h j = fd_h2 f).
      { pose proof (upd_info_handles _ _ _ _ E2 (fun x => eq_refl)) as M4. assert (A : nth_error (map i_h l4) (fd_i2 f) = Some (fd_h2 f)) by (rewrite M4; rewrite <- H2, <- Q2; now apply map_nth_error).
        destruct (nth_error l4 (fd_i2 f)) as [j|] eqn:Ej.
        - exists j. split; [exact eq_refl|]. apply (map_nth_error i_h) in Ej. congruence.
        - apply nth_error_None in Ej. assert (fd_i2 f < length l4) by (rewrite <- (map_length i_h); apply nth_error_Some; congruence). lia. }
      destruct P4 as (j4 & J4 & Q4).
      rewrite (upd_add _ _ _ _ _ J4 E1), (upd_add _ _ _ _ _ J1 E2), K, Q1, H1, Q4. unfold pair_of.
      assert (LC : leaves_contact st f) by (exists e1, e2; rewrite Er; auto). tauto.
    - inv_ok E1. subst l3. rewrite K. split; [now left|]. intros [A|((x1 & x2 & X1 & X2 & X3) & _)]; [exact A|].
      assert (x1 = e1) by congruence. assert (x2 = e2) by congruence. subst. rewrite Er in X3. discriminate.
  Qed.

  (** What a whole iteration does to what is known. *)
  Context {O : Ord N}.
  Lemma iterate_knows ord cols dt ents0 st st' fin : good_order ord -> loop_inv cols ents0 st -> iterate ord cols dt st = Ok (st', fin) ->
    if fin then l_records st' = l_records st /\ forall h k, knows (l_infos st') h k <-> knows (l_infos st) h k
    else exists f st2 im, respond dt (l_left st2) f st2 = Ok st' /\
      l_records st' = l_records st ++ [mkCR (fd_h1 f) (fd_h2 f) (c_pos (fd_col f)) (n_mul (l_ctp st') dt) (c_normal (fd_col f)) (fd_rest f) im] /\
      forall h k, knows (l_infos st') h k <-> knows (l_infos st) h k \/ (leaves_contact st2 f /\ pair_of f h k).
  Proof.
    intros Ho LI H. unfold iterate in H. inv_ok H. rename E into Eb. destruct x as [p of]. destruct (find_earliest_spec _ _ _ _ _ Ho Eb) as (Hb & _).
    inv_ok H. destruct x as [ents1 dbg1]. inv_ok H. destruct x as [ents2 infos2]. pose proof (advance_frame _ _ _ _ _ E0) as (_ & Fh & Fn). cbn [fst snd] in *.
    assert (K : forall h k, knows infos2 h k <-> knows (l_infos st) h k) by (intros; split; apply knows_maps; congruence).
    destruct of as [f|].
    - inv_ok H. rename x into st2. inv_ok H. subst st2 fin. pose proof (respond_frame _ _ _ _ _ E1) as (_ & _ & _ & R4 & _ & im & R6). cbn [l_records l_ctp] in R4, R6.
      destruct Hb as (_ & _ & i1 & i2 & k1 & k2 & c1 & c2 & B1 & B2 & B3 & B4 & B5 & _). cbn [fst snd] in *.
      assert (P : forall n i, nth_error (l_infos st) n = Some i -> exists i', nth_error infos2 n = Some i' /\ i_h i' = i_h i).
      { intros n i Hn. assert (A : nth_error (map i_h infos2) n = Some (i_h i)) by (rewrite Fh; now apply map_nth_error).
        destruct (nth_error infos2 n) as [i'|] eqn:En; [|apply nth_error_None in En; assert (n < length infos2) by (rewrite <- (map_length i_h); apply nth_error_Some; congruence); lia].
        exists i'. split; [exact eq_refl|]. apply (map_nth_error i_h) in En. congruence. }
      destruct (P _ _ B2) as (j1 & J1 & Q1). destruct (P _ _ B3) as (j2 & J2 & Q2).
      eexists f, _, im. split; [exact E1|]. split; [rewrite R4; exact R6|]. intros h k. rewrite <- K.
      apply (respond_knows _ _ _ _ _ j1 j2 E1 J1 J2); congruence.
    - inv_ok H. subst st' fin. cbn [l_records l_infos]. split; [exact eq_refl|exact K].
  Qed.

  Record mutual (l : list (info T)) (rs : list (crecord T)) : Prop := {
    mu_sym : forall h k, knows l h k -> knows l k h;
    mu_met : forall h k, knows l h k -> met rs h k }.
  Lemma met_app (rs : list (crecord T)) r h k : met (rs ++ [r]) h k <-> met rs h k \/ met [r] h k.
  Proof.
    unfold met. split.
    - intros (x & Hx & H). apply in_app_or in Hx. destruct Hx as [Hx|Hx]; [left|right]; exists x; auto.
    - intros [(x & Hx & H)|(x & Hx & H)]; exists x; (split; [apply in_or_app; auto|exact H]).
  Qed.
  Lemma iterate_mutual ord cols dt ents0 st st' fin : good_order ord -> loop_inv cols ents0 st -> mutual (l_infos st) (l_records st) ->
    iterate ord cols dt st = Ok (st', fin) -> mutual (l_infos st') (l_records st').
  Proof.
    intros Ho LI [S M] H. pose proof (iterate_knows _ _ _ _ _ _ _ Ho LI H) as K. destruct fin.
    - destruct K as (-> & K). split; intros h k; rewrite !K; auto.
    - destruct K as (f & st2 & im & _ & -> & K). split; intros h k; rewrite !K.
      + intros [A|(A & B)]; [left; auto|right]. split; [exact A|]. unfold pair_of in *. tauto.
      + rewrite met_app. intros [A|(_ & B)]; [left; auto|right]. eexists. split; [now left|]. cbn [cr_first cr_second]. unfold pair_of in B. intuition.
  Qed.
  Lemma iterations_mutual ord cols dt ents0 n : good_order ord -> forall st st', loop_inv cols ents0 st -> mutual (l_infos st) (l_records st) ->
    iterations ord cols dt n st = Ok st' -> mutual (l_infos st') (l_records st').
  Proof.
    intros Ho. induction n as [|n IH]; intros st st' LI Mu H; cbn [iterations] in H.
    - inv_ok H. subst st'. exact Mu.
    - inv_ok H. destruct x as [st1 fin]. pose proof (iterate_mutual _ _ _ _ _ _ _ Ho LI Mu E) as Mu1. apply (iterate_inv ord cols dt ents0) in E; auto. destruct E as (LI1 & _).
      cbn [fst snd] in H. destruct fin; [inv_ok H; subst; exact Mu1|]. exact (IH _ _ LI1 Mu1 H).
  Qed.

  (** ** Falling asleep *)
  Lemma told a l : forall (ents ents' : arena (ientity T)),
    rfold (fun ents nh => rbind (unwrap (aget ents nh)) (fun n => Ok (aset ents nh (e_set_sleep n (e_asleep n) (hinsert a (e_neighbors n)))))) l ents = Ok ents' ->
    forall h e, aget ents h = Some e -> exists e', aget ents' h = Some e' /\ forall k, In k (e_neighbors e') <-> In k (e_neighbors e) \/ (k = a /\ In h l).
  Proof.
    induction l as [|x l IH]; intros ents ents' H h e He; cbn [rfold] in H.
    - inv_ok H. subst. exists e. split; [exact He|]. intros k. cbn [In]. tauto.
    - apply rbind_ok in H. destruct H as (ents1 & E & H). inv_ok E. inv_ok E. subst ents1. destruct (handle_eq_dec x h) as [->|Ne].
      + assert (x0 = e) by congruence. subst x0. destruct (IH _ _ H h _ (aget_aset_eq _ _ _ _ He)) as (e' & A & B). exists e'. split; [exact A|]. intros k. rewrite B. cbn [e_set_sleep e_neighbors In]. rewrite hinsert_in. tauto.
      + destruct (IH _ _ H h e) as (e' & A & B); [rewrite aget_aset_neq by exact Ne; exact He|]. exists e'. split; [exact A|]. intros k. rewrite B. cbn [In]. tauto.
  Qed.
  Lemma sleeps_any dt et tt ns ns' (e : ientity T) : snd (sleep_decision dt et tt ns e) = snd (sleep_decision dt et tt ns' e).
  Proof. unfold sleep_decision. destruct (e_asleep e); [exact eq_refl|]. destruct (n_lt et _); [exact eq_refl|]. destruct (n_lt _ tt); exact eq_refl. Qed.
  Definition sleeps dt et tt (e : ientity T) : bool := snd (sleep_decision dt et tt [] e).
  Lemma sleep_one_nbrs dt et tt st i st' : sleep_one dt et tt st i = Ok st' -> forall h e, aget (fst st) h = Some e -> exists e', aget (fst st') h = Some e' /\
    forall k, In k (e_neighbors e') <->
      In k (if handle_eq_dec h (i_h i) then if sleeps dt et tt e then i_nbrs i else e_neighbors e else e_neighbors e) \/
      (k = i_h i /\ In h (i_nbrs i) /\ exists x, aget (fst st) (i_h i) = Some x /\ sleeps dt et tt x = true).
  Proof.
    destruct st as [ents dbg]. unfold sleep_one. intros H h e He. inv_ok H. cbn [fst] in *. rename E into Ex.
    destruct (sleep_decision dt et tt (i_nbrs i) x) as [d sl] eqn:Ed.
    assert (Sx : sleeps dt et tt x = sl) by (unfold sleeps; rewrite (sleeps_any _ _ _ [] (i_nbrs i)), Ed; exact eq_refl).
    assert (Dn : e_neighbors d = if sl then i_nbrs i else e_neighbors x).
    { unfold sleep_decision in Ed. destruct (e_asleep x); [injection Ed as <- <-; exact eq_refl|]. destruct (n_lt et _); [injection Ed as <- <-; exact eq_refl|]. destruct (n_lt _ tt); injection Ed as <- <-; exact eq_refl. }
    assert (G : exists e1, aget (aset ents (i_h i) d) h = Some e1 /\ e_neighbors e1 = if handle_eq_dec h (i_h i) then if sleeps dt et tt e then i_nbrs i else e_neighbors e else e_neighbors e).
    { destruct (handle_eq_dec h (i_h i)) as [->|Ne].
      - assert (x = e) by congruence. subst x. exists d. split; [exact (aget_aset_eq _ _ _ _ Ex)|]. rewrite Dn, Sx. exact eq_refl.
      - exists e. split; [rewrite aget_aset_neq by congruence; exact He|exact eq_refl]. }
    destruct G as (e1 & G1 & G2). destruct sl.
    - inv_ok H. inv_ok H. subst st'. cbn [fst]. destruct (told _ _ _ _ E h e1 G1) as (e' & A & B). exists e'. split; [exact A|]. intros k. rewrite B, G2.
      split; intros [Q|Q]; auto; right; [|tauto]. split; [tauto|]. split; [tauto|]. exists x. auto.
    - inv_ok H. subst st'. cbn [fst]. exists e1. split; [exact G1|]. intros k. rewrite G2. split; [auto|]. intros [Q|(_ & _ & y & Y1 & Y2)]; [exact Q|]. exfalso. congruence.
  Qed.
  Lemma sleep_one_sleeps dt et tt st i st' : sleep_one dt et tt st i = Ok st' -> forall h e, h <> i_h i -> aget (fst st) h = Some e ->
    exists e', aget (fst st') h = Some e' /\ sleeps dt et tt e' = sleeps dt et tt e.
  Proof.
    intros H h e Ne He. apply sleep_one_spec in H. destruct H as (x & _ & _ & H & _). destruct (H h e Ne He) as (e' & A & B). exists e'. split; [exact A|].
    unfold sleeps. apply (sleep_decision_nbr dt et tt [] h e e' B).
  Qed.
  Lemma sleep_phase_nbrs dt et tt l : NoDup (map i_h l) -> forall st st', rfold (sleep_one dt et tt) l st = Ok st' ->
    (forall i, In i l -> exists e, aget (fst st) (i_h i) = Some e) ->
    let tells h k := exists j x, In j l /\ i_h j = k /\ In h (i_nbrs j) /\ aget (fst st) k = Some x /\ sleeps dt et tt x = true in
    forall h e, aget (fst st) h = Some e -> exists e', aget (fst st') h = Some e' /\
      (sleeps dt et tt e = true -> forall i, In i l -> i_h i = h ->
         (forall k, In k (e_neighbors e') -> In k (i_nbrs i) \/ tells h k) /\ (forall k, In k (i_nbrs i) -> In k (e_neighbors e'))) /\
      ((sleeps dt et tt e = false \/ ~ In h (map i_h l)) -> forall k, In k (e_neighbors e') <-> In k (e_neighbors e) \/ tells h k).
  Proof.
    induction l as [|i l IH]; intros ND st st' H Al tells h e He; cbn [rfold] in H.
    - inv_ok H. subst st'. exists e. split; [exact He|]. split; [intros _ i []|]. intros _ k. split; [auto|]. intros [A|(j & x & [] & _)]; exact A.
    - apply rbind_ok in H. destruct H as (st1 & E & H). cbn [map] in ND. apply NoDup_cons_iff in ND. destruct ND as (Hi & ND).
      assert (Ne : forall j, In j l -> i_h j <> i_h i) by (intros j Hj Q; apply Hi; rewrite <- Q; now apply in_map).
      assert (Al1 : forall j, In j l -> exists e, aget (fst st1) (i_h j) = Some e).
      { intros j Hj. destruct (Al j (or_intror Hj)) as (y & Y). destruct (sleep_one_nbrs _ _ _ _ _ _ E _ _ Y) as (y' & Y' & _). eauto. }
      destruct (sleep_one_nbrs _ _ _ _ _ _ E h e He) as (e1 & A1 & B1). destruct (IH ND st1 st' H Al1 h e1 A1) as (e' & A & B & C). exists e'. split; [exact A|].
      assert (Tl : forall k, (exists j x, In j l /\ i_h j = k /\ In h (i_nbrs j) /\ aget (fst st1) k = Some x /\ sleeps dt et tt x = true) <->
                             (exists j x, In j l /\ i_h j = k /\ In h (i_nbrs j) /\ aget (fst st) k = Some x /\ sleeps dt et tt x = true)).
      { intros k. split; intros (j & x & J1 & <- & J3 & J4 & J5); destruct (Al j (or_intror J1)) as (y & Y); destruct (sleep_one_sleeps _ _ _ _ _ _ E _ _ (Ne j J1) Y) as (y' & Y' & Sy).
        - assert (y' = x) by congruence. subst. exists j, y. rewrite <- Sy. auto.
        - assert (y = x) by congruence. subst. exists j, y'. rewrite Sy. auto. }
      destruct (Al i (or_introl eq_refl)) as (ei & Ei).
      assert (Ts : forall k, tells h k <-> (k = i_h i /\ In h (i_nbrs i) /\ sleeps dt et tt ei = true) \/ (exists j x, In j l /\ i_h j = k /\ In h (i_nbrs j) /\ aget (fst st) k = Some x /\ sleeps dt et tt x = true)).
      { intros k. unfold tells. split.
        - intros (j & x & [<-|J1] & <- & J3 & J4 & J5); [left; assert (x = ei) by congruence; subst; auto|right; exists j, x; auto].
        - intros [(-> & J1 & J2)|(j & x & J1 & J2)]; [exists i, ei; split; [now left|auto]|exists j, x; split; [now right|exact J2]]. }
      destruct (handle_eq_dec h (i_h i)) as [->|Nh].
      + assert (ei = e) by congruence. subst ei. split.
        * intros Sl i' [<-|Hi'] Hh; [|exfalso; exact (Ne _ Hi' Hh)]. rewrite Sl in B1.
          assert (C' := C (or_intror Hi)). split; intros k Hk.
          -- apply C' in Hk. rewrite Tl in Hk. destruct Hk as [Hk|Hk]; [|right; apply Ts; auto]. apply B1 in Hk. destruct Hk as [Hk|(-> & Hk & _)]; [now left|]. now left.
          -- apply C'. left. apply B1. now left.
        * intros [Sl|Q]; [|exfalso; apply Q; now left]. intros k. rewrite (C (or_intror Hi)), B1, Sl, Tl, Ts.
          assert (Z : (exists x, aget (fst st) (i_h i) = Some x /\ sleeps dt et tt x = true) -> False) by (intros (x & X1 & X2); congruence).
          split; [intros [[Q|(_ & _ & Q)]|Q]; tauto|]. intros [Q|[(_ & _ & Q)|Q]]; [tauto|congruence|tauto].
      + destruct (sleep_one_sleeps _ _ _ _ _ _ E h e Nh He) as (e1' & A1' & S1). assert (e1' = e1) by congruence. subst e1'. split.
        * intros Sl i' [<-|Hi'] Hh; [congruence|]. rewrite <- S1 in Sl. destruct (B Sl i' Hi' Hh) as (B2 & B3). split; [|exact B3]. intros k Hk. apply B2 in Hk. rewrite Tl in Hk. destruct Hk as [Hk|Hk]; [now left|right; apply Ts; auto].
        * intros Q k. assert (Q' : sleeps dt et tt e1 = false \/ ~ In h (map i_h l)) by (rewrite S1; destruct Q as [Q|Q]; [now left|right; intros X; apply Q; now right]).
          rewrite (C Q'), B1, Tl, Ts. split.
          -- intros [[Q2|(-> & Q2 & x & X1 & X2)]|Q2]; [now left| |auto]. right. left. assert (x = ei) by congruence. subst. auto.
          -- intros [Q2|[(-> & Q2 & Q3)|Q2]]; [auto| |auto]. left. right. split; [exact eq_refl|]. split; [exact Q2|]. exists ei. auto.
  Qed.

  (** ** The whole step *)
  Lemma phase_contacts ord s dt s' s1 infos st : good_order ord -> step ord s dt = Ok s' -> n_lt (n_abs dt) EPSILON = false ->
    rfold (integrate_one dt (ahandles (s_gens s))) (ahandles (s_ents s))
      (mkS (s_ents s) (s_cols s) (s_gens s) (s_iteration_max s) [] (s_energy_thr s) (s_time_thr s) [], []) = Ok (s1, infos) ->
    iterations ord (s_cols s) dt (s_iteration_max s) (mkL (s_ents s1) infos dt n0 [] []) = Ok st ->
    rfold (sleep_one dt (s_energy_thr s) (s_time_thr s)) (l_infos st) (l_ents st, l_debug st) = Ok (s_ents s', s_debug s') ->
    s_records s' = l_records st -> map i_h infos = ahandles (s_ents s1) -> arel Rvel (s_ents s) (s_ents s1) ->
    let kn := knows (l_infos st) in (forall h k, kn h k -> kn k h /\ met (s_records s') h k) /\
    (forall h, In (DSleep h) (s_debug s') -> forall k, contact (s_ents s') h k <-> kn h k) /\
    (forall h k, ~ In (DSleep h) (s_debug s') -> contact (s_ents s') h k -> (~ roused s s' h /\ contact (s_ents s) h k) \/ (In (DSleep k) (s_debug s') /\ kn k h)) /\
    (forall h k, ~ In (DSleep h) (s_debug s') -> In (DSleep k) (s_debug s') -> kn k h -> contact (s_ents s') h k) /\
    (forall h k, ~ In (DSleep h) (s_debug s') -> ~ roused s s' h -> movable (s_ents s) h -> contact (s_ents s) h k -> contact (s_ents s') h k).
  Proof.
    intros Ho H Hd P1 P2 P3 P4 P6 P7. cbv zeta. destruct (step_entity _ _ _ _ Ho H Hd) as (Dec & SE & NoS & RO & _). pose proof (step_frame _ _ _ _ H) as (Fs & _).
    pose proof (integrate_spec _ _ _ P1) as (_ & _ & _ & Q4). cbn [fst snd s_ents s_gens] in *.
    set (st0 := mkL _ _ _ _ _ _) in P2.
    assert (LI0 := loop_inv_init (s_cols s) (s_ents s1) infos dt P6). fold st0 in LI0.
    assert (Mu0 : mutual (l_infos st0) (l_records st0)).
    { assert (Z : forall h k, ~ knows infos h k). { intros h k (i & Hi & _ & Hk). destruct (Q4 i Hi) as (e & _ & _ & _ & Z). rewrite Z in Hk. destruct Hk. }
      split; intros h k Hk; elim (Z _ _ Hk). }
    pose proof (iterations_mutual _ _ _ _ _ Ho _ _ LI0 Mu0 P2) as [Sy Me].
    apply (iterations_inv ord (s_cols s) dt (s_ents s1) (s_iteration_max s) Ho _ _ LI0) in P2.
    destruct P2 as ([L1 L2 L3 L4] & j & d & J1 & J2 & J3 & J4). cbn [st0 l_records l_debug length] in *.
    assert (ND : NoDup (map i_h (l_infos st))) by (rewrite L2; apply ahandles_nodup).
    pose proof (sleep_phase_spec _ _ _ _ ND _ _ P3) as (S1 & ds & S2 & S3). cbn [fst snd] in *.
    assert (F : forall x, finite_at (s_ents s1) x <-> finite_at (s_ents s) x) by (intros x; apply (finite_at_step _ _ _ x P7 (Rvel_Rstep))).
    assert (F' : forall x, finite_at (s_ents s') x <-> finite_at (s_ents s) x) by (intros x; apply (finite_at_step _ _ _ x Fs); auto).
    assert (Ro : forall k, roused s s' k <-> woken_by (s_ents s1) (l_records st) k).
    { intros k. unfold roused, struck, woken_by. rewrite <- P4. split.
      - intros (x & ((r & Hr & Hx) & (e & He & Hf)) & Hc). exists x. split; [exists r; auto|].
        split; [|now apply (connected_vel _ _ _ _ P7)]. apply F. apply F'. unfold get_entity in He.
        destruct (aget (s_ents s') x) as [e''|] eqn:Ee; [|discriminate]. injection He as <-. exists e''. auto.
      - intros (x & (r & Hr & Hx) & Hf & Hc). exists x. split; [|now apply (connected_vel _ _ _ _ P7)].
        split; [eauto|]. apply F, F' in Hf. destruct Hf as (e & He & Hf). exists (make_pub e). unfold get_entity. rewrite He. auto. }
    assert (DS : forall h, In (DSleep h) (s_debug s') <-> In (DSleep h) ds).
    { intros h. rewrite S2, in_app_iff. split; auto. intros [Hx|Hx]; auto. exfalso. rewrite J4 in Hx. destruct J3 as (l & -> & Fl).
      assert (Hl : In (DSleep h) l) by (destruct (Nat.eqb j _); auto; apply in_app_or in Hx; destruct Hx as [Hx|[Hx|[]]]; [auto|discriminate]).
      rewrite Forall_forall in Fl. apply (Fl _ Hl). }
    assert (Al : forall i, In i (l_infos st) -> exists e, aget (l_ents st) (i_h i) = Some e).
    { intros i Hi. assert (Hh : In (i_h i) (ahandles (s_ents s1))) by (rewrite <- L2; now apply in_map). apply ahandles_in in Hh.
      destruct (aget (s_ents s1) (i_h i)) as [x|] eqn:Ex; [|congruence]. destruct (arel_get _ _ _ _ _ (sl_ents _ _ _ L1) Ex) as (y & Y & _). eauto. }
    pose proof (sleep_phase_nbrs _ _ _ _ ND _ _ P3 Al) as SN. cbv zeta in SN. cbn [fst] in SN.
    set (et := s_energy_thr s) in *. set (tt := s_time_thr s) in *.
    assert (SlD : forall h, In (DSleep h) (s_debug s') <-> exists e, aget (l_ents st) h = Some e /\ In h (map i_h (l_infos st)) /\ sleeps dt et tt e = true).
    { intros h. rewrite DS, S3. split.
      - intros (i & e & I1 & I2 & I3 & I4). injection I4 as ->. exists e. split; [exact I2|]. split; [now apply in_map|]. unfold sleeps. rewrite (sleeps_any _ _ _ [] (i_nbrs i)). exact I3.
      - intros (e & I1 & I2 & I3). apply in_map_iff in I2. destruct I2 as (i & <- & Hi). exists i, e. split; [exact Hi|]. split; [exact I1|]. split; [|exact eq_refl]. unfold sleeps in I3. rewrite (sleeps_any _ _ _ [] (i_nbrs i)) in I3. exact I3. }
    assert (One : forall i i', In i (l_infos st) -> In i' (l_infos st) -> i_h i = i_h i' -> i = i').
    { intros i i' Hi Hi' Eq. apply In_nth_error in Hi. destruct Hi as (a & Hi). apply In_nth_error in Hi'. destruct Hi' as (b & Hi').
      assert (a = b); [|congruence]. eapply (proj1 (NoDup_nth_error (map i_h (l_infos st)))); eauto.
      - rewrite map_length. apply nth_error_Some. congruence.
      - rewrite !nth_error_map, Hi, Hi'. simpl. congruence. }
    assert (Lv : forall h e', aget (s_ents s') h = Some e' -> exists e1 e2, aget (s_ents s1) h = Some e1 /\ aget (l_ents st) h = Some e2 /\ slept_one (s_ents s1) (woken_by (s_ents s1) (l_records st)) h e1 e2 /\ In h (map i_h (l_infos st))).
    { intros h e' He'. destruct (arel_get_r _ _ _ _ _ Fs He') as (e & He & _). destruct (arel_get _ _ _ _ _ P7 He) as (e1 & He1 & _).
      destruct (arel_get _ _ _ _ _ (sl_ents _ _ _ L1) He1) as (e2 & He2 & Sl). exists e1, e2. split; [exact He1|]. split; [exact He2|]. split; [exact Sl|]. rewrite L2, ahandles_in. congruence. }
    assert (Tells : forall h k, (exists j x, In j (l_infos st) /\ i_h j = k /\ In h (i_nbrs j) /\ aget (l_ents st) k = Some x /\ sleeps dt et tt x = true) <-> In (DSleep k) (s_debug s') /\ knows (l_infos st) k h).
    { intros h k. rewrite SlD. split.
      - intros (i & x & I1 & <- & I3 & I4 & I5). split; [exists x; split; [exact I4|]; split; [now apply in_map|exact I5]|]. exists i. auto.
      - intros ((x & X1 & _ & X3) & (i & I1 & I2 & I3)). exists i, x. auto 10. }
    split; [|split; [|split; [|split]]].
    - intros h k Hk. split; [now apply Sy|]. rewrite P4. now apply Me.
    - intros h Hs k. apply SlD in Hs. destruct Hs as (e2 & He2 & Hi & Sl). apply in_map_iff in Hi. destruct Hi as (i & Hih & Hi).
      destruct (SN h e2 He2) as (e' & He' & B & _). destruct (B Sl i Hi Hih) as (B1 & B2). unfold contact. split.
      + intros (x & X1 & X2). assert (x = e') by congruence. subst x. apply B1 in X2. destruct X2 as [X2|X2]; [exists i; auto|]. apply Sy. now apply Tells in X2.
      + intros (i' & I1 & I2 & I3). assert (i' = i) by (apply One; congruence). subst i'. exists e'. auto.
    - intros h k Hn (e' & He' & Hk). destruct (Lv h e' He') as (e1 & e2 & He1 & He2 & (A1 & A2 & A3 & A4 & A5) & Hi).
      destruct (SN h e2 He2) as (e'' & He'' & _ & C). assert (e'' = e') by congruence. subst e''.
      assert (Sf : sleeps dt et tt e2 = false) by (destruct (sleeps dt et tt e2) eqn:Q; [|exact eq_refl]; exfalso; apply Hn, SlD; exists e2; auto).
      apply (C (or_introl Sf)) in Hk. rewrite Tells in Hk. destruct Hk as [Hk|Hk]; [|now right]. left. rewrite Ro.
      destruct (Dec h) as [R|R]; rewrite Ro in R; [destruct (A4 R) as (_ & Z); rewrite Z in Hk; destruct Hk|]. split; [exact R|].
      destruct (arel_get_r _ _ _ _ _ P7 He1) as (e & He & v & w & ->). exists e. split; [exact He|]. destruct (A5 R) as (_ & Inc & _). exact (Inc _ Hk).
    - intros h k Hn Hs Hk. assert (Hm := Me _ _ Hk). destruct (SlD k) as (D1 & _). pose proof Hk as (i & Hi & Hik & Hih).
      assert (Hl : exists e', aget (s_ents s') h = Some e').
      { apply Sy in Hk. destruct Hk as (i' & Hi' & <- & _). destruct (Al i' Hi') as (x & X). destruct (S1 _ _ X) as (e' & He' & _). eauto. }
      destruct Hl as (e' & He'). destruct (Lv h e' He') as (e1 & e2 & He1 & He2 & _ & Hih').
      destruct (SN h e2 He2) as (e'' & He'' & _ & C). assert (e'' = e') by congruence. subst e''.
      assert (Sf : sleeps dt et tt e2 = false) by (destruct (sleeps dt et tt e2) eqn:Q; [|exact eq_refl]; exfalso; apply Hn, SlD; exists e2; auto).
      exists e'. split; [exact He'|]. apply (C (or_introl Sf)). right. apply Tells. auto.
    - intros h k Hn Hr (e & He & Hm) (ek & Hek & Hk). assert (ek = e) by congruence. subst ek.
      destruct (arel_get _ _ _ _ _ Fs He) as (e' & He' & _). destruct (Lv h e' He') as (e1 & e2 & He1 & He2 & (A1 & A2 & A3 & A4 & A5) & Hi).
      destruct (SN h e2 He2) as (e'' & He'' & _ & C). assert (e'' = e') by congruence. subst e''.
      assert (Sf : sleeps dt et tt e2 = false) by (destruct (sleeps dt et tt e2) eqn:Q; [|exact eq_refl]; exfalso; apply Hn, SlD; exists e2; auto).
      exists e'. split; [exact He'|]. apply (C (or_introl Sf)). left. rewrite Ro in Hr. destruct (A5 Hr) as (_ & _ & A & _).
      destruct (arel_get _ _ _ _ _ P7 He) as (e1' & He1' & v & w & ->). assert (e1 = e_set_vels e v w) by congruence. subst e1. rewrite (A Hm). exact Hk.
  Qed.
  Lemma step_contacts ord s dt s' : good_order ord -> step ord s dt = Ok s' -> n_lt (n_abs dt) EPSILON = false ->
    exists kn : handle -> handle -> Prop, (forall h k, kn h k -> kn k h /\ met (s_records s') h k) /\
    (forall h, In (DSleep h) (s_debug s') -> forall k, contact (s_ents s') h k <-> kn h k) /\
    (forall h k, ~ In (DSleep h) (s_debug s') -> contact (s_ents s') h k -> (~ roused s s' h /\ contact (s_ents s) h k) \/ (In (DSleep k) (s_debug s') /\ kn k h)) /\
    (forall h k, ~ In (DSleep h) (s_debug s') -> In (DSleep k) (s_debug s') -> kn k h -> contact (s_ents s') h k) /\
    (forall h k, ~ In (DSleep h) (s_debug s') -> ~ roused s s' h -> movable (s_ents s) h -> contact (s_ents s) h k -> contact (s_ents s') h k).
  Proof.
    intros Ho H Hd. destruct (step_phases _ _ _ _ H Hd) as (s1 & infos & st & P1 & P2 & P3 & P4 & P5 & P6 & P7). cbv zeta in P1.
    exists (knows (l_infos st)). exact (phase_contacts _ _ _ _ _ _ _ Ho H Hd P1 P2 P3 P4 P6 P7).
  Qed.

  Lemma dmsg_dec (x y : dmsg) : {x = y} + {x <> y}.
  Proof. decide equality; apply handle_eq_dec. Qed.
  Lemma step_mutual ord s dt s' : good_order ord -> step ord s dt = Ok s' -> n_lt (n_abs dt) EPSILON = false ->
    (forall h k, In (DSleep h) (s_debug s') -> contact (s_ents s') h k -> met (s_records s') h k /\ contact (s_ents s') k h) /\
    (forall h k, ~ In (DSleep h) (s_debug s') -> contact (s_ents s') h k ->
       (~ roused s s' h /\ contact (s_ents s) h k) \/ (In (DSleep k) (s_debug s') /\ contact (s_ents s') k h)) /\
    (forall h k, ~ In (DSleep h) (s_debug s') -> ~ roused s s' h -> movable (s_ents s) h -> contact (s_ents s) h k -> contact (s_ents s') h k).
  Proof.
    intros Ho H Hd. destruct (step_contacts _ _ _ _ Ho H Hd) as (kn & A & B & C & D & E). split; [|split; [|exact E]].
    - intros h k Hs Hc. apply (B h Hs) in Hc. destruct (A _ _ Hc) as (Hc' & M). split; [exact M|].
      destruct (in_dec dmsg_dec (DSleep k) (s_debug s')) as [Q|Q]; [now apply (B k Q)|now apply D].
    - intros h k Hs Hc. destruct (C h k Hs Hc) as [X|(X & Y)]; [now left|right]. split; [exact X|now apply (B k X)].
  Qed.

  (** ** Updates *)
  Lemma update_contacts ord s h src s' b e : good_order ord -> update_entity ord s h src = Ok (s', b) -> aget (s_ents s) h = Some e ->
    let woken k := b = true /\ noticed e src /\ connected (s_ents s) h k in
    (forall k x, woken k -> ~ contact (s_ents s') k x) /\
    (forall k x, contact (s_ents s') k x -> contact (s_ents s) k x) /\
    (forall k x, ~ woken k -> movable (s_ents s) k \/ ~ woken x -> contact (s_ents s) k x -> contact (s_ents s') k x).
  Proof.
    intros Ho H He. cbv zeta. unfold update_entity in H. rewrite He in H.
    destruct (update_from e src) as [[e1 w]|] eqn:U.
    2:{ inv_ok H. subst. split; [intros k x (Q & _); discriminate|]. tauto. }
    inv_ok H. rename x into e2. pose proof (update_from_noticed _ _ _ _ U) as Hn. pose proof (update_from_sleep _ _ _ _ U) as (N1 & A1 & _).
    apply recalc_frame in E. destruct E as (o & m & i & ->). set (e2 := e_set_mass e1 o m i) in *.
    assert (Ct : forall a c, contact (aset (s_ents s) h e2) a c <-> contact (s_ents s) a c).
    { intros a c. unfold contact. destruct (handle_eq_dec h a) as [<-|Hne].
      - rewrite (aget_aset_eq _ _ _ _ He). split; intros (x & Hx & Hb); [injection Hx as <-; exists e|assert (x = e) by congruence; subst x; eexists]; (split; [eauto|]); simpl in *; congruence.
      - rewrite aget_aset_neq by auto. tauto. }
    assert (Mv : forall c, c <> h -> movable (s_ents s) c <-> movable (aset (s_ents s) h e2) c).
    { intros c Hb. unfold movable. rewrite aget_aset_neq by congruence. tauto. }
    assert (C : forall k, connected (s_ents s) h k <-> connected (aset (s_ents s) h e2) h k).
    { intros k. split; intros Hk; induction Hk as [|a c Ha IH Hab Hb]; try apply conn_start;
        (destruct (handle_eq_dec c h) as [->|Hne]; [apply conn_start|apply (conn_next _ _ a); [exact IH|now apply Ct|now apply Mv]]). }
    destruct w.
    - inv_ok H. inv_ok H. subst s' b. simpl in E. destruct x as [ents' dbg']. simpl in *.
      destruct (wake_up_exact _ _ _ _ _ _ Ho E) as (W & Dec & _).
      assert (Wk : forall k, (true = true /\ noticed e src /\ connected (s_ents s) h k) <-> connected (aset (s_ents s) h e2) h k).
      { intros k. rewrite <- C. split; [tauto|]. intros Q. split; [exact eq_refl|]. split; [now apply Hn|exact Q]. }
      split; [|split].
      + intros k x Hw (ek & Hek & Hx). apply Wk in Hw. specialize (W k). rewrite Hek in W. destruct (aget (aset (s_ents s) h e2) k) as [e0|]; [|tauto]. destruct W as (W & _).
        rewrite (W Hw) in Hx. destruct Hx.
      + intros k x (ek & Hek & Hx). apply Ct. specialize (W k). rewrite Hek in W. destruct (aget (aset (s_ents s) h e2) k) as [e0|] eqn:E0; [|tauto]. destruct W as (W1 & W2 & W3).
        exists e0. split; [exact E0|]. destruct (Dec k) as [Q|Q]; [rewrite (W1 Q) in Hx; destruct Hx|].
        destruct (handle_eq_dec k h) as [->|Hne]; [exfalso; apply Q, conn_start|].
        destruct (n_isinf (e_total_mass e0)) eqn:Hi; [|now rewrite (W2 Q (or_intror eq_refl)) in Hx].
        destruct (W3 Q Hne eq_refl) as (ns & -> & Hns). now apply Hns in Hx.
      + intros k x Hw Hm Hc. rewrite Wk in Hw. apply Ct in Hc. destruct Hc as (e0 & E0 & Hx). specialize (W k). rewrite E0 in W. destruct (aget ents' k) as [ek|] eqn:Ek; [|tauto]. destruct W as (W1 & W2 & W3).
        exists ek. split; [exact Ek|]. destruct (handle_eq_dec k h) as [->|Hne]; [exfalso; apply Hw, conn_start|].
        destruct (n_isinf (e_total_mass e0)) eqn:Hi; [|now rewrite (W2 Hw (or_intror eq_refl))].
        destruct (W3 Hw Hne eq_refl) as (ns & -> & Hns). cbn [e_set_sleep e_neighbors]. apply Hns. split; [exact Hx|].
        destruct Hm as [Hm|Hm]; [exfalso; apply Mv in Hm; [|exact Hne]; destruct Hm as (y & Y & Z); congruence|]. intros (Q & _). apply Hm, Wk, Q.
    - inv_ok H. subst s' b. cbn [s_ents]. split; [|split].
      + intros k x (_ & Q & _). apply Hn in Q. discriminate.
      + intros k x. now rewrite Ct.
      + intros k x _ _. now rewrite Ct.
  Qed.
End Contact.
