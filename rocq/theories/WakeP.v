(** * WakeP: waking up (C10) *)
From Coq Require Import List Permutation Bool Arith Lia.
Import ListNotations.
From Verif Require Import Num Vec Res Arena Orient Colliders Collide EntityM SystemM Spec ResP ArenaP FrameP StoreP.

Section Wake.
  Context {T : Type} {N : Num T}.
  Implicit Types (ents : arena (ientity T)) (e : ientity T) (h t : handle).

  (** ** The number of recorded contacts *)
  Lemma edge_count_aset ents h e e' : aget ents h = Some e ->
    edge_count (aset ents h e') + length (e_neighbors e) = edge_count ents + length (e_neighbors e').
  Proof.
    intros H. unfold edge_count, avalues, aset. rewrite H. simpl. apply aget_nth in H.
    revert H. generalize (h_idx h) as i. induction (a_items ents) as [|x l IH]; intros [|i] H; simpl in *; try discriminate.
    - injection H as ->. simpl. lia.
    - specialize (IH i H). destruct x; simpl; lia.
  Qed.

  Definition Wake_tgt t (done : list handle) l h e e1 : Prop :=
    e1 = e \/ (In h l /\ ~ In h done /\ n_isinf (e_total_mass e) = true /\
               e1 = e_set_sleep e (e_asleep e) (hremove t (e_neighbors e))).

  (** One target's neighbours. *)
  Lemma hremove_idem t l : hremove t (hremove t l) = hremove t l.
  Proof.
    unfold hremove. induction l as [|x l IH]; simpl; auto. destruct (negb (heqb t x)) eqn:E; simpl; rewrite ?E, IH; auto.
  Qed.
  Lemma set_sleep_twice e a l b m : e_set_sleep (e_set_sleep e a l) b m = e_set_sleep e b m.
  Proof. reflexivity. Qed.
  Lemma set_sleep_same e : e_set_sleep e (e_asleep e) (e_neighbors e) = e.
  Proof. now destruct e. Qed.

  Lemma wake_neighbors_spec t done l : forall ents dbg q ents1 dbg1 q1,
    rfold (wake_neighbor (T:=T) t done) l (ents, dbg, q) = Ok (ents1, dbg1, q1) ->
    (exists added, q1 = q ++ added /\ length added + edge_count ents1 <= length l + edge_count ents /\
       (forall b, In b added <-> In b l /\ ~ In b done /\ movable ents b)) /\
    (forall b, In b l -> ~ In b done -> aget ents b <> None) /\
    (forall h, match aget ents h with
     | Some e => aget ents1 h = Some (if hmem h l && negb (hmem h done) && n_isinf (e_total_mass e)
                                      then e_set_sleep e (e_asleep e) (hremove t (e_neighbors e)) else e)
     | None => aget ents1 h = None
     end).
  Proof.
    induction l as [|n l IH]; intros ents dbg q ents1 dbg1 q1 H.
    - simpl in H. injection H as <- <- <-. split; [exists []; rewrite app_nil_r; split; auto; split; auto; simpl; tauto|].
      split; [intros b []|]. intros h. simpl. destruct (aget ents h); auto.
    - cbn [rfold] in H. apply rbind_ok in H. destruct H as ([[ents2 dbg2] q2] & E & H).
      unfold wake_neighbor in E. destruct (hmem n done) eqn:Hd.
      + injection E as <- <- <-. destruct (IH _ _ _ _ _ _ H) as ((ad & -> & L1 & A1) & A2 & A3).
        apply hmem_spec in Hd. split; [|split].
        * exists ad. split; auto. split; [simpl; lia|]. intros b. rewrite A1. simpl. intuition subst; tauto.
        * intros b [<-|Hb]; [tauto|auto].
        * intros h. specialize (A3 h). destruct (aget ents h) as [e|]; auto. rewrite A3. simpl.
          unfold hmem at 3. simpl. fold (hmem h l). destruct (heqb_spec h n) as [->|Hne]; [|reflexivity].
          apply hmem_spec in Hd. rewrite Hd. now rewrite !andb_false_r.
      + apply rbind_ok in E. destruct E as (en & En & E). apply unwrap_ok in En.
        assert (Hnd : ~ In n done) by (apply hmem_false; exact Hd).
        destruct (n_isinf (e_total_mass en)) eqn:Hi.
        * injection E as <- <- <-. destruct (IH _ _ _ _ _ _ H) as ((ad & -> & L1 & A1) & A2 & A3).
          pose proof (edge_count_aset ents n en (e_set_sleep en (e_asleep en) (hremove t (e_neighbors en))) En) as Hc.
          simpl in Hc. pose proof (hremove_length t (e_neighbors en)) as Hl.
          assert (Hmov : forall b, movable (aset ents n (e_set_sleep en (e_asleep en) (hremove t (e_neighbors en)))) b <-> movable ents b).
          { intros b. unfold movable. rewrite aget_aset. destruct (heqb_spec n b) as [<-|Hne]; [|reflexivity].
            rewrite En. split; intros (x & Hx & Hf); injection Hx as <-; eexists; split; eauto. }
          split; [|split].
          -- exists ad. split; auto. split; [simpl; lia|]. intros b. rewrite A1, Hmov. simpl.
             split; [tauto|]. intros ([<-|Hb] & Hb2 & Hb3); [|tauto]. destruct Hb3 as (x & Hx & Hf). congruence.
          -- intros b [<-|Hb] Hb2; [congruence|]. specialize (A2 b Hb Hb2). rewrite aget_aset_none in A2. exact A2.
          -- intros h. specialize (A3 h). rewrite aget_aset in A3. destruct (heqb_spec n h) as [Heq|Hne]; [subst h|].
             ++ rewrite En in *. rewrite A3. simpl. unfold hmem at 3. simpl. rewrite heqb_refl. simpl. rewrite Hd, Hi. simpl.
                rewrite andb_true_r. destruct (hmem n l); simpl; auto. now rewrite hremove_idem.
             ++ destruct (aget ents h) as [e|]; auto. rewrite A3. unfold hmem at 3. simpl. fold (hmem h l).
                rewrite (heqb_neq h n) by congruence. reflexivity.
        * injection E as <- <- <-. destruct (IH _ _ _ _ _ _ H) as ((ad & -> & L1 & A1) & A2 & A3).
          split; [|split].
          -- exists (n :: ad). split; [now rewrite <- app_assoc|]. split; [simpl; lia|]. intros b. simpl. rewrite A1.
             split; [intros [<-|Hb]; [repeat split; auto; exists en; auto|tauto]|tauto].
          -- intros b [<-|Hb] Hb2; [congruence|auto].
          -- intros h. specialize (A3 h). destruct (aget ents h) as [e|] eqn:Eh; auto. rewrite A3.
             unfold hmem at 3. simpl. fold (hmem h l). destruct (heqb_spec h n) as [->|Hne]; [|reflexivity].
             assert (e = en) by congruence. subst e. rewrite Hi, !andb_false_r. reflexivity.
  Qed.
  Lemma wake_neighbors_total t done l : forall ents dbg q,
    (forall b, In b l -> ~ In b done -> aget ents b <> None) ->
    exists r, rfold (wake_neighbor (T:=T) t done) l (ents, dbg, q) = Ok r.
  Proof.
    induction l as [|n l IH]; intros ents dbg q H; cbn [rfold]; [eauto|]. unfold wake_neighbor at 1.
    destruct (hmem n done) eqn:Hd; [apply IH; intros; apply H; simpl; auto|].
    destruct (aget ents n) as [e|] eqn:E; [|exfalso; apply (H n); simpl; auto; now apply hmem_false].
    simpl. destruct (n_isinf _); apply IH; intros b Hb Hb2.
    - rewrite aget_aset_none. apply H; simpl; auto.
    - apply H; simpl; auto.
  Qed.
  Lemma wake_neighbors_nofuel t done l : forall st, rfold (wake_neighbor (T:=T) t done) l st <> Fuel.
  Proof.
    induction l as [|n l IH]; intros [[ents dbg] q]; cbn [rfold]; [discriminate|]. unfold wake_neighbor at 1.
    destruct (hmem n done); [apply IH|]. destruct (aget ents n); simpl; [|discriminate].
    destruct (n_isinf _); apply IH.
  Qed.

  (** ** Termination *)
  Lemma wake_loop_nofuel ord (Ho : good_order ord) fuel : forall done q ents dbg,
    length q + edge_count ents <= fuel -> wake_loop (T:=T) ord fuel done q ents dbg <> Fuel.
  Proof.
    induction fuel as [|fuel IH]; intros done q ents dbg Hf; destruct q as [|t q]; cbn [wake_loop]; try discriminate.
    { simpl in Hf. lia. }
    destruct (aget ents t) as [et|] eqn:Et; simpl; [|discriminate].
    destruct (rfold _ _ _) as [[[ents1 dbg1] q1]| |] eqn:E; simpl; [|discriminate|].
    - destruct (aget ents1 t) as [et1|] eqn:Et1; simpl; [|discriminate]. apply IH.
      destruct (wake_neighbors_spec _ _ _ _ _ _ _ _ _ E) as ((ad & -> & L1 & A1) & A2 & A3).
      specialize (A3 t). rewrite Et in A3.
      assert (Hm : hmem t (hinsert t done) = true) by (apply hmem_spec, hinsert_in; auto).
      rewrite Hm in A3. simpl in A3. rewrite andb_false_r in A3. simpl in A3. assert (et1 = et) by congruence. subst et1.
      pose proof (edge_count_aset ents1 t et (e_set_sleep et false []) Et1) as Hc. simpl in Hc.
      rewrite (Permutation_length (Ho _ _ _)) in L1. rewrite app_length. simpl in Hf. lia.
    - exfalso. eapply wake_neighbors_nofuel; eauto.
  Qed.
  Lemma wake_up_nofuel ord start ents dbg : good_order ord -> wake_up (T:=T) ord start ents dbg <> Fuel.
  Proof. intros Ho. apply wake_loop_nofuel; auto. Qed.

  (** ** The result *)
  (** What an entity becomes when the entities in [W] have been woken. *)
  Definition after_wake ents0 start (W : handle -> Prop) h e0 e : Prop :=
    (W h -> e = e_set_sleep e0 false []) /\
    (~ W h -> (h = start \/ n_isinf (e_total_mass e0) = false) -> e = e0) /\
    (~ W h -> h <> start -> n_isinf (e_total_mass e0) = true ->
       exists ns, e = e_set_sleep e0 (e_asleep e0) ns /\
         forall x, In x ns <-> In x (e_neighbors e0) /\ ~ (W x /\ contact ents0 x h)).

  Record wake_inv ents0 start (done q : list handle) ents : Prop := {
    wi_conn : forall x, In x done \/ In x q -> connected ents0 start x;
    wi_start : In start done \/ (done = [] /\ q = [start]);
    wi_closed : forall a b, In a done -> contact ents0 a b -> movable ents0 b -> In b done \/ In b q;
    wi_alive : forall a b, In a done -> contact ents0 a b -> aget ents0 b <> None;
    wi_aliveq : forall a, In a done -> aget ents0 a <> None;
    wi_ents : forall h, match aget ents0 h, aget ents h with
              | Some e0, Some e => after_wake ents0 start (fun x => In x done) h e0 e
              | None, None => True
              | _, _ => False end }.

  Lemma conn_cases ents0 start x : connected ents0 start x -> x = start \/ movable ents0 x.
  Proof. intros H. destruct H; auto. Qed.

  Lemma wake_inv_init ents0 start : wake_inv ents0 start [] [start] ents0.
  Proof.
    split; simpl; auto; try tauto.
    - intros x [[]|[<-|[]]]. apply conn_start.
    - intros h. destruct (aget ents0 h) as [e|]; auto. split; [tauto|]. split; auto. intros _ _ _.
      exists (e_neighbors e). split; [now destruct e|]. tauto.
  Qed.

  Lemma wake_inv_step ord (Ho : good_order ord) ents0 start done t q ents dbg et ents1 dbg1 q1 et1 :
    wake_inv ents0 start done (t :: q) ents ->
    aget ents t = Some et ->
    rfold (wake_neighbor t (hinsert t done)) (ord KNeighbors t (e_neighbors et)) (ents, dbg, q) = Ok (ents1, dbg1, q1) ->
    aget ents1 t = Some et1 ->
    wake_inv ents0 start (hinsert t done) q1 (aset ents1 t (e_set_sleep et1 false [])).
  Proof.
    intros [I1 I2 I3 I3b I3c I4] Et E Et1. set (done' := hinsert t done) in *.
    assert (Din : forall x, In x done' <-> x = t \/ In x done) by (intros; apply hinsert_in).
    destruct (wake_neighbors_spec _ _ _ _ _ _ _ _ _ E) as ((ad & -> & _ & A1) & A2 & A3).
    assert (Ol : forall b, In b (ord KNeighbors t (e_neighbors et)) <-> In b (e_neighbors et)).
    { intros b. split; apply Permutation_in; [|apply Permutation_sym]; apply Ho. }
    assert (Ct : connected ents0 start t) by (apply I1; simpl; auto).
    (* the entity t before *)
    pose proof (I4 t) as It. rewrite Et in It. destruct (aget ents0 t) as [et0|] eqn:Et0; [|tauto].
    assert (Nt : ~ In t done -> et = et0).
    { intros Hn. destruct It as (_ & It & _). apply It; auto. destruct (conn_cases _ _ _ Ct) as [->|(x & Hx & Hf)]; auto.
      right. congruence. }
    assert (Dt : In t done -> et = e_set_sleep et0 false []) by apply It.
    assert (Het1 : et1 = et).
    { pose proof (A3 t) as Ht. rewrite Et in Ht.
      assert (Hm : hmem t done' = true) by (apply hmem_spec, Din; auto).
      rewrite Hm, andb_false_r in Ht. simpl in Ht. congruence. }
    subst et1.
    assert (Mov : forall b, movable ents b <-> movable ents0 b).
    { intros b. unfold movable. pose proof (I4 b) as Ib. destruct (aget ents0 b) as [e0|], (aget ents b) as [e|]; try tauto.
      - assert (e_total_mass e = e_total_mass e0).
        { destruct Ib as (B1 & B2 & B3). destruct (in_dec handle_eq_dec b done) as [Hb|Hb]; [now rewrite (B1 Hb)|].
          destruct (handle_eq_dec b start) as [->|Hs]; [rewrite B2; auto|]. destruct (n_isinf (e_total_mass e0)) eqn:Hi.
          - destruct (B3 Hb Hs eq_refl) as (ns & -> & _). reflexivity.
          - rewrite B2; auto. }
        split; intros (x & Hx & Hf); injection Hx as <-; eexists; split; eauto; congruence. }
    assert (Contact : ~ In t done -> forall b, contact ents0 t b <-> In b (e_neighbors et)).
    { intros Hn b. unfold contact. rewrite Et0, (Nt Hn). split; [intros (x & Hx & Hb); now injection Hx as <-|eauto]. }
    assert (Nonbr : In t done -> e_neighbors et = []) by (intros Hd; now rewrite (Dt Hd)).
    split.
    - intros x [Hx|Hx].
      + apply Din in Hx. destruct Hx as [->|Hx]; auto.
      + apply in_app_iff in Hx. destruct Hx as [Hx|Hx]; [apply I1; simpl; auto|].
        apply A1 in Hx. destruct Hx as (Hx & Hnd & Hm). apply Ol in Hx. apply Mov in Hm.
        destruct (in_dec handle_eq_dec t done) as [Hd|Hd]; [rewrite (Nonbr Hd) in Hx; destruct Hx|].
        apply (conn_next _ _ t); auto. now apply Contact.
    - rewrite Din. left. destruct I2 as [H|(_ & H)]; auto. injection H as -> _. auto.
    - intros a b Ha Hab Hb. rewrite in_app_iff, Din.
      destruct (in_dec handle_eq_dec a done) as [Hd|Hd].
      + destruct (I3 a b Hd Hab Hb) as [H|[H|H]]; auto.
      + apply Din in Ha. destruct Ha as [->|Ha]; [|tauto]. apply Contact in Hab; auto.
        destruct (in_dec handle_eq_dec b done') as [Hbd|Hbd]; [apply Din in Hbd; tauto|]. right. right.
        apply A1. rewrite Ol, Mov. auto.
    - intros a b Ha Hab. destruct (in_dec handle_eq_dec a done) as [Hd|Hd]; [eauto|].
      apply Din in Ha. destruct Ha as [->|Ha]; [|tauto]. apply Contact in Hab; auto.
      destruct (in_dec handle_eq_dec b done') as [Hbd|Hbd].
      + apply Din in Hbd. destruct Hbd as [->|Hbd]; [congruence|auto].
      + specialize (A2 b (proj2 (Ol b) Hab) Hbd). pose proof (I4 b) as Ib. destruct (aget ents0 b), (aget ents b); congruence || tauto.
    - intros a Ha. apply Din in Ha. destruct Ha as [->|Ha]; [congruence|auto].
    - intros h. pose proof (I4 h) as Ih. pose proof (A3 h) as Ah. rewrite aget_aset.
      destruct (heqb_spec t h) as [<-|Hne].
      + rewrite Et0, Et1. split; [|split].
        * intros _. destruct (in_dec handle_eq_dec t done) as [Hd|Hd]; [now rewrite (Dt Hd)|now rewrite (Nt Hd)].
        * intros Hn. exfalso. apply Hn, Din. auto.
        * intros Hn. exfalso. apply Hn, Din. auto.
      + destruct (aget ents0 h) as [e0|], (aget ents h) as [e|]; try tauto; [|rewrite Ah; auto].
        rewrite Ah. destruct Ih as (B1 & B2 & B3). split; [|split].
        * intros Hd. pose proof (proj2 (hmem_spec h done') Hd) as Hm. rewrite Hm. rewrite andb_false_r. simpl.
          apply Din in Hd. destruct Hd as [->|Hd]; [congruence|auto].
        * intros Hn Hc. assert (Hn' : ~ In h done) by (intros Hx; apply Hn, Din; auto). rewrite (B2 Hn' Hc).
          destruct Hc as [->|Hc]; [|rewrite Hc, andb_false_r; auto].
          destruct I2 as [H|(_ & H)]; [tauto|]. injection H as H _. congruence.
        * intros Hn Hs Hi. assert (Hn' : ~ In h done) by (intros Hx; apply Hn, Din; auto).
          destruct (B3 Hn' Hs Hi) as (ns & -> & Hns). simpl. rewrite Hi, andb_true_r.
          assert (Hm : hmem h done' = false) by (apply hmem_false; exact Hn). rewrite Hm, andb_true_r.
          destruct (hmem h (ord KNeighbors t (e_neighbors et))) eqn:Hl.
          -- exists (hremove t ns). split; [reflexivity|]. apply hmem_spec in Hl. apply Ol in Hl.
             assert (Hd : ~ In t done) by (intros Hd; rewrite (Nonbr Hd) in Hl; destruct Hl).
             intros x. rewrite hremove_in, Hns. rewrite Din. apply (Contact Hd) in Hl.
             split; [|intros (H1 & H2); split; [intros ->; apply H2; auto|tauto]].
             intros (H1 & H2 & H3). split; auto. intros ([->|H4] & H5); [congruence|tauto].
          -- exists ns. split; [reflexivity|]. apply hmem_false in Hl. intros x. rewrite Hns, Din.
             split; [|tauto]. intros (H1 & H2). split; auto. intros ([->|H4] & H5); [|tauto].
             destruct (in_dec handle_eq_dec t done) as [Hd|Hd]; [tauto|]. apply Hl, Ol. now apply Contact.
  Qed.

  Lemma wake_loop_inv ord (Ho : good_order ord) ents0 start fuel : forall done q ents dbg ents' dbg',
    wake_inv ents0 start done q ents -> wake_loop (T:=T) ord fuel done q ents dbg = Ok (ents', dbg') ->
    exists done', wake_inv ents0 start done' [] ents'.
  Proof.
    induction fuel as [|fuel IH]; intros done q ents dbg ents' dbg' I H; destruct q as [|t q]; cbn [wake_loop] in H; try discriminate.
    - injection H as <- <-. eauto.
    - injection H as <- <-. eauto.
    - apply rbind_ok in H. destruct H as (et & Et & H). apply unwrap_ok in Et.
      apply rbind_ok in H. destruct H as ([[ents1 dbg1] q1] & E & H).
      apply rbind_ok in H. destruct H as (et1 & Et1 & H). apply unwrap_ok in Et1.
      eapply IH; [|exact H]. eapply wake_inv_step; eauto.
  Qed.
  (** The entities after [wake_up] from [start]. *)
  Definition woke ents start ents' : Prop :=
    forall h, match aget ents h, aget ents' h with
              | Some e, Some e' => after_wake ents start (connected ents start) h e e'
              | None, None => True
              | _, _ => False end.
  Lemma wake_up_exact ord start ents dbg ents' dbg' : good_order ord -> wake_up (T:=T) ord start ents dbg = Ok (ents', dbg') ->
    woke ents start ents' /\ (forall k, connected ents start k \/ ~ connected ents start k) /\ aget ents start <> None /\
    (forall a b, connected ents start a -> contact ents a b -> aget ents b <> None).
  Proof.
    intros Ho H. destruct (wake_loop_inv ord Ho ents start _ _ _ _ _ _ _ (wake_inv_init ents start) H) as (done & [I1 I2 I3 I3b I3c I4]).
    assert (Hs : In start done) by (destruct I2 as [?|(_ & ?)]; [auto|discriminate]).
    assert (C : forall x, connected ents start x <-> In x done).
    { intros x. split; [|intros Hx; apply I1; auto]. induction 1 as [|a b Ha IH Hab Hb]; auto.
      destruct (I3 a b IH Hab Hb) as [?|[]]; auto. }
    split; [|split; [|split]].
    - intros h. specialize (I4 h). destruct (aget ents h), (aget ents' h); auto. destruct I4 as (B1 & B2 & B3).
      unfold after_wake. rewrite !C. split; auto. split; auto. intros Hn Hs2 Hi. destruct (B3 Hn Hs2 Hi) as (ns & E & Hns).
      exists ns. split; auto. intros x. rewrite Hns, C. reflexivity.
    - intros k. rewrite C. destruct (in_dec handle_eq_dec k done); auto.
    - auto.
    - intros a b Ha. apply C in Ha. eauto.
  Qed.

  (** It panics only on a stale handle. *)
  Lemma wake_loop_total ord (Ho : good_order ord) ents0 start fuel : forall done q ents dbg,
    (forall a, connected ents0 start a -> aget ents0 a <> None) ->
    (forall a b, connected ents0 start a -> contact ents0 a b -> aget ents0 b <> None) ->
    wake_inv ents0 start done q ents -> wake_loop (T:=T) ord fuel done q ents dbg <> Panic.
  Proof.
    induction fuel as [|fuel IH]; intros done q ents dbg Ha Hb I; destruct q as [|t q]; cbn [wake_loop]; try discriminate.
    pose proof I as [I1 I2 I3 I3b I3c I4].
    assert (Ct : connected ents0 start t) by (apply I1; simpl; auto).
    pose proof (I4 t) as It. pose proof (Ha t Ct) as Hat.
    destruct (aget ents0 t) as [et0|] eqn:Et0; [|congruence]. destruct (aget ents t) as [et|] eqn:Et; [|tauto]. simpl.
    assert (Hnb : forall b, In b (e_neighbors et) -> contact ents0 t b).
    { intros b Hbt. exists et0. split; auto. destruct It as (B1 & B2 & _).
      destruct (in_dec handle_eq_dec t done) as [Hd|Hd]; [rewrite (B1 Hd) in Hbt; destruct Hbt|].
      rewrite B2 in Hbt; auto. destruct (conn_cases _ _ _ Ct) as [->|(x & Hx & Hf)]; auto. right. congruence. }
    destruct (wake_neighbors_total t (hinsert t done) (ord KNeighbors t (e_neighbors et)) ents dbg q) as ([[ents1 dbg1] q1] & E).
    { intros b Hbt _. apply (Permutation_in _ (Ho _ _ _)) in Hbt. apply Hnb in Hbt. pose proof (Hb _ _ Ct Hbt) as Hal.
      pose proof (I4 b) as Ib. destruct (aget ents0 b), (aget ents b); congruence || tauto. }
    rewrite E. simpl. destruct (wake_neighbors_spec _ _ _ _ _ _ _ _ _ E) as (_ & _ & A3).
    pose proof (A3 t) as At. rewrite Et in At. rewrite At. simpl. apply IH; auto. eapply wake_inv_step; eauto.
  Qed.
  Lemma wake_up_total ord start ents dbg : good_order ord ->
    aget ents start <> None -> (forall a b, connected ents start a -> contact ents a b -> aget ents b <> None) ->
    exists r, wake_up (T:=T) ord start ents dbg = Ok r.
  Proof.
    intros Ho Hs Hc. destruct (wake_up ord start ents dbg) eqn:E; [eauto| |].
    - exfalso. revert E. apply (wake_loop_total ord Ho ents start); auto using wake_inv_init.
      intros a Ha. destruct (conn_cases _ _ _ Ha) as [->|(x & Hx & _)]; congruence.
    - exfalso. eapply wake_up_nofuel; eauto.
  Qed.

  (** ** Several wake-ups in a row, with other changes in between *)
  (** [ents] differs from [ents0] in that the entities of [W] have been woken, and possibly in
      what waking does not look at; the sleepers outside [W] stay where they are. *)
  Definition slept_one ents0 (W : handle -> Prop) h e0 e : Prop :=
    Rstep h e0 e /\ e_falling e = e_falling e0 /\ e_falling_time e = e_falling_time e0 /\
    (W h -> e_asleep e = false /\ e_neighbors e = []) /\
    (~ W h -> e_asleep e = e_asleep e0 /\ incl (e_neighbors e) (e_neighbors e0) /\
       (n_isinf (e_total_mass e0) = false -> e_neighbors e = e_neighbors e0) /\
       (e_asleep e0 = true -> e_orient e = e_orient e0)).
  Record slept ents0 (W : handle -> Prop) ents : Prop := {
    sl_dec : forall k, W k \/ ~ W k;
    sl_closed : forall a b, W a -> contact ents0 a b -> movable ents0 b -> W b;
    sl_ents : arel (slept_one ents0 W) ents0 ents }.

  Lemma slept_refl ents : slept ents (fun _ => False) ents.
  Proof.
    split; try tauto. apply arel_refl. intros h e. split; [apply Rstep_refl|]. split; auto. split; auto. split; [tauto|].
    intros _. split; auto. split; [apply incl_refl|auto].
  Qed.
  Lemma slept_iff ents0 (W W' : handle -> Prop) ents : (forall k, W k <-> W' k) -> slept ents0 W ents -> slept ents0 W' ents.
  Proof.
    intros H [S1 S2 S3]. split.
    - intros k. rewrite <- H. apply S1.
    - intros a b. rewrite <- !H. apply S2.
    - eapply arel_impl; [|exact S3]. intros h x y (A1 & A2 & A3 & A4 & A5). unfold slept_one. rewrite <- H. auto.
  Qed.

  (** A change that waking does not look at, and that does not move sleepers. *)
  Definition Rawake (h : handle) e e' : Prop :=
    Rstep h e e' /\ e_falling e' = e_falling e /\ e_falling_time e' = e_falling_time e /\
    e_asleep e' = e_asleep e /\ e_neighbors e' = e_neighbors e /\ (e_asleep e = true -> e_orient e' = e_orient e).
  Lemma Rawake_refl h e : Rawake h e e.
  Proof. split; [apply Rstep_refl|]. auto 10. Qed.
  Lemma Rawake_trans h x y z : Rawake h x y -> Rawake h y z -> Rawake h x z.
  Proof.
    intros (A1 & A2 & A3 & A4 & A5 & A6) (B1 & B2 & B3 & B4 & B5 & B6).
    split; [eapply Rstep_trans; eauto|]. repeat split; try congruence. intros H. rewrite B6, A6; congruence.
  Qed.
  Lemma arel_compose {A} (R1 R2 R3 : handle -> A -> A -> Prop) (a b c : arena A) :
    (forall h x y z, R1 h x y -> R2 h y z -> R3 h x z) -> arel R1 a b -> arel R2 b c -> arel R3 a c.
  Proof.
    intros HR (E1 & H1 & G1 & P1) (E2 & H2 & G2 & P2).
    split; [eapply aevo_trans; eauto|]. split; [congruence|]. split; [congruence|].
    intros h. specialize (P1 h). specialize (P2 h).
    destruct (aget a h), (aget b h), (aget c h); try tauto. eauto.
  Qed.
  Lemma slept_awake ents0 W ents ents' : slept ents0 W ents -> arel Rawake ents ents' -> slept ents0 W ents'.
  Proof.
    intros [S1 S2 S3] H. split; auto. eapply arel_compose; [|exact S3|exact H].
    intros h x y z (A1 & A2 & A3 & A4 & A5) (B1 & B2 & B3 & B4 & B5 & B6).
    split; [eapply Rstep_trans; eauto|]. split; [congruence|]. split; [congruence|]. rewrite B4, B5. split; [exact A4|].
    intros HW. destruct (A5 HW) as (C1 & C2 & C3 & C4). repeat split; auto. intros Ha. rewrite B6, C4; congruence.
  Qed.
  Lemma slept_wake ord ents0 (W : handle -> Prop) ents x dbg r : good_order ord -> slept ents0 W ents ->
    (forall e, aget ents x = Some e -> n_isinf (e_total_mass e) = false) ->
    wake_up ord x ents dbg = Ok r -> slept ents0 (fun k => W k \/ connected ents0 x k) (fst r).
  Proof.
    intros Ho [S1 S2 S3] Hfin H. destruct r as [ents' dbg']. simpl. pose proof (wake_up_frame _ _ _ _ _ H) as Hfr. simpl in Hfr.
    destruct (wake_up_exact _ _ _ _ _ _ Ho H) as (Hw & Hdec & Hx & _).
    assert (Mov : forall b, movable ents b <-> movable ents0 b).
    { intros b. unfold movable. split; intros (e & He & Hf).
      - destruct (arel_get_r _ _ _ _ _ S3 He) as (e0 & He0 & (_ & _ & Hm & _) & _). exists e0. rewrite <- Hm. auto.
      - destruct (arel_get _ _ _ _ _ S3 He) as (e0 & He0 & (_ & _ & Hm & _) & _). exists e0. rewrite Hm. auto. }
    assert (Mx : movable ents0 x).
    { apply Mov. destruct (aget ents x) as [e|] eqn:E; [|congruence]. exists e. auto. }
    assert (MovC : forall k, connected ents x k -> movable ents0 k).
    { intros k Hk. destruct Hk as [|a b Hk Hab Hb]; auto. now apply Mov. }
    assert (MovC0 : forall k, connected ents0 x k -> movable ents0 k).
    { intros k Hk. destruct Hk as [|a b Hk Hab Hb]; auto. }
    assert (Same : forall a b, movable ents0 a -> ~ W a -> (contact ents a b <-> contact ents0 a b)).
    { intros a b Ha HnW. unfold contact. destruct Ha as (e0 & He0 & Hf).
      destruct (arel_get _ _ _ _ _ S3 He0) as (e & He & _ & _ & _ & _ & Hn). destruct (Hn HnW) as (_ & _ & Hn2 & _). specialize (Hn2 Hf).
      rewrite He, He0. split; intros (y & Hy & Hb); injection Hy as <-; eexists; split; eauto; congruence. }
    assert (Emp : forall a b, W a -> ~ contact ents a b).
    { intros a b HW (e & He & Hb). destruct (arel_get_r _ _ _ _ _ S3 He) as (e0 & He0 & _ & _ & _ & Hn & _).
      destruct (Hn HW) as (_ & Hn2). rewrite Hn2 in Hb. destruct Hb. }
    assert (C1 : forall k, connected ents x k -> connected ents0 x k).
    { intros k Hk. induction Hk as [|a b Hk IH Hab Hb]; [apply conn_start|].
      destruct (S1 a) as [HW|HW]; [exfalso; eapply Emp; eauto|].
      apply (conn_next _ _ a); auto; [|now apply Mov]. apply Same; auto. }
    assert (C2 : forall k, connected ents0 x k -> W k \/ connected ents x k).
    { intros k Hk. induction Hk as [|a b Hk IH Hab Hb]; [right; apply conn_start|].
      destruct IH as [HW|IH]; [left; eauto|]. destruct (S1 a) as [HW|HW]; [left; eauto|].
      right. apply (conn_next _ _ a); auto; [|now apply Mov]. apply Same; auto. }
    split.
    - intros k. destruct (S1 k) as [HW|HW]; [auto|]. destruct (Hdec k) as [Hk|Hk]; [auto|]. right. intros [Hc|Hc]; [tauto|].
      destruct (C2 k Hc); tauto.
    - intros a b [Ha|Ha] Hab Hb; [left; eauto|]. right. eapply conn_next; eauto.
    - assert (G : arel (fun h e e' => exists e0, aget ents0 h = Some e0 /\ slept_one ents0 W h e0 e /\ Rsleep h e e' /\ after_wake ents x (connected ents x) h e e') ents ents').
      { destruct Hfr as (F1 & F2 & F3 & F4). split; auto. split; auto. split; auto. intros h. specialize (F4 h). specialize (Hw h).
        destruct (aget ents h) as [e|] eqn:Eh, (aget ents' h) as [e'|]; auto.
        destruct (arel_get_r _ _ _ _ _ S3 Eh) as (e0 & He0 & Hs). eauto. }
      eapply arel_compose; [|exact S3|exact G]. intros h e0 e e' (A1 & A2 & A3 & A4 & A5) (e0' & E0 & _ & (sa & sn & ->) & (B1 & B2 & B3)).
      split; [destruct A1 as (D1 & D2 & D3 & D4 & D5); repeat split; auto|]. simpl. split; auto. split; auto. split.
      + intros HWC. destruct (Hdec h) as [Hc|Hc].
        * specialize (B1 Hc). injection B1 as -> ->. auto.
        * assert (HW : W h) by (destruct HWC as [?|HWC]; auto; destruct (C2 h HWC); tauto).
          destruct (A4 HW) as (D1 & D2). destruct (handle_eq_dec h x) as [->|Hne]; [exfalso; apply Hc, conn_start|].
          destruct (n_isinf (e_total_mass e)) eqn:Hi.
          -- destruct (B3 Hc Hne eq_refl) as (ns & Hns & Hin). injection Hns as -> ->. split; auto.
             destruct ns as [|y ns]; auto. exfalso. destruct (proj1 (Hin y)) as (Hy & _); [now left|]. rewrite D2 in Hy. destruct Hy.
          -- specialize (B2 Hc (or_intror eq_refl)). rewrite <- B2 in D1, D2. auto.
      + intros HnWC. assert (HnW : ~ W h) by tauto. assert (Hc : ~ connected ents x h) by (intros Hc; apply HnWC; right; auto).
        destruct (A5 HnW) as (D1 & D2 & D3 & D4). destruct (handle_eq_dec h x) as [->|Hne]; [exfalso; apply Hc, conn_start|].
        assert (Hm : e_total_mass e = e_total_mass e0) by apply A1.
        destruct (n_isinf (e_total_mass e)) eqn:Hi.
        * destruct (B3 Hc Hne eq_refl) as (ns & Hns & Hin). injection Hns as -> ->. split; auto. split; [intros y Hy; apply D2; now apply Hin|].
          split; [congruence|auto].
        * specialize (B2 Hc (or_intror eq_refl)).
          assert (E1 : sa = e_asleep e) by (rewrite <- B2; reflexivity).
          assert (E2 : sn = e_neighbors e) by (rewrite <- B2; reflexivity). subst sa sn. auto.
  Qed.
End Wake.
