(** * LogP: the debug log (C71) *)
From Coq Require Import List Permutation Bool Arith Lia.
Import ListNotations.
From Verif Require Import Num Vec Res Arena Orient Colliders Collide EntityM SystemM Spec LogSpec ResP ArenaP OrderP FrameP StoreP Store2P ExecP WakeP StepP Step2P.

Section Log.
  Context {T : Type} {N : Num T}.
  Implicit Types (ents : arena (ientity T)) (e : ientity T) (h t : handle).

  Definition woken_msg (m : dmsg) : Prop := match m with DWaking _ | DRemoved _ _ => True | _ => False end.

  (** The messages of one target's neighbours. *)
  Lemma wake_neighbors_log t done l : forall ents dbg q ents1 dbg1 q1,
    rfold (wake_neighbor (T:=T) t done) l (ents, dbg, q) = Ok (ents1, dbg1, q1) ->
    exists ms, dbg1 = dbg ++ ms /\
      forall m, In m ms <-> exists b, m = DRemoved t b /\ In b l /\ ~ In b done /\ immovable ents b.
  Proof.
    induction l as [|n l IH]; intros ents dbg q ents1 dbg1 q1 H.
    - simpl in H. injection H as <- <- <-. exists []. rewrite app_nil_r. split; auto. intros m. split; [intros []|].
      intros (b & _ & [] & _).
    - cbn [rfold] in H. apply rbind_ok in H. destruct H as ([[ents2 dbg2] q2] & E & H).
      unfold wake_neighbor in E. destruct (hmem n done) eqn:Hd.
      + injection E as <- <- <-. destruct (IH _ _ _ _ _ _ H) as (ms & -> & M). exists ms. split; auto. intros m. rewrite M.
        apply hmem_spec in Hd. split; intros (b & A & B & C & D); exists b; simpl; auto. destruct B as [<-|B]; [tauto|auto].
      + apply rbind_ok in E. destruct E as (en & En & E). apply unwrap_ok in En. apply hmem_false in Hd.
        destruct (n_isinf (e_total_mass en)) eqn:Hi.
        * injection E as <- <- <-. destruct (IH _ _ _ _ _ _ H) as (ms & -> & M). exists (DRemoved t n :: ms).
          rewrite <- app_assoc. split; auto.
          assert (Im : forall b, immovable (aset ents n (e_set_sleep en (e_asleep en) (hremove t (e_neighbors en)))) b <-> immovable ents b).
          { intros b. unfold immovable. rewrite aget_aset. destruct (heqb_spec n b) as [<-|Hne]; [|reflexivity].
            rewrite En. split; intros (x & Hx & Hf); injection Hx as <-; eexists; split; eauto. }
          intros m. simpl. rewrite M. split.
          -- intros [<-|(b & A & B & C & D)]; [exists n|exists b].
             ++ split; auto. split; [now left|]. split; auto. exists en. auto.
             ++ rewrite Im in D. auto.
          -- intros (b & -> & [<-|B] & C & D); [now left|]. right. exists b. rewrite Im. auto.
        * injection E as <- <- <-. destruct (IH _ _ _ _ _ _ H) as (ms & -> & M). exists ms. split; auto. intros m. rewrite M.
          split; intros (b & A & B & C & D); exists b; simpl; auto. destruct B as [<-|B]; auto.
          destruct D as (x & Hx & Hf). congruence.
  Qed.

  Lemma count_app (l m : list dmsg) k : count_occ dmsg_dec (l ++ m) k = count_occ dmsg_dec l k + count_occ dmsg_dec m k.
  Proof. induction l as [|x l IH]; simpl; auto. destruct (dmsg_dec x k); lia. Qed.
  Lemma count_none (l : list dmsg) k : ~ In k l -> count_occ dmsg_dec l k = 0.
  Proof. intros H. apply (proj1 (count_occ_not_In dmsg_dec l k)). exact H. Qed.

  (** The report of the targets done so far. *)
  Definition report_inv ents0 start (done : list handle) (l : list dmsg) : Prop :=
    (forall m, In m l -> woken_msg m) /\
    (forall k, In (DWaking k) l <-> In k done /\ sleeping ents0 k) /\
    (forall k, count_occ dmsg_dec l (DWaking k) <= 1) /\
    (forall k n, In (DRemoved k n) l <-> In k done /\ contact ents0 k n /\ immovable ents0 n /\ n <> start).

  Lemma wake_loop_report ord (Ho : good_order ord) ents0 start fuel : forall done q ents dbg0 l ents' dbg',
    wake_inv ents0 start done q ents -> report_inv ents0 start done l ->
    wake_loop (T:=T) ord fuel done q ents (dbg0 ++ l) = Ok (ents', dbg') ->
    exists done' l', wake_inv ents0 start done' [] ents' /\ report_inv ents0 start done' l' /\ dbg' = dbg0 ++ l'.
  Proof.
    induction fuel as [|fuel IH]; intros done q ents dbg0 l ents' dbg' I Rp H; destruct q as [|t q]; cbn [wake_loop] in H; try discriminate.
    - injection H as <- <-. eauto.
    - injection H as <- <-. eauto.
    - apply rbind_ok in H. destruct H as (et & Et & H). apply unwrap_ok in Et.
      apply rbind_ok in H. destruct H as ([[ents1 dbg1] q1] & E & H).
      apply rbind_ok in H. destruct H as (et1 & Et1 & H). apply unwrap_ok in Et1.
      destruct (wake_neighbors_log _ _ _ _ _ _ _ _ _ E) as (ms & -> & M).
      pose proof (wake_inv_step ord Ho _ _ _ _ _ _ _ _ _ _ _ _ I Et E Et1) as I'.
      destruct I as [I1 I2 I3 I3b I3c I4]. destruct Rp as (R1 & R2 & R3 & R4).
      set (done' := hinsert t done) in *.
      assert (Din : forall x, In x done' <-> x = t \/ In x done) by (intros; apply hinsert_in).
      destruct (wake_neighbors_spec _ _ _ _ _ _ _ _ _ E) as (_ & _ & A3).
      assert (Ol : forall b, In b (ord KNeighbors t (e_neighbors et)) <-> In b (e_neighbors et)).
      { intros b. split; apply Permutation_in; [|apply Permutation_sym]; apply Ho. }
      assert (Ct : connected ents0 start t) by (apply I1; simpl; auto).
      pose proof (I4 t) as It. rewrite Et in It. destruct (aget ents0 t) as [et0|] eqn:Et0; [|tauto].
      assert (Nt : ~ In t done -> et = et0).
      { intros Hn. destruct It as (_ & It & _). apply It; auto. destruct (conn_cases _ _ _ Ct) as [->|(x & Hx & Hf)]; auto.
        right. congruence. }
      assert (Dt : In t done -> et = e_set_sleep et0 false []) by apply It.
      assert (Het1 : et1 = et).
      { pose proof (A3 t) as Ht. rewrite Et in Ht.
        assert (Hm : hmem t done' = true) by (apply hmem_spec, Din; auto).
        rewrite Hm, andb_false_r in Ht. simpl in Ht. congruence. }
      subst et1.
      assert (Im : forall b, immovable ents b <-> immovable ents0 b).
      { intros b. unfold immovable. pose proof (I4 b) as Ib. destruct (aget ents0 b) as [e0|], (aget ents b) as [e|]; try contradiction.
        - assert (e_total_mass e = e_total_mass e0).
          { destruct Ib as (B1 & B2 & B3). destruct (in_dec handle_eq_dec b done) as [Hb|Hb]; [now rewrite (B1 Hb)|].
            destruct (handle_eq_dec b start) as [->|Hs]; [rewrite B2; auto|]. destruct (n_isinf (e_total_mass e0)) eqn:Hi.
            - destruct (B3 Hb Hs eq_refl) as (ns & -> & _). reflexivity.
            - rewrite B2; auto. }
          split; intros (x & Hx & Hf); injection Hx as <-; eexists; split; eauto; congruence.
        - split; intros (x & Hx & _); discriminate. }
      assert (St : In start done').
      { apply Din. destruct I2 as [?|(_ & Hx)]; auto. injection Hx as -> _. auto. }
      assert (Inf : forall b, immovable ents0 b -> (~ In b done' <-> b <> start)).
      { intros b (x & Hx & Hf). split; [intros Hb ->; auto|]. intros Hb Hd. apply Hb.
        assert (Cb : connected ents0 start b).
        { apply Din in Hd. destruct Hd as [->|Hd]; auto. }
        destruct (conn_cases _ _ _ Cb) as [->|(y & Hy & Hg)]; auto. congruence. }
      assert (Ms : forall m, In m ms <-> exists b, m = DRemoved t b /\ ~ In t done /\ contact ents0 t b /\ immovable ents0 b /\ b <> start).
      { intros m. rewrite M. split.
        - intros (b & A & B & C & D). apply Ol in B. apply Im in D. exists b. split; auto.
          destruct (in_dec handle_eq_dec t done) as [Hd|Hd]; [rewrite (Dt Hd) in B; destruct B|].
          rewrite (Nt Hd) in B. split; auto. split; [exists et0; auto|]. split; auto. now apply Inf.
        - intros (b & A & Hd & (x & Hx & B) & C & D). exists b. rewrite Ol, Im, (Nt Hd).
          assert (x = et0) by congruence. subst x. split; auto. split; auto. split; auto. now apply Inf. }
      assert (Sl : e_asleep et = true <-> ~ In t done /\ sleeping ents0 t).
      { unfold sleeping. rewrite Et0. destruct (in_dec handle_eq_dec t done) as [Hd|Hd].
        - rewrite (Dt Hd). simpl. split; [discriminate|tauto].
        - rewrite (Nt Hd). split; [intros Hx; eauto|]. intros (_ & x & Hx & Hs). congruence. }
      set (tl := if e_asleep et then [DWaking t] else []).
      assert (Hlog : (if e_asleep et then ((dbg0 ++ l) ++ ms) ++ [DWaking t] else (dbg0 ++ l) ++ ms) = dbg0 ++ (l ++ ms ++ tl)).
      { unfold tl. destruct (e_asleep et); rewrite ?app_nil_r, <- !app_assoc; reflexivity. }
      rewrite Hlog in H. eapply IH; [exact I'| |exact H].
      assert (Tl : forall m, In m tl <-> m = DWaking t /\ e_asleep et = true).
      { intros m. unfold tl. destruct (e_asleep et); simpl; intuition congruence. }
      assert (MsW : forall k, ~ In (DWaking k) ms) by (intros k Hk; apply Ms in Hk; destruct Hk as (b & Hb & _); discriminate).
      split; [|split; [|split]].
      + intros m Hm. rewrite !in_app_iff, Tl in Hm. destruct Hm as [Hm|[Hm|(-> & _)]]; [auto| |exact I].
        apply Ms in Hm. destruct Hm as (b & -> & _). exact I.
      + intros k. rewrite !in_app_iff, Tl, R2, Din. split.
        * intros [(A & B)|[A|(A & B)]]; [auto|now apply MsW in A|]. injection A as ->. apply Sl in B. tauto.
        * intros ([->|A] & B); [|auto]. destruct (in_dec handle_eq_dec t done) as [Hd|Hd]; [auto|]. right. right. split; auto. apply Sl. auto.
      + intros k. rewrite !count_app, (count_none ms) by apply MsW. specialize (R3 k). simpl.
        destruct (in_dec dmsg_dec (DWaking k) tl) as [Hk|Hk]; [|rewrite (count_none tl) by exact Hk; lia].
        apply Tl in Hk. destruct Hk as (Hk & Ha). injection Hk as ->. apply Sl in Ha.
        rewrite (count_none l); [|rewrite R2; tauto]. unfold tl. destruct (e_asleep et); simpl; [destruct (dmsg_dec _ _)|]; lia.
      + intros k n. rewrite !in_app_iff, Tl, R4, Ms, Din. split.
        * intros [A|[(b & A & B)|(A & _)]]; [tauto| |discriminate]. injection A as -> ->. tauto.
        * intros ([->|A] & B); [|auto]. destruct (in_dec handle_eq_dec t done) as [Hd|Hd]; [auto|]. right. left. exists n. tauto.
  Qed.

  Lemma wake_up_report ord start ents dbg r : good_order ord -> wake_up (T:=T) ord start ents dbg = Ok r ->
    exists l, snd r = dbg ++ l /\ (forall m, In m l -> woken_msg m) /\
      (forall k, In (DWaking k) l <-> connected ents start k /\ sleeping ents k) /\
      (forall k, count_occ dmsg_dec l (DWaking k) <= 1) /\
      (forall k n, In (DRemoved k n) l <-> connected ents start k /\ contact ents k n /\ immovable ents n /\ n <> start).
  Proof.
    intros Ho H. unfold wake_up in H. rewrite <- (app_nil_r dbg) in H. destruct r as [ents' dbg'].
    destruct (wake_loop_report ord Ho ents start (S (edge_count ents)) [] [start] ents dbg [] ents' dbg' (wake_inv_init ents start)) as (done & l & [I1 I2 I3 I3b I3c I4] & (R1 & R2 & R3 & R4) & ->).
    - split; [intros m []|]. split; [simpl; tauto|]. split; [simpl; auto|]. simpl. tauto.
    - exact H.
    - assert (Hs : In start done) by (destruct I2 as [?|(_ & ?)]; [auto|discriminate]).
      assert (C : forall x, connected ents start x <-> In x done).
      { intros x. split; [|intros Hx; apply I1; auto]. induction 1 as [|a b Ha IH Hab Hb]; auto.
        destruct (I3 a b IH Hab Hb) as [?|[]]; auto. }
      exists l. simpl. split; auto. split; auto. split; [intros k; rewrite R2, C; tauto|]. split; auto.
      intros k n. rewrite R4, C. tauto.
  Qed.
  Lemma conn_immovable ents start n : connected ents start n -> immovable ents n -> n = start.
  Proof. intros H (e & He & Hi). destruct (conn_cases _ _ _ H) as [->|(x & Hx & Hf)]; auto. congruence. Qed.
  Lemma report_start ents start l : (forall m, In m l -> woken_msg m) ->
    (forall k, In (DWaking k) l <-> connected ents start k /\ sleeping ents k) ->
    (forall k, count_occ dmsg_dec l (DWaking k) <= 1) ->
    (forall k n, In (DRemoved k n) l <-> connected ents start k /\ contact ents k n /\ immovable ents n /\ n <> start) ->
    wake_report ents (connected ents start) l.
  Proof.
    intros A B C D. split; [exact A|]. split; auto. split; auto. intros k n. rewrite D. split; intros (X & Y & Z & W); repeat split; auto.
    - intros Hc. apply W. eapply conn_immovable; eauto.
    - intros ->. apply W, conn_start.
  Qed.
  (** ** Updates *)
  Lemma update_entity_log ord s h src s' b e : good_order ord ->
    update_entity ord s h src = Ok (s', b) -> aget (s_ents s) h = Some e ->
    exists l, s_debug s' = s_debug s ++ l /\
      wake_report (s_ents s) (fun k => b = true /\ noticed e src /\ connected (s_ents s) h k) l.
  Proof.
    intros Ho H He. unfold update_entity in H. rewrite He in H.
    assert (Nil : forall b', ~ (b' = true /\ noticed e src) -> wake_report (s_ents s) (fun k => b' = true /\ noticed e src /\ connected (s_ents s) h k) []).
    { intros b' Hb. split; [intros m []|]. split; [simpl; tauto|]. split; [simpl; auto|]. simpl. tauto. }
    destruct (update_from e src) as [[e1 w]|] eqn:U.
    2:{ inv_ok H. subst. exists []. rewrite app_nil_r. split; auto. apply Nil. intros (Hx & _). discriminate. }
    inv_ok H. rename x into e2. pose proof (update_from_noticed _ _ _ _ U) as Hn. pose proof (update_from_sleep _ _ _ _ U) as (N1 & A1 & _).
    apply recalc_frame in E. destruct E as (o & m & i & ->).
    destruct w.
    - inv_ok H. inv_ok H. subst s' b. simpl in E. destruct x as [ents' dbg']. simpl in *.
      set (ents1 := aset (s_ents s) h (e_set_mass e1 o m i)) in *.
      assert (Ct : forall a b, contact (s_ents s) a b <-> contact ents1 a b).
      { intros a b. unfold contact, ents1. destruct (handle_eq_dec h a) as [<-|Hne].
        - rewrite (aget_aset_eq _ _ _ _ He). split; intros (x & Hx & Hb); [assert (x = e) by congruence; subst x; eexists|injection Hx as <-; exists e]; split; eauto; simpl in *; congruence.
        - rewrite aget_aset_neq by auto. tauto. }
      assert (Mv : forall b, b <> h -> movable (s_ents s) b <-> movable ents1 b).
      { intros b Hb. unfold movable, ents1. rewrite aget_aset_neq by congruence. tauto. }
      assert (Im : forall b, b <> h -> immovable (s_ents s) b <-> immovable ents1 b).
      { intros b Hb. unfold immovable, ents1. rewrite aget_aset_neq by congruence. tauto. }
      assert (Sl : forall b, sleeping (s_ents s) b <-> sleeping ents1 b).
      { intros b. unfold sleeping, ents1. destruct (handle_eq_dec h b) as [<-|Hne].
        - rewrite (aget_aset_eq _ _ _ _ He). split; intros (x & Hx & Hb); [assert (x = e) by congruence; subst x; eexists|injection Hx as <-; exists e]; split; eauto; simpl in *; congruence.
        - rewrite aget_aset_neq by auto. tauto. }
      assert (C : forall k, connected (s_ents s) h k <-> connected ents1 h k).
      { intros k. split; intros Hk; induction Hk as [|a b Ha IH Hab Hb]; try apply conn_start;
          (destruct (handle_eq_dec b h) as [->|Hne]; [apply conn_start|apply (conn_next _ _ a); [exact IH|now apply Ct|now apply Mv]]). }
      destruct (wake_up_report _ _ _ _ _ Ho E) as (l & Hl & L1 & L2 & L3 & L4). simpl in Hl. exists l. split; auto.
      assert (Nt : noticed e src) by (apply Hn; auto).
      split; [exact L1|]. split; [intros k; rewrite L2, C, Sl; tauto|]. split; auto.
      intros k n. rewrite L4, C, Ct. split.
      + intros (X & Y & Z & W). repeat split; auto; [apply Im; auto|]. intros (_ & _ & Hc). apply W. exact (conn_immovable _ _ _ (proj1 (C n) Hc) Z).
      + intros ((_ & _ & X) & Y & Z & W). assert (Hne : n <> h) by (intros ->; apply W; repeat split; auto; apply conn_start).
        repeat split; auto. apply Im; auto.
    - inv_ok H. subst s' b. exists []. rewrite app_nil_r. split; auto. apply Nil. intros (_ & Hx). apply Hn in Hx. discriminate.
  Qed.

  (** ** Steps *)
  Section Ordered.
    Context {O : Ord N}.
    (** In a step only finite entities are woken directly. *)
    Definition step_report ents0 (W : handle -> Prop) (l : list dmsg) : Prop :=
      (forall k, W k -> movable ents0 k) /\
      (forall m, In m l -> woken_msg m) /\
      (forall k, In (DWaking k) l <-> W k /\ sleeping ents0 k) /\
      (forall k, count_occ dmsg_dec l (DWaking k) <= 1) /\
      (forall k n, In (DRemoved k n) l <-> W k /\ contact ents0 k n /\ immovable ents0 n).
    Lemma step_report_wake ents0 W l : step_report ents0 W l -> wake_report ents0 W l.
    Proof.
      intros (A & B & C & D & E). split; [exact B|]. split; auto. split; auto. intros k n. rewrite E. split; [|tauto].
      intros (X & Y & Z). repeat split; auto. intros Hw. apply A in Hw. destruct Hw as (x & Hx & Hf), Z as (y & Hy & Hg). congruence.
    Qed.
    Lemma step_report_iff ents0 (W W' : handle -> Prop) l : (forall k, W k <-> W' k) -> step_report ents0 W l -> step_report ents0 W' l.
    Proof.
      intros H (A & B & C & D & E). split; [intros k Hk; apply A, H, Hk|]. split; auto. split; [intros k; rewrite C, H; tauto|].
      split; auto. intros k n. rewrite E, H. tauto.
    Qed.

    Lemma slept_report ord ents0 (W : handle -> Prop) ents x dbg l r : good_order ord -> slept ents0 W ents ->
      step_report ents0 W l ->
      (forall e, aget ents x = Some e -> n_isinf (e_total_mass e) = false) ->
      wake_up ord x ents (dbg ++ l) = Ok r ->
      exists l', snd r = dbg ++ l' /\ step_report ents0 (fun k => W k \/ connected ents0 x k) l'.
    Proof.
      intros Ho [S1 S2 S3] (R0 & R1 & R2 & R3 & R4) Hfin H. destruct r as [ents' dbg']. simpl.
      destruct (wake_up_exact _ _ _ _ _ _ Ho H) as (Hw & Hdec & Hx & _).
      destruct (wake_up_report _ _ _ _ _ Ho H) as (l' & Hl & L1 & L2 & L3 & L4). simpl in Hl.
      assert (Mov : forall b, movable ents b <-> movable ents0 b).
      { intros b. unfold movable. split; intros (e & He & Hf).
        - destruct (arel_get_r _ _ _ _ _ S3 He) as (e0 & He0 & (_ & _ & Hm & _) & _). exists e0. rewrite <- Hm. auto.
        - destruct (arel_get _ _ _ _ _ S3 He) as (e0 & He0 & (_ & _ & Hm & _) & _). exists e0. rewrite Hm. auto. }
      assert (Imm : forall b, immovable ents b <-> immovable ents0 b).
      { intros b. unfold immovable. split; intros (e & He & Hf).
        - destruct (arel_get_r _ _ _ _ _ S3 He) as (e0 & He0 & (_ & _ & Hm & _) & _). exists e0. rewrite <- Hm. auto.
        - destruct (arel_get _ _ _ _ _ S3 He) as (e0 & He0 & (_ & _ & Hm & _) & _). exists e0. rewrite Hm. auto. }
      assert (Mx : movable ents0 x).
      { apply Mov. destruct (aget ents x) as [e|] eqn:E; [|congruence]. exists e. auto. }
      assert (MovC0 : forall k, connected ents0 x k -> movable ents0 k).
      { intros k Hk. destruct Hk as [|a b Hk Hab Hb]; auto. }
      assert (Same : forall a b, movable ents0 a -> ~ W a -> (contact ents a b <-> contact ents0 a b)).
      { intros a b Ha HnW. unfold contact. destruct Ha as (e0 & He0 & Hf).
        destruct (arel_get _ _ _ _ _ S3 He0) as (e & He & _ & _ & _ & _ & Hn). destruct (Hn HnW) as (_ & _ & Hn2 & _). specialize (Hn2 Hf).
        rewrite He, He0. split; intros (y & Hy & Hb); injection Hy as <-; eexists; split; eauto; congruence. }
      assert (Emp : forall a b, W a -> ~ contact ents a b).
      { intros a b HW (e & He & Hb). destruct (arel_get_r _ _ _ _ _ S3 He) as (e0 & He0 & _ & _ & _ & Hn & _).
        destruct (Hn HW) as (_ & Hn2). rewrite Hn2 in Hb. destruct Hb. }
      assert (Sl : forall a, sleeping ents a <-> ~ W a /\ sleeping ents0 a).
      { intros a. unfold sleeping. split.
        - intros (e & He & Ha). destruct (arel_get_r _ _ _ _ _ S3 He) as (e0 & He0 & _ & _ & _ & Y & Z).
          destruct (S1 a) as [HW|HW]; [destruct (Y HW); congruence|]. destruct (Z HW) as (Z1 & _). split; auto. exists e0. split; auto. congruence.
        - intros (HW & e0 & He0 & Ha). destruct (arel_get _ _ _ _ _ S3 He0) as (e & He & _ & _ & _ & Y & Z). destruct (Z HW) as (Z1 & _).
          exists e. split; auto. congruence. }
      assert (C1 : forall k, connected ents x k -> connected ents0 x k).
      { intros k Hk. induction Hk as [|a b Hk IH Hab Hb]; [apply conn_start|].
        destruct (S1 a) as [HW|HW]; [exfalso; eapply Emp; eauto|].
        apply (conn_next _ _ a); auto; [|now apply Mov]. apply Same; auto. }
      assert (C2 : forall k, connected ents0 x k -> W k \/ connected ents x k).
      { intros k Hk. induction Hk as [|a b Hk IH Hab Hb]; [right; apply conn_start|].
        destruct IH as [HW|IH]; [left; eauto|]. destruct (S1 a) as [HW|HW]; [left; eauto|].
        right. apply (conn_next _ _ a); auto; [|now apply Mov]. apply Same; auto. }
      assert (L2' : forall k, In (DWaking k) l' <-> connected ents x k /\ ~ W k /\ sleeping ents0 k) by (intros k; rewrite L2, Sl; tauto).
      exists (l ++ l'). split; [rewrite app_assoc; exact Hl|].
      split; [intros k [Hk|Hk]; auto|].
      split; [intros m Hm; apply in_app_or in Hm; destruct Hm; auto|]. split; [|split].
      - intros k. rewrite in_app_iff, R2, L2'. split; [intros [(A & B)|(A & B & C)]; auto|].
        intros ([A|A] & B); [auto|]. destruct (S1 k) as [HW|HW]; [auto|]. destruct (C2 k A) as [?|?]; auto.
      - intros k. rewrite count_app. specialize (R3 k). specialize (L3 k).
        destruct (in_dec dmsg_dec (DWaking k) l) as [Hk|Hk]; [|rewrite (count_none l) by exact Hk; lia].
        rewrite (count_none l'); [lia|]. rewrite L2'. apply R2 in Hk. tauto.
      - intros k n. rewrite in_app_iff, R4, L4, Imm.
        assert (Hne : immovable ents0 n -> n <> x).
        { intros (y & Hy & Hg) ->. destruct Mx as (z & Hz & Hf). congruence. }
        split.
        + intros [A|(A & B & C & D)]; [tauto|]. destruct (S1 k) as [HW|HW]; [exfalso; eapply Emp; eauto|].
          split; [auto|]. split; auto. apply Same; auto.
        + intros ([A|A] & B & C); [auto|]. destruct (S1 k) as [HW|HW]; [auto|]. right.
          destruct (C2 k A) as [?|Hc]; [tauto|]. split; auto. split; [apply Same; auto|]. auto.
    Qed.

    Lemma wake_finite_report ord ents0 (W : handle -> Prop) x ents dbg l r : good_order ord -> slept ents0 W ents ->
      step_report ents0 W l -> wake_finite ord x (ents, dbg ++ l) = Ok r ->
      exists l', snd r = dbg ++ l' /\ step_report ents0 (fun k => W k \/ (finite_at ents0 x /\ connected ents0 x k)) l'.
    Proof.
      intros Ho Hs Rp H. unfold wake_finite in H. inv_ok H. rename x0 into e. cbn [fst snd] in *.
      assert (Hf : finite_at ents0 x <-> n_isfin (e_total_mass e) = true).
      { rewrite <- (finite_at_step _ _ _ x (sl_ents _ _ _ Hs) (slept_Rstep _ _)). unfold finite_at. rewrite E. split.
        - intros (e' & He & Hf). congruence.
        - eauto. }
      destruct (n_isfin (e_total_mass e)) eqn:Hfin.
      - assert (Fx : forall e', aget ents x = Some e' -> n_isinf (e_total_mass e') = false).
        { intros e' He'. assert (e' = e) by congruence. subst. now apply fin_not_inf. }
        destruct (slept_report ord ents0 W ents x dbg l r Ho Hs Rp Fx H) as (l' & Hl & Rp').
        exists l'. split; auto. eapply step_report_iff; [|exact Rp']. intros k. cbv beta. tauto.
      - inv_ok H. subst r. exists l. split; auto. eapply step_report_iff; [|exact Rp]. intros k. cbv beta. intuition congruence.
    Qed.

    Lemma iterate_report ord cols dt ents0 dbg l st st' fin : good_order ord -> loop_inv cols ents0 st ->
      l_debug st = dbg ++ l -> step_report ents0 (woken_by ents0 (l_records st)) l ->
      iterate ord cols dt st = Ok (st', fin) ->
      exists l', l_debug st' = dbg ++ l' /\ step_report ents0 (woken_by ents0 (l_records st')) l'.
    Proof.
      intros Ho HI Hl Rp H. unfold iterate in H. inv_ok H. destruct x as [p of]. clear E.
      inv_ok H. destruct x as [ents1 dbg1]. inv_ok H. destruct x as [ents2 infos2]. destruct HI as [I1 I2 I4 I5].
      destruct of as [f|].
      - apply rbind_ok in E. destruct E as ([ents' dbg'] & W1 & W2). inv_ok H. rename x into st2. inv_ok H. subst st2 fin.
        pose proof (respond_frame _ _ _ _ _ E) as (R1 & R2 & R3 & R4 & R5 & im & R6).
        cbn [l_ents l_infos l_left l_ctp l_records l_debug fst snd] in *. rewrite Hl in W1.
        pose proof (wake_finite_slept ord ents0 _ _ (l_ents st, dbg ++ l) _ Ho I1 W1) as (S1 & _). cbn [fst snd] in S1.
        destruct (wake_finite_report ord ents0 _ _ _ dbg l _ Ho I1 Rp W1) as (l1 & Hl1 & Rp1). cbn [fst snd] in Hl1. subst dbg'.
        destruct (wake_finite_report ord ents0 _ _ _ dbg l1 _ Ho S1 Rp1 W2) as (l2 & Hl2 & Rp2). cbn [fst snd] in Hl2.
        exists l2. split; [congruence|]. rewrite R6. eapply step_report_iff; [|exact Rp2]. intros k. cbv beta. unfold woken_by.
        setoid_rewrite named_app. simpl. split.
        -- intros [[(x & A & B & C)|(B & C)]|(B & C)]; eauto 10.
        -- intros (x & [A|[->| ->]] & B & C); eauto 10.
      - inv_ok E. subst ents1 dbg1. inv_ok H. subst st' fin. cbn [l_ents l_infos l_left l_ctp l_records l_debug fst snd] in *. eauto.
    Qed.
    Lemma iterations_report ord cols dt ents0 dbg n : good_order ord -> forall st st' l, loop_inv cols ents0 st ->
      l_debug st = dbg ++ l -> step_report ents0 (woken_by ents0 (l_records st)) l ->
      iterations ord cols dt n st = Ok st' ->
      exists l', l_debug st' = dbg ++ l' ++ (if Nat.eqb (length (l_records st')) (length (l_records st) + n) then [DRanOut] else []) /\
        step_report ents0 (woken_by ents0 (l_records st')) l'.
    Proof.
      intros Ho. induction n as [|n IH]; intros st st' l HI Hl Rp H; simpl in H.
      - inv_ok H. subst st'. cbn [l_records l_debug]. exists l. rewrite Nat.add_0_r, Nat.eqb_refl, Hl, <- app_assoc. auto.
      - inv_ok H. destruct x as [st1 fin]. assert (E' := E). apply (iterate_inv ord cols dt ents0) in E; auto.
        destruct E as (I1 & D1 & b & _ & _ & Hb). cbn [fst snd] in H.
        destruct (iterate_report ord cols dt ents0 dbg l st st1 fin Ho HI Hl Rp E') as (l1 & Hl1 & Rp1).
        destruct (snd b) as [f|].
        + destruct Hb as (-> & im & R). destruct (IH st1 st' l1 I1 Hl1 Rp1 H) as (l' & Hl' & Rp'). exists l'. split; auto.
          rewrite Hl', R, app_length. simpl. rewrite <- Nat.add_assoc. reflexivity.
        + destruct Hb as (-> & R). inv_ok H. subst st'. exists l1. rewrite R. split; [|rewrite <- R; exact Rp1].
          replace (Nat.eqb _ _) with false; [now rewrite app_nil_r|]. symmetry. apply Nat.eqb_neq. lia.
    Qed.

    Lemma sleep_phase_log dt et tt l : forall st st', rfold (sleep_one (T:=T) dt et tt) l st = Ok st' ->
      exists hs, snd st' = snd st ++ map DSleep hs /\ (forall h, In h hs -> In h (map i_h l)) /\ (NoDup (map i_h l) -> NoDup hs).
    Proof.
      induction l as [|i l IH]; intros st st' H; simpl in H.
      - inv_ok H. subst st'. exists []. rewrite app_nil_r. split; auto.
      - apply rbind_ok in H. destruct H as (st1 & E & H). apply sleep_one_spec in E. destruct E as (e & _ & _ & _ & E5).
        apply IH in H. destruct H as (hs & H1 & H2 & H3). rewrite H1, E5.
        destruct (snd (sleep_decision dt et tt (i_nbrs i) e)).
        + exists (i_h i :: hs). rewrite <- app_assoc. simpl. split; auto. split; [intros h [<-|Hh]; auto|].
          intros ND. apply NoDup_cons_iff in ND. destruct ND as (Hi & ND). constructor; auto.
        + exists hs. rewrite app_nil_r. simpl. split; auto. split; auto. intros ND. apply NoDup_cons_iff in ND. apply H3, ND.
    Qed.

    Lemma step_log ord s dt s' : good_order ord -> step ord s dt = Ok s' -> n_lt (n_abs dt) EPSILON = false ->
      exists l hs, s_debug s' = l ++ (if Nat.eqb (length (s_records s')) (s_iteration_max s) then [DRanOut] else []) ++ map DSleep hs /\
        wake_report (s_ents s) (roused s s') l /\ NoDup hs /\
        (forall k, In k hs <-> asleep s' k /\ (asleep s k -> roused s s' k)).
    Proof.
      intros Ho H Hd. pose proof (step_frame _ _ _ _ H) as (Fs & _).
      pose proof (step_sleepers _ _ _ _ Ho H Hd) as Sp. pose proof (sleep_only_awake ord s dt s') as Sa.
      destruct (step_entity _ _ _ _ Ho H Hd) as (Dec & _ & _).
      destruct (step_phases _ _ _ _ H Hd) as (s1 & infos & st & P1 & P2 & P3 & P4 & P5 & P6 & P7). cbv zeta in P1.
      assert (Rp0 : step_report (s_ents s1) (woken_by (s_ents s1) []) []).
      { assert (W0 : forall k, ~ woken_by (s_ents s1) [] k) by (intros k (x & (r & [] & _) & _)).
        split; [intros k Hk; now apply W0 in Hk|]. split; [intros m []|]. split; [intros k; split; [intros []|intros (Hk & _); now apply W0 in Hk]|].
        split; [simpl; auto|]. intros k n. split; [intros []|intros (Hk & _); now apply W0 in Hk]. }
      pose proof P2 as P2'. apply (iterations_inv ord (s_cols s) dt (s_ents s1) (s_iteration_max s) Ho _ _ (loop_inv_init _ _ _ _ P6)) in P2'.
      destruct P2' as ([L1 L2 L3 L4] & _).
      destruct (iterations_report ord (s_cols s) dt (s_ents s1) [] (s_iteration_max s) Ho _ _ [] (loop_inv_init _ _ _ _ P6) eq_refl Rp0 P2) as (l & Hl & Rp).
      cbn [l_records length] in Hl. simpl in Hl.
      destruct (sleep_phase_log _ _ _ _ _ _ P3) as (hs & Hs & _ & Nd). cbn [snd] in Hs.
      assert (F : forall x, finite_at (s_ents s1) x <-> finite_at (s_ents s) x) by (intros x; apply (finite_at_step _ _ _ x P7 (Rvel_Rstep))).
      assert (F' : forall x, finite_at (s_ents s') x <-> finite_at (s_ents s) x) by (intros x; apply (finite_at_step _ _ _ x Fs); auto).
      assert (Ro : forall k, roused s s' k <-> woken_by (s_ents s1) (l_records st) k).
      { intros k. unfold roused, struck, woken_by. rewrite <- P4. split.
        - intros (x & ((r & Hr & Hx) & (e & He & Hf)) & Hc). exists x. split; [exists r; auto|].
          split; [|now apply (connected_vel _ _ _ _ P7)]. apply F. apply F'. unfold get_entity in He.
          destruct (aget (s_ents s') x) as [e''|] eqn:Ee; [|discriminate]. injection He as <-. exists e''. auto.
        - intros (x & (r & Hr & Hx) & Hf & Hc). exists x. split; [|now apply (connected_vel _ _ _ _ P7)].
          split; [eauto|]. apply F, F' in Hf. destruct Hf as (e & He & Hf). exists (make_pub e). unfold get_entity. rewrite He. auto. }
      assert (Ct : forall a b, contact (s_ents s) a b <-> contact (s_ents s1) a b).
      { intros a b. unfold contact. split; intros (e & He & Hb).
        - destruct (arel_get _ _ _ _ _ P7 He) as (e' & He' & v & w & ->). exists (e_set_vels e v w). auto.
        - destruct (arel_get_r _ _ _ _ _ P7 He) as (e' & He' & v & w & ->). exists e'. auto. }
      assert (Im : forall b, immovable (s_ents s) b <-> immovable (s_ents s1) b).
      { intros b. unfold immovable. split; intros (e & He & Hb).
        - destruct (arel_get _ _ _ _ _ P7 He) as (e' & He' & v & w & ->). exists (e_set_vels e v w). auto.
        - destruct (arel_get_r _ _ _ _ _ P7 He) as (e' & He' & v & w & ->). exists e'. auto. }
      assert (Sl : forall b, sleeping (s_ents s) b <-> sleeping (s_ents s1) b).
      { intros b. unfold sleeping. split; intros (e & He & Hb).
        - destruct (arel_get _ _ _ _ _ P7 He) as (e' & He' & v & w & ->). exists (e_set_vels e v w). auto.
        - destruct (arel_get_r _ _ _ _ _ P7 He) as (e' & He' & v & w & ->). exists e'. auto. }
      exists l, hs. split; [rewrite Hs, Hl, P4, <- app_assoc; reflexivity|]. split; [|split].
      - apply step_report_wake in Rp. destruct Rp as (A & B & C & D). split; auto. split; [intros k; rewrite B, Ro, Sl; tauto|].
        split; auto. intros k n. rewrite D, !Ro, Ct, Im. tauto.
      - apply Nd. rewrite L2. apply ahandles_nodup.
      - assert (In_hs : forall k, In k hs <-> In (DSleep k) (s_debug s')).
        { intros k. rewrite Hs, in_app_iff, in_map_iff. split; [intros Hk; right; eauto|]. intros [Hk|(x & Hx & Hk)]; [|congruence].
          exfalso. rewrite Hl in Hk. apply in_app_or in Hk. destruct Rp as (_ & A & _). destruct Hk as [Hk|Hk]; [apply (A _ Hk)|].
          destruct (Nat.eqb _ _); [destruct Hk as [Hk|[]]; discriminate|destruct Hk]. }
        intros k. rewrite In_hs, Sp. split.
        + intros Hk. split; auto. intros Hs'. destruct (Sa k Ho H Hd Hk) as (e & e' & He & Hor & _).
          destruct Hor as [Hor|Hor]; auto. apply asleep_spec in Hs'. destruct Hs' as (x & Hx & Ha). congruence.
        + intros ([Hk|(Hk & Hr)] & Hi); auto. exfalso. apply Hr, Hi, Hk.
    Qed.
  End Ordered.
End Log.
