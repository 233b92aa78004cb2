(** * ArenaP: facts about the arena and hash-set model *)
From Coq Require Import List NArith Arith Bool Lia Permutation.
Import ListNotations.
From Verif Require Import Res Arena.

(** ** Handles *)
Lemma heqb_spec a b : reflect (a = b) (heqb a b).
Proof.
  destruct a as [i g], b as [j k]; unfold heqb; simpl.
  destruct (Nat.eqb_spec i j), (N.eqb_spec g k); simpl; constructor; congruence.
Qed.
Lemma heqb_refl a : heqb a a = true.
Proof. destruct (heqb_spec a a); congruence. Qed.
Lemma heqb_neq a b : a <> b -> heqb a b = false.
Proof. destruct (heqb_spec a b); congruence. Qed.
Lemma heqb_sym a b : heqb a b = heqb b a.
Proof. destruct (heqb_spec a b), (heqb_spec b a); congruence. Qed.
Lemma handle_eq_dec (a b : handle) : {a = b} + {a <> b}.
Proof. destruct (heqb_spec a b); auto. Qed.

(** ** Hash sets *)
Lemma hmem_spec h s : hmem h s = true <-> In h s.
Proof.
  unfold hmem. rewrite existsb_exists. split.
  - intros (x & Hx & He). destruct (heqb_spec h x); congruence.
  - intros Hx. exists h. split; auto using heqb_refl.
Qed.
Lemma hmem_false h s : hmem h s = false <-> ~ In h s.
Proof. rewrite <- hmem_spec. destruct (hmem h s); split; congruence. Qed.
Lemma hinsert_in h s x : In x (hinsert h s) <-> x = h \/ In x s.
Proof.
  unfold hinsert. destruct (hmem h s) eqn:E.
  - apply hmem_spec in E. split; [auto|]. intros [->|H]; auto.
  - rewrite in_app_iff. simpl. intuition congruence.
Qed.
Lemma hinsert_nodup h s : NoDup s -> NoDup (hinsert h s).
Proof.
  unfold hinsert. intros H. destruct (hmem h s) eqn:E; auto.
  apply hmem_false in E. apply NoDup_Add with (a := h) (l := s).
  - replace s with (s ++ []) at 1 by apply app_nil_r. apply Add_app.
  - auto.
Qed.
Lemma hremove_in h s x : In x (hremove h s) <-> x <> h /\ In x s.
Proof.
  unfold hremove. rewrite filter_In. destruct (heqb_spec h x); simpl; intuition congruence.
Qed.
Lemma hremove_nodup h s : NoDup s -> NoDup (hremove h s).
Proof. apply NoDup_filter. Qed.
Lemma hremove_length h s : length (hremove h s) <= length s.
Proof.
  unfold hremove. induction s as [|y s IH]; simpl; auto.
  destruct (heqb h y); simpl; lia.
Qed.

(** ** Lists *)
Section Lists.
  Context {A : Type}.
  Lemma length_list_set (l : list A) i x : length (list_set l i x) = length l.
  Proof. revert i; induction l as [|y l IH]; intros [|i]; simpl; auto. Qed.
  Lemma nth_error_list_set_eq (l : list A) i x : i < length l -> nth_error (list_set l i x) i = Some x.
  Proof. revert i; induction l as [|y l IH]; intros [|i] H; simpl in *; try lia; auto. apply IH; lia. Qed.
  Lemma nth_error_list_set_neq (l : list A) i j x : i <> j -> nth_error (list_set l i x) j = nth_error l j.
  Proof. revert i j; induction l as [|y l IH]; intros [|i] [|j] H; simpl; auto; try lia. Qed.
  Lemma list_set_same (l : list A) i x : nth_error l i = Some x -> list_set l i x = l.
  Proof. revert i; induction l as [|y l IH]; intros [|i] H; simpl in *; try congruence. f_equal; auto. Qed.
  Lemma list_set_twice (l : list A) i x y : list_set (list_set l i x) i y = list_set l i y.
  Proof. revert i; induction l as [|z l IH]; intros [|i]; simpl; auto. f_equal; auto. Qed.
  Lemma list_set_comm (l : list A) i j x y : i <> j ->
    list_set (list_set l i x) j y = list_set (list_set l j y) i x.
  Proof. revert i j; induction l as [|z l IH]; intros [|i] [|j] H; simpl; auto; try lia. f_equal; auto. Qed.
  Lemma nth_error_lt (l : list A) i x : nth_error l i = Some x -> i < length l.
  Proof. intros H. apply nth_error_Some. congruence. Qed.
  Lemma in_list_set (l : list A) i x y : In y (list_set l i x) -> y = x \/ In y l.
  Proof.
    revert i; induction l as [|z l IH]; intros [|i] H; simpl in *; auto.
    - destruct H; auto.
    - destruct H as [->|H]; auto. destruct (IH i H); auto.
  Qed.
End Lists.

(** ** Arenas *)
Section ArenaP.
  Context {A : Type}.
  Implicit Types (a : arena A) (h : handle) (x : A).

  (** The free list starting at [o] visits exactly the indices [fl]. *)
  Fixpoint chain (items : list (entry A)) (o : option nat) (fl : list nat) : Prop :=
    match fl with
    | [] => o = None
    | i :: fl' => o = Some i /\ exists nx, nth_error items i = Some (Free nx) /\ chain items nx fl'
    end.
  Record awf a : Prop := {
    awf_free : exists fl, NoDup fl /\ chain (a_items a) (a_head a) fl;
    awf_gen : forall i g x, nth_error (a_items a) i = Some (Occ g x) -> (g <= a_gen a)%N;
    awf_len : 0 < length (a_items a) }.

  Lemma chain_ext items items' o fl :
    (forall i, In i fl -> nth_error items' i = nth_error items i) ->
    chain items o fl -> chain items' o fl.
  Proof.
    revert o; induction fl as [|i fl IH]; simpl; auto; intros o H (-> & nx & E & C).
    split; auto. exists nx. rewrite H by auto. split; auto.
  Qed.

  Lemma chain_free items o fl i : chain items o fl -> In i fl -> exists nx, nth_error items i = Some (Free nx).
  Proof.
    revert o; induction fl as [|j fl IH]; simpl; [tauto|].
    intros o (-> & nx & En & C) [Hj|Hi]; [subst j; eauto|eauto].
  Qed.

  Lemma aget_lt a h x : aget a h = Some x -> h_idx h < length (a_items a).
  Proof.
    unfold aget. destruct (nth_error (a_items a) (h_idx h)) eqn:E; try congruence.
    intros _. eapply nth_error_lt; eauto.
  Qed.
  Lemma aget_nth a h x : aget a h = Some x <-> nth_error (a_items a) (h_idx h) = Some (Occ (h_gen h) x).
  Proof.
    unfold aget. destruct (nth_error (a_items a) (h_idx h)) as [[nx|g y]|] eqn:E; try (split; congruence).
    destruct (N.eqb_spec g (h_gen h)); split; congruence.
  Qed.

  (** *** [aset] *)
  Lemma aset_dead a h x : aget a h = None -> aset a h x = a.
  Proof. unfold aset. now intros ->. Qed.
  Lemma aget_aset_eq a h x y : aget a h = Some y -> aget (aset a h x) h = Some x.
  Proof.
    intros H. pose proof (aget_lt _ _ _ H). unfold aset. rewrite H.
    apply aget_nth. simpl. now apply nth_error_list_set_eq.
  Qed.
  Lemma aget_aset_neq a h h' x : h <> h' -> aget (aset a h x) h' = aget a h'.
  Proof.
    intros Hne. unfold aset. destruct (aget a h) eqn:E; auto.
    destruct (Nat.eq_dec (h_idx h) (h_idx h')) as [Hi|Hi].
    - pose proof (aget_lt _ _ _ E).
      assert (Hg : h_gen h <> h_gen h') by (intros Hg; apply Hne; destruct h, h'; simpl in *; congruence).
      apply aget_nth in E. unfold aget. simpl. rewrite <- Hi.
      rewrite nth_error_list_set_eq, E by auto.
      now rewrite (proj2 (N.eqb_neq _ _) Hg).
    - unfold aget. simpl. now rewrite nth_error_list_set_neq.
  Qed.
  Lemma aget_aset a h h' x :
    aget (aset a h x) h' = if heqb h h' then (match aget a h with Some _ => Some x | None => None end) else aget a h'.
  Proof.
    destruct (heqb_spec h h') as [<-|Hne].
    - destruct (aget a h) eqn:E. + eapply aget_aset_eq; eauto. + now rewrite aset_dead.
    - now apply aget_aset_neq.
  Qed.
  Lemma aget_aset_none a h h' x : aget (aset a h x) h' = None <-> aget a h' = None.
  Proof.
    rewrite aget_aset. destruct (heqb_spec h h') as [<-|]; [|reflexivity]. destruct (aget a h); split; congruence.
  Qed.
  Lemma aset_aset a h x y : aset (aset a h x) h y = aset a h y.
  Proof.
    destruct (aget a h) eqn:E.
    - unfold aset at 1. rewrite (aget_aset_eq _ _ _ _ E). unfold aset. rewrite E. simpl.
      now rewrite list_set_twice.
    - rewrite (aset_dead a h x) by auto. reflexivity.
  Qed.
  Lemma aset_same a h x : aget a h = Some x -> aset a h x = a.
  Proof.
    intros H. unfold aset. rewrite H. apply aget_nth in H. rewrite list_set_same by auto. now destruct a.
  Qed.
  Lemma aset_comm a h h' x y : h <> h' -> aset (aset a h x) h' y = aset (aset a h' y) h x.
  Proof.
    intros Hne.
    destruct (aget a h) as [v|] eqn:E.
    2:{ rewrite (aset_dead a h) by auto. rewrite (aset_dead (aset a h' y) h); auto. now apply aget_aset_none. }
    destruct (aget a h') as [v'|] eqn:E'.
    2:{ rewrite (aset_dead a h') by auto. rewrite (aset_dead (aset a h x) h'); auto. now apply aget_aset_none. }
    assert (Hi : h_idx h <> h_idx h').
    { intros Hi. apply aget_nth in E, E'. rewrite Hi in E. apply Hne. destruct h, h'; simpl in *. congruence. }
    assert (S1 : forall (b : arena A) k y z, aget b k = Some y ->
      aset b k z = mkA (list_set (a_items b) (h_idx k) (Occ (h_gen k) z)) (a_gen b) (a_head b))
      by (intros b k u z Hk; unfold aset; now rewrite Hk).
    rewrite (S1 (aset a h x) h' v') by (rewrite aget_aset_neq; auto).
    rewrite (S1 (aset a h' y) h v) by (rewrite aget_aset_neq; auto).
    rewrite (S1 a h v), (S1 a h' v') by auto. simpl. f_equal. now apply list_set_comm.
  Qed.
  Lemma a_gen_aset a h x : a_gen (aset a h x) = a_gen a.
  Proof. unfold aset. now destruct (aget a h). Qed.
  Lemma awf_aset a h x : awf a -> awf (aset a h x).
  Proof.
    intros [(fl & Hnd & Hc) Hg Hl]. unfold aset. destruct (aget a h) eqn:E; [|split; eauto].
    apply aget_nth in E. split; simpl.
    - exists fl. split; auto. eapply chain_ext; [|exact Hc].
      intros i Hi. apply nth_error_list_set_neq. intros <-.
      destruct (chain_free _ _ _ _ Hc Hi) as (nx & En). congruence.
    - intros i g y Hn. destruct (Nat.eq_dec (h_idx h) i) as [<-|Hi].
      + rewrite nth_error_list_set_eq in Hn by (eapply nth_error_lt; eauto). injection Hn as <- _. eauto.
      + rewrite nth_error_list_set_neq in Hn by auto. eauto.
    - now rewrite length_list_set.
  Qed.

  (** *** [anew], [areserve], [ainsert] *)
  Lemma nth_free_run start n (oh : option nat) k : k < n ->
    nth_error (@free_run A start n oh) k = Some (Free (if Nat.eqb k (n - 1) then oh else Some (S (start + k)))).
  Proof.
    intros Hk. unfold free_run. rewrite nth_error_map, (nth_error_nth' _ 0) by (rewrite seq_length; lia).
    rewrite seq_nth by lia. simpl. f_equal.
    destruct (Nat.eqb_spec (start + k) (start + n - 1)), (Nat.eqb_spec k (n - 1)); auto; lia.
  Qed.
  Lemma length_free_run start n (oh : option nat) : length (@free_run A start n oh) = n.
  Proof. unfold free_run. now rewrite map_length, seq_length. Qed.

  Lemma chain_seq items start n fl (oh : option nat) :
    (forall k, k < n -> nth_error items (start + k) = Some (Free (if Nat.eqb k (n - 1) then oh else Some (S (start + k))))) ->
    chain items oh fl -> chain items (match n with O => oh | _ => Some start end) (seq start n ++ fl).
  Proof.
    revert start; induction n as [|n IH]; intros start H C; simpl; auto.
    split; auto. pose proof (H 0 ltac:(lia)) as H0. rewrite Nat.add_0_r in H0.
    eexists. split; [exact H0|].
    destruct n as [|n]; simpl.
    - exact C.
    - apply (IH (S start)); auto. intros k Hk. specialize (H (S k) ltac:(lia)).
      replace (start + S k) with (S start + k) in H by lia. rewrite H. f_equal. f_equal.
      destruct (Nat.eqb_spec (S k) (S (S n) - 1)), (Nat.eqb_spec k (S n - 1)); auto; lia.
  Qed.

  Lemma awf_areserve_none a n : a_head a = None -> 0 < n ->
    (forall i g x, nth_error (a_items a) i = Some (Occ g x) -> (g <= a_gen a)%N) ->
    awf (areserve a n) /\ a_head (areserve a n) = Some (length (a_items a)) /\
    a_gen (areserve a n) = a_gen a /\ (forall h, aget (areserve a n) h = aget a h).
  Proof.
    intros Hh Hn Hg. destruct n as [|n]; [lia|]. simpl. split; [|split; [|split]]; auto.
    - split; simpl.
      + exists (seq (length (a_items a)) (S n) ++ []). split; [rewrite app_nil_r; apply seq_NoDup|].
        apply (chain_seq _ (length (a_items a)) (S n) [] None); [|reflexivity].
        intros k Hk. rewrite nth_error_app2 by lia. rewrite Hh.
        replace (length (a_items a) + k - length (a_items a)) with k by lia.
        now apply nth_free_run.
      + intros i g x H. destruct (lt_dec i (length (a_items a))).
        * rewrite nth_error_app1 in H by auto. eauto.
        * rewrite nth_error_app2 in H by lia.
          assert (Hk : i - length (a_items a) < S n).
          { apply nth_error_lt in H. now rewrite length_free_run in H. }
          rewrite nth_free_run in H by auto. congruence.
      + rewrite app_length, length_free_run. lia.
    - intros h. unfold aget. simpl. destruct (lt_dec (h_idx h) (length (a_items a))).
      + now rewrite nth_error_app1.
      + rewrite nth_error_app2 by lia.
        rewrite (proj2 (nth_error_None (a_items a) (h_idx h))) by lia.
        destruct (lt_dec (h_idx h - length (a_items a)) (S n)).
        * now rewrite nth_free_run.
        * rewrite (proj2 (nth_error_None (free_run (length (a_items a)) (S n) (a_head a)) (h_idx h - length (a_items a)))); auto.
          rewrite length_free_run. lia.
  Qed.

  Lemma awf_anew : awf (@anew A).
  Proof.
    apply (awf_areserve_none (mkA [] 0%N None) 4); auto; try lia.
    intros i g x H. destruct i; simpl in H; congruence.
  Qed.
  Lemma aget_anew h : aget (@anew A) h = None.
  Proof. unfold aget. simpl. destruct h as [[|[|[|[|i]]]] g]; simpl; auto. now destruct i. Qed.

  Lemma atry_insert_some a i : awf a -> a_head a = Some i -> forall x,
    exists a', atry_insert a x = Ok (Some (a', mkH i (a_gen a))) /\ awf a' /\ a_gen a' = a_gen a /\
      aget a (mkH i (a_gen a)) = None /\ aget a' (mkH i (a_gen a)) = Some x /\
      (forall h', h' <> mkH i (a_gen a) -> aget a' h' = aget a h').
  Proof.
    intros [([|j fl] & Hnd & Hc) Hg Hl] Hh x; simpl in Hc; [congruence|].
    destruct Hc as (Hc1 & nx & En & Hc). assert (j = i) by congruence. subst j.
    unfold atry_insert. rewrite Hh, En. pose proof (nth_error_lt _ _ _ En) as Hlt.
    inversion Hnd as [|? ? Hni Hnd']; subst.
    eexists. split; [reflexivity|]. split; [split|split; [|split; [|split]]]; simpl; auto.
    - exists fl. split; auto. eapply chain_ext; [|exact Hc]. intros k Hk.
      apply nth_error_list_set_neq. congruence.
    - intros k g y Hk. destruct (Nat.eq_dec i k) as [<-|Hik].
      + rewrite nth_error_list_set_eq in Hk by auto. injection Hk as <- _. lia.
      + rewrite nth_error_list_set_neq in Hk by auto. eauto.
    - now rewrite length_list_set.
    - unfold aget. simpl. now rewrite En.
    - apply aget_nth. simpl. now apply nth_error_list_set_eq.
    - intros h' Hne. unfold aget. simpl. destruct (Nat.eq_dec i (h_idx h')) as [Hi|Hi].
      + rewrite <- Hi, nth_error_list_set_eq, En by auto.
        destruct (N.eqb_spec (a_gen a) (h_gen h')); auto. exfalso. apply Hne. destruct h'; simpl in *. congruence.
      + now rewrite nth_error_list_set_neq.
  Qed.

  (** [Arena::insert] never fails, returns a handle that was not alive, of the
      current generation, and changes nothing else. *)
  Lemma ainsert_spec a x : awf a ->
    exists a' h, ainsert a x = Ok (a', h) /\ awf a' /\ a_gen a' = a_gen a /\ h_gen h = a_gen a /\
      aget a h = None /\ aget a' h = Some x /\ (forall h', h' <> h -> aget a' h' = aget a h').
  Proof.
    intros Hwf. unfold ainsert. destruct (a_head a) as [i|] eqn:Hh.
    - destruct (atry_insert_some a i Hwf Hh x) as (a' & E & H). exists a', (mkH i (a_gen a)).
      rewrite E. simpl. intuition.
    - assert (E : atry_insert a x = Ok None) by (unfold atry_insert; now rewrite Hh). rewrite E. simpl.
      destruct (awf_areserve_none a (length (a_items a)) Hh (awf_len _ Hwf) (awf_gen _ Hwf)) as (Hw & Hh' & Hg & Hget).
      destruct (atry_insert_some _ _ Hw Hh' x) as (a' & E' & Hw' & Hg' & H1 & H2 & H3).
      rewrite Hg in *.
      exists a', (mkH (length (a_items a)) (a_gen a)). rewrite E'. simpl.
      split; [reflexivity|]. split; [exact Hw'|]. split; [congruence|]. split; [reflexivity|].
      split; [rewrite <- Hget; exact H1|]. split; [exact H2|].
      intros h' Hne. rewrite H3, Hget; auto.
  Qed.

  (** *** [aremove] *)
  Lemma aremove_none a h : aget a h = None -> aremove a h = None.
  Proof. unfold aremove. now intros ->. Qed.
  Lemma aremove_spec a h x : awf a -> aget a h = Some x ->
    exists a', aremove a h = Some (a', x) /\ awf a' /\ a_gen a' = (a_gen a + 1)%N /\
      aget a' h = None /\ (forall h', h' <> h -> aget a' h' = aget a h').
  Proof.
    intros [(fl & Hnd & Hc) Hg Hl] E. unfold aremove. rewrite E. eexists. split; [reflexivity|].
    pose proof (aget_lt _ _ _ E) as Hlt. apply aget_nth in E.
    assert (Hni : ~ In (h_idx h) fl).
    { intros Hi. destruct (chain_free _ _ _ _ Hc Hi) as (nx & En). congruence. }
    split; [split|split; [|split]]; simpl; auto.
    - exists (h_idx h :: fl). split; [now constructor|]. split; auto. exists (a_head a).
      rewrite nth_error_list_set_eq by auto. split; auto. eapply chain_ext; [|exact Hc].
      intros i Hi. apply nth_error_list_set_neq. congruence.
    - intros i g y Hn. destruct (Nat.eq_dec (h_idx h) i) as [<-|Hi].
      + rewrite nth_error_list_set_eq in Hn by auto. congruence.
      + rewrite nth_error_list_set_neq in Hn by auto. specialize (Hg _ _ _ Hn). lia.
    - now rewrite length_list_set.
    - unfold aget. simpl. now rewrite nth_error_list_set_eq.
    - intros h' Hne. unfold aget. simpl. destruct (Nat.eq_dec (h_idx h) (h_idx h')) as [Hi|Hi].
      + rewrite <- Hi, nth_error_list_set_eq, E by auto.
        destruct (N.eqb_spec (h_gen h) (h_gen h')); auto. exfalso. apply Hne. destruct h, h'; simpl in *. congruence.
      + now rewrite nth_error_list_set_neq.
  Qed.

  (** *** Iteration *)
  Lemma ahandles_from_in l i h : In h (ahandles_from i l) <->
    exists x, i <= h_idx h /\ nth_error l (h_idx h - i) = Some (@Occ A (h_gen h) x).
  Proof.
    revert i; induction l as [|e l IH]; intros i; simpl.
    - split; [tauto|]. intros (x & _ & H). destruct (h_idx h - i); simpl in H; congruence.
    - assert (HS : forall x, (S i <= h_idx h /\ nth_error l (h_idx h - S i) = Some (Occ (h_gen h) x)) <->
                     (i < h_idx h /\ nth_error (e :: l) (h_idx h - i) = Some (Occ (h_gen h) x))).
      { intros x. split; intros (H1 & H2); (split; [lia|]).
        - replace (h_idx h - i) with (S (h_idx h - S i)) by lia. exact H2.
        - replace (h_idx h - i) with (S (h_idx h - S i)) in H2 by lia. exact H2. }
      assert (HI : In h (ahandles_from (S i) l) <-> exists x, i < h_idx h /\ nth_error (e :: l) (h_idx h - i) = Some (Occ (h_gen h) x)).
      { rewrite IH. split; intros (x & H); exists x; now apply HS. }
      destruct e as [nx|g y].
      + rewrite HI. split; intros (x & H1 & H2); exists x; (split; [|exact H2]); try lia.
        destruct (Nat.eq_dec i (h_idx h)) as [Hi|]; [|lia].
        rewrite Hi, Nat.sub_diag in H2. simpl in H2. congruence.
      + simpl. rewrite HI. split.
        * intros [<-|(x & H1 & H2)].
          -- simpl. exists y. split; auto. now rewrite Nat.sub_diag.
          -- exists x. split; [lia|exact H2].
        * intros (x & H1 & H2). destruct (Nat.eq_dec i (h_idx h)) as [Hi|].
          -- left. rewrite Hi, Nat.sub_diag in H2. simpl in H2. destruct h; simpl in *. congruence.
          -- right. exists x. split; [lia|exact H2].
  Qed.
  Lemma ahandles_in a h : In h (ahandles a) <-> aget a h <> None.
  Proof.
    unfold ahandles. rewrite ahandles_from_in. split.
    - intros (x & _ & H). rewrite Nat.sub_0_r in H. apply aget_nth in H. congruence.
    - intros H. destruct (aget a h) as [x|] eqn:E; [|congruence]. apply aget_nth in E.
      exists x. rewrite Nat.sub_0_r. split; [lia|auto].
  Qed.
  Lemma ahandles_from_nodup l i : NoDup (@ahandles_from A i l).
  Proof.
    revert i; induction l as [|e l IH]; intros i; simpl; [constructor|].
    destruct e as [nx|g y]; auto. constructor; auto.
    rewrite ahandles_from_in. simpl. intros (x & H & _). lia.
  Qed.
  Lemma ahandles_nodup a : NoDup (ahandles a).
  Proof. apply ahandles_from_nodup. Qed.
  Lemma ahandles_from_set l i k g x y : nth_error l k = Some (Occ g x) ->
    ahandles_from i (list_set l k (Occ g y)) = @ahandles_from A i l.
  Proof.
    revert i k; induction l as [|e l IH]; intros i [|k] H; simpl in *; try congruence.
    - injection H as ->. reflexivity.
    - destruct e; rewrite IH; auto.
  Qed.
  Lemma ahandles_aset a h x : ahandles (aset a h x) = ahandles a.
  Proof.
    unfold aset. destruct (aget a h) eqn:E; auto. unfold ahandles. simpl.
    apply aget_nth in E. eapply ahandles_from_set; eauto.
  Qed.

  (** [avalues] in terms of handles. *)
  Lemma avalues_of_handles l i :
    map (fun h => nth_error l (h_idx h - i)) (@ahandles_from A i l) = map (fun e => Some e)
      (map (fun p => Occ (fst p) (snd p)) (combine (map h_gen (ahandles_from i l)) (avalues_of l))).
  Proof.
    revert i; induction l as [|e l IH]; intros i; simpl; auto.
    assert (Hs : map (fun h => nth_error (e :: l) (h_idx h - i)) (ahandles_from (S i) l)
               = map (fun h => nth_error l (h_idx h - S i)) (ahandles_from (S i) l)).
    { apply map_ext_in. intros h Hin. apply ahandles_from_in in Hin. destruct Hin as (x & Hle & _).
      replace (h_idx h - i) with (S (h_idx h - S i)) by lia. reflexivity. }
    destruct e as [nx|g y]; simpl.
    - rewrite Hs. apply IH.
    - rewrite Nat.sub_diag. simpl. f_equal. rewrite Hs. apply IH.
  Qed.
  Lemma avalues_of_length l i : length (@avalues_of A l) = length (ahandles_from i l).
  Proof. revert i; induction l as [|e l IH]; intros i; simpl; auto. destruct e; simpl; auto. Qed.
  Lemma avalues_spec a : map (aget a) (ahandles a) = map Some (avalues a).
  Proof.
    unfold avalues, ahandles.
    assert (H : forall l i, (forall h, In h (ahandles_from i l) -> aget a h = match nth_error l (h_idx h - i) with
       | Some (Occ g x) => if N.eqb g (h_gen h) then Some x else None | _ => None end) ->
       map (aget a) (ahandles_from i l) = map Some (avalues_of l)).
    { induction l as [|e l IH]; intros i Hi; simpl; auto.
      assert (Hrest : map (aget a) (ahandles_from (S i) l) = map Some (avalues_of l)).
      { apply IH. intros h Hin. rewrite Hi.
        - pose proof Hin as Hin'. apply ahandles_from_in in Hin'. destruct Hin' as (x & Hle & _).
          replace (h_idx h - i) with (S (h_idx h - S i)) by lia. reflexivity.
        - simpl. destruct e; simpl; auto. }
      destruct e as [nx|g y]; simpl; auto. f_equal; auto.
      rewrite Hi by (simpl; auto). simpl. rewrite Nat.sub_diag. simpl. now rewrite N.eqb_refl. }
    apply H. intros h _. unfold aget. now rewrite Nat.sub_0_r.
  Qed.

  (** *** Evolution: what every arena operation preserves about old handles *)
  (** [issued a h]: [h] was returned by an insertion into (a previous state of) [a]. *)
  Definition issued a h : Prop := (h_gen h <= a_gen a)%N /\ (aget a h = None -> (h_gen h < a_gen a)%N).
  Record aevo a a' : Prop := {
    ev_wf : awf a -> awf a';
    ev_issued : awf a -> forall h, issued a h -> issued a' h;
    ev_dead : awf a -> forall h, issued a h -> aget a h = None -> aget a' h = None }.
  Lemma aevo_refl a : aevo a a.
  Proof. split; auto. Qed.
  Lemma aevo_trans a b c : aevo a b -> aevo b c -> aevo a c.
  Proof. intros [H1 H2 H3] [G1 G2 G3]. split; auto. Qed.
  Lemma aevo_aset a h x : aevo a (aset a h x).
  Proof.
    split.
    - apply awf_aset.
    - intros _ h' [H1 H2]. split; rewrite a_gen_aset; auto. intros H. apply H2. now apply aget_aset_none in H.
    - intros _ h' _ H. now apply aget_aset_none.
  Qed.
  Lemma aevo_ainsert a x a' h : ainsert a x = Ok (a', h) -> aevo a a'.
  Proof.
    intros E. assert (Hs : awf a -> awf a' /\ a_gen a' = a_gen a /\ h_gen h = a_gen a /\ aget a h = None /\ aget a' h = Some x /\ (forall h', h' <> h -> aget a' h' = aget a h')).
    { intros Hw. destruct (ainsert_spec a x Hw) as (b & k & E' & H). rewrite E in E'. injection E' as <- <-. exact H. }
    split.
    - intros Hw. apply Hs; auto.
    - intros Hw h' [H1 H2]. destruct (Hs Hw) as (_ & Hg & Hg' & Hn & Hs' & Ho). split; rewrite Hg; auto.
      destruct (handle_eq_dec h' h) as [->|Hne]; [congruence|]. rewrite Ho; auto.
    - intros Hw h' [H1 H2] Hd. destruct (Hs Hw) as (_ & Hg & Hg' & Hn & Hs' & Ho).
      destruct (handle_eq_dec h' h) as [->|Hne]; [|rewrite Ho; auto]. specialize (H2 Hd). lia.
  Qed.
  Lemma ainsert_issued a x a' h : awf a -> ainsert a x = Ok (a', h) ->
    issued a' h /\ aget a' h = Some x /\ forall h', issued a h' -> h' <> h.
  Proof.
    intros Hw E. destruct (ainsert_spec a x Hw) as (b & k & E' & Hw' & Hg & Hg' & Hn & Hs & Ho).
    rewrite E in E'. injection E' as <- <-. split; [|split; auto].
    - split; [lia|congruence].
    - intros h' [H1 H2] ->. specialize (H2 Hn). lia.
  Qed.
  Lemma aevo_aremove a h a' x : aremove a h = Some (a', x) -> aevo a a'.
  Proof.
    intros E. assert (Hg : aget a h <> None) by (unfold aremove in E; destruct (aget a h); congruence).
    destruct (aget a h) as [y|] eqn:Eg; [|congruence].
    assert (Hs : awf a -> awf a' /\ a_gen a' = (a_gen a + 1)%N /\ aget a' h = None /\ (forall h', h' <> h -> aget a' h' = aget a h')).
    { intros Hw. destruct (aremove_spec a h y Hw Eg) as (b & E' & H). rewrite E in E'. injection E' as <- _. exact H. }
    split.
    - intros Hw. apply Hs; auto.
    - intros Hw h' [H1 H2]. destruct (Hs Hw) as (_ & Hg' & Hn & Ho). split; rewrite Hg'; try lia.
    - intros Hw h' [H1 H2] Hd. destruct (Hs Hw) as (_ & Hg' & Hn & Ho).
      destruct (handle_eq_dec h' h) as [->|Hne]; auto. rewrite Ho; auto.
  Qed.
End ArenaP.
