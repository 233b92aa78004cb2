(** * FirstP: which of several simultaneous collisions is responded to (any [Num]) *)
From Coq Require Import Reals List Permutation Bool Arith Lia Sorted.
Import ListNotations.
From Verif Require Import Num Vec Res Arena Orient Colliders Collide EntityM SystemM Spec ResP ArenaP OrderP FrameP WakeP StepP Step3P.

(** ** Pairs come in the order of their places *)
Section Sorted.
  Context {X : Type}.
  Definition sooner (p q : (nat * X) * (nat * X)) : Prop :=
    fst (fst p) < fst (fst q) \/ (fst (fst p) = fst (fst q) /\ fst (snd p) < fst (snd q)).
  Lemma sorted_app (l l' : list ((nat * X) * (nat * X))) : StronglySorted sooner l -> StronglySorted sooner l' -> (forall p q, In p l -> In q l' -> sooner p q) -> StronglySorted sooner (l ++ l').
  Proof.
    intros S S' H. induction S as [|p l S IH F]; [exact S'|]. cbn [app]. constructor.
    - apply IH. intros a b A B. apply H; [right|]; assumption.
    - apply Forall_app. split; [exact F|]. apply Forall_forall. intros q Q. apply H; [now left|exact Q].
  Qed.
  Lemma sorted_mid l1 p l2 q : StronglySorted sooner (l1 ++ p :: l2) -> In q (l1 ++ p :: l2) -> sooner q p -> In q l1.
  Proof.
    intros S I L. apply in_app_or in I. destruct I as [I|I]; [exact I|]. exfalso.
    assert (S' : StronglySorted sooner (p :: l2)). { clear I L. induction l1 as [|a l1 IH]; [exact S|]. apply IH. cbn [app] in S. now inversion S. }
    inversion S' as [|? ? _ F]; subst. destruct I as [->|I].
    - unfold sooner in L. lia.
    - rewrite Forall_forall in F. specialize (F q I). unfold sooner in *. lia.
  Qed.
  Lemma numbered_in (l : list X) k n x : In (n, x) (combine (seq k (length l)) l) -> k <= n.
  Proof. intros H. apply in_combine_l, in_seq in H. lia. Qed.
  Lemma pairs_sorted (l : list X) : forall k, StronglySorted sooner (all_pairs (combine (seq k (length l)) l)).
  Proof.
    induction l as [|x l IH]; intros k; [constructor|]. cbn [length seq combine all_pairs]. apply sorted_app; [|apply IH|].
    - generalize (S k) as m. clear IH. induction l as [|y l IH]; intros m; [constructor|]. cbn [length seq combine map]. constructor; [apply IH|].
      apply Forall_forall. intros q Q. apply in_map_iff in Q. destruct Q as ([n z] & <- & Q). apply numbered_in in Q. right. cbn [fst snd]. split; [reflexivity|lia].
    - intros p q P Q. apply in_map_iff in P. destruct P as (w & <- & _). destruct q as [[n a] [m b]]. apply all_pairs_in in Q. destruct Q as (i & j & _ & Q & _).
      apply nth_error_In, numbered_in in Q. left. cbn [fst]. lia.
  Qed.
End Sorted.

Section First.
  Context {T : Type} {N : Num T} {O : Ord N}.
  Implicit Types (ents : arena (ientity T)).
  (** Nothing changed, or the pair [p] gave an earlier collision. *)
  Definition taken (p : (nat * info T) * (nat * info T)) (b b' : T * option (found T)) : Prop :=
    b' = b \/ exists f, snd b' = Some f /\ fd_i1 f = fst (fst p) /\ fd_i2 f = fst (snd p) /\ n_lt (fst b') (fst b) = true.
  Lemma taken_trans p x y z : taken p x y -> taken p y z -> taken p x z.
  Proof.
    intros A [->|(f & F1 & F2 & F3 & F4)]; [exact A|]. right. exists f. repeat (split; [assumption|]).
    destruct A as [->|(_ & _ & _ & _ & L)]; [exact F4|]. exact (lt_trans _ _ _ F4 L).
  Qed.
  Lemma colliders_taken cols e1 e2 x1 x2 b ks b' : check_colliders cols e1 e2 x1 x2 b ks = Ok b' -> taken (x1, x2) b b'.
  Proof.
    unfold check_colliders. intros H. inv_ok H. inv_ok H. inv_ok H.
    repeat match type of H with context [match ?o with Some _ => _ | None => _ end] => destruct o as [c|] end.
    all: try (inv_ok H; subst; now left).
    cbv zeta in H. destruct (n_lt (vdot _ _) EPSILON); [inv_ok H; subst; now left|]. destruct (n_lt (c_time c) (fst b)) eqn:L; inv_ok H; subst; [|now left].
    right. eexists. split; [reflexivity|]. cbn [fst snd fd_i1 fd_i2]. auto.
  Qed.
  Lemma entities_taken ord cols ents b p b' : check_entities ord cols ents b p = Ok b' -> taken p b b'.
  Proof.
    destruct p as [y1 y2]. unfold check_entities. cbv zeta. intros H. inv_ok H. inv_ok H.
    destruct (hmem _ _); [inv_ok H; subst; now left|]. destruct (hmem _ _); [inv_ok H; subst; now left|].
    revert H. generalize (list_prod (ord KColliders (i_h (snd y1)) (e_colliders x)) (ord KColliders (i_h (snd y2)) (e_colliders x0))) as l. intros l. revert b.
    induction l as [|ks l IH]; intros b H; cbn [rfold] in H.
    - inv_ok H. subst. now left.
    - inv_ok H. apply IH in H. apply colliders_taken in E1. exact (taken_trans _ _ _ _ E1 H).
  Qed.
  Lemma fold_taken ord cols ents l : forall b b', rfold (check_entities ord cols ents) l b = Ok b' ->
    b' = b \/ exists l1 p l2 f b1, l = l1 ++ p :: l2 /\ snd b' = Some f /\ fd_i1 f = fst (fst p) /\ fd_i2 f = fst (snd p) /\
      rfold (check_entities ord cols ents) l1 b = Ok b1 /\ n_lt (fst b') (fst b1) = true.
  Proof.
    induction l as [|p l IH]; intros b b' H; cbn [rfold] in H.
    - inv_ok H. subst. now left.
    - apply rbind_ok in H. destruct H as (bm & E & H). apply IH in H. destruct H as [->|(l1 & q & l2 & f & b1 & -> & F1 & F2 & F3 & F4 & F5)].
      + destruct (entities_taken _ _ _ _ _ _ E) as [->|(f & F1 & F2 & F3 & F4)]; [now left|]. right. exists [], p, l, f, b. auto 10.
      + right. exists (p :: l1), q, l2, f, b1. split; [reflexivity|]. repeat (split; [assumption|]). split; [|exact F5]. cbn [rfold]. rewrite E. exact F4.
  Qed.
  Lemma fold_seen ord cols ents infos l b : good_order ord -> (forall p, In p l -> In p (all_pairs (combine (seq 0 (length infos)) infos))) ->
    rfold (check_entities ord cols ents) l (n1, None) = Ok b ->
    forall p k1 k2 c, In p l -> meets cols ents (snd (fst p)) (snd (snd p)) k1 k2 c -> n_lt (c_time c) (fst b) = false.
  Proof.
    intros Ho Sub H.
    apply (rfold_seen _ lower (best_ok cols ents infos)
      (fun p b => forall k1 k2 c, meets cols ents (snd (fst p)) (snd (snd p)) k1 k2 c -> n_lt (c_time c) (fst b) = false)) in H.
    - destruct H as (_ & _ & H2). intros p k1 k2 c I M. exact (H2 p I k1 k2 c M).
    - left; auto.
    - apply lower_trans.
    - intros a s s' Hq Hl k1 k2 c Hm. eapply lower_not; eauto.
    - intros best [[x i1] [y i2]] best' Hin Hb Hf. apply Sub, all_pairs_in in Hin.
      destruct Hin as (a & a' & Haa & Hx & Hy). rewrite nth_error_numbered in Hx, Hy.
      destruct (nth_error infos a) as [j1|] eqn:Ja; [|discriminate]. destruct (nth_error infos a') as [j2|] eqn:Jb; [|discriminate].
      simpl in Hx, Hy. injection Hx as -> ->. injection Hy as -> ->. cbn [fst snd].
      unfold check_entities in Hf. cbn [fst snd] in Hf. inv_ok Hf. inv_ok Hf. rename x0 into e1, x1 into e2.
      assert (NB : forall k1 k2 c, meets cols ents i1 i2 k1 k2 c -> ~ In (i_h i2) (e_neighbors e1) /\ ~ In (i_h i1) (e_neighbors e2) /\
        In k1 (e_colliders e1) /\ In k2 (e_colliders e2)).
      { intros k1 k2 c (e1' & e2' & c1' & c2' & A1 & A2 & A3 & A4 & A5 & A6 & _).
        assert (e1' = e1) by congruence. assert (e2' = e2) by congruence. subst. auto. }
      destruct (hmem (i_h i2) (e_neighbors e1)) eqn:M1.
      { inv_ok Hf. subst. split; auto. split; [now left|]. intros k1 k2 c Hm. apply NB in Hm. apply hmem_spec in M1. tauto. }
      destruct (hmem (i_h i1) (e_neighbors e2)) eqn:M2.
      { inv_ok Hf. subst. split; auto. split; [now left|]. intros k1 k2 c Hm. apply NB in Hm. apply hmem_spec in M2. tauto. }
      apply hmem_false in M1, M2.
      apply (rfold_seen _ lower (best_ok cols ents infos)
        (fun p b => forall c, meets cols ents i1 i2 (fst p) (snd p) c -> n_lt (c_time c) (fst b) = false)) in Hf; auto.
      + destruct Hf as (F1 & F2 & F3). split; auto. split; auto. intros k1 k2 c Hm. apply (F3 (k1, k2)); auto.
        apply NB in Hm. apply in_prod; [apply (Permutation_in _ (Permutation_sym (Ho _ _ _)))|apply (Permutation_in _ (Permutation_sym (Ho _ _ _)))]; tauto.
      + left; auto.
      + apply lower_trans.
      + intros p s s' Hq Hl c Hm. eapply lower_not; eauto.
      + intros s [k1 k2] s' Hk Hs Hf'. apply in_prod_iff in Hk. destruct Hk as (Hk1 & Hk2).
        apply (Permutation_in _ (Ho _ _ _)) in Hk1. apply (Permutation_in _ (Ho _ _ _)) in Hk2.
        apply (check_colliders_spec cols ents infos e1 e2 x i1 y i2 s (k1, k2) s'); auto.
    - reflexivity.
  Qed.
  Lemma eq_not_lt (x y z : T) : n_lt y z = true -> n_lt x z = false -> n_eq x y = false.
  Proof.
    intros A B. destruct (n_eq x y) eqn:E; [|reflexivity]. rewrite key_eq in E. rewrite key_lt in A, B. assert (K : key x = key y); [|congruence]. clear A B.
    destruct (key x) as [a| | |], (key y) as [b| | |]; cbn [er_eq] in E; try discriminate E; try reflexivity. destruct (Req_EM_T a b); [congruence|discriminate E].
  Qed.
  Lemma iterate_first ord cols dt (st st' : lstate T) : good_order ord -> iterate ord cols dt st = Ok (st', false) ->
    exists x y i1 i2 k1 k2 c, x < y /\ nth_error (l_infos st) x = Some i1 /\ nth_error (l_infos st) y = Some i2 /\
      meets cols (l_ents st) i1 i2 k1 k2 c /\
      (exists time rest im, l_records st' = l_records st ++ [mkCR (i_h i1) (i_h i2) (c_pos c) time (c_normal c) rest im]) /\
      forall x' y' j1 j2 k1' k2' c', x' < y' -> nth_error (l_infos st) x' = Some j1 -> nth_error (l_infos st) y' = Some j2 ->
        meets cols (l_ents st) j1 j2 k1' k2' c' ->
        n_lt (c_time c') (c_time c) = false /\ (x' < x \/ x' = x /\ y' < y -> n_eq (c_time c') (c_time c) = false).
  Proof.
    intros Ho H. unfold iterate in H. inv_ok H. rename E into Eb. destruct x as [p of].
    destruct (find_earliest_spec _ _ _ _ _ Ho Eb) as (Hb & Hmin). cbn [fst] in Hmin.
    inv_ok H. destruct x as [ents1 dbg1]. inv_ok H. destruct x as [ents2 infos2]. destruct of as [f|]; [|inv_ok H; discriminate].
    inv_ok H. inv_ok H. subst x. apply respond_frame in E1. cbn [l_ents l_infos l_left l_ctp l_records l_debug] in E1.
    destruct E1 as (_ & _ & _ & _ & _ & im & R). destruct Hb as (B0 & B1 & i1 & i2 & k1 & k2 & c1 & c2 & B2 & B3 & B4 & B5 & B6 & B7 & _).
    cbn [fst] in B0, B1. subst p.
    exists (fd_i1 f), (fd_i2 f), i1, i2, k1, k2, (fd_col f). repeat (split; [assumption|]). split; [do 3 eexists; rewrite R, B5, B6; reflexivity|].
    intros x' y' j1 j2 k1' k2' c' L X Y M. split; [exact (Hmin _ _ _ _ _ _ _ L X Y M)|]. intros S.
    unfold find_earliest in Eb. destruct (fold_taken _ _ _ _ _ _ Eb) as [Q|(l1 & q & l2 & g & b1 & Q & G1 & G2 & G3 & G4 & G5)]; [discriminate Q|].
    cbn [snd fst] in G1, G5. injection G1 as <-. apply (eq_not_lt _ _ (fst b1) G5).
    apply (fold_seen ord cols (l_ents st) (l_infos st) l1 b1 Ho) with (p := ((x', j1), (y', j2))) (k1 := k1') (k2 := k2'); [|exact G4| |exact M].
    - intros a A. rewrite Q. apply in_or_app. now left.
    - apply (sorted_mid l1 q l2); [rewrite <- Q; apply pairs_sorted| |].
      + rewrite <- Q. apply all_pairs_in. exists x', y'. split; [exact L|]. rewrite !nth_error_numbered, X, Y. auto.
      + unfold sooner. cbn [fst snd]. rewrite <- G2, <- G3. exact S.
  Qed.
End First.
