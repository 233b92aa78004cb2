(** * First2P: which of several simultaneous collisions of one pair of entities is responded to (any [Num]) *)
From Coq Require Import Reals List Permutation Bool Arith Lia.
Import ListNotations.
From Verif Require Import Num Vec Res Arena Orient Colliders Collide EntityM SystemM Spec ResP ArenaP OrderP FrameP WakeP StepP Step3P FirstP.

(** ** What comes before a pair in a product of lists *)
Lemma prod_split {A B : Type} (l : list A) (l' : list B) : forall m1 a b m2, list_prod l l' = m1 ++ (a, b) :: m2 ->
  exists u v, nth_error l u = Some a /\ nth_error l' v = Some b /\
    forall u' v' a' b', nth_error l u' = Some a' -> nth_error l' v' = Some b' -> u' < u \/ u' = u /\ v' < v -> In (a', b') m1.
Proof.
  induction l as [|x l IH]; intros m1 a b m2 H.
  - destruct m1; discriminate H.
  - cbn [list_prod] in H.
    assert (K : forall w, m1 = map (fun y => (x, y)) l' ++ w -> list_prod l l' = w ++ (a, b) :: m2 ->
      exists u v, nth_error (x :: l) u = Some a /\ nth_error l' v = Some b /\
        forall u' v' a' b', nth_error (x :: l) u' = Some a' -> nth_error l' v' = Some b' -> u' < u \/ u' = u /\ v' < v -> In (a', b') m1).
    { intros w -> E. destruct (IH _ _ _ _ E) as (u & v & U & V & W). exists (S u), v. split; [exact U|]. split; [exact V|].
      intros [|u'] v' a' b' A' B' L; apply in_or_app.
      - left. injection A' as <-. apply in_map_iff. exists b'. split; [reflexivity|]. exact (nth_error_In _ _ B').
      - right. apply (W u' v'); [exact A'|exact B'|lia]. }
    apply app_eq_app in H. destruct H as (w & [[E F]|[E F]]); [|exact (K w E F)].
    destruct w as [|p w]; [apply (K []); [now rewrite app_nil_r in *|symmetry; exact F]|].
    cbn [app] in F. injection F as <- _. clear K IH.
    assert (V : nth_error (map (fun y => (x, y)) l') (length m1) = Some (a, b)) by (rewrite E, nth_error_app2, Nat.sub_diag by lia; reflexivity).
    rewrite nth_error_map in V. destruct (nth_error l' (length m1)) as [b0|] eqn:V'; [|discriminate V]. injection V as <- <-.
    exists 0, (length m1). split; [reflexivity|]. split; [exact V'|]. intros u' v' a' b' A' B' [L|[-> L]]; [lia|]. injection A' as <-.
    apply nth_error_In with v'. rewrite <- (nth_error_app1 m1 ((x, b0) :: w)) by exact L. rewrite <- E, nth_error_map, B'. reflexivity.
Qed.

(** ** The last element of a fold that changed something *)
Lemma fold_last {A S : Type} (f : S -> A -> res S) (better : S -> S -> Prop) l :
  (forall s a s', f s a = Ok s' -> s' = s \/ better s s') -> forall s s', rfold f l s = Ok s' ->
  s' = s \/ exists l1 a l2 s1, l = l1 ++ a :: l2 /\ rfold f l1 s = Ok s1 /\ f s1 a = Ok s' /\ better s1 s'.
Proof.
  intros C. induction l as [|a l IH]; intros s s' H; cbn [rfold] in H.
  - inv_ok H. now left.
  - apply rbind_ok in H. destruct H as (sm & E & H). destruct (IH _ _ H) as [->|(l1 & q & l2 & s1 & -> & F1 & F2 & F3)].
    + destruct (C _ _ _ E) as [->|B]; [now left|]. right. exists [], a, l, s. auto.
    + right. exists (a :: l1), q, l2, s1. split; [reflexivity|]. split; [|auto]. cbn [rfold]. rewrite E. exact F1.
Qed.

Section First2.
  Context {T : Type} {N : Num T} {O : Ord N}.
  Implicit Types (ents : arena (ientity T)).
  Definition earlier (b b' : T * option (found T)) : Prop := n_lt (fst b') (fst b) = true.
  Lemma colliders_seen cols ents e1 e2 x1 x2 b ks b' : aget ents (i_h (snd x1)) = Some e1 -> aget ents (i_h (snd x2)) = Some e2 ->
    check_colliders cols e1 e2 x1 x2 b ks = Ok b' ->
    lower b b' /\ forall c, meets cols ents (snd x1) (snd x2) (fst ks) (snd ks) c -> n_lt (c_time c) (fst b') = false.
  Proof.
    intros He1 He2 H. unfold check_colliders in H. inv_ok H. inv_ok H. inv_ok H. rename x into c1, x0 into c2, x3 into oc, E into G1, E0 into G2, E1 into G3.
    assert (U : forall c, meets cols ents (snd x1) (snd x2) (fst ks) (snd ks) c -> oc = Some c /\
      n_lt (vdot (vsub (velocity_at e1 (c_pos c)) (velocity_at e2 (c_pos c))) (c_normal c)) EPSILON = false).
    { intros c (e1' & e2' & c1' & c2' & A1 & A2 & _ & _ & _ & _ & A3 & A4 & A5 & A6).
      assert (e1' = e1) by congruence. assert (e2' = e2) by congruence. assert (c1' = c1) by congruence. assert (c2' = c2) by congruence.
      subst. split; auto. congruence. }
    destruct oc as [c|].
    - cbv zeta in H. destruct (n_lt (vdot _ _) EPSILON) eqn:Ea.
      + inv_ok H. subst. split; [now left|]. intros c' Hc'. destruct (U c' Hc') as (Ec & Ev). injection Ec as <-. congruence.
      + destruct (n_lt (c_time c) (fst b)) eqn:Et; inv_ok H; subst b'.
        * split; [right; exact Et|]. intros c' Hc'. destruct (U c' Hc') as (Ec & _). injection Ec as <-. apply lt_irrefl.
        * split; [now left|]. intros c' Hc'. destruct (U c' Hc') as (Ec & _). injection Ec as <-. exact Et.
    - inv_ok H. subst. split; [now left|]. intros c' Hc'. destruct (U c' Hc') as (Ec & _). discriminate.
  Qed.
  Lemma colliders_found cols ents e1 e2 x1 x2 b ks b' : aget ents (i_h (snd x1)) = Some e1 -> aget ents (i_h (snd x2)) = Some e2 ->
    ~ In (i_h (snd x2)) (e_neighbors e1) -> ~ In (i_h (snd x1)) (e_neighbors e2) -> In (fst ks) (e_colliders e1) -> In (snd ks) (e_colliders e2) ->
    check_colliders cols e1 e2 x1 x2 b ks = Ok b' -> earlier b b' ->
    exists f, snd b' = Some f /\ fd_i1 f = fst x1 /\ fd_i2 f = fst x2 /\ fd_h1 f = i_h (snd x1) /\ fd_h2 f = i_h (snd x2) /\
      fst b' = c_time (fd_col f) /\ meets cols ents (snd x1) (snd x2) (fst ks) (snd ks) (fd_col f).
  Proof.
    intros He1 He2 N1 N2 K1 K2 H L. unfold earlier in L. unfold check_colliders in H. inv_ok H. inv_ok H. inv_ok H. rename x into c1, x0 into c2, x3 into oc.
    assert (X : b' = b -> False) by (intros ->; rewrite lt_irrefl in L; discriminate L).
    destruct oc as [c|]; [|inv_ok H; congruence]. cbv zeta in H. destruct (n_lt (vdot _ _) EPSILON) eqn:Ea; [inv_ok H; congruence|].
    destruct (n_lt (c_time c) (fst b)) eqn:Et; inv_ok H; [|congruence]. subst b'. eexists. split; [reflexivity|]. cbn.
    repeat (split; [reflexivity|]). exists e1, e2, c1, c2. auto 15.
  Qed.
  Lemma iterate_first_colliders ord cols dt (st st' : lstate T) : good_order ord -> iterate ord cols dt st = Ok (st', false) ->
    exists x y i1 i2 e1 e2 u v k1 k2 c, x < y /\ nth_error (l_infos st) x = Some i1 /\ nth_error (l_infos st) y = Some i2 /\
      aget (l_ents st) (i_h i1) = Some e1 /\ aget (l_ents st) (i_h i2) = Some e2 /\
      nth_error (ord KColliders (i_h i1) (e_colliders e1)) u = Some k1 /\ nth_error (ord KColliders (i_h i2) (e_colliders e2)) v = Some k2 /\
      meets cols (l_ents st) i1 i2 k1 k2 c /\
      (exists time rest im, l_records st' = l_records st ++ [mkCR (i_h i1) (i_h i2) (c_pos c) time (c_normal c) rest im]) /\
      forall u' v' k1' k2' c', nth_error (ord KColliders (i_h i1) (e_colliders e1)) u' = Some k1' ->
        nth_error (ord KColliders (i_h i2) (e_colliders e2)) v' = Some k2' -> meets cols (l_ents st) i1 i2 k1' k2' c' ->
        n_lt (c_time c') (c_time c) = false /\ (u' < u \/ u' = u /\ v' < v -> n_eq (c_time c') (c_time c) = false).
  Proof.
    intros Ho H. unfold iterate in H. inv_ok H. rename E into Eb. destruct x as [p of].
    destruct (find_earliest_spec _ _ _ _ _ Ho Eb) as (_ & Hmin). cbn [fst] in Hmin.
    inv_ok H. destruct x as [ents1 dbg1]. inv_ok H. destruct x as [ents2 infos2]. destruct of as [f|]; [|inv_ok H; discriminate].
    inv_ok H. inv_ok H. subst x. apply respond_frame in E1. cbn [l_ents l_infos l_left l_ctp l_records l_debug] in E1.
    destruct E1 as (_ & _ & _ & _ & _ & im & R). clear E E0.
    unfold find_earliest in Eb. apply (fold_last _ earlier) in Eb.
    2: { intros s a s' S. destruct (entities_taken _ _ _ _ _ _ S) as [Q|(_ & _ & _ & _ & Q)]; auto. }
    destruct Eb as [Q|(l1 & [[x i1] [y i2]] & l2 & b1 & Q & _ & S & L)]; [discriminate Q|].
    assert (I : In ((x, i1), (y, i2)) (all_pairs (combine (seq 0 (length (l_infos st))) (l_infos st)))) by (rewrite Q; apply in_or_app; right; now left).
    apply all_pairs_in in I. destruct I as (a & a' & La & X & Y). rewrite nth_error_numbered in X, Y.
    destruct (nth_error (l_infos st) a) as [j1|] eqn:Ja; [|discriminate]. destruct (nth_error (l_infos st) a') as [j2|] eqn:Jb; [|discriminate].
    cbn in X, Y. injection X as -> ->. injection Y as -> ->.
    assert (Z : (p, Some f) = b1 -> False) by (intros <-; unfold earlier in L; rewrite lt_irrefl in L; discriminate L).
    unfold check_entities in S. cbn [fst snd] in S. inv_ok S. inv_ok S. rename x0 into e1, x1 into e2, E into H1, E0 into H2.
    assert (G1 : aget (l_ents st) (i_h i1) = Some e1) by (first [exact H1|now apply unwrap_ok]). assert (G2 : aget (l_ents st) (i_h i2) = Some e2) by (first [exact H2|now apply unwrap_ok]).
    destruct (hmem (i_h i2) (e_neighbors e1)) eqn:M1; [inv_ok S; congruence|]. destruct (hmem (i_h i1) (e_neighbors e2)) eqn:M2; [inv_ok S; congruence|].
    apply hmem_false in M1, M2. apply (fold_last _ earlier) in S.
    2: { intros s q s' W. destruct (colliders_taken _ _ _ _ _ _ _ _ W) as [W'|(_ & _ & _ & _ & W')]; auto. }
    destruct S as [S|(m1 & [k1 k2] & m2 & b2 & Qm & Sm & Sk & Lk)]; [exfalso; auto|].
    assert (I : In (k1, k2) (list_prod (ord KColliders (i_h i1) (e_colliders e1)) (ord KColliders (i_h i2) (e_colliders e2)))) by (rewrite Qm; apply in_or_app; right; now left).
    apply in_prod_iff in I. destruct I as (I1 & I2). apply (Permutation_in _ (Ho _ _ _)) in I1. apply (Permutation_in _ (Ho _ _ _)) in I2.
    destruct (colliders_found cols (l_ents st) e1 e2 (x, i1) (y, i2) b2 (k1, k2) (p, Some f) G1 G2 M1 M2 I1 I2 Sk Lk) as (g & F0 & F1 & F2 & F3 & F4 & F5 & F6).
    cbn [fst snd] in F0, F1, F2, F3, F4, F5, F6. injection F0 as <-. subst p.
    destruct (prod_split _ _ _ _ _ _ Qm) as (u & v & U & V & W).
    exists x, y, i1, i2, e1, e2, u, v, k1, k2, (fd_col f). repeat (split; [assumption|]). split; [do 3 eexists; rewrite R, F3, F4; reflexivity|].
    intros u' v' k1' k2' c' U' V' M. split; [exact (Hmin _ _ _ _ _ _ _ La Ja Jb M)|]. intros D.
    apply (eq_not_lt _ _ (fst b2) Lk). specialize (W _ _ _ _ U' V' D).
    apply (rfold_seen _ lower (fun _ => True) (fun p b => forall c, meets cols (l_ents st) i1 i2 (fst p) (snd p) c -> n_lt (c_time c) (fst b) = false)) in Sm; [| | | | |exact Logic.I].
    - destruct Sm as (_ & _ & Sm). exact (Sm _ W _ M).
    - intros s. now left.
    - apply lower_trans.
    - intros q s s' Hq Hl c Hm. eapply lower_not; eauto.
    - intros s q s' _ _ Hs. split; [exact Logic.I|]. exact (colliders_seen cols (l_ents st) e1 e2 (x, i1) (y, i2) s q s' G1 G2 Hs).
  Qed.
End First2.
