(** * MeshP: building meshes (C44) *)
From Coq Require Import List Bool Arith Lia.
Import ListNotations.
From Verif Require Import Num Vec Res Arena Orient Colliders Spec ResP.

Section Mesh.
  Context {T : Type} {N : Num T}.
  Implicit Types (m : mesh_c T) (p v : Vec3 T).

  Lemma find_vertex_some p l : forall i k, find_vertex p i l = Some k ->
    exists v, i <= k /\ nth_error l (k - i) = Some v /\ n_lt (vmag (vsub v p)) EPSILON = true.
  Proof.
    induction l as [|v l IH]; simpl; intros i k H; [discriminate|].
    destruct (n_lt _ _) eqn:E.
    - injection H as <-. exists v. rewrite Nat.sub_diag. auto.
    - apply IH in H. destruct H as (w & H1 & H2 & H3). exists w. split; [lia|]. split; auto.
      replace (k - i) with (S (k - S i)) by lia. exact H2.
  Qed.
  Lemma find_vertex_none p l : forall i, find_vertex p i l = None ->
    forall v, In v l -> n_lt (vmag (vsub v p)) EPSILON = false.
  Proof.
    induction l as [|v l IH]; simpl; intros i H w Hw; [tauto|].
    destruct (n_lt _ _) eqn:E; [discriminate|]. destruct Hw as [<-|Hw]; eauto.
  Qed.

  Lemma add_points_spec pts : forall verts verts' is, add_points (T:=T) verts pts = (verts', is) ->
    separated verts ->
    (exists ext, verts' = verts ++ ext /\ incl ext pts) /\ separated verts' /\ Forall2 (near_vertex verts') is pts.
  Proof.
    induction pts as [|p pts IH]; simpl; intros verts verts' is H Hs.
    - injection H as <- <-. split; [exists []; rewrite app_nil_r; split; auto; intros x []|]. split; auto.
    - destruct (find_vertex p 0 verts) as [k|] eqn:Ef.
      + destruct (add_points verts pts) as [v2 is2] eqn:Ea. injection H as <- <-.
        destruct (IH _ _ _ Ea Hs) as ((ext & -> & Hi) & S2 & F2). split; [exists ext; split; auto; intros x Hx; right; auto|]. split; auto. constructor; auto.
        apply find_vertex_some in Ef. destruct Ef as (v & _ & Hn & Hd). rewrite Nat.sub_0_r in Hn.
        exists v. split; [|auto]. rewrite nth_error_app1; auto. apply nth_error_Some. congruence.
      + destruct (add_points (verts ++ [p]) pts) as [v2 is2] eqn:Ea. injection H as <- <-.
        assert (S1 : separated (verts ++ [p])).
        { intros i j a b Hij Ha Hb.
          assert (Hj : j < length (verts ++ [p])) by (apply nth_error_Some; congruence).
          rewrite app_length in Hj. simpl in Hj.
          rewrite nth_error_app1 in Ha by lia.
          destruct (Nat.eq_dec j (length verts)) as [->|Hne].
          - rewrite nth_error_app2, Nat.sub_diag in Hb by lia. simpl in Hb. injection Hb as <-.
            eapply find_vertex_none; eauto. eapply nth_error_In; eauto.
          - rewrite nth_error_app1 in Hb by lia. exact (Hs i j a b Hij Ha Hb). }
        destruct (IH _ _ _ Ea S1) as ((ext & -> & Hi) & S2 & F2). split; [exists (p :: ext); rewrite <- app_assoc; split; auto; intros x [->|Hx]; [now left|right; auto]|].
        split; auto. constructor; auto. exists p. split; auto.
        rewrite <- app_assoc, nth_error_app2, Nat.sub_diag by lia. reflexivity.
  Qed.

  Lemma loop_pairs_length {X} (l : list X) : length (loop_pairs l) = length l.
  Proof. destruct l as [|x l]; [reflexivity|]. unfold loop_pairs. rewrite combine_length, app_length. cbn [length]. rewrite Nat.add_1_r. apply Nat.min_id. Qed.
  Lemma loop_pairs_in {X} (l : list X) a b : In (a, b) (loop_pairs l) -> In a l /\ In b l.
  Proof.
    destruct l as [|x l]; simpl; [tauto|]. intros H.
    assert (H' : In (a, b) (combine (x :: l) (l ++ [x]))) by exact H.
    pose proof (in_combine_l _ _ _ _ H'). pose proof (in_combine_r _ _ _ _ H') as Hb.
    split; auto. apply in_app_iff in Hb. simpl in Hb. tauto.
  Qed.

  Lemma add_edge_spec es i j : NoDup es ->
    NoDup (add_edge es i j) /\ incl es (add_edge es i j) /\
    In (min i j, max i j) (add_edge es i j) /\
    (forall e, In e (add_edge es i j) -> In e es \/ e = (min i j, max i j)).
  Proof.
    intros Hn. unfold add_edge.
    assert (E : (if Nat.ltb j i then (j, i) else (i, j)) = (min i j, max i j)).
    { destruct (Nat.ltb_spec j i); f_equal; lia. }
    rewrite E. set (a := min i j). set (b := max i j).
    destruct (existsb (fun e => Nat.eqb a (fst e) && Nat.eqb b (snd e)) es) eqn:Ex.
    - apply existsb_exists in Ex. destruct Ex as ([c d] & Hin & He). simpl in He.
      apply andb_true_iff in He. destruct He as (H1 & H2). apply Nat.eqb_eq in H1. apply Nat.eqb_eq in H2. subst c d.
      split; auto. split; [apply incl_refl|]. split; auto.
    - assert (Hni : ~ In (a, b) es).
      { intros Hin. assert (existsb (fun e => Nat.eqb a (fst e) && Nat.eqb b (snd e)) es = true); [|congruence].
        apply existsb_exists. exists (a, b). split; auto. simpl. now rewrite !Nat.eqb_refl. }
      split.
      { rewrite <- (rev_involutive (es ++ [(a, b)])). apply NoDup_rev. rewrite rev_app_distr. simpl. constructor.
        - now rewrite <- in_rev. - now apply NoDup_rev. }
      split; [apply incl_appl, incl_refl|]. split; [apply in_app_iff; simpl; auto|].
      intros e He. apply in_app_iff in He. simpl in He. destruct He as [He|[<-|[]]]; auto.
  Qed.
  Lemma add_edges_fold l : forall es, NoDup es ->
    let es' := fold_left (fun es q => add_edge es (fst q) (snd q)) l es in
    NoDup es' /\ incl es es' /\ (forall a b, In (a, b) l -> In (min a b, max a b) es') /\
    (forall e, In e es' -> In e es \/ exists a b, In (a, b) l /\ e = (min a b, max a b)).
  Proof.
    induction l as [|[a b] l IH]; simpl; intros es Hn.
    - split; auto. split; [apply incl_refl|]. split; [tauto|auto].
    - destruct (add_edge_spec es a b Hn) as (N1 & I1 & M1 & B1). destruct (IH _ N1) as (N2 & I2 & M2 & B2).
      split; auto. split; [eapply incl_tran; eauto|]. split.
      + intros c d [H|H]; [injection H as <- <-; auto|auto].
      + intros e He. destruct (B2 e He) as [He'|(c & d & H1 & H2)].
        * destruct (B1 e He') as [?|?]; eauto 10.
        * right. eauto 10.
  Qed.
  Lemma add_edges_spec es is : NoDup es ->
    NoDup (add_edges es is) /\ incl es (add_edges es is) /\
    (forall a b, In (a, b) (loop_pairs is) -> In (min a b, max a b) (add_edges es is)) /\
    (forall e, In e (add_edges es is) -> In e es \/ exists a b, In (a, b) (loop_pairs is) /\ e = (min a b, max a b)).
  Proof. apply add_edges_fold. Qed.

  Lemma nth_error_combine {X Y} (l : list X) : forall (l' : list Y) i a b,
    nth_error (combine l l') i = Some (a, b) <-> nth_error l i = Some a /\ nth_error l' i = Some b.
  Proof.
    induction l as [|x l IH]; intros l' i a b.
    - destruct i; simpl; intuition discriminate.
    - destruct l' as [|y l']; simpl; [destruct i; simpl; intuition discriminate|].
      destruct i as [|i]; simpl; [|apply IH]. split; [intros H; inversion H; auto|intros (H1 & H2); congruence].
  Qed.
  Lemma rotated_nth {X} (x : X) l i : i < S (length l) ->
    nth_error (l ++ [x]) i = nth_error (x :: l) ((i + 1) mod length (x :: l)).
  Proof.
    intros H. cbn [length]. destruct (Nat.eq_dec i (length l)) as [->|Hne].
    - rewrite nth_error_app2, Nat.sub_diag by lia. rewrite Nat.add_1_r, Nat.mod_same by lia. reflexivity.
    - rewrite nth_error_app1 by lia. rewrite Nat.mod_small by lia. rewrite Nat.add_1_r. reflexivity.
  Qed.
  Lemma loop_pairs_next {X} (l : list X) a b : In (a, b) (loop_pairs l) <-> next_to l a b.
  Proof.
    destruct l as [|x l]; [simpl; split; [tauto|intros (i & H & _); destruct i; discriminate]|].
    change (loop_pairs (x :: l)) with (combine (x :: l) (l ++ [x])). unfold next_to. split.
    - intros H. apply In_nth_error in H. destruct H as (i & H). apply nth_error_combine in H. destruct H as (H1 & H2).
      exists i. split; auto. rewrite <- rotated_nth; auto.
      apply (proj1 (nth_error_Some (x :: l) i)). congruence.
    - intros (i & H1 & H2). apply (nth_error_In _ i), nth_error_combine. split; auto.
      rewrite rotated_nth; auto. apply (proj1 (nth_error_Some (x :: l) i)). congruence.
  Qed.

  Lemma add_face_spec m pts m' : mesh_wf m -> add_face m pts = Ok m' ->
    mesh_wf m' /\ me_pos m' = me_pos m /\ me_mat m' = me_mat m /\ me_ent m' = me_ent m /\
    (exists ext, me_verts m' = me_verts m ++ ext /\ incl ext pts) /\
    exists face, me_faces m' = me_faces m ++ [face] /\ Forall2 (near_vertex (me_verts m')) face pts /\
      (forall e, In e (me_edges m') <-> In e (me_edges m) \/ exists a b, next_to face a b /\ e = (min a b, max a b)).
  Proof.
    intros (W1 & W2 & W3 & W4) H. unfold add_face in H. destruct (Nat.ltb_spec (length pts) 3) as [|Hl]; [discriminate|].
    destruct (forallb _ _); [|discriminate].
    destruct (add_points (me_verts m) pts) as [verts is] eqn:Ea. injection H as <-. simpl.
    destruct (add_points_spec _ _ _ _ Ea W1) as ((ext & -> & Hext) & S2 & F2).
    destruct (add_edges_spec (me_edges m) is W4) as (ND & I & M & B).
    assert (Hlen : length is = length pts) by (clear - F2; induction F2; simpl; congruence).
    assert (Hin : forall i, In i is -> i < length (me_verts m ++ ext)).
    { intros i Hi. clear - F2 Hi. induction F2 as [|a b l l' H F IH]; simpl in Hi; [tauto|].
      destruct Hi as [<-|Hi]; auto. destruct H as (v & Hn & _). apply nth_error_Some. congruence. }
    assert (Hgrow : length (me_verts m) <= length (me_verts m ++ ext)) by (rewrite app_length; lia).
    split.
    - split; [exact S2|]. split; [|split; [|exact ND]].
      + apply Forall_app. split.
        * eapply Forall_impl; [|exact W2]. intros f (Hf1 & Hf2). split; auto.
          eapply Forall_impl; [|exact Hf2]. simpl. intros. lia.
        * constructor; auto. split; [lia|]. apply Forall_forall. exact Hin.
      + apply Forall_forall. intros e He. destruct (B e He) as [He'|(a & b & H1 & ->)].
        * rewrite Forall_forall in W3. destruct (W3 e He') as (Wa & Wb). split; [exact Wa|]. simpl. eapply Nat.lt_le_trans; [exact Wb|exact Hgrow].
        * apply loop_pairs_in in H1. destruct H1 as (H1 & H2). apply Hin in H1. apply Hin in H2. simpl. lia.
    - repeat (split; [reflexivity|]). split; [eauto|]. exists is. split; auto. split; auto.
      intros e. split.
      + intros He. destruct (B e He) as [He'|(a & b & H1 & ->)]; [now left|right]. exists a, b. split; auto. now apply loop_pairs_next.
      + intros [He|(a & b & H1 & ->)]; [now apply I|]. apply M. now apply loop_pairs_next.
  Qed.

  Lemma wrap_mod i k n : 0 < n -> i < n -> k <= n -> (if Nat.ltb (i + k) n then i + k else i + k - n) = (i + k) mod n.
  Proof.
    intros Hn Hi Hk. destruct (Nat.ltb_spec (i + k) n) as [H|H]; [now rewrite Nat.mod_small|].
    replace (i + k) with (i + k - n + 1 * n) at 2 by lia. rewrite Nat.mod_add by lia. now rewrite Nat.mod_small by lia.
  Qed.
  Lemma add_face_accepts m pts : (exists m', add_face m pts = Ok m') <-> flat_convex pts.
  Proof.
    unfold add_face, flat_convex. destruct (Nat.ltb_spec (length pts) 3) as [Hl|Hl].
    { split; [intros (? & ?); discriminate|lia]. }
    assert (Hnth : forall i, i < length pts -> nth_error pts i = Some (nth i pts vzero)) by (intros; now apply nth_error_nth').
    assert (D : forallb (corner_ok pts (tri_normal (nth 0 pts vzero) (nth 1 pts vzero) (nth 2 pts vzero))) (seq 0 (length pts)) = true <->
      (forall p0 p1 p2 i a b c, nth_error pts 0 = Some p0 -> nth_error pts 1 = Some p1 -> nth_error pts 2 = Some p2 ->
      nth_error pts i = Some a -> nth_error pts ((i + 1) mod length pts) = Some b ->
      nth_error pts ((i + 2) mod length pts) = Some c ->
      n_lt (n_abs (n_sub (vdot (unit_normal a b c) (unit_normal p0 p1 p2)) n1)) EPSILON = true)).
    { rewrite forallb_forall. split.
      - intros H p0 p1 p2 i a b c H0 H1 H2 Ha Hb Hc.
        assert (Hi : i < length pts) by (apply nth_error_Some; congruence).
        specialize (H i (proj2 (in_seq _ _ _) (conj (Nat.le_0_l _) Hi))). unfold corner_ok in H.
        rewrite !wrap_mod in H by lia.
        rewrite (nth_error_nth _ _ _ H0), (nth_error_nth _ _ _ H1), (nth_error_nth _ _ _ H2),
          (nth_error_nth _ _ _ Ha), (nth_error_nth _ _ _ Hb), (nth_error_nth _ _ _ Hc) in H. exact H.
      - intros H i Hi. apply in_seq in Hi. unfold corner_ok. rewrite !wrap_mod by lia.
        assert (M : forall k, (i + k) mod length pts < length pts) by (intros; apply Nat.mod_upper_bound; lia).
        eapply H; apply Hnth; try lia; auto. }
    destruct (forallb _ _).
    - destruct (add_points _ _). split; eauto. intros _. split; auto. now apply D.
    - split; [intros (? & ?); discriminate|]. intros (_ & H). apply D in H. discriminate.
  Qed.

  Lemma mesh_new_wf : mesh_wf (mesh_new (T:=T)).
  Proof. split; [|split; [|split]]; simpl; auto; try constructor. intros i j a b _ H. destruct i; discriminate. Qed.
  Lemma mesh_built_wf m : mesh_built m -> mesh_wf m.
  Proof.
    induction 1 as [|m pts m' Hb IH Hf|m e p mt Hb IH].
    - apply mesh_new_wf.
    - apply add_face_spec in Hf; auto. apply Hf.
    - exact IH.
  Qed.
End Mesh.
