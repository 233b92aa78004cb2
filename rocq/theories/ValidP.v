(** * ValidP: only valid objects are stored (C08), and they are stored as given (C03) *)
From Coq Require Import ZArith Reals List Permutation Bool Arith Lia Lra.
Import ListNotations.
Local Open Scope nat_scope.
From Verif Require Import Num Vec Res Arena Orient Colliders Collide EntityM SystemM Spec ResP ArenaP FrameP StoreP Store2P OrderP ArithP MeshP ExecP.

Section Valid.
  Context {T : Type} {N : Num T} {O : Ord N} {O2 : Ord2 O}.
  Implicit Types (s : system T) (h : handle) (e : ientity T) (c src : collider T).

  Lemma eps_pos : n_lt n0 EPSILON = true.
  Proof.
    rewrite key_lt, key_0. destruct key_eps as (x & -> & H). simpl. destruct (Rlt_dec 0 x); auto. lra.
  Qed.
  Lemma size_lt x y : n_lt EPSILON (n_sub x y) = true -> n_lt y x = true.
  Proof. intros H. apply sub_pos. eapply lt_trans; [apply eps_pos|exact H]. Qed.
  Lemma min_of_lt x y : n_lt x y = true -> ty_min x y = x.
  Proof. unfold ty_min. now intros ->. Qed.
  Lemma max_of_lt x y : n_lt x y = true -> ty_max x y = y.
  Proof. unfold ty_max. intros H. now rewrite (lt_asym _ _ H). Qed.

  Lemma box_valid_less b : box_valid (T:=T) b = true ->
    vless (bx_min b) (bx_max b) /\ n_le n0 (bx_mass b) = true /\
    vmin (bx_min b) (bx_max b) = bx_min b /\ vmax (bx_min b) (bx_max b) = bx_max b.
  Proof.
    unfold box_valid. rewrite !andb_true_iff. simpl. intros (((H1 & H2) & H3) & H4).
    apply size_lt in H1, H2, H3. split; [split; auto|]. split; auto.
    unfold vmin, vmax. rewrite !min_of_lt, !max_of_lt by auto. now destruct (bx_min b), (bx_max b).
  Qed.
  Lemma stored_new_as src : collider_valid src = true ->
    stored_as (fun v => vdivs v (vmag v)) None src (stored_new src).
  Proof.
    destruct src; simpl; intros H; repeat (split; [reflexivity|]); try reflexivity.
    apply box_valid_less in H. destruct H as (_ & _ & H1 & H2). rewrite H1, H2. auto.
  Qed.
  Lemma update_from_as c src c' : collider_update_from c src = UOk c' -> stored_as (fun v => v) (c_entity c) src c'.
  Proof.
    destruct c, src; simpl; try discriminate.
    - destruct (null_valid _); intros H; inversion H; simpl; auto 20.
    - destruct (sphere_valid _); intros H; inversion H; simpl; auto 20.
    - destruct (plane_valid _); intros H; inversion H; simpl; auto 20.
    - destruct (mesh_valid _); intros H; inversion H; simpl; auto 20.
    - destruct (box_valid _) eqn:V; intros H; inversion H; simpl; auto 20.
      apply box_valid_less in V. destruct V as (_ & _ & V1 & V2). rewrite V1, V2. auto 20.
  Qed.

  (** The acceptance test, spelled out. *)
  Lemma valid_acceptable src : collider_valid src = true <-> acceptable src.
  Proof.
    destruct src as [c|c|c|c|c]; simpl.
    - reflexivity.
    - apply andb_true_iff.
    - unfold plane_valid. apply andb_true_iff.
    - unfold mesh_valid. rewrite !andb_true_iff, !Nat.leb_le. tauto.
    - unfold box_valid. rewrite !andb_true_iff. tauto.
  Qed.

  Lemma collider_ok_of_valid src : collider_built src -> collider_valid src = true ->
    n_le n0 (mass_of src) = true /\
    match src with
    | CNull _ => True
    | CSphere c => n_lt (n_frac 1%Z 20%positive) (sp_radius c) = true
    | CPlane c => n_lt EPSILON (vmag (pl_normal c)) = true
    | CMesh c => 3 <= length (me_verts c) /\ 1 <= length (me_faces c) /\ 1 <= length (me_edges c) /\ mesh_wf c
    | CBox c => vless (bx_min c) (bx_max c)
    end.
  Proof.
    destruct src as [c|c|c|c|c]; simpl; intros Hb H.
    - unfold null_valid in H. auto.
    - unfold sphere_valid in H. apply andb_true_iff in H. split; apply H.
    - unfold plane_valid in H. apply andb_true_iff in H. split; apply H.
    - unfold mesh_valid in H. rewrite !andb_true_iff, !Nat.leb_le in H.
      split; [apply le_refl, n0_notnan|]. split; [apply H|]. split; [apply H|]. split; [apply H|]. now apply mesh_built_wf.
    - apply box_valid_less in H. split; apply H.
  Qed.
  Lemma stored_new_ok src : collider_built src -> collider_valid src = true -> collider_ok (stored_new src).
  Proof.
    intros Hb H. pose proof (stored_new_as _ H) as A. apply collider_ok_of_valid in H; auto. destruct H as (H1 & H2).
    split; [destruct src; exact H1|]. destruct src as [c|c|c|c|c]; auto.
    - eexists. split; [exact H2|]. right. reflexivity.
    - simpl in A. destruct A as (_ & _ & A1 & A2 & _). simpl in *. rewrite A1, A2. exact H2.
  Qed.
  Lemma update_from_valid c src c' : collider_update_from c src = UOk c' -> collider_valid src = true.
  Proof. destruct c, src; simpl; try discriminate; match goal with |- context [if ?b then _ else _] => destruct b end; congruence. Qed.
  Lemma update_from_ok c src c' : collider_built src -> collider_update_from c src = UOk c' -> collider_ok c'.
  Proof.
    intros Hb H. pose proof (update_from_as _ _ _ H) as A. apply update_from_valid in H. apply collider_ok_of_valid in H; auto.
    destruct H as (H1 & H2). destruct src as [d|d|d|d|d], c' as [d'|d'|d'|d'|d']; simpl in A; try tauto.
    - destruct A as (_ & _ & A1 & _). split; simpl; auto. now rewrite A1.
    - destruct A as (_ & _ & A1 & A2 & _). split; simpl; rewrite ?A1, ?A2; auto.
    - destruct A as (_ & _ & A1 & A2 & _). split; simpl; rewrite ?A2; auto. exists (pl_normal d). rewrite A1. auto.
    - destruct A as (_ & _ & A1 & A2 & A3 & _). split; simpl; auto. unfold mesh_wf in *. now rewrite A1, A2, A3.
    - destruct A as (_ & _ & A1 & A2 & A3 & _). split; simpl; rewrite ?A1, ?A2, ?A3; auto.
  Qed.
  Lemma link_ok c t : collider_ok c -> collider_ok (c_set_entity c t).
  Proof. destruct c; exact (fun H => H). Qed.

  Lemma stored_colliders_ok s : reachable s -> forall h c, get_collider s h = Some c -> collider_ok c.
  Proof.
    intros R. pattern s. eapply reachable_ind; [| |exact R].
    - intros h c H. unfold get_collider in H. exfalso. simpl in H. unfold aget in H. simpl in H.
      destruct (h_idx h) as [|[|[|[|[|k]]]]]; simpl in H; discriminate.
    - clear s R. intros ord s o s' a Hc I IH E h c H. pose proof (exec_collider _ _ _ _ _ _ _ (proj1 Hc) I E H) as D.
      destruct Hc as (_ & Hc). destruct D as [(src & -> & V & -> & _)|(c0 & H0 & D)].
      + apply stored_new_ok; auto.
      + apply IH in H0. destruct D as [->|[(t & _ & ->)|(src & -> & U)]]; auto.
        * now apply link_ok.
        * exact (update_from_ok _ _ _ Hc U).
  Qed.

  Lemma new_from_own (src : entity T) e : entity_new_from src = Some e -> n_lt (e_own_mass e) n0 = false.
  Proof. unfold entity_new_from. destruct (n_lt _ _) eqn:E; intros H; inversion H; auto. Qed.
  Lemma update_from_own e (src : entity T) e1 w : update_from e src = Some (e1, w) -> n_lt (e_own_mass e1) n0 = false.
  Proof. unfold update_from. destruct (n_lt _ _) eqn:E; intros H; inversion H; auto. Qed.
  Lemma stored_own_mass s : reachable s -> forall h (e : entity T), get_entity s h = Some e -> n_lt (pe_own_mass e) n0 = false.
  Proof.
    intros R.
    assert (G : forall h e, aget (s_ents s) h = Some e -> n_lt (e_own_mass e) n0 = false).
    { pattern s. eapply reachable_ind; [| |exact R].
      - intros h e H. exfalso. simpl in H. unfold aget in H. simpl in H.
        destruct (h_idx h) as [|[|[|[|[|k]]]]]; simpl in H; discriminate.
      - clear s R. intros ord s o s' a Hc I IH E h e H. pose proof (exec_entity _ _ _ _ _ _ _ (proj1 Hc) I E H) as D.
        destruct D as [(src & _ & En & _)|(e0 & H0 & D)].
        + eapply new_from_own; eauto.
        + apply IH in H0. destruct D as [? |e' k src ? ? ? (? & ? & ->)|src e1 w e2 e' ? ? Hu Hr (? & ? & ->) _|e' ? Hr|dt e' ? Hs]; auto.
          * simpl. apply relinked_frame in Hr. destruct Hr as (? & ? & ? & ->). simpl. eapply update_from_own; eauto.
          * apply relinked_frame in Hr. destruct Hr as (? & ? & ? & ->). exact H0.
          * apply step_frame in Hs. destruct Hs as (Hs & _). destruct (arel_get_r _ _ _ _ _ Hs H) as (e1 & G1 & (_ & G2 & _)).
            rewrite G2. eauto. }
    intros h e H. unfold get_entity in H. destruct (aget (s_ents s) h) as [ie|] eqn:E; [|discriminate].
    simpl in H. injection H as <-. simpl. eauto.
  Qed.

  (** ** C03, stated with [stored_as] *)
  Lemma add_collider_stored s src : reachable s -> forall s' ans, add_collider s src = Ok (s', ans) ->
    (ans = None <-> ~ acceptable src) /\
    (forall h, ans = Some h -> get_collider s h = None /\
      (exists c, get_collider s' h = Some c /\ stored_as (fun v => vdivs v (vmag v)) None src c) /\
      (forall h', h' <> h -> get_collider s' h' = get_collider s h') /\
      (forall k, get_entity s' k = get_entity s k) /\ (forall g, get_generator s' g = get_generator s g)).
  Proof.
    intros R s' ans H. pose proof (add_collider_map s src R) as P. destruct (collider_valid src) eqn:V.
    - destruct P as (s1 & h & E & Hn & Hs & P). rewrite E in H. injection H as <- <-.
      split; [rewrite <- valid_acceptable; split; congruence|].
      intros h' Hh. injection Hh as <-. split; auto. split; auto. eexists. split; [exact Hs|]. now apply stored_new_as.
    - rewrite P in H. injection H as <- <-. split; [rewrite <- valid_acceptable; split; congruence|]. congruence.
  Qed.
  Lemma update_collider_stored ord s h src s' b : good_order ord -> reachable s ->
    update_collider ord s h src = Ok (s', b) ->
    (forall h', h' <> h -> get_collider s' h' = get_collider s h') /\
    (b = true <-> exists c, get_collider s h = Some c /\ kind_same c src /\ acceptable src) /\
    (b = true -> exists c', get_collider s' h = Some c' /\ stored_as (fun v => v) (owner s h) src c') /\
    (b = false -> get_collider s' h = get_collider s h).
  Proof.
    intros Ho R H. destruct (update_collider_map ord s h src s' b Ho R H) as (M1 & M2 & M3 & M4 & M5).
    split; auto. split; [|split; auto].
    - destruct (get_collider s h) as [c|] eqn:E.
      + rewrite (M4 c eq_refl). split.
        * intros (c' & U). exists c. split; auto. pose proof (update_from_valid _ _ _ U) as V. split; [|now apply valid_acceptable].
          destruct c, src; simpl in U |- *; auto; discriminate.
        * intros (c0 & E0 & K & V). injection E0 as <-. apply valid_acceptable in V. destruct c, src; simpl in *; try tauto; rewrite V; eauto.
      + rewrite (M5 eq_refl). split; [congruence|]. intros (c & ? & _). congruence.
    - intros Hb. destruct (M2 Hb) as (c & c' & E & U & E'). exists c'. split; auto. unfold owner. rewrite E.
      now apply update_from_as.
  Qed.
End Valid.
