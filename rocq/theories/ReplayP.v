(** * ReplayP: systems that differ only in the order of sets of neighbours go on alike *)
From Coq Require Import List Permutation Bool Arith Lia NArith FunctionalExtensionality.
Import ListNotations.
From Verif Require Import Num Vec Res Arena Orient Colliders Collide EntityM SystemM Spec ResP ArenaP FrameP StoreP WakeP ReplaySpec.

(** ** Outcomes *)
Definition rrel {A B} (R : A -> B -> Prop) (x : res A) (y : res B) : Prop :=
  match x, y with Ok a, Ok b => R a b | Panic, Panic => True | Fuel, Fuel => True | _, _ => False end.
Lemma rrel_bind {A B A' B'} (R : A -> B -> Prop) (R' : A' -> B' -> Prop) x y f g :
  rrel R x y -> (forall a b, R a b -> rrel R' (f a) (g b)) -> rrel R' (rbind x f) (rbind y g).
Proof. destruct x, y; simpl; auto; tauto. Qed.
Lemma rrel_unwrap {A B} (R : A -> B -> Prop) x y : match x, y with Some a, Some b => R a b | None, None => True | _, _ => False end -> rrel R (unwrap x) (unwrap y).
Proof. destruct x, y; simpl; auto. Qed.
Lemma rrel_fold {X A B} (R : A -> B -> Prop) f g (l : list X) : (forall a b x, R a b -> rrel R (f a x) (g b x)) -> forall a b, R a b -> rrel R (rfold f l a) (rfold g l b).
Proof. intros H. induction l as [|x l IH]; intros a b Hab; cbn [rfold]; [exact Hab|]. eapply rrel_bind; [apply H; exact Hab|]. auto. Qed.
Lemma rrel_refl {A} (x : res A) : rrel eq x x.
Proof. destruct x; simpl; auto. Qed.
Lemma rrel_eq {A} (x y : res A) : x = y -> rrel eq x y.
Proof. intros ->. apply rrel_refl. Qed.

(** ** Arenas *)
Section Arenas.
  Context {A : Type}.
  Implicit Types (R : A -> A -> Prop) (a b : arena A).
  Definition entry_rel R (x y : entry A) : Prop :=
    match x, y with Free n, Free m => n = m | Occ g u, Occ k v => g = k /\ R u v | _, _ => False end.
  Definition alike R a b : Prop := a_gen a = a_gen b /\ a_head a = a_head b /\ Forall2 (entry_rel R) (a_items a) (a_items b).
  Lemma forall2_nth {X Y} (R : X -> Y -> Prop) l m i : Forall2 R l m ->
    match nth_error l i, nth_error m i with Some x, Some y => R x y | None, None => True | _, _ => False end.
  Proof. intros H. revert i. induction H as [|x y l m Hxy H IH]; intros [|i]; simpl; auto. apply IH. Qed.
  Lemma forall2_set {X Y} (R : X -> Y -> Prop) l m i x y : Forall2 R l m -> R x y -> Forall2 R (list_set l i x) (list_set m i y).
  Proof. intros H Hxy. revert i. induction H as [|x' y' l m Hxy' H IH]; intros [|i]; simpl; constructor; auto. Qed.
  Lemma alike_get R a b h : alike R a b -> match aget a h, aget b h with Some x, Some y => R x y | None, None => True | _, _ => False end.
  Proof.
    intros (_ & _ & F). apply (forall2_nth _ _ _ (h_idx h)) in F. unfold aget. destruct (nth_error (a_items a) (h_idx h)) as [[n|g x]|], (nth_error (a_items b) (h_idx h)) as [[m|k y]|]; simpl in F; auto; try tauto.
    destruct F as (<- & F). destruct (N.eqb g (h_gen h)); auto.
  Qed.
  Lemma alike_none R a b h : alike R a b -> aget a h = None <-> aget b h = None.
  Proof. intros H. apply (alike_get _ _ _ h) in H. destruct (aget a h), (aget b h); try tauto; split; congruence. Qed.
  Lemma alike_set R a b h x y : alike R a b -> R x y -> alike R (aset a h x) (aset b h y).
  Proof.
    intros H Hxy. unfold aset. pose proof (alike_get _ _ _ h H) as G. destruct (aget a h), (aget b h); try tauto. destruct H as (H1 & H2 & H3). split; [exact H1|]. split; [exact H2|]. simpl. apply forall2_set; simpl; auto.
  Qed.
  Lemma alike_handles R a b : alike R a b -> ahandles a = ahandles b.
  Proof. intros (_ & _ & F). unfold ahandles. generalize 0. induction F as [|x y l m Hxy F IH]; intros i; simpl; auto. destruct x as [n|g u], y as [k|g' v]; simpl in Hxy; try tauto; [apply IH|]. destruct Hxy as (<- & _). now rewrite IH. Qed.
  Lemma alike_length R a b : alike R a b -> length (a_items a) = length (a_items b).
  Proof. intros (_ & _ & F). induction F; simpl; auto. Qed.
  Definition inserted R (p q : arena A * handle) : Prop := alike R (fst p) (fst q) /\ snd p = snd q.
  Lemma alike_try R a b x y : alike R a b -> R x y ->
    rrel (fun p q => match p, q with Some p, Some q => inserted R p q | None, None => True | _, _ => False end) (atry_insert a x) (atry_insert b y).
  Proof.
    intros (H1 & H2 & H3) Hxy. unfold atry_insert. rewrite <- H2. destruct (a_head a) as [i|]; [|exact I]. pose proof (forall2_nth _ _ _ i H3) as G.
    destruct (nth_error (a_items a) i) as [[n|g u]|], (nth_error (a_items b) i) as [[m|k v]|]; simpl in G; try tauto; try exact I. subst m. rewrite <- H1. split; [|reflexivity].
    split; [reflexivity|]. split; [reflexivity|]. simpl. apply forall2_set; simpl; auto.
  Qed.
  Lemma alike_reserve R a b n : alike R a b -> alike R (areserve a n) (areserve b n).
  Proof.
    intros H. unfold areserve. destruct n as [|n]; [exact H|]. pose proof (alike_length _ _ _ H) as L. destruct H as (H1 & H2 & H3). split; [exact H1|]. split; [now rewrite L|]. cbn [a_items]. apply Forall2_app; [exact H3|].
    rewrite L, H2. unfold free_run. generalize (seq (length (a_items b)) (S n)). intros l. induction l as [|i l IH]; cbn [map]; constructor; [|exact IH]. destruct (Nat.eqb _ _); reflexivity.
  Qed.
  Lemma alike_insert R a b x y : alike R a b -> R x y -> rrel (inserted R) (ainsert a x) (ainsert b y).
  Proof.
    intros H Hxy. unfold ainsert. eapply rrel_bind; [apply alike_try; eassumption|]. intros [p|] [q|] Hpq; [exact Hpq|destruct Hpq|destruct Hpq|]. rewrite <- (alike_length _ _ _ H).
    eapply rrel_bind; [apply alike_try; [apply alike_reserve; exact H|exact Hxy]|]. intros o o' Ho. apply rrel_unwrap. exact Ho.
  Qed.
  Lemma alike_remove R a b h : alike R a b ->
    match aremove a h, aremove b h with Some p, Some q => alike R (fst p) (fst q) /\ R (snd p) (snd q) | None, None => True | _, _ => False end.
  Proof.
    intros H. unfold aremove. pose proof (alike_get _ _ _ h H) as G. destruct (aget a h), (aget b h); try tauto. destruct H as (H1 & H2 & H3). split; [|exact G].
    split; [simpl; now rewrite H1|]. split; [reflexivity|]. simpl. apply forall2_set; [exact H3|exact H2].
  Qed.
  Definition any_two (x y : A) : Prop := True.
  Lemma alike_refl R a : (forall x, R x x) -> alike R a a.
  Proof. intros H. split; [reflexivity|]. split; [reflexivity|]. induction (a_items a) as [|[n|g u] l IH]; constructor; auto; simpl; auto. Qed.
  Lemma alike_impl (R R' : A -> A -> Prop) a b : (forall x y, R x y -> R' x y) -> alike R a b -> alike R' a b.
  Proof. intros H (H1 & H2 & H3). split; [exact H1|]. split; [exact H2|]. induction H3 as [|[n|g u] [m|k v] l m' Hxy F IH]; constructor; auto; simpl in *; try tauto. destruct Hxy. auto. Qed.
  Lemma alike_trans (R R' R'' : A -> A -> Prop) a b c : (forall x y z, R x y -> R' y z -> R'' x z) -> alike R a b -> alike R' b c -> alike R'' a c.
  Proof.
    intros H (H1 & H2 & H3) (K1 & K2 & K3). split; [congruence|]. split; [congruence|]. revert K3. generalize (a_items c). induction H3 as [|x y l m Hxy F IH]; intros l' K; inversion K as [|y' z m' l'' Hyz K']; subst; constructor; auto.
    destruct x as [n|g u], y as [n'|g' u'], z as [n''|g'' u'']; simpl in *; try tauto; [congruence|]. destruct Hxy as (-> & Hxy), Hyz as (-> & Hyz). split; eauto.
  Qed.
  Lemma alike_sym (R R' : A -> A -> Prop) a b : (forall x y, R x y -> R' y x) -> alike R a b -> alike R' b a.
  Proof. intros H (H1 & H2 & H3). split; [auto|]. split; [auto|]. induction H3 as [|[n|g u] [m|k v] l m' Hxy F IH]; constructor; auto; simpl in *; try tauto; [auto|]. destruct Hxy. auto. Qed.
  Lemma alike_set_l R a b h x : (forall x y, R x y) -> alike R a b -> alike R a (aset b h x).
  Proof.
    intros HR H. unfold aset. destruct (aget b h) eqn:E; [|exact H]. assert (G := H). apply (alike_get _ _ _ h) in G. rewrite E in G. destruct (aget a h) eqn:Ea; [|tauto]. destruct H as (H1 & H2 & H3). split; [exact H1|]. split; [exact H2|]. simpl.
    apply aget_nth in Ea. revert Ea. generalize (h_idx h). clear - H3 HR. induction H3 as [|x' y' l m Hxy F IH]; intros [|i] Ea; simpl in *; try discriminate; constructor; auto. injection Ea as ->. simpl. auto.
  Qed.
  (** Alike in shape and entry by entry. *)
  Lemma alike_of R a b : alike any_two a b -> (forall h x y, aget a h = Some x -> aget b h = Some y -> R x y) -> alike R a b.
  Proof.
    intros (H1 & H2 & H3) H. split; [exact H1|]. split; [exact H2|].
    assert (K : forall i g u v, nth_error (a_items a) i = Some (Occ g u) -> nth_error (a_items b) i = Some (Occ g v) -> R u v).
    { intros i g u v Hu Hv. apply (H (mkH i g)); unfold aget; simpl; [rewrite Hu|rewrite Hv]; now rewrite N.eqb_refl. }
    clear H H1 H2. revert K. induction H3 as [|x y l m Hxy F IH]; intros K; constructor.
    - destruct x as [n|g u], y as [n'|g' u']; simpl in *; try tauto. destruct Hxy as (<- & _). split; [reflexivity|]. apply (K 0 g); reflexivity.
    - apply IH. intros i g u v Hu Hv. exact (K (S i) g u v Hu Hv).
  Qed.
End Arenas.

(** ** Entities *)
Section Twins.
  Context {T : Type} {N : Num T}.
  Implicit Types (e : ientity T) (h : handle) (s : system T).
  (** [Q]: which sets of colliders the entities have. *)
  Variable Q : list handle -> Prop.
  (** The same but for the order of the neighbours. *)
  Definition sim e e' : Prop := exists ns, e' = e_set_sleep e (e_asleep e) ns /\ forall x, In x (e_neighbors e) <-> In x ns.
  Definition thin e : Prop := Q (e_colliders e).
  Definition tw e e' : Prop := sim e e' /\ thin e.
  Lemma sim_refl e : sim e e.
  Proof. exists (e_neighbors e). split; [now destruct e|tauto]. Qed.
  Lemma sim_sym e e' : sim e e' -> sim e' e.
  Proof. intros (ns & -> & H). exists (e_neighbors e). split; [now destruct e|]. intros x. simpl. now rewrite H. Qed.
  Lemma tw_sym e e' : tw e e' -> tw e' e.
  Proof. intros (H & K). split; [now apply sim_sym|]. destruct H as (ns & -> & _). exact K. Qed.
  Lemma sim_pub e e' : sim e e' -> make_pub e = make_pub e'.
  Proof. intros (ns & -> & _). reflexivity. Qed.
  Lemma sim_mem e e' h : sim e e' -> hmem h (e_neighbors e) = hmem h (e_neighbors e').
  Proof.
    intros (ns & -> & H). simpl. destruct (hmem h ns) eqn:E.
    - apply hmem_spec. apply H. now apply hmem_spec.
    - apply hmem_false. rewrite H. now apply hmem_false.
  Qed.
  Lemma thin_order ord k h l : good_order ord -> length l <= 1 -> ord k h l = l.
  Proof.
    intros Ho L. pose proof (Ho k h l) as P. destruct l as [|x [|y l]]; simpl in L; [|apply Permutation_sym, Permutation_length_1_inv in P; now rewrite P|lia].
    apply Permutation_sym in P. now apply Permutation_nil in P.
  Qed.
  Notation ents_alike := (alike tw).

  (** ** Waking *)
  Lemma contact_alike a b x y : ents_alike a b -> contact a x y <-> contact b x y.
  Proof.
    intros H. apply (alike_get _ _ _ x) in H. unfold contact. split; intros (e & He & Hy); rewrite He in H.
    - destruct (aget b x) as [e'|]; [|tauto]. exists e'. split; [reflexivity|]. destruct H as ((ns & -> & H) & _). simpl. now apply H.
    - destruct (aget a x) as [e'|]; [|tauto]. exists e'. split; [reflexivity|]. destruct H as ((ns & -> & H) & _). apply H. exact Hy.
  Qed.
  Lemma movable_alike a b x : ents_alike a b -> movable a x <-> movable b x.
  Proof.
    intros H. apply (alike_get _ _ _ x) in H. unfold movable. split; intros (e & He & Hy); rewrite He in H.
    - destruct (aget b x) as [e'|]; [|tauto]. exists e'. split; [reflexivity|]. destruct H as ((ns & -> & H) & _). exact Hy.
    - destruct (aget a x) as [e'|]; [|tauto]. exists e'. split; [reflexivity|]. destruct H as ((ns & -> & H) & _). exact Hy.
  Qed.
  Lemma connected_alike a b x y : ents_alike a b -> connected a x y -> connected b x y.
  Proof.
    intros H. induction 1 as [|u v C IH K M]; [constructor|]. econstructor; [exact IH| |]; [now apply (contact_alike _ _ _ _ H)|now apply (movable_alike _ _ _ H)].
  Qed.
  Lemma alike_flip a b : ents_alike a b -> ents_alike b a.
  Proof. apply alike_sym. apply tw_sym. Qed.
  Lemma wake_shape ord h a dbg r : wake_up (T:=T) ord h a dbg = Ok r -> alike any_two a (fst r).
  Proof.
    unfold wake_up. assert (K : forall fuel done q b dbg r, alike any_two a b -> wake_loop (T:=T) ord fuel done q b dbg = Ok r -> alike any_two a (fst r)).
    2: { intros E. eapply K; [|exact E]. apply alike_refl. exact (fun _ => I). }
    induction fuel as [|fuel IH]; intros done q b d x Hb E; destruct q as [|t q]; cbn [wake_loop] in E; try discriminate; try (injection E as <-; exact Hb).
    apply rbind_ok in E. destruct E as (et & _ & E). apply rbind_ok in E. destruct E as ([[b1 d1] q1] & F & E). apply rbind_ok in E. destruct E as (et1 & _ & E).
    eapply IH; [|exact E]. apply alike_set_l; [exact (fun _ _ => I)|]. change b1 with (fst (fst (b1, d1, q1))). eapply (rfold_ind _ (fun st => alike any_two a (fst (fst st)))); [|exact (Hb : (fun st => alike any_two a (fst (fst st))) (b, d, q))|exact F].
    intros [[b2 d2] q2] n st' Hs Es. unfold wake_neighbor in Es. destruct (hmem n _); [injection Es as <-; exact Hs|]. apply rbind_ok in Es. destruct Es as (en & _ & Es). destruct (n_isinf _); injection Es as <-; [|exact Hs]. simpl. apply alike_set_l; [exact (fun _ _ => I)|exact Hs].
  Qed.
  Definition fst_alike (p q : arena (ientity T) * list dmsg) : Prop := ents_alike (fst p) (fst q).
  Lemma wake_up_ok ord1 ord2 h a b d1 d2 p : good_order ord1 -> good_order ord2 -> ents_alike a b -> wake_up ord1 h a d1 = Ok p -> exists q, wake_up ord2 h b d2 = Ok q /\ fst_alike p q.
  Proof.
    intros H1 H2 H E. destruct p as [a' d1']. destruct (wake_up_exact _ _ _ _ _ _ H1 E) as (W & Dec & Al & Nb).
    destruct (wake_up_total ord2 h b d2 H2) as ([b' d2'] & E2).
    { now rewrite <- (alike_none _ _ _ _ H). }
    { intros x y C K. apply (connected_alike _ _ _ _ (alike_flip _ _ H)) in C. apply (contact_alike _ _ _ _ H) in K. rewrite <- (alike_none _ _ _ _ H). eauto. }
    exists (b', d2'). split; [exact E2|]. destruct (wake_up_exact _ _ _ _ _ _ H2 E2) as (W2 & _).
    assert (Co : forall x, connected a h x <-> connected b h x) by (intros x; split; apply connected_alike; [exact H|now apply alike_flip]).
    unfold fst_alike. cbn [fst]. apply alike_of.
    - eapply (alike_trans any_two any_two any_two); [exact (fun _ _ _ _ _ => I)|eapply (alike_sym any_two any_two); [exact (fun _ _ _ => I)|exact (wake_shape _ _ _ _ _ E)]|].
      eapply (alike_trans any_two any_two any_two); [exact (fun _ _ _ _ _ => I)|eapply alike_impl; [|exact H]; exact (fun _ _ _ => I)|exact (wake_shape _ _ _ _ _ E2)].
    - cbn [fst]. intros k x y Hx Hy. specialize (W k). specialize (W2 k). rewrite Hx in W. rewrite Hy in W2. pose proof (alike_get _ _ _ k H) as G.
      destruct (aget a k) as [e|]; [|destruct W]. destruct (aget b k) as [e'|]; [|destruct W2]. destruct G as (Sm & Th).
      destruct W as (A1 & A2 & A3), W2 as (B1 & B2 & B3). destruct Sm as (ns & -> & Hn). cbn [e_set_sleep e_total_mass e_asleep e_neighbors] in *.
      destruct (Dec k) as [C|C].
      + rewrite (A1 C). rewrite (B1 (proj1 (Co k) C)). split; [apply sim_refl|exact Th].
      + assert (C2 : ~ connected b h k) by (intros Z; apply C; now apply Co).
        assert (Or : (k = h \/ n_isinf (e_total_mass e) = false) \/ (k <> h /\ n_isinf (e_total_mass e) = true)).
        { destruct (handle_eq_dec k h) as [->|Or]; [tauto|]. destruct (n_isinf (e_total_mass e)); tauto. }
        destruct Or as [Or|(Q1 & Q2)].
        * rewrite (A2 C Or), (B2 C2 Or). split; [exists ns; split; [reflexivity|exact Hn]|exact Th].
        * destruct (A3 C Q1 Q2) as (n1 & -> & M1). destruct (B3 C2 Q1 Q2) as (n2 & -> & M2). split; [|exact Th]. exists n2. split; [reflexivity|].
          intros z. cbn [e_set_sleep e_neighbors]. rewrite M1, M2, Hn, Co, (contact_alike _ _ z k H). reflexivity.
  Qed.
  Lemma wake_up_alike ord1 ord2 h a b d1 d2 : good_order ord1 -> good_order ord2 -> ents_alike a b -> rrel fst_alike (wake_up ord1 h a d1) (wake_up ord2 h b d2).
  Proof.
    intros H1 H2 H. destruct (wake_up ord1 h a d1) as [p| |] eqn:E1.
    - destruct (wake_up_ok ord1 ord2 h a b d1 d2 p H1 H2 H E1) as (q & -> & F). exact F.
    - destruct (wake_up ord2 h b d2) as [q| |] eqn:E2; [|exact I|].
      + destruct (wake_up_ok ord2 ord1 h b a d2 d1 q H2 H1 (alike_flip _ _ H) E2) as (p & E & _). congruence.
      + exfalso. exact (wake_up_nofuel _ _ _ _ H2 E2).
    - exfalso. exact (wake_up_nofuel _ _ _ _ H1 E1).
  Qed.

  (** ** Systems *)
  Definition twin s t : Prop :=
    ents_alike (s_ents s) (s_ents t) /\ s_cols s = s_cols t /\ s_gens s = s_gens t /\ s_iteration_max s = s_iteration_max t /\
    s_records s = s_records t /\ s_energy_thr s = s_energy_thr t /\ s_time_thr s = s_time_thr t.
  Lemma twin_get s t h : twin s t -> get_entity s h = get_entity t h.
  Proof.
    intros (H & _). apply (alike_get _ _ _ h) in H. unfold get_entity. destruct (aget (s_ents s) h), (aget (s_ents t) h); try tauto. simpl. f_equal. apply sim_pub. apply H.
  Qed.
  Lemma twin_view s t : twin s t -> view_of s = view_of t.
  Proof.
    intros H. unfold view_of. pose proof H as (_ & Hc & _ & Hi & _ & He & Ht). rewrite Hi, He, Ht. f_equal; apply functional_extensionality; intros h; [now apply twin_get|]. unfold get_collider. now rewrite Hc.
  Qed.
  Lemma twin_ents s t a b : twin s t -> ents_alike a b -> twin (s_set_ents s a) (s_set_ents t b).
  Proof. intros (_ & H) K. split; [exact K|exact H]. Qed.
  Lemma twin_gens s t g : twin s t -> twin (s_set_gens s g) (s_set_gens t g).
  Proof. intros (H1 & H2 & H3 & H). split; [exact H1|]. split; [exact H2|]. split; [reflexivity|exact H]. Qed.
  Lemma twin_cols s t c : twin s t -> twin (s_set_cols s c) (s_set_cols t c).
  Proof. intros (H1 & H2 & H). split; [exact H1|]. split; [reflexivity|exact H]. Qed.

  (** ** Integration *)
  Definition same_sums (p q : system T * Vec3 T * Vec3 T) : Prop := twin (fst (fst p)) (fst (fst q)) /\ snd (fst p) = snd (fst q) /\ snd p = snd q.
  Lemma sum_forces_twin dt h copy s t ghs : twin s t -> rrel same_sums (sum_forces dt h copy s ghs) (sum_forces dt h copy t ghs).
  Proof.
    intros H. unfold sum_forces. apply rrel_fold; [|exact (conj H (conj eq_refl eq_refl))].
    intros [[s1 a1] t1] [[s2 a2] t2] gh (K & Ka & Kt). cbn [fst snd] in *. subst a2 t2.
    destruct K as (K1 & K2 & K3 & K4). rewrite <- K3. destruct (aget (s_gens s1) gh) as [g|]; cbn [unwrap rbind rrel]; [|exact I].
    assert (K : twin s1 s2) by (split; [exact K1|split; [exact K2|split; [exact K3|exact K4]]]).
    rewrite (twin_view _ _ K). destruct (make_force g dt (view_of s2) h) as [[f g']| |]; cbn [rbind rrel]; try exact I.
    split; [|split; reflexivity]. cbn [fst]. now apply twin_gens.
  Qed.
  Definition same_infos (p q : system T * list (info T)) : Prop := twin (fst p) (fst q) /\ snd p = snd q.
  Lemma integrate_one_twin dt ghs p q h : same_infos p q -> rrel same_infos (integrate_one dt ghs p h) (integrate_one dt ghs q h).
  Proof.
    destruct p as [s l], q as [t m]. intros (H & E). cbn [fst snd] in H, E. subst m. unfold integrate_one. rewrite <- (twin_get _ _ h H).
    destruct (get_entity s h) as [copy|]; cbn [unwrap rbind]; [|exact I].
    eapply (rrel_bind same_sums); [destruct (_ && _)%bool; [now apply sum_forces_twin|exact (conj H (conj eq_refl eq_refl))]|].
    intros [[s1 a1] t1] [[s2 a2] t2] (K & Ka & Kt). cbn [fst snd] in K, Ka, Kt. subst a2 t2.
    pose proof K as (K1 & _). pose proof (alike_get _ _ _ h K1) as G. destruct (aget (s_ents s1) h) as [e|], (aget (s_ents s2) h) as [e'|]; try tauto; cbn [unwrap rbind rrel]; try exact I.
    destruct G as ((ns & -> & Hn) & Th). split; [|reflexivity]. cbn [fst]. apply twin_ents; [exact K|]. apply alike_set; [exact K1|]. split; [|exact Th]. exists ns. split; [reflexivity|exact Hn].
  Qed.

  (** ** Collisions *)
  Section Few.
  Hypothesis few : forall l, Q l -> length l <= 1.
  Lemma check_entities_alike ord1 ord2 cols a b best p : good_order ord1 -> good_order ord2 -> ents_alike a b ->
    check_entities ord1 cols a best p = check_entities ord2 cols b best p.
  Proof.
    intros H1 H2 H. unfold check_entities. destruct p as [x1 x2]. pose proof (alike_get _ _ _ (i_h (snd x1)) H) as G1. pose proof (alike_get _ _ _ (i_h (snd x2)) H) as G2.
    destruct (aget a (i_h (snd x1))) as [e1|], (aget b (i_h (snd x1))) as [e1'|]; try tauto; cbn [unwrap rbind]; try reflexivity.
    destruct (aget a (i_h (snd x2))) as [e2|], (aget b (i_h (snd x2))) as [e2'|]; try tauto; cbn [unwrap rbind]; try reflexivity.
    destruct G1 as (S1 & T1), G2 as (S2 & T2). rewrite (sim_mem _ _ _ S1), (sim_mem _ _ _ S2). destruct (hmem _ _); [reflexivity|]. destruct (hmem _ _); [reflexivity|].
    rewrite !(thin_order ord1) by auto. destruct S1 as (n1 & -> & _), S2 as (n2 & -> & _). cbn [e_set_sleep e_colliders]. rewrite !(thin_order ord2) by auto. reflexivity.
  Qed.
  Lemma rfold_ext {X A} (f g : A -> X -> res A) l : (forall a x, f a x = g a x) -> forall a, rfold f l a = rfold g l a.
  Proof. intros H. induction l as [|x l IH]; intros a; cbn [rfold]; [reflexivity|]. rewrite H. destruct (g a x); cbn [rbind]; auto. Qed.
  Lemma find_earliest_alike ord1 ord2 cols a b infos : good_order ord1 -> good_order ord2 -> ents_alike a b ->
    find_earliest ord1 cols a infos = find_earliest ord2 cols b infos.
  Proof. intros H1 H2 H. unfold find_earliest. apply rfold_ext. intros best p. now apply check_entities_alike. Qed.
  End Few.
  Lemma wake_finite_alike ord1 ord2 h p q : good_order ord1 -> good_order ord2 -> fst_alike p q -> rrel fst_alike (wake_finite ord1 h p) (wake_finite ord2 h q).
  Proof.
    intros H1 H2 H. unfold wake_finite. pose proof (alike_get _ _ _ h H) as G. destruct (aget (fst p) h) as [e|], (aget (fst q) h) as [e'|]; try tauto; cbn [unwrap rbind]; try exact I.
    destruct G as ((ns & -> & _) & _). cbn [e_set_sleep e_total_mass]. destruct (n_isfin _); [now apply wake_up_alike|exact H].
  Qed.
  Definition same_ents_infos (p q : arena (ientity T) * list (info T)) : Prop := ents_alike (fst p) (fst q) /\ snd p = snd q.
  Lemma advance_alike percent after a b infos : ents_alike a b -> rrel same_ents_infos (advance percent after a infos) (advance percent after b infos).
  Proof.
    intros H. unfold advance. apply rrel_fold; [|split; [exact H|reflexivity]].
    intros [a1 l1] [b1 m1] i (K & E). cbn [fst snd] in K, E. subst m1. unfold advance_one. pose proof (alike_get _ _ _ (i_h i) K) as G.
    destruct (aget a1 (i_h i)) as [e|], (aget b1 (i_h i)) as [e'|]; try tauto; cbn [unwrap rbind]; try exact I.
    destruct G as ((ns & -> & Hn) & Th). cbn [e_set_sleep e_asleep]. split; [|reflexivity]. cbn [fst]. destruct (e_asleep e) eqn:Ea; [exact K|].
    apply alike_set; [exact K|]. split; [|exact Th]. exists ns. split; [unfold e_set_orient, e_set_sleep; cbn [e_asleep]; now rewrite Ea|exact Hn].
  Qed.
  Definition same_loop (p q : lstate T) : Prop :=
    ents_alike (l_ents p) (l_ents q) /\ l_infos p = l_infos q /\ l_left p = l_left q /\ l_ctp p = l_ctp q /\ l_records p = l_records q.
  Definition renbr (ns : list handle) e : ientity T := e_set_sleep e (e_asleep e) ns.
  Lemma moment_renbr e n : get_inverse_moment (renbr n e) = get_inverse_moment e.
  Proof. reflexivity. Qed.
  Lemma velocity_renbr e n p : velocity_at (renbr n e) p = velocity_at e p.
  Proof. reflexivity. Qed.
  Lemma impulse_renbr e n p i : apply_impulse (renbr n e) p i = renbr n (apply_impulse e p i).
  Proof. unfold apply_impulse. rewrite moment_renbr. reflexivity. Qed.
  Lemma denominator_renbr e1 e2 n1 n2 c : impulse_denominator (renbr n1 e1) (renbr n2 e2) c = impulse_denominator e1 e2 c.
  Proof. unfold impulse_denominator. rewrite !moment_renbr. reflexivity. Qed.
  Lemma collision_renbr e1 e2 n1 n2 r c : collision_impulse (renbr n1 e1) (renbr n2 e2) r c = collision_impulse e1 e2 r c.
  Proof. unfold collision_impulse. rewrite denominator_renbr, !velocity_renbr. reflexivity. Qed.
  Lemma friction_renbr e1 e2 n1 n2 f i : friction (renbr n1 e1) (renbr n2 e2) f i = friction e1 e2 f i.
  Proof. unfold friction. rewrite denominator_renbr, !velocity_renbr. reflexivity. Qed.
  Lemma respond_pair_renbr e1 e2 n1 n2 f : respond_pair (renbr n1 e1) (renbr n2 e2) f =
    let '(x1, x2, i, c) := respond_pair e1 e2 f in (renbr n1 x1, renbr n2 x2, i, c).
  Proof. unfold respond_pair. cbv zeta. rewrite collision_renbr, !impulse_renbr, friction_renbr. destruct (friction _ _ _ _) as [fr c]. rewrite !impulse_renbr. reflexivity. Qed.
  Lemma respond_pair_thin e1 e2 f : let '(x1, x2, i, c) := respond_pair e1 e2 f in
    (e_colliders x1 = e_colliders e1 /\ e_neighbors x1 = e_neighbors e1) /\ (e_colliders x2 = e_colliders e2 /\ e_neighbors x2 = e_neighbors e2).
  Proof. unfold respond_pair. destruct (friction _ _ _ _) as [fr c]. repeat split. Qed.
  Lemma respond_alike dt after f p q : same_loop p q -> rrel same_loop (respond dt after f p) (respond dt after f q).
  Proof.
    intros (H & Hi & Hl & Hc & Hr). unfold respond. pose proof (alike_get _ _ _ (fd_h1 f) H) as G1. pose proof (alike_get _ _ _ (fd_h2 f) H) as G2.
    destruct (aget (l_ents p) (fd_h1 f)) as [e1|], (aget (l_ents q) (fd_h1 f)) as [e1'|]; try tauto; cbn [unwrap rbind]; try exact I.
    destruct (aget (l_ents p) (fd_h2 f)) as [e2|], (aget (l_ents q) (fd_h2 f)) as [e2'|]; try tauto; cbn [unwrap rbind]; try exact I.
    destruct G1 as ((n1 & -> & Hn1) & T1), G2 as ((n2 & -> & Hn2) & T2). fold (renbr n1 e1) (renbr n2 e2). rewrite respond_pair_renbr. pose proof (respond_pair_thin e1 e2 f) as Rt.
    destruct (respond_pair e1 e2 f) as [[[x1 x2] im] c]. destruct Rt as ((C1 & N1) & (C2 & N2)). rewrite <- Hi, <- Hl, <- Hc, <- Hr.
    change (fun i => replan i (renbr n1 x1) after) with (fun i => replan i x1 after). change (fun i => replan i (renbr n2 x2) after) with (fun i => replan i x2 after).
    destruct (upd_info (l_infos p) _ _) as [i1| |]; cbn [rbind rrel]; try exact I. destruct (upd_info i1 _ _) as [i2| |]; cbn [rbind rrel]; try exact I.
    destruct (if c then _ else _) as [i3| |]; cbn [rbind rrel]; try exact I. unfold same_loop. cbn [l_ents l_infos l_left l_ctp l_records].
    split; [|repeat split]. apply alike_set; [apply alike_set; [exact H|]|].
    - split; [exists n1; split; [reflexivity|now rewrite N1]|]. unfold thin. now rewrite C1.
    - split; [exists n2; split; [reflexivity|now rewrite N2]|]. unfold thin. now rewrite C2.
  Qed.
  Section Few2.
  Hypothesis few : forall l, Q l -> length l <= 1.
  Lemma iterate_alike ord1 ord2 cols dt p q : good_order ord1 -> good_order ord2 -> same_loop p q ->
    rrel (fun x y => same_loop (fst x) (fst y) /\ snd x = snd y) (iterate ord1 cols dt p) (iterate ord2 cols dt q).
  Proof.
    intros H1 H2 (H & Hi & Hl & Hc & Hr). unfold iterate. rewrite <- Hi, <- Hl, <- Hc, <- Hr. rewrite (find_earliest_alike few ord1 ord2 cols _ _ _ H1 H2 H).
    destruct (find_earliest _ _ _ _) as [[percent o]| |]; cbn [rbind rrel]; try exact I.
    eapply (rrel_bind fst_alike).
    - destruct o as [f|]; [|exact H]. eapply (rrel_bind fst_alike); [now apply wake_finite_alike|]. intros x y K. now apply wake_finite_alike.
    - intros [x dx] [y dy] K. eapply (rrel_bind same_ents_infos); [now apply advance_alike|]. intros [a l] [b m] (Ka & Kl). cbn [fst snd] in Ka, Kl. subst m.
      destruct o as [f|]; [|split; [|reflexivity]; unfold same_loop; cbn [fst l_ents l_infos l_left l_ctp l_records]; auto].
      eapply (rrel_bind same_loop); [apply respond_alike; unfold same_loop; cbn [fst l_ents l_infos l_left l_ctp l_records]; auto|]. intros u v Kuv. split; [exact Kuv|reflexivity].
  Qed.
  Lemma iterations_alike ord1 ord2 cols dt n : good_order ord1 -> good_order ord2 -> forall p q, same_loop p q -> rrel same_loop (iterations ord1 cols dt n p) (iterations ord2 cols dt n q).
  Proof.
    intros H1 H2. induction n as [|n IH]; intros p q H; cbn [iterations]; [exact H|].
    eapply rrel_bind; [apply (iterate_alike ord1 ord2); assumption|]. intros x y (K & E). rewrite <- E. destruct (snd x); [exact K|now apply IH].
  Qed.
  End Few2.

  (** ** Sleep *)
  Lemma sleep_one_alike dt en ti p q i : fst_alike p q -> rrel fst_alike (sleep_one dt en ti p i) (sleep_one dt en ti q i).
  Proof.
    destruct p as [a da], q as [b db]. intros H. unfold fst_alike in H. cbn [fst] in H. unfold sleep_one. pose proof (alike_get _ _ _ (i_h i) H) as G.
    destruct (aget a (i_h i)) as [e|], (aget b (i_h i)) as [e'|]; try tauto; cbn [unwrap rbind]; try exact I. destruct G as ((ns & -> & Hn) & Th).
    assert (D : tw (fst (sleep_decision dt en ti (i_nbrs i) e)) (fst (sleep_decision dt en ti (i_nbrs i) (renbr ns e))) /\
                snd (sleep_decision dt en ti (i_nbrs i) e) = snd (sleep_decision dt en ti (i_nbrs i) (renbr ns e))).
    { unfold sleep_decision. change (e_asleep (renbr ns e)) with (e_asleep e). destruct (e_asleep e) eqn:Ea; [split; [split; [exists ns; split; [unfold renbr; rewrite Ea; unfold e_set_vels, e_set_sleep; simpl; now rewrite ?Ea|exact Hn]|exact Th]|reflexivity]|].
      change (get_total_energy (renbr ns e)) with (get_total_energy e). destruct (en <? get_total_energy e)%num; [split; [split; [exists ns; split; [reflexivity|exact Hn]|exact Th]|reflexivity]|].
      change (e_falling (renbr ns e)) with (e_falling e). change (e_falling_time (renbr ns e)) with (e_falling_time e).
      cbv zeta. destruct (_ <? ti)%num; [split; [split; [exists ns; split; [reflexivity|exact Hn]|exact Th]|reflexivity]|].
      split; [split; [|exact Th]|reflexivity]. exact (sim_refl _). }
    fold (renbr ns e). destruct (sleep_decision dt en ti (i_nbrs i) e) as [x sl], (sleep_decision dt en ti (i_nbrs i) (renbr ns e)) as [y sl']. destruct D as (D & E). cbn [fst snd] in D, E. subst sl'.
    assert (K : ents_alike (aset a (i_h i) x) (aset b (i_h i) y)) by now apply alike_set.
    destruct sl; [|exact K]. eapply (rrel_bind ents_alike); [|intros u v Kuv; exact Kuv].
    apply rrel_fold; [|exact K]. intros u v n Kuv. pose proof (alike_get _ _ _ n Kuv) as G. destruct (aget u n) as [z|], (aget v n) as [z'|]; try tauto; cbn [unwrap rbind]; try exact I.
    destruct G as ((m & -> & Hm) & Tz). apply alike_set; [exact Kuv|]. split; [|exact Tz]. exists (hinsert (i_h i) m). split; [reflexivity|]. intros w. cbn [e_set_sleep e_neighbors]. rewrite !hinsert_in, Hm. reflexivity.
  Qed.
  Section Few3.
  Hypothesis few : forall l, Q l -> length l <= 1.
  Lemma step_twin ord1 ord2 s t dt : good_order ord1 -> good_order ord2 -> twin s t -> rrel twin (step ord1 s dt) (step ord2 t dt).
  Proof.
    intros H1 H2 H. unfold step. destruct (_ <? _)%num; [exact H|]. cbn [s_gens s_ents]. pose proof H as (Ka & Kc & Kg & Ki & Kr & Ke & Kt).
    rewrite <- Kg, <- (alike_handles _ _ _ Ka). eapply (rrel_bind same_infos).
    - apply rrel_fold; [intros u v h Kuv; now apply integrate_one_twin|]. split; [|reflexivity]. unfold twin. cbn [fst s_ents s_cols s_gens s_iteration_max s_records s_energy_thr s_time_thr]. auto 10.
    - intros [s1 l] [t1 m] (K & E). cbn [fst snd] in K, E. subst m. pose proof K as (La & Lc & Lg & Li & Lr & Le & Lt). rewrite <- Lc, <- Li, <- Le, <- Lt, <- Lr.
      eapply (rrel_bind same_loop); [apply iterations_alike; [exact few|exact H1|exact H2|unfold same_loop; cbn [l_ents l_infos l_left l_ctp l_records]; auto]|].
      intros p q (Pa & Pi & Pl & Pc & Pr). rewrite <- Pi, <- Pr. eapply (rrel_bind fst_alike); [apply rrel_fold; [intros u v i; apply sleep_one_alike|exact Pa]|].
      intros u v Kuv. exact (conj Kuv (conj eq_refl (conj Lg (conj eq_refl (conj eq_refl (conj eq_refl eq_refl)))))).
  Qed.
  End Few3.

  (** ** The other calls *)
  Hypothesis Qnil : Q [].
  Hypothesis Qrem : forall c l, Q l -> Q (hremove c l).
  (** [Ex]: which sets of colliders can be weighed. *)
  Variable Ex : arena (collider T) -> list handle -> Prop.
  Hypothesis ExSet : forall cols h c l, Ex cols l -> Ex (aset cols h c) l.
  Hypothesis ExIns : forall cols h c l, aget cols h = Some c -> Ex cols l -> Ex cols (hinsert h l).
  Hypothesis ExRem : forall cols h l, Ex cols l -> Ex cols (hremove h l).
  Hypothesis even : forall ord1 ord2 k h cols e, good_order ord1 -> good_order ord2 -> thin e -> Ex cols (e_colliders e) ->
    recalculate_mass (ord1 k h (e_colliders e)) cols e = recalculate_mass (ord2 k h (e_colliders e)) cols e.
  Definition said {A} (p q : system T * A) : Prop := twin (fst p) (fst q) /\ snd p = snd q.
  Lemma add_entity_twin s t src : twin s t -> rrel said (add_entity s src) (add_entity t src).
  Proof.
    intros H. unfold add_entity. destruct (entity_new_from src) as [e|] eqn:E; [|split; [exact H|reflexivity]].
    assert (Th : tw e e). { split; [apply sim_refl|]. unfold entity_new_from in E. destruct (_ <? _)%num; [discriminate|]. injection E as <-. exact Qnil. }
    eapply rrel_bind; [apply (alike_insert tw); [exact (proj1 H)|exact Th]|]. intros p q (K & E'). split; [|cbn [snd]; now rewrite E']. cbn [fst]. apply twin_ents; [exact H|exact K].
  Qed.
  Lemma add_collider_twin s t src : twin s t -> rrel said (add_collider s src) (add_collider t src).
  Proof.
    intros H. unfold add_collider. destruct (collider_new_from src) as [c|]; [|split; [exact H|reflexivity]]. rewrite <- (proj1 (proj2 H)).
    destruct (ainsert (s_cols s) c) as [r| |]; cbn [rbind rrel]; try exact I. split; [|reflexivity]. now apply twin_cols.
  Qed.
  Lemma remove_collider_twin s t h : twin s t -> rrel twin (remove_collider s h) (remove_collider t h).
  Proof.
    intros H. unfold remove_collider. rewrite <- (proj1 (proj2 H)). destruct (aremove (s_cols s) h) as [[cols c]|]; [|exact H].
    destruct (c_entity c) as [eh|]; [|now apply twin_cols]. pose proof (alike_get _ _ _ eh (proj1 H)) as G. destruct (aget (s_ents s) eh), (aget (s_ents t) eh); try tauto; [exact I|now apply twin_cols].
  Qed.
  Lemma remove_entity_twin ord1 ord2 s t h : (forall l, Q l -> length l <= 1) -> good_order ord1 -> good_order ord2 -> twin s t -> rrel said (remove_entity ord1 s h) (remove_entity ord2 t h).
  Proof.
    intros few H1 H2 H. unfold remove_entity. pose proof (alike_remove _ _ _ h (proj1 H)) as G. destruct (aremove (s_ents s) h) as [[a e]|], (aremove (s_ents t) h) as [[b e']|]; try tauto; [|split; [exact H|reflexivity]].
    destruct G as (K & (ns & E & _) & Th). cbn [fst snd] in K, E, Th. subst e'. cbn [e_set_sleep e_colliders]. rewrite (thin_order ord1), (thin_order ord2) by auto.
    eapply (rrel_bind twin); [apply rrel_fold; [intros u v x; apply remove_collider_twin|now apply twin_ents]|]. intros u v Kuv. split; [exact Kuv|reflexivity].
  Qed.
  Lemma recalculate_renbr hs cols e n : recalculate_mass hs cols (renbr n e) = rbind (recalculate_mass hs cols e) (fun x => Ok (renbr n x)).
  Proof.
    unfold recalculate_mass. change (e_orient (renbr n e)) with (e_orient e). change (e_own_mass (renbr n e)) with (e_own_mass e).
    destruct (com_loop _ _ _ _ _) as [[[fi tm] cs]| |]; cbn [rbind]; try reflexivity. cbv zeta. destruct (if _ && _ then _ else _)%bool as [tm' o']. destruct fi; [reflexivity|].
    destruct (moi_loop _ _ _); reflexivity.
  Qed.
  Lemma recalculate_keeps hs cols e x : recalculate_mass hs cols e = Ok x -> e_colliders x = e_colliders e /\ e_neighbors x = e_neighbors e.
  Proof.
    unfold recalculate_mass. destruct (com_loop _ _ _ _ _) as [[[fi tm] cs]| |]; cbn [rbind]; try discriminate. cbv zeta. destruct (if _ && _ then _ else _)%bool as [tm' o']. destruct fi; [intros E; injection E as <-; split; reflexivity|].
    destruct (moi_loop _ _ _); cbn [rbind]; try discriminate. intros E. injection E as <-. split; reflexivity.
  Qed.
  Lemma recalculate_tw ord1 ord2 k h cols e n : good_order ord1 -> good_order ord2 -> thin e -> Ex cols (e_colliders e) -> (forall x, In x (e_neighbors e) <-> In x n) ->
    rrel tw (recalculate_mass (ord1 k h (e_colliders e)) cols e) (recalculate_mass (ord2 k h (e_colliders e)) cols (renbr n e)).
  Proof.
    intros H1 H2 Th Xe Hn. rewrite recalculate_renbr. rewrite (even ord1 ord2) by assumption. destruct (recalculate_mass _ _ _) as [x| |] eqn:E; cbn [rbind rrel]; try exact I.
    destruct (recalculate_keeps _ _ _ _ E) as (Ec & En). split; [exists n; split; [reflexivity|now rewrite En]|]. unfold thin. now rewrite Ec.
  Qed.
  Definition full s : Prop := forall h e, aget (s_ents s) h = Some e -> Ex (s_cols s) (e_colliders e).
  Lemma update_entity_twin ord1 ord2 s t h src : full s -> good_order ord1 -> good_order ord2 -> twin s t -> rrel said (update_entity ord1 s h src) (update_entity ord2 t h src).
  Proof.
    intros Fu H1 H2 H. unfold update_entity. pose proof (alike_get _ _ _ h (proj1 H)) as G. pose proof (Fu h) as Fh. destruct (aget (s_ents s) h) as [e|], (aget (s_ents t) h) as [e'|]; try tauto; [|split; [exact H|reflexivity]].
    destruct G as ((n & -> & Hn) & Th). fold (renbr n e).
    assert (U : update_from (renbr n e) src = match update_from e src with None => None | Some (x, b) => Some (renbr n x, b) end) by (unfold update_from; destruct (_ <? _)%num; reflexivity).
    rewrite U. assert (V : forall x b, update_from e src = Some (x, b) -> e_colliders x = e_colliders e /\ e_neighbors x = e_neighbors e).
    { unfold update_from. intros x b. destruct (_ <? _)%num; [discriminate|]. intros E. injection E as <- _. split; reflexivity. }
    destruct (update_from e src) as [[x woke]|]; [|split; [exact H|reflexivity]]. destruct (V x woke eq_refl) as (Vc & Vn). change (e_colliders (renbr n x)) with (e_colliders x).
    rewrite <- (proj1 (proj2 H)). eapply (rrel_bind tw); [apply recalculate_tw; [exact H1|exact H2|unfold thin; now rewrite Vc|rewrite Vc; exact (Fh e eq_refl)|now rewrite Vn]|].
    intros y y' Hy. assert (K : twin (s_set_ents s (aset (s_ents s) h y)) (s_set_ents t (aset (s_ents t) h y'))) by (apply twin_ents; [exact H|]; apply alike_set; [exact (proj1 H)|exact Hy]).
    cbv zeta. destruct woke; [|split; [exact K|reflexivity]]. eapply (rrel_bind fst_alike); [apply wake_up_alike; [exact H1|exact H2|exact (proj1 K)]|].
    intros p q Kpq. split; [|reflexivity]. exact (conj Kpq (proj2 K)).
  Qed.
  Lemma update_collider_twin ord1 ord2 s t h src : full s -> good_order ord1 -> good_order ord2 -> twin s t -> rrel said (update_collider ord1 s h src) (update_collider ord2 t h src).
  Proof.
    intros Fu H1 H2 H. unfold update_collider. pose proof (proj1 (proj2 H)) as Hc. rewrite <- Hc. destruct (aget (s_cols s) h) as [c|]; [|split; [exact H|reflexivity]]. cbv zeta.
    assert (F : forall (cols : arena (collider T)) (result : bool), (forall l, Ex (s_cols s) l -> Ex cols l) -> rrel (@said bool)
      (match c_entity c with
      | Some eh => match aget (s_ents s) eh with
                   | Some e => rbind (recalculate_mass (ord1 KColliders eh (e_colliders e)) cols e) (fun e' => Ok (s_set_ents (s_set_cols s cols) (aset (s_ents s) eh e'), result))
                   | None => Ok (s_set_cols s cols, result) end
      | None => Ok (s_set_cols s cols, result) end)
      (match c_entity c with
      | Some eh => match aget (s_ents t) eh with
                   | Some e => rbind (recalculate_mass (ord2 KColliders eh (e_colliders e)) cols e) (fun e' => Ok (s_set_ents (s_set_cols t cols) (aset (s_ents t) eh e'), result))
                   | None => Ok (s_set_cols t cols, result) end
      | None => Ok (s_set_cols t cols, result) end)).
    { intros cols r Xc. destruct (c_entity c) as [eh|]; [|split; [now apply twin_cols|reflexivity]]. pose proof (alike_get _ _ _ eh (proj1 H)) as G. pose proof (Fu eh) as Fh.
      destruct (aget (s_ents s) eh) as [e|], (aget (s_ents t) eh) as [e'|]; try tauto; [|split; [now apply twin_cols|reflexivity]]. destruct G as ((n & -> & Hn) & Th). fold (renbr n e). change (e_colliders (renbr n e)) with (e_colliders e).
      eapply (rrel_bind tw); [apply recalculate_tw; auto|]. intros y y' Hy. split; [|reflexivity]. cbn [fst]. apply twin_ents; [now apply twin_cols|]. apply alike_set; [exact (proj1 H)|exact Hy]. }
    destruct (collider_update_from c src); first [apply F; auto|split; [exact H|reflexivity]].
  Qed.
  Definition all_thin s : Prop := forall h e, aget (s_ents s) h = Some e -> thin e.
  Lemma link_twin ord1 ord2 s t ch target p : full s -> good_order ord1 -> good_order ord2 -> twin s t -> link_collider ord1 s ch target = Ok p -> all_thin (fst p) ->
    exists q, link_collider ord2 t ch target = Ok q /\ said p q.
  Proof.
    intros Fu H1 H2 H E Ts.
    assert (R : forall x y, x = Ok p -> rrel (@said bool) x y -> exists q, y = Ok q /\ said p q) by (intros x y -> K; destruct y as [q| |]; cbn [rrel] in K; try tauto; eauto).
    assert (Fin : forall ents ents' (c : collider T), ents_alike ents ents' -> (forall h e, aget ents h = Some e -> Ex (s_cols s) (e_colliders e)) ->
      let fin ord (s1 : system T) ents :=
        (let cols := aset (s_cols s) ch (c_set_entity c target) in
         let same := match c_entity c, target with None, None => true | Some a, Some b => heqb a b | _, _ => false end in
         let s1 := s_set_cols (s_set_ents s1 ents) cols in
         if same then Ok (s1, true)
         else match c_entity c with
              | None => Ok (s1, true)
              | Some ph => match aget ents ph with
                           | None => Ok (s1, true)
                           | Some p => let p1 := e_set_colliders p (hremove ch (e_colliders p)) in
                             rbind (recalculate_mass (ord KColliders ph (e_colliders p1)) cols p1) (fun p2 => Ok (s_set_ents s1 (aset ents ph p2), true))
                           end
              end) in rrel (@said bool) (fin ord1 s ents) (fin ord2 t ents')).
    { intros a b c K Fa fin. subst fin. cbv beta zeta. set (cols := aset (s_cols s) ch _).
      assert (L : twin (s_set_cols (s_set_ents s a) cols) (s_set_cols (s_set_ents t b) cols)) by (apply twin_cols, twin_ents; assumption).
      destruct (match c_entity c with None => _ | _ => _ end); [split; [exact L|reflexivity]|]. destruct (c_entity c) as [ph|]; [|split; [exact L|reflexivity]].
      pose proof (alike_get _ _ _ ph K) as G. pose proof (Fa ph) as Fp. destruct (aget a ph) as [x|], (aget b ph) as [x'|]; try tauto; [|split; [exact L|reflexivity]]. destruct G as ((n & -> & Hn) & Th).
      change (e_set_colliders (e_set_sleep x (e_asleep x) n) (hremove ch (e_colliders (e_set_sleep x (e_asleep x) n)))) with (renbr n (e_set_colliders x (hremove ch (e_colliders x)))).
      set (x1 := e_set_colliders x _). change (e_colliders (renbr n x1)) with (e_colliders x1).
      eapply (rrel_bind tw); [apply recalculate_tw; [exact H1|exact H2| |unfold x1; cbn [e_set_colliders e_colliders]; apply ExSet, ExRem; exact (Fp x eq_refl)|exact Hn]|].
      - unfold thin. unfold x1. cbn [e_set_colliders e_colliders]. now apply Qrem.
      - intros y y' Hy. split; [|reflexivity]. cbn [fst]. apply twin_ents; [exact L|]. apply alike_set; [exact K|exact Hy]. }
    cbv zeta in Fin. unfold link_collider in E |- *. rewrite <- (proj1 (proj2 H)). destruct (aget (s_cols s) ch) as [c|] eqn:Ec0; [|apply (R _ _ E); split; [exact H|reflexivity]].
    cbv zeta in E |- *. destruct target as [h|].
    2: { cbn [rbind] in E |- *. apply (R _ _ E). apply Fin; [exact (proj1 H)|exact Fu]. }
    pose proof (alike_get _ _ _ h (proj1 H)) as G. destruct (aget (s_ents s) h) as [e|] eqn:Eh, (aget (s_ents t) h) as [e'|]; try tauto; cbn [rbind] in E |- *.
    2: { apply (R _ _ E). split; [exact H|reflexivity]. }
    destruct G as ((n & -> & Hn) & Th). change (e_set_colliders (e_set_sleep e (e_asleep e) n) (hinsert ch (e_colliders (e_set_sleep e (e_asleep e) n)))) with (renbr n (e_set_colliders e (hinsert ch (e_colliders e)))).
    set (e1 := e_set_colliders e _) in *. change (e_colliders (renbr n e1)) with (e_colliders e1).
    assert (T1 : thin e1).
    { apply rbind_ok in E. destruct E as (o & Eo & E). apply rbind_ok in Eo. destruct Eo as (e2 & Ee & Eo). injection Eo as <-. destruct (recalculate_keeps _ _ _ _ Ee) as (Ec & _).
      assert (K2 : thin e2); [|unfold thin in *; now rewrite <- Ec].
      assert (G0 : aget (aset (s_ents s) h e2) h = Some e2) by exact (aget_aset_eq _ _ _ _ Eh).
      destruct (match c_entity c with None => _ | _ => _ end) eqn:Sm; [injection E as <-; exact (Ts h e2 G0)|].
      destruct (c_entity c) as [ph|]; [|injection E as <-; exact (Ts h e2 G0)].
      destruct (aget (aset (s_ents s) h e2) ph) as [x|] eqn:Ex1; [|injection E as <-; exact (Ts h e2 G0)].
      apply rbind_ok in E. destruct E as (p2 & _ & E). injection E as <-. apply (Ts h e2). cbn [fst s_set_ents s_ents]. rewrite aget_aset_neq; [exact G0|]. intros ->. now rewrite heqb_refl in Sm. }
    apply (R _ _ E).
    assert (Xe : Ex (s_cols s) (e_colliders e1)) by (unfold e1; cbn [e_set_colliders e_colliders]; apply (ExIns _ _ c); [exact Ec0|exact (Fu h e Eh)]).
    eapply (rrel_bind (fun o o' => match o, o' with Some a, Some b => ents_alike a b /\ (forall h e, aget a h = Some e -> Ex (s_cols s) (e_colliders e)) | None, None => True | _, _ => False end)).
    - pose proof (recalculate_tw ord1 ord2 KColliders h (s_cols s) e1 n H1 H2 T1 Xe Hn) as Rc. destruct (recalculate_mass (ord1 _ _ _) _ _) as [y| |] eqn:Ey, (recalculate_mass (ord2 _ _ _) _ _) as [y'| |]; cbn [rrel rbind] in Rc |- *; try tauto.
      split; [apply alike_set; [exact (proj1 H)|exact Rc]|]. intros k x Hx. destruct (recalculate_keeps _ _ _ _ Ey) as (Ec & _). rewrite aget_aset in Hx. destruct (heqb h k); [|exact (Fu k x Hx)]. rewrite Eh in Hx. injection Hx as <-. now rewrite Ec.
    - intros [a|] [b|] K; try tauto; [|split; [exact H|reflexivity]]. exact (Fin a b c (proj1 K) (proj2 K)).
  Qed.

  (** ** Calls and histories *)
  Lemma exec_twin ord1 ord2 s t o p : (forall l, Q l -> length l <= 1) \/ match o with OStep _ | ORemoveEntity _ => False | _ => True end -> full s ->
    good_order ord1 -> good_order ord2 -> twin s t -> exec ord1 s o = Ok p -> all_thin (fst p) ->
    exists q, exec ord2 t o = Ok q /\ said p q.
  Proof.
    intros few Fu H1 H2 H E Ts.
    assert (R : forall x y, x = Ok p -> rrel (@said (answer T)) x y -> exists q, y = Ok q /\ said p q) by (intros x y -> K; destruct y as [q| |]; cbn [rrel] in K; try tauto; eauto).
    assert (B : forall A x y (f : A -> answer T), rrel (@said A) x y -> rrel (@said (answer T)) (rbind x (fun r => Ok (fst r, f (snd r)))) (rbind y (fun r => Ok (fst r, f (snd r))))).
    { intros A x y f K. eapply rrel_bind; [exact K|]. intros u v (K1 & K2). split; [exact K1|]. cbn [snd]. now rewrite K2. }
    pose proof H as (Ka & Kc & Kg & Ki & Kr & Ke & Kt).
    destruct o; cbn [exec] in E |- *.
    - apply (R _ _ E). apply (B _ _ _ AHandle). now apply add_entity_twin.
    - apply (R _ _ E). apply (B _ _ _ ABool). destruct few as [few|[]]. now apply remove_entity_twin.
    - apply (R _ _ E). apply (B _ _ _ ABool). now apply update_entity_twin.
    - apply (R _ _ E). apply (B _ _ _ AHandle). now apply add_collider_twin.
    - apply (R _ _ E). eapply (rrel_bind twin); [now apply remove_collider_twin|]. intros u v K. split; [exact K|reflexivity].
    - apply (R _ _ E). apply (B _ _ _ ABool). now apply update_collider_twin.
    - apply rbind_ok in E. destruct E as (r & E & Ep). injection Ep as <-. destruct (link_twin ord1 ord2 s t ch target r Fu H1 H2 H E Ts) as (q & -> & K1 & K2). exists (fst q, ABool (snd q)). split; [reflexivity|]. split; [exact K1|]. cbn [snd]. now rewrite K2.
    - apply (R _ _ E). unfold add_generator. rewrite <- Kg. destruct (ainsert (s_gens s) g) as [r| |]; cbn [rbind rrel]; try exact I. split; [now apply twin_gens|reflexivity].
    - apply (R _ _ E). unfold remove_generator. rewrite <- Kg. destruct (aremove (s_gens s) h) as [[g x]|]; (split; [first [now apply twin_gens|exact H]|reflexivity]).
    - apply (R _ _ E). destruct few as [few|[]]. eapply (rrel_bind twin); [now apply step_twin|]. intros u v K. split; [exact K|reflexivity].
    - apply (R _ _ E). split; [|reflexivity]. exact (conj Ka (conj Kc (conj Kg (conj eq_refl (conj Kr (conj Ke Kt)))))).
    - apply (R _ _ E). split; [|reflexivity]. exact (conj Ka (conj Kc (conj Kg (conj Ki (conj Kr (conj eq_refl Kt)))))).
    - apply (R _ _ E). split; [|reflexivity]. exact (conj Ka (conj Kc (conj Kg (conj Ki (conj Kr (conj Ke eq_refl)))))).
  Qed.
End Twins.

(** ** Entities with at most one collider, any arithmetic *)
Section Slim.
  Context {T : Type} {N : Num T}.
  Implicit Types (s : system T).
  Definition short (l : list handle) : Prop := length l <= 1.
  Lemma short_rem c l : short l -> short (hremove c l).
  Proof. unfold short. pose proof (hremove_length c l). lia. Qed.
  Lemma short_even ord1 ord2 k h cols (e : ientity T) : good_order ord1 -> good_order ord2 -> thin short e -> True ->
    recalculate_mass (ord1 k h (e_colliders e)) cols e = recalculate_mass (ord2 k h (e_colliders e)) cols e.
  Proof. intros H1 H2 H _. now rewrite (thin_order ord1), (thin_order ord2). Qed.
  Lemma slim_thin s : slim s -> all_thin short s.
  Proof. intros H h e He. specialize (H h (make_pub e)). unfold get_entity in H. rewrite He in H. exact (H eq_refl). Qed.
  Lemma run_twin hist1 : forall hist2 s t s' ans, map snd hist1 = map snd hist2 -> Forall call_ok hist1 -> Forall call_ok hist2 -> twin short s t -> slim_along hist1 s ->
    run hist1 s = Ok (s', ans) -> exists t', run hist2 t = Ok (t', ans) /\ twin short s' t'.
  Proof.
    induction hist1 as [|[ord1 o1] hist1 IH]; intros [|[ord2 o2] hist2] s t s' ans M C1 C2 H Sl E; try discriminate.
    - cbn [run] in E |- *. injection E as <- <-. exists t. split; [reflexivity|exact H].
    - cbn [map snd] in M. injection M as <- M. inversion C1 as [|? ? (G1 & _) C1']; subst. inversion C2 as [|? ? (G2 & _) C2']; subst. cbn [run] in E.
      destruct (exec ord1 s o1) as [[s1 a]| |] eqn:E1; try discriminate. destruct (run hist1 s1) as [[s2 l]| |] eqn:E2; try discriminate. injection E as <- <-.
      assert (Sn : short []) by (unfold short; simpl; lia).
      destruct (exec_twin short Sn short_rem (fun _ _ => True) (fun _ _ _ _ _ => I) (fun _ _ _ _ _ _ => I) (fun _ _ _ _ => I) short_even ord1 ord2 s t o1 (s1, a) (or_introl (fun _ K => K)) (fun _ _ _ => I) G1 G2 H E1) as ([t1 a'] & F1 & K & Ea).
      { apply slim_thin. apply (Sl 1 s1 [a]). cbn [firstn run]. now rewrite E1. }
      cbn [fst snd] in K, Ea. subst a'. destruct (IH hist2 s1 t1 s2 l M C1' C2' K) as (t2 & F2 & K2).
      { intros n u x Eu. apply (Sl (S n) u (a :: x)). cbn [firstn run]. now rewrite E1, Eu. }
      { exact E2. }
      exists t2. split; [cbn [run]; now rewrite F1, F2|exact K2].
  Qed.
  Lemma twin_refl Q s : all_thin Q s -> twin Q s s.
  Proof.
    intros H. split; [|repeat split]. apply alike_of; [apply alike_refl; exact (fun _ => I)|]. intros h x y Hx Hy. rewrite Hx in Hy. injection Hy as <-. split; [apply sim_refl|]. exact (H h x Hx).
  Qed.
  Lemma twin_looks Q s t : twin Q s t -> looks_same s t.
  Proof.
    intros H. pose proof H as (Ka & Kc & Kg & Ki & Kr & Ke & Kt). split; [intros h; exact (twin_get Q s t h H)|]. split; [intros h; unfold get_collider; now rewrite Kc|]. split; [intros h; unfold get_generator; now rewrite Kg|].
    split; [exact Kr|]. split; [exact Ki|]. split; [exact Ke|]. split; [exact Kt|]. intros h k. exact (contact_alike Q _ _ h k Ka).
  Qed.
  (** Whatever orders the two runs use. *)
  Lemma replay hist1 hist2 s s1 ans : map snd hist1 = map snd hist2 -> Forall call_ok hist1 -> Forall call_ok hist2 -> slim_along hist1 s ->
    run hist1 s = Ok (s1, ans) -> exists s2, run hist2 s = Ok (s2, ans) /\ looks_same s1 s2.
  Proof.
    intros M C1 C2 Sl E. destruct (run_twin hist1 hist2 s s s1 ans M C1 C2) as (s2 & E2 & K); [|exact Sl|exact E|].
    - apply twin_refl, slim_thin. apply (Sl 0 s []). destruct hist1; reflexivity.
    - exists s2. split; [exact E2|exact (twin_looks _ _ _ K)].
  Qed.
End Slim.
