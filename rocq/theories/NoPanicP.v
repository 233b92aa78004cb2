(** * NoPanicP: which calls return normally (C09) *)
From Coq Require Import ZArith List Permutation Bool Arith Lia.
Import ListNotations.
From Verif Require Import Num Vec Res Arena RangeM Orient Colliders Collide EntityM SystemM OrderP ArithP Spec PanicSpec ResP ArenaP FrameP StoreP Store2P MeshP ExecP ValidP WakeP StepP Step2P Step3P.
Local Open Scope nat_scope.

Section NoPanic.
  Context {T : Type} {N : Num T}.

  Lemma rbind_total {A B} (m : res A) (f : A -> res B) :
    (exists a, m = Ok a) -> (forall a, m = Ok a -> exists b, f a = Ok b) -> exists b, rbind m f = Ok b.
  Proof. intros (a & ->) H. simpl. apply H. reflexivity. Qed.
  Lemma unwrap_total {A} (o : option A) : o <> None -> exists a, unwrap o = Ok a.
  Proof. intros H. destruct o; [simpl; eauto|easy]. Qed.

  Lemma f2_length {A B} (R : A -> B -> Prop) l l' : Forall2 R l l' -> length l = length l'.
  Proof. induction 1; simpl; congruence. Qed.

  (** ** Collisions *)
  Lemma polygon_normal_panics pts is : polygon_normal_from (T:=T) pts is = Panic ->
    forall i, In i is -> i < length pts ->
    let n := length pts in
    let d := vcross (vsub (nth (if 0 <? i then i - 1 else n - 1) pts vzero) (nth i pts vzero))
                    (vsub (nth (if n <=? i + 1 then i + 1 - n else i + 1) pts vzero) (nth i pts vzero)) in
    n_isfin (vmag d) && n_lt EPSILON (vmag d) = false.
  Proof.
    induction is as [|j is IH]; cbn [polygon_normal_from In]; cbv zeta; [easy|]. intros H i [->|Hi] Hl.
    - match type of H with (if ?b then _ else _) = _ => destruct b eqn:E end; [discriminate|]. reflexivity.
    - match type of H with (if ?b then _ else _) = _ => destruct b eqn:E end; [discriminate|]. apply IH; assumption.
  Qed.
  Lemma polygon_normal_flat pts : 3 <= length pts -> get_polygon_normal (T:=T) pts = Panic -> flat_face pts.
  Proof.
    intros Hl H i a b c Ha Hb Hc. unfold get_polygon_normal in H.
    set (n := length pts) in *.
    assert (Hi : i < n) by (eapply nth_error_lt; eassumption).
    assert (Hj : (i + 1) mod n < n) by (apply Nat.mod_upper_bound; lia).
    pose proof (polygon_normal_panics _ _ H ((i + 1) mod n)) as P.
    rewrite in_seq in P. specialize (P ltac:(lia) Hj). cbv zeta in P. fold n in P.
    assert (E1 : (if 0 <? (i + 1) mod n then (i + 1) mod n - 1 else n - 1) = i).
    { destruct (Nat.eq_dec (i + 1) n) as [E|E].
      - rewrite E, Nat.mod_same by lia. simpl. lia.
      - rewrite Nat.mod_small by lia. destruct (Nat.ltb_spec 0 (i + 1)); lia. }
    assert (E2 : (if n <=? (i + 1) mod n + 1 then (i + 1) mod n + 1 - n else (i + 1) mod n + 1) = (i + 2) mod n).
    { destruct (Nat.eq_dec (i + 1) n) as [E|E].
      - rewrite E, Nat.mod_same by lia. replace (i + 2) with (1 + 1 * n) by lia. rewrite Nat.mod_add by lia.
        rewrite (Nat.mod_small 1 n) by lia. destruct (Nat.leb_spec n (0 + 1)); lia.
      - rewrite (Nat.mod_small (i + 1)) by lia. destruct (Nat.eq_dec (i + 2) n) as [E'|E'].
        + rewrite E', Nat.mod_same by lia. destruct (Nat.leb_spec n (i + 1 + 1)); lia.
        + rewrite Nat.mod_small by lia. destruct (Nat.leb_spec n (i + 1 + 1)); lia. }
    rewrite E1, E2 in P.
    rewrite (nth_error_nth _ _ vzero Ha), (nth_error_nth _ _ vzero Hb), (nth_error_nth _ _ vzero Hc) in P.
    apply andb_false_iff in P. exact P.
  Qed.

  Lemma point_polygon_panics a b pol : 3 <= length pol -> collide_point_with_polygon (T:=T) a b pol = Panic -> flat_face pol.
  Proof.
    intros Hl H. apply polygon_normal_flat; [assumption|]. unfold collide_point_with_polygon in H.
    destruct (get_polygon_normal pol); simpl in H; [|reflexivity|discriminate].
    repeat match type of H with
           | (if ?b then _ else _) = _ => destruct b
           | (let '(_, _) := ?x in _) = _ => destruct x
           | _ => discriminate
           end.
  Qed.

  Lemma rfold_panics {A S} (f : S -> A -> res S) l : forall x : S, rfold f l x = Panic -> exists (y : S) a, In a l /\ f y a = Panic.
  Proof.
    induction l as [|a l IH]; simpl; intros x H; [discriminate|].
    destruct (f x a) eqn:E; simpl in H; [|eauto|discriminate].
    destruct (IH _ H) as (s1 & a' & Hi & Ha). eauto.
  Qed.
  Lemma rbind_panics {A B} (m : res A) (f : A -> res B) : rbind m f = Panic -> m = Panic \/ exists a, m = Ok a /\ f a = Panic.
  Proof. destruct m; simpl; eauto. discriminate. Qed.

  Lemma mesh_pairs_length (m : mesh_c T) a b : length (mesh_point_pairs m a b) = length (me_verts m).
  Proof. apply map_length. Qed.

  (** Asking for the corners of a face never panics. *)
  Lemma corners_total {X Y} (vs : list X) (g : X -> Y) face : Forall (fun i => i < length vs) face ->
    exists ps, rmap (fun i => rbind (unwrap (nth_error vs i)) (fun pe => Ok (g pe))) face = Ok (map g ps) /\
      Forall2 (fun i p => nth_error vs i = Some p) face ps.
  Proof.
    induction 1 as [|i face Hi _ (ps & E & F)]; [exists []; split; [reflexivity|constructor]|].
    destruct (nth_error vs i) as [p|] eqn:Ep; [|apply nth_error_None in Ep; lia].
    exists (p :: ps). split; [|constructor; assumption]. simpl. rewrite Ep. simpl. rewrite E. reflexivity.
  Qed.

  Lemma mesh_faces_panics out p1 fs p2 k :
    Forall (fun face => 3 <= length face /\ Forall (fun i => i < length p2) face) fs ->
    collide_mesh_points_with_mesh_faces (T:=T) out p1 fs p2 k = Panic ->
    exists f ps, In f fs /\ Forall2 (fun i p => nth_error p2 i = Some p) f ps /\ flat_face (map halfway ps).
  Proof.
    intros W H. unfold collide_mesh_points_with_mesh_faces in H.
    apply rbind_panics in H. destruct H as [H|(acc & _ & H)].
    - apply rfold_panics in H. destruct H as (acc & pt & _ & H).
      apply rfold_panics in H. destruct H as (acc' & f & Hf & H).
      rewrite Forall_forall in W. destruct (W _ Hf) as (W3 & Wi).
      destruct (corners_total p2 halfway f Wi) as (ps & E & F).
      change (fun i => rbind (unwrap (nth_error p2 i)) (fun pe => Ok (vdivs (vadd (fst pe) (snd pe)) n2)))
        with (fun i => rbind (unwrap (nth_error p2 i)) (fun pe => Ok (halfway pe))) in H.
      rewrite E in H. simpl in H. apply rbind_panics in H. destruct H as [H|(c & _ & H)]; [|discriminate].
      exists f, ps. split; [assumption|]. split; [assumption|]. eapply point_polygon_panics; [|exact H].
      rewrite map_length. rewrite <- (f2_length _ _ _ F). exact W3.
    - destruct (fst acc); [|discriminate].
      match type of H with (let '(_, _) := ?x in _) = _ => destruct x end. discriminate.
  Qed.

  Lemma sphere_mesh_total r c m vs es fs mv :
    Forall (fun face => 3 <= length face /\ Forall (fun i => i < length vs) face) fs ->
    Forall (fun x => fst x <= snd x < length vs) es ->
    exists o, collide_sphere_with_mesh (T:=T) r c m vs es fs mv = Ok o.
  Proof.
    intros Wf We. unfold collide_sphere_with_mesh. rewrite Forall_forall in Wf, We.
    apply rbind_total.
    - match goal with |- exists a, rfold ?f ?l ?s0 = _ => destruct (rfold_total f (fun _ => True) l) with (s := s0) as (x & E & _) end; [|exact I|eauto].
      intros acc e He _. destruct (We _ He) as (W1 & W2).
      destruct (nth_error vs (fst e)) eqn:E1; [|apply nth_error_None in E1; lia].
      destruct (nth_error vs (snd e)) eqn:E2; [|apply nth_error_None in E2; lia].
      simpl. eauto.
    - intros acc _. apply rbind_total; [|eauto].
      match goal with |- exists a, rfold ?f ?l ?s0 = _ => destruct (rfold_total f (fun _ => True) l) with (s := s0) as (x & E & _) end; [|exact I|eauto].
      intros acc' f Hf _. destruct (Wf _ Hf) as (W3 & Wi).
      destruct (rmap_total (fun i => unwrap (nth_error vs i)) f) as (ps & E).
      { intros i Hi. rewrite Forall_forall in Wi. specialize (Wi _ Hi). apply unwrap_total. intros E. apply nth_error_None in E. lia. }
      rewrite E. simpl. apply rmap_ok in E. apply f2_length in E.
      unfold collide_sphere_with_polygon_surface. destruct ps as [|a [|b [|d ps]]]; simpl in E; try lia.
      match goal with |- context [if ?b then _ else _] => destruct b end; [simpl; eauto|].
      match goal with |- context [if ?b then _ else _] => destruct b end; simpl; eauto.
  Qed.

  (** The only collisions that can panic are those of two meshes, one of which has a face
      that is flat halfway through the motion. *)
  Lemma collide_panics c1 s1 e1 c2 s2 e2 :
    (forall m, c1 = CMesh m -> mesh_wf m) -> (forall m, c2 = CMesh m -> mesh_wf m) ->
    collide (T:=T) c1 s1 e1 c2 s2 e2 = Panic ->
    exists m1 m2, c1 = CMesh m1 /\ c2 = CMesh m2 /\ (collapses m1 s1 e1 \/ collapses m2 s2 e2).
  Proof.
    intros W1 W2 H. destruct c1 as [a|a|a|a|a], c2 as [b|b|b|b|b]; simpl in H; try discriminate.
    - destruct (W2 _ eq_refl) as (_ & Wf & We & _).
      edestruct (sphere_mesh_total (sp_radius a)) as (o & E); [| |rewrite E in H; discriminate].
      + rewrite Forall_forall in Wf |- *. intros f Hf. destruct (Wf f Hf) as (P & Q). split; [exact P|].
        unfold vertices_in_world. rewrite map_length. exact Q.
      + unfold vertices_in_world. rewrite map_length. exact We.
    - match type of H with match ?x with _ => _ end = _ => destruct x end; discriminate.
    - destruct (W1 _ eq_refl) as (_ & Wf & We & _).
      edestruct (sphere_mesh_total (sp_radius b)) as (o & E); [| |rewrite E in H; discriminate].
      + rewrite Forall_forall in Wf |- *. intros f Hf. destruct (Wf f Hf) as (P & Q). split; [exact P|].
        unfold vertices_in_world. rewrite map_length. exact Q.
      + unfold vertices_in_world. rewrite map_length. exact We.
    - exists a, b. split; [reflexivity|]. split; [reflexivity|].
      destruct (W1 _ eq_refl) as (_ & Wf1 & _). destruct (W2 _ eq_refl) as (_ & Wf2 & _).
      unfold collide_mesh_with_mesh in H.
      assert (C : forall m st en ou p k, mesh_wf m ->
                collide_mesh_points_with_mesh_faces ou p (me_faces m) (mesh_point_pairs m st en) k = Panic -> collapses m st en).
      { intros m st en ou p k (_ & Wf & _) P. apply mesh_faces_panics in P.
        - destruct P as (f & ps & Hf & F & Fl). exists f. split; [exact Hf|].
          eapply eq_ind; [exact Fl|]. clear - F. induction F as [|i q f ps Hi F IH]; [reflexivity|].
          cbn [map]. f_equal; [|exact IH]. unfold mesh_point_pairs in Hi. rewrite nth_error_map in Hi.
          destruct (nth_error (me_verts m) i) as [v|] eqn:E; [|discriminate]. injection Hi as <-.
          rewrite (nth_error_nth _ _ vzero E). reflexivity.
        - rewrite mesh_pairs_length. exact Wf. }
      apply rbind_panics in H. destruct H as [H|(acc & _ & H)]; [right; eapply C; [|exact H]; apply W2; reflexivity|].
      apply rbind_panics in H. destruct H as [H|(acc' & _ & H)]; [left; eapply C; [|exact H]; apply W1; reflexivity|discriminate].
    - match type of H with match ?x with _ => _ end = _ => destruct x end; discriminate.
  Qed.
End NoPanic.

(** ** Steps *)
(** [r] returned normally, or panicked for the reason [P]. *)
Definition fine {A} (P : Prop) (r : res A) : Prop := match r with Ok _ => True | Panic => P | Fuel => False end.
Lemma fine_ok {A} P (a : A) : fine P (Ok a).
Proof. exact I. Qed.
Lemma fine_total {A} P (r : res A) : (exists a, r = Ok a) -> fine P r.
Proof. intros (a & ->). exact I. Qed.
Lemma fine_unwrap {A} P (o : option A) : o <> None -> fine P (unwrap o).
Proof. intros H. apply fine_total, unwrap_total, H. Qed.
Lemma fine_rbind {A B} P (m : res A) (f : A -> res B) : fine P m -> (forall a, m = Ok a -> fine P (f a)) -> fine P (rbind m f).
Proof. destruct m; simpl; auto. Qed.
Lemma fine_rfold {A S} P (J : S -> Prop) (f : S -> A -> res S) l :
  (forall x a, In a l -> J x -> fine P (f x a) /\ forall x', f x a = Ok x' -> J x') ->
  forall x, J x -> fine P (rfold f l x) /\ forall x', rfold f l x = Ok x' -> J x'.
Proof.
  induction l as [|a l IH]; simpl; intros H x Hx.
  - split; [exact I|]. intros x' E. injection E as <-. exact Hx.
  - destruct (H x a (or_introl eq_refl) Hx) as (F & K).
    destruct (f x a) as [y| |]; simpl in *; [|split; [exact F|discriminate]|contradiction].
    apply IH; [|apply K; reflexivity]. intros z b Hb. apply H. right. exact Hb.
Qed.
Lemma fine_impl {A} (P Q : Prop) (r : res A) : (P -> Q) -> fine P r -> fine Q r.
Proof. destruct r; simpl; auto. Qed.
Lemma fine_false {A} (r : res A) : fine False r -> exists a, r = Ok a.
Proof. destruct r; simpl; [eauto|easy|easy]. Qed.

Section Live.
  Context {T : Type} {N : Num T}.
  Implicit Types (ents : arena (ientity T)).

  Definition nbrs_alive ents : Prop := forall h e n, aget ents h = Some e -> In n (e_neighbors e) -> aget ents n <> None.
  Lemma nbrs_rel R ents ents' : arel R ents ents' -> (forall h e e', R h e e' -> incl (e_neighbors e') (e_neighbors e)) ->
    nbrs_alive ents -> nbrs_alive ents'.
  Proof.
    intros HR Hi Ha h e' n He Hn. destruct (arel_get_r _ _ _ _ _ HR He) as (e & E & Re).
    rewrite (arel_none _ _ _ n HR). eapply Ha; [exact E|]. eapply Hi; eassumption.
  Qed.
  Lemma nbrs_vel ents ents' : arel (Rvel (T:=T)) ents ents' -> nbrs_alive ents -> nbrs_alive ents'.
  Proof. intros HR. apply (nbrs_rel _ _ _ HR). intros h e e' (v & w & ->). apply incl_refl. Qed.

  Lemma wake_up_alive ord h ents dbg r : good_order ord -> wake_up (T:=T) ord h ents dbg = Ok r ->
    nbrs_alive ents -> nbrs_alive (fst r).
  Proof.
    intros Ho Hw Ha. pose proof (wake_up_frame _ _ _ _ _ Hw) as HR. destruct r as (ents' & dbg').
    destruct (wake_up_exact _ _ _ _ _ _ Ho Hw) as (W & D & _). simpl in *.
    intros k e' n He Hn. destruct (arel_get_r _ _ _ _ _ HR He) as (e & E & _).
    rewrite (arel_none _ _ _ n HR). specialize (W k). rewrite E, He in W. destruct W as (W1 & W2 & W3).
    destruct (D k) as [Dk|Dk].
    - rewrite (W1 Dk) in Hn. destruct Hn.
    - destruct (handle_eq_dec k h) as [->|Hk]; [rewrite (W2 Dk (or_introl eq_refl)) in Hn; eapply Ha; eassumption|].
      destruct (n_isinf (e_total_mass e)) eqn:Ei.
      + destruct (W3 Dk Hk eq_refl) as (ns & -> & Hns). apply Hns in Hn. eapply Ha; [exact E|apply Hn].
      + rewrite (W2 Dk (or_intror eq_refl)) in Hn. eapply Ha; eassumption.
  Qed.
  Lemma wake_up_returns ord h ents dbg : good_order ord -> nbrs_alive ents -> aget ents h <> None ->
    exists r, wake_up (T:=T) ord h ents dbg = Ok r.
  Proof.
    intros Ho Ha Hh. apply wake_up_total; [assumption|assumption|].
    intros a b _ (e & E & Hb). eapply Ha; eassumption.
  Qed.
  Lemma wake_finite_live ord h st : good_order ord -> nbrs_alive (fst st) -> aget (fst st) h <> None ->
    exists r, wake_finite (T:=T) ord h st = Ok r /\ nbrs_alive (fst r).
  Proof.
    intros Ho Ha Hh. unfold wake_finite. destruct (aget (fst st) h) as [e|] eqn:E; [|easy]. simpl.
    destruct (n_isfin (e_total_mass e)); [|eauto].
    destruct (wake_up_returns ord h (fst st) (snd st)) as (r & Hr); [assumption|assumption|congruence|].
    exists r. split; [exact Hr|]. eapply wake_up_alive; eassumption.
  Qed.

  (** *** Integration *)
  Lemma sum_forces_fine P s0 dt h copy ghs s : gens_answer s0 -> (forall gh, In gh ghs -> get_generator s0 gh <> None) ->
    get_entity s h <> None -> arel Rgen (s_gens s0) (s_gens s) -> fine P (sum_forces (T:=T) dt h copy s ghs).
  Proof.
    intros Hg Hgh Hh HR. unfold sum_forces.
    match goal with |- fine _ (rfold ?f ?l ?z) =>
      destruct (fine_rfold P (fun st => arel Rgen (s_gens s0) (s_gens (fst (fst st))) /\ get_entity (fst (fst st)) h <> None) f l) with (x := z) as (F & _) end.
    - intros ((s1 & a) & t) gh Hi (HR1 & Hh1). cbn [fst snd] in *.
      destruct (aget (s_gens s1) gh) as [g|] eqn:Eg; [|apply (arel_none _ _ _ gh HR1) in Eg; elim (Hgh gh Hi); exact Eg].
      destruct (arel_get_r _ _ _ _ _ HR1 Eg) as (g0 & Eg0 & Hb).
      destruct (Hg gh g0 Eg0 g dt (view_of s1) h Hb Hh1) as ((f & g') & Ef).
      cbn [unwrap rbind]. rewrite Ef. cbn [rbind]. split; [exact I|]. intros x' E. injection E as <-. cbn [fst s_gens s_set_gens].
      split; [|exact Hh1]. eapply arel_trans; [apply Rgen_trans|exact HR1|]. eapply arel_aset; [apply Rgen_refl|exact Eg|].
      eapply becomes_asked; [apply becomes_refl|exact Ef].
    - split; assumption.
    - exact F.
  Qed.

  Lemma integrate_fine P s0 dt : gens_answer s0 ->
    fine P (rfold (integrate_one (T:=T) dt (ahandles (s_gens s0))) (ahandles (s_ents s0)) (s0, [])).
  Proof.
    intros Hg.
    destruct (fine_rfold P (fun st => same_but_vels s0 (fst st) /\ arel Rgen (s_gens s0) (s_gens (fst st)))
      (integrate_one dt (ahandles (s_gens s0))) (ahandles (s_ents s0))) with (x := (s0, @nil (info T))) as (F & _); [| |exact F].
    - intros (s1 & infos) h Hi (HS & HR). simpl in HS, HR.
      assert (Hh : get_entity s1 h <> None).
      { rewrite get_entity_none. rewrite (arel_none _ _ _ h (sv_ents _ _ HS)). apply ahandles_in. exact Hi. }
      assert (HA : forall gh, In gh (ahandles (s_gens s0)) -> get_generator s0 gh <> None) by (intros gh; apply ahandles_in).
      split.
      + unfold integrate_one. destruct (get_entity s1 h) as [copy|] eqn:E; [|easy]. cbn [unwrap rbind].
        apply fine_rbind.
        * destruct (n_isfin _ && n_lt _ _); [|exact I]. apply (sum_forces_fine P s0); [assumption|assumption|congruence|assumption].
        * intros ((s2 & a) & t) E2. apply fine_rbind; [|intros; exact I]. apply fine_unwrap.
          assert (E3 : s_ents s2 = s_ents s1).
          { destruct (n_isfin _ && n_lt _ _); [apply (sum_forces_frame _ _ _ _ _ _ E2)|congruence]. }
          rewrite E3. intros E4. apply get_entity_none in E4. congruence.
      + intros (s2 & infos2) E. split.
        * eapply same_but_vels_trans; [exact HS|]. apply (integrate_one_frame _ _ _ _ _ E).
        * unfold integrate_one in E. inv_ok E. inv_ok E. destruct x0 as ((s3 & a) & t).
          assert (R3 : arel Rgen (s_gens s0) (s_gens s3)).
          { destruct (n_isfin _ && n_lt _ _).
            - destruct (sum_forces_spec s1 dt h x s1 _ _ ltac:(apply arel_refl; intros; apply Rgen_refl) eq_refl E1) as (_ & _ & _ & _ & R).
              eapply arel_trans; [apply Rgen_trans|exact HR|exact R].
            - injection E1 as <- _ _. exact HR. }
          inv_ok E. injection E as <- _. exact R3.
    - split; [apply same_but_vels_refl|apply arel_refl; intros; apply Rgen_refl].
  Qed.

  (** *** The collision loop *)
  Section Loop.
    Context (cols : arena (collider T)) (ents0 : arena (ientity T)) (P : Prop).
    Context (Hcols : forall h e c, aget ents0 h = Some e -> In c (e_colliders e) -> aget cols c <> None).
    Context (Hcol : forall h1 h2 e1 e2 k1 k2 c1 c2 o1 o2 l1 a1 l2 a2, h1 <> h2 ->
      aget ents0 h1 = Some e1 -> aget ents0 h2 = Some e2 -> In k1 (e_colliders e1) -> In k2 (e_colliders e2) ->
      aget cols k1 = Some c1 -> aget cols k2 = Some c2 ->
      fine P (collide c1 o1 (after_affected o1 l1 a1) c2 o2 (after_affected o2 l2 a2))).

    Definition info_live ents (i : info T) : Prop :=
      aget ents (i_h i) <> None /\ forall n, In n (i_nbrs i) -> aget ents n <> None.
    Record live (st : lstate T) : Prop := {
      lv_rel : arel (Rstep (T:=T)) ents0 (l_ents st);
      lv_nbrs : nbrs_alive (l_ents st);
      lv_hs : map i_h (l_infos st) = ahandles ents0;
      lv_infos : Forall (info_live (l_ents st)) (l_infos st) }.

    Lemma info_live_rel R ents ents' i : arel R ents ents' -> info_live ents i -> info_live ents' i.
    Proof.
      intros HR (H1 & H2). split; [rewrite (arel_none _ _ _ _ HR); exact H1|].
      intros n Hn. rewrite (arel_none _ _ _ _ HR). apply H2, Hn.
    Qed.

    Lemma find_earliest_fine ord st : good_order ord -> live st -> fine P (find_earliest ord cols (l_ents st) (l_infos st)).
    Proof.
      intros Ho [HR _ Hhs Hin]. unfold find_earliest.
      match goal with |- fine _ (rfold ?f ?l ?z) => destruct (fine_rfold P (fun _ => True) f l) with (x := z) as (F & _) end; [|exact I|exact F].
      intros best ((n1' & i1) & (n2' & i2)) Hp _. split; [|auto].
      apply all_pairs_in in Hp. destruct Hp as (a & b & Hab & Ha & Hb).
      rewrite nth_error_numbered in Ha, Hb.
      destruct (nth_error (l_infos st) a) as [j1|] eqn:E1; [|discriminate]. injection Ha as _ ->.
      destruct (nth_error (l_infos st) b) as [j2|] eqn:E2; [|discriminate]. injection Hb as _ ->.
      assert (Hne : i_h i1 <> i_h i2).
      { intros E. assert (ND : NoDup (map i_h (l_infos st))) by (rewrite Hhs; apply ahandles_nodup).
        rewrite NoDup_nth_error in ND. specialize (ND a b). rewrite !nth_error_map, E1, E2 in ND. simpl in ND.
        enough (a = b) by lia. apply ND; [rewrite map_length; eapply nth_error_lt; exact E1|congruence]. }
      rewrite Forall_forall in Hin.
      destruct (Hin i1 (nth_error_In _ _ E1)) as (A1 & _). destruct (Hin i2 (nth_error_In _ _ E2)) as (A2 & _).
      unfold check_entities. cbn [snd].
      destruct (aget (l_ents st) (i_h i1)) as [e1|] eqn:G1; [|easy].
      destruct (aget (l_ents st) (i_h i2)) as [e2|] eqn:G2; [|easy]. cbn [unwrap rbind].
      destruct (hmem _ _); [exact I|]. destruct (hmem _ _); [exact I|].
      destruct (arel_get_r _ _ _ _ _ HR G1) as (f1 & F1 & (C1 & _)).
      destruct (arel_get_r _ _ _ _ _ HR G2) as (f2 & F2 & (C2 & _)).
      match goal with |- fine _ (rfold ?f ?l ?z) => destruct (fine_rfold P (fun _ => True) f l) with (x := z) as (F & _) end; [|exact I|exact F].
      intros best' (k1 & k2) Hk _. split; [|auto]. apply in_prod_iff in Hk. destruct Hk as (K1 & K2).
      apply (Permutation_in _ (Ho _ _ _)) in K1. apply (Permutation_in _ (Ho _ _ _)) in K2. rewrite C1 in K1. rewrite C2 in K2.
      unfold check_colliders. cbn [fst snd].
      destruct (aget cols k1) as [c1|] eqn:X1; [|elim (Hcols _ _ _ F1 K1 X1)].
      destruct (aget cols k2) as [c2|] eqn:X2; [|elim (Hcols _ _ _ F2 K2 X2)]. cbn [unwrap rbind].
      apply fine_rbind; [eapply Hcol; [exact Hne|exact F1|exact F2|exact K1|exact K2|exact X1|exact X2]|].
      intros [c|] _; [|exact I]. destruct (n_lt _ _); [exact I|]. destruct (n_lt _ _); exact I.
    Qed.

    Lemma advance_total p a ents infos : Forall (fun i => aget ents (i_h i) <> None) infos ->
      exists r, advance (T:=T) p a ents infos = Ok r.
    Proof.
      intros H. unfold advance. rewrite Forall_forall in H.
      destruct (rfold_total (advance_one p a) (fun st => forall h, aget (fst st) h = None <-> aget ents h = None) infos) with (s := (ents, @nil (info T))) as (r & E & _);
        [|reflexivity|eauto].
      intros (en & is) i Hi Hs. cbn [fst] in Hs. unfold advance_one.
      destruct (aget en (i_h i)) as [e|] eqn:E; [|apply Hs in E; elim (H i Hi E)]. cbn [unwrap rbind].
      eexists. split; [reflexivity|]. intros h. cbn [fst]. destruct (e_asleep e); [apply Hs|]. rewrite aget_aset_none. apply Hs.
    Qed.

    Lemma upd_info_total (l : list (info T)) i f : i < length l -> exists l', upd_info l i f = Ok l' /\ length l' = length l.
    Proof.
      intros H. unfold upd_info. destruct (nth_error l i) eqn:E; [|apply nth_error_None in E; lia]. simpl.
      eexists. split; [reflexivity|apply length_list_set].
    Qed.

    Lemma upd_info_live ents (l l' : list (info T)) i f : upd_info l i f = Ok l' -> Forall (info_live ents) l ->
      (forall x, info_live ents x -> info_live ents (f x)) -> Forall (info_live ents) l'.
    Proof.
      intros H Hl Hf. apply upd_info_ok in H. destruct H as (x & Hx & ->). rewrite Forall_forall in Hl |- *.
      intros y Hy. apply in_list_set in Hy. destruct Hy as [->|Hy]; [apply Hf, Hl; eapply nth_error_In; exact Hx|apply Hl, Hy].
    Qed.

    Lemma respond_live dt ta f st : live st ->
      aget (l_ents st) (fd_h1 f) <> None -> aget (l_ents st) (fd_h2 f) <> None ->
      fd_i1 f < length (l_infos st) -> fd_i2 f < length (l_infos st) ->
      exists st', respond (T:=T) dt ta f st = Ok st' /\ live st'.
    Proof.
      intros [HR Hn Hhs Hin] A1 A2 B1 B2.
      assert (X : exists st', respond (T:=T) dt ta f st = Ok st').
      { unfold respond. apply rbind_total; [apply unwrap_total, A1|]. intros e1 _.
        apply rbind_total; [apply unwrap_total, A2|]. intros e2 _.
        destruct (respond_pair e1 e2 f) as (((e1' & e2') & im) & ct).
        destruct (upd_info_total (l_infos st) (fd_i1 f) (fun i => replan i e1' ta)) as (l1 & E1 & L1); [assumption|]. rewrite E1. cbn [rbind].
        destruct (upd_info_total l1 (fd_i2 f) (fun i => replan i e2' ta)) as (l2 & E2 & L2); [lia|]. rewrite E2. cbn [rbind].
        apply rbind_total; [|eauto]. destruct ct; [|eauto].
        destruct (upd_info_total l2 (fd_i1 f) (add_nbr (fd_h2 f))) as (l3 & E3 & L3); [lia|]. rewrite E3. cbn [rbind].
        destruct (upd_info_total l3 (fd_i2 f) (add_nbr (fd_h1 f))) as (l4 & E4 & _); [lia|]. eauto. }
      destruct X as (st' & E). exists st'. split; [exact E|].
      destruct (respond_frame _ _ _ _ _ E) as (RV & Hh & _).
      split.
      - eapply arel_trans; [apply Rstep_trans|exact HR|]. eapply arel_impl; [|exact RV]. apply Rvel_Rstep.
      - eapply nbrs_vel; eassumption.
      - congruence.
      - assert (L : Forall (info_live (l_ents st)) (l_infos st')).
        { unfold respond in E. inv_ok E. inv_ok E. destruct (respond_pair x x0 f) as (((e1' & e2') & im) & ct).
          inv_ok E. inv_ok E. inv_ok E. injection E as <-. cbn [l_infos].
          assert (L2 : Forall (info_live (l_ents st)) x2).
          { eapply upd_info_live; [exact E3| |intros y Hy; exact Hy]. eapply upd_info_live; [exact E2|exact Hin|intros y Hy; exact Hy]. }
          destruct ct; [|injection E4 as <-; exact L2]. apply rbind_ok in E4. destruct E4 as (l3 & E5 & E6).
          assert (AN : forall h y, aget (l_ents st) h <> None -> info_live (l_ents st) y -> info_live (l_ents st) (add_nbr h y)).
          { intros h y Hh' (Y1 & Y2). split; [exact Y1|]. intros n Hn'. cbn [add_nbr i_nbrs] in Hn'. apply hinsert_in in Hn'.
            destruct Hn' as [->|Hn']; [exact Hh'|apply Y2, Hn']. }
          eapply upd_info_live; [exact E6| |intros y Hy; apply AN; assumption].
          eapply upd_info_live; [exact E5|exact L2|intros y Hy; apply AN; assumption]. }
        eapply Forall_impl; [|exact L]. intros i. apply (info_live_rel _ _ _ _ RV).
    Qed.

    Context {O : Ord N}.
    Lemma iterate_fine ord dt st : good_order ord -> live st ->
      fine P (iterate ord cols dt st) /\ forall r, iterate ord cols dt st = Ok r -> live (fst r).
    Proof.
      intros Ho Hl. pose proof (find_earliest_fine ord st Ho Hl) as F. unfold iterate.
      destruct (find_earliest ord cols (l_ents st) (l_infos st)) as [(p & o)| |] eqn:E; simpl in F;
        [cbn [rbind]|split; [exact F|discriminate]|contradiction].
      destruct (find_earliest_spec ord cols (l_ents st) (l_infos st) _ Ho E) as (B & _).
      destruct Hl as [HR Hn Hhs Hin].
      (* waking *)
      assert (W : exists r, (match o with
             | None => Ok (l_ents st, l_debug st)
             | Some f => rbind (wake_finite ord (fd_h1 f) (l_ents st, l_debug st)) (fun r => wake_finite ord (fd_h2 f) r)
             end) = Ok r /\ arel (Rsleep (T:=T)) (l_ents st) (fst r) /\ nbrs_alive (fst r)).
      { destruct o as [f|]; [|exists (l_ents st, l_debug st); split; [reflexivity|]; split; [apply arel_refl; apply Rsleep_refl|exact Hn]].
        simpl in B. destruct B as (_ & _ & (i1 & i2 & k1 & k2 & c1 & c2 & _ & N1 & N2 & H1 & H2 & _)).
        rewrite Forall_forall in Hin.
        destruct (Hin i1 (nth_error_In _ _ N1)) as (A1 & _). destruct (Hin i2 (nth_error_In _ _ N2)) as (A2 & _).
        destruct (wake_finite_live ord (fd_h1 f) (l_ents st, l_debug st)) as (r1 & E1 & L1); [assumption|assumption|rewrite H1; exact A1|].
        pose proof (wake_finite_frame _ _ _ _ E1) as R1. cbn [fst] in R1.
        destruct (wake_finite_live ord (fd_h2 f) r1) as (r2 & E2 & L2); [assumption|assumption|rewrite H2, (arel_none _ _ _ _ R1); exact A2|].
        exists r2. rewrite E1. cbn [rbind]. split; [exact E2|]. split; [|exact L2].
        eapply arel_trans; [apply Rsleep_trans|exact R1|]. apply (wake_finite_frame _ _ _ _ E2). }
      destruct W as ((ents & dbg) & EW & RW & LW). rewrite EW. cbn [rbind fst] in *.
      assert (Hin1 : Forall (info_live ents) (l_infos st)) by (eapply Forall_impl; [|exact Hin]; intros i; apply (info_live_rel _ _ _ _ RW)).
      destruct (advance_total p (n_sub n1 p) ents (l_infos st)) as ((ents2 & infos2) & EA).
      { eapply Forall_impl; [|exact Hin1]. intros i (A & _). exact A. }
      rewrite EA. cbn [rbind].
      destruct (advance_frame _ _ _ _ _ EA) as (RA & HA & NA). cbn [fst snd] in RA, HA, NA.
      set (st1 := mkL ents2 infos2 (n_mul (l_left st) (n_sub n1 p)) (n_add (l_ctp st) (n_mul (n_sub n1 (l_ctp st)) p)) (l_records st) dbg).
      assert (L1 : live st1).
      { split; cbn [st1 l_ents l_infos].
        - eapply arel_trans; [apply Rstep_trans|exact HR|]. eapply arel_trans; [apply Rstep_trans| |exact RA].
          eapply arel_impl; [|exact RW]. apply Rsleep_Rstep.
        - eapply nbrs_rel; [exact (advance_awake _ _ _ _ _ EA)| |exact LW]. cbn. intros h e e' (_ & _ & _ & _ & -> & _). apply incl_refl.
        - congruence.
        - rewrite Forall_forall in Hin1 |- *. intros i Hi.
          apply In_nth_error in Hi. destruct Hi as (j & Hj).
          assert (J1 : nth_error (map i_h infos2) j = Some (i_h i)) by (rewrite nth_error_map, Hj; reflexivity).
          assert (J2 : nth_error (map i_nbrs infos2) j = Some (i_nbrs i)) by (rewrite nth_error_map, Hj; reflexivity).
          rewrite HA, nth_error_map in J1. rewrite NA, nth_error_map in J2.
          destruct (nth_error (l_infos st) j) as [i0|] eqn:J0; [|discriminate]. injection J1 as J1. injection J2 as J2.
          destruct (Hin1 i0 (nth_error_In _ _ J0)) as (A & Bn). apply (info_live_rel _ _ _ _ RA). split; [congruence|]. rewrite <- J2. exact Bn. }
      destruct o as [f|]; [|split; [exact I|intros r Er; injection Er as <-; exact L1]].
      simpl in B. destruct B as (_ & _ & (i1 & i2 & k1 & k2 & c1 & c2 & _ & N1 & N2 & H1 & H2 & _)).
      assert (Len : length infos2 = length (l_infos st)) by (rewrite <- (map_length i_h infos2), HA; apply map_length).
      rewrite Forall_forall in Hin1.
      destruct (respond_live dt (n_mul (l_left st) (n_sub n1 p)) f st1 L1) as (st2 & E2 & L2).
      - cbn [st1 l_ents]. rewrite (arel_none _ _ _ _ RA), H1. exact (proj1 (Hin1 i1 (nth_error_In _ _ N1))).
      - cbn [st1 l_ents]. rewrite (arel_none _ _ _ _ RA), H2. exact (proj1 (Hin1 i2 (nth_error_In _ _ N2))).
      - cbn [st1 l_infos]. rewrite Len. eapply nth_error_lt. exact N1.
      - cbn [st1 l_infos]. rewrite Len. eapply nth_error_lt. exact N2.
      - rewrite E2. cbn [rbind]. split; [exact I|]. intros r Er. injection Er as <-. exact L2.
    Qed.
    Lemma iterations_fine ord dt n : good_order ord -> forall st, live st ->
      fine P (iterations ord cols dt n st) /\ forall st', iterations ord cols dt n st = Ok st' -> live st'.
    Proof.
      intros Ho. induction n as [|n IH]; intros st Hl; cbn [iterations].
      - split; [exact I|]. intros st' E. injection E as <-. destruct Hl as [A B C D]. split; assumption.
      - destruct (iterate_fine ord dt st Ho Hl) as (F & K).
        destruct (iterate ord cols dt st) as [(st1 & b)| |]; simpl in F; [|split; [exact F|discriminate]|contradiction].
        cbn [rbind fst snd]. specialize (K _ eq_refl). cbn [fst] in K. destruct b; [|apply IH, K].
        split; [exact I|]. intros st' E. injection E as <-. exact K.
    Qed.
  End Loop.

  (** *** Falling asleep *)
  Lemma sleep_one_live dt et tt st i : nbrs_alive (fst st) -> info_live (fst st) i ->
    exists st', sleep_one (T:=T) dt et tt st i = Ok st' /\ nbrs_alive (fst st').
  Proof.
    destruct st as (ents & dbg). cbn [fst]. intros Ha (Hi & Hn). unfold sleep_one.
    destruct (aget ents (i_h i)) as [e|] eqn:E; [|easy]. cbn [unwrap rbind].
    destruct (sleep_decision dt et tt (i_nbrs i) e) as (e' & b) eqn:D.
    assert (Ne : forall n, In n (e_neighbors e') -> In n (e_neighbors e) \/ In n (i_nbrs i)).
    { unfold sleep_decision in D. destruct (e_asleep e); [injection D as <- _; auto|].
      destruct (n_lt et _); [injection D as <- _; auto|].
      match type of D with (if ?c then _ else _) = _ => destruct c end; injection D as <- _; auto. }
    assert (L1 : nbrs_alive (aset ents (i_h i) e')).
    { intros h x n Hx Hnx. rewrite aget_aset_none. rewrite aget_aset in Hx. destruct (heqb_spec (i_h i) h) as [<-|Hne].
      - rewrite E in Hx. injection Hx as <-. destruct (Ne n Hnx) as [A|A]; [eapply Ha; eassumption|apply Hn, A].
      - eapply Ha; eassumption. }
    destruct b; [|eexists; split; [reflexivity|exact L1]].
    match goal with |- exists st', rbind (rfold ?f ?l ?z) _ = _ /\ _ =>
      destruct (rfold_total f (fun a => nbrs_alive a /\ forall h, aget a h = None <-> aget ents h = None) l) with (s := z) as (r & Er & Lr & _) end.
    - intros a n Hin (La & Sa). destruct (aget a n) as [x|] eqn:Ex; [|apply Sa in Ex; elim (Hn n Hin Ex)]. cbn [unwrap rbind].
      eexists. split; [reflexivity|]. split.
      + intros h y m Hy Hm. rewrite aget_aset_none. rewrite aget_aset in Hy. destruct (heqb_spec n h) as [<-|Hne].
        * rewrite Ex in Hy. injection Hy as <-. cbn [e_neighbors e_set_sleep] in Hm. apply hinsert_in in Hm. destruct Hm as [->|Hm].
          -- rewrite Sa. congruence.
          -- eapply La; eassumption.
        * eapply La; eassumption.
      + intros h. rewrite aget_aset_none. apply Sa.
    - split; [exact L1|]. intros h. apply aget_aset_none.
    - rewrite Er. cbn [rbind]. eexists. split; [reflexivity|exact Lr].
  Qed.
  Lemma sleep_phase_live dt et tt l : forall st, nbrs_alive (fst st) -> Forall (info_live (fst st)) l ->
    exists st', rfold (sleep_one (T:=T) dt et tt) l st = Ok st' /\ nbrs_alive (fst st').
  Proof.
    intros st Ha Hl. rewrite Forall_forall in Hl.
    destruct (rfold_total (sleep_one dt et tt) (fun x => nbrs_alive (fst x) /\ arel (Rstep (T:=T)) (fst st) (fst x)) l) with (s := st) as (r & E & L & _).
    - intros x i Hi (Lx & Rx). destruct (sleep_one_live dt et tt x i Lx) as (x' & E' & L'); [apply (info_live_rel _ _ _ _ Rx), Hl, Hi|].
      exists x'. split; [exact E'|]. split; [exact L'|]. eapply arel_trans; [apply Rstep_trans|exact Rx|]. eapply sleep_one_frame. exact E'.
    - split; [exact Ha|]. apply arel_refl. apply Rstep_refl.
    - eauto.
  Qed.

  Context {O : Ord N} {O2 : Ord2 O}.
  Lemma contacts_nbrs s : contacts_alive (T:=T) s <-> nbrs_alive (s_ents s).
  Proof.
    split.
    - intros H h e n He Hn. specialize (H h n (ex_intro _ e (conj He Hn))). simpl in H. rewrite get_entity_none in H. exact H.
    - intros H h k (e & He & Hk). simpl. rewrite get_entity_none. eapply H; eassumption.
  Qed.

  (** The reason why a step may panic: two meshes of different entities, one with a face that
      collapses for an intermediate orientation and the one the planned movement makes of it. *)
  Definition collapse_in (s : system T) : Prop :=
    exists m1 m2 o l a, two_meshes s m1 m2 /\ (collapses m1 o (after_affected o l a) \/ collapses m2 o (after_affected o l a)).

  Lemma step_fine ord s dt : good_order ord -> reachable s -> contacts_alive s -> gens_answer s ->
    fine (collapse_in s) (step ord s dt) /\ forall s', step ord s dt = Ok s' -> contacts_alive s' /\ arel Rgen (s_gens s) (s_gens s').
  Proof.
    intros Ho Hr Hc Hg. pose proof (reachable_Inv _ Hr) as HI. unfold step.
    destruct (n_lt (n_abs dt) EPSILON); [split; [exact I|intros s' E; injection E as <-; split; [exact Hc|apply arel_refl; intros; apply Rgen_refl]]|].
    set (s0 := mkS (s_ents s) (s_cols s) (s_gens s) (s_iteration_max s) [] (s_energy_thr s) (s_time_thr s) []).
    pose proof (integrate_fine (collapse_in s) s0 dt Hg) as F.
    destruct (rfold (integrate_one dt (ahandles (s_gens s0))) (ahandles (s_ents s0)) (s0, [])) as [(s1 & infos)| |] eqn:E;
      simpl in F; [cbn [rbind]|split; [exact F|discriminate]|contradiction].
    destruct (integrate_frame _ _ _ _ _ E) as (SV & Hm & Hnb). cbn [fst snd map app] in SV, Hm, Hnb.
    pose proof (sv_ents _ _ SV) as RV. cbn [s0 s_ents] in RV.
    assert (RVh := proj1 (proj2 RV)).
    rewrite (sv_cols _ _ SV). cbn [s0 s_cols].
    apply contacts_nbrs in Hc.
    assert (L : live (s_ents s1) (mkL (s_ents s1) infos dt n0 (s_records s1) (s_debug s1))).
    { split; cbn [l_ents l_infos].
      - apply arel_refl. apply Rstep_refl.
      - eapply nbrs_vel; [exact RV|exact Hc].
      - rewrite Hm. cbn [s0 s_ents]. symmetry. exact RVh.
      - specialize (Hnb (Forall_nil _)). rewrite Forall_forall in Hnb |- *. intros i Hi. split.
        + apply ahandles_in. rewrite RVh. change (s_ents s) with (s_ents s0). rewrite <- Hm. apply in_map. exact Hi.
        + rewrite (Hnb i Hi). intros n []. }
    destruct (iterations_fine (s_cols s) (s_ents s1) (collapse_in s)) with (ord := ord) (dt := dt) (n := s_iteration_max s1)
      (st := mkL (s_ents s1) infos dt n0 (s_records s1) (s_debug s1)) as (F2 & K2); [| |exact O|exact Ho|exact L|].
    { intros h e c He Hcl. destruct (arel_get_r _ _ _ _ _ RV He) as (e0 & E0 & (v & w & ->)).
      destruct (inv_fwd _ HI _ _ _ E0 Hcl) as (k & -> & _). discriminate. }
    { intros h1 h2 e1 e2 k1 k2 c1 c2 o1 o2 l1 a1 l2 a2 Hne He1 He2 Hk1 Hk2 Hc1 Hc2.
      destruct (collide c1 o1 (after_affected o1 l1 a1) c2 o2 (after_affected o2 l2 a2)) eqn:EC; [exact I| |].
      - simpl. pose proof (stored_colliders_ok s Hr) as SO.
        assert (W : forall k c m, aget (s_cols s) k = Some c -> c = CMesh m -> mesh_wf m).
        { intros k c m Hk ->. apply (SO _ _ Hk). }
        destruct (collide_panics _ _ _ _ _ _ (fun m => W _ _ m Hc1) (fun m => W _ _ m Hc2) EC) as (m1 & m2 & -> & -> & D).
        destruct (arel_get_r _ _ _ _ _ RV He1) as (f1 & F1 & (v1 & w1 & ->)).
        destruct (arel_get_r _ _ _ _ _ RV He2) as (f2 & F2 & (v2 & w2 & ->)).
        assert (TM : two_meshes s m1 m2).
        { exists h1, h2, k1, k2. split; [exact Hne|]. unfold lists_collider, get_entity. rewrite F1, F2.
          split; [exists (make_pub f1); split; [reflexivity|exact Hk1]|]. split; [exists (make_pub f2); split; [reflexivity|exact Hk2]|].
          split; assumption. }
        destruct D as [D|D]; [exists m1, m2, o1, l1, a1|exists m1, m2, o2, l2, a2]; split; auto.
      - elim (nf_collide _ _ _ _ _ _ EC). }
    destruct (iterations ord (s_cols s) dt (s_iteration_max s1) _) as [st| |] eqn:EI; simpl in F2; [cbn [rbind]|split; [exact F2|discriminate]|contradiction].
    specialize (K2 _ eq_refl).
    destruct (sleep_phase_live dt (s_energy_thr s1) (s_time_thr s1) (l_infos st) (l_ents st, l_debug st)) as (r & Er & Lr);
      [apply (lv_nbrs _ _ K2)|apply (lv_infos _ _ K2)|].
    rewrite Er. cbn [rbind]. split; [exact I|]. intros s' Es. injection Es as <-. split; [apply contacts_nbrs; exact Lr|].
    apply (integrate_spec s0 dt _ E).
  Qed.

  (** ** The other calls *)
  Lemma same_dom {A B} (a : arena A) (a' : arena B) k : ahandles a' = ahandles a -> aget a' k = None <-> aget a k = None.
  Proof.
    intros E. pose proof (ahandles_in a' k) as X. pose proof (ahandles_in a k) as Y. rewrite E in X.
    destruct (aget a' k), (aget a k); split; intros Z; try reflexivity; try discriminate Z; exfalso.
    - apply (proj1 Y (proj2 X ltac:(discriminate)) eq_refl).
    - apply (proj1 X (proj2 Y ltac:(discriminate)) eq_refl).
  Qed.
  Lemma option_handle_eq_dec (a b : option handle) : {a = b} + {a <> b}.
  Proof. repeat decide equality. Qed.
  Lemma nbrs_sub ents ents' : (forall h, aget ents' h = None <-> aget ents h = None) ->
    (forall h e', aget ents' h = Some e' -> exists e, aget ents h = Some e /\ incl (e_neighbors e') (e_neighbors e)) ->
    nbrs_alive ents -> nbrs_alive ents'.
  Proof.
    intros Hd Hn Ha h e' n He' Hin. destruct (Hn h e' He') as (e & He & Hi). rewrite Hd. eapply Ha; [exact He|apply Hi, Hin].
  Qed.
  Lemma relinked_nbrs cols e e' set : relinked (T:=T) cols e e' set -> e_neighbors e' = e_neighbors e.
  Proof. intros H. destruct (relinked_frame _ _ _ _ H) as (o & m & i & ->). reflexivity. Qed.
  Lemma gens_same (s s' : system T) : s_gens s' = s_gens s -> gens_answer s -> gens_answer s'.
  Proof. intros E H gh g. unfold get_generator. rewrite E. apply H. Qed.

  Lemma exec_fine ord s o : call_ok (ord, o) -> reachable s -> contacts_alive s -> gens_answer s ->
    fine ((exists h, o = ORemoveCollider h /\ owner s h <> None) \/ (exists dt, o = OStep dt) /\ collapse_in s) (exec ord s o) /\
    (careful_call s o \/ (exists dt, o = OStep dt) -> forall s' a, exec ord s o = Ok (s', a) -> contacts_alive s' /\ gens_answer s').
  Proof.
    intros (Ho & _) Hr Hc Hg. pose proof (reachable_Inv _ Hr) as HI. pose proof (proj1 (contacts_nbrs s) Hc) as Hn.
    destruct o as [src|h|h src|src|h|h src|ch t|g|h|dt|n|x|x]; cbn [exec].
    - (* add_entity *) pose proof (add_entity_effect s src HI) as H. destruct (entity_new_from src) as [e|] eqn:En.
      + destruct H as (s' & h & E & _ & D0 & D1 & D2 & _ & _ & _ & ents & Es). rewrite E. cbn [rbind fst snd]. split; [exact I|].
        intros _ s2 a E2. injection E2 as <- _. split; [|apply (gens_same s); [subst s'; reflexivity|exact Hg]].
        apply contacts_nbrs. intros k e' n He Hin. destruct (handle_eq_dec k h) as [->|Hk].
        * rewrite D1 in He. injection He as <-. unfold entity_new_from in En. destruct (n_lt _ _); [discriminate|]. injection En as <-. destruct Hin.
        * rewrite (D2 _ Hk) in He. destruct (handle_eq_dec n h) as [->|Hnh]; [congruence|]. rewrite (D2 _ Hnh). eapply Hn; eassumption.
      + rewrite H. split; [exact I|]. intros _ s2 a E2. injection E2 as <- _. auto.
    - (* remove_entity *) pose proof (remove_entity_effect ord s h Ho HI) as H. destruct (aget (s_ents s) h) as [e|] eqn:Eh.
      + destruct H as (s' & E & _ & D1 & D2 & _ & _ & _ & _ & ents & cols & Es). rewrite E. cbn [rbind fst snd]. split; [exact I|].
        intros [C|(dt & X)]; [|discriminate]. intros s2 a E2. injection E2 as <- _.
        split; [|apply (gens_same s); [subst s'; reflexivity|exact Hg]].
        apply contacts_nbrs. intros k e' n He Hin. destruct (handle_eq_dec k h) as [->|Hk]; [congruence|]. rewrite (D2 _ Hk) in He.
        destruct (handle_eq_dec n h) as [->|Hnh].
        * elim Hk. apply C. exists e'. auto.
        * rewrite (D2 _ Hnh). eapply Hn; eassumption.
      + rewrite H. split; [exact I|]. intros _ s2 a E2. injection E2 as <- _. auto.
    - (* update_entity *)
      assert (X : exists r, update_entity ord s h src = Ok r /\ contacts_alive (fst r) /\ s_gens (fst r) = s_gens s).
      { unfold update_entity. destruct (aget (s_ents s) h) as [e|] eqn:Eh; [|eauto].
        destruct (update_from e src) as [(e1 & w)|] eqn:Eu; [|eauto].
        destruct (recalc_total (ord KColliders h (e_colliders e1)) (s_cols s) e1) as (e2 & E2).
        { intros c Hcl. apply (Permutation_in _ (Ho _ _ _)) in Hcl. rewrite (update_from_colliders _ _ _ _ Eu) in Hcl.
          destruct (inv_fwd _ HI _ _ _ Eh Hcl) as (k & -> & _). discriminate. }
        rewrite E2. cbn [rbind].
        assert (L : nbrs_alive (aset (s_ents s) h e2)).
        { eapply nbrs_sub; [intros k; apply aget_aset_none| |exact Hn]. intros k e' He. rewrite aget_aset in He.
          destruct (heqb_spec h k) as [<-|Hk]; [|exists e'; split; [exact He|apply incl_refl]].
          rewrite Eh in He. injection He as <-. exists e. split; [exact Eh|].
          destruct (recalc_frame _ _ _ _ E2) as (o & m & i & ->). cbn [e_neighbors e_set_mass].
          unfold update_from in Eu. destruct (n_lt _ _); [discriminate|]. injection Eu as <- _. apply incl_refl. }
        destruct w.
        - destruct (wake_up_returns ord h (aset (s_ents s) h e2) (s_debug s) Ho L) as (r & Ew); [rewrite aget_aset_none; congruence|].
          cbn [s_ents s_debug s_set_ents]. rewrite Ew. cbn [rbind]. eexists. split; [reflexivity|]. split; [|reflexivity].
          apply contacts_nbrs. cbn. eapply wake_up_alive; eassumption.
        - eexists. split; [reflexivity|]. split; [|reflexivity]. apply contacts_nbrs. exact L. }
      destruct X as ((s1 & b) & E & L & G). rewrite E. cbn [rbind fst snd] in *. split; [exact I|]. intros _ s2 a E2. injection E2 as <- _.
      split; [exact L|apply (gens_same s); assumption].
    - (* add_collider *) pose proof (add_collider_effect s src HI) as H. destruct (collider_new_from src) as [c|].
      + destruct H as (s' & h & E & _ & _ & _ & _ & _ & _ & _ & cols & Es). rewrite E. split; [exact I|]. cbn [rbind fst snd].
        intros _ s2 a E2. injection E2 as <- _. subst s'. split; [|exact Hg]. apply contacts_nbrs. exact Hn.
      + rewrite H. split; [exact I|]. intros _ s2 a E2. injection E2 as <- _. auto.
    - (* remove_collider *) pose proof (remove_collider_effect s h HI) as H. destruct (aget (s_cols s) h) as [c|] eqn:Eh.
      + destruct (c_entity c) eqn:Ec.
        * rewrite H. split; [|intros _ s2 a E2; discriminate]. left. exists h. split; [reflexivity|]. unfold owner, get_collider. rewrite Eh, Ec. discriminate.
        * destruct H as (s' & E & _ & _ & _ & _ & cols & Es). rewrite E. split; [exact I|]. cbn [rbind].
          intros _ s2 a E2. injection E2 as <- _. subst s'. split; [|exact Hg]. apply contacts_nbrs. exact Hn.
      + rewrite H. split; [exact I|]. intros _ s2 a E2. injection E2 as <- _. auto.
    - (* update_collider *) pose proof (update_collider_effect ord s h src Ho HI) as H. destruct (aget (s_cols s) h) as [c|] eqn:Eh;
        [|rewrite H; split; [exact I|]; intros _ s2 a E2; injection E2 as <- _; auto].
      assert (X : forall cols s' (b : bool), update_collider ord s h src = Ok (s', b) ->
        (exists ents, s' = s_set_ents (s_set_cols s cols) ents) ->
        ahandles (s_ents s') = ahandles (s_ents s) ->
        (forall k, Some k <> c_entity c -> aget (s_ents s') k = aget (s_ents s) k) ->
        (forall k e, c_entity c = Some k -> aget (s_ents s) k = Some e ->
             exists e', aget (s_ents s') k = Some e' /\ relinked cols e e' (e_colliders e)) -> contacts_alive s' /\ gens_answer s').
      { intros cols s' b _ (ents & Es) Hh D1 D2. split; [|apply (gens_same s); [subst s'; reflexivity|exact Hg]].
        apply contacts_nbrs. eapply nbrs_sub; [|  |exact Hn].
        - intros k. apply same_dom, Hh.
        - intros k e' He'. destruct (option_handle_eq_dec (Some k) (c_entity c)) as [Ek|Ek].
          + destruct (aget (s_ents s) k) as [e|] eqn:E.
            * destruct (D2 k e (eq_sym Ek) E) as (e2 & F & R). exists e. split; [reflexivity|].
              rewrite F in He'. injection He' as <-. rewrite (relinked_nbrs _ _ _ _ R). apply incl_refl.
            * exfalso. apply (same_dom _ _ k Hh) in E. congruence.
          + rewrite (D1 k Ek) in He'. exists e'. split; [exact He'|apply incl_refl]. }
      destruct (collider_update_from c src) as [| |c'] eqn:Eu.
      + rewrite H. split; [exact I|]. intros _ s2 a E2. injection E2 as <- _. auto.
      + destruct H as (s' & E & _ & A1 & _ & _ & A2 & A3 & A4). rewrite E. split; [exact I|]. cbn [rbind fst snd].
        intros _ s2 a E2. injection E2 as <- _. eapply X; eassumption.
      + destruct H as (s' & E & _ & A1 & _ & _ & A2 & A3 & A4). rewrite E. split; [exact I|]. cbn [rbind fst snd].
        intros _ s2 a E2. injection E2 as <- _. eapply X; eassumption.
    - (* link_collider *) pose proof (link_collider_effect ord s ch t Ho HI) as H. destruct (aget (s_cols s) ch) as [c|] eqn:Eh;
        [|rewrite H; split; [exact I|]; intros _ s2 a E2; injection E2 as <- _; auto].
      destruct H as (H1 & H2).
      assert (D : (match t with Some h => aget (s_ents s) h <> None | None => True end) \/ link_collider ord s ch t = Ok (s, false)).
      { destruct t as [h|]; [|auto]. destruct (aget (s_ents s) h) eqn:E; [left; discriminate|right; apply H1; reflexivity]. }
      destruct D as [D|D]; [|rewrite D; split; [exact I|]; intros _ s2 a E2; injection E2 as <- _; auto].
      destruct (H2 D) as (s' & E & _ & (ents & Es) & _ & Hh & D1 & D2 & D3). rewrite E. split; [exact I|]. cbn [rbind fst snd].
      intros _ s2 a E2. injection E2 as <- _. split; [|apply (gens_same s); [subst s'; reflexivity|exact Hg]].
      apply contacts_nbrs.
      assert (Dom : forall k, aget (s_ents s') k = None <-> aget (s_ents s) k = None).
      { intros k. apply same_dom, Hh. }
      eapply nbrs_sub; [exact Dom| |exact Hn].
      intros k e' He'. destruct (aget (s_ents s) k) as [e|] eqn:Ee; [|apply Dom in Ee; congruence].
      exists e. split; [reflexivity|].
      destruct (option_handle_eq_dec t (Some k)) as [Et|Et].
      + destruct (D2 k e Et Ee) as (e2 & F & R). rewrite F in He'. injection He' as <-. rewrite (relinked_nbrs _ _ _ _ R). apply incl_refl.
      + destruct (option_handle_eq_dec (c_entity c) (Some k)) as [Ek|Ek].
        * destruct (D3 k e Ek Et Ee) as (e2 & F & R). rewrite F in He'. injection He' as <-. rewrite (relinked_nbrs _ _ _ _ R). apply incl_refl.
        * rewrite (D1 k) in He' by congruence. rewrite Ee in He'. injection He' as <-. apply incl_refl.
    - (* add_generator *) destruct (add_generator_effect s g HI) as (s' & h & E & _ & D0 & D1 & D2 & _ & _ & _ & gens & Es). rewrite E.
      split; [exact I|]. cbn [rbind fst snd]. intros [C|(dt & X)]; [|discriminate]. intros s2 a E2. injection E2 as <- _.
      split; [subst s'; apply contacts_nbrs; exact Hn|]. intros gh g' Hgh. unfold get_generator in Hgh.
      destruct (handle_eq_dec gh h) as [->|Hne]; [rewrite D1 in Hgh; injection Hgh as <-; exact C|].
      rewrite (D2 _ Hne) in Hgh. eapply Hg. exact Hgh.
    - (* remove_generator *) destruct (remove_generator s h) as (s1 & og) eqn:E.
      destruct (remove_generator_effect _ _ _ _ HI E) as (_ & _ & D0 & D1 & _ & (gens & Es) & _).
      split; [exact I|]. cbn [fst snd]. intros _ s2 a E2. injection E2 as <- _.
      split; [subst s1; apply contacts_nbrs; exact Hn|]. intros gh g' Hgh. unfold get_generator in Hgh.
      destruct (handle_eq_dec gh h) as [->|Hne]; [congruence|]. rewrite (D1 _ Hne) in Hgh. eapply Hg. exact Hgh.
    - (* step *) destruct (step_fine ord s dt Ho Hr Hc Hg) as (F & K). destruct (step ord s dt) as [s1| |].
      + split; [exact I|]. cbn [rbind]. intros _ s2 a E2. injection E2 as <- _. destruct (K _ eq_refl) as (C & R). split; [exact C|].
        intros gh g' Hgh g2 d w k Hb. destruct (arel_get_r _ _ _ _ _ R Hgh) as (g0 & G0 & B).
        apply (Hg gh g0 G0). eapply becomes_trans; eassumption.
      + split; [|discriminate]. right. split; [eauto|exact F].
      + destruct F.
    - split; [exact I|]. intros _ s2 a E2. injection E2 as <- _. split; [apply contacts_nbrs; exact Hn|exact Hg].
    - split; [exact I|]. intros _ s2 a E2. injection E2 as <- _. split; [apply contacts_nbrs; exact Hn|exact Hg].
    - split; [exact I|]. intros _ s2 a E2. injection E2 as <- _. split; [apply contacts_nbrs; exact Hn|exact Hg].
  Qed.

  Lemma careful_returns ord s o : call_ok (ord, o) -> reachable s -> contacts_alive s -> gens_answer s -> careful_call s o ->
    exists s' a, exec ord s o = Ok (s', a) /\ contacts_alive s' /\ gens_answer s'.
  Proof.
    intros Hk Hr Hc Hg C. destruct (exec_fine ord s o Hk Hr Hc Hg) as (F & K).
    destruct (exec ord s o) as [(s' & a)| |]; [|exfalso|destruct F].
    - exists s', a. split; [reflexivity|]. eapply K; [left; exact C|reflexivity].
    - destruct F as [(h & -> & Hh)|((dt & ->) & (m1 & m2 & o1 & l & a & TM & _))]; [exact (Hh C)|exact (C _ _ TM)].
  Qed.
  Lemma careful_run hist : forall s, Forall call_ok hist -> reachable s -> contacts_alive s -> gens_answer s -> careful hist s ->
    exists s' ans, run hist s = Ok (s', ans) /\ contacts_alive s' /\ gens_answer s'.
  Proof.
    induction hist as [|(ord & o) hist IH]; intros s Hk Hr Hc Hg Hs; [exists s, []; auto|].
    apply Forall_cons_iff in Hk. destruct Hk as (K & Ks). destruct Hs as (C & Cs).
    destruct (careful_returns ord s o K Hr Hc Hg C) as (s1 & a & E & C1 & G1).
    destruct (IH s1 Ks) as (s' & ans & E' & R); [eapply follows_trans; [exact Hr|eapply follows_exec; eassumption]|assumption|assumption|eauto|].
    exists s', (a :: ans). cbn [run]. rewrite E, E'. auto.
  Qed.
  Lemma new_contacts : contacts_alive (T:=T) system_new.
  Proof. intros h k (e & He & _). unfold system_new in He. simpl in He. rewrite aget_anew in He. discriminate. Qed.
  Lemma new_gens : gens_answer (T:=T) system_new.
  Proof. intros gh g H. unfold get_generator, system_new in H. simpl in H. rewrite aget_anew in H. discriminate. Qed.
  Lemma careful_history hist : Forall call_ok hist -> careful (T:=T) hist system_new ->
    exists s ans, run hist system_new = Ok (s, ans).
  Proof.
    intros Hk C. destruct (careful_run hist system_new Hk) as (s & ans & E & _); [exists [], []; auto|apply new_contacts|apply new_gens|exact C|eauto].
  Qed.
  Lemma gravity_answers (a : Vec3 T) : gen_answers (GenGravity a).
  Proof.
    intros g dt w h Hb Hw. rewrite (becomes_gravity _ _ Hb). simpl. destruct (w_entity w h) as [e|]; [|easy]. simpl. eauto.
  Qed.
  Lemma remove_linked_panics s h : reachable s -> owner (T:=T) s h <> None -> remove_collider s h = Panic.
  Proof.
    intros Hr Hw. pose proof (remove_collider_effect s h (reachable_Inv _ Hr)) as H. unfold owner, get_collider in Hw.
    destruct (aget (s_cols s) h) as [c|]; [|easy]. destruct (c_entity c); [exact H|easy].
  Qed.
  (** One call from a good state. *)
  Lemma call_panics ord s o : call_ok (ord, o) -> reachable s -> contacts_alive s -> gens_answer s ->
    exec ord s o = Panic ->
    (exists h, o = ORemoveCollider h /\ owner s h <> None) \/
    (exists dt, o = OStep dt) /\ exists m1 m2 start lin ang, two_meshes s m1 m2 /\
      (collapses m1 start (after_affected start lin ang) \/ collapses m2 start (after_affected start lin ang)).
  Proof.
    intros Hk Hr Hc Hg E. destruct (exec_fine ord s o Hk Hr Hc Hg) as (F & _). rewrite E in F. exact F.
  Qed.
End Live.

(** ** Deciding [careful] for concrete histories without meshes or custom generators *)
Section Check.
  Context {T : Type} {N : Num T}.
  Definition careful_callb (s : system T) (o : op T) : bool :=
    match o with
    | ORemoveCollider h => match owner s h with None => true | Some _ => false end
    | ORemoveEntity h => forallb (fun k => match aget (s_ents s) k with
                                           | Some e => heqb k h || negb (hmem h (e_neighbors e)) | None => true end) (ahandles (s_ents s))
    | OAddGenerator g => match g with GenGravity _ => true | _ => false end
    | OStep _ => forallb (fun k => match get_collider s k with Some (CMesh _) => false | _ => true end) (ahandles (s_cols s))
    | _ => true
    end.
  Fixpoint carefulb (hist : list (call T)) (s : system T) : bool :=
    match hist with
    | [] => true
    | (ord, o) :: rest => careful_callb s o && match exec ord s o with Ok (s', _) => carefulb rest s' | _ => true end
    end.
  Lemma careful_callb_ok s o : careful_callb s o = true -> careful_call s o.
  Proof.
    destruct o; simpl; auto.
    - rewrite forallb_forall. intros H k (e & He & Hk).
      assert (Hin : In k (ahandles (s_ents s))) by (apply ahandles_in; congruence).
      specialize (H k Hin). rewrite He in H. apply orb_true_iff in H. destruct H as [H|H].
      + destruct (heqb_spec k h); [assumption|discriminate].
      + apply negb_true_iff in H. assert (hmem h (e_neighbors e) = true); [|congruence]. apply hmem_spec. exact Hk.
    - destruct (owner s h); [discriminate|reflexivity].
    - destruct g; [intros _; apply gravity_answers|discriminate].
    - rewrite forallb_forall. intros H m1 m2 (h1 & h2 & k1 & k2 & _ & _ & _ & E & _).
      assert (Hin : In k1 (ahandles (s_cols s))) by (apply ahandles_in; unfold get_collider in E; congruence).
      specialize (H k1 Hin). rewrite E in H. discriminate.
  Qed.
  Lemma carefulb_ok hist : forall s, carefulb hist s = true -> careful hist s.
  Proof.
    induction hist as [|(ord & o) hist IH]; intros s H; cbn [carefulb careful] in *; [exact I|].
    apply andb_true_iff in H. destruct H as (H1 & H2). split; [apply careful_callb_ok, H1|].
    intros s' a E. rewrite E in H2. apply IH, H2.
  Qed.
End Check.
