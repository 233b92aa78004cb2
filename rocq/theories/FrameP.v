(** * FrameP: which parts of the entity storage each function touches (any [Num]) *)
From Coq Require Import List Permutation Bool Arith Lia.
Import ListNotations.
From Verif Require Import Num Vec Res Arena Orient Colliders Collide EntityM SystemM ResP ArenaP.

(** Two arenas with the same live handles, related pointwise. *)
Section ARel.
  Context {A : Type}.
  Implicit Types R : handle -> A -> A -> Prop.
  Definition arel (R : handle -> A -> A -> Prop) (a a' : arena A) : Prop :=
    aevo a a' /\ ahandles a' = ahandles a /\ a_gen a' = a_gen a /\
    forall h, match aget a h, aget a' h with
              | Some e, Some e' => R h e e' | None, None => True | _, _ => False end.

  Lemma arel_refl R a : (forall h e, R h e e) -> arel R a a.
  Proof. intros H. split; [apply aevo_refl|]. split; auto. split; auto. intros h. destruct (aget a h); auto. Qed.
  Lemma arel_trans R a b c : (forall h x y z, R h x y -> R h y z -> R h x z) -> arel R a b -> arel R b c -> arel R a c.
  Proof.
    intros HR (E1 & H1 & G1 & P1) (E2 & H2 & G2 & P2).
    split; [eapply aevo_trans; eauto|]. split; [congruence|]. split; [congruence|].
    intros h. specialize (P1 h). specialize (P2 h).
    destruct (aget a h), (aget b h), (aget c h); try tauto. eauto.
  Qed.
  Lemma arel_aset R a h e x : (forall h e, R h e e) -> aget a h = Some e -> R h e x -> arel R a (aset a h x).
  Proof.
    intros Hr Hg HR. split; [apply aevo_aset|]. split; [apply ahandles_aset|]. split; [apply a_gen_aset|].
    intros k. rewrite aget_aset. destruct (heqb_spec h k) as [<-|Hne].
    - rewrite Hg. exact HR.
    - destruct (aget a k); auto.
  Qed.
  Lemma arel_impl (R R' : handle -> A -> A -> Prop) a b : (forall h x y, R h x y -> R' h x y) -> arel R a b -> arel R' a b.
  Proof.
    intros HR (E & H & G & P). split; auto. split; auto. split; auto. intros h. specialize (P h).
    destruct (aget a h), (aget b h); auto.
  Qed.
  Lemma arel_get R a b h e : arel R a b -> aget a h = Some e -> exists e', aget b h = Some e' /\ R h e e'.
  Proof. intros (_ & _ & _ & P) H. specialize (P h). rewrite H in P. destruct (aget b h); [eauto|tauto]. Qed.
  Lemma arel_get_r R a b h e' : arel R a b -> aget b h = Some e' -> exists e, aget a h = Some e /\ R h e e'.
  Proof. intros (_ & _ & _ & P) H. specialize (P h). rewrite H in P. destruct (aget a h); [eauto|tauto]. Qed.
  Lemma arel_none R a b h : arel R a b -> aget b h = None <-> aget a h = None.
  Proof. intros (_ & _ & _ & P). specialize (P h). destruct (aget a h), (aget b h); split; tauto || congruence. Qed.
End ARel.

Section Frame.
  Context {T : Type} {N : Num T}.

  (** ** Mass recalculation touches the orientation, total mass and inertia only *)
  Lemma recalc_frame hs cols (e e' : ientity T) : recalculate_mass hs cols e = Ok e' ->
    exists o m i, e' = e_set_mass e o m i.
  Proof.
    unfold recalculate_mass. intros H. inv_ok H.
    destruct x as [[fi tm] cs].
    destruct ((_ <? tm)%num && negb fi).
    - destruct fi; [inv_ok H; subst; eauto|]. inv_ok H. inv_ok H. subst; eauto.
    - destruct fi; [inv_ok H; subst; eauto|]. inv_ok H. inv_ok H. subst; eauto.
  Qed.

  (** ** Waking touches the sleeping flag and the neighbour set only *)
  Definition Rsleep (h : handle) (e e' : ientity T) : Prop := exists a ns, e' = e_set_sleep e a ns.
  Lemma Rsleep_refl h e : Rsleep h e e.
  Proof. exists (e_asleep e), (e_neighbors e). now destruct e. Qed.
  Lemma Rsleep_trans h x y z : Rsleep h x y -> Rsleep h y z -> Rsleep h x z.
  Proof. intros (a & ns & ->) (b & ms & ->). exists b, ms. reflexivity. Qed.
  Hint Resolve Rsleep_refl : core.

  Lemma wake_neighbor_frame t done st n st' : wake_neighbor (T:=T) t done st n = Ok st' ->
    arel Rsleep (fst (fst st)) (fst (fst st')).
  Proof.
    destruct st as [[ents dbg] q]. unfold wake_neighbor. intros H.
    destruct (hmem n done).
    - inv_ok H. subst. apply arel_refl; auto.
    - inv_ok H. destruct (n_isinf _); inv_ok H; subst; simpl.
      + eapply arel_aset; eauto. eexists _, _. reflexivity.
      + apply arel_refl; auto.
  Qed.
  Lemma wake_loop_frame ord fuel done q ents dbg r : wake_loop (T:=T) ord fuel done q ents dbg = Ok r ->
    arel Rsleep ents (fst r).
  Proof.
    revert done q ents dbg; induction fuel as [|fuel IH]; intros done q ents dbg H; destruct q as [|t q]; simpl in H.
    - inv_ok H. subst. apply arel_refl; auto.
    - congruence.
    - inv_ok H. subst. apply arel_refl; auto.
    - inv_ok H. inv_ok H. destruct x0 as [[ents1 dbg1] q1]. inv_ok H.
      apply IH in H.
      assert (H1 : arel Rsleep ents ents1).
      { change ents1 with (fst (fst (ents1, dbg1, q1))).
        eapply (rfold_ind _ (fun st => arel Rsleep ents (fst (fst st)))); [| |exact E0].
        - intros s a s' Hs Hw. eapply arel_trans; [apply Rsleep_trans|exact Hs|]. eapply wake_neighbor_frame; eauto.
        - apply arel_refl; auto. }
      eapply arel_trans; [apply Rsleep_trans|exact H1|].
      eapply arel_trans; [apply Rsleep_trans| |exact H].
      eapply arel_aset; eauto. eexists _, _. reflexivity.
  Qed.
  Lemma wake_up_frame ord h ents dbg r : wake_up (T:=T) ord h ents dbg = Ok r -> arel Rsleep ents (fst r).
  Proof. apply wake_loop_frame. Qed.
  Lemma wake_finite_frame ord h st st' : wake_finite (T:=T) ord h st = Ok st' -> arel Rsleep (fst st) (fst st').
  Proof.
    unfold wake_finite. intros H. inv_ok H. destruct (n_isfin _).
    - eapply wake_up_frame; eauto.
    - inv_ok H. subst. apply arel_refl; auto.
  Qed.

  (** ** What [step] never changes about an entity *)
  Definition Rstep (h : handle) (e e' : ientity T) : Prop :=
    e_colliders e' = e_colliders e /\ e_own_mass e' = e_own_mass e /\ e_total_mass e' = e_total_mass e /\
    e_prep_moi e' = e_prep_moi e /\ o_off (e_orient e') = o_off (e_orient e).
  Lemma Rstep_refl h e : Rstep h e e.
  Proof. repeat split. Qed.
  Lemma Rstep_trans h x y z : Rstep h x y -> Rstep h y z -> Rstep h x z.
  Proof. unfold Rstep. intuition congruence. Qed.
  Hint Resolve Rstep_refl : core.
  Lemma Rsleep_Rstep h e e' : Rsleep h e e' -> Rstep h e e'.
  Proof. intros (a & ns & ->). repeat split. Qed.

  (** Integration: velocities only; generators keep their handles. *)
  Definition Rvel (h : handle) (e e' : ientity T) : Prop := exists v w, e' = e_set_vels e v w.
  Lemma Rvel_refl h e : Rvel h e e.
  Proof. exists (e_vel e), (e_angvel e). now destruct e. Qed.
  Lemma Rvel_trans h x y z : Rvel h x y -> Rvel h y z -> Rvel h x z.
  Proof. intros (a & ns & ->) (b & ms & ->). exists b, ms. reflexivity. Qed.
  Hint Resolve Rvel_refl : core.
  Definition anyrel {A} (h : handle) (x y : A) : Prop := True.

  (** Everything but the generators (and velocities) stays. *)
  Record same_but_vels (s s' : system T) : Prop := {
    sv_ents : arel Rvel (s_ents s) (s_ents s');
    sv_cols : s_cols s' = s_cols s;
    sv_gens : arel anyrel (s_gens s) (s_gens s');
    sv_max : s_iteration_max s' = s_iteration_max s;
    sv_rec : s_records s' = s_records s;
    sv_et : s_energy_thr s' = s_energy_thr s;
    sv_tt : s_time_thr s' = s_time_thr s;
    sv_dbg : s_debug s' = s_debug s }.
  Lemma same_but_vels_refl s : same_but_vels s s.
  Proof. split; auto; apply arel_refl; auto; exact (fun _ _ => I). Qed.
  Lemma same_but_vels_trans a b c : same_but_vels a b -> same_but_vels b c -> same_but_vels a c.
  Proof.
    intros [A1 A2 A3 A4 A5 A6 A7 A8] [B1 B2 B3 B4 B5 B6 B7 B8]. split; try congruence.
    - eapply arel_trans; eauto using Rvel_trans.
    - eapply arel_trans; [exact (fun _ _ _ _ _ _ => I)|exact A3|exact B3].
  Qed.
  Lemma sum_forces_frame dt h copy s ghs r : sum_forces (T:=T) dt h copy s ghs = Ok r ->
    same_but_vels s (fst (fst r)) /\ s_ents (fst (fst r)) = s_ents s.
  Proof.
    unfold sum_forces. intros H.
    eapply (rfold_ind _ (fun st => same_but_vels s (fst (fst st)) /\ s_ents (fst (fst st)) = s_ents s)); [| |exact H].
    - intros [[s1 acc] tq] gh st' (Hs & He) Hf. cbn in Hs, He.
      inv_ok Hf. inv_ok Hf. destruct x0 as [f g']. inv_ok Hf. subst st'. simpl. split; auto.
      destruct Hs as [A1 A2 A3 A4 A5 A6 A7 A8]. split; simpl; auto.
      eapply arel_trans; [exact (fun _ _ _ _ _ _ => I)|exact A3|].
      eapply arel_aset; [exact (fun _ _ => I)|exact E|exact I].
    - split; auto. apply same_but_vels_refl.
  Qed.
  Lemma integrate_one_frame dt ghs st h st' : integrate_one (T:=T) dt ghs st h = Ok st' ->
    same_but_vels (fst st) (fst st') /\
    exists v w, snd st' = snd st ++ [mkInfo h (vscale v dt) (vscale w dt) []] /\
      exists e, aget (s_ents (fst st)) h = Some e /\ s_ents (fst st') = aset (s_ents (fst st)) h (e_set_vels e v w).
  Proof.
    destruct st as [s infos]. unfold integrate_one. intros H. inv_ok H.
    apply rbind_ok in H. destruct H as ([[s1 acc] tq] & Es & H). inv_ok H. inv_ok H. subst st'. simpl.
    assert (Hs : same_but_vels s s1 /\ s_ents s1 = s_ents s).
    { destruct (_ && _).
      - apply sum_forces_frame in Es. exact Es.
      - inv_ok Es. subst. split; auto. apply same_but_vels_refl. }
    destruct Hs as (Hs & He). split.
    - eapply same_but_vels_trans; [exact Hs|]. split; simpl; auto.
      + eapply arel_aset; eauto. eexists _, _. reflexivity.
      + apply arel_refl. exact (fun _ _ => I).
    - eexists _, _. split; [reflexivity|]. rewrite He in E0. exists x0. split; auto. now rewrite He.
  Qed.

  (** Integration of all entities. *)
  Lemma integrate_frame dt ghs hs st st' : rfold (integrate_one (T:=T) dt ghs) hs st = Ok st' ->
    same_but_vels (fst st) (fst st') /\ map i_h (snd st') = map i_h (snd st) ++ hs /\
    (Forall (fun i => i_nbrs i = []) (snd st) -> Forall (fun i => i_nbrs i = []) (snd st')).
  Proof.
    revert st; induction hs as [|h hs IH]; simpl; intros st H.
    - inv_ok H. subst. rewrite app_nil_r. split; auto using same_but_vels_refl.
    - apply rbind_ok in H. destruct H as (st1 & E & H). apply integrate_one_frame in E.
      destruct E as (E1 & v & w & E2 & _). apply IH in H. destruct H as (H1 & H2 & H3).
      split; [eapply same_but_vels_trans; eauto|]. rewrite H2, E2, map_app. simpl. rewrite <- app_assoc. split; auto.
      intros HF. apply H3. rewrite E2. apply Forall_app. split; auto.
  Qed.

  (** Moving: the orientation only (position and rotation, not the offset). *)
  Lemma advance_one_frame p a st i st' : advance_one (T:=T) p a st i = Ok st' ->
    arel Rstep (fst st) (fst st') /\ map i_h (snd st') = map i_h (snd st) ++ [i_h i] /\
    map i_nbrs (snd st') = map i_nbrs (snd st) ++ [i_nbrs i].
  Proof.
    destruct st as [ents infos]. unfold advance_one. intros H. inv_ok H. inv_ok H. subst st'. simpl.
    rewrite !map_app. simpl. split; auto.
    destruct (e_asleep x).
    - apply arel_refl; auto.
    - eapply arel_aset; eauto. repeat split.
  Qed.
  Lemma advance_frame p a ents infos r : advance (T:=T) p a ents infos = Ok r ->
    arel Rstep ents (fst r) /\ map i_h (snd r) = map i_h infos /\ map i_nbrs (snd r) = map i_nbrs infos.
  Proof.
    unfold advance. intros H.
    assert (G : forall l st st', rfold (advance_one (T:=T) p a) l st = Ok st' ->
      arel Rstep (fst st) (fst st') /\ map i_h (snd st') = map i_h (snd st) ++ map i_h l /\
      map i_nbrs (snd st') = map i_nbrs (snd st) ++ map i_nbrs l).
    { induction l as [|i l IH]; simpl; intros st st' HH.
      - inv_ok HH. subst. rewrite !app_nil_r. split; auto. apply arel_refl; auto.
      - apply rbind_ok in HH. destruct HH as (st1 & E & HH). apply advance_one_frame in E.
        destruct E as (E1 & E2 & E3). apply IH in HH. destruct HH as (H1 & H2 & H3).
        split; [eapply arel_trans; eauto using Rstep_trans|].
        rewrite H2, H3, E2, E3, <- !app_assoc. auto. }
    apply G in H. exact H.
  Qed.

  (** Responding: velocities only. *)
  Lemma respond_pair_vels (e1 e2 : ientity T) f e1' e2' im b : respond_pair e1 e2 f = (e1', e2', im, b) ->
    (exists v w, e1' = e_set_vels e1 v w) /\ (exists v w, e2' = e_set_vels e2 v w).
  Proof.
    unfold respond_pair. destruct (friction _ _ _ _) as [fr ic]. intros H. injection H as <- <- _ _.
    split; eexists _, _; reflexivity.
  Qed.
  Lemma upd_info_ok (l l' : list (info T)) i f : upd_info l i f = Ok l' ->
    exists x, nth_error l i = Some x /\ l' = list_set l i (f x).
  Proof. unfold upd_info. intros H. inv_ok H. inv_ok H. eauto. Qed.
  Lemma map_list_set {A B} (g : A -> B) l i x y : nth_error l i = Some y -> g x = g y -> map g (list_set l i x) = map g l.
  Proof.
    revert i; induction l as [|z l IH]; intros [|i] H E; simpl in *; try congruence.
    f_equal. auto.
  Qed.
  Lemma upd_info_handles (l l' : list (info T)) i f : upd_info l i f = Ok l' ->
    (forall x, i_h (f x) = i_h x) -> map i_h l' = map i_h l.
  Proof. intros H Hf. apply upd_info_ok in H. destruct H as (x & E & ->). eapply map_list_set; eauto. Qed.

  Lemma respond_frame dt ta f st st' : respond (T:=T) dt ta f st = Ok st' ->
    arel Rvel (l_ents st) (l_ents st') /\ map i_h (l_infos st') = map i_h (l_infos st) /\
    l_left st' = l_left st /\ l_ctp st' = l_ctp st /\ l_debug st' = l_debug st /\
    exists im, l_records st' = l_records st ++
      [mkCR (fd_h1 f) (fd_h2 f) (c_pos (fd_col f)) (n_mul (l_ctp st) dt) (c_normal (fd_col f)) (fd_rest f) im].
  Proof.
    unfold respond. intros H. inv_ok H. inv_ok H.
    destruct (respond_pair x x0 f) as [[[e1' e2'] im] ic] eqn:Er.
    inv_ok H. inv_ok H. inv_ok H. inv_ok H. subst st'. simpl.
    destruct (respond_pair_vels _ _ _ _ _ _ _ Er) as ((v1 & w1 & ->) & (v2 & w2 & ->)).
    split; [|split; [|eauto 10]].
    - apply (arel_trans _ _ (aset (l_ents st) (fd_h1 f) (e_set_vels x v1 w1))); [apply Rvel_trans| |].
      + eapply arel_aset; eauto. eexists _, _; reflexivity.
      + destruct (handle_eq_dec (fd_h1 f) (fd_h2 f)) as [Heq|Hne].
        * rewrite <- Heq in *. assert (x0 = x) by congruence. subst x0.
          apply (arel_aset _ _ _ (e_set_vels x v1 w1)); auto.
          -- eapply aget_aset_eq; eauto.
          -- exists v2, w2. destruct x; reflexivity.
        * apply (arel_aset _ _ _ x0); auto.
          -- rewrite aget_aset_neq; eauto.
          -- exists v2, w2. reflexivity.
    - apply upd_info_handles in E1; [|auto]. apply upd_info_handles in E2; [|auto].
      destruct ic.
      + inv_ok E3. apply upd_info_handles in E4; [|auto]. apply upd_info_handles in E3; [|auto]. congruence.
      + inv_ok E3. congruence.
  Qed.

  Lemma Rvel_Rstep h e e' : Rvel h e e' -> Rstep h e e'.
  Proof. intros (v & w & ->). repeat split. Qed.

  Lemma iterate_frame ord cols dt st r : iterate (T:=T) ord cols dt st = Ok r ->
    arel Rstep (l_ents st) (l_ents (fst r)) /\ map i_h (l_infos (fst r)) = map i_h (l_infos st).
  Proof.
    unfold iterate. intros H. inv_ok H. destruct x as [p of]. inv_ok H. destruct x as [ents dbg]. inv_ok H.
    destruct x as [ents2 infos2]. apply advance_frame in E1. simpl in E1. destruct E1 as (A1 & A2 & A3).
    assert (W : arel Rstep (l_ents st) ents).
    { destruct of as [f|].
      - inv_ok E0. apply wake_finite_frame in E0. apply wake_finite_frame in E1. simpl in *.
        eapply arel_impl; [apply Rsleep_Rstep|]. eapply arel_trans; eauto using Rsleep_trans.
      - inv_ok E0. subst. apply arel_refl; auto. }
    assert (W2 : arel Rstep (l_ents st) ents2) by (eapply arel_trans; eauto using Rstep_trans).
    destruct of as [f|].
    - inv_ok H. inv_ok H. subst r. simpl. apply respond_frame in E1. simpl in E1. destruct E1 as (R1 & R2 & _).
      split; [|congruence]. eapply arel_trans; [apply Rstep_trans|exact W2|].
      eapply arel_impl; [apply Rvel_Rstep|exact R1].
    - inv_ok H. subst r. simpl. split; auto.
  Qed.

  Lemma iterations_frame ord cols dt n st st' : iterations (T:=T) ord cols dt n st = Ok st' ->
    arel Rstep (l_ents st) (l_ents st') /\ map i_h (l_infos st') = map i_h (l_infos st).
  Proof.
    revert st; induction n as [|n IH]; simpl; intros st H.
    - inv_ok H. subst. simpl. split; auto. apply arel_refl; auto.
    - inv_ok H. apply iterate_frame in E. destruct E as (E1 & E2). destruct (snd x).
      + inv_ok H. subst. auto.
      + apply IH in H. destruct H as (H1 & H2). split; [|congruence]. eapply arel_trans; eauto using Rstep_trans.
  Qed.

  (** Sleeping. *)
  Lemma sleep_decision_Rstep dt et tt ns h e : Rstep h e (fst (sleep_decision (T:=T) dt et tt ns e)).
  Proof.
    unfold sleep_decision. destruct (e_asleep e); [repeat split|]. destruct (n_lt _ _); [repeat split|].
    destruct (n_lt _ _); repeat split.
  Qed.
  Lemma sleep_one_frame dt et tt st i st' : sleep_one (T:=T) dt et tt st i = Ok st' -> arel Rstep (fst st) (fst st').
  Proof.
    destruct st as [ents dbg]. unfold sleep_one. intros H. inv_ok H.
    pose proof (sleep_decision_Rstep dt et tt (i_nbrs i) (i_h i) x) as Hd.
    destruct (sleep_decision dt et tt (i_nbrs i) x) as [e' sl]. cbn [fst snd] in *.
    assert (A1 : arel Rstep ents (aset ents (i_h i) e')) by (eapply arel_aset; eauto).
    destruct sl.
    - inv_ok H. inv_ok H. subst st'. simpl. eapply arel_trans; [apply Rstep_trans|exact A1|].
      eapply (rfold_ind _ (fun en => arel Rstep (aset ents (i_h i) e') en)); [| |exact E0].
      + intros s nh s' Hs Hf. inv_ok Hf. inv_ok Hf. subst s'. eapply arel_trans; [apply Rstep_trans|exact Hs|].
        eapply arel_aset; eauto. repeat split.
      + apply arel_refl; auto.
    - inv_ok H. subst. auto.
  Qed.
  Lemma sleep_phase_frame dt et tt l st st' : rfold (sleep_one (T:=T) dt et tt) l st = Ok st' -> arel Rstep (fst st) (fst st').
  Proof.
    intros H. eapply (rfold_ind _ (fun x => arel Rstep (fst st) (fst x))); [| |exact H].
    - intros s a s' Hs Hf. apply sleep_one_frame in Hf. eapply arel_trans; eauto using Rstep_trans.
    - apply arel_refl; auto.
  Qed.

  (** ** The whole step *)
  Lemma step_frame ord (s s' : system T) dt : step ord s dt = Ok s' ->
    arel Rstep (s_ents s) (s_ents s') /\ s_cols s' = s_cols s /\ arel anyrel (s_gens s) (s_gens s') /\
    s_iteration_max s' = s_iteration_max s /\ s_energy_thr s' = s_energy_thr s /\ s_time_thr s' = s_time_thr s.
  Proof.
    unfold step. intros H. destruct (n_lt _ _).
    { inv_ok H. subst. split; [apply arel_refl; auto|]. split; auto.
      split; [apply arel_refl; exact (fun _ _ => I)|auto]. }
    inv_ok H. destruct x as [s1 infos]. inv_ok H. inv_ok H. inv_ok H. subst s'. simpl.
    apply integrate_frame in E. simpl in E. destruct E as ([A1 A2 A3 A4 A5 A6 A7 A8] & _). simpl in *.
    apply iterations_frame in E0. simpl in E0. destruct E0 as (B1 & _).
    apply sleep_phase_frame in E1. simpl in E1.
    split; [|auto 10]. eapply arel_trans; [apply Rstep_trans|eapply arel_impl; [apply Rvel_Rstep|exact A1]|].
    eapply arel_trans; eauto using Rstep_trans.
  Qed.
End Frame.
