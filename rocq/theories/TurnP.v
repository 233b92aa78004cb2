(** * TurnP: how often the rotation of an entity has been multiplied (any [Num]) *)
From Coq Require Import List Permutation Bool Arith Lia.
Import ListNotations.
From Verif Require Import Num Vec Res Arena Orient Colliders Collide EntityM SystemM Spec ResP ArenaP FrameP StoreP ExecP StepP OrderP Step3P MassP TurnSpec.

Section Turn.
  Context {T : Type} {N : Num T}.
  Implicit Types (s : system T) (h : handle) (e : ientity T).

  (** [spun k q]: [q] is the product of [k + 1] exponentials. *)
  Inductive spun : nat -> Quat T -> Prop :=
    | spun_new v : spun 0 (qfrom_scaled_axis v)
    | spun_more k v q : spun k q -> spun (S k) (qmul (qfrom_scaled_axis v) q).

  Definition Rspin (n : nat) (h : handle) e e' : Prop :=
    forall k, spun k (o_rot (e_orient e)) -> exists j, j <= n /\ spun (j + k) (o_rot (e_orient e')).
  Lemma Rspin_same n h e e' : o_rot (e_orient e') = o_rot (e_orient e) -> Rspin n h e e'.
  Proof. intros H k Hk. exists 0. split; [lia|]. rewrite H. exact Hk. Qed.
  Lemma Rspin_trans m n h x y z : Rspin m h x y -> Rspin n h y z -> Rspin (m + n) h x z.
  Proof.
    intros A B k Hk. destruct (A k Hk) as (j & Lj & Hj). destruct (B _ Hj) as (i & Li & Hi).
    exists (i + j). split; [lia|]. rewrite <- Nat.add_assoc. exact Hi.
  Qed.
  Lemma Rspin_0 h x y z : Rspin 0 h x y -> Rspin 0 h y z -> Rspin 0 h x z.
  Proof. exact (Rspin_trans 0 0 h x y z). Qed.
  Lemma Rspin_le m n h e e' : m <= n -> Rspin m h e e' -> Rspin n h e e'.
  Proof. intros L A k Hk. destruct (A k Hk) as (j & Lj & Hj). exists j. split; [lia|exact Hj]. Qed.
  Lemma Rvel_spin h e e' : Rvel h e e' -> Rspin 0 h e e'. Proof. intros (v & w & ->). now apply Rspin_same. Qed.
  Lemma Rsleep_spin h e e' : Rsleep h e e' -> Rspin 0 h e e'. Proof. intros (v & w & ->). now apply Rspin_same. Qed.

  Lemma arel_comp (R1 R2 R3 : handle -> ientity T -> ientity T -> Prop) a b c :
    (forall h x y z, R1 h x y -> R2 h y z -> R3 h x z) -> arel R1 a b -> arel R2 b c -> arel R3 a c.
  Proof.
    intros H (A1 & A2 & A3 & A4) (B1 & B2 & B3 & B4). split; [eapply aevo_trans; eauto|]. split; [congruence|]. split; [congruence|].
    intros h. specialize (A4 h). specialize (B4 h). destruct (aget a h), (aget b h), (aget c h); try tauto. eauto.
  Qed.

  Lemma advance_spin p a ents infos r : NoDup (map i_h infos) -> advance (T:=T) p a ents infos = Ok r -> arel (Rspin 1) ents (fst r).
  Proof.
    intros ND H. pose proof (advance_frame _ _ _ _ _ H) as ((F1 & F2 & F3 & F4) & _).
    destruct (advance_spec _ _ _ ND _ _ H) as (A1 & A2 & _).
    split; [exact F1|]. split; [exact F2|]. split; [exact F3|]. intros h. specialize (F4 h).
    destruct (in_dec handle_eq_dec h (map i_h infos)) as [Hi|Hi].
    - apply in_map_iff in Hi. destruct Hi as (i & <- & Hi). destruct (A1 i Hi) as (e & E1 & E2). rewrite E1, E2.
      destruct (e_asleep e); [now apply Rspin_same|]. intros k Hk. exists 1. split; [lia|].
      cbn [e_orient e_set_orient after_affected o_rot]. now apply spun_more.
    - rewrite (A2 h Hi). destruct (aget ents h); [now apply Rspin_same|exact I].
  Qed.
  Lemma iterate_spin ord cols dt st r : NoDup (map i_h (l_infos st)) -> iterate (T:=T) ord cols dt st = Ok r ->
    arel (Rspin 1) (l_ents st) (l_ents (fst r)) /\
    (snd r = false -> length (l_records (fst r)) = S (length (l_records st))) /\ length (l_records st) <= length (l_records (fst r)).
  Proof.
    unfold iterate. intros ND H. inv_ok H. destruct x as [p of]. inv_ok H. destruct x as [ents dbg]. inv_ok H.
    destruct x as [ents2 infos2]. apply advance_spin in E1; [|exact ND]. simpl in E1.
    assert (W : arel (Rspin 0) (l_ents st) ents).
    { destruct of as [f|].
      - inv_ok E0. apply wake_finite_frame in E0. apply wake_finite_frame in E2. simpl in *.
        eapply arel_impl; [apply Rsleep_spin|]. eapply arel_trans; eauto using Rsleep_trans.
      - inv_ok E0. subst. apply arel_refl. intros. now apply Rspin_same. }
    assert (W2 : arel (Rspin 1) (l_ents st) ents2) by (eapply arel_comp; [|exact W|exact E1]; intros h x y z; apply (Rspin_trans 0 1)).
    destruct of as [f|].
    - inv_ok H. inv_ok H. subst r. simpl. apply respond_frame in E2. simpl in E2. destruct E2 as (R1 & _ & _ & _ & _ & im & R2).
      rewrite R2, app_length. simpl. split; [|split; [intros _|]; lia].
      eapply arel_comp; [|exact W2|eapply arel_impl; [apply Rvel_spin|exact R1]]. intros h a b c. apply (Rspin_trans 1 0).
    - inv_ok H. subst r. simpl. split; [exact W2|]. split; [discriminate|lia].
  Qed.
  Lemma iterations_spin ord cols dt n st st' : NoDup (map i_h (l_infos st)) -> iterations (T:=T) ord cols dt n st = Ok st' ->
    length (l_records st) <= length (l_records st') /\ arel (Rspin (S (length (l_records st') - length (l_records st)))) (l_ents st) (l_ents st').
  Proof.
    revert st; induction n as [|n IH]; simpl; intros st ND H.
    - inv_ok H. subst. simpl. split; [lia|]. apply arel_refl. intros. now apply Rspin_same.
    - inv_ok H. pose proof (iterate_frame _ _ _ _ _ E) as (_ & F). destruct (iterate_spin _ _ _ _ _ ND E) as (A & B & C). destruct (snd x).
      + inv_ok H. subst. split; [exact C|]. eapply arel_impl; [|exact A]. intros h a b. apply Rspin_le. lia.
      + apply IH in H; [|now rewrite F]. destruct H as (H1 & H2). specialize (B eq_refl). split; [lia|].
        eapply arel_comp; [|exact A|exact H2]. intros h a b c P Q. eapply Rspin_le; [|exact (Rspin_trans _ _ _ _ _ _ P Q)]. lia.
  Qed.
  Lemma sleep_one_spin dt et tt st i st' : sleep_one (T:=T) dt et tt st i = Ok st' -> arel (Rspin 0) (fst st) (fst st').
  Proof.
    destruct st as [ents dbg]. unfold sleep_one. intros H. inv_ok H.
    assert (Hd : Rspin 0 (i_h i) x (fst (sleep_decision dt et tt (i_nbrs i) x))).
    { apply Rspin_same. unfold sleep_decision. destruct (e_asleep x); [reflexivity|]. destruct (n_lt _ _); [reflexivity|]. destruct (n_lt _ _); reflexivity. }
    destruct (sleep_decision dt et tt (i_nbrs i) x) as [e' sl]. cbn [fst snd] in *.
    assert (A0 : forall h e, Rspin 0 h e e) by (intros; now apply Rspin_same).
    assert (A1 : arel (Rspin 0) ents (aset ents (i_h i) e')) by (eapply arel_aset; eauto).
    destruct sl.
    - inv_ok H. inv_ok H. subst st'. simpl. eapply arel_trans; [apply Rspin_0|exact A1|].
      eapply (rfold_ind _ (fun en => arel (Rspin 0) (aset ents (i_h i) e') en)); [| |exact E0].
      + intros s nh s' Hs Hf. inv_ok Hf. inv_ok Hf. subst s'. eapply arel_trans; [apply Rspin_0|exact Hs|].
        eapply arel_aset; eauto. now apply Rspin_same.
      + apply arel_refl; auto.
    - inv_ok H. subst. auto.
  Qed.
  Lemma step_spin ord s s' dt : step ord s dt = Ok s' -> arel (Rspin (S (length (s_records s')))) (s_ents s) (s_ents s').
  Proof.
    intros H. destruct (n_lt (n_abs dt) EPSILON) eqn:D.
    { unfold step in H. rewrite D in H. inv_ok H. subst. apply arel_refl. intros. now apply Rspin_same. }
    destruct (step_phases _ _ _ _ H D) as (s1 & infos & st & P). cbv zeta in P. destruct P as (_ & P2 & P3 & P4 & _ & P6 & P7).
    apply iterations_spin in P2; [|cbn [l_infos]; rewrite P6; apply ahandles_nodup]. cbn [l_records l_ents length] in P2. destruct P2 as (_ & P2).
    rewrite Nat.sub_0_r, <- P4 in P2.
    assert (P3' : arel (Rspin 0) (l_ents st) (s_ents s')).
    { change (l_ents st) with (fst (l_ents st, l_debug st)). change (s_ents s') with (fst (s_ents s', s_debug s')).
      eapply (rfold_ind _ (fun y => arel (Rspin 0) (fst (l_ents st, l_debug st)) (fst y))); [| |exact P3].
      - intros y a y' Hs Hf. apply sleep_one_spin in Hf. eapply arel_trans; [apply Rspin_0|exact Hs|exact Hf].
      - apply arel_refl. intros. now apply Rspin_same. }
    eapply arel_comp; [|eapply arel_impl; [apply Rvel_spin|exact P7]|eapply arel_comp; [|exact P2|exact P3']].
    - intros h a b c. apply (Rspin_trans 0).
    - intros h a b c A B. eapply Rspin_le; [|exact (Rspin_trans _ _ _ _ _ _ A B)]. lia.
  Qed.

  Definition turned (n : nat) s : Prop := forall h e, aget (s_ents s) h = Some e -> exists k, k <= n /\ spun k (o_rot (e_orient e)).
  Lemma turned_exec ord s o s' a n : good_order ord -> Inv s -> turned n s -> exec ord s o = Ok (s', a) ->
    turned ((match o with OStep _ => S (length (s_records s')) | _ => 0 end) + n) s'.
  Proof.
    intros Ho HI M H h e' He'. destruct (exec_entity _ _ _ _ _ _ _ Ho HI H He') as [(src & Hsrc & Hn & Hx)|(e & He & Hc)].
    - unfold entity_new_from in Hn. destruct (n_lt _ _); [discriminate|]. injection Hn as <-. exists 0. split; [lia|]. apply spun_new.
    - destruct (M h e He) as (k & Lk & C). destruct Hc as [B|e'' i src Ho' Hk Hcols R|src e1 w e2 e'' Ho' Hcols U R S _|e'' _ R|dt e'' Eo St].
      + exists k. split; [lia|exact C].
      + destruct (Rsleep_spin _ _ _ R k C) as (j & Lj & Hj). exists (j + k). split; [lia|exact Hj].
      + assert (G1 : spun 0 (o_rot (e_orient e1))) by (unfold update_from in U; destruct (n_lt _ _); [discriminate|]; injection U as <- _; apply spun_new).
        destruct R as (hs & _ & R). apply recalc_rot_same in R. destruct R as (R & _). cbn [e_orient e_set_colliders] in R.
        destruct S as (x & y & ->). cbn [e_orient e_set_sleep]. exists 0. split; [lia|]. rewrite R. exact G1.
      + destruct R as (hs & _ & R). apply recalc_rot_same in R. destruct R as (R & _). cbn [e_orient e_set_colliders] in R.
        exists k. split; [lia|]. rewrite R. exact C.
      + subst o. destruct (arel_get _ _ _ _ _ (step_spin _ _ _ _ St) He) as (x & Hx & R). assert (x = e'') by congruence. subst x.
        destruct (R k C) as (j & Lj & Hj). exists (j + k). split; [lia|exact Hj].
  Qed.
  Lemma turned_run hist : forall s s' ans n, Forall call_ok hist -> Inv s -> turned n s -> run hist s = Ok (s', ans) -> turned (pieces hist s + n) s'.
  Proof.
    induction hist as [|[ord o] hist IH]; intros s s' ans n HF HI HT H.
    - cbn in H. injection H as <- <-. exact HT.
    - apply run_cons in H. destruct H as (s1 & a & ans' & E & H & _). inversion HF as [|x l Hc Hl]; subst.
      cbn [pieces]. rewrite E.
      assert (HI1 : Inv s1) by (apply exec_evo in E; [apply E|exact (proj1 Hc)|exact HI]).
      pose proof (turned_exec _ _ _ _ _ _ (proj1 Hc) HI HT E) as HT1.
      pose proof (IH _ _ _ _ Hl HI1 HT1 H) as G. intros h e He. destruct (G h e He) as (k & Lk & Hk). exists k. split; [lia|exact Hk].
  Qed.
  Lemma turned_history hist s ans h e : Forall call_ok hist -> run hist system_new = Ok (s, ans) -> aget (s_ents s) h = Some e ->
    exists k, k <= pieces hist system_new /\ spun k (o_rot (e_orient e)).
  Proof.
    intros HF H He.
    assert (T0 : turned 0 (system_new (T:=T))).
    { intros h0 e0 H0. exfalso. simpl in H0. unfold aget in H0. simpl in H0.
      destruct (h_idx h0) as [|[|[|[|[|k]]]]]; simpl in H0; discriminate. }
    destruct (turned_run hist _ _ _ 0 HF Inv_new T0 H h e He) as (k & Lk & Hk). exists k. split; [lia|exact Hk].
  Qed.
End Turn.
