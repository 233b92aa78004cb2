(** * MassP: cached masses, offsets and tensors, and rotations, over whole histories (any [Num]) *)
From Coq Require Import List Permutation Bool Arith Lia.
Import ListNotations.
From Verif Require Import Num Vec Res Arena Orient Colliders Collide EntityM SystemM Spec ResP ArenaP FrameP StoreP ExecP.

Section Mass.
  Context {T : Type} {N : Num T}.
  Implicit Types (s : system T) (h : handle) (e : ientity T).
  (** A property of rotations that every rotation made by the code has. *)
  Variable good : Quat T -> Prop.
  Hypothesis good_exp : forall v, good (qfrom_scaled_axis v).
  Hypothesis good_mul : forall v q, good q -> good (qmul (qfrom_scaled_axis v) q).

  Definition good_e e : Prop := good (o_rot (e_orient e)).
  Definition Rgood (h : handle) e e' : Prop := good_e e -> good_e e'.
  Lemma Rgood_refl h e : Rgood h e e. Proof. intros H. exact H. Qed.
  Lemma Rgood_trans h x y z : Rgood h x y -> Rgood h y z -> Rgood h x z. Proof. unfold Rgood. auto. Qed.
  Hint Resolve Rgood_refl : core.
  Lemma Rvel_good h e e' : Rvel h e e' -> Rgood h e e'. Proof. intros (v & w & ->) H. exact H. Qed.
  Lemma Rsleep_good h e e' : Rsleep h e e' -> Rgood h e e'. Proof. intros (v & w & ->) H. exact H. Qed.

  Lemma advance_good p a ents infos r : advance (T:=T) p a ents infos = Ok r -> arel Rgood ents (fst r).
  Proof.
    unfold advance. intros H. eapply (rfold_ind _ (fun st => arel Rgood ents (fst st))); [| |exact H].
    - intros [en inf] i st' Hs Hf. unfold advance_one in Hf. inv_ok Hf. inv_ok Hf. subst st'. cbn [fst] in *.
      destruct (e_asleep x); auto. eapply arel_trans; [apply Rgood_trans|exact Hs|].
      apply (arel_aset _ _ _ x); auto. intros G. unfold good_e in *. cbn [e_orient e_set_orient after_affected o_rot]. now apply good_mul.
    - apply arel_refl; auto.
  Qed.
  Lemma iterate_good ord cols dt st r : iterate (T:=T) ord cols dt st = Ok r -> arel Rgood (l_ents st) (l_ents (fst r)).
  Proof.
    unfold iterate. intros H. inv_ok H. destruct x as [p of]. inv_ok H. destruct x as [ents dbg]. inv_ok H.
    destruct x as [ents2 infos2]. apply advance_good in E1. simpl in E1.
    assert (W : arel Rgood (l_ents st) ents).
    { destruct of as [f|].
      - inv_ok E0. apply wake_finite_frame in E0. apply wake_finite_frame in E2. simpl in *.
        eapply arel_impl; [apply Rsleep_good|]. eapply arel_trans; eauto using Rsleep_trans.
      - inv_ok E0. subst. apply arel_refl; auto. }
    assert (W2 : arel Rgood (l_ents st) ents2) by (eapply arel_trans; eauto using Rgood_trans).
    destruct of as [f|].
    - inv_ok H. inv_ok H. subst r. simpl. apply respond_frame in E2. simpl in E2. destruct E2 as (R1 & _).
      eapply arel_trans; [apply Rgood_trans|exact W2|]. eapply arel_impl; [apply Rvel_good|exact R1].
    - inv_ok H. subst r. simpl. auto.
  Qed.
  Lemma iterations_good ord cols dt n st st' : iterations (T:=T) ord cols dt n st = Ok st' -> arel Rgood (l_ents st) (l_ents st').
  Proof.
    revert st; induction n as [|n IH]; simpl; intros st H.
    - inv_ok H. subst. simpl. apply arel_refl; auto.
    - inv_ok H. apply iterate_good in E. destruct (snd x).
      + inv_ok H. subst. auto.
      + apply IH in H. eapply arel_trans; eauto using Rgood_trans.
  Qed.
  Lemma sleep_one_good dt et tt st i st' : sleep_one (T:=T) dt et tt st i = Ok st' -> arel Rgood (fst st) (fst st').
  Proof.
    destruct st as [ents dbg]. unfold sleep_one. intros H. inv_ok H.
    assert (Hd : Rgood (i_h i) x (fst (sleep_decision dt et tt (i_nbrs i) x))).
    { intros G. unfold sleep_decision. destruct (e_asleep x); [exact G|]. destruct (n_lt _ _); [exact G|]. destruct (n_lt _ _); exact G. }
    destruct (sleep_decision dt et tt (i_nbrs i) x) as [e' sl]. cbn [fst snd] in *.
    assert (A1 : arel Rgood ents (aset ents (i_h i) e')) by (eapply arel_aset; eauto).
    destruct sl.
    - inv_ok H. inv_ok H. subst st'. simpl. eapply arel_trans; [apply Rgood_trans|exact A1|].
      eapply (rfold_ind _ (fun en => arel Rgood (aset ents (i_h i) e') en)); [| |exact E0].
      + intros s nh s' Hs Hf. inv_ok Hf. inv_ok Hf. subst s'. eapply arel_trans; [apply Rgood_trans|exact Hs|].
        eapply arel_aset; eauto. intros G. exact G.
      + apply arel_refl; auto.
    - inv_ok H. subst. auto.
  Qed.
  Lemma step_good ord s s' dt : step ord s dt = Ok s' -> arel Rgood (s_ents s) (s_ents s').
  Proof.
    unfold step. intros H. destruct (n_lt _ _); [inv_ok H; subst; apply arel_refl; auto|].
    inv_ok H. destruct x as [s1 infos]. inv_ok H. inv_ok H. inv_ok H. subst s'. simpl.
    apply integrate_frame in E. simpl in E. destruct E as ([A1 A2 A3 A4 A5 A6 A7 A8] & _). simpl in *.
    apply iterations_good in E0. simpl in E0.
    assert (E1' : arel Rgood (l_ents x) (fst x0)).
    { change (l_ents x) with (fst (l_ents x, l_debug x)). eapply (rfold_ind _ (fun y => arel Rgood (fst (l_ents x, l_debug x)) (fst y))); [| |exact E1].
      - intros y a y' Hs Hf. apply sleep_one_good in Hf. eapply arel_trans; eauto using Rgood_trans.
      - apply arel_refl; auto. }
    eapply arel_trans; [apply Rgood_trans|eapply arel_impl; [apply Rvel_good|exact A1]|].
    eapply arel_trans; eauto using Rgood_trans.
  Qed.

  (** The cached values are those of the last recalculation, which saw the colliders as they are now. *)
  Definition same_cache e1 e : Prop :=
    e_own_mass e1 = e_own_mass e /\ e_total_mass e1 = e_total_mass e /\ e_prep_moi e1 = e_prep_moi e /\ o_off (e_orient e1) = o_off (e_orient e).
  Definition cached cols e : Prop :=
    (e_colliders e = [] /\ e_total_mass e = e_own_mass e /\ e_prep_moi e = mzero) \/
    exists hs e0 e1, Permutation hs (e_colliders e) /\ good_e e0 /\ recalculate_mass hs cols e0 = Ok e1 /\ same_cache e1 e.
  Definition mass_inv s : Prop := forall h e, aget (s_ents s) h = Some e -> good_e e /\ cached (s_cols s) e.

  Lemma recalc_rot_same hs cols e e' : recalculate_mass hs cols e = Ok e' -> o_rot (e_orient e') = o_rot (e_orient e) /\ e_own_mass e' = e_own_mass e.
  Proof.
    unfold recalculate_mass. intros H. inv_ok H. destruct x as [[fi m] v]. destruct (_ && _); destruct fi;
      try (inv_ok H; subst; split; reflexivity); inv_ok H; inv_ok H; subst; split; reflexivity.
  Qed.
  Lemma cached_ext cols cols' e : (forall c, In c (e_colliders e) -> same_body (aget cols c) (aget cols' c)) -> cached cols e -> cached cols' e.
  Proof.
    intros H [C|(hs & e0 & e1 & P & G & R & S)]; [now left|]. right. exists hs, e0, e1. split; auto. split; auto. split; auto.
    rewrite <- R. symmetry. apply recalc_ext. intros c Hc. apply H. eapply Permutation_in; eauto.
  Qed.
  Lemma cached_keep cols e e' : e_colliders e' = e_colliders e -> same_cache e e' -> cached cols e -> cached cols e'.
  Proof.
    unfold cached, same_cache. intros Hc (E1 & E2 & E3 & E4) [(C1 & C2 & C3)|(hs & e0 & e1 & P & G & R & S1 & S2 & S3 & S4)].
    - left. repeat split; congruence.
    - right. exists hs, e0, e1. rewrite Hc. repeat split; try assumption; congruence.
  Qed.
  Lemma relinked_cached cols e e' set : good_e e -> relinked cols e e' set -> good_e e' /\ cached cols e'.
  Proof.
    intros G H. pose proof (relinked_set _ _ _ _ H) as Hs. destruct H as (hs & P & R). pose proof (recalc_rot_same _ _ _ _ R) as (Rr & _). split.
    - unfold good_e in *. rewrite Rr. exact G.
    - right. exists hs, (e_set_colliders e set), e'. rewrite Hs. repeat split; auto.
  Qed.
  Lemma mass_inv_exec ord s o s' a : good_order ord -> Inv s -> mass_inv s -> exec ord s o = Ok (s', a) -> mass_inv s'.
  Proof.
    intros Ho HI M H h e' He'. destruct (exec_entity _ _ _ _ _ _ _ Ho HI H He') as [(src & Hsrc & Hn & Hx)|(e & He & Hc)].
    - unfold entity_new_from in Hn. destruct (n_lt _ _); [discriminate|]. injection Hn as <-. split; [|left; auto]. apply good_exp.
    - destruct (M h e He) as (G & C). destruct Hc as [B|e'' k src Ho' Hk Hcols R|src e1 w e2 e'' Ho' Hcols U R S _|e'' _ R|dt e'' _ St].
      + split; [exact G|]. eapply cached_ext; eauto.
      + split; [exact (Rsleep_good h _ _ R G)|]. rewrite Hcols. destruct R as (x & y & ->). eapply cached_keep; [| |exact C]; [reflexivity|repeat split].
      + assert (G1 : good_e e1) by (unfold update_from in U; destruct (n_lt _ _); [discriminate|]; injection U as <- _; apply good_exp).
        destruct (relinked_cached _ _ _ _ G1 R) as (G2 & C2). split; [exact (Rsleep_good h _ _ S G2)|].
        destruct S as (x & y & ->). eapply cached_keep; [| |exact C2]; [reflexivity|repeat split].
      + eapply relinked_cached; eauto.
      + pose proof (step_frame _ _ _ _ St) as (F & Fc & _). pose proof (step_good _ _ _ _ St) as Fg.
        destruct (arel_get _ _ _ _ _ F He) as (x & Hx & R). assert (x = e'') by congruence. subst x.
        destruct (arel_get _ _ _ _ _ Fg He) as (x & Hx2 & Rg). assert (x = e'') by congruence. subst x.
        split; [exact (Rg G)|]. rewrite Fc. destruct R as (R1 & R2 & R3 & R4 & R5).
        eapply cached_keep; [exact R1| |exact C]. repeat split; congruence.
  Qed.
  Lemma reachable_mass s : reachable s -> mass_inv s.
  Proof.
    intros R. pattern s. eapply reachable_ind; [| |exact R].
    - intros h e H. exfalso. simpl in H. unfold aget in H. simpl in H.
      destruct (h_idx h) as [|[|[|[|[|k]]]]]; simpl in H; discriminate.
    - intros ord s0 o s1 a Hc HI M E. eapply mass_inv_exec; [exact (proj1 Hc)|exact HI|exact M|exact E].
  Qed.
End Mass.
