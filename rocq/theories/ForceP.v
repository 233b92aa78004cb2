(** * ForceP: the conversation with the force generators (C72) *)
From Coq Require Import List Permutation Bool Arith Lia.
Import ListNotations.
From Verif Require Import Num Vec Res Arena Orient Colliders Collide EntityM SystemM Spec ForceSpec ResP ArenaP OrderP FrameP StoreP Store2P ExecP WakeP StepP Step2P Step3P.

Section Force.
  Context {T : Type} {N : Num T}.
  Implicit Types (s : system T) (e : ientity T) (qs : list (asked T)).

  Lemma forces_in_app qs rs h : forces_in (qs ++ rs) h = forces_in qs h ++ forces_in rs h.
  Proof. unfold forces_in. now rewrite filter_app, map_app. Qed.
  Lemma gen_after_snoc s qs q gh : gen_after s (qs ++ [q]) gh = if heqb gh (q_gh q) then Some (q_next q) else gen_after s qs gh.
  Proof. unfold gen_after. now rewrite fold_left_app. Qed.
  Lemma upto_mid h a b : ~ In h a -> upto h (a ++ h :: b) = a.
  Proof.
    induction a as [|x a IH]; simpl; intros H.
    - now rewrite heqb_refl.
    - destruct (heqb_spec h x) as [->|Hne]; [exfalso; apply H; auto|]. f_equal. apply IH. tauto.
  Qed.

  (** Asking all generators about one entity. *)
  Lemma sum_forces_talk s0 dt h copy ghs : forall s acc tq qs r,
    talk s0 dt qs -> s_cols s = s_cols s0 -> s_iteration_max s = s_iteration_max s0 -> s_energy_thr s = s_energy_thr s0 ->
    s_time_thr s = s_time_thr s0 ->
    (forall k, get_entity s k = option_map (fun e => make_pub (served s0 dt qs h k e)) (aget (s_ents s0) k)) ->
    ~ In h (upto h (ahandles (s_ents s0))) ->
    (forall gh, aget (s_gens s) gh = gen_after s0 qs gh) ->
    rfold (fun st gh => let '(s, acceleration, torque) := st in
        rbind (unwrap (aget (s_gens s) gh)) (fun g => rbind (make_force g dt (view_of s) h) (fun fg =>
        let '(f, g') := fg in Ok (s_set_gens s (aset (s_gens s) gh g'),
          vadd acceleration (vscale (f_force f) (n_div n1 (pe_last_total_mass copy))),
          vadd torque (mulmv (last_moment copy) (vcross (vsub (f_pos f) (pe_pos copy)) (f_force f))))))) ghs (s, acc, tq) = Ok r ->
    exists rs, talk s0 dt (qs ++ rs) /\ map q_gh rs = ghs /\ Forall (fun q => q_h q = h) rs /\
      (forall gh, aget (s_gens (fst (fst r))) gh = gen_after s0 (qs ++ rs) gh) /\
      snd (fst r) = fold_left vadd (map (fun f => vscale (f_force f) (n_div n1 (pe_last_total_mass copy))) (map q_force rs)) acc /\
      snd r = fold_left vadd (map (fun f => mulmv (last_moment copy) (vcross (vsub (f_pos f) (pe_pos copy)) (f_force f))) (map q_force rs)) tq.
  Proof.
    induction ghs as [|gh ghs IH]; intros s acc tq qs r Tk C1 C2 C3 C4 En Hu Gn H.
    - simpl in H. inv_ok H. subst r. exists []. rewrite app_nil_r. simpl. auto 10.
    - simpl in H. apply rbind_ok in H. destruct H as (st1 & E & H). inv_ok E. inv_ok E. destruct x0 as [f g']. inv_ok E. subst st1.
      set (q := mkAsk h gh (view_of s) f g').
      assert (Tk' : talk s0 dt (qs ++ [q])).
      { apply (talk_ask _ _ _ _ x); auto.
        - simpl. rewrite <- Gn. exact E0.
        - split; [exact En|]. simpl. unfold get_collider. rewrite C1. auto. }
      apply (IH (s_set_gens s (aset (s_gens s) gh g')) _ _ (qs ++ [q]) r Tk') in H; auto.
      + destruct H as (rs & R1 & R2 & R3 & R4 & R5 & R6).
        exists (q :: rs). rewrite <- app_assoc in R1. simpl in R1. split; auto. split; [simpl; congruence|]. split; [constructor; auto|].
        split; [intros gk; rewrite R4, <- app_assoc; reflexivity|]. simpl. auto.
      + intros k. unfold get_entity in *. cbn [s_ents s_set_gens]. rewrite En. unfold served. rewrite forces_in_app.
        destruct (aget (s_ents s0) k) as [e|] eqn:Ek; [|reflexivity]. cbn [option_map]. f_equal. f_equal.
        destruct (hmem k (upto h (ahandles (s_ents s0)))) eqn:M; [|reflexivity].
        assert (Hne : heqb k h = false).
        { destruct (heqb_spec k h) as [->|]; auto. apply hmem_spec in M. tauto. }
        replace (forces_in [q] k) with (@nil (force T)); [now rewrite !app_nil_r|]. unfold forces_in. simpl. now rewrite Hne.
      + intros gk. simpl. rewrite gen_after_snoc. simpl. rewrite aget_aset. destruct (heqb_spec gh gk) as [<-|Hne].
        * rewrite heqb_refl, E0. reflexivity.
        * rewrite (heqb_neq gk gh) by congruence. apply Gn.
  Qed.

  Definition pushed_by dt qs h e : ientity T :=
    e_set_vels e (pushed_vel dt (forces_in qs h) e) (pushed_angvel dt (forces_in qs h) e).

  Lemma forces_in_other h (rs : list (asked T)) : Forall (fun q => q_h q = h) rs -> forall k, forces_in rs k = if heqb k h then map q_force rs else [].
  Proof.
    intros F k. unfold forces_in. destruct (heqb_spec k h) as [->|Hne].
    - f_equal. induction F as [|q rs Hq F IH]; simpl; auto. rewrite Hq, heqb_refl, IH. auto.
    - induction F as [|q rs Hq F IH]; simpl; auto. rewrite Hq, (heqb_neq k h) by auto. auto.
  Qed.

  Lemma prod_app {A B} (a b : list A) (c : list B) : list_prod (a ++ b) c = list_prod a c ++ list_prod b c.
  Proof. induction a as [|x a IH]; simpl; auto. now rewrite IH, app_assoc. Qed.

  Lemma integrate_talk s0 dt : forall hs done st qs st',
    ahandles (s_ents s0) = done ++ hs ->
    talk s0 dt qs -> map (fun q => (q_h q, q_gh q)) qs = list_prod (filter (pushable_at s0) done) (ahandles (s_gens s0)) ->
    s_cols (fst st) = s_cols s0 -> s_iteration_max (fst st) = s_iteration_max s0 -> s_energy_thr (fst st) = s_energy_thr s0 ->
    s_time_thr (fst st) = s_time_thr s0 ->
    (forall k, aget (s_ents (fst st)) k = option_map (fun e => if hmem k done then pushed_by dt qs k e else e) (aget (s_ents s0) k)) ->
    (forall gh, aget (s_gens (fst st)) gh = gen_after s0 qs gh) ->
    rfold (integrate_one dt (ahandles (s_gens s0))) hs st = Ok st' ->
    exists qs', talk s0 dt qs' /\
      map (fun q => (q_h q, q_gh q)) qs' = list_prod (filter (pushable_at s0) (ahandles (s_ents s0))) (ahandles (s_gens s0)) /\
      (forall k, aget (s_ents (fst st')) k = option_map (pushed_by dt qs' k) (aget (s_ents s0) k)) /\
      (forall gh, aget (s_gens (fst st')) gh = gen_after s0 qs' gh).
  Proof.
    induction hs as [|h hs IH]; intros done st qs st' Hall Tk Hm C1 C2 C3 C4 En Gn H.
    - simpl in H. inv_ok H. subst st'. rewrite app_nil_r in Hall. exists qs. split; auto. rewrite Hall. split; auto. split; auto.
      intros k. rewrite En. destruct (aget (s_ents s0) k) as [e|] eqn:Ek; [|reflexivity]. simpl.
      assert (Hk : hmem k done = true) by (apply hmem_spec; rewrite <- Hall; apply ahandles_in; congruence). now rewrite Hk.
    - cbn [rfold] in H. apply rbind_ok in H. destruct H as (st1 & E & H). destruct st as [s infos]. cbn [fst snd] in *.
      pose proof (ahandles_nodup (s_ents s0)) as ND. rewrite Hall in ND.
      assert (Hh : ~ In h done) by (apply NoDup_remove_2 in ND; intros Hc; apply ND, in_or_app; auto).
      assert (Hup : upto h (ahandles (s_ents s0)) = done) by (rewrite Hall; now apply upto_mid).
      unfold integrate_one in E. inv_ok E. rename x into copy.
      apply rbind_ok in E. destruct E as ([[s1 acc] tq] & Es & E). inv_ok E. inv_ok E. subst st1. rename x into e1.
      assert (He : s_ents s1 = s_ents s /\ same_but_vels s s1).
      { destruct (_ && _); [apply sum_forces_frame in Es; split; apply Es|inv_ok Es; subst; split; auto using same_but_vels_refl]. }
      destruct He as (He & [A1 A2 A3 A4 A5 A6 A7 A8]).
      rewrite He in E1. unfold get_entity in E0. rewrite E1 in E0. simpl in E0. injection E0 as <-.
      rewrite En in E1. destruct (aget (s_ents s0) h) as [e|] eqn:Eh; [|discriminate]. simpl in E1.
      rewrite (proj2 (hmem_false h done)) in E1 by exact Hh. injection E1 as <-.
      (* the questions about h *)
      assert (Q : exists rs, talk s0 dt (qs ++ rs) /\ Forall (fun q => q_h q = h) rs /\
        map (fun q => (q_h q, q_gh q)) rs = list_prod (filter (pushable_at s0) [h]) (ahandles (s_gens s0)) /\
        (forall gh, aget (s_gens s1) gh = gen_after s0 (qs ++ rs) gh) /\
        acc = vsum (map (fun f => vscale (f_force f) (n_div n1 (e_total_mass e))) (map q_force rs)) /\
        tq = vsum (map (fun f => mulmv (last_moment (make_pub e)) (vcross (vsub (f_pos f) (o_pos (e_orient e))) (f_force f))) (map q_force rs))).
      { assert (Pu : pushable_at s0 h = pushable e) by (unfold pushable_at; now rewrite Eh). simpl. rewrite Pu.
        change (n_isfin (pe_last_total_mass (make_pub e)) && n_lt EPSILON (pe_last_total_mass (make_pub e))) with (pushable e) in Es.
        destruct (pushable e).
        - unfold sum_forces in Es. apply (sum_forces_talk s0 dt h (make_pub e) (ahandles (s_gens s0)) s vzero vzero qs _ Tk C1 C2 C3 C4) in Es.
          2:{ intros k. unfold get_entity. rewrite En. destruct (aget (s_ents s0) k) as [ek|]; [|reflexivity]. simpl. f_equal. f_equal.
            unfold served. rewrite Hup. reflexivity. }
          2:{ rewrite Hup. exact Hh. }
          2:{ exact Gn. }
          + destruct Es as (rs & R1 & R2 & R3 & R4 & R5 & R6). exists rs. split; auto. split; auto. split; [|split; [exact R4|split; [exact R5|exact R6]]].
            simpl. rewrite app_nil_r, <- R2. clear - R3. induction R3 as [|q rs Hq F IH]; simpl; auto. rewrite IH, Hq. reflexivity.
        - injection Es as <- <- <-. exists []. rewrite app_nil_r. simpl. auto 10. }
      destruct Q as (rs & R1 & R2 & R3 & R4 & -> & ->).
      assert (Fq : map q_force rs = forces_in (qs ++ rs) h).
      { rewrite forces_in_app, (forces_in_other h rs R2 h), heqb_refl. replace (forces_in qs h) with (@nil (force T)); [reflexivity|].
        unfold forces_in. symmetry. assert (Hq : Forall (fun q => q_h q <> h) qs).
        { apply Forall_forall. intros q Hq Hx. apply (in_map (fun q => (q_h q, q_gh q))) in Hq. rewrite Hm in Hq.
          apply in_prod_iff in Hq. destruct Hq as (Hq & _). apply filter_In in Hq. rewrite Hx in Hq. tauto. }
        clear - Hq. induction Hq as [|q qs Hx F IH]; simpl; auto. rewrite (heqb_neq h (q_h q)) by congruence. exact IH. }
      apply (IH (done ++ [h]) _ (qs ++ rs)) in H; auto.
      + rewrite Hall, <- app_assoc. reflexivity.
      + rewrite map_app, Hm, R3, filter_app. rewrite prod_app. reflexivity.
      + simpl. congruence.
      + simpl. congruence.
      + simpl. congruence.
      + simpl. congruence.
      + intros k. simpl. rewrite He, aget_aset. destruct (heqb_spec h k) as [<-|Hne].
        * rewrite En, Eh. simpl.
          assert (Hk : hmem h (done ++ [h]) = true) by (apply hmem_spec, in_or_app; right; now left). rewrite Hk. f_equal.
          unfold pushed_by, pushed_vel, pushed_angvel. rewrite <- Fq. reflexivity.
        * rewrite En. destruct (aget (s_ents s0) k) as [ek|]; [|reflexivity]. simpl. f_equal.
          assert (Hk : hmem k (done ++ [h]) = hmem k done).
          { apply Bool.eq_true_iff_eq. rewrite !hmem_spec, in_app_iff. simpl. split; [intros [?|[?|[]]]; [auto|congruence]|auto]. }
          rewrite Hk. destruct (hmem k done); [|reflexivity]. unfold pushed_by. rewrite forces_in_app, (forces_in_other h rs R2 k), (heqb_neq k h) by congruence.
          now rewrite app_nil_r.
  Qed.

  Lemma step_talk {O : Ord N} ord s dt s' : good_order ord -> step ord s dt = Ok s' -> n_lt (n_abs dt) EPSILON = false ->
    exists qs, talk s dt qs /\
      map (fun q => (q_h q, q_gh q)) qs = list_prod (filter (pushable_at s) (ahandles (s_ents s))) (ahandles (s_gens s)) /\
      (forall gh, get_generator s' gh = gen_after s qs gh) /\
      (forall h e, aget (s_ents s) h = Some e -> ~ named (s_records s') h -> exists e', aget (s_ents s') h = Some e' /\
        ((e_vel e' = pushed_vel dt (forces_in qs h) e /\ e_angvel e' = pushed_angvel dt (forces_in qs h) e) \/
         (e_asleep e = true /\ e_asleep e' = true /\ e_vel e' = vzero /\ e_angvel e' = vzero))).
  Proof.
    intros Ho H Hd. destruct (step_phases _ _ _ _ H Hd) as (s1 & infos & st & P1 & P2 & P3 & P4 & P5 & P6 & P7). cbv zeta in P1.
    set (s0 := mkS (s_ents s) (s_cols s) (s_gens s) (s_iteration_max s) [] (s_energy_thr s) (s_time_thr s) []) in *.
    assert (En : forall k, aget (s_ents (fst (s0, @nil (info T)))) k = option_map (fun e => if hmem k [] then pushed_by dt [] k e else e) (aget (s_ents s0) k))
      by (intros k; simpl; now destruct (aget (s_ents s) k)).
    destruct (integrate_talk s0 dt (ahandles (s_ents s0)) [] (s0, []) [] (s1, infos) eq_refl (talk_start s0 dt) eq_refl eq_refl eq_refl eq_refl eq_refl En (fun gh => eq_refl) P1) as (qs & Q1 & Q2 & Q3 & Q4).
    - exists qs. cbn [fst snd] in *. split; [|split; [exact Q2|split]].
      + clear - Q1. induction Q1 as [|qs q g Q1 IH Hg Hs Hf]; [constructor|]. apply (talk_ask _ _ _ _ g); auto.
      + intros gh. unfold get_generator. rewrite P5. apply Q4.
      + intros h e He Hn.
        pose proof (iterations_inv ord (s_cols s) dt (s_ents s1) (s_iteration_max s) Ho _ _ (loop_inv_init _ _ _ _ P6) P2) as ([L1 L2 L3 L4] & _).
        assert (H1 : aget (s_ents s1) h = Some (pushed_by dt qs h e)) by (rewrite Q3; simpl; now rewrite He).
        assert (ND : NoDup (map i_h (l_infos st))) by (rewrite L2; apply ahandles_nodup).
        destruct (arel_get _ _ _ _ _ (sl_ents _ _ _ L1) H1) as (e2 & He2 & _ & _ & _ & A4 & A5).
        rewrite P4 in Hn. destruct (L4 h _ _ Hn H1 He2) as (K1 & K2).
        pose proof (sleep_phase_spec _ _ _ _ ND _ _ P3) as (S1 & _). destruct (S1 h e2 He2) as (e' & He' & B1 & _). cbn [fst] in He'.
        assert (Hi : In h (map i_h (l_infos st))) by (rewrite L2, ahandles_in; congruence).
        apply in_map_iff in Hi. destruct Hi as (i & Hih & Hi). destruct (B1 i Hi Hih) as (ms & Hr).
        exists e'. split; auto. destruct (e_asleep e2) eqn:A2.
        * right. rewrite (decision_asleep _ _ _ _ _ A2) in Hr. subst e'. simpl. split; [|auto].
          destruct (sl_dec _ _ _ L1 h) as [Hk|Hk]; [destruct (A4 Hk); congruence|]. destruct (A5 Hk) as (Hk2 & _). simpl in Hk2. congruence.
        * left. destruct (decision_awake dt (s_energy_thr s) (s_time_thr s) (i_nbrs i) e2 A2) as (_ & _ & D3 & D4 & _).
          subst e'. simpl in *. split; congruence.
  Qed.
End Force.
