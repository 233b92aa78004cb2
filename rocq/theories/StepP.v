(** * StepP: the phases of a step (any [Num]) *)
From Coq Require Import List Permutation Bool Arith Lia.
Import ListNotations.
From Verif Require Import Num Vec Res Arena Orient Colliders Collide EntityM SystemM Spec ResP ArenaP OrderP FrameP WakeP.

Section Step.
  Context {T : Type} {N : Num T}.
  Implicit Types (s : system T) (e : ientity T) (ents : arena (ientity T)).

  (** ** Integration *)
  Lemma becomes_trans (g1 g2 g3 : generator T) : becomes g1 g2 -> becomes g2 g3 -> becomes g1 g3.
  Proof. intros H1 H2. revert H1. induction H2 as [|g ga gb dt w h f Hb IH Hf]; intros H1; auto. exact (becomes_asked _ _ _ _ _ _ _ (IH H1) Hf). Qed.
  Lemma becomes_gravity (a : Vec3 T) g : becomes (GenGravity a) g -> g = GenGravity a.
  Proof.
    intros H. remember (GenGravity a) as g0. induction H; auto. subst. rewrite IHbecomes in H0 by auto. simpl in H0. inv_ok H0.
    inv_ok H0. congruence.
  Qed.
  Definition Rgen (h : handle) (g g' : generator T) : Prop := becomes g g'.
  Lemma Rgen_refl h g : Rgen h g g.
  Proof. apply becomes_refl. Qed.
  Lemma Rgen_trans h x y z : Rgen h x y -> Rgen h y z -> Rgen h x z.
  Proof. apply becomes_trans. Qed.
  Hint Resolve Rgen_refl : core.

  (** One answer, seen from a state [s] in which [h] looks as in [s0] and the generators have evolved from [s0]. *)
  Lemma sum_forces_spec s0 dt h copy s ghs r :
    arel Rgen (s_gens s0) (s_gens s) -> get_entity s h = get_entity s0 h ->
    sum_forces dt h copy s ghs = Ok r ->
    exists fs, Forall2 (force_from s0 dt h) ghs fs /\
      snd (fst r) = vsum (map (fun f => vscale (f_force f) (n_div n1 (pe_last_total_mass copy))) fs) /\
      snd r = vsum (map (fun f => mulmv (last_moment copy) (vcross (vsub (f_pos f) (pe_pos copy)) (f_force f))) fs) /\
      arel Rgen (s_gens s0) (s_gens (fst (fst r))).
  Proof.
    unfold sum_forces, vsum. intros Hg Hh.
    assert (G : forall ghs st r, arel Rgen (s_gens s0) (s_gens (fst (fst st))) -> get_entity (fst (fst st)) h = get_entity s0 h ->
      rfold (fun st gh => let '(s, acceleration, torque) := st in
        rbind (unwrap (aget (s_gens s) gh)) (fun g => rbind (make_force g dt (view_of s) h) (fun fg =>
        let '(f, g') := fg in Ok (s_set_gens s (aset (s_gens s) gh g'),
          vadd acceleration (vscale (f_force f) (n_div n1 (pe_last_total_mass copy))),
          vadd torque (mulmv (last_moment copy) (vcross (vsub (f_pos f) (pe_pos copy)) (f_force f))))))) ghs st = Ok r ->
      exists fs, Forall2 (force_from s0 dt h) ghs fs /\
      snd (fst r) = fold_left vadd (map (fun f => vscale (f_force f) (n_div n1 (pe_last_total_mass copy))) fs) (snd (fst st)) /\
      snd r = fold_left vadd (map (fun f => mulmv (last_moment copy) (vcross (vsub (f_pos f) (pe_pos copy)) (f_force f))) fs) (snd st) /\
      arel Rgen (s_gens s0) (s_gens (fst (fst r)))).
    { clear. induction ghs as [|gh ghs IH]; intros [[s acc] tq] r Hg Hh H; cbn [fst snd] in *.
      - simpl in H. inv_ok H. subst. exists []. simpl. auto.
      - simpl in H. apply rbind_ok in H. destruct H as (st1 & E & H). inv_ok E. inv_ok E. destruct x0 as [f g']. inv_ok E. subst st1.
        destruct (arel_get_r _ _ _ _ _ Hg E0) as (g0 & Hg0 & Hb).
        apply IH in H.
        + destruct H as (fs & H1 & H2 & H3 & H4). exists (f :: fs). cbn [map fold_left fst snd] in *. split; [|auto].
          constructor; auto. exists g0, x, (view_of s), g'. auto.
        + simpl. eapply arel_trans; [apply Rgen_trans|exact Hg|]. apply (arel_aset _ _ _ x); auto. eapply becomes_asked; [apply becomes_refl|exact E1].
        + simpl. exact Hh. }
    intros H. apply G in H; auto.
  Qed.

  (** What the integration phase does to one entity. *)
  Lemma integrate_one_spec s0 dt st h st' :
    arel Rgen (s_gens s0) (s_gens (fst st)) -> aget (s_ents (fst st)) h = aget (s_ents s0) h ->
    integrate_one dt (ahandles (s_gens s0)) st h = Ok st' ->
    exists e fs, aget (s_ents s0) h = Some e /\ forces_on s0 dt h fs /\
      s_ents (fst st') = aset (s_ents (fst st)) h (e_set_vels e (pushed_vel dt fs e) (pushed_angvel dt fs e)) /\
      snd st' = snd st ++ [mkInfo h (vscale (pushed_vel dt fs e) dt) (vscale (pushed_angvel dt fs e) dt) []] /\
      arel Rgen (s_gens s0) (s_gens (fst st')).
  Proof.
    destruct st as [s infos]. cbn [fst snd]. unfold integrate_one. intros Hg Hh H. inv_ok H.
    apply rbind_ok in H. destruct H as ([[s1 acc] tq] & Es & H). inv_ok H. inv_ok H. subst st'. cbn [fst snd].
    assert (He : s_ents s1 = s_ents s).
    { destruct (_ && _); [apply sum_forces_frame in Es; apply Es|inv_ok Es; congruence]. }
    unfold get_entity in E. rewrite He, Hh in E0. rewrite Hh, E0 in E. simpl in E. injection E as <-. rename x0 into e.
    assert (F : exists fs, forces_on s0 dt h fs /\
      acc = vsum (map (fun f => vscale (f_force f) (n_div n1 (pe_last_total_mass (make_pub e)))) fs) /\
      tq = vsum (map (fun f => mulmv (last_moment (make_pub e)) (vcross (vsub (f_pos f) (pe_pos (make_pub e))) (f_force f))) fs) /\
      arel Rgen (s_gens s0) (s_gens s1)).
    { destruct (_ && _) eqn:P.
      - eapply sum_forces_spec in Es; eauto; [|unfold get_entity; now rewrite Hh].
        destruct Es as (fs & F1 & F2 & F3 & F4). exists fs. split; [|auto]. exists e. split; auto. unfold pushable. simpl in P. now rewrite P.
      - injection Es as <- <- <-. exists []. split; [|auto]. exists e. split; auto. unfold pushable. simpl in P. now rewrite P. }
    destruct F as (fs & F1 & -> & -> & F4). exists e, fs. split; auto. split; auto. simpl. rewrite He. auto.
  Qed.

  Lemma integrate_spec s0 dt st' :
    rfold (integrate_one dt (ahandles (s_gens s0))) (ahandles (s_ents s0)) (s0, []) = Ok st' ->
    arel Rgen (s_gens s0) (s_gens (fst st')) /\
    (forall h, aget (s_ents s0) h = None -> aget (s_ents (fst st')) h = None) /\
    (forall h e, aget (s_ents s0) h = Some e -> exists fs, forces_on s0 dt h fs /\
      aget (s_ents (fst st')) h = Some (e_set_vels e (pushed_vel dt fs e) (pushed_angvel dt fs e))) /\
    (forall i, In i (snd st') -> exists e1, aget (s_ents (fst st')) (i_h i) = Some e1 /\
       i_lin i = vscale (e_vel e1) dt /\ i_ang i = vscale (e_angvel e1) dt /\ i_nbrs i = []).
  Proof.
    intros H.
    assert (G : forall hs done st, NoDup (done ++ hs) ->
      arel Rgen (s_gens s0) (s_gens (fst st)) ->
      (forall h, ~ In h done -> aget (s_ents (fst st)) h = aget (s_ents s0) h) ->
      (forall h, In h done -> exists e fs, aget (s_ents s0) h = Some e /\ forces_on s0 dt h fs /\
        aget (s_ents (fst st)) h = Some (e_set_vels e (pushed_vel dt fs e) (pushed_angvel dt fs e))) ->
      (forall i, In i (snd st) -> In (i_h i) done /\ exists e1, aget (s_ents (fst st)) (i_h i) = Some e1 /\
        i_lin i = vscale (e_vel e1) dt /\ i_ang i = vscale (e_angvel e1) dt /\ i_nbrs i = []) ->
      rfold (integrate_one dt (ahandles (s_gens s0))) hs st = Ok st' ->
      arel Rgen (s_gens s0) (s_gens (fst st')) /\
      (forall h, ~ In h (done ++ hs) -> aget (s_ents (fst st')) h = aget (s_ents s0) h) /\
      (forall h, In h (done ++ hs) -> exists e fs, aget (s_ents s0) h = Some e /\ forces_on s0 dt h fs /\
        aget (s_ents (fst st')) h = Some (e_set_vels e (pushed_vel dt fs e) (pushed_angvel dt fs e))) /\
      (forall i, In i (snd st') -> exists e1, aget (s_ents (fst st')) (i_h i) = Some e1 /\
        i_lin i = vscale (e_vel e1) dt /\ i_ang i = vscale (e_angvel e1) dt /\ i_nbrs i = [])).
    { clear H. induction hs as [|h hs IH]; intros done st Hnd Hg Hout Hin Hinf H.
      - simpl in H. inv_ok H. subst. rewrite app_nil_r. split; [auto|]. split; [auto|]. split; [auto|]. intros i Hi. now apply Hinf.
      - simpl in H. apply rbind_ok in H. destruct H as (st1 & E & H).
        assert (Hh : ~ In h done). { apply NoDup_remove_2 in Hnd. intros Hc. apply Hnd, in_or_app; auto. }
        apply integrate_one_spec in E; auto. destruct E as (e & fs & E1 & E2 & E3 & E4 & E5).
        specialize (IH (done ++ [h]) st1). rewrite <- app_assoc in IH. simpl in IH. apply IH; auto.
        + intros k Hk. rewrite E3. rewrite aget_aset_neq by (intros ->; apply Hk, in_or_app; right; now left).
          apply Hout. intros Hc. apply Hk, in_or_app; auto.
        + intros k Hk. destruct (handle_eq_dec h k) as [<-|Hne].
          * exists e, fs. split; auto. split; auto. rewrite E3. eapply aget_aset_eq. rewrite Hout by auto. exact E1.
          * apply in_app_or in Hk. destruct Hk as [Hk|[Hk|[]]]; [|congruence]. destruct (Hin k Hk) as (e1 & fs1 & A1 & A2 & A3).
            exists e1, fs1. rewrite E3, aget_aset_neq by auto. auto.
        + intros i Hi. rewrite E4 in Hi. apply in_app_or in Hi. destruct Hi as [Hi|[<-|[]]].
          * destruct (Hinf i Hi) as (A1 & e1 & A2 & A3). split; [apply in_or_app; auto|]. exists e1. rewrite E3, aget_aset_neq; auto.
            intros ->. auto.
          * split; [apply in_or_app; right; now left|]. simpl. eexists. split; [rewrite E3; eapply aget_aset_eq; rewrite Hout by auto; exact E1|]. auto. }
    specialize (G (ahandles (s_ents s0)) [] (s0, [])). simpl in G. destruct G as (G1 & G2 & G3 & G4); auto.
    - apply ahandles_nodup.
    - apply arel_refl; auto.
    - tauto.
    - tauto.
    - split; auto. split; [|split; auto].
      + intros h Hh. rewrite G2; auto. rewrite ahandles_in. congruence.
      + intros h e He. destruct (G3 h) as (e' & fs & A1 & A2 & A3); [rewrite ahandles_in; congruence|].
        assert (e' = e) by congruence. subst e'. exists fs. auto.
  Qed.

  (** ** The earliest collision *)
  Lemma all_pairs_in {X} (l : list X) x y : In (x, y) (all_pairs l) <->
    exists a b, a < b /\ nth_error l a = Some x /\ nth_error l b = Some y.
  Proof.
    induction l as [|z l IH]; simpl.
    - split; [tauto|]. intros (a & b & _ & H & _). destruct a; discriminate.
    - rewrite in_app_iff, in_map_iff. split.
      + intros [(w & E & Hw)|H].
        * injection E as -> ->. apply In_nth_error in Hw. destruct Hw as (n & Hn). exists 0, (S n). split; [lia|auto].
        * apply IH in H. destruct H as (a & b & Hab & Ha & Hb). exists (S a), (S b). split; [lia|auto].
      + intros (a & b & Hab & Ha & Hb). destruct b as [|b]; [lia|]. simpl in Hb. destruct a as [|a]; simpl in Ha.
        * injection Ha as ->. left. exists y. split; auto. eapply nth_error_In; eauto.
        * right. apply IH. exists a, b. split; [lia|auto].
  Qed.
  Lemma nth_error_numbered {X} (l : list X) k x : nth_error (combine (seq k (length l)) l) x =
    match nth_error l x with Some y => Some (k + x, y) | None => None end.
  Proof.
    revert k x; induction l as [|z l IH]; intros k x; simpl.
    - destruct x; reflexivity.
    - destruct x as [|x]; simpl; [now rewrite Nat.add_0_r|]. rewrite IH. destruct (nth_error l x); auto. replace (k + S x) with (S k + x) by lia. reflexivity.
  Qed.

  (** A found collision is the meeting of two colliders of the entities at places [fd_i1] and [fd_i2] of [infos]. *)
  Definition is_found cols ents (infos : list (info T)) (f : found T) : Prop :=
    exists i1 i2 k1 k2 c1 c2, fd_i1 f < fd_i2 f /\ nth_error infos (fd_i1 f) = Some i1 /\ nth_error infos (fd_i2 f) = Some i2 /\
      fd_h1 f = i_h i1 /\ fd_h2 f = i_h i2 /\ meets cols ents i1 i2 k1 k2 (fd_col f) /\
      aget cols k1 = Some c1 /\ aget cols k2 = Some c2 /\
      fd_rest f = n_mul (mt_rest (c_mat c1)) (mt_rest (c_mat c2)) /\
      fd_stat f = n_mul (mt_stat (c_mat c1)) (mt_stat (c_mat c2)) /\
      fd_dyn f = n_mul (mt_dyn (c_mat c1)) (mt_dyn (c_mat c2)) /\
      fd_thr f = n_mul (mt_thr (c_mat c1)) (mt_thr (c_mat c2)).
  Definition best_ok cols ents infos (b : T * option (found T)) : Prop :=
    match snd b with
    | None => fst b = n1
    | Some f => fst b = c_time (fd_col f) /\ n_lt (fst b) n1 = true /\ is_found cols ents infos f
    end.
  Definition lower (b b' : T * option (found T)) : Prop := b' = b \/ n_lt (fst b') (fst b) = true.

  Section Earliest.
    Context {O : Ord N}.
    Lemma lower_trans x y z : lower x y -> lower y z -> lower x z.
    Proof. unfold lower. intros [->|H1] [->|H2]; auto. right. eapply lt_trans; eauto. Qed.
    Lemma lower_not t x y : n_lt t (fst x) = false -> lower x y -> n_lt t (fst y) = false.
    Proof.
      intros H [->|L]; auto. destruct (n_lt t (fst y)) eqn:E; auto. rewrite (lt_trans _ _ _ E L) in H. discriminate.
    Qed.

    Lemma check_colliders_spec cols ents infos e1 e2 n1' i1 n2' i2 best ks best' :
      n1' < n2' -> nth_error infos n1' = Some i1 -> nth_error infos n2' = Some i2 ->
      aget ents (i_h i1) = Some e1 -> aget ents (i_h i2) = Some e2 ->
      ~ In (i_h i2) (e_neighbors e1) -> ~ In (i_h i1) (e_neighbors e2) ->
      In (fst ks) (e_colliders e1) -> In (snd ks) (e_colliders e2) ->
      best_ok cols ents infos best -> check_colliders cols e1 e2 (n1', i1) (n2', i2) best ks = Ok best' ->
      best_ok cols ents infos best' /\ lower best best' /\
      (forall c, meets cols ents i1 i2 (fst ks) (snd ks) c -> n_lt (c_time c) (fst best') = false).
    Proof.
      intros Hlt Hn1 Hn2 He1 He2 Hc1 Hc2 Hk1 Hk2 Hb H. unfold check_colliders in H. cbn [fst snd] in H.
      inv_ok H. inv_ok H. inv_ok H. rename x into c1, x0 into c2, x1 into oc, E into G1, E0 into G2, E1 into G3.
      assert (U : forall c, meets cols ents i1 i2 (fst ks) (snd ks) c -> oc = Some c /\
        n_lt (vdot (vsub (velocity_at e1 (c_pos c)) (velocity_at e2 (c_pos c))) (c_normal c)) EPSILON = false).
      { intros c (e1' & e2' & c1' & c2' & A1 & A2 & _ & _ & _ & _ & A3 & A4 & A5 & A6).
        assert (e1' = e1) by congruence. assert (e2' = e2) by congruence. assert (c1' = c1) by congruence. assert (c2' = c2) by congruence.
        subst. split; auto. congruence. }
      destruct oc as [c|].
      - destruct (n_lt (vdot _ _) EPSILON) eqn:Ea.
        + inv_ok H. subst. split; auto. split; [now left|]. intros c' Hc'. destruct (U c' Hc') as (Ec & Ev). injection Ec as <-. congruence.
        + destruct (n_lt (c_time c) (fst best)) eqn:Et; inv_ok H; subst best'.
          * split; [|split].
            -- assert (L1 : n_lt (c_time c) n1 = true).
               { unfold best_ok in Hb. destruct (snd best) as [f|]; [|congruence]. destruct Hb as (_ & Hb & _). eapply lt_trans; eauto. }
               simpl. split; auto. split; auto. exists i1, i2, (fst ks), (snd ks), c1, c2. simpl.
               repeat (split; [first [exact Hlt|assumption|reflexivity]|]). split; [|auto 10].
               exists e1, e2, c1, c2. auto 15.
            -- right. exact Et.
            -- intros c' Hc'. destruct (U c' Hc') as (Ec & Ev). injection Ec as <-. simpl. apply lt_irrefl.
          * split; auto. split; [now left|]. intros c' Hc'. destruct (U c' Hc') as (Ec & Ev). injection Ec as <-. auto.
      - inv_ok H. subst. split; auto. split; [now left|]. intros c' Hc'. destruct (U c' Hc') as (Ec & _). discriminate.
    Qed.

    Lemma find_earliest_spec ord cols ents infos b : good_order ord ->
      find_earliest ord cols ents infos = Ok b ->
      best_ok cols ents infos b /\
      (forall x y i1 i2 k1 k2 c, x < y -> nth_error infos x = Some i1 -> nth_error infos y = Some i2 ->
        meets cols ents i1 i2 k1 k2 c -> n_lt (c_time c) (fst b) = false).
    Proof.
      intros Ho H. unfold find_earliest in H.
      apply (rfold_seen _ lower (best_ok cols ents infos)
        (fun p b => forall k1 k2 c, meets cols ents (snd (fst p)) (snd (snd p)) k1 k2 c -> n_lt (c_time c) (fst b) = false)) in H.
      - destruct H as (H1 & _ & H2). split; auto. intros x y i1 i2 k1 k2 c Hxy Hx Hy Hm.
        apply (H2 ((x, i1), (y, i2)) ) with (k1 := k1) (k2 := k2); auto.
        apply all_pairs_in. exists x, y. split; auto. rewrite !nth_error_numbered, Hx, Hy. auto.
      - left; auto.
      - apply lower_trans.
      - intros a s s' Hq Hl k1 k2 c Hm. eapply lower_not; eauto.
      - intros best [[x i1] [y i2]] best' Hin Hb Hf. apply all_pairs_in in Hin.
        destruct Hin as (a & a' & Haa & Hx & Hy). rewrite nth_error_numbered in Hx, Hy.
        destruct (nth_error infos a) as [j1|] eqn:Ja; [|discriminate]. destruct (nth_error infos a') as [j2|] eqn:Jb; [|discriminate].
        simpl in Hx, Hy. injection Hx as -> ->. injection Hy as -> ->. cbn [fst snd].
        unfold check_entities in Hf. cbn [fst snd] in Hf. inv_ok Hf. inv_ok Hf. rename x0 into e1, x1 into e2.
        assert (NB : forall k1 k2 c, meets cols ents i1 i2 k1 k2 c -> ~ In (i_h i2) (e_neighbors e1) /\ ~ In (i_h i1) (e_neighbors e2) /\
          In k1 (e_colliders e1) /\ In k2 (e_colliders e2)).
        { intros k1 k2 c (e1' & e2' & c1' & c2' & A1 & A2 & A3 & A4 & A5 & A6 & _).
          assert (e1' = e1) by congruence. assert (e2' = e2) by congruence. subst. auto. }
        destruct (hmem (i_h i2) (e_neighbors e1)) eqn:M1.
        { inv_ok Hf. subst. split; auto. split; [now left|]. intros k1 k2 c Hm. apply NB in Hm. apply hmem_spec in M1. tauto. }
        destruct (hmem (i_h i1) (e_neighbors e2)) eqn:M2.
        { inv_ok Hf. subst. split; auto. split; [now left|]. intros k1 k2 c Hm. apply NB in Hm. apply hmem_spec in M2. tauto. }
        apply hmem_false in M1, M2.
        apply (rfold_seen _ lower (best_ok cols ents infos)
          (fun p b => forall c, meets cols ents i1 i2 (fst p) (snd p) c -> n_lt (c_time c) (fst b) = false)) in Hf; auto.
        + destruct Hf as (F1 & F2 & F3). split; auto. split; auto. intros k1 k2 c Hm. apply (F3 (k1, k2)); auto.
          apply NB in Hm. apply in_prod; [apply (Permutation_in _ (Permutation_sym (Ho _ _ _)))|apply (Permutation_in _ (Permutation_sym (Ho _ _ _)))]; tauto.
        + left; auto.
        + apply lower_trans.
        + intros p s s' Hq Hl c Hm. eapply lower_not; eauto.
        + intros s [k1 k2] s' Hk Hs Hf'. apply in_prod_iff in Hk. destruct Hk as (Hk1 & Hk2).
          apply (Permutation_in _ (Ho _ _ _)) in Hk1. apply (Permutation_in _ (Ho _ _ _)) in Hk2.
          apply (check_colliders_spec cols ents infos e1 e2 x i1 y i2 s (k1, k2) s'); auto.
      - reflexivity.
    Qed.
  End Earliest.

  (** ** The collision loop *)
  Definition woke_msg (m : dmsg) : Prop := match m with DWaking _ | DRemoved _ _ => True | _ => False end.
  Definition more_woken (d d' : list dmsg) : Prop := exists l, d' = d ++ l /\ Forall woke_msg l.
  Lemma more_refl d : more_woken d d.
  Proof. exists []. now rewrite app_nil_r. Qed.
  Lemma more_trans a b c : more_woken a b -> more_woken b c -> more_woken a c.
  Proof. intros (l & -> & F) (l' & -> & F'). exists (l ++ l'). rewrite app_assoc. split; auto. now apply Forall_app. Qed.
  Lemma wake_neighbor_msgs t done st n st' : wake_neighbor (T:=T) t done st n = Ok st' -> more_woken (snd (fst st)) (snd (fst st')).
  Proof.
    destruct st as [[ents dbg] q]. unfold wake_neighbor. intros H. destruct (hmem n done).
    - inv_ok H. subst. apply more_refl.
    - inv_ok H. destruct (n_isinf _); inv_ok H; subst; simpl; [|apply more_refl]. eexists. split; [reflexivity|]. repeat constructor.
  Qed.
  Lemma wake_loop_msgs ord fuel done q ents dbg r : wake_loop (T:=T) ord fuel done q ents dbg = Ok r -> more_woken dbg (snd r).
  Proof.
    revert done q ents dbg; induction fuel as [|fuel IH]; intros done q ents dbg H; destruct q as [|t q]; simpl in H.
    - inv_ok H. subst. apply more_refl.
    - congruence.
    - inv_ok H. subst. apply more_refl.
    - inv_ok H. inv_ok H. destruct x0 as [[ents1 dbg1] q1]. inv_ok H. apply IH in H.
      assert (H1 : more_woken dbg dbg1).
      { change dbg1 with (snd (fst (ents1, dbg1, q1))).
        eapply (rfold_ind _ (fun st => more_woken dbg (snd (fst st)))); [| |exact E0].
        - intros st n st' Hs Hw. eapply more_trans; [exact Hs|]. eapply wake_neighbor_msgs; eauto.
        - apply more_refl. }
      eapply more_trans; [exact H1|]. eapply more_trans; [|exact H]. destruct (e_asleep x0); [|apply more_refl].
      eexists. split; [reflexivity|]. repeat constructor.
  Qed.

  (** [x] is alive and not infinitely heavy. *)
  Definition finite_at ents x : Prop := exists e, aget ents x = Some e /\ n_isfin (e_total_mass e) = true.
  Lemma finite_at_step R ents ents' x : arel R ents ents' -> (forall h e e', R h e e' -> Rstep h e e') ->
    finite_at ents' x <-> finite_at ents x.
  Proof.
    intros H HR. split; intros (e & He & Hf).
    - destruct (arel_get_r _ _ _ _ _ H He) as (e0 & H0 & Hr). apply HR in Hr. destruct Hr as (_ & _ & Hm & _). exists e0. rewrite <- Hm. auto.
    - destruct (arel_get _ _ _ _ _ H He) as (e0 & H0 & Hr). apply HR in Hr. destruct Hr as (_ & _ & Hm & _). exists e0. rewrite Hm. auto.
  Qed.
  Lemma slept_Rstep ents0 W h e e' : slept_one ents0 W h e e' -> Rstep h e e'.
  Proof. intros (H & _). exact H. Qed.

  Section Loop.
    Context {O : Ord N}.
    Lemma fin_not_inf (x : T) : n_isfin x = true -> n_isinf x = false.
    Proof. rewrite key_isfin, key_isinf. destruct (key x); simpl; congruence. Qed.

    Lemma wake_finite_slept ord ents0 (W : handle -> Prop) x st r : good_order ord -> slept ents0 W (fst st) ->
      wake_finite ord x st = Ok r ->
      slept ents0 (fun k => W k \/ (finite_at ents0 x /\ connected ents0 x k)) (fst r) /\ more_woken (snd st) (snd r).
    Proof.
      intros Ho Hs H. unfold wake_finite in H. inv_ok H. rename x0 into e.
      assert (Hf : finite_at ents0 x <-> n_isfin (e_total_mass e) = true).
      { rewrite <- (finite_at_step _ _ _ x (sl_ents _ _ _ Hs) (slept_Rstep _ _)). unfold finite_at. rewrite E. split.
        - intros (e' & He & Hf). congruence.
        - eauto. }
      destruct (n_isfin (e_total_mass e)) eqn:Hfin.
      - split.
        + eapply slept_iff; [|eapply (slept_wake _ _ _ _ x); eauto].
          * intros k. simpl. tauto.
          * intros e' He'. assert (e' = e) by congruence. subst. now apply fin_not_inf.
        + unfold wake_up in H. now apply wake_loop_msgs in H.
      - inv_ok H. subst r. split; [|apply more_refl]. eapply slept_iff; [|exact Hs]. intros k. simpl. intuition congruence.
    Qed.

    Lemma advance_awake p a ents infos r : advance p a ents infos = Ok r -> arel Rawake ents (fst r).
    Proof.
      unfold advance. intros H. eapply (rfold_ind _ (fun st => arel Rawake ents (fst st))); [| |exact H].
      - intros [en inf] i st' Hs Hf. unfold advance_one in Hf. inv_ok Hf. inv_ok Hf. subst st'. cbn [fst] in *.
        destruct (e_asleep x) eqn:Ha; auto. eapply arel_trans; [apply Rawake_trans|exact Hs|].
        apply (arel_aset _ _ _ x); auto; [apply Rawake_refl|]. split; [repeat split|]. simpl. intuition congruence.
      - apply arel_refl, Rawake_refl.
    Qed.
    Lemma Rvel_Rawake h e e' : Rvel h e e' -> Rawake h e e'.
    Proof. intros (v & w & ->). split; [repeat split|]. simpl. auto 10. Qed.

    (** Velocities are kept by everything in the loop but the response. *)
    Definition Rkeep (h : handle) e e' : Prop := e_vel e' = e_vel e /\ e_angvel e' = e_angvel e.
    Lemma Rkeep_trans h x y z : Rkeep h x y -> Rkeep h y z -> Rkeep h x z.
    Proof. unfold Rkeep. intuition congruence. Qed.
    Lemma Rkeep_refl h e : Rkeep h e e.
    Proof. split; auto. Qed.
    Lemma Rsleep_Rkeep h e e' : Rsleep h e e' -> Rkeep h e e'.
    Proof. intros (a & ns & ->). split; auto. Qed.
    Lemma advance_keep p a ents infos r : advance p a ents infos = Ok r -> arel Rkeep ents (fst r).
    Proof.
      unfold advance. intros H. eapply (rfold_ind _ (fun st => arel Rkeep ents (fst st))); [| |exact H].
      - intros [en inf] i st' Hs Hf. unfold advance_one in Hf. inv_ok Hf. inv_ok Hf. subst st'. cbn [fst] in *.
        destruct (e_asleep x) eqn:Ha; auto. eapply arel_trans; [apply Rkeep_trans|exact Hs|].
        apply (arel_aset _ _ _ x); auto; [apply Rkeep_refl|]. split; auto.
      - apply arel_refl, Rkeep_refl.
    Qed.
    Lemma respond_keep dt ta f st st' : respond dt ta f st = Ok st' ->
      forall h, h <> fd_h1 f -> h <> fd_h2 f -> aget (l_ents st') h = aget (l_ents st) h.
    Proof.
      unfold respond. intros H h Hh1 Hh2. inv_ok H. inv_ok H.
      destruct (respond_pair x x0 f) as [[[e1' e2'] im] ic] eqn:Er.
      inv_ok H. inv_ok H. inv_ok H. inv_ok H. subst st'. simpl. rewrite !aget_aset_neq by congruence. auto.
    Qed.

    Definition woken_by ents0 (rs : list (crecord T)) (k : handle) : Prop :=
      exists x, named rs x /\ finite_at ents0 x /\ connected ents0 x k.
    (** A record between two entities and their colliders. *)
    Definition rec_ok (cols : arena (collider T)) ents0 (r : crecord T) : Prop :=
      cr_first r <> cr_second r /\
      exists e1 e2 k1 k2 c1 c2, aget ents0 (cr_first r) = Some e1 /\ aget ents0 (cr_second r) = Some e2 /\
        In k1 (e_colliders e1) /\ In k2 (e_colliders e2) /\ aget cols k1 = Some c1 /\ aget cols k2 = Some c2 /\
        cr_rest r = n_mul (mt_rest (c_mat c1)) (mt_rest (c_mat c2)).

    Record loop_inv cols ents0 (st : lstate T) : Prop := {
      li_slept : slept ents0 (woken_by ents0 (l_records st)) (l_ents st);
      li_hs : map i_h (l_infos st) = ahandles ents0;
      li_rec : Forall (rec_ok cols ents0) (l_records st);
      li_keep : forall h e0 e, ~ named (l_records st) h -> aget ents0 h = Some e0 -> aget (l_ents st) h = Some e -> Rkeep h e0 e }.

    Lemma named_app rs (r : crecord T) x : named (rs ++ [r]) x <-> named rs x \/ x = cr_first r \/ x = cr_second r.
    Proof.
      unfold named. split.
      - intros (r' & Hr & Hx). apply in_app_or in Hr. destruct Hr as [Hr|[<-|[]]]; eauto.
      - intros [(r' & Hr & Hx)|Hx]; [exists r'|exists r]; rewrite in_app_iff; simpl; auto.
    Qed.

    Lemma iterate_inv ord cols dt ents0 st st' fin : good_order ord -> loop_inv cols ents0 st ->
      iterate ord cols dt st = Ok (st', fin) ->
      loop_inv cols ents0 st' /\ more_woken (l_debug st) (l_debug st') /\
      exists b, find_earliest ord cols (l_ents st) (l_infos st) = Ok b /\
      l_ctp st' = n_add (l_ctp st) (n_mul (n_sub n1 (l_ctp st)) (fst b)) /\
      match snd b with
      | None => fin = true /\ l_records st' = l_records st
      | Some f => fin = false /\ exists im, l_records st' = l_records st ++
          [mkCR (fd_h1 f) (fd_h2 f) (c_pos (fd_col f)) (n_mul (l_ctp st') dt) (c_normal (fd_col f)) (fd_rest f) im]
      end.
    Proof.
      intros Ho HI H. unfold iterate in H. inv_ok H. rename E into Eb. destruct x as [p of].
      destruct (find_earliest_spec _ _ _ _ _ Ho Eb) as (Hb & _).
      inv_ok H. destruct x as [ents1 dbg1]. inv_ok H. destruct x as [ents2 infos2].
      pose proof (advance_awake _ _ _ _ _ E0) as Aw. pose proof (advance_keep _ _ _ _ _ E0) as Ke.
      pose proof (advance_frame _ _ _ _ _ E0) as (_ & Fh & Fn). cbn [fst snd] in *.
      destruct HI as [I1 I2 I4 I5].
      destruct of as [f|].
      - apply rbind_ok in E. destruct E as ([ents' dbg'] & W1 & W2). inv_ok H. rename x into st2. inv_ok H. subst st2 fin.
        pose proof (respond_frame _ _ _ _ _ E) as (R1 & R2 & R3 & R4 & R5 & im & R6). pose proof (respond_keep _ _ _ _ _ E) as R7.
        cbn [l_ents l_infos l_left l_ctp l_records l_debug fst snd] in *.
        pose proof (wake_finite_frame _ _ _ _ W1) as K1. pose proof (wake_finite_frame _ _ _ _ W2) as K2.
        eapply wake_finite_slept in W1; eauto. destruct W1 as (W1 & D1).
        eapply wake_finite_slept in W2; eauto. destruct W2 as (W2 & D2). cbn [fst snd] in *.
        assert (S2 : slept ents0 (fun k => (woken_by ents0 (l_records st) k \/ finite_at ents0 (fd_h1 f) /\ connected ents0 (fd_h1 f) k) \/
                     finite_at ents0 (fd_h2 f) /\ connected ents0 (fd_h2 f) k) (l_ents st')).
        { eapply slept_awake; [eapply slept_awake; [exact W2|exact Aw]|]. eapply arel_impl; [apply Rvel_Rawake|exact R1]. }
        split; [|split; [rewrite R5; eapply more_trans; eauto|]].
        + split.
          * rewrite R6. eapply slept_iff; [|exact S2]. intros k. cbv beta. unfold woken_by.
            setoid_rewrite named_app. simpl. split.
            -- intros [[(x & A & B & C)|(B & C)]|(B & C)]; eauto 10.
            -- intros (x & [A|[->| ->]] & B & C); eauto 10.
          * congruence.
          * rewrite R6. apply Forall_app. split; auto. constructor; auto.
            destruct Hb as (_ & _ & i1 & i2 & k1 & k2 & c1 & c2 & B1 & B2 & B3 & B4 & B5 & B6 & B7 & B8 & B9 & _).
            simpl in *.
            assert (ND : NoDup (map i_h (l_infos st))) by (rewrite I2; apply ahandles_nodup).
            destruct B6 as (e1 & e2 & c1' & c2' & M1 & M2 & _ & _ & M3 & M4 & _).
            destruct (arel_get_r _ _ _ _ _ (sl_ents _ _ _ I1) M1) as (e1' & G1 & (Gc1 & _) & _).
            destruct (arel_get_r _ _ _ _ _ (sl_ents _ _ _ I1) M2) as (e2' & G2 & (Gc2 & _) & _).
            split; simpl.
            -- rewrite B4, B5. intros Heq.
               assert (X : fd_i1 f = fd_i2 f).
               { eapply NoDup_nth_error; eauto.
                 - rewrite map_length. apply nth_error_Some. congruence.
                 - rewrite !nth_error_map, B2, B3. simpl. congruence. }
               lia.
            -- exists e1', e2', k1, k2, c1, c2. rewrite B4, B5. rewrite <- Gc1, <- Gc2. auto 10.
          * intros h e0 e Hn He0 He. rewrite R6 in Hn. rewrite named_app in Hn. simpl in Hn.
            rewrite R7 in He by tauto.
            destruct (arel_get_r _ _ _ _ _ Ke He) as (ea & Ha & Ka).
            destruct (arel_get_r _ _ _ _ _ K2 Ha) as (eb & Hb' & Kb).
            destruct (arel_get_r _ _ _ _ _ K1 Hb') as (ec & Hc & Kc).
            apply Rsleep_Rkeep in Kb, Kc. specialize (I5 h e0 ec (fun Hx => Hn (or_introl Hx)) He0 Hc).
            exact (Rkeep_trans h _ _ _ I5 (Rkeep_trans h _ _ _ Kc (Rkeep_trans h _ _ _ Kb Ka))).
        + exists (p, Some f). split; [exact Eb|]. split; [exact R4|]. split; auto. rewrite R6, R4. eauto.
      - inv_ok E. subst ents1 dbg1. inv_ok H. subst st' fin. cbn [l_ents l_infos l_left l_ctp l_records l_debug fst snd] in *.
        split; [|split; [apply more_refl|exists (p, None); split; [exact Eb|]; split; [reflexivity|]; split; reflexivity]]. split; cbn [l_ents l_infos l_records]; auto.
        + eapply slept_awake; eauto.
        + congruence.
        + intros h e0 e Hn He0 He. destruct (arel_get_r _ _ _ _ _ Ke He) as (ea & Ha & Ka). exact (Rkeep_trans h _ _ _ (I5 h e0 ea Hn He0 Ha) Ka).
    Qed.

    Lemma iterations_inv ord cols dt ents0 n : good_order ord -> forall st st', loop_inv cols ents0 st ->
      iterations ord cols dt n st = Ok st' ->
      loop_inv cols ents0 st' /\
      exists j d, length (l_records st') = length (l_records st) + j /\ j <= n /\ more_woken (l_debug st) d /\
        l_debug st' = if Nat.eqb j n then d ++ [DRanOut] else d.
    Proof.
      intros Ho. induction n as [|n IH]; intros st st' HI H; simpl in H.
      - inv_ok H. subst st'. split.
        + destruct HI as [I1 I2 I3 I4]. split; auto.
        + exists 0, (l_debug st). simpl. split; auto. split; auto. split; [apply more_refl|auto].
      - inv_ok H. destruct x as [st1 fin]. apply (iterate_inv ord cols dt ents0) in E; auto.
        destruct E as (I1 & D1 & b & _ & _ & Hb). cbn [fst snd] in H. destruct (snd b) as [f|].
        + destruct Hb as (-> & im & R). apply IH in H; auto. destruct H as (I2 & j & d & J1 & J2 & J3 & J4).
          split; auto. exists (S j), d. rewrite J1, R, app_length. simpl. split; [lia|]. split; [lia|]. split; auto. eapply more_trans; eauto.
        + destruct Hb as (-> & R). inv_ok H. subst st'. split; auto. exists 0, (l_debug st1). rewrite R. split; [lia|]. split; [lia|]. split; auto.
    Qed.
  End Loop.

  (** ** Falling asleep *)
  (** Only the set of neighbours differs. *)
  Definition Rnbr (h : handle) e e' : Prop := exists ns, e' = e_set_sleep e (e_asleep e) ns.
  Lemma Rnbr_refl h e : Rnbr h e e.
  Proof. exists (e_neighbors e). now destruct e. Qed.
  Lemma Rnbr_trans h x y z : Rnbr h x y -> Rnbr h y z -> Rnbr h x z.
  Proof. intros (a & ->) (b & ->). exists b. reflexivity. Qed.
  Lemma sleep_decision_nbr dt et tt ns h e e1 : Rnbr h e e1 ->
    Rnbr h (fst (sleep_decision dt et tt ns e)) (fst (sleep_decision dt et tt ns e1)) /\
    snd (sleep_decision dt et tt ns e1) = snd (sleep_decision dt et tt ns e).
  Proof.
    intros (ms & ->). unfold sleep_decision. cbn [e_asleep e_set_sleep e_falling e_falling_time].
    change (get_total_energy (e_set_sleep e (e_asleep e) ms)) with (get_total_energy e).
    destruct (e_asleep e) eqn:Ea; [split; auto; exists ms; simpl; rewrite ?Ea; reflexivity|].
    destruct (n_lt et _); [split; auto; exists ms; simpl; rewrite ?Ea; reflexivity|].
    destruct (n_lt _ tt); [split; auto; exists ms; simpl; rewrite ?Ea; reflexivity|].
    split; auto. exists ns. reflexivity.
  Qed.
  Lemma sleep_one_spec dt et tt st i st' : sleep_one dt et tt st i = Ok st' ->
    exists e, aget (fst st) (i_h i) = Some e /\
      (exists e', aget (fst st') (i_h i) = Some e' /\ Rnbr (i_h i) (fst (sleep_decision dt et tt (i_nbrs i) e)) e') /\
      (forall h e0, h <> i_h i -> aget (fst st) h = Some e0 -> exists e', aget (fst st') h = Some e' /\ Rnbr h e0 e') /\
      snd st' = snd st ++ (if snd (sleep_decision dt et tt (i_nbrs i) e) then [DSleep (i_h i)] else []).
  Proof.
    destruct st as [ents dbg]. unfold sleep_one. intros H. inv_ok H. cbn [fst snd] in *. exists x. split; auto.
    destruct (sleep_decision dt et tt (i_nbrs i) x) as [d sl]. cbn [fst snd] in *.
    assert (G : exists ents', arel Rnbr (aset ents (i_h i) d) ents' /\ st' = (ents', dbg ++ if sl then [DSleep (i_h i)] else [])).
    { destruct sl.
      - inv_ok H. inv_ok H. subst st'. eexists. split; [|reflexivity].
        eapply (rfold_ind _ (fun en => arel Rnbr (aset ents (i_h i) d) en)); [| |exact E0].
        + intros s nh s' Hs Hf. inv_ok Hf. inv_ok Hf. subst s'. eapply arel_trans; [apply Rnbr_trans|exact Hs|].
          eapply arel_aset; [apply Rnbr_refl|exact E1|]. eexists. reflexivity.
        + apply arel_refl, Rnbr_refl.
      - inv_ok H. subst st'. eexists. rewrite app_nil_r. split; [|reflexivity]. apply arel_refl, Rnbr_refl. }
    destruct G as (ents' & G & ->). cbn [fst snd]. split; [|split; auto].
    - eapply arel_get; [exact G|]. eapply aget_aset_eq; eauto.
    - intros h e0 Hne He. eapply arel_get; [exact G|]. rewrite aget_aset_neq; auto.
  Qed.

  Lemma sleep_phase_spec dt et tt l : NoDup (map i_h l) -> forall st st',
    rfold (sleep_one dt et tt) l st = Ok st' ->
    (forall h e, aget (fst st) h = Some e -> exists e', aget (fst st') h = Some e' /\
       (forall i, In i l -> i_h i = h -> Rnbr h (fst (sleep_decision dt et tt (i_nbrs i) e)) e') /\
       (~ In h (map i_h l) -> Rnbr h e e')) /\
    exists ds, snd st' = snd st ++ ds /\
      forall m, In m ds <-> exists i e, In i l /\ aget (fst st) (i_h i) = Some e /\
        snd (sleep_decision dt et tt (i_nbrs i) e) = true /\ m = DSleep (i_h i).
  Proof.
    induction l as [|i l IH]; intros ND st st' H; simpl in H.
    - inv_ok H. subst st'. split.
      + intros h e He. exists e. split; auto. split; [intros i []|]. intros _. apply Rnbr_refl.
      + exists []. rewrite app_nil_r. split; auto. intros m. split; [intros []|]. intros (i & e & [] & _).
    - apply rbind_ok in H. destruct H as (st1 & E & H). simpl in ND. apply NoDup_cons_iff in ND. destruct ND as (Hi & ND).
      pose proof (sleep_one_frame _ _ _ _ _ _ E) as Fr. apply sleep_one_spec in E. destruct E as (e & E1 & (e1 & E2 & E3) & E4 & E5).
      apply IH in H; auto. destruct H as (H1 & ds & H2 & H3). split.
      + intros h e0 He0. destruct (handle_eq_dec h (i_h i)) as [->|Hne].
        * assert (e0 = e) by congruence. subst e0. destruct (H1 _ _ E2) as (e' & A1 & A2 & A3). exists e'. split; auto. split.
          -- intros j [<-|Hj] Hh; [eapply Rnbr_trans; eauto|]. exfalso. apply Hi. rewrite <- Hh. now apply in_map.
          -- intros Hc. exfalso. apply Hc. now left.
        * destruct (E4 _ _ Hne He0) as (e2 & B1 & B2). destruct (H1 _ _ B1) as (e' & A1 & A2 & A3). exists e'. split; auto. split.
          -- intros j [<-|Hj] Hh; [congruence|]. destruct (sleep_decision_nbr dt et tt (i_nbrs j) h e0 e2 B2) as (C1 & _).
             eapply Rnbr_trans; eauto.
          -- intros Hc. eapply Rnbr_trans; [exact B2|]. apply A3. intros Hx. apply Hc. now right.
      + exists ((if snd (sleep_decision dt et tt (i_nbrs i) e) then [DSleep (i_h i)] else []) ++ ds). split.
        * rewrite H2, E5, app_assoc. reflexivity.
        * intros m. rewrite in_app_iff, H3. split.
          -- intros [Hm|(j & ej & J1 & J2 & J3 & J4)].
             ++ destruct (snd (sleep_decision dt et tt (i_nbrs i) e)) eqn:Es; [|destruct Hm]. destruct Hm as [<-|[]].
                exists i, e. split; [now left|]. auto.
             ++ assert (Hne : i_h j <> i_h i) by (intros Hx; apply Hi; rewrite <- Hx; now apply in_map).
                destruct (aget (fst st) (i_h j)) as [e0|] eqn:E0.
                ** destruct (E4 _ _ Hne E0) as (e2 & B1 & B2). assert (e2 = ej) by congruence. subst e2.
                   destruct (sleep_decision_nbr dt et tt (i_nbrs j) _ e0 ej B2) as (_ & C). exists j, e0. rewrite <- C. split; [now right|]. auto.
                ** apply (arel_none _ _ _ _ Fr) in E0. congruence.
          -- intros (j & ej & [<-|Hj] & J2 & J3 & J4).
             ++ left. assert (ej = e) by congruence. subst ej. rewrite J3. left. auto.
             ++ right. assert (Hne : i_h j <> i_h i) by (intros Hx; apply Hi; rewrite <- Hx; now apply in_map).
                destruct (E4 _ _ Hne J2) as (e2 & B1 & B2). destruct (sleep_decision_nbr dt et tt (i_nbrs j) _ ej e2 B2) as (_ & C).
                exists j, e2. rewrite C. auto.
  Qed.

  (** ** The whole step *)
  Lemma step_phases ord s dt s' : step ord s dt = Ok s' -> n_lt (n_abs dt) EPSILON = false ->
    exists s1 infos st,
      let s0 := mkS (s_ents s) (s_cols s) (s_gens s) (s_iteration_max s) [] (s_energy_thr s) (s_time_thr s) [] in
      rfold (integrate_one dt (ahandles (s_gens s0))) (ahandles (s_ents s0)) (s0, []) = Ok (s1, infos) /\
      iterations ord (s_cols s) dt (s_iteration_max s) (mkL (s_ents s1) infos dt n0 [] []) = Ok st /\
      rfold (sleep_one dt (s_energy_thr s) (s_time_thr s)) (l_infos st) (l_ents st, l_debug st) = Ok (s_ents s', s_debug s') /\
      s_records s' = l_records st /\ s_gens s' = s_gens s1 /\
      map i_h infos = ahandles (s_ents s1) /\ arel Rvel (s_ents s) (s_ents s1).
  Proof.
    unfold step. intros H Hd. rewrite Hd in H. inv_ok H. destruct x as [s1 infos]. inv_ok H. inv_ok H. inv_ok H. subst s'. simpl.
    exists s1, infos, x. pose proof (integrate_frame _ _ _ _ _ E) as ([A1 A2 A3 A4 A5 A6 A7 A8] & B & _). simpl in *.
    split; auto. rewrite A2, A4, A5, A8 in E0. split; auto. rewrite A6, A7 in E1. split; [rewrite E1; now destruct x0|].
    repeat (split; auto). rewrite B. destruct A1 as (_ & A1 & _). now rewrite A1.
  Qed.

  (** Integration leaves the contact graph alone. *)
  Lemma connected_vel ents ents' x k : arel Rvel ents ents' -> connected ents x k <-> connected ents' x k.
  Proof.
    intros H.
    assert (C : forall a b, contact ents a b <-> contact ents' a b).
    { intros a b. unfold contact. split; intros (e & He & Hb).
      - destruct (arel_get _ _ _ _ _ H He) as (e' & He' & v & w & ->). exists (e_set_vels e v w). auto.
      - destruct (arel_get_r _ _ _ _ _ H He) as (e' & He' & v & w & ->). exists e'. auto. }
    assert (M : forall b, movable ents b <-> movable ents' b).
    { intros b. unfold movable. split; intros (e & He & Hb).
      - destruct (arel_get _ _ _ _ _ H He) as (e' & He' & v & w & ->). exists (e_set_vels e v w). auto.
      - destruct (arel_get_r _ _ _ _ _ H He) as (e' & He' & v & w & ->). exists e'. auto. }
    split; intros Hc; induction Hc as [|a b Hc IH Hab Hb]; try apply conn_start;
      (apply (conn_next _ _ a); [exact IH|now apply C|now apply M]).
  Qed.

  Section Whole.
    Context {O : Ord N}.
    Lemma loop_inv_init cols ents infos dt : map i_h infos = ahandles ents ->
      loop_inv cols ents (mkL ents infos dt n0 [] []).
    Proof.
      intros H. split; simpl; auto.
      - eapply slept_iff; [|apply slept_refl]. intros k. split; [tauto|]. intros (x & (r & [] & _) & _).
      - intros h e0 e _ H1 H2. assert (e = e0) by congruence. subst. apply Rkeep_refl.
    Qed.

    (** Everything about one entity of a step, phase by phase. *)
    Record entity_steps (s : system T) dt (s' : system T) (h : handle) (e e1 e2 e' : ientity T) : Prop := {
      es_before : aget (s_ents s) h = Some e;
      es_forces : exists fs, forces_on s dt h fs /\ e1 = e_set_vels e (pushed_vel dt fs e) (pushed_angvel dt fs e);
      es_step : Rstep h e1 e2;
      es_falling : e_falling e2 = e_falling e1 /\ e_falling_time e2 = e_falling_time e1;
      es_roused : roused s s' h -> e_asleep e2 = false /\ e_neighbors e2 = [];
      es_sleeping : ~ roused s s' h -> e_asleep e2 = e_asleep e /\ incl (e_neighbors e2) (e_neighbors e) /\
        (n_isinf (e_total_mass e) = false -> e_neighbors e2 = e_neighbors e) /\ (e_asleep e = true -> e_orient e2 = e_orient e);
      es_keep : ~ named (s_records s') h -> Rkeep h e1 e2;
      es_decided : exists ns, Rnbr h (fst (sleep_decision dt (s_energy_thr s) (s_time_thr s) ns e2)) e' /\
        (In (DSleep h) (s_debug s') <-> snd (sleep_decision dt (s_energy_thr s) (s_time_thr s) ns e2) = true);
      es_after : aget (s_ents s') h = Some e' }.

    Lemma step_entity ord s dt s' : good_order ord -> step ord s dt = Ok s' -> n_lt (n_abs dt) EPSILON = false ->
      (forall k, roused s s' k \/ ~ roused s s' k) /\
      (forall h e, aget (s_ents s) h = Some e -> exists e1 e2 e', entity_steps s dt s' h e e1 e2 e') /\
      (forall h, aget (s_ents s) h = None -> ~ In (DSleep h) (s_debug s')) /\
      Forall (rec_ok (s_cols s) (s_ents s)) (s_records s') /\
      length (s_records s') <= s_iteration_max s /\
      (In DRanOut (s_debug s') <-> length (s_records s') = s_iteration_max s).
    Proof.
      intros Ho H Hd. pose proof (step_frame _ _ _ _ H) as (Fs & _).
      destruct (step_phases _ _ _ _ H Hd) as (s1 & infos & st & P1 & P2 & P3 & P4 & P5 & P6 & P7). cbv zeta in P1.
      pose proof (integrate_spec _ _ _ P1) as (Q1 & Q2 & Q3 & Q4). cbn [fst snd s_ents s_gens] in *.
      assert (P2' := P2). apply (iterations_inv ord (s_cols s) dt (s_ents s1) (s_iteration_max s) Ho _ _ (loop_inv_init _ _ _ _ P6)) in P2.
      destruct P2 as ([L1 L2 L3 L4] & j & d & J1 & J2 & J3 & J4). cbn [l_records l_debug length] in *.
      assert (ND : NoDup (map i_h (l_infos st))) by (rewrite L2; apply ahandles_nodup).
      pose proof (sleep_phase_spec _ _ _ _ ND _ _ P3) as (S1 & ds & S2 & S3). cbn [fst snd] in *.
      assert (F : forall x, finite_at (s_ents s1) x <-> finite_at (s_ents s) x) by (intros x; apply (finite_at_step _ _ _ x P7 (Rvel_Rstep))).
      assert (F' : forall x, finite_at (s_ents s') x <-> finite_at (s_ents s) x) by (intros x; apply (finite_at_step _ _ _ x Fs); auto).
      assert (Ro : forall k, roused s s' k <-> woken_by (s_ents s1) (l_records st) k).
      { intros k. unfold roused, struck, woken_by. rewrite <- P4. split.
        - intros (x & ((r & Hr & Hx) & (e & He & Hf)) & Hc). exists x. split; [exists r; auto|].
          split; [|now apply (connected_vel _ _ _ _ P7)]. apply F. apply F'. unfold get_entity in He.
          destruct (aget (s_ents s') x) as [e''|] eqn:Ee; [|discriminate]. injection He as <-. exists e''. auto.
        - intros (x & (r & Hr & Hx) & Hf & Hc). exists x. split; [|now apply (connected_vel _ _ _ _ P7)].
          split; [eauto|]. apply F, F' in Hf. destruct Hf as (e & He & Hf). exists (make_pub e). unfold get_entity. rewrite He. auto. }
      assert (DS : forall h, In (DSleep h) (s_debug s') <-> In (DSleep h) ds).
      { intros h. rewrite S2, in_app_iff. split; auto. intros [Hx|Hx]; auto. exfalso. rewrite J4 in Hx. destruct J3 as (l & -> & Fl).
        assert (Hl : In (DSleep h) l) by (destruct (Nat.eqb j _); auto; apply in_app_or in Hx; destruct Hx as [Hx|[Hx|[]]]; [auto|discriminate]).
        rewrite Forall_forall in Fl. apply (Fl _ Hl). }
      split; [|split; [|split; [|split; [|split]]]].
      - intros k. rewrite Ro. apply (sl_dec _ _ _ L1).
      - intros h e He. destruct (Q3 h e He) as (fs & Hfs & He1).
        destruct (arel_get _ _ _ _ _ (sl_ents _ _ _ L1) He1) as (e2 & He2 & A1 & A2 & A3 & A4 & A5).
        destruct (S1 h e2 He2) as (e' & He' & B1 & _).
        assert (Hi : In h (map i_h (l_infos st))) by (rewrite L2, ahandles_in; congruence).
        apply in_map_iff in Hi. destruct Hi as (i & Hih & Hi). specialize (B1 i Hi Hih).
        exists (e_set_vels e (pushed_vel dt fs e) (pushed_angvel dt fs e)), e2, e'. split; auto.
        + exists fs. split; auto.
        + rewrite Ro. exact A4.
        + rewrite Ro. intros Hn. exact (A5 Hn).
        + rewrite P4. intros Hn. eapply L4; eauto.
        + exists (i_nbrs i). split; auto. rewrite DS, S3. split.
          * intros (k & ek & K1 & K2 & K3 & K4). injection K4 as K4.
            assert (k = i).
            { apply In_nth_error in K1. destruct K1 as (n1' & K1). apply In_nth_error in Hi. destruct Hi as (n2' & Hi).
              assert (n1' = n2').
              { eapply (proj1 (NoDup_nth_error (map i_h (l_infos st)))); eauto.
                - rewrite map_length. apply nth_error_Some. congruence.
                - rewrite !nth_error_map, K1, Hi. simpl. congruence. }
              congruence. }
            subst k. assert (ek = e2) by congruence. subst. auto.
          * intros Hs. exists i, e2. rewrite Hih. auto.
      - intros h Hh. rewrite DS, S3. intros (i & ei & I1 & I2 & _ & I3). injection I3 as ->.
        destruct (arel_get_r _ _ _ _ _ (sl_ents _ _ _ L1) I2) as (e1 & E1 & _). apply Q2 in Hh. congruence.
      - rewrite P4. eapply Forall_impl; [|exact L3]. intros r (R1 & e1 & e2 & k1 & k2 & c1 & c2 & R2 & R3 & R4 & R5 & R6). split; auto.
        destruct (arel_get_r _ _ _ _ _ P7 R2) as (e1' & R2' & v1 & w1 & ->). destruct (arel_get_r _ _ _ _ _ P7 R3) as (e2' & R3' & v2 & w2 & ->).
        exists e1', e2', k1, k2, c1, c2. auto 10.
      - rewrite P4, J1. simpl. auto.
      - rewrite P4, J1, S2, in_app_iff, J4. simpl. destruct J3 as (l & -> & Fl).
        assert (A : ~ In DRanOut l) by (rewrite Forall_forall in Fl; intros Hx; apply (Fl _ Hx)).
        assert (B : ~ In DRanOut ds) by (rewrite S3; intros (i & ei & _ & _ & _ & I3); discriminate).
        destruct (Nat.eqb_spec j (s_iteration_max s)) as [Hj|Hj].
        + rewrite in_app_iff. simpl. tauto.
        + simpl. tauto.
    Qed.
  End Whole.
End Step.
