(** * Step3P: collisions, free motion and force generators in a step *)
From Coq Require Import List Permutation Bool Arith Lia.
Import ListNotations.
From Verif Require Import Num Vec Res Arena Orient Colliders Collide EntityM SystemM Spec ResP ArenaP OrderP ArithP FrameP StoreP Store2P ExecP WakeP StepP Step2P.

(** ** The recursion bound of the model is never hit *)
Section NoFuel.
  Context {T : Type} {N : Num T}.
  Definition nf {A} (r : res A) : Prop := r <> Fuel.
  Lemma nf_ok {A} (a : A) : nf (Ok a). Proof. discriminate. Qed.
  Lemma nf_panic {A} : nf (@Panic A). Proof. discriminate. Qed.
  Lemma nf_unwrap {A} (o : option A) : nf (unwrap o). Proof. destruct o; discriminate. Qed.
  Lemma nf_rbind {A B} (m : res A) (f : A -> res B) : nf m -> (forall a, m = Ok a -> nf (f a)) -> nf (rbind m f).
  Proof. destruct m; simpl; intros H1 H2; [now apply H2|apply nf_panic|exfalso; now apply H1]. Qed.
  Lemma nf_rfold {A S} (f : S -> A -> res S) l : (forall s a, nf (f s a)) -> forall s, nf (rfold f l s).
  Proof. intros H. induction l as [|a l IH]; intros s; simpl; [apply nf_ok|]. apply nf_rbind; auto. Qed.
  Lemma nf_rmap {A B} (f : A -> res B) l : (forall a, nf (f a)) -> nf (rmap f l).
  Proof. intros H. induction l as [|a l IH]; simpl; [apply nf_ok|]. apply nf_rbind; auto. intros. apply nf_rbind; auto. intros. apply nf_ok. Qed.

  Ltac nofuel := repeat match goal with
    | |- nf (Ok _) => apply nf_ok
    | |- nf Panic => apply nf_panic
    | |- nf (unwrap _) => apply nf_unwrap
    | |- nf (rbind _ _) => apply nf_rbind; [|intros ? ?]
    | |- nf (rfold _ _ _) => apply nf_rfold; intros ? ?
    | |- nf (rmap _ _) => apply nf_rmap; intros ?
    | |- nf (match ?x with _ => _ end) => destruct x
    | |- nf _ => assumption
    | |- _ => progress cbv beta zeta
    end.

  Lemma nf_ainsert {A} (a : arena A) x : nf (ainsert a x).
  Proof. unfold ainsert, atry_insert. nofuel. Qed.
  Lemma nf_com_loop (o : orientation T) cols hs : forall m c, nf (com_loop o cols hs m c).
  Proof. induction hs as [|h hs IH]; intros m c; simpl; nofuel. apply IH. Qed.
  Lemma nf_recalc hs cols (e : ientity T) : nf (recalculate_mass hs cols e).
  Proof.
    unfold recalculate_mass, moi_loop. apply nf_rbind; [apply nf_com_loop|]. intros [[[] m] c] _; simpl; [|]; destruct (n_lt _ _); simpl; nofuel.
  Qed.
  Lemma nf_polygon_normal (pts : list (Vec3 T)) is : nf (polygon_normal_from pts is).
  Proof. induction is as [|i is IH]; simpl; nofuel. Qed.
  Lemma nf_collide (c1 : collider T) s1 e1 c2 s2 e2 : nf (collide c1 s1 e1 c2 s2 e2).
  Proof.
    assert (G1 : forall r c m vs es fs mv, nf (collide_sphere_with_mesh (T:=T) r c m vs es fs mv)).
    { intros. unfold collide_sphere_with_mesh, collide_sphere_with_polygon_surface. nofuel. }
    assert (G0 : forall p q pl, nf (collide_point_with_polygon (T:=T) p q pl)).
    { intros. unfold collide_point_with_polygon, get_polygon_normal. apply nf_rbind; [apply nf_polygon_normal|]. intros. nofuel. }
    assert (G2 : forall o p f q n, nf (collide_mesh_points_with_mesh_faces (T:=T) o p f q n)).
    { intros. unfold collide_mesh_points_with_mesh_faces. nofuel. apply G0. }
    assert (G3 : forall m s e m' s' e', nf (collide_mesh_with_mesh (T:=T) m s e m' s' e')).
    { intros. unfold collide_mesh_with_mesh. nofuel; apply G2. }
    destruct c1, c2; simpl; nofuel; first [apply G1|apply G3].
  Qed.
  Lemma nf_remove_collider (s : system T) h : nf (remove_collider s h).
  Proof. unfold remove_collider. nofuel. Qed.
  Lemma nf_update_entity ord (s : system T) h src : good_order ord -> nf (update_entity ord s h src).
  Proof.
    intros Ho. unfold update_entity. destruct (aget _ _); [|apply nf_ok]. destruct (update_from _ _) as [[e1 w]|]; [|apply nf_ok].
    apply nf_rbind; [apply nf_recalc|]. intros e2 _. destruct w; [|apply nf_ok]. apply nf_rbind; [now apply wake_up_nofuel|]. intros. apply nf_ok.
  Qed.
  Lemma nf_update_collider ord (s : system T) h src : nf (update_collider ord s h src).
  Proof. unfold update_collider. nofuel; apply nf_recalc. Qed.
  Lemma nf_link_collider ord (s : system T) h t : nf (link_collider ord s h t).
  Proof. unfold link_collider. nofuel; apply nf_recalc. Qed.

  Lemma gravity_ends a : gen_ends (GenGravity a).
  Proof. intros g' dt w h H. apply becomes_gravity in H. subst. simpl. apply nf_rbind; [apply nf_unwrap|]. intros. apply nf_ok. Qed.

  Lemma nf_sum_forces dt h copy ghs : forall s, gens_end s -> nf (sum_forces (T:=T) dt h copy s ghs).
  Proof.
    unfold sum_forces. intros s. set (acc := vzero) at 1. set (tq := vzero). generalize acc tq. clear acc tq. revert s.
    induction ghs as [|gh ghs IH]; intros s acc tq Hg; [apply nf_ok|]. simpl. apply nf_rbind.
    - apply nf_rbind; [apply nf_unwrap|]. intros g Hget. apply unwrap_ok in Hget. apply nf_rbind.
      + apply (Hg gh g Hget). apply becomes_refl.
      + intros [f g'] _. apply nf_ok.
    - intros st Hst. inv_ok Hst. inv_ok Hst. destruct x0 as [f g']. inv_ok Hst. subst st. apply IH.
      intros k g0 Hk. unfold get_generator in Hk. simpl in Hk. destruct (handle_eq_dec gh k) as [<-|Hne].
      + rewrite (aget_aset_eq _ _ _ _ E) in Hk. injection Hk as <-. intros g2 d w h2 Hb. apply (Hg gh x E). eapply becomes_trans; [|exact Hb].
        eapply becomes_asked; [apply becomes_refl|exact E0].
      + rewrite aget_aset_neq in Hk by auto. exact (Hg k g0 Hk).
  Qed.
  Lemma gens_end_rel (s s' : system T) : arel Rgen (s_gens s) (s_gens s') -> gens_end s -> gens_end s'.
  Proof.
    intros H Hg gh g Hget. destruct (arel_get_r _ _ _ _ _ H Hget) as (g0 & H0 & Hb). intros g2 d w h Hb2.
    apply (Hg gh g0 H0). eapply becomes_trans; eauto.
  Qed.
  Lemma nf_integrate dt ghs hs : forall st, gens_end (fst st) -> nf (rfold (integrate_one (T:=T) dt ghs) hs st).
  Proof.
    induction hs as [|h hs IH]; intros st Hg; [apply nf_ok|]. simpl. apply nf_rbind.
    - destruct st as [s infos]. unfold integrate_one. apply nf_rbind; [apply nf_unwrap|]. intros copy _. apply nf_rbind.
      + destruct (_ && _); [now apply nf_sum_forces|apply nf_ok].
      + intros [[s1 a] t] _. apply nf_rbind; [apply nf_unwrap|]. intros. apply nf_ok.
    - intros st1 E. apply IH. destruct st as [s infos]. unfold integrate_one in E. cbn [fst] in *. inv_ok E.
      apply rbind_ok in E. destruct E as ([[s1 a] t] & Es & E). inv_ok E. inv_ok E. subst st1. cbn [fst].
      assert (R : arel Rgen (s_gens s) (s_gens s1)).
      { destruct (_ && _).
        - apply (sum_forces_spec s) in Es; auto; [|apply arel_refl; apply Rgen_refl]. destruct Es as (fs & _ & _ & _ & R). exact R.
        - injection Es as <- _ _. apply arel_refl, Rgen_refl. }
      eapply gens_end_rel; [|exact Hg]. exact R.
  Qed.
  Lemma nf_find_earliest ord cols (ents : arena (ientity T)) infos : nf (find_earliest ord cols ents infos).
  Proof. unfold find_earliest, check_entities, check_colliders. nofuel. apply nf_collide. Qed.
  Lemma nf_iterate ord cols dt (st : lstate T) : good_order ord -> nf (iterate ord cols dt st).
  Proof.
    intros Ho. unfold iterate. apply nf_rbind; [apply nf_find_earliest|]. intros [p of] _.
    assert (W : forall h st, nf (wake_finite (T:=T) ord h st)).
    { intros h st0. unfold wake_finite. apply nf_rbind; [apply nf_unwrap|]. intros. destruct (n_isfin _); [now apply wake_up_nofuel|apply nf_ok]. }
    apply nf_rbind.
    - destruct of as [f|]; [|apply nf_ok]. apply nf_rbind; auto.
    - intros [ents dbg] _. apply nf_rbind; [unfold advance, advance_one; nofuel|]. intros [ents2 infos2] _.
      destruct of as [f|]; [|apply nf_ok]. apply nf_rbind; [|intros; apply nf_ok]. unfold respond, upd_info. nofuel.
  Qed.
  Lemma nf_iterations ord cols dt n : good_order ord -> forall st : lstate T, nf (iterations ord cols dt n st).
  Proof.
    intros Ho. induction n as [|n IH]; intros st; simpl; [apply nf_ok|]. apply nf_rbind; [now apply nf_iterate|]. intros [st' []] _; simpl; [apply nf_ok|apply IH].
  Qed.
  Lemma nf_step ord (s : system T) dt : good_order ord -> gens_end s -> nf (step ord s dt).
  Proof.
    intros Ho Hg. unfold step. destruct (n_lt _ _); [apply nf_ok|]. apply nf_rbind; [now apply nf_integrate|]. intros [s1 infos] _.
    apply nf_rbind; [now apply nf_iterations|]. intros st _. apply nf_rbind; [|intros; apply nf_ok]. unfold sleep_one. nofuel.
  Qed.
  Lemma nf_exec ord (s : system T) o : good_order ord -> gens_end s -> exec ord s o <> Fuel.
  Proof.
    intros Ho Hg. destruct o; simpl; try (apply nf_rbind; [|intros; apply nf_ok]); try apply nf_ok.
    - unfold add_entity. nofuel. apply nf_ainsert.
    - unfold remove_entity. nofuel. apply nf_remove_collider.
    - now apply nf_update_entity.
    - unfold add_collider. nofuel. apply nf_ainsert.
    - apply nf_remove_collider.
    - apply nf_update_collider.
    - apply nf_link_collider.
    - unfold add_generator. nofuel. apply nf_ainsert.
    - now apply nf_step.
  Qed.
End NoFuel.

Section Step3.
  Context {T : Type} {N : Num T}.
  Implicit Types (s : system T) (e : ientity T).

  (** ** C46: the generators are asked about each pushable entity once *)
  Lemma sum_forces_logs dt h copy gh ghs : NoDup ghs -> In gh ghs -> forall s n log r,
    get_generator s gh = Some (logger n log) -> sum_forces (T:=T) dt h copy s ghs = Ok r ->
    exists n', get_generator (fst (fst r)) gh = Some (logger n' (log ++ [h])).
  Proof.
    unfold sum_forces. intros ND Hin s. set (acc := vzero) at 1. set (tq := vzero). generalize acc tq. clear acc tq.
    assert (Skip : forall ghs s acc tq r g0, ~ In gh ghs -> get_generator s gh = Some g0 ->
      rfold (fun st gh => let '(s, acceleration, torque) := st in
        rbind (unwrap (aget (s_gens s) gh)) (fun g => rbind (make_force g dt (view_of s) h) (fun fg =>
        let '(f, g') := fg in Ok (s_set_gens s (aset (s_gens s) gh g'),
          vadd acceleration (vscale (f_force f) (n_div n1 (pe_last_total_mass copy))),
          vadd torque (mulmv (last_moment copy) (vcross (vsub (f_pos f) (pe_pos copy)) (f_force f))))))) ghs (s, acc, tq) = Ok r ->
      get_generator (fst (fst r)) gh = Some g0).
    { clear. induction ghs as [|g ghs IH]; intros s acc tq r g0 Hn Hg H; simpl in H.
      - inv_ok H. subst r. exact Hg.
      - apply rbind_ok in H. destruct H as (st & E & H). inv_ok E. inv_ok E. destruct x0 as [f g']. inv_ok E. subst st.
        eapply IH; [|  |exact H].
        + intros Hx. apply Hn. now right.
        + unfold get_generator in *. simpl. rewrite aget_aset_neq; auto. intros ->. apply Hn. now left. }
    revert s. induction ghs as [|g ghs IH]; intros s acc tq n log r Hg H; [destruct Hin|].
    simpl in H. apply rbind_ok in H. destruct H as (st & E & H). inv_ok E. inv_ok E. destruct x0 as [f g']. inv_ok E. subst st.
    inversion ND as [|? ? Nin ND']; subst. destruct (handle_eq_dec g gh) as [->|Hne].
    - unfold get_generator in Hg. assert (x = logger n log) by congruence. subst x.
      destruct n as [|n]; simpl in E1; [discriminate|]. injection E1 as <- <-. exists n.
      eapply Skip; [exact Nin| |exact H]. unfold get_generator. simpl. eapply aget_aset_eq; eauto.
    - destruct Hin as [->|Hin]; [congruence|]. eapply (IH ND' Hin _ _ _ n log); [|exact H].
      unfold get_generator in *. simpl. rewrite aget_aset_neq; auto.
  Qed.

  Lemma integrate_logs dt gh s0 hs : NoDup hs -> In gh (ahandles (s_gens s0)) -> forall st n log r,
    (forall h, In h hs -> aget (s_ents (fst st)) h = aget (s_ents s0) h) ->
    get_generator (fst st) gh = Some (logger n log) ->
    rfold (integrate_one dt (ahandles (s_gens s0))) hs st = Ok r ->
    exists n', get_generator (fst r) gh = Some (logger n' (log ++ filter (pushable_at s0) hs)).
  Proof.
    intros ND Hin. induction hs as [|h hs IH]; intros [s infos] n log r Hs Hg H; simpl in H.
    - inv_ok H. subst r. exists n. simpl. rewrite app_nil_r. exact Hg.
    - apply rbind_ok in H. destruct H as (st1 & E & H). inversion ND as [|? ? Nin ND']; subst.
      unfold integrate_one in E. cbn [fst] in *. inv_ok E. rename x into copy, E0 into Ec.
      apply rbind_ok in E. destruct E as ([[s1 a] t] & Es & E). inv_ok E. inv_ok E. subst st1. rename x into e, E0 into Ee.
      assert (He : s_ents s1 = s_ents s).
      { destruct (_ && _); [apply sum_forces_frame in Es; apply Es|inv_ok Es; congruence]. }
      assert (P : pushable_at s0 h = n_isfin (pe_last_total_mass copy) && n_lt EPSILON (pe_last_total_mass copy)).
      { unfold pushable_at. rewrite <- (Hs h (or_introl eq_refl)). unfold get_entity in Ec. rewrite He in Ee. rewrite Ee in *. simpl in Ec. injection Ec as <-. reflexivity. }
      simpl. rewrite P. destruct (_ && _) eqn:Ep.
      + destruct (sum_forces_logs dt h copy gh _ (ahandles_nodup _) Hin _ _ _ _ Hg Es) as (n1' & Hg1). cbn [fst] in Hg1.
        destruct (IH ND' (s_set_ents s1 (aset (s_ents s1) h (e_set_vels e (vadd (e_vel e) (vscale a dt)) (vadd (e_angvel e) (mulmv (get_inverse_moment e) (vscale t dt))))), infos ++ [mkInfo h (vscale (vadd (e_vel e) (vscale a dt)) dt) (vscale (vadd (e_angvel e) (mulmv (get_inverse_moment e) (vscale t dt))) dt) []]) n1' (log ++ [h]) r) as (n2' & Hg2); auto.
        * intros k Hk. cbn [fst s_ents s_set_ents]. rewrite aget_aset_neq by (intros ->; auto). rewrite He. apply Hs. now right.
        * exists n2'. rewrite Hg2, <- app_assoc. reflexivity.
      + injection Es as <- _ _. eapply (IH ND'); [| |exact H].
        * intros k Hk. cbn [fst s_ents s_set_ents]. rewrite aget_aset_neq by (intros ->; auto). apply Hs. now right.
        * exact Hg.
  Qed.
  Lemma step_asks ord s dt s' gh n log : step ord s dt = Ok s' -> n_lt (n_abs dt) EPSILON = false ->
    get_generator s gh = Some (logger n log) ->
    exists n', get_generator s' gh = Some (logger n' (log ++ filter (pushable_at s) (ahandles (s_ents s)))).
  Proof.
    intros H Hd Hg. destruct (step_phases _ _ _ _ H Hd) as (s1 & infos & st & P1 & _ & _ & _ & P5 & _). cbv zeta in P1.
    unfold get_generator in *. rewrite P5. change (pushable_at s) with (pushable_at (mkS (s_ents s) (s_cols s) (s_gens s) (s_iteration_max s) [] (s_energy_thr s) (s_time_thr s) [])).
    eapply integrate_logs in P1; eauto.
    - apply ahandles_nodup.
    - simpl. apply ahandles_in. congruence.
  Qed.

  (** ** Moving everything once *)
  Lemma advance_spec p a infos : NoDup (map i_h infos) -> forall ents r, advance p a ents infos = Ok r ->
    (forall i, In i infos -> exists e, aget ents (i_h i) = Some e /\
       aget (fst r) (i_h i) = Some (if e_asleep e then e else
         e_set_orient e (after_affected (e_orient e) (vscale (i_lin i) p) (vscale (i_ang i) p)))) /\
    (forall h, ~ In h (map i_h infos) -> aget (fst r) h = aget ents h) /\
    snd r = map (fun i => mkInfo (i_h i) (vscale (i_lin i) a) (vscale (i_ang i) a) (i_nbrs i)) infos.
  Proof.
    unfold advance. set (acc := []) at 1. intros ND ents r H.
    enough (G : (forall i, In i infos -> exists e, aget ents (i_h i) = Some e /\
       aget (fst r) (i_h i) = Some (if e_asleep e then e else
         e_set_orient e (after_affected (e_orient e) (vscale (i_lin i) p) (vscale (i_ang i) p)))) /\
    (forall h, ~ In h (map i_h infos) -> aget (fst r) h = aget ents h) /\
    snd r = acc ++ map (fun i => mkInfo (i_h i) (vscale (i_lin i) a) (vscale (i_ang i) a) (i_nbrs i)) infos) by exact G.
    generalize dependent acc. revert ents r. induction infos as [|i infos IH]; intros ents r acc H; simpl in H.
    - inv_ok H. subst r. simpl. rewrite app_nil_r. split; [intros i []|]. auto.
    - apply rbind_ok in H. destruct H as (st & E & H). inv_ok E. inv_ok E. subst st. simpl in ND. apply NoDup_cons_iff in ND. destruct ND as (Hi & ND).
      rename x into e. apply (IH ND) in H. destruct H as (H1 & H2 & H3).
      assert (Ne : forall h, h <> i_h i -> aget (if e_asleep e then ents else aset ents (i_h i) (e_set_orient e (after_affected (e_orient e) (vscale (i_lin i) p) (vscale (i_ang i) p)))) h = aget ents h).
      { intros h Hh. destruct (e_asleep e); auto. apply aget_aset_neq. congruence. }
      split; [|split].
      + intros j [<-|Hj].
        * exists e. split; auto. rewrite H2 by auto. destruct (e_asleep e); auto. eapply aget_aset_eq; eauto.
        * destruct (H1 j Hj) as (ej & A1 & A2). rewrite Ne in A1; eauto. intros Hx. apply Hi. rewrite <- Hx. now apply in_map.
      + intros h Hh. simpl in Hh. rewrite H2 by tauto. apply Ne. intros ->. tauto.
      + rewrite H3, <- app_assoc. reflexivity.
  Qed.

  Section WithOrd.
    Context {O : Ord N} {O2 : Ord2 O}.

    (** ** C28: which collision an iteration responds to *)
    Lemma iterate_earliest ord cols dt (st st' : lstate T) fin : good_order ord ->
      iterate ord cols dt st = Ok (st', fin) ->
      if fin
      then l_records st' = l_records st /\
           forall x y i1 i2 k1 k2 c, x < y -> nth_error (l_infos st) x = Some i1 -> nth_error (l_infos st) y = Some i2 ->
             meets cols (l_ents st) i1 i2 k1 k2 c -> n_lt (c_time c) n1 = false
      else exists x y i1 i2 k1 k2 c, x < y /\ nth_error (l_infos st) x = Some i1 /\ nth_error (l_infos st) y = Some i2 /\
             meets cols (l_ents st) i1 i2 k1 k2 c /\ n_lt (c_time c) n1 = true /\
             (exists rest im, l_records st' = l_records st ++
               [mkCR (i_h i1) (i_h i2) (c_pos c) (n_mul (n_add (l_ctp st) (n_mul (n_sub n1 (l_ctp st)) (c_time c))) dt) (c_normal c) rest im]) /\
             forall x' y' j1 j2 k1' k2' c', x' < y' -> nth_error (l_infos st) x' = Some j1 -> nth_error (l_infos st) y' = Some j2 ->
               meets cols (l_ents st) j1 j2 k1' k2' c' -> n_lt (c_time c') (c_time c) = false.
    Proof.
      intros Ho H. unfold iterate in H. inv_ok H. rename E into Eb. destruct x as [p of].
      destruct (find_earliest_spec _ _ _ _ _ Ho Eb) as (Hb & Hmin). cbn [fst] in Hmin.
      inv_ok H. destruct x as [ents1 dbg1]. inv_ok H. destruct x as [ents2 infos2]. destruct of as [f|].
      - inv_ok H. inv_ok H. subst x fin. apply respond_frame in E1. cbn [l_ents l_infos l_left l_ctp l_records l_debug] in E1.
        destruct E1 as (_ & _ & _ & _ & _ & im & R). destruct Hb as (B0 & B1 & i1 & i2 & k1 & k2 & c1 & c2 & B2 & B3 & B4 & B5 & B6 & B7 & _).
        cbn [fst] in B0, B1. subst p.
        exists (fd_i1 f), (fd_i2 f), i1, i2, k1, k2, (fd_col f). repeat (split; [assumption|]). split; [|exact Hmin].
        exists (fd_rest f), im. rewrite R, B5, B6. reflexivity.
      - inv_ok H. subst st' fin. unfold best_ok in Hb. cbn [fst snd] in Hb. subst p. split; auto.
    Qed.
    Lemma meets_public cols (ents : arena (ientity T)) i1 i2 k1 k2 c : meets cols ents i1 i2 k1 k2 c ->
      ~ contact ents (i_h i1) (i_h i2) /\ ~ contact ents (i_h i2) (i_h i1) /\
      exists e1 e2, aget ents (i_h i1) = Some e1 /\ aget ents (i_h i2) = Some e2 /\
        n_lt (vdot (vsub (velocity_at e1 (c_pos c)) (velocity_at e2 (c_pos c))) (c_normal c)) EPSILON = false.
    Proof.
      intros (e1 & e2 & c1 & c2 & A1 & A2 & A3 & A4 & _ & _ & _ & _ & _ & A5). split; [|split].
      - intros (e & He & Hn). congruence.
      - intros (e & He & Hn). congruence.
      - eauto 10.
    Qed.

    (** ** C29: free motion *)
    Lemma iterations_free ord cols dt n (st st' : lstate T) : good_order ord -> n <> 0 ->
      iterations ord cols dt n st = Ok st' -> l_records st' = l_records st ->
      iterate ord cols dt st = Ok (st', true).
    Proof.
      intros Ho Hn H Hr. destruct n as [|n]; [congruence|]. simpl in H. inv_ok H. destruct x as [st1 []]; cbn [fst snd] in H.
      - inv_ok H. subst. exact E.
      - exfalso. assert (L : length (l_records st) < length (l_records st1)).
        { pose proof (iterate_earliest _ _ _ _ _ _ Ho E) as (x & y & i1 & i2 & k1 & k2 & c & _ & _ & _ & _ & _ & (rest & im & ->) & _). rewrite app_length. simpl. lia. }
        assert (G : forall n (st st' : lstate T), iterations ord cols dt n st = Ok st' -> length (l_records st) <= length (l_records st')).
        { clear - Ho O. induction n as [|n IH]; intros st st' H; simpl in H.
          - inv_ok H. subst. simpl. lia.
          - inv_ok H. destruct x as [st1 []]; cbn [fst snd] in H.
            + inv_ok H. subst. pose proof (iterate_earliest _ _ _ _ _ _ Ho E) as (-> & _). lia.
            + apply IH in H. pose proof (iterate_earliest _ _ _ _ _ _ Ho E) as (x & y & i1 & i2 & k1 & k2 & c & _ & _ & _ & _ & _ & (rest & im & R) & _).
              rewrite R, app_length in H. simpl in H. lia. }
        apply G in H. rewrite Hr in H. lia.
    Qed.

    Lemma vscale_1 (v : Vec3 T) : vscale v n1 = v.
    Proof. destruct v. unfold vscale. simpl. now rewrite !mul_1_r. Qed.

    Lemma step_free ord s dt s' : good_order ord -> step ord s dt = Ok s' -> n_lt (n_abs dt) EPSILON = false ->
      s_iteration_max s <> 0 -> s_records s' = [] ->
      forall h e, aget (s_ents s) h = Some e -> exists fs e', forces_on s dt h fs /\ aget (s_ents s') h = Some e' /\
        if e_asleep e then exists ns, e' = e_set_sleep (e_set_vels e vzero vzero) true ns
        else exists fa ft a ns, e' = e_set_sleep (e_set_falling (e_set_orient (e_set_vels e (pushed_vel dt fs e) (pushed_angvel dt fs e))
                (mkO (vadd (o_pos (e_orient e)) (vscale (pushed_vel dt fs e) dt))
                     (qmul (qfrom_scaled_axis (vscale (pushed_angvel dt fs e) dt)) (o_rot (e_orient e)))
                     (o_off (e_orient e)))) fa ft) a ns.
    Proof.
      intros Ho H Hd Hm Hr h e He.
      destruct (step_phases _ _ _ _ H Hd) as (s1 & infos & st & P1 & P2 & P3 & P4 & P5 & P6 & P7). cbv zeta in P1.
      pose proof (integrate_spec _ _ _ P1) as (_ & _ & Q3 & Q4). cbn [fst snd s_ents s_gens] in *.
      apply iterations_free in P2; [|exact Ho|exact Hm|cbn [l_records]; congruence].
      unfold iterate in P2. cbn [l_ents l_infos l_left l_ctp l_records l_debug] in P2.
      apply rbind_ok in P2. destruct P2 as ([p of] & Eb & P2). destruct (find_earliest_spec _ _ _ _ _ Ho Eb) as (Hb & _).
      destruct of as [f|].
      { exfalso. inv_ok P2. destruct x as [? ?]. inv_ok P2. destruct x as [? ?]. inv_ok P2. inv_ok P2. discriminate. }
      unfold best_ok in Hb. cbn [fst snd] in Hb. subst p. simpl rbind in P2.
      apply rbind_ok in P2. destruct P2 as ([ents2 infos2] & Ea & P2). injection P2 as <-. cbn [l_ents l_infos l_records l_debug] in *.
      assert (ND : NoDup (map i_h infos)) by (rewrite P6; apply ahandles_nodup).
      destruct (advance_spec _ _ _ ND _ _ Ea) as (A1 & _ & A3). cbn [fst snd] in *.
      assert (ND2 : map i_h infos2 = map i_h infos) by (rewrite A3, map_map; reflexivity).
      assert (ND' : NoDup (map i_h infos2)) by now rewrite ND2.
      destruct (sleep_phase_spec _ _ _ _ ND' _ _ P3) as (S1 & _). cbn [fst snd] in *.
      destruct (Q3 h e He) as (fs & F1 & F2).
      assert (Hi : In h (map i_h infos)) by (rewrite P6, ahandles_in; congruence).
      assert (Hi2 : In h (map i_h infos2)) by now rewrite ND2.
      apply in_map_iff in Hi. destruct Hi as (i & Hih & Hi). apply in_map_iff in Hi2. destruct Hi2 as (i2 & Hih2 & Hi2).
      destruct (A1 i Hi) as (e1 & B1 & B2). rewrite Hih in *. assert (e1 = e_set_vels e (pushed_vel dt fs e) (pushed_angvel dt fs e)) by congruence.
      destruct (Q4 i Hi) as (e1' & C1 & C2 & C3 & _). rewrite Hih in C1. assert (e1' = e1) by congruence. subst e1'.
      destruct (S1 h _ B2) as (e' & D1 & D2 & _). destruct (D2 i2 Hi2 Hih2) as (ns & Hns).
      exists fs, e'. split; auto. split; auto. subst e1. cbn [e_asleep e_set_vels e_vel e_angvel e_orient] in *. rewrite C2, C3, !vscale_1 in Hns. unfold sleep_decision in Hns.
      destruct (e_asleep e) eqn:As.
      - cbn [e_asleep e_set_vels] in Hns. rewrite As in Hns. exists ns. subst e'. cbn [fst e_asleep e_set_vels]. rewrite As. reflexivity.
      - cbn [e_asleep e_set_vels e_set_orient] in Hns. rewrite As in Hns.
        destruct (n_lt (s_energy_thr s) _); [|destruct (n_lt _ (s_time_thr s))]; subst e'; repeat eexists; reflexivity.
    Qed.

    (** ** C47 *)
    Lemma step_bystander ord s dt s' h e : good_order ord -> step ord s dt = Ok s' -> n_lt (n_abs dt) EPSILON = false ->
      aget (s_ents s) h = Some e -> ~ named (s_records s') h ->
      exists fs e', forces_on s dt h fs /\ aget (s_ents s') h = Some e' /\
        ((e_vel e' = pushed_vel dt fs e /\ e_angvel e' = pushed_angvel dt fs e) \/
         (e_asleep e = true /\ e_asleep e' = true /\ e_vel e' = vzero /\ e_angvel e' = vzero)).
    Proof.
      intros Ho H Hd He Hn. destruct (step_entity _ _ _ _ Ho H Hd) as (Dec & Ent & _).
      destruct (Ent h e He) as (e1 & e2 & e' & ES). destruct (es_forces _ _ _ _ _ _ _ _ ES) as (fs & Hfs & E1).
      destruct (es_keep _ _ _ _ _ _ _ _ ES Hn) as (K1 & K2). destruct (es_decided _ _ _ _ _ _ _ _ ES) as (ns & (ms & Hr) & _).
      exists fs, e'. split; auto. split; [exact (es_after _ _ _ _ _ _ _ _ ES)|].
      destruct (e_asleep e2) eqn:A2.
      - right. rewrite (decision_asleep _ _ _ _ _ A2) in Hr. subst e'. simpl. split; [|auto].
        destruct (Dec h) as [Hk|Hk]; [destruct (es_roused _ _ _ _ _ _ _ _ ES Hk); congruence|].
        destruct (es_sleeping _ _ _ _ _ _ _ _ ES Hk) as (Hk2 & _). congruence.
      - left. destruct (decision_awake dt (s_energy_thr s) (s_time_thr s) ns e2 A2) as (_ & _ & D3 & D4 & _).
        subst e' e1. simpl in *. split; congruence.
    Qed.
    (** Entities that generators do not act on keep their velocity, up to the sign of zero. *)
    Lemma unpushed_vel dt e : n_isfin dt = true -> vkey (pushed_vel dt [] e) = vkey (e_vel e).
    Proof. intros Hd. unfold vkey, pushed_vel, vsum. simpl. now rewrite !add_0_mul. Qed.
    Lemma step_unpushed ord s dt s' h e : good_order ord -> step ord s dt = Ok s' -> n_lt (n_abs dt) EPSILON = false ->
      n_isfin dt = true -> aget (s_ents s) h = Some e -> pushable e = false -> e_asleep e = false -> ~ named (s_records s') h ->
      exists e', aget (s_ents s') h = Some e' /\ vkey (e_vel e') = vkey (e_vel e).
    Proof.
      intros Ho H Hd Hf He Hp Ha Hn. destruct (step_bystander _ _ _ _ _ _ Ho H Hd He Hn) as (fs & e' & F1 & F2 & [(F3 & _)|(F3 & _)]); [|congruence].
      exists e'. split; auto. rewrite F3. destruct F1 as (e0 & E0 & F1). assert (e0 = e) by congruence. subst e0. rewrite Hp in F1. subst fs.
      now apply unpushed_vel.
    Qed.
  End WithOrd.
End Step3.
