(** * PathP: between collisions entities fly on straight (C62) *)
From Coq Require Import ZArith Reals List Bool Arith Lra Lia.
Import ListNotations.
From Verif Require Import Num Vec Res Arena Orient Colliders Collide EntityM SystemM OrderP Spec PathSpec
  ResP ArenaP ArithP FrameP StoreP Store2P WakeP StepP Step2P Step3P CollideP RealSpec RealV TimeP.
Local Open Scope R_scope.

Lemma er_mul_assoc x a b : er_mul (er_mul x (Fin a)) (Fin b) = er_mul x (Fin (a * b)).
Proof.
  assert (I : er_mul (er_inf_times a) (Fin b) = er_inf_times (a * b)).
  { unfold er_inf_times. destruct (Req_EM_T a 0) as [->|Ha].
    - rewrite Rmult_0_l. destruct (Req_EM_T 0 0); [reflexivity|lra].
    - destruct (Req_EM_T (a * b) 0) as [E|E].
      + assert (b = 0) by (apply Rmult_integral in E; tauto). subst b.
        destruct (Rlt_dec 0 a); simpl; unfold er_inf_times; destruct (Req_EM_T 0 0); try reflexivity; lra.
      + destruct (Rlt_dec 0 a), (Rlt_dec 0 (a * b)); simpl; unfold er_inf_times; destruct (Req_EM_T b 0); try (subst b; lra);
          destruct (Rlt_dec 0 b); try reflexivity; exfalso; nra. }
  destruct x as [x| | |]; try reflexivity.
  - simpl. f_equal. ring.
  - exact I.
  - change (er_mul (er_neg (er_inf_times a)) (Fin b) = er_neg (er_inf_times (a * b))). rewrite <- I.
    destruct (er_inf_times a); simpl; try reflexivity; [f_equal; ring|].
    destruct (er_inf_times b); simpl; try reflexivity. f_equal. ring.
Qed.
Lemma vscale_assoc (v : Vec3 ER) a b : vscale (vscale v (Fin a)) (Fin b) = vscale v (Fin (a * b)).
Proof. destruct v as [x y z]. unfold vscale. cbn [vx vy vz]. change (@n_mul ER EReal) with er_mul. now rewrite !er_mul_assoc. Qed.

Lemma fin_inj a b : Fin a = Fin b -> a = b.
Proof. intros H. now injection H. Qed.

Section Path.
  Implicit Types (st : lstate ER).

  (** The planned movement of every entity is its velocity times the time left. *)
  Definition on_course st : Prop := forall i e, In i (l_infos st) -> aget (l_ents st) (i_h i) = Some e ->
    i_lin i = vscale (e_vel e) (l_left st) /\ i_ang i = vscale (e_angvel e) (l_left st).

  Lemma upd_info_nth l i f l' : upd_info (T:=ER) l i f = Ok l' -> forall k x, nth_error l' k = Some x ->
    exists y, nth_error l k = Some y /\ x = if Nat.eqb k i then f y else y.
  Proof.
    unfold upd_info. intros H k x Hk. inv_ok H. inv_ok H. subst l'. rename x0 into y.
    destruct (Nat.eqb_spec k i) as [->|Hne].
    - rewrite nth_error_list_set_eq in Hk by (eapply nth_error_lt; eauto). injection Hk as <-. eauto.
    - rewrite nth_error_list_set_neq in Hk by auto. eauto.
  Qed.
  Lemma respond_plans dt ta f st st' : respond dt ta f st = Ok st' ->
    exists e1 e2, aget (l_ents st') (fd_h2 f) = Some e2 /\ (fd_h1 f <> fd_h2 f -> aget (l_ents st') (fd_h1 f) = Some e1) /\
    forall k i', nth_error (l_infos st') k = Some i' -> exists i, nth_error (l_infos st) k = Some i /\ i_h i' = i_h i /\
      (i_lin i', i_ang i') = if Nat.eqb k (fd_i2 f) then (vscale (e_vel e2) ta, vscale (e_angvel e2) ta)
        else if Nat.eqb k (fd_i1 f) then (vscale (e_vel e1) ta, vscale (e_angvel e1) ta) else (i_lin i, i_ang i).
  Proof.
    unfold respond. intros H. inv_ok H. inv_ok H. rename x into e1, x0 into e2, E into G1, E0 into G2.
    destruct (respond_pair e1 e2 f) as [[[e1' e2'] im] ic] eqn:Er.
    inv_ok H. inv_ok H. inv_ok H. inv_ok H. subst st'. cbn [l_ents l_infos]. rename x into l1, x0 into l2, x1 into l3.
    exists e1', e2'. split; [|split].
    - destruct (handle_eq_dec (fd_h1 f) (fd_h2 f)) as [Q|Q].
      + rewrite Q in *. eapply aget_aset_eq. eapply aget_aset_eq. exact G2.
      + eapply aget_aset_eq. rewrite aget_aset_neq by auto. exact G2.
    - intros Q. rewrite aget_aset_neq by congruence. eapply aget_aset_eq. exact G1.
    - intros k i' Hk.
      assert (X : exists i2, nth_error l2 k = Some i2 /\ i_h i' = i_h i2 /\ i_lin i' = i_lin i2 /\ i_ang i' = i_ang i2).
      { destruct ic.
        - inv_ok E1. destruct (upd_info_nth _ _ _ _ E1 _ _ Hk) as (y & Hy & ->). destruct (upd_info_nth _ _ _ _ E2 _ _ Hy) as (z & Hz & ->).
          exists z. split; [exact Hz|]. destruct (Nat.eqb k (fd_i2 f)), (Nat.eqb k (fd_i1 f)); repeat split; reflexivity.
        - inv_ok E1. subst. eauto. }
      destruct X as (i2 & H2 & A & B & C).
      destruct (upd_info_nth _ _ _ _ E0 _ _ H2) as (y & Hy & ->). destruct (upd_info_nth _ _ _ _ E _ _ Hy) as (z & Hz & ->).
      exists z. split; [exact Hz|]. rewrite A, B, C. destruct (Nat.eqb k (fd_i2 f)), (Nat.eqb k (fd_i1 f)); split; reflexivity.
  Qed.

  (** The time left and the time gone. *)
  Definition at_time (d c : R) st : Prop := l_ctp st = Fin c /\ l_left st = Fin ((1 - c) * d) /\ 0 <= c <= 1.

  Record flying (d : R) (h : handle) (e1 : ientity ER) st : Prop := {
    fl_course : on_course st;
    fl_path : exists c e, at_time d c st /\ aget (l_ents st) h = Some e /\ e_asleep e = false /\
      path h (e_orient e1) (e_vel e1) (e_angvel e1) (l_records st) (e_orient e) (e_vel e) (e_angvel e) (c * d) }.

  Lemma best_time ord cols (ents : arena (ientity ER)) infos b : good_order ord -> find_earliest ord cols ents infos = Ok b ->
    exists p, fst b = Fin p /\ 0 <= p <= 1.
  Proof.
    intros Ho H. destruct (find_earliest_time _ _ _ _ _ Ho H) as (A & B). rewrite key_le, key_0 in A. rewrite key_le, key_1 in B.
    exact (er_between _ A B).
  Qed.
  Lemma stay_awake ents0 W (ents1 : arena (ientity ER)) h e e' : slept ents0 W ents1 -> aget ents0 h = Some e -> e_asleep e = false ->
    aget ents1 h = Some e' -> e_asleep e' = false.
  Proof.
    intros S He Ha He'. destruct (arel_get _ _ _ _ _ (sl_ents _ _ _ S) He) as (x & Hx & _ & A1 & A2 & A3 & A4).
    assert (x = e') by congruence. subst x. destruct (sl_dec _ _ _ S h) as [D|D]; [exact (proj1 (A3 D))|]. rewrite (proj1 (A4 D)). exact Ha.
  Qed.
  (** Waking changes neither movement nor place, and nobody falls asleep. *)
  Lemma woken_same ord x y (st r : arena (ientity ER) * list dmsg) h e e' : good_order ord ->
    rbind (wake_finite ord x st) (fun r => wake_finite ord y r) = Ok r ->
    aget (fst st) h = Some e -> aget (fst r) h = Some e' ->
    e_orient e' = e_orient e /\ e_vel e' = e_vel e /\ e_angvel e' = e_angvel e /\ (e_asleep e = false -> e_asleep e' = false).
  Proof.
    intros Ho H He He'. apply rbind_ok in H. destruct H as (m & H1 & H2).
    pose proof (wake_finite_frame _ _ _ _ H1) as K1. pose proof (wake_finite_frame _ _ _ _ H2) as K2.
    destruct (wake_finite_slept _ _ _ _ _ _ Ho (slept_refl (fst st)) H1) as (S1 & _).
    destruct (wake_finite_slept _ _ _ _ _ _ Ho S1 H2) as (S2 & _).
    destruct (arel_get _ _ _ _ _ K1 He) as (em & Hm & a & ns & ->). destruct (arel_get _ _ _ _ _ K2 Hm) as (ex & Hx & b & ms & ->).
    assert (e' = e_set_sleep (e_set_sleep e a ns) b ms) by congruence. subst e'. repeat (split; [reflexivity|]).
    intros Ha. exact (stay_awake _ _ _ _ _ _ S2 He Ha He').
  Qed.

  (** Moving all entities by [p] of the planned movement. *)
  Lemma advance_flying d c p st ents ents2 infos2 : NoDup (map i_h (l_infos st)) -> at_time d c st -> on_course st ->
    (forall h e, aget ents h = Some e -> exists e0, aget (l_ents st) h = Some e0 /\ e_vel e = e_vel e0 /\ e_angvel e = e_angvel e0) ->
    advance (Fin p) (Fin (1 - p)) ents (l_infos st) = Ok (ents2, infos2) ->
    map i_h infos2 = map i_h (l_infos st) /\
    (forall i e, In i infos2 -> aget ents2 (i_h i) = Some e ->
       i_lin i = vscale (e_vel e) (Fin ((1 - c) * d * (1 - p))) /\ i_ang i = vscale (e_angvel e) (Fin ((1 - c) * d * (1 - p)))) /\
    (forall h e, In h (map i_h (l_infos st)) -> aget ents h = Some e -> e_asleep e = false ->
       aget ents2 h = Some (e_set_orient e (fly (e_orient e) (e_vel e) (e_angvel e) ((1 - c) * d * p)))).
  Proof.
    intros ND (Tc & Tl & Tr) OC V A. destruct (advance_spec _ _ _ ND _ _ A) as (A1 & A2 & A3). cbn [fst snd] in *.
    assert (P : forall i, In i (l_infos st) -> forall e, aget ents (i_h i) = Some e ->
      i_lin i = vscale (e_vel e) (Fin ((1 - c) * d)) /\ i_ang i = vscale (e_angvel e) (Fin ((1 - c) * d))).
    { intros i Hi e He. destruct (V _ _ He) as (e0 & H0 & -> & ->). rewrite <- Tl. exact (OC _ _ Hi H0). }
    split; [rewrite A3, map_map; reflexivity|]. split.
    - intros i e Hi He. rewrite A3 in Hi. apply in_map_iff in Hi. destruct Hi as (j & <- & Hj). cbn [i_h i_lin i_ang] in *.
      destruct (A1 j Hj) as (ej & E1 & E2). destruct (P j Hj ej E1) as (-> & ->). rewrite !vscale_assoc.
      rewrite E2 in He. injection He as <-. destruct (e_asleep ej); split; reflexivity.
    - intros h e Hh He Ha. apply in_map_iff in Hh. destruct Hh as (i & <- & Hi). destruct (A1 i Hi) as (ei & E1 & E2).
      assert (ei = e) by congruence. subst ei. rewrite Ha in E2. rewrite E2. destruct (P i Hi e E1) as (-> & ->).
      rewrite !vscale_assoc. reflexivity.
  Qed.

  Lemma iterate_flying ord cols d ents0 h e1 st st' fin : good_order ord -> loop_inv cols ents0 st -> aget ents0 h <> None ->
    flying d h e1 st -> iterate ord cols (Fin d) st = Ok (st', fin) ->
    if fin then l_records st' = l_records st /\ exists c e, at_time d c st /\ aget (l_ents st) h = Some e /\
        path h (e_orient e1) (e_vel e1) (e_angvel e1) (l_records st) (e_orient e) (e_vel e) (e_angvel e) (c * d) /\
        exists e', aget (l_ents st') h = Some e' /\ e_asleep e' = false /\ e_vel e' = e_vel e /\ e_angvel e' = e_angvel e /\
          e_orient e' = fly (e_orient e) (e_vel e) (e_angvel e) (d - c * d)
    else flying d h e1 st'.
  Proof.
    intros Ho LI Hin [OC (c & e & AT & He & Ha & Pa)] H.
    assert (ND : NoDup (map i_h (l_infos st))) by (rewrite (li_hs _ _ _ LI); apply ahandles_nodup).
    assert (Hh : In h (map i_h (l_infos st))) by (rewrite (li_hs _ _ _ LI); now apply ahandles_in).
    unfold iterate in H. inv_ok H. rename E into Eb. destruct x as [q of].
    destruct (best_time _ _ _ _ _ Ho Eb) as (p & Hp & Rp). cbn [fst] in Hp. subst q.
    destruct (find_earliest_spec _ _ _ _ _ Ho Eb) as (Hb & _).
    inv_ok H. destruct x as [ents1 dbg1]. rename E into Ew. inv_ok H. destruct x as [ents2 infos2]. rename E into Ea.
    pose proof AT as (Tc & Tl & Tr).
    assert (S1 : @n_sub ER EReal n1 (Fin p) = Fin (1 - p)) by (unfold n1; simpl; f_equal; lra). rewrite S1 in *.
    assert (V : forall k x, aget ents1 k = Some x -> exists y, aget (l_ents st) k = Some y /\ e_vel x = e_vel y /\ e_angvel x = e_angvel y).
    { intros k x Hx. destruct of as [f|].
      - apply rbind_ok in Ew. destruct Ew as (m & W1 & W2).
        destruct (arel_get_r _ _ _ _ _ (wake_finite_frame _ _ _ _ W2) Hx) as (y & Hy & ? & ? & ->).
        destruct (arel_get_r _ _ _ _ _ (wake_finite_frame _ _ _ _ W1) Hy) as (z & Hz & ? & ? & ->). exists z. repeat split; auto.
      - inv_ok Ew. subst. eauto. }
    destruct (advance_flying _ _ _ _ _ _ _ ND AT OC V Ea) as (F1 & F2 & F3).
    assert (Hw : exists ew, aget ents1 h = Some ew /\ e_orient ew = e_orient e /\ e_vel ew = e_vel e /\ e_angvel ew = e_angvel e /\ e_asleep ew = false).
    { destruct of as [f|].
      - pose proof Ew as Ew'. apply rbind_ok in Ew'. destruct Ew' as (m & W1 & W2).
        destruct (arel_get _ _ _ _ _ (wake_finite_frame _ _ _ _ W1) He) as (em & Hm & _). destruct (arel_get _ _ _ _ _ (wake_finite_frame _ _ _ _ W2) Hm) as (ex & Hx & _).
        destruct (woken_same _ _ _ _ _ _ _ _ Ho Ew He Hx) as (A & B & C & D). exists ex. split; [exact Hx|]. auto 6.
      - inv_ok Ew. subst. eauto 10. }
    destruct Hw as (ew & Hew & Wo & Wv & Ww & Wa). pose proof (F3 _ _ Hh Hew Wa) as He2. rewrite Wo, Wv, Ww in He2.
    set (c' := c + (1 - c) * p).
    assert (Rc : 0 <= c' <= 1) by (unfold c'; nra).
    assert (Ec : n_add (l_ctp st) (n_mul (n_sub n1 (l_ctp st)) (Fin p)) = Fin c').
    { rewrite Tc. unfold n1, c'. simpl. f_equal. lra. }
    assert (El : n_mul (l_left st) (Fin (1 - p)) = Fin ((1 - c') * d)).
    { rewrite Tl. unfold c'. simpl. f_equal. ring. }
    assert (Et : (1 - c) * d * p = c' * d - c * d) by (unfold c'; ring).
    assert (El' : (1 - c) * d * (1 - p) = (1 - c') * d) by (unfold c'; ring).
    rewrite Et in He2. rewrite El' in F2. rewrite Ec, El in H.
    destruct of as [f|].
    - inv_ok H. inv_ok H. subst x fin. rename E into Er.
      pose proof (respond_frame _ _ _ _ _ Er) as (R1 & R2 & R3 & R4 & R5 & im & R6). pose proof (respond_keep _ _ _ _ _ Er) as R7.
      destruct (respond_plans _ _ _ _ _ Er) as (ea & eb & Q2 & Q1 & Q3).
      cbn [l_ents l_infos l_left l_ctp l_records l_debug fst snd] in *.
      destruct Hb as (_ & _ & i1 & i2 & k1 & k2 & c1 & c2 & B1 & B2 & B3 & B4 & B5 & _). cbn [snd] in *.
      assert (Nth : forall k i, nth_error infos2 k = Some i -> exists j, nth_error (l_infos st) k = Some j /\ i_h j = i_h i).
      { intros k i Hi. assert (X : nth_error (map i_h infos2) k = Some (i_h i)) by (rewrite nth_error_map, Hi; reflexivity).
        rewrite F1, nth_error_map in X. destruct (nth_error (l_infos st) k) as [j|]; [|discriminate]. injection X as X. eauto. }
      assert (Uniq : forall k k' i i', nth_error (l_infos st) k = Some i -> nth_error (l_infos st) k' = Some i' -> i_h i = i_h i' -> k = k').
      { intros k k' i i' Hi Hi' Hx. eapply NoDup_nth_error; [exact ND| |].
        - rewrite map_length. apply nth_error_Some. congruence.
        - rewrite !nth_error_map, Hi, Hi'. simpl. congruence. }
      assert (Ne : fd_h1 f <> fd_h2 f).
      { rewrite B4, B5. intros X. pose proof (Uniq _ _ _ _ B2 B3 X). lia. }
      split.
      + intros i' x Hi' Hx. rewrite R3. apply In_nth_error in Hi'. destruct Hi' as (k & Hk).
        destruct (Q3 _ _ Hk) as (i & Hi & Hih & Q). destruct (Nth _ _ Hi) as (j & Hj & Hjh). rewrite Hih in Hx.
        destruct (Nat.eqb_spec k (fd_i2 f)) as [->|N2]; [|destruct (Nat.eqb_spec k (fd_i1 f)) as [->|N1]].
        * assert (j = i2) by congruence. subst j. assert (x = eb) by congruence. subst x. injection Q as -> ->. auto.
        * assert (j = i1) by congruence. subst j. specialize (Q1 Ne). assert (x = ea) by congruence. subst x. injection Q as -> ->. auto.
        * injection Q as -> ->. rewrite R7 in Hx.
          -- apply F2; [eapply nth_error_In; eassumption|exact Hx].
          -- rewrite B4, <- Hjh. intros X. apply N1. exact (Uniq _ _ _ _ Hj B2 X).
          -- rewrite B5, <- Hjh. intros X. apply N2. exact (Uniq _ _ _ _ Hj B3 X).
      + destruct (arel_get _ _ _ _ _ R1 He2) as (e3 & He3 & v3 & w3 & E3).
        exists c', e3. split; [split; [exact R4|split; [exact R3|exact Rc]]|]. split; [exact He3|]. split; [rewrite E3; exact Wa|].
        rewrite R6. assert (Eo : e_orient e3 = fly (e_orient e) (e_vel e) (e_angvel e) (c' * d - c * d)) by (rewrite E3; reflexivity).
        rewrite Eo. apply path_next; [exact Pa|reflexivity|].
        intros Hn. rewrite R7 in He3.
        * assert (X : e3 = e_set_orient ew (fly (e_orient e) (e_vel e) (e_angvel e) (c' * d - c * d))) by congruence. rewrite X. auto.
        * intros X. apply Hn. eexists. split; [left; reflexivity|]. left. exact X.
        * intros X. apply Hn. eexists. split; [left; reflexivity|]. right. exact X.
    - inv_ok H. subst st' fin. cbn [l_ents l_infos l_left l_ctp l_records]. split; [reflexivity|].
      unfold best_ok in Hb. cbn [fst snd] in Hb. unfold n1 in Hb. simpl in Hb. apply fin_inj in Hb.
      exists c, e. split; [exact AT|]. split; [exact He|]. split; [exact Pa|].
      eexists. split; [exact He2|]. cbn [e_asleep e_vel e_angvel e_orient e_set_orient]. split; [exact Wa|]. split; [exact Wv|]. split; [exact Ww|].
      f_equal. unfold c'. nra.
  Qed.

  Lemma iterations_flying ord cols d ents0 h e1 n : good_order ord -> aget ents0 h <> None -> forall st st', loop_inv cols ents0 st ->
    flying d h e1 st -> iterations ord cols (Fin d) n st = Ok st' ->
    exists o v w t e', path h (e_orient e1) (e_vel e1) (e_angvel e1) (l_records st') o v w t /\
      aget (l_ents st') h = Some e' /\ e_asleep e' = false /\ e_vel e' = v /\ e_angvel e' = w /\
      e_orient e' = if Nat.eqb (length (l_records st')) (length (l_records st) + n) then o else fly o v w (d - t).
  Proof.
    intros Ho Hin. induction n as [|n IH]; intros st st' LI FL H; cbn [iterations] in H.
    - injection H as <-. destruct FL as [_ (c & e & _ & He & Ha & Pa)]. cbn [l_records l_ents].
      exists (e_orient e), (e_vel e), (e_angvel e), (c * d), e. rewrite Nat.add_0_r, Nat.eqb_refl. auto 10.
    - inv_ok H. destruct x as [st1 fin]. cbn [fst snd] in H.
      pose proof (iterate_flying _ _ _ _ _ _ _ _ _ Ho LI Hin FL E) as F.
      destruct (iterate_inv _ _ _ _ _ _ _ Ho LI E) as (L1 & _ & b & _ & _ & Hb).
      destruct fin.
      + injection H as <-. destruct F as (Rr & c & e & _ & _ & Pa & e' & He' & Ha & V & W & Or).
        exists (e_orient e), (e_vel e), (e_angvel e), (c * d), e'. rewrite Rr.
        destruct (Nat.eqb_spec (length (l_records st)) (length (l_records st) + S n)); [lia|]. auto 10.
      + destruct (snd b) as [f|]; [|destruct Hb as (Hb & _); discriminate]. destruct Hb as (_ & im & Rr).
        destruct (IH _ _ L1 F H) as (o & v & w & t & e' & P1 & P2 & P3 & P4 & P5 & P6).
        exists o, v, w, t, e'. rewrite Rr, app_length in P6. cbn [length] in P6.
        replace (length (l_records st) + S n)%nat with (length (l_records st) + 1 + n)%nat by lia. auto 10.
  Qed.

  Lemma step_path ord s d s' h e : good_order ord -> step ord s (Fin d) = Ok s' -> n_lt (n_abs (Fin d)) EPSILON = false ->
    aget (s_ents s) h = Some e -> e_asleep e = false ->
    exists fs o v w t e', forces_on s (Fin d) h fs /\
      path h (e_orient e) (pushed_vel (Fin d) fs e) (pushed_angvel (Fin d) fs e) (s_records s') o v w t /\
      aget (s_ents s') h = Some e' /\ e_vel e' = v /\ e_angvel e' = w /\
      e_orient e' = if Nat.eqb (length (s_records s')) (s_iteration_max s) then o else fly o v w (d - t).
  Proof.
    intros Ho H Hd He Ha.
    destruct (step_phases _ _ _ _ H Hd) as (s1 & infos & st & P1 & P2 & P3 & P4 & P5 & P6 & P7). cbv zeta in P1.
    pose proof (integrate_spec _ _ _ P1) as (_ & _ & Q3 & Q4). cbn [fst snd s_ents s_gens] in *.
    destruct (Q3 h e He) as (fs & F1 & F2).
    pose proof (loop_inv_init (s_cols s) _ _ (Fin d) P6) as LI.
    assert (FL : flying d h (e_set_vels e (pushed_vel (Fin d) fs e) (pushed_angvel (Fin d) fs e)) (mkL (s_ents s1) infos (Fin d) n0 [] [])).
    { split.
      - intros i x Hi Hx. cbn [l_infos l_ents l_left] in *. destruct (Q4 i Hi) as (y & Y1 & Y2 & Y3 & _). assert (y = x) by congruence. subst y. auto.
      - exists 0, (e_set_vels e (pushed_vel (Fin d) fs e) (pushed_angvel (Fin d) fs e)). cbn [l_ents l_records e_asleep e_set_vels].
        split; [|split; [exact F2|split; [exact Ha|rewrite Rmult_0_l; constructor]]].
        split; [|split; [cbn [l_left]; f_equal; ring|lra]]. cbn [l_ctp]. unfold n0. simpl. f_equal. lra. }
    assert (Hin : aget (s_ents s1) h <> None) by congruence.
    destruct (iterations_flying _ _ _ _ _ _ _ Ho Hin _ _ LI FL P2) as (o & v & w & t & e2 & A1 & A2 & A3 & A4 & A5 & A6).
    assert (P2' := P2). apply (iterations_inv ord (s_cols s) (Fin d) (s_ents s1) (s_iteration_max s) Ho _ _ LI) in P2'.
    destruct P2' as ([_ L2 _ _] & _).
    assert (ND : NoDup (map i_h (l_infos st))) by (rewrite L2; apply ahandles_nodup).
    pose proof (sleep_phase_spec _ _ _ _ ND _ _ P3) as (S1 & _). cbn [fst snd] in *.
    destruct (S1 h e2 A2) as (e' & B1 & B2 & _).
    assert (Hi : In h (map i_h (l_infos st))) by (rewrite L2; now apply ahandles_in).
    apply in_map_iff in Hi. destruct Hi as (i & Hih & Hi). destruct (B2 i Hi Hih) as (ns & Hns).
    exists fs, o, v, w, t, e'. split; [exact F1|]. rewrite P4. split; [exact A1|]. split; [exact B1|].
    cbn [l_records length] in A6. rewrite Nat.add_0_l in A6.
    assert (K : e_vel e' = e_vel e2 /\ e_angvel e' = e_angvel e2 /\ e_orient e' = e_orient e2).
    { unfold sleep_decision in Hns. rewrite A3 in Hns. destruct (n_lt (s_energy_thr s) _); [|destruct (n_lt _ (s_time_thr s))]; subst e'; repeat split; reflexivity. }
    destruct K as (-> & -> & ->). auto.
  Qed.
End Path.

(** An entity named in no record flies straight on whatever the others do. *)
Lemma path_still h o v w rs o' v' w' t : path h o v w rs o' v' w' t -> ~ named rs h ->
  forall p u, o_pos o = vfin p -> v = vfin u -> o_pos o' = vfin (vadd p (vscale u t)) /\ v' = v /\ w' = w.
Proof.
  induction 1 as [|rs r o1 v1 w1 t1 v2 w2 t2 P IH Er Hk]; intros Hn p u Hp Hu.
  - split; [|auto]. rewrite Hp. f_equal. destruct p, u. apply vext; vunfold; ring.
  - assert (N1 : ~ named rs h). { intros (x & Hx & A). apply Hn. exists x. split; [apply in_or_app; auto|exact A]. }
    assert (N2 : ~ named [r] h). { intros (x & Hx & A). apply Hn. exists x. split; [apply in_or_app; auto|exact A]. }
    destruct (IH N1 p u Hp Hu) as (A & -> & ->). destruct (Hk N2) as (-> & ->). split; [|auto].
    unfold fly. cbn [o_pos]. rewrite A, Hu, vfin_scale, vfin_add. f_equal. destruct p, u. apply vext; vunfold; ring.
Qed.
Lemma step_straight ord s d s' h e p u : good_order ord -> step ord s (Fin d) = Ok s' -> n_lt (n_abs (Fin d)) EPSILON = false ->
  aget (s_ents s) h = Some e -> e_asleep e = false -> o_pos (e_orient e) = vfin p -> ~ named (s_records s') h ->
  (forall fs, forces_on s (Fin d) h fs -> pushed_vel (Fin d) fs e = vfin u) -> length (s_records s') <> s_iteration_max s ->
  exists e', aget (s_ents s') h = Some e' /\ e_vel e' = vfin u /\ o_pos (e_orient e') = vfin (vadd p (vscale u d)).
Proof.
  intros Ho H Hd He Ha Hp Hn Hu Hl. destruct (step_path _ _ _ _ _ _ Ho H Hd He Ha) as (fs & o & v & w & t & e' & F & P & He' & Ev & Ew & Eo).
  destruct (path_still _ _ _ _ _ _ _ _ _ P Hn p u Hp (Hu fs F)) as (A & B & C). exists e'. split; [exact He'|]. rewrite Ev, B. split; [apply Hu, F|].
  apply Nat.eqb_neq in Hl. rewrite Eo, Hl, B, (Hu fs F). unfold fly. cbn [o_pos]. rewrite A, vfin_scale, vfin_add. f_equal. destruct p, u. apply vext; vunfold; ring.
Qed.
