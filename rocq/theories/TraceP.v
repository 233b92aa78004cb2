(** * TraceP: every step is a sequence of collisions between rigid bodies (C63) *)
From Coq Require Import ZArith Reals List Bool Arith Lra Lia Psatz.
Import ListNotations.
From Verif Require Import Num Vec Res Arena RangeM Orient Colliders Collide EntityM SystemM OrderP Spec PathSpec ContactSpec PhysSpec TraceSpec
  ResP ArenaP ArithP FrameP StoreP Store2P WakeP StepP Step2P Step3P ContactP CollideP RangeP RealSpec RealV OrientP Orient2P PathP PhysP Phys2P Phys3P Phys4P Mass4P ShapeP Geom4P PassP.
Local Open Scope R_scope.

(** ** What one iteration does *)
(** No collision is found before the part [p] of the planned movements. *)
Definition nothing_before (cols : arena (collider ER)) (st : lstate ER) (p : R) : Prop := forall x y i1 i2 k1 k2 k, (x < y)%nat ->
  nth_error (l_infos st) x = Some i1 -> nth_error (l_infos st) y = Some i2 -> meets cols (l_ents st) i1 i2 k1 k2 k -> n_lt (c_time k) (Fin p) = false.
Section Parts.
  Implicit Types (st : lstate ER).
  Lemma iterate_parts ord cols d ents0 c st st' fin : good_order ord -> loop_inv cols ents0 st -> PathP.at_time d c st -> on_course st ->
    iterate ord cols (Fin d) st = Ok (st', fin) ->
    exists of ents1 ents2 infos2 dbg c', 0 <= c' <= 1 /\ (exists p, 0 <= p <= 1 /\ c' = c + (1 - c) * p /\ nothing_before cols st p /\ forall f, of = Some f -> c_time (fd_col f) = Fin p) /\
      arel Rsleep (l_ents st) ents1 /\ (forall h e e', aget (l_ents st) h = Some e -> aget ents1 h = Some e' -> e_asleep e = false -> e_asleep e' = false) /\
      (forall h e, In h (ahandles ents0) -> aget ents1 h = Some e ->
         aget ents2 h = Some (if e_asleep e then e else e_set_orient e (fly (e_orient e) (e_vel e) (e_angvel e) (c' * d - c * d)))) /\
      map i_h infos2 = map i_h (l_infos st) /\ map i_nbrs infos2 = map i_nbrs (l_infos st) /\
      let st1 := mkL ents2 infos2 (Fin ((1 - c') * d)) (Fin c') (l_records st) dbg in
      match of with
      | None => fin = true /\ st' = st1 /\ c' = 1 /\ ents1 = l_ents st
      | Some f => fin = false /\ respond (Fin d) (Fin ((1 - c') * d)) f st1 = Ok st' /\ fd_h1 f <> fd_h2 f /\ is_found cols (l_ents st) (l_infos st) f /\
          In (fd_h1 f) (ahandles ents0) /\ In (fd_h2 f) (ahandles ents0) /\
          (forall h e, h = fd_h1 f \/ h = fd_h2 f -> aget ents1 h = Some e -> n_isfin (e_total_mass e) = true -> e_asleep e = false) /\
          PathP.at_time d c' st' /\ on_course st'
      end.
  Proof.
    intros Ho LI AT OC H.
    assert (ND : NoDup (map i_h (l_infos st))) by (rewrite (li_hs _ _ _ LI); apply ahandles_nodup).
    unfold iterate in H. inv_ok H. rename E into Eb. destruct x as [q of].
    destruct (best_time _ _ _ _ _ Ho Eb) as (p & Hp & Rp). cbn [fst] in Hp. subst q.
    destruct (find_earliest_spec _ _ _ _ _ Ho Eb) as (Hb & Early). cbn [fst] in Early.
    inv_ok H. destruct x as [ents1 dbg1]. rename E into Ew. inv_ok H. destruct x as [ents2 infos2]. rename E into Ea.
    pose proof AT as (Tc & Tl & Tr).
    assert (S1 : @n_sub ER EReal n1 (Fin p) = Fin (1 - p)) by (unfold n1; simpl; f_equal; lra). rewrite S1 in *.
    assert (Fr : arel Rsleep (l_ents st) ents1).
    { destruct of as [f|].
      - apply rbind_ok in Ew. destruct Ew as (m & W1 & W2).
        eapply arel_trans; [apply Rsleep_trans|exact (wake_finite_frame _ _ _ _ W1)|exact (wake_finite_frame _ _ _ _ W2)].
      - inv_ok Ew. subst. apply arel_refl. intros; apply Rsleep_refl. }
    assert (Aw : forall h e e', aget (l_ents st) h = Some e -> aget ents1 h = Some e' -> e_asleep e = false -> e_asleep e' = false).
    { intros h e e' He He' Ha. destruct of as [f|].
      - exact (proj2 (proj2 (proj2 (woken_same _ _ _ _ _ _ _ _ Ho Ew He He'))) Ha).
      - inv_ok Ew. subst. congruence. }
    assert (V : forall k x, aget ents1 k = Some x -> exists y, aget (l_ents st) k = Some y /\ e_vel x = e_vel y /\ e_angvel x = e_angvel y).
    { intros k x Hx. destruct (arel_get_r _ _ _ _ _ Fr Hx) as (y & Hy & a & ns & ->). exists y. repeat split; auto. }
    destruct (advance_flying _ _ _ _ _ _ _ ND AT OC V Ea) as (F1 & F2 & F3).
    destruct (advance_spec _ _ _ ND _ _ Ea) as (A1 & _ & _). cbn [fst] in A1.
    set (c' := c + (1 - c) * p).
    assert (Rc : 0 <= c' <= 1) by (unfold c'; nra).
    assert (Ec : n_add (l_ctp st) (n_mul (n_sub n1 (l_ctp st)) (Fin p)) = Fin c') by (rewrite Tc; unfold n1, c'; simpl; f_equal; lra).
    assert (El : n_mul (l_left st) (Fin (1 - p)) = Fin ((1 - c') * d)) by (rewrite Tl; unfold c'; simpl; f_equal; ring).
    assert (Et : (1 - c) * d * p = c' * d - c * d) by (unfold c'; ring).
    assert (El' : (1 - c) * d * (1 - p) = (1 - c') * d) by (unfold c'; ring).
    rewrite Et in F3. rewrite El' in F2. rewrite Ec, El in H.
    exists of, ents1, ents2, infos2, dbg1, c'. split; [exact Rc|]. split; [exists p; split; [exact Rp|]; split; [exact eq_refl|]; split; [exact Early|intros f ->; symmetry; exact (proj1 Hb)]|]. split; [exact Fr|]. split; [exact Aw|]. split.
    { intros h e Hh He. rewrite <- (li_hs _ _ _ LI) in Hh. destruct (e_asleep e) eqn:Ha; [|exact (F3 _ _ Hh He Ha)].
      apply in_map_iff in Hh. destruct Hh as (i & <- & Hi). destruct (A1 i Hi) as (ei & E1 & E2). assert (ei = e) by congruence. subst ei. rewrite Ha in E2. exact E2. }
    split; [exact F1|]. split; [exact (proj2 (proj2 (advance_frame _ _ _ _ _ Ea)))|]. cbv zeta. destruct of as [f|].
    - inv_ok H. inv_ok H. subst x fin. rename E into Er. split; [reflexivity|]. split; [exact Er|].
      pose proof (respond_frame _ _ _ _ _ Er) as (R1 & R2 & R3 & R4 & R5 & im & R6). pose proof (respond_keep _ _ _ _ _ Er) as R7.
      destruct (respond_plans _ _ _ _ _ Er) as (ea & eb & Q2 & Q1 & Q3).
      cbn [l_ents l_infos l_left l_ctp l_records l_debug fst snd] in *. destruct Hb as (_ & _ & Hb). cbn [snd] in Hb. pose proof Hb as Hf.
      destruct Hb as (i1 & i2 & k1 & k2 & c1 & c2 & B1 & B2 & B3 & B4 & B5 & _).
      assert (Nth : forall k i, nth_error infos2 k = Some i -> exists j, nth_error (l_infos st) k = Some j /\ i_h j = i_h i).
      { intros k i Hi. assert (X : nth_error (map i_h infos2) k = Some (i_h i)) by (rewrite nth_error_map, Hi; reflexivity).
        rewrite F1, nth_error_map in X. destruct (nth_error (l_infos st) k) as [j|]; [|discriminate]. injection X as X. eauto. }
      assert (Uniq : forall k k' i i', nth_error (l_infos st) k = Some i -> nth_error (l_infos st) k' = Some i' -> i_h i = i_h i' -> k = k').
      { intros k k' i i' Hi Hi' Hx. eapply NoDup_nth_error; [exact ND| |].
        - rewrite map_length. apply nth_error_Some. congruence.
        - rewrite !nth_error_map, Hi, Hi'. simpl. congruence. }
      assert (Ne : fd_h1 f <> fd_h2 f) by (rewrite B4, B5; intros X; pose proof (Uniq _ _ _ _ B2 B3 X); lia).
      split; [exact Ne|]. split; [exact Hf|].
      split; [rewrite B4, <- (li_hs _ _ _ LI); apply in_map; eapply nth_error_In; exact B2|].
      split; [rewrite B5, <- (li_hs _ _ _ LI); apply in_map; eapply nth_error_In; exact B3|]. split.
      { intros h e Hh He Hfin. apply rbind_ok in Ew. destruct Ew as (m & W1 & W2).
        destruct (wake_finite_slept _ _ _ _ (l_ents st, l_debug st) _ Ho (slept_refl (l_ents st)) W1) as (G1 & _). destruct (wake_finite_slept _ _ _ _ _ _ Ho G1 W2) as (G2 & _).
        destruct (arel_get_r _ _ _ _ _ Fr He) as (y & Hy & a & ns & Ey).
        assert (Ff : finite_at (l_ents st) h) by (exists y; split; [exact Hy|rewrite Ey in Hfin; exact Hfin]).
        destruct (arel_get _ _ _ _ _ (sl_ents _ _ _ G2) Hy) as (x & Hx & _ & _ & _ & A3 & _). cbn [fst] in Hx. assert (x = e) by congruence. subst x.
        apply A3. destruct Hh as [->| ->]; [left; right|right]; (split; [exact Ff|constructor]). }
      split; [split; [exact R4|split; [exact R3|exact Rc]]|].
      intros i' x Hi' Hx. rewrite R3. apply In_nth_error in Hi'. destruct Hi' as (k & Hk).
      destruct (Q3 _ _ Hk) as (i & Hi & Hih & Q). destruct (Nth _ _ Hi) as (j & Hj & Hjh). rewrite Hih in Hx.
      destruct (Nat.eqb_spec k (fd_i2 f)) as [->|N2]; [|destruct (Nat.eqb_spec k (fd_i1 f)) as [->|N1]].
      + assert (j = i2) by congruence. subst j. assert (x = eb) by congruence. subst x. injection Q as -> ->. auto.
      + assert (j = i1) by congruence. subst j. specialize (Q1 Ne). assert (x = ea) by congruence. subst x. injection Q as -> ->. auto.
      + injection Q as -> ->. rewrite R7 in Hx.
        * apply F2; [eapply nth_error_In; eassumption|exact Hx].
        * rewrite B4, <- Hjh. intros X. apply N1. exact (Uniq _ _ _ _ Hj B2 X).
        * rewrite B5, <- Hjh. intros X. apply N2. exact (Uniq _ _ _ _ Hj B3 X).
    - inv_ok H. subst st' fin. split; [reflexivity|]. split; [reflexivity|].
      unfold best_ok in Hb. cbn [fst snd] in Hb. unfold n1 in Hb. simpl in Hb. apply fin_inj in Hb. split; [unfold c'; nra|]. inv_ok Ew. congruence.
  Qed.
End Parts.

(** ** Entities as movers *)
Definition rm (m : Mat3 ER) : M := mkM (rr (m11 m)) (rr (m12 m)) (rr (m13 m)) (rr (m21 m)) (rr (m22 m)) (rr (m23 m)) (rr (m31 m)) (rr (m32 m)) (rr (m33 m)).
Definition ro (o : orientation ER) : orientation R :=
  mkO (rv (o_pos o)) (mkQ (rr (qi (o_rot o))) (rr (qj (o_rot o))) (rr (qk (o_rot o))) (rr (qw (o_rot o)))) (rv (o_off o)).
Definition mover_of (e : ientity ER) : mover :=
  mkMover (e_total_mass e) (rm (e_prep_moi e)) (ro (e_orient e)) (rv (e_vel e)) (rv (e_angvel e)) (negb (e_asleep e)).
Definition inside (e : ientity ER) (m : mover) : Prop :=
  e_total_mass e = mv_mass m /\ e_prep_moi e = mfin (mv_tensor m) /\ e_orient e = ofin (mv_o m) /\
  e_vel e = vfin (mv_vel m) /\ e_angvel e = vfin (mv_spin m) /\ e_asleep e = negb (mv_awake m).
Lemma rm_fin m : rm (mfin m) = m. Proof. destruct m. exact eq_refl. Qed.
Lemma ro_fin o : ro (ofin o) = o. Proof. destruct o as [[? ? ?] [? ? ? ?] [? ? ?]]. exact eq_refl. Qed.
Lemma inside_mover e m : inside e m -> mover_of e = m.
Proof.
  intros (A & B & C & D & E & F). unfold mover_of. rewrite A, B, C, D, E, F, rm_fin, ro_fin, !rv_fin, negb_involutive. now destruct m.
Qed.
Definition whole (e : ientity ER) : Prop := inside e (mover_of e) /\ sound_mover (mover_of e).
Lemma whole_inside e m : inside e m -> sound_mover m -> whole e.
Proof. intros H S. unfold whole. rewrite (inside_mover e m H). auto. Qed.
Lemma turned_psd q i0 t : unit_quat q -> turned_tensor q i0 t -> psd i0 -> psd t.
Proof.
  intros U Ht (Sy & Po). split; [|intros x; rewrite (turned_form _ _ _ _ _ U Ht); apply Po].
  apply symmetric_form. intros x y. rewrite !(turned_form _ _ _ _ _ U Ht). now apply symmetric_form.
Qed.
Lemma body_sound m b : sound_mover m -> body_of m b -> sound b.
Proof. intros (Ma & Ps & U) (E & T & _). split; [rewrite E; exact Ma|exact (turned_psd _ _ _ U T Ps)]. Qed.
Lemma inside_body e m : inside e m -> sound_mover m -> exists b, is_body e b /\ body_of m b.
Proof.
  intros (A & B & C & D & E & F) (Ma & Ps & U).
  exists (mkBody (mv_mass m) (rotate_moment (mv_tensor m) (o_rot (mv_o m))) (o_pos (mv_o m)) (mv_vel m) (mv_spin m)). split.
  - split; [exact A|]. split; [unfold get_moment, finalize_moment; rewrite B, C; cbn [ofin o_rot]; apply rotate_fin|]. rewrite C. split; [exact eq_refl|]. split; assumption.
  - split; [exact eq_refl|]. split; [apply rotate_turned, U|]. repeat split.
Qed.

(** ** Gliding *)
Lemma rexp_turned_on q v : turned_on q v (qmul (rexp v) q).
Proof.
  exists (rexp v). split; [apply rexp_unit|]. split; [exact eq_refl|].
  destruct (Rlt_le_dec (2 * tiny) (vlen v)) as [L|L]; [left; now apply rexp_turns|right]. split; [exact L|].
  unfold rexp. cbv zeta. destruct (Rle_dec _ _) as [|N]; [exact eq_refl|exfalso]. apply N.
  assert (S : vdot v v = vlen v * vlen v) by (symmetry; apply sqrt_sqrt, vdot_pos).
  replace (vdot (vscale v (/ 2)) (vscale v (/ 2))) with (vdot v v / 4) by (destruct v; vunfold; field).
  pose proof tiny_pos. assert (0 <= vlen v) by apply sqrt_pos. nra.
Qed.
Definition glided (m : mover) (t : R) (a : bool) : mover :=
  mkMover (mv_mass m) (mv_tensor m)
    (if a then mkO (vadd (o_pos (mv_o m)) (vscale (mv_vel m) t)) (qmul (rexp (vscale (mv_spin m) t)) (o_rot (mv_o m))) (o_off (mv_o m)) else mv_o m)
    (mv_vel m) (mv_spin m) a.
Lemma glided_glides m t a : (mv_awake m = true -> a = true) -> glides m t (glided m t a).
Proof.
  intros H. unfold glides, glided. cbn [mv_mass mv_tensor mv_vel mv_spin mv_o mv_awake]. repeat (split; [exact eq_refl|]). split; [destruct a; exact eq_refl|]. split; [exact H|].
  destruct a; [|exact eq_refl]. cbn [o_pos o_rot]. split; [exact eq_refl|apply rexp_turned_on].
Qed.
Lemma glided_sound m t a : sound_mover m -> sound_mover (glided m t a).
Proof.
  intros (A & B & U). split; [exact A|]. split; [exact B|]. unfold glided. cbn [mv_o]. destruct a; [|exact U].
  unfold unit_o. cbn [o_rot]. apply unit_qmul; [apply rexp_unit|exact U].
Qed.
Lemma glided_inside h e m t e' : inside e m -> Rsleep h e e' ->
  inside (if e_asleep e' then e' else e_set_orient e' (fly (e_orient e') (e_vel e') (e_angvel e') t)) (glided m t (negb (e_asleep e'))).
Proof.
  intros (A & B & C & D & E & F) (a & ns & ->). unfold inside, glided. cbn [mv_mass mv_tensor mv_vel mv_spin mv_o mv_awake e_asleep e_set_sleep e_orient e_vel e_angvel]. destruct a; cbn [negb].
  - auto 10.
  - cbn [e_total_mass e_prep_moi e_orient e_vel e_angvel e_asleep e_set_orient e_set_sleep]. split; [exact A|]. split; [exact B|]. split; [|auto].
    rewrite C, D, E. unfold fly. cbn [ofin o_pos o_rot o_off]. rewrite !vfin_scale, exp_fin, vfin_add. exact eq_refl.
Qed.

(** ** One collision *)
Lemma respond_impact dt ta f (st st' : lstate ER) b1 b2 p n rest : meeting st f b1 b2 p n rest -> respond dt ta f st = Ok st' ->
  exists k c1 c2, impact p n rest (fd_stat f) (fd_dyn f) (fd_thr f) k b1 b2 c1 c2 /\ body_at st' (fd_h1 f) c1 /\ body_at st' (fd_h2 f) c2 /\
    l_records st' = l_records st ++ [mkCR (fd_h1 f) (fd_h2 f) (vfin p) (n_mul (l_ctp st) dt) (vfin n) (Fin rest) (Fin (Rabs k))].
Proof.
  intros Hm Hok. destruct (respond_bodies _ _ _ _ _ _ _ _ _ _ Hm Hok) as (k & q & Ek & Q1 & T & Q2 & Q5 & C1 & C2 & Rc). cbv zeta in *.
  pose proof Hm as (_ & _ & _ & S1 & S2 & Hmm & Hn & _).
  eexists k, _, _. split; [|split; [exact C1|split; [exact C2|exact Rc]]].
  eexists _, _, q. cbv zeta. split; [now apply pushed_struck|]. split; [now apply pushed_struck|]. split.
  { pose proof (restitution_law b1 b2 p n rg_unit rest S1 S2 Hmm Hn) as L. unfold after1, after2 in L. rewrite <- Ek in L. exact L. }
  split; [rewrite vscale_dot, T; ring|]. split; [exact Q1|].
  set (s := tangential _ n) in *. pose proof (denominator_pos b1 b2 p n S1 S2 Hmm) as K.
  assert (E : Rabs k * denominator b1 b2 p n = Rabs ((1 + rest) * vdot (relative b1 b2 p) n)).
  { rewrite <- (Rabs_pos_eq (denominator b1 b2 p n)) at 1 by lra. rewrite <- Rabs_mult, <- (Rabs_Ropp (_ * _)). f_equal. rewrite Ek. field. lra. }
  split; [|split; [|split; now apply pushed_struck]].
  2: { intros xs xd Es Ed Ps. rewrite (Q5 xs xd Es Ed Ps), <- E. f_equal. field. lra. }
  intros xs xd Es Ed Ps Pd. destruct (Q2 xs xd) as (Q3 & Q4); [repeat split; assumption|]. split; [exact Q3|].
  assert (L : vlen (vscale s (- q)) = q * vlen s).
  { unfold vlen. replace (vdot (vscale s (- q)) (vscale s (- q))) with (q * q * vdot s s) by (destruct s; vunfold; ring).
    rewrite sqrt_mult; [|nra|apply vdot_pos]. rewrite sqrt_square; auto. }
  rewrite L, <- E. pose proof (Rabs_pos k). assert (0 <= Rabs k * denominator b1 b2 p n) by (apply Rmult_le_pos; lra).
  pose proof (Rmax_l xs xd). pose proof (Rmax_r xs xd). destruct Q4 as [Q4|Q4]; nra.
Qed.

Lemma respond_close f (st : lstate ER) b1 b2 p n rest : meeting st f b1 b2 p n rest -> leaves_contact st f <-> stays_close p n rest b1 b2.
Proof.
  intros (Hne & (e1 & G1 & B1) & (e2 & G2 & B2) & S1 & S2 & Hmm & Hn & Hp & Hnn & Hr).
  destruct (fd_col f) as [tr cp cn] eqn:Ef. cbn [c_pos c_normal] in Hp, Hnn. subst cp cn.
  destruct (response e1 e2 b1 b2 p n f tr rest B1 B2 S1 S2 Hmm Hn Ef Hr) as (q & fr & _ & _ & _ & _ & _ & e1' & e2' & P & _). cbv zeta in P.
  pose proof (restitution_law b1 b2 p n rg_unit rest S1 S2 Hmm Hn) as L. unfold after1, after2 in L. cbv zeta in L.
  unfold stays_close. rewrite <- Rabs_Ropp, Ropp_mult_distr_l, <- L. unfold leaves_contact. split.
  - intros (x1 & x2 & X1 & X2 & X3). assert (x1 = e1) by congruence. assert (x2 = e2) by congruence. subst x1 x2. rewrite P in X3. cbn [snd] in X3. destruct (Rlt_dec _ _) as [Q|Q]; [exact Q|discriminate].
  - intros Q. exists e1, e2. split; [exact G1|]. split; [exact G2|]. rewrite P. cbn [snd]. destruct (Rlt_dec _ _) as [Q'|Q']; [exact eq_refl|contradiction].
Qed.

(** ** The whole step *)
Definition nobody : mover := mkMover (Fin 1) (mkM 0 0 0 0 0 0 0 0 0) (mkO (mkV 0 0 0) (mkQ 0 0 0 1) (mkV 0 0 0)) (mkV 0 0 0) (mkV 0 0 0) true.
Definition world (ents : arena (ientity ER)) (h : handle) : mover := match aget ents h with Some e => mover_of e | None => nobody end.
Lemma world_get ents h e m : aget ents h = Some e -> inside e m -> world ents h = m.
Proof. intros H I. unfold world. rewrite H. now apply inside_mover. Qed.

Section Trace.
  Variables (s : system ER) (s1ents : arena (ientity ER)) (d : R) (w0 : handle -> mover).
  Hypothesis Hs : arel Rvel (s_ents s) s1ents.
  Record going (c : R) (ts : list (handle * handle)) (st : lstate ER) : Prop := {
    go_inv : loop_inv (s_cols s) s1ents st;
    go_time : PathP.at_time d c st;
    go_course : on_course st;
    go_whole : forall h e, aget (l_ents st) h = Some e -> whole e;
    go_trace : trace s d w0 (l_records st) ts (world (l_ents st)) (c * d);
    go_knows : forall h k, knows (l_infos st) h k <-> paired ts h k }.
  Lemma going_entity c ts st h e : going c ts st -> aget (l_ents st) h = Some e ->
    exists e0, aget (s_ents s) h = Some e0 /\ e_total_mass e = e_total_mass e0 /\ e_colliders e = e_colliders e0.
  Proof.
    intros G He. destruct (arel_get_r _ _ _ _ _ (sl_ents _ _ _ (li_slept _ _ _ (go_inv _ _ _ G))) He) as (e1 & H1 & (A & _ & B & _) & _).
    destruct (arel_get_r _ _ _ _ _ Hs H1) as (e0 & H0 & v & w & ->). exists e0. split; [exact H0|]. split; [exact B|exact A].
  Qed.
  Lemma live_in h : get_entity s h <> None -> In h (ahandles s1ents).
  Proof.
    intros H. unfold get_entity in H. destruct (aget (s_ents s) h) as [e|] eqn:E; [|contradiction].
    destruct (arel_get _ _ _ _ _ Hs E) as (e1 & H1 & _). apply ahandles_in. congruence.
  Qed.
  Lemma live_get c ts st h : going c ts st -> In h (ahandles s1ents) -> exists e, aget (l_ents st) h = Some e.
  Proof.
    intros G H. apply ahandles_in in H. destruct (aget s1ents h) as [e|] eqn:E; [|contradiction].
    destruct (arel_get _ _ _ _ _ (sl_ents _ _ _ (li_slept _ _ _ (go_inv _ _ _ G))) E) as (e1 & H1 & _). eauto.
  Qed.

  (** ** What is not found is not there *)
  Lemma flying c ts st h e0 : going c ts st -> aget (s_ents s) h = Some e0 -> mv_spin (world (l_ents st) h) = mkV 0 0 0 ->
    exists x i e, nth_error (l_infos st) x = Some i /\ i_h i = h /\ nth_error (ahandles s1ents) x = Some h /\ aget (l_ents st) h = Some e /\
      flies e i (world (l_ents st) h) ((1 - c) * d) /\ e_colliders e = e_colliders e0 /\ incl (e_neighbors e) (e_neighbors e0).
  Proof.
    intros G H0 Sp. pose proof G as [LI (_ & Tl & _) OC Wh _ _].
    destruct (arel_get _ _ _ _ _ Hs H0) as (e1 & H1 & v & w & E1).
    destruct (arel_get _ _ _ _ _ (sl_ents _ _ _ (li_slept _ _ _ LI)) H1) as (e & He & (A & _) & _ & _ & Wy & Wn).
    assert (Hh : In h (map i_h (l_infos st))) by (rewrite (li_hs _ _ _ LI); apply ahandles_in; congruence).
    apply in_map_iff in Hh. destruct Hh as (i & Hi & Hin). destruct (In_nth_error _ _ Hin) as (x & Hx).
    exists x, i, e. split; [exact Hx|]. split; [exact Hi|]. split; [rewrite <- (li_hs _ _ _ LI), <- Hi; now apply map_nth_error|]. split; [exact He|].
    destruct (Wh _ _ He) as (I & So). pose proof (world_get _ _ _ _ He I) as W. rewrite W in *.
    destruct I as (_ & _ & I3 & I4 & I5 & _). rewrite Sp in I5. split; [|split].
    - rewrite <- Hi in He. destruct (OC _ _ Hin He) as (L1 & L2). rewrite Tl in L1, L2. destruct So as (_ & _ & U). repeat (split; [assumption|]). exact L2.
    - rewrite A, E1. exact eq_refl.
    - destruct (sl_dec _ _ _ (li_slept _ _ _ LI) h) as [Y|Y].
      + rewrite (proj2 (Wy Y)). intros z [].
      + destruct (Wn Y) as (_ & J & _). rewrite E1 in J. exact J.
  Qed.
  Lemma early_undisturbed c ts st p : going c ts st -> 0 <= p <= 1 -> nothing_before (s_cols s) st p ->
    undisturbed s d (world (l_ents st)) (c * d) ((c + (1 - c) * p) * d).
  Proof.
    intros G P1 Ea h k a (Ne & C1 & C2) S1 S2 Ha. unfold spinless in S1, S2.
    assert (Ed : d - c * d = (1 - c) * d) by ring. rewrite Ed. set (D := (1 - c) * d) in *.
    assert (Ha' : a < p * D) by (unfold D; lra).
    assert (Lv : forall z e, get_entity s z = Some e -> exists e0, aget (s_ents s) z = Some e0 /\ pe_colliders e = e_colliders e0).
    { intros z e Hz. unfold get_entity in Hz. destruct (aget (s_ents s) z) as [e0|]; [|discriminate]. injection Hz as <-. exists e0. split; exact eq_refl. }
    assert (Nb : forall z z' e0 (e : ientity ER), aget (s_ents s) z = Some e0 -> incl (e_neighbors e) (e_neighbors e0) -> ~ contact (s_ents s) z z' -> ~ In z' (e_neighbors e)).
    { intros z z' e0 e Hz J N X. apply N. exists e0. split; [exact Hz|]. now apply J. }
    assert (Late : forall k0, 0 < D -> c_time k0 = Fin (a / D) -> n_lt (c_time k0) (Fin p) = true).
    { intros k0 D0 ->. apply er_lt_fin. apply Rmult_lt_reg_r with D; [exact D0|]. unfold Rdiv. rewrite Rmult_assoc, Rinv_l, Rmult_1_r by lra. exact Ha'. }
    split.
    - intros c1 r1 c2 r2 Hl (e1 & k1 & b1 & A1 & A2 & A3 & A4 & A5) (e2 & k2 & b2 & B1 & B2 & B3 & B4 & B5) R1 R2 Ft Br.
      assert (D0 : 0 < D).
      { pose proof Br as (Q1 & _ & Q3 & _). destruct Ft as (A0 & _). cbv zeta in Q1, Q3. match type of Q1 with _ <= ?x * D => set (q := x) in * end. pose proof (sqrt_pos (vdot (mv_vel (world (l_ents st) h)) (mv_vel (world (l_ents st) h)))) as V0. fold (vlen (mv_vel (world (l_ents st) h))) in V0.
        assert (0 <= vlen (mv_vel (world (l_ents st) h)) * a) by (apply Rmult_le_pos; assumption). assert (0 < q) by (destruct (Rlt_le_dec 0 q) as [|Y]; [assumption|assert (r1 * q <= 0) by nra; lra]). nra. }
      destruct (Lv _ _ A1) as (x1 & X1 & Y1). destruct (Lv _ _ B1) as (x2 & X2 & Y2).
      destruct (flying _ _ _ _ _ G X1 S1) as (n1' & i1 & f1 & I1 & J1 & N1 & E1 & F1 & K1 & L1).
      destruct (flying _ _ _ _ _ G X2 S2) as (n2' & i2 & f2 & I2 & J2 & N2 & E2 & F2 & K2 & L2).
      pose proof (ahandles_from_sorted _ _ _ _ _ _ N1 N2 Hl) as Hxy.
      destruct (balls_found (s_cols s) (l_ents st) i1 i2 f1 f2 k1 k2 (world (l_ents st) h) (world (l_ents st) k) D a) with (b1 := b1) (b2 := b2) (c1 := c1) (r1 := r1) (c2 := c2) (r2 := r2) as (k0 & M & Et); try assumption.
      + now rewrite J1.
      + now rewrite J2.
      + rewrite J2. exact (Nb h k x1 f1 X1 L1 C1).
      + rewrite J1. exact (Nb k h x2 f2 X2 L2 C2).
      + congruence.
      + congruence.
      + nra.
      + pose proof (Ea _ _ _ _ _ _ _ Hxy I1 I2 M) as X. rewrite (Late _ D0 Et) in X. discriminate.
    - intros c1 r pp n (e1 & k1 & b1 & A1 & A2 & A3 & A4 & A5) (e2 & k2 & b2 & B1 & B2 & B3 & B4 & B5 & B6) R1 Ft Br.
      assert (D0 : 0 < D) by (destruct Ft as (A0 & _); nra).
      destruct (Lv _ _ A1) as (x1 & X1 & Y1). destruct (Lv _ _ B1) as (x2 & X2 & Y2).
      destruct (flying _ _ _ _ _ G X1 S1) as (n1' & i1 & f1 & I1 & J1 & N1 & E1 & F1 & K1 & L1).
      destruct (flying _ _ _ _ _ G X2 S2) as (n2' & i2 & f2 & I2 & J2 & N2 & E2 & F2 & K2 & L2).
      destruct (plane_found (s_cols s) (l_ents st) i1 i2 f1 f2 k1 k2 (world (l_ents st) h) (world (l_ents st) k) D a) with (b := b1) (p := b2) (c := c1) (r := r) (pp := pp) (n := n) as ((k0 & M & Et) & (k0' & M' & Et')); try assumption.
      + now rewrite J1.
      + now rewrite J2.
      + rewrite J2. exact (Nb h k x1 f1 X1 L1 C1).
      + rewrite J1. exact (Nb k h x2 f2 X2 L2 C2).
      + congruence.
      + congruence.
      + nra.
      + destruct (Nat.lt_total n1' n2') as [L|[L|L]].
        * pose proof (Ea _ _ _ _ _ _ _ L I1 I2 M) as X. rewrite (Late _ D0 Et) in X. discriminate.
        * apply Ne. subst n2'. congruence.
        * pose proof (Ea _ _ _ _ _ _ _ L I2 I1 M') as X. rewrite (Late _ D0 Et') in X. discriminate.
  Qed.

  (** ** What is found is there *)
  Lemma meets_real c ts st i1 i2 k1 k2 q1 q2 col p0 p n : going c ts st -> In i1 (l_infos st) -> In i2 (l_infos st) ->
    meets (s_cols s) (l_ents st) i1 i2 k1 k2 col -> aget (s_cols s) k1 = Some q1 -> aget (s_cols s) k2 = Some q2 ->
    c_time col = Fin p0 -> c_pos col = vfin p -> c_normal col = vfin n ->
    let m1 := world (l_ents st) (i_h i1) in let m2 := world (l_ents st) (i_h i2) in
    approaching m1 m2 p n /\ (spinless m1 -> spinless m2 -> touching q1 q2 m1 m2 (p0 * ((1 - c) * d)) p n).
  Proof.
    intros G I1 I2 (e1 & e2 & c1 & c2 & E1 & E2 & _ & _ & _ & _ & Q1 & Q2 & Ek & Ap) Q1' Q2' Et Ex En m1 m2.
    assert (c1 = q1) by congruence. assert (c2 = q2) by congruence. subst c1 c2. pose proof G as [LI (_ & Tl & _) OC Wh _ _].
    assert (Fl : forall i e, In i (l_infos st) -> aget (l_ents st) (i_h i) = Some e -> spinless (world (l_ents st) (i_h i)) -> flies e i (world (l_ents st) (i_h i)) ((1 - c) * d)).
    { intros i e Hi He Sp. destruct (Wh _ _ He) as (In & (_ & _ & U)). rewrite (world_get _ _ _ _ He In) in *. destruct In as (_ & _ & J3 & J4 & J5 & _). rewrite Sp in J5.
      destruct (OC _ _ Hi He) as (L1 & L2). rewrite Tl in L1, L2. repeat (split; [assumption|]). exact L2. }
    split.
    - destruct (Wh _ _ E1) as (J1 & S1), (Wh _ _ E2) as (J2 & S2). destruct (inside_body _ _ J1 S1) as (b1 & B1 & M1), (inside_body _ _ J2 S2) as (b2 & B2 & M2).
      exists b1, b2. unfold m1, m2. rewrite (world_get _ _ _ _ E1 J1), (world_get _ _ _ _ E2 J2). split; [exact M1|]. split; [exact M2|].
      rewrite Ex, En, (velocity_body _ _ p B1), (velocity_body _ _ p B2), vfin_sub, vfin_dot, eps_fin in Ap. apply er_lt_fin_f in Ap. exact Ap.
    - intros S1 S2. pose proof (Fl _ _ I1 E1 S1) as F1. pose proof (Fl _ _ I2 E2 S2) as F2. fold m1 in F1. fold m2 in F2. clear Fl. unfold touching.
      destruct q1 as [|b1|b1|b1|b1], q2 as [|b2|b2|b2|b2]; try exact I.
      + intros x1 r1 x2 r2 A1 A2 A3 A4 R0. destruct (balls_sound i1 i2 e1 e2 m1 m2 ((1 - c) * d) F1 F2 b1 b2 x1 r1 x2 r2 col A1 A2 A3 A4 R0 Ek) as (t & x & T & X & Be).
        assert (t = p0) by (apply fin_inj; congruence). assert (x = p) by (apply vfin_inj; congruence). subst t x. exact (Be n En).
      + intros x r pp nn A1 A2 A3 A4 Un R0. destruct (plane_sound i1 i2 e1 e2 m1 m2 ((1 - c) * d) F1 F2 b1 b2 x r pp nn col A1 A2 A3 A4 Un R0 Ek) as (t & y & T & _ & X & Nn & On).
        assert (t = p0) by (apply fin_inj; congruence). assert (y = p) by (apply vfin_inj; congruence). assert (n = vneg nn) by (apply vfin_inj; congruence). subst t y n. exact On.
      + intros x r pp nn A1 A2 A3 A4 Un R0. rewrite (swap_mixed (CSphere b2) _ _ (CPlane b1) _ _ I) in Ek.
        apply rbind_ok in Ek. destruct Ek as ([k0|] & Ek & Et0); apply ok_inj in Et0; [|discriminate]. cbn [option_map] in Et0. apply some_inj in Et0. subst col. cbn [turn c_time c_times c_pos c_normal] in *.
        destruct (plane_sound i2 i1 e2 e1 m2 m1 ((1 - c) * d) F2 F1 b2 b1 x r pp nn k0 A1 A2 A3 A4 Un R0 Ek) as (t & y & T & _ & X & Nn & On).
        assert (t = p0) by (apply fin_inj; rewrite <- T, <- Et; exact eq_refl). assert (y = p) by (apply vfin_inj; congruence). subst t y.
        rewrite Nn, vfin_neg in En. apply vfin_inj in En. subst n. 
        assert (E : vneg (vneg (vneg nn)) = vneg nn) by (apply vext; vunfold; ring). rewrite E. exact On.
  Qed.

  Lemma glide_all c c' ts (st : lstate ER) ents1 ents2 : going c ts st ->
    arel Rsleep (l_ents st) ents1 -> (forall h e e', aget (l_ents st) h = Some e -> aget ents1 h = Some e' -> e_asleep e = false -> e_asleep e' = false) ->
    (forall h e, In h (ahandles s1ents) -> aget ents1 h = Some e ->
         aget ents2 h = Some (if e_asleep e then e else e_set_orient e (fly (e_orient e) (e_vel e) (e_angvel e) (c' * d - c * d)))) ->
    forall h, In h (ahandles s1ents) -> exists e1 e2 a, aget ents1 h = Some e1 /\ aget ents2 h = Some e2 /\ a = negb (e_asleep e1) /\
      (mv_awake (world (l_ents st) h) = true -> a = true) /\ world ents2 h = glided (world (l_ents st) h) (c' * d - c * d) a /\
      inside e2 (world ents2 h) /\ sound_mover (world ents2 h).
  Proof.
    intros G Fr Aw Ad h Hh. destruct (live_get _ _ _ _ G Hh) as (e & He). destruct (go_whole _ _ _ G _ _ He) as (I & So).
    destruct (arel_get _ _ _ _ _ Fr He) as (e1 & H1 & Rs). pose proof (Ad _ _ Hh H1) as H2.
    assert (W : world (l_ents st) h = mover_of e) by (eapply world_get; eauto). rewrite W.
    pose proof (glided_inside h e _ (c' * d - c * d) e1 I Rs) as I2.
    eexists e1, _, _. split; [exact H1|]. split; [exact H2|]. split; [exact eq_refl|]. split.
    { unfold mover_of. cbn [mv_awake]. intros Ha. apply negb_true_iff in Ha. apply negb_true_iff. eapply Aw; eauto. }
    rewrite (world_get _ _ _ _ H2 I2). split; [exact eq_refl|]. split; [exact I2|apply glided_sound, So].
  Qed.

  Lemma iterate_going ord c ts st st' fin rs : good_order ord -> going c ts st -> iterate ord (s_cols s) (Fin d) st = Ok (st', fin) ->
    (exists l, rs = l_records st' ++ l) -> Forall (clean s) rs ->
    if fin then l_records st' = l_records st /\ undisturbed s d (world (l_ents st)) (c * d) d /\ (forall h k, knows (l_infos st') h k <-> paired ts h k) /\ forall h, In h (ahandles s1ents) ->
      exists e', aget (l_ents st') h = Some e' /\ inside e' (glided (world (l_ents st) h) (d - c * d) (mv_awake (world (l_ents st) h)))
    else exists c' ts', going c' ts' st'.
  Proof.
    intros Ho G H (l & ->) Cl. pose proof G as [LI AT OC Wh Tr Kn].
    destruct (iterate_inv _ _ _ _ _ _ _ Ho LI H) as (LI' & _).
    destruct (iterate_parts _ _ _ _ _ _ _ _ Ho LI AT OC H) as (of & ents1 & ents2 & infos2 & dbg & c' & Rc & (p0 & Pr & Ep0 & Nb & Et0) & Fr & Aw & Ad & Eh & Enb & P). cbv zeta in P.
    pose proof (early_undisturbed _ _ _ _ G Pr Nb) as Ud. rewrite <- Ep0 in Ud.
    assert (Kn2 : forall h k, knows infos2 h k <-> paired ts h k) by (intros; rewrite <- Kn; split; apply knows_maps; congruence).
    pose proof (glide_all _ _ _ _ _ _ G Fr Aw Ad) as Gl. destruct of as [f|].
    - destruct P as (-> & Er & Ne & Hf & In1 & In2 & Wk & AT' & OC').
      destruct (Gl _ In1) as (x1 & y1 & a1 & X1 & Y1 & A1 & K1 & W1 & I1 & S1). destruct (Gl _ In2) as (x2 & y2 & a2 & X2 & Y2 & A2 & K2 & W2 & I2 & S2).
      destruct (inside_body _ _ I1 S1) as (b1 & B1 & M1). destruct (inside_body _ _ I2 S2) as (b2 & B2 & M2).
      pose proof (respond_frame _ _ _ _ _ Er) as (R1 & _ & _ & _ & _ & im & R6). pose proof (respond_keep _ _ _ _ _ Er) as R7.
      cbn [l_ents l_records l_ctp] in *.
      set (r0 := mkCR _ _ _ _ _ _ im) in *.
      assert (C0 : clean s r0). { rewrite Forall_forall in Cl. apply Cl. rewrite R6. apply in_or_app. left. apply in_or_app. right. left. exact eq_refl. }
      destruct C0 as ((p & Ep) & (n & En & Un) & (rest & Ere) & h0 & e0 & Hn0 & He0 & Hm0). cbn [r0 cr_pos cr_normal cr_rest] in Ep, En, Ere.
      assert (Em : forall h e, aget (l_ents st) h = Some e -> forall x, get_entity s h = Some x -> mv_mass (world ents2 h) = pe_last_total_mass x).
      { intros h e He x Hx. destruct (going_entity _ _ _ _ _ G He) as (e' & H' & Q & _). unfold get_entity in Hx. rewrite H' in Hx. injection Hx as <-. cbn [pe_last_total_mass make_pub].
        assert (Hh : In h (ahandles s1ents)) by (apply live_in; unfold get_entity; rewrite H'; discriminate).
        destruct (Gl _ Hh) as (x1' & y1' & a' & _ & _ & _ & _ & Wx & _). rewrite Wx. cbn [glided mv_mass]. unfold world. rewrite He. exact Q. }
      assert (Me : meeting (mkL ents2 infos2 (Fin ((1 - c') * d)) (Fin c') (l_records st) dbg) f b1 b2 p n rest).
      { split; [exact Ne|]. split; [exists y1; split; [exact Y1|exact B1]|]. split; [exists y2; split; [exact Y2|exact B2]|].
        split; [exact (body_sound _ _ S1 M1)|]. split; [exact (body_sound _ _ S2 M2)|]. split; [|auto].
        destruct M1 as (N1 & _), M2 as (N2 & _). rewrite N1, N2.
        destruct Hn0 as (r & [<-|[]] & Hn0). cbn [r0 cr_first cr_second] in Hn0. 
        destruct (live_get _ _ _ _ G In1) as (u1 & U1). destruct (live_get _ _ _ _ G In2) as (u2 & U2).
        destruct Hn0 as [Hn0|Hn0]; rewrite Hn0 in He0; [left; rewrite (Em _ _ U1 _ He0)|right; rewrite (Em _ _ U2 _ He0)]; exact Hm0. }
      destruct (respond_impact _ _ _ _ _ _ _ _ _ _ Me Er) as (k & c1 & c2 & Im & (z1 & Z1 & D1) & (z2 & Z2 & D2) & Rc').
      cbn [l_ctp l_records] in Rc'.
      pose proof (respond_close _ _ _ _ _ _ _ Me) as Lc.
      assert (Kn' : forall h k, knows (l_infos st') h k <-> paired ts h k \/ (stays_close p n rest b1 b2 /\ pair_of f h k)).
      { destruct Hf as (i1 & i2 & k1 & k2 & q1 & q2 & F1 & F2 & F3 & F4 & F5 & _).
        assert (Pn : forall m i, nth_error (l_infos st) m = Some i -> exists i', nth_error infos2 m = Some i' /\ i_h i' = i_h i).
        { intros m i Hm. assert (A : nth_error (map i_h infos2) m = Some (i_h i)) by (rewrite Eh; now apply map_nth_error).
          rewrite nth_error_map in A. destruct (nth_error infos2 m) as [i'|]; [|discriminate]. exists i'. split; [exact eq_refl|]. cbn in A. congruence. }
        destruct (Pn _ _ F2) as (j1 & J1 & Q1). destruct (Pn _ _ F3) as (j2 & J2 & Q2).
        intros h k'. rewrite <- Lc, <- Kn2. refine (respond_knows _ _ _ _ _ j1 j2 Er J1 J2 _ _ h k'); congruence. }
      set (ts' := if Rlt_dec (Rabs (rest * vdot (relative b1 b2 p) n)) (1 / 1000000) then (fd_h1 f, fd_h2 f) :: ts else ts).
      assert (Ts1 : stays_close p n rest b1 b2 -> ts' = (fd_h1 f, fd_h2 f) :: ts) by (unfold stays_close, ts'; intros; destruct (Rlt_dec _ _); [exact eq_refl|contradiction]).
      assert (Ts2 : ~ stays_close p n rest b1 b2 -> ts' = ts) by (unfold stays_close, ts'; intros; destruct (Rlt_dec _ _); [contradiction|exact eq_refl]).
      assert (Af : forall y z (b b' : body) m, Rvel (fd_h1 f) y z -> inside y m -> is_body z b' -> inside z (with_speed m b')).
      { intros y z b b' m (v & w & ->) (J1 & J2 & J3 & J4 & J5 & J6) (_ & _ & _ & V1 & V2). split; [exact J1|]. split; [exact J2|]. split; [exact J3|]. split; [exact V1|]. split; [exact V2|exact J6]. }
      destruct (arel_get _ _ _ _ _ R1 Y1) as (z1' & Z1' & V1). assert (z1' = z1) by congruence. subst z1'.
      destruct (arel_get _ _ _ _ _ R1 Y2) as (z2' & Z2' & V2). assert (z2' = z2) by congruence. subst z2'.
      pose proof (Af _ _ b1 _ _ V1 I1 D1) as J1. pose proof (Af _ _ b2 _ _ V2 I2 D2) as J2.
      exists c', ts'. split; [exact LI'|exact AT'|exact OC'| | |].
      + intros h e He. destruct (handle_eq_dec h (fd_h1 f)) as [->|N1].
        { assert (e = z1) by congruence. subst e. eapply whole_inside; [exact J1|exact S1]. }
        destruct (handle_eq_dec h (fd_h2 f)) as [->|N2].
        { assert (e = z2) by congruence. subst e. eapply whole_inside; [exact J2|exact S2]. }
        rewrite R7 in He by assumption.
        assert (Hh : In h (ahandles s1ents)).
        { pose proof He as He'. rewrite <- R7 in He' by assumption.
          destruct (arel_get_r _ _ _ _ _ (sl_ents _ _ _ (li_slept _ _ _ LI')) He') as (e1 & H1 & _). apply ahandles_in. congruence. }
        destruct (Gl _ Hh) as (x & y & a & _ & Y & _ & _ & _ & I & S). assert (e = y) by congruence. subst e. eapply whole_inside; eassumption.
      + rewrite Rc'. destruct Hf as (i1 & i2 & k1 & k2 & q1 & q2 & F1 & F2 & F3 & F4 & F5 & Mt & F7 & F8 & F9 & F10 & F11 & F12).
        pose proof (meets_real _ _ _ _ _ _ _ _ _ _ _ _ _ G (nth_error_In _ _ F2) (nth_error_In _ _ F3) Mt F7 F8 (Et0 f eq_refl) Ep En) as Real. cbv zeta in Real.
        eapply (trace_next s d w0 _ _ _ _ _ (world ents2) (world (l_ents st')) (c' * d) ts' p n q1 q2 rest (fd_stat f) (fd_dyn f) (fd_thr f) k b1 b2 c1 c2); cbn [cr_first cr_second cr_time cr_pos cr_normal cr_rest cr_impulse].
        * exact Tr.
        * exists p0. split; [exact Pr|]. rewrite Ep0. ring.
        * exact Ud.
        * exact Ne.
        * apply fin_mul.
        * exact eq_refl.
        * exact eq_refl.
        * exact Un.
        * exact eq_refl.
        * exact eq_refl.
        * destruct Mt as (u1 & u2 & g1 & g2 & U1 & U2 & _ & _ & Mk1 & Mk2 & _). rewrite <- F4 in U1. rewrite <- F5 in U2.
          destruct (going_entity _ _ _ _ _ G U1) as (t1 & T1 & _ & Tc1). destruct (going_entity _ _ _ _ _ G U2) as (t2 & T2 & _ & Tc2).
          exists k1, k2, (make_pub t1), (make_pub t2). unfold get_entity, get_collider. rewrite T1, T2.
          split; [exact eq_refl|]. split; [exact eq_refl|]. cbn [pe_colliders make_pub]. rewrite <- Tc1, <- Tc2.
          split; [exact Mk1|]. split; [exact Mk2|]. split; [exact F7|]. split; [exact F8|]. rewrite <- Ere. auto.
        * rewrite F4, F5. exact (proj1 Real).
        * rewrite F4, F5. replace (c' * d - c * d) with (p0 * ((1 - c) * d)) by (rewrite Ep0; ring). exact (proj2 Real).
        * intros h Hh. destruct (Gl _ (live_in _ Hh)) as (x & y & a & _ & _ & _ & Ka & -> & _). now apply glided_glides.
        * intros h m (r & [<-|[]] & Hn) Hm. cbn [cr_first cr_second] in Hn.
          assert (Hh : h = fd_h1 f \/ h = fd_h2 f) by (destruct Hn; auto).
          assert (Hl : In h (ahandles s1ents)) by (destruct Hh as [->| ->]; assumption).
          destruct (Gl _ Hl) as (x & y & a & X & _ & Ha & _ & Wx & _). rewrite Wx in *. cbn [glided mv_mass mv_awake] in *.
          destruct (live_get _ _ _ _ G Hl) as (e & He). rewrite Ha. apply negb_true_iff. apply (Wk _ _ Hh X).
          destruct (arel_get _ _ _ _ _ Fr He) as (x' & X' & a' & ns & E'). assert (Ex : x = e_set_sleep e a' ns) by congruence. unfold world in Hm. rewrite He in Hm. cbn [mover_of mv_mass] in Hm.
          rewrite Ex. cbn [e_set_sleep e_total_mass]. rewrite Hm. exact eq_refl.
        * exact M1.
        * exact M2.
        * exact Im.
        * eapply world_get; eassumption.
        * eapply world_get; eassumption.
        * intros h Hn. unfold world. rewrite R7; [exact eq_refl| |]; intros ->; apply Hn; eexists; (split; [left; exact eq_refl|]); auto.
        * exact Ts1.
        * exact Ts2.
      + intros h k'. rewrite Kn'. unfold ts', stays_close, paired, pair_of. destruct (Rlt_dec _ _) as [Q|Q]; [|tauto]. cbn [In]. split.
        * intros [A|(_ & [(-> & ->)|(-> & ->)])]; tauto.
        * intros [[A|A]|[A|A]]; [injection A as <- <-; auto|auto|injection A as <- <-; auto|auto].
    - destruct P as (-> & -> & -> & E1). subst ents1. cbn [l_records l_ents l_infos]. split; [exact eq_refl|]. split; [rewrite Rmult_1_l in Ud; exact Ud|]. split; [exact Kn2|]. intros h Hh.
      destruct (Gl _ Hh) as (x & y & a & X & Y & Ha & Ka & Wx & I & _). exists y. split; [exact Y|]. rewrite Wx in I.
      assert (a = mv_awake (world (l_ents st) h)) by (unfold world; rewrite X; exact Ha). subst a. rewrite Rmult_1_l in I. rewrite H0 in I at 1. exact I.
  Qed.
End Trace.
Lemma iterations_longer ord cols dt ents0 n : good_order ord -> forall (st st' : lstate ER), loop_inv cols ents0 st ->
  iterations ord cols dt n st = Ok st' -> exists l, l_records st' = l_records st ++ l.
Proof.
  intros Ho. induction n as [|n IH]; intros st st' LI H; cbn [iterations] in H.
  - inv_ok H. subst st'. exists []. now rewrite app_nil_r.
  - inv_ok H. destruct x as [st1 fin]. cbn [fst snd] in H. destruct (iterate_inv _ _ _ _ _ _ _ Ho LI E) as (L1 & _ & b & _ & _ & Hb).
    destruct (snd b) as [f|].
    + destruct Hb as (-> & im & Rr). destruct (IH _ _ L1 H) as (l & ->). rewrite Rr, <- app_assoc. eauto.
    + destruct Hb as (-> & Rr). inv_ok H. subst st'. rewrite Rr. exists []. now rewrite app_nil_r.
Qed.
Lemma iterations_going s ents0 d w0 ord n : arel Rvel (s_ents s) ents0 -> good_order ord -> forall c ts0 st st', going s ents0 d w0 c ts0 st ->
  iterations ord (s_cols s) (Fin d) n st = Ok st' -> Forall (clean s) (l_records st') ->
  exists w t ts, trace s d w0 (l_records st') ts w t /\ (forall h k, knows (l_infos st') h k <-> paired ts h k) /\ (forall h, In h (ahandles ents0) -> exists e', aget (l_ents st') h = Some e' /\
    inside e' (if Nat.eqb (length (l_records st')) (length (l_records st) + n) then w h else glided (w h) (d - t) (mv_awake (w h)))) /\
    (length (l_records st') <> (length (l_records st) + n)%nat -> undisturbed s d w t d).
Proof.
  intros Hs Ho. induction n as [|n IH]; intros c ts0 st st' G H Cl; cbn [iterations] in H.
  - inv_ok H. subst st'. cbn [l_records l_ents l_infos]. exists (world (l_ents st)), (c * d), ts0. split; [exact (go_trace _ _ _ _ _ _ _ G)|]. split; [exact (go_knows _ _ _ _ _ _ _ G)|]. split; [|intros X; lia].
    intros h Hh. rewrite Nat.add_0_r, Nat.eqb_refl. destruct (live_get _ _ _ _ _ _ _ _ G Hh) as (e & He). exists e. split; [exact He|].
    destruct (go_whole _ _ _ _ _ _ _ G _ _ He) as (I & _). now rewrite (world_get _ _ _ _ He I).
  - inv_ok H. destruct x as [st1 fin]. cbn [fst snd] in H.
    destruct (iterate_inv _ _ _ _ _ _ _ Ho (go_inv _ _ _ _ _ _ _ G) E) as (L1 & _ & b & _ & _ & Hb).
    destruct fin.
    + inv_ok H. subst st'.
      destruct (iterate_going _ _ _ _ Hs _ _ _ _ _ _ _ Ho G E (ex_intro _ [] (eq_sym (app_nil_r _))) Cl) as (Rr & Ud & Kn & F).
      exists (world (l_ents st)), (c * d), ts0. rewrite Rr. split; [exact (go_trace _ _ _ _ _ _ _ G)|]. split; [exact Kn|]. split; [|intros _; exact Ud]. intros h Hh.
      destruct (Nat.eqb_spec (length (l_records st)) (length (l_records st) + S n)); [lia|]. exact (F h Hh).
    + destruct (snd b) as [f|]; [|destruct Hb as (Hb & _); discriminate]. destruct Hb as (_ & im & Rr).
      destruct (iterate_going _ _ _ _ Hs _ _ _ _ _ _ _ Ho G E (iterations_longer _ _ _ _ _ Ho _ _ L1 H) Cl) as (c' & ts1 & G').
      destruct (IH _ _ _ _ G' H Cl) as (w & t & ts & T & Kn & F & Ud). exists w, t, ts. split; [exact T|]. split; [exact Kn|].
      rewrite Rr, app_length in F, Ud. cbn [length] in F, Ud. replace (length (l_records st) + S n)%nat with (length (l_records st) + 1 + n)%nat by lia. split; [exact F|exact Ud].
Qed.

(** The state in which the iterations of a step begin. *)
Lemma step_going ord s d s' : step ord s (Fin d) = Ok s' -> n_lt (n_abs (Fin d)) EPSILON = false -> sound_start s d ->
  exists s1 infos st w0,
    rfold (integrate_one (Fin d) (ahandles (s_gens s))) (ahandles (s_ents s))
      (mkS (s_ents s) (s_cols s) (s_gens s) (s_iteration_max s) [] (s_energy_thr s) (s_time_thr s) [], []) = Ok (s1, infos) /\
    iterations ord (s_cols s) (Fin d) (s_iteration_max s) (mkL (s_ents s1) infos (Fin d) n0 [] []) = Ok st /\
    rfold (sleep_one (Fin d) (s_energy_thr s) (s_time_thr s)) (l_infos st) (l_ents st, l_debug st) = Ok (s_ents s', s_debug s') /\
    s_records s' = l_records st /\ map i_h infos = ahandles (s_ents s1) /\ arel Rvel (s_ents s) (s_ents s1) /\
    going s (s_ents s1) d w0 0 [] (mkL (s_ents s1) infos (Fin d) n0 [] []) /\
    forall h, get_entity s h <> None -> starts_as s d h (w0 h) /\ sound_mover (w0 h).
Proof.
  intros H Hd St.
  destruct (step_phases _ _ _ _ H Hd) as (s1 & infos & st & P1 & P2 & P3 & P4 & P5 & P6 & P7). cbv zeta in P1.
  pose proof (integrate_spec _ _ _ P1) as (_ & _ & Q3 & Q4). cbn [fst snd s_ents s_gens] in *.
  pose proof (loop_inv_init (s_cols s) _ _ (Fin d) P6) as LI.
  assert (S0 : forall h e, aget (s_ents s) h = Some e -> exists e1 fs m, aget (s_ents s1) h = Some e1 /\ forces_on s (Fin d) h fs /\ starts_with d e fs m /\ sound_mover m /\ inside e1 m).
  { intros h e He. destruct (Q3 h e He) as (fs & F1 & F2). destruct (St h e fs He F1) as (m & M1 & M2). eexists _, fs, m. split; [exact F2|]. split; [exact F1|]. split; [exact M1|].
    split; [exact M2|]. exact M1. }
  set (w0 := world (s_ents s1)).
  assert (G : going s (s_ents s1) d w0 0 [] (mkL (s_ents s1) infos (Fin d) n0 [] [])).
  { split.
    - exact LI.
    - split; [|split; [cbn [l_left]; f_equal; ring|lra]]. cbn [l_ctp]. unfold n0. simpl. f_equal. lra.
    - intros i x Hi Hx. cbn [l_infos l_ents l_left] in *. destruct (Q4 i Hi) as (y & Y1 & Y2 & Y3 & _). assert (y = x) by congruence. subst y. auto.
    - intros h e1 He. cbn [l_ents] in He. destruct (arel_get_r _ _ _ _ _ P7 He) as (e & He0 & _). destruct (S0 h e He0) as (e1' & fs & m & A & B & C & D & E).
      assert (e1' = e1) by congruence. subst e1'. eapply whole_inside; eassumption.
    - cbn [l_records l_ents]. rewrite Rmult_0_l. constructor.
    - intros h k. cbn [l_infos]. unfold paired. cbn [In]. split; [|tauto]. intros (i & Hi & _ & Hk). destruct (Q4 i Hi) as (e & _ & _ & _ & Z). rewrite Z in Hk. destruct Hk. }
  exists s1, infos, st, w0. repeat (split; [assumption|]).
  intros h Hh. unfold get_entity in Hh. destruct (aget (s_ents s) h) as [e|] eqn:He; [|contradiction].
  destruct (S0 h e He) as (e1 & fs & m & A & B & C & D & E). unfold w0. rewrite (world_get _ _ _ _ A E). split; [exists e, fs; auto|exact D].
Qed.

Lemma step_trace ord s d s' : good_order ord -> step ord s (Fin d) = Ok s' -> n_lt (n_abs (Fin d)) EPSILON = false ->
  sound_start s d -> Forall (clean s) (s_records s') ->
  exists w0 w t ts, (forall h, get_entity s h <> None -> starts_as s d h (w0 h) /\ sound_mover (w0 h)) /\
    trace s d w0 (s_records s') ts w t /\
    (forall h, get_entity s h <> None ->
      if Nat.eqb (length (s_records s')) (s_iteration_max s) then ends_as s' h (w h)
      else exists m, glides (w h) (d - t) m /\ mv_awake m = mv_awake (w h) /\ ends_as s' h m) /\
    (length (s_records s') <> s_iteration_max s -> undisturbed s d w t d) /\
    forall h, In (DSleep h) (s_debug s') -> forall k, contact (s_ents s') h k <-> paired ts h k.
Proof.
  intros Ho H Hd St Cl.
  destruct (step_going _ _ _ _ H Hd St) as (s1 & infos & st & w0 & P1 & P2 & P3 & P4 & P6 & P7 & G & S0). pose proof (go_inv _ _ _ _ _ _ _ G) as LI.
  pose proof (phase_contacts _ _ _ _ _ _ _ Ho H Hd P1 P2 P3 P4 P6 P7) as (_ & Co & _).
  rewrite P4 in Cl. destruct (iterations_going _ _ _ _ _ _ P7 Ho _ _ _ _ G P2 Cl) as (w & t & ts & T & Kn & F & Ud). cbn [l_records length] in F, Ud. rewrite Nat.add_0_l in F, Ud.
  exists w0, w, t, ts. rewrite P4. split; [|split; [exact T|split; [|split; [exact Ud|intros h Hs k; rewrite (Co h Hs); apply Kn]]]].
  - exact S0.
  - assert (P2' := P2). apply (iterations_inv ord (s_cols s) (Fin d) (s_ents s1) (s_iteration_max s) Ho _ _ LI) in P2'.
    destruct P2' as ([_ L2 _ _] & _).
    assert (ND : NoDup (map i_h (l_infos st))) by (rewrite L2; apply ahandles_nodup).
    pose proof (sleep_phase_spec _ _ _ _ ND _ _ P3) as (S1 & _). cbn [fst snd] in *.
    assert (En : forall h m, In h (ahandles (s_ents s1)) -> (exists e', aget (l_ents st) h = Some e' /\ inside e' m) -> ends_as s' h m).
    { intros h m Hh (e2 & A2 & (I1 & I2 & I3 & I4 & I5 & I6)). destruct (S1 h e2 A2) as (e' & B1 & B2 & _).
      assert (Hi : In h (map i_h (l_infos st))) by now rewrite L2.
      apply in_map_iff in Hi. destruct Hi as (i & Hih & Hi). destruct (B2 i Hi Hih) as (ns & Hns).
      exists (make_pub e'). unfold get_entity. rewrite B1. split; [exact eq_refl|]. unfold make_pub. cbn [pe_last_total_mass pe_last_prep_moi pe_last_orient pe_vel pe_angvel].
      unfold sleep_decision in Hns. rewrite I6 in Hns. subst e'.
      destruct (mv_awake m); cbn [negb] in *; [destruct (n_lt (s_energy_thr s) _); [|destruct (n_lt _ (s_time_thr s))]|];
        cbn [fst e_set_sleep e_set_falling e_set_vels e_total_mass e_prep_moi e_orient e_vel e_angvel]; repeat (split; [assumption|]); try assumption.
      unfold vzero. rewrite fin_0. split; exact eq_refl. }
    intros h Hh. pose proof (live_in _ _ P7 _ Hh) as Hl. specialize (F h Hl).
    destruct (Nat.eqb (length (l_records st)) (s_iteration_max s)); [exact (En _ _ Hl F)|].
    eexists. split; [|split; [|exact (En _ _ Hl F)]]; [apply glided_glides; auto|exact eq_refl].
Qed.
(** A step without collisions. *)
Lemma step_silent ord s d s' : good_order ord -> step ord s (Fin d) = Ok s' -> n_lt (n_abs (Fin d)) EPSILON = false ->
  sound_start s d -> s_iteration_max s <> 0%nat -> s_records s' = [] ->
  exists w, (forall h, get_entity s h <> None -> starts_as s d h (w h) /\ sound_mover (w h) /\ exists m, glides (w h) d m /\ ends_as s' h m) /\ undisturbed s d w 0 d.
Proof.
  intros Ho H Hd St It Re. destruct (step_trace _ _ _ _ Ho H Hd St) as (w0 & w & t & ts & A & T & En & Ud & _); [rewrite Re; constructor|].
  rewrite Re in *. cbn [length] in *. inversion T as [E1 E2 E3|? ? ? ? ? ? ? ? ? ? ? ? ? ? ? ? ? ? ? ? ? ? ? ? ? ? ? ? ? ? ? ? ? ? ? ? ? Bad]; [|destruct rs; discriminate].
  subst. exists w. split; [|apply Ud; congruence]. intros h Hh. destruct (A h Hh) as (A1 & A2). split; [exact A1|]. split; [exact A2|].
  specialize (En h Hh). destruct (Nat.eqb_spec 0 (s_iteration_max s)); [congruence|]. destruct En as (m & G & _ & E). rewrite Rminus_0_r in G. eauto.
Qed.
