(** * Phys3P: a step conserves the total linear momentum, in exact arithmetic *)
From Coq Require Import ZArith Reals Lra Psatz Bool List Lia Permutation.
Import ListNotations.
From Verif Require Import Num Vec Res Arena RangeM Orient Colliders Collide EntityM SystemM OrderP Spec ResP ArenaP FrameP WakeP StepP Step2P Step3P ArithP RangeP RealSpec RealV OrientP GeomP Geom4P PhysSpec PhysP.
Local Open Scope R_scope.

Definition rr (x : ER) : R := match x with Fin r => r | _ => 0 end.
Definition rv (v : Vec3 ER) : V := mkV (rr (vx v)) (rr (vy v)) (rr (vz v)).
Lemma rv_fin v : rv (vfin v) = v.
Proof. destruct v. exact eq_refl. Qed.
Lemma finite_rv v : finite_v v -> v = vfin (rv v).
Proof. intros [x ->]. now rewrite rv_fin. Qed.
Lemma add_back x y r : n_add x y = Fin r -> exists a b, x = Fin a /\ y = Fin b /\ r = a + b.
Proof.
  change (@n_add ER EReal) with er_add. destruct x as [a| | |], y as [b| | |]; cbn [er_add]; intros H; try discriminate.
  exists a, b. split; [exact eq_refl|]. split; [exact eq_refl|]. symmetry. now apply fin_eq.
Qed.
Lemma mul_back x k r : k <> 0 -> n_mul x (Fin k) = Fin r -> exists a, x = Fin a /\ r = a * k.
Proof.
  change (@n_mul ER EReal) with er_mul. intros Hk. destruct x as [a| | |]; cbn [er_mul]; unfold er_inf_times; intros H.
  - exists a. split; [exact eq_refl|]. symmetry. now apply fin_eq.
  - destruct (Req_EM_T k 0); [contradiction|]. destruct (Rlt_dec 0 k); discriminate.
  - destruct (Req_EM_T k 0); [contradiction|]. destruct (Rlt_dec 0 k); discriminate.
  - discriminate.
Qed.
Lemma vadd_back a b : finite_v (vadd a b) -> finite_v a /\ finite_v b /\ rv (vadd a b) = vadd (rv a) (rv b).
Proof.
  intros [[x y z] H]. destruct a as [a1 a2 a3], b as [b1 b2 b3]. unfold vadd, vfin in H. cbn [vx vy vz] in H.
  assert (H1 := f_equal (@vx _) H). assert (H2 := f_equal (@vy _) H). assert (H3 := f_equal (@vz _) H). cbn [vx vy vz] in H1, H2, H3.
  apply add_back in H1, H2, H3. destruct H1 as (p1 & q1 & -> & -> & ->), H2 as (p2 & q2 & -> & -> & ->), H3 as (p3 & q3 & -> & -> & ->).
  split; [exists (mkV p1 p2 p3); exact eq_refl|]. split; [exists (mkV q1 q2 q3); exact eq_refl|]. exact eq_refl.
Qed.
Lemma vscale_back a k : k <> 0 -> finite_v (vscale a (Fin k)) -> finite_v a /\ rv (vscale a (Fin k)) = vscale (rv a) k.
Proof.
  intros Hk [[x y z] H]. destruct a as [a1 a2 a3]. unfold vscale, vfin in H. cbn [vx vy vz] in H.
  assert (H1 := f_equal (@vx _) H). assert (H2 := f_equal (@vy _) H). assert (H3 := f_equal (@vz _) H). cbn [vx vy vz] in H1, H2, H3.
  apply mul_back in H1; [|exact Hk]. apply mul_back in H2; [|exact Hk]. apply mul_back in H3; [|exact Hk].
  destruct H1 as (p1 & -> & ->), H2 as (p2 & -> & ->), H3 as (p3 & -> & ->). split; [exists (mkV p1 p2 p3); exact eq_refl|]. exact eq_refl.
Qed.
Lemma vneg_back a : finite_v (vneg a) -> finite_v a.
Proof.
  intros [[x y z] H]. destruct a as [a1 a2 a3]. unfold vneg, vfin in H. cbn [vx vy vz] in H.
  assert (H1 := f_equal (@vx _) H). assert (H2 := f_equal (@vy _) H). assert (H3 := f_equal (@vz _) H). cbn [vx vy vz] in H1, H2, H3.
  destruct a1, a2, a3; try discriminate. eexists (mkV _ _ _). exact eq_refl.
Qed.

(** One impulse: if the result is finite, so was everything, and momentum changed by the impulse. *)
Lemma apply_back (e : ientity ER) p j m : e_total_mass e = Fin m -> 0 < m -> finite_v (e_vel (apply_impulse e p j)) ->
  finite_v (e_vel e) /\ finite_v j /\ vscale (rv (e_vel (apply_impulse e p j))) m = vadd (vscale (rv (e_vel e)) m) (rv j).
Proof.
  intros Em Hm. unfold apply_impulse. cbn [e_vel e_set_vels]. rewrite Em, fin_1, fin_div by lra. intros H.
  apply vadd_back in H. destruct H as (H1 & H2 & H3). rewrite H3. assert (K : 1 / m <> 0) by (apply Rgt_not_eq, Rdiv_lt_0_compat; lra).
  apply vscale_back in H2; [|exact K]. destruct H2 as (H2 & H4). rewrite H4. split; [exact H1|]. split; [exact H2|].
  destruct (rv (e_vel e)), (rv j). apply vext; vunfold; field; lra.
Qed.
Lemma pair_back (e1 e2 : ientity ER) f e1' e2' im ic m1 m2 : respond_pair e1 e2 f = (e1', e2', im, ic) ->
  e_total_mass e1 = Fin m1 -> e_total_mass e2 = Fin m2 -> 0 < m1 -> 0 < m2 ->
  finite_v (e_vel e1') -> finite_v (e_vel e2') ->
  finite_v (e_vel e1) /\ finite_v (e_vel e2) /\
  vadd (vscale (rv (e_vel e1')) m1) (vscale (rv (e_vel e2')) m2) = vadd (vscale (rv (e_vel e1)) m1) (vscale (rv (e_vel e2)) m2).
Proof.
  intros H E1 E2 P1 P2 F1 F2. unfold respond_pair in H. destruct (friction _ _ _ _) as [fr c]. injection H as <- <- _ _.
  apply (apply_back _ _ _ m1) in F1; [|exact E1|exact P1]. apply (apply_back _ _ _ m2) in F2; [|exact E2|exact P2].
  destruct F1 as (F1 & [r ->] & L1), F2 as (F2 & _ & L2). rewrite L1, L2.
  apply (apply_back _ _ _ m1) in F1; [|exact E1|exact P1]. apply (apply_back _ _ _ m2) in F2; [|exact E2|exact P2].
  destruct F1 as (F1 & [k Hk] & L3), F2 as (F2 & _ & L4). rewrite L3, L4. rewrite Hk. rewrite !vfin_neg, !rv_fin.
  split; [exact F1|]. split; [exact F2|]. destruct k, r, (rv (e_vel e1)), (rv (e_vel e2)). apply vext; vunfold; ring.
Qed.

(** ** Sums over all entities *)
Notation entsR := (arena (ientity ER)).
Definition fin_vels (ents : entsR) : Prop := forall h e, aget ents h = Some e -> finite_v (e_vel e).
Definition good_mass (ents : entsR) : Prop := forall h e, aget ents h = Some e -> exists m, e_total_mass e = Fin m /\ 0 < m.
Definition share (ents : entsR) (h : handle) : V :=
  match aget ents h with Some e => vscale (rv (e_vel e)) (rr (e_total_mass e)) | None => mkV 0 0 0 end.
Definition msum (ents : entsR) (hs : list handle) : V := fold_right (fun h acc => vadd (share ents h) acc) (mkV 0 0 0) hs.
Lemma msum_perm ents hs hs' : Permutation hs hs' -> msum ents hs = msum ents hs'.
Proof.
  induction 1 as [|x l l' _ IH|x y l|l1 l2 l3 _ IH1 _ IH2]; cbn [msum fold_right]; [exact eq_refl| | |].
  - unfold msum in IH. now rewrite IH.
  - set (a := share ents x). set (b := share ents y). set (c := fold_right _ _ _). destruct a, b, c. apply vext; vunfold; ring.
  - now rewrite IH1.
Qed.
Lemma msum_ext ents ents' hs : (forall h, In h hs -> share ents' h = share ents h) -> msum ents' hs = msum ents hs.
Proof. induction hs as [|h hs IH]; cbn [msum fold_right]; intros H; [exact eq_refl|]. rewrite (H h) by now left. unfold msum in IH. rewrite IH; [exact eq_refl|]. intros k Hk. apply H. now right. Qed.
Lemma msum_two ents ents' hs h1 h2 : NoDup hs -> h1 <> h2 -> In h1 hs -> In h2 hs ->
  (forall h, h <> h1 -> h <> h2 -> share ents' h = share ents h) ->
  vadd (share ents' h1) (share ents' h2) = vadd (share ents h1) (share ents h2) ->
  msum ents' hs = msum ents hs.
Proof.
  intros ND Hne I1 I2 Out Two. apply in_split in I1. destruct I1 as (l1 & l2 & ->).
  assert (I2' : In h2 (l1 ++ l2)) by (apply in_app_or in I2; apply in_or_app; destruct I2 as [I2|[I2|I2]]; auto; congruence).
  apply in_split in I2'. destruct I2' as (r1 & r2 & Er).
  assert (P : Permutation (l1 ++ h1 :: l2) (h1 :: h2 :: r1 ++ r2)).
  { etransitivity; [symmetry; apply Permutation_middle|]. constructor. rewrite Er. symmetry. apply Permutation_middle. }
  rewrite !(msum_perm _ _ _ P). apply (Permutation_NoDup P) in ND. apply NoDup_cons_iff in ND. destruct ND as (N1 & ND). apply NoDup_cons_iff in ND. destruct ND as (N2 & _).
  cbn [msum fold_right]. fold (msum ents (r1 ++ r2)). fold (msum ents' (r1 ++ r2)). rewrite (msum_ext ents ents' (r1 ++ r2)).
  - set (c := msum _ _). set (a := share ents' h1) in *. set (b := share ents' h2) in *. set (a' := share ents h1) in *. set (b' := share ents h2) in *.
    assert (As : forall x y z : V, vadd x (vadd y z) = vadd (vadd x y) z) by (intros; apply vext; vunfold; ring). rewrite !As, Two. exact eq_refl.
  - intros h Hh. apply Out; intros ->; [apply N1; now right|auto].
Qed.
Lemma arel_with {A} (R R' : handle -> A -> A -> Prop) a b : arel R a b ->
  (forall h x y, aget a h = Some x -> aget b h = Some y -> R h x y -> R' h x y) -> arel R' a b.
Proof.
  intros (E & H & G & P) HR. split; [exact E|]. split; [exact H|]. split; [exact G|]. intros h. specialize (P h). specialize (HR h).
  destruct (aget a h), (aget b h); auto.
Qed.
(** Nothing that matters changed. *)
Definition same_mv (h : handle) (e e' : ientity ER) : Prop := e_vel e' = e_vel e /\ e_total_mass e' = e_total_mass e.
Lemma same_back ents ents' hs : arel same_mv ents ents' -> fin_vels ents' -> fin_vels ents /\ msum ents' hs = msum ents hs.
Proof.
  intros A F. split.
  - intros h e He. destruct (arel_get _ _ _ _ _ A He) as (e' & He' & H1 & H2). rewrite <- H1. now apply (F h).
  - apply msum_ext. intros h _. unfold share. destruct (aget ents h) as [e|] eqn:E.
    + destruct (arel_get _ _ _ _ _ A E) as (e' & He' & H1 & H2). now rewrite He', H1, H2.
    + apply (arel_none _ _ _ _ A) in E. now rewrite E.
Qed.
Lemma good_mass_step ents ents' (R : handle -> ientity ER -> ientity ER -> Prop) : (forall h e e', R h e e' -> e_total_mass e' = e_total_mass e) ->
  arel R ents ents' -> good_mass ents -> good_mass ents'.
Proof. intros HR A G h e' He'. destruct (arel_get_r _ _ _ _ _ A He') as (e & He & Hr). rewrite (HR _ _ _ Hr). now apply (G h). Qed.
Lemma Rstep_mass h (e e' : ientity ER) : Rstep h e e' -> e_total_mass e' = e_total_mass e.
Proof. intros H. apply H. Qed.
Lemma Rsleep_mv h (e e' : ientity ER) : Rsleep h e e' -> same_mv h e e'.
Proof. intros (a & ns & ->). now split. Qed.

Lemma respond_back dt ta f (st st' : lstate ER) hs : respond dt ta f st = Ok st' -> fd_h1 f <> fd_h2 f -> NoDup hs -> In (fd_h1 f) hs -> In (fd_h2 f) hs ->
  good_mass (l_ents st) -> fin_vels (l_ents st') -> fin_vels (l_ents st) /\ msum (l_ents st') hs = msum (l_ents st) hs.
Proof.
  intros H Hne ND I1 I2 G F. pose proof (respond_keep _ _ _ _ _ H) as Keep.
  unfold respond in H. apply rbind_ok in H. destruct H as (e1 & E1 & H). apply unwrap_ok in E1. apply rbind_ok in H. destruct H as (e2 & E2 & H). apply unwrap_ok in E2.
  destruct (respond_pair e1 e2 f) as [[[e1' e2'] im] ic] eqn:Er.
  inv_ok H. inv_ok H. inv_ok H. inv_ok H. subst st'. cbn [l_ents] in *.
  assert (G1 : aget (aset (aset (l_ents st) (fd_h1 f) e1') (fd_h2 f) e2') (fd_h1 f) = Some e1') by (rewrite aget_aset_neq by congruence; eapply aget_aset_eq; exact E1).
  assert (G2 : aget (aset (aset (l_ents st) (fd_h1 f) e1') (fd_h2 f) e2') (fd_h2 f) = Some e2') by (eapply aget_aset_eq; rewrite aget_aset_neq by congruence; exact E2).
  destruct (G _ _ E1) as (m1 & M1 & P1), (G _ _ E2) as (m2 & M2 & P2).
  destruct (pair_back e1 e2 f e1' e2' im ic m1 m2 Er M1 M2 P1 P2 (F _ _ G1) (F _ _ G2)) as (B1 & B2 & B3).
  destruct (respond_pair_vels _ _ _ _ _ _ _ Er) as ((v1 & w1 & V1) & (v2 & w2 & V2)).
  split.
  - intros h e He. destruct (handle_eq_dec h (fd_h1 f)) as [->|N1]; [now replace e with e1 by congruence|].
    destruct (handle_eq_dec h (fd_h2 f)) as [->|N2]; [now replace e with e2 by congruence|]. apply (F h). rewrite Keep by assumption. exact He.
  - apply (msum_two _ _ _ (fd_h1 f) (fd_h2 f)); try assumption.
    + intros h N1 N2. unfold share. now rewrite Keep by assumption.
    + unfold share. rewrite G1, G2, E1, E2. rewrite V1, V2 at 2. cbn [e_total_mass e_set_vels].
      subst e1' e2'. cbn [e_total_mass e_set_vels] in *. rewrite M1, M2. exact B3.
Qed.

(** ** The loop *)
Section Loop.
  Context (ord : set_order) (Ho : good_order ord).
  Lemma iterate_back cols dt ents0 (st st' : lstate ER) fin : loop_inv cols ents0 st -> iterate ord cols dt st = Ok (st', fin) ->
    good_mass (l_ents st) -> fin_vels (l_ents st') ->
    fin_vels (l_ents st) /\ msum (l_ents st') (ahandles ents0) = msum (l_ents st) (ahandles ents0) /\ good_mass (l_ents st').
  Proof.
    intros HI H G F. unfold iterate in H. inv_ok H. rename E into Eb. destruct x as [p of].
    destruct (find_earliest_spec _ _ _ _ _ Ho Eb) as (Hb & _).
    inv_ok H. destruct x as [ents1 dbg1]. inv_ok H. destruct x as [ents2 infos2].
    pose proof (advance_keep _ _ _ _ _ E0) as Ke. pose proof (advance_frame _ _ _ _ _ E0) as (Fs & Fh & Fn). cbn [fst snd] in *.
    assert (A2 : arel same_mv ents1 ents2).
    { apply (arel_with _ _ _ _ Fs). intros h x y Hx Hy Hs. split; [|exact (Rstep_mass _ _ _ Hs)].
      destruct (arel_get _ _ _ _ _ Ke Hx) as (y' & Hy' & K & _). congruence. }
    destruct HI as [I1 I2 I4 I5]. destruct of as [f|].
    - apply rbind_ok in E. destruct E as ([ents' dbg'] & W1 & W2). inv_ok H. rename x into st2. inv_ok H. subst st2 fin.
      apply wake_finite_frame in W1. apply wake_finite_frame in W2. cbn [fst snd] in *.
      assert (A1 : arel same_mv (l_ents st) ents1).
      { eapply arel_trans; [|eapply arel_impl; [apply Rsleep_mv|exact W1]|eapply arel_impl; [apply Rsleep_mv|exact W2]].
        intros h a b c (X1 & X2) (Y1 & Y2). split; congruence. }
      assert (G2 : good_mass ents2).
      { eapply good_mass_step; [|exact A2|]; [intros h a b (_ & X); exact X|]. eapply good_mass_step; [|exact A1|exact G]. intros h a b (_ & X); exact X. }
      pose proof (respond_frame _ _ _ _ _ E) as (Fr & _).
      destruct Hb as (_ & _ & i1 & i2 & k1 & k2 & c1 & c2 & B1 & B2 & B3 & B4 & B5 & B6 & _).
      assert (ND : NoDup (map i_h (l_infos st))) by (rewrite I2; apply ahandles_nodup).
      apply (respond_back _ _ _ _ _ (ahandles ents0)) in E.
      + cbn [l_ents] in E. destruct E as (E1 & E2). rewrite E2. destruct (same_back _ _ (ahandles ents0) A2 E1) as (E3 & E4). rewrite E4.
        destruct (same_back _ _ (ahandles ents0) A1 E3) as (E5 & E6). split; [exact E5|]. split; [exact E6|].
        eapply good_mass_step; [|exact Fr|exact G2]. intros h a b (v & w & ->). exact eq_refl.
      + rewrite B4, B5. intros Heq. assert (X : fd_i1 f = fd_i2 f).
        { eapply NoDup_nth_error; [exact ND| |].
          - rewrite map_length. apply nth_error_Some. congruence.
          - rewrite !nth_error_map, B2, B3. cbn [option_map]. congruence. }
        lia.
      + apply ahandles_nodup.
      + rewrite <- I2, B4. apply in_map. eapply nth_error_In; eauto.
      + rewrite <- I2, B5. apply in_map. eapply nth_error_In; eauto.
      + exact G2.
      + exact F.
    - inv_ok E. subst ents1 dbg1. inv_ok H. subst st' fin. cbn [l_ents] in *. destruct (same_back _ _ (ahandles ents0) A2 F) as (E3 & E4).
      split; [exact E3|]. split; [exact E4|]. eapply good_mass_step; [|exact A2|exact G]. intros h a b (_ & X); exact X.
  Qed.
  Lemma iterations_back cols dt ents0 n : forall st st' : lstate ER, loop_inv cols ents0 st -> iterations ord cols dt n st = Ok st' ->
    good_mass (l_ents st) -> fin_vels (l_ents st') -> fin_vels (l_ents st) /\ msum (l_ents st') (ahandles ents0) = msum (l_ents st) (ahandles ents0).
  Proof.
    induction n as [|n IH]; intros st st' HI H G F.
    - cbn [iterations] in H. apply ok_inj in H. subst st'. now split.
    - cbn [iterations] in H. apply rbind_ok in H. destruct H as ([st1 fin] & E & H). cbn [fst snd] in H.
      pose proof (iterate_inv ord cols dt ents0 _ _ _ Ho HI E) as (HI' & _).
      assert (G' : good_mass (l_ents st1)).
      { destruct HI as [L _ _ _], HI' as [L' _ _ _]. intros h e He.
        destruct (arel_get_r _ _ _ _ _ (sl_ents _ _ _ L') He) as (e0 & He0 & R1 & _).
        destruct (arel_get _ _ _ _ _ (sl_ents _ _ _ L) He0) as (e1 & He1 & R2 & _).
        destruct (G _ _ He1) as (m & Hm & Pm). exists m. split; [|exact Pm]. apply Rstep_mass in R1, R2. congruence. }
      destruct fin.
      + apply ok_inj in H. subst st1. destruct (iterate_back _ _ _ _ _ _ HI E G F) as (X1 & X2 & _). now split.
      + destruct (IH _ _ HI' H G' F) as (F1 & F2). destruct (iterate_back _ _ _ _ _ _ HI E G F1) as (X1 & X2 & _). split; [exact X1|congruence].
  Qed.
End Loop.

(** ** The whole step *)
Lemma momentum_msum (s : system ER) : finite_masses s -> finite_speeds s -> momentum s = vfin (msum (s_ents s) (ahandles (s_ents s))).
Proof.
  intros M F. unfold momentum, msum. induction (ahandles (s_ents s)) as [|h hs IH]; cbn [fold_right]; [exact eq_refl|]. rewrite IH.
  assert (X : momentum_of s h = vfin (share (s_ents s) h)).
  { unfold momentum_of, share. specialize (M h). specialize (F h). unfold get_entity in *. destruct (aget (s_ents s) h) as [e|]; cbn [option_map] in *; [|exact eq_refl].
    destruct (M _ eq_refl) as (m & Hm & _). specialize (F _ eq_refl). cbn [make_pub pe_vel pe_last_total_mass] in *. rewrite (finite_rv _ F), Hm. rewrite rv_fin. exact eq_refl. }
  rewrite X. exact eq_refl.
Qed.
Lemma pushed_nothing (e : ientity ER) d : pushed_vel (Fin d) [] e = vadd (e_vel e) (vfin (mkV 0 0 0)).
Proof.
  unfold pushed_vel. cbn [map]. unfold Spec.vsum. cbn [fold_left]. replace (@vzero ER EReal) with (vfin (mkV 0 0 0)) by (unfold vzero; now rewrite fin_0). rewrite vfin_scale.
  assert (E : vscale (mkV 0 0 0) d = mkV 0 0 0) by (apply vext; vunfold; ring). now rewrite E.
Qed.
Lemma zero_back (v : Vec3 ER) : finite_v (vadd v (vfin (mkV 0 0 0))) -> vadd v (vfin (mkV 0 0 0)) = v.
Proof. intros H. apply vadd_back in H. destruct H as ([x ->] & _). rewrite vfin_add. f_equal. destruct x. apply vext; vunfold; ring. Qed.

Lemma step_momentum ord (s s' : system ER) d : good_order ord -> ahandles (s_gens s) = [] -> finite_masses s ->
  (forall h e, get_entity s h = Some e -> pe_asleep e = true -> pe_vel e = vfin (mkV 0 0 0)) ->
  step ord s (Fin d) = Ok s' -> finite_speeds s' -> momentum s' = momentum s.
Proof.
  intros Ho Hg M Z H F'. destruct (n_lt (n_abs (Fin d)) EPSILON) eqn:Hd.
  { unfold step in H. rewrite Hd in H. apply ok_inj in H. now subst. }
  pose proof (step_frame _ _ _ _ H) as (Fs & _).
  destruct (step_phases _ _ _ _ H Hd) as (s1 & infos & st & P1 & P2 & P3 & P4 & P5 & P6 & P7). cbv zeta in P1.
  pose proof (integrate_spec _ _ _ P1) as (_ & _ & Q3 & _). cbn [fst snd s_ents s_gens] in *.
  assert (M0 : good_mass (s_ents s)) by (intros h e He; apply (M h (make_pub e)); unfold get_entity; now rewrite He).
  assert (M' : finite_masses s').
  { intros h e He. unfold get_entity in He. destruct (aget (s_ents s') h) as [e'|] eqn:E'; [|discriminate]. injection He as <-.
    eapply good_mass_step in M0; [|apply Rstep_mass|exact Fs]. exact (M0 _ _ E'). }
  assert (M1 : good_mass (s_ents s1)) by (eapply good_mass_step; [|exact P7|exact M0]; intros h a b (v & w & ->); exact eq_refl).
  assert (Fv' : fin_vels (s_ents s')) by (intros h e He; apply (F' h (make_pub e)); unfold get_entity; now rewrite He).
  assert (L := iterations_inv ord (s_cols s) (Fin d) (s_ents s1) (s_iteration_max s) Ho _ _ (loop_inv_init _ _ _ _ P6) P2).
  destruct L as ([L1 L2 L3 L4] & _).
  assert (ND : NoDup (map i_h (l_infos st))) by (rewrite L2; apply ahandles_nodup).
  destruct (sleep_phase_spec _ _ _ _ ND _ _ P3) as (S1 & _). cbn [fst] in S1.
  (** nobody is pushed *)
  assert (V1 : forall h e, aget (s_ents s) h = Some e -> exists e1, aget (s_ents s1) h = Some e1 /\ e_vel e1 = vadd (e_vel e) (vfin (mkV 0 0 0)) /\ e_asleep e1 = e_asleep e /\ e_total_mass e1 = e_total_mass e).
  { intros h e He. destruct (Q3 h e He) as (fs & (e0 & E0 & F1) & F2). eexists. split; [exact F2|]. cbn [e_vel e_asleep e_total_mass e_set_vels s_ents s_gens] in *.
    rewrite Hg in F1. assert (fs = []) as -> by (destruct (pushable e0); [now inversion F1|exact F1]). split; [apply pushed_nothing|now split]. }
  (** who is asleep at the end was at rest all along *)
  assert (V2 : forall h e, aget (l_ents st) h = Some e -> e_asleep e = true -> e_vel e = vfin (mkV 0 0 0)).
  { intros h e He Ha. destruct (arel_get_r _ _ _ _ _ (sl_ents _ _ _ L1) He) as (e1 & He1 & R1 & _ & _ & R2 & R3).
    assert (Hn : ~ named (l_records st) h).
    { intros Hn. destruct R2 as (R2 & _); [|congruence]. exists h. split; [exact Hn|]. split; [|apply conn_start].
      destruct (M1 _ _ He1) as (m & Hm & _). exists e1. split; [exact He1|]. now rewrite Hm. }
    assert (Hw : ~ woken_by (s_ents s1) (l_records st) h) by (intros Hw; destruct (R2 Hw); congruence).
    destruct (R3 Hw) as (R4 & _). destruct (L4 h e1 e Hn He1 He) as (K & _). rewrite K.
    destruct (arel_get_r _ _ _ _ _ P7 He1) as (e0 & He0 & _). destruct (V1 _ _ He0) as (e1' & X1 & X2 & X3 & _). assert (e1' = e1) by congruence. subst e1'.
    rewrite X2. specialize (Z h (make_pub e0)). unfold get_entity in Z. rewrite He0 in Z. specialize (Z eq_refl). cbn [make_pub pe_asleep pe_vel] in Z. rewrite Z by congruence.
    rewrite vfin_add. f_equal. apply vext; vunfold; ring. }
  assert (V3 : arel same_mv (l_ents st) (s_ents s')).
  { assert (A : arel Rstep (l_ents st) (s_ents s')).
    { eapply (rfold_ind _ (fun x => arel Rstep (l_ents st) (fst x))) in P3; [exact P3| |apply arel_refl; apply Rstep_refl].
      intros x i x' Hx Hf. apply sleep_one_frame in Hf. eapply arel_trans; [apply Rstep_trans|exact Hx|exact Hf]. }
    apply (arel_with _ _ _ _ A). intros h e2 e' E2 E' R. split; [|exact (Rstep_mass _ _ _ R)]. destruct (S1 _ _ E2) as (e'' & X1 & X2 & X3). assert (e'' = e') by congruence. subst e''.
    destruct (in_dec handle_eq_dec h (map i_h (l_infos st))) as [Hi|Hi].
    - apply in_map_iff in Hi. destruct Hi as (i & Hih & Hi). destruct (X2 i Hi Hih) as (ns & ->). cbn [e_vel e_set_sleep].
      destruct (e_asleep e2) eqn:Ha.
      + rewrite (decision_asleep _ _ _ _ _ Ha). cbn [fst e_vel e_set_vels]. rewrite (V2 _ _ E2 Ha); unfold vzero; now rewrite fin_0.
      + now destruct (decision_awake (Fin d) (s_energy_thr s) (s_time_thr s) (i_nbrs i) e2 Ha) as (_ & _ & X & _).
    - destruct (X3 Hi) as (ns & ->). exact eq_refl. }
  destruct (same_back _ _ (ahandles (s_ents s1)) V3 Fv') as (F2 & E2).
  destruct (iterations_back ord Ho _ _ _ _ _ _ (loop_inv_init _ _ _ _ P6) P2 M1 F2) as (F1 & E1). cbn [l_ents] in F1, E1.
  assert (V4 : arel same_mv (s_ents s) (s_ents s1)).
  { apply (arel_with _ _ _ _ P7). intros h e e1 E Ee _.
    destruct (V1 _ _ E) as (e1' & X1 & X2 & X3 & X4). assert (e1' = e1) by congruence. subst e1'. split; [|exact X4].
    rewrite X2. apply zero_back. rewrite <- X2. exact (F1 _ _ Ee). }
  destruct (same_back _ _ (ahandles (s_ents s1)) V4 F1) as (F0 & E0).
  rewrite (momentum_msum s' M' F'), (momentum_msum s M) by (intros h e He; unfold get_entity in He; destruct (aget (s_ents s) h) eqn:E; [|discriminate]; injection He as <-; exact (F0 _ _ E)).
  assert (Hs' : ahandles (s_ents s') = ahandles (s_ents s)) by apply Fs.
  assert (Hs1 : ahandles (s_ents s1) = ahandles (s_ents s)) by apply P7.
  rewrite Hs'. rewrite Hs1 in *. f_equal. congruence.
Qed.
