(** * SpinP: isolated systems over many steps (C64, C65) and angular momentum (C82) *)
From Coq Require Import ZArith Reals List Bool Arith Lra Lia Psatz.
Import ListNotations.
From Verif Require Import Num Vec Res Arena RangeM Orient Colliders Collide EntityM SystemM OrderP Spec PathSpec PhysSpec TraceSpec SpinSpec
  ResP ArenaP ArithP RangeP RealSpec RealV OrientP Orient2P PhysP Phys2P Phys3P Phys4P Mass4P FrameP Store2P TraceP EnergyP MomentumP.
Local Open Scope R_scope.

(** ** A step of a system without generators *)
Definition sleeping_as (s : system ER) (h : handle) (m : mover) : mover :=
  match aget (s_ents s) h with Some e => mkMover (mv_mass m) (mv_tensor m) (mv_o m) (mv_vel m) (mv_spin m) (negb (e_asleep e)) | None => m end.
Lemma glides_still m : glides m 0 m.
Proof.
  repeat split; auto. destruct (mv_awake m); [|exact eq_refl]. split.
  - destruct (o_pos (mv_o m)), (mv_vel m). apply vext; vunfold; ring.
  - exists (mkQ 0 0 0 1). split; [unfold unit_quat; cbn; ring|]. split; [destruct (o_rot (mv_o m)); unfold qmul; cbn; f_equal; ring|].
    right. split; [|exact eq_refl]. assert (Z : vscale (mv_spin m) 0 = mkV 0 0 0) by (destruct (mv_spin m); apply vext; vunfold; ring). rewrite Z.
    unfold vlen. replace (vdot (mkV 0 0 0) (mkV 0 0 0)) with 0 by (vunfold; ring). rewrite sqrt_0. unfold tiny. lra.
Qed.
Lemma step_free ord s d s' w : good_order ord -> step ord s (Fin d) = Ok s' -> ahandles (s_gens s) = [] ->
  (forall h, get_entity s h <> None -> stored_as s h (w h) /\ sound_mover (w h)) -> Forall (clean s) (s_records s') ->
  s' = s \/ exists w0 ts w1 t w2, (forall h, get_entity s h <> None -> w0 h = sleeping_as s h (w h)) /\ trace s d w0 (s_records s') ts w1 t /\
    forall h, get_entity s h <> None -> (exists t', glides (w1 h) t' (w2 h)) /\ mv_awake (w2 h) = mv_awake (w1 h) /\ stored_as s' h (stopped (w2 h)).
Proof.
  intros Ho H Ge Hw Cl.
  assert (Hh : forall h, In h (ahandles (s_ents s)) <-> get_entity s h <> None).
  { intros h. rewrite ahandles_in. unfold get_entity. destruct (aget (s_ents s) h) as [x|]; cbn [option_map]; split; intros A; try discriminate; intros B; auto; discriminate. }
  destruct (n_lt (n_abs (Fin d)) EPSILON) eqn:Hd.
  { left. unfold step in H. rewrite Hd in H. inv_ok H. subst s'. exact eq_refl. }
  right.
  assert (Same : forall h e fs, aget (s_ents s) h = Some e -> forces_on s (Fin d) h fs -> forall m, stored_as s h m -> sound_mover m ->
     starts_with d e fs (mkMover (mv_mass m) (mv_tensor m) (mv_o m) (mv_vel m) (mv_spin m) (negb (e_asleep e)))).
  { intros h e fs He (e1 & He1 & F) m (pe & P & A & B & C & D & E) Sm. assert (e1 = e) by congruence. subst e1.
    unfold get_entity in P. rewrite He in P. injection P as <-. cbn [make_pub pe_last_total_mass pe_last_prep_moi pe_last_orient pe_vel pe_angvel] in *.
    assert (fs = []). { rewrite Ge in F. destruct (pushable e); [inversion F; exact eq_refl|exact F]. } subst fs.
    unfold starts_with. cbn [mv_mass mv_tensor mv_o mv_vel mv_spin mv_awake]. split; [exact A|]. split; [exact B|]. split; [exact C|].
    assert (Zv : Spec.vsum (T:=ER) (map (fun f => vscale (f_force f) (n_div n1 (e_total_mass e))) []) = vfin (mkV 0 0 0)) by (cbn; unfold vzero; rewrite fin_0; exact eq_refl).
    assert (Zw : Spec.vsum (T:=ER) (map (fun f => mulmv (last_moment (make_pub e)) (vcross (vsub (f_pos f) (o_pos (e_orient e))) (f_force f))) []) = vfin (mkV 0 0 0)) by (cbn; unfold vzero; rewrite fin_0; exact eq_refl).
    unfold pushed_vel, pushed_angvel. rewrite Zv, Zw, D, E, !vfin_scale.
    destruct (inside_body e (mkMover (mv_mass m) (mv_tensor m) (mv_o m) (mv_vel m) (mv_spin m) (negb (e_asleep e)))) as (b & Bb & _).
    { unfold inside. cbn [mv_mass mv_tensor mv_o mv_vel mv_spin mv_awake]. rewrite negb_involutive. auto 10. }
    { exact Sm. }
    rewrite (body_inverse _ _ Bb), mfin_mulmv, !vfin_add. rewrite negb_involutive.
    assert (Z : vscale (mkV 0 0 0) d = mkV 0 0 0) by (apply vext; vunfold; ring). rewrite Z.
    split; [f_equal; destruct (mv_vel m); apply vext; vunfold; ring|]. split; [|exact eq_refl].
    f_equal. destruct (mv_spin m), (b_inv b). apply vext; munfold; ring. }
  assert (St : sound_start s d).
  { intros h e fs He F. assert (Hx : get_entity s h <> None) by (unfold get_entity; rewrite He; discriminate). destruct (Hw h Hx) as (A & B).
    eexists. split; [exact (Same h e fs He F (w h) A B)|]. exact B. }
  destruct (step_trace _ _ _ _ Ho H Hd St Cl) as (w0 & w1 & t & ts & S0 & T & En & _).
  exists w0, ts, w1, t.
  assert (Ew : forall h, get_entity s h <> None -> w0 h = sleeping_as s h (w h)).
  { intros h Hx. destruct (S0 h Hx) as ((e & fs & He & F & Q) & _). destruct (Hw h Hx) as (A & B). pose proof (Same h e fs He F (w h) A B) as Q'.
    unfold sleeping_as. rewrite He. exact (starts_unique _ _ _ _ _ Q Q'). }
  assert (Ch : exists w2, forall h, In h (ahandles (s_ents s)) -> (exists t', glides (w1 h) t' (w2 h)) /\ mv_awake (w2 h) = mv_awake (w1 h) /\ stored_as s' h (stopped (w2 h))).
  { apply (choice _ (fun h m => (exists t', glides (w1 h) t' m) /\ mv_awake m = mv_awake (w1 h) /\ stored_as s' h (stopped m)) (w1 (mkH 0 0%N))).
    intros h Hi. apply Hh in Hi. specialize (En h Hi). destruct (Nat.eqb _ _).
    - exists (w1 h). split; [exists 0; apply glides_still|]. split; [exact eq_refl|now apply ends_stored].
    - destruct En as (m & G & Ga & E). exists m. split; [eauto|]. split; [exact Ga|now apply ends_stored]. }
  destruct Ch as (w2 & W2). exists w2. split; [exact Ew|]. split; [exact T|]. intros h Hx. apply W2, Hh, Hx.
Qed.
Lemma same_handles ord (s s' : system ER) d : step ord s d = Ok s' -> ahandles (s_ents s') = ahandles (s_ents s).
Proof. intros H. apply step_frame in H. exact (proj1 (proj2 (proj1 H))). Qed.
Lemma step_keeps ord (s s' : system ER) d : step ord s d = Ok s' ->
  (forall c, get_collider s' c = get_collider s c) /\ (ahandles (s_gens s) = [] -> ahandles (s_gens s') = []) /\ (forall h, get_entity s' h <> None <-> get_entity s h <> None).
Proof.
  intros H. destruct (step_frame_pub _ _ _ _ H) as (A & B & C & _). split; [exact A|]. split; [|exact C].
  intros E. apply step_frame in H. destruct H as (_ & _ & (_ & K & _) & _). now rewrite K.
Qed.
Lemma live_handles (s : system ER) h : In h (ahandles (s_ents s)) <-> get_entity s h <> None.
Proof. rewrite ahandles_in. unfold get_entity. destruct (aget (s_ents s) h) as [x|]; cbn [option_map]; split; intros A; try discriminate; intros B; auto; discriminate. Qed.
Lemma stopped_sound m : sound_mover m -> sound_mover (stopped m).
Proof. intros S. unfold stopped. destruct (mv_awake m); exact S. Qed.
Lemma stopped_ordinary m : ordinary_mover m -> ordinary_mover (stopped m).
Proof.
  unfold stopped. destruct (mv_awake m); [auto|]. unfold ordinary_mover. cbn [mv_mass mv_tensor mv_vel mv_spin]. destruct (mv_mass m); tauto.
Qed.

(** ** Energy over many steps *)
Definition fit (s : system ER) (w : handle -> mover) : Prop :=
  forall h, get_entity s h <> None -> stored_as s h (w h) /\ sound_mover (w h) /\ ordinary_mover (w h).
Lemma step_energy_fit ord s d s' w : good_order ord -> step ord s (Fin d) = Ok s' -> ahandles (s_gens s) = [] -> slippery s -> lossy s -> fit s w ->
  Forall (clean s) (s_records s') ->
  exists w', fit s' w' /\ total_energy (ahandles (s_ents s)) w' <= total_energy (ahandles (s_ents s)) w /\
    (elastic s -> all_awake s -> total_energy (ahandles (s_ents s)) w' = total_energy (ahandles (s_ents s)) w).
Proof.
  intros Ho H Ge Sl Lo Hw Cl. set (hs := ahandles (s_ents s)).
  assert (Hh : forall h, In h hs <-> get_entity s h <> None) by (intros h; apply live_handles). assert (ND : NoDup hs) by apply ahandles_nodup.
  assert (Hw' : forall h, get_entity s h <> None -> stored_as s h (w h) /\ sound_mover (w h)) by (intros h Hx; destruct (Hw h Hx) as (A & B & _); auto).
  destruct (step_free ord s d s' w Ho H Ge Hw' Cl) as [->|(w0 & ts & w1 & t & w2 & Ew & T & W2)].
  { exists w. split; [exact Hw|]. split; [lra|auto]. }
  assert (Eu : total_energy hs w0 = total_energy hs w).
  { unfold total_energy. f_equal. apply map_ext_in. intros h Hx. apply Hh in Hx. rewrite (Ew h Hx). unfold sleeping_as. destruct (aget (s_ents s) h); exact eq_refl. }
  assert (H0 : forall h, get_entity s h <> None -> sound_mover (w0 h) /\ ordinary_mover (w0 h)).
  { intros h Hx. destruct (Hw h Hx) as (_ & S & O). rewrite (Ew h Hx). unfold sleeping_as. destruct (aget (s_ents s) h); split; assumption. }
  destruct (trace_energy s d w0 Sl Lo H0 _ _ _ _ T hs ND Hh) as (I1 & I2 & I3 & I4).
  assert (G : forall h, get_entity s h <> None -> sound_mover (w2 h) /\ ordinary_mover (w2 h) /\ mover_energy (w2 h) = mover_energy (w1 h) /\ mv_vel (w2 h) = mv_vel (w1 h) /\ mv_spin (w2 h) = mv_spin (w1 h)).
  { intros h Hx. destruct (W2 h Hx) as ((t' & Gl) & _). destruct (I1 h Hx) as (A & B). pose proof A as (_ & _ & U).
    split; [exact (glides_sound _ _ _ A Gl)|]. split; [exact (glides_ordinary _ _ _ B Gl)|]. split; [exact (glides_energy _ _ _ U Gl)|]. destruct Gl as (_ & _ & -> & -> & _). auto. }
  exists (fun h => stopped (w2 h)). split; [|split].
  - intros h Hx. apply (step_keeps _ _ _ _ H) in Hx. destruct (G h Hx) as (A & B & _). split; [apply (W2 h Hx)|]. split; [now apply stopped_sound|now apply stopped_ordinary].
  - assert (A : total_energy hs (fun h => stopped (w2 h)) <= total_energy hs w1).
    { unfold total_energy. apply rsum_le. intros h Hx. apply Hh in Hx. destruct (G h Hx) as (S2 & _ & <- & _). now apply stopped_energy. }
    lra.
  - intros El Aw. rewrite <- Eu, <- (I3 El). unfold total_energy. f_equal. apply map_ext_in. intros h Hx. apply Hh in Hx. destruct (G h Hx) as (_ & _ & E & V & W). destruct (W2 h Hx) as (_ & A & _).
    rewrite stopped_idle; [exact E|]. rewrite A, V, W. apply I4; [|exact Hx]. intros g Hg Hq. exfalso. rewrite (Ew g Hg) in Hq. unfold sleeping_as in Hq.
    destruct (aget (s_ents s) g) as [e|] eqn:He; [|apply Hg; unfold get_entity; now rewrite He]. cbn [mv_awake] in Hq. apply negb_false_iff in Hq.
    specialize (Aw g (make_pub e)). unfold get_entity in Aw. rewrite He in Aw. specialize (Aw eq_refl). cbn [make_pub pe_asleep] in Aw. congruence.
Qed.
Lemma steps_energy P s l s' : clean_steps P s l s' -> forall w, ahandles (s_gens s) = [] -> slippery s -> lossy s -> fit s w ->
  exists w', fit s' w' /\ total_energy (ahandles (s_ents s)) w' <= total_energy (ahandles (s_ents s)) w /\
    ((forall x, P x -> all_awake x) -> elastic s -> total_energy (ahandles (s_ents s)) w' = total_energy (ahandles (s_ents s)) w).
Proof.
  induction 1 as [s|s ord d s1 l s' Ps Ho H Cl _ IH]; intros w Ge Sl Lo Hw; [exists w; split; [exact Hw|]; split; [lra|auto]|].
  destruct (step_energy_fit _ _ _ _ _ Ho H Ge Sl Lo Hw Cl) as (w1 & F1 & E1 & Q1). destruct (step_keeps _ _ _ _ H) as (Kc & Kg & _).
  destruct (IH w1 (Kg Ge)) as (w' & F2 & E2 & Q2); [intros c k Hc; rewrite Kc in Hc; exact (Sl c k Hc)|intros c k Hc; rewrite Kc in Hc; exact (Lo c k Hc)|exact F1|].
  rewrite (same_handles _ _ _ _ H) in E2, Q2. exists w'. split; [exact F2|]. split; [lra|]. intros Pa El. rewrite Q2, Q1; auto. intros c k Hc; rewrite Kc in Hc; exact (El c k Hc).
Qed.

(** ** Momentum and angular momentum over many steps *)
Lemma steps_alive P s l s' : clean_steps P s l s' -> ahandles (s_ents s') = ahandles (s_ents s).
Proof. induction 1 as [s|s ord d s1 l s' _ _ H _ _ IH]; [exact eq_refl|]. rewrite IH. exact (same_handles _ _ _ _ H). Qed.

Lemma spin_body m b x q : unit_o (mv_o m) -> body_of m b -> mv_mass m = Fin x -> angular_momentum x b q = mover_moment q m.
Proof.
  intros U (A & T & P & V & S) E. unfold angular_momentum, mover_moment. rewrite E, P, V, S. f_equal. unfold spin_moment.
  rewrite <- (qrot_qinv_r (o_rot (mv_o m)) (mv_spin m) U) at 1. apply T.
Qed.
Lemma round_spin m k : unit_o (mv_o m) -> mv_tensor m = mkM k 0 0 0 k 0 0 0 k -> spin_moment m = vscale (mv_spin m) k.
Proof.
  intros U E. unfold spin_moment. rewrite E.
  assert (D : forall x : V, mulmv (mkM k 0 0 0 k 0 0 0 k) x = vscale x k) by (intros x; destruct x; apply vext; munfold; vunfold; ring). rewrite D.
  assert (L : forall (q : Q) (x : V), qrot q (vscale x k) = vscale (qrot q x) k) by (intros q x; destruct q, x; apply vext; qunfold; ring). rewrite L.
  now rewrite qrot_qinv_r.
Qed.
Lemma round_glide m t m' q : unit_o (mv_o m) -> unit_o (mv_o m') -> round m -> mv_awake m = true -> glides m t m' -> mover_moment q m' = mover_moment q m.
Proof.
  intros U U' (k & _ & K) Aw (A & B & C & D & _ & F & O). rewrite (F Aw) in O. destruct O as (O & _). unfold mover_moment. rewrite A, C.
  rewrite (round_spin m' k U') by now rewrite B. rewrite (round_spin m k U K), D, O. destruct (mv_mass m); try exact eq_refl.
  destruct (o_pos (mv_o m)), (mv_vel m), (mv_spin m), q. apply vext; vunfold; ring.
Qed.
Lemma impact_moment p n rest stat dyn thr k b1 b2 c1 c2 m1 m2 q : sound b1 -> sound b2 -> b_mass b1 = Fin m1 -> b_mass b2 = Fin m2 ->
  invertible (b_tensor b1) -> invertible (b_tensor b2) -> impact p n rest stat dyn thr k b1 b2 c1 c2 ->
  same_inertia c1 b1 /\ same_inertia c2 b2 /\ vadd (angular_momentum m1 c1 q) (angular_momentum m2 c2 q) = vadd (angular_momentum m1 b1 q) (angular_momentum m2 b2 q).
Proof.
  intros S1 S2 E1 E2 J1 J2 (a1 & a2 & y & A1 & A2 & _ & _ & _ & _ & _ & C1 & C2). cbv zeta in *. set (fr := vscale _ (- y)) in *.
  apply struck_pushed in A1; [|exact S1]. apply struck_pushed in A2; [|exact S2]. subst a1 a2.
  apply struck_pushed in C1; [|exact S1]. apply struck_pushed in C2; [|exact S2]. subst c1 c2.
  split; [repeat split|]. split; [repeat split|]. pose proof (proj1 S1) as P1. pose proof (proj1 S2) as P2. rewrite E1 in P1. rewrite E2 in P2. cbn in P1, P2.
  rewrite !pushed_angular by assumption. clearbody fr.
  destruct (angular_momentum m1 b1 q), (angular_momentum m2 b2 q), p, q, n, fr. apply vext; vunfold; ring.
Qed.
Definition spinning_ok (m : mover) : Prop := sound_mover m /\ round m /\ (exists x, mv_mass m = Fin x) /\ mv_awake m = true.
Lemma round_invertible m : round m -> invertible (mv_tensor m).
Proof. intros (k & P & ->). apply det_invertible. unfold det. cbn. assert (0 < k * k * k) by (apply Rmult_lt_0_compat; [apply Rmult_lt_0_compat|]; exact P). lra. Qed.
Lemma glides_ok m t m' : spinning_ok m -> glides m t m' -> spinning_ok m'.
Proof.
  intros (A & (k & B1 & B2) & (x & C) & D) G. split; [exact (glides_sound _ _ _ A G)|]. destruct G as (E1 & E2 & _ & _ & _ & E3 & _).
  split; [exists k; now rewrite E2|]. split; [exists x; now rewrite E1|auto].
Qed.
Lemma trace_moment s d w0 rs ts w t q : trace s d w0 rs ts w t -> (forall h, get_entity s h <> None -> spinning_ok (w0 h)) ->
  forall hs, NoDup hs -> (forall h, In h hs <-> get_entity s h <> None) ->
  (forall h, get_entity s h <> None -> spinning_ok (w h)) /\ total_moment q hs w = total_moment q hs w0.
Proof.
  induction 1 as [|rs ts w t r w1 w2 t' ts' p n q1 q2 rest stat dyn thr k b1 b2 c1 c2 Tr IH _ _ Ne Et Ep En Un Er Ei Jo _ _ Gl Wk B1 B2 Im W1 W2 Wo _ _]; intros H0 hs ND Hh.
  - split; [exact H0|exact eq_refl].
  - destruct (IH H0 hs ND Hh) as (I1 & I2).
    assert (G1 : forall h, get_entity s h <> None -> spinning_ok (w1 h)) by (intros h Hx; exact (glides_ok _ _ _ (I1 h Hx) (Gl h Hx))).
    destruct Jo as (k1 & k2 & x1 & x2 & X1 & X2 & _).
    assert (N1 : get_entity s (cr_first r) <> None) by congruence. assert (N2 : get_entity s (cr_second r) <> None) by congruence.
    destruct (G1 _ N1) as (S1 & R1 & (m1 & M1) & A1). destruct (G1 _ N2) as (S2 & R2 & (m2 & M2) & A2).
    pose proof S1 as (_ & _ & U1). pose proof S2 as (_ & _ & U2). pose proof B1 as (P1 & T1 & _). pose proof B2 as (P2 & T2 & _).
    destruct (impact_moment _ _ _ _ _ _ _ _ _ _ _ m1 m2 q (body_sound _ _ S1 B1) (body_sound _ _ S2 B2) (eq_trans P1 M1) (eq_trans P2 M2)
      (turned_invertible _ _ _ U1 T1 (round_invertible _ R1)) (turned_invertible _ _ _ U2 T2 (round_invertible _ R2)) Im) as (C1 & C2 & S).
    assert (Ot : forall h, h <> cr_first r -> h <> cr_second r -> w2 h = w1 h).
    { intros h A B. apply Wo. intros (r' & [<-|[]] & [C|C]); contradiction. }
    assert (Y1 : mover_moment q (w2 (cr_first r)) = angular_momentum m1 c1 q) by (rewrite W1; symmetry; apply spin_body; [exact U1|exact (with_speed_body _ _ _ B1 C1)|exact M1]).
    assert (Y2 : mover_moment q (w2 (cr_second r)) = angular_momentum m2 c2 q) by (rewrite W2; symmetry; apply spin_body; [exact U2|exact (with_speed_body _ _ _ B2 C2)|exact M2]).
    split.
    + intros h Hx. destruct (handle_eq_dec h (cr_first r)) as [->|D]; [rewrite W1; exact (G1 _ N1)|].
      destruct (handle_eq_dec h (cr_second r)) as [->|D2]; [rewrite W2; exact (G1 _ N2)|]. rewrite Ot; auto.
    + rewrite <- I2. transitivity (total_moment q hs w1).
      * unfold total_moment. apply (vsum_two hs (fun h => mover_moment q (w2 h)) (fun h => mover_moment q (w1 h)) (cr_first r) (cr_second r)); auto; try (apply Hh; assumption).
        { intros h _ A B. now rewrite Ot. }
        rewrite Y1, Y2, S. now rewrite (spin_body _ _ m1 q U1 B1 M1), (spin_body _ _ m2 q U2 B2 M2).
      * unfold total_moment. f_equal. apply map_ext_in. intros h Hx. apply Hh in Hx. destruct (I1 h Hx) as ((_ & _ & U) & R & _ & A).
        destruct (G1 h Hx) as ((_ & _ & U') & _). exact (round_glide _ _ _ q U U' R A (Gl h Hx)).
Qed.
Definition fit_round (s : system ER) (w : handle -> mover) : Prop :=
  forall h, get_entity s h <> None -> stored_as s h (w h) /\ sound_mover (w h) /\ round (w h).
Lemma moving_start s w0 w : all_moving s -> (forall h, get_entity s h <> None -> stored_as s h (w h) /\ sound_mover (w h)) ->
  (forall h, get_entity s h <> None -> w0 h = sleeping_as s h (w h)) ->
  forall h, get_entity s h <> None -> (exists x, mv_mass (w0 h) = Fin x) /\ mv_awake (w0 h) = true.
Proof.
  intros Am Hw Ew h Hx. destruct (Hw h Hx) as ((pe & P & A & _) & (Sm & _)). rewrite (Ew h Hx). unfold sleeping_as. unfold get_entity in P.
  destruct (aget (s_ents s) h) as [e|] eqn:He; [|discriminate]. injection P as <-. destruct (Am h e He) as (B & C). cbn [mv_mass mv_awake]. rewrite C. split; [|exact eq_refl].
  cbn [make_pub pe_last_total_mass] in A. destruct (mv_mass (w h)) as [x| | |]; cbn in Sm; try contradiction; now exists x.
Qed.
Lemma step_moment ord s d s' w q : good_order ord -> step ord s (Fin d) = Ok s' -> ahandles (s_gens s) = [] -> all_moving s -> fit_round s w ->
  Forall (clean s) (s_records s') ->
  exists w', fit_round s' w' /\ total_moment q (ahandles (s_ents s)) w' = total_moment q (ahandles (s_ents s)) w.
Proof.
  intros Ho H Ge Am Hw Cl. set (hs := ahandles (s_ents s)).
  assert (Hh : forall h, In h hs <-> get_entity s h <> None) by (intros h; apply live_handles). assert (ND : NoDup hs) by apply ahandles_nodup.
  assert (Hw' : forall h, get_entity s h <> None -> stored_as s h (w h) /\ sound_mover (w h)) by (intros h Hx; destruct (Hw h Hx) as (A & B & _); auto).
  destruct (step_free ord s d s' w Ho H Ge Hw' Cl) as [->|(w0 & ts & w1 & t & w2 & Ew & T & W2)]; [exists w; auto|].
  assert (Eu : total_moment q hs w0 = total_moment q hs w).
  { unfold total_moment. f_equal. apply map_ext_in. intros h Hx. apply Hh in Hx. rewrite (Ew h Hx). unfold sleeping_as. destruct (aget (s_ents s) h); exact eq_refl. }
  assert (H0 : forall h, get_entity s h <> None -> spinning_ok (w0 h)).
  { intros h Hx. destruct (Hw h Hx) as (_ & S & R). destruct (moving_start s w0 w Am Hw' Ew h Hx) as (Mx & Ma). rewrite (Ew h Hx) in Mx, Ma |- *.
    unfold sleeping_as in *. destruct (aget (s_ents s) h); repeat (split; try assumption). }
  destruct (trace_moment _ _ _ _ _ _ _ q T H0 hs ND Hh) as (I1 & I2).
  assert (G : forall h, get_entity s h <> None -> spinning_ok (w2 h) /\ stopped (w2 h) = w2 h /\ mover_moment q (w2 h) = mover_moment q (w1 h)).
  { intros h Hx. destruct (W2 h Hx) as ((t' & Gl) & _). pose proof (I1 h Hx) as I. pose proof (glides_ok _ _ _ I Gl) as K. split; [exact K|].
    destruct I as ((_ & _ & U) & R & _ & A). destruct K as ((_ & _ & U') & _ & _ & A'). split; [unfold stopped; now rewrite A'|]. exact (round_glide _ _ _ q U U' R A Gl). }
  exists w2. split.
  - intros h Hx. apply (step_keeps _ _ _ _ H) in Hx. destruct (G h Hx) as ((A & B & _) & E & _). destruct (W2 h Hx) as (_ & _ & F). rewrite E in F. auto.
  - rewrite <- Eu, <- I2. unfold total_moment. f_equal. apply map_ext_in. intros h Hx. apply Hh in Hx. apply (G h Hx).
Qed.
Lemma steps_moment s l s' q : clean_steps all_moving s l s' -> forall w, ahandles (s_gens s) = [] -> fit_round s w ->
  exists w', fit_round s' w' /\ total_moment q (ahandles (s_ents s)) w' = total_moment q (ahandles (s_ents s)) w.
Proof.
  induction 1 as [s|s ord d s1 l s' Ps Ho H Cl _ IH]; intros w Ge Hw; [exists w; auto|].
  destruct (step_moment _ _ _ _ _ q Ho H Ge Ps Hw Cl) as (w1 & F1 & E1). destruct (step_keeps _ _ _ _ H) as (Kc & Kg & _).
  destruct (IH w1 (Kg Ge) F1) as (w' & F2 & E2). rewrite (same_handles _ _ _ _ H) in E2. exists w'. split; [exact F2|congruence].
Qed.
(** Linear momentum; any tensors. *)
Definition fit_sound (s : system ER) (w : handle -> mover) : Prop := forall h, get_entity s h <> None -> stored_as s h (w h) /\ sound_mover (w h).
Lemma trace_sound s d w0 rs ts w t : trace s d w0 rs ts w t -> (forall h, get_entity s h <> None -> sound_mover (w0 h)) -> forall h, get_entity s h <> None -> sound_mover (w h).
Proof.
  induction 1 as [|rs ts w t r w1 w2 t' ts' p n q1 q2 rest stat dyn thr k b1 b2 c1 c2 Tr IH _ _ Ne Et Ep En Un Er Ei Jo _ _ Gl Wk B1 B2 Im W1 W2 Wo _ _]; intros H0 h Hx; [now apply H0|].
  pose proof (glides_sound _ _ _ (IH H0 h Hx) (Gl h Hx)) as G.
  destruct (handle_eq_dec h (cr_first r)) as [->|D]; [rewrite W1; exact G|]. destruct (handle_eq_dec h (cr_second r)) as [->|D2]; [rewrite W2; exact G|].
  rewrite Wo; [exact G|]. intros (r' & [<-|[]] & [C|C]); contradiction.
Qed.
Lemma steps_momentum s l s' : clean_steps all_moving s l s' -> forall w, ahandles (s_gens s) = [] -> fit_sound s w ->
  exists w', fit_sound s' w' /\ total_momentum (ahandles (s_ents s)) w' = total_momentum (ahandles (s_ents s)) w.
Proof.
  induction 1 as [s|s ord d s1 l s' Am Ho H Cl _ IH]; intros w Ge Hw; [exists w; auto|].
  assert (X : exists w1, fit_sound s1 w1 /\ total_momentum (ahandles (s_ents s)) w1 = total_momentum (ahandles (s_ents s)) w).
  { set (hs := ahandles (s_ents s)). assert (Hh : forall h, In h hs <-> get_entity s h <> None) by (intros h; apply live_handles). assert (ND : NoDup hs) by apply ahandles_nodup.
    destruct (step_free ord s d s1 w Ho H Ge Hw Cl) as [->|(w0 & ts & w1 & t & w2 & Ew & T & W2)]; [exists w; auto|].
    destruct (trace_momentum _ _ _ _ _ _ _ T (moving_start s w0 w Am Hw Ew) hs ND Hh) as (I1 & I2).
    assert (S0 : forall h, get_entity s h <> None -> sound_mover (w0 h)) by (intros h Hx; rewrite (Ew h Hx); destruct (Hw h Hx) as (_ & S); unfold sleeping_as; destruct (aget _ h); exact S).
    assert (G : forall h, get_entity s h <> None -> stopped (w2 h) = w2 h /\ mover_momentum (w2 h) = mover_momentum (w1 h) /\ sound_mover (w2 h)).
    { intros h Hx. destruct (W2 h Hx) as ((t' & Gl) & A & _). destruct (I1 h Hx) as (_ & B). split; [unfold stopped; now rewrite A, B|].
      split; [destruct Gl as (G1 & _ & G2 & _); unfold mover_momentum; now rewrite G1, G2|exact (glides_sound _ _ _ (trace_sound _ _ _ _ _ _ _ T S0 h Hx) Gl)]. }
    exists w2. split.
    - intros h Hx. apply (step_keeps _ _ _ _ H) in Hx. destruct (G h Hx) as (E & _ & S). destruct (W2 h Hx) as (_ & _ & F). rewrite E in F. auto.
    - transitivity (total_momentum hs w1); [unfold total_momentum; f_equal; apply map_ext_in; intros h Hx; apply Hh in Hx; apply (G h Hx)|].
      rewrite I2. unfold total_momentum. f_equal. apply map_ext_in. intros h Hx. apply Hh in Hx. rewrite (Ew h Hx). unfold sleeping_as. destruct (aget _ h); exact eq_refl. }
  destruct X as (w1 & F1 & E1). destruct (step_keeps _ _ _ _ H) as (Kc & Kg & _).
  destruct (IH w1 (Kg Ge) F1) as (w' & F2 & E2). rewrite (same_handles _ _ _ _ H) in E2. exists w'. split; [exact F2|congruence].
Qed.

(** ** As the theorems state them *)
Lemma steps_energy_falls s l s' w : clean_steps (fun _ => True) s l s' -> ahandles (s_gens s) = [] -> slippery s -> lossy s -> fit s w ->
  exists w', fit s' w' /\ ahandles (s_ents s') = ahandles (s_ents s) /\ total_energy (ahandles (s_ents s)) w' <= total_energy (ahandles (s_ents s)) w.
Proof. intros C G S L F. destruct (steps_energy _ _ _ _ C w G S L F) as (w' & A & B & _). exists w'. split; [exact A|]. split; [exact (steps_alive _ _ _ _ C)|exact B]. Qed.
Lemma steps_energy_kept s l s' w : clean_steps all_awake s l s' -> ahandles (s_gens s) = [] -> slippery s -> elastic s -> fit s w ->
  exists w', fit s' w' /\ total_energy (ahandles (s_ents s)) w' = total_energy (ahandles (s_ents s)) w.
Proof.
  intros C G S El F. assert (L : lossy s) by (intros c k H; exists 1; rewrite (El c k H); split; [exact eq_refl|lra]).
  destruct (steps_energy _ _ _ _ C w G S L F) as (w' & A & _ & B). exists w'. split; [exact A|]. apply B; auto.
Qed.
Lemma steps_momentum_kept s l s' w : clean_steps all_moving s l s' -> ahandles (s_gens s) = [] -> fit_sound s w ->
  exists w', fit_sound s' w' /\ total_momentum (ahandles (s_ents s)) w' = total_momentum (ahandles (s_ents s)) w.
Proof. intros C G F. exact (steps_momentum _ _ _ C w G F). Qed.
Lemma steps_moment_kept s l s' q w : clean_steps all_moving s l s' -> ahandles (s_gens s) = [] -> fit_round s w ->
  exists w', fit_round s' w' /\ total_moment q (ahandles (s_ents s)) w' = total_moment q (ahandles (s_ents s)) w.
Proof. intros C G F. exact (steps_moment _ _ _ q C w G F). Qed.
