(** * TumbleP: bodies that turn freely over many steps (C86) *)
From Coq Require Import ZArith Reals Lra Psatz Bool List Lia.
Import ListNotations.
From Verif Require Import Num Vec Res Arena RangeM Orient Colliders Collide EntityM SystemM OrderP Spec PathSpec ResP ArenaP FrameP StoreP Store2P StepP Step2P Step3P RangeP
  RealSpec RealV OrientP Orient2P PhysSpec PhysP Phys2P Phys3P Phys4P PathP PassP FlightSpec FlightP TumbleSpec.
Local Open Scope R_scope.

(** ** Turning about a fixed axis *)
Lemma vlen_unit (w : V) : 0 < vlen w -> let u := vscale w (/ vlen w) in vdot u u = 1.
Proof.
  intros H u. unfold u. assert (E : vlen w * vlen w = vdot w w) by (apply sqrt_sqrt; destruct w; vunfold; nra).
  replace (vdot (vscale w (/ vlen w)) (vscale w (/ vlen w))) with (vdot w w * (/ vlen w * / vlen w)) by (destruct w; vunfold; ring). rewrite <- E. field. lra.
Qed.
Lemma vlen_nonneg (w : V) : 0 <= vlen w. Proof. apply sqrt_pos. Qed.
Lemma vlen_none (w : V) : vlen w = 0 -> w = mkV 0 0 0.
Proof.
  intros H. assert (E : vdot w w = 0). { apply sqrt_eq_0 in H; [exact H|]. destruct w; vunfold; nra. }
  destruct w as [x y z]. revert E. vunfold. intros E. f_equal; nra.
Qed.
Lemma turn_none t x : turn_about (mkV 0 0 0) t x = x.
Proof.
  unfold turn_about. assert (L : vlen (mkV 0 0 0) = 0) by (unfold vlen; replace (vdot (mkV 0 0 0) (mkV 0 0 0)) with 0 by (vunfold; ring); apply sqrt_0).
  rewrite L, Rmult_0_l, cos_0, sin_0. destruct x. apply vext; vunfold; ring.
Qed.
Lemma turn_zero w x : turn_about w 0 x = x.
Proof. unfold turn_about. rewrite Rmult_0_r, cos_0, sin_0. set (u := vscale w _). destruct u, x. apply vext; vunfold; ring. Qed.
Lemma turn_twice w a b x : turn_about w a (turn_about w b x) = turn_about w (a + b) x.
Proof.
  destruct (Rle_lt_or_eq_dec _ _ (vlen_nonneg w)) as [P|Z]; [|symmetry in Z; rewrite (vlen_none w Z), !turn_none; exact eq_refl].
  unfold turn_about. pose proof (vlen_unit w P) as U. cbv zeta in U. set (u := vscale w _) in *. replace (vlen w * (a + b)) with (vlen w * a + vlen w * b) by ring.
  rewrite cos_plus, sin_plus. generalize (cos (vlen w * a)), (sin (vlen w * a)), (cos (vlen w * b)), (sin (vlen w * b)). intros c1 s1 c2 s2. clearbody u.
  destruct u as [u1 u2 u3], x as [x1 x2 x3]. revert U. vunfold. intros U. assert (E : u3 * u3 = 1 - u1 * u1 - u2 * u2) by lra.
  apply vext; cbn [vx vy vz]; ring [E].
Qed.
Lemma turn_dot w t x y : vdot (turn_about w t x) (turn_about w t y) = vdot x y.
Proof.
  destruct (Rle_lt_or_eq_dec _ _ (vlen_nonneg w)) as [P|Z]; [|symmetry in Z; rewrite (vlen_none w Z), !turn_none; exact eq_refl].
  unfold turn_about. pose proof (vlen_unit w P) as U. cbv zeta in U. set (u := vscale w _) in *. pose proof (sin2_cos2 (vlen w * t)) as SC. unfold Rsqr in SC. revert SC.
  generalize (cos (vlen w * t)), (sin (vlen w * t)). intros c s SC. clearbody u.
  destruct u as [u1 u2 u3], x as [x1 x2 x3], y as [y1 y2 y3]. revert U. vunfold. intros U. assert (E : u3 * u3 = 1 - u1 * u1 - u2 * u2) by lra. assert (E2 : s * s = 1 - c * c) by lra.
  ring [E E2].
Qed.
Lemma turn_axis w t : turn_about w t w = w.
Proof.
  destruct (Rle_lt_or_eq_dec _ _ (vlen_nonneg w)) as [P|Z]; [|symmetry in Z; rewrite (vlen_none w Z), !turn_none; exact eq_refl].
  assert (G : forall (u : V) k c s, vdot u u = 1 -> vadd (vadd (vscale (vscale u k) c) (vscale (vcross u (vscale u k)) s)) (vscale u (vdot u (vscale u k) * (1 - c))) = vscale u k).
  { intros [u1 u2 u3] k c s. vunfold. intros U. assert (E : u3 * u3 = 1 - u1 * u1 - u2 * u2) by lra. apply vext; cbn [vx vy vz]; ring [E]. }
  assert (W : w = vscale (vscale w (/ vlen w)) (vlen w)) by (destruct w; apply vext; vunfold; field; lra).
  unfold turn_about. cbv zeta. specialize (G (vscale w (/ vlen w)) (vlen w) (cos (vlen w * t)) (sin (vlen w * t)) (vlen_unit w P)). rewrite <- W in G. exact G.
Qed.
(** The same as the turning of C60. *)
Lemma vlen_abs (w : V) t : vlen (vscale w t) = Rabs t * vlen w.
Proof.
  destruct (Rle_dec 0 t) as [H|H]; [rewrite Rabs_pos_eq by lra; now apply vlen_scale|].
  rewrite Rabs_left by lra. rewrite <- vlen_scale by lra. unfold vlen. f_equal. destruct w; vunfold; ring.
Qed.
Lemma turns_about f w t : 0 < vlen (vscale w t) -> turns_by f (vscale w t) -> forall x, f x = turn_about w t x.
Proof.
  intros P T x. rewrite (T x). unfold turn_about. rewrite vlen_abs in *. assert (Pw : 0 < vlen w) by (pose proof (vlen_nonneg w); pose proof (Rabs_pos t); nra).
  assert (Ht : t <> 0) by (intros ->; rewrite Rabs_R0 in P; lra).
  destruct (Rle_dec 0 t) as [H|H].
  - rewrite (Rabs_pos_eq t) by lra. assert (E : vscale (vscale w t) (/ (t * vlen w)) = vscale w (/ vlen w)) by (destruct w; apply vext; vunfold; field; lra).
    rewrite E, (Rmult_comm t). exact eq_refl.
  - rewrite (Rabs_left t) by lra. assert (E : vscale (vscale w t) (/ (- t * vlen w)) = vneg (vscale w (/ vlen w))) by (destruct w; apply vext; vunfold; field; lra).
    rewrite E. replace (- t * vlen w) with (- (vlen w * t)) by ring. rewrite cos_neg, sin_neg. set (u := vscale w _). generalize (cos (vlen w * t)), (sin (vlen w * t)). intros c s. destruct u, x. apply vext; vunfold; ring.
Qed.
Lemma rexp_small a : vlen a <= 2 * tiny -> rexp a = mkQ 0 0 0 1.
Proof.
  intros H. unfold rexp. cbv zeta. destruct (Rle_dec _ _) as [L|L]; [exact eq_refl|exfalso]. apply L. pose proof tiny_pos.
  assert (E : vlen a * vlen a = vdot a a) by (apply sqrt_sqrt; destruct a; vunfold; nra). pose proof (vlen_nonneg a).
  replace (vdot (vscale a (/ 2)) (vscale a (/ 2))) with (vdot a a / 4) by (destruct a; vunfold; field). rewrite <- E. nra.
Qed.
(** One piece of the flight. *)
Lemma piece (w : V) t : exists a, (forall x, qrot (rexp (vscale w t)) x = turn_about w a x) /\ vlen w * Rabs (t - a) <= 2 * tiny /\ (2 * tiny < vlen w * Rabs t -> a = t).
Proof.
  pose proof tiny_pos. destruct (Rle_dec (vlen (vscale w t)) (2 * tiny)) as [L|L].
  - exists 0. rewrite (rexp_small _ L). rewrite vlen_abs in L. split; [|split; [rewrite Rminus_0_r; lra|intros; lra]].
    intros x. rewrite turn_zero. apply (eq_trans (y := qrot (@qident R RNum) x)); [|apply qrot_ident]. f_equal. unfold qident. now rewrite r_0, r_1.
  - exists t. split; [|split; [rewrite Rminus_diag_eq, Rabs_R0 by ring; lra|reflexivity]]. apply turns_about; [lra|]. apply rexp_turns. lra.
Qed.
Lemma fly_fin o v w t : fly (ofin o) (vfin v) (vfin w) t = ofin (mkO (vadd (o_pos o) (vscale v t)) (qmul (rexp (vscale w t)) (o_rot o)) (o_off o)).
Proof. unfold fly. rewrite !vfin_scale, exp_fin. exact eq_refl. Qed.

(** ** One step *)
Definition turned_for (w : V) (a : R) (o o' : orientation R) : Prop := unit_o o' /\ o_off o' = o_off o /\ forall x, qrot (o_rot o') x = turn_about w a (qrot (o_rot o) x).
Lemma turned_on_piece w a o p r t : unit_o o -> turned_for w a o p -> r = rexp (vscale w t) ->
  exists b, turned_for w (b + a) o (mkO (vadd (o_pos p) (mkV 0 0 0)) (qmul r (o_rot p)) (o_off p)) /\ vlen w * Rabs (t - b) <= 2 * tiny /\ (2 * tiny < vlen w * Rabs t -> b = t).
Proof.
  intros U (U' & F & T) ->. destruct (piece w t) as (b & B1 & B2 & B3). exists b. split; [|split; [exact B2|exact B3]]. pose proof (rexp_unit (vscale w t)) as Ur.
  split; [apply unit_qmul; auto|]. split; [exact F|]. intros x. cbn [o_rot]. rewrite qrot_mul by auto. now rewrite B1, T, turn_twice.
Qed.
Lemma path_turns h o v w rs o' v' w' t : unit_o o -> path h (ofin o) (vfin v) (vfin w) rs o' v' w' t -> ~ named rs h ->
  v' = vfin v /\ w' = vfin w /\ exists p a, o' = ofin p /\ turned_for w a o p /\ o_pos p = vadd (o_pos o) (vscale v t) /\ vlen w * Rabs (t - a) <= 2 * tiny * INR (length rs) /\ (rs = [] -> t = 0 /\ a = 0).
Proof.
  intros U. induction 1 as [|rs r o1 v1 w1 t1 v2 w2 t2 P IH Er Hk]; intros Hn.
  - split; [exact eq_refl|]. split; [exact eq_refl|]. exists o, 0. split; [exact eq_refl|]. split; [split; [exact U|]; split; [exact eq_refl|]; intros x; now rewrite turn_zero|].
    split; [destruct (o_pos o), v; apply vext; vunfold; ring|]. split; [|auto]. cbn [length INR]. rewrite Rminus_0_r, Rabs_R0. lra.
  - assert (N1 : ~ named rs h). { intros (x & Hx & A). apply Hn. exists x. split; [apply in_or_app; auto|exact A]. }
    assert (N2 : ~ named [r] h). { intros (x & Hx & A). apply Hn. exists x. split; [apply in_or_app; auto|exact A]. }
    destruct (IH N1) as (-> & -> & p & a & -> & T & Po & B & _). destruct (Hk N2) as (-> & ->). split; [exact eq_refl|]. split; [exact eq_refl|].
    destruct (turned_on_piece w a o p _ (t2 - t1) U T eq_refl) as (b & (T1 & T2 & T3) & B2 & _). rewrite fly_fin. eexists _, (b + a). split; [exact eq_refl|]. split; [split; [exact T1|]; split; [exact T2|exact T3]|].
    split; [cbn [o_pos]; rewrite Po; destruct (o_pos o), v; apply vext; vunfold; ring|]. split; [|intros E; destruct rs; discriminate E].
    rewrite app_length, plus_INR. cbn [length INR]. pose proof (vlen_nonneg w). pose proof (Rabs_triang (t1 - a) (t2 - t1 - b)) as Tr. replace (t1 - a + (t2 - t1 - b)) with (t2 - (b + a)) in Tr by ring. nra.
Qed.
Lemma step_turns ord s d s' h e m o i0 v w gs : good_order ord -> step ord s (Fin d) = Ok s' -> 1 / 1000000 <= Rabs d -> gravity_only s gs ->
  get_entity s h = Some e -> rigid e m o i0 v w -> / 1000000 < m -> pe_asleep e = false -> ~ named (s_records s') h -> length (s_records s') <> s_iteration_max s ->
  exists e' o' a, get_entity s' h = Some e' /\ rigid e' m o' i0 (vadd v (vscale (vsum gs) d)) w /\ turned_for w a o o' /\
    vlen w * Rabs (d - a) <= 2 * tiny * INR (S (length (s_records s'))) /\ (s_records s' = [] -> 2 * tiny < vlen w * Rabs d -> a = d).
Proof.
  intros Ho Hs Hd G He Hr Hm Ha Hn Hl. pose proof (long_enough d Hd) as Le. assert (Hm' : 0 < m) by lra.
  assert (Hi : exists i, aget (s_ents s) h = Some i /\ e = make_pub i).
  { unfold get_entity in He. destruct (aget (s_ents s) h) as [i|]; [|discriminate He]. exists i. apply some_inj in He. now split. }
  destruct Hi as (i & Hi & Hie). pose proof (pushable_pub _ _ _ _ _ _ _ _ _ He Hi Hr Hm) as Hp.
  assert (Ea : e_asleep i = false) by (subst e; exact Ha).
  destruct (step_path _ _ _ _ _ _ Ho Hs Le Hi Ea) as (fs & o1 & v1 & w1 & t & i' & F & P & Hi' & Ev & Ew & Eo).
  assert (Fs : fs = map force_fin (map (fun g => (vscale g m, o_pos o)) gs)).
  { destruct F as (i1 & Hi1 & F). assert (i1 = i) by congruence. subst i1. rewrite Hp in F. exact (gravity_forces _ _ _ _ _ _ _ _ _ _ _ G He Hr F). }
  rewrite Hie in Hr. pose proof (pushed_vel_fin i m o i0 v w (map (fun g => (vscale g m, o_pos o)) gs) d Hr Hm') as Pv.
  pose proof (pushed_angvel_fin i m o i0 v w (map (fun g => (vscale g m, o_pos o)) gs) d Hr) as Pw. rewrite gravity_no_moment in Pw. rewrite <- Fs in Pv, Pw.
  assert (Pv' : pushed_vel (Fin d) fs i = vfin (vadd v (vscale (vsum gs) d))).
  { rewrite Pv. f_equal. rewrite map_map. cbn [fst]. rewrite vsum_scale, map_id. set (a := vsum gs). clear - Hm'. destruct v, a. apply vext; vunfold; field; lra. }
  assert (Pw' : pushed_angvel (Fin d) fs i = vfin w).
  { rewrite Pw. f_equal. set (a := rinv _). set (b := rotate_moment i0 _). destruct a, b, w. apply vext; munfold; ring. }
  rewrite Pv', Pw' in P. clear Pv Pw. pose proof Hr as [R1 R2 R3 R4 R5 R6]. cbn [make_pub pe_last_total_mass pe_last_orient pe_last_prep_moi pe_vel pe_angvel] in *.
  rewrite R2 in P. destruct (path_turns _ _ _ _ _ _ _ _ _ R3 P Hn) as (E1 & E2 & p & a & E3 & T & Po & B & Z). subst v1 w1 o1.
  apply Nat.eqb_neq in Hl. rewrite Hl, E1, E2, fly_fin in Eo.
  destruct (turned_on_piece w a o p _ (d - t) R3 T eq_refl) as (b & (T1 & T2 & T3) & B2 & B3).
  assert (He' : get_entity s' h = Some (make_pub i')) by (unfold get_entity; rewrite Hi'; exact eq_refl).
  exists (make_pub i'), (mkO (vadd (o_pos p) (vscale (vadd v (vscale (vsum gs) d)) (d - t))) (qmul (rexp (vscale w (d - t))) (o_rot p)) (o_off p)), (b + a). split; [exact He'|].
  pose proof (step_frame_pub _ _ _ _ Hs) as (_ & _ & _ & F4 & _). destruct (F4 h e (make_pub i') He He') as (_ & _ & K1 & K2). subst e. cbn [make_pub pe_last_total_mass pe_last_prep_moi] in K1, K2.
  split; [|split; [split; [exact T1|split; [exact T2|exact T3]]|split]].
  - constructor; cbn [make_pub pe_last_total_mass pe_last_orient pe_last_prep_moi pe_vel pe_angvel].
    + congruence.
    + exact Eo.
    + exact T1.
    + congruence.
    + exact E1.
    + exact E2.
  - rewrite S_INR. pose proof (vlen_nonneg w). pose proof (Rabs_triang (t - a) (d - t - b)) as Tr. replace (t - a + (d - t - b)) with (d - (b + a)) in Tr by ring. nra.
  - intros Zr L. destruct (Z Zr) as (-> & ->). rewrite Rminus_0_r in B3. rewrite (B3 L). ring.
Qed.

(** ** Many steps *)
Definition brisk_turn (w : V) (l : list (set_order * R)) : Prop := Forall (fun x => 2 * tiny < vlen w * Rabs (snd x)) l.
Lemma flights_turn h gs m s l n s' : flights h s l n s' -> gravity_only s gs -> / 1000000 < m -> forall e o i0 v w, get_entity s h = Some e -> rigid e m o i0 v w ->
  exists e' o' a, get_entity s' h = Some e' /\ rigid e' m o' i0 (vadd v (vscale (vsum gs) (total_time l))) w /\ turned_for w a o o' /\
    vlen w * Rabs (total_time l - a) <= 2 * tiny * INR n /\ (length l <= n)%nat /\ (n = length l -> brisk_turn w l -> a = total_time l).
Proof.
  induction 1 as [s|s ord d s1 l n s' Ho Hd Hs (e1 & He1 & Ha) Hn Hl U IH]; intros G Hm e o i0 v w He Hr.
  - exists e, o, 0. unfold total_time. cbn [map rsum fold_right length INR]. split; [exact He|]. pose proof (rg_unit_o _ _ _ _ _ _ Hr) as Uo. split.
    { assert (E : vadd v (vscale (vsum gs) 0) = v) by (set (k := vsum gs); destruct v, k; apply vext; vunfold; ring). unfold rsum. cbn [fold_right]. now rewrite E. }
    split; [split; [exact Uo|]; split; [exact eq_refl|]; intros x; now rewrite turn_zero|]. unfold rsum. cbn [fold_right]. rewrite Rminus_0_r, Rabs_R0. split; [lra|]. split; [lia|auto].
  - assert (e1 = e) by congruence. subst e1.
    destruct (step_turns ord s d s1 h e m o i0 v w gs Ho Hs Hd G He Hr Hm Ha Hn Hl) as (e1 & o1 & a & He1' & Hr1 & (T1 & T2 & T3) & B & Z).
    destruct (IH (gravity_stays _ _ _ _ _ Hs (long_enough d Hd) G) Hm e1 o1 i0 _ w He1' Hr1) as (e' & o' & a' & He' & Hr' & (T1' & T2' & T3') & B' & Ln & Z').
    exists e', o', (a' + a). assert (Et : total_time ((ord, d) :: l) = d + total_time l) by exact eq_refl. rewrite Et. split; [exact He'|]. split.
    { assert (E : vadd v (vscale (vsum gs) (d + total_time l)) = vadd (vadd v (vscale (vsum gs) d)) (vscale (vsum gs) (total_time l))) by (generalize (total_time l); intros x; set (k := vsum gs); destruct v, k; apply vext; vunfold; ring).
      rewrite E. exact Hr'. }
    split; [split; [exact T1'|]; split; [congruence|]; intros x; rewrite T3', T3; apply turn_twice|]. split; [|split].
    + rewrite plus_INR. pose proof (vlen_nonneg w). pose proof (Rabs_triang (d - a) (total_time l - a')) as Tr. replace (d - a + (total_time l - a')) with (d + total_time l - (a' + a)) in Tr by ring. nra.
    + cbn [length]. lia.
    + cbn [length]. intros E F. inversion F as [|? ? F1 F2]; subst. cbn [snd] in F1. assert (E0 : length (s_records s1) = 0%nat) by lia.
      rewrite (Z' ltac:(lia) F2), (Z (proj1 (length_zero_iff_nil _) E0) F1). ring.
Qed.
Lemma momentum_turns o i0 w a o' : unit_o o -> turned_for w a o o' -> spin_momentum o' i0 w = turn_about w a (spin_momentum o i0 w).
Proof.
  intros U (U' & _ & T). unfold spin_momentum. rewrite !direction_world_form, !direction_local_form, T. f_equal. f_equal. f_equal.
  assert (E : qrot (o_rot o') (qrot (qinv (o_rot o)) w) = w) by (rewrite T, qrot_qinv_r by exact U; apply turn_axis).
  rewrite <- E at 1. now apply qrot_qinv_l.
Qed.
Lemma flights_spin h gs m s l n s' e o i0 v w : flights h s l n s' -> gravity_only s gs -> get_entity s h = Some e -> rigid e m o i0 v w -> / 1000000 < m ->
  exists e' o' a, get_entity s' h = Some e' /\ rigid e' m o' i0 (vadd v (vscale (vsum gs) (total_time l))) w /\ o_off o' = o_off o /\
    (forall x, direction_into_world o' x = turn_about w a (direction_into_world o x)) /\
    spin_momentum o' i0 w = turn_about w a (spin_momentum o i0 w) /\
    vlen w * Rabs (total_time l - a) <= 2 * tiny * INR n /\
    (n = length l -> Forall (fun x => 2 * tiny < vlen w * Rabs (snd x)) l -> a = total_time l).
Proof.
  intros F G He Hr Hm. destruct (flights_turn _ _ _ _ _ _ _ F G Hm _ _ _ _ _ He Hr) as (e' & o' & a & A & B & C & D & _ & Z). exists e', o', a. split; [exact A|]. split; [exact B|].
  destruct C as (C1 & C2 & C3). split; [exact C2|]. split; [intros x; rewrite !direction_world_form; apply C3|].
  split; [apply momentum_turns; [exact (rg_unit_o _ _ _ _ _ _ Hr)|split; [exact C1|split; [exact C2|exact C3]]]|]. split; [exact D|exact Z].
Qed.
Lemma flights_constants h gs m s l n s' e o i0 v w : flights h s l n s' -> gravity_only s gs -> get_entity s h = Some e -> rigid e m o i0 v w -> / 1000000 < m ->
  exists e' o' v', get_entity s' h = Some e' /\ rigid e' m o' i0 v' w /\
    vlen (spin_momentum o' i0 w) = vlen (spin_momentum o i0 w) /\
    vdot w (spin_momentum o' i0 w) / 2 = vdot w (spin_momentum o i0 w) / 2.
Proof.
  intros F G He Hr Hm. destruct (flights_spin _ _ _ _ _ _ _ _ _ _ _ _ F G He Hr Hm) as (e' & o' & a & A & B & _ & _ & C & _). exists e', o'. eexists. split; [exact A|]. split; [exact B|]. rewrite C. split.
  - unfold vlen. now rewrite turn_dot.
  - rewrite <- (turn_axis w a) at 1. now rewrite turn_dot.
Qed.
