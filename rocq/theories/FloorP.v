(** * FloorP: a ball bouncing on a floor, step after step *)
From Coq Require Import ZArith Reals Lra Psatz Bool List Lia.
Import ListNotations.
From Verif Require Import Num Vec Res Arena RangeM Orient Colliders Collide EntityM SystemM OrderP Spec PanicSpec ResP ArenaP FrameP StoreP Store2P ExecP WakeP StepP Step2P Step3P ContactP NoPanicP ArithP RangeP
  RealSpec RealV OrientP Orient2P GeomP ShapeP Geom4P PhysSpec PhysP Phys2P Phys3P Phys4P TraceSpec PassP TraceP EnergyP FloorSpec CleanP.
Local Open Scope R_scope.

(** ** Movers *)
Lemma still_rotation q q' t : unit_quat q -> turned_on q (vscale (mkV 0 0 0) t) q' -> forall x, qrot q' x = qrot q x.
Proof.
  intros U (r & Ur & -> & H) x. rewrite qrot_mul by assumption.
  assert (V0 : vscale (mkV 0 0 0) t = mkV 0 0 0) by (apply vext; vunfold; ring). rewrite V0 in H.
  set (y := qrot q x). destruct H as [H|(_ & ->)]; [|destruct y; apply vext; qunfold; ring]. rewrite H.
  assert (L : vlen (mkV 0 0 0) = 0) by (unfold vlen; replace (vdot (mkV 0 0 0) (mkV 0 0 0)) with 0 by (vunfold; ring); apply sqrt_0).
  rewrite L, cos_0, sin_0. destruct y. apply vext; vunfold; ring.
Qed.
Lemma glides_ball c m t m' : ball_mover c m -> glides m t m' -> ball_mover c m' /\ mv_vel m' = mv_vel m /\
  o_pos (mv_o m') = if mv_awake m' then vadd (o_pos (mv_o m)) (vscale (mv_vel m) t) else o_pos (mv_o m).
Proof.
  intros (S & Sp & Ce & Ma) G. pose proof (glides_sound _ _ _ S G) as S'. destruct G as (E1 & E2 & E3 & E4 & E5 & _ & O).
  split; [|split; [exact E3|]]. 2: { destruct (mv_awake m'); [exact (proj1 O)|now rewrite O]. }
  split; [exact S'|]. split; [unfold spinless; rewrite E4; exact Sp|]. rewrite E5, E1. auto.
Qed.
Lemma glides_floor m t m' x : floor_mover m -> glides m t m' -> floor_mover m' /\ position_into_world (mv_o m') x = position_into_world (mv_o m) x.
Proof.
  intros (S & Sp & Ve & Ma & Te) G. pose proof (glides_sound _ _ _ S G) as S'. destruct G as (E1 & E2 & E3 & E4 & E5 & _ & O).
  split; [|].
  - split; [exact S'|]. split; [unfold spinless; rewrite E4; exact Sp|]. rewrite E1, E2, E3. auto.
  - destruct S as (_ & _ & U). destruct S' as (_ & _ & U'). destruct (mv_awake m'); [|now rewrite O]. destruct O as (O1 & O2). rewrite Sp in O2.
    rewrite !world_form by assumption. rewrite (still_rotation _ _ _ U O2), E5, O1, Ve. f_equal. set (y := o_pos (mv_o m)). destruct y. apply vext; vunfold; ring.
Qed.
Lemma place_ball c m a : ball_mover c m -> place m c a = vadd (o_pos (mv_o m)) (vscale (mv_vel m) a).
Proof.
  intros ((_ & _ & U) & _ & Ce & _). unfold place. rewrite world_form by exact U. rewrite Ce. f_equal.
  destruct (o_rot (mv_o m)), (o_pos (mv_o m)). apply vext; qunfold; ring.
Qed.
Lemma place_floor m x a : floor_mover m -> place m x a = position_into_world (mv_o m) x.
Proof. intros (_ & _ & Ve & _). unfold place. rewrite Ve. set (y := position_into_world _ _). destruct y. apply vext; vunfold; ring. Qed.
Lemma still_speed m b x : spinless m -> body_of m b -> speed_at b x = mv_vel m.
Proof.
  intros Sp (_ & _ & _ & V & W). unfold speed_at. rewrite V, W, Sp. set (y := vsub _ _). destruct y, (mv_vel m). apply vext; vunfold; ring.
Qed.

(** ** The bounce *)
Lemma floor_unmoved m b x j : floor_mover m -> body_of m b -> b_vel (pushed b x j) = mkV 0 0 0 /\ b_spin (pushed b x j) = mkV 0 0 0.
Proof.
  intros (S & Sp & Ve & Ma & Te) (M & T & P & V & W). unfold pushed. cbn [b_vel b_spin]. rewrite M, Ma, V, W, Ve, Sp. cbn [inv_mass]. split; [destruct j; apply vext; vunfold; ring|].
  assert (D : det (b_tensor b) = 0).
  { destruct (Req_EM_T (det (b_tensor b)) 0) as [|D]; [assumption|exfalso]. apply det_invertible in D. destruct D as (i & D).
    destruct S as (_ & _ & U). set (q := o_rot (mv_o m)) in *. 
    assert (Z : forall y, mulmv (b_tensor b) y = mkV 0 0 0).
    { intros y. rewrite <- (qrot_qinv_r q y U). rewrite T, Te. rewrite mulmv_zero. destruct q. apply vext; qunfold; ring. }
    assert (Y : mulmv (mulmm (b_tensor b) i) (mkV 1 0 0) = mkV 0 0 0) by (rewrite mulmm_assoc_v; apply Z).
    rewrite D, mulmv_unit in Y. apply (f_equal vx) in Y. cbn [vx] in Y. lra. }
  unfold b_inv. rewrite rinv_zero, mulmv_zero by exact D. apply vext; vunfold; ring.
Qed.
Lemma ball_unturned c m b x j : ball_mover c m -> body_of m b -> vcross (vsub x (o_pos (mv_o m))) j = mkV 0 0 0 -> b_spin (pushed b x j) = mkV 0 0 0.
Proof.
  intros (_ & Sp & _) (_ & _ & P & _ & W) Z. unfold pushed. cbn [b_spin]. rewrite W, Sp, P, Z.
  assert (Y : mulmv (b_inv b) (mkV 0 0 0) = mkV 0 0 0) by (destruct (b_inv b); apply vext; munfold; ring). rewrite Y. apply vext; vunfold; ring.
Qed.
Section Bounce.
  Variables (c : V) (mb mf : mover) (bb bf : body) (x n u : V) (r rest sg : R).
  Hypothesis Mb : ball_mover c mb.
  Hypothesis Mf : floor_mover mf.
  Hypothesis Bb : body_of mb bb.
  Hypothesis Bf : body_of mf bf.
  Hypothesis Ex : x = vsub (o_pos (mv_o mb)) (vscale n r).
  Hypothesis Eu : u = vscale n sg.
  Hypothesis S1 : sg * sg = 1.
  Lemma lever k : vcross (vsub x (o_pos (mv_o mb))) (vscale u k) = mkV 0 0 0.
  Proof. rewrite Ex, Eu. set (y := o_pos (mv_o mb)). destruct y, n. apply vext; vunfold; ring. Qed.
  Lemma sb : sound bb. Proof. apply (body_sound mb); [apply Mb|exact Bb]. Qed.
  Lemma sf : sound bf. Proof. apply (body_sound mf); [apply Mf|exact Bf]. Qed.
  (** A body that does not turn has one velocity. *)
  Lemma body_speed (b : body) y : b_spin b = mkV 0 0 0 -> speed_at b y = b_vel b.
  Proof. intros W. unfold speed_at. rewrite W. set (z := vsub _ _). destruct z, (b_vel b). apply vext; vunfold; ring. Qed.
  Lemma unsign (a b : R) (v v' : V) : vdot v' (vscale n sg) = a * vdot v (vscale n sg) -> vdot v' n = a * vdot v n.
  Proof.
    intros H. assert (E : forall z : V, vdot z (vscale n sg) = sg * vdot z n) by (intros; vunfold; ring). rewrite !E in H.
    assert (N : sg <> 0) by nra. apply (Rmult_eq_reg_l sg); [|exact N]. lra.
  Qed.
  Lemma bounce_ball_first thr k cb cf : impact x u rest (Fin 0) (Fin 0) thr k bb bf cb cf ->
    b_spin cb = mkV 0 0 0 /\ b_vel cf = mkV 0 0 0 /\ b_spin cf = mkV 0 0 0 /\ vdot (b_vel cb) n = - rest * vdot (mv_vel mb) n.
  Proof.
    intros Im. destruct (impact_slippery _ _ _ _ _ _ _ _ _ sb sf Im) as (Cb & Cf & Re).
    destruct (floor_unmoved mf bf x (vneg (vscale u k)) Mf Bf) as (F1 & F2). rewrite <- Cf in F1, F2.
    pose proof (ball_unturned c mb bb x (vscale u k) Mb Bb (lever k)) as B1. rewrite <- Cb in B1. repeat (split; [assumption|]).
    unfold relative in Re. rewrite (body_speed cb), (body_speed cf), F1, (still_speed mb bb), (still_speed mf bf) in Re by (try assumption; try apply Mb; apply Mf).
    destruct Mf as (_ & _ & Vf & _). rewrite Vf, Eu in Re.
    assert (Z : forall v : V, vsub v (mkV 0 0 0) = v) by (intros v; destruct v; apply vext; vunfold; ring). rewrite !Z in Re. exact (unsign _ 0 _ _ Re).
  Qed.
  Lemma bounce_floor_first thr k cb cf : impact x u rest (Fin 0) (Fin 0) thr k bf bb cf cb ->
    b_spin cb = mkV 0 0 0 /\ b_vel cf = mkV 0 0 0 /\ b_spin cf = mkV 0 0 0 /\ vdot (b_vel cb) n = - rest * vdot (mv_vel mb) n.
  Proof.
    intros Im. destruct (impact_slippery _ _ _ _ _ _ _ _ _ sf sb Im) as (Cf & Cb & Re).
    destruct (floor_unmoved mf bf x (vscale u k) Mf Bf) as (F1 & F2). rewrite <- Cf in F1, F2.
    assert (Ng : vneg (vscale u k) = vscale u (- k)) by (destruct u; apply vext; vunfold; ring). rewrite Ng in Cb.
    pose proof (ball_unturned c mb bb x (vscale u (- k)) Mb Bb (lever (- k))) as B1. rewrite <- Cb in B1. repeat (split; [assumption|]).
    unfold relative in Re. rewrite (body_speed cb), (body_speed cf), F1, (still_speed mb bb), (still_speed mf bf) in Re by (try assumption; try apply Mb; apply Mf).
    destruct Mf as (_ & _ & Vf & _). rewrite Vf, Eu in Re. apply (unsign _ 0). 
    assert (Z : forall v w : V, vdot (vsub (mkV 0 0 0) v) w = - vdot v w) by (intros; vunfold; ring). rewrite !Z in Re. lra.
  Qed.
End Bounce.

(** ** One step's collisions *)
Lemma joint_only s h1 h2 k1 k2 q1 q2 rest stat dyn thr : only_collider s h1 q1 -> only_collider s h2 q2 -> joint s h1 h2 k1 k2 rest stat dyn thr ->
  k1 = q1 /\ k2 = q2 /\ rest = n_mul (mt_rest (c_mat q1)) (mt_rest (c_mat q2)) /\ stat = n_mul (mt_stat (c_mat q1)) (mt_stat (c_mat q2)) /\
  dyn = n_mul (mt_dyn (c_mat q1)) (mt_dyn (c_mat q2)).
Proof.
  intros (e1 & c1 & A1 & A2 & A3) (e2 & c2 & B1 & B2 & B3) (c1' & c2' & e1' & e2' & C1 & C2 & C3 & C4 & C5 & C6 & C7 & C8 & C9 & _).
  rewrite C1 in A1. apply some_inj in A1. subst e1'. rewrite C2 in B1. apply some_inj in B1. subst e2'. rewrite A2 in C3. rewrite B2 in C4.
  destruct C3 as [<-|[]], C4 as [<-|[]]. rewrite C5 in A3. rewrite C6 in B3. apply some_inj in A3, B3. subst. auto.
Qed.
Lemma vneg_eq (x y : V) : vneg x = vneg y -> x = y.
Proof. destruct x as [x1 x2 x3], y as [y1 y2 y3]. unfold vneg. cbn [vx vy vz]. intros H. apply vext; cbn [vx vy vz]; [apply (f_equal (@vx R)) in H|apply (f_equal (@vy R)) in H|apply (f_equal (@vz R)) in H]; cbn [vx vy vz] in H; vunfold; lra. Qed.
Section Match.
  Variables (s : system ER) (b f : handle) (c : V) (r : R) (p n g : V) (d : R) (w0 : handle -> mover).
  Variables (sp : sphere_c ER) (pl : plane_c ER) (e : R).
  Hypothesis Two : forall h, get_entity s h <> None <-> h = b \/ h = f.
  Hypothesis Apart : b <> f.
  Hypothesis Ob : only_collider s b (CSphere sp).
  Hypothesis Of : only_collider s f (CPlane pl).
  Hypothesis Esc : sp_center sp = vfin c.
  Hypothesis Esr : sp_radius sp = Fin r.
  Hypothesis Epp : pl_pos pl = vfin p.
  Hypothesis Epn : pl_normal pl = vfin n.
  Hypothesis Hr : 0 <= r.
  Hypothesis Hn : vdot n n = 1.
  Hypothesis He : 0 <= e.
  Hypothesis Mr : n_mul (mt_rest (sp_mat sp)) (mt_rest (pl_mat pl)) = Fin e.
  Hypothesis Mr' : n_mul (mt_rest (pl_mat pl)) (mt_rest (sp_mat sp)) = Fin e.
  Hypothesis Ms : n_mul (mt_stat (sp_mat sp)) (mt_stat (pl_mat pl)) = Fin 0.
  Hypothesis Ms' : n_mul (mt_stat (pl_mat pl)) (mt_stat (sp_mat sp)) = Fin 0.
  Hypothesis Md : n_mul (mt_dyn (sp_mat sp)) (mt_dyn (pl_mat pl)) = Fin 0.
  Hypothesis Md' : n_mul (mt_dyn (pl_mat pl)) (mt_dyn (sp_mat sp)) = Fin 0.
  Hypothesis Hd : 0 <= d.

  Definition above (w : handle -> mover) : R := vdot (vsub (o_pos (mv_o (w b))) (position_into_world (mv_o (w f)) p)) n - r.
  Definition rising (w : handle -> mover) : R := vdot (mv_vel (w b)) n.
  Definition still (w : handle -> mover) : Prop := ball_mover c (w b) /\ floor_mover (w f).

  Lemma gap_rises w a : still w -> vdot (vsub (place (w b) c a) (place (w f) p a)) n - r = above w + rising w * a.
  Proof.
    intros (Sb & Sf). rewrite (place_ball _ _ _ Sb), (place_floor _ _ _ Sf). unfold above, rising.
    set (x := o_pos _). set (y := position_into_world _ _). set (z := mv_vel _). vunfold. ring.
  Qed.
  (** What a bounce at the time [a] after [w] makes of it. *)
  Record bounced (w w2 : handle -> mover) (a : R) : Prop := {
    bo_still : still w2;
    bo_down : rising w <= - (1 / 1000000);
    bo_low : above w + rising w * a <= 0;
    bo_touch : a <> 0 -> above w + rising w * a = 0;
    bo_above : above w2 = above w + rising w * a;
    bo_rising : rising w2 = - e * rising w;
    bo_awake : mv_awake (w2 b) = true }.
  Lemma ball_with_speed m y : ball_mover c m -> b_spin y = mkV 0 0 0 -> ball_mover c (with_speed m y).
  Proof. intros (A & B & C) S. split; [exact A|]. split; [exact S|exact C]. Qed.
  Lemma floor_with_speed m y : floor_mover m -> b_vel y = mkV 0 0 0 -> b_spin y = mkV 0 0 0 -> floor_mover (with_speed m y).
  Proof. intros (A & B & C & D) V S. split; [exact A|]. split; [exact S|]. split; [exact V|exact D]. Qed.
  Lemma bounce_end w w1 w2 a x cb cf : still w -> glides (w b) a (w1 b) -> glides (w f) a (w1 f) -> mv_awake (w1 b) = true ->
    on_plane (w b) (w f) c r p n a x (vneg n) -> rising w <= - (1 / 1000000) ->
    b_spin cb = mkV 0 0 0 -> b_vel cf = mkV 0 0 0 -> b_spin cf = mkV 0 0 0 -> vdot (b_vel cb) n = - e * vdot (mv_vel (w1 b)) n ->
    w2 b = with_speed (w1 b) cb -> w2 f = with_speed (w1 f) cf -> bounced w w2 a.
  Proof.
    intros St Gb Gf Aw (O1 & O2 & _ & _) Dn S1 S2 S3 Re E1 E2. destruct (St) as (Sb & Sf).
    destruct (glides_ball _ _ _ _ Sb Gb) as (Mb & Vb & Pb). rewrite Aw in Pb. destruct (glides_floor _ _ _ p Sf Gf) as (Mf & Pf).
    rewrite (gap_rises w a St) in O1, O2.
    constructor; auto.
    - split; [rewrite E1; now apply ball_with_speed|rewrite E2; now apply floor_with_speed].
    - unfold above at 1. rewrite E1, E2. cbn [with_speed mv_o]. rewrite Pb, Pf. unfold above, rising.
      set (y := o_pos _). set (z := position_into_world _ _). set (u := mv_vel _). vunfold. ring.
    - unfold rising. rewrite E1. cbn [with_speed mv_vel]. rewrite Re, Vb. exact eq_refl.
    - rewrite E1. exact Aw.
  Qed.
  Lemma close_off (bb bf : body) x u (w1 : handle -> mover) : still w1 -> body_of (w1 b) bb -> body_of (w1 f) bf -> rising w1 <= - (1 / 1000000) -> 1 <= e ->
    (u = vneg n -> ~ stays_close x u e bb bf) /\ (u = n -> ~ stays_close x u e bf bb).
  Proof.
    intros (Sb & Sf) Bb Bf Dn E1. unfold stays_close, relative. rewrite (still_speed (w1 b) bb) by (try assumption; apply Sb). rewrite (still_speed (w1 f) bf) by (try assumption; apply Sf).
    destruct Sf as (_ & _ & Vf & _). rewrite Vf. unfold rising in Dn. split; intros ->.
    - replace (vdot (vsub (mv_vel (w1 b)) (mkV 0 0 0)) (vneg n)) with (- vdot (mv_vel (w1 b)) n) by (vunfold; ring). rewrite Rabs_pos_eq by nra. nra.
    - replace (vdot (vsub (mkV 0 0 0) (mv_vel (w1 b))) n) with (- vdot (mv_vel (w1 b)) n) by (vunfold; ring). rewrite Rabs_pos_eq by nra. nra.
  Qed.
  Lemma trace_ball rs ts w t : still w0 -> trace s d w0 rs ts w t ->
    (rs = [] /\ ts = [] /\ w = w0 /\ t = 0) \/ (length rs = 1%nat /\ 0 <= t <= d /\ bounced w0 w t /\ (1 <= e -> ts = [])).
  Proof.
    intros S0 T. induction T as [|rs ts w t rc w1 w2 t' ts' x u k1 k2 rest stat dyn thr k b1 b2 c1 c2 T IH (a & Ha & Et) _ Ne Ti Po No Nu Rs Im J Ap To Gl Na B1 B2 Ip W1 W2 Wo Tc Tf]; [left; auto|].
    right. specialize (IH). 
    assert (Le : forall h, h = b \/ h = f -> get_entity s h <> None) by (intros h Hh; now apply Two).
    assert (St : still w). { destruct IH as [(_ & _ & -> & _)|(_ & _ & Bo & _)]; [exact S0|apply Bo]. }
    pose proof (Gl b (Le b (or_introl eq_refl))) as Gb. pose proof (Gl f (Le f (or_intror eq_refl))) as Gf.
    destruct (St) as (Sb & Sf). destruct (glides_ball _ _ _ _ Sb Gb) as (Mb & Vb & Pb). destruct (glides_floor _ _ _ p Sf Gf) as (Mf & Pf).
    assert (Cases : (cr_first rc = b /\ cr_second rc = f) \/ (cr_first rc = f /\ cr_second rc = b)).
    { destruct J as (q1 & q2 & e1 & e2 & J1 & J2 & _). assert (X1 : cr_first rc = b \/ cr_first rc = f) by (apply Two; congruence).
      assert (X2 : cr_second rc = b \/ cr_second rc = f) by (apply Two; congruence). destruct X1 as [X1|X1], X2 as [X2|X2]; auto; congruence. }
    assert (Aw : mv_awake (w1 b) = true).
    { destruct Mb as (_ & _ & _ & z & Mz & _). apply (Na b z); [|exact Mz]. exists rc. split; [now left|]. destruct Cases as [(-> & _)|(_ & ->)]; auto. }
    assert (St1 : still w1) by (split; assumption).
    assert (R1 : rising w1 = rising w) by (unfold rising; now rewrite Vb).
    assert (Key : bounced w w2 (t' - t) /\ (1 <= e -> ts' = ts)).
    { rewrite Aw in Pb. destruct Cases as [(X1 & X2)|(X1 & X2)]; rewrite ?X1, ?X2 in *.
      - destruct (joint_only _ _ _ _ _ _ _ _ _ _ _ Ob Of J) as (-> & -> & J3 & J4 & J5). cbn [c_mat] in J3, J4, J5. rewrite Mr in J3. rewrite Ms in J4. rewrite Md in J5. assert (rest = e) by congruence. clear J3. subst rest stat dyn.
        specialize (To ltac:(apply Sb) ltac:(apply Sf)). cbn [touching] in To. specialize (To _ _ _ _ Esc Esr Epp Epn Hn Hr). pose proof To as (_ & _ & Px & Pu).
        rewrite (place_ball _ _ _ Sb), <- Pb in Px. subst u.
        destruct Ap as (y1 & y2 & Y1 & Y2 & Ap). unfold relative in Ap. rewrite (still_speed (w b) y1), (still_speed (w f) y2) in Ap by (try assumption; try apply Sb; apply Sf).
        assert (Vf : mv_vel (w f) = mkV 0 0 0) by apply Sf. rewrite Vf in Ap.
        replace (vdot (vsub (mv_vel (w b)) (mkV 0 0 0)) (vneg n)) with (- rising w) in Ap by (unfold rising; vunfold; ring).
        assert (Un : vneg n = vscale n (-1)) by (apply vext; vunfold; ring).
        destruct (bounce_ball_first c _ _ _ _ x n (vneg n) r e (-1) Mb Mf B1 B2 Px Un ltac:(lra) _ k _ _ Ip) as (Z1 & Z2 & Z3 & Z4).
        split; [apply (bounce_end w w1 w2 _ x c1 c2); auto; lra|]. intros E1. apply Tf. exact (proj1 (close_off _ _ x (vneg n) w1 St1 B1 B2 ltac:(lra) E1) eq_refl).
      - destruct (joint_only _ _ _ _ _ _ _ _ _ _ _ Of Ob J) as (-> & -> & J3 & J4 & J5). cbn [c_mat] in J3, J4, J5. rewrite Mr' in J3. rewrite Ms' in J4. rewrite Md' in J5. assert (rest = e) by congruence. clear J3. subst rest stat dyn.
        specialize (To ltac:(apply Sf) ltac:(apply Sb)). cbn [touching] in To. specialize (To _ _ _ _ Esc Esr Epp Epn Hn Hr). pose proof To as (_ & _ & Px & Pu).
        rewrite (place_ball _ _ _ Sb), <- Pb in Px. apply vneg_eq in Pu. subst u.
        destruct Ap as (y1 & y2 & Y1 & Y2 & Ap). unfold relative in Ap. rewrite (still_speed (w f) y1), (still_speed (w b) y2) in Ap by (try assumption; try apply Sb; apply Sf).
        assert (Vf : mv_vel (w f) = mkV 0 0 0) by apply Sf. rewrite Vf in Ap.
        replace (vdot (vsub (mkV 0 0 0) (mv_vel (w b))) n) with (- rising w) in Ap by (unfold rising; vunfold; ring).
        assert (Un : n = vscale n 1) by (apply vext; vunfold; ring).
        destruct (bounce_floor_first c _ _ _ _ x n n r e 1 Mb Mf B2 B1 Px Un ltac:(lra) _ k _ _ Ip) as (Z1 & Z2 & Z3 & Z4).
        split; [apply (bounce_end w w1 w2 _ x c2 c1); auto; lra|]. intros E1. apply Tf. exact (proj2 (close_off _ _ x n w1 St1 B2 B1 ltac:(lra) E1) eq_refl). }
    destruct Key as (Bo & Tn). destruct IH as [(-> & -> & -> & ->)|(_ & _ & Bo0 & _)].
    - rewrite Rminus_0_r in Bo. split; [exact eq_refl|]. split; [nra|]. split; [exact Bo|exact Tn].
    - exfalso. pose proof (bo_down _ _ _ Bo). pose proof (bo_rising _ _ _ Bo0). pose proof (bo_down _ _ _ Bo0). nra.
  Qed.
End Match.

(** ** The start of a step *)
Lemma stored_inside s h m i : stored_as s h m -> aget (s_ents s) h = Some i ->
  e_total_mass i = mv_mass m /\ e_prep_moi i = mfin (mv_tensor m) /\ e_orient i = ofin (mv_o m) /\ e_vel i = vfin (mv_vel m) /\ e_angvel i = vfin (mv_spin m).
Proof.
  intros (e & He & A) Hi. unfold get_entity in He. rewrite Hi in He. apply some_inj in He. subst e. exact A.
Qed.
Definition started (g : V) (d : R) (m : mover) (a : bool) : mover := mkMover (mv_mass m) (mv_tensor m) (mv_o m) (vadd (mv_vel m) (vscale g d)) (mv_spin m) a.
Definition rested (m : mover) (a : bool) : mover := mkMover (mv_mass m) (mv_tensor m) (mv_o m) (mv_vel m) (mv_spin m) a.
Lemma ball_starts s d b c gs m i fs : gravity_only s gs -> stored_as s b m -> ball_mover c m -> aget (s_ents s) b = Some i -> forces_on s (Fin d) b fs ->
  starts_with d i fs (started (vsum gs) d m (negb (e_asleep i))).
Proof.
  intros G St (So & Sp & Ce & x & Mx & Px) Hi F. destruct (stored_inside _ _ _ _ St Hi) as (A1 & A2 & A3 & A4 & A5). destruct F as (i' & Hi' & F). assert (i' = i) by congruence. subst i'.
  assert (Rg : rigid (make_pub i) x (mv_o m) (mv_tensor m) (mv_vel m) (mv_spin m)) by (constructor; cbn [make_pub pe_last_total_mass pe_last_orient pe_last_prep_moi pe_vel pe_angvel]; try assumption; [now rewrite A1|apply So]).
  assert (He : get_entity s b = Some (make_pub i)) by (unfold get_entity; rewrite Hi; exact eq_refl).
  rewrite (pushable_pub _ _ _ _ _ _ _ _ _ He Hi Rg ltac:(lra)) in F. pose proof (gravity_forces _ _ _ _ _ _ _ _ _ _ _ G He Rg F) as Ef. subst fs.
  unfold starts_with, started. cbn [mv_mass mv_tensor mv_o mv_vel mv_spin mv_awake]. rewrite negb_involutive. repeat (split; [assumption|]). split; [|split; [|exact eq_refl]].
  - rewrite (pushed_vel_fin i x _ _ _ _ _ d Rg ltac:(lra)). f_equal. f_equal. rewrite map_map. cbn [fst]. rewrite vsum_scale, map_id. set (a := vsum gs). destruct a. apply vext; vunfold; field; lra.
  - rewrite (pushed_angvel_fin i x _ _ _ _ _ d Rg), gravity_no_moment. f_equal. set (a := rinv _). set (k := rotate_moment _ _). destruct a, k, (mv_spin m). apply vext; munfold; ring.
Qed.
Lemma floor_starts s d f m i fs : stored_as s f m -> floor_mover m -> aget (s_ents s) f = Some i -> forces_on s (Fin d) f fs -> starts_with d i fs (rested m (negb (e_asleep i))).
Proof.
  intros St (So & Sp & Ve & Ma & Te) Hi F. destruct (stored_inside _ _ _ _ St Hi) as (A1 & A2 & A3 & A4 & A5). destruct F as (i' & Hi' & F). assert (i' = i) by congruence. subst i'.
  unfold pushable in F. rewrite A1, Ma in F. cbn in F. subst fs.
  assert (In : inside i (rested m (negb (e_asleep i)))) by (unfold inside, rested; cbn [mv_mass mv_tensor mv_o mv_vel mv_spin mv_awake]; rewrite negb_involutive; auto 10).
  destruct (inside_body _ _ In So) as (bo & Bo & _).
  assert (Z0 : Spec.vsum (T:=ER) [] = vfin (mkV 0 0 0)) by (cbn; unfold vzero; rewrite fin_0; exact eq_refl).
  assert (Z : vscale (mkV 0 0 0) d = mkV 0 0 0) by (apply vext; vunfold; ring).
  unfold starts_with, rested. cbn [mv_mass mv_tensor mv_o mv_vel mv_spin mv_awake]. rewrite negb_involutive. repeat (split; [assumption|]). split; [|split; [|exact eq_refl]].
  - unfold pushed_vel. cbn [map]. rewrite Z0, vfin_scale, Z, A4, vfin_add. f_equal. destruct (mv_vel m). apply vext; vunfold; ring.
  - unfold pushed_angvel. cbn [map]. rewrite Z0, vfin_scale, Z, A5, (body_inverse _ _ Bo), mfin_mulmv, vfin_add. f_equal. destruct (mv_spin m), (b_inv bo). apply vext; munfold; ring.
Qed.
Lemma started_ball c g d m a : ball_mover c m -> ball_mover c (started g d m a).
Proof. intros (A & B & C). split; [exact A|]. split; [exact B|exact C]. Qed.
Lemma rested_floor m a : floor_mover m -> floor_mover (rested m a).
Proof. intros (A & B & C). split; [exact A|]. split; [exact B|exact C]. Qed.
Section Start.
  Variables (s : system ER) (b f : handle) (c : V) (r : R) (p n g : V) (d : R) (mb mf : mover).
  Hypothesis Co : court s b f c r p n g.
  Hypothesis Sb : stored_as s b mb.
  Hypothesis Sf : stored_as s f mf.
  Hypothesis Bb : ball_mover c mb.
  Hypothesis Bf : floor_mover mf.
  Lemma live_two h i : aget (s_ents s) h = Some i -> h = b \/ h = f.
  Proof. intros H. apply (ct_two _ _ _ _ _ _ _ _ Co). unfold get_entity. rewrite H. discriminate. Qed.
  Lemma court_sound : sound_start s d.
  Proof.
    intros h i fs Hi F. destruct (ct_gravity _ _ _ _ _ _ _ _ Co) as (gs & G & Eg). destruct (live_two _ _ Hi) as [-> | ->].
    - exists (started (vsum gs) d mb (negb (e_asleep i))). split; [now apply (ball_starts s d b c gs mb i fs)|]. apply (started_ball c), Bb.
    - exists (rested mf (negb (e_asleep i))). split; [now apply (floor_starts s d f mf i fs)|]. now apply rested_floor.
  Qed.
  Lemma court_starts : (forall m, starts_as s d b m -> exists i, aget (s_ents s) b = Some i /\ m = started g d mb (negb (e_asleep i))) /\ (forall m, starts_as s d f m -> exists a, m = rested mf a).
  Proof.
    destruct (ct_gravity _ _ _ _ _ _ _ _ Co) as (gs & G & Eg). split; intros m (i & fs & Hi & F & S).
    - exists i. split; [exact Hi|]. rewrite <- Eg. exact (starts_unique _ _ _ _ _ S (ball_starts s d b c gs mb i fs G Sb Bb Hi F)).
    - exists (negb (e_asleep i)). exact (starts_unique _ _ _ _ _ S (floor_starts s d f mf i fs Sf Bf Hi F)).
  Qed.
  Lemma court_plain : plain s.
  Proof.
    destruct (ct_colliders _ _ _ _ _ _ _ _ Co) as (sp & pl & (eb & cb & B1 & B2 & B3) & (ef & cf & F1 & F2 & F3) & P1 & P2 & P3 & P4 & (e1 & e2 & s1 & s2 & d1 & d2 & E1 & E2 & _)).
    assert (Ps : plain_ball sp) by (exists c, r; repeat (split; [assumption|]); exact (ct_radius _ _ _ _ _ _ _ _ Co)).
    assert (Pp : plain_plane pl) by (exists p, n; repeat (split; [assumption|]); exact (ct_normal _ _ _ _ _ _ _ _ Co)).
    assert (Mb : pe_last_total_mass eb <> PInf).
    { destruct Sb as (e' & Ge & A & _). rewrite B1 in Ge. apply some_inj in Ge. subst e'. destruct Bb as (_ & _ & _ & x & Mx & _). rewrite A, Mx. discriminate. }
    intros h k x1 x2 c1 c2 k1 k2 Ne H1 H2 I1 I2 K1 K2.
    assert (D1 : h = b \/ h = f) by (apply (ct_two _ _ _ _ _ _ _ _ Co); congruence). assert (D2 : k = b \/ k = f) by (apply (ct_two _ _ _ _ _ _ _ _ Co); congruence).
    destruct D1 as [-> | ->], D2 as [-> | ->]; try contradiction.
    - rewrite B1 in H1. rewrite F1 in H2. apply some_inj in H1, H2. subst x1 x2. rewrite B2 in I1. rewrite F2 in I2. destruct I1 as [<-|[]], I2 as [<-|[]].
      rewrite B3 in K1. rewrite F3 in K2. apply some_inj in K1, K2. subst k1 k2. cbn [c_mat]. split; [exact Ps|]. split; [exact Pp|]. split; [|left; exact Mb]. rewrite E1, E2. eexists. apply fin_mul.
    - rewrite F1 in H1. rewrite B1 in H2. apply some_inj in H1, H2. subst x1 x2. rewrite F2 in I1. rewrite B2 in I2. destruct I1 as [<-|[]], I2 as [<-|[]].
      rewrite F3 in K1. rewrite B3 in K2. apply some_inj in K1, K2. subst k1 k2. cbn [c_mat]. split; [exact Ps|]. split; [exact Pp|]. split; [|right; exact Mb]. rewrite E1, E2. eexists. apply fin_mul.
  Qed.
End Start.

(** ** A step *)
Definition height (r : R) (p n : V) (mb mf : mover) : R := vdot (vsub (o_pos (mv_o mb)) (position_into_world (mv_o mf) p)) n - r.
Lemma stopped_ball c m : ball_mover c m -> ball_mover c (stopped m).
Proof. intros (A & B & C). unfold stopped. destruct (mv_awake m); [split; [exact A|split; [exact B|exact C]]|]. split; [exact A|]. split; [exact eq_refl|exact C]. Qed.
Lemma stopped_floor m : floor_mover m -> floor_mover (stopped m).
Proof. intros (A & B & C & D). unfold stopped. destruct (mv_awake m); [split; [exact A|split; [exact B|split; [exact C|exact D]]]|]. split; [exact A|]. split; [exact eq_refl|]. split; [exact eq_refl|exact D]. Qed.
Lemma stopped_o m : mv_o (stopped m) = mv_o m.
Proof. unfold stopped. destruct (mv_awake m); exact eq_refl. Qed.
Section Step.
  Variables (s : system ER) (b f : handle) (c : V) (r : R) (p n g : V) (d : R) (mb mf : mover) (ord : set_order) (s' : system ER).
  Hypothesis Co : court s b f c r p n g.
  Hypothesis Sb : stored_as s b mb.
  Hypothesis Sf : stored_as s f mf.
  Hypothesis Bb : ball_mover c mb.
  Hypothesis Bf : floor_mover mf.
  Hypothesis Ho : good_order ord.
  Hypothesis Hd : 1 / 1000000 <= d.
  Hypothesis Hs : step ord s (Fin d) = Ok s'.
  Lemma long_enough : n_lt (n_abs (Fin d)) EPSILON = false.
  Proof. rewrite eps_fin. change (@n_lt ER EReal) with er_lt. change (n_abs (Fin d)) with (Fin (Rabs d)). rewrite Rabs_pos_eq by lra. apply er_lt_fin_f. lra. Qed.
  Lemma step_ball : exists mb' mf' e, stored_as s' b mb' /\ stored_as s' f mf' /\ ball_mover c mb' /\ floor_mover mf' /\ restitution s b f e /\ 0 <= e /\
    ball_moves s s' b e (vdot g n) (height r p n mb mf) (vdot (mv_vel mb) n) d (height r p n mb' mf') (vdot (mv_vel mb') n) /\
    ((s_time_thr s = PInf /\ forall h x, aget (s_ents s) h = Some x -> exists t, e_falling_time x = Fin t) \/
     (forall h k, In (DSleep h) (s_debug s') -> ~ contact (s_ents s') h k)).
  Proof.
    pose proof (court_sound _ _ _ _ _ _ _ _ d _ _ Co Sb Sf Bb Bf) as SS. pose proof (court_plain _ _ _ _ _ _ _ _ _ Co Sb Bb) as Pl.
    pose proof (step_clean _ _ _ _ Ho Hs long_enough SS Pl) as Cl.
    destruct (step_trace _ _ _ _ Ho Hs long_enough SS Cl) as (w0 & w & t & ts & W0 & Tr & En & Ud & Sl).
    destruct (ct_colliders _ _ _ _ _ _ _ _ Co) as (sp & pl & Ob & Of & P1 & P2 & P3 & P4 & (e1 & e2 & s1 & s2 & d1 & d2 & E1 & E2 & E3 & E4 & E5 & E6 & E7 & E8 & E9 & Ee)).
    pose proof (ct_two _ _ _ _ _ _ _ _ Co) as Two. pose proof (ct_apart _ _ _ _ _ _ _ _ Co) as Apart. pose proof (ct_radius _ _ _ _ _ _ _ _ Co) as Hr. pose proof (ct_normal _ _ _ _ _ _ _ _ Co) as Hn.
    destruct (court_starts _ _ _ _ _ _ _ _ d _ _ Co Sb Sf Bb Bf) as (Ub & Uf).
    assert (Lb : get_entity s b <> None) by (apply Two; auto). assert (Lf : get_entity s f <> None) by (apply Two; auto).
    destruct (W0 b Lb) as (Zb & _). destruct (W0 f Lf) as (Zf & _). destruct (Ub _ Zb) as (ib & Hib & Eb). set (ab := negb (e_asleep ib)) in Eb. destruct (Uf _ Zf) as (af & Ef). clear Zb Zf Ub Uf W0.
    assert (S0 : still b f c w0) by (split; [rewrite Eb; now apply started_ball|rewrite Ef; now apply rested_floor]).
    assert (A0 : above b f r p n w0 = height r p n mb mf) by (unfold above, height; rewrite Eb, Ef; exact eq_refl).
    assert (R0 : rising b n w0 = vdot (mv_vel mb) n + vdot g n * d) by (unfold rising; rewrite Eb; unfold started; cbn [mv_vel]; vunfold; ring).
    pose proof (trace_ball s b f c r p n d w0 sp pl (e1 * e2) Two Ob Of P1 P2 P3 P4 Hr Hn E9) as TB.
    assert (F0 : forall x y x1 y1, x = Fin x1 -> y = Fin y1 -> x1 * y1 = 0 -> n_mul x y = Fin 0) by (intros x y x1 y1 -> -> Z; rewrite fin_mul, Z; exact eq_refl).
    specialize (TB ltac:(rewrite E1, E2, fin_mul; exact eq_refl) ltac:(rewrite E1, E2, fin_mul, Rmult_comm; exact eq_refl) (F0 _ _ _ _ E3 E4 E7)
      (F0 _ _ _ _ E4 E3 ltac:(rewrite Rmult_comm; exact E7)) (F0 _ _ _ _ E5 E6 E8) (F0 _ _ _ _ E6 E5 ltac:(rewrite Rmult_comm; exact E8)) ltac:(lra) _ _ _ _ S0 Tr).
    assert (It : length (s_records s') <> s_iteration_max s).
    { pose proof (ct_iterations _ _ _ _ _ _ _ _ Co). destruct TB as [(-> & _)|(-> & _)]; cbn [length]; lia. }
    assert (St : still b f c w) by (destruct TB as [(_ & _ & -> & _)|(_ & _ & Bo & _)]; [exact S0|exact (bo_still _ _ _ _ _ _ _ _ _ _ Bo)]).
    rewrite (proj2 (Nat.eqb_neq _ _) It) in En. specialize (Ud It).
    destruct (En b Lb) as (m1 & G1 & K1 & N1). destruct (En f Lf) as (m2 & G2 & K2 & N2). destruct St as (Qb & Qf).
    destruct (glides_ball _ _ _ _ Qb G1) as (M1 & V1 & O1). destruct (glides_floor _ _ _ p Qf G2) as (M2 & O2).
    exists (stopped m1), (stopped m2), (e1 * e2). split; [now apply ends_stored|]. split; [now apply ends_stored|]. split; [now apply stopped_ball|]. split; [now apply stopped_floor|]. split; [exists (CSphere sp), (CPlane pl); split; [exact Ob|]; split; [exact Of|]; cbn [c_mat]; rewrite E1, E2; apply fin_mul|]. split; [exact E9|].
    assert (Hh : height r p n (stopped m1) (stopped m2) = if mv_awake m1 then above b f r p n w + rising b n w * (d - t) else above b f r p n w).
    { unfold height. rewrite !stopped_o, O1, O2. unfold above, rising. destruct (mv_awake m1); [|exact eq_refl]. set (x := o_pos _). set (y := position_into_world _ _). set (z := mv_vel _). vunfold. ring. }
    assert (Hv : vdot (mv_vel (stopped m1)) n = if mv_awake m1 then rising b n w else 0).
    { unfold stopped. destruct (mv_awake m1); [unfold rising; now rewrite V1|]. cbn [mv_vel]. vunfold. ring. }
    unfold ball_moves. rewrite Hh, Hv. split.
    - destruct TB as [(Rn & _ & -> & ->)|(Rn & Ht & Bo & _)].
      + destruct (mv_awake m1) eqn:Aw.
        2: { left. split; [exact Rn|]. split; [|split; [exact A0|exact eq_refl]]. exists (make_pub ib). unfold get_entity. rewrite Hib. split; [exact eq_refl|]. rewrite Eb in K1. cbn [started mv_awake] in K1. cbn [make_pub pe_asleep]. unfold ab in K1. now destruct (e_asleep ib). }
        right. left. split; [exact Rn|]. rewrite Rminus_0_r, A0, R0.
        set (v := vdot (mv_vel mb) n + vdot g n * d) in *. set (h := height r p n mb mf) in *.
        assert (Br : forall a, 0 <= a < d -> first_touch (fun x => h + v * x) a -> ~ brisk_plane d (w0 b) (w0 f) n a).
        { intros a Ha Ft. destruct (Ud b f a) as (_ & U); [|apply Qb|apply Qf|lra|].
          - split; [exact Apart|]. split; apply (ct_alone _ _ _ _ _ _ _ _ Co).
          - destruct Ob as (x1 & y1 & X1 & X2 & X3). destruct Of as (x2 & y2 & Y1 & Y2 & Y3). rewrite Rminus_0_r in U. apply (U c r p n).
            + exists x1, y1, sp. rewrite X2. repeat (split; [assumption || now left|]). exact P2.
            + exists x2, y2, pl. rewrite Y2. repeat (split; [assumption || now left|]). exact Hn.
            + exact Hr.
            + destruct Ft as (F1 & F2 & F3). assert (Gr : forall x, vdot (vsub (place (w0 b) c x) (place (w0 f) p x)) n - r = h + v * x) by (intros x; rewrite gap_rises by (split; assumption); now rewrite A0, R0).
              split; [exact F1|]. split; [rewrite Gr; exact F2|]. intros x Hx. rewrite Gr. exact (F3 x Hx). }
        assert (Cl0 : vdot (vsub (mv_vel (w0 f)) (mv_vel (w0 b))) n = - v).
        { rewrite <- R0. unfold rising. assert (Z : mv_vel (w0 f) = mkV 0 0 0) by apply Qf. rewrite Z. set (x := mv_vel _). vunfold. ring. }
        unfold brisk_plane in Br. rewrite Cl0 in Br. split; [exact eq_refl|]. split; [exact eq_refl|]. split.
        * intros H0. apply Rnot_le_lt. intros H1. apply (Br 0); [lra| |split; [lra|now left]]. split; [lra|]. split; [lra|]. intros x Hx. lra.
        * intros H0 H1. destruct (Rlt_dec (- (1 / 1000000)) v) as [|B1]; [now left|right]. apply Rnot_le_lt. intros B2.
          assert (Nv : v < 0) by lra. assert (Ha : v * (- h / v) = - h) by (field; lra). set (a := - h / v) in *. assert (Ha1 : a < d) by nra. assert (Ha0 : 0 < a) by nra.
          apply (Br a); [lra| |split; [lra|right; lra]]. split; [lra|]. split; [lra|]. intros x Hx. nra.
      + right. right. split; [exact Rn|]. rewrite K1, (bo_awake _ _ _ _ _ _ _ _ _ _ Bo), (bo_above _ _ _ _ _ _ _ _ _ _ Bo), (bo_rising _ _ _ _ _ _ _ _ _ _ Bo). 
        pose proof (bo_down _ _ _ _ _ _ _ _ _ _ Bo) as B1. pose proof (bo_low _ _ _ _ _ _ _ _ _ _ Bo) as B2. pose proof (bo_touch _ _ _ _ _ _ _ _ _ _ Bo) as B3.
        rewrite A0, R0 in *. exists t. repeat (split; [assumption|]). split; exact eq_refl.
    - destruct Ee as [Ee|Ee]; [right|now left]. intros h k Hd' Hc. apply (Sl h Hd' k) in Hc. assert (Ts : ts = []) by (destruct TB as [(_ & -> & _)|(_ & _ & _ & ->)]; auto). rewrite Ts in Hc. now destruct Hc as [[]|[]].
  Qed.

  (** Nobody who is timed falls asleep if the time they may fall is infinite. *)
  Lemma never_sleep : s_time_thr s = PInf -> (forall h x, aget (s_ents s) h = Some x -> exists t, e_falling_time x = Fin t) ->
    (forall h, ~ In (DSleep h) (s_debug s')) /\ (forall h x, aget (s_ents s') h = Some x -> exists t, e_falling_time x = Fin t).
  Proof.
    intros Th Ft. destruct (step_entity _ _ _ _ Ho Hs long_enough) as (_ & SE & No & _). pose proof (step_frame _ _ _ _ Hs) as (Fr & _).
    assert (K : forall h e e1 e2 e', entity_steps s (Fin d) s' h e e1 e2 e' -> ~ In (DSleep h) (s_debug s') /\ exists t, e_falling_time e' = Fin t).
    { intros h e e1 e2 e' X. destruct (Ft h e (es_before _ _ _ _ _ _ _ _ X)) as (t & Et). destruct (es_forces _ _ _ _ _ _ _ _ X) as (fs & _ & E1). destruct (es_falling _ _ _ _ _ _ _ _ X) as (_ & E2).
      assert (Et2 : e_falling_time e2 = Fin t) by (rewrite E2, E1; exact Et). destruct (es_decided _ _ _ _ _ _ _ _ X) as (ns & (ns' & Rn) & Di).
      assert (Y : snd (sleep_decision (Fin d) (s_energy_thr s) (s_time_thr s) ns e2) = false /\ exists u, e_falling_time (fst (sleep_decision (Fin d) (s_energy_thr s) (s_time_thr s) ns e2)) = Fin u).
      { unfold sleep_decision. destruct (e_asleep e2); [split; [exact eq_refl|exists t; exact Et2]|]. destruct (n_lt _ _); [split; [exact eq_refl|exists 0; cbn [fst e_set_falling e_falling_time]; apply fin_0]|].
        rewrite Th, Et2. assert (Z : exists u, (if e_falling e2 then n_add (Fin t) (Fin d) else Fin t) = Fin u) by (destruct (e_falling e2); [exists (t + d); apply fin_add|exists t; exact eq_refl]).
        destruct Z as (u & ->). change (n_lt (Fin u) PInf) with true. split; [exact eq_refl|]. exists u. exact eq_refl. }
      destruct Y as (Y1 & u & Y2). split; [intros Q; apply Di in Q; congruence|]. exists u. rewrite Rn. exact Y2. }
    split.
    - intros h. destruct (aget (s_ents s) h) as [e|] eqn:He; [|now apply No]. destruct (SE h e He) as (e1 & e2 & e' & X). apply (K _ _ _ _ _ X).
    - intros h x Hx. destruct (arel_get_r _ _ _ _ _ Fr Hx) as (e & He & _). destruct (SE h e He) as (e1 & e2 & e' & X). pose proof (es_after _ _ _ _ _ _ _ _ X) as Z. assert (e' = x) by congruence. subst e'. apply (K _ _ _ _ _ X).
  Qed.
  Lemma step_gravity_only gs : gravity_only s gs -> gravity_only s' gs.
  Proof.
    intros G. destruct (step_phases _ _ _ _ Hs long_enough) as (s1 & infos & st & P1 & _ & _ & _ & P5 & _). cbv zeta in P1. pose proof (integrate_spec _ _ _ P1) as (Q1 & _). cbn [fst s_gens] in Q1.
    rewrite <- P5 in Q1. unfold gravity_only in *. destruct (Q1) as (_ & Eh & _). rewrite Eh. revert G. generalize (ahandles (s_gens s)). intros l G. induction G as [|gh a l gs Hg G IH]; constructor; [|exact IH].
    unfold get_generator in *. destruct (arel_get _ _ _ _ _ Q1 Hg) as (g' & Hg' & B). apply becomes_gravity in B. now subst g'.
  Qed.
  Lemma step_court : court s' b f c r p n g.
  Proof.
    destruct step_ball as (mb' & mf' & e & _ & _ & _ & _ & _ & _ & _ & Sl). pose proof (step_frame_pub _ _ _ _ Hs) as (F1 & F2 & F3 & F4 & F5 & F6 & F7). cbn [alive] in F3.
    assert (Oc : forall h k, only_collider s h k -> only_collider s' h k).
    { intros h k (x & y & A & B & C). destruct (get_entity s' h) as [x'|] eqn:E; [|exfalso; assert (Z : get_entity s h <> None) by congruence; apply F3 in Z; congruence].
      exists x', y. split; [exact E|]. destruct (F4 _ _ _ A E) as (-> & _). split; [exact B|]. now rewrite F1. }
    constructor.
    - intros h. rewrite F3. apply Co.
    - apply Co.
    - destruct (ct_colliders _ _ _ _ _ _ _ _ Co) as (sp & pl & Ob & Of & P1 & P2 & P3 & P4 & (e1 & e2 & s1 & s2 & d1 & d2 & E1 & E2 & E3 & E4 & E5 & E6 & E7 & E8 & E9 & Ee)).
      exists sp, pl. split; [now apply Oc|]. split; [now apply Oc|]. repeat (split; [assumption|]). exists e1, e2, s1, s2, d1, d2. repeat (split; [assumption|]).
      destruct Ee as [Ee|(Th & Ft)]; [now left|right]. split; [now rewrite F7|]. apply (never_sleep Th Ft).
    - apply Co.
    - apply Co.
    - destruct (ct_gravity _ _ _ _ _ _ _ _ Co) as (gs & G & Eg). exists gs. split; [now apply step_gravity_only|exact Eg].
    - rewrite F5. apply Co.
    - assert (Ns : forall h k, In (DSleep h) (s_debug s') -> ~ contact (s_ents s') h k).
      { destruct Sl as [(Th & Ft)|Sl]; [|exact Sl]. intros h k Q. destruct (proj1 (never_sleep Th Ft) h Q). }
      intros h k Hc. destruct (step_mutual _ _ _ _ Ho Hs long_enough) as (_ & M2 & _).
      destruct (in_dec dmsg_dec (DSleep h) (s_debug s')) as [Q|Q]; [exact (Ns h k Q Hc)|].
      destruct (M2 h k Q Hc) as [(_ & Z)|(Z1 & Z2)]; [exact (ct_alone _ _ _ _ _ _ _ _ Co _ _ Z)|exact (Ns k h Z1 Z2)].
  Qed.
End Step.

(** ** The invariant *)
Section Invariant.
  Variables (gm D B : R).
  Hypothesis HB : 1 / 1000000 <= B.
  Hypothesis HD : 1 / 1000000 * D <= B.
  Definition safe (h v : R) : Prop :=
    0 <= h \/ (- B <= h /\ v <= 1 / 1000000) \/ (1 / 1000000 < v /\ - B * gm <= h * gm - 1 / 1000000 * (v + 1 / 1000000)).
  Lemma safe_low h v : 0 < gm -> safe h v -> - B <= h.
  Proof. intros G [H|[H|(H1 & H2)]]; nra. Qed.
  Lemma safe_step e h v d h' v' : 1 / 1000000 <= d <= D -> 2 / 1000000 <= gm * d -> 0 <= e -> safe h v ->
    (h' = h /\ v' = 0) \/ flies h (v - gm * d) d h' v' \/ bounces e h (v - gm * d) d h' v' -> safe h' v'.
  Proof.
    intros Hd G He S O. assert (Gp : 0 < gm) by nra. pose proof (safe_low _ _ Gp S) as Lo. destruct O as [(-> & ->)|[(E1 & -> & F1 & F2)|(t & Ht & Dn & Lw & To & E1 & E2)]].
    - destruct S as [S|S]; [now left|]. right. left. lra.
    - set (v1 := v - gm * d) in *. destruct (Rle_dec 0 h') as [|N]; [now left|]. right.
      destruct (Rlt_dec 0 h) as [P|P].
      + left. specialize (F2 P ltac:(lra)). split; [|nra]. destruct F2; nra.
      + specialize (F1 ltac:(lra)). destruct S as [S|[(S1 & S2)|(S1 & S2)]].
        * assert (h = 0) by lra. subst h. left. assert (v1 < 0) by nra. split; nra.
        * exfalso. unfold v1 in F1. lra.
        * destruct (Rlt_dec (1 / 1000000) v1) as [V|V]; [right|left].
          -- split; [exact V|]. assert (v1 <= v) by (unfold v1; lra). assert (0 <= v1 * d) by nra. assert (h' * gm = h * gm + v1 * d * gm) by (rewrite E1; ring). nra.
          -- split; [|lra]. destruct (Rle_dec 0 v1); [nra|]. assert (Ev : v = v1 + gm * d) by (unfold v1; ring). rewrite Ev in S2.
             assert (Q : (- B + 1 / 1000000 * d) * gm <= h * gm) by nra. assert (Q' : - B + 1 / 1000000 * d <= h) by nra. nra.
    - set (v1 := v - gm * d) in *. assert (Vp : 0 <= v') by (rewrite E1; nra). destruct (Req_EM_T t 0) as [->|T0].
      + rewrite Rmult_0_r, Rplus_0_r in *. rewrite Rminus_0_r in E2. destruct (Rlt_dec (1 / 1000000) v') as [V|V].
        * right. right. split; [exact V|]. assert (h' * gm = h * gm + v' * (gm * d)) by (rewrite E2; ring). assert (v' * (2 / 1000000) <= v' * (gm * d)) by (apply Rmult_le_compat_l; lra). nra.
        * right. left. split; nra.
      + left. rewrite (To T0) in E2. rewrite E2. assert (0 <= v' * (d - t)) by (apply Rmult_le_pos; lra). lra.
  Qed.
End Invariant.

(** ** Many steps *)
Lemma court_careful s b f c r p n g ord d : court s b f c r p n g -> reachable s -> good_order ord -> exists s', step ord s (Fin d) = Ok s' /\ reachable s'.
Proof.
  intros Co Re Ho. assert (Ck : call_ok (ord, OStep (Fin d))) by (split; [exact Ho|exact Logic.I]).
  destruct (careful_returns ord s (OStep (Fin d)) Ck Re) as (s' & a & E & _).
  - intros h k C. exfalso. exact (ct_alone _ _ _ _ _ _ _ _ Co _ _ C).
  - intros gh gn Hg. destruct (ct_gravity _ _ _ _ _ _ _ _ Co) as (gs & G & _).
    assert (I : In gh (ahandles (s_gens s))) by (apply ahandles_in; unfold get_generator in Hg; congruence).
    assert (X : exists a, get_generator s gh = Some (GenGravity (vfin a))).
    { clear - G I. unfold gravity_only in G. induction G as [|x a l gs Hx G IH]; [destruct I|]. destruct I as [->|I]; [now exists a|now apply IH]. }
    destruct X as (v & Hv). rewrite Hv in Hg. apply some_inj in Hg. subst gn. apply gravity_answers.
  - intros m1 m2 (h1 & h2 & k1 & k2 & _ & (e1 & G1 & I1) & _ & K1 & _).
    destruct (ct_colliders _ _ _ _ _ _ _ _ Co) as (sp & pl & (eb & cb & B1 & B2 & B3) & (ef & cf & F1 & F2 & F3) & _).
    assert (D1 : h1 = b \/ h1 = f) by (apply (ct_two _ _ _ _ _ _ _ _ Co); congruence). destruct D1 as [-> | ->].
    + rewrite B1 in G1. apply some_inj in G1. subst e1. rewrite B2 in I1. destruct I1 as [<-|[]]. congruence.
    + rewrite F1 in G1. apply some_inj in G1. subst e1. rewrite F2 in I1. destruct I1 as [<-|[]]. congruence.
  - exists s'. assert (E' := E). unfold exec in E. inv_ok E. injection E as -> _. split; [exact E0|]. eapply follows_trans; [exact Re|]. eapply follows_exec; [exact Ck|exact E'].
Qed.
Lemma court_steps b f c r p n g D l : forall s h v, reachable s -> court s b f c r p n g -> ball_over s b f c r p n h v ->
  safe (- vdot g n) (1 / 1000000 * Rmax 1 D) h v ->
  Forall (fun x => good_order (fst x) /\ 1 / 1000000 <= snd x <= D /\ 2 / 1000000 <= - vdot g n * snd x) l ->
  exists s' ans h' v', run (steps l) s = Ok (s', ans) /\ court s' b f c r p n g /\ ball_over s' b f c r p n h' v' /\
    ((0 < - vdot g n \/ l <> []) -> - (1 / 1000000 * Rmax 1 D) <= h') /\ safe (- vdot g n) (1 / 1000000 * Rmax 1 D) h' v'.
Proof.
  pose proof (Rmax_l 1 D) as M1. pose proof (Rmax_r 1 D) as M2. set (B := 1 / 1000000 * Rmax 1 D). assert (HB : 1 / 1000000 <= B) by (unfold B; lra). assert (HD : 1 / 1000000 * D <= B) by (unfold B; nra).
  induction l as [|(ord & d) l IH]; intros s h v Re Co Bo Sa Fa.
  - exists s, [], h, v. split; [exact eq_refl|]. split; [exact Co|]. split; [exact Bo|]. split; [|exact Sa]. intros [G|G]; [exact (safe_low _ B HB _ _ G Sa)|contradiction].
  - apply Forall_cons_iff in Fa. destruct Fa as ((Ho & Hd & Hg) & Fa). cbn [fst snd] in *.
    destruct (court_careful _ _ _ _ _ _ _ _ ord d Co Re Ho) as (s1 & E & R1). destruct Bo as (mb & mf & Sb & Sf & Bb & Bf & Eh & Ev).
    destruct (step_ball _ _ _ _ _ _ _ _ _ _ _ _ _ Co Sb Sf Bb Bf Ho (proj1 Hd) E) as (mb' & mf' & e & Sb' & Sf' & Bb' & Bf' & _ & He & Out & _).
    pose proof (step_court _ _ _ _ _ _ _ _ _ _ _ _ _ Co Sb Sf Bb Bf Ho (proj1 Hd) E) as Co1.
    assert (Gp : 0 < - vdot g n) by nra.
    fold (height r p n mb mf) in Eh. rewrite <- Eh, <- Ev in Out. unfold ball_moves in Out. replace (v + vdot g n * d) with (v - - vdot g n * d) in Out by ring.
    assert (Out' : (height r p n mb' mf' = h /\ vdot (mv_vel mb') n = 0) \/ flies h (v - - vdot g n * d) d (height r p n mb' mf') (vdot (mv_vel mb') n) \/
      bounces e h (v - - vdot g n * d) d (height r p n mb' mf') (vdot (mv_vel mb') n)) by (destruct Out as [(_ & _ & O)|[(_ & O)|(_ & O)]]; auto). clear Out. rename Out' into Out.
    pose proof (safe_step _ D B HB HD e h v d _ _ Hd Hg He Sa Out) as Sa1.
    destruct (IH s1 (height r p n mb' mf') (vdot (mv_vel mb') n) R1 Co1) as (s' & ans & h' & v' & Ru & Co' & Bo' & Lo & Sa'); [exists mb', mf'; auto 10|exact Sa1|exact Fa|].
    exists s', (AUnit :: ans), h', v'. split; [|split; [exact Co'|split; [exact Bo'|split; [|exact Sa']]]].
    + cbn [steps map run fst snd]. cbn [exec]. rewrite E. cbn [rbind]. fold (steps l). rewrite Ru. exact eq_refl.
    + intros _. apply Lo. now left.
Qed.
Lemma floor_holds s b f c r p n g D h v l : reachable s -> court s b f c r p n g -> ball_over s b f c r p n h v -> 0 <= h ->
  Forall (fun x => good_order (fst x) /\ 1 / 1000000 <= snd x <= D /\ 2 / 1000000 <= - vdot g n * snd x) l ->
  exists s' ans h' v', run (steps l) s = Ok (s', ans) /\ court s' b f c r p n g /\ ball_over s' b f c r p n h' v' /\ - (1 / 1000000 * Rmax 1 D) <= h'.
Proof.
  intros Re Co Bo Hh Fa. destruct l as [|x l].
  - exists s, [], h, v. pose proof (Rmax_l 1 D). split; [exact eq_refl|]. split; [exact Co|]. split; [exact Bo|]. lra.
  - destruct (court_steps b f c r p n g D (x :: l) s h v Re Co Bo (or_introl Hh) Fa) as (s' & ans & h' & v' & A & B & C & E & _). exists s', ans, h', v'. repeat (split; [assumption|]). apply E. right. discriminate.
Qed.
Lemma ball_step s b f c r p n g h v ord d s' : court s b f c r p n g -> ball_over s b f c r p n h v -> good_order ord -> 1 / 1000000 <= d ->
  step ord s (Fin d) = Ok s' -> exists e h' v', restitution s b f e /\ court s' b f c r p n g /\ ball_over s' b f c r p n h' v' /\
    ball_moves s s' b e (vdot g n) h v d h' v'.
Proof.
  intros Co (mb & mf & Sb & Sf & Bb & Bf & Eh & Ev) Ho Hd Hs. 
  destruct (step_ball _ _ _ _ _ _ _ _ _ _ _ _ _ Co Sb Sf Bb Bf Ho Hd Hs) as (mb' & mf' & e & Sb' & Sf' & Bb' & Bf' & Re & He & Out & _).
  exists e, (height r p n mb' mf'), (vdot (mv_vel mb') n). split; [exact Re|]. split; [exact (step_court _ _ _ _ _ _ _ _ _ _ _ _ _ Co Sb Sf Bb Bf Ho Hd Hs)|].
  split; [exists mb', mf'; auto 10|]. rewrite Eh, Ev. exact Out.
Qed.

(** ** Energy *)
Lemma restitution_unique s b f e e' : restitution s b f e -> restitution s b f e' -> e = e'.
Proof.
  assert (U : forall h k k', only_collider s h k -> only_collider s h k' -> k = k').
  { intros h k k' (x & y & A & B & C) (x' & y' & A' & B' & C'). rewrite A in A'. apply some_inj in A'. subst x'. rewrite B in B'. injection B' as <-. rewrite C in C'. now apply some_inj in C'. }
  intros (k1 & k2 & A & B & C) (k1' & k2' & A' & B' & C'). rewrite <- (U _ _ _ A A'), <- (U _ _ _ B B') in C'. rewrite C in C'. congruence.
Qed.
Lemma fly_energy a h v d h' v' : a <= 0 -> 0 <= d -> flies h (v + a * d) d h' v' ->
  v' * v' / 2 - a * h' <= v * v / 2 - a * h /\ v' * v' / 2 - a * h' <= v * v / 2 - a * h - 2 * a * d * Rabs (v + a * d).
Proof.
  intros G Hd (-> & -> & _). assert (X : (v + a * d) * (v + a * d) / 2 - a * (h + (v + a * d) * d) <= v * v / 2 - a * h) by nra. split; [exact X|].
  apply Rle_trans with (1 := X). assert (Q : 0 <= - a * d * Rabs (v + a * d)) by (apply Rmult_le_pos; [apply Rmult_le_pos; lra|apply Rabs_pos]). lra.
Qed.
Lemma bounce_energy e a h v d h' v' : 0 <= e <= 1 -> a <= 0 -> 0 <= d -> bounces e h (v + a * d) d h' v' ->
  v' * v' / 2 - a * h' <= v * v / 2 - a * h - 2 * a * d * Rabs (v + a * d).
Proof.
  intros He G Hd (t & Ht & Dn & Lw & To & F1 & F2). rewrite Rabs_left by lra. remember (- (v + a * d)) as u. assert (Hu : 0 < u) by lra.
  assert (Vu : v' = e * u) by (rewrite F1, Hequ; ring). assert (V0 : 0 <= v') by (rewrite Vu; apply Rmult_le_pos; lra).
  assert (V1 : v' <= u) by (rewrite Vu; pose proof (Rmult_le_compat_r u e 1 ltac:(lra) ltac:(lra)); lra).
  assert (S1 : v' * v' <= u * u) by nra. assert (S2 : - a * (v' * (d - t)) <= - a * (u * d)).
  { apply Rmult_le_compat_l; [lra|]. apply Rle_trans with (u * (d - t)); [apply Rmult_le_compat_r; lra|apply Rmult_le_compat_l; lra]. }
  assert (S3 : 0 <= - a * (u * t)) by (apply Rmult_le_pos; [lra|apply Rmult_le_pos; lra]).
  assert (Ev : v = - u - a * d) by lra. assert (F2' : h' = h - u * t + v' * (d - t)) by (rewrite F2, Hequ; ring).
  rewrite F2', Ev. nra.
Qed.
Lemma ball_energy s b f c r p n g h v e ord d s' : court s b f c r p n g -> ball_over s b f c r p n h v -> restitution s b f e -> e <= 1 -> vdot g n <= 0 ->
  good_order ord -> 1 / 1000000 <= d -> step ord s (Fin d) = Ok s' ->
  let energy := fun x y => y * y / 2 - vdot g n * x in
  exists h' v', court s' b f c r p n g /\ ball_over s' b f c r p n h' v' /\
    (s_records s' = [] -> energy h' v' <= energy h v) /\
    energy h' v' <= energy h v - 2 * vdot g n * d * Rabs (v + vdot g n * d).
Proof.
  intros Co Bo Re E1 G Ho Hd Hs. cbv zeta. destruct (ball_step _ _ _ _ _ _ _ _ _ _ _ _ _ Co Bo Ho Hd Hs) as (e' & h' & v' & Re' & Co' & Bo' & Mv).
  pose proof (restitution_unique _ _ _ _ _ Re Re'). subst e'. exists h', v'. split; [exact Co'|]. split; [exact Bo'|].
  assert (E0 : 0 <= e).
  { destruct (ct_colliders _ _ _ _ _ _ _ _ Co) as (sp & pl & Ob & Of & _ & _ & _ & _ & (e1 & e2 & ? & ? & ? & ? & X1 & X2 & _ & _ & _ & _ & _ & _ & X3 & _)).
    assert (e = e1 * e2); [|lra]. apply (restitution_unique _ _ _ _ _ Re). exists (CSphere sp), (CPlane pl). split; [exact Ob|]. split; [exact Of|]. cbn [c_mat]. rewrite X1, X2. apply fin_mul. }
  destruct Mv as [(_ & _ & -> & ->)|[(Rn & F)|(Rn & F)]].
  - assert (X : 0 * 0 / 2 - vdot g n * h <= v * v / 2 - vdot g n * h) by nra. split; [intros _; exact X|]. apply Rle_trans with (1 := X).
    assert (Q : 0 <= - vdot g n * d * Rabs (v + vdot g n * d)) by (apply Rmult_le_pos; [apply Rmult_le_pos; lra|apply Rabs_pos]). nra.
  - apply (fly_energy _ _ _ d _ _ G ltac:(lra)) in F. destruct F as (F1 & F2). split; [intros _; exact F1|exact F2].
  - split; [intros Z; rewrite Z in Rn; discriminate Rn|]. exact (bounce_energy e _ _ _ d _ _ (conj E0 E1) G ltac:(lra) F).
Qed.
