(** * Orient2P: rotation vectors, in exact arithmetic *)
From Coq Require Import ZArith Reals List Bool Arith Lra Lia Psatz.
From Verif Require Import Num Vec Res RangeM Orient Colliders Collide OrderP Spec RangeP RealSpec RealV OrientP.
Local Open Scope R_scope.

Lemma fin_machine : MACHINE_EPSILON = Fin tiny.
Proof. unfold MACHINE_EPSILON, tiny. cbn. f_equal. lra. Qed.
Lemma r_machine : MACHINE_EPSILON = tiny.
Proof. unfold MACHINE_EPSILON, tiny. cbn. lra. Qed.
Lemma tiny_pos : 0 < tiny.
Proof. unfold tiny. apply Rinv_0_lt_compat. apply IZR_lt. reflexivity. Qed.
Lemma r_half (v : V) : vdivs v n2 = vscale v (/ 2).
Proof. unfold vdivs. cbn. unfold n2. cbn. apply vext; vunfold; field. Qed.

(** The exponential over R. *)
Definition rexp (v : V) : Q :=
  let h := vscale v (/ 2) in let n := vlen h in
  if Rle_dec (vdot h h) (tiny * tiny) then mkQ 0 0 0 1
  else mkQ (vx h * (sin n / n)) (vy h * (sin n / n)) (vz h * (sin n / n)) (cos n).
Lemma half_pos (h : V) : ~ vdot h h <= tiny * tiny -> 0 < vlen h /\ vlen h * vlen h = vdot h h.
Proof.
  intros H. pose proof tiny_pos. assert (0 < vdot h h) by nra. split; [apply sqrt_lt_R0; auto|]. apply sqrt_sqrt. lra.
Qed.
Lemma exp_fin v : qfrom_scaled_axis (vfin v) = qfin (rexp v).
Proof.
  unfold qfrom_scaled_axis, rexp. cbv zeta. rewrite fin_2, vdivs_fin by lra. set (h := vscale v (/ 2)).
  rewrite fin_machine, fin_mul. unfold vnorm2. rewrite vfin_dot. change (@n_le ER EReal) with er_le.
  destruct (Rle_dec (vdot h h) (tiny * tiny)) as [L|L].
  - rewrite (proj2 (er_le_fin _ _)) by auto. unfold qident. rewrite fin_0, fin_1. reflexivity.
  - assert (E : er_le (Fin (vdot h h)) (Fin (tiny * tiny)) = false). { destruct (er_le _ _) eqn:E; auto. apply er_le_fin in E. contradiction. }
    rewrite E. destruct (half_pos h L) as [P _]. rewrite fin_sqrt by apply vdot_pos. fold (vlen h).
    change (n_sin (Fin (vlen h))) with (Fin (sin (vlen h))). change (n_cos (Fin (vlen h))) with (Fin (cos (vlen h))).
    rewrite fin_div by lra. rewrite vfin_scale. reflexivity.
Qed.
Lemma vlen_scale v k : 0 <= k -> vlen (vscale v k) = k * vlen v.
Proof.
  intros Hk. unfold vlen. replace (vdot (vscale v k) (vscale v k)) with (k * k * vdot v v) by (vunfold; ring).
  rewrite sqrt_mult; [|nra|apply vdot_pos]. rewrite sqrt_square; auto.
Qed.
Lemma rexp_unit v : unit_quat (rexp v).
Proof.
  unfold rexp, unit_quat. cbv zeta. set (h := vscale v (/ 2)). destruct (Rle_dec _ _) as [L|L]; cbn [qi qj qk qw]; [lra|].
  destruct (half_pos h L) as [P S]. set (n := vlen h) in *. pose proof (sin2_cos2 n) as SC. unfold Rsqr in SC.
  assert (E : vx h * (sin n / n) * (vx h * (sin n / n)) + vy h * (sin n / n) * (vy h * (sin n / n)) + vz h * (sin n / n) * (vz h * (sin n / n)) =
    (vdot h h) / (n * n) * (sin n * sin n)) by (vunfold; field; lra).
  rewrite E, <- S. replace (n * n / (n * n)) with 1 by (field; lra). lra.
Qed.

(** What the rotation does. *)
Lemma rexp_turns v : 2 * tiny < vlen v -> turns_by (qrot (rexp v)) v.
Proof.
  intros L x. unfold rexp. cbv zeta. set (h := vscale v (/ 2)).
  assert (Lh : vlen h = / 2 * vlen v) by (apply vlen_scale; lra). pose proof tiny_pos.
  destruct (Rle_dec _ (tiny * tiny)) as [L'|L'].
  { exfalso. assert (vlen h * vlen h = vdot h h) by (apply sqrt_sqrt; apply vdot_pos). nra. }
  destruct (half_pos h L') as [P S]. set (n := vlen h) in *. set (a := vlen v) in *.
  assert (Ea : a = 2 * n) by lra. rewrite Ea, sin_2a, cos_2a_sin.
  set (u := vscale v (/ (2 * n))). assert (U1 : vdot u u = 1).
  { unfold u. replace (vdot (vscale v (/ (2 * n))) (vscale v (/ (2 * n)))) with (vdot v v / (2 * n * (2 * n))) by (vunfold; field; lra).
    assert (Sv : a * a = vdot v v) by (apply sqrt_sqrt; apply vdot_pos). rewrite <- Sv, Ea. field. lra. }
  assert (Ex : forall k, k * (sin n / n) = k / n * sin n) by (intros; field; lra).
  assert (Hu : mkQ (vx h * (sin n / n)) (vy h * (sin n / n)) (vz h * (sin n / n)) (cos n) = mkQ (vx u * sin n) (vy u * sin n) (vz u * sin n) (cos n)).
  { unfold u, h. vunfold. f_equal; field; lra. }
  rewrite Hu. set (s := sin n). set (c := cos n). clearbody s c. clear - U1.
  replace (1 - 2 * s * s) with (1 - 2 * s * s * vdot u u) by (rewrite U1; ring).
  replace (1 - (1 - 2 * s * s * vdot u u)) with (2 * s * s) by (rewrite U1; ring).
  destruct u as [ux uy uz], x as [x y z]. apply vext; qunfold; field.
Qed.

(** The logarithm over R. *)
Definition rlog (q : Q) : V :=
  let v := if Rle_dec 0 (qw q) then qvec q else vneg (qvec q) in
  if Rlt_dec 0 (vdot v v) then vscale v (/ vlen v * (2 * Ratan2 (vlen v) (Rabs (qw q)))) else mkV 0 0 0.
Lemma log_fin q : qscaled_axis (qfin q) = vfin (rlog q).
Proof.
  unfold qscaled_axis, rlog. cbv zeta.
  assert (E0 : (if n_le n0 (qw (qfin q)) then qvec (qfin q) else vneg (qvec (qfin q))) = vfin (if Rle_dec 0 (qw q) then qvec q else vneg (qvec q))).
  { cbn [qw qfin]. rewrite fin_0. change (@n_le ER EReal) with er_le. destruct (Rle_dec 0 (qw q)).
    - rewrite (proj2 (er_le_fin _ _)) by auto. reflexivity.
    - destruct (er_le _ _) eqn:E; [apply er_le_fin in E; contradiction|reflexivity]. }
  rewrite E0. set (v := if Rle_dec 0 (qw q) then _ else _). unfold vnorm2. rewrite vfin_dot, fin_0, fin_mul.
  assert (Ev : vlen v = vlen (qvec q)) by (unfold v, vlen; destruct (Rle_dec 0 (qw q)); auto; f_equal; vunfold; ring).
  change (@n_lt ER EReal) with er_lt. replace (0 * 0) with 0 by ring. destruct (Rlt_dec 0 (vdot v v)) as [L|L].
  - rewrite (proj2 (er_lt_fin _ _)) by auto. rewrite fin_sqrt by lra. fold (vlen v).
    assert (P : 0 < vlen v) by (apply sqrt_lt_R0; auto). rewrite vdivs_fin by lra.
    change (qvec (qfin q)) with (vfin (qvec q)). rewrite vmag_fin. fold (vlen (qvec q)). rewrite <- Ev.
    change (qw (qfin q)) with (Fin (qw q)). rewrite fin_abs.
    change (n_atan2 (Fin (vlen v)) (Fin (Rabs (qw q)))) with (Fin (Ratan2 (vlen v) (Rabs (qw q)))). rewrite fin_2, fin_mul, vfin_scale.
    f_equal. apply vext; vunfold; ring.
  - rewrite (proj2 (er_lt_fin_f _ _)) by lra. unfold vzero. rewrite fin_0. reflexivity.
Qed.

Lemma atan2_quarter a w : 0 < a -> 0 <= w -> a * a + w * w = 1 ->
  let f := Ratan2 a w in 0 < f <= PI / 2 /\ sin f = a /\ cos f = w.
Proof.
  intros Ha Hw E f. unfold f, Ratan2. destruct (Rlt_dec 0 w) as [P|P].
  - assert (Q : 0 < a / w) by (apply Rdiv_lt_0_compat; auto). pose proof (atan_bound (a / w)). pose proof (atan_increasing 0 (a / w) Q) as I. rewrite atan_0 in I.
    split; [lra|].
    assert (S : sqrt (1 + Rsqr (a / w)) = / w). { replace (1 + Rsqr (a / w)) with (Rsqr (/ w)). - apply sqrt_Rsqr. left. now apply Rinv_0_lt_compat. - unfold Rsqr. replace (1 + a / w * (a / w)) with ((a * a + w * w) / (w * w)) by (field; lra). rewrite E. field. lra. }
    rewrite sin_atan, cos_atan, S. split; field; lra.
  - assert (w = 0) by lra. subst w. assert (a = 1) by nra. subst a. destruct (Rlt_dec 0 0); [lra|]. destruct (Rlt_dec 0 1); [|lra].
    rewrite sin_PI2, cos_PI2. pose proof PI_RGT_0. repeat split; lra.
Qed.
Lemma atan2_angle f : 0 < f <= PI / 2 -> Ratan2 (sin f) (cos f) = f.
Proof.
  intros Hf. assert (S : 0 < sin f) by (apply sin_gt_0; lra). assert (C : 0 <= cos f) by (apply cos_ge_0; lra).
  unfold Ratan2. destruct (Rlt_dec 0 (cos f)) as [P|P].
  - fold (tan f). apply atan_tan. destruct (Req_dec f (PI / 2)) as [->|]; [rewrite cos_PI2 in P|]; lra.
  - destruct (Rlt_dec (cos f) 0); [lra|]. destruct (Rlt_dec 0 (sin f)); [|lra].
    destruct (Req_dec f (PI / 2)) as [|D]; [auto|]. exfalso. apply P. apply cos_gt_0; lra.
Qed.

(** Going to a rotation vector and back. *)
Lemma exp_log q : unit_quat q -> 2 * tiny < vlen (rlog q) -> same_rotation (rexp (rlog q)) q.
Proof.
  intros Hq. unfold rlog. cbv zeta. set (v := if Rle_dec 0 (qw q) then _ else _). pose proof tiny_pos as TP.
  destruct (Rlt_dec 0 (vdot v v)) as [L|L].
  2: { unfold vlen. replace (vdot (mkV 0 0 0) (mkV 0 0 0)) with 0 by (vunfold; ring). rewrite sqrt_0. lra. }
  assert (P : 0 < vlen v) by (apply sqrt_lt_R0; auto). assert (S : vlen v * vlen v = vdot v v) by (apply sqrt_sqrt; lra).
  assert (U : vlen v * vlen v + Rabs (qw q) * Rabs (qw q) = 1).
  { rewrite S, <- Rabs_mult, Rabs_pos_eq by nra. unfold unit_quat in Hq. unfold v. destruct (Rle_dec 0 (qw q)); unfold qvec; vunfold; lra. }
  destruct (atan2_quarter (vlen v) (Rabs (qw q)) P (Rabs_pos _) U) as (F & Sf & Cf). set (f := Ratan2 (vlen v) (Rabs (qw q))) in *.
  rewrite vlen_scale by (apply Rmult_le_pos; [left; now apply Rinv_0_lt_compat|lra]).
  replace (/ vlen v * (2 * f) * vlen v) with (2 * f) by (field; lra). intros T.
  unfold rexp. cbv zeta. set (h := vscale (vscale v _) _).
  assert (Lh : vlen h = f). { unfold h. rewrite !vlen_scale by (first [lra | apply Rmult_le_pos; [left; now apply Rinv_0_lt_compat|lra]]). field. lra. }
  destruct (Rle_dec _ (tiny * tiny)) as [L'|L'].
  { exfalso. assert (X : vlen h * vlen h = vdot h h) by (apply sqrt_sqrt; apply vdot_pos). rewrite Lh in X. assert (tiny * tiny < f * f) by nra. lra. }
  rewrite Lh, Sf, Cf. unfold same_rotation.
  assert (X : forall c, c * (/ vlen v * (2 * f)) * / 2 * (vlen v / f) = c) by (intros; field; lra).
  assert (Eh : mkQ (vx h * (vlen v / f)) (vy h * (vlen v / f)) (vz h * (vlen v / f)) (Rabs (qw q)) = mkQ (vx v) (vy v) (vz v) (Rabs (qw q)))
    by (unfold h; cbn [vscale vx vy vz n_mul RNum]; now rewrite !X).
  rewrite Eh. unfold v. destruct q as [i j k w]. cbn [qi qj qk qw] in *. destruct (Rle_dec 0 w) as [W|W].
  - left. now rewrite Rabs_pos_eq by auto.
  - right. now rewrite Rabs_left by lra.
Qed.
Lemma log_exp v : 2 * tiny < vlen v -> vlen v <= PI -> rlog (rexp v) = v.
Proof.
  intros L1 L2. unfold rexp. cbv zeta. set (h := vscale v (/ 2)). pose proof tiny_pos as TP.
  assert (Lh : vlen h = / 2 * vlen v) by (apply vlen_scale; lra).
  destruct (Rle_dec _ (tiny * tiny)) as [L'|L'].
  { exfalso. assert (vlen h * vlen h = vdot h h) by (apply sqrt_sqrt; apply vdot_pos). nra. }
  set (n := vlen h) in *. assert (Hn : 0 < n <= PI / 2) by lra.
  assert (S : 0 < sin n) by (apply sin_gt_0; lra). assert (C : 0 <= cos n) by (apply cos_ge_0; lra).
  unfold rlog. cbv zeta. cbn [qw]. destruct (Rle_dec 0 (cos n)); [|contradiction]. unfold qvec. cbn [qi qj qk].
  set (w := mkV _ _ _). assert (Ew : w = vscale h (sin n / n)) by (unfold w; apply vext; vunfold; ring).
  assert (Lw : vlen w = sin n). { rewrite Ew, vlen_scale by (left; apply Rdiv_lt_0_compat; lra). fold n. field. lra. }
  destruct (Rlt_dec 0 (vdot w w)) as [D|D].
  - rewrite Lw, Rabs_pos_eq, atan2_angle by auto. rewrite Ew. unfold h. apply vext; vunfold; field; lra.
  - exfalso. assert (vlen w * vlen w = vdot w w) by (apply sqrt_sqrt; apply vdot_pos). rewrite Lw in *. nra.
Qed.
Lemma log_length q : unit_quat q -> vlen (rlog q) <= PI.
Proof.
  intros Hq. unfold rlog. cbv zeta. set (v := if Rle_dec 0 (qw q) then _ else _). pose proof PI_RGT_0 as PP.
  destruct (Rlt_dec 0 (vdot v v)) as [L|L].
  2: { unfold vlen. replace (vdot (mkV 0 0 0) (mkV 0 0 0)) with 0 by (vunfold; ring). rewrite sqrt_0. lra. }
  assert (P : 0 < vlen v) by (apply sqrt_lt_R0; auto). assert (S : vlen v * vlen v = vdot v v) by (apply sqrt_sqrt; lra).
  assert (U : vlen v * vlen v + Rabs (qw q) * Rabs (qw q) = 1).
  { rewrite S, <- Rabs_mult, Rabs_pos_eq by nra. unfold unit_quat in Hq. unfold v. destruct (Rle_dec 0 (qw q)); unfold qvec; vunfold; lra. }
  destruct (atan2_quarter (vlen v) (Rabs (qw q)) P (Rabs_pos _) U) as (F & Sf & Cf).
  rewrite vlen_scale by (apply Rmult_le_pos; [left; now apply Rinv_0_lt_compat|lra]).
  replace (/ vlen v * (2 * Ratan2 (vlen v) (Rabs (qw q))) * vlen v) with (2 * Ratan2 (vlen v) (Rabs (qw q))) by (field; lra). lra.
Qed.

(** ** Orientations *)
Lemma orient_new_fin p r off : orient_new (vfin p) (vfin r) (vfin off) = ofin (mkO p (rexp r) off).
Proof. unfold orient_new, ofin. cbn [o_pos o_rot o_off]. now rewrite exp_fin. Qed.
Definition rlerp (t : R) (s e : orientation R) : orientation R :=
  mkO (along (o_pos s) (o_pos e) t) (rexp (along (rlog (o_rot s)) (rlog (o_rot e)) t)) (o_off s).
Lemma lerp_fin t s e : orient_lerp (Fin t) (ofin s) (ofin e) = ofin (rlerp t s e).
Proof.
  unfold orient_lerp, rlerp, rotation_vec, ofin. cbn [o_pos o_rot o_off]. rewrite fin_1, fin_sub, !log_fin, !vfin_scale, !vfin_add, exp_fin.
  f_equal; f_equal; [|f_equal]; unfold along; apply vext; vunfold; ring.
Qed.
Lemma affected_fin o l a : after_affected (ofin o) (vfin l) (vfin a) = ofin (mkO (vadd (o_pos o) l) (qmul (rexp a) (o_rot o)) (o_off o)).
Proof. unfold after_affected. cbn [ofin o_pos o_rot o_off]. now rewrite exp_fin. Qed.

Lemma same_rotation_rot p q x : same_rotation p q -> qrot p x = qrot q x.
Proof. intros [->| ->]; auto. destruct q, x. apply vext; qunfold; ring. Qed.
Lemma rlog_ident : rlog (mkQ 0 0 0 1) = mkV 0 0 0.
Proof.
  unfold rlog. cbv zeta. cbn [qw]. destruct (Rle_dec 0 1); [|lra]. unfold qvec. cbn [qi qj qk].
  destruct (Rlt_dec 0 _) as [L|L]; auto. exfalso. revert L. vunfold. lra.
Qed.
Lemma rexp_zero : rexp (mkV 0 0 0) = mkQ 0 0 0 1.
Proof.
  unfold rexp. cbv zeta. destruct (Rle_dec _ _) as [L|L]; auto. exfalso. apply L. pose proof tiny_pos. vunfold. nra.
Qed.
(** Something that is not turned during the step is seen as it is at every moment of it. *)
Lemma log_turned q : unit_quat q -> tiny < vlen (qvec q) -> 2 * tiny < vlen (rlog q).
Proof.
  intros Hq H. unfold rlog. cbv zeta. set (v := if Rle_dec 0 (qw q) then _ else _). pose proof tiny_pos as TP.
  assert (Ev : vlen v = vlen (qvec q)) by (unfold v, vlen; destruct (Rle_dec 0 (qw q)); auto; f_equal; vunfold; ring).
  assert (P : 0 < vlen v) by lra. assert (S : vlen v * vlen v = vdot v v) by (apply sqrt_sqrt; apply vdot_pos).
  destruct (Rlt_dec 0 (vdot v v)) as [L|L]; [|exfalso; nra].
  assert (U : vlen v * vlen v + Rabs (qw q) * Rabs (qw q) = 1).
  { rewrite S, <- Rabs_mult, Rabs_pos_eq by nra. unfold unit_quat in Hq. unfold v. destruct (Rle_dec 0 (qw q)); unfold qvec; vunfold; lra. }
  destruct (atan2_quarter (vlen v) (Rabs (qw q)) P (Rabs_pos _) U) as (F & Sf & Cf). set (f := Ratan2 (vlen v) (Rabs (qw q))) in *.
  rewrite vlen_scale by (apply Rmult_le_pos; [left; now apply Rinv_0_lt_compat|lra]).
  replace (/ vlen v * (2 * f) * vlen v) with (2 * f) by (field; lra). assert (sin f < f) by (apply sin_lt_x; lra). lra.
Qed.
Lemma exp_log_turned q : unit_quat q -> turned q -> same_rotation (rexp (rlog q)) q.
Proof.
  intros U [->|H]; [rewrite rlog_ident, rexp_zero; now left|]. apply exp_log; auto. now apply log_turned.
Qed.
Lemma lerp_steady t s e : steady s e -> 
  forall x, position_into_world (rlerp t s e) x = along (position_into_world s x) (position_into_world e x) t /\
            direction_into_world (rlerp t s e) x = direction_into_world s x.
Proof.
  intros (Er & Eo & U & H) x.
  assert (R : same_rotation (rexp (along (rlog (o_rot s)) (rlog (o_rot e)) t)) (o_rot s)).
  { rewrite Er. replace (along (rlog (o_rot s)) (rlog (o_rot s)) t) with (rlog (o_rot s)) by (unfold along; apply vext; vunfold; ring).
    now apply exp_log_turned. }
  rewrite !direction_world_form, !world_form; auto.
  2: { unfold unit_o. now rewrite Er. }
  2: { unfold unit_o, rlerp. cbn [o_rot]. apply rexp_unit. }
  unfold rlerp. cbn [o_pos o_rot o_off]. rewrite !(same_rotation_rot _ _ _ R), Er, Eo. split; auto.
  unfold along. apply vext; vunfold; ring.
Qed.

(** ** Statements about the code *)
Lemma orient_new_turns p v off : exists o, orient_new (vfin p) (vfin v) (vfin off) = ofin o /\ o_pos o = p /\ o_off o = off /\ unit_o o /\
  (2 * tiny < vlen v -> turns_by (direction_into_world o) v) /\ (vlen v <= 2 * tiny -> o_rot o = mkQ 0 0 0 1).
Proof.
  exists (mkO p (rexp v) off). split; [apply orient_new_fin|]. split; auto. split; auto. split; [apply rexp_unit|]. split.
  - intros H x. rewrite direction_world_form. now apply rexp_turns.
  - intros H. cbn [o_rot]. unfold rexp. cbv zeta. destruct (Rle_dec _ (tiny * tiny)) as [|L]; auto. exfalso. apply L.
    set (h := vscale v (/ 2)). assert (Lh : vlen h = / 2 * vlen v) by (apply vlen_scale; lra).
    assert (X : vlen h * vlen h = vdot h h) by (apply sqrt_sqrt; apply vdot_pos). rewrite <- X. pose proof tiny_pos.
    assert (0 <= vlen v) by apply sqrt_pos. apply Rmult_le_compat; lra.
Qed.
Lemma rotation_vec_turns o : unit_o o -> exists v, rotation_vec (ofin o) = vfin v /\ vlen v <= PI /\
  (o_rot o = mkQ 0 0 0 1 -> v = mkV 0 0 0) /\ (tiny < vlen (qvec (o_rot o)) -> turns_by (direction_into_world o) v).
Proof.
  intros U. exists (rlog (o_rot o)). split; [apply log_fin|]. split; [now apply log_length|]. split.
  - intros ->. apply rlog_ident.
  - intros H. pose proof (log_turned _ U H) as L. intros x. rewrite direction_world_form.
    rewrite <- (same_rotation_rot _ _ x (exp_log _ U L)). now apply rexp_turns.
Qed.
Lemma rotation_round_trip p v off : vlen v <= PI -> 2 * tiny < vlen v \/ v = mkV 0 0 0 -> rotation_vec (orient_new (vfin p) (vfin v) (vfin off)) = vfin v.
Proof.
  intros H1 H2. rewrite orient_new_fin. unfold rotation_vec. cbn [ofin o_rot]. rewrite log_fin. f_equal. destruct H2 as [H2| ->].
  - now apply log_exp.
  - now rewrite rexp_zero, rlog_ident.
Qed.
Lemma lerp_ends s e t : unit_o s -> unit_o e -> exists o, orient_lerp (Fin t) (ofin s) (ofin e) = ofin o /\ unit_o o /\ o_pos o = along (o_pos s) (o_pos e) t /\ o_off o = o_off s /\
  (t = 0 -> turned (o_rot s) -> forall x, position_into_world o x = position_into_world s x /\ direction_into_world o x = direction_into_world s x) /\
  (t = 1 -> turned (o_rot e) -> forall x, direction_into_world o x = direction_into_world e x /\ (o_off e = o_off s -> position_into_world o x = position_into_world e x)) /\
  (steady s e -> forall x, position_into_world o x = along (position_into_world s x) (position_into_world e x) t /\ direction_into_world o x = direction_into_world s x).
Proof.
  intros Us Ue. exists (rlerp t s e). assert (Ur : unit_o (rlerp t s e)) by apply rexp_unit. split; [apply lerp_fin|]. split; auto. split; auto. split; auto. split; [|split].
  - intros -> Tr x. rewrite !direction_world_form, !world_form by auto. unfold rlerp. cbn [o_pos o_rot o_off].
    replace (along (rlog (o_rot s)) (rlog (o_rot e)) 0) with (rlog (o_rot s)) by (unfold along; apply vext; vunfold; ring).
    replace (along (o_pos s) (o_pos e) 0) with (o_pos s) by (unfold along; apply vext; vunfold; ring).
    now rewrite !(same_rotation_rot _ _ _ (exp_log_turned _ Us Tr)).
  - intros -> Tr x. rewrite !direction_world_form, !world_form by auto. unfold rlerp. cbn [o_pos o_rot o_off].
    replace (along (rlog (o_rot s)) (rlog (o_rot e)) 1) with (rlog (o_rot e)) by (unfold along; apply vext; vunfold; ring).
    replace (along (o_pos s) (o_pos e) 1) with (o_pos e) by (unfold along; apply vext; vunfold; ring).
    rewrite !(same_rotation_rot _ _ _ (exp_log_turned _ Ue Tr)). split; auto. now intros ->.
  - intros St x. now apply lerp_steady.
Qed.
Lemma affected_moves o l a : unit_o o -> exists o' f, after_affected (ofin o) (vfin l) (vfin a) = ofin o' /\ unit_o o' /\ o_pos o' = vadd (o_pos o) l /\ o_off o' = o_off o /\
  (forall x, position_into_world o' x = vadd (f (vsub (position_into_world o x) (o_pos o))) (vadd (o_pos o) l)) /\
  (forall d, direction_into_world o' d = f (direction_into_world o d)) /\
  (2 * tiny < vlen a -> turns_by f a) /\ (vlen a <= 2 * tiny -> forall x, f x = x).
Proof.
  intros U. exists (mkO (vadd (o_pos o) l) (qmul (rexp a) (o_rot o)) (o_off o)), (qrot (rexp a)).
  assert (Ua := rexp_unit a). assert (U' : unit_o (mkO (vadd (o_pos o) l) (qmul (rexp a) (o_rot o)) (o_off o))) by (apply unit_qmul; auto).
  split; [apply affected_fin|]. split; auto. split; auto. split; auto. split; [|split; [|split]].
  - intros x. rewrite !world_form by auto. cbn [o_pos o_rot o_off]. rewrite qrot_mul by auto. f_equal. f_equal. apply vext; vunfold; ring.
  - intros d. rewrite !direction_world_form. cbn [o_rot]. now apply qrot_mul.
  - intros H. now apply rexp_turns.
  - intros H x. destruct (orient_new_turns (mkV 0 0 0) a (mkV 0 0 0)) as (o2 & E & _ & _ & _ & _ & I). specialize (I H).
    rewrite orient_new_fin in E. assert (Q : rexp a = mkQ 0 0 0 1).
    { rewrite <- I. apply (f_equal o_rot) in E. cbn [ofin o_rot] in E. destruct (rexp a) as [i j k w], (o_rot o2) as [i' j' k' w']. unfold qfin in E. cbn [qi qj qk qw] in E. congruence. }
    rewrite Q. apply (eq_trans (y := qrot (@qident R RNum) x)); [|apply qrot_ident]. f_equal. unfold qident. now rewrite r_0, r_1.
Qed.
Lemma origin_facts o x : unit_o o ->
  position_into_world (ofin o) (vfin (vneg (o_off o))) = vfin (o_pos o) /\
  local_origin_in_world (ofin o) = position_into_world (ofin o) (vfin (mkV 0 0 0)) /\
  direction_into_world (ofin o) (vfin (vadd x (o_off o))) = vsub (position_into_world (ofin o) (vfin x)) (vfin (o_pos o)).
Proof.
  intros U. split; [exact (f_equal vfin (world_centre o U))|]. split.
  - unfold local_origin_in_world, vzero. now rewrite fin_0.
  - change (vfin (direction_into_world o (vadd x (o_off o))) = vfin (vsub (position_into_world o x) (o_pos o))). f_equal.
    rewrite direction_world_form, world_form by auto. apply vext; vunfold; ring.
Qed.
Lemma half_turn_example : unit_o (mkO (mkV 1 2 3) (mkQ 0 0 1 0) (mkV 4 5 6)) /\
  position_into_world (mkO (mkV 1 2 3) (mkQ 0 0 1 0) (mkV 4 5 6)) (mkV 1 0 0) = mkV (-4) (-3) 9.
Proof.
  assert (U : unit_o (mkO (mkV 1 2 3) (mkQ 0 0 1 0) (mkV 4 5 6))) by (unfold unit_o, unit_quat; cbn [o_rot qi qj qk qw]; lra).
  split; auto. rewrite world_form by auto. cbn [o_pos o_rot o_off]. apply vext; qunfold; field.
Qed.
Lemma radian_example : vlen (mkV 0 0 1) <= PI /\ 2 * tiny < vlen (mkV 0 0 1).
Proof.
  assert (E : vlen (mkV 0 0 1) = 1) by (unfold vlen; replace (vdot (mkV 0 0 1) (mkV 0 0 1)) with 1 by (vunfold; ring); apply sqrt_1).
  rewrite E. split; [pose proof PI2_1; lra|]. unfold tiny. apply (Rmult_lt_reg_r (IZR (2 ^ 23))); [apply IZR_lt; reflexivity|].
  rewrite Rmult_assoc, Rinv_l by (apply IZR_neq; discriminate). rewrite Rmult_1_l, Rmult_1_r. apply IZR_lt. reflexivity.
Qed.
