(** * RoundP: how far rounding takes a coasting body (C85) *)
From Coq Require Import ZArith Reals Bool Lra Lia Psatz List.
Import ListNotations.
From Flocq Require Import Core Relative IEEE754.BinarySingleNaN.
From Verif Require Import Num Vec Res Arena Orient EntityM SystemM OrderP ArithP Spec ResP ArenaP StepP Step2P Step3P RealSpec RealV AlgebraSpec AlgebraP RoundSpec.
Local Open Scope R_scope.

Lemma agrees_fin a got r : agrees (Fin a) got -> got = Fin r -> Rabs (r - a) <= Rabs a * powerRZ 2 (-24) + powerRZ 2 (-150).
Proof. intros [(r0 & -> & H)|(_ & ->)] E; [injection E as ->; exact H|]. destruct (Rlt_dec 0 a); discriminate. Qed.
(** One coordinate in one step. *)
Lemma move_rounds (x v d z : f32) rx rv rd rz : B2ER x = Fin rx -> B2ER v = Fin rv -> B2ER d = Fin rd -> B2ER (Bplus mode_NE x (Bmult mode_NE v d)) = Fin rz ->
  Rabs (rz - (rx + rv * rd)) <= powerRZ 2 (-24) * (Rabs rx + 3 * (Rabs rv * Rabs rd)) + powerRZ 2 (-148).
Proof.
  intros Hx Hv Hd Hz. pose proof (mult_agrees v d) as M. rewrite Hv, Hd in M. cbn [er_mul] in M.
  assert (Fm : exists m, B2ER (Bmult mode_NE v d) = Fin m).
  { destruct M as [(m & -> & _)|(_ & E)]; [now exists m|]. exfalso. pose proof (plus_agrees x (Bmult mode_NE v d)) as P. rewrite Hx, E, Hz in P.
    destruct (Rlt_dec 0 (rv * rd)); cbn in P; discriminate. }
  destruct Fm as (m & Em). pose proof (agrees_fin _ _ _ M Em) as Bm.
  pose proof (plus_agrees x (Bmult mode_NE v d)) as P. rewrite Hx, Em in P. cbn [er_add] in P. pose proof (agrees_fin _ _ _ P Hz) as Bz.
  rewrite <- Rabs_mult. set (p := rv * rd) in *. clearbody p. set (u := powerRZ 2 (-24)) in *. set (t := powerRZ 2 (-150)) in *.
  assert (U : 0 < u < / 4). { unfold u. rewrite pow_bpow. split; [apply bpow_gt_0|]. change (/ 4) with (bpow radix2 (-2)). apply bpow_lt. lia. }
  assert (T : 0 < t) by (unfold t; rewrite pow_bpow; apply bpow_gt_0).
  assert (E148 : powerRZ 2 (-148) = 4 * t). { unfold t. rewrite !pow_bpow. change 4 with (bpow radix2 2). rewrite <- bpow_plus. exact eq_refl. }
  rewrite E148. clearbody u t. clear - Bm Bz U T.
  pose proof (Rabs_triang (rz - (rx + m)) (m - p)) as T1. replace (rz - (rx + m) + (m - p)) with (rz - (rx + p)) in T1 by ring.
  pose proof (Rabs_triang rx m) as T2. pose proof (Rabs_triang p (m - p)) as T3. replace (p + (m - p)) with m in T3 by ring.
  pose proof (Rabs_pos p). pose proof (Rabs_pos rx). set (X := Rabs rx) in *. set (P := Rabs p) in *.
  assert (M1 : Rabs m <= P + (P * u + t)) by lra. assert (A : Rabs (rx + m) <= X + P + P * u + t) by lra.
  assert (A' : Rabs (rx + m) * u <= (X + P + P * u + t) * u) by (apply Rmult_le_compat_r; lra).
  assert (Q1 : P * u * u <= P * u) by (assert (0 <= P * u) by (apply Rmult_le_pos; lra); nra). assert (Q2 : t * u <= t) by nra. nra.
Qed.

Section Coast.
  Context (L : Libm).
  #[local] Instance NC : Num f32 := F32 L.
  Lemma zero_mul_fin (x d : f32) rx rd : B2ER x = Fin rx -> B2ER d = Fin rd -> B2ER (Bplus mode_NE x (Bmult mode_NE (@n0 f32 (F32 L)) d)) = Fin rx.
  Proof. intros Hx Hd. rewrite (Bplus_0_mul L), Hx; [exact eq_refl|]. rewrite isfin_ER, Hd. exact eq_refl. Qed.
  (** One step: the velocity stays, the position moves by it. *)
  Lemma coast_step ord (s : system f32) dt d s' h e p v : good_order ord -> step ord s dt = Ok s' -> n_lt (n_abs dt) EPSILON = false -> B2ER dt = Fin d -> s_records s' = [] ->
    ahandles (s_gens s) = [] -> s_iteration_max s <> 0%nat -> get_entity s h = Some e -> pe_asleep e = false -> is_vec (pe_pos e) p -> is_vec (pe_vel e) v ->
    exists e', get_entity s' h = Some e' /\ is_vec (pe_vel e') v /\
      forall r, is_vec (pe_pos e') r ->
        let far x y q := Rabs (x - (y + q * d)) <= powerRZ 2 (-24) * (Rabs y + 3 * (Rabs q * Rabs d)) + powerRZ 2 (-148) in
        far (vx r) (vx p) (vx v) /\ far (vy r) (vy p) (vy v) /\ far (vz r) (vz p) (vz v).
  Proof.
    intros Ho Hs Hd Ed Hr Hg Hi He Ha Hp Hv. unfold get_entity in He. destruct (aget (s_ents s) h) as [i|] eqn:Ei; [|discriminate]. injection He as <-. cbn [make_pub pe_asleep pe_pos pe_vel] in Ha, Hp, Hv.
    destruct (Step3P.step_free ord s dt s' Ho Hs Hd Hi Hr h i Ei) as (fs & e' & F & E' & K). rewrite Ha in K. destruct K as (fa & ft & a & ns & ->).
    assert (fs = []) as ->. { destruct F as (i0 & _ & F). rewrite Hg in F. destruct (pushable i0); [inversion F; reflexivity|exact F]. }
    exists (make_pub (e_set_sleep (e_set_falling (e_set_orient (e_set_vels i (pushed_vel dt [] i) (pushed_angvel dt [] i))
            (mkO (vadd (o_pos (e_orient i)) (vscale (pushed_vel dt [] i) dt)) (qmul (qfrom_scaled_axis (vscale (pushed_angvel dt [] i) dt)) (o_rot (e_orient i))) (o_off (e_orient i)))) fa ft) a ns)).
    split; [unfold get_entity; rewrite E'; reflexivity|].
    assert (V : is_vec (pushed_vel dt [] i) v).
    { destruct Hv as (V1 & V2 & V3). unfold pushed_vel. cbn [map Spec.vsum fold_left]. unfold vadd, vscale, Spec.vsum, vzero. cbn [vx vy vz fold_left map].
      repeat split; eapply zero_mul_fin; eassumption. }
    split; [exact V|]. intros r Hr'. cbv zeta. destruct Hp as (P1 & P2 & P3), V as (V1 & V2 & V3), Hr' as (R1 & R2 & R3).
    split; [|split]; eapply move_rounds; eauto.
  Qed.
  Lemma coast_gens ord (s s' : system f32) dt : step ord s dt = Ok s' -> ahandles (s_gens s) = [] -> ahandles (s_gens s') = [] /\ s_iteration_max s' = s_iteration_max s.
  Proof. intros H G. pose proof (Store2P.step_frame_pub _ _ _ _ H) as (_ & _ & _ & _ & M & _). apply FrameP.step_frame in H. destruct H as (_ & _ & (_ & K & _) & _). split; [now rewrite K|exact M]. Qed.
  Lemma drift_cons B q d l x y z : Rabs y <= B -> Rabs (z - (y + q * d)) <= powerRZ 2 (-24) * (Rabs y + 3 * (Rabs q * Rabs d)) + powerRZ 2 (-148) ->
    Rabs (x - (z + q * sum l)) <= drift B q l -> Rabs (x - (y + q * sum (d :: l))) <= drift B q (d :: l).
  Proof.
    intros HB H1 H2. unfold drift in *. cbn [sum fold_right map length] in *. fold (sum l) in *. fold (sum (map Rabs l)) in *. rewrite S_INR.
    set (u := powerRZ 2 (-24)) in *. set (t := powerRZ 2 (-148)) in *. assert (U : 0 < u) by (unfold u; rewrite pow_bpow; apply bpow_gt_0). clearbody u t.
    pose proof (Rabs_triang (x - (z + q * sum l)) (z - (y + q * d))) as T. replace (x - (z + q * sum l) + (z - (y + q * d))) with (x - (y + q * (d + sum l))) in T by ring.
    assert (Y : u * Rabs y <= u * B) by (apply Rmult_le_compat_l; lra). lra.
  Qed.
  Lemma coasting h B (s : system f32) l s' : coasts (L := L) h B s l s' -> ahandles (s_gens s) = [] -> s_iteration_max s <> 0%nat ->
    forall e p v, get_entity s h = Some e -> is_vec (pe_pos e) p -> is_vec (pe_vel e) v -> Rabs (vx p) <= B -> Rabs (vy p) <= B -> Rabs (vz p) <= B ->
    exists e' r, get_entity s' h = Some e' /\ is_vec (pe_pos e') r /\ is_vec (pe_vel e') v /\
      Rabs (vx r - (vx p + vx v * sum l)) <= drift B (vx v) l /\ Rabs (vy r - (vy p + vy v * sum l)) <= drift B (vy v) l /\ Rabs (vz r - (vz p + vz v * sum l)) <= drift B (vz v) l.
  Proof.
    induction 1 as [s|s ord dt d s1 l s' Ho Hs Hd Ed Hr (e0 & He0 & Ha0) (e1 & r1 & He1 & Hr1 & B1 & B2 & B3) _ IH]; intros Hg Hi e p v He Hp Hv P1 P2 P3.
    - exists e, p. split; [exact He|]. split; [exact Hp|]. split; [exact Hv|]. unfold drift. cbn [sum fold_right map length]. rewrite !Rmult_0_r, !Rmult_0_l, !Rplus_0_r, !Rmult_0_r.
      split; [|split]; match goal with |- Rabs (?a - ?a) <= _ => replace (a - a) with 0 by ring end; rewrite Rabs_R0; lra.
    - unfold NC in *. assert (e0 = e) as -> by congruence. destruct (coast_step ord s dt d s1 h e p v Ho Hs Hd Ed Hr Hg Hi He Ha0 Hp Hv) as (e1' & He1' & Hv1 & Far). unfold NC in *. assert (e1' = e1) as -> by congruence.
      destruct (coast_gens _ _ _ _ Hs Hg) as (Hg1 & Hi1). destruct (Far r1 Hr1) as (F1 & F2 & F3).
      destruct (IH Hg1 ltac:(congruence) e1 r1 v He1 Hr1 Hv1 B1 B2 B3) as (e' & r & G1 & G2 & G3 & D1 & D2 & D3).
      exists e', r. split; [exact G1|]. split; [exact G2|]. split; [exact G3|]. split; [|split]; eapply drift_cons; eassumption.
  Qed.
End Coast.
