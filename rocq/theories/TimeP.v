(** * TimeP: the times in collision records (C15) *)
From Coq Require Import ZArith Reals List Bool Arith Lra Lia Sorting.Sorted.
From Flocq Require Import Core IEEE754.BinarySingleNaN.
Import ListNotations.
From Verif Require Import Num Vec Res Arena Orient Colliders Collide EntityM SystemM OrderP Spec
  ResP ArenaP ArithP StoreP Store2P WakeP StepP Step2P Step3P CollideP.

(** Two more laws common to both arithmetics. *)
Class Ord3 {T : Type} {N : Num T} (O : Ord N) : Prop := {
  progress : forall c p : T, n_le n0 c = true -> n_le c n1 = true -> n_le n0 p = true -> n_le p n1 = true ->
    n_le c (n_add c (n_mul (n_sub n1 c) p)) = true /\ n_le (n_add c (n_mul (n_sub n1 c) p)) n1 = true;
  portion : forall a b d : T, n_le n0 a = true -> n_le a b = true -> n_le b n1 = true -> n_isfin d = true -> n_le n0 d = true ->
    n_le n0 (n_mul a d) = true /\ n_le (n_mul a d) (n_mul b d) = true /\ n_le (n_mul b d) d = true
}.
Local Open Scope R_scope.
Lemma er_le_fin_iff a b : er_le (Fin a) (Fin b) = true <-> a <= b.
Proof. simpl. destruct (Rle_dec a b); split; intros; try assumption; try reflexivity; congruence. Qed.
Lemma er_between x : er_le (Fin 0) x = true -> er_le x (Fin 1) = true -> exists r, x = Fin r /\ 0 <= r <= 1.
Proof.
  destruct x as [r| | |]; simpl; try discriminate. intros A B. exists r. split; [reflexivity|].
  destruct (Rle_dec 0 r), (Rle_dec r 1); try discriminate. lra.
Qed.
#[global] Instance Ord3_ER : Ord3 Ord_ER.
Proof.
  split.
  - intros c p. rewrite !key_le, !key_0, !key_1. change (@key ER EReal Ord_ER) with (fun x : ER => x). cbv beta. intros A B C D.
    destruct (er_between _ A B) as (x & -> & Hx). destruct (er_between _ C D) as (y & -> & Hy).
    assert (E : @n_add ER EReal (Fin x) (n_mul (n_sub n1 (Fin x)) (Fin y)) = Fin (x + (1 - x) * y)).
    { unfold n1. simpl. f_equal. lra. }
    rewrite E, !er_le_fin_iff. split; nra.
  - intros a b d. rewrite !key_le, !key_0, !key_1. change (@key ER EReal Ord_ER) with (fun x : ER => x). cbv beta. intros A B C F D.
    destruct d as [d| | |]; try discriminate. apply er_le_fin_iff in D.
    destruct a as [a| | |], b as [b| | |]; try discriminate. rewrite er_le_fin_iff in *. cbn [n_mul EReal er_mul].
    rewrite !er_le_fin_iff. repeat split; nra.
Qed.

(** ** Binary32 *)
Lemma f32_le_fin (x y : f32) : is_finite x = true -> is_finite y = true -> Bleb x y = true <-> B2R x <= B2R y.
Proof. intros Fx Fy. rewrite Bleb_ER, (B2ER_fin x Fx), (B2ER_fin y Fy). apply er_le_fin_iff. Qed.
Lemma f32_between (x lo hi : f32) : is_finite lo = true -> is_finite hi = true -> Bleb lo x = true -> Bleb x hi = true -> is_finite x = true.
Proof.
  intros Fl Fh A B. rewrite Bleb_ER in A, B. rewrite (B2ER_fin lo Fl) in A. rewrite (B2ER_fin hi Fh) in B.
  destruct x as [s|[]| |s m e H]; simpl in *; try discriminate; reflexivity.
Qed.
Definition tiny : f32 := f32_frac 1 33554432.
Lemma R_one : B2R f32_one = 1.
Proof. vm_compute. lra. Qed.
Lemma R_tiny : B2R tiny = bpow radix2 (-25).
Proof. vm_compute. lra. Qed.
(** 1 + 2^-25 is closer to 1 than to the next float. *)
Lemma rnd_one_tiny : rnd (1 + bpow radix2 (-25)) = 1.
Proof.
  assert (E : Bplus mode_NE f32_one tiny = f32_one) by (apply B2SF_inj; vm_compute; reflexivity).
  destruct (Bplus_fin f32_one tiny eq_refl eq_refl) as [(_ & H & F)|(_ & H & _)]; [|rewrite H in E; discriminate E].
  rewrite E, (B2ER_fin f32_one eq_refl), R_one, R_tiny in H. injection H as H. symmetry. exact H.
Qed.
Lemma rnd_err (x : R) : 0 <= x <= 1 -> rnd x <= x + bpow radix2 (-25).
Proof.
  intros Hx. destruct (Req_dec x 1) as [->|H1].
  { rewrite <- R_one at 1. rewrite rnd_B2R, R_one. pose proof (bpow_ge_0 radix2 (-25)). lra. }
  destruct (Req_dec x 0) as [->|H0]; [rewrite rnd_0; pose proof (bpow_ge_0 radix2 (-25)); lra|].
  pose proof (error_le_half_ulp radix2 (SpecFloat.fexp 24 128) (fun z => negb (Z.even z)) x) as H.
  assert (U : ulp radix2 (SpecFloat.fexp 24 128) x <= bpow radix2 (-24)).
  { rewrite ulp_neq_0 by assumption. apply bpow_le. unfold cexp.
    assert (M : (mag radix2 x <= 0)%Z). { apply mag_le_bpow; [assumption|]. simpl. rewrite Rabs_pos_eq; lra. }
    unfold SpecFloat.fexp, SpecFloat.emin. lia. }
  assert (B : bpow radix2 (-24) = 2 * bpow radix2 (-25)) by (simpl; lra).
  change (rnd x) with (round radix2 (SpecFloat.fexp 24 128) (Znearest (fun z => negb (Z.even z))) x).
  apply Rabs_le_inv in H. destruct H as (_ & H).
  revert H U B. generalize (ulp radix2 (SpecFloat.fexp 24 128) x) (bpow radix2 (-24)) (bpow radix2 (-25)). intros u b c H U B.
  match type of H with ?r - x <= _ => enough (r <= x + c) by assumption end. lra.
Qed.
Lemma rnd_nonneg x : 0 <= x -> 0 <= rnd x.
Proof. intros H. rewrite <- rnd_0. apply rnd_le, H. Qed.
Lemma rnd_le_fin x (y : f32) : x <= B2R y -> rnd x <= B2R y.
Proof. intros H. rewrite <- (rnd_B2R y). apply rnd_le, H. Qed.
Lemma rnd_ge_fin x (y : f32) : B2R y <= x -> B2R y <= rnd x.
Proof. intros H. rewrite <- (rnd_B2R y). apply rnd_le, H. Qed.
Lemma one_small : 1 < fmax.
Proof. unfold fmax. change 1 with (bpow radix2 0). apply bpow_lt. lia. Qed.

Lemma f32_progress (c p : f32) : is_finite c = true -> is_finite p = true -> 0 <= B2R c <= 1 -> 0 <= B2R p <= 1 ->
  let c' := Bplus mode_NE c (Bmult mode_NE (Bminus mode_NE f32_one c) p) in
  is_finite c' = true /\ B2R c <= B2R c' <= 1.
Proof.
  intros Fc Fp Hc Hp. pose proof one_small as O1.
  assert (M : is_finite (Bminus mode_NE f32_one c) = true /\ B2R (Bminus mode_NE f32_one c) = rnd (1 - B2R c)).
  { destruct (Bminus_fin f32_one c eq_refl Fc) as [(_ & E & F)|(E & _)]; rewrite R_one in E.
    - split; [exact F|]. rewrite (B2ER_fin _ F) in E. injection E as E. exact E.
    - exfalso. assert (0 <= rnd (1 - B2R c)) by (apply rnd_nonneg; lra).
      assert (rnd (1 - B2R c) <= 1) by (rewrite <- R_one at 2; apply rnd_le_fin; rewrite R_one; lra).
      rewrite Rabs_pos_eq in E by lra. lra. }
  destruct M as (Fm & Em). set (m := Bminus mode_NE f32_one c) in *.
  assert (Hm : 0 <= B2R m <= 1).
  { rewrite Em. split; [apply rnd_nonneg; lra|]. rewrite <- R_one at 2. apply rnd_le_fin. rewrite R_one. lra. }
  assert (X : is_finite (Bmult mode_NE m p) = true /\ B2R (Bmult mode_NE m p) = rnd (B2R m * B2R p)).
  { assert (R : 0 <= rnd (B2R m * B2R p) <= B2R m) by (split; [apply rnd_nonneg; nra|apply rnd_le_fin; nra]).
    destruct (Bmult_fin m p Fm Fp) as [(_ & E & F)|(E & _)].
    - split; [exact F|]. rewrite (B2ER_fin _ F) in E. injection E as E. exact E.
    - exfalso. rewrite Rabs_pos_eq in E by lra. lra. }
  destruct X as (Fx & Ex). set (x := Bmult mode_NE m p) in *.
  assert (Hx : 0 <= B2R x <= B2R m) by (rewrite Ex; split; [apply rnd_nonneg; nra|apply rnd_le_fin; nra]).
  assert (R : B2R c <= rnd (B2R c + B2R x) <= 1).
  { split; [apply rnd_ge_fin; lra|]. rewrite <- rnd_one_tiny. apply rnd_le.
    assert (B2R m <= (1 - B2R c) + bpow radix2 (-25)) by (rewrite Em; apply rnd_err; lra). lra. }
  cbv zeta. destruct (Bplus_fin c x Fc Fx) as [(_ & E & F)|(E & _)].
  - split; [exact F|]. rewrite (B2ER_fin _ F) in E. injection E as E. rewrite E. exact R.
  - exfalso. rewrite Rabs_pos_eq in E by lra. lra.
Qed.
Lemma f32_portion (a b d : f32) : is_finite a = true -> is_finite b = true -> is_finite d = true -> 0 <= B2R a <= B2R b -> B2R b <= 1 -> 0 <= B2R d ->
  is_finite (Bmult mode_NE a d) = true /\ is_finite (Bmult mode_NE b d) = true /\
  0 <= B2R (Bmult mode_NE a d) <= B2R (Bmult mode_NE b d) /\ B2R (Bmult mode_NE b d) <= B2R d.
Proof.
  intros Fa Fb Fd Ha Hb Hd.
  assert (X : forall y : f32, is_finite y = true -> 0 <= B2R y <= 1 -> is_finite (Bmult mode_NE y d) = true /\ B2R (Bmult mode_NE y d) = rnd (B2R y * B2R d)).
  { intros y Fy Hy. assert (R : 0 <= rnd (B2R y * B2R d) <= B2R d) by (split; [apply rnd_nonneg; nra|apply rnd_le_fin; nra]).
    destruct (Bmult_fin y d Fy Fd) as [(_ & E & F)|(E & _)].
    - split; [exact F|]. rewrite (B2ER_fin _ F) in E. injection E as E. exact E.
    - exfalso. rewrite Rabs_pos_eq in E by lra.
      pose proof (abs_B2R_lt_emax 24 128 d) as B. rewrite Rabs_pos_eq in B by lra. unfold fmax in E. lra. }
  destruct (X a Fa ltac:(lra)) as (Ga & Ea). destruct (X b Fb ltac:(lra)) as (Gb & Eb).
  split; [exact Ga|]. split; [exact Gb|]. rewrite Ea, Eb. split; [split; [apply rnd_nonneg; nra|apply rnd_le; nra]|apply rnd_le_fin; nra].
Qed.
#[global] Instance Ord3_F32 (L : Libm) : Ord3 (Ord_F32 L).
Proof.
  assert (F0 : is_finite (@n0 f32 (F32 L)) = true) by reflexivity.
  assert (F1 : is_finite (@n1 f32 (F32 L)) = true) by reflexivity.
  assert (R0 : B2R (@n0 f32 (F32 L)) = 0) by (vm_compute; lra).
  assert (R1 : B2R (@n1 f32 (F32 L)) = 1) by (vm_compute; lra).
  assert (E1 : (@n1 f32 (F32 L)) = f32_one) by (apply B2SF_inj; vm_compute; reflexivity).
  split.
  - intros c p A B C D. change (@n_le f32 (F32 L)) with (fun x y : f32 => Bleb x y) in *. cbv beta in *.
    change (@n_add f32 (F32 L)) with (@Bplus 24 128 _ _ mode_NE). change (@n_mul f32 (F32 L)) with (@Bmult 24 128 _ _ mode_NE).
    change (@n_sub f32 (F32 L)) with (@Bminus 24 128 _ _ mode_NE).
    pose proof (f32_between _ _ _ F0 F1 A B) as Fc. pose proof (f32_between _ _ _ F0 F1 C D) as Fp.
    apply (f32_le_fin _ _ F0 Fc) in A. apply (f32_le_fin _ _ Fc F1) in B. apply (f32_le_fin _ _ F0 Fp) in C. apply (f32_le_fin _ _ Fp F1) in D.
    rewrite R0 in *. rewrite R1 in *.
    destruct (f32_progress c p Fc Fp ltac:(lra) ltac:(lra)) as (F' & H). rewrite <- E1 in F', H.
    split; [apply (f32_le_fin _ _ Fc F'); lra|apply (f32_le_fin _ _ F' F1); rewrite R1; lra].
  - intros a b d A B C D E. change (@n_le f32 (F32 L)) with (fun x y : f32 => Bleb x y) in *. cbv beta in *.
    change (@n_mul f32 (F32 L)) with (@Bmult 24 128 _ _ mode_NE). change (@n_isfin f32 (F32 L) d) with (is_finite d) in D.
    assert (B' : Bleb (@n0 f32 (F32 L)) b = true).
    { pose proof (@le_trans f32 (F32 L) (Ord_F32 L) _ _ _ A B) as X. exact X. }
    pose proof (f32_between _ _ _ F0 F1 B' C) as Fb. pose proof (f32_between _ _ _ F0 Fb A B) as Fa.
    apply (f32_le_fin _ _ F0 Fa) in A. apply (f32_le_fin _ _ Fa Fb) in B. apply (f32_le_fin _ _ Fb F1) in C. apply (f32_le_fin _ _ F0 D) in E.
    rewrite R0 in *. rewrite R1 in *.
    destruct (f32_portion a b d Fa Fb D ltac:(lra) ltac:(lra) ltac:(lra)) as (G1 & G2 & G3 & G4).
    split; [apply (f32_le_fin _ _ F0 G1); rewrite R0; lra|]. split; [apply (f32_le_fin _ _ G1 G2); lra|apply (f32_le_fin _ _ G2 D); lra].
Qed.

(** ** The loop *)
Section Times.
  Context {T : Type} {N : Num T} {O : Ord N} {O3 : Ord3 O}.
  Lemma find_earliest_time ord cols (ents : arena (ientity T)) infos b : good_order ord ->
    find_earliest ord cols ents infos = Ok b -> n_le n0 (fst b) = true /\ n_le (fst b) n1 = true.
  Proof.
    intros Ho H. destruct (find_earliest_spec ord cols ents infos b Ho H) as (B & _). unfold best_ok in B.
    destruct (snd b) as [f|].
    - destruct B as (-> & _ & (i1 & i2 & k1 & k2 & c1 & c2 & _ & _ & _ & _ & _ & M & _)).
      destruct M as (e1 & e2 & d1 & d2 & _ & _ & _ & _ & _ & _ & _ & _ & C & _). exact (collide_time _ _ _ _ _ _ _ C).
    - rewrite B. split; rewrite key_le, ?key_0, key_1; apply er_le_fin_iff; lra.
  Qed.
  Record timed (dt : T) (st : lstate T) : Prop := {
    tm_lo : n_le n0 (l_ctp st) = true;
    tm_hi : n_le (l_ctp st) n1 = true;
    tm_all : Forall (fun r => n_le n0 (cr_time r) = true /\ n_le (cr_time r) (n_mul (l_ctp st) dt) = true) (l_records st);
    tm_sort : StronglySorted (fun r1 r2 => n_le (cr_time r1) (cr_time r2) = true) (l_records st) }.
  Lemma sorted_snoc {A} (R : A -> A -> Prop) l x : StronglySorted R l -> Forall (fun y => R y x) l -> StronglySorted R (l ++ [x]).
  Proof.
    induction 1 as [|y l S IH F]; intros H; simpl; [repeat constructor|].
    apply Forall_cons_iff in H. destruct H as (H1 & H2). constructor; [apply IH, H2|].
    apply Forall_app. split; [exact F|]. constructor; [exact H1|constructor].
  Qed.
  Lemma le_refl_fin (x : T) : n_le n0 x = true -> n_le x x = true.
  Proof. rewrite !key_le, key_0. destruct (key x); simpl; try discriminate; auto. intros _. destruct (Rle_dec r r); auto. lra. Qed.
  Lemma iterate_timed ord cols dt ents0 st st' fin : good_order ord -> loop_inv cols ents0 st -> n_isfin dt = true -> n_le n0 dt = true ->
    timed dt st -> iterate ord cols dt st = Ok (st', fin) -> timed dt st'.
  Proof.
    intros Ho HL Fd Hd [A B C D] H. destruct (iterate_inv _ _ _ _ _ _ _ Ho HL H) as (_ & _ & b & Hb & Hc & Hr).
    destruct (find_earliest_time _ _ _ _ _ Ho Hb) as (P1 & P2).
    destruct (progress _ _ A B P1 P2) as (Q1 & Q2). rewrite <- Hc in Q1, Q2.
    pose proof (le_trans _ _ _ A Q1) as Q0.
    destruct (portion _ _ dt A Q1 Q2 Fd Hd) as (S0 & S1 & S2).
    assert (C' : Forall (fun r => n_le n0 (cr_time r) = true /\ n_le (cr_time r) (n_mul (l_ctp st') dt) = true) (l_records st)).
    { eapply Forall_impl; [|exact C]. intros r (R1 & R2). split; [exact R1|]. eapply le_trans; eassumption. }
    pose proof (le_trans _ _ _ S0 S1) as S3.
    destruct (snd b) as [f|].
    - destruct Hr as (_ & im & Hr). split; [exact Q0|exact Q2| |]; rewrite Hr.
      + apply Forall_app. split; [exact C'|]. constructor; [|constructor]. split; [exact S3|]. apply le_refl_fin, S3.
      + apply sorted_snoc; [exact D|]. eapply Forall_impl; [|exact C']. intros r (_ & R2). exact R2.
    - destruct Hr as (_ & Hr). split; [exact Q0|exact Q2| |]; rewrite Hr; assumption.
  Qed.
  Lemma iterations_timed ord cols dt ents0 n : good_order ord -> n_isfin dt = true -> n_le n0 dt = true -> forall st st', loop_inv cols ents0 st ->
    timed dt st -> iterations ord cols dt n st = Ok st' -> timed dt st'.
  Proof.
    intros Ho Fd Hd. induction n as [|n IH]; intros st st' HL Ht H; cbn [iterations] in H.
    - injection H as <-. destruct Ht as [A B C D]. split; assumption.
    - inv_ok H. destruct x as (st1 & fin). cbn [fst snd] in H.
      pose proof (iterate_timed _ _ _ _ _ _ _ Ho HL Fd Hd Ht E) as T1.
      destruct (iterate_inv _ _ _ _ _ _ _ Ho HL E) as (L1 & _).
      destruct fin; [injection H as <-; exact T1|]. eapply IH; eassumption.
  Qed.
  Lemma eps_pos (dt : T) : n_le EPSILON dt = true -> n_le n0 dt = true /\ n_lt (n_abs dt) EPSILON = false.
  Proof.
    rewrite !key_le, key_lt, key_abs, key_0. destruct key_eps as (e & -> & He). destruct (key dt) as [d| | |]; simpl; try discriminate; try (intros _; split; reflexivity).
    destruct (Rle_dec e d); [|discriminate]. intros _. destruct (Rle_dec 0 d); [|lra]. split; [reflexivity|].
    destruct (Rlt_dec (Rabs d) e); [|reflexivity]. rewrite Rabs_pos_eq in *; lra.
  Qed.
  Lemma step_times ord s dt s' : good_order ord -> step ord s dt = Ok s' -> n_isfin dt = true -> n_le EPSILON dt = true ->
    StronglySorted (fun r1 r2 => n_le (cr_time r1) (cr_time r2) = true) (s_records s') /\
    Forall (fun r => n_le n0 (cr_time r) = true /\ n_le (cr_time r) dt = true) (s_records s').
  Proof.
    intros Ho H Fd He. destruct (eps_pos dt He) as (Hd & Hs).
    destruct (step_phases _ _ _ _ H Hs) as (s1 & infos & st & _ & Hi & _ & -> & _ & Hh & _).
    assert (Z : n_le (n0 : T) n0 = true) by (rewrite key_le, key_0; apply er_le_fin_iff; lra).
    assert (T0 : timed dt (mkL (s_ents s1) infos dt n0 [] [])).
    { split; cbn; [exact Z| |constructor|constructor]. rewrite key_le, key_0, key_1. apply er_le_fin_iff. lra. }
    destruct (iterations_timed _ _ _ _ _ Ho Fd Hd _ _ (loop_inv_init (s_cols s) _ _ dt Hh) T0 Hi) as [A B C D].
    split; [exact D|]. destruct (portion _ _ dt A (le_refl_fin _ A) B Fd Hd) as (_ & _ & P).
    eapply Forall_impl; [|exact C]. intros r (R1 & R2). split; [exact R1|]. eapply le_trans; eassumption.
  Qed.
End Times.
