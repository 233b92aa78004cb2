(** * TurnEx: a run in binary32 in which things turn (C87) *)
From Coq Require Import ZArith Reals List Bool Lra.
Import ListNotations.
From Flocq Require Import Core IEEE754.BinarySingleNaN.
From Verif Require Import Num Vec Res Arena Orient Colliders EntityM SystemM OrderP Spec Examples AlgebraP RoundSpec TurnSpec QuatRoundP.
Local Open Scope R_scope.

(** A libm for which every rotation has the sine 3/5 and the cosine 4/5, correctly rounded. *)
Definition corner : Libm := {| l_sin := fun x => if is_finite x then f32_frac 3 5 else B754_nan;
  l_cos := fun x => if is_finite x then f32_frac 4 5 else B754_nan; l_atan2 := fun y _ => y |}.
#[local] Instance NC : Num f32 := F32 corner.
Definition spinner (p v w : Vec3 f32) : entity f32 := mkPE p vzero v w [] n1 (orient_new vzero vzero vzero) n0 mzero false.
Definition hist_turn : list (call f32) := calls [
  OAddEntity (spinner (vec 0 0 0) (vec 1 0 0) (vec 1 2 3)); OAddEntity (spinner (vec 4 0 0) vzero vzero);
  OAddCollider (ball vzero n1 n1); OAddCollider (ball vzero n1 n1); OLinkCollider (hd 0) (Some (hd 0)); OLinkCollider (hd 1) (Some (hd 1));
  OStep n1; OStep n2 ].
Lemma neg_bits (x : f32) m e : B2SF x = SpecFloat.S754_finite true m e -> B2ER x = Fin (F2R (Float radix2 (Zneg m) e)).
Proof. destruct x; cbn [B2SF]; intros H; try discriminate. injection H as -> -> ->. exact eq_refl. Qed.
Ltac by_value := f_equal; unfold F2R; cbn [Fnum Fexp bpow]; unfold radix2; cbn; lra.
Lemma corner_ok : libm_ok corner (powerRZ 2 (-22)).
Proof.
  assert (U : powerRZ 2 (-22) = / 4194304) by (rewrite pow_bpow; cbn; lra). rewrite U. split.
  - intros x r H. assert (F : is_finite x = true) by (destruct x as [s|s| |s m e B]; try (destruct s; discriminate); try discriminate; exact eq_refl).
    cbn [l_sin l_cos corner]. rewrite F. exists (10066330 / 16777216), (13421773 / 16777216).
    split; [rewrite (by_bits _ 10066330 (-24)) by (vm_compute; exact eq_refl); by_value|].
    split; [rewrite (by_bits _ 13421773 (-24)) by (vm_compute; exact eq_refl); by_value|]. apply Rabs_le. lra.
  - intros x H. cbn [l_cos corner]. destruct x; cbn [is_finite]; first [exact eq_refl | exfalso; refine (H _ _); exact eq_refl].
Qed.
(** Two balls that meet once, two steps: three pieces, and a rotation that is not exactly of unit length. *)
Lemma corner_turns : exists hist s ans e r, libm_ok corner (powerRZ 2 (-22)) /\ Forall call_ok hist /\ run hist system_new = Ok (s, ans) /\
  get_entity s (hd 0) = Some e /\ is_quat (o_rot (pe_last_orient e)) r /\ pieces hist system_new = 3%nat /\
  INR 4 * (2 * powerRZ 2 (-22) + powerRZ 2 (-18)) <= 1 / 4 /\ square r <> 1.
Proof.
  assert (X : option_map (fun e => let q := o_rot (pe_last_orient e) in map B2SF [qi q; qj q; qk q; qw q]) (get_entity (state_after corner hist_turn) (hd 0)) =
    Some [SpecFloat.S754_finite false 8590230 (-25); SpecFloat.S754_finite false 16171095 (-25); SpecFloat.S754_finite false 12761284 (-24); SpecFloat.S754_finite true 11798400 (-25)])
    by (vm_compute; exact eq_refl).
  destruct (get_entity (state_after corner hist_turn) (hd 0)) as [e|] eqn:E; [|discriminate]. cbn [option_map map] in X. injection X as X1 X2 X3 X4.
  exists hist_turn, (state_after corner hist_turn), (answers corner hist_turn), e, (mkQ (8590230 / 33554432) (16171095 / 33554432) (12761284 / 16777216) (-11798400 / 33554432)).
  split; [exact corner_ok|]. split; [apply calls_ok; repeat constructor|]. split; [apply run_state; vm_compute; exact eq_refl|]. split; [exact E|].
  split.
  { split; [|split; [|split]]; cbn [qi qj qk qw].
    - eapply eq_trans; [exact (by_bits _ _ _ X1)|by_value].
    - eapply eq_trans; [exact (by_bits _ _ _ X2)|by_value].
    - eapply eq_trans; [exact (by_bits _ _ _ X3)|by_value].
    - eapply eq_trans; [exact (neg_bits _ _ _ X4)|by_value]. }
  split; [vm_compute; exact eq_refl|]. split; [rewrite !pow_bpow; cbn; lra|]. unfold square. cbn [qi qj qk qw]. lra.
Qed.
