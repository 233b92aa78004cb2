(** * WriteBack2P: writing back an entity whose quaternion has negative [w] (C43), in exact arithmetic *)
From Coq Require Import ZArith Reals Lra Psatz Bool List Permutation.
Import ListNotations.
From Verif Require Import Num Vec Res Arena RangeM Orient Colliders Collide EntityM SystemM OrderP Spec PanicSpec Examples ResP ArenaP FrameP StoreP Store2P ExecP StepP Step2P Step3P NoPanicP ValidP RangeP
  RealSpec RealV OrientP Orient2P GeomP Geom4P PhysSpec PhysP Phys2P Phys3P Phys4P MassP Mass2P Mass3P Mass4P WriteBackP PlaceP PassP RealEx.
Local Open Scope R_scope.

Definition qopp (q : Q) : Q := mkQ (- qi q) (- qj q) (- qk q) (- qw q).
Lemma log_opp q : qw q < 0 -> rlog q = rlog (qopp q).
Proof.
  intros H. unfold rlog. cbv zeta. cbn [qopp qw qi qj qk]. destruct (Rle_dec 0 (qw q)); [lra|]. destruct (Rle_dec 0 (- qw q)); [|lra].
  rewrite Rabs_Ropp. exact eq_refl.
Qed.
Lemma exp_log_down q : unit_quat q -> qw q < 0 -> turned q -> rexp (rlog q) = qopp q.
Proof.
  intros U H T. rewrite log_opp by exact H. apply exp_log_up.
  - revert U. unfold unit_quat. destruct q. cbn. intros U. nra.
  - cbn. lra.
  - right. destruct T as [->|T]; [cbn in H; lra|]. revert T. unfold vlen. replace (vdot (qvec (qopp q)) (qvec (qopp q))) with (vdot (qvec q) (qvec q)); [auto|].
    destruct q as [a b c d]. unfold qvec. cbn [qopp qi qj qk qw]. vunfold. ring.
Qed.

Section Back.
  Context (ord : set_order) (s : system ER) (h : handle) (e : entity ER) (o : orientation R).
  Context (Ho : good_order ord) (R : reachable s) (He : get_entity s h = Some e) (Eo : pe_last_orient e = ofin o) (Ht : turned (o_rot o))
    (Hp : (exists pt, parts_of s e pt) \/ (exists c k, In c (pe_colliders e) /\ get_collider s c = Some k /\ mass_of k = PInf))
    (Hoff : pe_colliders e <> [] \/ o_off o = mkV 0 0 0).
  Lemma shown : pe_pos e = vfin (o_pos o) /\ pe_rot e = vfin (rlog (o_rot o)).
  Proof.
    clear Hp Hoff. destruct (get_internal s h e He) as (i & Hi & ->). cbn [make_pub pe_last_orient pe_pos pe_rot] in *. rewrite Eo. split; [exact eq_refl|].
    unfold rotation_vec. cbn [ofin o_rot]. apply log_fin.
  Qed.
  Lemma back_kept s' b : update_entity ord s h e = Ok (s', b) -> b = true.
  Proof.
    clear Hp Hoff. intros H. pose proof (stored_own_mass s R h e He) as Hn. destruct (get_internal s h e He) as (i & Hi & Ei).
    unfold update_entity in H. rewrite Hi in H. destruct (update_from i e) as [[e1 w]|] eqn:U; [|unfold update_from in U; rewrite Hn in U; discriminate U].
    inv_ok H. destruct w; inv_ok H; congruence.
  Qed.
  Lemma back_placed s' b : update_entity ord s h e = Ok (s', b) -> exists e' o', get_entity s' h = Some e' /\ pe_last_orient e' = ofin o' /\ pe_pos e' = pe_pos e /\
    pe_vel e' = pe_vel e /\ pe_angvel e' = pe_angvel e /\
    (forall x, position_into_world o' x = position_into_world o x) /\ (forall x, direction_into_world o' x = direction_into_world o x).
  Proof.
    intros H. pose proof (back_kept _ _ H) as ->. destruct shown as (S1 & S2).
    destruct (update_placed ord s h e s' e o _ _ Ho R He Eo S1 S2 Hp Hoff H) as (e' & G & E1 & E2).
    exists e', (mkO (o_pos o) (rexp (rlog (o_rot o))) (o_off o)). split; [exact G|]. split; [exact E2|]. split; [congruence|].
    pose proof (reachable_unit s h e o R He Eo) as U. pose proof (exp_log_turned (o_rot o) U Ht) as Sr.
    destruct (get_internal s h e He) as (i & Hi & Ei). pose proof (reachable_Inv _ R) as I.
    destruct (update_entity_effect ord s h e s' true Ho I H) as (_ & _ & _ & _ & _ & _ & _ & _ & Hx).
    destruct (Hx eq_refl) as (i0 & e1 & w & e2 & e3 & hs & G1 & G2 & G3 & G4 & G5 & (a & ns & G6) & _).
    destruct (FrameP.recalc_frame _ _ _ _ G4) as (oo & mm & ii & F). unfold update_from in G2. destruct (n_lt (pe_own_mass e) n0); [discriminate G2|].
    apply some_inj in G2. assert (G2' := f_equal fst G2). cbn [fst] in G2'. clear G2.
    unfold get_entity in G. rewrite G5 in G. apply some_inj in G.
    split; [rewrite <- G, G6, F, <- G2'; exact eq_refl|]. split; [rewrite <- G, G6, F, <- G2'; exact eq_refl|].
    assert (D : forall x, direction_into_world (mkO (o_pos o) (rexp (rlog (o_rot o))) (o_off o)) x = direction_into_world o x).
    { intros x. rewrite !direction_world_form. cbn [o_rot]. apply same_rotation_rot, Sr. }
    split; [|exact D]. intros x. assert (U' : unit_o (mkO (o_pos o) (rexp (rlog (o_rot o))) (o_off o))) by (exact (rexp_unit _)).
    rewrite !world_form by assumption. cbn [o_rot o_pos o_off]. now rewrite (same_rotation_rot _ _ _ Sr).
  Qed.
  Lemma back_noticed i : aget (s_ents s) h = Some i -> qw (o_rot o) < 0 -> noticed i e.
  Proof.
    clear Hp Hoff. intros Hi Hw. destruct shown as (S1 & S2). pose proof (reachable_unit s h e o R He Eo) as U.
    destruct (get_internal s h e He) as (i' & Hi' & Ei). assert (i' = i) by congruence. subst i'.
    assert (Eo' : e_orient i = ofin o) by (rewrite Ei in Eo; exact Eo).
    unfold noticed. cbv zeta. right; right; left. rewrite S2, exp_fin, exp_log_down by assumption. rewrite Eo'. cbn [ofin o_rot qfin qopp qw qi qj qk].
    rewrite !fin_sub, !fin_mul, !fin_add.
    match goal with |- n_lt _ (n_sqrt (Fin ?x)) = _ => assert (X : x = 4) end.
    { unfold unit_o, unit_quat in U. destruct (o_rot o) as [a b c d]. cbn in *. nra. }
    rewrite X. change (n_sqrt (Fin 4)) with (er_sqrt (Fin 4)). unfold er_sqrt. destruct (Rlt_dec 4 0); [lra|]. change (EPSILON : ER) with (Fin (1 / 1000000)). change (@n_lt ER EReal) with er_lt. apply er_lt_fin.
    replace 4 with (2 * 2) by ring. rewrite sqrt_square; lra.
  Qed.
  Lemma back_wakes s' b : update_entity ord s h e = Ok (s', b) -> qw (o_rot o) < 0 -> forall k, connected (s_ents s) h k -> ~ asleep s' k.
  Proof.
    clear Hp Hoff. intros H Hw. pose proof (back_kept _ _ H) as ->. destruct (get_internal s h e He) as (i & Hi & _).
    exact (proj1 (update_entity_wakes ord s h e s' true i Ho H Hi) eq_refl (back_noticed i Hi Hw)).
  Qed.
End Back.
