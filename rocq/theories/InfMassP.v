(** * InfMassP: entities with an infinite-mass collider do not respond to impulses (C36) *)
From Coq Require Import ZArith Reals List Permutation Bool Lra.
From Flocq Require Import Core IEEE754.BinarySingleNaN.
Import ListNotations.
From Verif Require Import Num Vec Res Arena Orient Colliders Collide EntityM SystemM OrderP Spec EntitySpec
  ResP ArenaP FrameP ArithP StoreP Store2P ExecP ValidP WakeP StepP Step2P Step3P MassP Mass2P.

(** Laws about zeros and infinities common to both arithmetics. *)
Class Ord4 {T : Type} {N : Num T} (O : Ord N) : Prop := {
  zero_mul_l : forall z x : T, key z = Fin 0 -> n_isfin x = true -> key (n_mul z x) = Fin 0;
  zero_mul_r : forall z x : T, key z = Fin 0 -> n_isfin x = true -> key (n_mul x z) = Fin 0;
  zero_add : forall x z : T, key z = Fin 0 -> key (n_add x z) = key x;
  zero_sub : forall x z : T, key x = Fin 0 -> key z = Fin 0 -> key (n_sub x z) = Fin 0;
  inv_inf : forall m : T, key m = PInf -> key (n_div n1 m) = Fin 0
}.
#[global] Instance Ord4_ER : Ord4 Ord_ER.
Proof.
  split; change (@key ER EReal Ord_ER) with (fun x : ER => x); cbv beta.
  - intros z x -> H. destruct x; try discriminate. simpl. f_equal. apply Rmult_0_l.
  - intros z x -> H. destruct x; try discriminate. simpl. f_equal. apply Rmult_0_r.
  - intros x z ->. destruct x; simpl; auto. f_equal. apply Rplus_0_r.
  - intros x z -> ->. simpl. f_equal. lra.
  - intros m ->. reflexivity.
Qed.
Lemma zero_key (z : f32) : B2ER z = Fin 0 -> exists s, z = B754_zero s.
Proof.
  destruct z as [s|[]| |s m e H]; intros E; try discriminate E; [eauto|]. exfalso.
  assert (E1 : B2R (B754_finite s m e H : f32) = 0%R) by (simpl in E; injection E as E; exact E).
  apply (F2R_neq_0 radix2 (Float radix2 (cond_Zopp s (Zpos m)) e)); [destruct s; discriminate|exact E1].
Qed.
#[global] Instance Ord4_F32 (L : Libm) : Ord4 (Ord_F32 L).
Proof.
  split; change (@key f32 (F32 L) (Ord_F32 L)) with B2ER.
  - intros z x Hz Hx. destruct (zero_key z Hz) as (s & ->). destruct x as [s'|[]| |s' m e H]; try discriminate Hx; reflexivity.
  - intros z x Hz Hx. destruct (zero_key z Hz) as (s & ->). destruct x as [s'|[]| |s' m e H]; try discriminate Hx; reflexivity.
  - intros x z Hz. destruct (zero_key z Hz) as (s & ->). destruct x as [s'|[]| |s' m e H]; try reflexivity. simpl. destruct (Bool.eqb s' s); reflexivity.
  - intros x z Hx Hz. destruct (zero_key z Hz) as (s & ->). destruct (zero_key x Hx) as (s' & ->). simpl. destruct (Bool.eqb s' (negb s)); reflexivity.
  - intros m Hm. destruct m as [s|[]| |s m e H]; try discriminate Hm. reflexivity.
Qed.

Section Inf.
  Context {T : Type} {N : Num T} {O : Ord N} {O4 : Ord4 O}.
  Definition mkeyzero (m : Mat3 T) : Prop :=
    key (m11 m) = Fin 0 /\ key (m12 m) = Fin 0 /\ key (m13 m) = Fin 0 /\ key (m21 m) = Fin 0 /\ key (m22 m) = Fin 0 /\ key (m23 m) = Fin 0 /\
    key (m31 m) = Fin 0 /\ key (m32 m) = Fin 0 /\ key (m33 m) = Fin 0.
  Lemma isfin_zero (z : T) : key z = Fin 0 -> n_isfin z = true.
  Proof. rewrite key_isfin. intros ->. reflexivity. Qed.
  Lemma zero_add2 (x z : T) : key x = Fin 0 -> key z = Fin 0 -> key (n_add x z) = Fin 0.
  Proof. intros Hx Hz. rewrite zero_add; assumption. Qed.
  Ltac zeros := first [assumption | apply zero_add2; zeros | apply zero_sub; zeros
    | apply zero_mul_l; [solve [zeros] | first [assumption | apply isfin_zero; solve [zeros]]]
    | apply zero_mul_r; [solve [zeros] | first [assumption | apply isfin_zero; solve [zeros]]]].
  Lemma mulmm_zero_r (a b : Mat3 T) : mfinite a -> mkeyzero b -> mkeyzero (mulmm a b).
  Proof.
    intros ((A1 & A2 & A3) & (A4 & A5 & A6) & (A7 & A8 & A9)) (B1 & B2 & B3 & B4 & B5 & B6 & B7 & B8 & B9). cbn [vx vy vz] in *.
    unfold mkeyzero, mulmm. cbn [m11 m12 m13 m21 m22 m23 m31 m32 m33]. repeat split; zeros.
  Qed.
  Lemma mulmm_zero_l (a b : Mat3 T) : mfinite b -> mkeyzero a -> mkeyzero (mulmm a b).
  Proof.
    intros ((A1 & A2 & A3) & (A4 & A5 & A6) & (A7 & A8 & A9)) (B1 & B2 & B3 & B4 & B5 & B6 & B7 & B8 & B9). cbn [vx vy vz] in *.
    unfold mkeyzero, mulmm. cbn [m11 m12 m13 m21 m22 m23 m31 m32 m33]. repeat split; zeros.
  Qed.
  Lemma mtrans_finite (a : Mat3 T) : mfinite a -> mfinite (mtrans a).
  Proof. intros ((A1 & A2 & A3) & (A4 & A5 & A6) & (A7 & A8 & A9)). cbn [vx vy vz] in *. repeat split; assumption. Qed.
  Lemma inverse_zero (m : Mat3 T) : mkeyzero m -> mtry_inverse m = None.
  Proof.
    intros (B1 & B2 & B3 & B4 & B5 & B6 & B7 & B8 & B9). unfold mtry_inverse. cbv zeta.
    match goal with |- (if ?c then _ else _) = None => assert (E : c = true) end; [|rewrite E; reflexivity].
    rewrite key_eq, key_0. match goal with |- er_eq ?k _ = true => assert (E : k = Fin 0) by zeros end. rewrite E. simpl.
    destruct (Req_EM_T 0 0); [reflexivity|lra].
  Qed.
  Lemma mzero_key : mkeyzero (mzero : Mat3 T).
  Proof. unfold mkeyzero, mzero; cbn [m11 m12 m13 m21 m22 m23 m31 m32 m33]. repeat split; apply key_0. Qed.
  (** A stiff entity: no inverse tensor and no inverse mass. *)
  Lemma stiff_inverse e : e_prep_moi e = mzero -> mfinite (qto_matrix (o_rot (e_orient e))) -> get_inverse_moment (T:=T) e = mzero.
  Proof.
    intros Hm Hq. unfold get_inverse_moment, get_moment, finalize_moment, rotate_moment. rewrite Hm. cbv zeta.
    rewrite inverse_zero; [reflexivity|]. apply mulmm_zero_l; [apply mtrans_finite, Hq|]. apply mulmm_zero_r; [exact Hq|apply mzero_key].
  Qed.
  Lemma mzero_mulmv (v : Vec3 T) : vfinite v -> key (vx (mulmv mzero v)) = Fin 0 /\ key (vy (mulmv mzero v)) = Fin 0 /\ key (vz (mulmv mzero v)) = Fin 0.
  Proof.
    intros (A & B & C). pose proof (key_0 (T:=T)) as Z. unfold mulmv, mzero. cbn [m11 m12 m13 m21 m22 m23 m31 m32 m33 vx vy vz].
    repeat split; zeros.
  Qed.
  Lemma stiff_impulse e p j : key (e_total_mass e) = PInf -> e_prep_moi e = mzero -> mfinite (qto_matrix (o_rot (e_orient e))) ->
    vfinite j -> vfinite (vcross (vsub p (o_pos (e_orient e))) j) ->
    vkey (e_vel (apply_impulse (T:=T) e p j)) = vkey (e_vel e) /\ vkey (e_angvel (apply_impulse e p j)) = vkey (e_angvel e).
  Proof.
    intros Ht Hm Hq (J1 & J2 & J3) Hc. pose proof (inv_inf _ Ht) as Hi.
    unfold apply_impulse. cbn [e_vel e_angvel e_set_vels]. rewrite (stiff_inverse e Hm Hq).
    destruct (mzero_mulmv _ Hc) as (M1 & M2 & M3). unfold vkey, vadd, vscale. cbn [vx vy vz]. split.
    - rewrite !zero_add; [reflexivity| | |]; zeros.
    - rewrite !zero_add by assumption. reflexivity.
  Qed.

  (** Which entities are stiff. *)
  Lemma infinite_stiff s h e c k : reachable s -> aget (s_ents s) h = Some e -> In c (e_colliders e) -> get_collider s c = Some k ->
    n_isinf (mass_of k) = true -> e_total_mass e = n_inf /\ e_prep_moi (T:=T) e = mzero.
  Proof.
    intros R He Hc Hk Hi.
    pose proof (reachable_mass (fun _ => True) (fun _ => Logic.I) (fun _ _ _ => Logic.I) s R) as M. destruct (M h e He) as (_ & C). clear M.
    destruct C as [(C1 & _)|(hs & e0 & e1 & P & _ & Rc & S1 & S2 & S3 & _)]; [rewrite C1 in Hc; destruct Hc|].
    rewrite <- S2, <- S3. unfold recalculate_mass in Rc. inv_ok Rc. destruct x as ((fi & m) & v). apply com_loop_spec in E. destruct fi.
    - rewrite andb_false_r in Rc. inv_ok Rc. subst e1. split; reflexivity.
    - exfalso. destruct E as (l & L & _). apply (Permutation_in _ (Permutation_sym P)) in Hc. clear - L Hc Hk Hi.
      induction L as [|a b l1 l2 (A & B) L IH]; [destruct Hc|]. destruct Hc as [->|Hc]; [|apply IH, Hc].
      unfold get_collider in Hk. rewrite Hk in A. injection A as <-. rewrite <- mass_of_c in B. congruence.
  Qed.
  Lemma infinite_impulse s h e p j : reachable s -> aget (s_ents s) h = Some e -> has_infinite s e ->
    finite_rotation e -> finite_impulse e p j ->
    vkey (e_vel (apply_impulse e p j)) = vkey (e_vel e) /\ vkey (e_angvel (apply_impulse e p j)) = vkey (e_angvel e).
  Proof.
    intros R He (c & k & Hc & Hk & Hi) Hq (Hj & Hx). destruct (infinite_stiff s h e c k R He Hc Hk Hi) as (Et & Em).
    apply stiff_impulse; auto. rewrite Et. apply key_inf.
  Qed.
  (** Neither side of a collision response moves a stiff entity. *)
  Lemma infinite_response s h e e2 f : reachable s -> aget (s_ents s) h = Some e -> has_infinite s e ->
    finite_rotation e ->
    (let j := collision_impulse e e2 (fd_rest f) (fd_col f) in
     let p := c_pos (fd_col f) in
     let fr := fst (friction (apply_impulse e p j) (apply_impulse e2 p (vneg j)) f j) in
     finite_impulse e p j -> finite_impulse e p fr ->
     vkey (e_vel (fst (fst (fst (respond_pair e e2 f))))) = vkey (e_vel e) /\
     vkey (e_angvel (fst (fst (fst (respond_pair e e2 f))))) = vkey (e_angvel e)) /\
    (let j := collision_impulse e2 e (fd_rest f) (fd_col f) in
     let p := c_pos (fd_col f) in
     let fr := fst (friction (apply_impulse e2 p j) (apply_impulse e p (vneg j)) f j) in
     finite_impulse e p (vneg j) -> finite_impulse e p (vneg fr) ->
     vkey (e_vel (snd (fst (fst (respond_pair e2 e f))))) = vkey (e_vel e) /\
     vkey (e_angvel (snd (fst (fst (respond_pair e2 e f))))) = vkey (e_angvel e)).
  Proof.
    intros R He (c & k & Hc & Hk & Hi) Hq. destruct (infinite_stiff s h e c k R He Hc Hk Hi) as (Et & Em).
    assert (Kt : key (e_total_mass e) = PInf) by (rewrite Et; apply key_inf).
    split; cbv zeta; intros (H1 & H2) (H3 & H4); unfold respond_pair;
      match goal with |- context [friction ?a ?b ?c ?d] => destruct (friction a b c d) as (fr & ic) eqn:F end;
      cbn [fst snd] in *.
    - destruct (stiff_impulse e (c_pos (fd_col f)) _ Kt Em Hq H1 H2) as (A1 & A2).
      destruct (stiff_impulse (apply_impulse e (c_pos (fd_col f)) (collision_impulse e e2 (fd_rest f) (fd_col f))) (c_pos (fd_col f)) fr Kt Em Hq H3 H4) as (B1 & B2).
      split; congruence.
    - destruct (stiff_impulse e (c_pos (fd_col f)) _ Kt Em Hq H1 H2) as (A1 & A2).
      destruct (stiff_impulse (apply_impulse e (c_pos (fd_col f)) (vneg (collision_impulse e2 e (fd_rest f) (fd_col f)))) (c_pos (fd_col f)) (vneg fr) Kt Em Hq H3 H4) as (B1 & B2).
      split; congruence.
  Qed.
  Context {O2 : Ord2 O}.
  (** Force generators do not move it either. *)
  Lemma infinite_unpushed ord s dt s' h e : good_order ord -> reachable s -> step ord s dt = Ok s' -> n_lt (n_abs dt) EPSILON = false ->
    n_isfin dt = true -> aget (s_ents s) h = Some e -> has_infinite s e -> finite_rotation e ->
    e_asleep e = false -> ~ named (s_records s') h ->
    exists e', aget (s_ents s') h = Some e' /\ vkey (e_vel e') = vkey (e_vel e) /\ vkey (e_angvel e') = vkey (e_angvel e).
  Proof.
    intros Ho R H Hd Fd He Hi Hq Hs Hn. destruct Hi as (c & k & Hc & Hk & Hi).
    destruct (infinite_stiff s h e c k R He Hc Hk Hi) as (Et & Em).
    destruct (step_bystander ord s dt s' h e Ho H Hd He Hn) as (fs & e' & Hf & He' & D).
    exists e'. split; [exact He'|]. destruct D as [(D1 & D2)|(D & _)]; [|congruence].
    assert (Ef : fs = []).
    { unfold forces_on in Hf. destruct Hf as (e0 & E0 & Hf). rewrite He in E0. injection E0 as <-.
      unfold pushable in Hf. rewrite Et in Hf.
      assert (X : n_isfin (n_inf : T) = false) by (rewrite key_isfin, key_inf; reflexivity). rewrite X in Hf. exact Hf. }
    subst fs. rewrite D1, D2. split; [apply unpushed_vel, Fd|].
    unfold pushed_angvel. rewrite (stiff_inverse e Em Hq).
    match goal with |- context [mulmv mzero ?v] => assert (V : vfinite v) end.
    { pose proof (key_0 (T:=T)) as Z. unfold Spec.vsum. cbn [map fold_left]. unfold vfinite, vscale, vzero. cbn [vx vy vz].
      repeat split; apply isfin_zero, zero_mul_l; assumption. }
    destruct (mzero_mulmv _ V) as (M1 & M2 & M3). unfold vkey, vadd. cbn [vx vy vz]. rewrite !zero_add by assumption. reflexivity.
  Qed.
End Inf.
