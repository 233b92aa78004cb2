(** * Phys2P: momentum, restitution, energy and friction of a collision *)
From Coq Require Import ZArith Reals Lra Psatz Bool List.
Import ListNotations.
From Verif Require Import Num Vec Res Arena RangeM Orient Colliders Collide EntityM SystemM OrderP Spec ResP ArenaP FrameP RangeP RealSpec RealV OrientP PhysSpec PhysP.
Local Open Scope R_scope.

Lemma det_invertible m : det m <> 0 -> invertible m.
Proof. intros H. exists (rinv m). now apply rinv_r. Qed.
Lemma pushed_struck b p j : sound b -> struck_by b p j (pushed b p j).
Proof.
  intros [Hm _]. unfold struck_by. split; [apply pushed_same|]. split; [|split].
  - destruct (b_mass b) as [m| | |] eqn:E; cbn in Hm; try contradiction.
    + now apply pushed_linear.
    + unfold pushed. cbn [b_vel]. rewrite E. cbn [inv_mass]. destruct (b_vel b), j. apply vext; vunfold; ring.
  - intros I. unfold pushed. cbn [b_spin].
    assert (X : forall y z : V, mulmv (b_tensor b) (vadd y z) = vadd (mulmv (b_tensor b) y) (mulmv (b_tensor b) z)).
    { intros y z. destruct (b_tensor b), y, z. apply vext; munfold; ring. }
    rewrite X. unfold b_inv. rewrite <- mulmm_assoc_v, rinv_r, mulmv_unit by now apply invertible_det. exact eq_refl.
  - intros I. unfold pushed. cbn [b_spin]. unfold b_inv. rewrite rinv_zero.
    + rewrite mulmv_zero. destruct (b_spin b). apply vext; vunfold; ring.
    + destruct (Req_EM_T (det (b_tensor b)) 0) as [D|D]; [exact D|]. exfalso. now apply I, det_invertible.
Qed.
Lemma vlen_unit n k : vdot n n = 1 -> vlen (vscale n k) = Rabs k.
Proof.
  intros H. unfold vlen. assert (E : vdot (vscale n k) (vscale n k) = Rsqr k * vdot n n) by (unfold Rsqr; destruct n; vunfold; ring).
  rewrite E, H, Rmult_1_r. apply sqrt_Rsqr_abs.
Qed.
Lemma respond_found dt ta (f : found ER) st st' e1 e2 e1' e2' im ic : fd_h1 f <> fd_h2 f ->
  aget (l_ents st) (fd_h1 f) = Some e1 -> aget (l_ents st) (fd_h2 f) = Some e2 ->
  respond_pair e1 e2 f = (e1', e2', im, ic) -> respond dt ta f st = Ok st' ->
  aget (l_ents st') (fd_h1 f) = Some e1' /\ aget (l_ents st') (fd_h2 f) = Some e2' /\
  l_records st' = l_records st ++ [mkCR (fd_h1 f) (fd_h2 f) (c_pos (fd_col f)) (n_mul (l_ctp st) dt) (c_normal (fd_col f)) (fd_rest f) (vmag im)].
Proof.
  intros Hne G1 G2 P H. unfold respond in H. rewrite G1, G2 in H. cbn [unwrap rbind] in H. rewrite P in H.
  inv_ok H. inv_ok H. inv_ok H. inv_ok H. subst st'. cbn [l_ents l_records].
  split; [rewrite aget_aset_neq by congruence; eapply aget_aset_eq; exact G1|]. split; [|exact eq_refl].
  eapply aget_aset_eq. rewrite aget_aset_neq by congruence. exact G2.
Qed.

Section Respond.
  Variables (dt ta : ER) (f : found ER) (st st' : lstate ER) (b1 b2 : body) (p n : V) (rest : R).
  Hypothesis Hm : meeting st f b1 b2 p n rest.
  Hypothesis Hok : respond dt ta f st = Ok st'.

  Lemma respond_bodies : exists k q, let j := vscale n k in let a1 := pushed b1 p j in let a2 := pushed b2 p (vneg j) in
    let s := tangential (relative a1 a2 p) n in let fr := vscale s (- q) in
    k = - (1 + rest) * vdot (relative b1 b2 p) n / denominator b1 b2 p n /\
    q <= 1 /\ vdot s n = 0 /\
    (forall cs cd, rough f cs cd -> 0 <= q /\ (q * vlen s <= Rabs k * cs * denominator b1 b2 p n \/ q * vlen s <= Rabs k * cd * denominator b1 b2 p n)) /\
    (forall cs cd, fd_stat f = Fin cs -> fd_dyn f = Fin cd -> 0 < vlen s ->
       q = Rmin 1 (Rabs k * grip (fd_thr f) cs cd (vdot (relative a1 a2 p) n) (vlen s) * denominator b1 b2 p n / vlen s)) /\
    body_at st' (fd_h1 f) (pushed a1 p fr) /\ body_at st' (fd_h2 f) (pushed a2 p (vneg fr)) /\
    l_records st' = l_records st ++ [mkCR (fd_h1 f) (fd_h2 f) (vfin p) (n_mul (l_ctp st) dt) (vfin n) (Fin rest) (Fin (Rabs k))].
  Proof.
    destruct Hm as (Hne & (e1 & G1 & B1) & (e2 & G2 & B2) & S1 & S2 & Hmm & Hn & Hp & Hnn & Hr).
    destruct (fd_col f) as [ts cp cn] eqn:Ef. cbn [c_pos c_normal] in Hp, Hnn. subst cp cn.
    destruct (response e1 e2 b1 b2 p n f ts rest B1 B2 S1 S2 Hmm Hn Ef Hr) as (q & fr & Efr & Q1 & T & Q2 & Q4 & e1' & e2' & P & _ & _ & C1 & C2).
    cbv beta zeta in *. set (k := - (1 + rest) * vdot (relative b1 b2 p) n / denominator b1 b2 p n) in *.
    exists k, q. split; [exact eq_refl|]. split; [exact Q1|]. split; [exact T|]. rewrite (vlen_unit n k Hn) in Q2, Q4.
    split; [intros cs cd (R1 & R2 & R3 & R4); exact (Q2 cs cd R1 R2 R3 R4)|].
    split; [exact Q4|].
    pose proof (respond_found dt ta f st st' e1 e2 _ _ _ _ Hne G1 G2 P Hok) as (F1 & F2 & F3). rewrite Ef, Hr, vmag_fin in F3. cbn [c_pos c_normal] in F3.
    fold (vlen (vscale n k)) in F3. rewrite (vlen_unit n k Hn) in F3. subst fr.
    split; [exists e1'; split; [exact F1|exact C1]|]. split; [exists e2'; split; [exact F2|exact C2]|]. exact F3.
  Qed.

  Lemma sound12 : sound b1 /\ sound b2. Proof. destruct Hm as (_ & _ & _ & S1 & S2 & _). auto. Qed.
  Lemma respond_restitution : exists k a1 a2 fr c1 c2,
    struck_by b1 p (vscale n k) a1 /\ struck_by b2 p (vneg (vscale n k)) a2 /\
    vdot (relative a1 a2 p) n = - rest * vdot (relative b1 b2 p) n /\
    vdot fr n = 0 /\ struck_by a1 p fr c1 /\ struck_by a2 p (vneg fr) c2 /\
    body_at st' (fd_h1 f) c1 /\ body_at st' (fd_h2 f) c2 /\
    l_records st' = l_records st ++ [mkCR (fd_h1 f) (fd_h2 f) (vfin p) (n_mul (l_ctp st) dt) (vfin n) (Fin rest) (Fin (Rabs k))].
  Proof.
    destruct respond_bodies as (k & q & Ek & Q1 & T & _ & _ & C1 & C2 & Rc). cbv zeta in *. destruct sound12 as [S1 S2].
    pose proof Hm as (_ & _ & _ & _ & _ & Hmm & Hn & _).
    eexists k, _, _, _, _, _. split; [now apply pushed_struck|]. split; [now apply pushed_struck|]. split.
    { pose proof (restitution_law b1 b2 p n rg_unit rest S1 S2 Hmm Hn) as L. unfold after1, after2 in L. rewrite <- Ek in L. exact L. }
    split; [|split; [|split; [|split; [exact C1|split; [exact C2|exact Rc]]]]]; [|now apply pushed_struck|now apply pushed_struck].
    rewrite vscale_dot, T. ring.
  Qed.
  Lemma respond_angular m1 m2 c : b_mass b1 = Fin m1 -> b_mass b2 = Fin m2 -> invertible (b_tensor b1) -> invertible (b_tensor b2) ->
    exists c1 c2, body_at st' (fd_h1 f) c1 /\ body_at st' (fd_h2 f) c2 /\ same_inertia c1 b1 /\ same_inertia c2 b2 /\
      vadd (angular_momentum m1 c1 c) (angular_momentum m2 c2 c) = vadd (angular_momentum m1 b1 c) (angular_momentum m2 b2 c) /\
      vadd (vscale (b_vel c1) m1) (vscale (b_vel c2) m2) = vadd (vscale (b_vel b1) m1) (vscale (b_vel b2) m2).
  Proof.
    intros M1 M2 I1 I2. destruct respond_bodies as (k & q & Ek & Q1 & T & _ & _ & C1 & C2 & Rc). cbv zeta in *. destruct sound12 as [[P1 _] [P2 _]].
    rewrite M1 in P1. rewrite M2 in P2. cbn in P1, P2.
    set (j := vscale n k) in *. set (fr := vscale _ _) in *.
    eexists _, _. split; [exact C1|]. split; [exact C2|]. split; [repeat split|]. split; [repeat split|].
    rewrite !pushed_angular, !pushed_linear by assumption. destruct j, fr, p, c, (angular_momentum m1 b1 _), (angular_momentum m2 b2 _), (b_vel b1), (b_vel b2).
    split; apply vext; vunfold; ring.
  Qed.
  Lemma respond_frictionless : rough f 0 0 -> ordinary b1 -> ordinary b2 -> 0 <= rest <= 1 ->
    exists c1 c2, body_at st' (fd_h1 f) c1 /\ body_at st' (fd_h2 f) c2 /\ same_inertia c1 b1 /\ same_inertia c2 b2 /\
      kinetic c1 + kinetic c2 <= kinetic b1 + kinetic b2 /\ (rest = 1 -> kinetic c1 + kinetic c2 = kinetic b1 + kinetic b2).
  Proof.
    intros Ro O1 O2 Hr. destruct respond_bodies as (k & q & Ek & Q1 & T & Q2 & _ & C1 & C2 & Rc). cbv zeta in *. destruct sound12 as [S1 S2].
    destruct (Q2 0 0 Ro) as [Q3 Q4]. pose proof Hm as (_ & _ & _ & _ & _ & Hmm & Hn & _).
    set (a1 := pushed b1 p (vscale n k)) in *. set (a2 := pushed b2 p (vneg (vscale n k))) in *. set (s := tangential (relative a1 a2 p) n) in *.
    assert (Z : q * vlen s = 0).
    { assert (0 <= vlen s) by apply sqrt_pos. assert (0 <= q * vlen s) by now apply Rmult_le_pos. rewrite Rmult_0_r, Rmult_0_l in Q4. destruct Q4; lra. }
    assert (Fr : vscale s (- q) = mkV 0 0 0).
    { apply Rmult_integral in Z. destruct Z as [->|Z]; [destruct s; apply vext; vunfold; ring|].
      unfold vlen in Z. apply sqrt_eq_0 in Z; [|apply vdot_pos]. apply vdot_zero in Z. rewrite Z. apply vext; vunfold; ring. }
    rewrite Fr in C1, C2.
    assert (I : forall b, pushed b p (mkV 0 0 0) = b).
    { intros [m I x v w]. unfold pushed. cbn [b_mass b_tensor b_pos b_vel b_spin]. f_equal.
      - destruct v. apply vext; vunfold; ring.
      - assert (E : vcross (vsub p x) (mkV 0 0 0) = mkV 0 0 0) by (destruct p, x; apply vext; vunfold; ring). rewrite E.
        set (J := b_inv _). destruct J, w. apply vext; munfold; ring. }
    assert (N : vneg (mkV 0 0 0) = mkV 0 0 0 :> V) by (apply vext; vunfold; ring). rewrite N, !I in *.
    eexists _, _. split; [exact C1|]. split; [exact C2|]. split; [repeat split|]. split; [repeat split|].
    pose proof (energy_drops b1 b2 p n rg_unit rest S1 S2 Hmm Hn Hr O1 O2) as D. cbv beta zeta in D. rewrite <- Ek in D. split; [exact D|].
    intros R1. pose proof (energy_kept b1 b2 p n rg_unit rest S1 S2 Hmm Hn R1 O1 O2) as D'. cbv beta zeta in D'. rewrite <- Ek in D'. exact D'.
  Qed.
  Lemma respond_energy : ordinary b1 -> ordinary b2 -> 0 <= rest <= 1 ->
    exists k a1 a2 fr c1 c2, struck_by b1 p (vscale n k) a1 /\ struck_by b2 p (vneg (vscale n k)) a2 /\
      vdot (relative a1 a2 p) n = - rest * vdot (relative b1 b2 p) n /\
      kinetic a1 + kinetic a2 <= kinetic b1 + kinetic b2 /\ (rest = 1 -> kinetic a1 + kinetic a2 = kinetic b1 + kinetic b2) /\
      vdot fr n = 0 /\ struck_by a1 p fr c1 /\ struck_by a2 p (vneg fr) c2 /\ body_at st' (fd_h1 f) c1 /\ body_at st' (fd_h2 f) c2.
  Proof.
    intros O1 O2 Hr. destruct respond_bodies as (k & q & Ek & Q1 & T & _ & _ & C1 & C2 & Rc). cbv zeta in *. destruct sound12 as [S1 S2].
    pose proof Hm as (_ & _ & _ & _ & _ & Hmm & Hn & _).
    eexists k, _, _, _, _, _. split; [now apply pushed_struck|]. split; [now apply pushed_struck|]. split.
    { pose proof (restitution_law b1 b2 p n rg_unit rest S1 S2 Hmm Hn) as L. unfold after1, after2 in L. rewrite <- Ek in L. exact L. }
    split. { pose proof (energy_drops b1 b2 p n rg_unit rest S1 S2 Hmm Hn Hr O1 O2) as D. cbv beta zeta in D. rewrite <- Ek in D. exact D. }
    split. { intros R1. pose proof (energy_kept b1 b2 p n rg_unit rest S1 S2 Hmm Hn R1 O1 O2) as D. cbv beta zeta in D. rewrite <- Ek in D. exact D. }
    split; [|split; [|split; [|split; [exact C1|exact C2]]]]; [|now apply pushed_struck|now apply pushed_struck].
    rewrite vscale_dot, T. ring.
  Qed.
  Lemma respond_friction : exists k a1 a2 q c1 c2,
    struck_by b1 p (vscale n k) a1 /\ struck_by b2 p (vneg (vscale n k)) a2 /\
    let s := tangential (relative a1 a2 p) n in let fr := vscale s (- q) in let bound := Rabs ((1 + rest) * vdot (relative b1 b2 p) n) in
    vdot s n = 0 /\ vdot fr n = 0 /\ q <= 1 /\
    (forall cs cd, rough f cs cd -> 0 <= q /\ (vlen fr <= cs * bound \/ vlen fr <= cd * bound)) /\
    (forall cs cd, fd_stat f = Fin cs -> fd_dyn f = Fin cd -> 0 < vlen s ->
       q = Rmin 1 (grip (fd_thr f) cs cd (vdot (relative a1 a2 p) n) (vlen s) * bound / vlen s)) /\
    struck_by a1 p fr c1 /\ struck_by a2 p (vneg fr) c2 /\ body_at st' (fd_h1 f) c1 /\ body_at st' (fd_h2 f) c2 /\
    l_records st' = l_records st ++ [mkCR (fd_h1 f) (fd_h2 f) (vfin p) (n_mul (l_ctp st) dt) (vfin n) (Fin rest) (Fin (Rabs k))].
  Proof.
    destruct respond_bodies as (k & q & Ek & Q1 & T & Q2 & Q4 & C1 & C2 & Rc). cbv zeta in *. destruct sound12 as [S1 S2].
    pose proof Hm as (_ & _ & _ & _ & _ & Hmm & Hn & _). assert (HK := denominator_pos b1 b2 p n S1 S2 Hmm).
    assert (EB : Rabs k * denominator b1 b2 p n = Rabs ((1 + rest) * vdot (relative b1 b2 p) n)).
    { assert (X : (1 + rest) * vdot (relative b1 b2 p) n = - (k * denominator b1 b2 p n)) by (rewrite Ek; field; lra).
      rewrite X, Rabs_Ropp, Rabs_mult, (Rabs_pos_eq (denominator b1 b2 p n)) by lra. exact eq_refl. }
    rewrite <- EB.
    eexists k, _, _, q, _, _. split; [now apply pushed_struck|]. split; [now apply pushed_struck|].
    split; [exact T|]. split; [rewrite vscale_dot, T; ring|]. split; [exact Q1|]. split.
    { intros cs cd Ro. destruct (Q2 cs cd Ro) as (P & D). split; [exact P|].
      assert (E : forall v : V, vlen (vscale v (- q)) = q * vlen v).
      { intros v. unfold vlen. replace (vdot (vscale v (- q)) (vscale v (- q))) with (Rsqr q * vdot v v) by (unfold Rsqr; destruct v; vunfold; ring).
        rewrite sqrt_mult by (try apply Rle_0_sqr; apply vdot_pos). now rewrite sqrt_Rsqr. }
      rewrite E. destruct D as [D|D]; [left|right]; rewrite <- Rmult_assoc, (Rmult_comm _ (Rabs k)); exact D. }
    split; [intros cs cd R1 R2 Hs; rewrite (Q4 cs cd R1 R2 Hs); f_equal; field; lra|].
    split; [now apply pushed_struck|]. split; [now apply pushed_struck|]. split; [exact C1|]. split; [exact C2|exact Rc].
  Qed.
End Respond.
