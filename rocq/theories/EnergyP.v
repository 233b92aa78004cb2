(** * EnergyP: without friction and forces a step does not create kinetic energy (C64) *)
From Coq Require Import ZArith Reals List Bool Arith Lra Lia Psatz.
Import ListNotations.
From Verif Require Import Num Vec Res Arena RangeM Orient Colliders Collide EntityM SystemM OrderP Spec PathSpec PhysSpec TraceSpec
  ResP ArenaP ArithP RangeP RealSpec RealV OrientP Orient2P PhysP Phys2P Phys3P Phys4P Mass4P TraceP.
Local Open Scope R_scope.

(** ** One body *)
Lemma struck_pushed b p j b' : sound b -> struck_by b p j b' -> b' = pushed b p j.
Proof.
  intros (Ma & _) ((E1 & E2 & E3) & Hv & Hi & Hn). destruct b' as [m t x v w]. cbn [b_mass b_tensor b_pos b_vel b_spin] in *. subst m t x. unfold pushed. f_equal.
  - destruct (b_mass b) as [m| | |]; cbn in Ma; try contradiction; cbn [inv_mass].
    + apply (f_equal (fun z => vscale z (/ m))) in Hv. assert (X : forall z : V, vscale (vscale z m) (/ m) = z) by (intros z; destruct z; apply vext; vunfold; field; lra).
      rewrite X in Hv. rewrite Hv. destruct (b_vel b), j. apply vext; vunfold; field; lra.
    + rewrite Hv. destruct (b_vel b), j. apply vext; vunfold; ring.
  - unfold b_inv. destruct (Req_EM_T (det (b_tensor b)) 0) as [D|D].
    + rewrite Hn by (intros I; apply invertible_det in I; contradiction). rewrite rinv_zero by exact D. rewrite mulmv_zero. destruct (b_spin b). apply vext; vunfold; ring.
    + assert (I : invertible (b_tensor b)) by now apply det_invertible. specialize (Hi I).
      assert (X : forall y z : V, mulmv (rinv (b_tensor b)) (vadd y z) = vadd (mulmv (rinv (b_tensor b)) y) (mulmv (rinv (b_tensor b)) z)).
      { intros y z. destruct (rinv (b_tensor b)), y, z. apply vext; munfold; ring. }
      apply (f_equal (mulmv (rinv (b_tensor b)))) in Hi. rewrite X in Hi. rewrite <- !mulmm_assoc_v, rinv_l, !mulmv_unit in Hi by exact D. exact Hi.
Qed.

Lemma mover_kinetic m b : unit_o (mv_o m) -> body_of m b -> kinetic b = mover_energy m.
Proof.
  intros U (E & T & _ & V & S). unfold kinetic, mover_energy. rewrite E, V, S. destruct (mv_mass m); try exact eq_refl. cbv zeta.
  now rewrite (turned_form _ _ _ _ _ U T).
Qed.
Lemma matrix_basis (a : M) : (forall x : V, mulmv a x = x) -> a = munit.
Proof.
  intros H. pose proof (H (mkV 1 0 0)) as A. pose proof (H (mkV 0 1 0)) as B. pose proof (H (mkV 0 0 1)) as C. destruct a as [a11 a12 a13 a21 a22 a23 a31 a32 a33].
  unfold munit. munfold. cbn in A, B, C. injection A as A1 A2 A3. injection B as B1 B2 B3. injection C as C1 C2 C3. f_equal; lra.
Qed.
Lemma turned_invertible q i0 t : unit_quat q -> turned_tensor q i0 t -> invertible i0 -> invertible t.
Proof.
  intros U T (b & Hb). exists (rotate_moment b q). apply matrix_basis. intros x. rewrite mulmm_assoc_v.
  pose proof (rotate_turned b q U) as Tb. rewrite <- (qrot_qinv_r q x U). rewrite Tb, T, <- mulmm_assoc_v, Hb, mulmv_unit. exact eq_refl.
Qed.
Lemma turned_zero q t : unit_quat q -> turned_tensor q (mkM 0 0 0 0 0 0 0 0 0) t -> t = mkM 0 0 0 0 0 0 0 0 0.
Proof.
  intros U T. assert (H : forall x : V, mulmv t x = mkV 0 0 0).
  { intros x. rewrite <- (qrot_qinv_r q x U), T, mulmv_zero. destruct q. apply vext; qunfold; ring. }
  pose proof (H (mkV 1 0 0)) as A. pose proof (H (mkV 0 1 0)) as B. pose proof (H (mkV 0 0 1)) as C. destruct t as [a11 a12 a13 a21 a22 a23 a31 a32 a33].
  munfold. cbn in A, B, C. injection A as A1 A2 A3. injection B as B1 B2 B3. injection C as C1 C2 C3. f_equal; lra.
Qed.
Lemma mover_ordinary m b : unit_o (mv_o m) -> body_of m b -> ordinary_mover m -> ordinary b.
Proof.
  intros U (E & T & _ & V & S). unfold ordinary_mover, ordinary, at_rest. rewrite E, V, S.
  destruct (mv_mass m); [intros [I|Z]; [left; exact (turned_invertible _ _ _ U T I)|right; exact Z]|..];
    intros (Z & A & B); rewrite Z in T; split; auto; exact (turned_zero _ _ U T).
Qed.

(** ** Gliding keeps the energy *)
Lemma turns_axis f v x : turns_by f v -> 0 < vlen v -> (exists k, x = vscale v k) -> f x = x.
Proof.
  intros T L (k & ->). rewrite T. set (n := vlen v) in *. set (c := cos n). set (s := sin n).
  assert (D : vdot v v = n * n) by (symmetry; apply sqrt_sqrt, vdot_pos).
  assert (A : vcross (vscale v (/ n)) (vscale v k) = mkV 0 0 0) by (destruct v; apply vext; vunfold; ring).
  assert (B : vdot (vscale v (/ n)) (vscale v k) = n * k).
  { replace (vdot (vscale v (/ n)) (vscale v k)) with (/ n * k * vdot v v) by (destruct v; vunfold; ring). rewrite D. field. lra. }
  rewrite A, B. destruct v. apply vext; vunfold; field; lra.
Qed.
Lemma turned_on_spin q v q' w : unit_quat q -> turned_on q v q' -> (exists k, w = vscale v k) -> qrot (qinv q') w = qrot (qinv q) w.
Proof.
  intros U (r & Ur & -> & H) Hk. 
  assert (F : qrot r w = w).
  { destruct H as [T|(_ & ->)].
    - destruct (Rle_lt_or_eq_dec 0 (vlen v) (sqrt_pos _)) as [L|L]; [now apply (turns_axis _ v)|].
      assert (Z : v = mkV 0 0 0) by (apply vdot_zero; apply sqrt_eq_0; [apply vdot_pos|symmetry; exact L]). destruct Hk as (k & ->). rewrite Z.
      destruct r. apply vext; qunfold; ring.
    - destruct w. apply vext; qunfold; ring. }
  assert (G : qrot (qinv r) w = w) by (rewrite <- F at 1; now apply qrot_qinv_l).
  assert (E : qinv (qmul r q) = qmul (qinv q) (qinv r)) by (destruct r, q; unfold qinv, qmul; cbn; f_equal; ring).
  rewrite E, qrot_mul by (apply unit_qinv; assumption). now rewrite G.
Qed.
Lemma glides_energy m t m' : unit_o (mv_o m) -> glides m t m' -> mover_energy m' = mover_energy m.
Proof.
  intros U (A & B & C & D & _ & _ & O). unfold mover_energy. rewrite A, B, C, D. destruct (mv_mass m); try exact eq_refl. cbv zeta.
  destruct (mv_awake m'); [|now rewrite O]. destruct O as (_ & T).
  destruct (Req_EM_T t 0) as [Z|Z].
  - assert (T0 : turned_on (o_rot (mv_o m)) (vscale (mv_spin m) t) (o_rot (mv_o m'))) by exact T. destruct T0 as (q & Uq & E & H).
    rewrite Z in H. assert (V0 : vscale (mv_spin m) 0 = mkV 0 0 0) by (destruct (mv_spin m); apply vext; vunfold; ring). rewrite V0 in H.
    assert (F : forall x, qrot q x = x).
    { intros x. destruct H as [H|(_ & ->)]; [|destruct x; apply vext; qunfold; ring]. rewrite H.
      assert (L : vlen (mkV 0 0 0) = 0) by (unfold vlen; replace (vdot (mkV 0 0 0) (mkV 0 0 0)) with 0 by (vunfold; ring); apply sqrt_0).
      rewrite L, cos_0, sin_0. destruct x. apply vext; vunfold; ring. }
    assert (G : forall x, qrot (qinv q) x = x) by (intros x; rewrite <- (F x) at 1; now apply qrot_qinv_l).
    assert (Ei : qinv (qmul q (o_rot (mv_o m))) = qmul (qinv (o_rot (mv_o m))) (qinv q)) by (destruct q, (o_rot (mv_o m)); unfold qinv, qmul; cbn; f_equal; ring).
    rewrite E, Ei, qrot_mul by (apply unit_qinv; assumption). now rewrite G.
  - rewrite (turned_on_spin _ _ _ (mv_spin m) U T); [exact eq_refl|]. exists (/ t). destruct (mv_spin m). apply vext; vunfold; field; exact Z.
Qed.
Lemma glides_sound m t m' : sound_mover m -> glides m t m' -> sound_mover m'.
Proof.
  intros (A & B & U) (E1 & E2 & _ & _ & _ & _ & O). split; [now rewrite E1|]. split; [now rewrite E2|]. unfold unit_o in *.
  destruct (mv_awake m'); [|now rewrite O]. destruct O as (_ & r & Ur & -> & _). now apply unit_qmul.
Qed.
Lemma glides_ordinary m t m' : ordinary_mover m -> glides m t m' -> ordinary_mover m'.
Proof. unfold ordinary_mover. intros H (-> & -> & -> & -> & _). exact H. Qed.

(** ** One collision without friction *)
Lemma pushed_nothing b p : pushed b p (mkV 0 0 0) = b.
Proof.
  destruct b as [m i x v w]. unfold pushed. cbn [b_mass b_tensor b_pos b_vel b_spin]. f_equal.
  - destruct v. apply vext; vunfold; ring.
  - assert (E : vcross (vsub p x) (mkV 0 0 0) = mkV 0 0 0) by (destruct p, x; apply vext; vunfold; ring). rewrite E.
    assert (Z : mulmv (b_inv (mkBody m i x v w)) (mkV 0 0 0) = mkV 0 0 0) by (destruct (b_inv _); apply vext; munfold; ring). rewrite Z. destruct w. apply vext; vunfold; ring.
Qed.
Lemma pushed_ordinary b p j : ordinary b -> ordinary (pushed b p j).
Proof.
  unfold ordinary, at_rest. unfold pushed. cbn [b_mass b_tensor b_vel b_spin]. unfold b_inv.
  assert (Z : forall m, det m = 0 -> forall w x : V, w = mkV 0 0 0 -> vadd w (mulmv (rinv m) x) = mkV 0 0 0).
  { intros m D w x ->. rewrite rinv_zero, mulmv_zero by exact D. apply vext; vunfold; ring. }
  assert (D0 : det (mkM 0 0 0 0 0 0 0 0 0) = 0) by (unfold det; cbn; ring).
  destruct (b_mass b) as [m| | |]; cbn [inv_mass].
  - intros [I|W]; [left; exact I|]. destruct (Req_EM_T (det (b_tensor b)) 0) as [D|D]; [right; now apply Z|left; now apply det_invertible].
  - intros (T & V & W). split; [exact T|]. rewrite T. split; [rewrite V; destruct j; apply vext; vunfold; ring|]. now apply Z.
  - intros (T & V & W). split; [exact T|]. rewrite T. split; [rewrite V; destruct j; apply vext; vunfold; ring|]. now apply Z.
  - intros (T & V & W). split; [exact T|]. rewrite T. split; [rewrite V; destruct j; apply vext; vunfold; ring|]. now apply Z.
Qed.
Lemma impact_slippery p n rest thr k b1 b2 c1 c2 : sound b1 -> sound b2 -> impact p n rest (Fin 0) (Fin 0) thr k b1 b2 c1 c2 ->
  c1 = pushed b1 p (vscale n k) /\ c2 = pushed b2 p (vneg (vscale n k)) /\ vdot (relative c1 c2 p) n = - rest * vdot (relative b1 b2 p) n.
Proof.
  intros S1 S2 (a1 & a2 & q & A1 & A2 & Re & _ & _ & Q & _ & C1 & C2). cbv zeta in *.
  apply struck_pushed in A1; [|exact S1]. apply struck_pushed in A2; [|exact S2].
  destruct (Q 0 0 eq_refl eq_refl (Rle_refl 0) (Rle_refl 0)) as (_ & L). rewrite Rmax_left, Rmult_0_l in L by lra.
  set (fr := vscale _ (- q)) in *.
  assert (Z : fr = mkV 0 0 0) by (apply vdot_zero, sqrt_eq_0; [apply vdot_pos|]; apply Rle_antisym; [exact L|apply sqrt_pos]). rewrite Z in C1, C2.
  assert (N : vneg (mkV 0 0 0) = mkV 0 0 0) by (apply vext; vunfold; ring). rewrite N in C2.
  apply struck_pushed in C1; [|rewrite A1; exact S1]. apply struck_pushed in C2; [|rewrite A2; exact S2]. rewrite pushed_nothing in C1, C2. subst. auto.
Qed.
Lemma impact_energy p n rest thr k b1 b2 c1 c2 : sound b1 -> sound b2 -> ordinary b1 -> ordinary b2 -> vdot n n = 1 ->
  impact p n rest (Fin 0) (Fin 0) thr k b1 b2 c1 c2 -> 0 <= rest <= 1 ->
  kinetic c1 + kinetic c2 <= kinetic b1 + kinetic b2 /\ (rest = 1 -> kinetic c1 + kinetic c2 = kinetic b1 + kinetic b2).
Proof.
  intros S1 S2 O1 O2 Hn Im Hr. destruct (impact_slippery _ _ _ _ _ _ _ _ _ S1 S2 Im) as (-> & -> & Re).
  assert (B : (b_mass b1 = PInf /\ b_mass b2 = PInf) \/ (b_mass b1 <> PInf \/ b_mass b2 <> PInf)).
  { destruct (b_mass b1); try (right; left; discriminate). destruct (b_mass b2); try (right; right; discriminate). auto. }
  destruct B as [(P1 & P2)|Hmm].
  { unfold kinetic, pushed. cbn [b_mass]. rewrite P1, P2. split; intros; lra. }
  pose proof (denominator_pos b1 b2 p n S1 S2 Hmm) as HK.
  assert (Ek : k = - (1 + rest) * vdot (relative b1 b2 p) n / denominator b1 b2 p n).
  { apply (Rmult_eq_reg_r (denominator b1 b2 p n)); [|lra]. unfold Rdiv. rewrite Rmult_assoc, Rinv_l, Rmult_1_r by lra.
    unfold relative in Re at 1. rewrite vneg_scale in Re.
    assert (E : forall x y : V, vdot (vsub x y) n = vdot x n - vdot y n) by (intros; destruct n; vunfold; ring).
    rewrite E, !pushed_normal, Hn in Re. 
    assert (U : vdot (relative b1 b2 p) n = vdot (speed_at b1 p) n - vdot (speed_at b2 p) n) by (unfold relative; apply E).
    unfold denominator. rewrite U in *. lra. }
  rewrite Ek. split; [exact (energy_drops b1 b2 p n rg_unit rest S1 S2 Hmm Hn Hr O1 O2)|intros R1; exact (energy_kept b1 b2 p n rg_unit rest S1 S2 Hmm Hn R1 O1 O2)].
Qed.

(** ** Sums *)
Lemma rsum_one hs (f g : handle -> R) a : NoDup hs -> In a hs -> (forall h, In h hs -> h <> a -> f h = g h) ->
  rsum (map f hs) = rsum (map g hs) + (f a - g a).
Proof.
  induction hs as [|x hs IH]; intros ND Ha H; [destruct Ha|]. apply NoDup_cons_iff in ND. destruct ND as (Nx & ND). cbn [map rsum fold_right]. fold (rsum (map f hs)). fold (rsum (map g hs)).
  destruct (handle_eq_dec x a) as [->|Ne].
  - assert (E : map f hs = map g hs) by (apply map_ext_in; intros h Hh; apply H; [now right|congruence]). rewrite E. ring.
  - destruct Ha as [->|Ha]; [contradiction|]. rewrite (IH ND Ha) by (intros h Hh; apply H; now right). rewrite (H x (or_introl eq_refl) Ne). ring.
Qed.
Lemma rsum_two hs (f g : handle -> R) a b : NoDup hs -> In a hs -> In b hs -> a <> b -> (forall h, In h hs -> h <> a -> h <> b -> f h = g h) ->
  rsum (map f hs) = rsum (map g hs) + (f a + f b - (g a + g b)).
Proof.
  intros ND Ha Hb Ne H. set (m := fun h => if handle_eq_dec h a then f h else g h).
  rewrite (rsum_one hs f m b ND Hb).
  - rewrite (rsum_one hs m g a ND Ha).
    + unfold m. destruct (handle_eq_dec a a); [|contradiction]. destruct (handle_eq_dec b a); [congruence|]. ring.
    + intros h Hh N. unfold m. destruct (handle_eq_dec h a); [contradiction|exact eq_refl].
  - intros h Hh N. unfold m. destruct (handle_eq_dec h a); [exact eq_refl|now apply H].
Qed.

(** ** The whole trace *)
Lemma with_speed_body m b c : body_of m b -> same_inertia c b -> body_of (with_speed m c) c.
Proof. intros (A & B & C & _) (D & E & F). unfold with_speed, body_of. cbn [mv_mass mv_tensor mv_o mv_vel mv_spin]. rewrite D, E, F. auto. Qed.
Lemma turned_back q i0 t : unit_quat q -> turned_tensor q i0 t -> turned_tensor (qinv q) t i0.
Proof. intros U T x. rewrite <- (qrot_qinv_r q x U) at 2. rewrite T, qrot_qinv_l by exact U. exact eq_refl. Qed.
Lemma with_speed_ordinary m b p j : sound_mover m -> body_of m b -> ordinary_mover m -> ordinary_mover (with_speed m (pushed b p j)).
Proof.
  intros (_ & _ & U) B O. pose proof (pushed_ordinary b p j (mover_ordinary _ _ U B O)) as P. revert P O. destruct B as (E & T & _ & V & W).
  unfold ordinary_mover, ordinary, at_rest, with_speed. cbn [mv_mass mv_tensor mv_vel mv_spin]. change (b_mass (pushed b p j)) with (b_mass b). change (b_tensor (pushed b p j)) with (b_tensor b). rewrite E.
  destruct (mv_mass m); [|tauto..]. intros [I|Z] _; [left|right; exact Z].
  exact (turned_invertible _ _ _ (unit_qinv _ U) (turned_back _ _ _ U T) I).
Qed.
Section Energy.
  Variables (s : system ER) (d : R) (w0 : handle -> mover).
  Hypotheses (Hsl : slippery s) (Hlo : lossy s).
  Hypothesis H0 : forall h, get_entity s h <> None -> sound_mover (w0 h) /\ ordinary_mover (w0 h).
  Definition idle (w : handle -> mover) : Prop := forall h, get_entity s h <> None -> mv_awake (w h) = false -> mv_vel (w h) = mkV 0 0 0 /\ mv_spin (w h) = mkV 0 0 0.
  Lemma trace_energy rs ts w t : trace s d w0 rs ts w t -> forall hs, NoDup hs -> (forall h, In h hs <-> get_entity s h <> None) ->
    (forall h, get_entity s h <> None -> sound_mover (w h) /\ ordinary_mover (w h)) /\
    total_energy hs w <= total_energy hs w0 /\ (elastic s -> total_energy hs w = total_energy hs w0) /\ (idle w0 -> idle w).
  Proof.
    induction 1 as [|rs ts w t r w1 w2 t' ts' p n q1 q2 rest stat dyn thr k b1 b2 c1 c2 Tr IH _ _ Ne Et Ep En Un Er Ei Jo _ _ Gl Wk B1 B2 Im W1 W2 Wo _ _]; intros hs ND Hh.
    - split; [exact H0|]. split; [lra|]. split; auto.
    - destruct (IH hs ND Hh) as (I1 & I2 & I3 & I4).
      assert (G1 : forall h, get_entity s h <> None -> sound_mover (w1 h) /\ ordinary_mover (w1 h)).
      { intros h Hx. destruct (I1 h Hx) as (A & B). split; [exact (glides_sound _ _ _ A (Gl h Hx))|exact (glides_ordinary _ _ _ B (Gl h Hx))]. }
      assert (E1 : total_energy hs w1 = total_energy hs w).
      { unfold total_energy. f_equal. apply map_ext_in. intros h Hx. apply Hh in Hx. destruct (I1 h Hx) as ((_ & _ & U) & _). exact (glides_energy _ _ _ U (Gl h Hx)). }
      destruct Jo as (k1 & k2 & x1 & x2 & X1 & X2 & Y1 & Y2 & Z1 & Z2 & Rr & Rs & Rd & _).
      destruct (Hsl _ _ Z1) as (U1 & V1). destruct (Hsl _ _ Z2) as (U2 & V2). rewrite U1, U2, fin_mul, Rmult_0_l in Rs. rewrite V1, V2, fin_mul, Rmult_0_l in Rd. subst stat dyn.
      destruct (Hlo _ _ Z1) as (y1 & R1 & L1). destruct (Hlo _ _ Z2) as (y2 & R2 & L2). assert (Rr' := Rr). rewrite R1, R2, fin_mul in Rr'. apply fin_eq in Rr'.
      assert (Hr : 0 <= rest <= 1) by (rewrite Rr'; nra).
      assert (N1 : get_entity s (cr_first r) <> None) by congruence. assert (N2 : get_entity s (cr_second r) <> None) by congruence.
      destruct (G1 _ N1) as (S1 & O1). destruct (G1 _ N2) as (S2 & O2).
      pose proof (body_sound _ _ S1 B1) as Sb1. pose proof (body_sound _ _ S2 B2) as Sb2. pose proof S1 as (_ & _ & Uq1). pose proof S2 as (_ & _ & Uq2).
      pose proof (mover_ordinary _ _ Uq1 B1 O1) as Ob1. pose proof (mover_ordinary _ _ Uq2 B2 O2) as Ob2.
      destruct (impact_energy _ _ _ _ _ _ _ _ _ Sb1 Sb2 Ob1 Ob2 Un Im Hr) as (D1 & D2).
      destruct (impact_slippery _ _ _ _ _ _ _ _ _ Sb1 Sb2 Im) as (C1 & C2 & _).
      assert (Bc1 : body_of (w2 (cr_first r)) c1) by (rewrite W1; apply (with_speed_body _ b1); [exact B1|rewrite C1; repeat split]).
      assert (Bc2 : body_of (w2 (cr_second r)) c2) by (rewrite W2; apply (with_speed_body _ b2); [exact B2|rewrite C2; repeat split]).
      assert (K1 : mover_energy (w2 (cr_first r)) = kinetic c1) by (symmetry; apply mover_kinetic; [rewrite W1; exact Uq1|exact Bc1]).
      assert (K2 : mover_energy (w2 (cr_second r)) = kinetic c2) by (symmetry; apply mover_kinetic; [rewrite W2; exact Uq2|exact Bc2]).
      rewrite (mover_kinetic _ _ Uq1 B1) in D1, D2. rewrite (mover_kinetic _ _ Uq2 B2) in D1, D2. rewrite <- K1, <- K2 in D1, D2.
      assert (Ot : forall h, h <> cr_first r -> h <> cr_second r -> w2 h = w1 h).
      { intros h A B. apply Wo. intros (r' & [<-|[]] & [C|C]); contradiction. }
      assert (E2 : total_energy hs w2 = total_energy hs w1 + (mover_energy (w2 (cr_first r)) + mover_energy (w2 (cr_second r)) - (mover_energy (w1 (cr_first r)) + mover_energy (w1 (cr_second r))))).
      { unfold total_energy. apply (rsum_two hs (fun h => mover_energy (w2 h)) (fun h => mover_energy (w1 h))); auto; try (apply Hh; assumption). intros h _ A B. now rewrite Ot. }
      split; [|split; [|split]].
      + intros h Hx. destruct (handle_eq_dec h (cr_first r)) as [->|A].
        { rewrite W1, C1. split; [exact S1|now apply with_speed_ordinary]. }
        destruct (handle_eq_dec h (cr_second r)) as [->|B].
        { rewrite W2, C2. split; [exact S2|now apply with_speed_ordinary]. }
        rewrite Ot by assumption. now apply G1.
      + lra.
      + intros El. rewrite (El _ _ Z1), (El _ _ Z2), fin_mul in Rr. apply fin_eq in Rr. specialize (I3 El). rewrite D2 in E2 by lra. lra.
      + intros Id h Hx Ha. specialize (I4 Id).
        assert (Sl : forall h, get_entity s h <> None -> mv_awake (w1 h) = false -> mv_vel (w1 h) = mkV 0 0 0 /\ mv_spin (w1 h) = mkV 0 0 0).
        { intros g Hg Hq. destruct (Gl g Hg) as (_ & _ & -> & -> & _ & Wa & _). apply I4; [exact Hg|]. destruct (mv_awake (w g)); [rewrite Wa in Hq by exact eq_refl; discriminate|exact eq_refl]. }
        assert (Hit : forall g b p0 j, named [r] g -> get_entity s g <> None -> mv_awake (w1 g) = false -> sound_mover (w1 g) -> ordinary_mover (w1 g) -> body_of (w1 g) b ->
           mv_vel (with_speed (w1 g) (pushed b p0 j)) = mkV 0 0 0 /\ mv_spin (with_speed (w1 g) (pushed b p0 j)) = mkV 0 0 0).
        { intros g b p0 j Hn Hg Hq Sg Og Bg. pose proof (with_speed_ordinary _ _ p0 j Sg Bg Og) as P. unfold ordinary_mover in P. change (mv_mass (with_speed (w1 g) (pushed b p0 j))) with (mv_mass (w1 g)) in P.
          destruct (mv_mass (w1 g)) as [mm| | |] eqn:Em; [rewrite (Wk _ _ Hn Em) in Hq; discriminate|tauto..]. }
        destruct (handle_eq_dec h (cr_first r)) as [->|A].
        { rewrite W1, C1 in *. apply Hit; auto. exists r. split; [now left|now left]. }
        destruct (handle_eq_dec h (cr_second r)) as [->|B].
        { rewrite W2, C2 in *. apply Hit; auto. exists r. split; [now left|now right]. }
        rewrite Ot in * by assumption. now apply Sl.
  Qed.
End Energy.

(** ** The whole step *)
Lemma rsum_le hs (f g : handle -> R) : (forall h, In h hs -> f h <= g h) -> rsum (map f hs) <= rsum (map g hs).
Proof.
  induction hs as [|x hs IH]; intros H; cbn [map rsum fold_right]; [lra|]. fold (rsum (map f hs)). fold (rsum (map g hs)).
  pose proof (H x (or_introl eq_refl)). pose proof (IH (fun h Hh => H h (or_intror Hh))). lra.
Qed.
Definition stopped (m : mover) : mover :=
  if mv_awake m then m else mkMover (mv_mass m) (mv_tensor m) (mv_o m) (mkV 0 0 0) (mkV 0 0 0) false.
Lemma stopped_energy m : sound_mover m -> mover_energy (stopped m) <= mover_energy m.
Proof.
  intros (A & (_ & B) & _). unfold stopped. destruct (mv_awake m); [lra|]. unfold mover_energy. cbn [mv_mass mv_tensor mv_o mv_vel mv_spin].
  destruct (mv_mass m) as [x| | |]; try lra. cbn in A. cbv zeta. set (u := qrot _ (mv_spin m)).
  replace (qrot (qinv (o_rot (mv_o m))) (mkV 0 0 0)) with (mkV 0 0 0) by (destruct (o_rot (mv_o m)); apply vext; qunfold; ring).
  pose proof (B u) as Bu. pose proof (vdot_pos (mv_vel m)). assert (0 <= x * vdot (mv_vel m) (mv_vel m)) by (apply Rmult_le_pos; lra).
  set (e := mkV 0 0 0). assert (E1 : vdot e e = 0) by (unfold e; vunfold; ring). assert (E2 : vdot e (mulmv (mv_tensor m) e) = 0) by (unfold e; destruct (mv_tensor m); munfold; ring).
  rewrite E1, E2. lra.
Qed.
Lemma stopped_idle m : (mv_awake m = false -> mv_vel m = mkV 0 0 0 /\ mv_spin m = mkV 0 0 0) -> stopped m = m.
Proof. intros H. unfold stopped. destruct m as [a b c v w k]. cbn [mv_awake mv_mass mv_tensor mv_o mv_vel mv_spin] in *. destruct k; [exact eq_refl|]. destruct (H eq_refl) as (-> & ->). exact eq_refl. Qed.
Lemma ends_stored s h m : ends_as s h m -> stored_as s h (stopped m).
Proof.
  intros (e & A & B & C & D & E & F). exists e. split; [exact A|]. unfold stopped. destruct (mv_awake m); cbn [mv_mass mv_tensor mv_o mv_vel mv_spin]; auto 10.
Qed.

Lemma starts_unique d e fs m m' : starts_with d e fs m -> starts_with d e fs m' -> m = m'.
Proof.
  intros (A & B & C & D & E & F) (A' & B' & C' & D' & E' & F'). rewrite A in A'. rewrite B in B'. rewrite C in C'. rewrite D in D'. rewrite E in E'. rewrite F in F'.
  apply (f_equal rm) in B'. apply (f_equal ro) in C'. rewrite !rm_fin in B'. rewrite !ro_fin in C'. apply vfin_inj in D'. apply vfin_inj in E'. apply (f_equal negb) in F'. rewrite !negb_involutive in F'.
  destruct m, m'. cbn in *. congruence.
Qed.
Lemma step_energy ord s d s' w : good_order ord -> step ord s (Fin d) = Ok s' -> ahandles (s_gens s) = [] ->
  slippery s -> lossy s -> (forall h, get_entity s h <> None -> stored_as s h (w h) /\ sound_mover (w h) /\ ordinary_mover (w h)) ->
  Forall (clean s) (s_records s') ->
  exists w', (forall h, get_entity s h <> None -> stored_as s' h (w' h)) /\
    total_energy (ahandles (s_ents s)) w' <= total_energy (ahandles (s_ents s)) w /\
    (elastic s -> (forall h e, aget (s_ents s) h = Some e -> e_asleep e = true -> e_vel e = vfin (mkV 0 0 0) /\ e_angvel e = vfin (mkV 0 0 0)) ->
       total_energy (ahandles (s_ents s)) w' = total_energy (ahandles (s_ents s)) w).
Proof.
  intros Ho H Ge Sl Lo Hw Cl.
  set (hs := ahandles (s_ents s)).
  assert (Hh : forall h, In h hs <-> get_entity s h <> None).
  { intros h. unfold hs. rewrite ahandles_in. unfold get_entity. destruct (aget (s_ents s) h) as [x|]; cbn [option_map]; split; intros A; try discriminate; intros B; auto; discriminate. }
  assert (ND : NoDup hs) by apply ahandles_nodup.
  destruct (n_lt (n_abs (Fin d)) EPSILON) eqn:Hd.
  { unfold step in H. rewrite Hd in H. inv_ok H. subst s'. exists w. split; [|split; [lra|auto]]. intros h Hx. exact (proj1 (Hw h Hx)). }
  assert (Same : forall h e fs, aget (s_ents s) h = Some e -> forces_on s (Fin d) h fs -> forall m, stored_as s h m -> sound_mover m ->
     starts_with d e fs (mkMover (mv_mass m) (mv_tensor m) (mv_o m) (mv_vel m) (mv_spin m) (negb (e_asleep e)))).
  { intros h e fs He (e1 & He1 & F) m (pe & P & A & B & C & D & E) Sm. assert (e1 = e) by congruence. subst e1.
    unfold get_entity in P. rewrite He in P. injection P as <-. cbn [make_pub pe_last_total_mass pe_last_prep_moi pe_last_orient pe_vel pe_angvel] in *.
    assert (fs = []). { rewrite Ge in F. destruct (pushable e); [inversion F; exact eq_refl|exact F]. } subst fs.
    unfold starts_with. cbn [mv_mass mv_tensor mv_o mv_vel mv_spin mv_awake]. split; [exact A|]. split; [exact B|]. split; [exact C|].
    assert (Zv : Spec.vsum (T:=ER) (map (fun f => vscale (f_force f) (n_div n1 (e_total_mass e))) []) = vfin (mkV 0 0 0)) by (cbn; unfold vzero; rewrite fin_0; exact eq_refl).
    assert (Zw : Spec.vsum (T:=ER) (map (fun f => mulmv (last_moment (make_pub e)) (vcross (vsub (f_pos f) (o_pos (e_orient e))) (f_force f))) []) = vfin (mkV 0 0 0)) by (cbn; unfold vzero; rewrite fin_0; exact eq_refl).
    unfold pushed_vel, pushed_angvel. rewrite Zv, Zw, D, E, !vfin_scale.
    destruct (inside_body e (mkMover (mv_mass m) (mv_tensor m) (mv_o m) (mv_vel m) (mv_spin m) (negb (e_asleep e)))) as (b & Bb & _).
    { unfold inside. cbn [mv_mass mv_tensor mv_o mv_vel mv_spin mv_awake]. rewrite negb_involutive. auto 10. }
    { exact Sm. }
    rewrite (body_inverse _ _ Bb), mfin_mulmv, !vfin_add. rewrite negb_involutive.
    assert (Z : vscale (mkV 0 0 0) d = mkV 0 0 0) by (apply vext; vunfold; ring). rewrite Z.
    split; [f_equal; destruct (mv_vel m); apply vext; vunfold; ring|]. split; [|exact eq_refl].
    f_equal. destruct (mv_spin m), (b_inv b). apply vext; munfold; ring. }
  set (up := fun h m => match aget (s_ents s) h with Some e => mkMover (mv_mass m) (mv_tensor m) (mv_o m) (mv_vel m) (mv_spin m) (negb (e_asleep e)) | None => m end).
  assert (St : sound_start s d).
  { intros h e fs He F. assert (Hx : get_entity s h <> None) by (unfold get_entity; rewrite He; discriminate). destruct (Hw h Hx) as (A & B & _).
    eexists. split; [exact (Same h e fs He F (w h) A B)|]. exact B. }
  destruct (step_trace _ _ _ _ Ho H Hd St Cl) as (w0 & w1 & t & ts & S0 & T & En & _).
  assert (Ew : forall h, get_entity s h <> None -> w0 h = up h (w h)).
  { intros h Hx. destruct (S0 h Hx) as ((e & fs & He & F & Q) & _). destruct (Hw h Hx) as (A & B & _). pose proof (Same h e fs He F (w h) A B) as Q'.
    unfold up. rewrite He. exact (starts_unique _ _ _ _ _ Q Q'). }
  assert (Eu : total_energy hs w0 = total_energy hs w).
  { unfold total_energy. f_equal. apply map_ext_in. intros h Hx. apply Hh in Hx. rewrite (Ew h Hx). unfold up. destruct (aget (s_ents s) h); exact eq_refl. }
  assert (H0 : forall h, get_entity s h <> None -> sound_mover (w0 h) /\ ordinary_mover (w0 h)).
  { intros h Hx. split; [exact (proj2 (S0 h Hx))|]. destruct (Hw h Hx) as (_ & _ & O). rewrite (Ew h Hx). unfold up. destruct (aget (s_ents s) h); exact O. }
  destruct (trace_energy s d w0 Sl Lo H0 _ _ _ _ T hs ND Hh) as (I1 & I2 & I3 & I4).
  assert (Fin : exists w2, (forall h, get_entity s h <> None -> ends_as s' h (w2 h) /\ sound_mover (w2 h) /\ mover_energy (w2 h) = mover_energy (w1 h) /\
      mv_awake (w2 h) = mv_awake (w1 h) /\ mv_vel (w2 h) = mv_vel (w1 h) /\ mv_spin (w2 h) = mv_spin (w1 h))).
  { destruct (Nat.eqb (length (s_records s')) (s_iteration_max s)).
    - exists w1. intros h Hx. split; [exact (En h Hx)|]. split; [exact (proj1 (I1 h Hx))|auto].
    - assert (Ch : forall l, (forall h, In h l -> get_entity s h <> None) -> exists w2, forall h, In h l -> ends_as s' h (w2 h) /\ sound_mover (w2 h) /\ mover_energy (w2 h) = mover_energy (w1 h) /\
        mv_awake (w2 h) = mv_awake (w1 h) /\ mv_vel (w2 h) = mv_vel (w1 h) /\ mv_spin (w2 h) = mv_spin (w1 h)).
      { induction l as [|x l IH]; intros Hl; [exists w1; intros h []|].
        destruct IH as (w2 & W2); [intros h Hx; apply Hl; now right|]. assert (Hx : get_entity s x <> None) by (apply Hl; now left).
        destruct (En x Hx) as (m & G & Ga & E). destruct (I1 x Hx) as (Sx & _). pose proof Sx as (_ & _ & Ux).
        exists (fun h => if handle_eq_dec h x then m else w2 h). intros h Hi. cbv beta. destruct (handle_eq_dec h x) as [->|Ne].
        - split; [exact E|]. split; [exact (glides_sound _ _ _ Sx G)|]. split; [exact (glides_energy _ _ _ Ux G)|]. split; [exact Ga|].
          destruct G as (_ & _ & -> & -> & _). auto.
        - destruct Hi as [->|Hi]; [contradiction|]. now apply W2. }
      destruct (Ch hs (fun h Hx => proj1 (Hh h) Hx)) as (w2 & W2). exists w2. intros h Hx. apply W2, Hh, Hx. }
  destruct Fin as (w2 & W2). exists (fun h => stopped (w2 h)). split; [|split].
  - intros h Hx. apply ends_stored, (W2 h Hx).
  - assert (A : total_energy hs (fun h => stopped (w2 h)) <= total_energy hs w1).
    { unfold total_energy. apply rsum_le. intros h Hx. apply Hh in Hx. destruct (W2 h Hx) as (_ & S2 & <- & _). now apply stopped_energy. }
    lra.
  - intros El Sp. rewrite <- Eu, <- (I3 El). unfold total_energy. f_equal. apply map_ext_in. intros h Hx. apply Hh in Hx. destruct (W2 h Hx) as (_ & S2 & E & A & V & W).
    rewrite stopped_idle; [exact E|]. rewrite A, V, W. apply I4; [|exact Hx]. intros g Hg. rewrite (Ew g Hg). destruct (Hw g Hg) as ((pe & P & _ & _ & _ & D & F) & _).
    unfold up. unfold get_entity in P. destruct (aget (s_ents s) g) as [e|] eqn:He; [|discriminate]. injection P as <-. cbn [mv_awake mv_vel mv_spin make_pub pe_vel pe_angvel] in *. intros Hq. apply negb_false_iff in Hq.
    destruct (Sp g e He Hq) as (V0 & W0). rewrite V0 in D. rewrite W0 in F. apply vfin_inj in D. apply vfin_inj in F. auto.
Qed.
