(** * RealV: real vectors, and how the ideal arithmetic acts on finite values *)
From Coq Require Import ZArith Reals Bool Lra Lia.
From Verif Require Import Num Vec RangeM Orient Colliders Collide OrderP Spec RangeP RealSpec.
Local Open Scope R_scope.

Lemma vfin_inj a b : vfin a = vfin b -> a = b.
Proof. destruct a, b. unfold vfin. simpl. congruence. Qed.
Lemma vext (a b : V) : vx a = vx b -> vy a = vy b -> vz a = vz b -> a = b.
Proof. destruct a, b. simpl. congruence. Qed.

(** Everything except division, square roots and normalisation lifts by computation. *)
Lemma vfin_add a b : vadd (vfin a) (vfin b) = vfin (vadd a b). Proof. reflexivity. Qed.
Lemma vfin_sub a b : vsub (vfin a) (vfin b) = vfin (vsub a b). Proof. reflexivity. Qed.
Lemma vfin_neg a : vneg (vfin a) = vfin (vneg a). Proof. reflexivity. Qed.
Lemma vfin_scale a k : vscale (vfin a) (Fin k) = vfin (vscale a k). Proof. reflexivity. Qed.
Lemma vfin_dot a b : vdot (vfin a) (vfin b) = Fin (vdot a b). Proof. reflexivity. Qed.
Lemma vfin_cross a b : vcross (vfin a) (vfin b) = vfin (vcross a b). Proof. reflexivity. Qed.
Lemma vfin_zero : vzero = vfin vzero. Proof. reflexivity. Qed.
Lemma fin_add a b : n_add (Fin a) (Fin b) = Fin (a + b). Proof. reflexivity. Qed.
Lemma fin_sub a b : n_sub (Fin a) (Fin b) = Fin (a - b). Proof. reflexivity. Qed.
Lemma fin_mul a b : n_mul (Fin a) (Fin b) = Fin (a * b). Proof. reflexivity. Qed.
Lemma fin_neg a : n_neg (Fin a) = Fin (- a). Proof. reflexivity. Qed.
Lemma fin_abs a : n_abs (Fin a) = Fin (Rabs a). Proof. reflexivity. Qed.
Lemma fin_div a b : b <> 0 -> n_div (Fin a) (Fin b) = Fin (a / b).
Proof. apply er_div_fin. Qed.
Lemma fin_sqrt a : 0 <= a -> n_sqrt (Fin a) = Fin (sqrt a).
Proof. intros H. simpl. destruct (Rlt_dec a 0); auto. lra. Qed.
Lemma fin_0 : n0 = Fin 0. Proof. unfold n0. simpl. f_equal. lra. Qed.
Lemma fin_1 : n1 = Fin 1. Proof. unfold n1. simpl. f_equal. lra. Qed.
Lemma fin_2 : n2 = Fin 2. Proof. unfold n2. simpl. f_equal. lra. Qed.
Lemma fin_m1 : nm1 = Fin (-1). Proof. unfold nm1. rewrite fin_1. simpl. f_equal. Qed.
Lemma fin_half : nhalf = Fin (1 / 2). Proof. reflexivity. Qed.
Lemma r_0 : n0 = 0. Proof. unfold n0. simpl. lra. Qed.
Lemma r_1 : n1 = 1. Proof. unfold n1. simpl. lra. Qed.
Lemma r_2 : n2 = 2. Proof. unfold n2. simpl. lra. Qed.

Ltac vunfold := cbv [vdot vadd vsub vneg vscale vcross vnorm2 vzero vx vy vz n_add n_sub n_mul n_neg RNum n0 n1 n2 n_frac] in *.

Lemma vdot_pos (a : V) : 0 <= vdot a a.
Proof. vunfold. destruct a as [x y z]. pose proof (Rle_0_sqr x). pose proof (Rle_0_sqr y). pose proof (Rle_0_sqr z). unfold Rsqr in *. lra. Qed.
Lemma vdot_zero (a : V) : vdot a a = 0 -> a = mkV 0 0 0.
Proof.
  vunfold. destruct a as [x y z]. intros H. pose proof (Rle_0_sqr x). pose proof (Rle_0_sqr y). pose proof (Rle_0_sqr z). unfold Rsqr in *.
  f_equal; apply Rsqr_0_uniq; unfold Rsqr; lra.
Qed.
Lemma vdot_comm (a b : V) : vdot a b = vdot b a.
Proof. vunfold. ring. Qed.
Lemma cauchy (a b : V) : vdot a b * vdot a b <= vdot a a * vdot b b.
Proof.
  assert (H : vdot a a * vdot b b - vdot a b * vdot a b = vdot (vcross a b) (vcross a b)) by (vunfold; ring).
  pose proof (vdot_pos (vcross a b)). lra.
Qed.
Lemma vmag_fin a : vmag (vfin a) = Fin (sqrt (vdot a a)).
Proof. unfold vmag, vnorm2. rewrite vfin_dot. apply fin_sqrt, vdot_pos. Qed.
Lemma vdivs_fin a k : k <> 0 -> vdivs (vfin a) (Fin k) = vfin (vscale a (/ k)).
Proof. intros H. unfold vdivs. cbn [vx vy vz vfin]. rewrite !fin_div by auto. reflexivity. Qed.
Lemma sqrt_norm_pos (a : V) : a <> mkV 0 0 0 -> 0 < sqrt (vdot a a).
Proof. intros H. apply sqrt_lt_R0. destruct (vdot_pos a) as [|E]; auto. exfalso. apply H. now apply vdot_zero. Qed.
Lemma vnormalize_fin a : a <> mkV 0 0 0 -> vnormalize (vfin a) = vfin (vunit a).
Proof. intros H. unfold vnormalize. rewrite vmag_fin, vdivs_fin; auto. pose proof (sqrt_norm_pos a H). lra. Qed.
Lemma vscale_dot (a b : V) k : vdot (vscale a k) b = k * vdot a b.
Proof. vunfold. ring. Qed.
Lemma vunit_unit a : a <> mkV 0 0 0 -> vdot (vunit a) (vunit a) = 1.
Proof.
  intros H. pose proof (sqrt_norm_pos a H). pose proof (sqrt_sqrt (vdot a a) (vdot_pos a)) as S. unfold vunit.
  assert (E : forall k, vdot (vscale a k) (vscale a k) = k * k * vdot a a) by (intros; vunfold; ring).
  rewrite E. rewrite <- S at 3. field. lra.
Qed.
Lemma vnormalize_zero : vnormalize (vfin (mkV 0 0 0)) = mkV ENaN ENaN ENaN.
Proof.
  unfold vnormalize. rewrite vmag_fin. replace (vdot (mkV 0 0 0) (mkV 0 0 0)) with 0 by (vunfold; ring). rewrite sqrt_0.
  unfold vdivs, vfin. simpl. destruct (Req_EM_T 0 0); [|lra]. unfold er_inf_times. destruct (Req_EM_T 0 0); auto. lra.
Qed.

Lemma unit_range t : in_range (Fin t) rg_unit = true <-> 0 <= t <= 1.
Proof.
  unfold rg_unit. rewrite in_rg, orb_true_iff, !andb_true_iff. rewrite fin_0, fin_1. change (@n_le ER EReal) with er_le. rewrite !er_le_fin. lra.
Qed.
Lemma unit_range_fin x : in_range x rg_unit = true -> exists t, x = Fin t /\ 0 <= t <= 1.
Proof.
  destruct x as [t| | |]; intros H.
  - exists t. split; auto. now apply unit_range.
  - exfalso. unfold in_range, rg_unit, rg_range in H. revert H. simpl. rdec; simpl; discriminate.
  - exfalso. unfold in_range, rg_unit, rg_range in H. revert H. simpl. rdec; simpl; discriminate.
  - exfalso. unfold in_range, rg_unit, rg_range in H. revert H. simpl. rdec; simpl; discriminate.
Qed.
(** Cutting a range down to the step and taking its start gives the first instant. *)
Lemma cut_first (r : range ER) (P : R -> Prop) : (forall t, 0 <= t <= 1 -> (in_range (Fin t) r = true <-> P t)) ->
  let times := rg_intersect r rg_unit in
  if rg_is_empty times then forall t, 0 <= t <= 1 -> ~ P t
  else exists t, rg_min times = Fin t /\ first_instant P t.
Proof.
  intros HP times. assert (I : forall x, in_range x times = (in_range x r && in_range x rg_unit)%bool) by (intros; apply in_intersect).
  destruct (rg_is_empty times) eqn:E.
  - intros t Ht H. apply HP in H; auto. apply unit_range in Ht. specialize (I (Fin t)). rewrite H, Ht, in_nan in I; auto. discriminate.
  - destruct (ok_intersect r rg_unit) as [|Mm]; [unfold times in E; congruence|].
    destruct (in_min _ E Mm) as [H1 H2]. fold times in H1, Mm.
    pose proof (I (r_min times)) as Hm. rewrite H1 in Hm. symmetry in Hm. apply andb_true_iff in Hm. destruct Hm as [Hr Hu].
    destruct (unit_range_fin _ Hu) as (t & Et & Ht). exists t. unfold rg_min. rewrite E. split; [exact Et|]. split; auto.
    rewrite Et in Hr. split; [now apply HP|]. intros t' Ht' Hp. apply HP in Hp; auto. pose proof (I (Fin t')) as H.
    rewrite Hp, (proj2 (unit_range t') Ht') in H. unfold in_range in H. apply andb_true_iff in H. destruct H as [H _].
    rewrite Et in H. now apply er_le_fin in H.
Qed.
