(** * MoveP: collision detection does not depend on where the world is (C88) *)
From Coq Require Import ZArith Reals List Bool Lra Lia.
Import ListNotations.
From Verif Require Import Num Vec Res Arena RangeM Orient Colliders Collide EntityM SystemM OrderP Spec ResP RealSpec RealV OrientP PhysSpec PhysP RangeP CollideP Mass3P MoveSpec.
Local Open Scope R_scope.

(** ** Adding a number commutes with everything that is linear *)
Ltac er := cbn [n_add n_sub n_mul n_neg n_div n_lt n_isnan EReal er_add er_sub er_neg er_mul er_isnan er_lt].
Lemma shift_add (a b : ER) x : n_add (n_add a (Fin x)) b = n_add (n_add a b) (Fin x).
Proof. destruct a, b; er; try exact eq_refl. f_equal; ring. Qed.
Lemma shift_add_r (a b : ER) x : n_add a (n_add b (Fin x)) = n_add (n_add a b) (Fin x).
Proof. destruct a, b; er; try exact eq_refl. f_equal; ring. Qed.
Lemma shift_add2 (a b : ER) x y : n_add (n_add a (Fin x)) (n_add b (Fin y)) = n_add (n_add a b) (Fin (x + y)).
Proof. destruct a, b; er; try exact eq_refl. f_equal; ring. Qed.
Lemma shift_sub (a b : ER) x : n_sub (n_add a (Fin x)) b = n_add (n_sub a b) (Fin x).
Proof. destruct a, b; er; try exact eq_refl. f_equal; ring. Qed.
Lemma shift_sub2 (a b : ER) x y : n_sub (n_add a (Fin x)) (n_add b (Fin y)) = n_add (n_sub a b) (Fin (x - y)).
Proof. destruct a, b; er; try exact eq_refl. f_equal; ring. Qed.
Lemma shift_cancel (a b : ER) x : n_sub (n_add a (Fin x)) (n_add b (Fin x)) = n_sub a b.
Proof. destruct a, b; er; try exact eq_refl. f_equal; ring. Qed.
Lemma shift_neg (a : ER) x : n_neg (n_add a (Fin x)) = n_add (n_neg a) (Fin (- x)).
Proof. destruct a; er; try exact eq_refl. f_equal; ring. Qed.
Lemma shift_mul (a : ER) x k : n_mul (n_add a (Fin x)) (Fin k) = n_add (n_mul a (Fin k)) (Fin (x * k)).
Proof. destruct a; er; try exact eq_refl; unfold er_inf_times; [f_equal; ring| |]; destruct (Req_EM_T k 0); try exact eq_refl; destruct (Rlt_dec 0 k); exact eq_refl. Qed.
Lemma shift_mul_l (a : ER) x k : n_mul (Fin k) (n_add a (Fin x)) = n_add (n_mul (Fin k) a) (Fin (k * x)).
Proof. destruct a; er; try exact eq_refl; unfold er_inf_times; [f_equal; ring| |]; destruct (Req_EM_T k 0); try exact eq_refl; destruct (Rlt_dec 0 k); exact eq_refl. Qed.
Lemma shift_div (a : ER) x k : k <> 0 -> n_div (n_add a (Fin x)) (Fin k) = n_add (n_div a (Fin k)) (Fin (x / k)).
Proof.
  intros K. destruct a; er; try exact eq_refl; unfold er_div.
  - destruct (Req_EM_T k 0); [contradiction|]. cbn [er_add]. f_equal. field. exact K.
  - destruct (Rlt_dec k 0); exact eq_refl.
  - destruct (Rlt_dec k 0); exact eq_refl.
Qed.
Lemma shift_lt (a b : ER) x : n_lt (n_add a (Fin x)) (n_add b (Fin x)) = n_lt a b.
Proof. destruct a as [a| | |], b as [b| | |]; er; try exact eq_refl. destruct (Rlt_dec (a + x) (b + x)), (Rlt_dec a b); try exact eq_refl; exfalso; lra. Qed.
Lemma shift_nan (a : ER) x : n_isnan (n_add a (Fin x)) = n_isnan a.
Proof. destruct a; exact eq_refl. Qed.
Lemma shift_0 (a : ER) : n_add a (Fin 0) = a.
Proof. destruct a; er; try exact eq_refl. f_equal; ring. Qed.
Lemma unit_t_fin (t : ER) : unit_t t -> exists r, t = Fin r.
Proof.
  unfold unit_t. rewrite fin_0, fin_1. intros (A & B). destruct t as [r| | |]; [eauto| | |]; cbn in A, B; discriminate.
Qed.

(** ** Ranges *)
Definition rshift (x : R) (r : range ER) : range ER := mkR (n_add (r_min r) (Fin x)) (n_add (r_max r) (Fin x)).
Lemma rshift_range a b x : rg_range (n_add a (Fin x)) (n_add b (Fin x)) = rshift x (rg_range a b).
Proof. unfold rg_range. rewrite shift_lt. destruct (n_lt a b); exact eq_refl. Qed.
Lemma rshift_empty r x : rg_is_empty (rshift x r) = rg_is_empty r.
Proof. unfold rg_is_empty, rshift. cbn [r_min r_max]. now rewrite !shift_nan. Qed.
Lemma rshift_min r x : rg_min (rshift x r) = n_add (rg_min r) (Fin x).
Proof. unfold rg_min. rewrite rshift_empty. destruct (rg_is_empty r); exact eq_refl. Qed.
Lemma rshift_max r x : rg_max (rshift x r) = n_add (rg_max r) (Fin x).
Proof. unfold rg_max. rewrite rshift_empty. destruct (rg_is_empty r); exact eq_refl. Qed.
Lemma rshift_intersect a b x : rg_intersect (rshift x a) (rshift x b) = rshift x (rg_intersect a b).
Proof.
  destruct a as [a1 a2], b as [b1 b2]. unfold rg_intersect. rewrite !rshift_empty. destruct (_ || _); [exact eq_refl|]. cbv zeta. unfold rshift. cbn [r_min r_max]. rewrite !shift_lt.
  destruct (n_lt b1 a1), (n_lt a2 b2); rewrite shift_lt; match goal with |- context [n_lt ?a ?b] => destruct (n_lt a b) end; exact eq_refl.
Qed.
Lemma rshift_overlap a b x m : rg_linear_overlap (rshift x a) (rshift x b) m = rg_linear_overlap a b m.
Proof. unfold rg_linear_overlap. rewrite rshift_intersect, rshift_empty, !rshift_min, !rshift_max, !shift_cancel. exact eq_refl. Qed.

Section Move.
  Variable d : V.
  Notation sh := (move_v d).

  (** ** Vectors *)
  Lemma sh_sub a b : vsub (sh a) (sh b) = vsub a b.
  Proof. unfold move_v, vsub, vadd, vfin. cbn [vx vy vz]. now rewrite !shift_cancel. Qed.
  Lemma sh_add a b : vadd (sh a) b = sh (vadd a b).
  Proof. unfold move_v, vsub, vadd, vfin. cbn [vx vy vz]. now rewrite !shift_add. Qed.
  Lemma add_sh a b : vadd a (sh b) = sh (vadd a b).
  Proof. unfold move_v, vsub, vadd, vfin. cbn [vx vy vz]. now rewrite !shift_add_r. Qed.
  Lemma sh_subr a b : vsub (sh a) b = sh (vsub a b).
  Proof. unfold move_v, vsub, vadd, vfin. cbn [vx vy vz]. now rewrite !shift_sub. Qed.
  (** Weighted means move along. *)
  Lemma sh_mean a b r s : r + s = 1 -> vadd (vscale (sh a) (Fin r)) (vscale (sh b) (Fin s)) = sh (vadd (vscale a (Fin r)) (vscale b (Fin s))).
  Proof.
    intros H. unfold move_v, vadd, vscale, vfin. cbn [vx vy vz]. rewrite !shift_mul, !shift_add2.
    replace (vx d * r + vx d * s) with (vx d) by (rewrite <- Rmult_plus_distr_l, H; ring).
    replace (vy d * r + vy d * s) with (vy d) by (rewrite <- Rmult_plus_distr_l, H; ring).
    replace (vz d * r + vz d * s) with (vz d) by (rewrite <- Rmult_plus_distr_l, H; ring). exact eq_refl.
  Qed.
  Lemma sh_balance a b r s : r + s <> 0 -> vscale (vadd (vscale (sh a) (Fin r)) (vscale (sh b) (Fin s))) (n_div n1 (Fin (r + s))) = sh (vscale (vadd (vscale a (Fin r)) (vscale b (Fin s))) (n_div n1 (Fin (r + s)))).
  Proof.
    intros H. rewrite fin_1, fin_div by exact H. unfold move_v, vadd, vscale, vfin. cbn [vx vy vz]. rewrite !shift_mul, !shift_add2, !shift_mul.
    replace ((vx d * r + vx d * s) * (1 / (r + s))) with (vx d) by (field; exact H).
    replace ((vy d * r + vy d * s) * (1 / (r + s))) with (vy d) by (field; exact H).
    replace ((vz d * r + vz d * s) * (1 / (r + s))) with (vz d) by (field; exact H). exact eq_refl.
  Qed.
  Lemma sh_half a b : vdivs (vadd (sh a) (sh b)) n2 = sh (vdivs (vadd a b) n2).
  Proof.
    rewrite fin_2. unfold move_v, vadd, vdivs, vfin. cbn [vx vy vz]. rewrite !shift_add2, !shift_div by lra.
    replace ((vx d + vx d) / 2) with (vx d) by field. replace ((vy d + vy d) / 2) with (vy d) by field. replace ((vz d + vz d) / 2) with (vz d) by field. exact eq_refl.
  Qed.
  (** A normal is made of numbers, or spoils every product. *)
  Definition usable (n : Vec3 ER) : Prop := (exists r, n = vfin r) \/ forall x, vdot x n = ENaN.
  Lemma sh_dot n : usable n -> exists k, forall x, vdot (sh x) n = n_add (vdot x n) (Fin k).
  Proof.
    intros [(r & ->)|H].
    - exists (vx d * vx r + vy d * vy r + vz d * vz r). intros x. unfold move_v, vadd, vdot, vfin. cbn [vx vy vz]. now rewrite !shift_mul, !shift_add2.
    - exists 0. intros x. rewrite !H. exact eq_refl.
  Qed.
  Lemma nan_dot a b c : a = ENaN \/ b = ENaN \/ c = ENaN -> forall x, vdot x (mkV a b c) = ENaN.
  Proof.
    intros H [x y z]. unfold vdot. cbn [vx vy vz]. destruct H as [->|[->| ->]]; er.
    - destruct x; cbn; destruct (er_mul y b); cbn; destruct (er_mul z c); exact eq_refl.
    - replace (er_mul y ENaN) with ENaN by (destruct y; exact eq_refl). destruct (er_mul x a); cbn; destruct (er_mul z c); exact eq_refl.
    - replace (er_mul z ENaN) with ENaN by (destruct z; exact eq_refl). destruct (er_add (er_mul x a) (er_mul y b)); exact eq_refl.
  Qed.
  Lemma usable_normal v : usable (vnormalize v).
  Proof.
    assert (Nn : forall m, m = ENaN -> usable (vdivs v m)).
    { intros m ->. right. apply nan_dot. left. cbn. destruct (vx v); exact eq_refl. }
    assert (Inf : forall a, er_mul a a = PInf \/ er_mul a a = ENaN \/ exists r, a = Fin r) by (intros [r| | |]; cbn; eauto).
    assert (D : (exists r, v = vfin r) \/ ((vx v = PInf \/ vx v = NInf \/ vy v = PInf \/ vy v = NInf \/ vz v = PInf \/ vz v = NInf) /\ vmag v = PInf) \/ vmag v = ENaN).
    { destruct v as [a b c]. unfold vmag, vnorm2, vdot. cbn [vx vy vz].
      destruct a as [a| | |], b as [b| | |], c as [c| | |]; cbn; auto 10.
      left. exists (mkV a b c). exact eq_refl. }
    destruct D as [(r & ->)|[(D & E)|E]].
    - unfold vnormalize, vmag, vnorm2, vdot, vfin. cbn [vx vy vz]. rewrite !fin_mul, !fin_add.
      rewrite fin_sqrt by nra. set (q := sqrt _). destruct (Req_EM_T q 0) as [Z|Z].
      + assert (S0 : vx r * vx r + vy r * vy r + vz r * vz r = 0) by (apply sqrt_eq_0; [nra|exact Z]).
        right. apply nan_dot. left. cbn [vdivs vx]. assert (X : vx r = 0) by nra. rewrite X, Z. cbn. destruct (Req_EM_T 0 0); [|contradiction]. unfold er_inf_times. destruct (Req_EM_T 0 0); [exact eq_refl|contradiction].
      + left. exists (mkV (vx r / q) (vy r / q) (vz r / q)). unfold vdivs. cbn [vx vy vz]. now rewrite !fin_div by exact Z.
    - right. unfold vnormalize. rewrite E. apply nan_dot. destruct D as [D|[D|[D|[D|[D|D]]]]]; rewrite D; cbn; auto.
    - unfold vnormalize. now apply Nn.
  Qed.

  (** ** Orientations *)
  Lemma qrot_shift (r : Q) y z : qrot (qfin r) (vadd y (vfin z)) = vadd (qrot (qfin r) y) (vfin (qrot r z)).
  Proof.
    destruct r as [a b c w], y as [y1 y2 y3], z as [z1 z2 z3]. unfold qrot, vcross, vscale, vadd, qvec, qfin, vfin. rewrite fin_2. cbn [vx vy vz qi qj qk qw].
    rewrite !shift_mul_l, !shift_sub2, !shift_mul, !shift_mul_l, !shift_sub2, !shift_add2.
    f_equal; f_equal; f_equal; cbn; field.
  Qed.
  Definition lost : Quat ER := mkQ ENaN ENaN ENaN ENaN.
  Lemma qrot_lost x : qrot lost x = mkV ENaN ENaN ENaN.
  Proof. destruct x as [x y z]. unfold qrot, lost, vcross, vscale, vadd, qvec. cbn. exact eq_refl. Qed.
  Lemma qinv_fin r : qinv (qfin r) = qfin (qinv r). Proof. destruct r; exact eq_refl. Qed.
  Lemma neg_sh x : vneg (sh x) = vadd (vneg x) (vfin (vneg d)).
  Proof. unfold move_v, vneg, vadd, vfin. cbn [vx vy vz]. now rewrite !shift_neg. Qed.
  Lemma vadd_comm3 (a b : Vec3 ER) z : vadd (vadd a (vfin z)) b = vadd (vadd a b) (vfin z).
  Proof. unfold vadd, vfin. cbn [vx vy vz]. now rewrite !shift_add. Qed.
  Lemma neg_shift (a : Vec3 ER) z : vneg (vadd a (vfin z)) = vadd (vneg a) (vfin (vneg z)).
  Proof. unfold vneg, vadd, vfin. cbn [vx vy vz]. now rewrite !shift_neg. Qed.
  Lemma sh_world o x : unit_or_lost (o_rot o) -> position_into_world (move_o d o) x = sh (position_into_world o x).
  Proof.
    intros U. unfold position_into_world, into_world, into_local, iso_point, iso_inverse, iso_append_translation, iso_append_rotation, move_o. cbn [i_tr i_rot o_pos o_rot o_off].
    destruct U as [(r & -> & U)|H].
    - rewrite qinv_fin, neg_sh, qrot_shift, vadd_comm3, neg_shift.
      assert (E : exists p, qmul (qfin (qinv r)) qident = qfin p /\ unit_quat p /\ p = qinv r).
      { exists (qinv r). split; [|split; [|exact eq_refl]].
        - destruct r as [a b c w]. unfold qmul, qident, qfin, qinv. rewrite fin_0, fin_1. cbn. f_equal; f_equal; ring.
        - unfold unit_quat in *. destruct r as [a b c w]. unfold qinv. cbn in *. lra. }
      destruct E as (p & -> & Up & ->). rewrite !qinv_fin, qrot_shift.
      assert (E : qrot (qinv (qinv r)) (vneg (qrot (qinv r) (vneg d))) = d).
      { replace (qinv (qinv r)) with r by (destruct r; unfold qinv; cbn; f_equal; ring). rewrite <- qrot_neg.
        replace (vneg (vneg d)) with d by (destruct d; unfold vneg; cbn; f_equal; ring). apply qrot_qinv_r. exact U. }
      rewrite E. unfold move_v, vadd, vfin. cbn [vx vy vz]. now rewrite !shift_add_r.
    - fold lost in H. rewrite H. replace (qinv lost) with lost by exact eq_refl.
      replace (qmul lost qident) with lost by (unfold qident; rewrite fin_0, fin_1; exact eq_refl).
      replace (qinv lost) with lost by exact eq_refl. rewrite !qrot_lost. exact eq_refl.
  Qed.
  Lemma sh_move p s e : unit_or_lost (o_rot s) -> unit_or_lost (o_rot e) -> world_move p (move_o d s) (move_o d e) = world_move p s e.
  Proof. intros S E. unfold world_move. now rewrite !sh_world, sh_sub. Qed.
  Lemma sh_local o x : unit_or_lost (o_rot o) -> position_into_local (move_o d o) (sh x) = position_into_local o x.
  Proof.
    intros U. unfold position_into_local, into_local, iso_point, iso_append_translation, iso_append_rotation, move_o. cbn [i_tr i_rot o_pos o_rot o_off].
    destruct U as [(r & -> & U)|H].
    - rewrite qinv_fin, neg_sh, qrot_shift, vadd_comm3.
      assert (E : qmul (qfin (qinv r)) qident = qfin (qinv r)).
      { destruct r as [a b c w]. unfold qmul, qident, qfin, qinv. rewrite fin_0, fin_1. cbn. f_equal; f_equal; ring. }
      rewrite E. unfold move_v. rewrite qrot_shift. rewrite qrot_neg.
      unfold vadd, vneg, vfin. cbn [vx vy vz]. rewrite !shift_add2.
      f_equal; (rewrite <- shift_0; f_equal; f_equal; cbn; ring).
    - fold lost in H. rewrite H. replace (qinv lost) with lost by exact eq_refl.
      replace (qmul lost qident) with lost by (unfold qident; rewrite fin_0, fin_1; exact eq_refl).
      rewrite !qrot_lost. exact eq_refl.
  Qed.
  Lemma sh_direction o x : direction_into_world (move_o d o) x = direction_into_world o x.
  Proof. exact eq_refl. Qed.
  Lemma sh_after o l a : after_affected (move_o d o) l a = move_o d (after_affected o l a).
  Proof. unfold after_affected, move_o. cbn [o_pos o_rot o_off]. now rewrite sh_add. Qed.
  Lemma sh_lerp t s e : orient_lerp (Fin t) (move_o d s) (move_o d e) = move_o d (orient_lerp (Fin t) s e).
  Proof.
    unfold orient_lerp, move_o, rotation_vec. cbn [o_pos o_rot o_off]. rewrite fin_1, fin_sub, sh_mean by ring. exact eq_refl.
  Qed.
  Lemma sh_out k s e : unit_t (c_time k) -> transform_out_of k (move_o d s) (move_o d e) = move_collision d (transform_out_of k s e).
  Proof.
    intros T. destruct (unit_t_fin _ T) as (t & E). unfold transform_out_of, move_collision. rewrite E, sh_lerp. cbn [c_times c_pos c_normal].
    rewrite sh_world by (unfold orient_lerp; cbn [o_rot]; apply exp_unit_or_lost). now rewrite sh_direction.
  Qed.
End Move.
