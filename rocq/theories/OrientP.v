(** * OrientP: rotations and rigid motions in exact arithmetic *)
From Coq Require Import ZArith Reals Lra Psatz.
From Verif Require Import Num Vec RangeM Orient Colliders Collide OrderP Spec RangeP RealSpec RealV.
Local Open Scope R_scope.

Ltac qunfold := cbv [qrot qmul qinv qident qvec qto_matrix iso_append_rotation iso_append_translation iso_inverse iso_point iso_vector
  i_tr i_rot qi qj qk qw m11 m12 m13 m21 m22 m23 m31 m32 m33 mulmv mulmm mtrans mcol1 mcol2 mcol3 mofcols
  vdot vadd vsub vneg vscale vcross vnorm2 vzero vx vy vz n_add n_sub n_mul n_neg RNum n0 n1 n2 n_frac] in *.

Lemma qrot_add (q : Q) (a b : V) : qrot q (vadd a b) = vadd (qrot q a) (qrot q b).
Proof. destruct q, a, b. apply vext; qunfold; field. Qed.
Lemma qrot_sub (q : Q) (a b : V) : qrot q (vsub a b) = vsub (qrot q a) (qrot q b).
Proof. destruct q, a, b. apply vext; qunfold; field. Qed.
Lemma qrot_neg (q : Q) (a : V) : qrot q (vneg a) = vneg (qrot q a).
Proof. destruct q, a. apply vext; qunfold; field. Qed.
Lemma qrot_scale (q : Q) (a : V) k : qrot q (vscale a k) = vscale (qrot q a) k.
Proof. destruct q, a. apply vext; qunfold; field. Qed.
Lemma qrot_ident (a : V) : qrot (@qident R RNum) a = a.
Proof. destruct a. apply vext; qunfold; field. Qed.
Lemma qinv_qinv (q : Q) : qinv (qinv q) = q.
Proof. destruct q. qunfold. f_equal; ring. Qed.
Lemma unit_qinv q : unit_quat q -> unit_quat (qinv q).
Proof. unfold unit_quat. destruct q. qunfold. intros H. rewrite <- H. ring. Qed.
Lemma unit_qident : unit_quat (@qident R RNum).
Proof. unfold unit_quat. qunfold. field. Qed.
Lemma unit_qmul p q : unit_quat p -> unit_quat q -> unit_quat (qmul p q).
Proof.
  unfold unit_quat. destruct p as [a b c d], q as [e f g h]. qunfold. intros H1 H2.
  transitivity ((a * a + b * b + c * c + d * d) * (e * e + f * f + g * g + h * h)); [ring|]. rewrite H1, H2. ring.
Qed.
Lemma qrot_dot (q : Q) (a b : V) : unit_quat q -> vdot (qrot q a) (qrot q b) = vdot a b.
Proof.
  unfold unit_quat. destruct q as [i j k w], a as [a1 a2 a3], b as [b1 b2 b3]. qunfold. intros H.
  assert (E : w * w = 1 - i * i - j * j - k * k) by lra.
  match goal with |- ?l = ?r => transitivity (r + 4 * (w * w - (1 - i * i - j * j - k * k)) *
    ((j * a3 - k * a2) * (j * b3 - k * b2) + (k * a1 - i * a3) * (k * b1 - i * b3) + (i * a2 - j * a1) * (i * b2 - j * b1))) end; [field|].
  rewrite E. ring.
Qed.

Lemma mext (a b : M) : m11 a = m11 b -> m12 a = m12 b -> m13 a = m13 b -> m21 a = m21 b -> m22 a = m22 b -> m23 a = m23 b ->
  m31 a = m31 b -> m32 a = m32 b -> m33 a = m33 b -> a = b.
Proof. destruct a, b. simpl. congruence. Qed.
(** The rotation matrix of a unit quaternion does what the quaternion does. *)
Lemma qrot_matrix (q : Q) (v : V) : unit_quat q -> qrot q v = mulmv (qto_matrix q) v.
Proof.
  unfold unit_quat. destruct q as [i j k w], v as [x y z]. intros H. cbn [qi qj qk qw] in H.
  assert (E : w * w = 1 - i * i - j * j - k * k) by lra.
  apply vext; qunfold; rewrite E; field.
Qed.
Lemma matrix_qmul (p q : Q) : qto_matrix (qmul p q) = mulmm (qto_matrix p) (qto_matrix q).
Proof. destruct p, q. apply mext; qunfold; field. Qed.
Lemma mulmm_assoc_v (a b : M) (v : V) : mulmv (mulmm a b) v = mulmv a (mulmv b v).
Proof. destruct a, b, v. apply vext; qunfold; ring. Qed.
Lemma qrot_mul (p q : Q) (a : V) : unit_quat p -> unit_quat q -> qrot (qmul p q) a = qrot p (qrot q a).
Proof. intros Hp Hq. rewrite !qrot_matrix by auto using unit_qmul. now rewrite matrix_qmul, mulmm_assoc_v. Qed.
Lemma qrot_qinv_l (q : Q) (a : V) : unit_quat q -> qrot (qinv q) (qrot q a) = a.
Proof.
  intros H. rewrite <- qrot_mul by auto using unit_qinv.
  assert (E : qmul (qinv q) q = qident). { unfold unit_quat in H. destruct q. qunfold. f_equal; [field|field|field|]. rewrite <- H at 1. lra. }
  now rewrite E, qrot_ident.
Qed.
Lemma qrot_qinv_r (q : Q) (a : V) : unit_quat q -> qrot q (qrot (qinv q) a) = a.
Proof. intros H. rewrite <- (qinv_qinv q) at 1. apply qrot_qinv_l. now apply unit_qinv. Qed.
Lemma matrix_orthogonal (q : Q) : unit_quat q -> mulmm (qto_matrix q) (mtrans (qto_matrix q)) = mdiag1 1.
Proof.
  intros H. assert (T : mtrans (qto_matrix q) = qto_matrix (qinv q)) by (destruct q; apply mext; qunfold; field). rewrite T, <- matrix_qmul.
  assert (E : qmul q (qinv q) = qident). { unfold unit_quat in H. destruct q. qunfold. f_equal; [field|field|field|]. rewrite <- H at 1. lra. }
  rewrite E. apply mext; cbv [mdiag1 mdiag]; qunfold; field.
Qed.
Lemma qrot_cross (q : Q) (a b : V) : unit_quat q -> qrot q (vcross a b) = vcross (qrot q a) (qrot q b).
Proof.
  intros H. assert (E : vcross (mulmv (qto_matrix q) a) (mulmv (qto_matrix q) b) = vscale (mulmv (qto_matrix q) (vcross a b)) (qi q * qi q + qj q * qj q + qk q * qk q + qw q * qw q)).
  { destruct q, a, b. apply vext; qunfold; field. }
  rewrite !qrot_matrix by auto. rewrite E. unfold unit_quat in H. rewrite H. apply vext; vunfold; ring.
Qed.

(** ** World and local space *)
Lemma local_form (o : orientation R) x : position_into_local o x = vsub (qrot (qinv (o_rot o)) (vsub x (o_pos o))) (o_off o).
Proof.
  destruct o as [p q f]. unfold position_into_local, into_local. cbn [o_pos o_rot o_off]. unfold iso_point, iso_append_translation, iso_append_rotation. cbn [i_tr i_rot].
  destruct p, q, f, x. apply vext; qunfold; field.
Qed.
Lemma qmul_ident_r (q : Q) : qmul q qident = q.
Proof. destruct q. qunfold. f_equal; field. Qed.
Lemma world_form (o : orientation R) p : unit_o o -> position_into_world o p = vadd (qrot (o_rot o) (vadd p (o_off o))) (o_pos o).
Proof.
  intros H. unfold unit_o in H. unfold position_into_world, into_world, into_local, iso_inverse, iso_point, iso_append_translation, iso_append_rotation. cbn [i_tr i_rot].
  rewrite qmul_ident_r, qinv_qinv, !qrot_neg, !qrot_add, !qrot_neg, qrot_qinv_r by auto. apply vext; vunfold; ring.
Qed.
Lemma direction_world_form (o : orientation R) d : direction_into_world o d = qrot (o_rot o) d.
Proof. unfold direction_into_world, into_world, into_local, iso_inverse, iso_vector, iso_append_translation, iso_append_rotation. cbn [i_tr i_rot]. now rewrite qmul_ident_r, qinv_qinv. Qed.
Lemma direction_local_form (o : orientation R) d : direction_into_local o d = qrot (qinv (o_rot o)) d.
Proof. unfold direction_into_local, into_local, iso_vector, iso_append_translation, iso_append_rotation. cbn [i_tr i_rot]. now rewrite qmul_ident_r. Qed.

Lemma local_world o p : unit_o o -> position_into_local o (position_into_world o p) = p.
Proof.
  intros H. rewrite world_form, local_form by auto.
  assert (E : vsub (vadd (qrot (o_rot o) (vadd p (o_off o))) (o_pos o)) (o_pos o) = qrot (o_rot o) (vadd p (o_off o))) by (apply vext; vunfold; ring).
  rewrite E, qrot_qinv_l by auto. apply vext; vunfold; ring.
Qed.
Lemma world_local o x : unit_o o -> position_into_world o (position_into_local o x) = x.
Proof.
  intros H. rewrite world_form, local_form by auto.
  assert (E : forall a b : V, vadd (vsub a b) b = a) by (intros; apply vext; vunfold; ring). rewrite E, qrot_qinv_r by auto. apply E.
Qed.
Lemma world_diff o p p' : unit_o o -> vsub (position_into_world o p) (position_into_world o p') = qrot (o_rot o) (vsub p p').
Proof. intros H. rewrite !world_form by auto. rewrite !qrot_add, qrot_sub. apply vext; vunfold; ring. Qed.
Lemma world_dist o p p' : unit_o o -> dist (position_into_world o p) (position_into_world o p') = dist p p'.
Proof. intros H. unfold dist. rewrite world_diff, qrot_dot; auto. Qed.
Lemma local_dist o p p' : unit_o o -> dist (position_into_local o p) (position_into_local o p') = dist p p'.
Proof. intros H. rewrite <- (world_dist o) by auto. now rewrite !world_local. Qed.
Lemma direction_world_local o d : unit_o o -> direction_into_world o (direction_into_local o d) = d.
Proof. intros H. rewrite direction_world_form, direction_local_form. now apply qrot_qinv_r. Qed.
Lemma direction_local_world o d : unit_o o -> direction_into_local o (direction_into_world o d) = d.
Proof. intros H. rewrite direction_world_form, direction_local_form. now apply qrot_qinv_l. Qed.
Lemma direction_dot o a b : unit_o o -> vdot (direction_into_world o a) (direction_into_world o b) = vdot a b.
Proof. intros H. rewrite !direction_world_form. now apply qrot_dot. Qed.
Lemma direction_cross o a b : unit_o o -> direction_into_world o (vcross a b) = vcross (direction_into_world o a) (direction_into_world o b).
Proof. intros H. rewrite !direction_world_form. now apply qrot_cross. Qed.
Lemma direction_diff o p p' : unit_o o -> direction_into_world o (vsub p p') = vsub (position_into_world o p) (position_into_world o p').
Proof. intros H. rewrite world_diff, direction_world_form; auto. Qed.
(** The local point whose world position is the entity's position. *)
Lemma world_centre o : unit_o o -> position_into_world o (vneg (o_off o)) = o_pos o.
Proof.
  intros H. rewrite world_form by auto. assert (E : vadd (vneg (o_off o)) (o_off o) = mkV 0 0 0) by (apply vext; vunfold; ring). rewrite E.
  destruct (o_rot o), (o_pos o). apply vext; qunfold; field.
Qed.
