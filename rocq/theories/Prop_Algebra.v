(** * Properties of the arithmetic everything else is stated in: C83, C84. *)
From Coq Require Import ZArith Reals List Bool Lra.
From Flocq Require Import IEEE754.BinarySingleNaN.
From Verif Require Import Num Vec OrderP Spec RealSpec Examples AlgebraSpec RealV AlgebraP.
Local Open Scope R_scope.

(** ** C83 Vectors, matrices and rotations follow the laws of geometry *)
(** On finite values exact arithmetic is arithmetic of real vectors, matrices and quaternions. *)
Theorem C83_real : forall (a b : V) (m n : M) (q r : Q) k, vadd (vfin a) (vfin b) = vfin (vadd a b) /\ vsub (vfin a) (vfin b) = vfin (vsub a b) /\ vneg (vfin a) = vfin (vneg a) /\
  vscale (vfin a) (Fin k) = vfin (vscale a k) /\ vdot (vfin a) (vfin b) = Fin (vdot a b) /\ vcross (vfin a) (vfin b) = vfin (vcross a b) /\
  mulmv (mfin m) (vfin a) = vfin (mulmv m a) /\ mulmm (mfin m) (mfin n) = mfin (mulmm m n) /\ mtrans (mfin m) = mfin (mtrans m) /\ vouter (vfin a) (vfin b) = mfin (vouter a b) /\
  madd (mfin m) (mfin n) = mfin (madd m n) /\ msub (mfin m) (mfin n) = mfin (msub m n) /\ mscale (mfin m) (Fin k) = mfin (mscale m k) /\
  qmul (qfin q) (qfin r) = qfin (qmul q r) /\ qinv (qfin q) = qfin (qinv q) /\ qrot (qfin q) (vfin a) = vfin (qrot q a).
Proof. exact fin_laws. Qed.
Print Assumptions C83_real.
(** Sums and multiples go by components; the dot product is the bilinear form for which the axes are orthonormal; the cross product is the
    bilinear product that takes the first two axes to the third, and so on. *)
Theorem C83_vectors : (forall a b : V, vadd a b = mkV (vx a + vx b) (vy a + vy b) (vz a + vz b)) /\ (forall (a : V) k, vscale a k = mkV (vx a * k) (vy a * k) (vz a * k)) /\
  (forall a b : V, vadd (vsub a b) b = a) /\ (forall a : V, vadd (vneg a) a = mkV 0 0 0) /\
  (forall a b : V, vdot a b = vdot b a) /\ (forall a : V, linear_form (vdot a)) /\
  vdot axis1 axis1 = 1 /\ vdot axis2 axis2 = 1 /\ vdot axis3 axis3 = 1 /\ vdot axis1 axis2 = 0 /\ vdot axis2 axis3 = 0 /\ vdot axis3 axis1 = 0 /\
  bilinear vcross /\ (forall a : V, vcross a a = mkV 0 0 0) /\ vcross axis1 axis2 = axis3 /\ vcross axis2 axis3 = axis1 /\ vcross axis3 axis1 = axis2.
Proof. exact vector_laws. Qed.
Print Assumptions C83_vectors.
Theorem C83_lengths : forall a : V, (exists r, vmag (vfin a) = Fin r /\ 0 <= r /\ r * r = vdot a a) /\
  (a <> mkV 0 0 0 -> exists u k, vnormalize (vfin a) = vfin u /\ vdot u u = 1 /\ 0 < k /\ a = vscale u k).
Proof. exact length_laws. Qed.
Print Assumptions C83_lengths.
(** Matrices are linear maps, their columns the images of the axes; products are compositions, transposes adjoints. *)
Theorem C83_matrices : forall (a b : M) (u v : V) k, linear (mulmv a) /\
  mulmv a axis1 = mkV (m11 a) (m21 a) (m31 a) /\ mulmv a axis2 = mkV (m12 a) (m22 a) (m32 a) /\ mulmv a axis3 = mkV (m13 a) (m23 a) (m33 a) /\
  mulmv (mulmm a b) v = mulmv a (mulmv b v) /\ mulmv (madd a b) v = vadd (mulmv a v) (mulmv b v) /\ mulmv (msub a b) v = vsub (mulmv a v) (mulmv b v) /\
  mulmv (mscale a k) v = vscale (mulmv a v) k /\ vdot (mulmv (mtrans a) u) v = vdot u (mulmv a v) /\ (forall x, mulmv (vouter u v) x = vscale u (vdot v x)) /\
  (forall x, mulmv (mdiag u) x = mkV (vx u * vx x) (vy u * vy x) (vz u * vz x)).
Proof. exact matrix_laws. Qed.
Print Assumptions C83_matrices.
Theorem C83_inverse : forall a : M, match mtry_inverse (mfin a) with
  | Some i => volume a <> 0 /\ exists b, i = mfin b /\ (forall v, mulmv a (mulmv b v) = v) /\ (forall v, mulmv b (mulmv a v) = v)
  | None => volume a = 0 end.
Proof. exact inverse_laws. Qed.
Print Assumptions C83_inverse.
Example C83_volumes : volume (mkM 1 2 0 0 1 0 0 0 3) = 3 /\ volume (mkM 1 2 3 2 4 6 0 0 1) = 0.
Proof. split; unfold volume, axis1, axis2, axis3; cbn; lra. Qed.
(** Hamilton's quaternions. *)
Theorem C83_quaternions : forall (a b c : Q) k,
  qmul (qplus a b) c = qplus (qmul a c) (qmul b c) /\ qmul c (qplus a b) = qplus (qmul c a) (qmul c b) /\
  qmul (qtimes a k) b = qtimes (qmul a b) k /\ qmul a (qtimes b k) = qtimes (qmul a b) k /\ qmul (qmul a b) c = qmul a (qmul b c) /\
  qmul (number 1) a = a /\ qmul a (number 1) = a /\
  qmul (pure axis1) (pure axis1) = number (-1) /\ qmul (pure axis2) (pure axis2) = number (-1) /\ qmul (pure axis3) (pure axis3) = number (-1) /\
  qmul (qmul (pure axis1) (pure axis2)) (pure axis3) = number (-1).
Proof. exact quaternion_laws. Qed.
Print Assumptions C83_quaternions.
(** Unit quaternions turn vectors by conjugation, and matrices made of them do the same.  (By which angle: C58.) *)
Theorem C83_turning : forall (q r : Q) (u v : V), unit_quat q -> unit_quat r ->
  pure (qrot q v) = qmul (qmul q (pure v)) (qinv q) /\ qmul q (qinv q) = number 1 /\ qmul (qinv q) q = number 1 /\
  qrot (qmul q r) v = qrot q (qrot r v) /\ mulmv (qto_matrix q) v = qrot q v /\ qrot qident v = v /\
  vdot (qrot q u) (qrot q v) = vdot u v /\ qrot q (vcross u v) = vcross (qrot q u) (qrot q v) /\ unit_quat (qmul q r) /\ unit_quat (qinv q).
Proof. exact turning_laws. Qed.
Print Assumptions C83_turning.
Example C83_example : unit_quat (mkQ (3 / 5) 0 0 (4 / 5)) /\ qrot (mkQ (3 / 5) 0 0 (4 / 5)) axis2 = mkV 0 (7 / 25) (24 / 25).
Proof. split; [unfold unit_quat; cbn; lra|]. unfold axis2. apply vext; cbn; lra. Qed.

(** ** C84 Exact arithmetic is binary32 arithmetic up to rounding *)
(** [B2ER x] is the exact value of the binary32 number [x]. *)
Theorem C84_order : forall L (N := F32 L) (x y : f32),
  n_lt x y = n_lt (B2ER x) (B2ER y) /\ n_le x y = n_le (B2ER x) (B2ER y) /\ n_eq x y = n_eq (B2ER x) (B2ER y) /\
  n_isnan x = n_isnan (B2ER x) /\ n_isinf x = n_isinf (B2ER x) /\ n_isfin x = n_isfin (B2ER x) /\
  B2ER (n_neg x) = n_neg (B2ER x) /\ B2ER (n_abs x) = n_abs (B2ER x).
Proof. exact (fun L => order_agrees). Qed.
Print Assumptions C84_order.
Theorem C84_add : forall L (N := F32 L) (x y : f32), agrees (n_add (B2ER x) (B2ER y)) (B2ER (n_add x y)).
Proof. exact (fun L => plus_agrees). Qed.
Print Assumptions C84_add.
Theorem C84_sub : forall L (N := F32 L) (x y : f32), agrees (n_sub (B2ER x) (B2ER y)) (B2ER (n_sub x y)).
Proof. exact (fun L => minus_agrees). Qed.
Print Assumptions C84_sub.
Theorem C84_mul : forall L (N := F32 L) (x y : f32), agrees (n_mul (B2ER x) (B2ER y)) (B2ER (n_mul x y)).
Proof. exact (fun L => mult_agrees). Qed.
Print Assumptions C84_mul.
Theorem C84_sqrt : forall L (N := F32 L) (x : f32), agrees (n_sqrt (B2ER x)) (B2ER (n_sqrt x)).
Proof. exact (fun L => sqrt_agrees). Qed.
Print Assumptions C84_sqrt.
Theorem C84_literals : forall L (N := F32 L) p q, (Z.abs p <= 2 ^ 24)%Z -> (Zpos q <= 2 ^ 24)%Z -> agrees (n_frac p q) (B2ER (n_frac p q)).
Proof. exact (fun L => frac_agrees). Qed.
Print Assumptions C84_literals.
(** Dividing by a negative zero, and its sign, are excluded: exact arithmetic has one zero. *)
Theorem C84_div_partial : forall L (N := F32 L) (x y : f32), y <> B754_zero true -> agrees (n_div (B2ER x) (B2ER y)) (B2ER (n_div x y)).
Proof. exact (fun L => div_agrees). Qed.
Print Assumptions C84_div_partial.
Theorem C84_signum_partial : forall L (N := F32 L) (x : f32), x <> B754_zero true -> B2ER (n_signum x) = n_signum (B2ER x).
Proof. exact (fun L => signum_agrees). Qed.
Print Assumptions C84_signum_partial.
Theorem C84_zero_refuted : forall L (N := F32 L), B2ER (n_div n1 (B754_zero true)) = NInf /\ n_div (B2ER n1) (B2ER (B754_zero true)) = PInf /\
  B2ER (n_signum (B754_zero true)) = Fin (-1) /\ n_signum (B2ER (B754_zero true)) = Fin 1.
Proof. exact negative_zero. Qed.
Print Assumptions C84_zero_refuted.
(** Rounding and overflow do happen: 1/3 is no binary32 number, and the square of 2^100 overflows. *)
Example C84_example : let N := F32 crude in (n_eq (n_mul (n_frac 1 3) (n_frac 3 1)) n1, n_isinf (n_mul (f32_of_Z (2 ^ 100)) (f32_of_Z (2 ^ 100))),
  n_eq (n_sub (n_add (f32_of_Z (2 ^ 24)) n1) (f32_of_Z (2 ^ 24))) n0) = (true, true, true).
Proof. vm_compute. reflexivity. Qed.
