(** * Vec: the part of nalgebra 0.24 that the crate uses.

    The dependency's source is not in /repo; these definitions transcribe its
    documented formulas in evaluation order (trusted, see DESIGN.md).
    types.rs:3-6 fixes the instances: [Vec3 = Vector3<f32>], [Mat3 =
    Matrix3<f32>], [Quat = UnitQuaternion<f32>], [Isometry = Isometry3<f32>]. *)

From Coq Require Import ZArith List.
From Verif Require Import Num.
Local Open Scope num_scope.

(** types.rs:4 [Vec3]. *)
Record Vec3 (T : Type) := mkV { vx : T; vy : T; vz : T }.
Arguments mkV {T}. Arguments vx {T}. Arguments vy {T}. Arguments vz {T}.

(** types.rs:3 [Mat3], row-major field names: [mRC] is row R, column C. *)
Record Mat3 (T : Type) := mkM {
  m11 : T; m12 : T; m13 : T;
  m21 : T; m22 : T; m23 : T;
  m31 : T; m32 : T; m33 : T }.
Arguments mkM {T}.
Arguments m11 {T}. Arguments m12 {T}. Arguments m13 {T}.
Arguments m21 {T}. Arguments m22 {T}. Arguments m23 {T}.
Arguments m31 {T}. Arguments m32 {T}. Arguments m33 {T}.

(** types.rs:5 [Quat]: vector part (qi,qj,qk), scalar part qw.  The type does
    not enforce unit norm (nalgebra's [new_unchecked] does not either). *)
Record Quat (T : Type) := mkQ { qi : T; qj : T; qk : T; qw : T }.
Arguments mkQ {T}. Arguments qi {T}. Arguments qj {T}. Arguments qk {T}. Arguments qw {T}.

(** types.rs:6 [Isometry]: first rotate, then translate. *)
Record Iso (T : Type) := mkI { i_tr : Vec3 T; i_rot : Quat T }.
Arguments mkI {T}. Arguments i_tr {T}. Arguments i_rot {T}.

Section Vec.
  Context {T : Type} {N : Num T}.

  (** nalgebra [Vector3::zeros()]. *)
  Definition vzero : Vec3 T := mkV n0 n0 n0.
  (** nalgebra [a + b], [a - b], [-a] on vectors: componentwise. *)
  Definition vadd (a b : Vec3 T) := mkV (vx a + vx b) (vy a + vy b) (vz a + vz b).
  Definition vsub (a b : Vec3 T) := mkV (vx a - vx b) (vy a - vy b) (vz a - vz b).
  Definition vneg (a : Vec3 T) := mkV (- vx a) (- vy a) (- vz a).
  (** nalgebra [v.scale(k)], [v * k], [k * v]: componentwise product. *)
  Definition vscale (a : Vec3 T) (k : T) := mkV (vx a * k) (vy a * k) (vz a * k).
  (** nalgebra [v / k]: componentwise division. *)
  Definition vdivs (a : Vec3 T) (k : T) := mkV (vx a / k) (vy a / k) (vz a / k).
  (** nalgebra [a.dot(&b)] for 3-vectors: [a0*b0 + a1*b1 + a2*b2], left to right. *)
  Definition vdot (a b : Vec3 T) : T := vx a * vx b + vy a * vy b + vz a * vz b.
  (** nalgebra [a.cross(&b)]. *)
  Definition vcross (a b : Vec3 T) : Vec3 T :=
    mkV (vy a * vz b - vz a * vy b) (vz a * vx b - vx a * vz b) (vx a * vy b - vy a * vx b).
  (** nalgebra [norm_squared]; the library adds this to an initial 0.0, which
      is exact (a sum of squares is never -0). *)
  Definition vnorm2 (a : Vec3 T) : T := vdot a a.
  (** nalgebra [magnitude] = [norm] = [norm_squared().sqrt()]. *)
  Definition vmag (a : Vec3 T) : T := n_sqrt (vnorm2 a).
  (** nalgebra [normalize]: divide by the norm. *)
  Definition vnormalize (a : Vec3 T) : Vec3 T := vdivs a (vmag a).

  (** nalgebra [Matrix3::zeros()]. *)
  Definition mzero : Mat3 T := mkM n0 n0 n0 n0 n0 n0 n0 n0 n0.
  (** nalgebra [Matrix3::from_diagonal(&v)]. *)
  Definition mdiag (v : Vec3 T) : Mat3 T := mkM (vx v) n0 n0 n0 (vy v) n0 n0 n0 (vz v).
  (** nalgebra [Matrix3::from_diagonal_element(d)]. *)
  Definition mdiag1 (d : T) : Mat3 T := mdiag (mkV d d d).
  (** nalgebra [A + B], [A - B], [k * A]. *)
  Definition madd (a b : Mat3 T) : Mat3 T :=
    mkM (m11 a + m11 b) (m12 a + m12 b) (m13 a + m13 b)
        (m21 a + m21 b) (m22 a + m22 b) (m23 a + m23 b)
        (m31 a + m31 b) (m32 a + m32 b) (m33 a + m33 b).
  Definition msub (a b : Mat3 T) : Mat3 T :=
    mkM (m11 a - m11 b) (m12 a - m12 b) (m13 a - m13 b)
        (m21 a - m21 b) (m22 a - m22 b) (m23 a - m23 b)
        (m31 a - m31 b) (m32 a - m32 b) (m33 a - m33 b).
  Definition mscale (a : Mat3 T) (k : T) : Mat3 T :=
    mkM (m11 a * k) (m12 a * k) (m13 a * k)
        (m21 a * k) (m22 a * k) (m23 a * k)
        (m31 a * k) (m32 a * k) (m33 a * k).
  (** nalgebra [A.transpose()]. *)
  Definition mtrans (a : Mat3 T) : Mat3 T :=
    mkM (m11 a) (m21 a) (m31 a) (m12 a) (m22 a) (m32 a) (m13 a) (m23 a) (m33 a).
  (** nalgebra [A * v] (gemv, columns left to right). *)
  Definition mulmv (a : Mat3 T) (v : Vec3 T) : Vec3 T :=
    mkV (m11 a * vx v + m12 a * vy v + m13 a * vz v)
        (m21 a * vx v + m22 a * vy v + m23 a * vz v)
        (m31 a * vx v + m32 a * vy v + m33 a * vz v).
  Definition mcol1 (a : Mat3 T) := mkV (m11 a) (m21 a) (m31 a).
  Definition mcol2 (a : Mat3 T) := mkV (m12 a) (m22 a) (m32 a).
  Definition mcol3 (a : Mat3 T) := mkV (m13 a) (m23 a) (m33 a).
  Definition mofcols (a b c : Vec3 T) : Mat3 T :=
    mkM (vx a) (vx b) (vx c) (vy a) (vy b) (vy c) (vz a) (vz b) (vz c).
  (** nalgebra [A * B] (gemm: one gemv per column). *)
  Definition mulmm (a b : Mat3 T) : Mat3 T :=
    mofcols (mulmv a (mcol1 b)) (mulmv a (mcol2 b)) (mulmv a (mcol3 b)).
  (** nalgebra [u * v.transpose()]. *)
  Definition vouter (u v : Vec3 T) : Mat3 T :=
    mkM (vx u * vx v) (vx u * vy v) (vx u * vz v)
        (vy u * vx v) (vy u * vy v) (vy u * vz v)
        (vz u * vx v) (vz u * vy v) (vz u * vz v).
  (** nalgebra [A.try_inverse()], the unrolled 3x3 case: [None] exactly when
      the computed determinant [is_zero()]. *)
  Definition mtry_inverse (m : Mat3 T) : option (Mat3 T) :=
    let minor_m12_m23 := m22 m * m33 m - m32 m * m23 m in
    let minor_m11_m23 := m21 m * m33 m - m31 m * m23 m in
    let minor_m11_m22 := m21 m * m32 m - m31 m * m22 m in
    let det := m11 m * minor_m12_m23 - m12 m * minor_m11_m23 + m13 m * minor_m11_m22 in
    if det =? n0 then None
    else Some (mkM
      (minor_m12_m23 / det) ((m13 m * m32 m - m33 m * m12 m) / det) ((m12 m * m23 m - m22 m * m13 m) / det)
      (- minor_m11_m23 / det) ((m11 m * m33 m - m31 m * m13 m) / det) ((m13 m * m21 m - m23 m * m11 m) / det)
      (minor_m11_m22 / det) ((m12 m * m31 m - m32 m * m11 m) / det) ((m11 m * m22 m - m21 m * m12 m) / det)).

  (** nalgebra [UnitQuaternion::identity()]. *)
  Definition qident : Quat T := mkQ n0 n0 n0 n1.
  (** The vector (imaginary) part. *)
  Definition qvec (q : Quat T) : Vec3 T := mkV (qi q) (qj q) (qk q).
  (** nalgebra quaternion product. *)
  Definition qmul (a b : Quat T) : Quat T := mkQ
    (qw a * qi b + qi a * qw b + qj a * qk b - qk a * qj b)
    (qw a * qj b - qi a * qk b + qj a * qw b + qk a * qi b)
    (qw a * qk b + qi a * qj b - qj a * qi b + qk a * qw b)
    (qw a * qw b - qi a * qi b - qj a * qj b - qk a * qk b).
  (** nalgebra [UnitQuaternion::inverse()] = conjugate. *)
  Definition qinv (q : Quat T) : Quat T := mkQ (- qi q) (- qj q) (- qk q) (qw q).
  (** nalgebra [q * v] / [q.transform_vector(v)]:
      [t = 2 * cross(qv, v); t * w + cross(qv, t) + v]. *)
  Definition qrot (q : Quat T) (v : Vec3 T) : Vec3 T :=
    let t := vscale (vcross (qvec q) v) n2 in
    let c := vcross (qvec q) t in
    vadd (vadd (vscale t (qw q)) c) v.
  (** nalgebra [UnitQuaternion::from_scaled_axis(v)]: the exponential of the
      pure quaternion v/2; the identity when |v/2|^2 <= f32::EPSILON^2.
      SIMPLIFICATION: the factor exp(scalar part) = exp(0.0) = 1.0 is dropped
      (multiplying by 1.0 is exact). *)
  Definition qfrom_scaled_axis (v : Vec3 T) : Quat T :=
    let h := vdivs v n2 in
    let nn := vnorm2 h in
    if nn <=? MACHINE_EPSILON * MACHINE_EPSILON then qident
    else
      let n := n_sqrt nn in
      let nv := vscale h (n_sin n / n) in
      mkQ (vx nv) (vy nv) (vz nv) (n_cos n).
  (** nalgebra [UnitQuaternion::scaled_axis()]: [axis() * angle()], zero when
      the vector part has norm zero; the axis is negated when w < 0. *)
  Definition qscaled_axis (q : Quat T) : Vec3 T :=
    let v := if n0 <=? qw q then qvec q else vneg (qvec q) in
    let sq := vnorm2 v in
    if n0 * n0 <? sq then
      let axis := vdivs v (n_sqrt sq) in
      let angle := n_atan2 (vmag (qvec q)) (n_abs (qw q)) * n2 in
      vscale axis angle
    else vzero.
  (** nalgebra [UnitQuaternion::to_rotation_matrix()]. *)
  Definition qto_matrix (q : Quat T) : Mat3 T :=
    let i := qi q in let j := qj q in let k := qk q in let w := qw q in
    let ww := w * w in let ii := i * i in let jj := j * j in let kk := k * k in
    let ij := i * j * n2 in let wk := w * k * n2 in let wj := w * j * n2 in
    let ik := i * k * n2 in let jk := j * k * n2 in let wi := w * i * n2 in
    mkM (ww + ii - jj - kk) (ij - wk) (wj + ik)
        (wk + ij) (ww - ii + jj - kk) (jk - wi)
        (ik - wj) (wi + jk) (ww - ii - jj + kk).

  (** nalgebra [Isometry::from_parts], [append_rotation_mut],
      [append_translation_mut], [inverse_mut], [transform_point],
      [transform_vector]. *)
  Definition iso_append_rotation (t : Iso T) (r : Quat T) : Iso T :=
    mkI (qrot r (i_tr t)) (qmul r (i_rot t)).
  Definition iso_append_translation (t : Iso T) (v : Vec3 T) : Iso T :=
    mkI (vadd (i_tr t) v) (i_rot t).
  Definition iso_inverse (t : Iso T) : Iso T :=
    let r := qinv (i_rot t) in mkI (qrot r (vneg (i_tr t))) r.
  Definition iso_point (t : Iso T) (p : Vec3 T) : Vec3 T :=
    vadd (qrot (i_rot t) p) (i_tr t).
  Definition iso_vector (t : Iso T) (v : Vec3 T) : Vec3 T := qrot (i_rot t) v.
End Vec.
