(** * PartP: the getters of colliders agree with PartSpec *)
From Coq Require Import Reals List Lra.
From Verif Require Import Num Vec Res Arena Orient Colliders EntityM SystemM Spec RealSpec RealV OrientP PhysSpec PhysP PartSpec Mass5P.
Local Open Scope R_scope.

Lemma mat_ext (a b : M) : (forall w, mulmv a w = mulmv b w) -> a = b.
Proof.
  intros H. pose proof (H (mkV 1 0 0)) as X. pose proof (H (mkV 0 1 0)) as Y. pose proof (H (mkV 0 0 1)) as Z. destruct a, b.
  assert (X1 := f_equal vx X). assert (X2 := f_equal vy X). assert (X3 := f_equal vz X). assert (Y1 := f_equal vx Y). assert (Y2 := f_equal vy Y).
  assert (Y3 := f_equal vz Y). assert (Z1 := f_equal vx Z). assert (Z2 := f_equal vy Z). assert (Z3 := f_equal vz Z). clear H X Y Z.
  apply mext; munfold; lra.
Qed.
Lemma middle_com k x : middle_of k x -> c_com k = vfin x.
Proof.
  destruct k as [c|c|c|c|c]; cbn [middle_of c_com]; auto. intros (p & lo & hi & -> & -> & -> & H).
  rewrite vfin_add. assert (E : (nhalf : ER) = Fin (1 / 2)) by exact eq_refl. rewrite E. change (vscale (vfin (vadd lo hi)) (Fin (1 / 2))) with (vfin (vscale (vadd lo hi) (1 / 2))).
  rewrite vfin_add. f_equal. assert (H1 := f_equal vx H). assert (H2 := f_equal vy H). assert (H3 := f_equal vz H). clear H E.
  destruct x, p, lo, hi. apply vext; vunfold; lra.
Qed.
Lemma inertia_moi k t : inertia_of k t -> c_moi k = mfin t.
Proof.
  destruct k as [c|c|c|c|c]; cbn [inertia_of]; auto.
  - intros (m & r & Em & Er & H). destruct c as [o ctr rad ms mt]. cbn [sp_mass sp_radius] in *. subst. 
    transitivity (mfin (mkM (2 / 5 * m * r) 0 0 0 (2 / 5 * m * r) 0 0 0 (2 / 5 * m * r))).
    + rewrite <- (sphere_tensor o (mkV 0 0 0) r m mt). exact eq_refl.
    + f_equal. apply mat_ext. intros w. rewrite H. clear. destruct w. apply vext; munfold; cbn [m11 m12 m13 m21 m22 m23 m31 m32 m33]; try ring; field.
  - intros H. cbn [c_moi]. change (@mzero ER EReal) with (mfin mzero). f_equal. apply mat_ext. intros w. rewrite H. clear. destruct w. apply vext; munfold; cbn [m11 m12 m13 m21 m22 m23 m31 m32 m33]; try ring; field.
  - intros H. cbn [c_moi]. change (@mzero ER EReal) with (mfin mzero). f_equal. apply mat_ext. intros w. rewrite H. clear. destruct w. apply vext; munfold; cbn [m11 m12 m13 m21 m22 m23 m31 m32 m33]; try ring; field.
  - intros (m & lo & hi & Em & El & Eh & H). destruct c as [o p mn mx ms mt]. cbn [bx_mass bx_min bx_max] in *. subst. cbv zeta in H.
    etransitivity; [exact (box_tensor o (mkV 0 0 0) lo hi m mt)|]. cbv zeta. f_equal. apply mat_ext. intros w. rewrite H. clear. destruct w. apply vext; munfold; cbn [m11 m12 m13 m21 m22 m23 m31 m32 m33]; try ring; field.
Qed.
Lemma described_part (s : system ER) c k m x t : get_collider s c = Some k -> mass_of k = Fin m -> middle_of k x -> inertia_of k t -> is_part s c (mkPart m x t).
Proof.
  intros G Em Ex Et. exists k. cbn [p_mass p_centre p_tensor]. split; [exact G|]. split; [|split; [exact (middle_com k x Ex)|exact (inertia_moi k t Et)]].
  destruct k; exact Em.
Qed.
(** A box that is not in the middle of its frame, with its sides of different lengths. *)
Lemma brick_described : let b := CBox (mkBox None (vfin (mkV 1 0 0)) (vfin (mkV 0 0 0)) (vfin (mkV 2 4 6)) (Fin 12) mat_default) in
  middle_of b (mkV 2 2 3) /\ inertia_of b (mkM 52 0 0 0 40 0 0 0 20).
Proof.
  cbv zeta. split; cbn [middle_of inertia_of bx_pos bx_min bx_max bx_mass].
  - exists (mkV 1 0 0), (mkV 0 0 0), (mkV 2 4 6). split; [exact eq_refl|]. split; [exact eq_refl|]. split; [exact eq_refl|]. apply vext; vunfold; lra.
  - exists 12, (mkV 0 0 0), (mkV 2 4 6). split; [exact eq_refl|]. split; [exact eq_refl|]. split; [exact eq_refl|]. cbv zeta. intros w. apply vext; munfold; field.
Qed.
