(** * Mass5P: the position after unlinking, the tensors of single colliders, lost rotations *)
From Coq Require Import ZArith Reals Lra Psatz Bool List Permutation.
Import ListNotations.
From Verif Require Import Num Vec Res Arena RangeM Orient Colliders Collide EntityM SystemM OrderP Spec ResP ArenaP FrameP StoreP RangeP RealSpec RealV OrientP Orient2P GeomP Geom4P PhysSpec PhysP Phys3P Phys4P MassP Mass2P Mass3P Mass4P.
Local Open Scope R_scope.

(** Unlinking the last collider puts the position back to the local origin. *)
Lemma unlinked_origin ord (s s' : system ER) a c k h e' o' : good_order ord -> reachable s -> exec ord s (OLinkCollider c None) = Ok (s', a) ->
  get_collider s c = Some k -> c_entity k = Some h -> get_entity s' h = Some e' -> pe_last_orient e' = ofin o' -> pe_colliders e' = [] ->
  o_pos o' = position_into_world o' (mkV 0 0 0).
Proof.
  intros Ho R H Gc Ec He' Eo' Z. assert (R' : reachable s').
  { eapply follows_trans; [exact R|]. eapply (follows_exec ord _ (OLinkCollider c None)); [split; [exact Ho|exact Logic.I]|exact H]. }
  pose proof (reachable_unit s' h e' o' R' He' Eo') as U. destruct (get_internal s' h e' He') as (i' & Hi' & ->). cbn [make_pub pe_last_orient pe_colliders] in Eo', Z.
  unfold get_collider in Gc. destruct (inv_bwd _ (reachable_Inv _ R) _ _ _ Gc Ec) as (p & Hp & Hin).
  unfold exec, link_collider in H. rewrite Gc, Ec in H. cbn [rbind] in H. cbv zeta in H. rewrite Hp in H.
  set (p1 := e_set_colliders p (hremove c (e_colliders p))) in *. destruct (recalculate_mass _ _ p1) as [p2| |] eqn:Er; try discriminate H.
  cbn [rbind fst snd] in H. apply ok_inj in H. injection H as <- _. cbn [s_ents s_set_ents s_set_cols] in Hi'.
  rewrite (aget_aset_eq _ _ _ _ Hp) in Hi'. injection Hi' as <-.
  assert (Ecol : e_colliders p2 = e_colliders p1).
  { clear - Er. unfold recalculate_mass in Er. inv_ok Er. destruct x as [[fi m] v]. destruct (_ && _); destruct fi; try (apply ok_inj in Er; subst p2; exact eq_refl); inv_ok Er; apply ok_inj in Er; subst p2; exact eq_refl. }
  rewrite Z in Ecol. assert (Eord : ord KColliders h (e_colliders p1) = []).
  { rewrite <- Ecol. apply Permutation_nil, Permutation_sym. destruct (Ho KColliders h []); auto. }
  rewrite Eord in Er.
  assert (G : unit_or_lost (o_rot (e_orient p1))) by (exact (reachable_rotation s h (make_pub p) R ltac:(unfold get_entity; now rewrite Hp))).
  assert (S4 : o_off (e_orient p2) = vfin (o_off o')) by (rewrite Eo'; exact eq_refl).
  destruct (recalc_offset [] _ p1 p2 (fun _ => mkPart 0 (mkV 0 0 0) munit) _ G ltac:(intros x []) Er S4) as (_ & E).
  assert (Z0 : o_off o' = mkV 0 0 0) by (apply E; unfold parts_mass, rsum; cbn [map fold_right]; lra).
  rewrite world_form, Z0 by exact U. replace (vadd (mkV 0 0 0) (mkV 0 0 0)) with (mkV 0 0 0 : V) by (apply vext; vunfold; ring).
  rewrite qrot_zero. destruct (o_pos o'). apply vext; vunfold; ring.
Qed.

(** The tensor of a box collider is that of the solid box. *)
Lemma box_tensor owner pos lo hi m mat : let d := vsub hi lo in
  c_moi (CBox (mkBox owner (vfin pos) (vfin lo) (vfin hi) (Fin m) mat)) =
  mfin (mkM (m / 12 * (vy d * vy d + vz d * vz d)) 0 0 0 (m / 12 * (vx d * vx d + vz d * vz d)) 0 0 0 (m / 12 * (vx d * vx d + vy d * vy d))).
Proof.
  intros d. unfold c_moi. cbn [bx_max bx_min bx_mass]. cbv zeta. change n12 with (Fin (12 / 1)). rewrite fin_div by lra. rewrite vfin_sub. fold d.
  replace (12 / 1) with 12 by field. unfold mdiag. cbn [vx vy vz]. rewrite fin_0. exact eq_refl.
Qed.
(** That of a ball collider has the radius where the square of the radius should be. *)
Lemma sphere_tensor owner c r m mat : c_moi (CSphere (mkSphere owner (vfin c) (Fin r) (Fin m) mat)) =
  mfin (mkM (2 / 5 * m * r) 0 0 0 (2 / 5 * m * r) 0 0 0 (2 / 5 * m * r)).
Proof.
  unfold c_moi. cbn [sp_mass sp_radius]. cbv zeta. rewrite fin_2. change n5 with (Fin (5 / 1)). rewrite fin_div by lra.
  replace (2 / (5 / 1)) with (2 / 5) by field. unfold mdiag. cbn [vx vy vz]. rewrite fin_0. exact eq_refl.
Qed.
