(** * ShapeP: which boxes are accepted and how the normal of a plane is stored (C50) *)
From Coq Require Import ZArith Reals Lra Bool List.
Import ListNotations.
From Verif Require Import Num Vec Res Arena Orient Colliders Collide EntityM SystemM OrderP Spec ResP ArenaP ArithP StoreP ValidP RangeP RealSpec RealV GeomP.
Local Open Scope R_scope.

Section Swap.
  Context {T : Type} {N : Num T} {O : Ord N} {O2 : Ord2 O}.
  (** The same box with the two corners exchanged. *)
  Lemma swapped_rejected (b : box_c T) : collider_new_from (CBox b) <> None ->
    collider_new_from (CBox (mkBox (bx_ent b) (bx_pos b) (bx_max b) (bx_min b) (bx_mass b) (bx_mat b))) = None.
  Proof.
    unfold collider_new_from. cbn [collider_valid]. destruct (box_valid b) eqn:V; [intros _|tauto].
    destruct (box_valid (mkBox _ _ _ _ _ _)) eqn:W; [exfalso|reflexivity].
    apply box_valid_less in V, W. destruct V as ((V & _) & _), W as ((W & _) & _). cbn [bx_min bx_max] in *.
    rewrite (lt_asym _ _ V) in W. discriminate.
  Qed.
End Swap.

Lemma eps_fin : EPSILON = Fin (1 / 1000000).
Proof. unfold EPSILON. exact eq_refl. Qed.
(** Corners that differ by more than EPSILON in every coordinate are accepted exactly when they are in order. *)
Lemma box_accepted (a b pos : V) m mat : (forall f : V -> R, In f [vx (T:=R); vy (T:=R); vz (T:=R)] -> 1 / 1000000 < Rabs (f b - f a)) ->
  0 <= m -> (collider_new_from (CBox (mkBox None (vfin pos) (vfin a) (vfin b) (Fin m) mat)) <> None <-> vx a < vx b /\ vy a < vy b /\ vz a < vz b).
Proof.
  intros D Hm. unfold collider_new_from. cbn [collider_valid]. unfold box_valid. cbn [bx_min bx_max bx_mass]. rewrite vfin_sub, eps_fin, fin_0.
  change (@n_lt ER EReal) with er_lt. change (@n_le ER EReal) with er_le. rewrite (proj2 (er_le_fin _ _)) by lra.
  assert (C : forall f : V -> R, In f [vx (T:=R); vy (T:=R); vz (T:=R)] -> (er_lt (Fin (1 / 1000000)) (Fin (f b - f a)) = true <-> f a < f b)).
  { intros f Hf. rewrite er_lt_fin. pose proof (D f Hf) as X. unfold Rabs in X. destruct (Rcase_abs (f b - f a)); split; lra. }
  pose proof (C (vx (T:=R)) ltac:(simpl; auto)) as Cx. pose proof (C (vy (T:=R)) ltac:(simpl; auto)) as Cy. pose proof (C (vz (T:=R)) ltac:(simpl; auto)) as Cz.
  change (vx (vfin (vsub b a))) with (Fin (vx b - vx a)). change (vy (vfin (vsub b a))) with (Fin (vy b - vy a)). change (vz (vfin (vsub b a))) with (Fin (vz b - vz a)).
  rewrite <- Cx, <- Cy, <- Cz. destruct (er_lt _ (Fin (vx b - vx a))), (er_lt _ (Fin (vy b - vy a))), (er_lt _ (Fin (vz b - vz a))); cbn [andb]; split; intros H; try tauto; try discriminate; destruct H as (? & ? & ?); discriminate.
Qed.
(** A plane that is added gets a unit normal in the direction given. *)
Lemma plane_normalised (s s' : system ER) h p n c : reachable s -> add_collider s (CPlane p) = Ok (s', Some h) -> pl_normal p = vfin n -> get_collider s' h = Some c ->
  exists u q, c = CPlane q /\ pl_normal q = vfin u /\ unit_along u n /\ pl_pos q = pl_pos p /\ pl_mass q = pl_mass p.
Proof.
  intros R H En Hg. pose proof (add_collider_effect s (CPlane p) (reachable_Inv s R)) as A.
  destruct (collider_new_from (CPlane p)) as [k|] eqn:Ek; [|rewrite A in H; discriminate].
  destruct A as (s1 & h1 & A1 & _ & _ & A2 & _). rewrite A1 in H. injection H as <- <-. unfold get_collider in Hg.
  rewrite A2 in Hg. injection Hg as <-. unfold collider_new_from in Ek. destruct (collider_valid (CPlane p)) eqn:V; [|discriminate]. injection Ek as <-.
  cbn [collider_valid] in V. unfold plane_valid in V. apply andb_true_iff in V. destruct V as (_ & V). rewrite En, vmag_fin, eps_fin in V.
  apply er_lt_fin in V. assert (Hn : n <> mkV 0 0 0). { intros ->. replace (vdot (mkV 0 0 0) (mkV 0 0 0)) with 0 in V by (vunfold; ring). rewrite sqrt_0 in V. lra. }
  exists (vunit n). eexists. split; [reflexivity|]. cbn [pl_normal pl_pos pl_mass]. rewrite En. split; [exact (vnormalize_fin n Hn)|]. split; [now apply vunit_along|]. auto.
Qed.
