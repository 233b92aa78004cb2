(** * MassEx: examples in exact arithmetic for C37 to C39, C50, C59 and C60 *)
From Coq Require Import ZArith Reals Lra Bool List.
Import ListNotations.
From Verif Require Import Num Vec Res Arena RangeM Orient Colliders Collide EntityM SystemM OrderP Spec Examples ResP ArenaP FrameP StoreP RealSpec RealV OrientP Orient2P PhysSpec PhysP Mass2P Mass3P Mass4P Mass5P RealEx FloorSpec FloorEx.
Local Open Scope R_scope.

(** The floor of the yard: infinite mass, position at its local origin. *)
Lemma yard_floor : exists (s : system ER) h e o c k, reachable s /\ get_entity s h = Some e /\ pe_last_orient e = ofin o /\ In c (pe_colliders e) /\ get_collider s c = Some k /\
  mass_of k = PInf.
Proof.
  exists yard, (hd 1), (make_pub (floor_linked (hd 1))), (mkO (mkV 0 0 0) (mkQ 0 0 0 1) (mkV 0 0 0)), (hd 1), (CPlane (floor_plane (Some (hd 1)))).
  split; [exact yard_reachable|]. split; [exact eq_refl|]. split; [exact eq_refl|]. split; [left; exact eq_refl|]. split; exact eq_refl.
Qed.
(** The ball of RealEx is taken off its entity, which goes back from (5, 0, 0) to (1, 0, 0). *)
Lemma ball_off : exists (s s' : system ER) a k e e' o o', reachable s /\ exec in_order s (OLinkCollider (hd 0) None) = Ok (s', a) /\
  get_collider s (hd 0) = Some k /\ c_entity k = Some (hd 0) /\ get_entity s (hd 0) = Some e /\ pe_last_orient e = ofin o /\ o_pos o = mkV 5 0 0 /\
  get_entity s' (hd 0) = Some e' /\ pe_last_orient e' = ofin o' /\ pe_colliders e' = [] /\ o_pos o' = mkV 1 0 0.
Proof.
  destruct ball_facts as (e & o & He & R & G & Eo & Eo' & Ec & _ & _). subst o.
  destruct (StoreP.recalc_total [] (aset (s_cols (ball_state e (Some (hd 0)))) (hd 0) (ball_collider None)) (e_set_colliders e [])) as (e1 & H1); [intros c []|].
  assert (U : unit_o (mkO (mkV 5 0 0) (mkQ 0 0 0 1) (mkV (-4) 0 0))) by (unfold unit_o, unit_quat; cbn; ring).
  destruct (recalc_finite [] _ (e_set_colliders e []) e1 _ (fun _ => ball_part) Eo U ltac:(intros c []) H1) as (o' & Eo1 & Er & Ew & _ & Eoff). cbv zeta in Eoff.
  assert (Z : parts_mass (map (fun _ : handle => ball_part) []) = 0) by exact eq_refl. rewrite Z in Eoff. specialize (Eoff ltac:(lra)). cbn [o_rot] in Er.
  assert (Uo : unit_o o') by (unfold unit_o; rewrite Er; exact U).
  assert (Ep : o_pos o' = mkV 1 0 0). { rewrite <- (world_centre o' Uo), Ew, world_form by exact U. rewrite Eoff. cbn [o_rot o_off o_pos]. apply vext; qunfold; field. }
  assert (Ec1 : e_colliders e1 = []).
  { destruct (FrameP.recalc_frame _ _ _ _ H1) as (x1 & x2 & x3 & ->). exact eq_refl. }
  exists (ball_state e (Some (hd 0))). eexists. exists (ABool true), (ball_collider (Some (hd 0))), (make_pub e), (make_pub e1), (mkO (mkV 5 0 0) (mkQ 0 0 0 1) (mkV (-4) 0 0)), o'.
  split; [exact R|]. split.
  { unfold exec, link_collider. change (aget (s_cols (ball_state e (Some (hd 0)))) (hd 0)) with (Some (ball_collider (Some (hd 0)))). cbv iota beta zeta. cbn [rbind].
    change (c_entity (ball_collider (Some (hd 0)))) with (Some (hd 0)). cbv iota beta zeta. change (aget (s_ents (ball_state e (Some (hd 0)))) (hd 0)) with (Some e). cbv iota beta zeta.
    assert (X : recalculate_mass (in_order KColliders (hd 0) (e_colliders (e_set_colliders e (hremove (hd 0) (e_colliders e)))))
      (aset (s_cols (ball_state e (Some (hd 0)))) (hd 0) (c_set_entity (ball_collider (Some (hd 0))) None)) (e_set_colliders e (hremove (hd 0) (e_colliders e))) = Ok e1).
    { rewrite Ec. exact H1. }
    rewrite X. cbn [rbind]. exact eq_refl. }
  split; [exact eq_refl|]. split; [exact eq_refl|]. split; [exact G|]. split; [exact Eo|]. split; [exact eq_refl|]. split; [exact eq_refl|]. split; [exact Eo1|]. split; [exact Ec1|exact Ep].
Qed.
(** A floor is added. *)
Lemma floor_added : exists (s s' : system ER) h p n c, reachable s /\ add_collider s (CPlane p) = Ok (s', Some h) /\ pl_normal p = vfin n /\ get_collider s' h = Some c /\ n = up.
Proof.
  exists yard. eexists. exists (hd 2), (floor_plane None), up. eexists. split; [exact yard_reachable|]. split; [|split; [exact eq_refl|split; [|exact eq_refl]]].
  - unfold add_collider. rewrite floor_in. exact eq_refl.
  - exact eq_refl.
Qed.
(** From half a turn about z to half a turn about x: both are turned; and a shift alone is steady. *)
Lemma lerp_example : let s := mkO (mkV 1 2 3) (mkQ 0 0 1 0) (mkV 4 5 6) in let e := mkO (mkV 2 2 2) (mkQ 1 0 0 0) (mkV 4 5 6) in
  unit_o s /\ unit_o e /\ turned (o_rot s) /\ turned (o_rot e) /\ o_off e = o_off s /\ steady s (mkO (mkV 2 2 2) (mkQ 0 0 1 0) (mkV 4 5 6)).
Proof.
  cbv zeta. cbn [o_rot o_off].
  assert (T1 : tiny < vlen (qvec (mkQ 0 0 1 0))). { unfold vlen, qvec. cbn [qi qj qk]. replace (vdot (mkV 0 0 1) (mkV 0 0 1)) with 1 by (vunfold; ring). rewrite sqrt_1. unfold tiny. lra. }
  assert (T2 : tiny < vlen (qvec (mkQ 1 0 0 0))). { unfold vlen, qvec. cbn [qi qj qk]. replace (vdot (mkV 1 0 0) (mkV 1 0 0)) with 1 by (vunfold; ring). rewrite sqrt_1. unfold tiny. lra. }
  split; [unfold unit_o, unit_quat; cbn; ring|]. split; [unfold unit_o, unit_quat; cbn; ring|]. split; [right; exact T1|]. split; [right; exact T2|]. split; [exact eq_refl|].
  unfold steady. split; [exact eq_refl|]. split; [exact eq_refl|]. split; [unfold unit_o, unit_quat; cbn; ring|right; exact T1].
Qed.
