(** * Properties about mass, centre of mass and inertia: C37 to C40, C42.

    The vocabulary is in PhysSpec: [parts_of s e pt] (mass, centre and tensor of the colliders linked to [e], as their
    getters report them), [parts_mass], [parts_moment], [parts_inertia], [total_of]. *)
From Coq Require Import ZArith Reals List Bool Lra Permutation.
Import ListNotations.
From Verif Require Import Num Vec Res Arena RangeM Orient Colliders Collide EntityM SystemM OrderP Spec RealSpec RealV OrientP PhysSpec PartSpec PhysP Mass2P Mass3P Mass4P Mass5P PartP Examples RealEx MassEx.
Local Open Scope R_scope.

(** The example for all of them: a ball of mass 3 around the local point (4, 0, 0), on an entity of own mass 1. *)
Example C37_to_C42_example : exists s h e o pt, reachable s /\ get_entity s h = Some e /\ pe_own_mass e = Fin 1 /\ pe_last_orient e = ofin o /\
  pe_colliders e = [hd 0] /\ parts_of s e pt /\ parts_mass (parts e pt) = 3 /\ o_pos o = mkV 5 0 0 /\ psd (p_tensor (pt (hd 0))).
Proof. exact ball_example. Qed.

(** ** C37 Cached mass is always the sum of the parts *)
(** Any arithmetic, binary32 included: summed in some order of the linked colliders. *)
Theorem C37_total : forall {T} {N : Num T} {O : Ord N} (s : system T) h e, reachable s -> get_entity s h = Some e ->
  exists hs ms, Permutation hs (pe_colliders e) /\ Forall2 (fun c m => exists k, get_collider s c = Some k /\ mass_of k = m) hs ms /\
    pe_last_total_mass e = total_of (pe_own_mass e) ms.
Proof. exact @reachable_total. Qed.
Print Assumptions C37_total.
Theorem C37_exact : forall (s : system ER) h e m pt, reachable s -> get_entity s h = Some e -> pe_own_mass e = Fin m -> parts_of s e pt ->
  pe_last_total_mass e = Fin (m + parts_mass (parts e pt)).
Proof. exact reachable_total_exact. Qed.
Print Assumptions C37_exact.
Theorem C37_infinite : forall (s : system ER) h e c k, reachable s -> get_entity s h = Some e -> In c (pe_colliders e) -> get_collider s c = Some k ->
  mass_of k = PInf -> pe_last_total_mass e = PInf.
Proof. exact reachable_total_inf. Qed.
Print Assumptions C37_infinite.
(** The floor of the yard of C69, also for C38_origin. *)
Example C37_infinite_example : exists (s : system ER) h e o c k, reachable s /\ get_entity s h = Some e /\ pe_last_orient e = ofin o /\ In c (pe_colliders e) /\ get_collider s c = Some k /\
  mass_of k = PInf.
Proof. exact yard_floor. Qed.

(** ** C38 The entity position is the centre of mass *)
Theorem C38_centre : forall (s : system ER) h e o pt, reachable s -> get_entity s h = Some e -> pe_last_orient e = ofin o -> parts_of s e pt ->
  0 < parts_mass (parts e pt) -> pe_pos e = vfin (o_pos o) /\ vscale (o_pos o) (parts_mass (parts e pt)) = parts_moment o (parts e pt).
Proof. exact reachable_centre. Qed.
Print Assumptions C38_centre.
(** What the parts are, from the fields of the colliders alone (PartSpec): *)
Theorem C38_parts : forall (s : system ER) c k m x t, get_collider s c = Some k -> mass_of k = Fin m -> middle_of k x -> inertia_of k t ->
  is_part s c (mkPart m x t).
Proof. exact described_part. Qed.
Print Assumptions C38_parts.
Example C38_parts_example : let b := CBox (mkBox None (vfin (mkV 1 0 0)) (vfin (mkV 0 0 0)) (vfin (mkV 2 4 6)) (Fin 12) mat_default) in
  middle_of b (mkV 2 2 3) /\ inertia_of b (mkM 52 0 0 0 40 0 0 0 20).
Proof. exact brick_described. Qed.
(** Otherwise it is the local origin: colliders without mass, or one of infinite mass; *)
Theorem C38_origin : forall (s : system ER) h e o pt, reachable s -> get_entity s h = Some e -> pe_last_orient e = ofin o ->
  pe_colliders e <> [] -> (parts_of s e pt /\ parts_mass (parts e pt) = 0) \/ (exists c k, In c (pe_colliders e) /\ get_collider s c = Some k /\ mass_of k = PInf) ->
  o_pos o = position_into_world o (mkV 0 0 0).
Proof. exact reachable_origin. Qed.
Print Assumptions C38_origin.
(** the last collider just unlinked. *)
Theorem C38_unlinked : forall ord (s s' : system ER) a c k h e' o', good_order ord -> reachable s -> exec ord s (OLinkCollider c None) = Ok (s', a) ->
  get_collider s c = Some k -> c_entity k = Some h -> get_entity s' h = Some e' -> pe_last_orient e' = ofin o' -> pe_colliders e' = [] ->
  o_pos o' = position_into_world o' (mkV 0 0 0).
Proof. exact unlinked_origin. Qed.
Print Assumptions C38_unlinked.

(** ** C39 Mass changes never move the local frame *)
(** Every call except [step] and [update_entity], for every entity there before and after. *)
Theorem C39_frame : forall ord (s : system ER) op s' a h e e' o o', good_order ord -> reachable s -> exec ord s op = Ok (s', a) ->
  match op with OStep _ | OUpdateEntity _ _ => False | _ => True end ->
  get_entity s h = Some e -> get_entity s' h = Some e' -> pe_last_orient e = ofin o -> pe_last_orient e' = ofin o' ->
  forall x, position_into_world o' x = position_into_world o x.
Proof. exact frame_kept. Qed.
Print Assumptions C39_frame.
(** For C38_unlinked and C39_frame: the ball is taken off its entity, whose position goes back from (5, 0, 0) to (1, 0, 0). *)
Example C38_C39_example : exists (s s' : system ER) a k e e' o o', reachable s /\ exec in_order s (OLinkCollider (hd 0) None) = Ok (s', a) /\
  get_collider s (hd 0) = Some k /\ c_entity k = Some (hd 0) /\ get_entity s (hd 0) = Some e /\ pe_last_orient e = ofin o /\ o_pos o = mkV 5 0 0 /\
  get_entity s' (hd 0) = Some e' /\ pe_last_orient e' = ofin o' /\ pe_colliders e' = [] /\ o_pos o' = mkV 1 0 0.
Proof. exact ball_off. Qed.

(** ** C40 The inertia tensor is the physical one *)
(** The tensor of an entity is the one with the right energy about every axis, and symmetric and positive semidefinite. *)
Theorem C40_tensor : forall (s : system ER) h e o pt, reachable s -> get_entity s h = Some e -> pe_last_orient e = ofin o -> parts_of s e pt ->
  exists i0 t, pe_last_prep_moi e = mfin i0 /\ turned_tensor (o_rot o) i0 t /\
    (forall w, vdot w (mulmv t w) = parts_inertia o (o_pos o) (parts e pt) w) /\
    ((forall c, In c (pe_colliders e) -> symmetric (p_tensor (pt c))) -> symmetric i0 /\ symmetric t) /\
    ((forall c, In c (pe_colliders e) -> psd (p_tensor (pt c))) -> psd i0 /\ psd t).
Proof. exact reachable_tensor. Qed.
Print Assumptions C40_tensor.
(** A box's own tensor is that of the solid box of that mass ... *)
Theorem C40_box_partial : forall owner pos lo hi m mat, let d := vsub hi lo in
  c_moi (CBox (mkBox owner (vfin pos) (vfin lo) (vfin hi) (Fin m) mat)) =
  mfin (mkM (m / 12 * (vy d * vy d + vz d * vz d)) 0 0 0 (m / 12 * (vx d * vx d + vz d * vz d)) 0 0 0 (m / 12 * (vx d * vx d + vy d * vy d))).
Proof. exact box_tensor. Qed.
Print Assumptions C40_box_partial.
(** ... a ball's is not that of the solid ball (2/5 m r^2). *)
Theorem C40_sphere_refuted : exists m r, collider_new_from (CSphere (mkSphere None (vfin (mkV 0 0 0)) (Fin r) (Fin m) mat_default)) <> None /\
  c_moi (CSphere (mkSphere None (vfin (mkV 0 0 0)) (Fin r) (Fin m) mat_default)) <> mfin (mkM (2 / 5 * m * (r * r)) 0 0 0 (2 / 5 * m * (r * r)) 0 0 0 (2 / 5 * m * (r * r))).
Proof. exact sphere_wrong. Qed.
Print Assumptions C40_sphere_refuted.

(** ** C42 Rotations stay rotations *)
(** In exact arithmetic, as long as they are numbers.  Missing: rotations given or become NaN, for which it is false. *)
Theorem C42_rotation_partial : forall (s : system ER) h e, reachable s -> get_entity s h = Some e -> unit_or_lost (o_rot (pe_last_orient e)).
Proof. exact reachable_rotation. Qed.
Print Assumptions C42_rotation_partial.
Theorem C42_nan_refuted : exists s h e, reachable s /\ get_entity s h = Some e /\ ~ exists r, o_rot (pe_last_orient e) = qfin r /\ unit_quat r.
Proof. exact rotation_lost. Qed.
Print Assumptions C42_nan_refuted.
