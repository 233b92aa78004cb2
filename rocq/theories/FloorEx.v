(** * FloorEx: a reachable system in exact arithmetic: a ball over a floor, with gravity *)
From Coq Require Import ZArith Reals Lra Psatz Bool List Lia.
Import ListNotations.
From Verif Require Import Num Vec Res Arena RangeM Orient Colliders Collide EntityM SystemM OrderP Spec PanicSpec Examples ResP ArenaP FrameP StoreP Store2P ExecP StepP Step2P Step3P NoPanicP RangeP
  RealSpec RealV OrientP Orient2P GeomP ShapeP Geom4P Geom6P PhysSpec PhysP Phys2P Phys3P Phys4P Mass3P Mass4P TraceSpec TraceP PassP EnergyP RealEx TwoEx FloorSpec.
Local Open Scope R_scope.

(** The floor: an entity of mass 1 with an infinitely heavy half space under y = 0. *)
Definition floor_plane (owner : option handle) : plane_c ER := mkPlane owner (vfin (mkV 0 0 0)) (vfin (mkV 0 1 0)) PInf slick.
Definition floor_linked (h : handle) : ientity ER :=
  mkE (ofin (mkO (mkV 0 0 0) (mkQ 0 0 0 1) (mkV 0 0 0))) (Fin 1) PInf mzero (vfin (mkV 0 0 0)) (vfin (mkV 0 0 0)) [h] false (Fin 0) false [].
Definition origin : V := mkV 0 0 0. Definition up : V := mkV 0 1 0.
Lemma vlen_up : vlen up = 1.
Proof. unfold vlen, up. replace (vdot (mkV 0 1 0) (mkV 0 1 0)) with 1 by (vunfold; ring). apply sqrt_1. Qed.
Lemma floor_in : collider_new_from (CPlane (floor_plane None)) = Some (CPlane (floor_plane None)).
Proof.
  unfold collider_new_from, floor_plane. cbn [collider_valid]. unfold plane_valid. cbn [pl_mass pl_normal]. rewrite fin_0, eps_fin. fold up. rewrite vmag_fin. fold (vlen up). rewrite vlen_up.
  change (n_le (Fin 0) PInf) with true. change (@n_lt ER EReal) with er_lt. rewrite (proj2 (er_lt_fin _ _)) by lra. cbn [andb stored_new pl_pos pl_normal pl_mass pl_mat].
  rewrite vnormalize_fin. 2: { unfold up. intros Z. apply (f_equal vy) in Z. cbn [vy] in Z. lra. }
  assert (U : vunit up = up). { unfold vunit. fold (vlen up). rewrite vlen_up. unfold up. apply vext; vunfold; field. } rewrite U. exact eq_refl.
Qed.
Lemma floor_recalc h cols owner : aget cols h = Some (CPlane (floor_plane owner)) ->
  recalculate_mass [h] cols (e_set_colliders (puck_inside origin origin) [h]) = Ok (floor_linked h).
Proof.
  intros G. unfold recalculate_mass. cbn [e_set_colliders puck_inside e_orient com_loop]. rewrite G. cbn [c_mass floor_plane pl_mass]. change (n_isinf PInf) with true. cbv iota beta zeta. cbn [rbind].
  rewrite andb_false_r. cbv iota beta zeta. cbn [ofin o_pos o_rot o_off].
  assert (Z : vsub (mkV 0 0 0) (mkV 0 0 0) = mkV 0 0 0) by (apply vext; vunfold; ring). rewrite vfin_sub, Z.
  set (o1 := mkO (vfin origin) _ _). assert (E2 : direction_into_world o1 (vfin (mkV 0 0 0)) = vfin (direction_into_world (mkO origin (mkQ 0 0 0 1) (mkV 0 0 0)) (mkV 0 0 0))) by exact eq_refl.
  rewrite E2, direction_world_form, vfin_add. cbn [o_rot]. assert (Z2 : vadd origin (qrot (mkQ 0 0 0 1) (mkV 0 0 0)) = origin) by (unfold origin; apply vext; qunfold; ring). rewrite Z2. exact eq_refl.
Qed.

Definition ball_at : V := mkV 0 5 0. Definition ball_vel : V := mkV 1 0 0. Definition pull : V := mkV 0 (-10) 0.
Definition yard_of (e1 e2 : ientity ER) (o1 o2 : option handle) : system ER :=
  s_set_cols (s_set_ents system_new (two e1 e2)) (two (puck o1) (CPlane (floor_plane o2))).
Definition yard : system ER := s_set_gens (yard_of (puck_linked ball_at ball_vel (hd 0)) (floor_linked (hd 1)) (Some (hd 0)) (Some (hd 1))) (one (GenGravity (vfin pull))).
Lemma yard_reachable : reachable yard.
Proof.
  assert (R1 : reachable (s_set_ents system_new (one (puck_inside ball_at ball_vel)))).
  { eapply (follows_exec in_order _ (OAddEntity (puck_entity ball_at ball_vel))); [split; [apply in_order_good|exact Logic.I]|].
    unfold exec, add_entity. rewrite puck_entity_in. exact eq_refl. }
  assert (R2 : reachable (s_set_ents system_new (two (puck_inside ball_at ball_vel) (puck_inside origin origin)))).
  { eapply follows_trans; [exact R1|]. eapply (follows_exec in_order _ (OAddEntity (puck_entity origin origin))); [split; [apply in_order_good|exact Logic.I]|].
    unfold exec, add_entity. rewrite puck_entity_in. exact eq_refl. }
  assert (R3 : reachable (s_set_cols (s_set_ents system_new (two (puck_inside ball_at ball_vel) (puck_inside origin origin))) (one (puck None)))).
  { eapply follows_trans; [exact R2|]. eapply (follows_exec in_order _ (OAddCollider (puck None))); [split; [apply in_order_good|exact Logic.I]|].
    unfold exec, add_collider. rewrite puck_in. exact eq_refl. }
  assert (R4 : reachable (yard_of (puck_inside ball_at ball_vel) (puck_inside origin origin) None None)).
  { eapply follows_trans; [exact R3|]. eapply (follows_exec in_order _ (OAddCollider (CPlane (floor_plane None)))); [split; [apply in_order_good|exact Logic.I]|].
    unfold exec, add_collider. rewrite floor_in. exact eq_refl. }
  assert (R5 : reachable (yard_of (puck_linked ball_at ball_vel (hd 0)) (puck_inside origin origin) (Some (hd 0)) None)).
  { eapply follows_trans; [exact R4|]. eapply (follows_exec in_order _ (OLinkCollider (hd 0) (Some (hd 0)))); [split; [apply in_order_good|exact Logic.I]|].
    unfold exec, link_collider. change (aget (s_cols (yard_of _ _ None None)) (hd 0)) with (Some (puck None)).
    change (aget (s_ents (yard_of (puck_inside ball_at ball_vel) (puck_inside origin origin) None None)) (hd 0)) with (Some (puck_inside ball_at ball_vel)). cbv iota beta zeta.
    assert (X : recalculate_mass (in_order KColliders (hd 0) (e_colliders (e_set_colliders (puck_inside ball_at ball_vel) (hinsert (hd 0) (e_colliders (puck_inside ball_at ball_vel))))))
      (s_cols (yard_of (puck_inside ball_at ball_vel) (puck_inside origin origin) None None)) (e_set_colliders (puck_inside ball_at ball_vel) (hinsert (hd 0) (e_colliders (puck_inside ball_at ball_vel)))) =
      Ok (puck_linked ball_at ball_vel (hd 0))) by (apply (puck_recalc ball_at ball_vel (hd 0) _ None); exact eq_refl).
    rewrite X. exact eq_refl. }
  assert (R6 : reachable (yard_of (puck_linked ball_at ball_vel (hd 0)) (floor_linked (hd 1)) (Some (hd 0)) (Some (hd 1)))).
  { eapply follows_trans; [exact R5|]. eapply (follows_exec in_order _ (OLinkCollider (hd 1) (Some (hd 1)))); [split; [apply in_order_good|exact Logic.I]|].
    unfold exec, link_collider. change (aget (s_cols (yard_of _ _ (Some (hd 0)) None)) (hd 1)) with (Some (CPlane (floor_plane None))).
    change (aget (s_ents (yard_of (puck_linked ball_at ball_vel (hd 0)) (puck_inside origin origin) (Some (hd 0)) None)) (hd 1)) with (Some (puck_inside origin origin)). cbv iota beta zeta.
    assert (X : recalculate_mass (in_order KColliders (hd 1) (e_colliders (e_set_colliders (puck_inside origin origin) (hinsert (hd 1) (e_colliders (puck_inside origin origin))))))
      (s_cols (yard_of (puck_linked ball_at ball_vel (hd 0)) (puck_inside origin origin) (Some (hd 0)) None)) (e_set_colliders (puck_inside origin origin) (hinsert (hd 1) (e_colliders (puck_inside origin origin)))) =
      Ok (floor_linked (hd 1))) by (apply (floor_recalc (hd 1) _ None); exact eq_refl).
    rewrite X. exact eq_refl. }
  eapply follows_trans; [exact R6|]. eapply (follows_exec in_order _ (OAddGenerator (GenGravity (vfin pull)))); [split; [apply in_order_good|exact Logic.I]|]. exact eq_refl.
Qed.
Lemma yard_ent h e : aget (s_ents yard) h = Some e ->
  (h = hd 0 /\ e = puck_linked ball_at ball_vel (hd 0)) \/ (h = hd 1 /\ e = floor_linked (hd 1)).
Proof.
  intros H. assert (I : In h (ahandles (s_ents yard))) by (apply ahandles_in; congruence).
  change (In h [hd 0; hd 1]) in I. destruct I as [<-|[<-|[]]]; [left|right]; split; try exact eq_refl; injection H as <-; exact eq_refl.
Qed.
Lemma yard_court : court yard (hd 0) (hd 1) origin 1 origin up pull.
Proof.
  constructor.
  - intros h. unfold get_entity. destruct (aget (s_ents yard) h) as [e|] eqn:E; [apply yard_ent in E; split; [intros _; tauto|discriminate]|]. split; [intros X; now destruct X|]. intros [-> | ->]; discriminate E.
  - discriminate.
  - exists (puck_sphere (Some (hd 0))), (floor_plane (Some (hd 1))). split; [eexists _, (hd 0); split; [exact eq_refl|split; exact eq_refl]|]. split; [eexists _, (hd 1); split; [exact eq_refl|split; exact eq_refl]|].
    repeat (split; [exact eq_refl|]). exists 1, 1, 0, 0, 0, 0. repeat (split; [exact eq_refl|]). split; [lra|]. split; [lra|]. split; [lra|]. left. lra.
  - lra.
  - unfold up. vunfold. ring.
  - exists [pull]. split; [constructor; [exact eq_refl|constructor]|]. unfold vsum, pull. cbn [fold_right]. apply vext; vunfold; ring.
  - cbn. lia.
  - intros h k (e & He & Hk). apply yard_ent in He. destruct He as [(-> & ->)|(-> & ->)]; destruct Hk.
Qed.
(** The ball's height is 4, and it does not rise or fall. *)
Lemma yard_over : ball_over yard (hd 0) (hd 1) origin 1 origin up 4 0.
Proof.
  exists (puck_mover ball_at ball_vel), (mkMover PInf (mkM 0 0 0 0 0 0 0 0 0) (mkO origin (mkQ 0 0 0 1) origin) origin origin true).
  assert (Z : @mzero ER EReal = mfin (mkM 0 0 0 0 0 0 0 0 0)) by (unfold mzero; rewrite fin_0; exact eq_refl).
  split; [eexists; split; [exact eq_refl|]; repeat (split; [exact eq_refl|]); exact eq_refl|].
  split; [eexists; split; [exact eq_refl|]; split; [exact eq_refl|]; split; [exact Z|]; repeat (split; [exact eq_refl|]); exact eq_refl|].
  split; [|split; [|split]].
  - split; [apply puck_sound|]. split; [exact eq_refl|]. split; [unfold origin, puck_mover; cbn [mv_o o_off]; apply vext; vunfold; ring|]. exists 4. split; [exact eq_refl|lra].
  - split; [|split; [exact eq_refl|split; [exact eq_refl|split; exact eq_refl]]]. split; [exact Logic.I|]. split.
    + split; [repeat split|]. intros [x y z]. cbn [mv_tensor]. munfold. lra.
    + unfold unit_o, unit_quat. cbn. ring.
  - cbn [puck_mover mv_o o_pos]. rewrite world_form by (unfold unit_o, unit_quat; cbn; ring). cbn [o_rot o_off o_pos]. unfold origin, ball_at, up. qunfold. vunfold. ring.
  - cbn [puck_mover mv_vel]. unfold ball_vel, up. vunfold. ring.
Qed.
