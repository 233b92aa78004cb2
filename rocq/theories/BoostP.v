(** * BoostP: what an observer who moves steadily sees (C89) *)
From Coq Require Import ZArith Reals List Bool Lra Lia.
Import ListNotations.
From Verif Require Import Num Vec Res Arena RangeM Orient Colliders Collide EntityM SystemM OrderP Spec ResP RealSpec RealV OrientP PhysSpec PhysP RangeP CollideP Mass3P MoveSpec MoveP PassP FlightSpec FlightP BoostSpec.
Local Open Scope R_scope.

(** ** The response to a collision *)
Lemma boost_at u e p : velocity_at (boost u e) p = vadd (velocity_at e p) (vfin u).
Proof. unfold velocity_at, boost. cbn [e_vel e_angvel e_orient]. exact (sh_add u _ _). Qed.
Lemma boost_push u e p i : apply_impulse (boost u e) p i = boost u (apply_impulse e p i).
Proof.
  unfold apply_impulse, boost, e_set_vels, get_inverse_moment. cbn [e_orient e_own_mass e_total_mass e_prep_moi e_vel e_angvel e_colliders e_falling e_falling_time e_asleep e_neighbors].
  f_equal. exact (sh_add u _ _).
Qed.
Lemma boost_denominator u e1 e2 c : impulse_denominator (boost u e1) (boost u e2) c = impulse_denominator e1 e2 c.
Proof. unfold impulse_denominator, get_inverse_moment, boost. cbn [e_orient e_total_mass e_prep_moi]. reflexivity. Qed.
Lemma boost_delta u e1 e2 p : vsub (velocity_at (boost u e1) p) (velocity_at (boost u e2) p) = vsub (velocity_at e1 p) (velocity_at e2 p).
Proof. rewrite !boost_at. exact (sh_sub u _ _). Qed.
Lemma boost_impulse u e1 e2 r c : collision_impulse (boost u e1) (boost u e2) r c = collision_impulse e1 e2 r c.
Proof. unfold collision_impulse. now rewrite boost_delta, boost_denominator. Qed.
Lemma boost_friction u e1 e2 f i : friction (boost u e1) (boost u e2) f i = friction e1 e2 f i.
Proof. unfold friction. now rewrite boost_delta, boost_denominator. Qed.
Lemma boost_respond u e1 e2 f : respond_pair (boost u e1) (boost u e2) f =
  let '(a, b, i, k) := respond_pair e1 e2 f in (boost u a, boost u b, i, k).
Proof.
  unfold respond_pair. cbv zeta. rewrite boost_impulse, !boost_push, boost_friction. destruct (friction _ _ _ _) as (fr & k). now rewrite !boost_push.
Qed.

(** ** Where and when two bodies meet *)
Lemma boost_world_move w p o e : unit_o o -> unit_o e -> world_move p (ofin o) (move_o w (ofin e)) = move_v w (world_move p (ofin o) (ofin e)).
Proof.
  intros Uo Ue. unfold world_move. rewrite sh_world by (left; exists (o_rot e); split; [exact eq_refl|exact Ue]). exact (sh_subr w _ _).
Qed.
Lemma scale_sh w x t : vscale (move_v w x) (Fin t) = move_v (vscale w t) (vscale x (Fin t)).
Proof. unfold move_v, vscale, vadd, vfin. cbn [vx vy vz]. now rewrite !shift_mul. Qed.
Lemma boost_spheres w (s1 s2 : sphere_c ER) r1 r2 o1 e1 o2 e2 : sp_radius s1 = Fin r1 -> sp_radius s2 = Fin r2 -> 0 < r1 + r2 ->
  unit_o o1 -> unit_o e1 -> unit_o o2 -> unit_o e2 ->
  same_meeting w (collide (CSphere s1) (ofin o1) (ofin e1) (CSphere s2) (ofin o2) (ofin e2))
                 (collide (CSphere s1) (ofin o1) (move_o w (ofin e1)) (CSphere s2) (ofin o2) (move_o w (ofin e2))).
Proof.
  intros R1 R2 Hr U1 V1 U2 V2. unfold collide. rewrite !boost_world_move by assumption. rewrite R1, R2.
  unfold collide_sphere_with_sphere. cbv zeta. rewrite sh_sub. destruct (rg_is_empty _) eqn:E; [exact Logic.I|].
  apply cut_unit in E. destruct (unit_t_fin _ E) as (t & Et). unfold same_meeting, c_time. cbn [c_times c_pos]. split; [reflexivity|]. exists t. split; [exact Et|].
  rewrite Et, !scale_sh, !add_sh, fin_add. rewrite (Rplus_comm r1 r2). assert (Hs : r2 + r1 <> 0) by lra. exact (sh_balance (vscale w t) _ _ r2 r1 Hs).
Qed.
Lemma boost_sphere_plane w (s : sphere_c ER) (p : plane_c ER) n o1 e1 o2 e2 : pl_normal p = vfin n ->
  unit_o o1 -> unit_o e1 -> unit_o o2 -> unit_o e2 ->
  same_contact w (collide (CSphere s) (ofin o1) (ofin e1) (CPlane p) (ofin o2) (ofin e2))
                 (collide (CSphere s) (ofin o1) (move_o w (ofin e1)) (CPlane p) (ofin o2) (move_o w (ofin e2))).
Proof.
  intros Hn U1 V1 U2 V2. unfold collide. rewrite !boost_world_move by assumption. rewrite Hn.
  unfold collide_sphere_with_plane, sphere_plane_overlap_time. cbv zeta.
  destruct (sh_dot w (vfin n)) as (k & Hk); [left; exists n; exact eq_refl|]. rewrite !Hk, shift_cancel. destruct (rg_is_empty _) eqn:E; [split; exact Logic.I|].
  apply cut_unit in E. destruct (unit_t_fin _ E) as (t & Et). unfold same_contact, same_meeting, c_time. cbn [c_times c_pos c_normal]. split; [|reflexivity]. split; [reflexivity|]. exists t. split; [exact Et|].
  rewrite Et, scale_sh, add_sh. exact eq_refl.
Qed.

(** ** Free flight *)
Lemma boost_flight h gs m s l s' e p v t l2 t' e2 u :
  undisturbed h s l s' -> undisturbed h t l2 t' -> map snd l2 = map snd l -> gravity_only s gs -> gravity_only t gs ->
  get_entity s h = Some e -> get_entity t h = Some e2 -> pe_last_total_mass e = Fin m -> pe_last_total_mass e2 = Fin m -> / 1000000 < m ->
  pe_pos e = vfin p -> pe_pos e2 = vfin p -> pe_vel e = vfin v -> pe_vel e2 = vfin (vadd v u) ->
  exists e' e2', get_entity s' h = Some e' /\ get_entity t' h = Some e2' /\
    pe_vel e2' = vadd (pe_vel e') (vfin u) /\ pe_pos e2' = vadd (pe_pos e') (vfin (vscale u (total_time l))).
Proof.
  intros A B D GA GB HA HB MA MB Hm PA PB VA VB.
  destruct (flight h gs m s l s' e p v A GA HA MA Hm PA VA) as (e' & E1 & E2 & E3).
  destruct (flight h gs m t l2 t' e2 p (vadd v u) B GB HB MB Hm PB VB) as (e2' & F1 & F2 & F3).
  assert (Ti : total_time l2 = total_time l).
  { unfold total_time. change (map (fun x : set_order * R => snd x) l2) with (map snd l2). rewrite D. exact eq_refl. }
  assert (Sq : total_square l2 = total_square l).
  { unfold total_square. rewrite <- (map_map snd (fun d => d * d) l2), <- (map_map snd (fun d => d * d) l), D. exact eq_refl. }
  exists e', e2'. split; [exact E1|]. split; [exact F1|]. rewrite E2, E3, F2, F3, Ti, Sq. unfold parabola. split; rewrite vfin_add; f_equal; apply vext; vunfold; field.
Qed.
