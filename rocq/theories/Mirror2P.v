(** * Mirror2P: entities, the collision loop and the step in a mirror (C90) *)
From Coq Require Import ZArith Reals List Bool Arith Lra Lia.
Import ListNotations.
From Verif Require Import Num Vec Res Arena RangeM Orient Colliders Collide EntityM SystemM OrderP Spec ResP ArenaP FrameP StoreP ExecP RealSpec RealV OrientP PhysSpec PhysP RangeP MassP Mass3P MoveSpec MoveP Move2P Move3P Move4P MirrorSpec MirrorP.
Local Open Scope R_scope.

Lemma rfold_map {A B S S'} (g : S -> S') (k : A -> B) (f : S -> A -> res S) (f' : S' -> B -> res S') l :
  (forall s x, f' (g s) (k x) = returned g (f s x)) -> forall s, rfold f' (map k l) (g s) = returned g (rfold f l s).
Proof.
  intros H. induction l as [|x l IH]; intros s; [reflexivity|]. cbn [map rfold]. rewrite H, rbind_returned, returned_rbind. apply rbind_ext. intros s1 _. apply IH.
Qed.
Lemma all_pairs_map {A B} (k : A -> B) l : all_pairs (map k l) = map (fun p => (k (fst p), k (snd p))) (all_pairs l).
Proof. induction l as [|x l IH]; [reflexivity|]. cbn [map all_pairs]. rewrite map_app, IH, !map_map. reflexivity. Qed.
Lemma combine_map_r {A B C} (k : B -> C) (l : list A) : forall l' : list B, combine l (map k l') = map (fun p => (fst p, k (snd p))) (combine l l').
Proof. induction l as [|x l IH]; intros [|y l']; cbn; try reflexivity. now rewrite IH. Qed.

Section Mirror.
  Variable a : axes.
  Notation mv := (mirror_v a).
  Notation mw := (mirror_w a).
  Notation mq := (mirror_q a).
  Notation mm := (mirror_m a).
  Notation mo := (mirror_o a).
  Notation mi := (mirror_internal a).
  Notation mc := (mirror_collider a).
  Notation mg := (mirror_generator a).
  Notation ea := (aeach mi).
  Notation ec := (aeach mc).
  Notation ms := (mirror_system a).
  Implicit Types (e : ientity ER) (s : system ER).

  (** ** Entities *)
  Lemma pub_mirror e : make_pub (mi e) = mirror_entity a (make_pub e).
  Proof.
    unfold make_pub, mirror_entity, mirror_internal. cbn [e_orient e_own_mass e_total_mass e_prep_moi e_vel e_angvel e_colliders e_asleep pe_pos pe_rot pe_vel pe_angvel pe_colliders pe_own_mass pe_last_orient pe_last_total_mass pe_last_prep_moi pe_asleep].
    unfold rotation_vec. cbn [mirror_o o_rot]. now rewrite mq_log.
  Qed.
  Lemma get_mirror s h : get_entity (ms s) h = option_map (mirror_entity a) (get_entity s h).
  Proof. unfold get_entity. cbn [mirror_system s_ents]. rewrite each_get. destruct (aget _ h); cbn [option_map]; [now rewrite pub_mirror|reflexivity]. Qed.
  Lemma vel_at_mirror e p : velocity_at (mi e) (mv p) = mv (velocity_at e p).
  Proof. unfold velocity_at. cbn [mirror_internal e_vel e_angvel e_orient mirror_o o_pos]. now rewrite mv_sub, wv_cross, mv_add. Qed.
  Lemma moment_mirror e : get_moment (mi e) = mm (get_moment e).
  Proof. unfold get_moment. cbn [mirror_internal e_orient e_prep_moi]. apply finalize_mirror. Qed.
  Lemma inverse_mirror e : get_inverse_moment (mi e) = mm (get_inverse_moment e).
  Proof. unfold get_inverse_moment. rewrite moment_mirror, mm_inverse. destruct (mtry_inverse _); [reflexivity|]. cbn [option_map]. now rewrite mm_zero. Qed.
  Lemma orient_mirror (e : entity ER) : make_orientation (mirror_entity a e) = mo (make_orientation e).
  Proof. unfold make_orientation, orient_new. cbn [mirror_entity pe_pos pe_rot pe_last_orient mirror_o o_off]. rewrite mq_exp. reflexivity. Qed.
  Lemma last_moment_mirror (e : entity ER) : last_moment (mirror_entity a e) = mm (last_moment e).
  Proof. unfold last_moment. rewrite orient_mirror. cbn [mirror_entity pe_last_prep_moi]. apply finalize_mirror. Qed.
  Lemma impulse_mirror e p j : apply_impulse (mi e) (mv p) (mv j) = mi (apply_impulse e p j).
  Proof.
    unfold apply_impulse. rewrite inverse_mirror. cbn [mirror_internal e_total_mass e_vel e_angvel e_orient mirror_o o_pos]. rewrite mv_sub, mv_cross, mm_mulv, mw_add, mv_scale, mv_add. reflexivity.
  Qed.
  Lemma energy_mirror e : get_total_energy (mi e) = get_total_energy e.
  Proof. unfold get_total_energy. rewrite moment_mirror. cbn [mirror_internal e_total_mass e_vel e_angvel]. rewrite mv_mag, mw_mag, mv_scale, mv_dot, mm_mulv, mw_dot. reflexivity. Qed.
  Lemma new_mirror (e : entity ER) : entity_new_from (mirror_entity a e) = option_map mi (entity_new_from e).
  Proof.
    unfold entity_new_from. rewrite orient_mirror. cbn [mirror_entity pe_own_mass pe_vel pe_angvel]. destruct (n_lt _ _); [reflexivity|].
    cbn [option_map]. unfold mirror_internal. cbn [e_orient e_own_mass e_total_mass e_prep_moi e_vel e_angvel e_colliders e_falling e_falling_time e_asleep e_neighbors]. now rewrite mm_zero.
  Qed.
  Lemma square_turned (b : bool) (x y : ER) : n_mul (n_sub (turned b x) (turned b y)) (n_sub (turned b x) (turned b y)) = n_mul (n_sub x y) (n_sub x y).
  Proof. destruct b; cbn [turned]; signs; reflexivity. Qed.
  Lemma update_mirror e (src : entity ER) : update_from (mi e) (mirror_entity a src) = option_map (fun r => (mi (fst r), snd r)) (update_from e src).
  Proof.
    unfold update_from. cbn [mirror_entity mirror_internal pe_own_mass pe_rot pe_pos pe_vel pe_angvel e_orient mirror_o o_rot o_pos o_off e_own_mass e_vel e_angvel e_total_mass e_prep_moi e_colliders e_falling e_falling_time e_asleep e_neighbors].
    destruct (n_lt _ _); [reflexivity|]. cbv zeta. rewrite mq_exp. rewrite !mv_sub, !mv_mag, mw_sub, mw_mag. cbn [mirror_q qi qj qk qw]. rewrite !square_turned.
    cbn [option_map fst snd]. unfold mirror_internal, mirror_o. cbn [e_orient o_rot o_pos o_off e_own_mass e_vel e_angvel e_total_mass e_prep_moi e_colliders e_falling e_falling_time e_asleep e_neighbors]. reflexivity.
  Qed.

  (** ** Colliders *)
  Definition evens (cols : arena (collider ER)) : Prop := forall h c, aget cols h = Some c -> even_shape a c.
  Lemma mass_mirror c : c_mass (mc c) = c_mass c. Proof. destruct c; reflexivity. Qed.
  Lemma mat_mirror c : c_mat (mc c) = c_mat c. Proof. destruct c; reflexivity. Qed.
  Lemma entity_mirror c : c_entity (mc c) = c_entity c. Proof. destruct c; reflexivity. Qed.
  Lemma link_mirror c t : c_set_entity (mc c) t = mc (c_set_entity c t). Proof. destruct c; reflexivity. Qed.
  Lemma com_mirror c : even_shape a c -> c_com (mc c) = mv (c_com c). Proof. destruct c; try contradiction; reflexivity. Qed.
  Lemma moi_mirror c : even_shape a c -> c_moi (mc c) = mm (c_moi c).
  Proof. destruct c as [c|c|c|c|c]; try contradiction; intros _; cbn [mirror_collider c_moi nl_moi sp_mass sp_radius]; [reflexivity|now rewrite mm_diag|now rewrite mm_zero|now rewrite mm_zero]. Qed.
  Lemma valid_mirror c : even_shape a c -> collider_valid (mc c) = collider_valid c.
  Proof. destruct c as [c|c|c|c|c]; try contradiction; intros _; try reflexivity; cbn [mirror_collider collider_valid]; [unfold plane_valid; cbn [pl_mass pl_normal]; now rewrite mv_mag|unfold mesh_valid; cbn [me_verts me_faces me_edges]; now rewrite map_length]. Qed.
  Lemma stored_mirror c : even_shape a c -> stored_new (mc c) = mc (stored_new c).
  Proof. destruct c as [c|c|c|c|c]; try contradiction; intros _; try reflexivity. cbn [mirror_collider stored_new pl_pos pl_normal pl_mass pl_mat pl_ent]. now rewrite mv_normalize. Qed.
  Lemma cnew_mirror c : even_shape a c -> collider_new_from (mc c) = option_map mc (collider_new_from c).
  Proof. intros R. unfold collider_new_from. rewrite valid_mirror by exact R. destruct (collider_valid c); [|reflexivity]. cbn [option_map]. now rewrite stored_mirror. Qed.
  Definition mupd (u : upd ER) : upd ER := match u with UOk c => UOk (mc c) | u => u end.
  Lemma cupdate_mirror c src : even_shape a c -> even_shape a src -> collider_update_from (mc c) (mc src) = mupd (collider_update_from c src).
  Proof.
    intros R1 R2. destruct c as [c|c|c|c|c]; try contradiction; destruct src as [k|k|k|k|k]; try contradiction; try reflexivity; cbn [mirror_collider collider_update_from].
    - change (null_valid (mkNull (nl_ent k) (mv (nl_pos k)) (nl_mass k) (mm (nl_moi k)))) with (null_valid k). destruct (null_valid k); reflexivity.
    - change (sphere_valid (mkSphere (sp_ent k) (mv (sp_center k)) (sp_radius k) (sp_mass k) (sp_mat k))) with (sphere_valid k). destruct (sphere_valid k); reflexivity.
    - replace (plane_valid (mkPlane (pl_ent k) (mv (pl_pos k)) (mv (pl_normal k)) (pl_mass k) (pl_mat k))) with (plane_valid k) by (unfold plane_valid; cbn [pl_mass pl_normal]; now rewrite mv_mag).
      destruct (plane_valid k); reflexivity.
    - replace (mesh_valid (mkMesh (me_ent k) (mv (me_pos k)) (map mv (me_verts k)) (me_faces k) (me_edges k) (me_mat k))) with (mesh_valid k) by (unfold mesh_valid; cbn [me_verts me_faces me_edges]; now rewrite map_length).
      destruct (mesh_valid k); reflexivity.
  Qed.

  (** ** Mass *)
  Lemma com_loop_mirror o cols hs : evens cols -> forall t c, com_loop (mo o) (ec cols) hs t (mv c) = returned (fun r => (fst r, mv (snd r))) (com_loop o cols hs t c).
  Proof.
    intros R. induction hs as [|h hs IH]; intros t c; cbn [com_loop]; [reflexivity|]. rewrite each_get. destruct (aget cols h) as [k|] eqn:E; [|reflexivity]. cbn [option_map]. cbv zeta.
    rewrite mass_mirror. destruct (n_isinf (c_mass k)); [reflexivity|]. rewrite com_mirror by exact (R _ _ E). rewrite mv_world, mv_scale, mv_add. apply IH.
  Qed.
  Lemma moi_loop_mirror o cols hs : evens cols -> moi_loop (mo o) (ec cols) hs = returned mm (moi_loop o cols hs).
  Proof.
    intros R. unfold moi_loop. rewrite <- (mm_zero a) at 1. apply rfold_returned. intros acc h _. rewrite each_get, unwrap_returned, rbind_returned, returned_rbind. apply rbind_ext. intros c E.
    destruct (aget cols h) as [k|] eqn:Ek; [|discriminate]. injection E as ->. cbn [returned]. rewrite com_mirror, moi_mirror, mass_mirror by exact (R _ _ Ek). now rewrite prep_mirror, mm_add.
  Qed.
  Lemma recalc_mirror hs cols e : evens cols -> recalculate_mass hs (ec cols) (mi e) = returned mi (recalculate_mass hs cols e).
  Proof.
    intros R. unfold recalculate_mass. cbv zeta. change (e_orient (mi e)) with (mo (e_orient e)). change (e_own_mass (mi e)) with (e_own_mass e).
    rewrite <- (mv_zero a) at 1. rewrite com_loop_mirror by exact R. rewrite rbind_returned, returned_rbind. apply rbind_ext. intros [[b t] c] _. cbn [fst snd].
    assert (K : forall o' m, (if b then Ok (e_set_mass (mi e) (mo o') m mzero) else rbind (moi_loop (mo o') (ec cols) hs) (fun moi => Ok (e_set_mass (mi e) (mo o') m moi))) =
      returned mi (if b then Ok (e_set_mass e o' m mzero) else rbind (moi_loop o' cols hs) (fun moi => Ok (e_set_mass e o' m moi)))).
    { intros o' m. destruct b.
      - cbn [returned]. unfold e_set_mass, mirror_internal. cbn [e_orient e_own_mass e_total_mass e_prep_moi e_vel e_angvel e_colliders e_falling e_falling_time e_asleep e_neighbors]. now rewrite mm_zero.
      - rewrite moi_loop_mirror by exact R. rewrite rbind_returned, returned_rbind. apply rbind_ext. intros M _. reflexivity. }
    destruct (n_lt n0 t && negb b).
    - rewrite <- K. cbn [mirror_o o_pos o_rot o_off]. fold (mo (e_orient e)). rewrite mv_divs, mv_sub, mv_dir_local, mv_sub, mv_add. reflexivity.
    - rewrite <- K. cbn [mirror_o o_pos o_rot o_off]. rewrite mv_sub.
      match goal with |- context [direction_into_world (mkO (mv ?p) (mq ?r) (mv ?x)) (mv ?y)] => change (mkO (mv p) (mq r) (mv x)) with (mo (mkO p r x)) end.
      rewrite mv_dir_world, mv_add. reflexivity.
  Qed.

  (** ** Waking *)
  Definition mwake2 (r : arena (ientity ER) * list dmsg) : arena (ientity ER) * list dmsg := (ea (fst r), snd r).
  Definition mwake32 (r : arena (ientity ER) * list dmsg * list handle) : arena (ientity ER) * list dmsg * list handle := (mwake2 (fst r), snd r).
  Lemma wake_neighbor_mirror t done st n : wake_neighbor t done (mwake32 st) n = returned mwake32 (wake_neighbor t done st n).
  Proof.
    destruct st as [[ents dbg] q]. unfold wake_neighbor, mwake32, mwake2. cbn [fst snd]. destruct (hmem n done); [reflexivity|].
    rewrite each_get, unwrap_returned, rbind_returned, returned_rbind. apply rbind_ext. intros e _. cbn [mirror_internal e_total_mass].
    destruct (n_isinf _); [|reflexivity]. cbn [returned fst snd]. rewrite <- each_set. reflexivity.
  Qed.
  Lemma wake_loop_mirror ord fuel : forall done q ents dbg, wake_loop ord fuel done q (ea ents) dbg = returned mwake2 (wake_loop ord fuel done q ents dbg).
  Proof.
    induction fuel as [|fuel IH]; intros done [|t q] ents dbg; try reflexivity. cbn [wake_loop]. cbv zeta.
    rewrite each_get, unwrap_returned, rbind_returned, returned_rbind. apply rbind_ext. intros e _. change (e_neighbors (mi e)) with (e_neighbors e).
    change (ea ents, dbg, q) with (mwake32 (ents, dbg, q)). rewrite (rfold_returned mwake32 (wake_neighbor t (hinsert t done))) by (intros; apply wake_neighbor_mirror).
    rewrite rbind_returned, returned_rbind. apply rbind_ext. intros [[en db] q'] _. cbn [mwake32 mwake2 fst snd].
    rewrite each_get, unwrap_returned, rbind_returned, returned_rbind. apply rbind_ext. intros e' _. change (e_asleep (mi e')) with (e_asleep e').
    change (e_set_sleep (mi e') false []) with (mi (e_set_sleep e' false [])). rewrite each_set. apply IH.
  Qed.
  Lemma edges_mirror ents : edge_count (ea ents) = edge_count ents.
  Proof. unfold edge_count. rewrite each_values. induction (avalues ents) as [|e l IH]; cbn; auto. Qed.
  Lemma wake_mirror ord h ents dbg : wake_up ord h (ea ents) dbg = returned mwake2 (wake_up ord h ents dbg).
  Proof. unfold wake_up. rewrite edges_mirror. apply wake_loop_mirror. Qed.
  Lemma wake_finite_mirror ord h st : wake_finite ord h (mwake2 st) = returned mwake2 (wake_finite ord h st).
  Proof.
    unfold wake_finite. destruct st as [ents dbg]. cbn [mwake2 fst snd]. rewrite each_get, unwrap_returned, rbind_returned, returned_rbind. apply rbind_ext. intros e _.
    change (e_total_mass (mi e)) with (e_total_mass e). destruct (n_isfin _); [apply wake_mirror|reflexivity].
  Qed.

  (** ** The collision loop *)
  Definition minfo (i : info ER) : info ER := mkInfo (i_h i) (mv (i_lin i)) (mw (i_ang i)) (i_nbrs i).
  Definition mfound2 (f : found ER) : found ER := mkFound (mirror_collision a (fd_col f)) (fd_rest f) (fd_stat f) (fd_dyn f) (fd_thr f) (fd_h1 f) (fd_h2 f) (fd_i1 f) (fd_i2 f).
  Definition mbest2 (b : ER * option (found ER)) : ER * option (found ER) := (fst b, option_map mfound2 (snd b)).
  Definition mind (x : nat * info ER) : nat * info ER := (fst x, minfo (snd x)).
  Lemma check_mirror cols e1 e2 x1 x2 b chs : evens cols ->
    check_colliders (ec cols) (mi e1) (mi e2) (mind x1) (mind x2) (mbest2 b) chs = returned mbest2 (check_colliders cols e1 e2 x1 x2 b chs).
  Proof.
    intros R. unfold check_colliders. rewrite each_get, unwrap_returned, rbind_returned, returned_rbind. apply rbind_ext. intros c1 E1.
    rewrite each_get, unwrap_returned, rbind_returned, returned_rbind. apply rbind_ext. intros c2 E2. cbv zeta.
    change (e_orient (mi e1)) with (mo (e_orient e1)). change (e_orient (mi e2)) with (mo (e_orient e2)). cbn [mind fst snd minfo i_lin i_ang i_h i_nbrs]. rewrite !mo_after.
    destruct (aget cols (fst chs)) eqn:H1; [|discriminate]. destruct (aget cols (snd chs)) eqn:H2; [|discriminate]. injection E1 as ->. injection E2 as ->.
    rewrite collide_mirror by eauto. rewrite rbind_returned, returned_rbind. apply rbind_ext. intros [k|] _; [|reflexivity]. cbn [option_map].
    change (c_time (mirror_collision a k)) with (c_time k). cbn [mirror_collision c_pos c_normal]. rewrite !vel_at_mirror, mv_sub, mv_dot, !mat_mirror. destruct (n_lt _ EPSILON); [reflexivity|].
    cbn [mbest2 fst]. destruct (n_lt _ (fst b)); reflexivity.
  Qed.
  Lemma check_ents_mirror ord cols ents b p : evens cols -> check_entities ord (ec cols) (ea ents) (mbest2 b) (mind (fst p), mind (snd p)) = returned mbest2 (check_entities ord cols ents b p).
  Proof.
    intros R. destruct p as [x1 x2]. unfold check_entities. cbv zeta. cbn [fst snd mind minfo i_h]. rewrite each_get, unwrap_returned, rbind_returned, returned_rbind. apply rbind_ext. intros e1 _.
    rewrite each_get, unwrap_returned, rbind_returned, returned_rbind. apply rbind_ext. intros e2 _.
    change (e_neighbors (mi e1)) with (e_neighbors e1). change (e_neighbors (mi e2)) with (e_neighbors e2). change (e_colliders (mi e1)) with (e_colliders e1). change (e_colliders (mi e2)) with (e_colliders e2).
    destruct (hmem _ _); [reflexivity|]. destruct (hmem _ _); [reflexivity|]. apply rfold_returned. intros s c _. apply check_mirror. exact R.
  Qed.
  Lemma earliest_mirror ord cols ents infos : evens cols -> find_earliest ord (ec cols) (ea ents) (map minfo infos) = returned mbest2 (find_earliest ord cols ents infos).
  Proof.
    intros R. unfold find_earliest. rewrite map_length, combine_map_r. change (fun p : nat * info ER => (fst p, minfo (snd p))) with mind. rewrite all_pairs_map.
    change (@n1 ER EReal, @None (found ER)) with (mbest2 (n1, None)) at 1. apply rfold_map. intros s p. now apply check_ents_mirror.
  Qed.
  Definition mpairs2 (r : arena (ientity ER) * list (info ER)) : arena (ientity ER) * list (info ER) := (ea (fst r), map minfo (snd r)).
  Lemma advance_mirror p t ents infos : advance p t (ea ents) (map minfo infos) = returned mpairs2 (advance p t ents infos).
  Proof.
    unfold advance. change (ea ents, @nil (info ER)) with (mpairs2 (ents, [])). apply rfold_map. intros [en inf] i. unfold advance_one. cbn [mpairs2 fst snd minfo i_h i_lin i_ang i_nbrs].
    rewrite each_get, unwrap_returned, rbind_returned, returned_rbind. apply rbind_ext. intros e _. change (e_asleep (mi e)) with (e_asleep e). rewrite !mv_scale, !mw_scale.
    cbn [returned]. unfold mpairs2. cbn [fst snd]. rewrite map_app. f_equal. f_equal.
    destruct (e_asleep e); [reflexivity|]. change (e_orient (mi e)) with (mo (e_orient e)). rewrite mo_after. rewrite <- each_set. reflexivity.
  Qed.
  Lemma denominator_mirror e1 e2 k : impulse_denominator (mi e1) (mi e2) (mirror_collision a k) = impulse_denominator e1 e2 k.
  Proof.
    unfold impulse_denominator. cbv zeta. rewrite !inverse_mirror. cbn [mirror_internal e_orient e_total_mass mirror_o o_pos mirror_collision c_pos c_normal].
    rewrite !mv_sub, !mv_cross, !mm_mulv, !wv_cross, !mv_dot. reflexivity.
  Qed.
  Definition mresp2 (r : ientity ER * ientity ER * Vec3 ER * bool) := match r with (x, y, j, c) => (mi x, mi y, mv j, c) end.
  Lemma respond_pair_mirror e1 e2 f : respond_pair (mi e1) (mi e2) (mfound2 f) = mresp2 (respond_pair e1 e2 f).
  Proof.
    unfold respond_pair. cbv zeta. cbn [mfound2 fd_col fd_rest].
    assert (J : collision_impulse (mi e1) (mi e2) (fd_rest f) (mirror_collision a (fd_col f)) = mv (collision_impulse e1 e2 (fd_rest f) (fd_col f))).
    { unfold collision_impulse. cbv zeta. rewrite denominator_mirror. cbn [mirror_collision c_pos c_normal]. rewrite !vel_at_mirror, mv_sub, mv_dot, mv_scale. reflexivity. }
    rewrite J. cbn [mirror_collision c_pos]. rewrite mv_neg, !impulse_mirror.
    assert (F : forall x y j, friction (mi x) (mi y) (mfound2 f) (mv j) = (mv (fst (friction x y f j)), snd (friction x y f j))).
    { intros x y j. unfold friction. cbv zeta. cbn [mfound2 fd_col fd_thr fd_stat fd_dyn]. rewrite denominator_mirror. cbn [mirror_collision c_pos c_normal fst snd].
      rewrite !vel_at_mirror. rewrite !mv_sub, !mv_dot, !mv_scale, !mv_sub, !mv_mag, mv_scale. reflexivity. }
    fold (mfound2 f). rewrite F. destruct (friction _ _ _ _) as [fr ic]. cbn [fst snd]. rewrite mv_neg, !impulse_mirror. reflexivity.
  Qed.
  Definition mstate2 (st : lstate ER) : lstate ER := mkL (ea (l_ents st)) (map minfo (l_infos st)) (l_left st) (l_ctp st) (map (mirror_record a) (l_records st)) (l_debug st).
  Lemma upd_mirror l i f f' : (forall x, f' (minfo x) = minfo (f x)) -> upd_info (map minfo l) i f' = returned (map minfo) (upd_info l i f).
  Proof.
    intros H. unfold upd_info. rewrite nth_error_map, unwrap_returned, rbind_returned, returned_rbind. apply rbind_ext. intros x _. cbn [returned]. now rewrite H, list_set_map.
  Qed.
  Lemma respond_mirror dt ta f st : respond dt ta (mfound2 f) (mstate2 st) = returned mstate2 (respond dt ta f st).
  Proof.
    unfold respond. cbv zeta. cbn [mstate2 l_ents l_infos l_left l_ctp l_records l_debug mfound2 fd_h1 fd_h2 fd_i1 fd_i2].
    rewrite each_get, unwrap_returned, rbind_returned, returned_rbind. apply rbind_ext. intros e1 _.
    rewrite each_get, unwrap_returned, rbind_returned, returned_rbind. apply rbind_ext. intros e2 _.
    fold (mfound2 f). rewrite respond_pair_mirror. destruct (respond_pair e1 e2 f) as [[[x y] j] ic]. cbn [mresp2].
    assert (P : forall z i, replan (minfo i) (mi z) ta = minfo (replan i z ta)).
    { intros z i. unfold replan, minfo. cbn [i_h i_nbrs i_lin i_ang mirror_internal e_vel e_angvel]. now rewrite mv_scale, mw_scale. }
    rewrite (upd_mirror _ _ (fun i => replan i x ta)) by (intros; apply P). rewrite rbind_returned, returned_rbind. apply rbind_ext. intros l1 _.
    rewrite (upd_mirror _ _ (fun i => replan i y ta)) by (intros; apply P). rewrite rbind_returned, returned_rbind. apply rbind_ext. intros l2 _.
    assert (C : (if ic then rbind (upd_info (map minfo l2) (fd_i1 f) (add_nbr (fd_h2 f))) (fun infos => upd_info infos (fd_i2 f) (add_nbr (fd_h1 f))) else Ok (map minfo l2)) =
      returned (map minfo) (if ic then rbind (upd_info l2 (fd_i1 f) (add_nbr (fd_h2 f))) (fun infos => upd_info infos (fd_i2 f) (add_nbr (fd_h1 f))) else Ok l2)).
    { destruct ic; [|reflexivity]. rewrite (upd_mirror _ _ (add_nbr (fd_h2 f))) by reflexivity. rewrite rbind_returned, returned_rbind. apply rbind_ext. intros l3 _. apply upd_mirror. reflexivity. }
    rewrite C, rbind_returned, returned_rbind. apply rbind_ext. intros l3 _.
    cbn [returned]. unfold mstate2. cbn [l_ents l_infos l_left l_ctp l_records l_debug]. rewrite !each_set, map_app, mv_mag. reflexivity.
  Qed.
  Lemma iterate_mirror ord cols dt st : evens cols -> iterate ord (ec cols) dt (mstate2 st) = returned (fun r => (mstate2 (fst r), snd r)) (iterate ord cols dt st).
  Proof.
    intros R. unfold iterate. cbn [mstate2 l_ents l_infos l_left l_ctp l_records l_debug]. rewrite earliest_mirror by assumption.
    rewrite rbind_returned, returned_rbind. apply rbind_ext. intros [p of] _. cbn [mbest2 fst snd].
    assert (W : match option_map mfound2 of with None => Ok (ea (l_ents st), l_debug st) | Some f => rbind (wake_finite ord (fd_h1 f) (ea (l_ents st), l_debug st)) (fun r => wake_finite ord (fd_h2 f) r) end =
      returned mwake2 match of with None => Ok (l_ents st, l_debug st) | Some f => rbind (wake_finite ord (fd_h1 f) (l_ents st, l_debug st)) (fun r => wake_finite ord (fd_h2 f) r) end).
    { destruct of as [f|]; [|reflexivity]. cbn [option_map mfound2 fd_h1 fd_h2]. change (ea (l_ents st), l_debug st) with (mwake2 (l_ents st, l_debug st)).
      rewrite wake_finite_mirror, rbind_returned, returned_rbind. apply rbind_ext. intros r _. apply wake_finite_mirror. }
    rewrite W, rbind_returned, returned_rbind. apply rbind_ext. intros [en db] _. cbn [mwake2 fst snd]. cbv zeta.
    rewrite advance_mirror, rbind_returned, returned_rbind. apply rbind_ext. intros [en2 inf2] _. cbn [mpairs2 fst snd].
    destruct of as [f|]; cbn [option_map]; [|reflexivity].
    match goal with |- context [mkL (ea en2) (map minfo ?x) ?b ?c (map (mirror_record a) ?l) ?e] => change (mkL (ea en2) (map minfo x) b c (map (mirror_record a) l) e) with (mstate2 (mkL en2 x b c l e)) end.
    rewrite respond_mirror, rbind_returned, returned_rbind. apply rbind_ext. intros st2 _. reflexivity.
  Qed.
  Lemma iterations_mirror ord cols dt n : evens cols -> forall st, iterations ord (ec cols) dt n (mstate2 st) = returned mstate2 (iterations ord cols dt n st).
  Proof.
    intros R. induction n as [|n IH]; intros st; [reflexivity|]. cbn [iterations]. rewrite iterate_mirror by assumption. rewrite rbind_returned, returned_rbind. apply rbind_ext. intros [st1 b] _. cbn [fst snd].
    destruct b; [reflexivity|]. apply IH.
  Qed.

  (** ** Forces *)
  Definition mforces2 (r : system ER * Vec3 ER * Vec3 ER) : system ER * Vec3 ER * Vec3 ER := (ms (fst (fst r)), mv (snd (fst r)), mw (snd r)).
  Lemma forces_mirror dt h copy s ghs : heavy (s_gens s) -> sum_forces dt h (mirror_entity a copy) (ms s) ghs = returned mforces2 (sum_forces dt h copy s ghs).
  Proof.
    intros H. unfold sum_forces. replace (ms s, @vzero ER EReal, @vzero ER EReal) with (mforces2 (s, vzero, vzero)) by (unfold mforces2; cbn [fst snd]; now rewrite mv_zero, mw_zero).
    apply (rfold_returned_inv (fun r => heavy (s_gens (fst (fst r))))); [| |exact H].
    - intros [[s1 x] t] gh Hs. cbn [mforces2 fst snd] in *. cbn [mirror_system s_gens]. rewrite each_get, unwrap_returned, rbind_returned, returned_rbind. apply rbind_ext. intros g Eg.
      destruct (aget (s_gens s1) gh) as [g'|] eqn:E; [|discriminate]. injection Eg as ->. destruct (Hs gh g E) as (acc & ->).
      cbn [mirror_generator make_force view_of w_entity]. rewrite get_mirror, unwrap_returned, !rbind_returned. destruct (get_entity s1 h) as [y|]; [|reflexivity]. cbn [unwrap returned rbind].
      unfold mforces2. cbn [fst snd f_force f_pos]. rewrite last_moment_mirror. cbn [mirror_entity pe_last_total_mass pe_pos].
      rewrite mv_sub, !mv_scale, mv_cross, mm_mulv, mv_add, mw_add. change (GenGravity (mv acc)) with (mg (GenGravity acc)). f_equal. f_equal. f_equal. 
      unfold mirror_system, s_set_gens. cbn [s_ents s_cols s_gens s_iteration_max s_records s_energy_thr s_time_thr s_debug]. now rewrite each_set.
    - intros [[s1 x] t] gh [[s2 x'] t'] Hs E. cbn [fst snd] in *. inv_ok E. inv_ok E. destruct x1 as [f g']. inv_ok E. subst. cbn [s_set_gens s_gens].
      destruct (Hs gh x0 E0) as (acc & ->).
      cbn [make_force view_of w_entity] in E1. destruct (get_entity s1 h); [|discriminate]. cbn [unwrap rbind] in E1. assert (g' = GenGravity acc) by congruence. subst g'.
      now rewrite aset_same.
  Qed.
  Definition minfos2 (r : system ER * list (info ER)) : system ER * list (info ER) := (ms (fst r), map minfo (snd r)).
  Lemma integrate_mirror dt ghs hs s : heavy (s_gens s) -> rfold (integrate_one dt ghs) hs (ms s, []) = returned minfos2 (rfold (integrate_one dt ghs) hs (s, [])).
  Proof.
    intros H. change (ms s, @nil (info ER)) with (minfos2 (s, [])). apply (rfold_returned_inv (fun r => heavy (s_gens (fst r)))); [| |exact H].
    - intros [s1 infos] h Hs. cbn [fst] in Hs. unfold integrate_one. cbn [minfos2 fst snd]. rewrite get_mirror, unwrap_returned, rbind_returned, returned_rbind. apply rbind_ext. intros copy _. cbv zeta.
      change (pe_last_total_mass (mirror_entity a copy)) with (pe_last_total_mass copy). rewrite returned_rbind.
      assert (F : (if n_isfin (pe_last_total_mass copy) && n_lt EPSILON (pe_last_total_mass copy) then sum_forces dt h (mirror_entity a copy) (ms s1) ghs else Ok (ms s1, vzero, vzero)) =
        returned mforces2 (if n_isfin (pe_last_total_mass copy) && n_lt EPSILON (pe_last_total_mass copy) then sum_forces dt h copy s1 ghs else Ok (s1, vzero, vzero))).
      { destruct (_ && _); [now apply forces_mirror|]. unfold mforces2. cbn [returned fst snd]. now rewrite mv_zero, mw_zero. }
      rewrite F, rbind_returned. apply rbind_ext. intros [[s2 x] t] _. cbn [mforces2 fst snd]. cbn [mirror_system s_ents]. rewrite each_get, unwrap_returned, rbind_returned, returned_rbind. apply rbind_ext. intros e _.
      rewrite inverse_mirror. cbn [mirror_internal e_vel e_angvel]. fold (mi e). rewrite mv_scale, mw_scale, mm_mulv, mv_add, mw_add, mv_scale, mw_scale. cbn [returned]. unfold minfos2. cbn [fst snd]. rewrite map_app. f_equal. f_equal.
      match goal with |- context [e_set_vels (mi e) (mv ?v) (mw ?w)] => change (e_set_vels (mi e) (mv v) (mw w)) with (mi (e_set_vels e v w)) end. rewrite each_set. reflexivity.
    - intros st h st' Hs E. now rewrite (integrate_one_heavy _ _ _ _ _ Hs E).
  Qed.

  (** ** Sleep *)
  Lemma sleep_mirror dt et tt st i : sleep_one dt et tt (mwake2 st) (minfo i) = returned mwake2 (sleep_one dt et tt st i).
  Proof.
    destruct st as [ents dbg]. unfold sleep_one. cbn [mwake2 fst snd minfo i_h i_nbrs]. rewrite each_get, unwrap_returned, rbind_returned, returned_rbind. apply rbind_ext. intros e _.
    assert (D : sleep_decision dt et tt (i_nbrs i) (mi e) = (mi (fst (sleep_decision dt et tt (i_nbrs i) e)), snd (sleep_decision dt et tt (i_nbrs i) e))).
    { unfold sleep_decision. rewrite energy_mirror. change (e_asleep (mi e)) with (e_asleep e). change (e_falling (mi e)) with (e_falling e). change (e_falling_time (mi e)) with (e_falling_time e). cbv zeta.
      destruct (e_asleep e).
      - cbn [fst snd]. f_equal. unfold e_set_vels, mirror_internal. cbn [e_orient e_own_mass e_total_mass e_prep_moi e_vel e_angvel e_colliders e_falling e_falling_time e_asleep e_neighbors]. now rewrite mv_zero, mw_zero.
      - destruct (n_lt et _); [reflexivity|]. destruct (n_lt _ tt); reflexivity. }
    rewrite D. destruct (sleep_decision _ _ _ _ e) as [e' sl]. cbn [fst snd]. rewrite each_set. destruct sl; [|reflexivity].
    rewrite (rfold_returned ea (fun ents nh => rbind (unwrap (aget ents nh)) (fun n => Ok (aset ents nh (e_set_sleep n (e_asleep n) (hinsert (i_h i) (e_neighbors n))))))).
    - rewrite rbind_returned, returned_rbind. apply rbind_ext. intros en _. reflexivity.
    - intros en nh _. rewrite each_get, unwrap_returned, rbind_returned, returned_rbind. apply rbind_ext. intros x _. cbn [returned]. rewrite <- each_set. reflexivity.
  Qed.

  (** ** A step *)
  Definition plainly s : Prop := evens (s_cols s) /\ heavy (s_gens s).
  Lemma step_mirror ord s dt : plainly s -> step ord (ms s) dt = returned ms (step ord s dt).
  Proof.
    intros (R & H). unfold step. destruct (n_lt (n_abs dt) EPSILON); [reflexivity|]. cbv zeta. cbn [mirror_system s_ents s_cols s_gens s_iteration_max s_energy_thr s_time_thr]. rewrite !each_handles.
    set (s0 := mkS (s_ents s) (s_cols s) (s_gens s) (s_iteration_max s) [] (s_energy_thr s) (s_time_thr s) []).
    change (mkS (ea (s_ents s)) (ec (s_cols s)) (aeach mg (s_gens s)) (s_iteration_max s) [] (s_energy_thr s) (s_time_thr s) []) with (ms s0).
    rewrite integrate_mirror by exact H. rewrite rbind_returned, returned_rbind. apply rbind_ext. intros [s1 infos] E. cbn [minfos2 fst snd].
    apply integrate_frame in E. cbn [fst snd] in E. destruct E as ([A1 A2 A3 A4 A5 A6 A7 A8] & _). cbn [s0 s_ents s_cols s_gens s_iteration_max s_energy_thr s_time_thr s_records s_debug] in *.
    cbn [mirror_system s_ents s_cols s_gens s_iteration_max s_energy_thr s_time_thr s_records s_debug].
    change (mkL (ea (s_ents s1)) (map minfo infos) dt n0 (map (mirror_record a) (s_records s1)) (s_debug s1)) with (mstate2 (mkL (s_ents s1) infos dt n0 (s_records s1) (s_debug s1))).
    rewrite iterations_mirror.
    - rewrite rbind_returned, returned_rbind. apply rbind_ext. intros st _. cbn [mstate2 l_infos l_ents l_debug l_records].
      change (ea (l_ents st), l_debug st) with (mwake2 (l_ents st, l_debug st)). rewrite (rfold_map mwake2 minfo (sleep_one dt (s_energy_thr s1) (s_time_thr s1))) by (intros; apply sleep_mirror).
      rewrite rbind_returned, returned_rbind. apply rbind_ext. intros r _. reflexivity.
    - rewrite A2. exact R.
  Qed.
End Mirror.
