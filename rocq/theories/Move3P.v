(** * Move3P: steps and whole histories do not depend on where the world is (C88) *)
From Coq Require Import ZArith Reals List Bool Arith Lra Lia.
Import ListNotations.
From Verif Require Import Num Vec Res Arena RangeM Orient Colliders Collide EntityM SystemM OrderP Spec ResP ArenaP FrameP StoreP ExecP RealSpec RealV OrientP PhysSpec PhysP RangeP MassP Mass3P MoveSpec MoveP Move2P.
Local Open Scope R_scope.

Lemma rfold_returned_inv {A S S'} (P : S -> Prop) (g : S -> S') (f : S -> A -> res S) (f' : S' -> A -> res S') l :
  (forall s a, P s -> f' (g s) a = returned g (f s a)) -> (forall s a s', P s -> f s a = Ok s' -> P s') ->
  forall s, P s -> rfold f' l (g s) = returned g (rfold f l s).
Proof.
  intros H K. induction l as [|a l IH]; intros s Hs; [exact eq_refl|]. cbn [rfold]. rewrite (H s a Hs), rbind_returned, returned_rbind.
  apply rbind_ext. intros s1 E. apply IH. eapply K; eauto.
Qed.

(** ** Arenas *)
Section Each.
  Context {A : Type} (f : A -> A).
  Notation g := (fun x => match x with Free n => Free n | Occ k v => Occ k (f v) end).
  Lemma each_get a h : aget (aeach f a) h = option_map f (aget a h).
  Proof. unfold aget, aeach. cbn [a_items]. rewrite nth_error_map. destruct (nth_error (a_items a) (h_idx h)) as [[n|k x]|]; cbn; auto. destruct (N.eqb k (h_gen h)); exact eq_refl. Qed.
  Lemma list_set_map {B C} (k : B -> C) l : forall i x, list_set (map k l) i (k x) = map k (list_set l i x).
  Proof. induction l as [|y l IH]; intros [|i] x; cbn; auto. now rewrite IH. Qed.
  Lemma each_set a h x : aset (aeach f a) h (f x) = aeach f (aset a h x).
  Proof.
    unfold aset. rewrite each_get. destruct (aget a h); [|exact eq_refl]. cbn [option_map]. unfold aeach. cbn [a_items a_gen a_head]. f_equal.
    change (Occ (h_gen h) (f x)) with (g (Occ (h_gen h) x)). apply list_set_map.
  Qed.
  Lemma each_reserve a n : areserve (aeach f a) n = aeach f (areserve a n).
  Proof.
    destruct n as [|n]; [exact eq_refl|]. unfold areserve, aeach. cbn [a_items a_gen a_head]. rewrite map_length, map_app. f_equal. f_equal.
    unfold free_run. rewrite map_map. apply map_ext. intros i. destruct (Nat.eqb _ _); exact eq_refl.
  Qed.
  Definition ereturn (r : arena A * handle) : arena A * handle := (aeach f (fst r), snd r).
  Lemma each_try a x : atry_insert (aeach f a) (f x) = returned (option_map ereturn) (atry_insert a x).
  Proof.
    unfold atry_insert. cbn [aeach a_head a_items a_gen]. destruct (a_head a) as [i|]; [|exact eq_refl]. rewrite nth_error_map.
    destruct (nth_error (a_items a) i) as [[n|k y]|]; [|exact eq_refl|exact eq_refl]. cbn [option_map returned]. unfold ereturn, aeach. cbn [fst snd a_items a_gen a_head]. do 3 f_equal. f_equal.
    change (Occ (a_gen a) (f x)) with (g (Occ (a_gen a) x)). apply list_set_map.
  Qed.
  Lemma each_insert a x : ainsert (aeach f a) (f x) = returned ereturn (ainsert a x).
  Proof.
    unfold ainsert. rewrite each_try, rbind_returned, returned_rbind. apply rbind_ext. intros [r|] _; [exact eq_refl|]. cbn [option_map].
    replace (length (a_items (aeach f a))) with (length (a_items a)) by (cbn [aeach a_items]; now rewrite map_length).
    rewrite each_reserve, each_try, rbind_returned, returned_rbind. apply rbind_ext. intros o _. apply unwrap_returned.
  Qed.
  Lemma each_remove a h : aremove (aeach f a) h = option_map (fun r => (aeach f (fst r), f (snd r))) (aremove a h).
  Proof.
    unfold aremove. rewrite each_get. destruct (aget a h); [|exact eq_refl]. cbn [option_map fst snd]. unfold aeach. cbn [a_items a_gen a_head]. do 3 f_equal.
    change (Free (a_head a)) with (g (Free (a_head a))) at 1. apply list_set_map.
  Qed.
  Lemma each_handles a : ahandles (aeach f a) = ahandles a.
  Proof. unfold ahandles, aeach. cbn [a_items]. generalize 0%nat. induction (a_items a) as [|[n|k x] l IH]; intros i; cbn; auto. now rewrite IH. Qed.
  Lemma each_values a : avalues (aeach f a) = map f (avalues a).
  Proof. unfold avalues, aeach. cbn [a_items]. induction (a_items a) as [|[n|k x] l IH]; cbn; auto. now rewrite IH. Qed.
End Each.

Section Move.
  Variable d : V.
  Notation sh := (move_v d).
  Notation mi := (move_internal d).
  Notation ea := (aeach mi).
  Implicit Types (e : ientity ER) (s : system ER).

  (** ** Entities *)
  Lemma pub_move e : make_pub (mi e) = move_entity d (make_pub e).
  Proof. destruct e as [[p r o] ? ? ? ? ? ? ? ? ? ?]. exact eq_refl. Qed.
  Lemma get_move s h : get_entity (move_system d s) h = option_map (move_entity d) (get_entity s h).
  Proof. unfold get_entity. cbn [move_system s_ents]. rewrite each_get. destruct (aget _ h); cbn [option_map]; [now rewrite pub_move|exact eq_refl]. Qed.
  Lemma vel_at_move e p : velocity_at (mi e) (sh p) = velocity_at e p.
  Proof. unfold velocity_at. cbn [move_internal e_vel e_angvel e_orient move_o o_pos]. now rewrite sh_sub. Qed.
  Lemma moment_move e : get_moment (mi e) = get_moment e.
  Proof. unfold get_moment, finalize_moment. cbn [move_internal e_orient e_prep_moi move_o o_rot]. exact eq_refl. Qed.
  Lemma inverse_move e : get_inverse_moment (mi e) = get_inverse_moment e.
  Proof. unfold get_inverse_moment. now rewrite moment_move. Qed.
  Lemma last_moment_move (e : entity ER) : last_moment (move_entity d e) = last_moment e.
  Proof. unfold last_moment, finalize_moment, make_orientation, orient_new. cbn [move_entity pe_rot pe_last_prep_moi o_rot]. reflexivity. Qed.
  Lemma impulse_move e p j : apply_impulse (mi e) (sh p) j = mi (apply_impulse e p j).
  Proof. unfold apply_impulse. rewrite inverse_move. cbn [move_internal e_total_mass e_vel e_angvel e_orient move_o o_pos]. rewrite sh_sub. reflexivity. Qed.
  Lemma energy_move e : get_total_energy (mi e) = get_total_energy e.
  Proof. unfold get_total_energy. rewrite moment_move. reflexivity. Qed.
  Lemma new_move (e : entity ER) : entity_new_from (move_entity d e) = option_map mi (entity_new_from e).
  Proof. unfold entity_new_from. cbn [move_entity pe_own_mass]. destruct (n_lt _ _); [reflexivity|]. unfold make_orientation, orient_new, option_map, move_internal, move_o. cbn. reflexivity. Qed.
  Lemma update_move e (src : entity ER) : update_from (mi e) (move_entity d src) = option_map (fun r => (mi (fst r), snd r)) (update_from e src).
  Proof.
    unfold update_from. cbn [move_entity move_internal pe_own_mass pe_rot pe_pos pe_vel pe_angvel e_orient move_o o_rot o_pos o_off e_own_mass e_vel e_angvel e_total_mass e_prep_moi e_colliders e_falling e_falling_time e_asleep e_neighbors].
    destruct (n_lt _ _); [reflexivity|]. cbv zeta. rewrite sh_sub. cbn [option_map fst snd]. unfold move_internal. cbn [e_orient move_o o_rot o_pos o_off e_own_mass e_vel e_angvel e_total_mass e_prep_moi e_colliders e_falling e_falling_time e_asleep e_neighbors]. reflexivity.
  Qed.
  Definition good_rot e : Prop := unit_or_lost (o_rot (e_orient e)).

  (** ** Mass *)
  Lemma com_loop_move o cols hs : unit_or_lost (o_rot o) -> forall t c c', ((exists k, t = Fin k /\ c' = vadd c (vfin (vscale d k))) \/ n_isnan t = true) ->
    match com_loop o cols hs t c, com_loop (move_o d o) cols hs t c' with
    | Ok (b, t1, c1), Ok (b', t1', c1') => b' = b /\ t1' = t1 /\ (b = true \/ (exists k, t1 = Fin k /\ c1' = vadd c1 (vfin (vscale d k))) \/ n_isnan t1 = true)
    | Panic, Panic => True
    | _, _ => False
    end.
  Proof.
    intros U. induction hs as [|h hs IH]; intros t c c' H; cbn [com_loop]; [auto|]. destruct (aget cols h) as [k|]; [|exact I]. cbv zeta.
    destruct (n_isinf (c_mass k)) eqn:F; [auto|]. apply IH. rewrite sh_world by exact U.
    destruct (c_mass k) as [m| | |]; try discriminate.
    - destruct H as [(x & -> & ->)|H].
      + left. exists (x + m). split; [apply fin_add|]. unfold move_v, vadd, vfin, vscale. cbn [vx vy vz]. rewrite !shift_mul, !shift_add2. cbn. f_equal; (f_equal; f_equal; ring).
      + right. destruct t; try discriminate. exact eq_refl.
    - right. destruct t; exact eq_refl.
  Qed.
  Lemma moi_loop_move o o' cols hs : o_off o' = o_off o -> moi_loop o' cols hs = moi_loop (T:=ER) o cols hs.
  Proof. intros H. unfold moi_loop, prep_moment. now rewrite H. Qed.
  Lemma recalc_move hs cols e : good_rot e -> recalculate_mass hs cols (mi e) = returned mi (recalculate_mass hs cols e).
  Proof.
    intros U. unfold recalculate_mass. cbv zeta. change (e_orient (mi e)) with (move_o d (e_orient e)). change (e_own_mass (mi e)) with (e_own_mass e).
    assert (Z : (exists k, (n0 : ER) = Fin k /\ (vzero : Vec3 ER) = vadd vzero (vfin (vscale d k))) \/ n_isnan (n0 : ER) = true).
    { left. exists 0. split; [exact fin_0|]. now rewrite vscale_0. }
    pose proof (com_loop_move (e_orient e) cols hs U n0 vzero vzero Z) as C.
    destruct (com_loop (e_orient e) cols hs n0 vzero) as [[[b t] c]| |], (com_loop (move_o d (e_orient e)) cols hs n0 vzero) as [[[b' t'] c']| |]; try contradiction; [|exact eq_refl].
    destruct C as (-> & -> & C). cbn [rbind].
    destruct (n_lt n0 t && negb b) eqn:B.
    - apply andb_true_iff in B. destruct B as (B1 & B2). destruct b; [discriminate|]. destruct C as [C|[(k & -> & ->)|C]]; [discriminate| |destruct t; discriminate].
      rewrite fin_0 in B1. apply er_lt_fin in B1.
      assert (Q : vdivs (vadd c (vfin (vscale d k))) (Fin k) = sh (vdivs c (Fin k))) by (apply (quotient_move d c _ k eq_refl); lra).
      rewrite Q. cbn [move_o o_pos o_rot o_off]. rewrite sh_sub, sh_add.
      replace (direction_into_local (move_o d (e_orient e)) (vsub (vdivs c (Fin k)) (o_pos (e_orient e)))) with (direction_into_local (e_orient e) (vsub (vdivs c (Fin k)) (o_pos (e_orient e)))) by reflexivity.
      rewrite returned_rbind. set (O := mkO (vadd _ _) _ _). set (O' := mkO (sh _) _ _). rewrite (moi_loop_move O O') by reflexivity. apply rbind_ext. intros M _. reflexivity.
    - cbn [move_o o_pos o_rot o_off]. rewrite sh_add. set (off := vsub (o_off (e_orient e)) (o_off (e_orient e))).
      replace (direction_into_world (mkO (sh (o_pos (e_orient e))) (o_rot (e_orient e)) off) (o_off (e_orient e)))
        with (direction_into_world (mkO (o_pos (e_orient e)) (o_rot (e_orient e)) off) (o_off (e_orient e))) by reflexivity.
      destruct b; [reflexivity|].
      rewrite returned_rbind. set (O := mkO (vadd _ _) _ _). set (O' := mkO (sh _) _ _). rewrite (moi_loop_move O O') by reflexivity. apply rbind_ext. intros M _. reflexivity.
  Qed.

  (** ** Waking *)
  Definition mwake (r : arena (ientity ER) * list dmsg) : arena (ientity ER) * list dmsg := (ea (fst r), snd r).
  Definition mwake3 (r : arena (ientity ER) * list dmsg * list handle) : arena (ientity ER) * list dmsg * list handle := (mwake (fst r), snd r).
  Lemma wake_neighbor_move t done st n : wake_neighbor t done (mwake3 st) n = returned mwake3 (wake_neighbor t done st n).
  Proof.
    destruct st as [[ents dbg] q]. unfold wake_neighbor, mwake3, mwake. cbn [fst snd]. destruct (hmem n done); [reflexivity|].
    rewrite each_get, unwrap_returned, rbind_returned, returned_rbind. apply rbind_ext. intros e _. cbn [move_internal e_total_mass].
    destruct (n_isinf _); [|reflexivity]. cbn [returned fst snd]. rewrite <- each_set. reflexivity.
  Qed.
  Lemma wake_loop_move ord fuel : forall done q ents dbg, wake_loop ord fuel done q (ea ents) dbg = returned mwake (wake_loop ord fuel done q ents dbg).
  Proof.
    induction fuel as [|fuel IH]; intros done [|t q] ents dbg; try reflexivity. cbn [wake_loop]. cbv zeta.
    rewrite each_get, unwrap_returned, rbind_returned, returned_rbind. apply rbind_ext. intros e _. change (e_neighbors (mi e)) with (e_neighbors e).
    change (ea ents, dbg, q) with (mwake3 (ents, dbg, q)). rewrite (rfold_returned mwake3 (wake_neighbor t (hinsert t done))) by (intros; apply wake_neighbor_move).
    rewrite rbind_returned, returned_rbind. apply rbind_ext. intros [[en db] q'] _. cbn [mwake3 mwake fst snd].
    rewrite each_get, unwrap_returned, rbind_returned, returned_rbind. apply rbind_ext. intros e' _. change (e_asleep (mi e')) with (e_asleep e').
    change (e_set_sleep (mi e') false []) with (mi (e_set_sleep e' false [])). rewrite each_set. apply IH.
  Qed.
  Lemma edges_move ents : edge_count (ea ents) = edge_count ents.
  Proof. unfold edge_count. rewrite each_values. induction (avalues ents) as [|e l IH]; cbn; auto. Qed.
  Lemma wake_move ord h ents dbg : wake_up ord h (ea ents) dbg = returned mwake (wake_up ord h ents dbg).
  Proof. unfold wake_up. rewrite edges_move. apply wake_loop_move. Qed.
  Lemma wake_finite_move ord h st : wake_finite ord h (mwake st) = returned mwake (wake_finite ord h st).
  Proof.
    unfold wake_finite. destruct st as [ents dbg]. cbn [mwake fst snd]. rewrite each_get, unwrap_returned, rbind_returned, returned_rbind. apply rbind_ext. intros e _.
    change (e_total_mass (mi e)) with (e_total_mass e). destruct (n_isfin _); [apply wake_move|reflexivity].
  Qed.

  (** ** The collision loop *)
  Definition mfound (f : found ER) : found ER := mkFound (move_collision d (fd_col f)) (fd_rest f) (fd_stat f) (fd_dyn f) (fd_thr f) (fd_h1 f) (fd_h2 f) (fd_i1 f) (fd_i2 f).
  Definition mbest (b : ER * option (found ER)) : ER * option (found ER) := (fst b, option_map mfound (snd b)).
  Definition solids (cols : arena (collider ER)) : Prop := forall h c, aget cols h = Some c -> solid c.
  Definition goods (ents : arena (ientity ER)) : Prop := forall h e, aget ents h = Some e -> good_rot e.
  Lemma check_move cols e1 e2 x1 x2 b chs : solids cols -> good_rot e1 -> good_rot e2 -> check_colliders cols (mi e1) (mi e2) x1 x2 (mbest b) chs = returned mbest (check_colliders cols e1 e2 x1 x2 b chs).
  Proof.
    intros S G1 G2. unfold check_colliders. rewrite returned_rbind. apply rbind_ext. intros c1 E1. rewrite returned_rbind. apply rbind_ext. intros c2 E2. cbv zeta.
    change (e_orient (mi e1)) with (move_o d (e_orient e1)). change (e_orient (mi e2)) with (move_o d (e_orient e2)). rewrite !sh_after.
    assert (A : forall o l w, unit_or_lost (o_rot o) -> unit_or_lost (o_rot (after_affected (T:=ER) o l w))) by (intros o l w H; cbn [after_affected o_rot]; apply mul_unit_or_lost; [apply exp_unit_or_lost|exact H]).
    destruct (aget cols (fst chs)) eqn:H1; [|discriminate]. destruct (aget cols (snd chs)) eqn:H2; [|discriminate]. injection E1 as ->. injection E2 as ->.
    rewrite collide_move by (eauto || (apply A; assumption) || assumption). rewrite rbind_returned, returned_rbind. apply rbind_ext. intros [k|] _; [|reflexivity]. cbn [option_map].
    change (c_time (move_collision d k)) with (c_time k). cbn [move_collision c_pos c_normal]. rewrite !vel_at_move. destruct (n_lt _ EPSILON); [reflexivity|].
    cbn [mbest fst]. destruct (n_lt _ (fst b)); reflexivity.
  Qed.
  Lemma check_ents_move ord cols ents b p : solids cols -> goods ents -> check_entities ord cols (ea ents) (mbest b) p = returned mbest (check_entities ord cols ents b p).
  Proof.
    intros S G. destruct p as [x1 x2]. unfold check_entities. cbv zeta. rewrite each_get, unwrap_returned, rbind_returned, returned_rbind. apply rbind_ext. intros e1 E1.
    rewrite each_get, unwrap_returned, rbind_returned, returned_rbind. apply rbind_ext. intros e2 E2.
    destruct (aget ents (i_h (snd x1))) eqn:H1; [|discriminate]. destruct (aget ents (i_h (snd x2))) eqn:H2; [|discriminate]. injection E1 as ->. injection E2 as ->.
    change (e_neighbors (mi e1)) with (e_neighbors e1). change (e_neighbors (mi e2)) with (e_neighbors e2). change (e_colliders (mi e1)) with (e_colliders e1). change (e_colliders (mi e2)) with (e_colliders e2).
    destruct (hmem _ _); [reflexivity|]. destruct (hmem _ _); [reflexivity|]. apply rfold_returned. intros s a _. apply check_move; eauto.
  Qed.
  Lemma earliest_move ord cols ents infos : solids cols -> goods ents -> find_earliest ord cols (ea ents) infos = returned mbest (find_earliest ord cols ents infos).
  Proof.
    intros S G. unfold find_earliest. change (@n1 ER EReal, @None (found ER)) with (mbest (n1, None)) at 1. apply rfold_returned. intros s a _. now apply check_ents_move.
  Qed.
  Definition mpairs (r : arena (ientity ER) * list (info ER)) : arena (ientity ER) * list (info ER) := (ea (fst r), snd r).
  Lemma advance_move p a ents infos : advance p a (ea ents) infos = returned mpairs (advance p a ents infos).
  Proof.
    unfold advance. change (ea ents, @nil (info ER)) with (mpairs (ents, [])). apply rfold_returned. intros [en inf] i _. unfold advance_one. cbn [mpairs fst snd].
    rewrite each_get, unwrap_returned, rbind_returned, returned_rbind. apply rbind_ext. intros e _. change (e_asleep (mi e)) with (e_asleep e).
    destruct (e_asleep e); [reflexivity|]. change (e_orient (mi e)) with (move_o d (e_orient e)). rewrite sh_after.
    cbn [returned mpairs fst snd]. unfold mpairs. cbn [fst snd]. rewrite <- each_set. reflexivity.
  Qed.
  Lemma denominator_move e1 e2 k : impulse_denominator (mi e1) (mi e2) (move_collision d k) = impulse_denominator e1 e2 k.
  Proof. unfold impulse_denominator. cbv zeta. rewrite !inverse_move. cbn [move_internal e_orient e_total_mass move_o o_pos move_collision c_pos c_normal]. rewrite !sh_sub. reflexivity. Qed.
  Definition mresp (r : ientity ER * ientity ER * Vec3 ER * bool) := match r with (a, b, j, c) => (mi a, mi b, j, c) end.
  Lemma respond_pair_move e1 e2 f : respond_pair (mi e1) (mi e2) (mfound f) = mresp (respond_pair e1 e2 f).
  Proof.
    unfold respond_pair. cbv zeta. cbn [mfound fd_col fd_rest].
    assert (J : collision_impulse (mi e1) (mi e2) (fd_rest f) (move_collision d (fd_col f)) = collision_impulse e1 e2 (fd_rest f) (fd_col f)).
    { unfold collision_impulse. cbv zeta. rewrite denominator_move. cbn [move_collision c_pos c_normal]. rewrite !vel_at_move. reflexivity. }
    rewrite J. cbn [move_collision c_pos]. rewrite !impulse_move.
    assert (F : forall a b j, friction (mi a) (mi b) (mfound f) j = friction a b f j).
    { intros a b j. unfold friction. cbv zeta. cbn [mfound fd_col fd_thr fd_stat fd_dyn]. rewrite denominator_move. cbn [move_collision c_pos c_normal]. rewrite !vel_at_move. reflexivity. }
    fold (mfound f). rewrite F. destruct (friction _ _ _ _) as [fr ic]. rewrite !impulse_move. reflexivity.
  Qed.
  Definition mstate (st : lstate ER) : lstate ER := mkL (ea (l_ents st)) (l_infos st) (l_left st) (l_ctp st) (map (move_record d) (l_records st)) (l_debug st).
  Lemma respond_move dt ta f st : respond dt ta (mfound f) (mstate st) = returned mstate (respond dt ta f st).
  Proof.
    unfold respond. cbv zeta. cbn [mstate l_ents l_infos l_left l_ctp l_records l_debug mfound fd_h1 fd_h2 fd_i1 fd_i2].
    rewrite each_get, unwrap_returned, rbind_returned, returned_rbind. apply rbind_ext. intros e1 _.
    rewrite each_get, unwrap_returned, rbind_returned, returned_rbind. apply rbind_ext. intros e2 _.
    fold (mfound f). rewrite respond_pair_move. destruct (respond_pair e1 e2 f) as [[[a b] j] ic]. cbn [mresp].
    change (fun i => replan i (mi a) ta) with (fun i => replan i a ta). change (fun i => replan i (mi b) ta) with (fun i => replan i b ta).
    rewrite returned_rbind. apply rbind_ext. intros l1 _. rewrite returned_rbind. apply rbind_ext. intros l2 _. rewrite returned_rbind. apply rbind_ext. intros l3 _.
    cbn [returned]. unfold mstate. cbn [l_ents l_infos l_left l_ctp l_records l_debug]. rewrite !each_set, map_app. reflexivity.
  Qed.
  Lemma iterate_move ord cols dt st : solids cols -> goods (l_ents st) -> iterate ord cols dt (mstate st) = returned (fun r => (mstate (fst r), snd r)) (iterate ord cols dt st).
  Proof.
    intros S G. unfold iterate. cbn [mstate l_ents l_infos l_left l_ctp l_records l_debug]. rewrite earliest_move by assumption.
    rewrite rbind_returned, returned_rbind. apply rbind_ext. intros [p of] _. cbn [mbest fst snd].
    assert (W : match option_map mfound of with None => Ok (ea (l_ents st), l_debug st) | Some f => rbind (wake_finite ord (fd_h1 f) (ea (l_ents st), l_debug st)) (fun r => wake_finite ord (fd_h2 f) r) end =
      returned mwake match of with None => Ok (l_ents st, l_debug st) | Some f => rbind (wake_finite ord (fd_h1 f) (l_ents st, l_debug st)) (fun r => wake_finite ord (fd_h2 f) r) end).
    { destruct of as [f|]; [|reflexivity]. cbn [option_map mfound fd_h1 fd_h2]. change (ea (l_ents st), l_debug st) with (mwake (l_ents st, l_debug st)).
      rewrite wake_finite_move, rbind_returned, returned_rbind. apply rbind_ext. intros r _. apply wake_finite_move. }
    rewrite W, rbind_returned, returned_rbind. apply rbind_ext. intros [en db] _. cbn [mwake fst snd]. cbv zeta.
    rewrite advance_move, rbind_returned, returned_rbind. apply rbind_ext. intros [en2 inf2] _. cbn [mpairs fst snd].
    destruct of as [f|]; cbn [option_map]; [|reflexivity].
    match goal with |- context [mkL (ea en2) ?a ?b ?c (map (move_record d) ?l) ?e] => change (mkL (ea en2) a b c (map (move_record d) l) e) with (mstate (mkL en2 a b c l e)) end.
    rewrite respond_move, rbind_returned, returned_rbind. apply rbind_ext. intros st2 _. reflexivity.
  Qed.
  Lemma goods_rel ents ents' : arel (Rgood unit_or_lost) ents ents' -> goods ents -> goods ents'.
  Proof. intros R G h e H. destruct (arel_get_r _ _ _ _ _ R H) as (x & Hx & K). apply K. exact (G h x Hx). Qed.
  Lemma iterations_move ord cols dt n : solids cols -> forall st, goods (l_ents st) -> iterations ord cols dt n (mstate st) = returned mstate (iterations ord cols dt n st).
  Proof.
    intros S. induction n as [|n IH]; intros st G; [reflexivity|]. cbn [iterations]. rewrite iterate_move by assumption. rewrite rbind_returned, returned_rbind. apply rbind_ext. intros [st1 b] E. cbn [fst snd].
    destruct b; [reflexivity|]. apply IH. apply (goods_rel (l_ents st)); [|exact G].
    exact (iterate_good unit_or_lost (fun v q => mul_unit_or_lost _ q (exp_unit_or_lost v)) ord cols dt st _ E).
  Qed.
End Move.
