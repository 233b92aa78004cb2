(** * Move4P: steps and whole histories do not depend on where the world is, continued (C88) *)
From Coq Require Import ZArith Reals List Bool Arith Lra Lia.
Import ListNotations.
From Verif Require Import Num Vec Res Arena RangeM Orient Colliders Collide EntityM SystemM OrderP Spec ResP ArenaP FrameP StoreP ExecP RealSpec RealV OrientP PhysSpec PhysP RangeP MassP Mass3P MoveSpec MoveP Move2P Move3P.
Local Open Scope R_scope.

Lemma some_is {A} (x y : A) : Some x = Some y -> x = y.
Proof. intros H. now injection H. Qed.
Definition heavy (gens : arena (generator ER)) : Prop := forall h g, aget gens h = Some g -> exists a, g = GenGravity a.

Section Move.
  Variable d : V.
  Notation sh := (move_v d).
  Notation mi := (move_internal d).
  Notation ea := (aeach mi).
  Notation ms := (move_system d).
  Implicit Types (e : ientity ER) (s : system ER).

  (** ** Forces *)
  Definition mforces (r : system ER * Vec3 ER * Vec3 ER) : system ER * Vec3 ER * Vec3 ER := (ms (fst (fst r)), snd (fst r), snd r).
  Lemma forces_move dt h copy s ghs : heavy (s_gens s) -> sum_forces dt h (move_entity d copy) (ms s) ghs = returned mforces (sum_forces dt h copy s ghs).
  Proof.
    intros H. unfold sum_forces. change (ms s, @vzero ER EReal, @vzero ER EReal) with (mforces (s, vzero, vzero)).
    apply (rfold_returned_inv (fun r => heavy (s_gens (fst (fst r))))); [| |exact H].
    - intros [[s1 a] t] gh Hs. cbn [mforces fst snd] in *. cbn [move_system s_gens]. rewrite returned_rbind. apply rbind_ext. intros g Eg.
      destruct (aget (s_gens s1) gh) as [g'|] eqn:E; [|discriminate]. injection Eg as ->. destruct (Hs gh g E) as (acc & ->).
      cbn [make_force view_of w_entity]. rewrite get_move, unwrap_returned, !rbind_returned. destruct (get_entity s1 h) as [x|]; [|reflexivity]. cbn [unwrap returned rbind].
      unfold mforces. cbn [fst snd f_force f_pos move_entity pe_last_total_mass pe_pos]. fold (move_entity d copy). rewrite last_moment_move, sh_sub. reflexivity.
    - intros [[s1 a] t] gh [[s2 a'] t'] Hs E. cbn [fst snd] in *. inv_ok E. inv_ok E. destruct x0 as [f g']. inv_ok E. subst. cbn [s_set_gens s_gens].
      destruct (Hs gh x E0) as (acc & ->).
      cbn [make_force view_of w_entity] in E1. destruct (get_entity s1 h); [|discriminate]. cbn [unwrap rbind] in E1. assert (g' = GenGravity acc) by congruence. subst g'.
      now rewrite aset_same.
  Qed.
  Lemma forces_heavy dt h copy s ghs r : heavy (s_gens s) -> sum_forces dt h copy s ghs = Ok r -> s_gens (fst (fst r)) = s_gens s.
  Proof.
    intros H E. unfold sum_forces in E. refine (rfold_ind _ (fun r => s_gens (fst (fst r)) = s_gens s) _ _ _ _ _ E); [|exact eq_refl].
    clear E. intros [[s1 a] t] gh [[s2 a'] t'] Hs E. cbn [fst snd] in *. inv_ok E. inv_ok E. destruct x0 as [f g']. inv_ok E. subst. cbn [s_set_gens s_gens].
    rewrite Hs in E0. destruct (H gh x E0) as (acc & ->).
    cbn [make_force view_of w_entity] in E1. destruct (get_entity s1 h); [|discriminate]. cbn [unwrap rbind] in E1. assert (g' = GenGravity acc) by congruence. subst g'.
    rewrite aset_same; [exact Hs|]. rewrite Hs. exact E0.
  Qed.
  Definition minfos (r : system ER * list (info ER)) : system ER * list (info ER) := (ms (fst r), snd r).
  Lemma integrate_one_heavy dt ghs st h st' : heavy (s_gens (fst st)) -> integrate_one dt ghs st h = Ok st' -> s_gens (fst st') = s_gens (fst st).
  Proof.
    destruct st as [s infos]. unfold integrate_one. cbn [fst]. intros H E. inv_ok E. inv_ok E. destruct x0 as [[s1 a] t]. inv_ok E. inv_ok E. subst st'. cbn [fst s_set_ents s_gens].
    destruct (_ && _).
    - exact (forces_heavy _ _ _ _ _ _ H E1).
    - injection E1 as <- _ _. reflexivity.
  Qed.
  Lemma integrate_move dt ghs hs s : heavy (s_gens s) -> rfold (integrate_one dt ghs) hs (ms s, []) = returned minfos (rfold (integrate_one dt ghs) hs (s, [])).
  Proof.
    intros H. change (ms s, @nil (info ER)) with (minfos (s, [])). apply (rfold_returned_inv (fun r => heavy (s_gens (fst r)))); [| |exact H].
    - intros [s1 infos] h Hs. cbn [fst] in Hs. unfold integrate_one. cbn [minfos fst snd]. rewrite get_move, unwrap_returned, rbind_returned, returned_rbind. apply rbind_ext. intros copy _. cbv zeta.
      change (pe_last_total_mass (move_entity d copy)) with (pe_last_total_mass copy). rewrite returned_rbind.
      assert (F : (if n_isfin (pe_last_total_mass copy) && n_lt EPSILON (pe_last_total_mass copy) then sum_forces dt h (move_entity d copy) (ms s1) ghs else Ok (ms s1, vzero, vzero)) =
        returned mforces (if n_isfin (pe_last_total_mass copy) && n_lt EPSILON (pe_last_total_mass copy) then sum_forces dt h copy s1 ghs else Ok (s1, vzero, vzero))).
      { destruct (_ && _); [now apply forces_move|reflexivity]. }
      rewrite F, rbind_returned. apply rbind_ext. intros [[s2 a] t] _. cbn [mforces fst snd]. cbn [move_system s_ents]. rewrite each_get, unwrap_returned, rbind_returned, returned_rbind. apply rbind_ext. intros e _.
      rewrite inverse_move. change (e_vel (mi e)) with (e_vel e). change (e_angvel (mi e)) with (e_angvel e). cbn [returned minfos fst snd]. unfold minfos. cbn [fst snd]. f_equal. f_equal.
      match goal with |- context [e_set_vels (mi e) ?v ?w] => change (e_set_vels (mi e) v w) with (mi (e_set_vels e v w)) end. rewrite each_set. reflexivity.
    - intros st h st' Hs E. now rewrite (integrate_one_heavy _ _ _ _ _ Hs E).
  Qed.

  (** ** Sleep *)
  Lemma sleep_move dt et tt st i : sleep_one dt et tt (mwake d st) i = returned (mwake d) (sleep_one dt et tt st i).
  Proof.
    destruct st as [ents dbg]. unfold sleep_one. cbn [mwake fst snd]. rewrite each_get, unwrap_returned, rbind_returned, returned_rbind. apply rbind_ext. intros e _.
    assert (D : sleep_decision dt et tt (i_nbrs i) (mi e) = (mi (fst (sleep_decision dt et tt (i_nbrs i) e)), snd (sleep_decision dt et tt (i_nbrs i) e))).
    { unfold sleep_decision. rewrite energy_move. change (e_asleep (mi e)) with (e_asleep e). change (e_falling (mi e)) with (e_falling e). change (e_falling_time (mi e)) with (e_falling_time e). cbv zeta.
      destruct (e_asleep e); [reflexivity|]. destruct (n_lt et _); [reflexivity|]. destruct (n_lt _ tt); reflexivity. }
    rewrite D. destruct (sleep_decision _ _ _ _ e) as [e' sl]. cbn [fst snd]. rewrite each_set. destruct sl; [|reflexivity].
    rewrite (rfold_returned ea (fun ents nh => rbind (unwrap (aget ents nh)) (fun n => Ok (aset ents nh (e_set_sleep n (e_asleep n) (hinsert (i_h i) (e_neighbors n))))))).
    - rewrite rbind_returned, returned_rbind. apply rbind_ext. intros en _. reflexivity.
    - intros en nh _. rewrite each_get, unwrap_returned, rbind_returned, returned_rbind. apply rbind_ext. intros x _. cbn [returned]. rewrite <- each_set. reflexivity.
  Qed.

  (** ** A step *)
  Definition tame s : Prop := goods (s_ents s) /\ solids (s_cols s) /\ heavy (s_gens s).
  Lemma step_move ord s dt : tame s -> step ord (ms s) dt = returned ms (step ord s dt).
  Proof.
    intros (G & S & H). unfold step. destruct (n_lt (n_abs dt) EPSILON); [reflexivity|]. cbv zeta. cbn [move_system s_ents s_cols s_gens s_iteration_max s_energy_thr s_time_thr]. rewrite each_handles.
    set (s0 := mkS (s_ents s) (s_cols s) (s_gens s) (s_iteration_max s) [] (s_energy_thr s) (s_time_thr s) []).
    change (mkS (ea (s_ents s)) (s_cols s) (s_gens s) (s_iteration_max s) [] (s_energy_thr s) (s_time_thr s) []) with (ms s0).
    rewrite integrate_move by exact H. rewrite rbind_returned, returned_rbind. apply rbind_ext. intros [s1 infos] E. cbn [minfos fst snd].
    apply integrate_frame in E. cbn [fst snd] in E. destruct E as ([A1 A2 A3 A4 A5 A6 A7 A8] & _). cbn [s0 s_ents s_cols s_gens s_iteration_max s_energy_thr s_time_thr s_records s_debug] in *.
    cbn [move_system s_ents s_cols s_gens s_iteration_max s_energy_thr s_time_thr s_records s_debug].
    change (mkL (ea (s_ents s1)) infos dt n0 (map (move_record d) (s_records s1)) (s_debug s1)) with (mstate d (mkL (s_ents s1) infos dt n0 (s_records s1) (s_debug s1))).
    rewrite iterations_move.
    - rewrite rbind_returned, returned_rbind. apply rbind_ext. intros st _. cbn [mstate l_infos l_ents l_debug l_records].
      change (ea (l_ents st), l_debug st) with (mwake d (l_ents st, l_debug st)). rewrite (rfold_returned (mwake d) (sleep_one dt (s_energy_thr s1) (s_time_thr s1))) by (intros; apply sleep_move).
      rewrite rbind_returned, returned_rbind. apply rbind_ext. intros r _. reflexivity.
    - rewrite A2. exact S.
    - cbn [l_ents]. apply (goods_rel (s_ents s)); [|exact G]. eapply arel_impl; [|exact A1]. intros h x y (v & w & ->) K. exact K.
  Qed.

  (** ** The other calls *)
  Definition mret {A} (r : system ER * A) : system ER * A := (ms (fst r), snd r).
  Lemma remove_collider_move s h : remove_collider (ms s) h = returned ms (remove_collider s h).
  Proof.
    unfold remove_collider. cbn [move_system s_cols s_ents]. destruct (aremove (s_cols s) h) as [[cols c]|]; [|reflexivity]. destruct (c_entity c) as [eh|]; [|reflexivity].
    rewrite each_get. destruct (aget (s_ents s) eh); reflexivity.
  Qed.
  Lemma update_good e src e1 w : update_from e src = Some (e1, w) -> good_rot e1.
  Proof. unfold update_from. destruct (n_lt _ _); [discriminate|]. cbv zeta. intros E. apply some_is in E. apply (f_equal fst) in E. cbn [fst] in E. rewrite <- E. apply exp_unit_or_lost. Qed.
  Lemma exec_move ord s o : tame s -> exec ord (ms s) (move_op d o) = returned mret (exec ord s o).
  Proof.
    intros T. pose proof T as (G & S & H). destruct o as [src|h|h src|src|h|h src|ch t|g|h|dt|n|x|x]; cbn [exec move_op].
    - unfold add_entity. rewrite new_move. destruct (entity_new_from src) as [e|]; [|reflexivity]. cbn [option_map move_system s_ents]. rewrite each_insert, rbind_returned.
      destruct (ainsert (s_ents s) e) as [[a h]| |]; reflexivity.
    - unfold remove_entity. cbn [move_system s_ents]. rewrite each_remove. destruct (aremove (s_ents s) h) as [[ents e]|]; [|reflexivity]. cbn [option_map fst snd].
      change (e_colliders (mi e)) with (e_colliders e). change (s_set_ents (mkS (ea (s_ents s)) (s_cols s) (s_gens s) (s_iteration_max s) (map (move_record d) (s_records s)) (s_energy_thr s) (s_time_thr s) (s_debug s)) (ea ents)) with (ms (s_set_ents s ents)).
      change (s_set_ents (ms s) (ea ents)) with (ms (s_set_ents s ents)).
      rewrite (rfold_returned ms remove_collider) by (intros; apply remove_collider_move). rewrite rbind_returned. destruct (rfold remove_collider _ _); reflexivity.
    - unfold update_entity. cbn [move_system s_ents s_cols s_debug]. rewrite each_get. destruct (aget (s_ents s) h) as [e|] eqn:Eh; [|reflexivity]. cbn [option_map].
      rewrite update_move. destruct (update_from e src) as [[e1 w]|] eqn:Eu; [|reflexivity]. cbn [option_map fst snd]. change (e_colliders (mi e1)) with (e_colliders e1).
      rewrite recalc_move by exact (update_good _ _ _ _ Eu). rewrite rbind_returned. destruct (recalculate_mass _ _ e1) as [e2| |]; [|reflexivity|reflexivity]. cbn [rbind]. cbv zeta. rewrite each_set.
      destruct w; [|reflexivity]. cbn [s_set_ents s_ents s_debug move_system]. rewrite wake_move, rbind_returned. destruct (wake_up _ _ _ _) as [[a b]| |]; reflexivity.
    - unfold add_collider. destruct (collider_new_from src) as [c|]; [|reflexivity]. cbn [move_system s_cols]. destruct (ainsert (s_cols s) c) as [[a h]| |]; reflexivity.
    - rewrite remove_collider_move, rbind_returned. destruct (remove_collider s h); reflexivity.
    - unfold update_collider. cbn [move_system s_cols s_ents]. destruct (aget (s_cols s) h) as [c|]; [|reflexivity]. cbv zeta.
      assert (F : forall cols b, rbind (match c_entity c with
          | Some eh => match aget (ea (s_ents s)) eh with
            | Some e => rbind (recalculate_mass (ord KColliders eh (e_colliders e)) cols e) (fun e' => Ok (s_set_ents (s_set_cols (ms s) cols) (aset (ea (s_ents s)) eh e'), b))
            | None => Ok (s_set_cols (ms s) cols, b) end
          | None => Ok (s_set_cols (ms s) cols, b) end) (fun r : system ER * bool => Ok (fst r, @ABool ER (snd r))) =
        returned mret (rbind (match c_entity c with
          | Some eh => match aget (s_ents s) eh with
            | Some e => rbind (recalculate_mass (ord KColliders eh (e_colliders e)) cols e) (fun e' => Ok (s_set_ents (s_set_cols s cols) (aset (s_ents s) eh e'), b))
            | None => Ok (s_set_cols s cols, b) end
          | None => Ok (s_set_cols s cols, b) end) (fun r : system ER * bool => Ok (fst r, @ABool ER (snd r))))).
      { intros cols b. destruct (c_entity c) as [eh|]; [|reflexivity]. rewrite each_get. destruct (aget (s_ents s) eh) as [e|] eqn:Ee; [|reflexivity]. cbn [option_map].
        change (e_colliders (mi e)) with (e_colliders e). rewrite recalc_move by exact (G _ _ Ee). rewrite rbind_returned. destruct (recalculate_mass _ cols e) as [e'| |]; [|reflexivity|reflexivity].
        cbn [rbind]. rewrite each_set. reflexivity. }
      destruct (collider_update_from c src) as [| |c']; [reflexivity|exact (F _ _)|exact (F _ _)].
    - unfold link_collider. cbn [move_system s_cols s_ents]. destruct (aget (s_cols s) ch) as [c|]; [|reflexivity]. cbv zeta.
      set (att := match t with None => Ok (Some (s_ents s)) | Some h => match aget (s_ents s) h with None => Ok None
        | Some e => rbind (recalculate_mass (ord KColliders h (e_colliders (e_set_colliders e (hinsert ch (e_colliders e))))) (s_cols s) (e_set_colliders e (hinsert ch (e_colliders e)))) (fun e2 => Ok (Some (aset (s_ents s) h e2))) end end).
      assert (EA : match t with None => Ok (Some (ea (s_ents s))) | Some h => match aget (ea (s_ents s)) h with None => Ok None
        | Some e => rbind (recalculate_mass (ord KColliders h (e_colliders (e_set_colliders e (hinsert ch (e_colliders e))))) (s_cols s) (e_set_colliders e (hinsert ch (e_colliders e)))) (fun e2 => Ok (Some (aset (ea (s_ents s)) h e2))) end end =
        returned (option_map ea) att).
      { unfold att. destruct t as [h|]; [|reflexivity]. rewrite each_get. destruct (aget (s_ents s) h) as [e|] eqn:Ee; [|reflexivity]. cbn [option_map].
        change (e_set_colliders (mi e) (hinsert ch (e_colliders (mi e)))) with (mi (e_set_colliders e (hinsert ch (e_colliders e)))). rewrite recalc_move by exact (G _ _ Ee).
        change (e_colliders (mi (e_set_colliders e (hinsert ch (e_colliders e))))) with (e_colliders (e_set_colliders e (hinsert ch (e_colliders e)))).
        rewrite rbind_returned, returned_rbind. apply rbind_ext. intros e2 _. cbn [returned option_map]. now rewrite each_set. }
      assert (GA : forall ents, att = Ok (Some ents) -> goods ents).
      { intros ents E. unfold att in E. destruct t as [h|]; [|inv_ok E; subst; exact G]. destruct (aget (s_ents s) h) as [e|] eqn:Ee; [|discriminate]. inv_ok E. inv_ok E. subst.
        intros k y Hy. rewrite aget_aset in Hy. destruct (heqb_spec h k) as [<-|]; [|exact (G _ _ Hy)]. rewrite Ee in Hy. injection Hy as <-.
        destruct (recalc_rot_same _ _ _ _ E0) as (R & _). unfold good_rot. rewrite R. exact (G _ _ Ee). }
      rewrite EA, rbind_returned. destruct att as [[ents|]| |]; try reflexivity. cbn [option_map rbind]. specialize (GA ents eq_refl).
      destruct (match c_entity c, t with None, None => true | Some a, Some b => heqb a b | _, _ => false end); [reflexivity|].
      destruct (c_entity c) as [ph|]; [|reflexivity]. rewrite each_get. destruct (aget ents ph) as [p|] eqn:Ep; [|reflexivity]. cbn [option_map].
      change (e_set_colliders (mi p) (hremove ch (e_colliders (mi p)))) with (mi (e_set_colliders p (hremove ch (e_colliders p)))). rewrite recalc_move by exact (GA _ _ Ep).
      change (e_colliders (mi (e_set_colliders p (hremove ch (e_colliders p))))) with (e_colliders (e_set_colliders p (hremove ch (e_colliders p)))).
      rewrite rbind_returned. destruct (recalculate_mass _ _ _) as [p2| |]; [|reflexivity|reflexivity]. cbn [rbind]. rewrite each_set. reflexivity.
    - unfold add_generator. cbn [move_system s_gens]. destruct (ainsert (s_gens s) g) as [[a h]| |]; reflexivity.
    - unfold remove_generator. cbn [move_system s_gens]. destruct (aremove (s_gens s) h) as [[a g]|]; reflexivity.
    - rewrite step_move by exact T. rewrite rbind_returned. destruct (step ord s dt); reflexivity.
    - reflexivity.
    - reflexivity.
    - reflexivity.
  Qed.
End Move.

(** ** What holds after every call *)
Lemma solid_link (c : collider ER) t : solid c -> solid (c_set_entity c t).
Proof. destruct c; exact (fun H => H). Qed.
Lemma minimum_radius r : n_lt (MINIMUM_RADIUS : ER) (Fin r) = true -> 0 < r.
Proof. unfold MINIMUM_RADIUS. intros H. cbn in H. destruct (Rlt_dec _ r) as [L|]; [|discriminate]. assert (0 < IZR 1 / IZR 20) by lra. lra. Qed.
Lemma normal_number n : n_lt EPSILON (vmag (vfin n)) = true -> exists m, vnormalize (vfin n) = vfin m.
Proof.
  unfold vnormalize, vmag, vnorm2, vdot, vfin. cbn [vx vy vz]. rewrite !fin_mul, !fin_add, fin_sqrt by nra. set (q := sqrt _). rewrite eps_val. intros H. apply er_lt_fin in H.
  exists (mkV (vx n / q) (vy n / q) (vz n / q)). unfold vdivs. cbn [vx vy vz]. now rewrite !fin_div by lra.
Qed.
Lemma solid_new src : plain_shape src -> collider_valid src = true -> solid (stored_new src).
Proof.
  destruct src as [c|c|c|c|c]; cbn [plain_shape collider_valid stored_new solid sp_radius pl_normal]; auto.
  - intros (r & E) V. exists r. split; [exact E|]. unfold sphere_valid in V. apply andb_true_iff in V. destruct V as (V & _). rewrite E in V. exact (minimum_radius r V).
  - intros (n & E) V. unfold plane_valid in V. apply andb_true_iff in V. destruct V as (_ & V). rewrite E in *. now apply normal_number.
Qed.
Lemma solid_update c src c' : plain_shape src -> collider_update_from c src = UOk c' -> solid c'.
Proof.
  destruct c as [c|c|c|c|c], src as [x|x|x|x|x]; cbn [plain_shape collider_update_from]; try discriminate; intros P E;
    match type of E with (if ?b then _ else _) = _ => destruct b eqn:B; [|discriminate] end; injection E as <-; cbn [solid sp_radius pl_normal]; auto.
  destruct P as (r & E). exists r. split; [exact E|]. unfold sphere_valid in B. apply andb_true_iff in B. destruct B as (B & _). rewrite E in B. exact (minimum_radius r B).
Qed.
Lemma solids_exec ord s o s' a : good_order ord -> Inv s -> plain_op o -> solids (s_cols s) -> exec ord s o = Ok (s', a) -> solids (s_cols s').
Proof.
  intros Ho I P S E h c H. destruct (exec_collider _ _ _ _ _ _ _ Ho I E H) as [(src & -> & V & -> & _)|(k & Hk & [->|[(t & _ & ->)|(src & -> & U)]])].
  - now apply solid_new.
  - exact (S _ _ Hk).
  - apply solid_link. exact (S _ _ Hk).
  - exact (solid_update _ _ _ P U).
Qed.
Lemma remove_colliders_gens hs : forall (s s' : system ER), rfold remove_collider hs s = Ok s' -> s_gens s' = s_gens s.
Proof.
  intros s s' E. refine (rfold_ind _ (fun r => s_gens r = s_gens s) _ _ _ _ _ E); [|exact eq_refl]. intros x h y Hx Ey. rewrite <- Hx. unfold remove_collider in Ey.
  destruct (aremove (s_cols x) h) as [[cs c]|]; [|inv_ok Ey; now subst]. destruct (c_entity c) as [eh|]; [destruct (aget _ eh); [discriminate|]|]; inv_ok Ey; now subst.
Qed.
Lemma heavy_exec ord s o s' a : good_order ord -> Inv s -> plain_op o -> heavy (s_gens s) -> exec ord s o = Ok (s', a) -> heavy (s_gens s').
Proof.
  intros Ho I P H E.
  assert (K : (forall g, o <> OAddGenerator g) -> (forall h, o <> ORemoveGenerator h) -> s_gens s' = s_gens s -> heavy (s_gens s')) by (intros _ _ ->; exact H).
  destruct o as [src|h|h src|src|h|h src|ch t|g|h|dt|n|x|x]; cbn [exec] in E.
  - apply K; try discriminate. inv_ok E. inv_ok E. subst. unfold add_entity in E0. destruct (entity_new_from src); [|inv_ok E0; now subst]. inv_ok E0. inv_ok E0. now subst.
  - apply K; try discriminate. inv_ok E. inv_ok E. subst. unfold remove_entity in E0. destruct (aremove (s_ents s) h) as [[en e]|]; [|inv_ok E0; now subst]. inv_ok E0. inv_ok E0. subst.
    cbn [fst]. now rewrite (remove_colliders_gens _ _ _ E).
  - apply K; try discriminate. inv_ok E. inv_ok E. subst. unfold update_entity in E0. destruct (aget (s_ents s) h); [|inv_ok E0; now subst]. destruct (update_from _ _) as [[e1 w]|]; [|inv_ok E0; now subst].
    inv_ok E0. destruct w; [inv_ok E0|]; inv_ok E0; now subst.
  - apply K; try discriminate. inv_ok E. inv_ok E. subst. unfold add_collider in E0. destruct (collider_new_from src); [|inv_ok E0; now subst]. inv_ok E0. inv_ok E0. now subst.
  - apply K; try discriminate. inv_ok E. inv_ok E. subst. apply (remove_colliders_gens [h]). cbn [rfold]. rewrite E0. reflexivity.
  - apply K; try discriminate. inv_ok E. inv_ok E. subst. unfold update_collider in E0. destruct (aget (s_cols s) h) as [c|]; [|inv_ok E0; now subst]. cbv zeta in E0.
    destruct (collider_update_from c src); [inv_ok E0; now subst| |]; (destruct (c_entity c) as [eh|]; [destruct (aget (s_ents s) eh); [inv_ok E0|]|]; inv_ok E0; now subst).
  - apply K; try discriminate. inv_ok E. inv_ok E. subst. unfold link_collider in E0. destruct (aget (s_cols s) ch) as [c|]; [|inv_ok E0; now subst]. cbv zeta in E0.
    inv_ok E0. destruct x0 as [en|]; [|inv_ok E0; now subst]. destruct (match c_entity c, t with None, None => true | Some a, Some b => heqb a b | _, _ => false end); [inv_ok E0; now subst|].
    destruct (c_entity c) as [ph|]; [|inv_ok E0; now subst]. destruct (aget en ph); [|inv_ok E0; now subst]. inv_ok E0. inv_ok E0. now subst.
  - destruct (add_generator_effect s g I) as (s1 & k & E1 & _ & _ & D1 & D2 & _). rewrite E1 in E. cbn [rbind fst snd] in E. inv_ok E. subst s1.
    intros j y Hj. destruct (handle_eq_dec j k) as [->|Hk]; [|rewrite (D2 _ Hk) in Hj; exact (H _ _ Hj)]. rewrite D1 in Hj. apply some_is in Hj. subst y. exact P.
  - destruct (remove_generator s h) as [s1 og] eqn:E1. cbn [fst snd] in E. inv_ok E. subst s1. destruct (remove_generator_effect s h s' og I E1) as (_ & _ & D1 & D2 & _).
    intros j y Hj. destruct (handle_eq_dec j h) as [->|Hk]; [congruence|]. rewrite (D2 _ Hk) in Hj. exact (H _ _ Hj).
  - apply K; try discriminate. inv_ok E. inv_ok E. subst. unfold step in E0. destruct (n_lt _ _); [inv_ok E0; now subst|]. inv_ok E0. destruct x as [s1 infos]. inv_ok E0. inv_ok E0. inv_ok E0. subst s'. cbn [s_gens].
    refine (rfold_ind _ (fun r => s_gens (fst r) = s_gens s) _ _ _ _ _ E); [|exact eq_refl]. intros st h st' Hs Hi. rewrite <- Hs. apply (integrate_one_heavy _ _ _ _ _) in Hi; [exact Hi|]. now rewrite Hs.
  - apply K; try discriminate. inv_ok E. now subst.
  - apply K; try discriminate. inv_ok E. now subst.
  - apply K; try discriminate. inv_ok E. now subst.
Qed.

Definition settled (s : system ER) : Prop := Inv s /\ mass_inv unit_or_lost s /\ solids (s_cols s) /\ heavy (s_gens s).
Lemma settled_tame s : settled s -> tame s.
Proof. intros (_ & M & S & H). split; [|auto]. intros h e E. exact (proj1 (M h e E)). Qed.
Lemma settled_new : settled system_new.
Proof.
  split; [apply Inv_new|]. split; [|split]; intros h x H; exfalso; cbn [system_new s_ents s_cols s_gens] in H; rewrite aget_anew in H; discriminate.
Qed.
Lemma settled_exec ord s o s' a : call_ok (ord, o) -> plain_op o -> settled s -> exec ord s o = Ok (s', a) -> settled s'.
Proof.
  intros (Ho & _) P (I & M & S & H) E. pose proof (exec_evo _ _ _ _ _ Ho I E) as V. split; [apply V|]. split; [|split].
  - eapply (mass_inv_exec unit_or_lost exp_unit_or_lost (fun v q => mul_unit_or_lost _ q (exp_unit_or_lost v))); eauto.
  - eapply solids_exec; eauto.
  - eapply heavy_exec; eauto.
Qed.
Definition mrun (d : V) (r : system ER * list (answer ER)) : system ER * list (answer ER) := (move_system d (fst r), snd r).
Lemma run_move d hist : Forall call_ok hist -> Forall (fun c => plain_op (snd c)) hist -> forall s, settled s ->
  run (map (move_call d) hist) (move_system d s) = returned (mrun d) (run hist s).
Proof.
  induction hist as [|[ord o] hist IH]; intros C P s St; [reflexivity|]. inversion C as [|? ? C1 C2]; subst. inversion P as [|? ? P1 P2]; subst. cbn [map move_call run fst snd] in *.
  rewrite exec_move by now apply settled_tame. destruct (exec ord s o) as [[s1 a]| |] eqn:E; [|reflexivity|reflexivity]. cbn [returned mret fst snd].
  rewrite (IH C2 P2 s1) by (eapply settled_exec; eauto). destruct (run hist s1) as [[s2 l]| |]; reflexivity.
Qed.
Lemma moved_history d hist : Forall call_ok hist -> Forall (fun c => plain_op (snd c)) hist ->
  run (map (move_call d) hist) system_new = returned (fun r => (move_system d (fst r), snd r)) (run hist system_new).
Proof. intros C P. exact (run_move d hist C P system_new settled_new). Qed.
Lemma moved_step d ord hist s ans dt : Forall call_ok hist -> Forall (fun c => plain_op (snd c)) hist -> run hist system_new = Ok (s, ans) ->
  step ord (move_system d s) dt = returned (move_system d) (step ord s dt).
Proof.
  intros C P E. apply step_move. apply settled_tame. revert C P E. generalize (settled_new). generalize (@system_new ER EReal). intros s0 St. revert s0 St ans.
  induction hist as [|[o1 o2] hist IH]; intros s0 St ans C P E; [cbn [run] in E; inv_ok E; now subst|]. inversion C as [|? ? C1 C2]; subst. inversion P as [|? ? P1 P2]; subst.
  apply run_cons in E. destruct E as (s1 & a & l & E1 & E2 & _). eapply (IH s1); eauto. eapply settled_exec; eauto.
Qed.
Lemma moved_seen d hist s ans : Forall call_ok hist -> Forall (fun c => plain_op (snd c)) hist -> run hist system_new = Ok (s, ans) ->
  exists s', run (map (move_call d) hist) system_new = Ok (s', ans) /\
    (forall h, get_entity s' h = option_map (move_entity d) (get_entity s h)) /\ (forall h, get_collider s' h = get_collider s h).
Proof.
  intros C P E. exists (move_system d s). pose proof (moved_history d hist C P) as M. rewrite E in M.
  split; [exact M|]. split; [intros h; apply get_move|reflexivity].
Qed.
