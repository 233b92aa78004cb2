(** * Cycle3P: the calls and whole histories with the axes exchanged in a circle (C91) *)
From Coq Require Import ZArith Reals List Bool Arith Lra Lia.
Import ListNotations.
From Verif Require Import Num Vec Res Arena RangeM Orient Colliders Collide EntityM SystemM OrderP Spec ResP ArenaP FrameP StoreP ExecP RealSpec RealV OrientP PhysSpec PhysP RangeP MassP Mass3P MoveSpec MoveP Move2P Move3P Move4P CycleSpec CycleP Cycle2P.
Local Open Scope R_scope.

Lemma even_link (c : collider ER) t : no_box c -> no_box (c_set_entity c t).
Proof. destruct c; exact (fun H => H). Qed.
Lemma even_new src : no_box src -> no_box (stored_new src).
Proof. destruct src; exact (fun H => H). Qed.
Lemma even_update c src c' : no_box src -> collider_update_from c src = UOk c' -> no_box c'.
Proof.
  destruct c as [c|c|c|c|c], src as [x|x|x|x|x]; cbn [no_box collider_update_from]; try discriminate; try contradiction; intros P E;
    match type of E with (if ?b then _ else _) = _ => destruct b; [|discriminate] end; injection E as <-; exact P.
Qed.
Lemma boxless_set cols h c : boxless cols -> no_box c -> boxless (aset cols h c).
Proof. intros R H k x E. rewrite aget_aset in E. destruct (heqb_spec h k) as [<-|]; [|exact (R _ _ E)]. destruct (aget cols h); [|discriminate]. injection E as <-. exact H. Qed.

Section Around.
  Notation mi := around_internal.
  Notation mc := around_collider.
  Notation mg := around_generator.
  Notation ea := (aeach mi).
  Notation ec := (aeach mc).
  Notation ms := around_system.
  Implicit Types (e : ientity ER) (s : system ER).

  Definition mret2 (r : system ER * answer ER) : system ER * answer ER := (ms (fst r), around_answer (snd r)).
  Lemma remove_collider_around s h : remove_collider (ms s) h = returned ms (remove_collider s h).
  Proof.
    unfold remove_collider. cbn [around_system s_cols s_ents]. rewrite each_remove. destruct (aremove (s_cols s) h) as [[cols c]|]; [|reflexivity]. cbn [option_map fst snd]. rewrite entity_around.
    destruct (c_entity c) as [eh|]; [|reflexivity]. rewrite each_get. destruct (aget (s_ents s) eh); reflexivity.
  Qed.
  Lemma exec_around ord s o : boxless (s_cols s) -> (forall dt, o = OStep dt -> plainly s) -> boxless_op o -> exec ord (ms s) (around_op o) = returned mret2 (exec ord s o).
  Proof.
    intros S W O. destruct o as [src|h|h src|src|h|h src|ch t|g|h|dt|n|x|x]; cbn [exec around_op]; cbn [boxless_op] in O.
    - unfold add_entity. rewrite new_around. destruct (entity_new_from src) as [e|]; [|reflexivity]. cbn [option_map around_system s_ents]. rewrite each_insert, rbind_returned.
      destruct (ainsert (s_ents s) e) as [[b h]| |]; reflexivity.
    - unfold remove_entity. cbn [around_system s_ents]. rewrite each_remove. destruct (aremove (s_ents s) h) as [[ents e]|]; [|reflexivity]. cbn [option_map fst snd].
      change (e_colliders (mi e)) with (e_colliders e).
      change (s_set_ents (ms s) (ea ents)) with (ms (s_set_ents s ents)).
      rewrite (rfold_returned ms remove_collider) by (intros; apply remove_collider_around). rewrite rbind_returned. destruct (rfold remove_collider _ _); reflexivity.
    - unfold update_entity. cbn [around_system s_ents s_cols s_debug]. rewrite each_get. destruct (aget (s_ents s) h) as [e|] eqn:Eh; [|reflexivity]. cbn [option_map].
      rewrite update_around. destruct (update_from e src) as [[e1 w]|] eqn:Eu; [|reflexivity]. cbn [option_map fst snd]. change (e_colliders (mi e1)) with (e_colliders e1).
      rewrite recalc_around by exact S. rewrite rbind_returned. destruct (recalculate_mass _ _ e1) as [e2| |]; [|reflexivity|reflexivity]. cbn [rbind]. cbv zeta. rewrite each_set.
      destruct w; [|reflexivity]. cbn [s_set_ents s_ents s_debug around_system]. rewrite wake_around, rbind_returned. destruct (wake_up _ _ _ _) as [[b c]| |]; reflexivity.
    - unfold add_collider. rewrite cnew_around by exact O. destruct (collider_new_from src) as [c|]; [|reflexivity]. cbn [option_map around_system s_cols]. rewrite each_insert, rbind_returned.
      destruct (ainsert (s_cols s) c) as [[b h]| |]; reflexivity.
    - rewrite remove_collider_around, rbind_returned. destruct (remove_collider s h); reflexivity.
    - unfold update_collider. cbn [around_system s_cols s_ents]. rewrite each_get. destruct (aget (s_cols s) h) as [c|] eqn:Ec; [|reflexivity]. cbn [option_map]. cbv zeta. rewrite entity_around.
      assert (F : forall cols b, boxless cols -> rbind (match c_entity c with
          | Some eh => match aget (ea (s_ents s)) eh with
            | Some e => rbind (recalculate_mass (ord KColliders eh (e_colliders e)) (ec cols) e) (fun e' => Ok (s_set_ents (s_set_cols (ms s) (ec cols)) (aset (ea (s_ents s)) eh e'), b))
            | None => Ok (s_set_cols (ms s) (ec cols), b) end
          | None => Ok (s_set_cols (ms s) (ec cols), b) end) (fun r : system ER * bool => Ok (fst r, @ABool ER (snd r))) =
        returned mret2 (rbind (match c_entity c with
          | Some eh => match aget (s_ents s) eh with
            | Some e => rbind (recalculate_mass (ord KColliders eh (e_colliders e)) cols e) (fun e' => Ok (s_set_ents (s_set_cols s cols) (aset (s_ents s) eh e'), b))
            | None => Ok (s_set_cols s cols, b) end
          | None => Ok (s_set_cols s cols, b) end) (fun r : system ER * bool => Ok (fst r, @ABool ER (snd r))))).
      { intros cols b R. destruct (c_entity c) as [eh|]; [|reflexivity]. rewrite each_get. destruct (aget (s_ents s) eh) as [e|] eqn:Ee; [|reflexivity]. cbn [option_map].
        change (e_colliders (mi e)) with (e_colliders e). rewrite recalc_around by exact R. rewrite rbind_returned. destruct (recalculate_mass _ cols e) as [e'| |]; [|reflexivity|reflexivity].
        cbn [rbind]. rewrite each_set. reflexivity. }
      rewrite cupdate_around by (eauto || exact O).
      destruct (collider_update_from c src) as [| |c'] eqn:Eu; cbn [mupd]; [reflexivity|exact (F _ _ S)|]. rewrite each_set. apply F. apply boxless_set; [exact S|]. exact (even_update _ _ _ O Eu).
    - unfold link_collider. cbn [around_system s_cols s_ents]. rewrite each_get. destruct (aget (s_cols s) ch) as [c|] eqn:Ec; [|reflexivity]. cbn [option_map]. cbv zeta. rewrite entity_around, link_around, each_set.
      assert (S' : boxless (aset (s_cols s) ch (c_set_entity c t))) by (apply boxless_set; [exact S|apply even_link; exact (S _ _ Ec)]).
      set (att := match t with None => Ok (Some (s_ents s)) | Some h => match aget (s_ents s) h with None => Ok None
        | Some e => rbind (recalculate_mass (ord KColliders h (e_colliders (e_set_colliders e (hinsert ch (e_colliders e))))) (s_cols s) (e_set_colliders e (hinsert ch (e_colliders e)))) (fun e2 => Ok (Some (aset (s_ents s) h e2))) end end).
      assert (EA : match t with None => Ok (Some (ea (s_ents s))) | Some h => match aget (ea (s_ents s)) h with None => Ok None
        | Some e => rbind (recalculate_mass (ord KColliders h (e_colliders (e_set_colliders e (hinsert ch (e_colliders e))))) (ec (s_cols s)) (e_set_colliders e (hinsert ch (e_colliders e)))) (fun e2 => Ok (Some (aset (ea (s_ents s)) h e2))) end end =
        returned (option_map ea) att).
      { unfold att. destruct t as [h|]; [|reflexivity]. rewrite each_get. destruct (aget (s_ents s) h) as [e|] eqn:Ee; [|reflexivity]. cbn [option_map].
        change (e_set_colliders (mi e) (hinsert ch (e_colliders (mi e)))) with (mi (e_set_colliders e (hinsert ch (e_colliders e)))). rewrite recalc_around by exact S.
        change (e_colliders (mi (e_set_colliders e (hinsert ch (e_colliders e))))) with (e_colliders (e_set_colliders e (hinsert ch (e_colliders e)))).
        rewrite rbind_returned, returned_rbind. apply rbind_ext. intros e2 _. cbn [returned option_map]. now rewrite each_set. }
      rewrite EA, rbind_returned. destruct att as [[ents|]| |]; try reflexivity. cbn [option_map rbind].
      destruct (match c_entity c, t with None, None => true | Some a, Some b => heqb a b | _, _ => false end); [reflexivity|].
      destruct (c_entity c) as [ph|]; [|reflexivity]. rewrite each_get. destruct (aget ents ph) as [p|] eqn:Ep; [|reflexivity]. cbn [option_map].
      change (e_set_colliders (mi p) (hremove ch (e_colliders (mi p)))) with (mi (e_set_colliders p (hremove ch (e_colliders p)))). rewrite recalc_around by exact S'.
      change (e_colliders (mi (e_set_colliders p (hremove ch (e_colliders p))))) with (e_colliders (e_set_colliders p (hremove ch (e_colliders p)))).
      rewrite rbind_returned. destruct (recalculate_mass _ _ _) as [p2| |]; [|reflexivity|reflexivity]. cbn [rbind]. rewrite each_set. reflexivity.
    - unfold add_generator. cbn [around_system s_gens]. rewrite each_insert, rbind_returned. destruct (ainsert (s_gens s) g) as [[b h]| |]; reflexivity.
    - unfold remove_generator. cbn [around_system s_gens]. rewrite each_remove. destruct (aremove (s_gens s) h) as [[b g]|]; reflexivity.
    - rewrite step_around by exact (W dt eq_refl). rewrite rbind_returned. destruct (step ord s dt); reflexivity.
    - reflexivity.
    - reflexivity.
    - reflexivity.
  Qed.
End Around.

(** ** What holds after every call *)
Lemma boxless_exec ord s o s' r : good_order ord -> Inv s -> boxless_op o -> boxless (s_cols s) -> exec ord s o = Ok (s', r) -> boxless (s_cols s').
Proof.
  intros Ho I P S E h c H. destruct (exec_collider _ _ _ _ _ _ _ Ho I E H) as [(src & -> & V & -> & _)|(k & Hk & [->|[(t & _ & ->)|(src & -> & U)]])].
  - now apply even_new.
  - exact (S _ _ Hk).
  - apply even_link. exact (S _ _ Hk).
  - exact (even_update _ _ _ P U).
Qed.
(** [heavy_exec] asks about generators only; a call without its collider. *)
Lemma heavy_boxless ord s o s' r : good_order ord -> Inv s -> boxless_op o -> heavy (s_gens s) -> exec ord s o = Ok (s', r) -> heavy (s_gens s').
Proof.
  intros Ho I P H E. destruct o as [src|h|h src|src|h|h src|ch t|g|h|dt|n|x|x]; try (eapply heavy_exec; [exact Ho|exact I| |exact H|exact E]; exact P || exact Logic.I).
  - cbn [exec] in E. inv_ok E. inv_ok E. subst. unfold add_collider in E0. destruct (collider_new_from src); [|inv_ok E0; now subst]. inv_ok E0. inv_ok E0. now subst.
  - cbn [exec] in E. inv_ok E. inv_ok E. subst. unfold update_collider in E0. destruct (aget (s_cols s) h) as [c|]; [|inv_ok E0; now subst]. cbv zeta in E0.
    destruct (collider_update_from c src); [inv_ok E0; now subst| |]; (destruct (c_entity c) as [eh|]; [destruct (aget (s_ents s) eh); [inv_ok E0|]|]; inv_ok E0; now subst).
Qed.
Lemma mass_new : mass_inv unit_or_lost (@system_new ER EReal).
Proof. intros h e H. exfalso. cbn [system_new s_ents] in H. rewrite aget_anew in H. discriminate. Qed.
Lemma weighed_firms s : mass_inv unit_or_lost s -> weighed s -> firms (s_ents s).
Proof.
  intros M W h e H. split; [exact (proj1 (M h e H))|]. apply (W h (make_pub e)). unfold get_entity. rewrite H. reflexivity.
Qed.
Definition kept (s : system ER) : Prop := Inv s /\ boxless (s_cols s) /\ heavy (s_gens s) /\ mass_inv unit_or_lost s.
Lemma kept_new : kept system_new.
Proof. split; [apply Inv_new|]. split; [|split; [|exact mass_new]]; intros h x H; exfalso; cbn [system_new s_cols s_gens] in H; rewrite aget_anew in H; discriminate. Qed.
Lemma kept_plainly s : kept s -> weighed s -> plainly s.
Proof. intros (_ & B & H & M) W. split; [exact B|]. split; [exact H|]. exact (weighed_firms s M W). Qed.
Lemma kept_exec ord s o s' r : call_ok (ord, o) -> boxless_op o -> kept s -> exec ord s o = Ok (s', r) -> kept s'.
Proof.
  intros (Ho & _) P (I & S & H & M) E. pose proof (exec_evo _ _ _ _ _ Ho I E) as V. split; [apply V|]. split; [|split].
  - eapply boxless_exec; eauto.
  - eapply heavy_boxless; eauto.
  - exact (mass_inv_exec unit_or_lost exp_unit_or_lost (fun v q => mul_unit_or_lost _ q (exp_unit_or_lost v)) ord s o s' r Ho I M E).
Qed.
Lemma kept_run hist : Forall call_ok hist -> Forall (fun c => boxless_op (snd c)) hist -> forall s s' l, kept s -> run hist s = Ok (s', l) -> kept s'.
Proof.
  induction hist as [|[ord o] hist IH]; intros C P s s' l K E; [cbn [run] in E; inv_ok E; now subst|]. inversion C as [|? ? C1 C2]; subst. inversion P as [|? ? P1 P2]; subst.
  apply run_cons in E. destruct E as (s1 & r & l' & E1 & E2 & _). eapply (IH C2 P2 s1); eauto. eapply kept_exec; eauto.
Qed.
Lemma run_around hist : Forall call_ok hist -> Forall (fun c => boxless_op (snd c)) hist -> forall s, kept s ->
  (forall k ord dt s' ans, nth_error hist k = Some (ord, OStep dt) -> run (firstn k hist) s = Ok (s', ans) -> weighed s') ->
  run (map around_call hist) (around_system s) = returned (fun r => (around_system (fst r), map around_answer (snd r))) (run hist s).
Proof.
  induction hist as [|[ord o] hist IH]; intros C P s K W; [reflexivity|]. inversion C as [|? ? C1 C2]; subst. inversion P as [|? ? P1 P2]; subst. cbn [map around_call run fst snd] in *.
  rewrite exec_around; [|exact (proj1 (proj2 K))| |exact P1].
  2:{ intros dt ->. apply kept_plainly; [exact K|]. exact (W 0%nat ord dt s [] eq_refl eq_refl). }
  destruct (exec ord s o) as [[s1 r]| |] eqn:E; [|reflexivity|reflexivity]. cbn [returned mret2 fst snd].
  rewrite (IH C2 P2 s1); [destruct (run hist s1) as [[s2 l]| |]; reflexivity|eapply kept_exec; eauto|].
  intros k ord' dt s' ans N R. apply (W (S k) ord' dt s' (r :: ans) N). cbn [firstn run]. rewrite E, R. reflexivity.
Qed.
Lemma around_history hist : Forall call_ok hist -> Forall (fun c => boxless_op (snd c)) hist -> weighed_at_steps hist ->
  run (map around_call hist) system_new = returned (fun r => (around_system (fst r), map around_answer (snd r))) (run hist system_new).
Proof. intros C P W. exact (run_around hist C P system_new kept_new W). Qed.
Lemma around_step ord hist s ans dt : Forall call_ok hist -> Forall (fun c => boxless_op (snd c)) hist -> run hist system_new = Ok (s, ans) -> weighed s ->
  step ord (around_system s) dt = returned around_system (step ord s dt).
Proof. intros C P E W. apply step_around. apply kept_plainly; [|exact W]. exact (kept_run hist C P _ _ _ kept_new E). Qed.
Lemma around_seen hist s ans : Forall call_ok hist -> Forall (fun c => boxless_op (snd c)) hist -> weighed_at_steps hist -> run hist system_new = Ok (s, ans) ->
  exists s', run (map around_call hist) system_new = Ok (s', map around_answer ans) /\
    (forall h, get_entity s' h = option_map around_entity (get_entity s h)) /\ (forall h, get_collider s' h = option_map around_collider (get_collider s h)) /\
    s_records s' = map around_record (s_records s).
Proof.
  intros C P W E. exists (around_system s). pose proof (around_history hist C P W) as M. rewrite E in M.
  split; [exact M|]. split; [intros h; apply get_around|]. split; [|reflexivity]. intros h. unfold get_collider. cbn [around_system s_cols]. apply each_get.
Qed.
