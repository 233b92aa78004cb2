(** * Replay2P: in exact arithmetic the order of the colliders does not matter for masses *)
From Coq Require Import List Permutation Bool Arith Lia Reals.
Import ListNotations.
From Verif Require Import Num Vec Res Arena Orient Colliders Collide EntityM SystemM Spec ResP ArenaP FrameP StoreP ReplaySpec ReplayP.

Lemma er_add_comm x y : er_add x y = er_add y x.
Proof. destruct x, y; simpl; try reflexivity. now rewrite Rplus_comm. Qed.
Lemma er_add_swap a x y : er_add (er_add a x) y = er_add (er_add a y) x.
Proof. destruct a, x, y; simpl; try reflexivity. f_equal. ring. Qed.
Lemma vadd_swap (a x y : Vec3 ER) : vadd (vadd a x) y = vadd (vadd a y) x.
Proof. destruct a, x, y. unfold vadd. simpl. f_equal; apply er_add_swap. Qed.
Lemma madd_swap (a x y : Mat3 ER) : madd (madd a x) y = madd (madd a y) x.
Proof. destruct a, x, y. unfold madd. simpl. f_equal; apply er_add_swap. Qed.
Lemma fold_swap {A B} (f : A -> B -> A) l l' : (forall a x y, f (f a x) y = f (f a y) x) -> Permutation l l' -> forall a, fold_left f l a = fold_left f l' a.
Proof.
  intros H P. induction P as [|x l l' P IH|x y l|l l' l'' P IH P' IH']; intros a; cbn [fold_left]; auto.
  - now rewrite H.
  - now rewrite IH.
Qed.

Section Weigh.
  Variables (o : orientation ER) (cols : arena (collider ER)).
  Definition present (l : list handle) : Prop := forall c, In c l -> exists k, aget cols c = Some k.
  Definition weight (c : handle) : ER := match aget cols c with Some k => c_mass k | None => n0 end.
  Definition lever (c : handle) : Vec3 ER := match aget cols c with Some k => vscale (position_into_world o (c_com k)) (c_mass k) | None => vzero end.
  Definition inertia (c : handle) : Mat3 ER := match aget cols c with Some k => prep_moment o (c_com k) (c_mass k) (c_moi k) | None => mzero end.
  Lemma com_loop_inf l t v : present l -> existsb (fun c => n_isinf (weight c)) l = true -> exists t' v', com_loop o cols l t v = Ok (true, t', v').
  Proof.
    revert t v. induction l as [|c l IH]; intros t v H E; [discriminate|]. cbn [existsb] in E. cbn [com_loop]. unfold weight at 1 in E.
    destruct (H c (or_introl eq_refl)) as (k & Hk). rewrite Hk in E |- *. destruct (n_isinf (c_mass k)); [eauto|]. apply IH; [intros x Hx; apply H; now right|exact E].
  Qed.
  Lemma com_loop_sum l t v : present l -> existsb (fun c => n_isinf (weight c)) l = false ->
    com_loop o cols l t v = Ok (false, fold_left (fun a c => er_add a (weight c)) l t, fold_left (fun a c => vadd a (lever c)) l v).
  Proof.
    revert t v. induction l as [|c l IH]; intros t v H E; [reflexivity|]. cbn [existsb] in E. cbn [com_loop fold_left]. unfold weight at 1 in E. unfold weight at 2, lever at 2.
    destruct (H c (or_introl eq_refl)) as (k & Hk). rewrite Hk in E |- *. destruct (n_isinf (c_mass k)); [discriminate|]. apply IH; [intros x Hx; apply H; now right|exact E].
  Qed.
  Lemma moi_loop_sum l : present l -> moi_loop o cols l = Ok (fold_left (fun a c => madd a (inertia c)) l mzero).
  Proof.
    unfold moi_loop. generalize (mzero : Mat3 ER). induction l as [|c l IH]; intros a H; [reflexivity|]. cbn [rfold fold_left]. unfold inertia at 2. destruct (H c (or_introl eq_refl)) as (k & ->). cbn [unwrap rbind]. apply IH. intros x Hx. apply H. now right.
  Qed.
End Weigh.
Lemma existsb_perm {A} (f : A -> bool) l l' : Permutation l l' -> existsb f l = existsb f l'.
Proof.
  intros P. induction P as [|x l l' P IH|x y l|l l' l'' P IH P' IH']; cbn [existsb]; auto.
  - now rewrite IH.
  - destruct (f x), (f y); reflexivity.
  - congruence.
Qed.
Lemma recalc_perm cols hs hs' (e : ientity ER) : Permutation hs hs' -> present cols hs -> recalculate_mass hs cols e = recalculate_mass hs' cols e.
Proof.
  intros P H. assert (H' : present cols hs') by (intros c Hc; apply H; now apply (Permutation_in _ (Permutation_sym P))).
  unfold recalculate_mass. cbv zeta. destruct (existsb (fun c => n_isinf (weight cols c)) hs) eqn:E.
  - destruct (com_loop_inf (e_orient e) cols hs n0 vzero H E) as (t & v & ->). rewrite (existsb_perm _ _ _ P) in E. destruct (com_loop_inf (e_orient e) cols hs' n0 vzero H' E) as (t' & v' & ->).
    cbn [rbind negb]. rewrite !andb_false_r. reflexivity.
  - rewrite (com_loop_sum _ _ _ _ _ H E). rewrite (existsb_perm _ _ _ P) in E. rewrite (com_loop_sum _ _ _ _ _ H' E). cbn [rbind].
    rewrite (fold_swap (fun a c => er_add a (weight cols c)) hs hs' (fun a x y => er_add_swap a _ _) P n0).
    rewrite (fold_swap (fun a c => vadd a (lever (e_orient e) cols c)) hs hs' (fun a x y => vadd_swap a _ _) P vzero).
    destruct (if _ && _ then _ else _)%bool as [tm o']. rewrite (moi_loop_sum _ _ _ H), (moi_loop_sum _ _ _ H').
    rewrite (fold_swap (fun a c => madd a (inertia o' cols c)) hs hs' (fun a x y => madd_swap a _ _) P mzero). reflexivity.
Qed.
Definition anyone (l : list handle) : Prop := True.
Lemma present_set cols h c l : present cols l -> present (aset cols h c) l.
Proof.
  intros H x Hx. destruct (H x Hx) as (k & Hk). rewrite aget_aset. destruct (heqb_spec h x) as [->|E]; [|eauto]. rewrite Hk. eauto.
Qed.
Lemma present_ins cols h c l : aget cols h = Some c -> present cols l -> present cols (hinsert h l).
Proof. intros Hc H x Hx. apply hinsert_in in Hx. destruct Hx as [->|Hx]; [eauto|now apply H]. Qed.
Lemma present_rem cols h l : present cols l -> present cols (hremove h l).
Proof. intros H x Hx. apply hremove_in in Hx. now apply H. Qed.
Lemma present_even ord1 ord2 k h cols (e : ientity ER) : good_order ord1 -> good_order ord2 -> thin anyone e -> present cols (e_colliders e) ->
  recalculate_mass (ord1 k h (e_colliders e)) cols e = recalculate_mass (ord2 k h (e_colliders e)) cols e.
Proof.
  intros H1 H2 _ H. apply recalc_perm.
  - apply (Permutation_trans (H1 k h _)). apply Permutation_sym. apply H2.
  - intros c Hc. apply H. exact (Permutation_in _ (H1 k h _) Hc).
Qed.
Lemma calm_calls (hist1 : list (call ER)) : forall hist2 (s t s' : system ER) ans, map snd hist1 = map snd hist2 -> Forall call_ok hist1 -> Forall call_ok hist2 ->
  Forall (fun c => calm (snd c)) hist1 -> reachable s -> twin anyone s t -> run hist1 s = Ok (s', ans) -> exists t', run hist2 t = Ok (t', ans) /\ twin anyone s' t'.
Proof.
  induction hist1 as [|[ord1 o1] hist1 IH]; intros [|[ord2 o2] hist2] s t s' ans M C1 C2 Ca Re H E; try discriminate.
  - cbn [run] in E |- *. injection E as <- <-. exists t. split; [reflexivity|exact H].
  - cbn [map snd] in M. injection M as <- M. inversion C1 as [|? ? K1 C1']; subst. inversion C2 as [|? ? K2 C2']; subst. inversion Ca as [|? ? Kc Ca']; subst. cbn [run] in E.
    destruct (exec ord1 s o1) as [[s1 a]| |] eqn:E1; try discriminate. destruct (run hist1 s1) as [[s2 l]| |] eqn:E2; try discriminate. injection E as <- <-.
    assert (Fu : full present s). { intros h e He c Hc. destruct (inv_fwd _ (reachable_Inv _ Re) _ _ _ He Hc) as (k & Hk & _). eauto. }
    assert (Cc : (forall l, anyone l -> length l <= 1) \/ match o1 with OStep _ | ORemoveEntity _ => False | _ => True end) by (right; cbn [snd] in Kc; destruct o1; auto).
    destruct (exec_twin anyone I (fun _ _ _ => I) present present_set present_ins present_rem present_even ord1 ord2 s t o1 (s1, a) Cc Fu (proj1 K1) (proj1 K2) H E1 (fun _ _ _ => I)) as ([t1 a'] & F1 & K & Ea).
    cbn [fst snd] in K, Ea. subst a'. destruct (IH hist2 s1 t1 s2 l M C1' C2' Ca') as (t2 & F2 & L); [|exact K|exact E2|].
    { eapply follows_trans; [exact Re|]. exact (follows_exec ord1 s o1 s1 a K1 E1). }
    exists t2. split; [cbn [run]; now rewrite F1, F2|exact L].
Qed.
Lemma calm_replay (hist1 hist2 : list (call ER)) (s s1 : system ER) ans : map snd hist1 = map snd hist2 -> Forall call_ok hist1 -> Forall call_ok hist2 ->
  Forall (fun c => calm (snd c)) hist1 -> reachable s -> run hist1 s = Ok (s1, ans) -> exists s2, run hist2 s = Ok (s2, ans) /\ looks_same s1 s2.
Proof.
  intros M C1 C2 Ca Re E. destruct (calm_calls hist1 hist2 s s s1 ans M C1 C2 Ca Re) as (s2 & E2 & K); [|exact E|].
  - apply twin_refl. intros h e _. exact I.
  - exists s2. split; [exact E2|exact (twin_looks _ _ _ K)].
Qed.
