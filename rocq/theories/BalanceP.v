(** * BalanceP: forces that depend only on the places and cancel leave the total momentum alone (C76) *)
From Coq Require Import ZArith Reals List Bool Arith Lra Lia.
Import ListNotations.
From Verif Require Import Num Vec Res Arena RangeM Orient Colliders Collide EntityM SystemM OrderP Spec PathSpec PhysSpec TraceSpec ForceSpec
  ResP ArenaP FrameP ArithP RangeP RealSpec RealV ShapeP PhysP Phys3P Phys4P MomentumP ForceP.

Section Generic.
  Context {T : Type} {N : Num T}.
  Lemma sees_still s dt qs h (w : view T) : sees s dt qs h w -> still_like s w.
  Proof.
    intros (A & B & C). split; [|split; [exact B|exact C]]. intros k. rewrite A. unfold get_entity. destruct (aget (s_ents s) k) as [e|]; [|reflexivity].
    simpl. f_equal. unfold served. destruct (hmem _ _); reflexivity.
  Qed.
  Lemma talk_places s dt F qs : forces_of_place s dt F -> talk s dt qs ->
    (forall q, In q qs -> pushable_at s (q_h q) = true) ->
    (forall q, In q qs -> f_force (q_force q) = F (q_gh q) (q_h q)) /\
    (forall gh g', gen_after s qs gh = Some g' -> exists g, get_generator s gh = Some g /\ becomes g g').
  Proof.
    intros HF. induction 1 as [|qs q g Q IH Hg Hs Hf]; intros Hp; [split; [intros q []|intros gh g' E; exists g'; split; [exact E|constructor]]|].
    destruct IH as (I1 & I2); [intros q' Hq; apply Hp, in_or_app; now left|].
    assert (Hp' : pushable_at s (q_h q) = true) by (apply Hp, in_or_app; right; now left).
    destruct (I2 _ _ Hg) as (g0 & G0 & B). split.
    - intros q' Hq. apply in_app_or in Hq. destruct Hq as [Hq|[<-|[]]]; [auto|]. exact (HF _ _ _ _ _ _ _ G0 B Hp' (sees_still _ _ _ _ _ Hs) Hf).
    - intros gh g' E. unfold gen_after in *. rewrite fold_left_app in E. simpl in E. destruct (heqb_spec gh (q_gh q)) as [->|]; [|apply I2, E].
      injection E as <-. exists g0. split; [exact G0|]. eapply becomes_asked; eauto.
  Qed.
  (** The questions about one entity go through the generators once. *)
  Lemma prod_of (hs ghs : list handle) (qs : list (asked T)) : NoDup hs -> map (fun q => (q_h q, q_gh q)) qs = list_prod hs ghs ->
    forall h, In h hs -> map q_gh (filter (fun q => heqb h (q_h q)) qs) = ghs.
  Proof.
    revert qs. induction hs as [|x hs IH]; intros qs ND E h Hh; [destruct Hh|]. simpl in E. inversion ND as [|? ? Nx ND']; subst.
    apply map_eq_app in E. destruct E as (q1 & q2 & -> & E1 & E2). rewrite filter_app, map_app.
    assert (B : Forall (fun q => q_h q = x) q1 /\ map q_gh q1 = ghs).
    { clear - E1. revert q1 E1. induction ghs as [|g ghs IH]; intros [|q q1] E; try discriminate; [split; constructor|]. simpl in E. injection E as Ea Eb Ec. destruct (IH _ Ec). split; [constructor; auto|]. simpl. congruence. }
    destruct B as (B1 & B2).
    destruct (handle_eq_dec h x) as [->|Ne].
    - assert (F1 : filter (fun q => heqb x (q_h q)) q1 = q1) by (clear - B1; induction B1 as [|q l H F IH]; simpl; auto; rewrite H, heqb_refl, IH; reflexivity).
      assert (F2 : filter (fun q => heqb x (q_h q)) q2 = []).
      { assert (D : Forall (fun q => q_h q <> x) q2).
        { apply Forall_forall. intros q Hq Hx. apply (in_map (fun q => (q_h q, q_gh q))) in Hq. rewrite E2 in Hq. apply in_prod_iff in Hq. rewrite Hx in Hq. tauto. }
        clear - D. induction D as [|q l H F IH]; simpl; auto. rewrite (heqb_neq x (q_h q)) by congruence. exact IH. }
      rewrite F1, F2, B2. apply app_nil_r.
    - assert (F1 : filter (fun q => heqb h (q_h q)) q1 = []) by (clear - B1 Ne; induction B1 as [|q l H F IH]; simpl; auto; rewrite H, (heqb_neq h x) by assumption; exact IH).
      rewrite F1. simpl. apply IH; auto. destruct Hh; [congruence|assumption].
  Qed.
End Generic.
Local Open Scope R_scope.

Lemma vsum_zero {A} (l : list A) : vsum (map (fun _ => mkV 0 0 0) l) = mkV 0 0 0.
Proof. induction l as [|x l IH]; [exact eq_refl|]. cbn [map]. rewrite vsum_cons, IH. apply vext; vunfold; ring. Qed.
Lemma vsum_swap {A B} (l : list A) (m : list B) (f : A -> B -> V) :
  vsum (map (fun x => vsum (map (f x) m)) l) = vsum (map (fun y => vsum (map (fun x => f x y) l)) m).
Proof.
  induction l as [|x l IH]; [cbn [map]; rewrite vsum_zero; exact eq_refl|]. cbn [map]. rewrite vsum_cons, IH, <- vsum_add. f_equal.
Qed.

Lemma balanced_momentum ord s d s' F m v : good_order ord -> step ord s (Fin d) = Ok s' -> n_lt (n_abs (Fin d)) EPSILON = false -> s_records s' = [] ->
  (forall h e, get_entity s h = Some e -> pe_last_total_mass e = Fin (m h) /\ 1 / 1000000 < m h /\ pe_vel e = vfin (v h) /\ pe_asleep e = false) ->
  forces_of_place s (Fin d) (fun gh h => vfin (F gh h)) ->
  vsum (map (fun gh => vsum (map (F gh) (ahandles (s_ents s)))) (ahandles (s_gens s))) = mkV 0 0 0 ->
  exists v', (forall h, get_entity s h <> None -> exists e', get_entity s' h = Some e' /\ pe_last_total_mass e' = Fin (m h) /\ pe_vel e' = vfin (v' h)) /\
    vsum (map (fun h => vscale (v' h) (m h)) (ahandles (s_ents s))) = vsum (map (fun h => vscale (v h) (m h)) (ahandles (s_ents s))).
Proof.
  intros Ho H Hd Hr Hall HF Hbal. set (hs := ahandles (s_ents s)) in *. set (ghs := ahandles (s_gens s)) in *.
  assert (Hin : forall h e, aget (s_ents s) h = Some e -> e_total_mass e = Fin (m h) /\ 1 / 1000000 < m h /\ e_vel e = vfin (v h) /\ e_asleep e = false).
  { intros h e He. apply (Hall h (make_pub e)). unfold get_entity. now rewrite He. }
  destruct (step_talk ord s (Fin d) s' Ho H Hd) as (qs & Tk & Em & _ & Hv).
  assert (Fh : filter (pushable_at s) hs = hs).
  { assert (P : forall h, In h hs -> pushable_at s h = true).
    { intros h Hh. unfold pushable_at. apply ahandles_in in Hh. destruct (aget (s_ents s) h) as [e|] eqn:E; [|congruence]. destruct (Hin h e E) as (A & B & _).
      unfold pushable. rewrite A, eps_fin. cbn [n_isfin EReal er_isfin andb]. change (@n_lt ER EReal) with er_lt. apply er_lt_fin. exact B. }
    clear - P. induction hs as [|x l IH]; simpl; auto. rewrite P by now left. f_equal. apply IH. intros h Hh. apply P. now right. }
  fold hs in Em. rewrite Fh in Em. fold ghs in Em.
  assert (Pq : forall q, In q qs -> pushable_at s (q_h q) = true).
  { intros q Hq. apply (in_map (fun q => (q_h q, q_gh q))) in Hq. rewrite Em in Hq. apply in_prod_iff in Hq. destruct Hq as (Hq & _). rewrite <- Fh in Hq. apply filter_In in Hq. apply Hq. }
  destruct (talk_places _ _ _ _ HF Tk Pq) as (Fq & _).
  assert (ND : NoDup hs) by apply ahandles_nodup.
  exists (fun h => vadd (v h) (vscale (vscale (vsum (map (fun gh => F gh h) ghs)) (/ m h)) d)). split.
  - intros h G. assert (Hh : In h hs). { apply ahandles_in. intros X. apply G. unfold get_entity. now rewrite X. }
    pose proof Hh as Hh0. apply ahandles_in in Hh. destruct (aget (s_ents s) h) as [e|] eqn:Ee; [|congruence]. destruct (Hin h e Ee) as (Hm & Pm & A2 & Ha).
    destruct (Hv h e Ee) as (e' & Ee' & X); [rewrite Hr; intros (r & [] & _)|]. destruct X as [(X & _)|(X & _)]; [|congruence].
    assert (Mm : e_total_mass e' = e_total_mass e).
    { apply step_frame in H. destruct H as (Fr & _). destruct (arel_get _ _ _ _ _ Fr Ee) as (e2 & E2 & Q). rewrite Ee' in E2. injection E2 as <-. apply Q. }
    exists (make_pub e'). split; [unfold get_entity; now rewrite Ee'|]. cbn [make_pub pe_last_total_mass pe_vel]. split; [congruence|]. rewrite X.
    apply MomentumP.pushed_by; [exact A2|exact Hm|lra|].
    rewrite map_map, <- (prod_of hs ghs qs ND Em h Hh0), map_map. unfold forces_in. rewrite map_map. apply map_ext_in. intros q Hq. apply filter_In in Hq. destruct Hq as (Hq & Hq2).
    rewrite (Fq q Hq). destruct (heqb_spec h (q_h q)) as [<-|]; [exact eq_refl|discriminate].
  - assert (Mom : forall h, In h hs -> vscale (vadd (v h) (vscale (vscale (vsum (map (fun gh => F gh h) ghs)) (/ m h)) d)) (m h) =
      vadd (vscale (v h) (m h)) (vscale (vsum (map (fun gh => F gh h) ghs)) d)).
    { intros h Hh. assert (P : 1 / 1000000 < m h).
      { apply ahandles_in in Hh. destruct (aget (s_ents s) h) as [e|] eqn:E; [|congruence]. apply (Hin h e E). }
      set (a := v h). set (z := vsum _). clearbody a z. destruct a, z. apply vext; vunfold; field; lra. }
    rewrite (map_ext_in _ _ hs Mom), vsum_add, vsum_scale, vsum_swap.
    match goal with |- vadd _ (vscale ?z d) = _ => replace z with (mkV 0 0 0) by (symmetry; exact Hbal) end.
    set (z := vsum _). clearbody z. destruct z. apply vext; vunfold; ring.
Qed.
