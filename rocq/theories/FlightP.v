(** * FlightP: bodies in free flight over many steps *)
From Coq Require Import ZArith Reals Lra Psatz Bool List Lia.
Import ListNotations.
From Verif Require Import Num Vec Res Arena RangeM Orient Colliders Collide EntityM SystemM OrderP Spec PanicSpec Examples ResP ArenaP FrameP StoreP Store2P ExecP StepP Step2P Step3P NoPanicP RangeP
  RealSpec RealV OrientP Orient2P GeomP ShapeP PhysSpec PhysP Phys2P Phys3P Phys4P PathP PassP FlightSpec.
Local Open Scope R_scope.

Lemma gravity_stays ord s d s' gs : step ord s (Fin d) = Ok s' -> n_lt (n_abs (Fin d)) EPSILON = false -> gravity_only s gs -> gravity_only s' gs.
Proof.
  intros Hs Hd G. destruct (step_phases _ _ _ _ Hs Hd) as (s1 & infos & st & P1 & _ & _ & _ & P5 & _). cbv zeta in P1. pose proof (integrate_spec _ _ _ P1) as (Q1 & _). cbn [fst s_gens] in Q1.
  rewrite <- P5 in Q1. unfold gravity_only in *. destruct (Q1) as (_ & Eh & _). rewrite Eh. revert G. generalize (ahandles (s_gens s)). intros l G. induction G as [|gh a l gs Hg G IH]; constructor; [|exact IH].
  unfold get_generator in *. destruct (arel_get _ _ _ _ _ Q1 Hg) as (g' & Hg' & B). apply becomes_gravity in B. now subst g'.
Qed.
Lemma gravity_list s d h e gs m fs : gravity_only s gs -> get_entity s h = Some e -> pe_last_total_mass e = Fin m ->
  Forall2 (force_from s d h) (ahandles (s_gens s)) fs -> map f_force fs = map (fun g => vfin (vscale g m)) gs.
Proof.
  intros G He Hm H.
  assert (Q : forall gh f, In gh (ahandles (s_gens s)) -> force_from s d h gh f -> exists g, get_generator s gh = Some (GenGravity (vfin g)) /\ f_force f = vfin (vscale g m)).
  { intros gh f Hi Hf. destruct (gravity_force _ _ _ _ _ _ _ G He Hi Hf) as (g & G1 & ->). exists g. split; [exact G1|]. rewrite Hm. exact eq_refl. }
  unfold gravity_only in G. revert Q G H. generalize (ahandles (s_gens s)). intros l Q G. revert fs. induction G as [|gh g l gs Hg G IH]; intros fs H; inversion H as [|? f ? fs' Hf H']; subst; [exact eq_refl|].
  cbn [map]. rewrite <- (IH (fun gh f Hi => Q gh f (or_intror Hi)) fs' H'). f_equal. destruct (Q gh f (or_introl eq_refl) Hf) as (g' & G1 & ->).
  rewrite Hg in G1. injection G1 as Gx Gy Gz. destruct g as [g1 g2 g3], g' as [k1 k2 k3]. cbn [vx vy vz] in *. now subst.
Qed.
Lemma gravity_vel s d h i gs m v fs : gravity_only s gs -> aget (s_ents s) h = Some i -> e_total_mass i = Fin m -> / 1000000 < m -> e_vel i = vfin v ->
  forces_on s (Fin d) h fs -> pushed_vel (Fin d) fs i = vfin (vadd v (vscale (vsum gs) d)).
Proof.
  intros G Hi Hm Hp Hv (i' & Hi' & F). assert (i' = i) by congruence. subst i'.
  assert (Pu : pushable i = true).
  { unfold pushable. rewrite Hm. apply andb_true_intro. split; [exact eq_refl|]. change (@n_lt ER EReal) with er_lt. unfold EPSILON. apply er_lt_fin. lra. }
  rewrite Pu in F. assert (He : get_entity s h = Some (make_pub i)) by (unfold get_entity; rewrite Hi; exact eq_refl).
  pose proof (gravity_list _ _ _ _ _ m _ G He Hm F) as L. unfold pushed_vel. rewrite Hm, Hv, fin_1, fin_div by lra.
  rewrite <- (map_map (@f_force ER) (fun x => vscale x (Fin (1 / m)))), L, map_map.
  rewrite (vsum_fin _ (fun g => vscale (vscale g m) (1 / m))) by (intros x _; exact eq_refl).
  rewrite vsum_scale, vsum_scale, map_id, vfin_scale, vfin_add. f_equal. set (a := vsum gs). clear - Hp. destruct v, a. apply vext; vunfold; field; lra.
Qed.
Lemma long_enough d : 1 / 1000000 <= Rabs d -> n_lt (n_abs (Fin d)) EPSILON = false.
Proof.
  intros H. destruct (n_lt (n_abs (Fin d)) EPSILON) eqn:E; [|exact eq_refl]. change (@n_lt ER EReal) with er_lt in E. change (@n_abs ER EReal) with er_abs in E. unfold er_abs in E. rewrite eps_fin in E.
  apply er_lt_fin in E. lra.
Qed.
Lemma step_flight ord s d s' h i gs m p v : good_order ord -> step ord s (Fin d) = Ok s' -> 1 / 1000000 <= Rabs d -> gravity_only s gs ->
  aget (s_ents s) h = Some i -> e_total_mass i = Fin m -> / 1000000 < m -> o_pos (e_orient i) = vfin p -> e_vel i = vfin v -> e_asleep i = false ->
  ~ named (s_records s') h -> length (s_records s') <> s_iteration_max s ->
  exists i', aget (s_ents s') h = Some i' /\ e_total_mass i' = Fin m /\ e_vel i' = vfin (vadd v (vscale (vsum gs) d)) /\
    o_pos (e_orient i') = vfin (vadd p (vscale (vadd v (vscale (vsum gs) d)) d)).
Proof.
  intros Ho Hs Hd G Hi Hm Hp Po Ve Aw Hn Hl. pose proof (long_enough d Hd) as Le.
  destruct (step_straight ord s d s' h i p _ Ho Hs Le Hi Aw Po Hn (fun fs F => gravity_vel s d h i gs m v fs G Hi Hm Hp Ve F) Hl) as (i' & A & B & C).
  exists i'. split; [exact A|]. split; [|split; [exact B|exact C]].
  pose proof (step_frame_pub _ _ _ _ Hs) as (_ & _ & _ & F4 & _). destruct (F4 h (make_pub i) (make_pub i')) as (_ & _ & M & _).
  - unfold get_entity. rewrite Hi. exact eq_refl.
  - unfold get_entity. rewrite A. exact eq_refl.
  - cbn [make_pub pe_last_total_mass] in M. congruence.
Qed.
Lemma flight_inside h gs m s l s' : undisturbed h s l s' -> gravity_only s gs -> / 1000000 < m ->
  forall i p v, aget (s_ents s) h = Some i -> e_total_mass i = Fin m -> o_pos (e_orient i) = vfin p -> e_vel i = vfin v ->
  exists i', aget (s_ents s') h = Some i' /\ e_total_mass i' = Fin m /\ e_vel i' = vfin (vadd v (vscale (vsum gs) (total_time l))) /\
    o_pos (e_orient i') = vfin (vadd (parabola p v (vsum gs) (total_time l)) (vscale (vsum gs) (total_square l / 2))).
Proof.
  induction 1 as [s|s ord d s1 l s' Ho Hd Hs (e & He & Ha) Hn Hl U IH]; intros G Hm i p v Hi Mi Po Ve.
  - exists i. split; [exact Hi|]. split; [exact Mi|]. unfold total_time, total_square, parabola. cbn [map rsum fold_right]. rewrite Po, Ve. set (a := vsum gs). clear. split; f_equal; destruct a, v, p; apply vext; vunfold; field.
  - assert (Aw : e_asleep i = false). { unfold get_entity in He. rewrite Hi in He. apply some_inj in He. subst e. exact Ha. }
    destruct (step_flight ord s d s1 h i gs m p v Ho Hs Hd G Hi Mi Hm Po Ve Aw Hn Hl) as (i1 & A & B & C & D).
    destruct (IH (gravity_stays _ _ _ _ _ Hs (long_enough d Hd) G) Hm i1 _ _ A B D C) as (i' & A' & B' & C' & D').
    exists i'. split; [exact A'|]. split; [exact B'|]. rewrite C', D'. unfold total_time, total_square, parabola. cbn [map rsum fold_right snd]. unfold rsum. set (a := vsum gs). set (T := fold_right _ _ (map _ l)). set (K := fold_right _ _ (map _ l)).
    generalize T K. clear. intros T K. split; f_equal; destruct a, v, p; apply vext; vunfold; field.
Qed.
Lemma flight h gs m s l s' e p v : undisturbed h s l s' -> gravity_only s gs ->
  get_entity s h = Some e -> pe_last_total_mass e = Fin m -> / 1000000 < m -> pe_pos e = vfin p -> pe_vel e = vfin v ->
  exists e', get_entity s' h = Some e' /\ pe_vel e' = vfin (vadd v (vscale (vsum gs) (total_time l))) /\
    pe_pos e' = vfin (vadd (parabola p v (vsum gs) (total_time l)) (vscale (vsum gs) (total_square l / 2))).
Proof.
  intros U G He Mi Hm Po Ve. unfold get_entity in He. destruct (aget (s_ents s) h) as [i|] eqn:Hi; [|discriminate He]. apply some_inj in He. subst e.
  destruct (flight_inside h gs m s l s' U G Hm i p v Hi Mi Po Ve) as (i' & A & _ & C & D). exists (make_pub i'). split; [unfold get_entity; rewrite A; exact eq_refl|]. split; [exact C|exact D].
Qed.
(** ** How far off *)
Lemma sums_bounded D l : Forall (fun x : set_order * R => 0 <= snd x <= D) l -> 0 <= total_square l <= D * total_time l.
Proof.
  unfold total_square, total_time, rsum. induction 1 as [|x l H F IH]; cbn [map fold_right]; [lra|]. revert IH. generalize (fold_right Rplus 0 (map (fun x : set_order * R => snd x * snd x) l)), (fold_right Rplus 0 (map (fun x : set_order * R => snd x) l)).
  intros a b IH. nra.
Qed.
Lemma flight_error h gs m s l s' e p v D : undisturbed h s l s' -> gravity_only s gs ->
  get_entity s h = Some e -> pe_last_total_mass e = Fin m -> / 1000000 < m -> pe_pos e = vfin p -> pe_vel e = vfin v ->
  Forall (fun x => 0 <= snd x <= D) l ->
  exists e' p', get_entity s' h = Some e' /\ pe_pos e' = vfin p' /\
    vlen (vsub p' (parabola p v (vsum gs) (total_time l))) <= vlen (vsum gs) * (D * total_time l) / 2.
Proof.
  intros U G He Mi Hm Po Ve F. destruct (flight _ _ _ _ _ _ _ _ _ U G He Mi Hm Po Ve) as (e' & A & _ & C). exists e', (vadd (parabola p v (vsum gs) (total_time l)) (vscale (vsum gs) (total_square l / 2))). split; [exact A|]. split; [exact C|].
  pose proof (sums_bounded D l F) as (S0 & S1). set (a := vsum gs). set (q := parabola _ _ _ _). revert S0 S1. generalize (total_square l), (total_time l). intros K T S0 S1. clearbody a q. clear - S0 S1.
  assert (E : vsub (vadd q (vscale a (K / 2))) q = vscale a (K / 2)) by (destruct a, q; apply vext; vunfold; ring). rewrite E.
  assert (E2 : vlen (vscale a (K / 2)) = vlen a * (K / 2)).
  { unfold vlen. replace (vdot (vscale a (K / 2)) (vscale a (K / 2))) with (vdot a a * (K / 2) ^ 2) by (destruct a; vunfold; ring). rewrite sqrt_mult_alt by (destruct a; vunfold; nra). f_equal. rewrite <- Rsqr_pow2. apply sqrt_Rsqr. lra. }
  rewrite E2. assert (P : 0 <= vlen a) by apply sqrt_pos. nra.
Qed.
Lemma flight_energy h gs m s l s' e p v : undisturbed h s l s' -> gravity_only s gs ->
  get_entity s h = Some e -> pe_last_total_mass e = Fin m -> / 1000000 < m -> pe_pos e = vfin p -> pe_vel e = vfin v ->
  exists e' p' v', get_entity s' h = Some e' /\ pe_pos e' = vfin p' /\ pe_vel e' = vfin v' /\
    fall_energy p' v' (vsum gs) = fall_energy p v (vsum gs) - vdot (vsum gs) (vsum gs) * total_square l / 2.
Proof.
  intros U G He Mi Hm Po Ve. destruct (flight _ _ _ _ _ _ _ _ _ U G He Mi Hm Po Ve) as (e' & A & B & C). eexists e', _, _. split; [exact A|]. split; [exact C|]. split; [exact B|].
  set (a := vsum gs). generalize (total_square l), (total_time l). clearbody a. clear. intros K T. unfold fall_energy, parabola. destruct a, p, v. vunfold. field.
Qed.
