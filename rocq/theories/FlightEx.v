(** * FlightEx: the ball of the yard in free flight; a light body that stops falling *)
From Coq Require Import ZArith Reals Lra Psatz Bool List Lia.
Import ListNotations.
From Verif Require Import Num Vec Res Arena RangeM Orient Colliders Collide EntityM SystemM OrderP Spec PanicSpec Examples ResP ArenaP FrameP StoreP Store2P ExecP StepP Step2P Step3P NoPanicP RangeP
  RealSpec RealV OrientP Orient2P GeomP ShapeP Geom4P Geom6P PhysSpec PhysP Phys2P Phys3P Phys4P Mass3P Mass4P TraceSpec TraceP PassP EnergyP RealEx TwoEx FloorSpec FloorP FloorEx FlightSpec FlightP.
Local Open Scope R_scope.

(** An entity that was not low on energy before does not fall asleep if the time it must be so is more than 0. *)
Lemma fresh_awake ord (s s' : system ER) d h e : good_order ord -> step ord s (Fin d) = Ok s' -> n_lt (n_abs (Fin d)) EPSILON = false ->
  aget (s_ents s) h = Some e -> e_asleep e = false -> e_falling e = false -> n_lt (e_falling_time e) (s_time_thr s) = true -> exists e', get_entity s' h = Some e' /\ pe_asleep e' = false.
Proof.
  intros Ho Hs Hd He Ha Hf Ht. destruct (step_entity _ _ _ _ Ho Hs Hd) as (Rs & SE & _). destruct (SE h e He) as (e1 & e2 & e' & X). 
  destruct (es_forces _ _ _ _ _ _ _ _ X) as (fs & _ & E1). destruct (es_falling _ _ _ _ _ _ _ _ X) as (E3 & E2). destruct (es_decided _ _ _ _ _ _ _ _ X) as (ns & (ns' & Rn) & Di).
  exists (make_pub e'). split; [unfold get_entity; rewrite (es_after _ _ _ _ _ _ _ _ X); exact eq_refl|].
  assert (A2 : e_asleep e2 = false). { destruct (Rs h) as [Q|Q]; [apply (es_roused _ _ _ _ _ _ _ _ X Q)|]. destruct (es_sleeping _ _ _ _ _ _ _ _ X Q) as (Z & _). congruence. }
  assert (F2 : e_falling e2 = false) by (rewrite E3, E1; exact Hf). assert (T2 : e_falling_time e2 = e_falling_time e) by (rewrite E2, E1; exact eq_refl).
  cbn [make_pub pe_asleep]. rewrite Rn. unfold sleep_decision. rewrite A2, F2, T2, Ht. destruct (n_lt (s_energy_thr s) _); exact A2.
Qed.

(** A step in which the ball stays over the floor reports nothing. *)
Lemma high_flight s s' b e a h v d h' v' : ball_moves s s' b e a h v d h' v' -> 0 <= d -> 0 < h -> v + a * d < 0 -> 0 < h + (v + a * d) * d -> s_records s' = [].
Proof.
  intros [(H & _)|[(H & _)|(_ & t & Ht & Dn & Lo & _)]] Hd Hh Hv Hp; [exact H|exact H|]. exfalso. assert ((v + a * d) * d <= (v + a * d) * t) by nra. lra.
Qed.
Definition two_quarters : list (set_order * R) := [(in_order, 1 / 4); (in_order, 1 / 4)].
Lemma yard_gravity : gravity_only yard [pull].
Proof. constructor; [exact eq_refl|constructor]. Qed.
Lemma pull_up : vdot pull up = -10.
Proof. unfold pull, up. vunfold. ring. Qed.
Lemma yard_flight : exists s', undisturbed (hd 0) yard two_quarters s'.
Proof.
  assert (Hq : 1 / 1000000 <= Rabs (1 / 4)) by (rewrite Rabs_pos_eq by lra; lra). pose proof in_order_good as Ho.
  destruct (court_careful _ _ _ _ _ _ _ _ in_order (1 / 4) yard_court yard_reachable Ho) as (s1 & E1 & R1).
  destruct (ball_step yard _ _ _ _ _ _ _ _ _ in_order (1 / 4) s1 yard_court yard_over Ho ltac:(lra) E1) as (x & h1 & v1 & _ & C1 & B1 & M1).
  rewrite pull_up in M1. pose proof (high_flight _ _ _ _ _ _ _ _ _ _ M1 ltac:(lra) ltac:(lra) ltac:(lra) ltac:(lra)) as N1.
  assert (M : h1 = 4 + (0 + -10 * (1 / 4)) * (1 / 4) /\ v1 = 0 + -10 * (1 / 4)).
  { destruct M1 as [(_ & (y & Y1 & Y2) & _)|[(_ & F1 & F2 & _)|(L & _)]]; [|split; [exact F1|exact F2]|rewrite N1 in L; discriminate L]. exfalso.
    assert (Y : get_entity yard (hd 0) = Some (make_pub (puck_linked ball_at ball_vel (hd 0)))) by exact eq_refl. rewrite Y in Y1. apply some_inj in Y1. subst y. discriminate Y2. }
  destruct M as (-> & ->). clear M1.
  destruct (court_careful _ _ _ _ _ _ _ _ in_order (1 / 4) C1 R1 Ho) as (s2 & E2 & R2).
  destruct (ball_step s1 _ _ _ _ _ _ _ _ _ in_order (1 / 4) s2 C1 B1 Ho ltac:(lra) E2) as (y & h2 & v2 & _ & _ & _ & M2).
  rewrite pull_up in M2. pose proof (high_flight _ _ _ _ _ _ _ _ _ _ M2 ltac:(lra) ltac:(lra) ltac:(lra) ltac:(lra)) as N2.
  assert (It : forall t, court t (hd 0) (hd 1) origin 1 origin up pull -> 0%nat <> s_iteration_max t) by (intros t C; pose proof (ct_iterations _ _ _ _ _ _ _ _ C); lia).
  assert (Nn : forall h : handle, ~ named (T:=ER) [] h) by (intros h (z & [] & _)).
  exists s2. eapply un_step; [exact Ho|exact Hq|exact E1| |rewrite N1; apply Nn|rewrite N1; apply It, yard_court|].
  { exists (make_pub (puck_linked ball_at ball_vel (hd 0))). split; exact eq_refl. }
  eapply un_step; [exact Ho|exact Hq|exact E2| |rewrite N2; apply Nn|rewrite N2; apply It, C1|constructor].
  eapply (fresh_awake in_order yard s1 (1 / 4) (hd 0) (puck_linked ball_at ball_vel (hd 0)) Ho E1 (long_enough _ Hq)); [exact eq_refl|exact eq_refl|exact eq_refl|].
  cbn [puck_linked e_falling_time]. change (@n_lt ER EReal) with er_lt. change (s_time_thr yard) with (@n_frac ER EReal 1 10). apply er_lt_fin. lra.
Qed.

(** ** Sleepers that are alone *)
Section Alone.
  Context {T : Type} {N : Num T} {O : Ord N}.
  Lemma alone_unstruck ord (s s' : system T) dt h : good_order ord -> step ord s dt = Ok s' -> n_lt (n_abs dt) EPSILON = false ->
    (forall k, get_entity s k <> None -> k = h) -> s_records s' = [].
  Proof.
    intros Ho Hs Hd Al. destruct (s_records s') as [|r l] eqn:E; [reflexivity|exfalso].
    destruct (step_entity _ _ _ _ Ho Hs Hd) as (_ & _ & _ & F & _). rewrite E in F. apply Forall_inv in F. destruct F as (D & e1 & e2 & _ & _ & _ & _ & A1 & A2 & _).
    apply D. rewrite (Al (cr_first r)), (Al (cr_second r)); [reflexivity| |]; unfold get_entity; [rewrite A2|rewrite A1]; discriminate.
  Qed.
  Lemma alone_still h (l : list (set_order * T)) : forall (s s' : system T) ans e, Forall (fun x => good_order (fst x)) l -> run (map (fun x => (fst x, OStep (snd x))) l) s = Ok (s', ans) ->
    (forall k, get_entity s k <> None -> k = h) -> get_entity s h = Some e -> pe_asleep e = true ->
    exists e', get_entity s' h = Some e' /\ pe_pos e' = pe_pos e /\ pe_asleep e' = true.
  Proof.
    induction l as [|(ord & dt) l IH]; intros s s' ans e F Ru Al He Ha.
    - cbn [map run] in Ru. apply ok_inj in Ru. injection Ru as <- _. exists e. auto.
    - apply Forall_cons_iff in F. destruct F as (Ho & F). cbn [map run fst snd exec] in Ru, Ho. destruct (step ord s dt) as [s1| |] eqn:Hs; [|discriminate Ru|discriminate Ru]. cbn [rbind] in Ru.
      destruct (run _ s1) as [(s2 & a2)| |] eqn:Ru1; [|discriminate Ru|discriminate Ru]. apply ok_inj in Ru. injection Ru as <- _.
      assert (Al1 : forall k, get_entity s1 k <> None -> k = h).
      { intros k Hk. apply Al. pose proof (step_frame_pub _ _ _ _ Hs) as (_ & _ & F3 & _). cbn [alive] in F3. now apply F3. }
      destruct (n_lt (n_abs dt) EPSILON) eqn:Hd.
      + rewrite step_tiny in Hs by exact Hd. apply ok_inj in Hs. subst s1. exact (IH s s2 a2 e F Ru1 Al1 He Ha).
      + pose proof (alone_unstruck _ _ _ _ _ Ho Hs Hd Al) as Nr. unfold get_entity in He. destruct (aget (s_ents s) h) as [i|] eqn:Hi; [|discriminate He]. cbn [option_map] in He. injection He as <-.
        destruct (step_still _ _ _ _ Ho Hs Hd h i Hi Ha) as (i1 & A & B & _ & _ & C & _).
        { intros (x & ((r & Hr & _) & _) & _). rewrite Nr in Hr. destruct Hr. }
        assert (G1 : get_entity s1 h = Some (make_pub i1)) by (unfold get_entity; rewrite A; reflexivity).
        destruct (IH s1 s2 a2 (make_pub i1) F Ru1 Al1 G1 C) as (e' & K1 & K2 & K3). exists e'. split; [exact K1|]. split; [|exact K3].
        rewrite K2. cbn [make_pub pe_pos]. now rewrite B.
  Qed.
End Alone.

(** ** A body of one gram dropped in empty space *)
Section Hover.
  Context (L : Libm).
  #[local] Instance N : Num f32 := F32 L.
  (** One entity without colliders, gravity of 10 downwards, [n] steps of a sixtieth. *)
  Definition hist_hover (n : nat) : list (call f32) :=
    calls ([OAddEntity (ent (vec 0 5 0) vzero (n_frac 1 1000)); OAddGenerator (GenGravity (vec 0 (-10) 0))] ++ repeat (OStep (n_frac 1 60)) n).
  Definition hover (n : nat) : system f32 := state_after L (hist_hover n).
  Definition next (s : system f32) : system f32 := match step in_order s (n_frac 1 60) with Ok s' => s' | _ => s end.
  (** It moves downwards at more than 1 and is awake; after the seventh step it is asleep. *)
  Definition drops (s : system f32) : bool := some_with (get_entity s (hd 0)) (fun e => n_lt (vy (pe_vel e)) (n_frac (-99) 100) && negb (pe_asleep e)).
  Definition dozes (s : system f32) : bool := some_with (get_entity s (hd 0)) (fun e => n_lt (n_frac 4 1) (vy (pe_pos e)) && n_lt (vy (pe_vel e)) (n_frac (-115) 100) && pe_asleep e && n_eq (pe_last_total_mass e) (n_frac 1 1000)).
End Hover.
Lemma hover_ok L n (N := F32 L) : Forall call_ok (hist_hover L n).
Proof.
  apply calls_ok. apply Forall_forall. intros o Ho. apply in_app_or in Ho. destruct Ho as [[<-|[<-|[]]]|Ho]; [exact Logic.I|exact Logic.I|]. apply repeat_spec in Ho. subst o. exact Logic.I.
Qed.
Definition sole (s : system f32) : bool := match ahandles (s_ents s) with [h] => heqb h (hd 0) | _ => false end.
Section Hovers.
  Context (L : Libm) (s6 s7 : system f32).
  #[local] Instance N2 : Num f32 := F32 L.
  Lemma sole_alone : sole s7 = true -> forall k, get_entity s7 k <> None -> k = hd 0.
  Proof.
    intros H k Hk. unfold sole in H. assert (I : In k (ahandles (s_ents s7))). { apply ahandles_in. intros Z. apply Hk. unfold get_entity. now rewrite Z. }
    destruct (ahandles (s_ents s7)) as [|x [|y l]]; [discriminate H| |discriminate H]. destruct (heqb_spec x (hd 0)) as [Hx|Hx]; [subst x|discriminate H]. destruct I as [<-|[]]. reflexivity.
  Qed.
  Lemma hangs : drops L s6 = true -> dozes L s7 = true -> sole s7 = true ->
    exists e6 e7, (forall k, get_entity s7 k <> None -> k = hd 0) /\
      get_entity s6 (hd 0) = Some e6 /\ n_lt (vy (pe_vel e6)) (n_frac (-99) 100) = true /\ pe_asleep e6 = false /\
      get_entity s7 (hd 0) = Some e7 /\ n_lt (vy (pe_vel e7)) (n_frac (-115) 100) = true /\ n_eq (pe_last_total_mass e7) (n_frac 1 1000) = true /\
      forall l s' ans, Forall (fun x => good_order (fst x)) l -> run (map (fun x => (fst x, OStep (snd x))) l) s7 = Ok (s', ans) ->
        exists e', get_entity s' (hd 0) = Some e' /\ pe_pos e' = pe_pos e7.
  Proof.
    intros D Z S. unfold drops in D. apply some_with_ex in D. destruct D as (e6 & G6 & D). apply andb_prop in D. destruct D as (D1 & D2).
    unfold dozes in Z. apply some_with_ex in Z. destruct Z as (e7 & G7 & Z). apply andb_prop in Z. destruct Z as (Z & Z4). apply andb_prop in Z. destruct Z as (Z & Z3). apply andb_prop in Z. destruct Z as (Z1 & Z2).
    pose proof (sole_alone S) as Al. exists e6, e7. split; [exact Al|]. split; [exact G6|]. split; [exact D1|]. split; [now destruct (pe_asleep e6)|]. split; [exact G7|]. split; [exact Z2|]. split; [exact Z4|].
    intros l s' ans F Ru. destruct (alone_still (hd 0) l _ _ _ _ F Ru Al G7 Z3) as (e' & K1 & K2 & _). exists e'. split; [exact K1|exact K2].
  Qed.
  Definition pulls (s : system f32) : bool := match get_generator s (hd 0) with Some (GenGravity g) => n_eq (vy g) (n_frac (-10) 1) | _ => false end.
  Lemma pulls_down s : pulls s = true -> exists gh g, get_generator s gh = Some (GenGravity g) /\ n_eq (vy g) (n_frac (-10) 1) = true.
  Proof. unfold pulls. destruct (get_generator s (hd 0)) as [[g|]|] eqn:E; try discriminate. intros H. exists (hd 0), g. auto. Qed.
  Lemma next_step : (match step in_order s6 (n_frac 1 60) with Ok _ => true | _ => false end) = true -> step in_order s6 (n_frac 1 60) = Ok (next L s6).
  Proof. intros K. unfold next. change (N L) with N2. destruct (step in_order s6 (n_frac 1 60)) as [s'| |]; [reflexivity|discriminate K|discriminate K]. Qed.
End Hovers.
Lemma hovers L (N := F32 L) : exists (s6 s7 : system f32) h e6 e7, reachable s6 /\ step in_order s6 (n_frac 1 60) = Ok s7 /\
  (exists gh g, get_generator s7 gh = Some (GenGravity g) /\ n_eq (vy g) (n_frac (-10) 1) = true) /\ (forall k, get_entity s7 k <> None -> k = h) /\
  get_entity s6 h = Some e6 /\ n_lt (vy (pe_vel e6)) (n_frac (-99) 100) = true /\ pe_asleep e6 = false /\
  get_entity s7 h = Some e7 /\ n_lt (vy (pe_vel e7)) (n_frac (-115) 100) = true /\ n_eq (pe_last_total_mass e7) (n_frac 1 1000) = true /\
  forall l s' ans, Forall (fun x => good_order (fst x)) l -> run (map (fun x => (fst x, OStep (snd x))) l) s7 = Ok (s', ans) ->
    exists e', get_entity s' h = Some e' /\ pe_pos e' = pe_pos e7.
Proof.
  assert (R6 : reachable (hover L 6)) by (apply (state_reachable L (hist_hover L 6)); [apply hover_ok|vm_compute; reflexivity]).
  assert (S7 : step in_order (hover L 6) (n_frac 1 60) = Ok (next L (hover L 6))) by (apply next_step; vm_compute; reflexivity).
  pose proof (pulls_down L (next L (hover L 6)) ltac:(vm_compute; reflexivity)) as G7.
  destruct (hangs L (hover L 6) (next L (hover L 6)) ltac:(vm_compute; reflexivity) ltac:(vm_compute; reflexivity) ltac:(vm_compute; reflexivity)) as (e6 & e7 & H).
  revert R6 S7 G7 H. generalize (hover L 6). intros s6 R6 S7 G7 H. exists s6, (next L s6), (hd 0), e6, e7. split; [exact R6|]. split; [exact S7|]. split; [exact G7|exact H].
Qed.
