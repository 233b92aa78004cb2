(** * BalanceEx: examples for C76: two entities that pull each other, in exact arithmetic, and with a damper between them, in f32 *)
From Coq Require Import ZArith Reals List Bool Arith Lra Lia.
Import ListNotations.
From Verif Require Import Num Vec Res Arena RangeM Orient Colliders Collide EntityM SystemM OrderP Spec Examples PathSpec PhysSpec TraceSpec ForceSpec
  ResP ArenaP FrameP ArithP RangeP RealSpec RealV PhysP Phys3P Phys4P ShapeP Geom4P RealEx TwoEx MomentumP ForceP BalanceP.

(** ** A generator that pulls the first two entities together *)
Section Pull.
  Context {T : Type} {N : Num T}.
  (** It pulls the first two entities towards each other with a force of one, and can be asked [n] times. *)
  Fixpoint pull (n : nat) : generator T :=
    GenCustom (fun dt w h => match n with
                             | O => Panic
                             | S n' => rbind (unwrap (w_entity w h)) (fun e =>
                                 Ok (mkF (if heqb h (hd 0) then mkV n1 n0 n0 else if heqb h (hd 1) then mkV (n_neg n1) n0 n0 else vzero) (pe_pos e), pull n'))
                             end).
  Lemma pull_becomes n g : becomes (pull n) g -> exists n', g = pull n'.
  Proof.
    intros B. remember (pull n) as g0 eqn:E. induction B as [g|g g1 g2 dt w h f B IH H]; [eauto|].
    destruct (IH E) as (n' & ->). destruct n' as [|n']; [discriminate|]. simpl in H. destruct (w_entity w h); [|discriminate]. simpl in H. injection H as _ <-. eauto.
  Qed.
End Pull.
Local Open Scope R_scope.
Definition pullF (gh h : handle) : V := if heqb h (hd 0) then mkV 1 0 0 else if heqb h (hd 1) then mkV (-1) 0 0 else mkV 0 0 0.
Definition pair_state : system ER :=
  s_set_gens (s_set_ents system_new (two (puck_inside (mkV 0 0 0) (mkV 0 1 0)) (puck_inside (mkV 3 0 0) (mkV 0 0 2)))) (one (pull 4)).
Lemma pair_pushable e : e_total_mass e = Fin 1 -> pushable (T := ER) e = true.
Proof. intros E. unfold pushable. rewrite E. rewrite eps_fin. cbn [n_isfin EReal er_isfin andb]. change (@n_lt ER EReal) with er_lt. apply er_lt_fin. lra. Qed.
Lemma sleep_one_ok dt et tt ents dbg i e : aget ents (i_h i) = Some e -> i_nbrs i = [] ->
  exists e' l, sleep_one (T := ER) dt et tt (ents, dbg) i = Ok (aset ents (i_h i) e', l).
Proof.
  intros He Hn. unfold sleep_one. rewrite He. cbn [unwrap rbind]. destruct (sleep_decision dt et tt (i_nbrs i) e) as [e' b]. rewrite Hn. destruct b; do 2 eexists; exact eq_refl.
Qed.
Lemma pair_steps : exists s', step in_order pair_state (Fin (1 / 2)) = Ok s' /\ s_records s' = [].
Proof.
  unfold step. rewrite not_tiny by lra. cbv zeta.
  set (s0 := mkS _ _ _ _ [] _ _ []).
  change (ahandles (s_gens s0)) with [hd 0]. change (ahandles (s_ents s0)) with [hd 0; hd 1]. cbn [rfold].
  unfold integrate_one at 1. change (get_entity s0 (hd 0)) with (Some (make_pub (puck_inside (mkV 0 0 0) (mkV 0 1 0)))). cbn [unwrap rbind].
  assert (P : forall p v, n_isfin (pe_last_total_mass (make_pub (puck_inside p v))) && n_lt EPSILON (pe_last_total_mass (make_pub (puck_inside p v))) = true).
  { intros p v. exact (pair_pushable (puck_inside p v) eq_refl). }
  rewrite P.
  match goal with |- context [sum_forces ?a ?b ?c ?d ?e] => assert (S1 : exists a1 t1, sum_forces a b c d e = Ok (s_set_gens s0 (one (pull 3)), a1, t1)) by (do 2 eexists; exact eq_refl) end.
  destruct S1 as (a1 & t1 & S1). rewrite S1. clear S1. cbn [rbind].
  change (aget (s_ents (s_set_gens s0 (one (pull 3)))) (hd 0)) with (Some (puck_inside (mkV 0 0 0) (mkV 0 1 0))). cbn [unwrap rbind].
  match goal with |- context [e_set_vels ?e ?v ?w] => set (v1 := v); set (w1 := w) end.
  unfold integrate_one at 1. cbn [app].
  match goal with |- context [get_entity ?s (hd 1)] => change (get_entity s (hd 1)) with (Some (make_pub (puck_inside (mkV 3 0 0) (mkV 0 0 2)))); set (s1 := s) end. cbn [unwrap rbind].
  rewrite P.
  match goal with |- context [sum_forces ?a ?b ?c ?d ?e] => assert (S1 : exists a1 t1, sum_forces a b c d e = Ok (s_set_gens s1 (one (pull 2)), a1, t1)) by (do 2 eexists; exact eq_refl) end.
  destruct S1 as (a2 & t2 & S1). rewrite S1. clear S1. cbn [rbind].
  change (aget (s_ents (s_set_gens s1 (one (pull 2)))) (hd 1)) with (Some (puck_inside (mkV 3 0 0) (mkV 0 0 2))). cbn [unwrap rbind].
  match goal with |- context [e_set_vels (puck_inside (mkV 3 0 0) (mkV 0 0 2)) ?v ?w] => set (v2 := v); set (w2 := w) end. cbn [app].
  match goal with |- context [iterations ?a ?b ?c ?d ?e] => assert (I : exists o1 o2 j1 j2 q1 q2 q3 q4 r, iterations a b c d e =
     Ok (mkL (two (e_set_orient (e_set_vels (puck_inside (mkV 0 0 0) (mkV 0 1 0)) v1 w1) o1) (e_set_orient (e_set_vels (puck_inside (mkV 3 0 0) (mkV 0 0 2)) v2 w2) o2))
        [mkInfo (hd 0) j1 j2 []; mkInfo (hd 1) q1 q2 []] q3 q4 [] r)) by (do 9 eexists; exact eq_refl) end.
  destruct I as (o1 & o2 & j1 & j2 & q1 & q2 & q3 & q4 & r & I). rewrite I. clear I. cbn [rbind l_ents l_infos l_records l_debug rfold].
  match goal with |- context [sleep_one ?a ?b ?c (?d, ?e) ?i] => destruct (sleep_one_ok a b c d e i _ eq_refl eq_refl) as (x & l & X); rewrite X; clear X end. cbn [rbind i_h].
  match goal with |- context [sleep_one ?a ?b ?c (?d, ?e) ?i] => destruct (sleep_one_ok a b c d e i (e_set_orient (e_set_vels (puck_inside (mkV 3 0 0) (mkV 0 0 2)) v2 w2) o2) eq_refl eq_refl) as (y & l' & X); rewrite X; clear X end. cbn [rbind i_h].
  eexists. split; exact eq_refl.
Qed.
Definition pair_vel (h : handle) : V := if heqb h (hd 0) then mkV 0 1 0 else mkV 0 0 2.
Lemma pair_example : exists s', step in_order pair_state (Fin (1 / 2)) = Ok s' /\ n_lt (n_abs (Fin (1 / 2))) EPSILON = false /\ s_records s' = [] /\
  (forall h e, get_entity pair_state h = Some e -> pe_last_total_mass e = Fin 1 /\ 1 / 1000000 < 1 /\ pe_vel e = vfin (pair_vel h) /\ pe_asleep e = false) /\
  forces_of_place pair_state (Fin (1 / 2)) (fun gh h => vfin (pullF gh h)) /\
  vsum (map (fun gh => vsum (map (pullF gh) (ahandles (s_ents pair_state)))) (ahandles (s_gens pair_state))) = mkV 0 0 0 /\
  ahandles (s_ents pair_state) = [hd 0; hd 1].
Proof.
  destruct pair_steps as (s' & H & Hr). exists s'. split; [exact H|]. split; [apply not_tiny; lra|]. split; [exact Hr|].
  split; [|split; [|split; [|exact eq_refl]]].
  - intros h e He. assert (I : In h [hd 0; hd 1]).
    { change (In h (ahandles (s_ents pair_state))). apply ahandles_in. unfold get_entity in He. destruct (aget _ h); [discriminate|discriminate]. }
    destruct I as [<-|[<-|[]]]; injection He as <-; (split; [exact eq_refl|split; [lra|split; exact eq_refl]]).
  - intros gh g g1 w h f g2 G B Hp _ Hf. assert (Eg : g = pull 4).
    { assert (I : In gh [hd 0]) by (change (In gh (ahandles (s_gens pair_state))); apply ahandles_in; unfold get_generator in G; congruence).
      destruct I as [<-|[]]. injection G as <-. exact eq_refl. }
    subst g. destruct (pull_becomes _ _ B) as (n & ->). destruct n as [|n]; [discriminate|]. cbn [pull make_force] in Hf. destruct (w_entity w h) as [e|]; [|discriminate].
    cbn [unwrap rbind] in Hf. apply ok_inj in Hf. assert (E := f_equal (fun p => f_force (fst p)) Hf). cbn [fst f_force] in E. rewrite <- E. unfold pullF.
    destruct (heqb h (hd 0)); [|destruct (heqb h (hd 1))]; unfold vfin, vzero; cbn [vx vy vz]; rewrite ?fin_0, ?fin_1, ?fin_neg; exact eq_refl.
  - change (ahandles (s_ents pair_state)) with [hd 0; hd 1]. change (ahandles (s_gens pair_state)) with [hd 0]. cbn [map]. unfold vsum, pullF. cbn. apply vext; vunfold; ring.
Qed.

(** ** A damper between two entities *)
Section Damper.
  Context (L : Libm).
  #[local] Instance N4 : Num f32 := F32 L.
  Definition vel_in (w : view f32) (h : handle) : Vec3 f32 := match w_entity w h with Some e => pe_vel e | None => vzero end.
  (** What it pulls the first entity with; the second gets the opposite. *)
  Definition drag (w : view f32) : Vec3 f32 := vsub (vel_in w (hd 1)) (vel_in w (hd 0)).
  Fixpoint damper (n : nat) : generator f32 :=
    GenCustom (fun dt w h => match n with
                             | O => Panic
                             | S n' => rbind (unwrap (w_entity w h)) (fun e =>
                                 Ok (mkF (if heqb h (hd 0) then drag w else if heqb h (hd 1) then vneg (drag w) else vzero) (pe_pos e), damper n'))
                             end).
  Definition hist_damper : list (call f32) := calls [
    OAddEntity (ent (vec 0 0 0) (vec 1 0 0) n1); OAddEntity (ent (vec 5 0 0) (vec 0 0 0) n1); OAddGenerator (damper 9) ].
  Lemma damper_opposite n dt w f g f' g' : make_force (damper n) dt w (hd 0) = Ok (f, g) -> make_force (damper n) dt w (hd 1) = Ok (f', g') ->
    f_force f' = vneg (f_force f).
  Proof.
    destruct n as [|n]; [discriminate|]. simpl. destruct (w_entity w (hd 0)) as [e|]; [|discriminate]. destruct (w_entity w (hd 1)) as [e'|]; [|discriminate].
    simpl. intros A B. injection A as <- _. injection B as <- _. reflexivity.
  Qed.
  Definition speeds (s : system f32) (b : bool) : bool :=
    some_with (get_entity s (hd 0)) (fun e0 => some_with (get_entity s (hd 1)) (fun e1 =>
      n_eq (pe_last_total_mass e0) n1 && n_eq (pe_last_total_mass e1) n1 && n_eq (n_add (vx (pe_vel e0)) (vx (pe_vel e1))) (if b then n1 else n0))).
  Lemma damper_slows : exists s s', reachable s /\ get_generator s (hd 0) = Some (damper 9) /\ ahandles (s_gens s) = [hd 0] /\ ahandles (s_ents s) = [hd 0; hd 1] /\
    step in_order s n1 = Ok s' /\ s_records s' = [] /\ speeds s true = true /\ speeds s' false = true.
  Proof.
    exists (state_after L hist_damper).
    assert (H : ok_with (step in_order (state_after L hist_damper) n1) (fun s' => Nat.eqb (length (s_records s')) 0 && speeds s' false) = true) by (vm_compute; reflexivity).
    destruct (step in_order (state_after L hist_damper) n1) as [s'| |]; [|discriminate|discriminate]. simpl in H. apply andb_true_iff in H. destruct H as (H1 & H2).
    exists s'. split; [apply state_reachable; [apply calls_ok; repeat constructor|vm_compute; reflexivity]|].
    split; [reflexivity|]. split; [reflexivity|]. split; [reflexivity|]. split; [reflexivity|].
    split; [destruct (s_records s'); [reflexivity|discriminate]|]. split; [vm_compute; reflexivity|exact H2].
  Qed.
End Damper.
