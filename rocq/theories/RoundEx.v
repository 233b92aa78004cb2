(** * RoundEx: coasting in binary32 (C85): a body far away that does not move *)
From Coq Require Import ZArith Reals Bool Lra Lia List SpecFloat.
Import ListNotations.
From Flocq Require Import Core IEEE754.BinarySingleNaN.
From Verif Require Import Num Vec Res Arena Orient EntityM SystemM OrderP ArithP Spec PanicSpec Examples ResP ArenaP FrameP StoreP Store2P ExecP StepP Step2P Step3P NoPanicP RealSpec RealV AlgebraSpec AlgebraP RoundSpec RoundP FlightEx.
Local Open Scope R_scope.

Lemma same_float (x y : f32) : B2SF x = B2SF y -> x = y.
Proof. apply B2SF_inj. Qed.
Section Stuck.
  Context {T : Type} {N : Num T} {O : Ord N} {O2 : Ord2 O}.
  (** Nothing about it changes in a step of [dt]. *)
  Record fixed (dt thr : T) (i : ientity T) : Prop := {
    fx_awake : e_asleep i = false;
    fx_vel : pushed_vel dt [] i = e_vel i;
    fx_spin : pushed_angvel dt [] i = e_angvel i;
    fx_pos : vadd (o_pos (e_orient i)) (vscale (e_vel i) dt) = o_pos (e_orient i);
    fx_rot : qmul (qfrom_scaled_axis (vscale (e_angvel i) dt)) (o_rot (e_orient i)) = o_rot (e_orient i);
    fx_energy : n_lt thr (get_total_energy i) = true }.
  Lemma fixed_step ord (s s' : system T) dt h i : good_order ord -> step ord s dt = Ok s' -> n_lt (n_abs dt) EPSILON = false ->
    (forall k, get_entity s k <> None -> k = h) -> ahandles (s_gens s) = [] -> s_iteration_max s <> 0%nat ->
    aget (s_ents s) h = Some i -> fixed dt (s_energy_thr s) i ->
    exists i', aget (s_ents s') h = Some i' /\ fixed dt (s_energy_thr s) i' /\ e_orient i' = e_orient i /\ e_vel i' = e_vel i.
  Proof.
    intros Ho Hs Hd Al Hg Hi He [A V W P Q E].
    pose proof (alone_unstruck _ _ _ _ _ Ho Hs Hd Al) as Nr.
    destruct (Step3P.step_free ord s dt s' Ho Hs Hd Hi Nr h i He) as (fs & i' & F & E' & K). rewrite A in K. destruct K as (fa & ft & a & ns & K).
    assert (fs = []) as ->. { destruct F as (i0 & _ & F). rewrite Hg in F. destruct (pushable i0); [inversion F; reflexivity|exact F]. }
    rewrite V, W, P, Q in K. assert (K' : i' = e_set_sleep (e_set_falling i fa ft) a ns). { rewrite K. destruct i as [[x y z] ? ? ? ? ? ? ? ? ? ?]. reflexivity. } clear K.
    assert (En : get_total_energy i' = get_total_energy i) by (rewrite K'; reflexivity).
    assert (Aw : a = false).
    { destruct (step_entity _ _ _ _ Ho Hs Hd) as (Rs & SE & _). destruct (SE h i He) as (e1 & e2 & e' & X).
      assert (e' = i') as -> by (pose proof (es_after _ _ _ _ _ _ _ _ X); congruence).
      destruct (es_decided _ _ _ _ _ _ _ _ X) as (ns' & (ms & Rn) & Di).
      assert (A2 : e_asleep e2 = false). { destruct (Rs h) as [Z|Z]; [apply (es_roused _ _ _ _ _ _ _ _ X Z)|]. destruct (es_sleeping _ _ _ _ _ _ _ _ X Z) as (Z' & _). congruence. }
      destruct (decision_awake dt (s_energy_thr s) (s_time_thr s) ns' e2 A2) as (_ & _ & _ & _ & D5).
      assert (E2 : get_total_energy i' = get_total_energy e2). { rewrite Rn. change (get_total_energy (e_set_sleep ?u ?v ?w)) with (get_total_energy u). exact D5. }
      assert (Z : e_asleep i' = false). { rewrite Rn. unfold sleep_decision. rewrite A2, <- E2, En, E. exact A2. }
      rewrite K' in Z. exact Z. }
    subst a. exists i'. split; [exact E'|]. rewrite K'. split; [|split; reflexivity]. constructor; [reflexivity|exact V|exact W|exact P|exact Q|exact E].
  Qed.
  (** The entity is alone in a system without generators. *)
  Record lonely (dt : T) (h : handle) (i : ientity T) (s : system T) : Prop := {
    ly_reach : reachable s;
    ly_touch : contacts_alive s;
    ly_alone : forall k, get_entity s k <> None -> k = h;
    ly_gens : ahandles (s_gens s) = [];
    ly_iter : s_iteration_max s <> 0%nat;
    ly_here : aget (s_ents s) h = Some i;
    ly_fixed : fixed dt (s_energy_thr s) i }.
  Lemma no_gens (s : system T) : ahandles (s_gens s) = [] -> gens_answer s.
  Proof. intros H gh g E. exfalso. unfold get_generator in E. assert (I : In gh (ahandles (s_gens s))) by (apply ahandles_in; congruence). now rewrite H in I. Qed.
  Lemma lonely_step dt h i s : n_lt (n_abs dt) EPSILON = false -> lonely dt h i s ->
    exists s' i', step in_order s dt = Ok s' /\ s_records s' = [] /\ lonely dt h i' s' /\ e_orient i' = e_orient i /\ e_vel i' = e_vel i.
  Proof.
    intros Hd [R C A G M E F]. assert (K : call_ok (in_order, OStep dt)) by (split; [apply in_order_good|exact Logic.I]).
    destruct (careful_returns in_order s (OStep dt) K R C (no_gens s G)) as (s' & a & X & C' & _).
    { intros m1 m2 (h1 & h2 & k1 & k2 & D & (e1 & E1 & _) & (e2 & E2 & _) & _). apply D. rewrite (A h1), (A h2); congruence. }
    assert (Hs : step in_order s dt = Ok s'). { cbn [exec] in X. destruct (step in_order s dt) as [s1| |]; [|discriminate|discriminate]. cbn [rbind] in X. congruence. }
    destruct (fixed_step in_order s s' dt h i in_order_good Hs Hd A G M E F) as (i' & E' & F' & O' & V').
    pose proof (Store2P.step_frame_pub _ _ _ _ Hs) as (_ & _ & Al & _ & Mx & Th & _).
    exists s', i'. split; [exact Hs|]. split; [exact (alone_unstruck _ _ _ _ _ in_order_good Hs Hd A)|]. split; [|split; [exact O'|exact V']]. constructor.
    - eapply follows_trans; [exact R|eapply follows_exec; eassumption].
    - exact C'.
    - intros k Hk. apply A. exact (proj1 (Al k) Hk).
    - apply FrameP.step_frame in Hs. destruct Hs as (_ & _ & (_ & Kg & _) & _). now rewrite Kg.
    - now rewrite Mx.
    - exact E'.
    - now rewrite Th.
  Qed.
  Lemma lonely_run dt h n : n_lt (n_abs dt) EPSILON = false -> forall s i, lonely dt h i s ->
    exists s' ans i', run (calls (repeat (OStep dt) n)) s = Ok (s', ans) /\ lonely dt h i' s' /\ e_orient i' = e_orient i /\ e_vel i' = e_vel i.
  Proof.
    intros Hd. induction n as [|n IH]; intros s i Hl; [exists s, [], i; auto|].
    destruct (lonely_step dt h i s Hd Hl) as (s1 & i1 & Hs & _ & L1 & O1 & V1). destruct (IH s1 i1 L1) as (s' & ans & i' & Ru & L' & O' & V').
    exists s', (AUnit :: ans), i'. split; [|split; [exact L'|split; congruence]]. unfold calls in *. cbn [repeat map run exec]. rewrite Hs. cbn [rbind]. now rewrite Ru.
  Qed.
End Stuck.

(** ** A body half a thousand kilometres away *)
Definition sfeqb (a b : spec_float) : bool := match a, b with
  | S754_zero s, S754_zero t => Bool.eqb s t
  | S754_infinity s, S754_infinity t => Bool.eqb s t
  | S754_nan, S754_nan => true
  | S754_finite s m e, S754_finite t n f => Bool.eqb s t && Pos.eqb m n && Z.eqb e f
  | _, _ => false end.
Lemma sfeqb_eq a b : sfeqb a b = true -> a = b.
Proof.
  destruct a, b; cbn; intros H; try discriminate; auto; try (apply Bool.eqb_prop in H; congruence).
  apply andb_prop in H. destruct H as (H & H3). apply andb_prop in H. destruct H as (H1 & H2).
  apply Bool.eqb_prop in H1. apply Pos.eqb_eq in H2. apply Z.eqb_eq in H3. congruence.
Qed.
Definition feqb (x y : f32) : bool := sfeqb (B2SF x) (B2SF y).
Lemma feqb_eq x y : feqb x y = true -> x = y.
Proof. intros H. apply same_float. now apply sfeqb_eq. Qed.
Definition veqb (a b : Vec3 f32) : bool := feqb (vx a) (vx b) && feqb (vy a) (vy b) && feqb (vz a) (vz b).
Lemma veqb_eq a b : veqb a b = true -> a = b.
Proof.
  destruct a as [a1 a2 a3], b as [b1 b2 b3]. unfold veqb. cbn [vx vy vz]. intros H. apply andb_prop in H. destruct H as (H & H3). apply andb_prop in H. destruct H as (H1 & H2).
  apply feqb_eq in H1, H2, H3. now subst.
Qed.
Definition qeqb (a b : Quat f32) : bool := feqb (qi a) (qi b) && feqb (qj a) (qj b) && feqb (qk a) (qk b) && feqb (qw a) (qw b).
Lemma qeqb_eq a b : qeqb a b = true -> a = b.
Proof.
  destruct a as [a1 a2 a3 a4], b as [b1 b2 b3 b4]. unfold qeqb. cbn [qi qj qk qw]. intros H. apply andb_prop in H. destruct H as (H & H4). apply andb_prop in H. destruct H as (H & H3). apply andb_prop in H. destruct H as (H1 & H2).
  apply feqb_eq in H1, H2, H3, H4. now subst.
Qed.
Definition fixedb {N : Num f32} (dt thr : f32) (i : ientity f32) : bool :=
  negb (e_asleep i) && (veqb (pushed_vel dt [] i) (e_vel i) && (veqb (pushed_angvel dt [] i) (e_angvel i) &&
  (veqb (vadd (o_pos (e_orient i)) (vscale (e_vel i) dt)) (o_pos (e_orient i)) &&
  (qeqb (qmul (qfrom_scaled_axis (vscale (e_angvel i) dt)) (o_rot (e_orient i))) (o_rot (e_orient i)) && n_lt thr (get_total_energy i))))).
Lemma fixedb_fixed {N : Num f32} dt thr i : fixedb dt thr i = true -> fixed dt thr i.
Proof.
  unfold fixedb. intros H. apply andb_prop in H. destruct H as (A & H). apply andb_prop in H. destruct H as (B & H). apply andb_prop in H. destruct H as (C & H).
  apply andb_prop in H. destruct H as (D & H). apply andb_prop in H. destruct H as (E & F).
  constructor; [now apply negb_true_iff|now apply veqb_eq|now apply veqb_eq|now apply veqb_eq|now apply qeqb_eq|exact F].
Qed.

Section Far.
  Context (L : Libm).
  #[local] Instance NF : Num f32 := F32 L.
  (** One entity of mass 1, at [(2^19, 0, 0)], with the velocity [(1, 0, 0)]; nothing else. *)
  Definition hist_far : list (call f32) := calls [OAddEntity (ent (vec 524288 0 0) (vec 1 0 0) n1)].
  Definition far : system f32 := state_after L hist_far.
  Definition sixtieth : f32 := n_frac 1 60.
  Lemma far_reachable : reachable far.
  Proof. apply state_reachable; [apply calls_ok; repeat constructor|vm_compute; reflexivity]. Qed.
  Definition far_ok : bool := sole far && (match ahandles (s_gens far) with [] => true | _ => false end && (negb (Nat.eqb (s_iteration_max far) 0) &&
    some_with (aget (s_ents far) (hd 0)) (fun i => fixedb sixtieth (s_energy_thr far) i))).
  Lemma sixtieth_long : n_lt (n_abs sixtieth) EPSILON = false.
  Proof. vm_compute. reflexivity. Qed.
  Lemma far_lonely : far_ok = true -> exists i, lonely sixtieth (hd 0) i far.
  Proof.
    unfold far_ok. intros H. apply andb_prop in H. destruct H as (S & H). apply andb_prop in H. destruct H as (G & H). apply andb_prop in H. destruct H as (M & H).
    apply some_with_ex in H. destruct H as (i & E & F). exists i. constructor.
    - exact far_reachable.
    - destruct (careful_run hist_far system_new) as (s' & ans & R & C & _).
      + apply calls_ok. repeat constructor.
      + exists [], []. split; [constructor|reflexivity].
      + apply new_contacts.
      + apply new_gens.
      + cbn. split; [exact Logic.I|]. intros; exact Logic.I.
      + assert (Ef : far = s'). { unfold far, state_after. change (Examples.N L) with NF. rewrite R. reflexivity. } rewrite Ef. exact C.
    - exact (sole_alone L far S).
    - destruct (ahandles (s_gens far)); [reflexivity|discriminate].
    - apply negb_true_iff, Nat.eqb_neq in M. exact M.
    - exact E.
    - now apply fixedb_fixed.
  Qed.
End Far.
Lemma far_is_ok L : far_ok L = true.
Proof. vm_compute. reflexivity. Qed.
Definition far_seen (L : Libm) (e : entity f32) : bool := let N := F32 L in
  veqb (pe_pos e) (vec 524288 0 0) && (veqb (pe_vel e) (vec 1 0 0) && negb (pe_asleep e)).
Lemma far_entity L (N := F32 L) : exists e, get_entity (far L) (hd 0) = Some e /\ pe_pos e = vec 524288 0 0 /\ pe_vel e = vec 1 0 0 /\ pe_asleep e = false.
Proof.
  assert (H : some_with (@get_entity f32 (F32 L) (far L) (hd 0)) (far_seen L) = true) by (vm_compute; reflexivity).
  apply some_with_ex in H. destruct H as (e & E & H). exists e. split; [exact E|]. unfold far_seen in H. apply andb_prop in H. destruct H as (P & H). apply andb_prop in H. destruct H as (V & A).
  split; [now apply veqb_eq|]. split; [now apply veqb_eq|now apply negb_true_iff].
Qed.
Lemma far_stuck L (N := F32 L) : exists (s : system f32) h e, reachable s /\ (forall k, get_entity s k <> None -> k = h) /\ ahandles (s_gens s) = [] /\
  get_entity s h = Some e /\ pe_pos e = vec 524288 0 0 /\ pe_vel e = vec 1 0 0 /\ pe_asleep e = false /\
  forall n, exists s' ans e', run (calls (repeat (OStep (n_frac 1 60)) n)) s = Ok (s', ans) /\ get_entity s' h = Some e' /\
    pe_asleep e' = false /\ pe_pos e' = pe_pos e /\ pe_vel e' = pe_vel e.
Proof.
  destruct (far_lonely L (far_is_ok L)) as (i & Ly). destruct (far_entity L) as (e & E & P & V & A).
  exists (far L), (hd 0), e. split; [exact (ly_reach _ _ _ _ Ly)|]. split; [exact (ly_alone _ _ _ _ Ly)|]. split; [exact (ly_gens _ _ _ _ Ly)|].
  split; [exact E|]. split; [exact P|]. split; [exact V|]. split; [exact A|]. intros n.
  destruct (lonely_run (O2 := Ord2_F32 L) _ _ n (sixtieth_long L) _ _ Ly) as (s' & ans & i' & R & L' & O' & V').
  exists s', ans, (make_pub i'). split; [exact R|]. unfold get_entity in *. rewrite (ly_here _ _ _ _ Ly) in E. rewrite (ly_here _ _ _ _ L'). cbn [option_map] in *. injection E as <-.
  split; [reflexivity|]. split; [exact (fx_awake _ _ _ (ly_fixed _ _ _ _ L'))|]. cbn [make_pub pe_pos pe_vel]. rewrite O', V'. split; reflexivity.
Qed.

(** ** A body that does move *)
Definition finb (x : f32) (b : f32) : bool := is_finite x && Bleb (Babs x) b.
Lemma finb_ex x b : is_finite b = true -> finb x b = true -> B2ER x = Fin (B2R x) /\ Rabs (B2R x) <= B2R b.
Proof.
  intros Hb H. apply andb_prop in H. destruct H as (F & H). split; [destruct x; try discriminate; reflexivity|].
  rewrite Bleb_correct in H; [|now rewrite is_finite_Babs|exact Hb]. rewrite B2R_Babs in H. apply Rle_bool_true_inv in H || (revert H; case Rle_bool_spec; [auto|discriminate]).
Qed.
Definition vfinb (v : Vec3 f32) (b : f32) : bool := finb (vx v) b && (finb (vy v) b && finb (vz v) b).
Lemma vfinb_ex v b : is_finite b = true -> vfinb v b = true ->
  exists r, is_vec v r /\ Rabs (vx r) <= B2R b /\ Rabs (vy r) <= B2R b /\ Rabs (vz r) <= B2R b.
Proof.
  intros Hb H. apply andb_prop in H. destruct H as (X & H). apply andb_prop in H. destruct H as (Y & Z).
  apply (finb_ex _ _ Hb) in X, Y, Z. exists (mkV (B2R (vx v)) (B2R (vy v)) (B2R (vz v))). unfold is_vec. cbn [vx vy vz]. tauto.
Qed.
Section Near.
  Context (L : Libm).
  #[local] Instance NN : Num f32 := F32 L.
  Definition hist_near : list (call f32) := calls [OAddEntity (ent (vec 0 7 0) (vec 3 0 1) n1)].
  Definition near : system f32 := state_after L hist_near.
  Definition coastb (s : system f32) (b : f32) : bool := ok_with (step in_order s (n_frac 1 60)) (fun s1 =>
    match s_records s1 with [] => true | _ => false end &&
    (some_with (get_entity s (hd 0)) (fun e => negb (pe_asleep e)) && some_with (get_entity s1 (hd 0)) (fun e => vfinb (pe_pos e) b))).
  Lemma coastb_step s b : is_finite b = true -> coastb s b = true ->
    exists s1, step in_order s (n_frac 1 60) = Ok s1 /\ s1 = next L s /\ forall l s', coasts (L := L) (hd 0) (B2R b) s1 l s' -> coasts (L := L) (hd 0) (B2R b) s (B2R (sixtieth L) :: l) s'.
  Proof.
    intros Hb H. apply ok_with_ex in H. destruct H as (s1 & Hs & H). apply andb_prop in H. destruct H as (R & H). apply andb_prop in H. destruct H as (A & P).
    apply some_with_ex in A. destruct A as (e & E & A). apply some_with_ex in P. destruct P as (e1 & E1 & P). apply (vfinb_ex _ _ Hb) in P. destruct P as (r & P).
    exists s1. split; [exact Hs|]. split; [unfold next; change (FlightEx.N L) with NN; now rewrite Hs|]. intros l s' K.
    apply (co_step (L := L) (hd 0) (B2R b) s in_order (sixtieth L) (B2R (sixtieth L)) s1 l s').
    - exact in_order_good.
    - exact Hs.
    - exact (sixtieth_long L).
    - assert (F : is_finite (sixtieth L) = true) by (vm_compute; reflexivity). destruct (sixtieth L); try discriminate; reflexivity.
    - destruct (s_records s1); [reflexivity|discriminate].
    - exists e. split; [exact E|now apply negb_true_iff].
    - exists e1, r. tauto.
    - exact K.
  Qed.
End Near.
Lemma eight_is : B2R (f32_frac 8 1) = 8.
Proof.
  rewrite <- SF2R_B2SF. replace (B2SF (f32_frac 8 1)) with (S754_finite false 8388608 (-20)) by (vm_compute; reflexivity).
  cbn [SF2R cond_Zopp]. unfold F2R. cbn [Fnum Fexp]. change (bpow radix2 (-20)) with (/ IZR 1048576). lra.
Qed.
Definition near_seen (L : Libm) (e : entity f32) : bool := let N := F32 L in
  vfinb (pe_pos e) (f32_frac 8 1) && (vfinb (pe_vel e) (f32_frac 8 1) && n_lt n1 (vx (pe_vel e))).
Lemma near_coasts L (N := F32 L) : exists s' e p v, reachable (near L) /\ coasts (L := L) (hd 0) 8 (near L) (repeat (B2R (sixtieth L)) 2) s' /\
  ahandles (s_gens (near L)) = [] /\ s_iteration_max (near L) <> 0%nat /\ get_entity (near L) (hd 0) = Some e /\
  is_vec (pe_pos e) p /\ is_vec (pe_vel e) v /\ Rabs (vx p) <= 8 /\ Rabs (vy p) <= 8 /\ Rabs (vz p) <= 8 /\ n_lt n1 (vx (pe_vel e)) = true.
Proof.
  assert (H : some_with (@get_entity f32 (F32 L) (near L) (hd 0)) (near_seen L) = true) by (vm_compute; reflexivity).
  apply some_with_ex in H. destruct H as (e & E & H). unfold near_seen in H. apply andb_prop in H. destruct H as (P & H). apply andb_prop in H. destruct H as (V & A).
  assert (Fb : is_finite (f32_frac 8 1) = true) by (vm_compute; reflexivity).
  destruct (vfinb_ex _ _ Fb P) as (p & Hp & P1 & P2 & P3). destruct (vfinb_ex _ _ Fb V) as (v & Hv & _). rewrite eight_is in P1, P2, P3.
  assert (C0 : coastb L (near L) (f32_frac 8 1) = true) by (vm_compute; reflexivity).
  assert (C1 : coastb L (next L (near L)) (f32_frac 8 1) = true) by (vm_compute; reflexivity).
  destruct (coastb_step L _ _ Fb C0) as (s1 & S1 & -> & K1). destruct (coastb_step L _ _ Fb C1) as (s2 & S2 & -> & K2). rewrite eight_is in K1, K2.
  exists (next L (next L (near L))), e, p, v.
  split; [apply state_reachable; [apply calls_ok; repeat constructor|vm_compute; reflexivity]|].
  split; [apply K1, K2, co_none|]. split; [vm_compute; reflexivity|]. split; [vm_compute; discriminate|]. auto 10.
Qed.
