(** * MomentumP: a step changes the total momentum only by the forces (C65) *)
From Coq Require Import ZArith Reals List Bool Arith Lra Lia Psatz.
Import ListNotations.
From Verif Require Import Num Vec Res Arena RangeM Orient Colliders Collide EntityM SystemM OrderP Spec PathSpec PhysSpec TraceSpec
  ResP ArenaP ArithP RangeP RealSpec RealV OrientP Orient2P PhysP Phys2P Phys3P Phys4P Mass4P TraceP EnergyP.
Local Open Scope R_scope.

Lemma vsum_cons (a : V) l : vsum (a :: l) = vadd a (vsum l). Proof. exact eq_refl. Qed.
Lemma vsum_dot l (u : V) : vdot (vsum l) u = rsum (map (fun x => vdot x u) l).
Proof.
  induction l as [|x l IH]; [destruct u; vunfold; cbn; ring|]. rewrite vsum_cons. cbn [map]. change (rsum (?a :: ?m)) with (a + rsum m). rewrite <- IH.
  set (y := vsum l). destruct x, y, u. vunfold. ring.
Qed.
Lemma dots_eq (a b : V) : (forall u, vdot a u = vdot b u) -> a = b.
Proof.
  intros H. pose proof (H (mkV 1 0 0)) as A. pose proof (H (mkV 0 1 0)) as B. pose proof (H (mkV 0 0 1)) as C. destruct a, b. vunfold. cbn in *. f_equal; lra.
Qed.
Lemma vsum_two hs (f g : handle -> V) a b : NoDup hs -> In a hs -> In b hs -> a <> b -> (forall h, In h hs -> h <> a -> h <> b -> f h = g h) ->
  vadd (f a) (f b) = vadd (g a) (g b) -> vsum (map f hs) = vsum (map g hs).
Proof.
  intros ND Ha Hb Ne H E. apply dots_eq. intros u. rewrite !vsum_dot, !map_map.
  rewrite (rsum_two hs (fun h => vdot (f h) u) (fun h => vdot (g h) u) a b ND Ha Hb Ne) by (intros h A B C; now rewrite H).
  apply (f_equal (fun z => vdot z u)) in E. assert (D : forall x y : V, vdot (vadd x y) u = vdot x u + vdot y u) by (intros; destruct x, y, u; vunfold; ring).
  rewrite !D in E. lra.
Qed.
Lemma vsum_add {A} (l : list A) (f g : A -> V) : vsum (map (fun x => vadd (f x) (g x)) l) = vadd (vsum (map f l)) (vsum (map g l)).
Proof.
  induction l as [|x l IH]; [apply vext; vunfold; cbn; ring|]. cbn [map]. rewrite !vsum_cons, IH.
  set (p := vsum (map f l)). set (q := vsum (map g l)). set (y := f x). set (z := g x). destruct p, q, y, z. apply vext; vunfold; ring.
Qed.
Lemma vsum_scale {A} (l : list A) (f : A -> V) k : vsum (map (fun x => vscale (f x) k) l) = vscale (vsum (map f l)) k.
Proof.
  induction l as [|x l IH]; [apply vext; vunfold; cbn; ring|]. cbn [map]. rewrite !vsum_cons, IH. set (p := vsum (map f l)). set (y := f x). destruct p, y. apply vext; vunfold; ring.
Qed.

(** ** One collision *)
Definition b_momentum (b : body) : V := match b_mass b with Fin m => vscale (b_vel b) m | _ => mkV 0 0 0 end.
Lemma struck_momentum b p j b' m : b_mass b = Fin m -> struck_by b p j b' -> b_mass b' = Fin m /\ b_momentum b' = vadd (b_momentum b) j.
Proof. intros E ((A & _) & B & _). rewrite A, E. split; [exact eq_refl|]. unfold b_momentum. rewrite A, E in *. exact B. Qed.
Lemma impact_momentum p n rest stat dyn thr k b1 b2 c1 c2 m1 m2 : b_mass b1 = Fin m1 -> b_mass b2 = Fin m2 -> impact p n rest stat dyn thr k b1 b2 c1 c2 ->
  b_mass c1 = Fin m1 /\ b_mass c2 = Fin m2 /\ vadd (b_momentum c1) (b_momentum c2) = vadd (b_momentum b1) (b_momentum b2).
Proof.
  intros E1 E2 (a1 & a2 & q & A1 & A2 & _ & _ & _ & _ & _ & C1 & C2). cbv zeta in *. set (fr := vscale _ (- q)) in *.
  destruct (struck_momentum _ _ _ _ _ E1 A1) as (F1 & G1). destruct (struck_momentum _ _ _ _ _ E2 A2) as (F2 & G2).
  destruct (struck_momentum _ _ _ _ _ F1 C1) as (H1 & K1). destruct (struck_momentum _ _ _ _ _ F2 C2) as (H2 & K2).
  split; [exact H1|]. split; [exact H2|]. rewrite K1, K2, G1, G2. set (x := b_momentum b1). set (y := b_momentum b2). clearbody fr x y. destruct x, y, fr, n. apply vext; vunfold; ring.
Qed.

(** ** The trace *)
Lemma trace_momentum s d w0 rs ts w t : trace s d w0 rs ts w t ->
  (forall h, get_entity s h <> None -> (exists m, mv_mass (w0 h) = Fin m) /\ mv_awake (w0 h) = true) ->
  forall hs, NoDup hs -> (forall h, In h hs <-> get_entity s h <> None) ->
  (forall h, get_entity s h <> None -> mv_mass (w h) = mv_mass (w0 h) /\ mv_awake (w h) = true) /\ total_momentum hs w = total_momentum hs w0.
Proof.
  induction 1 as [|rs ts w t r w1 w2 t' ts' p n q1 q2 rest stat dyn thr k b1 b2 c1 c2 Tr IH _ _ Ne Et Ep En Un Er Ei Jo _ _ Gl Wk B1 B2 Im W1 W2 Wo _ _]; intros H0 hs ND Hh.
  - split; [intros h Hx; split; [exact eq_refl|apply H0, Hx]|exact eq_refl].
  - destruct (IH H0 hs ND Hh) as (I1 & I2).
    assert (G1 : forall h, get_entity s h <> None -> mv_mass (w1 h) = mv_mass (w0 h) /\ mv_awake (w1 h) = true /\ mv_vel (w1 h) = mv_vel (w h)).
    { intros h Hx. destruct (Gl h Hx) as (A & _ & B & _ & _ & C & _). destruct (I1 h Hx) as (D & E). rewrite A, B. auto. }
    destruct Jo as (k1 & k2 & x1 & x2 & X1 & X2 & _).
    assert (N1 : get_entity s (cr_first r) <> None) by congruence. assert (N2 : get_entity s (cr_second r) <> None) by congruence.
    destruct (H0 _ N1) as ((m1 & M1) & _). destruct (H0 _ N2) as ((m2 & M2) & _). destruct (G1 _ N1) as (L1 & Wa1 & V1). destruct (G1 _ N2) as (L2 & Wa2 & V2).
    pose proof B1 as (P1 & _ & _ & Q1 & _). pose proof B2 as (P2 & _ & _ & Q2 & _).
    destruct (impact_momentum _ _ _ _ _ _ _ _ _ _ _ m1 m2 (eq_trans P1 (eq_trans L1 M1)) (eq_trans P2 (eq_trans L2 M2)) Im) as (C1 & C2 & S).
    assert (Ot : forall h, h <> cr_first r -> h <> cr_second r -> w2 h = w1 h).
    { intros h A B. apply Wo. intros (r' & [<-|[]] & [C|C]); contradiction. }
    split.
    + intros h Hx. destruct (G1 h Hx) as (A & B & _). destruct (handle_eq_dec h (cr_first r)) as [->|D]; [rewrite W1; auto|].
      destruct (handle_eq_dec h (cr_second r)) as [->|D2]; [rewrite W2; auto|]. rewrite Ot; auto.
    + rewrite <- I2. transitivity (total_momentum hs w1).
      * unfold total_momentum. apply (vsum_two hs (fun h => mover_momentum (w2 h)) (fun h => mover_momentum (w1 h)) (cr_first r) (cr_second r)); auto; try (apply Hh; assumption).
        { intros h _ A B. now rewrite Ot. }
        assert (Y1 : mover_momentum (w2 (cr_first r)) = b_momentum c1) by (rewrite W1; unfold mover_momentum, b_momentum, with_speed; cbn [mv_mass mv_vel]; rewrite C1, L1, M1; exact eq_refl).
        assert (Y2 : mover_momentum (w2 (cr_second r)) = b_momentum c2) by (rewrite W2; unfold mover_momentum, b_momentum, with_speed; cbn [mv_mass mv_vel]; rewrite C2, L2, M2; exact eq_refl).
        assert (Z1 : mover_momentum (w1 (cr_first r)) = b_momentum b1) by (unfold mover_momentum, b_momentum; rewrite P1, Q1; exact eq_refl).
        assert (Z2 : mover_momentum (w1 (cr_second r)) = b_momentum b2) by (unfold mover_momentum, b_momentum; rewrite P2, Q2; exact eq_refl).
        rewrite Y1, Y2, Z1, Z2. exact S.
      * unfold total_momentum. f_equal. apply map_ext_in. intros h Hx. apply Hh in Hx. destruct (G1 h Hx) as (A & _ & B). destruct (I1 h Hx) as (C & _).
        unfold mover_momentum. now rewrite A, B, C.
Qed.

(** ** The forces *)
Lemma finite_list (fs : list (force ER)) : (forall f, In f fs -> exists j, f_force f = vfin j) -> exists js, map f_force fs = map (fun j => vfin j) js.
Proof.
  induction fs as [|f fs IH]; intros H; [now exists []|]. destruct (H f (or_introl eq_refl)) as (j & J). destruct IH as (js & E); [intros g Hg; apply H; now right|].
  exists (j :: js). cbn [map]. now rewrite J, E.
Qed.
Lemma pushed_by fs js e v d m : e_vel e = vfin v -> e_total_mass e = Fin m -> 0 < m -> map f_force fs = map (fun j => vfin j) js ->
  pushed_vel (Fin d) fs e = vfin (vadd v (vscale (vscale (vsum js) (/ m)) d)).
Proof.
  intros Ev Em Hm Hj. unfold pushed_vel. rewrite Ev, Em.
  assert (E : map (fun f => vscale (f_force f) (n_div n1 (Fin m))) fs = map (fun j => vfin (vscale j (/ m))) js).
  { rewrite <- (map_map f_force (fun x => vscale x (n_div n1 (Fin m)))), Hj, map_map. apply map_ext. intros j. rewrite fin_1, fin_div by lra. rewrite vfin_scale. f_equal. destruct j. apply vext; vunfold; field; lra. }
  rewrite E, (vsum_fin (fun j => vfin (vscale j (/ m))) (fun j => vscale j (/ m)) js (fun x _ => eq_refl)), vfin_scale, vfin_add. do 2 f_equal.
  now rewrite (vsum_scale js (fun j => j) (/ m)), map_id.
Qed.

Lemma choice {A} (hs : list handle) (P : handle -> A -> Prop) (a : A) : (forall h, In h hs -> exists x, P h x) -> exists f, forall h, In h hs -> P h (f h).
Proof.
  induction hs as [|x hs IH]; intros H; [exists (fun _ => a); intros h []|]. destruct IH as (f & F); [intros h Hh; apply H; now right|]. destruct (H x (or_introl eq_refl)) as (y & Y).
  exists (fun h => if handle_eq_dec h x then y else f h). intros h Hh. destruct (handle_eq_dec h x) as [->|Ne]; [exact Y|]. destruct Hh as [->|Hh]; [contradiction|auto].
Qed.
Lemma step_momentum ord s d s' w : good_order ord -> step ord s (Fin d) = Ok s' -> n_lt (n_abs (Fin d)) EPSILON = false ->
  sound_start s d -> forces_finite s d -> all_moving s -> (forall h, get_entity s h <> None -> stored_as s h (w h)) -> Forall (clean s) (s_records s') ->
  exists w' js, (forall h, get_entity s h <> None -> stored_as s' h (w' h) /\ forces_are s d h (js h)) /\
    total_momentum (ahandles (s_ents s)) w' =
    vadd (total_momentum (ahandles (s_ents s)) w) (vscale (vsum (map (fun h => vsum (js h)) (ahandles (s_ents s)))) d).
Proof.
  intros Ho H Hd St Ff Am Hw Cl. set (hs := ahandles (s_ents s)).
  assert (Hh : forall h, In h hs <-> get_entity s h <> None).
  { intros h. unfold hs. rewrite ahandles_in. unfold get_entity. destruct (aget (s_ents s) h) as [x|]; cbn [option_map]; split; intros A; try discriminate; intros B; auto; discriminate. }
  assert (ND : NoDup hs) by apply ahandles_nodup.
  destruct (step_trace _ _ _ _ Ho H Hd St Cl) as (w0 & w1 & t & ts & S0 & T & En & _).
  assert (H0 : forall h, get_entity s h <> None -> (exists m, mv_mass (w0 h) = Fin m) /\ mv_awake (w0 h) = true).
  { intros h Hx. destruct (S0 h Hx) as ((e & fs & He & F & Q) & Sm & _). destruct (Am h e He) as (A & B). destruct Q as (Q1 & _ & _ & _ & _ & Q2). rewrite B in Q2. split; [|destruct (mv_awake (w0 h)); [exact eq_refl|discriminate]].
    destruct (mv_mass (w0 h)) as [m| | |]; cbn in Sm; try contradiction; try (exfalso; congruence). now exists m. }
  destruct (trace_momentum _ _ _ _ _ _ _ T H0 hs ND Hh) as (I1 & I2).
  assert (Fj : exists js, forall h, In h hs -> forces_are s d h (js h) /\ mover_momentum (w0 h) = vadd (mover_momentum (w h)) (vscale (vsum (js h)) d)).
  { apply (choice hs (fun h l => forces_are s d h l /\ mover_momentum (w0 h) = vadd (mover_momentum (w h)) (vscale (vsum l) d)) []). intros h Hi. apply Hh in Hi. destruct (S0 h Hi) as ((e & fs & He & F & Q) & Sm & _). destruct (H0 h Hi) as ((m & Em) & _).
    destruct (finite_list fs (fun f Hf => Ff h fs f F Hf)) as (js & J). exists js. split; [exists fs; auto|].
    destruct (Hw h Hi) as (pe & Pe & A1 & _ & _ & A2 & _). unfold get_entity in Pe. rewrite He in Pe. injection Pe as <-. cbn [make_pub pe_last_total_mass pe_vel] in A1, A2.
    destruct Q as (Q1 & _ & _ & Q2 & _). rewrite Em in Q1, Sm. cbn in Sm. rewrite (pushed_by fs js e _ d m A2 Q1 Sm J) in Q2. apply vfin_inj in Q2.
    unfold mover_momentum. rewrite <- A1, Q1, Em, <- Q2. set (v := mv_vel (w h)). set (z := vsum js). destruct v, z. apply vext; vunfold; field; lra. }
  destruct Fj as (js & Fj).
  assert (Fw : exists w', forall h, In h hs -> stored_as s' h (w' h) /\ mover_momentum (w' h) = mover_momentum (w1 h)).
  { apply (choice hs (fun h m => stored_as s' h m /\ mover_momentum m = mover_momentum (w1 h)) (mkMover PInf (mkM 0 0 0 0 0 0 0 0 0) (mkO (mkV 0 0 0) (mkQ 0 0 0 1) (mkV 0 0 0)) (mkV 0 0 0) (mkV 0 0 0) true)).
    intros h Hi. apply Hh in Hi. specialize (En h Hi). destruct (I1 h Hi) as (_ & Aw). destruct (Nat.eqb _ _).
    - exists (w1 h). split; [|exact eq_refl]. apply ends_stored in En. unfold stopped in En. rewrite Aw in En. exact En.
    - destruct En as (m & G & Ga & E). exists m. apply ends_stored in E. unfold stopped in E. rewrite Ga, Aw in E. split; [exact E|]. destruct G as (G1 & _ & G2 & _). unfold mover_momentum. now rewrite G1, G2. }
  destruct Fw as (w' & Fw). exists w', js. split; [intros h Hx; apply Hh in Hx; split; [apply (Fw h Hx)|apply (Fj h Hx)]|].
  transitivity (total_momentum hs w1); [unfold total_momentum; f_equal; apply map_ext_in; intros h Hx; apply (Fw h Hx)|].
  rewrite I2. unfold total_momentum. rewrite <- vsum_scale, <- vsum_add. f_equal. apply map_ext_in. intros h Hx. apply (Fj h Hx).
Qed.
