(** * PhysEx: examples in exact arithmetic for C30, C31 and C61 *)
From Coq Require Import ZArith Reals Lra Bool List Lia.
Import ListNotations.
From Verif Require Import Num Vec Res Arena RangeM Orient Colliders Collide EntityM SystemM OrderP Spec PanicSpec Examples ResP ArenaP FrameP StoreP Store2P ExecP StepP Step2P Step3P NoPanicP
  RealSpec RealV OrientP Orient2P PhysSpec PhysP Phys2P Phys3P Phys4P TraceSpec PassP RealEx TwoEx FloorSpec FloorP FloorEx FlightSpec FlightP FlightEx.
Local Open Scope R_scope.

(** The ball of the yard falls freely for a quarter of a second. *)
Lemma yard_forces d : finite_forces yard (Fin d) (hd 0).
Proof.
  intros gh f Hg F. destruct (gravity_force yard (Fin d) (hd 0) (make_pub (puck_linked ball_at ball_vel (hd 0))) [pull] gh f yard_gravity eq_refl Hg F) as (g & _ & ->).
  exists (vscale g 4, ball_at). unfold force_fin. cbn [fst snd]. rewrite <- vfin_scale. exact eq_refl.
Qed.
Lemma yard_quarter : exists s' e, step in_order yard (Fin (1 / 4)) = Ok s' /\ n_lt (n_abs (Fin (1 / 4))) EPSILON = false /\ gravity_only yard [pull] /\
  get_entity yard (hd 0) = Some e /\ rigid e 4 (mkO ball_at (mkQ 0 0 0 1) (mkV 0 0 0)) puck_tensor ball_vel (mkV 0 0 0) /\ pe_asleep e = false /\
  finite_forces yard (Fin (1 / 4)) (hd 0) /\ ~ named (s_records s') (hd 0).
Proof.
  destruct yard_flight as (s2 & U). unfold two_quarters in U. inversion U as [|s ord d s1 l s' Ho Hd E A Nn It U']; subst.
  exists s1, (make_pub (puck_linked ball_at ball_vel (hd 0))). split; [exact E|]. split; [apply not_tiny; lra|]. split; [exact yard_gravity|]. split; [exact eq_refl|].
  split; [|split; [exact eq_refl|split; [apply yard_forces|exact Nn]]].
  constructor; try exact eq_refl. unfold unit_o, unit_quat. cbn. ring.
Qed.
(** The two balls of the table exchange their velocities. *)
Lemma table_speeds : exists s', step in_order (table 1) (Fin 2) = Ok s' /\ ahandles (s_gens (table 1)) = [] /\ finite_masses (table 1) /\
  (forall h e, get_entity (table 1) h = Some e -> pe_asleep e = false) /\ finite_speeds s' /\ length (s_records s') = 1%nat.
Proof.
  destruct (table_steps 1 2) as (s' & E). exists s'. split; [exact E|]. split; [exact eq_refl|].
  assert (Q : forall h e, get_entity (table 1) h = Some e -> (h = hd 0 /\ e = make_pub (puck_linked left_at left_vel (hd 0))) \/ (h = hd 1 /\ e = make_pub (puck_linked right_at right_vel (hd 1)))).
  { intros h e H. unfold get_entity in H. destruct (aget (s_ents (table 1)) h) as [i|] eqn:A; [|discriminate H]. apply some_inj in H. subst e.
    apply table_ent in A. destruct A as [(-> & ->)|(-> & ->)]; [left|right]; split; exact eq_refl. }
  split; [|split; [|split; [|now apply table_clean]]].
  - intros h e H. exists 4. destruct (Q h e H) as [(_ & ->)|(_ & ->)]; (split; [exact eq_refl|lra]).
  - intros h e H. destruct (Q h e H) as [(_ & ->)|(_ & ->)]; exact eq_refl.
  - destruct (table_exchanged _ E) as ((e0 & E0 & V0) & (e1 & E1 & V1)). intros h e H.
    assert (X : exists x, get_entity (table 1) h = Some x).
    { destruct (get_entity (table 1) h) as [x|] eqn:G; [now exists x|exfalso]. apply get_entity_none in G. rewrite <- (arel_none _ _ _ h (proj1 (FrameP.step_frame _ _ _ _ E))) in G.
      apply get_entity_none in G. rewrite G in H. discriminate H. }
    destruct X as (x & X). destruct (Q h x X) as [(-> & _)|(-> & _)].
    + rewrite E0 in H. apply some_inj in H. subst e. eexists. exact V0.
    + rewrite E1 in H. apply some_inj in H. subst e. eexists. exact V1.
Qed.
