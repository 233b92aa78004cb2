(** * Mass2P: total mass, centre of mass and inertia tensor over whole histories *)
From Coq Require Import ZArith Reals List Permutation Bool Lra Psatz.
Import ListNotations.
From Verif Require Import Num Vec Res Arena RangeM Orient Colliders Collide EntityM SystemM OrderP Spec ResP ArenaP FrameP StoreP ExecP ValidP MassP RealSpec RealV OrientP Orient2P Geom4P PhysSpec PhysP Phys3P Phys4P.

Section Loops.
  Context {T : Type} {N : Num T}.
  Lemma com_loop_spec o cols hs m v fi tm cs : com_loop (T:=T) o cols hs m v = Ok (fi, tm, cs) ->
    if fi then exists h c, In h hs /\ aget cols h = Some c /\ n_isinf (c_mass c) = true
    else exists l, Forall2 (fun h c => aget cols h = Some c /\ n_isinf (c_mass c) = false) hs l /\
      tm = fold_left n_add (map c_mass l) m /\
      cs = fold_left vadd (map (fun c => vscale (position_into_world o (c_com c)) (c_mass c)) l) v.
  Proof.
    revert m v; induction hs as [|h hs IH]; intros m v H; cbn [com_loop] in H.
    - apply ok_inj in H. injection H as <- <- <-. exists []. repeat split; constructor.
    - destruct (aget cols h) as [c|] eqn:E; [|discriminate]. destruct (n_isinf (c_mass c)) eqn:I.
      + apply ok_inj in H. injection H as <- <- <-. exists h, c. simpl. auto.
      + apply IH in H. destruct fi.
        * destruct H as (h' & c' & A & B). exists h', c'. simpl. tauto.
        * destruct H as (l & A & B & C). exists (c :: l). split; [constructor; auto|]. auto.
  Qed.
  Lemma moi_loop_spec o cols hs r : moi_loop (T:=T) o cols hs = Ok r -> exists l, Forall2 (fun h c => aget cols h = Some c) hs l /\
    r = fold_left madd (map (fun c => prep_moment o (c_com c) (c_mass c) (c_moi c)) l) mzero.
  Proof.
    unfold moi_loop. generalize (@mzero T N). induction hs as [|h hs IH]; intros a H; cbn [rfold] in H.
    - apply ok_inj in H. subst. exists []. split; [constructor|reflexivity].
    - inv_ok H. inv_ok E. apply IH in H. destruct H as (l & A & B). exists (x0 :: l). split.
      + constructor; auto.
      + apply ok_inj in E. rewrite B, <- E. reflexivity.
  Qed.
End Loops.

Section Total.
  Context {T : Type} {N : Num T} {O : Ord N}.
  Lemma mass_of_c (c : collider T) : mass_of c = c_mass c. Proof. destruct c; reflexivity. Qed.
  Lemma lt_self (x : T) : n_lt x x = false.
  Proof. rewrite key_lt. destruct (key x); simpl; auto. destruct (Rlt_dec r r); auto. exfalso. lra. Qed.
  Lemma lookups (cols : arena (collider T)) hs : (forall c, In c hs -> exists k, aget cols c = Some k) ->
    exists l, Forall2 (fun h c => aget cols h = Some c) hs l.
  Proof.
    induction hs as [|h hs IH]; intros H; [exists []; constructor|]. destruct IH as (l & L); [intros; apply H; simpl; auto|].
    destruct (H h) as (k & K); [simpl; auto|]. exists (k :: l). constructor; auto.
  Qed.
  Lemma recalc_total hs cols (e e' : ientity T) : (forall c, In c hs -> exists k, aget cols c = Some k) -> recalculate_mass hs cols e = Ok e' ->
    exists l, Forall2 (fun h c => aget cols h = Some c) hs l /\ e_total_mass e' = total_of (e_own_mass e) (map mass_of l).
  Proof.
    intros Hl H. unfold recalculate_mass in H. inv_ok H. destruct x as [[fi m] v]. apply com_loop_spec in E. destruct fi.
    - destruct E as (h & c & I1 & G & I2). destruct (lookups cols hs Hl) as (l & L). exists l. split; [exact L|].
      rewrite andb_false_r in H. inv_ok H. subst e'. cbn [e_total_mass e_set_mass]. unfold total_of.
      assert (X : existsb n_isinf (map mass_of l) = true).
      { apply existsb_exists. exists (mass_of c). split; [|now rewrite mass_of_c].
        apply in_map. clear - L I1 G. induction L; [destruct I1|destruct I1 as [->|I1]; [left; congruence|right; auto]]. }
      rewrite X. reflexivity.
    - destruct E as (l & L & E1 & E2). exists l. split; [clear - L; induction L; constructor; tauto|].
      assert (X : existsb n_isinf (map mass_of l) = false).
      { clear - L. induction L; simpl; auto. rewrite mass_of_c. destruct H as (_ & ->). auto. }
      assert (Y : map mass_of l = map c_mass l) by (apply map_ext; apply mass_of_c).
      unfold total_of. rewrite X, Y. cbv zeta. rewrite <- E1. destruct (n_lt n0 m); cbn [andb negb] in H; inv_ok H; inv_ok H; subst e'; reflexivity.
  Qed.
  Lemma reachable_total (s : system T) h e : reachable s -> get_entity s h = Some e ->
    exists hs ms, Permutation hs (pe_colliders e) /\ Forall2 (fun c m => exists k, get_collider s c = Some k /\ mass_of k = m) hs ms /\
      pe_last_total_mass e = total_of (pe_own_mass e) ms.
  Proof.
    intros R He. unfold get_entity in He. destruct (aget (s_ents s) h) as [i|] eqn:Ei; [|discriminate]. injection He as <-. cbn [pe_colliders make_pub pe_own_mass pe_last_total_mass].
    pose proof (reachable_mass (fun _ => True) (fun _ => Logic.I) (fun _ _ _ => Logic.I) s R) as M. destruct (M h i Ei) as (_ & C). clear M.
    destruct C as [(C1 & C2 & C3)|(hs & e0 & e1 & P & _ & Rc & S1 & S2 & _)].
    - exists [], []. rewrite C1. split; [constructor|]. split; [constructor|]. rewrite C2. unfold total_of. cbn [existsb fold_left]. cbv zeta. now rewrite lt_self.
    - assert (Hl : forall c, In c hs -> exists k, aget (s_cols s) c = Some k).
      { intros c Hc. destruct (inv_fwd _ (reachable_Inv _ R) h i c Ei) as (k & K & _); [eapply Permutation_in; eauto|]. eauto. }
      destruct (recalc_total _ _ _ _ Hl Rc) as (l & L & Et). exists hs, (map mass_of l). split; [exact P|]. split.
      + clear - L. induction L; simpl; constructor; auto. exists y. auto.
      + rewrite <- S2, Et. pose proof (recalc_rot_same _ _ _ _ Rc) as (_ & Eo). congruence.
  Qed.
End Total.
