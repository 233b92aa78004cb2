(** * PlaceEx: moving and turning the ball of RealEx (C74) *)
From Coq Require Import ZArith Reals Lra Bool List Permutation.
Import ListNotations.
From Verif Require Import Num Vec Res Arena RangeM Orient Colliders Collide EntityM SystemM OrderP Spec Examples ResP ArenaP FrameP StoreP RangeP RealSpec RealV OrientP PhysSpec PhysP WriteBackP RealEx.
Local Open Scope R_scope.

Definition moved : entity ER :=
  mkPE (vfin (mkV 7 8 9)) (vfin (mkV 1 0 0)) (vfin (mkV 0 0 0)) (vfin (mkV 0 0 0)) [] (Fin 2) (ofin (mkO (mkV 0 0 0) (mkQ 0 0 0 1) (mkV 0 0 0))) (Fin 0) mzero false.
Lemma ball_placed : exists s h e o pt s', reachable s /\ get_entity s h = Some e /\ pe_last_orient e = ofin o /\ parts_of s e pt /\ pe_colliders e <> [] /\
  o_off o <> mkV 0 0 0 /\ o_pos o <> mkV 7 8 9 /\ pe_pos moved = vfin (mkV 7 8 9) /\ pe_rot moved = vfin (mkV 1 0 0) /\ update_entity in_order s h moved = Ok (s', true).
Proof.
  destruct ball_facts as (e & o & He & R & G & Eo & -> & Ec & Hp & Em).
  assert (Hn : e_neighbors e = []).
  { destruct (recalc_shape _ _ _ _ He) as (o' & m' & i' & ->). exact eq_refl. }
  assert (W : exists s', update_entity in_order (ball_state e (Some (hd 0))) (hd 0) moved = Ok (s', true)).
  { unfold update_entity. change (aget (s_ents (ball_state e (Some (hd 0)))) (hd 0)) with (Some e). unfold update_from.
    assert (L : n_lt (pe_own_mass moved) n0 = false) by (change (pe_own_mass moved) with (Fin 2); rewrite fin_0; change (@n_lt ER EReal) with er_lt; apply er_lt_fin_f; lra).
    rewrite L. cbv zeta. match goal with |- context [recalculate_mass ?a ?b ?c] => destruct (StoreP.recalc_total a b c) as (e2 & He2) end.
    { cbn [e_colliders]. rewrite Ec. intros c [<- |[]]. discriminate. }
    rewrite He2. cbn [rbind]. match goal with |- context [if ?b then _ else _] => destruct b end; [|eexists; exact eq_refl].
    destruct (recalc_shape _ _ _ _ He2) as (o' & m' & i' & E2).
    assert (Hn2 : e_neighbors e2 = []) by (rewrite E2; exact Hn).
    cbn [s_ents s_set_ents s_debug]. unfold wake_up. unfold ball_state, one. cbn [s_set_ents s_set_cols s_ents]. clear - Hn2.
    destruct e2 as [ao am at' ai av aw ac af aft aa an]. cbn [e_neighbors] in Hn2. subst an. destruct aa; eexists; exact eq_refl. }
  destruct W as (s' & W). exists (ball_state e (Some (hd 0))), (hd 0), (make_pub e), (mkO (mkV 5 0 0) (mkQ 0 0 0 1) (mkV (-4) 0 0)), (fun _ => ball_part), s'.
  split; [exact R|]. split; [exact G|]. split; [exact Eo|]. split; [exact Hp|]. split; [cbn [make_pub pe_colliders]; rewrite Ec; discriminate|].
  split; [cbn [o_off]; intros X; injection X; lra|]. split; [cbn [o_pos]; intros X; injection X; lra|]. split; [exact eq_refl|]. split; [exact eq_refl|exact W].
Qed.
