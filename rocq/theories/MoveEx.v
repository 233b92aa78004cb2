(** * Concrete cases for C88: the two pucks of TwoEx.v, built call by call, and built again elsewhere. *)
From Coq Require Import ZArith Reals List Bool Lia Lra.
Import ListNotations.
From Verif Require Import Num Vec Res Arena RangeM Orient Colliders Collide EntityM SystemM Spec RealSpec RealV Examples StoreP RealEx TwoEx MoveSpec Move2P Move4P.
Local Open Scope R_scope.

Lemma run_then (ord : set_order) (o : op ER) hist s s1 s2 a l : exec ord s o = Ok (s1, a) -> run hist s1 = Ok (s2, l) -> run ((ord, o) :: hist) s = Ok (s2, a :: l).
Proof. intros E1 E2. cbn [run]. rewrite E1. cbn [rbind]. rewrite E2. reflexivity. Qed.

Definition table_calls : list (call ER) :=
  [(in_order, OAddEntity (puck_entity left_at left_vel)); (in_order, OAddEntity (puck_entity right_at right_vel));
   (in_order, OAddCollider (puck None)); (in_order, OAddCollider (puck None));
   (in_order, OLinkCollider (hd 0) (Some (hd 0))); (in_order, OLinkCollider (hd 1) (Some (hd 1)));
   (in_order, OSetIterationMax 1); (in_order, OStep (Fin 2))].
Lemma table_calls_ok : Forall call_ok table_calls.
Proof. unfold table_calls. repeat (apply Forall_cons; [split; [apply in_order_good|exact Logic.I]|]). apply Forall_nil. Qed.
Lemma table_calls_plain : Forall (fun c => plain_op (snd c)) table_calls.
Proof.
  unfold table_calls. repeat (apply Forall_cons; [cbn [snd plain_op plain_shape puck puck_sphere sp_radius]; first [exact Logic.I|exists 1; reflexivity]|]). apply Forall_nil.
Qed.
Lemma table_calls_table : exists ans, run (firstn 7 table_calls) system_new = Ok (table 1, ans).
Proof.
  eexists. cbn [table_calls firstn].
  eapply (run_then _ _ _ _ (s_set_ents system_new (one (puck_inside left_at left_vel)))).
  { unfold exec, add_entity. rewrite puck_entity_in. exact eq_refl. }
  eapply (run_then _ _ _ _ (s_set_ents system_new (two (puck_inside left_at left_vel) (puck_inside right_at right_vel)))).
  { unfold exec, add_entity. rewrite puck_entity_in. exact eq_refl. }
  eapply (run_then _ _ _ _ (s_set_cols (s_set_ents system_new (two (puck_inside left_at left_vel) (puck_inside right_at right_vel))) (one (puck None)))).
  { unfold exec, add_collider. rewrite puck_in. exact eq_refl. }
  eapply (run_then _ _ _ _ (pucks (puck_inside left_at left_vel) (puck_inside right_at right_vel) None None)).
  { unfold exec, add_collider. rewrite puck_in. exact eq_refl. }
  eapply (run_then _ _ _ _ (pucks (puck_linked left_at left_vel (hd 0)) (puck_inside right_at right_vel) (Some (hd 0)) None)).
  { unfold exec, link_collider. change (aget (s_cols (pucks _ _ None None)) (hd 0)) with (Some (puck None)).
    change (aget (s_ents (pucks (puck_inside left_at left_vel) (puck_inside right_at right_vel) None None)) (hd 0)) with (Some (puck_inside left_at left_vel)). cbv iota beta zeta.
    assert (X : recalculate_mass (in_order KColliders (hd 0) (e_colliders (e_set_colliders (puck_inside left_at left_vel) (hinsert (hd 0) (e_colliders (puck_inside left_at left_vel))))))
      (s_cols (pucks (puck_inside left_at left_vel) (puck_inside right_at right_vel) None None)) (e_set_colliders (puck_inside left_at left_vel) (hinsert (hd 0) (e_colliders (puck_inside left_at left_vel)))) =
      Ok (puck_linked left_at left_vel (hd 0))) by (apply (puck_recalc left_at left_vel (hd 0) _ None); exact eq_refl).
    rewrite X. exact eq_refl. }
  eapply (run_then _ _ _ _ (pucks (puck_linked left_at left_vel (hd 0)) (puck_linked right_at right_vel (hd 1)) (Some (hd 0)) (Some (hd 1)))).
  { unfold exec, link_collider. change (aget (s_cols (pucks _ _ (Some (hd 0)) None)) (hd 1)) with (Some (puck None)).
    change (aget (s_ents (pucks (puck_linked left_at left_vel (hd 0)) (puck_inside right_at right_vel) (Some (hd 0)) None)) (hd 1)) with (Some (puck_inside right_at right_vel)). cbv iota beta zeta.
    assert (X : recalculate_mass (in_order KColliders (hd 1) (e_colliders (e_set_colliders (puck_inside right_at right_vel) (hinsert (hd 1) (e_colliders (puck_inside right_at right_vel))))))
      (s_cols (pucks (puck_linked left_at left_vel (hd 0)) (puck_inside right_at right_vel) (Some (hd 0)) None)) (e_set_colliders (puck_inside right_at right_vel) (hinsert (hd 1) (e_colliders (puck_inside right_at right_vel)))) =
      Ok (puck_linked right_at right_vel (hd 1))) by (apply (puck_recalc right_at right_vel (hd 1) _ None); exact eq_refl).
    rewrite X. exact eq_refl. }
  eapply (run_then _ _ _ _ (table 1)); [exact eq_refl|]. reflexivity.
Qed.
Lemma run_before (x y : list (call ER)) s1 : forall s l s2 m, run x s = Ok (s1, l) -> run y s1 = Ok (s2, m) -> run (x ++ y) s = Ok (s2, l ++ m).
Proof.
  induction x as [|[ord o] x IH]; intros s l s2 m E1 E2; [cbn [run] in E1; injection E1 as <- <-; exact E2|]. apply run_cons in E1. destruct E1 as (t & a & l' & E & E' & ->).
  cbn [app]. eapply run_then; [exact E|]. eapply IH; eauto.
Qed.
Lemma table_calls_run : exists s ans r, run table_calls system_new = Ok (s, ans) /\ s_records s = [r] /\ hit r.
Proof.
  destruct (table_steps 1 2) as (s' & E). destruct (table_hits s' E) as (r & R & H). destruct table_calls_table as (l & X).
  exists s', (l ++ [AUnit]), r. split; [|exact (conj R H)].
  change table_calls with (firstn 7 table_calls ++ [(in_order, OStep (Fin 2))]). eapply run_before; [exact X|]. cbn [run]. unfold exec. rewrite E. reflexivity.
Qed.

(** The same calls with both pucks (5, -7, 11) further: one hit there. *)
Definition away : V := mkV 5 (-7) 11.
Lemma table_moved : exists s s' ans r r', Forall call_ok table_calls /\ Forall (fun c => plain_op (snd c)) table_calls /\
  run table_calls system_new = Ok (s, ans) /\ s_records s = [r] /\ cr_pos r = vfin (mkV 2 0 0) /\
  run (map (move_call away) table_calls) system_new = Ok (s', ans) /\ s_records s' = [r'] /\
  cr_time r' = Fin 1 /\ cr_pos r' = vfin (mkV 7 (-7) 11) /\ cr_normal r' = vfin (mkV 1 0 0).
Proof.
  destruct table_calls_run as (s & ans & r & E & R & (_ & _ & Ht & Hp & Hn & _)).
  pose proof (moved_history away _ table_calls_ok table_calls_plain) as M. rewrite E in M. cbn [returned fst snd] in M.
  exists s, (move_system away s), ans, r, (move_record away r).
  split; [exact table_calls_ok|]. split; [exact table_calls_plain|]. split; [exact E|]. split; [exact R|]. split; [exact Hp|]. split; [exact M|].
  split; [cbn [move_system s_records]; rewrite R; reflexivity|]. cbn [move_record cr_time cr_pos cr_normal]. split; [exact Ht|]. split; [|exact Hn].
  rewrite Hp. unfold move_v, away. rewrite vfin_add. f_equal. apply vext; vunfold; ring.
Qed.
