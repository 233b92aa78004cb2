(** * Concrete cases for C92: two pucks that meet along the second axis the other way round, and a box that prefers its first axis. *)
From Coq Require Import ZArith Reals List Bool Lia Lra.
Import ListNotations.
From Verif Require Import Num Vec Res Arena RangeM Orient Colliders Collide EntityM SystemM Spec RealSpec RealV Examples StoreP ExecP CaseEx RealEx TwoEx MoveSpec MoveEx CycleSpec QuarterSpec CycleEx CubeSpec CubeP.

(** ** In binary32 *)
Section Box.
  Context (L : Libm).
  #[local] Instance NB : Num f32 := F32 L.
  Definition back_x (n : Vec3 f32) : bool := n_lt (vx n) (n_frac (-1) 2).
  Definition not_y (n : Vec3 f32) : bool := n_eq (vy n) n0.
  Lemma box_prefers : exists k k', tie L 1 1 0 = Ok (Some k) /\ tie L (-1) 1 0 = Ok (Some k') /\ back_x (c_normal k) = true /\ not_y (c_normal k') = true.
  Proof.
    assert (A : says back_x (tie L 1 1 0) = true) by (vm_compute; reflexivity). assert (B : says not_y (tie L (-1) 1 0) = true) by (vm_compute; reflexivity).
    apply says_ok in A, B. destruct A as (k & A & A'), B as (k' & B & B'). exists k, k'. exact (conj A (conj B (conj A' B'))).
  Qed.
End Box.

(** ** The two pucks of TwoEx.v against the second axis *)
Local Open Scope R_scope.
Definition to_back_y : list turning := [Around; Quarter; Quarter].
Lemma to_back_y_fin x y z : turns turn_v to_back_y (vfin (mkV x y z)) = vfin (mkV z (- x) (- y)).
Proof. reflexivity. Qed.
Lemma turns_record_fields ts (r : crecord ER) : cr_time (turns turn_record ts r) = cr_time r /\ cr_pos (turns turn_record ts r) = turns turn_v ts (cr_pos r) /\
  cr_normal (turns turn_record ts r) = turns turn_v ts (cr_normal r).
Proof.
  induction ts as [|t ts (A & B & C)]; [split; [|split]; reflexivity|]. cbn [turns fold_right]. unfold turns in *. rewrite <- A, <- B, <- C. destruct t; split; try split; reflexivity.
Qed.
Lemma table_turned : exists s s' ans r r', Forall call_ok table_calls /\ Forall (fun c => boxless_op (snd c)) table_calls /\ weighed_at_steps table_calls /\
  run table_calls system_new = Ok (s, ans) /\ s_records s = [r] /\ cr_pos r = vfin (mkV 2 0 0) /\ cr_normal r = vfin (mkV 1 0 0) /\
  run (map (turns turn_call [Around; Quarter; Quarter]) table_calls) system_new = Ok (s', map (turns turn_answer [Around; Quarter; Quarter]) ans) /\ s_records s' = [r'] /\
  cr_time r' = Fin 1 /\ cr_pos r' = vfin (mkV 0 (-2) 0) /\ cr_normal r' = vfin (mkV 0 (-1) 0).
Proof.
  destruct table_calls_run as (s & ans & r & E & R & (_ & _ & Ht & Hp & Hn & _)).
  destruct (turned_seen to_back_y _ s ans table_calls_ok table_calls_boxless table_calls_weighed E) as (s' & E' & _ & _ & R'). rewrite R in R'.
  destruct (turns_record_fields to_back_y r) as (T & P & N).
  exists s, s', ans, r, (turns turn_record to_back_y r).
  split; [exact table_calls_ok|]. split; [exact table_calls_boxless|]. split; [exact table_calls_weighed|]. split; [exact E|]. split; [exact R|]. split; [exact Hp|]. split; [exact Hn|]. split; [exact E'|].
  split; [exact R'|]. split; [rewrite T; exact Ht|]. rewrite P, N, Hp, Hn, !to_back_y_fin. split; do 2 f_equal; lra.
Qed.
