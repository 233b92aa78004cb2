(** * Concrete cases for C91: two pucks that meet along the second axis instead of the first, and a box that prefers its first axis. *)
From Coq Require Import ZArith Reals List Bool Lia Lra.
Import ListNotations.
From Verif Require Import Num Vec Res Arena RangeM Orient Colliders Collide EntityM SystemM Spec RealSpec RealV Examples StoreP ExecP CaseEx RealEx TwoEx MoveSpec MoveEx CycleSpec CycleP Cycle3P.

(** ** In binary32 *)
Section Cube.
  Context (L : Libm).
  #[local] Instance NC : Num f32 := F32 L.
  (** A ball of radius one inside a cube about the origin, pushed outwards as much along one axis as along another. *)
  Definition cube : collider f32 := CBox (mkBox None vzero (vec (-2) (-2) (-2)) (vec 2 2 2) n1 mat_default).
  Definition marble : collider f32 := ball vzero n1 n1.
  Definition placed (x y z : Z) : orientation f32 := orient_new (vec x y z) vzero vzero.
  Definition tie (x y z : Z) : res (option (collision f32)) := collide marble (placed x y z) (placed (2 * x) (2 * y) (2 * z)) cube (placed 0 0 0) (placed 0 0 0).
  Definition says (p : Vec3 f32 -> bool) (r : res (option (collision f32))) : bool := match r with Ok (Some k) => p (c_normal k) | _ => false end.
  Lemma says_ok p r : says p r = true -> exists k, r = Ok (Some k) /\ p (c_normal k) = true.
  Proof. destruct r as [[k|]| |]; intros H; try discriminate H. exists k. split; [reflexivity|exact H]. Qed.
  (** The normal points back along the second axis, or not along the third at all. *)
  Definition back_y (n : Vec3 f32) : bool := n_lt (vy n) (n_frac (-1) 2).
  Definition not_z (n : Vec3 f32) : bool := n_eq (vz n) n0.
  Lemma cube_prefers : exists k k', tie 0 1 1 = Ok (Some k) /\ tie 1 0 1 = Ok (Some k') /\ back_y (c_normal k) = true /\ not_z (c_normal k') = true.
  Proof.
    assert (A : says back_y (tie 0 1 1) = true) by (vm_compute; reflexivity). assert (B : says not_z (tie 1 0 1) = true) by (vm_compute; reflexivity).
    apply says_ok in A, B. destruct A as (k & A & A'), B as (k' & B & B'). exists k, k'. exact (conj A (conj B (conj A' B'))).
  Qed.
  (** An entity that moves with [v], and thresholds of 2^23 for the energy and none for the time; two steps are made. *)
  Definition hist_fast (v : Vec3 f32) : list (call f32) := calls [
    OAddEntity (ent (vec 0 0 0) v n1); OSetEnergyThr (n_frac 8388608 1); OSetTimeThr n0; OStep n1; OStep n1].
  Lemma hist_fast_ok v : Forall call_ok (hist_fast v).
  Proof. apply calls_ok. repeat constructor. Qed.
  Definition sleeps (hist : list (call f32)) : option bool := match run hist system_new with Ok (s, _) => option_map pe_asleep (get_entity s (hd 0)) | _ => None end.
  Lemma sleeps_ok hist b : sleeps hist = Some b -> exists s a e, run hist system_new = Ok (s, a) /\ get_entity s (hd 0) = Some e /\ pe_asleep e = b.
  Proof.
    unfold sleeps. destruct (run hist system_new) as [[s a]| |]; intros H; try discriminate H. destruct (get_entity s (hd 0)) as [e|] eqn:E; [|discriminate H]. exists s, a, e.
    split; [reflexivity|]. split; [exact E|]. now injection H.
  Qed.
  Lemma fast_differs : (exists s a e, run (hist_fast (vec 1 4096 1)) system_new = Ok (s, a) /\ get_entity s (hd 0) = Some e /\ pe_asleep e = true) /\
    (exists s a e, run (hist_fast (vec 1 1 4096)) system_new = Ok (s, a) /\ get_entity s (hd 0) = Some e /\ pe_asleep e = false).
  Proof. split; apply sleeps_ok; vm_compute; reflexivity. Qed.
End Cube.

(** ** The two pucks of TwoEx.v along the second axis *)
Local Open Scope R_scope.
Lemma table_calls_boxless : Forall (fun c => boxless_op (snd c)) table_calls.
Proof. unfold table_calls. repeat (apply Forall_cons; [exact Logic.I|]). apply Forall_nil. Qed.
Lemma table_weighed n : weighed (table n).
Proof.
  intros h e H. unfold get_entity in H. destruct (aget (s_ents (table n)) h) as [x|] eqn:E; [|discriminate]. injection H as <-.
  apply table_ent in E. destruct E as [(_ & ->)|(_ & ->)]; cbn [make_pub pe_last_prep_moi puck_linked e_prep_moi]; eauto.
Qed.
Lemma table_calls_before s ans : run (firstn 7 table_calls) system_new = Ok (s, ans) -> weighed s.
Proof.
  intros H. destruct table_calls_table as (ans' & E). assert (s = table 1) by congruence. subst s. apply table_weighed.
Qed.
Lemma table_calls_weighed : weighed_at_steps table_calls.
Proof.
  intros k ord dt s ans N R. do 7 (destruct k as [|k]; [discriminate N|]). destruct k as [|k]; [exact (table_calls_before s ans R)|]. destruct k; discriminate N.
Qed.
Lemma table_around : exists s s' ans r r', Forall call_ok table_calls /\ Forall (fun c => boxless_op (snd c)) table_calls /\ weighed_at_steps table_calls /\
  run table_calls system_new = Ok (s, ans) /\ s_records s = [r] /\ cr_pos r = vfin (mkV 2 0 0) /\ cr_normal r = vfin (mkV 1 0 0) /\
  run (map around_call table_calls) system_new = Ok (s', map around_answer ans) /\ s_records s' = [r'] /\
  cr_time r' = Fin 1 /\ cr_pos r' = vfin (mkV 0 2 0) /\ cr_normal r' = vfin (mkV 0 1 0).
Proof.
  destruct table_calls_run as (s & ans & r & E & R & (_ & _ & Ht & Hp & Hn & _)).
  pose proof (around_history _ table_calls_ok table_calls_boxless table_calls_weighed) as M. rewrite E in M. cbn [returned fst snd] in M.
  exists s, (around_system s), ans, r, (around_record r).
  split; [exact table_calls_ok|]. split; [exact table_calls_boxless|]. split; [exact table_calls_weighed|]. split; [exact E|]. split; [exact R|]. split; [exact Hp|]. split; [exact Hn|]. split; [exact M|].
  split; [cbn [around_system s_records]; rewrite R; reflexivity|]. cbn [around_record cr_time cr_pos cr_normal]. split; [exact Ht|]. rewrite Hp, Hn. split; reflexivity.
Qed.
