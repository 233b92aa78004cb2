(** * Concrete cases for C90: two pucks in a mirror, and what a mirror shows that is not so. *)
From Coq Require Import ZArith Reals List Bool Lia Lra.
Import ListNotations.
From Verif Require Import Num Vec Res Arena RangeM Orient Colliders Collide EntityM SystemM Spec RealSpec RealV Examples StoreP CaseEx RealEx TwoEx MoveSpec MoveEx MirrorSpec MirrorP Mirror3P.

(** ** In binary32 *)
Section Middle.
  Context (L : Libm).
  #[local] Instance NM : Num f32 := F32 L.
  (** A ball in the middle of a box; the ball moves with [v], and a step of a tenth is made. *)
  Definition hist_middle (v : Vec3 f32) : list (call f32) := calls [
    OAddEntity (ent (vec 0 0 0) v n0); OAddEntity (ent (vec 0 0 0) (vec 0 0 0) n0);
    OAddCollider (ball vzero n1 n1); OAddCollider (CBox (mkBox None vzero (vec (-2) (-2) (-2)) (vec 2 2 2) n1 mat_default));
    OLinkCollider (hd 0) (Some (hd 0)); OLinkCollider (hd 1) (Some (hd 1)); OSetIterationMax 1; OStep (n_frac 1 10)].
  Lemma hist_middle_ok v : Forall call_ok (hist_middle v).
  Proof. apply calls_ok. repeat constructor. Qed.
  Definition records_after (hist : list (call f32)) : option nat := match run hist system_new with Ok (s, _) => Some (length (s_records s)) | _ => None end.
  Lemma records_ok hist n : records_after hist = Some n -> exists s a, run hist system_new = Ok (s, a) /\ length (s_records s) = n.
  Proof. unfold records_after. destruct (run hist system_new) as [[s a]| |]; intros H; try discriminate H. exists s, a. split; [reflexivity|now injection H]. Qed.
  Lemma middle_differs : exists s a t b, run (hist_middle (vec 1 0 0)) system_new = Ok (s, a) /\ run (hist_middle (vec (-1) 0 0)) system_new = Ok (t, b) /\
    length (s_records s) = 1%nat /\ length (s_records t) = 0%nat.
  Proof.
    assert (A : records_after (hist_middle (vec 1 0 0)) = Some 1%nat) by (vm_compute; reflexivity). assert (B : records_after (hist_middle (vec (-1) 0 0)) = Some 0%nat) by (vm_compute; reflexivity).
    apply records_ok in A, B. destruct A as (s & a & A & A'), B as (t & b & B & B'). exists s, a, t, b. exact (conj A (conj B (conj A' B'))).
  Qed.
  (** A flat triangle slides towards another one that lies in the same plane. *)
  Definition flat : collider f32 := CMesh (mkMesh None vzero [vec 0 0 0; vec 4 0 0; vec 0 4 0] [[0; 1; 2]%nat] [(0, 1); (1, 2); (0, 2)]%nat mat_default).
  Definition lying (x y : Z) : orientation f32 := orient_new (vec x y 0) vzero vzero.
  Definition some_hit (r : res (option (collision f32))) : bool := match r with Ok (Some k) => n_lt (n_frac 1 2) (vz (c_normal k)) | _ => false end.
  Lemma some_hit_ok r : some_hit r = true -> exists k, r = Ok (Some k) /\ n_lt (n_frac 1 2) (vz (c_normal k)) = true.
  Proof. destruct r as [[k|]| |]; intros H; try discriminate H. exists k. split; [reflexivity|exact H]. Qed.
  Lemma flat_leaves : exists k, collide flat (lying (-6) 0) (lying 0 0) flat (lying 1 (-1)) (lying 1 (-1)) = Ok (Some k) /\ n_lt (n_frac 1 2) (vz (c_normal k)) = true.
  Proof.
    assert (A : some_hit (collide flat (lying (-6) 0) (lying 0 0) flat (lying 1 (-1)) (lying 1 (-1))) = true) by (vm_compute; reflexivity).
    apply some_hit_ok in A. exact A.
  Qed.
End Middle.

(** ** The two pucks of TwoEx.v in a mirror across the first axis *)
Local Open Scope R_scope.
Definition looking : axes := mkAx true false false.
Lemma table_calls_even a : Forall (fun c => even_op a (snd c)) table_calls.
Proof. unfold table_calls. repeat (apply Forall_cons; [exact Logic.I|]). apply Forall_nil. Qed.
Lemma table_mirrored : exists s s' ans r r', Forall call_ok table_calls /\ Forall (fun c => even_op looking (snd c)) table_calls /\
  run table_calls system_new = Ok (s, ans) /\ s_records s = [r] /\ cr_pos r = vfin (mkV 2 0 0) /\ cr_normal r = vfin (mkV 1 0 0) /\
  run (map (mirror_call looking) table_calls) system_new = Ok (s', map (mirror_answer looking) ans) /\ s_records s' = [r'] /\
  cr_time r' = Fin 1 /\ cr_pos r' = vfin (mkV (-2) 0 0) /\ cr_normal r' = vfin (mkV (-1) 0 0).
Proof.
  destruct table_calls_run as (s & ans & r & E & R & (_ & _ & Ht & Hp & Hn & _)).
  pose proof (mirror_history looking _ table_calls_ok (table_calls_even _)) as M. rewrite E in M. cbn [returned fst snd] in M.
  exists s, (mirror_system looking s), ans, r, (mirror_record looking r).
  split; [exact table_calls_ok|]. split; [exact (table_calls_even _)|]. split; [exact E|]. split; [exact R|]. split; [exact Hp|]. split; [exact Hn|]. split; [exact M|].
  split; [cbn [mirror_system s_records]; rewrite R; reflexivity|]. cbn [mirror_record cr_time cr_pos cr_normal]. split; [exact Ht|]. rewrite Hp, Hn. split; reflexivity.
Qed.
