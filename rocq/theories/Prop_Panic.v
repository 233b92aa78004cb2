(** * Panics: C09.

    Theorems over [T], [N : Num T], [O : Ord N] and [O2 : Ord2 O] hold in particular for
    binary32 ([F32 L]) and exact arithmetic ([EReal]). *)
From Coq Require Import ZArith List Bool Permutation.
From Flocq Require Import IEEE754.BinarySingleNaN.
Import ListNotations.
From Verif Require Import Num Vec Res Arena Orient Colliders Collide EntityM SystemM OrderP Spec PanicSpec Examples
  ResP ArenaP ArithP StoreP Store2P WakeP StepP Step2P Step3P NoPanicP.

(** ** C09 No API call panics on a system built through the API *)
(** A history of careful calls returns normally.  Missing: removing a linked collider, removing an
    entity others rest against, and stepping while two entities own meshes; each of them can panic,
    see below. *)
Theorem C09_careful_partial : forall (T : Type) (N : Num T) (O : Ord N) (O2 : Ord2 O) (hist : list (call T)),
  Forall call_ok hist -> careful hist system_new -> exists s ans, run hist system_new = Ok (s, ans).
Proof. exact @careful_history. Qed.
Print Assumptions C09_careful_partial.
(** In a state whose recorded contacts all exist, the two remaining causes are the only ones: removing
    a linked collider, and a mesh face collapsing in a step with meshes of two entities. *)
Theorem C09_causes_partial : forall (T : Type) (N : Num T) (O : Ord N) (O2 : Ord2 O) ord (s : system T) o,
  call_ok (ord, o) -> reachable s -> contacts_alive s -> gens_answer s -> exec ord s o = Panic ->
  (exists h, o = ORemoveCollider h /\ owner s h <> None) \/
  (exists dt, o = OStep dt) /\ exists m1 m2 start lin ang, two_meshes s m1 m2 /\
    (collapses m1 start (after_affected start lin ang) \/ collapses m2 start (after_affected start lin ang)).
Proof. exact @call_panics. Qed.
Print Assumptions C09_causes_partial.
(** Gravity is a generator that always answers. *)
Theorem C09_gravity_partial : forall (T : Type) (N : Num T) (a : Vec3 T), gen_answers (GenGravity a).
Proof. exact @gravity_answers. Qed.
Print Assumptions C09_gravity_partial.
(** Balls meet, fall asleep, are hit and woken, and are removed while awake. *)
Definition hist_careful : list (call f32) := hist_sleep ++ calls [
  OAddGenerator (GenGravity (@vec f32 (F32 crude) 0 (-1) 0)); OStep (@n1 f32 (F32 crude)); ORemoveEntity (hd 3);
  OLinkCollider (hd 0) None; ORemoveCollider (hd 0); ORemoveEntity (hd 2) ].
Example C09_careful_example : let N := F32 crude in
  careful hist_careful system_new /\ Forall call_ok hist_careful /\
  ok_with (run hist_careful system_new) (fun r => negb (is_some (get_collider (fst r) (hd 0)))) = true.
Proof.
  split; [apply carefulb_ok; vm_compute; reflexivity|].
  split; [apply Forall_app; split; [apply (hist_sleep_ok 17)|apply calls_ok; repeat constructor]|vm_compute; reflexivity].
Qed.

(** Not every call returns: removing a collider that is linked to an entity always panics. *)
Theorem C09_linked_collider_refuted : forall (T : Type) (N : Num T) (s : system T) h,
  reachable s -> owner s h <> None -> remove_collider s h = Panic.
Proof. exact @remove_linked_panics. Qed.
Print Assumptions C09_linked_collider_refuted.
Example C09_linked_collider_example : let N := F32 crude in
  ok_with (run (firstn 7 hist_sleep) system_new) (fun r => is_some (owner (fst r) (hd 0))) = true /\
  run (firstn 7 hist_sleep ++ calls [ORemoveCollider (hd 0)]) system_new = Panic.
Proof. split; vm_compute; reflexivity. Qed.

(** Two balls sleep in contact; one is removed and the other is updated. *)
Definition hist_stale : list (call f32) := firstn 12 hist_sleep ++ calls [
  ORemoveEntity (hd 1); OUpdateEntity (hd 0) (@ent f32 (F32 crude) (@vzero f32 (F32 crude)) (@vec f32 (F32 crude) 0 7 0) (@n0 f32 (F32 crude))) ].
Theorem C09_removed_neighbour_refuted :
  forall L : Libm, let N := F32 L in Forall call_ok hist_stale /\ run hist_stale system_new = Panic.
Proof.
  intros L N. split; [|vm_compute; reflexivity].
  repeat (apply Forall_cons; [split; [apply in_order_good|exact I]|]). constructor.
Qed.
Print Assumptions C09_removed_neighbour_refuted.

(** Two far-apart entities with a mesh each, made of one triangle with sides of 0.0001. *)
Section Sliver.
  Context (L : Libm).
  #[local] Instance N2 : Num f32 := F32 L.
  Definition sliver_face : list (Vec3 f32) := [vzero; mkV (n_frac 1 10000) n0 n0; mkV n0 (n_frac 1 10000) n0].
  Definition sliver : mesh_c f32 := match add_face mesh_new sliver_face with Ok m => m | _ => mesh_new end.
  Lemma sliver_built : mesh_built sliver.
  Proof.
    apply (mb_face mesh_new sliver_face); [apply mb_new|]. unfold sliver.
    assert (H : ok_with (add_face mesh_new sliver_face) (fun _ => true) = true) by (vm_compute; reflexivity).
    destruct (add_face mesh_new sliver_face); [reflexivity|discriminate|discriminate].
  Qed.
  Definition hist_sliver : list (call f32) := calls [
    OAddEntity (ent (vec 0 0 0) vzero n1); OAddEntity (ent (vec 100 0 0) vzero n1);
    OAddCollider (CMesh sliver); OAddCollider (CMesh sliver);
    OLinkCollider (hd 0) (Some (hd 0)); OLinkCollider (hd 1) (Some (hd 1)); OStep n1 ].
End Sliver.
Theorem C09_small_face_refuted :
  forall L : Libm, let N := F32 L in Forall call_ok (hist_sliver L) /\ run (hist_sliver L) system_new = Panic.
Proof.
  intros L N. split; [|vm_compute; reflexivity].
  repeat (apply Forall_cons; [split; [apply in_order_good|first [exact I|exact (sliver_built L)]]|]). constructor.
Qed.
Print Assumptions C09_small_face_refuted.
