(** * Examples: concrete binary32 values and histories used to show that the
    hypotheses of the property theorems can be met.  Nothing is proved about
    the code here. *)
From Coq Require Import ZArith List Bool Permutation.
From Flocq Require Import IEEE754.BinarySingleNaN.
Import ListNotations.
From Verif Require Import Num Vec Res Arena Orient Colliders Collide EntityM SystemM Spec.

(** A hash set that iterates in insertion order. *)
Definition in_order : set_order := fun _ _ l => l.
Lemma in_order_good : good_order in_order.
Proof. intros k h l. apply Permutation_refl. Qed.
(** And one that iterates backwards. *)
Definition backwards : set_order := fun _ _ l => rev l.
Lemma backwards_good : good_order backwards.
Proof. intros k h l. apply Permutation_sym, Permutation_rev. Qed.

Section Values.
  Context {T : Type} {N : Num T}.
  Definition vec (x y z : Z) : Vec3 T := mkV (n_frac x 1) (n_frac y 1) (n_frac z 1).
  (** An entity at [p] with velocity [v] and own mass [m]. *)
  Definition ent (p v : Vec3 T) (m : T) : entity T :=
    mkPE p vzero v vzero [] m (orient_new vzero vzero vzero) n0 mzero false.
  Definition ball (c : Vec3 T) (r m : T) : collider T := CSphere (mkSphere None c r m mat_default).
  Definition floor : collider T := CPlane (mkPlane None vzero (mkV n0 n2 n0) n_inf mat_default).
  Definition crate (m : T) : collider T := CBox (mkBox None vzero vzero (mkV n1 n1 n1) m mat_default).
End Values.
Definition hd (i : nat) : handle := mkH i 0%N.
Definition calls {T} (l : list (op T)) : list (call T) := map (pair in_order) l.

Lemma calls_ok {T} {N : Num T} (l : list (op T)) :
  Forall (fun o => match o with OAddCollider src | OUpdateCollider _ src => collider_built src | _ => True end) l ->
  Forall call_ok (calls l).
Proof.
  intros H. unfold calls. apply Forall_forall. intros c Hc. apply in_map_iff in Hc. destruct Hc as (o & <- & Ho).
  split; [apply in_order_good|]. simpl. rewrite Forall_forall in H. apply (H o Ho).
Qed.

Section Histories.
  Context (L : Libm).
  #[local] Instance N : Num f32 := F32 L.
  (** Two balls with a floor, linked; one is removed and its slot is reused. *)
  Definition hist_store : list (call f32) := calls [
    OAddEntity (ent (vec 0 5 0) (vec 1 0 0) n0);          (* entity 0 *)
    OAddEntity (ent (vec 10 5 0) (vec (-1) 0 0) n1);      (* entity 1 *)
    OAddCollider (ball vzero n1 n2);                      (* collider 0 *)
    OAddCollider (ball (vec 0 1 0) n1 n2);                (* collider 1 *)
    OAddCollider floor;                                   (* collider 2 *)
    OLinkCollider (hd 0) (Some (hd 0));
    OLinkCollider (hd 1) (Some (hd 1));
    OAddGenerator (GenGravity (vec 0 (-10) 0));
    OStep (n_frac 1 10);
    ORemoveEntity (hd 0);                                 (* takes collider 0 with it *)
    OAddEntity (ent (vec 0 7 0) (vec 2 0 0) n1);          (* reuses slot 0 *)
    OUpdateCollider (hd 1) (ball (vec 0 2 0) n1 n4);
    OStep (n_frac 1 10) ].
  Lemma hist_store_ok : Forall call_ok hist_store.
  Proof. apply calls_ok. repeat constructor. Qed.

  Definition state_after (hist : list (call f32)) : system f32 :=
    match run hist system_new with Ok (s, _) => s | _ => system_new end.
  Definition answers (hist : list (call f32)) : list (answer f32) :=
    match run hist system_new with Ok (_, a) => a | _ => [] end.
  Lemma run_state hist : (match run hist system_new with Ok _ => true | _ => false end) = true ->
    run hist system_new = Ok (state_after hist, answers hist).
  Proof. unfold state_after, answers. destruct (run hist system_new) as [[s a]| |]; auto; discriminate. Qed.
  Lemma state_reachable hist : Forall call_ok hist -> (match run hist system_new with Ok _ => true | _ => false end) = true ->
    reachable (state_after hist).
  Proof. intros H1 H2. exists hist, (answers hist). split; auto. now apply run_state. Qed.
End Histories.

(** ** Drift: recomputing the mass of an entity twice gives two different binary32 positions. *)
Section Drift.
  Context (L : Libm).
  #[local] Instance N' : Num f32 := F32 L.
  Definition hist_drift : list (call f32) := calls [
    OAddEntity (ent (mkV (n_frac 4 7) n0 n0) vzero n0);
    OAddCollider (ball (mkV (n_frac 4 10) n0 n0) n1 (n_frac 1 10));
    OAddCollider (ball (mkV (n_frac 12 10) n0 n0) n1 (n_frac 7 10));
    OLinkCollider (hd 0) (Some (hd 0));
    OLinkCollider (hd 1) (Some (hd 0)) ].
  Lemma hist_drift_ok : Forall call_ok hist_drift.
  Proof. apply calls_ok. repeat constructor. Qed.
End Drift.

(** A crude libm, for examples in which things rotate. *)
Definition crude : Libm := {| l_sin := fun x => x; l_cos := fun _ => f32_one; l_atan2 := fun y _ => y |}.

(** ** Sleep: balls 0 and 1 meet, stay in contact and fall asleep (and so does the lonely ball 2);
    then ball 3 hits ball 0, which wakes both 0 and 1, but not 2. *)
Section Sleep.
  #[local] Instance N1 : Num f32 := F32 crude.
  Definition dull : collider f32 := CSphere (mkSphere None vzero n1 n1 (mkMat n0 n0 n0 n0)).
  Definition hist_sleep : list (call f32) := calls [
    OAddEntity (ent (vec 0 0 0) vzero n0);
    OAddEntity (ent (vec 3 0 0) (vec (-1) 0 0) n0);
    OAddEntity (ent (vec 0 50 0) vzero n0);
    OAddCollider dull; OAddCollider dull; OAddCollider dull;
    OLinkCollider (hd 0) (Some (hd 0)); OLinkCollider (hd 1) (Some (hd 1)); OLinkCollider (hd 2) (Some (hd 2));
    OSetEnergyThr (n_frac 1000 1); OSetTimeThr n0;
    OStep (n_frac 3 2);
    OAddEntity (ent (mkV (n_frac (-1) 4) n4 n0) (vec 0 (-3) 0) n0);
    OAddCollider dull;
    OLinkCollider (hd 3) (Some (hd 3)); OSetEnergyThr (n_frac 1 1000);
    OStep n1 ].
  Lemma hist_sleep_ok n : Forall call_ok (firstn n hist_sleep).
  Proof.
    assert (H : Forall call_ok hist_sleep) by (apply calls_ok; repeat constructor).
    rewrite Forall_forall in *. intros c Hc. apply H. rewrite <- (firstn_skipn n). apply in_or_app. now left.
  Qed.
  (** The state after the first [n] calls. *)
  Definition slept_at (n : nat) : system f32 := state_after crude (firstn n hist_sleep).
  Lemma slept_at_run n : n <= 17 -> run (firstn n hist_sleep) system_new = Ok (slept_at n, answers crude (firstn n hist_sleep)).
  Proof. intros H. apply run_state. do 18 (destruct n as [|n]; [vm_compute; reflexivity|]). exfalso. do 17 apply le_S_n in H. inversion H. Qed.
End Sleep.

(** A mesh: the four faces of a tetrahedron. *)
Section MeshExample.
  Context (L : Libm).
  #[local] Instance N'' : Num f32 := F32 L.
  Definition tet_a : Vec3 f32 := vec 0 0 0.
  Definition tet_b : Vec3 f32 := vec 1 0 0.
  Definition tet_c : Vec3 f32 := vec 0 1 0.
  Definition tet_d : Vec3 f32 := vec 0 0 1.
  Definition tet_faces : list (list (Vec3 f32)) :=
    [[tet_a; tet_c; tet_b]; [tet_a; tet_b; tet_d]; [tet_a; tet_d; tet_c]; [tet_b; tet_c; tet_d]].
  Definition tetra : res (mesh_c f32) := rfold (fun m pts => add_face m pts) tet_faces mesh_new.
End MeshExample.

(** Boolean checks, so that only a boolean is computed and read back. *)
Definition is_some {A} (o : option A) : bool := match o with Some _ => true | None => false end.
Lemma is_some_ok {A} (o : option A) : is_some o = true -> o <> None.
Proof. destruct o; simpl; congruence. Qed.
Lemma is_some_ex {A} (o : option A) : is_some o = true -> exists x, o = Some x.
Proof. destruct o; simpl; [eauto|discriminate]. Qed.
Lemma is_none_ok {A} (o : option A) : is_some o = false -> ~ o <> None.
Proof. destruct o; simpl; [discriminate|tauto]. Qed.
Definition ok_with {A} (r : res A) (f : A -> bool) : bool := match r with Ok a => f a | _ => false end.
Lemma ok_with_ex {A} (r : res A) f : ok_with r f = true -> exists a, r = Ok a /\ f a = true.
Proof. destruct r; simpl; [eauto|discriminate|discriminate]. Qed.
Definition some_with {A} (r : option A) (f : A -> bool) : bool := match r with Some a => f a | _ => false end.
Lemma some_with_ex {A} (r : option A) f : some_with r f = true -> exists a, r = Some a /\ f a = true.
Proof. destruct r; simpl; [eauto|discriminate]. Qed.
