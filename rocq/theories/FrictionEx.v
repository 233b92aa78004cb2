(** * FrictionEx: two balls that hit a floor alike but for their sliding speed (C77) *)
From Coq Require Import ZArith List Bool.
Import ListNotations.
From Verif Require Import Num Vec Res Arena Orient Colliders Collide EntityM SystemM OrderP Spec Examples.

Section Skid.
  #[local] Instance N5 : Num f32 := F32 crude.
  (** Threshold 1; the static coefficients multiply to 1/4, the dynamic ones to 1/16. *)
  Definition rubber : material f32 := mkMat n1 n1 (n_frac 1 2) (n_frac 1 4).
  Definition hist_skid (halves : Z) : list (call f32) := calls [
    OAddEntity (ent (vec 0 2 0) (mkV (n_frac halves 2) (n_neg n1) n0) n0); OAddEntity (ent vzero vzero n0);
    OAddCollider (CSphere (mkSphere None vzero n1 n1 rubber)); OAddCollider (CPlane (mkPlane None vzero (mkV n0 n1 n0) n_inf rubber));
    OLinkCollider (hd 0) (Some (hd 0)); OLinkCollider (hd 1) (Some (hd 1)) ].
  Definition skid (halves : Z) : system f32 := state_after crude (hist_skid halves).
  (** The ball is of mass 1, slides with [x] and moves up with [y]. *)
  Definition skids (s : system f32) (x y : f32) : bool :=
    some_with (get_entity s (hd 0)) (fun e => n_eq (pe_last_total_mass e) n1 && n_eq (vx (pe_vel e)) x && n_eq (vy (pe_vel e)) y && n_eq (vz (pe_vel e)) n0).
  Lemma skid_reachable halves : halves = 200%Z \/ halves = 1%Z -> reachable (skid halves).
  Proof. intros [-> | ->]; (apply state_reachable; [apply calls_ok; repeat constructor|vm_compute; reflexivity]). Qed.
  Lemma skid_fast : exists s', step in_order (skid 200) n2 = Ok s' /\ length (s_records s') = 1 /\
    skids (skid 200) (n_frac 100 1) (n_neg n1) = true /\ skids s' (n_sub (n_frac 100 1) (n_mul n2 (n_frac 1 4))) n1 = true.
  Proof.
    assert (H : ok_with (step in_order (skid 200) n2) (fun s' => Nat.eqb (length (s_records s')) 1 && skids s' (n_sub (n_frac 100 1) (n_mul n2 (n_frac 1 4))) n1) = true) by (vm_compute; reflexivity).
    destruct (step in_order (skid 200) n2) as [s'| |]; [|discriminate|discriminate]. exists s'. cbv beta iota delta [ok_with] in H. apply andb_true_iff in H. destruct H as (H1 & H2).
    split; [reflexivity|]. split; [now apply Nat.eqb_eq|]. split; [vm_compute; reflexivity|exact H2].
  Qed.
  Lemma skid_slow : exists s', step in_order (skid 1) n2 = Ok s' /\ length (s_records s') = 1 /\
    skids (skid 1) (n_frac 1 2) (n_neg n1) = true /\ skids s' (n_sub (n_frac 1 2) (n_mul n2 (n_frac 1 16))) n1 = true.
  Proof.
    assert (H : ok_with (step in_order (skid 1) n2) (fun s' => Nat.eqb (length (s_records s')) 1 && skids s' (n_sub (n_frac 1 2) (n_mul n2 (n_frac 1 16))) n1) = true) by (vm_compute; reflexivity).
    destruct (step in_order (skid 1) n2) as [s'| |]; [|discriminate|discriminate]. exists s'. cbv beta iota delta [ok_with] in H. apply andb_true_iff in H. destruct H as (H1 & H2).
    split; [reflexivity|]. split; [now apply Nat.eqb_eq|]. split; [vm_compute; reflexivity|exact H2].
  Qed.
  Definition rubbery (s : system f32) (c : handle) : bool :=
    some_with (get_collider s c) (fun k => n_eq (mt_thr (c_mat k)) n1 && n_eq (mt_stat (c_mat k)) (n_frac 1 2) && n_eq (mt_dyn (c_mat k)) (n_frac 1 4)).
  Lemma skid_material halves : halves = 200%Z \/ halves = 1%Z -> rubbery (skid halves) (hd 0) = true /\ rubbery (skid halves) (hd 1) = true.
  Proof. intros [-> | ->]; split; vm_compute; reflexivity. Qed.
End Skid.
