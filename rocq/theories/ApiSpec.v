(** * ApiSpec: which part of the system each call may change (C73), and the documented defaults (C75) *)
From Coq Require Import ZArith List.
Import ListNotations.
From Verif Require Import Num Vec Res Arena Orient Colliders Collide EntityM SystemM.

Section ApiSpec.
  Context {T : Type} {N : Num T}.
  Definition settings (s : system T) : nat * T * T := (s_iteration_max s, s_energy_thr s, s_time_thr s).
  Definition new_settings (s : system T) (o : op T) : nat * T * T :=
    match o with
    | OSetIterationMax n => (n, s_energy_thr s, s_time_thr s)
    | OSetEnergyThr x => (s_iteration_max s, x, s_time_thr s)
    | OSetTimeThr x => (s_iteration_max s, s_energy_thr s, x)
    | _ => settings s
    end.
  Definition may_record (o : op T) : Prop := match o with OStep _ => True | _ => False end.
  Definition may_log (o : op T) : Prop := match o with OStep _ | OUpdateEntity _ _ => True | _ => False end.
  Definition may_change_generators (o : op T) : Prop :=
    match o with OStep _ | OAddGenerator _ | ORemoveGenerator _ => True | _ => False end.
  Definition may_change_colliders (o : op T) : Prop :=
    match o with
    | OAddCollider _ | ORemoveCollider _ | OUpdateCollider _ _ | OLinkCollider _ _ | ORemoveEntity _ => True
    | _ => False
    end.
  Definition may_change_entities (o : op T) : Prop :=
    match o with
    | OAddEntity _ | ORemoveEntity _ | OUpdateEntity _ _ | OUpdateCollider _ _ | OLinkCollider _ _ | OStep _ => True
    | _ => False
    end.

  (** The defaults the documentation gives.  entity.rs:269-324: everything zero, empty, unmoved, awake. *)
  Definition doc_entity : entity T :=
    mkPE vzero vzero vzero vzero [] n0 (mkO vzero (mkQ n0 n0 n0 n1) vzero) n0 mzero false.
  (** restitution, friction threshold, static and dynamic friction: sphere_collider.rs:145-163 *)
  Definition doc_sphere_material : material T := mkMat n1 (n_frac 1%Z 4%positive) n1 (n_frac 3%Z 10%positive).
  (** aligned_box_collider.rs:181-199, mesh_collider.rs:161-179, plane_collider.rs:150-168 *)
  Definition doc_material : material T := mkMat n1 n1 (n_frac 1%Z 4%positive) (n_frac 3%Z 10%positive).
End ApiSpec.
