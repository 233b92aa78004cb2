(** * PartSpec: mass, centre and inertia of each kind of collider, from its fields alone *)
From Coq Require Import Reals List.
From Verif Require Import Num Vec Colliders RealSpec.
Local Open Scope R_scope.

(** [x] is the middle of the collider in its entity's frame: as far from one corner of a box as from the opposite one. *)
Definition middle_of (k : collider ER) (x : V) : Prop :=
  match k with
  | CNull c => nl_pos c = vfin x
  | CSphere c => sp_center c = vfin x
  | CPlane c => pl_pos c = vfin x
  | CMesh c => me_pos c = vfin x
  | CBox c => exists p lo hi, bx_pos c = vfin p /\ bx_min c = vfin lo /\ bx_max c = vfin hi /\ vsub x (vadd p lo) = vsub (vadd p hi) x
  end.
(** [t] is its inertia about that point.  Planes and meshes have none; a ball has 2/5 m r (see C40 for what it should be). *)
Definition inertia_of (k : collider ER) (t : M) : Prop :=
  match k with
  | CNull c => nl_moi c = mfin t
  | CSphere c => exists m r, sp_mass c = Fin m /\ sp_radius c = Fin r /\ forall w, mulmv t w = vscale w (2 / 5 * m * r)
  | CPlane _ | CMesh _ => forall w, mulmv t w = mkV 0 0 0
  | CBox c => exists m lo hi, bx_mass c = Fin m /\ bx_min c = vfin lo /\ bx_max c = vfin hi /\
      let d := vsub hi lo in forall w, mulmv t w =
        mkV (m / 12 * (vy d * vy d + vz d * vz d) * vx w) (m / 12 * (vx d * vx d + vz d * vz d) * vy w) (m / 12 * (vx d * vx d + vy d * vy d) * vz w)
  end.
