(** * SpinSpec: words for isolated systems over many steps (C64, C65) and for angular momentum (C82).

    Small independent definitions; nothing here is part of the model. *)
From Coq Require Import Reals List Bool.
Import ListNotations.
From Verif Require Import Num Vec Res Arena Orient Colliders Collide EntityM SystemM OrderP Spec RealSpec PhysSpec TraceSpec.
Local Open Scope R_scope.

(** The steps [l] lead from [s] to [s']; [P] holds before each of them, and all their collisions have a place and a direction. *)
Inductive clean_steps (P : system ER -> Prop) : system ER -> list (set_order * R) -> system ER -> Prop :=
| cs_none s : clean_steps P s [] s
| cs_step s ord d s1 l s' : P s -> good_order ord -> step ord s (Fin d) = Ok s1 -> Forall (clean s) (s_records s1) ->
    clean_steps P s1 l s' -> clean_steps P s ((ord, d) :: l) s'.
(** Nobody is asleep. *)
Definition all_awake (s : system ER) : Prop := forall h e, get_entity s h = Some e -> pe_asleep e = false.

(** Angular momentum about the point [q]: that of the mass in its centre, and that of the spin. *)
Definition spin_moment (m : mover) : V := qrot (o_rot (mv_o m)) (mulmv (mv_tensor m) (qrot (qinv (o_rot (mv_o m))) (mv_spin m))).
Definition mover_moment (q : V) (m : mover) : V :=
  match mv_mass m with
  | Fin x => vadd (vcross (vsub (o_pos (mv_o m)) q) (vscale (mv_vel m) x)) (spin_moment m)
  | _ => mkV 0 0 0
  end.
Definition total_moment (q : V) (hs : list handle) (w : handle -> mover) : V := vsum (map (fun h => mover_moment q (w h)) hs).
(** As hard to turn about any axis. *)
Definition round (m : mover) : Prop := exists k, 0 < k /\ mv_tensor m = mkM k 0 0 0 k 0 0 0 k.
