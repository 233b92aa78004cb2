(** * Properties about physics: C30 to C35, C51, C61.  Exact arithmetic.

    The vocabulary is in PhysSpec: [rigid e m o i0 v w] (an entity whose values are numbers), [body], [struck_by b p j b']
    (Newton's and Euler's laws for an impulse), [speed_at], [relative], [kinetic], [angular_momentum], [momentum]. *)
From Coq Require Import ZArith Reals List Bool Lra.
Import ListNotations.
From Verif Require Import Num Vec Res Arena RangeM Orient Colliders Collide EntityM SystemM OrderP Spec RealSpec RealV OrientP PhysSpec Phys2P Phys3P Phys4P Examples RealEx TwoEx FloorEx PhysEx CaseEx.
Local Open Scope R_scope.

(** ** C30 Gravity accelerates everything equally *)
(** [gs]: the accelerations of the generators.  Entities named in a collision record of the step are additionally struck (C33). *)
Theorem C30_gravity : forall ord (s s' : system ER) d h e m o i0 v w gs,
  good_order ord -> step ord s (Fin d) = Ok s' -> n_lt (n_abs (Fin d)) EPSILON = false ->
  gravity_only s gs -> get_entity s h = Some e -> rigid e m o i0 v w -> / 1000000 < m -> pe_asleep e = false -> ~ named (s_records s') h ->
  exists e', get_entity s' h = Some e' /\ pe_vel e' = vfin (vadd v (vscale (vsum gs) d)) /\ pe_angvel e' = vfin w.
Proof. exact step_gravity. Qed.
Print Assumptions C30_gravity.
(** A ball that starts to fall, a quarter of a second. *)
Example C30_C61_example : reachable yard /\ exists s' e, step in_order yard (Fin (1 / 4)) = Ok s' /\ n_lt (n_abs (Fin (1 / 4))) EPSILON = false /\ gravity_only yard [pull] /\
  get_entity yard (hd 0) = Some e /\ rigid e 4 (mkO ball_at (mkQ 0 0 0 1) (mkV 0 0 0)) puck_tensor ball_vel (mkV 0 0 0) /\ pe_asleep e = false /\
  finite_forces yard (Fin (1 / 4)) (hd 0) /\ ~ named (s_records s') (hd 0).
Proof. split; [exact yard_reachable|exact yard_quarter]. Qed.

(** ** C31 Linear momentum is conserved *)
(** Missing from the full property: the velocities after the step have to be numbers (NaN contact positions, infinite
    restitution coefficients and the like make them NaN), and sleeping entities have to be at rest (an entity just put to
    sleep keeps its velocity until the next step takes it away). *)
Theorem C31_momentum_partial : forall ord (s s' : system ER) d,
  good_order ord -> ahandles (s_gens s) = [] -> finite_masses s ->
  (forall h e, get_entity s h = Some e -> pe_asleep e = true -> pe_vel e = vfin (mkV 0 0 0)) ->
  step ord s (Fin d) = Ok s' -> finite_speeds s' -> momentum s' = momentum s.
Proof. exact step_momentum. Qed.
Print Assumptions C31_momentum_partial.
(** Two balls, one at rest, which collide in the step. *)
Example C31_example : reachable (table 1) /\ exists s', step in_order (table 1) (Fin 2) = Ok s' /\ ahandles (s_gens (table 1)) = [] /\ finite_masses (table 1) /\
  (forall h e, get_entity (table 1) h = Some e -> pe_asleep e = false) /\ finite_speeds s' /\ length (s_records s') = 1%nat.
Proof. split; [exact (table_reachable 1)|exact table_speeds]. Qed.

(** ** C32 Angular momentum is conserved in a collision *)
(** Restitution and friction together; linear momentum too.  Missing: bodies whose tensor is singular (own mass only, or
    colliders without mass), for which it is false. *)
Theorem C32_angular_partial : forall dt ta f st st' b1 b2 p n rest, meeting st f b1 b2 p n rest -> respond dt ta f st = Ok st' ->
  forall m1 m2 c, b_mass b1 = Fin m1 -> b_mass b2 = Fin m2 -> invertible (b_tensor b1) -> invertible (b_tensor b2) ->
  exists c1 c2, body_at st' (fd_h1 f) c1 /\ body_at st' (fd_h2 f) c2 /\ same_inertia c1 b1 /\ same_inertia c2 b2 /\
    vadd (angular_momentum m1 c1 c) (angular_momentum m2 c2 c) = vadd (angular_momentum m1 b1 c) (angular_momentum m2 b2 c) /\
    vadd (vscale (b_vel c1) m1) (vscale (b_vel c2) m2) = vadd (vscale (b_vel b1) m1) (vscale (b_vel b2) m2).
Proof. exact respond_angular. Qed.
Print Assumptions C32_angular_partial.
Theorem C32_singular_refuted : exists st' c1 c2,
  meeting (two_bodies lever1 lever2) (contact (mkV 0 0 0) (mkV 0 (-1) 0) 1 0) lever1 lever2 (mkV 0 0 0) (mkV 0 (-1) 0) 1 /\
  1 <= vdot (relative lever1 lever2 (mkV 0 0 0)) (mkV 0 (-1) 0) /\
  respond (Fin 1) (Fin 1) (contact (mkV 0 0 0) (mkV 0 (-1) 0) 1 0) (two_bodies lever1 lever2) = Ok st' /\
  body_at st' (hd 0) c1 /\ body_at st' (hd 1) c2 /\ same_inertia c1 lever1 /\ same_inertia c2 lever2 /\
  vadd (angular_momentum 1 lever1 (mkV 0 0 0)) (angular_momentum 1 lever2 (mkV 0 0 0)) = mkV 0 0 0 /\
  vadd (angular_momentum 1 c1 (mkV 0 0 0)) (angular_momentum 1 c2 (mkV 0 0 0)) = mkV 0 0 (-1).
Proof. exact lever_changes. Qed.
Print Assumptions C32_singular_refuted.

(** ** C33 Restitution reverses the approach speed *)
(** A normal impulse makes the relative normal velocity [-rest] times what it was; then an opposite pair of tangential
    impulses acts; the record says so. *)
Theorem C33_restitution : forall dt ta f st st' b1 b2 p n rest, meeting st f b1 b2 p n rest -> respond dt ta f st = Ok st' ->
  exists k a1 a2 fr c1 c2,
    struck_by b1 p (vscale n k) a1 /\ struck_by b2 p (vneg (vscale n k)) a2 /\
    vdot (relative a1 a2 p) n = - rest * vdot (relative b1 b2 p) n /\
    vdot fr n = 0 /\ struck_by a1 p fr c1 /\ struck_by a2 p (vneg fr) c2 /\
    body_at st' (fd_h1 f) c1 /\ body_at st' (fd_h2 f) c2 /\
    l_records st' = l_records st ++ [mkCR (fd_h1 f) (fd_h2 f) (vfin p) (n_mul (l_ctp st) dt) (vfin n) (Fin rest) (Fin (Rabs k))].
Proof. exact respond_restitution. Qed.
Print Assumptions C33_restitution.

(** ** C34 Frictionless collisions never create energy *)
(** The energy after the restitution impulse, before friction.  Missing: spinning bodies with a singular tensor, for which
    it is false, and moving bodies of infinite mass (which have no finite energy). *)
Theorem C34_restitution_partial : forall dt ta f st st' b1 b2 p n rest, meeting st f b1 b2 p n rest -> respond dt ta f st = Ok st' ->
  ordinary b1 -> ordinary b2 -> 0 <= rest <= 1 ->
  exists k a1 a2 fr c1 c2, struck_by b1 p (vscale n k) a1 /\ struck_by b2 p (vneg (vscale n k)) a2 /\
    vdot (relative a1 a2 p) n = - rest * vdot (relative b1 b2 p) n /\
    kinetic a1 + kinetic a2 <= kinetic b1 + kinetic b2 /\ (rest = 1 -> kinetic a1 + kinetic a2 = kinetic b1 + kinetic b2) /\
    vdot fr n = 0 /\ struck_by a1 p fr c1 /\ struck_by a2 p (vneg fr) c2 /\ body_at st' (fd_h1 f) c1 /\ body_at st' (fd_h2 f) c2.
Proof. exact respond_energy. Qed.
Print Assumptions C34_restitution_partial.
(** Without friction this is the whole response. *)
Theorem C34_frictionless_partial : forall dt ta f st st' b1 b2 p n rest, meeting st f b1 b2 p n rest -> respond dt ta f st = Ok st' ->
  rough f 0 0 -> ordinary b1 -> ordinary b2 -> 0 <= rest <= 1 ->
  exists c1 c2, body_at st' (fd_h1 f) c1 /\ body_at st' (fd_h2 f) c2 /\ same_inertia c1 b1 /\ same_inertia c2 b2 /\
    kinetic c1 + kinetic c2 <= kinetic b1 + kinetic b2 /\ (rest = 1 -> kinetic c1 + kinetic c2 = kinetic b1 + kinetic b2).
Proof. exact respond_frictionless. Qed.
Print Assumptions C34_frictionless_partial.
Theorem C34_spinning_refuted : exists st' c1 c2,
  meeting (two_bodies whirl1 whirl2) (contact (mkV 0 0 0) (mkV 0 (-1) 0) 1 0) whirl1 whirl2 (mkV 0 0 0) (mkV 0 (-1) 0) 1 /\
  1 <= vdot (relative whirl1 whirl2 (mkV 0 0 0)) (mkV 0 (-1) 0) /\
  rough (contact (mkV 0 0 0) (mkV 0 (-1) 0) 1 0) 0 0 /\
  respond (Fin 1) (Fin 1) (contact (mkV 0 0 0) (mkV 0 (-1) 0) 1 0) (two_bodies whirl1 whirl2) = Ok st' /\
  body_at st' (hd 0) c1 /\ body_at st' (hd 1) c2 /\ same_inertia c1 whirl1 /\ same_inertia c2 whirl2 /\
  kinetic whirl1 + kinetic whirl2 = 0 /\ kinetic c1 + kinetic c2 = 9.
Proof. exact whirl_gains. Qed.
Print Assumptions C34_spinning_refuted.

(** ** C35 Friction opposes sliding and is tangential *)
(** The friction impulse is [- q] times the sliding velocity with [q <= 1], and at most a coefficient times
    [(1 + rest) * approach speed].  That bound lacks the division that makes it an impulse, so Coulomb's bound fails. *)
Theorem C35_friction_partial : forall dt ta f st st' b1 b2 p n rest, meeting st f b1 b2 p n rest -> respond dt ta f st = Ok st' ->
  exists k a1 a2 q c1 c2, struck_by b1 p (vscale n k) a1 /\ struck_by b2 p (vneg (vscale n k)) a2 /\
    let s := tangential (relative a1 a2 p) n in let fr := vscale s (- q) in let bound := Rabs ((1 + rest) * vdot (relative b1 b2 p) n) in
    vdot s n = 0 /\ vdot fr n = 0 /\ q <= 1 /\
    (forall cs cd, rough f cs cd -> 0 <= q /\ (vlen fr <= cs * bound \/ vlen fr <= cd * bound)) /\
    (forall cs cd, fd_stat f = Fin cs -> fd_dyn f = Fin cd -> 0 < vlen s ->
       q = Rmin 1 (grip (fd_thr f) cs cd (vdot (relative a1 a2 p) n) (vlen s) * bound / vlen s)) /\
    struck_by a1 p fr c1 /\ struck_by a2 p (vneg fr) c2 /\ body_at st' (fd_h1 f) c1 /\ body_at st' (fd_h2 f) c2 /\
    l_records st' = l_records st ++ [mkCR (fd_h1 f) (fd_h2 f) (vfin p) (n_mul (l_ctp st) dt) (vfin n) (Fin rest) (Fin (Rabs k))].
Proof. exact respond_friction. Qed.
Print Assumptions C35_friction_partial.
(** A body of mass 1/10 slides with friction coefficient 1: normal impulse 1/5, friction impulse 1, and the energy grows. *)
Theorem C35_coulomb_refuted : exists st' c1 c2 r,
  meeting (two_bodies slider ground) (contact (mkV 0 0 0) (mkV 0 (-1) 0) 1 1) slider ground (mkV 0 0 0) (mkV 0 (-1) 0) 1 /\
  1 <= vdot (relative slider ground (mkV 0 0 0)) (mkV 0 (-1) 0) /\
  rough (contact (mkV 0 0 0) (mkV 0 (-1) 0) 1 1) 1 1 /\ ordinary slider /\ ordinary ground /\
  respond (Fin 1) (Fin 1) (contact (mkV 0 0 0) (mkV 0 (-1) 0) 1 1) (two_bodies slider ground) = Ok st' /\
  body_at st' (hd 0) c1 /\ body_at st' (hd 1) c2 /\ same_inertia c1 slider /\ same_inertia c2 ground /\
  l_records st' = [r] /\ cr_impulse r = Fin (1 / 5) /\
  vsub (vscale (b_vel c1) (1 / 10)) (vscale (b_vel slider) (1 / 10)) = mkV (-1) (1 / 5) 0 /\
  kinetic slider + kinetic ground = 1 / 10 /\ kinetic c1 + kinetic c2 = 41 / 10.
Proof. exact slider_breaks_coulomb. Qed.
Print Assumptions C35_coulomb_refuted.
(** Two ordinary bodies, one of them turning, meet off centre. *)
Example C32_to_C35_example : forall rest co, exists st',
  meeting (two_bodies spinner target) (contact (mkV 0 0 0) (mkV 0 (-1) 0) rest co) spinner target (mkV 0 0 0) (mkV 0 (-1) 0) rest /\
  1 <= vdot (relative spinner target (mkV 0 0 0)) (mkV 0 (-1) 0) /\
  respond (Fin 1) (Fin 1) (contact (mkV 0 0 0) (mkV 0 (-1) 0) rest co) (two_bodies spinner target) = Ok st' /\
  ordinary spinner /\ ordinary target /\ invertible (b_tensor spinner) /\ invertible (b_tensor target).
Proof.
  intros rest co. destruct (two_respond spinner target (mkV 0 0 0) (mkV 0 (-1) 0) rest co) as (st' & H). exists st'.
  split; [exact (spinner_meets rest co)|]. split; [exact spinner_approaches|]. split; [exact H|]. split; [exact (proj1 spinner_ordinary)|]. split; [exact (proj2 spinner_ordinary)|]. split; exact invertible_unit.
Qed.

(** ** C61 Newton's second law, and C51 Off-centre forces *)
(** In a step an awake entity that is in no collision changes its velocity by dt / m times the sum of the forces on it; its
    angular velocity does not change if the moments cancel, or if its tensor [t] has no inverse. *)
Theorem C61_newton : forall ord (s s' : system ER) d h e m o i0 v w,
  good_order ord -> step ord s (Fin d) = Ok s' -> n_lt (n_abs (Fin d)) EPSILON = false ->
  get_entity s h = Some e -> rigid e m o i0 v w -> 0 < m -> pe_asleep e = false -> finite_forces s (Fin d) h -> ~ named (s_records s') h ->
  exists fs e' t, forces_on s (Fin d) h (map force_fin fs) /\ get_entity s' h = Some e' /\ turned_tensor (o_rot o) i0 t /\
    pe_vel e' = vfin (vadd v (vscale (vsum (map fst fs)) (d / m))) /\
    (turned (o_rot o) -> invertible t -> pe_angvel e' = vfin (vadd w (vscale (vsum (map (moment_about (o_pos o)) fs)) d))) /\
    (~ invertible t -> pe_angvel e' = vfin w) /\
    (vsum (map (moment_about (o_pos o)) fs) = mkV 0 0 0 -> pe_angvel e' = vfin w).
Proof. exact step_newton. Qed.
Print Assumptions C61_newton.
(** What holds of C51: the change of angular velocity is [dt] times the sum of the moments, so it is right for bodies whose
    inertia is the unit tensor (the code multiplies the moment by the tensor before applying the inverse). *)
Theorem C51_torque_partial : forall ord (s s' : system ER) d h e m o i0 v w,
  good_order ord -> step ord s (Fin d) = Ok s' -> n_lt (n_abs (Fin d)) EPSILON = false ->
  get_entity s h = Some e -> rigid e m o i0 v w -> 0 < m -> pe_asleep e = false -> finite_forces s (Fin d) h -> ~ named (s_records s') h ->
  turned (o_rot o) -> i0 = munit ->
  exists fs e', forces_on s (Fin d) h (map force_fin fs) /\ get_entity s' h = Some e' /\ turned_tensor (o_rot o) i0 munit /\
    pe_angvel e' = vfin (vadd w (vscale (mulmv munit (vsum (map (moment_about (o_pos o)) fs))) d)).
Proof. exact step_torque_unit. Qed.
Print Assumptions C51_torque_partial.
(** A body of mass 2 with the unit tensor, pushed by (0, 1, 0) at (1, 0, 0) by a generator that pushes once. *)
Example C51_example : exists s' e, reachable pushed_once /\ step in_order pushed_once (Fin 1) = Ok s' /\ n_lt (n_abs (Fin 1)) EPSILON = false /\
  get_entity pushed_once (hd 0) = Some e /\ rigid e 2 (rest_o (mkV 0 0 0)) munit (mkV 0 0 0) (mkV 0 0 0) /\ pe_asleep e = false /\
  finite_forces pushed_once (Fin 1) (hd 0) /\ ~ named (s_records s') (hd 0) /\ turned (o_rot (rest_o (mkV 0 0 0))).
Proof. exact pushed_once_step. Qed.
