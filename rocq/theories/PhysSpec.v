(** * PhysSpec: rigid bodies, momentum and energy, for the properties about physics.

    Small independent definitions; nothing here is part of the model. *)
From Coq Require Import ZArith Reals List.
Import ListNotations.
From Verif Require Import Num Vec Arena RangeM Orient Colliders Collide EntityM SystemM OrderP Spec RealSpec.
Local Open Scope R_scope.

(** The unit matrix. *)
Definition munit : M := mkM 1 0 0 0 1 0 0 0 1.
Definition symmetric (a : M) : Prop := m12 a = m21 a /\ m13 a = m31 a /\ m23 a = m32 a.
(** Symmetric and positive semidefinite, as inertia tensors are. *)
Definition psd (a : M) : Prop := symmetric a /\ forall x : V, 0 <= vdot x (mulmv a x).
Definition invertible (a : M) : Prop := exists b : M, mulmm a b = munit.

(** A mass an entity can have: positive, possibly infinite. *)
Definition massive (m : ER) : Prop := match m with Fin r => 0 < r | PInf => True | _ => False end.
(** One over the mass; zero for an infinite one. *)
Definition inv_mass (m : ER) : R := match m with Fin r => / r | _ => 0 end.

(** A rigid body: mass, inertia tensor in world space, centre of mass, velocity, angular velocity. *)
Record body := mkBody { b_mass : ER; b_tensor : M; b_pos : V; b_vel : V; b_spin : V }.
Definition is_body (e : ientity ER) (b : body) : Prop :=
  e_total_mass e = b_mass b /\ get_moment e = mfin (b_tensor b) /\ o_pos (e_orient e) = vfin (b_pos b) /\
  e_vel e = vfin (b_vel b) /\ e_angvel e = vfin (b_spin b).
Definition sound (b : body) : Prop := massive (b_mass b) /\ psd (b_tensor b).
(** Same mass, tensor and place. *)
Definition same_inertia (a b : body) : Prop := b_mass a = b_mass b /\ b_tensor a = b_tensor b /\ b_pos a = b_pos b.
(** The velocity of the point [p] of a body. *)
Definition speed_at (b : body) (p : V) : V := vadd (b_vel b) (vcross (b_spin b) (vsub p (b_pos b))).
(** The velocity of the first body relative to the second, at a point. *)
Definition relative (a b : body) (p : V) : V := vsub (speed_at a p) (speed_at b p).
(** Kinetic energy of a body; a body of infinite mass counts as zero (it is only used at rest). *)
Definition kinetic (b : body) : R :=
  match b_mass b with
  | Fin m => 1 / 2 * m * vdot (b_vel b) (b_vel b) + 1 / 2 * vdot (b_spin b) (mulmv (b_tensor b) (b_spin b))
  | _ => 0
  end.
Definition at_rest (b : body) : Prop := b_vel b = mkV 0 0 0 /\ b_spin b = mkV 0 0 0.
(** Bodies whose kinetic energy is all there is: an ordinary body (turning only if it has a proper inertia
    tensor), or an infinitely heavy one at rest. *)
Definition ordinary (b : body) : Prop :=
  match b_mass b with
  | Fin _ => invertible (b_tensor b) \/ b_spin b = mkV 0 0 0
  | _ => b_tensor b = mkM 0 0 0 0 0 0 0 0 0 /\ at_rest b
  end.
(** Angular momentum of a body of mass [m] about the point [q]. *)
Definition angular_momentum (m : R) (b : body) (q : V) : V :=
  vadd (vcross (vsub (b_pos b) q) (vscale (b_vel b) m)) (mulmv (b_tensor b) (b_spin b)).

(** [b'] is [b] after the impulse [j] at the point [p]: momentum changes by [j], angular momentum by its moment;
    an infinite mass keeps its velocity, and a body without a proper tensor its angular velocity. *)
Definition struck_by (b : body) (p j : V) (b' : body) : Prop :=
  same_inertia b' b /\
  match b_mass b with Fin m => vscale (b_vel b') m = vadd (vscale (b_vel b) m) j | _ => b_vel b' = b_vel b end /\
  (invertible (b_tensor b) ->
     mulmv (b_tensor b) (b_spin b') = vadd (mulmv (b_tensor b) (b_spin b)) (vcross (vsub p (b_pos b)) j)) /\
  (~ invertible (b_tensor b) -> b_spin b' = b_spin b).
(** The part of [a] perpendicular to the unit vector [n]. *)
Definition tangential (a n : V) : V := vsub a (vscale n (vdot a n)).

Definition body_at (st : lstate ER) (h : handle) (b : body) : Prop := exists e, aget (l_ents st) h = Some e /\ is_body e b.
(** The step is about to respond to a collision of two different entities, the bodies [b1] and [b2], not both of
    infinite mass, at the point [p] with unit normal [n] and coefficient of restitution [rest]. *)
Definition meeting (st : lstate ER) (f : found ER) (b1 b2 : body) (p n : V) (rest : R) : Prop :=
  fd_h1 f <> fd_h2 f /\ body_at st (fd_h1 f) b1 /\ body_at st (fd_h2 f) b2 /\ sound b1 /\ sound b2 /\
  (b_mass b1 <> PInf \/ b_mass b2 <> PInf) /\ vdot n n = 1 /\
  c_pos (fd_col f) = vfin p /\ c_normal (fd_col f) = vfin n /\ fd_rest f = Fin rest.
(** The friction coefficients of the two materials are numbers and not negative. *)
Definition rough (f : found ER) (cs cd : R) : Prop := fd_stat f = Fin cs /\ fd_dyn f = Fin cd /\ 0 <= cs /\ 0 <= cd.

(** The coefficient that friction uses: the static one if the ratio of the normal speed after the bounce to the sliding speed
    is below the threshold. *)
Definition grip (thr : ER) (cs cd normal slide : R) : R := if er_lt (Fin (Rabs normal / slide)) thr then cs else cd.

(** ** Whole systems *)
(** Mass times velocity of the entity behind [h], as the getter reports it. *)
Definition momentum_of (s : system ER) (h : handle) : Vec3 ER :=
  match get_entity s h with Some e => vscale (pe_vel e) (pe_last_total_mass e) | None => vfin (mkV 0 0 0) end.
(** The total linear momentum. *)
Definition momentum (s : system ER) : Vec3 ER :=
  fold_right (fun h acc => vadd (momentum_of s h) acc) (vfin (mkV 0 0 0)) (ahandles (s_ents s)).
(** All masses are finite and positive. *)
Definition finite_masses (s : system ER) : Prop :=
  forall h e, get_entity s h = Some e -> exists m, pe_last_total_mass e = Fin m /\ 0 < m.
(** No velocity has become infinite or NaN. *)
Definition finite_speeds (s : system ER) : Prop := forall h e, get_entity s h = Some e -> finite_v (pe_vel e).

(** ** Forces *)
(** A public entity with finite mass [m], orientation [o] (with a unit rotation), stored inertia tensor [i0] in local
    directions, velocity [v] and angular velocity [w]. *)
Record rigid (e : entity ER) (m : R) (o : orientation R) (i0 : M) (v w : V) : Prop := {
  rg_mass : pe_last_total_mass e = Fin m; rg_orient : pe_last_orient e = ofin o; rg_unit_o : unit_o o;
  rg_tensor : pe_last_prep_moi e = mfin i0; rg_vel : pe_vel e = vfin v; rg_spin : pe_angvel e = vfin w }.
(** [t] is the tensor [i0] turned by [q]: turning a vector first and then applying [t] is the same as applying [i0] first. *)
Definition turned_tensor (q : Q) (i0 t : M) : Prop := forall x : V, mulmv t (qrot q x) = qrot q (mulmv i0 x).
(** A force and the point it acts on. *)
Definition force_fin (f : V * V) : force ER := mkF (vfin (fst f)) (vfin (snd f)).
(** Every force that the generators can give entity [h] is finite. *)
Definition finite_forces (s : system ER) (dt : ER) (h : handle) : Prop :=
  forall gh f, In gh (ahandles (s_gens s)) -> force_from s dt h gh f -> exists r, f = force_fin r.
(** All generators are gravity, with the accelerations [gs]. *)
Definition gravity_only (s : system ER) (gs : list V) : Prop :=
  Forall2 (fun gh g => get_generator s gh = Some (GenGravity (vfin g))) (ahandles (s_gens s)) gs.

(** ** Masses and centres of mass *)
(** Sum of real numbers. *)
Definition rsum (l : list R) : R := fold_right Rplus 0 l.
(** Mass, centre of mass (in the entity's frame) and inertia tensor of a collider, when these are numbers; the
    colliders' own getters. *)
Record part := mkPart { p_mass : R; p_centre : V; p_tensor : M }.
Definition is_part (s : system ER) (c : handle) (p : part) : Prop :=
  exists k, get_collider s c = Some k /\ c_mass k = Fin (p_mass p) /\ c_com k = vfin (p_centre p) /\ c_moi k = mfin (p_tensor p).
(** [pt] gives the parts of all colliders of [e]. *)
Definition parts_of (s : system ER) (e : entity ER) (pt : handle -> part) : Prop :=
  forall c, In c (pe_colliders e) -> is_part s c (pt c).
Definition parts (e : entity ER) (pt : handle -> part) : list part := map pt (pe_colliders e).
Definition parts_mass (ps : list part) : R := rsum (map p_mass ps).
(** Sum of mass times place in the world, when the entity's frame is [o]. *)
Definition parts_moment (o : orientation R) (ps : list part) : V :=
  vsum (map (fun p => vscale (position_into_world o (p_centre p)) (p_mass p)) ps).
(** Twice the rotational energy at unit speed about the axis [w] through the point [x] of the world: every part
    contributes that about its own centre, and mass times squared distance from the axis. *)
Definition parts_inertia (o : orientation R) (x : V) (ps : list part) (w : V) : R :=
  rsum (map (fun p => let u := direction_into_local o w in let a := vcross w (vsub (position_into_world o (p_centre p)) x) in
    vdot u (mulmv (p_tensor p) u) + p_mass p * vdot a a) ps).
(** A rotation that is a number, and then of length one; or one that is lost, all four components NaN. *)
Definition unit_or_lost (q : Quat ER) : Prop := (exists r, q = qfin r /\ unit_quat r) \/ q = mkQ ENaN ENaN ENaN ENaN.

Section AnyNumbers.
  Context {T : Type} {N : Num T}.
  (** The mass an entity should report, for its own mass and those of its colliders in some order. *)
  Definition total_of (own : T) (ms : list T) : T :=
    if existsb n_isinf ms then n_inf
    else let sum := fold_left n_add ms n0 in if n_lt n0 sum then n_add own sum else own.
End AnyNumbers.
