(** * MirrorSpec: the world seen in mirrors across the axes (C90).

    Small independent definitions; nothing here is part of the model. *)
From Coq Require Import Reals List Bool.
Import ListNotations.
From Verif Require Import Num Vec Res Arena RangeM Orient Colliders Collide EntityM SystemM Spec RealSpec MoveSpec.

(** Which of the three axes are turned round: one is a mirror, two a half turn, three a reflection in a point. *)
Record axes := mkAx { ax1 : bool; ax2 : bool; ax3 : bool }.
Definition turned (b : bool) (x : ER) : ER := if b then n_neg x else x.
(** Points and arrows: each turned axis changes sign. *)
Definition mirror_v (a : axes) (x : Vec3 ER) : Vec3 ER := mkV (turned (ax1 a) (vx x)) (turned (ax2 a) (vy x)) (turned (ax3 a) (vz x)).
(** Turns about an axis: a turn about x changes sense when exactly one of y and z is turned round. *)
Definition mirror_w (a : axes) (x : Vec3 ER) : Vec3 ER :=
  mkV (turned (xorb (ax2 a) (ax3 a)) (vx x)) (turned (xorb (ax1 a) (ax3 a)) (vy x)) (turned (xorb (ax1 a) (ax2 a)) (vz x)).
Definition mirror_q (a : axes) (q : Quat ER) : Quat ER :=
  mkQ (turned (xorb (ax2 a) (ax3 a)) (qi q)) (turned (xorb (ax1 a) (ax3 a)) (qj q)) (turned (xorb (ax1 a) (ax2 a)) (qk q)) (qw q).
(** Tensors of inertia. *)
Definition mirror_m (a : axes) (m : Mat3 ER) : Mat3 ER :=
  let xy := xorb (ax1 a) (ax2 a) in let xz := xorb (ax1 a) (ax3 a) in let yz := xorb (ax2 a) (ax3 a) in
  mkM (m11 m) (turned xy (m12 m)) (turned xz (m13 m)) (turned xy (m21 m)) (m22 m) (turned yz (m23 m)) (turned xz (m31 m)) (turned yz (m32 m)) (m33 m).
Definition mirror_o (a : axes) (o : orientation ER) : orientation ER := mkO (mirror_v a (o_pos o)) (mirror_q a (o_rot o)) (mirror_v a (o_off o)).
Definition mirror_entity (a : axes) (e : entity ER) : entity ER :=
  mkPE (mirror_v a (pe_pos e)) (mirror_w a (pe_rot e)) (mirror_v a (pe_vel e)) (mirror_w a (pe_angvel e)) (pe_colliders e) (pe_own_mass e)
       (mirror_o a (pe_last_orient e)) (pe_last_total_mass e) (mirror_m a (pe_last_prep_moi e)) (pe_asleep e).
Definition mirror_internal (a : axes) (e : ientity ER) : ientity ER :=
  mkE (mirror_o a (e_orient e)) (e_own_mass e) (e_total_mass e) (mirror_m a (e_prep_moi e)) (mirror_v a (e_vel e)) (mirror_w a (e_angvel e)) (e_colliders e)
      (e_falling e) (e_falling_time e) (e_asleep e) (e_neighbors e).
(** The corners of a mesh move, its faces and edges name the same corners.  Boxes are left out. *)
Definition mirror_collider (a : axes) (c : collider ER) : collider ER :=
  match c with
  | CNull c => CNull (mkNull (nl_ent c) (mirror_v a (nl_pos c)) (nl_mass c) (mirror_m a (nl_moi c)))
  | CSphere c => CSphere (mkSphere (sp_ent c) (mirror_v a (sp_center c)) (sp_radius c) (sp_mass c) (sp_mat c))
  | CPlane c => CPlane (mkPlane (pl_ent c) (mirror_v a (pl_pos c)) (mirror_v a (pl_normal c)) (pl_mass c) (pl_mat c))
  | CMesh c => CMesh (mkMesh (me_ent c) (mirror_v a (me_pos c)) (map (mirror_v a) (me_verts c)) (me_faces c) (me_edges c) (me_mat c))
  | CBox c => CBox c
  end.
Definition mirror_generator (a : axes) (g : generator ER) : generator ER :=
  match g with GenGravity x => GenGravity (mirror_v a x) | g => g end.
Definition mirror_record (a : axes) (r : crecord ER) : crecord ER :=
  mkCR (cr_first r) (cr_second r) (mirror_v a (cr_pos r)) (cr_time r) (mirror_v a (cr_normal r)) (cr_rest r) (cr_impulse r).
Definition mirror_collision (a : axes) (k : collision ER) : collision ER := mkC (c_times k) (mirror_v a (c_pos k)) (mirror_v a (c_normal k)).
Definition mirror_system (a : axes) (s : system ER) : system ER :=
  mkS (aeach (mirror_internal a) (s_ents s)) (aeach (mirror_collider a) (s_cols s)) (aeach (mirror_generator a) (s_gens s)) (s_iteration_max s)
      (map (mirror_record a) (s_records s)) (s_energy_thr s) (s_time_thr s) (s_debug s).
(** The same call, and the same answer, in the mirror. *)
Definition mirror_op (a : axes) (o : op ER) : op ER :=
  match o with
  | OAddEntity src => OAddEntity (mirror_entity a src)
  | OUpdateEntity h src => OUpdateEntity h (mirror_entity a src)
  | OAddCollider src => OAddCollider (mirror_collider a src)
  | OUpdateCollider h src => OUpdateCollider h (mirror_collider a src)
  | OAddGenerator g => OAddGenerator (mirror_generator a g)
  | o => o
  end.
Definition mirror_answer (a : axes) (r : answer ER) : answer ER :=
  match r with AGen o => AGen (option_map (mirror_generator a) o) | r => r end.
Definition mirror_call (a : axes) (c : call ER) : call ER := (fst c, mirror_op a (snd c)).

(** Nothing changes hands: no axis or two axes are turned round. *)
Definition half_turn (a : axes) : Prop := xorb (ax1 a) (xorb (ax2 a) (ax3 a)) = false.
(** No boxes; meshes only when nothing changes hands ... *)
Definition even_shape (a : axes) (c : collider ER) : Prop := match c with CNull _ | CSphere _ | CPlane _ => True | CMesh _ => half_turn a | CBox _ => False end.
(** ... in the colliders a call brings in; and no force generators but gravity. *)
Definition even_op (a : axes) (o : op ER) : Prop :=
  match o with
  | OAddCollider c | OUpdateCollider _ c => even_shape a c
  | OAddGenerator g => exists x, g = GenGravity x
  | _ => True
  end.
