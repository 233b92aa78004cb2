(** * CycleSpec: the three axes exchanged in a circle (C91).

    Small independent definitions; nothing here is part of the model. *)
From Coq Require Import Reals List.
Import ListNotations.
From Verif Require Import Num Vec Res Arena RangeM Orient Colliders Collide EntityM SystemM Spec RealSpec MoveSpec.

(** What was along the first axis is along the second, what was along the second is along the third, what was along the third is along
    the first: a third of a turn about the diagonal (1, 1, 1). *)
Definition around_v (x : Vec3 ER) : Vec3 ER := mkV (vz x) (vx x) (vy x).
Definition around_q (q : Quat ER) : Quat ER := mkQ (qk q) (qi q) (qj q) (qw q).
Definition around_m (m : Mat3 ER) : Mat3 ER := mkM (m33 m) (m31 m) (m32 m) (m13 m) (m11 m) (m12 m) (m23 m) (m21 m) (m22 m).
Definition around_o (o : orientation ER) : orientation ER := mkO (around_v (o_pos o)) (around_q (o_rot o)) (around_v (o_off o)).
Definition around_collider (c : collider ER) : collider ER :=
  match c with
  | CNull c => CNull (mkNull (nl_ent c) (around_v (nl_pos c)) (nl_mass c) (around_m (nl_moi c)))
  | CSphere c => CSphere (mkSphere (sp_ent c) (around_v (sp_center c)) (sp_radius c) (sp_mass c) (sp_mat c))
  | CPlane c => CPlane (mkPlane (pl_ent c) (around_v (pl_pos c)) (around_v (pl_normal c)) (pl_mass c) (pl_mat c))
  | CMesh c => CMesh (mkMesh (me_ent c) (around_v (me_pos c)) (map around_v (me_verts c)) (me_faces c) (me_edges c) (me_mat c))
  | CBox c => CBox (mkBox (bx_ent c) (around_v (bx_pos c)) (around_v (bx_min c)) (around_v (bx_max c)) (bx_mass c) (bx_mat c))
  end.
Definition around_collision (k : collision ER) : collision ER := mkC (c_times k) (around_v (c_pos k)) (around_v (c_normal k)).
Definition no_box (c : collider ER) : Prop := match c with CBox _ => False | _ => True end.
Definition around_entity (e : entity ER) : entity ER :=
  mkPE (around_v (pe_pos e)) (around_v (pe_rot e)) (around_v (pe_vel e)) (around_v (pe_angvel e)) (pe_colliders e) (pe_own_mass e)
       (around_o (pe_last_orient e)) (pe_last_total_mass e) (around_m (pe_last_prep_moi e)) (pe_asleep e).
Definition around_internal (e : ientity ER) : ientity ER :=
  mkE (around_o (e_orient e)) (e_own_mass e) (e_total_mass e) (around_m (e_prep_moi e)) (around_v (e_vel e)) (around_v (e_angvel e)) (e_colliders e)
      (e_falling e) (e_falling_time e) (e_asleep e) (e_neighbors e).
Definition around_generator (g : generator ER) : generator ER :=
  match g with GenGravity x => GenGravity (around_v x) | g => g end.
Definition around_record (r : crecord ER) : crecord ER :=
  mkCR (cr_first r) (cr_second r) (around_v (cr_pos r)) (cr_time r) (around_v (cr_normal r)) (cr_rest r) (cr_impulse r).
Definition around_system (s : system ER) : system ER :=
  mkS (aeach around_internal (s_ents s)) (aeach around_collider (s_cols s)) (aeach around_generator (s_gens s)) (s_iteration_max s)
      (map around_record (s_records s)) (s_energy_thr s) (s_time_thr s) (s_debug s).
(** The same call, and the same answer, with the axes exchanged. *)
Definition around_op (o : op ER) : op ER :=
  match o with
  | OAddEntity src => OAddEntity (around_entity src)
  | OUpdateEntity h src => OUpdateEntity h (around_entity src)
  | OAddCollider src => OAddCollider (around_collider src)
  | OUpdateCollider h src => OUpdateCollider h (around_collider src)
  | OAddGenerator g => OAddGenerator (around_generator g)
  | o => o
  end.
Definition around_answer (r : answer ER) : answer ER :=
  match r with AGen o => AGen (option_map around_generator o) | r => r end.
Definition around_call (c : call ER) : call ER := (fst c, around_op (snd c)).
(** No boxes in the colliders a call brings in, and no force generators but gravity. *)
Definition boxless_op (o : op ER) : Prop :=
  match o with
  | OAddCollider c | OUpdateCollider _ c => no_box c
  | OAddGenerator g => exists x, g = GenGravity x
  | _ => True
  end.
(** The tensor of inertia of every entity is finite. *)
Definition weighed (s : system ER) : Prop := forall h e, get_entity s h = Some e -> exists m, pe_last_prep_moi e = mfin m.
(** Along a history: it is so whenever a step is asked for. *)
Definition weighed_at_steps (hist : list (call ER)) : Prop :=
  forall k ord dt s ans, nth_error hist k = Some (ord, OStep dt) -> run (firstn k hist) system_new = Ok (s, ans) -> weighed s.
