(** * QuarterSpec: a quarter turn about the third axis (C92).

    Small independent definitions; nothing here is part of the model. *)
From Coq Require Import Reals List.
Import ListNotations.
From Verif Require Import Num Vec Res Arena RangeM Orient Colliders Collide EntityM SystemM Spec RealSpec MoveSpec CycleSpec.

(** What was along the first axis is along the second, and what was along the second is along the first, backwards. *)
Definition quarter_v (x : Vec3 ER) : Vec3 ER := mkV (n_neg (vy x)) (vx x) (vz x).
Definition quarter_q (q : Quat ER) : Quat ER := mkQ (n_neg (qj q)) (qi q) (qk q) (qw q).
Definition quarter_m (m : Mat3 ER) : Mat3 ER :=
  mkM (m22 m) (n_neg (m21 m)) (n_neg (m23 m)) (n_neg (m12 m)) (m11 m) (m13 m) (n_neg (m32 m)) (m31 m) (m33 m).
Definition quarter_o (o : orientation ER) : orientation ER := mkO (quarter_v (o_pos o)) (quarter_q (o_rot o)) (quarter_v (o_off o)).
Definition quarter_collider (c : collider ER) : collider ER :=
  match c with
  | CNull c => CNull (mkNull (nl_ent c) (quarter_v (nl_pos c)) (nl_mass c) (quarter_m (nl_moi c)))
  | CSphere c => CSphere (mkSphere (sp_ent c) (quarter_v (sp_center c)) (sp_radius c) (sp_mass c) (sp_mat c))
  | CPlane c => CPlane (mkPlane (pl_ent c) (quarter_v (pl_pos c)) (quarter_v (pl_normal c)) (pl_mass c) (pl_mat c))
  | CMesh c => CMesh (mkMesh (me_ent c) (quarter_v (me_pos c)) (map quarter_v (me_verts c)) (me_faces c) (me_edges c) (me_mat c))
  | CBox c => CBox (mkBox (bx_ent c) (quarter_v (bx_pos c)) (quarter_v (bx_min c)) (quarter_v (bx_max c)) (bx_mass c) (bx_mat c))
  end.
Definition quarter_collision (k : collision ER) : collision ER := mkC (c_times k) (quarter_v (c_pos k)) (quarter_v (c_normal k)).
Definition quarter_entity (e : entity ER) : entity ER :=
  mkPE (quarter_v (pe_pos e)) (quarter_v (pe_rot e)) (quarter_v (pe_vel e)) (quarter_v (pe_angvel e)) (pe_colliders e) (pe_own_mass e)
       (quarter_o (pe_last_orient e)) (pe_last_total_mass e) (quarter_m (pe_last_prep_moi e)) (pe_asleep e).
Definition quarter_internal (e : ientity ER) : ientity ER :=
  mkE (quarter_o (e_orient e)) (e_own_mass e) (e_total_mass e) (quarter_m (e_prep_moi e)) (quarter_v (e_vel e)) (quarter_v (e_angvel e)) (e_colliders e)
      (e_falling e) (e_falling_time e) (e_asleep e) (e_neighbors e).
Definition quarter_generator (g : generator ER) : generator ER :=
  match g with GenGravity x => GenGravity (quarter_v x) | g => g end.
Definition quarter_record (r : crecord ER) : crecord ER :=
  mkCR (cr_first r) (cr_second r) (quarter_v (cr_pos r)) (cr_time r) (quarter_v (cr_normal r)) (cr_rest r) (cr_impulse r).
Definition quarter_system (s : system ER) : system ER :=
  mkS (aeach quarter_internal (s_ents s)) (aeach quarter_collider (s_cols s)) (aeach quarter_generator (s_gens s)) (s_iteration_max s)
      (map quarter_record (s_records s)) (s_energy_thr s) (s_time_thr s) (s_debug s).
(** The same call, and the same answer, after the quarter turn. *)
Definition quarter_op (o : op ER) : op ER :=
  match o with
  | OAddEntity src => OAddEntity (quarter_entity src)
  | OUpdateEntity h src => OUpdateEntity h (quarter_entity src)
  | OAddCollider src => OAddCollider (quarter_collider src)
  | OUpdateCollider h src => OUpdateCollider h (quarter_collider src)
  | OAddGenerator g => OAddGenerator (quarter_generator g)
  | o => o
  end.
Definition quarter_answer (r : answer ER) : answer ER :=
  match r with AGen o => AGen (option_map quarter_generator o) | r => r end.
Definition quarter_call (c : call ER) : call ER := (fst c, quarter_op (snd c)).
