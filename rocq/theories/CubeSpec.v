(** * CubeSpec: the turns that take the axes to the axes (C92).

    Small independent definitions; nothing here is part of the model. *)
From Coq Require Import Reals List.
Import ListNotations.
From Verif Require Import Num Vec Res Arena RangeM Orient Colliders Collide EntityM SystemM Spec RealSpec MoveSpec CycleSpec QuarterSpec.

(** A third of a turn about the diagonal, or a quarter turn about the third axis. *)
Inductive turning := Around | Quarter.
Definition turn_v (t : turning) : Vec3 ER -> Vec3 ER := match t with Around => around_v | Quarter => quarter_v end.
Definition turn_collider (t : turning) : collider ER -> collider ER := match t with Around => around_collider | Quarter => quarter_collider end.
Definition turn_o (t : turning) : orientation ER -> orientation ER := match t with Around => around_o | Quarter => quarter_o end.
Definition turn_collision (t : turning) : collision ER -> collision ER := match t with Around => around_collision | Quarter => quarter_collision end.
Definition turn_entity (t : turning) : entity ER -> entity ER := match t with Around => around_entity | Quarter => quarter_entity end.
Definition turn_record (t : turning) : crecord ER -> crecord ER := match t with Around => around_record | Quarter => quarter_record end.
Definition turn_system (t : turning) : system ER -> system ER := match t with Around => around_system | Quarter => quarter_system end.
Definition turn_answer (t : turning) : answer ER -> answer ER := match t with Around => around_answer | Quarter => quarter_answer end.
Definition turn_call (t : turning) : call ER -> call ER := match t with Around => around_call | Quarter => quarter_call end.
(** Several, the last one in the list first. *)
Definition turns {A} (f : turning -> A -> A) (ts : list turning) (x : A) : A := fold_right f x ts.
(** One of the three axes, or its opposite. *)
Definition axis_dir (i : nat) (back : bool) : V :=
  let s := if back then (-1)%R else 1%R in
  match i with 0 => mkV s 0%R 0%R | 1 => mkV 0%R s 0%R | _ => mkV 0%R 0%R s end.
