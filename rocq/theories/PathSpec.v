(** * PathSpec: the path of an entity through a step with collisions (C62).

    Small independent definitions; nothing here is part of the model. *)
From Coq Require Import Reals List.
Import ListNotations.
From Verif Require Import Num Vec Arena Orient SystemM Spec.
Local Open Scope R_scope.

(** Moving for the time [t] with the velocity [v] and the angular velocity [w]. *)
Definition fly (o : orientation ER) (v w : Vec3 ER) (t : R) : orientation ER :=
  mkO (vadd (o_pos o) (vscale v (Fin t))) (qmul (qfrom_scaled_axis (vscale w (Fin t))) (o_rot o)) (o_off o).

(** [path h o v w rs o' v' w' t']: the entity [h] starts at the time 0 with the
    orientation [o] and the velocities [v] and [w].  It flies from each of the
    collisions [rs] to the next, and changes its velocities only in collisions that
    name it.  At the last one, at the time [t'], it has [o'], [v'] and [w']. *)
Inductive path (h : handle) (o : orientation ER) (v w : Vec3 ER) :
    list (crecord ER) -> orientation ER -> Vec3 ER -> Vec3 ER -> R -> Prop :=
| path_start : path h o v w [] o v w 0
| path_next : forall rs r o1 v1 w1 t1 v2 w2 t2,
    path h o v w rs o1 v1 w1 t1 ->
    cr_time r = Fin t2 ->
    (~ named [r] h -> v2 = v1 /\ w2 = w1) ->
    path h o v w (rs ++ [r]) (fly o1 v1 w1 (t2 - t1)) v2 w2 t2.
