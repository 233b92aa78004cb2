(** * ContactSpec: what entities know about those they rest on (C66).

    [contact ents a b] (Spec.v): [b] is in the neighbour set of [a]. *)
From Coq Require Import List.
From Verif Require Import Num Arena EntityM SystemM.

(** One of the collisions [rs] is between [h] and [k]. *)
Definition met {T} (rs : list (crecord T)) (h k : handle) : Prop :=
  exists r, In r rs /\ ((cr_first r = h /\ cr_second r = k) \/ (cr_first r = k /\ cr_second r = h)).
