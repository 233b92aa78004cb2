(** * ReplaySpec: what must not depend on the order of hash sets (C81).

    Small independent definitions; nothing here is part of the model. *)
From Coq Require Import List.
Import ListNotations.
From Verif Require Import Num Vec Res Arena Orient Colliders Collide EntityM SystemM Spec.

Section Replay.
  Context {T : Type} {N : Num T}.
  (** No entity has more than one collider. *)
  Definition slim (s : system T) : Prop := forall h e, get_entity s h = Some e -> (length (pe_colliders e) <= 1)%nat.
  (** ... at any time during the calls [hist]. *)
  Definition slim_along (hist : list (call T)) (s : system T) : Prop :=
    forall n s' ans, run (firstn n hist) s = Ok (s', ans) -> slim s'.
  (** Nobody can tell the two systems apart, except by the log: the same entities, colliders, generators, collision records,
      settings, and the same contacts of sleeping entities. *)
  Definition looks_same (s1 s2 : system T) : Prop :=
    (forall h, get_entity s1 h = get_entity s2 h) /\ (forall h, get_collider s1 h = get_collider s2 h) /\
    (forall h, get_generator s1 h = get_generator s2 h) /\ s_records s1 = s_records s2 /\
    s_iteration_max s1 = s_iteration_max s2 /\ s_energy_thr s1 = s_energy_thr s2 /\ s_time_thr s1 = s_time_thr s2 /\
    (forall h k, contact (s_ents s1) h k <-> contact (s_ents s2) h k).
  (** A call that neither moves things nor gives storage back. *)
  Definition calm (o : op T) : Prop := match o with OStep _ => False | ORemoveEntity _ => False | _ => True end.
End Replay.
