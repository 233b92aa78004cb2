(** * LogSpec: what the debug log should say (C71) *)
From Coq Require Import List.
Import ListNotations.
From Verif Require Import Num Vec Res Arena Orient Colliders Collide EntityM SystemM Spec.

Lemma dmsg_dec (x y : dmsg) : {x = y} + {x <> y}.
Proof. repeat decide equality. Qed.

Section LogSpec.
  Context {T : Type} {N : Num T}.
  Definition sleeping (ents : arena (ientity T)) (k : handle) : Prop := exists e, aget ents k = Some e /\ e_asleep e = true.
  Definition immovable (ents : arena (ientity T)) (k : handle) : Prop :=
    exists e, aget ents k = Some e /\ n_isinf (e_total_mass e) = true.
  (** [l] reports that of the entities [ents] those of [W] were woken: one message for each of them
      that slept, and one for each contact of theirs with an infinitely heavy entity, which forgets it. *)
  Definition wake_report (ents : arena (ientity T)) (W : handle -> Prop) (l : list dmsg) : Prop :=
    (forall m, In m l -> match m with DWaking _ | DRemoved _ _ => True | _ => False end) /\
    (forall k, In (DWaking k) l <-> W k /\ sleeping ents k) /\
    (forall k, count_occ dmsg_dec l (DWaking k) <= 1) /\
    (forall k n, In (DRemoved k n) l <-> W k /\ contact ents k n /\ immovable ents n /\ ~ W n).
End LogSpec.
