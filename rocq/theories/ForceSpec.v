(** * ForceSpec: the conversation with the force generators in a step (C72) *)
From Coq Require Import List.
Import ListNotations.
From Verif Require Import Num Vec Res Arena Orient Colliders Collide EntityM SystemM Spec.

Section ForceSpec.
  Context {T : Type} {N : Num T}.

  (** One question to a generator: the entity asked about, the generator, what it was shown, the
      force it answered, and the generator afterwards. *)
  Record asked := mkAsk { q_h : handle; q_gh : handle; q_view : view T; q_force : force T; q_next : generator T }.

  (** The forces answered for entity [h], in order. *)
  Definition forces_in (qs : list asked) (h : handle) : list (force T) :=
    map q_force (filter (fun q => heqb h (q_h q)) qs).
  (** The generator [gh] after the conversation. *)
  Definition gen_after (s : system T) (qs : list asked) (gh : handle) : option (generator T) :=
    fold_left (fun g q => if heqb gh (q_gh q) then Some (q_next q) else g) qs (get_generator s gh).
  (** The handles that come before [h] in the list. *)
  Fixpoint upto (h : handle) (l : list handle) : list handle :=
    match l with [] => [] | x :: l => if heqb h x then [] else x :: upto h l end.
  (** The entities served before [h] already have their new velocities; the others look as in [s]. *)
  Definition served (s : system T) (dt : T) (qs : list asked) (h k : handle) (e : ientity T) : ientity T :=
    if hmem k (upto h (ahandles (s_ents s)))
    then e_set_vels e (pushed_vel dt (forces_in qs k) e) (pushed_angvel dt (forces_in qs k) e) else e.
  Definition sees (s : system T) (dt : T) (qs : list asked) (h : handle) (w : view T) : Prop :=
    (forall k, w_entity w k = option_map (fun e => make_pub (served s dt qs h k e)) (aget (s_ents s) k)) /\
    (forall c, w_collider w c = get_collider s c) /\
    w_iteration_max w = s_iteration_max s /\ w_energy_thr w = s_energy_thr s /\ w_time_thr w = s_time_thr s.
  (** A conversation in which every question shows the present state and gets the generator's answer. *)
  Inductive talk (s : system T) (dt : T) : list asked -> Prop :=
    | talk_start : talk s dt []
    | talk_ask qs q g : talk s dt qs -> gen_after s qs (q_gh q) = Some g -> sees s dt qs (q_h q) (q_view q) ->
        make_force g dt (q_view q) (q_h q) = Ok (q_force q, q_next q) -> talk s dt (qs ++ [q]).

  (** An entity without its velocities, and a view that differs from the state of [s] in the velocities alone. *)
  Definition still (e : entity T) : entity T :=
    mkPE (pe_pos e) (pe_rot e) vzero vzero (pe_colliders e) (pe_own_mass e) (pe_last_orient e) (pe_last_total_mass e) (pe_last_prep_moi e) (pe_asleep e).
  Definition still_like (s : system T) (w : view T) : Prop :=
    (forall k, option_map still (w_entity w k) = option_map still (get_entity s k)) /\ (forall c, w_collider w c = get_collider s c) /\
    w_iteration_max w = s_iteration_max s /\ w_energy_thr w = s_energy_thr s /\ w_time_thr w = s_time_thr s.
  (** The generators answer [F] in the state [s], however fast the entities move. *)
  Definition forces_of_place (s : system T) (dt : T) (F : handle -> handle -> Vec3 T) : Prop :=
    forall gh g g1 w h f g2, get_generator s gh = Some g -> becomes g g1 -> pushable_at s h = true -> still_like s w ->
      make_force g1 dt w h = Ok (f, g2) -> f_force f = F gh h.
End ForceSpec.
Arguments asked : clear implicits.
