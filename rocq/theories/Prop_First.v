(** * Simultaneous collisions: C93.

    The words used here are in Spec.v. *)
From Coq Require Import ZArith List Bool.
Import ListNotations.
From Verif Require Import Num Vec Res Arena RangeM Orient Colliders Collide EntityM SystemM OrderP Spec Examples CaseEx FirstP First2P ReplayEx.

(** ** C93 Of simultaneous collisions the one of the first pair is responded to *)
(** An iteration that responds to a collision responds to one between the entities at places [x] and [y] of the list of moving entities.
    No pair has an earlier one, and no pair before it, in the order of the first place and then of the second, has one at the same time. *)
Theorem C93_first : forall (T : Type) (N : Num T) (O : Ord N) ord cols dt (st st' : lstate T),
  good_order ord -> iterate ord cols dt st = Ok (st', false) ->
  exists x y i1 i2 k1 k2 c, x < y /\ nth_error (l_infos st) x = Some i1 /\ nth_error (l_infos st) y = Some i2 /\
    meets cols (l_ents st) i1 i2 k1 k2 c /\
    (exists time rest im, l_records st' = l_records st ++ [mkCR (i_h i1) (i_h i2) (c_pos c) time (c_normal c) rest im]) /\
    forall x' y' j1 j2 k1' k2' c', x' < y' -> nth_error (l_infos st) x' = Some j1 -> nth_error (l_infos st) y' = Some j2 ->
      meets cols (l_ents st) j1 j2 k1' k2' c' ->
      n_lt (c_time c') (c_time c) = false /\ (x' < x \/ x' = x /\ y' < y -> n_eq (c_time c') (c_time c) = false).
Proof. exact @iterate_first. Qed.
Print Assumptions C93_first.
Definition C93_f32 (L : Libm) := C93_first f32 (F32 L) (Ord_F32 L).
Definition C93_er := C93_first ER EReal Ord_ER.
(** Of the collisions between that pair of entities, the one responded to is between the colliders at places [u] and [v] of the orders in which their hash sets happen to iterate.
    None of them is earlier, and none before it in those orders is at the same time. *)
Theorem C93_colliders : forall (T : Type) (N : Num T) (O : Ord N) ord cols dt (st st' : lstate T),
  good_order ord -> iterate ord cols dt st = Ok (st', false) ->
  exists x y i1 i2 e1 e2 u v k1 k2 c, x < y /\ nth_error (l_infos st) x = Some i1 /\ nth_error (l_infos st) y = Some i2 /\
    aget (l_ents st) (i_h i1) = Some e1 /\ aget (l_ents st) (i_h i2) = Some e2 /\
    nth_error (ord KColliders (i_h i1) (e_colliders e1)) u = Some k1 /\ nth_error (ord KColliders (i_h i2) (e_colliders e2)) v = Some k2 /\
    meets cols (l_ents st) i1 i2 k1 k2 c /\
    (exists time rest im, l_records st' = l_records st ++ [mkCR (i_h i1) (i_h i2) (c_pos c) time (c_normal c) rest im]) /\
    forall u' v' k1' k2' c', nth_error (ord KColliders (i_h i1) (e_colliders e1)) u' = Some k1' ->
      nth_error (ord KColliders (i_h i2) (e_colliders e2)) v' = Some k2' -> meets cols (l_ents st) i1 i2 k1' k2' c' ->
      n_lt (c_time c') (c_time c) = false /\ (u' < u \/ u' = u /\ v' < v -> n_eq (c_time c') (c_time c) = false).
Proof. exact @iterate_first_colliders. Qed.
Print Assumptions C93_colliders.
(** Two pairs of balls that meet at the same time, the outer two and the inner two of four entities: the outer pair is first. *)
Definition C93_calls (N := F32 crude) : list (call f32) := calls [
  OAddEntity (ent (vec 0 0 0) (vec 1 0 0) n1); OAddEntity (ent (vec 0 10 0) (vec 1 0 0) n1);
  OAddEntity (ent (vec 4 10 0) (vec (-1) 0 0) n1); OAddEntity (ent (vec 4 0 0) (vec (-1) 0 0) n1);
  OAddCollider (ball vzero n1 n1); OAddCollider (ball vzero n1 n1); OAddCollider (ball vzero n1 n1); OAddCollider (ball vzero n1 n1);
  OLinkCollider (hd 0) (Some (hd 0)); OLinkCollider (hd 1) (Some (hd 1)); OLinkCollider (hd 2) (Some (hd 2)); OLinkCollider (hd 3) (Some (hd 3));
  OStep n2].
Example C93_example : let N := F32 crude in
  match run C93_calls system_new with
  | Ok (s, _) => map (fun r => (cr_first r, cr_second r, n_eq (cr_time r) n1)) (s_records s)
  | _ => []
  end = [(hd 0, hd 3, true); (hd 1, hd 2, true)].
Proof. vm_compute. reflexivity. Qed.
(** A dumbbell that falls flat on the floor: the first record is of the ball that is linked first, or of the other one when sets iterate backwards. *)
Example C93_colliders_example : let N := F32 crude in
  map (fun hist => match run hist system_new with
    | Ok (s, _) => match s_records s with r :: _ => Some (n_lt n0 (vx (cr_pos r))) | [] => None end
    | _ => None
    end) [hist_dumbbell; reversed hist_dumbbell] = [Some true; Some false].
Proof. vm_compute. reflexivity. Qed.
(** Two pairs of balls, linked crosswise: the ball of the first entity that comes first decides, though it meets the ball of the second entity that comes last. *)
Definition C93_crossed (N := F32 crude) : list (call f32) := calls [
  OAddEntity (ent (vec 0 0 0) (vec 1 0 0) n1); OAddEntity (ent (vec 4 0 0) (vec (-1) 0 0) n1);
  OAddCollider (ball vzero n1 n1); OAddCollider (ball (vec 0 10 0) n1 n1); OAddCollider (ball (vec 0 10 0) n1 n1); OAddCollider (ball vzero n1 n1);
  OLinkCollider (hd 0) (Some (hd 0)); OLinkCollider (hd 1) (Some (hd 0)); OLinkCollider (hd 2) (Some (hd 1)); OLinkCollider (hd 3) (Some (hd 1));
  OStep n2].
Example C93_crossed_example : let N := F32 crude in
  map (fun hist => match run hist system_new with
    | Ok (s, _) => match s_records s with r :: _ => Some (n_lt (vy (cr_pos r)) n1) | [] => None end
    | _ => None
    end) [C93_crossed; reversed C93_crossed] = [Some true; Some false].
Proof. vm_compute. reflexivity. Qed.
