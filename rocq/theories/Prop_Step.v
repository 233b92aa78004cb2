(** * Properties of waking, sleeping and stepping: C10-C14, C16, C28, C29, C46, C47.

    Theorems over [T], [N : Num T] and [O : Ord N] hold in particular for
    binary32 ([F32 L], [Ord_F32 L]) and exact arithmetic ([EReal], [Ord_ER]). *)
From Coq Require Import ZArith List Bool Permutation.
From Flocq Require Import IEEE754.BinarySingleNaN.
Import ListNotations.
From Verif Require Import Num Vec Res Arena Orient Colliders Collide EntityM SystemM OrderP Spec Examples
  ResP ArenaP ArithP StoreP Store2P WakeP StepP Step2P Step3P.

(** ** C10 Waking spreads to exactly the connected sleepers and terminates *)
(** No call runs forever, provided the user's own force generators do not. *)
Theorem C10_calls_end : forall (T : Type) (N : Num T) ord (s : system T) o,
  good_order ord -> gens_end s -> exec ord s o <> Fuel.
Proof. exact @nf_exec. Qed.
Print Assumptions C10_calls_end.

(** An update that changes the entity noticeably wakes exactly the connected entities. *)
Theorem C10_update : forall (T : Type) (N : Num T) ord (s : system T) h src s' b e,
  good_order ord -> update_entity ord s h src = Ok (s', b) -> aget (s_ents s) h = Some e ->
  (b = true -> noticed e src -> forall k, connected (s_ents s) h k -> ~ asleep s' k) /\
  (forall k, ~ (b = true /\ noticed e src /\ connected (s_ents s) h k) -> (asleep s' k <-> asleep s k)).
Proof. exact @update_entity_wakes. Qed.
Print Assumptions C10_update.

(** A step wakes exactly the entities connected to one that was struck. *)
Theorem C10_step : forall (T : Type) (N : Num T) (O : Ord N) ord (s : system T) dt s',
  good_order ord -> step ord s dt = Ok s' -> n_lt (n_abs dt) EPSILON = false ->
  forall k, asleep s' k <-> In (DSleep k) (s_debug s') \/ (asleep s k /\ ~ roused s s' k).
Proof. exact @step_sleepers. Qed.
Print Assumptions C10_step.

(** No other call wakes or puts to sleep anything. *)
Theorem C10_others : forall (T : Type) (N : Num T) ord (s : system T) o s' a,
  good_order ord -> reachable s -> exec ord s o = Ok (s', a) ->
  match o with OStep _ | OUpdateEntity _ _ => False | _ => True end ->
  forall k, (asleep s' k -> asleep s k) /\ (asleep s k -> get_entity s' k <> None -> asleep s' k).
Proof. intros T N ord s o s' a Ho R. exact (exec_sleep_frame ord s o s' a Ho (reachable_Inv s R)). Qed.
Print Assumptions C10_others.

Definition nap (s : system f32) (h : handle) : bool := some_with (@get_entity f32 (F32 crude) s h) (fun e => pe_asleep e).
(** Balls 0 and 1 sleep in contact, ball 2 sleeps alone.  Updating 0 wakes 0 and 1; being hit by 3 does too. *)
Example C10_example : let N := F32 crude in
  map (nap (slept_at 16)) [hd 0; hd 1; hd 2; hd 3] = [true; true; true; false] /\
  map (nap (slept_at 17)) [hd 0; hd 1; hd 2; hd 3] = [false; false; true; false] /\
  ok_with (update_entity in_order (slept_at 16) (hd 0) (ent (vec 0 7 0) vzero n0))
    (fun r => snd r && negb (nap (fst r) (hd 0)) && negb (nap (fst r) (hd 1)) && nap (fst r) (hd 2)) = true /\
  exec in_order (slept_at 16) (OStep n1) <> Fuel.
Proof.
  split; [vm_compute; reflexivity|]. split; [vm_compute; reflexivity|]. split; [vm_compute; reflexivity|].
  apply C10_calls_end; [apply in_order_good|]. intros gh g H. exfalso.
  destruct gh as [[|[|[|[|i]]]] g0]; vm_compute in H; try discriminate. destruct i; discriminate.
Qed.
Example C10_step_example : let N := F32 crude in
  ok_with (step in_order (slept_at 16) n1) (fun s => negb (n_lt (n_abs n1) EPSILON) && Nat.eqb (length (s_records s)) 3) = true.
Proof. vm_compute. reflexivity. Qed.

(** ** C11 Sleeping entities do not move *)
Theorem C11_sleepers_still : forall (T : Type) (N : Num T) (O : Ord N) ord (s : system T) dt s',
  good_order ord -> step ord s dt = Ok s' -> n_lt (n_abs dt) EPSILON = false ->
  forall k (e : entity T), get_entity s k = Some e -> pe_asleep e = true -> ~ In (DSleep k) (s_debug s') -> asleep s' k ->
  exists e' : entity T, get_entity s' k = Some e' /\
    e' = mkPE (pe_pos e) (pe_rot e) vzero vzero (pe_colliders e) (pe_own_mass e) (pe_last_orient e)
              (pe_last_total_mass e) (pe_last_prep_moi e) true.
Proof. exact @step_still_pub. Qed.
Print Assumptions C11_sleepers_still.
(** Unless it or something connected to it is struck. *)
Theorem C11_unstruck_still : forall (T : Type) (N : Num T) (O : Ord N) ord (s : system T) dt s',
  good_order ord -> step ord s dt = Ok s' -> n_lt (n_abs dt) EPSILON = false ->
  forall k e, aget (s_ents s) k = Some e -> e_asleep e = true -> ~ roused s s' k ->
  exists e', aget (s_ents s') k = Some e' /\ e_orient e' = e_orient e /\ e_vel e' = vzero /\ e_angvel e' = vzero /\
    e_asleep e' = true /\ e_falling e' = e_falling e /\ e_falling_time e' = e_falling_time e.
Proof. exact @step_still. Qed.
Print Assumptions C11_unstruck_still.
(** Ball 2 of the example sleeps through the second step. *)
Example C11_example : let N := F32 crude in
  nap (slept_at 16) (hd 2) = true /\ nap (slept_at 17) (hd 2) = true /\
  existsb (fun m => match m with DSleep k => heqb k (hd 2) | _ => false end) (s_debug (slept_at 17)) = false.
Proof. vm_compute. auto. Qed.

(** ** C12 Entities fall asleep only after a full low-energy period *)
(** [clock] (Spec.v) accumulates the time of the consecutive low-energy steps. *)
Theorem C12_sleep_period : forall (T : Type) (N : Num T) (O : Ord N) hist s ans ord dt s' h e,
  Forall call_ok hist -> run hist system_new = Ok (s, ans) ->
  good_order ord -> step ord s dt = Ok s' -> n_lt (n_abs dt) EPSILON = false ->
  aget (s_ents s) h = Some e -> e_asleep e = false \/ roused s s' h ->
  (In (DSleep h) (s_debug s') <->
   exists t, clock h (hist ++ [(ord, OStep dt)]) system_new None = Some t /\ n_lt t (s_time_thr s) = false).
Proof. exact @sleep_period. Qed.
Print Assumptions C12_sleep_period.
Theorem C12_only_low_energy : forall (T : Type) (N : Num T) (O : Ord N) ord (s : system T) dt s' h,
  good_order ord -> step ord s dt = Ok s' -> n_lt (n_abs dt) EPSILON = false -> In (DSleep h) (s_debug s') ->
  exists e e', aget (s_ents s) h = Some e /\ (e_asleep e = false \/ roused s s' h) /\
    aget (s_ents s') h = Some e' /\ e_asleep e' = true /\ n_lt (s_energy_thr s) (get_total_energy e') = false.
Proof. exact @sleep_only_awake. Qed.
Print Assumptions C12_only_low_energy.
(** After one low-energy step the clock of ball 2 stands at 0, which has reached the threshold 0. *)
Example C12_example : let N := F32 crude in
  some_with (clock (hd 2) (firstn 12 hist_sleep) system_new None) (fun t => negb (n_lt t n0)) = true /\
  is_some (clock (hd 2) (firstn 11 hist_sleep) system_new None) = false /\
  existsb (fun m => match m with DSleep k => heqb k (hd 2) | _ => false end) (s_debug (slept_at 12)) = true.
Proof. vm_compute. auto. Qed.

(** ** C13 Tiny steps do nothing *)
Theorem C13_tiny_step : forall (T : Type) (N : Num T) ord (s : system T) dt,
  n_lt (n_abs dt) EPSILON = true -> step ord s dt = Ok s.
Proof. exact @step_tiny. Qed.
Print Assumptions C13_tiny_step.
Example C13_example : forall L (N := F32 L), n_lt (n_abs (n_frac (-1) 10000000)) EPSILON = true /\ n_lt (n_abs n0) EPSILON = true.
Proof. intros L N. vm_compute. auto. Qed.

(** ** C14 A step handles at most iteration_max collisions and says when it ran out *)
Theorem C14_iteration_max : forall (T : Type) (N : Num T) (O : Ord N) ord (s : system T) dt s',
  good_order ord -> step ord s dt = Ok s' -> n_lt (n_abs dt) EPSILON = false ->
  length (s_records s') <= s_iteration_max s /\
  (In DRanOut (s_debug s') <-> length (s_records s') = s_iteration_max s).
Proof. exact @step_records. Qed.
Print Assumptions C14_iteration_max.
(** The last step of the example makes three records; allowed only two, it runs out. *)
Example C14_example : let N := F32 crude in
  let s2 := match exec in_order (slept_at 16) (OSetIterationMax 2) with Ok (s, _) => s | _ => slept_at 16 end in
  ok_with (step in_order (slept_at 16) n1) (fun s => Nat.eqb (length (s_records s)) 3 &&
    negb (existsb (fun m => match m with DRanOut => true | _ => false end) (s_debug s))) = true /\
  ok_with (step in_order s2 n1) (fun s => Nat.eqb (length (s_records s)) 2 &&
    existsb (fun m => match m with DRanOut => true | _ => false end) (s_debug s)) = true.
Proof. vm_compute. auto. Qed.

(** ** C16 Collision records name live entities and the right coefficients *)
Theorem C16_records_name : forall (T : Type) (N : Num T) (O : Ord N) ord (s : system T) dt s' r,
  good_order ord -> step ord s dt = Ok s' -> n_lt (n_abs dt) EPSILON = false -> In r (s_records s') ->
  cr_first r <> cr_second r /\ alive KEntity s' (cr_first r) /\ alive KEntity s' (cr_second r) /\
  exists k1 k2 c1 c2, lists_collider s' (cr_first r) k1 /\ lists_collider s' (cr_second r) k2 /\
    get_collider s' k1 = Some c1 /\ get_collider s' k2 = Some c2 /\
    cr_rest r = n_mul (mt_rest (c_mat c1)) (mt_rest (c_mat c2)).
Proof. exact @step_records_name. Qed.
Print Assumptions C16_records_name.
Example C16_example : map (fun r => (cr_first r, cr_second r)) (s_records (slept_at 17)) =
  [(hd 0, hd 3); (hd 0, hd 1); (hd 0, hd 3)].
Proof. vm_compute. reflexivity. Qed.

(** ** C28 The step responds to the earliest approaching collision *)
(** [fin] is true when the iteration found nothing to respond to. *)
Theorem C28_earliest : forall (T : Type) (N : Num T) (O : Ord N) ord cols dt (st st' : lstate T) fin,
  good_order ord -> iterate ord cols dt st = Ok (st', fin) ->
  if fin
  then l_records st' = l_records st /\
       forall x y i1 i2 k1 k2 c, x < y -> nth_error (l_infos st) x = Some i1 -> nth_error (l_infos st) y = Some i2 ->
         meets cols (l_ents st) i1 i2 k1 k2 c -> n_lt (c_time c) n1 = false
  else exists x y i1 i2 k1 k2 c, x < y /\ nth_error (l_infos st) x = Some i1 /\ nth_error (l_infos st) y = Some i2 /\
         meets cols (l_ents st) i1 i2 k1 k2 c /\ n_lt (c_time c) n1 = true /\
         (exists rest im, l_records st' = l_records st ++
           [mkCR (i_h i1) (i_h i2) (c_pos c) (n_mul (n_add (l_ctp st) (n_mul (n_sub n1 (l_ctp st)) (c_time c))) dt) (c_normal c) rest im]) /\
         forall x' y' j1 j2 k1' k2' c', x' < y' -> nth_error (l_infos st) x' = Some j1 -> nth_error (l_infos st) y' = Some j2 ->
           meets cols (l_ents st) j1 j2 k1' k2' c' -> n_lt (c_time c') (c_time c) = false.
Proof. exact @iterate_earliest. Qed.
Print Assumptions C28_earliest.
Theorem C28_approaching : forall (T : Type) (N : Num T) cols (ents : arena (ientity T)) i1 i2 k1 k2 c,
  meets cols ents i1 i2 k1 k2 c ->
  ~ contact ents (i_h i1) (i_h i2) /\ ~ contact ents (i_h i2) (i_h i1) /\
  exists e1 e2, aget ents (i_h i1) = Some e1 /\ aget ents (i_h i2) = Some e2 /\
    n_lt (vdot (vsub (velocity_at e1 (c_pos c)) (velocity_at e2 (c_pos c))) (c_normal c)) EPSILON = false.
Proof. exact @meets_public. Qed.
Print Assumptions C28_approaching.
(** The first iteration of the first step of the example finds the meeting of balls 0 and 1. *)
Definition plan (s : system f32) (dt : f32) : list (info f32) :=
  map (fun h => match @aget _ (s_ents s) h with
                | Some e => mkInfo h (@vscale _ (F32 crude) (e_vel e) dt) (@vscale _ (F32 crude) (e_angvel e) dt) []
                | None => mkInfo h (@vzero _ (F32 crude)) (@vzero _ (F32 crude)) []
                end) (ahandles (s_ents s)).
Example C28_example : let N := F32 crude in
  ok_with (iterate in_order (s_cols (slept_at 11)) n1 (mkL (s_ents (slept_at 11)) (plan (slept_at 11) n2) n2 n0 [] []))
    (fun r => negb (snd r) && Nat.eqb (length (l_records (fst r))) 1) = true.
Proof. vm_compute. reflexivity. Qed.

(** ** C29 Free motion is semi-implicit Euler *)
Theorem C29_free_motion : forall (T : Type) (N : Num T) (O : Ord N) (O2 : Ord2 O) ord (s : system T) dt s',
  good_order ord -> step ord s dt = Ok s' -> n_lt (n_abs dt) EPSILON = false ->
  s_iteration_max s <> 0 -> s_records s' = [] ->
  forall h e, aget (s_ents s) h = Some e -> exists fs e', forces_on s dt h fs /\ aget (s_ents s') h = Some e' /\
    if e_asleep e then exists ns, e' = e_set_sleep (e_set_vels e vzero vzero) true ns
    else exists fa ft a ns, e' = e_set_sleep (e_set_falling (e_set_orient (e_set_vels e (pushed_vel dt fs e) (pushed_angvel dt fs e))
            (mkO (vadd (o_pos (e_orient e)) (vscale (pushed_vel dt fs e) dt))
                 (qmul (qfrom_scaled_axis (vscale (pushed_angvel dt fs e) dt)) (o_rot (e_orient e)))
                 (o_off (e_orient e)))) fa ft) a ns.
Proof. exact @step_free. Qed.
Print Assumptions C29_free_motion.
Definition C29_f32 (L : Libm) := C29_free_motion f32 (F32 L) (Ord_F32 L) (Ord2_F32 L).
Definition C29_er := C29_free_motion ER EReal Ord_ER Ord2_ER.
(** The steps of the first example history are free. *)
Example C29_example : forall L (N := F32 L),
  ok_with (step in_order (state_after L (firstn 8 (hist_store L))) (n_frac 1 10))
    (fun s => Nat.eqb (length (s_records s)) 0 && Nat.eqb (length (ahandles (s_ents s))) 2) = true.
Proof. intros L N. vm_compute. reflexivity. Qed.

(** ** C46 Force generators are asked once per movable entity *)
Theorem C46_asked_once : forall (T : Type) (N : Num T) ord (s : system T) dt s' gh n log,
  step ord s dt = Ok s' -> n_lt (n_abs dt) EPSILON = false ->
  get_generator s gh = Some (logger n log) ->
  exists n', get_generator s' gh = Some (logger n' (log ++ filter (pushable_at s) (ahandles (s_ents s)))).
Proof. exact @step_asks. Qed.
Print Assumptions C46_asked_once.
Theorem C46_unpushed : forall (T : Type) (N : Num T) (O : Ord N) (O2 : Ord2 O) ord (s : system T) dt s' h e,
  good_order ord -> step ord s dt = Ok s' -> n_lt (n_abs dt) EPSILON = false ->
  n_isfin dt = true -> aget (s_ents s) h = Some e -> pushable e = false -> e_asleep e = false ->
  ~ named (s_records s') h -> exists e', aget (s_ents s') h = Some e' /\ vkey (e_vel e') = vkey (e_vel e).
Proof. exact @step_unpushed. Qed.
Print Assumptions C46_unpushed.
(** A logger in a system with two pushable entities. *)
Example C46_example : forall L (N := F32 L),
  let s := match exec in_order (state_after L (firstn 7 (hist_store L))) (OAddGenerator (logger 9 [])) with Ok (s, _) => s | _ => system_new end in
  get_generator s (hd 0) = Some (logger 9 []) /\ map (pushable_at s) (ahandles (s_ents s)) = [true; true] /\
  ok_with (step in_order s (n_frac 1 10)) (fun _ => true) = true.
Proof. intros L N. split; [reflexivity|]. vm_compute. auto. Qed.

(** ** C47 A collision changes only the two entities involved *)
Theorem C47_bystanders : forall (T : Type) (N : Num T) (O : Ord N) ord (s : system T) dt s' h e,
  good_order ord -> step ord s dt = Ok s' -> n_lt (n_abs dt) EPSILON = false ->
  aget (s_ents s) h = Some e -> ~ named (s_records s') h ->
  exists fs e', forces_on s dt h fs /\ aget (s_ents s') h = Some e' /\
    ((e_vel e' = pushed_vel dt fs e /\ e_angvel e' = pushed_angvel dt fs e) \/
     (e_asleep e = true /\ e_asleep e' = true /\ e_vel e' = vzero /\ e_angvel e' = vzero)).
Proof. exact @step_bystander. Qed.
Print Assumptions C47_bystanders.
(** The response to one collision. *)
Theorem C47_respond : forall (T : Type) (N : Num T) dt ta f (st st' : lstate T),
  respond dt ta f st = Ok st' -> forall h, h <> fd_h1 f -> h <> fd_h2 f -> aget (l_ents st') h = aget (l_ents st) h.
Proof. exact @respond_keep. Qed.
Print Assumptions C47_respond.
(** Ball 2 is named in no record of the step from [slept_at 16]. *)
Example C47_example : forallb (fun r => negb (heqb (cr_first r) (hd 2)) && negb (heqb (cr_second r) (hd 2))) (s_records (slept_at 17)) = true.
Proof. vm_compute. reflexivity. Qed.
