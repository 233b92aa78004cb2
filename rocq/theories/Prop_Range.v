(** * Properties of ranges: C17, C18, C19.

    C17 holds for every arithmetic with an order ([Ord]), in particular binary32
    ([Ord_F32 L], with NaN, infinities and signed zeros) and exact arithmetic.
    C18 and C19 are about exact arithmetic. *)
From Coq Require Import ZArith Reals Bool Lra.
From Verif Require Import Num RangeM OrderP Spec RangeP.
Local Open Scope R_scope.

(** ** C17 Ranges behave as sets of numbers *)
Theorem C17_intersect : forall (T : Type) (N : Num T) (O : Ord N) (a b : range T) x,
  in_range x (rg_intersect a b) = (in_range x a && in_range x b)%bool.
Proof. exact @in_intersect. Qed.
Print Assumptions C17_intersect.

Theorem C17_contain : forall (T : Type) (N : Num T) (O : Ord N) (a b : range T),
  range_made a -> range_made b ->
  (forall x, in_range x a = true -> in_range x (rg_contain a b) = true) /\
  (forall x, in_range x b = true -> in_range x (rg_contain a b) = true) /\
  (forall c, (forall x, in_range x a = true -> in_range x c = true) -> (forall x, in_range x b = true -> in_range x c = true) ->
     forall x, in_range x (rg_contain a b) = true -> in_range x c = true).
Proof.
  intros T N O a b Ma Mb. split; [|split].
  - exact (fun x => in_contain_l a b x Ma Mb).
  - exact (fun x => in_contain_r a b x Ma Mb).
  - exact (fun c => contain_least a b c Ma Mb).
Qed.
Print Assumptions C17_contain.

Theorem C17_constructors : forall (T : Type) (N : Num T) (O : Ord N) (x v b1 b2 : T),
  in_range x rg_empty = false /\
  in_range x (rg_single v) = n_eq x v /\
  in_range x (rg_range b1 b2) = ((n_le b1 x && n_le x b2) || (n_le b2 x && n_le x b1))%bool /\
  in_range x rg_everything = negb (n_isnan x).
Proof.
  intros T N O x v b1 b2. split; [|split; [|split]].
  - exact (in_empty x).
  - exact (in_single v x).
  - exact (in_rg b1 b2 x).
  - exact (in_everything x).
Qed.
Print Assumptions C17_constructors.

Theorem C17_emptiness : forall (T : Type) (N : Num T) (O : Ord N) (r : range T),
  (rg_is_empty r = true <-> n_isnan (r_min r) = true \/ n_isnan (r_max r) = true) /\
  (range_made r -> (rg_is_empty r = true <-> forall x, in_range x r = false)).
Proof. intros T N O r. split; [apply orb_true_iff|exact (is_empty_spec r)]. Qed.
Print Assumptions C17_emptiness.

Theorem C17_ends : forall (T : Type) (N : Num T) (O : Ord N) (r : range T), range_made r ->
  if rg_is_empty r then n_isnan (rg_min r) = true /\ n_isnan (rg_max r) = true /\ rg_size r = n0
  else in_range (rg_min r) r = true /\ in_range (rg_max r) r = true /\ rg_size r = n_sub (rg_max r) (rg_min r) /\
       forall x, in_range x r = (n_le (rg_min r) x && n_le x (rg_max r))%bool.
Proof.
  intros T N O r M. destruct (rg_is_empty r) eqn:E.
  - exact (ends_empty r E).
  - exact (ends_spec r M E).
Qed.
Print Assumptions C17_ends.

(** Binary32: -0 is in the range from 0 to 1, infinity is in everything, NaN is nowhere,
    a range with a NaN bound is empty, and intersecting disjoint ranges gives an empty one. *)
Example C17_example : forall L (N := F32 L),
  in_range (n_neg n0) (rg_range n1 n0) = true /\ in_range n_inf rg_everything = true /\ in_range n_nan rg_everything = false /\
  rg_is_empty (rg_range n_nan n1) = true /\ rg_is_empty (rg_intersect (rg_single n2) (rg_range n0 n1)) = true /\
  in_range nhalf (rg_contain (rg_single n0) (rg_single n1)) = true /\ range_made (rg_contain (rg_single n0) (rg_single n1)).
Proof. intros L N. do 6 (split; [vm_compute; reflexivity|]). repeat constructor. Qed.

(** ** C18 Moving ranges overlap exactly when linear_overlap says *)
(** The second range moves with speed [v]: at time [t] the point [x] is in it when [x - v t] was at the start. *)
Theorem C18_overlap_times : forall (self other : range ER) (v t : R),
  proper self -> proper other -> n_lt (n_abs (Fin v)) EPSILON = false ->
  ~ (r_min self = NInf /\ r_min other = NInf) -> ~ (r_max self = PInf /\ r_max other = PInf) ->
  (in_range (Fin t) (rg_linear_overlap self other (Fin v)) = true <->
   exists x, in_range (Fin x) self = true /\ in_range (Fin (x - v * t)) other = true).
Proof. exact linear_fast. Qed.
Print Assumptions C18_overlap_times.
Theorem C18_slow : forall (self other : range ER) (m : ER) (t : R),
  proper self -> proper other -> n_lt (n_abs m) EPSILON = true ->
  (in_range (Fin t) (rg_linear_overlap self other m) = true <->
   exists x, in_range (Fin x) self = true /\ in_range (Fin x) other = true).
Proof. exact linear_slow. Qed.
Print Assumptions C18_slow.
(** When both ranges are unbounded on the same side they always overlap, but linear_overlap
    leaves times out. *)
Theorem C18_both_unbounded_refuted : exists (self other : range ER) (v t : R),
  proper self /\ proper other /\ n_lt (n_abs (Fin v)) EPSILON = false /\
  (exists x, in_range (Fin x) self = true /\ in_range (Fin (x - v * t)) other = true) /\
  in_range (Fin t) (rg_linear_overlap self other (Fin v)) = false.
Proof.
  exists (mkR NInf (Fin 0)), (mkR NInf (Fin 0)), 1, 1. unfold proper, in_range, rg_linear_overlap, rg_contain, rg_range, rg_is_empty, rg_min, rg_max, rg_is_empty.
  simpl. rewrite Rabs_R1. rdec; simpl; rdec; simpl; try lra; repeat split; auto; try discriminate; exists (-1); rdec; auto; lra.
Qed.
Print Assumptions C18_both_unbounded_refuted.
(** A ball from -1 to 1 and a half line ending at 5, approaching at speed 2: overlap from time 2 on. *)
Example C18_example :
  proper (mkR (Fin (-1)) (Fin 1)) /\ proper (mkR (Fin 5) PInf) /\ n_lt (n_abs (Fin (-2))) EPSILON = false /\
  in_range (Fin 2) (rg_linear_overlap (mkR (Fin (-1)) (Fin 1)) (mkR (Fin 5) PInf) (Fin (-2))) = true /\
  in_range (Fin 1) (rg_linear_overlap (mkR (Fin (-1)) (Fin 1)) (mkR (Fin 5) PInf) (Fin (-2))) = false.
Proof.
  assert (P1 : proper (mkR (Fin (-1)) (Fin 1))) by (unfold proper; simpl; rdec; repeat split; auto; try discriminate; lra).
  assert (P2 : proper (mkR (Fin 5) PInf)) by (unfold proper; simpl; repeat split; auto; discriminate).
  assert (S : n_lt (n_abs (Fin (-2))) EPSILON = false).
  { rewrite eps_val. apply er_lt_fin_f. rewrite Rabs_left; lra. }
  assert (H : forall t, in_range (Fin t) (rg_linear_overlap (mkR (Fin (-1)) (Fin 1)) (mkR (Fin 5) PInf) (Fin (-2))) = true <-> 2 <= t).
  { intros t. rewrite C18_overlap_times; auto; try (simpl; intros [? ?]; discriminate).
    unfold in_range. simpl. split.
    - intros (x & Hx & Hy). revert Hx Hy. rdec; simpl; try discriminate; intros; lra.
    - intros Ht. exists 1. rdec; auto; lra. }
  repeat split; try apply P1; try apply P2; auto.
  - apply H. lra.
  - destruct (in_range _ _) eqn:E; auto. apply H in E. lra.
Qed.

(** ** C19 quadratic_zeros returns the roots *)
Theorem C19_two_roots : forall a b c : R, 1 / 1000000 <= Rabs a -> 1 / 1000000 <= b * b - 4 * a * c ->
  exists x1 x2, rg_quadratic_zeros (Fin a) (Fin b) (Fin c) = mkR (Fin x1) (Fin x2) /\ x1 < x2 /\
    forall x, a * x * x + b * x + c = a * (x - x1) * (x - x2).
Proof. exact qz_two. Qed.
Print Assumptions C19_two_roots.
Theorem C19_no_roots : forall a b c : R, 1 / 1000000 <= Rabs a -> b * b - 4 * a * c < - (1 / 1000000) ->
  rg_is_empty (rg_quadratic_zeros (Fin a) (Fin b) (Fin c)) = true /\ forall x, a * x * x + b * x + c <> 0.
Proof. exact qz_none. Qed.
Print Assumptions C19_no_roots.
Theorem C19_linear : forall a b c : R, Rabs a < 1 / 1000000 -> 1 / 1000000 <= Rabs b ->
  exists x0, rg_quadratic_zeros (Fin a) (Fin b) (Fin c) = mkR (Fin x0) (Fin x0) /\ b * x0 + c = 0 /\ forall x, b * x + c = 0 -> x = x0.
Proof. exact qz_linear. Qed.
Print Assumptions C19_linear.
Theorem C19_inside : forall a b c : R, 1 / 1000000 <= a -> 1 / 1000000 <= b * b - 4 * a * c ->
  forall x, in_range (Fin x) (rg_quadratic_zeros (Fin a) (Fin b) (Fin c)) = true <-> a * x * x + b * x + c <= 0.
Proof. exact qz_inside. Qed.
Print Assumptions C19_inside.
(** What happens inside the tolerance bands. *)
Theorem C19_near_double_root : forall a b c : R, 1 / 1000000 <= Rabs a ->
  - (1 / 1000000) <= b * b - 4 * a * c < 1 / 1000000 ->
  exists x0, rg_quadratic_zeros (Fin a) (Fin b) (Fin c) = mkR (Fin x0) (Fin x0) /\ 2 * a * x0 + b = 0 /\
    Rabs (a * x0 * x0 + b * x0 + c) <= 1 / 4.
Proof. exact qz_vertex. Qed.
Print Assumptions C19_near_double_root.
Theorem C19_constant : forall a b c : R, Rabs a < 1 / 1000000 -> Rabs b < 1 / 1000000 ->
  rg_quadratic_zeros (Fin a) (Fin b) (Fin c) = if Rlt_dec c (1 / 1000000) then rg_everything else rg_empty.
Proof. exact qz_const. Qed.
Print Assumptions C19_constant.
(** x^2 - 5x + 6, x^2 + 1, 2x - 4, (x - 1)^2. *)
Example C19_example :
  1 / 1000000 <= Rabs 1 /\ 1 / 1000000 <= (-5) * (-5) - 4 * 1 * 6 /\ 0 * 0 - 4 * 1 * 1 < - (1 / 1000000) /\
  Rabs 0 < 1 / 1000000 /\ 1 / 1000000 <= Rabs 2 /\ - (1 / 1000000) <= (-2) * (-2) - 4 * 1 * 1 < 1 / 1000000.
Proof. rewrite Rabs_R1, Rabs_R0, (Rabs_pos_eq 2); lra. Qed.
