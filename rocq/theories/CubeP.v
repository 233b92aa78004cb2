(** * CubeP: any of the turns that take the axes to the axes (C92) *)
From Coq Require Import ZArith Reals List Bool Arith Lra Lia.
Import ListNotations.
From Verif Require Import Num Vec Res Arena RangeM Orient Colliders Collide EntityM SystemM OrderP Spec ResP RealSpec RealV PhysSpec MoveSpec MoveP CycleSpec QuarterSpec CubeSpec.
From Verif Require Move3P CycleP Cycle2P Cycle3P QuarterP Quarter2P Quarter3P.
Local Open Scope R_scope.

(** ** Meshes are built the same way *)
Section Built.
  Variable f : Vec3 ER -> Vec3 ER.
  Hypothesis f_zero : f vzero = vzero.
  Hypothesis f_sub : forall x y, vsub (f x) (f y) = f (vsub x y).
  Hypothesis f_dot : forall x y, vdot (f x) (f y) = vdot x y.
  Hypothesis f_mag : forall x, vmag (f x) = vmag x.
  Hypothesis f_cross : forall x y, vcross (f x) (f y) = f (vcross x y).
  Hypothesis f_normalize : forall x, vnormalize (f x) = f (vnormalize x).
  Lemma find_turned p l : forall i, find_vertex (f p) i (map f l) = find_vertex p i l.
  Proof. induction l as [|v l IH]; intros i; [reflexivity|]. cbn [map find_vertex]. rewrite f_sub, f_mag, IH. reflexivity. Qed.
  Lemma points_turned ps : forall vs, add_points (map f vs) (map f ps) = (map f (fst (add_points vs ps)), snd (add_points vs ps)).
  Proof.
    induction ps as [|p ps IH]; intros vs; [reflexivity|]. cbn [map add_points]. rewrite find_turned. destruct (find_vertex p 0 vs) as [i|].
    - rewrite IH. destruct (add_points vs ps) as [v is]. reflexivity.
    - change [f p] with (map f [p]). rewrite <- map_app, IH, map_length. destruct (add_points (vs ++ [p]) ps) as [v is]. reflexivity.
  Qed.
  Lemma nth_turned i l : nth i (map f l) vzero = f (nth i l vzero).
  Proof. rewrite <- f_zero at 1. apply map_nth. Qed.
  Lemma normal_turned a b c : tri_normal (f a) (f b) (f c) = f (tri_normal a b c).
  Proof. unfold tri_normal. now rewrite !f_sub, f_cross, f_normalize. Qed.
  Lemma corner_turned ps n i : corner_ok (map f ps) (f n) i = corner_ok ps n i.
  Proof. unfold corner_ok. cbv zeta. now rewrite map_length, !nth_turned, normal_turned, f_dot. Qed.
  Definition mesh_turned (m : mesh_c ER) : mesh_c ER := mkMesh (me_ent m) (f (me_pos m)) (map f (me_verts m)) (me_faces m) (me_edges m) (me_mat m).
  Lemma face_turned m ps : add_face (mesh_turned m) (map f ps) = returned mesh_turned (add_face m ps).
  Proof.
    unfold add_face. rewrite map_length. destruct (Nat.ltb (length ps) 3); [reflexivity|]. cbv zeta. rewrite !nth_turned, normal_turned.
    assert (E : forall l, forallb (corner_ok (map f ps) (f (tri_normal (nth 0 ps vzero) (nth 1 ps vzero) (nth 2 ps vzero)))) l = forallb (corner_ok ps (tri_normal (nth 0 ps vzero) (nth 1 ps vzero) (nth 2 ps vzero))) l).
    { induction l as [|i l IH]; [reflexivity|]. cbn [forallb]. now rewrite corner_turned, IH. }
    rewrite E. destruct (forallb _ _); [|reflexivity]. cbn [mesh_turned me_verts]. rewrite points_turned. destruct (add_points (me_verts m) ps) as [v is]. reflexivity.
  Qed.
  Lemma built_turned m : mesh_built m -> mesh_built (mesh_turned m).
  Proof.
    intros H. induction H as [|m ps m' H IH E|m e p mt H IH].
    - unfold mesh_turned, mesh_new. cbn [me_ent me_pos me_verts me_faces me_edges me_mat map]. rewrite f_zero. apply mb_new.
    - apply (mb_face (mesh_turned m) (map f ps)); [exact IH|]. rewrite face_turned, E. reflexivity.
    - exact (mb_fields (mesh_turned m) e (f p) mt IH).
  Qed.
End Built.
Lemma call_turned t c : call_ok c -> call_ok (turn_call t c).
Proof.
  destruct c as [ord o]. intros (G & B).
  assert (K : forall c, collider_built c -> collider_built (turn_collider t c)).
  { intros c H. destruct c as [c|c|c|c|c]; destruct t; cbn [turn_collider around_collider quarter_collider collider_built] in *; try exact Logic.I.
    - exact (built_turned around_v CycleP.mv_zero CycleP.mv_sub CycleP.mv_dot CycleP.mv_mag CycleP.mv_cross CycleP.mv_normalize c H).
    - exact (built_turned quarter_v QuarterP.mv_zero QuarterP.mv_sub QuarterP.mv_dot QuarterP.mv_mag QuarterP.mv_cross QuarterP.mv_normalize c H). }
  destruct t; (split; [exact G|]); destruct o; cbn [turn_call around_call quarter_call snd around_op quarter_op] in *; try exact Logic.I; apply K; exact B.
Qed.
Lemma boxless_turned t c : boxless_op (snd c) -> boxless_op (snd (turn_call t c)).
Proof.
  destruct c as [ord o]. destruct t, o as [src|h|h src|src|h|h src|ch x|g|h|dt|n|x|x]; cbn [turn_call around_call quarter_call snd around_op quarter_op boxless_op]; try exact (fun H => H);
    try (destruct src; exact (fun H => H)); intros (a & ->); eexists; reflexivity.
Qed.
Lemma turned_once t hist : Forall call_ok hist -> Forall (fun c => boxless_op (snd c)) hist -> weighed_at_steps hist ->
  run (map (turn_call t) hist) system_new = returned (fun r => (turn_system t (fst r), map (turn_answer t) (snd r))) (run hist system_new).
Proof. destruct t; [apply Cycle3P.around_history|apply Quarter3P.quarter_history]. Qed.
Lemma get_turned t s h : get_entity (turn_system t s) h = option_map (turn_entity t) (get_entity s h).
Proof. destruct t; [apply Cycle2P.get_around|apply Quarter2P.get_quarter]. Qed.
Lemma weighed_turned t s : weighed s -> weighed (turn_system t s).
Proof.
  intros W h e H. rewrite get_turned in H. destruct (get_entity s h) as [x|] eqn:E; [|discriminate]. injection H as <-. destruct (W h x E) as (m & M).
  destruct t; cbn [turn_entity around_entity quarter_entity pe_last_prep_moi]; rewrite M.
  - exists (mkM (m33 m) (m31 m) (m32 m) (m13 m) (m11 m) (m12 m) (m23 m) (m21 m) (m22 m)). reflexivity.
  - exists (mkM (m22 m) (- m21 m) (- m23 m) (- m12 m) (m11 m) (m13 m) (- m32 m) (m31 m) (m33 m)). reflexivity.
Qed.
Lemma Forall_firstn {A} (P : A -> Prop) k : forall l, Forall P l -> Forall P (firstn k l).
Proof. induction k as [|k IH]; intros l H; [constructor|]. destruct H as [|x l Hx H]; [constructor|]. cbn [firstn]. constructor; [exact Hx|exact (IH l H)]. Qed.
Lemma firstn_steps k (hist : list (call ER)) : weighed_at_steps hist -> weighed_at_steps (firstn k hist).
Proof.
  intros W i ord dt s ans N R. assert (L : (i < k)%nat). { apply Nat.nle_gt. intros L. assert (X : nth_error (firstn k hist) i = None) by (apply nth_error_None; rewrite firstn_length; lia). congruence. }
  rewrite firstn_firstn, Nat.min_l in R by lia. apply (W i ord dt s ans); [|exact R]. rewrite <- N. clear - L. revert i L. revert k. induction hist as [|x l IH]; intros k i L.
  - rewrite firstn_nil. reflexivity.
  - destruct k as [|k]; [lia|]. destruct i as [|i]; [reflexivity|]. cbn [nth_error firstn]. apply IH. lia.
Qed.
Lemma steps_turned t hist : Forall call_ok hist -> Forall (fun c => boxless_op (snd c)) hist -> weighed_at_steps hist -> weighed_at_steps (map (turn_call t) hist).
Proof.
  intros C P W k ord dt s ans N R. rewrite nth_error_map in N. destruct (nth_error hist k) as [[ord' o]|] eqn:E; [|discriminate]. cbn [option_map] in N.
  assert (O : ord' = ord /\ o = OStep dt) by (destruct t, o; cbn [turn_call around_call quarter_call fst snd around_op quarter_op] in N; try discriminate N; injection N as -> ->; split; reflexivity).
  destruct O as (-> & ->). rewrite firstn_map in R. rewrite turned_once in R; [|apply Forall_firstn; exact C|apply Forall_firstn; exact P|apply firstn_steps; exact W].
  destruct (run (firstn k hist) system_new) as [[s0 a0]| |] eqn:E0; try discriminate R. cbn [returned fst snd] in R. injection R as <- _. apply weighed_turned. exact (W k ord dt s0 a0 E E0).
Qed.
Lemma turned_all ts hist : Forall call_ok hist -> Forall (fun c => boxless_op (snd c)) hist -> weighed_at_steps hist ->
  (Forall call_ok (map (turns turn_call ts) hist) /\ Forall (fun c => boxless_op (snd c)) (map (turns turn_call ts) hist) /\ weighed_at_steps (map (turns turn_call ts) hist)) /\
  run (map (turns turn_call ts) hist) system_new = returned (fun r => (turns turn_system ts (fst r), map (turns turn_answer ts) (snd r))) (run hist system_new).
Proof.
  intros C P W. induction ts as [|t ts ((C' & P' & W') & IH)].
  - cbn [turns fold_right]. assert (M : map (turns turn_call []) hist = hist) by apply map_id. rewrite M. split; [auto|]. destruct (run hist system_new) as [[s a]| |]; try reflexivity. cbn [returned fst snd].
    f_equal. f_equal. symmetry. apply map_id.
  - assert (M : map (turns turn_call (t :: ts)) hist = map (turn_call t) (map (turns turn_call ts) hist)) by (rewrite map_map; reflexivity). rewrite M. split.
    + split; [|split; [|exact (steps_turned t _ C' P' W')]].
      * apply Forall_map. eapply Forall_impl; [|exact C']. apply call_turned.
      * apply Forall_map. eapply Forall_impl; [|exact P']. intros c. apply boxless_turned.
    + rewrite turned_once by assumption. rewrite IH. destruct (run hist system_new) as [[s a]| |]; try reflexivity. cbn [returned fst snd]. f_equal. f_equal. rewrite map_map. reflexivity.
Qed.
Lemma turned_seen ts hist s ans : Forall call_ok hist -> Forall (fun c => boxless_op (snd c)) hist -> weighed_at_steps hist -> run hist system_new = Ok (s, ans) ->
  exists s', run (map (turns turn_call ts) hist) system_new = Ok (s', map (turns turn_answer ts) ans) /\
    (forall h, get_entity s' h = option_map (turns turn_entity ts) (get_entity s h)) /\ (forall h, get_collider s' h = option_map (turns turn_collider ts) (get_collider s h)) /\
    s_records s' = map (turns turn_record ts) (s_records s).
Proof.
  intros C P W E. exists (turns turn_system ts s). destruct (turned_all ts hist C P W) as (_ & M). rewrite E in M. split; [exact M|]. clear M E. 
  induction ts as [|t ts (A & B & D)].
  - cbn [turns fold_right]. split; [intros h; destruct (get_entity s h); reflexivity|]. split; [intros h; destruct (get_collider s h); reflexivity|]. symmetry. apply map_id.
  - change (turns turn_system (t :: ts) s) with (turn_system t (turns turn_system ts s)). split; [|split].
    + intros h. rewrite get_turned, A. destruct (get_entity s h); reflexivity.
    + intros h. assert (G : get_collider (turn_system t (turns turn_system ts s)) h = option_map (turn_collider t) (get_collider (turns turn_system ts s) h)).
      { unfold get_collider. destruct t; cbn [turn_system around_system quarter_system s_cols turn_collider]; apply Move3P.each_get. }
      rewrite G, B. destruct (get_collider s h); reflexivity.
    + assert (G : s_records (turn_system t (turns turn_system ts s)) = map (turn_record t) (s_records (turns turn_system ts s))) by (destruct t; reflexivity).
      rewrite G, D, map_map. reflexivity.
Qed.
Lemma turned_collide ts c1 s1 e1 c2 s2 e2 : no_box c1 -> no_box c2 ->
  collide (turns turn_collider ts c1) (turns turn_o ts s1) (turns turn_o ts e1) (turns turn_collider ts c2) (turns turn_o ts s2) (turns turn_o ts e2) =
    returned (option_map (turns turn_collision ts)) (collide c1 s1 e1 c2 s2 e2).
Proof.
  intros N1 N2. assert (K : forall c, no_box c -> no_box (turns turn_collider ts c)).
  { intros c H. induction ts as [|t l IH]; [exact H|]. change (turns turn_collider (t :: l) c) with (turn_collider t (turns turn_collider l c)). destruct t, (turns turn_collider l c); exact IH. }
  revert K. induction ts as [|t ts IH]; intros K.
  - cbn [turns fold_right]. destruct (collide c1 s1 e1 c2 s2 e2) as [[k|]| |]; reflexivity.
  - assert (K' : forall c, no_box c -> no_box (turns turn_collider ts c)).
    { intros c H. specialize (K c H). change (turns turn_collider (t :: ts) c) with (turn_collider t (turns turn_collider ts c)) in K. destruct t, (turns turn_collider ts c); exact K. }
    specialize (IH K'). 
    assert (S : forall d1 o1 p1 d2 o2 p2, no_box d1 -> no_box d2 -> collide (turn_collider t d1) (turn_o t o1) (turn_o t p1) (turn_collider t d2) (turn_o t o2) (turn_o t p2) = returned (option_map (turn_collision t)) (collide d1 o1 p1 d2 o2 p2))
      by (intros; destruct t; [now apply CycleP.collide_around|now apply QuarterP.collide_quarter]).
    cbn [turns fold_right] in *. unfold turns in *. rewrite S by auto. rewrite IH. destruct (collide c1 s1 e1 c2 s2 e2) as [[k|]| |]; reflexivity.
Qed.
Lemma rot_turned t (o : orientation ER) : unit_or_lost (o_rot o) -> unit_or_lost (o_rot (turn_o t o)).
Proof.
  intros [(r & Q & U)|Q].
  - left. destruct t; cbn [turn_o around_o quarter_o o_rot]; rewrite Q.
    + exists (mkQ (qk r) (qi r) (qj r) (qw r)). split; [reflexivity|]. unfold unit_quat in *. cbn [qw qi qj qk]. lra.
    + exists (mkQ (- qj r) (qi r) (qk r) (qw r)). split; [reflexivity|]. unfold unit_quat in *. cbn [qw qi qj qk]. lra.
  - right. destruct t; cbn [turn_o around_o quarter_o o_rot]; rewrite Q; reflexivity.
Qed.
Lemma plainly_turned t s : Cycle2P.plainly s -> Cycle2P.plainly (turn_system t s).
Proof.
  intros (B & H & F). split; [|split].
  - intros h c X. assert (G : aget (s_cols (turn_system t s)) h = option_map (turn_collider t) (aget (s_cols s) h)) by (destruct t; apply Move3P.each_get).
    rewrite G in X. destruct (aget (s_cols s) h) as [c0|] eqn:E; [|discriminate]. injection X as <-. specialize (B h c0 E). destruct t, c0; exact B.
  - intros h g X. assert (G : aget (s_gens (turn_system t s)) h = option_map (match t with Around => around_generator | Quarter => quarter_generator end) (aget (s_gens s) h)) by (destruct t; apply Move3P.each_get).
    rewrite G in X. destruct (aget (s_gens s) h) as [g0|] eqn:E; [|discriminate]. injection X as <-. destruct (H h g0 E) as (a & ->). destruct t; eexists; reflexivity.
  - intros h e X. assert (G : aget (s_ents (turn_system t s)) h = option_map (match t with Around => around_internal | Quarter => quarter_internal end) (aget (s_ents s) h)) by (destruct t; apply Move3P.each_get).
    rewrite G in X. destruct (aget (s_ents s) h) as [e0|] eqn:E; [|discriminate]. injection X as <-. destruct (F h e0 E) as (U & m & M). split.
    + apply (rot_turned t) in U. destruct t; exact U.
    + destruct t; cbn [around_internal quarter_internal e_prep_moi]; rewrite M.
      * exists (mkM (m33 m) (m31 m) (m32 m) (m13 m) (m11 m) (m12 m) (m23 m) (m21 m) (m22 m)). reflexivity.
      * exists (mkM (m22 m) (- m21 m) (- m23 m) (- m12 m) (m11 m) (m13 m) (- m32 m) (m31 m) (m33 m)). reflexivity.
Qed.
Lemma turned_step ts ord hist s ans dt : Forall call_ok hist -> Forall (fun c => boxless_op (snd c)) hist -> run hist system_new = Ok (s, ans) -> weighed s ->
  step ord (turns turn_system ts s) dt = returned (turns turn_system ts) (step ord s dt).
Proof.
  intros C P E W. assert (K : Cycle2P.plainly s) by (apply Cycle3P.kept_plainly; [exact (Cycle3P.kept_run hist C P _ _ _ Cycle3P.kept_new E)|exact W]).
  assert (K' : forall l, Cycle2P.plainly (turns turn_system l s)) by (induction l as [|t l IH]; [exact K|exact (plainly_turned t _ IH)]).
  induction ts as [|t ts IH].
  - cbn [turns fold_right]. destruct (step ord s dt); reflexivity.
  - change (turns turn_system (t :: ts) s) with (turn_system t (turns turn_system ts s)).
    assert (S : step ord (turn_system t (turns turn_system ts s)) dt = returned (turn_system t) (step ord (turns turn_system ts s) dt))
      by (destruct t; [exact (Cycle2P.step_around ord _ dt (K' ts))|exact (Quarter2P.step_quarter ord _ dt (K' ts))]).
    rewrite S, IH. destruct (step ord s dt); reflexivity.
Qed.
(** ** Every rotation of the axes is made of these *)
Lemma fin_opp0 : Fin (- 0) = Fin 0.
Proof. now rewrite Ropp_0. Qed.
Lemma fin_opp1 : Fin (- (-1)) = Fin 1.
Proof. f_equal. lra. Qed.
Lemma fin_opp2 : Fin (- (1)) = Fin (-1).
Proof. f_equal. Qed.
Lemma quarter_fin x y z : quarter_v (mkV (Fin x) (Fin y) (Fin z)) = mkV (Fin (- y)) (Fin x) (Fin z).
Proof. reflexivity. Qed.
Lemma around_fin x y z : around_v (mkV (Fin x) (Fin y) (Fin z)) = mkV (Fin z) (Fin x) (Fin y).
Proof. reflexivity. Qed.
Ltac fin_axes := split; unfold vfin, axis_dir; cbn [turns fold_right turn_v vx vy vz]; repeat first [rewrite quarter_fin|rewrite around_fin|rewrite fin_opp0|rewrite fin_opp1|rewrite fin_opp2]; reflexivity.
Lemma all_rotations i j b c : (i < 3)%nat -> (j < 3)%nat -> i <> j -> exists ts,
  turns turn_v ts (vfin (axis_dir 0 false)) = vfin (axis_dir i b) /\ turns turn_v ts (vfin (axis_dir 1 false)) = vfin (axis_dir j c).
Proof.
  intros I J D. destruct i as [|[|[|i]]]; try lia; destruct j as [|[|[|j]]]; try lia; clear I J D; destruct b, c;
  first [exists []; fin_axes
    |exists [Around]; fin_axes
    |exists [Quarter]; fin_axes
    |exists [Around; Around]; fin_axes
    |exists [Quarter; Around]; fin_axes
    |exists [Around; Quarter]; fin_axes
    |exists [Quarter; Quarter]; fin_axes
    |exists [Quarter; Around; Around]; fin_axes
    |exists [Around; Quarter; Around]; fin_axes
    |exists [Quarter; Quarter; Around]; fin_axes
    |exists [Around; Around; Quarter]; fin_axes
    |exists [Around; Quarter; Quarter]; fin_axes
    |exists [Around; Quarter; Around; Around]; fin_axes
    |exists [Quarter; Quarter; Around; Around]; fin_axes
    |exists [Around; Around; Quarter; Around]; fin_axes
    |exists [Around; Quarter; Quarter; Around]; fin_axes
    |exists [Quarter; Around; Around; Quarter]; fin_axes
    |exists [Around; Around; Quarter; Quarter]; fin_axes
    |exists [Around; Around; Quarter; Around; Around]; fin_axes
    |exists [Around; Quarter; Quarter; Around; Around]; fin_axes
    |exists [Around; Around; Quarter; Quarter; Around]; fin_axes
    |exists [Quarter; Quarter; Around; Around; Quarter]; fin_axes
    |exists [Quarter; Around; Around; Quarter; Quarter]; fin_axes
    |exists [Quarter; Around; Around; Quarter; Quarter; Around]; fin_axes].
Qed.
