(** * Flat meshes and boxes as whole colliders *)
From Coq Require Import ZArith Reals List Bool Arith Lra Lia Psatz.
Import ListNotations.
From Verif Require Import Num Vec Res RangeM Orient Colliders Collide OrderP Spec RangeP ResP MeshP CollideP RealSpec RealV OrientP Orient2P GeomP Geom2P Geom3P Geom4P Geom5P Geom6P.
Local Open Scope R_scope.
(** A triangle lying on a plane: the position is NaN. *)
Lemma flat_mesh_nan : exists k, collide (CMesh triangle) (still (mkV 0 0 0)) (still (mkV 0 0 0)) (CPlane ground) (still (mkV 0 0 0)) (still (mkV 0 0 0)) = Ok (Some k) /\
  c_pos k = mkV ENaN ENaN ENaN.
Proof.
  pose proof (collide_mesh_plane triangle ground [mkV 0 0 0; mkV 1 0 0; mkV 0 1 0] (mkV 0 0 0) (mkV 0 0 0) (mkV 0 0 1) (rest_o (mkV 0 0 0)) (rest_o (mkV 0 0 0)) (rest_o (mkV 0 0 0)) (rest_o (mkV 0 0 0))
    eq_refl eq_refl ltac:(discriminate) eq_refl eq_refl 0 0 0 0) as S. cbv beta zeta in S.
  assert (Hh : forall t, map (fun x => vdot (vsub x (along (position_into_world (rest_o (mkV 0 0 0)) (mkV 0 0 0)) (position_into_world (rest_o (mkV 0 0 0)) (mkV 0 0 0)) t)) (mkV 0 0 1))
     (at_time (mesh_moves (mkV 0 0 0) [mkV 0 0 0; mkV 1 0 0; mkV 0 1 0] (rest_o (mkV 0 0 0)) (rest_o (mkV 0 0 0))) t) = [0; 0; 0]).
  { intros t. unfold mesh_moves, at_time. cbn [map fst snd]. rewrite !rest_world. unfold along.
    assert (X : forall a b c : R, a = 0 -> b = 0 -> c = 0 -> [a; b; c] = [0; 0; 0]) by (intros; subst; auto). apply X; vunfold; ring. }
  rewrite !Hh in S. assert (L : lowest [0; 0; 0] 0) by (split; [now left|intros e [<-|[<-|[<-|[]]]]; lra]).
  assert (H : highest [0; 0; 0] 0) by (split; [now left|intros e [<-|[<-|[<-|[]]]]; lra]).
  specialize (S L H L H ltac:(left; lra)). unfold still.
  destruct (collide _ _ _ _ _ _) as [[k|]| |]; try contradiction.
  - exists k. split; auto. destruct S as (t & _ & _ & _ & _ & S). apply S. auto.
  - exfalso. specialize (S 0 ltac:(lra)). lra.
Qed.

(** ** Spheres and boxes *)
Section Boxes.
  Variables (s : sphere_c ER) (b : box_c ER) (cs mn mx : V) (r : R) (s1 e1 s2 e2 : orientation R).
  Hypothesis Hc : sp_center s = vfin cs. Hypothesis Hr : sp_radius s = Fin r. Hypothesis Hmn : bx_min b = vfin mn. Hypothesis Hmx : bx_max b = vfin mx.
  Hypothesis R0 : 0 <= r. Hypothesis Hx : vx mn < vx mx. Hypothesis Hy : vy mn < vy mx. Hypothesis Hz : vz mn < vz mx.
  (** The centre of the ball as seen from the box. *)
  Let from := position_into_local s2 (position_into_world s1 cs).
  Let to := position_into_local e2 (position_into_world e1 cs).
  Hypothesis Sx : speedy (vx to - vx from). Hypothesis Sy : speedy (vy to - vy from). Hypothesis Sz : speedy (vz to - vz from).

  Lemma box_eq : collide (CSphere s) (ofin s1) (ofin e1) (CBox b) (ofin s2) (ofin e2) =
    Ok (option_map (fun c => transform_out_of c (ofin s2) (ofin e2)) (collide_sphere_with_aligned_box (Fin r) (vfin from) (vfin (vsub to from)) (vfin mn) (vfin mx))).
  Proof.
    cbn [collide]. rewrite Hc, Hr, Hmn, Hmx, !into_world_fin, !into_local_fin. fold from to. rewrite vfin_sub.
    now destruct (collide_sphere_with_aligned_box _ _ _ _ _).
  Qed.
  Lemma collide_box_complete t : 0 <= t <= 1 -> facing r mn mx (along from to t) ->
    exists k t', collide (CSphere s) (ofin s1) (ofin e1) (CBox b) (ofin s2) (ofin e2) = Ok (Some k) /\ c_time k = Fin t' /\ 0 <= t' <= t.
  Proof.
    intros Ht F. destruct (face_complete r from (vsub to from) mn mx R0 ltac:(lra) ltac:(lra) ltac:(lra) Sx Sy Sz t Ht F) as (kf & tf & Ek & Etf & Lf).
    rewrite box_eq. pose proof (box_earliest (Fin r) (vfin from) (vfin (vsub to from)) (vfin mn) (vfin mx)) as B.
    destruct (collide_sphere_with_aligned_box _ _ _ _ _) as [k|] eqn:E.
    - destruct B as [_ M]. specialize (M kf (BP_face _ _ _ _ _ _ Ek)). rewrite Etf in M.
      exists (transform_out_of k (ofin s2) (ofin e2)).
      assert (U : unit_t (c_time k)).
      { pose proof (collide_time (CSphere s) (ofin s1) (ofin e1) (CBox b) (ofin s2) (ofin e2) (transform_out_of k (ofin s2) (ofin e2))) as U. rewrite box_eq, E in U. exact (U eq_refl). }
      destruct U as [U1 U2]. rewrite fin_0 in U1. rewrite fin_1 in U2. change (c_time (transform_out_of k (ofin s2) (ofin e2))) with (c_time k).
      destruct (c_time k) as [t'| | |]; try discriminate. exists t'. split; auto. split; auto. apply er_lt_fin_f in M. apply er_le_fin in U1. lra.
    - exfalso. exact (B kf (BP_face _ _ _ _ _ _ Ek)).
  Qed.

  (** The contact is one of the parts, the earliest, and it is put where the box is at that time. *)
  Lemma collide_box_earliest : 
    match collide (CSphere s) (ofin s1) (ofin e1) (CBox b) (ofin s2) (ofin e2) with
    | Ok None => forall k, ~ box_part (Fin r) (vfin from) (vfin (vsub to from)) (vfin mn) (vfin mx) k
    | Ok (Some k) => exists k0 t, box_part (Fin r) (vfin from) (vfin (vsub to from)) (vfin mn) (vfin mx) k0 /\
        (forall k', box_part (Fin r) (vfin from) (vfin (vsub to from)) (vfin mn) (vfin mx) k' -> n_lt (c_time k') (c_time k0) = false) /\
        c_time k0 = Fin t /\ 0 <= t <= 1 /\ c_times k = c_times k0 /\
        (steady s2 e2 -> forall x n, c_pos k0 = vfin x -> c_normal k0 = vfin n ->
           c_pos k = vfin (along (position_into_world s2 x) (position_into_world e2 x) t) /\ c_normal k = vfin (direction_into_world s2 n))
    | _ => False
    end.
  Proof.
    rewrite box_eq. pose proof (box_earliest (Fin r) (vfin from) (vfin (vsub to from)) (vfin mn) (vfin mx)) as B.
    destruct (collide_sphere_with_aligned_box _ _ _ _ _) as [k|] eqn:E; cbn [option_map]; [|exact B]. destruct B as [P M].
    assert (U : unit_t (c_time k)).
    { pose proof (collide_time (CSphere s) (ofin s1) (ofin e1) (CBox b) (ofin s2) (ofin e2) (transform_out_of k (ofin s2) (ofin e2))) as U. rewrite box_eq, E in U. exact (U eq_refl). }
    destruct U as [U1 U2]. rewrite fin_0 in U1. rewrite fin_1 in U2. destruct (c_time k) as [t| | |] eqn:Et; try discriminate.
    apply er_le_fin in U1. apply er_le_fin in U2. exists k, t. rewrite Et. split; auto. split; auto. split; auto. split; auto. split; auto.
    intros St x n Ex En. unfold transform_out_of. rewrite Et, Ex, En, lerp_fin. cbn [c_pos c_normal]. rewrite into_world_fin.
    destruct (lerp_steady t s2 e2 St x) as [-> _]. split; auto.
    change (direction_into_world (ofin (rlerp t s2 e2)) (vfin n)) with (vfin (direction_into_world (rlerp t s2 e2) n)).
    destruct (lerp_steady t s2 e2 St n) as [_ ->]. reflexivity.
  Qed.
End Boxes.
(** A steadily moving, unturned box in the world: what the ball meets. *)
Section BoxWorld.
  Variables (s : sphere_c ER) (b : box_c ER) (cs mn mx : V) (r : R) (s1 e1 s2 e2 : orientation R).
  Hypothesis St : steady s2 e2.
  Let from := position_into_local s2 (position_into_world s1 cs).
  Let to := position_into_local e2 (position_into_world e1 cs).
  (** The ball meets the box in the world exactly when it does so seen from the box. *)
  Lemma box_world t : ball_meets_box r (along from to t) mn mx <->
    exists y, in_box mn mx y /\ within (along (position_into_world s2 y) (position_into_world e2 y) t) (along (position_into_world s1 cs) (position_into_world e1 cs) t) r.
  Proof.
    destruct St as (Er & Eo & U & _). assert (U' : unit_o e2) by (unfold unit_o; now rewrite Er).
    assert (E : forall y, vdot (vsub (along (position_into_world s2 y) (position_into_world e2 y) t) (along (position_into_world s1 cs) (position_into_world e1 cs) t))
                    (vsub (along (position_into_world s2 y) (position_into_world e2 y) t) (along (position_into_world s1 cs) (position_into_world e1 cs) t)) =
                  vdot (vsub y (along from to t)) (vsub y (along from to t))).
    { intros y. rewrite <- (world_local s2 (position_into_world s1 cs) U), <- (world_local e2 (position_into_world e1 cs) U'). fold from to.
      rewrite <- (qrot_dot (o_rot s2) (vsub y (along from to t)) (vsub y (along from to t)) U).
      assert (D : vsub (along (position_into_world s2 y) (position_into_world e2 y) t) (along (position_into_world s2 from) (position_into_world e2 to) t) =
        qrot (o_rot s2) (vsub y (along from to t))).
      { rewrite !world_form by auto. rewrite Er, Eo. unfold along. rewrite !qrot_sub, !qrot_add, !qrot_scale, !qrot_sub. apply vext; vunfold; ring. }
      now rewrite D. }
    unfold ball_meets_box, within. split; intros (y & Hy & W); exists y; (split; [auto|]); [rewrite E|rewrite E in W]; auto.
  Qed.
End BoxWorld.
(** ** Finite results *)
Lemma sphere_plane_finite s p (cs : V) r (pp n : V) s1 e1 s2 e2 k :
  sp_center s = vfin cs -> sp_radius s = Fin r -> pl_pos p = vfin pp -> pl_normal p = vfin n ->
  collide (CSphere s) (ofin s1) (ofin e1) (CPlane p) (ofin s2) (ofin e2) = Ok (Some k) -> finite_v (c_pos k) /\ finite_v (c_normal k).
Proof.
  intros Hc Hr Hp Hn H. pose proof (collide_time _ _ _ _ _ _ _ H) as [U1 U2]. rewrite fin_0 in U1. rewrite fin_1 in U2.
  destruct (c_time k) as [t| | |] eqn:Et; try discriminate. unfold c_time in Et. cbn [collide] in H. rewrite Hc, Hr, Hp, Hn, !into_world_fin, !world_move_fin in H.
  unfold collide_sphere_with_plane in H. cbv zeta in H. apply ok_inj in H. destruct (rg_is_empty _); [discriminate|]. inversion H; subst k; clear H.
  cbn [c_pos c_normal c_times] in *. rewrite Et. rewrite !vfin_scale, !vfin_add, vfin_neg. split; eexists; reflexivity.
Qed.
(** The [position] of a box plays no part in its collisions. *)
Lemma box_position_ignored {T} {N : Num T} (b : box_c T) p c1 s1 e1 s2 e2 :
  let b' := mkBox (bx_ent b) p (bx_min b) (bx_max b) (bx_mass b) (bx_mat b) in
  collide c1 s1 e1 (CBox b') s2 e2 = collide c1 s1 e1 (CBox b) s2 e2 /\ collide (CBox b') s2 e2 c1 s1 e1 = collide (CBox b) s2 e2 c1 s1 e1.
Proof. cbv zeta. destruct c1; split; reflexivity. Qed.
(** A unit box whose position is (10,0,0) is hit at the origin. *)
Lemma box_not_at_position : exists k, collide (CSphere (ball 1)) (still (mkV 0 0 0)) (still (mkV 0 0 0)) (CBox far_box) (still (mkV 0 0 0)) (still (mkV 0 0 0)) = Ok (Some k) /\
  ~ ball_meets_box 1 (mkV 0 0 0) (vadd (mkV 10 0 0) (mkV (-1) (-1) (-1))) (vadd (mkV 10 0 0) (mkV 1 1 1)).
Proof.
  assert (L : position_into_local (rest_o (mkV 0 0 0)) (position_into_world (rest_o (mkV 0 0 0)) (mkV 0 0 0)) = mkV 0 0 0) by (rewrite rest_world, rest_local; apply vext; vunfold; ring).
  destruct (collide_box_complete (ball 1) far_box (mkV 0 0 0) (mkV (-1) (-1) (-1)) (mkV 1 1 1) 1 (rest_o (mkV 0 0 0)) (rest_o (mkV 0 0 0)) (rest_o (mkV 0 0 0)) (rest_o (mkV 0 0 0)))
    with (t := 0) as (k & _ & E & _); [exact eq_refl|exact eq_refl|exact eq_refl|exact eq_refl|cbn; lra|cbn; lra|cbn; lra|cbn; lra| | | |lra| |]; rewrite ?L.
  1,2,3: left; vunfold; ring.
  - left. unfold along. vunfold. lra.
  - exists k. split; auto. intros (x & (B & _) & W). unfold within in W. destruct x. vunfold. nra.
Qed.
Lemma line_normal (r : R) (c m1 s dir m2 : V) k : dir <> mkV 0 0 0 ->
  collide_sphere_with_line (Fin r) (vfin c) (vfin m1) (vfin s) (vfin dir) (vfin m2) = Some k ->
  exists x, c_pos k = vfin x /\ (x <> c -> exists n, c_normal k = vfin n /\ unit_along n (vsub x c)).
Proof.
  intros Hd H. apply sphere_line_some in H; auto. destruct H as (t & x & j & _ & _ & Ex & _ & _ & En). exists x. split; auto. intros Hx.
  assert (D : vsub x c <> mkV 0 0 0). { intros D. apply Hx. apply vext; [assert (X := f_equal vx D)|assert (X := f_equal vy D)|assert (X := f_equal vz D)]; vunfold; lra. }
  exists (vunit (vsub x c)). rewrite En, vnormalize_fin by auto. split; auto. now apply vunit_along.
Qed.
Lemma face_contact (r : R) (c m mn mx : V) : 0 <= r -> vx mn < vx mx -> vy mn < vy mx -> vz mn < vz mx ->
  forall k, box_face_collision (Fin r) (vfin c) (vfin m) (vfin mn) (vfin mx) = Some k ->
    exists t n, c_time k = Fin t /\ 0 <= t <= 1 /\ c_normal k = vfin n /\ c_pos k = vfin (vadd (vadd c (vscale m t)) (vscale n r)) /\
      (n = mkV 1 0 0 \/ n = mkV (-1) 0 0 \/ n = mkV 0 1 0 \/ n = mkV 0 (-1) 0 \/ n = mkV 0 0 1 \/ n = mkV 0 0 (-1)) /\
      inward mn mx (vadd c (vscale m t)) n.
Proof.
  intros Hr Hx Hy Hz k H. apply face_some in H; try lra. destruct H as (t & Et & Ht & _ & En & Ep).
  destruct (face_normal_axis (vadd c (vscale m t)) mn mx Hx Hy Hz) as (n & Hn & _ & Ha & Hi). exists t, n. rewrite En, Hn in Ep. split; auto. split; auto. split; [congruence|]. split; auto.
Qed.
Lemma ball_lands : exists k, collide (CSphere (ball 1)) (still (mkV 0 0 3)) (still (mkV 0 0 0)) (CPlane ground) (still (mkV 0 0 0)) (still (mkV 0 0 0)) = Ok (Some k) /\
  c_time k = Fin (2 / 3).
Proof.
  pose proof (collide_sphere_plane (ball 1) ground (mkV 0 0 0) 1 (mkV 0 0 0) (mkV 0 0 1) (rest_o (mkV 0 0 3)) (rest_o (mkV 0 0 0)) (rest_o (mkV 0 0 0)) (rest_o (mkV 0 0 0))
    eq_refl eq_refl eq_refl eq_refl ltac:(lra) ltac:(vunfold; lra)) as S. cbv beta zeta in S. rewrite !rest_world in S.
  specialize (S ltac:(right; unfold along; vunfold; rewrite Rabs_pos_eq; lra)). unfold still.
  assert (Tc : forall t, (exists x : V, within x (along (vadd (mkV 0 0 3) (mkV 0 0 0)) (vadd (mkV 0 0 0) (mkV 0 0 0)) t) 1 /\ behind x (along (vadd (mkV 0 0 0) (mkV 0 0 0)) (vadd (mkV 0 0 0) (mkV 0 0 0)) t) (mkV 0 0 1)) <-> 2 / 3 <= t).
  { intros t. unfold within, behind, along. split.
    - intros ([x y z] & W & B). revert W B. vunfold. intros W B.
      replace (z - (0 + 0 + (0 + 0 - (0 + 0)) * t)) with z in B by ring. assert (z <= 0) by lra.
      destruct (Rle_dec (2 / 3) t); auto. exfalso. nra.
    - intros Ht. exists (mkV 0 0 (3 - 3 * t - 1)). vunfold. split; nra. }
  destruct (collide _ _ _ _ _ _) as [[k|]| |]; try contradiction.
  - destruct S as (t & x & Et & (F1 & F2 & F3) & _). exists k. split; auto. rewrite Et. f_equal. apply Tc in F2. apply Rle_antisym; auto. apply F3; [lra|]. apply Tc. lra.
  - exfalso. apply (S 1); [lra|]. apply Tc. lra.
Qed.
