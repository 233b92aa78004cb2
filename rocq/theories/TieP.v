(** * TieP: of parts hit at the same time the first one is reported (any [Num]) (C94) *)
From Coq Require Import ZArith Reals List Bool Lra Lia.
Import ListNotations.
From Verif Require Import Num Vec Res Arena RangeM Orient Colliders Collide OrderP Spec ResP ArithP RangeP CollideP TieSpec.

Section Tie.
  Context {T : Type} {N : Num T} {O : Ord N}.
  Lemma unit_fin (x : T) : unit_t x -> exists a, key x = Fin a.
  Proof. intros (A & B). rewrite key_le in A, B. rewrite key_0 in A. rewrite key_1 in B. destruct (key x); cbn in A, B; try discriminate; eauto. Qed.
  Lemma later_lt (x y z : T) : unit_t y -> n_lt x z = true -> n_lt y z = false -> n_lt x y = true.
  Proof.
    intros U A B. destruct (unit_fin y U) as (b & Y). rewrite key_lt in *. rewrite Y in *.
    destruct (key x) as [a| | |], (key z) as [c| | |]; cbn [er_lt] in *; try discriminate; try reflexivity.
    destruct (Rlt_dec a c), (Rlt_dec b c), (Rlt_dec a b); try discriminate; try reflexivity. lra.
  Qed.
  Lemma not_lt_le (x y : T) : unit_t x -> unit_t y -> n_lt y x = false -> n_le x y = true.
  Proof.
    intros U V. destruct (unit_fin x U) as (a & X), (unit_fin y V) as (b & Y). rewrite key_lt, key_le, X, Y. cbn [er_lt er_le]. destruct (Rlt_dec b a), (Rle_dec a b); try discriminate; try reflexivity. lra.
  Qed.
  Lemma lt_le_lt (x y z : T) : n_lt x y = true -> n_le y z = true -> n_lt x z = true.
  Proof.
    rewrite !key_lt, key_le. destruct (key x) as [a| | |], (key y) as [b| | |], (key z) as [c| | |]; cbn [er_lt er_le]; try discriminate; try reflexivity.
    destruct (Rlt_dec a b), (Rle_dec b c), (Rlt_dec a c); try discriminate; try reflexivity. lra.
  Qed.
  Definition acc_first (parts : list (option (collision T))) (a : accum T) : Prop :=
    first_of parts (fst a) /\ match fst a with None => snd a = n_inf | Some k => snd a = c_time k /\ unit_t (c_time k) end.
  Lemma first_snoc parts a o : acc_first parts a -> timely o -> acc_first (parts ++ [o]) (acc_consider a o).
  Proof.
    intros (F & S) Ho. destruct o as [c|].
    - pose proof (Ho c eq_refl) as Hc. destruct a as [[k|] t]; cbn [fst snd] in *.
      + destruct S as (-> & Uk). destruct F as (bef & aft & -> & B & A). cbn [acc_consider snd]. destruct (n_lt (c_time c) (c_time k)) eqn:L.
        * split; [|split; [reflexivity|exact Hc]]. cbn [fst first_of]. exists (bef ++ Some k :: aft), []. split; [reflexivity|]. split; [|intros k' []].
          intros k' I. apply in_app_or in I. destruct I as [I|[I|I]].
          -- exact (lt_trans _ _ _ L (B k' I)).
          -- injection I as <-. exact L.
          -- exact (lt_le_lt _ _ _ L (A k' I)).
        * split; [|split; [reflexivity|exact Uk]]. cbn [fst first_of]. exists bef, (aft ++ [Some c]). split; [rewrite <- app_assoc; reflexivity|]. split; [exact B|].
          intros k' I. apply in_app_or in I. destruct I as [I|[I|[]]]; [exact (A k' I)|]. injection I as <-. exact (not_lt_le _ _ Uk Hc L).
      + subst t. cbn [acc_consider snd]. rewrite unit_lt_inf by exact Hc. split; [|split; [reflexivity|exact Hc]]. cbn [fst first_of] in *. exists parts, []. split; [reflexivity|].
        split; [intros k' I; exfalso; exact (F k' I)|intros k' []].
    - cbn [acc_consider]. split; [|exact S]. destruct (fst a) as [k|]; cbn [first_of] in *.
      + destruct F as (bef & aft & -> & B & A). exists bef, (aft ++ [None]). split; [rewrite <- app_assoc; reflexivity|]. split; [exact B|].
        intros k' I. apply in_app_or in I. destruct I as [I|[I|[]]]; [exact (A k' I)|discriminate I].
      + intros k I. apply in_app_or in I. destruct I as [I|[I|[]]]; [exact (F k I)|discriminate I].
  Qed.
  Lemma first_fold {X} (f : X -> option (collision T)) l : (forall x, timely (f x)) -> forall parts a, acc_first parts a ->
    acc_first (parts ++ map f l) (fold_left (fun a x => acc_consider a (f x)) l a).
  Proof.
    intros Hf. induction l as [|x l IH]; intros parts a H; [cbn; rewrite app_nil_r; exact H|]. cbn [map fold_left].
    replace (parts ++ f x :: map f l) with ((parts ++ [f x]) ++ map f l) by (rewrite <- app_assoc; reflexivity). apply IH, first_snoc; [exact H|apply Hf].
  Qed.
  Lemma first_rfold {X} (R : X -> option (collision T) -> Prop) (g : accum T -> X -> res (accum T)) l parts a a' : rfold g l a = Ok a' -> acc_first parts a ->
    (forall a x a', g a x = Ok a' -> exists o, R x o /\ a' = acc_consider a o) -> (forall x o, R x o -> timely o) ->
    exists os, Forall2 R l os /\ acc_first (parts ++ os) a'.
  Proof.
    intros E0 H0 Hg Ht. revert parts a a' H0 E0. induction l as [|x l IH]; intros parts a a' H E; cbn [rfold] in E.
    - inv_ok E. subst. exists []. split; [constructor|]. rewrite app_nil_r. exact H.
    - apply rbind_ok in E. destruct E as (b & E1 & E). destruct (Hg _ _ _ E1) as (o & Ro & ->).
      destruct (IH (parts ++ [o]) _ _ (first_snoc _ _ _ H (Ht _ _ Ro)) E) as (os & F & A). exists (o :: os). split; [constructor; assumption|].
      rewrite <- app_assoc in A. exact A.
  Qed.
  Lemma first_none : acc_first [] acc_new.
  Proof. split; [intros k []|reflexivity]. Qed.
  Lemma mesh_first r c m vs es fs mv o : collide_sphere_with_mesh r c m vs es fs mv = Ok o -> exists parts, mesh_parts r c m vs es fs mv parts /\ first_of parts o.
  Proof.
    unfold collide_sphere_with_mesh. cbv zeta. intros H. apply rbind_ok in H. destruct H as (a1 & E1 & H). apply rbind_ok in H. destruct H as (a2 & E2 & H). inv_ok H. subst o.
    pose proof (first_fold (fun v => collide_sphere_with_sphere r c m n0 v mv) vs (fun v => sphere_sphere_timely _ _ _ _ _ _) [] acc_new first_none) as F0. cbn [app] in F0.
    destruct (first_rfold (fun e o => exists a b, nth_error vs (fst e) = Some a /\ nth_error vs (snd e) = Some b /\ o = collide_sphere_with_mid_line_segment r c m a b mv) _ _ _ _ _ E1 F0) as (pe & P1 & F1).
    { intros a x a' H. inv_ok H. inv_ok H. inv_ok H. subst. eauto 10. }
    { intros x o (a & b & _ & _ & ->). apply sphere_segment_timely. }
    destruct (first_rfold (fun f o => exists ps, Forall2 (fun i p => nth_error vs i = Some p) f ps /\ collide_sphere_with_polygon_surface r c m ps mv = Ok o) _ _ _ _ _ E2 F1) as (pf & P2 & F2).
    { intros a x a' H. apply rbind_ok in H. destruct H as (ps & Ps & H). apply rbind_ok in H. destruct H as (o & Eo & H). inv_ok H. subst. exists o. split; [|reflexivity]. exists ps. split; [|exact Eo].
      apply rmap_ok in Ps. clear - Ps. induction Ps as [|j q f ps J _ IH]; constructor; [exact (unwrap_ok _ _ J)|exact IH]. }
    { intros x o (ps & _ & E). exact (sphere_polygon_timely _ _ _ _ _ _ E). }
    exists (map (fun v => collide_sphere_with_sphere r c m n0 v mv) vs ++ pe ++ pf). rewrite <- app_assoc in F2. split; [|exact (proj1 F2)].
    exists (map (fun v => collide_sphere_with_sphere r c m n0 v mv) vs), pe, pf. split; [reflexivity|]. split; [|exact (conj P1 P2)].
    clear. induction vs as [|v vs IH]; constructor; [reflexivity|exact IH].
  Qed.
  Lemma box_first r c m mn mx : first_of (box_face_collision r c m mn mx ::
      map (fun e => collide_sphere_with_mid_line_segment r c m (nth (fst e) (box_corners mn mx) vzero) (nth (snd e) (box_corners mn mx) vzero) vzero) box_edges ++
      map (fun p => collide_sphere_with_sphere r c m n0 p vzero) (box_corners mn mx)) (collide_sphere_with_aligned_box r c m mn mx).
  Proof.
    pose proof (first_snoc _ _ _ first_none (box_face_timely r c m mn mx)) as F. cbn [app] in F.
    apply (first_fold (fun e => collide_sphere_with_mid_line_segment r c m (nth (fst e) (box_corners mn mx) vzero) (nth (snd e) (box_corners mn mx) vzero) vzero) box_edges) in F; [|intros x; apply sphere_segment_timely].
    apply (first_fold (fun p => collide_sphere_with_sphere r c m n0 p vzero) (box_corners mn mx)) in F; [|intros x; apply sphere_sphere_timely].
    exact (proj1 F).
  Qed.
End Tie.

(** ** Meshes against meshes *)
Section Meshes.
  Context {T : Type} {N : Num T} {O : Ord N} {O2 : Ord2 O}.
  Lemma unit_le (x : T) : unit_t x -> n_le x x = true.
  Proof. intros U. apply not_lt_le; auto. apply lt_irrefl. Qed.
  Definition unit_o (o : option (collision T)) : Prop := forall k, o = Some k -> unit_t (c_time k).
  Lemma first_app parts parts' o o' : first_of parts o -> first_of parts' o' -> unit_o o -> unit_o o' ->
    first_of (parts ++ parts') (match o, o' with Some a, Some b => if n_lt (c_time b) (c_time a) then Some b else Some a | None, x => x | x, None => x end).
  Proof.
    intros F F' U U'. destruct o as [a|], o' as [b|]; cbn [first_of] in *.
    - specialize (U a eq_refl). specialize (U' b eq_refl). destruct F as (bef & aft & -> & B & A), F' as (bef' & aft' & -> & B' & A').
      destruct (n_lt (c_time b) (c_time a)) eqn:L; cbn [first_of].
      + exists ((bef ++ Some a :: aft) ++ bef'), aft'. split; [rewrite <- !app_assoc; reflexivity|]. split; [|exact A'].
        intros k I. apply in_app_or in I. destruct I as [I|I]; [|exact (B' k I)]. apply in_app_or in I. destruct I as [I|[I|I]].
        * exact (lt_trans _ _ _ L (B k I)).
        * injection I as <-. exact L.
        * exact (lt_le_lt _ _ _ L (A k I)).
      + pose proof (not_lt_le _ _ U U' L) as M. exists bef, (aft ++ bef' ++ Some b :: aft'). split; [rewrite <- app_assoc; reflexivity|]. split; [exact B|].
        intros k I. apply in_app_or in I. destruct I as [I|I]; [exact (A k I)|]. apply in_app_or in I. destruct I as [I|[I|I]].
        * exact (le_trans _ _ _ M (lt_le _ _ (B' k I))).
        * injection I as <-. exact M.
        * exact (le_trans _ _ _ M (A' k I)).
    - destruct F as (bef & aft & -> & B & A). exists bef, (aft ++ parts'). split; [rewrite <- app_assoc; reflexivity|]. split; [exact B|].
      intros k I. apply in_app_or in I. destruct I as [I|I]; [exact (A k I)|]. exfalso. exact (F' k I).
    - destruct F' as (bef & aft & -> & B & A). exists (parts ++ bef), aft. split; [rewrite <- app_assoc; reflexivity|]. split; [|exact A].
      intros k I. apply in_app_or in I. destruct I as [I|I]; [exfalso; exact (F k I)|exact (B k I)].
    - intros k I. apply in_app_or in I. destruct I as [I|I]; [exact (F k I)|exact (F' k I)].
  Qed.
  Lemma corners_first p1 fs p2 (o : option (collision T)) : corners_faces p1 fs p2 = Ok o ->
    exists parts o', corner_parts p1 fs p2 parts /\ first_of parts o' /\ same_but_side o' o /\ unit_o o' /\ unit_o o.
  Proof.
    unfold corners_faces. intros H. apply rbind_ok in H. destruct H as (x & E & H).
    assert (I : exists parts, corner_parts p1 fs p2 parts /\ acc_first parts x).
    { assert (G : forall l parts a a', acc_first parts a -> rfold (fun acc pt =>
        rfold (fun acc face =>
          rbind (rmap (fun i => rbind (unwrap (nth_error p2 i)) (fun pe => Ok (vdivs (vadd (fst pe) (snd pe)) n2))) face) (fun face_points =>
          rbind (collide_point_with_polygon (fst pt) (snd pt) face_points) (fun c =>
          Ok (acc_consider acc c)))) fs acc) l a = Ok a' ->
        exists rows, acc_first (parts ++ concat rows) a' /\ Forall2 (fun pt row => Forall2 (face_res p2 pt) fs row) l rows).
      { induction l as [|pt l IH]; intros parts a a' Ha Hr; cbn [rfold] in Hr.
        - inv_ok Hr. subst. exists []. cbn [concat]. rewrite app_nil_r. split; [exact Ha|constructor].
        - apply rbind_ok in Hr. destruct Hr as (b & E0 & Hr).
          destruct (first_rfold (face_res p2 pt) _ _ _ _ _ E0 Ha) as (row & R & F).
          + intros b0 f b' Hb. apply rbind_ok in Hb. destruct Hb as (fp & E1 & Hb). apply rbind_ok in Hb. destruct Hb as (c0 & E2 & Hb). injection Hb as <-. eexists. split; [|reflexivity].
            apply face_points_ok in E1. destruct E1 as (pol & Fp & ->). exists pol. auto.
          + intros f o' (pol & _ & Hp). eapply point_polygon_timely; eassumption.
          + destruct (IH _ _ _ F Hr) as (rows & A & Rs). exists (row :: rows). cbn [concat]. rewrite app_assoc. split; [exact A|]. constructor; assumption. }
      destruct (G p1 [] acc_new x first_none E) as (rows & A & Rs). exists (concat rows). split; [|exact A]. exists rows. split; [reflexivity|exact Rs]. }
    destruct I as (parts & P & F & S). exists parts, (fst x). split; [exact P|]. split; [exact F|]. destruct (fst x) as [col|].
    - destruct S as (_ & U). assert (Eo : o = Some (voted p1 col)).
      { unfold voted. cbv zeta in H. destruct (votes p1 col) as [ng kp] eqn:V; unfold votes in V; rewrite V in H; congruence. }
      subst o. assert (CT : c_time (voted p1 col) = c_time col) by (unfold voted; destruct (votes p1 col) as [ng kp]; destruct (Nat.ltb kp ng); reflexivity).
      split; [|split].
      + cbn [same_but_side]. unfold voted. destruct (votes p1 col) as [ng kp]. unfold same_line. destruct (Nat.ltb kp ng); auto. rewrite scale_m1_turn. simpl. auto.
      + intros k [= <-]. exact U.
      + intros k [= <-]. rewrite CT. exact U.
    - injection H as <-. split; [exact Logic.I|]. split; intros k Hk; discriminate Hk.
  Qed.
  Lemma meshes_first m1 s1 e1 m2 s2 e2 (o : option (collision T)) : collide (CMesh m1) s1 e1 (CMesh m2) s2 e2 = Ok o ->
    exists parts parts' o', corner_parts (mesh_point_pairs m1 s1 e1) (me_faces m2) (mesh_point_pairs m2 s2 e2) parts /\
      corner_parts (mesh_point_pairs m2 s2 e2) (me_faces m1) (mesh_point_pairs m1 s1 e1) parts' /\ first_of (parts ++ parts') o' /\ same_but_side o' o.
  Proof.
    change (collide (CMesh m1) s1 e1 (CMesh m2) s2 e2) with (collide_mesh_with_mesh m1 s1 e1 m2 s2 e2). rewrite mesh_mesh_split. intros H.
    apply rbind_ok in H. destruct H as (a & E & H). apply rbind_ok in H. destruct H as (b & E' & H). injection H as <-.
    apply corners_first in E, E'. destruct E as (parts & a' & P & F & S & U & Ua), E' as (parts' & b' & P' & F' & S' & U' & Ub).
    exists parts, parts'. eexists. split; [exact P|]. split; [exact P'|]. split; [exact (first_app _ _ _ _ F F' U U')|].
    assert (TL : forall k c, same_line k c -> same_line k (turn c)).
    { intros k c (H1 & H2 & H3). unfold same_line. simpl. repeat split; auto. destruct H3 as [-> | ->]; auto. rewrite vneg_vneg. auto. }
    destruct a' as [ka|], a as [a|], b' as [kb|], b as [b|]; cbn [same_but_side] in S, S'; try contradiction; cbn [option_map acc_consider acc_new fst snd].
    - assert (Ta : c_time ka = c_time a) by (unfold c_time; rewrite (proj1 S); reflexivity). assert (Tb : c_time kb = c_time b) by (unfold c_time; rewrite (proj1 S'); reflexivity).
      change (c_time (turn a)) with (c_time a). rewrite unit_lt_inf by exact (Ua a eq_refl). cbn [fst snd]. rewrite Ta, Tb. destruct (n_lt (c_time b) (c_time a)); cbn [fst same_but_side]; auto.
    - change (c_time (turn a)) with (c_time a). rewrite unit_lt_inf by exact (Ua a eq_refl). cbn [fst same_but_side]. auto.
    - rewrite unit_lt_inf by exact (Ub b eq_refl). exact S'.
    - exact Logic.I.
  Qed.
End Meshes.
