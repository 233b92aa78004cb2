(** * Mass4P: the mass, centre of mass, frame and tensor of every entity, in exact arithmetic *)
From Coq Require Import ZArith Reals List Permutation Bool Lra Psatz.
Import ListNotations.
From Verif Require Import Num Vec Res Arena RangeM Orient Colliders Collide EntityM SystemM OrderP Spec ResP ArenaP FrameP StoreP ExecP ValidP MassP RealSpec RealV OrientP Orient2P RangeP GeomP Geom4P PhysSpec PhysP Phys3P Phys4P Mass2P Mass3P.
Local Open Scope R_scope.

Lemma get_internal (s : system ER) h e : get_entity s h = Some e -> exists i, aget (s_ents s) h = Some i /\ e = make_pub i.
Proof. unfold get_entity. destruct (aget (s_ents s) h) as [i|]; [|discriminate]. intros H. injection H as <-. exists i. auto. Qed.
Lemma reachable_cached (s : system ER) h i : reachable s -> aget (s_ents s) h = Some i ->
  unit_or_lost (o_rot (e_orient i)) /\ cached unit_or_lost (s_cols s) i.
Proof. intros R. exact (reachable_mass unit_or_lost exp_unit_or_lost (fun v q => mul_unit_or_lost _ q (exp_unit_or_lost v)) s R h i). Qed.
Lemma unit_fin q : unit_or_lost (qfin q) -> unit_quat q.
Proof.
  intros [(r & E & U)|E]; [|discriminate]. destruct q as [a b c d], r as [a' b' c' d']. unfold qfin in E. cbn [qi qj qk qw] in E.
  assert (H1 := f_equal (@qi _) E). assert (H2 := f_equal (@qj _) E). assert (H3 := f_equal (@qk _) E). assert (H4 := f_equal (@qw _) E). cbn [qi qj qk qw] in H1, H2, H3, H4.
  apply fin_eq in H1, H2, H3, H4. subst. exact U.
Qed.
Lemma reachable_unit (s : system ER) h e o : reachable s -> get_entity s h = Some e -> pe_last_orient e = ofin o -> unit_o o.
Proof. intros R He Eo. pose proof (reachable_rotation s h e R He) as G. rewrite Eo in G. exact (unit_fin _ G). Qed.
Lemma part_in_of s c p : is_part s c p -> part_in (s_cols s) c p.
Proof. intros H. exact H. Qed.

(** Total mass. *)
Lemma existsb_fin (l : list R) : existsb n_isinf (map Fin l) = false.
Proof. induction l; auto. Qed.
Lemma mass_ge (s : system ER) c p : reachable s -> is_part s c p -> 0 <= p_mass p.
Proof.
  intros R (k & G & E & _). pose proof (stored_colliders_ok s R c k G) as (H & _). rewrite mass_of_c, E, fin_0 in H.
  change (@n_le ER EReal) with er_le in H. now apply er_le_fin in H.
Qed.
Lemma parts_mass_ge (s : system ER) e pt : reachable s -> parts_of s e pt -> 0 <= parts_mass (parts e pt).
Proof.
  intros R Hp. unfold parts_mass, parts, rsum. unfold parts_of in Hp. induction (pe_colliders e) as [|c l IH]; cbn [map fold_right]; [lra|].
  assert (0 <= p_mass (pt c)) by (eapply mass_ge; [exact R|apply Hp; now left]). assert (0 <= fold_right Rplus 0 (map p_mass (map pt l))) by (apply IH; intros; apply Hp; now right). lra.
Qed.
Lemma reachable_total_exact (s : system ER) h e m pt : reachable s -> get_entity s h = Some e -> pe_own_mass e = Fin m -> parts_of s e pt ->
  pe_last_total_mass e = Fin (m + parts_mass (parts e pt)).
Proof.
  intros R He Em Hp. destruct (reachable_total s h e R He) as (hs & ms & P & F & ->).
  assert (E : ms = map Fin (map p_mass (map pt hs))).
  { assert (Hp' : forall c, In c hs -> is_part s c (pt c)) by (intros c Hc; apply Hp; eapply Permutation_in; eauto).
    clear - F Hp'. induction F as [|c x hs ms (k & G & <-) F IH]; cbn [map]; [exact eq_refl|]. f_equal.
    - destruct (Hp' c) as (k' & G' & E & _); [now left|]. assert (k' = k) by congruence. subst. now rewrite mass_of_c.
    - apply IH. intros c' Hc'. apply Hp'. now right. }
  assert (Es : rsum (map p_mass (map pt hs)) = parts_mass (parts e pt)) by (apply rsum_perm; now do 2 apply Permutation_map).
  unfold total_of. rewrite E, existsb_fin, fin_0, rsum_fin_from, Es, Em. cbv zeta. rewrite Rplus_0_l. change (@n_lt ER EReal) with er_lt.
  pose proof (parts_mass_ge s e pt R Hp) as G. destruct (Rlt_dec 0 (parts_mass (parts e pt))) as [L|L].
  - rewrite (proj2 (er_lt_fin _ _)) by exact L. exact eq_refl.
  - rewrite (proj2 (er_lt_fin_f _ _)) by lra. f_equal. lra.
Qed.
Lemma reachable_total_inf (s : system ER) h e c k : reachable s -> get_entity s h = Some e -> In c (pe_colliders e) -> get_collider s c = Some k -> mass_of k = PInf ->
  pe_last_total_mass e = PInf.
Proof.
  intros R He Hc G Em. destruct (reachable_total s h e R He) as (hs & ms & P & F & ->). unfold total_of.
  assert (I : In PInf ms).
  { assert (Hc' : In c hs) by (eapply Permutation_in; [symmetry; exact P|exact Hc]). clear - F Hc' G Em.
    induction F as [|c' x hs ms (k' & G' & <-) F IH]; [destruct Hc'|]. destruct Hc' as [->|Hc']; [left; congruence|right; auto]. }
  assert (X : existsb n_isinf ms = true) by (apply existsb_exists; exists PInf; split; [exact I|exact eq_refl]). now rewrite X.
Qed.

(** Centre of mass. *)
Lemma parts_perm e hs pt : Permutation hs (pe_colliders e) -> Permutation (map pt hs) (parts e pt).
Proof. intros P. now apply Permutation_map. Qed.
Lemma reachable_centre (s : system ER) h e o pt : reachable s -> get_entity s h = Some e -> pe_last_orient e = ofin o -> parts_of s e pt ->
  0 < parts_mass (parts e pt) -> pe_pos e = vfin (o_pos o) /\ vscale (o_pos o) (parts_mass (parts e pt)) = parts_moment o (parts e pt).
Proof.
  intros R He Eo Hp L. pose proof (reachable_unit s h e o R He Eo) as U. destruct (get_internal s h e He) as (i & Hi & ->).
  destruct (reachable_cached s h i R Hi) as (_ & C). cbn [make_pub pe_last_orient pe_colliders pe_pos] in *.
  split; [rewrite Eo; exact eq_refl|].
  destruct C as [(C1 & _)|(hs & e0 & e1 & P & G & Rc & _ & _ & _ & S4)].
  { exfalso. unfold parts_mass, parts, rsum in L. cbn [make_pub pe_colliders] in L. rewrite C1 in L. cbn [map fold_right] in L. lra. }
  assert (Hp' : forall c, In c hs -> part_in (s_cols s) c (pt c)) by (intros c Hc; apply Hp; cbn [make_pub pe_colliders]; eapply Permutation_in; eauto).
  rewrite Eo in S4. cbn [ofin o_off] in S4. destruct (recalc_offset _ _ _ _ _ _ G Hp' Rc S4) as (E & _).
  assert (PP := parts_perm (make_pub i) hs pt P). unfold parts_mass, local_moment in E.
  rewrite (rsum_perm _ _ (Permutation_map p_mass PP)) in E. rewrite (vsum_perm _ _ (Permutation_map _ PP)) in E.
  fold (parts_mass (parts (make_pub i) pt)) in E. fold (local_moment (parts (make_pub i) pt)) in E. specialize (E L).
  rewrite moment_form by exact U. set (ps := parts (make_pub i) pt) in *. set (M := parts_mass ps) in *.
  replace (vadd (local_moment ps) (vscale (o_off o) M)) with (mkV 0 0 0 : V).
  - rewrite qrot_zero. destruct (o_pos o). apply vext; vunfold; ring.
  - rewrite E. destruct (local_moment ps). apply vext; vunfold; field; lra.
Qed.
Lemma recalc_inf hs cols (e e' : ientity ER) c k : In c hs -> aget cols c = Some k -> c_mass k = PInf -> recalculate_mass hs cols e = Ok e' ->
  e_prep_moi e' = mzero /\ o_off (e_orient e') = vsub (o_off (e_orient e)) (o_off (e_orient e)).
Proof.
  intros Hc G Em H. unfold recalculate_mass in H. inv_ok H. destruct x as [[fi m] v]. apply com_loop_spec in E. destruct fi.
  - rewrite andb_false_r in H. apply ok_inj in H. subst e'. split; exact eq_refl.
  - exfalso. destruct E as (l & L & _). clear - L Hc G Em. induction L as [|c' k' hs l (G' & I') L IH]; [destruct Hc|].
    destruct Hc as [->|Hc]; [|auto]. assert (k' = k) by congruence. subst. rewrite Em in I'. discriminate.
Qed.
Lemma reachable_origin (s : system ER) h e o pt : reachable s -> get_entity s h = Some e -> pe_last_orient e = ofin o ->
  pe_colliders e <> [] -> (parts_of s e pt /\ parts_mass (parts e pt) = 0) \/ (exists c k, In c (pe_colliders e) /\ get_collider s c = Some k /\ mass_of k = PInf) ->
  o_pos o = position_into_world o (mkV 0 0 0).
Proof.
  intros R He Eo Hne D. pose proof (reachable_unit s h e o R He Eo) as U. destruct (get_internal s h e He) as (i & Hi & ->).
  destruct (reachable_cached s h i R Hi) as (_ & C). cbn [make_pub pe_last_orient pe_colliders pe_pos] in *.
  destruct C as [(C1 & _)|(hs & e0 & e1 & P & G & Rc & _ & _ & _ & S4)]; [contradiction|]. rewrite Eo in S4. cbn [ofin o_off] in S4.
  assert (Z : o_off o = mkV 0 0 0).
  { destruct D as [(Hp & Z)|(c & k & Hc & Gk & Em)].
    - assert (Hp' : forall c, In c hs -> part_in (s_cols s) c (pt c)) by (intros c Hc; apply Hp; cbn [make_pub pe_colliders]; eapply Permutation_in; eauto).
      destruct (recalc_offset _ _ _ _ _ _ G Hp' Rc S4) as (_ & E). apply E. assert (PP := parts_perm (make_pub i) hs pt P).
      unfold parts_mass in *. rewrite (rsum_perm _ _ (Permutation_map p_mass PP)), Z. lra.
    - rewrite mass_of_c in Em. destruct (recalc_inf hs (s_cols s) e0 e1 c k) as (_ & E); auto; [eapply Permutation_in; [symmetry|]; eauto|].
      rewrite E in S4. assert (F : finite_v (vsub (o_off (e_orient e0)) (o_off (e_orient e0)))) by (rewrite S4; eexists; exact eq_refl).
      apply vsub_back in F. destruct F as ((x & Fx) & _). rewrite Fx, vfin_sub in S4. apply vfin_inj in S4. rewrite <- S4. destruct x. apply vext; vunfold; ring. }
  rewrite world_form, Z by exact U. replace (vadd (mkV 0 0 0) (mkV 0 0 0)) with (mkV 0 0 0 : V) by (apply vext; vunfold; ring).
  rewrite qrot_zero. destruct (o_pos o). apply vext; vunfold; ring.
Qed.

(** The frame. *)
Lemma recalc_frame hs cols (e e' : ientity ER) o o' : recalculate_mass hs cols e = Ok e' -> e_orient e = ofin o -> unit_o o -> e_orient e' = ofin o' ->
  o_rot o' = o_rot o /\ forall x, position_into_world o' x = position_into_world o x.
Proof.
  intros H Eo U Eo'. unfold recalculate_mass in H. inv_ok H. destruct x as [[fi m] v]. rewrite Eo in H. cbv zeta in H.
  assert (A : forall q, ofin o' = ofin q -> o_rot o' = o_rot q /\ o' = q).
  { intros [p1 [a b c d] f1]. destruct o' as [p2 [a' b' c' d'] f2]. unfold ofin, qfin. cbn [o_pos o_rot o_off qi qj qk qw]. intros X.
    assert (X1 := f_equal (@o_pos _) X). assert (X3 := f_equal (@o_off _) X). assert (X2 := f_equal (@o_rot _) X). cbn [o_pos o_off o_rot] in X1, X2, X3.
    apply vfin_inj in X1, X3. assert (Y1 := f_equal (@qi _) X2). assert (Y2 := f_equal (@qj _) X2). assert (Y3 := f_equal (@qk _) X2). assert (Y4 := f_equal (@qw _) X2).
    cbn [qi qj qk qw] in Y1, Y2, Y3, Y4. apply fin_eq in Y1, Y2, Y3, Y4. subst. split; exact eq_refl. }
  assert (B : (exists mv, e_orient e' = mkO (vadd (vfin (o_pos o)) mv) (qfin (o_rot o)) (vsub (vfin (o_off o)) (direction_into_local (ofin o) mv))) \/
    e_orient e' = mkO (vadd (vfin (o_pos o)) (direction_into_world (mkO (vfin (o_pos o)) (qfin (o_rot o)) (vsub (vfin (o_off o)) (vfin (o_off o)))) (vfin (o_off o)))) (qfin (o_rot o)) (vsub (vfin (o_off o)) (vfin (o_off o)))).
  { destruct (_ && _); destruct fi; [|left|right|right].
    - apply ok_inj in H. subst e'. left. eexists. exact eq_refl.
    - inv_ok H. apply ok_inj in H. subst e'. eexists. exact eq_refl.
    - apply ok_inj in H. subst e'. exact eq_refl.
    - inv_ok H. apply ok_inj in H. subst e'. exact eq_refl. }
  destruct B as [(mv & B)|B]; rewrite Eo' in B.
  - assert (F : finite_v (vadd (vfin (o_pos o)) mv)) by (exists (o_pos o'); symmetry; exact (f_equal (@o_pos _) B)).
    apply vadd_back in F. destruct F as (_ & (d & ->) & _).
    destruct (A (mkO (vadd (o_pos o) d) (o_rot o) (vsub (o_off o) (direction_into_local o d)))) as (A1 & A2); [exact B|]. split; [exact A1|].
    intros x. subst o'. rewrite !world_form by exact U. cbn [o_rot o_off o_pos]. rewrite direction_local_form, !qrot_add, qrot_sub, qrot_qinv_r by exact U.
    set (a := qrot _ x). set (b := qrot _ (o_off o)). set (p := o_pos o). clearbody a b p. destruct a, b, p, d. apply vext; vunfold; ring.
  - destruct (A (mkO (vadd (o_pos o) (direction_into_world (mkO (o_pos o) (o_rot o) (vsub (o_off o) (o_off o))) (o_off o))) (o_rot o) (vsub (o_off o) (o_off o)))) as (A1 & A2); [exact B|]. split; [exact A1|].
    intros x. subst o'. rewrite !world_form by exact U. cbn [o_rot o_off o_pos]. rewrite direction_world_form. cbn [o_rot]. rewrite !qrot_add, qrot_sub.
    set (a := qrot _ x). set (b := qrot _ (o_off o)). set (p := o_pos o). clearbody a b p. destruct a, b, p. apply vext; vunfold; ring.
Qed.
Lemma ofin_inj o o' : ofin o = ofin o' -> o = o'.
Proof.
  destruct o as [p1 [a b c d] f1], o' as [p2 [a' b' c' d'] f2]. unfold ofin, qfin. cbn [o_pos o_rot o_off qi qj qk qw]. intros X.
  assert (X1 := f_equal (@o_pos _) X). assert (X3 := f_equal (@o_off _) X). assert (X2 := f_equal (@o_rot _) X). cbn [o_pos o_off o_rot] in X1, X2, X3.
  apply vfin_inj in X1, X3. assert (Y1 := f_equal (@qi _) X2). assert (Y2 := f_equal (@qj _) X2). assert (Y3 := f_equal (@qk _) X2). assert (Y4 := f_equal (@qw _) X2).
  cbn [qi qj qk qw] in Y1, Y2, Y3, Y4. apply fin_eq in Y1, Y2, Y3, Y4. now subst.
Qed.
Lemma frame_kept ord (s : system ER) op s' a h e e' o o' : good_order ord -> reachable s -> exec ord s op = Ok (s', a) ->
  match op with OStep _ | OUpdateEntity _ _ => False | _ => True end ->
  get_entity s h = Some e -> get_entity s' h = Some e' -> pe_last_orient e = ofin o -> pe_last_orient e' = ofin o' ->
  forall x, position_into_world o' x = position_into_world o x.
Proof.
  intros Ho R H Hop He He' Eo Eo' x. pose proof (reachable_unit s h e o R He Eo) as U.
  destruct (get_internal s h e He) as (i & Hi & ->). destruct (get_internal s' h e' He') as (i' & Hi' & ->). cbn [make_pub pe_last_orient] in *.
  destruct (exec_entity _ _ _ _ _ _ _ Ho (reachable_Inv _ R) H Hi') as [(src & _ & _ & X)|(i0 & Hi0 & C)]; [congruence|].
  assert (i0 = i) by congruence. subst i0. destruct C as [B|e'' k src -> |src e1 w e2 e'' -> |e'' _ (hs & _ & Rc)|dt e'' -> ]; try contradiction.
  - assert (o = o') by (apply ofin_inj; congruence). now subst.
  - refine (proj2 (recalc_frame _ _ _ _ o o' Rc _ U Eo') x). exact Eo.
Qed.

(** The tensor. *)
Lemma symmetric_form a : (forall x y : V, vdot x (mulmv a y) = vdot y (mulmv a x)) <-> symmetric a.
Proof.
  split.
  - intros H. assert (H1 := H (mkV 1 0 0) (mkV 0 1 0)). assert (H2 := H (mkV 1 0 0) (mkV 0 0 1)). assert (H3 := H (mkV 0 1 0) (mkV 0 0 1)).
    destruct a as [a1 a2 a3 b1 b2 b3 c1 c2 c3]. unfold symmetric. munfold. cbn [m11 m12 m13 m21 m22 m23 m31 m32 m33]. lra.
  - destruct a as [a1 a2 a3 b1 b2 b3 c1 c2 c3]. unfold symmetric. cbn [m11 m12 m13 m21 m22 m23 m31 m32 m33]. intros (-> & -> & ->) [x1 x2 x3] [y1 y2 y3]. munfold. ring.
Qed.
Lemma tensor_form off p (w : V) : vdot w (mulmv (local_tensor off p) w) =
  vdot w (mulmv (p_tensor p) w) + p_mass p * (let a := vcross w (vadd off (p_centre p)) in vdot a a).
Proof.
  unfold local_tensor. set (d := vadd off (p_centre p)). destruct (p_tensor p) as [a1 a2 a3 b1 b2 b3 c1 c2 c3]. set (m := p_mass p). clearbody d m.
  destruct d as [d1 d2 d3], w as [w1 w2 w3]. unfold translate_moment. cbv zeta. munfold. field.
Qed.
Lemma madd_form (a b : M) (x y : V) : vdot x (mulmv (madd a b) y) = vdot x (mulmv a y) + vdot x (mulmv b y).
Proof. destruct a, b, x, y. munfold. ring. Qed.
Lemma inertia_from (f : part -> M) (x y : V) (ps : list part) : forall a, vdot x (mulmv (fold_left madd (map f ps) a) y) =
  vdot x (mulmv a y) + rsum (map (fun p => vdot x (mulmv (f p) y)) ps).
Proof.
  induction ps as [|p ps IH]; intros a; unfold rsum; cbn [map fold_left fold_right]; [ring|]. rewrite IH, madd_form. unfold rsum. ring.
Qed.
Lemma mzero_form (x y : V) : vdot x (mulmv mzero y) = 0.
Proof. destruct x, y. munfold. field. Qed.
Lemma inertia_form off (ps : list part) (x y : V) : vdot x (mulmv (local_inertia off ps) y) = rsum (map (fun p => vdot x (mulmv (local_tensor off p) y)) ps).
Proof. unfold local_inertia. rewrite inertia_from, mzero_form. ring. Qed.
Lemma tensor_symmetric off p : symmetric (p_tensor p) -> symmetric (local_tensor off p).
Proof.
  unfold local_tensor. set (d := vadd off (p_centre p)). destruct (p_tensor p) as [a1 a2 a3 b1 b2 b3 c1 c2 c3]. set (m := p_mass p). clearbody d m.
  destruct d as [d1 d2 d3]. unfold symmetric, translate_moment. munfold. cbn [m11 m12 m13 m21 m22 m23 m31 m32 m33]. intros (-> & -> & ->). repeat split; field.
Qed.
Lemma turned_form q i0 t (x y : V) : unit_quat q -> turned_tensor q i0 t -> vdot x (mulmv t y) = vdot (qrot (qinv q) x) (mulmv i0 (qrot (qinv q) y)).
Proof.
  intros U H. rewrite <- (qrot_qinv_r q y U) at 1. rewrite H. rewrite <- (qrot_qinv_r q x U) at 1. now apply qrot_dot.
Qed.
Lemma reachable_prep (s : system ER) h e o pt : reachable s -> get_entity s h = Some e -> pe_last_orient e = ofin o -> parts_of s e pt ->
  exists hs, Permutation hs (pe_colliders e) /\ pe_last_prep_moi e = mfin (local_inertia (o_off o) (map pt hs)).
Proof.
  intros R He Eo Hp. destruct (get_internal s h e He) as (i & Hi & ->).
  destruct (reachable_cached s h i R Hi) as (_ & C). cbn [make_pub pe_last_orient pe_colliders pe_last_prep_moi] in *.
  destruct C as [(C1 & _ & C3)|(hs & e0 & e1 & P & G & Rc & _ & _ & S3 & S4)].
  - exists []. rewrite C1. split; [constructor|]. rewrite C3. exact eq_refl.
  - exists hs. split; [exact P|]. rewrite <- S3. rewrite Eo in S4.
    assert (Hp' : forall c, In c hs -> part_in (s_cols s) c (pt c)) by (intros c Hc; apply Hp; cbn [make_pub pe_colliders]; eapply Permutation_in; eauto).
    exact (proj2 (recalc_exact _ _ _ _ _ Hp' Rc) _ S4).
Qed.
Lemma rsum_ext {A} (f g : A -> R) l : (forall x, In x l -> f x = g x) -> rsum (map f l) = rsum (map g l).
Proof. intros H. f_equal. now apply map_ext_in. Qed.
Lemma rsum_ge {A} (f : A -> R) l : (forall x, In x l -> 0 <= f x) -> 0 <= rsum (map f l).
Proof. induction l as [|x l IH]; intros H; unfold rsum; cbn [map fold_right]; [lra|]. assert (0 <= f x) by (apply H; now left). assert (0 <= rsum (map f l)) by (apply IH; intros; apply H; now right). unfold rsum in *. lra. Qed.
Lemma reachable_tensor (s : system ER) h e o pt : reachable s -> get_entity s h = Some e -> pe_last_orient e = ofin o -> parts_of s e pt ->
  exists i0 t, pe_last_prep_moi e = mfin i0 /\ turned_tensor (o_rot o) i0 t /\
    (forall w, vdot w (mulmv t w) = parts_inertia o (o_pos o) (parts e pt) w) /\
    ((forall c, In c (pe_colliders e) -> symmetric (p_tensor (pt c))) -> symmetric i0 /\ symmetric t) /\
    ((forall c, In c (pe_colliders e) -> psd (p_tensor (pt c))) -> psd i0 /\ psd t).
Proof.
  intros R He Eo Hp. pose proof (reachable_unit s h e o R He Eo) as U. destruct (reachable_prep s h e o pt R He Eo Hp) as (hs & P & Ei).
  set (i0 := local_inertia (o_off o) (map pt hs)) in *. exists i0, (rotate_moment i0 (o_rot o)). split; [exact Ei|].
  pose proof (rotate_turned i0 (o_rot o) U) as Ht. set (t := rotate_moment i0 (o_rot o)) in *. split; [exact Ht|].
  assert (Q : forall w, vdot w (mulmv t w) = parts_inertia o (o_pos o) (parts e pt) w).
  { intros w. rewrite (turned_form _ _ _ _ _ U Ht). unfold i0. rewrite inertia_form. unfold parts_inertia. cbv zeta.
    rewrite (rsum_perm _ _ (Permutation_map _ (parts_perm e hs pt P))). apply rsum_ext. intros p _. rewrite tensor_form, direction_local_form. cbv zeta. f_equal. f_equal.
    rewrite world_form by exact U. set (d := vadd (o_off o) (p_centre p)).
    assert (E1 : vsub (vadd (qrot (o_rot o) (vadd (p_centre p) (o_off o))) (o_pos o)) (o_pos o) = qrot (o_rot o) d).
    { replace (vadd (p_centre p) (o_off o)) with d by (unfold d; destruct (o_off o), (p_centre p); apply vext; vunfold; ring).
      set (a := qrot _ d). clearbody a. destruct a, (o_pos o). apply vext; vunfold; ring. }
    rewrite E1. rewrite <- (qrot_qinv_r (o_rot o) w U) at 3 4. rewrite <- qrot_cross by exact U. symmetry. apply qrot_dot. exact U. }
  assert (Sy : (forall c, In c (pe_colliders e) -> symmetric (p_tensor (pt c))) -> symmetric i0 /\ symmetric t).
  { intros H. assert (S0 : forall x y : V, vdot x (mulmv i0 y) = vdot y (mulmv i0 x)).
    { intros x y. unfold i0. rewrite !inertia_form. apply rsum_ext. intros p Ip. apply symmetric_form, tensor_symmetric.
      apply in_map_iff in Ip. destruct Ip as (c & <- & Ic). apply H. eapply Permutation_in; eauto. }
    split; apply symmetric_form; [exact S0|]. intros x y. rewrite !(turned_form _ _ _ _ _ U Ht). apply S0. }
  split; [exact Q|]. split; [exact Sy|]. intros H.
  assert (Pi : forall w, 0 <= vdot w (mulmv i0 w)).
  { intros w. unfold i0. rewrite inertia_form. apply rsum_ge. intros p Ip. apply in_map_iff in Ip. destruct Ip as (c & <- & Ic).
    assert (Ic' : In c (pe_colliders e)) by (eapply Permutation_in; eauto). rewrite tensor_form. cbv zeta. apply Rplus_le_le_0_compat; [apply (H c Ic')|].
    apply Rmult_le_pos; [eapply mass_ge; [exact R|apply Hp; exact Ic']|apply vdot_pos]. }
  destruct Sy as (S1 & S2); [intros c Hc; apply (H c Hc)|]. split; split; auto. intros x. rewrite (turned_form _ _ _ _ _ U Ht). apply Pi.
Qed.
