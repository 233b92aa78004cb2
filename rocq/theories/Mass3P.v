(** * Mass3P: rotations, centres of mass and inertia tensors over whole histories, in exact arithmetic *)
From Coq Require Import ZArith Reals List Permutation Bool Lra Psatz.
Import ListNotations.
From Verif Require Import Num Vec Res Arena RangeM Orient Colliders Collide EntityM SystemM OrderP Spec ResP ArenaP FrameP StoreP ExecP ValidP MassP RealSpec RealV OrientP Orient2P RangeP GeomP Geom4P PhysSpec PhysP Phys3P Phys4P Mass2P.
Local Open Scope R_scope.

(** ** Rotations stay unit quaternions, or are lost altogether *)
Lemma finite_dec (v : Vec3 ER) : finite_v v \/ ~ finite_v v.
Proof. apply Classical_Prop.classic. Qed.
Definition big (x : ER) : Prop := match x with PInf | ENaN => True | _ => False end.
Lemma half_square x : let h := n_div x n2 in (exists r, n_mul h h = Fin r /\ 0 <= r /\ exists a, x = Fin a) \/ big (n_mul h h).
Proof.
  cbv zeta. rewrite fin_2. destruct x as [a| | |].
  - left. rewrite fin_div, fin_mul by lra. exists (a / 2 * (a / 2)). split; [exact eq_refl|]. split; [nra|exists a; exact eq_refl].
  - right. change (@n_div ER EReal) with er_div. change (@n_mul ER EReal) with er_mul. cbn [er_div]. destruct (Rlt_dec 2 0); [lra|]. exact Logic.I.
  - right. change (@n_div ER EReal) with er_div. change (@n_mul ER EReal) with er_mul. cbn [er_div]. destruct (Rlt_dec 2 0); [lra|]. exact Logic.I.
  - right. exact Logic.I.
Qed.
Lemma nan_mul (x : ER) : n_mul x ENaN = ENaN. Proof. destruct x; reflexivity. Qed.
Lemma nan_mul' (x : ER) : n_mul ENaN x = ENaN. Proof. destruct x; reflexivity. Qed.
Lemma nan_add (x : ER) : n_add x ENaN = ENaN. Proof. destruct x; reflexivity. Qed.
Lemma nan_add' (x : ER) : n_add ENaN x = ENaN. Proof. destruct x; reflexivity. Qed.
Lemma nan_sub (x : ER) : n_sub x ENaN = ENaN. Proof. destruct x; reflexivity. Qed.
Lemma nan_sub' (x : ER) : n_sub ENaN x = ENaN. Proof. destruct x; reflexivity. Qed.
Lemma exp_unit_or_lost (v : Vec3 ER) : unit_or_lost (qfrom_scaled_axis v).
Proof.
  destruct (finite_dec v) as [(x & ->)|NF].
  - left. rewrite exp_fin. eexists. split; [exact eq_refl|]. apply rexp_unit.
  - right. unfold qfrom_scaled_axis. cbv zeta. set (h := vdivs v n2).
    assert (B : big (vnorm2 h)).
    { destruct v as [x y z]. unfold vnorm2, vdot, h, vdivs. cbn [vx vy vz].
      destruct (half_square x) as [(a & Ea & Pa & Fa)|Ba], (half_square y) as [(b & Eb & Pb & Fb)|Bb], (half_square z) as [(c & Ec & Pc & Fc)|Bc]; cbv zeta in *;
        try rewrite Ea; try rewrite Eb; try rewrite Ec;
        repeat match goal with B : big ?t |- _ => destruct t; try contradiction; clear B end; try exact Logic.I.
      exfalso. apply NF. destruct Fa as (p1 & ->), Fb as (p2 & ->), Fc as (p3 & ->). exists (mkV p1 p2 p3). exact eq_refl. }
    rewrite fin_machine, fin_mul. destruct (vnorm2 h) as [r| | |]; try contradiction.
    + change (@n_le ER EReal) with er_le. cbn [er_le]. change (n_sqrt PInf) with PInf. change (n_sin PInf) with ENaN. change (n_cos PInf) with ENaN.
      change (n_div ENaN PInf) with ENaN. unfold vscale. cbn [vx vy vz]. now rewrite !nan_mul.
    + change (@n_le ER EReal) with er_le. cbn [er_le]. change (n_sqrt ENaN) with ENaN. change (n_sin ENaN) with ENaN. change (n_cos ENaN) with ENaN.
      change (n_div ENaN ENaN) with ENaN. unfold vscale. cbn [vx vy vz]. now rewrite !nan_mul.
Qed.
Lemma mul_unit_or_lost p q : unit_or_lost p -> unit_or_lost q -> unit_or_lost (qmul p q).
Proof.
  intros [(a & -> & Ua)| ->] [(b & -> & Ub)| ->].
  - left. exists (qmul a b). split; [exact eq_refl|now apply unit_qmul].
  - right. destruct a. exact eq_refl.
  - right. destruct b. exact eq_refl.
  - right. exact eq_refl.
Qed.
Lemma reachable_rotation (s : system ER) h e : reachable s -> get_entity s h = Some e -> unit_or_lost (o_rot (pe_last_orient e)).
Proof.
  intros R He. unfold get_entity in He. destruct (aget (s_ents s) h) as [i|] eqn:Ei; [|discriminate]. injection He as <-.
  destruct (reachable_mass unit_or_lost exp_unit_or_lost (fun v q => mul_unit_or_lost _ q (exp_unit_or_lost v)) s R h i Ei) as (G & _). exact G.
Qed.

(** ** Sums *)
Lemma rsum_perm l l' : Permutation l l' -> rsum l = rsum l'.
Proof. intros P. induction P; cbn [rsum fold_right] in *; fold rsum in *; unfold rsum in *; lra. Qed.
Lemma vsum_perm (l l' : list V) : Permutation l l' -> vsum l = vsum l'.
Proof.
  intros P. induction P; unfold vsum in *; cbn [fold_right].
  - exact eq_refl.
  - now rewrite IHP.
  - set (s := fold_right _ _ l). destruct x as [x1 x2 x3], y as [y1 y2 y3], s as [s1 s2 s3]. apply vext; vunfold; ring.
  - congruence.
Qed.
Lemma rsum_fin_from (l : list R) : forall a, fold_left n_add (map Fin l) (Fin a) = Fin (a + rsum l).
Proof.
  induction l as [|x l IH]; intros a; cbn [map fold_left].
  - f_equal. unfold rsum. cbn [fold_right]. ring.
  - rewrite fin_add, IH. f_equal. unfold rsum. cbn [fold_right]. ring.
Qed.
Definition local_moment (ps : list part) : V := vsum (map (fun p => vscale (p_centre p) (p_mass p)) ps).
Lemma moment_form o ps : unit_o o -> parts_moment o ps = vadd (qrot (o_rot o) (vadd (local_moment ps) (vscale (o_off o) (parts_mass ps)))) (vscale (o_pos o) (parts_mass ps)).
Proof.
  intros U. unfold parts_moment, local_moment, parts_mass, rsum, vsum. induction ps as [|p ps IH]; cbn [map fold_right].
  - rewrite qrot_add, qrot_scale. set (a := qrot _ (mkV 0 0 0)). set (b := qrot _ (o_off o)). assert (E : a = mkV 0 0 0).
    { unfold a. destruct (o_rot o) as [i j k w]. apply vext; qunfold; field. }
    rewrite E. destruct b, (o_pos o). apply vext; vunfold; ring.
  - rewrite IH, world_form by exact U. set (ms := fold_right Rplus 0 _). set (cs := fold_right vadd _ (map (fun p => vscale (p_centre p) (p_mass p)) ps)).
    rewrite !qrot_add, !qrot_scale.
    set (a := qrot _ (p_centre p)). set (b := qrot _ (o_off o)). set (c := qrot _ cs). set (d := o_pos o). set (m := p_mass p). clearbody a b c d m ms.
    destruct a, b, c, d. apply vext; vunfold; ring.
Qed.

(** ** One recalculation *)
Definition part_in (cols : arena (collider ER)) (c : handle) (p : part) : Prop :=
  exists k, aget cols c = Some k /\ c_mass k = Fin (p_mass p) /\ c_com k = vfin (p_centre p) /\ c_moi k = mfin (p_tensor p).

Lemma parts_lookup {A} (P : handle -> collider ER -> Prop) (f : collider ER -> A) (g : part -> A) cols pt hs l :
  (forall c, In c hs -> part_in cols c (pt c)) -> Forall2 P hs l -> (forall h c, P h c -> aget cols h = Some c) ->
  (forall k p, c_mass k = Fin (p_mass p) -> c_com k = vfin (p_centre p) -> c_moi k = mfin (p_tensor p) -> f k = g p) ->
  map f l = map (fun c => g (pt c)) hs.
Proof.
  intros Hp L HP Hf. revert Hp. induction L as [|h c hs l H L IH]; intros Hp; cbn [map]; [exact eq_refl|]. f_equal.
  - destruct (Hp h) as (k & G & E1 & E2 & E3); [now left|]. apply HP in H. assert (k = c) by congruence. subst. auto.
  - apply IH. intros c' Hc'. apply Hp. now right.
Qed.

Lemma madd_fin a b : madd (mfin a) (mfin b) = mfin (madd a b). Proof. exact eq_refl. Qed.
Definition local_tensor (off : V) (p : part) : M := translate_moment (p_tensor p) (p_mass p) (vadd off (p_centre p)).
Definition local_inertia (off : V) (ps : list part) : M := fold_left madd (map (local_tensor off) ps) mzero.
Lemma recalc_exact hs cols (e e' : ientity ER) pt : (forall c, In c hs -> part_in cols c (pt c)) -> recalculate_mass hs cols e = Ok e' ->
  let ps := map pt hs in let M := parts_mass ps in
  (if Rlt_dec 0 M then
     e_total_mass e' = n_add (e_own_mass e) (Fin M) /\
     exists mv, mv = vsub (vdivs (Spec.vsum (map (fun c => vscale (position_into_world (e_orient e) (vfin (p_centre (pt c)))) (Fin (p_mass (pt c)))) hs)) (Fin M)) (o_pos (e_orient e)) /\
       e_orient e' = mkO (vadd (o_pos (e_orient e)) mv) (o_rot (e_orient e)) (vsub (o_off (e_orient e)) (direction_into_local (e_orient e) mv))
   else e_total_mass e' = e_own_mass e /\
     e_orient e' = let o := e_orient e in let off := vsub (o_off o) (o_off o) in
       mkO (vadd (o_pos o) (direction_into_world (mkO (o_pos o) (o_rot o) off) (o_off o))) (o_rot o) off) /\
  (forall x, o_off (e_orient e') = vfin x -> e_prep_moi e' = mfin (local_inertia x ps)).
Proof.
  intros Hp H ps M. unfold recalculate_mass in H. inv_ok H. destruct x as [[fi m] v]. apply com_loop_spec in E. destruct fi.
  { exfalso. destruct E as (h & c & I1 & G & I2). destruct (Hp h I1) as (k & G' & E1 & _). assert (k = c) by congruence. subst. rewrite E1 in I2. discriminate. }
  destruct E as (l & L & E1 & E2).
  assert (LP : forall h c, aget cols h = Some c /\ n_isinf (c_mass c) = false -> aget cols h = Some c) by tauto.
  assert (X1 : map c_mass l = map Fin (map p_mass ps)).
  { rewrite (parts_lookup _ c_mass (fun p => Fin (p_mass p)) _ _ _ _ Hp L LP) by (intros; assumption). unfold ps. now rewrite !map_map. }
  rewrite X1, fin_0, rsum_fin_from in E1. fold (parts_mass ps) in E1. replace (0 + parts_mass ps) with M in E1 by (unfold M; ring).
  rewrite (parts_lookup _ _ (fun p => vscale (position_into_world (e_orient e) (vfin (p_centre p))) (Fin (p_mass p))) _ _ _ _ Hp L LP) in E2 by (intros k p -> -> _; exact eq_refl).
  fold (Spec.vsum (map (fun c => vscale (position_into_world (e_orient e) (vfin (p_centre (pt c)))) (Fin (p_mass (pt c)))) hs)) in E2.
  subst m v. rewrite andb_true_r in H. rewrite fin_0 in H. change (@n_lt ER EReal) with er_lt in H. cbv zeta in H.
  assert (Moi : forall (e2 : ientity ER) r x, moi_loop (e_orient e2) cols hs = Ok r -> o_off (e_orient e2) = vfin x -> r = mfin (local_inertia x ps)).
  { intros e2 r x Hm Hx. apply moi_loop_spec in Hm. destruct Hm as (l2 & L2 & ->).
    rewrite (parts_lookup _ _ (fun p => mfin (local_tensor x p)) _ _ _ _ Hp L2) by (first [tauto | intros k p -> -> ->; unfold prep_moment; rewrite Hx; exact eq_refl]).
    unfold local_inertia, ps. rewrite map_map. change (@mzero ER EReal) with (mfin mzero).
    generalize (@mzero R RNum). clear. induction hs as [|h hs IH]; intros a; cbn [map fold_left]; [exact eq_refl|]. rewrite madd_fin. apply IH. }
  destruct (Rlt_dec 0 M) as [L0|L0].
  - rewrite (proj2 (er_lt_fin _ _)) in H by exact L0. inv_ok H. apply ok_inj in H. subst e'. cbn [e_total_mass e_orient e_set_mass e_prep_moi].
    split.
    + split; [exact eq_refl|]. eexists. split; exact eq_refl.
    + intros x0 Hx. exact (Moi (e_set_mass e _ n0 mzero) _ _ E Hx).
  - rewrite (proj2 (er_lt_fin_f _ _)) in H by lra. inv_ok H. apply ok_inj in H. subst e'. cbn [e_total_mass e_orient e_set_mass e_prep_moi].
    split.
    + split; exact eq_refl.
    + intros x0 Hx. exact (Moi (e_set_mass e _ n0 mzero) _ _ E Hx).
Qed.

(** ** Finite results come from finite inputs *)
Lemma vsub_back a b : finite_v (vsub a b) -> finite_v a /\ finite_v b.
Proof.
  assert (S : forall x y r, n_sub x y = Fin r -> exists a b, x = Fin a /\ y = Fin b).
  { intros x y r. change (@n_sub ER EReal) with er_sub. destruct x as [p| | |], y as [q| | |]; cbn; intros H; try discriminate. exists p, q. split; exact eq_refl. }
  intros [[x y z] H]. destruct a as [a1 a2 a3], b as [b1 b2 b3]. unfold vsub, vfin in H. cbn [vx vy vz] in H.
  assert (H1 := f_equal (@vx _) H). assert (H2 := f_equal (@vy _) H). assert (H3 := f_equal (@vz _) H). cbn [vx vy vz] in H1, H2, H3.
  apply S in H1, H2, H3. destruct H1 as (p1 & q1 & -> & ->), H2 as (p2 & q2 & -> & ->), H3 as (p3 & q3 & -> & ->).
  split; [exists (mkV p1 p2 p3)|exists (mkV q1 q2 q3)]; exact eq_refl.
Qed.
Lemma qrot_back q v : unit_or_lost q -> finite_v (qrot q v) -> finite_v v /\ exists r, q = qfin r /\ unit_quat r.
Proof.
  intros G H. unfold qrot in H. cbv zeta in H. pose proof H as H0. apply vadd_back in H. destruct H as (H1 & H2 & _). split; [exact H2|].
  destruct G as [G| ->]; [exact G|]. exfalso. apply vadd_back in H1. destruct H1 as ((x & Hx) & _). cbn [qw] in Hx.
  unfold vscale at 1 in Hx. rewrite !nan_mul in Hx. discriminate.
Qed.
Lemma inv_unit_or_lost q : unit_or_lost q -> unit_or_lost (qinv q).
Proof. intros [(r & -> & U)| ->]; [left; exists (qinv r); split; [exact eq_refl|now apply unit_qinv]|right; exact eq_refl]. Qed.
Lemma qident_fin : @qident ER EReal = qfin (mkQ 0 0 0 1).
Proof. unfold qident. rewrite fin_0, fin_1. exact eq_refl. Qed.
Lemma qinv_back q r : qinv q = qfin r -> q = qfin (qinv r).
Proof.
  destruct q as [a b c d], r as [x y z w]. unfold qinv, qfin. cbn [qi qj qk qw]. intros H.
  assert (H1 := f_equal (@qi _) H). assert (H2 := f_equal (@qj _) H). assert (H3 := f_equal (@qk _) H). assert (H4 := f_equal (@qw _) H). cbn [qi qj qk qw] in *. subst d. clear H.
  destruct a as [a| | |], b as [b| | |], c as [c| | |]; try discriminate. apply fin_eq in H1, H2, H3. subst x y z.
  cbn [n_neg RNum]. now rewrite !Ropp_involutive.
Qed.
Lemma local_direction_back o v : unit_or_lost (o_rot o) -> finite_v (direction_into_local o v) -> finite_v v /\ exists r, o_rot o = qfin r /\ unit_quat r.
Proof.
  intros G H. unfold direction_into_local, into_local, iso_vector in H. cbn [i_rot iso_append_translation iso_append_rotation] in H.
  apply qrot_back in H.
  - destruct H as (H1 & r & H2 & H3). split; [exact H1|]. destruct G as [G| E]; [exact G|]. exfalso. rewrite E, qident_fin in H2. discriminate.
  - apply mul_unit_or_lost; [now apply inv_unit_or_lost|]. left. exists (mkQ 0 0 0 1). split; [apply qident_fin|]. exact unit_qident || (unfold unit_quat; cbn; ring).
Qed.

(** ** The centre of mass *)
Lemma qrot_zero (q : Q) : qrot q (mkV 0 0 0) = mkV 0 0 0.
Proof. destruct q as [i j k w]. apply vext; qunfold; field. Qed.
Lemma recalc_finite hs cols (e e' : ientity ER) o pt : e_orient e = ofin o -> unit_o o -> (forall c, In c hs -> part_in cols c (pt c)) -> recalculate_mass hs cols e = Ok e' ->
  let ps := map pt hs in let M := parts_mass ps in let centre := vscale (local_moment ps) (/ M) in
  exists o', e_orient e' = ofin o' /\ o_rot o' = o_rot o /\ (forall x, position_into_world o' x = position_into_world o x) /\
    (0 < M -> o_off o' = vneg centre) /\ (~ 0 < M -> o_off o' = mkV 0 0 0).
Proof.
  intros Eo U Hp H ps M centre. pose proof (recalc_exact _ _ _ _ _ Hp H) as (X & _). fold ps in X. fold M in X. rewrite Eo in X.
  destruct (Rlt_dec 0 M) as [L|L].
  - destruct X as (_ & mv & Emv & Eo').
    assert (E1 : Spec.vsum (map (fun c => vscale (position_into_world (ofin o) (vfin (p_centre (pt c)))) (Fin (p_mass (pt c)))) hs) = vfin (parts_moment o ps)).
    { rewrite (vsum_fin _ (fun c => vscale (position_into_world o (p_centre (pt c))) (p_mass (pt c)))) by (intros; exact eq_refl).
      unfold parts_moment, ps. now rewrite map_map. }
    rewrite E1, vdivs_fin in Emv by lra. cbn [ofin o_pos o_rot o_off] in Emv, Eo'. rewrite vfin_sub, moment_form in Emv by exact U. fold M in Emv.
    set (d := vadd centre (o_off o)).
    assert (E2 : mv = vfin (qrot (o_rot o) d)).
    { rewrite Emv. f_equal. unfold d, centre. rewrite !qrot_add, !qrot_scale. set (a := qrot _ (local_moment ps)). set (b := qrot _ (o_off o)). set (p := o_pos o).
      clearbody a b p M. destruct a, b, p. apply vext; vunfold; field; lra. }
    exists (mkO (vadd (o_pos o) (qrot (o_rot o) d)) (o_rot o) (vneg centre)).
    assert (E3 : vsub (o_off o) d = vneg centre) by (unfold d; destruct (o_off o), centre; apply vext; vunfold; ring).
    split.
    { rewrite Eo', E2. change (direction_into_local (ofin o) (vfin (qrot (o_rot o) d))) with (vfin (direction_into_local o (qrot (o_rot o) d))).
      rewrite direction_local_form, qrot_qinv_l, vfin_add, vfin_sub, E3 by exact U. exact eq_refl. }
    split; [exact eq_refl|]. split; [|split; [intros _; exact eq_refl|intros []; exact L]].
    intros x. rewrite !world_form by exact U. cbn [o_rot o_off o_pos]. rewrite !qrot_add. unfold d. rewrite qrot_add, qrot_neg.
    set (a := qrot _ x). set (b := qrot _ centre). set (c := qrot _ (o_off o)). set (p := o_pos o). clearbody a b c p. destruct a, b, c, p. apply vext; vunfold; ring.
  - destruct X as (_ & Eo'). cbv zeta in Eo'. cbn [ofin o_pos o_rot o_off] in Eo'. rewrite vfin_sub in Eo'.
    assert (E0 : vsub (o_off o) (o_off o) = mkV 0 0 0) by (destruct (o_off o); apply vext; vunfold; ring). rewrite E0 in Eo'.
    exists (mkO (vadd (o_pos o) (qrot (o_rot o) (o_off o))) (o_rot o) (mkV 0 0 0)). split.
    { rewrite Eo'. change (direction_into_world (mkO (vfin (o_pos o)) (qfin (o_rot o)) (vfin (mkV 0 0 0))) (vfin (o_off o))) with
        (vfin (direction_into_world (mkO (o_pos o) (o_rot o) (mkV 0 0 0)) (o_off o))). rewrite direction_world_form, vfin_add. exact eq_refl. }
    split; [exact eq_refl|]. split; [|split; [intros X; contradiction|intros _; exact eq_refl]].
    intros x. rewrite !world_form by exact U. cbn [o_rot o_off o_pos]. rewrite !qrot_add, qrot_zero.
    set (a := qrot _ x). set (c := qrot _ (o_off o)). set (p := o_pos o). clearbody a c p. destruct a, c, p. apply vext; vunfold; ring.
Qed.
Lemma recalc_offset hs cols (e e' : ientity ER) pt off : unit_or_lost (o_rot (e_orient e)) -> (forall c, In c hs -> part_in cols c (pt c)) ->
  recalculate_mass hs cols e = Ok e' -> o_off (e_orient e') = vfin off ->
  let ps := map pt hs in let M := parts_mass ps in
  (0 < M -> off = vneg (vscale (local_moment ps) (/ M))) /\ (~ 0 < M -> off = mkV 0 0 0).
Proof.
  intros G Hp H Eoff ps M. pose proof (recalc_exact _ _ _ _ _ Hp H) as (X & _). fold ps in X. fold M in X.
  destruct (Rlt_dec 0 M) as [L|L]; (split; intros K; [|try contradiction]); try contradiction.
  - destruct X as (_ & mv & Emv & Eo'). rewrite Eo' in Eoff. cbn [o_off] in Eoff.
    assert (F : finite_v (vsub (o_off (e_orient e)) (direction_into_local (e_orient e) mv))) by (rewrite Eoff; exists off; exact eq_refl).
    apply vsub_back in F. destruct F as ((off0 & F1) & F2). apply local_direction_back in F2; [|exact G]. destruct F2 as (F2 & q & Fq & Uq).
    rewrite Emv in F2. apply vsub_back in F2. destruct F2 as (_ & (p & Fp)).
    assert (Eo : e_orient e = ofin (mkO p q off0)) by (destruct (e_orient e) as [a b c]; cbn [o_pos o_rot o_off] in *; subst; exact eq_refl).
    destruct (recalc_finite _ _ _ _ (mkO p q off0) _ Eo Uq Hp H) as (o' & E1 & _ & _ & E2 & _). fold ps in E2. fold M in E2.
    rewrite <- (E2 L). apply vfin_inj. rewrite Eo' in E1. rewrite <- Eoff. exact (f_equal (@o_off ER) E1).
  - destruct X as (_ & Eo'). rewrite Eo' in Eoff. cbv zeta in Eoff. cbn [o_off] in Eoff.
    assert (F : finite_v (vsub (o_off (e_orient e)) (o_off (e_orient e)))) by (rewrite Eoff; exists off; exact eq_refl).
    apply vsub_back in F. destruct F as ((x & Fx) & _). rewrite Fx, vfin_sub in Eoff. apply vfin_inj in Eoff. rewrite <- Eoff. destruct x. apply vext; vunfold; ring.
Qed.
