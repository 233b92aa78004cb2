(** * CollideP: collision times lie in the step; the earliest of the parts is reported; symmetry *)
From Coq Require Import ZArith Reals List Bool Lra Lia.
Import ListNotations.
From Verif Require Import Num Vec Res Arena RangeM Orient Colliders Collide OrderP Spec ResP ArithP RangeP.

Section Times.
  Context {T : Type} {N : Num T} {O : Ord N}.
  Implicit Types (o : option (collision T)).

  Definition unit_t (t : T) : Prop := n_le n0 t = true /\ n_le t n1 = true.
  Definition timely o : Prop := forall c, o = Some c -> unit_t (c_time c).

  Lemma in_unit x : in_range x rg_unit = true -> unit_t x.
  Proof.
    unfold rg_unit. rewrite in_rg, orb_true_iff, !andb_true_iff. intros [H|[H1 H2]]; [exact H|]. exfalso.
    pose proof (le_trans _ _ _ H1 H2) as H. apply le_not_lt in H. rewrite lt_0_1 in H. discriminate.
  Qed.
  Lemma cut_unit r : rg_is_empty (rg_intersect r rg_unit) = false -> unit_t (rg_min (rg_intersect r rg_unit)).
  Proof.
    intros E. unfold rg_min. rewrite E. apply in_unit.
    destruct (ok_intersect r rg_unit) as [|M]; [congruence|].
    pose proof (proj1 (in_min _ E M)) as H. rewrite in_intersect in H. now apply andb_true_iff in H.
  Qed.
  Lemma unit_finite t : n_isfin t = true -> n_lt t n0 = false -> n_lt n1 t = false -> unit_t t.
  Proof.
    intros F H0 H1. apply isfin_notnan in F. split; apply not_lt_le; auto using n0_notnan, n1_notnan.
  Qed.
  Lemma single_time t p n : unit_t t -> unit_t (c_time (mkC (rg_single t) p n)).
  Proof.
    intros [H0 H1]. unfold c_time, rg_min, rg_is_empty, rg_single. simpl. rewrite (le_nan_r _ _ H0). simpl. split; auto.
  Qed.

  Lemma timely_none : timely None. Proof. intros c H. discriminate. Qed.
  Lemma timely_cut r p n : timely (if rg_is_empty (rg_intersect r rg_unit) then None else Some (mkC (rg_intersect r rg_unit) p n)).
  Proof.
    destruct (rg_is_empty _) eqn:E; [apply timely_none|]. intros c H. injection H as <-. unfold c_time. simpl. now apply cut_unit.
  Qed.
  Lemma timely_scale c k : timely (Some c) -> timely (Some (scale_normal c k)).
  Proof. intros H d E. injection E as <-. exact (H c eq_refl). Qed.
  Lemma timely_flip o : timely o -> timely (flip o).
  Proof. destruct o; simpl; auto. apply timely_scale. Qed.
  Lemma timely_out c s e : timely (Some c) -> timely (Some (transform_out_of c s e)).
  Proof. intros H d E. injection E as <-. exact (H c eq_refl). Qed.

  Lemma sphere_plane_timely r c m p n mv : timely (collide_sphere_with_plane r c m p n mv).
  Proof. unfold collide_sphere_with_plane. cbv zeta. apply timely_cut. Qed.
  Lemma sphere_sphere_timely r1 c1 m1 r2 c2 m2 : timely (collide_sphere_with_sphere r1 c1 m1 r2 c2 m2).
  Proof. unfold collide_sphere_with_sphere. cbv zeta. apply timely_cut. Qed.
  Lemma sphere_line_timely r1 c1 m1 s2 d2 m2 : timely (collide_sphere_with_line r1 c1 m1 s2 d2 m2).
  Proof. unfold collide_sphere_with_line. cbv zeta. apply timely_cut. Qed.
  Lemma sphere_segment_timely r1 c1 m1 s2 e2 m2 : timely (collide_sphere_with_mid_line_segment r1 c1 m1 s2 e2 m2).
  Proof.
    unfold collide_sphere_with_mid_line_segment. cbv zeta. destruct (collide_sphere_with_line _ _ _ _ _ _) eqn:E; [|apply timely_none].
    match goal with |- timely (if ?b then _ else _) => destruct b end; [|apply timely_none]. rewrite <- E. apply sphere_line_timely.
  Qed.
  Lemma sphere_polygon_timely r1 c1 m1 k2 m2 o : collide_sphere_with_polygon_surface r1 c1 m1 k2 m2 = Ok o -> timely o.
  Proof.
    unfold collide_sphere_with_polygon_surface. destruct k2 as [|k0 [|k1 [|k2 ks]]]; try discriminate. cbv zeta.
    destruct (rg_is_empty _) eqn:E; [intros H; injection H as <-; apply timely_none|].
    match goal with |- (if ?b then _ else _) = _ -> _ => destruct b end; intros H; injection H as <-; [|apply timely_none].
    intros c H. injection H as <-. unfold c_time. simpl. now apply cut_unit.
  Qed.
  Lemma mesh_plane_timely vs p s e ps pe n : timely (collide_mesh_with_plane vs p s e ps pe n).
  Proof.
    unfold collide_mesh_with_plane. cbv zeta. destruct (rg_is_empty _) eqn:E; [apply timely_none|].
    repeat match goal with |- context [let '(_, _) := ?x in _] => destruct x end.
    intros c H. injection H as <-. unfold c_time. simpl. now apply cut_unit.
  Qed.
  Lemma box_face_timely r c m mn mx : timely (box_face_collision r c m mn mx).
  Proof.
    unfold box_face_collision, box_face_times. cbv zeta. destruct (rg_is_empty _) eqn:E; [apply timely_none|].
    intros d H. injection H as <-. unfold c_time. simpl. now apply cut_unit.
  Qed.

  (** A point against a polygon. *)
  Lemma closest_side_timely ps pe pn sides : forall best,
    (fst best = n2 \/ unit_t (fst best)) -> let b := closest_side ps pe pn best sides in fst b = n2 \/ unit_t (fst b).
  Proof.
    induction sides as [|[p q] sides IH]; simpl; intros best Hb; auto. apply IH.
    match goal with |- context [if ?b then best else _] => destruct b eqn:E end; auto.
    apply orb_false_iff in E. destruct E as [E E3]. apply orb_false_iff in E. destruct E as [E1 E2]. apply negb_false_iff in E1.
    match goal with |- context [if ?b then best else _] => destruct b end; auto.
    match goal with |- context [if ?b then _ else best] => destruct b end; auto. simpl. right. now apply unit_finite.
  Qed.
  Lemma two_not_le_one : n_le n2 n1 = false.
  Proof. rewrite key_le, key_2, key_1. simpl. destruct (Rle_dec 2 1); auto. lra. Qed.
  Lemma point_polygon_timely ps pe pol o : collide_point_with_polygon ps pe pol = Ok o -> timely o.
  Proof.
    unfold collide_point_with_polygon. cbv zeta. intros H. apply rbind_ok in H. destruct H as (pn & _ & H).
    destruct (point_is_on_plane _ _ _ && point_is_on_plane _ _ _).
    - destruct (closest_side _ _ _ _ _) as [ct cp] eqn:E.
      pose proof (closest_side_timely ps pe pn (loop_pairs pol) (n2, vzero) (or_introl eq_refl)) as Hc. cbv zeta in Hc. rewrite E in Hc. simpl in Hc.
      destruct (n_le ct n1) eqn:El; injection H as <-; [|apply timely_none].
      intros c Hcc. injection Hcc as <-. apply single_time. destruct Hc as [->|Hc]; auto. rewrite two_not_le_one in El. discriminate.
    - match type of H with (if ?b then _ else _) = _ => destruct b eqn:E end; [injection H as <-; apply timely_none|].
      apply orb_false_iff in E. destruct E as [E E3]. apply orb_false_iff in E. destruct E as [E1 E2]. apply negb_false_iff in E1.
      match type of H with (if ?b then _ else _) = _ => destruct b end; injection H as <-; [|apply timely_none].
      intros c Hc. injection Hc as <-. apply single_time. now apply unit_finite.
  Qed.

  (** The accumulator. *)
  Definition acc_timely (a : accum T) : Prop := timely (fst a).
  Lemma acc_consider_timely a o : acc_timely a -> timely o -> acc_timely (acc_consider a o).
  Proof. intros Ha Ho. destruct o as [c|]; simpl; auto. destruct (n_lt _ _); auto. Qed.
  Lemma fold_acc_timely {X} (f : X -> option (collision T)) l : (forall x, timely (f x)) ->
    forall a, acc_timely a -> acc_timely (fold_left (fun a x => acc_consider a (f x)) l a).
  Proof. intros Hf. induction l; simpl; intros b Hb; auto. apply IHl. now apply acc_consider_timely. Qed.

  Lemma sphere_mesh_timely r c m vs es fs mv o : collide_sphere_with_mesh r c m vs es fs mv = Ok o -> timely o.
  Proof.
    unfold collide_sphere_with_mesh. cbv zeta. intros H. apply rbind_ok in H. destruct H as (a1 & E1 & H).
    apply rbind_ok in H. destruct H as (a2 & E2 & H). injection H as <-.
    assert (H0 : acc_timely (fold_left (fun acc v => acc_consider acc (collide_sphere_with_sphere r c m n0 v mv)) vs acc_new)).
    { apply (fold_acc_timely (fun v => collide_sphere_with_sphere r c m n0 v mv)); [intros; apply sphere_sphere_timely|apply timely_none]. }
    assert (H1 : acc_timely a1).
    { eapply (rfold_ind _ acc_timely); [|exact H0|exact E1]. intros s [i j] s' Hs E. inv_ok E. inv_ok E. injection E as <-.
      apply acc_consider_timely; auto. apply sphere_segment_timely. }
    change (acc_timely a2). eapply (rfold_ind _ acc_timely); [|exact H1|exact E2]. intros s f s' Hs E. inv_ok E. inv_ok E. injection E as <-.
    apply acc_consider_timely; auto. eapply sphere_polygon_timely. eassumption.
  Qed.
  Lemma sphere_box_timely r c m mn mx : timely (collide_sphere_with_aligned_box r c m mn mx).
  Proof.
    unfold collide_sphere_with_aligned_box. cbv zeta.
    match goal with |- timely (fst ?a) => change (acc_timely a) end.
    apply (fold_acc_timely (fun corner => collide_sphere_with_sphere r c m n0 corner vzero)); [intros; apply sphere_sphere_timely|].
    apply (fold_acc_timely (fun e => collide_sphere_with_mid_line_segment r c m (nth (fst e) (box_corners mn mx) vzero) (nth (snd e) (box_corners mn mx) vzero) vzero));
      [intros; apply sphere_segment_timely|].
    apply acc_consider_timely; [apply timely_none|apply box_face_timely].
  Qed.
  Lemma points_faces_timely out p1 fs p2 k a : acc_timely out -> collide_mesh_points_with_mesh_faces out p1 fs p2 k = Ok a -> acc_timely a.
  Proof.
    intros Ho H. unfold collide_mesh_points_with_mesh_faces in H. apply rbind_ok in H. destruct H as (a1 & E1 & H).
    assert (H1 : acc_timely a1).
    { eapply (rfold_ind _ acc_timely); [| |exact E1]; [|apply timely_none]. intros s pt s' Hs E. eapply rfold_ind; [|exact Hs|exact E].
      intros s1 f s1' Hs1 Ef. inv_ok Ef. inv_ok Ef. injection Ef as <-. apply acc_consider_timely; auto. eapply point_polygon_timely. eassumption. }
    destruct a1 as [[col|] t]; simpl in H; [|injection H as <-; auto].
    match type of H with context [let '(_, _) := ?x in _] => destruct x as [ng kp] end.
    injection H as <-. match goal with |- acc_timely (if ?b then (Some ?x, _) else _) => change (acc_timely (acc_consider out (Some x))) end.
    apply acc_consider_timely; auto. apply timely_scale. destruct (Nat.ltb kp ng); auto. now apply timely_scale.
  Qed.
  Lemma mesh_mesh_timely m1 s1 e1 m2 s2 e2 o : collide_mesh_with_mesh m1 s1 e1 m2 s2 e2 = Ok o -> timely o.
  Proof.
    unfold collide_mesh_with_mesh. cbv zeta. intros H. inv_ok H. inv_ok H. injection H as <-.
    match goal with |- timely (fst ?a) => change (acc_timely a) end.
    eapply points_faces_timely; [|eassumption]. eapply points_faces_timely; [|eassumption]. apply timely_none.
  Qed.
  Lemma collide_timely c1 s1 e1 c2 s2 e2 o : collide c1 s1 e1 c2 s2 e2 = Ok o -> timely o.
  Proof.
    unfold collide. destruct c1, c2; cbv zeta; intros H; try (injection H as <-);
      auto using timely_none, sphere_sphere_timely, sphere_plane_timely, mesh_plane_timely, timely_flip.
    - eapply sphere_mesh_timely; eassumption.
    - pose proof (sphere_box_timely (sp_radius c) (position_into_local s2 (position_into_world s1 (sp_center c)))
        (vsub (position_into_local e2 (position_into_world e1 (sp_center c))) (position_into_local s2 (position_into_world s1 (sp_center c)))) (bx_min c0) (bx_max c0)) as B.
      destruct (collide_sphere_with_aligned_box _ _ _ _ _); injection H as <-; auto using timely_out.
    - inv_ok H. injection H as <-. apply timely_flip. eapply sphere_mesh_timely; eassumption.
    - eapply mesh_mesh_timely; eassumption.
    - pose proof (sphere_box_timely (sp_radius c0) (position_into_local s1 (position_into_world s2 (sp_center c0)))
        (vsub (position_into_local e1 (position_into_world e2 (sp_center c0))) (position_into_local s1 (position_into_world s2 (sp_center c0)))) (bx_min c) (bx_max c)) as B.
      destruct (collide_sphere_with_aligned_box _ _ _ _ _); injection H as <-; auto using timely_out, timely_scale.
  Qed.
  Lemma collide_time c1 s1 e1 c2 s2 e2 c : collide c1 s1 e1 c2 s2 e2 = Ok (Some c) ->
    n_le n0 (c_time c) = true /\ n_le (c_time c) n1 = true.
  Proof. intros H. exact (collide_timely _ _ _ _ _ _ _ H c eq_refl). Qed.
End Times.

(** ** The earliest of the parts *)
Section Earliest.
  Context {T : Type} {N : Num T} {O : Ord N}.

  (** What the accumulator holds after considering all of [P]. *)
  Definition acc_inv (P : collision T -> Prop) (a : accum T) : Prop :=
    match fst a with
    | None => a = acc_new /\ forall k, ~ P k
    | Some c => snd a = c_time c /\ P c /\ unit_t (c_time c) /\ forall k, P k -> n_lt (c_time k) (c_time c) = false
    end.
  Lemma acc_inv_new : acc_inv (fun _ => False) acc_new.
  Proof. unfold acc_inv. simpl. auto. Qed.
  Lemma acc_inv_ext (P Q : collision T -> Prop) a : (forall k, P k <-> Q k) -> acc_inv P a -> acc_inv Q a.
  Proof.
    intros E. unfold acc_inv. destruct (fst a) as [c|].
    - intros (H1 & H2 & H3 & H4). repeat split; try apply H3; auto; [now apply E|]. intros k Hk. apply H4. now apply E.
    - intros [H1 H2]. split; auto. intros k Hk. apply (H2 k). now apply E.
  Qed.
  Lemma unit_lt_inf t : unit_t t -> n_lt t n_inf = true.
  Proof. intros [_ H]. revert H. rewrite key_le, key_lt, key_1, key_inf. destruct (key t); simpl; auto; discriminate. Qed.
  Lemma acc_inv_consider P a o : acc_inv P a -> timely o -> acc_inv (fun k => P k \/ o = Some k) (acc_consider a o).
  Proof.
    intros Ha Ho. destruct o as [c|]; [|].
    2: { simpl. eapply acc_inv_ext; [|exact Ha]. intros k. split; auto. intros [?|?]; [auto|discriminate]. }
    pose proof (Ho c eq_refl) as Hc. unfold acc_inv in *. simpl. destruct a as [[d|] t]; simpl in *.
    - destruct Ha as (-> & Hd & Hu & Hm). destruct (n_lt (c_time c) (c_time d)) eqn:E; simpl.
      + repeat split; auto; try apply Hc. intros k [Hk|Hk].
        * specialize (Hm k Hk). destruct (n_lt (c_time k) (c_time c)) eqn:Ek; auto. now rewrite (lt_trans _ _ _ Ek E) in Hm.
        * injection Hk as <-. apply lt_irrefl.
      + repeat split; auto; try apply Hu. intros k [Hk|Hk]; auto. now injection Hk as <-.
    - destruct Ha as [Ha Hn]. injection Ha as ->. rewrite unit_lt_inf by auto. simpl. repeat split; auto; try apply Hc.
      intros k [Hk|Hk]; [now apply Hn in Hk|]. injection Hk as <-. apply lt_irrefl.
  Qed.
  Lemma acc_inv_fold {X} (f : X -> option (collision T)) l : (forall x, timely (f x)) -> forall P a, acc_inv P a ->
    acc_inv (fun k => P k \/ exists x, In x l /\ f x = Some k) (fold_left (fun a x => acc_consider a (f x)) l a).
  Proof.
    intros Hf. induction l as [|x l IH]; simpl; intros P a Ha.
    - eapply acc_inv_ext; [|exact Ha]. intros k. split; auto. intros [?|(? & [] & _)]; auto.
    - eapply acc_inv_ext; [|apply IH; apply acc_inv_consider; [exact Ha|apply Hf]]. intros k. simpl. split.
      + intros [[H|H]|(y & H1 & H2)]; eauto.
      + intros [H|(y & [<-|H1] & H2)]; eauto.
  Qed.
  (** A fold whose body looks up what to consider. *)
  Lemma acc_inv_rfold {X} (g : accum T -> X -> res (accum T)) (R : X -> option (collision T) -> Prop) l :
    (forall a x a', g a x = Ok a' -> exists o, R x o /\ a' = acc_consider a o) -> (forall x o, R x o -> timely o) ->
    (forall x o o', R x o -> R x o' -> o = o') ->
    forall P a a', acc_inv P a -> rfold g l a = Ok a' -> acc_inv (fun k => P k \/ exists x, In x l /\ R x (Some k)) a'.
  Proof.
    intros Hg Ht Hu. induction l as [|x l IH]; simpl; intros P a a' Ha H.
    - injection H as <-. eapply acc_inv_ext; [|exact Ha]. intros k. split; auto. intros [?|(? & [] & _)]; auto.
    - inv_ok H. apply Hg in E. destruct E as (o & Ro & ->).
      eapply acc_inv_ext; [|eapply IH; [|exact H]; apply acc_inv_consider; [exact Ha|eapply Ht; exact Ro]]. intros k. simpl. split.
      + intros [[H1|H1]|(y & H1 & H2)]; eauto. subst o. eauto.
      + intros [H1|(y & [<-|H1] & H2)]; eauto.
  Qed.

  Lemma corner_spec (mn mx p : Vec3 T) : In p (box_corners mn mx) <-> is_corner mn mx p.
  Proof.
    unfold is_corner, box_corners. simpl. split.
    - intros H. repeat destruct H as [<-|H]; simpl; auto. destruct H.
    - destruct p as [x y z]. simpl. intros ([-> | ->] & [-> | ->] & [-> | ->]); auto 10.
  Qed.
  Lemma edge_spec (mn mx p q : Vec3 T) :
    (exists e, In e box_edges /\ nth (fst e) (box_corners mn mx) vzero = p /\ nth (snd e) (box_corners mn mx) vzero = q) <-> is_edge mn mx p q.
  Proof.
    unfold is_edge. rewrite <- !corner_spec. split.
    - intros (e & He & <- & <-). unfold box_edges in He. simpl in He.
      repeat destruct He as [<-|He]; try destruct He; unfold box_corners; simpl;
        (split; [tauto|]); (split; [tauto|]); auto 6.
    - rewrite !corner_spec. unfold is_corner. destruct p as [x y z], q as [x' y' z']. simpl.
      intros (P & Q & H). 
      destruct H as [(-> & -> & <- & <-)|[(<- & -> & -> & <-)|(<- & <- & -> & ->)]].
      + destruct P as (_ & [-> | ->] & [-> | ->]).
        * exists (0, 1)%nat. simpl. auto 20.
        * exists (4, 5)%nat. simpl. auto 20.
        * exists (2, 3)%nat. simpl. auto 20.
        * exists (6, 7)%nat. simpl. auto 20.
      + destruct P as ([-> | ->] & _ & [-> | ->]).
        * exists (0, 2)%nat. simpl. auto 20.
        * exists (4, 6)%nat. simpl. auto 20.
        * exists (1, 3)%nat. simpl. auto 20.
        * exists (5, 7)%nat. simpl. auto 20.
      + destruct P as ([-> | ->] & [-> | ->] & _).
        * exists (0, 4)%nat. simpl. auto 20.
        * exists (2, 6)%nat. simpl. auto 20.
        * exists (1, 5)%nat. simpl. auto 20.
        * exists (3, 7)%nat. simpl. auto 20.
  Qed.

  Lemma acc_inv_result P a : acc_inv P a ->
    match fst a with
    | Some k => P k /\ forall k', P k' -> n_lt (c_time k') (c_time k) = false
    | None => forall k', ~ P k'
    end.
  Proof. unfold acc_inv. destruct (fst a); intros H; repeat split; try apply H. Qed.

  Lemma box_earliest (r : T) c m mn mx :
    match collide_sphere_with_aligned_box r c m mn mx with
    | Some k => box_part r c m mn mx k /\ forall k', box_part r c m mn mx k' -> n_lt (c_time k') (c_time k) = false
    | None => forall k', ~ box_part r c m mn mx k'
    end.
  Proof.
    unfold collide_sphere_with_aligned_box. cbv zeta. apply acc_inv_result.
    eapply acc_inv_ext; [|apply (acc_inv_fold (fun corner => collide_sphere_with_sphere r c m n0 corner vzero)); [intros; apply sphere_sphere_timely|];
      apply (acc_inv_fold (fun e => collide_sphere_with_mid_line_segment r c m (nth (fst e) (box_corners mn mx) vzero) (nth (snd e) (box_corners mn mx) vzero) vzero));
      [intros; apply sphere_segment_timely|]; apply acc_inv_consider; [apply acc_inv_new|apply box_face_timely]].
    intros k. cbv beta. split.
    - intros [[[[]|H]|(e & He & H)]|(p & Hp & H)].
      + now apply BP_face.
      + eapply BP_edge; [|exact H]. apply edge_spec. eauto.
      + eapply BP_corner; [|exact H]. now apply corner_spec.
    - intros [k' H|p q k' He H|p k' Hp H].
      + auto.
      + apply edge_spec in He. destruct He as (e & He & <- & <-). left. right. eauto.
      + apply corner_spec in Hp. right. eauto.
  Qed.

  Lemma mesh_earliest (r : T) c m vs es fs mv o : collide_sphere_with_mesh r c m vs es fs mv = Ok o ->
    match o with
    | Some k => mesh_part r c m vs es fs mv k /\ forall k', mesh_part r c m vs es fs mv k' -> n_lt (c_time k') (c_time k) = false
    | None => forall k', ~ mesh_part r c m vs es fs mv k'
    end.
  Proof.
    unfold collide_sphere_with_mesh. cbv zeta. intros H. inv_ok H. inv_ok H. injection H as <-. apply acc_inv_result.
    pose proof (acc_inv_fold (fun v => collide_sphere_with_sphere r c m n0 v mv) vs (fun v => sphere_sphere_timely _ _ _ _ _ _) _ _ acc_inv_new) as H0.
    eapply (acc_inv_rfold _ (fun (e : nat * nat) o => exists p q, nth_error vs (fst e) = Some p /\ nth_error vs (snd e) = Some q /\
        o = collide_sphere_with_mid_line_segment r c m p q mv)) in E; [| | | |exact H0].
    2: { intros a [i j] a' Ha. inv_ok Ha. inv_ok Ha. injection Ha as <-. eexists. split; [|reflexivity]. eauto. }
    2: { intros e o (p & q & _ & _ & ->). apply sphere_segment_timely. }
    2: { intros e o o' (p & q & H1 & H2 & ->) (p' & q' & H3 & H4 & ->). congruence. }
    eapply (acc_inv_rfold _ (fun (f : list nat) o => exists ps, Forall2 (fun i p => nth_error vs i = Some p) f ps /\
        collide_sphere_with_polygon_surface r c m ps mv = Ok o)) in E0; [| | | |exact E].
    2: { intros a f a' Ha. inv_ok Ha. inv_ok Ha. injection Ha as <-. eexists. split; [|reflexivity]. eexists. split; [|eassumption].
         apply rmap_ok in E1. clear -E1. induction E1; constructor; auto. now apply unwrap_ok. }
    2: { intros f o (ps & _ & H1). eapply sphere_polygon_timely; eassumption. }
    2: { intros f o o' (p & H1 & H2) (p' & H3 & H4). assert (p = p') as <-; [|congruence].
         clear -H1 H3. revert p' H3. induction H1; intros p' H3; inversion H3; subst; auto. f_equal; [congruence|auto]. }
    eapply acc_inv_ext; [|exact E0]. intros k. cbv beta. split.
    - intros [[[[]|(v & Hv & H)]|([i j] & He & p & q & Hp & Hq & H)]|(f & Hf & ps & Hps & H)].
      + eapply MP_vertex; eassumption.
      + eapply MP_edge; eauto.
      + eapply MP_face; eassumption.
    - intros [v k' Hv H|i j p q k' He Hp Hq H|f ps k' Hf Hps H].
      + left. left. right. eauto.
      + left. right. exists (i, j). simpl. eauto 6.
      + right. eauto.
  Qed.
End Earliest.

(** ** Exchanging the two colliders *)
Section Swap.
  Context {T : Type} {N : Num T} {O : Ord N} {O2 : Ord2 O}.

  Lemma vscale_m1 (v : Vec3 T) : vscale v nm1 = vneg v.
  Proof. unfold vscale, vneg. now rewrite !mul_m1. Qed.
  Lemma vneg_vneg (v : Vec3 T) : vneg (vneg v) = v.
  Proof. unfold vneg. simpl. rewrite !neg_neg. now destruct v. Qed.
  Lemma scale_m1_turn (c : collision T) : scale_normal c nm1 = turn c.
  Proof. unfold scale_normal, turn. now rewrite vscale_m1. Qed.
  Lemma turn_turn (c : collision T) : turn (turn c) = c.
  Proof. unfold turn. simpl. rewrite vneg_vneg. now destruct c. Qed.
  Lemma flip_turn (o : option (collision T)) : flip o = option_map turn o.
  Proof. destruct o; simpl; auto. now rewrite scale_m1_turn. Qed.
  Lemma scale_1 (c : collision T) : scale_normal c n1 = c.
  Proof. unfold scale_normal, vscale. rewrite !mul_1_r. now destruct c as [? ? []]. Qed.

  Lemma swap_mixed c1 s1 e1 c2 s2 e2 : mixed c1 c2 ->
    collide c2 s2 e2 c1 s1 e1 = rbind (collide c1 s1 e1 c2 s2 e2) (fun o => Ok (option_map turn o)).
  Proof.
    assert (TT : forall o : option (collision T), o = option_map turn (option_map turn o)) by (intros [c|]; simpl; rewrite ?turn_turn; auto).
    destruct c1 as [c1|c1|c1|c1|c1], c2 as [c2|c2|c2|c2|c2]; simpl; try contradiction; intros _; try reflexivity.
    - now rewrite flip_turn.
    - destruct (collide_sphere_with_mesh _ _ _ _ _ _ _); simpl; auto. now rewrite flip_turn.
    - destruct (collide_sphere_with_aligned_box _ _ _ _ _); simpl; auto. now rewrite scale_m1_turn.
    - now rewrite flip_turn, <- TT.
    - now rewrite flip_turn, <- TT.
    - destruct (collide_sphere_with_mesh _ _ _ _ _ _ _); simpl; auto. now rewrite flip_turn, <- TT.
    - now rewrite flip_turn.
    - destruct (collide_sphere_with_aligned_box _ _ _ _ _); simpl; auto. now rewrite scale_m1_turn, turn_turn.
  Qed.

  (** Corners of one mesh against the faces of the other, without output and factor. *)
  Definition corners_faces (p1 : list (Vec3 T * Vec3 T)) (fs : list (list nat)) (p2 : list (Vec3 T * Vec3 T)) : res (option (collision T)) :=
    rbind (rfold (fun acc pt =>
      rfold (fun acc face =>
        rbind (rmap (fun i => rbind (unwrap (nth_error p2 i)) (fun pe =>
                 Ok (vdivs (vadd (fst pe) (snd pe)) n2))) face) (fun face_points =>
        rbind (collide_point_with_polygon (fst pt) (snd pt) face_points) (fun c =>
        Ok (acc_consider acc c)))) fs acc) p1 acc_new) (fun acc =>
    match fst acc with
    | None => Ok None
    | Some col =>
      let time := c_time col in
      let '(negate, keep) := fold_left (fun nk pt =>
        let point := vadd (vscale (fst pt) (n_sub n1 time)) (vscale (snd pt) time) in
        let sign := vdot (vsub point (c_pos col)) (c_normal col) in
        if n_lt sign n0 then (S (fst nk), snd nk) else (fst nk, S (snd nk))) p1 (0%nat, 0%nat) in
      Ok (Some (if Nat.ltb keep negate then scale_normal col nm1 else col))
    end).
  Lemma points_faces_split out p1 fs p2 k : collide_mesh_points_with_mesh_faces out p1 fs p2 k =
    rbind (corners_faces p1 fs p2) (fun o => Ok (acc_consider out (option_map (fun c => scale_normal c k) o))).
  Proof.
    unfold collide_mesh_points_with_mesh_faces, corners_faces.
    match goal with |- rbind ?m _ = _ => destruct m as [[[col|] t]| |]; simpl; auto end.
    match goal with |- (let '(_, _) := ?x in _) = _ => destruct x as [ng kp] end. reflexivity.
  Qed.

  Lemma face_points_ok (p2 : list (Vec3 T * Vec3 T)) f fp :
    rmap (fun i => rbind (unwrap (nth_error p2 i)) (fun pe => Ok (vdivs (vadd (fst pe) (snd pe)) n2))) f = Ok fp ->
    exists pol, Forall2 (fun i pe => nth_error p2 i = Some pe) f pol /\ fp = map halfway pol.
  Proof.
    intros H. apply rmap_ok in H. induction H as [|i p f fp H1 H2 IH]; [exists []; split; auto|].
    destruct IH as (pol & F & ->). inv_ok H1. injection H1 as <-. exists (x :: pol). split; [constructor; auto|reflexivity].
  Qed.

  Definition face_res p2 pt (f : list nat) o := exists pol, Forall2 (fun i pe => nth_error p2 i = Some pe) f pol /\
      collide_point_with_polygon (fst pt) (snd pt) (map halfway pol) = Ok o.
  Lemma pol_unique (p2 : list (Vec3 T * Vec3 T)) f pol pol' : Forall2 (fun i pe => nth_error p2 i = Some pe) f pol ->
    Forall2 (fun i pe => nth_error p2 i = Some pe) f pol' -> pol = pol'.
  Proof. intros H1. revert pol'. induction H1; intros p' H3; inversion H3; subst; auto. f_equal; [congruence|auto]. Qed.
  (** How many corners are in front of and behind the contact. *)
  Definition votes (p1 : list (Vec3 T * Vec3 T)) (col : collision T) : nat * nat :=
    fold_left (fun nk pt =>
        let point := vadd (vscale (fst pt) (n_sub n1 (c_time col))) (vscale (snd pt) (c_time col)) in
        let sign := vdot (vsub point (c_pos col)) (c_normal col) in
        if n_lt sign n0 then (S (fst nk), snd nk) else (fst nk, S (snd nk))) p1 (0%nat, 0%nat).
  Definition voted p1 col := let '(negate, keep) := votes p1 col in if Nat.ltb keep negate then scale_normal col nm1 else col.
  Lemma corners_faces_hits p1 fs p2 o : corners_faces p1 fs p2 = Ok o ->
    match o with
    | None => forall k, ~ corner_hit p1 fs p2 k
    | Some c => (exists k, corner_hit p1 fs p2 k /\ c = voted p1 k) /\ unit_t (c_time c) /\
                forall k, corner_hit p1 fs p2 k -> n_lt (c_time k) (c_time c) = false
    end.
  Proof.
    unfold corners_faces. intros H. inv_ok H.
    assert (I : acc_inv (fun k => corner_hit p1 fs p2 k) x).
    { assert (G : forall l P a a', acc_inv P a -> rfold (fun acc pt =>
        rfold (fun acc face =>
          rbind (rmap (fun i => rbind (unwrap (nth_error p2 i)) (fun pe => Ok (vdivs (vadd (fst pe) (snd pe)) n2))) face) (fun face_points =>
          rbind (collide_point_with_polygon (fst pt) (snd pt) face_points) (fun c =>
          Ok (acc_consider acc c)))) fs acc) l a = Ok a' ->
        acc_inv (fun k => P k \/ exists pt, In pt l /\ exists f, In f fs /\ face_res p2 pt f (Some k)) a').
      { induction l as [|pt l IH]; simpl; intros P a a' Ha Hr.
        - injection Hr as <-. eapply acc_inv_ext; [|exact Ha]. intros k. split; auto. intros [?|(? & [] & _)]; auto.
        - inv_ok Hr. eapply (acc_inv_rfold _ (face_res p2 pt)) in E0; [| | | |exact Ha].
          + eapply acc_inv_ext; [|eapply IH; [exact E0|exact Hr]]. intros k. cbv beta. split.
            * intros [[Hk|Hk]|(y & H1 & H2)]; eauto.
            * intros [Hk|(y & [<-|H1] & H2)]; eauto.
          + intros b f b' Hb. inv_ok Hb. inv_ok Hb. injection Hb as <-. eexists. split; [|reflexivity].
            apply face_points_ok in E1. destruct E1 as (pol & F & ->). exists pol. auto.
          + intros f o' (pol & _ & Hp). eapply point_polygon_timely; eassumption.
          + intros f o1 o2 (pol & F1 & H1) (pol' & F2 & H2). rewrite (pol_unique _ _ _ _ F1 F2) in H1. congruence. }
      eapply acc_inv_ext; [|eapply G; [apply acc_inv_new|exact E]]. intros k. unfold corner_hit, face_res. split.
      - intros [[]|(pt & H1 & f & H2 & pol & H3 & H4)]. exists pt, f, pol. auto.
      - intros (pt & f & pol & H1 & H2 & H3 & H4). right. eauto 10. }
    unfold acc_inv in I. destruct (fst x) as [col|].
    - assert (o = Some (voted p1 col)) as ->.
      { unfold voted. cbv zeta in H. destruct (votes p1 col) as [ng kp] eqn:V; unfold votes in V; rewrite V in H; congruence. }
      destruct I as (_ & I1 & I2 & I3). assert (CT : c_time (voted p1 col) = c_time col) by (unfold voted; destruct (votes p1 col) as [ng kp]; destruct (Nat.ltb kp ng); reflexivity).
      rewrite CT. split; [|split; auto]. exists col. split; auto.
    - injection H as <-. apply I.
  Qed.

  Lemma corners_faces_spec p1 fs p2 o : corners_faces p1 fs p2 = Ok o ->
    match o with
    | None => forall k, ~ corner_hit p1 fs p2 k
    | Some c => (exists k, corner_hit p1 fs p2 k /\ same_line k c) /\ unit_t (c_time c) /\
                forall k, corner_hit p1 fs p2 k -> n_lt (c_time k) (c_time c) = false
    end.
  Proof.
    intros H. apply corners_faces_hits in H. destruct o as [c|]; auto. destruct H as ((k & H & ->) & H'). split; auto. exists k. split; auto.
    unfold voted. destruct (votes p1 k) as [ng kp]. unfold same_line. destruct (Nat.ltb kp ng); auto. rewrite scale_m1_turn. simpl. auto.
  Qed.

  Lemma mesh_mesh_split m1 s1 e1 m2 s2 e2 : collide_mesh_with_mesh m1 s1 e1 m2 s2 e2 =
    rbind (corners_faces (mesh_point_pairs m1 s1 e1) (me_faces m2) (mesh_point_pairs m2 s2 e2)) (fun a =>
    rbind (corners_faces (mesh_point_pairs m2 s2 e2) (me_faces m1) (mesh_point_pairs m1 s1 e1)) (fun b =>
    Ok (fst (acc_consider (acc_consider acc_new (option_map turn a)) b)))).
  Proof.
    unfold collide_mesh_with_mesh. cbv zeta. rewrite points_faces_split.
    destruct (corners_faces (mesh_point_pairs m1 s1 e1) _ _) as [a| |]; simpl; auto. rewrite points_faces_split.
    destruct (corners_faces (mesh_point_pairs m2 s2 e2) _ _) as [b| |]; simpl; auto.
    f_equal. f_equal. destruct a as [a|], b as [b|]; simpl; rewrite ?scale_m1_turn, ?scale_1; auto.
  Qed.

  (** Mesh against mesh: the earliest corner hit of either kind. *)
  Lemma mesh_mesh_earliest m1 s1 e1 m2 s2 e2 o : collide_mesh_with_mesh m1 s1 e1 m2 s2 e2 = Ok o ->
    let hit k := corner_hit (mesh_point_pairs m1 s1 e1) (me_faces m2) (mesh_point_pairs m2 s2 e2) k \/
                 corner_hit (mesh_point_pairs m2 s2 e2) (me_faces m1) (mesh_point_pairs m1 s1 e1) k in
    match o with
    | Some c => (exists k, hit k /\ same_line k c) /\ forall k, hit k -> n_lt (c_time k) (c_time c) = false
    | None => forall k, ~ hit k
    end.
  Proof.
    intros H hit. rewrite mesh_mesh_split in H. inv_ok H. inv_ok H. injection H as <-.
    apply corners_faces_spec in E. apply corners_faces_spec in E0.
    assert (TL : forall k c, same_line k c -> same_line k (turn c)).
    { intros k c (H1 & H2 & H3). unfold same_line. simpl. repeat split; auto. destruct H3 as [-> | ->]; auto. rewrite vneg_vneg. auto. }
    assert (U : forall t, unit_t t -> n_isnan t = false) by (intros t [H _]; now apply le_nan_r in H).
    destruct x as [a|], x0 as [b|]; cbn [option_map].
    - destruct E as ((ka & Ka & La) & Ua & Ma), E0 as ((kb & Kb & Lb) & Ub & Mb).
      cbn [acc_consider acc_new fst snd]. change (c_time (turn a)) with (c_time a). rewrite unit_lt_inf by auto. cbn [fst snd].
      destruct (n_lt (c_time b) (c_time a)) eqn:Eq; cbn [fst].
      + split; [exists kb; unfold hit; auto|]. intros k [Hk|Hk]; auto. specialize (Ma k Hk).
        destruct (n_lt (c_time k) (c_time b)) eqn:Ek; auto. now rewrite (lt_trans _ _ _ Ek Eq) in Ma.
      + split; [exists ka; unfold hit; auto|]. change (c_time (turn a)) with (c_time a). intros k [Hk|Hk]; auto. specialize (Mb k Hk).
        destruct (n_lt (c_time k) (c_time a)) eqn:Ek; auto. 
        rewrite (lt_le_trans _ _ _ Ek) in Mb; [discriminate|]. apply not_lt_le; auto.
    - destruct E as ((ka & Ka & La) & Ua & Ma).
      cbn [acc_consider acc_new fst snd]. change (c_time (turn a)) with (c_time a). rewrite unit_lt_inf by auto. cbn [fst].
      split; [exists ka; unfold hit; auto|]. change (c_time (turn a)) with (c_time a). intros k [Hk|Hk]; auto. now apply E0 in Hk.
    - destruct E0 as ((kb & Kb & Lb) & Ub & Mb). cbn [acc_consider acc_new fst snd]. rewrite unit_lt_inf by auto. cbn [fst].
      split; [exists kb; unfold hit; auto|]. intros k [Hk|Hk]; auto. now apply E in Hk.
    - cbn [acc_consider acc_new fst]. intros k [Hk|Hk]; [now apply E in Hk|now apply E0 in Hk].
  Qed.

  Lemma swap_meshes m1 s1 e1 m2 s2 e2 :
    match collide (CMesh m1) s1 e1 (CMesh m2) s2 e2, collide (CMesh m2) s2 e2 (CMesh m1) s1 e1 with
    | Ok None, Ok None => True
    | Ok (Some c), Ok (Some c') => c' = turn c \/
        (n_eq (c_time c) (c_time c') = true /\
         (exists k, corner_hit (mesh_point_pairs m1 s1 e1) (me_faces m2) (mesh_point_pairs m2 s2 e2) k /\ same_line k c) /\
         (exists k', corner_hit (mesh_point_pairs m2 s2 e2) (me_faces m1) (mesh_point_pairs m1 s1 e1) k' /\ same_line k' c'))
    | Ok _, _ | _, Ok _ => False
    | _, _ => True
    end.
  Proof.
    cbn [collide]. rewrite !mesh_mesh_split.
    assert (TL : forall k c, same_line k c -> same_line k (turn c)).
    { intros k c (H1 & H2 & H3). unfold same_line. simpl. repeat split; auto. destruct H3 as [-> | ->]; auto. rewrite vneg_vneg. auto. }
    destruct (corners_faces (mesh_point_pairs m1 s1 e1) _ _) as [a| |] eqn:E; simpl rbind;
    destruct (corners_faces (mesh_point_pairs m2 s2 e2) _ _) as [b| |] eqn:E0; simpl rbind; try exact I.
    apply corners_faces_spec in E. apply corners_faces_spec in E0.
    destruct a as [a|], b as [b|]; cbn [option_map acc_consider acc_new fst snd]; auto.
    - destruct E as ((ka & Ka & La) & Ua & Ma), E0 as ((kb & Kb & Lb) & Ub & Mb).
      change (c_time (turn a)) with (c_time a). change (c_time (turn b)) with (c_time b). rewrite !unit_lt_inf by auto. cbn [fst snd].
      destruct (n_lt (c_time b) (c_time a)) eqn:E1, (n_lt (c_time a) (c_time b)) eqn:E2; cbn [fst].
      + apply lt_asym in E1. congruence.
      + auto.
      + rewrite turn_turn. auto.
      + right. change (c_time (turn a)) with (c_time a). change (c_time (turn b)) with (c_time b). split; [|split; [exists ka; auto|exists kb; auto]].
        clear -O Ua Ub E1 E2. unfold unit_t in *. rewrite key_eq. rewrite key_lt in E1, E2. rewrite !key_le, key_0, key_1 in Ua, Ub.
        destruct (key (c_time a)), (key (c_time b)), Ua as [U1 U2], Ub as [U3 U4]; simpl in *; try discriminate; auto.
        destruct (Req_EM_T r r0); auto. destruct (Rlt_dec r r0), (Rlt_dec r0 r); try discriminate. lra.
    - destruct E as (_ & Ua & _). change (c_time (turn a)) with (c_time a). rewrite !unit_lt_inf by auto. cbn [fst]. rewrite turn_turn. auto.
    - destruct E0 as (_ & Ub & _). change (c_time (turn b)) with (c_time b). rewrite !unit_lt_inf by auto. cbn [fst]. auto.
  Qed.
End Swap.
