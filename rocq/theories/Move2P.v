(** * Move2P: every collision test gives the moved answer in the moved world (C88) *)
From Coq Require Import ZArith Reals List Bool Arith Lra Lia.
Import ListNotations.
From Verif Require Import Num Vec Res Arena RangeM Orient Colliders Collide EntityM SystemM OrderP Spec ResP RealSpec RealV OrientP PhysSpec PhysP RangeP CollideP Mass3P MoveSpec MoveP.
Local Open Scope R_scope.

(** ** Results of calls *)
Lemma rbind_returned {A B C} (f : A -> B) (m : res A) (k : B -> res C) : rbind (returned f m) k = rbind m (fun a => k (f a)).
Proof. destruct m; exact eq_refl. Qed.
Lemma returned_rbind {A B C} (f : B -> C) (m : res A) (k : A -> res B) : returned f (rbind m k) = rbind m (fun a => returned f (k a)).
Proof. destruct m; exact eq_refl. Qed.
Lemma rbind_ext {A B} (m : res A) (k k' : A -> res B) : (forall a, m = Ok a -> k a = k' a) -> rbind m k = rbind m k'.
Proof. intros H. destruct m as [a| |]; cbn; auto. Qed.
Lemma rfold_returned {A S S'} (g : S -> S') (f : S -> A -> res S) (f' : S' -> A -> res S') l :
  (forall s a, In a l -> f' (g s) a = returned g (f s a)) -> forall s, rfold f' l (g s) = returned g (rfold f l s).
Proof.
  intros H. induction l as [|a l IH]; intros s; [exact eq_refl|]. cbn [rfold]. rewrite (H s a (or_introl eq_refl)), rbind_returned, returned_rbind.
  apply rbind_ext. intros s1 _. apply IH. intros x y I. apply H. now right.
Qed.
Lemma unwrap_returned {A B} (f : A -> B) (o : option A) : unwrap (option_map f o) = returned f (unwrap o).
Proof. destruct o; exact eq_refl. Qed.
Lemma rmap_ext {A B} (f g : A -> res B) l : (forall a, f a = g a) -> rmap f l = rmap g l.
Proof. intros H. induction l as [|a l IH]; [exact eq_refl|]. cbn [rmap]. now rewrite H, IH. Qed.
Lemma rmap_returned {A B C} (f : A -> res B) (g : B -> C) l : rmap (fun a => returned g (f a)) l = returned (map g) (rmap f l).
Proof. induction l as [|a l IH]; [exact eq_refl|]. cbn [rmap]. rewrite IH. destruct (f a); cbn; auto. destruct (rmap f l); exact eq_refl. Qed.
Lemma loop_pairs_map {A B} (f : A -> B) l : loop_pairs (map f l) = map (fun p => (f (fst p), f (snd p))) (loop_pairs l).
Proof.
  destruct l as [|x l]; [exact eq_refl|]. cbn [loop_pairs map]. change (f x :: map f l) with (map f (x :: l)). change [f x] with (map f [x]). rewrite <- map_app.
  generalize (l ++ [x]) as k, (x :: l) as j. intros k j. revert k. induction j as [|a j IH]; intros [|b k]; cbn; auto. now rewrite IH.
Qed.

Section Move.
  Variable d : V.
  Notation sh := (move_v d).
  Notation mc := (move_collision d).
  Notation om := (option_map mc).

  Ltac moves := repeat first [rewrite sh_add | rewrite sh_sub | rewrite sh_subr].
  Lemma flip_move o : flip (om o) = om (flip o).
  Proof. destruct o; exact eq_refl. Qed.

  Lemma scale_move k x : scale_normal (mc k) x = mc (scale_normal k x).
  Proof. destruct k; exact eq_refl. Qed.

  (** ** Balls *)
  Lemma overlap_move r c m p n mv b : usable n -> sphere_plane_overlap_time r (sh c) m (sh p) n mv b = sphere_plane_overlap_time r c m p n mv b.
  Proof.
    intros U. destruct (sh_dot d n U) as (k & K). unfold sphere_plane_overlap_time. cbv zeta. rewrite !sh_add, !K.
    rewrite rshift_range. destruct b.
    - replace (n_neg n_inf : ER) with (n_add (n_neg n_inf : ER) (Fin k)) at 1 by exact eq_refl. now rewrite rshift_range, rshift_overlap.
    - now rewrite rshift_range, rshift_overlap.
  Qed.
  Lemma sphere_plane_move r c m p n mv : usable n -> collide_sphere_with_plane r (sh c) m (sh p) n mv = om (collide_sphere_with_plane r c m p n mv).
  Proof.
    intros U. unfold collide_sphere_with_plane. cbv zeta. rewrite overlap_move by exact U. destruct (rg_is_empty _); [exact eq_refl|].
    unfold option_map, move_collision. cbn [c_times c_pos c_normal]. now rewrite !sh_add.
  Qed.
  Lemma sphere_sphere_move r1 c1 m1 r2 c2 m2 : r1 + r2 <> 0 ->
    collide_sphere_with_sphere (Fin r1) (sh c1) m1 (Fin r2) (sh c2) m2 = om (collide_sphere_with_sphere (Fin r1) c1 m1 (Fin r2) c2 m2).
  Proof.
    intros Z. unfold collide_sphere_with_sphere. cbv zeta. rewrite sh_sub. destruct (rg_is_empty _); [exact eq_refl|].
    unfold option_map, move_collision. cbn [c_times c_pos c_normal]. rewrite !sh_add. rewrite fin_add. replace (r1 + r2) with (r2 + r1) by ring. rewrite sh_balance by lra. now rewrite sh_sub.
  Qed.
  Lemma sphere_line_move r c m s dir mv : collide_sphere_with_line r (sh c) m (sh s) dir mv = om (collide_sphere_with_line r c m s dir mv).
  Proof.
    unfold collide_sphere_with_line. cbv zeta. rewrite sh_sub. destruct (rg_is_empty _); [exact eq_refl|].
    unfold option_map, move_collision. cbn [c_times c_pos c_normal]. moves. reflexivity.
  Qed.
  Lemma sphere_segment_move r c m s e mv : collide_sphere_with_mid_line_segment r (sh c) m (sh s) (sh e) mv = om (collide_sphere_with_mid_line_segment r c m s e mv).
  Proof.
    unfold collide_sphere_with_mid_line_segment. cbv zeta. rewrite sh_sub, sphere_line_move. destruct (collide_sphere_with_line _ _ _ _ _ _) as [hit|]; [|exact eq_refl].
    cbn [option_map move_collision c_times c_pos]. moves. destruct (n_lt _ _); exact eq_refl.
  Qed.
  Lemma sides_move hit n tpm l : forall x, polygon_sides_ok (sh hit) n tpm x (map (fun p => (sh (fst p), sh (snd p))) l) = polygon_sides_ok hit n tpm x l.
  Proof. induction l as [|[f s] l IH]; intros x; [exact eq_refl|]. cbn [map polygon_sides_ok fst snd]. cbv zeta. moves. rewrite !IH. reflexivity. Qed.
  Lemma sphere_polygon_move r c m ks mv : collide_sphere_with_polygon_surface r (sh c) m (map sh ks) mv = returned om (collide_sphere_with_polygon_surface r c m ks mv).
  Proof.
    unfold collide_sphere_with_polygon_surface. destruct ks as [|k0 [|k1 [|k2 ks]]]; try exact eq_refl. cbn [map]. cbv zeta. rewrite !sh_sub, overlap_move by apply usable_normal.
    change (sh k0 :: sh k1 :: sh k2 :: map sh ks) with (map sh (k0 :: k1 :: k2 :: ks)). rewrite loop_pairs_map. destruct (rg_is_empty _); [exact eq_refl|].
    moves. rewrite sides_move. destruct (polygon_sides_ok _ _ _ _ _); exact eq_refl.
  Qed.

  (** ** The accumulator *)
  Definition macc (a : accum ER) : accum ER := (om (fst a), snd a).
  Lemma consider_move a o : acc_consider (macc a) (om o) = macc (acc_consider a o).
  Proof. destruct a as [a t], o as [c|]; [|exact eq_refl]. cbn [option_map acc_consider macc fst snd]. unfold c_time. cbn [move_collision c_times]. destruct (n_lt _ t); exact eq_refl. Qed.
  Lemma fold_consider_move {X Y} (g : X -> Y) (f : X -> option (collision ER)) (f' : Y -> option (collision ER)) l : (forall x, f' (g x) = om (f x)) ->
    forall a, fold_left (fun a x => acc_consider a (f' x)) (map g l) (macc a) = macc (fold_left (fun a x => acc_consider a (f x)) l a).
  Proof. intros H. induction l as [|x l IH]; intros a; [exact eq_refl|]. cbn [map fold_left]. now rewrite H, consider_move, IH. Qed.

  Lemma nth_move vs i : nth_error (map sh vs) i = option_map sh (nth_error vs i).
  Proof. apply nth_error_map. Qed.
  Lemma sphere_mesh_move r c m vs es fs mv : r <> 0 ->
    collide_sphere_with_mesh (Fin r) (sh c) m (map sh vs) es fs mv = returned om (collide_sphere_with_mesh (Fin r) c m vs es fs mv).
  Proof.
    intros Z. unfold collide_sphere_with_mesh. cbv zeta. change (@acc_new ER EReal) with (macc acc_new) at 1.
    rewrite (fold_consider_move sh (fun v => collide_sphere_with_sphere (Fin r) c m n0 v mv)) by (intros v; rewrite fin_0; apply sphere_sphere_move; lra).
    set (a := fold_left _ vs acc_new). clearbody a.
    rewrite (rfold_returned macc (fun acc e => rbind (unwrap (nth_error vs (fst e))) (fun v1 => rbind (unwrap (nth_error vs (snd e))) (fun v2 =>
      Ok (acc_consider acc (collide_sphere_with_mid_line_segment (Fin r) c m v1 v2 mv)))))).
    2:{ intros s e _. rewrite !nth_move, !unwrap_returned, !rbind_returned, returned_rbind. apply rbind_ext. intros v1 _. rewrite rbind_returned, returned_rbind. apply rbind_ext. intros v2 _.
        now rewrite sphere_segment_move, consider_move. }
    rewrite rbind_returned, returned_rbind. apply rbind_ext. intros a1 _.
    rewrite (rfold_returned macc (fun acc face => rbind (rmap (fun i => unwrap (nth_error vs i)) face) (fun corners =>
      rbind (collide_sphere_with_polygon_surface (Fin r) c m corners mv) (fun c => Ok (acc_consider acc c))))).
    2:{ intros s f _. rewrite (rmap_ext _ (fun i => returned sh (unwrap (nth_error vs i)))) by (intros i; now rewrite nth_move, unwrap_returned).
        rewrite rmap_returned, rbind_returned, returned_rbind. apply rbind_ext. intros ks _. rewrite sphere_polygon_move, rbind_returned, returned_rbind. apply rbind_ext. intros o _.
        now rewrite consider_move. }
    rewrite rbind_returned, returned_rbind. apply rbind_ext. intros a2 _. exact eq_refl.
  Qed.

  (** ** A mesh and a plane *)
  Definition minfo (i : mesh_info ER) : mesh_info ER := mkMI (sh (mi_start i)) (sh (mi_end i)) (mi_sd i) (mi_ed i).
  (** A sum of [k] moved points and the number of points. *)
  Definition summed (a a' : Vec3 ER * ER) : Prop := exists k, snd a = Fin k /\ snd a' = Fin k /\ fst a' = vadd (fst a) (vfin (vscale d k)) /\ (k = 0 -> fst a = vzero).
  Lemma vscale_0 : vadd (@vzero ER EReal) (vfin (vscale d 0)) = vzero.
  Proof. unfold vzero, vadd, vfin, vscale. rewrite fin_0. cbn. repeat rewrite Rmult_0_r. repeat rewrite Rplus_0_r. exact eq_refl. Qed.
  Lemma sums_move (pos : mesh_info ER -> Vec3 ER) (ok : mesh_info ER -> bool) l : (forall i, pos (minfo i) = sh (pos i)) -> (forall i, ok (minfo i) = ok i) ->
    forall a a', (exists k, 0 <= k /\ snd a = Fin k /\ snd a' = Fin k /\ fst a' = vadd (fst a) (vfin (vscale d k)) /\ (k = 0 -> fst a = vzero)) ->
    exists k, 0 <= k /\ snd (fold_left (fun a i => if ok i then (vadd (fst a) (pos i), n_add (snd a) n1) else a) l a) = Fin k /\
      snd (fold_left (fun a i => if ok i then (vadd (fst a) (pos i), n_add (snd a) n1) else a) (map minfo l) a') = Fin k /\
      fst (fold_left (fun a i => if ok i then (vadd (fst a) (pos i), n_add (snd a) n1) else a) (map minfo l) a') =
      vadd (fst (fold_left (fun a i => if ok i then (vadd (fst a) (pos i), n_add (snd a) n1) else a) l a)) (vfin (vscale d k)) /\
      (k = 0 -> fst (fold_left (fun a i => if ok i then (vadd (fst a) (pos i), n_add (snd a) n1) else a) l a) = vzero).
  Proof.
    intros P O. induction l as [|i l IH]; intros a a' H; [exact H|]. cbn [map fold_left]. apply IH. rewrite O. destruct (ok i); [|exact H].
    destruct H as (k & K & A & A' & B & Z). exists (k + 1). cbn [fst snd]. rewrite A, A', fin_1, fin_add, P, B. split; [lra|]. split; [exact eq_refl|]. split; [exact eq_refl|]. split; [|lra].
    unfold move_v, vadd, vfin, vscale. cbn [vx vy vz]. rewrite !shift_add2. cbn. f_equal; (f_equal; f_equal; ring).
  Qed.
  Lemma quotient_move a b k : b = vadd a (vfin (vscale d k)) -> (k = 0 -> a = vzero) -> vdivs b (Fin k) = sh (vdivs a (Fin k)).
  Proof.
    intros -> Z. destruct (Req_EM_T k 0) as [E|E].
    - rewrite (Z E), E, vscale_0. unfold move_v, vdivs, vadd, vzero, vfin. rewrite fin_0. cbn [vx vy vz].
      assert (N : er_div (Fin 0) (Fin 0) = ENaN). { cbn. destruct (Req_EM_T 0 0); [|contradiction]. unfold er_inf_times. destruct (Req_EM_T 0 0); [exact eq_refl|contradiction]. }
      change (@n_div ER EReal) with er_div. rewrite !N. exact eq_refl.
    - unfold move_v, vdivs, vadd, vfin, vscale. cbn [vx vy vz]. rewrite !shift_div by exact E. cbn. f_equal; (f_equal; f_equal; field; exact E).
  Qed.
  Lemma fold_map_ext {A B C} (g : A -> B) (f : C -> B -> C) (f' : C -> A -> C) l : (forall c a, f c (g a) = f' c a) -> forall c, fold_left f (map g l) c = fold_left f' l c.
  Proof. intros H. induction l as [|a l IH]; intros c; [exact eq_refl|]. cbn. now rewrite H, IH. Qed.
  Lemma mesh_plane_move vs p s e ps pe n : unit_or_lost (o_rot s) -> unit_or_lost (o_rot e) ->
    collide_mesh_with_plane vs p (move_o d s) (move_o d e) (sh ps) (sh pe) n = om (collide_mesh_with_plane vs p s e ps pe n).
  Proof.
    intros S E. unfold collide_mesh_with_plane. cbv zeta.
    set (C := map (fun vertex => mkMI (position_into_world s (vadd p vertex)) (position_into_world e (vadd p vertex))
      (vdot (vsub (position_into_world s (vadd p vertex)) ps) n) (vdot (vsub (position_into_world e (vadd p vertex)) pe) n)) vs).
    assert (EC : map (fun vertex => mkMI (position_into_world (move_o d s) (vadd p vertex)) (position_into_world (move_o d e) (vadd p vertex))
      (vdot (vsub (position_into_world (move_o d s) (vadd p vertex)) (sh ps)) n) (vdot (vsub (position_into_world (move_o d e) (vadd p vertex)) (sh pe)) n)) vs = map minfo C).
    { unfold C. rewrite map_map. apply map_ext. intros v. unfold minfo. cbn [mi_start mi_end mi_sd mi_ed]. now rewrite !sh_world, !sh_sub by assumption. }
    rewrite EC. clear EC. clearbody C.
    rewrite (fold_map_ext minfo _ (fun r i => rg_contain r (rg_single (mi_sd i)))) by (intros; exact eq_refl).
    rewrite (fold_map_ext minfo _ (fun r i => rg_contain r (rg_single (mi_ed i)))) by (intros; exact eq_refl).
    set (D1 := fold_left _ C rg_empty). set (D2 := fold_left _ C rg_empty).
    match goal with |- context [rg_intersect ?r rg_unit] => set (I := r) end. destruct (rg_is_empty (rg_intersect I rg_unit)) eqn:EI; [exact eq_refl|].
    destruct (unit_t_fin _ (cut_unit _ EI)) as (t & Et).
    assert (Z : exists k, 0 <= k /\ snd (@vzero ER EReal, @n0 ER EReal) = Fin k /\ snd (@vzero ER EReal, @n0 ER EReal) = Fin k /\
      fst (@vzero ER EReal, @n0 ER EReal) = vadd (fst (@vzero ER EReal, @n0 ER EReal)) (vfin (vscale d k)) /\ (k = 0 -> fst (@vzero ER EReal, @n0 ER EReal) = vzero)).
    { exists 0. cbn [fst snd]. rewrite vscale_0, fin_0. repeat split; lra. }
    destruct (sums_move mi_start (fun i => n_lt (n_abs (n_sub (mi_sd i) (rg_min D1))) (n_mul (rg_size D1) (n_frac 1 100))) C (fun _ => eq_refl) (fun _ => eq_refl) _ _ Z) as (k & _ & A1 & A2 & A3 & A4).
    destruct (sums_move mi_end (fun i => n_lt (n_abs (n_sub (mi_ed i) (rg_min D2))) (n_mul (rg_size D2) (n_frac 1 100))) C (fun _ => eq_refl) (fun _ => eq_refl) _ _ Z) as (l & _ & B1 & B2 & B3 & B4).
    cbv beta in *.
    repeat match goal with |- context [fold_left ?f (map minfo C) ?z] => destruct (fold_left f (map minfo C) z) end.
    repeat match goal with |- context [fold_left ?f C (vzero, n0)] => destruct (fold_left f C (vzero, n0)) end.
    cbn [fst snd] in *. subst. cbn [option_map move_collision c_times c_pos c_normal]. f_equal. unfold move_collision. cbn [c_times c_pos c_normal]. f_equal.
    rewrite Et. rewrite !(quotient_move _ _ _ eq_refl) by assumption. rewrite fin_1, fin_sub. apply sh_mean. ring.
  Qed.

  (** ** Meshes *)
  Definition mpair (p : Vec3 ER * Vec3 ER) : Vec3 ER * Vec3 ER := (sh (fst p), sh (snd p)).
  Lemma nth_sh i l : (i < length l)%nat -> nth i (map sh l) vzero = sh (nth i l vzero).
  Proof. intros H. rewrite (nth_indep _ vzero (sh vzero)) by (rewrite map_length; exact H). apply map_nth. Qed.
  Lemma polygon_normal_move l is : (forall i, In i is -> (i < length l)%nat) -> polygon_normal_from (map sh l) is = polygon_normal_from l is.
  Proof.
    induction is as [|i is IH]; intros H; [exact eq_refl|]. cbn [polygon_normal_from]. cbv zeta. rewrite map_length.
    pose proof (H i (or_introl eq_refl)) as Hi.
    assert (A : ((if (length l <=? i + 1)%nat then i + 1 - length l else i + 1) < length l)%nat) by (destruct (length l <=? i + 1)%nat eqn:E; [apply Nat.leb_le in E|apply Nat.leb_gt in E]; lia).
    assert (B : ((if (0 <? i)%nat then i - 1 else length l - 1) < length l)%nat) by (destruct (0 <? i)%nat; lia).
    rewrite (nth_sh _ l Hi), (nth_sh _ l A), (nth_sh _ l B), !sh_sub, IH; [reflexivity|]. intros j J. apply H. now right.
  Qed.
  Lemma get_normal_move l : get_polygon_normal (map sh l) = get_polygon_normal l.
  Proof. unfold get_polygon_normal. rewrite map_length. apply polygon_normal_move. intros i I. apply in_seq in I. lia. Qed.
  Lemma on_plane_move p n q : point_is_on_plane (sh p) n (sh q) = point_is_on_plane p n q.
  Proof. unfold point_is_on_plane. now rewrite sh_sub. Qed.
  Lemma inside_move p n l : forall x, point_inside (sh p) n x (map mpair l) = point_inside p n x l.
  Proof. induction l as [|[a b] l IH]; intros x; [exact eq_refl|]. cbn [map mpair point_inside fst snd]. cbv zeta. moves. rewrite !IH. reflexivity. Qed.
  Lemma closest_move ps pe n l : forall b b', fst b' = fst b -> (fst b = n2 \/ snd b' = sh (snd b)) ->
    fst (closest_side (sh ps) (sh pe) n b' (map mpair l)) = fst (closest_side ps pe n b l) /\
    (fst (closest_side ps pe n b l) = n2 \/ snd (closest_side (sh ps) (sh pe) n b' (map mpair l)) = sh (snd (closest_side ps pe n b l))).
  Proof.
    induction l as [|[p q] l IH]; intros b b' H1 H2; [auto|]. cbn [map mpair closest_side fst snd]. cbv zeta. moves. apply IH.
    - destruct (_ || _); [exact H1|]. destruct (_ || _); [exact H1|]. rewrite H1. destruct (n_lt _ _); [exact eq_refl|exact H1].
    - destruct (_ || _); [exact H2|]. destruct (_ || _); [exact H2|]. rewrite H1. destruct (n_lt _ _); [right; exact eq_refl|exact H2].
  Qed.
  Lemma two_le_one : n_le (n2 : ER) n1 = false.
  Proof. apply two_not_le_one. Qed.
  Lemma point_polygon_move ps pe l : collide_point_with_polygon (sh ps) (sh pe) (map sh l) = returned om (collide_point_with_polygon ps pe l).
  Proof.
    unfold collide_point_with_polygon. cbv zeta. rewrite get_normal_move, returned_rbind. apply rbind_ext. intros n En.
    assert (L : (0 < length l)%nat) by (destruct l; [cbn in En; discriminate|cbn; lia]). rewrite (nth_sh 0 l L), !on_plane_move, loop_pairs_map.
    change (map (fun p => (sh (fst p), sh (snd p))) (loop_pairs l)) with (map mpair (loop_pairs l)).
    destruct (point_is_on_plane _ _ _ && point_is_on_plane _ _ _).
    - assert (Z : fst (@n2 ER EReal, @vzero ER EReal) = n2 \/ snd (@n2 ER EReal, @vzero ER EReal) = sh (snd (@n2 ER EReal, @vzero ER EReal))) by (left; reflexivity).
      destruct (closest_move ps pe n (loop_pairs l) (n2, vzero) (n2, vzero) eq_refl Z) as (A & B).
      destruct (closest_side (sh ps) (sh pe) n _ _) as [t' p'], (closest_side ps pe n _ _) as [t p]. cbn [fst snd] in A, B. subst t'.
      destruct (n_le t n1) eqn:E; [|exact eq_refl]. destruct B as [ -> | -> ]; [rewrite two_le_one in E; discriminate|exact eq_refl].
    - moves. rewrite !inside_move. destruct (_ || _); [exact eq_refl|]. destruct (point_inside _ _ _ _); exact eq_refl.
  Qed.
  Lemma corners_faces_move p1 fs p2 : corners_faces (map mpair p1) fs (map mpair p2) = returned om (corners_faces p1 fs p2).
  Proof.
    unfold corners_faces.
    assert (R : forall a0, rfold (fun acc pt => rfold (fun acc face =>
        rbind (rmap (fun i => rbind (unwrap (nth_error (map mpair p2) i)) (fun pe => Ok (vdivs (vadd (fst pe) (snd pe)) n2))) face) (fun face_points =>
        rbind (collide_point_with_polygon (fst pt) (snd pt) face_points) (fun c => Ok (acc_consider acc c)))) fs acc) (map mpair p1) (macc a0) =
      returned macc (rfold (fun acc pt => rfold (fun acc face =>
        rbind (rmap (fun i => rbind (unwrap (nth_error p2 i)) (fun pe => Ok (vdivs (vadd (fst pe) (snd pe)) n2))) face) (fun face_points =>
        rbind (collide_point_with_polygon (fst pt) (snd pt) face_points) (fun c => Ok (acc_consider acc c)))) fs acc) p1 a0)).
    { induction p1 as [|[ps pe] p1 IH]; intros a0; [exact eq_refl|]. cbn [map rfold]. rewrite returned_rbind. erewrite rfold_returned; [rewrite rbind_returned; apply rbind_ext; intros a1 _; apply IH|].
      intros a f _. cbn [mpair fst snd]. rewrite (rmap_ext _ (fun i => returned sh (rbind (unwrap (nth_error p2 i)) (fun pe => Ok (vdivs (vadd (fst pe) (snd pe)) n2))))).
      2:{ intros i. rewrite nth_error_map, unwrap_returned, rbind_returned, returned_rbind. apply rbind_ext. intros pq _. cbn [mpair fst snd returned]. now rewrite sh_half. }
      rewrite rmap_returned, rbind_returned, returned_rbind. apply rbind_ext. intros ks _. rewrite point_polygon_move, rbind_returned, returned_rbind. apply rbind_ext. intros o _.
      now rewrite consider_move. }
    change (@acc_new ER EReal) with (macc acc_new) at 1. rewrite R, rbind_returned, returned_rbind. apply rbind_ext. intros [[k|] t] Ea; [|exact eq_refl].
    assert (Tk : unit_t (c_time k)).
    { assert (G : acc_timely (Some k, t)); [|exact (G k eq_refl)].
      eapply (rfold_ind _ (fun a => acc_timely a)); [| |exact Ea].
      - intros a pt a' Ha Hf. eapply (rfold_ind _ (fun a => acc_timely a)); [| |exact Hf]; [|exact Ha]. intros b f b' Hb Hg. inv_ok Hg. inv_ok Hg. inv_ok Hg. subst b'. apply acc_consider_timely; [exact Hb|]. eapply point_polygon_timely; eauto.
      - intros c Hc. discriminate. }
    destruct (unit_t_fin _ Tk) as (r & Er). cbn [macc fst option_map]. cbv zeta. change (c_time (mc k)) with (c_time k). rewrite Er. cbn [move_collision c_pos c_normal].
    rewrite (fold_map_ext mpair _ (fun nk pt => if n_lt (vdot (vsub (vadd (vscale (fst pt) (n_sub n1 (Fin r))) (vscale (snd pt) (Fin r))) (c_pos k)) (c_normal k)) n0 then (S (fst nk), snd nk) else (fst nk, S (snd nk)))).
    2:{ intros c pt. cbn [mpair fst snd]. rewrite fin_1, fin_sub, sh_mean, sh_sub by ring. exact eq_refl. }
    destruct (fold_left _ p1 _) as [ng kp]. destruct (Nat.ltb kp ng); exact eq_refl.
  Qed.
  Lemma pairs_move m s e : unit_or_lost (o_rot s) -> unit_or_lost (o_rot e) -> mesh_point_pairs m (move_o d s) (move_o d e) = map mpair (mesh_point_pairs m s e).
  Proof. intros S E. unfold mesh_point_pairs. rewrite map_map. apply map_ext. intros v. unfold mpair. cbn [fst snd]. now rewrite !sh_world. Qed.
  Lemma turn_move o : option_map turn (om o) = om (option_map turn o).
  Proof. destruct o; exact eq_refl. Qed.
  Lemma mesh_mesh_move m1 s1 e1 m2 s2 e2 : unit_or_lost (o_rot s1) -> unit_or_lost (o_rot e1) -> unit_or_lost (o_rot s2) -> unit_or_lost (o_rot e2) ->
    collide_mesh_with_mesh m1 (move_o d s1) (move_o d e1) m2 (move_o d s2) (move_o d e2) = returned om (collide_mesh_with_mesh m1 s1 e1 m2 s2 e2).
  Proof.
    intros A B C D. rewrite !mesh_mesh_split, !pairs_move, corners_faces_move, rbind_returned, returned_rbind by assumption. apply rbind_ext. intros a _.
    rewrite corners_faces_move, rbind_returned, returned_rbind. apply rbind_ext. intros b _. cbn [returned]. change (@acc_new ER EReal) with (macc acc_new) at 1.
    now rewrite turn_move, !consider_move.
  Qed.

  (** ** Any two shapes *)
  Lemma verts_move m o : unit_or_lost (o_rot o) -> vertices_in_world m (move_o d o) = map sh (vertices_in_world m o).
  Proof. intros U. unfold vertices_in_world. rewrite map_map. apply map_ext. intros v. now rewrite sh_world. Qed.
  Lemma collide_move c1 s1 e1 c2 s2 e2 : solid c1 -> solid c2 ->
    unit_or_lost (o_rot s1) -> unit_or_lost (o_rot e1) -> unit_or_lost (o_rot s2) -> unit_or_lost (o_rot e2) ->
    collide c1 (move_o d s1) (move_o d e1) c2 (move_o d s2) (move_o d e2) = returned om (collide c1 s1 e1 c2 s2 e2).
  Proof.
    intros P1 P2 S1 E1 S2 E2.
    assert (BX : forall b c s e s' e', unit_or_lost (o_rot s) -> unit_or_lost (o_rot e) -> unit_or_lost (o_rot s') -> unit_or_lost (o_rot e') -> forall r,
      collide_sphere_with_aligned_box r (position_into_local (move_o d s') (position_into_world (move_o d s) c))
        (vsub (position_into_local (move_o d e') (position_into_world (move_o d e) c)) (position_into_local (move_o d s') (position_into_world (move_o d s) c))) (bx_min b) (bx_max b) =
      collide_sphere_with_aligned_box r (position_into_local s' (position_into_world s c))
        (vsub (position_into_local e' (position_into_world e c)) (position_into_local s' (position_into_world s c))) (bx_min b) (bx_max b)).
    { intros b c s e s' e' A B C D r. now rewrite !sh_world, !sh_local by assumption. }
    destruct c1 as [c1|c1|c1|c1|c1], c2 as [c2|c2|c2|c2|c2]; try exact eq_refl; cbn [collide]; cbn [solid] in P1, P2; cbv zeta.
    - destruct P1 as (r1 & -> & R1), P2 as (r2 & -> & R2). rewrite !sh_move, !sh_world, sphere_sphere_move by (assumption || lra). exact eq_refl.
    - destruct P2 as (n & ->). rewrite !sh_move, !sh_world, sphere_plane_move by (assumption || (left; eauto)). exact eq_refl.
    - destruct P1 as (r & -> & R). rewrite !sh_move, sh_world, verts_move, sphere_mesh_move by (assumption || lra). exact eq_refl.
    - rewrite BX by assumption. destruct (collide_sphere_with_aligned_box _ _ _ _ _) as [k|] eqn:K; [|exact eq_refl].
      rewrite sh_out by exact (sphere_box_timely _ _ _ _ _ k K). exact eq_refl.
    - destruct P1 as (n & ->). rewrite !sh_move, !sh_world, sphere_plane_move, flip_move by (assumption || (left; eauto)). exact eq_refl.
    - rewrite !sh_world, mesh_plane_move, flip_move by assumption. exact eq_refl.
    - destruct P2 as (r & -> & R). rewrite !sh_move, sh_world, verts_move, sphere_mesh_move, rbind_returned, returned_rbind by (assumption || lra). apply rbind_ext. intros o _. now rewrite flip_move.
    - rewrite !sh_world, mesh_plane_move by assumption. exact eq_refl.
    - now apply mesh_mesh_move.
    - rewrite BX by assumption. destruct (collide_sphere_with_aligned_box _ _ _ _ _) as [k|] eqn:K; [|exact eq_refl].
      rewrite sh_out by exact (sphere_box_timely _ _ _ _ _ k K). rewrite scale_move. reflexivity.
  Qed.
End Move.
