(** * RangeP: lemmas on ranges *)
From Coq Require Import ZArith Reals Bool Lra Lia.
From Verif Require Import Num RangeM OrderP Spec.
Local Open Scope R_scope.

Ltac rdec := repeat match goal with
  | |- context [Rlt_dec ?a ?b] => destruct (Rlt_dec a b)
  | |- context [Rle_dec ?a ?b] => destruct (Rle_dec a b)
  | |- context [Req_EM_T ?a ?b] => destruct (Req_EM_T a b)
  | H : context [Rlt_dec ?a ?b] |- _ => destruct (Rlt_dec a b)
  | H : context [Rle_dec ?a ?b] |- _ => destruct (Rle_dec a b)
  | H : context [Req_EM_T ?a ?b] |- _ => destruct (Req_EM_T a b)
  end.

Section RangeSets.
  Context {T : Type} {N : Num T} {O : Ord N}.
  Implicit Types (r : range T) (x : T).

  Lemma in_nan r x : rg_is_empty r = true -> in_range x r = false.
  Proof.
    unfold rg_is_empty, in_range. rewrite !key_isnan, !key_le.
    destruct (key (r_min r)), (key (r_max r)), (key x); simpl; try congruence; rewrite ?andb_false_r; auto.
  Qed.
  Lemma in_empty x : in_range x rg_empty = false.
  Proof. apply in_nan. unfold rg_empty, rg_is_empty. simpl. now rewrite nan_isnan. Qed.
  Lemma empty_empty : rg_is_empty (T := T) rg_empty = true.
  Proof. unfold rg_empty, rg_is_empty. simpl. now rewrite nan_isnan. Qed.
  Lemma in_single v x : in_range x (rg_single v) = n_eq x v.
  Proof.
    unfold in_range, rg_single. simpl. rewrite !key_le, key_eq.
    destruct (key v), (key x); simpl; auto. rdec; simpl; auto; lra.
  Qed.
  Lemma in_rg b1 b2 x : in_range x (rg_range b1 b2) = ((n_le b1 x && n_le x b2) || (n_le b2 x && n_le x b1))%bool.
  Proof.
    unfold in_range, rg_range. rewrite key_lt. 
    destruct (er_lt (key b1) (key b2)) eqn:E; simpl; rewrite !key_le; revert E;
      destruct (key b1), (key b2), (key x); simpl; intros; try congruence; rdec; simpl; try congruence; auto; lra.
  Qed.
  Lemma in_everything x : in_range x rg_everything = negb (n_isnan x).
  Proof.
    unfold in_range, rg_everything. simpl. rewrite !key_le, key_neg, key_inf, key_isnan. now destruct (key x).
  Qed.
  Lemma in_intersect a b x : in_range x (rg_intersect a b) = (in_range x a && in_range x b)%bool.
  Proof.
    unfold rg_intersect. destruct (rg_is_empty a) eqn:Ea.
    { simpl. now rewrite (in_nan a), in_empty. }
    destruct (rg_is_empty b) eqn:Eb.
    { simpl. now rewrite (in_nan b), in_empty, andb_false_r. }
    simpl. unfold rg_is_empty in *. rewrite !key_isnan in *. apply orb_false_elim in Ea, Eb.
    destruct Ea as [Ea1 Ea2], Eb as [Eb1 Eb2].
    destruct (n_lt _ _) eqn:E.
    - rewrite in_empty. symmetry. unfold in_range. rewrite !key_le. revert E. rewrite !key_lt.
      destruct (er_lt (key (r_min b)) (key (r_min a))) eqn:E1, (er_lt (key (r_max a)) (key (r_max b))) eqn:E2; revert E1 E2;
      destruct (key (r_min a)), (key (r_max a)), (key (r_min b)), (key (r_max b)), (key x); simpl in *; intros; try congruence;
      rewrite ?andb_false_r; auto; rdec; simpl; try congruence; lra.
    - unfold in_range. simpl. rewrite !key_le. clear E. rewrite !key_lt.
      destruct (er_lt (key (r_min b)) (key (r_min a))) eqn:E1, (er_lt (key (r_max a)) (key (r_max b))) eqn:E2; revert E1 E2;
      destruct (key (r_min a)), (key (r_max a)), (key (r_min b)), (key (r_max b)), (key x); simpl in *; intros; try congruence;
      rewrite ?andb_false_r; auto; rdec; simpl; try congruence; lra.
  Qed.

  Lemma ok_empty : range_ok (T := T) rg_empty. Proof. left. apply empty_empty. Qed.
  Lemma ok_single v : range_ok (rg_single v).
  Proof.
    unfold range_ok, rg_is_empty, rg_single. simpl. destruct (n_isnan v) eqn:E; auto. right. now apply le_refl.
  Qed.
  Lemma ok_range b1 b2 : range_ok (rg_range b1 b2).
  Proof.
    unfold range_ok, rg_is_empty, rg_range. destruct (n_lt b1 b2) eqn:E; simpl.
    - right. now apply lt_le.
    - destruct (n_isnan b2) eqn:E2; auto. destruct (n_isnan b1) eqn:E1; auto. right. now apply not_lt_le.
  Qed.
  Lemma ok_everything : range_ok (T := T) rg_everything.
  Proof. right. simpl. rewrite key_le, key_neg, key_inf. reflexivity. Qed.
  Lemma ok_intersect a b : range_ok (rg_intersect a b).
  Proof.
    unfold rg_intersect. destruct (rg_is_empty a) eqn:Ea; [apply ok_empty|]. destruct (rg_is_empty b) eqn:Eb; [apply ok_empty|]. simpl.
    unfold rg_is_empty in *. apply orb_false_elim in Ea, Eb. destruct Ea as [Ea1 Ea2], Eb as [Eb1 Eb2].
    destruct (n_lt _ _) eqn:E in |- *; [apply ok_empty|]. right. simpl.
    apply not_lt_le; auto; match goal with |- context [if ?c then _ else _] => destruct c end; auto.
  Qed.
  Lemma ok_contain a b : range_ok a -> range_ok b -> range_ok (rg_contain a b).
  Proof.
    intros Ha Hb. unfold rg_contain. destruct (rg_is_empty a) eqn:Ea; auto. destruct (rg_is_empty b) eqn:Eb; auto.
    destruct Ha as [|Ha]; [congruence|]. destruct Hb as [|Hb]; [congruence|]. right. simpl.
    revert Ha Hb. rewrite !key_le, !key_lt.
      destruct (er_lt (key (r_min a)) (key (r_min b))) eqn:E1, (er_lt (key (r_max b)) (key (r_max a))) eqn:E2; revert E1 E2;
      destruct (key (r_min a)), (key (r_max a)), (key (r_min b)), (key (r_max b)); simpl in *; intros; try congruence;
      auto; rdec; simpl; try congruence; lra.
  Qed.
  Lemma ok_quadratic a b c : range_ok (rg_quadratic_zeros a b c).
  Proof.
    unfold rg_quadratic_zeros. cbv zeta.
    repeat match goal with |- range_ok (if ?c then _ else _) => destruct c end; auto using ok_everything, ok_empty, ok_single, ok_range.
  Qed.
  Lemma ok_linear a b m : range_ok (rg_linear_overlap a b m).
  Proof.
    unfold rg_linear_overlap. repeat match goal with |- range_ok (if ?c then _ else _) => destruct c end; auto using ok_everything, ok_empty, ok_contain, ok_range.
  Qed.
  Lemma made_ok r : range_made r -> range_ok r.
  Proof. induction 1; auto using ok_everything, ok_empty, ok_single, ok_range, ok_contain, ok_intersect, ok_quadratic, ok_linear. Qed.

  (** Emptiness, ends and size. *)
  Lemma is_empty_spec r : range_made r -> (rg_is_empty r = true <-> forall x, in_range x r = false).
  Proof.
    intros M. apply made_ok in M. split; [intros; now apply in_nan|]. intros H.
    destruct (rg_is_empty r) eqn:E; auto. destruct M as [|M]; [congruence|]. specialize (H (r_min r)).
    unfold in_range in H. rewrite M, le_refl in H; [discriminate|]. now apply le_nan_l in M.
  Qed.
  Lemma ends_empty r : rg_is_empty r = true -> n_isnan (rg_min r) = true /\ n_isnan (rg_max r) = true /\ rg_size r = n0.
  Proof. unfold rg_min, rg_max, rg_size. intros ->. now rewrite nan_isnan. Qed.
  Lemma ends_spec r : range_made r -> rg_is_empty r = false ->
    in_range (rg_min r) r = true /\ in_range (rg_max r) r = true /\ rg_size r = n_sub (rg_max r) (rg_min r) /\
    forall x, in_range x r = (n_le (rg_min r) x && n_le x (rg_max r))%bool.
  Proof.
    intros M E. apply made_ok in M. destruct M as [M|M]; [congruence|]. unfold rg_min, rg_max, rg_size. rewrite E.
    unfold in_range. rewrite M, !le_refl; auto; [now apply le_nan_r in M|now apply le_nan_l in M].
  Qed.

  Lemma in_contain_l a b x : range_made a -> range_made b -> in_range x a = true -> in_range x (rg_contain a b) = true.
  Proof.
    intros Ma Mb H. apply made_ok in Ma, Mb. unfold rg_contain. destruct (rg_is_empty a) eqn:Ea; [rewrite in_nan in H; auto; discriminate|].
    destruct (rg_is_empty b) eqn:Eb; auto. destruct Ma as [|Ma]; [congruence|]. destruct Mb as [|Mb]; [congruence|].
    revert H Ma Mb. unfold in_range. simpl. rewrite !key_le, !key_lt.
      destruct (er_lt (key (r_min a)) (key (r_min b))) eqn:E1, (er_lt (key (r_max b)) (key (r_max a))) eqn:E2; revert E1 E2;
      destruct (key (r_min a)), (key (r_max a)), (key (r_min b)), (key (r_max b)), (key x); simpl in *; intros; try congruence;
      auto; rdec; simpl in *; try congruence; lra.
  Qed.
  Lemma in_contain_r a b x : range_made a -> range_made b -> in_range x b = true -> in_range x (rg_contain a b) = true.
  Proof.
    intros Ma Mb H. apply made_ok in Ma, Mb. unfold rg_contain. destruct (rg_is_empty b) eqn:Eb; [rewrite in_nan in H; auto; discriminate|].
    destruct (rg_is_empty a) eqn:Ea; auto. destruct Ma as [|Ma]; [congruence|]. destruct Mb as [|Mb]; [congruence|].
    revert H Ma Mb. unfold in_range. simpl. rewrite !key_le, !key_lt.
      destruct (er_lt (key (r_min a)) (key (r_min b))) eqn:E1, (er_lt (key (r_max b)) (key (r_max a))) eqn:E2; revert E1 E2;
      destruct (key (r_min a)), (key (r_max a)), (key (r_min b)), (key (r_max b)), (key x); simpl in *; intros; try congruence;
      auto; rdec; simpl in *; try congruence; lra.
  Qed.
  Lemma in_min r : rg_is_empty r = false -> n_le (r_min r) (r_max r) = true -> in_range (r_min r) r = true /\ in_range (r_max r) r = true.
  Proof.
    intros E M. unfold in_range. rewrite M, !le_refl; auto; [now apply le_nan_r in M|now apply le_nan_l in M].
  Qed.
  Lemma contain_least a b c : range_made a -> range_made b ->
    (forall x, in_range x a = true -> in_range x c = true) -> (forall x, in_range x b = true -> in_range x c = true) ->
    forall x, in_range x (rg_contain a b) = true -> in_range x c = true.
  Proof.
    intros Ma Mb Ha Hb x H. apply made_ok in Ma, Mb. unfold rg_contain in H.
    destruct (rg_is_empty a) eqn:Ea; auto. destruct (rg_is_empty b) eqn:Eb; auto.
    destruct Ma as [|Ma]; [congruence|]. destruct Mb as [|Mb]; [congruence|].
    pose proof (in_min a Ea Ma) as [A1 A2]. pose proof (in_min b Eb Mb) as [B1 B2]. apply Ha in A1, A2. apply Hb in B1, B2.
    clear Ha Hb. revert H A1 A2 B1 B2. unfold in_range. cbn [r_min r_max]. rewrite !andb_true_iff. intros [H1 H2] [A1 A2] [A3 A4] [B1 B2] [B3 B4].
    split.
    - destruct (n_lt (r_min a) (r_min b)); [exact (le_trans _ _ _ A1 H1)|exact (le_trans _ _ _ B1 H1)].
    - destruct (n_lt (r_max b) (r_max a)); [exact (le_trans _ _ _ H2 A4)|exact (le_trans _ _ _ H2 B4)].
  Qed.
  Lemma in_eq r x y : n_eq x y = true -> in_range x r = in_range y r.
  Proof.
    rewrite key_eq. unfold in_range. rewrite !key_le.
    destruct (key x), (key y); simpl; try congruence; destruct (key (r_min r)), (key (r_max r)); simpl; auto; rdec; simpl; try congruence; try lra; auto.
  Qed.
End RangeSets.

(** ** Exact arithmetic *)
Lemma er_lt_fin a b : er_lt (Fin a) (Fin b) = true <-> a < b.
Proof. simpl. rdec; split; try congruence; auto; lra. Qed.
Lemma er_lt_fin_f a b : er_lt (Fin a) (Fin b) = false <-> b <= a.
Proof. simpl. rdec; split; try congruence; auto; lra. Qed.
Lemma er_le_fin a b : er_le (Fin a) (Fin b) = true <-> a <= b.
Proof. simpl. rdec; split; try congruence; auto; lra. Qed.

Lemma er_div_fin a b : b <> 0 -> er_div (Fin a) (Fin b) = Fin (a / b).
Proof. intros. simpl. destruct (Req_EM_T b 0); auto. contradiction. Qed.

Lemma eps_val : (EPSILON : ER) = Fin (1 / 1000000).
Proof. reflexivity. Qed.

Section Linear.
  Implicit Types a b c d : ER.
  (** Two closed intervals (possibly unbounded) have a common real point. *)
  Lemma overlap_iff (a b c d : ER) : er_le a b = true -> er_le c d = true -> a <> PInf -> b <> NInf -> c <> PInf -> d <> NInf ->
    ((exists x, (er_le a (Fin x) = true /\ er_le (Fin x) b = true) /\ (er_le c (Fin x) = true /\ er_le (Fin x) d = true)) <->
     er_le a d = true /\ er_le c b = true).
  Proof.
    intros Hab Hcd Ha Hb Hc Hd. split.
    - intros (x & [H1 H2] & H3 & H4). revert H1 H2 H3 H4.
      destruct a, b, c, d; simpl in *; try congruence; rdec; intros; try congruence; auto; split; auto; lra.
    - intros [H1 H2].
      assert (X : exists x, match a with Fin p => p <= x | _ => True end /\ match b with Fin p => x <= p | _ => True end /\
                            match c with Fin p => p <= x | _ => True end /\ match d with Fin p => x <= p | _ => True end).
      { destruct a as [p| | |], c as [q| | |]; try (simpl in *; congruence).
        - exists (Rmax p q). pose proof (Rmax_l p q). pose proof (Rmax_r p q).
          destruct b, d; simpl in *; try congruence; rdec; try congruence; repeat split; auto; apply Rmax_lub; auto.
        - exists p. destruct b, d; simpl in *; try congruence; rdec; try congruence; repeat split; auto; lra.
        - exists q. destruct b, d; simpl in *; try congruence; rdec; try congruence; repeat split; auto; lra.
        - destruct b as [p| | |], d as [q| | |]; simpl in *; try congruence.
          + exists (Rmin p q). repeat split; auto; [apply Rmin_l|apply Rmin_r].
          + exists p. repeat split; auto; lra.
          + exists q. repeat split; auto; lra.
          + exists 0. auto. }
      destruct X as (x & X1 & X2 & X3 & X4). exists x.
      destruct a, b, c, d; simpl in *; try congruence; rdec; repeat split; auto; try contradiction.
  Qed.

  Lemma shift_le_l c x k : er_le c (Fin (x - k)) = er_le (er_add c (Fin k)) (Fin x).
  Proof. destruct c; simpl; auto. rdec; auto; lra. Qed.
  Lemma shift_le_r d x k : er_le (Fin (x - k)) d = er_le (Fin x) (er_add d (Fin k)).
  Proof. destruct d; simpl; auto. rdec; auto; lra. Qed.

  Lemma overlap_ends (a b c d : ER) v t : proper (mkR a b) -> proper (mkR c d) ->
    ((exists x, in_range (Fin x) (mkR a b) = true /\ in_range (Fin (x - v * t)) (mkR c d) = true) <->
     er_le a (er_add d (Fin (v * t))) = true /\ er_le (er_add c (Fin (v * t))) b = true).
  Proof.
    intros (A1 & A2 & A3) (C1 & C2 & C3). cbn [r_min r_max] in *.
    rewrite <- (overlap_iff a b (er_add c (Fin (v * t))) (er_add d (Fin (v * t)))); auto.
    - unfold in_range. cbn [r_min r_max]. change (@n_le ER EReal) with er_le.
      setoid_rewrite andb_true_iff. setoid_rewrite shift_le_l. setoid_rewrite shift_le_r. reflexivity.
    - destruct c, d; simpl in *; try congruence. rdec; auto; try lra; congruence.
    - destruct c; simpl in *; congruence.
    - destruct d; simpl in *; congruence.
  Qed.

  Lemma fast_enough v : er_lt (er_abs (Fin v)) EPSILON = false -> v <> 0.
  Proof. rewrite eps_val. simpl. rdec; try congruence. intros _ ->. rewrite Rabs_R0 in *. lra. Qed.

  Lemma intersect_empty (a b c d : ER) : proper (mkR a b) -> proper (mkR c d) ->
    rg_is_empty (rg_intersect (mkR a b) (mkR c d)) = negb (er_le a d && er_le c b).
  Proof.
    intros (A1 & A2 & A3) (C1 & C2 & C3). cbn [r_min r_max] in *. unfold rg_intersect.
    assert (X : er_isnan a = false /\ er_isnan b = false /\ er_isnan c = false /\ er_isnan d = false).
    { destruct a, b; try discriminate; destruct c, d; try discriminate; auto. }
    destruct X as (Xa & Xb & Xc & Xd).
    unfold rg_is_empty. cbn [r_min r_max]. simpl n_isnan. rewrite Xa, Xb, Xc, Xd. cbn [orb r_min r_max].
    simpl n_lt. destruct (er_lt c a) eqn:E1, (er_lt b d) eqn:E2; 
      match goal with |- context [if ?c then rg_empty else _] => destruct c eqn:E3 end; cbn [r_min r_max rg_empty]; rewrite ?Xa, ?Xb, ?Xc, ?Xd; simpl orb;
      symmetry; destruct a, b; try discriminate; destruct c, d; try discriminate; simpl in *; try congruence; rdec; simpl; try congruence; try lra; auto.
  Qed.
  Lemma linear_slow self other m t : proper self -> proper other -> n_lt (n_abs m) EPSILON = true ->
    (in_range (Fin t) (rg_linear_overlap self other m) = true <->
     exists x, in_range (Fin x) self = true /\ in_range (Fin x) other = true).
  Proof.
    intros Ps Po Hm. unfold rg_linear_overlap. rewrite Hm.
    destruct self as [a b], other as [c d]. rewrite intersect_empty by auto.
    destruct Ps as (A1 & A2 & A3), Po as (C1 & C2 & C3). cbn [r_min r_max] in *.
    transitivity (er_le a d = true /\ er_le c b = true).
    2: { rewrite <- overlap_iff by auto. split; intros (x & H); exists x; revert H; unfold in_range; cbn [r_min r_max]; simpl n_le;
         rewrite !andb_true_iff; auto. }
    destruct (er_le a d) eqn:E1, (er_le c b) eqn:E2; simpl; split; auto; try (intros [? ?]; congruence);
      unfold in_range; simpl; try discriminate.
  Qed.

  Lemma contain_up (p q r w t : ER) : er_le p q = true -> er_le r w = true -> er_le r p = true -> er_le w q = true ->
    in_range t (rg_contain (rg_range p q) (rg_range r w)) = (er_le r t && er_le t q)%bool.
  Proof.
    intros H1 H2 H3 H4.
    assert (X : exists p' q' r' w', rg_range p q = mkR p' q' /\ rg_range r w = mkR r' w' /\ p' = p /\ q' = q /\ r' = r /\ w' = w).
    { unfold rg_range. simpl n_lt. destruct (er_lt p q) eqn:E1, (er_lt r w) eqn:E2;
      (eexists; eexists; eexists; eexists; split; [reflexivity|split; [reflexivity|]]);
      destruct p, q; try discriminate; destruct r, w; try discriminate; simpl in *; rdec; try discriminate; repeat split; auto; f_equal; lra. }
    destruct X as (p' & q' & r' & w' & -> & -> & -> & -> & -> & ->). unfold rg_contain, rg_is_empty, in_range. cbn [r_min r_max]. simpl n_isnan. simpl n_lt. simpl n_le.
    destruct p, q; try discriminate; destruct r, w; try discriminate; simpl in *; try discriminate; auto; destruct t; simpl; auto; rdec; simpl; rdec; simpl; try discriminate; try lra; auto.
  Qed.
  Lemma contain_down (p q r w t : ER) : er_le q p = true -> er_le w r = true -> er_le p r = true -> er_le q w = true ->
    in_range t (rg_contain (rg_range p q) (rg_range r w)) = (er_le q t && er_le t r)%bool.
  Proof.
    intros H1 H2 H3 H4.
    assert (X : exists p' q' r' w', rg_range p q = mkR p' q' /\ rg_range r w = mkR r' w' /\ p' = q /\ q' = p /\ r' = w /\ w' = r).
    { unfold rg_range. simpl n_lt. destruct (er_lt p q) eqn:E1, (er_lt r w) eqn:E2;
      (eexists; eexists; eexists; eexists; split; [reflexivity|split; [reflexivity|]]);
      destruct p, q; try discriminate; destruct r, w; try discriminate; simpl in *; rdec; try discriminate; repeat split; auto; f_equal; lra. }
    destruct X as (p' & q' & r' & w' & -> & -> & -> & -> & -> & ->). unfold rg_contain, rg_is_empty, in_range. cbn [r_min r_max]. simpl n_isnan. simpl n_lt. simpl n_le.
    destruct p, q; try discriminate; destruct r, w; try discriminate; simpl in *; try discriminate; auto; destruct t; simpl; auto; rdec; simpl; rdec; simpl; try discriminate; try lra; auto.
  Qed.

  (** Two bounds whose difference is meaningful. *)
  Definition diff_ok (x y : ER) : Prop := er_isnan (er_sub x y) = false.
  Lemma div_le_compat v p q : 0 < v -> p <= q -> p / v <= q / v.
  Proof. intros. apply Rmult_le_compat_r; auto. left. now apply Rinv_0_lt_compat. Qed.
  Lemma div_le_compat_neg v p q : v < 0 -> p <= q -> q / v <= p / v.
  Proof. intros. unfold Rdiv. apply Rmult_le_compat_neg_l with (r := / v) in H0; [lra|]. left. now apply Rinv_lt_0_compat. Qed.
  Lemma div_le v p t : 0 < v -> (p / v <= t <-> p <= v * t).
  Proof. intros. split; intros; [apply Rmult_le_compat_l with (r := v) in H0; [|lra]; replace (v * (p / v)) with p in H0 by (field; lra); auto|].
    replace t with (v * t / v) by (field; lra). now apply div_le_compat. Qed.
  Lemma le_div v p t : 0 < v -> (t <= p / v <-> v * t <= p).
  Proof. intros. split; intros; [apply Rmult_le_compat_l with (r := v) in H0; [|lra]; replace (v * (p / v)) with p in H0 by (field; lra); auto|].
    replace t with (v * t / v) by (field; lra). now apply div_le_compat. Qed.
  Lemma div_le_neg v p t : v < 0 -> (p / v <= t <-> v * t <= p).
  Proof. intros. split; intros.
    - replace p with (v * (p / v)) by (field; lra). nra.
    - replace t with (v * t / v) by (field; lra). now apply div_le_compat_neg. Qed.
  Lemma le_div_neg v p t : v < 0 -> (t <= p / v <-> p <= v * t).
  Proof. intros. split; intros.
    - replace p with (v * (p / v)) by (field; lra). nra.
    - replace t with (v * t / v) by (field; lra). now apply div_le_compat_neg. Qed.

  Ltac rle := match goal with
    | |- (if ?c then true else false) = (if ?d then true else false) => destruct c, d; auto; exfalso
    end.
  Lemma er_mono v x y x' y' : 0 < v -> diff_ok x y -> diff_ok x' y' -> er_le x x' = true -> er_le y' y = true ->
    er_le (er_div (er_sub x y) (Fin v)) (er_div (er_sub x' y') (Fin v)) = true.
  Proof.
    intros Hv. unfold diff_ok. destruct x, y; simpl; try discriminate; destruct x', y'; simpl; try discriminate; intros; auto;
      destruct (Req_EM_T v 0); try lra; destruct (Rlt_dec v 0); try lra; simpl; auto; try discriminate.
    destruct (Rle_dec _ _) in |- *; auto. exfalso. rdec; try discriminate. match goal with H : ~ _ <= _ |- _ => apply H end. apply div_le_compat; lra.
  Qed.
  Lemma er_anti v x y x' y' : v < 0 -> diff_ok x y -> diff_ok x' y' -> er_le x x' = true -> er_le y' y = true ->
    er_le (er_div (er_sub x' y') (Fin v)) (er_div (er_sub x y) (Fin v)) = true.
  Proof.
    intros Hv. unfold diff_ok. destruct x, y; simpl; try discriminate; destruct x', y'; simpl; try discriminate; intros; auto;
      destruct (Req_EM_T v 0); try lra; destruct (Rlt_dec v 0); try lra; simpl; auto; try discriminate.
    destruct (Rle_dec _ _) in |- *; auto. exfalso. rdec; try discriminate. match goal with H : ~ _ <= _ |- _ => apply H end. apply div_le_compat_neg; lra.
  Qed.
  Lemma er_cross_lo v x y t : 0 < v -> diff_ok x y ->
    er_le (er_div (er_sub x y) (Fin v)) (Fin t) = er_le x (er_add y (Fin (v * t))).
  Proof.
    intros Hv. unfold diff_ok. destruct x, y; simpl; try discriminate; intros _; auto;
      destruct (Req_EM_T v 0); try lra; destruct (Rlt_dec v 0); try lra; simpl; auto.
    pose proof (div_le v (r - r0) t Hv). rle; intuition lra.
  Qed.
  Lemma er_cross_hi v x y t : 0 < v -> diff_ok x y ->
    er_le (Fin t) (er_div (er_sub x y) (Fin v)) = er_le (er_add y (Fin (v * t))) x.
  Proof.
    intros Hv. unfold diff_ok. destruct x, y; simpl; try discriminate; intros _; auto;
      destruct (Req_EM_T v 0); try lra; destruct (Rlt_dec v 0); try lra; simpl; auto.
    pose proof (le_div v (r - r0) t Hv). rle; intuition lra.
  Qed.
  Lemma er_cross_lo_neg v x y t : v < 0 -> diff_ok x y ->
    er_le (er_div (er_sub x y) (Fin v)) (Fin t) = er_le (er_add y (Fin (v * t))) x.
  Proof.
    intros Hv. unfold diff_ok. destruct x, y; simpl; try discriminate; intros _; auto;
      destruct (Req_EM_T v 0); try lra; destruct (Rlt_dec v 0); try lra; simpl; auto.
    pose proof (div_le_neg v (r - r0) t Hv). rle; intuition lra.
  Qed.
  Lemma er_cross_hi_neg v x y t : v < 0 -> diff_ok x y ->
    er_le (Fin t) (er_div (er_sub x y) (Fin v)) = er_le x (er_add y (Fin (v * t))).
  Proof.
    intros Hv. unfold diff_ok. destruct x, y; simpl; try discriminate; intros _; auto;
      destruct (Req_EM_T v 0); try lra; destruct (Rlt_dec v 0); try lra; simpl; auto.
    pose proof (le_div_neg v (r - r0) t Hv). rle; intuition lra.
  Qed.

  Lemma linear_fast self other v t : proper self -> proper other -> n_lt (n_abs (Fin v)) EPSILON = false ->
    ~ (r_min self = NInf /\ r_min other = NInf) -> ~ (r_max self = PInf /\ r_max other = PInf) ->
    (in_range (Fin t) (rg_linear_overlap self other (Fin v)) = true <->
     exists x, in_range (Fin x) self = true /\ in_range (Fin (x - v * t)) other = true).
  Proof.
    intros Ps Po Hv H1 H2. destruct self as [a b], other as [c d]. rewrite overlap_ends by auto.
    unfold rg_linear_overlap. rewrite Hv. pose proof (fast_enough v Hv) as Hv0. clear Hv.
    destruct Ps as (A1 & A2 & A3), Po as (C1 & C2 & C3). cbn [r_min r_max] in *. unfold rg_min, rg_max, rg_is_empty.
    cbn [r_min r_max]. simpl n_isnan.
    assert (X : er_isnan a = false /\ er_isnan b = false /\ er_isnan c = false /\ er_isnan d = false).
    { destruct a, b; try discriminate; destruct c, d; try discriminate; auto. }
    destruct X as (Xa & Xb & Xc & Xd). rewrite Xa, Xb, Xc, Xd. cbn [orb]. cbv iota.
    assert (D : diff_ok a c /\ diff_ok b c /\ diff_ok a d /\ diff_ok b d).
    { unfold diff_ok. destruct a, b; try discriminate; try congruence; destruct c, d; try discriminate; try congruence;
      simpl; repeat split; auto; exfalso; auto. }
    destruct D as (D1 & D2 & D3 & D4).
    assert (le_self : forall x, er_isnan x = false -> er_le x x = true).
    { intros [x| | |]; simpl; try discriminate; auto. intros _. destruct (Rle_dec x x); auto; lra. }
    rewrite <- andb_true_iff. change (@n_div ER EReal) with er_div. change (@n_sub ER EReal) with er_sub.
    destruct (Rtotal_order v 0) as [Hv|[Hv|Hv]]; [| contradiction |].
    - rewrite contain_down by (apply er_anti; auto). rewrite er_cross_lo_neg, er_cross_hi_neg by auto. now rewrite andb_comm.
    - rewrite contain_up by (apply er_mono; auto). now rewrite er_cross_lo, er_cross_hi by auto.
  Qed.
End Linear.

Section Quadratic.
  Variables a b c : R.
  Let poly x := a * x * x + b * x + c.
  Let disc := b * b - 4 * a * c.

  Lemma abs_lt_eps x : n_lt (n_abs (Fin x)) EPSILON = true <-> Rabs x < 1 / 1000000.
  Proof. rewrite eps_val. apply er_lt_fin. Qed.
  Lemma n_frac_val p q : n_frac p q = Fin (IZR p / IZR (Zpos q)).
  Proof. reflexivity. Qed.

  Lemma Rabs_ge_neq x : 1 / 1000000 <= Rabs x -> x <> 0.
  Proof. intros H ->. rewrite Rabs_R0 in H. lra. Qed.
  Lemma not_abs_lt x : 1 / 1000000 <= Rabs x -> n_lt (n_abs (Fin x)) EPSILON = false.
  Proof. intros H. rewrite eps_val. apply er_lt_fin_f. exact H. Qed.

  Let QZ := rg_quadratic_zeros (Fin a) (Fin b) (Fin c).

  Lemma qz_disc : n_sub (n_mul (Fin b) (Fin b)) (n_mul (n_mul n4 (Fin a)) (Fin c)) = Fin disc.
  Proof. unfold n4. rewrite n_frac_val. simpl. f_equal. unfold disc. field. Qed.

  Lemma qz_none : 1 / 1000000 <= Rabs a -> disc < - (1 / 1000000) -> rg_is_empty QZ = true /\ forall x, poly x <> 0.
  Proof.
    intros Ha Hd. split.
    - unfold QZ, rg_quadratic_zeros. rewrite not_abs_lt by auto. rewrite qz_disc. cbv zeta.
      replace (n_lt (Fin disc) (n_neg EPSILON)) with true; [reflexivity|]. symmetry. rewrite eps_val. apply er_lt_fin. exact Hd.
    - intros x Hx. unfold poly in Hx. assert (E : (2 * a * x + b) * (2 * a * x + b) = disc) by (unfold disc; nra). 
      pose proof (Rle_0_sqr (2 * a * x + b)). unfold Rsqr in *. lra.
  Qed.

  Let root1 := (- b - sqrt disc) / (2 * a).
  Let root2 := (- b + sqrt disc) / (2 * a).

  Lemma factor : a <> 0 -> 0 <= disc -> forall x, poly x = a * (x - root1) * (x - root2).
  Proof.
    intros Ha Hd x. unfold root1, root2. transitivity (a * x * x + b * x + (b * b - sqrt disc * sqrt disc) / (4 * a)).
    - rewrite sqrt_sqrt by auto. unfold poly, disc. field. auto.
    - field. auto.
  Qed.

  Lemma qz_two : 1 / 1000000 <= Rabs a -> 1 / 1000000 <= disc ->
    exists x1 x2, QZ = mkR (Fin x1) (Fin x2) /\ x1 < x2 /\ forall x, poly x = a * (x - x1) * (x - x2).
  Proof.
    intros Ha Hd. pose proof (Rabs_ge_neq a Ha) as Ha0.
    assert (F : forall x, poly x = a * (x - root1) * (x - root2)) by (apply factor; auto; lra).
    assert (S : 0 < sqrt disc) by (apply sqrt_lt_R0; lra).
    assert (Q : QZ = rg_range (Fin root2) (Fin root1)).
    { unfold QZ, rg_quadratic_zeros. rewrite not_abs_lt by auto. rewrite qz_disc. cbv zeta.
      replace (n_lt (Fin disc) (n_neg EPSILON)) with false; [|symmetry; rewrite eps_val; apply er_lt_fin_f; lra].
      replace (n_lt (Fin disc) EPSILON) with false; [|symmetry; rewrite eps_val; apply er_lt_fin_f; lra].
      unfold n2. rewrite n_frac_val.
      assert (Sq : n_sqrt (Fin disc) = Fin (sqrt disc)) by (simpl; destruct (Rlt_dec disc 0); auto; lra).
      rewrite Sq. change (n_mul (Fin (2 / 1)) (Fin a)) with (Fin (2 / 1 * a)).
      change (n_add (n_neg (Fin b)) (Fin (sqrt disc))) with (Fin (- b + sqrt disc)).
      change (n_sub (n_neg (Fin b)) (Fin (sqrt disc))) with (Fin (- b - sqrt disc)).
      change (@n_div ER EReal) with er_div. rewrite !er_div_fin by (intros H; apply Ha0; nra).
      unfold root1, root2. replace (2 / 1 * a) with (2 * a) by field. reflexivity. }
    unfold rg_range in Q. simpl n_lt in Q. destruct (Rlt_dec root2 root1) as [Hlt|Hge].
    - exists root2, root1. repeat split; auto. intros. rewrite F. ring.
    - exists root1, root2. repeat split; auto. destruct (Rle_lt_or_eq_dec root1 root2) as [|E]; [lra|auto|].
      exfalso. unfold root1, root2 in E. apply Rmult_eq_compat_r with (r := 2 * a) in E. 
      unfold Rdiv in E. rewrite !Rmult_assoc, !Rinv_l, !Rmult_1_r in E by (intros H; apply Ha0; nra). lra.
  Qed.

  Lemma qz_inside : 1 / 1000000 <= a -> 1 / 1000000 <= disc -> forall x, in_range (Fin x) QZ = true <-> poly x <= 0.
  Proof.
    intros Ha Hd x. destruct qz_two as (x1 & x2 & -> & Hlt & F); auto; [rewrite Rabs_pos_eq; lra|].
    rewrite F. unfold in_range. cbn [r_min r_max]. rewrite andb_true_iff. change (@n_le ER EReal) with er_le. rewrite !er_le_fin.
    split; intros.
    - assert (0 <= (x - x1) * (x2 - x)) by (apply Rmult_le_pos; lra). nra.
    - destruct (Rlt_dec x x1); [exfalso; assert (0 < (x1 - x) * (x2 - x)) by (apply Rmult_lt_0_compat; lra); nra|].
      destruct (Rlt_dec x2 x); [exfalso; assert (0 < (x - x1) * (x - x2)) by (apply Rmult_lt_0_compat; lra); nra|]. lra.
  Qed.

  Lemma qz_linear : Rabs a < 1 / 1000000 -> 1 / 1000000 <= Rabs b ->
    exists x0, QZ = mkR (Fin x0) (Fin x0) /\ b * x0 + c = 0 /\ forall x, b * x + c = 0 -> x = x0.
  Proof.
    intros Ha Hb. pose proof (Rabs_ge_neq b Hb) as Hb0. exists (- c / b). split; [|split].
    - unfold QZ, rg_quadratic_zeros. rewrite (proj2 (abs_lt_eps a) Ha), not_abs_lt by auto.
      change (n_neg (Fin c)) with (Fin (- c)). change (@n_div ER EReal) with er_div. now rewrite er_div_fin.
    - field. auto.
    - intros x Hx. apply Rmult_eq_reg_r with b; auto. replace (- c / b * b) with (- c) by (field; auto). lra.
  Qed.
  Lemma qz_const : Rabs a < 1 / 1000000 -> Rabs b < 1 / 1000000 ->
    QZ = if Rlt_dec c (1 / 1000000) then rg_everything else rg_empty.
  Proof.
    intros Ha Hb. unfold QZ, rg_quadratic_zeros. rewrite (proj2 (abs_lt_eps a) Ha), (proj2 (abs_lt_eps b) Hb), eps_val.
    simpl n_lt. now destruct (Rlt_dec c (1 / 1000000)).
  Qed.
  (** A nearly double root: the vertex of the parabola. *)
  Lemma qz_vertex : 1 / 1000000 <= Rabs a -> - (1 / 1000000) <= disc < 1 / 1000000 ->
    exists x0, QZ = mkR (Fin x0) (Fin x0) /\ 2 * a * x0 + b = 0 /\ Rabs (poly x0) <= 1 / 4.
  Proof.
    intros Ha Hd. pose proof (Rabs_ge_neq a Ha) as Ha0. exists (- (1 / 2) * b / a). split; [|split].
    - unfold QZ, rg_quadratic_zeros. rewrite not_abs_lt by auto. rewrite qz_disc. cbv zeta.
      replace (n_lt (Fin disc) (n_neg EPSILON)) with false; [|symmetry; rewrite eps_val; apply er_lt_fin_f; lra].
      replace (n_lt (Fin disc) EPSILON) with true; [|symmetry; rewrite eps_val; apply er_lt_fin; lra].
      unfold nhalf. rewrite n_frac_val. unfold rg_single.
      change (n_mul (n_neg (Fin (1 / 2))) (Fin b)) with (Fin (- (1 / 2) * b)). change (@n_div ER EReal) with er_div.
      now rewrite er_div_fin.
    - field. auto.
    - replace (poly (- (1 / 2) * b / a)) with (- disc / (4 * a)) by (unfold poly, disc; field; auto).
      unfold Rdiv. rewrite Rabs_mult, Rabs_inv, Rabs_mult, (Rabs_pos_eq 4) by lra.
      assert (D : Rabs (- disc) <= 1 / 1000000) by (apply Rabs_le; lra).
      assert (I : / (4 * Rabs a) <= 250000).
      { replace 250000 with (/ (4 * (1 / 1000000))) by field. apply Rinv_le_contravar; lra. }
      assert (P : 0 < / (4 * Rabs a)) by (apply Rinv_0_lt_compat; lra).
      pose proof (Rabs_pos (- disc)). nra.
  Qed.
End Quadratic.
