(** * ResP: inversion of calls that returned normally *)
From Coq Require Import List Permutation.
Import ListNotations.
From Verif Require Import Res.

Lemma rbind_ok {A B} (m : res A) (f : A -> res B) b : rbind m f = Ok b -> exists a, m = Ok a /\ f a = Ok b.
Proof. destruct m; simpl; intros H; try congruence. eauto. Qed.
Lemma unwrap_ok {A} (o : option A) a : unwrap o = Ok a -> o = Some a.
Proof. destruct o; simpl; congruence. Qed.

(** Take apart [x = Ok y] where x is built from rbind and unwrap. *)
Ltac inv_ok H :=
  cbv beta in H;
  match type of H with
  | rbind ?m ?f = Ok _ =>
    let x := fresh "x" in let E := fresh "E" in
    apply rbind_ok in H; destruct H as (x & E & H); cbv beta in H;
    try (apply unwrap_ok in E)
  | Ok _ = Ok _ => injection H; clear H; intros
  end.

Lemma rfold_ind {A S} (f : S -> A -> res S) (P : S -> Prop) :
  (forall s a s', P s -> f s a = Ok s' -> P s') ->
  forall l s s', P s -> rfold f l s = Ok s' -> P s'.
Proof.
  intros Hf l; induction l as [|a l IH]; simpl; intros s s' Hs H.
  - congruence.
  - apply rbind_ok in H. destruct H as (s1 & E & H). eauto.
Qed.
(** With membership in the list available. *)
Lemma rfold_ind_in {A S} (f : S -> A -> res S) (P : S -> Prop) l :
  (forall s a s', In a l -> P s -> f s a = Ok s' -> P s') ->
  forall s s', P s -> rfold f l s = Ok s' -> P s'.
Proof.
  induction l as [|a l IH]; simpl; intros Hf s s' Hs H.
  - congruence.
  - apply rbind_ok in H. destruct H as (s1 & E & H). eapply IH; [| |exact H]; eauto.
Qed.
Lemma rfold_app {A S} (f : S -> A -> res S) l1 l2 s :
  rfold f (l1 ++ l2) s = rbind (rfold f l1 s) (fun s' => rfold f l2 s').
Proof. revert s; induction l1 as [|a l IH]; simpl; intros s; auto. destruct (f s a); simpl; auto. Qed.
(** A fold whose every step returns normally while an invariant holds. *)
Lemma rfold_total {A S} (f : S -> A -> res S) (P : S -> Prop) l :
  (forall s a, In a l -> P s -> exists s', f s a = Ok s' /\ P s') ->
  forall s, P s -> exists s', rfold f l s = Ok s' /\ P s'.
Proof.
  induction l as [|a l IH]; simpl; intros Hf s Hs; [eauto|].
  destruct (Hf s a (or_introl eq_refl) Hs) as (s1 & E & H1). rewrite E. simpl. apply IH; auto.
Qed.
Lemma rmap_total {A B} (f : A -> res B) l :
  (forall a, In a l -> exists b, f a = Ok b) -> exists bs, rmap f l = Ok bs.
Proof.
  induction l as [|a l IH]; simpl; intros Hf; [eauto|].
  destruct (Hf a (or_introl eq_refl)) as (b & E). rewrite E. simpl.
  destruct IH as (bs & E'); auto. rewrite E'. simpl. eauto.
Qed.
Lemma rmap_ok {A B} (f : A -> res B) l bs : rmap f l = Ok bs -> Forall2 (fun a b => f a = Ok b) l bs.
Proof.
  revert bs; induction l as [|a l IH]; simpl; intros bs H.
  - injection H as <-. constructor.
  - apply rbind_ok in H. destruct H as (b & E & H). apply rbind_ok in H. destruct H as (bs' & E' & H).
    injection H as <-. constructor; auto.
Qed.

(** A fold that only goes down [le]; [Q a] holds from the moment [a] was visited on. *)
Lemma rfold_seen {A S} (f : S -> A -> res S) (le : S -> S -> Prop) (P : S -> Prop) (Q : A -> S -> Prop) l :
  (forall s, le s s) -> (forall x y z, le x y -> le y z -> le x z) ->
  (forall a s s', Q a s -> le s s' -> Q a s') ->
  (forall s a s', In a l -> P s -> f s a = Ok s' -> P s' /\ le s s' /\ Q a s') ->
  forall s s', P s -> rfold f l s = Ok s' -> P s' /\ le s s' /\ forall a, In a l -> Q a s'.
Proof.
  intros Hr Ht Hm. induction l as [|a l IH]; intros Hf s s' Hs H; simpl in H.
  - injection H as <-. split; auto. split; auto. intros a [].
  - apply rbind_ok in H. destruct H as (s1 & E & H). destruct (Hf s a s1 (or_introl eq_refl) Hs E) as (P1 & L1 & Q1).
    apply IH in H; auto. 2: { intros; eapply Hf; eauto. now right. } destruct H as (P2 & L2 & Q2).
    split; auto. split; [eauto|]. intros b [<-|Hb]; eauto.
Qed.
