(** * Res: outcomes of a Rust call. *)
From Coq Require Import List.
Import ListNotations.

(** [Ok a]: returned normally.  [Panic]: an unwrap of None, an out-of-bounds
    index, a failed assert!, an explicit panic! or a RefCell double borrow.
    [Fuel]: the model's recursion bound ran out; it models no behaviour of the
    code, and is proved unreachable. *)
Inductive res (A : Type) := Ok (a : A) | Panic | Fuel.
Arguments Ok {A}. Arguments Panic {A}. Arguments Fuel {A}.

Definition rbind {A B} (m : res A) (f : A -> res B) : res B :=
  match m with Ok a => f a | Panic => Panic | Fuel => Fuel end.
Definition unwrap {A} (o : option A) : res A := match o with Some a => Ok a | None => Panic end.

Declare Scope res_scope.
Delimit Scope res_scope with res.
Notation "x <- m ;; k" := (rbind m (fun x => k))
  (at level 61, m at next level, right associativity) : res_scope.
Notation "' p <- m ;; k" := (rbind m (fun p => k))
  (at level 61, p pattern, m at next level, right associativity) : res_scope.

(** A Rust [for x in xs] loop with early exit by panic. *)
Fixpoint rfold {A S} (f : S -> A -> res S) (l : list A) (s : S) : res S :=
  match l with
  | [] => Ok s
  | a :: l' => rbind (f s a) (fun s' => rfold f l' s')
  end.
(** [vec.iter().map(f).collect()] where f may panic. *)
Fixpoint rmap {A B} (f : A -> res B) (l : list A) : res (list B) :=
  match l with
  | [] => Ok []
  | a :: l' => rbind (f a) (fun b => rbind (rmap f l') (fun bs => Ok (b :: bs)))
  end.
