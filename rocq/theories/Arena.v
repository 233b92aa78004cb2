(** * Arena: generational-arena 0.2.8, as used by physics_system.rs and entity.rs.

    The dependency's source is not in /repo; this transcribes its free list
    and generation counter (trusted, see DESIGN.md).  types.rs:8-17: all three
    handle types are [generational_arena::Index].  SIMPLIFICATION: the u64
    generation counter is an unbounded [N] (it would take 2^64 removals to
    overflow) and the memory allocator never fails. *)
From Coq Require Import List NArith Arith Bool.
Import ListNotations.
From Verif Require Import Res.

(** [generational_arena::Index]. *)
Record handle := mkH { h_idx : nat; h_gen : N }.
Definition heqb (a b : handle) : bool := Nat.eqb (h_idx a) (h_idx b) && N.eqb (h_gen a) (h_gen b).

Inductive entry (A : Type) := Free (next : option nat) | Occ (gen : N) (a : A).
Arguments Free {A}. Arguments Occ {A}.

Record arena (A : Type) := mkA { a_items : list (entry A); a_gen : N; a_head : option nat }.
Arguments mkA {A}. Arguments a_items {A}. Arguments a_gen {A}. Arguments a_head {A}.

Fixpoint list_set {A} (l : list A) (i : nat) (x : A) : list A :=
  match l, i with
  | [], _ => []
  | _ :: l', O => x :: l'
  | y :: l', S i' => y :: list_set l' i' x
  end.

Section Arena.
  Context {A : Type}.

  (** [Arena::get] / [Arena::get_mut] / [Arena::contains]. *)
  Definition aget (a : arena A) (h : handle) : option A :=
    match nth_error (a_items a) (h_idx h) with
    | Some (Occ g x) => if N.eqb g (h_gen h) then Some x else None
    | _ => None
    end.

  (** Writing through the [&mut] returned by [get_mut]; no effect on a stale handle. *)
  Definition aset (a : arena A) (h : handle) (x : A) : arena A :=
    match aget a h with
    | Some _ => mkA (list_set (a_items a) (h_idx h) (Occ (h_gen h) x)) (a_gen a) (a_head a)
    | None => a
    end.

  (** [Arena::reserve]: [n] free slots are appended, chained in increasing
      order, the last one pointing at the old head. *)
  Definition free_run (start n : nat) (old_head : option nat) : list (entry A) :=
    map (fun i => if Nat.eqb i (start + n - 1) then Free old_head else Free (Some (S i))) (seq start n).
  Definition areserve (a : arena A) (n : nat) : arena A :=
    match n with
    | O => a
    | _ => let start := length (a_items a) in
           mkA (a_items a ++ free_run start n (a_head a)) (a_gen a) (Some start)
    end.

  (** [Arena::new()] = [with_capacity(4)]. *)
  Definition anew : arena A := areserve (mkA [] 0%N None) 4.

  (** [Arena::try_insert]; a corrupt free list panics.  [None]: no free slot. *)
  Definition atry_insert (a : arena A) (x : A) : res (option (arena A * handle)) :=
    match a_head a with
    | None => Ok None
    | Some i =>
      match nth_error (a_items a) i with
      | Some (Free next) =>
          Ok (Some (mkA (list_set (a_items a) i (Occ (a_gen a) x)) (a_gen a) next, mkH i (a_gen a)))
      | _ => Panic
      end
    end.

  (** [Arena::insert]: when full, double the capacity and retry. *)
  Definition ainsert (a : arena A) (x : A) : res (arena A * handle) :=
    rbind (atry_insert a x) (fun o =>
      match o with
      | Some r => Ok r
      | None => rbind (atry_insert (areserve a (length (a_items a))) x) (fun o' => unwrap o')
      end).

  (** [Arena::remove]: the slot joins the free list and the generation counter is bumped. *)
  Definition aremove (a : arena A) (h : handle) : option (arena A * A) :=
    match aget a h with
    | Some x => Some (mkA (list_set (a_items a) (h_idx h) (Free (a_head a)))
                          (a_gen a + 1)%N (Some (h_idx h)), x)
    | None => None
    end.

  (** [Arena::iter()] restricted to handles: occupied slots in index order. *)
  Fixpoint ahandles_from (i : nat) (l : list (entry A)) : list handle :=
    match l with
    | [] => []
    | Occ g _ :: l' => mkH i g :: ahandles_from (S i) l'
    | Free _ :: l' => ahandles_from (S i) l'
    end.
  Definition ahandles (a : arena A) : list handle := ahandles_from 0 (a_items a).

  (** All stored values, in index order. *)
  Fixpoint avalues_of (l : list (entry A)) : list A :=
    match l with [] => [] | Occ _ x :: l' => x :: avalues_of l' | Free _ :: l' => avalues_of l' end.
  Definition avalues (a : arena A) : list A := avalues_of (a_items a).
End Arena.

(** ** [std::collections::HashSet<Index>]

    A duplicate-free list.  The iteration order of a Rust HashSet is
    unspecified (random per process): every function that iterates over one
    takes an iteration order [ord : list handle -> list handle], and theorems
    quantify over every [ord] that permutes its argument. *)
Definition hmem (h : handle) (s : list handle) : bool := existsb (heqb h) s.
Definition hinsert (h : handle) (s : list handle) : list handle := if hmem h s then s else s ++ [h].
Definition hremove (h : handle) (s : list handle) : list handle := filter (fun x => negb (heqb h x)) s.
