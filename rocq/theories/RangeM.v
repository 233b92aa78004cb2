(** * RangeM: /repo/src/range.rs *)
From Verif Require Import Num.
Local Open Scope num_scope.

(** range.rs:9-14 [struct Range]. *)
Record range (T : Type) := mkR { r_min : T; r_max : T }.
Arguments mkR {T}. Arguments r_min {T}. Arguments r_max {T}.

Section Range.
  Context {T : Type} {N : Num T}.

  (** range.rs:18-20 [Range::empty] *)
  Definition rg_empty : range T := mkR n_nan n_nan.
  (** range.rs:23-25 [Range::single] *)
  Definition rg_single (v : T) : range T := mkR v v.
  (** range.rs:28-34 [Range::range] *)
  Definition rg_range (bound1 bound2 : T) : range T :=
    if bound1 <? bound2 then mkR bound1 bound2 else mkR bound2 bound1.
  (** range.rs:37-39 [Range::everything] *)
  Definition rg_everything : range T := mkR (- n_inf) n_inf.
  (** range.rs:42-44 [Range::is_empty] *)
  Definition rg_is_empty (r : range T) : bool := (n_isnan (r_min r) || n_isnan (r_max r))%bool.
  (** range.rs:47-49 [Range::min] *)
  Definition rg_min (r : range T) : T := if rg_is_empty r then n_nan else r_min r.
  (** range.rs:53-55 [Range::max] *)
  Definition rg_max (r : range T) : T := if rg_is_empty r then n_nan else r_max r.
  (** range.rs:59-61 [Range::size] *)
  Definition rg_size (r : range T) : T := if rg_is_empty r then n0 else r_max r - r_min r.
  (** range.rs:64-71 [Range::intersect] *)
  Definition rg_intersect (a b : range T) : range T :=
    if (rg_is_empty a || rg_is_empty b)%bool then rg_empty
    else
      let mn := if r_min b <? r_min a then r_min a else r_min b in
      let mx := if r_max a <? r_max b then r_max a else r_max b in
      if mx <? mn then rg_empty else mkR mn mx.
  (** range.rs:75-84 [Range::contain] *)
  Definition rg_contain (a b : range T) : range T :=
    if rg_is_empty a then b
    else if rg_is_empty b then a
    else mkR (if r_min a <? r_min b then r_min a else r_min b)
             (if r_max b <? r_max a then r_max a else r_max b).
  (** range.rs:88-109 [Range::quadratic_zeros] *)
  Definition rg_quadratic_zeros (a b c : T) : range T :=
    if n_abs a <? EPSILON then
      if n_abs b <? EPSILON then
        if c <? EPSILON then rg_everything else rg_empty
      else rg_single (- c / b)
    else
      let det := b * b - n4 * a * c in
      if det <? - EPSILON then rg_empty
      else if det <? EPSILON then rg_single (- nhalf * b / a)
      else
        let det := n_sqrt det in
        let denom := n2 * a in
        rg_range ((- b + det) / denom) ((- b - det) / denom).
  (** range.rs:112-128 [Range::linear_overlap] *)
  Definition rg_linear_overlap (self other : range T) (other_movement : T) : range T :=
    if n_abs other_movement <? EPSILON then
      if rg_is_empty (rg_intersect self other) then rg_empty else rg_everything
    else
      rg_contain
        (rg_range ((rg_min self - rg_min other) / other_movement)
                  ((rg_max self - rg_min other) / other_movement))
        (rg_range ((rg_min self - rg_max other) / other_movement)
                  ((rg_max self - rg_max other) / other_movement)).

  (** The range 0.0 to 1.0 that every detected collision time is cut down to
      ([Range::range(0.0, 1.0)], collision.rs:286, 306, 331, 374, 514, 1141). *)
  Definition rg_unit : range T := rg_range n0 n1.
End Range.
