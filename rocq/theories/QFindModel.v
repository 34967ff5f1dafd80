(** QFindModel.v -- searching sorted arrays
    (quantlib/src/utils/find_index.rs, find_index_ndarray.rs, util.rs). *)
From Coq Require Import ZArith Arith List Bool Lia.
From Verif Require Import Base.
Import ListNotations.
Open Scope nat_scope.

(** Rust's PartialOrd + PartialEq: [partial_cmp] is None for incomparable
    values (NaN); the operators follow from it. *)
Section Find.
Context {T : Type} (cmp : T -> T -> option comparison).
Definition o_eq (x y : T) : bool := match cmp x y with Some Eq => true | _ => false end.
Definition o_lt (x y : T) : bool := match cmp x y with Some Lt => true | _ => false end.
Definition o_gt (x y : T) : bool := match cmp x y with Some Gt => true | _ => false end.
Definition o_le (x y : T) : bool := match cmp x y with Some Lt | Some Eq => true | _ => false end.
Definition o_ge (x y : T) : bool := match cmp x y with Some Gt | Some Eq => true | _ => false end.

(** [v[i]]: panics out of bounds *)
Definition at_ {A} (v : list A) (i : nat) : outcome A := match nth_error v i with Some x => Ret x | None => Panic end.

(** find_index.rs 20-36, find_index_ndarray.rs 5-21: the loop of the binary
    search: [inl] an index found, [inr] the low end.  Every turn shortens the
    range, so [length vec + 1] turns are enough; a theorem says so. *)
Fixpoint search_loop (fuel : nat) (vec : list T) (value : T) (low high : nat) : outcome (nat + nat) :=
  match fuel with
  | O => Diverge
  | S k =>
      if low <=? high then
        let mid := (low + high) / 2 in
        let! x := at_ vec mid in
        if o_eq x value then Ret (inl mid)
        else if o_lt x value then search_loop k vec value (mid + 1) high
        else if mid =? 0 then Ret (inr low)
        else search_loop k vec value low (mid - 1)
      else Ret (inr low)
  end.
(** find_index.rs 19-50, find_index_ndarray.rs 4-35: binary_search_index
    ([len() - 1] of an empty array is not reached: the loop has panicked) *)
Definition binary_search_index (vec : list T) (value : T) : outcome nat :=
  let! r := search_loop (length vec + 1) vec value 0 (length vec - 1) in
  match r with
  | inl mid => Ret mid
  | inr low =>
      if length vec - 1 <? low then Ret (length vec - 1)
      else let! x := at_ vec low in
           Ret (if o_lt x value then low else if low =? 0 then 0 else low - 1)
  end.

(** find_index.rs 91-97: from [j], the first interval that contains [s], looking
    at [n] of them; the result stays 0 if there is none *)
Fixpoint scan (n : nat) (vec : list T) (s : T) (j : nat) : outcome (nat * nat) :=
  match n with
  | O => Ret (0, j)
  | S n' =>
      let! a := at_ vec j in
      let! hit := (if o_ge s a then let! b := at_ vec (j + 1) in Ret (o_lt s b) else Ret false) in
      if hit then Ret (j, j) else scan n' vec s (j + 1)
  end.
(** find_index.rs 84-100: the loop over the searched values *)
Fixpoint scan_all (vec : list T) (first last : nat) (search : list T) (j : nat) : outcome (list nat) :=
  match search with
  | [] => Ret []
  | s :: search' =>
      let! f := at_ vec first in
      if o_lt s f then let! rs := scan_all vec first last search' j in Ret (first :: rs)
      else
        let! l := at_ vec last in
        if o_ge s l then let! rs := scan_all vec first last search' j in Ret (last :: rs)
        else
          let! (r, j') := scan (last - j) vec s j in
          let! rs := scan_all vec first last search' j' in
          Ret (r :: rs)
  end.
Fixpoint map_out {A B} (f : A -> outcome B) (l : list A) : outcome (list B) :=
  match l with [] => Ret [] | x :: l' => let! y := f x in let! ys := map_out f l' in Ret (y :: ys) end.
(** find_index.rs 71-103, find_index_ndarray.rs 38-70: vectorized_search_index *)
Definition vectorized_search_index (vec search : list T) : outcome (list nat) :=
  match search with
  | [] | [_] | [_; _] => map_out (binary_search_index vec) search
  | s0 :: _ =>
      let! first := binary_search_index vec s0 in
      let! last := binary_search_index vec (List.last search s0) in
      scan_all vec first last search first
  end.

(** util.rs 30-40: is_ndarray_sorted ([arr.len() - 1] of an empty array panics,
    or wraps to a range whose first index panics) *)
Fixpoint sorted_from (x : T) (arr : list T) : bool :=
  match arr with
  | [] => true
  | y :: arr' => if o_gt x y then false else sorted_from y arr'
  end.
Definition is_ndarray_sorted (arr : list T) : outcome bool :=
  match arr with [] => Panic | x :: arr' => Ret (sorted_from x arr') end.
End Find.
Arguments at_ {A} v i.
