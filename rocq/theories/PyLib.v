(** * The Python library functions the repo calls

    [bisect] (sorted_collection.py:7, sorted_deque.py:2), [collections.deque]
    (sorted_deque.py:3), [itertools.islice] (sorted_deque.py:4), [list] methods and
    [sorted] (sorted_collection.py:82). Algorithms follow CPython. *)
From Coq Require Import List ZArith Bool Arith.
From Verif Require Import PyVal.
Import ListNotations.

(** [a[i]] for an index known to be non-negative. *)
Definition get {A} (l : list A) (i : nat) : res A :=
  match nth_error l i with Some x => Ok x | None => Raise IndexError end.

(** [bisect.bisect_left(a, x)]:
<<
    lo, hi = 0, len(a)
    while lo < hi:
        mid = (lo + hi) // 2
        if a[mid] < x: lo = mid + 1
        else: hi = mid
    return lo
>> *)
Fixpoint bisect_left_loop (fuel : nat) (a : list pyval) (x : pyval) (lo hi : nat) : res nat :=
  if Nat.ltb lo hi then
    match fuel with
    | O => Raise OutOfFuel
    | S f =>
        let mid := Nat.div (lo + hi) 2 in
        let! m := get a mid in
        let! b := py_lt m x in
        if b then bisect_left_loop f a x (S mid) hi else bisect_left_loop f a x lo mid
    end
  else Ok lo.
Definition bisect_left (a : list pyval) (x : pyval) : res nat :=
  bisect_left_loop (length a) a x 0 (length a).

(** [bisect.bisect_right(a, x)]: same loop with [if x < a[mid]: hi = mid else: lo = mid+1]. *)
Fixpoint bisect_right_loop (fuel : nat) (a : list pyval) (x : pyval) (lo hi : nat) : res nat :=
  if Nat.ltb lo hi then
    match fuel with
    | O => Raise OutOfFuel
    | S f =>
        let mid := Nat.div (lo + hi) 2 in
        let! m := get a mid in
        let! b := py_lt x m in
        if b then bisect_right_loop f a x lo mid else bisect_right_loop f a x (S mid) hi
    end
  else Ok lo.
Definition bisect_right (a : list pyval) (x : pyval) : res nat :=
  bisect_right_loop (length a) a x 0 (length a).

(** [deque.append] on a deque with the given maxlen: append, then pop the left end if the
    length exceeds maxlen. *)
Definition deque_append {A} (maxlen : option nat) (l : list A) (x : A) : list A :=
  let l' := l ++ [x] in
  match maxlen with
  | Some m => if Nat.ltb m (length l') then tl l' else l'
  | None => l'
  end.

(** [deque(iterable, maxlen=m)] for a non-negative or absent maxlen: repeated append. *)
Definition deque_of {A} (maxlen : option nat) (l : list A) : list A :=
  fold_left (deque_append maxlen) l [].

(** [list.insert(i, x)] for [0 <= i <= len]. *)
Definition list_insert {A} (l : list A) (i : nat) (x : A) : list A :=
  firstn i l ++ x :: skipn i l.

(** [deque.insert(i, x)]: IndexError when already at maxlen. *)
Definition deque_insert {A} (maxlen : option nat) (l : list A) (i : nat) (x : A) : res (list A) :=
  match maxlen with
  | Some m => if Nat.leb m (length l) then Raise IndexError else Ok (list_insert l i x)
  | None => Ok (list_insert l i x)
  end.

(** [del l[i]] for a non-negative index. *)
Definition list_del {A} (l : list A) (i : nat) : res (list A) :=
  if Nat.ltb i (length l) then Ok (firstn i l ++ skipn (S i) l) else Raise IndexError.

(** [deque.index(x, start, stop)]: position of the first element in [start, stop) that is
    identical or equal to x; ValueError otherwise. *)
Fixpoint index_from (l : list pyval) (pos start stop : nat) (x : pyval) : res nat :=
  match l with
  | [] => Raise ValueError
  | y :: l' =>
      if Nat.leb start pos && Nat.ltb pos stop && same_item y x then Ok pos
      else index_from l' (S pos) start stop x
  end.
Definition deque_index (l : list pyval) (x : pyval) (start stop : nat) : res nat :=
  index_from l 0 start stop x.

(** [l[i:j]] for non-negative i, j, and [islice(l, i, j)]. *)
Definition slice {A} (l : list A) (i j : nat) : list A := firstn (j - i) (skipn i l).

(** Every s-th element of l (s >= 1), starting with the first: [skip] elements are
    discarded before the next one is taken. *)
Fixpoint stride {A} (s : nat) (skip : nat) (l : list A) : list A :=
  match l with
  | [] => []
  | x :: l' => match skip with
               | O => x :: stride s (s - 1) l'
               | S k => stride s k l'
               end
  end.

(** [list(islice(l, i, j, step))]: ValueError unless step is None or >= 1. *)
Definition islice {A} (l : list A) (i j : nat) (step : option Z) : res (list A) :=
  match step with
  | None => Ok (slice l i j)
  | Some s => if Z.leb s 0 then Raise ValueError
              else Ok (stride (Z.to_nat s) 0 (slice l i j))
  end.

(** [l[i]] for any integer index (negative counts from the right). *)
Definition getitem {A} (l : list A) (i : Z) : res A :=
  let n := Z.of_nat (length l) in
  let j := if Z.ltb i 0 then (i + n)%Z else i in
  if Z.ltb j 0 then Raise IndexError else get l (Z.to_nat j).

(** [sorted(...)] on (key, item) pairs compared as tuples
    (sorted_collection.py:82). The pair (k1,i1) < (k2,i2) follows tuple comparison.
    Modelled as a stable insertion sort that propagates a comparison's exception;
    CPython's merge sort gives the same list whenever the comparisons are a total
    preorder, which is the only case the theorems use; which exception-free partial
    orders still sort is not modelled. *)
Definition pair_lt (a b : pyval * pyval) : res bool :=
  py_lt (PTuple [fst a; snd a]) (PTuple [fst b; snd b]).
Fixpoint sort_insert (x : pyval * pyval) (l : list (pyval * pyval)) : res (list (pyval * pyval)) :=
  match l with
  | [] => Ok [x]
  | y :: l' =>
      let! b := pair_lt y x in      (* stable: x stays left of y unless y < x *)
      if b then let! r := sort_insert x l' in Ok (y :: r) else Ok (x :: y :: l')
  end.
Fixpoint py_sorted (l : list (pyval * pyval)) : res (list (pyval * pyval)) :=
  match l with
  | [] => Ok []
  | x :: l' => let! r := py_sorted l' in sort_insert x r
  end.
