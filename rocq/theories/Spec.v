(** * Specification vocabulary

    Small definitions used in the statements of the property theorems. None of them uses
    the algorithms of the model (binary search, deque mutation, cursors by key): searches
    are linear scans over Python's own comparison, order is pairwise order. *)
From Coq Require Import List ZArith Bool Arith Sorting.Sorted Sorting.Permutation.
From Verif Require Import PyVal.
Import ListNotations.

(** ** Comparison as a yes/no question: "the comparison succeeds and says True" *)
Definition ltb (a b : pyval) : bool := match py_lt a b with Ok b => b | Raise _ => false end.
Definition leb (a b : pyval) : bool := ltb a b || py_eq a b.

(** [a] and [b] can be compared (no TypeError either way round). *)
Definition comparable (a b : pyval) : Prop :=
  (exists r, py_lt a b = Ok r) /\ (exists r, py_lt b a = Ok r).

(** A totally ordered family of Python values: any two can be compared, and two values
    neither of which is smaller are equal. Numbers other than NaN, strings, bytes and
    tuples over such families of one shape are examples (see [PropsDeque.v]). *)
Record total_family (P : pyval -> Prop) : Prop := {
  tf_comparable : forall a b, P a -> P b -> comparable a b;
  tf_antisym : forall a b, P a -> P b -> ltb a b = false -> ltb b a = false -> py_eq a b = true
}.

(** ** Order of a list of items under a key function *)
Definition key_of (key : pyval -> res pyval) (x : pyval) (k : pyval) : Prop := key x = Ok k.

(** [x] before [y]: both have keys and the key of [x] is strictly smaller. *)
Definition key_before (key : pyval -> res pyval) (x y : pyval) : Prop :=
  exists kx ky, key x = Ok kx /\ key y = Ok ky /\ ltb kx ky = true.
(** [x] not after [y]. *)
Definition key_not_after (key : pyval -> res pyval) (x y : pyval) : Prop :=
  exists kx ky, key x = Ok kx /\ key y = Ok ky /\ ltb ky kx = false.

Definition strictly_ordered (key : pyval -> res pyval) (l : list pyval) : Prop :=
  StronglySorted (key_before key) l.
Definition ordered (key : pyval -> res pyval) (l : list pyval) : Prop :=
  StronglySorted (key_not_after key) l.

(** All items have a key, and it lies in [P]. *)
Definition keys_in (key : pyval -> res pyval) (P : pyval -> Prop) (l : list pyval) : Prop :=
  Forall (fun x => exists k, key x = Ok k /\ P k) l.

(** ** Linear-scan searches *)
Definition key_sat (key : pyval -> res pyval) (f : pyval -> bool) (x : pyval) : bool :=
  match key x with Ok k => f k | Raise _ => false end.

Definition first_such (f : pyval -> bool) (l : list pyval) : res pyval :=
  match find f l with Some x => Ok x | None => Raise ValueError end.
Definition last_such (f : pyval -> bool) (l : list pyval) : res pyval :=
  match find f (rev l) with Some x => Ok x | None => Raise ValueError end.

(** Position of the first element satisfying [f]. *)
Fixpoint position (f : pyval -> bool) (l : list pyval) : option nat :=
  match l with
  | [] => None
  | x :: l' => if f x then Some 0 else option_map S (position f l')
  end.

(** Every [s]-th element, by position: elements at positions 0, s, 2s, ... *)
Definition every_nth {A} (s : nat) (l : list A) : list A :=
  map snd (filter (fun p => Nat.eqb (Nat.modulo (fst p) s) 0) (combine (seq 0 (length l)) l)).

(** The last [n] elements. *)
Definition last_n {A} (n : nat) (l : list A) : list A := skipn (length l - n) l.
Definition newest {A} (maxlen : option nat) (l : list A) : list A :=
  match maxlen with None => l | Some m => last_n m l end.
