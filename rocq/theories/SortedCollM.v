(** * Model of [SortedCollection] as a class of its own
      (/repo/stream2py/utility/sorted_collection.py:79-200)

    The list-based base class. Attributes [_keys], [_items], [_key]. [_given_key], used by
    [__repr__] and [__reduce__] only, is in [DequeObjM.v]. *)
From Coq Require Import List ZArith Bool Arith.
From Verif Require Import PyVal PyLib SortedDequeM.
Import ListNotations.

Record scoll := MkSC { c_keys : list pyval; c_items : list pyval; c_keyf : pyval -> res pyval }.

(** [__init__] (79-85). [key=None] is the identity: pass [Ok]. The attributes are assigned
    after everything that can raise. *)
Definition c_init (iterable : list pyval) (key : pyval -> res pyval) : res scoll :=
  let! dec := decorate key iterable in
  let! srt := py_sorted dec in
  Ok (MkSC (map fst srt) (map snd srt) key).
(** [self.__init__(...)] on an existing object. *)
Definition c_reinit (c : scoll) (iterable : list pyval) (key : pyval -> res pyval) : scoll * res unit :=
  match c_init iterable key with Ok c' => (c', Ok tt) | Raise e => (c, Raise e) end.
(** [_setkey] (90-92); [same]: [key is self._key]. [_delkey] (94-95): None is never the key
    in place. *)
Definition c_assign_key (c : scoll) (same : bool) (key : pyval -> res pyval) : scoll * res unit :=
  if same then (c, Ok tt) else c_reinit c (c_items c) key.
Definition c_delete_key (c : scoll) : scoll * res unit := c_reinit c (c_items c) (fun x => Ok x).
(** [clear] (99-100), [copy] (102-103). *)
Definition c_clear (c : scoll) : scoll * res unit := c_reinit c [] (c_keyf c).
Definition c_copy (c : scoll) : res scoll := c_init (c_items c) (c_keyf c).
(** [__len__] (105-106), [__getitem__] (108-109), [__iter__] (111-112), [__reversed__] (114-115). *)
Definition c_len (c : scoll) : nat := length (c_items c).
Definition c_getitem (c : scoll) (i : Z) : res pyval := getitem (c_items c) i.
Definition c_list (c : scoll) : list pyval := c_items c.
Definition c_reversed (c : scoll) : list pyval := rev (c_items c).
(** [c[i:j]] (108-109): a list can be sliced; None is the default bound, a negative one
    counts from the end, and both are clipped. *)
Definition clip (n : nat) (i : Z) : nat :=
  Nat.min n (Z.to_nat (if Z.ltb i 0 then i + Z.of_nat n else i)).
Definition c_getslice (c : scoll) (i j : option Z) : res (list pyval) :=
  let n := length (c_items c) in
  Ok (slice (c_items c) (match i with Some i => clip n i | None => 0 end) (match j with Some j => clip n j | None => n end)).
(** The same on a SortedDeque: "sequence index must be integer, not 'slice'". *)
Definition sd_getslice (d : sdeque) (i j : option Z) : res (list pyval) := Raise TypeError.
(** [__contains__] (127-131). *)
Definition c_contains (c : scoll) (x : pyval) : res bool :=
  let! k := c_keyf c x in
  let! i := bisect_left (c_keys c) k in
  let! j := bisect_right (c_keys c) k in
  Ok (existsb (fun y => same_item y x) (slice (c_items c) i j)).
(** [index] (133-138). *)
Definition c_index (c : scoll) (x : pyval) : res nat :=
  let! k := c_keyf c x in
  let! i := bisect_left (c_keys c) k in
  let! j := bisect_right (c_keys c) k in
  let s := slice (c_items c) i j in
  let! p := deque_index s x 0 (length s) in
  Ok (p + i).
(** [count] (140-145): [list.count], identity or [==]. *)
Definition c_count (c : scoll) (x : pyval) : res nat :=
  let! k := c_keyf c x in
  let! i := bisect_left (c_keys c) k in
  let! j := bisect_right (c_keys c) k in
  Ok (length (filter (fun y => same_item y x) (slice (c_items c) i j))).
(** [insert] (147-152), [insert_right] (154-159): [list.insert] does not raise. *)
Definition c_insert (c : scoll) (x : pyval) : scoll * res unit :=
  match (let! k := c_keyf c x in let! i := bisect_left (c_keys c) k in Ok (k, i)) with
  | Raise e => (c, Raise e)
  | Ok (k, i) => (MkSC (list_insert (c_keys c) i k) (list_insert (c_items c) i x) (c_keyf c), Ok tt)
  end.
Definition c_insert_right (c : scoll) (x : pyval) : scoll * res unit :=
  match (let! k := c_keyf c x in let! i := bisect_right (c_keys c) k in Ok (k, i)) with
  | Raise e => (c, Raise e)
  | Ok (k, i) => (MkSC (list_insert (c_keys c) i k) (list_insert (c_items c) i x) (c_keyf c), Ok tt)
  end.
(** [remove] (161-165). *)
Definition c_remove (c : scoll) (x : pyval) : scoll * res unit :=
  match c_index c x with
  | Raise e => (c, Raise e)
  | Ok i =>
      match list_del (c_keys c) i with
      | Raise e => (c, Raise e)
      | Ok ks =>
          match list_del (c_items c) i with
          | Raise e => (MkSC ks (c_items c) (c_keyf c), Raise e)
          | Ok its => (MkSC ks its (c_keyf c), Ok tt)
          end
      end
  end.
(** [find] (167-172), [find_le] (174-179), [find_lt] (181-186), [find_ge] (188-193),
    [find_gt] (195-200). *)
Definition c_find (c : scoll) (k : pyval) : res pyval :=
  let! i := bisect_left (c_keys c) k in
  if Nat.eqb i (c_len c) then Raise ValueError
  else let! ki := get (c_keys c) i in if py_eq ki k then get (c_items c) i else Raise ValueError.
Definition c_find_le (c : scoll) (k : pyval) : res pyval :=
  let! i := bisect_right (c_keys c) k in
  match i with O => Raise ValueError | S p => get (c_items c) p end.
Definition c_find_lt (c : scoll) (k : pyval) : res pyval :=
  let! i := bisect_left (c_keys c) k in
  match i with O => Raise ValueError | S p => get (c_items c) p end.
Definition c_find_ge (c : scoll) (k : pyval) : res pyval :=
  let! i := bisect_left (c_keys c) k in
  if Nat.eqb i (c_len c) then Raise ValueError else get (c_items c) i.
Definition c_find_gt (c : scoll) (k : pyval) : res pyval :=
  let! i := bisect_right (c_keys c) k in
  if Nat.eqb i (c_len c) then Raise ValueError else get (c_items c) i.

(** Mutating calls, and histories of them. *)
Inductive scop :=
| CInsert (x : pyval) | CInsertRight (x : pyval) | CRemove (x : pyval) | CClear
| CCopy (* continue with the copy *) | CSetKey (same : bool) (key : pyval -> res pyval) | CDelKey.
Definition c_step (c : scoll) (o : scop) : scoll * res unit :=
  match o with
  | CInsert x => c_insert c x
  | CInsertRight x => c_insert_right c x
  | CRemove x => c_remove c x
  | CClear => c_clear c
  | CCopy => match c_copy c with Ok c' => (c', Ok tt) | Raise e => (c, Raise e) end
  | CSetKey s k => c_assign_key c s k
  | CDelKey => c_delete_key c
  end.
Fixpoint c_run (c : scoll) (ops : list scop) : scoll * list (res unit) :=
  match ops with
  | [] => (c, [])
  | o :: q => let (c1, r) := c_step c o in let (c2, rs) := c_run c1 q in (c2, r :: rs)
  end.
