(** * Model of [SortedCollection] and [SortedDeque]

    /repo/stream2py/utility/sorted_collection.py and
    /repo/stream2py/utility/sorted_deque.py.

    One record models both classes: a plain [SortedCollection] (backed by lists) behaves,
    for the methods both classes share, like a [SortedDeque] whose deques have no bound.
    The three methods that [SortedDeque] overrides ([__contains__], [index], [count]) are
    modelled for each class. *)
From Coq Require Import List ZArith Bool Arith.
From Verif Require Import PyVal PyLib.
Import ListNotations.

(** Attributes [_keys], [_items], [_key], [_maxlen] (sorted_deque.py:21-25,
    sorted_collection.py:80-85). [sd_bound] is the maxlen the two deque objects enforce;
    it differs from the attribute [_maxlen] only after a failed re-initialisation (see
    [sd_reinit]) or for plain lists ([None]). *)
Record sdeque := MkSD {
  sd_keys : list pyval;
  sd_items : list pyval;
  sd_key : pyval -> res pyval;
  sd_bound : option nat;
  sd_maxlen : option Z
}.

(** [key(item)] evaluated over an iterable, left to right (sorted_collection.py:82). *)
Fixpoint decorate (key : pyval -> res pyval) (l : list pyval) : res (list (pyval * pyval)) :=
  match l with
  | [] => Ok []
  | x :: l' => let! k := key x in let! r := decorate key l' in Ok ((k, x) :: r)
  end.

(** [SortedCollection.__init__] (sorted_collection.py:79-85); [key=None] is the identity:
    pass [Ok]. *)
Definition sc_init (iterable : list pyval) (key : pyval -> res pyval) : res sdeque :=
  let! dec := decorate key iterable in
  let! srt := py_sorted dec in
  Ok (MkSD (map fst srt) (map snd srt) key None None).

(** [deque(..., maxlen=m)] raises ValueError for a negative m (sorted_deque.py:23-24). *)
Definition check_maxlen (maxlen : option Z) : res (option nat) :=
  match maxlen with
  | None => Ok None
  | Some m => if Z.ltb m 0 then Raise ValueError else Ok (Some (Z.to_nat m))
  end.

(** [SortedDeque.__init__] on a new object (sorted_deque.py:21-25). *)
Definition sd_init (iterable : list pyval) (key : pyval -> res pyval) (maxlen : option Z)
  : res sdeque :=
  let! c := sc_init iterable key in
  let! b := check_maxlen maxlen in
  Ok (MkSD (deque_of b (sd_keys c)) (deque_of b (sd_items c)) key b maxlen).

(** [self.__init__(iterable, key, maxlen)] on an existing object, used by [clear] and the
    [key] / [maxlen] setters (sorted_deque.py:42-56). If sorting raises, the attributes are
    untouched; if [deque(maxlen=<negative>)] raises, [_keys]/[_items]/[_key] are already
    replaced by plain sorted lists and [_maxlen] keeps its old value. *)
Definition sd_reinit (d : sdeque) (iterable : list pyval) (key : pyval -> res pyval)
    (maxlen : option Z) : sdeque * res unit :=
  match sc_init iterable key with
  | Raise e => (d, Raise e)
  | Ok c =>
      match check_maxlen maxlen with
      | Raise e => (MkSD (sd_keys c) (sd_items c) key None (sd_maxlen d), Raise e)
      | Ok b => (MkSD (deque_of b (sd_keys c)) (deque_of b (sd_items c)) key b maxlen, Ok tt)
      end
  end.

(** [_setmaxlen] (sorted_deque.py:42-44); [same] is the outcome of [maxlen is self._maxlen]. *)
Definition sd_setmaxlen (d : sdeque) (same : bool) (maxlen : option Z) : sdeque * res unit :=
  if same then (d, Ok tt) else sd_reinit d (sd_items d) (sd_key d) maxlen.

(** Assigning the [key] property of a SortedDeque. The property object is created in the
    base class (sorted_collection.py:97) from the base class's own [_setkey] function
    (sorted_collection.py:90-92), so the override at sorted_deque.py:51-53 is not called:
    the object is re-initialised by [self.__init__(self._items, key=key)], with the default
    maxlen=None. [same] is the outcome of [key is self._key]. *)
Definition sd_assign_key (d : sdeque) (same : bool) (key : pyval -> res pyval) : sdeque * res unit :=
  if same then (d, Ok tt) else sd_reinit d (sd_items d) key None.

(** [del d.key]: the base class's [_delkey] (sorted_collection.py:94-95) calls
    [self._setkey(None)], which does dispatch to sorted_deque.py:51-53 and keeps maxlen;
    [None is not self._key] always holds. *)
Definition sd_delete_key (d : sdeque) : sdeque * res unit :=
  sd_reinit d (sd_items d) (fun x => Ok x) (sd_maxlen d).

(** [clear] (sorted_deque.py:55-56). *)
Definition sd_clear (d : sdeque) : sdeque * res unit :=
  sd_reinit d [] (sd_key d) (sd_maxlen d).

(** [copy] (sorted_deque.py:58-59): a new, re-sorted object. *)
Definition sd_copy (d : sdeque) : res sdeque := sd_init (sd_items d) (sd_key d) (sd_maxlen d).

(** [__len__] (sorted_collection.py:105-106). *)
Definition sd_len (d : sdeque) : nat := length (sd_items d).

(** [__getitem__] with an int (sorted_collection.py:108-109). *)
Definition sd_getitem (d : sdeque) (i : Z) : res pyval := getitem (sd_items d) i.

(** [__iter__] / [__reversed__] (sorted_collection.py:111-115). *)
Definition sd_list (d : sdeque) : list pyval := sd_items d.
Definition sd_reversed (d : sdeque) : list pyval := rev (sd_items d).

(** [__contains__] (sorted_deque.py:72-76). *)
Definition sd_contains (d : sdeque) (x : pyval) : res bool :=
  let! k := sd_key d x in
  let! i := bisect_left (sd_keys d) k in
  let! j := bisect_right (sd_keys d) k in
  Ok (existsb (fun y => same_item y x) (slice (sd_items d) i j)).

(** [index] (sorted_deque.py:78-83). *)
Definition sd_index (d : sdeque) (x : pyval) : res nat :=
  let! k := sd_key d x in
  let! i := bisect_left (sd_keys d) k in
  let! j := bisect_right (sd_keys d) k in
  deque_index (sd_items d) x i j.

(** [count] (sorted_deque.py:85-90): uses plain [==]. *)
Definition sd_count (d : sdeque) (x : pyval) : res nat :=
  let! k := sd_key d x in
  let! i := bisect_left (sd_keys d) k in
  let! j := bisect_right (sd_keys d) k in
  Ok (length (filter (fun y => py_eq y x) (slice (sd_items d) i j))).

(** [SortedCollection.index] (sorted_collection.py:133-138): slice, then [list.index], plus i. *)
Definition sc_index (d : sdeque) (x : pyval) : res nat :=
  let! k := sd_key d x in
  let! i := bisect_left (sd_keys d) k in
  let! j := bisect_right (sd_keys d) k in
  let s := slice (sd_items d) i j in
  let! p := deque_index s x 0 (length s) in
  Ok (p + i).

(** [SortedCollection.count] (sorted_collection.py:140-145): [list.count] uses identity or [==]. *)
Definition sc_count (d : sdeque) (x : pyval) : res nat :=
  let! k := sd_key d x in
  let! i := bisect_left (sd_keys d) k in
  let! j := bisect_right (sd_keys d) k in
  Ok (length (filter (fun y => same_item y x) (slice (sd_items d) i j))).

(** [insert] (sorted_collection.py:147-152), [insert_right] (154-159). [_keys.insert] comes
    first: on a full deque it raises before [_items] is touched. *)
Definition sd_insert_at (d : sdeque) (i : nat) (k x : pyval) : sdeque * res unit :=
  match deque_insert (sd_bound d) (sd_keys d) i k with
  | Raise e => (d, Raise e)
  | Ok ks =>
      match deque_insert (sd_bound d) (sd_items d) i x with
      | Raise e => (MkSD ks (sd_items d) (sd_key d) (sd_bound d) (sd_maxlen d), Raise e)
      | Ok its => (MkSD ks its (sd_key d) (sd_bound d) (sd_maxlen d), Ok tt)
      end
  end.
Definition sd_insert (d : sdeque) (x : pyval) : sdeque * res unit :=
  match (let! k := sd_key d x in let! i := bisect_left (sd_keys d) k in Ok (k, i)) with
  | Raise e => (d, Raise e)
  | Ok (k, i) => sd_insert_at d i k x
  end.
Definition sd_insert_right (d : sdeque) (x : pyval) : sdeque * res unit :=
  match (let! k := sd_key d x in let! i := bisect_right (sd_keys d) k in Ok (k, i)) with
  | Raise e => (d, Raise e)
  | Ok (k, i) => sd_insert_at d i k x
  end.

(** [remove] (sorted_collection.py:161-165). *)
Definition sd_remove (d : sdeque) (x : pyval) : sdeque * res unit :=
  match sd_index d x with
  | Raise e => (d, Raise e)
  | Ok i =>
      match list_del (sd_keys d) i with
      | Raise e => (d, Raise e)
      | Ok ks =>
          match list_del (sd_items d) i with
          | Raise e => (MkSD ks (sd_items d) (sd_key d) (sd_bound d) (sd_maxlen d), Raise e)
          | Ok its => (MkSD ks its (sd_key d) (sd_bound d) (sd_maxlen d), Ok tt)
          end
      end
  end.

(** [find] (sorted_collection.py:167-172). *)
Definition sd_find (d : sdeque) (k : pyval) : res pyval :=
  let! i := bisect_left (sd_keys d) k in
  if negb (Nat.eqb i (sd_len d)) then
    let! ki := get (sd_keys d) i in
    if py_eq ki k then get (sd_items d) i else Raise ValueError
  else Raise ValueError.

(** [find_le] (sorted_collection.py:174-179). *)
Definition sd_find_le (d : sdeque) (k : pyval) : res pyval :=
  let! i := bisect_right (sd_keys d) k in
  if Nat.eqb i 0 then Raise ValueError else get (sd_items d) (i - 1).

(** [find_lt] (sorted_collection.py:181-186). *)
Definition sd_find_lt (d : sdeque) (k : pyval) : res pyval :=
  let! i := bisect_left (sd_keys d) k in
  if Nat.eqb i 0 then Raise ValueError else get (sd_items d) (i - 1).

(** [find_ge] (sorted_collection.py:188-193). *)
Definition sd_find_ge (d : sdeque) (k : pyval) : res pyval :=
  let! i := bisect_left (sd_keys d) k in
  if negb (Nat.eqb i (sd_len d)) then get (sd_items d) i else Raise ValueError.

(** [find_gt] (sorted_collection.py:195-200). *)
Definition sd_find_gt (d : sdeque) (k : pyval) : res pyval :=
  let! i := bisect_right (sd_keys d) k in
  if negb (Nat.eqb i (sd_len d)) then get (sd_items d) i else Raise ValueError.

(** [self._keys[-1]] as an option: [None] stands for the IndexError the code catches. *)
Definition last_opt {A} (l : list A) : option A :=
  match rev l with [] => None | x :: _ => Some x end.

(** [append] (sorted_deque.py:92-109). *)
Definition sd_append (d : sdeque) (x : pyval) : sdeque * res unit :=
  match sd_key d x with
  | Raise e => (d, Raise e)
  | Ok k =>
      let push := (MkSD (deque_append (sd_bound d) (sd_keys d) k)
                        (deque_append (sd_bound d) (sd_items d) x)
                        (sd_key d) (sd_bound d) (sd_maxlen d), Ok tt) in
      match last_opt (sd_keys d) with
      | None => push
      | Some l =>
          match py_gt k l with
          | Raise e => (d, Raise e)
          | Ok false => (d, Raise ValueError)
          | Ok true => push
          end
      end
  end.

(** [range_by_index] (sorted_deque.py:123-131). *)
Definition sd_range_by_index (d : sdeque) (i j : nat) (step : option Z) : res (list pyval) :=
  islice (sd_items d) i j step.

(** [range] (sorted_deque.py:111-121). *)
Definition sd_range (d : sdeque) (start stop : pyval) (step : option Z) : res (list pyval) :=
  let! i := bisect_left (sd_keys d) start in
  let! j := bisect_right (sd_keys d) stop in
  sd_range_by_index d i j step.

(** [find_last_gt] (sorted_deque.py:133-142). *)
Definition sd_find_last_gt (d : sdeque) (k : pyval) : res pyval :=
  match last_opt (sd_keys d) with
  | None => Raise ValueError
  | Some l =>
      let! b := py_gt l k in
      if b then sd_getitem d (-1) else Raise ValueError
  end.

(** [drop] (sorted_deque.py:144-152). *)
Fixpoint sd_drop_nat (d : sdeque) (n : nat) : sdeque * res unit :=
  match n with
  | O => (d, Ok tt)
  | S n' =>
      match list_del (sd_keys d) 0 with
      | Raise e => (d, Raise e)
      | Ok ks =>
          let d1 := MkSD ks (sd_items d) (sd_key d) (sd_bound d) (sd_maxlen d) in
          match list_del (sd_items d) 0 with
          | Raise e => (d1, Raise e)
          | Ok its => sd_drop_nat (MkSD ks its (sd_key d) (sd_bound d) (sd_maxlen d)) n'
          end
      end
  end.
Definition sd_drop (d : sdeque) (n : Z) : sdeque * res unit := sd_drop_nat d (Z.to_nat n).

(** Every mutating call of the public API, for statements over histories. *)
Inductive sdop :=
| OAppend (x : pyval) | OInsert (x : pyval) | OInsertRight (x : pyval) | ORemove (x : pyval)
| ODrop (n : Z) | OClear | OCopy (* continue with the copy, if copying succeeds *)
| OSetKey (same : bool) (key : pyval -> res pyval) | ODelKey | OSetMaxlen (same : bool) (m : option Z).

Definition sd_step (d : sdeque) (o : sdop) : sdeque * res unit :=
  match o with
  | OAppend x => sd_append d x
  | OInsert x => sd_insert d x
  | OInsertRight x => sd_insert_right d x
  | ORemove x => sd_remove d x
  | ODrop n => sd_drop d n
  | OClear => sd_clear d
  | OCopy => match sd_copy d with Ok d' => (d', Ok tt) | Raise e => (d, Raise e) end
  | OSetKey s k => sd_assign_key d s k
  | ODelKey => sd_delete_key d
  | OSetMaxlen s m => sd_setmaxlen d s m
  end.
Definition sd_run (d : sdeque) (ops : list sdop) : sdeque :=
  fold_left (fun d o => fst (sd_step d o)) ops d.
