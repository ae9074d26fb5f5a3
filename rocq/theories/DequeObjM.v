(** * Copying and pickling a [SortedDeque]
      (/repo/stream2py/utility/sorted_deque.py:27-37, 58-70, sorted_collection.py:79-85)

    SortedDequeM leaves out the attribute [_given_key] (sorted_collection.py:80), which only
    [__reduce__] and [__repr__] read. Here it is. *)
From Coq Require Import List ZArith Bool Arith.
From Verif Require Import PyVal PyLib SortedDequeM.
Import ListNotations.

(** A [key] argument: None, or a function; [pickles]: pickle can store it by reference (a
    module-level function can be, a lambda or a local function cannot). *)
Inductive keyarg := KNone | KFun (f : pyval -> res pyval) (pickles : bool).
Definition identity (x : pyval) : res pyval := Ok x.
(** [(lambda x: x) if key is None else key] (sorted_collection.py:81): the lambda is local to
    [__init__]. *)
Definition actual_key (k : keyarg) : keyarg := match k with KNone => KFun identity false | k => k end.
Definition key_fun (k : keyarg) : pyval -> res pyval := match k with KNone => identity | KFun f _ => f end.
Definition can_pickle (k : keyarg) : bool := match k with KNone => true | KFun _ b => b end.

(** [o_key] is the object in [_key], [o_given] that in [_given_key]. *)
Record sdobj := MkObj { o_sd : sdeque; o_key : keyarg; o_given : keyarg }.

(** [SortedDeque.__init__] on a new object (sorted_deque.py:21-25). *)
Definition obj_init (it : list pyval) (k : keyarg) (m : option Z) : res sdobj :=
  let! d := sd_init it (key_fun k) m in Ok (MkObj d (actual_key k) k).
(** On an existing object: [_given_key] is the first attribute to be assigned
    (sorted_collection.py:80), before anything can raise; [_key] the last one of
    [SortedCollection.__init__] (85). *)
Definition obj_reinit (o : sdobj) (it : list pyval) (k : keyarg) (m : option Z) : sdobj * res unit :=
  let (d, r) := sd_reinit (o_sd o) it (key_fun k) m in
  (MkObj d (match sc_init it (key_fun k) with Ok _ => actual_key k | Raise _ => o_key o end) k, r).

(** Calls of the public API. [PCopy]: continue with the copy. *)
Inductive oop :=
| PAppend (x : pyval) | PInsert (x : pyval) | PInsertRight (x : pyval) | PRemove (x : pyval) | PDrop (n : Z)
| PClear | PCopy | PSetKey (same : bool) (k : keyarg) | PDelKey | PSetMaxlen (same : bool) (m : option Z).

(** [copy] (sorted_deque.py:58-59). *)
Definition obj_copy (o : sdobj) : res sdobj := obj_init (sd_items (o_sd o)) (o_key o) (sd_maxlen (o_sd o)).
Definition obj_call (o : sdobj) (x : sdeque * res unit) : sdobj * res unit := (MkObj (fst x) (o_key o) (o_given o), snd x).
Definition obj_step (o : sdobj) (p : oop) : sdobj * res unit :=
  match p with
  | PAppend x => obj_call o (sd_append (o_sd o) x)
  | PInsert x => obj_call o (sd_insert (o_sd o) x)
  | PInsertRight x => obj_call o (sd_insert_right (o_sd o) x)
  | PRemove x => obj_call o (sd_remove (o_sd o) x)
  | PDrop n => obj_call o (sd_drop (o_sd o) n)
  | PClear => obj_reinit o [] (o_key o) (sd_maxlen (o_sd o))               (* sorted_deque.py:55-56 *)
  | PCopy => match obj_copy o with Ok o' => (o', Ok tt) | Raise e => (o, Raise e) end
  | PSetKey same k => if same then (o, Ok tt) else obj_reinit o (sd_items (o_sd o)) k None   (* see sd_assign_key *)
  | PDelKey => obj_reinit o (sd_items (o_sd o)) KNone (sd_maxlen (o_sd o))  (* see sd_delete_key *)
  | PSetMaxlen same m => if same then (o, Ok tt) else obj_reinit o (sd_items (o_sd o)) (o_key o) m (* 42-44 *)
  end.
Definition obj_run (o : sdobj) (ps : list oop) : sdobj := fold_left (fun o p => fst (obj_step o p)) ps o.

(** [copy.copy(d)]: the standard library calls the class with the arguments that [__reduce__]
    (sorted_deque.py:69-70) returns. *)
Definition obj_copy_copy (o : sdobj) : res sdobj := obj_init (sd_items (o_sd o)) (o_given o) (sd_maxlen (o_sd o)).
(** [pickle.loads(pickle.dumps(d))]: the same, if the key can be pickled (CPython raises
    AttributeError "Can't pickle local object" or PicklingError otherwise). Items are assumed
    to survive pickling unchanged. *)
Definition obj_pickle (o : sdobj) : res sdobj :=
  if can_pickle (o_given o) then obj_copy_copy o else Raise AttributeError.
(** [SortedDeque.from_jdict(d.to_jdict())] (27-37). *)
Definition obj_jdict (o : sdobj) : res sdobj := obj_init (sd_items (o_sd o)) (o_key o) (sd_maxlen (o_sd o)).
(** What [__repr__] (61-67) shows: the items, the key given, maxlen. *)
Definition obj_repr (o : sdobj) : list pyval * keyarg * option Z := (sd_items (o_sd o), o_given o, sd_maxlen (o_sd o)).
