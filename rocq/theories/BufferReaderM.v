(** * Model of [BufferReader]  (/repo/stream2py/buffer_reader.py)

    Every method body that runs inside [with self._buffer.reader_lock() as reader] sees one
    fixed content [d] of the deque: no writer can be inside meanwhile
    (see [PropsLock.v], C12 and C13). What a method does after leaving the lock uses only
    the key function, which does not change. So a method is a function of the snapshot [d]
    and of the reader's own fields.

    Methods are written in a small state monad that also records the lock events, so that
    balancing and nesting of the lock are properties of the same model. *)
From Coq Require Import List ZArith Bool Arith.
From Verif Require Import PyVal PyLib SortedDequeM.
Import ListNotations.

(** Fields [_last_item], [_last_key] (buffer_reader.py:122-123) and [_read_kwargs]
    (132-137); the fields read_size/peek/... themselves are only used to build
    [_read_kwargs] in [__init__]. *)
Record breader := MkR {
  r_last_item : pyval;
  r_last_key : pyval;
  rk_n : Z;
  rk_peek : bool;
  rk_ignore : bool;
  rk_strict : bool
}.

(** [__init__] (buffer_reader.py:86-141). *)
Definition mk_breader (read_size : Z) (peek strict_n ignore : bool) : breader :=
  MkR PNone PNone read_size peek ignore strict_n.

(** What a call returns: an item (or None, as [VItem PNone]) or a list of items. *)
Inductive rval := VItem (x : pyval) | VList (l : list pyval).
Definition VNone := VItem PNone.
(** [result is None]. *)
Definition rval_is_none (v : rval) : bool :=
  match v with VItem x => is_none x | VList _ => false end.

Inductive lockev := Acq | Rel.

(** Computations: lock events, new reader state, result. *)
Definition M (A : Type) := breader -> list lockev * breader * res A.
Definition retM {A} (a : A) : M A := fun r => ([], r, Ok a).
Definition raiseM {A} (e : exn) : M A := fun r => ([], r, Raise e).
Definition liftM {A} (x : res A) : M A := fun r => ([], r, x).
Definition getM : M breader := fun r => ([], r, Ok r).
Definition bindM {A B} (x : M A) (f : A -> M B) : M B := fun r =>
  let '(t, r1, a) := x r in
  match a with
  | Ok a => let '(t2, r2, b) := f a r1 in (t ++ t2, r2, b)
  | Raise e => (t, r1, Raise e)
  end.
(** [try: x  except e: h(e)] (the handler re-raises what it does not handle). *)
Definition tryM {A} (x : M A) (h : exn -> M A) : M A := fun r =>
  let '(t, r1, a) := x r in
  match a with
  | Ok a => (t, r1, Ok a)
  | Raise e => let '(t2, r2, b) := h e r1 in (t ++ t2, r2, b)
  end.
(** [with self._buffer.reader_lock()] (locked_sorted_deque.py:40-46): a contextmanager whose
    [finally] releases on return, early return and exception alike. *)
Definition with_lock {A} (x : M A) : M A := fun r =>
  let '(t, r1, a) := x r in (Acq :: t ++ [Rel], r1, a).

Notation "'do!' x := e 'in' k" := (bindM e (fun x => k))
  (at level 200, x pattern, right associativity).

(** [_setlast_item] (buffer_reader.py:214-216): the key is computed first. *)
Definition set_last_item (d : sdeque) (x : pyval) : M unit := fun r =>
  match sd_key d x with
  | Ok k => ([], MkR x k (rk_n r) (rk_peek r) (rk_ignore r) (rk_strict r), Ok tt)
  | Raise e => ([], r, Raise e)
  end.
(** [_dellast_item] (buffer_reader.py:218-222). *)
Definition del_last_item : M unit := fun r =>
  ([], MkR PNone PNone (rk_n r) (rk_peek r) (rk_ignore r) (rk_strict r), Ok tt).

(** [if not peek: self.last_item = x]. *)
Definition move_cursor (d : sdeque) (peek : bool) (x : pyval) : M unit :=
  if peek then retM tt else set_last_item d x.

(** [defaulted_values] on one entry (buffer_reader.py:15-27, 364-367). *)
Definition dflt {A} (v : option A) (default : A) : A :=
  match v with Some a => a | None => default end.

(** [l[-1]]. *)
Definition last_of (l : list pyval) : res pyval :=
  match last_opt l with Some x => Ok x | None => Raise IndexError end.

(** [len(reader)], [reader.index], [reader.range_by_index] inside [read(n)], n > 1
    (buffer_reader.py:406-417). *)
Definition read_many (d : sdeque) (n : Z) (peek strict : bool) (x : pyval) : M rval :=
  do! i := liftM (sd_index d x) in
  let j := (Z.of_nat i + n)%Z in
  if strict && Z.leb (Z.of_nat (sd_len d)) j then raiseM ValueError
  else
    do! l := liftM (sd_range_by_index d i (Z.to_nat j) None) in
    (if peek then retM (VList l)
     else do! x := liftM (last_of l) in do! _ := set_last_item d x in retM (VList l)).

(** The body of [read] under the lock (buffer_reader.py:393-420), arguments resolved. The
    early [return None] is an [Ok None]. *)
Definition read_body (d : sdeque) (n : Z) (peek ignore strict : bool) : M rval :=
  do! r := getM in
  do! next :=
    tryM (do! x := liftM (sd_find_gt d (r_last_key r)) in retM (Some x))
      (fun e => match e with
       | ValueError => if ignore then retM None else raiseM ValueError
       | TypeError => if is_none (r_last_item r)
                      then do! x := liftM (sd_getitem d 0) in retM (Some x)
                      else raiseM TypeError
       | e => raiseM e
       end) in
  match next with
  | None => retM VNone
  | Some x =>
      if Z.ltb 1 n then read_many d n peek strict x
      else do! _ := move_cursor d peek x in retM (VItem x)
  end.

(** Arguments of a [read] call; [None] = not passed. *)
Record rargs := MkRA { a_n : option Z; a_peek : option bool; a_ignore : option bool; a_strict : option bool }.

(** [read(..., blocking=False)] (buffer_reader.py:341-420): n, ignore_no_item_found and
    strict_n are defaulted, peek is not ([None] is falsy). *)
Definition read (d : sdeque) (a : rargs) : M rval :=
  do! r := getM in
  with_lock (read_body d (dflt (a_n a) (rk_n r)) (dflt (a_peek a) false)
               (dflt (a_ignore a) (rk_ignore r)) (dflt (a_strict a) (rk_strict r))).

(** [next] method (buffer_reader.py:422-431). *)
Definition next_method (d : sdeque) (n : Z) (peek ignore strict : bool) : M rval :=
  read d (MkRA (Some n) (Some peek) (Some ignore) (Some strict)).

(** The read of [__next__] with [_read_kwargs_for_next] (buffer_reader.py:141,168). *)
Definition read_for_next (d : sdeque) : M rval :=
  do! r := getM in
  read d (MkRA (Some (rk_n r)) (Some (rk_peek r)) (Some true) (Some (rk_strict r))).

(** [__next__] (buffer_reader.py:158-174); [stopped] is the value of [self.is_stopped],
    which is only looked at if the read returned None. *)
Definition next_dunder (d : sdeque) (stopped : bool) : M rval :=
  do! v := read_for_next d in
  if rval_is_none v && stopped then raiseM StopIteration else retM v.

(** Arguments of a [range] call. *)
Record rgargs := MkRG {
  g_start : pyval; g_stop : pyval; g_step : option Z;
  g_peek : bool; g_ignore : option bool; g_only_new : bool; g_start_le : bool; g_stop_ge : bool
}.

(** The part of [range] under the lock (buffer_reader.py:261-288); [None] = early
    [return None]. The nested [self.read] at 263 acquires the lock again. *)
Definition range_body (d : sdeque) (g : rgargs) (ignore : bool) : M (option (list pyval)) :=
  do! r := getM in
  do! start1 :=
    (if g_only_new g && negb (is_none (r_last_key r)) then
       do! nx := read d (MkRA (Some 1%Z) (Some true) (Some ignore) None) in
       let nx := match nx with VItem x => x | VList _ => PNone end in
       do! k := tryM (do! k := liftM (sd_key d nx) in retM (Some k))
                  (fun e => match e with
                   | TypeError => if ignore then retM None else raiseM TypeError
                   | e => raiseM e end) in
       match k with
       | None => retM None
       | Some k => do! b := liftM (py_gt (g_start g) k) in
                   retM (Some (if b then g_start g else k))
       end
     else retM (Some (g_start g))) in
  match start1 with
  | None => retM None
  | Some s1 =>
      do! s2 :=
        (if g_start_le g then
           tryM (do! x := liftM (sd_find_le d s1) in liftM (sd_key d x))
             (fun e => match e with ValueError => retM s1 | e => raiseM e end)
         else retM s1) in
      do! stop :=
        (if g_stop_ge g then
           tryM (do! x := liftM (sd_find_ge d (g_stop g)) in
                 do! k := liftM (sd_key d x) in retM (Some k))
             (fun e => match e with
              | ValueError => if ignore then retM None else raiseM ValueError
              | e => raiseM e end)
         else retM (Some (g_stop g))) in
      match stop with
      | None => retM None
      | Some st => do! l := liftM (sd_range d s2 st (g_step g)) in retM (Some l)
      end
  end.

(** [range] (buffer_reader.py:228-297). [items[-1]] and the key are computed after the lock
    has been released; an IndexError there (also one raised by the key function) is
    turned into None under ignore. *)
Definition range (d : sdeque) (g : rgargs) : M rval :=
  do! r := getM in
  let ignore := dflt (g_ignore g) (rk_ignore r) in
  do! o := with_lock (range_body d g ignore) in
  match o with
  | None => retM VNone
  | Some l =>
      if g_peek g then retM (VList l)
      else
        tryM (do! x := liftM (last_of l) in do! _ := set_last_item d x in retM (VList l))
          (fun e => match e with
           | IndexError => if ignore then retM VNone else raiseM IndexError
           | e => raiseM e end)
  end.

(** [tail] (buffer_reader.py:299-332). *)
Definition tail_body (d : sdeque) (ignore only_new : bool) : M (option pyval) :=
  do! r := getM in
  if only_new then
    tryM (do! x := liftM (sd_find_last_gt d (r_last_key r)) in retM (Some x))
      (fun e => match e with
       | ValueError => if ignore then retM None else raiseM ValueError
       | TypeError => if is_none (r_last_item r)
                      then do! x := liftM (sd_getitem d (-1)) in retM (Some x)
                      else raiseM TypeError
       | e => raiseM e end)
  else
    tryM (do! x := liftM (sd_getitem d (-1)) in retM (Some x))
      (fun e => match e with
       | IndexError => if ignore then retM None else raiseM IndexError
       | e => raiseM e end).
Definition tail (d : sdeque) (peek ignore only_new : bool) : M rval :=
  do! o := with_lock (tail_body d ignore only_new) in
  match o with
  | None => retM VNone
  | Some x => do! _ := move_cursor d peek x in retM (VItem x)
  end.

(** [head] (buffer_reader.py:334-339). *)
Definition head (d : sdeque) (peek : bool) : M rval :=
  do! x := with_lock (liftM (sd_getitem d 0)) in
  do! _ := move_cursor d peek x in retM (VItem x).

(** Results without the lock events. *)
Definition run {A} (m : M A) (r : breader) : breader * res A :=
  let '(_, r', a) := m r in (r', a).
Definition events {A} (m : M A) (r : breader) : list lockev := fst (fst (m r)).

(** [read(blocking=True)] (buffer_reader.py:376-390). [polls] lists what successive rounds
    of the loop observe: the buffer at the poll, and [is_stopped] when it is consulted.
    [None] as result: still sleeping after these polls. *)
Definition poll_args (a : rargs) (r : breader) : rargs :=
  MkRA (Some (dflt (a_n a) (rk_n r))) (a_peek a) (Some true) (Some (dflt (a_strict a) (rk_strict r))).
Fixpoint read_blocking (polls : list (sdeque * bool)) (a : rargs) (r : breader)
  : breader * option (res rval) :=
  match polls with
  | [] => (r, None)
  | (d, stopped) :: polls' =>
      match run (read d (poll_args a r)) r with
      | (r', Ok v) =>
          if negb (rval_is_none v) then (r', Some (Ok v))
          else if stopped then (r', Some (Ok VNone))
          else read_blocking polls' a r'
      | (r', Raise e) => (r', Some (Raise e))
      end
  end.

(** [__iter__] (buffer_reader.py:143-156). One round: the buffer at the poll, [is_stopped]
    as consulted by [__next__], [is_stopped] as consulted by [__iter__]. Result: the
    values yielded, and how the loop ended ([None]: still running after these rounds). *)
Inductive iter_end := IterReturned | IterRaised (e : exn).
Fixpoint iterate (rounds : list (sdeque * bool * bool)) (r : breader)
  : breader * list rval * option iter_end :=
  match rounds with
  | [] => (r, [], None)
  | (d, s1, s2) :: rounds' =>
      match run (next_dunder d s1) r with
      | (r', Raise StopIteration) => (r', [], Some IterReturned)
      | (r', Raise e) => (r', [], Some (IterRaised e))
      | (r', Ok v) =>
          if negb (rval_is_none v) then
            let '(r'', ys, e) := iterate rounds' r' in (r'', v :: ys, e)
          else if s2 then (r', [], Some IterReturned)
          else iterate rounds' r'
      end
  end.
