(** * BufferReader calls step by step, run by several threads on one buffer

    The same methods as in [BufferReaderM.v], as programs whose steps are single accesses:
    one lock call, one look at the deques (one probe of a binary search, one [len], one
    indexing, one C-level [deque.index] or [islice]), one load of a cursor field, one store
    of a cursor field. Programs of any number of threads interleave with each other, with
    the writers and with the lock's own steps ([RWLockM]).

    What is still one step: reading the two fields [_read_kwargs] and [is_stopped]
    (nobody assigns the former; the latter is an input of the call), a key function call, a
    comparison, [deque.index], [list(islice(...))]. *)
From Coq Require Import List ZArith Bool Arith.
From Verif Require Import PyVal PyLib SortedDequeM BufferReaderM BufferSysM RWLockM.
Import ListNotations.

(** ** Programs *)
Inductive prog (A : Type) : Type :=
| PRet (o : res A)                       (* return or raise *)
| PEnter (k : prog A)                    (* reader_lock().__enter__ *)
| PLeave (k : prog A)                    (* reader_lock().__exit__ *)
| PLook (k : sdeque -> prog A)           (* look at the buffer *)
| PGet (k : breader -> prog A)           (* load a field of the reader *)
| PSet (f : breader -> breader) (k : prog A).  (* store a field of the reader *)
Arguments PRet {A}. Arguments PEnter {A}. Arguments PLeave {A}. Arguments PLook {A}. Arguments PGet {A}. Arguments PSet {A}.

Fixpoint bindP {A B} (x : prog A) (f : A -> prog B) : prog B :=
  match x with
  | PRet (Ok a) => f a
  | PRet (Raise e) => PRet (Raise e)
  | PEnter k => PEnter (bindP k f)
  | PLeave k => PLeave (bindP k f)
  | PLook k => PLook (fun d => bindP (k d) f)
  | PGet k => PGet (fun r => bindP (k r) f)
  | PSet g k => PSet g (bindP k f)
  end.
(** [try: x  except e: h(e)]. *)
Fixpoint tryP {A} (x : prog A) (h : exn -> prog A) : prog A :=
  match x with
  | PRet (Ok a) => PRet (Ok a)
  | PRet (Raise e) => h e
  | PEnter k => PEnter (tryP k h)
  | PLeave k => PLeave (tryP k h)
  | PLook k => PLook (fun d => tryP (k d) h)
  | PGet k => PGet (fun r => tryP (k r) h)
  | PSet g k => PSet g (tryP k h)
  end.
(** The [finally] of reader_lock() (locked_sorted_deque.py:40-46). *)
Fixpoint leaveP {A} (x : prog A) : prog A :=
  match x with
  | PRet o => PLeave (PRet o)
  | PEnter k => PEnter (leaveP k)
  | PLeave k => PLeave (leaveP k)
  | PLook k => PLook (fun d => leaveP (k d))
  | PGet k => PGet (fun r => leaveP (k r))
  | PSet g k => PSet g (leaveP k)
  end.
Definition with_lockP {A} (x : prog A) : prog A := PEnter (leaveP x).
Definition retP {A} (a : A) : prog A := PRet (Ok a).
Definition raiseP {A} (e : exn) : prog A := PRet (Raise e).
(** One look, which may raise. *)
Definition lookP {A} (f : sdeque -> res A) : prog A := PLook (fun d => PRet (f d)).
(** One load. *)
Definition loadP {A} (f : breader -> A) : prog A := PGet (fun r => PRet (Ok (f r))).
Notation "'doP' x := e 'in' k" := (bindP e (fun x => k))
  (at level 200, x pattern, right associativity).

(** ** SortedDeque methods, look by look *)
(** The loops of [bisect] (see PyLib.v): one probe of [_keys] at a time. *)
Fixpoint bisect_right_probes (fuel : nat) (x : pyval) (lo hi : nat) : prog nat :=
  if Nat.ltb lo hi then
    match fuel with
    | O => raiseP OutOfFuel
    | S f =>
        let mid := Nat.div (lo + hi) 2 in
        doP m := lookP (fun d => get (sd_keys d) mid) in
        doP b := PRet (py_lt x m) in
        if b then bisect_right_probes f x lo mid else bisect_right_probes f x (S mid) hi
    end
  else retP lo.
Definition bisect_right_p (x : pyval) : prog nat :=
  doP n := lookP (fun d => Ok (length (sd_keys d))) in bisect_right_probes n x 0 n.
Fixpoint bisect_left_probes (fuel : nat) (x : pyval) (lo hi : nat) : prog nat :=
  if Nat.ltb lo hi then
    match fuel with
    | O => raiseP OutOfFuel
    | S f =>
        let mid := Nat.div (lo + hi) 2 in
        doP m := lookP (fun d => get (sd_keys d) mid) in
        doP b := PRet (py_lt m x) in
        if b then bisect_left_probes f x (S mid) hi else bisect_left_probes f x lo mid
    end
  else retP lo.
Definition bisect_left_p (x : pyval) : prog nat :=
  doP n := lookP (fun d => Ok (length (sd_keys d))) in bisect_left_probes n x 0 n.
(** [find_gt], [find_ge], [find_le] (sorted_collection.py:195-200, 188-193, 174-179). *)
Definition find_gt_p (k : pyval) : prog pyval :=
  doP i := bisect_right_p k in
  doP n := lookP (fun d => Ok (sd_len d)) in
  if negb (Nat.eqb i n) then lookP (fun d => get (sd_items d) i) else raiseP ValueError.
Definition find_ge_p (k : pyval) : prog pyval :=
  doP i := bisect_left_p k in
  doP n := lookP (fun d => Ok (sd_len d)) in
  if negb (Nat.eqb i n) then lookP (fun d => get (sd_items d) i) else raiseP ValueError.
Definition find_le_p (k : pyval) : prog pyval :=
  doP i := bisect_right_p k in
  if Nat.eqb i 0 then raiseP ValueError else lookP (fun d => get (sd_items d) (i - 1)).
(** [find_last_gt] (sorted_deque.py:133-142): [_keys[-1]], then [_items[-1]]. *)
Definition find_last_gt_p (k : pyval) : prog pyval :=
  doP l := lookP (fun d => Ok (last_opt (sd_keys d))) in
  match l with
  | None => raiseP ValueError
  | Some l => doP b := PRet (py_gt l k) in
              if b then lookP (fun d => sd_getitem d (-1)) else raiseP ValueError
  end.
(** [key(item)]. *)
Definition key_p (x : pyval) : prog pyval := lookP (fun d => sd_key d x).
(** [index] (sorted_deque.py:78-83). *)
Definition index_p (x : pyval) : prog nat :=
  doP k := key_p x in
  doP i := bisect_left_p k in
  doP j := bisect_right_p k in
  lookP (fun d => deque_index (sd_items d) x i j).
(** [range] (sorted_deque.py:111-121). *)
Definition range_p (start stop : pyval) (step : option Z) : prog (list pyval) :=
  doP i := bisect_left_p start in
  doP j := bisect_right_p stop in
  lookP (fun d => sd_range_by_index d i j step).

(** ** BufferReader methods *)
(** [_setlast_item] (buffer_reader.py:214-216): key function, store [_last_key], store
    [_last_item]. *)
Definition put_key (k : pyval) (r : breader) : breader := MkR (r_last_item r) k (rk_n r) (rk_peek r) (rk_ignore r) (rk_strict r).
Definition put_item (x : pyval) (r : breader) : breader := MkR x (r_last_key r) (rk_n r) (rk_peek r) (rk_ignore r) (rk_strict r).
Definition set_last_item_p (x : pyval) : prog unit :=
  doP k := key_p x in PSet (put_key k) (PSet (put_item x) (retP tt)).
Definition move_cursor_p (peek : bool) (x : pyval) : prog unit :=
  if peek then retP tt else set_last_item_p x.
(** [read] with n > 1 (buffer_reader.py:406-417). *)
Definition read_many_p (n : Z) (peek strict : bool) (x : pyval) : prog rval :=
  doP i := index_p x in
  let j := (Z.of_nat i + n)%Z in
  doP short := (if strict then lookP (fun d => Ok (Z.leb (Z.of_nat (sd_len d)) j)) else retP false) in
  if short then raiseP ValueError
  else
    doP l := lookP (fun d => sd_range_by_index d i (Z.to_nat j) None) in
    (if peek then retP (VList l)
     else doP x := PRet (last_of l) in doP _ := set_last_item_p x in retP (VList l)).
(** [read] (buffer_reader.py:341-420). *)
Definition read_body_p (n : Z) (peek ignore strict : bool) : prog rval :=
  doP next :=
    tryP (doP k := loadP r_last_key in doP x := find_gt_p k in retP (Some x))
      (fun e => match e with
       | ValueError => if ignore then retP None else raiseP ValueError
       | TypeError => doP li := loadP r_last_item in
                      if is_none li
                      then doP x := lookP (fun d => sd_getitem d 0) in retP (Some x)
                      else raiseP TypeError
       | e => raiseP e
       end) in
  match next with
  | None => retP VNone
  | Some x =>
      if Z.ltb 1 n then read_many_p n peek strict x
      else doP _ := move_cursor_p peek x in retP (VItem x)
  end.
Definition read_p (a : rargs) : prog rval :=
  doP n := loadP (fun r => dflt (a_n a) (rk_n r)) in
  doP ig := loadP (fun r => dflt (a_ignore a) (rk_ignore r)) in
  doP st := loadP (fun r => dflt (a_strict a) (rk_strict r)) in
  with_lockP (read_body_p n (dflt (a_peek a) false) ig st).
(** [__next__] (buffer_reader.py:158-174). *)
Definition next_p (stopped : bool) : prog rval :=
  doP n := loadP rk_n in
  doP p := loadP rk_peek in
  doP s := loadP rk_strict in
  doP v := read_p (MkRA (Some n) (Some p) (Some true) (Some s)) in
  if rval_is_none v && stopped then raiseP StopIteration else retP v.
(** [range] (buffer_reader.py:228-297). *)
Definition range_body_p (g : rgargs) (ignore : bool) : prog (option (list pyval)) :=
  doP lk := (if g_only_new g then loadP r_last_key else retP PNone) in
  doP start1 :=
    (if g_only_new g && negb (is_none lk) then
       doP nx := read_p (MkRA (Some 1%Z) (Some true) (Some ignore) None) in
       let nx := match nx with VItem x => x | VList _ => PNone end in
       doP k := tryP (doP k := key_p nx in retP (Some k))
                  (fun e => match e with
                   | TypeError => if ignore then retP None else raiseP TypeError
                   | e => raiseP e end) in
       match k with
       | None => retP None
       | Some k => doP b := PRet (py_gt (g_start g) k) in
                   retP (Some (if b then g_start g else k))
       end
     else retP (Some (g_start g))) in
  match start1 with
  | None => retP None
  | Some s1 =>
      doP s2 :=
        (if g_start_le g then
           tryP (doP x := find_le_p s1 in key_p x)
             (fun e => match e with ValueError => retP s1 | e => raiseP e end)
         else retP s1) in
      doP stop :=
        (if g_stop_ge g then
           tryP (doP x := find_ge_p (g_stop g) in
                 doP k := key_p x in retP (Some k))
             (fun e => match e with
              | ValueError => if ignore then retP None else raiseP ValueError
              | e => raiseP e end)
         else retP (Some (g_stop g))) in
      match stop with
      | None => retP None
      | Some st => doP l := range_p s2 st (g_step g) in retP (Some l)
      end
  end.
Definition reader_range_p (g : rgargs) : prog rval :=
  doP ignore := loadP (fun r => dflt (g_ignore g) (rk_ignore r)) in
  doP o := with_lockP (range_body_p g ignore) in
  match o with
  | None => retP VNone
  | Some l =>
      if g_peek g then retP (VList l)
      else
        tryP (doP x := PRet (last_of l) in doP _ := set_last_item_p x in retP (VList l))
          (fun e => match e with
           | IndexError => if ignore then retP VNone else raiseP IndexError
           | e => raiseP e end)
  end.
(** [tail] (buffer_reader.py:299-332). *)
Definition tail_body_p (ignore only_new : bool) : prog (option pyval) :=
  if only_new then
    tryP (doP k := loadP r_last_key in doP x := find_last_gt_p k in retP (Some x))
      (fun e => match e with
       | ValueError => if ignore then retP None else raiseP ValueError
       | TypeError => doP li := loadP r_last_item in
                      if is_none li
                      then doP x := lookP (fun d => sd_getitem d (-1)) in retP (Some x)
                      else raiseP TypeError
       | e => raiseP e end)
  else
    tryP (doP x := lookP (fun d => sd_getitem d (-1)) in retP (Some x))
      (fun e => match e with
       | IndexError => if ignore then retP None else raiseP IndexError
       | e => raiseP e end).
Definition tail_p (peek ignore only_new : bool) : prog rval :=
  doP o := with_lockP (tail_body_p ignore only_new) in
  match o with
  | None => retP VNone
  | Some x => doP _ := move_cursor_p peek x in retP (VItem x)
  end.
(** [head] (buffer_reader.py:334-339). *)
Definition head_p (peek : bool) : prog rval :=
  doP x := with_lockP (lookP (fun d => sd_getitem d 0)) in
  doP _ := move_cursor_p peek x in retP (VItem x).

Definition call_p (c : call) : prog rval :=
  match c with
  | CRead a => read_p a
  | CNext s => next_p s
  | CRange g => reader_range_p g
  | CTail p i o => tail_p p i o
  | CHead p => head_p p
  end.

(** ** Threads *)
(** What a thread is doing: nothing; a call on reader [r], with [p] left to do; an append or
    drop, with its outcome once its body has ended. *)
Inductive phase :=
| PhIdle | PhCall (r : nat) (c : call) (p : prog rval) | PhWrite (o : lop) (out : option (res unit)).
Record lth := MkLth { h_ph : phase; h_todo : list lop }.
(** What a client sees: thread [i] makes a call, thread [i]'s call returns. *)
Inductive hev := HInv (i : nat) (o : lop) | HRes (i : nat) (o : lop) (v : lout).
(** The lock and the deques ([RWLockM], whose thread [i] is the same thread), the readers,
    the threads, what happened. *)
Record lstate := MkLs { ls_lock : RWLockM.state sdeque; ls_rds : list breader; ls_ths : list lth; ls_tr : list hev }.

(** The body of [_SourceBuffer.append] / [drop] (stream_buffer.py:60-66). *)
Definition write_body (o : lop) : wbody sdeque :=
  match o with LAppend x => append_body x | BufferSysM.LDrop n => drop_body n | _ => [] end.
(** The exception of the mutation that fails on [d]: [append]'s check (sorted_deque.py:99-107),
    or [del] on an empty deque (151-152). *)
Definition write_exn (o : lop) (d : sdeque) : exn :=
  match o with
  | LAppend x => match snd (sd_append d x) with Raise e => e | Ok _ => RuntimeError end
  | _ => IndexError
  end.
(** The outcome of a writer body, known when the thread is about to leave the section. *)
Definition write_outcome (o : lop) (t : RWLockM.thread sdeque) (d : sdeque) (out : option (res unit)) : option (res unit) :=
  match t_pc t with
  | WIn [] => Some (Ok tt)
  | WIn (f :: _) => match f d with None => Some (Raise (write_exn o d)) | Some _ => out end
  | _ => out
  end.

(** The thread is in code of the lock or in a writer section, or has just asked for it. *)
Definition in_lock (t : RWLockM.thread sdeque) : bool :=
  match t_pc t, t_todo t with Idle, [] => false | RIn, [] => false | _, _ => true end.
Definition ask (s : lstate) (i : nat) (q : list (sop sdeque)) : RWLockM.state sdeque :=
  match nth_error (st_ths (ls_lock s)) i with
  | Some t => MkSt (st_sh (ls_lock s)) (set_nth (st_ths (ls_lock s)) i (MkT (t_pc t) (t_nest t) (t_cur t) q))
  | None => ls_lock s
  end.
Definition the_buf (s : lstate) : sdeque := l_data (st_sh (ls_lock s)).
Definition go (s : lstate) (i : nat) (h : lth) : list lth := set_nth (ls_ths s) i h.

(** One step of thread [i]. *)
Definition lstep (s : lstate) (i : nat) : option lstate :=
  match nth_error (st_ths (ls_lock s)) i, nth_error (ls_ths s) i with
  | Some t, Some h =>
      if in_lock t then
        match RWLockM.step (ls_lock s) i with
        | None => None
        | Some k => Some (MkLs k (ls_rds s)
                            (match h_ph h with
                             | PhWrite o out => go s i (MkLth (PhWrite o (write_outcome o t (the_buf s) out)) (h_todo h))
                             | _ => ls_ths s
                             end) (ls_tr s))
        end
      else
        match h_ph h with
        | PhIdle =>
            match h_todo h with
            | [] => None
            | LMk _ _ _ _ :: _ => None
            | LCall r c :: q =>
                if Nat.ltb r (length (ls_rds s))
                then Some (MkLs (ls_lock s) (ls_rds s) (go s i (MkLth (PhCall r c (call_p c)) q)) (ls_tr s ++ [HInv i (LCall r c)]))
                else None
            | o :: q => Some (MkLs (ask s i [SWrite (write_body o)]) (ls_rds s) (go s i (MkLth (PhWrite o None) q)) (ls_tr s ++ [HInv i o]))
            end
        | PhCall r c p =>
            let cont k := go s i (MkLth (PhCall r c k) (h_todo h)) in
            match p with
            | PRet v => Some (MkLs (ls_lock s) (ls_rds s) (go s i (MkLth PhIdle (h_todo h))) (ls_tr s ++ [HRes i (LCall r c) (OVal v)]))
            | PEnter k => Some (MkLs (ask s i [SAcq]) (ls_rds s) (cont k) (ls_tr s))
            | PLeave k => Some (MkLs (ask s i [SRel]) (ls_rds s) (cont k) (ls_tr s))
            | PLook k => Some (MkLs (ls_lock s) (ls_rds s) (cont (k (the_buf s))) (ls_tr s))
            | PGet k => match nth_error (ls_rds s) r with
                        | Some b => Some (MkLs (ls_lock s) (ls_rds s) (cont (k b)) (ls_tr s))
                        | None => None
                        end
            | PSet f k => match nth_error (ls_rds s) r with
                          | Some b => Some (MkLs (ls_lock s) (set_nth (ls_rds s) r (f b)) (cont k) (ls_tr s))
                          | None => None
                          end
            end
        | PhWrite o (Some v) => Some (MkLs (ls_lock s) (ls_rds s) (go s i (MkLth PhIdle (h_todo h))) (ls_tr s ++ [HRes i o (OUnit v)]))
        | PhWrite o None => None
        end
  | _, _ => None
  end.
Fixpoint lrun (s : lstate) (sched : list nat) : option lstate :=
  match sched with
  | [] => Some s
  | i :: q => match lstep s i with Some s' => lrun s' q | None => None end
  end.
(** A buffer [d] with readers [rds]; thread [i] is to make the calls of the [i]th script. *)
Definition linit (d : sdeque) (rds : list breader) (scripts : list (list lop)) : lstate :=
  MkLs (RWLockM.init d (map (fun _ => []) scripts)) rds (map (MkLth PhIdle) scripts) [].
