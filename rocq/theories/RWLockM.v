(** * The reader/writer lock (reader_writer_lock.py) and the sections run under it
    (locked_sorted_deque.py:40-54), with any number of threads.

    Every operation on a threading.Lock, every load and store of a switch counter and every
    mutation of the protected data is one step; a schedule is any list of thread numbers. *)
From Coq Require Import List ZArith Bool Arith.
From Verif Require Import PyVal PyLib SortedDequeM BufferSysM.
Import ListNotations.

Section RWLock.
Variable D : Type.

(** The body of a [with writer_lock()] block: a list of single mutations; [None] = the body
    raises (the context manager's [finally] then releases the lock,
    locked_sorted_deque.py:48-54). *)
Definition wbody := list (D -> option D).
(** What a thread does next: enter a [with reader_lock()] block, leave the innermost one,
    or run a whole [with writer_lock()] block. *)
Inductive sop := SAcq | SRel | SWrite (w : wbody).

(** Program counters. The name says what the thread is about to do. *)
Inductive pc :=
| Idle                          (* in no section *)
(* reader_acquire (reader_writer_lock.py:41-46) with _LightSwitch.acquire (67-72) inlined *)
| RQueue                        (* readers_queue.acquire() *)
| RNoReaders                    (* no_readers.acquire() *)
| RMutex                        (* read_switch.mutex.acquire() *)
| RLoad | RStore (c : nat)      (* counter += 1 *)
| RTest                         (* if counter == 1 *)
| RNoWriters                    (* no_writers.acquire() *)
| RMutexRel | RNoReadersRel | RQueueRel
| RIn                           (* inside reader_lock() *)
(* reader_release (48-49) with _LightSwitch.release (74-79) inlined *)
| XMutex | XLoad | XStore (c : nat) | XTest | XNoWritersRel | XMutexRel
(* writer_acquire (51-53) *)
| WMutex | WLoad | WStore (c : nat) | WTest | WNoReaders | WMutexRel | WNoWriters
| WIn (rest : wbody)            (* inside writer_lock(), [rest] still to be executed *)
(* writer_release (55-57) *)
| VNoWritersRel | VMutex | VLoad | VStore (c : nat) | VTest | VNoReadersRel | VMutexRel.

(** [t_nest]: the number of reader sections the thread is inside; [t_cur]: the body of its
    current writer section. *)
Record thread := MkT { t_pc : pc; t_nest : nat; t_cur : wbody; t_todo : list sop }.

(** The three locks of RWLock.__init__ (32-39), the two _LightSwitch objects (62-65), the
    protected data, and (ghost) the writer bodies completed so far. *)
Record shared := MkS {
  l_queue : bool; l_noread : bool; l_nowrite : bool;
  l_rmutex : bool; l_wmutex : bool; n_read : nat; n_write : nat;
  l_data : D; l_done : list wbody
}.

Definition at_pc (t : thread) (p : pc) : thread := MkT p (t_nest t) (t_cur t) (t_todo t).
Definition set_queue h b := MkS b (l_noread h) (l_nowrite h) (l_rmutex h) (l_wmutex h) (n_read h) (n_write h) (l_data h) (l_done h).
Definition set_noread h b := MkS (l_queue h) b (l_nowrite h) (l_rmutex h) (l_wmutex h) (n_read h) (n_write h) (l_data h) (l_done h).
Definition set_nowrite h b := MkS (l_queue h) (l_noread h) b (l_rmutex h) (l_wmutex h) (n_read h) (n_write h) (l_data h) (l_done h).
Definition set_rmutex h b := MkS (l_queue h) (l_noread h) (l_nowrite h) b (l_wmutex h) (n_read h) (n_write h) (l_data h) (l_done h).
Definition set_wmutex h b := MkS (l_queue h) (l_noread h) (l_nowrite h) (l_rmutex h) b (n_read h) (n_write h) (l_data h) (l_done h).
Definition set_nread h n := MkS (l_queue h) (l_noread h) (l_nowrite h) (l_rmutex h) (l_wmutex h) n (n_write h) (l_data h) (l_done h).
Definition set_nwrite h n := MkS (l_queue h) (l_noread h) (l_nowrite h) (l_rmutex h) (l_wmutex h) (n_read h) n (l_data h) (l_done h).
Definition set_data h d := MkS (l_queue h) (l_noread h) (l_nowrite h) (l_rmutex h) (l_wmutex h) (n_read h) (n_write h) d (l_done h).
Definition set_done h w := MkS (l_queue h) (l_noread h) (l_nowrite h) (l_rmutex h) (l_wmutex h) (n_read h) (n_write h) (l_data h) (l_done h ++ [w]).

(** [lock.acquire()] blocks while the lock is held; [lock.release()] on a lock that is not
    held would raise RuntimeError, here: no step (so that deadlock freedom rules it out). *)
Definition acquire (held : bool) (h' : shared) (t' : thread) : option (shared * thread) :=
  if held then None else Some (h', t').
Definition release (held : bool) (h' : shared) (t' : thread) : option (shared * thread) :=
  if held then Some (h', t') else None.

(** One step of a thread; [None]: it is blocked or has nothing (legal) to do. *)
Definition tstep (h : shared) (t : thread) : option (shared * thread) :=
  match t_pc t with
  | Idle =>
      match t_todo t with
      | SAcq :: q => Some (h, MkT RQueue (t_nest t) (t_cur t) q)
      | SWrite w :: q => Some (h, MkT WMutex (t_nest t) w q)
      | _ => None
      end
  | RIn =>
      match t_todo t with
      | SAcq :: q => Some (h, MkT RQueue (t_nest t) (t_cur t) q)
      | SRel :: q => Some (h, MkT XMutex (t_nest t - 1) (t_cur t) q)
      | _ => None
      end
  | RQueue => acquire (l_queue h) (set_queue h true) (at_pc t RNoReaders)
  | RNoReaders => acquire (l_noread h) (set_noread h true) (at_pc t RMutex)
  | RMutex => acquire (l_rmutex h) (set_rmutex h true) (at_pc t RLoad)
  | RLoad => Some (h, at_pc t (RStore (n_read h)))
  | RStore c => Some (set_nread h (c + 1), at_pc t RTest)
  | RTest => Some (h, at_pc t (if Nat.eqb (n_read h) 1 then RNoWriters else RMutexRel))
  | RNoWriters => acquire (l_nowrite h) (set_nowrite h true) (at_pc t RMutexRel)
  | RMutexRel => release (l_rmutex h) (set_rmutex h false) (at_pc t RNoReadersRel)
  | RNoReadersRel => release (l_noread h) (set_noread h false) (at_pc t RQueueRel)
  | RQueueRel => release (l_queue h) (set_queue h false) (MkT RIn (S (t_nest t)) (t_cur t) (t_todo t))
  | XMutex => acquire (l_rmutex h) (set_rmutex h true) (at_pc t XLoad)
  | XLoad => Some (h, at_pc t (XStore (n_read h)))
  | XStore c => Some (set_nread h (c - 1), at_pc t XTest)
  | XTest => Some (h, at_pc t (if Nat.eqb (n_read h) 0 then XNoWritersRel else XMutexRel))
  | XNoWritersRel => release (l_nowrite h) (set_nowrite h false) (at_pc t XMutexRel)
  | XMutexRel => release (l_rmutex h) (set_rmutex h false)
                   (at_pc t (match t_nest t with O => Idle | _ => RIn end))
  | WMutex => acquire (l_wmutex h) (set_wmutex h true) (at_pc t WLoad)
  | WLoad => Some (h, at_pc t (WStore (n_write h)))
  | WStore c => Some (set_nwrite h (c + 1), at_pc t WTest)
  | WTest => Some (h, at_pc t (if Nat.eqb (n_write h) 1 then WNoReaders else WMutexRel))
  | WNoReaders => acquire (l_noread h) (set_noread h true) (at_pc t WMutexRel)
  | WMutexRel => release (l_wmutex h) (set_wmutex h false) (at_pc t WNoWriters)
  | WNoWriters => acquire (l_nowrite h) (set_nowrite h true) (at_pc t (WIn (t_cur t)))
  | WIn [] => Some (set_done h (t_cur t), at_pc t VNoWritersRel)
  | WIn (f :: rest) =>
      match f (l_data h) with
      | Some d => Some (set_data h d, at_pc t (WIn rest))
      | None => Some (set_done h (t_cur t), at_pc t VNoWritersRel)
      end
  | VNoWritersRel => release (l_nowrite h) (set_nowrite h false) (at_pc t VMutex)
  | VMutex => acquire (l_wmutex h) (set_wmutex h true) (at_pc t VLoad)
  | VLoad => Some (h, at_pc t (VStore (n_write h)))
  | VStore c => Some (set_nwrite h (c - 1), at_pc t VTest)
  | VTest => Some (h, at_pc t (if Nat.eqb (n_write h) 0 then VNoReadersRel else VMutexRel))
  | VNoReadersRel => release (l_noread h) (set_noread h false) (at_pc t VMutexRel)
  | VMutexRel => release (l_wmutex h) (set_wmutex h false) (at_pc t Idle)
  end.

Record state := MkSt { st_sh : shared; st_ths : list thread }.
(** Thread [i] takes a step. *)
Definition step (s : state) (i : nat) : option state :=
  match nth_error (st_ths s) i with
  | None => None
  | Some t => match tstep (st_sh s) t with
              | None => None
              | Some (h, t') => Some (MkSt h (set_nth (st_ths s) i t'))
              end
  end.
Fixpoint run (s : state) (sched : list nat) : option state :=
  match sched with
  | [] => Some s
  | i :: q => match step s i with Some s' => run s' q | None => None end
  end.
(** A new lock ([__init__], 32-39, 62-65) protecting [d], with threads that are to run the
    given scripts. *)
Definition init (d : D) (scripts : list (list sop)) : state :=
  MkSt (MkS false false false false false 0 0 d []) (map (MkT Idle 0 []) scripts).
End RWLock.

Arguments SAcq {D}. Arguments SRel {D}. Arguments SWrite {D}.
Arguments Idle {D}. Arguments RQueue {D}. Arguments RNoReaders {D}. Arguments RMutex {D}. Arguments RLoad {D}.
Arguments RStore {D}. Arguments RTest {D}. Arguments RNoWriters {D}. Arguments RMutexRel {D}. Arguments RNoReadersRel {D}.
Arguments RQueueRel {D}. Arguments RIn {D}. Arguments XMutex {D}. Arguments XLoad {D}. Arguments XStore {D}.
Arguments XTest {D}. Arguments XNoWritersRel {D}. Arguments XMutexRel {D}. Arguments WMutex {D}. Arguments WLoad {D}.
Arguments WStore {D}. Arguments WTest {D}. Arguments WNoReaders {D}. Arguments WMutexRel {D}. Arguments WNoWriters {D}.
Arguments WIn {D}. Arguments VNoWritersRel {D}. Arguments VMutex {D}. Arguments VLoad {D}. Arguments VStore {D}.
Arguments VTest {D}. Arguments VNoReadersRel {D}. Arguments VMutexRel {D}.
Arguments MkT {D}. Arguments t_pc {D}. Arguments t_nest {D}. Arguments t_cur {D}. Arguments t_todo {D}.
Arguments MkS {D}. Arguments l_queue {D}. Arguments l_noread {D}. Arguments l_nowrite {D}. Arguments l_rmutex {D}.
Arguments l_wmutex {D}. Arguments n_read {D}. Arguments n_write {D}. Arguments l_data {D}. Arguments l_done {D}.
Arguments at_pc {D}. Arguments tstep {D}. Arguments MkSt {D}. Arguments st_sh {D}. Arguments st_ths {D}.
Arguments step {D}. Arguments run {D}. Arguments init {D}.

(** ** The bodies of [_SourceBuffer.append] / [drop] (stream_buffer.py:60-66) as single
    mutations of the two deques. *)
Definition sd_check (x : pyval) (d : sdeque) : option sdeque :=
  (* sorted_deque.py:99-107: compute the key, compare with the last key *)
  match snd (sd_append d x) with Ok _ => Some d | Raise _ => None end.
Definition sd_push_key (x : pyval) (d : sdeque) : option sdeque :=
  (* sorted_deque.py:108: self._keys.append(k) *)
  match sd_key d x with
  | Ok k => Some (MkSD (deque_append (sd_bound d) (sd_keys d) k) (sd_items d) (sd_key d) (sd_bound d) (sd_maxlen d))
  | Raise _ => None
  end.
Definition sd_push_item (x : pyval) (d : sdeque) : option sdeque :=
  (* sorted_deque.py:109: self._items.append(item) *)
  Some (MkSD (sd_keys d) (deque_append (sd_bound d) (sd_items d) x) (sd_key d) (sd_bound d) (sd_maxlen d)).
Definition append_body (x : pyval) : wbody sdeque := [sd_check x; sd_push_key x; sd_push_item x].
(** [for _ in range(n): del self._keys[0]; del self._items[0]] (sorted_deque.py:150-152). *)
Definition del_key0 (d : sdeque) : option sdeque :=
  match sd_keys d with
  | [] => None
  | _ :: ks => Some (MkSD ks (sd_items d) (sd_key d) (sd_bound d) (sd_maxlen d))
  end.
Definition del_item0 (d : sdeque) : option sdeque :=
  match sd_items d with
  | [] => None
  | _ :: l => Some (MkSD (sd_keys d) l (sd_key d) (sd_bound d) (sd_maxlen d))
  end.
Definition drop_body (n : Z) : wbody sdeque := flat_map (fun _ => [del_key0; del_item0]) (repeat tt (Z.to_nat n)).
