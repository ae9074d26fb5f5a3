(** * The lock with interrupts (/repo/stream2py/utility/reader_writer_lock.py:41-79,
      locked_sorted_deque.py:40-54)

    As RWLockM, plus exceptions that arrive inside the code of the lock itself: a
    KeyboardInterrupt in the main thread, also while it waits in [lock.acquire()]. Both
    context managers have the acquisition inside the [try], so the [finally] clause releases
    what may not have been acquired. The counters are Python ints, here [Z]: they can become
    negative.

    Simplifications: no protected data; what a thread does next (enter a section, leave it) is
    chosen by the schedule, so leaving a section covers a body that returns and one that
    raises. A thread that was interrupted may go on (its caller may catch the exception). *)
From Coq Require Import List ZArith Bool Arith.
From Verif Require Import BufferSysM.
Import ListNotations.
Local Open Scope Z_scope.

(** As [RWLockM.pc]. *)
Inductive ipc :=
| KIdle
| KRQueue | KRNoReaders | KRMutex | KRLoad | KRStore (c : Z) | KRTest | KRNoWriters | KRMutexRel | KRNoReadersRel | KRQueueRel
| KRIn
| KXMutex | KXLoad | KXStore (c : Z) | KXTest | KXNoWritersRel | KXMutexRel
| KWMutex | KWLoad | KWStore (c : Z) | KWTest | KWNoReaders | KWMutexRel | KWNoWriters
| KWIn
| KVNoWritersRel | KVMutex | KVLoad | KVStore (c : Z) | KVTest | KVNoReadersRel | KVMutexRel.
Record ithread := MkIT { i_pc : ipc; i_nest : nat }.
Record ishared := MkIS {
  k_queue : bool; k_noread : bool; k_nowrite : bool; k_rmutex : bool; k_wmutex : bool; k_read : Z; k_write : Z }.

(** Where an exception takes the thread: from an acquisition to the [finally] clause of the
    context manager (locked_sorted_deque.py:45-46, 53-54), from a release out of the section. *)
Definition outside (t : ithread) : ipc := match i_nest t with O => KIdle | S _ => KRIn end.
Definition thrown (t : ithread) : ithread :=
  MkIT match i_pc t with
       | KIdle => KIdle
       | KRIn => KRIn
       | KRQueue | KRNoReaders | KRMutex | KRLoad | KRStore _ | KRTest | KRNoWriters | KRMutexRel | KRNoReadersRel | KRQueueRel => KXMutex
       | KWMutex | KWLoad | KWStore _ | KWTest | KWNoReaders | KWMutexRel | KWNoWriters | KWIn => KVNoWritersRel
       | KXMutex | KXLoad | KXStore _ | KXTest | KXNoWritersRel | KXMutexRel => outside t
       | KVNoWritersRel | KVMutex | KVLoad | KVStore _ | KVTest | KVNoReadersRel | KVMutexRel => outside t
       end (i_nest t).

(** [lock.acquire()] blocks while held; [lock.release()] of a lock that is not held raises
    RuntimeError. *)
Definition iacquire (held : bool) (h' : ishared) (t' : ithread) : option (ishared * ithread) :=
  if held then None else Some (h', t').
Definition irelease (held : bool) (h h' : ishared) (t t' : ithread) : option (ishared * ithread) :=
  Some (if held then (h', t') else (h, thrown t)).
Definition goto (t : ithread) (p : ipc) : ithread := MkIT p (i_nest t).

Definition k_set_queue h b := MkIS b (k_noread h) (k_nowrite h) (k_rmutex h) (k_wmutex h) (k_read h) (k_write h).
Definition k_set_noread h b := MkIS (k_queue h) b (k_nowrite h) (k_rmutex h) (k_wmutex h) (k_read h) (k_write h).
Definition k_set_nowrite h b := MkIS (k_queue h) (k_noread h) b (k_rmutex h) (k_wmutex h) (k_read h) (k_write h).
Definition k_set_rmutex h b := MkIS (k_queue h) (k_noread h) (k_nowrite h) b (k_wmutex h) (k_read h) (k_write h).
Definition k_set_wmutex h b := MkIS (k_queue h) (k_noread h) (k_nowrite h) (k_rmutex h) b (k_read h) (k_write h).
Definition k_set_read h n := MkIS (k_queue h) (k_noread h) (k_nowrite h) (k_rmutex h) (k_wmutex h) n (k_write h).
Definition k_set_write h n := MkIS (k_queue h) (k_noread h) (k_nowrite h) (k_rmutex h) (k_wmutex h) (k_read h) n.

(** What a thread is made to do: enter or leave a reader section, enter or leave a writer
    section, take the next step inside the lock's code, be interrupted. *)
Inductive iact := AReadIn | AReadOut | AWriteIn | AWriteOut | AGo | AInterrupt.

(** The next step inside the lock's code (reader_writer_lock.py:41-57, 67-79). *)
Definition igo (h : ishared) (t : ithread) : option (ishared * ithread) :=
  match i_pc t with
  | KIdle | KRIn | KWIn => None
  | KRQueue => iacquire (k_queue h) (k_set_queue h true) (goto t KRNoReaders)
  | KRNoReaders => iacquire (k_noread h) (k_set_noread h true) (goto t KRMutex)
  | KRMutex => iacquire (k_rmutex h) (k_set_rmutex h true) (goto t KRLoad)
  | KRLoad => Some (h, goto t (KRStore (k_read h)))
  | KRStore c => Some (k_set_read h (c + 1), goto t KRTest)
  | KRTest => Some (h, goto t (if k_read h =? 1 then KRNoWriters else KRMutexRel))
  | KRNoWriters => iacquire (k_nowrite h) (k_set_nowrite h true) (goto t KRMutexRel)
  | KRMutexRel => irelease (k_rmutex h) h (k_set_rmutex h false) t (goto t KRNoReadersRel)
  | KRNoReadersRel => irelease (k_noread h) h (k_set_noread h false) t (goto t KRQueueRel)
  | KRQueueRel => irelease (k_queue h) h (k_set_queue h false) t (MkIT KRIn (S (i_nest t)))
  | KXMutex => iacquire (k_rmutex h) (k_set_rmutex h true) (goto t KXLoad)
  | KXLoad => Some (h, goto t (KXStore (k_read h)))
  | KXStore c => Some (k_set_read h (c - 1), goto t KXTest)
  | KXTest => Some (h, goto t (if k_read h =? 0 then KXNoWritersRel else KXMutexRel))
  | KXNoWritersRel => irelease (k_nowrite h) h (k_set_nowrite h false) t (goto t KXMutexRel)
  | KXMutexRel => irelease (k_rmutex h) h (k_set_rmutex h false) t (goto t (outside t))
  | KWMutex => iacquire (k_wmutex h) (k_set_wmutex h true) (goto t KWLoad)
  | KWLoad => Some (h, goto t (KWStore (k_write h)))
  | KWStore c => Some (k_set_write h (c + 1), goto t KWTest)
  | KWTest => Some (h, goto t (if k_write h =? 1 then KWNoReaders else KWMutexRel))
  | KWNoReaders => iacquire (k_noread h) (k_set_noread h true) (goto t KWMutexRel)
  | KWMutexRel => irelease (k_wmutex h) h (k_set_wmutex h false) t (goto t KWNoWriters)
  | KWNoWriters => iacquire (k_nowrite h) (k_set_nowrite h true) (goto t KWIn)
  | KVNoWritersRel => irelease (k_nowrite h) h (k_set_nowrite h false) t (goto t KVMutex)
  | KVMutex => iacquire (k_wmutex h) (k_set_wmutex h true) (goto t KVLoad)
  | KVLoad => Some (h, goto t (KVStore (k_write h)))
  | KVStore c => Some (k_set_write h (c - 1), goto t KVTest)
  | KVTest => Some (h, goto t (if k_write h =? 0 then KVNoReadersRel else KVMutexRel))
  | KVNoReadersRel => irelease (k_noread h) h (k_set_noread h false) t (goto t KVMutexRel)
  | KVMutexRel => irelease (k_wmutex h) h (k_set_wmutex h false) t (goto t (outside t))
  end.
Definition itstep (h : ishared) (t : ithread) (a : iact) : option (ishared * ithread) :=
  match a with
  | AReadIn => match i_pc t with KIdle | KRIn => Some (h, goto t KRQueue) | _ => None end
  | AReadOut => match i_pc t with KRIn => Some (h, MkIT KXMutex (i_nest t - 1)) | _ => None end
  | AWriteIn => match i_pc t with KIdle => Some (h, goto t KWMutex) | _ => None end
  | AWriteOut => match i_pc t with KWIn => Some (h, goto t KVNoWritersRel) | _ => None end
  | AGo => igo h t
  | AInterrupt => Some (h, thrown t)
  end.
Record istate := MkI { i_sh : ishared; i_ths : list ithread }.
Definition istep (s : istate) (l : nat * iact) : option istate :=
  match nth_error (i_ths s) (fst l) with
  | None => None
  | Some t => match itstep (i_sh s) t (snd l) with
              | None => None
              | Some (h, t') => Some (MkI h (set_nth (i_ths s) (fst l) t'))
              end
  end.
Fixpoint irun (s : istate) (sched : list (nat * iact)) : option istate :=
  match sched with
  | [] => Some s
  | l :: q => match istep s l with Some s' => irun s' q | None => None end
  end.
(** A new lock (32-39, 62-65) and [n] threads. *)
Definition iinit (n : nat) : istate :=
  MkI (MkIS false false false false false 0 0) (repeat (MkIT KIdle 0) n).
