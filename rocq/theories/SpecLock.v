(** * Specification vocabulary for the reader/writer lock *)
From Coq Require Import List ZArith Bool Arith.
From Verif Require Import PyVal PyLib SortedDequeM SpecDeque BufferReaderM BufferSysM RWLockM.
Import ListNotations.

Section Spec.
Context {D : Type}.

(** States reached by some schedule from a new lock. *)
Definition reached (d : D) (scripts : list (list (sop D))) (s : state D) : Prop :=
  exists sched, run (init d scripts) sched = Some s.
Definition thread_at (s : state D) (i : nat) (t : thread D) : Prop := nth_error (st_ths s) i = Some t.

(** Inside a [with reader_lock()] / [with writer_lock()] block. *)
Definition inside_reader (t : thread D) : Prop := 0 < t_nest t.
Definition inside_writer (t : thread D) : Prop := exists rest, t_pc t = WIn rest.

(** In reader_acquire; in reader_acquire or reader_release; in writer_acquire,
    writer_lock() or writer_release. *)
Definition in_reader_acquire (p : pc D) : bool :=
  match p with RQueue | RNoReaders | RMutex | RLoad | RStore _ | RTest | RNoWriters | RMutexRel | RNoReadersRel | RQueueRel => true | _ => false end.
Definition in_reader_code (p : pc D) : bool :=
  in_reader_acquire p || match p with XMutex | XLoad | XStore _ | XTest | XNoWritersRel | XMutexRel => true | _ => false end.
Definition is_writer (p : pc D) : bool :=
  match p with Idle | RIn => false | p => negb (in_reader_code p) end.

(** The effect of a whole writer body: its mutations in order, up to the first that raises. *)
Fixpoint exec (w : wbody D) (d : D) : D :=
  match w with
  | [] => d
  | f :: w' => match f d with Some d' => exec w' d' | None => d end
  end.
Definition exec_all (ws : list (wbody D)) (d : D) : D := fold_left (fun d w => exec w d) ws d.

(** Scripts without nesting: a section is left before the next one is asked for. *)
Fixpoint flat (q : list (sop D)) : bool :=
  match q with
  | [] => true
  | SAcq :: SRel :: q' => flat q'
  | SWrite _ :: q' => flat q'
  | _ => false
  end.
(** The thread has nothing left to do. *)
Definition finished (t : thread D) : Prop := t_pc t = Idle /\ t_todo t = [].

(** A writer that has announced itself: it is past the write switch and has not begun to
    switch it off. *)
Definition announced (s : state D) : Prop :=
  exists i t, thread_at s i t /\
    match t_pc t with WNoWriters | WIn _ | VNoWritersRel | VMutex => True | _ => False end.
(** Reader sections the thread is inside of, or has been granted (all that remains of
    reader_acquire is to release the queue lock). *)
Definition granted (t : thread D) : nat := t_nest t + match t_pc t with RQueueRel => 1 | _ => 0 end.

(** Reached by steps of threads inside reader_acquire or reader_release only. *)
Inductive by_reader_code : state D -> state D -> Prop :=
| brc_refl : forall s, by_reader_code s s
| brc_step : forall s j t m s', thread_at s j t -> in_reader_code (t_pc t) = true ->
    step s j = Some m -> by_reader_code m s' -> by_reader_code s s'.
End Spec.

(** The script of a call's lock events. *)
Definition sop_of {D} (e : lockev) : sop D := match e with Acq => SAcq | Rel => SRel end.
Definition script_of {D} (t : list lockev) : list (sop D) := map sop_of t.

(** In the lock's own code or in a writer section. *)
Definition in_lock_code {D} (p : pc D) : bool := in_reader_code p || is_writer p.

(** The writer bodies of the buffer API: [_SourceBuffer.append] and [drop]
    (stream_buffer.py:60-66). *)
Definition body_of (o : sdop) : wbody sdeque :=
  match o with OAppend x => append_body x | ODrop n => drop_body n | _ => [] end.
Definition api_sop (o : sop sdeque) : Prop :=
  match o with SWrite w => exists o, is_append_or_drop o /\ w = body_of o | _ => True end.

(** What a thread does with the buffer: a write of the source thread, or a BufferReader call
    [c] made by reader [r] while the buffer is [d]. *)
Inductive use := UWrite (o : sdop) | UCall (d : sdeque) (r : breader) (c : call).
Definition use_script (u : use) : list (sop sdeque) :=
  match u with UWrite o => [SWrite (body_of o)] | UCall d r c => script_of (events (do_call d c) r) end.
(** A range(only_new_items=True) by a reader that has a cursor. *)
Definition is_new_range (u : use) : Prop :=
  match u with UCall _ r (CRange g) => g_only_new g = true /\ r_last_key r <> PNone | _ => False end.
