(** * Model of [with stream_buffer: body]  (/repo/stream2py/stream_buffer.py:243-250)

    On top of the transition system of StreamBufferM: other threads may do anything while
    start() runs, during the body, and while stop() sleeps. *)
From Coq Require Import List ZArith Bool Arith.
From Verif Require Import PyVal PyLib SortedDequeM BufferReaderM BufferSysM StreamBufferM StreamSourceM.
Import ListNotations.

(** How the with statement ends: start() raised, so the body did not run; or the body ran and
    this is what the statement as a whole does. *)
Inductive wout := NotEntered (e : exn) | Left (r : res unit).

(** [enter]: the schedule from the moment the caller got start_lock to the moment it releases
    it. [start()] holds the lock all the time (178). *)
Fixpoint start_under_lock (c : cfg) (s : sb) (enter : list label) : option sb :=
  match enter with
  | [] => if lock_free s then Some s else None
  | l :: q => if lock_free s then None
              else match sb_step c s l with Some s' => start_under_lock c s' q | None => None end
  end.
(** [__exit__] (247-248): stop() (186-190), during whose sleep [leave] happens. It returns
    None, so the body's exception is not suppressed; an exception of stop() would replace it. *)
Definition leave_with (c : cfg) (s : sb) (leave : list label) (body : res unit) : option (sb * wout) :=
  match sb_step c s LStop with
  | None => None
  | Some s1 =>
      match last (sb_tr s1) (EStop (Ok 0)) with
      | EStop (Raise e) => Some (s1, Left (Raise e))
      | _ => match sb_run c s1 leave with
             | None => None
             | Some s2 => match sb_step c s2 LStopRet with Some s3 => Some (s3, Left body) | None => None end
             end
      end
  end.
(** The statement: [__enter__] (243-245), the body, during which [during] happens and which
    ends with [body], [__exit__]. If [__enter__] raises, [__exit__] is not called. *)
Definition with_stream (c : cfg) (s : sb) (enter during leave : list label) (body : res unit) : option (sb * wout) :=
  match sb_step c s LStart with
  | None => None
  | Some s0 =>
      match start_under_lock c s0 enter with
      | None => None
      | Some s1 =>
          match raised s1 with
          | Some e => Some (s1, NotEntered e)
          | None => match sb_run c s1 during with None => None | Some s2 => leave_with c s2 leave body end
          end
      end
  end.
