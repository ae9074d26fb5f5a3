(** * An exception that hits a start() call  (/repo/stream2py/stream_buffer.py:177-184)

    start() runs lines 180-184 under [start_lock]. An exception can reach it at any of its
    points: KeyboardInterrupt in the main thread, MemoryError, or the RuntimeError of
    [Thread.start()] (184) when no more threads can be had. The [with] block releases the
    lock and nothing else is undone.

    Simplification: the exception falls between two steps of [StreamBufferM.start_step].
    An exception in the other calls needs no model of its own: stop() hit while it sleeps
    (189), next(stream_buffer) hit between 162 and 163, and drop() hit before it has the lock
    of the buffer leave the step that follows undone, and a schedule of [StreamBufferM] may
    leave it undone too. *)
From Coq Require Import List ZArith Bool Arith.
From Verif Require Import PyVal StreamBufferM.
Import ListNotations.

(** [FStep l]: a step of [StreamBufferM]; [FHit]: the start() call under way is hit. *)
Inductive flabel := FStep (l : label) | FHit.
Definition f_step (c : cfg) (s : sb) (l : flabel) : option sb :=
  match l with
  | FStep l => sb_step c s l
  | FHit => match sb_start s with SFree => None | _ => Some (set_start s SFree) end
  end.
Fixpoint f_run (c : cfg) (s : sb) (ls : list flabel) : option sb :=
  match ls with
  | [] => Some s
  | l :: q => match f_step c s l with Some s' => f_run c s' q | None => None end
  end.
