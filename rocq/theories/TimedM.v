(** * StreamBuffer with a clock  (/repo/stream2py/stream_buffer.py:186-190, 252-271)

    [StreamBufferM] knows no time: there the second that [stop()] sleeps (189) guarantees
    nothing. Here every step of that model carries the time at which it happens (in any unit),
    - a [stop()] call, also the one inside [start()] (181, 277), goes on only when a second has
      passed since it set the event (188-190);
    - a reading thread never stays at one point of [_run] longer than is allowed for it: a
      bound for one [read()] (257), one sleep (264), one [close()] (269), and one bound for
      every other line, which covers the scheduler and the wait for the lock of the buffer.

    Nothing is assumed about the duration of start(), of open(), or of any call of a client. *)
From Coq Require Import List ZArith Bool Arith.
From Verif Require Import PyVal PyLib SortedDequeM BufferReaderM BufferSysM StreamBufferM.
Import ListNotations.
Open Scope Z_scope.

(** How long things take at most; [t_second] is what [time.sleep(1)] sleeps at least. *)
Record timing := MkTiming { t_second : Z; t_read : Z; t_sleep : Z; t_close : Z; t_line : Z }.
Definition allowed (tm : timing) (p : tpc) : Z :=
  match p with
  | TRead => t_read tm      (* 257 *)
  | TSleep => t_sleep tm    (* 264 *)
  | TClose _ => t_close tm  (* 269 *)
  | _ => t_line tm
  end.

(** The stream and the clock: when each thread got where it stands; when the stop() calls that
    sleep began to; when the one inside start() did; and the last time that the stream was
    running, which is when it was stopped if it is not. *)
Record timed := MkTimed {
  td_sb : sb; td_now : Z; td_since : nat -> Z; td_naps : list Z; td_nap : Z; td_ran : Z
}.
Definition timed0 : timed := MkTimed sb0 0 (fun _ => 0) [] 0 0.

(** At time [t] no thread has been kept too long. *)
Definition thread_in_time (tm : timing) (T : timed) (t : Z) (i : nat) : bool :=
  match nth_error (sb_ss (td_sb T)) i with
  | Some e => match se_pc e with
              | TNew | TDone _ => true
              | p => t <=? td_since T i + allowed tm p
              end
  | None => true
  end.
Definition in_time (tm : timing) (T : timed) (t : Z) : bool :=
  forallb (thread_in_time tm T t) (seq 0 (length (sb_ss (td_sb T)))).

(** 189: a stop() call that is sleeping is not to go on before a second has passed. Calls to
    stop() are taken to wake up in the order in which they began. *)
Definition awake (tm : timing) (T : timed) (t : Z) (l : label) : bool :=
  match l with
  | LStopRet => match td_naps T with t0 :: _ => t0 + t_second tm <=? t | [] => true end
  | LS _ _ => match sb_start (td_sb T) with SStopClear _ => td_nap T + t_second tm <=? t | _ => true end
  | _ => true
  end.

Definition set_since (f : nat -> Z) (i : nat) (t : Z) : nat -> Z := fun k => if Nat.eqb k i then t else f k.
Definition since' (T : timed) (t : Z) (l : label) : nat -> Z :=
  match l with
  | LT i _ => set_since (td_since T) i t
  | LS _ _ => match sb_start (td_sb T) with
              | SSpawn => set_since (td_since T) (latest (td_sb T)) t   (* 184 *)
              | _ => td_since T
              end
  | _ => td_since T
  end.
Definition naps' (T : timed) (t : Z) (l : label) : list Z :=
  match l with
  | LStop => if Nat.eqb (length (sb_ss (td_sb T))) 0 then td_naps T else td_naps T ++ [t]
  | LStopRet => tl (td_naps T)
  | _ => td_naps T
  end.
Definition nap' (T : timed) (t : Z) (l : label) : Z :=
  match l with
  | LS _ _ => match sb_start (td_sb T) with SStopSet _ => t | _ => td_nap T end
  | _ => td_nap T
  end.

(** The step [l] of the stream, at time [t]. *)
Definition td_step (c : cfg) (tm : timing) (T : timed) (t : Z) (l : label) : option timed :=
  if (td_now T <=? t) && in_time tm T t && awake tm T t l then
    match sb_step c (td_sb T) l with
    | Some s' => Some (MkTimed s' t (since' T t l) (naps' T t l) (nap' T t l)
                         (if running (td_sb T) then t else td_ran T))
    | None => None
    end
  else None.
Fixpoint td_run (c : cfg) (tm : timing) (T : timed) (tls : list (Z * label)) : option timed :=
  match tls with
  | [] => Some T
  | (t, l) :: q => match td_step c tm T t l with Some T' => td_run c tm T' q | None => None end
  end.
