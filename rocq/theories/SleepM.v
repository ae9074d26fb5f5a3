(** * The sleep time of a stream  (/repo/stream2py/stream_buffer.py:142-147, 264)

    [__init__] takes any int or float as sleep time, and so any number may reach
    [time.sleep()] (264), which raises for some of them. In [StreamBufferM] each call of
    [time.sleep()] has the outcome that the label gives; here it has the outcome that the
    sleep time of the stream gives, at every call. *)
From Coq Require Import List ZArith QArith Bool Arith.
From Verif Require Import PyVal PyLib SortedDequeM BufferReaderM BufferSysM StreamBufferM.
Import ListNotations.

(** OverflowError. *)
Definition overflow_error : exn := OtherError 75.
(** The longest sleep: 2^63 - 1 nanoseconds. *)
Definition longest : Q := (9223372036854775807 # 1000000000)%Q.
Definition sleep_secs (q : Q) : res unit :=
  if Qle_bool (- longest) q && Qle_bool q longest
  then if Qle_bool 0 q then Ok tt else Raise ValueError
  else Raise overflow_error.
(** [time.sleep(v)] of CPython. Simplified: where the product of a float and 10^9 is rounded, at
    the very end of the range. *)
Definition time_sleep (v : pyval) : res unit :=
  match v with
  | PBool _ => Ok tt
  | PInt z => sleep_secs (inject_Z z)
  | PFloat (FFin q) => sleep_secs q
  | PFloat FNaN => Raise ValueError
  | PFloat _ => Raise overflow_error
  | _ => Raise TypeError
  end.
(** Thread [i] is at line 264. *)
Definition napping (s : sb) (i : nat) : bool :=
  match nth_error (sb_ss s) i with Some e => match se_pc e with TSleep => true | _ => false end | None => false end.
(** A step of a stream whose sleep time is [v]. *)
Definition slept (v : pyval) (s : sb) (l : label) : label :=
  match l with
  | LT i o => if napping s i then LT i (match time_sleep v with Ok _ => Ok PNone | Raise e => Raise e end) else LT i o
  | l => l
  end.
Fixpoint z_run (c : cfg) (v : pyval) (s : sb) (ls : list label) : option sb :=
  match ls with
  | [] => Some s
  | l :: q => match sb_step c s (slept v s l) with Some s' => z_run c v s' q | None => None end
  end.
