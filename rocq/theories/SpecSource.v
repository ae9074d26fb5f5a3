(** * Specification vocabulary for StreamSource *)
From Coq Require Import List ZArith Bool Arith.
From Verif Require Import PyVal PyLib SortedDequeM BufferReaderM BufferSysM StreamBufferM SpecStream StreamSourceM.
Import ListNotations.

(** [uses d ops x tr]: a new StreamSource can be used by the operations [ops], ends in state
    [x], and [tr] lists the operations with what their callers saw. *)
Definition uses (d : sdef) (ops : list xop) (x : xsrc) (tr : list (xop * xout)) : Prop := x_run d x0 ops = Some (x, tr).

(** The readers that open_reader() returned; the readers whose close() was called. *)
Definition opened (tr : list (xop * xout)) : list nat :=
  flat_map (fun p => match p with (XOpen _ _ _ _ _, OutReader r _) => [r] | _ => [] end) tr.
Definition closed (tr : list (xop * xout)) : list nat :=
  flat_map (fun p => match p with (XClose r, _) => [r] | _ => [] end) tr.
(** exit() is called only by closing readers. *)
Definition no_exit (tr : list (xop * xout)) : Prop := forall o, ~ In (XExit, o) tr.

(** What happened in the stream: nothing if there is no StreamBuffer yet. *)
Definition stream_events (x : xsrc) : list ev := match x_sb x with Some (_, s) => sb_tr s | None => [] end.
Definition is_stop (e : ev) : bool := match e with EStop _ => true | _ => false end.
Definition stop_calls (x : xsrc) : list ev := filter is_stop (stream_events x).
Definition is_open (e : ev) : bool := match e with EOpen _ _ => true | _ => false end.
(** The stop event of the (only) session is set. *)
Definition is_stopped (x : xsrc) : Prop := match x_sb x with Some (_, s) => ev_set s 0 = true | None => False end.
