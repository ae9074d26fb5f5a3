(** * A reader that is attached to several streams
    (/repo/stream2py/stream_buffer.py:68-78, 192-218, buffer_reader.py:89-134)

    [attach_reader] takes any reader, also one that another StreamBuffer made: it gives it the
    buffer and the stop event of the stream's present session (76-78) and leaves everything
    else. Here any number of streams run, each with its own source, clients, threads and
    readers, and one more reader is made by one of them and attached to any of them, again and
    again. Streams do not notice: no method of a reader changes a buffer or an event.

    Simplifications: as for [call_step] of [StreamBufferM] a call on the reader is one step;
    [for] loops over this reader are not modelled (each round is a [next] for the rest). The
    reader is followed alone: a second one of the kind changes nothing for it. *)
From Coq Require Import List ZArith Bool Arith.
From Verif Require Import PyVal PyLib SortedDequeM BufferReaderM BufferSysM StreamBufferM.
Import ListNotations.

(** The reader: its buffer and its event are those of a session of a stream. *)
Record wreader := MkWr { wr_stream : nat; wr_sess : nat; wr_info : pyval; wr_r : breader }.
(** What its user sees. *)
Inductive wev :=
| WMade (k : nat) (o : res unit)          (* mk_reader of stream [k] *)
| WAttached (k : nat) (o : res unit)      (* attach_reader of stream [k] *)
| WGot (c : call) (o : res rval).
Record world := MkW { w_ss : nat -> sb; w_rd : option wreader; w_tr : list wev }.
Definition world0 : world := MkW (fun _ => sb0) None [].
Definition set_stream (f : nat -> sb) (k : nat) (s : sb) : nat -> sb := fun i => if Nat.eqb i k then s else f i.

Inductive wlabel :=
| WStep (k : nat) (l : label)             (* stream [k] does a step *)
| WMk (k : nat) (n : Z) (p st ig : bool)
| WAttach (k : nat)
| WCall (c : call).
Definition w_step (cs : nat -> cfg) (w : world) (l : wlabel) : option world :=
  match l with
  | WStep k l => option_map (fun s => MkW (set_stream (w_ss w) k s) (w_rd w) (w_tr w)) (sb_step (cs k) (w_ss w k) l)
  | WMk k n p st ig =>
      (* 192-205, 68-74, under start_lock *)
      match w_rd w with
      | Some _ => None
      | None =>
          if lock_free (w_ss w k) then
            match sb_cur (w_ss w k) with
            | None => Some (MkW (w_ss w) None (w_tr w ++ [WMade k (Raise StreamNotStartedError)]))
            | Some j => Some (MkW (w_ss w) (Some (MkWr k j (info_of (w_ss w k) j) (mk_breader n p st ig))) (w_tr w ++ [WMade k (Ok tt)]))
            end
          else None
      end
  | WAttach k =>
      (* 207-218, 76-78, under start_lock *)
      match w_rd w with
      | None => None
      | Some q =>
          if lock_free (w_ss w k) then
            match sb_cur (w_ss w k) with
            | None => Some (MkW (w_ss w) (Some q) (w_tr w ++ [WAttached k (Raise StreamNotStartedError)]))
            | Some j => Some (MkW (w_ss w) (Some (MkWr k j (wr_info q) (wr_r q))) (w_tr w ++ [WAttached k (Ok tt)]))
            end
          else None
      end
  | WCall c =>
      match w_rd w with
      | None => None
      | Some q =>
          match buf_of (w_ss w (wr_stream q)) (wr_sess q) with
          | None => None
          | Some d =>
              let c1 := with_stopped (ev_set (w_ss w (wr_stream q)) (wr_sess q)) c in
              let (br, v) := run (do_call d c1) (wr_r q) in
              Some (MkW (w_ss w) (Some (MkWr (wr_stream q) (wr_sess q) (wr_info q) br)) (w_tr w ++ [WGot c1 v]))
          end
      end
  end.
Fixpoint w_run (cs : nat -> cfg) (w : world) (ls : list wlabel) : option world :=
  match ls with
  | [] => Some w
  | l :: q => match w_step cs w l with Some w' => w_run cs w' q | None => None end
  end.
