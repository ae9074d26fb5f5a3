(** * A stream whose source reads from a reader of another stream
    (/repo/stream2py/stream_buffer.py:252-272, buffer_reader.py:158-174)

    The source of the downstream stream has a [read()] that returns [next(r)], where [r] is a
    reader of the upstream stream: a SourceReader of the user's own, or
    [mk_stream_buffer(lambda _: next(r), enumerate_data=False)] (simply.py:38-134). Both streams run, each with its own
    clients, threads, starts and stops; a reading thread of the downstream stream that is inside
    [read()] makes the call on [r], and what the call gives or raises is what [read()] gives or
    raises.

    Simplifications: the call [next(r)] is one step, at which [read()] returns (for the race
    between its two halves see [NextRaceM]); a list, which [next(r)] gives for a read size above
    one, is handed on as a tuple. A longer pipeline is a chain at each of its joints: the steps
    of the two streams are not restricted, so the upstream one may itself be fed by a third, and
    the downstream one may feed a fourth. *)
From Coq Require Import List ZArith Bool Arith.
From Verif Require Import PyVal PyLib SortedDequeM BufferReaderM BufferSysM StreamBufferM.
Import ListNotations.

Record chain := MkCh { ch_up : sb; ch_down : sb }.
Definition ch0 : chain := MkCh sb0 sb0.

(** What [read()] makes of the outcome of [next(r)]. *)
Definition answer (o : res rval) : res pyval :=
  match o with Ok (VItem x) => Ok x | Ok (VList l) => Ok (PTuple l) | Raise e => Raise e end.
(** Thread [i] is inside [read()] (259). *)
Definition reading (s : sb) (i : nat) : bool :=
  match nth_error (sb_ss s) i with Some e => match se_pc e with TRead => true | _ => false end | None => false end.
(** The outcome of the latest call on a reader. *)
Definition outcome (tr : list ev) : option (res rval) :=
  match last_opt tr with Some (ECall _ _ o) => Some o | _ => None end.

Inductive clabel := CUp (l : label) | CDown (l : label) | CLink (i : nat).
Definition ch_step (cu cd : cfg) (r : nat) (x : chain) (l : clabel) : option chain :=
  match l with
  | CUp l => option_map (fun s => MkCh s (ch_down x)) (sb_step cu (ch_up x) l)
  | CDown l =>
      if match l with LT i _ => reading (ch_down x) i | _ => false end then None
      else option_map (fun s => MkCh (ch_up x) s) (sb_step cd (ch_down x) l)
  | CLink i =>
      if reading (ch_down x) i then
        match sb_step cu (ch_up x) (LCallR r (CNext false)) with
        | Some s => match outcome (sb_tr s) with
                    | Some o => option_map (fun t => MkCh s t) (sb_step cd (ch_down x) (LT i (answer o)))
                    | None => None
                    end
        | None => None
        end
      else None
  end.
Fixpoint ch_run (cu cd : cfg) (r : nat) (x : chain) (ls : list clabel) : option chain :=
  match ls with
  | [] => Some x
  | l :: q => match ch_step cu cd r x l with Some x' => ch_run cu cd r x' q | None => None end
  end.
