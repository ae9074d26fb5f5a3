(** * next(reader) as two steps

    buffer_reader.py:158-174: [result = self.read(...)] (168), and only if the result is None
    the question [self.is_stopped] (171; 190-196, the event's [is_set()]).
    Other threads may append, stop or restart the stream in between. [StreamBufferM.LCallR r
    (CNext _)] makes both at once; here they are two steps, and any number of threads may be
    between the two, on any readers.

    Simplified: next(stream_buffer) (160-163 of stream_buffer.py) still calls next() of its
    reader in one step. *)
From Coq Require Import List ZArith Bool Arith.
From Verif Require Import PyVal PyLib BufferReaderM BufferSysM StreamBufferM.
Import ListNotations.

(** A finished call of next(reader): the reader, the outcome, and the lengths that the trace
    of the stream had when it read and when it returned. *)
Record nret := MkNR { nr_r : nat; nr_o : res rval; nr_look : nat; nr_ret : nat }.
(** The stream; the calls of next(reader) that have read None and not yet looked at
    [is_stopped] (the reader, and when they read); the calls that have returned. *)
Record nxs := MkNX { n_s : sb; n_hold : list (nat * nat); n_tr : list nret }.
Definition nx0 : nxs := MkNX sb0 [] [].

(** [NStep l]: a step of [StreamBufferM] other than next(reader); [NLook r]: line 168 of a
    next(reader), and its return if something was read; [NAsk k]: lines 171-174 of the [k]th
    call that waits to ask. *)
Inductive nlabel := NStep (l : label) | NLook (r : nat) | NAsk (k : nat).

(** [_read_kwargs_for_next] (buffer_reader.py:130-141). *)
Definition next_args (r : breader) : rargs := MkRA (Some (rk_n r)) (Some (rk_peek r)) (Some true) (Some (rk_strict r)).

Definition nx_step (c : cfg) (x : nxs) (l : nlabel) : option nxs :=
  let s := n_s x in
  match l with
  | NStep (LCallR _ (CNext _)) => None
  | NStep l => match sb_step c s l with Some s' => Some (MkNX s' (n_hold x) (n_tr x)) | None => None end
  | NLook r =>
      match nth_error (sb_rds s) r with
      | None => None
      | Some q =>
          match buf_of s (rd_sess q), sb_step c s (LCallR r (CRead (next_args (rd_r q)))) with
          | Some d, Some s' =>
              let o := snd (run (read d (next_args (rd_r q))) (rd_r q)) in
              match o with
              | Ok v => if rval_is_none v then Some (MkNX s' (n_hold x ++ [(r, length (sb_tr s))]) (n_tr x))
                        else Some (MkNX s' (n_hold x) (n_tr x ++ [MkNR r o (length (sb_tr s)) (length (sb_tr s'))]))
              | Raise _ => Some (MkNX s' (n_hold x) (n_tr x ++ [MkNR r o (length (sb_tr s)) (length (sb_tr s'))]))
              end
          | _, _ => None
          end
      end
  | NAsk k =>
      match nth_error (n_hold x) k with
      | None => None
      | Some (r, a) =>
          match nth_error (sb_rds s) r with
          | None => None
          | Some q =>
              let o := if ev_set s (rd_ev q) then Raise StopIteration else Ok VNone in
              Some (MkNX s (firstn k (n_hold x) ++ skipn (S k) (n_hold x)) (n_tr x ++ [MkNR r o a (length (sb_tr s))]))
          end
      end
  end.
Fixpoint nx_run (c : cfg) (x : nxs) (ls : list nlabel) : option nxs :=
  match ls with
  | [] => Some x
  | l :: q => match nx_step c x l with Some x' => nx_run c x' q | None => None end
  end.
