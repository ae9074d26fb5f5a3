(** * attach_reader() as two assignments

    stream_buffer.py:76-78: [reader._buffer = self._buffer], then
    [reader._stop_event = self._stop_event]. Another thread may use the reader in between.
    [StreamBufferM.LAttach] makes both at once; here they are two steps, and the caller of
    attach_reader() holds [start_lock] (212-218) all the while. *)
From Coq Require Import List ZArith Bool Arith.
From Verif Require Import PyVal PyLib BufferReaderM BufferSysM StreamBufferM.
Import ListNotations.

(** The stream and, while somebody is between lines 77 and 78: the reader and the session
    whose buffer it has just been given. *)
Record ars := MkAR { ar_s : sb; ar_hold : option (nat * nat) }.
Definition ar0 : ars := MkAR sb0 None.

(** [AStep l]: a step of [StreamBufferM] other than attach_reader(); [ABuf r]: attach_reader(r)
    gets the lock and runs line 77, or raises (213-217); [AEv]: line 78 and the end of the
    [with] block. *)
Inductive alabel := AStep (l : label) | ABuf (r : nat) | AEv.

(** Steps that begin by taking [start_lock] (179, 199; 162 if there is no [_next_reader]). *)
Definition takes_lock (s : sb) (l : label) : bool :=
  match l with
  | LStart | LMk _ _ _ _ | LAttach _ => true
  | LNextMk => match sb_next s with None => true | Some _ => false end
  | _ => false
  end.
(** Lines 77 and 78. *)
Definition put_buf (q : rdr) (j : nat) : rdr := MkRdr j (rd_ev q) (rd_info q) (rd_r q) (rd_loop q) (rd_out q).
Definition put_ev (q : rdr) (j : nat) : rdr := MkRdr (rd_sess q) j (rd_info q) (rd_r q) (rd_loop q) (rd_out q).

Definition ar_step (c : cfg) (a : ars) (l : alabel) : option ars :=
  let s := ar_s a in
  match l with
  | AStep (LAttach _) => None
  | AStep l =>
      if match ar_hold a with Some _ => takes_lock s l | None => false end then None
      else match sb_step c s l with Some s' => Some (MkAR s' (ar_hold a)) | None => None end
  | ABuf r =>
      match ar_hold a with
      | Some _ => None
      | None =>
          if lock_free s then
            match nth_error (sb_rds s) r, sb_cur s with
            | None, _ => None
            | Some q, None => Some (MkAR (log s (EAttach r (Raise StreamNotStartedError))) None)
            | Some q, Some j => Some (MkAR (set_rds s (set_nth (sb_rds s) r (put_buf q j))) (Some (r, j)))
            end
          else None
      end
  | AEv =>
      match ar_hold a with
      | None => None
      | Some (r, j) =>
          match nth_error (sb_rds s) r with
          | None => None
          | Some q => Some (MkAR (log (set_rds s (set_nth (sb_rds s) r (put_ev q j))) (EAttach r (Ok j))) None)
          end
      end
  end.
Fixpoint ar_run (c : cfg) (a : ars) (ls : list alabel) : option ars :=
  match ls with
  | [] => Some a
  | l :: q => match ar_step c a l with Some a' => ar_run c a' q | None => None end
  end.
