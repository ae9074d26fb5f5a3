(** * Model of [StreamSource]  (/repo/stream2py/stream_source.py)

    The StreamSource is the source of its own StreamBuffer. Client calls (open_reader, close
    of a reader, configure_buffer, exit) are single operations here: they come from one
    client thread. Between them, and while a [stop()] sleeps, the reading thread and the
    readers' calls make steps ([XBg]). [start()] runs at most once, on a StreamBuffer that
    has no thread yet and that nobody else knows, so running it as one block leaves no
    interleaving out. Concurrent open_reader calls are modelled in SourceRaceM.v. *)
From Coq Require Import List ZArith Bool Arith.
From Verif Require Import PyVal PyLib SortedDequeM BufferReaderM BufferSysM StreamBufferM.
Import ListNotations.

(** Reader classes, by number; 0 is BufferReader. *)
Definition rclass := nat.
Definition BufferReaderClass : rclass := 0.
(** What the subclass and its constructor arguments fix: [key], the [reader_cls] argument
    (66-67), and the class attribute [buffer_reader_class] if it has one. *)
Record sdef := MkSDef { d_key : pyval -> res pyval; d_reader_cls : rclass; d_attr_cls : option rclass }.

(** [_buffer_kwargs] (60, 97-101); [None]: the empty dict of the class. *)
Definition kwargs := option (option Z * pyval).
(** [StreamBuffer(self, **self._buffer_kwargs)] (105): defaults of
    stream_buffer.py:121-123. *)
Definition mk_cfg (d : sdef) (k : kwargs) : cfg :=
  match k with
  | None => MkCfg (d_key d) (Some 100%Z) (PBool true)
  | Some (m, a) => MkCfg (d_key d) m a
  end.

Record xsrc := MkX {
  x_kw : kwargs;                  (* _buffer_kwargs *)
  x_open : Z;                     (* _open_readers *)
  x_sb : option (cfg * sb)        (* _stream_buffer *)
}.
(** Class attributes (60-64). *)
Definition x0 : xsrc := MkX None 0 None.

(** Client operations. [XOpen] carries the outcomes of the source's open() and info, in case
    they are called; [XExit] is a direct call of exit(); [XStopRet]: a sleeping stop() ends;
    [XBg]: a step of the reading thread or a reader call. *)
Inductive xop :=
| XConfigure (maxlen : option Z) (auto : pyval)
| XOpen (n : Z) (st ig : bool) (o : res unit) (info : res pyval)
| XClose (r : nat)
| XExit
| XStopRet
| XBg (l : label).
(** What the caller sees. *)
Inductive xout :=
| OutReader (r : nat) (cls : rclass)
| OutOk
| OutSourceClose                  (* exit() without a buffer: the source's close() is called *)
| OutRaise (e : exn).

(** [StreamBuffer.start()] run to its end. Eleven steps suffice (theorem C67_start_returns). *)
Fixpoint run_start (c : cfg) (s : sb) (o : res unit) (info : res pyval) (fuel : nat) : sb :=
  match fuel with
  | O => s
  | S f => match start_step c s o info with Some s' => run_start c s' o info f | None => s end
  end.
Definition start_now (c : cfg) (s : sb) (o : res unit) (info : res pyval) : sb :=
  run_start c (set_start s SCheck1) o info 11.
(** The exception start() raised, if any: the last event. *)
Definition raised (s : sb) : option exn :=
  match last (sb_tr s) (EStarted 0) with EFailed _ e => Some e | _ => None end.

(** [_ensure_buffer] (103-106). The attribute is assigned before start() is called. *)
Definition ensure_buffer (d : sdef) (x : xsrc) (o : res unit) (info : res pyval) : xsrc * option exn :=
  match x_sb x with
  | Some _ => (x, None)
  | None => let c := mk_cfg d (x_kw x) in
            let s := start_now c sb0 o info in
            (MkX (x_kw x) (x_open x) (Some (c, s)), raised s)
  end.

(** [open_reader] (116-134); the class of the new reader: stream_buffer.py:292-294, 69. *)
Definition open_reader (d : sdef) (x : xsrc) (n : Z) (st ig : bool) (o : res unit) (info : res pyval) : xsrc * xout :=
  match ensure_buffer d x o info with
  | (x1, Some e) => (x1, OutRaise e)
  | (x1, None) =>
      match x_sb x1 with
      | None => (x1, OutRaise AttributeError)
      | Some (c, s) =>
          match sb_step c s (StreamBufferM.LMk n false st ig) with
          | None => (x1, OutRaise RuntimeError)   (* not reachable: start_lock is free *)
          | Some s' =>
              match last (sb_tr s') (EMk (Raise RuntimeError)) with
              | EMk (Ok r) => (MkX (x_kw x1) (x_open x1 + 1) (Some (c, s')),
                               OutReader r (match d_attr_cls d with Some k => k | None => BufferReaderClass end))
              | EMk (Raise e) => (MkX (x_kw x1) (x_open x1) (Some (c, s')), OutRaise e)
              | _ => (x1, OutRaise RuntimeError)
              end
          end
      end
  end.

(** [exit] (167-171). A StreamBuffer has no __len__ or __bool__: it is true. *)
Definition x_exit (x : xsrc) : xsrc * xout :=
  match x_sb x with
  | None => (x, OutSourceClose)
  | Some (c, s) =>
      match sb_step c s LStop with
      | Some s' => (MkX (x_kw x) (x_open x) (Some (c, s')),
                    match last (sb_tr s') (EStop (Ok 0)) with EStop (Raise e) => OutRaise e | _ => OutOk end)
      | None => (x, OutRaise RuntimeError)        (* not reachable *)
      end
  end.

(** [reader.close()] (buffer_reader.py:442-444) of a reader made by open_reader (133), then
    [_handle_reader_closed] (111-114). *)
Definition x_close (x : xsrc) : xsrc * xout :=
  let x1 := MkX (x_kw x) (x_open x - 1) (x_sb x) in
  if Z.leb (x_open x1) 0 then x_exit x1 else (x1, OutOk).

(** [configure_buffer] (86-101). *)
Definition configure (x : xsrc) (m : option Z) (a : pyval) : xsrc * xout :=
  match x_sb x with
  | Some _ => (x, OutRaise ValueError)
  | None => (MkX (Some (m, a)) (x_open x) None, OutOk)
  end.

Definition is_bg (l : label) : bool := match l with LT _ _ | LCallR _ _ | LIter _ => true | _ => false end.
(** Reader [r] exists. *)
Definition has_reader (x : xsrc) (r : nat) : bool :=
  match x_sb x with Some (_, s) => Nat.ltb r (length (sb_rds s)) | None => false end.

Definition x_step (d : sdef) (x : xsrc) (op : xop) : option (xsrc * xout) :=
  match op with
  | XConfigure m a => Some (configure x m a)
  | XOpen n st ig o info => Some (open_reader d x n st ig o info)
  | XClose r => if has_reader x r then Some (x_close x) else None
  | XExit => Some (x_exit x)
  | XStopRet => match x_sb x with
                | None => None
                | Some (c, s) => match sb_step c s LStopRet with Some s' => Some (MkX (x_kw x) (x_open x) (Some (c, s')), OutOk) | None => None end
                end
  | XBg l => if is_bg l then
               match x_sb x with
               | None => None
               | Some (c, s) => match sb_step c s l with Some s' => Some (MkX (x_kw x) (x_open x) (Some (c, s')), OutOk) | None => None end
               end
             else None
  end.
Fixpoint x_run (d : sdef) (x : xsrc) (ops : list xop) : option (xsrc * list (xop * xout)) :=
  match ops with
  | [] => Some (x, [])
  | op :: q => match x_step d x op with
               | None => None
               | Some (x1, o) => match x_run d x1 q with Some (x2, tr) => Some (x2, (op, o) :: tr) | None => None end
               end
  end.
