(** * Concrete sources: [mk_stream_buffer]'s SimplifiedSourceReader and SimpleCounterString

    A source answers open(), read() and close(). Where user code is called, its outcome is
    left open, so the answers are relations. *)
From Coq Require Import List ZArith Bool Arith Decimal DecimalZ.
From Verif Require Import PyVal PyLib SortedDequeM BufferReaderM BufferSysM StreamBufferM StreamSourceM.
Import ListNotations.

(** Interface (/repo/stream2py/protocols.py, /repo/stream2py/source_reader.py:95-104). *)
Record source := MkSource {
  so_st : Type;
  so_init : so_st;
  so_open : so_st -> so_st * res unit -> Prop;
  so_read : so_st -> so_st * res pyval -> Prop;
  so_close : so_st -> so_st * res unit -> Prop
}.

(** ** SimplifiedSourceReader (/repo/stream2py/simply.py:85-121)
    The only state that matters is [read_idx], 0 in a new reader (89). *)
(** open (91-95): the index is reset before open_stream() is called. [o]: the outcome of
    open_stream(), or Ok if it is None. *)
Definition simp_open (idx : Z) (o : res unit) : Z * res unit := (0%Z, o).
(** read (97-103); [r]: the outcome of read_stream(). *)
Definition simp_read (enumerate : bool) (idx : Z) (r : res pyval) : Z * res pyval :=
  match r with
  | Raise e => (idx, Raise e)
  | Ok d => ((idx + 1)%Z, Ok (if enumerate then PTuple [PInt idx; d] else d))
  end.
(** close (105-107). *)
Definition simp_close (idx : Z) (o : res unit) : Z * res unit := (idx, o).
(** key (118-121); [key]: the argument of mk_stream_buffer. *)
Definition simp_key (key : option (pyval -> res pyval)) : pyval -> res pyval :=
  match key with Some f => f | None => fun d => Ok d end.
(** The StreamBuffer that mk_stream_buffer makes (123-128). *)
Definition simp_cfg (key : option (pyval -> res pyval)) (maxlen : option Z) (auto : pyval) : cfg :=
  MkCfg (simp_key key) maxlen auto.

(** ** The context manager [mk_stream_buffer] (simply.py:130-134)
    PEP 479: a StopIteration that leaves the body of a generator becomes RuntimeError. *)
Definition from_generator (e : exn) : exn := match e with StopIteration => RuntimeError | _ => e end.
(** [stream_buffer.stop()] in the finally clause: the new state, and its exception. *)
Definition finally_stop (c : cfg) (s : sb) : sb * option exn :=
  match sb_step c s LStop with
  | Some s' => (s', match last (sb_tr s') (EStop (Ok 0)) with EStop (Raise e) => Some e | _ => None end)
  | None => (s, None)
  end.
(** The with statement: entering (start(), 131), then the body, in which anything may happen
    to the stream ([ls]) and which ends with [body], then leaving (134). An exception of
    stop() replaces the one that is propagating. contextlib re-raises the body's own
    exception object, also if it is a StopIteration. *)
Definition with_simply (c : cfg) (o : res unit) (info : res pyval) (ls : list label) (body : res unit) : option (sb * res unit) :=
  let s1 := start_now c sb0 o info in
  match raised s1 with
  | Some e => let (s2, x) := finally_stop c s1 in
              Some (s2, Raise (from_generator (match x with Some e' => e' | None => e end)))
  | None =>
      match sb_run c s1 ls with
      | None => None
      | Some s2 => let (s3, x) := finally_stop c s2 in
                   Some (s3, match x with Some e' => Raise (from_generator e') | None => body end)
      end
  end.

(** ** Decimal strings: [f's{value}'] and [int(data[1:])]
    [str] of an int, and [int] of a string made of an optional sign and ASCII digits. Not
    modelled: int() also accepts blanks around the number, underscores between digits and
    other Unicode digits; such strings are rejected here. *)
Definition digit_codes (d : uint) : list Z :=
  (fix go (d : uint) : list Z :=
    match d with
    | Nil => [] | D0 d => 48 :: go d | D1 d => 49 :: go d | D2 d => 50 :: go d | D3 d => 51 :: go d | D4 d => 52 :: go d
    | D5 d => 53 :: go d | D6 d => 54 :: go d | D7 d => 55 :: go d | D8 d => 56 :: go d | D9 d => 57 :: go d
    end)%Z d.
Definition str_of_int (z : Z) : list Z :=
  match Z.to_int z with Pos u => digit_codes u | Neg u => 45%Z :: digit_codes u end.
Definition digit_of (c : Z) : option (uint -> uint) :=
  (if c =? 48 then Some D0 else if c =? 49 then Some D1 else if c =? 50 then Some D2 else if c =? 51 then Some D3
   else if c =? 52 then Some D4 else if c =? 53 then Some D5 else if c =? 54 then Some D6 else if c =? 55 then Some D7
   else if c =? 56 then Some D8 else if c =? 57 then Some D9 else None)%Z.
Fixpoint uint_of (s : list Z) : option uint :=
  match s with
  | [] => Some Nil
  | c :: q => match digit_of c, uint_of q with Some f, Some u => Some (f u) | _, _ => None end
  end.
Definition digits_of (s : list Z) : option uint := match s with [] => None | _ => uint_of s end.
Definition int_of_str (s : list Z) : res Z :=
  match (match s with
         | 45%Z :: q => option_map Neg (digits_of q)
         | 43%Z :: q => option_map Pos (digits_of q)
         | _ => option_map Pos (digits_of s)
         end) with
  | Some d => Ok (Z.of_int d)
  | None => Raise ValueError
  end.

(** ** SimpleCounterString (/repo/stream2py/examples/source_reader.py:5-35)
    State: what the range iterator yields next, or None. *)
(** open (15-17). *)
Definition cnt_open (start : Z) (it : option Z) : option Z * res unit := (Some start, Ok tt).
(** read (19-24); [next(None, None)] raises TypeError. *)
Definition cnt_read (stop : Z) (it : option Z) : option Z * res pyval :=
  match it with
  | None => (it, Raise TypeError)
  | Some n => if Z.ltb n stop then (Some (n + 1)%Z, Ok (PStr (115%Z :: str_of_int n))) else (it, Ok PNone)
  end.
(** close (26-28). *)
Definition cnt_close (it : option Z) : option Z * res unit := (None, Ok tt).
Definition counter_source (start stop : Z) : source :=
  MkSource (option Z) None (fun i p => p = cnt_open start i) (fun i p => p = cnt_read stop i) (fun i p => p = cnt_close i).
(** key (34-35): [int(data[1:])]; slicing bytes would work too, other types raise. *)
Definition cnt_key (data : pyval) : res pyval :=
  match data with
  | PStr s => match int_of_str (tl s) with Ok z => Ok (PInt z) | Raise e => Raise e end
  | PBytes s => match int_of_str (tl s) with Ok z => Ok (PInt z) | Raise e => Raise e end
  | _ => Raise TypeError
  end.
