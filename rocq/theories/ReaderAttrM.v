(** * Model of the attribute [onclose] and of [with reader:]
      (/repo/stream2py/buffer_reader.py:83-84, 433-450; stream_source.py:111-134;
      stream_buffer.py:68-78)

    A client makes readers with mk_reader() or open_reader(), may assign [onclose] (the
    documented hook) or delete it, may attach readers again, and closes them, directly, by
    exit(), or by leaving [with reader:] blocks, which may be nested. *)
From Coq Require Import List ZArith Bool Arith.
From Verif Require Import PyVal PyLib.
Import ListNotations.

(** Values that [onclose] can have: the bound method [_handle_reader_closed] of the
    StreamSource (stream_source.py:133), a function of the client (by number), or something
    that is false, such as None. *)
Inductive hook := HHandler | HFun (f : nat) | HFalse.
(** A reader's instance dictionary, as far as [onclose] is concerned. The class attribute does
    not exist: lines 83-84 of buffer_reader.py are annotations without a value. *)
Definition robj := option hook.
(** Attribute lookup: instance, then class (nothing there), else AttributeError. *)
Definition getattr_onclose (o : robj) : res hook := match o with Some h => Ok h | None => Raise AttributeError end.

(** What happens when a hook is called: an event with the outcome. *)
Inductive cev := ECalled (r : nat) (h : hook) (o : res unit).

(** [close] (442-444): the attribute is looked up; if it is true it is looked up again and
    called. [w]: outcomes of the calls of hooks. *)
Definition close_reader (rs : list robj) (r : nat) (w : hook -> res unit) : list cev * res unit :=
  match nth_error rs r with
  | None => ([], Ok tt)   (* no such reader: not used *)
  | Some o =>
      match getattr_onclose o with
      | Raise e => ([], Raise e)
      | Ok HFalse => ([], Ok tt)
      | Ok h => ([ECalled r h (w h)], w h)
      end
  end.
(** [exit] (436-437), [__exit__] (449-450): return what close() returns, None, which is false:
    an exception of the body is not suppressed, and one of close() replaces it. *)
Definition exit_reader (rs : list robj) (r : nat) (w : hook -> res unit) (body : res unit) : list cev * res unit :=
  match close_reader rs r w with
  | (es, Raise e) => (es, Raise e)
  | (es, Ok _) => (es, body)
  end.

(** Statements of a client. [SWith r b]: with reader r: b; [SRaise e]: an exception of its
    own; [STry b]: try: b except Exception: pass. *)
Inductive stmt :=
| SMk                              (* reader = stream_buffer.mk_reader() *)
| SOpenReader                      (* reader = stream_source.open_reader() *)
| SAssign (r : nat) (h : hook)     (* reader.onclose = h *)
| SDelete (r : nat)                (* del reader.onclose *)
| SAttach (r : nat)                (* stream_buffer.attach_reader(reader) *)
| SClose (r : nat)
| SRaise (e : exn)
| SWith (r : nat) (b : list stmt)
| STry (b : list stmt).

Fixpoint set_at (rs : list robj) (r : nat) (o : robj) : list robj :=
  match rs, r with
  | [], _ => []
  | _ :: q, O => o :: q
  | x :: q, S r => x :: set_at q r o
  end.

(** Execution. State: the instance dictionaries. *)
Fixpoint exec (w : hook -> res unit) (s : stmt) (rs : list robj) {struct s} : list robj * list cev * res unit :=
  match s with
  | SMk => (rs ++ [None], [], Ok tt)                    (* stream_buffer.py:68-74 *)
  | SOpenReader => (rs ++ [Some HHandler], [], Ok tt)   (* stream_source.py:126-133 *)
  | SAssign r h => (set_at rs r (Some h), [], Ok tt)
  | SDelete r => match nth_error rs r with
                 | Some (Some _) => (set_at rs r None, [], Ok tt)
                 | Some None => (rs, [], Raise AttributeError)
                 | None => (rs, [], Ok tt)
                 end
  | SAttach r => (rs, [], Ok tt)                        (* stream_buffer.py:76-78 *)
  | SClose r => let (es, o) := close_reader rs r w in (rs, es, o)
  | SRaise e => (rs, [], Raise e)
  | SWith r b =>                                        (* 446-447: __enter__ returns the reader *)
      let '(rs1, es1, o1) :=
        (fix block (l : list stmt) (rs : list robj) : list robj * list cev * res unit :=
           match l with
           | [] => (rs, [], Ok tt)
           | s :: q => let '(rs1, es1, o1) := exec w s rs in
                       match o1 with
                       | Raise e => (rs1, es1, Raise e)
                       | Ok _ => let '(rs2, es2, o2) := block q rs1 in (rs2, es1 ++ es2, o2)
                       end
           end) b rs in
      let (es2, o2) := exit_reader rs1 r w o1 in (rs1, es1 ++ es2, o2)
  | STry b =>
      let '(rs1, es1, o1) :=
        (fix block (l : list stmt) (rs : list robj) : list robj * list cev * res unit :=
           match l with
           | [] => (rs, [], Ok tt)
           | s :: q => let '(rs1, es1, o1) := exec w s rs in
                       match o1 with
                       | Raise e => (rs1, es1, Raise e)
                       | Ok _ => let '(rs2, es2, o2) := block q rs1 in (rs2, es1 ++ es2, o2)
                       end
           end) b rs in (rs1, es1, Ok tt)
  end.
(** A block of statements. *)
Definition block (w : hook -> res unit) : list stmt -> list robj -> list robj * list cev * res unit :=
  fix block (l : list stmt) (rs : list robj) : list robj * list cev * res unit :=
    match l with
    | [] => (rs, [], Ok tt)
    | s :: q => let '(rs1, es1, o1) := exec w s rs in
                match o1 with
                | Raise e => (rs1, es1, Raise e)
                | Ok _ => let '(rs2, es2, o2) := block q rs1 in (rs2, es1 ++ es2, o2)
                end
    end.
