(** * Methods of the source that call the stream  (/repo/stream2py/stream_buffer.py:177-236, 252-295)

    start() runs [source_reader.open()] (286) and asks for [source_reader.info] (288) while it
    holds [start_lock], a [threading.Lock], which cannot be taken twice. [read()] and
    [close()] (257, 269) run in the reading thread, without that lock. The code of any of
    these methods may itself call the stream. What it calls without asking for the lock -
    stop(), drop(), [source_reader_info], reader calls - is for the stream like a call of
    any other client; what it calls with the lock is modelled here: start() (179), mk_reader()
    (198), attach_reader() (212), [is_running] (233), and next(stream_buffer) or
    stream_buffer() when a reader has to be made (161-162).

    The method is not back before the call it makes is. One such call at a time per method;
    a start() made by read() or close() is taken to be back some time after its lock is free. *)
From Coq Require Import List ZArith Bool Arith.
From Verif Require Import PyVal StreamBufferM.
Import ListNotations.

(** What the source's code calls; [CWait]: a start() that has got the lock. *)
Inductive scall := CStart | CMk (n : Z) (p st ig : bool) | CAttach (r : nat) | CNextMk | CRunning | CWait.
(** Who calls: open() or info, for start(); read() or close(), for reading thread [i]. *)
Inductive caller := InOpen | InThread (i : nat).
(** [cb_open], [cb_thr]: the calls under way. *)
Record cb := MkCb { cb_s : sb; cb_open : option scall; cb_thr : nat -> option scall }.
Definition cb0 : cb := MkCb sb0 None (fun _ => None).

(** start() is inside open() or info; thread [i] is inside read() or close(). *)
Definition in_open (s : sb) : bool := match sb_start s with SOpen | SBuild => true | _ => false end.
Definition in_source (s : sb) (i : nat) : bool :=
  match nth_error (sb_ss s) i with Some e => match se_pc e with TRead | TClose _ => true | _ => false end | None => false end.
Definition calls (b : cb) (who : caller) : option scall := match who with InOpen => cb_open b | InThread i => cb_thr b i end.
Definition set_call (b : cb) (who : caller) (x : option scall) : cb :=
  match who with
  | InOpen => MkCb (cb_s b) x (cb_thr b)
  | InThread i => MkCb (cb_s b) (cb_open b) (fun k => if Nat.eqb k i then x else cb_thr b k)
  end.
Definition may_call (b : cb) (who : caller) (x : scall) : bool :=
  match calls b who with Some _ => false | None => true end &&
  match who with InOpen => in_open (cb_s b) | InThread i => in_source (cb_s b) i end &&
  match x with CAttach r => Nat.ltb r (length (sb_rds (cb_s b))) | CWait => false | _ => true end.
(** The method that would go on is waiting for its call. *)
Definition waits (b : cb) (l : label) : bool :=
  match l with
  | LS _ _ => in_open (cb_s b) && match cb_open b with Some _ => true | None => false end
  | LT i _ => match cb_thr b i with Some _ => true | None => false end
  | _ => false
  end.
(** The call gets the lock, does what it does, and is back (a start(): has got the lock). *)
Definition proceed (c : cfg) (s : sb) (x : scall) : option (sb * option scall) :=
  match x with
  | CStart => option_map (fun s' => (s', Some CWait)) (sb_step c s LStart)
  | CMk n p st ig => option_map (fun s' => (s', None)) (sb_step c s (LMk n p st ig))
  | CAttach r => option_map (fun s' => (s', None)) (sb_step c s (LAttach r))
  | CNextMk => option_map (fun s' => (s', None)) (sb_step c s LNextMk)
  | CRunning | CWait => if lock_free s then Some (s, None) else None
  end.

Inductive blabel := BStep (l : label) | BCall (who : caller) (x : scall) | BGo (who : caller).
Definition b_step (c : cfg) (b : cb) (l : blabel) : option cb :=
  match l with
  | BStep l => if waits b l then None else option_map (fun s' => MkCb s' (cb_open b) (cb_thr b)) (sb_step c (cb_s b) l)
  | BCall who x => if may_call b who x then Some (set_call b who (Some x)) else None
  | BGo who =>
      match calls b who with
      | Some x => match proceed c (cb_s b) x with
                  | Some (s', y) => Some (set_call (MkCb s' (cb_open b) (cb_thr b)) who y)
                  | None => None
                  end
      | None => None
      end
  end.
Fixpoint b_run (c : cfg) (b : cb) (ls : list blabel) : option cb :=
  match ls with
  | [] => Some b
  | l :: q => match b_step c b l with Some b' => b_run c b' q | None => None end
  end.
