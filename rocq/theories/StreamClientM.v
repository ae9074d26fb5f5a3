(** * Model of [StreamBuffer.join] and of loops over the StreamBuffer itself
      (/repo/stream2py/stream_buffer.py:156-158, 239-241)

    The transition system of StreamBufferM together with two kinds of client that it leaves
    out: calls of [join()] that wait for a thread, and generators made by
    [iter(stream_buffer)], each of which owns a reader nobody else can reach. *)
From Coq Require Import List ZArith Bool Arith.
From Verif Require Import PyVal PyLib SortedDequeM BufferReaderM BufferSysM StreamBufferM.
Import ListNotations.

(** A call [stream_buffer.join()]. The property (239-241) looks up the thread of the latest
    start; [Thread.join()] without timeout (CPython threading) raises RuntimeError if that
    thread was never started, else returns when it has ended. *)
Inductive jcall := JWaits (i : nat) | JReturned (i : nat) | JRaised (e : exn).
(** Line 241 in state [s]: [None.join] is an AttributeError (154: no thread yet). *)
Definition join_call (s : sb) : jcall :=
  match nth_error (sb_ss s) (latest s) with
  | None => JRaised AttributeError
  | Some e => match se_pc e with TNew => JRaised RuntimeError | _ => JWaits (latest s) end
  end.
(** Whether the thread of start [i] has ended. *)
Definition thread_done (s : sb) (i : nat) : bool :=
  match nth_error (sb_ss s) i with
  | Some e => match se_pc e with TDone _ => true | _ => false end
  | None => false
  end.

(** A generator made by [__iter__] (156-158): not yet advanced; looping over its own reader;
    or finished because [mk_reader] raised StreamNotStartedError. *)
Inductive gen := GNew | GOn (r : nat) | GFailed.
Definition owns (r : nat) (g : gen) : bool := match g with GOn k => Nat.eqb k r | _ => false end.

Record client := MkCl { cl_sb : sb; cl_joins : list jcall; cl_gens : list gen }.
Definition client0 : client := MkCl sb0 [] [].

(** [CL l]: a step of StreamBufferM; [CJoin] / [CJoinRet n]: call and return of join;
    [CIter]: iter(stream_buffer); [CGen g]: generator [g] is advanced by one step. *)
Inductive clabel := CL (l : label) | CJoin | CJoinRet (n : nat) | CIter | CGen (g : nat).

(** The reader a step of StreamBufferM is called on by its user, if any. *)
Definition used_reader (l : label) : option nat :=
  match l with LAttach r | LCallR r _ | LIter r => Some r | _ => None end.
Definition allowed (cl : client) (l : label) : bool :=
  match used_reader l with Some r => negb (existsb (owns r) (cl_gens cl)) | None => true end.

(** What the step does to the StreamBuffer. *)
Definition stream_label (cl : client) (l : clabel) : list label :=
  match l with
  | CL l => [l]
  | CJoin | CJoinRet _ | CIter => []
  | CGen g => match nth_error (cl_gens cl) g with
               | Some GNew => [LMk 1 false false false]         (* 157 *)
               | Some (GOn r) => [LIter r]                      (* 158 *)
               | _ => []
               end
  end.

Definition cl_step (c : cfg) (cl : client) (l : clabel) : option client :=
  match sb_run c (cl_sb cl) (stream_label cl l) with
  | None => None
  | Some s' =>
      match l with
      | CL l => if allowed cl l then Some (MkCl s' (cl_joins cl) (cl_gens cl)) else None
      | CJoin => Some (MkCl s' (cl_joins cl ++ [join_call s']) (cl_gens cl))
      | CJoinRet n =>
          match nth_error (cl_joins cl) n with
          | Some (JWaits i) => if thread_done s' i then Some (MkCl s' (set_nth (cl_joins cl) n (JReturned i)) (cl_gens cl)) else None
          | _ => None
          end
      | CIter => Some (MkCl s' (cl_joins cl) (cl_gens cl ++ [GNew]))
      | CGen g =>
          match nth_error (cl_gens cl) g with
          | Some GNew =>
              (* mk_reader appended a reader, or raised *)
              let g' := match sb_cur (cl_sb cl) with Some _ => GOn (length (sb_rds (cl_sb cl))) | None => GFailed end in
              Some (MkCl s' (cl_joins cl) (set_nth (cl_gens cl) g g'))
          | Some (GOn _) => Some (MkCl s' (cl_joins cl) (cl_gens cl))
          | _ => None
          end
      end
  end.

Fixpoint cl_run (c : cfg) (cl : client) (ls : list clabel) : option client :=
  match ls with
  | [] => Some cl
  | l :: q => match cl_step c cl l with Some cl' => cl_run c cl' q | None => None end
  end.
(** The steps of the StreamBuffer in a run. *)
Fixpoint stream_labels (c : cfg) (cl : client) (ls : list clabel) : list label :=
  match ls with
  | [] => []
  | l :: q => stream_label cl l ++ match cl_step c cl l with Some cl' => stream_labels c cl' q | None => [] end
  end.
