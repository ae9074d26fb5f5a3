(** * A buffer shared by a writer and any number of readers

    The session's RWLockSortedDeque together with the BufferReaders made on it. Each
    operation is one step here. The same operations access by access, with the lock, are in
    [ReaderStepsM.v]; C80 ([PropsLin.v]) proves that their concurrent histories are those of
    this machine. *)
From Coq Require Import List ZArith Bool Arith.
From Verif Require Import PyVal PyLib SortedDequeM BufferReaderM.
Import ListNotations.

(** The buffer and the readers, numbered by creation. *)
Record bsys := MkBS { s_buf : sdeque; s_rds : list breader }.

(** Reader calls (buffer_reader.py:158-174, 228-339, 341-420). *)
Inductive call :=
| CRead (a : rargs) | CNext (stopped : bool) | CRange (g : rgargs)
| CTail (peek ignore only_new : bool) | CHead (peek : bool).
Definition do_call (d : sdeque) (c : call) : M rval :=
  match c with
  | CRead a => read d a
  | CNext s => next_dunder d s
  | CRange g => range d g
  | CTail p i o => tail d p i o
  | CHead p => head d p
  end.

(** Operations: [_SourceBuffer.append] / [drop] (stream_buffer.py:60-66), mk_reader
    (stream_buffer.py:68-74), and reader calls. *)
Inductive lop :=
| LAppend (x : pyval) | LDrop (n : Z)
| LMk (read_size : Z) (peek strict_n ignore : bool)
| LCall (i : nat) (c : call).
Inductive lout := OUnit (u : res unit) | OVal (v : res rval) | ONoReader.

Fixpoint set_nth {A} (l : list A) (i : nat) (x : A) : list A :=
  match l, i with
  | [], _ => []
  | _ :: l', O => x :: l'
  | y :: l', S j => y :: set_nth l' j x
  end.
Definition bsys_step (s : bsys) (o : lop) : bsys * lout :=
  match o with
  | LAppend x => let (d, u) := sd_append (s_buf s) x in (MkBS d (s_rds s), OUnit u)
  | LDrop n => let (d, u) := sd_drop (s_buf s) n in (MkBS d (s_rds s), OUnit u)
  | LMk n p st ig => (MkBS (s_buf s) (s_rds s ++ [mk_breader n p st ig]), OUnit (Ok tt))
  | LCall i c =>
      match nth_error (s_rds s) i with
      | None => (s, ONoReader)
      | Some r => let (r', v) := run (do_call (s_buf s) c) r in
                  (MkBS (s_buf s) (set_nth (s_rds s) i r'), OVal v)
      end
  end.
Fixpoint bsys_run (s : bsys) (ops : list lop) : bsys * list lout :=
  match ops with
  | [] => (s, [])
  | o :: ops' => let (s1, v) := bsys_step s o in
                 let (s2, vs) := bsys_run s1 ops' in (s2, v :: vs)
  end.
