(** * Specification: operations that take effect at one instant *)
From Coq Require Import List ZArith Bool Arith.
From Verif Require Import PyVal PyLib SortedDequeM BufferReaderM BufferSysM SpecLog ReaderStepsM.
Import ListNotations.

(** A history in which every call also has an instant at which it takes effect, with its
    answer. *)
Inductive xev := XInv (i : nat) (o : lop) | XAct (i : nat) (o : lop) (v : lout) | XRes (i : nat) (o : lop) (v : lout).
Definition thread_of (e : xev) : nat := match e with XInv i _ | XAct i _ _ | XRes i _ _ => i end.
Definition of_thread (i : nat) (w : list xev) : list xev := filter (fun e => Nat.eqb (thread_of e) i) w.

(** The calls and returns only: what clients see. *)
Definition seen (w : list xev) : list hev :=
  flat_map (fun e => match e with XInv i o => [HInv i o] | XRes i o v => [HRes i o v] | XAct _ _ _ => [] end) w.
(** The operations in the order of their instants, and their answers. *)
Definition acts (w : list xev) : list lop := flat_map (fun e => match e with XAct _ o _ => [o] | _ => [] end) w.
Definition answers (w : list xev) : list lout := flat_map (fun e => match e with XAct _ _ v => [v] | _ => [] end) w.

(** The events of one thread: each call, its instant, and its return with that same answer,
    one call after the other; the last call may be unfinished. *)
Inductive one_at_a_time : list xev -> Prop :=
| oat_nil : one_at_a_time []
| oat_called i o : one_at_a_time [XInv i o]
| oat_acted i o v : one_at_a_time [XInv i o; XAct i o v]
| oat_done i o v w : one_at_a_time w -> one_at_a_time (XInv i o :: XAct i o v :: XRes i o v :: w).

(** No reader is used by two threads. *)
Definition readers_not_shared (scripts : list (list lop)) : Prop :=
  forall i j qi qj r c c', nth_error scripts i = Some qi -> nth_error scripts j = Some qj ->
    In (LCall r c) qi -> In (LCall r c') qj -> i = j.
(** No two threads are in calls on the same reader at once: between a call of one thread on a
    reader and a later call of another thread on it, the first has returned. *)
Definition one_call_per_reader (tr : list hev) : Prop :=
  forall a i r c b j c' z, tr = a ++ HInv i (LCall r c) :: b ++ HInv j (LCall r c') :: z -> i <> j ->
    exists v, In (HRes i (LCall r c) v) b.
(** The thread is between two calls. *)
Definition at_rest (s : lstate) : Prop :=
  forall i h, nth_error (ls_ths s) i = Some h -> h_ph h = PhIdle.

(** What clients saw: the calls thread [i] made; the items that came back from calls on
    reader [r], in the order of the returns; the items passed to append. *)
Definition invoked (i : nat) (tr : list hev) : list lop :=
  flat_map (fun e => match e with HInv j o => if Nat.eqb j i then [o] else [] | HRes _ _ _ => [] end) tr.
Definition received (r : nat) (tr : list hev) : list pyval :=
  flat_map (fun e => match e with HRes _ (LCall j _) v => if Nat.eqb r j then got_from v else [] | _ => [] end) tr.
Definition offered (tr : list hev) : list pyval :=
  flat_map (fun e => match e with HInv _ (LAppend x) => [x] | _ => [] end) tr.
(** The items whose append returned without an exception. *)
Definition returned (tr : list hev) : list pyval :=
  flat_map (fun e => match e with HRes _ (LAppend x) (OUnit (Ok _)) => [x] | _ => [] end) tr.
(** [n] items fit into a buffer of that maxlen. *)
Definition room (maxlen : option Z) (n : nat) : Prop := match maxlen with Some m => (Z.of_nat n <= m)%Z | None => True end.
Definition not_drop (o : lop) : Prop := match o with LDrop _ => False | _ => True end.
