(** * Specification vocabulary for StreamBuffer

    Statements are about histories: [history c ls s] says that the labels [ls] are a
    possible schedule of a new StreamBuffer with configuration [c], ending in [s]. *)
From Coq Require Import List ZArith Bool Arith.
From Verif Require Import PyVal PyLib SortedDequeM BufferReaderM BufferSysM StreamBufferM.
Import ListNotations.

Definition history (c : cfg) (ls : list label) (s : sb) : Prop := sb_run c sb0 ls = Some s.

(** The thread of start [i] is at [p]. *)
Definition thread_is (s : sb) (i : nat) (p : tpc) : Prop :=
  exists e, nth_error (sb_ss s) i = Some e /\ se_pc e = p.
(** The thread of start [i] has been started and has not ended. *)
Definition alive (s : sb) (i : nat) : Prop :=
  exists p, thread_is s i p /\ match p with TNew | TDone _ => False | _ => True end.
Definition ended (s : sb) (i : nat) : Prop := exists e, thread_is s i (TDone e).

(** ** Projections of the trace *)
(** What thread [i] did. *)
Definition by_thread (i : nat) (e : ev) : bool :=
  match e with
  | ERead j _ | EAppend j _ _ _ | ENoBuf j _ | EClose j _ | ENap j _ => Nat.eqb j i
  | _ => false
  end.
Definition thread_events (i : nat) (tr : list ev) : list ev := filter (by_thread i) tr.
Definition is_read_of (i : nat) (e : ev) : bool := match e with ERead j _ => Nat.eqb j i | _ => false end.
Definition is_append_of (i : nat) (e : ev) : bool := match e with EAppend j _ _ _ => Nat.eqb j i | _ => false end.
Definition is_close_of (i : nat) (e : ev) : bool := match e with EClose j _ => Nat.eqb j i | _ => false end.
Definition count (f : ev -> bool) (tr : list ev) : nat := length (filter f tr).
(** The data (not None) that thread [i] got from the source, in order. *)
Definition data_read (i : nat) (tr : list ev) : list pyval :=
  flat_map (fun e => match e with ERead j (Ok v) => if Nat.eqb j i && negb (is_none v) then [v] else [] | _ => [] end) tr.
(** The values thread [i] passed to append. *)
Definition data_appended (i : nat) (tr : list ev) : list pyval :=
  flat_map (fun e => match e with EAppend j _ x _ => if Nat.eqb j i then [x] else [] | _ => [] end) tr.
(** The values that were accepted by the buffer of start [j]. *)
Definition accepted_by (j : nat) (tr : list ev) : list pyval :=
  flat_map (fun e => match e with EAppend _ k x (Ok _) => if Nat.eqb k j then [x] else [] | _ => [] end) tr.
(** What was done to the buffer of start [j]. *)
Definition ops_on (j : nat) (tr : list ev) : list sdop :=
  flat_map (fun e => match e with
    | EAppend _ k x _ => if Nat.eqb k j then [OAppend x] else []
    | EDrop (Some k) n _ => if Nat.eqb k j then [ODrop n] else []
    | _ => []
    end) tr.
(** The outcome of the latest completed start(): its number, and whether it succeeded. *)
Fixpoint last_start (tr : list ev) : option (nat * bool) :=
  match tr with
  | [] => None
  | e :: q => match last_start q with
              | Some r => Some r
              | None => match e with EStarted i => Some (i, true) | EFailed i _ => Some (i, false) | _ => None end
              end
  end.

(** ** The life of a reading thread, as a grammar of its events *)
Inductive phase :=
| PhLoop                      (* between two rounds *)
| PhGot (v : pyval)           (* has data in hand *)
| PhEnding (e : exn)          (* an exception is on its way out *)
| PhClosed (e : option exn).  (* has closed the source *)
Inductive life (i : nat) : list ev -> phase -> Prop :=
| lf_new : life i [] PhLoop
| lf_none : forall t, life i t PhLoop -> life i (t ++ [ERead i (Ok PNone)]) PhLoop
| lf_data : forall t v, v <> PNone -> life i t PhLoop -> life i (t ++ [ERead i (Ok v)]) (PhGot v)
| lf_rexc : forall t e, life i t PhLoop -> life i (t ++ [ERead i (Raise e)]) (PhEnding e)
| lf_gexc : forall t, life i t PhLoop -> life i (t ++ [ENoBuf i TypeError]) (PhEnding TypeError)
| lf_app : forall t j v, life i t (PhGot v) -> life i (t ++ [EAppend i j v (Ok tt)]) PhLoop
| lf_aexc : forall t j v e, life i t (PhGot v) -> life i (t ++ [EAppend i j v (Raise e)]) (PhEnding e)
| lf_noapp : forall t v, life i t (PhGot v) -> life i (t ++ [ENoBuf i AttributeError]) (PhEnding AttributeError)
| lf_close : forall t u, life i t PhLoop -> life i (t ++ [EClose i u]) (PhClosed None)
| lf_exit : forall t e u, life i t (PhEnding e) -> life i (t ++ [EClose i u]) (PhClosed (Some e))
| lf_nap : forall t e, life i t PhLoop -> life i (t ++ [ENap i e]) (PhEnding e).   (* time.sleep() raises *)

(** ** Restarting *)
(** When a start() gets past the stopping of what ran before (line 278), all earlier threads
    have ended: the user joined them, or stop()'s second was enough. *)
Definition all_ended (s : sb) : Prop := forall i, ~ alive s i.
Fixpoint orderly_from (c : cfg) (s : sb) (ls : list label) : Prop :=
  match ls with
  | [] => True
  | l :: q =>
      (sb_start s = SClear -> (exists o info, l = LS o info) -> all_ended s) /\
      match sb_step c s l with Some s' => orderly_from c s' q | None => True end
  end.
Definition orderly (c : cfg) (ls : list label) : Prop := orderly_from c sb0 ls.

(** The source seen from outside: open / read / close events, in order. *)
Definition is_source_event (e : ev) : bool :=
  match e with EOpen _ _ | ERead _ _ | EClose _ _ => true | _ => false end.
Definition source_events (tr : list ev) : list ev := filter is_source_event tr.
(** Sessions one after the other: a failed open, or a successful one, reads by that
    session's thread, one close; the last one may still be open. [Some i]: open for start i. *)
Inductive proper : list ev -> option nat -> Prop :=
| pr_new : proper [] None
| pr_fail : forall t i e, proper t None -> proper (t ++ [EOpen i (Raise e)]) None
| pr_open : forall t i, proper t None -> proper (t ++ [EOpen i (Ok tt)]) (Some i)
| pr_read : forall t i o, proper t (Some i) -> proper (t ++ [ERead i o]) (Some i)
| pr_close : forall t i o, proper t (Some i) -> proper (t ++ [EClose i o]) None.
(** open() of a start succeeded only together with info, and the buffer could be built. *)
Definition infos_ok (ls : list label) : Prop := forall o e, ~ In (LS o (Raise e)) ls.

(** What the buffer of start [j] must hold if nothing but drop() ever removes an item. *)
Definition kept_step (j : nat) (l : list pyval) (e : ev) : list pyval :=
  match e with
  | EAppend _ k x (Ok _) => if Nat.eqb k j then l ++ [x] else l
  | EDrop (Some k) n _ => if Nat.eqb k j then skipn (Z.to_nat n) l else l
  | _ => l
  end.
Definition kept (j : nat) (tr : list ev) : list pyval := fold_left (kept_step j) tr [].

(** ** One reader's view of a concurrent history: the operations on the buffer of start [j]
    and the calls on reader [r], in the order they happened, with their outcomes. *)
Definition view_ev (r j : nat) (e : ev) : list (lop * lout) :=
  match e with
  | EAppend _ k x u => if Nat.eqb k j then [(LAppend x, OUnit u)] else []
  | EDrop (Some k) n u => if Nat.eqb k j then [(BufferSysM.LDrop n, OUnit u)] else []
  | ENew r' _ n p st ig => if Nat.eqb r' r then [(BufferSysM.LMk n p st ig, OUnit (Ok tt))] else []
  | ECall r' c o | ENext (Some r') c o => if Nat.eqb r' r then [(LCall 0 c, OVal o)] else []
  | EPoll r' o => if Nat.eqb r' r then [(LCall 0 (CNext false), OVal o)] else []
  | _ => []
  end.
Definition view (r j : nat) (tr : list ev) : list (lop * lout) := flat_map (view_ev r j) tr.
(** Reader [r] was never attached to another buffer. *)
Definition never_attached (r : nat) (tr : list ev) : Prop := forall j, ~ In (EAttach r (Ok j)) tr.
(** What the for loop over reader [r] yielded. *)
Definition yielded (r : nat) (tr : list ev) : list rval :=
  flat_map (fun e => match e with EPoll r' (Ok v) => if Nat.eqb r' r && negb (rval_is_none v) then [v] else [] | _ => [] end) tr.
Definition items_of (v : rval) : list pyval :=
  match v with VItem PNone => [] | VItem x => [x] | VList l => l end.
(** All items that reader [r] got, by whatever call. *)
Definition received (r : nat) (tr : list ev) : list pyval :=
  flat_map (fun e => match e with
    | ECall r' _ (Ok v) | ENext (Some r') _ (Ok v) | EPoll r' (Ok v) => if Nat.eqb r' r then items_of v else []
    | _ => []
    end) tr.
(** The outcome of the latest poll of the for loop. *)
Fixpoint last_poll (r : nat) (tr : list ev) : option (res rval) :=
  match tr with
  | [] => None
  | e :: q => match last_poll r q with
              | Some o => Some o
              | None => match e with EPoll r' o => if Nat.eqb r' r then Some o else None | _ => None end
              end
  end.

(** Reader [r] keeps up with the buffer of start [j]: at no point of the history are more
    items gone from the buffer than the reader has got. *)
Definition reader_keeps_up (c : cfg) (ls : list label) (r j : nat) : Prop :=
  forall pre post s d, ls = pre ++ post -> history c pre s -> buf_of s j = Some d ->
    length (accepted_by j (sb_tr s)) - length (sd_list d) <= length (received r (sb_tr s)).
(** Reader [r] only moves forward: only read and next, no peeking. *)
Definition moves_forward (r : nat) (tr : list ev) : Prop :=
  forall e, In e tr -> match e with
    | ENew r' _ _ p _ _ => r' = r -> p = false
    | ECall r' (CRead a) _ => r' = r -> dflt (a_peek a) false = false
    | ECall r' (CNext _) _ => True
    | ECall r' _ _ => r' <> r
    | _ => True
    end.
(** The keys of the appended items, and the bounds of range calls, lie in the family [P]. *)
Definition stream_keys_in (P : pyval -> Prop) (c : cfg) (tr : list ev) : Prop :=
  forall i j x o k, In (EAppend i j x o) tr -> c_key c x = Ok k -> P k.
Definition stream_ranges_in (P : pyval -> Prop) (c : cfg) (tr : list ev) : Prop :=
  forall r g o, In (ECall r (CRange g) o) tr ->
    P (g_start g) /\ P (g_stop g) /\ (g_only_new g = true -> c_key c PNone = Raise TypeError).
(** Reader [r] is used by a for loop and nothing else. *)
Definition loop_only (r : nat) (tr : list ev) : Prop :=
  forall e, In e tr -> match e with ECall r' _ _ | ENext (Some r') _ _ => r' <> r | _ => True end.
(** No calls of drop() reach a buffer. *)
Definition no_drops (tr : list ev) : Prop := forall j n o, ~ In (EDrop (Some j) n o) tr.
(** A start() after number [j] has got as far as calling source.open(). *)
Definition superseded (j : nat) (tr : list ev) : Prop := exists k o, j < k /\ In (EOpen k o) tr.
(** Thread [i] has read [v] and is on its way to append it. *)
Definition in_hand (s : sb) (i : nat) (v : pyval) : Prop := thread_is s i (TAppend v) \/ exists j, thread_is s i (TPut j v).
(** Nobody has taken hold of the buffer of start [j] in order to write to it: no thread
    between loading it and appending, no drop() between loading it and dropping. *)
Definition no_writer (s : sb) (j : nat) : Prop :=
  (forall i x, ~ thread_is s i (TPut j x)) /\ (forall n, ~ In (j, n) (sb_dr s)).
Definition is_call (o : lop) : Prop := match o with LCall _ _ => True | _ => False end.

(** The values that thread [i] appended successfully. *)
Definition appended_ok (i : nat) (tr : list ev) : list pyval :=
  flat_map (fun e => match e with EAppend j _ x (Ok _) => if Nat.eqb j i then [x] else [] | _ => [] end) tr.
(** Why a value that was read is not in the buffer (yet). *)
Definition excused (i : nat) (t : list ev) (e : exn) (v : pyval) : Prop :=
  (exists j, In (EAppend i j v (Raise e)) t) \/ In (ENoBuf i AttributeError) t.
(** How many of the labels are steps of thread [k]. *)
Definition own (k : nat) (l : label) : nat := match l with LT i _ => if Nat.eqb i k then 1 else 0 | _ => 0 end.
Fixpoint own_steps (k : nat) (ls : list label) : nat := match ls with [] => 0 | l :: q => own k l + own_steps k q end.
(** [l], after [pre], is a return of stop(): of one called by a client, or of the one that
    start() calls itself. *)
Definition stop_returns (c : cfg) (pre : list label) (l : label) : Prop :=
  l = LStopRet \/ exists o v s b, l = LS o v /\ history c pre s /\ sb_start s = SStopClear b.
(** Whenever start() gives up the old session (line 278), next(stream_buffer) has not been
    called since a stop() returned, or not at all. *)
Definition no_next_after_stop (c : cfg) (ls : list label) : Prop :=
  forall pre o v post s, ls = pre ++ LS o v :: post -> history c pre s -> sb_start s = SClear ->
  ~ In LNextMk pre \/ exists p l q, pre = p ++ l :: q /\ stop_returns c p l /\ ~ In LNextMk q.
(** A failure of thread [i] with exception [e]: the source's read, the append or time.sleep raised. *)
Definition failure_of (i : nat) (e : exn) (x : ev) : Prop :=
  x = ERead i (Raise e) \/ (exists j v, x = EAppend i j v (Raise e)) \/ x = ENap i e.
(** Number of steps of start(). *)
Definition start_steps (ls : list label) : nat := length (filter (fun l => match l with LS _ _ => true | _ => false end) ls).
