(** * Specification: calls on a stream take effect at one instant *)
From Coq Require Import List ZArith Bool Arith.
From Verif Require Import PyVal PyLib SortedDequeM BufferReaderM BufferSysM RWLockM ReaderStepsM SpecLin StreamBufferM SpecStream StreamFineM.
Import ListNotations.

(** A history in which every append and every reader call also has an instant ([GA]) at which
    it takes effect, with its answer. *)
Inductive gev := GE (e : ev) | GI (j i : nat) (o : lop) | GA (j i : nat) (o : lop) (v : lout) | GR (j i : nat) (o : lop) (v : lout).
(** Without the instants: what can be seen from outside. *)
Definition seen_f (w : list gev) : list fev :=
  flat_map (fun g => match g with GE e => [FEv e] | GI j i o => [FInv j i o] | GR j i o v => [FRes j i o v] | GA _ _ _ _ => [] end) w.
(** Without the beginnings and ends: the history in which each append and each call is one event. *)
Definition taken (clients : nat) (w : list gev) : list ev :=
  flat_map (fun g => match g with
                     | GE e => [e]
                     | GA j i (LAppend x) (OUnit u) => [EAppend (i - clients) j x u]
                     | GA _ _ (LCall r cl) (OVal v) => [ECall r cl v]
                     | _ => []
                     end) w.
(** What thread [i] did on the buffer of start [j]. *)
Definition on_buf (j i : nat) (w : list gev) : list xev :=
  flat_map (fun g => match g with
                     | GE _ => []
                     | GI j' i' o => if Nat.eqb j' j && Nat.eqb i' i then [XInv i o] else []
                     | GA j' i' o v => if Nat.eqb j' j && Nat.eqb i' i then [XAct i o v] else []
                     | GR j' i' o v => if Nat.eqb j' j && Nat.eqb i' i then [XRes i o v] else []
                     end) w.

(** Nobody is inside a buffer. *)
Definition nobody_inside (f : fsb) : Prop := forall j L, the_lock f j = Some L -> at_rest L.
(** The reading threads stand where they stand in [s], and the events, buffers and cursors are those of [s]. *)
Definition same_threads (f : fsb) (s : sb) : Prop :=
  length (sb_ss (f_s f)) = length (sb_ss s) /\
  forall i e e', nth_error (sb_ss (f_s f)) i = Some e -> nth_error (sb_ss s) i = Some e' ->
    se_set e = se_set e' /\ se_info e = se_info e' /\ se_pc e = se_pc e'.
Definition same_outside (s0 s : sb) : Prop :=
  sb_cur s0 = sb_cur s /\ sb_start s0 = sb_start s /\ sb_stops s0 = sb_stops s /\ sb_next s0 = sb_next s /\ sb_nx s0 = sb_nx s.
Definition same_buffers (f : fsb) (s : sb) : Prop := forall j, option_map the_buf (the_lock f j) = buf_of s j.
Definition same_readers (f : fsb) (s : sb) : Prop :=
  length (sb_rds (f_s f)) = length (sb_rds s) /\
  forall r q q', nth_error (sb_rds (f_s f)) r = Some q -> nth_error (sb_rds s) r = Some q' ->
    rd_sess q = rd_sess q' /\ rd_ev q = rd_ev q' /\ rd_info q = rd_info q' /\
    exists L, the_lock f (rd_sess q) = Some L /\ nth_error (ls_rds L) r = Some (rd_r q').

(** The calls on reader [r] that returned, with their answers, in order; and those of a history
    of whole calls. *)
Definition returned_by (r : nat) (tr : list fev) : list (call * res rval) :=
  flat_map (fun e => match e with FRes _ _ (LCall r' cl) (OVal v) => if Nat.eqb r' r then [(cl, v)] else [] | _ => [] end) tr.
Definition answered_by (r : nat) (tr : list ev) : list (call * res rval) :=
  flat_map (fun e => match e with ECall r' cl v => if Nat.eqb r' r then [(cl, v)] else [] | _ => [] end) tr.

(** ** What clients and the source do, in the events that can be seen from outside *)
(** The items that came back from the calls on reader [r], in the order of the returns. *)
Definition received_f (r : nat) (tr : list fev) : list pyval :=
  flat_map (fun e => match e with FRes _ _ (LCall r' _) (OVal (Ok v)) => if Nat.eqb r' r then items_of v else [] | _ => [] end) tr.
(** All items given to append have their keys in [P], all bounds of ranges are in [P]. *)
Definition keys_in_f (P : pyval -> Prop) (c : cfg) (tr : list fev) : Prop :=
  forall j i x k, In (FInv j i (LAppend x)) tr -> c_key c x = Ok k -> P k.
Definition ranges_in_f (P : pyval -> Prop) (c : cfg) (tr : list fev) : Prop :=
  forall j i r g, In (FInv j i (LCall r (CRange g))) tr ->
    P (g_start g) /\ P (g_stop g) /\ (g_only_new g = true -> c_key c PNone = Raise TypeError).
(** Reader [r] is made without peek, is used for read() without peek only, and is never attached again. *)
Definition only_reads_f (r : nat) (tr : list fev) : Prop :=
  (forall j n p st ig, In (FEv (ENew r j n p st ig)) tr -> p = false) /\
  (forall j i cl, In (FInv j i (LCall r cl)) tr -> exists a, cl = CRead a /\ dflt (a_peek a) false = false) /\
  (forall j, ~ In (FEv (EAttach r (Ok j))) tr).
(** Nobody called range(only_new_items=True). *)
Definition no_new_ranges (tr : list fev) : Prop := forall j i r g, In (FInv j i (LCall r (CRange g))) tr -> g_only_new g = false.
(** A step of a thread that is inside a buffer; a step that is made without a client: inside a
    buffer, or by reading thread [i]. *)
Definition inside_step (l : flabel) : Prop := match l with FGo _ _ => True | _ => False end.
Definition no_client_step (i : nat) (l : flabel) : Prop :=
  match l with FGo _ _ => True | FPut k => k = i | FOut (LT k _) => k = i | _ => False end.
