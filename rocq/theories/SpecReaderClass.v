(** * Specification vocabulary for the source classes *)
From Coq Require Import List ZArith Bool Arith.
From Verif Require Import PyVal PyLib SortedDequeM BufferReaderM BufferSysM StreamBufferM ReaderClassM.
Import ListNotations.

(** ** Iteration *)
(** The value of a round that is to be yielded. *)
Definition yields (r : round_of) (d : pyval) : Prop := ro_read r = Ok d /\ ro_valid r d = Ok true.
(** A round that is to be skipped. *)
Definition skips (r : round_of) : Prop := exists d, ro_read r = Ok d /\ ro_valid r d = Ok false /\ ro_wait r = Ok tt.
(** A round in which user code raises [e]. *)
Definition fails (r : round_of) (e : exn) : Prop :=
  ro_read r = Raise e \/ exists d, ro_read r = Ok d /\ (ro_valid r d = Raise e \/ (ro_valid r d = Ok false /\ ro_wait r = Raise e)).
(** [ds] are the data of the rounds [rs] that are to be yielded, in order; the other rounds
    are to be skipped. *)
Inductive valid_data : list round_of -> list pyval -> Prop :=
| vd_nil : valid_data [] []
| vd_skip : forall r rs ds, skips r -> valid_data rs ds -> valid_data (r :: rs) ds
| vd_yield : forall r rs d ds, yields r d -> valid_data rs ds -> valid_data (r :: rs) (d :: ds).

(** ** Open or closed: the latest open/enter/close/exit that succeeded decides. *)
Fixpoint open_after (was : bool) (ps : list sr_op) : bool :=
  match ps with
  | [] => was
  | (SOpenCall (Ok _) | SEnter (Ok _)) :: q => open_after true q
  | (SCloseCall (Ok _) | SExit (Ok _)) :: q => open_after false q
  | _ :: q => open_after was q
  end.
Definition by_with (p : sr_op) : Prop := match p with SEnter _ | SExit _ => True | _ => False end.
Definition direct (p : sr_op) : Prop := match p with SOpenCall _ | SCloseCall _ => True | _ => False end.
(** What a StreamBuffer does to its source. *)
Definition source_ops (tr : list ev) : list sr_op :=
  flat_map (fun e => match e with EOpen _ o => [SOpenCall o] | EClose _ o => [SCloseCall o] | _ => [] end) tr.

(** ** HTTP *)
(** The method and body that the documentation of the constructor promises; a GET request has
    no body (line 53). *)
(** 'GET' in any spelling: G, E, T or g, e, t. *)
Definition spells_get (m : list Z) : Prop :=
  exists g e t, m = [g; e; t] /\ (g = 71 \/ g = 103)%Z /\ (e = 69 \/ e = 101)%Z /\ (t = 84 \/ t = 116)%Z.
Definition sent_as_configured (a : http_args) (q : request) : Prop :=
  get_method q = h_method a /\ (spells_get (h_method a) -> q_data q = None) /\ (~ spells_get (h_method a) -> q_data q = Some (h_body a)).
Definition opened_responses (es : list hev) : list nat := flat_map (fun e => match e with HSend _ (Ok i) => [i] | _ => [] end) es.
Definition closed_responses (es : list hev) : list nat := flat_map (fun e => match e with HExit i (Ok _) => [i] | _ => [] end) es.
(** Total length of the data read. *)
Definition bytes_read (es : list hev) : Z :=
  fold_right Z.add 0%Z (map (fun e => match e with HRead _ (Ok (PBytes b)) => Z.of_nat (length b) | _ => 0%Z end) es).
(** No open() succeeds while the reader holds a response. *)
Fixpoint alternating (held : bool) (ps : list hop) : Prop :=
  match ps with
  | [] => True
  | HOpen (Ok _) :: q => held = false /\ alternating true q
  | HClose (Ok _) :: q => alternating false q
  | _ :: q => alternating held q
  end.
