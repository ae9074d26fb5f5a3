(** * Specification vocabulary for streams on a concrete source *)
From Coq Require Import List ZArith Bool Arith.
From Verif Require Import PyVal PyLib SortedDequeM BufferReaderM BufferSysM StreamBufferM SpecStream SourcesM.
Import ListNotations.

(** The source [so] may give the answers in [evs] (open, read and close events, in order),
    going from state [a] to state [b]. *)
Inductive plays (so : source) : so_st so -> list ev -> so_st so -> Prop :=
| pl_nil : forall a, plays so a [] a
| pl_open : forall a b x i o evs, so_open so a (b, o) -> plays so b evs x -> plays so a (EOpen i o :: evs) x
| pl_read : forall a b x i o evs, so_read so a (b, o) -> plays so b evs x -> plays so a (ERead i o :: evs) x
| pl_close : forall a b x i o evs, so_close so a (b, o) -> plays so b evs x -> plays so a (EClose i o :: evs) x.
(** A history of a StreamBuffer with configuration [c] on the source [so], in which restarts
    find the earlier threads ended. *)
Definition stream_on (so : source) (c : cfg) (ls : list label) (s : sb) : Prop :=
  history c ls s /\ orderly c ls /\ exists st, plays so (so_init so) (source_events (sb_tr s)) st.

(** The results of read_stream() that thread [i] enumerated: (0, d0), (1, d1), ... *)
Definition enumerated (ds : list pyval) : list pyval :=
  map (fun p => PTuple [PInt (Z.of_nat (fst p)); snd p]) (combine (seq 0 (length ds)) ds).
(** The strings s{start}, s{start+1}, ... below [stop]. *)
Definition counter_strings (start stop : Z) : list pyval :=
  map (fun k => PStr (115%Z :: str_of_int (start + Z.of_nat k)%Z)) (seq 0 (Z.to_nat (stop - start))).

(** ** mk_stream_buffer, with the outcomes of its read_stream() calls in view
    [rs]: for each call of read_stream(), in order, the thread that made it and its outcome. *)
Inductive simp_plays (enumerate : bool) : Z -> list ev -> list (nat * res pyval) -> Z -> Prop :=
| sip_nil : forall a, simp_plays enumerate a [] [] a
| sip_open : forall a b x i o o' evs rs, simp_open a o = (b, o') -> simp_plays enumerate b evs rs x -> simp_plays enumerate a (EOpen i o' :: evs) rs x
| sip_read : forall a b x i r o' evs rs, simp_read enumerate a r = (b, o') -> simp_plays enumerate b evs rs x ->
    simp_plays enumerate a (ERead i o' :: evs) ((i, r) :: rs) x
| sip_close : forall a b x i o o' evs rs, simp_close a o = (b, o') -> simp_plays enumerate b evs rs x -> simp_plays enumerate a (EClose i o' :: evs) rs x.
(** A history of the StreamBuffer made by mk_stream_buffer(read_stream, ..., key=key,
    maxlen=maxlen, auto_drop=auto, enumerate_data=enumerate). *)
Definition made_stream (enumerate : bool) (key : option (pyval -> res pyval)) (maxlen : option Z) (auto : pyval)
    (ls : list label) (s : sb) (rs : list (nat * res pyval)) : Prop :=
  history (simp_cfg key maxlen auto) ls s /\ orderly (simp_cfg key maxlen auto) ls /\
  exists x, simp_plays enumerate 0 (source_events (sb_tr s)) rs x.
(** The values that read_stream() returned to thread [i], in order. *)
Definition returned (i : nat) (rs : list (nat * res pyval)) : list pyval :=
  flat_map (fun p => match snd p with Ok d => if Nat.eqb (fst p) i then [d] else [] | Raise _ => [] end) rs.
Definition not_none (d : pyval) : bool := match d with PNone => false | _ => true end.
