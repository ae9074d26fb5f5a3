(** * [auto_drop] assigned while the stream exists  (/repo/stream2py/stream_buffer.py:138, 165-175, 252-264)

    [auto_drop] is a public attribute, read by drop() (171) and by every round of a reading
    thread (256); [StreamBufferM] takes it as fixed. Here any client may assign it at any
    time; each step of the stream uses the value of that moment. *)
From Coq Require Import List ZArith Bool Arith.
From Verif Require Import PyVal PyLib SortedDequeM BufferReaderM BufferSysM StreamBufferM.
Import ListNotations.

(** The attributes of the stream, with this value of [auto_drop]. *)
Definition with_auto (c : cfg) (a : pyval) : cfg := MkCfg (c_key c) (c_maxlen c) a.
Record ad := MkAd { ad_sb : sb; ad_auto : pyval }.
(** [__init__] (138). *)
Definition ad0 (c : cfg) : ad := MkAd sb0 (c_auto c).
(** A step of the stream, or the assignment [stream_buffer.auto_drop = v]. *)
Inductive alabel := AStep (l : label) | ASet (v : pyval).
Definition ad_step (c : cfg) (A : ad) (x : alabel) : option ad :=
  match x with
  | AStep l => match sb_step (with_auto c (ad_auto A)) (ad_sb A) l with
               | Some s' => Some (MkAd s' (ad_auto A))
               | None => None
               end
  | ASet v => Some (MkAd (ad_sb A) v)
  end.
Fixpoint ad_run (c : cfg) (A : ad) (xs : list alabel) : option ad :=
  match xs with
  | [] => Some A
  | x :: q => match ad_step c A x with Some A' => ad_run c A' q | None => None end
  end.
