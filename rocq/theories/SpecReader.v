(** * Specification vocabulary for BufferReader

    Everything is stated with linear scans over the list of buffered items. *)
From Coq Require Import List ZArith Bool Arith.
From Verif Require Import PyVal PyLib SortedDequeM BufferReaderM Spec SpecDeque.
Import ListNotations.

(** A buffer as StreamBuffer makes them: created empty, changed by append and drop only,
    with the keys of the appended items in [P]. *)
Definition buffer_in (P : pyval -> Prop) (d : sdeque) : Prop :=
  exists key maxlen d0 ops,
    sd_init [] key maxlen = Ok d0 /\ Forall is_append_or_drop ops /\
    (forall x k, In (OAppend x) ops -> key x = Ok k -> P k) /\ d = sd_run d0 ops.

(** A reader that has not seen anything, or whose cursor key is in [P] (its item need not be
    in the buffer any more). *)
Definition fresh (r : breader) : Prop := r_last_item r = PNone /\ r_last_key r = PNone.
Definition cursor_in (P : pyval -> Prop) (r : breader) : Prop := fresh r \/ P (r_last_key r).

(** Is [x] after the cursor? For a fresh reader everything is. *)
Definition is_unseen (key : pyval -> res pyval) (r : breader) (x : pyval) : bool :=
  is_none (r_last_key r) || key_sat key (fun k => ltb (r_last_key r) k) x.
Definition unseen (key : pyval -> res pyval) (r : breader) (l : list pyval) : list pyval :=
  filter (is_unseen key r) l.

(** The reader with its cursor on [x]. *)
Definition cursor_to (key : pyval -> res pyval) (x : pyval) (r : breader) : breader :=
  match key x with
  | Ok k => MkR x k (rk_n r) (rk_peek r) (rk_ignore r) (rk_strict r)
  | Raise _ => r
  end.
Definition moved (key : pyval -> res pyval) (peek : bool) (l : list pyval) (r : breader) : breader :=
  if peek then r else match last_opt l with Some x => cursor_to key x r | None => r end.

(** Key of the last item with key <= s, of the first item with key >= s. *)
Definition floor_key (key : pyval -> res pyval) (l : list pyval) (s : pyval) : option pyval :=
  match find (key_sat key (fun k => leb k s)) (rev l) with
  | Some x => match key x with Ok k => Some k | Raise _ => None end
  | None => None
  end.
Definition ceil_key (key : pyval -> res pyval) (l : list pyval) (s : pyval) : option pyval :=
  match find (key_sat key (fun k => leb s k)) l with
  | Some x => match key x with Ok k => Some k | Raise _ => None end
  | None => None
  end.
(** Lower and upper condition of [range] on a key. *)
Definition above_start key (l : list pyval) (start : pyval) (start_le : bool) (k : pyval) : bool :=
  leb start k || (start_le && match floor_key key l start with Some f => leb f k | None => false end).
Definition below_stop key (l : list pyval) (stop : pyval) (stop_ge : bool) (k : pyval) : bool :=
  leb k stop || (stop_ge && match ceil_key key l stop with Some c => leb k c | None => false end).

(** The items [range] is asked for, before taking every step-th. *)
Definition range_hits key (r : breader) (l : list pyval) (g : rgargs) : list pyval :=
  filter (fun x => (negb (g_only_new g) || is_unseen key r x) &&
                   key_sat key (above_start key l (g_start g) (g_start_le g)) x &&
                   key_sat key (below_stop key l (g_stop g) (g_stop_ge g)) x) l.

(** Every step-th of them ([None]: all); a step below 1 is refused. *)
Definition stepped {A} (step : option Z) (l : list A) : list A :=
  match step with None => l | Some s => every_nth (Z.to_nat s) l end.
Definition bad_step (step : option Z) : bool :=
  match step with None => false | Some s => Z.leb s 0 end.

(** The items in a returned value. *)
Definition items_of (v : rval) : list pyval :=
  match v with VItem x => [x] | VList l => l end.

(** Lock events: balanced and never below zero / maximal nesting depth. *)
Fixpoint depth_after (n : nat) (t : list lockev) : option nat :=
  match t with
  | [] => Some n
  | Acq :: t' => depth_after (S n) t'
  | Rel :: t' => match n with O => None | S m => depth_after m t' end
  end.
Fixpoint max_depth (n : nat) (t : list lockev) : nat :=
  match t with
  | [] => n
  | Acq :: t' => max_depth (S n) t'
  | Rel :: t' => Nat.max n (max_depth (n - 1) t')
  end.
