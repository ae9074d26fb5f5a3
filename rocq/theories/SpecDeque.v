(** * Histories of a SortedDeque, for the statements in [PropsDeque.v] *)
From Coq Require Import List ZArith Bool Arith.
From Verif Require Import PyVal PyLib SortedDequeM Spec.
Import ListNotations.

(** The key function sends items of [U] to keys of [P] whenever it returns. *)
Definition key_into (U P : pyval -> Prop) (key : pyval -> res pyval) : Prop :=
  forall x k, U x -> key x = Ok k -> P k.

(** A call whose arguments are items of [U] and key functions into [P]. *)
Definition op_in (U P : pyval -> Prop) (o : sdop) : Prop :=
  match o with
  | OAppend x | OInsert x | OInsertRight x | ORemove x => U x
  | OSetKey _ key => key_into U P key
  | ODelKey => forall x, U x -> P x
  | _ => True
  end.

(** Containers obtained by the constructor and any finite sequence of public mutating
    calls, whether they raise or not. *)
Inductive reachable (U P : pyval -> Prop) : sdeque -> Prop :=
| reach_new : forall it key m d,
    Forall U it -> key_into U P key -> sd_init it key m = Ok d -> reachable U P d
| reach_step : forall d o,
    reachable U P d -> op_in U P o -> reachable U P (fst (sd_step d o)).

Definition is_append_or_drop (o : sdop) : Prop :=
  match o with OAppend _ | ODrop _ => True | _ => False end.

(** Feeding items by [append], recording the ones that were accepted. *)
Fixpoint feed (d : sdeque) (xs : list pyval) : sdeque * list pyval :=
  match xs with
  | [] => (d, [])
  | x :: xs' =>
      match sd_append d x with
      | (d', Ok _) => let (d'', acc) := feed d' xs' in (d'', x :: acc)
      | (d', Raise _) => feed d' xs'
      end
  end.

(** A call that does not assign a negative maxlen. *)
Definition no_negative_maxlen (o : sdop) : Prop :=
  match o with OSetMaxlen _ (Some m) => (0 <= m)%Z | _ => True end.

(** Pairs (key, item), the objects the constructor sorts. *)
Definition pair_before (key : pyval -> res pyval) (x y : pyval) : Prop :=
  exists kx ky, key x = Ok kx /\ key y = Ok ky /\ ltb (PTuple [ky; y]) (PTuple [kx; x]) = false.
