(** * Specification: an append-only log with a retention window and integer cursors

    Nothing here searches by key for a reader's position: a reader is a number, the position
    just after the last item it has seen. *)
From Coq Require Import List ZArith Bool Arith.
From Verif Require Import PyVal PyLib SortedDequeM BufferReaderM BufferSysM Spec SpecReader.
Import ListNotations.

(** A reader: its position and its defaults. *)
Record scur := MkC { c_pos : nat; c_n : Z; c_peek : bool; c_ignore : bool; c_strict : bool }.
(** [lg]: everything accepted so far; the first [lg_base] entries are gone. *)
Record slog := MkL { lg : list pyval; lg_base : nat; lg_rds : list scur }.
Definition window (s : slog) : list pyval := skipn (lg_base s) (lg s).

Definition goto (c : scur) (p : nat) : scur := MkC p (c_n c) (c_peek c) (c_ignore c) (c_strict c).
Definition nothing (ignore : bool) (e : exn) : res rval := if ignore then Ok VNone else Raise e.

Section Calls.
  Variable key : pyval -> res pyval.
  Variable log : list pyval.
  Variable base : nat.

  (** First position [c] has not seen and that is still retained. *)
  Definition next_pos (c : scur) : nat := Nat.max (c_pos c) base.

  Definition log_read (c : scur) (n : Z) (peek ignore strict : bool) : scur * res rval :=
    let avail := skipn (next_pos c) log in
    match avail with
    | [] => (c, nothing ignore ValueError)
    | x :: _ =>
        if Z.leb n 1 then (if peek then c else goto c (S (next_pos c)), Ok (VItem x))
        else if strict && Z.leb (Z.of_nat (length avail)) n then (c, Raise ValueError)
        else (if peek then c else goto c (Nat.min (next_pos c + Z.to_nat n) (length log)),
              Ok (VList (firstn (Z.to_nat n) avail)))
    end.
  Definition log_next (c : scur) (stopped : bool) : scur * res rval :=
    match skipn (next_pos c) log with
    | [] => (c, if stopped then Raise StopIteration else Ok VNone)
    | _ => log_read c (c_n c) (c_peek c) true (c_strict c)
    end.
  Definition log_tail (c : scur) (peek ignore only_new : bool) : scur * res rval :=
    match rev (skipn (if only_new then next_pos c else base) log) with
    | [] => (c, nothing ignore (if only_new then ValueError else IndexError))
    | x :: _ => (if peek then c else goto c (length log), Ok (VItem x))
    end.
  Definition log_head (c : scur) (peek : bool) : scur * res rval :=
    match skipn base log with
    | [] => (c, Raise IndexError)
    | x :: _ => (if peek then c else goto c (S base), Ok (VItem x))
    end.
  Definition log_range (c : scur) (g : rgargs) : scur * res rval :=
    let w := skipn base log in
    let ignore := dflt (g_ignore g) (c_ignore c) in
    let hits := filter (fun px => (negb (g_only_new g) || Nat.leb (c_pos c) (fst px)) &&
                          key_sat key (above_start key w (g_start g) (g_start_le g)) (snd px) &&
                          key_sat key (below_stop key w (g_stop g) (g_stop_ge g)) (snd px))
                       (combine (seq base (length w)) w) in
    if g_only_new g && Nat.ltb 0 (c_pos c) && Nat.leb (length log) (next_pos c)
    then (c, nothing ignore ValueError)
    else if g_stop_ge g && match ceil_key key w (g_stop g) with None => true | Some _ => false end
    then (c, nothing ignore ValueError)
    else if bad_step (g_step g) then (c, Raise ValueError)
    else let out := stepped (g_step g) hits in
    if g_peek g then (c, Ok (VList (map snd out)))
    else match rev out with
         | [] => (c, nothing ignore IndexError)
         | (p, _) :: _ => (goto c (S p), Ok (VList (map snd out)))
         end.
  Definition log_call (c : scur) (a : call) : scur * res rval :=
    match a with
    | CRead a => log_read c (dflt (a_n a) (c_n c)) (dflt (a_peek a) false)
                   (dflt (a_ignore a) (c_ignore c)) (dflt (a_strict a) (c_strict c))
    | CNext s => log_next c s
    | CRange g => log_range c g
    | CTail p i o => log_tail c p i o
    | CHead p => log_head c p
    end.
End Calls.

Definition log_step (key : pyval -> res pyval) (maxlen : option nat) (s : slog) (o : lop) : slog * lout :=
  match o with
  | LAppend x =>
      match key x with
      | Raise e => (s, OUnit (Raise e))
      | Ok k =>
          if match rev (window s) with [] => true | y :: _ => key_sat key (fun ky => ltb ky k) y end
          then (MkL (lg s ++ [x])
                    (match maxlen with
                     | Some m => if Nat.ltb m (length (window s) + 1) then S (lg_base s) else lg_base s
                     | None => lg_base s end)
                    (lg_rds s), OUnit (Ok tt))
          else (s, OUnit (Raise ValueError))
      end
  | LDrop n =>
      (MkL (lg s) (Nat.min (lg_base s + Z.to_nat n) (length (lg s))) (lg_rds s),
       OUnit (if Nat.leb (Z.to_nat n) (length (window s)) then Ok tt else Raise IndexError))
  | LMk n p st ig => (MkL (lg s) (lg_base s) (lg_rds s ++ [MkC 0 n p ig st]), OUnit (Ok tt))
  | LCall i c =>
      match nth_error (lg_rds s) i with
      | None => (s, ONoReader)
      | Some r => let (r', v) := log_call key (lg s) (lg_base s) r c in
                  (MkL (lg s) (lg_base s) (set_nth (lg_rds s) i r'), OVal v)
      end
  end.
Fixpoint log_run key maxlen (s : slog) (ops : list lop) : slog * list lout :=
  match ops with
  | [] => (s, [])
  | o :: ops' => let (s1, v) := log_step key maxlen s o in
                 let (s2, vs) := log_run key maxlen s1 ops' in (s2, v :: vs)
  end.
Definition empty_log : slog := MkL [] 0 [].

(** Histories considered: no appended item is None (the source thread never appends None),
    keys and range bounds lie in the family [P], and the key function raises TypeError on
    None if range(only_new_items=True) is used (see C32 for what happens otherwise). *)
Definition op_ok (P : pyval -> Prop) (key : pyval -> res pyval) (o : lop) : Prop :=
  match o with
  | LAppend x => x <> PNone /\ forall k, key x = Ok k -> P k
  | LCall _ (CRange g) => P (g_start g) /\ P (g_stop g) /\
      (g_only_new g = true -> key PNone = Raise TypeError)
  | _ => True
  end.

(** The items passed to append, and those accepted. *)
Fixpoint appended (ops : list lop) : list pyval :=
  match ops with
  | [] => []
  | LAppend x :: ops' => x :: appended ops'
  | _ :: ops' => appended ops'
  end.
Fixpoint accepted (ops : list lop) (outs : list lout) : list pyval :=
  match ops, outs with
  | LAppend x :: ops', OUnit (Ok _) :: outs' => x :: accepted ops' outs'
  | _ :: ops', _ :: outs' => accepted ops' outs'
  | _, _ => []
  end.
(** The items reader [i] got from its calls, in order. *)
Definition got_from (v : lout) : list pyval :=
  match v with OVal (Ok (VList l)) => l | OVal (Ok (VItem PNone)) => [] | OVal (Ok (VItem x)) => [x] | _ => [] end.
Fixpoint got (i : nat) (ops : list lop) (outs : list lout) : list pyval :=
  match ops, outs with
  | LCall j _ :: ops', v :: outs' => (if Nat.eqb i j then got_from v else []) ++ got i ops' outs'
  | _ :: ops', _ :: outs' => got i ops' outs'
  | _, _ => []
  end.

(** [subseq a b]: [a] is [b] with some elements left out. *)
Inductive subseq {A} : list A -> list A -> Prop :=
| subseq_nil : subseq [] []
| subseq_skip : forall a b x, subseq a b -> subseq a (x :: b)
| subseq_take : forall a b x, subseq a b -> subseq (x :: a) (x :: b).

(** The [peek] defaults the readers were made with, by reader number. *)
Fixpoint made (ops : list lop) : list bool :=
  match ops with
  | [] => []
  | LMk _ p _ _ :: ops' => p :: made ops'
  | _ :: ops' => made ops'
  end.
(** Reader [i] only moves forward: it only uses read and next, and does not peek. *)
Definition forward (i : nat) (o : lop) : Prop :=
  match o with
  | LCall j (CRead a) => j = i -> dflt (a_peek a) false = false
  | LCall j (CNext _) => True
  | LCall j _ => j <> i
  | _ => True
  end.
Definition forward_reader (i : nat) (ops : list lop) : Prop :=
  Forall (forward i) ops /\ nth_error (made ops) i <> Some true.

(** The calls that are not another reader's. *)
Definition not_others (i : nat) (o : lop) : bool :=
  match o with LCall j _ => Nat.eqb i j | _ => true end.

(** Reader [i] keeps up: at no point of the history are more items gone from the buffer than
    the reader has got. *)
Definition keeps_up (d0 : sdeque) (i : nat) (ops : list lop) : Prop :=
  forall pre post, ops = pre ++ post ->
    let (s, outs) := bsys_run (MkBS d0 []) pre in
    length (accepted pre outs) - length (sd_list (s_buf s)) <= length (got i pre outs).
