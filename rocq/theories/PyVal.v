(** * Python values, exceptions and comparisons

    Models the part of the Python language the repo relies on: the values that flow
    through a stream (items and keys), exceptions, and the operators [==], [<], [>].
    Source: CPython semantics of the operators used at
    /repo/stream2py/utility/sorted_deque.py:101 ([k > self._keys[-1]]),
    /repo/stream2py/utility/sorted_deque.py:137, sorted_collection.py:170 ([==]),
    and inside [bisect] ([<]), /repo/stream2py/buffer_reader.py:272 ([start > _next_key]).

    Simplifications: ints, bools and floats are compared by exact value (CPython does
    that too); a finite float is represented by the rational number it denotes; two NaN
    objects are never "the same object" inside a tuple; objects of any other type
    ([PObj]) have identity equality and no ordering. *)
From Coq Require Import List ZArith QArith Bool Arith.
Import ListNotations.
Open Scope nat_scope.

(** Exceptions that the modelled code raises or catches
    (/repo/stream2py/exceptions.py:8-37 for StreamNotStartedError). [OtherError] stands
    for whatever user code (key functions, sources) may raise besides those;
    [OutOfFuel] is a model artefact that is proved never to occur. *)
Inductive exn :=
| ValueError | TypeError | IndexError | KeyError | AttributeError | RuntimeError
| StopIteration | StreamNotStartedError | AssertionError | OtherError (n : nat) | OutOfFuel.

(** Outcome of a Python call: a value or a raised exception. *)
Inductive res (A : Type) := Ok (a : A) | Raise (e : exn).
Arguments Ok {A} a.
Arguments Raise {A} e.

Definition bind {A B} (x : res A) (f : A -> res B) : res B :=
  match x with Ok a => f a | Raise e => Raise e end.
Notation "'let!' x := e 'in' k" := (bind e (fun x => k))
  (at level 200, x pattern, right associativity).

Definition exn_eqb (a b : exn) : bool :=
  match a, b with
  | ValueError, ValueError | TypeError, TypeError | IndexError, IndexError
  | KeyError, KeyError | AttributeError, AttributeError | RuntimeError, RuntimeError
  | StopIteration, StopIteration | StreamNotStartedError, StreamNotStartedError
  | AssertionError, AssertionError | OutOfFuel, OutOfFuel => true
  | OtherError n, OtherError m => Nat.eqb n m
  | _, _ => false
  end.

(** Float values. *)
Inductive pyfloat := FNaN | FNegInf | FPosInf | FFin (q : Q).

(** Python values. *)
Inductive pyval :=
| PNone
| PBool (b : bool)
| PInt (z : Z)
| PFloat (f : pyfloat)
| PStr (s : list Z)       (* code points *)
| PBytes (s : list Z)     (* byte values *)
| PTuple (l : list pyval)
| PObj (id : nat).        (* any other object, by identity *)

(** Numeric value of an int / bool / float (bool is a subclass of int). *)
Definition num_of (v : pyval) : option pyfloat :=
  match v with
  | PBool b => Some (FFin (if b then 1 else 0)%Q)
  | PInt z => Some (FFin (inject_Z z))
  | PFloat f => Some f
  | _ => None
  end.

Definition Qlt_bool (a b : Q) : bool := negb (Qle_bool b a).

(** Numeric [==] and [<]; every comparison with NaN is false. *)
Definition flt_eq (a b : pyfloat) : bool :=
  match a, b with
  | FNegInf, FNegInf | FPosInf, FPosInf => true
  | FFin p, FFin q => Qeq_bool p q
  | _, _ => false
  end.
Definition flt_lt (a b : pyfloat) : bool :=
  match a, b with
  | FNaN, _ | _, FNaN => false
  | FNegInf, FNegInf => false
  | FNegInf, _ => true
  | _, FNegInf => false
  | FPosInf, _ => false
  | FFin _, FPosInf => true
  | FFin p, FFin q => Qlt_bool p q
  end.

(** [==] and [<] of str / bytes: lexicographic on code points. *)
Fixpoint zs_eq (a b : list Z) : bool :=
  match a, b with
  | [], [] => true
  | x :: a', y :: b' => Z.eqb x y && zs_eq a' b'
  | _, _ => false
  end.
Fixpoint zs_lt (a b : list Z) : bool :=
  match a, b with
  | _, [] => false
  | [], _ :: _ => true
  | x :: a', y :: b' => if Z.eqb x y then zs_lt a' b' else Z.ltb x y
  end.

(** Python [a == b] (never raises for these types). *)
Fixpoint py_eq (a b : pyval) {struct a} : bool :=
  match a, b with
  | PNone, PNone => true
  | PStr s, PStr t => zs_eq s t
  | PBytes s, PBytes t => zs_eq s t
  | PTuple l, PTuple m =>
      (fix go (l m : list pyval) {struct l} : bool :=
         match l, m with
         | [], [] => true
         | x :: l', y :: m' => py_eq x y && go l' m'
         | _, _ => false
         end) l m
  | PObj i, PObj j => Nat.eqb i j
  | _, _ =>
      match num_of a, num_of b with
      | Some x, Some y => flt_eq x y
      | _, _ => false
      end
  end.

(** Python [a < b]; [TypeError] when the types do not support it. Tuples compare at the
    first position where they differ by [==]. *)
Fixpoint py_lt (a b : pyval) {struct a} : res bool :=
  match a, b with
  | PStr s, PStr t => Ok (zs_lt s t)
  | PBytes s, PBytes t => Ok (zs_lt s t)
  | PTuple l, PTuple m =>
      (fix go (l m : list pyval) {struct l} : res bool :=
         match l, m with
         | _, [] => Ok false
         | [], _ :: _ => Ok true
         | x :: l', y :: m' => if py_eq x y then go l' m' else py_lt x y
         end) l m
  | _, _ =>
      match num_of a, num_of b with
      | Some x, Some y => Ok (flt_lt x y)
      | _, _ => Raise TypeError
      end
  end.

(** Python [a > b]: for the modelled types it is [b < a], errors included. *)
Definition py_gt (a b : pyval) : res bool := py_lt b a.

(** [x is None]. *)
Definition is_none (v : pyval) : bool := match v with PNone => true | _ => false end.

(** Structural equality of values; over-approximates Python's identity test [is] (the
    only observable difference is that a NaN counts as identical to itself). *)
Definition Q_eq_dec (a b : Q) : {a = b} + {a <> b}.
Proof. decide equality; [apply Pos.eq_dec | apply Z.eq_dec]. Defined.
Definition pyfloat_eq_dec (a b : pyfloat) : {a = b} + {a <> b}.
Proof. decide equality; apply Q_eq_dec. Defined.
Fixpoint pyval_eq_dec (a b : pyval) {struct a} : {a = b} + {a <> b}.
Proof.
  decide equality;
    first [ apply bool_dec | apply Z.eq_dec | apply pyfloat_eq_dec | apply Nat.eq_dec
          | apply (list_eq_dec Z.eq_dec) | apply (list_eq_dec pyval_eq_dec) ].
Defined.

(** Containment equality used by [in], [deque.index], [list.count]: identity or [==]
    ([PyObject_RichCompareBool]). *)
Definition same_item (a b : pyval) : bool :=
  if pyval_eq_dec a b then true else py_eq a b.
