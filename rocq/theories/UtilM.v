(** * util.py (ContextualizeCall) and defaulted_values *)
From Coq Require Import List ZArith Bool Arith.
From Verif Require Import PyVal.
Import ListNotations.

(** ** Python dictionaries
    [eqb]: equality of keys (with equal hashes). Insertion order is kept; setting an existing
    key keeps its place and its old key object. *)
Section Dict.
  Context {K V : Type} (eqb : K -> K -> bool).
  Fixpoint dict_set (d : list (K * V)) (k : K) (v : V) : list (K * V) :=
    match d with
    | [] => [(k, v)]
    | (k', v') :: q => if eqb k' k then (k', v) :: q else (k', v') :: dict_set q k v
    end.
  Fixpoint dict_get (d : list (K * V)) (k : K) : option V :=
    match d with
    | [] => None
    | (k', v') :: q => if eqb k' k then Some v' else dict_get q k
    end.
  Definition dict_update (d e : list (K * V)) : list (K * V) := fold_left (fun d p => dict_set d (fst p) (snd p)) e d.
End Dict.

(** [defaulted_values] (/repo/stream2py/buffer_reader.py:15-27; the same text at
    /repo/stream2py/stream_source.py:20-32): a dict comprehension over [items()], then
    [values()]. *)
Fixpoint defaulted_dict {K} (eqb : K -> K -> bool) (defaults : list (K * pyval)) (items : list (K * pyval)) (acc : list (K * pyval)) : res (list (K * pyval)) :=
  match items with
  | [] => Ok acc
  | (k, v) :: q =>
      match (match v with PNone => match dict_get eqb defaults k with Some w => Ok w | None => Raise KeyError end | _ => Ok v end) with
      | Ok w => defaulted_dict eqb defaults q (dict_set eqb acc k w)
      | Raise e => Raise e
      end
  end.
Definition defaulted_values {K} (eqb : K -> K -> bool) (source defaults : list (K * pyval)) : res (list pyval) :=
  match defaulted_dict eqb defaults source [] with Ok d => Ok (map snd d) | Raise e => Raise e end.

(** ** Objects and calls
    Objects are told apart by a number; the functions of util.py are named. [OExc e n]: the
    n-th element (type, value, traceback) of the information about exception [e]. *)
Inductive obj :=
| ONone | OUser (n : nat) | OExc (e : exn) (n : nat)
| ONullEnter | ONullExit      (* util.py:24-29 *)
| OFwdEnter | OFwdExit.       (* util.py:158-163 *)
(** Attribute names: the three that [__init__] assigns, [__wrapped__], and all others. *)
Inductive name := NFunc | NEnter | NExit | NWrapped | NOther (n : nat).
Definition name_eqb (a b : name) : bool :=
  match a, b with
  | NFunc, NFunc | NEnter, NEnter | NExit, NExit | NWrapped, NWrapped => true
  | NOther n, NOther m => Nat.eqb n m
  | _, _ => false
  end.
Definition attrs := list (name * obj).

(** [inspect.Parameter]. *)
Inductive kind := PositionalOnly | PositionalOrKeyword | VarPositional | KeywordOnly | VarKeyword.
Record param := MkParam { p_kind : kind; p_default : bool }.

(** What the code asks of the objects it is given. *)
Record world := MkWorld {
  w_callable : obj -> bool;                       (* callable(o) *)
  w_sig : obj -> res (list param);                (* signature(o).parameters *)
  w_dict : obj -> attrs;                          (* getattr(o, '__dict__', {}) *)
  w_assigned : obj -> list (nat * obj);           (* those of WRAPPER_ASSIGNMENTS that o has *)
  w_self : obj -> res obj;                        (* o.__self__ *)
  w_truth : obj -> bool                           (* bool(o) *)
}.
(** Calls that leave util.py. *)
Inductive meth := MEnter | MExit.
Inductive cev := ECalled (f : obj) (args : list obj) (kwargs : list (nat * obj)) | EMethod (o : obj) (m : meth) (args : list obj).
(** The outcome of the last call in the log: user code may depend on everything before. *)
Definition answers := list cev -> res obj.
Definition call_out (ans : answers) (log : list cev) (e : cev) : list cev * res obj := (log ++ [e], ans (log ++ [e])).

(** Calling an object. null_enter_func (util.py:24-25), null_exit_func (28-29),
    forward_to_instance_enter (158-159), forward_to_instance_exit (162-163); anything else is
    user code. *)
Definition call_obj (w : world) (ans : answers) (log : list cev) (f : obj) (args : list obj) (kwargs : list (nat * obj)) : list cev * res obj :=
  match f, args, kwargs with
  | ONullEnter, [a], [] => (log, Ok a)
  | ONullExit, _ :: _, [] => (log, Ok ONone)
  | OFwdEnter, [a], [] => match w_self w a with Ok i => call_out ans log (EMethod i MEnter []) | Raise e => (log, Raise e) end
  | OFwdExit, a :: rest, [] => match w_self w a with Ok i => call_out ans log (EMethod i MExit rest) | Raise e => (log, Raise e) end
  | ONullEnter, _, _ | ONullExit, _, _ | OFwdEnter, _, _ | OFwdExit, _, _ => (log, Raise TypeError)
  | _, _, _ => call_out ans log (ECalled f args kwargs)
  end.

(** [_has_min_num_of_arguments] (util.py:32-33). *)
Definition has_min_args (w : world) (f : obj) (n : nat) : res bool :=
  match w_sig w f with Ok ps => Ok (Nat.leb n (length ps)) | Raise e => Raise e end.
(** EnterFunctionValidation.is_valid (47-49). *)
Definition enter_valid (w : world) (f : obj) : res bool := if w_callable w f then has_min_args w f 1 else Ok false.
(** ExitFunctionValidation.is_valid (55-59): line 58 names the function
    [_callable_has_a_variadic_pos] instead of calling it; a function object is true, so the
    [or] yields it without looking at [obj]. *)
Definition exit_valid (w : world) (f : obj) : res bool := if w_callable w f then Ok true else Ok false.
(** TypeValidationError.validate (18-21); the exceptions are subclasses of TypeError. *)
Definition validate (r : res bool) : res unit :=
  match r with Ok true => Ok tt | Ok false => Raise TypeError | Raise e => Raise e end.

(** [wraps(func)(self)] (133), functools.update_wrapper: copy the assigned attributes, update
    [__dict__] with that of [func], set [__wrapped__]. *)
Definition update_wrapper (w : world) (d : attrs) (func : obj) : attrs :=
  let d1 := fold_left (fun d p => dict_set name_eqb d (NOther (fst p)) (snd p)) (w_assigned w func) d in
  let d2 := dict_update name_eqb d1 (w_dict w func) in
  dict_set name_eqb d2 NWrapped func.
(** ContextualizeCall.__init__ (114-133): the instance's [__dict__]. *)
Definition cc_init (w : world) (func enter exit : obj) : res attrs :=
  if w_callable w func then
    let! _ := validate (enter_valid w enter) in
    let! _ := validate (exit_valid w exit) in
    Ok (update_wrapper w (dict_set name_eqb (dict_set name_eqb (dict_set name_eqb [] NFunc func) NEnter enter) NExit exit) func)
  else Raise TypeError.
(** contextualize_with_instance (166-170). *)
Definition cc_with_instance (w : world) (func : obj) : res attrs := cc_init w func OFwdEnter OFwdExit.
(** [self.<name>] for the three attributes. They are always in [__dict__]; if they were not,
    [__getattr__] (146-147) would call itself until RecursionError, a RuntimeError. *)
Definition attr (d : attrs) (n : name) : res obj := match dict_get name_eqb d n with Some o => Ok o | None => Raise RuntimeError end.
(** [__call__] (135-136). *)
Definition cc_call (w : world) (ans : answers) (log : list cev) (d : attrs) (args : list obj) (kwargs : list (nat * obj)) : list cev * res obj :=
  match attr d NFunc with Ok f => call_obj w ans log f args kwargs | Raise e => (log, Raise e) end.
(** [__enter__] (138-140) and [__exit__] (142-144). *)
Definition cc_enter (w : world) (ans : answers) (log : list cev) (d : attrs) : list cev * res obj :=
  match attr d NEnter, attr d NFunc with
  | Ok g, Ok f => call_obj w ans log g [f] []
  | Raise e, _ | _, Raise e => (log, Raise e)
  end.
Definition exc_info (e : option exn) : list obj :=
  match e with Some e => [OExc e 0; OExc e 1; OExc e 2] | None => [ONone; ONone; ONone] end.
Definition cc_exit (w : world) (ans : answers) (log : list cev) (d : attrs) (e : option exn) : list cev * res obj :=
  match attr d NExit, attr d NFunc with
  | Ok g, Ok f => call_obj w ans log g (f :: exc_info e) []
  | Raise x, _ | _, Raise x => (log, Raise x)
  end.
(** [with cc as x: body] (the language reference's definition of the with statement). *)
Definition cc_with (w : world) (ans : answers) (log : list cev) (d : attrs) (body : obj -> list cev -> list cev * res unit) : list cev * res unit :=
  match cc_enter w ans log d with
  | (log1, Raise e) => (log1, Raise e)
  | (log1, Ok x) =>
      match body x log1 with
      | (log2, Ok _) => match cc_exit w ans log2 d None with (log3, Ok _) => (log3, Ok tt) | (log3, Raise e) => (log3, Raise e) end
      | (log2, Raise e) =>
          match cc_exit w ans log2 d (Some e) with
          | (log3, Ok v) => (log3, if w_truth w v then Ok tt else Raise e)
          | (log3, Raise e') => (log3, Raise e')
          end
      end
  end.
