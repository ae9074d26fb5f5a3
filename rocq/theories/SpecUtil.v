(** * Specification vocabulary for util.py and defaulted_values *)
From Coq Require Import List ZArith Bool Arith.
From Verif Require Import PyVal UtilM.
Import ListNotations.

(** ** Mappings *)
(** A dict's keys are pairwise different. *)
Definition is_dict {K V} (eqb : K -> K -> bool) (d : list (K * V)) : Prop := ForallOrdPairs (fun p q => eqb (fst p) (fst q) = false) d.
Definition binds {K V} (eqb : K -> K -> bool) (d : list (K * V)) (k : K) (v : V) : Prop := exists k', eqb k' k = true /\ In (k', v) d.
(** [eqb] is an equality. *)
Definition is_equality {K} (eqb : K -> K -> bool) : Prop :=
  (forall a, eqb a a = true) /\ (forall a b, eqb a b = eqb b a) /\ (forall a b c, eqb a b = true -> eqb b c = true -> eqb a c = true).
(** [w] is what an entry [p] of the source stands for. *)
Definition stands_for {K} (eqb : K -> K -> bool) (defaults : list (K * pyval)) (p : K * pyval) (w : pyval) : Prop :=
  (snd p <> PNone /\ w = snd p) \/ (snd p = PNone /\ binds eqb defaults (fst p) w).

(** ** Signatures: can a function be called with [n] positional arguments? *)
Definition is_positional (p : param) : bool := match p_kind p with PositionalOnly | PositionalOrKeyword => true | _ => false end.
Definition is_varpos (p : param) : bool := match p_kind p with VarPositional => true | _ => false end.
Definition is_kwonly (p : param) : bool := match p_kind p with KeywordOnly => true | _ => false end.
Definition takes (ps : list param) (n : nat) : Prop :=
  (length (filter (fun p => is_positional p && negb (p_default p)) ps) <= n) /\
  (n <= length (filter is_positional ps) \/ existsb is_varpos ps = true) /\
  existsb (fun p => is_kwonly p && negb (p_default p)) ps = false.
(** [f] is a callable that can be called with [n] positional arguments. *)
Definition can_call (w : world) (f : obj) (n : nat) : Prop := w_callable w f = true /\ exists ps, w_sig w f = Ok ps /\ takes ps n.

(** ** The with statement around [body], when entering is the call [en] and leaving, with
    exception [x] or none, is the call [ex x]. *)
Definition with_calls (w : world) (ans : answers) (en : cev) (ex : option exn -> cev) (body : obj -> list cev -> list cev * res unit) (log log' : list cev) (r : res unit) : Prop :=
  match ans (log ++ [en]) with
  | Raise e => log' = log ++ [en] /\ r = Raise e
  | Ok v =>
      let log2 := fst (body v (log ++ [en])) in
      let b := snd (body v (log ++ [en])) in
      let x := match b with Ok _ => None | Raise e => Some e end in
      log' = log2 ++ [ex x] /\
      match ans log' with
      | Raise e => r = Raise e
      | Ok y => r = match b with Ok _ => Ok tt | Raise e => if w_truth w y then Ok tt else Raise e end
      end
  end.
(** A function that is not one of util.py's own. *)
Definition user_fn (o : obj) : Prop := match o with ONullEnter | ONullExit | OFwdEnter | OFwdExit => False | _ => True end.
(** The wrapped object's [__dict__] has none of the names that ContextualizeCall uses. *)
Definition plain (w : world) (func : obj) : Prop :=
  forall n o, In (n, o) (w_dict w func) -> n <> NFunc /\ n <> NEnter /\ n <> NExit.
