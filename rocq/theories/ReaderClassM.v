(** * SourceReader, QuickSourceReader and HTTPResponseReader *)
From Coq Require Import List ZArith QArith Bool Arith.
From Verif Require Import PyVal PyLib SortedDequeM BufferReaderM BufferSysM StreamBufferM StreamSourceM SourcesM.
Import ListNotations.
Open Scope nat_scope.

(** ** Iteration
    One round of the loop in [__iter__]: the outcomes of read(), of is_valid_data() on what
    was read and of when_no_data(). *)
Record round_of := MkRound { ro_read : res pyval; ro_valid : pyval -> res bool; ro_wait : res unit }.
(** SourceReader.__iter__ (/repo/stream2py/source_reader.py:80-86). *)
Definition plain_round (r : res pyval) : round_of := MkRound r (fun d => Ok (negb (is_none d))) (Ok tt).
(** QuickSourceReader.__iter__ (211-217) with is_valid_data (219-230) and when_no_data
    (232-244) overridden at will. [None]: the rounds given are over, and the generator is
    still looking. Otherwise: what next() yields or raises, and the rounds left. *)
Fixpoint gen_next (rs : list round_of) : option (res pyval * list round_of) :=
  match rs with
  | [] => None
  | MkRound r v w :: q =>
      match r with
      | Raise e => Some (Raise (from_generator e), q)
      | Ok d =>
          match v d with
          | Raise e => Some (Raise (from_generator e), q)
          | Ok true => Some (Ok d, q)
          | Ok false => match w with Raise e => Some (Raise (from_generator e), q) | Ok _ => gen_next q end
          end
      end
  end.
(** [n] calls of next() on the iterator; [fin]: the generator has ended by an exception. *)
Fixpoint gen_nexts (n : nat) (fin : bool) (rs : list round_of) : option (list (res pyval) * list round_of) :=
  match n with
  | O => Some ([], rs)
  | S n =>
      if fin then match gen_nexts n true rs with Some (l, q) => Some (Raise StopIteration :: l, q) | None => None end
      else match gen_next rs with
           | None => None
           | Some (o, q) => match gen_nexts n (match o with Ok _ => false | Raise _ => true end) q with
                            | Some (l, q') => Some (o :: l, q') | None => None end
           end
  end.

(** ** [closed] *)
(** How a subclass's open() and close() treat [_closed]: QuickSourceReader (246-254) and the
    class in the docstring (29-44) set it last; HTTPResponseReader
    (/repo/stream2py/sources/http.py:100-109), SimplifiedSourceReader
    (/repo/stream2py/simply.py:91-107) and the example SimpleCounterString
    (/repo/stream2py/examples/source_reader.py:15-28) do not. *)
Inductive subclass := SetsFlag | LeavesFlag.
(** Calls, with the outcome of the subclass's open() or close(). *)
Inductive sr_op := SOpenCall (o : res unit) | SCloseCall (o : res unit) | SEnter (o : res unit) | SExit (o : res unit).
(** open (95), close (100) of the subclass; __enter__ (167-170), __exit__ (172-174). State:
    [_closed], which is True at first (78). *)
Definition sub_open (k : subclass) (cl : bool) (o : res unit) : bool := match k, o with SetsFlag, Ok _ => false | _, _ => cl end.
Definition sub_close (k : subclass) (cl : bool) (o : res unit) : bool := match k, o with SetsFlag, Ok _ => true | _, _ => cl end.
Definition sr_step (k : subclass) (cl : bool) (p : sr_op) : bool :=
  match p with
  | SOpenCall o => sub_open k cl o
  | SCloseCall o => sub_close k cl o
  | SEnter o => match o with Ok _ => false | Raise _ => sub_open k cl o end
  | SExit o => match o with Ok _ => true | Raise _ => sub_close k cl o end
  end.
(** [closed] (131-139) after the calls [ps]. *)
Definition sr_closed (k : subclass) (ps : list sr_op) : bool := fold_left (sr_step k) ps true.

(** ** HTTPResponseReader (/repo/stream2py/sources/http.py) *)
Definition str := list Z.
(** [str.upper] on ASCII letters; the code only compares the result with 'GET', which no
    other character maps into. *)
Definition upper (s : str) : str := map (fun c => if ((97 <=? c) && (c <=? 122))%Z then (c - 32)%Z else c) s.
Definition GET : str := [71; 69; 84]%Z.
Definition POST : str := [80; 79; 83; 84]%Z.
(** Constructor arguments (27-37). [h_size]: response_read_args. *)
Record http_args := MkHttp { h_url : str; h_method : str; h_headers : option (list (str * str)); h_body : pyval; h_encoding : str }.
(** urllib.request.Request. Not modelled: it rejects urls without a scheme, and capitalizes
    header names. *)
Record request := MkReq { q_url : str; q_data : option pyval; q_headers : list (str * str); q_method : option str }.
(** Request.get_method: an empty or missing method gives POST with data and GET without. *)
Definition get_method (q : request) : str :=
  match q_method q with Some (c :: m) => c :: m | _ => match q_data q with Some _ => POST | None => GET end end.
(** [headers or {}] (44). *)
Definition headers_of (a : http_args) : list (str * str) := match h_headers a with Some h => h | None => [] end.
Definition str_eqb (a b : str) : bool := if list_eq_dec Z.eq_dec a b then true else false.
(** The request that the constructor builds (53-60) and keeps as [_request]. *)
Definition init_request (a : http_args) : request :=
  MkReq (h_url a) (if str_eqb (upper (h_method a)) GET then None else Some (h_body a)) (headers_of a) (Some (h_method a)).
(** The request that open() sends (100-104): [_request] is not used. *)
Definition open_request (a : http_args) : request := MkReq (h_url a) None (headers_of a) None.

(** State: [_response], which is '' at first and None after close(), both false; and
    [_n_bytes_read], set to 0 by the constructor (57). *)
Record http := MkHS { hs_resp : option nat; hs_bytes : Z }.
Definition http0 : http := MkHS None 0.
(** What happens outside: a request is sent, a response is closed or read. *)
Inductive hev := HSend (q : request) (o : res nat) | HExit (id : nat) (o : res unit) | HRead (id : nat) (o : res pyval).
(** Calls: open() with the response or exception of urlopen; close() with the outcome of
    response.__exit__(); read() with the outcome of response.read() (followed by decode() if
    an encoding is given) and the time. *)
Inductive hop := HOpen (o : res nat) | HClose (o : res unit) | HReadCall (o : res pyval) (now : pyval).
(** open (100-104), close (106-109), read (111-119): new state, events, outcome. *)
Definition http_step (a : http_args) (s : http) (p : hop) : http * list hev * res pyval :=
  match p with
  | HOpen o => match o with
               | Ok id => (MkHS (Some id) (hs_bytes s), [HSend (open_request a) o], Ok PNone)
               | Raise e => (s, [HSend (open_request a) o], Raise e)
               end
  | HClose o => match hs_resp s with
                | None => (s, [], Ok PNone)
                | Some id => match o with
                             | Ok _ => (MkHS None (hs_bytes s), [HExit id o], Ok PNone)
                             | Raise e => (s, [HExit id o], Raise e)
                             end
                end
  | HReadCall o now => match hs_resp s with
                       | None => (s, [], Raise AttributeError)
                       | Some id => (s, [HRead id o], match o with Ok d => Ok (PTuple [now; d]) | Raise e => Raise e end)
                       end
  end.
Fixpoint http_run (a : http_args) (s : http) (ps : list hop) : http * list hev * list (res pyval) :=
  match ps with
  | [] => (s, [], [])
  | p :: q => let '(s1, e1, o1) := http_step a s p in let '(s2, e2, o2) := http_run a s1 q in (s2, e1 ++ e2, o1 :: o2)
  end.
(** [info['n_bytes_read']] (84-88). *)
Definition info_bytes (s : http) : Z := hs_bytes s.
(** The source as a StreamBuffer sees it. The answers of the network are open. *)
Definition http_source (a : http_args) : source :=
  MkSource http http0
    (fun s p => exists o, p = let '(s1, _, r) := http_step a s (HOpen o) in (s1, match r with Ok _ => Ok tt | Raise e => Raise e end))
    (fun s p => exists o now, p = let '(s1, _, r) := http_step a s (HReadCall o now) in (s1, r))
    (fun s p => exists o, p = let '(s1, _, r) := http_step a s (HClose o) in (s1, match r with Ok _ => Ok tt | Raise e => Raise e end)).
(** key (90-97). *)
Definition http_key (d : pyval) : res pyval := Ok d.
