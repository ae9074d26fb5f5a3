(** * Iterating over a StreamSource, and get_timestamp
      (/repo/stream2py/stream_source.py:69-77, 159-165) *)
From Coq Require Import String List ZArith Bool Arith.
From Verif Require Import PyVal PyLib SortedDequeM BufferReaderM BufferSysM StreamBufferM StreamSourceM SourcesM.
Import ListNotations.
Open Scope string_scope.

(** ** Attribute lookup: the names bound in the class bodies *)
(** protocols.py:7-28. *)
Definition source_body : list string := ["key"; "info"; "sleep_time_on_read_none_s"; "read"; "open"; "close"].
(** stream_source.py:35-171. Names that are only annotated are not bound (here there are
    none); line 17 binds a module variable, not an attribute. *)
Definition stream_source_body : list string :=
  ["_buffer_kwargs"; "_open_readers"; "_reader_cls"; "_sleep_time_on_iter_none_s"; "_stream_buffer"; "__init__"; "__iter__";
   "set_sleep_time_on_iter_none"; "configure_buffer"; "_ensure_buffer"; "_handle_reader_open"; "_handle_reader_closed"; "open_reader";
   "sleep_time_on_read_none_s"; "get_timestamp"; "exit"].
(** source_reader.py:15-196. *)
Definition source_reader_body : list string :=
  ["_sleep_time_on_iter_none_s"; "_closed"; "__iter__"; "set_sleep_time_on_iter_none"; "open"; "close"; "info"; "key"; "closed";
   "sleep_time_on_read_none_s"; "timestamp_seconds_to_unit_conversion"; "get_timestamp"; "__enter__"; "__exit__"; "enter"; "exit"; "stream_buffer"].
(** [getattr(x, name)] along the classes [bodies]; [v]: what it evaluates to if it is there.
    The classes object, Protocol and Generic bind none of the names used below. *)
Definition lookup {A} (bodies : list (list string)) (name : string) (v : res A) : res A :=
  if existsb (String.eqb name) (concat bodies) then v else Raise AttributeError.

(** ** [__iter__] (69-77) of a subclass of StreamSource with the names [sub] (class and
    instance attributes). A round: the outcome of read(), and what [self.is_stopped]
    evaluates to, if the subclass has it. Sleeping (77) has no effect here. *)
Record sround := MkSRound { sr_read : res pyval; sr_stopped : res bool }.
(** What next() on the generator does: it yields, raises, or has ended (a return of the
    generator is a StopIteration). [None]: the rounds are over and it is still looking. *)
Fixpoint src_next (sub : list string) (rs : list sround) : option (res pyval * list sround) :=
  match rs with
  | [] => None
  | MkSRound r st :: q =>
      match r with
      | Raise e => Some (Raise (from_generator e), q)
      | Ok d =>
          if is_none d then
            match lookup [sub; stream_source_body; source_body] "is_stopped" st with
            | Raise e => Some (Raise (from_generator e), q)
            | Ok true => Some (Raise StopIteration, q)
            | Ok false => src_next sub q
            end
          else Some (Ok d, q)
      end
  end.
(** [for x in source]: the values the body gets; how the loop ended, if it did. *)
Inductive for_end := Looking | Finished | Died (e : exn).
Fixpoint for_source (fuel : nat) (sub : list string) (rs : list sround) : list pyval * for_end :=
  match fuel with
  | O => ([], Looking)
  | S f => match src_next sub rs with
           | None => ([], Looking)
           | Some (Ok d, q) => let (l, e) := for_source f sub q in (d :: l, e)
           | Some (Raise StopIteration, _) => ([], Finished)
           | Some (Raise e, _) => ([], Died e)
           end
  end.
(** As many next() calls as there are rounds. *)
Definition for_in_source (sub : list string) (rs : list sround) : list pyval * for_end := for_source (List.length rs) sub rs.

(** ** [get_timestamp] (159-165; source_reader.py:157-163); [t]: what
    [int(time.time() * 1e6)] is. *)
Definition stream_source_timestamp (sub : list string) (t : Z) : res Z :=
  lookup [sub; stream_source_body; source_body] "timestamp_seconds_to_unit_conversion" (Ok t).
Definition source_reader_timestamp (sub : list string) (t : Z) : res Z :=
  lookup [sub; source_reader_body; source_body] "timestamp_seconds_to_unit_conversion" (Ok t).
