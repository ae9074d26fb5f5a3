(** * Model of [StreamBuffer]  (/repo/stream2py/stream_buffer.py)

    A transition system. Its steps are the accesses of the code to state that several
    threads share: the attributes [_stop_event], [source_buffer], [_next_reader] of the
    StreamBuffer, the stop events, the buffers, and the calls to the source. A schedule is
    any list of labels; a label also says what the outside world answers (the outcome of
    source.open / read / close / info).

    Simplifications:
    - a buffer operation or reader call is one step (justified by C80 and C12-C14: it runs under the
      reader/writer lock), except that len(), which takes no lock, can find a drop() half done
      ([sb_in], [LDropIn], [LDropOne]); an append waits for that drop to end. A reader call
      need not: more schedules than the lock allows, and the call finds all items there;
    - a call to source.read() takes effect when it returns; sleeping is a step whose only effect can be
      an exception (264), so [stop()]'s one second imposes no order;
    - lines 279 and 280 are one step (nothing but [join] looks at the thread attribute);
    - the load of [self._stop_event] and the question or assignment to that event are one step
      (an event that has been replaced is already set, so a late step on it finds and does
      the same as it would have just before the replacement);
    - [next(reader)] is one step here; as two steps, its read and its look at [is_stopped], it is
      treated in [NextRaceM] (C106). The for loop over a reader is modelled in its single steps
      ([LIter]); [next(stream_buffer)] is two steps (161-162, 163);
    - [source_reader.key], [maxlen] and [auto_drop] do not change after construction (but see [AutoDropM]). *)
From Coq Require Import List ZArith Bool Arith.
From Verif Require Import PyVal PyLib SortedDequeM BufferReaderM BufferSysM.
Import ListNotations.

(** Arguments of [__init__] (117-154) that matter here, and the source's key function. *)
Record cfg := MkCfg { c_key : pyval -> res pyval; c_maxlen : option Z; c_auto : pyval }.
(** [x is True]. *)
Definition is_True (v : pyval) : bool := match v with PBool b => b | _ => false end.

(** Where the thread of a session stands in [_run] (252-271). *)
Inductive tpc :=
| TNew                       (* Thread object created (279), not started *)
| TCheck                     (* 254: while not self._stop_event.is_set() *)
| TGate                      (* 256: auto_drop? If not, load self.source_buffer *)
| TLen (j : nat)             (* 256: len of the buffer of start j, compared with maxlen *)
| TRead                      (* 257: self.source_reader.read() *)
| TAppend (x : pyval)        (* 262: load self.source_buffer, for self.source_buffer.append(data) *)
| TPut (j : nat) (x : pyval) (* 262: ... the append to the buffer of start j *)
| TSleep                     (* 264 *)
| TFinCheck (e : option exn) (* 266: finally; [e]: the exception that is propagating *)
| TFinSet (e : option exn)   (* 267 *)
| TClose (e : option exn)    (* 269 *)
| TDone (e : option exn).

(** What one start() makes: the stop event (280), the [_SourceBuffer] (287-295; [None] until
    then) with its info, and the thread (279). *)
Record sess := MkSess { se_set : bool; se_buf : option sdeque; se_info : pyval; se_pc : tpc }.

(** Where the holder of [start_lock] stands in [start] (177-184). *)
Inductive spc :=
| SFree                      (* the lock is free *)
| SCheck1                    (* 180 *)
| SStopSet (second : bool)   (* 188, called from 181 or (second) from 277 *)
| SStopClear (second : bool) (* 190 *)
| SCheck2                    (* 276 *)
| SClear                     (* 278 *)
| SFresh                     (* 279-280 *)
| SOpen                      (* 286 *)
| SBuild                     (* 287-295 *)
| SSpawn.                    (* 184 *)

(** Where a [for] loop over a reader stands (buffer_reader.py:143-174). *)
Inductive lpc :=
| ItPoll                     (* 168: the read of __next__ *)
| ItChk1                     (* 171: no data; is_stopped? *)
| ItChk2                     (* 153: is_stopped? *)
| ItEnd.
(** A BufferReader: the session whose buffer it holds and the one whose event it holds
    (stream_buffer.py:68-78), its info, its own state, and the progress of a [for] loop over
    it. *)
Record rdr := MkRdr { rd_sess : nat; rd_ev : nat; rd_info : pyval; rd_r : breader; rd_loop : lpc; rd_out : list rval }.

(** What happened, in order. *)
Inductive ev :=
| EOpen (i : nat) (o : res unit)               (* source.open() of start i *)
| EBuilt (i : nat) (info : pyval)              (* start i has made its buffer, with this info *)
| EStarted (i : nat) | EFailed (i : nat) (e : exn) (* how start i ended *)
| ERead (i : nat) (o : res pyval)              (* source.read() by thread i *)
| EAppend (i j : nat) (x : pyval) (o : res unit) (* thread i appends to the buffer of start j *)
| ENoBuf (i : nat) (e : exn)                   (* thread i finds no buffer / cannot compare *)
| EClose (i : nat) (o : res unit)              (* source.close() by thread i *)
| EStop (o : res nat)                          (* stop(): sets the event of start j *)
| ENew (r j : nat) (n : Z) (p st ig : bool)    (* reader r is made on the buffer of start j *)
| EMk (o : res nat)                            (* mk_reader() *)
| EAttach (r : nat) (o : res nat)              (* attach_reader(r), to the buffer of start j *)
| EDrop (j : option nat) (n : Z) (o : res unit)
| ENext (r : option nat) (c : call) (o : res rval) (* next(stream_buffer), through reader r *)
| ECall (r : nat) (c : call) (o : res rval)
| EPoll (r : nat) (o : res rval)               (* a poll of the for loop over reader r *)
| ENap (i : nat) (e : exn).                    (* time.sleep() of thread i raises: 264 *)

Record sb := MkSB {
  sb_ss : list sess;         (* [_stop_event], [_read_to_buffer_thread]: those of the last one *)
  sb_cur : option nat;       (* [source_buffer]: that of start j, or None *)
  sb_start : spc;
  sb_stops : nat;            (* stop() calls that are sleeping *)
  sb_next : option nat;      (* [_next_reader] *)
  sb_nx : nat;               (* next(stream_buffer) calls between lines 162 and 163 *)
  sb_dr : list (nat * Z);    (* drop(n) calls that hold the buffer of start j (175) *)
  sb_in : list (nat * (Z * nat)); (* those inside the writer section of that buffer (64-66), and how many items each has removed *)
  sb_rds : list rdr;
  sb_tr : list ev
}.
(** [__init__] (149-154). *)
Definition sb0 : sb := MkSB [] None SFree 0 None 0 [] [] [] [].

Definition log (s : sb) (e : ev) : sb :=
  MkSB (sb_ss s) (sb_cur s) (sb_start s) (sb_stops s) (sb_next s) (sb_nx s) (sb_dr s) (sb_in s) (sb_rds s) (sb_tr s ++ [e]).
Definition set_ss (s : sb) (ss : list sess) : sb :=
  MkSB ss (sb_cur s) (sb_start s) (sb_stops s) (sb_next s) (sb_nx s) (sb_dr s) (sb_in s) (sb_rds s) (sb_tr s).
Definition set_cur (s : sb) (c : option nat) : sb :=
  MkSB (sb_ss s) c (sb_start s) (sb_stops s) (sb_next s) (sb_nx s) (sb_dr s) (sb_in s) (sb_rds s) (sb_tr s).
Definition set_start (s : sb) (p : spc) : sb :=
  MkSB (sb_ss s) (sb_cur s) p (sb_stops s) (sb_next s) (sb_nx s) (sb_dr s) (sb_in s) (sb_rds s) (sb_tr s).
Definition set_stops (s : sb) (n : nat) : sb :=
  MkSB (sb_ss s) (sb_cur s) (sb_start s) n (sb_next s) (sb_nx s) (sb_dr s) (sb_in s) (sb_rds s) (sb_tr s).
Definition set_next (s : sb) (n : option nat) : sb :=
  MkSB (sb_ss s) (sb_cur s) (sb_start s) (sb_stops s) n (sb_nx s) (sb_dr s) (sb_in s) (sb_rds s) (sb_tr s).
Definition set_nx (s : sb) (n : nat) : sb :=
  MkSB (sb_ss s) (sb_cur s) (sb_start s) (sb_stops s) (sb_next s) n (sb_dr s) (sb_in s) (sb_rds s) (sb_tr s).
Definition set_dr (s : sb) (q : list (nat * Z)) : sb :=
  MkSB (sb_ss s) (sb_cur s) (sb_start s) (sb_stops s) (sb_next s) (sb_nx s) q (sb_in s) (sb_rds s) (sb_tr s).
Definition set_rds (s : sb) (r : list rdr) : sb :=
  MkSB (sb_ss s) (sb_cur s) (sb_start s) (sb_stops s) (sb_next s) (sb_nx s) (sb_dr s) (sb_in s) r (sb_tr s).
Definition set_in (s : sb) (q : list (nat * (Z * nat))) : sb :=
  MkSB (sb_ss s) (sb_cur s) (sb_start s) (sb_stops s) (sb_next s) (sb_nx s) (sb_dr s) q (sb_rds s) (sb_tr s).

Definition w_set (e : sess) : sess := MkSess true (se_buf e) (se_info e) (se_pc e).
Definition w_pc (e : sess) (p : tpc) : sess := MkSess (se_set e) (se_buf e) (se_info e) p.
Definition w_buf (e : sess) (d : sdeque) : sess := MkSess (se_set e) (Some d) (se_info e) (se_pc e).
Definition w_info (e : sess) (v : pyval) : sess := MkSess (se_set e) (se_buf e) v (se_pc e).
Definition upd {A} (l : list A) (i : nat) (f : A -> A) : list A :=
  match nth_error l i with Some e => set_nth l i (f e) | None => l end.
Definition upd_sess (s : sb) (i : nat) (f : sess -> sess) : sb := set_ss s (upd (sb_ss s) i f).
Definition set_tpc (s : sb) (i : nat) (p : tpc) : sb := upd_sess s i (fun e => w_pc e p).

(** The number of the latest start; [self._stop_event] is its event. *)
Definition latest (s : sb) : nat := length (sb_ss s) - 1.
(** [self._stop_event and not self._stop_event.is_set()] (180, 276; 237 for [is_running]). *)
Definition running (s : sb) : bool :=
  match nth_error (sb_ss s) (latest s) with Some e => negb (se_set e) | None => false end.
(** The event of start [i] is set. *)
Definition ev_set (s : sb) (i : nat) : bool :=
  match nth_error (sb_ss s) i with Some e => se_set e | None => false end.
(** The buffer of start [i]. *)
Definition buf_of (s : sb) (i : nat) : option sdeque :=
  match nth_error (sb_ss s) i with Some e => se_buf e | None => None end.
Definition info_of (s : sb) (i : nat) : pyval :=
  match nth_error (sb_ss s) i with Some e => se_info e | None => PNone end.

(** The drop that is inside the writer section of the buffer of start [j]: its argument, and
    how many items it has removed. *)
Definition dropping (s : sb) (j : nat) : option (Z * nat) :=
  option_map snd (find (fun p => Nat.eqb (fst p) j) (sb_in s)).
Definition gone (s : sb) (j : nat) : nat := match dropping s j with Some (_, k) => k | None => 0 end.
Definition out_of (q : list (nat * (Z * nat))) (j : nat) : list (nat * (Z * nat)) :=
  filter (fun p => negb (Nat.eqb (fst p) j)) q.
(** [len(self.source_buffer)] (49-50, locked_sorted_deque.py:32-33): without the lock, so in
    the middle of a drop it finds the items removed so far gone. *)
Definition len_seen (s : sb) (j : nat) (d : sdeque) : nat := sd_len d - gone s j.

(** [is_running] (230-237), readable when [start_lock] is free. *)
Definition is_running (s : sb) : bool := running s.
(** [source_reader_info] (220-228): [if self.source_buffer] asks [__len__] (49-50). *)
Definition source_reader_info (s : sb) : pyval :=
  match sb_cur s with
  | None => PNone
  | Some j => match buf_of s j with
              | Some d => if Nat.eqb (len_seen s j d) 0 then PNone else info_of s j
              | None => PNone
              end
  end.

(** Labels. [LStart]: somebody calls start() and gets the lock; [LS]: its next step, with
    the outcomes of open() and info; [LStop] / [LStopRet]: the two halves of a stop() call;
    [LNextMk] / [LNext]: the two halves of next(stream_buffer); [LDrop] / [LDropDo]: those of drop(),
    with [LDropIn] and [LDropOne] in between if somebody may look at len() meanwhile; [LT i o]: the next step of
    thread [i], with the outcome of the source call. *)
Inductive label :=
| LStart | LS (o : res unit) (info : res pyval)
| LStop | LStopRet
| LMk (n : Z) (p st ig : bool) | LAttach (r : nat) | LNextMk | LNext | LDrop (n : Z) | LDropIn (k : nat) | LDropOne (j : nat) | LDropDo (k : nat)
| LCallR (r : nat) (c : call) | LIter (r : nat)
| LT (i : nat) (o : res pyval).

(** [stop()] line 188. *)
Definition do_stop (s : sb) : sb := upd_sess s (latest s) w_set.

(** One step of [start]; an exception leaves the [with start_lock] block. *)
Definition start_step (c : cfg) (s : sb) (o : res unit) (info : res pyval) : option sb :=
  match sb_start s with
  | SFree => None
  | SCheck1 => Some (set_start s (if running s then SStopSet false else SCheck2))
  | SStopSet b => Some (set_start (do_stop s) (SStopClear b))
  | SStopClear b => Some (set_start (set_next s None) (if b then SClear else SCheck2))
  | SCheck2 => Some (set_start s (if running s then SStopSet true else SClear))
  | SClear => Some (set_start (set_cur s None) SFresh)
  | SFresh => Some (set_start (set_ss s (sb_ss s ++ [MkSess false None PNone TNew])) SOpen)
  | SOpen =>
      let s1 := log s (EOpen (latest s) o) in
      match o with
      | Ok _ => Some (set_start s1 SBuild)
      | Raise e => Some (set_start (log s1 (EFailed (latest s) e)) SFree)
      end
  | SBuild =>
      match info, sd_init [] (c_key c) (c_maxlen c) with
      | Ok v, Ok d => Some (set_start (set_cur (log (upd_sess s (latest s) (fun e => w_info (w_buf e d) v)) (EBuilt (latest s) v))
                                        (Some (latest s))) SSpawn)
      | Ok _, Raise e | Raise e, _ => Some (set_start (log s (EFailed (latest s) e)) SFree)
      end
  | SSpawn => Some (set_start (log (set_tpc s (latest s) TCheck) (EStarted (latest s))) SFree)
  end.

(** One step of thread [i] at [p] in [_run]. All attributes are looked up on [self] each
    time. *)
Definition thread_step (c : cfg) (s : sb) (i : nat) (p : tpc) (o : res pyval) : option sb :=
  match p with
  | TNew | TDone _ => None
  | TCheck => Some (set_tpc s i (if running s then TGate else TFinCheck None))
  | TGate =>
      if is_True (c_auto c) then Some (set_tpc s i TRead)
      else match sb_cur s with
           | None => Some (set_tpc (log s (ENoBuf i TypeError)) i (TFinCheck (Some TypeError)))  (* len(None) *)
           | Some j => Some (set_tpc s i (TLen j))
           end
  | TLen j =>
      match c_maxlen c with
      | None => Some (set_tpc (log s (ENoBuf i TypeError)) i (TFinCheck (Some TypeError))) (* len < None *)
      | Some m =>
          match buf_of s j with
          | Some d => Some (set_tpc s i (if Z.ltb (Z.of_nat (len_seen s j d)) m then TRead else TSleep))
          | None => None
          end
      end
  | TRead =>
      let s1 := log s (ERead i o) in
      match o with
      | Ok v => Some (set_tpc s1 i (if is_none v then TSleep else TAppend v))
      | Raise e => Some (set_tpc s1 i (TFinCheck (Some e)))
      end
  | TAppend x =>
      match sb_cur s with
      | None => Some (set_tpc (log s (ENoBuf i AttributeError)) i (TFinCheck (Some AttributeError)))
      | Some j => Some (set_tpc s i (TPut j x))
      end
  | TPut j x =>
      (* waits while a drop is inside the writer section *)
      match dropping s j with Some _ => None | None =>
      match buf_of s j with
      | Some d =>
          let (d', u) := sd_append d x in
          let s1 := log (upd_sess s j (fun e => w_buf e d')) (EAppend i j x u) in
          Some (set_tpc s1 i (match u with Ok _ => TCheck | Raise e => TFinCheck (Some e) end))
      | None => None
      end
      end
  | TSleep =>
      (* 264: raises for some sleep times, see [time_sleep] in SleepM *)
      match o with
      | Ok _ => Some (set_tpc s i TCheck)
      | Raise e => Some (set_tpc (log s (ENap i e)) i (TFinCheck (Some e)))
      end
  | TFinCheck e => Some (set_tpc s i (if running s then TFinSet e else TClose e))
  | TFinSet e => Some (set_tpc (do_stop s) i (TClose e))
  | TClose e =>
      let u := match o with Ok _ => Ok tt | Raise x => Raise x end in
      Some (set_tpc (log s (EClose i u)) i (TDone e))   (* 270-271: logged, not raised *)
  end.

(** [mk_reader] (192-205, 68-74). *)
Definition mk_rdr (s : sb) (j : nat) (n : Z) (p st ig : bool) : rdr :=
  MkRdr j j (info_of s j) (mk_breader n p st ig) ItPoll [].
Definition new_rdr (s : sb) (j : nat) (n : Z) (p st ig : bool) : sb :=
  log (set_rds s (sb_rds s ++ [mk_rdr s j n p st ig])) (ENew (length (sb_rds s)) j n p st ig).
(** [CNext]'s flag: the reader's [is_stopped]. *)
Definition with_stopped (b : bool) (c : call) : call := match c with CNext _ => CNext b | c => c end.

(** [is_same_buffer] (buffer_reader.py:183-188): the events are compared, by identity.
    Simplified: all readers of a stream are of one class. *)
Definition is_same_buffer (q1 q2 : rdr) : bool := Nat.eqb (rd_ev q1) (rd_ev q2).

(** A call on reader [r]. *)
Definition call_step (s : sb) (r : nat) (c : call) (wrap : call -> res rval -> ev) : option sb :=
  match nth_error (sb_rds s) r with
  | None => None
  | Some q =>
      match buf_of s (rd_sess q) with
      | None => None
      | Some d =>
          let c1 := with_stopped (ev_set s (rd_ev q)) c in
          let (br, v) := run (do_call d c1) (rd_r q) in
          Some (log (set_rds s (set_nth (sb_rds s) r (MkRdr (rd_sess q) (rd_ev q) (rd_info q) br (rd_loop q) (rd_out q)))) (wrap c1 v))
      end
  end.

(** One step of a [for] loop over reader [r] (buffer_reader.py:143-174). *)
Definition iter_step (s : sb) (r : nat) : option sb :=
  match nth_error (sb_rds s) r with
  | None => None
  | Some q =>
      let put br l out := Some (set_rds s (set_nth (sb_rds s) r (MkRdr (rd_sess q) (rd_ev q) (rd_info q) br l out))) in
      match rd_loop q with
      | ItPoll =>
          match buf_of s (rd_sess q) with
          | None => None
          | Some d =>
              let (br, o) := run (read_for_next d) (rd_r q) in
              let (l, out) := match o with
                              | Ok v => if rval_is_none v then (ItChk1, rd_out q) else (ItPoll, rd_out q ++ [v])
                              | Raise e => (ItEnd, rd_out q)
                              end in
              Some (log (set_rds s (set_nth (sb_rds s) r (MkRdr (rd_sess q) (rd_ev q) (rd_info q) br l out))) (EPoll r o))
          end
      | ItChk1 => put (rd_r q) (if ev_set s (rd_ev q) then ItEnd else ItChk2) (rd_out q)
      | ItChk2 => put (rd_r q) (if ev_set s (rd_ev q) then ItEnd else ItPoll) (rd_out q)
      | ItEnd => None
      end
  end.

Definition lock_free (s : sb) : bool := match sb_start s with SFree => true | _ => false end.

Definition sb_step (c : cfg) (s : sb) (l : label) : option sb :=
  match l with
  | LStart => if lock_free s then Some (set_start s SCheck1) else None
  | LS o info => start_step c s o info
  | LStop =>
      (* 188: AttributeError if there never was a start *)
      if Nat.eqb (length (sb_ss s)) 0 then Some (log s (EStop (Raise AttributeError)))
      else Some (log (set_stops (do_stop s) (S (sb_stops s))) (EStop (Ok (latest s))))
  | LStopRet =>
      match sb_stops s with
      | O => None
      | S n => Some (set_stops (set_next s None) n)
      end
  | LMk n p st ig =>
      if lock_free s then
        match sb_cur s with
        | None => Some (log s (EMk (Raise StreamNotStartedError)))
        | Some j => Some (log (new_rdr s j n p st ig) (EMk (Ok (length (sb_rds s)))))
        end
      else None
  | LAttach r =>
      (* 207-218, 76-78: buffer and event are replaced, cursor and info kept *)
      if lock_free s then
        match nth_error (sb_rds s) r with
        | None => None
        | Some q =>
            match sb_cur s with
            | None => Some (log s (EAttach r (Raise StreamNotStartedError)))
            | Some j => Some (log (set_rds s (set_nth (sb_rds s) r (MkRdr j j (rd_info q) (rd_r q) (rd_loop q) (rd_out q))))
                                  (EAttach r (Ok j)))
            end
        end
      else None
  | LNextMk =>
      (* __next__ (161-162), __call__ (305-308) *)
      match sb_next s with
      | Some _ => Some (set_nx s (S (sb_nx s)))
      | None =>
          if lock_free s then
            match sb_cur s with
            | None => Some (log s (ENext None (CNext false) (Raise StreamNotStartedError)))
            | Some j => Some (set_nx (set_next (new_rdr s j 1 false false false) (Some (length (sb_rds s)))) (S (sb_nx s)))
            end
          else None
      end
  | LNext =>
      (* 163; [_next_reader] is looked up again *)
      match sb_nx s with
      | O => None
      | S n =>
          match sb_next s with
          | Some r => call_step (set_nx s n) r (CNext false) (ENext (Some r))
          | None => Some (log (set_nx s n) (ENext None (CNext false) (Raise TypeError)))  (* next(None) *)
          end
      end
  | LDrop n =>
      (* 165-175: the check, and the load of self.source_buffer *)
      if is_True (c_auto c) then Some (log s (EDrop None n (Raise RuntimeError)))
      else match sb_cur s with
           | None => Some (log s (EDrop None n (Raise AttributeError)))
           | Some j => Some (set_dr s (sb_dr s ++ [(j, n)]))
           end
  | LDropIn k =>
      (* 64-65: the [k]th of the calls under way gets the writer lock of its buffer *)
      match nth_error (sb_dr s) k with
      | None => None
      | Some (j, n) => match dropping s j with Some _ => None | None => Some (set_in s ((j, (n, 0)) :: sb_in s)) end
      end
  | LDropOne j =>
      (* 66, sorted_deque.py:150-152: it removes one more item. Nobody but len() can see that:
         [se_buf] keeps the items until the whole drop is done. *)
      match dropping s j, buf_of s j with
      | Some (n, k), Some d => if Nat.ltb k (Nat.min (Z.to_nat n) (sd_len d)) then Some (set_in s ((j, (n, S k)) :: out_of (sb_in s) j)) else None
      | _, _ => None
      end
  | LDropDo k =>
      (* 175, 64-66: .drop(n) of that buffer, by the [k]th of the calls under way, from start
         to end if it is not inside yet, to its end if it is (two calls with the same [n] are
         not told apart). *)
      match nth_error (sb_dr s) k with
      | None => None
      | Some (j, n) =>
          if match dropping s j with Some (n', _) => Z.eqb n' n | None => true end then
          match buf_of s j with
          | None => None
          | Some d => let (d', u) := sd_drop d n in
                      Some (log (upd_sess (set_in (set_dr s (firstn k (sb_dr s) ++ skipn (S k) (sb_dr s))) (out_of (sb_in s) j)) j (fun e => w_buf e d')) (EDrop (Some j) n u))
          end
          else None
      end
  | LCallR r cl => call_step s r cl (ECall r)
  | LIter r => iter_step s r
  | LT i o =>
      match nth_error (sb_ss s) i with
      | None => None
      | Some e => thread_step c s i (se_pc e) o
      end
  end.

Fixpoint sb_run (c : cfg) (s : sb) (ls : list label) : option sb :=
  match ls with
  | [] => Some s
  | l :: q => match sb_step c s l with Some s' => sb_run c s' q | None => None end
  end.

(** [isinstance(x, (int, float))]; bool is a subclass of int. *)
Definition is_int_or_float (v : pyval) : bool :=
  match v with PInt _ | PFloat _ | PBool _ => true | _ => false end.
(** [__init__] (142-147). [DFLT_SLEEP_TIME_ON_READ_NONE_S] (22) is the decimal
    0.3 here. *)
Definition sleep_time (arg attr : pyval) : pyval :=
  if is_int_or_float arg then arg else if is_int_or_float attr then attr else PFloat (FFin (QArith_base.Qmake 3 10)).
