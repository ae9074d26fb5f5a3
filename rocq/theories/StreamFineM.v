(** * A stream in single steps inside its buffers

    [StreamBufferM] makes a call on a reader, and the append of a reading thread, in one step.
    Here they are made of the steps of [ReaderStepsM]: every access to the lock of the buffer
    (reader_writer_lock.py), every mutation of the two deques inside [append]
    (sorted_deque.py:99-111), every probe of a binary search, every load and store of a
    cursor (buffer_reader.py) is a step of its own, and steps of any threads - clients,
    the reading thread, reading threads of earlier starts - can come in between, as well as
    the steps of start(), stop(), mk_reader() and attach_reader().

    Simplifications:
    - streams with [auto_drop=True] (the default of stream_buffer.py:125): nobody calls drop()
      then, and the reading thread does not ask for len();
    - next(reader), next(stream_buffer) and for loops are not in this model (see [NextRaceM]
      and [StreamBufferM.LIter]; each of their polls is a [read] like those here);
    - no two threads are in a call on one reader at once, and attach_reader(reader) is not
      called while a call on that reader is under way. *)
From Coq Require Import List ZArith Bool Arith.
From Verif Require Import PyVal PyLib SortedDequeM BufferReaderM BufferSysM RWLockM ReaderStepsM StreamBufferM.
Import ListNotations.

(** What can be seen from outside: the events of [StreamBufferM] other than calls and
    appends; thread [i] enters the append or reader call [o] on the buffer of start [j]; it
    returns from it. *)
Inductive fev := FEv (e : ev) | FInv (j i : nat) (o : lop) | FRes (j i : nat) (o : lop) (v : lout).
(** [f_s]: everything outside the buffers. Its fields [se_buf] and [rd_r] are only what the
    buffers and cursors were when they were made; they are never looked at afterwards.
    [f_bufs]: for each start, its buffer with its lock, the calls under way on it, and the
    cursors of the readers that hold it (those of other readers are meaningless). *)
Record fsb := MkF { f_s : sb; f_bufs : list (option lstate); f_tr : list fev }.
Definition f0 : fsb := MkF sb0 [] [].

Section Fine.
Variable c : cfg.
Variable clients : nat.

(** Thread identifiers, as the lock sees them: the clients, then the reading threads of start
    0, 1, ... The lock of the buffer of start [j] knows those up to [j] (a reading thread never
    gets to a buffer older than itself: [StreamFacts.si_held]). *)
Definition rthread (i : nat) : nat := clients + i.
(** A new buffer (stream_buffer.py:287-295), with nobody inside. *)
Definition fresh_buf (j : nat) (d : sdeque) (rds : list breader) : lstate := linit d rds (repeat [] (clients + S j)).

(** Somebody is in a call on reader [r]. *)
Definition calling (L : lstate) (r : nat) : bool :=
  existsb (fun h => match h_ph h with PhCall r' _ _ => Nat.eqb r' r | _ => false end) (ls_ths L).
Definition add_rds (q : list breader) (L : lstate) : lstate := MkLs (ls_lock L) (ls_rds L ++ q) (ls_ths L) (ls_tr L).
Definition the_lock (f : fsb) (j : nat) : option lstate := match nth_error (f_bufs f) j with Some (Some L) => Some L | _ => None end.

(** Steps that do not go into a buffer. *)
Definition outside (s : sb) (l : label) : bool :=
  match l with
  | LCallR _ _ | LIter _ | LNext | LDropIn _ | LDropOne _ | LDropDo _ => false
  | LT i _ => match nth_error (sb_ss s) i with Some e => match se_pc e with TPut _ _ | TLen _ => false | _ => true end | None => false end
  | _ => true
  end.
(** What such a step from [s] to [s'] means for the buffers: line 279 comes before there is a
    buffer; 287-295 make it; mk_reader makes a reader with its cursor; attach_reader takes
    the cursor along to the other buffer (76-78). *)
Definition at_reader (r : nat) (x : breader) (L : lstate) : lstate := MkLs (ls_lock L) (set_nth (ls_rds L) r x) (ls_ths L) (ls_tr L).
Definition bufs_after (s s' : sb) (l : label) (bufs : list (option lstate)) : list (option lstate) :=
  match l with
  | LS _ _ =>
      match sb_start s with
      | SFresh => bufs ++ [None]
      | SBuild => match buf_of s' (latest s) with
                  | Some d => set_nth bufs (latest s) (Some (fresh_buf (latest s) d (map rd_r (sb_rds s))))
                  | None => bufs
                  end
      | _ => bufs
      end
  | LMk _ _ _ _ | LNextMk => map (option_map (add_rds (map rd_r (skipn (length (sb_rds s)) (sb_rds s'))))) bufs
  | LAttach r =>
      match nth_error (sb_rds s) r, nth_error (sb_rds s') r with
      | Some q, Some q' =>
          match nth_error bufs (rd_sess q), nth_error bufs (rd_sess q') with
          | Some (Some L), Some (Some L') =>
              match nth_error (ls_rds L) r with
              | Some x => set_nth bufs (rd_sess q') (Some (at_reader r x L'))
              | None => bufs
              end
          | _, _ => bufs
          end
      | _, _ => bufs
      end
  | _ => bufs
  end.
Definition may_attach (f : fsb) (l : label) : bool :=
  match l with
  | LAttach r => match nth_error (sb_rds (f_s f)) r with
                 | Some q => match the_lock f (rd_sess q) with Some L => negb (calling L r) | None => true end
                 | None => true
                 end
  | _ => true
  end.

(** Thread [i] begins [o] on the buffer of start [j]. *)
Definition begin_op (f : fsb) (j i : nat) (o : lop) : option fsb :=
  match the_lock f j with
  | Some L =>
      match nth_error (ls_ths L) i with
      | Some (MkLth PhIdle []) =>
          match lstep (MkLs (ls_lock L) (ls_rds L) (set_nth (ls_ths L) i (MkLth PhIdle [o])) []) i with
          | Some L' => Some (MkF (f_s f) (set_nth (f_bufs f) j (Some (MkLs (ls_lock L') (ls_rds L') (ls_ths L') []))) (f_tr f ++ [FInv j i o]))
          | None => None
          end
      | _ => None
      end
  | None => None
  end.
(** stream_buffer.py:262-268: how a reading thread goes on after its append. *)
Definition after_put (v : lout) : tpc := match v with OUnit (Raise e) => TFinCheck (Some e) | _ => TCheck end.
(** What the return of a call means outside: a reading thread goes on. *)
Definition on_return (s : sb) (i : nat) (v : lout) : sb :=
  if Nat.leb clients i then set_tpc s (i - clients) (after_put v) else s.

Inductive flabel :=
| FOut (l : label)                     (* a step outside the buffers *)
| FCall (k r : nat) (cl : call)        (* client [k] begins a call on reader [r] *)
| FPut (i : nat)                       (* reading thread [i] begins the append of line 262 *)
| FGo (j i : nat).                     (* thread [i] goes on inside the buffer of start [j] *)

Definition f_step (f : fsb) (l : flabel) : option fsb :=
  match l with
  | FOut l =>
      if outside (f_s f) l && may_attach f l then
        match sb_step c (f_s f) l with
        | Some s' => Some (MkF s' (bufs_after (f_s f) s' l (f_bufs f)) (f_tr f ++ map FEv (skipn (length (sb_tr (f_s f))) (sb_tr s'))))
        | None => None
        end
      else None
  | FCall k r cl =>
      match cl with CNext _ => None | _ =>
      if Nat.ltb k clients then
      match nth_error (sb_rds (f_s f)) r with
      | Some q => match the_lock f (rd_sess q) with
                  | Some L => if calling L r then None else begin_op f (rd_sess q) k (LCall r cl)
                  | None => None
                  end
      | None => None
      end
      else None
      end
  | FPut i =>
      match nth_error (sb_ss (f_s f)) i with
      | Some e => match se_pc e with TPut j x => begin_op f j (rthread i) (LAppend x) | _ => None end
      | None => None
      end
  | FGo j i =>
      match the_lock f j with
      | Some L =>
          match nth_error (ls_ths L) i with
          | Some (MkLth PhIdle _) | None => None
          | Some _ =>
              match lstep L i with
              | Some L' =>
                  let bufs := set_nth (f_bufs f) j (Some (MkLs (ls_lock L') (ls_rds L') (ls_ths L') [])) in
                  match ls_tr L' with
                  | HRes _ o v :: _ => Some (MkF (on_return (f_s f) i v) bufs (f_tr f ++ [FRes j i o v]))
                  | _ => Some (MkF (f_s f) bufs (f_tr f))
                  end
              | None => None
              end
          end
      | None => None
      end
  end.
Fixpoint f_run (f : fsb) (ls : list flabel) : option fsb :=
  match ls with
  | [] => Some f
  | l :: q => match f_step f l with Some f' => f_run f' q | None => None end
  end.
End Fine.
