(** * Model of [StreamSource] used by several client threads
      (/repo/stream2py/stream_source.py:103-134, 167-171)

    The calls open_reader() and close() of readers, attribute access by attribute access,
    with any number of client threads. Every StreamBuffer that is created is a state of
    [StreamBufferM]; the reading threads and the reader calls run as background steps. One
    step here is one load or store of an attribute of the StreamSource, one step of start(),
    one mk_reader() call under its lock, or one half of stop(). *)
From Coq Require Import List ZArith Bool Arith.
From Verif Require Import PyVal PyLib SortedDequeM BufferReaderM BufferSysM StreamBufferM StreamSourceM.
Import ListNotations.

(** Where a client thread stands. A reader is named by its StreamBuffer and its number there. *)
Inductive cpc :=
| CIdle
| OCheck (n : Z) (st ig : bool)               (* 104: if not self._stream_buffer *)
| OMake (n : Z) (st ig : bool)                (* 105: self._stream_buffer = StreamBuffer(...) *)
| OLoad (n : Z) (st ig : bool)                (* 106: self._stream_buffer *)
| OStart (k : nat) (n : Z) (st ig : bool)     (* 106: .start() waits for the start_lock of k *)
| OStarting (k : nat) (n : Z) (st ig : bool)  (* ... and runs *)
| OLoad2 (n : Z) (st ig : bool)               (* 126: self._stream_buffer *)
| OMk (k : nat) (n : Z) (st ig : bool)        (* 126-130: .mk_reader(...) *)
| OCount (k r : nat)                          (* 109: load self._open_readers *)
| OAdd (k r : nat) (v : Z)                    (* 109: store v + 1; 132-134 *)
| KCount (k r : nat)                          (* 112: load *)
| KSub (k r : nat) (v : Z)                    (* 112: store v - 1 *)
| KTest (k r : nat)                           (* 113 *)
| KExit (k r : nat)                           (* 168 *)
| KStop (k r j : nat)                         (* 169: .stop() of StreamBuffer j *)
| KStopping (k r j : nat).                    (* it sleeps *)

(** Calls, and what they return. *)
Inductive ccall := CallOpen (n : Z) (st ig : bool) | CallClose (k r : nat).
Inductive cout :=
| GotReader (k r : nat) | Failed (e : exn)     (* open_reader *)
| ClosedOk (k r : nat) | ClosedSource (k r : nat)  (* close; 171: without a StreamBuffer the source's close() *)
| CloseFailed (k r : nat) (e : exn).

Record race := MkRace {
  q_open : Z;                       (* _open_readers *)
  q_attr : option nat;              (* _stream_buffer *)
  q_sbs : list sb;                  (* every StreamBuffer created *)
  q_thr : list cpc;
  q_src : list (nat * ev);          (* what happened, in which StreamBuffer *)
  q_out : list (nat * cout)         (* returned calls: thread, outcome *)
}.
Definition race0 (clients : nat) : race := MkRace 0 None [] (repeat CIdle clients) [] [].

Definition set_pc (q : race) (t : nat) (p : cpc) : race :=
  MkRace (q_open q) (q_attr q) (q_sbs q) (set_nth (q_thr q) t p) (q_src q) (q_out q).
Definition ret (q : race) (t : nat) (o : cout) : race :=
  MkRace (q_open q) (q_attr q) (q_sbs q) (set_nth (q_thr q) t CIdle) (q_src q) (q_out q ++ [(t, o)]).
Definition set_count (q : race) (v : Z) : race :=
  MkRace v (q_attr q) (q_sbs q) (q_thr q) (q_src q) (q_out q).
(** StreamBuffer [k] makes step [l]; its new events go to the common history. *)
Definition sb_do (c : cfg) (q : race) (k : nat) (l : label) : option race :=
  match nth_error (q_sbs q) k with
  | None => None
  | Some s => match sb_step c s l with
              | None => None
              | Some s' => Some (MkRace (q_open q) (q_attr q) (set_nth (q_sbs q) k s') (q_thr q)
                                   (q_src q ++ map (pair k) (skipn (length (sb_tr s)) (sb_tr s'))) (q_out q))
              end
  end.

(** One step of client [t]; [o] and [info] are the answers of the source's open() and info. *)
Definition client_step (c : cfg) (q : race) (t : nat) (p : cpc) (o : res unit) (info : res pyval) : option race :=
  match p with
  | CIdle => None
  | OCheck n st ig => Some (set_pc q t (match q_attr q with None => OMake n st ig | Some _ => OLoad2 n st ig end))
  | OMake n st ig =>
      Some (set_pc (MkRace (q_open q) (Some (length (q_sbs q))) (q_sbs q ++ [sb0]) (q_thr q) (q_src q) (q_out q)) t (OLoad n st ig))
  | OLoad n st ig => match q_attr q with Some k => Some (set_pc q t (OStart k n st ig)) | None => None end
  | OStart k n st ig =>
      match sb_do c q k LStart with Some q' => Some (set_pc q' t (OStarting k n st ig)) | None => None end
  | OStarting k n st ig =>
      match sb_do c q k (LS o info) with
      | None => None
      | Some q' =>
          match nth_error (q_sbs q') k with
          | None => None
          | Some s' => if lock_free s'
                       then match raised s' with
                            | Some e => Some (ret q' t (Failed e))
                            | None => Some (set_pc q' t (OLoad2 n st ig))
                            end
                       else Some q'
          end
      end
  | OLoad2 n st ig => match q_attr q with Some k => Some (set_pc q t (OMk k n st ig)) | None => None end
  | OMk k n st ig =>
      match sb_do c q k (StreamBufferM.LMk n false st ig) with
      | None => None
      | Some q' =>
          match nth_error (q_sbs q') k with
          | None => None
          | Some s' => match last (sb_tr s') (EMk (Raise RuntimeError)) with
                       | EMk (Ok r) => Some (set_pc q' t (OCount k r))
                       | EMk (Raise e) => Some (ret q' t (Failed e))
                       | _ => None
                       end
          end
      end
  | OCount k r => Some (set_pc q t (OAdd k r (q_open q)))
  | OAdd k r v => Some (ret (set_count q (v + 1)) t (GotReader k r))
  | KCount k r => Some (set_pc q t (KSub k r (q_open q)))
  | KSub k r v => Some (set_pc (set_count q (v - 1)) t (KTest k r))
  | KTest k r => if Z.leb (q_open q) 0 then Some (set_pc q t (KExit k r)) else Some (ret q t (ClosedOk k r))
  | KExit k r => match q_attr q with Some j => Some (set_pc q t (KStop k r j)) | None => Some (ret q t (ClosedSource k r)) end
  | KStop k r j =>
      match sb_do c q j LStop with
      | None => None
      | Some q' => match nth_error (q_sbs q') j with
                   | None => None
                   | Some s' => match last (sb_tr s') (EStop (Ok 0)) with
                                | EStop (Raise e) => Some (ret q' t (CloseFailed k r e)) (* never started *)
                                | _ => Some (set_pc q' t (KStopping k r j))
                                end
                   end
      end
  | KStopping k r j => match sb_do c q j LStopRet with Some q' => Some (ret q' t (ClosedOk k r)) | None => None end
  end.

(** Labels: a call starts; a step of a client; a background step of StreamBuffer [k]. *)
Inductive qlabel := QCall (t : nat) (cl : ccall) | QStep (t : nat) (o : res unit) (info : res pyval) | QBg (k : nat) (l : label).
(** A reader can be closed once open_reader() has returned it (133). *)
Definition returned (q : race) (k r : nat) : bool :=
  existsb (fun p => match snd p with GotReader k' r' => Nat.eqb k k' && Nat.eqb r r' | _ => false end) (q_out q).
Definition race_step (c : cfg) (q : race) (l : qlabel) : option race :=
  match l with
  | QCall t cl =>
      match nth_error (q_thr q) t, cl with
      | Some CIdle, CallOpen n st ig => Some (set_pc q t (OCheck n st ig))
      | Some CIdle, CallClose k r => if returned q k r then Some (set_pc q t (KCount k r)) else None
      | _, _ => None
      end
  | QStep t o info => match nth_error (q_thr q) t with Some p => client_step c q t p o info | None => None end
  | QBg k l => if is_bg l then sb_do c q k l else None
  end.
Fixpoint race_run (c : cfg) (q : race) (ls : list qlabel) : option race :=
  match ls with
  | [] => Some q
  | l :: ls' => match race_step c q l with Some q' => race_run c q' ls' | None => None end
  end.
