(** * C17 again, at the grain of single accesses *)
From Coq Require Import List ZArith Bool Arith Lia.
From Verif Require Import PyVal PyLib SortedDequeM Spec SpecDeque BufferReaderM BufferSysM ListFacts RWLockM SpecLock LockFacts ReaderStepsM SpecLin LinSim FineLive LinLive PropsDeque PropsReader PropsLin.
Import ListNotations.

(** The call is not range(only_new_items=True); if it is a call on a reader, that is one of [readers]. *)
Definition plain_call (readers : nat) (o : lop) : Prop :=
  match o with
  | LCall r (CRange g) => r < readers /\ g_only_new g = false
  | LCall r _ => r < readers
  | BufferSysM.LMk _ _ _ _ => False
  | _ => True
  end.
(** The calls of thread [i] that have returned, in order. *)
Definition done_by (i : nat) (tr : list hev) : list lop :=
  flat_map (fun e => match e with HRes j o _ => if Nat.eqb j i then [o] else [] | HInv _ _ => [] end) tr.
(** Any number of threads that append, drop and make any calls on readers other than
    range(only_new_items=True), several threads on one reader at once if they like: whatever
    the interleaving of their single accesses, it comes to an end after a bounded number of
    steps, and when no thread can make a step, all of them have returned from all their calls. *)
Theorem C17_calls_always_finish_partial :
  forall (d : sdeque) (rds : list breader) (scripts : list (list lop)), Forall (Forall (plain_call (length rds))) scripts ->
  (exists bound, forall sched s, lrun (linit d rds scripts) sched = Some s -> length sched <= bound) /\
  forall sched s, lrun (linit d rds scripts) sched = Some s -> (forall i, lstep s i = None) ->
    forall i q, nth_error scripts i = Some q -> done_by i (ls_tr s) = q.
Proof.
  intros d rds scripts F. split; [apply lrun_bound|]. intros sched s H S i q Hq.
  assert (F' : Forall (Forall (LinLive.plain (length rds))) scripts).
  { eapply Forall_impl; [|exact F]. intros l Hl. eapply Forall_impl; [|exact Hl]. intros [x|n| |r [a|st|g|p ig o|p]]; cbn; tauto. }
  destruct (lv_init d rds scripts F') as (A & B). destruct (lv_run scripts sched _ _ H A B) as (A' & B').
  destruct B' as [BL BK]. destruct (nth_error (ls_ths s) i) as [h|] eqn:Hh.
  - destruct (live_stuck s A' S i h Hh) as (P & T). specialize (BK i h q Hh Hq). unfold current in BK. rewrite P, T, !app_nil_r in BK. exact BK.
  - apply nth_error_None in Hh. rewrite BL in Hh. apply nth_error_None in Hh. congruence.
Qed.
Print Assumptions C17_calls_always_finish_partial.
(** A thread that can make a step exists as long as some call has not returned. *)
Theorem C17_somebody_moves_partial :
  forall (d : sdeque) (rds : list breader) (scripts : list (list lop)), Forall (Forall (plain_call (length rds))) scripts ->
  forall sched s, lrun (linit d rds scripts) sched = Some s ->
  (exists i q, nth_error scripts i = Some q /\ done_by i (ls_tr s) <> q) -> exists i s', lstep s i = Some s'.
Proof.
  intros d rds scripts F sched s H (i & q & Hq & N). destruct (C17_calls_always_finish_partial d rds scripts F) as (_ & D).
  assert (G : forall n, (exists k s', lstep s k = Some s') \/ forall k, k < n -> lstep s k = None).
  { induction n as [|n [IH|IH]]; [right; intros; lia|left; exact IH|]. destruct (lstep s n) as [s'|] eqn:E; [left; eauto|].
    right. intros k LT. destruct (Nat.eq_dec k n) as [->|X]; [exact E|]. apply IH. lia. }
  destruct (G (length (ls_ths s))) as [X|X]; [exact X|]. exfalso. apply N. apply (D sched s H); [|exact Hq]. intro k.
  destruct (Nat.ltb_spec k (length (ls_ths s))) as [LT|GE]; [auto|]. unfold lstep. apply nth_error_None in GE. rewrite GE. destruct (nth_error (st_ths _) k); reflexivity.
Qed.
Print Assumptions C17_somebody_moves_partial.
(** One reader used by two threads at once, a third that appends and drops. *)
Definition live_scripts : list (list lop) :=
  [[LCall 0 (CRead (MkRA None None None None)); LCall 0 (CHead false)]; [LCall 0 (CTail false true false)];
   [LAppend (PTuple [PInt 8; PInt 80]); BufferSysM.LDrop 1]].
Definition live_start : lstate := linit empty_buf [mk_breader 1 false false true] live_scripts.
Definition two_in_calls (s : lstate) : bool :=
  Nat.ltb 1 (length (filter (fun h => match h_ph h with PhCall 0 _ _ => true | _ => false end) (ls_ths s))).
Example C17_always_finish_nonvacuous :
  Forall (Forall (plain_call 1)) live_scripts /\
  (exists s, lrun live_start (firstn 20 (in_turn 1000 live_start [0; 1; 2; 0; 2; 1])) = Some s /\ two_in_calls s = true /\
     exists i q, nth_error live_scripts i = Some q /\ done_by i (ls_tr s) <> q) /\
  exists s, lrun live_start (in_turn 1000 live_start [0; 1; 2; 0; 2; 1]) = Some s /\ done_by 2 (ls_tr s) = nth 2 live_scripts [].
Proof.
  split; [repeat constructor; cbn; auto|]. split.
  - destruct (look_at (fun s => (two_in_calls s, length (done_by 0 (ls_tr s)))) (lrun live_start (firstn 20 (in_turn 1000 live_start [0; 1; 2; 0; 2; 1]))) (true, 0)) as (s & E & O); [vm_compute; reflexivity|].
    injection O as O1 O2. exists s. split; [exact E|]. split; [exact O1|]. exists 0. eexists. split; [reflexivity|].
    intro X. rewrite X in O2. discriminate.
  - destruct (look_at (fun s => done_by 2 (ls_tr s)) (lrun live_start (in_turn 1000 live_start [0; 1; 2; 0; 2; 1])) (nth 2 live_scripts [])) as (s & E & O); [vm_compute; reflexivity|].
    exists s. auto.
Qed.
