(** * Interrupts inside the lock's code (C96) *)
From Coq Require Import List ZArith Bool Arith Lia.
From Verif Require Import PyVal PyLib SortedDequeM BufferSysM LogReads RWLockM SpecLock LockFacts LockProps LockInterruptM.
Import ListNotations.

(** ** Specification *)
Definition ireached (n : nat) (sched : list (nat * iact)) (s : istate) : Prop := irun (iinit n) sched = Some s.
Definition thread_of (s : istate) (i : nat) (t : ithread) : Prop := nth_error (i_ths s) i = Some t.
Definition reads_in (t : ithread) : Prop := 0 < i_nest t.
Definition writes_in (t : ithread) : Prop := i_pc t = KWIn.
(** Waiting in [lock.acquire()]: in the lock's code and blocked. *)
Definition waits (s : istate) (i : nat) : Prop :=
  exists t, thread_of s i t /\ i_pc t <> KIdle /\ i_pc t <> KRIn /\ i_pc t <> KWIn /\ igo (i_sh s) t = None.
Definition interrupts (sched : list (nat * iact)) : list nat :=
  flat_map (fun l => match snd l with AInterrupt => [fst l] | _ => [] end) sched.
(** The only interrupt of [sched] hits a thread that waits. *)
Definition one_interrupt_while_waiting (n : nat) (sched : list (nat * iact)) : Prop :=
  exists pre i post s, sched = pre ++ (i, AInterrupt) :: post /\ interrupts pre = [] /\ interrupts post = [] /\ ireached n pre s /\ waits s i.

Definition go (i n : nat) : list (nat * iact) := repeat (i, AGo) n.
(** A whole writer_acquire by the first and by a later writer; a whole reader_acquire. *)
Definition write_first (i : nat) : list (nat * iact) := (i, AWriteIn) :: go i 7.
Definition write_wait (i : nat) : list (nat * iact) := (i, AWriteIn) :: go i 5.

(** A writer waits for another writer and is interrupted: its [finally] releases the lock of
    the writer inside; a third one enters. *)
Definition two_writers : list (nat * iact) := write_first 1 ++ write_wait 0 ++ [(0, AInterrupt)] ++ go 0 1 ++ write_wait 2 ++ go 2 1.
Theorem C96_two_writers_refuted :
  one_interrupt_while_waiting 3 two_writers /\
  exists s, ireached 3 two_writers s /\ exists t1 t2, thread_of s 1 t1 /\ thread_of s 2 t2 /\ writes_in t1 /\ writes_in t2.
Proof.
  split.
  - exists (write_first 1 ++ write_wait 0), 0, (go 0 1 ++ write_wait 2 ++ go 2 1). eexists. split; [reflexivity|]. split; [reflexivity|]. split; [reflexivity|].
    split; [vm_compute; reflexivity|]. eexists. split; [vm_compute; reflexivity|]. repeat split; try discriminate.
  - eexists. split; [vm_compute; reflexivity|]. do 2 eexists. split; [vm_compute; reflexivity|]. split; [vm_compute; reflexivity|]. split; reflexivity.
Qed.
Print Assumptions C96_two_writers_refuted.

(** A reader waits in the queue and is interrupted: the counter of readers becomes -1; the
    next reader does not lock out the writers. *)
Definition reader_and_writer : list (nat * iact) :=
  write_first 1 ++ ((0, AReadIn) :: go 0 1) ++ [(3, AReadIn); (3, AInterrupt)] ++ go 3 5 ++
  (1, AWriteOut) :: go 1 7 ++ go 0 8 ++ write_first 2.
Theorem C96_reader_and_writer_refuted :
  one_interrupt_while_waiting 4 reader_and_writer /\
  exists s, ireached 4 reader_and_writer s /\ exists t0 t2, thread_of s 0 t0 /\ thread_of s 2 t2 /\ reads_in t0 /\ writes_in t2.
Proof.
  split.
  - exists (write_first 1 ++ ((0, AReadIn) :: go 0 1) ++ [(3, AReadIn)]), 3, (go 3 5 ++ (1, AWriteOut) :: go 1 7 ++ go 0 8 ++ write_first 2). eexists.
    split; [reflexivity|]. split; [reflexivity|]. split; [reflexivity|]. split; [vm_compute; reflexivity|]. eexists. split; [vm_compute; reflexivity|]. repeat split; try discriminate.
  - eexists. split; [vm_compute; reflexivity|]. do 2 eexists. split; [vm_compute; reflexivity|]. split; [vm_compute; reflexivity|]. split; [unfold reads_in; cbn; lia|reflexivity].
Qed.
Print Assumptions C96_reader_and_writer_refuted.

(** A reader at the head of the queue is interrupted: the queue stays locked, and no thread
    ever enters a reader section again, whatever anybody does. *)
Definition blocked_queue : list (nat * iact) := write_first 1 ++ ((0, AReadIn) :: go 0 1) ++ [(0, AInterrupt)].
Definition holds_queue (p : ipc) : bool :=
  match p with KRNoReaders | KRMutex | KRLoad | KRStore _ | KRTest | KRNoWriters | KRMutexRel | KRNoReadersRel | KRQueueRel | KRIn => true | _ => false end.
Definition dead_queue (s : istate) : Prop :=
  k_queue (i_sh s) = true /\ forall i t, thread_of s i t -> holds_queue (i_pc t) = false /\ i_nest t = 0.
Lemma dead_step s l s' : dead_queue s -> istep s l = Some s' -> dead_queue s'.
Proof.
  intros [Q A] H. unfold istep in H. destruct l as [i a]. cbn [fst snd] in H. destruct (nth_error (i_ths s) i) as [t|] eqn:Hi; [|discriminate].
  destruct (A i t Hi) as [P N]. destruct (itstep (i_sh s) t a) as [[h' t']|] eqn:E; [|discriminate]. injection H as <-.
  assert (X : k_queue h' = true /\ holds_queue (i_pc t') = false /\ i_nest t' = 0).
  { destruct t as [p n]. cbn [i_pc i_nest] in *. subst n. destruct a, p; try discriminate P; cbn in E; unfold iacquire, irelease, thrown, outside, goto in E; cbn in E; rewrite ?Q in E; try discriminate E;
      repeat match type of E with context [if ?b then _ else _] => destruct b end; try discriminate E; injection E as <- <-; cbn; auto. }
  destruct X as (X1 & X2 & X3). split; [exact X1|]. intros j u Hj. unfold thread_of in Hj. cbn in Hj. rewrite nth_error_set_nth in Hj. destruct (Nat.eqb_spec i j) as [<-|].
  - rewrite Hi in Hj. injection Hj as <-. auto.
  - apply (A j u Hj).
Qed.
Theorem C96_no_reader_ever_again_refuted :
  one_interrupt_while_waiting 2 blocked_queue /\
  exists s, ireached 2 blocked_queue s /\
  forall more s', irun s more = Some s' -> forall i t, thread_of s' i t -> ~ reads_in t.
Proof.
  split.
  - exists (write_first 1 ++ ((0, AReadIn) :: go 0 1)), 0, []. eexists. split; [reflexivity|]. split; [reflexivity|]. split; [reflexivity|].
    split; [vm_compute; reflexivity|]. eexists. split; [vm_compute; reflexivity|]. repeat split; try discriminate.
  - eexists. split; [vm_compute; reflexivity|].
    assert (G : forall more s s', dead_queue s -> irun s more = Some s' -> dead_queue s').
    { induction more as [|l q IH]; intros s s' D H; cbn in H; [now injection H as <-|]. destruct (istep s l) eqn:E; [|discriminate]. eapply IH; [|exact H]. eapply dead_step; eauto. }
    intros more s' H i t Hi. assert (DQ : dead_queue s'). { eapply G; [|exact H]. split; [reflexivity|]. intros [|[|j]] u Hu; cbn in Hu; try (injection Hu as <-; split; reflexivity). destruct j; discriminate. }
    destruct DQ as [_ A]. destruct (A i t Hi) as [_ N]. unfold reads_in. lia.
Qed.
Print Assumptions C96_no_reader_ever_again_refuted.

(** ** Without interrupts the lock works *)
(** The state of RWLockM that corresponds: same locks, counters and positions. *)
Definition kpc (p : pc unit) : ipc :=
  match p with
  | Idle => KIdle | RQueue => KRQueue | RNoReaders => KRNoReaders | RMutex => KRMutex | RLoad => KRLoad | RStore c => KRStore (Z.of_nat c)
  | RTest => KRTest | RNoWriters => KRNoWriters | RMutexRel => KRMutexRel | RNoReadersRel => KRNoReadersRel | RQueueRel => KRQueueRel | RIn => KRIn
  | XMutex => KXMutex | XLoad => KXLoad | XStore c => KXStore (Z.of_nat c) | XTest => KXTest | XNoWritersRel => KXNoWritersRel | XMutexRel => KXMutexRel
  | WMutex => KWMutex | WLoad => KWLoad | WStore c => KWStore (Z.of_nat c) | WTest => KWTest | WNoReaders => KWNoReaders | WMutexRel => KWMutexRel
  | WNoWriters => KWNoWriters | WIn _ => KWIn | VNoWritersRel => KVNoWritersRel | VMutex => KVMutex | VLoad => KVLoad | VStore c => KVStore (Z.of_nat c)
  | VTest => KVTest | VNoReadersRel => KVNoReadersRel | VMutexRel => KVMutexRel
  end.
Definition ish (h : shared unit) : ishared :=
  MkIS (l_queue h) (l_noread h) (l_nowrite h) (l_rmutex h) (l_wmutex h) (Z.of_nat (n_read h)) (Z.of_nat (n_write h)).
Definition ith (t : thread unit) : ithread := MkIT (kpc (t_pc t)) (t_nest t).
(** What thread [i] is made to do in the rest of a schedule. *)
Definition script_act (i : nat) (l : nat * iact) : list (sop unit) :=
  if Nat.eqb (fst l) i then match snd l with AReadIn => [SAcq] | AReadOut => [SRel] | AWriteIn => [SWrite []] | _ => [] end else [].
Definition script (sched : list (nat * iact)) (i : nat) : list (sop unit) := flat_map (script_act i) sched.
Definition same_lock (sched : list (nat * iact)) (s : istate) (m : state unit) : Prop :=
  i_sh s = ish (st_sh m) /\ i_ths s = map ith (st_ths m) /\
  forall i t, nth_error (st_ths m) i = Some t -> t_todo t = script sched i /\ t_cur t = [] /\ (forall r, t_pc t = WIn r -> r = []).

Lemma one_pos (w : thread unit -> nat) l i t : nth_error l i = Some t -> w t = 1 -> 0 < total w l.
Proof. intros H E. pose proof (total_ge w l i t H). lia. Qed.
Lemma b2n_held b n : b2n b = n -> 0 < n -> b = true.
Proof. destruct b; cbn; [reflexivity|lia]. Qed.
(** What the invariant of RWLockM says where a lock is released or a counter decreased. *)
Definition held_at (h : shared unit) (p : pc unit) : Prop :=
  match p with
  | RMutexRel | XMutexRel => l_rmutex h = true
  | RNoReadersRel | VNoReadersRel => l_noread h = true
  | RQueueRel => l_queue h = true
  | XNoWritersRel | VNoWritersRel => l_nowrite h = true
  | WMutexRel | VMutexRel => l_wmutex h = true
  | XStore c | VStore c => 0 < c
  | _ => True
  end.
Lemma held m i t : lock_inv unit m -> nth_error (st_ths m) i = Some t -> held_at (st_sh m) (t_pc t).
Proof.
  intros [(gr & gw & C) N] Hi. specialize (N i t Hi). destruct C as [rm wm rq nr nw rc wc pr pw].
  assert (P : forall w, w t = 1 -> 0 < total w (st_ths m)) by (intros w E; exact (one_pos w _ i t Hi E)).
  unfold nest_ok in N. destruct t as [p n c q]. cbn [t_pc t_nest] in *. unfold held_at. destruct p; auto.
  - exact (b2n_held _ _ rm (P _ eq_refl)).
  - eapply b2n_held; [exact nr|]. specialize (P (w_noread unit) eq_refl). lia.
  - exact (b2n_held _ _ rq (P _ eq_refl)).
  - subst c0. rewrite rc. pose proof (total_ge (w_nread unit) _ _ _ Hi) as X. cbn in X. lia.
  - eapply b2n_held; [exact nw|]. specialize (P (w_xrel unit) eq_refl). unfold phase in pr. lia.
  - exact (b2n_held _ _ rm (P _ eq_refl)).
  - exact (b2n_held _ _ wm (P _ eq_refl)).
  - eapply b2n_held; [exact nw|]. specialize (P (w_nowrite unit) eq_refl). lia.
  - destruct N as [_ ->]. rewrite wc. exact (P (w_nwrite unit) eq_refl).
  - eapply b2n_held; [exact nr|]. specialize (P (w_vrel unit) eq_refl). unfold phase in pw. lia.
  - exact (b2n_held _ _ wm (P _ eq_refl)).
Qed.
Lemma eqb_of_nat n k : (Z.of_nat n =? Z.of_nat k)%Z = Nat.eqb n k.
Proof. destruct (Nat.eqb_spec n k) as [->|]; [apply Z.eqb_refl|]. apply Z.eqb_neq. lia. Qed.

Lemma sim_thread i a q h t h2 t2 : a <> AInterrupt -> held_at h (t_pc t) -> nest_ok unit h t -> t_todo t = script ((i, a) :: q) i -> t_cur t = [] ->
  (forall r, t_pc t = WIn r -> r = []) -> itstep (ish h) (ith t) a = Some (h2, t2) ->
  exists h' t', tstep h t = Some (h', t') /\ ish h' = h2 /\ ith t' = t2 /\ t_todo t' = script q i /\ t_cur t' = [] /\ (forall r, t_pc t' = WIn r -> r = []).
Proof.
  intros NA HA NE TD CU WI H. destruct t as [p n c td]. cbn [t_pc t_nest t_cur t_todo] in *. subst c.
  unfold script in TD. cbn [flat_map] in TD. unfold script_act at 1 in TD. cbn [fst snd] in TD. rewrite Nat.eqb_refl in TD. fold (script q i) in TD.
  destruct a; [| | | | |congruence]; destruct p; cbn in H; try discriminate H; cbn [app] in TD; subst td;
    unfold iacquire, irelease in H; cbn in HA, NE;
    repeat match goal with
    | X : l_queue h = true |- _ => rewrite X in H
    | X : l_noread h = true |- _ => rewrite X in H
    | X : l_nowrite h = true |- _ => rewrite X in H
    | X : l_rmutex h = true |- _ => rewrite X in H
    | X : l_wmutex h = true |- _ => rewrite X in H
    end; 
    try (match type of H with (if ?b then _ else _) = _ => destruct b eqn:EB; [discriminate H|] end);
    injection H as <- <-;
    unfold tstep; cbn; unfold acquire, release;
    repeat match goal with
    | X : ?f h = true |- context [?f h] => rewrite X
    | X : ?f h = false |- context [?f h] => rewrite X
    end;
    try (do 2 eexists; split; [reflexivity|]; split; [reflexivity|]; split; [reflexivity|]; split; [reflexivity|]; split; [reflexivity|]; cbn; intros; congruence).
  all: try (change 1%Z with (Z.of_nat 1); rewrite eqb_of_nat); try (change 0%Z with (Z.of_nat 0); rewrite eqb_of_nat).
  all: try (match goal with |- context [Nat.eqb ?a ?b] => destruct (Nat.eqb a b) end).
  all: try (rewrite (WI rest eq_refl); cbn).
  all: destruct n; try discriminate NE.
  all: do 2 eexists; split; [reflexivity|]; split; [|split; [reflexivity|split; [reflexivity|split; [reflexivity|cbn; intros; congruence]]]].
  all: try reflexivity.
  all: unfold ish, k_set_read, k_set_write, set_nread, set_nwrite; cbn; f_equal; lia.
Qed.
Lemma sim_step l q s s' m : snd l <> AInterrupt -> lock_inv unit m -> same_lock (l :: q) s m -> istep s l = Some s' ->
  exists m', step m (fst l) = Some m' /\ same_lock q s' m'.
Proof.
  intros NA I (E1 & E2 & E3) H. destruct l as [i a]. cbn [fst snd] in *. unfold istep in H. cbn [fst snd] in H. rewrite E2, nth_error_map in H.
  destruct (nth_error (st_ths m) i) as [t|] eqn:Hi; [|discriminate]. cbn [option_map] in H. rewrite E1 in H.
  destruct (itstep (ish (st_sh m)) (ith t) a) as [[h2 t2]|] eqn:ST; [|discriminate]. injection H as <-. destruct (E3 i t Hi) as (T1 & T2 & T3).
  destruct (sim_thread i a q _ t h2 t2 NA (held m i t I Hi) (proj2 I i t Hi) T1 T2 T3 ST) as (h' & t' & S1 & <- & <- & S4 & S5 & S6).
  exists (MkSt h' (set_nth (st_ths m) i t')). unfold step. rewrite Hi, S1. split; [reflexivity|]. split; [reflexivity|]. split.
  - cbn. clear. generalize i. induction (st_ths m) as [|x l IH]; intros [|k]; cbn; [reflexivity..|]. now rewrite IH.
  - intros j u Hj. cbn in Hj. rewrite nth_error_set_nth in Hj. destruct (Nat.eqb_spec i j) as [<-|N].
    + rewrite Hi in Hj. injection Hj as <-. auto.
    + destruct (E3 j u Hj) as (U1 & U2 & U3). split; [|auto]. rewrite U1. unfold script. cbn [flat_map]. unfold script_act at 1. cbn [fst]. rewrite (proj2 (Nat.eqb_neq i j) N). reflexivity.
Qed.
(** An interrupt outside the lock's code: in a section body, or in no section at all. *)
Definition in_code (p : ipc) : bool := match p with KIdle | KRIn | KWIn => false | _ => true end.
Definition interrupts_outside (n : nat) (sched : list (nat * iact)) : Prop :=
  forall pre i post s t, sched = pre ++ (i, AInterrupt) :: post -> ireached n pre s -> thread_of s i t -> in_code (i_pc t) = false.
Lemma sim_interrupt i q s s' m t : thread_of s i t -> in_code (i_pc t) = false -> same_lock ((i, AInterrupt) :: q) s m -> istep s (i, AInterrupt) = Some s' ->
  exists sc m', RWLockM.run m sc = Some m' /\ same_lock q s' m'.
Proof.
  intros Ht IC (E1 & E2 & E3) H. unfold thread_of in Ht. unfold istep in H. cbn [fst snd] in H. rewrite Ht in H. cbn [itstep] in H. injection H as <-.
  assert (SC : forall j, script ((i, AInterrupt) :: q) j = script q j).
  { intro j. unfold script. cbn [flat_map]. unfold script_act at 1. cbn [fst snd]. now destruct (Nat.eqb i j). }
  assert (SAME : thrown t = t -> exists sc m', RWLockM.run m sc = Some m' /\ same_lock q (MkI (i_sh s) (set_nth (i_ths s) i (thrown t))) m').
  { intros ->. exists [], m. split; [reflexivity|]. split; [exact E1|]. split; [|intros j u Hj; rewrite <- SC; apply (E3 j u Hj)]. cbn. rewrite <- E2.
    revert Ht. clear. generalize i. induction (i_ths s) as [|x l IH]; intros [|k] H; cbn in *; try discriminate; [congruence|]. now rewrite IH. }
  destruct t as [p n]. cbn in IC. destruct p; try discriminate IC; [apply SAME; reflexivity..|].
  pose proof Ht as Hm. rewrite E2, nth_error_map in Hm. destruct (nth_error (st_ths m) i) as [t0|] eqn:Hi; [|discriminate]. injection Hm as P N.
  destruct (E3 i t0 Hi) as (T1 & T2 & T3). destruct t0 as [p0 n0 c0 td0]. cbn in *. destruct p0 as [| | | | | | | | | | | | | | | | | | | | | | | | |r| | | | | | |]; try discriminate P. specialize (T3 r eq_refl). subst r.
  exists [i]. eexists. cbn. unfold step. rewrite Hi. cbn. split; [reflexivity|]. split; [exact E1|]. split.
  - cbn. rewrite E2, <- N. clear. generalize i. induction (st_ths m) as [|x l IH]; intros [|k]; cbn; [reflexivity..|]. now rewrite IH.
  - intros j u Hj. cbn in Hj. rewrite nth_error_set_nth in Hj. destruct (Nat.eqb_spec i j) as [<-|NE].
    + rewrite Hi in Hj. injection Hj as <-. rewrite <- SC. cbn. split; [assumption|]. split; [assumption|]. discriminate.
    + rewrite <- SC. apply (E3 j u Hj).
Qed.
Lemma irun_snoc s q l s' : irun s (q ++ [l]) = Some s' <-> exists m, irun s q = Some m /\ istep m l = Some s'.
Proof.
  revert s. induction q as [|a q IH]; intro s; cbn.
  - split; [destruct (istep s l) eqn:E; [intro H; injection H as <-; eauto|discriminate]|intros (m & X & Y); injection X as <-; now rewrite Y].
  - destruct (istep s a); [apply IH|]. split; [discriminate|intros (m & X & _); discriminate].
Qed.
(** As long as interrupts arrive only outside the lock's code (in the body of a section, or
    in no section at all), every run is a run of RWLockM, with the bodies of the sections left
    open, so all that is proved there holds; in particular a writer is alone. Missing: an
    interrupt inside the lock's code. *)
Theorem C96_interrupts_outside_partial :
  forall n sched s, ireached n sched s -> interrupts_outside n sched ->
  (exists m, reached tt (map (script sched) (seq 0 n)) m /\ i_sh s = ish (st_sh m) /\ i_ths s = map ith (st_ths m)) /\
  forall i t, thread_of s i t -> writes_in t -> ~ reads_in t /\ forall j u, j <> i -> thread_of s j u -> ~ reads_in u /\ ~ writes_in u.
Proof.
  intros n sched s H NI.
  assert (INI : same_lock sched (iinit n) (init tt (map (script sched) (seq 0 n)))).
  { split; [reflexivity|]. split.
    - cbn. rewrite !map_map. unfold iinit. cbn. assert (X : forall k, repeat (MkIT KIdle 0) n = map (fun x => ith (MkT Idle 0 [] (script sched x))) (seq k n)).
      { clear. induction n as [|n IH]; intro k; [reflexivity|]. cbn. f_equal. apply IH. } apply X.
    - intros i t Hi. cbn in Hi. rewrite !nth_error_map in Hi. destruct (nth_error (seq 0 n) i) as [k|] eqn:Ek; [|discriminate]. injection Hi as <-. cbn.
      assert (k = i) as ->. { assert (L : i < n) by (rewrite <- (seq_length n 0); apply nth_error_Some; congruence). rewrite (nth_error_nth' _ 0) in Ek by (now rewrite seq_length). rewrite seq_nth in Ek by lia. injection Ek as <-. lia. }
      split; [reflexivity|]. split; [reflexivity|]. discriminate. }
  assert (G : forall post pre z, sched = pre ++ post -> ireached n pre z -> forall m, lock_inv unit m -> same_lock post z m -> forall z', irun z post = Some z' ->
     exists sc m', RWLockM.run m sc = Some m' /\ same_lock [] z' m').
  { induction post as [|l q IH]; intros pre z EP RP m I SL z' HR; cbn in HR.
    - injection HR as <-. exists [], m. auto.
    - destruct (istep z l) as [z1|] eqn:E; [|discriminate].
      assert (RP1 : ireached n (pre ++ [l]) z1) by (apply irun_snoc; eauto). assert (EP1 : sched = (pre ++ [l]) ++ q) by (rewrite EP, <- app_assoc; reflexivity).
      assert (S1 : exists sc m1, RWLockM.run m sc = Some m1 /\ same_lock q z1 m1).
      { destruct l as [i a]. assert (D : a = AInterrupt \/ a <> AInterrupt) by (destruct a; auto; right; discriminate). destruct D as [->|D].
        - pose proof E as E'. unfold istep in E'. cbn [fst] in E'. destruct (nth_error (i_ths z) i) as [t|] eqn:Ht; [|discriminate].
          apply (sim_interrupt i q z z1 m t Ht (NI pre i q z t EP RP Ht) SL E).
        - destruct (sim_step (i, a) q z z1 m) as (m1 & X & Y); auto. exists [i], m1. cbn in *. now rewrite X. }
      destruct S1 as (sc1 & m1 & R1 & SL1). destruct (IH _ z1 EP1 RP1 m1 (run_lock_inv unit sc1 m m1 I R1) SL1 z' HR) as (sc & m' & R & S'). exists (sc1 ++ sc), m'. split; [|assumption].
      clear - R1 R. revert m R1. induction sc1 as [|k sc1 IH]; intros m R1; cbn in *; [injection R1 as ->; assumption|]. destruct (step m k); [|discriminate]. now apply IH. }
  destruct (G sched [] (iinit n) eq_refl eq_refl _ (lock_inv_init unit tt _) INI s H) as (sc & m & R & E1 & E2 & _).
  split; [exists m; split; [now exists sc|auto]|].
  intros i t Hi Hw. unfold thread_of in *. rewrite E2, nth_error_map in Hi. destruct (nth_error (st_ths m) i) as [t0|] eqn:Ei; [|discriminate]. injection Hi as <-.
  assert (IW : inside_writer t0). { unfold writes_in, ith in Hw. cbn in Hw. destruct (t_pc t0) eqn:P; try discriminate Hw. eexists. exact P. }
  assert (RM : reached tt (map (script sched) (seq 0 n)) m) by (now exists sc).
  destruct (excl unit m i t0 (reached_inv unit tt _ m RM) Ei) as [X1 X2]; [destruct IW as (r & P); unfold w_nowrite; now rewrite P|].
  split; [unfold reads_in; cbn; lia|]. intros j u N Hj. rewrite E2, nth_error_map in Hj. destruct (nth_error (st_ths m) j) as [u0|] eqn:Ej; [|discriminate]. injection Hj as <-.
  destruct (X2 j u0 N Ej) as [Y1 Y2]. split; [unfold reads_in; cbn; lia|]. unfold writes_in, ith. cbn. intro Z. unfold w_nowrite in Y2. destruct (t_pc u0); try discriminate.
Qed.
Print Assumptions C96_interrupts_outside_partial.
(** A writer interrupted in its section, after which a reader that waited gets in. *)
Definition body_interrupt : list (nat * iact) := write_first 1 ++ ((0, AReadIn) :: go 0 1) ++ (1, AInterrupt) :: go 1 7 ++ go 0 9 ++ write_wait 1.
Example C96_nonvacuous :
  interrupts_outside 2 body_interrupt /\
  exists s, ireached 2 body_interrupt s /\ exists t0 t1, thread_of s 0 t0 /\ thread_of s 1 t1 /\ reads_in t0 /\ i_pc t1 = KWMutexRel.
Proof.
  split.
  - intros pre i post s t E R Ht. assert (X : exists k, k < length body_interrupt /\ pre = firstn k body_interrupt /\ skipn k body_interrupt = (i, AInterrupt) :: post).
    { exists (length pre). rewrite E, app_length. cbn. split; [lia|]. split; [now rewrite firstn_app, Nat.sub_diag, firstn_all, app_nil_r|now rewrite skipn_app, Nat.sub_diag, skipn_all]. }
    destruct X as (k & L & -> & S). clear E.
    assert (K : k = 10) by (vm_compute in L; do 34 (destruct k as [|k]; [vm_compute in S; (discriminate S || reflexivity)|]); lia). subst k.
    vm_compute in S. injection S as <- <-. vm_compute in R. injection R as <-. vm_compute in Ht. injection Ht as <-. reflexivity.
  - eexists. split; [vm_compute; reflexivity|]. do 2 eexists. split; [vm_compute; reflexivity|]. split; [vm_compute; reflexivity|].
    split; [unfold reads_in; cbn; lia|reflexivity].
Qed.

(** A writer interrupted before it has counted itself, while nobody holds the lock of the
    writers: its [finally] gets a RuntimeError at once, so that nothing is changed and the
    writer is out. Missing: interrupts anywhere else, for which see the refutations. *)
Theorem C96_uncounted_writer_partial :
  forall n sched s i t, ireached n sched s -> thread_of s i t -> i_pc t = KWMutex -> k_nowrite (i_sh s) = false ->
  exists s', irun s [(i, AInterrupt); (i, AGo)] = Some s' /\ i_sh s' = i_sh s /\
  (forall j, j <> i -> nth_error (i_ths s') j = nth_error (i_ths s) j) /\
  exists t', thread_of s' i t' /\ i_nest t' = i_nest t /\ i_pc t' = outside t.
Proof.
  intros n sched s i t _ Hi Hp Hn. unfold thread_of in *. cbn [irun]. unfold istep. cbn [fst snd]. rewrite Hi. cbn [itstep]. cbn [i_ths i_sh].
  rewrite nth_error_set_nth, Nat.eqb_refl, Hi. unfold thrown at 1. rewrite Hp. cbn [itstep igo i_pc]. unfold irelease. rewrite Hn.
  eexists. split; [reflexivity|]. cbn [i_sh i_ths]. split; [reflexivity|]. split.
  - intros j N. rewrite !nth_error_set_nth. now rewrite (proj2 (Nat.eqb_neq i j)) by congruence.
  - eexists. split; [rewrite !nth_error_set_nth, !Nat.eqb_refl, Hi; reflexivity|]. unfold thrown. cbn. split; reflexivity.
Qed.
Print Assumptions C96_uncounted_writer_partial.
Example C96_uncounted_nonvacuous :
  exists s t, ireached 2 [(0, AWriteIn); (0, AGo); (1, AWriteIn)] s /\ thread_of s 1 t /\ i_pc t = KWMutex /\ k_nowrite (i_sh s) = false /\ k_wmutex (i_sh s) = true.
Proof. do 2 eexists. split; [vm_compute; reflexivity|]. split; [vm_compute; reflexivity|]. auto. Qed.
