(** * Property theorems: the reader/writer lock (C12-C17) *)
From Coq Require Import List ZArith Bool Arith Lia.
From Verif Require Import PyVal PyLib PyValFacts SortedDequeM Spec SpecDeque BufferReaderM BufferSysM Families
  ListFacts DequeFacts DequeSearch SpecReader ReaderLoops LogReads PropsDeque PropsReader
  RWLockM SpecLock LockFacts LockProps LockLive.
Import ListNotations.

(** Schedules for the examples: entering a reader section (11 steps from [Idle] or [RIn]),
    announcing a writer (7 steps), getting in (1). *)
Definition ent (i : nat) : list nat := repeat i 11.
Definition ann (j : nat) : list nat := repeat j 7.
Definition w1 : wbody nat := [fun n => Some (n + 1); fun n => Some (n * 2)].
Definition scr : list (list (sop nat)) := [[SAcq; SRel]; [SAcq; SRel]; [SWrite w1]].

(** ** C12 *)
Theorem C12_writer_excludes_all :
  forall (D : Type) (d : D) scripts s, reached d scripts s ->
  forall i t, thread_at s i t -> inside_writer t ->
    ~ inside_reader t /\
    forall j u, j <> i -> thread_at s j u -> ~ inside_reader u /\ ~ inside_writer u.
Proof.
  intros D d scripts s R i t Hi (rest & Ep).
  destruct (excl D s i t (reached_inv D d scripts s R) Hi) as [H1 H2]; [unfold w_nowrite; now rewrite Ep|].
  unfold inside_reader, inside_writer. split; [lia|]. intros j u N Hj. destruct (H2 j u N Hj) as [H3 H4].
  split; [lia|]. intros (r & Er). unfold w_nowrite in H4. rewrite Er in H4. discriminate.
Qed.
Print Assumptions C12_writer_excludes_all.
(** Two readers in together, then out; the writer in while both ask again. *)
Example C12_nonvacuous :
  exists s t0 t2, RWLockM.run (init 5 scr) (ann 2 ++ [2] ++ repeat 0 2) = Some s /\
    thread_at s 0 t0 /\ t_pc t0 = RNoReaders /\ thread_at s 2 t2 /\ inside_writer t2.
Proof. do 3 eexists. split; [vm_compute; reflexivity|]. repeat split. eexists; reflexivity. Qed.

(** ** C13 *)
(** Readers see completed writes only, whole, in the order of completion; and what they see
    stays until they leave. *)
Theorem C13_no_torn_reads :
  forall (D : Type) (d : D) scripts s, reached d scripts s ->
  forall i t, thread_at s i t -> inside_reader t ->
    l_data (st_sh s) = exec_all (l_done (st_sh s)) d /\
    forall k s', step s k = Some s' ->
      l_data (st_sh s') = l_data (st_sh s) /\ l_done (st_sh s') = l_done (st_sh s).
Proof.
  intros D d scripts s R i t Hi Hn. pose proof (reached_inv D d scripts s R) as I.
  assert (NW : forall k u r, thread_at s k u -> t_pc u <> WIn r).
  { intros k u r Hk Eu. destruct (excl D s k u I Hk) as [H1 H2]; [unfold w_nowrite; now rewrite Eu|].
    unfold inside_reader in Hn. destruct (Nat.eq_dec i k) as [->|N].
    - assert (t = u) by (unfold thread_at in *; congruence). subst u. lia.
    - destruct (H2 i t N Hi). lia. }
  split.
  - apply (proj2 (reached_data D d scripts s R)). exact NW.
  - intros k s' H. apply step_inv in H as (u & h' & u' & Hk & Ht & ->). cbn [st_sh].
    destruct (tstep_data D _ _ _ _ Ht) as [(f & rest & d' & Ep & _)|[(rest & Ep & _)|(E1 & E2 & _)]]; auto;
      exfalso; eapply NW; eauto.
Qed.
Print Assumptions C13_no_torn_reads.
(** A reader inside after a two-step write has completed, with another write waiting. *)
Example C13_nonvacuous :
  exists s t, RWLockM.run (init 5 ([SWrite w1] :: scr)) (repeat 0 18 ++ ent 1 ++ ann 3) = Some s /\
    thread_at s 1 t /\ inside_reader t /\ l_data (st_sh s) = 12 /\ l_done (st_sh s) = [w1].
Proof. do 2 eexists. split; [vm_compute; reflexivity|]. repeat split. vm_compute. lia. Qed.

(** The buffer's writers: one whole append or drop each. *)
Lemma exec_append x d : exec (append_body x) d = fst (sd_append d x).
Proof.
  unfold append_body, exec, sd_check, sd_push_key, sd_push_item. unfold sd_append.
  destruct (sd_key d x) as [k|e] eqn:Ek; cbn [snd fst]; [|reflexivity].
  destruct (last_opt (sd_keys d)) as [l|]; cbn [snd fst].
  - destruct (py_gt k l) as [[|]|]; cbn [snd fst]; now rewrite ?Ek.
  - now rewrite Ek.
Qed.
Lemma exec_drop n : forall d, consistent d -> exec (drop_body (Z.of_nat n)) d = fst (sd_drop_nat d n).
Proof.
  unfold drop_body. rewrite Nat2Z.id. induction n as [|n IH]; intros d C; [reflexivity|].
  cbn [repeat flat_map app exec sd_drop_nat]. destruct d as [ks its key b m]. unfold consistent in C. cbn [sd_key sd_items sd_keys] in *.
  destruct its as [|x its]; inversion C; subst.
  - reflexivity.
  - cbn [del_key0 del_item0 sd_keys sd_items sd_key sd_bound sd_maxlen].
    rewrite !list_del_lt by (cbn; lia). cbn [firstn skipn app]. apply IH. assumption.
Qed.
Lemma exec_body o d : is_append_or_drop o -> consistent d -> exec (body_of o) d = fst (sd_step d o).
Proof.
  intros A C. destruct o as [x|x|x|x|n| | |same key| |same m]; cbn in A; try contradiction; cbn [body_of sd_step].
  - apply exec_append.
  - unfold sd_drop. rewrite <- exec_drop by assumption. f_equal. unfold drop_body. now rewrite Nat2Z.id.
Qed.
Lemma exec_all_api ops : forall d, Forall is_append_or_drop ops -> consistent d ->
  exec_all (map body_of ops) d = sd_run d ops.
Proof.
  induction ops as [|o q IH]; intros d A C; [reflexivity|]. inversion A; subst.
  cbn [map]. change (exec_all (body_of o :: map body_of q) d) with (exec_all (map body_of q) (exec (body_of o) d)).
  rewrite exec_body by assumption. change (sd_run d (o :: q)) with (sd_run (fst (sd_step d o)) q).
  apply IH; [assumption|]. now apply consistent_step.
Qed.
(* the bodies that occur in a state come from the scripts *)
Definition bodies (Q : wbody sdeque -> Prop) (s : state sdeque) : Prop :=
  Forall Q (l_done (st_sh s)) /\
  forall i t, thread_at s i t -> (forall w, In (SWrite w) (t_todo t) -> Q w) /\ (is_writer (t_pc t) = true -> Q (t_cur t)).
Lemma bodies_step (Q : wbody sdeque -> Prop) s i s' : bodies Q s -> step s i = Some s' -> bodies Q s'.
Proof.
  intros [B1 B2] H. apply step_inv in H as (t & h' & t' & Hi & Ht & ->). unfold thread_at in *.
  destruct (B2 i t Hi) as [T1 T2]. unfold bodies, thread_at. cbn [st_sh st_ths].
  assert (X : Forall Q (l_done h') /\ (forall w, In (SWrite w) (t_todo t') -> Q w) /\ (is_writer (t_pc t') = true -> Q (t_cur t'))).
  { destruct t as [p n c q]. unfold tstep, acquire, release in Ht. cbn [t_pc t_nest t_cur t_todo] in *.
    destruct p;
    repeat match type of Ht with
    | Some (_, at_pc _ (if Nat.eqb ?a ?b then _ else _)) = _ => destruct (Nat.eqb_spec a b)
    | Some (_, at_pc _ (match ?x with _ => _ end)) = _ => destruct x eqn:?
    | Some _ = Some _ => fail 1
    | (match ?x with _ => _ end) = _ => destruct x eqn:?; try discriminate
    end; injection Ht as <- <-; cbn [at_pc t_pc t_cur t_todo set_queue set_noread set_nowrite set_rmutex set_wmutex set_nread set_nwrite set_data set_done l_done];
    (split; [first [assumption | apply Forall_app; split; [assumption|repeat constructor; apply T2; reflexivity]]|]);
    (split; [intros w' Hw; apply T1; subst; cbn; auto|]);
    intro E; try discriminate E; try (apply T2; reflexivity); subst.
    apply T1. now left. }
  destruct X as (X1 & X2 & X3). split; [exact X1|].
  intros j u Hj. rewrite nth_error_set_nth in Hj. destruct (Nat.eqb_spec i j) as [<-|N]; [|now apply (B2 j)].
  rewrite Hi in Hj. injection Hj as <-. auto.
Qed.
Lemma bodies_reached (Q : wbody sdeque -> Prop) d scripts s : (forall q w, In q scripts -> In (SWrite w) q -> Q w) ->
  reached d scripts s -> bodies Q s.
Proof.
  intros HQ (sched & H).
  assert (B0 : bodies Q (init d scripts)).
  { split; [constructor|]. intros i t Hi. unfold thread_at, init in Hi. cbn in Hi. rewrite nth_error_map in Hi.
    destruct (nth_error scripts i) as [q|] eqn:E; [|discriminate]. injection Hi as <-. cbn. split; [|discriminate].
    intros w Hw. eapply HQ; [eapply nth_error_In; eauto|assumption]. }
  revert B0 H. generalize (init d scripts). induction sched as [|i q IH]; intros s0 B0 H; cbn in H; [injection H as <-; assumption|].
  destruct (step s0 i) as [s1|] eqn:E; [|discriminate]. apply (IH s1); [|assumption]. eapply bodies_step; eauto.
Qed.
(** With the API's writers, a reader inside the lock sees the buffer after a whole number of
    appends and drops of the scripts. *)
Theorem C13_reader_sees_whole_writes :
  forall key maxlen d0, sd_init [] key maxlen = Ok d0 ->
  forall scripts, Forall (Forall api_sop) scripts ->
  forall s, reached d0 scripts s ->
  forall i t, thread_at s i t -> inside_reader t ->
  exists ops, Forall is_append_or_drop ops /\ l_done (st_sh s) = map body_of ops /\
    l_data (st_sh s) = sd_run d0 ops.
Proof.
  intros key m d0 H0 scripts HS s R i t Hi Hn.
  destruct (C13_no_torn_reads sdeque d0 scripts s R i t Hi Hn) as [E _].
  destruct (bodies_reached (fun w => exists o, is_append_or_drop o /\ w = body_of o) d0 scripts s) as [B _]; [|assumption|].
  - intros q w Hq Hw. rewrite Forall_forall in HS. specialize (HS q Hq). rewrite Forall_forall in HS. apply (HS _ Hw).
  - assert (exists ops, Forall is_append_or_drop ops /\ l_done (st_sh s) = map body_of ops) as (ops & A & Ed).
    { clear E. induction (l_done (st_sh s)) as [|w l IH]; [exists []; split; [constructor|reflexivity]|].
      inversion B as [|? ? (o & Ao & ->) Bl]; subst. destruct (IH Bl) as (ops & A & ->). exists (o :: ops).
      split; [now constructor|reflexivity]. }
    exists ops. split; [assumption|]. split; [assumption|]. rewrite E, Ed. apply exec_all_api; [assumption|].
    eapply consistent_init; eauto.
Qed.
Print Assumptions C13_reader_sees_whole_writes.
Example C13_api_nonvacuous :
  exists s t, RWLockM.run (init empty_buf [[SWrite (append_body (row 1 10)); SWrite (append_body (row 2 20))]; [SAcq; SRel]])
                (repeat 0 19 ++ ann 0 ++ ent 1 ++ []) = None /\
    RWLockM.run (init empty_buf [[SWrite (append_body (row 1 10)); SWrite (append_body (row 2 20))]; [SAcq; SRel]])
                (repeat 0 19 ++ ent 1 ++ ann 0) = Some s /\
    thread_at s 1 t /\ inside_reader t /\ sd_list (l_data (st_sh s)) = [row 1 10].
Proof. do 2 eexists. split; [vm_compute; reflexivity|]. split; [vm_compute; reflexivity|]. repeat split. vm_compute. lia. Qed.

(** ** C14 *)
Lemma in_lock_code_busy D (p : pc D) : in_lock_code p = busy D p.
Proof. destruct p; reflexivity. Qed.
Theorem C14_no_deadlock_without_nesting :
  forall (D : Type) (d : D) scripts, Forall (fun q => flat q = true) scripts ->
  forall s, reached d scripts s ->
  (exists i t, thread_at s i t /\ in_lock_code (t_pc t) = true) ->
  exists j u, thread_at s j u /\ t_pc u <> Idle /\ step s j <> None.
Proof.
  intros D d scripts HF s R (i & t & Hi & Hb). rewrite in_lock_code_busy in Hb.
  apply flat_progress; eauto using reached_inv.
  destruct R as (sched & R). eapply run_flat; [|exact R]. now apply init_flat.
Qed.
Print Assumptions C14_no_deadlock_without_nesting.
(** There are no endless runs, and a run that cannot be continued has finished every
    script: every fair (indeed every maximal) schedule completes all sections. *)
Theorem C14_everything_finishes :
  forall (D : Type) (d : D) scripts, Forall (fun q => flat q = true) scripts ->
  (exists bound, forall sched s, RWLockM.run (init d scripts) sched = Some s -> length sched <= bound) /\
  forall s, reached d scripts s -> (forall j, step s j = None) -> forall i t, thread_at s i t -> finished t.
Proof.
  intros D d scripts HF. split.
  - exists (total (work D) (st_ths (init d scripts))). intros sched s H. apply run_work in H. lia.
  - intros s R ST i t Hi.
    assert (FL : all_flat D s) by (destruct R as (sched & R); eapply run_flat; [|exact R]; now apply init_flat).
    assert (NB : in_lock_code (t_pc t) = false).
    { destruct (in_lock_code (t_pc t)) eqn:E; [exfalso|reflexivity].
      destruct (C14_no_deadlock_without_nesting D d scripts HF s R) as (j & u & _ & _ & X); [eauto|]. now apply X. }
    specialize (FL i t Hi). specialize (ST i). unfold step, thread_at in *. rewrite Hi in ST.
    destruct t as [p n c q]. unfold finished, flat_thread in *. cbn [t_pc t_nest t_cur t_todo] in *.
    destruct p; try discriminate NB; cbn in ST.
    + split; [reflexivity|]. destruct FL as [_ FL]. destruct q as [|[| |w] q]; auto; discriminate.
    + destruct FL as [_ (q' & -> & _)]. discriminate.
Qed.
Print Assumptions C14_everything_finishes.
(** A crowded state: one reader inside, one queued, one writer waiting. *)
Example C14_nonvacuous :
  Forall (fun q => flat q = true) scr /\
  exists s t1 t2, RWLockM.run (init 5 scr) (ent 0 ++ ann 2 ++ [1; 1]) = Some s /\
    thread_at s 1 t1 /\ tstep (st_sh s) t1 = None /\ in_lock_code (t_pc t1) = true /\
    thread_at s 2 t2 /\ tstep (st_sh s) t2 = None /\ in_lock_code (t_pc t2) = true.
Proof. split; [repeat constructor|]. do 3 eexists. split; [vm_compute; reflexivity|]. vm_compute. repeat split. Qed.

(** ** C15 *)
Theorem C15_writer_priority :
  forall (D : Type) (d : D) scripts s, reached d scripts s -> announced s ->
  forall k s', step s k = Some s' ->
  forall i t t', thread_at s i t -> thread_at s' i t' -> granted t' <= granted t.
Proof.
  intros D d scripts s R A k s' H i t t' Hi Hi'. pose proof (reached_inv D d scripts s R) as I.
  destruct (announced_shut D s I A) as [Z _]. destruct I as [_ N].
  apply step_inv in H as (u & h' & u' & Hk & Ht & ->). unfold thread_at in *. cbn [st_ths] in Hi'.
  rewrite nth_error_set_nth in Hi'. destruct (Nat.eqb_spec k i) as [<-|]; [|assert (t = t') by congruence; subst; lia].
  rewrite Hk in Hi'. injection Hi' as <-. assert (u = t) by congruence. subst u.
  eapply tstep_granted; [exact Ht| |now apply (N k)].
  pose proof (total_ge (w_noread D) _ _ _ Hk). lia.
Qed.
Print Assumptions C15_writer_priority.
(** Over a whole stretch of the run during which some writer is announced: whoever is
    inside a reader section at its end had been granted it before the stretch began. *)
Theorem C15_readers_only_leave :
  forall (D : Type) (d : D) scripts s sched s', reached d scripts s -> RWLockM.run s sched = Some s' ->
  (forall n m, n < length sched -> RWLockM.run s (firstn n sched) = Some m -> announced m) ->
  forall i t t', thread_at s i t -> thread_at s' i t' ->
    granted t' <= granted t /\ (inside_reader t' -> 0 < granted t).
Proof.
  intros D d scripts s sched s' R H A i t t' Hi Hi'.
  enough (granted t' <= granted t) as G.
  { split; [assumption|]. unfold inside_reader. intro X. unfold granted in *. lia. }
  revert s t R H A Hi. induction sched as [|k q IH]; intros s t R H A Hi; cbn in H.
  - injection H as <-. assert (t = t') by (unfold thread_at in *; congruence). subst. lia.
  - destruct (step s k) as [s1|] eqn:E; [|discriminate].
    assert (exists t1, thread_at s1 i t1) as (t1 & Hi1).
    { apply step_inv in E as (u & h' & u' & Hk & Ht & ->). unfold thread_at in *. cbn [st_ths]. rewrite nth_error_set_nth.
      destruct (Nat.eqb_spec k i) as [<-|]; [rewrite Hk; eauto|eauto]. }
    assert (granted t1 <= granted t).
    { eapply (C15_writer_priority D d scripts s R); eauto. apply (A 0); [cbn; lia|reflexivity]. }
    assert (R1 : reached d scripts s1).
    { destruct R as (sc & R). exists (sc ++ [k]). apply run_app_lock. exists s. split; [exact R|]. cbn [RWLockM.run]. now rewrite E. }
    specialize (IH s1 t1 R1 H). assert (granted t' <= granted t1); [|lia]. apply IH; [|assumption].
    intros n m Hn Hm. apply (A (S n) m); [cbn; lia|]. cbn [firstn RWLockM.run]. now rewrite E.
Qed.
Print Assumptions C15_readers_only_leave.
Example C15_nonvacuous :
  exists s s' t0 t0' t1', RWLockM.run (init 5 scr) (ent 0 ++ ann 2) = Some s /\ announced s /\
    RWLockM.run s ([1; 1] ++ [0; 0; 0]) = Some s' /\ announced s' /\
    thread_at s 0 t0 /\ granted t0 = 1 /\ thread_at s' 0 t0' /\ granted t0' = 0 /\
    thread_at s' 1 t1' /\ t_pc t1' = RNoReaders /\ granted t1' = 0.
Proof.
  do 5 eexists. split; [vm_compute; reflexivity|]. split.
  - do 2 eexists. split; [instantiate (2 := 2); reflexivity|]. exact Logic.I.
  - split; [vm_compute; reflexivity|]. split.
    + do 2 eexists. split; [instantiate (2 := 2); reflexivity|]. exact Logic.I.
    + vm_compute. repeat split.
Qed.

(** ** C16 *)
Theorem C16_readers_do_not_block_readers :
  forall (D : Type) (d : D) scripts s, reached d scripts s ->
  (forall j u, thread_at s j u -> is_writer (t_pc u) = false) ->
  forall i t, thread_at s i t -> in_reader_acquire (t_pc t) = true ->
  exists s', by_reader_code s s' /\
    (exists t', thread_at s' i t' /\ t_pc t' = RIn /\ t_nest t' = S (t_nest t)) /\
    forall j u, thread_at s j u -> in_reader_code (t_pc u) = false -> thread_at s' j u.
Proof. intros D d scripts s R NW i t Hi Hr. eapply (readers_run D); eauto using reached_inv. Qed.
Print Assumptions C16_readers_do_not_block_readers.
(** Thread 0 is inside; thread 1 stands in the queue behind thread 2, which holds it. *)
Example C16_nonvacuous :
  let q := [SAcq; SRel] in
  exists s t, RWLockM.run (init 5 [q; q; q]) (ent 0 ++ [2; 2; 2; 1]) = Some s /\
    thread_at s 1 t /\ in_reader_acquire (t_pc t) = true /\ tstep (st_sh s) t = None /\
    forall j u, thread_at s j u -> is_writer (t_pc u) = false.
Proof.
  do 2 eexists. split; [vm_compute; reflexivity|]. split; [reflexivity|]. split; [reflexivity|]. split; [reflexivity|].
  intros [|[|[|j]]] u Hu; unfold thread_at in Hu; cbn in Hu; try (injection Hu as <-; reflexivity). destruct j; discriminate.
Qed.

(** ** C17 *)
(** Refuted: every range(only_new_items=True) call by a reader that has a cursor can
    deadlock with an append, for good, whatever else happens. *)
Theorem C17_new_range_can_deadlock_refuted :
  forall (d : sdeque) (r : breader) (g : rgargs), g_only_new g = true -> r_last_key r <> PNone ->
  forall (x : pyval) others,
  exists s, reached d (script_of (events (range d g) r) :: [SWrite (append_body x)] :: others) s /\
    forall sched s', RWLockM.run s sched = Some s' ->
      forall t u, thread_at s' 0 t -> thread_at s' 1 u -> ~ finished t /\ ~ finished u /\ step s' 0 = None /\ step s' 1 = None.
Proof.
  intros d r g Hg Hr x others. rewrite events_range, Hg. replace (is_none (r_last_key r)) with false by (now destruct (r_last_key r)).
  cbn [andb negb script_of map sop_of].
  pose (w := append_body x). fold w.
  pose (s := MkSt (MkS true true true false false 1 1 d [])
               (MkT RNoReaders 1 [] [SRel; SRel] :: MkT WNoWriters 0 w [] :: map (MkT Idle 0 []) others)).
  assert (R : reached d ([SAcq; SAcq; SRel; SRel] :: [SWrite w] :: others) s).
  { exists (ent 0 ++ ann 1 ++ [0; 0]). subst s. clearbody w. vm_compute. reflexivity. }
  clearbody w. exists s. split; [exact R|].
  - pose proof (reached_inv _ _ _ _ R) as I. intros sched s' H t' u' Ht' Hu'.
    assert (DP : deadlock_pair sdeque s 0 1 (MkT RNoReaders 1 [] [SRel; SRel]) (MkT WNoWriters 0 w [])).
    { repeat split. cbn. lia. }
    destruct (deadlock_forever sdeque sched 0 1 _ _ s I DP s' H) as [E1 E2].
    assert (t' = MkT RNoReaders 1 [] [SRel; SRel]) by (unfold thread_at in *; congruence).
    assert (u' = MkT WNoWriters 0 w []) by (unfold thread_at in *; congruence). subst t' u'.
    assert (I' : lock_inv sdeque s') by (eapply run_lock_inv; eauto).
    destruct (deadlock_blocked sdeque s' 0 1 (MkT RNoReaders 1 [] [SRel; SRel]) (MkT WNoWriters 0 w []) I') as [B1 B2].
    { repeat split; try assumption. cbn. lia. }
    unfold step, thread_at in *. rewrite E1, E2, B1, B2. repeat split; intros [X _]; discriminate.
Qed.
Print Assumptions C17_new_range_can_deadlock_refuted.
Example C17_refuted_nonvacuous :
  let g := MkRG (PInt 0) (PInt 9) None false None true false false in
  g_only_new g = true /\ r_last_key rd4 <> PNone /\ snd (BufferReaderM.run (range buf g) rd4) = Ok (VList [row 7 70]).
Proof. vm_compute. repeat split. discriminate. Qed.

(** Everything else is safe: any number of threads that append, drop and make any reader
    calls other than that one always finish, under every schedule. *)
Lemma flat_app D (p q : list (sop D)) : flat p = true -> flat q = true -> flat (p ++ q) = true.
Proof.
  remember (length p) as n eqn:En. revert p En. induction n as [n IH] using lt_wf_ind. intros p En Hp Hq.
  destruct p as [|[| |w] p]; try discriminate; [assumption| |].
  - destruct p as [|[| |w] p]; try discriminate. cbn in *. eapply (IH (length p)); auto; lia.
  - cbn in *. eapply (IH (length p)); auto; lia.
Qed.
Lemma use_flat u : ~ is_new_range u -> flat (use_script u) = true.
Proof.
  intro N. destruct u as [o|d r [a|st|g|p i o|p]]; cbn [use_script do_call]; [reflexivity|..].
  - now rewrite events_read.
  - now rewrite events_next.
  - rewrite events_range. cbn in N. destruct (g_only_new g); [|reflexivity]. cbn [andb].
    destruct (r_last_key r); try (exfalso; apply N; split; [reflexivity|discriminate]). reflexivity.
  - now rewrite events_tail.
  - now rewrite events_head.
Qed.
Theorem C17_no_deadlock_partial :
  forall (d : sdeque) (uses : list (list use)), Forall (Forall (fun u => ~ is_new_range u)) uses ->
  let scripts := map (flat_map use_script) uses in
  (exists bound, forall sched s, RWLockM.run (init d scripts) sched = Some s -> length sched <= bound) /\
  forall s, reached d scripts s -> (forall j, step s j = None) -> forall i t, thread_at s i t -> finished t.
Proof.
  intros d uses H scripts. apply C14_everything_finishes. unfold scripts. apply Forall_map.
  eapply Forall_impl; [|exact H]. intros us Hus. induction us as [|u us IH]; [reflexivity|].
  inversion Hus; subst. cbn [flat_map]. apply flat_app; [now apply use_flat|now apply IH].
Qed.
Print Assumptions C17_no_deadlock_partial.
Example C17_partial_nonvacuous :
  let uses := [[UWrite (OAppend (row 8 80)); UWrite (ODrop 1)]; [UCall buf rd4 (CRead noargs); UCall buf rd7 (CTail false true true)];
               [UCall buf rd0 (CRange (MkRG (PInt 0) (PInt 9) None false None true false false))]] in
  Forall (Forall (fun u => ~ is_new_range u)) uses /\
  map (flat_map use_script) uses <> [[]; []; []].
Proof.
  cbn zeta. split; [|discriminate]. repeat constructor; cbn; tauto.
Qed.
