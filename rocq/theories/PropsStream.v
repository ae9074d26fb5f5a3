(** * Lifecycle of a StreamBuffer: C37-C47, C49-C51, C67, C72-C74 *)
From Coq Require Import List ZArith QArith Bool Arith Lia.
From Verif Require Import PyVal PyLib PyValFacts SortedDequeM Spec SpecDeque SpecReader SpecLog ListFacts Families DequeFacts DequeSearch
  BufferReaderM BufferSysM LogFacts LogReads LogKeepUp PropsLog StreamBufferM SpecStream StreamFacts StreamLife StreamInv StreamOrderly StreamView StreamReads StreamMore PropsStreamRead.
Import ListNotations.
Open Scope nat_scope.
Ltac parts := repeat match goal with |- _ /\ _ => split end.

(** ** C37: readers need a started stream *)
(** While start() is not in progress mk_reader() answers at once: StreamNotStartedError
    unless the latest start() succeeded, and then a reader on that start's buffer. *)
Theorem C37_mk_reader :
  forall c ls s, history c ls s -> sb_start s = SFree -> forall n p st ig,
  exists s', sb_step c s (StreamBufferM.LMk n p st ig) = Some s' /\
  match last_start (sb_tr s) with
  | Some (i, true) => let r := length (sb_rds s) in sb_tr s' = sb_tr s ++ [ENew r i n p st ig; EMk (Ok r)] /\
                      exists q, nth_error (sb_rds s') r = Some q /\ rd_sess q = i /\ rd_ev q = i /\ rd_r q = mk_breader n p st ig
  | _ => sb_tr s' = sb_tr s ++ [EMk (Raise StreamNotStartedError)] /\ sb_rds s' = sb_rds s
  end.
Proof.
  intros c ls s H F n p st ig. pose proof (ls_history c ls s H) as L. unfold ls_inv in L. rewrite F in L.
  cbn [sb_step]. unfold lock_free. rewrite F. cbn zeta. destruct (last_start (sb_tr s)) as [[i []]|].
  - rewrite L. eexists. split; [reflexivity|]. proj. rewrite <- app_assoc. split; [reflexivity|].
    rewrite nth_snoc, Nat.ltb_irrefl, Nat.eqb_refl. eexists. split; [reflexivity|]. auto.
  - destruct L as [-> _]. eauto.
  - destruct L as [-> _]. eauto.
Qed.
Print Assumptions C37_mk_reader.
Theorem C37_attach_reader :
  forall c ls s, history c ls s -> sb_start s = SFree -> forall r q, nth_error (sb_rds s) r = Some q ->
  exists s', sb_step c s (LAttach r) = Some s' /\
  match last_start (sb_tr s) with
  | Some (i, true) => sb_tr s' = sb_tr s ++ [EAttach r (Ok i)] /\
                      exists q', nth_error (sb_rds s') r = Some q' /\ rd_sess q' = i /\ rd_ev q' = i /\ rd_r q' = rd_r q
  | _ => sb_tr s' = sb_tr s ++ [EAttach r (Raise StreamNotStartedError)] /\ sb_rds s' = sb_rds s
  end.
Proof.
  intros c ls s H F r q Hq. pose proof (ls_history c ls s H) as L. unfold ls_inv in L. rewrite F in L.
  cbn [sb_step]. unfold lock_free. rewrite F, Hq. destruct (last_start (sb_tr s)) as [[i []]|].
  - rewrite L. eexists. split; [reflexivity|]. proj. split; [reflexivity|].
    rewrite nth_error_set_nth, Nat.eqb_refl, Hq. eexists. split; [reflexivity|]. auto.
  - destruct L as [-> _]. eauto.
  - destruct L as [-> _]. eauto.
Qed.
Print Assumptions C37_attach_reader.
(** next(stream_buffer), when it has no reader yet. *)
Theorem C37_next :
  forall c ls s, history c ls s -> sb_start s = SFree -> sb_next s = None ->
  exists s', sb_step c s LNextMk = Some s' /\
  match last_start (sb_tr s) with
  | Some (i, true) => let r := length (sb_rds s) in sb_tr s' = sb_tr s ++ [ENew r i 1 false false false] /\ sb_next s' = Some r /\
                      exists q, nth_error (sb_rds s') r = Some q /\ rd_sess q = i
  | _ => sb_tr s' = sb_tr s ++ [ENext None (CNext false) (Raise StreamNotStartedError)] /\ sb_next s' = None
  end.
Proof.
  intros c ls s H F N. pose proof (ls_history c ls s H) as L. unfold ls_inv in L. rewrite F in L.
  cbn [sb_step]. unfold lock_free. rewrite F, N. cbn zeta. destruct (last_start (sb_tr s)) as [[i []]|].
  - rewrite L. eexists. split; [reflexivity|]. proj. split; [reflexivity|]. split; [reflexivity|].
    rewrite nth_snoc, Nat.ltb_irrefl, Nat.eqb_refl. eexists. split; [reflexivity|]. auto.
  - destruct L as [-> _]. eauto.
  - destruct L as [-> _]. eauto.
Qed.
Print Assumptions C37_next.
Definition failing (e : exn) : list label := LStart :: repeat (LS (Raise e) (Ok PNone)) 5.
(** A start() that finds the stop event unset, two steps longer: it stops first. *)
Definition restarting (info : pyval) : list label := LStart :: repeat (LS (Ok tt) (Ok info)) 9.
(** A failed start after a successful one: readers are refused until a start succeeds. *)
Definition retry_hist : list label := starting (PObj 7) ++ [LStop] ++ finish 0 ++ failing RuntimeError.
Example C37_nonvacuous :
  let s := end_of cfg3 retry_hist in let s2 := end_of cfg3 (retry_hist ++ restarting (PObj 8)) in
  history cfg3 retry_hist s /\ sb_start s = SFree /\ last_start (sb_tr s) = Some (1, false) /\
  history cfg3 (retry_hist ++ restarting (PObj 8)) s2 /\ sb_start s2 = SFree /\ last_start (sb_tr s2) = Some (2, true) /\ sb_next s2 = None.
Proof. cbn zeta. parts; try (apply history_end); vm_compute; reflexivity. Qed.

(** ** C38: open, reads, one close *)
(** Each thread, under any schedule: reads, appends what it got, closes once, nothing after. *)
Theorem C38_thread_life :
  forall c ls s, history c ls s -> forall i,
  (exists p, life i (thread_events i (sb_tr s)) p) /\ count (is_close_of i) (sb_tr s) <= 1 /\
  (ended s i <-> count (is_close_of i) (sb_tr s) = 1) /\
  (forall t1 u t2, sb_tr s = t1 ++ EClose i u :: t2 -> thread_events i t2 = []).
Proof.
  intros c ls s H i. pose proof (life_all c ls s H i) as L. unfold life_inv in L. rewrite <- (count_close_te i (sb_tr s)).
  assert (LAST : forall p, life i (thread_events i (sb_tr s)) p -> forall t1 u t2, sb_tr s = t1 ++ EClose i u :: t2 -> thread_events i t2 = []).
  { intros p Lp t1 u t2 Et. pose proof (life_close i _ p Lp) as LC.
    assert (TE : thread_events i (sb_tr s) = thread_events i t1 ++ EClose i u :: thread_events i t2).
    { rewrite Et. unfold thread_events. rewrite filter_app. cbn. now rewrite Nat.eqb_refl. }
    assert (Z : forall t, count (is_close_of i) (t ++ EClose i u :: thread_events i t2) <> 0).
    { intros t. rewrite count_app. unfold count. cbn. rewrite Nat.eqb_refl. cbn. lia. }
    destruct p; try (exfalso; rewrite TE in LC; exact (Z _ LC)). destruct LC as (t0 & u0 & E & C0). rewrite TE in E.
    symmetry in E. apply snoc_split in E as [(E & _)|(t3 & E & E2)]; [assumption|]. exfalso. rewrite E2 in C0. rewrite count_app in C0. unfold count in C0. cbn in C0. rewrite Nat.eqb_refl in C0. cbn in C0. lia. }
  destruct (nth_error (sb_ss s) i) as [e|] eqn:Ei.
  - destruct L as [L _]. split; [eauto|]. pose proof (life_close i _ _ L) as LC.
    assert (ED : ended s i <-> exists x, se_pc e = TDone x).
    { split; [intros (x & e' & E' & P); assert (e' = e) by congruence; subst; eauto|intros [x P]; exists x, e; auto]. }
    rewrite ED. destruct (se_pc e) as [| | | | | | | |[]|[]|[]|x] eqn:Ep; cbn [ph] in LC;
      try (rewrite LC; split; [lia|]; split; [split; [intros [? X]; discriminate|discriminate]|eauto]; fail).
    destruct LC as (t0 & u & E & C0). assert (C1 : count (is_close_of i) (thread_events i (sb_tr s)) = 1).
    { rewrite E, count_app, C0. unfold count. cbn. now rewrite Nat.eqb_refl. }
    rewrite C1. split; [lia|]. split; [split; eauto|eauto].
  - rewrite L. cbn. split; [exists PhLoop; constructor|]. split; [lia|]. split; [|intros t1 u t2 Et; eapply (LAST PhLoop); eauto; rewrite L; constructor].
    split; [intros (x & e' & E' & _); congruence|discriminate].
Qed.
Print Assumptions C38_thread_life.
(** The source as a whole, when restarts find the earlier threads ended: sessions one after
    the other, each open - reads - close, no read outside a session. *)
Theorem C38_source_sessions :
  forall c d0 ls s, history c ls s -> orderly c ls -> infos_ok ls -> sd_init [] (c_key c) (c_maxlen c) = Ok d0 ->
  exists o, proper (source_events (sb_tr s)) o /\
  (all_ended s -> sb_start s = SFree -> o = None).
Proof.
  intros c d0 ls s H O IO D0. exists (opened s). split; [eapply proper_history; eauto|].
  intros AE F. unfold opened. rewrite F. rewrite not_alive_live; [reflexivity|apply AE].
Qed.
Print Assumptions C38_source_sessions.
Lemma orderlyb_ok c ls : 
  (fix ok (s : sb) (ls : list label) : bool := match ls with [] => true | l :: q =>
     (match sb_start s, l with SClear, LS _ _ => forallb (fun e => negb (live (se_pc e))) (sb_ss s) | _, _ => true end) &&
     match sb_step c s l with Some s' => ok s' q | None => true end end) sb0 ls = true -> orderly c ls.
Proof.
  unfold orderly. generalize sb0. induction ls as [|l q IH]; intros s H; [exact Logic.I|]. cbn [orderly_from]. apply andb_true_iff in H as [H1 H2]. split.
  - intros ES (o & v & ->) i A. rewrite ES in H1. rewrite forallb_forall in H1. apply alive_iff in A as (e & He & LE). apply nth_error_In in He. specialize (H1 e He). rewrite LE in H1. discriminate.
  - destruct (sb_step c s l); auto.
Qed.
Lemma infos_okb ls : forallb (fun l => match l with LS _ (Raise _) => false | _ => true end) ls = true -> infos_ok ls.
Proof. intros H o e Hin. rewrite forallb_forall in H. specialize (H _ Hin). discriminate. Qed.
(** Two sessions and a failing open in between. *)
Definition life_hist : list label := retry_hist ++ restarting (PObj 8) ++ round 2 (PInt 3) ++ [LT 2 (Ok PNone); LT 2 (Ok PNone); LT 2 (Raise (OtherError 4))] ++ finish 2.
Example C38_nonvacuous :
  let s := end_of cfg3 life_hist in history cfg3 life_hist s /\ orderly cfg3 life_hist /\ infos_ok life_hist /\ (exists d0, sd_init [] (c_key cfg3) (c_maxlen cfg3) = Ok d0) /\
  source_events (sb_tr s) = [EOpen 0 (Ok tt); EClose 0 (Ok tt); EOpen 1 (Raise RuntimeError); EOpen 2 (Ok tt); ERead 2 (Ok (PInt 3)); ERead 2 (Raise (OtherError 4)); EClose 2 (Ok tt)].
Proof.
  cbn zeta. split; [apply history_end; vm_compute; reflexivity|]. split; [apply orderlyb_ok; vm_compute; reflexivity|].
  split; [apply infos_okb; vm_compute; reflexivity|]. split; [eexists; reflexivity|]. vm_compute. reflexivity.
Qed.

(** ** C39: restarting *)
(** When restarts find the earlier threads ended: at most one thread lives, and an earlier
    session's thread does nothing at all once a later start() has opened the source. *)
Theorem C39_restart_partial :
  forall c ls s, history c ls s -> orderly c ls ->
  (forall i j, alive s i -> alive s j -> i = j) /\
  (forall i k o t1 t2, sb_tr s = t1 ++ EOpen k o :: t2 -> i < k -> thread_events i t2 = []).
Proof.
  intros c ls s H O. split.
  - intros i j A B. destruct (alive_latest c ls s i H O A), (alive_latest c ls s j H O B). congruence.
  - revert O. revert ls s H. apply (sb_ind c (fun ls s => orderly c ls -> forall i k o t1 t2, sb_tr s = t1 ++ EOpen k o :: t2 -> i < k -> thread_events i t2 = [])).
    + intros _ i k o [|] t2 E; discriminate.
    + intros ls s l s' Hh IH H O i k o t1 t2 Et L. destruct (orderly_snoc c ls l s Hh O) as [O1 _]. specialize (IH O1).
      pose proof (open_lt c ls s Hh k) as OL. pose proof (fun A => alive_latest c ls s i Hh O1 A) as AL.
      destruct (thread_case l i) as [[x ->]|N].
      * destruct (step_trace c s _ s' H) as (es & Es). pose proof (AL (step_alive c s i x s' H)) as [_ SI].
        assert (X : In (EOpen k o) (sb_tr s)).
        { assert (Y : In (EOpen k o) (sb_tr s')) by (rewrite Et; apply in_or_app; right; now left).
          clear - H Y. step_cases H; injection H as <-; in_new Y; auto. all: try discriminate. }
        specialize (OL o X). lia.
      * clear O O1 AL OL. step_cases H; injection H as <-; proj; eauto;
          (apply snoc_split in Et as [(-> & <- & Et)|(t3 & -> & Et)]; [try discriminate Et; reflexivity|]); rewrite ?te_snoc; cbn [by_thread]; rewrite ?app_nil_r; eauto;
          try (apply snoc_split in Et as [(-> & <- & Et)|(t4 & -> & Et)]; [try discriminate Et; reflexivity|]); rewrite ?te_snoc; cbn [by_thread]; rewrite ?app_nil_r; eauto.
        all: match goal with NN : forall _, _ <> _ |- context [Nat.eqb ?a ?b] => destruct (Nat.eqb_spec a b) as [XX|]; [subst; exfalso; eapply NN; reflexivity|rewrite app_nil_r; eauto] end.
Qed.
Print Assumptions C39_restart_partial.
Example C39_nonvacuous :
  let s := end_of cfg3 two_sessions in history cfg3 two_sessions s /\ orderly cfg3 two_sessions /\ alive s 1 /\ ended s 0.
Proof.
  cbn zeta. split; [apply history_end; vm_compute; reflexivity|]. split; [apply orderlyb_ok; vm_compute; reflexivity|]. split.
  - apply alive_iff. eexists. split; vm_compute; reflexivity.
  - eexists. eexists. split; vm_compute; reflexivity.
Qed.
(** A source whose read lasts longer than stop()'s second: after stop() and start() both
    threads read, and the old one's item lands in the new session's buffer. *)
Definition slow_restart : list label :=
  starting (PObj 7) ++ [LT 0 (Ok PNone); LT 0 (Ok PNone); LStop; LStopRet] ++ starting (PObj 8).
Theorem C39_old_thread_survives_refuted :
  exists c ls s, history c ls s /\ (exists j, In (EStop (Ok j)) (sb_tr s)) /\ sb_start s = SFree /\ sb_stops s = 0 /\
  alive s 0 /\ alive s 1 /\ In (ERead 0 (Ok (PInt 5))) (sb_tr s) /\ In (EAppend 0 1 (PInt 5) (Ok tt)) (sb_tr s) /\
  (exists t1 t2, sb_tr s = t1 ++ EStarted 1 :: t2 /\ In (ERead 0 (Ok (PInt 6))) t2).
Proof.
  exists cfg3, (slow_restart ++ [LT 0 (Ok (PInt 5)); LT 0 (Ok PNone); LT 0 (Ok PNone)] ++ round 0 (PInt 6)). eexists. split; [apply history_end; vm_compute; reflexivity|].
  split. { exists 0. vm_compute. repeat (try (left; reflexivity); right). }
  split; [vm_compute; reflexivity|]. split; [vm_compute; reflexivity|].
  split; [apply alive_iff; eexists; split; vm_compute; reflexivity|]. split; [apply alive_iff; eexists; split; vm_compute; reflexivity|].
  split; [vm_compute; repeat (try (left; reflexivity); right)|]. split; [vm_compute; repeat (try (left; reflexivity); right)|].
  exists [EOpen 0 (Ok tt); EBuilt 0 (PObj 7); EStarted 0; EStop (Ok 0); EOpen 1 (Ok tt); EBuilt 1 (PObj 8)]. eexists. split; [vm_compute; reflexivity|].
  vm_compute. repeat (try (left; reflexivity); right).
Qed.
Print Assumptions C39_old_thread_survives_refuted.
(** ... and if that read raises, the old thread stops the new session and closes the source
    under it. *)
Theorem C39_old_failure_stops_new_session_refuted :
  exists c ls s, history c ls s /\ last_start (sb_tr s) = Some (1, true) /\ In (ERead 0 (Raise (OtherError 9))) (sb_tr s) /\
  ~ In (EStop (Ok 1)) (sb_tr s) /\ count (is_read_of 1) (sb_tr s) = 0 /\
  is_running s = false /\ (exists t1 t2 u, sb_tr s = t1 ++ EStarted 1 :: t2 /\ In (EClose 0 u) t2).
Proof.
  exists cfg3, (slow_restart ++ [LT 0 (Raise (OtherError 9))] ++ finish 0). eexists. split; [apply history_end; vm_compute; reflexivity|].
  split; [vm_compute; reflexivity|]. split; [vm_compute; repeat (try (left; reflexivity); right)|].
  split. { vm_compute. intros X. repeat (destruct X as [X|X]; [discriminate|]). destruct X. }
  split; [vm_compute; reflexivity|]. split; [vm_compute; reflexivity|].
  exists [EOpen 0 (Ok tt); EBuilt 0 (PObj 7); EStarted 0; EStop (Ok 0); EOpen 1 (Ok tt); EBuilt 1 (PObj 8)]. do 2 eexists. split; [vm_compute; reflexivity|].
  right. left. reflexivity.
Qed.
Print Assumptions C39_old_failure_stops_new_session_refuted.

(** ** C40: auto_drop=False *)
Theorem C40_nothing_lost :
  forall c ls s, c_auto c <> PBool true -> history c ls s -> orderly c ls -> forall j d, buf_of s j = Some d ->
  sd_list d = kept j (sb_tr s) /\ (forall m, c_maxlen c = Some m -> (Z.of_nat (length (sd_list d)) <= m)%Z).
Proof.
  intros c ls s A H O j d Ed. apply is_True_f in A. pose proof (kept_history c ls s A H O j) as K. rewrite Ed in K. split; [auto|].
  intros m Em. destruct (shaped_history c ls s j d H Ed) as (_ & _ & B & M). specialize (M (Z.to_nat m)). rewrite B, Em in M. specialize (M eq_refl).
  pose proof (buf_hist_all c ls s H j) as BH. unfold buf_hist in BH. rewrite Ed in BH. destruct BH as (d0 & D0 & _).
  unfold sd_init in D0. cbn in D0. unfold check_maxlen in D0. rewrite Em in D0. destruct (Z.ltb_spec m 0); [discriminate|]. unfold sd_list. lia.
Qed.
Print Assumptions C40_nothing_lost.
Definition cfg_man : cfg := MkCfg ident (Some 2%Z) (PBool false).
(** A round of a thread that asks for room first. *)
Definition room_round (i : nat) (x : pyval) : list label := LT i (Ok PNone) :: round i x.
(** The buffer fills up; the thread waits; drop() makes room. *)
Definition full_hist : list label :=
  starting (PObj 7) ++ room_round 0 (PInt 1) ++ room_round 0 (PInt 2) ++ [LT 0 (Ok PNone); LT 0 (Ok PNone); LT 0 (Ok PNone); LT 0 (Ok PNone); StreamBufferM.LDrop 1; LDropDo 0] ++ room_round 0 (PInt 3).
Example C40_nonvacuous :
  let s := end_of cfg_man full_hist in history cfg_man full_hist s /\ orderly cfg_man full_hist /\
  accepted_by 0 (sb_tr s) = [PInt 1; PInt 2; PInt 3] /\ kept 0 (sb_tr s) = [PInt 2; PInt 3].
Proof. cbn zeta. split; [apply history_end; vm_compute; reflexivity|]. split; [apply orderlyb_ok; vm_compute; reflexivity|]. vm_compute. auto. Qed.
Definition slow_restart_man : list label :=
  starting (PObj 7) ++ [LT 0 (Ok PNone); LT 0 (Ok PNone); LT 0 (Ok PNone); LStop; LStopRet] ++ starting (PObj 8).
(** Without the condition on restarts an old thread can push items out. *)
Theorem C40_old_thread_evicts_refuted :
  exists c ls s d, c_auto c <> PBool true /\ history c ls s /\ buf_of s 1 = Some d /\
  kept 1 (sb_tr s) = [PInt 1; PInt 2; PInt 9] /\ sd_list d = [PInt 2; PInt 9].
Proof.
  exists cfg_man, (slow_restart_man ++ room_round 1 (PInt 1) ++ room_round 1 (PInt 2) ++ [LT 0 (Ok (PInt 9)); LT 0 (Ok PNone); LT 0 (Ok PNone)]). do 2 eexists.
  split; [discriminate|]. split; [apply history_end; vm_compute; reflexivity|]. split; [vm_compute; reflexivity|]. vm_compute. auto.
Qed.
Print Assumptions C40_old_thread_evicts_refuted.

(** ** C41: everything read is buffered in order *)
Theorem C41_read_order :
  forall c ls s, history c ls s -> forall i,
  (exists rest, data_read i (sb_tr s) = appended_ok i (sb_tr s) ++ rest /\
     (rest = [] \/ (exists v, rest = [v] /\ in_hand s i v) \/
      exists v e, rest = [v] /\ excused i (sb_tr s) e v)) /\
  (forall j x o, In (EAppend i j x o) (sb_tr s) -> x <> PNone).
Proof.
  intros c ls s H i. split; [|intros; eapply append_not_none; eauto].
  pose proof (life_all c ls s H i) as L. unfold life_inv in L. rewrite <- data_read_te, <- appended_ok_te.
  assert (EX : forall e v, excused i (thread_events i (sb_tr s)) e v -> excused i (sb_tr s) e v).
  { intros e v [(j & X)|X]; [left; exists j|right]; now apply filter_In in X. }
  destruct (nth_error (sb_ss s) i) as [e|] eqn:Ei; [|rewrite L; exists []; auto].
  destruct L as [L _]. destruct (life_data i _ _ L) as (rest & E & R). exists rest. split; [assumption|].
  destruct (se_pc e) as [| | | | |x|j x| |[]|[]|[]|[]] eqn:Ep; cbn [ph] in R; auto;
    try (destruct R as [R|(v & R & X)]; [auto|right; right; eauto]; fail).
  - right. left. exists x. split; [assumption|]. left. exists e. auto.
  - right. left. exists x. split; [assumption|]. right. exists j, e. auto.
Qed.
Print Assumptions C41_read_order.
(** ... and the buffer it goes to is that session's, if restarts find the earlier threads
    ended; the only other reason to give a value up is then the append itself. *)
Theorem C41_own_buffer :
  forall c ls s, history c ls s -> orderly c ls -> forall i,
  appended_ok i (sb_tr s) = accepted_by i (sb_tr s) /\
  (forall j x o, In (EAppend i j x o) (sb_tr s) -> j = i) /\
  ~ In (ENoBuf i AttributeError) (sb_tr s).
Proof.
  intros c ls s H O i. destruct (own_buffer c ls s H O) as [A B]. split; [|split].
  - assert (A' : forall i' j' x o, In (EAppend i' j' x o) (sb_tr s) -> i' = j') by exact A. clear - A'. unfold appended_ok, accepted_by.
    induction (sb_tr s) as [|e tr IH]; [reflexivity|]. cbn [flat_map]. rewrite IH by (intros; eapply A'; right; eauto). f_equal.
    destruct e; auto. rewrite (A' i0 j x o) by now left. reflexivity.
  - intros j x o X. symmetry. eapply A; eauto.
  - intro X. destruct (B _ _ X) as [Y _]. discriminate.
Qed.
Print Assumptions C41_own_buffer.
Example C41_nonvacuous :
  let h := starting (PObj 7) ++ round 0 (PInt 5) ++ [LT 0 (Ok PNone); LT 0 (Ok PNone); LT 0 (Ok PNone); LT 0 (Ok PNone)] ++ round 0 (PInt 4) in
  let s := end_of cfg3 h in history cfg3 h s /\ orderly cfg3 h /\
  data_read 0 (sb_tr s) = [PInt 5; PInt 4] /\ accepted_by 0 (sb_tr s) = [PInt 5] /\ excused 0 (sb_tr s) ValueError (PInt 4).
Proof.
  cbn zeta. split; [apply history_end; vm_compute; reflexivity|]. split; [apply orderlyb_ok; vm_compute; reflexivity|].
  split; [vm_compute; reflexivity|]. split; [vm_compute; reflexivity|]. left. exists 0. vm_compute. repeat (try (left; reflexivity); right).
Qed.

(** ** C42: a failing source *)
(** From the moment read(), append or time.sleep() raised in thread [i]: it does nothing but close the
    source once; it ends within three of its own steps and is never blocked; once it has
    ended the stop event is set. *)
Theorem C42_failure_stops_cleanly :
  forall c ls s i e x t1 t2, history c ls s -> sb_tr s = t1 ++ x :: t2 -> failure_of i e x ->
  (thread_events i t2 = [] /\ alive s i \/
   exists u, thread_events i t2 = [EClose i u] /\ thread_is s i (TDone (Some e)) /\ ev_set s i = true) /\
  (alive s i -> forall o, exists s', sb_step c s (LT i o) = Some s') /\
  (forall ls' s', sb_run c s ls' = Some s' -> own_steps i ls' <= 3 /\ (own_steps i ls' = 3 -> ended s' i)).
Proof.
  intros c ls s i e x t1 t2 H Et FX.
  assert (ST : forall ls s t2, history c ls s -> sb_tr s = t1 ++ x :: t2 ->
    (thread_events i t2 = [] /\ (thread_is s i (TFinCheck (Some e)) \/ thread_is s i (TFinSet (Some e)) \/ thread_is s i (TClose (Some e)))) \/
    (exists u, thread_events i t2 = [EClose i u] /\ thread_is s i (TDone (Some e)))) by (intros; eapply failure_stage; eauto).
  split; [|split].
  - destruct (ST ls s t2 H Et) as [[A B]|(u & A & B)].
    + left. split; [assumption|]. destruct B as [B|[B|B]]; eexists; (split; [exact B|exact Logic.I]).
    + right. exists u. split; [assumption|]. split; [assumption|]. eapply ended_ev_set; eauto. now exists (Some e).
  - intros A o. eapply alive_steps; eauto. intros (j & y & (e0 & E0 & P0) & _). destruct (ST ls s t2 H Et) as [[_ B]|(u & _ & B)]; [destruct B as [B|[B|B]]|]; destruct B as (e1 & E1 & P1); congruence.
  - set (left_ := fun s => match tpc_of s i with TFinCheck _ => 3 | TFinSet _ => 2 | TClose _ => 1 | _ => 0 end).
    assert (K : forall ls' s', sb_run c s ls' = Some s' -> own_steps i ls' + left_ s' <= 3 /\ history c (ls ++ ls') s' /\ exists t2', sb_tr s' = t1 ++ x :: t2').
    { induction ls' as [|l q IH] using rev_ind; intros s' H'.
      - injection H' as <-. rewrite app_nil_r. cbn. split; [|eauto]. unfold left_. destruct (tpc_of s i); lia.
      - apply sb_run_snoc in H' as (m & Hm & Hs). destruct (IH m Hm) as (A & B & t2' & C).
        assert (Hh : history c (ls ++ q ++ [l]) s') by (rewrite app_assoc; apply sb_run_snoc; eauto).
        destruct (step_trace c m l s' Hs) as (es & Es).
        assert (OS : own_steps i (q ++ [l]) = own_steps i q + own i l) by (clear; induction q; cbn; lia).
        split; [|split; [assumption|]].
        2:{ exists (t2' ++ es). rewrite Es, C, <- app_assoc. reflexivity. }
        rewrite OS. unfold left_ in *. unfold tpc_of in *.
        assert (ST' := ST _ m t2' B C).
        destruct (thread_case l i) as [[o ->]|N].
        + cbn [own]. rewrite Nat.eqb_refl. destruct (nth_error (sb_ss m) i) as [em|] eqn:Em.
          2:{ exfalso. pose proof (step_alive c m i o s' Hs) as X. apply alive_iff in X as (em & X & _). congruence. }
          destruct (thread_move c m i o s' em Hs Em) as (e' & E' & MV). rewrite E'.
          assert (ST2 : se_pc em = TFinCheck (Some e) \/ se_pc em = TFinSet (Some e) \/ se_pc em = TClose (Some e) \/ se_pc em = TDone (Some e)).
          { destruct ST' as [[_ [(y & Y & P)|[(y & Y & P)|(y & Y & P)]]]|(u & _ & (y & Y & P))]; assert (y = em) by congruence; subst; auto. }
          destruct ST2 as [P|[P|[P|P]]]; rewrite P in *.
          * rewrite MV. destruct (running m); lia.
          * destruct MV as [-> _]. lia.
          * rewrite MV. lia.
          * destruct MV.
        + assert (ON : own i l = 0). { destruct l as [| | | | | | | | | | | | | |i0 o0]; try reflexivity. cbn. destruct (Nat.eqb_spec i0 i) as [->|]; [exfalso; eapply N; reflexivity|reflexivity]. }
          rewrite ON. destruct (nth_error (sb_ss m) i) as [em|] eqn:Em.
          * destruct (step_frame c m l s' Hs i em Em) as (e' & -> & P & _). destruct P as [->|[[o ->]|(_ & _ & -> & _)]]; [lia|exfalso; eapply N; reflexivity|lia].
          * exfalso. destruct ST' as [[_ [(y & Y & P)|[(y & Y & P)|(y & Y & P)]]]|(u & _ & (y & Y & P))]; congruence. }
    intros ls' s' H'. destruct (K ls' s' H') as (A & B & t2' & C). split; [lia|]. intro E3.
    destruct (ST _ s' t2' B C) as [[_ D]|(u & _ & D)]; [|now exists (Some e)]. exfalso.
    unfold left_, tpc_of in A. destruct D as [(y & Y & P)|[(y & Y & P)|(y & Y & P)]]; rewrite Y, P in A; lia.
Qed.
Print Assumptions C42_failure_stops_cleanly.
(** Nothing a failing thread does changes any buffer. *)
Theorem C42_items_stay :
  forall c ls s i e x t1 t2, history c ls s -> sb_tr s = t1 ++ x :: t2 -> failure_of i e x ->
  forall o s', sb_step c s (LT i o) = Some s' -> forall j, buf_of s' j = buf_of s j.
Proof.
  intros c ls s i e x t1 t2 H Et FX o s' Hs j.
  pose proof (failure_stage c ls s i e x t1 t2 H Et FX) as ST.
  assert (ST2 : exists y, nth_error (sb_ss s) i = Some y /\ (se_pc y = TFinCheck (Some e) \/ se_pc y = TFinSet (Some e) \/ se_pc y = TClose (Some e) \/ se_pc y = TDone (Some e))).
  { destruct ST as [[_ [(y & Y & P)|[(y & Y & P)|(y & Y & P)]]]|(u & _ & (y & Y & P))]; eauto 7. }
  destruct ST2 as (y & Y & P). cbn in Hs. rewrite Y in Hs. unfold thread_step in Hs. cbn zeta in Hs.
  destruct P as [P|[P|[P|P]]]; rewrite P in Hs; try discriminate; injection Hs as <-; unfold buf_of, do_stop; proj; now rewrite !buf_upd_id by reflexivity.
Qed.
Print Assumptions C42_items_stay.
(** When an item fails: an item is refused, with the buffer unchanged, exactly if its key
    cannot be computed or is not greater than the key of the last buffered item. *)
Theorem C42_refused_items :
  forall c ls s l s' i j x u, history c ls s -> sb_step c s l = Some s' -> sb_tr s' = sb_tr s ++ [EAppend i j x u] ->
  exists d, buf_of s j = Some d /\ (u <> Ok tt -> buf_of s' j = Some d) /\
  match c_key c x with
  | Raise e => u = Raise e
  | Ok k => (sd_list d = [] -> u = Ok tt) /\
      forall q y ky, sd_list d = q ++ [y] -> c_key c y = Ok ky ->
      u = match py_gt k ky with Ok true => Ok tt | Ok false => Raise ValueError | Raise e => Raise e end
  end.
Proof.
  intros c ls s l s' i j x u H Hs Et. pose proof (fun k d => shaped_history c ls s k d H) as SH.
  assert (INJ : forall a b : list ev, forall e, a ++ b = a ++ [e] -> b = [e]) by (intros a b e EQ; exact (app_inv_head a b [e] EQ)).
  step_cases Hs; injection Hs as <-; proj; try (rewrite <- (app_nil_r (sb_tr s)) in Et at 1; apply INJ in Et; discriminate);
    try (rewrite <- ?app_assoc in Et; cbn [app] in Et; apply INJ in Et; discriminate).
  apply INJ in Et. injection Et as -> -> -> ->.
  pose proof (SH j s1 E3) as (C & K & B & M). exists s1. split; [assumption|].
  destruct (append_spec s1 x C M) as [A _]. split.
  - intro N. unfold buf_of in *. proj. rewrite buf_upd_id by reflexivity. rewrite buf_upd, Nat.eqb_refl. destruct (nth_error (sb_ss s) j); [|discriminate]. cbn.
    destruct (append_cases s1 x) as [(k & _ & _ & EQ)|(e & EQ)]; rewrite EQ in E4; injection E4 as <- <-; congruence.
  - rewrite K in A. destruct (c_key c x) as [k|e].
    + destruct A as [A1 A2]. split; [intro X; rewrite <- (A1 X), E4; reflexivity|]. intros q y ky Eq Ky. specialize (A2 q y ky Eq Ky).
      destruct (py_gt k ky) as [[]|]; [rewrite E4 in A2; exact A2|rewrite A2 in E4; now injection E4|rewrite A2 in E4; now injection E4].
    + rewrite A in E4. now injection E4.
Qed.
Print Assumptions C42_refused_items.
(** A key that is not greater than the last one, and a close() that raises. *)
Example C42_nonvacuous :
  let h := starting (PObj 7) ++ [StreamBufferM.LMk 1 false false true] ++ round 0 (PInt 5) ++ round 0 (PInt 5) ++ [LT 0 (Ok PNone); LT 0 (Ok PNone); LT 0 (Raise KeyError); LCallR 0 (CNext false); LCallR 0 (CNext false)] in
  let s := end_of cfg3 h in history cfg3 h s /\ (exists t1 x t2, sb_tr s = t1 ++ x :: t2 /\ failure_of 0 ValueError x) /\
  thread_is s 0 (TDone (Some ValueError)) /\ received 0 (sb_tr s) = [PInt 5].
Proof.
  cbn zeta. split; [apply history_end; vm_compute; reflexivity|]. split.
  - exists [EOpen 0 (Ok tt); EBuilt 0 (PObj 7); EStarted 0; ENew 0 0 1 false false true; EMk (Ok 0); ERead 0 (Ok (PInt 5)); EAppend 0 0 (PInt 5) (Ok tt); ERead 0 (Ok (PInt 5))].
    do 2 eexists. split; [vm_compute; reflexivity|]. right. left. do 2 eexists. reflexivity.
  - split; [eexists; split; vm_compute; reflexivity|]. vm_compute. reflexivity.
Qed.

(** ** C43: stop() is effective *)
(** [s1]: the state when stop() has set the event. As long as no start() installs a new
    event, each thread reads at most once more, appends at most once more, is never blocked
    and has ended after at most eight more steps of its own. *)
Theorem C43_stop_is_effective :
  forall c ls s s1, history c ls s -> sb_step c s LStop = Some s1 -> sb_ss s <> [] ->
  forall ls' s', sb_run c s1 ls' = Some s' -> length (sb_ss s') = length (sb_ss s1) -> forall k,
  count (is_read_of k) (sb_tr s') <= S (count (is_read_of k) (sb_tr s1)) /\
  count (is_append_of k) (sb_tr s') <= S (count (is_append_of k) (sb_tr s1)) /\
  own_steps k ls' <= 8 /\ (own_steps k ls' = 8 -> ended s' k) /\
  (alive s' k -> forall o, (exists s'', sb_step c s' (LT k o) = Some s'') \/
     (exists j x m s'', thread_is s' k (TPut j x) /\ sb_step c s' (LDropDo m) = Some s'' /\ ~ waits_for_drop s'' k)).
Proof.
  intros c ls s s1 H Hs NE ls' s' Hr HL k.
  assert (H1 : history c (ls ++ [LStop]) s1) by (apply sb_run_snoc; eauto).
  assert (H2 : history c ((ls ++ [LStop]) ++ ls') s') by (unfold history in *; rewrite sb_run_app; now rewrite H1).
  assert (R : running s1 = false).
  { cbn in Hs. destruct (Nat.eqb_spec (length (sb_ss s)) 0) as [E|E]; [destruct (sb_ss s); [congruence|discriminate]|]. injection Hs as <-.
    pose proof (running_do_stop s) as X. exact X. }
  destruct (stopped_run c k ls' s1 s' (sinv_history c _ s1 H1) Hr R HL) as (A & B & C).
  assert (to_read (tpc_of s1 k) <= 1 /\ to_append (tpc_of s1 k) <= 1 /\ dist (tpc_of s1 k) <= 8) as (D1 & D2 & D3) by (destruct (tpc_of s1 k); cbn; lia).
  parts; try lia.
  - intro E. assert (D0 : dist (tpc_of s' k) = 0) by lia. unfold tpc_of in D0. destruct (nth_error (sb_ss s') k) as [e|] eqn:Ek; [|discriminate].
    destruct (se_pc e) as [| | | | | | | | | | |x] eqn:Ep; try discriminate. exists x, e. auto.
  - intros A' o. destruct A' as (p & (e & Ek & Ep) & A0). assert (A' : alive s' k) by (exists p; split; [exists e; auto|exact A0]).
    assert (DEC : waits_for_drop s' k \/ ~ waits_for_drop s' k).
    { destruct p as [| | | | | |j x| | | | |]; try (right; intros (j' & x' & (e2 & E2 & P2) & _); congruence).
      destruct (dropping s' j) eqn:Ed; [left; exists j, x; split; [exists e; auto|congruence]|right; intros (j' & x' & (e2 & E2 & P2) & X)]. congruence. }
    destruct DEC as [W|W]; [right|left; eapply alive_steps; eauto]. destruct W as (j & x & T & X). destruct (drop_steps c _ s' j H2 X) as (m & s'' & S2 & N2).
    exists j, x, m, s''. split; [exact T|]. split; [exact S2|]. intros (j' & x' & (e2 & E2 & P2) & X2).
    destruct T as (e3 & E3 & P3). destruct (step_frame _ _ _ _ S2 k e3 E3) as (e4 & E4 & Q & _). destruct Q as [Q|[[o' Q]|(_ & _ & _ & o' & v & Q)]]; [|discriminate..]. congruence.
Qed.
Print Assumptions C43_stop_is_effective.
Example C43_nonvacuous :
  let h := starting (PObj 7) ++ round 0 (PInt 1) ++ [LT 0 (Ok PNone)] in
  let h' := [LT 0 (Ok PNone); LT 0 (Ok (PInt 2)); LT 0 (Ok PNone); LT 0 (Ok PNone); LT 0 (Ok PNone); LT 0 (Ok PNone); LT 0 (Ok PNone)] in
  exists s1 s', history cfg3 h (end_of cfg3 h) /\ sb_step cfg3 (end_of cfg3 h) LStop = Some s1 /\ sb_run cfg3 s1 h' = Some s' /\
  length (sb_ss s') = length (sb_ss s1) /\ ended s' 0 /\ count (is_read_of 0) (sb_tr s') = S (count (is_read_of 0) (sb_tr s1)).
Proof.
  cbn zeta. do 2 eexists. split; [apply history_end; vm_compute; reflexivity|]. split; [vm_compute; reflexivity|]. split; [vm_compute; reflexivity|].
  split; [vm_compute; reflexivity|]. split; [|vm_compute; reflexivity]. eexists. eexists. split; vm_compute; reflexivity.
Qed.

(** ** C44: when stop() returns *)
(** If the threads have ended by then (stop() waits one second, it does not join): until the
    next start() the source is not touched and no item is added. *)
Theorem C44_after_stop_partial :
  forall c ls s, history c ls s -> all_ended s ->
  forall ls' s', sb_run c s ls' = Some s' -> sb_start s = SFree -> start_steps ls' = 0 ->
  source_events (sb_tr s') = source_events (sb_tr s) /\ (forall j, accepted_by j (sb_tr s') = accepted_by j (sb_tr s)) /\ all_ended s'.
Proof.
  intros c ls s H AE ls'. induction ls' as [|l q IH] using rev_ind; intros s' Hr F SS.
  - injection Hr as <-. auto.
  - apply sb_run_snoc in Hr as (m & Hm & Hs).
    assert (S0 : start_steps q = 0 /\ forall o v, l <> LS o v).
    { unfold start_steps in *. rewrite filter_app, app_length in SS. split; [lia|]. intros o v ->. cbn in SS. lia. }
    destruct S0 as [S0 SN]. destruct (IH m Hm F S0) as (A & B & C).
    assert (NT : forall k o, l <> LT k o) by (intros k o ->; exact (C k (step_alive c m k o s' Hs))).
    rewrite <- A. split; [|split].
    + clear - Hs NT SN. step_cases Hs; injection Hs as <-; proj; rewrite ?se_snoc; cbn [is_source_event]; rewrite ?app_nil_r; auto; exfalso; solve [eapply SN; eassumption|eapply NT; eassumption].
    + intro j. rewrite <- B. clear - Hs NT SN. step_cases Hs; injection Hs as <-; proj; unfold accepted_by; rewrite ?flat_map_app; cbn [flat_map]; rewrite ?app_nil_r; auto; exfalso; solve [eapply SN; eassumption|eapply NT; eassumption].
    + intros k A'. destruct (alive_back c m l s' k Hs A') as [A0|(_ & _ & o & v & ->)]; [exact (C k A0)|eapply SN; reflexivity].
Qed.
Print Assumptions C44_after_stop_partial.
Example C44_nonvacuous :
  let h := starting (PObj 7) ++ round 0 (PInt 1) ++ [LStop] ++ finish 0 ++ [LStopRet] in let s := end_of cfg3 h in
  history cfg3 h s /\ all_ended s /\ sb_start s = SFree /\ sb_stops s = 0 /\ source_events (sb_tr s) = [EOpen 0 (Ok tt); ERead 0 (Ok (PInt 1)); EClose 0 (Ok tt)].
Proof.
  cbn zeta. split; [apply history_end; vm_compute; reflexivity|]. split; [|parts; vm_compute; reflexivity].
  intros i A. apply alive_iff in A as (e & He & L). destruct i as [|i]; vm_compute in He; [injection He as <-; discriminate|]. destruct i; discriminate.
Qed.
(** A slow read: stop() has returned, then an item is added and only then the source closed. *)
Theorem C44_after_stop_refuted :
  exists c ls s ls' s', history c ls s /\ In (EStop (Ok 0)) (sb_tr s) /\ sb_stops s = 0 /\ count (is_close_of 0) (sb_tr s) = 0 /\
  sb_run c s ls' = Some s' /\ start_steps ls' = 0 /\ accepted_by 0 (sb_tr s) = [] /\ accepted_by 0 (sb_tr s') = [PInt 1].
Proof.
  exists cfg3, (starting (PObj 7) ++ [LT 0 (Ok PNone); LT 0 (Ok PNone); LStop; LStopRet]). eexists. exists [LT 0 (Ok (PInt 1)); LT 0 (Ok PNone); LT 0 (Ok PNone)]. eexists.
  split; [apply history_end; vm_compute; reflexivity|]. split; [vm_compute; repeat (try (left; reflexivity); right)|].
  split; [vm_compute; reflexivity|]. split; [vm_compute; reflexivity|]. split; [vm_compute; reflexivity|]. parts; vm_compute; reflexivity.
Qed.
Print Assumptions C44_after_stop_refuted.

(** ** C45: is_running *)
(** After a successful start(), with orderly restarts: True until stop() is called or the
    thread has left its loop and set the event. *)
Theorem C45_is_running_partial :
  forall c ls s, history c ls s -> orderly c ls -> sb_start s = SFree ->
  match last_start (sb_tr s) with
  | None => is_running s = false
  | Some (i, true) => is_running s = true <->
      ~ In (EStop (Ok i)) (sb_tr s) /\ ~ (exists e, thread_is s i (TClose e) \/ thread_is s i (TDone e))
  | Some (i, false) => True
  end.
Proof.
  intros c ls s H O F. pose proof (ls_history c ls s H) as L. unfold ls_inv in L. rewrite F in L. unfold is_running, running.
  destruct (last_start (sb_tr s)) as [[i []]|]; [|exact Logic.I|destruct L as [_ ->]; now destruct (latest s)].
  destruct (si_cur _ (sinv_history c ls s H) i L) as [LI [d Hd]]. unfold buf_of in Hd. replace (latest s) with i by (unfold latest; lia).
  destruct (nth_error (sb_ss s) i) as [e|] eqn:E; [|discriminate]. split.
  - intro R. split.
    + intro X. assert (SE : ev_set s i = true).
      { clear - X H. revert X. revert ls s H. apply (sb_ind c (fun _ s => In (EStop (Ok i)) (sb_tr s) -> ev_set s i = true)); [intros []|].
        intros ls s l s' Hh IH H X. assert (Y : In (EStop (Ok i)) (sb_tr s) \/ (l = LStop /\ latest s = i /\ sb_ss s <> [])).
        { clear IH. pose proof H as H0. step_cases H; injection H as <-; in_new X; auto. injection X as <-. right. split; [assumption|]. split; [assumption || reflexivity|]. let N := fresh in intro N; rewrite N in E0; discriminate. }
        destruct Y as [Y|(-> & <- & NE)]; [eapply ev_set_mono; eauto|].
        cbn in H. destruct (Nat.eqb_spec (length (sb_ss s)) 0) as [Z|Z]; [destruct (sb_ss s); [congruence|discriminate]|]. injection H as <-. unfold ev_set. proj.
        unfold latest. rewrite nth_upd, Nat.eqb_refl. destruct (nth_error (sb_ss s) _) eqn:N; [reflexivity|]. apply nth_error_None in N. lia. }
      unfold ev_set in SE. rewrite E in SE. rewrite SE in R. discriminate.
    + intros (x & [(e' & E' & P)|(e' & E' & P)]); assert (e' = e) by congruence; subst e'; pose proof (ev_end _ (evinv_history c ls s H) i e E) as Y; rewrite P in Y; rewrite Y in R; discriminate.
  - intros [N1 N2]. destruct (se_set e) eqn:SE; [|reflexivity]. exfalso.
    destruct (set_inv_history c ls s H O i e E SE) as [X|[X|[X|X]]]; [lia|auto| |rewrite F in X; destruct X].
    apply N2. destruct (se_pc e) eqn:P; try (destruct X; fail); eexists; first [left; exists e; split; [assumption|exact P]|right; exists e; split; [assumption|exact P]].
Qed.
Print Assumptions C45_is_running_partial.
Example C45_nonvacuous :
  let s := end_of cfg3 two_sessions in history cfg3 two_sessions s /\ orderly cfg3 two_sessions /\ sb_start s = SFree /\ last_start (sb_tr s) = Some (1, true) /\ is_running s = true.
Proof. cbn zeta. split; [apply history_end; vm_compute; reflexivity|]. split; [apply orderlyb_ok; vm_compute; reflexivity|]. parts; vm_compute; reflexivity. Qed.
(** open() raised, start() raised - and is_running is True. *)
Theorem C45_failed_start_runs_refuted :
  exists c ls s, history c ls s /\ sb_start s = SFree /\ last_start (sb_tr s) = Some (0, false) /\ all_ended s /\ is_running s = true.
Proof.
  exists cfg3, (failing RuntimeError). eexists. split; [apply history_end; vm_compute; reflexivity|]. split; [vm_compute; reflexivity|]. split; [vm_compute; reflexivity|].
  split; [|vm_compute; reflexivity]. intros i A. apply alive_iff in A as (e & He & L). destruct i as [|i]; vm_compute in He; [injection He as <-; discriminate|]. destruct i; discriminate.
Qed.
Print Assumptions C45_failed_start_runs_refuted.

(** ** C46: source_reader_info *)
(** Every reader carries the info its session was built with; the stream's own attribute
    shows it when the buffer is not empty. *)
Theorem C46_info_partial :
  forall c ls s, history c ls s ->
  (forall r q, nth_error (sb_rds s) r = Some q -> exists i n p st ig, In (ENew r i n p st ig) (sb_tr s) /\ In (EBuilt i (rd_info q)) (sb_tr s)) /\
  (forall i v w, In (EBuilt i v) (sb_tr s) -> In (EBuilt i w) (sb_tr s) -> v = w) /\
  (sb_start s = SFree -> forall i, last_start (sb_tr s) = Some (i, true) ->
     exists v d, In (EBuilt i v) (sb_tr s) /\ buf_of s i = Some d /\
       (dropping s i = None -> source_reader_info s = if Nat.eqb (length (sd_list d)) 0 then PNone else v) /\
       (* in the middle of a drop(n), [k] items into it *)
       (forall n k, dropping s i = Some (n, k) -> k <= Z.to_nat n /\ k <= length (sd_list d) /\
          source_reader_info s = if Nat.eqb (length (sd_list d) - k) 0 then PNone else v)).
Proof.
  intros c ls s H. destruct (built_history c ls s H) as (A & B & C). split; [assumption|]. split.
  - intros i v w X Y. destruct (A i v X), (A i w Y). congruence.
  - intros F i E. pose proof (ls_history c ls s H) as L. unfold ls_inv in L. rewrite F, E in L.
    destruct (si_cur _ (sinv_history c ls s H) i L) as [_ [d Hd]]. destruct (B i) as [v Hv]; [now exists d|]. exists v, d. split; [assumption|]. split; [assumption|].
    unfold source_reader_info. rewrite L, Hd. destruct (A i v Hv) as [-> _]. unfold len_seen, gone. split.
    + intros ->. rewrite Nat.sub_0_r. reflexivity.
    + intros n k D. destruct (dinv_history c ls s H i n k D) as (_ & L1 & d1 & E1 & L2). assert (d1 = d) by congruence. subst d1. rewrite D. auto.
Qed.
Print Assumptions C46_info_partial.
Example C46_nonvacuous :
  let s := end_of cfg3 conc_hist in history cfg3 conc_hist s /\ sb_start s = SFree /\ last_start (sb_tr s) = Some (0, true) /\ source_reader_info s = PObj 7 /\
  exists q, nth_error (sb_rds s) 1 = Some q /\ rd_info q = PObj 7.
Proof. cbn zeta. split; [apply history_end; vm_compute; reflexivity|]. parts; try (vm_compute; reflexivity). eexists. split; vm_compute; reflexivity. Qed.
(** Right after start(), before the first item: None. *)
Theorem C46_info_empty_buffer_refuted :
  exists c ls s v, history c ls s /\ sb_start s = SFree /\ last_start (sb_tr s) = Some (0, true) /\ is_running s = true /\
  In (EBuilt 0 v) (sb_tr s) /\ v <> PNone /\ source_reader_info s = PNone.
Proof.
  exists cfg3, (starting (PObj 7)). eexists. exists (PObj 7). split; [apply history_end; vm_compute; reflexivity|]. parts; try (vm_compute; reflexivity); [|discriminate].
  vm_compute. repeat (try (left; reflexivity); right).
Qed.
Print Assumptions C46_info_empty_buffer_refuted.

(** ** C47: next(stream_buffer) *)
(** What holds: if next(stream_buffer) is not called between the return of stop() and the
    next start(), it is always on the newest session. *)
Theorem C47_current_session_partial :
  forall c ls s, history c ls s -> no_next_after_stop c ls -> forall r s' cc o,
  sb_step c s LNext = Some s' -> sb_tr s' = sb_tr s ++ [ENext (Some r) cc o] ->
  exists q d, nth_error (sb_rds s) r = Some q /\ S (rd_sess q) = length (sb_ss s) /\ buf_of s (rd_sess q) = Some d /\
    cc = CNext (ev_set s (rd_sess q)) /\ o = snd (run (do_call d cc) (rd_r q)).
Proof.
  intros c ls s H NR r s' cc o Hs Et. destruct (next_current c ls s H (no_next_reset c ls NR)) as [_ NC]. cbn in Hs. destruct (sb_nx s) as [|n]; [discriminate|].
  destruct (sb_next s) as [r0|] eqn:EN; [|injection Hs as <-; proj; apply app_inv_head in Et; discriminate].
  destruct (NC r0 eq_refl) as (q & Q1 & Q2). unfold call_step in Hs. proj. rewrite Q1 in Hs. rewrite (rd_ev_sess c ls s H r0 q Q1) in Hs. unfold buf_of in *. proj.
  destruct (nth_error (sb_ss s) (rd_sess q)) as [e|] eqn:Ee; [|discriminate]. destruct (se_buf e) as [d|] eqn:Ed; [|discriminate].
  destruct (run _ _) as [br v] eqn:ER. injection Hs as <-. proj. apply app_inv_head in Et. injection Et as -> Ec Ev. subst cc v. exists q, d. rewrite Ee. parts; auto.
  unfold ev_set in *. proj. rewrite Ee in *. cbn [with_stopped] in *. now rewrite ER.
Qed.
Print Assumptions C47_current_session_partial.
(** A checker for [no_next_after_stop]; [clean]: next(stream_buffer) was not called since a
    stop() returned. *)
Fixpoint nnas (c : cfg) (s : sb) (clean : bool) (ls : list label) : bool :=
  match ls with
  | [] => true
  | l :: q =>
      (match l, sb_start s with LS _ _, SClear => clean | _, _ => true end) &&
      match sb_step c s l with
      | None => true
      | Some s' => nnas c s' (match l with LNextMk => false | LStopRet => true | LS _ _ => match sb_start s with SStopClear _ => true | _ => clean end | _ => clean end) q
      end
  end.
Lemma nnas_ok c ls : nnas c sb0 true ls = true -> no_next_after_stop c ls.
Proof.
  assert (G : forall ls done s clean, history c done s -> nnas c s clean ls = true ->
    (clean = true -> ~ In LNextMk done \/ exists p l q, done = p ++ l :: q /\ stop_returns c p l /\ ~ In LNextMk q) ->
    forall pre o v post m, ls = pre ++ LS o v :: post -> history c (done ++ pre) m -> sb_start m = SClear ->
    ~ In LNextMk (done ++ pre) \/ exists p l q, done ++ pre = p ++ l :: q /\ stop_returns c p l /\ ~ In LNextMk q).
  { induction ls0 as [|l ls0 IH]; intros done s clean H N CL pre o v post m E Hm Sm; [destruct pre; discriminate|].
    cbn in N. apply andb_prop in N as [N1 N2]. destruct pre as [|l1 pre]; cbn in E; injection E as -> ->.
    - rewrite app_nil_r in *. unfold history in H, Hm. assert (m = s) by congruence. subst m. rewrite Sm in N1. auto.
    - assert (S1 : exists s1, sb_step c s l1 = Some s1).
      { unfold history in H, Hm. rewrite sb_run_app, H in Hm. cbn [sb_run] in Hm. destruct (sb_step c s l1); [eauto|discriminate]. }
      destruct S1 as (s1 & S1). rewrite S1 in N2. replace (done ++ l1 :: pre) with ((done ++ [l1]) ++ pre) in * by now rewrite <- app_assoc.
      eapply (IH (done ++ [l1]) s1); [|exact N2| |reflexivity|exact Hm|exact Sm].
      + unfold history in *. rewrite sb_run_app, H. cbn. now rewrite S1.
      + intro CT. assert (KEEP : clean = true -> l1 <> LNextMk -> ~ In LNextMk (done ++ [l1]) \/ exists p l q, done ++ [l1] = p ++ l :: q /\ stop_returns c p l /\ ~ In LNextMk q).
        { intros CC NE. destruct (CL CC) as [X|(p & l & q & -> & R & X)].
          - left. intro Y. apply in_app_or in Y as [Y|[Y|[]]]; auto.
          - right. exists p, l, (q ++ [l1]). split; [now rewrite <- app_assoc|]. split; [assumption|]. intro Y. apply in_app_or in Y as [Y|[Y|[]]]; auto. }
        assert (RES : stop_returns c done l1 -> exists p l q, done ++ [l1] = p ++ l :: q /\ stop_returns c p l /\ ~ In LNextMk q) by (intro R; exists done, l1, []; auto).
        destruct l1; try (apply KEEP; [assumption|discriminate]); try discriminate CT; [|right; apply RES; now left].
        destruct (sb_start s) eqn:Es; try (apply KEEP; [assumption|discriminate]). right. apply RES. right. eexists _, _, _, _. split; [reflexivity|]. split; [exact H|exact Es]. }
  intros N pre o v post m E Hm Sm. exact (G ls [] sb0 true eq_refl N ltac:(left; intros []) pre o v post m E Hm Sm).
Qed.
(** Three sessions with orderly stops; next(stream_buffer) is used in each. *)
Example C47_current_session_nonvacuous :
  let session i x := starting (PObj 7) ++ round i (PInt x) ++ [LNextMk; LNext; LStop] ++ finish i ++ [LStopRet] in
  let h := session 0 1%Z ++ session 1 50%Z ++ starting (PObj 8) ++ round 2 (PInt 70) ++ [LNextMk] in
  let s := end_of cfg3 h in history cfg3 h s /\ no_next_after_stop cfg3 h /\
  exists s', sb_step cfg3 s LNext = Some s' /\ sb_tr s' = sb_tr s ++ [ENext (Some 2) (CNext false) (Ok (VItem (PInt 70)))].
Proof.
  cbn zeta. split; [apply history_end; vm_compute; reflexivity|]. split; [apply nnas_ok; vm_compute; reflexivity|]. eexists. split; vm_compute; reflexivity.
Qed.
(** start() on a running stream does forget it: from the moment the inner stop() has run, the
    stream has no reader until start() has returned. *)
Theorem C47_start_on_running_stream :
  forall c ls s, history c ls s -> forall b, sb_start s = SStopClear b ->
  forall ls' s', sb_run c s ls' = Some s' -> 1 <= start_steps ls' ->
  (forall pre post m, ls' = pre ++ post -> sb_run c s pre = Some m -> sb_start m <> SFree) -> sb_next s' = None.
Proof.
  intros c ls s H b F ls'. assert (G : forall ls' s', sb_run c s ls' = Some s' -> (forall pre post m, ls' = pre ++ post -> sb_run c s pre = Some m -> sb_start m <> SFree) ->
    if Nat.eqb (start_steps ls') 0 then sb_start s' = SStopClear b else sb_next s' = None).
  { induction ls'0 as [|l q IH] using rev_ind; intros s' Hr NF; [injection Hr as <-; exact F|].
    apply sb_run_snoc in Hr as (m & Hm & Hs).
    assert (SS : start_steps (q ++ [l]) = start_steps q + start_steps [l]) by (unfold start_steps; now rewrite filter_app, app_length).
    assert (IHm := IH m Hm). assert (NFm : sb_start m <> SFree) by (apply (NF q [l] m); auto).
    assert (NFq : forall pre post m, q = pre ++ post -> sb_run c s pre = Some m -> sb_start m <> SFree).
    { intros pre post m0 -> Hp. apply (NF pre (post ++ [l]) m0); [now rewrite <- app_assoc|assumption]. }
    specialize (IHm NFq). rewrite SS. clear - IHm Hs NFm.
    assert (LF : lock_free m = false) by (unfold lock_free; destruct (sb_start m); congruence).
    destruct (Nat.eqb_spec (start_steps q) 0) as [Z|Z].
    - rewrite Z. cbn [Nat.add]. step_cases Hs; injection Hs as <-; proj; subst; cbn; auto; try congruence.
    - replace (Nat.eqb (start_steps q + start_steps [l]) 0) with false by (symmetry; apply Nat.eqb_neq; lia).
      step_cases Hs; injection Hs as <-; proj; auto; congruence. }
  intros s' Hr S1 NF. specialize (G ls' s' Hr NF). destruct (Nat.eqb_spec (start_steps ls') 0); [lia|assumption].
Qed.
Print Assumptions C47_start_on_running_stream.
Example C47_nonvacuous :
  let h := starting (PObj 7) ++ round 0 (PInt 1) ++ [LNextMk; LNext] ++ [LStart; LS (Ok tt) (Ok PNone); LS (Ok tt) (Ok PNone)] in
  let s := end_of cfg3 h in history cfg3 h s /\ sb_start s = SStopClear false /\ sb_next s = Some 0 /\
  let h2 := h ++ finish 0 ++ repeat (LS (Ok tt) (Ok (PObj 8))) 7 ++ round 1 (PInt 50) ++ [LNextMk; LNext] in
  let s2 := end_of cfg3 h2 in history cfg3 h2 s2 /\ In (ENext (Some 1) (CNext false) (Ok (VItem (PInt 50)))) (sb_tr s2).
Proof.
  cbn zeta. split; [apply history_end; vm_compute; reflexivity|]. split; [vm_compute; reflexivity|]. split; [vm_compute; reflexivity|].
  split; [apply history_end; vm_compute; reflexivity|]. vm_compute. repeat (try (left; reflexivity); right).
Qed.
(** Restart after the source failed: next(stream_buffer) is still on the first session and
    raises StopIteration although the stream runs and has data. *)
Theorem C47_stale_after_failure_refuted :
  exists c ls s, history c ls s /\ orderly c ls /\ is_running s = true /\ last_start (sb_tr s) = Some (1, true) /\
  accepted_by 1 (sb_tr s) = [PInt 50] /\ (exists t, sb_tr s = t ++ [ENext (Some 0) (CNext true) (Raise StopIteration)]).
Proof.
  exists cfg3, (starting (PObj 7) ++ round 0 (PInt 1) ++ [LNextMk; LNext; LT 0 (Ok PNone); LT 0 (Ok PNone); LT 0 (Raise (OtherError 1))] ++ finish 0 ++ starting (PObj 8) ++ round 1 (PInt 50) ++ [LNextMk; LNext]).
  eexists. split; [apply history_end; vm_compute; reflexivity|]. split; [apply orderlyb_ok; vm_compute; reflexivity|]. parts; try (vm_compute; reflexivity).
  exists (removelast (sb_tr (end_of cfg3 (starting (PObj 7) ++ round 0 (PInt 1) ++ [LNextMk; LNext; LT 0 (Ok PNone); LT 0 (Ok PNone); LT 0 (Raise (OtherError 1))] ++ finish 0 ++ starting (PObj 8) ++ round 1 (PInt 50) ++ [LNextMk; LNext])))).
  vm_compute. reflexivity.
Qed.
Print Assumptions C47_stale_after_failure_refuted.

(** ** C49: drop() *)
Theorem C49_drop_refused :
  forall c s n, c_auto c = PBool true ->
  sb_step c s (StreamBufferM.LDrop n) = Some (StreamBufferM.log s (EDrop None n (Raise RuntimeError))).
Proof. intros c s n A. cbn. now rewrite A. Qed.
Print Assumptions C49_drop_refused.
(** Otherwise drop() takes hold of the buffer of the latest start, if that succeeded, and
    changes nothing yet ... *)
Theorem C49_drop_takes_current :
  forall c ls s, history c ls s -> c_auto c <> PBool true -> sb_start s = SFree -> forall i, last_start (sb_tr s) = Some (i, true) -> forall n,
  exists s', sb_step c s (StreamBufferM.LDrop n) = Some s' /\ sb_dr s' = sb_dr s ++ [(i, n)] /\ sb_tr s' = sb_tr s /\ (forall j, buf_of s' j = buf_of s j).
Proof.
  intros c ls s H A0 F i E n. pose proof (is_True_f _ A0) as A. pose proof (ls_history c ls s H) as L. unfold ls_inv in L. rewrite F, E in L. cbn [sb_step]. rewrite A, L.
  eexists. split; [reflexivity|]. parts; reflexivity.
Qed.
Print Assumptions C49_drop_takes_current.
(** ... and then, whatever has happened in between, removes the oldest [n] items that buffer
    has at that moment, nothing else; it raises exactly if there are fewer. *)
Theorem C49_drop_removes_oldest :
  forall c ls s, history c ls s -> forall k i n, nth_error (sb_dr s) k = Some (i, n) ->
  (forall n' q, dropping s i = Some (n', q) -> n' = n) ->   (* the drop inside the buffer, if there is one, is this one *)
  exists s' d d' u, sb_step c s (LDropDo k) = Some s' /\ sb_tr s' = sb_tr s ++ [EDrop (Some i) n u] /\
    buf_of s i = Some d /\ buf_of s' i = Some d' /\ sd_list d' = skipn (Z.to_nat n) (sd_list d) /\
    (u = Ok tt <-> Z.to_nat n <= length (sd_list d)) /\ (forall j, j <> i -> buf_of s' j = buf_of s j).
Proof.
  intros c ls s H k i n E IN. destruct (si_drop _ (sinv_history c ls s H) i n (nth_error_In _ _ E)) as [[d Hd] _]. cbn [sb_step]. rewrite E, Hd.
  assert (G : match dropping s i with Some (n', _) => Z.eqb n' n | None => true end = true) by (destruct (dropping s i) as [[n' q]|]; [apply Z.eqb_eq; eauto|reflexivity]). rewrite G. clear G.
  destruct (shaped_history c ls s i d H Hd) as (C & _). rewrite drop_spec by assumption.
  do 4 eexists. split; [reflexivity|]. proj. split; [reflexivity|]. split; [reflexivity|].
  unfold buf_of in *. proj. destruct (nth_error (sb_ss s) i) as [e|] eqn:Ei; [|discriminate]. rewrite (upd_same _ _ _ _ Ei). cbn. split; [reflexivity|].
  split; [reflexivity|]. split.
  - unfold sd_list. destruct (Nat.leb_spec (Z.to_nat n) (length (sd_items d))); split; auto; try lia; discriminate.
  - intros j N. rewrite buf_upd. destruct (Nat.eqb_spec i j); [congruence|reflexivity].
Qed.
Print Assumptions C49_drop_removes_oldest.
Example C49_nonvacuous :
  let s := end_of cfg_man full_hist in history cfg_man full_hist s /\ c_auto cfg_man <> PBool true /\ sb_start s = SFree /\ last_start (sb_tr s) = Some (0, true) /\
  let h := full_hist ++ [StreamBufferM.LDrop 5] in history cfg_man h (end_of cfg_man h) /\ nth_error (sb_dr (end_of cfg_man h)) 0 = Some (0, 5%Z).
Proof. cbn zeta. split; [apply history_end; vm_compute; reflexivity|]. split; [discriminate|]. split; [vm_compute; reflexivity|]. split; [vm_compute; reflexivity|].
  split; [apply history_end; vm_compute; reflexivity|vm_compute; reflexivity]. Qed.

(** ** C50: sleep time *)
(** A number in the sense of isinstance(x, (int, float)): bool is a subclass of int. *)
Definition numeric (v : pyval) : Prop := (exists z, v = PInt z) \/ (exists x, v = PFloat x) \/ (exists b, v = PBool b).
Lemma numeric_iff v : numeric v <-> is_int_or_float v = true.
Proof.
  split.
  - intros [[z ->]|[[x ->]|[b ->]]]; reflexivity.
  - unfold numeric. destruct v; try discriminate; eauto.
Qed.
Theorem C50_sleep_time :
  forall arg attr,
  (numeric arg -> sleep_time arg attr = arg) /\
  (~ numeric arg -> numeric attr -> sleep_time arg attr = attr) /\
  (~ numeric arg -> ~ numeric attr -> sleep_time arg attr = PFloat (FFin (3 # 10))).
Proof. intros. rewrite !numeric_iff. unfold sleep_time. parts; intros; destruct (is_int_or_float arg); try tauto; try discriminate; destruct (is_int_or_float attr); auto; try tauto; discriminate. Qed.
Print Assumptions C50_sleep_time.
Example C50_nonvacuous : sleep_time PNone (PInt 2) = PInt 2 /\ sleep_time (PFloat (FFin (1 # 2))) (PInt 2) = PFloat (FFin (1 # 2)) /\ sleep_time (PStr []) PNone = PFloat (FFin (3 # 10)).
Proof. repeat split. Qed.

(** ** C51: auto_drop=False with an unbounded buffer *)
(** Nothing is ever read: the thread of every start dies of the comparison [len < None]. *)
Theorem C51_unbounded_manual_drop_refuted :
  forall c ls s, c_auto c <> PBool true -> c_maxlen c = None -> history c ls s ->
  forall i o, ~ In (ERead i o) (sb_tr s).
Proof.
  intros c ls s A M H. apply is_True_f in A.
  assert (G : (forall i o, ~ In (ERead i o) (sb_tr s)) /\ forall k e, nth_error (sb_ss s) k = Some e -> se_pc e <> TRead).
  { revert ls s H. apply (sb_ind c (fun _ s => (forall i o, ~ In (ERead i o) (sb_tr s)) /\ forall k e, nth_error (sb_ss s) k = Some e -> se_pc e <> TRead)).
    - split; [intros i o []|intros [|k] e E; discriminate].
    - intros ls s l s' Hh [I1 I2] H. split.
      + intros i o X. assert (Y : In (ERead i o) (sb_tr s) \/ exists e, nth_error (sb_ss s) i = Some e /\ se_pc e = TRead).
        { step_cases H; injection H as <-; in_new X; auto; injection X as <- <-; eauto. }
        destruct Y as [Y|(e & E & P)]; [exact (I1 _ _ Y)|exact (I2 _ _ E P)].
      + intros k e' Hk' P. destruct (step_new c s l s' H k e' Hk') as [(e & Hk)|(_ & -> & _)]; [|discriminate].
        destruct (step_frame c s l s' H k e Hk) as (e1 & H1 & Q & _). assert (e1 = e') by congruence. subst e1.
        destruct Q as [Q|[[o ->]|(_ & _ & Q & _)]]; [apply (I2 k e Hk); congruence| |congruence].
        destruct (thread_move c s k o s' e H Hk) as (e1 & H2 & MV). assert (e1 = e') by congruence. subst e1.
        destruct (se_pc e); try (destruct MV; fail); try (rewrite P in MV).
        * destruct (running s); discriminate.
        * destruct MV as [[X _]|[[_ [x X]]|(_ & j & _ & X)]]; congruence.
        * destruct MV as [[x X]|(d & m & _ & X & _)]; congruence.
        * apply (I2 k e Hk). exfalso. destruct o as [v|x]; [destruct (is_none v)|]; discriminate.
        * destruct MV as [[? X]|(? & _ & X)]; discriminate.
        * destruct MV as [X|[? X]]; discriminate.
        * destruct o; discriminate.
        * destruct (running s); discriminate.
        * destruct MV; discriminate.
        * discriminate. }
  apply G.
Qed.
Print Assumptions C51_unbounded_manual_drop_refuted.
Definition cfg_unb : cfg := MkCfg ident None (PBool false).
Example C51_nonvacuous :
  let h := starting (PObj 7) ++ [LT 0 (Ok PNone); LT 0 (Ok PNone); LT 0 (Ok PNone)] ++ finish 0 in let s := end_of cfg_unb h in
  history cfg_unb h s /\ c_auto cfg_unb <> PBool true /\ thread_is s 0 (TDone (Some TypeError)).
Proof. cbn zeta. split; [apply history_end; vm_compute; reflexivity|]. split; [discriminate|]. eexists. split; vm_compute; reflexivity. Qed.

(** ** C67: failed starts *)
(** A failed start leaves no thread behind. *)
Theorem C67_no_thread :
  forall c ls s i e, history c ls s -> In (EFailed i e) (sb_tr s) ->
  thread_events i (sb_tr s) = [] /\ ~ alive s i.
Proof. intros. eapply failed_quiet; eauto. Qed.
Print Assumptions C67_no_thread.
(** start() always gets through: whatever else happens, it can take its next step, and after
    at most eleven of them it has returned or raised. *)
Theorem C67_start_returns :
  forall c s, sb_start s <> SFree ->
  (forall o v, exists s', sb_step c s (LS o v) = Some s') /\
  (forall ls s', sb_run c s ls = Some s' -> 11 <= start_steps ls ->
     exists pre post m, ls = pre ++ post /\ sb_run c s pre = Some m /\ sb_start m = SFree).
Proof.
  intros c s NF. split; [intros; now apply start_enabled|].
  intros ls s' H L. destruct (start_returns c ls s s' H NF) as [X|X]; [assumption|].
  assert (TG : to_go (sb_start s) <= 11) by (destruct (sb_start s) as [| |[]|[]| | | | | |]; cbn; lia).
  exists ls, [], s'. rewrite app_nil_r. split; [reflexivity|]. split; [assumption|]. destruct (sb_start s') as [| |[]|[]| | | | | |]; cbn in X; auto; lia.
Qed.
Print Assumptions C67_start_returns.
(** An undisturbed start(), from any state in which the lock is free. *)
Lemma start_again :
  forall c s d0, sb_start s = SFree -> sd_init [] (c_key c) (c_maxlen c) = Ok d0 -> forall o v,
  exists n s', sb_run c s (LStart :: repeat (LS o v) n) = Some s' /\ sb_start s' = SFree /\
  let i := length (sb_ss s) in
  match o, v with
  | Raise e, _ => sb_tr s' = sb_tr s ++ [EOpen i (Raise e); EFailed i e] /\ (forall k, alive s' k -> alive s k)
  | Ok _, Raise e => sb_tr s' = sb_tr s ++ [EOpen i o; EFailed i e] /\ (forall k, alive s' k -> alive s k)
  | Ok _, Ok x => sb_tr s' = sb_tr s ++ [EOpen i o; EBuilt i x; EStarted i] /\ is_running s' = true /\
                  buf_of s' i = Some d0 /\ thread_is s' i TCheck
  end.
Proof.
  intros c s d0 F D0 o v.
  (* up to SOpen *)
  assert (P : exists n s1, sb_run c s (LStart :: repeat (LS o v) n) = Some s1 /\ sb_start s1 = SOpen /\ sb_tr s1 = sb_tr s /\
    (exists ss, sb_ss s1 = ss ++ [MkSess false None PNone TNew] /\ length ss = length (sb_ss s) /\ forall k e, nth_error ss k = Some e -> exists e0, nth_error (sb_ss s) k = Some e0 /\ se_pc e = se_pc e0)).
  { assert (RC : forall x l q y, sb_step c x l = Some y -> sb_run c x (l :: q) = sb_run c y q) by (intros x l q y E; cbn; now rewrite E).
    destruct (running s) eqn:R.
    - exists 6. cbn [repeat].
      rewrite (RC s _ _ (set_start s SCheck1)) by (cbn; unfold lock_free; now rewrite F).
      rewrite (RC _ _ _ (set_start s (SStopSet false))) by (cbn; change (running (set_start s SCheck1)) with (running s); now rewrite R).
      rewrite (RC _ _ _ (set_start (do_stop s) (SStopClear false))) by reflexivity.
      rewrite (RC _ _ _ (set_start (set_next (do_stop s) None) SCheck2)) by reflexivity.
      rewrite (RC _ _ _ (set_start (set_next (do_stop s) None) SClear)).
      2:{ cbn. change (running (set_start (set_next (do_stop s) None) SCheck2)) with (running (do_stop s)). now rewrite running_do_stop. }
      rewrite (RC _ _ _ (set_start (set_cur (set_next (do_stop s) None) None) SFresh)) by reflexivity.
      eexists. split; [reflexivity|]. split; [reflexivity|]. split; [reflexivity|].
      exists (upd (sb_ss s) (latest s) w_set). split; [reflexivity|]. rewrite upd_length. split; [reflexivity|].
      intros k e1. rewrite nth_upd. destruct (Nat.eqb_spec (latest s) k) as [<-|]; [|eauto].
      destruct (nth_error (sb_ss s) (latest s)) as [e|]; [|discriminate]. intro X. injection X as <-. exists e. auto.
    - exists 4. cbn [repeat].
      rewrite (RC s _ _ (set_start s SCheck1)) by (cbn; unfold lock_free; now rewrite F).
      rewrite (RC _ _ _ (set_start s SCheck2)) by (cbn; change (running (set_start s SCheck1)) with (running s); now rewrite R).
      rewrite (RC _ _ _ (set_start s SClear)) by (cbn; change (running (set_start s SCheck2)) with (running s); now rewrite R).
      rewrite (RC _ _ _ (set_start (set_cur s None) SFresh)) by reflexivity.
      eexists. split; [reflexivity|]. split; [reflexivity|]. split; [reflexivity|]. exists (sb_ss s). split; [reflexivity|]. split; [reflexivity|]. eauto. }
  destruct P as (n & s1 & R1 & S1 & T1 & ss & E1 & L1 & P1).
  assert (LA : latest s1 = length (sb_ss s)) by (unfold latest; rewrite E1, app_length, L1; cbn; lia).
  assert (AB : forall s2, sb_ss s2 = sb_ss s1 -> forall k, alive s2 k -> alive s k).
  { intros s2 E2 k A. apply alive_iff in A as (e & He & LE). rewrite E2, E1 in He. apply nth_snoc_inv in He as [He|(_ & ->)]; [|discriminate].
    destruct (P1 k e He) as (e0 & H0 & H1). apply alive_iff. exists e0. split; [assumption|]. now rewrite <- H1. }
  assert (RR : forall m, sb_run c s (LStart :: repeat (LS o v) (n + m)) = sb_run c s1 (repeat (LS o v) m)).
  { intro m. rewrite repeat_app, app_comm_cons, sb_run_app, R1. reflexivity. }
  cbn zeta. destruct o as [u|e].
  - destruct v as [x|e].
    + exists (n + 3). rewrite RR. cbn [repeat sb_run sb_step]. unfold start_step at 1. rewrite S1. cbn zeta. unfold start_step at 1. proj. rewrite D0. unfold start_step at 1. proj.
      eexists. split; [reflexivity|]. proj. rewrite T1, <- !app_assoc. unfold latest. proj. rewrite !upd_length. fold (latest s1). rewrite LA. cbn [app].
      split; [reflexivity|]. split; [destruct u; reflexivity|]. assert (N1 : nth_error (sb_ss s1) (length (sb_ss s)) = Some (MkSess false None PNone TNew)) by (rewrite E1, nth_snoc, L1, Nat.ltb_irrefl, Nat.eqb_refl; reflexivity).
      split; [|split].
      * unfold is_running, running, latest. proj. rewrite !upd_length. fold (latest s1). rewrite LA. rewrite (upd_same _ _ _ _ (upd_same _ _ _ _ N1)). reflexivity.
      * unfold buf_of. proj. rewrite (upd_same _ _ _ _ (upd_same _ _ _ _ N1)). reflexivity.
      * eexists. proj. rewrite (upd_same _ _ _ _ (upd_same _ _ _ _ N1)). split; reflexivity.
    + exists (n + 2). rewrite RR. cbn [repeat sb_run sb_step]. unfold start_step at 1. rewrite S1. cbn zeta. unfold start_step at 1. proj.
      eexists. split; [reflexivity|]. proj. rewrite T1, <- !app_assoc. unfold latest. proj. fold (latest s1). rewrite LA. split; [reflexivity|]. split; [reflexivity|].
      apply AB. reflexivity.
  - exists (n + 1). rewrite RR. cbn [repeat sb_run sb_step]. unfold start_step at 1. rewrite S1. cbn zeta.
    eexists. split; [reflexivity|]. proj. rewrite T1, <- !app_assoc. unfold latest. proj. fold (latest s1). rewrite LA. split; [reflexivity|]. split; [reflexivity|].
    apply AB. reflexivity.
Qed.
(** From any state, whatever starts failed before: an undisturbed start() with outcome
    [open() = o, info = v] and a constructible buffer raises exactly open's or info's
    exception, or else leaves a running stream with an empty buffer and a live thread. *)
Theorem C67_retry :
  forall c ls s d0, history c ls s -> sb_start s = SFree -> sd_init [] (c_key c) (c_maxlen c) = Ok d0 -> forall o v,
  exists n s', sb_run c s (LStart :: repeat (LS o v) n) = Some s' /\ sb_start s' = SFree /\
  let i := length (sb_ss s) in
  match o, v with
  | Raise e, _ => sb_tr s' = sb_tr s ++ [EOpen i (Raise e); EFailed i e] /\ (forall k, alive s' k -> alive s k)
  | Ok _, Raise e => sb_tr s' = sb_tr s ++ [EOpen i o; EFailed i e] /\ (forall k, alive s' k -> alive s k)
  | Ok _, Ok x => sb_tr s' = sb_tr s ++ [EOpen i o; EBuilt i x; EStarted i] /\ is_running s' = true /\
                  buf_of s' i = Some d0 /\ thread_is s' i TCheck
  end.
Proof. intros c ls s d0 _. apply start_again. Qed.
Print Assumptions C67_retry.
(** Two starts that fail, at open() and at info, then one that succeeds. *)
Definition failing_again (e : exn) : list label := LStart :: repeat (LS (Ok tt) (Raise e)) 8.
Example C67_nonvacuous :
  let h := failing RuntimeError ++ failing_again KeyError in let s := end_of cfg3 h in
  history cfg3 h s /\ sb_start s = SFree /\ sb_tr s = [EOpen 0 (Raise RuntimeError); EFailed 0 RuntimeError; EOpen 1 (Ok tt); EFailed 1 KeyError] /\
  (exists d0, sd_init [] (c_key cfg3) (c_maxlen cfg3) = Ok d0) /\
  let s2 := end_of cfg3 (h ++ restarting (PObj 8)) in history cfg3 (h ++ restarting (PObj 8)) s2 /\ last_start (sb_tr s2) = Some (2, true).
Proof.
  cbn zeta. split; [apply history_end; vm_compute; reflexivity|]. split; [vm_compute; reflexivity|]. split; [vm_compute; reflexivity|].
  split; [eexists; reflexivity|]. split; [apply history_end; vm_compute; reflexivity|]. vm_compute. reflexivity.
Qed.

(** ** C72: a start() that fails after open() *)
(** What holds: if start [i] opened the source and then failed, nobody ever closes that
    opening - the thread that would is never started - whatever the user calls. *)
Theorem C72_source_left_open_refuted :
  forall c ls s i e, history c ls s -> In (EOpen i (Ok tt)) (sb_tr s) -> In (EFailed i e) (sb_tr s) ->
  forall ls' s', sb_run c s ls' = Some s' -> forall u, ~ In (EClose i u) (sb_tr s').
Proof.
  intros c ls s i e H _ HF ls' s' Hr u X.
  assert (H' : history c (ls ++ ls') s') by (unfold history in *; rewrite sb_run_app; now rewrite H).
  destruct (run_trace c ls' s s' Hr) as (es & Es).
  assert (HF' : In (EFailed i e) (sb_tr s')) by (rewrite Es; apply in_or_app; now left).
  destruct (failed_quiet c _ s' i e H' HF') as [Q _].
  assert (Y : In (EClose i u) (thread_events i (sb_tr s'))) by (apply filter_In; split; [assumption|cbn; apply Nat.eqb_refl]).
  rewrite Q in Y. destruct Y.
Qed.
Print Assumptions C72_source_left_open_refuted.
(** Reachable in two ways: [info] raises, or the buffer cannot be built (negative maxlen). *)
Example C72_nonvacuous :
  (let h := LStart :: repeat (LS (Ok tt) (Raise KeyError)) 6 in let s := end_of cfg3 h in
   history cfg3 h s /\ sb_tr s = [EOpen 0 (Ok tt); EFailed 0 KeyError]) /\
  (let c := MkCfg ident (Some (-1)%Z) (PBool true) in let h := LStart :: repeat (LS (Ok tt) (Ok PNone)) 6 in let s := end_of c h in
   history c h s /\ exists e, sb_tr s = [EOpen 0 (Ok tt); EFailed 0 e]).
Proof.
  split; cbn zeta; (split; [apply history_end; vm_compute; reflexivity|]); [vm_compute; reflexivity|]. eexists. vm_compute. reflexivity.
Qed.

(** ** C73: next(stream_buffer) racing with stop() *)
(** What holds: next(stream_buffer) never raises anything but StopIteration, "not started",
    what the item's key function raises, or - if a stop() has returned or a start() has
    stopped the stream in between - TypeError; see the refutation. *)
Theorem C73_next_on_own_reader_partial :
  forall c ls s, history c ls s -> forall r s', sb_next s = Some r -> sb_step c s LNext = Some s' ->
  exists q d, nth_error (sb_rds s) r = Some q /\ buf_of s (rd_sess q) = Some d /\
  exists o, sb_tr s' = sb_tr s ++ [ENext (Some r) (CNext (ev_set s (rd_sess q))) o] /\
    o = snd (run (do_call d (CNext (ev_set s (rd_sess q)))) (rd_r q)).
Proof.
  intros c ls s H r s' N Hs. cbn in Hs. destruct (sb_nx s) as [|n]; [discriminate|]. rewrite N in Hs. unfold call_step in Hs. proj.
  destruct (nth_error (sb_rds s) r) as [q|] eqn:Q1; [|discriminate]. rewrite (rd_ev_sess c ls s H r q Q1) in Hs. unfold buf_of in *. proj.
  destruct (nth_error (sb_ss s) (rd_sess q)) as [e|] eqn:Ee; [|discriminate]. destruct (se_buf e) as [d|] eqn:Ed; [|discriminate].
  destruct (run _ _) as [br v] eqn:ER. injection Hs as <-. proj. exists q, d. rewrite Ee. split; [reflexivity|]. split; [assumption|].
  eexists. split; [reflexivity|]. unfold ev_set in *. proj. rewrite Ee in *. cbn [with_stopped] in *. now rewrite ER.
Qed.
Print Assumptions C73_next_on_own_reader_partial.
(** Two threads: one is inside next(stream_buffer), the other's stop() returns. *)
Theorem C73_next_races_stop_refuted :
  exists c ls s, history c ls s /\ last_start (sb_tr s) = Some (0, true) /\ accepted_by 0 (sb_tr s) = [PInt 1] /\
  In (ENext None (CNext false) (Raise TypeError)) (sb_tr s).
Proof.
  exists cfg3, (starting (PObj 7) ++ round 0 (PInt 1) ++ [LNextMk; LStop; LStopRet; LNext]). eexists.
  split; [apply history_end; vm_compute; reflexivity|]. split; [vm_compute; reflexivity|]. split; [vm_compute; reflexivity|].
  vm_compute. repeat (try (left; reflexivity); right).
Qed.
Print Assumptions C73_next_races_stop_refuted.
Example C73_nonvacuous :
  let h := starting (PObj 7) ++ round 0 (PInt 1) ++ [LNextMk] in let s := end_of cfg3 h in
  history cfg3 h s /\ sb_next s = Some 0 /\ exists s', sb_step cfg3 s LNext = Some s'.
Proof. cbn zeta. split; [apply history_end; vm_compute; reflexivity|]. split; [vm_compute; reflexivity|]. eexists. vm_compute. reflexivity. Qed.

(** ** C74: stop() and drop() without a session *)
(** stop() raises AttributeError exactly when no start() ever got as far as making its event
    and thread; drop() with auto_drop off raises it exactly when there is no buffer. *)
Theorem C74_stop_before_start :
  forall c ls s, history c ls s ->
  exists s' o, sb_step c s LStop = Some s' /\ sb_tr s' = sb_tr s ++ [EStop o] /\
  (o = Raise AttributeError <-> sb_ss s = []) /\ (sb_ss s <> [] -> o = Ok (latest s) /\ ev_set s' (latest s) = true) /\
  (sb_start s = SFree -> (sb_ss s = [] <-> last_start (sb_tr s) = None)).
Proof.
  intros c ls s H. pose proof (ls_history c ls s H) as L. unfold ls_inv in L.
  assert (LAST : sb_start s = SFree -> (sb_ss s = [] <-> last_start (sb_tr s) = None)).
  { intro F. rewrite F in L. destruct (last_start (sb_tr s)) as [[i []]|] eqn:E.
    - destruct (si_cur _ (sinv_history c ls s H) i L) as [LI _]. split; [intro X; rewrite X in LI; cbn in LI; lia|discriminate].
    - split; [|discriminate]. intro X. exfalso. destruct L as [_ L2]. rewrite X in L2. cbn in L2. lia.
    - tauto. }
  cbn [sb_step]. destruct (Nat.eqb_spec (length (sb_ss s)) 0) as [Z|Z].
  - apply length_zero_iff_nil in Z. do 2 eexists. split; [reflexivity|]. proj. split; [reflexivity|]. split; [tauto|]. split; [congruence|assumption].
  - assert (NE : sb_ss s <> []) by (intro X; rewrite X in Z; cbn in Z; lia).
    do 2 eexists. split; [reflexivity|]. proj. split; [reflexivity|]. split; [split; [discriminate|congruence]|]. split; [|assumption].
    intros _. split; [reflexivity|]. unfold ev_set. proj. rewrite nth_upd, Nat.eqb_refl. destruct (nth_error (sb_ss s) _) eqn:N; [reflexivity|].
    apply nth_error_None in N. unfold latest in N. lia.
Qed.
Print Assumptions C74_stop_before_start.
Theorem C74_drop_before_start :
  forall c ls s, history c ls s -> c_auto c <> PBool true -> sb_start s = SFree -> forall n,
  (forall i, last_start (sb_tr s) <> Some (i, true)) <->
  sb_step c s (StreamBufferM.LDrop n) = Some (StreamBufferM.log s (EDrop None n (Raise AttributeError))).
Proof.
  intros c ls s H A F n. apply is_True_f in A. pose proof (ls_history c ls s H) as L. unfold ls_inv in L. rewrite F in L. cbn [sb_step]. rewrite A.
  destruct (last_start (sb_tr s)) as [[i []]|] eqn:E.
  - rewrite L. split; [intro X; now elim (X i)|].
    intro X. exfalso. apply (f_equal (fun o => match o with Some x => sb_tr x | None => [] end)) in X. proj. apply (f_equal (@length ev)) in X. rewrite app_length in X. cbn in X. lia.
  - destruct L as [-> _]. split; [reflexivity|]. intros _ j; discriminate.
  - destruct L as [-> _]. split; [reflexivity|]. intros _ j; discriminate.
Qed.
Print Assumptions C74_drop_before_start.
Example C74_nonvacuous :
  history cfg_man [] sb0 /\ last_start (sb_tr sb0) = None /\
  let s := end_of cfg3 (starting (PObj 7) ++ [LStop]) in history cfg3 (starting (PObj 7) ++ [LStop]) s /\ sb_ss s <> [].
Proof. split; [reflexivity|]. split; [reflexivity|]. cbn zeta. split; [apply history_end; vm_compute; reflexivity|]. vm_compute. discriminate. Qed.
