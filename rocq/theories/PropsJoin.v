(** * join() and the stop - join - start protocol (C93, C94) *)
From Coq Require Import List ZArith Bool Arith Lia.
From Verif Require Import PyVal PyLib SortedDequeM BufferReaderM BufferSysM ListFacts LogReads StreamReads StreamBufferM SpecStream StreamFacts StreamLife StreamInv StreamOrderly StreamMore
  PropsStream PropsStreamRead StreamClientM.
Import ListNotations.
Open Scope nat_scope.

(** ** Specification *)
(** A history of a new StreamBuffer and its clients. *)
Definition client_history (c : cfg) (ls : list clabel) (cl : client) : Prop := cl_run c client0 ls = Some cl.
Definition trace_of (cl : client) : list ev := sb_tr (cl_sb cl).
(** The history of the StreamBuffer in it. *)
Definition stream_history (c : cfg) (ls : list clabel) : list label := stream_labels c client0 ls.
(** The [n]-th join() call has returned; it waited for the thread of start [i]. *)
Definition join_returned (cl : client) (n i : nat) : Prop := nth_error (cl_joins cl) n = Some (JReturned i).
Definition join_waits (cl : client) (n i : nat) : Prop := nth_error (cl_joins cl) n = Some (JWaits i).
(** Whenever start() is called, the latest start() failed or there was none, or a join()
    called after it has returned. *)
Definition join_before_start (c : cfg) (ls : list clabel) : Prop :=
  forall pre post cl i, ls = pre ++ CL LStart :: post -> client_history c pre cl -> last_start (trace_of cl) = Some (i, true) ->
  exists n, join_returned cl n i.

(** ** Lemmas *)
Lemma cl_run_app c a b : forall cl, cl_run c cl (a ++ b) = match cl_run c cl a with Some m => cl_run c m b | None => None end.
Proof. induction a as [|l a IH]; intro cl; [reflexivity|]. cbn. destruct (cl_step c cl l); auto. Qed.
Lemma cl_run_snoc c a l cl cl' : cl_run c cl (a ++ [l]) = Some cl' <-> exists m, cl_run c cl a = Some m /\ cl_step c m l = Some cl'.
Proof.
  rewrite cl_run_app. destruct (cl_run c cl a) as [m|]; cbn [cl_run].
  - destruct (cl_step c m l) eqn:E.
    + split; [intro H; injection H as <-; eauto|]. intros (m' & H & H'). congruence.
    + split; [discriminate|]. intros (m' & H & H'). congruence.
  - split; [discriminate|]. intros (m' & H & H'). discriminate.
Qed.
Lemma cl_step_stream c cl l cl' : cl_step c cl l = Some cl' -> sb_run c (cl_sb cl) (stream_label cl l) = Some (cl_sb cl').
Proof.
  unfold cl_step. destruct (sb_run c (cl_sb cl) (stream_label cl l)) as [s'|]; [|discriminate]. intro H.
  repeat match type of H with (match ?x with _ => _ end) = _ => destruct x; try discriminate H end; now injection H as <-.
Qed.
Lemma cl_run_stream c ls : forall cl cl', cl_run c cl ls = Some cl' -> sb_run c (cl_sb cl) (stream_labels c cl ls) = Some (cl_sb cl').
Proof.
  induction ls as [|l ls IH]; intros cl cl' H; cbn in *; [now injection H as <-|].
  destruct (cl_step c cl l) as [m|] eqn:E; [|discriminate]. rewrite sb_run_app, (cl_step_stream c cl l m E). auto.
Qed.
Lemma stream_labels_app c a b : forall cl m, cl_run c cl a = Some m -> stream_labels c cl (a ++ b) = stream_labels c cl a ++ stream_labels c m b.
Proof.
  induction a as [|l a IH]; intros cl m H; cbn in *; [now injection H as <-|].
  destruct (cl_step c cl l) as [m1|]; [|discriminate]. rewrite <- app_assoc. now rewrite (IH m1 m H).
Qed.
Lemma stream_history_ok c ls cl : client_history c ls cl -> history c (stream_history c ls) (cl_sb cl).
Proof. intro H. exact (cl_run_stream c ls client0 cl H). Qed.
Lemma stream_history_snoc c ls l cl : client_history c ls cl -> stream_history c (ls ++ [l]) = stream_history c ls ++ stream_label cl l.
Proof.
  intro H. unfold stream_history. rewrite (stream_labels_app c ls [l] client0 cl H). cbn. destruct (cl_step c cl l); now rewrite app_nil_r.
Qed.
Lemma cl_ind c (P : list clabel -> client -> Prop) :
  P [] client0 -> (forall ls s l s', client_history c ls s -> P ls s -> cl_step c s l = Some s' -> P (ls ++ [l]) s') ->
  forall ls s, client_history c ls s -> P ls s.
Proof.
  intros H0 HS ls. induction ls as [|l ls IH] using rev_ind; intros s H.
  - injection H as <-. exact H0.
  - unfold client_history in H. apply cl_run_snoc in H as (m & H1 & H2). eapply HS; eauto.
Qed.
(** At most one step of the StreamBuffer per label. *)
Lemma stream_label_cases cl l : stream_label cl l = [] \/ exists a, stream_label cl l = [a].
Proof. destruct l as [a| |n| |g]; cbn; eauto. destruct (nth_error (cl_gens cl) g) as [[|r|]|]; eauto. Qed.

Lemma ended_step c ls s l s' i : history c ls s -> sb_step c s l = Some s' -> ended s i -> ended s' i.
Proof.
  intros Hh H (e & se & A & P). destruct (step_frame c s l s' H i se A) as (se' & A' & P' & _). exists e, se'. split; [assumption|].
  destruct P' as [->|[[o ->]|(S1 & S2 & _)]]; [assumption| |].
  - pose proof (step_thread_pc c s i o s' se H A) as Y. rewrite P in Y. destruct Y.
  - exfalso. pose proof (si_new _ (sinv_history c ls s Hh)) as X. rewrite S1 in X. destruct X as (e1 & X1 & X2). subst i. congruence.
Qed.
Lemma ended_run c ls : forall s s' pre i, history c pre s -> sb_run c s ls = Some s' -> ended s i -> ended s' i.
Proof.
  induction ls as [|l ls IH]; intros s s' pre i Hh H E; cbn in H; [now injection H as <-|].
  destruct (sb_step c s l) as [m|] eqn:S; [|discriminate]. eapply (IH m s' (pre ++ [l])); eauto using ended_step. apply sb_run_snoc; eauto.
Qed.
Lemma thread_done_ended s i : thread_done s i = true -> ended s i.
Proof. unfold thread_done. destruct (nth_error (sb_ss s) i) as [e|] eqn:E; [|discriminate]. destruct (se_pc e) eqn:P; try discriminate. intros _. eexists. exists e. eauto. Qed.
Lemma ended_thread_done s i : ended s i -> thread_done s i = true.
Proof. intros (x & e & E & P). unfold thread_done. now rewrite E, P. Qed.
Lemma ended_not_alive s i : ended s i -> ~ alive s i.
Proof. intros (x & e & E & P) (p & (e' & E' & P') & Q). assert (e' = e) by congruence. subst. rewrite P in Q. destruct Q. Qed.

Lemma joins_step c cl l cl' n j : cl_step c cl l = Some cl' -> nth_error (cl_joins cl') n = Some j ->
  nth_error (cl_joins cl) n = Some j \/ (l = CJoin /\ n = length (cl_joins cl) /\ j = join_call (cl_sb cl)) \/
  (exists i, l = CJoinRet n /\ j = JReturned i /\ nth_error (cl_joins cl) n = Some (JWaits i) /\ thread_done (cl_sb cl) i = true).
Proof.
  unfold cl_step. destruct (sb_run c (cl_sb cl) (stream_label cl l)) as [s'|] eqn:ER; [|discriminate]. destruct l as [a| |m| |g]; intro H.
  - destruct (allowed cl a); [|discriminate]. injection H as <-. auto.
  - injection H as <-. cbn in ER. injection ER as <-. cbn. intro Hn. apply nth_snoc_inv in Hn as [Hn|[-> ->]]; auto.
  - cbn in ER. injection ER as <-. destruct (nth_error (cl_joins cl) m) as [[i| |]|] eqn:Em; try discriminate. destruct (thread_done (cl_sb cl) i) eqn:TD; [|discriminate].
    injection H as <-. cbn. intro Hn. apply nth_set_inv in Hn as [(-> & -> & _)|[_ Hn]]; [right; right; eauto|auto].
  - injection H as <-. auto.
  - destruct (nth_error (cl_gens cl) g) as [[|r|]|]; try discriminate; injection H as <-; auto.
Qed.
Lemma joins_kept c cl l cl' n i : cl_step c cl l = Some cl' -> join_returned cl n i -> join_returned cl' n i.
Proof.
  unfold cl_step, join_returned. destruct (sb_run c (cl_sb cl) (stream_label cl l)) as [s'|] eqn:ER; [|discriminate]. destruct l as [a| |m| |g]; intros H Hn.
  - destruct (allowed cl a); [|discriminate]. now injection H as <-.
  - injection H as <-. cbn. rewrite nth_error_app1; [assumption|]. eapply nth_lt; eauto.
  - destruct (nth_error (cl_joins cl) m) as [[k| |]|] eqn:Em; try discriminate. destruct (thread_done s' k); [|discriminate]. injection H as <-. cbn.
    rewrite nth_error_set_nth. destruct (Nat.eqb_spec m n) as [->|]; [congruence|assumption].
  - now injection H as <-.
  - destruct (nth_error (cl_gens cl) g) as [[|r|]|]; try discriminate; now injection H as <-.
Qed.
Lemma join_ended c ls cl : client_history c ls cl -> forall n i, join_returned cl n i -> ended (cl_sb cl) i.
Proof.
  revert ls cl. apply (cl_ind c (fun _ cl => forall n i, join_returned cl n i -> ended (cl_sb cl) i)).
  - intros [|n] i H; discriminate H.
  - intros ls s l s' Hh IH H n i Hn. assert (E : ended (cl_sb s) i).
    { destruct (joins_step c s l s' n _ H Hn) as [X|[(_ & _ & X)|(k & _ & X & _ & T)]]; [eapply IH; exact X| |].
      - unfold join_call in X. destruct (nth_error _ _) as [e|]; [destruct (se_pc e)|]; discriminate.
      - injection X as ->. now apply thread_done_ended. }
    eapply ended_run; [apply stream_history_ok; exact Hh|apply cl_step_stream; exact H|exact E].
Qed.
(** A thread that was started stays started. *)
Lemma started_step c s0 l0 s1 i : sb_step c s0 l0 = Some s1 -> (exists e, nth_error (sb_ss s0) i = Some e /\ se_pc e <> TNew) -> exists e, nth_error (sb_ss s1) i = Some e /\ se_pc e <> TNew.
Proof.
  intros S0 (e & E0 & P0). destruct (step_frame c s0 l0 s1 S0 i e E0) as (e' & A' & P' & _). exists e'. split; [assumption|].
  destruct P' as [->|[[o ->]|(S1 & S2 & -> & S3)]]; [assumption| |discriminate].
  clear - S0 A' E0. intro N. cbn in S0. rewrite E0 in S0. unfold thread_step in S0. cbn zeta in S0.
  assert (X : forall s2 p, nth_error (sb_ss (set_tpc s2 i p)) i = Some e' -> se_pc e' = p).
  { intros s2 p. proj. rewrite nth_upd, Nat.eqb_refl. destruct (nth_error (sb_ss s2) i); [|discriminate]. cbn. intro Y. injection Y as <-. reflexivity. }
  destruct (se_pc e); try discriminate S0; repeat match type of S0 with (match ?x with _ => _ end) = _ => destruct x; try discriminate S0 end; injection S0 as <-;
    apply X in A'; rewrite N in A'; repeat match type of A' with _ = (match ?x with _ => _ end) => destruct x end; discriminate A'.
Qed.
(** A waiting call waits for a thread that was started. *)
Lemma join_started c ls cl : client_history c ls cl -> forall n i, join_waits cl n i -> alive (cl_sb cl) i \/ ended (cl_sb cl) i.
Proof.
  revert ls cl. apply (cl_ind c (fun _ cl => forall n i, join_waits cl n i -> alive (cl_sb cl) i \/ ended (cl_sb cl) i)).
  - intros [|n] i H; discriminate H.
  - intros ls s l s' Hh IH H n i Hn. pose proof (stream_history_ok c ls s Hh) as SH. pose proof (cl_step_stream c s l s' H) as SR.
    assert (E : exists e, nth_error (sb_ss (cl_sb s)) i = Some e /\ se_pc e <> TNew).
    { destruct (joins_step c s l s' n _ H Hn) as [X|[(_ & _ & X)|(k & _ & X & _ & T)]]; [| |discriminate].
      - destruct (IH n i X) as [(p & (e & E & P) & Q)|(x & e & E & P)]; exists e; (split; [assumption|]); [subst p|]; intro N; rewrite N in *; [destruct Q|discriminate].
      - unfold join_call in X. destruct (nth_error (sb_ss (cl_sb s)) (latest (cl_sb s))) as [e|] eqn:E; [|discriminate]. destruct (se_pc e) eqn:P; try discriminate;
          injection X as ->; exists e; (split; [assumption|congruence]). }
    assert (E2 : exists e, nth_error (sb_ss (cl_sb s')) i = Some e /\ se_pc e <> TNew).
    { destruct (stream_label_cases s l) as [SL|[a SL]]; rewrite SL in SR; cbn in SR.
      - injection SR as <-. assumption.
      - destruct (sb_step c (cl_sb s) a) as [m|] eqn:S; [|discriminate]. injection SR as <-. eapply started_step; eauto. }
    destruct E2 as (e & A & B). destruct (se_pc e) eqn:P; try congruence; try (left; eexists; split; [exists e; split; [exact A|exact P]|exact Logic.I]; fail).
    right. eexists. exists e. eauto.
Qed.

(** ** C93: join() *)
(** What a call of join() does while no start() is in progress: AttributeError before the
    first start(), RuntimeError after one that failed, else it waits for that session's
    thread; it does not change the stream. *)
Theorem C93_join_call :
  forall c ls cl, client_history c ls cl -> sb_start (cl_sb cl) = SFree ->
  exists cl', cl_step c cl CJoin = Some cl' /\ cl_sb cl' = cl_sb cl /\
  nth_error (cl_joins cl') (length (cl_joins cl)) = Some
    match last_start (trace_of cl) with
    | None => JRaised AttributeError
    | Some (i, false) => JRaised RuntimeError
    | Some (i, true) => JWaits i
    end.
Proof.
  intros c ls cl H F. pose proof (stream_history_ok c ls cl H) as SH. pose proof (ls_history c _ _ SH) as L. unfold ls_inv in L. rewrite F in L.
  cbn. eexists. split; [reflexivity|]. cbn. split; [reflexivity|]. rewrite nth_error_app2, Nat.sub_diag by lia. cbn. f_equal. unfold join_call, trace_of.
  destruct (last_start (sb_tr (cl_sb cl))) as [[i []]|] eqn:EL.
  - destruct (si_cur _ (sinv_history c _ _ SH) i L) as [LI _]. assert (EQ : latest (cl_sb cl) = i) by (unfold latest; lia). rewrite EQ.
    assert (ST : forall ls s, history c ls s -> forall i, In (EStarted i) (sb_tr s) -> exists e, nth_error (sb_ss s) i = Some e /\ se_pc e <> TNew).
    { clear. intros ls s Hs. revert ls s Hs. apply (sb_ind c (fun _ s => forall i, In (EStarted i) (sb_tr s) -> exists e, nth_error (sb_ss s) i = Some e /\ se_pc e <> TNew)).
      - intros i [].
      - intros ls s l s' Hh IH H i Hin.
        assert (D : In (EStarted i) (sb_tr s) \/ (sb_start s = SSpawn /\ i = latest s /\ exists o v, l = LS o v)).
        { clear IH. step_cases H; injection H as <-; in_new Hin; eauto 7. injection Hin as <-. right. eauto. }
        destruct D as [D|(D & -> & o & v & ->)].
        + destruct (IH i D) as (e & E & N). eapply started_step; eauto.
        + pose proof (si_new _ (sinv_history c ls s Hh)) as X. rewrite D in X. destruct X as (e & E & _). cbn in H. unfold start_step in H. cbn zeta in H. rewrite D in H. injection H as <-.
          proj. exists (w_pc e TCheck). split; [now apply upd_same with (f := fun e => w_pc e TCheck)|discriminate]. }
    destruct (ST _ _ SH i) as (e & E & N).
    { clear - EL. revert EL. generalize (sb_tr (cl_sb cl)) as tr. induction tr as [|x tr IH] using rev_ind; intro EL; [discriminate|]. rewrite last_start_snoc in EL.
      apply in_or_app. destruct x; try (left; auto; fail). - injection EL as ->. right. now left. - discriminate. }
    rewrite E. destruct (se_pc e); congruence.
  - destruct L as [_ LI]. assert (EQ : latest (cl_sb cl) = i) by (unfold latest; lia). rewrite EQ.
    assert (X : exists e, In (EFailed i e) (sb_tr (cl_sb cl))).
    { clear - EL. revert EL. generalize (sb_tr (cl_sb cl)) as tr. induction tr as [|x tr IH] using rev_ind; intro EL; [discriminate|]. rewrite last_start_snoc in EL.
      assert (Y : (exists e, In (EFailed i e) tr) -> exists e, In (EFailed i e) (tr ++ [x])) by (intros (e & He); exists e; apply in_or_app; now left).
      destruct x as [| |k|k e0| | | | | | | | | | | | |]; try (apply Y; auto; fail).
      - discriminate. - injection EL as ->. exists e0. apply in_or_app. right. now left. }
    destruct X as (e & X). destruct (failed_history c _ _ SH i e X) as [(se & A & P) _]. now rewrite A, P.
  - destruct L as [_ ->]. now destruct (latest (cl_sb cl)).
Qed.
Print Assumptions C93_join_call.
(** When join() has returned: the thread of that session has closed the source, exactly
    once, and never touches anything again; and if restarts are orderly nothing is ever
    added to that session's buffer again, also during later sessions. *)
Theorem C93_join_means_ended :
  forall c ls cl n i, client_history c ls cl -> join_returned cl n i ->
  count (is_close_of i) (trace_of cl) = 1 /\
  forall ls' cl', cl_run c cl ls' = Some cl' ->
    thread_events i (trace_of cl') = thread_events i (trace_of cl) /\
    (orderly c (stream_history c (ls ++ ls')) -> accepted_by i (trace_of cl') = accepted_by i (trace_of cl)).
Proof.
  intros c ls cl n i H J. pose proof (stream_history_ok c ls cl H) as SH. pose proof (join_ended c ls cl H n i J) as E. split.
  - now apply (C38_thread_life c _ _ SH i).
  - intros ls' cl' H'. assert (HH : client_history c (ls ++ ls') cl') by (unfold client_history; rewrite cl_run_app; unfold client_history in H; now rewrite H).
    pose proof (cl_run_stream c ls' cl cl' H') as SR. pose proof (stream_history_ok c _ _ HH) as SH'.
    assert (G : forall qs s s' pre, history c pre s -> sb_run c s qs = Some s' -> ended s i -> exists es, sb_tr s' = sb_tr s ++ es /\ thread_events i es = []).
    { clear. induction qs as [|l qs IH]; intros s s' pre Hh Hr E; cbn in Hr; [injection Hr as <-; exists []; now rewrite app_nil_r|].
      destruct (sb_step c s l) as [m|] eqn:S; [|discriminate]. destruct (step_trace c s l m S) as (es1 & E1).
      assert (X : forall o, l <> LT i o) by (intros o ->; exact (ended_not_alive s i E (step_alive c s i o m S))).
      pose proof (step_other_events c s l m i S X) as Y. destruct (IH m s' (pre ++ [l])) as (es2 & E2 & Z); [apply sb_run_snoc; eauto|exact Hr|eapply ended_step; eauto|].
      exists (es1 ++ es2). rewrite E2, E1, <- app_assoc. split; [reflexivity|]. unfold thread_events in *. rewrite E1, filter_app in Y. rewrite filter_app, Z, app_nil_r.
      rewrite <- (app_nil_r (filter (by_thread i) (sb_tr s))) in Y at 2. now apply app_inv_head in Y. }
    destruct (G _ _ _ _ SH SR E) as (es & Et & Z). unfold trace_of. split.
    + rewrite Et. unfold thread_events in *. now rewrite filter_app, Z, app_nil_r.
    + intro O. destruct (own_buffer c _ _ SH' O) as [OB _]. rewrite Et. unfold accepted_by. rewrite flat_map_app. fold (accepted_by i es). fold (accepted_by i (sb_tr (cl_sb cl))).
      assert (N : accepted_by i es = []); [|now rewrite N, app_nil_r].
      assert (IN : forall e, In e es -> In e (sb_tr (cl_sb cl'))) by (intros e He; rewrite Et; apply in_or_app; now right).
      clear - Z OB IN. induction es as [|e es IH]; [reflexivity|]. unfold accepted_by. cbn [flat_map]. fold (accepted_by i es). unfold thread_events in Z. cbn [filter] in Z.
      destruct (by_thread i e) eqn:B; [discriminate|]. rewrite IH; [|exact Z|intros; apply IN; now right]. rewrite app_nil_r.
      destruct e as [| | | | |k j x [u|u]| | | | | | | | | | |]; auto. pose proof (OB k j x _ (IN _ (or_introl eq_refl))) as <-. cbn in B. now rewrite B.
Qed.
Print Assumptions C93_join_means_ended.
(** The remedy for C44: when join() has returned and no start() was called since, then until
    the next start() the source is not touched and no item is added to any buffer. *)
Theorem C93_quiet_after_join :
  forall c ls cl n i, client_history c ls cl -> orderly c (stream_history c ls) -> join_returned cl n i ->
  sb_start (cl_sb cl) = SFree -> last_start (trace_of cl) = Some (i, true) ->
  all_ended (cl_sb cl) /\
  forall ls' cl', cl_run c cl ls' = Some cl' -> ~ In (CL LStart) ls' ->
    source_events (trace_of cl') = source_events (trace_of cl) /\ (forall j, accepted_by j (trace_of cl') = accepted_by j (trace_of cl)).
Proof.
  intros c ls cl n i H O J F LS. pose proof (stream_history_ok c ls cl H) as SH.
  assert (AE : all_ended (cl_sb cl)).
  { intros k A. destruct (alive_latest c _ _ k SH O A) as [C _]. pose proof (ls_history c _ _ SH) as L. unfold ls_inv in L. unfold trace_of in LS. rewrite F, LS in L.
    assert (k = i) by congruence. subst k. exact (ended_not_alive _ _ (join_ended c ls cl H n i J) A). }
  split; [assumption|]. intros ls' cl' H' NS.
  assert (SS : start_steps (stream_labels c cl ls') = 0).
  { assert (F' : sb_start (cl_sb cl) = SFree) by exact F. clear - H' NS F'. revert cl H' NS F'. induction ls' as [|l ls' IH]; intros cl H' NS F; [reflexivity|]. cbn in *.
    destruct (cl_step c cl l) as [m|] eqn:S; [|discriminate]. pose proof (cl_step_stream c cl l m S) as SR.
    assert (X : start_steps (stream_label cl l) = 0 /\ sb_start (cl_sb m) = SFree).
    { destruct (stream_label_cases cl l) as [E|[a E]]; rewrite E in *; cbn in SR; [injection SR as <-; auto|].
      destruct (sb_step c (cl_sb cl) a) as [m'|] eqn:SA; [|discriminate]. injection SR as <-.
      assert (NA : a <> LStart).
      { intros ->. destruct l as [b| | | |g]; cbn in E; try discriminate; [injection E as ->; apply NS; now left|]. destruct (nth_error (cl_gens cl) g) as [[| |]|]; discriminate. }
      destruct (step_start c _ a _ SA) as [[E1 _]|[(-> & _)|(o & v & ->)]]; [|contradiction|].
      - split; [|congruence]. destruct a; auto. cbn in SA. unfold start_step in SA. rewrite F in SA. discriminate.
      - cbn in SA. unfold start_step in SA. rewrite F in SA. discriminate. }
    destruct X as [X1 X2]. unfold start_steps in *. rewrite filter_app, app_length, X1. cbn. apply IH; [assumption|intro Y; apply NS; now right|assumption]. }
  destruct (C44_after_stop_partial c _ _ SH AE _ _ (cl_run_stream c ls' cl cl' H') F SS) as (A & B & _). auto.
Qed.
Print Assumptions C93_quiet_after_join.
(** stop() makes join() return: once the event is set, and as long as no new session is
    made, the thread a join() waits for is never blocked and ends after at most eight more
    steps of its own; then the call can return. *)
Theorem C93_stop_then_join_returns :
  forall c ls cl cl1, client_history c ls cl -> cl_step c cl (CL LStop) = Some cl1 -> sb_ss (cl_sb cl) <> [] ->
  forall ls' cl', cl_run c cl1 ls' = Some cl' -> length (sb_ss (cl_sb cl')) = length (sb_ss (cl_sb cl1)) ->
  forall n i, join_waits cl' n i ->
  own_steps i (stream_labels c cl1 ls') <= 8 /\
  (own_steps i (stream_labels c cl1 ls') = 8 -> ended (cl_sb cl') i) /\
  (ended (cl_sb cl') i -> exists cl'', cl_step c cl' (CJoinRet n) = Some cl'' /\ join_returned cl'' n i) /\
  (~ ended (cl_sb cl') i -> forall o, (exists cl'', cl_step c cl' (CL (LT i o)) = Some cl'') \/
     (* it waits for the writer lock: a drop() has it, and can end *)
     (exists j x m cl'', thread_is (cl_sb cl') i (TPut j x) /\ cl_step c cl' (CL (LDropDo m)) = Some cl'' /\ ~ waits_for_drop (cl_sb cl'') i)).
Proof.
  intros c ls cl cl1 H HS NE ls' cl' H' HL n i J. pose proof (stream_history_ok c ls cl H) as SH.
  assert (HH : client_history c ((ls ++ [CL LStop]) ++ ls') cl').
  { unfold client_history. rewrite cl_run_app. assert (X : cl_run c client0 (ls ++ [CL LStop]) = Some cl1) by (apply cl_run_snoc; eauto). now rewrite X. }
  pose proof (cl_step_stream c cl _ cl1 HS) as S1. cbn in S1. destruct (Nat.eqb (length (sb_ss (cl_sb cl))) 0) eqn:E0; [destruct (sb_ss (cl_sb cl)); [congruence|discriminate]|]. injection S1 as S1.
  assert (S1' : sb_step c (cl_sb cl) LStop = Some (cl_sb cl1)) by (cbn; now rewrite E0, S1).
  destruct (C43_stop_is_effective c _ _ _ SH S1' NE _ _ (cl_run_stream c ls' cl1 cl' H') HL i) as (_ & _ & A & B & D). split; [assumption|]. split; [assumption|]. split.
  - intro E. unfold cl_step. cbn. unfold join_waits in J. rewrite J, (ended_thread_done _ _ E). eexists. split; [reflexivity|]. unfold join_returned. cbn.
    rewrite nth_error_set_nth, Nat.eqb_refl, J. reflexivity.
  - intros NEnd o. destruct (join_started c _ cl' HH n i J) as [AL|]; [|contradiction]. destruct (D AL o) as [(s'' & S'')|(j & x & m & s'' & T & S'' & W)].
    + left. unfold cl_step. cbn [stream_label sb_run]. rewrite S''. cbn. eauto.
    + right. exists j, x, m. unfold cl_step. cbn [stream_label sb_run]. rewrite S''. cbn [cl_sb]. eexists. split; [exact T|]. split; [reflexivity|]. exact W.
Qed.
Print Assumptions C93_stop_then_join_returns.

(** ** C94: joining before every start makes restarts orderly *)
Lemma orderly_snoc_intro c ls l : forall s0 s, sb_run c s0 ls = Some s -> orderly_from c s0 ls ->
  (sb_start s = SClear -> (exists o v, l = LS o v) -> all_ended s) -> orderly_from c s0 (ls ++ [l]).
Proof.
  induction ls as [|a ls IH]; intros s0 s H O C; cbn in *.
  - injection H as <-. split; [assumption|]. now destruct (sb_step c s0 l).
  - destruct O as [O1 O2]. split; [assumption|]. destruct (sb_step c s0 a) as [m|]; [|discriminate]. eapply IH; eauto.
Qed.
(** So all that is proved about orderly restarts (C38 - C41, C45, C48) holds for a program
    that follows the protocol stop(), join(), start(). *)
Theorem C94_join_protocol :
  forall c ls cl, client_history c ls cl -> join_before_start c ls ->
  orderly c (stream_history c ls) /\ (sb_start (cl_sb cl) <> SFree -> all_ended (cl_sb cl)).
Proof.
  intros c ls cl H. revert ls cl H. apply (cl_ind c (fun ls cl => join_before_start c ls -> orderly c (stream_history c ls) /\ (sb_start (cl_sb cl) <> SFree -> all_ended (cl_sb cl)))).
  - intros _. split; [exact Logic.I|]. intro X. now destruct X.
  - intros ls s l s' Hh IH H JB. assert (JB' : join_before_start c ls).
    { intros pre post cl i E. apply (JB pre (post ++ [l]) cl i). rewrite E, <- app_assoc. reflexivity. }
    destruct (IH JB') as [O AE]. pose proof (stream_history_ok c ls s Hh) as SH. pose proof (cl_step_stream c s l s' H) as SR.
    rewrite (stream_history_snoc c ls l s Hh). destruct (stream_label_cases s l) as [E|[a E]]; rewrite E in *; cbn in SR.
    + injection SR as <-. rewrite app_nil_r. auto.
    + destruct (sb_step c (cl_sb s) a) as [m|] eqn:SA; [|discriminate]. injection SR as <-. split.
      * eapply orderly_snoc_intro; [exact SH|exact O|]. intros SC _. apply AE. rewrite SC. discriminate.
      * intros NF k A. destruct (alive_back c _ a _ k SA A) as [A0|(S1 & -> & o & v & ->)].
        -- assert (D : sb_start (cl_sb s) = SFree \/ sb_start (cl_sb s) <> SFree) by (destruct (sb_start (cl_sb s)); auto; right; discriminate).
           destruct D as [D|D]; [|exact (AE D k A0)].
           destruct (step_start c _ a _ SA) as [[E1 _]|[(-> & _)|(o & v & ->)]]; [congruence| |cbn in SA; unfold start_step in SA; rewrite D in SA; discriminate].
           assert (l = CL LStart) as ->. { destruct l as [b| | | |g]; cbn in E; try discriminate; [injection E as ->; reflexivity|]. destruct (nth_error (cl_gens s) g) as [[| |]|]; discriminate. }
           destruct (alive_latest c _ _ k SH O A0) as [C0 _]. pose proof (ls_history c _ _ SH) as L. unfold ls_inv in L. rewrite D in L.
           destruct (last_start (sb_tr (cl_sb s))) as [[i []]|] eqn:EL; [|destruct L; congruence|destruct L; congruence].
           assert (k = i) by congruence. subst k. destruct (JB ls [] s i eq_refl Hh EL) as (n & J).
           exact (ended_not_alive _ _ (join_ended c ls s Hh n i J) A0).
        -- cbn in SA. unfold start_step in SA. rewrite S1 in SA. injection SA as SA. rewrite <- SA in NF. now apply NF.
Qed.
Print Assumptions C94_join_protocol.

(** ** A concrete history: a slow read during stop(), join(), and a second session. *)
Fixpoint jbs (c : cfg) (cl : client) (ls : list clabel) : bool :=
  match ls with
  | [] => true
  | l :: q =>
      match l, last_start (trace_of cl) with
      | CL LStart, Some (i, true) => existsb (fun j => match j with JReturned k => Nat.eqb k i | _ => false end) (cl_joins cl)
      | _, _ => true
      end && match cl_step c cl l with Some cl' => jbs c cl' q | None => true end
  end.
Lemma jbs_ok c ls : jbs c client0 ls = true -> join_before_start c ls.
Proof.
  assert (G : forall ls cl0, jbs c cl0 ls = true -> forall pre post cl i, ls = pre ++ CL LStart :: post -> cl_run c cl0 pre = Some cl -> last_start (trace_of cl) = Some (i, true) -> exists n, join_returned cl n i).
  { clear. induction ls as [|l q IH]; intros cl0 H pre post cl i E R L; [now destruct pre|]. cbn [jbs] in H. apply andb_true_iff in H as [H1 H2]. destruct pre as [|a pre].
    - injection E as -> ->. injection R as <-. rewrite L in H1. apply existsb_exists in H1 as (j & Hj & E). destruct j as [|k|]; try discriminate. apply Nat.eqb_eq in E as ->.
      apply In_nth_error in Hj as (n & Hn). now exists n.
    - injection E as <- ->. cbn in R. destruct (cl_step c cl0 l) as [m|]; [|discriminate]. eapply IH; eauto. }
  intros H pre post cl i E R L. exact (G ls client0 H pre post cl i E R L).
Qed.
Definition runs_cl (c : cfg) (ls : list clabel) : bool := match cl_run c client0 ls with Some _ => true | None => false end.
Definition end_cl (c : cfg) (ls : list clabel) : client := match cl_run c client0 ls with Some s => s | None => client0 end.
Lemma client_history_end c ls : runs_cl c ls = true -> client_history c ls (end_cl c ls).
Proof. unfold runs_cl, end_cl, client_history. now destruct (cl_run c client0 ls). Qed.
Definition first_session : list clabel :=
  map CL (starting (PObj 7) ++ round 0 (PInt 1) ++ [LT 0 (Ok PNone); LT 0 (Ok PNone); LStop; LStopRet]) ++ [CJoin] ++
  map CL [LT 0 (Ok (PInt 2)); LT 0 (Ok PNone); LT 0 (Ok PNone); LT 0 (Ok PNone); LT 0 (Ok PNone); LT 0 (Ok PNone)] ++ [CJoinRet 0].
Definition two_sessions : list clabel := first_session ++ map CL (starting (PObj 8) ++ round 1 (PInt 1)) ++ [CJoin].
Example C93_nonvacuous :
  let cl := end_cl cfg3 first_session in
  client_history cfg3 first_session cl /\ orderly cfg3 (stream_history cfg3 first_session) /\ join_returned cl 0 0 /\
  sb_start (cl_sb cl) = SFree /\ last_start (trace_of cl) = Some (0, true) /\
  source_events (trace_of cl) = [EOpen 0 (Ok tt); ERead 0 (Ok (PInt 1)); ERead 0 (Ok (PInt 2)); EClose 0 (Ok tt)] /\
  accepted_by 0 (trace_of cl) = [PInt 1; PInt 2].
Proof. cbn zeta. split; [apply client_history_end; vm_compute; reflexivity|]. split; [apply orderlyb_ok; vm_compute; reflexivity|]. parts; vm_compute; reflexivity. Qed.
(** Waiting while the read is slow; the waiting call of the first session. *)
Example C93_nonvacuous_waiting :
  let pre := map CL (starting (PObj 7) ++ round 0 (PInt 1) ++ [LT 0 (Ok PNone); LT 0 (Ok PNone)]) in
  exists cl1 cl', client_history cfg3 pre (end_cl cfg3 pre) /\ cl_step cfg3 (end_cl cfg3 pre) (CL LStop) = Some cl1 /\
  cl_run cfg3 cl1 [CL LStopRet; CJoin; CL (LT 0 (Ok (PInt 2))); CL (LT 0 (Ok PNone)); CL (LT 0 (Ok PNone)); CL (LT 0 (Ok PNone)); CL (LT 0 (Ok PNone)); CL (LT 0 (Ok PNone))] = Some cl' /\
  join_waits cl' 0 0 /\ ended (cl_sb cl') 0.
Proof.
  cbn zeta. do 2 eexists. split; [apply client_history_end; vm_compute; reflexivity|]. split; [vm_compute; reflexivity|]. split; [vm_compute; reflexivity|].
  split; [vm_compute; reflexivity|]. eexists. eexists. split; vm_compute; reflexivity.
Qed.
Example C94_nonvacuous :
  let cl := end_cl cfg3 two_sessions in
  client_history cfg3 two_sessions cl /\ join_before_start cfg3 two_sessions /\ last_start (trace_of cl) = Some (1, true) /\
  accepted_by 0 (trace_of cl) = [PInt 1; PInt 2] /\ accepted_by 1 (trace_of cl) = [PInt 1] /\ join_waits cl 1 1.
Proof. cbn zeta. split; [apply client_history_end; vm_compute; reflexivity|]. split; [apply jbs_ok; vm_compute; reflexivity|]. parts; vm_compute; reflexivity. Qed.
