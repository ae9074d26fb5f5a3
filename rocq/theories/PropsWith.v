(** * The with statement on a StreamBuffer (C88) *)
From Coq Require Import List ZArith Bool Arith Lia.
From Verif Require Import PyVal PyLib SortedDequeM BufferReaderM BufferSysM StreamBufferM StreamSourceM StreamWithM
  SpecStream StreamFacts StreamLife StreamInv StreamReads PropsStreamRead PropsStream.
Import ListNotations.
Open Scope nat_scope.

(** The step of start() that releases the lock logs how start() ended; before it, the new
    session may or may not be there. *)
Definition made (p : spc) : nat := match p with SOpen | SBuild | SSpawn => 1 | _ => 0 end.
Lemma lock_release c s l s' : sinv s -> sb_step c s l = Some s' -> lock_free s = false ->
  length (sb_ss s') + made (sb_start s) = length (sb_ss s) + made (sb_start s') + (if lock_free s' then 1 else 0) /\
  (lock_free s' = true -> (exists e, last (sb_tr s') (EStarted 0) = EFailed (latest s') e /\ sb_cur s' = None) \/
                          (last (sb_tr s') (EStarted 0) = EStarted (latest s') /\ sb_cur s' = Some (latest s'))).
Proof.
  intros I H F. unfold lock_free in *.
  assert (D : (exists o v, l = LS o v) \/ forall o v, l <> LS o v) by (destruct l; eauto; right; discriminate).
  destruct D as [(o & v & ->)|N].
  - pose proof (si_none _ I) as I2. cbn in H. unfold start_step in H. destruct (sb_start s) eqn:ES; try discriminate.
    + injection H as <-. proj. cbn. destruct (running s); cbn; split; try lia; discriminate.
    + injection H as <-. proj. rewrite upd_length. cbn. split; [lia|discriminate].
    + injection H as <-. proj. destruct second; cbn; split; try lia; discriminate.
    + injection H as <-. proj. destruct (running s); cbn; split; try lia; discriminate.
    + injection H as <-. proj. cbn. split; [lia|discriminate].
    + injection H as <-. proj. rewrite app_length. cbn. split; [lia|discriminate].
    + destruct o as [u|e]; injection H as <-; proj; cbn; split; try lia; try discriminate. intros _. left. exists e. rewrite last_last. auto.
    + destruct v as [v|e]; [destruct (sd_init [] (c_key c) (c_maxlen c)) as [d|e]|]; injection H as <-; proj; rewrite ?upd_length; cbn; split; try lia; try discriminate;
        intros _; left; exists e; rewrite last_last; auto.
    + injection H as <-. proj. rewrite upd_length. cbn. split; [lia|]. intros _. right. unfold latest. proj. rewrite last_last, upd_length. auto.
  - destruct (step_starts c s l s' H N) as [_ L]. rewrite L.
    assert (E : sb_start s' = sb_start s).
    { destruct (step_start c s l s' H) as [[E _]|[(-> & E1 & _)|(o & v & ->)]]; auto; [rewrite E1 in F; discriminate|exfalso; eapply N; reflexivity]. }
    rewrite E, F. split; [lia|discriminate].
Qed.
Lemma start_under_lock_run c enter : forall s s1, start_under_lock c s enter = Some s1 -> sb_run c s enter = Some s1 /\ lock_free s1 = true.
Proof.
  induction enter as [|l q IH]; intros s s1 H; cbn in H |- *.
  - destruct (lock_free s) eqn:F; [|discriminate]. injection H as <-. auto.
  - destruct (lock_free s); [discriminate|]. destruct (sb_step c s l) as [s'|]; [|discriminate]. auto.
Qed.
Lemma start_under_lock_spec c enter : forall s s1, sinv s -> lock_free s = false -> start_under_lock c s enter = Some s1 ->
  length (sb_ss s1) + made (sb_start s) = S (length (sb_ss s)) /\
  ((exists e, last (sb_tr s1) (EStarted 0) = EFailed (latest s1) e /\ sb_cur s1 = None) \/
   (last (sb_tr s1) (EStarted 0) = EStarted (latest s1) /\ sb_cur s1 = Some (latest s1))).
Proof.
  induction enter as [|l q IH]; intros s s1 I F H; cbn in H; rewrite F in H; [discriminate|].
  destruct (sb_step c s l) as [s'|] eqn:E; [|discriminate]. destruct (lock_release c s l s' I E F) as [L R].
  destruct (lock_free s') eqn:F'.
  - destruct q; cbn in H; rewrite F' in H; [|discriminate]. injection H as <-.
    assert (M : made (sb_start s') = 0) by (unfold lock_free in F'; destruct (sb_start s'); try discriminate; reflexivity).
    split; [lia|auto].
  - destruct (IH s' s1 (sinv_step _ _ _ _ I E) F' H) as [L' R']. split; [lia|exact R'].
Qed.
Lemma ev_set_stays c s l s' k : sb_step c s l = Some s' -> ev_set s k = true -> ev_set s' k = true.
Proof.
  intros H E. unfold ev_set in *. destruct (nth_error (sb_ss s) k) as [e|] eqn:Ek; [|discriminate].
  destruct (step_frame c s l s' H k e Ek) as (e' & -> & _ & _ & _ & [X|[X _]]); [now rewrite X|assumption].
Qed.
Lemma ev_set_run c ls k : forall s s', sb_run c s ls = Some s' -> ev_set s k = true -> ev_set s' k = true.
Proof.
  induction ls as [|l q IH]; intros s s' H E; cbn in H; [congruence|]. destruct (sb_step c s l) as [m|] eqn:M; [|discriminate].
  eapply IH; [exact H|]. eapply ev_set_stays; eauto.
Qed.

(** ** C88 *)
(** [j]: the number of the start() call of the statement. [s1]: the state when start() has
    returned or raised. If it raised, the caller gets that exception and nothing else
    happened: no body, no stop(), no thread. Otherwise the body began with the new session
    in place (mk_reader() gives a reader on it), and however the body ended and whatever
    other threads did in the meantime, the statement ends as the body did, the stop event of
    its session is set, next(stream_buffer) is reset, and if nobody has called start() since,
    the stream is not running and its thread is in its last steps. *)
Theorem C88_with_statement :
  forall c ls s enter during leave body s' w, history c ls s -> with_stream c s enter during leave body = Some (s', w) ->
  let j := length (sb_ss s) in
  exists s1, history c (ls ++ LStart :: enter) s1 /\ length (sb_ss s1) = S j /\
  match w with
  | NotEntered e => s' = s1 /\ (exists t, sb_tr s1 = t ++ [EFailed j e]) /\ ~ alive s1 j
  | Left r =>
      (exists t, sb_tr s1 = t ++ [EStarted j]) /\
      (forall n p st ig, exists s2, sb_step c s1 (StreamBufferM.LMk n p st ig) = Some s2 /\ In (ENew (length (sb_rds s1)) j n p st ig) (sb_tr s2)) /\
      r = body /\ ev_set s' j = true /\ sb_next s' = None /\
      (length (sb_ss s') = S j -> is_running s' = false /\
         forall ls2 s2, sb_run c s' ls2 = Some s2 -> length (sb_ss s2) = S j ->
           own_steps j ls2 <= 8 /\ (own_steps j ls2 = 8 -> ended s2 j))
  end.
Proof.
  intros c ls s enter during leave body s' w H W j. unfold with_stream in W.
  destruct (sb_step c s LStart) as [s0|] eqn:E0; [|discriminate]. destruct (start_under_lock c s0 enter) as [s1|] eqn:E1; [|discriminate].
  destruct (start_under_lock_run _ _ _ _ E1) as [R1 F1].
  assert (H0 : history c (ls ++ [LStart]) s0) by (apply sb_run_snoc; eauto).
  assert (H1 : history c (ls ++ LStart :: enter) s1).
  { change (ls ++ LStart :: enter) with (ls ++ [LStart] ++ enter). rewrite app_assoc. unfold history in *. rewrite sb_run_app, H0. exact R1. }
  assert (E00 : length (sb_ss s0) = length (sb_ss s) /\ sb_start s0 = SCheck1).
  { cbn in E0. destruct (lock_free s); [|discriminate]. injection E0 as <-. auto. }
  destruct E00 as [L0 P0].
  destruct (start_under_lock_spec c enter s0 s1 (sinv_history c _ s0 H0)) as [L1 O1]; [unfold lock_free; now rewrite P0|assumption|].
  rewrite P0 in L1. cbn in L1. assert (LL : length (sb_ss s1) = S j) by (unfold j; lia). assert (LA : latest s1 = j) by (unfold latest; lia).
  exists s1. split; [exact H1|]. split; [exact LL|].
  assert (SNOC : forall x, last (sb_tr s1) (EStarted 0) = x -> In (EOpen j (Ok tt)) (sb_tr s1) \/ sb_tr s1 <> [] -> exists t, sb_tr s1 = t ++ [x]).
  { intros x HX NE. assert (NE' : sb_tr s1 <> []) by (destruct NE as [Q|]; [intros Q'; rewrite Q' in Q; destruct Q|assumption]).
    destruct (exists_last NE') as (t & y & Q). rewrite Q in HX |- *. rewrite last_last in HX. subst. eauto. }
  assert (NE : sb_tr s1 <> []).
  { pose proof (ls_history c _ s1 H1) as X. unfold ls_inv in X. unfold lock_free in F1. destruct (sb_start s1); try discriminate. destruct (sb_tr s1); [|discriminate].
    cbn in X. destruct X as [_ X]. rewrite X in LL. discriminate. }
  unfold raised in W. destruct O1 as [(e & O1 & C1)|[O1 C1]]; rewrite O1 in W.
  - injection W as <- <-. rewrite LA in O1. split; [reflexivity|]. destruct (SNOC _ O1 (or_intror NE)) as [t T]. split; [eauto|].
    apply (C67_no_thread c _ s1 j e H1). rewrite T. apply in_or_app. right. now left.
  - rewrite LA in *. destruct (sb_run c s1 during) as [s2|] eqn:E2; [|discriminate].
    assert (H2 : history c ((ls ++ LStart :: enter) ++ during) s2) by (unfold history in *; rewrite sb_run_app, H1; exact E2).
    pose proof (run_length _ _ _ _ E2) as L2. unfold leave_with in W. destruct (sb_step c s2 LStop) as [s3|] eqn:E3; [|discriminate].
    assert (H3 : history c (((ls ++ LStart :: enter) ++ during) ++ [LStop]) s3) by (apply sb_run_snoc; eauto).
    assert (X3 : last (sb_tr s3) (EStop (Ok 0)) = EStop (Ok (latest s2)) /\ ev_set s3 j = true /\ running s3 = false /\ length (sb_ss s3) = length (sb_ss s2)).
    { cbn in E3. destruct (Nat.eqb_spec (length (sb_ss s2)) 0); [lia|]. injection E3 as <-. proj. rewrite last_last, upd_length. split; [reflexivity|].
      split; [|split; [exact (running_do_stop s2)|reflexivity]].
      unfold ev_set. proj. rewrite nth_upd. destruct (Nat.eqb_spec (latest s2) j) as [Q|Q].
      - destruct (nth_error (sb_ss s2) j) eqn:Qj; [reflexivity|]. apply nth_error_None in Qj. lia.
      - destruct (nth_error (sb_ss s2) j) as [x|] eqn:Qj; [|apply nth_error_None in Qj; lia].
        apply (ev_old _ (evinv_history c _ s2 H2) j x Qj). unfold latest in Q. lia. }
    destruct X3 as (T3 & V3 & N3 & L3). rewrite T3 in W. destruct (sb_run c s3 leave) as [s4|] eqn:E4; [|discriminate].
    destruct (sb_step c s4 LStopRet) as [s5|] eqn:E5; [|discriminate]. injection W as <- <-.
    assert (H4 : history c ((((ls ++ LStart :: enter) ++ during) ++ [LStop]) ++ leave) s4) by (unfold history in *; rewrite sb_run_app, H3; exact E4).
    assert (H5 : history c (((((ls ++ LStart :: enter) ++ during) ++ [LStop]) ++ leave) ++ [LStopRet]) s5) by (apply sb_run_snoc; eauto).
    pose proof (run_length _ _ _ _ E4) as L4. pose proof (ev_set_run _ _ _ _ _ E4 V3) as V4. pose proof (ev_set_stays _ _ _ _ _ E5 V4) as V5.
    pose proof E5 as E5'. cbn in E5'. destruct (sb_stops s4); [discriminate|]. injection E5' as E5'.
    assert (L5 : length (sb_ss s5) = length (sb_ss s4)) by (rewrite <- E5'; reflexivity).
    split; [now apply SNOC; auto|]. split; [|split; [reflexivity|split; [exact V5|split; [rewrite <- E5'; reflexivity|]]]].
    + intros sz p st ig. unfold sb_step. rewrite F1, C1. eexists. split; [reflexivity|]. unfold new_rdr. proj. apply in_or_app. left. apply in_or_app. right. now left.
    + intros L. assert (RN : running s5 = false).
      { unfold running. replace (latest s5) with j by (unfold latest; lia). unfold ev_set in V5. destruct (nth_error (sb_ss s5) j); [now rewrite V5|reflexivity]. }
      split; [exact RN|]. intros ls2 s6 E6 L6.
      destruct (stopped_run c j ls2 s5 s6 (sinv_history c _ s5 H5) E6 RN) as (Q & _); [lia|].
      assert (D3 : dist (tpc_of s5 j) <= 8) by (destruct (tpc_of s5 j); cbn; lia). split; [lia|].
      intro E. assert (D0 : dist (tpc_of s6 j) = 0) by lia. unfold tpc_of in D0. destruct (nth_error (sb_ss s6) j) as [x|] eqn:Ek; [|discriminate].
      destruct (se_pc x) as [| | | | | | | | | | |y] eqn:Ep; try discriminate. exists y, x. auto.
Qed.
Print Assumptions C88_with_statement.

(** From every state in which nobody is inside start() the statement gets through, and its
    outcome is determined by the source: open()'s exception, else that of info, else the
    body's outcome. (Here undisturbed by other calls of start() and stop().) *)
Theorem C88_outcome :
  forall c ls s d0 o v body, history c ls s -> sb_start s = SFree -> sd_init [] (c_key c) (c_maxlen c) = Ok d0 ->
  exists n s', with_stream c s (repeat (LS o v) n) [] [] body =
    Some (s', match o, v with Raise e, _ => NotEntered e | Ok _, Raise e => NotEntered e | Ok _, Ok _ => Left body end).
Proof.
  intros c ls s d0 o v body H F D0.
  destruct (C67_retry c ls s d0 H F D0 o v) as (n & s1 & R & F1 & T). cbn zeta in T.
  assert (FL : lock_free s1 = true) by (unfold lock_free; now rewrite F1).
  cbn [sb_run] in R. unfold with_stream. destruct (sb_step c s LStart) as [s0|] eqn:E0; [|discriminate].
  assert (P0 : lock_free s0 = false) by (cbn in E0; destruct (lock_free s); [|discriminate]; injection E0 as <-; reflexivity).
  assert (U : forall k q, lock_free q = false -> sb_run c q (repeat (LS o v) k) = Some s1 -> start_under_lock c q (repeat (LS o v) k) = Some s1).
  { intro k. induction k as [|k IH]; intros q Fq Rq; cbn in Rq |- *.
    - injection Rq as ->. rewrite FL. congruence || reflexivity.
    - rewrite Fq. change (start_step c q o v) with (sb_step c q (LS o v)) in *. destruct (sb_step c q (LS o v)) as [q'|] eqn:Eq; [|discriminate].
      destruct (lock_free q') eqn:Fq'; [|now apply IH]. destruct k as [|k]; cbn in Rq |- *; [now rewrite Fq'|].
      exfalso. unfold start_step in Rq. unfold lock_free in Fq'. destruct (sb_start q'); try discriminate Fq'. discriminate Rq. }
  exists n. rewrite (U n s0 P0 R). unfold raised.
  destruct o as [u|e]; [destruct v as [x|e]|].
  - destruct T as (T & RUN & _). rewrite T. change (sb_tr s ++ [EOpen (length (sb_ss s)) (Ok u); EBuilt (length (sb_ss s)) x; EStarted (length (sb_ss s))])
      with (sb_tr s ++ [EOpen (length (sb_ss s)) (Ok u); EBuilt (length (sb_ss s)) x] ++ [EStarted (length (sb_ss s))]). rewrite app_assoc, last_last. cbn [sb_run].
    unfold leave_with. cbn [sb_step]. destruct (Nat.eqb_spec (length (sb_ss s1)) 0) as [Z|Z].
    { assert (N : sb_ss s1 = []) by (destruct (sb_ss s1); [reflexivity|discriminate Z]). unfold is_running, running, latest in RUN. rewrite N in RUN. discriminate RUN. }
    proj. rewrite last_last. cbn [sb_run]. cbn [sb_step]. proj. eauto.
  - destruct T as [T _]. rewrite T. change (sb_tr s ++ [EOpen (length (sb_ss s)) (Ok u); EFailed (length (sb_ss s)) e])
      with (sb_tr s ++ [EOpen (length (sb_ss s)) (Ok u)] ++ [EFailed (length (sb_ss s)) e]). rewrite app_assoc, last_last. eauto.
  - destruct T as [T _]. rewrite T. change (sb_tr s ++ [EOpen (length (sb_ss s)) (Raise e); EFailed (length (sb_ss s)) e])
      with (sb_tr s ++ [EOpen (length (sb_ss s)) (Raise e)] ++ [EFailed (length (sb_ss s)) e]). rewrite app_assoc, last_last. eauto.
Qed.
Print Assumptions C88_outcome.

(** A with statement after a failed one; its body makes a reader and reads an item while the
    thread works, then raises KeyError; the thread reads once more while stop() sleeps, and
    then closes the source. *)
Example C88_nonvacuous :
  let h := failing RuntimeError in let s := end_of cfg3 h in
  let enter := repeat (LS (Ok tt) (Ok (PObj 7))) 9 in
  let during := StreamBufferM.LMk 1 false false true :: round 1 (PInt 5) ++ [LCallR 0 (CNext false); LT 1 (Ok PNone); LT 1 (Ok PNone)] in
  let leave := [LT 1 (Ok (PInt 6)); LT 1 (Ok PNone); LT 1 (Ok PNone); LT 1 (Ok PNone); LT 1 (Ok PNone); LT 1 (Ok PNone)] in
  history cfg3 h s /\
  match with_stream cfg3 s enter during leave (Raise KeyError) with
  | Some (s', w) => w = Left (Raise KeyError) /\ length (sb_ss s') = 2 /\ ended s' 1 /\
      sb_tr s' = [EOpen 0 (Raise RuntimeError); EFailed 0 RuntimeError; EOpen 1 (Ok tt); EBuilt 1 (PObj 7); EStarted 1;
                  ENew 0 1 1 false false true; EMk (Ok 0); ERead 1 (Ok (PInt 5)); EAppend 1 1 (PInt 5) (Ok tt); ECall 0 (CNext false) (Ok (VItem (PInt 5)));
                  EStop (Ok 1); ERead 1 (Ok (PInt 6)); EAppend 1 1 (PInt 6) (Ok tt); EClose 1 (Ok tt)]
  | None => False
  end.
Proof.
  cbn zeta. split; [apply history_end; vm_compute; reflexivity|]. destruct (with_stream _ _ _ _ _ _) as [[s' w]|] eqn:E.
  - vm_compute in E. injection E as <- <-. split; [reflexivity|]. split; [reflexivity|]. split; [exists None; eexists; split; reflexivity|]. reflexivity.
  - vm_compute in E. discriminate.
Qed.
