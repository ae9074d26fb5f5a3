(** * Readers and sessions: attach_reader (C92), readers of stopped sessions (C48),
      next(stream_buffer) (C73) *)
From Coq Require Import List ZArith Bool Arith Lia Sorting.Sorted.
From Verif Require Import PyVal PyLib PyValFacts SortedDequeM Spec SpecDeque SpecReader SpecLog ListFacts BisectFacts DequeFacts DequeSearch Families
  BufferReaderM BufferSysM ReaderFacts ReaderLoops LogFacts LogReads StreamBufferM SpecStream StreamFacts StreamLife StreamInv StreamView StreamReads StreamMore
  PropsDeque PropsReader PropsIter PropsStreamRead PropsStream StreamSuffix StreamAttach.
Import ListNotations.
Open Scope nat_scope.

(** ** Specification *)
(** The items of [l] that come after everything in [got]: all if nothing was got yet, else
    those with a key above that of the last one got. *)
Definition comes_after (key : pyval -> res pyval) (got : list pyval) (x : pyval) : bool :=
  match last_opt got with
  | None => true
  | Some y => match key y, key x with Ok ky, Ok kx => ltb ky kx | _, _ => false end
  end.
Definition not_got_yet (key : pyval -> res pyval) (got l : list pyval) : list pyval := filter (comes_after key got) l.

(** The session whose buffer reader [r] is on: the last one it was made on or attached to. *)
Definition session_of (r : nat) (tr : list ev) : option nat :=
  fold_left (fun j e => match e with
    | ENew r' k _ _ _ _ => if r' =? r then Some k else j
    | EAttach r' (Ok k) => if r' =? r then Some k else j
    | _ => j end) tr None.

(** ** C92: a reader moved from session to session by attach_reader() *)
Lemma filter_ext_in {A} (f g : A -> bool) l : (forall x, In x l -> f x = g x) -> filter f l = filter g l.
Proof. induction l as [|x l IH]; intro H; [reflexivity|]. cbn. rewrite (H x) by now left. now rewrite IH by (intros; apply H; now right). Qed.
Lemma at_cursor_unseen P key G r d : total_family P -> at_cursor P key G r -> bok P d -> sd_key d = key ->
  unseen key r (sd_items d) = not_got_yet key G (sd_items d).
Proof.
  intros F [_ H] B EK. apply filter_ext_in. intros x Hx. unfold is_unseen, comes_after, key_sat. destruct (last_opt G) as [y|].
  - destruct H as (_ & Ey & Py). rewrite Ey, (family_not_none P _ F Py). cbn [orb]. reflexivity.
  - destruct H as [_ ->]. reflexivity.
Qed.
Lemma session_of_snoc r tr e : session_of r (tr ++ [e]) = match e with
    | ENew r' k _ _ _ _ => if r' =? r then Some k else session_of r tr
    | EAttach r' (Ok k) => if r' =? r then Some k else session_of r tr
    | _ => session_of r tr end.
Proof. unfold session_of. now rewrite fold_left_app. Qed.
Lemma session_of_history c ls s : history c ls s -> forall r q, nth_error (sb_rds s) r = Some q -> session_of r (sb_tr s) = Some (rd_sess q).
Proof.
  revert s. induction ls as [|l ls IH] using rev_ind; intros s H r q Hq.
  - injection H as <-. now destruct r.
  - apply sb_run_snoc in H as (m & Hm & Hs). specialize (IH m Hm). clear Hm.
    step_cases Hs; injection Hs as <-; proj; rewrite ?session_of_snoc;
    repeat match type of Hq with
    | nth_error (set_nth _ _ _) _ = _ => apply nth_set_inv in Hq as [(-> & -> & ? & ?)|(? & Hq)]
    end; rewrite ?Nat.eqb_refl; try (now apply IH); cbn [rd_sess mk_rdr]; try (now erewrite IH by eassumption);
    try (rewrite (proj2 (Nat.eqb_neq _ _)) by congruence; now apply IH);
    try (match type of Hq with nth_error (_ ++ [_]) ?r = _ => 
       destruct (Nat.lt_ge_cases r (length (sb_rds m))); [rewrite nth_error_app1 in Hq by assumption; rewrite (proj2 (Nat.eqb_neq _ _)) by lia; now apply IH|
         rewrite nth_error_app2 in Hq by assumption; destruct (r - length (sb_rds m)) as [|k] eqn:EL; [|now destruct k]; injection Hq as <-; rewrite (proj2 (Nat.eqb_eq _ _)) by lia; reflexivity] end).
    all: first [reflexivity | now apply IH | (rewrite (IH _ _ ltac:(eassumption)); congruence)].
Qed.
(** Over all sessions it was attached to: what it received has strictly increasing keys and
    was in the buffers; next(reader) goes on with the first item of the present session's
    buffer that comes after everything received so far, and only if there is none answers
    None or StopIteration. *)
Theorem C92_attached_reader_continues :
  forall P, total_family P -> forall c ls s, history c ls s -> stream_keys_in P c (sb_tr s) ->
  forall r, moves_forward r (sb_tr s) ->
  strictly_ordered (c_key c) (received r (sb_tr s)) /\
  (forall x, In x (received r (sb_tr s)) -> exists j, In x (accepted_by j (sb_tr s))) /\
  forall q, nth_error (sb_rds s) r = Some q -> exists j d, session_of r (sb_tr s) = Some j /\ buf_of s j = Some d /\
  forall b, exists s' o,
    sb_step c s (LCallR r (CNext b)) = Some s' /\ sb_tr s' = sb_tr s ++ [ECall r (CNext (ev_set s j)) o] /\
    let new := not_got_yet (c_key c) (received r (sb_tr s)) (sd_list d) in
    match new with
    | [] => o = if ev_set s j then Raise StopIteration else Ok VNone
    | x :: _ => ((rk_n (rd_r q) <= 1)%Z -> o = Ok (VItem x)) /\
                ((1 < rk_n (rd_r q))%Z -> rk_strict (rd_r q) = false -> o = Ok (VList (firstn (Z.to_nat (rk_n (rd_r q))) new)))
    end.
Proof.
  intros P F c ls s H K r MF. destruct (att_history P c ls s F H r K MF) as [I SR]. split.
  - destruct (nth_error (sb_rds s) r); [apply I|rewrite I; constructor].
  - split; [assumption|]. intros q Hq. destruct (si_rds s (sinv_history c ls s H) r q Hq) as [d Hd].
    exists (rd_sess q), d. split; [exact (session_of_history c ls s H r q Hq)|]. split; [assumption|]. intro b. rewrite Hq in I. destruct I as [HP AC].
    destruct (stream_buffer_in P c ls s _ d H K Hd) as (BI & EK & NN & _).
    pose proof (C33_next_protocol P F d BI NN (rd_r q) (at_cursor_in _ _ _ _ AC) (ev_set s (rd_sess q))) as X. cbn zeta in X.
    change (sd_list d) with (sd_items d) in *. rewrite EK, (at_cursor_unseen P _ _ _ d F AC (buffer_bok P d BI) EK) in X. destruct X as (X1 & X2 & X3 & _).
    unfold sb_step, call_step. rewrite Hq, Hd, (rd_ev_sess c ls s H r q Hq). cbn zeta. cbn [with_stopped do_call]. destruct (run (next_dunder d (ev_set s (rd_sess q))) (rd_r q)) as [br v] eqn:ER.
    eexists _, v. split; [reflexivity|]. proj. split; [reflexivity|]. cbn [snd] in *.
    destruct (not_got_yet (c_key c) (received r (sb_tr s)) (sd_items d)) as [|x new] eqn:EN.
    + specialize (X1 eq_refl). injection X1 as _ ->. reflexivity.
    + split; [intro L; exact (X2 ltac:(discriminate) L)|]. intros L S. exact (X3 ltac:(discriminate) L S).
Qed.
Print Assumptions C92_attached_reader_continues.
(** A reader of the first session is attached to the second, whose source starts below what
    the reader has seen: it goes on above it. *)
Definition attach_hist : list label :=
  starting (PObj 7) ++ [StreamBufferM.LMk 1 false false true] ++ round 0 (PInt 1) ++ round 0 (PInt 5) ++ [LCallR 0 (CNext false); LCallR 0 (CNext false); LStop] ++ finish 0
  ++ [LStopRet] ++ starting (PObj 8) ++ round 1 (PInt 4) ++ round 1 (PInt 7) ++ [LAttach 0].
Lemma attach_forward : moves_forward 0 (sb_tr (end_of cfg3 attach_hist)).
Proof. apply forwardb_spec. vm_compute. reflexivity. Qed.
Example C92_nonvacuous :
  let s := end_of cfg3 attach_hist in
  history cfg3 attach_hist s /\ stream_keys_in is_int cfg3 (sb_tr s) /\ moves_forward 0 (sb_tr s) /\
  received 0 (sb_tr s) = [PInt 1; PInt 5] /\ In (EAttach 0 (Ok 1)) (sb_tr s) /\
  session_of 0 (sb_tr s) = Some 1 /\
  exists q d, nth_error (sb_rds s) 0 = Some q /\ buf_of s 1 = Some d /\ sd_list d = [PInt 4; PInt 7] /\
    not_got_yet ident (received 0 (sb_tr s)) (sd_list d) = [PInt 7].
Proof.
  cbn zeta. split; [apply history_end; vm_compute; reflexivity|]. split; [apply ints_keys; [reflexivity|vm_compute; reflexivity]|]. split; [exact attach_forward|].
  split; [vm_compute; reflexivity|]. split; [vm_compute; repeat (try (left; reflexivity); right)|]. split; [vm_compute; reflexivity|].
  eexists _, _. split; [vm_compute; reflexivity|]. split; [vm_compute; reflexivity|]. split; vm_compute; reflexivity.
Qed.

(** ** C48: once stopped, a reader stays stopped *)
Definition own_poll (r : nat) (e : ev) : Prop := exists o, e = EPoll r o.
(** From the moment the session of reader [r] is stopped: every next(reader) sees the stop,
    and a for loop over it that finds nothing new never looks again. *)
Theorem C48_stays_stopped :
  forall c ls s, history c ls s -> forall r q, nth_error (sb_rds s) r = Some q -> ev_set s (rd_sess q) = true ->
  forall ls' s', sb_run c s ls' = Some s' -> never_attached r (sb_tr s') ->
  exists es, sb_tr s' = sb_tr s ++ es /\
  (forall b o, In (ECall r (CNext b) o) es \/ In (ENext (Some r) (CNext b) o) es -> b = true) /\
  (forall e1 v e2, es = e1 ++ EPoll r (Ok v) :: e2 -> rval_is_none v = true -> Forall (fun e => ~ own_poll r e) e2).
Proof.
  intros c ls s H r q Hq EV ls'.
  enough (G : forall s', sb_run c s ls' = Some s' -> never_attached r (sb_tr s') ->
    exists es q', sb_tr s' = sb_tr s ++ es /\ nth_error (sb_rds s') r = Some q' /\ rd_sess q' = rd_sess q /\ ev_set s' (rd_sess q) = true /\
    (forall b o, In (ECall r (CNext b) o) es \/ In (ENext (Some r) (CNext b) o) es -> b = true) /\
    (forall e1 v e2, es = e1 ++ EPoll r (Ok v) :: e2 -> rval_is_none v = true -> Forall (fun e => ~ own_poll r e) e2 /\ (rd_loop q' = ItChk1 \/ rd_loop q' = ItEnd))).
  { intros s' R NA. destruct (G s' R NA) as (es & q' & A & _ & _ & _ & B & C). exists es. split; [assumption|]. split; [assumption|]. intros e1 v e2 E N. apply (C e1 v e2 E N). }
  induction ls' as [|l ls' IH] using rev_ind; intros s' R NA.
  - injection R as <-. exists [], q. rewrite app_nil_r. split; [reflexivity|]. split; [assumption|]. split; [reflexivity|]. split; [assumption|]. split; [intros b o [[]|[]]|]. intros [|] v e2 E; discriminate.
  - apply sb_run_snoc in R as (m & Hm & Hs). destruct (step_trace c m l s' Hs) as (e1s & E1).
    destruct (IH m Hm) as (es & qm & A & B & C & D & E & G); [rewrite E1 in NA; eapply never_attached_app; eauto|]. clear IH.
    assert (Q' : exists q', nth_error (sb_rds s') r = Some q').
    { assert (length (sb_rds m) <= length (sb_rds s')) by (clear - Hs; step_cases Hs; injection Hs as <-; proj; rewrite ?set_nth_length, ?app_length; lia).
      apply nth_lt in B. destruct (nth_error (sb_rds s') r) eqn:X; [eauto|]. apply nth_error_None in X. lia. }
    destruct Q' as (q' & Q'). exists (es ++ e1s), q'. split; [rewrite E1, A; now rewrite app_assoc|]. split; [assumption|].
    assert (SK : rd_sess q' = rd_sess q) by (destruct (sess_keep c m l s' r qm q' Hs B Q') as [X|(k & X)]; [congruence|exfalso; exact (NA k X)]).
    split; [assumption|]. split; [eapply ev_set_mono; eauto|].
    assert (RE : rd_ev qm = rd_sess qm) by (eapply (rd_ev_sess c (ls ++ ls') m); [unfold history; rewrite sb_run_app, H; exact Hm|exact B]).
    assert (CALLS : forall b o, In (ECall r (CNext b) o) e1s \/ In (ENext (Some r) (CNext b) o) e1s -> b = true).
    { rewrite <- RE in C. clear - E1 Hs B C D. intros b o X. step_cases Hs; injection Hs as <-; proj; rewrite <- ?app_assoc in E1;
        try (apply app_inv_head in E1; subst e1s); try (rewrite <- (app_nil_r (sb_tr m)) in E1 at 1; apply app_inv_head in E1; subst e1s);
        cbn [app In] in X; destruct X as [X|X]; repeat (destruct X as [X|X]; try discriminate X); try contradiction;
        injection X; intros; subst; match goal with H1 : nth_error _ _ = Some ?a, H2 : nth_error _ _ = Some ?b |- _ => assert (a = b) by congruence; subst a end;
        unfold ev_set in *; proj; rewrite C in *;
        match goal with H1 : with_stopped ?t _ = CNext _ |- _ => destruct c0; try discriminate H1; cbn in H1; injection H1; congruence | _ => try congruence end. }
    assert (DL : l = LIter r \/ l <> LIter r).
    { destruct l as [| | | | | | | | | | | | |r0|]; try (right; discriminate). destruct (Nat.eq_dec r0 r) as [->|]; [now left|right; congruence]. }
    split; [intros b o X; rewrite !in_app_iff in X; destruct X as [[X|X]|[X|X]]; eauto|].
    destruct DL as [->|NL].
    + cbn in Hs. unfold iter_step in Hs. rewrite B in Hs. cbn zeta in Hs. destruct (rd_loop qm) eqn:EL.
      * destruct (buf_of m (rd_sess qm)) as [d|]; [|discriminate]. destruct (run (read_for_next d) (rd_r qm)) as [br o].
        destruct (match o with Ok v => _ | Raise _ => _ end) as [lo out] eqn:EO. injection Hs as <-. proj. apply app_inv_head in E1. subst e1s.
        rewrite nth_error_set_nth, Nat.eqb_refl, B in Q'. injection Q' as <-. cbn [rd_loop]. intros e1 v e2 X NV.
        symmetry in X. destruct e2 as [|z e2 _] using rev_ind.
        -- split; [constructor|]. apply app_inj_tail in X as [_ X]. injection X as <-. rewrite NV in EO. injection EO as <- <-. now left.
        -- exfalso. rewrite app_comm_cons, app_assoc in X. apply app_inj_tail in X as [X _]. destruct (G e1 v e2 (eq_sym X) NV) as [_ [Y|Y]]; discriminate.
      * injection Hs as <-. proj. rewrite <- (app_nil_r (sb_tr m)) in E1 at 1. apply app_inv_head in E1. subst e1s. rewrite app_nil_r.
        rewrite nth_error_set_nth, Nat.eqb_refl, B in Q'. injection Q' as <-. cbn [rd_loop]. intros e1 v e2 X NV. destruct (G e1 v e2 X NV) as [Y _]. split; [assumption|].
        right. rewrite RE, C, D. reflexivity.
      * injection Hs as <-. proj. rewrite <- (app_nil_r (sb_tr m)) in E1 at 1. apply app_inv_head in E1. subst e1s. rewrite app_nil_r.
        intros e1 v e2 X NV. destruct (G e1 v e2 X NV) as [_ [Y|Y]]; discriminate.
      * discriminate.
    + destruct (loop_other c m l s' r qm Hs B NL) as (_ & _ & q1 & Q1 & _ & EL). assert (q1 = q') by congruence. subst q1. rewrite EL.
      assert (NP : Forall (fun e => ~ own_poll r e) e1s).
      { clear - E1 Hs NL. step_cases Hs; injection Hs as <-; proj; rewrite <- ?app_assoc in E1;
        try (apply app_inv_head in E1; subst e1s); try (rewrite <- (app_nil_r (sb_tr m)) in E1 at 1; apply app_inv_head in E1; subst e1s);
        cbn [app]; repeat constructor; intros (o' & X); try discriminate X; injection X; intros; subst; now apply NL. }
      intros e1 v e2 X NV. symmetry in X.
      assert (SPL : (exists e3, e2 = e3 ++ e1s /\ es = e1 ++ EPoll r (Ok v) :: e3) \/ In (EPoll r (Ok v)) e1s).
      { clear - X. revert e2 X. induction e1s as [|z e1s IH] using rev_ind; intros e2 X; [left; exists e2; rewrite !app_nil_r in *; auto|].
        destruct e2 as [|y e2 _] using rev_ind.
        - rewrite app_assoc in X. apply app_inj_tail in X as [_ ->]. right. apply in_or_app. right. now left.
        - rewrite app_comm_cons, !app_assoc in X. apply app_inj_tail in X as [X ->]. destruct (IH e2 X) as [(e3 & -> & Y)|Y].
          + left. exists e3. rewrite app_assoc. auto.
          + right. apply in_or_app. now left. }
      destruct SPL as [(e3 & -> & Y)|Y].
      * destruct (G e1 v e3 Y NV) as [G1 G2]. split; [apply Forall_app; auto|assumption].
      * exfalso. rewrite Forall_forall in NP. apply (NP _ Y). eexists. reflexivity.
Qed.
Print Assumptions C48_stays_stopped.
Example C48_stays_nonvacuous :
  exists s s' q, history cfg3 two_sessions s /\ nth_error (sb_rds s) 0 = Some q /\ ev_set s (rd_sess q) = true /\ sb_run cfg3 s (after ++ [LIter 0]) = None /\
  sb_run cfg3 s after = Some s' /\ never_attached 0 (sb_tr s') /\ In (ECall 0 (CNext true) (Ok (VItem (PInt 2)))) (sb_tr s') /\ In (EPoll 0 (Ok VNone)) (sb_tr s').
Proof.
  exists (end_of cfg3 two_sessions), (end_of cfg3 (two_sessions ++ after)). eexists. split; [apply history_end; vm_compute; reflexivity|].
  split; [vm_compute; reflexivity|]. split; [vm_compute; reflexivity|]. split; [vm_compute; reflexivity|]. split; [vm_compute; reflexivity|].
  split; [apply no_attach_never; vm_compute; reflexivity|]. split; vm_compute; repeat (try (left; reflexivity); right).
Qed.

(** ** C73: next(stream_buffer), undisturbed by stop() and start() *)
Lemma next_kw c ls s : history c ls s -> forall r, sb_next s = Some r ->
  exists q, nth_error (sb_rds s) r = Some q /\ kw (rd_r q) = (1%Z, false, false, false).
Proof.
  intro H. revert ls s H. apply (sb_ind c (fun _ s => forall r, sb_next s = Some r -> exists q, nth_error (sb_rds s) r = Some q /\ kw (rd_r q) = (1%Z, false, false, false))).
  - discriminate.
  - intros ls s l s' Hh IH H r N'. destruct (sb_next s) as [r0|] eqn:N.
    + destruct (Nat.eq_dec r0 r) as [->|NE].
      * destruct (IH r eq_refl) as (q & Q & KW). destruct (att_step_cases c s l s' r H) as [[_ B]|[(A & _)|(q1 & d & cl & e & lo & out & Hq & Hb & _ & _ & _ & _ & EQ)]].
        -- rewrite Q in B. destruct B as (q' & B1 & B2). exists q'. split; [assumption|]. now rewrite B2.
        -- congruence.
        -- assert (q1 = q) by congruence. subst q1. rewrite EQ, nth_error_set_nth, Nat.eqb_refl, Q. eexists. split; [reflexivity|]. cbn [rd_r]. now rewrite keeps_call.
      * exfalso. clear - H N N' NE. step_cases H; injection H as <-; proj; congruence.
    + clear IH. step_cases H; injection H as <-; proj; try congruence. injection N' as <-. rewrite nth_snoc, Nat.ltb_irrefl, Nat.eqb_refl. eexists. split; reflexivity.
Qed.
Lemma next_stays c ls : ~ In LStopRet ls -> start_steps ls = 0 -> forall s s' r, sb_run c s ls = Some s' -> sb_next s = Some r -> sb_next s' = Some r.
Proof.
  induction ls as [|l q IH]; intros NI SS s s' r R N; cbn in R; [injection R as <-; assumption|]. destruct (sb_step c s l) as [m|] eqn:E; [|discriminate].
  assert (S0 : start_steps q = 0 /\ (forall o v, l <> LS o v)).
  { unfold start_steps in *. cbn in SS. destruct l; cbn in SS; try (split; [exact SS|discriminate]). discriminate. }
  destruct S0 as [S0 SN]. apply (IH ltac:(intro X; apply NI; now right) S0 m s' r R).
  assert (NL : l <> LStopRet) by (intros ->; apply NI; now left). clear - E N NL SN. step_cases E; injection E as <-; proj; try congruence; exfalso; eapply SN; reflexivity.
Qed.
(** A call of next(stream_buffer) during which no stop() returns and no start() is running:
    it raises StreamNotStartedError, or it returns the first item of its session's buffer that
    comes after what this reader has returned so far, None if there is none, or raises
    StopIteration if there is none and that session is stopped. *)
Theorem C73_undisturbed_partial :
  forall P, total_family P -> forall c ls s s1, history c ls s -> sb_step c s LNextMk = Some s1 ->
  sb_tr s1 = sb_tr s ++ [ENext None (CNext false) (Raise StreamNotStartedError)] \/
  exists r, (sb_next s = Some r \/ r = length (sb_rds s)) /\
  forall ls' s2 s3, sb_run c s1 ls' = Some s2 -> ~ In LStopRet ls' -> start_steps ls' = 0 -> sb_step c s2 LNext = Some s3 ->
  stream_keys_in P c (sb_tr s2) -> moves_forward r (sb_tr s2) ->
  exists j d st o, session_of r (sb_tr s2) = Some j /\ buf_of s2 j = Some d /\ st = ev_set s2 j /\ sb_tr s3 = sb_tr s2 ++ [ENext (Some r) (CNext st) o] /\
    o = match not_got_yet (c_key c) (received r (sb_tr s2)) (sd_list d) with
        | x :: _ => Ok (VItem x)
        | [] => if st then Raise StopIteration else Ok VNone
        end.
Proof.
  intros P F c ls s s1 H H1. assert (Hh1 : history c (ls ++ [LNextMk]) s1) by (apply sb_run_snoc; eauto).
  assert (X : sb_tr s1 = sb_tr s ++ [ENext None (CNext false) (Raise StreamNotStartedError)] \/ exists r, (sb_next s = Some r \/ r = length (sb_rds s)) /\ sb_next s1 = Some r).
  { clear Hh1. cbn in H1. destruct (sb_next s) as [r|] eqn:N; [injection H1 as <-; right; exists r; auto|].
    destruct (lock_free s); [|discriminate]. destruct (sb_cur s); injection H1 as <-; [right; exists (length (sb_rds s)); auto|now left]. }
  destruct X as [X|(r & R0 & N1)]; [now left|]. right. exists r. split; [assumption|].
  intros ls' s2 s3 R2 NI SS H3 K MF. pose proof (next_stays c ls' NI SS s1 s2 r R2 N1) as N2.
  assert (Hh2 : history c ((ls ++ [LNextMk]) ++ ls') s2) by (unfold history in *; rewrite sb_run_app, Hh1; exact R2).
  destruct (next_kw c _ s2 Hh2 r N2) as (q & Q & KW). unfold kw in KW. injection KW as K1 K2 K3 K4.
  destruct (att_history P c _ s2 F Hh2 r K MF) as [AT _]. rewrite Q in AT. destruct AT as [_ AC].
  cbn in H3. destruct (sb_nx s2) as [|n]; [discriminate|]. rewrite N2 in H3. unfold call_step in H3. proj. rewrite Q, (rd_ev_sess c _ s2 Hh2 r q Q) in H3.
  unfold buf_of in H3. proj. destruct (nth_error (sb_ss s2) (rd_sess q)) as [e|] eqn:Ee; [|discriminate]. destruct (se_buf e) as [d|] eqn:Ed; [|discriminate].
  assert (Hd : buf_of s2 (rd_sess q) = Some d) by (unfold buf_of; now rewrite Ee).
  destruct (stream_buffer_in P c _ s2 _ d Hh2 K Hd) as (BI & EK & NN & _).
  pose proof (C33_next_protocol P F d BI NN (rd_r q) (at_cursor_in _ _ _ _ AC) (ev_set s2 (rd_sess q))) as X. cbn zeta in X.
  change (sd_list d) with (sd_items d) in X. rewrite EK, (at_cursor_unseen P _ _ _ d F AC (buffer_bok P d BI) EK) in X. destruct X as (X1 & X2 & _).
  unfold ev_set in *. proj. rewrite Ee in *. cbn [with_stopped do_call] in H3. destruct (run (next_dunder d (se_set e)) (rd_r q)) as [br v] eqn:ER. injection H3 as <-. proj.
  exists (rd_sess q), d, (se_set e), v. split; [exact (session_of_history c _ s2 Hh2 r q Q)|]. split; [assumption|]. rewrite Ee. split; [reflexivity|]. split; [reflexivity|]. cbn [snd] in X2. change (sd_list d) with (sd_items d).
  destruct (not_got_yet (c_key c) (received r (sb_tr s2)) (sd_items d)) as [|x new].
  - specialize (X1 eq_refl). injection X1 as _ ->. reflexivity.
  - apply X2; [discriminate|lia].
Qed.
Print Assumptions C73_undisturbed_partial.
Example C73_undisturbed_nonvacuous :
  let h := starting (PObj 7) ++ round 0 (PInt 1) in let s := end_of cfg3 h in
  exists s1 s2 s3, history cfg3 h s /\ sb_step cfg3 s LNextMk = Some s1 /\ sb_run cfg3 s1 (round 0 (PInt 2) ++ [LStop]) = Some s2 /\
  sb_step cfg3 s2 LNext = Some s3 /\ stream_keys_in is_int cfg3 (sb_tr s2) /\ moves_forward 0 (sb_tr s2) /\
  sb_tr s3 = sb_tr s2 ++ [ENext (Some 0) (CNext true) (Ok (VItem (PInt 1)))].
Proof.
  cbn zeta. exists (end_of cfg3 (starting (PObj 7) ++ round 0 (PInt 1) ++ [LNextMk])), (end_of cfg3 (starting (PObj 7) ++ round 0 (PInt 1) ++ [LNextMk] ++ round 0 (PInt 2) ++ [LStop])),
    (end_of cfg3 (starting (PObj 7) ++ round 0 (PInt 1) ++ [LNextMk] ++ round 0 (PInt 2) ++ [LStop; LNext])).
  split; [apply history_end; vm_compute; reflexivity|]. split; [vm_compute; reflexivity|]. split; [vm_compute; reflexivity|]. split; [vm_compute; reflexivity|].
  split; [apply ints_keys; [reflexivity|vm_compute; reflexivity]|]. split; [|vm_compute; reflexivity].
  apply forwardb_spec. vm_compute. reflexivity.
Qed.
