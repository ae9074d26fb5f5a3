(** * Which buffer a reader is on: is_same_buffer (C99), source_reader_info (C100) *)
From Coq Require Import List ZArith Bool Arith Lia.
From Verif Require Import PyVal PyLib SortedDequeM Spec BufferReaderM BufferSysM StreamBufferM SpecStream StreamFacts StreamLife StreamInv StreamView StreamReads StreamMore StreamSuffix StreamAttach PropsStreamRead PropsStream PropsSession.
Import ListNotations.
Open Scope nat_scope.

(** ** C99: is_same_buffer() *)
(** [session_of r tr]: the session reader [r] was last made on or attached to. Two readers
    are "same" iff these agree, after any number of starts, stops and attachments. *)
Theorem C99_same_buffer :
  forall c ls s, history c ls s -> forall r1 q1 r2 q2, nth_error (sb_rds s) r1 = Some q1 -> nth_error (sb_rds s) r2 = Some q2 ->
  (is_same_buffer q1 q2 = true <-> session_of r1 (sb_tr s) = session_of r2 (sb_tr s)).
Proof.
  intros c ls s H r1 q1 r2 q2 H1 H2. rewrite (session_of_history c ls s H _ _ H1), (session_of_history c ls s H _ _ H2).
  unfold is_same_buffer. rewrite Nat.eqb_eq, (rd_ev_sess c ls s H _ _ H1), (rd_ev_sess c ls s H _ _ H2). split; congruence.
Qed.
Print Assumptions C99_same_buffer.
(** And then they look at the same items, and stop together. *)
Theorem C99_same_items :
  forall c ls s, history c ls s -> forall r1 q1 r2 q2, nth_error (sb_rds s) r1 = Some q1 -> nth_error (sb_rds s) r2 = Some q2 ->
  is_same_buffer q1 q2 = true ->
  exists d, forall cl1 cl2, exists o1 o2 s1 s2,
    sb_step c s (LCallR r1 cl1) = Some s1 /\ sb_step c s (LCallR r2 cl2) = Some s2 /\
    exists c1 c2, sb_tr s1 = sb_tr s ++ [ECall r1 c1 o1] /\ sb_tr s2 = sb_tr s ++ [ECall r2 c2 o2] /\
    o1 = snd (run (do_call d c1) (rd_r q1)) /\ o2 = snd (run (do_call d c2) (rd_r q2)) /\
    exists b, c1 = with_stopped b cl1 /\ c2 = with_stopped b cl2.
Proof.
  intros c ls s H r1 q1 r2 q2 H1 H2 E. unfold is_same_buffer in E. rewrite Nat.eqb_eq, (rd_ev_sess c ls s H _ _ H1), (rd_ev_sess c ls s H _ _ H2) in E.
  destruct (si_rds s (sinv_history c ls s H) r1 q1 H1) as [d Hd]. exists d. intros cl1 cl2.
  cbn [sb_step]. unfold call_step. rewrite H1, H2, <- E, Hd, (rd_ev_sess c ls s H _ _ H1), (rd_ev_sess c ls s H _ _ H2), <- E. cbn zeta.
  destruct (run (do_call d (with_stopped (ev_set s (rd_sess q1)) cl1)) (rd_r q1)) as [b1 o1] eqn:R1.
  destruct (run (do_call d (with_stopped (ev_set s (rd_sess q1)) cl2)) (rd_r q2)) as [b2 o2] eqn:R2.
  do 4 eexists. split; [reflexivity|]. split; [reflexivity|]. do 2 eexists. cbn. split; [reflexivity|]. split; [reflexivity|].
  rewrite R1, R2. split; [reflexivity|]. split; [reflexivity|]. eauto.
Qed.
Print Assumptions C99_same_items.
(** Two readers of one session, then one of the next; then the first is attached to it. *)
Definition same_hist : list label :=
  starting (PObj 7) ++ [StreamBufferM.LMk 1 false false false; StreamBufferM.LMk 1 false false false] ++ round 0 (PInt 1) ++ [LStop] ++ finish 0
  ++ [LStopRet] ++ starting (PObj 8) ++ [StreamBufferM.LMk 1 false false false].
Definition same_of (s : sb) (r1 r2 : nat) : option bool :=
  match nth_error (sb_rds s) r1, nth_error (sb_rds s) r2 with Some q1, Some q2 => Some (is_same_buffer q1 q2) | _, _ => None end.
Example C99_nonvacuous :
  let s := end_of cfg3 same_hist in let s' := end_of cfg3 (same_hist ++ [LAttach 0]) in
  history cfg3 same_hist s /\ history cfg3 (same_hist ++ [LAttach 0]) s' /\
  same_of s 0 1 = Some true /\ same_of s 0 2 = Some false /\ same_of s' 0 1 = Some false /\ same_of s' 0 2 = Some true.
Proof. cbn zeta. split; [apply history_end; vm_compute; reflexivity|]. split; [apply history_end; vm_compute; reflexivity|]. vm_compute. auto. Qed.

(** ** C100: the info of a reader *)
Lemma info_history c ls s : history c ls s -> forall r q, nth_error (sb_rds s) r = Some q -> never_attached r (sb_tr s) -> In (EBuilt (rd_sess q) (rd_info q)) (sb_tr s).
Proof.
  intro H. revert ls s H. apply (sb_ind c (fun _ s => forall r q, nth_error (sb_rds s) r = Some q -> never_attached r (sb_tr s) -> In (EBuilt (rd_sess q) (rd_info q)) (sb_tr s))).
  - intros [|r] q; discriminate.
  - intros ls s l s' Hh IH H r q Hq NA. destruct (step_trace c s l s' H) as (es & Et).
    assert (NA' : never_attached r (sb_tr s)) by (rewrite Et in NA; eapply never_attached_app; eauto).
    assert (OLD : forall q0, nth_error (sb_rds s) r = Some q0 -> In (EBuilt (rd_sess q0) (rd_info q0)) (sb_tr s')) by (intros q0 Hq0; rewrite Et; apply in_or_app; left; eauto).
    assert (NEW : forall j n p st ig, sb_cur s = Some j -> q = mk_rdr s j n p st ig -> In (EBuilt (rd_sess q) (rd_info q)) (sb_tr s')).
    { intros j n p st ig Ej ->. cbn [mk_rdr rd_sess rd_info]. destruct (si_cur _ (sinv_history c ls s Hh) j Ej) as [_ HB]. destruct (built_history c ls s Hh) as (A & B & _).
      destruct (B j HB) as [v Hv]. destruct (A j v Hv) as [-> _]. rewrite Et. apply in_or_app. now left. }
    clear Et IH. step_cases H; injection H as <-; proj; try (now apply OLD);
    repeat match type of Hq with
    | nth_error (set_nth _ _ _) _ = _ => apply nth_set_inv in Hq as [(-> & -> & ? & ?)|(? & Hq)]
    | nth_error (_ ++ [_]) _ = _ => apply nth_snoc_inv in Hq as [Hq|[-> ->]]
    end; try (now apply OLD); try (eapply NEW; [eassumption|reflexivity]); cbn [rd_sess rd_info]; try (eapply (OLD _); eassumption).
    exfalso. eapply (NA _). apply in_or_app. right. left. reflexivity.
Qed.
(** What holds: a reader that was never attached has the info that its session's source had
    right after open(). *)
Theorem C100_own_info_partial :
  forall c ls s, history c ls s -> forall r q, nth_error (sb_rds s) r = Some q -> never_attached r (sb_tr s) ->
  exists j, session_of r (sb_tr s) = Some j /\ In (EBuilt j (rd_info q)) (sb_tr s) /\
  forall v, In (EBuilt j v) (sb_tr s) -> v = rd_info q.
Proof.
  intros c ls s H r q Hq NA. exists (rd_sess q). split; [eapply session_of_history; eauto|].
  pose proof (info_history c ls s H r q Hq NA) as X. split; [assumption|]. intros v Hv.
  destruct (built_history c ls s H) as (A & _). destruct (A _ _ X), (A _ _ Hv). congruence.
Qed.
Print Assumptions C100_own_info_partial.
(** attach_reader() leaves the info of the earlier session in place. *)
Theorem C100_attached_info_refuted :
  exists c ls s q j v, history c ls s /\ nth_error (sb_rds s) 0 = Some q /\ session_of 0 (sb_tr s) = Some j /\ In (EBuilt j v) (sb_tr s) /\ rd_info q <> v.
Proof.
  exists cfg3, attach_hist, (end_of cfg3 attach_hist). do 3 eexists. split; [apply history_end; vm_compute; reflexivity|]. split; [vm_compute; reflexivity|].
  split; [vm_compute; reflexivity|]. split; [vm_compute; repeat (try (left; reflexivity); right)|]. discriminate.
Qed.
Print Assumptions C100_attached_info_refuted.
Example C100_nonvacuous :
  let s := end_of cfg3 same_hist in history cfg3 same_hist s /\ never_attached 2 (sb_tr s) /\ session_of 2 (sb_tr s) = Some 1 /\
  exists q, nth_error (sb_rds s) 2 = Some q /\ rd_info q = PObj 8.
Proof.
  cbn zeta. split; [apply history_end; vm_compute; reflexivity|]. split; [intros k; vm_compute; intuition discriminate|]. split; [vm_compute; reflexivity|].
  eexists. split; vm_compute; reflexivity.
Qed.
