(** * The documented way to use auto_drop=False: read, then drop (C103)

    [for x in reader: ...; stream_buffer.drop()], simply.py:14-27. *)
From Coq Require Import List ZArith Bool Arith Lia Sorting.Sorted.
From Verif Require Import PyVal PyLib PyValFacts SortedDequeM Spec SpecDeque SpecReader SpecLog ListFacts BisectFacts DequeFacts DequeSearch Families
  BufferReaderM BufferSysM ReaderFacts ReaderLoops LogFacts LogReads StreamBufferM SpecStream StreamFacts StreamLife StreamInv StreamView StreamReads StreamMore
  StreamOrderly PropsDeque PropsReader PropsIter PropsStreamRead PropsStream StreamSuffix StreamAttach PropsSession.
Import ListNotations.
Open Scope nat_scope.

(** ** Specification *)
(** How many items drop() was asked to remove from the buffer of start [j]. *)
Definition dropped (j : nat) (tr : list ev) : nat :=
  fold_right Nat.add 0 (map (fun e => match e with EDrop (Some k) n _ => if k =? j then Z.to_nat n else 0 | _ => 0 end) tr).
(** At every moment: no more was dropped than reader [r] had received by then. *)
Definition drops_what_it_got (r j : nat) (tr : list ev) : Prop :=
  forall t1 t2, tr = t1 ++ t2 -> dropped j t1 <= length (received r t1).

(** ** Facts *)
Lemma dropped_snoc j tr e : dropped j (tr ++ [e]) = dropped j tr + match e with EDrop (Some k) n _ => if k =? j then Z.to_nat n else 0 | _ => 0 end.
Proof. unfold dropped. rewrite map_app, fold_right_app. cbn [map fold_right]. rewrite Nat.add_0_r. set (z := match e with EDrop _ _ _ => _ | _ => _ end). clearbody z. induction tr as [|x tr IH]; cbn [map fold_right]; [lia|]. rewrite IH. lia. Qed.
Lemma accepted_snoc j tr e : accepted_by j (tr ++ [e]) = accepted_by j tr ++ match e with EAppend _ k x (Ok _) => if k =? j then [x] else [] | _ => [] end.
Proof. unfold accepted_by. rewrite flat_map_app. cbn. now rewrite app_nil_r. Qed.
Lemma kept_length j tr : length (accepted_by j tr) <= length (SpecStream.kept j tr) + dropped j tr.
Proof.
  induction tr as [|e tr IH] using rev_ind; [reflexivity|]. rewrite kept_snoc, dropped_snoc, accepted_snoc, app_length.
  destruct e; cbn [kept_step]; try (cbn [length]; lia).
  - destruct o; [|cbn [length]; lia]. destruct (j0 =? j); rewrite ?app_length; cbn [length]; lia.
  - destruct j0 as [k|]; [|cbn [length]; lia]. destruct (k =? j); rewrite ?skipn_length; cbn [length]; lia.
Qed.
Lemma kept_skipn c ls s j : history c ls s ->
  (forall pre post m, ls = pre ++ post -> history c pre m -> dropped j (sb_tr m) <= length (accepted_by j (sb_tr m))) ->
  SpecStream.kept j (sb_tr s) = skipn (dropped j (sb_tr s)) (accepted_by j (sb_tr s)).
Proof.
  revert s. induction ls as [|l ls IH] using rev_ind; intros s H D; [injection H as <-; reflexivity|].
  apply sb_run_snoc in H as (m & Hm & Hs). specialize (IH m Hm ltac:(intros pre post m' -> ; apply (D pre (post ++ [l])); now rewrite app_assoc)).
  pose proof (D ls [l] m eq_refl Hm) as D1. clear D Hm.
  step_cases Hs; injection Hs as <-; proj; rewrite ?kept_snoc, ?dropped_snoc, ?accepted_snoc; cbn [kept_step]; rewrite ?app_nil_r, ?Nat.add_0_r; try assumption.
  - destruct (_ =? j); [|now rewrite Nat.add_0_r]. rewrite IH, skipn_skipn. f_equal; lia.
  - destruct r; rewrite ?app_nil_r; try assumption. destruct (_ =? j); rewrite ?app_nil_r; [|assumption]. rewrite IH, skipn_app. now replace (dropped j (sb_tr m) - length (accepted_by j (sb_tr m))) with 0 by lia.
Qed.
Lemma orderly_app_inv c a b : orderly c (a ++ b) -> orderly c a.
Proof.
  unfold orderly. generalize sb0. induction a as [|l a IH]; intros s0 H; [exact Logic.I|]. cbn [app orderly_from] in *. destruct H as [H1 H2]. split; [assumption|].
  destruct (sb_step c s0 l); [now apply IH|exact Logic.I].
Qed.
Lemma run_trace c ls : forall s s', sb_run c s ls = Some s' -> exists es, sb_tr s' = sb_tr s ++ es.
Proof.
  induction ls as [|l ls IH]; intros s s' H; cbn in H; [injection H as <-; exists []; now rewrite app_nil_r|].
  destruct (sb_step c s l) as [m|] eqn:E; [|discriminate]. destruct (step_trace c s l m E) as (e1 & E1). destruct (IH m s' H) as (e2 & E2). exists (e1 ++ e2). now rewrite E2, E1, app_assoc.
Qed.
Lemma drops_keep_up c ls s r j : is_True (c_auto c) = false -> history c ls s -> orderly c ls -> drops_what_it_got r j (sb_tr s) -> reader_keeps_up c ls r j.
Proof.
  intros A H O D pre post m d E Hm Hd. subst ls. unfold history in H. rewrite sb_run_app, Hm in H. destruct (run_trace c post m s H) as (es & Et).
  pose proof (kept_history c pre m A Hm (orderly_app_inv c pre post O) j) as K. rewrite Hd in K. rewrite <- K.
  pose proof (kept_length j (sb_tr m)). pose proof (D (sb_tr m) es Et). lia.
Qed.
Lemma back_run c ls : forall s s' r q q', sb_run c s ls = Some s' -> never_attached r (sb_tr s') -> nth_error (sb_rds s) r = Some q -> nth_error (sb_rds s') r = Some q' -> rd_sess q = rd_sess q'.
Proof.
  induction ls as [|l ls IH] using rev_ind; intros s s' r q q' H NA Hq Hq'; [injection H as <-; congruence|].
  apply sb_run_snoc in H as (m & Hm & Hs). destruct (step_trace c m l s' Hs) as (es & Et).
  assert (X : exists q1, nth_error (sb_rds m) r = Some q1).
  { apply nth_lt in Hq. assert (L : length (sb_rds s) <= length (sb_rds m)).
    { clear - Hm. revert s Hm. induction ls as [|l ls IH]; intros s H; cbn in H; [injection H as <-; lia|]. destruct (sb_step c s l) as [s1|] eqn:E; [|discriminate].
      specialize (IH s1 H). clear H. step_cases E; injection E as <-; revert IH; proj; rewrite ?set_nth_length, ?app_length; lia. }
    destruct (nth_error (sb_rds m) r) eqn:E; [eauto|]. apply nth_error_None in E. lia. }
  destruct X as (q1 & H1). rewrite (IH s m r q q1); auto; [|rewrite Et in NA; eapply never_attached_app; eauto].
  apply (back_session c m l s' r q1 (rd_sess q') Hs NA); [|assumption]. intros q2 Hq2. congruence.
Qed.
Lemma sr_app P c a b : stream_ranges_in P c (a ++ b) -> stream_ranges_in P c a.
Proof. intros H r g o X. apply (H r g o), in_or_app. now left. Qed.
Lemma sorted_split key a x b y : strictly_ordered key (a ++ b) -> In x a -> In y b -> key_before key x y.
Proof.
  induction a as [|z a IH]; intros SO Hx Hy; [destruct Hx|]. inversion SO as [|? ? S1 F1]; subst. destruct Hx as [->|Hx]; [|now apply IH].
  rewrite Forall_forall in F1. apply F1. rewrite in_app_iff. now right.
Qed.
Lemma after_all key G R k : strictly_ordered key (G ++ R) -> k <= length G -> not_got_yet key G (skipn k (G ++ R)) = R.
Proof.
  intros SO L. unfold not_got_yet. rewrite skipn_app. replace (k - length G) with 0 by lia. rewrite skipn_O, filter_app.
  assert (A : filter (comes_after key G) (skipn k G) = []).
  { assert (N : forall x, In x G -> comes_after key G x = false).
    { destruct G as [|g G _] using rev_ind; [intros x []|]. intros x Hx. unfold comes_after, last_opt. rewrite rev_app_distr. cbn [rev app].
      apply in_app_iff in Hx as [Hx|[<-|[]]].
      - assert (B : key_before key x g). { rewrite <- app_assoc in SO. apply (sorted_split key G x ([g] ++ R) g SO Hx). now left. }
        destruct B as (kx & kg & -> & -> & B). now apply ltb_asym.
      - destruct (key g); [apply ltb_irrefl|reflexivity]. }
    assert (N2 : forall x, In x (skipn k G) -> comes_after key G x = false) by (intros x Hx; apply N; rewrite <- (firstn_skipn k G), in_app_iff; now right).
    clear N. generalize dependent (skipn k G). intro l. intro N. induction l as [|x l IH]; [reflexivity|]. cbn [filter]. rewrite N by now left. apply IH. intros y Hy. apply N. now right. }
  rewrite A. cbn [app].
  assert (T : forall x, In x R -> comes_after key G x = true).
  { intros x Hx. destruct G as [|g G _] using rev_ind; [reflexivity|]. unfold comes_after, last_opt. rewrite rev_app_distr. cbn [rev app].
    destruct (sorted_split key (G ++ [g]) g R x SO) as (kg & kx & -> & -> & B); auto. rewrite in_app_iff. right. now left. }
  clear - T. induction R as [|x R IH]; [reflexivity|]. cbn [filter]. rewrite T by now left. f_equal. apply IH. intros y Hy. apply T. now right.
Qed.

(** ** C103 *)
(** With auto_drop=False and a consumer that only drops what it has already received: the
    reader has received exactly the first accepted items, each once; the buffer holds
    exactly the accepted items that were not dropped; and next(reader) gives the first
    item not received yet. *)
Theorem C103_read_then_drop :
  forall P, total_family P -> forall c ls s, c_auto c <> PBool true -> history c ls s -> orderly c ls ->
  stream_keys_in P c (sb_tr s) -> stream_ranges_in P c (sb_tr s) ->
  forall r q j, nth_error (sb_rds s) r = Some q -> session_of r (sb_tr s) = Some j -> never_attached r (sb_tr s) -> moves_forward r (sb_tr s) -> drops_what_it_got r j (sb_tr s) ->
  strictly_ordered (c_key c) (accepted_by j (sb_tr s)) ->
  exists waiting d, buf_of s j = Some d /\
  accepted_by j (sb_tr s) = received r (sb_tr s) ++ waiting /\
  sd_list d = skipn (dropped j (sb_tr s)) (accepted_by j (sb_tr s)) /\
  forall b, exists s' o,
    sb_step c s (LCallR r (CNext b)) = Some s' /\ sb_tr s' = sb_tr s ++ [ECall r (CNext (ev_set s j)) o] /\
    match waiting with
    | [] => o = if ev_set s j then Raise StopIteration else Ok VNone
    | x :: _ => ((rk_n (rd_r q) <= 1)%Z -> o = Ok (VItem x)) /\
                ((1 < rk_n (rd_r q))%Z -> rk_strict (rd_r q) = false -> o = Ok (VList (firstn (Z.to_nat (rk_n (rd_r q))) waiting)))
    end.
Proof.
  intros P F c ls s A H O KI RI r q j Hq SJ NA MF D SO. apply is_True_f in A.
  pose proof (session_of_history c ls s H r q Hq) as SQ. rewrite SJ in SQ. injection SQ as ->.
  pose proof (drops_keep_up c ls s r _ A H O D) as KU.
  destruct (C75_keeps_up P F c ls s H KI r q Hq NA RI MF KU SO) as (waiting & E).
  destruct (C92_attached_reader_continues P F c ls s H KI r MF) as (_ & _ & X). destruct (X q Hq) as (j & d & SJ' & Hd & N). rewrite SJ in SJ'. injection SJ' as <-.
  exists waiting, d. split; [assumption|]. split; [assumption|].
  assert (B : sd_list d = skipn (dropped (rd_sess q) (sb_tr s)) (accepted_by (rd_sess q) (sb_tr s))).
  { pose proof (kept_history c ls s A H O (rd_sess q)) as K. rewrite Hd in K. rewrite <- K. apply (kept_skipn c ls s _ H). intros pre post m Els Hm. subst ls.
    pose proof H as H'. unfold history in H'. rewrite sb_run_app, Hm in H'. destruct (run_trace c post m s H') as (es & Et).
    pose proof (D _ _ Et) as D1. destruct (nth_error (sb_rds m) r) as [q'|] eqn:Eq.
    - assert (Eqs : rd_sess q' = rd_sess q) by (eapply back_run; eauto). rewrite <- Eqs in *. rewrite Et in *.
      destruct (C75_keeps_up P F c pre m Hm) with (r := r) (q := q') as (w' & E').
      + eapply sk_app; eauto.
      + assumption.
      + eapply never_attached_app; eauto.
      + eapply sr_app; eauto.
      + eapply mf_app; eauto.
      + intros p1 p2 m1 d1 -> Hm1 Hd1. apply (KU p1 (p2 ++ post) m1 d1); auto. now rewrite app_assoc.
      + rewrite acc_app in SO. eapply strictly_ordered_app; eauto.
      + rewrite E', app_length. lia.
    - assert (MF' : moves_forward r (sb_tr m)) by (rewrite Et in MF; eapply mf_app; eauto). assert (KI' : stream_keys_in P c (sb_tr m)) by (rewrite Et in KI; eapply sk_app; eauto).
      destruct (att_history P c pre m F Hm r KI' MF') as [I _]. rewrite Eq in I. rewrite I in D1. cbn [length] in D1. lia. }
  split; [assumption|]. intro b. destruct (N b) as (s' & o & N1 & N2 & N3). exists s', o. split; [assumption|]. split; [assumption|].
  cbn zeta in N3. rewrite B, E, after_all in N3; [assumption|now rewrite <- E|].
  specialize (D (sb_tr s) [] ltac:(now rewrite app_nil_r)). exact D.
Qed.
Print Assumptions C103_read_then_drop.

(** Deciding the consumer's discipline on a given trace. *)
Lemma drops_what_it_got_dec r j tr :
  forallb (fun n => dropped j (firstn n tr) <=? length (received r (firstn n tr))) (seq 0 (S (length tr))) = true -> drops_what_it_got r j tr.
Proof.
  intros H t1 t2 ->. rewrite forallb_forall in H. specialize (H (length t1) ltac:(apply in_seq; rewrite app_length; lia)).
  rewrite firstn_app, Nat.sub_diag, firstn_all in H. cbn [firstn] in H. rewrite app_nil_r in H. now apply Nat.leb_le in H.
Qed.
(** maxlen=2: two items fill the buffer, the thread waits; the consumer reads and drops, the
    thread goes on; five items pass through a buffer of two. *)
Definition consume_hist : list label :=
  starting (PObj 7) ++ [StreamBufferM.LMk 1 false false true] ++ room_round 0 (PInt 1) ++ room_round 0 (PInt 2) ++ [LT 0 (Ok PNone); LT 0 (Ok PNone); LT 0 (Ok PNone); LT 0 (Ok PNone); LIter 0; StreamBufferM.LDrop 1; LDropDo 0]
  ++ room_round 0 (PInt 3) ++ [LIter 0; StreamBufferM.LDrop 1; LDropDo 0] ++ room_round 0 (PInt 4) ++ [LIter 0; StreamBufferM.LDrop 1; LDropDo 0] ++ room_round 0 (PInt 5).
Example C103_nonvacuous :
  let s := end_of cfg_man consume_hist in
  c_auto cfg_man <> PBool true /\ history cfg_man consume_hist s /\ orderly cfg_man consume_hist /\ stream_keys_in is_int cfg_man (sb_tr s) /\ stream_ranges_in is_int cfg_man (sb_tr s) /\
  session_of 0 (sb_tr s) = Some 0 /\ never_attached 0 (sb_tr s) /\ moves_forward 0 (sb_tr s) /\ drops_what_it_got 0 0 (sb_tr s) /\
  strictly_ordered ident (accepted_by 0 (sb_tr s)) /\
  accepted_by 0 (sb_tr s) = [PInt 1; PInt 2; PInt 3; PInt 4; PInt 5] /\ received 0 (sb_tr s) = [PInt 1; PInt 2; PInt 3] /\
  dropped 0 (sb_tr s) = 3.
Proof.
  cbn zeta. split; [discriminate|]. split; [apply history_end; vm_compute; reflexivity|]. split; [apply orderlyb_ok; vm_compute; reflexivity|].
  destruct (ints_keys cfg_man (sb_tr (end_of cfg_man consume_hist)) eq_refl ltac:(vm_compute; reflexivity)) as [K1 K2]. split; [exact K1|]. split; [exact K2|]. clear K1 K2.
  split; [vm_compute; reflexivity|]. split; [apply no_attach_never; vm_compute; reflexivity|]. split; [apply forwardb_spec; vm_compute; reflexivity|].
  split; [apply drops_what_it_got_dec; vm_compute; reflexivity|].
  assert (E : accepted_by 0 (sb_tr (end_of cfg_man consume_hist)) = [PInt 1; PInt 2; PInt 3; PInt 4; PInt 5]) by (vm_compute; reflexivity). rewrite E.
  split; [|split; [reflexivity|split; vm_compute; reflexivity]].
  repeat (constructor; [|repeat (constructor; [do 2 eexists; repeat split; reflexivity|]); constructor]). constructor.
Qed.
