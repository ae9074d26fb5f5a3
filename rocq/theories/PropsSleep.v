(** * Sleep times that [time.sleep] does not take: C117 *)
From Coq Require Import List ZArith QArith Bool Arith Lia.
From Verif Require Import PyVal PyLib PyValFacts SortedDequeM Spec SpecDeque ListFacts DequeFacts DequeSearch
  BufferReaderM BufferSysM LogFacts LogReads StreamBufferM SpecStream StreamFacts StreamLife StreamInv StreamOrderly StreamView StreamReads StreamMore PropsStream PropsStreamRead PropsPartials2 SleepM.
Import ListNotations.
Open Scope nat_scope.

(** ** Specification *)
(** A history of StreamBuffer(source, sleep_time_on_read_none_s=arg) on a source whose attribute
    sleep_time_on_read_none_s is [attr]. *)
Definition napping_history (c : cfg) (arg attr : pyval) (ls : list label) (s : sb) : Prop := z_run c (sleep_time arg attr) sb0 ls = Some s.
(** A number of seconds from 0 to 2^63-1 ns: what [time.sleep] takes. *)
Definition good_seconds (v : pyval) : Prop :=
  (exists b, v = PBool b) \/ (exists z, v = PInt z /\ (0 <= z <= 9223372036)%Z) \/
  (exists q, v = PFloat (FFin q) /\ (0 <= q)%Q /\ (q <= 9223372036854775807 # 1000000000)%Q).

(** ** Lemmas *)
Lemma z_run_app c v a b : forall s, z_run c v s (a ++ b) = match z_run c v s a with Some m => z_run c v m b | None => None end.
Proof. induction a as [|l a IH]; intro s; cbn [app z_run]; [reflexivity|]. destruct (sb_step c s _); [apply IH|reflexivity]. Qed.
Lemma z_ind c v (P : sb -> Prop) : P sb0 -> (forall ls' s l s', history c ls' s -> P s -> sb_step c s (slept v s l) = Some s' -> P s') ->
  forall ls s, z_run c v sb0 ls = Some s -> P s /\ exists ls', history c ls' s.
Proof.
  intros P0 PS ls. induction ls as [|l ls IH] using rev_ind; intros s H; [injection H as <-; split; [exact P0|exists []; reflexivity]|].
  rewrite z_run_app in H. destruct (z_run c v sb0 ls) as [m|] eqn:E; [|discriminate]. cbn [z_run] in H.
  destruct (sb_step c m (slept v m l)) as [m'|] eqn:F; [|discriminate]. injection H as ->. destruct (IH m eq_refl) as (IP & ls' & IH').
  split; [eapply PS; eauto|]. exists (ls' ++ [slept v m l]). unfold history in *. rewrite sb_run_app, IH'. cbn [sb_run]. now rewrite F.
Qed.

(** ** C117 *)
(** What [time.sleep] takes. The default is such a number, so a stream is safe unless it, or
    its source, gives another one. *)
Theorem C117_good_seconds : forall v, numeric v -> (time_sleep v = Ok tt <-> good_seconds v).
Proof.
  intros v [[z ->]|[[x ->]|[b ->]]]; unfold good_seconds; cbn [time_sleep].
  - unfold sleep_secs, longest. split.
    + intro H. right. left. exists z. split; [reflexivity|].
      destruct (Qle_bool (- _) (inject_Z z)) eqn:A; [|discriminate]. destruct (Qle_bool (inject_Z z) _) eqn:B; [|discriminate]. cbn [andb] in H.
      destruct (Qle_bool 0 (inject_Z z)) eqn:C; [|discriminate]. apply Qle_bool_iff in B, C. unfold Qle, inject_Z in *. cbn in *. lia.
    + intros [[b X]|[(y & X & L)|(q & X & _)]]; try discriminate. injection X as <-.
      replace (Qle_bool (- _) (inject_Z z)) with true by (symmetry; apply Qle_bool_iff; unfold Qle, inject_Z; cbn; lia).
      replace (Qle_bool (inject_Z z) _) with true by (symmetry; apply Qle_bool_iff; unfold Qle, inject_Z; cbn; lia). cbn [andb].
      replace (Qle_bool 0 (inject_Z z)) with true by (symmetry; apply Qle_bool_iff; unfold Qle, inject_Z; cbn; lia). reflexivity.
  - destruct x as [| | |q].
    1-3: split; [discriminate|]; intros [[b X]|[(y & X & L)|(q & X & _)]]; discriminate.
    unfold sleep_secs, longest. split.
    + intro H. right. right. exists q. split; [reflexivity|].
      destruct (Qle_bool (- _) q) eqn:A; [|discriminate]. destruct (Qle_bool q _) eqn:B; [|discriminate]. cbn [andb] in H.
      destruct (Qle_bool 0 q) eqn:C; [|discriminate]. apply Qle_bool_iff in B, C. auto.
    + intros [[b X]|[(y & X & L)|(p & X & L1 & L2)]]; try discriminate. injection X as <-.
      replace (Qle_bool (- _) q) with true by (symmetry; apply Qle_bool_iff; eapply Qle_trans; [|exact L1]; unfold Qle; cbn; lia).
      replace (Qle_bool q _) with true by (symmetry; apply Qle_bool_iff; exact L2). cbn [andb].
      replace (Qle_bool 0 q) with true by (symmetry; apply Qle_bool_iff; exact L1). reflexivity.
  - split; [eauto|reflexivity].
Qed.
Print Assumptions C117_good_seconds.
(** Whatever the sleep time, the stream has a history as described before. *)
Theorem C117_still_a_stream : forall c arg attr ls s, napping_history c arg attr ls s -> exists ls', history c ls' s /\ length ls' = length ls.
Proof.
  intros c arg attr ls. unfold napping_history. induction ls as [|l ls IH] using rev_ind; intros s H; [injection H as <-; exists []; split; reflexivity|].
  rewrite z_run_app in H. destruct (z_run c _ sb0 ls) as [m|] eqn:E; [|discriminate]. cbn [z_run] in H.
  destruct (sb_step c m (slept (sleep_time arg attr) m l)) as [m'|] eqn:F; [|discriminate]. injection H as ->. destruct (IH m eq_refl) as (ls' & H' & L).
  exists (ls' ++ [slept (sleep_time arg attr) m l]). split; [|rewrite !app_length; cbn; lia]. unfold history in *. rewrite sb_run_app, H'. cbn [sb_run]. now rewrite F.
Qed.
Print Assumptions C117_still_a_stream.

(** With a sleep time that [time.sleep] takes no sleep fails. *)
Theorem C117_good_sleep_partial :
  forall c arg attr ls s, napping_history c arg attr ls s -> good_seconds (sleep_time arg attr) -> forall i e, ~ In (ENap i e) (sb_tr s).
Proof.
  intros c arg attr ls s H G.
  assert (T : time_sleep (sleep_time arg attr) = Ok tt).
  { apply C117_good_seconds; [|exact G]. destruct G as [[b ->]|[(z & -> & _)|(q & -> & _)]]; unfold numeric; eauto. }
  apply (z_ind c (sleep_time arg attr) (fun s => forall i e, ~ In (ENap i e) (sb_tr s))) in H as [H _]; [exact H|intros i e []|].
  clear s ls H. intros ls' s l s' _ IH H i e X.
  assert (Y : In (ENap i e) (sb_tr s) \/ exists x, slept (sleep_time arg attr) s l = LT i (Raise x) /\ napping s i = true).
  { clear IH. remember (slept (sleep_time arg attr) s l) as m eqn:E. clear E. unfold napping. step_cases H; injection H as <-; in_new X; auto. injection X as X1 X2. subst. right.
    match goal with A : nth_error (sb_ss s) ?k = Some ?q, B : se_pc ?q = TSleep |- _ => rewrite A, B end. eexists. split; reflexivity. }
  destruct Y as [Y|(x & Y & N)]; [exact (IH i e Y)|]. destruct l; try discriminate Y. cbn [slept] in Y. rewrite T in Y.
  destruct (napping s i0) eqn:Q; injection Y as -> Y; [discriminate|congruence].
Qed.
Print Assumptions C117_good_sleep_partial.
(** So then the thread of an orderly stream dies of nothing but an exception of the source's
    read() or of the append; a source that has nothing for a while ends no stream. *)
Theorem C117_quiet_source_partial :
  forall c arg attr ls s, napping_history c arg attr ls s -> good_seconds (sleep_time arg attr) -> c_auto c = PBool true \/ c_maxlen c <> None ->
  forall ls', history c ls' s -> orderly c ls' -> (forall i e, ~ In (ERead i (Raise e)) (sb_tr s)) -> (forall i j x e, ~ In (EAppend i j x (Raise e)) (sb_tr s)) ->
  forall i e, thread_is s i (TDone e) -> e = None.
Proof.
  intros c arg attr ls s H G C ls' H' O NR NA i [e|] D; [|reflexivity]. exfalso.
  destruct (C51_working_configurations_partial c ls' s H' O C i e D) as (x & X & [->|[(j & v & ->)| ->]]); [exact (NR _ _ X)|exact (NA _ _ _ _ X)|].
  exact (C117_good_sleep_partial c arg attr ls s H G _ _ X).
Qed.
Print Assumptions C117_quiet_source_partial.

(** And the read comes: while the stream is running, the thread that sleeps needs at most four
    steps of its own to be in read() again, if auto_drop is on or there is room. *)
Definition room (c : cfg) (s : sb) : Prop :=
  c_auto c = PBool true \/
  (c_auto c = PBool false /\ exists m j d, c_maxlen c = Some m /\ sb_cur s = Some j /\ buf_of s j = Some d /\ (Z.of_nat (sd_len d) < m)%Z).
Lemma set_tpc_frame s i p : running (set_tpc s i p) = running s /\ sb_cur (set_tpc s i p) = sb_cur s /\ sb_tr (set_tpc s i p) = sb_tr s /\
  (forall j, buf_of (set_tpc s i p) j = buf_of s j) /\ (forall j d, len_seen (set_tpc s i p) j d = len_seen s j d) /\
  (forall q, thread_is s i q -> thread_is (set_tpc s i p) i p).
Proof.
  unfold set_tpc, upd_sess. assert (L : forall j, nth_error (upd (sb_ss s) i (fun e => w_pc e p)) j = option_map (fun e => if j =? i then w_pc e p else e) (nth_error (sb_ss s) j)).
  { intro j. destruct (Nat.eqb_spec j i) as [->|N].
    - destruct (nth_error (sb_ss s) i) eqn:E; [now rewrite (upd_same _ _ _ _ E)|]. cbn. apply nth_error_None. rewrite upd_length. now apply nth_error_None.
    - rewrite upd_other by congruence. now destruct (nth_error (sb_ss s) j). }
  split; [|split; [reflexivity|split; [reflexivity|split; [|split; [reflexivity|]]]]].
  - unfold running, latest. proj. rewrite upd_length, L. destruct (nth_error (sb_ss s) _); [cbn|reflexivity]. now destruct (_ =? i).
  - intro j. unfold buf_of. proj. rewrite L. destruct (nth_error (sb_ss s) j); [cbn|reflexivity]. now destruct (_ =? i).
  - intros q (y & Y & _). unfold thread_is. proj. rewrite L, Y, Nat.eqb_refl. cbn. eauto.
Qed.
Lemma z_step c v s i o q s' : thread_is s i q -> q <> TSleep -> thread_step c s i q o = Some s' -> sb_step c s (slept v s (LT i o)) = Some s'.
Proof. intros (y & Y & P) N H. cbn [slept]. unfold napping. rewrite Y, P. destruct q; try congruence; cbn [sb_step]; rewrite Y, P; exact H. Qed.
Theorem C117_reads_again_partial :
  forall c arg attr ls s, napping_history c arg attr ls s -> good_seconds (sleep_time arg attr) ->
  forall i, thread_is s i TSleep -> running s = true -> room c s ->
  exists n, n <= 4 /\ forall os, length os = n -> exists s', napping_history c arg attr (ls ++ map (LT i) os) s' /\ sb_tr s' = sb_tr s /\
  forall o, exists s'', napping_history c arg attr (ls ++ map (LT i) os ++ [LT i o]) s'' /\ sb_tr s'' = sb_tr s ++ [ERead i o].
Proof.
  intros c arg attr ls s H G i T R M. set (v := sleep_time arg attr) in *.
  assert (TS : time_sleep v = Ok tt).
  { apply C117_good_seconds; [|exact G]. destruct G as [[b ->]|[(z & -> & _)|(q & -> & _)]]; unfold numeric; eauto. }
  assert (END : forall ls' s', z_run c v s ls' = Some s' -> thread_is s' i TRead -> sb_tr s' = sb_tr s ->
    exists s', napping_history c arg attr (ls ++ ls') s' /\ sb_tr s' = sb_tr s /\
    forall o, exists s'', napping_history c arg attr (ls ++ ls' ++ [LT i o]) s'' /\ sb_tr s'' = sb_tr s ++ [ERead i o]).
  { intros ls' s' Z D E. exists s'. unfold napping_history in *. fold v in H |- *. rewrite z_run_app, H. split; [exact Z|]. split; [exact E|]. intro o.
    assert (K : exists s'', thread_step c s' i TRead o = Some s'' /\ sb_tr s'' = sb_tr s' ++ [ERead i o]) by (cbn [thread_step]; destruct o; eexists; split; reflexivity).
    destruct K as (s'' & K & E'). exists s''. rewrite z_run_app, H, z_run_app, Z. cbn [z_run]. rewrite (z_step c v s' i o TRead s'' D) by (discriminate || exact K). split; [reflexivity|]. now rewrite E', E. }
  destruct (set_tpc_frame s i TCheck) as (A1 & A2 & A3 & A4 & A5 & A6). set (s1 := set_tpc s i TCheck) in *. specialize (A6 _ T).
  assert (S1 : forall o, sb_step c s (slept v s (LT i o)) = Some s1).
  { intro o. destruct T as (y & Y & P). cbn [slept]. unfold napping. rewrite Y, P, TS. cbn [sb_step]. rewrite Y, P. reflexivity. }
  destruct (set_tpc_frame s1 i TGate) as (B1 & B2 & B3 & B4 & B5 & B6). set (s2 := set_tpc s1 i TGate) in *. specialize (B6 _ A6).
  assert (S2 : forall o, sb_step c s1 (slept v s1 (LT i o)) = Some s2) by (intro o; apply (z_step c v s1 i o TCheck); [exact A6|discriminate|]; cbn [thread_step]; rewrite A1, R; reflexivity).
  destruct M as [M|(M & m & j & d & M1 & M2 & M3 & M4)].
  - destruct (set_tpc_frame s2 i TRead) as (C1 & C2 & C3 & C4 & C5 & C6). set (s3 := set_tpc s2 i TRead) in *. specialize (C6 _ B6).
    assert (S3 : forall o, sb_step c s2 (slept v s2 (LT i o)) = Some s3) by (intro o; apply (z_step c v s2 i o TGate); [exact B6|discriminate|]; cbn [thread_step]; rewrite M; reflexivity).
    exists 3. split; [lia|]. intros [|o1 [|o2 [|o3 [|? ?]]]] L; try discriminate L. apply (END _ s3); [cbn [map z_run]; now rewrite S1, S2, S3|exact C6|congruence].
  - destruct (set_tpc_frame s2 i (TLen j)) as (C1 & C2 & C3 & C4 & C5 & C6). set (s3 := set_tpc s2 i (TLen j)) in *. specialize (C6 _ B6).
    assert (S3 : forall o, sb_step c s2 (slept v s2 (LT i o)) = Some s3) by (intro o; apply (z_step c v s2 i o TGate); [exact B6|discriminate|]; cbn [thread_step]; rewrite M, B2, A2, M2; reflexivity).
    destruct (set_tpc_frame s3 i TRead) as (D1 & D2 & D3 & D4 & D5 & D6). set (s4 := set_tpc s3 i TRead) in *. specialize (D6 _ C6).
    assert (LS : (Z.of_nat (len_seen s j d) <? m)%Z = true).
    { apply Z.ltb_lt. assert (len_seen s j d <= sd_len d) by (unfold len_seen; destruct (dropping s j) as [[? ?]|]; lia). lia. }
    assert (S4 : forall o, sb_step c s3 (slept v s3 (LT i o)) = Some s4).
    { intro o. apply (z_step c v s3 i o (TLen j)); [exact C6|discriminate|]. cbn [thread_step]. rewrite M1, C4, B4, A4, M3, C5, B5, A5, LS. reflexivity. }
    exists 4. split; [lia|]. intros [|o1 [|o2 [|o3 [|o4 [|? ?]]]]] L; try discriminate L. apply (END _ s4); [cbn [map z_run]; now rewrite S1, S2, S3, S4|exact D6|congruence].
Qed.
Print Assumptions C117_reads_again_partial.

(** Refuted: with any other number, a source that once has nothing to give is never read
    again. The thread that read None does not read nor append any more, the exception of
    [time.sleep] ends it, and within five steps of its own it has closed the source. *)
Definition last_part (e : exn) (i : nat) (s : sb) (t : list ev) : Prop :=
  (t = [] /\ thread_is s i TSleep) \/
  (t = [ENap i e] /\ (thread_is s i (TFinCheck (Some e)) \/ thread_is s i (TFinSet (Some e)) \/ thread_is s i (TClose (Some e)))) \/
  (exists u, t = [ENap i e; EClose i u] /\ thread_is s i (TDone (Some e))).
Lemma last_part_all c v e ls s i : time_sleep v = Raise e -> z_run c v sb0 ls = Some s ->
  forall t1 t2, thread_events i (sb_tr s) = t1 ++ ERead i (Ok PNone) :: t2 -> last_part e i s t2.
Proof.
  intros T H. apply (z_ind c v (fun s => forall t1 t2, thread_events i (sb_tr s) = t1 ++ ERead i (Ok PNone) :: t2 -> last_part e i s t2)) in H as [H _]; [exact H|intros [|? ?] t2 X; discriminate|].
  clear s ls H. intros ls' s l s' Hh IH H t1 t2 X.
  assert (D : (exists o, slept v s l = LT i o) \/ forall o, slept v s l <> LT i o) by (destruct (slept v s l); try (right; discriminate); destruct (Nat.eq_dec i0 i) as [->|N]; [eauto|right; intros o' E; congruence]).
  destruct D as [(o & D)|D].
  2:{ rewrite (step_other_events c s _ s' i H D) in X. specialize (IH _ _ X).
      assert (K : forall p, p <> TNew -> thread_is s i p -> thread_is s' i p).
      { intros p NP (y & Y & P). destruct (step_frame c s _ s' H i y Y) as (y' & Y' & Q & _). exists y'. split; [exact Y'|].
        destruct Q as [Q|[[o Q]|(SS & -> & _ & _)]]; [congruence|elim (D o Q)|]. pose proof (si_new _ (sinv_history c ls' s Hh)) as Z. rewrite SS in Z. destruct Z as (z & Z1 & Z2). congruence. }
      destruct IH as [[A B]|[[A B]|(u & A & B)]]; [left|right; left|right; right; exists u]; (split; [exact A|]); [apply K; [discriminate|exact B]| |apply K; [discriminate|exact B]].
      destruct B as [B|[B|B]]; apply K in B; auto; discriminate. }
  assert (NAP : thread_is s i TSleep -> o = Raise e).
  { intros (y & Y & P). destruct l as [| | | | | | | | | | | | | |k o']; try discriminate D. cbn [slept] in D. unfold napping in D.
    assert (k = i) by (destruct (match nth_error _ _ with Some _ => _ | None => _ end); injection D; auto). subst k. rewrite Y, P, T in D. now injection D as <-. }
  rewrite D in H. clear D. cbn in H. destruct (nth_error (sb_ss s) i) as [y|] eqn:Ey; [|discriminate].
  assert (K : forall s1 p, (exists z, nth_error (sb_ss s1) i = Some z) -> thread_is (set_tpc s1 i p) i p).
  { intros s1 p [z Z]. unfold thread_is, set_tpc. proj. rewrite (upd_same _ _ _ _ Z). eauto. }
  assert (OLD : forall t3, thread_events i (sb_tr s) = t1 ++ ERead i (Ok PNone) :: t3 ->
     (t3 = [] /\ se_pc y = TSleep) \/ (t3 = [ENap i e] /\ (se_pc y = TFinCheck (Some e) \/ se_pc y = TFinSet (Some e) \/ se_pc y = TClose (Some e))) \/ exists u, t3 = [ENap i e; EClose i u] /\ se_pc y = TDone (Some e)).
  { intros t3 X3. assert (U : forall p, thread_is s i p -> se_pc y = p) by (intros p (z & Z & P); congruence).
    destruct (IH _ _ X3) as [[A B]|[[A [B|[B|B]]]|(u & A & B)]]; apply U in B; eauto 10. }
  assert (SAME : thread_events i (sb_tr s') = thread_events i (sb_tr s) -> last_part e i s' t2 \/ thread_events i (sb_tr s) = t1 ++ ERead i (Ok PNone) :: t2) by (intro Q; right; now rewrite <- Q).
  assert (NEW : forall z, thread_events i (sb_tr s') = thread_events i (sb_tr s) ++ [z] -> (t2 = [] /\ z = ERead i (Ok PNone)) \/ exists t3, t2 = t3 ++ [z] /\ thread_events i (sb_tr s) = t1 ++ ERead i (Ok PNone) :: t3).
  { intros z Q. rewrite Q in X. destruct (snoc_split _ _ _ _ _ X) as [(A & _ & B)|(t3 & A & B)]; [left; auto|right; exists t3; split; [exact A|exact B]]. }
  assert (EV : (thread_events i (sb_tr s') = thread_events i (sb_tr s) /\ (se_pc y = TSleep -> False) /\ (forall x, se_pc y = TFinCheck x -> thread_is s' i (TFinSet x) \/ thread_is s' i (TClose x)) /\ (forall x, se_pc y = TFinSet x -> thread_is s' i (TClose x)) /\ (forall x, se_pc y <> TClose x)) \/
    (exists z, thread_events i (sb_tr s') = thread_events i (sb_tr s) ++ [z] /\ (z = ERead i (Ok PNone) -> thread_is s' i TSleep) /\
       (se_pc y = TSleep -> z = ENap i e /\ thread_is s' i (TFinCheck (Some e))) /\ (forall x, se_pc y = TClose x -> exists u, z = EClose i u /\ thread_is s' i (TDone x)) /\
       (forall x, se_pc y <> TFinCheck x) /\ (forall x, se_pc y <> TFinSet x))).
  { clear X IH OLD SAME NEW. unfold thread_step in H. assert (Hy : exists z, nth_error (sb_ss s) i = Some z) by eauto.
    assert (HL : forall s1 b, (exists z, nth_error (sb_ss s1) i = Some z) -> exists z, nth_error (sb_ss (StreamBufferM.log s1 b)) i = Some z) by (intros s1 b Z; exact Z).
    assert (HU : forall n f, exists z, nth_error (upd (sb_ss s) n f) i = Some z) by (intros n f; rewrite nth_upd, Ey; destruct (Nat.eqb n i); cbn; eauto).
    destruct (se_pc y) eqn:Ep; try discriminate H; cbn zeta in H.
    - injection H as <-. left. split; [reflexivity|]. split; [discriminate|]. split; [discriminate|]. split; discriminate.
    - destruct (is_True (c_auto c)); [injection H as <-; left; split; [reflexivity|]; split; [discriminate|]; split; [discriminate|]; split; discriminate|].
      destruct (sb_cur s); injection H as <-; [left; split; [reflexivity|]; split; [discriminate|]; split; [discriminate|]; split; discriminate|].
      right. eexists. unfold set_tpc at 1; proj. rewrite te_snoc; cbn [by_thread]; rewrite Nat.eqb_refl. split; [reflexivity|]. split; [discriminate|]. split; [discriminate|]. split; [discriminate|]. split; discriminate.
    - destruct (c_maxlen c).
      + destruct (buf_of s j); [|discriminate]. injection H as <-. left; split; [reflexivity|]; split; [discriminate|]; split; [discriminate|]; split; discriminate.
      + injection H as <-. right. eexists. unfold set_tpc at 1; proj. rewrite te_snoc; cbn [by_thread]; rewrite Nat.eqb_refl. split; [reflexivity|]. split; [discriminate|]. split; [discriminate|]. split; [discriminate|]. split; discriminate.
    - destruct o as [v0|x]; injection H as <-; right; eexists; unfold set_tpc at 1; proj; rewrite te_snoc; cbn [by_thread]; rewrite Nat.eqb_refl; (split; [reflexivity|]); (split; [|split; [discriminate|]; split; [discriminate|]; split; discriminate]).
      + intro Q. injection Q as ->. apply K; exact Hy.
      + discriminate.
    - destruct (sb_cur s); injection H as <-; [left; split; [reflexivity|]; split; [discriminate|]; split; [discriminate|]; split; discriminate|].
      right. eexists. unfold set_tpc at 1; proj. rewrite te_snoc; cbn [by_thread]; rewrite Nat.eqb_refl. split; [reflexivity|]. split; [discriminate|]. split; [discriminate|]. split; [discriminate|]. split; discriminate.
    - destruct (dropping s j); [discriminate|]. destruct (buf_of s j) as [d|]; [|discriminate]. destruct (sd_append d x) as [d' u]. injection H as <-.
      right. eexists. unfold set_tpc at 1; proj. rewrite te_snoc; cbn [by_thread]; rewrite Nat.eqb_refl. split; [reflexivity|]. split; [discriminate|]. split; [discriminate|]. split; [discriminate|]. split; discriminate.
    - rewrite (NAP ltac:(exists y; auto)) in H. injection H as <-. right. eexists. unfold set_tpc at 1; proj. rewrite te_snoc; cbn [by_thread]; rewrite Nat.eqb_refl. split; [reflexivity|]. split; [discriminate|].
      split; [intros _; split; [reflexivity|apply K; exact Hy]|]. split; [discriminate|]. split; discriminate.
    - injection H as <-. left. split; [reflexivity|]. split; [discriminate|]. split; [|split; discriminate]. intros x Q. injection Q as ->. destruct (running s); [left|right]; apply K; exact Hy.
    - injection H as <-. left. split; [reflexivity|]. split; [discriminate|]. split; [discriminate|]. split; [|discriminate]. intros x Q. injection Q as ->. apply K. unfold do_stop. proj. apply HU.
    - injection H as <-. right. eexists. unfold set_tpc at 1; proj. rewrite te_snoc; cbn [by_thread]; rewrite Nat.eqb_refl. split; [reflexivity|]. split; [discriminate|]. split; [discriminate|]. split; [|split; discriminate].
      intros x Q. injection Q as ->. eexists. split; [reflexivity|]. apply K; exact Hy. }
  destruct EV as [(Q & A1 & A2 & A3 & A4)|(z & Q & B1 & B2 & B3 & B4 & B5)].
  - rewrite Q in X. destruct (OLD _ X) as [[-> P]|[[-> [P|[P|P]]]|(u & -> & P)]].
    + elim (A1 P).
    + right. left. split; [reflexivity|]. destruct (A2 _ P); auto.
    + right. left. split; [reflexivity|]. auto.
    + elim (A4 _ P).
    + exfalso. unfold thread_step in H. rewrite P in H. discriminate.
  - destruct (NEW z Q) as [[-> ->]|(t3 & -> & X3)]; [left; auto|]. destruct (OLD _ X3) as [[-> P]|[[-> [P|[P|P]]]|(u & -> & P)]].
    + destruct (B2 P) as [-> P']. right. left. auto.
    + elim (B4 _ P).
    + elim (B5 _ P).
    + destruct (B3 _ P) as (u & -> & P'). right. right. exists u. auto.
    + exfalso. unfold thread_step in H. rewrite P in H. discriminate.
Qed.
Theorem C117_bad_sleep_refuted :
  forall c arg attr ls s, napping_history c arg attr ls s -> numeric (sleep_time arg attr) -> ~ good_seconds (sleep_time arg attr) ->
  forall i t1 t2, sb_tr s = t1 ++ ERead i (Ok PNone) :: t2 ->
  exists e, (thread_events i t2 = [] \/ thread_events i t2 = [ENap i e] \/ exists u, thread_events i t2 = [ENap i e; EClose i u]) /\
  (thread_events i t2 = [] -> alive s i /\ forall o, exists s', sb_step c s (slept (sleep_time arg attr) s (LT i o)) = Some s' /\ sb_tr s' = sb_tr s ++ [ENap i e]).
Proof.
  intros c arg attr ls s H N G i t1 t2 X. destruct (time_sleep (sleep_time arg attr)) as [[]|e] eqn:T; [elim G; now apply C117_good_seconds|]. exists e.
  assert (TE : thread_events i (sb_tr s) = thread_events i t1 ++ ERead i (Ok PNone) :: thread_events i t2).
  { rewrite X. unfold thread_events. rewrite filter_app. cbn. now rewrite Nat.eqb_refl. }
  pose proof (last_part_all c _ e ls s i T H _ _ TE) as [[A (y & Y & P)]|[[A B]|(u & A & B)]]; rewrite A.
  - split; [now left|]. intros _. split; [exists TSleep; split; [exists y; auto|exact Logic.I]|]. intro o. cbn [slept]. unfold napping. rewrite Y, P, T. cbn [sb_step]. rewrite Y, P. eexists. split; [reflexivity|]. reflexivity.
  - split; [auto|discriminate].
  - split; [eauto|discriminate].
Qed.
Print Assumptions C117_bad_sleep_refuted.

(** Non-vacuity: a sleep time of -1, and None after one item. *)
Definition quiet : list label :=
  starting (PObj 7) ++ round 0 (PInt 5) ++ repeat (LT 0 (Ok PNone)) 3.
Example C117_bad_nonvacuous :
  exists s, napping_history cfg3 (PInt (-1)) PNone quiet s /\ numeric (sleep_time (PInt (-1)) PNone) /\ ~ good_seconds (sleep_time (PInt (-1)) PNone) /\
    sb_tr s = [EOpen 0 (Ok tt); EBuilt 0 (PObj 7); EStarted 0; ERead 0 (Ok (PInt 5)); EAppend 0 0 (PInt 5) (Ok tt)] ++ ERead 0 (Ok PNone) :: [].
Proof.
  eexists. split; [vm_compute; reflexivity|]. split; [left; exists (-1)%Z; reflexivity|]. split; [|vm_compute; reflexivity].
  intros [[b X]|[(z & X & L)|(q & X & _)]]; cbn in X; try discriminate. injection X as <-. lia.
Qed.
(** The default, and the same source with a number it takes. *)
Example C117_good_nonvacuous :
  (exists s, napping_history cfg3 PNone PNone (quiet ++ repeat (LT 0 (Raise KeyError)) 3 ++ [LT 0 (Ok (PInt 6))]) s /\ data_read 0 (sb_tr s) = [PInt 5; PInt 6]) /\
  good_seconds (sleep_time PNone PNone).
Proof.
  split; [eexists; split; vm_compute; reflexivity|]. right. right. eexists. split; [reflexivity|]. split; unfold Qle; cbn; lia.
Qed.
Example C117_reads_again_nonvacuous :
  exists s, napping_history cfg3 PNone (PInt 2) quiet s /\ good_seconds (sleep_time PNone (PInt 2)) /\ thread_is s 0 TSleep /\ running s = true /\ room cfg3 s.
Proof.
  eexists. split; [vm_compute; reflexivity|]. split; [right; left; exists 2%Z; split; [reflexivity|lia]|].
  split; [eexists; split; reflexivity|]. split; [reflexivity|]. left. reflexivity.
Qed.

(** Refuted for sources that always have something, too: with [auto_drop=False] the thread
    sleeps when the buffer is full, and with a sleep time that [time.sleep] does not take the
    stream is then over, though nobody has stopped it. *)
Definition man_round (v : pyval) : list label := repeat (LT 0 (Ok v)) 6.
Definition filled : list label :=
  starting (PObj 7) ++ man_round (PInt 1) ++ man_round (PInt 2) ++ man_round (PInt 3) ++ repeat (LT 0 (Ok (PInt 4))) 7.
Lemma z_run_ext c v w : time_sleep v = time_sleep w -> forall ls s, z_run c v s ls = z_run c w s ls.
Proof.
  intro E. induction ls as [|l ls IH]; intro s; [reflexivity|]. cbn [z_run].
  replace (slept v s l) with (slept w s l) by (destruct l; try reflexivity; cbn [slept]; now rewrite E). destruct (sb_step c s _); [apply IH|reflexivity].
Qed.
Lemma bad_kinds v e : numeric v -> time_sleep v = Raise e -> e = ValueError \/ e = overflow_error.
Proof.
  assert (K : forall q, sleep_secs q = Raise e -> e = ValueError \/ e = overflow_error).
  { intro q. unfold sleep_secs. destruct (_ && _); [destruct (Qle_bool 0 q)|]; intro X; try discriminate X; injection X; auto. }
  intros [[z ->]|[[x ->]|[b ->]]] T; cbn [time_sleep] in T; [eauto| |discriminate]. destruct x as [| | |q]; try (injection T; auto); eauto.
Qed.
Theorem C117_full_buffer_refuted :
  forall arg attr, numeric (sleep_time arg attr) -> ~ good_seconds (sleep_time arg attr) ->
  exists s e, napping_history cfg3_man arg attr filled s /\ thread_is s 0 (TDone (Some e)) /\ sb_tr s =
    [EOpen 0 (Ok tt); EBuilt 0 (PObj 7); EStarted 0; ERead 0 (Ok (PInt 1)); EAppend 0 0 (PInt 1) (Ok tt); ERead 0 (Ok (PInt 2)); EAppend 0 0 (PInt 2) (Ok tt);
     ERead 0 (Ok (PInt 3)); EAppend 0 0 (PInt 3) (Ok tt); ENap 0 e; EClose 0 (Ok tt)].
Proof.
  intros arg attr N G. unfold napping_history. destruct (time_sleep (sleep_time arg attr)) as [[]|e] eqn:T; [elim G; now apply C117_good_seconds|].
  destruct (bad_kinds _ e N T) as [-> | ->].
  - assert (E : time_sleep (sleep_time arg attr) = time_sleep (PInt (-1))) by (rewrite T; reflexivity).
    eexists. exists ValueError. split; [rewrite (z_run_ext _ _ _ E); vm_compute; reflexivity|]. split; [eexists; split; reflexivity|reflexivity].
  - assert (E : time_sleep (sleep_time arg attr) = time_sleep (PInt 10000000000)) by (rewrite T; reflexivity).
    eexists. exists overflow_error. split; [rewrite (z_run_ext _ _ _ E); vm_compute; reflexivity|]. split; [eexists; split; reflexivity|reflexivity].
Qed.
Print Assumptions C117_full_buffer_refuted.
