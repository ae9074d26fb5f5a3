(** * Streams on concrete sources: C57, C58, C59, C66 *)
From Coq Require Import List ZArith QArith Bool Arith Lia Sorting.Sorted.
From Verif Require Import PyVal PyLib PyValFacts SortedDequeM Spec SpecDeque SpecReader SpecLog ListFacts BisectFacts Families DequeFacts DequeSearch
  BufferReaderM BufferSysM LogFacts LogReads LogKeepUp PropsLog StreamBufferM SpecStream StreamFacts StreamInv StreamLife StreamOrderly StreamView StreamReads PropsStreamRead PropsStream StreamSuffix
  StreamSourceM PropsSource SourcesM SpecSources SourcesFacts.
Import ListNotations.
Open Scope nat_scope.

Lemma int_lt a b : (a < b)%Z -> py_lt (PInt a) (PInt b) = Ok true /\ py_eq (PInt a) (PInt b) = false.
Proof.
  intro L. assert (Q : (inject_Z a < inject_Z b)%Q) by (now rewrite <- Zlt_Qlt). cbn. unfold Qlt_bool. split.
  - f_equal. apply negb_true_iff. destruct (Qle_bool _ _) eqn:E; [|reflexivity]. apply Qle_bool_iff in E. exfalso. eapply Qlt_not_le; eauto.
  - destruct (Qeq_bool _ _) eqn:E; [|reflexivity]. apply Qeq_bool_iff in E. exfalso. rewrite E in Q. eapply Qlt_irrefl; eauto.
Qed.
(** The last item of the statements C57 and C66: what has been read is in the buffer, except
    for the value that the thread is about to append. *)
Lemma read_in_hand c ls s i : history c ls s -> orderly c ls -> (forall i j x o, In (EAppend i j x o) (sb_tr s) -> o = Ok tt) ->
  exists rest, data_read i (sb_tr s) = accepted_by i (sb_tr s) ++ rest /\ (rest = [] \/ exists v, rest = [v] /\ in_hand s i v).
Proof.
  intros H O NF. destruct (C41_read_order c ls s H i) as [(rest & E & R) _]. destruct (C41_own_buffer c ls s H O i) as (AO & _ & NB).
  exists rest. rewrite <- AO. split; [assumption|]. destruct R as [R|[R|(v & e & R & [[j X]|X])]]; auto.
  - specialize (NF _ _ _ _ X). discriminate.
  - now elim NB.
Qed.

(** ** C57 *)
Lemma combine_snoc {A B} (a : list A) (b : list B) x y : length a = length b -> combine (a ++ [x]) (b ++ [y]) = combine a b ++ [(x, y)].
Proof. revert b. induction a as [|z a IH]; intros [|w b] L; try discriminate; cbn; [reflexivity|]. rewrite IH; auto. Qed.
Lemma enumerated_snoc ds d : enumerated (ds ++ [d]) = enumerated ds ++ [PTuple [PInt (Z.of_nat (length ds)); d]].
Proof. unfold enumerated. rewrite app_length. cbn. rewrite Nat.add_1_r, seq_S, combine_snoc by apply seq_length. now rewrite map_app. Qed.
Lemma enumerated_in x ds : In x (enumerated ds) -> exists n d, x = PTuple [PInt (Z.of_nat n); d] /\ n < length ds.
Proof.
  unfold enumerated. intro X. apply in_map_iff in X as ([n d] & <- & X). exists n, d. split; [reflexivity|]. apply in_combine_l in X. apply in_seq in X. lia.
Qed.
Lemma ss_snoc (key : pyval -> res pyval) l x : strictly_ordered key l -> (forall y, In y l -> key_before key y x) -> strictly_ordered key (l ++ [x]).
Proof.
  unfold strictly_ordered. induction 1 as [|z l S IH F]; intro A; cbn; [repeat constructor|]. constructor; [apply IH; intros; apply A; now right|].
  apply Forall_app. split; [assumption|]. constructor; [|constructor]. apply A. now left.
Qed.
Lemma enumerated_ordered ds : strictly_ordered ident (enumerated ds).
Proof.
  induction ds as [|d ds IH] using rev_ind; [constructor|]. rewrite enumerated_snoc. apply ss_snoc; [assumption|].
  intros y Hy. apply enumerated_in in Hy as (n & e & -> & L). do 2 eexists. split; [reflexivity|]. split; [reflexivity|]. apply ltb_true.
  rewrite pair_lt2. destruct (int_lt (Z.of_nat n) (Z.of_nat (length ds))) as [-> ->]; [lia|reflexivity].
Qed.
Lemma sip_app en a e1 e2 rs b : simp_plays en a (e1 ++ e2) rs b -> exists m rs1 rs2, rs = rs1 ++ rs2 /\ simp_plays en a e1 rs1 m /\ simp_plays en m e2 rs2 b.
Proof.
  revert a rs. induction e1 as [|e e1 IH]; intros a rs H; cbn [app] in H; [exists a, [], rs; repeat split; [constructor|assumption]|].
  inversion H; subst; match goal with X : simp_plays _ _ (e1 ++ e2) _ _ |- _ => apply IH in X as (m & rs1 & rs2 & -> & X1 & X2) end;
    [exists m, rs1, rs2|exists m, ((i, r) :: rs1), rs2|exists m, rs1, rs2]; (split; [reflexivity|]); (split; [econstructor; eassumption|assumption]).
Qed.
Lemma returned_app i a b : returned i (a ++ b) = returned i a ++ returned i b.
Proof. apply flat_map_app. Qed.
Lemma sip_session en t x : sproper t x -> forall rs b, simp_plays en 0 t rs b ->
  (forall i, data_of (reads_of i t) = if en then enumerated (returned i rs) else filter not_none (returned i rs)) /\
  (forall i, reads_of i t = [] -> returned i rs = []) /\
  (en = true -> forall i, x = Some i -> b = Z.of_nat (length (returned i rs))).
Proof.
  induction 1; intros rs b P; try (apply sip_app in P as (m & rs1 & rs2 & -> & P1 & P2); specialize (IHsproper rs1 m P1); destruct IHsproper as (A & B & C);
    inversion P2; subst; match goal with X : simp_plays _ _ [] _ _ |- _ => inversion X; subst end; rewrite ?app_nil_r).
  - inversion P; subst. split; [intro i; destruct en; reflexivity|]. split; [reflexivity|discriminate].
  - split; [|split; [|discriminate]]; intro j; rewrite reads_app; cbn; rewrite app_nil_r; auto.
  - split; [|split; [intro j; rewrite reads_app; cbn; rewrite app_nil_r; auto|]].
    + intro j; rewrite reads_app; cbn; rewrite app_nil_r; auto.
    + intros _ j E. injection E as <-. rewrite (B i H0). match goal with X : simp_open _ _ = _ |- _ => injection X as <- _ end. reflexivity.
  - destruct (IHsproper rs b P) as (A & B & _). split; [exact A|]. split; [exact B|discriminate].
  - split; [|split].
    + intro j. rewrite reads_app, data_of_app, returned_app, A. cbn [reads_of flat_map returned fst snd]. rewrite !app_nil_r.
      destruct (Nat.eqb_spec i j) as [<-|N].
      * destruct r as [d|e]; match goal with X : simp_read _ _ _ = _ |- _ => injection X as <- <- end; destruct en; cbn; rewrite ?app_nil_r; try reflexivity.
        -- rewrite enumerated_snoc, (C eq_refl i eq_refl). reflexivity.
        -- rewrite filter_app. f_equal. destruct d; reflexivity.
      * assert (Z0 : match r with Ok _ => [] | Raise _ => [] end = @nil pyval) by (now destruct r). rewrite Z0. cbn. rewrite !app_nil_r. reflexivity.
    + intros j E. rewrite reads_app in E. apply app_eq_nil in E as [E1 E2]. rewrite returned_app, (B j E1). cbn in *. destruct (Nat.eqb i j); [discriminate|]. now destruct r.
    + intros -> j E. injection E as <-. rewrite returned_app, app_length. cbn. rewrite Nat.eqb_refl, app_nil_r.
      destruct r as [d|e]; match goal with X : simp_read _ _ _ = _ |- _ => injection X as <- _ end; rewrite (C eq_refl i eq_refl); cbn; lia.
  - split; [|split; [|discriminate]]; intro j; rewrite reads_app; cbn; rewrite app_nil_r; auto.
Qed.
Lemma made_reads en key maxlen auto ls s rs : made_stream en key maxlen auto ls s rs ->
  forall i, data_read i (sb_tr s) = if en then enumerated (returned i rs) else filter not_none (returned i rs).
Proof.
  intros (H & O & x & P) i. destruct (sip_session en _ _ (sproper_history _ ls s H O) rs x P) as (A & _). rewrite data_of_reads, <- reads_source. apply A.
Qed.
(** mk_stream_buffer(read_stream, ...) with enumerate_data=True and key=None: no append ever
    raises; what read_stream() returned to the thread of a session, d0, d1, ..., is on that
    session's buffer as (0, d0), (1, d1), ..., up to one that the thread is about to append. *)
Theorem C57_enumerated_never_rejected :
  forall maxlen auto ls s rs, made_stream true None maxlen auto ls s rs ->
  (forall i j x o, In (EAppend i j x o) (sb_tr s) -> o = Ok tt) /\
  (forall i, exists rest, enumerated (returned i rs) = accepted_by i (sb_tr s) ++ rest /\
     (rest = [] \/ exists v, rest = [v] /\ in_hand s i v)).
Proof.
  intros maxlen auto ls s rs M. pose proof (made_reads _ _ _ _ ls s rs M) as E. cbn iota in E. destruct M as (H & O & _).
  assert (NF : forall i j x o, In (EAppend i j x o) (sb_tr s) -> o = Ok tt).
  { apply (increasing_appends _ ls s H O).
    - intro i. rewrite E. apply enumerated_ordered.
    - intros i x _. exists x. reflexivity. }
  split; [assumption|]. intro i. destruct (read_in_hand _ ls s i H O NF) as (rest & R1 & R2). exists rest. rewrite <- E. auto.
Qed.
Print Assumptions C57_enumerated_never_rejected.
(** None, a string, NaN, None again: nothing of it could be ordered; two sessions. *)
Definition enum_hist : list label :=
  starting (PObj 7) ++ round 0 (PTuple [PInt 0; PNone]) ++ round 0 (PTuple [PInt 1; PStr [5%Z]]) ++ round 0 (PTuple [PInt 2; PFloat FNaN]) ++ [LStop; LT 0 (Ok PNone); LT 0 (Ok PNone); LT 0 (Ok PNone)]
  ++ starting (PObj 7) ++ round 1 (PTuple [PInt 0; PFloat FNaN]).
Definition enum_calls : list (nat * res pyval) := [(0, Ok PNone); (0, Ok (PStr [5%Z])); (0, Ok (PFloat FNaN)); (1, Ok (PFloat FNaN))].
Example C57_nonvacuous :
  let s := end_of (simp_cfg None (Some 2%Z) (PBool true)) enum_hist in
  made_stream true None (Some 2%Z) (PBool true) enum_hist s enum_calls /\ accepted_by 0 (sb_tr s) = enumerated [PNone; PStr [5%Z]; PFloat FNaN] /\
  accepted_by 1 (sb_tr s) = enumerated [PFloat FNaN].
Proof.
  cbn zeta. split; [|split; vm_compute; reflexivity]. split; [apply history_end; vm_compute; reflexivity|]. split; [apply orderlyb_ok; vm_compute; reflexivity|].
  exists 1%Z. assert (E : source_events (sb_tr (end_of (simp_cfg None (Some 2%Z) (PBool true)) enum_hist)) =
    [EOpen 0 (Ok tt); ERead 0 (Ok (PTuple [PInt 0; PNone])); ERead 0 (Ok (PTuple [PInt 1; PStr [5%Z]])); ERead 0 (Ok (PTuple [PInt 2; PFloat FNaN])); EClose 0 (Ok tt);
     EOpen 1 (Ok tt); ERead 1 (Ok (PTuple [PInt 0; PFloat FNaN]))]) by (vm_compute; reflexivity). rewrite E. clear E. unfold enum_calls.
  eapply sip_open with (o := Ok tt); [reflexivity|]. do 3 (eapply sip_read; [reflexivity|]). eapply sip_close with (o := Ok tt); [reflexivity|].
  eapply sip_open with (o := Ok tt); [reflexivity|]. eapply sip_read; [reflexivity|]. apply sip_nil.
Qed.

(** ** C58 *)
(** With enumerate_data=False, whatever the key: what read_stream() returned to a thread,
    without the Nones, is what that thread appended, in order, up to one that it is about to
    append or whose append failed and ended the thread; and None is never passed to append. *)
Theorem C58_none_is_no_data_partial :
  forall key maxlen auto ls s rs, made_stream false key maxlen auto ls s rs ->
  (forall i, exists rest, filter not_none (returned i rs) = appended_ok i (sb_tr s) ++ rest /\
     (rest = [] \/ (exists v, rest = [v] /\ in_hand s i v) \/ exists v e, rest = [v] /\ excused i (sb_tr s) e v)) /\
  (forall i j x o, In (EAppend i j x o) (sb_tr s) -> x <> PNone).
Proof.
  intros key maxlen auto ls s rs M. pose proof (made_reads _ _ _ _ ls s rs M) as E. cbn iota in E. destruct M as (H & O & _).
  split; [|intros i; apply (C41_read_order _ ls s H i)]. intro i. rewrite <- E. apply (C41_read_order _ ls s H i).
Qed.
Print Assumptions C58_none_is_no_data_partial.
Definition none_hist : list label :=
  starting (PObj 7) ++ [LT 0 (Ok PNone); LT 0 (Ok PNone); LT 0 (Ok PNone); LT 0 (Ok PNone)] ++ round 0 (PInt 4) ++ round 0 (PInt 6).
Definition none_calls : list (nat * res pyval) := [(0, Ok PNone); (0, Ok (PInt 4)); (0, Ok (PInt 6))].
Example C58_nonvacuous :
  let s := end_of (simp_cfg None (Some 2%Z) (PBool true)) none_hist in
  made_stream false None (Some 2%Z) (PBool true) none_hist s none_calls /\ appended_ok 0 (sb_tr s) = [PInt 4; PInt 6] /\ filter not_none (returned 0 none_calls) = [PInt 4; PInt 6].
Proof.
  cbn zeta. split; [|split; vm_compute; reflexivity]. split; [apply history_end; vm_compute; reflexivity|]. split; [apply orderlyb_ok; vm_compute; reflexivity|].
  exists 3%Z. assert (E : source_events (sb_tr (end_of (simp_cfg None (Some 2%Z) (PBool true)) none_hist)) =
    [EOpen 0 (Ok tt); ERead 0 (Ok PNone); ERead 0 (Ok (PInt 4)); ERead 0 (Ok (PInt 6))]) by (vm_compute; reflexivity). rewrite E. clear E. unfold none_calls.
  eapply sip_open with (o := Ok tt); [reflexivity|]. do 3 (eapply sip_read; [reflexivity|]). apply sip_nil.
Qed.
(** With the default enumerate_data=True every None that read_stream() returns is put on the
    buffer, as (index, None): here read_stream() returned nothing but None. *)
Theorem C58_enumerated_none_refuted :
  exists ls s rs, made_stream true None (Some 100%Z) (PBool true) ls s rs /\
  returned 0 rs = [PNone; PNone] /\ accepted_by 0 (sb_tr s) = [PTuple [PInt 0; PNone]; PTuple [PInt 1; PNone]].
Proof.
  pose (ls := starting (PObj 7) ++ round 0 (PTuple [PInt 0; PNone]) ++ round 0 (PTuple [PInt 1; PNone])).
  pose (c := simp_cfg None (Some 100%Z) (PBool true)). exists ls, (end_of c ls), [(0, Ok PNone); (0, Ok PNone)].
  split; [|split; vm_compute; reflexivity].
  split; [apply history_end; vm_compute; reflexivity|]. split; [apply orderlyb_ok; vm_compute; reflexivity|]. exists 2%Z.
  assert (E : source_events (sb_tr (end_of c ls)) = [EOpen 0 (Ok tt); ERead 0 (Ok (PTuple [PInt 0; PNone])); ERead 0 (Ok (PTuple [PInt 1; PNone]))]) by (vm_compute; reflexivity).
  rewrite E. clear E.
  eapply sip_open with (o := Ok tt); [reflexivity|]. do 2 (eapply sip_read; [reflexivity|]). apply sip_nil.
Qed.
Print Assumptions C58_enumerated_none_refuted.

(** ** C59 *)
Lemma finally_stop_spec c s : 0 < length (sb_ss s) -> exists s', finally_stop c s = (s', None) /\ sb_tr s' = sb_tr s ++ [EStop (Ok (latest s'))] /\ ev_set s' (latest s') = true.
Proof.
  intro L. unfold finally_stop. cbn [sb_step]. destruct (Nat.eqb_spec (length (sb_ss s)) 0); [lia|]. eexists. split; [proj; rewrite last_last; reflexivity|].
  unfold latest, ev_set. proj. rewrite upd_length. split; [reflexivity|]. rewrite nth_upd. fold (latest s). rewrite Nat.eqb_refl.
  destruct (nth_error (sb_ss s) (latest s)) eqn:E; [reflexivity|]. apply nth_error_None in E. unfold latest in E. lia.
Qed.
(** However the with statement ends, the last thing that happened is stop(), and the stop
    event of the latest session is set. *)
Theorem C59_always_stopped :
  forall c o info ls body s r, with_simply c o info ls body = Some (s, r) ->
  (exists t, sb_tr s = t ++ [EStop (Ok (latest s))]) /\ ev_set s (latest s) = true /\ is_running s = false.
Proof.
  intros c o info ls body s r H. unfold with_simply in H. cbn zeta in H. pose proof (start_first c o info) as SF. cbn zeta in SF. destruct SF as (_ & _ & L & _).
  assert (K : forall s1 s', 0 < length (sb_ss s1) -> forall x, finally_stop c s1 = (s', x) -> (exists t, sb_tr s' = t ++ [EStop (Ok (latest s'))]) /\ ev_set s' (latest s') = true /\ is_running s' = false).
  { intros s1 s' L1 x E. destruct (finally_stop_spec c s1 L1) as (s2 & E1 & E2 & E3). assert (s2 = s') by congruence. subst s2. split; [eauto|]. split; [assumption|].
    unfold is_running, running. unfold ev_set in E3. destruct (nth_error (sb_ss s') (latest s')); [now rewrite E3|discriminate]. }
  generalize dependent (start_now c sb0 o info). intros s1 H L. destruct (raised s1) as [e|].
  - destruct (finally_stop c s1) as [s2 x] eqn:E. injection H as <- _. eapply K; eauto. lia.
  - destruct (sb_run c s1 ls) as [s2|] eqn:ER; [|discriminate]. destruct (finally_stop c s2) as [s3 x] eqn:E. injection H as <- _. eapply (K s2); eauto.
    pose proof (StreamLife.run_length c ls s1 s2 ER). lia.
Qed.
Print Assumptions C59_always_stopped.
(** Whose exception the caller sees. Missing: an open_stream() that raises StopIteration. *)
Theorem C59_exceptions_partial :
  forall c o info ls body s r, with_simply c o info ls body = Some (s, r) ->
  (forall e, o = Raise e -> e <> StopIteration -> r = Raise e) /\
  (forall e, o = Ok tt -> info = Raise e -> e <> StopIteration -> r = Raise e) /\
  (forall v d, o = Ok tt -> info = Ok v -> sd_init [] (c_key c) (c_maxlen c) = Ok d -> r = body).
Proof.
  intros c o info ls body s r H. unfold with_simply in H. cbn zeta in H. pose proof (start_first c o info) as SF. cbn zeta in SF. destruct SF as (_ & _ & L & _ & _ & SF).
  assert (GE : forall e, e <> StopIteration -> from_generator e = e) by (intros e N; destruct e; auto; congruence).
  unfold raised in H. generalize dependent (start_now c sb0 o info). intros s1 H L SF.
  destruct (finally_stop_spec c s1) as (s2 & F1 & _); [lia|]. split; [|split].
  - intros e -> N. destruct SF as [T _]. rewrite T in H. cbn in H. rewrite F1 in H. injection H as _ <-. now rewrite GE.
  - intros e -> -> N. destruct SF as [T _]. rewrite T in H. cbn in H. rewrite F1 in H. injection H as _ <-. now rewrite GE.
  - intros v d -> -> D. rewrite D in SF. destruct SF as [T _]. rewrite T in H. cbn [last] in H. destruct (sb_run c s1 ls) as [s3|] eqn:ER; [|discriminate].
    pose proof (StreamLife.run_length c ls s1 s3 ER). destruct (finally_stop_spec c s3) as (s4 & F3 & _); [lia|]. rewrite F3 in H. injection H as _ <-. reflexivity.
Qed.
Print Assumptions C59_exceptions_partial.
(** open_stream=lambda: next(it) on an exhausted iterator. *)
Theorem C59_stop_iteration_refuted :
  forall c info ls body, exists s, with_simply c (Raise StopIteration) info ls body = Some (s, Raise RuntimeError).
Proof.
  intros c info ls body. unfold with_simply. cbn zeta. pose proof (start_first c (Raise StopIteration) info) as SF. cbn zeta in SF. destruct SF as (_ & _ & L & _ & _ & T & _).
  unfold raised. generalize dependent (start_now c sb0 (Raise StopIteration) info). intros s1 L T. rewrite T. cbn [last].
  destruct (finally_stop_spec c s1) as (s2 & F1 & _); [lia|]. rewrite F1. eauto.
Qed.
Print Assumptions C59_stop_iteration_refuted.
(** The body makes a reader, reads, and raises KeyError; and a failing open_stream. *)
Example C59_nonvacuous :
  let c := simp_cfg None (Some 2%Z) (PBool true) in
  (exists s, with_simply c (Ok tt) (Ok PNone) (StreamBufferM.LMk 1 false false true :: round 0 (PTuple [PInt 0; PInt 9]) ++ [LCallR 0 (CNext false)]) (Raise KeyError) = Some (s, Raise KeyError) /\
     sb_tr s = [EOpen 0 (Ok tt); EBuilt 0 PNone; EStarted 0; ENew 0 0 1 false false true; EMk (Ok 0); ERead 0 (Ok (PTuple [PInt 0; PInt 9])); EAppend 0 0 (PTuple [PInt 0; PInt 9]) (Ok tt);
                ECall 0 (CNext false) (Ok (VItem (PTuple [PInt 0; PInt 9]))); EStop (Ok 0)]) /\
  (exists s, with_simply c (Raise ValueError) (Ok PNone) [] (Ok tt) = Some (s, Raise ValueError)).
Proof. cbn zeta. split; eexists; [split|]; vm_compute; reflexivity. Qed.

(** ** C66 *)
Definition cnt_rel (start stop : Z) (st : option Z) (l : list (res pyval)) : Prop :=
  exists n k, st = Some (start + Z.of_nat n)%Z /\ n <= length (counter_strings start stop) /\
    l = map (@Ok pyval) (firstn n (counter_strings start stop)) ++ repeat (Ok PNone) k /\ (k = 0 \/ n = length (counter_strings start stop)).
Lemma cs_length start stop : length (counter_strings start stop) = Z.to_nat (stop - start).
Proof. unfold counter_strings. now rewrite map_length, seq_length. Qed.
Lemma firstn_snoc {A} (l : list A) n x : nth_error l n = Some x -> firstn (S n) l = firstn n l ++ [x].
Proof. revert n. induction l as [|y l IH]; intros [|n] E; try discriminate; cbn in *; [congruence|]. f_equal. auto. Qed.
Lemma cs_nth start stop n : n < Z.to_nat (stop - start) -> nth_error (counter_strings start stop) n = Some (PStr (115%Z :: str_of_int (start + Z.of_nat n)%Z)).
Proof.
  intro L. unfold counter_strings. rewrite nth_error_map. rewrite (nth_error_nth' _ 0) by (now rewrite seq_length). cbn [option_map]. now rewrite seq_nth.
Qed.
Lemma cnt_reads start stop c ls s : stream_on (counter_source start stop) c ls s -> forall i, reads_of i (sb_tr s) = [] \/ exists st, cnt_rel start stop st (reads_of i (sb_tr s)).
Proof.
  apply (stream_reads (counter_source start stop) (cnt_rel start stop)).
  - intros a b E. injection E as ->. exists 0, 0. cbn. rewrite Z.add_0_r. repeat split; auto with arith.
  - intros a b o l (n & k & -> & Hn & -> & Hk) E. cbn in E. unfold cnt_read in E. destruct (Z.ltb_spec (start + Z.of_nat n) stop) as [L|L]; injection E as -> ->.
    + destruct Hk as [->|Hk]; [|exfalso; rewrite cs_length in Hk; lia]. exists (S n), 0. split; [f_equal; lia|]. split; [rewrite cs_length; lia|]. split; [|auto].
      cbn [repeat]. rewrite !app_nil_r. rewrite (firstn_snoc _ _ _ (cs_nth start stop n ltac:(lia))), map_app. reflexivity.
    + exists n, (S k). rewrite <- app_assoc. split; [reflexivity|]. split; [assumption|]. split; [|right; rewrite cs_length in *; lia].
      f_equal. change [Ok PNone] with (repeat (@Ok pyval PNone) 1). rewrite <- repeat_app. f_equal. lia.
Qed.
Lemma data_of_ok l : (forall x, In x l -> x <> PNone) -> data_of (map (@Ok pyval) l) = l.
Proof. induction l as [|x l IH]; intro A; [reflexivity|]. cbn [map]. change (Ok x :: map (@Ok pyval) l) with ([Ok x] ++ map (@Ok pyval) l). rewrite data_of_app. rewrite IH by (intros; apply A; now right). destruct x; try reflexivity. elim (A PNone); auto. now left. Qed.
Lemma data_of_nones k : data_of (repeat (Ok PNone) k) = [].
Proof. now induction k. Qed.
Lemma cs_in start stop x : In x (counter_strings start stop) -> exists z, (start <= z < stop)%Z /\ x = PStr (115%Z :: str_of_int z).
Proof. unfold counter_strings. intro X. apply in_map_iff in X as (k & <- & X). apply in_seq in X. eexists. split; [|reflexivity]. lia. Qed.
Lemma cnt_key_str z : cnt_key (PStr (115%Z :: str_of_int z)) = Ok (PInt z).
Proof. unfold cnt_key. cbn [tl]. now rewrite int_str_round. Qed.
Lemma in_firstn {A} (x : A) n l : In x (firstn n l) -> In x l.
Proof. intro X. rewrite <- (firstn_skipn n l). apply in_or_app. now left. Qed.
Lemma cs_ordered start stop : strictly_ordered cnt_key (counter_strings start stop).
Proof.
  unfold counter_strings. generalize (Z.to_nat (stop - start)). intro n. induction n as [|n IH]; [constructor|]. rewrite seq_S, map_app. apply ss_snoc; [assumption|].
  intros y Hy. apply in_map_iff in Hy as (k & <- & Hk). apply in_seq in Hk. do 2 eexists. rewrite !cnt_key_str. split; [reflexivity|]. split; [reflexivity|]. apply ltb_true.
  apply int_lt. lia.
Qed.
Lemma cnt_data start stop c ls s : stream_on (counter_source start stop) c ls s -> forall i, exists n, data_read i (sb_tr s) = firstn n (counter_strings start stop) /\
  (In (ERead i (Ok PNone)) (sb_tr s) -> n = length (counter_strings start stop) /\ exists l, reads_of i (sb_tr s) = l ++ [Ok PNone]).
Proof.
  intros H i. rewrite data_of_reads. assert (IR : In (ERead i (Ok PNone)) (sb_tr s) -> In (Ok PNone) (reads_of i (sb_tr s))).
  { intro X. unfold reads_of. apply in_flat_map. eexists. split; [eassumption|]. cbn. rewrite Nat.eqb_refl. now left. }
  destruct (cnt_reads start stop c ls s H i) as [E|(st & n & k & _ & L & E & D)].
  - rewrite E in *. exists 0. split; [reflexivity|]. intro X. destruct (IR X).
  - rewrite E in *. exists n. split.
    + rewrite data_of_app, data_of_nones, app_nil_r. apply data_of_ok. intros x X. apply in_firstn, cs_in in X as (z & _ & ->). discriminate.
    + intro X. apply IR in X. destruct D as [->|D].
      * exfalso. cbn in X. rewrite app_nil_r in X. apply in_map_iff in X as (x & E1 & X). injection E1 as ->. apply in_firstn, cs_in in X as (z & _ & Ez). discriminate.
      * split; [assumption|]. destruct k as [|k].
        -- exfalso. cbn in X. rewrite app_nil_r in X. apply in_map_iff in X as (x & E1 & X). injection E1 as ->. apply in_firstn, cs_in in X as (z & _ & Ez). discriminate.
        -- exists (map (@Ok pyval) (firstn n (counter_strings start stop)) ++ repeat (Ok PNone) k). rewrite <- app_assoc. f_equal. change [Ok PNone] with (repeat (@Ok pyval PNone) 1). rewrite <- repeat_app. f_equal. lia.
Qed.
Lemma got_last i t v : life i t (PhGot v) -> v <> PNone /\ exists l, reads_of i t = l ++ [Ok v].
Proof. intro L. inversion L; subst. split; [assumption|]. rewrite reads_app. cbn. rewrite Nat.eqb_refl. eauto. Qed.
Lemma run_split c a b s : history c (a ++ b) s -> exists m, history c a m /\ sb_run c m b = Some s.
Proof.
  unfold history. generalize sb0. induction a as [|l a IH]; intros s0 H; cbn in *; [eauto|]. destruct (sb_step c s0 l); [auto|discriminate].
Qed.
(** A StreamBuffer on SimpleCounterString(start, stop), with room for everything: no append
    raises; every session's thread appends first strings of the counter, and all of them
    before it reads the first None; nothing is evicted; a reader that moves forward gets
    first strings without a gap, and all of them once it finds nothing more after the thread
    has read the last one. *)
Theorem C66_counter :
  forall start stop maxlen auto ls s, let c := MkCfg cnt_key maxlen auto in
  stream_on (counter_source start stop) c ls s -> no_drops (sb_tr s) -> (forall m, maxlen = Some m -> (stop - start <= m)%Z) ->
  (forall i j x o, In (EAppend i j x o) (sb_tr s) -> o = Ok tt) /\
  (forall i, exists rest, counter_strings start stop = accepted_by i (sb_tr s) ++ rest /\ (In (ERead i (Ok PNone)) (sb_tr s) -> rest = [])) /\
  (forall j d, buf_of s j = Some d -> sd_list d = accepted_by j (sb_tr s)) /\
  (forall r q, nth_error (sb_rds s) r = Some q -> never_attached r (sb_tr s) -> moves_forward r (sb_tr s) -> stream_ranges_in is_int c (sb_tr s) ->
     (exists rest, counter_strings start stop = received r (sb_tr s) ++ rest) /\
     (forall t1 t2, sb_tr s = t1 ++ EPoll r (Ok VNone) :: t2 -> In (ERead (rd_sess q) (Ok PNone)) t1 -> received r t1 = counter_strings start stop)).
Proof.
  intros start stop maxlen auto ls s c ON ND MX.
  assert (CORE : forall ls s, stream_on (counter_source start stop) c ls s ->
    (forall i j x o, In (EAppend i j x o) (sb_tr s) -> o = Ok tt) /\
    (forall i, exists rest, counter_strings start stop = accepted_by i (sb_tr s) ++ rest /\ (In (ERead i (Ok PNone)) (sb_tr s) -> rest = []))).
  { clear ls s ON ND. intros ls s ON. pose proof (cnt_data start stop c ls s ON) as D. destruct ON as (H & O & _).
    assert (NF : forall i j x o, In (EAppend i j x o) (sb_tr s) -> o = Ok tt).
    { apply (increasing_appends c ls s H O).
      - intro i. destruct (D i) as (n & -> & _). eapply strictly_ordered_app. rewrite firstn_skipn. apply cs_ordered.
      - intros i x X. destruct (D i) as (n & E & _). rewrite E in X. apply in_firstn, cs_in in X as (z & _ & ->). exists (PInt z). apply cnt_key_str. }
    split; [assumption|]. intro i. destruct (D i) as (n & E & N). destruct (read_in_hand c ls s i H O NF) as (rest & R1 & R2).
    exists (rest ++ skipn n (counter_strings start stop)). split; [rewrite app_assoc, <- R1, E; symmetry; apply firstn_skipn|].
    intro X. destruct (N X) as [-> (l & El)]. rewrite skipn_all, app_nil_r. destruct R2 as [->|(v & -> & [(e & He & P)|(j0 & e & He & P)])]; [reflexivity| |]; exfalso;
    pose proof (life_all c ls s H i) as L; unfold life_inv in L; rewrite He in L; destruct L as [L _]; rewrite P in L; cbn [ph] in L;
    destruct (got_last _ _ _ L) as [NN (l' & E')]; rewrite reads_te in E'; rewrite El in E'; apply app_inj_tail in E' as [_ E']; congruence. }
  destruct (CORE ls s ON) as [C1 C2]. split; [assumption|]. split; [assumption|].
  assert (LEN : forall j, length (accepted_by j (sb_tr s)) <= Z.to_nat (stop - start)).
  { intro j. destruct (C2 j) as (rest & E & _). rewrite <- cs_length, E, app_length. lia. }
  pose proof ON as ON'. destruct ON' as (H & O & _).
  assert (HOLD : forall pre post s', ls = pre ++ post -> history c pre s' -> forall j d, buf_of s' j = Some d -> sd_list d = accepted_by j (sb_tr s')).
  { intros pre post s' -> H' j d Ed. destruct (run_split c pre post s H) as (m & H1 & H2). assert (m = s') by congruence. subst m.
    destruct (run_trace c post s' s H2) as (es & Et). destruct (buf_holds c pre s' H' j d Ed) as (n & _ & B). apply B.
    - rewrite Et in ND. eapply no_drops_app; eauto.
    - intros m Em. cbn in Em. specialize (MX m Em). specialize (LEN j). rewrite Et, acc_app, app_length in LEN. destruct (accepted_by j (sb_tr s')) eqn:EA; [|cbn in *; lia].
      cbn. pose proof (buf_hist_all c pre s' H' j) as BH. unfold buf_hist in BH. rewrite Ed in BH. destruct BH as (d0 & D0 & _).
      unfold sd_init in D0. cbn in D0. rewrite Em in D0. unfold check_maxlen in D0. destruct (Z.ltb_spec m 0); [discriminate|]. lia. }
  split; [intros j d Ed; eapply (HOLD ls []); eauto; now rewrite app_nil_r|].
  intros r q Hq NA MF RI.
  assert (KI : stream_keys_in is_int c (sb_tr s)).
  { intros i j x o k X K. rewrite (C1 _ _ _ _ X) in X. destruct (C2 j) as (rest & E & _).
    assert (IN : In x (accepted_by j (sb_tr s))). { unfold accepted_by. apply in_flat_map. eexists. split; [exact X|]. cbn. rewrite Nat.eqb_refl. now left. }
    assert (I2 : In x (counter_strings start stop)) by (rewrite E; apply in_or_app; now left). apply cs_in in I2 as (z & _ & ->). cbn [c_key c] in K. rewrite cnt_key_str in K. exists z. congruence. }
  assert (KU : reader_keeps_up c ls r (rd_sess q)).
  { intros pre post s' d E H' Ed. rewrite (HOLD _ _ _ E H' _ _ Ed). lia. }
  assert (SO : strictly_ordered (c_key c) (accepted_by (rd_sess q) (sb_tr s))).
  { destruct (C2 (rd_sess q)) as (rest & E & _). eapply strictly_ordered_app. rewrite <- E. apply cs_ordered. }
  split.
  - destruct (C75_keeps_up is_int int_family c ls s H KI r q Hq NA RI MF KU SO) as (rest & E). destruct (C2 (rd_sess q)) as (rest2 & E2 & _). rewrite E in E2. rewrite <- app_assoc in E2. eauto.
  - intros t1 t2 Et RN. rewrite (poll_none_got is_int c ls s r q t1 t2 int_family H KI MF RI Hq NA KU); auto.
    + destruct (stream_on_poll _ c ls s t1 r _ t2 ON Et) as (ls1 & ls2 & s1 & _ & ON1 & E1). destruct (CORE ls1 s1 ON1) as [_ D2]. rewrite E1 in D2.
      destruct (D2 (rd_sess q)) as (rest & E & Z). rewrite (Z RN), app_nil_r in E. auto.
    + rewrite Et, acc_app in SO. eapply strictly_ordered_app; eauto.
    + eapply made_before_poll; eauto.
Qed.
Print Assumptions C66_counter.
(** The key of what the counter produced is its number; anything else is refused: TypeError for
    values other than str and bytes, ValueError for text with a letter behind the first sign.
    Reading before open() or after close() raises TypeError. *)
Theorem C66_key_and_misuse :
  (forall z, cnt_key (PStr (115%Z :: str_of_int z)) = Ok (PInt z)) /\
  (forall v, (forall s, v <> PStr s) -> (forall s, v <> PBytes s) -> cnt_key v = Raise TypeError) /\
  (forall a b q, (97 <= b <= 122)%Z -> cnt_key (PStr (a :: b :: q)) = Raise ValueError /\ cnt_key (PBytes (a :: b :: q)) = Raise ValueError) /\
  (forall a, cnt_key (PStr [a]) = Raise ValueError) /\
  (forall start stop it, snd (cnt_read stop (fst (cnt_close it))) = Raise TypeError /\ snd (cnt_read stop None) = Raise TypeError /\
     ((start < stop)%Z -> snd (cnt_read stop (fst (cnt_open start it))) = Ok (PStr (115%Z :: str_of_int start)))).
Proof.
  split; [exact cnt_key_str|]. split; [intros v A B; destruct v; try reflexivity; [elim (A s)|elim (B s)]; reflexivity|]. split.
  - intros a b q [L1 L2]. assert (D : digits_of (b :: q) = None).
    { cbn [digits_of uint_of]. replace (digit_of b) with (@None (Decimal.uint -> Decimal.uint)); [reflexivity|]. unfold digit_of.
      repeat match goal with |- context [(b =? ?k)%Z] => destruct (Z.eqb_spec b k); [lia|] end. reflexivity. }
    assert (E : int_of_str (b :: q) = Raise ValueError).
    { unfold int_of_str. destruct b as [|p|p]; try lia. rewrite D. cbn [option_map].
      do 7 (destruct p as [p|p|]; try reflexivity; try lia). }
    unfold cnt_key. cbn [tl]. now rewrite E.
  - split; [reflexivity|]. intros. split; [reflexivity|]. split; [reflexivity|]. intro L. cbn. destruct (Z.ltb_spec start stop); [reflexivity|lia].
Qed.
Print Assumptions C66_key_and_misuse.
(** SimpleCounterString(-1, 2), read by a for loop while it is being filled; a second session. *)
Definition cnt_str (z : Z) : pyval := PStr (115%Z :: str_of_int z).
Definition cnt_hist : list label :=
  starting (PObj 7) ++ round 0 (cnt_str (-1)) ++ [StreamBufferM.LMk 1 false false true; LIter 0] ++ round 0 (cnt_str 0) ++ round 0 (cnt_str 1)
  ++ [LT 0 (Ok PNone); LT 0 (Ok PNone); LT 0 (Ok PNone); LT 0 (Ok PNone); LIter 0; LIter 0; LIter 0].
Example C66_nonvacuous :
  let c := MkCfg cnt_key (Some 3%Z) (PBool true) in let s := end_of c cnt_hist in
  stream_on (counter_source (-1) 2) c cnt_hist s /\ no_drops (sb_tr s) /\ nth_error (sb_rds s) 0 <> None /\ never_attached 0 (sb_tr s) /\ moves_forward 0 (sb_tr s) /\
  stream_ranges_in is_int c (sb_tr s) /\ (exists t1, sb_tr s = t1 ++ [EPoll 0 (Ok VNone)] /\ In (ERead 0 (Ok PNone)) t1) /\
  received 0 (sb_tr s) = [PStr [115; 45; 49]; PStr [115; 48]; PStr [115; 49]]%Z.
Proof.
  cbn zeta. split; [split; [apply history_end; vm_compute; reflexivity|split; [apply orderlyb_ok; vm_compute; reflexivity|]]|].
  { exists (Some 2%Z). assert (E : source_events (sb_tr (end_of (MkCfg cnt_key (Some 3%Z) (PBool true)) cnt_hist)) =
      [EOpen 0 (Ok tt); ERead 0 (Ok (cnt_str (-1))); ERead 0 (Ok (cnt_str 0)); ERead 0 (Ok (cnt_str 1)); ERead 0 (Ok PNone)]) by (vm_compute; reflexivity). rewrite E. clear E.
    eapply pl_open; [reflexivity|]. repeat (eapply pl_read; [vm_compute; reflexivity|]). apply pl_nil. }
  set (s := end_of _ _). assert (E : sb_tr s = [EOpen 0 (Ok tt); EBuilt 0 (PObj 7); EStarted 0; ERead 0 (Ok (cnt_str (-1))); EAppend 0 0 (cnt_str (-1)) (Ok tt); ENew 0 0 1 false false true; EMk (Ok 0);
    EPoll 0 (Ok (VItem (cnt_str (-1)))); ERead 0 (Ok (cnt_str 0)); EAppend 0 0 (cnt_str 0) (Ok tt); ERead 0 (Ok (cnt_str 1)); EAppend 0 0 (cnt_str 1) (Ok tt); ERead 0 (Ok PNone);
    EPoll 0 (Ok (VItem (cnt_str 0))); EPoll 0 (Ok (VItem (cnt_str 1))); EPoll 0 (Ok VNone)]) by (vm_compute; reflexivity).
  assert (N : nth_error (sb_rds s) 0 <> None) by (vm_compute; discriminate). clearbody s. rewrite E. 
  split; [intros j n o X; repeat (destruct X as [X|X]; [discriminate X|]); destruct X|]. split; [assumption|].
  split; [apply no_attach_never; vm_compute; reflexivity|]. split; [apply forwardb_spec; vm_compute; reflexivity|].
  split; [intros r g o X; repeat (destruct X as [X|X]; [discriminate X|]); destruct X|]. split; [|vm_compute; reflexivity].
  eexists [_; _; _; _; _; _; _; _; _; _; _; _; _; _; _]. split; [reflexivity|]. do 12 right. left. reflexivity.
Qed.
