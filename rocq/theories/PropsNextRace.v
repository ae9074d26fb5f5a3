(** * next(reader) while others append, stop and restart (C106) *)
From Coq Require Import List ZArith Bool Arith Lia Sorting.Sorted.
From Verif Require Import PyVal PyLib PyValFacts SortedDequeM Spec SpecDeque SpecReader SpecLog ListFacts BisectFacts DequeFacts DequeSearch Families
  BufferReaderM BufferSysM ReaderFacts ReaderLoops LogFacts LogReads StreamBufferM SpecStream StreamFacts StreamLife StreamInv StreamView StreamReads StreamMore
  StreamOrderly PropsDeque PropsReader PropsIter PropsStreamRead PropsStream StreamSuffix StreamAttach PropsSession PropsConsume NextRaceM.
Import ListNotations.
Open Scope nat_scope.

(** ** Specification *)
Definition nx_history (c : cfg) (ls : list nlabel) (x : nxs) : Prop := nx_run c nx0 ls = Some x.
(** Reader [r] keeps up with the buffer of start [j], as in [SpecStream.reader_keeps_up]. *)
Definition nx_keeps_up (c : cfg) (ls : list nlabel) (r j : nat) : Prop :=
  forall pre post x d, ls = pre ++ post -> nx_history c pre x -> buf_of (n_s x) j = Some d ->
    length (accepted_by j (sb_tr (n_s x))) - length (sd_list d) <= length (received r (sb_tr (n_s x))).

(** ** Facts *)
(** The steps of [StreamBufferM] that a schedule consists of. *)
Definition base1 (x : nxs) (l : nlabel) : list label :=
  match l with
  | NStep l => [l]
  | NLook r => match nth_error (sb_rds (n_s x)) r with Some q => [LCallR r (CRead (next_args (rd_r q)))] | None => [] end
  | NAsk _ => []
  end.
Fixpoint base_of (c : cfg) (x : nxs) (ls : list nlabel) : list label :=
  match ls with
  | [] => []
  | l :: q => base1 x l ++ match nx_step c x l with Some x' => base_of c x' q | None => [] end
  end.
Lemma nx_step_base c x l x' : nx_step c x l = Some x' -> sb_run c (n_s x) (base1 x l) = Some (n_s x').
Proof.
  destruct l as [l|r|k]; cbn [nx_step base1].
  - assert (G : match sb_step c (n_s x) l with Some s' => Some (MkNX s' (n_hold x) (n_tr x)) | None => None end = Some x' -> sb_run c (n_s x) [l] = Some (n_s x')).
    { cbn [sb_run]. destruct (sb_step c (n_s x) l); [|discriminate]. intro H. injection H as <-. reflexivity. }
    destruct l; try exact G. destruct c0; try exact G. discriminate.
  - destruct (nth_error (sb_rds (n_s x)) r) as [q|] eqn:Eq; [|discriminate]. destruct (buf_of (n_s x) (rd_sess q)) as [d|]; [|discriminate]. cbn [sb_run].
    destruct (sb_step c (n_s x) _) as [s'|]; [|discriminate]. cbn zeta. destruct (snd _) as [v|e]; [destruct (rval_is_none v)|]; intro H; injection H as <-; reflexivity.
  - destruct (nth_error (n_hold x) k) as [[r a]|]; [|discriminate]. destruct (nth_error (sb_rds (n_s x)) r); [|discriminate]. intro H. injection H as <-. reflexivity.
Qed.
Lemma nx_run_base c ls : forall x x', nx_run c x ls = Some x' -> sb_run c (n_s x) (base_of c x ls) = Some (n_s x').
Proof.
  induction ls as [|l ls IH]; intros x x' H; cbn in *; [now injection H as <-|].
  destruct (nx_step c x l) as [m|] eqn:E; [|discriminate]. rewrite sb_run_app, (nx_step_base c x l m E). now apply IH.
Qed.
Lemma nx_run_app c a b : forall x, nx_run c x (a ++ b) = match nx_run c x a with Some m => nx_run c m b | None => None end.
Proof. induction a as [|l a IH]; intro x; [reflexivity|]. cbn. destruct (nx_step c x l); [apply IH|reflexivity]. Qed.
Lemma nx_base_history c ls x : nx_history c ls x -> history c (base_of c nx0 ls) (n_s x).
Proof. intro H. exact (nx_run_base c ls nx0 x H). Qed.
Lemma base1_len x l : length (base1 x l) <= 1.
Proof. destruct l; cbn; try lia. destruct (nth_error _ _); cbn; lia. Qed.
Lemma base_prefix c ls : forall x x' pre post, nx_run c x ls = Some x' -> base_of c x ls = pre ++ post ->
  exists p q m, ls = p ++ q /\ nx_run c x p = Some m /\ sb_run c (n_s x) pre = Some (n_s m).
Proof.
  induction ls as [|l ls IH]; intros x x' pre post H E.
  - cbn in E. symmetry in E. apply app_eq_nil in E as [-> ->]. exists [], [], x. cbn. auto.
  - destruct pre as [|a pre].
    { exists [], (l :: ls), x. cbn. auto. }
    cbn in H, E. destruct (nx_step c x l) as [m|] eqn:S; [|discriminate].
    pose proof (nx_step_base c x l m S) as B. pose proof (base1_len x l) as L.
    destruct (base1 x l) as [|b [|? ?]] eqn:EB; [| |cbn in L; lia].
    + cbn in E. destruct (IH m x' (a :: pre) post H E) as (p & q & m' & -> & R & G). exists (l :: p), q, m'. cbn [nx_run app]. rewrite S. split; [reflexivity|]. split; [assumption|].
      cbn in B. injection B as B. now rewrite B.
    + cbn in E. injection E as -> E. destruct (IH m x' pre post H E) as (p & q & m' & -> & R & G). exists (l :: p), q, m'. cbn [nx_run app]. rewrite S. split; [reflexivity|]. split; [assumption|].
      cbn [sb_run] in *. destruct (sb_step c (n_s x) a); [|discriminate]. injection B as ->. assumption.
Qed.
Lemma keeps_up_base c ls x r j : nx_history c ls x -> nx_keeps_up c ls r j -> reader_keeps_up c (base_of c nx0 ls) r j.
Proof.
  intros H K pre post s d E Hs Hd. destruct (base_prefix c ls nx0 x pre post H E) as (p & q & m & -> & R & B). unfold history in Hs. cbn in B. rewrite B in Hs. injection Hs as <-.
  eapply (K p q m); eauto.
Qed.
Lemma read_next d r : run (read d (next_args r)) r = run (next_dunder d false) r.
Proof.
  assert (E : forall r0, run (next_dunder d false) r0 = run (read_for_next d) r0).
  { intro r0. unfold next_dunder, run. unfold bindM. destruct (read_for_next d r0) as [[t r1] [v|e]]; [|reflexivity]. rewrite andb_false_r. reflexivity. }
  rewrite E. unfold read_for_next, run, bindM, getM, next_args. destruct (read d _ r) as [[t r1] a]. reflexivity.
Qed.
Lemma next_nonnone d b r : (forall w, snd (run (read d (next_args r)) r) = Ok w -> rval_is_none w = false) -> snd (run (next_dunder d b) r) = snd (run (read d (next_args r)) r).
Proof.
  rewrite read_next. unfold next_dunder, run, bindM. destruct (read_for_next d r) as [[t r1] [v|e]]; [|reflexivity]. rewrite andb_false_r. cbn. intro N. rewrite (N v eq_refl). reflexivity.
Qed.
Lemma next_none d b r v : snd (run (read d (next_args r)) r) = Ok v -> rval_is_none v = true -> snd (run (next_dunder d b) r) = if b then Raise StopIteration else Ok v.
Proof.
  rewrite read_next. unfold next_dunder, run, bindM. destruct (read_for_next d r) as [[t r1] [w|e]]; [|discriminate]. rewrite andb_false_r. cbn. intros E N. injection E as ->. rewrite N. destruct b; reflexivity.
Qed.
Lemma none_is v : rval_is_none v = true -> v = VNone.
Proof. destruct v as [x|l]; cbn; [|discriminate]. destruct x; try discriminate. reflexivity. Qed.

(** How a call came to its answer. *)
Definition look_at (c : cfg) (p1 : list nlabel) (r a : nat) (v : res rval) : Prop :=
  exists m q d, nx_history c p1 m /\ length (sb_tr (n_s m)) = a /\ nth_error (sb_rds (n_s m)) r = Some q /\ buf_of (n_s m) (rd_sess q) = Some d /\
    v = snd (run (read d (next_args (rd_r q))) (rd_r q)).
Definition ask_at (c : cfg) (p : list nlabel) (r b : nat) (o : res rval) : Prop :=
  exists m q, nx_history c p m /\ length (sb_tr (n_s m)) = b /\ nth_error (sb_rds (n_s m)) r = Some q /\ o = if ev_set (n_s m) (rd_ev q) then Raise StopIteration else Ok VNone.
Definition hold_ok (c : cfg) (ls : list nlabel) (r a : nat) : Prop :=
  exists p1 p2, ls = p1 ++ NLook r :: p2 /\ look_at c p1 r a (Ok VNone).
Definition ret_ok (c : cfg) (ls : list nlabel) (r : nat) (o : res rval) (a b : nat) : Prop :=
  exists p1 p2, ls = p1 ++ NLook r :: p2 /\
    ((look_at c p1 r a o /\ (forall w, o = Ok w -> rval_is_none w = false)) \/
     (look_at c p1 r a (Ok VNone) /\ exists p3 k p4, p2 = p3 ++ NAsk k :: p4 /\ ask_at c (p1 ++ NLook r :: p3) r b o)).
Definition nx_ok (c : cfg) (ls : list nlabel) (x : nxs) : Prop :=
  (forall r a, In (r, a) (n_hold x) -> hold_ok c ls r a) /\ (forall r o a b, In (MkNR r o a b) (n_tr x) -> ret_ok c ls r o a b).
Lemma hold_more c ls r a z : hold_ok c ls r a -> hold_ok c (ls ++ z) r a.
Proof. intros (p1 & p2 & -> & L). exists p1, (p2 ++ z). split; [now rewrite <- app_assoc|assumption]. Qed.
Lemma ret_more c ls r o a b z : ret_ok c ls r o a b -> ret_ok c (ls ++ z) r o a b.
Proof.
  intros (p1 & p2 & -> & L). exists p1, (p2 ++ z). split; [now rewrite <- app_assoc|]. destruct L as [L|(L & p3 & k & p4 & -> & A)]; [now left|right].
  split; [assumption|]. exists p3, k, (p4 ++ z). split; [now rewrite <- app_assoc|assumption].
Qed.
Lemma nx_ok_all c ls : forall x, nx_history c ls x -> nx_ok c ls x.
Proof.
  induction ls as [|l ls IH] using rev_ind; intros x H.
  - injection H as <-. split; [intros r a []|intros r o a b []].
  - unfold nx_history in H. rewrite nx_run_app in H. destruct (nx_run c nx0 ls) as [m|] eqn:Em; [|discriminate]. cbn [nx_run] in H. destruct (nx_step c m l) as [x'|] eqn:Es; [|discriminate]. injection H as <-.
    specialize (IH m Em). destruct IH as [IH IR].
    assert (OLD : nx_ok c (ls ++ [l]) (MkNX (n_s x') (n_hold m) (n_tr m))).
    { split; intros; [apply hold_more|apply ret_more]; auto. }
    destruct OLD as [OH OR]. cbn [n_hold n_tr] in OH, OR.
    destruct l as [l|r|k].
    + assert (E : n_hold x' = n_hold m /\ n_tr x' = n_tr m).
      { cbn in Es. destruct l; try (destruct (sb_step c (n_s m) _); [injection Es as <-; auto|discriminate]). destruct c0; try discriminate; destruct (sb_step c (n_s m) _); try discriminate; injection Es as <-; auto. }
      destruct E as [E1 E2]. split; rewrite ?E1, ?E2; assumption.
    + cbn [nx_step] in Es. destruct (nth_error (sb_rds (n_s m)) r) as [q|] eqn:Eq; [|discriminate]. destruct (buf_of (n_s m) (rd_sess q)) as [d|] eqn:Ed; [|discriminate].
      destruct (sb_step c (n_s m) (LCallR r (CRead (next_args (rd_r q))))) as [s'|] eqn:ES; [|discriminate]. cbn zeta in Es.
      assert (LK : look_at c ls r (length (sb_tr (n_s m))) (snd (run (read d (next_args (rd_r q))) (rd_r q)))) by (exists m, q, d; auto).
      destruct (snd (run (read d (next_args (rd_r q))) (rd_r q))) as [v|e] eqn:EV; [destruct (rval_is_none v) eqn:EN|]; injection Es as <-; split; cbn [n_hold n_tr]; try assumption.
      * intros r0 a0 Hin. apply in_app_or in Hin as [Hin|[Hin|[]]]; [auto|]. injection Hin as <- <-. exists ls, []. split; [reflexivity|]. now rewrite (none_is v EN) in LK.
      * intros r0 o a0 b0 Hin. apply in_app_or in Hin as [Hin|[Hin|[]]]; [auto|]. injection Hin as <- <- <- <-. exists ls, []. split; [reflexivity|]. left. split; [assumption|]. intros w X. now injection X as <-.
      * intros r0 o a0 b0 Hin. apply in_app_or in Hin as [Hin|[Hin|[]]]; [auto|]. injection Hin as <- <- <- <-. exists ls, []. split; [reflexivity|]. left. split; [assumption|]. discriminate.
    + cbn [nx_step] in Es. destruct (nth_error (n_hold m) k) as [[r a]|] eqn:Ek; [|discriminate]. destruct (nth_error (sb_rds (n_s m)) r) as [q|] eqn:Eq; [|discriminate]. injection Es as <-. split; cbn [n_hold n_tr].
      * intros r0 a0 Hin. apply OH. now apply in_removed in Hin.
      * intros r0 o a0 b0 Hin. apply in_app_or in Hin as [Hin|[Hin|[]]]; [auto|]. injection Hin as <- <- <- <-.
        destruct (IH r a (nth_error_In _ _ Ek)) as (p1 & p2 & -> & L). exists p1, (p2 ++ [NAsk k]). split; [now rewrite <- app_assoc|]. right. split; [assumption|].
        exists p2, k, []. split; [reflexivity|]. exists m, q. repeat split; auto.
Qed.
(** ** C106: what an answer of next(reader) means *)
(** Whatever the other threads do: next(reader) answers what it would have answered in the
    single instant of its read, except that it may raise StopIteration instead of returning
    None. *)
Theorem C106_answer_of_one_instant_partial :
  forall c ls x, nx_history c ls x -> forall r o a b, In (MkNR r o a b) (n_tr x) -> never_attached r (sb_tr (n_s x)) ->
  exists p1 p2 m, ls = p1 ++ NLook r :: p2 /\ nx_history c p1 m /\ length (sb_tr (n_s m)) = a /\
  exists s' flag o', sb_step c (n_s m) (LCallR r (CNext false)) = Some s' /\ sb_tr s' = sb_tr (n_s m) ++ [ECall r (CNext flag) o'] /\
    (o = o' \/ (o' = Ok VNone /\ o = Raise StopIteration)).
Proof.
  intros c ls x H r o a b Hin NA. destruct (proj2 (nx_ok_all c ls x H) r o a b Hin) as (p1 & p2 & E & L).
  assert (M : exists m q d, nx_history c p1 m /\ length (sb_tr (n_s m)) = a /\ nth_error (sb_rds (n_s m)) r = Some q /\ buf_of (n_s m) (rd_sess q) = Some d /\
    (o = snd (run (next_dunder d (ev_set (n_s m) (rd_ev q))) (rd_r q)) \/ (snd (run (next_dunder d (ev_set (n_s m) (rd_ev q))) (rd_r q)) = Ok VNone /\ o = Raise StopIteration))).
  { destruct L as [((m & q & d & M1 & M2 & M3 & M4 & V) & N)|((m & q & d & M1 & M2 & M3 & M4 & V) & p3 & k & p4 & E2 & (m2 & q2 & A1 & A2 & A3 & A4))].
    - exists m, q, d. repeat (split; [assumption|]). left. rewrite next_nonnone; [assumption|]. rewrite <- V. assumption.
    - exists m, q, d. repeat (split; [assumption|]). rewrite (next_none d _ _ VNone (eq_sym V) eq_refl).
      destruct (ev_set (n_s m) (rd_ev q)) eqn:EV.
      + left. rewrite A4. assert (EV2 : ev_set (n_s m2) (rd_ev q2) = true); [|now rewrite EV2].
        assert (RUN : exists z, sb_run c (n_s m) z = Some (n_s m2)).
        { unfold nx_history in A1. rewrite nx_run_app in A1. unfold nx_history in M1. rewrite M1 in A1. eexists. exact (nx_run_base c _ m m2 A1). }
        destruct RUN as [z RUN].
        assert (TAIL : exists z2, sb_run c (n_s m2) z2 = Some (n_s x)).
        { assert (EL : ls = (p1 ++ NLook r :: p3) ++ NAsk k :: p4) by (rewrite E, E2, <- app_assoc; reflexivity). clear E. subst ls. unfold nx_history in H. rewrite nx_run_app in H. unfold nx_history in A1. rewrite A1 in H. eexists. exact (nx_run_base c _ m2 x H). }
        destruct TAIL as [z2 TAIL]. destruct (run_trace c z2 _ _ TAIL) as (e2 & E3).
        assert (NA2 : never_attached r (sb_tr (n_s m2))) by (rewrite E3 in NA; eapply never_attached_app; eauto).
        pose proof (nx_base_history c _ m M1) as HM. pose proof (nx_base_history c _ m2 A1) as HM2.
        rewrite (rd_ev_sess c _ _ HM r q M3) in EV. rewrite (rd_ev_sess c _ _ HM2 r q2 A3), <- (back_run c z _ _ r q q2 RUN NA2 M3 A3).
        clear - RUN EV. revert EV. generalize (rd_sess q). generalize dependent (n_s m). induction z as [|l z IH]; intros s RUN j EV; [injection RUN as <-; assumption|].
        cbn in RUN. destruct (sb_step c s l) as [s1|] eqn:S1; [|discriminate]. apply (IH s1 RUN j). eapply ev_set_mono; eauto.
      + rewrite A4. destruct (ev_set (n_s m2) (rd_ev q2)); auto. }
  destruct M as (m & q & d & M1 & M2 & M3 & M4 & V). exists p1, p2, m. split; [assumption|]. split; [assumption|]. split; [assumption|].
  cbn [sb_step call_step]. unfold call_step. rewrite M3, M4. cbn zeta. cbn [with_stopped do_call].
  destruct (run (next_dunder d (ev_set (n_s m) (rd_ev q))) (rd_r q)) as [br v] eqn:ER. eexists _, _, v. split; [reflexivity|]. split; [reflexivity|]. exact V.
Qed.
Print Assumptions C106_answer_of_one_instant_partial.
(** A look finds nothing exactly if the reader has everything. *)
Lemma look_none P c bs s r q d : total_family P -> history c bs s -> stream_keys_in P c (sb_tr s) -> moves_forward r (sb_tr s) -> nth_error (sb_rds s) r = Some q -> buf_of s (rd_sess q) = Some d ->
  (snd (run (read d (next_args (rd_r q))) (rd_r q)) = Ok VNone <-> not_got_yet (c_key c) (received r (sb_tr s)) (sd_list d) = []).
Proof.
  intros F H K MF Hq Hd. destruct (att_history P c bs s F H r K MF) as [I _]. rewrite Hq in I. destruct I as [HP AC].
  destruct (stream_buffer_in P c bs s _ d H K Hd) as (BI & EK & NN & _).
  pose proof (C33_next_protocol P F d BI NN (rd_r q) (at_cursor_in _ _ _ _ AC) false) as X. cbn zeta in X.
  change (sd_list d) with (sd_items d) in *. rewrite EK, (at_cursor_unseen P _ _ _ d F AC (buffer_bok P d BI) EK) in X. destruct X as (_ & _ & _ & _ & X).
  rewrite read_next, X. tauto.
Qed.
Lemma look_complete P c bs s r q d : total_family P -> history c bs s -> stream_keys_in P c (sb_tr s) -> stream_ranges_in P c (sb_tr s) -> never_attached r (sb_tr s) -> moves_forward r (sb_tr s) ->
  nth_error (sb_rds s) r = Some q -> buf_of s (rd_sess q) = Some d -> reader_keeps_up c bs r (rd_sess q) -> strictly_ordered (c_key c) (accepted_by (rd_sess q) (sb_tr s)) ->
  (snd (run (read d (next_args (rd_r q))) (rd_r q)) = Ok VNone <-> received r (sb_tr s) = accepted_by (rd_sess q) (sb_tr s)).
Proof.
  intros F H K R NA MF Hq Hd KU SO. rewrite (look_none P c bs s r q d F H K MF Hq Hd).
  destruct (C75_keeps_up P F c bs s H K r q Hq NA R MF KU SO) as (rest & E). destruct (buf_holds c bs s H _ d Hd) as (n & B & _).
  pose proof (KU bs [] s d ltac:(now rewrite app_nil_r) H Hd) as L. rewrite E in B, L, SO. rewrite E.
  assert (G : not_got_yet (c_key c) (received r (sb_tr s)) (sd_list d) = rest).
  { rewrite B in L |- *. rewrite skipn_length in L. destruct (le_lt_dec n (length (received r (sb_tr s)))) as [LE|GT]; [now apply after_all|].
    rewrite app_length in L. assert (rest = []) by (destruct rest; [reflexivity|cbn in L; lia]). subst rest. rewrite app_nil_r, skipn_all2 by lia. reflexivity. }
  rewrite G. split; intro X; [now rewrite X, app_nil_r|]. rewrite <- (app_nil_r (received r (sb_tr s))) in X at 1. apply app_inv_head in X. now subst.
Qed.
Lemma received_app r a b : received r (a ++ b) = received r a ++ received r b.
Proof. apply flat_map_app. Qed.
Lemma nx_prefix c p z x m : nx_history c (p ++ z) x -> nx_history c p m -> exists es, sb_tr (n_s x) = sb_tr (n_s m) ++ es /\ sb_run c (n_s m) (base_of c m z) = Some (n_s x).
Proof.
  intros H M. unfold nx_history in H, M. rewrite nx_run_app, M in H. pose proof (nx_run_base c z m x H) as R. destruct (run_trace c _ _ _ R) as (es & E). eauto.
Qed.
Lemma ev_run c z : forall s s' j, sb_run c s z = Some s' -> ev_set s j = true -> ev_set s' j = true.
Proof.
  induction z as [|l z IH]; intros s s' j R E; [injection R as <-; assumption|].
  cbn in R. destruct (sb_step c s l) as [s1|] eqn:S1; [|discriminate]. apply (IH s1 s' j R). eapply ev_set_mono; eauto.
Qed.
Lemma look_grows c p r m x z : nx_history c p m -> nx_history c (p ++ NLook r :: z) x -> length (sb_tr (n_s m)) < length (sb_tr (n_s x)).
Proof.
  intros M H. unfold nx_history in H, M. rewrite nx_run_app, M in H. cbn [nx_run] in H. destruct (nx_step c m (NLook r)) as [m1|] eqn:S; [|discriminate].
  pose proof (nx_run_base c z m1 x H) as R. destruct (run_trace c _ _ _ R) as (es & E). rewrite E, app_length.
  cbn [nx_step] in S. destruct (nth_error (sb_rds (n_s m)) r) as [q|] eqn:Eq; [|discriminate]. destruct (buf_of (n_s m) (rd_sess q)) as [d|] eqn:Ed; [|discriminate].
  destruct (sb_step c (n_s m) (LCallR r (CRead (next_args (rd_r q))))) as [s'|] eqn:ES; [|discriminate]. cbn zeta in S.
  assert (n_s m1 = s') by (destruct (snd _) as [v|e]; [destruct (rval_is_none v)|]; injection S as <-; reflexivity). subst s'.
  cbn [sb_step] in ES. unfold call_step in ES. rewrite Eq, Ed in ES. cbn zeta in ES. destruct (run _ _). injection ES as ES. rewrite <- ES. proj. rewrite app_length. cbn. lia.
Qed.
Lemma firstn_prefix {A} (a b : list A) n : n = length a -> firstn n (a ++ b) = a.
Proof. intros ->. now rewrite firstn_app, Nat.sub_diag, firstn_all, app_nil_r. Qed.

(** StopIteration, for a reader that keeps up: the session is stopped and the reader has
    received everything appended before the read of that call. If nothing was appended since
    then, it is final: nothing more is received, and every later next(reader) raises
    StopIteration again. *)
Theorem C106_stop_iteration_partial :
  forall P, total_family P -> forall c ls x, nx_history c ls x -> let tr := sb_tr (n_s x) in
  stream_keys_in P c tr -> stream_ranges_in P c tr ->
  forall r q, nth_error (sb_rds (n_s x)) r = Some q -> let j := rd_sess q in
  never_attached r tr -> moves_forward r tr -> nx_keeps_up c ls r j -> strictly_ordered (c_key c) (accepted_by j tr) ->
  forall a b, In (MkNR r (Raise StopIteration) a b) (n_tr x) ->
  a < b /\ b <= length tr /\ ev_set (n_s x) j = true /\ received r (firstn a tr) = accepted_by j (firstn a tr) /\
  (accepted_by j tr = accepted_by j (firstn a tr) ->
   received r tr = received r (firstn a tr) /\
   forall o a' b', In (MkNR r o a' b') (n_tr x) -> b <= a' -> o = Raise StopIteration).
Proof.
  intros P F c ls x H tr K R r q Hq j NA MF KU SO a b Hin.
  (* what holds at every look that is part of the history *)
  assert (AT : forall p1 p2 m q1 d, ls = p1 ++ p2 -> nx_history c p1 m -> nth_error (sb_rds (n_s m)) r = Some q1 -> buf_of (n_s m) (rd_sess q1) = Some d ->
    rd_sess q1 = j /\ firstn (length (sb_tr (n_s m))) tr = sb_tr (n_s m) /\ length (sb_tr (n_s m)) <= length tr /\
    (snd (run (read d (next_args (rd_r q1))) (rd_r q1)) = Ok VNone <-> received r (sb_tr (n_s m)) = accepted_by j (sb_tr (n_s m)))).
  { intros p1 p2 m q1 d E M1 M3 M4. assert (HX := H). rewrite E in HX. destruct (nx_prefix c p1 p2 x m HX M1) as (es & Et & RUN). fold tr in Et.
    assert (SJ : rd_sess q1 = j) by (exact (back_run c _ _ _ r q1 q RUN NA M3 Hq)). split; [assumption|]. split; [rewrite Et; now apply firstn_prefix|]. split; [rewrite Et, app_length; lia|].
    rewrite <- SJ. apply (look_complete P c (base_of c nx0 p1) (n_s m) r q1 d F (nx_base_history c p1 m M1)); auto.
    - rewrite Et in K. eapply sk_app; eauto.
    - rewrite Et in R. eapply sr_app; eauto.
    - rewrite Et in NA. eapply never_attached_app; eauto.
    - rewrite Et in MF. eapply mf_app; eauto.
    - rewrite SJ. apply (keeps_up_base c p1 m r j M1). intros p3 p4 m3 d3 -> M5. apply (KU p3 (p4 ++ p2) m3 d3); [|assumption]. rewrite E. now rewrite <- app_assoc.
    - rewrite SJ. rewrite Et in SO. unfold accepted_by in SO. rewrite flat_map_app in SO. now apply strictly_ordered_app in SO. }
  assert (STOPS : forall o a0 b0, In (MkNR r o a0 b0) (n_tr x) -> o = Raise StopIteration -> exists p1 p3 k p4, ls = p1 ++ NLook r :: p3 ++ NAsk k :: p4 /\ look_at c p1 r a0 (Ok VNone) /\ ask_at c (p1 ++ NLook r :: p3) r b0 o).
  { intros o a0 b0 Hi Eo. destruct (proj2 (nx_ok_all c ls x H) r o a0 b0 Hi) as (p1 & p2 & E & [((m & q1 & d & M1 & M2 & M3 & M4 & V) & _)|(L & p3 & k & p4 & -> & A)]).
    - exfalso. pose proof (nx_base_history c p1 m M1) as HM. assert (HX := H). rewrite E in HX. destruct (nx_prefix c p1 _ x m HX M1) as (es & Et & _). fold tr in Et.
      assert (K1 : stream_keys_in P c (sb_tr (n_s m))) by (rewrite Et in K; eapply sk_app; eauto). assert (MF1 : moves_forward r (sb_tr (n_s m))) by (rewrite Et in MF; eapply mf_app; eauto).
      destruct (att_history P c _ _ F HM r K1 MF1) as [I _]. rewrite M3 in I. destruct I as [HP AC].
      destruct (stream_buffer_in P c _ _ _ d HM K1 M4) as (BI & EK & NN & _).
      pose proof (C33_next_protocol P F d BI NN (rd_r q1) (at_cursor_in _ _ _ _ AC) false) as X. cbn zeta in X. destruct X as (_ & _ & _ & X & _). rewrite <- read_next, <- V, Eo in X.
      destruct (proj1 X eq_refl) as [_ X1]. discriminate X1.
    - exists p1, p3, k, p4. auto. }
  destruct (STOPS _ a b Hin eq_refl) as (p1 & p3 & k & p4 & E & (m & q1 & d & M1 & M2 & M3 & M4 & V) & (m2 & q2 & A1 & A2 & A3 & A4)).
  destruct (AT p1 _ m q1 d E M1 M3 M4) as (SJ & FT & LT1 & NONE). rewrite M2 in FT. rewrite <- V in NONE.
  assert (E' : ls = (p1 ++ NLook r :: p3) ++ NAsk k :: p4) by (rewrite E, <- app_assoc; reflexivity).
  assert (HX := H). rewrite E' in HX. destruct (nx_prefix c _ _ x m2 HX A1) as (es2 & Et2 & RUN2). fold tr in Et2.
  assert (S2 : rd_sess q2 = j) by (exact (back_run c _ _ _ r q2 q RUN2 NA A3 Hq)).
  assert (EV2 : ev_set (n_s m2) j = true).
  { rewrite <- S2, <- (rd_ev_sess c _ _ (nx_base_history c _ m2 A1) r q2 A3). destruct (ev_set (n_s m2) (rd_ev q2)); [reflexivity|discriminate]. }
  split. { rewrite <- M2, <- A2. exact (look_grows c p1 r m m2 p3 M1 A1). }
  split. { rewrite <- A2, Et2, app_length. lia. }
  split. { exact (ev_run c _ _ _ j RUN2 EV2). }
  split. { rewrite FT. now apply NONE. }
  intro SAME.
  assert (ALL : received r (firstn a tr) = accepted_by j (firstn a tr)) by (rewrite FT; now apply NONE).
  destruct (C75_keeps_up P F c _ _ (nx_base_history c ls x H) K r q Hq NA R MF (keeps_up_base c ls x r j H KU) SO) as (rest & ER). fold tr j in ER.
  assert (EQ : received r tr = received r (firstn a tr)).
  { rewrite SAME, <- ALL in ER. rewrite <- (firstn_skipn a tr) at 1. rewrite received_app. rewrite <- (firstn_skipn a tr) in ER at 2. rewrite received_app, <- app_assoc in ER.
    rewrite <- (app_nil_r (received r (firstn a tr))) in ER at 1. apply app_inv_head in ER. symmetry in ER. apply app_eq_nil in ER as [-> _]. now rewrite app_nil_r. }
  split; [assumption|].
  intros o a' b' Hi' LE. destruct (proj2 (nx_ok_all c ls x H) r o a' b' Hi') as (w1 & w2 & E2 & LK).
  assert (LA : exists v, look_at c w1 r a' v /\ (v = Ok VNone -> exists p3 k p4, w2 = p3 ++ NAsk k :: p4 /\ ask_at c (w1 ++ NLook r :: p3) r b' o)).
  { destruct LK as [(LK & NN)|(LK & X)]; [|eexists; split; [eassumption|auto]]. exists o. split; [assumption|]. intros ->. specialize (NN _ eq_refl). discriminate. }
  destruct LA as (v & (m' & q' & d' & B1 & B2 & B3 & B4 & V') & ASK).
  destruct (AT w1 _ m' q' d' E2 B1 B3 B4) as (SJ' & FT' & LT' & NONE'). rewrite B2 in FT', LT'. rewrite <- V' in NONE'.
  assert (AB : a < b) by (rewrite <- M2, <- A2; exact (look_grows c p1 r m m2 p3 M1 A1)).
  assert (v = Ok VNone) as ->.
  { apply NONE'. rewrite <- FT'. assert (P1 : firstn a' tr = firstn a tr ++ skipn a (firstn a' tr)).
    { rewrite <- (firstn_skipn a (firstn a' tr)) at 1. now rewrite firstn_firstn, Nat.min_l by lia. }
    assert (P2 : forall (f : list ev -> list pyval), (forall u w, f (u ++ w) = f u ++ f w) -> f tr = f (firstn a tr) -> f (firstn a' tr) = f (firstn a tr)).
    { intros f fa fe. rewrite <- (firstn_skipn a' tr) in fe at 1. rewrite fa, P1, fa, <- app_assoc in fe. rewrite <- (app_nil_r (f (firstn a tr))) in fe at 2. apply app_inv_head in fe. apply app_eq_nil in fe as [fe _].
      now rewrite P1, fa, fe, app_nil_r. }
    rewrite (P2 (received r) (received_app r) EQ), (P2 (accepted_by j) (acc_app j) SAME). assumption. }
  destruct (ASK eq_refl) as (p5 & k5 & p6 & EW & (m5 & q5 & C1 & C2 & C3 & ->)).
  (* the second call reads after the first one has returned *)
  assert (PRE : exists z, w1 = (p1 ++ NLook r :: p3) ++ z).
  { assert (EE : w1 ++ NLook r :: w2 = (p1 ++ NLook r :: p3) ++ NAsk k :: p4) by congruence.
    apply app_eq_app in EE as (z & [[Z1 _]|[Z1 Z2]]); [eauto|]. destruct z as [|z0 z]; [exists []; now rewrite app_nil_r in *|]. exfalso.
    cbn in Z2. injection Z2 as <- _. rewrite Z1 in A1. pose proof (look_grows c w1 r m' m2 z B1 A1). lia. }
  destruct PRE as (z & ->).
  assert (RUN5 : exists z5, sb_run c (n_s m2) z5 = Some (n_s m5)).
  { destruct (nx_prefix c (p1 ++ NLook r :: p3) (z ++ NLook r :: p5) m5 m2) as (e5 & _ & R5); [|assumption|eauto]. now rewrite app_assoc. }
  destruct RUN5 as (z5 & RUN5).
  assert (E5 : ls = ((((p1 ++ NLook r :: p3) ++ z) ++ NLook r :: p5) ++ NAsk k5 :: p6)) by (rewrite E2, EW, <- !app_assoc; cbn; rewrite <- ?app_assoc; reflexivity).
  assert (HX5 := H). rewrite E5 in HX5. destruct (nx_prefix c _ _ x m5 HX5 C1) as (e5 & Et5 & R5).
  assert (S5 : rd_sess q5 = j) by (exact (back_run c _ _ _ r q5 q R5 NA C3 Hq)).
  rewrite (rd_ev_sess c _ _ (nx_base_history c _ m5 C1) r q5 C3), S5, (ev_run c z5 _ _ j RUN5 EV2). reflexivity.
Qed.
Print Assumptions C106_stop_iteration_partial.

(** ** Concrete histories *)
Definition nx_end (c : cfg) (ls : list nlabel) : nxs := match nx_run c nx0 ls with Some x => x | None => nx0 end.
Definition nx_runs (c : cfg) (ls : list nlabel) : bool := match nx_run c nx0 ls with Some _ => true | None => false end.
Lemma nx_history_end c ls : nx_runs c ls = true -> nx_history c ls (nx_end c ls).
Proof. unfold nx_runs, nx_end, nx_history. now destruct (nx_run c nx0 ls). Qed.
Definition nx_keeps_upb (c : cfg) (ls : list nlabel) (r j : nat) : bool :=
  forallb (fun n => match nx_run c nx0 (firstn n ls) with
    | Some x => match buf_of (n_s x) j with Some d => length (accepted_by j (sb_tr (n_s x))) - length (sd_list d) <=? length (received r (sb_tr (n_s x))) | None => true end
    | None => true end) (seq 0 (S (length ls))).
Lemma nx_keeps_upb_spec c ls r j : nx_keeps_upb c ls r j = true -> nx_keeps_up c ls r j.
Proof.
  intros H pre post x d -> Hx Hd. unfold nx_keeps_upb in H. rewrite forallb_forall in H. specialize (H (length pre) ltac:(apply in_seq; rewrite app_length; lia)).
  rewrite firstn_app, Nat.sub_diag, firstn_all in H. cbn [firstn] in H. rewrite app_nil_r in H. unfold nx_history in Hx. rewrite Hx, Hd in H. now apply Nat.leb_le in H.
Qed.
Definition steps (ls : list label) : list nlabel := map NStep ls.

(** A quiet end: the thread has ended when the reader asks; it asks twice. *)
Definition nx_quiet : list nlabel :=
  steps (starting (PObj 7) ++ [StreamBufferM.LMk 1 false false true] ++ round 0 (PInt 1)) ++ [NLook 0] ++ steps (round 0 (PInt 2) ++ [LStop] ++ finish 0)
  ++ [NLook 0; NLook 0; NAsk 0; NLook 0; NAsk 0].
Example C106_nonvacuous :
  let x := nx_end cfg3 nx_quiet in let tr := sb_tr (n_s x) in
  nx_history cfg3 nx_quiet x /\ stream_keys_in is_int cfg3 tr /\ stream_ranges_in is_int cfg3 tr /\ never_attached 0 tr /\ moves_forward 0 tr /\ nx_keeps_up cfg3 nx_quiet 0 0 /\
  (exists q, nth_error (sb_rds (n_s x)) 0 = Some q /\ rd_sess q = 0) /\ accepted_by 0 tr = [PInt 1; PInt 2] /\ strictly_ordered (c_key cfg3) (accepted_by 0 tr) /\
  map (fun n => (nr_o n, nr_look n, nr_ret n)) (n_tr x) = [(Ok (VItem (PInt 1)), 7, 8); (Ok (VItem (PInt 2)), 12, 13); (Raise StopIteration, 13, 14); (Raise StopIteration, 14, 15)] /\
  accepted_by 0 tr = accepted_by 0 (firstn 13 tr).
Proof.
  cbn zeta. split; [apply nx_history_end; vm_compute; reflexivity|].
  destruct (ints_keys cfg3 (sb_tr (n_s (nx_end cfg3 nx_quiet))) eq_refl ltac:(vm_compute; reflexivity)) as [K1 K2]. split; [exact K1|]. split; [exact K2|]. clear K1 K2.
  split; [apply no_attach_never; vm_compute; reflexivity|]. split; [apply forwardb_spec; vm_compute; reflexivity|]. split; [apply nx_keeps_upb_spec; vm_compute; reflexivity|].
  split. { eexists. split; vm_compute; reflexivity. }
  assert (E : accepted_by 0 (sb_tr (n_s (nx_end cfg3 nx_quiet))) = [PInt 1; PInt 2]) by (vm_compute; reflexivity). rewrite E. split; [reflexivity|].
  split. { repeat (constructor; [|repeat (constructor; [do 2 eexists; repeat split; reflexivity|]); constructor]). constructor. }
  split; vm_compute; reflexivity.
Qed.

(** The claim fails: the call reads and finds nothing; then the thread appends 1, and the
    stream is stopped; then the call asks, and raises StopIteration although 1, appended
    before the stop, was not delivered. The next call returns it. *)
Definition nx_race : list nlabel :=
  steps (starting (PObj 7) ++ [StreamBufferM.LMk 1 false false true]) ++ [NLook 0] ++ steps (round 0 (PInt 1) ++ [LStop]) ++ [NAsk 0; NLook 0].
Theorem C106_append_before_stop_missed_refuted :
  exists c ls x r j i v t1 t2 t3 a b b', nx_history c ls x /\ never_attached r (sb_tr (n_s x)) /\ moves_forward r (sb_tr (n_s x)) /\ nx_keeps_up c ls r j /\
    session_of r (sb_tr (n_s x)) = Some j /\
    sb_tr (n_s x) = t1 ++ EAppend i j v (Ok tt) :: t2 ++ EStop (Ok j) :: t3 /\ length (t1 ++ EAppend i j v (Ok tt) :: t2 ++ [EStop (Ok j)]) <= b /\
    n_tr x = [MkNR r (Raise StopIteration) a b; MkNR r (Ok (VItem v)) b b'].
Proof.
  exists cfg3, nx_race, (nx_end cfg3 nx_race), 0, 0, 0, (PInt 1). do 3 eexists. exists 5, 9, 10.
  split; [apply nx_history_end; vm_compute; reflexivity|]. split; [apply no_attach_never; vm_compute; reflexivity|]. split; [apply forwardb_spec; vm_compute; reflexivity|].
  split; [apply nx_keeps_upb_spec; vm_compute; reflexivity|]. split; [vm_compute; reflexivity|].
  split.
  - vm_compute. match goal with |- ?L = _ => instantiate (3 := firstn 7 L); instantiate (2 := []); instantiate (1 := skipn 9 L) end. vm_compute. reflexivity.
  - split; [vm_compute; lia|]. vm_compute. reflexivity.
Qed.
Print Assumptions C106_append_before_stop_missed_refuted.
(** Even with each call undisturbed: stop(); next(reader) raises StopIteration; the thread,
    which had already read 1, appends it; next(reader) returns 1. StopIteration is not
    final. *)
Definition nx_late : list nlabel :=
  steps (starting (PObj 7) ++ [StreamBufferM.LMk 1 false false true; LT 0 (Ok PNone); LT 0 (Ok PNone); LT 0 (Ok (PInt 1)); LStop]) ++ [NLook 0; NAsk 0] ++ steps [LT 0 (Ok PNone); LT 0 (Ok PNone)] ++ [NLook 0].
Theorem C106_not_final_refuted :
  exists c ls x r v a b a' b', nx_history c ls x /\ never_attached r (sb_tr (n_s x)) /\ moves_forward r (sb_tr (n_s x)) /\ v <> PNone /\
    n_tr x = [MkNR r (Raise StopIteration) a b; MkNR r (Ok (VItem v)) a' b'] /\ b < a'.
Proof.
  exists cfg3, nx_late, (nx_end cfg3 nx_late), 0, (PInt 1). do 4 eexists.
  split; [apply nx_history_end; vm_compute; reflexivity|]. split; [apply no_attach_never; vm_compute; reflexivity|]. split; [apply forwardb_spec; vm_compute; reflexivity|].
  split; [discriminate|]. split; [vm_compute; reflexivity|]. vm_compute. lia.
Qed.
Print Assumptions C106_not_final_refuted.

(** ** When nothing more can be appended *)
Lemma accepted_step c s l s' j : sb_step c s l = Some s' -> accepted_by j (sb_tr s') = accepted_by j (sb_tr s) \/ exists i o x, l = LT i o /\ thread_is s i (TPut j x).
Proof.
  intro H. step_cases H; injection H as <-; proj; rewrite ?acc_app; cbn [accepted_by flat_map app]; rewrite ?app_nil_r; auto.
  match goal with |- context [if ?a =? j then _ else _] => destruct (Nat.eqb_spec a j) as [->|] end; [right|left; destruct r; now rewrite ?app_nil_r].
  do 3 eexists. split; [eassumption|]. eexists. split; eassumption.
Qed.
Definition past (n : nat) (s : sb) : Prop :=
  (length (sb_ss s) = n /\ all_ended s /\ match sb_start s with SOpen | SBuild | SSpawn => False | _ => True end) \/
  (n < length (sb_ss s) /\ forall i j x, thread_is s i (TPut j x) -> n <= j).
Lemma past_step c n s l s' : sinv s -> past n s -> sb_step c s l = Some s' -> past n s'.
Proof.
  intros I [(L & A & S)|(L & T)] H.
  - destruct (step_sessions c s l s' H) as [_ [L'|(SF & _ & EQ & SO)]].
    + left. split; [congruence|].
      assert (NL : forall k o, l <> LT k o).
      { intros k o ->. cbn in H. destruct (nth_error (sb_ss s) k) as [e|] eqn:Ek; [|discriminate]. apply (A k). apply alive_iff. exists e. split; [assumption|]. destruct (se_pc e); try reflexivity; discriminate H. }
      split.
      * intros k K. apply alive_iff in K as (e' & K1 & K2). assert (X : exists e, nth_error (sb_ss s) k = Some e) by (destruct (nth_error (sb_ss s) k) eqn:X; [eauto|apply nth_error_None in X; apply nth_lt in K1; lia]).
        destruct X as (e & X). destruct (step_frame c s l s' H k e X) as (e1 & X1 & [P|[(o & P)|(P & _)]] & _); [|exact (NL _ _ P)|rewrite P in S; exact S].
        apply (A k). apply alive_iff. exists e. split; [assumption|congruence].
      * destruct (step_start c s l s' H) as [[-> _]|[(_ & _ & -> & _)|(o & v & ->)]]; [assumption|exact Logic.I|].
        cbn in H. unfold start_step in H. cbn zeta in H. destruct (sb_start s); try contradiction; try discriminate H; injection H as <-; proj; try exact Logic.I; try (destruct (running s); exact Logic.I).
        all: try (match goal with |- context [if ?b then _ else _] => destruct b end; exact Logic.I).
        all: cbn [set_start set_ss sb_ss] in L'; rewrite app_length in L'; cbn in L'; lia.
    + right. rewrite EQ, app_length. cbn [length]. split; [lia|].
      intros i j x (e & E & P). exfalso. rewrite EQ in E. destruct (Nat.lt_ge_cases i (length (sb_ss s))) as [G|G].
      * rewrite nth_error_app1 in E by assumption. apply (A i). apply alive_iff. exists e. split; [assumption|]. now rewrite P.
      * rewrite nth_error_app2 in E by assumption. destruct (i - length (sb_ss s)) as [|z]; [injection E as <-; discriminate P|destruct z; discriminate E].
  - right. split. { destruct (step_sessions c s l s' H) as [_ [L'|(_ & _ & EQ & _)]]; [lia|]. rewrite EQ, app_length. lia. }
    intros i j x (e' & E & P).
    assert (X : (exists e, nth_error (sb_ss s) i = Some e) \/ e' = MkSess false None PNone TNew).
    { destruct (nth_error (sb_ss s) i) as [e|] eqn:X; [eauto|]. right. apply nth_error_None in X. destruct (step_sessions c s l s' H) as [_ [L'|(_ & _ & EQ & _)]]; [apply nth_lt in E; lia|].
      rewrite EQ, nth_error_app2 in E by assumption. destruct (i - length (sb_ss s)) as [|z]; [now injection E|destruct z; discriminate E]. }
    destruct X as [(e & X)| -> ]; [|discriminate P].
    destruct (step_frame c s l s' H i e X) as (e1 & X1 & [Q|[(o & ->)|(_ & _ & Q & _)]] & _); [apply (T i j x); exists e; split; [assumption|congruence]| |congruence].
    destruct (thread_move c s i o s' e H X) as (e2 & X2 & MV). assert (e2 = e') by congruence. subst e2. rewrite P in MV.
    destruct (se_pc e); try (destruct MV; fail); repeat (destruct MV as [MV|MV]); repeat match goal with X : _ /\ _ |- _ => destruct X | X : exists _, _ |- _ => destruct X end; try discriminate.
    all: try (destruct (running s); discriminate).
    all: try (destruct (Z.ltb _ _); discriminate).
    all: try (destruct o as [v|y]; [destruct (is_none v)|]; discriminate).
    all: try (match goal with X : TPut _ _ = (if ?b then _ else _) |- _ => destruct b; discriminate X end).
    match goal with X : TPut _ _ = TPut _ _ |- _ => injection X as <- <- end.
    match goal with X : sb_cur s = Some _ |- _ => destruct (si_cur s I _ X) end. lia.
Qed.
(** Once all reading threads have ended (and no start() is under way), nothing is ever
    appended again to any of the sessions there have been: so StopIteration is final. *)
Theorem C106_ended_means_complete_partial :
  forall c ls s, history c ls s -> all_ended s -> sb_start s = SFree -> forall j d, buf_of s j = Some d ->
  forall ls' s', sb_run c s ls' = Some s' -> accepted_by j (sb_tr s') = accepted_by j (sb_tr s).
Proof.
  intros c ls s H A F j d Hd ls' s' R.
  assert (LJ : j < length (sb_ss s)) by (unfold buf_of in Hd; destruct (nth_error (sb_ss s) j) eqn:E; [eapply nth_lt; eauto|discriminate]).
  enough (G : forall ls' s', sb_run c s ls' = Some s' -> past (length (sb_ss s)) s' /\ accepted_by j (sb_tr s') = accepted_by j (sb_tr s)) by (apply (G ls' s' R)).
  clear ls' s' R. induction ls' as [|l ls' IH] using rev_ind; intros s' R.
  - injection R as <-. split; [|reflexivity]. left. rewrite F. auto.
  - apply sb_run_snoc in R as (m & Hm & Hs). destruct (IH m Hm) as [P E].
    assert (Hm' : history c (ls ++ ls') m) by (unfold history in *; now rewrite sb_run_app, H).
    split; [exact (past_step c _ m l s' (sinv_history c _ m Hm') P Hs)|].
    destruct (accepted_step c m l s' j Hs) as [X|(i & o & x & -> & T)]; [congruence|]. exfalso. destruct P as [(_ & AE & _)|(_ & P)]; [|specialize (P i j x T); lia].
    apply (AE i). destruct T as (e & T1 & T2). apply alive_iff. exists e. split; [assumption|now rewrite T2].
Qed.
Print Assumptions C106_ended_means_complete_partial.
Example C106_ended_nonvacuous :
  let h := starting (PObj 7) ++ round 0 (PInt 1) ++ [LStop] ++ finish 0 in let s := end_of cfg3 h in
  let h' := starting (PObj 8) ++ round 1 (PInt 5) in
  history cfg3 h s /\ all_ended s /\ sb_start s = SFree /\ (exists d, buf_of s 0 = Some d /\ sd_list d = [PInt 1]) /\
  (exists s', sb_run cfg3 s h' = Some s' /\ accepted_by 1 (sb_tr s') = [PInt 5] /\ accepted_by 0 (sb_tr s') = [PInt 1]).
Proof.
  cbn zeta. split; [apply history_end; vm_compute; reflexivity|].
  split. { intros i A. apply alive_iff in A as (e & A1 & A2). destruct i as [|[|i]]; vm_compute in A1; [injection A1 as <-; discriminate A2|discriminate A1|discriminate A1]. }
  split; [vm_compute; reflexivity|]. split. { eexists. split; vm_compute; reflexivity. }
  eexists. split; [vm_compute; reflexivity|]. split; vm_compute; reflexivity.
Qed.
