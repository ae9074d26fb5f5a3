(** * Readers of a running, stopped or restarted stream: C35, C48, C75 *)
From Coq Require Import List ZArith Bool Arith Lia.
From Verif Require Import PyVal PyLib PyValFacts SortedDequeM Spec SpecDeque SpecReader SpecLog ListFacts Families DequeFacts DequeSearch
  BufferReaderM BufferSysM LogFacts LogReads LogKeepUp PropsLog StreamBufferM SpecStream StreamFacts StreamLife StreamInv StreamOrderly StreamView StreamReads.
Import ListNotations.

(** ** C75: under every schedule a reader sees an append-only log *)
Theorem C75_concurrent_log :
  forall P, total_family P -> forall c ls s, history c ls s ->
  stream_keys_in P c (sb_tr s) -> stream_ranges_in P c (sb_tr s) ->
  forall r q, nth_error (sb_rds s) r = Some q -> never_attached r (sb_tr s) ->
  strictly_ordered (c_key c) (accepted_by (rd_sess q) (sb_tr s)) ->
  map snd (view r (rd_sess q) (sb_tr s)) =
  snd (log_run (c_key c) (option_map Z.to_nat (c_maxlen c)) empty_log (map fst (view r (rd_sess q) (sb_tr s)))).
Proof.
  intros P F c ls s H K R r q Hq NA SO. destruct (reader_init c ls s r q H Hq) as (d0 & d & D0 & _).
  pose proof (view_history c d0 ls s H D0 r (rd_sess q) NA) as V.
  pose proof (C19_log_with_cursors P F (c_key c) (c_maxlen c) d0 D0 (map fst (view r (rd_sess q) (sb_tr s))) (view_ok P c ls s r _ H K R)) as X.
  rewrite V in X by congruence. cbn [snd] in X. apply X. now rewrite accepted_view.
Qed.
Print Assumptions C75_concurrent_log.
(** With auto_drop (the default) nothing needs to be assumed of the source's order. *)
Theorem C75_auto_drop :
  forall P, total_family P -> forall c ls s, history c ls s -> c_auto c = PBool true -> c_maxlen c <> Some 0%Z ->
  stream_keys_in P c (sb_tr s) -> stream_ranges_in P c (sb_tr s) ->
  forall r q, nth_error (sb_rds s) r = Some q -> never_attached r (sb_tr s) ->
  strictly_ordered (c_key c) (accepted_by (rd_sess q) (sb_tr s)) /\
  map snd (view r (rd_sess q) (sb_tr s)) =
  snd (log_run (c_key c) (option_map Z.to_nat (c_maxlen c)) empty_log (map fst (view r (rd_sess q) (sb_tr s)))).
Proof.
  intros P F c ls s H A M K R r q Hq NA. rewrite <- is_True_iff in A.
  assert (SO : strictly_ordered (c_key c) (accepted_by (rd_sess q) (sb_tr s))) by (eapply accepted_ordered; eauto using auto_no_drops).
  split; [assumption|]. eapply C75_concurrent_log; eauto.
Qed.
Print Assumptions C75_auto_drop.
(** A reader that only moves forward never sees an item twice or out of order, and sees only
    items of its own session. *)
Theorem C75_never_repeats :
  forall P, total_family P -> forall c ls s, history c ls s -> stream_keys_in P c (sb_tr s) ->
  forall r q, nth_error (sb_rds s) r = Some q -> never_attached r (sb_tr s) -> stream_ranges_in P c (sb_tr s) -> moves_forward r (sb_tr s) ->
  strictly_ordered (c_key c) (received r (sb_tr s)) /\ subseq (received r (sb_tr s)) (accepted_by (rd_sess q) (sb_tr s)).
Proof.
  intros P F c ls s H K r q Hq NA R MF. destruct (reader_init c ls s r q H Hq) as (d0 & d & D0 & _).
  pose proof (view_history c d0 ls s H D0 r (rd_sess q) NA) as V.
  pose proof (C21_reads_never_repeat P F (c_key c) (c_maxlen c) d0 D0 (map fst (view r (rd_sess q) (sb_tr s))) (view_ok P c ls s r _ H K R) 0 (view_forward c ls s r _ H MF)) as X.
  rewrite V in X by congruence. cbn [snd] in X. cbn zeta in X. rewrite accepted_view, got_view in X. tauto.
Qed.
Print Assumptions C75_never_repeats.
(** One that also keeps up has got exactly the first items of its session. *)
Theorem C75_keeps_up :
  forall P, total_family P -> forall c ls s, history c ls s -> stream_keys_in P c (sb_tr s) ->
  forall r q, nth_error (sb_rds s) r = Some q -> never_attached r (sb_tr s) -> stream_ranges_in P c (sb_tr s) -> moves_forward r (sb_tr s) ->
  reader_keeps_up c ls r (rd_sess q) -> strictly_ordered (c_key c) (accepted_by (rd_sess q) (sb_tr s)) ->
  exists rest, accepted_by (rd_sess q) (sb_tr s) = received r (sb_tr s) ++ rest.
Proof.
  intros P F c ls s H K r q Hq NA R MF KU SO. destruct (reader_init c ls s r q H Hq) as (d0 & d & D0 & _).
  pose proof (view_history c d0 ls s H D0 r (rd_sess q) NA) as V.
  assert (J : forall q', nth_error (sb_rds s) r = Some q' -> rd_sess q' = rd_sess q) by congruence.
  pose proof (C22_keeps_up_misses_nothing P F (c_key c) (c_maxlen c) d0 D0 (map fst (view r (rd_sess q) (sb_tr s))) (view_ok P c ls s r _ H K R) 0 (view_forward c ls s r _ H MF)
    (view_keeps c d0 D0 ls s H r _ KU NA J)) as X.
  rewrite V in X by congruence. cbn [snd] in X. cbn zeta in X. rewrite accepted_view, got_view in X. now apply X.
Qed.
Print Assumptions C75_keeps_up.

(** A concrete history: two readers made while the thread is reading, an eviction. *)
Definition ident (x : pyval) : res pyval := Ok x.
Definition cfg3 : cfg := MkCfg ident (Some 3%Z) (PBool true).
Definition starting (info : pyval) : list label := LStart :: repeat (LS (Ok tt) (Ok info)) 7.
(** One round of thread [i] that reads and appends [x]. *)
Definition round (i : nat) (x : pyval) : list label := [LT i (Ok PNone); LT i (Ok PNone); LT i (Ok x); LT i (Ok PNone); LT i (Ok PNone)].
Definition conc_hist : list label :=
  starting (PObj 7) ++ round 0 (PInt 1) ++ [StreamBufferM.LMk 1 false false true] ++ round 0 (PInt 2) ++ [LCallR 0 (CNext false); StreamBufferM.LMk 2 false false true]
  ++ round 0 (PInt 4) ++ [LCallR 1 (CRead (MkRA None None None None)); LCallR 0 (CNext false)] ++ round 0 (PInt 9)
  ++ [LCallR 0 (CRange (MkRG (PInt 2) (PInt 4) None true None false false false)); LCallR 0 (CNext false); LStop].
Definition end_of (c : cfg) (ls : list label) : sb := match sb_run c sb0 ls with Some s => s | None => sb0 end.
Definition runs (c : cfg) (ls : list label) : bool := match sb_run c sb0 ls with Some _ => true | None => false end.
Lemma history_end c ls : runs c ls = true -> history c ls (end_of c ls).
Proof. unfold runs, end_of, history. now destruct (sb_run c sb0 ls). Qed.
(** Every key and range bound in the trace is an int. *)
Definition ints_ok (tr : list ev) : bool :=
  forallb (fun e => match e with
    | EAppend _ _ (PInt _) _ => true | EAppend _ _ _ _ => false
    | ECall _ (CRange (MkRG (PInt _) (PInt _) _ _ _ false _ _)) _ => true | ECall _ (CRange _) _ => false
    | _ => true end) tr.
Lemma ints_keys c tr : c_key c = ident -> ints_ok tr = true -> stream_keys_in is_int c tr /\ stream_ranges_in is_int c tr.
Proof.
  intros E H. unfold ints_ok in H. rewrite forallb_forall in H. split.
  - intros i j x o k Hin Hk. rewrite E in Hk. specialize (H _ Hin). cbn in H. destruct x; try discriminate. injection Hk as <-. eexists. reflexivity.
  - intros r g o Hin. specialize (H _ Hin). destruct g as [[] [] ? ? ? [] ? ?]; try discriminate H. cbn. repeat split; try discriminate; eexists; reflexivity.
Qed.
Definition no_attach (tr : list ev) : bool := forallb (fun e => match e with EAttach _ _ => false | _ => true end) tr.
Lemma no_attach_never r tr : no_attach tr = true -> never_attached r tr.
Proof. intros H j X. unfold no_attach in H. rewrite forallb_forall in H. specialize (H _ X). discriminate. Qed.
Definition forwardb (r : nat) (tr : list ev) : bool :=
  forallb (fun e => match e with
    | ENew r' _ _ p _ _ => negb (Nat.eqb r' r) || negb p
    | ECall r' (CRead a) _ => negb (Nat.eqb r' r) || negb (dflt (a_peek a) false)
    | ECall r' (CNext _) _ => true
    | ECall r' _ _ => negb (Nat.eqb r' r)
    | _ => true end) tr.
Lemma forwardb_spec r tr : forwardb r tr = true -> moves_forward r tr.
Proof.
  intros H e Hin. unfold forwardb in H. rewrite forallb_forall in H. specialize (H e Hin).
  destruct e as [| | | | | | | | |r' j n p st ig| | | | |r' cc o| |]; auto; [|destruct cc; auto]; 
    try intros ->; try intro X; subst; rewrite ?Nat.eqb_refl in H; cbn in H; try discriminate; try (destruct p; auto; discriminate); destruct (dflt _ _); auto; discriminate.
Qed.
Fixpoint keeps_upb (c : cfg) (r j : nat) (s : sb) (ls : list label) : bool :=
  match buf_of s j with Some d => Nat.leb (length (accepted_by j (sb_tr s)) - length (sd_list d)) (length (received r (sb_tr s))) | None => true end &&
  match ls with [] => true | l :: q => match sb_step c s l with Some s' => keeps_upb c r j s' q | None => true end end.
Lemma keeps_upb_spec c r j ls : keeps_upb c r j sb0 ls = true -> reader_keeps_up c ls r j.
Proof.
  assert (G : forall ls s0, keeps_upb c r j s0 ls = true -> forall pre post s d, ls = pre ++ post -> sb_run c s0 pre = Some s -> buf_of s j = Some d ->
    length (accepted_by j (sb_tr s)) - length (sd_list d) <= length (received r (sb_tr s))).
  { intro l0. induction l0 as [|l q IH]; intros s0 H pre post s d E R B.
    - symmetry in E. apply app_eq_nil in E as [-> ->]. injection R as <-. cbn in H. rewrite B in H. rewrite andb_true_r in H. now apply Nat.leb_le.
    - destruct pre as [|l' pre].
      + injection R as <-. cbn [keeps_upb] in H. rewrite B in H. apply andb_true_iff in H as [H _]. now apply Nat.leb_le.
      + injection E as <- E. cbn in R. cbn [keeps_upb] in H. apply andb_true_iff in H as [_ H].
        destruct (sb_step c s0 l) as [s1|]; [|discriminate]. eapply IH; eauto. }
  intros H pre post s d E Hs B. eapply G; eauto.
Qed.
Definition conc_end : sb := end_of cfg3 conc_hist.
Example C75_nonvacuous :
  history cfg3 conc_hist conc_end /\ stream_keys_in is_int cfg3 (sb_tr conc_end) /\ stream_ranges_in is_int cfg3 (sb_tr conc_end) /\
  (exists q, nth_error (sb_rds conc_end) 0 = Some q /\ rd_sess q = 0) /\ (exists q, nth_error (sb_rds conc_end) 1 = Some q) /\
  never_attached 0 (sb_tr conc_end) /\ moves_forward 1 (sb_tr conc_end) /\ reader_keeps_up cfg3 conc_hist 1 0 /\
  accepted_by 0 (sb_tr conc_end) = [PInt 1; PInt 2; PInt 4; PInt 9] /\
  received 0 (sb_tr conc_end) = [PInt 1; PInt 2; PInt 2; PInt 4; PInt 4] /\
  received 1 (sb_tr conc_end) = [PInt 1; PInt 2].
Proof.
  split; [apply history_end; vm_compute; reflexivity|].
  destruct (ints_keys cfg3 (sb_tr conc_end) eq_refl) as [A B]; [vm_compute; reflexivity|]. split; [exact A|]. split; [exact B|].
  split; [eexists; split; vm_compute; reflexivity|]. split; [eexists; vm_compute; reflexivity|].
  split; [apply no_attach_never; vm_compute; reflexivity|]. split; [apply forwardb_spec; vm_compute; reflexivity|].
  split; [apply keeps_upb_spec; vm_compute; reflexivity|]. vm_compute. repeat split; reflexivity.
Qed.

(** ** C35: a for loop over a stopped stream *)
(** What holds: when the loop ends because the stream is stopped, it has yielded everything
    that was in the buffer at its last look. Missing: items appended between that look and
    the stop. *)
Theorem C35_loop_delivers_partial :
  forall P, total_family P -> forall c ls s, history c ls s -> stream_keys_in P c (sb_tr s) -> stream_ranges_in P c (sb_tr s) ->
  forall r q, nth_error (sb_rds s) r = Some q -> never_attached r (sb_tr s) -> loop_only r (sb_tr s) -> moves_forward r (sb_tr s) ->
  reader_keeps_up c ls r (rd_sess q) -> strictly_ordered (c_key c) (accepted_by (rd_sess q) (sb_tr s)) ->
  rd_loop q = ItEnd ->
  (exists e, last_poll r (sb_tr s) = Some (Raise e)) \/
  (ev_set s (rd_sess q) = true /\
   exists t1 t2, sb_tr s = t1 ++ EPoll r (Ok VNone) :: t2 /\ last_poll r t2 = None /\
     flat_map items_of (rd_out q) = accepted_by (rd_sess q) t1).
Proof.
  intros P F c ls s H K R r q Hq NA LO MF KU SO EL.
  destruct (loop_history c ls s H r q NA Hq) as [IO IL]. rewrite EL in IL. destruct IL as [[IL1 IL2]|IL]; [right|now left].
  split; [assumption|]. destruct (last_poll_split r (sb_tr s) _ IL1) as (t1 & t2 & Et & L2). exists t1, t2. split; [assumption|]. split; [assumption|].
  rewrite IO, Et.
  assert (Y : yielded r (t1 ++ EPoll r (Ok VNone) :: t2) = yielded r t1).
  { unfold yielded. rewrite flat_map_app. cbn [flat_map rval_is_none is_none negb andb app]. rewrite Nat.eqb_refl. cbn.
    fold (yielded r t2). rewrite (last_poll_none_yielded r t2 L2). apply app_nil_r. }
  rewrite Y, <- loop_only_received.
  2:{ intros e He. apply LO. rewrite Et. apply in_or_app. now left. }
  eapply (poll_none_got P c ls s r q t1 t2); eauto.
  - rewrite Et in SO. unfold accepted_by in SO. rewrite flat_map_app in SO. now apply strictly_ordered_app in SO.
  - eapply made_before_poll; eauto.
Qed.
Print Assumptions C35_loop_delivers_partial.
(** Reading ahead of the source, then a stop: the loop's last look found nothing. *)
Definition loop_hist : list label :=
  starting (PObj 7) ++ [StreamBufferM.LMk 1 false false true] ++ round 0 (PInt 1) ++ [LIter 0] ++ round 0 (PInt 2) ++ [LIter 0; LIter 0; LStop; LIter 0].
Definition loop_end : sb := end_of cfg3 loop_hist.
Example C35_nonvacuous :
  history cfg3 loop_hist loop_end /\ stream_keys_in is_int cfg3 (sb_tr loop_end) /\ loop_only 0 (sb_tr loop_end) /\ moves_forward 0 (sb_tr loop_end) /\
  never_attached 0 (sb_tr loop_end) /\ reader_keeps_up cfg3 loop_hist 0 0 /\
  (exists q, nth_error (sb_rds loop_end) 0 = Some q /\ rd_sess q = 0 /\ rd_loop q = ItEnd /\ rd_out q = [VItem (PInt 1); VItem (PInt 2)]).
Proof.
  split; [apply history_end; vm_compute; reflexivity|].
  destruct (ints_keys cfg3 (sb_tr loop_end) eq_refl) as [A B]; [vm_compute; reflexivity|]. split; [exact A|].
  split. { unfold loop_only. apply Forall_forall. vm_compute. repeat constructor. }
  split; [apply forwardb_spec; vm_compute; reflexivity|].
  split; [apply no_attach_never; vm_compute; reflexivity|]. split; [apply keeps_upb_spec; vm_compute; reflexivity|].
  eexists. split; [vm_compute; reflexivity|]. repeat split.
Qed.
(** The statement itself fails: the loop looks, finds nothing; the thread appends 1; stop();
    the loop now sees the event and ends without having yielded 1. *)
Definition race_hist : list label :=
  starting (PObj 7) ++ [StreamBufferM.LMk 1 false false true; LIter 0] ++ round 0 (PInt 1) ++ [LStop; LIter 0].
Theorem C35_last_items_lost_refuted :
  exists c ls s r q i j x t1 t2 t3, history c ls s /\ nth_error (sb_rds s) r = Some q /\ never_attached r (sb_tr s) /\ loop_only r (sb_tr s) /\
    moves_forward r (sb_tr s) /\ reader_keeps_up c ls r j /\ rd_sess q = j /\ rd_loop q = ItEnd /\
    sb_tr s = t1 ++ EAppend i j x (Ok tt) :: t2 ++ EStop (Ok j) :: t3 /\ rd_out q = [].
Proof.
  exists cfg3, race_hist, (end_of cfg3 race_hist), 0. eexists. exists 0, 0, (PInt 1). do 3 eexists.
  split; [apply history_end; vm_compute; reflexivity|]. split; [vm_compute; reflexivity|].
  split; [apply no_attach_never; vm_compute; reflexivity|].
  split. { unfold loop_only. apply Forall_forall. vm_compute. repeat constructor. }
  split; [apply forwardb_spec; vm_compute; reflexivity|]. split; [apply keeps_upb_spec; vm_compute; reflexivity|].
  split; [reflexivity|]. split; [reflexivity|]. split; [|reflexivity].
  vm_compute. instantiate (3 := [EOpen 0 (Ok tt); EBuilt 0 (PObj 7); EStarted 0; ENew 0 0 1 false false true; EMk (Ok 0); EPoll 0 (Ok VNone); ERead 0 (Ok (PInt 1))]).
  instantiate (2 := []). instantiate (1 := []). reflexivity.
Qed.
Print Assumptions C35_last_items_lost_refuted.

(** ** C48: readers of an earlier session *)
Lemma open_lt c ls s : history c ls s -> forall k o, In (EOpen k o) (sb_tr s) -> k < length (sb_ss s).
Proof.
  intro H. revert ls s H. apply (sb_ind c (fun _ s => forall k o, In (EOpen k o) (sb_tr s) -> k < length (sb_ss s))).
  - intros k o [].
  - intros ls s l s' Hh IH H k o Hin. pose proof (StreamLife.step_length c s l s' H) as L. pose proof (si_new _ (sinv_history c ls s Hh)) as I3.
    assert (X : In (EOpen k o) (sb_tr s) \/ (sb_start s = SOpen /\ k = latest s)).
    { clear IH L. step_cases H; injection H as <-; proj; repeat rewrite in_app_iff in Hin;
        repeat (destruct Hin as [Hin|Hin]; [|cbn in Hin; destruct Hin as [Hin|[]]; try discriminate Hin]); eauto; injection Hin as <- <-; auto. }
    destruct X as [X|[X ->]]; [specialize (IH k o X); lia|]. rewrite X in I3. destruct I3 as (e & He & _). apply nth_lt in He. lia.
Qed.
(** A step on a session that is not the current one makes nobody a writer of it. *)
Lemma unwritten_step c j s l s' : sinv s -> sb_step c s l = Some s' -> S j < length (sb_ss s) -> no_writer s j -> no_writer s' j.
Proof.
  intros I H L [NT ND]. assert (NC : sb_cur s <> Some j) by (intro C1; destruct (si_cur _ I j C1); lia). split.
  - intros i x (e' & He' & P). destruct (step_new c s l s' H i e' He') as [(e & He)|(_ & -> & _)]; [|discriminate].
    destruct (step_frame c s l s' H i e He) as (e1 & H1 & [Q|[[o ->]|(_ & _ & Q & _)]] & _); assert (e1 = e') by congruence; subst e1; [|clear H1|congruence].
    + apply (NT i x). exists e. split; congruence.
    + destruct (thread_move c s i o s' e H He) as (e1 & H1 & MV). assert (e1 = e') by congruence. subst e1. rewrite P in MV.
      destruct (se_pc e) eqn:Ep; try (destruct MV; fail); try discriminate MV.
      * destruct (running s); discriminate.
      * destruct MV as [[_ MV]|[[_ [y MV]]|(_ & j0 & _ & MV)]]; discriminate.
      * destruct MV as [[y MV]|(d & m & _ & _ & MV)]; [discriminate|]. destruct (_ <? _)%Z; discriminate.
      * destruct o; [destruct (is_none a)|]; discriminate.
      * destruct MV as [[y MV]|(j0 & C1 & MV)]; [discriminate|]. injection MV as -> ->. auto.
      * destruct MV as [MV|[y MV]]; discriminate.
      * destruct o; discriminate.
      * destruct (running s); discriminate.
      * destruct MV; discriminate.
  - intros n Hin. apply (ND n). clear NT ND I. step_cases H; injection H as <-; proj; auto.
    + apply in_app_or in Hin as [Hin|[Hin|[]]]; [assumption|]. exfalso. congruence.
    + eapply in_removed; exact Hin.
Qed.
Lemma frozen_run c j ls : forall s s', sinv s -> sb_run c s ls = Some s' -> S j < length (sb_ss s) -> no_writer s j ->
  buf_of s' j = buf_of s j /\ S j < length (sb_ss s') /\ no_writer s' j.
Proof.
  induction ls as [|l q IH]; intros s s' I H L NW; cbn in H; [injection H as <-; auto|].
  destruct (sb_step c s l) as [m|] eqn:E; [|discriminate].
  assert (Lm : S j < length (sb_ss m)) by (pose proof (StreamLife.step_length _ _ _ _ E); lia).
  destruct (IH m s' (sinv_step c s l m I E) H Lm (unwritten_step c j s l m I E L NW)) as [B1 B2]. split; [|assumption]. rewrite B1.
  destruct NW as [NT ND].
  destruct (step_buf c s l m I E j) as [[X _]|[(d & o & [(i & o1 & e & x & -> & Q1 & Q2)|(k & n & -> & Q1)] & _)|(d0 & o & v & S1 & _ & EL & _)]]; [assumption|exfalso..].
  - apply (NT i x). exists e. auto.
  - apply (ND n). eapply nth_error_In; eauto.
  - unfold latest in EL. lia.
Qed.
Lemma frozen_view c d0 j r ls : sd_init [] (c_key c) (c_maxlen c) = Ok d0 -> forall s s', sinv s -> sb_run c s ls = Some s' -> S j < length (sb_ss s) -> no_writer s j ->
  never_attached r (sb_tr s') -> (exists q, nth_error (sb_rds s) r = Some q) -> (forall q, nth_error (sb_rds s') r = Some q -> rd_sess q = j) ->
  exists es, sb_tr s' = sb_tr s ++ es /\ Forall is_call (map fst (view r j es)) /\
    bsys_run (MkBS (bufd d0 s j) (rdl s r)) (map fst (view r j es)) = (MkBS (bufd d0 s' j) (rdl s' r), map snd (view r j es)).
Proof.
  intro D0. induction ls as [|l ls IH] using rev_ind; intros s s' I H L NW NA EX J'.
  - injection H as <-. exists []. rewrite app_nil_r. cbn. auto.
  - apply sb_run_snoc in H as (m & Hm & H).
    assert (Im : sinv m) by (revert Hm; apply (run_ind c s sinv I); intros; eapply sinv_step; eauto).
    destruct (frozen_run c j ls s m I Hm L NW) as (_ & Lm & [NT ND]).
    destruct (step_trace c m l s' H) as (e1 & E1).
    assert (J : forall q, nth_error (sb_rds m) r = Some q -> rd_sess q = j) by (intros; eapply back_session; eauto).
    destruct (IH s m I Hm L NW) as (es & Et & Fc & Er); auto. { rewrite E1 in NA. eapply never_attached_app; eauto. }
    destruct (view_step c d0 m l s' r j D0 Im H J J') as (es2 & Et2 & L1 & Er2).
    exists (es ++ es2). rewrite Et2, Et, app_assoc. split; [reflexivity|]. rewrite view_app, !map_app. split.
    + apply Forall_app. split; [assumption|].
      assert (XR : exists q, nth_error (sb_rds m) r = Some q).
      { destruct EX as [q EX]. apply nth_lt in EX. assert (LR : length (sb_rds s) <= length (sb_rds m)).
        { revert Hm. apply (run_ind c s (fun x => length (sb_rds s) <= length (sb_rds x))); [lia|]. intros a b x A B.
          assert (length (sb_rds a) <= length (sb_rds x)) by (clear - B; step_cases B; injection B as <-; proj; rewrite ?set_nth_length, ?app_length; lia). lia. }
        destruct (nth_error (sb_rds m) r) eqn:E; [eauto|]. apply nth_error_None in E. lia. }
      destruct XR as [qm Hqm].
      assert (NC : sb_cur m <> Some j) by (intro C1; destruct (si_cur _ Im j C1); lia).
      clear - Hqm Et2 H NC NT ND. assert (EE := Et2). clear Et2. 
      step_cases H; injection H as <-; proj; rewrite <- ?app_assoc in EE;
        try (apply app_inv_head in EE; subst es2); try (rewrite <- (app_nil_r (sb_tr m)) in EE at 1; apply app_inv_head in EE; subst es2);
        unfold view; cbn [app flat_map view_ev]; rewrite ?app_nil_r;
        repeat match goal with |- context [Nat.eqb ?a ?b] => destruct (Nat.eqb_spec a b) as [?|?] end; try (cbn; repeat constructor; fail);
        subst; try (exfalso; congruence); try (apply nth_lt in Hqm; lia).
      * exfalso. eapply ND, nth_error_In; eassumption.
      * exfalso. eapply NT. eexists. split; eassumption.
    + rewrite run_app, Er. cbn [fst snd]. rewrite Er2. reflexivity.
Qed.
(** A superseded session's event stays set; once nobody is about to write to its buffer
    ([no_writer]) that never changes again, and every call of its readers (also the steps of
    their for loops) answers as on that fixed buffer. Missing from the full claim: the writer
    that took hold of the buffer before the restart, see [C48_late_append_refuted] and
    [C48_late_drop_refuted]. *)
Theorem C48_old_sessions_frozen_partial :
  forall c ls s, history c ls s -> forall j, superseded j (sb_tr s) -> no_writer s j ->
  forall ls' s', sb_run c s ls' = Some s' ->
  buf_of s' j = buf_of s j /\ ev_set s' j = true /\
  forall r q d, nth_error (sb_rds s) r = Some q -> rd_sess q = j -> buf_of s j = Some d -> never_attached r (sb_tr s') ->
  exists es, sb_tr s' = sb_tr s ++ es /\ Forall is_call (map fst (view r j es)) /\
    map snd (view r j es) = snd (bsys_run (MkBS d [rd_r q]) (map fst (view r j es))).
Proof.
  intros c ls s H j (k & o & Hk & Hin) NW ls' s' H'. pose proof (open_lt c ls s H k o Hin) as L.
  pose proof (sinv_history c ls s H) as I. assert (Hs' : history c (ls ++ ls') s') by (unfold history; rewrite sb_run_app; unfold history in H; now rewrite H).
  destruct (frozen_run c j ls' s s' I H') as (B & L' & _); [lia|assumption|]. split; [assumption|]. split.
  - unfold ev_set. destruct (nth_error (sb_ss s') j) as [e|] eqn:Ej; [|apply nth_error_None in Ej; lia].
    exact (ev_old _ (evinv_history c _ s' Hs') j e Ej L').
  - intros r q d Hq Ej Ed NA. destruct (reader_init c ls s r q H Hq) as (d0 & _ & D0 & _).
    destruct (frozen_view c d0 j r ls' D0 s s' I H') as (es & Et & Fc & Er); [lia|assumption|assumption|eauto| |].
    + intros q' Hq'. assert (X : rd_sess q' = rd_sess q); [|congruence].
      clear - Hs' H H' NA Hq Hq'. revert s' q' H' Hq' NA Hs'. induction ls' as [|l ls' IH] using rev_ind; intros s' q' H' Hq' NA Hs'.
      * injection H' as <-. congruence.
      * apply sb_run_snoc in H' as (m & Hm & H1). assert (XR : exists qm, nth_error (sb_rds m) r = Some qm).
        { apply nth_lt in Hq. assert (LR : length (sb_rds s) <= length (sb_rds m)).
          { revert Hm. apply (run_ind c s (fun x => length (sb_rds s) <= length (sb_rds x))); [lia|]. intros a b x A B.
            assert (length (sb_rds a) <= length (sb_rds x)) by (clear - B; step_cases B; injection B as <-; proj; rewrite ?set_nth_length, ?app_length; lia). lia. }
          destruct (nth_error (sb_rds m) r) eqn:E; [eauto|]. apply nth_error_None in E. lia. }
        destruct XR as [qm Hqm]. destruct (step_trace c m l s' H1) as (e1 & E1).
        destruct (sess_keep c m l s' r qm q' H1 Hqm Hq') as [->|(k & X)]; [|exfalso; exact (NA k X)].
        apply (IH m qm Hm Hqm); [rewrite E1 in NA; eapply never_attached_app; eauto|]. unfold history in *. now rewrite sb_run_app, H.
    + exists es. split; [assumption|]. split; [assumption|]. unfold bufd, rdl in Er. rewrite Ed, Hq in Er. now rewrite Er.
Qed.
Print Assumptions C48_old_sessions_frozen_partial.
(** Two sessions; the reader of the first goes on reading after the second has got data. *)
Definition finish (i : nat) : list label := [LT i (Ok PNone); LT i (Ok PNone); LT i (Ok PNone)].
Definition two_sessions : list label :=
  starting (PObj 7) ++ [StreamBufferM.LMk 1 false false true] ++ round 0 (PInt 1) ++ round 0 (PInt 2) ++ [LCallR 0 (CNext false); LStop] ++ finish 0 ++ starting (PObj 8).
Definition after : list label := round 1 (PInt 50) ++ [LCallR 0 (CNext false); LIter 0; LIter 0].
Example C48_nonvacuous :
  exists s s', history cfg3 two_sessions s /\ superseded 0 (sb_tr s) /\ no_writer s 0 /\ sb_run cfg3 s after = Some s' /\
  (exists q d, nth_error (sb_rds s) 0 = Some q /\ rd_sess q = 0 /\ buf_of s 0 = Some d /\ sd_list d = [PInt 1; PInt 2]) /\ never_attached 0 (sb_tr s') /\
  view 0 0 (sb_tr s') = view 0 0 (sb_tr s) ++ [(LCall 0 (CNext true), OVal (Ok (VItem (PInt 2)))); (LCall 0 (CNext false), OVal (Ok VNone))] /\
  (exists q, nth_error (sb_rds s') 0 = Some q /\ rd_loop q = ItEnd).
Proof.
  exists (end_of cfg3 two_sessions), (end_of cfg3 (two_sessions ++ after)). split; [apply history_end; vm_compute; reflexivity|].
  split. { exists 1, (Ok tt). split; [lia|]. vm_compute. repeat (try (left; reflexivity); right). }
  split. { split; [|intros n X; vm_compute in X; exact X]. intros [|[|i]] x (e & He & P); vm_compute in He; try (injection He as <-; discriminate P). destruct i; discriminate He. }
  split; [vm_compute; reflexivity|]. split. { do 2 eexists. split; [vm_compute; reflexivity|]. split; [vm_compute; reflexivity|]. split; vm_compute; reflexivity. }
  split; [apply no_attach_never; vm_compute; reflexivity|]. split; [vm_compute; reflexivity|]. eexists. split; vm_compute; reflexivity.
Qed.
(** In particular: when start() is only called after the old threads have ended, and no
    drop() is under way, every superseded session is frozen. *)
Theorem C48_orderly_frozen_partial :
  forall c ls s, history c ls s -> orderly c ls -> sb_dr s = [] -> forall j, superseded j (sb_tr s) ->
  forall ls' s', sb_run c s ls' = Some s' -> buf_of s' j = buf_of s j.
Proof.
  intros c ls s H O D j SU ls' s' H'. refine (proj1 (C48_old_sessions_frozen_partial c ls s H j SU _ ls' s' H')).
  destruct SU as (k & o & Hk & Hin). pose proof (open_lt c ls s H k o Hin) as L. split; [|rewrite D; intros n []].
  intros i x (e & He & P). pose proof (held_own c ls s i e j H O He (or_intror (ex_intro _ x P))) as ->.
  assert (A : alive s i) by (apply alive_iff; exists e; split; [assumption|now rewrite P]).
  destruct (alive_latest c ls s i H O A). lia.
Qed.
Print Assumptions C48_orderly_frozen_partial.
(** The old thread has read an item and loaded the old buffer when the stream is restarted:
    the item goes to the old session after the new one has started. *)
Definition late_put : list label :=
  starting (PObj 7) ++ [StreamBufferM.LMk 1 false false true] ++ round 0 (PInt 1) ++
  [LT 0 (Ok PNone); LT 0 (Ok PNone); LT 0 (Ok (PInt 2)); LT 0 (Ok PNone); LStart] ++ repeat (LS (Ok tt) (Ok (PObj 8))) 9.
Theorem C48_late_append_refuted :
  exists c ls s i x s' d d', history c ls s /\ superseded 0 (sb_tr s) /\ In (EStarted 1) (sb_tr s) /\ sb_start s = SFree /\
    sb_step c s (LT i x) = Some s' /\ buf_of s 0 = Some d /\ sd_list d = [PInt 1] /\ buf_of s' 0 = Some d' /\ sd_list d' = [PInt 1; PInt 2].
Proof.
  exists cfg3, late_put, (end_of cfg3 late_put), 0, (Ok PNone), (end_of cfg3 (late_put ++ [LT 0 (Ok PNone)])). do 2 eexists.
  split; [apply history_end; vm_compute; reflexivity|].
  split. { exists 1, (Ok tt). split; [lia|]. vm_compute. repeat (try (left; reflexivity); right). }
  split. { vm_compute. repeat (try (left; reflexivity); right). }
  split; [vm_compute; reflexivity|]. split; [vm_compute; reflexivity|]. split; [vm_compute; reflexivity|]. split; [vm_compute; reflexivity|]. split; vm_compute; reflexivity.
Qed.
Print Assumptions C48_late_append_refuted.
(** So does a drop() that had loaded the old buffer, whether or not the old thread has
    ended. *)
Definition cfg3_man : cfg := MkCfg (c_key cfg3) (c_maxlen cfg3) (PBool false).
Definition late_drop : list label :=
  starting (PObj 7) ++ [LT 0 (Ok PNone); LT 0 (Ok PNone); LT 0 (Ok PNone); LT 0 (Ok (PInt 1)); LT 0 (Ok PNone); LT 0 (Ok PNone); StreamBufferM.LDrop 1; LStop] ++
  [LT 0 (Ok PNone); LT 0 (Ok PNone); LT 0 (Ok PNone)] ++ starting (PObj 8).
Theorem C48_late_drop_refuted :
  exists c ls s s' d d', history c ls s /\ superseded 0 (sb_tr s) /\ In (EStarted 1) (sb_tr s) /\ sb_start s = SFree /\ ended s 0 /\
    sb_step c s (LDropDo 0) = Some s' /\ buf_of s 0 = Some d /\ sd_list d = [PInt 1] /\ buf_of s' 0 = Some d' /\ sd_list d' = [].
Proof.
  exists cfg3_man, late_drop, (end_of cfg3_man late_drop), (end_of cfg3_man (late_drop ++ [LDropDo 0])). do 2 eexists.
  split; [apply history_end; vm_compute; reflexivity|].
  split. { exists 1, (Ok tt). split; [lia|]. vm_compute. repeat (try (left; reflexivity); right). }
  split. { vm_compute. repeat (try (left; reflexivity); right). }
  split; [vm_compute; reflexivity|]. split. { eexists. eexists. split; vm_compute; reflexivity. }
  split; [vm_compute; reflexivity|]. split; [vm_compute; reflexivity|]. split; [vm_compute; reflexivity|]. split; vm_compute; reflexivity.
Qed.
Print Assumptions C48_late_drop_refuted.
