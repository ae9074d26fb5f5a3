(** * A start() that is hit by an exception: C110 *)
From Coq Require Import List ZArith Bool Arith Lia.
From Verif Require Import PyVal PyLib PyValFacts SortedDequeM Spec SpecDeque ListFacts DequeFacts DequeSearch
  BufferReaderM BufferSysM LogFacts LogReads LogKeepUp StreamBufferM SpecStream StreamFacts StreamLife StreamInv StreamOrderly StreamView StreamReads StreamMore PropsStreamRead PropsStream AutoDropM PropsAutoDrop StreamFaultM.
Import ListNotations.
Open Scope nat_scope.

(** ** Specification *)
Definition f_history (c : cfg) (ls : list flabel) (s : sb) : Prop := f_run c sb0 ls = Some s.
(** The start() under way has made start [k] and not yet run its thread. *)
Definition half_started (s : sb) (k : nat) : Prop :=
  S k = length (sb_ss s) /\ (sb_start s = SOpen \/ sb_start s = SBuild \/ sb_start s = SSpawn).
(** Restarts find the earlier threads ended (as [orderly]). *)
Fixpoint f_orderly_from (c : cfg) (s : sb) (ls : list flabel) : Prop :=
  match ls with
  | [] => True
  | l :: q =>
      (sb_start s = SClear -> (exists o v, l = FStep (LS o v)) -> all_ended s) /\
      match f_step c s l with Some s' => f_orderly_from c s' q | None => True end
  end.
Definition f_orderly (c : cfg) (ls : list flabel) : Prop := f_orderly_from c sb0 ls.

(** ** Lemmas *)
Lemma f_run_app c a b : forall s, f_run c s (a ++ b) = match f_run c s a with Some m => f_run c m b | None => None end.
Proof. induction a as [|x a IH]; intro s; cbn [app f_run]; [reflexivity|]. destruct (f_step c s x); [apply IH|reflexivity]. Qed.
Lemma f_run_steps c ls : forall s, f_run c s (map FStep ls) = sb_run c s ls.
Proof. induction ls as [|l ls IH]; intro s; cbn; [reflexivity|]. destruct (sb_step c s l); [apply IH|reflexivity]. Qed.
Lemma f_ind c (P : list flabel -> sb -> Prop) : P [] sb0 ->
  (forall ls s l s', f_history c ls s -> P ls s -> f_step c s l = Some s' -> P (ls ++ [l]) s') -> forall ls s, f_history c ls s -> P ls s.
Proof.
  intros P0 PS ls. induction ls as [|l ls IH] using rev_ind; intros s H; [injection H as <-; exact P0|].
  unfold f_history in H. rewrite f_run_app in H. destruct (f_run c sb0 ls) as [m|] eqn:E; [|discriminate]. cbn in H.
  destruct (f_step c m l) as [m'|] eqn:F; [|discriminate]. injection H as ->. eapply PS; eauto.
Qed.
Lemma f_orderly_snoc c l : forall a s0 s, f_run c s0 a = Some s -> f_orderly_from c s0 (a ++ [l]) ->
  f_orderly_from c s0 a /\ (sb_start s = SClear -> (exists o v, l = FStep (LS o v)) -> all_ended s).
Proof.
  induction a as [|y a IH]; intros s0 s H O.
  - injection H as <-. cbn in O. cbn. tauto.
  - cbn in H, O. destruct O as [O1 O2]. destruct (f_step c s0 y) as [m|] eqn:E; [|discriminate].
    destruct (IH m s H O2) as [P Q]. cbn [f_orderly_from]. rewrite E. auto.
Qed.
Lemma hit_is c s s' : f_step c s FHit = Some s' -> s' = set_start s SFree /\ sb_start s <> SFree.
Proof. cbn. destruct (sb_start s); intro H; try discriminate; injection H as <-; (split; [reflexivity|discriminate]). Qed.
Lemma f_sinv c ls s : f_history c ls s -> StreamFacts.sinv s.
Proof.
  intro H. revert ls s H. apply (f_ind c (fun _ s => StreamFacts.sinv s)); [apply sinv0|].
  intros ls s [l|] s' _ I H; [eapply sinv_step; eauto|]. apply hit_is in H as [-> _]. destruct I. constructor; cbn; auto.
Qed.
Lemma step_events c s l s' k : sb_step c s l = Some s' -> (forall o, l <> LT k o) -> thread_events k (sb_tr s') = thread_events k (sb_tr s).
Proof.
  intros H N. step_cases H; injection H as <-; proj; rewrite ?te_snoc; cbn [by_thread]; rewrite ?app_nil_r; auto.
  all: subst l; try (rewrite (proj2 (Nat.eqb_neq _ _)); [now rewrite ?app_nil_r|intros ->; eapply N; reflexivity]).
Qed.
(** A thread that is not started and that no start() under way will run. *)
Definition never (k : nat) (s : sb) : Prop :=
  (exists e, nth_error (sb_ss s) k = Some e /\ se_pc e = TNew) /\
  match sb_start s with SOpen | SBuild | SSpawn => S k < length (sb_ss s) | _ => True end.
Lemma never_step c s l s' k : never k s -> f_step c s l = Some s' -> never k s' /\ thread_events k (sb_tr s') = thread_events k (sb_tr s).
Proof.
  intros [(e & He & Pe) L] H. destruct l as [l|].
  - cbn in H. assert (N : forall o, l <> LT k o). { intros o ->. cbn in H. rewrite He, Pe in H. discriminate. }
    split; [|eapply step_events; eauto]. destruct (step_frame c s l s' H k e He) as (e' & He' & Q & _).
    split.
    + exists e'. split; [assumption|]. destruct Q as [Q|[[o Q]|(S1 & -> & _)]]; [congruence|elim (N o Q)|]. rewrite S1 in L. unfold latest in L. lia.
    + pose proof (nth_lt _ _ _ He) as LT0. clear Q He' N.
      step_cases H; injection H as <-; proj; rewrite ?upd_length, ?app_length; cbn [length]; auto;
        repeat match goal with X : sb_start s = _ |- _ => rewrite X in L end; auto; try lia; try (destruct (running _); auto; fail).
      all: try (match goal with |- context [if ?b then _ else _] => destruct b end; auto; fail).
  - apply hit_is in H as [-> _]. split; [|reflexivity]. split; [eauto|exact Logic.I].
Qed.
Lemma never_run c k : forall ls s s', never k s -> f_run c s ls = Some s' -> never k s' /\ thread_events k (sb_tr s') = thread_events k (sb_tr s).
Proof.
  induction ls as [|l ls IH]; intros s s' N H; [injection H as <-; auto|]. cbn in H. destruct (f_step c s l) as [m|] eqn:E; [|discriminate].
  destruct (never_step c s l m k N E) as [N1 T1]. destruct (IH m s' N1 H) as [N2 T2]. split; [assumption|congruence].
Qed.
Lemma new_quiet c ls s : f_history c ls s -> forall k, match nth_error (sb_ss s) k with Some e => se_pc e = TNew | None => True end -> thread_events k (sb_tr s) = [].
Proof.
  intro H. revert ls s H. apply (f_ind c (fun _ s => forall k, match nth_error (sb_ss s) k with Some e => se_pc e = TNew | None => True end -> thread_events k (sb_tr s) = [])); [reflexivity|].
  intros ls s [l|] s' Hh IH H k P.
  - cbn in H. assert (N : forall o, l <> LT k o).
    { intros o ->. pose proof H as H0. cbn in H. destruct (nth_error (sb_ss s) k) as [e|] eqn:He; [|discriminate].
      destruct (step_frame c s _ s' H0 k e He) as (e' & He' & _). rewrite He' in P.
      destruct (thread_move c s k o s' e H0 He) as (e1 & H1 & MV). assert (e1 = e') by congruence. subst e1.
      rewrite P in MV. clear - MV. destruct (se_pc e); try (destruct MV; fail);
        repeat match goal with X : _ \/ _ |- _ => destruct X | X : _ /\ _ |- _ => destruct X | X : exists _, _ |- _ => destruct X end;
        repeat match goal with X : context [if ?b then _ else _] |- _ => destruct b end; try discriminate. all: destruct o as [v|]; try destruct (is_none v); discriminate. }
    rewrite (step_events c s l s' k H N). apply IH. destruct (nth_error (sb_ss s) k) as [e|] eqn:He; [|exact Logic.I].
    destruct (step_frame c s l s' H k e He) as (e' & He' & Q & _). rewrite He' in P. destruct Q as [Q|[[o Q]|(_ & _ & Q & _)]]; [congruence|elim (N o Q)|congruence].
  - apply hit_is in H as [-> _]. apply IH. exact P.
Qed.
Lemma f_ainv c ls s : f_history c ls s -> f_orderly c ls -> ainv c s.
Proof.
  intro H. revert ls s H. apply (f_ind c (fun ls s => f_orderly c ls -> ainv c s)).
  - intros _. constructor.
    + apply sinv0.
    + constructor; [discriminate|]. intros k (p & (e & Ek & _) & _). destruct k; discriminate.
    + intros [|] d; discriminate.
    + intros j n k X. discriminate.
  - intros ls s l s' Hh IH H O. destruct (f_orderly_snoc c l ls sb0 s Hh O) as [O1 O2]. specialize (IH O1). destruct l as [l|].
    + apply (ainv_step c (c_auto c) s l s' IH); [intros SC (o & v & ->); apply O2; eauto|]. unfold with_auto. destruct c. exact H.
    + apply hit_is in H as [-> _]. destruct IH as [S [OL OA] B D]. constructor.
      * destruct S. constructor; cbn; auto.
      * constructor; [discriminate|]. exact OA.
      * exact B.
      * exact D.
Qed.

(** ** C110 *)
(** An exception in start() touches nothing but the call: threads, buffers, readers and their
    events are as they were, the lock is free again. *)
Theorem C110_only_the_call :
  forall c s s', f_step c s FHit = Some s' ->
  sb_ss s' = sb_ss s /\ (forall j, buf_of s' j = buf_of s j) /\ sb_cur s' = sb_cur s /\ sb_rds s' = sb_rds s /\ sb_next s' = sb_next s /\ sb_tr s' = sb_tr s /\
  (forall i o, sb_step c s (LT i o) = None <-> sb_step c s' (LT i o) = None) /\
  (exists t, sb_step c s' LStart = Some t) /\ (forall n p st ig, exists t, sb_step c s' (StreamBufferM.LMk n p st ig) = Some t).
Proof.
  intros c s s' H. apply hit_is in H as [-> NF]. do 6 (split; [reflexivity|]). split; [|split].
  - intros i o. cbn [sb_step set_start sb_ss]. destruct (nth_error (sb_ss s) i) as [e|]; [|tauto]. unfold thread_step.
    change (running (set_start s SFree)) with (running s). change (sb_cur (set_start s SFree)) with (sb_cur s).
    assert (B : forall j, buf_of (set_start s SFree) j = buf_of s j) by reflexivity. assert (D : forall j, dropping (set_start s SFree) j = dropping s j) by reflexivity.
    destruct (se_pc e); rewrite ?B, ?D; try tauto; try (split; discriminate); cbn zeta;
      repeat match goal with |- context [match ?x with _ => _ end] => lazymatch x with context [match _ with _ => _ end] => fail | _ => destruct x end end; try tauto; try (split; discriminate).
  - cbn. eauto.
  - intros n p st ig. cbn. destruct (sb_cur s); eauto.
Qed.
Print Assumptions C110_only_the_call.
(** Whatever starts were hit before, an undisturbed start() works as the first one does. *)
Theorem C110_start_again :
  forall c ls s d0, f_history c ls s -> sb_start s = SFree -> sd_init [] (c_key c) (c_maxlen c) = Ok d0 -> forall v,
  exists n s', f_run c s (map FStep (LStart :: repeat (LS (Ok tt) (Ok v)) n)) = Some s' /\ sb_start s' = SFree /\
  let i := length (sb_ss s) in
  sb_tr s' = sb_tr s ++ [EOpen i (Ok tt); EBuilt i v; EStarted i] /\ is_running s' = true /\ buf_of s' i = Some d0 /\ sd_list d0 = [] /\ thread_is s' i TCheck.
Proof.
  intros c ls s d0 _ F D0 v. destruct (start_again c s d0 F D0 (Ok tt) (Ok v)) as (n & s' & R & F' & T & RU & B & TH). exists n, s'.
  rewrite f_run_steps. cbn zeta in *. destruct (init_empty _ _ _ D0) as (_ & X & _). unfold sd_list. rewrite X. auto 9.
Qed.
Print Assumptions C110_start_again.
(** The start that was hit before its thread ran stays without one, for good: nobody ever
    reads the source, adds an item or closes the source on its account. *)
Theorem C110_half_start_is_dead :
  forall c ls s s1 k, f_history c ls s -> half_started s k -> f_step c s FHit = Some s1 ->
  forall ls' s', f_run c s1 ls' = Some s' -> thread_events k (sb_tr s') = [] /\ ~ alive s' k.
Proof.
  intros c ls s s1 k Hh [LK ST] H ls' s' Hr. pose proof (f_sinv c ls s Hh) as I. pose proof (si_new _ I) as X.
  assert (E : exists e, nth_error (sb_ss s) k = Some e /\ se_pc e = TNew).
  { assert (K : k = latest s) by (unfold latest; lia). subst k. destruct ST as [E|[E|E]]; rewrite E in X; destruct X as (e & A & B); exists e; tauto. }
  destruct E as (e & He & Pe). pose proof (new_quiet c ls s Hh k) as Q. rewrite He in Q. specialize (Q Pe). apply hit_is in H as [-> _].
  assert (N : never k (set_start s SFree)) by (split; [eauto|exact Logic.I]).
  destruct (never_run c k ls' _ s' N Hr) as [((e' & He' & Pe') & _) T]. split; [rewrite T; exact Q|].
  intro A. apply alive_iff in A as (e2 & H2 & L2). assert (e2 = e') by congruence. subst e2. rewrite Pe' in L2. discriminate.
Qed.
Print Assumptions C110_half_start_is_dead.
(** No item is lost because of it: with auto_drop other than True, and restarts that find the
    earlier threads ended, every buffer still holds what was added to it and not dropped. *)
Theorem C110_nothing_lost :
  forall c ls s, f_history c ls s -> f_orderly c ls -> c_auto c <> PBool true -> forall j,
  SpecStream.kept j (sb_tr s) = match buf_of s j with Some d => sd_list d | None => [] end.
Proof.
  intros c ls s H O AU j. assert (AU' : is_True (c_auto c) = false) by (destruct (is_True (c_auto c)) eqn:T; [apply is_True_iff in T; contradiction|reflexivity]).
  enough (X : since_switch c s j 0 (SpecStream.kept j (sb_tr s))).
  { destruct X as [(_ & _ & X)|(m & L & _ & X & _)]; [discriminate|]. assert (m = 0) by lia. subst m. cbn [skipn] in X. unfold items_of in X. now symmetry. }
  revert ls s H O. apply (f_ind c (fun ls s => f_orderly c ls -> since_switch c s j 0 (SpecStream.kept j (sb_tr s)))).
  - intros _. right. exists 0. split; [lia|]. split; [lia|]. split; [unfold items_of, buf_of; cbn; now destruct j|]. intro R. unfold reading in R. cbn in R. destruct j; discriminate.
  - intros ls s l s' Hh IH H O. destruct (f_orderly_snoc c l ls sb0 s Hh O) as [O1 _]. specialize (IH O1). destruct l as [l|].
    + assert (H' : sb_step (with_auto c (c_auto c)) s l = Some s') by (unfold with_auto; destruct c; exact H).
      destruct (switch_step c (c_auto c) s l s' j 0 _ AU' (f_ainv c ls s Hh O1) (le_S _ _ (le_n 0)) H' IH) as (es & Et & SW).
      rewrite Et. unfold SpecStream.kept. rewrite fold_left_app. exact SW.
    + apply hit_is in H as [-> _]. exact IH.
Qed.
Print Assumptions C110_nothing_lost.
(** Violation: hit after open(), for instance because no thread could be started (184), the
    source stays open for good, is_running says True, and readers can be made. *)
Definition hit_hist : list flabel := map FStep (LStart :: repeat (LS (Ok tt) (Ok (PObj 7))) 6) ++ [FHit].
Theorem C110_source_left_open_refuted :
  exists c s, f_history c hit_hist s /\ sb_start s = SFree /\ sb_tr s = [EOpen 0 (Ok tt); EBuilt 0 (PObj 7)] /\ is_running s = true /\
  (exists t, sb_step c s (StreamBufferM.LMk 1 false false false) = Some t /\ last (sb_tr t) (EMk (Raise StreamNotStartedError)) = EMk (Ok 0)) /\
  forall ls s', f_run c s ls = Some s' -> forall u, ~ In (EClose 0 u) (sb_tr s').
Proof.
  exists cfg3. eexists. split; [vm_compute; reflexivity|]. split; [vm_compute; reflexivity|]. split; [vm_compute; reflexivity|]. split; [vm_compute; reflexivity|].
  split; [eexists; split; vm_compute; reflexivity|]. intros ls s' Hr u X.
  match type of Hr with f_run _ ?s0 _ = _ => assert (N : never 0 s0) by (split; [eexists; split; vm_compute; reflexivity|vm_compute; exact Logic.I]) end.
  destruct (never_run _ 0 ls _ s' N Hr) as [_ T]. assert (Y : In (EClose 0 u) (thread_events 0 (sb_tr s'))) by (apply filter_In; split; [assumption|reflexivity]).
  rewrite T in Y. vm_compute in Y. destruct Y.
Qed.
Print Assumptions C110_source_left_open_refuted.
(** Hit while it waits for the old session to stop, hit after open(), and then once more
    without trouble: items of the third session. *)
Example C110_nonvacuous :
  let h := map FStep (starting (PObj 7) ++ room_round 0 (PInt 1) ++ [LStart; LS (Ok tt) (Ok PNone); LS (Ok tt) (Ok PNone)]) ++ [FHit] ++
           map FStep (repeat (LT 0 (Ok PNone)) 3) ++ map FStep (LStart :: repeat (LS (Ok tt) (Ok (PObj 8))) 6) ++ [FHit] ++ map FStep (LStart :: repeat (LS (Ok tt) (Ok (PObj 9))) 9 ++ room_round 2 (PInt 5)) in
  exists s, f_history cfg_man h s /\ is_running s = true /\ SpecStream.kept 0 (sb_tr s) = [PInt 1] /\ SpecStream.kept 2 (sb_tr s) = [PInt 5] /\
  source_reader_info s = PObj 9 /\ thread_events 1 (sb_tr s) = [].
Proof. cbn zeta. eexists. split; [vm_compute; reflexivity|]. vm_compute. auto. Qed.
