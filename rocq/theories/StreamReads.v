(** * What readers get out of a concurrent history: the log semantics carries over *)
From Coq Require Import List ZArith Bool Arith Lia.
From Verif Require Import PyVal PyLib PyValFacts SortedDequeM Spec SpecDeque SpecReader SpecLog ListFacts DequeFacts DequeSearch
  BufferReaderM BufferSysM LogFacts LogReads LogKeepUp StreamBufferM SpecStream StreamFacts StreamLife StreamInv StreamView.
Import ListNotations.

(** The trace only grows. *)
Lemma step_trace c s l s' : sb_step c s l = Some s' -> exists es, sb_tr s' = sb_tr s ++ es.
Proof.
  intro H. step_cases H; injection H as <-; proj; rewrite <- ?app_assoc; eauto; exists []; now rewrite app_nil_r.
Qed.
Lemma run_trace c ls : forall s s', sb_run c s ls = Some s' -> exists es, sb_tr s' = sb_tr s ++ es.
Proof.
  induction ls as [|l q IH]; intros s s' H; cbn in H; [injection H as <-; exists []; now rewrite app_nil_r|].
  destruct (sb_step c s l) as [m|] eqn:E; [|discriminate]. destruct (step_trace c s l m E) as (e1 & E1). destruct (IH m s' H) as (e2 & E2).
  exists (e1 ++ e2). now rewrite E2, E1, app_assoc.
Qed.
Lemma history_app c a b s : history c (a ++ b) s -> exists m, history c a m /\ sb_run c m b = Some s.
Proof. unfold history. rewrite sb_run_app. destruct (sb_run c sb0 a) as [m|]; [eauto|discriminate]. Qed.

Lemma next_calls c ls s : history c ls s -> forall r cc o, In (ENext r cc o) (sb_tr s) -> exists b, cc = CNext b.
Proof.
  intro H. revert ls s H. apply (sb_ind c (fun _ s => forall r cc o, In (ENext r cc o) (sb_tr s) -> exists b, cc = CNext b)).
  - intros r cc o [].
  - intros ls s l s' Hh IH H r cc o Hin. step_cases H; injection H as <-; proj; repeat rewrite in_app_iff in Hin;
      repeat (destruct Hin as [Hin|Hin]; [|cbn in Hin; destruct Hin as [Hin|[]]; try discriminate Hin]); eauto;
      injection Hin as <- <- <-; cbn; eauto.
Qed.
Lemma life_append_not_none i t p : life i t p ->
  (match p with PhGot v => v <> PNone | _ => True end) /\ forall k j x o, In (EAppend k j x o) t -> x <> PNone.
Proof.
  induction 1; try destruct IHlife as [L1 L2]; (split; [auto|]); intros k j' x o Hin; try (destruct Hin; fail);
    apply in_app_or in Hin as [Hin|[Hin|[]]]; eauto; try discriminate Hin; injection Hin as <- <- <- <-; assumption.
Qed.
Lemma append_not_none c ls s : history c ls s -> forall i j x o, In (EAppend i j x o) (sb_tr s) -> x <> PNone.
Proof.
  intros H i j x o Hin. pose proof (life_all c ls s H i) as L. unfold life_inv in L.
  assert (IT : In (EAppend i j x o) (thread_events i (sb_tr s))) by (apply filter_In; split; [assumption|cbn; apply Nat.eqb_refl]).
  destruct (nth_error (sb_ss s) i) as [e|]; [|rewrite L in IT; destruct IT].
  destruct L as [L _]. destruct (life_append_not_none i _ _ L) as [_ X]. eauto.
Qed.

Lemma view_ok P c ls s r j : history c ls s -> stream_keys_in P c (sb_tr s) -> stream_ranges_in P c (sb_tr s) ->
  Forall (op_ok P (c_key c)) (map fst (view r j (sb_tr s))).
Proof.
  intros H K R. pose proof (append_not_none c ls s H) as NN. pose proof (next_calls c ls s H) as NC.
  apply Forall_forall. intros o Ho. apply in_map_iff in Ho as ((o1 & v) & <- & Ho). unfold view in Ho. apply in_flat_map in Ho as (e & He & Ho).
  cbn [fst]. destruct e as [| | | | |i k x u| | | |r' j' n p st ig| | |[k|] n u|[r'|] cc o|r' cc o|r' o|]; cbn in Ho; try (destruct Ho; fail);
    destruct (Nat.eqb _ _); try (destruct Ho; fail); destruct Ho as [Ho|[]]; injection Ho as <- <-; cbn; auto.
  - split; [eapply NN; eauto|]. intros k0 Hk. eapply K; eauto.
  - destruct (NC _ _ _ He) as [b ->]. exact Logic.I.
  - destruct cc; auto. eapply R; eauto.
Qed.
Lemma made_in ops p : In p (made ops) -> exists n st ig, In (BufferSysM.LMk n p st ig) ops.
Proof.
  induction ops as [|o ops IH]; cbn; [intros []|]. destruct o as [x|n|n p0 st ig|i cc]; cbn; intro H.
  - destruct (IH H) as (n & st & ig & X). eauto 6.
  - destruct (IH H) as (n0 & st & ig & X). eauto 6.
  - destruct H as [->|H]; [eauto 6|]. destruct (IH H) as (n0 & st0 & ig0 & X). eauto 6.
  - destruct (IH H) as (n & st & ig & X). eauto 6.
Qed.
Lemma view_forward c ls s r j : history c ls s -> moves_forward r (sb_tr s) -> forward_reader 0 (map fst (view r j (sb_tr s))).
Proof.
  intros H M. pose proof (next_calls c ls s H) as NC.
  assert (Q : forall o, In o (map fst (view r j (sb_tr s))) -> forward 0 o /\ match o with BufferSysM.LMk _ p _ _ => p = false | _ => True end).
  { intros o Ho. apply in_map_iff in Ho as ((o1 & v) & <- & Ho). unfold view in Ho. apply in_flat_map in Ho as (e & He & Ho).
    cbn [fst]. pose proof (M e He) as Me.
    destruct e as [| | | | |i k x u| | | |r' j' n p st ig| | |[k|] n u|[r'|] cc o|r' cc o|r' o|]; cbn in Ho; try (destruct Ho; fail);
    match type of Ho with context [Nat.eqb ?a ?b] => destruct (Nat.eqb_spec a b) as [->|] end; try (destruct Ho; fail); destruct Ho as [Ho|[]]; injection Ho as <- <-; cbn; auto.
    - destruct (NC _ _ _ He) as [b ->]. auto.
    - destruct cc; auto; exfalso; now apply Me. }
  split.
  - apply Forall_forall. intros o Ho. apply (Q o Ho).
  - intro E. apply nth_error_In in E. apply made_in in E as (n & st & ig & E). destruct (Q _ E) as [_ X]. discriminate.
Qed.
Lemma accepted_none c ls s j : history c ls s -> buf_of s j = None -> accepted_by j (sb_tr s) = [].
Proof.
  intros H E. pose proof (buf_hist_all c ls s H j) as B. unfold buf_hist in B. rewrite E in B. revert B. generalize (sb_tr s).
  unfold ops_on, accepted_by. induction l as [|e l IH]; [reflexivity|]. cbn [flat_map]. intro B. apply app_eq_nil in B as [B1 B2]. rewrite (IH B2), app_nil_r.
  destruct e as [| | | | |i k x [[]|]| | | | | | | | | | |]; auto. now destruct (Nat.eqb k j).
Qed.
Lemma back_session c s l s' r q j : sb_step c s l = Some s' -> never_attached r (sb_tr s') ->
  (forall q, nth_error (sb_rds s') r = Some q -> rd_sess q = j) -> nth_error (sb_rds s) r = Some q -> rd_sess q = j.
Proof.
  intros H NA J' Hq. assert (X : exists q', nth_error (sb_rds s') r = Some q').
  { apply nth_lt in Hq. assert (L : length (sb_rds s) <= length (sb_rds s')).
    { clear - H. step_cases H; injection H as <-; proj; rewrite ?set_nth_length, ?app_length; lia. }
    destruct (nth_error (sb_rds s') r) eqn:E; [eauto|]. apply nth_error_None in E. lia. }
  destruct X as (q' & Hq'). rewrite <- (J' q' Hq'). destruct (sess_keep c s l s' r q q' H Hq Hq') as [->|(k & X)]; [reflexivity|].
  exfalso. exact (NA k X).
Qed.
Lemma never_attached_app r a b : never_attached r (a ++ b) -> never_attached r a.
Proof. intros H j X. apply (H j), in_or_app. now left. Qed.
Lemma view_keeps c d0 : sd_init [] (c_key c) (c_maxlen c) = Ok d0 -> forall ls s, history c ls s -> forall r j, reader_keeps_up c ls r j ->
  never_attached r (sb_tr s) -> (forall q, nth_error (sb_rds s) r = Some q -> rd_sess q = j) ->
  keeps_up d0 0 (map fst (view r j (sb_tr s))).
Proof.
  intros D0. apply (sb_ind c (fun ls s => forall r j, reader_keeps_up c ls r j -> never_attached r (sb_tr s) ->
    (forall q, nth_error (sb_rds s) r = Some q -> rd_sess q = j) -> keeps_up d0 0 (map fst (view r j (sb_tr s))))).
  - intros r j _ _ _ pre post E. cbn in E. symmetry in E. apply app_eq_nil in E as [-> ->]. cbn. lia.
  - intros ls s l s' Hh IH H r j KU NA J'.
    assert (J : forall q, nth_error (sb_rds s) r = Some q -> rd_sess q = j) by (intros; eapply back_session; eauto).
    assert (Hh' : history c (ls ++ [l]) s') by (apply sb_run_snoc; eauto).
    destruct (view_step c d0 s l s' r j D0 (sinv_history c ls s Hh) H J J') as (es & Et & L1 & Er).
    assert (FULL : let (bs, outs) := bsys_run (MkBS d0 []) (map fst (view r j (sb_tr s'))) in
      length (accepted (map fst (view r j (sb_tr s'))) outs) - length (sd_list (s_buf bs)) <= length (got 0 (map fst (view r j (sb_tr s'))) outs)).
    { rewrite (view_history c d0 _ s' Hh' D0 r j NA J'). rewrite accepted_view, got_view. cbn [s_buf]. unfold bufd.
      destruct (buf_of s' j) as [d|] eqn:Ed; [|rewrite (accepted_none c _ s' j Hh' Ed); cbn; lia].
      apply (KU (ls ++ [l]) [] s' d); auto. symmetry. apply app_nil_r. }
    assert (KU0 : keeps_up d0 0 (map fst (view r j (sb_tr s)))).
    { apply IH; auto.
      - intros pre post s1 d E. apply (KU pre (post ++ [l])). rewrite E. now rewrite app_assoc.
      - rewrite Et in NA. eapply never_attached_app; eauto. }
    intros pre post E. rewrite Et, view_app, map_app in E.
    destruct (view r j es) as [|y [|]] eqn:EV; [| |cbn in L1; lia].
    + cbn in E. rewrite app_nil_r in E. eapply KU0; eauto.
    + cbn in E. destruct post as [|z post] using rev_ind.
      * rewrite app_nil_r in E. subst pre. rewrite Et, view_app, EV, map_app in FULL. exact FULL.
      * rewrite app_assoc in E. apply app_inj_tail in E as [E _]. eapply KU0; eauto.
Qed.
(** A reader that exists was made. *)
Lemma view_made c d0 ls s r q : sd_init [] (c_key c) (c_maxlen c) = Ok d0 -> history c ls s -> never_attached r (sb_tr s) ->
  nth_error (sb_rds s) r = Some q -> 0 < length (made (map fst (view r (rd_sess q) (sb_tr s)))).
Proof.
  intros D0 H NA Hq.
  assert (K : forall ops bs, length (s_rds (fst (bsys_run bs ops))) = length (s_rds bs) + length (made ops)).
  { induction ops as [|o ops IH]; intro bs; cbn; [lia|]. specialize (IH (fst (bsys_step bs o))).
    destruct (bsys_step bs o) as [b1 v] eqn:E. cbn [fst] in IH. destruct (bsys_run b1 ops) as [b2 vs]. cbn [fst] in *. rewrite IH.
    destruct o as [x|n|n p st ig|i cc]; cbn in E.
    - destruct (sd_append _ _). injection E as <- _. reflexivity.
    - destruct (sd_drop _ _). injection E as <- _. reflexivity.
    - injection E as <- _. cbn. rewrite app_length. cbn. lia.
    - destruct (nth_error (s_rds bs) i) as [q0|]; [destruct (run (do_call (s_buf bs) cc) q0)|]; injection E as <- _; cbn; rewrite ?set_nth_length; reflexivity. }
  specialize (K (map fst (view r (rd_sess q) (sb_tr s))) (MkBS d0 [])).
  rewrite (view_history c d0 ls s H D0 r (rd_sess q) NA) in K by congruence. unfold rdl in K. rewrite Hq in K. cbn in K. lia.
Qed.

(** ** Helpers for the theorems *)
Lemma reader_init c ls s r q : history c ls s -> nth_error (sb_rds s) r = Some q -> exists d0 d, sd_init [] (c_key c) (c_maxlen c) = Ok d0 /\ buf_of s (rd_sess q) = Some d.
Proof.
  intros H Hq. destruct (si_rds _ (sinv_history c ls s H) r q Hq) as [d Hd].
  pose proof (buf_hist_all c ls s H (rd_sess q)) as B. unfold buf_hist in B. rewrite Hd in B. destruct B as (d0 & D0 & _). eauto.
Qed.
Lemma auto_no_pending c ls s : is_True (c_auto c) = true -> history c ls s -> sb_dr s = [].
Proof.
  intros A H. revert ls s H. apply (sb_ind c (fun _ s => sb_dr s = [])); [reflexivity|].
  intros ls s l s' Hh IH H. step_cases H; injection H as <-; proj; try assumption; try congruence.
  rewrite IH in *. match goal with X : nth_error [] ?k = Some _ |- _ => destruct k; discriminate X end.
Qed.
Lemma auto_no_drops c ls s : is_True (c_auto c) = true -> history c ls s -> no_drops (sb_tr s).
Proof.
  intros A H. revert ls s H. apply (sb_ind c (fun _ s => no_drops (sb_tr s))).
  - intros j n o [].
  - intros ls s l s' Hh IH H j n o Hin. specialize (IH j n o). pose proof (auto_no_pending c ls s A Hh) as ND.
    step_cases H; injection H as <-; proj; repeat rewrite in_app_iff in Hin;
      repeat (destruct Hin as [Hin|Hin]; [|cbn in Hin; destruct Hin as [Hin|[]]; try discriminate Hin]); eauto; try congruence.
    rewrite ND in *. match goal with X : nth_error [] ?k = Some _ |- _ => destruct k; discriminate X end.
Qed.
Lemma view_no_drops r j tr : no_drops tr -> forall n, ~ In (BufferSysM.LDrop n) (map fst (view r j tr)).
Proof.
  intros N n Ho. apply in_map_iff in Ho as ((o1 & v) & E1 & Ho). cbn in E1. subst o1. unfold view in Ho. apply in_flat_map in Ho as (e & He & Ho).
  destruct e as [| | | | |i k x u| | | |r' j' n' p st ig| | |[k|] n' u|[r'|] cc o|r' cc o|r' o|]; cbn in Ho; try (destruct Ho; fail);
    destruct (Nat.eqb _ _); try (destruct Ho; fail); destruct Ho as [Ho|[]]; try discriminate Ho. eapply N; eauto.
Qed.
Lemma accepted_ordered P c ls s r q : total_family P -> history c ls s -> stream_keys_in P c (sb_tr s) -> stream_ranges_in P c (sb_tr s) ->
  nth_error (sb_rds s) r = Some q -> never_attached r (sb_tr s) -> no_drops (sb_tr s) -> c_maxlen c <> Some 0%Z ->
  strictly_ordered (c_key c) (accepted_by (rd_sess q) (sb_tr s)).
Proof.
  intros F H K R Hq NA ND M0. destruct (reader_init c ls s r q H Hq) as (d0 & d & D0 & _).
  pose proof (view_history c d0 ls s H D0 r (rd_sess q) NA) as V. rewrite <- (accepted_view r).
  change (accepted ?a ?o) with (lg empty_log ++ accepted a o).
  replace (map snd (view r (rd_sess q) (sb_tr s))) with (snd (bsys_run (MkBS d0 []) (map fst (view r (rd_sess q) (sb_tr s))))) by (now rewrite V by congruence).
  apply (nodrop_run P F (c_key c) (option_map Z.to_nat (c_maxlen c))); auto.
  - destruct (c_maxlen c) as [z|]; cbn; [|discriminate]. intro E. injection E as E.
    unfold sd_init in D0. cbn in D0. unfold check_maxlen in D0. destruct (Z.ltb_spec z 0); [discriminate|].
    assert (z = 0%Z) by lia. congruence.
  - now apply init_rel.
  - eapply view_ok; eauto.
  - pose proof (view_no_drops r (rd_sess q) (sb_tr s) ND) as X. clear - X. induction (map fst (view r (rd_sess q) (sb_tr s))) as [|o ops IH]; [reflexivity|].
    cbn. rewrite IH by (intros n Hn; apply (X n); now right). rewrite orb_false_r. destruct o; auto. exfalso. apply (X n). now left.
Qed.
Lemma last_poll_split r tr o : last_poll r tr = Some o -> exists t1 t2, tr = t1 ++ EPoll r o :: t2 /\ last_poll r t2 = None.
Proof.
  induction tr as [|e tr IH]; cbn; [discriminate|]. destruct (last_poll r tr) as [o'|] eqn:E.
  - intro X. injection X as ->. destruct (IH eq_refl) as (t1 & t2 & -> & H2). exists (e :: t1), t2. auto.
  - destruct e; try discriminate. destruct (Nat.eqb_spec r0 r) as [->|]; [|discriminate]. intro X. injection X as ->. exists [], tr. auto.
Qed.
Lemma last_poll_none_yielded r tr : last_poll r tr = None -> yielded r tr = [].
Proof.
  induction tr as [|e tr IH]; [reflexivity|]. cbn [last_poll]. destruct (last_poll r tr); [discriminate|].
  intro H. unfold yielded in *. cbn [flat_map]. rewrite IH by reflexivity. destruct e as [| | | | | | | | | | | | | | |r' o|]; try reflexivity. destruct (Nat.eqb r' r); [discriminate|].
  now destruct o.
Qed.
Lemma loop_only_received r tr : loop_only r tr -> received r tr = flat_map items_of (yielded r tr).
Proof.
  unfold received, yielded. induction tr as [|e tr IH]; intro L; [reflexivity|]. cbn [flat_map]. rewrite flat_map_app, IH by (intros x Hx; apply L; now right).
  f_equal. specialize (L e (or_introl eq_refl)). destruct e as [| | | | | | | | | | | | |[r'|] cc [v|]|r' cc [v|]|r' [v|]|]; try reflexivity;
    destruct (Nat.eqb_spec r' r) as [->|]; try reflexivity; try congruence. cbn [andb].
  destruct v as [[]|]; cbn; rewrite ?app_nil_r; reflexivity.
Qed.
Lemma app_inv_len {A} (a b a' b' : list A) : a ++ b = a' ++ b' -> length a = length a' -> a = a' /\ b = b'.
Proof.
  revert a'. induction a as [|x a IH]; intros [|y a'] E L; try discriminate; [auto|]. injection E as -> E. destruct (IH a' E) as [-> ->]; auto.
Qed.
(** The items a None from the for loop's poll accounts for. *)
Lemma poll_none_got P c ls s r q t1 t2 : total_family P -> history c ls s -> stream_keys_in P c (sb_tr s) -> moves_forward r (sb_tr s) ->
  stream_ranges_in P c (sb_tr s) -> nth_error (sb_rds s) r = Some q -> never_attached r (sb_tr s) -> reader_keeps_up c ls r (rd_sess q) ->
  strictly_ordered (c_key c) (accepted_by (rd_sess q) t1) -> sb_tr s = t1 ++ EPoll r (Ok VNone) :: t2 ->
  In r (flat_map (fun e => match e with ENew r' _ _ _ _ _ => [r'] | _ => [] end) t1) ->
  received r t1 = accepted_by (rd_sess q) t1.
Proof.
  intros F H K MF R Hq NA KU SO Et MK. destruct (reader_init c ls s r q H Hq) as (d0 & d & D0 & _). set (j := rd_sess q) in *.
  assert (J : forall q', nth_error (sb_rds s) r = Some q' -> rd_sess q' = j) by (intros q' X; unfold j; congruence).
  pose proof (view_history c d0 ls s H D0 r j NA J) as V. pose proof (view_ok P c ls s r j H K R) as OK.
  pose proof (view_forward c ls s r j H MF) as FW. pose proof (view_keeps c d0 D0 ls s H r j KU NA J) as KK.
  assert (EV : view r j (sb_tr s) = (view r j t1 ++ [(LCall 0 (CNext false), OVal (Ok VNone))]) ++ view r j t2).
  { rewrite Et. change (EPoll r (Ok VNone) :: t2) with ([EPoll r (Ok VNone)] ++ t2). rewrite !view_app, <- app_assoc. f_equal. f_equal. unfold view. cbn. now rewrite Nat.eqb_refl. }
  rewrite EV in V, OK, FW, KK. rewrite !map_app in V, OK, FW, KK. cbn [map fst snd] in V, OK, FW, KK.
  apply Forall_app in OK as [OK _]. destruct FW as [FW1 FW2]. apply Forall_app in FW1 as [FW1 _].
  assert (FW : forward_reader 0 (map fst (view r j t1) ++ [LCall 0 (CNext false)])).
  { split; [assumption|]. rewrite made_app in FW2. intro E. apply FW2. rewrite nth_error_app1; [assumption|]. apply nth_error_Some. congruence. }
  assert (KK1 : keeps_up d0 0 (map fst (view r j t1) ++ [LCall 0 (CNext false)])).
  { intros pre post E. apply (KK pre (post ++ map fst (view r j t2))). rewrite E. now rewrite app_assoc. }
  assert (MD : 0 < length (made (map fst (view r j t1)))).
  { clear - MK. apply in_flat_map in MK as (e & He & MK). destruct e; try (destruct MK; fail). destruct MK as [->|[]].
    apply in_split in He as (u1 & u2 & ->). change (ENew r j0 n p st ig :: u2) with ([ENew r j0 n p st ig] ++ u2). rewrite !view_app, !map_app, !made_app, !app_length.
    unfold view at 2. cbn. rewrite Nat.eqb_refl. cbn. lia. }
  pose proof (ku_last_next P F (c_key c) (option_map Z.to_nat (c_maxlen c)) 0 d0 (map fst (view r j t1)) false (init_rel P _ _ _ D0) OK FW KK1 MD) as X.
  apply (f_equal snd) in V. rewrite run_app in V. rewrite run_app in V. cbn [fst snd] in V.
  destruct (bsys_run (MkBS d0 []) (map fst (view r j t1))) as [bs outs] eqn:EB. cbn [fst snd] in *.
  assert (LO : length outs = length (view r j t1)).
  { pose proof (LogFacts.run_length (MkBS d0 []) (map fst (view r j t1))) as L. rewrite EB in L. cbn in L. now rewrite map_length in L. }
  cbn [bsys_run] in V. destruct (bsys_step bs (LCall 0 (CNext false))) as [b1 v1] eqn:E1. cbn [fst snd] in *.
  rewrite ?map_app in V. rewrite <- !app_assoc in V. apply app_inv_len in V as [V1 V2]; [|now rewrite map_length]. cbn in V2. injection V2 as V2 _. subst outs v1.
  rewrite accepted_view, got_view in X. apply X; auto.
Qed.
Lemma snoc_split {A} (a : list A) x t1 e t2 : a ++ [x] = t1 ++ e :: t2 ->
  (t2 = [] /\ a = t1 /\ x = e) \/ exists t3, t2 = t3 ++ [x] /\ a = t1 ++ e :: t3.
Proof.
  destruct t2 as [|y t2] using rev_ind; intro E.
  - apply app_inj_tail in E as [-> ->]. auto.
  - right. change (a ++ [x] = t1 ++ ([e] ++ (t2 ++ [y]))) in E. rewrite !app_assoc in E. apply app_inj_tail in E as [-> ->].
    exists t2. rewrite <- app_assoc. auto.
Qed.
Definition news (tr : list ev) : list nat := flat_map (fun e => match e with ENew r' _ _ _ _ _ => [r'] | _ => [] end) tr.
Lemma news_app a b : news (a ++ b) = news a ++ news b.
Proof. apply flat_map_app. Qed.
Lemma made_readers c ls s : history c ls s -> forall r q, nth_error (sb_rds s) r = Some q -> In r (news (sb_tr s)).
Proof.
  intro H. revert ls s H. apply (sb_ind c (fun _ s => forall r q, nth_error (sb_rds s) r = Some q -> In r (news (sb_tr s)))).
  - intros [|r] q E; discriminate.
  - intros ls s l s' Hh IH H r q Hq.
    step_cases H; injection H as <-; proj; rewrite ?news_app; cbn [news flat_map]; rewrite ?app_nil_r; repeat rewrite in_app_iff; eauto;
      repeat match type of Hq with
      | nth_error (set_nth _ _ _) _ = _ => apply nth_set_inv in Hq as [(-> & -> & ? & ?)|(? & Hq)]
      | nth_error (_ ++ [_]) _ = _ => apply nth_snoc_inv in Hq as [Hq|(-> & ->)]
      end; cbn; eauto 6.
Qed.
Lemma made_before_poll c ls s : history c ls s -> forall t1 r o t2, sb_tr s = t1 ++ EPoll r o :: t2 -> In r (news t1).
Proof.
  intro H. revert ls s H. apply (sb_ind c (fun _ s => forall t1 r o t2, sb_tr s = t1 ++ EPoll r o :: t2 -> In r (news t1))).
  - intros [|] r o t2 E; discriminate.
  - intros ls s l s' Hh IH H t1 r o t2 E. pose proof (made_readers c ls s Hh) as MR.
    step_cases H; injection H as <-; proj; eauto;
      (apply snoc_split in E as [(-> & <- & E)|(t3 & -> & E)]; [try discriminate E|eauto]); eauto;
      try (apply snoc_split in E as [(-> & <- & E)|(t4 & -> & E)]; [try discriminate E|eauto]); eauto.
    injection E as <- <-. eauto.
Qed.
