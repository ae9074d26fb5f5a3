(** * More invariants of StreamBuffer: failures, stop events, info, next() *)
From Coq Require Import List ZArith Bool Arith Lia.
From Verif Require Import PyVal PyLib PyValFacts SortedDequeM Spec SpecDeque SpecReader SpecLog ListFacts DequeFacts DequeSearch
  BufferReaderM BufferSysM LogFacts LogReads LogKeepUp StreamBufferM SpecStream StreamFacts StreamLife StreamInv StreamOrderly StreamView StreamReads.
Import ListNotations.

(** In-analysis of a trace extended by one step. *)
Ltac in_new Hin := proj; repeat rewrite in_app_iff in Hin;
  repeat (destruct Hin as [Hin|Hin]; [|cbn in Hin; destruct Hin as [Hin|[]]; try discriminate Hin]).

(** ** Failures *)
Lemma life_fail i t p : life i t p -> forall t1 x t2 e, t = t1 ++ x :: t2 -> failure_of i e x ->
  (t2 = [] /\ p = PhEnding e) \/ exists u, t2 = [EClose i u] /\ p = PhClosed (Some e).
Proof.
  induction 1; intros t1 x t2 e0 E FX; try (destruct t1; discriminate);
    (apply snoc_split in E as [(-> & <- & E)|(t3 & -> & E)];
     [subst x; try (destruct FX as [FX|[(j0 & v0 & FX)|FX]]; try discriminate FX; injection FX; intros; subst; auto; fail)
     |destruct (IHlife _ _ _ _ E FX) as [[A B]|(w & A & B)]; try discriminate B]).
  - injection B as <-. right. subst t3. exists u. auto.
Qed.
Lemma failure_stage c ls s i e x t1 t2 : history c ls s -> sb_tr s = t1 ++ x :: t2 -> failure_of i e x ->
  (thread_events i t2 = [] /\ (thread_is s i (TFinCheck (Some e)) \/ thread_is s i (TFinSet (Some e)) \/ thread_is s i (TClose (Some e)))) \/
  (exists u, thread_events i t2 = [EClose i u] /\ thread_is s i (TDone (Some e))).
Proof.
  intros H Et FX. pose proof (life_all c ls s H i) as L. unfold life_inv in L.
  assert (BX : by_thread i x = true) by (destruct FX as [->|[(j & v & ->)| ->]]; cbn; apply Nat.eqb_refl).
  assert (TE : thread_events i (sb_tr s) = thread_events i t1 ++ x :: thread_events i t2).
  { rewrite Et. unfold thread_events. rewrite filter_app. cbn. now rewrite BX. }
  rewrite TE in L. destruct (nth_error (sb_ss s) i) as [se|] eqn:E; [|destruct (thread_events i t1); discriminate].
  destruct L as [L _]. destruct (life_fail i _ _ L _ x _ e eq_refl FX) as [[A B]|(u & A & B)].
  - left. split; [assumption|]. unfold thread_is. destruct (se_pc se) as [| | | | | | | |[]|[]|[]|] eqn:Ep; try discriminate B; cbn in B; injection B as ->; eauto 7.
  - right. exists u. split; [assumption|]. exists se. split; [assumption|]. destruct (se_pc se) as [| | | | | | | |[]|[]|[]|] eqn:Ep; try discriminate B; cbn in B; congruence.
Qed.

(** ** Failed starts *)
Definition failed_inv (s : sb) : Prop := forall i e, In (EFailed i e) (sb_tr s) ->
  thread_is s i TNew /\ ~ (latest s = i /\ match sb_start s with SOpen | SBuild | SSpawn => True | _ => False end).
Lemma failed_history c ls s : history c ls s -> failed_inv s.
Proof.
  intro H. revert ls s H. apply (sb_ind c (fun _ s => failed_inv s)).
  - intros i e [].
  - intros ls s l s' Hh IH H i e Hin. pose proof (sinv_history c ls s Hh) as I. pose proof (si_new _ I) as I3.
    assert (X : In (EFailed i e) (sb_tr s) \/ ((sb_start s = SOpen \/ sb_start s = SBuild) /\ i = latest s /\ sb_start s' = SFree)).
    { clear IH. step_cases H; injection H as <-; in_new Hin; eauto; injection Hin as <- <-; auto. }
    destruct X as [X|(X & -> & F)].
    + destruct (IH i e X) as [(se & A & P) B]. destruct (step_frame c s l s' H i se A) as (se' & A' & P' & _).
      split.
      * exists se'. split; [assumption|]. destruct P' as [->|[[o ->]|(S1 & S2 & _)]]; [assumption| |].
        -- pose proof (step_thread_pc c s i o s' se H A) as Y. rewrite P in Y. destruct Y.
        -- exfalso. apply B. rewrite S1. auto.
      * intros [E1 E2]. pose proof (nth_lt _ _ _ A) as LI.
        destruct (step_sessions c s l s' H) as [_ [L|(S1 & _ & L & S2)]].
        -- apply B. unfold latest in *. rewrite L in E1. split; [assumption|].
           destruct (step_start c s l s' H) as [[ES _]|[(_ & _ & ES & _)|(o & v & ->)]].
           ++ now rewrite ES in E2.
           ++ rewrite ES in E2. destruct E2.
           ++ cbn in H. unfold start_step in H. cbn zeta in H. destruct (sb_start s) eqn:ES; auto; try discriminate H; injection H as <-; proj; try (destruct E2; fail).
              ** destruct (running s); destruct E2.
              ** destruct second; destruct E2.
              ** destruct (running s); destruct E2.
              ** rewrite app_length in L. cbn in L. lia.
        -- unfold latest in E1. rewrite L, app_length in E1. cbn in E1. lia.
    + assert (Y : exists se, nth_error (sb_ss s) (latest s) = Some se /\ se_pc se = TNew) by (destruct X as [X|X]; rewrite X in I3; destruct I3 as (se & A & B & _); eauto).
      destruct Y as (se & A & P). destruct (step_frame c s l s' H _ se A) as (se' & A' & P' & _). rewrite F. split; [|tauto].
      exists se'. split; [assumption|]. destruct P' as [->|[[o ->]|(S1 & _)]]; [assumption| |destruct X; congruence].
      pose proof (step_thread_pc c s _ o s' se H A) as Y. rewrite P in Y. destruct Y.
Qed.
Lemma failed_quiet c ls s i e : history c ls s -> In (EFailed i e) (sb_tr s) -> thread_events i (sb_tr s) = [] /\ ~ alive s i.
Proof.
  intros H Hin. destruct (failed_history c ls s H i e Hin) as [(se & A & P) _]. pose proof (life_all c ls s H i) as L. unfold life_inv in L. rewrite A in L.
  destruct L as [_ L]. split; [auto|]. intros (p & (se' & A' & P') & Q). assert (se' = se) by congruence. subst. rewrite P in Q. destruct Q.
Qed.

(** ** Progress of start() *)
Definition to_go (p : spc) : nat :=
  match p with SFree => 0 | SSpawn => 1 | SBuild => 2 | SOpen => 3 | SFresh => 4 | SClear => 5 | SStopClear true => 6 | SStopSet true => 7
  | SCheck2 => 8 | SStopClear false => 9 | SStopSet false => 10 | SCheck1 => 11 end.
Lemma start_progress c s l s' : sb_step c s l = Some s' -> sb_start s <> SFree ->
  start_steps [l] + to_go (sb_start s') <= to_go (sb_start s).
Proof.
  intros H NF. step_cases H; injection H as <-; proj; cbn [start_steps filter length]; subst; cbn; try lia;
    rewrite ?E0; cbn; try lia; try (destruct (running s); cbn; lia); try (destruct second; cbn; lia).
  unfold lock_free in E0. destruct (sb_start s); congruence.
Qed.
Lemma start_enabled c s o v : sb_start s <> SFree -> exists s', sb_step c s (LS o v) = Some s'.
Proof.
  intro N. cbn. unfold start_step. cbn zeta. destruct (sb_start s); try congruence; eauto.
  - destruct o; eauto.
  - destruct v; [destruct (sd_init _ _ _)|]; eauto.
Qed.
Lemma start_steps_cons l ls : start_steps (l :: ls) = start_steps [l] + start_steps ls.
Proof. unfold start_steps. cbn. destruct l; reflexivity. Qed.
Lemma start_returns c ls : forall s s', sb_run c s ls = Some s' -> sb_start s <> SFree ->
  (exists pre post m, ls = pre ++ post /\ sb_run c s pre = Some m /\ sb_start m = SFree) \/ start_steps ls + to_go (sb_start s') <= to_go (sb_start s).
Proof.
  induction ls as [|l q IH]; intros s s' H NF; cbn in H; [injection H as <-; right; cbn; lia|].
  destruct (sb_step c s l) as [m|] eqn:E; [|discriminate]. pose proof (start_progress c s l m E NF) as P.
  assert (D : sb_start m = SFree \/ sb_start m <> SFree) by (destruct (sb_start m); auto; right; discriminate).
  destruct D as [D|D].
  - left. exists [l], q, m. cbn. rewrite E. auto.
  - destruct (IH m s' H D) as [(pre & post & m' & -> & H1 & H2)|Q].
    + left. exists (l :: pre), post, m'. cbn. rewrite E. auto.
    + right. rewrite start_steps_cons. lia.
Qed.

(** ** Who sets stop events, in orderly histories *)
Definition stopping (p : spc) : Prop := match p with SStopClear _ | SCheck2 | SClear | SFresh => True | _ => False end.
Definition set_inv (s : sb) : Prop := forall k e, nth_error (sb_ss s) k = Some e -> se_set e = true ->
  S k < length (sb_ss s) \/ In (EStop (Ok k)) (sb_tr s) \/ match se_pc e with TClose _ | TDone _ => True | _ => False end \/ stopping (sb_start s).
Lemma set_inv_history c ls s : history c ls s -> orderly c ls -> set_inv s.
Proof.
  intro H. revert ls s H. apply (sb_ind c (fun ls s => orderly c ls -> set_inv s)).
  - intros _ k e E. destruct k; discriminate.
  - intros ls s l s' Hh IH H O. destruct (orderly_snoc c ls l s Hh O) as [O1 _]. specialize (IH O1).
    pose proof (sinv_history c ls s Hh) as I. pose proof (evinv_history c ls s Hh) as EV.
    pose proof (fun k A => alive_latest c ls s k Hh O1 A) as AL.
    intros k e' Hk' Set'. destruct (step_new c s l s' H k e' Hk') as [(e & Hk)|(_ & -> & _)]; [|discriminate].
    destruct (step_trace c s l s' H) as (es & Et).
    destruct (se_set e) eqn:SE.
    + pose proof (StreamLife.step_length c s l s' H) as SL.
      destruct (IH k e Hk SE) as [A|[A|[A|A]]].
      * left. lia.
      * right. left. rewrite Et. apply in_or_app. now left.
      * right. right. left. destruct (step_frame c s l s' H k e Hk) as (e1 & H1 & P & _). assert (e1 = e') by congruence. subst e1.
        destruct P as [->|[[o ->]|(S1 & -> & P & _)]]; [assumption| |].
        -- destruct (thread_move c s k o s' e H Hk) as (e1 & H2 & MV). assert (e1 = e') by congruence. subst e1.
           destruct (se_pc e); try (destruct A; fail); [rewrite MV; exact Logic.I|destruct MV].
        -- exfalso. pose proof (si_new _ I) as X. rewrite S1 in X. destruct X as (e2 & X1 & X2). assert (e2 = e) by congruence. subst e2. rewrite X2 in A. destruct A.
      * assert (K : S k = length (sb_ss s) \/ S k < length (sb_ss s)) by (pose proof (nth_lt _ _ _ Hk); lia).
        destruct K as [K|K]; [|left; lia].
        destruct (step_start c s l s' H) as [[ES _]|[(_ & ES & _ & _)|(o & v & ->)]].
        -- rewrite ES. auto.
        -- rewrite ES in A. destruct A.
        -- clear IH AL EV. cbn in H. unfold start_step in H. cbn zeta in H. destruct (sb_start s) eqn:ES; try (destruct A; fail); injection H as <-; proj.
           ++ right. right. right. destruct second; exact Logic.I.
           ++ unfold running. replace (nth_error (sb_ss s) (latest s)) with (Some e) by (rewrite <- Hk; f_equal; unfold latest; lia). rewrite SE. cbn. auto.
           ++ cbn. auto.
           ++ left. rewrite app_length. cbn. lia.
    + (* the event is set by this step *)
      assert (LT_ : forall i o, l = LT i o -> i = latest s /\ tpc_of s i = tpc_of s i) by (intros i o ->; pose proof (AL i (step_alive c s i o s' H)) as [_ Y]; unfold latest; split; [lia|reflexivity]).
      clear IH EV Et I. 
      assert (CO : forall n f, nth_error (upd (sb_ss s) n f) k = Some e' -> (forall x, se_set (f x) = se_set x) -> False).
      { intros n f X Y. rewrite nth_upd, Hk in X. destruct (Nat.eqb n k); cbn in X; injection X as <-; rewrite ?Y in Set'; congruence. }
      step_cases H; injection H as <-; proj;
        try (exfalso; congruence); try (exfalso; eapply CO; [eassumption|reflexivity]; fail).
      * right. right. right. exact Logic.I.
      * exfalso. rewrite nth_error_app1 in Hk' by (eapply nth_lt; eauto). congruence.
      * right. left. rewrite nth_upd, Hk in Hk'. destruct (Nat.eqb_spec (latest s) k) as [<-|N]; [|exfalso; cbn in Hk'; congruence].
        apply in_or_app. right. now left.
      * exfalso. rewrite nth_upd, nth_upd, Hk in Hk'. destruct (Nat.eqb i k); match type of Hk' with context [Nat.eqb ?a9 k] => destruct (Nat.eqb a9 k) end; cbn in Hk'; injection Hk' as <-; cbn in Set'; congruence.
      * right. right. left. destruct (LT_ i o E) as [-> _]. rewrite nth_upd, nth_upd, Hk in Hk'.
        destruct (Nat.eqb (latest s) k); cbn in Hk'; injection Hk' as <-; cbn in *; [exact Logic.I|congruence].
Qed.

(** ** Info *)
Lemma built_history c ls s : history c ls s -> (forall i v, In (EBuilt i v) (sb_tr s) -> info_of s i = v /\ has_buf s i) /\
  (forall i, has_buf s i -> exists v, In (EBuilt i v) (sb_tr s)) /\
  (forall r q, nth_error (sb_rds s) r = Some q -> exists i n p st ig, In (ENew r i n p st ig) (sb_tr s) /\ In (EBuilt i (rd_info q)) (sb_tr s)).
Proof.
  intro H. revert ls s H. apply (sb_ind c (fun _ s => (forall i v, In (EBuilt i v) (sb_tr s) -> info_of s i = v /\ has_buf s i) /\
  (forall i, has_buf s i -> exists v, In (EBuilt i v) (sb_tr s)) /\
  (forall r q, nth_error (sb_rds s) r = Some q -> exists i n p st ig, In (ENew r i n p st ig) (sb_tr s) /\ In (EBuilt i (rd_info q)) (sb_tr s)))).
  - split; [intros i v []|]. split; [intros i [d E]; destruct i; discriminate|intros [|r] q E; discriminate].
  - intros ls s l s' Hh (IH1 & IH2 & IH3) H. pose proof (sinv_history c ls s Hh) as I. pose proof (si_new _ I) as I3.
    pose proof (fun j => step_has_buf c s l s' j H) as HB. destruct (step_trace c s l s' H) as (es & Et).
    assert (MONO : forall x, In x (sb_tr s) -> In x (sb_tr s')) by (intros x Hx; rewrite Et; apply in_or_app; now left).
    repeat split.
    + assert (X : In (EBuilt i v) (sb_tr s) \/ (sb_start s = SBuild /\ i = latest s /\ info_of s' i = v)).
      { clear IH1 IH2 IH3 HB MONO. rename H0 into Hin. step_cases H; injection H as <-; in_new Hin; auto. right. injection Hin as <- <-. split; [assumption|]. split; [reflexivity|].
        unfold info_of. proj. rewrite E0 in I3. destruct I3 as (e & He & _). now rewrite (upd_same _ _ _ _ He). }
      destruct X as [X|(X & -> & Y)]; [|assumption]. destruct (IH1 i v X) as [Y [d Z]]. rewrite <- Y. unfold buf_of in Z. unfold info_of in *.
      destruct (nth_error (sb_ss s) i) as [e|] eqn:E; [|discriminate]. destruct (step_frame c s l s' H i e E) as (e' & E' & _ & _ & IN & _).
      rewrite E'. destruct IN as [->|(S1 & -> & _)]; [reflexivity|]. exfalso. rewrite S1 in I3. destruct I3 as (e2 & X1 & _ & X2). congruence.
    + assert (X : In (EBuilt i v) (sb_tr s) \/ (sb_start s = SBuild /\ i = latest s /\ has_buf s' i)).
      { clear IH1 IH2 IH3 HB MONO. rename H0 into Hin. step_cases H; injection H as <-; in_new Hin; auto. right. injection Hin as <- <-. split; [assumption|]. split; [reflexivity|].
        unfold has_buf, buf_of. proj. rewrite E0 in I3. destruct I3 as (e & He & _). rewrite (upd_same _ _ _ _ He). cbn. eauto. }
      destruct X as [X|(_ & _ & X)]; [|assumption]. destruct (IH1 i v X) as [_ Y]. auto.
    + intros i [d Hd]. destruct (step_buf c s l s' I H i) as [[B _]|[(d1 & o & _ & B & _)|(d1 & o & v & S1 & -> & -> & _)]].
      * rewrite B in Hd. destruct (IH2 i) as [v Hv]; [now exists d|]. eauto.
      * destruct (IH2 i) as [v Hv]; [now exists d1|]. eauto.
      * clear IH1 IH2 IH3 HB MONO Et. cbn in H. unfold start_step in H. rewrite S1 in H. destruct v as [v|]; [destruct (sd_init _ _ _)|]; injection H as <-; proj.
        -- exists v. apply in_or_app. right. now left.
        -- exfalso. rewrite S1 in I3. destruct I3 as (e0 & X1 & _ & X2). unfold buf_of in Hd. proj. rewrite X1 in Hd. congruence.
        -- exfalso. rewrite S1 in I3. destruct I3 as (e0 & X1 & _ & X2). unfold buf_of in Hd. proj. rewrite X1 in Hd. congruence.
    + assert (NEWR : forall j, sb_cur s = Some j -> exists v, In (EBuilt j v) (sb_tr s) /\ info_of s j = v).
      { intros j Hj. destruct (si_cur _ I j Hj) as [_ Y]. destruct (IH2 j Y) as [v Hv]. exists v. split; [assumption|]. apply (IH1 j v Hv). }
      intros r q Hq.
      assert (X : (exists q0, nth_error (sb_rds s) r = Some q0 /\ rd_info q = rd_info q0) \/ exists j n p st ig, sb_cur s = Some j /\ In (ENew r j n p st ig) (sb_tr s') /\ rd_info q = info_of s j).
      { clear IH1 IH2 IH3 HB MONO NEWR Et. step_cases H; injection H as <-; proj; eauto;
          repeat match type of Hq with
          | nth_error (set_nth _ _ _) _ = _ => apply nth_set_inv in Hq as [(-> & -> & ? & ?)|(? & Hq)]
          | nth_error (_ ++ [_]) _ = _ => apply nth_snoc_inv in Hq as [Hq|(-> & ->)]
          end; eauto; try (left; eexists; split; [eassumption|cbn; congruence]; fail).
        - right. exists n0, n, p, st, ig. split; [assumption|]. split; [|reflexivity]. apply in_or_app. left. apply in_or_app. right. now left.
        - right. exists n, 1%Z, false, false, false. split; [assumption|]. split; [|reflexivity]. apply in_or_app. right. now left. }
      destruct X as [(q0 & Hq0 & ->)|(j & n & p & st & ig & Hj & X & ->)].
      * destruct (IH3 r q0 Hq0) as (i & n & p & st & ig & A & B). eauto 9.
      * destruct (NEWR j Hj) as (v & A & <-). eauto 9.
Qed.

(** ** next(stream_buffer) *)
Definition next_reset (c : cfg) (ls : list label) : Prop :=
  forall pre o v post s, ls = pre ++ LS o v :: post -> history c pre s -> sb_start s = SClear -> sb_next s = None.
Lemma stays_forgotten c ls : ~ In LNextMk ls -> forall s s', sb_run c s ls = Some s' -> sb_next s = None -> sb_next s' = None.
Proof.
  induction ls as [|l q IH]; intros N s s' H E; cbn in H; [injection H as <-; assumption|].
  destruct (sb_step c s l) as [m|] eqn:Es; [|discriminate]. apply (IH ltac:(intro X; apply N; now right) m s' H).
  assert (NL : l <> LNextMk) by (intros ->; apply N; now left). clear - Es E NL.
  step_cases Es; injection Es as <-; proj; auto; congruence.
Qed.
Lemma no_next_reset c ls : no_next_after_stop c ls -> next_reset c ls.
Proof.
  intros N pre o v post s E H C. destruct (N pre o v post s E H C) as [X|(p & l & q & -> & R & X)].
  - eapply stays_forgotten; [exact X|exact H|reflexivity].
  - unfold history in H. rewrite sb_run_app in H. destruct (sb_run c sb0 p) as [m|] eqn:Em; [|discriminate]. cbn [sb_run] in H.
    destruct (sb_step c m l) as [m'|] eqn:El; [|discriminate]. eapply stays_forgotten; [exact X|exact H|].
    destruct R as [->|(o' & v' & m0 & b & -> & Hm0 & Sm)].
    + cbn in El. destruct (sb_stops m); [discriminate|]. injection El as <-. reflexivity.
    + unfold history in Hm0. assert (m0 = m) by congruence. subst m0. cbn in El. unfold start_step in El. rewrite Sm in El. injection El as <-. reflexivity.
Qed.
Lemma next_reset_snoc c ls l s : history c ls s -> next_reset c (ls ++ [l]) -> next_reset c ls /\ ((exists o v, l = LS o v) -> sb_start s = SClear -> sb_next s = None).
Proof.
  intros H N. split.
  - intros pre o v post s0 E. apply (N pre o v (post ++ [l])). rewrite E. now rewrite <- app_assoc.
  - intros (o & v & ->) S1. apply (N ls o v [] s); auto.
Qed.
Lemma next_current c ls s : history c ls s -> next_reset c ls ->
  (sb_start s = SFresh -> sb_next s = None) /\
  (forall r, sb_next s = Some r -> exists q, nth_error (sb_rds s) r = Some q /\ S (rd_sess q) = length (sb_ss s)).
Proof.
  intro H. revert ls s H. apply (sb_ind c (fun ls s => next_reset c ls -> (sb_start s = SFresh -> sb_next s = None) /\
  (forall r, sb_next s = Some r -> exists q, nth_error (sb_rds s) r = Some q /\ S (rd_sess q) = length (sb_ss s)))).
  - intros _. split; discriminate.
  - intros ls s l s' Hh IH H N. destruct (next_reset_snoc c ls l s Hh N) as [N1 N2]. destruct (IH N1) as [A B]. pose proof (sinv_history c ls s Hh) as I.
    pose proof (si_cur _ I) as IC.
    split.
    + intro F. clear B IH. step_cases H; injection H as <-; proj; auto; try congruence; try (rewrite F in *; try discriminate; auto; fail).
      all: try (destruct (running s); discriminate). all: try (destruct second; discriminate). all: eauto. 
      all: try (unfold lock_free in *; destruct (sb_start s); discriminate).
    + intros r Hr. clear IH.
      step_cases H; injection H as <-; proj; rewrite ?upd_length; auto; try discriminate.
      all: try (destruct (B _ Hr) as (q & Q1 & Q2); rewrite ?nth_error_set_nth;
        repeat match goal with |- context [Nat.eqb ?a ?b] => destruct (Nat.eqb_spec a b) as [?|?] end; subst; rewrite ?Q1; eauto; eexists; split; [reflexivity|]; cbn; congruence).
      * rewrite (A E0) in Hr. discriminate.
      * destruct (B r Hr) as (q & Q1 & Q2). rewrite nth_error_app1 by (eapply nth_lt; eauto). eauto.
      * destruct (B r Hr) as (q & Q1 & Q2). rewrite nth_error_set_nth. destruct (Nat.eqb_spec r0 r) as [->|]; [|eauto]. rewrite Q1. eexists. split; [reflexivity|]. cbn.
        apply (IC n E2).
      * injection Hr as <-. rewrite nth_snoc, Nat.ltb_irrefl, Nat.eqb_refl. eexists. split; [reflexivity|]. cbn. apply (IC n E2).
Qed.
