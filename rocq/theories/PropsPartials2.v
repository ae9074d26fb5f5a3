(** * Property theorems: the parts of C51, C54, C72, C76, C77, C78 that hold *)
From Coq Require Import List ZArith QArith Bool Arith Lia Sorting.Sorted.
From Verif Require Import PyVal PyLib PyValFacts SortedDequeM Spec SpecDeque SpecReader BisectFacts Families DequeFacts
  BufferReaderM BufferSysM LogFacts StreamBufferM SpecStream StreamFacts StreamView StreamReads StreamInv StreamLife StreamOrderly StreamMore StreamSuffix PropsStreamRead PropsStream
  StreamSourceM SpecSource PropsSource SourcesM SpecSources PropsSources ReaderClassM SpecReaderClass PropsReaderClass.
Import ListNotations.
Open Scope nat_scope.

(** ** C51: the configurations that work *)
Lemma life_why i t p : life i t p -> forall e, (p = PhEnding e \/ p = PhClosed (Some e)) -> (exists x, In x t /\ failure_of i e x) \/ In (ENoBuf i e) t.
Proof.
  assert (M : forall t a e, (exists x, In x t /\ failure_of i e x) \/ In (ENoBuf i e) t -> (exists x, In x (t ++ [a]) /\ failure_of i e x) \/ In (ENoBuf i e) (t ++ [a])).
  { intros t0 a e0 [(x & X & F)|X]; [left; exists x; split; [apply in_or_app; now left|assumption]|right; apply in_or_app; now left]. }
  assert (L : forall (t : list ev) a, In a (t ++ [a])) by (intros; apply in_or_app; right; now left).
  induction 1; intros x [E|E]; try discriminate E; try (injection E as <-);
    first [right; solve [apply L] | left; eexists; solve [split; [apply L|now left]] | left; eexists; solve [split; [apply L|right; left; eauto]] | left; eexists; solve [split; [apply L|right; right; reflexivity]] | apply M; solve [eauto]].
Qed.
(** With auto_drop=True or an integer maxlen (restarts finding the earlier threads ended): a
    reading thread dies of nothing but an exception of the source's read(), of the append or
    of time.sleep() (for that see C117). *)
Theorem C51_working_configurations_partial :
  forall c ls s, history c ls s -> orderly c ls -> c_auto c = PBool true \/ c_maxlen c <> None ->
  forall i e, thread_is s i (TDone (Some e)) -> exists x, In x (sb_tr s) /\ failure_of i e x.
Proof.
  intros c ls s H O C i e (se & E & P). rewrite <- is_True_iff in C. pose proof (life_all c ls s H i) as L. unfold life_inv in L. rewrite E in L. destruct L as [L _]. rewrite P in L. cbn in L.
  destruct (life_why i _ _ L e (or_intror eq_refl)) as [(x & X & F)|X].
  - exists x. split; [|assumption]. apply filter_In in X. tauto.
  - apply filter_In in X as [X _]. destruct (own_buffer c ls s H O) as [_ B]. destruct (B _ _ X) as (_ & B1 & B2). destruct C; congruence.
Qed.
Print Assumptions C51_working_configurations_partial.
Example C51_partial_nonvacuous :
  let c := MkCfg ident (Some 2%Z) (PBool false) in
  let h := starting (PObj 7) ++ room_round 0 (PInt 5) ++ [LT 0 (Ok PNone); LT 0 (Ok PNone); LT 0 (Ok PNone); LT 0 (Raise KeyError)] ++ [LT 0 (Ok PNone); LT 0 (Ok PNone); LT 0 (Ok PNone)] in let s := end_of c h in
  history c h s /\ orderly c h /\ accepted_by 0 (sb_tr s) = [PInt 5] /\ thread_is s 0 (TDone (Some KeyError)).
Proof.
  cbn zeta. split; [apply history_end; vm_compute; reflexivity|]. split; [apply orderlyb_ok; vm_compute; reflexivity|]. split; [vm_compute; reflexivity|]. eexists. split; vm_compute; reflexivity.
Qed.

(** ** C72: starts that do not fail after open() *)
Definition open_inv (s : sb) : Prop := forall i u, In (EOpen i (Ok u)) (sb_tr s) ->
  (exists e, In (EFailed i e) (sb_tr s)) \/ (latest s = i /\ (sb_start s = SBuild \/ sb_start s = SSpawn)) \/ (exists e, nth_error (sb_ss s) i = Some e /\ se_pc e <> TNew).
Lemma pc_not_new c s k o s' e e' : sb_step c s (LT k o) = Some s' -> nth_error (sb_ss s) k = Some e -> nth_error (sb_ss s') k = Some e' -> se_pc e' <> TNew.
Proof.
  intros H E E' P. destruct (thread_move c s k o s' e H E) as (e1 & H2 & MV). assert (e1 = e') by congruence. subst e1. rewrite P in MV.
  destruct (se_pc e); try (destruct MV; fail); repeat (destruct MV as [MV|MV]); repeat match goal with X : _ /\ _ |- _ => destruct X | X : exists _, _ |- _ => destruct X end; try discriminate.
  all: try (destruct (running s); discriminate).
  all: try (destruct (Z.ltb _ _); discriminate). all: destruct o as [v|y]; [destruct (is_none v)|]; discriminate.
Qed.
Lemma open_history c ls s : history c ls s -> open_inv s.
Proof.
  revert ls s. apply (sb_ind c (fun _ s => open_inv s)).
  - intros i u [].
  - intros ls s l s' Hh IH H i u Hin. pose proof (sinv_history c ls s Hh) as I. pose proof (si_new _ I) as I3.
    destruct (run_trace c [l] s s') as (es & Es); [cbn; now rewrite H|].
    assert (X : In (EOpen i (Ok u)) (sb_tr s) \/ (sb_start s' = SBuild /\ i = latest s')).
    { clear IH I3. step_cases H; injection H as <-; in_new Hin; eauto; injection Hin as <- <-; auto. }
    destruct X as [X|(X & ->)]; [|auto].
    destruct (IH i u X) as [(e & F)|[(<- & St)|(e & E & P)]].
    + left. exists e. rewrite Es. apply in_or_app. now left.
    + destruct (step_start c s l s' H) as [[ES _]|[(_ & SF & _)|(o & v & ->)]].
      * right. left. split; [|now rewrite ES]. destruct (step_sessions c s l s' H) as [_ [L|(S1 & _)]]; [unfold latest; now rewrite L|]. destruct St; congruence.
      * destruct St; congruence.
      * destruct St as [St|St].
        -- clear Es. cbn in H. unfold start_step in H. rewrite St in H. destruct v as [v|e]; [destruct (sd_init [] (c_key c) (c_maxlen c)) as [d0|e]|]; injection H as <-; proj.
           ++ right. left. unfold latest. proj. rewrite upd_length. auto.
           ++ left. exists e. apply in_or_app. right. now left.
           ++ left. exists e. apply in_or_app. right. now left.
        -- right. right. cbn in H. unfold start_step in H. rewrite St in H, I3. injection H as <-. proj. destruct I3 as (e & E & _). rewrite (upd_same _ _ _ _ E).
           eexists. split; [reflexivity|discriminate].
    + right. right. destruct (step_frame c s l s' H i e E) as (e' & E' & Q & _). exists e'. split; [assumption|].
      destruct Q as [->|[[o ->]|(_ & _ & -> & _)]]; [assumption|eapply pc_not_new; eauto|discriminate].
Qed.
Lemma open_bound c ls s : history c ls s -> forall i o, In (EOpen i o) (sb_tr s) -> i < length (sb_ss s) /\ (sb_start s = SOpen -> i < latest s).
Proof.
  revert ls s. apply (sb_ind c (fun _ s => forall i o, In (EOpen i o) (sb_tr s) -> i < length (sb_ss s) /\ (sb_start s = SOpen -> i < latest s))); [intros i o []|].
  intros ls s l s' Hh IH H i o Hin. pose proof (sinv_history c ls s Hh) as I. pose proof (si_new _ I) as I3.
  assert (X : In (EOpen i o) (sb_tr s) \/ (sb_start s = SOpen /\ sb_start s' <> SOpen /\ i = latest s)).
  { clear IH I3. step_cases H; injection H as <-; in_new Hin; eauto; injection Hin as <- <-; right; repeat split; auto; discriminate. }
  pose proof (step_length c s l s' H) as LE. destruct X as [X|(X & N & ->)].
  - destruct (IH i o X) as [A B]. split; [lia|]. intro S0. destruct (step_sessions c s l s' H) as [_ [L|(S1 & _ & L & S2)]].
    + unfold latest in *. rewrite L. apply B. destruct (step_start c s l s' H) as [[ES _]|[(_ & _ & ES & _)|(o' & v & ->)]]; [congruence|congruence|].
      cbn in H. unfold start_step in H. cbn zeta in H. destruct (sb_start s) eqn:ES; auto; try discriminate H; exfalso.
      all: try (injection H as <-; proj; discriminate S0).
      * injection H as <-; proj. destruct (running s); discriminate S0.
      * injection H as <-; proj. destruct second; discriminate S0.
      * injection H as <-; proj. destruct (running s); discriminate S0.
      * injection H as <-; proj. rewrite app_length in L. cbn in L. lia.
      * destruct v; [destruct (sd_init [] (c_key c) (c_maxlen c))|]; injection H as <-; proj; discriminate S0.
    + unfold latest. rewrite L, app_length. cbn. lia.
  - rewrite X in I3. destruct I3 as (e & E & _). apply nth_lt in E. split; [lia|congruence].
Qed.
Lemma failed_unopened c d0 ls s : history c ls s -> sd_init [] (c_key c) (c_maxlen c) = Ok d0 -> infos_ok ls ->
  forall i e, In (EFailed i e) (sb_tr s) -> forall u, ~ In (EOpen i (Ok u)) (sb_tr s).
Proof.
  intros H D0. revert ls s H. apply (sb_ind c (fun ls s => infos_ok ls -> forall i e, In (EFailed i e) (sb_tr s) -> forall u, ~ In (EOpen i (Ok u)) (sb_tr s))); [intros _ i e []|].
  intros ls s l s' Hh IH H IO i e HF u HO.
  assert (IO1 : infos_ok ls) by (intros o x X; apply (IO o x), in_or_app; now left).
  assert (NL : forall o x, l <> LS o (Raise x)) by (intros o x ->; apply (IO o x), in_or_app; right; now left).
  assert (X : (exists e, In (EFailed i e) (sb_tr s)) \/ (sb_start s = SOpen /\ i = latest s /\ forall u, In (EOpen i (Ok u)) (sb_tr s') -> In (EOpen i (Ok u)) (sb_tr s))).
  { clear IH HO. step_cases H; injection H as <-; in_new HF; eauto.
    - injection HF as <- <-. right. split; [assumption|]. split; [reflexivity|]. intros u0 X. in_new X; auto; discriminate.
    - congruence.
    - subst. now elim (NL o e0). }
  assert (Y : (exists u, In (EOpen i (Ok u)) (sb_tr s)) \/ (sb_start s = SOpen /\ i = latest s)).
  { clear IH HF X. step_cases H; injection H as <-; in_new HO; eauto; injection HO as <- <-; auto. }
  destruct X as [(e1 & X)|(X1 & -> & X2)].
  - destruct Y as [(u1 & Y)|(Y & ->)]; [exact (IH IO1 i e1 X u1 Y)|]. destruct (failed_history c ls s Hh _ _ X) as [_ N]. apply N. rewrite Y. auto.
  - apply X2 in HO. destruct (open_bound c ls s Hh _ _ HO) as [_ B]. specialize (B X1). lia.
Qed.
(** If the buffer can be built and reading info does not raise, no start() fails after open()
    succeeded; and whenever no start() is in progress, each opening of the source has its
    thread at work, or has been closed by it. *)
Theorem C72_openings_are_closed_partial :
  forall c ls s d0, history c ls s -> sd_init [] (c_key c) (c_maxlen c) = Ok d0 -> infos_ok ls ->
  forall i u, In (EOpen i (Ok u)) (sb_tr s) ->
  (forall e, ~ In (EFailed i e) (sb_tr s)) /\ (sb_start s = SFree -> alive s i \/ exists o, In (EClose i o) (sb_tr s)).
Proof.
  intros c ls s d0 H D0 IO i u Hin.
  assert (NF : forall e, ~ In (EFailed i e) (sb_tr s)) by (intros e X; now apply (failed_unopened c d0 ls s H D0 IO i e X u)).
  split; [assumption|]. intro F. destruct (open_history c ls s H i u Hin) as [(e & X)|[(_ & [X|X])|(e & E & P)]]; [now elim (NF e)|congruence|congruence|].
  destruct (se_pc e) eqn:EP; try congruence; try (left; exists (se_pc e); split; [now exists e|]; rewrite EP; exact Logic.I).
  right. destruct (C38_thread_life c ls s H i) as (_ & _ & (EN & _) & _). assert (C1 : ended s i) by (exists e0; exists e; auto). apply EN in C1.
  unfold count in C1. destruct (filter (is_close_of i) (sb_tr s)) as [|x q] eqn:EF; [discriminate|]. assert (X : In x (filter (is_close_of i) (sb_tr s))) by (rewrite EF; now left).
  apply filter_In in X as [X Y]. destruct x; try discriminate Y. cbn in Y. apply Nat.eqb_eq in Y. subst. eauto.
Qed.
Print Assumptions C72_openings_are_closed_partial.
Example C72_partial_nonvacuous :
  let h := (LStart :: repeat (LS (Raise RuntimeError) (Ok PNone)) 5) ++ restarting (PObj 8) ++ round 1 (PInt 1) ++ [LStop; LT 1 (Ok PNone); LT 1 (Ok PNone); LT 1 (Ok PNone); LStopRet] ++ starting (PObj 8) in let s := end_of cfg3 h in
  history cfg3 h s /\ (exists d0, sd_init [] (c_key cfg3) (c_maxlen cfg3) = Ok d0) /\ infos_ok h /\ sb_start s = SFree /\
  filter is_open (sb_tr s) = [EOpen 0 (Raise RuntimeError); EOpen 1 (Ok tt); EOpen 2 (Ok tt)] /\ In (EClose 1 (Ok tt)) (sb_tr s) /\ thread_is s 2 TCheck.
Proof.
  cbn zeta. split; [apply history_end; vm_compute; reflexivity|]. split; [eexists; reflexivity|]. split; [apply infos_okb; vm_compute; reflexivity|]. split; [vm_compute; reflexivity|].
  split; [vm_compute; reflexivity|]. split; [|eexists; split; vm_compute; reflexivity]. set (t := sb_tr _). vm_compute in t. subst t. repeat (first [left; reflexivity|right]).
Qed.

(** ** C54, C76: as long as nothing failed and the stream was not stopped *)
Lemma started_cur d ops x tr : uses d ops x tr -> (forall n st ig o info e, ~ In (XOpen n st ig o info, OutRaise e) tr) -> forall c s, x_sb x = Some (c, s) -> sb_cur s = Some 0.
Proof.
  revert ops x tr. apply (x_ind d (fun _ x tr => (forall n st ig o info e, ~ In (XOpen n st ig o info, OutRaise e) tr) -> forall c s, x_sb x = Some (c, s) -> sb_cur s = Some 0)); [discriminate|].
  intros ops x tr op x' out Hu IH Hs NF c s E. pose proof (xinv_uses d ops x tr Hu) as I.
  assert (IH' : forall c s, x_sb x = Some (c, s) -> sb_cur s = Some 0) by (apply IH; intros n st ig o info e X; apply (NF n st ig o info e), in_or_app; now left). clear IH.
  assert (OUT : forall c s l s', x_sb x = Some (c, s) -> sb_step c s l = Some s' -> (forall o v, l <> LS o v) -> l <> LStart -> sb_cur s' = Some 0).
  { intros c1 s1 l s1' E1 H1 N1 N2. destruct (outer_step c1 s1 l s1' H1 N1 N2) as (_ & C & _). rewrite C. eauto. }
  destruct op as [m a|n st ig o info|r| | |l]; cbn [x_step] in Hs.
  - injection Hs as Hs. unfold configure in Hs. destruct (x_sb x) as [[c1 s1]|] eqn:Ex; injection Hs as <- <-; [rewrite Ex in E; eauto|discriminate].
  - injection Hs as Hs. pose proof (open_spec d x tr n st ig o info I) as X. rewrite Hs in X. destruct X as (c1 & s1 & s2 & E1 & _ & I1 & CS & W).
    assert (c1 = c /\ s2 = s) as [-> ->] by (split; congruence). clear E1.
    destruct W as [(_ & _ & e & _ & ->)|[(_ & -> & _)|(C0 & _ & T & _)]]; [exfalso; eapply NF; apply in_or_app; right; now left|exfalso; eapply NF; apply in_or_app; right; now left|].
    destruct (xi_hist _ _ _ _ _ I1) as [ls Hl]. pose proof (ls_history c ls s Hl) as L. unfold ls_inv in L. rewrite (xi_free _ _ _ _ _ I1) in L.
    destruct (xi_started _ _ _ _ _ I1) as [b LS]. rewrite LS in L. destruct b; [exact L|exfalso].
    assert (LS1 : last_start (sb_tr s1) = Some (0, false)).
    { rewrite T in LS. change [ENew (length (sb_rds s1)) 0 n false st ig; EMk (Ok (length (sb_rds s1)))] with ([ENew (length (sb_rds s1)) 0 n false st ig] ++ [EMk (Ok (length (sb_rds s1)))]) in LS.
      rewrite app_assoc, !last_start_snoc in LS. exact LS. }
    destruct (x_sb x) as [[c0 s0]|] eqn:Ex.
    + destruct CS as [-> ->]. unfold xinv_all in I. rewrite Ex in I. destruct (xi_hist _ _ _ _ _ I) as [ls0 Hl0]. pose proof (ls_history c0 ls0 s0 Hl0) as L0. unfold ls_inv in L0.
      rewrite (xi_free _ _ _ _ _ I), LS1 in L0. destruct L0; congruence.
    + destruct CS as [-> ->]. pose proof (start_first (mk_cfg d (x_kw x)) o info) as SF. cbn zeta in SF. destruct SF as ([ls0 Hl0] & F0 & _).
      pose proof (ls_history _ ls0 _ Hl0) as L0. unfold ls_inv in L0. rewrite F0, LS1 in L0. destruct L0; congruence.
  - destruct (has_reader x r); [|discriminate]. injection Hs as Hs. unfold x_close in Hs. cbn [x_open x_kw x_sb] in Hs. destruct (Z.leb _ 0).
    + unfold x_exit in Hs. cbn [x_sb] in Hs. destruct (x_sb x) as [[c1 s1]|] eqn:Ex; [|injection Hs as <- _; cbn in E; congruence].
      destruct (sb_step c1 s1 LStop) as [s3|] eqn:H3; injection Hs as <- _; cbn in E; injection E as <- <-; [|eauto]. eapply OUT; eauto; discriminate.
    + injection Hs as <- _. cbn in E. eauto.
  - injection Hs as Hs. unfold x_exit in Hs. destruct (x_sb x) as [[c1 s1]|] eqn:Ex; [|injection Hs as <- _; congruence].
    destruct (sb_step c1 s1 LStop) as [s3|] eqn:H3; injection Hs as <- _; cbn in E; [injection E as <- <-|rewrite Ex in E; eauto]. eapply OUT; eauto; discriminate.
  - destruct (x_sb x) as [[c1 s1]|] eqn:Ex; [|discriminate]. destruct (sb_step c1 s1 LStopRet) as [s3|] eqn:H3; [|discriminate]. injection Hs as <- _. cbn in E. injection E as <- <-. eapply OUT; eauto; discriminate.
  - destruct (is_bg l) eqn:B; [|discriminate]. destruct (x_sb x) as [[c1 s1]|] eqn:Ex; [|discriminate]. destruct (sb_step c1 s1 l) as [s3|] eqn:H3; [|discriminate]. injection Hs as <- _. cbn in E.
    injection E as <- <-. eapply OUT; eauto; intros; intros ->; discriminate B.
Qed.
(** Each open_reader() of a StreamSource none of whose open_reader() calls has failed and
    whose stream was not stopped (by closing the last reader, by exit(), or by a failure of
    its thread), with a source that opens: a reader on a stream that is not stopped, with a
    fresh cursor; and the source has been opened exactly once. *)
Theorem C54_running_partial :
  forall d ops x tr, uses d ops x tr -> (forall n st ig o info e, ~ In (XOpen n st ig o info, OutRaise e) tr) -> ~ is_stopped x ->
  forall d0, sd_init [] (d_key d) (c_maxlen (mk_cfg d (x_kw x))) = Ok d0 ->
  forall n st ig u v x' out, x_step d x (XOpen n st ig (Ok u) (Ok v)) = Some (x', out) ->
  exists r k c s q, out = OutReader r k /\ x_sb x' = Some (c, s) /\ nth_error (sb_rds s) r = Some q /\ ev_set s (rd_sess q) = false /\
    rd_r q = mk_breader n false st ig /\ ~ is_stopped x' /\ length (filter is_open (stream_events x')) = 1.
Proof.
  intros d ops x tr H NF NS d0 D0 n st ig u v x' out Hs. pose proof (xinv_uses d ops x tr H) as I. pose proof (started_cur d ops x tr H NF) as SC.
  cbn [x_step] in Hs. injection Hs as Hs. pose proof (open_spec d x tr n st ig (Ok u) (Ok v) I) as X. rewrite Hs in X. destruct X as (c & s & s1 & E & _ & I1 & CS & W).
  assert (G : sb_cur s = Some 0 /\ ev_set s 0 = false /\ (x_sb x = None -> raised s = None)).
  { unfold is_stopped in NS. destruct (x_sb x) as [[c0 s0]|] eqn:Ex.
    - destruct CS as [-> ->]. split; [eauto|]. split; [now destruct (ev_set s0 0)|discriminate].
    - destruct CS as [-> ->]. pose proof (start_first (mk_cfg d (x_kw x)) (Ok u) (Ok v)) as SF. cbn zeta in SF. destruct SF as (_ & _ & _ & _ & _ & SF).
      assert (CK : c_key (mk_cfg d (x_kw x)) = d_key d) by (unfold mk_cfg; destruct (x_kw x) as [[? ?]|]; reflexivity). rewrite CK, D0 in SF. destruct SF as (T & C & V). split; [exact C|]. split; [exact V|].
      intros _. unfold raised. now rewrite T. }
  destruct G as (C0 & V0 & R0). destruct W as [(N & _ & e & R & _)|[(C & _)|(_ & -> & T & _ & q & R & Q)]]; [rewrite (R0 N) in R; discriminate|congruence|].
  exists (length (sb_rds s)). eexists. exists c, s1, q. split; [reflexivity|]. split; [assumption|].
  assert (LM : sb_step c s (StreamBufferM.LMk n false st ig) = Some s1).
  { destruct (x_sb x) as [[c0 s0]|] eqn:Ex.
    - destruct CS as [-> ->]. unfold xinv_all in I. rewrite Ex in I. destruct (open_existing d x tr c0 s0 n st ig (Ok u) (Ok v) x' _ I Ex Hs) as (s2 & H2 & E2). congruence.
    - destruct CS as [-> ->]. unfold open_reader, ensure_buffer in Hs. rewrite Ex in Hs. rewrite (R0 eq_refl) in Hs. cbn [x_sb x_kw x_open] in Hs.
      destruct (sb_step (mk_cfg d (x_kw x)) (start_now (mk_cfg d (x_kw x)) sb0 (Ok u) (Ok v)) (StreamBufferM.LMk n false st ig)) as [s2|] eqn:H2; [|discriminate].
      destruct (last (sb_tr s2) (EMk (Raise RuntimeError))) as [ | | | | | | | | | |[|]| | | | | |]; try discriminate Hs; injection Hs as <- _; cbn in E; congruence. }
  assert (MM : sb_rds s1 = sb_rds s ++ [mk_rdr s 0 n false st ig] /\ sb_ss s1 = sb_ss s).
  { cbn in LM. destruct (lock_free s); [|discriminate]. rewrite C0 in LM. injection LM as <-. split; reflexivity. }
  destruct MM as [M1 M2]. assert (V1 : ev_set s1 0 = false) by (unfold ev_set in *; now rewrite M2).
  split; [rewrite R, nth_snoc, Nat.ltb_irrefl, Nat.eqb_refl; reflexivity|]. split; [now rewrite Q|].
  split. { rewrite M1 in R. apply app_inj_tail in R as [_ <-]. reflexivity. }
  unfold is_stopped, stream_events. rewrite E. split; [congruence|]. destruct (xi_src _ _ _ _ _ I1) as [o ->]. reflexivity.
Qed.
Print Assumptions C54_running_partial.
Example C54_partial_nonvacuous :
  let p := x_end sdef0 [opn; XClose 0] in let p1 := x_end sdef0 ([opn; opn] ++ map XBg (round 0 (PInt 1)) ++ [XClose 0]) in
  uses sdef0 ([opn; opn] ++ map XBg (round 0 (PInt 1)) ++ [XClose 0]) (fst p1) (snd p1) /\ forallb (fun q => match snd q with OutRaise _ => false | _ => true end) (snd p1) = true /\
  ~ is_stopped (fst p1) /\ (exists d0, sd_init [] (d_key sdef0) (c_maxlen (mk_cfg sdef0 (x_kw (fst p1)))) = Ok d0) /\ is_stopped (fst p).
Proof.
  cbn zeta. split; [vm_compute; reflexivity|]. split; [vm_compute; reflexivity|]. split; [vm_compute; discriminate|]. split; [eexists; vm_compute; reflexivity|vm_compute; reflexivity].
Qed.
Lemma last_start_failed tr i : last_start tr = Some (i, false) -> exists e, In (EFailed i e) tr.
Proof.
  induction tr as [|a tr IH]; cbn; [discriminate|]. destruct (last_start tr) as [[k b]|].
  - intro E. injection E as -> ->. destruct (IH eq_refl) as [e X]. eauto.
  - destruct a; try discriminate. intro E. injection E as <-. eauto.
Qed.
(** C76: what a failed open_reader() leaves behind: no reading thread, and no reader. *)
Theorem C76_failed_open_leaves_nothing_partial :
  forall d ops x tr, uses d ops x tr -> forall n st ig o info x' e, x_step d x (XOpen n st ig o info) = Some (x', OutRaise e) ->
  x_open x' = x_open x /\ (forall r, has_reader x' r = has_reader x r) /\ (forall c s i, x_sb x' = Some (c, s) -> ~ alive s i).
Proof.
  intros d ops x tr H n st ig o info x' e Hs. pose proof (xinv_uses d ops x tr H) as I. cbn [x_step] in Hs. injection Hs as Hs.
  pose proof (open_spec d x tr n st ig o info I) as X. rewrite Hs in X. destruct X as (c & s & s1 & E & _ & I1 & CS & W).
  pose proof (xi_count _ _ _ _ _ I1) as CN. rewrite opened_snoc, closed_snoc, !app_nil_r in CN.
  assert (CN0 : x_open x = (Z.of_nat (length (opened tr)) - Z.of_nat (length (closed tr)))%Z).
  { unfold xinv_all in I. destruct (x_sb x) as [[c0 s0]|]; [exact (xi_count _ _ _ _ _ I)|]. destruct I as (A & B & C). rewrite A, B, C. reflexivity. }
  split; [lia|].
  assert (C1 : sb_cur s1 = None /\ sb_rds s1 = match x_sb x with Some (_, s0) => sb_rds s0 | None => [] end).
  { destruct (x_sb x) as [[c0 s0]|] eqn:Ex.
    - destruct CS as [-> ->]. destruct W as [(X & _)|[(C0 & _ & _ & R)|(_ & X & _)]]; try discriminate. split; [|assumption].
      unfold xinv_all in I. rewrite Ex in I. destruct (open_existing d x tr c0 s0 n st ig o info x' _ I Ex Hs) as (s3 & H3 & E3).
      assert (s3 = s1) by congruence. subst s3. destruct (outer_step c0 s0 _ s1 H3) as (_ & CC & _); [discriminate|discriminate|]. congruence.
    - destruct CS as [-> ->]. pose proof (start_first (mk_cfg d (x_kw x)) o info) as SF. cbn zeta in SF. destruct SF as (_ & _ & _ & R0 & _).
      destruct W as [(_ & -> & e0 & R & _)|[(C0 & _ & T & R)|(_ & X & _)]]; [| |discriminate].
      + split; [|assumption]. pose proof (raised_cases (mk_cfg d (x_kw x)) o info) as RC. now rewrite R in RC.
      + exfalso. pose proof (raised_cases (mk_cfg d (x_kw x)) o info) as RC.
        unfold open_reader, ensure_buffer in Hs. rewrite Ex in Hs. destruct (raised (start_now (mk_cfg d (x_kw x)) sb0 o info)) eqn:RA; [|destruct RC; congruence].
        injection Hs as <- _. cbn in E. injection E as <-. apply (f_equal (@length ev)) in T. rewrite app_length in T. cbn in T. lia. }
  destruct C1 as [C1 R1]. split.
  - intro r. unfold has_reader. rewrite E, R1. destruct (x_sb x) as [[c0 s0]|]; [reflexivity|]. cbn. destruct r; reflexivity.
  - intros c2 s2 i E2 A. assert (s2 = s1) by congruence. subst s2. destruct (xi_hist _ _ _ _ _ I1) as [ls Hl]. pose proof (ls_history c ls s1 Hl) as L. unfold ls_inv in L.
    rewrite (xi_free _ _ _ _ _ I1) in L. destruct (xi_started _ _ _ _ _ I1) as [b LS]. rewrite LS in L. destruct b; [congruence|].
    destruct (last_start_failed _ _ LS) as (e1 & X). destruct i as [|i]; [exact (proj2 (failed_quiet c ls s1 0 e1 Hl X) A)|].
    destruct A as (p & (se & N & _) & _). apply nth_lt in N. rewrite (xi_one _ _ _ _ _ I1) in N. lia.
Qed.
Print Assumptions C76_failed_open_leaves_nothing_partial.
(** An open() that fails, and an open_reader() call after it. *)
Example C76_partial_nonvacuous :
  let bad := XOpen 1 false true (Raise RuntimeError) (Ok PNone) in
  (exists x', x_step sdef0 x0 bad = Some (x', OutRaise RuntimeError)) /\ exists x tr x', uses sdef0 [bad] x tr /\ x_step sdef0 x opn = Some (x', OutRaise StreamNotStartedError).
Proof. cbn zeta. split; [eexists; vm_compute; reflexivity|]. do 3 eexists. split; vm_compute; reflexivity. Qed.

(** ** C77: streams on an HTTPResponseReader under a clock that moves *)
Lemma flt_lt p q : (p < q)%Q -> py_lt (PFloat (FFin p)) (PFloat (FFin q)) = Ok true /\ py_eq (PFloat (FFin p)) (PFloat (FFin q)) = false.
Proof.
  intro L. cbn. unfold Qlt_bool. split.
  - f_equal. apply negb_true_iff. destruct (Qle_bool _ _) eqn:E; [|reflexivity]. apply Qle_bool_iff in E. exfalso. eapply Qlt_not_le; eauto.
  - destruct (Qeq_bool _ _) eqn:E; [|reflexivity]. apply Qeq_bool_iff in E. exfalso. rewrite E in L. eapply Qlt_irrefl; eauto.
Qed.
(** The times of the chunks (time, data) that thread [i] got. *)
Definition chunk_times (i : nat) (tr : list ev) : list pyval := flat_map (fun v => match v with PTuple (t :: _) => [t] | _ => [] end) (data_read i tr).
Lemma times_ordered l qs : (forall v, In v l -> exists now d, v = PTuple [now; d]) ->
  flat_map (fun v => match v with PTuple (t :: _) => [t] | _ => [] end) l = map (fun q => PFloat (FFin q)) qs -> StronglySorted Qlt qs -> strictly_ordered http_key l.
Proof.
  revert qs. induction l as [|v l IH]; intros qs A E S; [constructor|]. destruct (A v) as (now & d & ->); [now left|]. cbn in E. destruct qs as [|q qs]; [discriminate|]. cbn in E. injection E as -> E.
  inversion S as [|? ? S1 F]; subst. constructor; [apply (IH qs); auto; intros; apply A; now right|]. apply Forall_forall. intros w Hw. destruct (A w) as (now & d' & ->); [now right|].
  assert (X : In now (map (fun q => PFloat (FFin q)) qs)) by (rewrite <- E; apply in_flat_map; eexists; split; [exact Hw|now left]).
  apply in_map_iff in X as (q' & <- & X). rewrite Forall_forall in F. specialize (F q' X). do 2 eexists. split; [reflexivity|]. split; [reflexivity|]. apply ltb_true.
  rewrite pair_lt2. destruct (flt_lt q q' F) as [-> ->]. reflexivity.
Qed.
(** If the clock gives strictly increasing times to the reads of each session, then no append
    fails - before or after the end of the response - and all that was read is in the buffer,
    up to one chunk in hand; with auto_drop=True or an integer maxlen, a thread dies of nothing
    but an exception of the response's read() or of time.sleep(). Missing: the end of the
    response is data. *)
Theorem C77_moving_clock_partial :
  forall a maxlen auto ls s, let c := MkCfg http_key maxlen auto in stream_on (http_source a) c ls s ->
  (forall i, exists qs, chunk_times i (sb_tr s) = map (fun q => PFloat (FFin q)) qs /\ StronglySorted Qlt qs) ->
  (forall i j x o, In (EAppend i j x o) (sb_tr s) -> o = Ok tt) /\
  (forall i, exists rest, data_read i (sb_tr s) = accepted_by i (sb_tr s) ++ rest /\ (rest = [] \/ exists v, rest = [v] /\ in_hand s i v)) /\
  (auto = PBool true \/ maxlen <> None -> forall i e, thread_is s i (TDone (Some e)) -> In (ERead i (Raise e)) (sb_tr s) \/ In (ENap i e) (sb_tr s)).
Proof.
  intros a maxlen auto ls s c SO CT. pose proof (C77_eof_is_data_refuted a c ls s SO) as TU. destruct SO as (H & O & _).
  assert (NF : forall i j x o, In (EAppend i j x o) (sb_tr s) -> o = Ok tt).
  { apply (increasing_appends c ls s H O).
    - intro i. destruct (CT i) as (qs & E & S). apply (times_ordered _ qs); auto. intros v Hv. unfold data_read in Hv. apply in_flat_map in Hv as (x & Hx & Hv).
      destruct x; try (destruct Hv; fail). destruct o as [w|e]; [|destruct Hv]. destruct (Nat.eqb i0 i && negb (is_none w)); [|destruct Hv]. destruct Hv as [<-|[]]. eapply TU; eauto.
    - intros i x _. exists x. reflexivity. }
  split; [assumption|]. split; [intro i; apply (read_in_hand c ls s i H O NF)|].
  intros C i e D. destruct (C51_working_configurations_partial c ls s H O C i e D) as (x & X & [->|[(j & v & ->)| ->]]); [now left| |now right]. specialize (NF _ _ _ _ X). discriminate.
Qed.
Print Assumptions C77_moving_clock_partial.
Definition http_ok_hist : list label :=
  starting (PObj 7) ++ round 0 (tick 1 [104; 105]%Z) ++ round 0 (tick 2 []) ++ round 0 (tick 3 []) ++ [LT 0 (Ok PNone); LT 0 (Ok PNone); LT 0 (Raise (OtherError 3))] ++ [LT 0 (Ok PNone); LT 0 (Ok PNone); LT 0 (Ok PNone)].
Example C77_partial_nonvacuous :
  let c := MkCfg http_key (Some 2%Z) (PBool true) in let s := end_of c http_ok_hist in let a := MkHttp [104%Z] GET None PNone [] in
  stream_on (http_source a) c http_ok_hist s /\ chunk_times 0 (sb_tr s) = map (fun q => PFloat (FFin q)) [inject_Z 1; inject_Z 2; inject_Z 3] /\ StronglySorted Qlt [inject_Z 1; inject_Z 2; inject_Z 3] /\
  thread_is s 0 (TDone (Some (OtherError 3))).
Proof.
  cbn zeta. split.
  - split; [apply history_end; vm_compute; reflexivity|]. split; [apply orderlyb_ok; vm_compute; reflexivity|]. exists (MkHS None 0).
    assert (E : source_events (sb_tr (end_of (MkCfg http_key (Some 2%Z) (PBool true)) http_ok_hist)) =
      [EOpen 0 (Ok tt); ERead 0 (Ok (tick 1 [104; 105]%Z)); ERead 0 (Ok (tick 2 [])); ERead 0 (Ok (tick 3 [])); ERead 0 (Raise (OtherError 3)); EClose 0 (Ok tt)]) by (vm_compute; reflexivity).
    rewrite E. clear E. eapply pl_open; [exists (Ok 0); reflexivity|].
    eapply pl_read; [exists (Ok (PBytes [104; 105]%Z)), (PFloat (FFin (inject_Z 1))); reflexivity|].
    eapply pl_read; [exists (Ok (PBytes [])), (PFloat (FFin (inject_Z 2))); reflexivity|].
    eapply pl_read; [exists (Ok (PBytes [])), (PFloat (FFin (inject_Z 3))); reflexivity|].
    eapply pl_read; [exists (Raise (OtherError 3)), PNone; reflexivity|].
    eapply pl_close; [exists (Ok tt); reflexivity|]. apply pl_nil.
  - split; [vm_compute; reflexivity|]. split; [repeat constructor|]. eexists. split; vm_compute; reflexivity.
Qed.

(** ** C78: the count is right exactly as long as no byte has been read *)
Lemma bytes_read_nonneg es : (0 <= bytes_read es)%Z.
Proof. unfold bytes_read. induction es as [|e es IH]; cbn; [lia|]. destruct e as [|?|? [[]|]]; cbn; lia. Qed.
Theorem C78_count_before_data_partial :
  forall a ps, let es := snd (fst (http_run a http0 ps)) in
  info_bytes (fst (fst (http_run a http0 ps))) = bytes_read es <-> (forall id b, In (HRead id (Ok (PBytes b))) es -> b = []).
Proof.
  intros a ps es. rewrite (proj1 C78_bytes_never_counted_refuted). clearbody es. clear. induction es as [|e es IH]; [split; [intros _ id b []|reflexivity]|].
  pose proof (bytes_read_nonneg es) as NN. unfold bytes_read in *. cbn [map fold_right]. set (z := fold_right Z.add 0%Z _) in *. split.
  - intros E id b [->|X].
    + cbn -[Z.add Z.of_nat] in E. destruct b; [reflexivity|]. cbn -[Z.add Z.of_nat] in E. lia.
    + apply IH in X; auto. destruct e as [|?|? [[]|]]; cbn -[Z.add Z.of_nat] in E; lia.
  - intro A. assert (E : 0%Z = z) by (apply IH; intros id b X; apply (A id b); now right). rewrite <- E.
    destruct e as [|?|? [[]|]]; try reflexivity. rewrite (A _ _ (or_introl eq_refl)). reflexivity.
Qed.
Print Assumptions C78_count_before_data_partial.
Example C78_partial_nonvacuous :
  let a := MkHttp [104%Z] GET None PNone [] in let es := snd (fst (http_run a http0 [HOpen (Ok 1); HReadCall (Ok (PBytes [])) (PInt 1)])) in
  es = [HSend (open_request a) (Ok 1); HRead 1 (Ok (PBytes []))] /\ bytes_read es = 0%Z.
Proof. cbn. auto. Qed.
