(** * Restarts that find the old threads ended *)
From Coq Require Import List ZArith Bool Arith Lia.
From Verif Require Import PyVal PyLib PyValFacts SortedDequeM Spec SpecDeque ListFacts DequeFacts DequeSearch
  BufferReaderM BufferSysM LogFacts LogReads LogKeepUp StreamBufferM SpecStream StreamFacts StreamLife StreamInv.
Import ListNotations.

(** ** Alive threads *)
Definition live (p : tpc) : bool := match p with TNew | TDone _ => false | _ => true end.
Lemma alive_iff s k : alive s k <-> exists e, nth_error (sb_ss s) k = Some e /\ live (se_pc e) = true.
Proof.
  split.
  - intros (p & (e & Ek & <-) & A). exists e. split; [assumption|]. destruct (se_pc e); auto; destruct A.
  - intros (e & Ek & A). exists (se_pc e). split; [exists e; auto|]. destruct (se_pc e); auto; discriminate.
Qed.
Lemma alive_back c s l s' k : sb_step c s l = Some s' -> alive s' k ->
  alive s k \/ (sb_start s = SSpawn /\ k = latest s /\ exists o v, l = LS o v).
Proof.
  intros H (p & (e' & Ek & Ep) & A). destruct (step_new c s l s' H k e' Ek) as [(e & He)|(_ & -> & _)]; [|cbn in Ep; subst p; destruct A].
  destruct (step_frame c s l s' H k e He) as (e1 & H1 & P & _). assert (e1 = e') by congruence. subst e1.
  destruct P as [P|[[o ->]|(S1 & S2 & S3 & S4)]]; [left| |auto].
  - exists p. split; [exists e; split; [assumption|congruence]|assumption].
  - left. pose proof (step_thread_pc _ _ _ _ _ _ H He) as X. exists (se_pc e). split; [exists e; auto|exact X].
Qed.
Lemma orderly_snoc_from c ls l : forall s0 s, sb_run c s0 ls = Some s -> orderly_from c s0 (ls ++ [l]) ->
  orderly_from c s0 ls /\ (sb_start s = SClear -> (exists o v, l = LS o v) -> all_ended s).
Proof.
  induction ls as [|a ls IH]; intros s0 s H O.
  - injection H as <-. cbn in O. cbn. tauto.
  - cbn in H, O. destruct O as [O1 O2]. destruct (sb_step c s0 a) as [s1|] eqn:E; [|discriminate].
    destruct (IH s1 s H O2) as [A B]. cbn [orderly_from]. rewrite E. auto.
Qed.
Lemma orderly_snoc c ls l s : history c ls s -> orderly c (ls ++ [l]) ->
  orderly c ls /\ (sb_start s = SClear -> (exists o v, l = LS o v) -> all_ended s).
Proof. apply orderly_snoc_from. Qed.

Definition late (p : spc) : bool := match p with SFresh | SOpen | SBuild | SSpawn => true | _ => false end.
Record oinv (s : sb) : Prop := {
  oi_late : late (sb_start s) = true -> all_ended s;
  oi_alive : forall k, alive s k -> sb_cur s = Some k
}.
Lemma oinv_step c s l s' : sinv s -> oinv s -> (sb_start s = SClear -> (exists o v, l = LS o v) -> all_ended s) ->
  sb_step c s l = Some s' -> oinv s'.
Proof.
  intros I [OL OA] OC H. constructor.
  - intros L k A. destruct (alive_back c s l s' k H A) as [A0|(S & -> & o & v & ->)].
    + destruct (late (sb_start s)) eqn:LS; [exact (OL eq_refl k A0)|].
      destruct (step_start c s l s' H) as [[E1 E2]|[(_ & _ & E & _)|(o & v & ->)]].
      * congruence.
      * rewrite E in L. discriminate.
      * cbn in H. unfold start_step in H. cbn zeta in H.
        destruct (sb_start s) eqn:ES; try discriminate LS; try discriminate H.
        -- injection H as <-. cbn in L. destruct (running s); discriminate.
        -- injection H as <-. discriminate.
        -- injection H as <-. cbn in L. destruct second; discriminate.
        -- injection H as <-. cbn in L. destruct (running s); discriminate.
        -- refine (OC eq_refl _ k A0). eauto.
    + cbn in H. unfold start_step in H. cbn zeta in H. rewrite S in H. injection H as <-. discriminate L.
  - intros k A. destruct (alive_back c s l s' k H A) as [A0|(S & -> & o & v & ->)].
    + pose proof (OA k A0) as EC. destruct (step_start c s l s' H) as [[_ E2]|[(_ & _ & _ & ->)|(o & v & ->)]]; [congruence|exact EC|].
      cbn in H. unfold start_step in H. cbn zeta in H.
      destruct (sb_start s) eqn:ES; try discriminate H; try (injection H as <-; exact EC).
      * exfalso. refine (OC eq_refl _ k A0). eauto.
      * exfalso. exact (OL eq_refl k A0).
      * exfalso. exact (OL eq_refl k A0).
    + cbn in H. unfold start_step in H. cbn zeta in H. pose proof (si_none _ I) as X. rewrite S in H, X. injection H as <-. exact X.
Qed.
Lemma oinv_history c ls s : history c ls s -> orderly c ls -> oinv s.
Proof.
  intro H. revert ls s H. apply (sb_ind c (fun ls s => orderly c ls -> oinv s)).
  - intros _. constructor; [discriminate|]. intros k (p & (e & Ek & _) & _). destruct k; discriminate.
  - intros ls s l s' Hh IH H O. destruct (orderly_snoc c ls l s Hh O) as [O1 O2]. eapply oinv_step; eauto using sinv_history.
Qed.
Lemma alive_latest c ls s k : history c ls s -> orderly c ls -> alive s k -> sb_cur s = Some k /\ S k = length (sb_ss s).
Proof. intros H O A. pose proof (oi_alive _ (oinv_history c ls s H O) k A) as E. split; [assumption|]. apply (si_cur _ (sinv_history c ls s H) k E). Qed.
Lemma step_alive c s k o s' : sb_step c s (LT k o) = Some s' -> alive s k.
Proof.
  intro H. destruct (nth_error (sb_ss s) k) as [e|] eqn:E; [|cbn in H; rewrite E in H; discriminate].
  pose proof (step_thread_pc _ _ _ _ _ _ H E) as X. exists (se_pc e). split; [exists e; auto|exact X].
Qed.

(** The buffer that a thread has loaded is its own. *)
Lemma held_own c ls s i e j : history c ls s -> orderly c ls -> nth_error (sb_ss s) i = Some e ->
  (se_pc e = TLen j \/ exists x, se_pc e = TPut j x) -> j = i.
Proof.
  intros H O He P. destruct (si_held _ (sinv_history c ls s H) i e j He P) as (_ & L1 & L2).
  assert (A : alive s i). { apply alive_iff. exists e. split; [assumption|]. destruct P as [->|[x ->]]; reflexivity. }
  destruct (alive_latest c ls s i H O A). lia.
Qed.
(** The length is asked for only when the thread has to wait for room. *)
Lemma len_auto c ls s : history c ls s -> forall i e j, nth_error (sb_ss s) i = Some e -> se_pc e = TLen j -> is_True (c_auto c) = false.
Proof.
  intro H. revert ls s H. apply (sb_ind c (fun ls s => forall i e j, nth_error (sb_ss s) i = Some e -> se_pc e = TLen j -> is_True (c_auto c) = false)).
  - intros [|] e j; discriminate.
  - intros ls s l s' Hh IH H k e' j He' P. destruct (step_new c s l s' H k e' He') as [(e & He)|(_ & -> & _)]; [|discriminate].
    destruct (step_frame c s l s' H k e He) as (e1 & H1 & [Q|[[o ->]|(_ & _ & Q & _)]] & _); assert (e1 = e') by congruence; subst e1; [|clear H1|congruence].
    + apply (IH k e j He). congruence.
    + destruct (thread_move c s k o s' e H He) as (e1 & H1 & MV). assert (e1 = e') by congruence. subst e1. rewrite P in MV.
      destruct (se_pc e) eqn:Ep; try (destruct MV; fail); try discriminate MV.
      * destruct (running s); discriminate.
      * destruct MV as [[_ MV]|[[X _]|(X & _)]]; [discriminate|assumption|assumption].
      * exact (IH k e _ He Ep).
      * destruct o; [destruct (is_none a)|]; discriminate.
      * destruct MV as [[y MV]|(j0 & _ & MV)]; discriminate.
      * destruct MV as [MV|[y MV]]; discriminate.
      * destruct o; discriminate.
      * destruct (running s); discriminate.
      * destruct MV; discriminate.
Qed.
(** Threads append to their own buffer only, and always find it. *)
Lemma own_buffer c ls s : history c ls s -> orderly c ls ->
  (forall i j x o, In (EAppend i j x o) (sb_tr s) -> i = j) /\
  (forall i e, In (ENoBuf i e) (sb_tr s) -> e = TypeError /\ is_True (c_auto c) = false /\ c_maxlen c = None).
Proof.
  intro H. revert ls s H. apply (sb_ind c (fun ls s => orderly c ls ->
    (forall i j x o, In (EAppend i j x o) (sb_tr s) -> i = j) /\
    (forall i e, In (ENoBuf i e) (sb_tr s) -> e = TypeError /\ is_True (c_auto c) = false /\ c_maxlen c = None))).
  - intros _. split; intros; destruct H.
  - intros ls s l s' Hh IH H O. destruct (orderly_snoc c ls l s Hh O) as [O1 _]. destruct (IH O1) as [A B].
    pose proof (fun k A => proj1 (alive_latest c ls s k Hh O1 A)) as AL.
    assert (ST : forall i o, l = LT i o -> sb_cur s = Some i) by (intros i o ->; eapply AL, step_alive; eauto).
    split.
    + intros i j x u Hin. step_cases H; injection H as <-; proj; repeat rewrite in_app_iff in Hin;
        repeat (destruct Hin as [Hin|Hin]; [|cbn in Hin; destruct Hin as [Hin|[]]; try discriminate Hin]); eauto.
      injection Hin as <- <- <- <-. match goal with P : se_pc ?e9 = TPut ?j9 ?x9, Q : nth_error (sb_ss s) ?i9 = Some ?e9 |- _ => symmetry; exact (held_own c ls s i9 e9 j9 Hh O1 Q (or_intror (ex_intro _ x9 P))) end.
    + intros i e Hin. step_cases H; injection H as <-; proj; repeat rewrite in_app_iff in Hin;
        repeat (destruct Hin as [Hin|Hin]; [|cbn in Hin; destruct Hin as [Hin|[]]; try discriminate Hin]); eauto;
        injection Hin as <- <-; specialize (ST i0 o E); try congruence; auto.
      match goal with P : se_pc ?e9 = TLen ?j9, Q : nth_error (sb_ss s) ?i9 = Some ?e9 |- _ => pose proof (len_auto c ls s Hh i9 e9 j9 Q P) end. auto.
Qed.

(** ** The source sees one session after the other *)
Definition opened (s : sb) : option nat :=
  match sb_start s with
  | SBuild | SSpawn => Some (latest s)
  | _ => if live (tpc_of s (latest s)) then Some (latest s) else None
  end.
Lemma se_snoc tr e : source_events (tr ++ [e]) = source_events tr ++ (if is_source_event e then [e] else []).
Proof. unfold source_events. rewrite filter_app. cbn. now destruct (is_source_event e). Qed.
Lemma not_alive_live s k : ~ alive s k -> live (tpc_of s k) = false.
Proof.
  intro N. unfold tpc_of. destruct (nth_error (sb_ss s) k) as [e|] eqn:E; [|reflexivity].
  destruct (live (se_pc e)) eqn:L; [|reflexivity]. exfalso. apply N, alive_iff. eauto.
Qed.
Lemma alive_live s k : alive s k -> live (tpc_of s k) = true.
Proof. rewrite alive_iff. intros (e & E & L). unfold tpc_of. now rewrite E. Qed.
Lemma tpc_upd_pc ss f n k a b cc d e g h dr qi : (forall x, se_pc (f x) = se_pc x) ->
  tpc_of (MkSB (upd ss n f) a b cc d e dr qi g h) k = tpc_of (MkSB ss a b cc d e dr qi g h) k.
Proof. intro H. unfold tpc_of. proj. rewrite nth_upd. destruct (Nat.eqb n k); [|reflexivity]. destruct (nth_error ss k); cbn; auto. Qed.

Lemma proper_step c d0 s l s' : sinv s -> oinv s -> sd_init [] (c_key c) (c_maxlen c) = Ok d0 -> (forall o e, l <> LS o (Raise e)) ->
  proper (source_events (sb_tr s)) (opened s) -> sb_step c s l = Some s' -> proper (source_events (sb_tr s')) (opened s').
Proof.
  intros I OI D0 NI PR H.
  assert (D : (exists o v, l = LS o v) \/ (exists k o, l = LT k o) \/ ((forall o v, l <> LS o v) /\ forall k o, l <> LT k o)).
  { destruct l; eauto; right; right; split; discriminate. }
  destruct D as [(o & v & ->)|[(k & o & ->)|[N1 N2]]].
  - (* start *)
    cbn in H. unfold start_step in H. cbn zeta in H. unfold opened in PR. pose proof (si_new _ I) as I3. pose proof (oi_late _ OI) as OL.
    destruct (sb_start s) eqn:ES; try discriminate H.
    + injection H as <-. unfold opened. proj. destruct (running s); exact PR.
    + injection H as <-. unfold opened, latest, do_stop, upd_sess, set_start, set_ss. proj. rewrite upd_length. fold (latest s).
      rewrite tpc_upd_pc by reflexivity. exact PR.
    + injection H as <-. unfold opened. proj. destruct second; exact PR.
    + injection H as <-. unfold opened. proj. destruct (running s); exact PR.
    + injection H as <-. exact PR.
    + injection H as <-. unfold opened. proj. unfold tpc_of, latest. proj. rewrite app_length. cbn [length]. rewrite Nat.add_sub, nth_snoc, Nat.ltb_irrefl, Nat.eqb_refl. cbn [se_pc live].
      rewrite (not_alive_live s (latest s)) in PR; [exact PR|]. apply OL. reflexivity.
    + assert (T : live (tpc_of s (latest s)) = false).
      { destruct I3 as (e & He & P & _). unfold tpc_of. rewrite He, P. reflexivity. }
      rewrite T in PR. destruct o as [u|x]; injection H as <-; unfold opened; proj; rewrite ?se_snoc; cbn [is_source_event]; rewrite ?app_nil_r.
      * destruct u. now constructor.
      * unfold tpc_of, latest in *. proj. rewrite T. now constructor.
    + destruct v as [v|x]; [|exfalso; eapply NI; reflexivity]. rewrite D0 in H. injection H as <-. unfold opened, latest. proj. rewrite upd_length, se_snoc. cbn [is_source_event]. rewrite app_nil_r. exact PR.
    + injection H as <-. unfold opened, latest. proj. rewrite upd_length, se_snoc. cbn [is_source_event]. rewrite app_nil_r.
      destruct I3 as (e & He & _). unfold tpc_of. proj. fold (latest s). rewrite (upd_same _ _ _ _ He). exact PR.
  - (* thread *)
    pose proof (step_alive c s k o s' H) as A.
    assert (EC := oi_alive _ OI k A). destruct (si_cur _ I k EC) as [EL _].
    assert (ES : late (sb_start s) = false).
    { destruct (late (sb_start s)) eqn:E; [|reflexivity]. exfalso. exact (oi_late _ OI E k A). }
    assert (EO : opened s = Some k).
    { unfold opened. replace (latest s) with k by (unfold latest; lia). rewrite (alive_live s k A). destruct (sb_start s); auto. }
    rewrite EO in PR. apply alive_iff in A as (e & He & LE).
    pose proof (thread_move c s k o s' e H He) as (e' & He' & MV).
    assert (ST : sb_start s' = sb_start s /\ length (sb_ss s') = length (sb_ss s)).
    { split; [|destruct (step_starts c s _ s' H); [discriminate|assumption]].
      destruct (step_start c s _ s' H) as [[E _]|[(E & _)|(x & v & E)]]; [assumption|discriminate..]. }
    destruct ST as [ST SL].
    assert (EO' : opened s' = if live (se_pc e') then Some k else None).
    { unfold opened, latest. rewrite ST, SL. replace (length (sb_ss s) - 1) with k by lia. unfold tpc_of. rewrite He'. destruct (sb_start s); auto; discriminate. }
    rewrite EO'. clear EO' He' ST SL I OI.
    cbn in H. rewrite He in H. unfold thread_step in H.
    destruct (se_pc e) eqn:Ep; try discriminate LE; cbn zeta in H;
      repeat match type of H with
      | Some _ = Some _ => fail 1
      | (match ?x with _ => _ end) = _ => let E := fresh "E" in destruct x eqn:E in H; try discriminate H; cbn zeta in H
      end; try discriminate H; injection H as <-; proj; rewrite ?se_snoc; cbn [is_source_event]; rewrite ?app_nil_r.
    + destruct (running s); rewrite MV; exact PR.
    + destruct MV as [[_ MV]|[[_ [y MV]]|(_ & j & _ & MV)]]; rewrite MV; exact PR.
    + destruct MV as [[_ MV]|[[_ [y MV]]|(_ & j & _ & MV)]]; rewrite MV; exact PR.
    + destruct MV as [[_ MV]|[[_ [y MV]]|(_ & j & _ & MV)]]; rewrite MV; exact PR.
    + destruct MV as [[y MV]|(d & m & _ & _ & MV)]; rewrite MV; try exact PR. destruct (_ <? _)%Z; exact PR.
    + destruct MV as [[y MV]|(d & m & _ & _ & MV)]; rewrite MV; try exact PR. destruct (_ <? _)%Z; exact PR.
    + rewrite E in MV. rewrite MV. assert (X : live (if is_none a then TSleep else TAppend a) = true) by (destruct (is_none a); reflexivity). rewrite X. now constructor.
    + rewrite E in MV. rewrite MV. now constructor.
    + destruct MV as [[y MV]|(j & _ & MV)]; rewrite MV; exact PR.
    + destruct MV as [[y MV]|(j & _ & MV)]; rewrite MV; exact PR.
    + destruct MV as [MV|[y MV]]; rewrite MV; exact PR.
    + rewrite E in MV. rewrite MV. exact PR.
    + rewrite E in MV. rewrite MV. exact PR.
    + rewrite MV. destruct (running s); exact PR.
    + destruct MV as [-> _]. exact PR.
    + rewrite MV. now constructor.
  - (* anything else *)
    assert (X : source_events (sb_tr s') = source_events (sb_tr s)).
    { step_cases H; injection H as <-; proj; rewrite ?se_snoc; cbn [is_source_event]; rewrite ?app_nil_r; auto; exfalso; solve [eapply N1; eassumption|eapply N2; eassumption|eapply N1; reflexivity|eapply N2; reflexivity]. }
    assert (Y : opened s' = opened s).
    { destruct (step_starts c s l s' H N1) as [_ SL]. unfold opened, latest. rewrite SL. fold (latest s).
      assert (T : tpc_of s' (latest s) = tpc_of s (latest s)).
      { unfold tpc_of. destruct (nth_error (sb_ss s) (latest s)) as [e|] eqn:E.
        - destruct (step_frame c s l s' H _ e E) as (e' & E' & P & _). rewrite E'.
          destruct P as [P|[[x ->]|(_ & _ & _ & x & v & ->)]]; [assumption|exfalso; eapply N2; reflexivity|exfalso; eapply N1; reflexivity].
        - destruct (nth_error (sb_ss s') (latest s)) as [e'|] eqn:E'; [|reflexivity]. apply nth_lt in E'. apply nth_error_None in E. lia. }
      rewrite T. destruct (step_start c s l s' H) as [[ES _]|[(_ & ES & ES' & _)|(x & v & ->)]]; [now rewrite ES|now rewrite ES, ES'|exfalso; eapply N1; reflexivity]. }
    now rewrite X, Y.
Qed.
Lemma proper_history c d0 ls s : history c ls s -> orderly c ls -> infos_ok ls -> sd_init [] (c_key c) (c_maxlen c) = Ok d0 ->
  proper (source_events (sb_tr s)) (opened s).
Proof.
  intros H O IO D0. revert O IO. revert ls s H. apply (sb_ind c (fun ls s => orderly c ls -> infos_ok ls -> proper (source_events (sb_tr s)) (opened s))).
  - intros _ _. constructor.
  - intros ls s l s' Hh IH H O IO. destruct (orderly_snoc c ls l s Hh O) as [O1 _].
    eapply (proper_step c d0 s l s'); eauto using sinv_history, oinv_history.
    + intros o e ->. apply (IO o e). apply in_or_app. right. now left.
    + apply IH; [assumption|]. intros o e Hin. apply (IO o e). apply in_or_app. now left.
Qed.

(** ** Shape of the buffers *)
Definition shaped (c : cfg) (d : sdeque) : Prop :=
  consistent d /\ sd_key d = c_key c /\ sd_bound d = option_map Z.to_nat (c_maxlen c) /\
  (forall m, sd_bound d = Some m -> length (sd_items d) <= m).
Lemma shaped_init c d0 : sd_init [] (c_key c) (c_maxlen c) = Ok d0 -> shaped c d0.
Proof.
  intro H. destruct (init_empty _ _ _ H) as (E1 & E2 & E3 & E4). repeat split; auto.
  - destruct (E4 (fun _ => True)) as (key & m & d & ops & X). unfold consistent. rewrite E2.
    unfold sd_init in H. cbn in H. destruct (check_maxlen (c_maxlen c)) as [b|]; [|discriminate]. injection H as <-. constructor.
  - intros m _. rewrite E2. cbn. lia.
Qed.
Lemma shaped_step c d o : shaped c d -> is_append_or_drop o -> shaped c (fst (sd_step d o)).
Proof.
  intros (C & K & B & M) HO. destruct o; try (destruct HO; fail); cbn [sd_step].
  - destruct (append_cases d x) as [(k & Hk & _ & E)|(e & E)]; rewrite E; cbn [fst]; [|repeat split; auto].
    rewrite !newest_snoc; auto.
    2:{ intros m Hm. unfold consistent in C. rewrite <- (Forall2_length _ _ _ C). auto. }
    assert (C2 : keyed (sd_key d) (sd_items d ++ [x]) (sd_keys d ++ [k])) by (now apply keyed_snoc).
    destruct (newest_skipn (sd_bound d) (sd_items d ++ [x])) as (n & H1 & H2). repeat split; cbn; auto.
    + unfold consistent. cbn. rewrite H1, (H2 _ (sd_keys d ++ [k])) by (symmetry; apply (Forall2_length _ _ _ C2)). now apply Forall2_skipn.
    + intros m Hm. now apply newest_length.
  - rewrite drop_spec by assumption. cbn [fst]. repeat split; cbn; auto.
    + now apply Forall2_skipn.
    + intros m Hm. rewrite skipn_length. specialize (M m Hm). lia.
Qed.
Lemma shaped_run c d ops : shaped c d -> Forall is_append_or_drop ops -> shaped c (sd_run d ops).
Proof.
  intros H F. revert d H. induction F as [|o ops Ho F IH]; intros d H; [exact H|]. cbn. apply IH. now apply shaped_step.
Qed.
Lemma shaped_history c ls s k d : history c ls s -> buf_of s k = Some d -> shaped c d.
Proof.
  intros H E. pose proof (buf_hist_all c ls s H k) as B. unfold buf_hist in B. rewrite E in B. destruct B as (d0 & D0 & ->).
  apply shaped_run; [now apply shaped_init|]. apply ops_on_append_or_drop.
Qed.
Lemma append_room c d x d' m : shaped c d -> c_maxlen c = Some m -> (Z.of_nat (sd_len d) < m)%Z -> sd_append d x = (d', Ok tt) ->
  sd_list d' = sd_list d ++ [x].
Proof.
  intros (C & K & B & M) Em L H. destruct (append_cases d x) as [(k & _ & _ & E)|(e & E)]; rewrite E in H; [|discriminate].
  injection H as <-. unfold sd_list. cbn [sd_items]. rewrite newest_snoc by assumption. rewrite B, Em. cbn [option_map].
  unfold sd_len in L. apply newest_id. intros m0 E0. injection E0 as <-. rewrite app_length. cbn [length]. lia.
Qed.

(** ** Room *)
Definition has_room (c : cfg) (s : sb) : Prop := forall k e d m, nth_error (sb_ss s) k = Some e ->
  match se_pc e with TRead | TAppend _ | TPut _ _ => True | _ => False end -> buf_of s k = Some d -> c_maxlen c = Some m -> (Z.of_nat (len_seen s k d) < m)%Z.
(** What len() shows does not grow but by an append. *)
Lemma seen_same c s l s' k d : sb_step c s l = Some s' -> (forall m, l <> LDropDo m) -> len_seen s' k d <= len_seen s k d.
Proof.
  intros H N. unfold len_seen. enough (gone s k <= gone s' k) by lia. unfold gone.
  destruct (step_in c s l s' H) as [[EI _]|[(m & j0 & n0 & -> & Em & EN & ->)|[(j0 & n0 & k0 & d0 & -> & Ed & Eb & L1 & L2 & ->)|(m & j0 & n0 & d0 & -> & _)]]].
  - now rewrite (dropping_eq s s' EI).
  - destruct (Nat.eq_dec j0 k) as [Q|M]; [subst j0; rewrite EN; lia|]. unfold dropping. cbn [set_in sb_in find fst].
    destruct (Nat.eqb_spec j0 k); [contradiction|lia].
  - rewrite dropping_cons. destruct (Nat.eqb_spec j0 k) as [Q|M]; [subst j0; rewrite Ed; lia|lia].
  - elim (N m eq_refl).
Qed.
Lemma seen_drop c c0 s m s' k d d' : dinv s -> shaped c0 d -> sb_step c s (LDropDo m) = Some s' -> buf_of s k = Some d -> buf_of s' k = Some d' -> len_seen s' k d' <= len_seen s k d.
Proof.
  intros DI (C & _) H Ed Ed'. destruct (step_in c s _ s' H) as [[_ N]|[(m' & j0 & n0 & X & _)|[(j0 & n0 & k0 & d0 & X & _)|(m' & j0 & n0 & d0 & X & Em & Eq & Eb & Edr & Ein & Eb')]]]; try discriminate; [elim (N m eq_refl)|].
  injection X as <-. unfold len_seen, gone at 1. unfold dropping. rewrite Ein, dropping_out. destruct (Nat.eqb_spec j0 k) as [Q|M].
  - subst j0. assert (d0 = d) by congruence. subst d0. assert (d' = fst (sd_drop d n0)) by congruence. subst d'.
    rewrite drop_spec by assumption. unfold sd_len. cbn.
    rewrite skipn_length. unfold gone. destruct (dropping s k) as [[n' q]|] eqn:E; [|lia]. rewrite (Eq n' q eq_refl) in E.
    destruct (DI k n0 q E) as (_ & L1 & d1 & Ed1 & L2). assert (d1 = d) by congruence. subst d1. unfold sd_len in L2. lia.
  - change (option_map snd (find (fun p => Nat.eqb (fst p) k) (sb_in s))) with (dropping s k). fold (gone s k).
    assert (d' = d); [|subst; lia]. cbn in H. rewrite Em in H. destruct (match dropping s j0 with Some _ => _ | None => _ end); [|discriminate].
    rewrite Eb in H. destruct (sd_drop d0 n0). injection H as <-. unfold buf_of in *. proj. rewrite nth_upd in Ed'.
    destruct (Nat.eqb_spec j0 k); [contradiction|]. congruence.
Qed.
Lemma room_step c ls s l s' : is_True (c_auto c) = false -> history c ls s -> orderly c ls -> has_room c s -> sb_step c s l = Some s' -> has_room c s'.
Proof.
  intros AU Hh O R H k e' d m He' P' Ed' Em. pose proof (sinv_history c ls s Hh) as I.
  destruct (step_new c s l s' H k e' He') as [(e & He)|(_ & -> & _)]; [|destruct P'].
  assert (BUF : buf_of s k = Some d \/ (exists d1 m1, buf_of s k = Some d1 /\ l = LDropDo m1 /\ se_pc e' = se_pc e) \/ exists x o, l = LT k o /\ se_pc e = TPut k x).
  { destruct (step_buf c s l s' I H k) as [[B _]|[(d1 & op & C1 & B1 & OP & B2 & B3)|(d0 & o & v & S1 & -> & -> & B1 & _)]].
    - left. congruence.
    - right. destruct C1 as [(i & o & e1 & x & -> & H1 & P1)|(m1 & n & -> & D1)].
      + right. pose proof (held_own c ls s i e1 k Hh O H1 (or_intror (ex_intro _ x P1))) as <-. assert (e1 = e) by congruence. subst e1. eauto.
      + left. exists d1, m1. split; [assumption|]. clear P' B3. cbn in H. rewrite D1, B1 in H. destruct (match dropping s k with Some _ => _ | None => _ end); [|discriminate]. destruct (sd_drop d1 n) as [d' u] eqn:ED. injection H as <-.
        unfold buf_of in Ed'. proj. rewrite (upd_same _ _ _ _ He) in He', Ed'. injection He' as <-. injection Ed' as <-. auto.
    - exfalso. pose proof (si_new _ I) as X. rewrite S1 in X. destruct X as (e1 & X1 & X2 & _). assert (e1 = e) by congruence. subst e1.
      destruct (step_frame c s _ s' H (latest s) e He) as (e1 & X3 & [P|[[x P]|(P & _)]] & _); [|discriminate|congruence].
      assert (e1 = e') by congruence. subst e1. rewrite P, X2 in P'. destruct P'. }
  destruct BUF as [B|[(d1 & m1 & B1 & -> & P)|(x & o & -> & T)]].
  - destruct (thread_case l k) as [[o ->]|N].
    + destruct (thread_move c s k o s' e H He) as (e1 & H1 & MV). assert (e1 = e') by congruence. subst e1.
      assert (CU : sb_cur s = Some k) by (apply (oi_alive _ (oinv_history c ls s Hh O)); eapply step_alive; eauto).
      destruct (se_pc e) eqn:Ep; try (destruct MV; fail).
      * rewrite MV in P'. destruct (running s); destruct P'.
      * destruct MV as [[X _]|[[_ [y MV]]|(_ & j & C2 & MV)]]; [congruence|rewrite MV in P'; destruct P'..].
      * destruct MV as [[y MV]|(d2 & m2 & B2 & M2 & MV)]; [rewrite MV in P'; destruct P'|].
        pose proof (held_own c ls s k e j Hh O He (or_introl Ep)) as ->.
        assert (d2 = d) by congruence. assert (m2 = m) by congruence. subst d2 m2. rewrite MV in P'.
        pose proof (seen_same c s _ s' k d H ltac:(discriminate)) as LS.
        destruct (Z.ltb_spec (Z.of_nat (len_seen s k d)) m); [lia|destruct P'].
      * pose proof (seen_same c s _ s' k d H ltac:(discriminate)) as LS. enough (Z.of_nat (len_seen s k d) < m)%Z by lia. apply (R k e d m); auto. now rewrite Ep.
      * pose proof (seen_same c s _ s' k d H ltac:(discriminate)) as LS. enough (Z.of_nat (len_seen s k d) < m)%Z by lia. apply (R k e d m); auto. now rewrite Ep.
      * destruct MV as [MV|[y MV]]; rewrite MV in P'; destruct P'.
      * destruct o; rewrite MV in P'; destruct P'.
      * rewrite MV in P'. destruct (running s); destruct P'.
      * destruct MV as [MV _]. rewrite MV in P'. destruct P'.
      * rewrite MV in P'. destruct P'.
    + assert (LS : len_seen s' k d <= len_seen s k d).
      { destruct (match l with LDropDo _ => true | _ => false end) eqn:EL; [destruct l; try discriminate; eapply (seen_drop c c); eauto; [eapply dinv_history; eauto|eapply shaped_history; eauto]|].
        apply (seen_same c s l); [assumption|]. intros m1 ->. discriminate. }
      enough (Z.of_nat (len_seen s k d) < m)%Z by lia. apply (R k e d m); auto. destruct (step_frame c s l s' H k e He) as (e1 & H1 & P & _). assert (e1 = e') by congruence. subst e1.
      destruct P as [P|[[o ->]|(_ & _ & P & _)]]; [rewrite P in P'; exact P'|exfalso; eapply N; reflexivity|rewrite P in P'; destruct P'].
  - rewrite P in P'. specialize (R k e d1 m He P' B1 Em). pose proof (seen_drop c c s m1 s' k d1 d (dinv_history c ls s Hh) (shaped_history c ls s k d1 Hh B1) H B1 Ed'). lia.
  - destruct (thread_move c s k o s' e H He) as (e1 & H1 & MV). assert (e1 = e') by congruence. subst e1.
    rewrite T in MV. destruct MV as [MV|[y MV]]; rewrite MV in P'; destruct P'.
Qed.
Lemma room_history c ls s : is_True (c_auto c) = false -> history c ls s -> orderly c ls -> has_room c s.
Proof.
  intro AU. intro H. revert ls s H. apply (sb_ind c (fun ls s => orderly c ls -> has_room c s)).
  - intros _ k e d m He. destruct k; discriminate.
  - intros ls s l s' Hh IH H O. destruct (orderly_snoc c ls l s Hh O) as [O1 _]. eapply room_step; eauto.
Qed.

(** ** Only drop removes *)
Lemma kept_snoc j tr e : kept j (tr ++ [e]) = kept_step j (kept j tr) e.
Proof. unfold kept. now rewrite fold_left_app. Qed.
Lemma kept_history c ls s : is_True (c_auto c) = false -> history c ls s -> orderly c ls ->
  forall j, kept j (sb_tr s) = match buf_of s j with Some d => sd_list d | None => [] end.
Proof.
  intro AU. intro H. revert ls s H. apply (sb_ind c (fun ls s => orderly c ls -> forall j, kept j (sb_tr s) = match buf_of s j with Some d => sd_list d | None => [] end)).
  - intros _ j. unfold buf_of. cbn. now destruct j.
  - intros ls s l s' Hh IH H O j. destruct (orderly_snoc c ls l s Hh O) as [O1 _]. specialize (IH O1 j).
    pose proof (sinv_history c ls s Hh) as I. pose proof (room_history c ls s AU Hh O1) as R.
    pose proof (oinv_history c ls s Hh O1) as OI.
    assert (ST : forall i o, l = LT i o -> sb_cur s = Some i) by (intros i o ->; eapply (oi_alive _ OI), step_alive; eauto).
    pose proof (si_new _ I) as I3. pose proof (fun k d => shaped_history c ls s k d Hh) as SH.
    pose proof (own_buffer c ls s Hh O1) as _.
    step_cases H; injection H as <-; proj; rewrite ?kept_snoc; cbn [kept_step]; unfold buf_of in *; proj; rewrite ?buf_upd_id by reflexivity; auto.
    + rewrite IH. rewrite nth_snoc. destruct (Nat.ltb_spec j (length (sb_ss s))); [reflexivity|].
      replace (nth_error (sb_ss s) j) with (@None sess) by (symmetry; apply nth_error_None; lia).
      now destruct (Nat.eqb j (length (sb_ss s))).
    + rewrite buf_upd. destruct (Nat.eqb_spec (latest s) j) as [<-|N]; [|assumption].
      rewrite E0 in I3. destruct I3 as (e & He & _ & Hb). rewrite He in *. rewrite Hb in IH. cbn. rewrite IH.
      destruct (init_empty _ _ _ E2) as (_ & X & _). unfold sd_list. now rewrite X.
    + rewrite buf_upd. destruct (Nat.eqb_spec n j) as [<-|N]; [|assumption].
      destruct (nth_error (sb_ss s) n) as [e|] eqn:En; [|discriminate]. cbn [w_buf se_buf].
      match goal with X : se_buf e = Some ?d9, Y : sd_drop ?d9 _ = _ |- _ => rewrite X in IH; rewrite IH;
        rewrite drop_spec in Y by (eapply SH; rewrite En; eassumption); injection Y as <- _ end. reflexivity.
    + match goal with P : se_pc ?e9 = TPut ?j9 ?x9, Q : nth_error (sb_ss s) ?i9 = Some ?e9 |- _ =>
        pose proof (held_own c ls s i9 e9 j9 Hh O1 Q (or_intror (ex_intro _ x9 P))) as ->; rename Q into Q0; rename P into P0 end.
      rewrite buf_upd. cbn [w_buf se_buf]. 
      destruct (Nat.eqb_spec i j) as [<-|N]; [|destruct r; auto]. rewrite Q0 in *.
      match goal with X : se_buf ?e9 = Some ?d9, Y : sd_append ?d9 _ = _ |- _ => rename X into X0; rename Y into Y0; rename d9 into s1x; rename e9 into e0x end.
      rewrite X0 in IH.
      assert (SHP : shaped c s1x) by (eapply SH; rewrite Q0; eassumption).
      destruct r as [[]|x0].
      * rewrite IH. symmetry. destruct (c_maxlen c) as [m|] eqn:Em.
        -- eapply append_room; eauto. replace (sd_len s1x) with (len_seen s i s1x) by (unfold len_seen; rewrite gone_none by assumption; lia). apply (R i e0x s1x m); auto; [now rewrite P0|unfold buf_of; now rewrite Q0].
        -- destruct SHP as (_ & _ & B & _). destruct (append_cases s1x x) as [(k & _ & _ & E')|(y & E')]; rewrite E' in Y0; [|discriminate].
           injection Y0 as <-. unfold sd_list. cbn. unfold deque_append. now rewrite B, Em.
      * rewrite IH. destruct (append_cases s1x x) as [(k & _ & _ & E')|(y & E')]; rewrite E' in Y0; [discriminate|]. injection Y0 as <- _. reflexivity.
Qed.
