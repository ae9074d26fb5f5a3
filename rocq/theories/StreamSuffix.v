(** * What a buffer holds, and sources whose keys increase *)
From Coq Require Import List ZArith Bool Arith Lia Sorting.Sorted.
From Verif Require Import PyVal PyLib PyValFacts SortedDequeM Spec SpecDeque ListFacts BisectFacts DequeFacts DequeSearch
  BufferReaderM BufferSysM LogFacts LogReads LogKeepUp StreamBufferM SpecStream StreamFacts StreamInv StreamLife StreamOrderly StreamReads PropsStream.
Import ListNotations.

Lemma acc_app j a b : accepted_by j (a ++ b) = accepted_by j a ++ accepted_by j b.
Proof. apply flat_map_app. Qed.
Lemma dr_app j a b : data_read j (a ++ b) = data_read j a ++ data_read j b.
Proof. apply flat_map_app. Qed.
Lemma ao_app j a b : appended_ok j (a ++ b) = appended_ok j a ++ appended_ok j b.
Proof. apply flat_map_app. Qed.

(** ** The buffer holds the newest accepted items *)
Definition holds (c : cfg) (tr : list ev) (l : list pyval) (acc : list pyval) : Prop :=
  exists n, l = skipn n acc /\ (no_drops tr -> (forall m, c_maxlen c = Some m -> (Z.of_nat (length acc) <= m)%Z) -> l = acc).
Lemma no_drops_app a b : no_drops (a ++ b) -> no_drops a.
Proof. intros H j n o X. apply (H j n o), in_or_app. now left. Qed.
Lemma buf_holds c ls s : history c ls s -> forall j d, buf_of s j = Some d -> holds c (sb_tr s) (sd_list d) (accepted_by j (sb_tr s)).
Proof.
  intro H. revert ls s H. apply (sb_ind c (fun ls s => forall j d, buf_of s j = Some d -> holds c (sb_tr s) (sd_list d) (accepted_by j (sb_tr s)))).
  - intros j d X. unfold buf_of in X. cbn in X. destruct j; discriminate.
  - intros ls s l s' Hh IH H j d Ed. pose proof (sinv_history c ls s Hh) as I.
    assert (MONO : forall es d0, accepted_by j es = [] -> buf_of s j = Some d0 -> d0 = d -> sb_tr s' = sb_tr s ++ es -> holds c (sb_tr s') (sd_list d) (accepted_by j (sb_tr s'))).
    { intros es d0 A B -> ->. destruct (IH j d B) as (n & E1 & E2). exists n. rewrite acc_app, A, app_nil_r. split; [assumption|].
      intros ND M. apply E2; [eapply no_drops_app; eauto|assumption]. }
    destruct (step_trace c s l s' H) as (es & Et).
    pose proof (si_new _ I) as I3. pose proof (fun k d => shaped_history c ls s k d Hh) as SH.
    pose proof (accepted_none c ls s) as AN.
    step_cases H; injection H as <-; proj; unfold buf_of in *; proj; rewrite ?buf_upd_id in Ed by reflexivity;
      try (eapply (MONO [] d); auto; rewrite app_nil_r; auto; fail);
      try (rewrite <- ?app_assoc in *; cbn [app] in *; eapply MONO; [|eassumption|reflexivity|reflexivity]; reflexivity).
    + rewrite nth_snoc in Ed. destruct (Nat.ltb_spec j (length (sb_ss s))); [|destruct (Nat.eqb j (length (sb_ss s))); discriminate].
      eapply (MONO [] d); auto; rewrite app_nil_r; auto.
    + rewrite buf_upd in Ed. destruct (Nat.eqb_spec (latest s) j) as [<-|N].
      * rewrite E0 in I3. destruct I3 as (e & He & _ & Hb). rewrite He in Ed. cbn in Ed. injection Ed as <-.
        destruct (init_empty _ _ _ E2) as (_ & X & _). exists 0. rewrite acc_app. rewrite (AN (latest s) Hh) by (now rewrite He).
        cbn. unfold sd_list. rewrite X. auto.
      * eapply MONO; [|eassumption|reflexivity|reflexivity]. reflexivity.
    + rewrite buf_upd in Ed. destruct (Nat.eqb_spec n j) as [<-|N].
      * destruct (nth_error (sb_ss s) n) as [e|] eqn:En; [|discriminate]. cbn in Ed. injection Ed as <-.
        match goal with X : se_buf e = Some ?d9, Y : sd_drop ?d9 ?z9 = _ |- _ => rename X into EB; rename Y into ED; rename d9 into dd; rename z9 into zz end.
        rewrite drop_spec in ED by (eapply SH; rewrite En; eassumption). injection ED as <- _.
        destruct (IH n dd) as (n1 & F1 & F2); [now rewrite En|]. rewrite acc_app. cbn. rewrite app_nil_r. exists (n1 + Z.to_nat zz).
        unfold sd_list in *. cbn. split; [rewrite F1, skipn_skipn; f_equal; lia|].
        intros ND _. exfalso. apply (ND n zz r). apply in_or_app. right. now left.
      * eapply MONO; [|eassumption|reflexivity|reflexivity]. reflexivity.
    + rewrite buf_upd in Ed. cbn [w_buf se_buf] in Ed. match type of Ed with context [Nat.eqb ?n9 j] => rename n9 into jj end. destruct (Nat.eqb_spec jj j) as [->|N].
      * destruct (nth_error (sb_ss s) j) as [e|] eqn:En; [|discriminate]. injection Ed as <-.
        match goal with X : se_buf e = Some ?d9, Y : sd_append ?d9 _ = _ |- _ => rename X into EB; rename Y into E4; rename d9 into dd end.
        assert (SHP : shaped c dd) by (eapply SH; rewrite En; eassumption).
        destruct (IH j dd) as (n1 & F1 & F2); [now rewrite En|]. rewrite acc_app. cbn [accepted_by flat_map]. rewrite Nat.eqb_refl.
        destruct (append_cases dd x) as [(k & _ & _ & E')|(y & E')]; rewrite E' in E4; injection E4 as <- <-.
        -- destruct SHP as (C & _ & B & M). unfold sd_list in *. cbn [sd_items]. rewrite newest_snoc by assumption. cbn [app].
           destruct (newest_skipn (sd_bound dd) (sd_items dd ++ [x])) as (n2 & G1 & G2).
           exists (match Nat.leb n1 (length (accepted_by j (sb_tr s))) with true => n1 + n2 | false => length (accepted_by j (sb_tr s)) + n2 end).
           split.
           ++ rewrite G1, F1. destruct (Nat.leb_spec n1 (length (accepted_by j (sb_tr s)))).
              ** rewrite <- skipn_skipn, (skipn_app n1). replace (n1 - length (accepted_by j (sb_tr s))) with 0 by lia. reflexivity.
              ** rewrite (skipn_all2 (n := n1)) by lia. rewrite <- skipn_skipn, (skipn_app (length _)), Nat.sub_diag, skipn_all. reflexivity.
           ++ intros ND MX. assert (sd_items dd = accepted_by j (sb_tr s)) as ->.
              { apply F2; [eapply no_drops_app; eauto|]. intros m Em. specialize (MX m Em). rewrite app_length in MX. lia. }
              apply newest_id. intros m Em. rewrite B in Em. destruct (c_maxlen c) as [z|]; [|discriminate]. injection Em as <-.
              specialize (MX z eq_refl). lia.
        -- rewrite app_nil_r. exists n1. split; [assumption|]. intros ND MX. apply F2; [eapply no_drops_app; eauto|assumption].
      * eapply MONO; [|eassumption|reflexivity|reflexivity]. cbn. rewrite (proj2 (Nat.eqb_neq jj j) N). now destruct r.
Qed.

(** ** The source, with sessions that a failing start() abandons *)
Definition reads_of (i : nat) (tr : list ev) : list (res pyval) :=
  flat_map (fun e => match e with ERead j o => if Nat.eqb j i then [o] else [] | _ => [] end) tr.
Lemma reads_app i a b : reads_of i (a ++ b) = reads_of i a ++ reads_of i b.
Proof. apply flat_map_app. Qed.
Lemma reads_source i tr : reads_of i (source_events tr) = reads_of i tr.
Proof. unfold source_events, reads_of. induction tr as [|e tr IH]; [reflexivity|]. cbn. destruct e; cbn; rewrite ?IH; reflexivity. Qed.
Lemma reads_te i tr : reads_of i (thread_events i tr) = reads_of i tr.
Proof.
  unfold thread_events, reads_of. induction tr as [|e tr IH]; [reflexivity|]. cbn.
  destruct e; cbn; rewrite ?IH; try reflexivity; destruct (Nat.eqb _ _) eqn:E; cbn; rewrite ?E, ?IH; reflexivity.
Qed.
Inductive sproper : list ev -> option nat -> Prop :=
| sp_new : sproper [] None
| sp_fail : forall t i e, sproper t None -> sproper (t ++ [EOpen i (Raise e)]) None
| sp_open : forall t i, sproper t None -> reads_of i t = [] -> sproper (t ++ [EOpen i (Ok tt)]) (Some i)
| sp_abandon : forall t i, sproper t (Some i) -> sproper t None
| sp_read : forall t i o, sproper t (Some i) -> sproper (t ++ [ERead i o]) (Some i)
| sp_close : forall t i o, sproper t (Some i) -> sproper (t ++ [EClose i o]) None.

Lemma sproper_step c s l s' : sinv s -> oinv s -> life_inv s (latest s) ->
  sproper (source_events (sb_tr s)) (opened s) -> sb_step c s l = Some s' -> sproper (source_events (sb_tr s')) (opened s').
Proof.
  intros I OI LI PR H.
  assert (D : (exists o v, l = LS o v) \/ (exists k o, l = LT k o) \/ ((forall o v, l <> LS o v) /\ forall k o, l <> LT k o)).
  { destruct l; eauto; right; right; split; discriminate. }
  destruct D as [(o & v & ->)|[(k & o & ->)|[N1 N2]]].
  - (* start *)
    cbn in H. unfold start_step in H. cbn zeta in H. unfold opened in PR. pose proof (si_new _ I) as I3. pose proof (oi_late _ OI) as OL.
    destruct (sb_start s) eqn:ES; try discriminate H.
    + injection H as <-. unfold opened. proj. destruct (running s); exact PR.
    + injection H as <-. unfold opened, latest, do_stop, upd_sess, set_start, set_ss. proj. rewrite upd_length. fold (latest s).
      rewrite tpc_upd_pc by reflexivity. exact PR.
    + injection H as <-. unfold opened. proj. destruct second; exact PR.
    + injection H as <-. unfold opened. proj. destruct (running s); exact PR.
    + injection H as <-. exact PR.
    + injection H as <-. unfold opened. proj. unfold tpc_of, latest. proj. rewrite app_length. cbn [length]. rewrite Nat.add_sub, nth_snoc, Nat.ltb_irrefl, Nat.eqb_refl. cbn [se_pc live].
      rewrite (not_alive_live s (latest s)) in PR; [exact PR|]. apply OL. reflexivity.
    + destruct I3 as (e & He & P & _).
      assert (T : live (tpc_of s (latest s)) = false) by (unfold tpc_of; rewrite He, P; reflexivity).
      assert (RE : reads_of (latest s) (source_events (sb_tr s)) = []).
      { unfold life_inv in LI. rewrite He in LI. destruct LI as [_ LI]. rewrite reads_source, <- reads_te, (LI P). reflexivity. }
      rewrite T in PR. destruct o as [u|x]; injection H as <-; unfold opened; proj; rewrite ?se_snoc; cbn [is_source_event]; rewrite ?app_nil_r.
      * destruct u. now constructor.
      * unfold tpc_of, latest in *. proj. rewrite T. now constructor.
    + destruct I3 as (e & He & P & _).
      assert (FAIL : forall x, sproper (source_events (sb_tr (set_start (log s (EFailed (latest s) x)) SFree))) (opened (set_start (log s (EFailed (latest s) x)) SFree))).
      { intro x. unfold opened, latest, tpc_of. proj. fold (latest s). rewrite He, P. cbn [live]. rewrite se_snoc. cbn [is_source_event]. rewrite app_nil_r. eapply sp_abandon. exact PR. }
      destruct v as [v|x]; [|injection H as <-; apply FAIL]. destruct (sd_init [] (c_key c) (c_maxlen c)); injection H as <-; [|apply FAIL].
      unfold opened, latest. proj. rewrite upd_length, se_snoc. cbn [is_source_event]. rewrite app_nil_r. exact PR.
    + injection H as <-. unfold opened, latest. proj. rewrite upd_length, se_snoc. cbn [is_source_event]. rewrite app_nil_r.
      destruct I3 as (e & He & _). unfold tpc_of. proj. fold (latest s). rewrite (upd_same _ _ _ _ He). exact PR.
  - (* thread *)
    pose proof (step_alive c s k o s' H) as A.
    assert (EC := oi_alive _ OI k A). destruct (si_cur _ I k EC) as [EL _].
    assert (ES : late (sb_start s) = false).
    { destruct (late (sb_start s)) eqn:E; [|reflexivity]. exfalso. exact (oi_late _ OI E k A). }
    assert (EO : opened s = Some k).
    { unfold opened. replace (latest s) with k by (unfold latest; lia). rewrite (alive_live s k A). destruct (sb_start s); auto. }
    rewrite EO in PR. apply alive_iff in A as (e & He & LE).
    pose proof (thread_move c s k o s' e H He) as (e' & He' & MV).
    assert (ST : sb_start s' = sb_start s /\ length (sb_ss s') = length (sb_ss s)).
    { split; [|destruct (step_starts c s _ s' H); [discriminate|assumption]].
      destruct (step_start c s _ s' H) as [[E _]|[(E & _)|(x & v & E)]]; [assumption|discriminate..]. }
    destruct ST as [ST SL].
    assert (EO' : opened s' = if live (se_pc e') then Some k else None).
    { unfold opened, latest. rewrite ST, SL. replace (length (sb_ss s) - 1) with k by lia. unfold tpc_of. rewrite He'. destruct (sb_start s); auto; discriminate. }
    rewrite EO'. clear EO' He' ST SL I OI LI.
    cbn in H. rewrite He in H. unfold thread_step in H.
    destruct (se_pc e) eqn:Ep; try discriminate LE; cbn zeta in H;
      repeat match type of H with
      | Some _ = Some _ => fail 1
      | (match ?x with _ => _ end) = _ => let E := fresh "E" in destruct x eqn:E in H; try discriminate H; cbn zeta in H
      end; try discriminate H; injection H as <-; proj; rewrite ?se_snoc; cbn [is_source_event]; rewrite ?app_nil_r.
    + destruct (running s); rewrite MV; exact PR.
    + destruct MV as [[_ MV]|[[_ [y MV]]|(_ & j & _ & MV)]]; rewrite MV; exact PR.
    + destruct MV as [[_ MV]|[[_ [y MV]]|(_ & j & _ & MV)]]; rewrite MV; exact PR.
    + destruct MV as [[_ MV]|[[_ [y MV]]|(_ & j & _ & MV)]]; rewrite MV; exact PR.
    + destruct MV as [[y MV]|(d & m & _ & _ & MV)]; rewrite MV; try exact PR. destruct (_ <? _)%Z; exact PR.
    + destruct MV as [[y MV]|(d & m & _ & _ & MV)]; rewrite MV; try exact PR. destruct (_ <? _)%Z; exact PR.
    + rewrite E in MV. rewrite MV. assert (X : live (if is_none a then TSleep else TAppend a) = true) by (destruct (is_none a); reflexivity). rewrite X. now constructor.
    + rewrite E in MV. rewrite MV. now constructor.
    + destruct MV as [[y MV]|(j & _ & MV)]; rewrite MV; exact PR.
    + destruct MV as [[y MV]|(j & _ & MV)]; rewrite MV; exact PR.
    + destruct MV as [MV|[y MV]]; rewrite MV; exact PR.
    + rewrite E in MV. rewrite MV. exact PR.
    + rewrite E in MV. rewrite MV. exact PR.
    + rewrite MV. destruct (running s); exact PR.
    + destruct MV as [-> _]. exact PR.
    + rewrite MV. eapply sp_close. exact PR.
  - (* anything else *)
    assert (X : source_events (sb_tr s') = source_events (sb_tr s)).
    { step_cases H; injection H as <-; proj; rewrite ?se_snoc; cbn [is_source_event]; rewrite ?app_nil_r; auto; exfalso; solve [eapply N1; eassumption|eapply N2; eassumption|eapply N1; reflexivity|eapply N2; reflexivity]. }
    assert (Y : opened s' = opened s).
    { destruct (step_starts c s l s' H N1) as [_ SL]. unfold opened, latest. rewrite SL. fold (latest s).
      assert (T : tpc_of s' (latest s) = tpc_of s (latest s)).
      { unfold tpc_of. destruct (nth_error (sb_ss s) (latest s)) as [e|] eqn:E.
        - destruct (step_frame c s l s' H _ e E) as (e' & E' & P & _). rewrite E'.
          destruct P as [P|[[x ->]|(_ & _ & _ & x & v & ->)]]; [assumption|exfalso; eapply N2; reflexivity|exfalso; eapply N1; reflexivity].
        - destruct (nth_error (sb_ss s') (latest s)) as [e'|] eqn:E'; [|reflexivity]. apply nth_lt in E'. apply nth_error_None in E. lia. }
      rewrite T. destruct (step_start c s l s' H) as [[ES _]|[(_ & ES & ES' & _)|(x & v & ->)]]; [now rewrite ES|now rewrite ES, ES'|exfalso; eapply N1; reflexivity]. }
    now rewrite X, Y.
Qed.
Lemma sproper_history c ls s : history c ls s -> orderly c ls -> sproper (source_events (sb_tr s)) (opened s).
Proof.
  intro H. revert ls s H. apply (sb_ind c (fun ls s => orderly c ls -> sproper (source_events (sb_tr s)) (opened s))).
  - intros _. constructor.
  - intros ls s l s' Hh IH H O. destruct (orderly_snoc c ls l s Hh O) as [O1 _].
    eapply (sproper_step c s l s'); eauto using sinv_history, oinv_history. eapply life_all; eauto.
Qed.

(** ** Appends of increasing data never fail *)
Lemma increasing_appends c ls s : history c ls s -> orderly c ls ->
  (forall i, strictly_ordered (c_key c) (data_read i (sb_tr s))) -> (forall i x, In x (data_read i (sb_tr s)) -> exists k, c_key c x = Ok k) ->
  forall i j x o, In (EAppend i j x o) (sb_tr s) -> o = Ok tt.
Proof.
  intro H. revert ls s H. apply (sb_ind c (fun ls s => orderly c ls -> (forall i, strictly_ordered (c_key c) (data_read i (sb_tr s))) ->
    (forall i x, In x (data_read i (sb_tr s)) -> exists k, c_key c x = Ok k) -> forall i j x o, In (EAppend i j x o) (sb_tr s) -> o = Ok tt)); [intros _ _ _ i j x o []|].
  intros ls s l s' Hh IH H O SO KD i j x u Hin. destruct (orderly_snoc c ls l s Hh O) as [O1 _].
  destruct (step_trace c s l s' H) as (es & Et).
  assert (OLD : forall i j x o, In (EAppend i j x o) (sb_tr s) -> o = Ok tt).
  { apply IH; auto; [intro k; specialize (SO k)|intros k y Hy; apply (KD k)]; rewrite Et, dr_app in *.
    - now apply strictly_ordered_app in SO.
    - apply in_or_app. now left. }
  pose proof (fun k A => proj1 (alive_latest c ls s k Hh O1 A)) as AL.
  assert (ST : forall i o, l = LT i o -> sb_cur s = Some i) by (intros i0 o0 ->; eapply AL, step_alive; eauto).
  clear Et. step_cases H; injection H as <-; proj; repeat rewrite in_app_iff in Hin;
    repeat (destruct Hin as [Hin|Hin]; [|cbn in Hin; destruct Hin as [Hin|[]]; try discriminate Hin]); eauto.
  injection Hin as <- <- <- <-. subst l. specialize (ST i0 o eq_refl).
  match goal with X : buf_of s ?j9 = Some ?d9, Y : sd_append ?d9 _ = _ |- _ => pose proof (held_own c ls s i0 _ j9 Hh O1 E0 (or_intror (ex_intro _ _ E1))) as ->; rename Y into E4x; rename X into E3x; rename d9 into s1x end.
  destruct (C41_own_buffer c ls s Hh O1 i0) as (AO & _ & _).
  assert (DR : data_read i0 (sb_tr s) = accepted_by i0 (sb_tr s) ++ [x0]).
  { pose proof (life_all c ls s Hh i0) as L. unfold life_inv in L. rewrite E0 in L. destruct L as [L _]. rewrite E1 in L. cbn [ph] in L.
    destruct (life_data _ _ _ L) as (rest & E' & R). cbn in R. subst rest. rewrite data_read_te, appended_ok_te in E'. congruence. }
  specialize (SO i0). specialize (KD i0 x0). rewrite dr_app in SO, KD. cbn [data_read flat_map] in SO, KD. rewrite app_nil_r in SO, KD. rewrite DR in SO, KD.
  destruct KD as (k & Ek); [apply in_or_app; right; now left|].
  destruct (buf_holds c ls s Hh i0 s1x E3x) as (n & EH & _). destruct (shaped_history c ls s i0 s1x Hh E3x) as (C & K & _).
  unfold sd_append in E4x. rewrite K, Ek in E4x. unfold consistent in C.
  destruct (last_opt (sd_keys s1x)) as [lk|] eqn:EL; [|injection E4x as _ <-; reflexivity].
  apply last_opt_some in EL as (ks & EL). rewrite EL in C.
  apply Forall2_app_inv_r in C as (l1 & l2 & C1 & C2 & C3). inversion C2 as [|y y' l' l'' Cy Cn]; subst. inversion Cn; subst.
  assert (LT : key_before (c_key c) y x0).
  { assert (IN : In y (accepted_by i0 (sb_tr s))).
    { assert (X : In y (sd_list s1x)) by (unfold sd_list; rewrite C3; apply in_or_app; right; now left). rewrite EH in X.
      rewrite <- (firstn_skipn n). apply in_or_app. now right. }
    unfold strictly_ordered in SO. clear - SO IN. induction (accepted_by i0 (sb_tr s)) as [|z a IHa]; [destruct IN|].
    cbn in SO. apply StronglySorted_inv in SO as [S1 S2]. destruct IN as [->|IN]; [|auto]. rewrite Forall_forall in S2. apply S2, in_or_app. right. now left. }
  destruct LT as (ky & kx & Ky & Kx & LT). rewrite K in Cy. unfold py_gt in E4x.
  assert (lk = ky) by congruence. assert (kx = k) by congruence. subst ky kx. apply ltb_true in LT. rewrite LT in E4x. injection E4x as _ <-. reflexivity.
Qed.
