(** * Readers that change sessions: the cursor and what was received *)
From Coq Require Import List ZArith Bool Arith Lia Sorting.Sorted.
From Verif Require Import PyVal PyLib PyValFacts SortedDequeM Spec SpecDeque SpecReader SpecLog ListFacts BisectFacts DequeFacts DequeSearch
  BufferReaderM BufferSysM ReaderFacts ReaderLoops LogFacts LogReads StreamBufferM SpecStream StreamFacts StreamLife StreamInv StreamView StreamReads PropsStream StreamSuffix.
Import ListNotations.
Open Scope nat_scope.

(** ** The buffers of a stream *)
Lemma stream_buffer_in P c ls s k d : history c ls s -> stream_keys_in P c (sb_tr s) -> buf_of s k = Some d ->
  buffer_in P d /\ sd_key d = c_key c /\ ~ In PNone (sd_items d) /\ (forall x, In x (sd_items d) -> In x (accepted_by k (sb_tr s))).
Proof.
  intros H K Hb. pose proof (buf_hist_all c ls s H k) as B. unfold buf_hist in B. rewrite Hb in B. destruct B as (d0 & E0 & ->).
  assert (HO : forall x, In (OAppend x) (ops_on k (sb_tr s)) -> exists i o, In (EAppend i k x o) (sb_tr s)).
  { intros x Hx. unfold ops_on in Hx. apply in_flat_map in Hx as (e & He & Hx). destruct e as [| | | | |i j y u| | | | | | |[j|] n u| | | |]; try (destruct Hx; fail).
    - destruct (Nat.eqb_spec j k) as [->|]; [|destruct Hx]. destruct Hx as [Hx|[]]. injection Hx as <-. eauto.
    - destruct (Nat.eqb j k); [|destruct Hx]. destruct Hx as [Hx|[]]; discriminate. }
  assert (SUB : forall x, In x (sd_items (sd_run d0 (ops_on k (sb_tr s)))) -> In x (accepted_by k (sb_tr s))).
  { intros x Hx. destruct (buf_holds c ls s H k _ Hb) as (n & E & _). unfold sd_list in E. rewrite E in Hx.
    rewrite <- (firstn_skipn n (accepted_by k (sb_tr s))). apply in_or_app. now right. }
  split; [|split; [|split]].
  - exists (c_key c), (c_maxlen c), d0, (ops_on k (sb_tr s)). split; [assumption|]. split; [apply ops_on_append_or_drop|]. split; [|reflexivity].
    intros x kk Hx Ek. destruct (HO x Hx) as (i & o & Hi). exact (K _ _ _ _ _ Hi Ek).
  - assert (G : forall ops d, sd_key d = c_key c -> Forall is_append_or_drop ops -> sd_key (sd_run d ops) = c_key c).
    { induction ops as [|o ops IH]; intros d Hd F; [assumption|]. inversion F; subst. change (sd_run d (o :: ops)) with (sd_run (fst (sd_step d o)) ops). apply IH; [|assumption].
      destruct o; try easy; cbn [sd_step]; [now rewrite append_key | unfold sd_drop; now rewrite drop_nat_key]. }
    apply G; [|apply ops_on_append_or_drop]. now apply init_key in E0.
  - intro X. apply SUB in X. unfold accepted_by in X. apply in_flat_map in X as (e & He & X). destruct e as [| | | | |i j y [u|u]| | | | | | | | | | |]; try (destruct X; fail).
    destruct (Nat.eqb j k); [|destruct X]. destruct X as [->|[]]. now apply (append_not_none c ls s H i j PNone (Ok u) He).
  - exact SUB.
Qed.
Lemma items_strict P d : bok P d -> strictly_ordered (sd_key d) (sd_items d).
Proof.
  intros B. pose proof (bok_cons _ _ B) as C. pose proof (bok_strict _ _ B) as S. unfold strict_keys in S. unfold strictly_ordered.
  revert C S. unfold consistent. generalize (sd_items d), (sd_keys d). intros its kss C. induction C as [|x k its ks E C IH]; intro S; [constructor|].
  inversion S as [|? ? S' HF]; subst. constructor; [auto|]. apply Forall_forall. intros y Hy. 
  assert (X : exists ky, In ky ks /\ sd_key d y = Ok ky).
  { clear - C Hy. induction C as [|a b l m E C IH]; [destruct Hy|]. destruct Hy as [<-|Hy]; [exists b; split; [now left|assumption]|]. destruct (IH Hy) as (ky & A & B). exists ky. split; [now right|assumption]. }
  destruct X as (ky & A & B'). rewrite Forall_forall in HF. exists k, ky. auto.
Qed.
Lemma skipn_sorted {A} (R : A -> A -> Prop) l : forall n, StronglySorted R l -> StronglySorted R (skipn n l).
Proof. induction l as [|x l IH]; intros [|n] S; cbn; auto. inversion S; auto. Qed.
Lemma firstn_sorted {A} (R : A -> A -> Prop) l : forall n, StronglySorted R l -> StronglySorted R (firstn n l).
Proof.
  intros n S. revert n. induction S as [|x l S IH HF]; intros [|n]; cbn; try constructor; auto. apply Forall_forall. intros y Hy. rewrite Forall_forall in HF. apply HF.
  rewrite <- (firstn_skipn n l). apply in_or_app. now left.
Qed.

Section Att.
  Variable P : pyval -> Prop.
  Hypothesis F : total_family P.
  Variable key : pyval -> res pyval.
  (** [G]: what a reader with cursor [r] received. *)
  Definition at_cursor (G : list pyval) (r : breader) : Prop :=
    strictly_ordered key G /\
    match last_opt G with
    | None => fresh r
    | Some y => r_last_item r = y /\ key y = Ok (r_last_key r) /\ P (r_last_key r)
    end.
  Lemma at_cursor_in G r : at_cursor G r -> cursor_in P r.
  Proof. intros [_ H]. destruct (last_opt G); [right; tauto|now left]. Qed.
  Lemma at_cursor_moves G r d k : at_cursor G r -> bok P d -> sd_key d = key ->
    let u := unseen key r (sd_items d) in at_cursor (G ++ firstn k u) (moved key false (firstn k u) r).
  Proof.
    intros HG B EK u. pose proof (at_cursor_in G r HG) as HC. pose proof HG as [SG HL].
    destruct (unseen_suffix P F d B r HC) as (j & Hj & EU & _). rewrite EK in EU. fold u in EU.
    assert (SU : strictly_ordered key u) by (rewrite EU; apply skipn_sorted; rewrite <- EK; eapply items_strict; eauto).
    assert (INU : forall y, In y u -> In y (sd_items d)) by (intros y Hy; eapply unseen_in; exact Hy).
    destruct (firstn k u) as [|x0 t0] eqn:EF; [cbn; now rewrite app_nil_r|]. rewrite <- EF. split.
    - apply sorted_app; [assumption|now apply firstn_sorted|]. intros x y Hx Hy. apply firstn_in in Hy.
      destruct (last_opt G) as [z|] eqn:EL.
      + apply last_opt_some in EL as (G' & ->). destruct HL as (E1 & E2 & E3).
        apply (sorted_last _ G' z (before_trans key) SG x y Hx).
        destruct (key_in P d B y (INU y Hy)) as (ky & Ey & _ & Py). rewrite EK in Ey. exists (r_last_key r), ky. split; [assumption|]. split; [assumption|].
        unfold u, unseen in Hy. apply filter_In in Hy as [_ Hy]. unfold is_unseen, key_sat in Hy. rewrite Ey, (family_not_none P _ F E3) in Hy. exact Hy.
      + apply last_opt_none in EL. subst G. destruct Hx.
    - assert (LX : exists z G', firstn k u = G' ++ [z]) by (destruct (exists_last (l := firstn k u)) as (G' & z & E); [rewrite EF; discriminate|eauto]).
      destruct LX as (z & G' & E). unfold moved. rewrite E, app_assoc, !last_opt_snoc.
      assert (Hz : In z (sd_items d)) by (apply INU, (firstn_in k); rewrite E; apply in_or_app; right; now left).
      destruct (key_in P d B z Hz) as (kz & Ez & _ & Pz). rewrite EK in Ez. unfold cursor_to. rewrite Ez. cbn. auto.
  Qed.
End Att.

Lemma received_app r a b : received r (a ++ b) = received r a ++ received r b.
Proof. apply flat_map_app. Qed.
Lemma got_items v : got_from (OVal v) = match v with Ok x => items_of x | Raise _ => [] end.
Proof. destruct v as [[[]|]|]; reflexivity. Qed.

(** ** The invariant *)
Definition att_inv P c (s : sb) (r : nat) : Prop :=
  match nth_error (sb_rds s) r with
  | None => received r (sb_tr s) = []
  | Some q => rk_peek (rd_r q) = false /\ at_cursor P (c_key c) (received r (sb_tr s)) (rd_r q)
  end /\ forall x, In x (received r (sb_tr s)) -> exists j, In x (accepted_by j (sb_tr s)).

Definition forward_call (cl : call) : Prop := match cl with CRead a => dflt (a_peek a) false = false | CNext _ => True | _ => False end.
Lemma forward_shape P d cl r : total_family P -> bok P d -> cursor_in P r -> ~ In PNone (sd_items d) -> rk_peek r = false -> forward_call cl ->
  let u := unseen (sd_key d) r (sd_items d) in
  exists k, fst (run (do_call d cl) r) = moved (sd_key d) false (firstn k u) r /\ got_from (OVal (snd (run (do_call d cl) r))) = firstn k u.
Proof.
  intros F B H N HP HF u. destruct cl as [a|st|g|p i o|p]; try (exfalso; exact HF); cbn [do_call].
  - rewrite (read_closed P F d B) by assumption. cbn in HF. rewrite HF. now apply read_shape.
  - now apply (next_shape P F).
Qed.
Lemma moved_peek key m r : rk_peek (moved key false m r) = rk_peek r.
Proof. unfold moved, cursor_to. destruct (last_opt m) as [x|]; [|reflexivity]. now destruct (key x). Qed.

Lemma att_call P c s r q d cl e lo out : total_family P -> bok P d -> sd_key d = c_key c -> ~ In PNone (sd_items d) -> forward_call cl ->
  nth_error (sb_rds s) r = Some q -> (forall x, In x (sd_items d) -> exists j, In x (accepted_by j (sb_tr s))) ->
  received r [e] = got_from (OVal (snd (run (do_call d cl) (rd_r q)))) -> (forall j, accepted_by j [e] = []) -> att_inv P c s r ->
  att_inv P c (StreamBufferM.log (set_rds s (set_nth (sb_rds s) r (MkRdr (rd_sess q) (rd_ev q) (rd_info q) (fst (run (do_call d cl) (rd_r q))) lo out))) e) r.
Proof.
  intros F B EK N FC Hq SUB ER EA I. unfold att_inv in *. proj. rewrite nth_error_set_nth, Nat.eqb_refl, Hq. rewrite Hq in I. destruct I as [[HP AC] SR]. cbn [rd_r].
  destruct (forward_shape P d cl (rd_r q) F B (at_cursor_in _ _ _ _ AC) N HP FC) as (k & E1 & E2). rewrite received_app, ER, E1, E2, EK. split.
  - split; [now rewrite moved_peek|]. now apply at_cursor_moves.
  - intros x Hx. apply in_app_or in Hx as [Hx|Hx].
    + destruct (SR x Hx) as (j & Hj). exists j. rewrite acc_app. apply in_or_app. now left.
    + apply firstn_in, unseen_in in Hx. destruct (SUB x Hx) as (j & Hj). exists j. rewrite acc_app. apply in_or_app. now left.
Qed.

Lemma mf_app r a b : moves_forward r (a ++ b) -> moves_forward r a.
Proof. intros H e He. apply H, in_or_app. now left. Qed.
Lemma sk_app P c a b : stream_keys_in P c (a ++ b) -> stream_keys_in P c a.
Proof. intros H i j x o k Hi. apply (H i j x o k), in_or_app. now left. Qed.
Lemma att_same P c s s' r : att_inv P c s r -> (exists es, sb_tr s' = sb_tr s ++ es /\ received r es = []) ->
  match nth_error (sb_rds s) r with Some q => exists q', nth_error (sb_rds s') r = Some q' /\ rd_r q' = rd_r q | None => nth_error (sb_rds s') r = None end ->
  att_inv P c s' r.
Proof.
  intros [I SR] (es & Et & Er) Hr. unfold att_inv. rewrite Et, received_app, Er, app_nil_r. split.
  - destruct (nth_error (sb_rds s) r) as [q|]; [destruct Hr as (q' & -> & ->)|rewrite Hr]; assumption.
  - intros x Hx. destruct (SR x Hx) as (j & Hj). exists j. rewrite acc_app. apply in_or_app. now left.
Qed.
(** What a step does to the record of reader [r] and to what it received. *)
Lemma att_step_cases c s l s' r : sb_step c s l = Some s' ->
  ((exists es, sb_tr s' = sb_tr s ++ es /\ received r es = []) /\
   match nth_error (sb_rds s) r with Some q => exists q', nth_error (sb_rds s') r = Some q' /\ rd_r q' = rd_r q | None => nth_error (sb_rds s') r = None end) \/
  (nth_error (sb_rds s) r = None /\ (exists es, sb_tr s' = sb_tr s ++ es /\ received r es = []) /\
   exists q' j n p st ig, nth_error (sb_rds s') r = Some q' /\ rd_r q' = mk_breader n p st ig /\ In (ENew r j n p st ig) (sb_tr s')) \/
  exists q d cl e lo out, nth_error (sb_rds s) r = Some q /\ buf_of s (rd_sess q) = Some d /\ received r [e] = got_from (OVal (snd (run (do_call d cl) (rd_r q)))) /\
    (forall j, accepted_by j [e] = []) /\ (e = ECall r cl (snd (run (do_call d cl) (rd_r q))) \/ exists b, cl = CNext b) /\
    sb_tr s' = sb_tr s ++ [e] /\
    sb_rds s' = set_nth (sb_rds s) r (MkRdr (rd_sess q) (rd_ev q) (rd_info q) (fst (run (do_call d cl) (rd_r q))) lo out).
Proof.
  intro H.
  assert (NEW : forall j n p st ig e, sb_rds s' = sb_rds s ++ [mk_rdr s j n p st ig] -> sb_tr s' = (sb_tr s ++ [ENew (length (sb_rds s)) j n p st ig]) ++ e -> received r e = [] ->
    ((exists es, sb_tr s' = sb_tr s ++ es /\ received r es = []) /\
      match nth_error (sb_rds s) r with Some q => exists q', nth_error (sb_rds s') r = Some q' /\ rd_r q' = rd_r q | None => nth_error (sb_rds s') r = None end) \/
    (nth_error (sb_rds s) r = None /\ (exists es, sb_tr s' = sb_tr s ++ es /\ received r es = []) /\
      exists q' j n p st ig, nth_error (sb_rds s') r = Some q' /\ rd_r q' = mk_breader n p st ig /\ In (ENew r j n p st ig) (sb_tr s'))).
  { intros j n p st ig e ER ET EE. assert (X : exists es, sb_tr s' = sb_tr s ++ es /\ received r es = []).
    { exists (ENew (length (sb_rds s)) j n p st ig :: e). rewrite ET, <- app_assoc. split; [reflexivity|]. exact EE. }
    rewrite ER, nth_snoc. destruct (Nat.ltb_spec r (length (sb_rds s))) as [L|L].
    - left. split; [assumption|]. destruct (nth_error (sb_rds s) r) eqn:Q; [eauto|reflexivity].
    - replace (nth_error (sb_rds s) r) with (@None rdr) by (symmetry; apply nth_error_None; lia). destruct (Nat.eqb_spec r (length (sb_rds s))) as [->|N].
      + right. split; [reflexivity|]. split; [assumption|]. exists (mk_rdr s j n p st ig), j, n, p, st, ig. split; [reflexivity|]. split; [reflexivity|].
        rewrite ET. apply in_or_app. left. apply in_or_app. right. now left.
      + left. auto. }
  assert (KEEP : forall es, sb_tr s' = sb_tr s ++ es -> received r es = [] -> sb_rds s' = sb_rds s ->
    (exists es, sb_tr s' = sb_tr s ++ es /\ received r es = []) /\
      match nth_error (sb_rds s) r with Some q => exists q', nth_error (sb_rds s') r = Some q' /\ rd_r q' = rd_r q | None => nth_error (sb_rds s') r = None end).
  { intros es A B C. split; [eauto|]. rewrite C. destruct (nth_error (sb_rds s) r); [eauto|reflexivity]. }
  assert (SET : forall es r0 q x, nth_error (sb_rds s) r0 = Some q -> (r0 = r -> rd_r x = rd_r q) -> sb_tr s' = sb_tr s ++ es -> received r es = [] -> sb_rds s' = set_nth (sb_rds s) r0 x ->
    (exists es, sb_tr s' = sb_tr s ++ es /\ received r es = []) /\
      match nth_error (sb_rds s) r with Some q => exists q', nth_error (sb_rds s') r = Some q' /\ rd_r q' = rd_r q | None => nth_error (sb_rds s') r = None end).
  { intros es r0 q x Hq Hx A B C. split; [eauto|]. rewrite C, nth_error_set_nth. destruct (Nat.eqb_spec r0 r) as [->|]; [rewrite Hq; eauto|].
    destruct (nth_error (sb_rds s) r); [eauto|reflexivity]. }
  destruct l as [|o v| | |n p st ig|r0| | |n|kd|jd|kd|r0 cl|r0|i o].
  - left. step_cases H; injection H as <-; apply (KEEP []); proj; rewrite ?app_nil_r; reflexivity.
  - left. step_cases H; injection H as <-; proj; try (apply (KEEP []); rewrite ?app_nil_r; reflexivity); (eapply KEEP; [rewrite <- ?app_assoc; reflexivity|reflexivity|reflexivity]).
  - left. step_cases H; injection H as <-; proj; eapply KEEP; reflexivity.
  - left. step_cases H; injection H as <-; apply (KEEP []); proj; rewrite ?app_nil_r; reflexivity.
  - step_cases H; injection H as <-; proj.
    + destruct (NEW n0 n p st ig [EMk (Ok (length (sb_rds s)))]) as [X|X]; auto.
    + left. eapply KEEP; reflexivity.
  - left. step_cases H; injection H as <-; proj; [|eapply KEEP; reflexivity]. eapply SET; [eassumption| |reflexivity|reflexivity|reflexivity]; reflexivity.
  - step_cases H; injection H as <-; proj.
    + left. apply (KEEP []); rewrite ?app_nil_r; reflexivity.
    + destruct (NEW n 1%Z false false false []) as [X|X]; rewrite ?app_nil_r; auto.
    + left. eapply KEEP; reflexivity.
  - cbn in H. destruct (sb_nx s) as [|n]; [discriminate|]. destruct (sb_next s) as [r0|].
    + unfold call_step in H. proj. destruct (nth_error (sb_rds s) r0) as [q|] eqn:Hq; [|discriminate]. unfold buf_of in *. proj.
      destruct (nth_error (sb_ss s) (rd_sess q)) as [e|] eqn:Ee; [|discriminate]. destruct (se_buf e) as [d|] eqn:Ed; [|discriminate].
      destruct (run _ _) as [br v] eqn:ER. injection H as <-. proj.
      destruct (Nat.eq_dec r0 r) as [->|N].
      * right. right. exists q, d. eexists _, (ENext (Some r) _ v), _, _. rewrite ER. split; [assumption|]. split; [rewrite Ee; assumption|].
        split; [|split; [|split; [|split; [reflexivity|reflexivity]]]]; [|reflexivity|right; eexists; reflexivity].
        rewrite got_items. cbn. destruct v; [|reflexivity]. now rewrite Nat.eqb_refl, app_nil_r.
      * left. eapply SET; [exact Hq|intro; contradiction|reflexivity| |reflexivity]. cbn. destruct v; [|reflexivity]. now rewrite (proj2 (Nat.eqb_neq r0 r) N).
    + injection H as <-. left. proj. eapply KEEP; reflexivity.
  - left. step_cases H; injection H as <-; proj; try (apply (KEEP []); rewrite ?app_nil_r; reflexivity); eapply KEEP; reflexivity.
  - left. step_cases H; injection H as <-; proj; (apply (KEEP []); rewrite ?app_nil_r; reflexivity).
  - left. step_cases H; injection H as <-; proj; (apply (KEEP []); rewrite ?app_nil_r; reflexivity).
  - left. step_cases H; injection H as <-; proj; eapply KEEP; reflexivity.
  - cbn in H. unfold call_step in H. destruct (nth_error (sb_rds s) r0) as [q|] eqn:Hq; [|discriminate]. destruct (buf_of s (rd_sess q)) as [d|] eqn:Ed; [|discriminate].
    destruct (run _ _) as [br v] eqn:ER. injection H as <-. proj.
    destruct (Nat.eq_dec r0 r) as [->|N].
    + right. right. exists q, d. eexists _, (ECall r _ v), _, _. rewrite ER. split; [assumption|]. split; [assumption|].
      split; [|split; [|split; [|split; [reflexivity|reflexivity]]]]; [|reflexivity|now left].
      rewrite got_items. cbn. destruct v; [|reflexivity]. now rewrite Nat.eqb_refl, app_nil_r.
    + left. eapply SET; [exact Hq|intro; contradiction|reflexivity| |reflexivity]. cbn. destruct v; [|reflexivity]. now rewrite (proj2 (Nat.eqb_neq r0 r) N).
  - cbn in H. unfold iter_step in H. destruct (nth_error (sb_rds s) r0) as [q|] eqn:Hq; [|discriminate]. cbn zeta in H. destruct (rd_loop q) eqn:EL.
    + destruct (buf_of s (rd_sess q)) as [d|] eqn:Ed; [|discriminate]. rewrite <- next_poll in H by reflexivity. destruct (run _ _) as [br v] eqn:ER.
      destruct (match v with Ok v => _ | Raise _ => _ end) as [lo out]. injection H as <-. proj.
      destruct (Nat.eq_dec r0 r) as [->|N].
      * right. right. exists q, d. eexists _, (EPoll r v), _, _. rewrite ER. split; [assumption|]. split; [assumption|].
        split; [|split; [|split; [|split; [reflexivity|reflexivity]]]]; [|reflexivity|right; eexists; reflexivity].
        rewrite got_items. cbn. destruct v; [|reflexivity]. now rewrite Nat.eqb_refl, app_nil_r.
      * left. eapply SET; [exact Hq|intro; contradiction|reflexivity| |reflexivity]. cbn. destruct v; [|reflexivity]. now rewrite (proj2 (Nat.eqb_neq r0 r) N).
    + injection H as <-. left. proj. eapply (SET []); [exact Hq| |now rewrite app_nil_r|reflexivity|reflexivity]; reflexivity.
    + injection H as <-. left. proj. eapply (SET []); [exact Hq| |now rewrite app_nil_r|reflexivity|reflexivity]; reflexivity.
    + discriminate.
  - left. step_cases H; injection H as <-; proj; try (apply (KEEP []); rewrite ?app_nil_r; reflexivity); eapply KEEP; reflexivity.
Qed.
Lemma att_history P c ls s : total_family P -> history c ls s -> forall r, stream_keys_in P c (sb_tr s) -> moves_forward r (sb_tr s) -> att_inv P c s r.
Proof.
  intros F H. revert ls s H. apply (sb_ind c (fun _ s => forall r, stream_keys_in P c (sb_tr s) -> moves_forward r (sb_tr s) -> att_inv P c s r)).
  - intros r _ _. split; [destruct r; reflexivity|]. intros x [].
  - intros ls s l s' Hh IH H r K MF. destruct (step_trace c s l s' H) as (es & Et).
    assert (K0 : stream_keys_in P c (sb_tr s)) by (rewrite Et in K; eapply sk_app; eauto). assert (MF0 : moves_forward r (sb_tr s)) by (rewrite Et in MF; eapply mf_app; eauto).
    specialize (IH r K0 MF0). destruct (att_step_cases c s l s' r H) as [[A B]|[(A & B & q' & j & n & p & st & ig & Q & R & IN)|(q & d & cl & e & lo & out & Hq & Hb & ER & EA & FC & ET & EQ)]].
    + eapply att_same; eauto.
    + destruct B as (es1 & Et1 & Er1). destruct IH as [IH SR]. rewrite A in IH. unfold att_inv. rewrite Q, R, Et1, received_app, Er1, IH. split; [|intros x []].
      split; [exact (MF _ IN eq_refl)|]. split; [constructor|]. split; reflexivity.
    + destruct (stream_buffer_in P c ls s _ d Hh K0 Hb) as (BI & EK & NN & SUB). 
      assert (FC' : forward_call cl).
      { destruct FC as [->|(b & ->)]; [|exact Logic.I]. assert (X : In (ECall r cl (snd (run (do_call d cl) (rd_r q)))) (sb_tr s')) by (rewrite ET; apply in_or_app; right; now left).
        specialize (MF _ X). cbn in MF. destruct cl; cbn; auto; apply MF; reflexivity. }
      pose proof (att_call P c s r q d cl e lo out F (buffer_bok P d BI) EK NN FC' Hq ltac:(intros x Hx; eexists; apply SUB; exact Hx) ER EA IH) as X.
      unfold att_inv in X |- *. proj. rewrite ET, EQ. exact X.
Qed.
