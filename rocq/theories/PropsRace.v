(** * StreamSource with several client threads (C87) *)
From Coq Require Import List ZArith Bool Arith Lia.
From Verif Require Import PyVal PyLib SortedDequeM BufferReaderM BufferSysM StreamBufferM StreamSourceM SourceRaceM SpecSource.
Import ListNotations.
Open Scope nat_scope.

(** ** Specification *)
(** No call of open_reader() or close() is under way. *)
Definition nobody (q : race) : Prop := forall t p, nth_error (q_thr q) t = Some p -> p = CIdle.
(** [history c m ls q]: [m] client threads can follow the schedule [ls] on a new StreamSource. *)
Definition race_history (c : cfg) (m : nat) (ls : list qlabel) (q : race) : Prop := race_run c (race0 m) ls = Some q.
(** Calls do not overlap: each starts when no other is under way. *)
Definition one_at_a_time (c : cfg) (m : nat) (ls : list qlabel) : Prop :=
  forall ls1 t cl ls2 q1, ls = ls1 ++ QCall t cl :: ls2 -> race_history c m ls1 q1 -> nobody q1.
(** From the calls that have returned: readers opened, close() calls, and how many of the
    close() calls left no reader open. *)
Definition one_call (st : Z * Z * nat) (p : nat * cout) : Z * Z * nat :=
  let '(o, k, n) := st in
  match snd p with
  | GotReader _ _ => (o + 1, k, n)
  | Failed _ => (o, k, n)
  | ClosedOk _ _ | ClosedSource _ _ | CloseFailed _ _ _ => (o, k + 1, if Z.leb o (k + 1) then S n else n)
  end%Z.
Definition tally (outs : list (nat * cout)) : Z * Z * nat := fold_left one_call outs (0%Z, 0%Z, 0).
Arguments tally : simpl never.
(** Calls of stop() on any StreamBuffer. *)
Definition stops (q : race) : nat := length (filter (fun e => is_stop (snd e)) (q_src q)).

(** ** Steps of a StreamBuffer and stop() *)
Lemma step_events c s l s' : sb_step c s l = Some s' ->
  exists new, sb_tr s' = sb_tr s ++ new /\ length (filter is_stop new) = match l with LStop => 1 | _ => 0 end.
Proof.
  assert (X0 : forall tr : list ev, exists new, tr = tr ++ new /\ length (filter is_stop new) = 0) by (intro; exists []; now rewrite app_nil_r).
  assert (C : forall q r cl w s2, call_step q r cl w = Some s2 -> (forall a b, is_stop (w a b) = false) ->
     exists new, sb_tr s2 = sb_tr q ++ new /\ length (filter is_stop new) = 0).
  { intros q r cl w s2 H Hw. unfold call_step in H. destruct (nth_error _ r) as [qr|]; [|discriminate]. destruct (buf_of _ _); [|discriminate].
    destruct (run _ _) as [br v]. injection H as <-. eexists. split; [reflexivity|]. cbn. now rewrite Hw. }
  destruct l as [|o info| | |n p st ig|r| | |n|ki|jo|kd|r cl|r|i o]; cbn [sb_step]; intro H.
  - destruct (lock_free s); [|discriminate]. injection H as <-. apply X0.
  - unfold start_step in H. destruct (sb_start s); try discriminate; try (injection H as <-; apply X0).
    + destruct o; injection H as <-; cbn; rewrite <- ?app_assoc; eexists; split; reflexivity.
    + destruct info as [v|e]; [destruct (sd_init _ _ _)|]; injection H as <-; cbn; eexists; split; reflexivity.
    + injection H as <-. cbn. eexists. split; reflexivity.
  - destruct (Nat.eqb _ 0); injection H as <-; cbn; eexists; split; reflexivity.
  - destruct (sb_stops s); [discriminate|]. injection H as <-. apply X0.
  - destruct (lock_free s); [|discriminate]. destruct (sb_cur s); injection H as <-; cbn; rewrite <- ?app_assoc; eexists; split; reflexivity.
  - destruct (lock_free s); [|discriminate]. destruct (nth_error _ r); [|discriminate]. destruct (sb_cur s); injection H as <-; cbn; eexists; split; reflexivity.
  - destruct (sb_next s); [injection H as <-; apply X0|]. destruct (lock_free s); [|discriminate].
    destruct (sb_cur s); injection H as <-; cbn; eexists; split; reflexivity.
  - destruct (sb_nx s); [discriminate|]. destruct (sb_next s); [now apply C in H|]. injection H as <-. cbn. eexists; split; reflexivity.
  - destruct (is_True _); [injection H as <-; cbn; eexists; split; reflexivity|].
    destruct (sb_cur s); injection H as <-; [apply X0|cbn; eexists; split; reflexivity].
  - destruct (nth_error _ ki) as [[j n]|]; [|discriminate]. destruct (dropping _ _); [discriminate|]. injection H as <-. apply X0.
  - destruct (dropping _ _) as [[n k]|]; [|discriminate]. destruct (buf_of _ _); [|discriminate]. destruct (_ <? _); [|discriminate]. injection H as <-. apply X0.
  - destruct (nth_error _ kd) as [[j n]|]; [|discriminate]. destruct (match dropping s j with Some _ => _ | None => _ end); [|discriminate]. destruct (buf_of _ _); [|discriminate].
    destruct (sd_drop _ _). injection H as <-. cbn. eexists; split; reflexivity.
  - now apply C in H.
  - unfold iter_step in H. destruct (nth_error _ r) as [qr|]; [|discriminate]. destruct (rd_loop qr); try discriminate; try (injection H as <-; apply X0).
    destruct (buf_of _ _); [|discriminate]. destruct (run _ _) as [br v]. destruct (match v with Ok _ => _ | Raise _ => _ end). injection H as <-. cbn. eexists; split; reflexivity.
  - destruct (nth_error _ i) as [e|]; [|discriminate]. unfold thread_step in H. destruct (se_pc e); try discriminate; try (injection H as <-; apply X0).
    + destruct (is_True _); [injection H as <-; apply X0|]. destruct (sb_cur s); injection H as <-; [apply X0|cbn; eexists; split; reflexivity].
    + destruct (c_maxlen c); [|injection H as <-; cbn; eexists; split; reflexivity]. destruct (buf_of _ _); [|discriminate]. injection H as <-. apply X0.
    + destruct o; injection H as <-; cbn; eexists; split; reflexivity.
    + destruct (sb_cur s); injection H as <-; [apply X0|cbn; eexists; split; reflexivity].
    + destruct (dropping _ _); [discriminate|]. destruct (buf_of _ _); [|discriminate].
      destruct (sd_append _ _). injection H as <-. cbn. eexists; split; reflexivity.
    + destruct o; injection H as <-; [apply X0|cbn; eexists; split; reflexivity].
    + injection H as <-. cbn. eexists; split; reflexivity.
Qed.
Lemma sb_do_spec c q k l q' : sb_do c q k l = Some q' ->
  q_open q' = q_open q /\ q_attr q' = q_attr q /\ q_thr q' = q_thr q /\ q_out q' = q_out q /\
  length (q_sbs q') = length (q_sbs q) /\ k < length (q_sbs q) /\ stops q' = stops q + match l with LStop => 1 | _ => 0 end.
Proof.
  unfold sb_do. destruct (nth_error (q_sbs q) k) as [s|] eqn:E; [|discriminate]. destruct (sb_step c s l) as [s'|] eqn:Es; [|discriminate].
  intro H. injection H as <-. cbn. destruct (step_events _ _ _ _ Es) as (new & T & N). repeat split.
  - generalize (q_sbs q) k. clear. induction l as [|x m IH]; intros [|k]; cbn; auto.
  - apply nth_error_Some. congruence.
  - unfold stops. cbn. rewrite T, skipn_app, skipn_all, Nat.sub_diag, filter_app, app_length. cbn. f_equal. rewrite <- N.
    clear. induction new as [|e new IH]; [reflexivity|]. cbn. destruct (is_stop e); cbn; auto.
Qed.

(** ** One call at a time *)
Definition is_active (q : race) (t : nat) (p : cpc) : Prop :=
  (forall t' p', nth_error (q_thr q) t' = Some p' -> p' = CIdle \/ (t' = t /\ p' = p)) /\ (p = CIdle \/ nth_error (q_thr q) t = Some p).
Definition no_sb (q : race) : Prop := q_attr q = None /\ length (q_sbs q) = 0.
Definition one_sb (q : race) : Prop := q_attr q = Some 0 /\ length (q_sbs q) = 1.
Definition good (p : cpc) (q : race) : Prop :=
  let '(o, k, n) := tally (q_out q) in
  (q_open q = o - k - match p with KTest _ _ | KExit _ _ | KStop _ _ _ | KStopping _ _ _ => 1 | _ => 0 end)%Z /\
  stops q = n + match p with KStopping _ _ _ => 1 | _ => 0 end /\
  match p with
  | CIdle | OCheck _ _ _ => (no_sb q /\ o = 0%Z) \/ one_sb q
  | OMake _ _ _ => no_sb q /\ o = 0%Z
  | OLoad _ _ _ | OStart _ _ _ _ | OStarting _ _ _ _ | OLoad2 _ _ _ | OMk _ _ _ _ | OCount _ _ => one_sb q
  | OAdd _ _ v => one_sb q /\ v = q_open q
  | KSub _ _ v => one_sb q /\ v = q_open q
  | KExit _ _ => one_sb q /\ (q_open q <= 0)%Z
  | KCount _ _ | KTest _ _ => one_sb q
  | KStop _ _ _ | KStopping _ _ _ => one_sb q /\ (q_open q <= 0)%Z
  end.
Definition ok_race (q : race) : Prop := exists t p, is_active q t p /\ good p q.

Lemma nth_set_nth' {A} (l : list A) i j x : nth_error (set_nth l i x) j =
  if Nat.eqb i j then match nth_error l j with Some _ => Some x | None => None end else nth_error l j.
Proof. revert i j. induction l as [|y l IH]; intros [|i] [|j]; cbn; auto; try now destruct (Nat.eqb i j). Qed.
Lemma active_pc (q : race) t p p1 thr : is_active q t p -> nth_error (q_thr q) t = Some p -> thr = set_nth (q_thr q) t p1 ->
  forall q', q_thr q' = thr -> is_active q' t p1.
Proof.
  intros [A _] Ht -> q' E. unfold is_active. rewrite E. split.
  - intros t' p' H. rewrite nth_set_nth' in H. destruct (Nat.eqb_spec t t') as [<-|N].
    + rewrite Ht in H. injection H as <-. auto.
    + destruct (A t' p' H) as [->|[-> _]]; [auto|congruence].
  - right. rewrite nth_set_nth', Nat.eqb_refl, Ht. reflexivity.
Qed.
Lemma tally_snoc outs t o : tally (outs ++ [(t, o)]) = one_call (tally outs) (t, o).
Proof. unfold tally. now rewrite fold_left_app. Qed.

Lemma ok_client c q t p o info q' : is_active q t p -> nth_error (q_thr q) t = Some p -> good p q ->
  client_step c q t p o info = Some q' -> ok_race q'.
Proof.
  intros A Ht G H.
  assert (FIN : forall p1, q_thr q' = set_nth (q_thr q) t p1 -> good p1 q' -> ok_race q').
  { intros p1 E G'. exists t, p1. split; [|exact G']. eapply active_pc; eauto. }
  unfold good in G. destruct (tally (q_out q)) as [[oo kk] n] eqn:ET. destruct G as (Gc & Gs & Gp).
  destruct p; cbn [client_step] in H; try discriminate.
  - (* OCheck *) injection H as <-. destruct (q_attr q) as [k|] eqn:Ea; eapply FIN; try reflexivity; unfold good; cbn; rewrite ET; repeat split; auto; unfold no_sb, one_sb in *; cbn; intuition congruence.
  - (* OMake *) injection H as <-. destruct Gp as [[G1 G2] G3]. eapply FIN; [reflexivity|]. unfold good; cbn. rewrite ET. repeat split; auto; cbn; rewrite ?app_length, ?G2; reflexivity.
  - (* OLoad *) destruct (q_attr q) eqn:Ea; [|discriminate]. injection H as <-. eapply FIN; [reflexivity|]. unfold good; cbn; rewrite ET; repeat split; auto; apply Gp.
  - (* OStart *) destruct (sb_do c q k LStart) as [q1|] eqn:E; [|discriminate]. injection H as <-. destruct (sb_do_spec _ _ _ _ _ E) as (X1 & X2 & X3 & X4 & X5 & X6 & X7).
    eapply FIN; [cbn; rewrite X3; reflexivity|]. unfold good; cbn. rewrite X4, ET. unfold stops in *; cbn in *. unfold one_sb in *; cbn. rewrite X1, X2, X5, X7. repeat split; try lia; apply Gp.
  - (* OStarting *) destruct (sb_do c q k (LS o info)) as [q1|] eqn:E; [|discriminate]. destruct (sb_do_spec _ _ _ _ _ E) as (X1 & X2 & X3 & X4 & X5 & X6 & X7).
    destruct (nth_error (q_sbs q1) k) as [s'|]; [|discriminate]. destruct (lock_free s'); [destruct (raised s')|]; injection H as <-.
    + eapply FIN; [cbn; rewrite X3; reflexivity|]. unfold good; cbn. rewrite tally_snoc, X4, ET. unfold stops in *; cbn in *. unfold no_sb, one_sb in *; cbn. rewrite X1, X2, X5, X7. repeat split; try lia. right. apply Gp.
    + eapply FIN; [cbn; rewrite X3; reflexivity|]. unfold good; cbn. rewrite X4, ET. unfold stops in *; cbn in *. unfold one_sb in *; cbn. rewrite X1, X2, X5, X7. repeat split; try lia; apply Gp.
    + exists t, (OStarting k n0 st ig). split; [unfold is_active; rewrite X3; exact A|]. unfold good; cbn. rewrite X4, ET. unfold stops in *; cbn in *. unfold one_sb in *; cbn. rewrite X1, X2, X5, X7. repeat split; try lia; apply Gp.
  - (* OLoad2 *) destruct (q_attr q) eqn:Ea; [|discriminate]. injection H as <-. eapply FIN; [reflexivity|]. unfold good; cbn; rewrite ET; repeat split; auto; apply Gp.
  - (* OMk *) destruct (sb_do c q k _) as [q1|] eqn:E; [|discriminate]. destruct (sb_do_spec _ _ _ _ _ E) as (X1 & X2 & X3 & X4 & X5 & X6 & X7).
    destruct (nth_error (q_sbs q1) k) as [s'|]; [|discriminate]. destruct (last _ _) as [| | | | | | | | | |[r|e]| | | | | |]; try discriminate; injection H as <-.
    + eapply FIN; [cbn; rewrite X3; reflexivity|]. unfold good; cbn. rewrite X4, ET. unfold stops in *; cbn in *. unfold one_sb in *; cbn. rewrite X1, X2, X5, X7. repeat split; try lia; apply Gp.
    + eapply FIN; [cbn; rewrite X3; reflexivity|]. unfold good; cbn. rewrite tally_snoc, X4, ET. unfold stops in *; cbn in *. unfold no_sb, one_sb in *; cbn. rewrite X1, X2, X5, X7. repeat split; try lia. right. apply Gp.
  - (* OCount *) injection H as <-. eapply FIN; [reflexivity|]. unfold good; cbn; rewrite ET; repeat split; auto; apply Gp.
  - (* OAdd *) injection H as <-. destruct Gp as [Gp ->]. eapply FIN; [reflexivity|]. unfold good; cbn; rewrite tally_snoc, ET. cbn. unfold stops in *; cbn in *. split; [lia|]. split; [lia|]. right; exact Gp.
  - (* KCount *) injection H as <-. eapply FIN; [reflexivity|]. unfold good; cbn; rewrite ET. split; [exact Gc|]. split; [exact Gs|]. split; [exact Gp|reflexivity].
  - (* KSub *) injection H as <-. destruct Gp as [Gp ->]. eapply FIN; [reflexivity|]. unfold good; cbn; rewrite ET. unfold stops in *; cbn in *. split; [lia|]. split; [lia|]. exact Gp.
  - (* KTest *) destruct (Z.leb_spec (q_open q) 0); injection H as <-.
    + eapply FIN; [reflexivity|]. unfold good; cbn; rewrite ET. split; [exact Gc|]. split; [exact Gs|]. split; [exact Gp|assumption].
    + eapply FIN; [reflexivity|]. unfold good; cbn; rewrite tally_snoc, ET. cbn. destruct (Z.leb_spec oo (kk + 1)); [lia|]. unfold stops in *; cbn in *. split; [lia|]. split; [lia|]. right; exact Gp.
  - (* KExit *) destruct Gp as [Gp L]. destruct (q_attr q) eqn:Ea; injection H as <-.
    + eapply FIN; [reflexivity|]. unfold good; cbn; rewrite ET; repeat split; auto; unfold no_sb, one_sb in *; cbn; intuition congruence.
    + unfold one_sb in Gp. intuition congruence.
  - (* KStop *) destruct Gp as [Gp L]. destruct (sb_do c q j LStop) as [q1|] eqn:E; [|discriminate]. destruct (sb_do_spec _ _ _ _ _ E) as (X1 & X2 & X3 & X4 & X5 & X6 & X7).
    destruct (nth_error (q_sbs q1) j) as [s'|]; [|discriminate].
    assert (NB : forall q2, q2 = set_pc q1 t (KStopping k r j) -> ok_race q2).
    { intros q2 ->. exists t, (KStopping k r j). split; [eapply active_pc; eauto; cbn; now rewrite X3|]. unfold good; cbn. rewrite X4, ET. unfold stops in *; cbn in *. unfold one_sb in *; cbn. rewrite X1, X2, X5, X7. repeat split; try lia; apply Gp. }
    destruct (last _ _) as [| | | | | | | |[x|e]| | | | | | | |]; injection H as <-; auto.
    eapply FIN; [cbn; rewrite X3; reflexivity|]. unfold good; cbn. rewrite tally_snoc, X4, ET. cbn. destruct (Z.leb_spec oo (kk + 1)); [|lia].
    unfold stops in *; cbn in *. unfold no_sb, one_sb in *; cbn. rewrite X1, X2, X5, X7. repeat split; try lia. right. apply Gp.
  - (* KStopping *) destruct Gp as [Gp L]. destruct (sb_do c q j LStopRet) as [q1|] eqn:E; [|discriminate]. destruct (sb_do_spec _ _ _ _ _ E) as (X1 & X2 & X3 & X4 & X5 & X6 & X7).
    injection H as <-. eapply FIN; [cbn; rewrite X3; reflexivity|]. unfold good; cbn. rewrite tally_snoc, X4, ET. cbn. destruct (Z.leb_spec oo (kk + 1)); [|lia].
    unfold stops in *; cbn in *. unfold no_sb, one_sb in *; cbn. rewrite X1, X2, X5, X7. repeat split; try lia. right. apply Gp.
Qed.

Lemma opened_pos outs : let '(o, _, _) := tally outs in
  (0 <= o)%Z /\ (forall p, In p outs -> match snd p with GotReader _ _ => True | _ => False end -> (1 <= o)%Z).
Proof.
  induction outs as [|[t x] outs IH] using rev_ind.
  - cbn. split; [lia|]. intros p [].
  - rewrite tally_snoc. destruct (tally outs) as [[o k] n]. destruct IH as [I1 I2]. cbn.
    destruct x; (split; [lia|]); intros p Hin Hp; apply in_app_iff in Hin as [Hin|[<-|[]]]; cbn in Hp; try easy; try lia; specialize (I2 p Hin Hp); lia.
Qed.
Lemma ok_step c q l q' : ok_race q -> (match l with QCall _ _ => nobody q | _ => True end) -> race_step c q l = Some q' -> ok_race q'.
Proof.
  intros (t & p & A & G) NB H. destruct l as [t1 cl|t1 o info|k l]; cbn [race_step] in H.
  - assert (p = CIdle) as ->. { destruct A as [_ [A|A]]; [exact A|]. exact (NB t p A). }
    destruct (nth_error (q_thr q) t1) as [p1|] eqn:E; [|discriminate]. pose proof (NB t1 p1 E) as ->.
    assert (A1 : is_active q t1 CIdle).
    { split; [|now left]. intros t' p' H'. left. exact (NB t' p' H'). }
    unfold good in G. pose proof (opened_pos (q_out q)) as OP. destruct (tally (q_out q)) as [[oo kk] n] eqn:ET. destruct G as (Gc & Gs & Gp).
    destruct cl as [n1 st ig|k r].
    + injection H as <-. exists t1, (OCheck n1 st ig). split; [eapply active_pc; eauto|]. unfold good. cbn. rewrite ET. auto.
    + destruct (returned q k r) eqn:R; [|discriminate]. injection H as <-. exists t1, (KCount k r). split; [eapply active_pc; eauto|]. unfold good. cbn. rewrite ET.
      split; [lia|]. split; [exact Gs|]. destruct Gp as [[_ G0]|Gp]; [|exact Gp]. exfalso.
      unfold returned in R. apply existsb_exists in R as (x & Hin & Hx). destruct OP as [_ OP]. specialize (OP x Hin).
      destruct (snd x); try discriminate. specialize (OP I). lia.
  - destruct (nth_error (q_thr q) t1) as [p1|] eqn:E; [|discriminate]. destruct A as [A1 A2] eqn:EA. destruct (A1 t1 p1 E) as [->|[-> ->]]; [discriminate|].
    eapply ok_client; eauto.
  - destruct (is_bg l) eqn:B; [|discriminate]. destruct (sb_do_spec _ _ _ _ _ H) as (X1 & X2 & X3 & X4 & X5 & X6 & X7).
    exists t, p. split; [unfold is_active in *; now rewrite X3|].
    assert (stops q' = stops q) as X8 by (rewrite X7; destruct l; try discriminate; lia).
    unfold good in *. rewrite X4. destruct (tally (q_out q)) as [[oo kk] n]. rewrite X1, X8.
    unfold no_sb, one_sb in *. rewrite X2, X5. exact G.
Qed.
Lemma ok_start m : ok_race (race0 m).
Proof.
  exists 0, CIdle. split.
  - split; [|now left]. intros t p H. left. apply nth_error_In, repeat_spec in H. exact H.
  - unfold good. cbn. repeat split. left. repeat split.
Qed.

(** ** C87 *)
(** Calls one at a time: there is at most one StreamBuffer, [_open_readers] counts the readers
    that are open, and stop() is called exactly by the close() calls that leave no reader open. *)
Theorem C87_one_at_a_time_partial :
  forall c m ls q, race_history c m ls q -> one_at_a_time c m ls -> nobody q ->
  let '(opened, closed, last_closes) := tally (q_out q) in
  length (q_sbs q) <= 1 /\ q_open q = (opened - closed)%Z /\ stops q = last_closes.
Proof.
  intros c m ls q H O NB.
  assert (OK : ok_race q).
  { clear NB. unfold race_history in H.
    assert (S : forall ls2 ls1 q1, ls = ls1 ++ ls2 -> race_history c m ls1 q1 -> ok_race q1 -> race_run c q1 ls2 = Some q -> ok_race q).
    { induction ls2 as [|l ls2 IH]; intros ls1 q1 E H1 K1 R; cbn in R; [now injection R as <-|].
      destruct (race_step c q1 l) as [q2|] eqn:Es; [|discriminate].
      apply (IH (ls1 ++ [l]) q2); [now rewrite <- app_assoc| | |exact R].
      - unfold race_history in *. clear - H1 Es. revert H1. generalize (race0 m). induction ls1 as [|x ls1 IH]; intros q0 H1; cbn in *.
        + injection H1 as ->. now rewrite Es.
        + destruct (race_step c q0 x); [now apply IH|discriminate].
      - eapply ok_step; eauto. destruct l; auto. eapply O; eauto. }
    apply (S ls [] (race0 m)); auto; [reflexivity|apply ok_start]. }
  destruct OK as (t & p & A & G). assert (p = CIdle) as ->. { destruct A as [_ [A|A]]; [exact A|]. exact (NB t p A). }
  unfold good in G. destruct (tally (q_out q)) as [[oo kk] n]. destruct G as (Gc & Gs & Gp).
  unfold no_sb, one_sb in Gp. repeat split; [|lia|lia]. destruct Gp as [[[_ ->] _]|[_ ->]]; lia.
Qed.
Print Assumptions C87_one_at_a_time_partial.

(** Data for the example and the witnesses. *)
Definition rcfg : cfg := MkCfg (fun x => Ok x) (Some 100%Z) (PBool true).
Definition go (t : nat) : qlabel := QStep t (Ok tt) (Ok PNone).
Definition openr (t : nat) : qlabel := QCall t (CallOpen 1 false false).
Definition look_race {A} (f : race -> A) x a : option_map f x = Some a -> exists q : race, x = Some q /\ f q = a.
Proof. destruct x as [q|]; [|discriminate]. cbn. intro E. injection E as E. eauto. Qed.
Definition idle_b (q : race) : bool := forallb (fun p => match p with CIdle => true | _ => false end) (q_thr q).
Lemma idle_nobody q : idle_b q = true -> nobody q.
Proof. unfold idle_b. rewrite forallb_forall. intros H t p E. apply nth_error_In, H in E. now destruct p. Qed.
Definition w_serial : list qlabel :=
  openr 0 :: repeat (go 0) 15 ++ openr 1 :: repeat (go 1) 5 ++ QCall 0 (CallClose 0 0) :: repeat (go 0) 3 ++ QCall 0 (CallClose 0 1) :: repeat (go 0) 6.
Definition serial_b (c : cfg) : race -> list qlabel -> bool :=
  fix f q ls := match ls with
                | [] => true
                | l :: ls' => (match l with QCall _ _ => idle_b q | _ => true end) && match race_step c q l with Some q' => f q' ls' | None => true end
                end.
Lemma serial_sound c ls : forall q, serial_b c q ls = true -> forall ls1 t cl ls2 q1, ls = ls1 ++ QCall t cl :: ls2 -> race_run c q ls1 = Some q1 -> nobody q1.
Proof.
  induction ls as [|l ls IH]; intros q H ls1 t cl ls2 q1 E R; [now destruct ls1|]. cbn in H. apply andb_prop in H as [H1 H2].
  destruct ls1 as [|x ls1]; cbn in E, R.
  - injection R as <-. injection E as -> ->. now apply idle_nobody.
  - injection E as <- ->. destruct (race_step c q l) as [q2|]; [|discriminate]. eapply IH; eauto.
Qed.
Example C87_nonvacuous :
  exists q, race_history rcfg 2 w_serial q /\ one_at_a_time rcfg 2 w_serial /\ nobody q /\
    q_out q = [(0, GotReader 0 0); (1, GotReader 0 1); (0, ClosedOk 0 0); (0, ClosedOk 0 1)] /\ tally (q_out q) = (2%Z, 2%Z, 1) /\ stops q = 1.
Proof.
  destruct (look_race (fun q => (idle_b q, q_out q, stops q)) (race_run rcfg (race0 2) w_serial)
    (true, [(0, GotReader 0 0); (1, GotReader 0 1); (0, ClosedOk 0 0); (0, ClosedOk 0 1)], 1)) as (q & E & O); [vm_compute; reflexivity|].
  injection O as O1 O2 O3. exists q. split; [exact E|]. split; [exact (serial_sound rcfg w_serial (race0 2) eq_refl)|].
  split; [now apply idle_nobody|]. rewrite O2. auto.
Qed.

(** StreamBuffer [k] is running. *)
Definition is_running_sb (q : race) (k : nat) : bool := match nth_error (q_sbs q) k with Some s => is_running s | None => false end.
(** Two threads open a reader each, the counter loses one of them; closing the first reader
    stops the stream of the second. *)
Theorem C87_lost_reader_refuted :
  exists c ls q, race_history c 2 ls q /\ nobody q /\
    q_out q = [(0, GotReader 0 0); (1, GotReader 0 1); (0, ClosedOk 0 0)] /\ stops q = 1 /\ is_running_sb q 0 = false.
Proof.
  destruct (look_race (fun q => (idle_b q, q_out q, stops q, is_running_sb q 0))
    (race_run rcfg (race0 2) (openr 0 :: repeat (go 0) 13 ++ openr 1 :: repeat (go 1) 3 ++ [go 0; go 1; go 0; go 1] ++ QCall 0 (CallClose 0 0) :: repeat (go 0) 6))
    (true, [(0, GotReader 0 0); (1, GotReader 0 1); (0, ClosedOk 0 0)], 1, false)) as (q & E & O); [vm_compute; reflexivity|].
  injection O as O1 O2 O3 O4. exists rcfg. eexists. exists q. split; [exact E|]. split; [now apply idle_nobody|]. auto.
Qed.
Print Assumptions C87_lost_reader_refuted.
(** Two readers closed by two threads at the same time: the stream is never stopped. *)
Theorem C87_never_stopped_refuted :
  exists c ls q, race_history c 2 ls q /\ nobody q /\
    q_out q = [(0, GotReader 0 0); (1, GotReader 0 1); (0, ClosedOk 0 0); (1, ClosedOk 0 1)] /\ stops q = 0 /\ is_running_sb q 0 = true.
Proof.
  destruct (look_race (fun q => (idle_b q, q_out q, stops q, is_running_sb q 0))
    (race_run rcfg (race0 2) (openr 0 :: repeat (go 0) 15 ++ openr 1 :: repeat (go 1) 5 ++
       [QCall 0 (CallClose 0 0); QCall 1 (CallClose 0 1); go 0; go 1; go 0; go 1; go 0; go 1]))
    (true, [(0, GotReader 0 0); (1, GotReader 0 1); (0, ClosedOk 0 0); (1, ClosedOk 0 1)], 0, true)) as (q & E & O); [vm_compute; reflexivity|].
  injection O as O1 O2 O3 O4. exists rcfg. eexists. exists q. split; [exact E|]. split; [now apply idle_nobody|]. auto.
Qed.
Print Assumptions C87_never_stopped_refuted.
(** The second open_reader() call raises StreamNotStartedError because the first has not
    finished starting the stream. *)
Theorem C87_not_started_yet_refuted :
  exists c ls q, race_history c 2 ls q /\ nobody q /\
    q_out q = [(1, Failed StreamNotStartedError); (0, GotReader 0 0)] /\ is_running_sb q 0 = true.
Proof.
  destruct (look_race (fun q => (idle_b q, q_out q, is_running_sb q 0))
    (race_run rcfg (race0 2) (openr 0 :: repeat (go 0) 3 ++ openr 1 :: repeat (go 1) 3 ++ repeat (go 0) 12))
    (true, [(1, Failed StreamNotStartedError); (0, GotReader 0 0)], true)) as (q & E & O); [vm_compute; reflexivity|].
  injection O as O1 O2 O3. exists rcfg. eexists. exists q. split; [exact E|]. split; [now apply idle_nobody|]. auto.
Qed.
Print Assumptions C87_not_started_yet_refuted.
(** Two first calls at once start two StreamBuffers on the one source: it is opened twice, and
    after all readers have been closed, and StreamBuffer 1 has ended and closed the source, the
    thread of StreamBuffer 0, which nobody can reach, goes on reading it. *)
Theorem C87_two_streams_refuted :
  exists c ls q, race_history c 2 ls q /\ nobody q /\
    q_out q = [(0, GotReader 1 0); (1, GotReader 1 1); (0, ClosedOk 1 0); (1, ClosedOk 1 1)] /\
    is_running_sb q 0 = true /\ is_running_sb q 1 = false /\ q_attr q = Some 1 /\
    filter (fun e => match snd e with EOpen _ _ | EClose _ _ | ERead _ _ => true | _ => false end) (q_src q) =
      [(0, EOpen 0 (Ok tt)); (1, EOpen 0 (Ok tt)); (1, EClose 0 (Ok tt)); (0, ERead 0 (Ok (PInt 1)))].
Proof.
  destruct (look_race (fun q => (idle_b q, q_out q, is_running_sb q 0, is_running_sb q 1, q_attr q,
      filter (fun e => match snd e with EOpen _ _ | EClose _ _ | ERead _ _ => true | _ => false end) (q_src q)))
    (race_run rcfg (race0 2) ([openr 0; openr 1; go 0; go 1] ++ repeat (go 0) 10 ++ repeat (go 1) 10 ++ repeat (go 0) 4 ++ repeat (go 1) 4 ++
       QCall 0 (CallClose 1 0) :: repeat (go 0) 3 ++ QCall 1 (CallClose 1 1) :: repeat (go 1) 6 ++
       repeat (QBg 1 (LT 0 (Ok PNone))) 3 ++ repeat (QBg 0 (LT 0 (Ok (PInt 1)))) 3))
    (true, [(0, GotReader 1 0); (1, GotReader 1 1); (0, ClosedOk 1 0); (1, ClosedOk 1 1)], true, false, Some 1,
     [(0, EOpen 0 (Ok tt)); (1, EOpen 0 (Ok tt)); (1, EClose 0 (Ok tt)); (0, ERead 0 (Ok (PInt 1)))])) as (q & E & O); [vm_compute; reflexivity|].
  injection O as O1 O2 O3 O4 O5 O6. exists rcfg. eexists. exists q. split; [exact E|]. split; [now apply idle_nobody|]. auto.
Qed.
Print Assumptions C87_two_streams_refuted.
(** One thread has its reader of StreamBuffer 0 when the other makes StreamBuffer 1: the last
    close() is that of the reader of StreamBuffer 0, and it stops StreamBuffer 1. *)
Theorem C87_stops_the_wrong_stream_refuted :
  exists c ls q, race_history c 2 ls q /\ nobody q /\
    q_out q = [(0, GotReader 0 0); (1, GotReader 1 0); (1, ClosedOk 1 0); (0, ClosedOk 0 0)] /\ stops q = 1 /\
    is_running_sb q 0 = true /\ is_running_sb q 1 = false.
Proof.
  destruct (look_race (fun q => (idle_b q, q_out q, stops q, is_running_sb q 0, is_running_sb q 1))
    (race_run rcfg (race0 2) ([openr 0; openr 1; go 0; go 1] ++ repeat (go 0) 14 ++ repeat (go 1) 14 ++
       QCall 1 (CallClose 1 0) :: repeat (go 1) 3 ++ QCall 0 (CallClose 0 0) :: repeat (go 0) 6))
    (true, [(0, GotReader 0 0); (1, GotReader 1 0); (1, ClosedOk 1 0); (0, ClosedOk 0 0)], 1, true, false)) as (q & E & O); [vm_compute; reflexivity|].
  injection O as O1 O2 O3 O4 O5. exists rcfg. eexists. exists q. split; [exact E|]. split; [now apply idle_nobody|]. auto.
Qed.
Print Assumptions C87_stops_the_wrong_stream_refuted.
