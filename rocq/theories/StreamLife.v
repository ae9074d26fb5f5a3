(** * The life of the reading threads *)
From Coq Require Import List ZArith Bool Arith Lia.
From Verif Require Import PyVal PyLib PyValFacts SortedDequeM Spec SpecDeque DequeFacts DequeSearch
  BufferReaderM BufferSysM LogFacts LogReads StreamBufferM SpecStream StreamFacts.
Import ListNotations.

Definition ph (p : tpc) : phase :=
  match p with
  | TNew | TCheck | TGate | TLen _ | TRead | TSleep => PhLoop
  | TAppend x | TPut _ x => PhGot x
  | TFinCheck None | TFinSet None | TClose None => PhLoop
  | TFinCheck (Some e) | TFinSet (Some e) | TClose (Some e) => PhEnding e
  | TDone e => PhClosed e
  end.
Definition life_inv (s : sb) (k : nat) : Prop :=
  match nth_error (sb_ss s) k with
  | Some e => life k (thread_events k (sb_tr s)) (ph (se_pc e)) /\ (se_pc e = TNew -> thread_events k (sb_tr s) = [])
  | None => thread_events k (sb_tr s) = []
  end.
Lemma te_snoc k tr e : thread_events k (tr ++ [e]) = thread_events k tr ++ (if by_thread k e then [e] else []).
Proof. unfold thread_events. rewrite filter_app. cbn. now destruct (by_thread k e). Qed.
Lemma step_other_events c s l s' k : sb_step c s l = Some s' -> (forall o, l <> LT k o) ->
  thread_events k (sb_tr s') = thread_events k (sb_tr s).
Proof.
  intros H N. step_cases H; injection H as <-; proj; rewrite ?te_snoc; cbn [by_thread]; rewrite ?app_nil_r; auto;
    try (destruct (Nat.eqb_spec i k); [subst; exfalso; eapply N; reflexivity|now rewrite app_nil_r]).
Qed.
Lemma life_step c s l s' k : sinv s -> life_inv s k -> sb_step c s l = Some s' -> life_inv s' k.
Proof.
  intros I L H. unfold life_inv in *.
  assert (D : (exists o, l = LT k o) \/ forall o, l <> LT k o).
  { destruct l as [| | | | | | | | | | | | | |i o]; try (right; discriminate). destruct (Nat.eq_dec i k) as [->|N]; [eauto|].
    right. intros o' E. congruence. }
  destruct D as [[o ->]|N].
  2:{ rewrite (step_other_events c s l s' k H N). destruct (nth_error (sb_ss s) k) as [e|] eqn:Ek.
      - destruct (step_frame c s l s' H k e Ek) as (e' & Ek' & P & _). rewrite Ek'. destruct L as [L1 L2].
        destruct P as [->|[[o ->]|(SS & -> & -> & _)]]; [auto|exfalso; eapply N; reflexivity|].
        split; [|discriminate]. pose proof (si_new _ I) as X. rewrite SS in X. destruct X as (e1 & X1 & X2).
        assert (e1 = e) by congruence. subst e1. rewrite X2 in *. exact L1.
      - destruct (nth_error (sb_ss s') k) as [e'|] eqn:Ek'; [|assumption].
        destruct (step_new c s l s' H k e' Ek') as [(e0 & X)|(_ & -> & _)]; [congruence|]. rewrite L. cbn. split; [constructor|auto]. }
  cbn in H. destruct (nth_error (sb_ss s) k) as [e|] eqn:Ek; [|discriminate].
  destruct L as [L _].
  unfold thread_step in H. destruct (se_pc e) eqn:Ep; cbn zeta in H;
    repeat match type of H with
    | Some _ = Some _ => fail 1
    | (match ?x with _ => _ end) = _ => let E := fresh "E" in destruct x eqn:E in H; try discriminate H; cbn zeta in H
    end; try discriminate H; injection H as <-; proj; rewrite ?nth_upd, ?Ek, ?Nat.eqb_refl; 
    repeat match goal with |- context [Nat.eqb ?a k] => destruct (Nat.eqb a k) end; cbn [option_map w_pc w_set w_buf se_pc];
    rewrite ?te_snoc; cbn [by_thread ph] in *; rewrite ?Nat.eqb_refl;
    (split; [|intro X; repeat match type of X with context [match ?x with _ => _ end] => destruct x end; discriminate X]).
  all: repeat match goal with |- context [if ?b then _ else _] => destruct b eqn:? end; cbn [ph]; auto.
  all: try (constructor; assumption).
  - destruct a; try discriminate. now constructor.
  - constructor; [|assumption]. intros ->. discriminate.
  - econstructor; eassumption.
  - destruct r as [[]|]; cbn [ph]; econstructor; eassumption.
  - destruct r as [[]|]; cbn [ph]; econstructor; eassumption.
  - destruct e0; econstructor; eassumption.
Qed.
Lemma life_all c ls s : history c ls s -> forall k, life_inv s k.
Proof.
  intro H. revert ls s H. apply (sb_ind c (fun _ s => forall k, life_inv s k)).
  - intro k. unfold life_inv. cbn. now destruct k.
  - intros ls s l s' Hh IH H k. eapply life_step; eauto using sinv_history.
Qed.

(** ** Consequences of the grammar *)
Lemma excused_mono i t e v x : excused i t e v -> excused i (t ++ [x]) e v.
Proof. intros [(j & H)|H]; [left; exists j|right]; apply in_or_app; auto. Qed.
Lemma life_data i t p : life i t p -> exists rest, data_read i t = appended_ok i t ++ rest /\
  match p with
  | PhLoop | PhClosed None => rest = []
  | PhGot v => rest = [v]
  | PhEnding e | PhClosed (Some e) => rest = [] \/ exists v, rest = [v] /\ excused i t e v
  end.
Proof.
  unfold data_read, appended_ok.
  induction 1; rewrite ?flat_map_app; cbn [flat_map app is_none negb andb]; rewrite ?Nat.eqb_refl, ?app_nil_r; cbn [andb];
    [exists []; auto|destruct IHlife as (rest & E & R)..].
  - exists rest. auto.
  - exists (rest ++ [v]). subst rest. replace (is_none v) with false by (now destruct v). cbn. rewrite E, !app_nil_r. auto.
  - exists rest. auto.
  - exists rest. auto.
  - exists []. subst rest. rewrite app_nil_r. auto.
  - exists rest. split; [assumption|]. right. exists v. split; [assumption|]. left. exists j. apply in_or_app. right. now left.
  - exists rest. split; [assumption|]. right. exists v. split; [assumption|]. right. apply in_or_app. right. now left.
  - exists rest. auto.
  - exists rest. split; [assumption|]. destruct R as [R|(v & R & X)]; [auto|]. right. exists v. split; [assumption|]. now apply excused_mono.
  - exists rest. auto.
Qed.
Lemma life_close i t p : life i t p ->
  match p with
  | PhClosed _ => exists t0 u, t = t0 ++ [EClose i u] /\ count (is_close_of i) t0 = 0
  | _ => count (is_close_of i) t = 0
  end.
Proof.
  unfold count. induction 1; rewrite ?filter_app; cbn [filter is_close_of]; rewrite ?app_nil_r; auto; eauto.
Qed.
(* the events of a thread, from the whole trace *)
Lemma data_read_te i tr : data_read i (thread_events i tr) = data_read i tr.
Proof.
  unfold data_read, thread_events. induction tr as [|e tr IH]; [reflexivity|]. cbn [filter flat_map].
  destruct (by_thread i e) eqn:B; cbn [flat_map]; rewrite IH; [reflexivity|].
  destruct e as [| | | |j o| | | | | | | | | | | |]; try reflexivity. cbn in B. rewrite B. now destruct o.
Qed.
Lemma appended_ok_te i tr : appended_ok i (thread_events i tr) = appended_ok i tr.
Proof.
  unfold appended_ok, thread_events. induction tr as [|e tr IH]; [reflexivity|]. cbn [filter flat_map].
  destruct (by_thread i e) eqn:B; cbn [flat_map]; rewrite IH; [reflexivity|].
  destruct e as [| | | | |j k x o| | | | | | | | | | |]; try reflexivity. cbn in B. rewrite B. now destruct o.
Qed.
Lemma filter_filter_sub {A} (f g : A -> bool) l : (forall x, f x = true -> g x = true) -> filter f (filter g l) = filter f l.
Proof.
  intro H. induction l as [|x l IH]; [reflexivity|]. cbn. destruct (g x) eqn:G; cbn; rewrite IH; [reflexivity|].
  destruct (f x) eqn:F; [|reflexivity]. rewrite (H x F) in G. discriminate.
Qed.
Lemma count_close_te i tr : count (is_close_of i) (thread_events i tr) = count (is_close_of i) tr.
Proof. unfold count, thread_events. rewrite filter_filter_sub; [reflexivity|]. intros []; cbn; auto; discriminate. Qed.
Lemma count_te f i tr : (forall e, f e = true -> by_thread i e = true) -> count f (thread_events i tr) = count f tr.
Proof. intro H. unfold count, thread_events. now rewrite filter_filter_sub. Qed.
Lemma count_app f a b : count f (a ++ b) = count f a + count f b.
Proof. unfold count. now rewrite filter_app, app_length. Qed.

(** ** Drops inside the writer section *)
Lemma dropping_cons s j p k : dropping (set_in s ((j, p) :: out_of (sb_in s) j)) k = if Nat.eqb j k then Some p else dropping s k.
Proof.
  unfold dropping. cbn [set_in sb_in find fst]. destruct (Nat.eqb_spec j k) as [->|N]; [reflexivity|]. f_equal. unfold out_of.
  induction (sb_in s) as [|[a q] l IH]; [reflexivity|]. cbn [filter find fst]. destruct (Nat.eqb_spec a j) as [->|M]; cbn [negb find fst].
  - destruct (Nat.eqb_spec j k); [contradiction|]. exact IH.
  - destruct (Nat.eqb a k); [reflexivity|exact IH].
Qed.
Lemma dropping_out q j k : option_map snd (find (fun p => Nat.eqb (fst p) k) (out_of q j)) = if Nat.eqb j k then None else option_map snd (find (fun p => Nat.eqb (fst p) k) q).
Proof.
  unfold out_of. induction q as [|[a p] l IH]; [now destruct (Nat.eqb j k)|]. cbn [filter find fst]. destruct (Nat.eqb_spec a j) as [->|M]; cbn [negb find fst].
  - rewrite IH. destruct (Nat.eqb_spec j k); reflexivity.
  - destruct (Nat.eqb_spec a k) as [->|]; [|exact IH]. destruct (Nat.eqb_spec j k); [congruence|reflexivity].
Qed.
(** A drop that is inside is one of the calls under way, and has removed no more than it was
    asked to, and no more than there was. *)
Definition dinv (s : sb) : Prop := forall j n k, dropping s j = Some (n, k) ->
  In (j, n) (sb_dr s) /\ k <= Z.to_nat n /\ exists d, buf_of s j = Some d /\ k <= sd_len d.
Lemma removed_in {A} (l : list A) m x y : nth_error l m = Some y -> In x l -> x <> y -> In x (firstn m l ++ skipn (S m) l).
Proof.
  revert m. induction l as [|a l IH]; intros [|m] E I N; cbn in E; try discriminate.
  - injection E as ->. destruct I as [->|I]; [contradiction|exact I].
  - cbn [firstn skipn app]. destruct I as [->|I]; [now left|]. right. now apply IH.
Qed.
Lemma gone_none s j : dropping s j = None -> gone s j = 0.
Proof. unfold gone. now intros ->. Qed.
Lemma dropping_eq s s' : sb_in s' = sb_in s -> forall j, dropping s' j = dropping s j.
Proof. unfold dropping. now intros ->. Qed.
(** How the drops inside change. *)
Lemma step_in c s l s' : sb_step c s l = Some s' ->
  (sb_in s' = sb_in s /\ (forall m, l <> LDropDo m)) \/
  (exists m j n, l = LDropIn m /\ nth_error (sb_dr s) m = Some (j, n) /\ dropping s j = None /\ s' = set_in s ((j, (n, 0)) :: sb_in s)) \/
  (exists j n k d, l = LDropOne j /\ dropping s j = Some (n, k) /\ buf_of s j = Some d /\ k < Z.to_nat n /\ k < sd_len d /\ s' = set_in s ((j, (n, S k)) :: out_of (sb_in s) j)) \/
  (exists m j n d, l = LDropDo m /\ nth_error (sb_dr s) m = Some (j, n) /\ (forall n' k, dropping s j = Some (n', k) -> n' = n) /\ buf_of s j = Some d /\
     sb_dr s' = firstn m (sb_dr s) ++ skipn (S m) (sb_dr s) /\ sb_in s' = out_of (sb_in s) j /\ buf_of s' j = Some (fst (sd_drop d n))).
Proof.
  intro H. step_cases H; injection H as <-; subst l; try (left; split; [reflexivity|discriminate]; fail).
  - right. left. subst. eauto 9.
  - right. right. left. subst. match goal with X : (_ <? _) = true |- _ => apply Nat.ltb_lt in X end. do 4 eexists. split; [reflexivity|]. split; [eassumption|]. split; [eassumption|]. split; [|split; [|reflexivity]]; lia.
  - right. right. right. subst. do 4 eexists. split; [reflexivity|]. split; [eassumption|]. split; [|split; [eassumption|split; [reflexivity|split; [reflexivity|]]]].
    + intros n' k' X. match goal with Y : (if _ then _ else _) = true |- _ => rewrite X in Y | Y : match dropping _ _ with _ => _ end = true |- _ => rewrite X in Y; now apply Z.eqb_eq in Y end.
    + match goal with Y : sd_drop _ _ = _ |- _ => rewrite Y end. unfold buf_of in *. proj. rewrite nth_upd, Nat.eqb_refl. destruct (nth_error (sb_ss s) n); [reflexivity|discriminate].
Qed.
Lemma dropping_frozen c s l s' j n k : StreamFacts.sinv s -> sb_step c s l = Some s' -> dropping s j = Some (n, k) ->
  (forall m, l = LDropDo m -> exists j' n', nth_error (sb_dr s) m = Some (j', n') /\ j' <> j) -> forall d, buf_of s j = Some d -> buf_of s' j = Some d.
Proof.
  intros I H E ND d Ed. destruct (step_buf c s l s' I H j) as [[X _]|[(d1 & o & W & _)|(d0 & o & v & _ & _ & _ & X & _)]]; [congruence| |congruence].
  exfalso. destruct W as [(i & o1 & e & x & -> & He & Pe)|(m & n1 & -> & Em)].
  - cbn in H. rewrite He, Pe in H. cbn in H. rewrite E in H. discriminate.
  - destruct (ND m eq_refl) as (j' & n' & X & N). congruence.
Qed.
Lemma dinv_step c s l s' : StreamFacts.sinv s -> dinv s -> sb_step c s l = Some s' -> dinv s'.
Proof.
  intros I D H j n k E. destruct (step_in c s l s' H) as [[EI ND]|[(m & j0 & n0 & -> & Em & EN & ->)|[(j0 & n0 & k0 & d & -> & Ed & Eb & L1 & L2 & ->)|(m & j0 & n0 & d & -> & Em & Eq & Eb & Edr & Ein & Eb')]]].
  - rewrite (dropping_eq s s' EI) in E. destruct (D j n k E) as (A & B & d & Ed & Ld). split.
    + step_cases H; injection H as <-; proj; auto; subst l; try (exfalso; eapply ND; reflexivity). apply in_or_app. auto.
    + split; [exact B|]. exists d. split; [|exact Ld]. eapply dropping_frozen; eauto. intros m ->. elim (ND m eq_refl).
  - unfold dropping in E, EN. cbn [set_in sb_in find fst] in E. destruct (Nat.eqb_spec j0 j) as [Q|N].
    + subst j0. injection E as <- <-. cbn [set_in sb_dr]. split; [eapply nth_error_In; eauto|]. split; [lia|]. destruct (si_drop _ I j n0 (nth_error_In _ _ Em)) as [[d X] _]. exists d. split; [exact X|lia].
    + exact (D j n k E).
  - rewrite dropping_cons in E. destruct (Nat.eqb_spec j0 j) as [Q|N].
    + subst j0. injection E as <- <-. destruct (D j n0 k0 Ed) as (A & B & _). split; [exact A|]. split; [lia|]. exists d. split; [exact Eb|lia].
    + exact (D j n k E).
  - unfold dropping in E. rewrite Ein, dropping_out in E. destruct (Nat.eqb_spec j0 j) as [Q|N]; [discriminate|]. destruct (D j n k E) as (A & B & d1 & Ed1 & L1).
    split; [rewrite Edr; eapply removed_in; eauto; congruence|]. split; [exact B|]. exists d1. split; [|exact L1].
    eapply dropping_frozen; eauto. intros m' X. injection X as <-. eauto.
Qed.
Lemma dinv_history c ls s : history c ls s -> dinv s.
Proof.
  intro H. revert ls s H. apply (sb_ind c (fun _ s => dinv s)); [intros j n k X; discriminate|].
  intros ls s l s' Hh IH H. eapply dinv_step; eauto. eapply sinv_history; eauto.
Qed.
(** ** Every alive thread can always take its next step, or waits for a drop() that can take its *)
Definition waits_for_drop (s : sb) (k : nat) : Prop := exists j x, thread_is s k (TPut j x) /\ dropping s j <> None.
Lemma alive_steps c ls s k o : history c ls s -> alive s k -> ~ waits_for_drop s k -> exists s', sb_step c s (LT k o) = Some s'.
Proof.
  intros Hh (p & (e & Ek & Ep) & A) W. pose proof (sinv_history c ls s Hh) as I. cbn. rewrite Ek, Ep. unfold thread_step.
  destruct p; try (destruct A; fail); cbn zeta; eauto.
  - destruct (is_True (c_auto c)); [eauto|]. destruct (sb_cur s) as [j|] eqn:Ec; [|eauto].
    eauto.
  - destruct (c_maxlen c); [|eauto]. destruct (si_held _ I k e j Ek (or_introl Ep)) as [[d ->] _]. eauto.
  - destruct o; eauto.
  - destruct (sb_cur s) as [j|] eqn:Ec; eauto.
  - destruct (dropping s j) eqn:Ed; [elim W; exists j, x; split; [exists e; auto|congruence]|].
    destruct (si_held _ I k e j Ek (or_intror (ex_intro _ x Ep))) as [[d ->] _]. destruct (sd_append d x). eauto.
  - destruct o; eauto.
Qed.
Lemma drop_steps c ls s j : history c ls s -> dropping s j <> None -> exists m s', sb_step c s (LDropDo m) = Some s' /\ dropping s' j = None.
Proof.
  intros Hh ND. destruct (dropping s j) as [[n k]|] eqn:E; [|contradiction]. destruct (dinv_history c ls s Hh j n k E) as (A & _ & d & Ed & _).
  apply In_nth_error in A as [m Em]. exists m. cbn. rewrite Em, E, Z.eqb_refl, Ed. destruct (sd_drop d n) as [d' u]. eexists. split; [reflexivity|].
  unfold dropping. proj. rewrite dropping_out, Nat.eqb_refl. reflexivity.
Qed.

(** ** After the stop event is set *)
(** Own steps to the end, reads and appends to come, while the stop event stays set. *)
Definition dist (p : tpc) : nat :=
  match p with TDone _ => 0 | TClose _ => 1 | TFinSet _ | TFinCheck _ => 2 | TCheck | TNew => 3 | TSleep | TPut _ _ => 4 | TAppend _ => 5 | TRead => 6 | TLen _ => 7 | TGate => 8 end.
Definition to_read (p : tpc) : nat := match p with TGate | TLen _ | TRead => 1 | _ => 0 end.
Definition to_append (p : tpc) : nat := match p with TGate | TLen _ | TRead | TAppend _ | TPut _ _ => 1 | _ => 0 end.
Definition tpc_of (s : sb) (k : nat) : tpc := match nth_error (sb_ss s) k with Some e => se_pc e | None => TNew end.

Lemma running_stays c s l s' : sb_step c s l = Some s' -> length (sb_ss s') = length (sb_ss s) -> running s = false -> running s' = false.
Proof.
  intros H L R. unfold running, latest in *. rewrite L. destruct (step_sessions c s l s' H) as [S _].
  destruct (nth_error (sb_ss s) (length (sb_ss s) - 1)) as [e|] eqn:E.
  - destruct (S _ _ E) as (e' & -> & X). destruct (se_set e); [|discriminate]. now rewrite X.
  - destruct (nth_error (sb_ss s') _) as [e'|] eqn:E'; [|reflexivity]. apply nth_lt in E'. apply nth_error_None in E. lia.
Qed.
Lemma step_length c s l s' : sb_step c s l = Some s' -> length (sb_ss s) <= length (sb_ss s').
Proof. intro H. destruct (step_sessions c s l s' H) as [_ [->|(_ & _ & -> & _)]]; rewrite ?app_length; cbn; lia. Qed.
Lemma run_length c ls : forall s s', sb_run c s ls = Some s' -> length (sb_ss s) <= length (sb_ss s').
Proof.
  induction ls as [|l q IH]; intros s s' H; cbn in H; [injection H as <-; lia|].
  destruct (sb_step c s l) as [m|] eqn:E; [|discriminate]. apply step_length in E. specialize (IH m s' H). lia.
Qed.
Lemma stopped_step c s l s' k : sinv s -> sb_step c s l = Some s' -> running s = false -> length (sb_ss s') = length (sb_ss s) ->
  own k l + dist (tpc_of s' k) <= dist (tpc_of s k) /\
  to_read (tpc_of s' k) + count (is_read_of k) (sb_tr s') <= to_read (tpc_of s k) + count (is_read_of k) (sb_tr s) /\
  to_append (tpc_of s' k) + count (is_append_of k) (sb_tr s') <= to_append (tpc_of s k) + count (is_append_of k) (sb_tr s).
Proof.
  intros I H R L. unfold tpc_of.
  assert (D : (exists o, l = LT k o) \/ forall o, l <> LT k o).
  { destruct l as [| | | | | | | | | | | | | |i o]; try (right; discriminate). destruct (Nat.eq_dec i k) as [->|N]; [eauto|].
    right. intros o' E. congruence. }
  destruct D as [[o ->]|N].
  - cbn in H. destruct (nth_error (sb_ss s) k) as [e|] eqn:Ek; [|discriminate]. cbn [own]. rewrite Nat.eqb_refl.
    unfold thread_step in H. rewrite R in H. destruct (se_pc e) eqn:Ep; cbn zeta in H;
    repeat match type of H with
    | Some _ = Some _ => fail 1
    | (match ?x with _ => _ end) = _ => let E := fresh "E" in destruct x eqn:E in H; try discriminate H; cbn zeta in H
    end; try discriminate H; injection H as <-; proj; rewrite ?nth_upd, ?Ek, ?Nat.eqb_refl;
    repeat match goal with |- context [Nat.eqb ?a k] => destruct (Nat.eqb a k) end; cbn [option_map w_pc w_set w_buf se_pc];
    repeat match goal with |- context [if ?b then _ else _] => destruct b eqn:? | |- context [match ?r with Ok _ => TCheck | _ => _ end] => destruct r end;
    rewrite ?count_app; unfold count; cbn [filter is_read_of is_append_of length dist to_read to_append]; rewrite ?Nat.eqb_refl; cbn [length]; lia.
  - assert (T : count (is_read_of k) (sb_tr s') = count (is_read_of k) (sb_tr s) /\ count (is_append_of k) (sb_tr s') = count (is_append_of k) (sb_tr s)).
    { pose proof (step_other_events c s l s' k H N) as T.
      rewrite <- (count_te (is_read_of k) k (sb_tr s)), <- (count_te (is_append_of k) k (sb_tr s)),
        <- (count_te (is_read_of k) k (sb_tr s')), <- (count_te (is_append_of k) k (sb_tr s')), T by (intros []; cbn; auto; discriminate). auto. }
    destruct T as [-> ->].
    assert (O : own k l = 0). { destruct l as [| | | | | | | | | | | | | |i o]; try reflexivity. cbn. destruct (Nat.eqb_spec i k); [subst; exfalso; now apply (N o)|reflexivity]. }
    rewrite O. destruct (nth_error (sb_ss s) k) as [e|] eqn:Ek.
    + destruct (step_frame c s l s' H k e Ek) as (e' & -> & P & _). destruct P as [->|[[o ->]|(SS & -> & -> & _)]]; [lia|exfalso; eapply N; reflexivity|].
      pose proof (si_new _ I) as X. rewrite SS in X. destruct X as (e1 & X1 & X2). assert (e1 = e) by congruence. subst e1. rewrite X2. cbn. lia.
    + destruct (nth_error (sb_ss s') k) eqn:Ek'; [|lia]. apply nth_lt in Ek'. apply nth_error_None in Ek. lia.
Qed.
Lemma stopped_run c k ls : forall s s', sinv s -> sb_run c s ls = Some s' -> running s = false -> length (sb_ss s') = length (sb_ss s) ->
  own_steps k ls + dist (tpc_of s' k) <= dist (tpc_of s k) /\
  to_read (tpc_of s' k) + count (is_read_of k) (sb_tr s') <= to_read (tpc_of s k) + count (is_read_of k) (sb_tr s) /\
  to_append (tpc_of s' k) + count (is_append_of k) (sb_tr s') <= to_append (tpc_of s k) + count (is_append_of k) (sb_tr s).
Proof.
  induction ls as [|l q IH]; intros s s' I H R L; cbn in H.
  - injection H as <-. cbn. lia.
  - destruct (sb_step c s l) as [m|] eqn:E; [|discriminate]. cbn [own_steps].
    assert (Lm : length (sb_ss m) = length (sb_ss s)) by (pose proof (step_length _ _ _ _ E); pose proof (run_length _ _ _ _ H); lia).
    destruct (stopped_step c s l m k I E R Lm) as (A1 & A2 & A3).
    destruct (IH m s') as (B1 & B2 & B3); [eapply sinv_step; eauto|assumption|eapply running_stays; eauto|lia|]. lia.
Qed.
