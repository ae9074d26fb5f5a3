(** * Streams on a concrete source *)
From Coq Require Import List ZArith QArith Bool Arith Lia Sorting.Sorted Decimal DecimalZ.
From Verif Require Import PyVal PyLib PyValFacts SortedDequeM Spec SpecDeque ListFacts BisectFacts Families DequeFacts DequeSearch
  BufferReaderM BufferSysM LogFacts LogReads LogKeepUp StreamBufferM SpecStream StreamFacts StreamInv StreamLife StreamOrderly StreamReads PropsStream StreamSuffix
  StreamSourceM SourcesM SpecSources.
Import ListNotations.
Open Scope nat_scope.

Lemma plays_app so a evs1 evs2 b : plays so a (evs1 ++ evs2) b <-> exists m, plays so a evs1 m /\ plays so m evs2 b.
Proof.
  revert a. induction evs1 as [|e evs1 IH]; intro a; cbn [app].
  - split; [intro H; exists a; split; [constructor|assumption]|]. intros (m & H1 & H2). inversion H1. subst. assumption.
  - split.
    + intro H. inversion H; subst; match goal with X : plays _ _ (evs1 ++ evs2) _ |- _ => apply IH in X as (m & X1 & X2) end; exists m; (split; [econstructor; eauto|assumption]).
    + intros (m & H1 & H2). inversion H1; subst; econstructor; eauto; apply IH; eauto.
Qed.
Section Session.
  Variable so : source.
  Variable R : so_st so -> list (res pyval) -> Prop.
  Hypothesis R_open : forall a b, so_open so a (b, Ok tt) -> R b [].
  Hypothesis R_read : forall a b o l, R a l -> so_read so a (b, o) -> R b (l ++ [o]).
  Lemma session_reads t x : sproper t x -> forall st, plays so (so_init so) t st ->
    (forall i, reads_of i t = [] \/ exists st', R st' (reads_of i t)) /\ (forall i, x = Some i -> R st (reads_of i t)).
  Proof.
    induction 1; intros st P; try (apply plays_app in P as (m & P1 & P2)); try (specialize (IHsproper m P1)); try (destruct IHsproper as [A B]).
    - split; [auto|discriminate].
    - split; [|discriminate]. intro j. rewrite reads_app. cbn. rewrite app_nil_r. apply A.
    - split; intro j; rewrite reads_app; cbn; rewrite app_nil_r; [apply A|]. intro E. injection E as <-. rewrite H0.
      inversion P2; subst. match goal with X : plays _ _ [] _ |- _ => inversion X; subst end. eauto.
    - destruct (IHsproper st P) as [A B]. split; [exact A|discriminate].
    - inversion P2; subst. match goal with X : plays _ _ [] _ |- _ => inversion X; subst end. specialize (B i eq_refl).
      split; intro j; rewrite reads_app; cbn [reads_of flat_map]; rewrite app_nil_r.
      + destruct (Nat.eqb_spec i j) as [<-|N]; [right; eauto|]. rewrite app_nil_r. apply A.
      + intro E. injection E as <-. rewrite Nat.eqb_refl. eauto.
    - split; [|discriminate]. intro j. rewrite reads_app. cbn. rewrite app_nil_r. apply A.
  Qed.
  Lemma stream_reads c ls s : stream_on so c ls s -> forall i, reads_of i (sb_tr s) = [] \/ exists st', R st' (reads_of i (sb_tr s)).
  Proof.
    intros (H & O & st & P) i. destruct (session_reads _ _ (sproper_history c ls s H O) st P) as [A _]. specialize (A i). now rewrite reads_source in A.
  Qed.
End Session.
(** The data of a thread, from its read results. *)
Definition data_of (l : list (res pyval)) : list pyval := flat_map (fun o => match o with Ok v => if is_none v then [] else [v] | Raise _ => [] end) l.
Lemma data_of_reads i tr : data_read i tr = data_of (reads_of i tr).
Proof.
  unfold data_read, data_of, reads_of. induction tr as [|e tr IH]; [reflexivity|]. cbn [flat_map]. rewrite flat_map_app, <- IH. f_equal.
  destruct e as [| | | |j [v|x]| | | | | | | | | | | |]; auto; destruct (Nat.eqb j i); cbn; auto. now destruct (is_none v).
Qed.
Lemma data_of_app a b : data_of (a ++ b) = data_of a ++ data_of b.
Proof. apply flat_map_app. Qed.

(** Prefixes of streams. *)
Lemma orderly_app c a b : orderly c (a ++ b) -> orderly c a.
Proof.
  unfold orderly. generalize sb0. induction a as [|l a IH]; intros s H; [exact Logic.I|]. cbn in *. destruct H as [H1 H2]. split; [assumption|].
  destruct (sb_step c s l); auto.
Qed.
Lemma poll_prefix c ls s : history c ls s -> forall t1 r o t2, sb_tr s = t1 ++ EPoll r o :: t2 ->
  exists ls1 ls2 s1, ls = ls1 ++ ls2 /\ history c ls1 s1 /\ sb_tr s1 = t1.
Proof.
  intro H. revert ls s H. apply (sb_ind c (fun ls s => forall t1 r o t2, sb_tr s = t1 ++ EPoll r o :: t2 -> exists ls1 ls2 s1, ls = ls1 ++ ls2 /\ history c ls1 s1 /\ sb_tr s1 = t1)).
  - intros [|] r o t2 E; discriminate.
  - intros ls s l s' Hh IH H t1 r o t2 E.
    assert (OLD : forall t2', sb_tr s = t1 ++ EPoll r o :: t2' -> exists ls1 ls2 s1, ls ++ [l] = ls1 ++ ls2 /\ history c ls1 s1 /\ sb_tr s1 = t1).
    { intros t2' X. destruct (IH _ _ _ _ X) as (ls1 & ls2 & s1 & -> & A & B). exists ls1, (ls2 ++ [l]), s1. rewrite app_assoc. auto. }
    step_cases H; injection H as <-; proj; eauto;
      (apply snoc_split in E as [(-> & <- & E)|(t3 & -> & E)]; [try discriminate E|eauto]); eauto;
      try (apply snoc_split in E as [(-> & <- & E)|(t4 & -> & E)]; [try discriminate E|eauto]); eauto.
    all: exists ls; eexists; exists s; auto.
Qed.
Lemma stream_on_poll so c ls s t1 r o t2 : stream_on so c ls s -> sb_tr s = t1 ++ EPoll r o :: t2 ->
  exists ls1 ls2 s1, ls = ls1 ++ ls2 /\ stream_on so c ls1 s1 /\ sb_tr s1 = t1.
Proof.
  intros (H & O & st & P) E. destruct (poll_prefix c ls s H t1 r o t2 E) as (ls1 & ls2 & s1 & -> & A & B). exists ls1, ls2, s1. split; [reflexivity|]. split; [|assumption].
  split; [assumption|]. split; [eapply orderly_app; eauto|]. rewrite E in P. unfold source_events in P. rewrite filter_app in P. apply plays_app in P as (m & P1 & _). exists m. now rewrite B.
Qed.

(** ** Decimal strings *)
Lemma digits_round u : uint_of (digit_codes u) = Some u.
Proof. induction u; cbn; [reflexivity|..]; unfold digit_codes in IHu; rewrite IHu; reflexivity. Qed.
Lemma digits_head u : match digit_codes u with [] => u = Nil | c :: _ => c <> 45%Z /\ c <> 43%Z end.
Proof. destruct u; cbn; try reflexivity; split; discriminate. Qed.
Lemma to_int_nonnil z : match Z.to_int z with Decimal.Pos u | Decimal.Neg u => u <> Nil end.
Proof. destruct z as [|p|p]; cbn; [discriminate|..]; apply DecimalPos.Unsigned.to_uint_nonnil. Qed.
Lemma digits_of_codes u : u <> Nil -> digits_of (digit_codes u) = Some u.
Proof.
  intro N. unfold digits_of. pose proof (digits_head u) as D. pose proof (digits_round u) as X. destruct (digit_codes u); [congruence|exact X].
Qed.
Lemma int_str_round z : int_of_str (str_of_int z) = Ok z.
Proof.
  unfold str_of_int, int_of_str. pose proof (to_int_nonnil z) as N. pose proof (of_to z) as E. destruct (Z.to_int z) as [u|u].
  - pose proof (digits_head u) as D. pose proof (digits_of_codes u N) as X. destruct (digit_codes u) as [|c q]; [congruence|]. destruct D as [D1 D2].
    assert (G : forall A (a b d : A), match c with 45%Z => a | 43%Z => b | _ => d end = d).
    { intros A a b d. destruct c as [|p|p]; try reflexivity. do 6 (destruct p as [p|p|]; try reflexivity); congruence. }
    rewrite G, X. cbn [option_map]. now rewrite E.
  - rewrite digits_of_codes by assumption. cbn [option_map]. now rewrite E.
Qed.
