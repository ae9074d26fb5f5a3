(** * Histories in which the calls on one reader do not overlap *)
From Coq Require Import List ZArith Bool Arith Lia.
From Verif Require Import PyVal PyLib SortedDequeM SpecLog BufferReaderM BufferSysM ReaderStepsM SpecLin LinSim LinRun.
Import ListNotations.

Definition op_of (e : xev) : lop := match e with XInv _ o | XAct _ o _ | XRes _ o _ => o end.
Definition on_r (r : nat) (o : lop) : bool := match o with LCall j _ => Nat.eqb r j | _ => false end.
Definition on_reader (r : nat) (w : list xev) : list xev := filter (fun e => on_r r (op_of e)) w.
Definition st_on (r : nat) (st : tstat) : bool := match st with Rest => false | Called o | Acted o _ => on_r r o end.

(** The state of a thread is determined by its events. *)
Lemma hist_exists i l : one_at_a_time l -> Forall (fun e => thread_of e = i) l -> exists st, hist i st l.
Proof.
  assert (PRE : forall i st l o v, hist i st l -> hist i st ([XInv i o; XAct i o v; XRes i o v] ++ l)).
  { clear. intros i st l o v.
    assert (F : forall c, finished_calls i c -> finished_calls i ([XInv i o; XAct i o v; XRes i o v] ++ c)).
    { induction 1 as [|o' v' c H IH]; [apply (fc_more i o v []); constructor|]. rewrite app_assoc. now constructor. }
    destruct st; cbn [hist]; [apply F| |]; intros (c & H & ->); exists ([XInv i o; XAct i o v; XRes i o v] ++ c);
      (split; [now apply F|]); now rewrite app_assoc. }
  induction 1 as [|j o|j o v|j o v w H IH]; intro A.
  - exists Rest. constructor.
  - inversion A; subst. cbn in *. subst. exists (Called o). exists []. split; [constructor|reflexivity].
  - inversion A; subst. cbn in *. subst. exists (Acted o v). exists []. split; [constructor|reflexivity].
  - inversion A as [|? ? A1 A2]; subst. inversion A2 as [|? ? _ A3]; subst. inversion A3 as [|? ? _ A4]; subst. cbn in *.
    destruct (IH A4) as (st & S). exists st. now apply (PRE j st w o v).
Qed.
Lemma fin_last i c x e : finished_calls i c -> c = x ++ [e] -> exists o v, e = XRes i o v.
Proof.
  intros H. destruct H as [|o v c H]; intro E; [now destruct x|].
  change [XInv i o; XAct i o v; XRes i o v] with ([XInv i o; XAct i o v] ++ [XRes i o v]) in E. rewrite app_assoc in E.
  apply app_inj_tail in E as [_ <-]. eauto.
Qed.
Lemma hist_det i st st' l : hist i st l -> hist i st' l -> st = st'.
Proof.
  assert (A : forall c o v, c ++ [XInv i o; XAct i o v] = (c ++ [XInv i o]) ++ [XAct i o v]) by (intros; now rewrite <- app_assoc).
  destruct st as [|o|o v]; destruct st' as [|o'|o' v']; cbn [hist]; auto.
  - intros F (c & _ & E). destruct (fin_last _ _ _ _ F E) as (? & ? & ?). discriminate.
  - intros F (c & _ & E). rewrite A in E. destruct (fin_last _ _ _ _ F E) as (? & ? & ?). discriminate.
  - intros (c & _ & E) F. destruct (fin_last _ _ _ _ F E) as (? & ? & ?). discriminate.
  - intros (c & _ & ->) (c' & _ & E). apply app_inj_tail in E as [_ E]. congruence.
  - intros (c & _ & ->) (c' & _ & E). rewrite A in E. apply app_inj_tail in E as [_ E]. congruence.
  - intros (c & _ & E) F. rewrite A in E. destruct (fin_last _ _ _ _ F E) as (? & ? & ?). discriminate.
  - intros (c & _ & ->) (c' & _ & E). rewrite A in E. apply app_inj_tail in E as [_ E]. congruence.
  - intros (c & _ & ->) (c' & _ & E). rewrite !A in E. apply app_inj_tail in E as [_ E]. congruence.
Qed.
(** What an event says about the state before and after it. *)
Definition before_ev (e : xev) : tstat := match e with XInv _ _ => Rest | XAct _ o _ => Called o | XRes _ o v => Acted o v end.
Definition after_ev (e : xev) : tstat := match e with XInv _ o => Called o | XAct _ o v => Acted o v | XRes _ _ _ => Rest end.
Lemma hist_snoc i st l e : hist i st (l ++ [e]) -> hist i (before_ev e) l /\ st = after_ev e.
Proof.
  assert (A : forall c o v, c ++ [XInv i o; XAct i o v] = (c ++ [XInv i o]) ++ [XAct i o v]) by (intros; now rewrite <- app_assoc).
  destruct st as [|o|o v]; cbn [hist].
  - intro F. remember (l ++ [e]) as m eqn:E. destruct F as [|o v c F]; [now destruct l|].
    assert (B : c ++ [XInv i o; XAct i o v; XRes i o v] = (c ++ [XInv i o; XAct i o v]) ++ [XRes i o v]) by now rewrite <- app_assoc.
    rewrite B in E. apply app_inj_tail in E as [<- <-]. split; [|reflexivity]. cbn. eauto.
  - intros (c & F & E). apply app_inj_tail in E as [-> ->]. split; [exact F|reflexivity].
  - intros (c & F & E). rewrite A in E. apply app_inj_tail in E as [-> ->]. split; [|reflexivity]. cbn. eauto.
Qed.
Lemma one_snoc l e : one_at_a_time (l ++ [e]) -> one_at_a_time l.
Proof.
  intro H. remember (l ++ [e]) as m eqn:E. revert l E. induction H as [|j o|j o v|j o v w H IH]; intros l E.
  - now destruct l.
  - destruct l as [|? [|]]; try discriminate; constructor.
  - destruct l as [|? [|? [|]]]; try discriminate; injection E as <-; constructor.
  - destruct l as [|a [|b [|c l]]]; try discriminate; [injection E as <- <- _; constructor|].
    injection E as <- <- <- E. constructor. now apply IH.
Qed.
Lemma of_thread_all i w : Forall (fun e => thread_of e = i) (of_thread i w).
Proof. apply Forall_forall. intros e H. apply filter_In in H as [_ H]. now apply Nat.eqb_eq. Qed.

(** The calls on reader [r] follow one another. *)
Inductive rfin (r : nat) : list xev -> Prop :=
| rf_nil : rfin r []
| rf_more i o v w : rfin r w -> rfin r (w ++ [XInv i o; XAct i o v; XRes i o v]).
Lemma rfin_prefix r w : rfin r w -> forall v, one_at_a_time v -> one_at_a_time (w ++ v).
Proof. induction 1 as [|i o a w H IH]; intros v V; [exact V|]. rewrite <- app_assoc. apply IH. cbn. now constructor. Qed.
Definition pending (i : nat) (st : tstat) : list xev :=
  match st with Rest => [] | Called o => [XInv i o] | Acted o v => [XInv i o; XAct i o v] end.
Definition serial (r : nat) (w : list xev) : Prop :=
  exists c i st, rfin r c /\ on_reader r w = c ++ pending i st /\
    (st = Rest \/ (st_on r st = true /\ hist i st (of_thread i w))) /\
    (forall j st', (st = Rest \/ j <> i) -> hist j st' (of_thread j w) -> st_on r st' = false).
Lemma hist_pending i st w : hist i st (of_thread i w) -> st <> Rest ->
  exists x y, seen w = x ++ HInv i (match st with Rest => LAppend PNone | Called o | Acted o _ => o end) :: y /\ forall o v, ~ In (HRes i o v) y.
Proof.
  intros H N.
  assert (exists c o rest, of_thread i w = c ++ XInv i o :: rest /\ o = (match st with Rest => LAppend PNone | Called o | Acted o _ => o end) /\ forall o' v, ~ In (XRes i o' v) rest) as (c & o & rest & F & -> & NI).
  { destruct st as [|o|o v]; [congruence| |]; destruct H as (c & _ & E); [exists c, o, []|exists c, o, [XAct i o v]]; (split; [exact E|]);
      (split; [reflexivity|]); cbn; intuition congruence. }
  unfold of_thread in F. apply filter_split in F as (a & b & -> & F). exists (seen a), (seen b).
  split; [now rewrite seen_app|]. intros o' v Hi. apply seen_res in Hi. unfold of_thread in Hi. rewrite F in Hi. now apply NI in Hi.
Qed.
Lemma serial_run r w : (forall i, one_at_a_time (of_thread i w)) -> one_call_per_reader (seen w) -> serial r w.
Proof.
  induction w as [|e w IH] using rev_ind; intros H NO.
  - exists [], 0, Rest. split; [constructor|]. split; [reflexivity|]. split; [now left|]. intros j st' _ F.
    rewrite (hist_det j st' Rest [] F) by constructor. reflexivity.
  - assert (H0 : forall i, one_at_a_time (of_thread i w)).
    { intro i. specialize (H i). rewrite of_thread_app in H. cbn in H. destruct (Nat.eqb (thread_of e) i); [now apply one_snoc in H|now rewrite app_nil_r in H]. }
    assert (NO0 : one_call_per_reader (seen w)) by (rewrite seen_app in NO; exact (one_call_prefix _ _ NO)).
    destruct (IH H0 NO0) as (c & i & st & C & E & ST & OTH). clear IH.
    set (k := thread_of e). assert (OWN : of_thread k (w ++ [e]) = of_thread k w ++ [e]) by (rewrite of_thread_app; cbn; fold k; now rewrite Nat.eqb_refl).
    assert (ELSE : forall j, j <> k -> of_thread j (w ++ [e]) = of_thread j w).
    { intros j N. rewrite of_thread_app. cbn. fold k. destruct (Nat.eqb_spec k j); [congruence|apply app_nil_r]. }
    destruct (hist_exists k (of_thread k (w ++ [e])) (H k) (of_thread_all _ _)) as (stk & HK). rewrite OWN in HK.
    destruct (hist_snoc _ _ _ _ HK) as [HB ->].
    assert (HA : forall st', hist k st' (of_thread k (w ++ [e])) -> st' = after_ev e).
    { intros st' X. rewrite OWN in X. exact (hist_det _ _ _ _ X HK). }
    assert (ER : on_reader r (w ++ [e]) = on_reader r w ++ (if on_r r (op_of e) then [e] else [])).
    { unfold on_reader. rewrite filter_app. cbn. now destruct (on_r r (op_of e)). }
    destruct (on_r r (op_of e)) eqn:ON.
    + (* an event on the reader *)
      destruct e as [k' o|k' o v|k' o v]; cbn in k; subst k; cbn [before_ev after_ev op_of] in *.
      * (* a call begins: nobody is in a call on the reader *)
        assert (st = Rest) as ->.
        { destruct ST as [ST|[S1 S2]]; [exact ST|]. exfalso.
          destruct (Nat.eq_dec i k') as [->|N].
          - rewrite (hist_det _ _ _ _ S2 HB) in S1. discriminate.
          - destruct o as [| | |r' co]; try discriminate. apply Nat.eqb_eq in ON. subst r'.
            destruct (hist_pending i st w S2) as (x & y & SW & NI); [intros ->; discriminate|].
            destruct st as [|o'|o' v']; [discriminate| |];
              (destruct o' as [| | |r' co']; try discriminate; cbn in S1; apply Nat.eqb_eq in S1; subst r';
               destruct (NO x i r co' y k' co []) as (v & Hv); [rewrite seen_app, SW; cbn; now rewrite <- app_assoc|exact N|exact (NI _ _ Hv)]). }
        exists c, k', (Called o). split; [exact C|]. split; [rewrite ER, E; cbn; now rewrite app_nil_r|]. split; [right; split; [exact ON|now rewrite OWN]|].
        intros j st' [X|N] F; [discriminate|]. rewrite (ELSE j N) in F. apply (OTH j st'); auto.
      * (* the instant *)
        assert (st = Called o /\ i = k') as [-> ->].
        { destruct (Nat.eq_dec k' i) as [->|N].
          - destruct ST as [->|[_ S2]]; [|split; [exact (hist_det _ _ _ _ S2 HB)|reflexivity]].
            pose proof (OTH i (Called o) (or_introl eq_refl) HB) as X. cbn in X. congruence.
          - pose proof (OTH k' (Called o) (or_intror N) HB) as X. cbn in X. congruence. }
        exists c, k', (Acted o v). split; [exact C|]. split; [rewrite ER, E; cbn; now rewrite <- app_assoc|].
        split; [right; split; [exact ON|now rewrite OWN]|].
        intros j st' [X|N] F; [discriminate|]. rewrite (ELSE j N) in F. apply (OTH j st'); auto.
      * (* the return *)
        assert (st = Acted o v /\ i = k') as [-> ->].
        { destruct (Nat.eq_dec k' i) as [->|N].
          - destruct ST as [->|[_ S2]]; [|split; [exact (hist_det _ _ _ _ S2 HB)|reflexivity]].
            pose proof (OTH i (Acted o v) (or_introl eq_refl) HB) as X. cbn in X. congruence.
          - pose proof (OTH k' (Acted o v) (or_intror N) HB) as X. cbn in X. congruence. }
        exists (c ++ [XInv k' o; XAct k' o v; XRes k' o v]), 0, Rest. split; [now constructor|].
        split; [rewrite ER, E; cbn; rewrite <- !app_assoc; reflexivity|]. split; [now left|].
        intros j st' _ F. destruct (Nat.eq_dec j k') as [->|N]; [now rewrite (HA st' F)|]. rewrite (ELSE j N) in F. apply (OTH j st'); auto.
    + (* an event elsewhere *)
      assert (BN : st_on r (before_ev e) = false /\ st_on r (after_ev e) = false).
      { destruct e; cbn in *; auto. }
      destruct BN as [B1 B2]. exists c, i, st. split; [exact C|]. split; [rewrite ER, E; now rewrite app_nil_r|].
      assert (NK : st <> Rest -> i <> k).
      { intros N ->. destruct ST as [->|[S1 S2]]; [now apply N|]. rewrite (hist_det _ _ _ _ S2 HB) in S1. congruence. }
      split.
      * destruct ST as [ST|[S1 S2]]; [now left|]. right. split; [exact S1|]. rewrite ELSE; [exact S2|]. apply NK. intros ->. discriminate.
      * intros j st' Q F. destruct (Nat.eq_dec j k) as [->|N]; [now rewrite (HA st' F)|]. rewrite (ELSE j N) in F. apply (OTH j st'); auto.
Qed.
Theorem calls_in_turn r w : (forall i, one_at_a_time (of_thread i w)) -> one_call_per_reader (seen w) -> one_at_a_time (on_reader r w).
Proof.
  intros H NO. destruct (serial_run r w H NO) as (c & i & st & C & E & _). rewrite E. apply (rfin_prefix r); [exact C|].
  destruct st; cbn; constructor.
Qed.
