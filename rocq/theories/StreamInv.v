(** * Stop events, outcomes of start(), and orderly restarts *)
From Coq Require Import List ZArith Bool Arith Lia.
From Verif Require Import PyVal PyLib PyValFacts SortedDequeM Spec SpecDeque DequeFacts DequeSearch
  BufferReaderM BufferSysM LogFacts LogReads StreamBufferM SpecStream StreamFacts StreamLife.
Import ListNotations.

(** ** Stop events *)
Record evinv (s : sb) : Prop := {
  ev_old : forall k e, nth_error (sb_ss s) k = Some e -> S k < length (sb_ss s) -> se_set e = true;
  ev_start : match sb_start s with SStopClear _ | SClear | SFresh => running s = false | _ => True end;
  ev_end : forall k e, nth_error (sb_ss s) k = Some e -> match se_pc e with TClose _ | TDone _ => se_set e = true | _ => True end
}.
Lemma evinv0 : evinv sb0.
Proof. constructor; cbn; auto; intros [|]; discriminate. Qed.
Lemma running_do_stop s : running (do_stop s) = false.
Proof.
  unfold running, latest, do_stop. proj. rewrite upd_length, nth_upd, Nat.eqb_refl. unfold latest.
  now destruct (nth_error (sb_ss s) _).
Qed.
Lemma running_false_set s e : running s = false -> nth_error (sb_ss s) (latest s) = Some e -> se_set e = true.
Proof. unfold running. intros R E. rewrite E in R. now destruct (se_set e). Qed.
Lemma thread_case (l : label) k : (exists o, l = LT k o) \/ forall o, l <> LT k o.
Proof.
  destruct l as [| | | | | | | | | | | | | |i o]; try (right; discriminate). destruct (Nat.eq_dec i k) as [->|N]; [eauto|].
  right. intros o' E. congruence.
Qed.
(** Every step of thread [k], from what it knows and to where. *)
Lemma thread_move c s k o s' e : sb_step c s (LT k o) = Some s' -> nth_error (sb_ss s) k = Some e ->
  exists e', nth_error (sb_ss s') k = Some e' /\
  match se_pc e with
  | TNew | TDone _ => False
  | TCheck => se_pc e' = (if running s then TGate else TFinCheck None)
  | TGate => (is_True (c_auto c) = true /\ se_pc e' = TRead) \/
             (is_True (c_auto c) = false /\ exists x, se_pc e' = TFinCheck (Some x)) \/
             (is_True (c_auto c) = false /\ exists j, sb_cur s = Some j /\ se_pc e' = TLen j)
  | TLen j => (exists x, se_pc e' = TFinCheck (Some x)) \/
             (exists d m, buf_of s j = Some d /\ c_maxlen c = Some m /\ se_pc e' = if Z.ltb (Z.of_nat (len_seen s j d)) m then TRead else TSleep)
  | TRead => match o with Ok v => se_pc e' = (if is_none v then TSleep else TAppend v) | Raise x => se_pc e' = TFinCheck (Some x) end
  | TAppend v => (exists x, se_pc e' = TFinCheck (Some x)) \/ exists j, sb_cur s = Some j /\ se_pc e' = TPut j v
  | TPut j v => se_pc e' = TCheck \/ exists x, se_pc e' = TFinCheck (Some x)
  | TSleep => match o with Ok _ => se_pc e' = TCheck | Raise x => se_pc e' = TFinCheck (Some x) end
  | TFinCheck x => se_pc e' = if running s then TFinSet x else TClose x
  | TFinSet x => se_pc e' = TClose x /\ running s' = false
  | TClose x => se_pc e' = TDone x
  end.
Proof.
  intros H Hk. cbn in H. rewrite Hk in H. unfold thread_step in H.
  assert (K : forall s1 p, (exists e1, nth_error (sb_ss s1) k = Some e1) -> exists e', nth_error (sb_ss (set_tpc s1 k p)) k = Some e' /\ se_pc e' = p).
  { intros s1 p [e1 E1]. unfold set_tpc. proj. rewrite (upd_same _ _ _ _ E1). eauto. }
  assert (K1 : forall n f, exists e1, nth_error (upd (sb_ss s) n f) k = Some e1).
  { intros n f. rewrite nth_upd, Hk. destruct (Nat.eqb n k); cbn; eauto. }
  destruct (se_pc e) eqn:Ep; try discriminate H; cbn zeta in H.
  - injection H as <-. destruct (K s (if running s then TGate else TFinCheck None)) as (e' & E1 & E2); eauto.
  - destruct (is_True (c_auto c)) eqn:EA.
    + injection H as <-. destruct (K s TRead) as (e' & E1 & E2); eauto 6.
    + destruct (sb_cur s) as [j|] eqn:Ec.
      * injection H as <-. destruct (K s (TLen j)) as (e' & E1 & E2); eauto 9.
      * injection H as <-. destruct (K (StreamBufferM.log s (ENoBuf k TypeError)) (TFinCheck (Some TypeError))) as (e' & E1 & E2); eauto 9.
  - destruct (c_maxlen c) as [m|] eqn:Em.
    + destruct (buf_of s j) as [d|] eqn:Ed; [|discriminate]. injection H as <-.
      destruct (K s (if (Z.of_nat (len_seen s j d) <? m)%Z then TRead else TSleep)) as (e' & E1 & E2); eauto 12.
    + injection H as <-. destruct (K (StreamBufferM.log s (ENoBuf k TypeError)) (TFinCheck (Some TypeError))) as (e' & E1 & E2); eauto 9.
  - destruct o as [v|x]; injection H as <-.
    + destruct (K (StreamBufferM.log s (ERead k (Ok v))) (if is_none v then TSleep else TAppend v)) as (e' & E1 & E2); eauto.
    + destruct (K (StreamBufferM.log s (ERead k (Raise x))) (TFinCheck (Some x))) as (e' & E1 & E2); eauto.
  - destruct (sb_cur s) as [j|] eqn:Ec.
    + injection H as <-. destruct (K s (TPut j x)) as (e' & E1 & E2); eauto 9.
    + injection H as <-. destruct (K (StreamBufferM.log s (ENoBuf k AttributeError)) (TFinCheck (Some AttributeError))) as (e' & E1 & E2); eauto 6.
  - destruct (dropping s j); [discriminate|]. destruct (buf_of s j) as [d|]; [|discriminate]. destruct (sd_append d x) as [d' u]. injection H as <-.
      destruct (K (StreamBufferM.log (upd_sess s j (fun e => w_buf e d')) (EAppend k j x u)) (match u with Ok _ => TCheck | Raise e => TFinCheck (Some e) end)) as (e' & E1 & E2).
      { proj. apply K1. }
      exists e'. split; [assumption|]. rewrite E2. destruct u; eauto.
  - destruct o as [v|x]; injection H as <-.
    + destruct (K s TCheck) as (e' & E1 & E2); eauto.
    + destruct (K (StreamBufferM.log s (ENap k x)) (TFinCheck (Some x))) as (e' & E1 & E2); eauto.
  - injection H as <-. destruct (K s (if running s then TFinSet e0 else TClose e0)) as (e' & E1 & E2); eauto.
  - injection H as <-. destruct (K (do_stop s) (TClose e0)) as (e' & E1 & E2); [unfold do_stop; proj; apply K1|].
    exists e'. repeat split; auto. unfold running, latest. unfold set_tpc. proj. rewrite !upd_length, !nth_upd, Nat.eqb_refl. fold (latest s).
    destruct (nth_error (sb_ss s) (latest s)); cbn; [|destruct (Nat.eqb k (latest s)); reflexivity]. now destruct (Nat.eqb k (latest s)).
  - injection H as <-.
    match goal with |- context [sb_ss (set_tpc ?s1 k ?p)] => destruct (K s1 p) as (e' & E1 & E2) end; eauto.
Qed.

Lemma evinv_step c s l s' : sinv s -> evinv s -> sb_step c s l = Some s' -> evinv s'.
Proof.
  intros I [O S E] H. pose proof (step_sessions c s l s' H) as [M L].
  assert (O' : forall k e, nth_error (sb_ss s') k = Some e -> Datatypes.S k < length (sb_ss s') -> se_set e = true).
  { intros k e Hk Lk. destruct (step_new c s l s' H k e Hk) as [(e0 & H0)|(-> & -> & F & _)].
    - destruct (M k e0 H0) as (e' & He' & X). assert (e' = e) by congruence. subst e'. apply X.
      destruct L as [L|(F & _ & L & _)].
      + apply (O k e0 H0). lia.
      + pose proof (nth_lt _ _ _ H0) as Lt. destruct (Nat.eq_dec (Datatypes.S k) (length (sb_ss s))) as [El|Nl].
        * rewrite F in S. apply (running_false_set s); [assumption|]. unfold latest. now replace (length (sb_ss s) - 1) with k by lia.
        * apply (O k e0 H0). lia.
    - destruct L as [L|(_ & _ & L & _)]; [apply nth_lt in Hk; lia|]. rewrite L, app_length in Lk. cbn in Lk. lia. }
  constructor; [exact O'| |].
  - destruct L as [L|(_ & _ & _ & L)]; [|now rewrite L].
    destruct (step_start c s l s' H) as [[ES _]|[(_ & _ & -> & _)|(o & v & ->)]]; [|exact Logic.I|].
    + rewrite ES. pose proof (running_stays c s l s' H L) as R. destruct (sb_start s); auto.
    + cbn in H. unfold start_step in H. cbn zeta in H.
      destruct (sb_start s) eqn:ES; repeat match type of H with (match ?x with _ => _ end) = _ => destruct x; try discriminate end;
        try discriminate H; injection H as <-; proj; auto.
      * destruct (running s); exact Logic.I.
      * unfold running, latest. proj. rewrite upd_length, nth_upd, Nat.eqb_refl. fold (latest s). now destruct (nth_error (sb_ss s) (latest s)).
      * destruct second; [exact S|exact Logic.I].
      * destruct (running s) eqn:R; [exact Logic.I|exact R].
  - intros k e' Hk. destruct (step_new c s l s' H k e' Hk) as [(e & He)|(-> & -> & _ & _)]; [|exact Logic.I].
    destruct (M k e He) as (e1 & H1 & X). assert (e1 = e') by congruence. subst e1.
    destruct (thread_case l k) as [[o ->]|N].
    + destruct (thread_move c s k o s' e H He) as (e1 & H2 & P). assert (e1 = e') by congruence. subst e1.
      specialize (E k e He).
      assert (SET : running s = false -> se_set e' = true).
      { intro R. pose proof (nth_lt _ _ _ He) as Lt. destruct (Nat.eq_dec (Datatypes.S k) (length (sb_ss s))) as [El|Nl].
        - apply X. apply (running_false_set s e R). unfold latest. now replace (length (sb_ss s) - 1) with k by lia.
        - apply (O' k e' Hk). destruct L as [L|(_ & (o1 & v & L) & _)]; [lia|discriminate]. }
      destruct (se_pc e); try (destruct P; fail); try (rewrite P; auto; fail).
      * destruct (running s); rewrite P; exact Logic.I.
      * destruct P as [[_ P]|[[_ [x P]]|(_ & j & _ & P)]]; rewrite P; exact Logic.I.
      * destruct P as [[x P]|(d & m & _ & _ & P)]; rewrite P; try exact Logic.I. destruct (_ <? _)%Z; exact Logic.I.
      * destruct o; rewrite P; [destruct (is_none a)|]; exact Logic.I.
      * destruct P as [[y P]|(j & _ & P)]; rewrite P; exact Logic.I.
      * destruct P as [P|[y P]]; rewrite P; exact Logic.I.
      * destruct o; rewrite P; exact Logic.I.
      * destruct (running s) eqn:R; rewrite P; [exact Logic.I|]. auto.
      * destruct P as [P R]. rewrite P. pose proof (nth_lt _ _ _ Hk) as Lt.
        destruct (Nat.eq_dec (Datatypes.S k) (length (sb_ss s'))) as [El|Nl].
        -- apply (running_false_set s' e' R). unfold latest. now replace (length (sb_ss s') - 1) with k by lia.
        -- apply (O' k e' Hk). lia.
    + destruct (step_frame c s l s' H k e He) as (e1 & H2 & P & _). assert (e1 = e') by congruence. subst e1.
      specialize (E k e He). destruct P as [P|[[o ->]|(_ & _ & P & _)]]; [|exfalso; eapply N; reflexivity|rewrite P; exact Logic.I].
      rewrite P. destruct (se_pc e); auto.
Qed.
Lemma evinv_history c ls s : history c ls s -> evinv s.
Proof. intro H. revert ls s H. apply (sb_ind c (fun _ s => evinv s)); [apply evinv0|]. intros. eapply evinv_step; eauto using sinv_history. Qed.
Lemma ended_ev_set c ls s k : history c ls s -> ended s k -> ev_set s k = true.
Proof.
  intros H (x & e & Hk & P). unfold ev_set. rewrite Hk. pose proof (ev_end _ (evinv_history c ls s H) k e Hk) as X. now rewrite P in X.
Qed.

(** ** The outcome of the latest start *)
Lemma last_start_snoc tr e : last_start (tr ++ [e]) =
  match e with EStarted i => Some (i, true) | EFailed i _ => Some (i, false) | _ => last_start tr end.
Proof.
  induction tr as [|x tr IH]; cbn [app last_start]; [now destruct e|]. rewrite IH.
  destruct e; auto; destruct (last_start tr); auto.
Qed.
Definition ls_inv (s : sb) : Prop :=
  match sb_start s with
  | SFresh | SOpen | SBuild | SSpawn => True
  | _ => match last_start (sb_tr s) with
         | Some (i, true) => sb_cur s = Some i
         | Some (i, false) => sb_cur s = None /\ S i = length (sb_ss s)
         | None => sb_cur s = None /\ sb_ss s = []
         end
  end.
Lemma step_starts c s l s' : sb_step c s l = Some s' -> (forall o v, l <> LS o v) -> last_start (sb_tr s') = last_start (sb_tr s) /\ length (sb_ss s') = length (sb_ss s).
Proof.
  intros H N. step_cases H; injection H as <-; proj; rewrite ?last_start_snoc, ?upd_length; auto;
  exfalso; eapply N; eassumption.
Qed.
Lemma ls_step c s l s' : sinv s -> ls_inv s -> sb_step c s l = Some s' -> ls_inv s'.
Proof.
  intros I L H. unfold ls_inv in *. destruct (step_start c s l s' H) as [[E1 E2]|[(-> & E1 & E2 & ->)|(o & v & ->)]].
  - assert (D : (exists o v, l = LS o v) \/ forall o v, l <> LS o v) by (destruct l; eauto; right; discriminate).
    destruct D as [(o & v & ->)|N].
    { exfalso. cbn in H. unfold start_step in H. cbn zeta in H.
      destruct (sb_start s) eqn:ES; repeat match type of H with (match ?x with _ => _ end) = _ => destruct x; try discriminate end;
        try discriminate H; injection H as <-; proj; try discriminate E1.
      - destruct (running s); discriminate.
      - destruct second; discriminate.
      - destruct (running s); discriminate. }
    destruct (step_starts c s l s' H N) as [-> X]. rewrite E1, E2.
    assert (Y : sb_ss s = [] -> sb_ss s' = []) by (intro Y; rewrite Y in X; now destruct (sb_ss s')).
    destruct (sb_start s); auto; destruct (last_start (sb_tr s)) as [[i []]|]; rewrite ?X; intuition congruence.
  - proj. now rewrite E1 in L.
  - cbn in H. unfold start_step in H. cbn zeta in H. pose proof (si_none _ I) as I2. pose proof (si_new _ I) as I3.
    assert (LAST : sb_start s = SOpen \/ sb_start s = SBuild -> S (latest s) = length (sb_ss s)).
    { intros HS. unfold latest. assert (X : exists e, nth_error (sb_ss s) (latest s) = Some e).
      { destruct HS as [HS|HS]; rewrite HS in I3; destruct I3 as (e & He & _); eauto. }
      destruct X as [e He]. apply nth_lt in He. unfold latest in He. lia. }
    destruct (sb_start s) eqn:ES; try discriminate H.
    + injection H as <-. proj. destruct (running s); exact L.
    + injection H as <-. proj. rewrite upd_length. unfold upd. destruct (last_start (sb_tr s)) as [[i []]|]; auto.
      destruct L as [L1 L2]. rewrite L2. destruct (latest s); auto.
    + injection H as <-. proj. destruct second; exact L.
    + injection H as <-. proj. destruct (running s); exact L.
    + injection H as <-. exact Logic.I.
    + injection H as <-. exact Logic.I.
    + destruct o as [u|x]; injection H as <-; proj; [exact Logic.I|]. rewrite !last_start_snoc. auto.
    + destruct v as [v|x]; [destruct (sd_init [] (c_key c) (c_maxlen c)) as [d|x]|]; injection H as <-; proj; try exact Logic.I;
        rewrite last_start_snoc; auto.
    + injection H as <-. proj. now rewrite last_start_snoc.
Qed.
Lemma ls_history c ls s : history c ls s -> ls_inv s.
Proof. intro H. revert ls s H. apply (sb_ind c (fun _ s => ls_inv s)); [cbn; auto|]. intros. eapply ls_step; eauto using sinv_history. Qed.
