(** * A nested reader section and a waiting append block each other for good *)
From Coq Require Import List ZArith Bool Arith Lia.
From Verif Require Import PyVal PyLib SortedDequeM Spec SpecDeque BufferReaderM BufferSysM ListFacts DequeFacts DequeSearch LogFacts LogReads
  RWLockM SpecLock LockFacts LockLive LockProps ReaderStepsM SpecLin LinFacts LinShape LinSim LinStep LinRun
  StreamBufferM SpecStream StreamFacts StreamFineM SpecFine FineOut FineSim FineRun.
Import ListNotations.

Lemma out_own c s l s' : outside s l = true -> sb_step c s l = Some s' ->
  exists es, sb_tr s' = sb_tr s ++ es /\ forall i v, (In (ERead i v) es -> exists o, l = LT i o) /\ forall u, In (EClose i u) es -> exists o, l = LT i o.
Proof.
  intros OU H. destruct l as [|o info| | |n p st ig|r| | |n|k|j'|k|r cl|r|i' o]; cbn [outside] in OU; try discriminate OU.
  9:{ cbn [sb_step] in H. destruct (nth_error (sb_ss s) i') as [e1|] eqn:E1; [|discriminate].
      unfold thread_step in H. destruct (se_pc e1) as [| | | | |y|j1 y| |er|er|er|er]; try discriminate;
           repeat match type of H with
           | Some _ = Some _ => fail 1
           | (match ?x with _ => _ end) = _ => destruct x eqn:?; try discriminate
           end; injection H as <-; proj;
           first [exists []; rewrite app_nil_r; split; [reflexivity|intros ii vv; split; [intros []|intros uu []]]
                 |eexists; split; [reflexivity|]; intros ii vv; split; [intros [Q|[]]|intros uu [Q|[]]]; inversion Q; subst; eauto]. }
  all: step_cases H; injection H as <-; proj; rewrite <- ?app_assoc;
    first [exists []; rewrite app_nil_r; split; [reflexivity|intros ii vv; split; [intros []|intros uu []]]
          |eexists; split; [reflexivity|]; intros ii vv; split; [intros He|intros uu He]; cbn in He; intuition discriminate].
Qed.

Section Hang.
Variable c : cfg.
Variable clients : nat.
Hypothesis AU : is_True (c_auto c) = true.
Notation frel := (frel c clients).

(* thread [k] asks for the lock again inside a call, thread [m] waits to append *)
Definition jam (j k m r : nat) (cl : call) (x : pyval) (L : lstate) : Prop :=
  exists t u hk hm p, deadlock_pair sdeque (ls_lock L) k m t u /\
    nth_error (ls_ths L) k = Some hk /\ h_ph hk = PhCall r cl p /\ nth_error (ls_ths L) m = Some hm /\ h_ph hm = PhWrite (LAppend x) None.
Definition stuck (j k m r : nat) (cl : call) (x : pyval) (f : fsb) : Prop := exists L, the_lock f j = Some L /\ jam j k m r cl x L.

Lemma jam_same j k m r cl x L L' : jam j k m r cl x L -> ls_lock L' = ls_lock L -> ls_ths L' = ls_ths L -> jam j k m r cl x L'.
Proof. unfold jam. intros H -> ->. exact H. Qed.
Lemma jam_other j k m r cl x L lk rds i g tr : jam j k m r cl x L -> i <> k -> i <> m ->
  (forall n, n <> i -> nth_error (st_ths lk) n = nth_error (st_ths (ls_lock L)) n) ->
  jam j k m r cl x (MkLs lk rds (set_nth (ls_ths L) i g) tr).
Proof.
  intros (t & u & hk & hm & p & (D1 & D2 & D3 & D4 & D5) & H1 & H2 & H3 & H4) N1 N2 E. exists t, u, hk, hm, p. cbn [ls_lock ls_ths].
  unfold deadlock_pair, thread_at in *. rewrite !E by congruence. rewrite !nth_error_set_nth. destruct (Nat.eqb_spec i k), (Nat.eqb_spec i m); try congruence. repeat split; assumption.
Qed.
Lemma jam_step j k m r cl x L i L' : lock_inv sdeque (ls_lock L) -> jam j k m r cl x L -> lstep L i = Some L' -> i <> k /\ i <> m /\ jam j k m r cl x L'.
Proof.
  intros I J H. pose proof J as (t & u & hk & hm & p & DP & H1 & H2 & H3 & H4). destruct (deadlock_blocked sdeque _ _ _ _ _ I DP) as [B1 B2].
  pose proof DP as (D1 & D2 & D3 & D4 & D5). unfold thread_at in *. unfold lstep in H.
  assert (NK : i <> k).
  { intros ->. rewrite D1, H1 in H. unfold in_lock in H. rewrite D2 in H. unfold RWLockM.step in H. rewrite D1, B1 in H. discriminate. }
  assert (NM : i <> m).
  { intros ->. rewrite D4, H3 in H. unfold in_lock in H. rewrite D5 in H. unfold RWLockM.step in H. rewrite D4, B2 in H. discriminate. }
  split; [exact NK|]. split; [exact NM|].
  destruct (nth_error (st_ths (ls_lock L)) i) as [ti|] eqn:Hi; [|discriminate]. destruct (nth_error (ls_ths L) i) as [hi|] eqn:Hh; [|discriminate].
  assert (ASK : forall q n, n <> i -> nth_error (st_ths (ask L i q)) n = nth_error (st_ths (ls_lock L)) n).
  { intros q n N. unfold ask. rewrite Hi. cbn. rewrite nth_error_set_nth. destruct (Nat.eqb_spec i n); [congruence|reflexivity]. }
  assert (SAME : set_nth (ls_ths L) i hi = ls_ths L) by now apply set_nth_same.
  destruct (in_lock ti).
  - destruct (RWLockM.step (ls_lock L) i) as [lk|] eqn:ES; [|discriminate]. injection H as <-.
    assert (OTH : forall n, n <> i -> nth_error (st_ths lk) n = nth_error (st_ths (ls_lock L)) n).
    { intros n N. apply step_inv in ES as (v & h' & v' & Hk & Hs & ->). cbn. rewrite nth_error_set_nth. destruct (Nat.eqb_spec i n); [congruence|reflexivity]. }
    destruct (h_ph hi); [rewrite <- SAME| rewrite <- SAME|unfold go]; (eapply jam_other; [exact J|exact NK|exact NM|exact OTH]).
  - unfold go in H. destruct (h_ph hi) as [|r1 c1 p1|o out].
    + destruct (h_todo hi) as [|o q]; [discriminate|]. destruct o as [y|n|n0 p0 i0 s0|r1 c1]; try discriminate;
        try (injection H as <-; eapply jam_other; [exact J|exact NK|exact NM|apply ASK]).
      destruct (Nat.ltb r1 (length (ls_rds L))); [|discriminate]. injection H as <-. eapply jam_other; [exact J|exact NK|exact NM|auto].
    + destruct p1; repeat match type of H with
      | Some _ = Some _ => fail 1
      | (match ?x with _ => _ end) = _ => destruct x eqn:?; try discriminate
      end; injection H as <-; (eapply jam_other; [exact J|exact NK|exact NM|first [apply ASK|auto]]).
    + destruct out; [|discriminate]. injection H as <-. eapply jam_other; [exact J|exact NK|exact NM|auto].
Qed.

Lemma out_keeps w f s P a l f' ls j L : frel w f s P a -> history c ls s -> f_step c clients f (FOut l) = Some f' -> the_lock f j = Some L ->
  exists L', the_lock f' j = Some L' /\ ls_lock L' = ls_lock L /\ ls_ths L' = ls_ths L.
Proof.
  intros F HI H HL. cbn [f_step] in H. destruct (outside (f_s f) l); [|discriminate]. destruct (may_attach f l); [|discriminate].
  cbn [andb] in H. destruct (sb_step c (f_s f) l) as [s0'|]; [|discriminate]. injection H as <-.
  unfold the_lock in *. cbn [f_bufs]. destruct (nth_error (f_bufs f) j) as [[L1|]|] eqn:E; try discriminate. injection HL as ->.
  destruct (fr_o _ _ _ _ _ _ _ F) as (t0 & t & O). unfold bufs_after. destruct l; try (rewrite E; eauto; fail).
  - destruct (sb_start (f_s f)) eqn:ES; try (rewrite E; eauto; fail).
    + rewrite nth_error_app1 by (eapply nth_lt; eauto). rewrite E. eauto.
    + destruct (buf_of s0' (latest (f_s f))); [|rewrite E; eauto]. rewrite nth_error_set_nth. destruct (Nat.eqb_spec (latest (f_s f)) j) as [Q|]; [|rewrite E; eauto].
      exfalso. pose proof (si_new _ (sinv_history c ls s HI)) as SN. rewrite <- (or_start _ _ _ _ _ O), ES in SN. destruct SN as (e & N1 & N2 & N3).
      rewrite <- (orel_latest _ _ _ _ _ O), Q in N1. pose proof (fr_buf _ _ _ _ _ _ _ F j) as FB. rewrite E in FB. destruct FB as (d & R & A1 & _).
      unfold buf_of in A1. rewrite N1 in A1. congruence.
  - rewrite nth_error_map, E. cbn. eauto.
  - repeat match goal with |- context [match nth_error (sb_rds ?z) r with _ => _ end] => destruct (nth_error (sb_rds z) r) as [?q|] end; try (rewrite E; eauto; fail).
    destruct (nth_error (f_bufs f) (rd_sess q)) as [[L1|]|] eqn:E1; try (rewrite E; eauto; fail).
    destruct (nth_error (f_bufs f) (rd_sess q0)) as [[L2|]|] eqn:E2; try (rewrite E; eauto; fail).
    destruct (nth_error (ls_rds L1) r); [|rewrite E; eauto]. rewrite nth_error_set_nth. destruct (Nat.eqb_spec (rd_sess q0) j) as [Q|]; [|rewrite E; eauto].
    rewrite <- Q in *. rewrite E2. assert (L2 = L) by congruence. subst L2. unfold at_reader. eexists. split; [reflexivity|]. auto.
  - rewrite nth_error_map, E. cbn. eauto.
Qed.

Lemma stuck_begin w f s P a j k m r cl x j' i o f' : frel w f s P a -> stuck j k m r cl x f -> begin_op f j' i o = Some f' ->
  stuck j k m r cl x f' /\ f_tr f' = f_tr f ++ [FInv j' i o].
Proof.
  intros F (L & HL & J) H. unfold begin_op in H. destruct (the_lock f j') as [L1|] eqn:H1; [|discriminate].
  destruct (nth_error (ls_ths L1) i) as [[ph td]|] eqn:Hh; [|discriminate]. destruct ph; try discriminate. destruct td; [|discriminate].
  destruct (lstep _ i) as [L'|] eqn:HS; [|discriminate]. injection H as <-. split; [|reflexivity].
  unfold stuck, the_lock in *. cbn [f_bufs]. rewrite nth_error_set_nth. destruct (Nat.eqb_spec j' j) as [->|N]; [|eauto].
  destruct (nth_error (f_bufs f) j) as [[L2|]|] eqn:E; try discriminate. injection HL as ->. injection H1 as ->.
  eexists. split; [reflexivity|].
  pose proof (fr_buf _ _ _ _ _ _ _ F j) as FB. rewrite E in FB. destruct FB as (d & R & A1 & A2 & _).
  assert (NN : i <> k /\ i <> m). { destruct J as (t & u & hk & hm & p & _ & X1 & X2 & X3 & X4). split; intros ->; rewrite Hh in *; [injection X1 as <-|injection X3 as <-]; discriminate. }
  apply (jam_same _ _ _ _ _ _ L'); [|reflexivity|reflexivity]. eapply jam_step; [| |exact HS]; [apply (sm_lock _ _ _ _ A2)|].
  eapply jam_other; [exact J|apply NN|apply NN|reflexivity].
Qed.

Lemma stuck_step w f s P a ls j k m r cl x l f' : frel w f s P a -> history c ls s -> stuck j k m r cl x f -> clients <= m -> f_step c clients f l = Some f' ->
  stuck j k m r cl x f' /\ exists es, f_tr f' = f_tr f ++ es /\
    (forall v, ~ In (FRes j k (LCall r cl) v) es) /\ (forall v, ~ In (FEv (ERead (m - clients) v)) es) /\ (forall v, ~ In (FEv (EClose (m - clients) v)) es).
Proof.
  intros F HI ST CM H.
  assert (PUT : exists e, nth_error (sb_ss (f_s f)) (m - clients) = Some e /\ se_pc e = TPut j x).
  { destruct ST as (L & HL & t & u & hk & hm & p & (_ & _ & _ & DT & _) & _ & _ & X3 & X4). unfold the_lock in HL.
    pose proof (fr_buf _ _ _ _ _ _ _ F j) as FB. destruct (nth_error (f_bufs f) j) as [[L2|]|]; try discriminate. injection HL as ->.
    destruct FB as (d & R & A1 & A2 & _). pose proof (sm_th _ _ _ _ A2 m u hm DT X3) as T. unfold thread_rel in T. rewrite X4 in T. destruct T as (_ & T & _).
    pose proof (fr_slot _ _ _ _ _ _ _ F j m) as SL. rewrite T in SL. cbn in SL. unfold op_ok in SL. destruct (Nat.leb_spec clients m); [|lia].
    destruct SL as (e & y & Y1 & Y2 & Y3). injection Y3 as <-. eauto. }
  destruct PUT as (e & He & Hp). destruct l as [l|k' r' cl'|i|j' i].
  - destruct ST as (L & HL & J). destruct (out_keeps _ _ _ _ _ _ _ _ _ _ F HI H HL) as (L' & HL' & E1 & E2). split.
    + exists L'. split; [exact HL'|]. eapply jam_same; eauto.
    + cbn [f_step] in H. destruct (outside (f_s f) l) eqn:OU; [|discriminate]. destruct (may_attach f l); [|discriminate]. cbn [andb] in H.
      destruct (sb_step c (f_s f) l) as [s0'|] eqn:HS; [|discriminate]. injection H as <-. cbn [f_tr]. eexists. split; [reflexivity|].
      destruct (out_own c _ _ _ OU HS) as (es & E & X). rewrite E, skipn_app, skipn_all, Nat.sub_diag. cbn [skipn app].
      assert (NO : ~ exists o, l = LT (m - clients) o) by (intros (o & ->); cbn in OU; rewrite He, Hp in OU; discriminate).
      split; [|split]; intros v Y; apply in_map_iff in Y as (e1 & Q & Y); [discriminate| |]; injection Q as ->.
      * exact (NO (proj1 (X _ v) Y)).
      * exact (NO (proj2 (X _ (Ok PNone)) v Y)).
  - cbn [f_step] in H. assert (B : exists j1, begin_op f j1 k' (LCall r' cl') = Some f').
    { destruct cl'; try discriminate; destruct (Nat.ltb k' clients); try discriminate; destruct (nth_error (sb_rds (f_s f)) r') as [q|]; try discriminate;
        destruct (the_lock f (rd_sess q)) as [L|]; try discriminate; destruct (calling L r'); try discriminate; eauto. }
    destruct B as (j1 & B). destruct (stuck_begin _ _ _ _ _ _ _ _ _ _ _ _ _ _ _ F ST B) as [S1 E]. split; [exact S1|]. eexists. split; [exact E|].
    repeat split; intros v [Y|[]]; discriminate.
  - cbn [f_step] in H. rename i into i0. destruct (nth_error (sb_ss (f_s f)) i0) as [e0|]; [|discriminate]. destruct (se_pc e0); try discriminate.
    destruct (stuck_begin _ _ _ _ _ _ _ _ _ _ _ _ _ _ _ F ST H) as [S1 E]. split; [exact S1|]. eexists. split; [exact E|].
    repeat split; intros v [Y|[]]; discriminate.
  - cbn [f_step] in H. destruct (the_lock f j') as [L1|] eqn:H1; [|discriminate]. destruct (nth_error (ls_ths L1) i) as [h|] eqn:Hh; [|discriminate].
    destruct (lstep L1 i) as [L'|] eqn:HS; [|destruct h as [[] ?]; discriminate].
    assert (RES : exists s0' tr', f' = MkF s0' (set_nth (f_bufs f) j' (Some (MkLs (ls_lock L') (ls_rds L') (ls_ths L') []))) (f_tr f ++ tr') /\ forall g, In g tr' -> exists o v, g = FRes j' i o v).
    { destruct h as [[|r1 c1 p1|o1 out1] td]; [discriminate| |]; destruct (ls_tr L') as [|[|i1 o v] tl]; injection H as <-;
        first [exists (f_s f), []; rewrite app_nil_r; split; [reflexivity|intros g []]|eexists _, _; split; [reflexivity|]; intros g [<-|[]]; eauto]. }
    destruct RES as (s0' & tr' & -> & TR). clear H. destruct ST as (L & HL & J).
    assert (NO : stuck j k m r cl x (MkF s0' (set_nth (f_bufs f) j' (Some (MkLs (ls_lock L') (ls_rds L') (ls_ths L') []))) (f_tr f ++ tr')) /\ (j' = j -> i <> k)).
    { unfold stuck, the_lock in *. cbn [f_bufs]. rewrite nth_error_set_nth. destruct (Nat.eqb_spec j' j) as [->|N]; [|split; [eauto|congruence]].
      destruct (nth_error (f_bufs f) j) as [[L2|]|] eqn:E; try discriminate. injection HL as ->. injection H1 as ->.
      pose proof (fr_buf _ _ _ _ _ _ _ F j) as FB. rewrite E in FB. destruct FB as (d & R & A1 & A2 & _).
      destruct (jam_step j k m r cl x _ i L' (sm_lock _ _ _ _ A2) J HS) as (N1 & N2 & J'). split; [|auto].
      eexists. split; [reflexivity|]. eapply jam_same; [exact J'|reflexivity|reflexivity]. }
    destruct NO as [S1 NO]. split; [exact S1|]. exists tr'. cbn [f_tr]. split; [reflexivity|].
    split; [|split]; intros v Y; apply TR in Y as (o & v' & Q); try discriminate. injection Q as -> -> _ _. now apply NO.
Qed.

Lemma stuck_forever fls : forall w f s P a ls j k m r cl x f', frel w f s P a -> history c ls s -> stuck j k m r cl x f -> clients <= m -> f_run c clients f fls = Some f' ->
  stuck j k m r cl x f' /\ exists es, f_tr f' = f_tr f ++ es /\
    (forall v, ~ In (FRes j k (LCall r cl) v) es) /\ (forall v, ~ In (FEv (ERead (m - clients) v)) es) /\ (forall v, ~ In (FEv (EClose (m - clients) v)) es).
Proof.
  induction fls as [|l fls IH]; intros w f s P a ls j k m r cl x f' F HI ST CM H; cbn in H.
  - injection H as <-. split; [exact ST|]. exists []. rewrite app_nil_r. auto.
  - destruct (f_step c clients f l) as [f1|] eqn:E; [|discriminate].
    destruct (any_step c clients AU _ _ _ _ _ _ _ _ F HI E) as (ls1 & s1 & w1 & P1 & a1 & H1 & F1).
    destruct (stuck_step _ _ _ _ _ _ _ _ _ _ _ _ _ _ F HI ST CM E) as (S1 & es1 & E1 & X1 & X2 & X3).
    destruct (IH _ _ _ _ _ _ _ _ _ _ _ _ _ F1 H1 S1 CM H) as (S2 & es2 & E2 & Y1 & Y2 & Y3). split; [exact S2|].
    exists (es1 ++ es2). rewrite E2, E1, app_assoc. split; [reflexivity|].
    split; [|split]; intros v Z; apply in_app_or in Z as [Z|Z]; [eapply X1|eapply Y1|eapply X2|eapply Y2|eapply X3|eapply Y3]; eauto.
Qed.
End Hang.
