(** * Property theorems: a reader among concurrent writers (C98) *)
From Coq Require Import List ZArith Bool Arith Lia Sorting.Sorted.
From Verif Require Import PyVal PyLib SortedDequeM Spec SpecDeque SpecLog SpecReader BufferReaderM BufferSysM Families ListFacts BisectFacts DequeFacts DequeSearch LogFacts LogReads
  PropsDeque PropsReader PropsLog RWLockM SpecLock LockFacts LockProps ReaderStepsM SpecLin LinFacts LinShape LinSim LinStep LinRun LinSerial PropsLin.
Import ListNotations.

(** ** Without drops, a buffer with room holds everything it accepted *)
Lemma strictly_nodup key l : strictly_ordered key l -> NoDup l.
Proof.
  unfold strictly_ordered. induction 1 as [|x l H IH F]; constructor; auto.
  intro I. rewrite Forall_forall in F. destruct (F x I) as (k & k' & E & E' & L). assert (k' = k) by congruence. subst k'. rewrite ltb_irrefl in L. discriminate.
Qed.
Definition unbounded (d : sdeque) : sdeque := MkSD (sd_keys d) (sd_items d) (sd_key d) None (sd_maxlen d).
Lemma append_with_room d x O : sinv d -> (forall y, In y (sd_items d) -> In y O) -> In x O ->
  (forall m, sd_bound d = Some m -> length O <= m) ->
  sd_append d x = (d, snd (sd_append d x)) /\ snd (sd_append d x) <> Ok tt \/
  snd (sd_append d x) = Ok tt /\ sd_items (fst (sd_append d x)) = sd_items d ++ [x].
Proof.
  intros S I X B.
  assert (SU : sinv (unbounded d)) by (destruct S; constructor; auto; discriminate).
  destruct (append_cases d x) as [(k & Hk & Hl & E)|(e & E)]; [right|left; rewrite E; split; [reflexivity|discriminate]].
  rewrite E. cbn [fst snd sd_items]. split; [reflexivity|].
  assert (ND : NoDup (sd_items d ++ [x])).
  { pose proof (sinv_append (unbounded d) x SU) as [C1 C2 _].
    assert (EU : fst (sd_append (unbounded d) x) = MkSD (sd_keys d ++ [k]) (sd_items d ++ [x]) (sd_key d) None (sd_maxlen d)).
    { unfold sd_append in *. unfold unbounded. cbn [sd_key sd_keys sd_items sd_bound sd_maxlen]. rewrite Hk in *.
      destruct (last_opt (sd_keys d)) as [l|]; [|reflexivity]. destruct (py_gt k l) as [[|]|]; [reflexivity|discriminate|discriminate]. }
    rewrite EU in C1, C2. unfold consistent in C1. cbn in C1, C2. exact (strictly_nodup _ _ (keyed_strict _ _ _ C1 C2)). }
  unfold deque_append. destruct (sd_bound d) as [m|] eqn:Eb; [|reflexivity].
  destruct (Nat.ltb_spec m (length (sd_items d ++ [x]))) as [L|L]; [|reflexivity]. exfalso.
  assert (length (sd_items d ++ [x]) <= length O).
  { apply NoDup_incl_length; [exact ND|]. intros y Hy. apply in_app_or in Hy as [Hy|[<-|[]]]; auto. }
  specialize (B m eq_refl). lia.
Qed.
Lemma run_with_room O ops : (forall x, In (LAppend x) ops -> In x O) -> Forall not_drop ops ->
  forall d rds, sinv d -> (forall y, In y (sd_items d) -> In y O) -> (forall m, sd_bound d = Some m -> length O <= m) ->
  let (s, outs) := bsys_run (MkBS d rds) ops in
  sinv (s_buf s) /\ sd_items (s_buf s) = sd_items d ++ accepted ops outs /\ sd_key (s_buf s) = sd_key d.
Proof.
  induction ops as [|o ops IH]; intros A N d rds S I B; cbn [bsys_run].
  - cbn. now rewrite app_nil_r.
  - inversion N as [|? ? N1 N2]; subst. assert (A' : forall x, In (LAppend x) ops -> In x O) by (intros; apply A; now right).
    destruct o as [x|z|n p st ig|i c]; cbn [bsys_step s_buf s_rds] in *.
    + pose proof (append_with_room d x O S I (A x (or_introl eq_refl)) B) as W. pose proof (sinv_append d x S) as S'.
      pose proof (append_key d x) as K'. assert (BD : sd_bound (fst (sd_append d x)) = sd_bound d).
      { destruct (append_cases d x) as [(k & _ & _ & ->)|(e & ->)]; reflexivity. }
      destruct (sd_append d x) as [d' v]. cbn [fst snd] in *.
      assert (I' : forall y, In y (sd_items d') -> In y O).
      { destruct W as [[E _]|[_ E]]; [injection E as ->; exact I|]. rewrite E. intros y Hy. apply in_app_or in Hy as [Hy|[<-|[]]]; [auto|]. apply A. now left. }
      specialize (IH A' N2 d' rds S' I' ltac:(rewrite BD; exact B)). cbn [s_buf s_rds] in *. destruct (bsys_run (MkBS d' rds) ops) as [s outs].
      cbv beta iota. destruct IH as (G1 & G2 & G3). split; [exact G1|]. split; [|congruence]. rewrite G2. destruct W as [[E Hv]|[-> E]].
      * injection E as ->. destruct v as [[]|]; [congruence|reflexivity].
      * rewrite E, <- app_assoc. reflexivity.
    + contradiction.
    + specialize (IH A' N2 d (rds ++ [mk_breader n p st ig]) S I B). cbn [s_buf s_rds] in *.
      destruct (bsys_run _ ops) as [s outs]. cbn [accepted]. exact IH.
    + destruct (nth_error rds i) as [r0|]; cbn [s_buf s_rds] in *.
      * destruct (BufferReaderM.run (do_call d c) r0) as [r' v]. specialize (IH A' N2 d (set_nth rds i r') S I B). cbn [s_buf s_rds].
        destruct (bsys_run _ ops) as [s outs]. cbn [accepted]. exact IH.
      * specialize (IH A' N2 d rds S I B). destruct (bsys_run _ ops) as [s outs]. cbn [accepted]. exact IH.
Qed.

(** ** Histories *)
Lemma filter_split_both {A} (f : A -> bool) w : forall c x rest, filter f w = c ++ x :: rest ->
  exists a b, w = a ++ x :: b /\ filter f a = c /\ filter f b = rest.
Proof.
  induction w as [|y w IH]; intros c x rest H; cbn in H; [now destruct c|].
  destruct (f y) eqn:E.
  - destruct c as [|y' c]; cbn in H; injection H as <- H.
    + exists [], w. auto.
    + destruct (IH c x rest H) as (a & b & -> & F1 & F2). exists (y :: a), b. cbn. rewrite E. subst. auto.
  - destruct (IH c x rest H) as (a & b & -> & F1 & F2). exists (y :: a), b. cbn. rewrite E. auto.
Qed.
Lemma split_last {A} (x : A) a : forall b c t, a ++ x :: b = c ++ x :: t -> ~ In x t -> exists d, c = a ++ d.
Proof.
  induction a as [|y a IH]; intros b c t E N; [now exists c|]. destruct c as [|z c]; cbn in E.
  - injection E as E1 E2. exfalso. apply N. rewrite <- E2. apply in_or_app. right. now left.
  - injection E as <- E. destruct (IH _ _ _ E N) as (d & ->). now exists d.
Qed.
Lemma seen_last w : forall l e, seen w = l ++ [e] -> exists w1 x w2, w = w1 ++ x :: w2 /\ seen [x] = [e] /\ seen w1 = l.
Proof.
  induction w as [|y w IH] using rev_ind; intros l e H; [now destruct l|]. rewrite seen_app in H.
  destruct y as [i o|i o v|i o v]; cbn in H.
  - apply app_inj_tail in H as [<- <-]. exists w, (XInv i o), []. auto.
  - rewrite app_nil_r in H. destruct (IH l e H) as (w1 & x & w2 & -> & E1 & E2). exists w1, x, (w2 ++ [XAct i o v]).
    split; [now rewrite <- app_assoc|]. auto.
  - apply app_inj_tail in H as [<- <-]. exists w, (XRes i o v), []. auto.
Qed.
Lemma one_prefix_closed w2 : forall w1 i, one_at_a_time (of_thread i (w1 ++ w2)) -> one_at_a_time (of_thread i w1).
Proof.
  induction w2 as [|e w2 IH]; intros w1 i H; [now rewrite app_nil_r in H|].
  change (e :: w2) with ([e] ++ w2) in H. rewrite app_assoc in H. apply IH in H. rewrite of_thread_app in H. cbn in H.
  destruct (Nat.eqb (thread_of e) i); [now apply one_snoc in H|now rewrite app_nil_r in H].
Qed.
Lemma seen_no_call i o b : ~ In (XInv i o) (of_thread i b) -> ~ In (HInv i o) (seen b).
Proof.
  intros N H. apply in_flat_map in H as (e & He & H). destruct e as [j o'|j o' v|j o' v]; cbn in H; [|tauto|destruct H as [H|[]]; discriminate].
  destruct H as [H|[]]. injection H as -> ->. apply N. apply filter_In. cbn. now rewrite Nat.eqb_refl.
Qed.
Lemma acts_answers_length w : length (acts w) = length (answers w).
Proof. induction w as [|[] w IH]; cbn; auto. Qed.
Lemma acted_accepted x i u w : In (XAct i (LAppend x) (OUnit (Ok u))) w -> In x (accepted (acts w) (answers w)).
Proof.
  intro H. apply in_split in H as (a & b & ->). rewrite acts_app, answers_app, accepted_app by apply acts_answers_length.
  apply in_or_app. right. cbn. now left.
Qed.
Lemma in_returned x tr : In x (returned tr) -> exists i u, In (HRes i (LAppend x) (OUnit (Ok u))) tr.
Proof.
  intro H. apply in_flat_map in H as (e & He & H). destruct e as [|i o v]; [contradiction|].
  destruct o; try contradiction. destruct v as [[u|]| |]; try contradiction. destruct H as [->|[]]. eauto.
Qed.
Lemma rfin_got r c : rfin r c -> flat_map (act_got r) c = flat_map (res_got r) c.
Proof.
  induction 1 as [|i o v w H IH]; [reflexivity|]. rewrite !flat_map_app, IH. reflexivity.
Qed.

(** ** C98 *)
Theorem C98_concurrent_reader_misses_nothing :
  forall P, total_family P -> forall key maxlen d0, sd_init [] key maxlen = Ok d0 ->
  forall defaults scripts r n st ig, nth_error defaults r = Some (n, false, st, ig) ->
  (forall q o, In q scripts -> In o q -> op_ok P key o /\ forward r o /\ not_drop o) ->
  forall sched s, lrun (linit d0 (map reader_of defaults) scripts) sched = Some s ->
  one_call_per_reader (ls_tr s) -> room maxlen (length (offered (ls_tr s))) ->
  (* what was received has no gaps *)
  (forall x y, In x (returned (ls_tr s)) -> In y (received r (ls_tr s)) -> key_before key x y -> In x (received r (ls_tr s))) /\
  (* when a read finds nothing, everything whose append had returned when it was called was received *)
  (forall a i c b v, ls_tr s = a ++ HInv i (LCall r (CRead c)) :: b ++ [HRes i (LCall r (CRead c)) v] ->
     a_strict c = Some false -> got_from v = [] ->
     forall x, In x (returned a) -> In x (received r (ls_tr s))).
Proof.
  intros P F key m d0 H0 ds scripts r n st ig Hr OK sched s HR NO RM.
  destruct (C80_linearizable _ _ _ _ H0 _ _ _ _ HR NO) as (w & W1 & W2 & W3 & _).
  assert (CALLED : forall i o, In (XInv i o) w -> exists q, nth_error scripts i = Some q /\ In o q).
  { intros i o Hin. apply (lrun_called _ _ _ _ _ HR). rewrite <- W1. now apply seen_inv. }
  assert (OPS : forall i o v, In (XAct i o v) w -> op_ok P key o /\ forward r o /\ not_drop o /\ forall x, o = LAppend x -> In x (offered (ls_tr s))).
  { intros i o v Hin. pose proof (acted_called w i o v (W2 i) Hin) as HI. destruct (CALLED i o HI) as (q & Q1 & Q2).
    destruct (OK q o (nth_error_In _ _ Q1) Q2) as (A1 & A2 & A3). split; [exact A1|]. split; [exact A2|]. split; [exact A3|].
    intros x ->. rewrite <- W1. apply in_flat_map. exists (HInv i (LAppend x)). split; [now apply seen_inv|now left]. }
  (* facts about every prefix of the explanation *)
  assert (PRE : forall p q, w = p ++ q ->
     let ops := map made_as ds ++ acts p in
     snd (bsys_run (MkBS d0 []) ops) = map (fun _ => OUnit (Ok tt)) ds ++ answers p /\
     Forall (op_ok P key) ops /\ forward_reader r ops /\ Forall not_drop ops /\
     (forall x, In (LAppend x) ops -> In x (offered (ls_tr s)))).
  { intros p q E. cbn zeta.
    assert (IN : forall o, In o (acts p) -> exists i v, In (XAct i o v) w).
    { intros o Ho. apply in_flat_map in Ho as (e & He & Ho). destruct e as [|i o' v|]; try contradiction. destruct Ho as [->|[]].
      exists i, v. rewrite E. apply in_or_app. now left. }
    split; [|split; [|split; [|split]]].
    - rewrite bsys_app, run_made. cbn [app].
      assert (G : bsys_run (MkBS d0 (map reader_of ds)) (acts p ++ acts q) = bsys_run (MkBS d0 (map reader_of ds)) (acts w)) by (rewrite E, acts_app; reflexivity).
      rewrite bsys_app in G. pose proof (run_length (MkBS d0 (map reader_of ds)) (acts p)) as RL. rewrite E, answers_app, <- E in W3.
      destruct (bsys_run (MkBS d0 (map reader_of ds)) (acts p)) as [b1 v1]. destruct (bsys_run b1 (acts q)) as [b2 v2].
      rewrite <- G in W3. cbn [snd] in W3, RL |- *. f_equal.
      pose proof (acts_answers_length p) as LA. apply (f_equal (firstn (length v1))) in W3.
      rewrite firstn_app, Nat.sub_diag, firstn_all, app_nil_r in W3. rewrite W3.
      rewrite RL, LA, firstn_app, Nat.sub_diag, firstn_all. cbn. now rewrite app_nil_r.
    - apply Forall_app. split; apply Forall_forall; intros o Ho.
      + apply in_map_iff in Ho as ([[[a b] c] e] & <- & _). exact I.
      + destruct (IN o Ho) as (i & v & Hv). apply (OPS i o v Hv).
    - split.
      + apply Forall_app. split; apply Forall_forall; intros o Ho.
        * apply in_map_iff in Ho as ([[[a b] c] e] & <- & _). exact I.
        * destruct (IN o Ho) as (i & v & Hv). apply (OPS i o v Hv).
      + assert (M : forall ds l r n st ig, nth_error ds r = Some (n, false, st, ig) -> nth_error (made (map made_as ds ++ l)) r = Some false).
        { clear. induction ds as [|[[[a b] c] e] ds IH]; intros l [|r] n st ig Hr; try discriminate; cbn in *; [congruence|].
          eapply IH; eauto. }
        rewrite (M _ _ _ _ _ _ Hr). discriminate.
    - apply Forall_app. split; apply Forall_forall; intros o Ho.
      + apply in_map_iff in Ho as ([[[a b] c] e] & <- & _). exact I.
      + destruct (IN o Ho) as (i & v & Hv). apply (OPS i o v Hv).
    - intros x Hx. apply in_app_or in Hx as [Hx|Hx].
      + apply in_map_iff in Hx as ([[[a b] c] e] & Hx & _). discriminate.
      + destruct (IN _ Hx) as (i & v & Hv). destruct (OPS i _ v Hv) as (_ & _ & _ & G). now apply G. }
  (* a buffer with room keeps everything *)
  pose proof (sinv_init key m d0 H0) as S0.
  assert (K0 : sd_key d0 = key) by now apply init_key in H0.
  assert (E0 : sd_items d0 = [] /\ forall k, sd_bound d0 = Some k -> length (offered (ls_tr s)) <= k).
  { unfold sd_init in H0. cbn in H0. destruct m as [m|]; cbn in H0.
    - destruct (Z.ltb_spec m 0); [discriminate|]. cbn in H0. injection H0 as <-. cbn. split; [reflexivity|]. intros k E. injection E as <-. cbn in RM. lia.
    - injection H0 as <-. cbn. split; [reflexivity|discriminate]. }
  destruct E0 as [E0 B0].
  assert (ROOM : forall ops, Forall not_drop ops -> (forall x, In (LAppend x) ops -> In x (offered (ls_tr s))) ->
     let (b, outs) := bsys_run (MkBS d0 []) ops in sinv (s_buf b) /\ sd_items (s_buf b) = accepted ops outs /\ sd_key (s_buf b) = key).
  { intros ops N A. pose proof (run_with_room (offered (ls_tr s)) ops A N d0 [] S0) as G. rewrite E0 in G.
    specialize (G ltac:(contradiction) B0). destruct (bsys_run (MkBS d0 []) ops) as [b outs]. rewrite K0 in G. exact G. }
  assert (ORD : forall ops, Forall not_drop ops -> (forall x, In (LAppend x) ops -> In x (offered (ls_tr s))) ->
     strictly_ordered key (accepted ops (snd (bsys_run (MkBS d0 []) ops)))).
  { intros ops N A. pose proof (ROOM ops N A) as G. destruct (bsys_run (MkBS d0 []) ops) as [b outs]. destruct G as ([C1 C2 _] & G2 & G3).
    cbn [snd]. rewrite <- G2, <- G3. exact (keyed_strict _ _ _ C1 C2). }
  assert (KU : forall ops, Forall not_drop ops -> (forall x, In (LAppend x) ops -> In x (offered (ls_tr s))) -> keeps_up d0 r ops).
  { intros ops N A pre post E. assert (N' : Forall not_drop pre) by (rewrite E in N; now apply Forall_app in N).
    assert (A' : forall x, In (LAppend x) pre -> In x (offered (ls_tr s))) by (intros x Hx; apply A; rewrite E; apply in_or_app; now left).
    pose proof (ROOM pre N' A') as G. destruct (bsys_run (MkBS d0 []) pre) as [b outs]. destruct G as (_ & G & _). unfold sd_list. rewrite G. lia. }
  assert (G0 : forall (ds : list (Z * bool * bool * bool)) o v, got r (map made_as ds ++ o) (map (fun _ => OUnit (Ok tt)) ds ++ v) = got r o v /\
     accepted (map made_as ds ++ o) (map (fun _ => OUnit (Ok tt)) ds ++ v) = accepted o v).
  { clear. induction ds as [|[[[a b] c] e] ds IH]; intros o v; cbn; auto. }
  assert (ACC : forall p q x, w = p ++ q -> In x (returned (seen p)) -> In x (accepted (acts p) (answers p))).
  { intros p q x E Hx. apply in_returned in Hx as (i & u & Hx). apply in_seen_res in Hx. apply (acted_accepted x i u).
    apply res_acted; [|exact Hx]. apply (one_prefix_closed q). rewrite <- E. apply W2. }
  split.
  - (* no gaps *)
    intros x y Hx Hy XY.
    destruct (PRE w [] ltac:(now rewrite app_nil_r)) as (E1 & O1 & O2 & O3 & O4).
    destruct (C22_keeps_up_misses_nothing P F key m d0 H0 _ O1 r O2 (KU _ O3 O4) (ORD _ O3 O4)) as [(rest & PFX) _].
    pose proof (ORD _ O3 O4) as SO. rewrite E1 in PFX, SO.
    destruct (G0 ds (acts w) (answers w)) as [G1 G2]. rewrite G1, G2 in PFX. rewrite G2 in SO. rewrite got_acts in PFX.
    destruct (proj2 (on_reader_got r w)) as (t & T); [apply one_prefix_got, calls_in_turn; [exact W2|now rewrite W1]|].
    rewrite T, <- app_assoc in PFX. rewrite <- W1 in Hx, Hy |- *. rewrite received_seen in Hy |- *.
    assert (HA : In x (accepted (acts w) (answers w))) by (apply (ACC w []); [now rewrite app_nil_r|exact Hx]).
    rewrite PFX in HA, SO. apply in_app_or in HA as [HA|HA]; [exact HA|]. exfalso.
    pose proof (StronglySorted_app_inv _ _ _ SO) as Q. destruct XY as (kx & ky & X1 & X2 & X3).
    destruct (Q y x Hy HA) as (ky' & kx' & Y1 & Y2 & Y3). assert (ky' = ky) by congruence. assert (kx' = kx) by congruence. subst.
    rewrite (ltb_asym _ _ X3) in Y3. discriminate.
  - (* a read that finds nothing *)
    intros a i c b v ET Hc Hv x Hx. set (o := LCall r (CRead c)) in *.
    assert (SW : seen w = (a ++ HInv i o :: b) ++ [HRes i o v]) by (rewrite W1, ET, <- app_assoc; reflexivity).
    destruct (seen_last w _ _ SW) as (w1 & e & w2 & EW & SE & SW1).
    assert (e = XRes i o v) as -> by (destruct e; cbn in SE; congruence).
    assert (OT : one_at_a_time (of_thread i (w1 ++ [XRes i o v]))).
    { apply (one_prefix_closed w2). rewrite <- app_assoc. cbn. rewrite <- EW. apply W2. }
    destruct (hist_exists i _ OT (of_thread_all _ _)) as (stt & HH).
    rewrite of_thread_app in HH. cbn in HH. rewrite Nat.eqb_refl in HH. destruct (hist_snoc _ _ _ _ HH) as [HB _].
    destruct HB as (c1 & _ & HB).
    assert (HB' : of_thread i w1 = (c1 ++ [XInv i o]) ++ XAct i o v :: []) by (rewrite HB, <- app_assoc; reflexivity).
    apply filter_split_both in HB' as (p & q & EP & FP & FQ).
    apply filter_split_both in FP as (p1 & p2 & EP1 & _ & FP2).
    (* the appends that had returned lie before *)
    assert (exists d, seen p1 = a ++ d) as (d & SD).
    { apply (split_last (HInv i o) a b (seen p1) (seen (p2 ++ XAct i o v :: q))).
      - rewrite <- SW1, EP, EP1, <- app_assoc. rewrite seen_app. reflexivity.
      - apply seen_no_call. rewrite of_thread_app. unfold of_thread. rewrite FP2. cbn. rewrite Nat.eqb_refl, FQ. cbn. intuition discriminate. }
    set (pa := p ++ [XAct i o v]).
    assert (EA : w = pa ++ q ++ XRes i o v :: w2) by (unfold pa; rewrite EW, EP, <- !app_assoc; reflexivity).
    destruct (PRE pa _ EA) as (E1 & O1 & O2 & O3 & O4).
    destruct (PRE p (XAct i o v :: q ++ XRes i o v :: w2) ltac:(rewrite EA; unfold pa; rewrite <- app_assoc; reflexivity)) as (E1' & _).
    assert (AP : map made_as ds ++ acts pa = (map made_as ds ++ acts p) ++ [LCall r (CRead c)]).
    { unfold pa. rewrite acts_app, app_assoc. reflexivity. }
    destruct (C22_keeps_up_misses_nothing P F key m d0 H0 _ O1 r O2 (KU _ O3 O4) (ORD _ O3 O4)) as [_ LAST].
    specialize (LAST c v _ AP Hc).
    assert (LM : r < length (made (map made_as ds ++ acts p))).
    { assert (LL : forall (ds : list (Z * bool * bool * bool)) l, length ds <= length (made (map made_as ds ++ l))).
      { clear. induction ds as [|[[[x1 x2] x3] x4] ds IH]; intro l; cbn; [lia|]. specialize (IH l). lia. }
      specialize (LL ds (acts p)). assert (r < length ds) by (apply nth_error_Some; congruence). lia. }
    specialize (LAST LM). rewrite E1, E1' in LAST.
    specialize (LAST ltac:(unfold pa; rewrite answers_app, app_assoc; reflexivity) Hv).
    destruct (G0 ds (acts pa) (answers pa)) as [G1 G2]. rewrite G1, G2, got_acts in LAST.
    assert (HA : In x (accepted (acts pa) (answers pa))).
    { assert (HP : In x (accepted (acts p1) (answers p1))).
      { apply (ACC p1 (XInv i o :: p2 ++ XAct i o v :: q ++ XRes i o v :: w2)).
        - rewrite EA. unfold pa. rewrite EP1, <- !app_assoc. reflexivity.
        - rewrite SD. unfold returned. rewrite flat_map_app. apply in_or_app. now left. }
      unfold pa. rewrite EP1, !acts_app, !answers_app, <- !app_assoc, accepted_app by apply acts_answers_length. apply in_or_app. now left. }
    rewrite <- LAST in HA.
    (* the calls on the reader before this one have returned *)
    assert (SER : serial r pa).
    { apply serial_run.
      - intro j. apply (one_prefix_closed (q ++ XRes i o v :: w2)). rewrite <- EA. apply W2.
      - apply (one_call_prefix _ (seen (q ++ XRes i o v :: w2))). rewrite <- seen_app, <- EA, W1. exact NO. }
    destruct SER as (cc & k & stk & RF & ER & _).
    assert (ONP : on_reader r pa = on_reader r p ++ [XAct i o v]).
    { unfold pa, on_reader. rewrite filter_app. cbn. now rewrite Nat.eqb_refl. }
    rewrite (got_on_reader r (act_got r) pa) in HA.
    2:{ intros [j oo|j oo vv|j oo vv] EE; auto. destruct oo; auto. cbn in *. now rewrite EE. }
    assert (CC : stk = Acted o v /\ on_reader r p = cc ++ [XInv k o]).
    { rewrite ONP in ER. destruct stk as [|o'|o' v']; cbn in ER.
      - rewrite app_nil_r in ER. symmetry in ER. destruct RF as [|i' o' v' cc RF]; [now destruct (on_reader r p)|].
        change [XInv i' o'; XAct i' o' v'; XRes i' o' v'] with ([XInv i' o'; XAct i' o' v'] ++ [XRes i' o' v']) in ER. rewrite app_assoc in ER.
        apply app_inj_tail in ER as [_ ER]. discriminate.
      - apply app_inj_tail in ER as [_ ER]. discriminate.
      - change [XInv k o'; XAct k o' v'] with ([XInv k o'] ++ [XAct k o' v']) in ER. rewrite app_assoc in ER.
        apply app_inj_tail in ER as [ER1 ER2]. injection ER2 as _ <- <-. auto. }
    destruct CC as [_ CC]. rewrite ONP, CC in HA. rewrite flat_map_app in HA. cbn in HA. rewrite Nat.eqb_refl, Hv in HA. rewrite !app_nil_r in HA.
    rewrite flat_map_app in HA. cbn in HA. rewrite app_nil_r in HA. rewrite (rfin_got r cc RF) in HA.
    rewrite <- W1, received_seen, EA, flat_map_app. apply in_or_app. left. unfold pa. rewrite flat_map_app. apply in_or_app. left.
    rewrite (got_on_reader r (res_got r) p).
    2:{ intros [j oo|j oo vv|j oo vv] EE; auto. destruct oo; auto. cbn in *. now rewrite EE. }
    rewrite CC, flat_map_app. apply in_or_app. now left.
Qed.
Print Assumptions C98_concurrent_reader_misses_nothing.
(** Two writers and one reader, all overlapping; the last read finds nothing. *)
Definition loose : rargs := MkRA None None None (Some false).
Definition conc_scripts : list (list lop) :=
  [[LAppend (row 1 0); LAppend (row 3 0)]; [LAppend (row 2 0)];
   [LCall 0 (CRead loose); LCall 0 (CRead loose); LCall 0 (CRead loose); LCall 0 (CRead loose)]].
Definition conc_start : lstate := linit empty_buf (map reader_of [(1%Z, false, false, true)]) conc_scripts.
Definition conc_sched : list nat := in_turn 2000 conc_start [0; 2; 1; 2; 0].
Example C98_nonvacuous :
  sd_init [] fst_key (Some 3%Z) = Ok empty_buf /\
  (forall q o, In q conc_scripts -> In o q -> op_ok is_int fst_key o /\ forward 0 o /\ not_drop o) /\
  exists s, lrun conc_start conc_sched = Some s /\ one_call_per_reader (ls_tr s) /\
    room (Some 3%Z) (length (offered (ls_tr s))) /\
    received 0 (ls_tr s) = [row 1 0; row 2 0; row 3 0] /\
    exists a b, ls_tr s = a ++ HInv 2 (LCall 0 (CRead loose)) :: b ++ [HRes 2 (LCall 0 (CRead loose)) (OVal (Ok VNone))] /\
      returned a = [row 1 0; row 2 0; row 3 0].
Proof.
  split; [reflexivity|]. split.
  { intros q o Hq Ho. cbn in Hq.
    repeat destruct Hq as [<-|Hq]; try contradiction; cbn in Ho; repeat destruct Ho as [<-|Ho]; try contradiction; cbn;
      (split; [|split; [auto|exact I]]); auto; split; try discriminate; intros k E; injection E as <-; eexists; reflexivity. }
  set (rd := LCall 0 (CRead loose)).
  destruct (look_at ls_tr (lrun conc_start conc_sched)
    ([HInv 0 (LAppend (row 1 0)); HInv 2 rd; HInv 1 (LAppend (row 2 0)); HRes 0 (LAppend (row 1 0)) (OUnit (Ok tt)); HInv 0 (LAppend (row 3 0));
     HRes 1 (LAppend (row 2 0)) (OUnit (Ok tt)); HRes 0 (LAppend (row 3 0)) (OUnit (Ok tt)); HRes 2 rd (OVal (Ok (VItem (row 1 0))));
     HInv 2 rd; HRes 2 rd (OVal (Ok (VItem (row 2 0)))); HInv 2 rd; HRes 2 rd (OVal (Ok (VItem (row 3 0)))); HInv 2 rd; HRes 2 rd (OVal (Ok VNone))]))
    as (s & E & O); [vm_compute; reflexivity|].
  exists s. split; [exact E|]. rewrite O. unfold rd. split; [check_overlaps|]. split; [cbn; lia|]. split; [reflexivity|].
  eexists (_ :: _ :: _ :: _ :: _ :: _ :: _ :: _ :: _ :: _ :: _ :: _ :: []), []. split; [reflexivity|]. reflexivity.
Qed.
