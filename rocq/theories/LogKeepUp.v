(** * A reader that keeps up, on the log; sources for which accepted keys increase *)
From Coq Require Import List ZArith Bool Arith Lia Sorting.Sorted.
From Verif Require Import PyVal PyLib PyValFacts SortedDequeM BufferReaderM BufferSysM Spec SpecDeque SpecReader SpecLog
  BisectFacts ListFacts DequeFacts DequeSearch ReaderFacts ReaderLoops LogFacts LogReads.
Import ListNotations.

Lemma init_empty key m d0 : sd_init [] key m = Ok d0 ->
  sd_key d0 = key /\ sd_items d0 = [] /\ sd_bound d0 = option_map Z.to_nat m /\ (forall P, buffer_in P d0).
Proof.
  intro H. pose proof H as H'. unfold sd_init in H. cbn in H. unfold check_maxlen in H.
  assert (E : d0 = MkSD [] [] key (option_map Z.to_nat m) m).
  { destruct m as [z|]; [destruct (Z.ltb z 0)|]; cbn in H; try discriminate; injection H as <-;
      unfold deque_of; cbn; try reflexivity; destruct (Z.to_nat z); reflexivity. }
  subst d0. cbn. repeat split; auto. intro P. exists key, m, (MkSD [] [] key (option_map Z.to_nat m) m), [].
  repeat split; auto. intros x k [].
Qed.
Lemma init_rel P key m d0 : sd_init [] key m = Ok d0 -> rel P key (option_map Z.to_nat m) (MkBS d0 []) empty_log.
Proof.
  intro H. destruct (init_empty key m d0 H) as (E1 & E2 & E3 & E4). constructor; cbn; auto.
  - intros. rewrite E2. cbn. lia.
  - constructor; [intros x []| constructor | intros []].
Qed.

Section Nodrop.
  Variable P : pyval -> Prop.
  Hypothesis F : total_family P.
  Variable key : pyval -> res pyval.
  Variable maxlen : option nat.
  Hypothesis Hmax : maxlen <> Some 0.
  Definition is_drop (o : lop) : bool := match o with LDrop n => Z.ltb 0 n | _ => false end.

  Lemma nodrop_step s L o : rel P key maxlen s L -> (lg L = [] \/ window L <> []) -> op_ok P key o -> is_drop o = false ->
    strictly_ordered key (lg (fst (log_step key maxlen L o))) /\
    (lg (fst (log_step key maxlen L o)) = [] \/ window (fst (log_step key maxlen L o)) <> []).
  Proof.
    intros R HW OK HD. destruct (rl_log _ _ _ _ _ R) as [HK HS HN].
    destruct o as [x|n|n p st ig|i a]; cbn [log_step].
    - destruct OK as [_ HPx]. destruct (key x) as [k|e] eqn:Ek; [|auto].
      destruct (match rev (window L) with [] => _ | _ => _ end) eqn:EA; [|auto]. cbn [fst lg].
      split.
      + unfold strictly_ordered. apply sorted_app; auto; [repeat constructor|].
        intros y z Hy [<-|[]]. destruct HW as [E0|HW]; [rewrite E0 in Hy; destruct Hy|].
        destruct (rev (window L)) as [|w q] eqn:EW.
        { exfalso. apply HW. rewrite <- (rev_involutive (window L)), EW. reflexivity. }
        unfold key_sat in EA. destruct (key w) as [kw|] eqn:Ew; [|discriminate].
        assert (Elog : exists t, lg L = t ++ [w]).
        { exists (firstn (lg_base L) (lg L) ++ rev q). rewrite <- (firstn_skipn (lg_base L) (lg L)) at 1.
          fold (window L). rewrite <- app_assoc. f_equal. rewrite <- (rev_involutive (window L)), EW. reflexivity. }
        destruct Elog as (t & Et). rewrite Et in *.
        apply (sorted_last (key_before key) t w) with (x := y); auto; [apply before_trans|].
        exists kw, k. auto.
      + right. unfold window. cbn [lg lg_base].
        intro H. apply (proj1 (skipn_nil_iff _ _)) in H. rewrite app_length in H. cbn [length] in H. fold (window L) in H.
        pose proof (rl_base _ _ _ _ _ R) as Hb.
        assert (Hwl : length (window L) = length (lg L) - lg_base L) by apply skipn_length.
        destruct maxlen as [m|]; [|lia]. revert H. destruct (Nat.ltb_spec m (length (window L) + 1)); intro H'; [|lia].
        destruct m; [congruence|]. lia.
    - cbn [is_drop] in HD. apply Z.ltb_ge in HD. cbn [fst lg]. split; [assumption|].
      replace (Nat.min (lg_base L + Z.to_nat n) (length (lg L))) with (lg_base L).
      + exact HW.
      + pose proof (rl_base _ _ _ _ _ R). lia.
    - cbn. auto.
    - destruct (nth_error (lg_rds L) i); [|auto]. destruct (log_call _ _ _ _ _). cbn. auto.
  Qed.
  Lemma nodrop_run ops : forall s L, rel P key maxlen s L -> (lg L = [] \/ window L <> []) ->
    Forall (op_ok P key) ops -> existsb is_drop ops = false ->
    strictly_ordered key (lg L ++ accepted ops (snd (bsys_run s ops))).
  Proof.
    induction ops as [|o ops IH]; intros s L R HW OK HD; cbn [bsys_run].
    - cbn. rewrite app_nil_r. apply (lo_strict _ _ _ (rl_log _ _ _ _ _ R)).
    - inversion OK as [|? ? OK1 OK2]; subst. cbn in HD. apply orb_false_iff in HD as [HD1 HD2].
      destruct (step_sim P F key maxlen s L o R OK1) as [E1 R1].
      destruct (nodrop_step s L o R HW OK1 HD1) as [HS HW1].
      pose proof (log_step_log key maxlen L o) as EL. specialize (R1 HS).
      destruct (bsys_step s o) as [s1 v]. destruct (log_step key maxlen L o) as [L1 v']. cbn [fst snd] in *. subst v'.
      specialize (IH s1 L1 R1 HW1 OK2 HD2). destruct (bsys_run s1 ops) as [s2 vs]. cbn [snd] in *.
      rewrite accepted_cons, app_assoc, <- EL. exact IH.
  Qed.
End Nodrop.

Section KeepUp.
  Variable P : pyval -> Prop.
  Hypothesis F : total_family P.
  Variable key : pyval -> res pyval.
  Variable maxlen : option nat.
  Variable i : nat.

  (** On the log: position = number of items got. *)
  Definition ku_inv (mk : list bool) (L : slog) (G : list pyval) : Prop :=
    length (lg_rds L) = length mk /\
    G = firstn (length G) (lg L) /\
    match nth_error (lg_rds L) i with
    | None => G = []
    | Some c => nth_error mk i = Some (c_peek c) /\ c_pos c = length G
    end.
  Lemma read_pos log base c n ignore strict G : ~ In PNone log -> base <= length G -> c_pos c = length G ->
    G = firstn (length G) log ->
    let (c', v) := log_read log base c n false ignore strict in
    c_pos c' = length (G ++ got_from (OVal v)) /\ c_peek c' = c_peek c /\
    G ++ got_from (OVal v) = firstn (length (G ++ got_from (OVal v))) log /\
    (strict = false -> got_from (OVal v) = [] -> skipn (length G) log = []).
  Proof.
    intros HN Hb Hp HG. unfold log_read, next_pos. rewrite Hp, Nat.max_l by lia.
    assert (HGl : length G <= length log).
    { rewrite HG at 1. rewrite firstn_length. lia. }
    destruct (skipn (length G) log) as [|x u] eqn:E.
    - assert (got_from (OVal (nothing ignore ValueError)) = []) as -> by now destruct ignore.
      rewrite app_nil_r. repeat split; auto.
    - assert (Hx : x <> PNone).
      { intros ->. apply HN. rewrite <- (firstn_skipn (length G) log), E. apply in_app_iff. right. now left. }
      assert (Hl : length (x :: u) = length log - length G) by (rewrite <- E; apply skipn_length).
      assert (Happ : forall k, k <= length (x :: u) -> G ++ firstn k (x :: u) = firstn (length G + k) log).
      { intros k Hk. rewrite HG at 1. rewrite <- E.
        rewrite <- (firstn_skipn (length G) (firstn (length G + k) log)), firstn_firstn, Nat.min_l by lia. f_equal.
        rewrite skipn_firstn_comm. now replace (length G + k - length G) with k by lia. }
      destruct (Z.leb_spec n 1) as [Ln|Ln].
      + assert (got_from (OVal (Ok (VItem x))) = [x]) as -> by (cbn; destruct x; congruence).
        cbn [c_pos c_peek goto]. rewrite app_length. cbn [length]. repeat split; try lia.
        * rewrite <- (Happ 1) by (cbn [length]; lia). reflexivity.
        * discriminate.
      + destruct (strict && _) eqn:ES.
        * cbn [got_from]. rewrite app_nil_r. repeat split; auto. intros ->. discriminate.
        * cbn [got_from c_pos c_peek goto].
          set (k := Nat.min (Z.to_nat n) (length (x :: u))).
          assert (firstn (Z.to_nat n) (x :: u) = firstn k (x :: u)) as ->.
          { subst k. destruct (le_lt_dec (Z.to_nat n) (length (x :: u))).
            - now rewrite Nat.min_l by lia.
            - rewrite Nat.min_r by lia. now rewrite !firstn_all2 by lia. }
          assert (0 < k <= length (x :: u)) by (cbn [length] in *; lia).
          rewrite app_length, firstn_length, (Nat.min_l k) by lia. repeat split; [lia| |].
          -- apply Happ. lia.
          -- intros _ H0. destruct k; [lia|discriminate].
  Qed.
  Lemma ku_step mk L G o : ~ In PNone (lg (fst (log_step key maxlen L o))) ->
    ku_inv mk L G -> lg_base L <= length G -> forward i o ->
    nth_error (mk ++ made [o]) i <> Some true ->
    let (L', v) := log_step key maxlen L o in
    ku_inv (mk ++ made [o]) L' (G ++ got i [o] [v]).
  Proof.
    intros HN (HM & HG & HR) Hb FW HP. pose proof (log_step_log key maxlen L o) as EL.
    destruct o as [x|n|n p st ig|j c]; cbn [log_step made got] in *; rewrite ?app_nil_r in *.
    - assert (forall L', (exists e, lg L' = lg L ++ e) -> lg_rds L' = lg_rds L -> ku_inv mk L' G) as K.
      { intros L' (e & E) Er. split; [congruence|]. split; [|now rewrite Er].
        rewrite E, firstn_app. assert (length G <= length (lg L)) by (rewrite HG at 1; rewrite firstn_length; lia).
        replace (length G - length (lg L)) with 0 by lia. cbn [firstn]. now rewrite app_nil_r. }
      destruct (key x); [|apply K; auto; exists []; now rewrite app_nil_r].
      destruct (match rev (window L) with [] => _ | _ => _ end); apply K; cbn; eauto.
    - split; auto.
    - split; [cbn; rewrite !app_length; cbn; lia|]. split; [assumption|]. cbn [lg_rds].
      destruct (lt_eq_lt_dec i (length (lg_rds L))) as [[Li|Li]|Li].
      + rewrite nth_error_app1 by assumption. destruct (nth_error (lg_rds L) i); [|assumption].
        destruct HR as [H1 H2]. split; [|assumption]. now rewrite nth_error_app1 by congruence.
      + assert (nth_error (lg_rds L) i = None) as E by (apply nth_error_None; lia). rewrite E in HR. subst G.
        rewrite nth_error_app2 by lia. rewrite Li, Nat.sub_diag. cbn [nth_error].
        rewrite nth_error_app2 by lia. rewrite HM, Nat.sub_diag. auto.
      + assert (nth_error (lg_rds L) i = None) as E by (apply nth_error_None; lia). rewrite E in HR.
        assert (nth_error (lg_rds L ++ [MkC 0 n p ig st]) i = None) as -> by (apply nth_error_None; rewrite app_length; cbn; lia).
        exact HR.
    - destruct (nth_error (lg_rds L) j) as [r|] eqn:Ej.
      2:{ cbn [got_from]. replace (if Nat.eqb i j then [] else []) with (@nil pyval) by now destruct (Nat.eqb i j).
          rewrite app_nil_r. split; auto. }
      destruct (log_call key (lg L) (lg_base L) r c) as [r' v] eqn:Er. cbn [fst lg] in *.
      destruct (Nat.eqb_spec i j) as [<-|Nij].
      2:{ rewrite app_nil_r. split; [cbn; now rewrite set_nth_length|]. split; [assumption|]. cbn [lg_rds].
          rewrite nth_error_set_nth. destruct (Nat.eqb_spec j i); [congruence|]. exact HR. }
      rewrite Ej in HR. destruct HR as [Hmk Hpos].
      assert (SH : c_pos r' = length (G ++ got_from (OVal v)) /\ c_peek r' = c_peek r /\
                   G ++ got_from (OVal v) = firstn (length (G ++ got_from (OVal v))) (lg L)).
      { destruct c as [a|stopped|g|pk ig on|pk]; cbn [forward] in FW; try congruence; cbn [log_call] in Er.
        - specialize (FW eq_refl). rewrite FW in Er.
          pose proof (read_pos (lg L) (lg_base L) r (dflt (a_n a) (c_n r)) (dflt (a_ignore a) (c_ignore r)) (dflt (a_strict a) (c_strict r)) G HN Hb Hpos HG) as K.
          rewrite Er in K. tauto.
        - assert (Hpk : c_peek r = false) by (destruct (c_peek r); congruence).
          unfold log_next in Er. destruct (skipn _ _).
          + injection Er as <- <-. replace (got_from _) with (@nil pyval) by now destruct stopped. rewrite app_nil_r. auto.
          + rewrite Hpk in Er.
            pose proof (read_pos (lg L) (lg_base L) r (c_n r) true (c_strict r) G HN Hb Hpos HG) as K. rewrite Er in K. tauto. }
      destruct SH as (S1 & S2 & S3). rewrite ?app_nil_r.
      split; [cbn; now rewrite set_nth_length|]. split; [exact S3|]. cbn [lg_rds].
      rewrite nth_error_set_nth, Nat.eqb_refl, Ej. split; [congruence|exact S1].
  Qed.

  Lemma rel_base s L : rel P key maxlen s L -> lg_base L = length (lg L) - length (sd_list (s_buf s)).
  Proof.
    intro R. unfold sd_list. rewrite (rl_items _ _ _ _ _ R), skipn_length. pose proof (rl_base _ _ _ _ _ R). lia.
  Qed.
  Lemma ku_run d0 : rel P key maxlen (MkBS d0 []) empty_log -> forall ops, Forall (op_ok P key) ops ->
    forward_reader i ops -> keeps_up d0 i ops ->
    let (s, outs) := bsys_run (MkBS d0 []) ops in
    strictly_ordered key (accepted ops outs) ->
    exists L, rel P key maxlen s L /\ lg L = accepted ops outs /\ ku_inv (made ops) L (got i ops outs) /\
      lg_base L <= length (got i ops outs).
  Proof.
    intros R0. induction ops as [|o ops IH] using rev_ind; intros OK [FW MK] KU.
    - cbn. intros _. exists empty_log. split; [exact R0|]. split; [reflexivity|]. split; [|cbn; lia]. repeat split. cbn. destruct i; reflexivity.
    - apply Forall_app in OK as [OK1 OK2]. apply Forall_app in FW as [FW1 FW2]. inversion OK2; inversion FW2; subst.
      pose proof (KU (ops ++ [o]) [] ltac:(now rewrite app_nil_r)) as KF.
      rewrite run_app in *. pose proof (run_length (MkBS d0 []) ops) as HL.
      assert (KU1 : keeps_up d0 i ops).
      { intros pre post E. apply (KU pre (post ++ [o])). rewrite E. now rewrite app_assoc. }
      rewrite made_app in *.
      destruct (bsys_run (MkBS d0 []) ops) as [s outs]. cbn [fst snd] in *.
      cbn [bsys_run] in *. destruct (bsys_step s o) as [s1 v] eqn:Es. cbn [fst snd] in *.
      rewrite accepted_app, got_app in * by auto. intro HS.
      destruct IH as (L & RL & EL & KI & HB); auto.
      + split; [assumption|]. intro E. apply MK. rewrite nth_error_app1; [assumption|]. apply nth_error_Some. congruence.
      + now apply strictly_ordered_app in HS.
      + destruct (step_sim P F key maxlen s L o RL H1) as [E1 R1].
        pose proof (log_step_log key maxlen L o) as E2. rewrite Es in E1, R1. cbn [fst snd] in E1, R1. rewrite <- E1 in E2.
        rewrite EL in E2. rewrite E2 in R1. specialize (R1 HS).
        pose proof (ku_step (made ops) L _ o (lo_none _ _ _ (rl_log _ _ _ _ _ R1)) KI HB H5 MK) as K.
        destruct (log_step key maxlen L o) as [L1 v1]. cbn [fst snd] in *. subst v1.
        exists L1. split; [exact R1|]. split; [exact E2|]. split; [exact K|]. rewrite (rel_base s1 L1 R1). rewrite E2. exact KF.
  Qed.
  Lemma ku_last d0 ops a : rel P key maxlen (MkBS d0 []) empty_log ->
    let ops' := ops ++ [LCall i (CRead a)] in
    Forall (op_ok P key) ops' -> forward_reader i ops' -> keeps_up d0 i ops' -> a_strict a = Some false ->
    i < length (made ops) ->
    let (s, outs) := bsys_run (MkBS d0 []) ops in
    strictly_ordered key (accepted ops outs) ->
    got_from (snd (bsys_step s (LCall i (CRead a)))) = [] -> got i ops outs = accepted ops outs.
  Proof.
    intros R0 ops' OK FW KU Ha Hi. apply Forall_app in OK as [OK1 OK2]. destruct FW as [FW MK].
    apply Forall_app in FW as [FW1 FW2]. inversion FW2; subst.
    assert (KU1 : keeps_up d0 i ops).
    { intros pre post E. apply (KU pre (post ++ [LCall i (CRead a)])). unfold ops'. rewrite E. now rewrite app_assoc. }
    subst ops'. rewrite made_app in MK. cbn in MK. rewrite app_nil_r in MK.
    pose proof (ku_run d0 R0 ops OK1 (conj FW1 MK) KU1) as K.
    destruct (bsys_run (MkBS d0 []) ops) as [s outs]. intros HS HG. destruct (K HS) as (L & RL & EL & (KI1 & KI2 & KI3) & HB).
    inversion OK2; subst. destruct (step_sim P F key maxlen s L _ RL H3) as [E1 _]. rewrite E1 in HG. clear E1.
    cbn [log_step] in HG. destruct (nth_error (lg_rds L) i) as [c|] eqn:Ec.
    2:{ apply nth_error_None in Ec. lia. }
    cbn [forward] in H1. specialize (H1 eq_refl). cbn [log_call] in HG. rewrite H1, Ha in HG. cbn [dflt] in HG.
    pose proof (read_pos (lg L) (lg_base L) c (dflt (a_n a) (c_n c)) (dflt (a_ignore a) (c_ignore c)) false _
      (lo_none _ _ _ (rl_log _ _ _ _ _ RL)) HB (proj2 KI3) KI2) as RP.
    destruct (log_read _ _ _ _ _ _ _) as [c' v]. cbn [snd] in HG. destruct RP as (_ & _ & _ & RP).
    specialize (RP eq_refl HG). apply skipn_nil_iff in RP. rewrite <- EL, KI2. now apply firstn_all2.
  Qed.
  Lemma ku_last_next d0 ops b : rel P key maxlen (MkBS d0 []) empty_log ->
    let ops' := ops ++ [LCall i (CNext b)] in
    Forall (op_ok P key) ops' -> forward_reader i ops' -> keeps_up d0 i ops' ->
    i < length (made ops) ->
    let (s, outs) := bsys_run (MkBS d0 []) ops in
    strictly_ordered key (accepted ops outs) ->
    (snd (bsys_step s (LCall i (CNext b))) = OVal (Ok VNone) \/ snd (bsys_step s (LCall i (CNext b))) = OVal (Raise StopIteration)) ->
    got i ops outs = accepted ops outs.
  Proof.
    intros R0 ops' OK FW KU Hi. apply Forall_app in OK as [OK1 OK2]. destruct FW as [FW MK].
    apply Forall_app in FW as [FW1 FW2].
    assert (KU1 : keeps_up d0 i ops).
    { intros pre post E. apply (KU pre (post ++ [LCall i (CNext b)])). unfold ops'. rewrite E. now rewrite app_assoc. }
    subst ops'. rewrite made_app in MK. cbn in MK. rewrite app_nil_r in MK.
    pose proof (ku_run d0 R0 ops OK1 (conj FW1 MK) KU1) as K.
    destruct (bsys_run (MkBS d0 []) ops) as [s outs]. intros HS HG. destruct (K HS) as (L & RL & EL & (KI1 & KI2 & KI3) & HB).
    inversion OK2; subst. destruct (step_sim P F key maxlen s L _ RL H1) as [E1 _]. rewrite E1 in HG. clear E1.
    cbn [log_step] in HG. destruct (nth_error (lg_rds L) i) as [c|] eqn:Ec.
    2:{ apply nth_error_None in Ec. lia. }
    cbn [log_call] in HG. unfold log_next in HG. destruct KI3 as [_ KI3]. unfold next_pos in *. rewrite KI3, Nat.max_l in HG by lia.
    destruct (skipn (length (got i ops outs)) (lg L)) as [|x u] eqn:EK.
    - apply skipn_nil_iff in EK. rewrite <- EL, KI2. now apply firstn_all2.
    - exfalso. assert (HX : x <> PNone).
      { intros ->. apply (lo_none _ _ _ (rl_log _ _ _ _ _ RL)).
        rewrite <- (firstn_skipn (length (got i ops outs)) (lg L)), EK. apply in_app_iff. right. now left. }
      unfold log_read, next_pos in HG. rewrite KI3, Nat.max_l, EK in HG by lia.
      destruct (Z.leb (c_n c) 1); [destruct HG as [HG|HG]; cbn in HG; [injection HG as HG; congruence|discriminate]|].
      destruct (c_strict c && _); destruct HG as [HG|HG]; cbn in HG; discriminate.
  Qed.
End KeepUp.
