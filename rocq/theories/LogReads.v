(** * What a forward-moving reader gets *)
From Coq Require Import List ZArith Bool Arith Lia Sorting.Sorted.
From Verif Require Import PyVal PyLib PyValFacts SortedDequeM BufferReaderM BufferSysM Spec SpecDeque SpecReader SpecLog
  BisectFacts ListFacts DequeFacts DequeSearch ReaderFacts ReaderLoops LogFacts.
Import ListNotations.

(** ** Subsequences *)
Lemma subseq_nil_l {A} (l : list A) : subseq [] l.
Proof. induction l; constructor; auto. Qed.
Lemma subseq_refl {A} (l : list A) : subseq l l.
Proof. induction l; [constructor|now apply subseq_take]. Qed.
Lemma subseq_filter {A} (f : A -> bool) l : subseq (filter f l) l.
Proof. induction l as [|x l IH]; cbn; [constructor|]. destruct (f x); [now apply subseq_take|now apply subseq_skip]. Qed.
Lemma subseq_app {A} (a b c d : list A) : subseq a b -> subseq c d -> subseq (a ++ c) (b ++ d).
Proof. intros H K. induction H; cbn; [assumption|now apply subseq_skip|now apply subseq_take]. Qed.
Lemma subseq_in {A} (a b : list A) x : subseq a b -> In x a -> In x b.
Proof. induction 1; cbn; intuition. Qed.
Lemma subseq_sorted {A} (R : A -> A -> Prop) a b : subseq a b -> StronglySorted R b -> StronglySorted R a.
Proof.
  induction 1 as [|a b x H IH|a b x H IH]; intro S; inversion S; subst; auto.
  constructor; auto. rewrite Forall_forall in *. intros y Hy. apply H3. eapply subseq_in; eauto.
Qed.
Lemma subseq_prefix {A} (a b : list A) n m : n <= m -> subseq a (firstn n b) -> subseq a (firstn m b).
Proof.
  intros L H. rewrite <- (firstn_skipn n (firstn m b)), firstn_firstn, Nat.min_l by lia.
  rewrite <- (app_nil_r a). apply subseq_app; [assumption|apply subseq_nil_l].
Qed.
Lemma subseq_firstn {A} (a b : list A) n : subseq a (firstn n b) -> subseq a b.
Proof.
  intro H. rewrite <- (firstn_skipn n b), <- (app_nil_r a). apply subseq_app; [assumption|apply subseq_nil_l].
Qed.
Lemma accepted_subseq ops : forall outs, subseq (accepted ops outs) (appended ops).
Proof.
  induction ops as [|o ops IH]; intros [|v outs]; try (destruct o; apply subseq_nil_l).
  - constructor.
  - constructor.
  - destruct o; cbn [appended]; [|cbn [accepted]; apply IH..].
    destruct v as [[[]|e]| |]; cbn [accepted]; [apply subseq_take|apply subseq_skip..]; apply IH.
Qed.
Lemma before_trans key x y z : key_before key x y -> key_before key y z -> key_before key x z.
Proof.
  intros (a & b & Ea & Eb & H) (b' & c & Eb' & Ec & K). assert (b' = b) by congruence. subst.
  exists a, c. repeat split; auto. now apply (ltb_trans a b c).
Qed.
Lemma sorted_app {A} (R : A -> A -> Prop) a b : StronglySorted R a -> StronglySorted R b ->
  (forall x y, In x a -> In y b -> R x y) -> StronglySorted R (a ++ b).
Proof.
  intros HA HB H. induction HA as [|x a HA IH HF]; [assumption|]. cbn. constructor.
  - apply IH. intros; apply H; [now right|assumption].
  - apply Forall_app. split; [assumption|]. apply Forall_forall. intros y Hy. apply H; [now left|assumption].
Qed.
Lemma sorted_last {A} (R : A -> A -> Prop) a z : (forall x y w, R x y -> R y w -> R x w) ->
  StronglySorted R (a ++ [z]) -> forall x w, In x (a ++ [z]) -> R z w -> R x w.
Proof.
  intros T. induction a as [|y a IH]; cbn; intros S x w Hx Hw.
  - destruct Hx as [->|[]]. assumption.
  - inversion S as [|? ? S' HF]; subst. destruct Hx as [->|Hx]; [|eauto].
    rewrite Forall_forall in HF. apply (T _ z); [|assumption]. apply HF, in_app_iff. cbn; auto.
Qed.

Lemma made_app a b : made (a ++ b) = made a ++ made b.
Proof. induction a as [|o a IH]; cbn; [reflexivity|]. destruct o; cbn; now rewrite ?IH. Qed.

Lemma nth_error_set_nth {A} (l : list A) i j x : nth_error (set_nth l i x) j =
  if Nat.eqb i j then (match nth_error l j with Some _ => Some x | None => None end) else nth_error l j.
Proof.
  revert i j. induction l as [|y l IH]; intros [|i] [|j]; cbn; auto.
  now destruct (Nat.eqb i j).
Qed.

Section Reads.
  Variable P : pyval -> Prop.
  Hypothesis F : total_family P.
  Variable key : pyval -> res pyval.

  (** ** The shape of a read that does not peek *)
  Lemma read_shape d n ignore strict r : ~ In PNone (sd_items d) ->
    exists k, fst (read_result d n false ignore strict r) = moved (sd_key d) false (firstn k (unseen (sd_key d) r (sd_items d))) r /\
      got_from (OVal (snd (read_result d n false ignore strict r))) = firstn k (unseen (sd_key d) r (sd_items d)).
  Proof.
    intro N. unfold read_result. destruct (unseen (sd_key d) r (sd_items d)) as [|x u] eqn:E.
    - exists 0. cbn. split; [reflexivity|]. now destruct ignore.
    - assert (Hx : x <> PNone).
      { intros ->. apply N, (unseen_in (sd_key d) r). rewrite E. now left. }
      destruct (Z.ltb 1 n).
      + destruct (strict && _); [exists 0; now cbn|]. exists (Z.to_nat n). cbn [fst snd]. split; [reflexivity|]. reflexivity.
      + exists 1. cbn [fst snd firstn]. split; [reflexivity|]. cbn. destruct x; auto. congruence.
  Qed.
  Lemma next_shape d stopped r : bok P d -> cursor_in P r -> ~ In PNone (sd_items d) -> rk_peek r = false ->
    exists k, fst (run (next_dunder d stopped) r) = moved (sd_key d) false (firstn k (unseen (sd_key d) r (sd_items d))) r /\
      got_from (OVal (snd (run (next_dunder d stopped) r))) = firstn k (unseen (sd_key d) r (sd_items d)).
  Proof.
    intros B H N HP. rewrite (next_closed P F d stopped r B H N), HP.
    destruct (unseen (sd_key d) r (sd_items d)) as [|x u] eqn:E.
    - exists 0. cbn. split; [reflexivity|]. now destruct stopped.
    - rewrite <- E. apply read_shape. assumption.
  Qed.

  (** ** Invariant *)
  Variable d0 : sdeque.
  Hypothesis Ekey0 : sd_key d0 = key.
  Hypothesis Eit0 : sd_items d0 = [].
  Hypothesis B0 : buffer_in P d0.
  Variable i : nat.

  Definition cursor_inv (A G : list pyval) (r : breader) : Prop :=
    (fresh r /\ G = []) \/
    exists G' p, G = G' ++ [r_last_item r] /\ nth_error A p = Some (r_last_item r) /\
      key (r_last_item r) = Ok (r_last_key r) /\ subseq G (firstn (S p) A) /\ strictly_ordered key G.
  Record fwd_inv (mk : list bool) (A G : list pyval) (s : bsys) : Prop := {
    fi_key : sd_key (s_buf s) = key;
    fi_in : buffer_in P (s_buf s);
    fi_win : exists base, base <= length A /\ sd_items (s_buf s) = skipn base A;
    fi_keys : forall x, In x A -> exists k, key x = Ok k /\ P k;
    fi_none : ~ In PNone A;
    fi_mk : length (s_rds s) = length mk;
    fi_rd : match nth_error (s_rds s) i with
            | None => G = []
            | Some r => nth_error mk i = Some (rk_peek r) /\ cursor_inv A G r
            end
  }.
  Lemma cursor_inv_in A G r : (forall x, In x A -> exists k, key x = Ok k /\ P k) -> cursor_inv A G r -> cursor_in P r.
  Proof.
    intros HK [[H _]|(G' & p & _ & Hp & Ek & _)]; [now left|right].
    destruct (HK _ (nth_error_In _ _ Hp)) as (k & E & Pk). congruence.
  Qed.
  Lemma cursor_inv_app A G r e : cursor_inv A G r -> cursor_inv (A ++ e) G r.
  Proof.
    intros [H|(G' & p & E & Hp & Ek & HS & HO)]; [now left|right].
    assert (p < length A) by (apply nth_error_Some; congruence).
    exists G', p. repeat split; auto; [now rewrite nth_error_app1|].
    rewrite firstn_app. replace (S p - length A) with 0 by lia. cbn [firstn]. now rewrite app_nil_r.
  Qed.
  (* unseen items lie after the cursor *)
  Lemma unseen_after d A G r base : sd_key d = key -> buffer_in P d -> base <= length A ->
    sd_items d = skipn base A -> (forall x, In x A -> exists k, key x = Ok k /\ P k) -> cursor_inv A G r ->
    exists q, unseen key r (sd_items d) = skipn q A /\
      forall p, nth_error A p = Some (r_last_item r) -> key (r_last_item r) = Ok (r_last_key r) ->
        S p <= q \/ unseen key r (sd_items d) = [].
  Proof.
    intros EK BI Hb EI HK HC. pose proof (buffer_bok P d BI) as B.
    pose proof (cursor_inv_in A G r HK HC) as HCI.
    destruct (unseen_suffix P F d B r HCI) as (j & Hj & EU & _). rewrite EK in EU.
    exists (base + j). split; [rewrite EU, EI; now rewrite skipn_skipn|].
    intros p Hp Ekp. destruct (le_lt_dec (S p) (base + j)) as [|L]; [now left|].
    right. exfalso.
    assert (Hw : nth_error (sd_items d) (p - base) = Some (r_last_item r)).
    { rewrite EI, nth_error_skipn. replace (base + (p - base)) with p by lia. exact Hp. }
    assert (Hin : In (r_last_item r) (unseen key r (sd_items d))).
    { rewrite EU. apply nth_error_In with (n := p - base - j). rewrite nth_error_skipn.
      replace (j + (p - base - j)) with (p - base) by lia. exact Hw. }
    apply filter_In in Hin as [_ Hin]. unfold is_unseen, key_sat in Hin. rewrite Ekp, ltb_irrefl, orb_false_r in Hin.
    destruct (HK _ (nth_error_In _ _ Hp)) as (k & Ek & Pk). assert (k = r_last_key r) by congruence. subst k.
    rewrite (family_not_none P _ F Pk) in Hin. discriminate.
  Qed.
  Lemma read_step d A G r base k : sd_key d = key -> buffer_in P d -> base <= length A ->
    sd_items d = skipn base A -> (forall x, In x A -> exists k, key x = Ok k /\ P k) -> cursor_inv A G r ->
    let u := unseen key r (sd_items d) in
    cursor_inv A (G ++ firstn k u) (moved key false (firstn k u) r).
  Proof.
    intros EK BI Hb EI HK HC u. pose proof (buffer_bok P d BI) as B.
    destruct (unseen_after d A G r base EK BI Hb EI HK HC) as (q & EU & HQ). fold u in EU, HQ.
    destruct (firstn k u) as [|x0 t0] eqn:EF; [cbn; now rewrite app_nil_r|]. rewrite <- EF.
    set (m := length (firstn k u)). assert (Hm : 0 < m) by (subst m; rewrite EF; cbn; lia).
    assert (EFm : firstn k u = firstn m u).
    { subst m. rewrite firstn_length. destruct (le_lt_dec k (length u)).
      - now rewrite Nat.min_l by lia.
      - rewrite Nat.min_r by lia. now rewrite !firstn_all2 by lia. }
    assert (Hml : m <= length u) by (subst m; rewrite firstn_length; lia).
    rewrite EFm. clear EFm. clearbody m. clear EF x0 t0.
    assert (Hul : length u = length A - q) by (rewrite EU; apply skipn_length).
    assert (HL : exists z, nth_error A (q + (m - 1)) = Some z).
    { destruct (nth_error A (q + (m - 1))) eqn:E; eauto. apply nth_error_None in E. lia. }
    destruct HL as (z & Hz). destruct (HK _ (nth_error_In _ _ Hz)) as (kz & Ez & Pz).
    assert (EL : last_opt (firstn m u) = Some z).
    { rewrite nth_last_firstn by lia. rewrite EU, nth_error_skipn. exact Hz. }
    unfold moved. rewrite EL. unfold cursor_to. rewrite Ez. right.
    assert (Efm : exists t, firstn m u = t ++ [z]).
    { destruct (firstn m u) as [|a b] eqn:E0 using rev_ind.
      - cbn in EL. discriminate.
      - rewrite last_opt_snoc in EL. injection EL as ->. eauto. }
    destruct Efm as (t & Et). exists (G ++ t), (q + (m - 1)). cbn [r_last_item r_last_key].
    split; [now rewrite Et, app_assoc|]. split; [assumption|]. split; [assumption|].
    assert (SU : strictly_ordered key (firstn m u)).
    { destruct BI as (key' & m' & d' & ops' & H1 & H2 & _ & ->).
      destruct (strict_order_append_drop key' m' d' ops' H1 H2) as [SS _].
      assert (key' = key) by (rewrite <- EK, run_key by assumption; symmetry; now apply init_key in H1). subst key'.
      apply (subseq_sorted _ _ _ (subseq_firstn _ _ m (subseq_refl (firstn m u)))).
      apply (subseq_sorted _ _ _ (subseq_filter _ _) SS). }
    assert (EA : firstn (S (q + (m - 1))) A = firstn q A ++ firstn m u).
    { replace (S (q + (m - 1))) with (q + m) by lia. rewrite EU. 
      rewrite <- (firstn_skipn q (firstn (q + m) A)), firstn_firstn, Nat.min_l by lia. f_equal.
      rewrite skipn_firstn_comm. now replace (q + m - q) with m by lia. }
    rewrite EA.
    destruct HC as [[Hf ->]|(G' & p & EG & Hp & Ek & HS & HO)].
    - cbn [app]. split; [|assumption]. change (firstn m u) with ([] ++ firstn m u) at 1.
      apply subseq_app; [apply subseq_nil_l|apply subseq_refl].
    - assert (Hpq : S p <= q).
      { destruct (HQ p Hp Ek) as [H|H]; [assumption|]. rewrite H in Hml. cbn in Hml. lia. }
      split.
      + apply subseq_app; [|apply subseq_refl]. now apply (subseq_prefix G A (S p) q).
      + apply sorted_app; auto. intros x y Hx Hy. rewrite EG in Hx, HO.
        apply (sorted_last (key_before key) G' (r_last_item r)) with (x := x); auto; [apply before_trans|].
        apply firstn_in in Hy. apply filter_In in Hy as [Hy Hun].
        assert (InA : In y A). { rewrite EI in Hy. rewrite <- (firstn_skipn base A). apply in_app_iff. now right. }
        destruct (HK _ InA) as (ky & Ey & _). exists (r_last_key r), ky. repeat split; auto.
        unfold is_unseen, key_sat in Hun. rewrite Ey in Hun.
        destruct (HK _ (nth_error_In _ _ Hp)) as (k' & Ek' & Pk). assert (k' = r_last_key r) by congruence. subst k'.
        rewrite (family_not_none P _ F Pk) in Hun. exact Hun.
  Qed.

  Lemma append_window d x A base k : buffer_in P d -> base <= length A -> sd_items d = skipn base A ->
    sd_key d x = Ok k -> snd (sd_append d x) = Ok tt ->
    exists base', base' <= length (A ++ [x]) /\ sd_items (fst (sd_append d x)) = skipn base' (A ++ [x]).
  Proof.
    intros BI Hb EI Ek HO. destruct (append_cases d x) as [(k' & _ & _ & E)|(e & E)]; rewrite E in *; [|discriminate].
    cbn [fst sd_items]. rewrite EI. unfold deque_append.
    assert (Hsk : skipn base (A ++ [x]) = skipn base A ++ [x]) by now apply skipn_app_le.
    rewrite app_length. cbn [length]. destruct (sd_bound d) as [m|].
    - destruct (Nat.ltb m _).
      + exists (base + 1). split; [lia|]. rewrite <- skipn_skipn, Hsk. now destruct (skipn base A ++ [x]).
      + exists base. split; [lia|]. now rewrite Hsk.
    - exists base. split; [lia|]. now rewrite Hsk.
  Qed.

  Lemma fwd_step mk A G s o : fwd_inv mk A G s -> op_ok P key o -> forward i o ->
    nth_error (mk ++ made [o]) i <> Some true ->
    let v := snd (bsys_step s o) in
    fwd_inv (mk ++ made [o]) (A ++ accepted [o] [v]) (G ++ got i [o] [v]) (fst (bsys_step s o)).
  Proof.
    intros [HK HI (base & Hb & HW) HA HN HM HR] OK FW HP. cbn zeta. pose proof (buffer_bok P _ HI) as B.
    assert (HNd : ~ In PNone (sd_items (s_buf s))).
    { rewrite HW. intro H. apply HN. rewrite <- (firstn_skipn base A). apply in_app_iff. now right. }
    destruct o as [x|n|n p st ig|j c]; cbn [bsys_step] in *; cbn [made] in *; rewrite ?app_nil_r in *.
    - destruct OK as [Hx HPk].
      assert (AI : buffer_in P (fst (sd_append (s_buf s) x))).
      { apply buffer_in_append; auto. now rewrite HK. }
      assert (AK : sd_key (fst (sd_append (s_buf s) x)) = key) by now rewrite append_key.
      destruct (append_cases (s_buf s) x) as [(k & Ek & _ & E)|(e & E)].
      + pose proof (append_window (s_buf s) x A base k HI Hb HW Ek) as AW. rewrite E in *. cbn [fst snd] in *.
        specialize (AW eq_refl). cbn [accepted got]. rewrite ?app_nil_r. constructor; cbn [s_buf s_rds]; auto.
        * intros y Hy. apply in_app_iff in Hy as [Hy|[<-|[]]]; [auto|]. rewrite HK in Ek. eauto.
        * intro Hy. apply in_app_iff in Hy as [Hy|[Hy|[]]]; auto.
        * destruct (nth_error (s_rds s) i); [|assumption]. destruct HR as [H1 H2]. split; [assumption|]. now apply cursor_inv_app.
      + rewrite E. cbn [fst snd accepted got]. rewrite ?app_nil_r. destruct s as [sb sr]. constructor; cbn [s_buf s_rds] in *; eauto.
    - pose proof (buffer_in_drop P (s_buf s) n HI) as BD. rewrite (drop_spec _ n (bok_cons _ _ B)) in *.
      cbn [fst snd accepted got] in *. rewrite ?app_nil_r. constructor; cbn [s_buf s_rds with_skip sd_key sd_items] in *; auto.
      rewrite HW, skipn_skipn. destruct (le_lt_dec (base + Z.to_nat n) (length A)).
      + eauto.
      + exists (length A). split; [lia|]. now rewrite !skipn_all2 by lia.
    - cbn [fst snd accepted got]. rewrite ?app_nil_r. constructor; cbn [s_buf s_rds]; eauto.
      + rewrite !app_length. cbn. lia.
      + destruct (lt_eq_lt_dec i (length (s_rds s))) as [[L|L]|L].
        * rewrite nth_error_app1 by assumption. destruct (nth_error (s_rds s) i); [|assumption].
          destruct HR as [H1 H2]. split; [|assumption]. now rewrite nth_error_app1 by congruence.
        * subst i. rewrite nth_error_app2 by lia. rewrite Nat.sub_diag. cbn [nth_error].
          rewrite nth_error_app2 by lia. rewrite HM, Nat.sub_diag. split; [reflexivity|].
          left. split; [split; reflexivity|]. assert (nth_error (s_rds s) (length (s_rds s)) = None) by (apply nth_error_None; lia).
          rewrite H in HR. exact HR.
        * assert (nth_error (s_rds s) i = None) as E by (apply nth_error_None; lia). rewrite E in HR.
          assert (nth_error (s_rds s ++ [mk_breader n p st ig]) i = None) as -> by (apply nth_error_None; rewrite app_length; cbn; lia).
          exact HR.
    - destruct (nth_error (s_rds s) j) as [r|] eqn:Ej.
      2:{ cbn [fst snd accepted got got_from]. rewrite ?app_nil_r.
          replace (if Nat.eqb i j then [] else []) with (@nil pyval) by now destruct (Nat.eqb i j). rewrite ?app_nil_r.
          destruct s as [sb sr]. constructor; cbn [s_buf s_rds] in *; eauto. }
      destruct (run (do_call (s_buf s) c) r) as [r' v] eqn:Er. cbn [fst snd accepted got]. rewrite ?app_nil_r.
      destruct (Nat.eqb_spec i j) as [<-|Nij].
      2:{ rewrite ?app_nil_r. constructor; cbn [s_buf s_rds] in *; eauto; [now rewrite set_nth_length|].
          rewrite nth_error_set_nth. destruct (Nat.eqb_spec j i); [congruence|]. exact HR. }
      rewrite Ej in HR. destruct HR as [Hmk HC].
      pose proof (cursor_inv_in A G r HA HC) as HCI.
      assert (SH : exists k, r' = moved key false (firstn k (unseen key r (sd_items (s_buf s)))) r /\
        got_from (OVal v) = firstn k (unseen key r (sd_items (s_buf s)))).
      { destruct c as [a|stopped|g|pk ig on|pk]; cbn [forward] in FW; try congruence; cbn [do_call] in Er.
        - specialize (FW eq_refl). rewrite (read_closed P F _ B) in Er by exact HCI. rewrite FW in Er.
          destruct (read_shape (s_buf s) (dflt (a_n a) (rk_n r)) (dflt (a_ignore a) (rk_ignore r)) (dflt (a_strict a) (rk_strict r)) r HNd)
            as (k & E1 & E2). rewrite Er in E1, E2. cbn [fst snd] in E1, E2. rewrite HK in E1, E2. eauto.
        - assert (Hpk : rk_peek r = false) by (destruct (rk_peek r); congruence).
          destruct (next_shape (s_buf s) stopped r B HCI HNd Hpk) as (k & E1 & E2). rewrite Er in E1, E2.
          cbn [fst snd] in E1, E2. rewrite HK in E1, E2. eauto. }
      destruct SH as (k & -> & EG). rewrite EG.
      constructor; cbn [s_buf s_rds] in *; eauto; [now rewrite set_nth_length|].
      rewrite nth_error_set_nth, Nat.eqb_refl, Ej. split.
      + destruct (kwargs_moved key false (firstn k (unseen key r (sd_items (s_buf s)))) r) as (_ & -> & _). exact Hmk.
      + now apply (read_step (s_buf s) A G r base k).
  Qed.
  Lemma fwd_run ops : Forall (op_ok P key) ops -> forward_reader i ops ->
    let (s, outs) := bsys_run (MkBS d0 []) ops in
    fwd_inv (made ops) (accepted ops outs) (got i ops outs) s.
  Proof.
    induction ops as [|o ops IH] using rev_ind; intros OK [FW MK].
    - cbn. constructor; cbn; auto.
      + exists 0. split; [lia|]. now rewrite Eit0.
      + intros x [].
      + now destruct i.
    - apply Forall_app in OK as [OK1 OK2]. apply Forall_app in FW as [FW1 FW2]. inversion OK2; inversion FW2; subst.
      rewrite made_app in MK. rewrite run_app. pose proof (run_length (MkBS d0 []) ops) as HL.
      destruct (bsys_run (MkBS d0 []) ops) as [s outs]. cbn [fst snd] in *.
      assert (I0 : fwd_inv (made ops) (accepted ops outs) (got i ops outs) s).
      { apply IH; [assumption|]. split; [assumption|]. intro E. apply MK. rewrite nth_error_app1; [assumption|].
        apply nth_error_Some. congruence. }
      pose proof (fwd_step _ _ _ s o I0 H1 H5 MK) as ST. cbn [bsys_run]. destruct (bsys_step s o) as [s1 v]. cbn [fst snd] in *.
      rewrite accepted_app, got_app, made_app by auto. exact ST.
  Qed.
End Reads.
