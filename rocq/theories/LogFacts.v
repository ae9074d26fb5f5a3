(** * The buffer system refines the log with cursors *)
From Coq Require Import List ZArith Bool Arith Lia Sorting.Sorted.
From Verif Require Import PyVal PyLib PyValFacts SortedDequeM BufferReaderM BufferSysM Spec SpecDeque SpecReader SpecLog
  BisectFacts ListFacts DequeFacts DequeSearch ReaderFacts ReaderLoops.
Import ListNotations.

(** ** List facts *)
Lemma set_nth_length {A} (l : list A) i x : length (set_nth l i x) = length l.
Proof. revert i. induction l as [|y l IH]; intros [|i]; cbn; auto. Qed.
Lemma Forall2_nth_some {A B} (R : A -> B -> Prop) l m : Forall2 R l m -> forall i,
  match nth_error l i, nth_error m i with
  | Some x, Some y => R x y
  | None, None => True
  | _, _ => False
  end.
Proof. induction 1; intros [|i]; cbn; auto. apply IHForall2. Qed.
Lemma Forall2_set_nth {A B} (R : A -> B -> Prop) l m : Forall2 R l m -> forall i x y, R x y ->
  Forall2 R (set_nth l i x) (set_nth m i y).
Proof. induction 1; intros [|i] u v Huv; cbn; constructor; auto. Qed.
Lemma splits_filter_skipn {A} (f : A -> bool) l i b : splits f l i -> filter f (skipn b l) = skipn (Nat.max i b) l.
Proof.
  intros (Hi & H1 & H2). destruct (le_lt_dec i b) as [L|L].
  - rewrite Nat.max_r by lia. apply filter_all. apply Forall_forall. intros x Hx.
    apply In_nth_error in Hx as (j & Hj). rewrite nth_error_skipn in Hj. apply (H2 (b + j)); auto. lia.
  - rewrite Nat.max_l by lia. replace i with (b + (i - b)) at 1 by lia. rewrite <- skipn_skipn.
    apply splits_filter. split; [rewrite skipn_length; lia|].
    split; intros j x Hj; rewrite nth_error_skipn; intro Hx; [apply (H1 (b + j))|apply (H2 (b + j))]; auto; lia.
Qed.
Lemma stride_map {A B} (f : A -> B) s l : forall k, stride s k (map f l) = map f (stride s k l).
Proof. induction l as [|x l IH]; intros [|k]; cbn; auto. now rewrite IH. Qed.
Lemma stepped_map {A B} (f : A -> B) step l : bad_step step = false -> stepped step (map f l) = map f (stepped step l).
Proof.
  unfold bad_step, stepped. destruct step as [z|]; [|reflexivity]. intro H. apply Z.leb_gt in H.
  rewrite <- !stride_every_nth by lia. apply stride_map.
Qed.
Lemma stepped_in {A} step (l : list A) x : In x (stepped step l) -> In x l.
Proof.
  unfold stepped, every_nth. destruct step; [|auto]. intro Hx.
  apply in_map_iff in Hx as ([i y] & <- & Hx). apply filter_In in Hx as [Hx _]. now apply in_combine_r in Hx.
Qed.
Lemma filter_number (Fb : nat * pyval -> bool) (G : pyval -> bool) w : forall b,
  (forall j x, nth_error w j = Some x -> Fb (b + j, x) = G x) ->
  map snd (filter Fb (combine (seq b (length w)) w)) = filter G w.
Proof.
  induction w as [|x w IH]; intros b H; [reflexivity|]. cbn [length seq combine filter].
  pose proof (H 0 x eq_refl) as H0. rewrite Nat.add_0_r in H0. rewrite H0.
  specialize (IH (S b)). destruct (G x); cbn [map snd]; rewrite IH; auto;
    intros j y Hj; replace (S b + j) with (b + S j) by lia; apply H; exact Hj.
Qed.
Lemma in_number {A} (w : list A) p x : forall b, In (p, x) (combine (seq b (length w)) w) ->
  b <= p /\ nth_error w (p - b) = Some x.
Proof.
  induction w as [|y w IH]; intros b H; [destruct H|]. cbn in H. destruct H as [H|H].
  - injection H as <- <-. split; [lia|]. now rewrite Nat.sub_diag.
  - apply IH in H as [L H]. split; [lia|]. replace (p - b) with (S (p - S b)) by lia. exact H.
Qed.
Lemma skipn_nil_iff {A} n (l : list A) : skipn n l = [] <-> length l <= n.
Proof.
  split; intro H; [|now apply skipn_all2]. pose proof (skipn_length n l) as E. rewrite H in E. cbn in E. lia.
Qed.

Lemma buffer_in_append P d x : buffer_in P d -> (forall k, sd_key d x = Ok k -> P k) -> buffer_in P (fst (sd_append d x)).
Proof.
  intros (key & m & d0 & ops & H & HO & HP & ->) Hk.
  exists key, m, d0, (ops ++ [OAppend x]). split; [assumption|]. split; [apply Forall_app; split; [exact HO|repeat constructor]|].
  split.
  - intros y k Hy E. apply in_app_iff in Hy as [Hy|[Hy|[]]]; [eauto|]. injection Hy as <-.
    apply Hk. rewrite run_key by assumption. now rewrite (init_key _ _ _ _ H).
  - unfold sd_run. now rewrite fold_left_app.
Qed.
Lemma buffer_in_drop P d n : buffer_in P d -> buffer_in P (fst (sd_drop d n)).
Proof.
  intros (key & m & d0 & ops & H & HO & HP & ->).
  exists key, m, d0, (ops ++ [ODrop n]). split; [assumption|]. split; [apply Forall_app; split; [exact HO|repeat constructor]|].
  split.
  - intros y k Hy E. apply in_app_iff in Hy as [Hy|[Hy|[]]]; [eauto|]. discriminate.
  - unfold sd_run. now rewrite fold_left_app.
Qed.
Lemma strictly_ordered_app key a b : strictly_ordered key (a ++ b) -> strictly_ordered key a.
Proof.
  unfold strictly_ordered. rewrite !StronglySorted_nth. intros H i j x y Hij Hi Hj.
  assert (j < length a) by (apply nth_error_Some; congruence).
  apply (H i j); auto; rewrite nth_error_app1; auto; lia.
Qed.

Section Log.
  Variable P : pyval -> Prop.
  Hypothesis F : total_family P.
  Variable key : pyval -> res pyval.
  Variable maxlen : option nat.

  Record log_ok (log : list pyval) : Prop := {
    lo_keys : forall x, In x log -> exists k, key x = Ok k /\ P k;
    lo_strict : strictly_ordered key log;
    lo_none : ~ In PNone log
  }.
  Record rel_reader (log : list pyval) (r : breader) (c : scur) : Prop := {
    rr_n : rk_n r = c_n c; rr_peek : rk_peek r = c_peek c; rr_ignore : rk_ignore r = c_ignore c;
    rr_strict : rk_strict r = c_strict c;
    rr_pos : (c_pos c = 0 /\ fresh r) \/
             exists p, c_pos c = S p /\ nth_error log p = Some (r_last_item r) /\ key (r_last_item r) = Ok (r_last_key r)
  }.
  Record rel (s : bsys) (L : slog) : Prop := {
    rl_key : sd_key (s_buf s) = key;
    rl_in : buffer_in P (s_buf s);
    rl_items : sd_items (s_buf s) = skipn (lg_base L) (lg L);
    rl_base : lg_base L <= length (lg L);
    rl_bound : sd_bound (s_buf s) = maxlen;
    rl_len : forall m, maxlen = Some m -> length (sd_items (s_buf s)) <= m;
    rl_log : log_ok (lg L);
    rl_rds : Forall2 (rel_reader (lg L)) (s_rds s) (lg_rds L)
  }.

  Lemma log_lt log i j x y kx ky : log_ok log -> nth_error log i = Some x -> nth_error log j = Some y ->
    key x = Ok kx -> key y = Ok ky -> ltb kx ky = Nat.ltb i j.
  Proof.
    intros [HK HS _] Hi Hj Ex Ey. unfold strictly_ordered in HS. rewrite StronglySorted_nth in HS.
    destruct (Nat.ltb_spec i j) as [L|L].
    - destruct (HS i j x y L Hi Hj) as (a & b & Ea & Eb & H). congruence.
    - destruct (Nat.eq_dec i j) as [->|N].
      + assert (kx = ky) by congruence. subst. apply ltb_irrefl.
      + destruct (HS j i y x ltac:(lia) Hj Hi) as (a & b & Ea & Eb & H). apply ltb_asym. congruence.
  Qed.
  Lemma rel_cursor log r c : log_ok log -> rel_reader log r c -> cursor_in P r.
  Proof.
    intros LO [_ _ _ _ [[_ Hf]|(p & _ & Hp & Ek)]]; [now left|right].
    destruct (lo_keys _ LO _ (nth_error_In _ _ Hp)) as (k & E & Pk). congruence.
  Qed.
  Lemma unseen_pos log r c x j : log_ok log -> rel_reader log r c -> nth_error log j = Some x ->
    is_unseen key r x = Nat.leb (c_pos c) j.
  Proof.
    intros LO [_ _ _ _ HP] Hx. unfold is_unseen. destruct HP as [[-> [_ ->]]|(p & -> & Hp & Ek)]; [reflexivity|].
    destruct (lo_keys _ LO _ (nth_error_In _ _ Hp)) as (k & E & Pk).
    assert (k = r_last_key r) by congruence. subst k. rewrite (family_not_none P _ F Pk). cbn [orb].
    destruct (lo_keys _ LO _ (nth_error_In _ _ Hx)) as (kx & Ex & _). unfold key_sat. rewrite Ex.
    now rewrite (log_lt log p j _ x _ kx LO Hp Hx Ek Ex).
  Qed.
  Lemma unseen_log log base r c : log_ok log -> rel_reader log r c ->
    unseen key r (skipn base log) = skipn (next_pos base c) log.
  Proof.
    intros LO R. unfold unseen, next_pos.
    assert (c_pos c <= length log).
    { destruct (rr_pos _ _ _ R) as [[H _]|(p & H & Hp & _)]; [lia|].
      assert (p < length log) by (apply nth_error_Some; congruence). lia. }
    apply splits_filter_skipn. split; [assumption|].
    split; intros j x Hj Hx; rewrite (unseen_pos log r c x j LO R Hx).
    - apply Nat.leb_gt. lia.
    - apply Nat.leb_le. lia.
  Qed.
  Lemma rel_goto log r c x q : log_ok log -> rel_reader log r c -> nth_error log q = Some x ->
    rel_reader log (cursor_to key x r) (goto c (S q)).
  Proof.
    intros LO [H1 H2 H3 H4 _] Hq. destruct (lo_keys _ LO _ (nth_error_In _ _ Hq)) as (k & E & _).
    unfold cursor_to. rewrite E. constructor; cbn; auto. right. exists q. auto.
  Qed.
  Lemma rel_app log x r c : rel_reader log r c -> rel_reader (log ++ [x]) r c.
  Proof.
    intros [H1 H2 H3 H4 HP]. constructor; auto. destruct HP as [HP|(p & E & Hp & Ek)]; [now left|right].
    exists p. split; [assumption|]. split; [|assumption].
    rewrite nth_error_app1; auto. apply nth_error_Some. congruence.
  Qed.

  (** ** Calls *)
  Section Call.
    Variable d : sdeque.
    Variable log : list pyval.
    Variable base : nat.
    Hypothesis Ekey : sd_key d = key.
    Hypothesis BI : buffer_in P d.
    Hypothesis Eit : sd_items d = skipn base log.
    Hypothesis LO : log_ok log.
    Variables (r : breader) (c : scur).
    Hypothesis R : rel_reader log r c.
    Let B := buffer_bok P d BI.
    Let HC := rel_cursor log r c LO R.

    Lemma call_unseen : unseen (sd_key d) r (sd_items d) = skipn (next_pos base c) log.
    Proof. rewrite Ekey, Eit. now apply unseen_log. Qed.
    Lemma call_no_none : ~ In PNone (sd_items d).
    Proof.
      rewrite Eit. intro H. apply (lo_none _ LO). rewrite <- (firstn_skipn base log). apply in_app_iff. now right.
    Qed.
    Lemma call_read n peek ignore strict :
      snd (read_result d n peek ignore strict r) = snd (log_read log base c n peek ignore strict) /\
      rel_reader log (fst (read_result d n peek ignore strict r)) (fst (log_read log base c n peek ignore strict)).
    Proof.
      unfold read_result, log_read. rewrite call_unseen. set (m := next_pos base c).
      destruct (skipn m log) as [|x q] eqn:E.
      - split; [now destruct ignore|exact R].
      - assert (Hm : nth_error log m = Some x) by (rewrite <- hd_error_skipn, E; reflexivity).
        destruct (Z.ltb_spec 1 n), (Z.leb_spec n 1); try lia.
        + destruct (strict && _); [split; [reflexivity|exact R]|]. cbn [fst snd]. split; [reflexivity|].
          unfold moved. destruct peek; [exact R|]. rewrite Ekey.
          pose proof (skipn_length m log) as HL. rewrite E in HL.
          assert (m < length log) by (apply nth_error_Some; congruence).
          set (n' := Nat.min (Z.to_nat n) (length (x :: q))).
          assert (firstn (Z.to_nat n) (x :: q) = firstn n' (x :: q)) as ->.
          { subst n'. destruct (le_lt_dec (Z.to_nat n) (length (x :: q))).
            - now rewrite Nat.min_l by lia.
            - rewrite Nat.min_r by lia. now rewrite !firstn_all2 by lia. }
          assert (Hl : 0 < n' <= length (x :: q)) by (cbn [length] in *; lia).
          rewrite nth_last_firstn by lia. rewrite <- E, nth_error_skipn.
          destruct (nth_error log (m + (n' - 1))) as [y|] eqn:Ey; [|apply nth_error_None in Ey; lia].
          replace (Nat.min (m + Z.to_nat n) (length log)) with (S (m + (n' - 1))) by lia.
          now apply rel_goto.
        + cbn [fst snd]. split; [reflexivity|]. unfold moved. destruct peek; [exact R|]. cbn [last_opt rev app].
          rewrite Ekey. now apply rel_goto.
    Qed.
    Lemma last_opt_rev {A} (l : list A) : last_opt l = match rev l with [] => None | x :: _ => Some x end.
    Proof. reflexivity. Qed.
    Lemma last_nth {A} (l : list A) x q : rev l = x :: q -> nth_error l (length l - 1) = Some x /\ 0 < length l.
    Proof.
      intro H. assert (E : l = rev q ++ [x]) by (rewrite <- (rev_involutive l), H; reflexivity).
      rewrite E, app_length. cbn. split; [|lia]. rewrite nth_error_app2 by lia.
      now replace (length (rev q) + 1 - 1 - length (rev q)) with 0 by lia.
    Qed.

    Definition call_ok (a : call) : Prop :=
      match a with CRange g => P (g_start g) /\ P (g_stop g) /\ (g_only_new g = true -> key PNone = Raise TypeError) | _ => True end.
    Lemma call_range g : call_ok (CRange g) ->
      snd (range_result d g r) = snd (log_range key log base c g) /\
      rel_reader log (fst (range_result d g r)) (fst (log_range key log base c g)).
    Proof.
      intros (Pa & Po & Hn). unfold range_result, log_range. rewrite call_unseen, Ekey, Eit.
      set (w := skipn base log). rewrite (rr_ignore _ _ _ R). set (ignore := dflt (g_ignore g) (c_ignore c)).
      assert (EC : g_only_new g && match skipn (next_pos base c) log with [] => negb (is_none (r_last_key r)) | _ => false end
        = g_only_new g && Nat.ltb 0 (c_pos c) && Nat.leb (length log) (next_pos base c)).
      { rewrite <- andb_assoc. f_equal.
        assert (negb (is_none (r_last_key r)) = Nat.ltb 0 (c_pos c)) as ->.
        { destruct (rr_pos _ _ _ R) as [[-> [_ ->]]|(p & -> & Hp & Ek)]; [reflexivity|].
          destruct (lo_keys _ LO _ (nth_error_In _ _ Hp)) as (k & E & Pk).
          rewrite (family_not_none P); auto. congruence. }
        destruct (skipn (next_pos base c) log) eqn:E.
        - apply skipn_nil_iff in E. apply Nat.leb_le in E. now rewrite E, andb_true_r.
        - assert (~ length log <= next_pos base c) by (rewrite <- skipn_nil_iff; congruence).
          destruct (Nat.leb_spec (length log) (next_pos base c)); [contradiction|]. now rewrite andb_false_r. }
      rewrite EC. clear EC. destruct (g_only_new g && _ && _); [split; [now destruct ignore|exact R]|].
      destruct (g_stop_ge g && _); [split; [now destruct ignore|exact R]|].
      destruct (bad_step (g_step g)) eqn:Bs; [split; [reflexivity|exact R]|].
      set (hits := filter _ (combine _ _)).
      assert (EH : range_hits key r w g = map snd hits).
      { symmetry. unfold range_hits. apply filter_number. intros j x Hj. cbn [fst snd].
        subst w. rewrite nth_error_skipn in Hj. rewrite (unseen_pos log r c x (base + j) LO R Hj). reflexivity. }
      rewrite EH, stepped_map by assumption. destruct (g_peek g); [split; [reflexivity|exact R]|].
      destruct (rev (stepped (g_step g) hits)) as [|[p x] q] eqn:Er.
      - assert (stepped (g_step g) hits = []) as -> by (rewrite <- (rev_involutive (stepped _ _)), Er; reflexivity).
        cbn. split; [now destruct ignore|exact R].
      - assert (Hout : stepped (g_step g) hits = rev q ++ [(p, x)]) by (rewrite <- (rev_involutive (stepped _ _)), Er; reflexivity).
        assert (Hpx : nth_error log p = Some x).
        { assert (In (p, x) hits) by (apply (stepped_in (g_step g)); rewrite Hout; apply in_app_iff; cbn; auto).
          subst hits. apply filter_In in H as [H _]. apply in_number in H as [L H]. subst w.
          rewrite nth_error_skipn in H. now replace (base + (p - base)) with p in H by lia. }
        rewrite Hout, map_app. cbn [map snd].
        destruct (map snd (rev q) ++ [x]) as [|y z] eqn:Ez; [destruct (map snd (rev q)); discriminate|]. rewrite <- Ez.
        cbn [fst snd]. split; [reflexivity|]. unfold moved. rewrite last_opt_snoc. now apply rel_goto.
    Qed.

    Lemma call_sim a : call_ok a ->
      snd (run (do_call d a) r) = snd (log_call key log base c a) /\
      rel_reader log (fst (run (do_call d a) r)) (fst (log_call key log base c a)).
    Proof.
      destruct a as [a|stopped|g|peek ignore only_new|peek]; cbn [do_call log_call]; intro OK.
      - rewrite (read_closed P F d B) by exact HC.
        rewrite (rr_n _ _ _ R), (rr_ignore _ _ _ R), (rr_strict _ _ _ R). apply call_read.
      - rewrite (next_closed P F d stopped r B HC call_no_none). unfold log_next. rewrite call_unseen.
        rewrite (rr_n _ _ _ R), (rr_peek _ _ _ R), (rr_strict _ _ _ R).
        destruct (skipn (next_pos base c) log) eqn:E; [split; [reflexivity|exact R]|]. apply call_read.
      - destruct OK as (Pa & Po & Hn). rewrite (range_closed P F d B) ; auto.
        + apply call_range. split; auto.
        + rewrite Ekey. destruct (g_only_new g); auto.
      - rewrite (tail_closed P F d B) by exact HC. unfold tail_result, log_tail.
        assert ((if only_new then unseen (sd_key d) r (sd_items d) else sd_items d) =
                skipn (if only_new then next_pos base c else base) log) as ->.
        { destruct only_new; [apply call_unseen|exact Eit]. }
        rewrite last_opt_rev. set (b := if only_new then _ else _).
        destruct (rev (skipn b log)) as [|x q] eqn:E.
        + split; [now destruct ignore|exact R].
        + cbn [fst snd]. split; [reflexivity|]. unfold moved. destruct peek; [exact R|]. cbn [last_opt rev app].
          rewrite Ekey. destruct (last_nth _ _ _ E) as [Hn Hl]. rewrite skipn_length in Hl, Hn. rewrite nth_error_skipn in Hn.
          replace (length log) with (S (b + (length log - b - 1))) by lia. now apply rel_goto.
      - rewrite (head_closed P d B). unfold head_result, log_head. rewrite Eit.
        destruct (skipn base log) as [|x q] eqn:E; [split; [reflexivity|exact R]|].
        cbn [fst snd]. split; [reflexivity|]. unfold moved. destruct peek; [exact R|]. cbn [last_opt rev app].
        rewrite Ekey. apply rel_goto; auto. rewrite <- hd_error_skipn, E. reflexivity.
    Qed.
  End Call.

  (** ** Steps *)
  Lemma step_sim s L o : rel s L -> op_ok P key o ->
    snd (bsys_step s o) = snd (log_step key maxlen L o) /\
    (strictly_ordered key (lg (fst (log_step key maxlen L o))) ->
     rel (fst (bsys_step s o)) (fst (log_step key maxlen L o))).
  Proof.
    intros [Rk Ri Rt Rb Rm Rl Rg Rr] OK. pose proof (buffer_bok P _ Ri) as B.
    destruct o as [x|n|n p st ig|i a]; cbn [bsys_step log_step] in *.
    - destruct OK as [Hnn HP].
      assert (AI : buffer_in P (fst (sd_append (s_buf s) x))).
      { apply buffer_in_append; auto. now rewrite Rk. }
      assert (AK : sd_key (fst (sd_append (s_buf s) x)) = key) by now rewrite append_key.
      unfold sd_append in *. rewrite Rk in *. destruct (key x) as [k|e] eqn:Ek.
      2:{ split; [reflexivity|]. intros _. destruct s; constructor; auto. }
      specialize (HP k eq_refl). fold (window L) in Rt. unfold window in *.
      set (w := skipn (lg_base L) (lg L)) in *.
      assert (HA : last_opt (sd_keys (s_buf s)) = None /\ rev w = [] \/
                   exists l' y q, last_opt (sd_keys (s_buf s)) = Some l' /\ rev w = y :: q /\ key y = Ok l' /\ P l').
      { destruct (keyed_last _ _ _ (bok_cons _ _ B)) as [[El Eks]|(l & y & ks & ky & El & Eks & Ey)].
        - left. rewrite Eks. split; [reflexivity|]. rewrite <- Rt, El. reflexivity.
        - right. exists ky, y, (rev l). rewrite Eks, last_opt_snoc. split; [reflexivity|].
          split; [rewrite <- Rt, El, rev_app_distr; reflexivity|]. rewrite Rk in Ey. split; [assumption|].
          pose proof (bok_P _ _ B) as HPk. rewrite Eks in HPk. apply Forall_app in HPk as [_ HPk]. now inversion HPk. }
      set (base' := match maxlen with
                     | Some m => if Nat.ltb m (length w + 1) then S (lg_base L) else lg_base L
                     | None => lg_base L end) in *.
      set (pushed := MkSD (deque_append (sd_bound (s_buf s)) (sd_keys (s_buf s)) k)
                        (deque_append (sd_bound (s_buf s)) (sd_items (s_buf s)) x) key (sd_bound (s_buf s)) (sd_maxlen (s_buf s))) in *.
      assert (Push : strictly_ordered key (lg L ++ [x]) -> buffer_in P pushed ->
        rel (MkBS pushed (s_rds s)) (MkL (lg L ++ [x]) base' (lg_rds L))).
      { intros HSO HBI.
        assert (EI : sd_items pushed = skipn base' (lg L ++ [x])).
        { subst pushed base'. cbn [sd_items]. rewrite Rm, Rt. unfold deque_append.
          assert (Hsk : skipn (lg_base L) (lg L ++ [x]) = w ++ [x]) by (subst w; now apply skipn_app_le).
          destruct maxlen as [m|]; [|now rewrite Hsk]. rewrite app_length. cbn [length].
          destruct (Nat.ltb m (length w + 1)); [|now rewrite Hsk].
          replace (S (lg_base L)) with (lg_base L + 1) by lia. rewrite <- skipn_skipn, Hsk.
          now destruct (w ++ [x]). }
        constructor; cbn [s_buf s_rds lg lg_base lg_rds]; auto.
        - subst base'. rewrite app_length. cbn [length]. destruct maxlen as [m|]; [|lia]. destruct (Nat.ltb _ _); lia.
        - intros m Hm. rewrite EI. subst base'. rewrite Hm, skipn_length, app_length. cbn [length].
          specialize (Rl m Hm). rewrite Rt in Rl. subst w. rewrite skipn_length in *.
          destruct (Nat.ltb_spec m (length (lg L) - lg_base L + 1)); lia.
        - destruct Rg as [G1 G2 G3]. constructor; auto.
          + intros y Hy. apply in_app_iff in Hy as [Hy|[<-|[]]]; eauto.
          + intro Hy. apply in_app_iff in Hy as [Hy|[Hy|[]]]; auto.
        - clear - Rr. induction Rr; constructor; auto. now apply rel_app. }
      destruct HA as [[E1 E2]|(l' & y & q & E1 & E2 & Ey & Pl)]; rewrite E1 in *; rewrite E2 in *.
      + cbn [fst snd lg] in *. split; [reflexivity|auto].
      + unfold key_sat in *. rewrite Ey in *. unfold py_gt in *.
        destruct (tf_comparable P F l' k Pl HP) as [[b Hb] _]. rewrite Hb in *.
        assert (ltb l' k = b) as Eb by now apply ltb_of_ok. rewrite Eb in *.
        destruct b; cbn [fst snd lg] in *; (split; [reflexivity|]); [auto|].
        intros _. destruct s; constructor; auto.
    - unfold sd_drop in *. pose proof (drop_spec (s_buf s) n (bok_cons _ _ B)) as HD. unfold sd_drop in HD.
      pose proof (buffer_in_drop P (s_buf s) n Ri) as BD. unfold sd_drop in BD.
      rewrite HD in *. cbn [fst snd] in *. unfold window. rewrite <- Rt. split; [reflexivity|]. intros _.
      assert (EI : skipn (Z.to_nat n) (sd_items (s_buf s)) = skipn (Nat.min (lg_base L + Z.to_nat n) (length (lg L))) (lg L)).
      { rewrite Rt, skipn_skipn. destruct (le_lt_dec (lg_base L + Z.to_nat n) (length (lg L))).
        - now rewrite Nat.min_l by lia.
        - rewrite Nat.min_r by lia. now rewrite !skipn_all2 by lia. }
      constructor; cbn [s_buf s_rds lg lg_base lg_rds with_skip sd_key sd_items sd_bound]; auto.
      + lia.
      + intros m Hm. rewrite skipn_length. specialize (Rl m Hm). lia.
    - cbn [fst snd]. split; [reflexivity|]. intros _. constructor; cbn; auto.
      apply Forall2_app; auto. constructor; [|constructor]. constructor; cbn; auto.
      left. split; [reflexivity|split; reflexivity].
    - pose proof (Forall2_nth_some _ _ _ Rr i) as HN.
      destruct (nth_error (s_rds s) i) as [r|], (nth_error (lg_rds L) i) as [c|]; try easy.
      + assert (OKc : call_ok a) by (destruct a; auto; exact OK).
        destruct (call_sim (s_buf s) (lg L) (lg_base L) Rk Ri Rt Rg r c HN a OKc) as [E1 E2].
        destruct (run (do_call (s_buf s) a) r) as [r' v], (log_call key (lg L) (lg_base L) c a) as [c' v'].
        cbn [fst snd] in *. split; [now rewrite E1|]. intros _. constructor; cbn; auto.
        now apply Forall2_set_nth.
  Qed.

  Lemma log_step_log L o : lg (fst (log_step key maxlen L o)) = lg L ++ accepted [o] [snd (log_step key maxlen L o)].
  Proof.
    destruct o as [x|n|n p st ig|i a]; cbn [log_step]; try (now rewrite app_nil_r).
    - destruct (key x); [|cbn; now rewrite app_nil_r].
      destruct (match rev (window L) with [] => _ | _ => _ end); cbn; [reflexivity|now rewrite app_nil_r].
    - destruct (nth_error _ _); [|cbn; now rewrite app_nil_r].
      destruct (log_call _ _ _ _ _). cbn. now rewrite app_nil_r.
  Qed.
  Lemma accepted_cons o v ops vs : accepted (o :: ops) (v :: vs) = accepted [o] [v] ++ accepted ops vs.
  Proof. destruct o; destruct v as [[[]|]| |]; reflexivity. Qed.
  Lemma run_log ops : forall L, lg (fst (log_run key maxlen L ops)) = lg L ++ accepted ops (snd (log_run key maxlen L ops)).
  Proof.
    induction ops as [|o ops IH]; intro L; cbn [log_run]; [now rewrite app_nil_r|].
    pose proof (log_step_log L o) as E1. destruct (log_step key maxlen L o) as [L1 v]. cbn [fst snd] in E1.
    specialize (IH L1). destruct (log_run key maxlen L1 ops) as [L2 vs]. cbn [fst snd] in *.
    rewrite IH, E1, (accepted_cons o v ops vs). now rewrite <- app_assoc.
  Qed.
  Lemma run_sim ops : forall s L, rel s L -> Forall (op_ok P key) ops ->
    strictly_ordered key (lg L ++ accepted ops (snd (bsys_run s ops))) ->
    snd (bsys_run s ops) = snd (log_run key maxlen L ops) /\
    rel (fst (bsys_run s ops)) (fst (log_run key maxlen L ops)).
  Proof.
    induction ops as [|o ops IH]; intros s L R OK HS; cbn [bsys_run log_run] in *; [auto|].
    inversion OK as [|? ? OK1 OK2]; subst.
    destruct (step_sim s L o R OK1) as [E1 R1]. pose proof (log_step_log L o) as EL.
    destruct (bsys_step s o) as [s1 v1], (log_step key maxlen L o) as [L1 v1']. cbn [fst snd] in *. subst v1'.
    specialize (IH s1 L1). destruct (bsys_run s1 ops) as [s2 vs']. cbn [fst snd] in *.
    rewrite accepted_cons, app_assoc, <- EL in HS.
    specialize (R1 (strictly_ordered_app _ _ _ HS)). specialize (IH R1 OK2 HS).
    destruct (log_run key maxlen L1 ops) as [L2 vs]. cbn [fst snd] in *. destruct IH as [-> R2]. auto.
  Qed.
  Lemma run_app s ops1 ops2 : bsys_run s (ops1 ++ ops2) =
    (fst (bsys_run (fst (bsys_run s ops1)) ops2), snd (bsys_run s ops1) ++ snd (bsys_run (fst (bsys_run s ops1)) ops2)).
  Proof.
    revert s. induction ops1 as [|o ops1 IH]; intro s; cbn [app bsys_run].
    - cbn. now destruct (bsys_run s ops2).
    - destruct (bsys_step s o) as [s1 v]. rewrite IH. destruct (bsys_run s1 ops1) as [s2 vs]. reflexivity.
  Qed.
  Lemma accepted_app ops1 ops2 : forall v1 v2, length ops1 = length v1 ->
    accepted (ops1 ++ ops2) (v1 ++ v2) = accepted ops1 v1 ++ accepted ops2 v2.
  Proof.
    induction ops1 as [|o ops1 IH]; intros [|v v1] v2 H; try discriminate; [reflexivity|].
    cbn [app]. rewrite accepted_cons, (accepted_cons o v ops1 v1), IH by (cbn in H; lia). now rewrite app_assoc.
  Qed.
  Lemma got_cons i o v ops vs : got i (o :: ops) (v :: vs) = got i [o] [v] ++ got i ops vs.
  Proof. destruct o; cbn [got]; rewrite ?app_nil_r; auto. Qed.
  Lemma got_app i ops1 ops2 : forall v1 v2, length ops1 = length v1 ->
    got i (ops1 ++ ops2) (v1 ++ v2) = got i ops1 v1 ++ got i ops2 v2.
  Proof.
    induction ops1 as [|o ops1 IH]; intros [|v v1] v2 H; try discriminate; [reflexivity|].
    cbn [app]. rewrite got_cons, (got_cons i o v ops1 v1), IH by (cbn in H; lia). now rewrite app_assoc.
  Qed.
  Lemma run_length s ops : length (snd (bsys_run s ops)) = length ops.
  Proof.
    revert s. induction ops as [|o ops IH]; intro s; cbn; [reflexivity|].
    destruct (bsys_step s o) as [s1 v]. specialize (IH s1). destruct (bsys_run s1 ops). cbn in *. lia.
  Qed.
End Log.
