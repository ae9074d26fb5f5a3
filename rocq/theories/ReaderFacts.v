(** * Proofs about [BufferReaderM] *)
From Coq Require Import List ZArith Bool Arith Lia Sorting.Sorted Sorting.Permutation.
From Verif Require Import PyVal PyLib PyValFacts SortedDequeM BufferReaderM Spec SpecDeque SpecReader
  BisectFacts ListFacts DequeFacts DequeSearch.
Import ListNotations.

(** Buffers: strict keys, all in [P]. *)
Record bok (P : pyval -> Prop) (d : sdeque) : Prop := {
  bok_cons : consistent d;
  bok_strict : strict_keys (sd_keys d);
  bok_P : Forall P (sd_keys d)
}.
Definition Ukey (P : pyval -> Prop) (d : sdeque) (x : pyval) : Prop := forall k, sd_key d x = Ok k -> P k.
Lemma run_keys_P (P : pyval -> Prop) key ops : (forall x k, In (OAppend x) ops -> key x = Ok k -> P k) ->
  Forall is_append_or_drop ops ->
  forall d, sd_key d = key -> consistent d -> Forall P (sd_keys d) -> Forall P (sd_keys (sd_run d ops)).
Proof.
  intros HP HO. induction HO as [|o ops Ho HO IH]; intros d Hk HC Hd; [assumption|].
  change (sd_run d (o :: ops)) with (sd_run (fst (sd_step d o)) ops). apply IH.
  - intros x k Hx. apply HP. now right.
  - destruct o; try easy; cbn [sd_step]; [now rewrite append_key | unfold sd_drop; now rewrite drop_nat_key].
  - now apply consistent_step.
  - destruct o; try easy; cbn [sd_step].
    + destruct (append_cases d x) as [(k & Hkx & _ & E)|(e & E)]; rewrite E; cbn [fst sd_keys]; [|assumption].
      assert (Forall P (sd_keys d ++ [k])).
      { apply Forall_app. split; [assumption|]. constructor; [|constructor].
        apply (HP x); [now left|]. now rewrite <- Hk. }
      unfold deque_append. destruct (sd_bound d); [|assumption]. destruct (Nat.ltb _ _); [|assumption].
      destruct (sd_keys d ++ [k]); [constructor|]. now inversion H.
    + rewrite drop_spec by assumption. now apply Forall_skipn'.
Qed.
Lemma buffer_bok P d : buffer_in P d -> bok P d.
Proof.
  intros (key & m & d0 & ops & H & HO & HP & ->).
  pose proof (sinv_run d0 ops (sinv_init _ _ _ H) HO) as [HC HS _].
  constructor; auto. apply (run_keys_P P key ops HP HO).
  - now apply init_key in H.
  - now apply consistent_init in H.
  - revert H. unfold sd_init. cbn. destruct (check_maxlen m); [|discriminate]. injection 1 as <-. constructor.
Qed.
Definition unbound (d : sdeque) : sdeque := MkSD (sd_keys d) (sd_items d) (sd_key d) None None.
Lemma bok_inv P d : bok P d -> inv (Ukey P d) P (unbound d).
Proof.
  unfold unbound.
  intros [HC HS HP]. constructor; cbn.
  - exact HC.
  - now apply strict_nondecr.
  - exact HP.
  - apply Forall_forall. intros x Hx k Hk. destruct (keyed_in _ _ _ _ HC Hx) as (k' & E & Hin).
    rewrite Forall_forall in HP. apply HP. congruence.
  - intros x k Hx E. now apply Hx.
  - discriminate.
Qed.

Lemma is_none_iff v : is_none v = true <-> v = PNone.
Proof. destruct v; cbn; split; congruence. Qed.
Lemma family_no_none P : total_family P -> ~ P PNone.
Proof. intros F H. destruct (tf_comparable P F _ _ H H) as [[r Hr] _]. discriminate. Qed.
Lemma family_not_none P k : total_family P -> P k -> is_none k = false.
Proof.
  intros F H. destruct (is_none k) eqn:E; [|reflexivity]. apply is_none_iff in E. subst.
  now apply family_no_none in H.
Qed.

Lemma leb_negb P a b : total_family P -> P a -> P b -> leb a b = negb (ltb b a).
Proof.
  intros F Ha Hb. unfold leb. destruct (ltb a b) eqn:E1.
  - now rewrite (ltb_asym _ _ E1).
  - cbn. destruct (ltb b a) eqn:E2; cbn.
    + rewrite py_eq_sym. now apply ltb_neq.
    + now apply (tf_antisym P F).
Qed.
Lemma leb_refl P a : total_family P -> P a -> leb a a = true.
Proof. intros F H. rewrite (leb_negb P) by assumption. now rewrite ltb_irrefl. Qed.
Lemma leb_trans a b c : leb a b = true -> leb b c = true -> leb a c = true.
Proof.
  unfold leb. rewrite !orb_true_iff. intros [H1|H1] [H2|H2].
  - left. eapply ltb_trans; eauto.
  - left. now rewrite <- (ltb_eq_r b c a H2).
  - left. now rewrite (ltb_eq_l a b c H1).
  - right. eapply py_eq_trans; eauto.
Qed.
Lemma ltb_leb a b : ltb a b = true -> leb a b = true.
Proof. unfold leb. now intros ->. Qed.
Lemma ltb_leb_trans a b c : ltb a b = true -> leb b c = true -> ltb a c = true.
Proof.
  unfold leb. rewrite orb_true_iff. intros H1 [H2|H2]; [eapply ltb_trans; eauto|].
  now rewrite <- (ltb_eq_r b c a H2).
Qed.

Lemma run_get {A} (f : breader -> M A) r : run (bindM getM f) r = run (f r) r.
Proof. unfold run, bindM, getM. now destruct (f r r) as [[t r'] a]. Qed.

Section Reader.
  Variable P : pyval -> Prop.
  Hypothesis F : total_family P.
  Variable d : sdeque.
  Hypothesis B : bok P d.
  Local Notation key := (sd_key d).
  Local Notation l := (sd_items d).

  (* Search methods do not look at maxlen. *)
  Local Notation d0 := (unbound d).
  Local Notation I := (bok_inv P d B).

  Lemma b_find_gt k : P k -> sd_find_gt d k = first_such (key_sat key (ltb k)) l.
  Proof. exact (find_gt_spec _ P F d0 I k). Qed.
  Lemma b_find_ge k : P k -> sd_find_ge d k = first_such (key_sat key (leb k)) l.
  Proof. exact (find_ge_spec _ P F d0 I k). Qed.
  Lemma b_find_le k : P k -> sd_find_le d k = last_such (key_sat key (fun y => leb y k)) l.
  Proof. exact (find_le_spec _ P F d0 I k). Qed.
  Lemma b_find_last_gt k : P k -> sd_find_last_gt d k = last_such (key_sat key (ltb k)) l.
  Proof. exact (find_last_gt_spec _ P F d0 I k). Qed.
  Lemma b_range start stop step : P start -> P stop -> sd_range d start stop step =
    let hits := filter (key_sat key (fun y => leb start y && leb y stop)) l in
    match step with
    | None => Ok hits
    | Some s => if Z.leb s 0 then Raise ValueError else Ok (every_nth (Z.to_nat s) hits)
    end.
  Proof. exact (range_spec _ P d0 start stop step F I). Qed.
  Lemma key_in x : In x l -> exists k, key x = Ok k /\ In k (sd_keys d) /\ P k.
  Proof.
    intro Hx. destruct (keyed_in _ _ _ _ (bok_cons _ _ B) Hx) as (k & E & Hk).
    pose proof (bok_P _ _ B) as HP. rewrite Forall_forall in HP. eauto.
  Qed.

  (** Fresh readers: comparing with None raises unless there is nothing to compare. *)
  Lemma bisect_right_none ks : ks <> [] -> bisect_right ks PNone = Raise TypeError.
  Proof.
    intro H. destruct ks as [|k ks]; [easy|]. unfold bisect_right. cbn [length bisect_right_loop].
    destruct (Nat.ltb_spec 0 (S (length ks))); [|lia].
    destruct (get_lt (k :: ks) ((0 + S (length ks)) / 2)) as (y & -> & _).
    { cbn [length]. pose proof (mid_bounds 0 (S (length ks))). lia. }
    cbn [bind]. now destruct y.
  Qed.
  Lemma find_gt_none : sd_find_gt d PNone = if Nat.eqb (length l) 0 then Raise ValueError else Raise TypeError.
  Proof.
    unfold sd_find_gt. pose proof (Forall2_length _ _ _ (bok_cons _ _ B)) as HL.
    destruct (Nat.eqb_spec (length l) 0) as [E|E].
    - assert (Ek : sd_keys d = []) by (apply length_zero_iff_nil; lia).
      rewrite Ek. cbn. unfold sd_len. now rewrite E.
    - rewrite bisect_right_none; [reflexivity|]. intro C. rewrite C in HL. cbn in HL. lia.
  Qed.
  Lemma getitem_0 : sd_getitem d 0 = match l with x :: _ => Ok x | [] => Raise IndexError end.
  Proof. unfold sd_getitem, getitem. cbn. unfold get. destruct l; reflexivity. Qed.
  Lemma getitem_last (A : Type) (m : list A) : getitem m (-1) = match last_opt m with Some x => Ok x | None => Raise IndexError end.
  Proof.
    unfold getitem. change (Z.ltb (-1) 0) with true. cbn iota.
    destruct m as [|x m _] using rev_ind; [reflexivity|]. rewrite last_opt_snoc, app_length. cbn [length].
    destruct (Z.ltb_spec (-1 + Z.of_nat (length m + 1)) 0); [lia|].
    unfold get. rewrite nth_error_app2 by lia.
    now replace (Z.to_nat (-1 + Z.of_nat (length m + 1)) - length m) with 0 by lia.
  Qed.

  Lemma unseen_all r : is_none (r_last_key r) = true -> unseen key r l = l.
  Proof. intro H. unfold unseen, is_unseen. apply filter_all. apply Forall_forall. intros. now rewrite H. Qed.
  Lemma unseen_gt r : is_none (r_last_key r) = false -> unseen key r l = filter (key_sat key (ltb (r_last_key r))) l.
  Proof. intro H. unfold unseen, is_unseen. rewrite H. reflexivity. Qed.
  Lemma find_filter {A} (f : A -> bool) m : find f m = hd_error (filter f m).
  Proof. induction m as [|x m IH]; cbn; [reflexivity|]. destruct (f x); auto. Qed.

  (** The lookup at the start of [read]. *)
  Lemma lookup_first r (ignore : bool) : cursor_in P r ->
    tryM (do! x := liftM (sd_find_gt d (r_last_key r)) in retM (Some x))
      (fun e => match e with
       | ValueError => if ignore then retM None else raiseM ValueError
       | TypeError => if is_none (r_last_item r)
                      then do! x := liftM (sd_getitem d 0) in retM (Some x)
                      else raiseM TypeError
       | e => raiseM e
       end) r =
    ([], r, match unseen key r l with
            | x :: _ => Ok (Some x)
            | [] => if ignore then Ok None else Raise ValueError
            end).
  Proof.
    intros [[H1 H2]|H].
    - rewrite unseen_all by now rewrite H2. unfold tryM, bindM, liftM, retM, raiseM.
      rewrite H2, find_gt_none, H1. rewrite getitem_0.
      destruct l as [|x m]; cbn; [|reflexivity]. now destruct ignore.
    - pose proof (family_not_none P _ F H) as N. rewrite unseen_gt by assumption.
      unfold tryM, bindM, liftM, retM, raiseM. rewrite b_find_gt by assumption. unfold first_such.
      rewrite find_filter. destruct (filter _ l) as [|x m]; cbn; [|reflexivity]. now destruct ignore.
  Qed.

  Lemma unseen_suffix r : cursor_in P r -> exists i, i <= length l /\ unseen key r l = skipn i l /\
    forall x m, unseen key r l = x :: m -> nth_error l i = Some x.
  Proof.
    intro H. assert (exists i, i <= length l /\ unseen key r l = skipn i l) as (i & Hi & E).
    { destruct H as [[H1 H2]|H].
      - exists 0. split; [lia|]. rewrite unseen_all by now rewrite H2. reflexivity.
      - destruct (inv_bisect_right _ P d0 (r_last_key r) F I H) as (i & _ & Hs).
        apply (right_gt _ P d0 I) in Hs. exists i. split; [apply Hs|].
        rewrite unseen_gt by now apply (family_not_none P). apply (splits_filter _ _ _ Hs). }
    exists i. split; [assumption|]. split; [assumption|]. intros x m E2.
    rewrite <- hd_error_skipn, <- E, E2. reflexivity.
  Qed.
  Lemma index_at i x : nth_error l i = Some x -> sd_index d x = Ok i.
  Proof.
    intro Hi. destruct (key_in x (nth_error_In _ _ Hi)) as (k & Ek & Hk & Pk).
    destruct (Forall2_nth_l _ _ _ (bok_cons _ _ B) i x Hi) as (k' & Hki & Ek').
    assert (k' = k) by congruence. subst k'. clear Ek'.
    pose proof (bok_strict _ _ B) as HS. unfold strict_keys in HS. rewrite StronglySorted_nth in HS.
    (* the slice between the two bisections is exactly [i, i+1) *)
    unfold sd_index. rewrite Ek. cbn [bind].
    destruct (inv_bisect_left _ P d0 k F I Pk) as (a & Ha & Hsa).
    destruct (inv_bisect_right _ P d0 k F I Pk) as (b & Hb & Hsb). cbn [sd_keys unbound] in *.
    rewrite Ha, Hb. cbn [bind].
    assert (a = i).
    { destruct Hsa as (_ & H1 & H2).
      destruct (lt_eq_lt_dec a i) as [[L|L]|L]; auto.
      - destruct (nth_error (sd_keys d) a) as [ka|] eqn:E.
        + specialize (H2 a ka (le_n _) E). rewrite (HS a i ka k L E Hki) in H2. discriminate.
        + apply nth_error_None in E. assert (i < length (sd_keys d)) by (apply nth_error_Some; congruence). lia.
      - specialize (H1 i k L Hki). rewrite ltb_irrefl in H1. discriminate. }
    assert (b = S i).
    { destruct Hsb as (_ & H1 & H2).
      destruct (lt_eq_lt_dec b (S i)) as [[L|L]|L]; auto.
      - specialize (H2 i k ltac:(lia) Hki). rewrite ltb_irrefl in H2. discriminate.
      - destruct (nth_error (sd_keys d) (S i)) as [ka|] eqn:E.
        + specialize (H1 (S i) ka L E). rewrite (HS i (S i) k ka ltac:(lia) Hki E) in H1. discriminate.
        + apply nth_error_None in E. destruct (bisect_right_spec (sd_keys d) k b) as (Hbl & _); auto.
          { apply strict_up_closed. apply (bok_strict _ _ B). }
          lia. }
    subst a b. clear Ha Hb Hsa Hsb. unfold deque_index.
    assert (G : forall m pos, nth_error m (i - pos) = Some x -> pos <= i -> index_from m pos i (S i) x = Ok i).
    { induction m as [|y m IH]; intros pos Hn Hp; cbn [index_from].
      - destruct (i - pos); discriminate.
      - destruct (Nat.eq_dec pos i) as [->|N].
        + rewrite Nat.sub_diag in Hn. injection Hn as ->. rewrite same_item_refl.
          now rewrite Nat.leb_refl, (proj2 (Nat.ltb_lt i (S i))) by lia.
        + destruct (Nat.leb_spec i pos); [lia|]. cbn [andb]. apply IH; [|lia].
          destruct (i - pos) as [|q] eqn:Q; [lia|]. cbn in Hn. now replace (i - S pos) with q by lia. }
    apply G; [|lia]. now rewrite Nat.sub_0_r.
  Qed.

  Lemma set_last_ok x r : In x l -> set_last_item d x r = ([], cursor_to key x r, Ok tt).
  Proof. intro Hx. destruct (key_in x Hx) as (k & E & _). unfold set_last_item, cursor_to. now rewrite E. Qed.
  Lemma move_cursor_ok (peek : bool) x r : In x l ->
    move_cursor d peek x r = ([], moved key peek [x] r, Ok tt).
  Proof.
    intro Hx. unfold move_cursor, moved. destruct peek; [reflexivity|]. cbn. now apply set_last_ok.
  Qed.

  (** ** read, in closed form *)
  Definition read_result (n : Z) (peek ignore strict : bool) (r : breader) : breader * res rval :=
    match unseen key r l with
    | [] => (r, if ignore then Ok VNone else Raise ValueError)
    | x :: _ =>
        if Z.ltb 1 n then
          if strict && Z.leb (Z.of_nat (length (unseen key r l))) n then (r, Raise ValueError)
          else (moved key peek (firstn (Z.to_nat n) (unseen key r l)) r,
                Ok (VList (firstn (Z.to_nat n) (unseen key r l))))
        else (moved key peek [x] r, Ok (VItem x))
    end.

  Lemma read_body_closed n peek ignore strict r : cursor_in P r ->
    read_body d n peek ignore strict r =
    ([], fst (read_result n peek ignore strict r), snd (read_result n peek ignore strict r)).
  Proof.
    intro H. unfold read_body. unfold bindM at 1, getM at 1. unfold bindM at 1.
    rewrite lookup_first by assumption. unfold read_result.
    destruct (unseen_suffix r H) as (i & Hi & E & Hn).
    destruct (unseen key r l) as [|x m] eqn:Eu.
    - destruct ignore; reflexivity.
    - specialize (Hn x m eq_refl). pose proof (nth_error_In _ _ Hn) as Hin.
      destruct (Z.ltb_spec 1 n) as [L|L].
      + unfold read_many. unfold bindM at 1, liftM at 1. rewrite (index_at i x Hn).
        assert (HL : length (x :: m) = length l - i) by (rewrite E; apply skipn_length).
        assert (i < length l) by (apply nth_error_Some; congruence).
        unfold sd_len.
        replace (Z.leb (Z.of_nat (length l)) (Z.of_nat i + n)) with (Z.leb (Z.of_nat (length (x :: m))) n).
        2:{ destruct (Z.leb_spec (Z.of_nat (length (x :: m))) n), (Z.leb_spec (Z.of_nat (length l)) (Z.of_nat i + n)); lia. }
        destruct (strict && _); [reflexivity|].
        unfold bindM at 1, liftM at 1. unfold sd_range_by_index, islice, slice.
        replace (Z.to_nat (Z.of_nat i + n) - i) with (Z.to_nat n) by lia. rewrite <- E.
        destruct peek; [reflexivity|]. unfold bindM at 1, liftM at 1, last_of.
        assert (exists y, last_opt (firstn (Z.to_nat n) (x :: m)) = Some y) as (y & Ey).
        { destruct (last_opt (firstn (Z.to_nat n) (x :: m))) as [y|] eqn:Ey; [eauto|].
          apply last_opt_none in Ey. destruct (Z.to_nat n) eqn:Q; [lia|discriminate]. }
        unfold moved. rewrite Ey.
        assert (In y l).
        { apply last_opt_some in Ey as (l' & Ey).
          assert (In y (x :: m)).
          { rewrite <- (firstn_skipn (Z.to_nat n) (x :: m)), Ey, <- app_assoc.
            apply in_app_iff. right. now left. }
          rewrite E in H1. rewrite <- (firstn_skipn i l). apply in_app_iff. now right. }
        unfold bindM. rewrite set_last_ok by assumption. reflexivity.
      + unfold bindM. rewrite move_cursor_ok by assumption. reflexivity.
  Qed.

  Lemma read_closed a r : cursor_in P r ->
    run (read d a) r = read_result (dflt (a_n a) (rk_n r)) (dflt (a_peek a) false)
                         (dflt (a_ignore a) (rk_ignore r)) (dflt (a_strict a) (rk_strict r)) r.
  Proof.
    intro H. unfold run, read. unfold bindM at 1, getM at 1. unfold with_lock.
    rewrite read_body_closed by assumption. now destruct (read_result _ _ _ _ _).
  Qed.

  (** ** tail and head *)
  Lemma last_opt_in {A} (m : list A) x : last_opt m = Some x -> In x m.
  Proof. intro H. apply last_opt_some in H as (m' & ->). apply in_app_iff. cbn. auto. Qed.
  Lemma find_rev_last {A} (f : A -> bool) (m : list A) : find f (rev m) = last_opt (filter f m).
  Proof.
    induction m as [|x m IH] using rev_ind; [reflexivity|].
    rewrite rev_app_distr, filter_app. cbn. destruct (f x).
    - now rewrite last_opt_snoc.
    - now rewrite app_nil_r.
  Qed.
  Lemma find_last_gt_none : sd_find_last_gt d PNone = if Nat.eqb (length l) 0 then Raise ValueError else Raise TypeError.
  Proof.
    unfold sd_find_last_gt. pose proof (Forall2_length _ _ _ (bok_cons _ _ B)) as HL.
    destruct (last_opt (sd_keys d)) as [k|] eqn:E.
    - apply last_opt_some in E as (ks & E). rewrite E, app_length in HL. cbn in HL.
      destruct (Nat.eqb_spec (length l) 0); [lia|]. unfold py_gt. now destruct k.
    - apply last_opt_none in E. rewrite E in HL. cbn in HL. now rewrite HL.
  Qed.
  Definition tail_result (peek ignore only_new : bool) (r : breader) : breader * res rval :=
    match last_opt (if only_new then unseen key r l else l) with
    | Some x => (moved key peek [x] r, Ok (VItem x))
    | None => (r, if ignore then Ok VNone else Raise (if only_new then ValueError else IndexError))
    end.
  Lemma tail_closed peek ignore only_new r : cursor_in P r ->
    run (tail d peek ignore only_new) r = tail_result peek ignore only_new r.
  Proof.
    intro H. unfold run, tail, tail_result. unfold bindM at 1, with_lock, tail_body.
    unfold bindM at 1, getM at 1.
    assert (Hlast : forall x, last_opt (if only_new then unseen key r l else l) = Some x -> In x l).
    { intros x Hx. apply last_opt_in in Hx. destruct only_new; [|assumption].
      unfold unseen in Hx. apply filter_In in Hx. tauto. }
    destruct only_new.
    - destruct H as [[H1 H2]|H].
      + rewrite unseen_all in * by now rewrite H2. unfold tryM, bindM, liftM, retM, raiseM.
        rewrite H2, find_last_gt_none, H1. unfold sd_getitem. rewrite getitem_last.
        destruct (last_opt l) as [x|] eqn:E.
        * assert (length l <> 0) by (apply last_opt_some in E as (l' & ->); rewrite app_length; cbn; lia).
          destruct (Nat.eqb_spec (length l) 0); [lia|]. cbn. rewrite move_cursor_ok by auto. reflexivity.
        * apply last_opt_none in E. rewrite E. cbn. now destruct ignore.
      + rewrite unseen_gt in * by now apply (family_not_none P).
        unfold tryM, bindM, liftM, retM, raiseM. rewrite b_find_last_gt by assumption. unfold last_such.
        rewrite find_rev_last. destruct (last_opt _) as [x|] eqn:E.
        * rewrite move_cursor_ok by auto. reflexivity.
        * now destruct ignore.
    - unfold tryM, bindM, liftM, retM, raiseM, sd_getitem. rewrite getitem_last.
      destruct (last_opt l) as [x|] eqn:E.
      + rewrite move_cursor_ok by auto. reflexivity.
      + now destruct ignore.
  Qed.
  Definition head_result (peek : bool) (r : breader) : breader * res rval :=
    match l with
    | x :: _ => (moved key peek [x] r, Ok (VItem x))
    | [] => (r, Raise IndexError)
    end.
  Lemma head_closed peek r : run (head d peek) r = head_result peek r.
  Proof.
    unfold run, head, head_result, with_lock, bindM, liftM, retM. rewrite getitem_0.
    destruct l as [|x m] eqn:El; [reflexivity|].
    assert (Hh : In x l) by (rewrite El; now left).
    pose proof (key_in x Hh) as (k & E & _). unfold move_cursor, set_last_item, moved, cursor_to.
    destruct peek; [reflexivity|]. cbn. rewrite E. reflexivity.
  Qed.

  (** ** range *)
  Lemma key_order i j x y kx ky : nth_error l i = Some x -> nth_error l j = Some y ->
    key x = Ok kx -> key y = Ok ky -> i <= j -> leb kx ky = true.
  Proof.
    intros Hi Hj Ex Ey L. destruct (Nat.eq_dec i j) as [->|N].
    - assert (kx = ky) by congruence. subst. destruct (key_in x (nth_error_In _ _ Hi)) as (k & E & _ & Pk).
      apply (leb_refl P); auto. congruence.
    - pose proof (bok_strict _ _ B) as HS. unfold strict_keys in HS. rewrite StronglySorted_nth in HS.
      destruct (Forall2_nth_l _ _ _ (bok_cons _ _ B) i x Hi) as (k1 & H1 & E1).
      destruct (Forall2_nth_l _ _ _ (bok_cons _ _ B) j y Hj) as (k2 & H2 & E2).
      apply ltb_leb. assert (k1 = kx) by congruence. assert (k2 = ky) by congruence. subst.
      apply (HS i j); auto. lia.
  Qed.
  Lemma find_rev_max (f : pyval -> bool) x : find f (rev l) = Some x ->
    In x l /\ f x = true /\
    forall y kx ky, In y l -> f y = true -> key x = Ok kx -> key y = Ok ky -> leb ky kx = true.
  Proof.
    rewrite find_rev_last. intro H. apply last_opt_some in H as (m & Hm).
    assert (Hx : In x (filter f l)) by (rewrite Hm; apply in_app_iff; cbn; auto).
    apply filter_In in Hx as [Hx Hf]. split; [assumption|]. split; [assumption|].
    intros y kx ky Hy Hfy Ex Ey.
    assert (HF : In y (m ++ [x])) by (rewrite <- Hm; now apply filter_In).
    assert (HSo : StronglySorted (key_before key) (filter f l)).
    { pose proof (keyed_strict _ _ _ (bok_cons _ _ B) (bok_strict _ _ B)) as HS. unfold strictly_ordered in HS.
      clear -HS. induction HS as [|a b HS IH HF]; cbn; [constructor|].
      destruct (f a); [|assumption]. constructor; [assumption|].
      rewrite Forall_forall in *. intros z Hz. apply HF. now apply filter_In in Hz. }
    rewrite Hm in HSo. apply in_app_iff in HF as [HF|[->|[]]].
    - destruct (StronglySorted_app_inv _ _ _ HSo y x HF (or_introl eq_refl)) as (a & b & Ha & Hb & L).
      apply ltb_leb. congruence.
    - assert (kx = ky) by congruence. subst. destruct (key_in y Hy) as (k & E & _ & Pk).
      apply (leb_refl P); auto. congruence.
  Qed.
  Lemma find_min (f : pyval -> bool) x : find f l = Some x ->
    In x l /\ f x = true /\
    forall y kx ky, In y l -> f y = true -> key x = Ok kx -> key y = Ok ky -> leb kx ky = true.
  Proof.
    intro H. pose proof (find_some _ _ H) as [Hx Hf]. split; [assumption|]. split; [assumption|].
    intros y kx ky Hy Hfy Ex Ey. pose proof (keyed_strict _ _ _ (bok_cons _ _ B) (bok_strict _ _ B)) as HS.
    unfold strictly_ordered in HS. assert (G : forall m, StronglySorted (key_before key) m -> find f m = Some x -> In y m ->
      y = x \/ key_before key x y).
    { clear -Hfy. induction m as [|a m IH]; [easy|]. intros HS Hfi Hin. inversion HS; subst.
      cbn in Hfi. destruct (f a) eqn:Ea.
      - injection Hfi as ->. destruct Hin as [->|Hin]; [now left|right]. rewrite Forall_forall in H2. auto.
      - destruct Hin as [->|Hin]; [congruence|auto]. }
    destruct (G l HS H Hy) as [->|(a & b & Ha & Hb & L)].
    - assert (kx = ky) by congruence. subst. destruct (key_in x Hy) as (k & E & _ & Pk).
      apply (leb_refl P); auto. congruence.
    - apply ltb_leb. congruence.
  Qed.
  Lemma floor_cases s : P s ->
    (exists x f, find (key_sat key (fun k => leb k s)) (rev l) = Some x /\ key x = Ok f /\ P f /\
       floor_key key l s = Some f /\ leb f s = true /\
       forall y k, In y l -> key y = Ok k -> leb k s = true -> leb k f = true) \/
    (find (key_sat key (fun k => leb k s)) (rev l) = None /\ floor_key key l s = None /\
       forall y k, In y l -> key y = Ok k -> leb k s = false).
  Proof.
    intro Hs. unfold floor_key. destruct (find _ (rev l)) as [x|] eqn:E.
    - left. destruct (find_rev_max _ _ E) as (Hx & Hf & Hmax). destruct (key_in x Hx) as (f & Ef & _ & Pf).
      exists x, f. rewrite Ef. repeat split; auto.
      + unfold key_sat in Hf. now rewrite Ef in Hf.
      + intros y k Hy Ek Hk. apply (Hmax y); auto. unfold key_sat. now rewrite Ek.
    - right. repeat split; auto. intros y k Hy Ek. apply in_rev in Hy.
      pose proof (find_none _ _ E y Hy) as H. unfold key_sat in H. now rewrite Ek in H.
  Qed.
  Lemma ceil_cases s : P s ->
    (exists x f, find (key_sat key (leb s)) l = Some x /\ key x = Ok f /\ P f /\
       ceil_key key l s = Some f /\ leb s f = true /\
       forall y k, In y l -> key y = Ok k -> leb s k = true -> leb f k = true) \/
    (find (key_sat key (leb s)) l = None /\ ceil_key key l s = None /\
       forall y k, In y l -> key y = Ok k -> leb s k = false).
  Proof.
    intro Hs. unfold ceil_key. destruct (find _ l) as [x|] eqn:E.
    - left. destruct (find_min _ _ E) as (Hx & Hf & Hmin). destruct (key_in x Hx) as (f & Ef & _ & Pf).
      exists x, f. rewrite Ef. repeat split; auto.
      + unfold key_sat in Hf. now rewrite Ef in Hf.
      + intros y k Hy Ek Hk. apply (Hmin y); auto. unfold key_sat. now rewrite Ek.
    - right. repeat split; auto. intros y k Hy Ek.
      pose proof (find_none _ _ E y Hy) as H. unfold key_sat in H. now rewrite Ek in H.
  Qed.

  Definition range_result (g : rgargs) (r : breader) : breader * res rval :=
    let ignore := dflt (g_ignore g) (rk_ignore r) in
    if g_only_new g && match unseen key r l with [] => negb (is_none (r_last_key r)) | _ => false end
    then (r, if ignore then Ok VNone else Raise ValueError)
    else if g_stop_ge g && match ceil_key key l (g_stop g) with None => true | Some _ => false end
    then (r, if ignore then Ok VNone else Raise ValueError)
    else if bad_step (g_step g) then (r, Raise ValueError)
    else let out := stepped (g_step g) (range_hits key r l g) in
    if g_peek g then (r, Ok (VList out))
    else match out with
         | [] => (r, if ignore then Ok VNone else Raise IndexError)
         | _ => (moved key false out r, Ok (VList out))
         end.

  (* the part of the body after the lower bound has been found *)
  Definition range_rest (g : rgargs) (ignore : bool) (s1 : pyval) : M (option (list pyval)) :=
    do! s2 :=
        (if g_start_le g then
           tryM (do! x := liftM (sd_find_le d s1) in liftM (key x))
             (fun e => match e with ValueError => retM s1 | e => raiseM e end)
         else retM s1) in
      do! stop :=
        (if g_stop_ge g then
           tryM (do! x := liftM (sd_find_ge d (g_stop g)) in
                 do! k := liftM (key x) in retM (Some k))
             (fun e => match e with
              | ValueError => if ignore then retM None else raiseM ValueError
              | e => raiseM e end)
         else retM (Some (g_stop g))) in
      match stop with
      | None => retM None
      | Some st => do! m := liftM (sd_range d s2 st (g_step g)) in retM (Some m)
      end.
  Lemma range_rest_closed g ignore s1 r : P s1 -> P (g_stop g) ->
    (forall x k, In x l -> key x = Ok k ->
       (leb s1 k || (g_start_le g && match floor_key key l s1 with Some f => leb f k | None => false end)) =
       (negb (g_only_new g) || is_unseen key r x) && above_start key l (g_start g) (g_start_le g) k) ->
    range_rest g ignore s1 r =
    ([], r, if g_stop_ge g && match ceil_key key l (g_stop g) with None => true | Some _ => false end
            then (if ignore then Ok None else Raise ValueError)
            else if bad_step (g_step g) then Raise ValueError
            else Ok (Some (stepped (g_step g) (range_hits key r l g)))).
  Proof.
    intros Ps1 Pst Hlow. unfold range_rest.
    (* lower bound *)
    assert (exists s2, P s2 /\
      (forall x k, In x l -> key x = Ok k -> leb s2 k =
        (negb (g_only_new g) || is_unseen key r x) && above_start key l (g_start g) (g_start_le g) k) /\
      (if g_start_le g then
           tryM (do! x := liftM (sd_find_le d s1) in liftM (key x))
             (fun e => match e with ValueError => retM s1 | e => raiseM e end)
         else retM s1) r = ([], r, Ok s2)) as (s2 & Ps2 & Hs2 & E2).
    { destruct (g_start_le g) eqn:Esl.
      - rewrite b_find_le by assumption. unfold last_such.
        destruct (floor_cases s1 Ps1) as [(x & f & Hf & Ex & Pf & E & L & Hmax)|(Hf & E & Hno)].
        + exists f. split; [assumption|]. split.
          * intros y k Hy Ek. rewrite <- (Hlow y k Hy Ek), E. cbn [andb].
            destruct (leb s1 k) eqn:E1; [|reflexivity]. cbn. eapply leb_trans; eauto.
          * rewrite Hf. unfold tryM, bindM, liftM. cbn. now rewrite Ex.
        + exists s1. split; [assumption|]. split.
          * intros y k Hy Ek. rewrite <- (Hlow y k Hy Ek), E. cbn [andb]. now rewrite orb_false_r.
          * rewrite Hf. reflexivity.
      - exists s1. split; [assumption|]. split; [|reflexivity].
        intros y k Hy Ek. rewrite <- (Hlow y k Hy Ek). cbn [andb]. now rewrite orb_false_r. }
    unfold bindM at 1. rewrite E2. cbn [app].
    (* upper bound *)
    assert (Fin : forall st, P st ->
      (forall x k, In x l -> key x = Ok k -> leb k st = below_stop key l (g_stop g) (g_stop_ge g) k) ->
      (do! m := liftM (sd_range d s2 st (g_step g)) in retM (Some m)) r =
      ([], r, if bad_step (g_step g) then Raise ValueError
            else Ok (Some (stepped (g_step g) (range_hits key r l g))))).
    { intros st Pstt Hst. unfold bindM, liftM, retM. rewrite b_range by assumption.
      assert (EH : filter (key_sat key (fun y => leb s2 y && leb y st)) l = range_hits key r l g).
      { unfold range_hits. apply filter_ext_in. intros x Hx. destruct (key_in x Hx) as (k & Ek & _ & _).
        unfold key_sat. rewrite Ek, (Hs2 x k Hx Ek), (Hst x k Hx Ek). reflexivity. }
      cbn zeta. rewrite EH. unfold bad_step, stepped. destruct (g_step g) as [z|]; [|reflexivity].
      now destruct (Z.leb z 0). }
    unfold bindM at 1. destruct (g_stop_ge g) eqn:Esg.
    - rewrite b_find_ge by assumption. unfold first_such.
      destruct (ceil_cases _ Pst) as [(x & f & Hf & Ex & Pf & E & L & Hmin)|(Hf & E & Hno)].
      + rewrite Hf, E. unfold tryM, bindM at 1 2, liftM at 1 2. rewrite Ex. unfold retM at 1. cbn [app].
        rewrite (Fin f Pf); [reflexivity|].
        intros y k Hy Ek. unfold below_stop. rewrite E. cbn [andb].
        destruct (leb k (g_stop g)) eqn:E1; [|reflexivity]. cbn. eapply leb_trans; eauto.
      + rewrite Hf, E. cbn. now destruct ignore.
    - cbn [andb]. unfold retM at 1. rewrite (Fin (g_stop g) Pst); [reflexivity|].
      intros y k Hy Ek. unfold below_stop. cbn. now rewrite orb_false_r.
  Qed.

  Lemma unseen_from_first r x m x1 k k1 : P (r_last_key r) -> unseen key r l = x1 :: m -> key x1 = Ok k1 ->
    In x l -> key x = Ok k -> is_unseen key r x = leb k1 k.
  Proof.
    intros H Hu E1 Hx E. pose proof (family_not_none P _ F H) as N.
    assert (H1 : In x1 l /\ is_unseen key r x1 = true).
    { apply filter_In. change (filter (is_unseen key r) l) with (unseen key r l). rewrite Hu. now left. }
    destruct H1 as [H1 U1].
    assert (U1' : ltb (r_last_key r) k1 = true) by (unfold is_unseen, key_sat in U1; rewrite N, E1 in U1; exact U1).
    unfold is_unseen. rewrite N. unfold key_sat. rewrite E. cbn [orb].
    destruct (leb k1 k) eqn:L.
    - eapply ltb_leb_trans; eauto.
    - destruct (ltb (r_last_key r) k) eqn:L2; [|reflexivity].
      assert (find (is_unseen key r) l = Some x1) as Hf.
      { rewrite find_filter. change (filter (is_unseen key r) l) with (unseen key r l). now rewrite Hu. }
      destruct (find_min _ _ Hf) as (_ & _ & Hmin).
      rewrite <- L, (Hmin x k1 k Hx); auto. unfold is_unseen. rewrite N. unfold key_sat. now rewrite E.
  Qed.

  Lemma range_closed g r : cursor_in P r -> P (g_start g) -> P (g_stop g) ->
    key PNone = Raise TypeError \/ dflt (g_ignore g) (rk_ignore r) = false \/ g_only_new g = false \/
      unseen key r l <> [] ->
    run (range d g) r = range_result g r.
  Proof.
    intros H Pstart Pstop Hnone. unfold range, range_result. rewrite run_get.
    cbn zeta. set (ignore := dflt (g_ignore g) (rk_ignore r)) in *.
    (* after the lock *)
    assert (After : forall m, (forall x, In x m -> In x l) ->
      (if g_peek g then retM (VList m)
         else tryM (do! x := liftM (last_of m) in do! _ := set_last_item d x in retM (VList m))
          (fun e => match e with
           | IndexError => if ignore then retM VNone else raiseM IndexError
           | e => raiseM e end)) r =
      ([], (if g_peek g then r else match m with [] => r | _ => moved key false m r end),
           if g_peek g then Ok (VList m) else match m with [] => if ignore then Ok VNone else Raise IndexError | _ => Ok (VList m) end)).
    { intros m Hm. destruct (g_peek g); [reflexivity|]. unfold tryM, bindM, liftM, last_of.
      destruct (last_opt m) as [x|] eqn:El.
      - apply last_opt_in in El as Hin. rewrite set_last_ok by auto. unfold moved. rewrite El.
        destruct m; [discriminate|reflexivity].
      - apply last_opt_none in El. subst. now destruct ignore. }
    assert (Hits : forall x, In x (stepped (g_step g) (range_hits key r l g)) -> In x l).
    { intros x Hx. assert (In x (range_hits key r l g)).
      { unfold stepped, every_nth in Hx. destruct (g_step g); [|assumption].
        apply in_map_iff in Hx as ([i y] & <- & Hx). apply filter_In in Hx as [Hx _].
        now apply in_combine_r in Hx. }
      unfold range_hits in H0. apply filter_In in H0. tauto. }
    assert (Rest : forall s1, P s1 ->
      (forall x k, In x l -> key x = Ok k ->
       (leb s1 k || (g_start_le g && match floor_key key l s1 with Some f => leb f k | None => false end)) =
       (negb (g_only_new g) || is_unseen key r x) && above_start key l (g_start g) (g_start_le g) k) ->
      (exists t, range_body d g ignore r = let '(_, r', a) := range_rest g ignore s1 r in (t, r', a)) ->
      run (do! o := with_lock (range_body d g ignore) in
           match o with
           | None => retM VNone
           | Some l => if g_peek g then retM (VList l)
              else tryM (do! x := liftM (last_of l) in do! _ := set_last_item d x in retM (VList l))
                (fun e => match e with
                 | IndexError => if ignore then retM VNone else raiseM IndexError
                 | e => raiseM e end)
           end) r =
      if g_stop_ge g && match ceil_key key l (g_stop g) with None => true | Some _ => false end
      then (r, if ignore then Ok VNone else Raise ValueError)
      else if bad_step (g_step g) then (r, Raise ValueError)
      else let out := stepped (g_step g) (range_hits key r l g) in
      if g_peek g then (r, Ok (VList out))
      else match out with
           | [] => (r, if ignore then Ok VNone else Raise IndexError)
           | _ => (moved key false out r, Ok (VList out))
           end).
    { intros s1 Ps1 Hlow (t & E). unfold run, bindM at 1, with_lock. rewrite E, range_rest_closed by assumption.
      destruct (g_stop_ge g && _); [now destruct ignore|].
      destruct (bad_step (g_step g)); [reflexivity|].
      rewrite After by exact Hits. cbn zeta. destruct (g_peek g); [reflexivity|].
      now destruct (stepped _ _). }
    destruct (g_only_new g && negb (is_none (r_last_key r))) eqn:Act.
    - apply andb_true_iff in Act as [Eon En]. apply negb_true_iff in En.
      destruct H as [[H1 H2]|H]; [rewrite H2 in En; discriminate|].
      assert (Hrd : read d (MkRA (Some 1%Z) (Some true) (Some ignore) None) r =
        ([Acq; Rel], r, match unseen key r l with x :: _ => Ok (VItem x) | [] => if ignore then Ok VNone else Raise ValueError end)).
      { unfold read, bindM, getM, with_lock. cbn [a_n a_peek a_ignore a_strict dflt].
        rewrite read_body_closed by now right. unfold read_result. cbn. now destruct (unseen key r l). }
      destruct (unseen key r l) as [|x1 m] eqn:Eu.
      + rewrite Eon, En. cbn [negb andb]. unfold run, bindM at 1, with_lock, range_body.
        unfold bindM at 1, getM at 1. rewrite Eon, En. cbn [negb andb].
        unfold bindM at 1. unfold bindM at 1. rewrite Hrd. destruct ignore.
        * destruct Hnone as [Hn|[Hn|[Hn|Hn]]]; try discriminate; try congruence.
          unfold VNone. unfold bindM at 1, tryM, bindM at 1, liftM at 1. rewrite Hn. reflexivity.
        * reflexivity.
      + rewrite Eon. cbn [andb]. 
        assert (H1 : In x1 l).
        { assert (In x1 (unseen key r l)) by (rewrite Eu; now left). unfold unseen in H0. apply filter_In in H0. tauto. }
        destruct (key_in x1 H1) as (k1 & E1 & _ & Pk1).
        assert (Hgt : exists b, py_gt (g_start g) k1 = Ok b /\ b = ltb k1 (g_start g)).
        { unfold py_gt. destruct (tf_comparable P F k1 (g_start g) Pk1 Pstart) as [[b Hb] _].
          exists b. split; [assumption|]. symmetry. now apply ltb_of_ok. }
        destruct Hgt as (b & Hgt & Hb).
        apply (Rest (if b then g_start g else k1)).
        * now destruct b.
        * intros x k Hx Ek. destruct (key_in x Hx) as (k' & Ek' & _ & Pk). assert (k' = k) by congruence. subst k'.
          rewrite (unseen_from_first r x m x1 k k1 H Eu E1 Hx Ek). rewrite Eon. cbn [negb orb].
          unfold above_start. destruct b.
          -- symmetry in Hb. destruct (floor_cases _ Pstart) as [(y & f & _ & Ey & Pf & E & L & Hmax)|(_ & E & Hno)].
             ++ rewrite E. assert (leb k1 f = true) by (apply (Hmax x1); auto using ltb_leb).
                destruct (leb (g_start g) k) eqn:E2.
                ** cbn. rewrite andb_true_r. symmetry. eapply leb_trans; [|exact E2]. now apply ltb_leb.
                ** cbn. destruct (g_start_le g); cbn; [|now rewrite andb_false_r].
                   destruct (leb f k) eqn:E3; [|now rewrite andb_false_r]. rewrite andb_true_r. symmetry.
                   eapply leb_trans; eauto.
             ++ specialize (Hno x1 k1 H1 E1). rewrite (ltb_leb _ _ Hb) in Hno. discriminate.
          -- symmetry in Hb. assert (Hs : leb (g_start g) k1 = true) by (rewrite (leb_negb P); auto; now rewrite Hb).
             destruct (leb k1 k) eqn:E2.
             ++ cbn. now rewrite (leb_trans _ _ _ Hs E2).
             ++ cbn [orb andb]. destruct (g_start_le g); [|reflexivity]. cbn [andb].
                destruct (floor_cases _ Pk1) as [(y & f & _ & Ey & Pf & E & L & Hmax)|(_ & E & Hno)]; rewrite E; [|reflexivity].
                destruct (leb f k) eqn:E3; [|reflexivity]. rewrite <- E2. symmetry.
                eapply leb_trans; [|exact E3]. apply (Hmax x1); auto. apply (leb_refl P); auto.
        * unfold range_body. unfold bindM at 1, getM at 1. rewrite Eon, En. cbn [negb andb].
          unfold bindM at 1. unfold bindM at 1. rewrite Hrd.
          unfold bindM at 1, tryM, bindM at 1, liftM at 1. rewrite E1. unfold retM at 1.
          unfold bindM at 1, liftM at 1. rewrite Hgt. unfold retM at 1. cbn [app].
          unfold range_rest. destruct ((do! s2 := _ in _) r) as [[t r1] o].
          eexists. reflexivity.
    - assert (Hz : g_only_new g && match unseen key r l with [] => negb (is_none (r_last_key r)) | _ => false end = false).
      { destruct (g_only_new g); [|reflexivity]. cbn in *. rewrite Act. now destruct (unseen key r l). }
      rewrite Hz. apply (Rest (g_start g) Pstart).
      + intros x k Hx Ek. unfold above_start.
        replace (negb (g_only_new g) || is_unseen key r x) with true; [reflexivity|].
        destruct (g_only_new g); [|reflexivity]. cbn in *. apply negb_false_iff in Act.
        unfold is_unseen. now rewrite Act.
      + unfold range_body. unfold bindM at 1, getM at 1. rewrite Act. unfold bindM at 1, retM at 1.
        destruct (range_rest g ignore (g_start g) r) as [[t r1] o] eqn:E. unfold range_rest in E. exists t. rewrite E. reflexivity.
  Qed.

  (** Nothing new, ignore_no_item_found, and the key function returns something for None
      that cannot be compared with start. *)
  Lemma range_none_key g r : P (r_last_key r) -> g_only_new g = true -> unseen key r l = [] ->
    dflt (g_ignore g) (rk_ignore r) = true ->
    (forall k, key PNone = Ok k -> py_gt (g_start g) k = Raise TypeError) ->
    run (range d g) r = (r, match key PNone with
                            | Ok _ => Raise TypeError
                            | Raise TypeError => Ok VNone
                            | Raise e => Raise e
                            end).
  Proof.
    intros H Eon Eu Ei Hk. pose proof (family_not_none P _ F H) as En.
    unfold range. rewrite run_get. cbn zeta. rewrite Ei.
    assert (Hrd : read d (MkRA (Some 1%Z) (Some true) (Some true) None) r = ([Acq; Rel], r, Ok VNone)).
    { unfold read, bindM, getM, with_lock. cbn [a_n a_peek a_ignore a_strict dflt].
      rewrite read_body_closed by now right. unfold read_result. now rewrite Eu. }
    unfold run, bindM at 1, with_lock, range_body.
    unfold bindM at 1, getM at 1. rewrite Eon, En. cbn [negb andb].
    unfold bindM at 1. unfold bindM at 1. rewrite Hrd. unfold VNone.
    unfold bindM at 1, tryM at 1, bindM at 1, liftM at 1. destruct (key PNone) as [k|e] eqn:Ek.
    - unfold retM at 1. unfold bindM at 1, liftM at 1. rewrite (Hk k eq_refl). reflexivity.
    - destruct e; reflexivity.
  Qed.
End Reader.
