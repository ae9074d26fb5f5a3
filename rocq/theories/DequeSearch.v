(** * Proofs about the search and mutation methods of [SortedDequeM] *)
From Coq Require Import List ZArith Bool Arith Lia Sorting.Sorted Sorting.Permutation.
From Verif Require Import PyVal PyLib PyValFacts SortedDequeM Spec SpecDeque BisectFacts ListFacts DequeFacts.
Import ListNotations.

(** ** Consistency of keys and items, for every history and every key function *)
Lemma consistent_newest b ks its key b' ml : keyed key its ks ->
  consistent (MkSD (newest b ks) (newest b its) key b' ml).
Proof.
  intro HK. destruct (newest_skipn b its) as (n & H1 & H2).
  unfold consistent. cbn. rewrite H1, (H2 _ ks) by (symmetry; apply (Forall2_length _ _ _ HK)).
  now apply Forall2_skipn.
Qed.
Lemma consistent_init it key m d : sd_init it key m = Ok d -> consistent d.
Proof.
  unfold sd_init. destruct (sc_init it key) as [c|] eqn:E; cbn [bind]; [|discriminate].
  destruct (check_maxlen m) as [b|]; cbn [bind]; [|discriminate]. injection 1 as <-.
  rewrite !deque_of_newest. apply consistent_newest. apply (sc_init_inv it key c E).
Qed.
Lemma consistent_reinit d it key m : consistent d -> consistent (fst (sd_reinit d it key m)).
Proof.
  intro H. unfold sd_reinit. destruct (sc_init it key) as [c|] eqn:E; [|assumption].
  pose proof (sc_init_inv _ _ _ E) as (HK & _).
  destruct (check_maxlen m); cbn [fst]; [|assumption].
  rewrite !deque_of_newest. now apply consistent_newest.
Qed.
Lemma consistent_append d x : consistent d -> consistent (fst (sd_append d x)).
Proof.
  intro H. destruct (append_cases d x) as [(k & Hk & _ & ->)|(e & ->)]; [|assumption].
  cbn [fst]. pose proof (Forall2_length _ _ _ H) as HL.
  unfold deque_append. rewrite !app_length, HL.
  pose proof (keyed_snoc _ _ _ _ _ H Hk) as HS.
  destruct (sd_bound d) as [m|]; [|exact HS]. destruct (Nat.ltb m _); [|exact HS].
  unfold consistent. cbn. destruct HS; [constructor|assumption].
Qed.
Lemma consistent_insert_at d i k x : consistent d -> sd_key d x = Ok k -> consistent (fst (sd_insert_at d i k x)).
Proof.
  intros H Hk. destruct (insert_at_cases d i k x H) as [[-> _]|[-> _]]; [assumption|].
  now apply keyed_insert.
Qed.
Lemma consistent_remove d x : consistent d -> consistent (fst (sd_remove d x)).
Proof.
  intro H. pose proof (Forall2_length _ _ _ H) as HL. unfold sd_remove.
  destruct (sd_index d x) as [i|]; [|assumption].
  destruct (Nat.lt_ge_cases i (length (sd_items d))) as [L|L].
  - rewrite !list_del_lt by lia. cbn [fst]. unfold consistent. cbn [sd_key sd_items sd_keys].
    apply Forall2_app; [now apply Forall2_firstn | now apply Forall2_skipn].
  - rewrite list_del_ge by lia. assumption.
Qed.
Lemma consistent_step d o : consistent d -> consistent (fst (sd_step d o)).
Proof.
  intro H. destruct o as [x|x|x|x|n| | |same key| |same m]; cbn [sd_step].
  - now apply consistent_append.
  - unfold sd_insert. destruct (sd_key d x) as [k|] eqn:E; cbn [bind]; [|assumption].
    destruct (bisect_left _ _); cbn [bind]; [|assumption]. now apply consistent_insert_at.
  - unfold sd_insert_right. destruct (sd_key d x) as [k|] eqn:E; cbn [bind]; [|assumption].
    destruct (bisect_right _ _); cbn [bind]; [|assumption]. now apply consistent_insert_at.
  - now apply consistent_remove.
  - rewrite drop_spec by assumption. now apply Forall2_skipn.
  - now apply consistent_reinit.
  - unfold sd_copy. destruct (sd_init _ _ _) as [d'|] eqn:E; [|assumption]. now apply consistent_init in E.
  - unfold sd_assign_key. destruct same; [assumption|]. now apply consistent_reinit.
  - now apply consistent_reinit.
  - unfold sd_setmaxlen. destruct same; [assumption|]. now apply consistent_reinit.
Qed.
Lemma reachable_consistent U P d : reachable U P d -> consistent d.
Proof. induction 1; [now apply consistent_init in H1 | now apply consistent_step]. Qed.

(** ** append/drop histories: strict order without any assumption on the keys *)
Record sinv (d : sdeque) : Prop := {
  sinv_cons : consistent d;
  sinv_strict : strict_keys (sd_keys d);
  sinv_bound : forall m, sd_bound d = Some m -> length (sd_items d) <= m
}.
Lemma sinv_append d x : sinv d -> sinv (fst (sd_append d x)).
Proof.
  intros [HC HS HB]. destruct (append_cases d x) as [(k & Hk & Hl & E)|(e & E)].
  2:{ rewrite E. now constructor. }
  constructor.
  - now apply consistent_append.
  - rewrite E. cbn. rewrite newest_snoc.
    2:{ intros m Hm. rewrite <- (Forall2_length _ _ _ HC). auto. }
    destruct (newest_skipn (sd_bound d) (sd_keys d ++ [k])) as (n & -> & _).
    apply strict_skipn. apply StronglySorted_app; [assumption|repeat constructor|].
    intros a b Ha [<-|[]]. destruct Hl as [Hl|(ks & l & Hl & Hlk)]; [rewrite Hl in Ha; easy|].
    rewrite Hl in *. apply in_app_iff in Ha as [Ha|[<-|[]]]; [|assumption].
    apply (ltb_trans a l k); [|assumption]. apply (StronglySorted_app_inv _ _ _ HS); cbn; auto.
  - rewrite E. cbn. intros m Hm. rewrite newest_snoc by assumption. now apply newest_length.
Qed.
Lemma sinv_drop d n : sinv d -> sinv (fst (sd_drop d n)).
Proof.
  intros [HC HS HB]. rewrite drop_spec by assumption. constructor; cbn.
  - now apply Forall2_skipn.
  - now apply strict_skipn.
  - intros m Hm. rewrite skipn_length. specialize (HB m Hm). lia.
Qed.
Lemma sinv_init key m d : sd_init [] key m = Ok d -> sinv d.
Proof.
  intro H. pose proof (consistent_init _ _ _ _ H) as HC. revert H. unfold sd_init. cbn.
  destruct (check_maxlen m) as [b|]; cbn [bind]; [|discriminate]. injection 1 as <-.
  constructor; auto; cbn; [constructor | intros; cbn; lia].
Qed.
Lemma sinv_run d ops : sinv d -> Forall is_append_or_drop ops -> sinv (sd_run d ops).
Proof.
  intros H HO. revert d H; induction HO as [|o ops Ho HO IH]; intros d H; [assumption|].
  cbn. apply IH. destruct o; try easy; cbn [sd_step]; [now apply sinv_append | now apply sinv_drop].
Qed.
Lemma append_key d x : sd_key (fst (sd_append d x)) = sd_key d.
Proof. destruct (append_cases d x) as [(k & _ & _ & ->)|(e & ->)]; reflexivity. Qed.
Lemma drop_nat_key n : forall d, sd_key (fst (sd_drop_nat d n)) = sd_key d.
Proof.
  induction n as [|n IH]; intro d; cbn [sd_drop_nat]; [reflexivity|].
  destruct (list_del (sd_keys d) 0); [|reflexivity]. destruct (list_del (sd_items d) 0); [|reflexivity].
  now rewrite IH.
Qed.
Lemma run_key d ops : Forall is_append_or_drop ops -> sd_key (sd_run d ops) = sd_key d.
Proof.
  intro HO. revert d; induction HO as [|o ops Ho HO IH]; intro d; [reflexivity|].
  change (sd_run d (o :: ops)) with (sd_run (fst (sd_step d o)) ops). rewrite IH.
  destruct o; try easy; cbn [sd_step]; [apply append_key | apply drop_nat_key].
Qed.
Lemma init_key it key m d : sd_init it key m = Ok d -> sd_key d = key.
Proof.
  unfold sd_init. destruct (sc_init it key); cbn [bind]; [|discriminate].
  destruct (check_maxlen m); cbn [bind]; [|discriminate]. now injection 1 as <-.
Qed.

Lemma strict_order_append_drop key m d0 ops :
  sd_init [] key m = Ok d0 -> Forall is_append_or_drop ops ->
  let d := sd_run d0 ops in
  strictly_ordered key (sd_list d) /\ Forall2 (key_of key) (sd_list d) (sd_keys d).
Proof.
  intros H HO. cbn. pose proof (sinv_run d0 ops (sinv_init _ _ _ H) HO) as [HC HS _].
  assert (E : sd_key (sd_run d0 ops) = key) by (rewrite run_key by assumption; now apply init_key in H).
  unfold consistent in HC. rewrite E in HC. split; [|exact HC].
  now apply (keyed_strict key _ _ HC).
Qed.

(** ** Searches *)
Lemma find_none_ge {A} (l : list A) i : length l <= i -> nth_error l i = None.
Proof. apply nth_error_None. Qed.

Section Search.
  Variables U P : pyval -> Prop.
  Hypothesis F : total_family P.
  Variable d : sdeque.
  Hypothesis I : inv U P d.
  Variable k : pyval.
  Hypothesis Hk : P k.
  Local Notation key := (sd_key d).
  Local Notation l := (sd_items d).

  Lemma in_keys_P y : In y (sd_keys d) -> P y.
  Proof. pose proof (inv_P _ _ _ I) as H. rewrite Forall_forall in H. apply H. Qed.
  Lemma left_ge i : splits (fun y => negb (ltb y k)) (sd_keys d) i -> splits (key_sat key (leb k)) l i.
  Proof.
    intro H. apply (keyed_splits _ _ _ (sd_keys d)); [apply (inv_cons _ _ _ I)|].
    eapply splits_ext; [|exact H]. intros y Hy. cbn. symmetry. apply (tf_leb P F); auto using in_keys_P.
  Qed.
  Lemma right_gt i : splits (ltb k) (sd_keys d) i -> splits (key_sat key (ltb k)) l i.
  Proof. apply keyed_splits. apply (inv_cons _ _ _ I). Qed.
  Lemma neg_ge x : In x l -> negb (key_sat key (leb k) x) = key_sat key (fun y => ltb y k) x.
  Proof.
    intro Hx. destruct (keyed_in _ _ _ _ (inv_cons _ _ _ I) Hx) as (y & E & Hy).
    unfold key_sat. rewrite E. rewrite (tf_leb P F) by auto using in_keys_P. now rewrite negb_involutive.
  Qed.
  Lemma neg_gt x : In x l -> negb (key_sat key (ltb k) x) = key_sat key (fun y => leb y k) x.
  Proof.
    intro Hx. destruct (keyed_in _ _ _ _ (inv_cons _ _ _ I) Hx) as (y & E & Hy).
    unfold key_sat. rewrite E. rewrite (tf_leb P F) by auto using in_keys_P. reflexivity.
  Qed.

  Lemma at_or_value_error i : i <= length l ->
    (if negb (Nat.eqb i (sd_len d)) then get l i else Raise ValueError)
    = match nth_error l i with Some x => Ok x | None => Raise ValueError end.
  Proof.
    intro H. unfold sd_len, get. destruct (Nat.eqb_spec i (length l)) as [->|N]; cbn [negb].
    - now rewrite find_none_ge by lia.
    - destruct (nth_error l i) eqn:E; [reflexivity|]. apply nth_error_None in E. lia.
  Qed.
  Lemma before_or_value_error i : i <= length l ->
    (if Nat.eqb i 0 then Raise ValueError else get l (i - 1))
    = match (if Nat.eqb i 0 then None else nth_error l (i - 1)) with
      | Some x => Ok x | None => Raise ValueError end.
  Proof.
    intro H. destruct (Nat.eqb_spec i 0) as [->|N]; [reflexivity|]. unfold get.
    destruct (nth_error l (i - 1)) eqn:E; [reflexivity|]. apply nth_error_None in E. lia.
  Qed.

  Lemma find_gt_spec : sd_find_gt d k = first_such (key_sat key (ltb k)) l.
  Proof.
    destruct (inv_bisect_right U P d k F I Hk) as (i & Hi & Hs). unfold sd_find_gt, first_such.
    rewrite Hi. cbn [bind]. apply right_gt in Hs. rewrite (splits_find _ _ _ Hs).
    apply at_or_value_error. apply Hs.
  Qed.
  Lemma find_ge_spec : sd_find_ge d k = first_such (key_sat key (leb k)) l.
  Proof.
    destruct (inv_bisect_left U P d k F I Hk) as (i & Hi & Hs). unfold sd_find_ge, first_such.
    rewrite Hi. cbn [bind]. apply left_ge in Hs. rewrite (splits_find _ _ _ Hs).
    apply at_or_value_error. apply Hs.
  Qed.
  Lemma find_le_spec : sd_find_le d k = last_such (key_sat key (fun y => leb y k)) l.
  Proof.
    destruct (inv_bisect_right U P d k F I Hk) as (i & Hi & Hs). unfold sd_find_le, last_such.
    rewrite Hi. cbn [bind]. apply right_gt in Hs.
    rewrite <- (find_ext_in (fun x => negb (key_sat key (ltb k) x))).
    2:{ intros x Hx. apply neg_gt. now apply in_rev. }
    rewrite (splits_find_rev _ _ _ Hs). apply before_or_value_error. apply Hs.
  Qed.
  Lemma find_lt_spec : sd_find_lt d k = last_such (key_sat key (fun y => ltb y k)) l.
  Proof.
    destruct (inv_bisect_left U P d k F I Hk) as (i & Hi & Hs). unfold sd_find_lt, last_such.
    rewrite Hi. cbn [bind]. apply left_ge in Hs.
    rewrite <- (find_ext_in (fun x => negb (key_sat key (leb k) x))).
    2:{ intros x Hx. apply neg_ge. now apply in_rev. }
    rewrite (splits_find_rev _ _ _ Hs). apply before_or_value_error. apply Hs.
  Qed.
  Lemma find_spec : sd_find d k = first_such (key_sat key (fun y => py_eq y k)) l.
  Proof.
    destruct (inv_bisect_left U P d k F I Hk) as (i & Hi & Hs). unfold sd_find, first_such.
    rewrite Hi. cbn [bind]. pose proof (left_ge _ Hs) as Hg.
    pose proof (inv_cons _ _ _ I) as HC. pose proof (Forall2_length _ _ _ HC) as HL.
    assert (Hf : find (key_sat key (fun y => py_eq y k)) l =
                 find (key_sat key (fun y => py_eq y k)) (skipn i l)).
    { rewrite <- (firstn_skipn i l) at 1. apply find_app_false. apply Forall_forall. intros x Hx.
        assert (Hxl : In x l) by (rewrite <- (firstn_skipn i l); apply in_app_iff; auto).
        pose proof (splits_firstn _ _ _ Hg) as HF. rewrite Forall_forall in HF. specialize (HF x Hx).
        assert (HF2 : key_sat key (fun y => ltb y k) x = true) by (rewrite <- neg_ge, HF by assumption; reflexivity).
        unfold key_sat in *. destruct (key x); [|discriminate]. now apply ltb_neq. }
    rewrite Hf. clear Hf.
    destruct Hg as (Hil & _). unfold sd_len.
    destruct (Nat.eqb_spec i (length l)) as [->|N]; cbn [negb].
    - now rewrite skipn_all.
    - destruct (nth_error l i) as [x|] eqn:Ex; [|apply nth_error_None in Ex; lia].
      destruct (Forall2_nth_l _ _ _ HC i x Ex) as (kx & Hkx & Ekx).
      unfold get. rewrite Hkx, Ex. cbn [bind]. rewrite (skipn_nth_cons _ _ _ Ex). cbn [find].
      unfold key_sat at 1. rewrite Ekx. destruct (py_eq kx k) eqn:E; [reflexivity|].
      replace (find _ (skipn (S i) l)) with (@None pyval); [reflexivity|]. symmetry.
      rewrite <- (app_nil_r (skipn (S i) l)). rewrite find_app_false; [reflexivity|].
      apply Forall_forall. intros y Hy. apply In_nth_error in Hy as [j Hj].
      rewrite nth_error_skipn in Hj. destruct (Forall2_nth_l _ _ _ HC _ y Hj) as (ky & Hky & Eky).
      unfold key_sat. rewrite Eky.
      pose proof (inv_nondecr _ _ _ I) as HN. unfold nondecr_keys in HN. rewrite StronglySorted_nth in HN.
      assert (Hxy : ltb ky kx = false) by (apply (HN i (S i + j)); auto; lia).
      destruct Hs as (_ & _ & Hs). specialize (Hs i kx (le_n _) Hkx). apply negb_true_iff in Hs.
      assert (P kx) by eauto using in_keys_P, nth_error_In.
      assert (P ky) by eauto using in_keys_P, nth_error_In.
      assert (Hlt : ltb k kx = true).
      { destruct (ltb k kx) eqn:C; [reflexivity|].
        rewrite (tf_antisym P F kx k) in E; auto. }
      pose proof (tf_lt_le_trans P F k kx ky Hk ltac:(assumption) ltac:(assumption) Hlt Hxy) as Hky'.
      apply ltb_neq in Hky'. now rewrite py_eq_sym.
  Qed.
  Lemma find_last_gt_spec : sd_find_last_gt d k = last_such (key_sat key (ltb k)) l.
  Proof.
    unfold sd_find_last_gt, last_such. pose proof (inv_cons _ _ _ I) as HC. unfold consistent, keyed in HC.
    destruct (last_opt (sd_keys d)) as [lk|] eqn:E.
    - pose proof (inv_nondecr _ _ _ I) as HN. unfold nondecr_keys in HN.
      pose proof in_keys_P as HP.
      apply last_opt_some in E as (ks & E). unfold sd_getitem. rewrite E in HC, HN, HP.
      apply Forall2_app_inv_r in HC as (l1 & l2 & H1 & H2 & El).
      inversion H2 as [|x ? ? ? Hx H3]; subst. inversion H3; subst. rewrite El.
      rewrite rev_app_distr. cbn [rev app find]. unfold key_sat at 1. rewrite Hx.
      assert (Plk : P lk) by (apply HP, in_app_iff; cbn; auto).
      unfold py_gt. rewrite (tf_lt_ok P F) by auto. cbn [bind].
      destruct (ltb k lk) eqn:L.
      + unfold getitem. cbn [Z.ltb Z.compare]. rewrite app_length. cbn [length].
        destruct (Z.ltb_spec (-1 + Z.of_nat (length l1 + 1)) 0) as [Hz|Hz]; [lia|].
        unfold get. rewrite nth_error_app2 by lia.
        replace (Z.to_nat (-1 + Z.of_nat (length l1 + 1)) - length l1) with 0 by lia. reflexivity.
      + rewrite <- (app_nil_r (rev l1)), find_app_false; [reflexivity|]. apply Forall_rev.
        apply Forall_forall. intros y Hy. destruct (keyed_in _ _ _ _ H1 Hy) as (ky & Ey & Hky).
        unfold key_sat. rewrite Ey.
        apply (tf_le_trans P F ky lk k); auto; [apply HP, in_app_iff; auto|].
        apply (StronglySorted_app_inv _ _ _ HN); cbn; auto.
    - apply last_opt_none in E. rewrite E in HC. inversion HC as [Hl|]. reflexivity.
  Qed.
End Search.

Lemma range_spec U P d start stop step : total_family P -> inv U P d -> P start -> P stop ->
  sd_range d start stop step =
  let hits := filter (key_sat (sd_key d) (fun y => leb start y && leb y stop)) (sd_items d) in
  match step with
  | None => Ok hits
  | Some s => if Z.leb s 0 then Raise ValueError else Ok (every_nth (Z.to_nat s) hits)
  end.
Proof.
  intros F I Hs Ht. unfold sd_range.
  destruct (inv_bisect_left U P d start F I Hs) as (i & -> & Hi).
  destruct (inv_bisect_right U P d stop F I Ht) as (j & -> & Hj). cbn [bind].
  apply (left_ge U P F d I start Hs) in Hi. apply (right_gt U P d I stop) in Hj.
  unfold sd_range_by_index, islice. cbn zeta.
  rewrite <- (splits_slice _ _ _ _ _ Hi Hj).
  rewrite (filter_ext_in' _ (key_sat (sd_key d) (fun y => leb start y && leb y stop))).
  2:{ intros x Hx. rewrite (neg_gt U P F d I stop Ht x Hx).
      unfold key_sat. destruct (sd_key d x); reflexivity. }
  destruct step as [s|]; [|reflexivity].
  destruct (Z.leb_spec s 0); [reflexivity|]. rewrite stride_every_nth by lia. reflexivity.
Qed.

(** ** index / count / contains / remove *)
Lemma index_from_spec x start stop : forall l pos,
  (forall p y, nth_error l p = Some y -> same_item y x = true -> start <= pos + p < stop) ->
  index_from l pos start stop x =
  match position (fun y => same_item y x) l with Some i => Ok (pos + i) | None => Raise ValueError end.
Proof.
  induction l as [|y l IH]; intros pos H; cbn [index_from position]; [reflexivity|].
  destruct (same_item y x) eqn:E.
  - specialize (H 0 y eq_refl E). destruct (Nat.leb_spec start pos); [|lia].
    destruct (Nat.ltb_spec pos stop); [|lia]. cbn. now rewrite Nat.add_0_r.
  - rewrite andb_false_r. rewrite IH.
    + destruct (position _ l); cbn; [|reflexivity]. f_equal. lia.
    + intros p z Hp Hz. specialize (H (S p) z Hp Hz). lia.
Qed.
Lemma position_app_false f a b : Forall (fun y => f y = false) a ->
  position f (a ++ b) = option_map (fun i => length a + i) (position f b).
Proof.
  induction 1 as [|x a Hx Ha IH]; cbn; [now destruct (position f b)|]. rewrite Hx, IH.
  now destruct (position f b).
Qed.
Lemma position_app_r f a b : Forall (fun y => f y = false) b -> position f (a ++ b) = position f a.
Proof.
  intro H. induction a as [|x a IH]; cbn.
  - induction H as [|y b Hy Hb IH]; cbn; [reflexivity|]. now rewrite Hy, IH.
  - destruct (f x); [reflexivity|]. now rewrite IH.
Qed.
Lemma position_some f l i : position f l = Some i -> i < length l.
Proof.
  revert i; induction l as [|x l IH]; cbn; intro i; [discriminate|].
  destruct (f x); [injection 1 as <-; lia|]. destruct (position f l) as [j|]; [|discriminate].
  injection 1 as <-. specialize (IH j eq_refl). lia.
Qed.
Lemma slice_split {A} (l : list A) i j : i <= j -> l = firstn i l ++ slice l i j ++ skipn j l.
Proof.
  intro H. unfold slice. rewrite <- (firstn_skipn i l) at 1. f_equal.
  rewrite <- (firstn_skipn (j - i) (skipn i l)) at 1. f_equal. rewrite skipn_skipn. f_equal. lia.
Qed.

Section Index.
  Variables U P : pyval -> Prop.
  Hypothesis F : total_family P.
  Variable d : sdeque.
  Hypothesis I : inv U P d.
  Variables x k : pyval.
  Hypothesis Hkx : sd_key d x = Ok k.
  Hypothesis Hk : P k.
  Hypothesis Heq : forall y ky, In y (sd_items d) -> same_item y x = true ->
                   sd_key d y = Ok ky -> py_eq ky k = true.
  Local Notation l := (sd_items d).

  Lemma same_in_range : exists i j, bisect_left (sd_keys d) k = Ok i /\ bisect_right (sd_keys d) k = Ok j /\
    i <= j /\ j <= length l /\
    (forall p y, nth_error l p = Some y -> same_item y x = true -> i <= p < j) /\
    Forall (fun y => same_item y x = false) (firstn i l) /\
    Forall (fun y => same_item y x = false) (skipn j l).
  Proof.
    destruct (inv_bisect_left U P d k F I Hk) as (i & Hi & Hl).
    destruct (inv_bisect_right U P d k F I Hk) as (j & Hj & Hr).
    pose proof (inv_cons _ _ _ I) as HC. pose proof (Forall2_length _ _ _ HC) as HL.
    exists i, j. split; [assumption|]. split; [assumption|].
    assert (HR : forall p y, nth_error l p = Some y -> same_item y x = true -> i <= p < j).
    { intros p y Hp Hy. destruct (Forall2_nth_l _ _ _ HC p y Hp) as (ky & Hky & Ey).
      pose proof (Heq y ky (nth_error_In _ _ Hp) Hy Ey) as E.
      destruct Hl as (_ & Hl & _), Hr as (_ & _ & Hr). split.
      - destruct (Nat.le_gt_cases i p); [assumption|]. specialize (Hl p ky H Hky).
        apply negb_false_iff in Hl. apply ltb_neq in Hl. congruence.
      - destruct (Nat.lt_ge_cases p j); [assumption|]. specialize (Hr p ky H Hky).
        apply ltb_neq in Hr. rewrite py_eq_sym in Hr. congruence. }
    assert (Hij : i <= j).
    { destruct (Nat.le_gt_cases i j) as [|C]; [assumption|].
      destruct Hl as (Hil & Hl & _), Hr as (Hjl & _ & Hr).
      destruct (nth_error (sd_keys d) j) as [kj|] eqn:E; [|apply nth_error_None in E; lia].
      specialize (Hl j kj C E). specialize (Hr j kj (le_n _) E). apply negb_false_iff in Hl.
      apply ltb_asym in Hl. congruence. }
    split; [assumption|]. split; [destruct Hr; lia|]. split; [assumption|]. split.
    - apply Forall_forall. intros y Hy. apply In_nth_error in Hy as [p Hp].
      assert (p < length (firstn i l)) by (apply nth_error_Some; congruence).
      rewrite firstn_length in *. rewrite nth_error_firstn in Hp by lia.
      destruct (same_item y x) eqn:C; [|reflexivity]. specialize (HR p y Hp C). lia.
    - apply Forall_forall. intros y Hy. apply In_nth_error in Hy as [p Hp].
      rewrite nth_error_skipn in Hp.
      destruct (same_item y x) eqn:C; [|reflexivity]. specialize (HR _ y Hp C). lia.
  Qed.

  Lemma index_spec : sd_index d x =
    match position (fun y => same_item y x) l with Some i => Ok i | None => Raise ValueError end.
  Proof.
    destruct same_in_range as (i & j & Hi & Hj & Hij & Hjl & HR & _ & _).
    unfold sd_index. rewrite Hkx. cbn [bind]. rewrite Hi, Hj. cbn [bind]. unfold deque_index.
    now rewrite index_from_spec.
  Qed.
  Lemma contains_spec : sd_contains d x = Ok (existsb (fun y => same_item y x) l).
  Proof.
    destruct same_in_range as (i & j & Hi & Hj & Hij & Hjl & HR & H1 & H2).
    unfold sd_contains. rewrite Hkx. cbn [bind]. rewrite Hi, Hj. cbn [bind]. f_equal.
    rewrite (slice_split l i j Hij) at 2. rewrite !existsb_app.
    assert (E : forall m, Forall (fun y => same_item y x = false) m -> existsb (fun y => same_item y x) m = false).
    { induction 1 as [|y m Hy Hm IH]; cbn; [reflexivity|]. now rewrite Hy. }
    rewrite (E _ H1), (E _ H2). cbn. now rewrite orb_false_r.
  Qed.
  Lemma count_gen (f : pyval -> bool) : (forall y, f y = true -> same_item y x = true) ->
    forall i j, i <= j -> Forall (fun y => same_item y x = false) (firstn i l) ->
    Forall (fun y => same_item y x = false) (skipn j l) ->
    length (filter f (slice l i j)) = length (filter f l).
  Proof.
    intros Hf i j Hij H1 H2. rewrite (slice_split l i j Hij) at 2. rewrite !filter_app, !app_length.
    assert (E : forall m, Forall (fun y => same_item y x = false) m -> filter f m = []).
    { intros m Hm. apply filter_none. eapply Forall_impl; [|exact Hm]. cbn. intros y Hy.
      destruct (f y) eqn:C; [|reflexivity]. apply Hf in C. congruence. }
    rewrite (E _ H1), (E _ H2). cbn. lia.
  Qed.
  Lemma count_spec : sd_count d x = Ok (length (filter (fun y => py_eq y x) l)).
  Proof.
    destruct same_in_range as (i & j & Hi & Hj & Hij & Hjl & HR & H1 & H2).
    unfold sd_count. rewrite Hkx. cbn [bind]. rewrite Hi, Hj. cbn [bind]. f_equal.
    apply count_gen; auto. intros y Hy. unfold same_item. now destruct (pyval_eq_dec y x).
  Qed.
  Lemma sc_count_spec : sc_count d x = Ok (length (filter (fun y => same_item y x) l)).
  Proof.
    destruct same_in_range as (i & j & Hi & Hj & Hij & Hjl & HR & H1 & H2).
    unfold sc_count. rewrite Hkx. cbn [bind]. rewrite Hi, Hj. cbn [bind]. f_equal.
    apply count_gen; auto.
  Qed.
  Lemma sc_index_spec : sc_index d x =
    match position (fun y => same_item y x) l with Some i => Ok i | None => Raise ValueError end.
  Proof.
    destruct same_in_range as (i & j & Hi & Hj & Hij & Hjl & HR & H1 & H2).
    unfold sc_index. rewrite Hkx. cbn [bind]. rewrite Hi, Hj. cbn [bind]. unfold deque_index.
    rewrite index_from_spec.
    2:{ intros p y Hp _. split; [lia|]. cbn. apply nth_error_Some. congruence. }
    rewrite (slice_split l i j Hij) at 2.
    rewrite (position_app_false _ (firstn i l)) by assumption.
    rewrite position_app_r by assumption. rewrite firstn_length.
    destruct (position _ (slice l i j)); cbn; [|reflexivity]. f_equal. lia.
  Qed.
  Lemma remove_spec : 
    match position (fun y => same_item y x) l with
    | Some i => snd (sd_remove d x) = Ok tt /\
                sd_list (fst (sd_remove d x)) = firstn i (sd_list d) ++ skipn (S i) (sd_list d)
    | None => sd_remove d x = (d, Raise ValueError)
    end.
  Proof.
    unfold sd_remove. rewrite index_spec.
    pose proof (Forall2_length _ _ _ (inv_cons _ _ _ I)) as HL.
    destruct (position _ l) as [i|] eqn:E; [|reflexivity].
    apply position_some in E. rewrite !list_del_lt by lia. auto.
  Qed.
End Index.

(** ** insert *)
Section Insert.
  Variables U P : pyval -> Prop.
  Hypothesis F : total_family P.
  Variable d : sdeque.
  Hypothesis I : inv U P d.
  Variables x k : pyval.
  Hypothesis Hkx : sd_key d x = Ok k.
  Hypothesis Hk : P k.
  Local Notation l := (sd_items d).
  Definition full (d : sdeque) : Prop := exists m, sd_bound d = Some m /\ m <= length (sd_items d).

  Lemma insert_gen i : let r := sd_insert_at d i k x in
    (full d -> r = (d, Raise IndexError)) /\
    (~ full d -> snd r = Ok tt /\ sd_list (fst r) = firstn i l ++ x :: skipn i l).
  Proof.
    cbn zeta. destruct (insert_at_cases d i k x (inv_cons _ _ _ I)) as [[-> HF]|[-> HB]].
    - split; [auto|]. intro C. now destruct C.
    - split; [|auto]. intros (m & Hm & Hl). specialize (HB m Hm). lia.
  Qed.
  Lemma insert_spec : 
    (full d -> sd_insert d x = (d, Raise IndexError)) /\
    (~ full d -> snd (sd_insert d x) = Ok tt /\
       sd_list (fst (sd_insert d x)) =
         filter (key_sat (sd_key d) (fun y => ltb y k)) l ++ x :: filter (key_sat (sd_key d) (leb k)) l).
  Proof.
    unfold sd_insert. rewrite Hkx. cbn [bind].
    destruct (inv_bisect_left U P d k F I Hk) as (i & -> & Hs). cbn [bind].
    apply (left_ge U P F d I k Hk) in Hs. destruct (insert_gen i) as [H1 H2].
    split; [assumption|]. intro H. destruct (H2 H) as [H3 H4]. split; [assumption|]. rewrite H4.
    rewrite (splits_filter _ _ _ Hs), <- (splits_filter_neg _ _ _ Hs). f_equal.
    apply filter_ext_in'. intros y Hy. now apply (neg_ge U P F d I k Hk).
  Qed.
  Lemma insert_right_spec : 
    (full d -> sd_insert_right d x = (d, Raise IndexError)) /\
    (~ full d -> snd (sd_insert_right d x) = Ok tt /\
       sd_list (fst (sd_insert_right d x)) =
         filter (key_sat (sd_key d) (fun y => leb y k)) l ++ x :: filter (key_sat (sd_key d) (ltb k)) l).
  Proof.
    unfold sd_insert_right. rewrite Hkx. cbn [bind].
    destruct (inv_bisect_right U P d k F I Hk) as (i & -> & Hs). cbn [bind].
    apply (right_gt U P d I k) in Hs. destruct (insert_gen i) as [H1 H2].
    split; [assumption|]. intro H. destruct (H2 H) as [H3 H4]. split; [assumption|]. rewrite H4.
    rewrite (splits_filter _ _ _ Hs), <- (splits_filter_neg _ _ _ Hs). f_equal.
    apply filter_ext_in'. intros y Hy. now apply (neg_gt U P F d I k Hk).
  Qed.
End Insert.

(** ** append *)
Lemma keyed_snoc_inv key l ks x k : keyed key (l ++ [x]) (ks ++ [k]) -> key x = Ok k.
Proof.
  intro H. apply Forall2_app_inv_l in H as (k1 & k2 & H1 & H2 & E).
  inversion H2 as [|? y ? ? Hy H3]; subst. inversion H3; subst.
  apply app_inj_tail in E as (_ & ->). assumption.
Qed.
Lemma keyed_last key l ks : keyed key l ks ->
  (l = [] /\ ks = []) \/ exists l' x ks' k, l = l' ++ [x] /\ ks = ks' ++ [k] /\ key x = Ok k.
Proof.
  intro H. destruct l as [|x l _] using rev_ind.
  - inversion H. auto.
  - right. apply Forall2_app_inv_l in H as (k1 & k2 & H1 & H2 & ->).
    inversion H2 as [|? k ? ? Hk H3]; subst. inversion H3; subst. exists l, x, k1, k. auto.
Qed.
Lemma append_spec d x : consistent d -> (forall m, sd_bound d = Some m -> length (sd_items d) <= m) ->
  match sd_key d x with
  | Raise e => sd_append d x = (d, Raise e)
  | Ok k =>
      (sd_list d = [] -> snd (sd_append d x) = Ok tt) /\
      (forall l y ky, sd_list d = l ++ [y] -> sd_key d y = Ok ky ->
         match py_gt k ky with
         | Raise e => sd_append d x = (d, Raise e)
         | Ok false => sd_append d x = (d, Raise ValueError)
         | Ok true => snd (sd_append d x) = Ok tt
         end)
  end /\
  (snd (sd_append d x) = Ok tt -> sd_list (fst (sd_append d x)) = newest (sd_bound d) (sd_list d ++ [x])).
Proof.
  intros HC HB. unfold sd_append. destruct (sd_key d x) as [k|e]; [|split; [reflexivity|discriminate]].
  destruct (keyed_last _ _ _ HC) as [[El Ek]|(l & y & ks & ky & El & Ek & Ey)].
  - rewrite Ek. cbn [last_opt rev]. split.
    + split; [reflexivity|]. intros l y ky E. unfold sd_list in E. rewrite El in E. now destruct l.
    + intros _. cbn [fst]. unfold sd_list. cbn. now apply newest_snoc.
  - rewrite Ek, last_opt_snoc. split.
    + split.
      * unfold sd_list. rewrite El. intro C. now destruct l.
      * intros l' y' ky' E Ey'. unfold sd_list in E. rewrite El in E.
        apply app_inj_tail in E as (<- & <-). rewrite Ey in Ey'. injection Ey' as <-.
        now destruct (py_gt k ky) as [[|]|].
    + destruct (py_gt k ky) as [[|]|]; try discriminate. intros _. unfold sd_list. cbn. now apply newest_snoc.
Qed.

(** ** bounded memory *)
Definition bound_is_maxlen (d : sdeque) : Prop :=
  match sd_maxlen d with
  | None => sd_bound d = None
  | Some m => (0 <= m)%Z /\ sd_bound d = Some (Z.to_nat m)
  end /\ forall m, sd_bound d = Some m -> length (sd_items d) <= m.
Lemma bim_new c key m b : check_maxlen m = Ok b ->
  bound_is_maxlen (MkSD (deque_of b (sd_keys c)) (deque_of b (sd_items c)) key b m).
Proof.
  intro H. rewrite !deque_of_newest. split; cbn.
  - destruct m as [m|]; cbn in H; [|now injection H as <-].
    destruct (Z.ltb_spec m 0); [discriminate|]. injection H as <-. auto.
  - intros n Hn. now apply newest_length.
Qed.
Lemma bim_reinit d it key m : bound_is_maxlen d ->
  match m with Some z => (0 <= z)%Z | None => True end ->
  bound_is_maxlen (fst (sd_reinit d it key m)).
Proof.
  intros H Hm. unfold sd_reinit. destruct (sc_init it key); [|assumption].
  destruct (check_maxlen m) as [b|] eqn:E; [now apply bim_new|].
  destruct m as [m|]; cbn in E; [|discriminate]. destruct (Z.ltb_spec m 0); [lia|discriminate].
Qed.
Lemma bim_step d o : consistent d -> bound_is_maxlen d -> no_negative_maxlen o ->
  bound_is_maxlen (fst (sd_step d o)).
Proof.
  intros HC H Ho. pose proof H as [H1 H2].
  assert (Hm : match sd_maxlen d with Some z => (0 <= z)%Z | None => True end)
    by (destruct (sd_maxlen d); tauto).
  destruct o as [x|x|x|x|n| | |same key| |same m]; cbn [sd_step no_negative_maxlen] in *.
  - destruct (append_cases d x) as [(k & _ & _ & ->)|(e & ->)]; [|assumption].
    split; [exact H1|]. cbn. intros m Hm'. rewrite newest_snoc by assumption. now apply newest_length.
  - unfold sd_insert. destruct (sd_key d x); cbn [bind]; [|assumption].
    destruct (bisect_left _ _) as [i|]; cbn [bind]; [|assumption].
    destruct (insert_at_cases d i a x HC) as [[-> _]|[-> HB]]; [assumption|].
    split; [exact H1|]. cbn. intros m Hm'. rewrite list_insert_length. auto.
  - unfold sd_insert_right. destruct (sd_key d x); cbn [bind]; [|assumption].
    destruct (bisect_right _ _) as [i|]; cbn [bind]; [|assumption].
    destruct (insert_at_cases d i a x HC) as [[-> _]|[-> HB]]; [assumption|].
    split; [exact H1|]. cbn. intros m Hm'. rewrite list_insert_length. auto.
  - unfold sd_remove. destruct (sd_index d x) as [i|]; [|assumption].
    pose proof (Forall2_length _ _ _ HC) as HL.
    destruct (Nat.lt_ge_cases i (length (sd_items d))) as [L|L].
    + rewrite !list_del_lt by lia. split; [exact H1|]. cbn [fst sd_items sd_bound]. intros m Hm'.
      rewrite app_length, firstn_length, skipn_length. specialize (H2 m Hm'). lia.
    + rewrite list_del_ge by lia. assumption.
  - rewrite drop_spec by assumption. split; [exact H1|]. cbn. intros m Hm'. rewrite skipn_length.
    specialize (H2 m Hm'). lia.
  - now apply bim_reinit.
  - unfold sd_copy, sd_init. destruct (sc_init _ _) as [c|]; cbn [bind]; [|assumption].
    destruct (check_maxlen _) eqn:E; cbn [bind]; [|assumption]. now apply bim_new.
  - unfold sd_assign_key. destruct same; [assumption|]. now apply bim_reinit.
  - now apply bim_reinit.
  - unfold sd_setmaxlen. destruct same; [assumption|]. now apply bim_reinit.
Qed.
Lemma bim_run d ops : consistent d -> bound_is_maxlen d -> Forall no_negative_maxlen ops ->
  bound_is_maxlen (sd_run d ops).
Proof.
  intros HC H HO. revert d HC H; induction HO as [|o ops Ho HO IH]; intros d HC H; [assumption|].
  cbn. apply IH; [now apply consistent_step | now apply bim_step].
Qed.
Lemma bim_init it key m d : sd_init it key m = Ok d -> bound_is_maxlen d.
Proof.
  unfold sd_init. destruct (sc_init it key) as [c|]; cbn [bind]; [|discriminate].
  destruct (check_maxlen m) eqn:E; cbn [bind]; [|discriminate]. injection 1 as <-. now apply bim_new.
Qed.
Lemma length_le_maxlen it key m0 d0 ops m : sd_init it key m0 = Ok d0 ->
  Forall no_negative_maxlen ops -> sd_maxlen (sd_run d0 ops) = Some m ->
  (Z.of_nat (sd_len (sd_run d0 ops)) <= m)%Z.
Proof.
  intros H HO Hm. destruct (bim_run d0 ops) as [H1 H2]; eauto using consistent_init, bim_init.
  rewrite Hm in H1. destruct H1 as [H1 H3]. specialize (H2 _ H3). unfold sd_len. lia.
Qed.
Lemma feed_spec xs : forall d, consistent d -> (forall m, sd_bound d = Some m -> length (sd_items d) <= m) ->
  sd_list (fst (feed d xs)) = newest (sd_bound d) (sd_list d ++ snd (feed d xs)).
Proof.
  induction xs as [|x xs IH]; intros d HC HB; cbn [feed].
  - cbn. rewrite app_nil_r. now rewrite newest_id.
  - pose proof (append_spec d x HC HB) as [_ HL]. pose proof (consistent_append d x HC) as HC'.
    destruct (append_cases d x) as [(k & _ & _ & E)|(e & E)]; rewrite E in *; cbn [fst snd] in *.
    + match goal with |- context [feed ?d' xs] => specialize (IH d') end.
      destruct (feed _ xs) as [d'' acc]. cbn [fst snd] in *.
      rewrite IH; [|assumption|].
      * cbn [sd_bound]. rewrite HL by reflexivity. rewrite newest_app, <- app_assoc. reflexivity.
      * intros m Hm. cbn in Hm. specialize (HL eq_refl). unfold sd_list in HL. rewrite HL.
        now apply newest_length.
    + auto.
Qed.

(** ** construction *)
Lemma SS_impl_map {A B} (f : A -> B) (R : B -> B -> Prop) (l : list A) :
  StronglySorted (fun a b => R (f a) (f b)) l -> StronglySorted R (map f l).
Proof.
  induction 1 as [|x l Hs IH Hf]; cbn; constructor; auto.
  apply Forall_map. exact Hf.
Qed.
Lemma SS_impl_in {A} (R S : A -> A -> Prop) (l : list A) :
  (forall x y, In x l -> In y l -> R x y -> S x y) -> StronglySorted R l -> StronglySorted S l.
Proof.
  rewrite !StronglySorted_nth. intros H HS i j x y Hij Hi Hj. apply H; eauto using nth_error_In.
Qed.
Lemma decorate_ok key l : (forall x, In x l -> exists k, key x = Ok k) -> exists dec, decorate key l = Ok dec.
Proof.
  induction l as [|x l IH]; cbn [decorate]; intro H; [eauto|].
  destruct (H x) as [k ->]; [now left|]. destruct IH as [dec ->]; [intros; apply H; now right|].
  cbn. eauto.
Qed.
Lemma init_spec P it key m : total_family P ->
  (forall x, In x it -> exists k, key x = Ok k /\ P (PTuple [k; x])) -> 
  match m with Some z => (0 <= z)%Z | None => True end ->
  exists d s, sd_init it key m = Ok d /\ Permutation s it /\ StronglySorted (pair_before key) s /\
    sd_list d = newest (option_map Z.to_nat m) s /\ sd_maxlen d = m /\ sd_key d = key.
Proof.
  intros F HP Hm. unfold sd_init, sc_init.
  destruct (decorate_ok key it) as [dec Hdec].
  { intros x Hx. destruct (HP x Hx) as (k & E & _). eauto. }
  rewrite Hdec. cbn [bind]. apply decorate_spec in Hdec as (H1 & H2).
  rewrite Forall_forall in H2.
  destruct (py_sorted_total P F dec) as (srt & Hsrt & Hs).
  { apply Forall_forall. intros p Hp. destruct (HP (snd p)) as (k & E & HPk).
    - rewrite <- H1. now apply in_map.
    - rewrite (H2 p Hp) in E. injection E as <-. exact HPk. }
  rewrite Hsrt. cbn [bind sd_keys sd_items].
  assert (Hb : check_maxlen m = Ok (option_map Z.to_nat m)).
  { destruct m as [z|]; [|reflexivity]. cbn. destruct (Z.ltb_spec z 0); [lia|reflexivity]. }
  rewrite Hb. cbn [bind]. eexists. exists (map snd srt). split; [reflexivity|].
  pose proof (py_sorted_perm _ _ Hsrt) as HPm.
  split; [|split; [|split; [|split]]].
  - rewrite <- H1. now apply Permutation_map.
  - apply SS_impl_map. eapply SS_impl_in; [|exact Hs]. intros p q Hp Hq H. cbn in H.
    exists (fst p), (fst q). split; [|split]; [| |exact H].
    + apply H2. eapply Permutation_in; eauto.
    + apply H2. eapply Permutation_in; eauto.
  - unfold sd_list. cbn. now rewrite deque_of_newest.
  - reflexivity.
  - reflexivity.
Qed.
Lemma init_negative it key m : (m < 0)%Z -> sd_init it key (Some m) = match sc_init it key with Ok _ => Raise ValueError | Raise e => Raise e end.
Proof.
  intro H. unfold sd_init. destruct (sc_init it key); [|reflexivity]. cbn.
  destruct (Z.ltb_spec m 0); [reflexivity|lia].
Qed.

(** ** copy *)
Lemma decorate_keyed key l ks : keyed key l ks -> decorate key l = Ok (combine ks l).
Proof. induction 1 as [|x k l ks Hx Hl IH]; cbn; [reflexivity|]. rewrite Hx. cbn. now rewrite IH. Qed.
Lemma sort_insert_first p l : Forall (fun q => ltb (fst p) (fst q) = true) l -> sort_insert p l = Ok (p :: l).
Proof.
  destruct l as [|q l]; [reflexivity|]. intro H. inversion_clear H as [|? ? Hq _]. cbn [sort_insert].
  unfold pair_lt. rewrite py_lt_tuple. cbn [tup_lt].
  pose proof (ltb_neq _ _ Hq) as N. rewrite py_eq_sym in N. rewrite N.
  apply ltb_true in Hq. rewrite (py_lt_asym _ _ Hq). reflexivity.
Qed.
Lemma py_sorted_strict ks l : strict_keys ks -> py_sorted (combine ks l) = Ok (combine ks l).
Proof.
  unfold strict_keys. intro H. revert l. induction H as [|k ks Hs IH Hf]; intros [|x l]; cbn; try reflexivity.
  rewrite IH. cbn. apply sort_insert_first. apply Forall_forall. intros [k' x'] Hin.
  apply in_combine_l in Hin. rewrite Forall_forall in Hf. cbn. auto.
Qed.
Lemma map_fst_combine {A B} (a : list A) (b : list B) : length a = length b -> map fst (combine a b) = a.
Proof. revert b; induction a; intros [|]; cbn; intro H; try discriminate; f_equal; auto. Qed.
Lemma map_snd_combine {A B} (a : list A) (b : list B) : length a = length b -> map snd (combine a b) = b.
Proof. revert b; induction a; intros [|]; cbn; intro H; try discriminate; f_equal; auto. Qed.
Lemma copy_strict d : consistent d -> strict_keys (sd_keys d) -> bound_is_maxlen d -> sd_copy d = Ok d.
Proof.
  intros HC HS [HM HB]. pose proof (Forall2_length _ _ _ HC) as HL. unfold sd_copy, sd_init, sc_init.
  rewrite (decorate_keyed _ _ _ HC). cbn [bind]. rewrite py_sorted_strict by assumption. cbn [bind].
  rewrite map_fst_combine, map_snd_combine by auto. cbn [sd_keys sd_items].
  assert (Hb : check_maxlen (sd_maxlen d) = Ok (sd_bound d)).
  { destruct (sd_maxlen d) as [m|]; cbn; [|now rewrite HM]. destruct HM as [H0 ->].
    destruct (Z.ltb_spec m 0); [lia|reflexivity]. }
  rewrite Hb. cbn [bind]. rewrite !deque_of_newest. rewrite !newest_id; auto.
  - now destruct d.
  - rewrite <- HL. auto.
Qed.
Lemma copy_append_drop key m d0 ops : sd_init [] key m = Ok d0 -> Forall is_append_or_drop ops ->
  sd_copy (sd_run d0 ops) = Ok (sd_run d0 ops).
Proof.
  intros H HO. pose proof (sinv_run d0 ops (sinv_init _ _ _ H) HO) as [HC HS _].
  apply copy_strict; auto. apply bim_run; eauto using consistent_init, bim_init.
  eapply Forall_impl; [|exact HO]. intros []; cbn; tauto.
Qed.

(** ** Packaged for the property file *)
Lemma reachable_weaken U P (U' P' : pyval -> Prop) d : reachable U P d ->
  (forall x, U' x) -> (forall x, P' x) -> reachable U' P' d.
Proof.
  intros H HU HP. induction H.
  - apply (reach_new U' P' it key m d); [| |assumption].
    + apply Forall_forall. auto.
    + intros x k _ _. apply HP.
  - apply reach_step; [assumption|]. destruct o; cbn; auto. intros x k _ _. apply HP.
Qed.
Lemma bound_step d o : consistent d -> (forall m, sd_bound d = Some m -> length (sd_items d) <= m) ->
  forall m, sd_bound (fst (sd_step d o)) = Some m -> length (sd_items (fst (sd_step d o))) <= m.
Proof.
  intros HC HB.
  assert (HR : forall it key ml m, sd_bound (fst (sd_reinit d it key ml)) = Some m ->
            length (sd_items (fst (sd_reinit d it key ml))) <= m).
  { intros it key ml m. unfold sd_reinit. destruct (sc_init it key); [|apply HB].
    destruct (check_maxlen ml) as [b|]; cbn; [|discriminate]. rewrite deque_of_newest.
    apply newest_length. }
  assert (HI : forall i k x m, sd_bound (fst (sd_insert_at d i k x)) = Some m ->
            length (sd_items (fst (sd_insert_at d i k x))) <= m).
  { intros i k x m. destruct (insert_at_cases d i k x HC) as [[-> _]|[-> HB']]; [apply HB|].
    cbn [fst sd_bound sd_items]. rewrite list_insert_length. apply HB'. }
  destruct o as [x|x|x|x|n| | |same key| |same m]; cbn [sd_step].
  - destruct (append_cases d x) as [(k & _ & _ & ->)|(e & ->)]; [|assumption].
    cbn [fst sd_bound sd_items]. intros m Hm'. rewrite newest_snoc by assumption. now apply newest_length.
  - unfold sd_insert. destruct (sd_key d x); cbn [bind]; [|assumption].
    destruct (bisect_left _ _) as [i|]; cbn [bind]; [|assumption]. apply HI.
  - unfold sd_insert_right. destruct (sd_key d x); cbn [bind]; [|assumption].
    destruct (bisect_right _ _) as [i|]; cbn [bind]; [|assumption]. apply HI.
  - unfold sd_remove. destruct (sd_index d x) as [i|]; [|assumption].
    pose proof (Forall2_length _ _ _ HC) as HL.
    destruct (Nat.lt_ge_cases i (length (sd_items d))) as [L|L].
    + rewrite !list_del_lt by lia. cbn [fst sd_items sd_bound]. intros m Hm'.
      rewrite app_length, firstn_length, skipn_length. specialize (HB m Hm'). lia.
    + rewrite list_del_ge by lia. assumption.
  - rewrite drop_spec by assumption. cbn. intros m Hm'. rewrite skipn_length.
    specialize (HB m Hm'). lia.
  - apply HR.
  - unfold sd_copy, sd_init. destruct (sc_init _ _) as [c|]; cbn [bind]; [|assumption].
    destruct (check_maxlen _) eqn:E; cbn [bind]; [|assumption]. cbn. rewrite deque_of_newest.
    apply newest_length.
  - unfold sd_assign_key. destruct same; [assumption|]. apply HR.
  - apply HR.
  - unfold sd_setmaxlen. destruct same; [assumption|]. apply HR.
Qed.
Lemma reachable_bound_gen U P d : reachable U P d ->
  forall m, sd_bound d = Some m -> length (sd_items d) <= m.
Proof.
  induction 1.
  - destruct (bim_init _ _ _ _ H1) as [_ HB]. exact HB.
  - apply bound_step; eauto using reachable_consistent.
Qed.
Definition any (_ : pyval) : Prop := True.
Lemma reachable_bound d : reachable (fun _ => True) (fun _ => True) d ->
  forall m, sd_bound d = Some m -> length (sd_items d) <= m.
Proof. apply reachable_bound_gen. Qed.
Lemma feed_from_empty key maxlen d0 xs : sd_init [] key maxlen = Ok d0 ->
  sd_list (fst (feed d0 xs)) = newest (option_map Z.to_nat maxlen) (snd (feed d0 xs)).
Proof.
  intro H. pose proof (bim_init _ _ _ _ H) as [H1 H2]. pose proof (consistent_init _ _ _ _ H) as HC.
  rewrite feed_spec by assumption. revert H. unfold sd_init. cbn.
  unfold check_maxlen. destruct maxlen as [m|]; cbn.
  - destruct (Z.ltb m 0); cbn; [discriminate|]. now injection 1 as <-.
  - now injection 1 as <-.
Qed.
Lemma init_negative_raises it key m : (m < 0)%Z -> exists e, sd_init it key (Some m) = Raise e.
Proof. intro H. rewrite init_negative by assumption. destruct (sc_init it key); eauto. Qed.
Lemma insert_both_spec U P : total_family P -> forall d, reachable U P d ->
  forall x k, sd_key d x = Ok k -> P k ->
    let key := sd_key d in let l := sd_list d in
    let is_full := exists m, sd_bound d = Some m /\ m <= length l in
    (is_full -> sd_insert d x = (d, Raise IndexError) /\ sd_insert_right d x = (d, Raise IndexError)) /\
    (~ is_full ->
       snd (sd_insert d x) = Ok tt /\ snd (sd_insert_right d x) = Ok tt /\
       sd_list (fst (sd_insert d x)) =
         filter (key_sat key (fun y => ltb y k)) l ++ x :: filter (key_sat key (fun y => leb k y)) l /\
       sd_list (fst (sd_insert_right d x)) =
         filter (key_sat key (fun y => leb y k)) l ++ x :: filter (key_sat key (fun y => ltb k y)) l /\
       l = filter (key_sat key (fun y => ltb y k)) l ++ filter (key_sat key (fun y => leb k y)) l /\
       l = filter (key_sat key (fun y => leb y k)) l ++ filter (key_sat key (fun y => ltb k y)) l).
Proof.
  intros F d R x k Hx Hk. cbn zeta. pose proof (reachable_inv U P d F R) as I.
  destruct (insert_spec U P F d I x k Hx Hk) as [A1 A2].
  destruct (insert_right_spec U P F d I x k Hx Hk) as [B1 B2].
  split; [auto|]. intro HF. destruct (A2 HF) as [A3 A4], (B2 HF) as [B3 B4].
  split; [assumption|]. split; [assumption|]. split; [exact A4|]. split; [exact B4|].
  destruct (inv_bisect_left U P d k F I Hk) as (i & _ & Hi).
  destruct (inv_bisect_right U P d k F I Hk) as (j & _ & Hj).
  apply (left_ge U P F d I k Hk) in Hi. apply (right_gt U P d I k) in Hj. unfold sd_list. split.
  - change (fun y => leb k y) with (leb k). rewrite (splits_filter _ _ _ Hi).
    rewrite <- (filter_ext_in' (fun z => negb (key_sat (sd_key d) (leb k) z))).
    + rewrite (splits_filter_neg _ _ _ Hi). symmetry. apply firstn_skipn.
    + intros y Hy. now apply (neg_ge U P F d I k Hk).
  - change (fun y => ltb k y) with (ltb k). rewrite (splits_filter _ _ _ Hj).
    rewrite <- (filter_ext_in' (fun z => negb (key_sat (sd_key d) (ltb k) z))).
    + rewrite (splits_filter_neg _ _ _ Hj). symmetry. apply firstn_skipn.
    + intros y Hy. now apply (neg_gt U P F d I k Hk).
Qed.
Lemma drop_reachable d : reachable (fun _ => True) (fun _ => True) d -> forall n,
    sd_list (fst (sd_drop d n)) = skipn (Z.to_nat n) (sd_list d) /\
    sd_key (fst (sd_drop d n)) = sd_key d /\ sd_maxlen (fst (sd_drop d n)) = sd_maxlen d /\
    sd_bound (fst (sd_drop d n)) = sd_bound d /\
    snd (sd_drop d n) = (if Z.leb n (Z.of_nat (sd_len d)) then Ok tt else Raise IndexError) /\
    ((n <= 0)%Z -> sd_drop d n = (d, Ok tt)) /\
    ((Z.of_nat (sd_len d) < n)%Z -> sd_list (fst (sd_drop d n)) = [] /\ sd_keys (fst (sd_drop d n)) = []).
Proof.
  intros R n. pose proof (reachable_consistent _ _ d R) as HC.
  pose proof (Forall2_length _ _ _ HC) as HL.
  rewrite drop_spec by assumption. cbn [fst snd]. unfold sd_list, sd_len.
  split; [reflexivity|]. split; [reflexivity|]. split; [reflexivity|]. split; [reflexivity|]. split; [|split].
  - destruct (Nat.leb_spec (Z.to_nat n) (length (sd_items d))), (Z.leb_spec n (Z.of_nat (length (sd_items d))));
      try reflexivity; lia.
  - intro Hn. replace (Z.to_nat n) with 0 by lia. cbn. now destruct d.
  - intro Hn. cbn. rewrite !skipn_all2 by lia. auto.
Qed.
Lemma assign_key_spec d key' : let (d', r) := sd_assign_key d false key' in
    match r with
    | Ok _ => sd_maxlen d' = None /\ sd_bound d' = None /\ sd_key d' = key' /\ Permutation (sd_list d') (sd_list d)
    | Raise _ => d' = d
    end.
Proof.
  unfold sd_assign_key, sd_reinit. destruct (sc_init (sd_items d) key') as [c|] eqn:E; [|reflexivity].
  cbn. rewrite !deque_of_newest. cbn. repeat split; auto. apply (sc_init_inv _ _ _ E).
Qed.
Lemma reinit_maxlen d it key : sd_maxlen (fst (sd_reinit d it key (sd_maxlen d))) = sd_maxlen d.
Proof. unfold sd_reinit. destruct (sc_init it key); [|reflexivity]. now destruct (check_maxlen (sd_maxlen d)). Qed.
Lemma maxlen_in_force it key m0 d0 ops : sd_init it key m0 = Ok d0 ->
  Forall (fun o => match o with OSetKey _ _ | OSetMaxlen _ _ => False | _ => True end) ops -> sd_maxlen (sd_run d0 ops) = m0.
Proof.
  intros H F. assert (E0 : sd_maxlen d0 = m0).
  { unfold sd_init in H. destruct (sc_init it key); cbn [bind] in H; [|discriminate]. destruct (check_maxlen m0); cbn [bind] in H; [|discriminate]. now injection H as <-. }
  pose proof (consistent_init _ _ _ _ H) as C. clear H. revert d0 E0 C. induction F as [|o ops Ho F IH]; intros d0 E0 C; [exact E0|]. cbn.
  apply IH; [|now apply consistent_step]. clear IH F. rewrite <- E0. destruct o as [x|x|x|x|n| | |same key'| |same m]; cbn [sd_step]; try contradiction.
  - destruct (append_cases d0 x) as [(k & _ & _ & ->)|(e & ->)]; reflexivity.
  - unfold sd_insert. destruct (sd_key d0 x); [|reflexivity]. cbn [bind]. destruct (bisect_left _ _) as [i|]; cbn [bind]; [|reflexivity].
    destruct (insert_at_cases d0 i a x C) as [[-> _]|[-> _]]; reflexivity.
  - unfold sd_insert_right. destruct (sd_key d0 x); [|reflexivity]. cbn [bind]. destruct (bisect_right _ _) as [i|]; cbn [bind]; [|reflexivity].
    destruct (insert_at_cases d0 i a x C) as [[-> _]|[-> _]]; reflexivity.
  - unfold sd_remove. destruct (sd_index d0 x) as [i|]; [|reflexivity]. destruct (list_del (sd_keys d0) i); [|reflexivity]. now destruct (list_del (sd_items d0) i).
  - now rewrite drop_spec.
  - apply reinit_maxlen.
  - unfold sd_copy, sd_init. destruct (sc_init _ _) as [c|]; cbn [bind]; [|reflexivity]. now destruct (check_maxlen _).
  - apply reinit_maxlen.
Qed.
Lemma delete_key_spec it key m0 d0 ops : sd_init it key m0 = Ok d0 -> Forall no_negative_maxlen ops ->
  let d := sd_run d0 ops in
  let (d', r) := sd_delete_key d in
    match r with
    | Ok _ => sd_maxlen d' = sd_maxlen d /\ (forall x, sd_key d' x = Ok x) /\ Permutation (sd_list d') (sd_list d) /\
              forall m xs, sd_maxlen d = Some m -> (Z.of_nat (sd_len (sd_run d' (map OAppend xs))) <= m)%Z
    | Raise _ => d' = d
    end.
Proof.
  intros H F. cbn zeta. assert (CD : consistent (sd_run d0 ops)). { clear F. pose proof (consistent_init _ _ _ _ H) as C. clear H. revert d0 C. induction ops as [|o ops IH]; intros d0 C; [exact C|]. cbn. apply IH. now apply consistent_step. }
  pose proof (bim_run d0 ops (consistent_init _ _ _ _ H) (bim_init _ _ _ _ H) F) as B. set (d := sd_run d0 ops) in *.
  destruct (sd_delete_key d) as [d' r] eqn:E.
  assert (E' : sd_step d ODelKey = (d', r)) by exact E.
  pose proof (consistent_step d ODelKey CD) as C'. pose proof (bim_step d ODelKey CD B Logic.I) as B'. rewrite E' in C', B'. cbn [fst] in C', B'. clear E'.
  unfold sd_delete_key, sd_reinit in E. destruct (sc_init (sd_items d) (fun x => Ok x)) as [c|] eqn:SI; [|now injection E as <- <-].
  assert (Hb : check_maxlen (sd_maxlen d) = Ok (sd_bound d)).
  { destruct B as [B _]. destruct (sd_maxlen d) as [z|]; cbn; [|now rewrite B]. destruct B as [B1 B2]. destruct (Z.ltb_spec z 0); [lia|]. now rewrite B2. }
  rewrite Hb in E. injection E as <- <-. split; [reflexivity|]. split; [reflexivity|]. destruct (sc_init_inv _ _ _ SI) as [_ PM]. split.
  - unfold sd_list. cbn [sd_items]. rewrite deque_of_newest, newest_id; [assumption|]. intros m Em. rewrite (Permutation_length PM). now apply B.
  - intros m xs Em. set (dd := MkSD _ _ _ _ _) in *. assert (NN : Forall no_negative_maxlen (map OAppend xs)) by (clear; induction xs; constructor; cbn; auto).
    pose proof (bim_run dd (map OAppend xs) C' B' NN) as [X1 X2].
    assert (ML : sd_maxlen (sd_run dd (map OAppend xs)) = Some m).
    { rewrite <- Em. change (sd_maxlen d) with (sd_maxlen dd). clear. generalize dd. induction xs as [|x xs IH]; intro d2; [reflexivity|]. change (sd_run d2 (map OAppend (x :: xs))) with (sd_run (fst (sd_append d2 x)) (map OAppend xs)). rewrite IH.
      destruct (append_cases d2 x) as [(k & _ & _ & ->)|(e & ->)]; reflexivity. }
    rewrite ML in X1. destruct X1 as [X1 X3]. specialize (X2 _ X3). unfold sd_len. lia.
Qed.
Lemma setmaxlen_spec d m : match m with Some z => (0 <= z)%Z | None => True end ->
    let (d', r) := sd_setmaxlen d false m in
    match r with
    | Ok _ => sd_maxlen d' = m /\ sd_key d' = sd_key d /\
              exists s, Permutation s (sd_list d) /\ sd_list d' = newest (option_map Z.to_nat m) s
    | Raise _ => d' = d
    end.
Proof.
  intro Hm. unfold sd_setmaxlen, sd_reinit. destruct (sc_init (sd_items d) (sd_key d)) as [c|] eqn:E; [|reflexivity].
  assert (Hb : check_maxlen m = Ok (option_map Z.to_nat m)).
  { destruct m as [z|]; [|reflexivity]. cbn. destruct (Z.ltb_spec z 0); [lia|reflexivity]. }
  rewrite Hb. cbn. repeat split; auto. exists (sd_items c). split; [apply (sc_init_inv _ _ _ E)|].
  unfold sd_list. cbn. apply deque_of_newest.
Qed.
Lemma lt_nan_l x r : py_lt (PFloat FNaN) x = Ok r -> r = false.
Proof. destruct x; cbn; try discriminate; intro H; now injection H as <-. Qed.
Lemma nan_blocks d l y x : reachable (fun _ => True) (fun _ => True) d ->
    sd_list d = l ++ [y] -> sd_key d y = Ok (PFloat FNaN) -> sd_append d x = (d, snd (sd_append d x)) /\
    exists e, snd (sd_append d x) = Raise e.
Proof.
  intros R El Ey. destruct (append_spec d x (reachable_consistent _ _ d R) (reachable_bound d R)) as [H _].
  destruct (sd_key d x) as [k|e] eqn:Ek; [|rewrite H; cbn; eauto].
  destruct H as [_ H]. specialize (H l y _ El Ey). unfold py_gt in H.
  destruct (py_lt (PFloat FNaN) k) as [[|]|e] eqn:L.
  - apply lt_nan_l in L. discriminate.
  - rewrite H. cbn. eauto.
  - rewrite H. cbn. eauto.
Qed.
