(** * Lock events of the reader methods; next, blocking read, iteration *)
From Coq Require Import List ZArith Bool Arith Lia.
From Verif Require Import PyVal PyLib PyValFacts SortedDequeM BufferReaderM Spec SpecDeque SpecReader
  BisectFacts ListFacts DequeFacts DequeSearch ReaderFacts.
Import ListNotations.

(** ** Lock events *)
Definition bal (t : list lockev) : Prop := forall n, depth_after n t = Some n.
Definition balM {A} (m : M A) : Prop := forall r, bal (events m r).
Lemma depth_after_app a b n : depth_after n (a ++ b) =
  match depth_after n a with Some m => depth_after m b | None => None end.
Proof.
  revert n. induction a as [|[|] a IH]; intro n; cbn; auto. now destruct n.
Qed.
Lemma bal_nil : bal [].
Proof. now intro. Qed.
Lemma bal_app a b : bal a -> bal b -> bal (a ++ b).
Proof. intros Ha Hb n. now rewrite depth_after_app, Ha, Hb. Qed.
Lemma bal_lock a : bal a -> bal (Acq :: a ++ [Rel]).
Proof. intros Ha n. cbn. now rewrite depth_after_app, Ha. Qed.
Lemma balM_bind {A B} (m : M A) (f : A -> M B) : balM m -> (forall a, balM (f a)) -> balM (bindM m f).
Proof.
  intros Hm Hf r. unfold events, bindM. specialize (Hm r). unfold events in Hm.
  destruct (m r) as [[t r1] [a|e]]; [|exact Hm].
  specialize (Hf a r1). unfold events in Hf. destruct (f a r1) as [[t2 r2] b]. now apply bal_app.
Qed.
Lemma balM_try {A} (m : M A) h : balM m -> (forall e, balM (h e)) -> balM (tryM m h).
Proof.
  intros Hm Hf r. unfold events, tryM. specialize (Hm r). unfold events in Hm.
  destruct (m r) as [[t r1] [a|e]]; [exact Hm|].
  specialize (Hf e r1). unfold events in Hf. destruct (h e r1) as [[t2 r2] b]. now apply bal_app.
Qed.
Lemma balM_lock {A} (m : M A) : balM m -> balM (with_lock m).
Proof.
  intros Hm r. unfold events, with_lock. specialize (Hm r). unfold events in Hm.
  destruct (m r) as [[t r1] a]. now apply bal_lock.
Qed.
Lemma balM_ret {A} (a : A) : balM (retM a). Proof. intro. apply bal_nil. Qed.
Lemma balM_raise {A} e : balM (@raiseM A e). Proof. intro. apply bal_nil. Qed.
Lemma balM_lift {A} (a : res A) : balM (liftM a). Proof. intro. apply bal_nil. Qed.
Lemma balM_get : balM getM. Proof. intro. apply bal_nil. Qed.
Lemma balM_set d x : balM (set_last_item d x).
Proof. intro. unfold set_last_item, events. destruct (sd_key d x); apply bal_nil. Qed.
Ltac bal := repeat first
  [ apply balM_bind; [|intro] | apply balM_try; [|intro] | apply balM_lock | apply balM_ret | apply balM_raise
  | apply balM_lift | apply balM_get | apply balM_set
  | match goal with |- balM (match ?x with _ => _ end) => destruct x end
  | match goal with |- balM (if ?x then _ else _) => destruct x end ].
Lemma balM_read d a : balM (read d a).
Proof. unfold read, read_body, read_many, move_cursor. bal. Qed.
Lemma balM_range d g : balM (range d g).
Proof. unfold range, range_body, read, read_body, read_many, move_cursor. bal. Qed.
Lemma balM_tail d p i o : balM (tail d p i o).
Proof. unfold tail, tail_body, move_cursor. bal. Qed.
Lemma balM_head d p : balM (head d p).
Proof. unfold head, move_cursor. bal. Qed.
Lemma balM_next d s : balM (next_dunder d s).
Proof. unfold next_dunder, read_for_next, read, read_body, read_many, move_cursor. bal. Qed.

(** Computations without lock events. *)
Definition quiet {A} (m : M A) : Prop := forall r, events m r = [].
Lemma quiet_bind {A B} (m : M A) (f : A -> M B) : quiet m -> (forall a, quiet (f a)) -> quiet (bindM m f).
Proof.
  intros Hm Hf r. unfold events, bindM. specialize (Hm r). unfold events in Hm.
  destruct (m r) as [[t r1] [a|e]]; [|exact Hm].
  specialize (Hf a r1). unfold events in Hf. destruct (f a r1) as [[t2 r2] b]. cbn in *. now subst.
Qed.
Lemma quiet_try {A} (m : M A) h : quiet m -> (forall e, quiet (h e)) -> quiet (tryM m h).
Proof.
  intros Hm Hf r. unfold events, tryM. specialize (Hm r). unfold events in Hm.
  destruct (m r) as [[t r1] [a|e]]; [exact Hm|].
  specialize (Hf e r1). unfold events in Hf. destruct (h e r1) as [[t2 r2] b]. cbn in *. now subst.
Qed.
Lemma quiet_ret {A} (a : A) : quiet (retM a). Proof. now intro. Qed.
Lemma quiet_raise {A} e : quiet (@raiseM A e). Proof. now intro. Qed.
Lemma quiet_lift {A} (a : res A) : quiet (liftM a). Proof. now intro. Qed.
Lemma quiet_get : quiet getM. Proof. now intro. Qed.
Lemma quiet_set d x : quiet (set_last_item d x).
Proof. intro. unfold set_last_item, events. now destruct (sd_key d x). Qed.
Ltac qui := repeat first
  [ apply quiet_bind; [|intro] | apply quiet_try; [|intro] | apply quiet_ret | apply quiet_raise
  | apply quiet_lift | apply quiet_get | apply quiet_set
  | match goal with |- quiet (match ?x with _ => _ end) => destruct x end
  | match goal with |- quiet (if ?x then _ else _) => destruct x end ].
Lemma events_lock {A} (m : M A) r : events (with_lock m) r = Acq :: events m r ++ [Rel].
Proof. unfold events, with_lock. now destruct (m r) as [[t r1] a]. Qed.
Lemma events_get {A} (f : breader -> M A) r : events (bindM getM f) r = events (f r) r.
Proof. unfold events, bindM, getM. now destruct (f r r) as [[t r'] a]. Qed.
Lemma events_bind_quiet {A B} (m : M A) (f : A -> M B) r : (forall a, quiet (f a)) -> events (bindM m f) r = events m r.
Proof.
  intros Hf. unfold events, bindM. destruct (m r) as [[t r1] [a|e]]; [|reflexivity].
  specialize (Hf a r1). unfold events in Hf. destruct (f a r1) as [[t2 r2] b]. cbn in *. subst. apply app_nil_r.
Qed.
Lemma events_read d a r : events (read d a) r = [Acq; Rel].
Proof.
  unfold read. rewrite events_get, events_lock.
  assert (Q : quiet (read_body d (dflt (a_n a) (rk_n r)) (dflt (a_peek a) false)
               (dflt (a_ignore a) (rk_ignore r)) (dflt (a_strict a) (rk_strict r)))).
  { unfold read_body, read_many, move_cursor. qui. }
  now rewrite Q.
Qed.
Lemma events_tail d p i o r : events (tail d p i o) r = [Acq; Rel].
Proof.
  unfold tail. rewrite events_bind_quiet by (intro; unfold move_cursor; qui). rewrite events_lock.
  assert (Q : quiet (tail_body d i o)) by (unfold tail_body; qui). now rewrite Q.
Qed.
Lemma events_head d p r : events (head d p) r = [Acq; Rel].
Proof.
  unfold head. rewrite events_bind_quiet by (intro; unfold move_cursor; qui). now rewrite events_lock.
Qed.
Lemma events_next d s r : events (next_dunder d s) r = [Acq; Rel].
Proof.
  unfold next_dunder. rewrite events_bind_quiet by (intro; qui). unfold read_for_next.
  now rewrite events_get, events_read.
Qed.
Lemma events_range d g r : events (range d g) r =
  if g_only_new g && negb (is_none (r_last_key r)) then [Acq; Acq; Rel; Rel] else [Acq; Rel].
Proof.
  unfold range. rewrite events_get, events_bind_quiet by (intro; qui). rewrite events_lock. unfold range_body.
  rewrite events_get. rewrite events_bind_quiet by (intro; qui).
  destruct (g_only_new g && negb (is_none (r_last_key r))); [|reflexivity].
  rewrite events_bind_quiet by (intro; qui). now rewrite events_read.
Qed.

(** ** next, blocking read, iteration *)
Section Loops.
  Variable P : pyval -> Prop.
  Hypothesis F : total_family P.

  Lemma cursor_moved (d : sdeque) peek (m : list pyval) r : bok P d -> (forall x, In x m -> In x (sd_items d)) ->
    cursor_in P r -> cursor_in P (moved (sd_key d) peek m r).
  Proof.
    intros B Hm H. unfold moved. destruct peek; [assumption|].
    destruct (last_opt m) as [x|] eqn:E; [|assumption].
    apply last_opt_in in E. destruct (key_in P d B x (Hm x E)) as (k & Ek & _ & Pk).
    unfold cursor_to. rewrite Ek. now right.
  Qed.
  Lemma firstn_in {A} n (m : list A) x : In x (firstn n m) -> In x m.
  Proof. intro H. rewrite <- (firstn_skipn n m). apply in_app_iff. now left. Qed.
  Lemma unseen_in key r m x : In x (unseen key r m) -> In x m.
  Proof. unfold unseen. intro H. apply filter_In in H. tauto. Qed.
  Lemma cursor_read (d : sdeque) n peek ignore strict r : bok P d -> cursor_in P r ->
    cursor_in P (fst (read_result d n peek ignore strict r)).
  Proof.
    intros B H. unfold read_result. destruct (unseen _ _ _) as [|x m] eqn:E; [assumption|].
    assert (forall y, In y (x :: m) -> In y (sd_items d)) as Hin.
    { intros y Hy. rewrite <- E in Hy. now apply unseen_in in Hy. }
    destruct (Z.ltb 1 n); [destruct (strict && _)|]; cbn [fst]; try assumption.
    - apply cursor_moved; auto. intros y Hy. apply firstn_in in Hy. auto.
    - apply cursor_moved; auto. intros y [<-|[]]. apply Hin. now left.
  Qed.
  Lemma kwargs_moved key peek m r : let r' := moved key peek m r in
    rk_n r' = rk_n r /\ rk_peek r' = rk_peek r /\ rk_ignore r' = rk_ignore r /\ rk_strict r' = rk_strict r.
  Proof.
    unfold moved, cursor_to. destruct peek; [auto|]. destruct (last_opt m); [|auto]. now destruct (key p).
  Qed.

  (** Nothing found, or a proper value. *)
  Lemma read_result_nothing (d : sdeque) n peek strict r : unseen (sd_key d) r (sd_items d) = [] ->
    read_result d n peek true strict r = (r, Ok VNone).
  Proof. intro E. unfold read_result. now rewrite E. Qed.
  Lemma read_result_some (d : sdeque) n peek strict r : unseen (sd_key d) r (sd_items d) <> [] ->
    ~ In PNone (sd_items d) ->
    forall v, snd (read_result d n peek true strict r) = Ok v -> rval_is_none v = false.
  Proof.
    intros E N v. unfold read_result. destruct (unseen _ _ _) as [|x m] eqn:Eu; [easy|].
    assert (Hx : In x (sd_items d)) by (apply (unseen_in (sd_key d) r); rewrite Eu; now left).
    destruct (Z.ltb 1 n); [destruct (strict && _)|]; cbn [snd]; intro H; inversion H; cbn; auto.
    destruct x; auto. contradiction.
  Qed.

  Lemma next_closed (d : sdeque) stopped r : bok P d -> cursor_in P r -> ~ In PNone (sd_items d) ->
    run (next_dunder d stopped) r =
    match unseen (sd_key d) r (sd_items d) with
    | [] => (r, if stopped then Raise StopIteration else Ok VNone)
    | _ => read_result d (rk_n r) (rk_peek r) true (rk_strict r) r
    end.
  Proof.
    intros B H N. assert (E : run (read_for_next d) r = read_result d (rk_n r) (rk_peek r) true (rk_strict r) r).
    { unfold read_for_next. rewrite run_get, (read_closed P F d B) by assumption. reflexivity. }
    unfold run in *. unfold next_dunder, bindM at 1. destruct (read_for_next d r) as [[t r1] v]. rewrite <- E.
    pose proof (read_result_some d (rk_n r) (rk_peek r) (rk_strict r) r) as HS. rewrite <- E in HS. cbn [snd] in HS.
    destruct (unseen _ _ _) as [|x m] eqn:Eu.
    - rewrite read_result_nothing in E by assumption. injection E as -> ->. cbn. now destruct stopped.
    - destruct v as [v|e]; [|reflexivity]. rewrite (HS ltac:(discriminate) N v eq_refl). reflexivity.
  Qed.

  (** *** Cursor on the item at position [j] *)
  Lemma unseen_at (d : sdeque) j y r : bok P d -> nth_error (sd_items d) j = Some y ->
    unseen (sd_key d) (cursor_to (sd_key d) y r) (sd_items d) = skipn (S j) (sd_items d).
  Proof.
    intros B Hj. destruct (key_in P d B y (nth_error_In _ _ Hj)) as (k & Ek & _ & Pk).
    unfold cursor_to. rewrite Ek. unfold unseen. apply splits_filter. cbn [r_last_key].
    assert (HL : j < length (sd_items d)) by (apply nth_error_Some; congruence).
    unfold is_unseen. cbn [r_last_key]. rewrite (family_not_none P k F Pk). cbn [orb].
    assert (forall i x kx, nth_error (sd_items d) i = Some x -> sd_key d x = Ok kx ->
      ltb k kx = Nat.leb (S j) i) as HH.
    { intros i x kx Hi Ex. destruct (Nat.leb_spec (S j) i).
      - pose proof (bok_strict _ _ B) as HS. unfold strict_keys in HS. rewrite StronglySorted_nth in HS.
        destruct (Forall2_nth_l _ _ _ (bok_cons _ _ B) i x Hi) as (k1 & H1 & E1).
        destruct (Forall2_nth_l _ _ _ (bok_cons _ _ B) j y Hj) as (k2 & H2 & E2).
        assert (k1 = kx) by congruence. assert (k2 = k) by congruence. subst. apply (HS j i); auto.
      - assert (Hle : leb kx k = true) by (eapply (key_order P F d B i j); eauto; lia).
        destruct (key_in P d B x (nth_error_In _ _ Hi)) as (k' & Ek' & _ & Pk').
        assert (k' = kx) by congruence. subst k'.
        rewrite (leb_negb P) in Hle by assumption. now apply negb_true_iff in Hle. }
    split; [lia|]. split; intros i x Hi Hx.
    - unfold key_sat. destruct (key_in P d B x (nth_error_In _ _ Hx)) as (kx & Ex & _). rewrite Ex, (HH i x kx Hx Ex).
      apply Nat.leb_gt. lia.
    - unfold key_sat. destruct (key_in P d B x (nth_error_In _ _ Hx)) as (kx & Ex & _). rewrite Ex, (HH i x kx Hx Ex).
      apply Nat.leb_le. lia.
  Qed.
  Lemma nth_last_firstn {A} (m : list A) n : 0 < n -> n <= length m -> last_opt (firstn n m) = nth_error m (n - 1).
  Proof.
    intros H0 H1. destruct n as [|n]; [lia|]. replace (S n - 1) with n by lia.
    destruct (nth_error m n) as [x|] eqn:E; [|apply nth_error_None in E; lia].
    rewrite (firstn_S_nth m n x E). apply last_opt_snoc.
  Qed.
  Lemma unseen_advance (d : sdeque) n r : bok P d -> cursor_in P r -> 0 < n ->
    let U := unseen (sd_key d) r (sd_items d) in
    unseen (sd_key d) (moved (sd_key d) false (firstn n U) r) (sd_items d) = skipn n U.
  Proof.
    intros B H Hn U. destruct (unseen_suffix P F d B r H) as (i & Hi & E & _). fold U in E.
    destruct U as [|x0 U0] eqn:EU.
    { rewrite firstn_nil. cbn. rewrite skipn_nil. exact EU. }
    rewrite <- EU in *. clear x0 U0 EU.
    destruct (le_lt_dec n (length U)) as [L|L].
    - unfold moved. rewrite nth_last_firstn by lia.
      destruct (nth_error U (n - 1)) as [y|] eqn:Ey; [|apply nth_error_None in Ey; lia].
      rewrite E, nth_error_skipn in Ey. rewrite (unseen_at d _ y r B Ey), E, skipn_skipn. f_equal. lia.
    - rewrite firstn_all2, skipn_all2 by lia. unfold moved. destruct (last_opt U) as [y|] eqn:Ey.
      + rewrite E in Ey. assert (0 < length U) by (rewrite E; apply last_opt_some in Ey as (z & ->); rewrite app_length; cbn; lia).
        rewrite <- (firstn_all (skipn i (sd_items d))), nth_last_firstn in Ey by (rewrite <- ?E; lia).
        rewrite nth_error_skipn in Ey. rewrite <- E in Ey. rewrite (unseen_at d _ y r B Ey).
        apply skipn_all2. pose proof (skipn_length i (sd_items d)) as HL. rewrite <- E in HL. lia.
      + apply last_opt_none in Ey. exact Ey.
  Qed.

  (** *** Draining a stopped stream *)
  Lemma iterate_drain (d : sdeque) N : forall r, bok P d -> cursor_in P r -> ~ In PNone (sd_items d) ->
    rk_peek r = false -> rk_strict r = false \/ (rk_n r <= 1)%Z ->
    length (unseen (sd_key d) r (sd_items d)) < N ->
    exists r' ys, iterate (repeat (d, true, true) N) r = (r', ys, Some IterReturned) /\
      concat (map items_of ys) = unseen (sd_key d) r (sd_items d) /\
      unseen (sd_key d) r' (sd_items d) = [] /\
      Forall (fun v => length (items_of v) <= Nat.max 1 (Z.to_nat (rk_n r))) ys.
  Proof.
    induction N as [|N IH]; intros r B H NN Hp Hs HL; [lia|]. cbn [repeat iterate].
    rewrite next_closed by assumption. destruct (unseen (sd_key d) r (sd_items d)) as [|x m] eqn:EU.
    - exists r, []. repeat split; auto.
    - unfold read_result. rewrite EU, Hp.
      assert (Hx : In x (sd_items d)) by (apply (unseen_in (sd_key d) r); rewrite EU; now left).
      destruct (Z.ltb_spec 1 (rk_n r)) as [Ln|Ln].
      + destruct Hs as [Hs|Hs]; [|lia]. rewrite Hs. cbn [andb rval_is_none negb].
        set (n := Z.to_nat (rk_n r)). assert (1 < n) by lia.
        pose proof (unseen_advance d n r B H ltac:(lia)) as Hadv. cbn zeta in Hadv. rewrite EU in Hadv.
        set (r1 := moved _ _ _ _) in *.
        destruct (kwargs_moved (sd_key d) false (firstn n (x :: m)) r) as (K1 & K2 & K3 & K4). fold r1 in K1, K2, K3, K4.
        destruct (IH r1 B) as (r' & ys & E & C & U & Fa); auto.
        * subst r1. apply cursor_moved; auto. intros y Hy. apply firstn_in in Hy.
          rewrite <- EU in Hy. now apply unseen_in in Hy.
        * congruence.
        * left. congruence.
        * rewrite Hadv. rewrite skipn_length. cbn [length] in *. lia.
        * rewrite E. exists r', (VList (firstn n (x :: m)) :: ys). repeat split; auto.
          -- cbn [map concat items_of]. rewrite C, Hadv. apply firstn_skipn.
          -- constructor; [cbn [items_of]; rewrite firstn_length; lia|]. rewrite K1 in Fa; exact Fa.
      + assert (rval_is_none (VItem x) = false) as -> by (cbn; destruct x; auto; contradiction). cbn [negb].
        pose proof (unseen_advance d 1 r B H ltac:(lia)) as Hadv. cbn zeta in Hadv. rewrite EU in Hadv.
        cbn [firstn skipn] in Hadv. set (r1 := moved _ _ _ _) in *.
        destruct (kwargs_moved (sd_key d) false [x] r) as (K1 & K2 & K3 & K4). fold r1 in K1, K2, K3, K4.
        destruct (IH r1 B) as (r' & ys & E & C & U & Fa); auto.
        * subst r1. apply cursor_moved; auto. intros y [<-|[]]. assumption.
        * congruence.
        * right. lia.
        * rewrite Hadv. cbn [length] in *. lia.
        * rewrite E. exists r', (VItem x :: ys). repeat split; auto.
          -- cbn [map concat items_of]. now rewrite C, Hadv.
          -- constructor; [cbn [items_of length]; lia|]. rewrite K1 in Fa; exact Fa.
  Qed.

  (** *** Blocking read *)
  Lemma poll_closed d a r : bok P d -> cursor_in P r ->
    run (read d (poll_args a r)) r =
    read_result d (dflt (a_n a) (rk_n r)) (dflt (a_peek a) false) true (dflt (a_strict a) (rk_strict r)) r.
  Proof. intros B H. rewrite (read_closed P F d B) by assumption. reflexivity. Qed.
  Lemma blocking_quiet a r polls rest : cursor_in P r ->
    Forall (fun p => bok P (fst p) /\ unseen (sd_key (fst p)) r (sd_items (fst p)) = [] /\ snd p = false) polls ->
    read_blocking (polls ++ rest) a r = read_blocking rest a r.
  Proof.
    intros H HP. induction HP as [|[d s] polls (B & E & Hs) HP IH]; [reflexivity|]. cbn [fst snd app] in *.
    cbn [read_blocking]. rewrite poll_closed, read_result_nothing by assumption. cbn. now subst.
  Qed.
  Lemma blocking_data a r d s rest : cursor_in P r -> bok P d -> ~ In PNone (sd_items d) ->
    unseen (sd_key d) r (sd_items d) <> [] ->
    read_blocking ((d, s) :: rest) a r =
    let '(r', v) := read_result d (dflt (a_n a) (rk_n r)) (dflt (a_peek a) false) true (dflt (a_strict a) (rk_strict r)) r in
    (r', Some v).
  Proof.
    intros H B N E. cbn [read_blocking]. rewrite poll_closed by assumption.
    pose proof (read_result_some d (dflt (a_n a) (rk_n r)) (dflt (a_peek a) false) (dflt (a_strict a) (rk_strict r)) r E N) as HS.
    destruct (read_result _ _ _ _ _ _) as [r' [v|e]]; [|reflexivity]. cbn [snd] in HS. now rewrite (HS v eq_refl).
  Qed.
  Lemma blocking_stopped a r d rest : cursor_in P r -> bok P d ->
    unseen (sd_key d) r (sd_items d) = [] ->
    read_blocking ((d, true) :: rest) a r = (r, Some (Ok VNone)).
  Proof.
    intros H B E. cbn [read_blocking]. now rewrite poll_closed, read_result_nothing by assumption.
  Qed.
End Loops.
