(** * Property theorems: the for loop over a reader, the next() method and the cursor property
    (C25, C84-C86) *)
From Coq Require Import List ZArith Bool Arith Lia.
From Verif Require Import PyVal PyLib PyValFacts SortedDequeM BufferReaderM BufferSysM Spec SpecDeque SpecReader Families
  BisectFacts ListFacts DequeFacts DequeSearch ReaderFacts ReaderLoops PropsDeque PropsReader.
Import ListNotations.

(** ** C84: specification. [consumed bufs r ys r']: a consumer that looks at the buffers [bufs]
    one after the other and each time takes what is new to it - up to read_size items as one
    list, or one item - has taken [ys] and is left at [r']. A look that finds nothing new takes
    nothing. *)
Inductive consumed : list sdeque -> breader -> list rval -> breader -> Prop :=
| consumed_all r : consumed [] r [] r
| consumed_nothing d bufs r ys r' :
    unseen (sd_key d) r (sd_list d) = [] -> consumed bufs r ys r' -> consumed (d :: bufs) r ys r'
| consumed_item d bufs r x U ys r' :
    unseen (sd_key d) r (sd_list d) = x :: U -> (rk_n r <= 1)%Z ->
    consumed bufs (if rk_peek r then r else cursor_to (sd_key d) x r) ys r' ->
    consumed (d :: bufs) r (VItem x :: ys) r'
| consumed_chunk d bufs r U x ys r' :
    unseen (sd_key d) r (sd_list d) = U -> U <> [] -> (1 < rk_n r)%Z ->
    last_opt (firstn (Z.to_nat (rk_n r)) U) = Some x ->
    consumed bufs (if rk_peek r then r else cursor_to (sd_key d) x r) ys r' ->
    consumed (d :: bufs) r (VList (firstn (Z.to_nat (rk_n r)) U) :: ys) r'.

(** Rounds of a loop that sees the stream running. *)
Definition running (bufs : list sdeque) : list (sdeque * bool * bool) := map (fun d => (d, false, false)) bufs.

Definition kept (P : pyval -> Prop) (r : breader) : Prop :=
  cursor_in P r /\ (rk_strict r = false \/ (rk_n r <= 1)%Z).

Section Loop.
  Variable P : pyval -> Prop.
  Hypothesis F : total_family P.

  Lemma kept_to d m r : bok P d -> (forall y, In y m -> In y (sd_items d)) -> kept P r ->
    kept P (moved (sd_key d) (rk_peek r) m r).
  Proof.
    intros B Hm [H1 H2]. destruct (kwargs_moved (sd_key d) (rk_peek r) m r) as (K1 & _ & _ & K4).
    split; [now apply cursor_moved|]. rewrite K1, K4. exact H2.
  Qed.

  (** One look at the buffer, the answer depending on is_stopped only if there is nothing. *)
  Lemma one_round d s1 r : bok P d -> ~ In PNone (sd_items d) -> kept P r ->
    (unseen (sd_key d) r (sd_items d) = [] /\
     run (next_dunder d s1) r = (r, if s1 then Raise StopIteration else Ok VNone)) \/
    (exists v r1, run (next_dunder d s1) r = (r1, Ok v) /\ rval_is_none v = false /\ kept P r1 /\
       unseen (sd_key d) r (sd_items d) <> [] /\
       forall bufs ys r', consumed bufs r1 ys r' -> consumed (d :: bufs) r (v :: ys) r').
  Proof.
    intros B N K. pose proof K as [H Hs]. rewrite (next_closed P F) by assumption.
    destruct (unseen (sd_key d) r (sd_items d)) as [|x U] eqn:EU; [now left|]. right.
    unfold read_result. rewrite EU. destruct (Z.ltb_spec 1 (rk_n r)) as [Ln|Ln].
    - destruct Hs as [Hs|Hs]; [|lia]. rewrite Hs. cbn [andb].
      set (m := firstn (Z.to_nat (rk_n r)) (x :: U)).
      assert (Hm : forall y, In y m -> In y (sd_items d)).
      { intros y Hy. apply firstn_in in Hy. rewrite <- EU in Hy. now apply unseen_in in Hy. }
      assert (exists z, last_opt m = Some z) as [z Ez].
      { destruct (last_opt m) eqn:E; [eauto|]. apply last_opt_none in E. subst m.
        destruct (Z.to_nat (rk_n r)) eqn:En; [lia|]. discriminate. }
      eexists _, _. split; [reflexivity|]. split; [reflexivity|]. split; [now apply kept_to|]. split; [discriminate|].
      intros bufs ys r' C. subst m. apply consumed_chunk with z; auto; [discriminate|].
      unfold moved in C. rewrite Ez in C. exact C.
    - assert (Hx : In x (sd_items d)) by (apply (unseen_in (sd_key d) r); rewrite EU; now left).
      eexists _, _. split; [reflexivity|]. split; [cbn; destruct x; auto; contradiction|].
      split; [apply kept_to; auto; intros y [<-|[]]; assumption|]. split; [discriminate|].
      intros bufs ys r' C. apply consumed_item with U; auto.
  Qed.

  Lemma loop_running bufs : forall r, kept P r ->
    Forall (fun d => bok P d /\ ~ In PNone (sd_items d)) bufs ->
    exists ys r', consumed bufs r ys r' /\ kept P r' /\
      forall rest, iterate (running bufs ++ rest) r =
        let '(r2, zs, e) := iterate rest r' in (r2, ys ++ zs, e).
  Proof.
    induction bufs as [|d bufs IH]; intros r K HB.
    - exists [], r. split; [constructor|]. split; [assumption|]. intro rest. cbn. now destruct (iterate rest r) as [[r2 zs] e].
    - inversion HB as [|? ? [B N] HB']; subst.
      destruct (one_round d false r B N K) as [[EU E]|(v & r1 & E & Hv & K1 & EU & HC)].
      + destruct (IH r K HB') as (ys & r' & C & K' & HI). exists ys, r'. split; [now apply consumed_nothing|].
        split; [assumption|]. intro rest. cbn [running map app iterate]. rewrite E. cbn [rval_is_none negb]. apply HI.
      + destruct (IH r1 K1 HB') as (ys & r' & C & K' & HI). exists (v :: ys), r'. split; [now apply HC|].
        split; [assumption|]. intro rest. cbn [running map app iterate]. rewrite E, Hv. cbn [negb].
        fold (running bufs). rewrite HI. now destruct (iterate rest r') as [[r2 zs] e].
  Qed.

  Lemma loop_end rounds : forall r r' ys e, kept P r ->
    Forall (fun q => bok P (fst (fst q)) /\ ~ In PNone (sd_items (fst (fst q)))) rounds ->
    iterate rounds r = (r', ys, Some e) ->
    e = IterReturned /\
    exists before d s1 s2 after, rounds = before ++ (d, s1, s2) :: after /\
      (s1 = true \/ s2 = true) /\ unseen (sd_key d) r' (sd_list d) = [] /\
      consumed (map (fun q => fst (fst q)) before) r ys r'.
  Proof.
    induction rounds as [|[[d s1] s2] rounds IH]; intros r r' ys e K HB E; [discriminate|].
    inversion HB as [|? ? [B N] HB']; subst. cbn [fst] in B, N. cbn [iterate] in E.
    destruct (one_round d s1 r B N K) as [[EU E1]|(v & r1 & E1 & Hv & K1 & EU & HC)]; rewrite E1 in E.
    - destruct s1.
      + injection E as <- <- <-. split; [reflexivity|]. exists [], d, true, s2, rounds. repeat split; auto. constructor.
      + cbn [rval_is_none negb] in E. destruct s2.
        * injection E as <- <- <-. split; [reflexivity|]. exists [], d, false, true, rounds. repeat split; auto. constructor.
        * destruct (IH r r' ys e K HB' E) as (He & b & d' & t1 & t2 & a & -> & Hf & Hu & C). split; [assumption|].
          exists ((d, false, false) :: b), d', t1, t2, a. repeat split; auto. cbn. now apply consumed_nothing.
    - rewrite Hv in E. cbn [negb] in E. destruct (iterate rounds r1) as [[r2 zs] e2] eqn:EI.
      injection E as <- <- ->. destruct (IH r1 r2 zs e K1 HB' EI) as (He & b & d' & t1 & t2 & a & -> & Hf & Hu & C).
      split; [assumption|]. exists ((d, s1, s2) :: b), d', t1, t2, a. repeat split; auto. cbn. now apply HC.
  Qed.
End Loop.

(** ** C84: a for loop over a running stream waits for data and ends only once the stream has
    stopped. *)
Theorem C84_for_loop_waits :
  forall P, total_family P -> forall r, cursor_in P r -> rk_strict r = false \/ (rk_n r <= 1)%Z ->
  (* while is_stopped is false: it takes what is there, waits when there is nothing, never ends *)
  (forall bufs, Forall (fun d => buffer_in P d /\ ~ In PNone (sd_list d)) bufs ->
    exists ys r', consumed bufs r ys r' /\
      iterate (running bufs) r = (r', ys, None) /\
      (* and then it ends at the first look that finds nothing and sees the stop *)
      forall d s1 s2 rest, buffer_in P d -> ~ In PNone (sd_list d) ->
        unseen (sd_key d) r' (sd_list d) = [] -> s1 = true \/ s2 = true ->
        iterate (running bufs ++ (d, s1, s2) :: rest) r = (r', ys, Some IterReturned)) /\
  (* if it ends, it returns, without an exception, having found nothing new and seen the stop,
     and has yielded what was to be taken in the rounds before *)
  (forall rounds, Forall (fun q => buffer_in P (fst (fst q)) /\ ~ In PNone (sd_list (fst (fst q)))) rounds ->
   forall r' ys e, iterate rounds r = (r', ys, Some e) ->
    e = IterReturned /\
    exists before d s1 s2 after, rounds = before ++ (d, s1, s2) :: after /\
      (s1 = true \/ s2 = true) /\ unseen (sd_key d) r' (sd_list d) = [] /\
      consumed (map (fun q => fst (fst q)) before) r ys r').
Proof.
  intros P F r H Hs. assert (K : kept P r) by (split; assumption). split.
  - intros bufs HB. destruct (loop_running P F bufs r K) as (ys & r' & C & K' & HI).
    { eapply Forall_impl; [|exact HB]. cbn. intros d [B N]. split; [now apply buffer_bok|exact N]. }
    exists ys, r'. split; [exact C|]. split.
    + specialize (HI []). rewrite app_nil_r in HI. rewrite HI. cbn. now rewrite app_nil_r.
    + intros d s1 s2 rest BI N EU Hf. rewrite HI. cbn [iterate].
      destruct (one_round P F d s1 r' (buffer_bok P d BI) N K') as [[_ E]|(v & r1 & _ & _ & _ & Hne & _)]; [|contradiction].
      rewrite E. destruct s1; [now rewrite app_nil_r|]. destruct Hf as [Hf| ->]; [discriminate|]. cbn. now rewrite app_nil_r.
  - intros rounds HB r' ys e E. apply (loop_end P F rounds r r' ys e K); [|exact E].
    eapply Forall_impl; [|exact HB]. cbn. intros q [B N]. split; [now apply buffer_bok|exact N].
Qed.
Print Assumptions C84_for_loop_waits.
Example C84_nonvacuous :
  Forall (fun d => buffer_in is_int d /\ ~ In PNone (sd_list d)) [empty_buf; buf; buf; buf; empty_buf] /\
  iterate (running [empty_buf; buf; buf; buf; empty_buf]) rd1 = (rd7, [VItem (row 2 20); VItem (row 4 40); VItem (row 7 70)], None) /\
  iterate (running [empty_buf; buf; buf; buf; empty_buf] ++ [(buf, false, true); (buf, true, true)]) rd1
    = (rd7, [VItem (row 2 20); VItem (row 4 40); VItem (row 7 70)], Some IterReturned).
Proof.
  split; [|vm_compute; split; reflexivity].
  pose proof empty_buf_in. pose proof buf_in. pose proof buf_no_none. repeat constructor; auto; intros [].
Qed.

(** ** C85: the method [reader.next]. The arguments given to it, or its own defaults, count; those
    given to mk_reader do not. *)
Theorem C85_next_method :
  forall P, total_family P -> forall d, buffer_in P d -> forall r, cursor_in P r ->
  forall n peek ignore strict,
  let U := unseen (sd_key d) r (sd_list d) in
  let answer := run (next_method d n peek ignore strict) r in
  (U = [] -> answer = (r, if ignore then Ok VNone else Raise ValueError)) /\
  (U <> [] -> (n <= 1)%Z ->
     answer = (if peek then r else cursor_to (sd_key d) (hd PNone U) r, Ok (VItem (hd PNone U)))) /\
  (U <> [] -> (1 < n)%Z -> strict = false ->
     answer = (if peek then r else cursor_to (sd_key d) (last (firstn (Z.to_nat n) U) PNone) r,
               Ok (VList (firstn (Z.to_nat n) U)))) /\
  (U <> [] -> (1 < n)%Z -> strict = true -> length U < Z.to_nat n -> answer = (r, Raise ValueError)) /\
  (forall r2, r_last_item r2 = r_last_item r -> r_last_key r2 = r_last_key r ->
     snd (run (next_method d n peek ignore strict) r2) = snd answer).
Proof.
  intros P F d BI r H n peek ignore strict U answer. pose proof (buffer_bok P d BI) as B.
  assert (EA : forall r2, cursor_in P r2 -> run (next_method d n peek ignore strict) r2 = read_result d n peek ignore strict r2).
  { intros r2 H2. unfold next_method. rewrite (read_closed P F d B) by assumption. reflexivity. }
  assert (EL : forall l, l <> [] -> last_opt l = Some (last l PNone)).
  { intros l Hl. destruct (last_opt l) as [x|] eqn:E; [|now apply last_opt_none in E].
    apply last_opt_some in E as (z & ->). now rewrite last_last. }
  subst answer. rewrite EA by assumption. unfold read_result. change (sd_items d) with (sd_list d). fold U.
  split; [|split; [|split; [|split]]].
  - now intros ->.
  - intros Hne Hn. destruct (Z.ltb_spec 1 n); [lia|]. destruct U as [|x U0]; [easy|]. unfold moved. cbn. now destruct peek.
  - intros Hne Hn ->. destruct (Z.ltb_spec 1 n); [|lia]. cbn [andb].
    assert (firstn (Z.to_nat n) U <> []) as Hf by (destruct U; [easy|]; destruct (Z.to_nat n) eqn:?; [lia|discriminate]).
    destruct U as [|x U0]; [easy|]. unfold moved. rewrite (EL _ Hf). reflexivity.
  - intros Hne Hn -> HL. destruct (Z.ltb_spec 1 n); [|lia]. destruct (Z.leb_spec (Z.of_nat (length U)) n); [|lia].
    destruct U; [easy|]. reflexivity.
  - intros r2 H1 H2.
    assert (cursor_in P r2) by (unfold cursor_in, fresh in *; rewrite H1, H2; assumption).
    rewrite EA by assumption. unfold read_result. change (sd_items d) with (sd_list d).
    assert (unseen (sd_key d) r2 (sd_list d) = U) as ->.
    { unfold U, unseen, is_unseen. now rewrite H2. }
    destruct U; [reflexivity|]. destruct (Z.ltb 1 n); [destruct (strict && _)|]; reflexivity.
Qed.
Print Assumptions C85_next_method.
Example C85_nonvacuous :
  run (next_method buf 2 true false false) rd1 = (rd1, Ok (VList [row 2 20; row 4 40])) /\
  run (next_method buf 1 false true false) rd4 = (rd7, Ok (VItem (row 7 70))) /\
  run (next_method buf 1 false true false) rd7 = (rd7, Ok VNone) /\
  run (next_method buf 1 true false false) rd7 = (rd7, Raise ValueError).
Proof. vm_compute. repeat split. Qed.

(** ** C86: assigning and deleting [reader.last_item]. *)
Theorem C86_cursor_assignment :
  (* assignment: the next calls see exactly what lies above the key of the assigned item, which
     need not be in the buffer; if the key function fails the cursor stays *)
  (forall d x r,
    match sd_key d x with
    | Ok k => exists r', run (set_last_item d x) r = (r', Ok tt) /\ r_last_item r' = x /\ r_last_key r' = k /\
                rk_n r' = rk_n r /\ rk_peek r' = rk_peek r /\ rk_ignore r' = rk_ignore r /\ rk_strict r' = rk_strict r
    | Raise e => run (set_last_item d x) r = (r, Raise e)
    end) /\
  (forall P, total_family P -> forall d, buffer_in P d -> forall x k, sd_key d x = Ok k -> P k ->
   forall r n peek ignore strict,
   let U := filter (key_sat (sd_key d) (fun kx => ltb k kx)) (sd_list d) in
   let r' := fst (run (set_last_item d x) r) in
   (U = [] -> run (next_method d n peek ignore strict) r' = (r', if ignore then Ok VNone else Raise ValueError)) /\
   (U <> [] -> (n <= 1)%Z -> snd (run (next_method d n peek ignore strict) r') = Ok (VItem (hd PNone U)))) /\
  (* deletion: the reader starts again from the oldest buffered item *)
  (forall r, exists r', run del_last_item r = (r', Ok tt) /\ fresh r' /\
     rk_n r' = rk_n r /\ rk_peek r' = rk_peek r /\ rk_ignore r' = rk_ignore r /\ rk_strict r' = rk_strict r) /\
  (forall P, total_family P -> forall d, buffer_in P d -> forall x l, sd_list d = x :: l ->
   forall r n peek ignore strict, (n <= 1)%Z ->
   snd (run (next_method d n peek ignore strict) (fst (run del_last_item r))) = Ok (VItem x)).
Proof.
  split; [|split; [|split]].
  - intros d x r. unfold set_last_item, run. destruct (sd_key d x); [|reflexivity]. eexists. repeat split.
  - intros P F d BI x k Ek Pk r n peek ignore strict U r'.
    assert (E : r' = MkR x k (rk_n r) (rk_peek r) (rk_ignore r) (rk_strict r)).
    { subst r'. unfold set_last_item, run. now rewrite Ek. }
    assert (HU : unseen (sd_key d) r' (sd_list d) = U).
    { unfold unseen, U. apply filter_ext. intro y. rewrite E. unfold is_unseen. cbn [r_last_key].
      now rewrite (family_not_none P k F Pk). }
    assert (HC : cursor_in P r') by (rewrite E; now right).
    destruct (C85_next_method P F d BI r' HC n peek ignore strict) as (H1 & H2 & _). cbn zeta in H1, H2. rewrite HU in H1, H2.
    split; [exact H1|]. intros Hne Hn. now rewrite H2.
  - intro r. eexists. split; [reflexivity|]. repeat split.
  - intros P F d BI x l E r n peek ignore strict Hn.
    destruct (C85_next_method P F d BI (fst (run del_last_item r)) ltac:(left; split; reflexivity) n peek ignore strict)
      as (_ & H2 & _). cbn zeta in H2.
    assert (HU : unseen (sd_key d) (fst (run del_last_item r)) (sd_list d) = sd_list d).
    { unfold unseen, is_unseen. cbn. rewrite E. clear. induction (x :: l) as [|y m IH]; [reflexivity|]. cbn. now rewrite IH. }
    rewrite HU, E in H2. now rewrite H2.
Qed.
Print Assumptions C86_cursor_assignment.
Example C86_nonvacuous :
  snd (run (next_method buf 1 false false false) (fst (run (set_last_item buf (row 3 0)) rd7))) = Ok (VItem (row 4 40)) /\
  snd (run (next_method buf 1 false false false) (fst (run del_last_item rd7))) = Ok (VItem (row 2 20)) /\
  run (set_last_item buf PNone) rd4 = (rd4, Raise TypeError).
Proof. vm_compute. repeat split. Qed.

(** ** C25: the defaults given to mk_reader are those of the reader for ever. *)
Definition kw (r : breader) := (rk_n r, rk_peek r, rk_ignore r, rk_strict r).
Definition keeps {A} (m : M A) : Prop := forall r, kw (fst (run m r)) = kw r.
Lemma keeps_bind {A B} (m : M A) (f : A -> M B) : keeps m -> (forall a, keeps (f a)) -> keeps (bindM m f).
Proof.
  intros Hm Hf r. unfold run, bindM. specialize (Hm r). unfold run in Hm.
  destruct (m r) as [[t r1] [a|e]]; [|exact Hm].
  specialize (Hf a r1). unfold run in Hf. destruct (f a r1) as [[t2 r2] b]. cbn in *. congruence.
Qed.
Lemma keeps_try {A} (m : M A) h : keeps m -> (forall e, keeps (h e)) -> keeps (tryM m h).
Proof.
  intros Hm Hf r. unfold run, tryM. specialize (Hm r). unfold run in Hm.
  destruct (m r) as [[t r1] [a|e]]; [exact Hm|].
  specialize (Hf e r1). unfold run in Hf. destruct (h e r1) as [[t2 r2] b]. cbn in *. congruence.
Qed.
Lemma keeps_lock {A} (m : M A) : keeps m -> keeps (with_lock m).
Proof. intros Hm r. specialize (Hm r). unfold run, with_lock in *. now destruct (m r) as [[t r1] a]. Qed.
Lemma keeps_ret {A} (a : A) : keeps (retM a). Proof. now intro. Qed.
Lemma keeps_raise {A} e : keeps (@raiseM A e). Proof. now intro. Qed.
Lemma keeps_lift {A} (a : res A) : keeps (liftM a). Proof. now intro. Qed.
Lemma keeps_get : keeps getM. Proof. now intro. Qed.
Lemma keeps_set d x : keeps (set_last_item d x).
Proof. intro. unfold set_last_item, run. now destruct (sd_key d x). Qed.
Ltac kps := repeat first
  [ apply keeps_bind; [|intro] | apply keeps_try; [|intro] | apply keeps_lock | apply keeps_ret | apply keeps_raise
  | apply keeps_lift | apply keeps_get | apply keeps_set
  | match goal with |- keeps (match ?x with _ => _ end) => destruct x end
  | match goal with |- keeps (if ?x then _ else _) => destruct x end ].
Lemma keeps_call d c : keeps (do_call d c).
Proof.
  destruct c; unfold do_call, next_dunder, read_for_next, range, range_body, tail, tail_body, head, read,
    read_body, read_many, move_cursor; kps.
Qed.
Lemma nth_set_nth {A} (l : list A) i j x : nth_error (set_nth l i x) j =
  if Nat.eqb i j then match nth_error l j with Some _ => Some x | None => None end else nth_error l j.
Proof.
  revert i j. induction l as [|y l IH]; intros [|i] [|j]; cbn; auto; try now destruct (Nat.eqb i j).
Qed.
Lemma keeps_step s o i r : nth_error (s_rds s) i = Some r ->
  exists r', nth_error (s_rds (fst (bsys_step s o))) i = Some r' /\ kw r' = kw r.
Proof.
  intro H. destruct o as [x|n|n p st ig|j c]; cbn [bsys_step].
  - destruct (sd_append (s_buf s) x). cbn. eauto.
  - destruct (sd_drop (s_buf s) n). cbn. eauto.
  - cbn. rewrite nth_error_app1 by (apply nth_error_Some; congruence). eauto.
  - destruct (nth_error (s_rds s) j) as [rj|] eqn:Ej; [|cbn; eauto].
    pose proof (keeps_call (s_buf s) c rj) as K. destruct (run (do_call (s_buf s) c) rj) as [r' v]. cbn in *.
    rewrite nth_set_nth, H. destruct (Nat.eqb_spec j i) as [->|]; [|eauto].
    exists r'. split; [reflexivity|]. congruence.
Qed.
Lemma keeps_run ops : forall s i r, nth_error (s_rds s) i = Some r ->
  exists r', nth_error (s_rds (fst (bsys_run s ops))) i = Some r' /\ kw r' = kw r.
Proof.
  induction ops as [|o ops IH]; intros s i r H; [cbn; eauto|]. cbn [bsys_run].
  destruct (keeps_step s o i r H) as (r1 & H1 & K1). destruct (bsys_step s o) as [s1 v]. cbn in H1.
  destruct (IH s1 i r1 H1) as (r2 & H2 & K2). destruct (bsys_run s1 ops) as [s2 vs]. cbn in *.
  exists r2. split; [assumption|congruence].
Qed.

(** After any history, whatever else was appended, dropped, made and read: arguments not given to
    read() of a reader made by mk_reader(read_size, peek, strict_n, ignore_no_item_found) are
    these defaults, except peek; next(reader) uses read_size, peek and strict_n and never raises
    for lack of data. *)
Theorem C25_defaults_for_ever_partial :
  forall s read_size peek strict_n ignore ops,
  let s' := fst (bsys_run s (LMk read_size peek strict_n ignore :: ops)) in
  exists r, nth_error (s_rds s') (length (s_rds s)) = Some r /\
  (forall n pk ig st,
     run (read (s_buf s') (MkRA n pk ig st)) r =
     run (read (s_buf s') (MkRA (Some (match n with Some v => v | None => read_size end))
                                (Some (match pk with Some v => v | None => false end))
                                (Some (match ig with Some v => v | None => ignore end))
                                (Some (match st with Some v => v | None => strict_n end)))) r) /\
  (let '(r1, v) := run (read (s_buf s') (MkRA (Some read_size) (Some peek) (Some true) (Some strict_n))) r in
   forall stopped, run (next_dunder (s_buf s') stopped) r =
     (r1, match v with
          | Ok (VItem PNone) => if stopped then Raise StopIteration else Ok (VItem PNone)
          | _ => v end)).
Proof.
  intros s n p st ig ops s'. subst s'. cbn [bsys_run bsys_step].
  set (s1 := MkBS (s_buf s) (s_rds s ++ [mk_breader n p st ig])).
  assert (H : nth_error (s_rds s1) (length (s_rds s)) = Some (mk_breader n p st ig)).
  { cbn. rewrite nth_error_app2, Nat.sub_diag by lia. reflexivity. }
  destruct (keeps_run ops s1 _ _ H) as (r & Hr & K). destruct (bsys_run s1 ops) as [s2 vs]. cbn [fst] in *.
  exists r. split; [exact Hr|]. unfold kw in K. cbn in K. injection K as K1 K2 K3 K4.
  split.
  - intros n' pk ig' st'. unfold read. rewrite !run_get. cbn [a_n a_peek a_ignore a_strict].
    rewrite K1, K3, K4. reflexivity.
  - unfold next_dunder, read_for_next.
    assert (E : forall stopped,
      run (bindM (bindM getM (fun r => read (s_buf s2) (MkRA (Some (rk_n r)) (Some (rk_peek r)) (Some true) (Some (rk_strict r)))))
           (fun v => if rval_is_none v && stopped then raiseM StopIteration else retM v)) r =
      run (bindM (read (s_buf s2) (MkRA (Some n) (Some p) (Some true) (Some st)))
           (fun v => if rval_is_none v && stopped then raiseM StopIteration else retM v)) r).
    { intro stopped. unfold run, bindM, getM. rewrite K1, K2, K4.
      destruct (read _ _ r) as [[t r1] [v|e]]; [|reflexivity]. cbn [app]. reflexivity. }
    destruct (run (read (s_buf s2) (MkRA (Some n) (Some p) (Some true) (Some st))) r) as [r1 v] eqn:ER.
    intro stopped. rewrite E. unfold run, bindM in *. destruct (read _ _ r) as [[t r1'] [w|e]]; injection ER as <- <-; [|reflexivity].
    destruct w as [[]|]; cbn; try reflexivity. now destruct stopped.
Qed.
Print Assumptions C25_defaults_for_ever_partial.
Example C25_for_ever_nonvacuous :
  let s' := fst (bsys_run (MkBS empty_buf [rd0]) [LMk 2 true false true; LAppend (row 1 1); LCall 1 (CHead false); LAppend (row 2 2); LAppend (row 3 3)]) in
  match nth_error (s_rds s') 1 with
  | Some r => snd (run (read (s_buf s') noargs) r) = Ok (VList [row 2 2; row 3 3]) /\ r_last_item r = row 1 1 /\
              run (next_dunder (s_buf s') true) r = (r, Ok (VList [row 2 2; row 3 3]))
  | None => False
  end.
Proof. vm_compute. repeat split. Qed.
