(** * Property theorems: BufferReader calls (C18, C20, C24-C34, C36) *)
From Coq Require Import List ZArith Bool Arith Lia.
From Verif Require Import PyVal PyLib PyValFacts SortedDequeM BufferReaderM Spec SpecDeque SpecReader Families
  BisectFacts ListFacts DequeFacts DequeSearch ReaderFacts ReaderLoops PropsDeque.
Import ListNotations.

(** Data for the non-vacuity examples: a buffer with maxlen 3 that has received rows
    1..4 and evicted row 1; a reader that had read row 1, and a fresh one. *)
Definition buf_ops : list sdop := [OAppend (row 1 10); OAppend (row 2 20); OAppend (row 2 21); OAppend (row 4 40); OAppend (row 7 70)].
Definition buf : sdeque :=
  MkSD [PInt 2; PInt 4; PInt 7] [row 2 20; row 4 40; row 7 70] fst_key (Some 3) (Some 3%Z).
Lemma buf_in : buffer_in is_int buf.
Proof.
  exists fst_key, (Some 3%Z), (MkSD [] [] fst_key (Some 3) (Some 3%Z)), buf_ops.
  split; [reflexivity|]. split; [repeat constructor|]. split; [|vm_compute; reflexivity].
  intros x k H E. cbn in H.
  repeat (destruct H as [H|H]; [injection H as <-; injection E as <-; eexists; reflexivity|]). destruct H.
Qed.
Lemma buf_no_none : ~ In PNone (sd_list buf).
Proof. cbn. intros [H|[H|[H|[]]]]; discriminate. Qed.
Definition rd0 : breader := mk_breader 1 false false false.
Definition rd1 : breader := MkR (row 1 10) (PInt 1) 1 false false false.
Definition rd4 : breader := MkR (row 4 40) (PInt 4) 1 false false false.
Definition rd7 : breader := MkR (row 7 70) (PInt 7) 1 false false false.
Lemma rd_ok : cursor_in is_int rd0 /\ cursor_in is_int rd1 /\ cursor_in is_int rd4 /\ cursor_in is_int rd7.
Proof. repeat split; [left; split; reflexivity|right..]; eexists; reflexivity. Qed.
Definition noargs : rargs := MkRA None None None None.
Definition empty_buf : sdeque := MkSD [] [] fst_key (Some 3) (Some 3%Z).
Lemma empty_buf_in : buffer_in is_int empty_buf.
Proof.
  exists fst_key, (Some 3%Z), empty_buf, []. repeat split; [constructor|]. intros x k [].
Qed.

(** ** C18: the lock is released on every path. No hypothesis on buffer, key function,
    reader or arguments. *)
Theorem C18_locks_balanced :
  forall (d : sdeque) (r : breader) (n : nat),
    (forall a, depth_after n (events (read d a) r) = Some n) /\
    (forall stopped, depth_after n (events (next_dunder d stopped) r) = Some n) /\
    (forall g, depth_after n (events (range d g) r) = Some n) /\
    (forall peek ignore only_new, depth_after n (events (tail d peek ignore only_new) r) = Some n) /\
    (forall peek, depth_after n (events (head d peek) r) = Some n).
Proof.
  intros d r n. repeat split; intros; [apply balM_read|apply balM_next|apply balM_range|apply balM_tail|apply balM_head].
Qed.
Print Assumptions C18_locks_balanced.
(** A call that raises inside the lock (key function without a key for the item). *)
Example C18_nonvacuous :
  let bad := MkSD [PInt 1] [PNone] fst_key None None in
  run (read bad noargs) rd0 = (rd0, Raise TypeError) /\ events (read bad noargs) rd0 = [Acq; Rel].
Proof. vm_compute. split; reflexivity. Qed.
(** How deep the lock is nested: once, except in range(only_new_items=True) by a reader that
    has a cursor (see C17). *)
Theorem C18_lock_nesting :
  forall (d : sdeque) (r : breader),
    (forall a, max_depth 0 (events (read d a) r) = 1) /\
    (forall stopped, max_depth 0 (events (next_dunder d stopped) r) = 1) /\
    (forall peek ignore only_new, max_depth 0 (events (tail d peek ignore only_new) r) = 1) /\
    (forall peek, max_depth 0 (events (head d peek) r) = 1) /\
    (forall g, max_depth 0 (events (range d g) r) =
       if g_only_new g && negb (is_none (r_last_key r)) then 2 else 1).
Proof.
  intros d r. repeat split; intros.
  - now rewrite events_read.
  - now rewrite events_next.
  - now rewrite events_tail.
  - now rewrite events_head.
  - rewrite events_range. now destruct (_ && _).
Qed.
Print Assumptions C18_lock_nesting.

(** ** C20 *)
Theorem C20_read_is_earliest_after_cursor :
  forall P, total_family P -> forall d, buffer_in P d -> forall r, cursor_in P r ->
  forall a, (dflt (a_n a) (rk_n r) <= 1)%Z ->
  let key := sd_key d in
  let after_cursor k := fresh r \/ ltb (r_last_key r) k = true in
  (exists x k,
     In x (sd_list d) /\ key x = Ok k /\ after_cursor k /\
     (forall y ky, In y (sd_list d) -> key y = Ok ky -> after_cursor ky -> leb k ky = true) /\
     run (read d a) r = (if dflt (a_peek a) false then r else cursor_to key x r, Ok (VItem x)))
  \/
  ((forall y ky, In y (sd_list d) -> key y = Ok ky -> ~ after_cursor ky) /\
   run (read d a) r = (r, if dflt (a_ignore a) (rk_ignore r) then Ok VNone else Raise ValueError)).
Proof.
  intros P F d BI r H a Hn key after_cursor. pose proof (buffer_bok P d BI) as B.
  assert (AC : forall y ky, In y (sd_list d) -> key y = Ok ky -> is_unseen key r y = true <-> after_cursor ky).
  { intros y ky Hy Ey. unfold is_unseen, after_cursor, key_sat. rewrite Ey. destruct H as [[H1 H2]|H].
    - rewrite H2. cbn. unfold fresh. split; auto.
    - rewrite (family_not_none P _ F H). cbn [orb]. split; [auto|]. intros [[_ H2]|]; auto.
      rewrite H2 in H. now apply family_no_none in H. }
  rewrite (read_closed P F d B) by assumption. unfold read_result.
  destruct (Z.ltb_spec 1 (dflt (a_n a) (rk_n r))); [lia|].
  destruct (unseen (sd_key d) r (sd_items d)) as [|x m] eqn:EU.
  - right. split; [|reflexivity]. intros y ky Hy Ey Hac. apply (AC y ky Hy Ey) in Hac.
    assert (In y (unseen key r (sd_items d))) by (apply filter_In; auto). subst key. now rewrite EU in H1.
  - left. assert (Hf : find (is_unseen key r) (sd_items d) = Some x).
    { rewrite find_filter. change (filter (is_unseen key r) (sd_items d)) with (unseen (sd_key d) r (sd_items d)).
      now rewrite EU. }
    destruct (find_min P F d B _ _ Hf) as (Hx & Hfx & Hmin). destruct (key_in P d B x Hx) as (k & Ek & _ & _).
    exists x, k. split; [exact Hx|]. split; [exact Ek|]. split; [now apply (AC x k)|]. split.
    + intros y ky Hy Ey Hac. apply (Hmin y); auto. now apply (AC y ky).
    + reflexivity.
Qed.
Print Assumptions C20_read_is_earliest_after_cursor.
Example C20_nonvacuous : total_family is_int /\ buffer_in is_int buf /\ cursor_in is_int rd1 /\
  run (read buf noargs) rd1 = (cursor_to fst_key (row 2 20) rd1, Ok (VItem (row 2 20))) /\
  snd (run (read buf noargs) rd4) = Ok (VItem (row 7 70)) /\
  snd (run (read buf noargs) rd7) = Raise ValueError.
Proof. split; [apply int_family|]. split; [apply buf_in|]. split; [apply rd_ok|]. vm_compute. repeat split. Qed.

(** ** C24 *)
Definition keeps_cursor {A} (m : M A) : Prop := forall r, fst (run m r) = r.
Theorem C24_peek_keeps_cursor :
  forall (d : sdeque),
    (forall n ignore strict, keeps_cursor (read d (MkRA n (Some true) ignore strict))) /\
    (forall stopped r, rk_peek r = true -> fst (run (next_dunder d stopped) r) = r) /\
    (forall g, g_peek g = true -> keeps_cursor (range d g)) /\
    (forall ignore only_new, keeps_cursor (tail d true ignore only_new)) /\
    keeps_cursor (head d true).
Proof.
  intro d.
  assert (KB : forall A B (m : M A) (f : A -> M B), keeps_cursor m -> (forall a, keeps_cursor (f a)) -> keeps_cursor (bindM m f)).
  { intros A B m f Hm Hf r. specialize (Hm r). unfold run, bindM in *. destruct (m r) as [[t r1] [a|e]]; [|exact Hm].
    cbn in Hm. subst r1. specialize (Hf a r). unfold run in Hf. now destruct (f a r) as [[t2 r2] b]. }
  assert (KT : forall A (m : M A) h, keeps_cursor m -> (forall e, keeps_cursor (h e)) -> keeps_cursor (tryM m h)).
  { intros A m f Hm Hf r. specialize (Hm r). unfold run, tryM in *. destruct (m r) as [[t r1] [a|e]]; [exact Hm|].
    cbn in Hm. subst r1. specialize (Hf e r). unfold run in Hf. now destruct (f e r) as [[t2 r2] b]. }
  assert (KL : forall A (m : M A), keeps_cursor m -> keeps_cursor (with_lock m)).
  { intros A m Hm r. specialize (Hm r). unfold run, with_lock in *. now destruct (m r) as [[t r1] a]. }
  assert (K1 : forall A (a : A), keeps_cursor (retM a)) by now intros.
  assert (K2 : forall A e, keeps_cursor (@raiseM A e)) by now intros.
  assert (K3 : forall A (a : res A), keeps_cursor (liftM a)) by now intros.
  assert (K4 : keeps_cursor getM) by now intros.
  Ltac keeps := repeat first
    [ match goal with H : context [keeps_cursor (bindM _ _)] |- keeps_cursor (bindM _ _) => apply H; [|intro] end
    | match goal with H : context [keeps_cursor (tryM _ _)] |- keeps_cursor (tryM _ _) => apply H; [|intro] end
    | match goal with H : context [keeps_cursor (with_lock _)] |- keeps_cursor (with_lock _) => apply H end
    | match goal with H : context [keeps_cursor (retM _)] |- _ => apply H end
    | match goal with H : context [keeps_cursor (raiseM _)] |- _ => apply H end
    | match goal with H : context [keeps_cursor (liftM _)] |- _ => apply H end
    | assumption
    | match goal with H : context [keeps_cursor (read _ _)] |- keeps_cursor (read _ _) => apply H end
    | match goal with |- keeps_cursor (match ?x with _ => _ end) => destruct x end
    | match goal with |- keeps_cursor (if ?x then _ else _) => destruct x end ].
  assert (KR : forall n ignore strict, keeps_cursor (read d (MkRA n (Some true) ignore strict))).
  { intros. unfold read, read_body, read_many, move_cursor. cbn [a_peek dflt]. keeps. }
  split; [exact KR|]. split; [|split; [|split]].
  - intros stopped r Hp. unfold next_dunder, run, bindM at 1, read_for_next, bindM at 1, getM.
    rewrite Hp. specialize (KR (Some (rk_n r)) (Some true) (Some (rk_strict r)) r). unfold run in KR.
    destruct (read d _ r) as [[t r1] [v|e]]; cbn in *; [|assumption]. subst. now destruct (_ && _).
  - intros g Hg. unfold range. apply KB; [assumption|]. intro r0. cbn zeta. apply KB.
    + apply KL. unfold range_body. keeps. 
    + rewrite Hg. intros [m|]; keeps.
  - intros. unfold tail, tail_body, move_cursor. keeps.
  - unfold head, move_cursor. keeps.
Qed.
Print Assumptions C24_peek_keeps_cursor.
(** ... and peek does not change what is returned (for range: when something is in range). *)
Theorem C24_peek_same_value :
  forall P, total_family P -> forall d, buffer_in P d -> forall r, cursor_in P r ->
    (forall n ignore strict peek,
       snd (run (read d (MkRA n peek ignore strict)) r) = snd (run (read d (MkRA n (Some true) ignore strict)) r)) /\
    (forall peek ignore only_new,
       snd (run (tail d peek ignore only_new) r) = snd (run (tail d true ignore only_new) r)) /\
    (forall peek, snd (run (head d peek) r) = snd (run (head d true) r)) /\
    (forall start stop step ignore only_new start_le stop_ge,
       let g peek := MkRG start stop step peek ignore only_new start_le stop_ge in
       P start -> P stop -> range_hits (sd_key d) r (sd_list d) (g true) <> [] ->
       snd (run (range d (g false)) r) = snd (run (range d (g true)) r)).
Proof.
  intros P F d BI r H. pose proof (buffer_bok P d BI) as B. split; [|split; [|split]].
  - intros. rewrite !(read_closed P F d B) by assumption. cbn [a_n a_peek a_ignore a_strict].
    unfold read_result. destruct (unseen _ _ _); [reflexivity|]. destruct (Z.ltb _ _); [|reflexivity].
    now destruct (_ && _).
  - intros. rewrite !(tail_closed P F d B) by assumption. unfold tail_result. now destruct (last_opt _).
  - intros. rewrite !(head_closed P d B). unfold head_result. now destruct (sd_items d).
  - intros start stop step ignore only_new start_le stop_ge g Pa Po Hne.
    assert (HU : only_new = false \/ unseen (sd_key d) r (sd_items d) <> []).
    { destruct only_new; [right|now left]. intro E. apply Hne. unfold range_hits. cbn [g_only_new g].
      apply filter_none. apply Forall_forall. intros x Hx.
      destruct (is_unseen (sd_key d) r x) eqn:EU; [|reflexivity].
      assert (In x (unseen (sd_key d) r (sd_items d))) by (apply filter_In; auto). now rewrite E in H0. }
    assert (Hc : forall p, sd_key d PNone = Raise TypeError \/ dflt (g_ignore (g p)) (rk_ignore r) = false \/
        g_only_new (g p) = false \/ unseen (sd_key d) r (sd_items d) <> []) by (intros; cbn; tauto).
    rewrite !(range_closed P F d B) by (auto || apply Hc).
    unfold range_result. cbn [g g_only_new g_stop_ge g_stop g_step g_peek g_ignore].
    change (range_hits (sd_key d) r (sd_items d) (MkRG start stop step false ignore only_new start_le stop_ge))
      with (range_hits (sd_key d) r (sd_items d) (g true)).
    change (range_hits (sd_key d) r (sd_items d) (MkRG start stop step true ignore only_new start_le stop_ge))
      with (range_hits (sd_key d) r (sd_items d) (g true)).
    destruct (only_new && _); [reflexivity|]. destruct (stop_ge && _); [reflexivity|].
    destruct (bad_step step) eqn:Bs; [reflexivity|].
    change (sd_list d) with (sd_items d) in Hne.
    destruct (range_hits _ _ _ _) as [|x m] eqn:EH; [easy|].
    assert (exists y q, stepped step (x :: m) = y :: q) as (y & q & ->); [|reflexivity].
    destruct step as [s|]; cbn [stepped]; [|eauto].
    unfold every_nth. cbn [length seq combine filter fst]. rewrite Nat.mod_0_l.
    + cbn. eauto.
    + cbn in Bs. apply Z.leb_gt in Bs. lia.
Qed.
Print Assumptions C24_peek_same_value.
Example C24_nonvacuous :
  run (read buf (MkRA (Some 2%Z) (Some true) None None)) rd1 = (rd1, Ok (VList [row 2 20; row 4 40])) /\
  snd (run (read buf (MkRA (Some 2%Z) None None None)) rd1) = Ok (VList [row 2 20; row 4 40]) /\
  range_hits fst_key rd1 (sd_list buf) (MkRG (PInt 3) (PInt 9) None true None true true false) =
    [row 2 20; row 4 40; row 7 70].
Proof. vm_compute. repeat split. Qed.

(** ** C25: defaults *)
Theorem C25_reader_defaults_partial :
  forall d r n peek ignore strict,
    run (read d (MkRA n peek ignore strict)) r =
    run (read d (MkRA (Some (match n with Some v => v | None => rk_n r end)) peek
                      (Some (match ignore with Some v => v | None => rk_ignore r end))
                      (Some (match strict with Some v => v | None => rk_strict r end)))) r /\
    (forall g, run (range d g) r =
       run (range d (MkRG (g_start g) (g_stop g) (g_step g) (g_peek g)
                          (Some (match g_ignore g with Some v => v | None => rk_ignore r end))
                          (g_only_new g) (g_start_le g) (g_stop_ge g))) r) /\
    (* next() passes all four defaults, with ignore_no_item_found forced *)
    run (read_for_next d) r =
    run (read d (MkRA (Some (rk_n r)) (Some (rk_peek r)) (Some true) (Some (rk_strict r)))) r.
Proof.
  intros d r n peek ignore strict. split; [|split].
  - unfold read. rewrite !run_get. reflexivity.
  - intro g. unfold range. rewrite !run_get. reflexivity.
  - unfold read_for_next. now rewrite run_get.
Qed.
Print Assumptions C25_reader_defaults_partial.
(** The constructor's [peek] is not a default of read(): a reader made with peek=True moves
    its cursor when read() is called without arguments. *)
Theorem C25_peek_default_refuted :
  exists d r r', buffer_in is_int d /\ r = mk_breader 1 true false false /\
    run (read d noargs) r = (r', Ok (VItem (row 2 20))) /\ r_last_item r' = row 2 20 /\ r_last_item r = PNone.
Proof.
  exists buf, (mk_breader 1 true false false). eexists. split; [apply buf_in|]. vm_compute. repeat split.
Qed.
Print Assumptions C25_peek_default_refuted.

(** ** C26 *)
Theorem C26_read_n :
  forall P, total_family P -> forall d, buffer_in P d -> forall r, cursor_in P r ->
  forall a, dflt (a_strict a) (rk_strict r) = false ->
  let n := dflt (a_n a) (rk_n r) in
  let peek := dflt (a_peek a) false in
  match unseen (sd_key d) r (sd_list d) with
  | [] => run (read d a) r = (r, if dflt (a_ignore a) (rk_ignore r) then Ok VNone else Raise ValueError)
  | x :: _ =>
      ((n <= 1)%Z -> run (read d a) r = (if peek then r else cursor_to (sd_key d) x r, Ok (VItem x))) /\
      ((1 < n)%Z ->
         let next_n := firstn (Z.to_nat n) (unseen (sd_key d) r (sd_list d)) in
         run (read d a) r = (if peek then r else cursor_to (sd_key d) (last next_n PNone) r, Ok (VList next_n)))
  end.
Proof.
  intros P F d BI r H a Hs n peek. pose proof (buffer_bok P d BI) as B.
  rewrite (read_closed P F d B) by assumption. unfold read_result. rewrite Hs. fold n peek.
  change (sd_list d) with (sd_items d).
  destruct (unseen _ _ _) as [|x m] eqn:EU; [reflexivity|]. split; intro L.
  - destruct (Z.ltb_spec 1 n); [lia|]. reflexivity.
  - destruct (Z.ltb_spec 1 n); [|lia]. cbn [andb]. cbn zeta.
    unfold moved. destruct (last_opt (firstn (Z.to_nat n) (x :: m))) as [y|] eqn:E.
    + apply last_opt_some in E as (q & ->). now rewrite last_last.
    + apply last_opt_none in E. destruct (Z.to_nat n) eqn:Q; [lia|discriminate].
Qed.
Print Assumptions C26_read_n.
Example C26_nonvacuous :
  run (read buf (MkRA (Some 5%Z) None None None)) rd1 =
    (cursor_to fst_key (row 7 70) rd1, Ok (VList [row 2 20; row 4 40; row 7 70])) /\
  run (read buf (MkRA (Some (-3)%Z) None None None)) rd1 = (cursor_to fst_key (row 2 20) rd1, Ok (VItem (row 2 20))).
Proof. vm_compute. repeat split. Qed.

(** ** C27: strict_n. What holds: all n or nothing, cursor unchanged on failure, success whenever
    MORE than n unread items are buffered. *)
Theorem C27_strict_n_partial :
  forall P, total_family P -> forall d, buffer_in P d -> forall r, cursor_in P r ->
  forall a, dflt (a_strict a) (rk_strict r) = true -> (1 < dflt (a_n a) (rk_n r))%Z ->
  let n := Z.to_nat (dflt (a_n a) (rk_n r)) in
  let U := unseen (sd_key d) r (sd_list d) in
  (U = [] /\ run (read d a) r = (r, if dflt (a_ignore a) (rk_ignore r) then Ok VNone else Raise ValueError)) \/
  (U <> [] /\ length U <= n /\ run (read d a) r = (r, Raise ValueError)) \/
  (n < length U /\ snd (run (read d a) r) = Ok (VList (firstn n U)) /\ length (firstn n U) = n).
Proof.
  intros P F d BI r H a Hs Hn n U. pose proof (buffer_bok P d BI) as B.
  rewrite (read_closed P F d B) by assumption. unfold read_result. rewrite Hs.
  destruct (Z.ltb_spec 1 (dflt (a_n a) (rk_n r))); [|lia]. cbn [andb].
  subst U n. change (sd_list d) with (sd_items d).
  destruct (unseen (sd_key d) r (sd_items d)) as [|x m] eqn:EU.
  - left. split; reflexivity.
  - right. destruct (Z.leb_spec (Z.of_nat (length (x :: m))) (dflt (a_n a) (rk_n r))).
    + left. split; [discriminate|]. split; [lia|reflexivity].
    + right. split; [lia|]. split; [reflexivity|]. rewrite firstn_length. lia.
Qed.
Print Assumptions C27_strict_n_partial.
(** Exactly n unread items are buffered, and read(n, strict_n=True) still raises. *)
Theorem C27_strict_n_refuted :
  exists d r, buffer_in is_int d /\ fresh r /\ length (unseen (sd_key d) r (sd_list d)) = 3 /\
    run (read d (MkRA (Some 3%Z) None None (Some true))) r = (r, Raise ValueError) /\
    snd (run (read d (MkRA (Some 3%Z) None None (Some false))) r) = Ok (VList [row 2 20; row 4 40; row 7 70]).
Proof. exists buf, rd0. split; [apply buf_in|]. vm_compute. repeat split. Qed.
Print Assumptions C27_strict_n_refuted.
(** ... also when the caller asked for None instead of an exception. *)
Theorem C27_strict_n_ignores_ignore_refuted :
  exists d r, buffer_in is_int d /\ fresh r /\
    run (read d (MkRA (Some 5%Z) None (Some true) (Some true))) r = (r, Raise ValueError).
Proof. exists buf, rd0. split; [apply buf_in|]. vm_compute. repeat split. Qed.
Print Assumptions C27_strict_n_ignores_ignore_refuted.

(** ** C28: range *)
Definition plain (start stop : pyval) (step : option Z) (peek : bool) (ignore : option bool) : rgargs :=
  MkRG start stop step peek ignore false false false.
Theorem C28_range :
  forall P, total_family P -> forall d, buffer_in P d -> forall r, cursor_in P r ->
  forall start stop, P start -> P stop -> forall step peek ignore,
  let hits := filter (key_sat (sd_key d) (fun k => leb start k && leb k stop)) (sd_list d) in
  let out := match step with None => hits | Some s => every_nth (Z.to_nat s) hits end in
  run (range d (plain start stop step peek ignore)) r =
  if match step with None => false | Some s => Z.leb s 0 end then (r, Raise ValueError)
  else match out with
       | [] => (r, if peek then Ok (VList [])
                   else if dflt ignore (rk_ignore r) then Ok VNone else Raise IndexError)
       | _ => (if peek then r else cursor_to (sd_key d) (last out PNone) r, Ok (VList out))
       end.
Proof.
  intros P F d BI r H start stop Pa Po step peek ignore hits out. pose proof (buffer_bok P d BI) as B.
  rewrite (range_closed P F d B) by (auto; cbn; auto). unfold range_result, plain. cbn [g_only_new g_stop_ge g_step g_peek g_ignore andb].
  change (match step with None => false | Some s => Z.leb s 0 end) with (bad_step step).
  destruct (bad_step step); [reflexivity|]. cbn zeta.
  assert (range_hits (sd_key d) r (sd_items d) (MkRG start stop step peek ignore false false false) = hits) as ->.
  { unfold range_hits, hits. apply filter_ext_in. intros x Hx.
    unfold key_sat, above_start, below_stop. cbn. destruct (sd_key d x); [|reflexivity]. now rewrite !orb_false_r. }
  change (stepped step hits) with out.
  destruct peek; [now destruct out|].
  destruct out as [|x m] eqn:E; [reflexivity|]. rewrite <- E. unfold moved.
  destruct (last_opt out) as [y|] eqn:El.
  - apply last_opt_some in El as (q & ->). now rewrite last_last.
  - apply last_opt_none in El. congruence.
Qed.
Print Assumptions C28_range.
Example C28_nonvacuous :
  run (range buf (plain (PInt 2) (PInt 7) (Some 2%Z) false None)) rd1 =
    (cursor_to fst_key (row 7 70) rd1, Ok (VList [row 2 20; row 7 70])) /\
  snd (run (range buf (plain (PInt 3) (PInt 6) None false None)) rd1) = Ok (VList [row 4 40]).
Proof. vm_compute. repeat split. Qed.

(** ** C29: only_new_items *)
Theorem C29_only_new_items :
  forall P, total_family P -> forall d, buffer_in P d -> forall r, cursor_in P r ->
  forall g, g_only_new g = true -> P (g_start g) -> P (g_stop g) ->
  (forall k, sd_key d PNone = Ok k -> py_gt (g_start g) k = Raise TypeError) ->
  forall r' out, run (range d g) r = (r', Ok (VList out)) ->
  let key := sd_key d in
  let l := sd_list d in
  (forall x, In x out -> In x l /\
     exists k, key x = Ok k /\ (fresh r \/ ltb (r_last_key r) k = true)) /\
  (g_step g = None -> forall x k, In x l -> key x = Ok k -> (fresh r \/ ltb (r_last_key r) k = true) ->
     above_start key l (g_start g) (g_start_le g) k = true ->
     below_stop key l (g_stop g) (g_stop_ge g) k = true -> In x out) /\
  (g_step g = None -> out = range_hits key r l g).
Proof.
  intros P F d BI r H g Eon Pa Po Hk r' out E key l. pose proof (buffer_bok P d BI) as B.
  assert (Hout : out = stepped (g_step g) (range_hits key r l g)).
  { assert (D : (sd_key d PNone = Raise TypeError \/ dflt (g_ignore g) (rk_ignore r) = false \/ g_only_new g = false \/
      unseen (sd_key d) r (sd_items d) <> []) \/
      (unseen (sd_key d) r (sd_items d) = [] /\ dflt (g_ignore g) (rk_ignore r) = true)).
    { destruct (unseen (sd_key d) r (sd_items d)); [|left; right; right; right; discriminate].
      destruct (dflt (g_ignore g) (rk_ignore r)); auto. }
    destruct D as [D|[D1 D2]].
    - rewrite (range_closed P F d B) in E by assumption. unfold range_result in E. fold key in E.
      change (sd_items d) with l in E. destruct (g_only_new g && _); [injection E as _ E; now destruct (dflt _ _)|].
      destruct (g_stop_ge g && _); [injection E as _ E; now destruct (dflt _ _)|].
      destruct (bad_step _); [discriminate|]. destruct (g_peek g); [now injection E|].
      destruct (stepped _ _) eqn:Es; injection E as _ E; [now destruct (dflt _ _)|]. congruence.
    - destruct H as [[H1 H2]|H].
      + assert (Hl : sd_items d = []) by (rewrite <- D1; symmetry; apply unseen_all; now rewrite H2).
        (* nothing buffered: whatever range returns is empty *)
        assert (Hun : unseen (sd_key d) r (sd_items d) = []) by assumption.
        assert (R : run (range d g) r = run (range d (MkRG (g_start g) (g_stop g) (g_step g) (g_peek g) (g_ignore g) false (g_start_le g) (g_stop_ge g))) r).
        { unfold range. rewrite !run_get. cbn zeta. cbn [g_ignore g_peek]. unfold range_body.
          unfold run, bindM, with_lock, getM. cbn [g_only_new g_start g_start_le g_stop_ge g_stop g_step]. rewrite H2. cbn [is_none negb].
          rewrite andb_false_r. cbn [andb]. reflexivity. }
        rewrite R in E. rewrite (range_closed P F d B) in E by (cbn; auto; now left).
        unfold range_result in E. cbn [g_only_new g_stop_ge g_stop g_step g_peek g_ignore andb] in E.
        assert (Hh : forall g', range_hits (sd_key d) r (sd_items d) g' = []) by (intro; unfold range_hits; now rewrite Hl).
        rewrite Hh in E. subst key l. change (sd_list d) with (sd_items d). rewrite Hh.
        destruct (g_stop_ge g && _); [injection E as _ E; now destruct (dflt _ _)|].
        destruct (bad_step _); [discriminate|]. destruct (g_peek g); [now injection E|].
        destruct (stepped (g_step g) []); injection E as _ E; [now destruct (dflt _ _)|]. congruence.
      + rewrite (range_none_key P F d B g r) in E by assumption.
        destruct (sd_key d PNone) as [|[]]; discriminate. }
  assert (Hst : g_step g = None -> out = range_hits key r l g).
  { intro Hs. now rewrite Hout, Hs. }
  assert (Hin : forall x k, In x l -> key x = Ok k -> is_unseen key r x = true <-> (fresh r \/ ltb (r_last_key r) k = true)).
  { intros y ky Hy Ey. unfold is_unseen, key_sat. rewrite Ey. destruct H as [[H1 H2]|H].
    - rewrite H2. cbn. unfold fresh. split; auto.
    - rewrite (family_not_none P _ F H). cbn [orb]. split; [auto|]. intros [[_ H2]|]; auto.
      rewrite H2 in H. now apply family_no_none in H. }
  split; [|split; [|exact Hst]].
  - intros x Hx. assert (Hx' : In x (range_hits key r l g)).
    { rewrite Hout in Hx. unfold stepped, every_nth in Hx. destruct (g_step g); [|assumption].
      apply in_map_iff in Hx as ([i y] & <- & Hx). apply filter_In in Hx as [Hx _]. now apply in_combine_r in Hx. }
    unfold range_hits in Hx'. apply filter_In in Hx' as [Hl Hc]. split; [assumption|].
    destruct (key_in P d B x Hl) as (k & Ek & _ & _). exists k. split; [assumption|].
    apply (Hin x k Hl Ek). rewrite Eon in Hc. cbn in Hc. apply andb_true_iff in Hc as [Hc _].
    now apply andb_true_iff in Hc as [Hc _].
  - intros Hs x k Hx Ek Ha Hab Hbe. rewrite (Hst Hs). apply filter_In. split; [assumption|].
    apply (Hin x k Hx Ek) in Ha. rewrite Ha. rewrite orb_true_r. unfold key_sat. rewrite Ek. now rewrite Hab, Hbe.
Qed.
Print Assumptions C29_only_new_items.
Example C29_nonvacuous :
  let g := MkRG (PInt 3) (PInt 5) None false None true true true in
  (forall k, sd_key buf PNone = Ok k -> py_gt (g_start g) k = Raise TypeError) /\
  snd (run (range buf g) rd4) = Ok (VList [row 7 70]) /\
  snd (run (range buf g) rd1) = Ok (VList [row 2 20; row 4 40; row 7 70]) /\
  snd (run (range buf g) rd7) = Raise ValueError.
Proof. split; [discriminate|]. vm_compute. repeat split. Qed.

(** ** C30: start_le and stop_ge *)
Theorem C30_rounding :
  forall P, total_family P -> forall d, buffer_in P d -> forall r, cursor_in P r ->
  forall start stop, P start -> P stop -> forall step peek ignore start_le stop_ge,
  let key := sd_key d in let l := sd_list d in
  let call := run (range d (MkRG start stop step peek ignore false start_le stop_ge)) r in
  let lo := if start_le then match floor_key key l start with Some f => f | None => start end else start in
  if stop_ge then
    match ceil_key key l stop with
    | Some c => call = run (range d (plain lo c step peek ignore)) r
    | None => call = (r, if dflt ignore (rk_ignore r) then Ok VNone else Raise ValueError)
    end
  else call = run (range d (plain lo stop step peek ignore)) r.
Proof.
  intros P F d BI r H start stop Pa Po step peek ignore start_le stop_ge key l call lo.
  pose proof (buffer_bok P d BI) as B.
  assert (Plo : P lo).
  { subst lo key l. destruct start_le; [|assumption].
    destruct (floor_cases P F d B start Pa) as [(x & f & _ & _ & Pf & E & _)|(_ & E & _)];
      change (sd_list d) with (sd_items d); now rewrite E. }
  assert (G : forall hi, P hi ->
    (stop_ge = true -> exists c, ceil_key key l stop = Some c) ->
    (forall x k, In x l -> key x = Ok k -> leb k hi = below_stop key l stop stop_ge k) ->
    call = run (range d (plain lo hi step peek ignore)) r).
  { intros hi Phi Hc Hhi. subst call. rewrite !(range_closed P F d B) by (auto; cbn; auto).
    unfold range_result, plain. cbn [g_only_new g_stop_ge g_stop g_step g_peek g_ignore andb].
    assert (EH : range_hits (sd_key d) r (sd_items d) (MkRG start stop step peek ignore false start_le stop_ge) =
      range_hits (sd_key d) r (sd_items d) (MkRG lo hi step peek ignore false false false)).
    { unfold range_hits. apply filter_ext_in. intros x Hx. destruct (key_in P d B x Hx) as (k & Ek & _ & Pk).
      unfold key_sat. cbn [g_only_new g_start g_start_le g_stop g_stop_ge negb orb andb]. rewrite Ek.
      specialize (Hhi x k Hx Ek). unfold key, l, sd_list in Hhi. rewrite <- Hhi. unfold above_start at 2, below_stop. cbn [andb]. rewrite !orb_false_r. f_equal.
      unfold above_start. subst lo. destruct start_le; cbn [andb]; [|now rewrite orb_false_r].
      destruct (floor_cases P F d B start Pa) as [(y & f & _ & _ & Pf & E & L & _)|(_ & E & _)];
        change (sd_list d) with (sd_items d) in *; subst key l; rewrite E.
      - destruct (leb start k) eqn:E1; [|reflexivity]. cbn. symmetry. eapply leb_trans; eauto.
      - now rewrite orb_false_r. }
    rewrite EH. destruct stop_ge; [|reflexivity].
    destruct (Hc eq_refl) as (c & Ec). subst key l. change (sd_list d) with (sd_items d) in Ec. rewrite Ec. reflexivity. }
  destruct stop_ge.
  - destruct (ceil_cases P F d B stop Po) as [(x & c & _ & _ & Pc & E & L & Hmin)|(_ & E & _)];
      subst key l; change (sd_list d) with (sd_items d) in *; rewrite E in *.
    + apply G; [assumption|eauto|]. intros y k Hy Ek. unfold below_stop. rewrite E. cbn [andb].
      destruct (leb k stop) eqn:E1; [|reflexivity]. cbn. eapply leb_trans; eauto.
    + subst call. rewrite (range_closed P F d B) by (auto; cbn; auto). unfold range_result. cbn [g_only_new g_stop_ge g_stop g_ignore andb].
      now rewrite E.
  - apply G; [assumption|discriminate|]. intros y k Hy Ek. unfold below_stop. cbn. now rewrite orb_false_r.
Qed.
Print Assumptions C30_rounding.
Example C30_nonvacuous :
  floor_key fst_key (sd_list buf) (PInt 3) = Some (PInt 2) /\ ceil_key fst_key (sd_list buf) (PInt 5) = Some (PInt 7) /\
  snd (run (range buf (MkRG (PInt 3) (PInt 5) None false None false true true)) rd0) = Ok (VList [row 2 20; row 4 40; row 7 70]) /\
  snd (run (range buf (MkRG (PInt 3) (PInt 8) None false None false true true)) rd0) = Raise ValueError.
Proof. vm_compute. repeat split. Qed.

(** ** C31: tail and head *)
Theorem C31_tail_head :
  forall P, total_family P -> forall d, buffer_in P d -> forall r, cursor_in P r ->
  forall first last_, hd_error (sd_list d) = Some first -> hd_error (rev (sd_list d)) = Some last_ ->
  forall peek ignore : bool,
  let key := sd_key d in
  let to x := if peek then r else cursor_to key x r in
  run (head d peek) r = (to first, Ok (VItem first)) /\
  run (tail d peek ignore false) r = (to last_, Ok (VItem last_)) /\
  (forall k, key last_ = Ok k -> fresh r \/ ltb (r_last_key r) k = true ->
     run (tail d peek ignore true) r = (to last_, Ok (VItem last_))) /\
  (forall k, key last_ = Ok k -> ~ (fresh r \/ ltb (r_last_key r) k = true) ->
     run (tail d peek ignore true) r = (r, if ignore then Ok VNone else Raise ValueError)).
Proof.
  intros P F d BI r H first last_ H1 H2 peek ignore key to. pose proof (buffer_bok P d BI) as B.
  assert (HL : last_opt (sd_items d) = Some last_).
  { unfold last_opt. unfold sd_list in H2. destruct (rev (sd_items d)); [discriminate|]. exact H2. }
  assert (HU : forall k, key last_ = Ok k ->
     last_opt (unseen key r (sd_items d)) = if is_unseen key r last_ then Some last_ else None).
  { intros k Ek. pose proof HL as HL'. apply last_opt_some in HL' as (m & Em). unfold unseen. rewrite Em, filter_app. cbn.
    destruct (is_unseen key r last_) eqn:E; [apply last_opt_snoc|]. rewrite app_nil_r. apply last_opt_none.
    apply filter_none. apply Forall_forall. intros x Hx.
    assert (Hin : In x (sd_items d)) by (rewrite Em; apply in_app_iff; auto).
    destruct (key_in P d B x Hin) as (kx & Ex & _ & Px).
    destruct H as [[Hf1 Hf2]|H].
    - unfold is_unseen in E. rewrite Hf2 in E. discriminate.
    - unfold is_unseen in *. rewrite (family_not_none P _ F H) in *. cbn [orb] in *. unfold key_sat in *. rewrite Ek in E. fold key in Ex. rewrite Ex.
      destruct (ltb (r_last_key r) kx) eqn:E2; [|reflexivity].
      apply In_nth_error in Hx as (i & Hi). assert (i < length m) by (apply nth_error_Some; congruence).
      rewrite <- E. symmetry. eapply ltb_leb_trans; [exact E2|].
      apply (key_order P F d B i (length m) x last_); auto; rewrite ?Em.
      + rewrite nth_error_app1; auto.
      + rewrite nth_error_app2, Nat.sub_diag by lia. reflexivity.
      + lia. }
  assert (Hin : forall k, key last_ = Ok k -> is_unseen key r last_ = true <-> (fresh r \/ ltb (r_last_key r) k = true)).
  { intros k Ek. unfold is_unseen, key_sat. rewrite Ek. destruct H as [[Hf1 Hf2]|H].
    - rewrite Hf2. cbn. unfold fresh. split; auto.
    - rewrite (family_not_none P _ F H). cbn [orb]. split; [auto|]. intros [[_ Hf2]|]; auto.
      rewrite Hf2 in H. now apply family_no_none in H. }
  split; [|split; [|split]].
  - rewrite (head_closed P d B). unfold head_result. unfold sd_list in H1. destruct (sd_items d); [discriminate|].
    injection H1 as ->. reflexivity.
  - rewrite (tail_closed P F d B) by assumption. unfold tail_result. now rewrite HL.
  - intros k Ek Hac. apply (Hin k Ek) in Hac. rewrite (tail_closed P F d B) by assumption. unfold tail_result. fold key.
    rewrite (HU k Ek), Hac. reflexivity.
  - intros k Ek Hac. rewrite (tail_closed P F d B) by assumption. unfold tail_result. fold key.
    rewrite (HU k Ek). destruct (is_unseen key r last_) eqn:E; [|reflexivity].
    exfalso. apply Hac. now apply (Hin k Ek).
Qed.
Print Assumptions C31_tail_head.
Example C31_nonvacuous : hd_error (sd_list buf) = Some (row 2 20) /\ hd_error (rev (sd_list buf)) = Some (row 7 70) /\
  snd (run (tail buf false true true) rd7) = Ok VNone /\ snd (run (tail buf false true true) rd4) = Ok (VItem (row 7 70)).
Proof. vm_compute. repeat split. Qed.

(** ** C32: nothing to return *)
Theorem C32_nothing_to_return_partial :
  forall P, total_family P -> forall d, buffer_in P d -> forall r, cursor_in P r ->
  let key := sd_key d in
  let none_or e ignore := if ignore : bool then Ok VNone else Raise e in
  (* nothing new: read, tail(only_new_items), range(only_new_items) *)
  (unseen key r (sd_list d) = [] ->
     (forall a, run (read d a) r = (r, none_or ValueError (dflt (a_ignore a) (rk_ignore r)))) /\
     (forall peek ignore, run (tail d peek ignore true) r = (r, none_or ValueError ignore)) /\
     (forall g, g_only_new g = true -> ~ fresh r -> key PNone = Raise TypeError -> P (g_start g) -> P (g_stop g) ->
        run (range d g) r = (r, none_or ValueError (dflt (g_ignore g) (rk_ignore r))))) /\
  (* empty buffer: tail and head raise IndexError, not ValueError *)
  (sd_list d = [] ->
     (forall peek ignore, run (tail d peek ignore false) r = (r, none_or IndexError ignore)) /\
     (forall peek, run (head d peek) r = (r, Raise IndexError))) /\
  (* nothing in range: IndexError, not ValueError; with peek an empty list *)
  (forall g, g_only_new g = false -> g_stop_ge g = false -> bad_step (g_step g) = false ->
     P (g_start g) -> P (g_stop g) -> range_hits key r (sd_list d) g = [] ->
     run (range d g) r = (r, if g_peek g then Ok (VList [])
                             else none_or IndexError (dflt (g_ignore g) (rk_ignore r)))).
Proof.
  intros P F d BI r H key none_or. pose proof (buffer_bok P d BI) as B. split; [|split].
  - intro EU. split; [|split].
    + intro a. rewrite (read_closed P F d B) by assumption. unfold read_result. change (sd_items d) with (sd_list d).
      fold key. now rewrite EU.
    + intros peek ignore. rewrite (tail_closed P F d B) by assumption. unfold tail_result. change (sd_items d) with (sd_list d).
      fold key. now rewrite EU.
    + intros g Eon Hf Hk Pa Po. rewrite (range_closed P F d B) by (auto; cbn; auto). unfold range_result. rewrite Eon.
      change (sd_items d) with (sd_list d). fold key. rewrite EU. cbn [andb].
      destruct H as [H|H]; [easy|]. now rewrite (family_not_none P _ F H).
  - intro EL. split; intros.
    + rewrite (tail_closed P F d B) by assumption. unfold tail_result. change (sd_items d) with (sd_list d). now rewrite EL.
    + rewrite (head_closed P d B). unfold head_result. change (sd_items d) with (sd_list d). now rewrite EL.
  - intros g Eon Esg Hb Pa Po Hh. rewrite (range_closed P F d B) by (auto; cbn; auto). unfold range_result.
    rewrite Eon, Esg, Hb. cbn [andb]. change (sd_items d) with (sd_list d). fold key. rewrite Hh.
    assert (stepped (g_step g) [] = []) as -> by (destruct (g_step g); reflexivity).
    destruct (g_peek g); reflexivity.
Qed.
Print Assumptions C32_nothing_to_return_partial.
Example C32_nonvacuous : unseen fst_key rd7 (sd_list buf) = [] /\ ~ fresh rd7 /\ fst_key PNone = Raise TypeError /\
  buffer_in is_int empty_buf /\ sd_list empty_buf = [] /\ range_hits fst_key rd7 (sd_list buf) (plain (PInt 5) (PInt 6) None false None) = [].
Proof. split; [reflexivity|]. split; [intros [H _]; discriminate|]. split; [reflexivity|]. split; [apply empty_buf_in|]. vm_compute. auto. Qed.
(** tail() and range() on an empty buffer raise IndexError although the documentation says
    ValueError. *)
Theorem C32_index_error_refuted :
  exists d r, buffer_in is_int d /\ fresh r /\
    run (tail d false false false) r = (r, Raise IndexError) /\
    run (range d (plain (PInt 0) (PInt 9) None false (Some false))) r = (r, Raise IndexError).
Proof. exists empty_buf, rd0. split; [apply empty_buf_in|]. vm_compute. repeat split. Qed.
Print Assumptions C32_index_error_refuted.
(** With the identity key (items are their own keys) range(only_new_items=True,
    ignore_no_item_found=True) raises TypeError instead of returning None. *)
Definition int_buf : sdeque := MkSD [PInt 1; PInt 2] [PInt 1; PInt 2] (fun x => Ok x) (Some 3) (Some 3%Z).
Theorem C32_identity_key_refuted :
  exists d r, buffer_in is_int d /\ cursor_in is_int r /\ unseen (sd_key d) r (sd_list d) = [] /\
    run (range d (MkRG (PInt 0) (PInt 9) None false (Some true) true false false)) r = (r, Raise TypeError).
Proof.
  exists int_buf, (MkR (PInt 2) (PInt 2) 1 false false false). split.
  { exists (fun x => Ok x), (Some 3%Z), (MkSD [] [] (fun x => Ok x) (Some 3) (Some 3%Z)), [OAppend (PInt 1); OAppend (PInt 2)].
    split; [reflexivity|]. split; [repeat constructor|]. split; [|reflexivity].
    intros x k [H|[H|[]]] E; injection H as <-; injection E as <-; eexists; reflexivity. }
  split; [right; eexists; reflexivity|]. vm_compute. repeat split.
Qed.
Print Assumptions C32_identity_key_refuted.

(** ** C33: next(reader) *)
Theorem C33_next_protocol :
  forall P, total_family P -> forall d, buffer_in P d -> ~ In PNone (sd_list d) ->
  forall r, cursor_in P r -> forall stopped,
  let U := unseen (sd_key d) r (sd_list d) in
  let result := run (next_dunder d stopped) r in
  (U = [] -> result = (r, if stopped then Raise StopIteration else Ok VNone)) /\
  (U <> [] -> (rk_n r <= 1)%Z -> snd result = Ok (VItem (hd PNone U))) /\
  (U <> [] -> (1 < rk_n r)%Z -> rk_strict r = false -> snd result = Ok (VList (firstn (Z.to_nat (rk_n r)) U))) /\
  (snd result = Raise StopIteration <-> U = [] /\ stopped = true) /\
  (snd result = Ok VNone <-> U = [] /\ stopped = false).
Proof.
  intros P F d BI N r H stopped U result. pose proof (buffer_bok P d BI) as B.
  subst result. rewrite (next_closed P F) by assumption. change (sd_items d) with (sd_list d). fold U.
  pose proof (read_result_some d (rk_n r) (rk_peek r) (rk_strict r) r) as HS.
  change (sd_items d) with (sd_list d) in HS. fold U in HS.
  assert (HR : forall e, U <> [] -> snd (read_result d (rk_n r) (rk_peek r) true (rk_strict r) r) = Raise e -> e = ValueError).
  { intros e. unfold read_result. change (sd_items d) with (sd_list d). fold U. destruct U; [easy|]. intros _.
    destruct (Z.ltb _ _); [destruct (_ && _)|]; cbn; congruence. }
  assert (HV : U <> [] -> snd (read_result d (rk_n r) (rk_peek r) true (rk_strict r) r) =
     if Z.ltb 1 (rk_n r) then if rk_strict r && Z.leb (Z.of_nat (length U)) (rk_n r) then Raise ValueError
       else Ok (VList (firstn (Z.to_nat (rk_n r)) U)) else Ok (VItem (hd PNone U))).
  { unfold read_result. change (sd_items d) with (sd_list d). fold U. destruct U as [|x m]; [easy|]. intros _.
    destruct (Z.ltb _ _); [destruct (_ && _)|]; reflexivity. }
  destruct U as [|x m].
  - split; [reflexivity|]. split; [easy|]. split; [easy|]. destruct stopped; cbn; split; split; try tauto; try discriminate; intros [? ?]; discriminate.
  - specialize (HV ltac:(discriminate)). specialize (HS ltac:(discriminate) N). specialize (fun e => HR e ltac:(discriminate)).
    split; [discriminate|]. split; [|split; [|split]].
    + intros _ L. rewrite HV. destruct (Z.ltb_spec 1 (rk_n r)); [lia|reflexivity].
    + intros _ L Es. rewrite HV, Es. destruct (Z.ltb_spec 1 (rk_n r)); [reflexivity|lia].
    + split; [|intros [? _]; discriminate]. intro E. apply HR in E. discriminate.
    + split; [|intros [? _]; discriminate]. intro E. apply HS in E. discriminate.
Qed.
Print Assumptions C33_next_protocol.
Example C33_nonvacuous : ~ In PNone (sd_list buf) /\
  snd (run (next_dunder buf true) rd4) = Ok (VItem (row 7 70)) /\
  snd (run (next_dunder buf true) rd7) = Raise StopIteration /\ snd (run (next_dunder buf false) rd7) = Ok VNone.
Proof. split; [apply buf_no_none|]. vm_compute. repeat split. Qed.

(** ** C34: iterating a stopped stream. [N] rounds of the loop, [N] larger than the number of
    unread items, always suffice. *)
Theorem C34_for_loop_drains_stopped_stream :
  forall P, total_family P -> forall d, buffer_in P d -> ~ In PNone (sd_list d) ->
  forall r, cursor_in P r -> rk_peek r = false -> rk_strict r = false \/ (rk_n r <= 1)%Z ->
  forall N, length (unseen (sd_key d) r (sd_list d)) < N ->
  exists r' yielded,
    iterate (repeat (d, true, true) N) r = (r', yielded, Some IterReturned) /\
    concat (map items_of yielded) = unseen (sd_key d) r (sd_list d) /\
    unseen (sd_key d) r' (sd_list d) = [] /\
    Forall (fun v => length (items_of v) <= Nat.max 1 (Z.to_nat (rk_n r))) yielded.
Proof.
  exact (fun P F d BI N r H Hp Hs n HL => iterate_drain P F d n r (buffer_bok P d BI) H N Hp Hs HL).
Qed.
Print Assumptions C34_for_loop_drains_stopped_stream.
Example C34_nonvacuous :
  let r := MkR PNone PNone 2 false false false in
  snd (fst (iterate (repeat (buf, true, true) 4) r)) = [VList [row 2 20; row 4 40]; VList [row 7 70]].
Proof. vm_compute. reflexivity. Qed.
(** With strict_n=True and read_size > 1 the loop ends with a ValueError instead, and items are
    never delivered (here: two remaining items, read_size 2). *)
Theorem C71_strict_n_loop_refuted :
  exists d r, buffer_in is_int d /\ length (unseen (sd_key d) r (sd_list d)) = 3 /\
    forall N, snd (iterate (repeat (d, true, true) (S N)) r) = Some (IterRaised ValueError) /\
              snd (fst (iterate (repeat (d, true, true) (S N)) r)) = [].
Proof.
  exists buf, (mk_breader 3 false true false). split; [apply buf_in|]. split; [reflexivity|].
  intro N. cbn [repeat iterate].
  assert (E : run (next_dunder buf true) (mk_breader 3 false true false) = (mk_breader 3 false true false, Raise ValueError)).
  { vm_compute. reflexivity. }
  rewrite E. split; reflexivity.
Qed.
Print Assumptions C71_strict_n_loop_refuted.

(** ** C36: blocking read. Every poll of the loop either finds nothing while the stream runs, or
    finds something, or finds nothing while the stream is stopped. *)
Theorem C36_blocking_read :
  forall P, total_family P -> forall r, cursor_in P r -> forall a,
  forall waiting,
  Forall (fun p => buffer_in P (fst p) /\ unseen (sd_key (fst p)) r (sd_list (fst p)) = [] /\ snd p = false) waiting ->
  (* it keeps waiting, cursor unchanged *)
  read_blocking waiting a r = (r, None) /\
  forall d stopped rest, buffer_in P d -> ~ In PNone (sd_list d) ->
  let polls := waiting ++ (d, stopped) :: rest in
  (* data at this poll: what a non-blocking read returns, never None *)
  (unseen (sd_key d) r (sd_list d) <> [] ->
     exists r' v, read_blocking polls a r = (r', Some v) /\ run (read d a) r = (r', v) /\ v <> Ok VNone) /\
  (* none and stopped: None at this very poll *)
  (unseen (sd_key d) r (sd_list d) = [] -> stopped = true -> read_blocking polls a r = (r, Some (Ok VNone))).
Proof.
  intros P F r H a waiting HW.
  assert (HW' : Forall (fun p => bok P (fst p) /\ unseen (sd_key (fst p)) r (sd_items (fst p)) = [] /\ snd p = false) waiting).
  { eapply Forall_impl; [|exact HW]. cbn. intros p (B & E & S). split; [now apply buffer_bok|auto]. }
  split.
  - rewrite <- (app_nil_r waiting). rewrite (blocking_quiet P F) by assumption. reflexivity.
  - intros d stopped rest BI N polls. pose proof (buffer_bok P d BI) as B. subst polls.
    rewrite (blocking_quiet P F) by assumption. split.
    + intro E. rewrite (blocking_data P F) by assumption. rewrite (read_closed P F d B) by assumption.
      assert (HI : forall ig, read_result d (dflt (a_n a) (rk_n r)) (dflt (a_peek a) false) true (dflt (a_strict a) (rk_strict r)) r
        = read_result d (dflt (a_n a) (rk_n r)) (dflt (a_peek a) false) ig (dflt (a_strict a) (rk_strict r)) r).
      { intro ig. unfold read_result. change (sd_items d) with (sd_list d). now destruct (unseen _ _ _). }
      pose proof (read_result_some d (dflt (a_n a) (rk_n r)) (dflt (a_peek a) false) (dflt (a_strict a) (rk_strict r)) r E N) as HS.
      rewrite (HI (dflt (a_ignore a) (rk_ignore r))). rewrite (HI (dflt (a_ignore a) (rk_ignore r))) in HS. clear HI.
      destruct (read_result _ _ _ _ _ _) as [r' v]. exists r', v. split; [reflexivity|]. split; [reflexivity|].
      intro Ev. cbn [snd] in HS. specialize (HS _ Ev). discriminate.
    + intros E ->. now apply (blocking_stopped P F).
Qed.
Print Assumptions C36_blocking_read.
Example C36_nonvacuous :
  let waiting := [(empty_buf, false); (empty_buf, false)] in
  Forall (fun p => buffer_in is_int (fst p) /\ unseen (sd_key (fst p)) rd1 (sd_list (fst p)) = [] /\ snd p = false) waiting /\
  snd (read_blocking (waiting ++ [(buf, false)]) noargs rd1) = Some (Ok (VItem (row 2 20))) /\
  snd (read_blocking (waiting ++ [(empty_buf, true)]) noargs rd1) = Some (Ok VNone).
Proof.
  split; [|vm_compute; split; reflexivity].
  repeat constructor; apply empty_buf_in.
Qed.
