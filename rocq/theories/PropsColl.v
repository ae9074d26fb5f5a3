(** * SortedCollection, and SortedDeque as a subclass of it: C101, C102 *)
From Coq Require Import List ZArith Bool Arith Lia Sorting.Sorted.
From Verif Require Import PyVal PyLib PyValFacts SortedDequeM SortedCollM Spec SpecDeque ListFacts BisectFacts DequeFacts DequeSearch Families PropsDeque.
Import ListNotations.
Open Scope nat_scope.

(** ** Specification *)
(** The same call on a SortedDeque. *)
Definition on_deque (o : scop) : sdop :=
  match o with
  | CInsert x => OInsert x | CInsertRight x => OInsertRight x | CRemove x => ORemove x
  | CClear => OClear | CCopy => OCopy | CSetKey s k => OSetKey s k | CDelKey => ODelKey
  end.
(** A history of calls on a SortedDeque, with their outcomes. *)
Fixpoint d_run (d : sdeque) (ops : list sdop) : sdeque * list (res unit) :=
  match ops with
  | [] => (d, [])
  | o :: q => let (d1, r) := sd_step d o in let (d2, rs) := d_run d1 q in (d2, r :: rs)
  end.

(** ** The two classes run in lock step *)
Definition sim (c : scoll) (d : sdeque) : Prop := d = MkSD (c_keys c) (c_items c) (c_keyf c) None None.
Lemma index_from_shift x : forall l p s e k, index_from l (p + k) (s + k) (e + k) x = match index_from l p s e x with Ok i => Ok (i + k) | Raise er => Raise er end.
Proof.
  induction l as [|y l IH]; intros p s e k; [reflexivity|]. cbn [index_from].
  assert (E1 : Nat.leb (s + k) (p + k) = Nat.leb s p) by (destruct (Nat.leb_spec (s + k) (p + k)), (Nat.leb_spec s p); auto; lia).
  assert (E2 : Nat.ltb (p + k) (e + k) = Nat.ltb p e) by (destruct (Nat.ltb_spec (p + k) (e + k)), (Nat.ltb_spec p e); auto; lia).
  rewrite E1, E2. destruct (_ && _); [reflexivity|]. exact (IH (S p) s e k).
Qed.
Lemma index_from_none x : forall l p s e, e <= p -> index_from l p s e x = Raise ValueError.
Proof. induction l as [|y l IH]; intros; [reflexivity|]. cbn [index_from]. destruct (Nat.ltb_spec p e); [lia|]. rewrite andb_false_r. apply IH. lia. Qed.
Lemma index_from_skip x : forall l p s e, p <= s -> index_from l p s e x = index_from (skipn (s - p) l) s s e x.
Proof.
  induction l as [|y l IH]; intros p s e L; [now rewrite skipn_nil|]. destruct (Nat.eq_dec p s) as [->|N]; [now rewrite Nat.sub_diag|].
  replace (s - p) with (S (s - S p)) by lia. cbn [skipn index_from]. destruct (Nat.leb_spec s p); [lia|]. cbn [andb]. apply IH. lia.
Qed.
Lemma index_from_firstn x : forall l p s n, s <= p -> index_from (firstn n l) p s (p + length (firstn n l)) x = index_from l p s (p + n) x.
Proof.
  induction l as [|y l IH]; intros p s n L; [now rewrite firstn_nil|]. destruct n as [|n].
  - cbn [firstn length]. rewrite !Nat.add_0_r, !index_from_none by lia. reflexivity.
  - cbn [firstn length index_from]. destruct (Nat.leb_spec s p); [|lia]. rewrite (proj2 (Nat.ltb_lt p _)) by lia. rewrite (proj2 (Nat.ltb_lt p _)) by lia. cbn [andb].
    destruct (same_item y x); [reflexivity|]. replace (p + S (length (firstn n l))) with (S p + length (firstn n l)) by lia. replace (p + S n) with (S p + n) by lia. apply IH. lia.
Qed.
Lemma slice_index l x i j : (let! p := deque_index (slice l i j) x 0 (length (slice l i j)) in Ok (p + i)) = deque_index l x i j.
Proof.
  unfold deque_index, slice. transitivity (index_from (firstn (j - i) (skipn i l)) (0 + i) (0 + i) (length (firstn (j - i) (skipn i l)) + i) x).
  - rewrite index_from_shift. now destruct (index_from _ 0 0 _ x).
  - cbn [Nat.add]. rewrite (Nat.add_comm _ i), index_from_firstn by lia. rewrite (index_from_skip x l 0 i j), Nat.sub_0_r by lia.
    destruct (Nat.le_gt_cases i j); [now replace (i + (j - i)) with j by lia|]. rewrite !index_from_none by lia. reflexivity.
Qed.
Lemma sim_index c d x : sim c d -> c_index c x = sd_index d x.
Proof.
  intros ->. unfold c_index, sd_index. cbn [sd_key sd_keys sd_items]. destruct (c_keyf c x) as [k|]; [|reflexivity]. cbn [bind].
  destruct (bisect_left (c_keys c) k) as [i|]; [|reflexivity]. cbn [bind]. destruct (bisect_right (c_keys c) k) as [j|]; [|reflexivity]. cbn [bind]. apply slice_index.
Qed.
Lemma sim_init it key : match c_init it key, sd_init it key None with Ok c, Ok d => sim c d | Raise e, Raise e' => e = e' | _, _ => False end.
Proof.
  unfold c_init, sd_init, sc_init. destruct (decorate key it); [|reflexivity]. cbn [bind]. destruct (py_sorted a) as [s|]; [|reflexivity]. cbn [bind check_maxlen sd_keys sd_items]. rewrite !deque_of_newest. reflexivity.
Qed.
Lemma sim_reinit c d it key : sim c d -> sim (fst (c_reinit c it key)) (fst (sd_reinit d it key None)) /\ snd (c_reinit c it key) = snd (sd_reinit d it key None).
Proof.
  intro S. unfold c_reinit, sd_reinit, c_init, sc_init. destruct (decorate key it); [|split; [exact S|reflexivity]]. cbn [bind].
  destruct (py_sorted a) as [s|]; [|split; [exact S|reflexivity]]. cbn [bind check_maxlen sd_keys sd_items fst snd]. rewrite !deque_of_newest. split; reflexivity.
Qed.
Lemma sim_step c d o : sim c d -> sim (fst (c_step c o)) (fst (sd_step d (on_deque o))) /\ snd (c_step c o) = snd (sd_step d (on_deque o)).
Proof.
  intro S. destruct o; cbn [c_step on_deque sd_step].
  - unfold c_insert, sd_insert. unfold sim in S. subst d. cbn [sd_key sd_keys]. destruct (c_keyf c x) as [k|]; [|split; reflexivity]. cbn [bind]. destruct (bisect_left _ k); split; reflexivity.
  - unfold c_insert_right, sd_insert_right. unfold sim in S. subst d. cbn [sd_key sd_keys]. destruct (c_keyf c x) as [k|]; [|split; reflexivity]. cbn [bind]. destruct (bisect_right _ k); split; reflexivity.
  - unfold c_remove, sd_remove. rewrite (sim_index c d x S). unfold sim in S. subst d. cbn [sd_keys sd_items]. destruct (sd_index _ x); [|split; reflexivity].
    destruct (list_del (c_keys c) a); [|split; reflexivity]. destruct (list_del (c_items c) a); split; reflexivity.
  - unfold c_clear, sd_clear. replace (sd_key d) with (c_keyf c) by now rewrite S. replace (sd_maxlen d) with (@None Z) by now rewrite S. now apply sim_reinit.
  - unfold c_copy, sd_copy. replace (sd_items d) with (c_items c) by now rewrite S. replace (sd_key d) with (c_keyf c) by now rewrite S. replace (sd_maxlen d) with (@None Z) by now rewrite S.
    pose proof (sim_init (c_items c) (c_keyf c)) as X. destruct (c_init _ _), (sd_init _ _ _); try contradiction; [split; [exact X|reflexivity]|subst; split; [exact S|reflexivity]].
  - unfold c_assign_key, sd_assign_key. destruct same; [split; [exact S|reflexivity]|]. replace (sd_items d) with (c_items c) by now rewrite S. now apply sim_reinit.
  - unfold c_delete_key, sd_delete_key. replace (sd_items d) with (c_items c) by now rewrite S. replace (sd_maxlen d) with (@None Z) by now rewrite S. now apply sim_reinit.
Qed.
Lemma sim_run ops : forall c d, sim c d -> sim (fst (c_run c ops)) (fst (d_run d (map on_deque ops))) /\ snd (c_run c ops) = snd (d_run d (map on_deque ops)).
Proof.
  induction ops as [|o ops IH]; intros c d S; [split; [exact S|reflexivity]|]. cbn [c_run map d_run]. destruct (sim_step c d o S) as [S1 E1].
  destruct (c_step c o) as [c1 r1], (sd_step d (on_deque o)) as [d1 r1']. cbn [fst snd] in *. subst r1'. destruct (IH c1 d1 S1) as [S2 E2].
  destruct (c_run c1 ops), (d_run d1 (map on_deque ops)). cbn [fst snd] in *. split; [exact S2|now rewrite E2].
Qed.
Lemma sim_find c d k : sim c d -> c_find c k = sd_find d k /\ c_find_le c k = sd_find_le d k /\ c_find_lt c k = sd_find_lt d k /\ c_find_ge c k = sd_find_ge d k /\ c_find_gt c k = sd_find_gt d k.
Proof.
  intros ->. unfold c_find, c_find_le, c_find_lt, c_find_ge, c_find_gt, sd_find, sd_find_le, sd_find_lt, sd_find_ge, sd_find_gt, c_len, sd_len. cbn [sd_keys sd_items].
  destruct (bisect_left (c_keys c) k) as [i|]; cbn [bind]; destruct (bisect_right (c_keys c) k) as [j|]; cbn [bind];
    repeat match goal with |- context [Nat.eqb ?a (length ?b)] => destruct (Nat.eqb a (length b)) end; cbn [negb];
    try destruct i as [|i]; try destruct j as [|j]; cbn [Nat.eqb Nat.sub]; rewrite ?Nat.sub_0_r; auto.
Qed.
Lemma same_item_eq y x : py_eq x x = true -> same_item y x = py_eq y x.
Proof. unfold same_item. intro H. destruct (pyval_eq_dec y x) as [->|]; auto. Qed.

(** ** C101 *)
(** A SortedDeque without maxlen answers like a SortedCollection: constructed alike and
    after any sequence of shared mutating calls (raising or not), the outcomes were the same
    and so is the answer of every query; [count] for items that equal themselves. *)
Theorem C101_same_answers_partial :
  forall it key, match c_init it key, sd_init it key None with
  | Raise e, Raise e' => e = e'
  | Ok c0, Ok d0 => forall ops, let (c, rc) := c_run c0 ops in let (d, rd) := d_run d0 (map on_deque ops) in
      rc = rd /\ c_list c = sd_list d /\ c_reversed c = sd_reversed d /\ c_len c = sd_len d /\ (forall i, c_getitem c i = sd_getitem d i) /\
      (forall x, c_contains c x = sd_contains d x /\ c_index c x = sd_index d x /\ (py_eq x x = true -> c_count c x = sd_count d x)) /\
      (forall k, c_find c k = sd_find d k /\ c_find_le c k = sd_find_le d k /\ c_find_lt c k = sd_find_lt d k /\ c_find_ge c k = sd_find_ge d k /\ c_find_gt c k = sd_find_gt d k)
  | _, _ => False
  end.
Proof.
  intros it key. pose proof (sim_init it key) as S0. destruct (c_init it key) as [c0|], (sd_init it key None) as [d0|]; try exact S0.
  intro ops. destruct (sim_run ops c0 d0 S0) as [S E]. destruct (c_run c0 ops) as [c rc], (d_run d0 (map on_deque ops)) as [d rd]. cbn [fst snd] in *.
  split; [assumption|]. split; [now rewrite S|]. split; [now rewrite S|]. split; [now rewrite S|]. split; [now rewrite S|].
  split; [|intro k; now apply sim_find]. intro x. split; [now rewrite S|]. split; [now apply sim_index|]. intro X. rewrite S. unfold c_count, sd_count. cbn [sd_key sd_keys sd_items].
  destruct (c_keyf c x) as [k|]; [|reflexivity]. cbn [bind]. destruct (bisect_left _ k); [|reflexivity]. cbn [bind]. destruct (bisect_right _ k); [|reflexivity]. cbn [bind].
  do 2 f_equal. apply filter_ext. intro y. now apply same_item_eq.
Qed.
Print Assumptions C101_same_answers_partial.
Example C101_nonvacuous :
  exists c d, c_init [row 2 1; row 1 9] fst_key = Ok c /\ sd_init [row 2 1; row 1 9] fst_key None = Ok d /\
  c_list (fst (c_run c [CInsert (row 2 5); CRemove (row 1 9); CRemove (row 7 7)])) = [row 2 5; row 2 1] /\
  snd (c_run c [CInsert (row 2 5); CRemove (row 1 9); CRemove (row 7 7)]) = [Ok tt; Ok tt; Raise ValueError].
Proof. do 2 eexists. split; [reflexivity|]. split; [reflexivity|]. split; reflexivity. Qed.
(** What fails: [count] of NaN is 1 in the collection and 0 in the deque; slices are lists of
    items in the one and TypeError in the other. *)
Theorem C101_count_refuted :
  exists it c d x, c_init it (fun x => Ok x) = Ok c /\ sd_init it (fun x => Ok x) None = Ok d /\ c_count c x = Ok 1 /\ sd_count d x = Ok 0.
Proof. exists [PFloat FNaN]. do 2 eexists. exists (PFloat FNaN). split; [reflexivity|]. split; [reflexivity|]. split; vm_compute; reflexivity. Qed.
Print Assumptions C101_count_refuted.
(** Every slice of a SortedDeque raises TypeError, every slice of a SortedCollection is a list. *)
Theorem C101_slices_refuted :
  forall it key c d, c_init it key = Ok c -> sd_init it key None = Ok d -> forall i j, (exists l, c_getslice c i j = Ok l) /\ sd_getslice d i j = Raise TypeError.
Proof. intros it key c d _ _ i j. split; [eexists; reflexivity|reflexivity]. Qed.
Print Assumptions C101_slices_refuted.
Example C101_slices_differ :
  exists c d, c_init [row 2 1; row 1 9; row 4 4] fst_key = Ok c /\ sd_init [row 2 1; row 1 9; row 4 4] fst_key None = Ok d /\
  c_getslice c (Some (-2)%Z) None = Ok [row 2 1; row 4 4] /\ sd_getslice d (Some (-2)%Z) None = Raise TypeError.
Proof. do 2 eexists. split; [reflexivity|]. split; [reflexivity|]. split; reflexivity. Qed.

(** ** C102: SortedCollection on its own *)
Definition c_op_in (U P : pyval -> Prop) (o : scop) : Prop :=
  match o with
  | CInsert x | CInsertRight x | CRemove x => U x
  | CSetKey _ key => key_into U P key
  | CDelKey => forall x, U x -> P x
  | CClear | CCopy => True
  end.
(** Collections obtained by the constructor and any sequence of mutating calls. *)
Inductive c_reachable (U P : pyval -> Prop) : scoll -> Prop :=
| c_reach_new it key c : Forall U it -> key_into U P key -> c_init it key = Ok c -> c_reachable U P c
| c_reach_step c o : c_reachable U P c -> c_op_in U P o -> c_reachable U P (fst (c_step c o)).
Lemma c_reachable_sim U P c : c_reachable U P c -> exists d, reachable U P d /\ sim c d.
Proof.
  induction 1 as [it key c HU HK HI|c o _ (d & R & S) HO].
  - pose proof (sim_init it key) as X. rewrite HI in X. destruct (sd_init it key None) as [d|] eqn:E; [|contradiction]. exists d. split; [econstructor; eauto|assumption].
  - exists (fst (sd_step d (on_deque o))). split; [constructor; [assumption|destruct o; exact HO]|]. now apply sim_step.
Qed.
(** Over every history: the items are in key order; the searches, [index], [in], [count],
    [remove], [insert], [insert_right] and slices do what a scan of the list would. *)
Theorem C102_sorted_collection :
  forall U P, total_family P -> forall c, c_reachable U P c ->
  let key := c_keyf c in let l := c_list c in
  ordered key l /\ c_len c = length l /\ c_reversed c = rev l /\
  (forall k, P k ->
    c_find c k = first_such (key_sat key (fun y => py_eq y k)) l /\
    c_find_gt c k = first_such (key_sat key (fun y => ltb k y)) l /\
    c_find_ge c k = first_such (key_sat key (fun y => leb k y)) l /\
    c_find_lt c k = last_such (key_sat key (fun y => ltb y k)) l /\
    c_find_le c k = last_such (key_sat key (fun y => leb y k)) l) /\
  (forall x k, key x = Ok k -> P k ->
    (forall y ky, In y l -> same_item y x = true -> key y = Ok ky -> py_eq ky k = true) ->
    let first := position (fun y => same_item y x) l in
    c_index c x = match first with Some i => Ok i | None => Raise ValueError end /\
    c_contains c x = Ok (existsb (fun y => same_item y x) l) /\
    c_count c x = Ok (length (filter (fun y => same_item y x) l)) /\
    match first with
    | Some i => snd (c_remove c x) = Ok tt /\ c_list (fst (c_remove c x)) = firstn i l ++ skipn (S i) l
    | None => c_remove c x = (c, Raise ValueError)
    end) /\
  (forall x k, key x = Ok k -> P k ->
    snd (c_insert c x) = Ok tt /\ snd (c_insert_right c x) = Ok tt /\
    c_list (fst (c_insert c x)) = filter (key_sat key (fun y => ltb y k)) l ++ x :: filter (key_sat key (fun y => leb k y)) l /\
    c_list (fst (c_insert_right c x)) = filter (key_sat key (fun y => leb y k)) l ++ x :: filter (key_sat key (fun y => ltb k y)) l).
Proof.
  intros U P F c R key l. destruct (c_reachable_sim U P c R) as (d & RD & S). assert (EK : sd_key d = key) by now rewrite S. assert (EL : sd_list d = l) by now rewrite S.
  assert (EB : sd_bound d = None) by now rewrite S.
  split; [rewrite <- EK, <- EL; now apply (C02_order_invariant U P)|]. split; [reflexivity|]. split; [reflexivity|]. split.
  { intros k Hk. destruct (sim_find c d k S) as (A & B & C & D & E). rewrite A, B, C, D, E, <- EK, <- EL.
    destruct (C03_searches_are_linear_scans U P F d RD k Hk) as (X1 & X2 & X3 & X4 & X5 & _). auto. }
  split.
  { intros x k Kx Pk SC first. rewrite <- EK, <- EL in *. pose proof (C07_index_count_contains_remove U P F d RD x k Kx Pk SC) as X. cbn zeta in X. destruct X as (X1 & X2 & _ & X4).
    destruct (C07_sorted_collection_index_count U P F d RD x k Kx Pk SC) as [_ X3]. rewrite (sim_index c d x S). split; [subst first; now rewrite <- EL|].
    split; [rewrite <- X2; now rewrite S|]. split; [rewrite <- X3; now rewrite S|].
    destruct (sim_step c d (CRemove x) S) as [S1 E1]. cbn [c_step on_deque sd_step] in S1, E1. subst first. rewrite EL in *.
    destruct (position _ l) as [i|].
    - destruct X4 as [X4 X5]. split; [congruence|]. rewrite <- X5. now rewrite S1.
    - unfold c_remove. rewrite (sim_index c d x S), X1. reflexivity. }
  intros x k Kx Pk. rewrite <- EK in Kx. destruct (C08_insert_positions U P F d RD x k Kx Pk) as [_ X]. rewrite EB in X. destruct X as (X1 & X2 & X3 & X4 & _); [intros (m & Y & _); discriminate|].
  destruct (sim_step c d (CInsert x) S) as [S1 E1]. destruct (sim_step c d (CInsertRight x) S) as [S2 E2]. cbn [c_step on_deque sd_step] in S1, E1, S2, E2.
  split; [congruence|]. split; [congruence|]. split; [|]; [transitivity (sd_list (fst (sd_insert d x))); [now rewrite S1|now rewrite X3, EK, EL]|].
  transitivity (sd_list (fst (sd_insert_right d x))); [now rewrite S2|now rewrite X4, EK, EL].
Qed.
Print Assumptions C102_sorted_collection.
Definition coll_sample : scoll := match c_init [row 2 1; row 1 9; row 2 0] fst_key with Ok c => c | Raise _ => MkSC [] [] fst_key end.
Example C102_nonvacuous :
  total_family is_int /\ c_reachable is_row is_int (fst (c_step coll_sample (CInsert (row 2 5)))) /\
  c_list (fst (c_step coll_sample (CInsert (row 2 5)))) = [row 1 9; row 2 5; row 2 0; row 2 1].
Proof.
  split; [apply int_family|]. split; [|reflexivity]. apply c_reach_step; [|apply row_is_row].
  apply (c_reach_new is_row is_int [row 2 1; row 1 9; row 2 0] fst_key); [repeat constructor; apply row_is_row|exact fst_key_into|reflexivity].
Qed.
(** Slices: [c[i:j]] has the items at the positions from i (inclusive) to j (exclusive),
    a negative bound counting from the end. *)
Theorem C102_slices :
  forall c i j, exists s, c_getslice c (Some i) (Some j) = Ok s /\
  forall x p, nth_error s p = Some x <->
    exists q, nth_error (c_list c) q = Some x /\
    let at_ z := if (z <? 0)%Z then Z.max 0 (z + Z.of_nat (c_len c)) else z in
    (Z.of_nat q = at_ i + Z.of_nat p /\ Z.of_nat q < at_ j)%Z.
Proof.
  intros c i j. eexists. split; [reflexivity|]. intros x p. set (n := length (c_items c)). unfold slice, c_list, c_len. fold n.
  assert (CL : forall z, clip n z = Nat.min n (Z.to_nat (if (z <? 0)%Z then Z.max 0 (z + Z.of_nat n) else z))).
  { intro z. unfold clip. destruct (Z.ltb_spec z 0); [|reflexivity]. f_equal. lia. }
  rewrite !CL. cbn zeta. set (ai := if (i <? 0)%Z then Z.max 0 (i + Z.of_nat n) else i). set (aj := if (j <? 0)%Z then Z.max 0 (j + Z.of_nat n) else j).
  assert (0 <= ai)%Z by (unfold ai; destruct (Z.ltb_spec i 0); lia). assert (0 <= aj)%Z by (unfold aj; destruct (Z.ltb_spec j 0); lia).
  clearbody ai aj. clear CL. set (a := Nat.min n (Z.to_nat ai)). set (b := Nat.min n (Z.to_nat aj)).
  destruct (Nat.lt_ge_cases p (b - a)) as [L|L].
  - rewrite nth_error_firstn by assumption. rewrite nth_error_skipn. split.
    + intro X. exists (a + p). split; [assumption|]. unfold a, b in *. lia.
    + intros (q & Hq & E & Lq). assert (q = a + p). { assert (q < n) by (apply nth_error_Some; congruence). unfold a, b in *. lia. } now subst q.
  - split; intro X.
    + exfalso. assert (p < length (firstn (b - a) (skipn a (c_items c)))) by (apply nth_error_Some; congruence). rewrite firstn_length in *. lia.
    + exfalso. destruct X as (q & Hq & E & Lq). assert (q < n) by (apply nth_error_Some; congruence). unfold a, b in *. lia.
Qed.
Print Assumptions C102_slices.
