(** * Property theorems: the sorted containers (C01-C11, C68-C70) *)
From Coq Require Import List ZArith Bool Arith Lia Sorting.Sorted Sorting.Permutation.
From Verif Require Import PyVal PyLib SortedDequeM Spec SpecDeque Families DequeFacts DequeSearch.
Import ListNotations.

(** Data for the non-vacuity examples: rows (timestamp, payload) keyed by the first field. *)
Definition fst_key (v : pyval) : res pyval :=
  match v with PTuple (k :: _) => Ok k | PTuple [] => Raise IndexError | _ => Raise TypeError end.
Definition row (a b : Z) : pyval := PTuple [PInt a; PInt b].
Definition is_row (v : pyval) : Prop := is_pair is_int is_int v.
Lemma fst_key_into : key_into is_row is_int fst_key.
Proof. intros x k (a & b & -> & Ha & _) E. injection E as <-. exact Ha. Qed.
Lemma row_is_row a b : is_row (row a b).
Proof. exists (PInt a), (PInt b). repeat split; eexists; reflexivity. Qed.
(** [((1,5), (1,3), (2,0))] after insert_right of an equal key, maxlen 4. *)
Definition sample_ops : list sdop := [OInsertRight (row 1 3); OAppend (row 2 0); OAppend (row 2 9)].
Definition sample : sdeque :=
  MkSD [PInt 1; PInt 1; PInt 2] [row 1 5; row 1 3; row 2 0] fst_key (Some 4) (Some 4%Z).
Lemma sample_reachable : reachable is_row is_int sample.
Proof.
  assert (H : reachable is_row is_int (MkSD [PInt 1] [row 1 5] fst_key (Some 4) (Some 4%Z))).
  { apply (reach_new is_row is_int [row 1 5] fst_key (Some 4%Z)); [|exact fst_key_into|reflexivity].
    constructor; [apply row_is_row|constructor]. }
  apply (reach_step _ _ _ (OInsertRight (row 1 3))) in H; [|apply row_is_row].
  apply (reach_step _ _ _ (OAppend (row 2 0))) in H; [|apply row_is_row].
  exact H.
Qed.

(** ** C01 *)
Theorem C01_strict_order_append_drop :
  forall key maxlen d0 ops,
    sd_init [] key maxlen = Ok d0 -> Forall is_append_or_drop ops ->
    let d := sd_run d0 ops in
    strictly_ordered key (sd_list d) /\ Forall2 (key_of key) (sd_list d) (sd_keys d).
Proof. exact strict_order_append_drop. Qed.
Print Assumptions C01_strict_order_append_drop.
Example C01_nonvacuous : exists d0,
  sd_init [] fst_key (Some 2%Z) = Ok d0 /\
  sd_list (sd_run d0 [OAppend (row 1 0); OAppend (row 1 7); OAppend PNone; OAppend (row 2 0);
                      OAppend (row 5 5); ODrop 1; OAppend (row 4 4); OAppend (row 6 0)])
  = [row 5 5; row 6 0].
Proof. eexists. split; reflexivity. Qed.

(** ** C02 *)
Theorem C02_order_invariant :
  forall U P, total_family P -> forall d, reachable U P d ->
    ordered (sd_key d) (sd_list d) /\ Forall2 (key_of (sd_key d)) (sd_list d) (sd_keys d).
Proof.
  exact (fun U P F d R => let I := reachable_inv U P d F R in
    conj (keyed_ordered _ _ _ (inv_cons _ _ _ I) (inv_nondecr _ _ _ I)) (inv_cons _ _ _ I)).
Qed.
Print Assumptions C02_order_invariant.
Example C02_nonvacuous : total_family is_int /\ reachable is_row is_int sample /\ length (sd_list sample) = 3.
Proof. split; [apply int_family|]. split; [apply sample_reachable|reflexivity]. Qed.
(** Families covered: numbers other than NaN (int, bool, float mixed), strings, bytes, pairs. *)
Theorem C02_families :
  total_family is_number /\ total_family is_str /\ total_family is_bytes /\
  (forall A B, total_family A -> total_family B -> total_family (is_pair A B)).
Proof. exact (conj number_family (conj str_family (conj bytes_family pair_family))). Qed.
Print Assumptions C02_families.

(** ** C03 *)
Theorem C03_searches_are_linear_scans :
  forall U P, total_family P -> forall d, reachable U P d -> forall k, P k ->
    let key := sd_key d in let l := sd_list d in
    sd_find d k = first_such (key_sat key (fun y => py_eq y k)) l /\
    sd_find_gt d k = first_such (key_sat key (fun y => ltb k y)) l /\
    sd_find_ge d k = first_such (key_sat key (fun y => leb k y)) l /\
    sd_find_lt d k = last_such (key_sat key (fun y => ltb y k)) l /\
    sd_find_le d k = last_such (key_sat key (fun y => leb y k)) l /\
    sd_find_last_gt d k = last_such (key_sat key (fun y => ltb k y)) l.
Proof.
  exact (fun U P F d R k Hk => let I := reachable_inv U P d F R in
    conj (find_spec U P F d I k Hk) (conj (find_gt_spec U P F d I k Hk)
    (conj (find_ge_spec U P F d I k Hk) (conj (find_lt_spec U P F d I k Hk)
    (conj (find_le_spec U P F d I k Hk) (find_last_gt_spec U P F d I k Hk)))))).
Qed.
Print Assumptions C03_searches_are_linear_scans.
Example C03_nonvacuous : sd_find_gt sample (PInt 1) = Ok (row 2 0) /\
  sd_find_ge sample (PInt 1) = Ok (row 1 5) /\ sd_find_le sample (PInt 1) = Ok (row 1 3) /\
  sd_find_lt sample (PInt 1) = Raise ValueError.
Proof. repeat split; reflexivity. Qed.

(** ** C04 *)
Theorem C04_range_is_closed_interval :
  forall U P, total_family P -> forall d, reachable U P d ->
  forall start stop step, P start -> P stop ->
    sd_range d start stop step =
    let hits := filter (key_sat (sd_key d) (fun y => leb start y && leb y stop)) (sd_list d) in
    match step with
    | None => Ok hits
    | Some s => if Z.leb s 0 then Raise ValueError else Ok (every_nth (Z.to_nat s) hits)
    end.
Proof.
  exact (fun U P F d R start stop step Hs Ht =>
    range_spec U P d start stop step F (reachable_inv U P d F R) Hs Ht).
Qed.
Print Assumptions C04_range_is_closed_interval.
Example C04_nonvacuous : sd_range sample (PInt 1) (PInt 2) (Some 2%Z) = Ok [row 1 5; row 2 0] /\
  sd_range sample (PInt 2) (PInt 1) None = Ok [].
Proof. split; reflexivity. Qed.

(** ** C05: every container with any history, any key function *)
Definition anything (_ : pyval) : Prop := True.
Theorem C05_append_accepts_exactly_greater :
  forall d, reachable anything anything d ->
  forall x,
  match sd_key d x with
  | Raise e => sd_append d x = (d, Raise e)
  | Ok k =>
      (sd_list d = [] -> snd (sd_append d x) = Ok tt) /\
      (forall l y ky, sd_list d = l ++ [y] -> sd_key d y = Ok ky ->
         match py_gt k ky with
         | Raise e => sd_append d x = (d, Raise e)
         | Ok false => sd_append d x = (d, Raise ValueError)
         | Ok true => snd (sd_append d x) = Ok tt
         end)
  end /\
  (snd (sd_append d x) = Ok tt -> sd_list (fst (sd_append d x)) = newest (sd_bound d) (sd_list d ++ [x])).
Proof.
  exact (fun d R x => append_spec d x (reachable_consistent _ _ d R) (reachable_bound d R)).
Qed.
Print Assumptions C05_append_accepts_exactly_greater.
Example C05_nonvacuous : reachable anything anything sample /\ snd (sd_append sample (row 2 1)) = Raise ValueError
  /\ snd (sd_append sample (row 3 1)) = Ok tt /\ snd (sd_append sample PNone) = Raise TypeError.
Proof.
  split; [|repeat split; reflexivity].
  apply (reachable_weaken is_row is_int); [apply sample_reachable|easy..].
Qed.

(** ** C06 *)
Theorem C06_never_more_than_maxlen :
  forall it key m0 d0 ops m,
    sd_init it key m0 = Ok d0 -> Forall no_negative_maxlen ops ->
    sd_maxlen (sd_run d0 ops) = Some m -> (Z.of_nat (sd_len (sd_run d0 ops)) <= m)%Z.
Proof. exact length_le_maxlen. Qed.
Print Assumptions C06_never_more_than_maxlen.
(** The bound it refers to is the one given to the constructor, as long as neither [key] nor
    [maxlen] is assigned. *)
Theorem C06_maxlen_in_force :
  forall it key m0 d0 ops, sd_init it key m0 = Ok d0 ->
    Forall (fun o => match o with OSetKey _ _ | OSetMaxlen _ _ => False | _ => True end) ops ->
    sd_maxlen (sd_run d0 ops) = m0.
Proof. exact maxlen_in_force. Qed.
Print Assumptions C06_maxlen_in_force.
Theorem C06_append_keeps_newest :
  forall key maxlen d0 xs, sd_init [] key maxlen = Ok d0 ->
    sd_list (fst (feed d0 xs)) = newest (option_map Z.to_nat maxlen) (snd (feed d0 xs)).
Proof. exact feed_from_empty. Qed.
Print Assumptions C06_append_keeps_newest.
Example C06_nonvacuous : exists d0, sd_init [] fst_key (Some 2%Z) = Ok d0 /\
  snd (feed d0 [row 1 0; row 3 0; row 2 0; row 4 0]) = [row 1 0; row 3 0; row 4 0] /\
  sd_list (fst (feed d0 [row 1 0; row 3 0; row 2 0; row 4 0])) = [row 3 0; row 4 0] /\
  sd_list (fst (feed (MkSD [] [] fst_key (Some 0) (Some 0%Z)) [row 1 0; row 0 0])) = [].
Proof. eexists. repeat split; reflexivity. Qed.

(** ** C07 *)
Theorem C07_index_count_contains_remove :
  forall U P, total_family P -> forall d, reachable U P d ->
  forall x k, sd_key d x = Ok k -> P k ->
    (forall y ky, In y (sd_list d) -> same_item y x = true -> sd_key d y = Ok ky -> py_eq ky k = true) ->
    let first := position (fun y => same_item y x) (sd_list d) in
    sd_index d x = match first with Some i => Ok i | None => Raise ValueError end /\
    sd_contains d x = Ok (existsb (fun y => same_item y x) (sd_list d)) /\
    sd_count d x = Ok (length (filter (fun y => py_eq y x) (sd_list d))) /\
    match first with
    | Some i => snd (sd_remove d x) = Ok tt /\
                sd_list (fst (sd_remove d x)) = firstn i (sd_list d) ++ skipn (S i) (sd_list d)
    | None => sd_remove d x = (d, Raise ValueError)
    end.
Proof.
  exact (fun U P F d R x k Hx Hk He => let I := reachable_inv U P d F R in
    conj (index_spec U P F d I x k Hx Hk He) (conj (contains_spec U P F d I x k Hx Hk He)
    (conj (count_spec U P F d I x k Hx Hk He) (remove_spec U P F d I x k Hx Hk He)))).
Qed.
Print Assumptions C07_index_count_contains_remove.
(** The same for the list-backed [SortedCollection] versions of index and count. *)
Theorem C07_sorted_collection_index_count :
  forall U P, total_family P -> forall d, reachable U P d ->
  forall x k, sd_key d x = Ok k -> P k ->
    (forall y ky, In y (sd_list d) -> same_item y x = true -> sd_key d y = Ok ky -> py_eq ky k = true) ->
    sc_index d x = match position (fun y => same_item y x) (sd_list d) with
                   | Some i => Ok i | None => Raise ValueError end /\
    sc_count d x = Ok (length (filter (fun y => same_item y x) (sd_list d))).
Proof.
  exact (fun U P F d R x k Hx Hk He => let I := reachable_inv U P d F R in
    conj (sc_index_spec U P F d I x k Hx Hk He) (sc_count_spec U P F d I x k Hx Hk He)).
Qed.
Print Assumptions C07_sorted_collection_index_count.
Example C07_nonvacuous : 
  (forall y ky, In y (sd_list sample) -> same_item y (row 1 3) = true -> sd_key sample y = Ok ky -> py_eq ky (PInt 1) = true)
  /\ sd_index sample (row 1 3) = Ok 1 /\ sd_count sample (row 1 3) = Ok 1 /\
  sd_contains sample (row 1 4) = Ok false /\ sd_list (fst (sd_remove sample (row 1 3))) = [row 1 5; row 2 0].
Proof.
  split; [|repeat split; reflexivity].
  intros y ky [<-|[<-|[<-|[]]]] H E; cbn in H; try discriminate; now injection E as <-.
Qed.

(** ** C08 *)
Theorem C08_insert_positions :
  forall U P, total_family P -> forall d, reachable U P d ->
  forall x k, sd_key d x = Ok k -> P k ->
    let key := sd_key d in let l := sd_list d in
    let is_full := exists m, sd_bound d = Some m /\ m <= length l in
    (is_full -> sd_insert d x = (d, Raise IndexError) /\ sd_insert_right d x = (d, Raise IndexError)) /\
    (~ is_full ->
       snd (sd_insert d x) = Ok tt /\ snd (sd_insert_right d x) = Ok tt /\
       sd_list (fst (sd_insert d x)) =
         filter (key_sat key (fun y => ltb y k)) l ++ x :: filter (key_sat key (fun y => leb k y)) l /\
       sd_list (fst (sd_insert_right d x)) =
         filter (key_sat key (fun y => leb y k)) l ++ x :: filter (key_sat key (fun y => ltb k y)) l /\
       l = filter (key_sat key (fun y => ltb y k)) l ++ filter (key_sat key (fun y => leb k y)) l /\
       l = filter (key_sat key (fun y => leb y k)) l ++ filter (key_sat key (fun y => ltb k y)) l).
Proof. exact insert_both_spec. Qed.
Print Assumptions C08_insert_positions.
Example C08_nonvacuous :
  sd_list (fst (sd_insert sample (row 1 0))) = [row 1 0; row 1 5; row 1 3; row 2 0] /\
  sd_list (fst (sd_insert_right sample (row 1 0))) = [row 1 5; row 1 3; row 1 0; row 2 0] /\
  snd (sd_insert (fst (sd_insert sample (row 1 0))) (row 9 9)) = Raise IndexError.
Proof. repeat split; reflexivity. Qed.

(** ** C09 *)
Theorem C09_construction_sorts :
  forall P it key maxlen, total_family P ->
    (forall x, In x it -> exists k, key x = Ok k /\ P (PTuple [k; x])) ->
    match maxlen with Some z => (0 <= z)%Z | None => True end ->
    exists d s, sd_init it key maxlen = Ok d /\ Permutation s it /\
      StronglySorted (pair_before key) s /\
      sd_list d = newest (option_map Z.to_nat maxlen) s /\ sd_maxlen d = maxlen /\ sd_key d = key.
Proof. exact init_spec. Qed.
Print Assumptions C09_construction_sorts.
Theorem C09_negative_maxlen_rejected :
  forall it key m, (m < 0)%Z -> exists e, sd_init it key (Some m) = Raise e.
Proof. exact init_negative_raises. Qed.
Print Assumptions C09_negative_maxlen_rejected.
Example C09_nonvacuous :
  total_family (is_pair is_int is_row) /\
  (forall x, In x [row 2 1; row 1 9; row 2 0] -> exists k, fst_key x = Ok k /\ is_pair is_int is_row (PTuple [k; x])) /\
  exists d, sd_init [row 2 1; row 1 9; row 2 0] fst_key (Some 2%Z) = Ok d /\ sd_list d = [row 2 0; row 2 1].
Proof.
  split; [apply pair_family; [apply int_family|apply pair_family; apply int_family]|]. split.
  - intros x [<-|[<-|[<-|[]]]]; eexists; (split; [reflexivity|]);
      eexists; eexists; (split; [reflexivity|]); (split; [eexists; reflexivity|apply row_is_row]).
  - eexists. split; reflexivity.
Qed.

(** ** C10 *)
Theorem C10_drop :
  forall d, reachable anything anything d -> forall n,
    sd_list (fst (sd_drop d n)) = skipn (Z.to_nat n) (sd_list d) /\
    sd_key (fst (sd_drop d n)) = sd_key d /\ sd_maxlen (fst (sd_drop d n)) = sd_maxlen d /\
    sd_bound (fst (sd_drop d n)) = sd_bound d /\
    snd (sd_drop d n) = (if Z.leb n (Z.of_nat (sd_len d)) then Ok tt else Raise IndexError) /\
    ((n <= 0)%Z -> sd_drop d n = (d, Ok tt)) /\
    ((Z.of_nat (sd_len d) < n)%Z -> sd_list (fst (sd_drop d n)) = [] /\ sd_keys (fst (sd_drop d n)) = []).
Proof. exact drop_reachable. Qed.
Print Assumptions C10_drop.
Example C10_nonvacuous : sd_list (fst (sd_drop sample 2)) = [row 2 0] /\
  snd (sd_drop sample 4) = Raise IndexError /\ sd_list (fst (sd_drop sample 4)) = [].
Proof. repeat split; reflexivity. Qed.

(** ** C11 *)
(** Full statement: [forall d, reachable U P d -> exists d', sd_copy d = Ok d' /\
    sd_list d' = sd_list d /\ ...]. It is false: items with equal keys are re-sorted by item. *)
Theorem C11_copy_reorders_equal_keys_refuted :
  exists d d', reachable is_row is_int d /\ sd_copy d = Ok d' /\ sd_list d' <> sd_list d.
Proof.
  exists sample, (MkSD [PInt 1; PInt 1; PInt 2] [row 1 3; row 1 5; row 2 0] fst_key (Some 4) (Some 4%Z)).
  split; [exact sample_reachable|]. split; [vm_compute; reflexivity|]. vm_compute. discriminate.
Qed.
Print Assumptions C11_copy_reorders_equal_keys_refuted.
(** What holds: a container fed by append/drop (hence with distinct keys) is copied exactly.
    Missing: containers with equal keys built by insert. *)
Theorem C11_copy_exact_partial :
  forall key maxlen d0 ops, sd_init [] key maxlen = Ok d0 -> Forall is_append_or_drop ops ->
    sd_copy (sd_run d0 ops) = Ok (sd_run d0 ops).
Proof. exact copy_append_drop. Qed.
Print Assumptions C11_copy_exact_partial.
Example C11_nonvacuous : exists d0, sd_init [] fst_key (Some 2%Z) = Ok d0 /\
  sd_list (sd_run d0 [OAppend (row 1 0); OAppend (row 2 0); OAppend (row 3 0)]) = [row 2 0; row 3 0].
Proof. eexists. split; reflexivity. Qed.

(** ** C68: assigning [key] keeps the maxlen bound *)
Theorem C68_key_assignment_drops_maxlen_refuted :
  exists d key', reachable is_row is_int d /\ key_into is_row is_int key' /\
    sd_maxlen d = Some 4%Z /\
    snd (sd_assign_key d false key') = Ok tt /\
    sd_maxlen (fst (sd_assign_key d false key')) = None /\
    sd_len (sd_run (fst (sd_assign_key d false key'))
              [OAppend (row 3 0); OAppend (row 4 0); OAppend (row 5 0)]) = 6.
Proof.
  exists sample, fst_key. split; [exact sample_reachable|]. split; [exact fst_key_into|].
  vm_compute. repeat split; reflexivity.
Qed.
Print Assumptions C68_key_assignment_drops_maxlen_refuted.
(** Exactly what assignment does, in every state: unless it raises, maxlen becomes None. *)
Theorem C68_key_assignment_partial :
  forall d key', let (d', r) := sd_assign_key d false key' in
    match r with
    | Ok _ => sd_maxlen d' = None /\ sd_bound d' = None /\ sd_key d' = key' /\ Permutation (sd_list d') (sd_list d)
    | Raise _ => d' = d
    end.
Proof. exact assign_key_spec. Qed.
Print Assumptions C68_key_assignment_partial.

(** Deleting it ([del d.key]) does keep the bound, and every item. *)
Theorem C68_key_deletion_keeps_maxlen :
  forall it key m0 d0 ops, sd_init it key m0 = Ok d0 -> Forall no_negative_maxlen ops ->
  let d := sd_run d0 ops in
  let (d', r) := sd_delete_key d in
    match r with
    | Ok _ => sd_maxlen d' = sd_maxlen d /\ (forall x, sd_key d' x = Ok x) /\ Permutation (sd_list d') (sd_list d) /\
              forall m xs, sd_maxlen d = Some m -> (Z.of_nat (sd_len (sd_run d' (map OAppend xs))) <= m)%Z
    | Raise _ => d' = d
    end.
Proof. exact delete_key_spec. Qed.
Print Assumptions C68_key_deletion_keeps_maxlen.
Example C68_nonvacuous :
  reachable is_row is_int sample /\ snd (sd_delete_key sample) = Ok tt /\
  sd_list sample = [row 1 5; row 1 3; row 2 0] /\ sd_list (fst (sd_delete_key sample)) = [row 1 3; row 1 5; row 2 0] /\ sd_maxlen (fst (sd_delete_key sample)) = Some 4%Z.
Proof. split; [exact sample_reachable|]. vm_compute. repeat split; reflexivity. Qed.

(** ** C69: a rejected maxlen assignment changes nothing *)
Theorem C69_negative_maxlen_assignment_refuted :
  exists d, reachable is_row is_int d /\
    snd (sd_setmaxlen d false (Some (-1)%Z)) = Raise ValueError /\
    sd_maxlen (fst (sd_setmaxlen d false (Some (-1)%Z))) = Some 4%Z /\
    sd_len (sd_run (fst (sd_setmaxlen d false (Some (-1)%Z)))
              [OAppend (row 3 0); OAppend (row 4 0); OAppend (row 5 0)]) = 6.
Proof. exists sample. split; [exact sample_reachable|]. vm_compute. repeat split; reflexivity. Qed.
Print Assumptions C69_negative_maxlen_assignment_refuted.
(** What holds: a non-negative or absent maxlen is applied to the re-sorted items. *)
Theorem C69_maxlen_assignment_partial :
  forall d m, match m with Some z => (0 <= z)%Z | None => True end ->
    let (d', r) := sd_setmaxlen d false m in
    match r with
    | Ok _ => sd_maxlen d' = m /\ sd_key d' = sd_key d /\
              exists s, Permutation s (sd_list d) /\ sd_list d' = newest (option_map Z.to_nat m) s
    | Raise _ => d' = d
    end.
Proof. exact setmaxlen_spec. Qed.
Print Assumptions C69_maxlen_assignment_partial.

(** ** C70: a key that nothing exceeds (NaN) blocks the buffer until it is dropped *)
Theorem C70_nan_key_blocks_append :
  forall d l y x, reachable anything anything d ->
    sd_list d = l ++ [y] -> sd_key d y = Ok (PFloat FNaN) -> sd_append d x = (d, snd (sd_append d x)) /\
    exists e, snd (sd_append d x) = Raise e.
Proof. exact nan_blocks. Qed.
Print Assumptions C70_nan_key_blocks_append.
Example C70_nonvacuous : exists d, reachable anything anything d /\
  sd_list d = [] ++ [PFloat FNaN] /\ sd_key d (PFloat FNaN) = Ok (PFloat FNaN).
Proof.
  exists (MkSD [PFloat FNaN] [PFloat FNaN] (fun x => Ok x) (Some 3) (Some 3%Z)).
  split; [|split; reflexivity].
  apply (reach_step anything anything (MkSD [] [] (fun x => Ok x) (Some 3) (Some 3%Z)) (OAppend (PFloat FNaN))).
  - apply (reach_new anything anything [] (fun x => Ok x) (Some 3%Z)); [constructor|easy|reflexivity].
  - exact Logic.I.
Qed.
