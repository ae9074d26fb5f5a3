(** * Property theorems: histories of a buffer with readers (C19, C21-C23) *)
From Coq Require Import List ZArith Bool Arith Lia.
From Verif Require Import PyVal PyLib PyValFacts SortedDequeM BufferReaderM BufferSysM Spec SpecDeque SpecReader SpecLog Families
  BisectFacts ListFacts DequeFacts DequeSearch ReaderFacts ReaderLoops LogFacts LogReads LogKeepUp PropsDeque PropsReader.
Import ListNotations.

(** ** C19 *)
(** Whenever the keys accepted so far increase, every output is the log's. *)
Theorem C19_log_with_cursors :
  forall P, total_family P -> forall key maxlen d0, sd_init [] key maxlen = Ok d0 ->
  forall ops, Forall (op_ok P key) ops ->
  let outs := snd (bsys_run (MkBS d0 []) ops) in
  strictly_ordered key (accepted ops outs) ->
  outs = snd (log_run key (option_map Z.to_nat maxlen) empty_log ops).
Proof.
  intros P F key m d0 H ops OK outs HS.
  apply (run_sim P F key (option_map Z.to_nat m) ops (MkBS d0 []) empty_log (init_rel P key m d0 H) OK HS).
Qed.
Print Assumptions C19_log_with_cursors.
(** A source whose keys increase. *)
Theorem C19_increasing_source :
  forall P, total_family P -> forall key maxlen d0, sd_init [] key maxlen = Ok d0 ->
  forall ops, Forall (op_ok P key) ops -> strictly_ordered key (appended ops) ->
  snd (bsys_run (MkBS d0 []) ops) = snd (log_run key (option_map Z.to_nat maxlen) empty_log ops).
Proof.
  intros P F key m d0 H ops OK HS. eapply C19_log_with_cursors; eauto.
  eapply subseq_sorted; [apply accepted_subseq|exact HS].
Qed.
Print Assumptions C19_increasing_source.
(** Any source at all, if nothing is dropped explicitly and maxlen is not 0. *)
Theorem C19_no_drop :
  forall P, total_family P -> forall key maxlen d0, sd_init [] key maxlen = Ok d0 -> maxlen <> Some 0%Z ->
  forall ops, Forall (op_ok P key) ops -> (forall n, In (LDrop n) ops -> (n <= 0)%Z) ->
  snd (bsys_run (MkBS d0 []) ops) = snd (log_run key (option_map Z.to_nat maxlen) empty_log ops).
Proof.
  intros P F key m d0 H Hm ops OK HD. eapply C19_log_with_cursors; eauto.
  change (accepted ops ?o) with (lg empty_log ++ accepted ops o).
  apply (nodrop_run P F key (option_map Z.to_nat m)); auto.
  - destruct m as [z|]; cbn; [|discriminate]. intro E. injection E as E.
    unfold sd_init in H. cbn in H. unfold check_maxlen in H. destruct (Z.ltb_spec z 0); [discriminate|].
    assert (z = 0%Z) by lia. congruence.
  - now apply init_rel.
  - clear - HD. induction ops as [|o ops IH]; [reflexivity|]. cbn. rewrite IH by (intros; apply HD; now right).
    rewrite orb_false_r. destruct o; auto. cbn. apply Z.ltb_ge. apply HD. now left.
Qed.
Print Assumptions C19_no_drop.
(** A history with two readers, an eviction, a rejected append, a tail jump and a range. *)
Definition hist : list lop :=
  [LMk 1 false false false; LAppend (row 1 10); LAppend (row 2 20); LCall 0 (CRead noargs); LMk 2 false false true;
   LAppend (row 4 40); LAppend (row 4 41); LCall 1 (CNext false); LAppend (row 7 70); LCall 0 (CRead (MkRA (Some 2%Z) None None None));
   LCall 1 (CRange (MkRG (PInt 3) (PInt 8) None false None true false false)); LCall 1 (CRead noargs);
   LCall 0 (CTail false false true); LDrop 1; LCall 0 (CHead true); LCall 0 (CRead noargs); LCall 5 (CHead true)].
Definition hist_out : list lout :=
  [OUnit (Ok tt); OUnit (Ok tt); OUnit (Ok tt); OVal (Ok (VItem (row 1 10))); OUnit (Ok tt);
   OUnit (Ok tt); OUnit (Raise ValueError); OVal (Ok (VList [row 1 10; row 2 20])); OUnit (Ok tt); OVal (Ok (VList [row 2 20; row 4 40]));
   OVal (Ok (VList [row 4 40; row 7 70])); OVal (Ok VNone);
   OVal (Ok (VItem (row 7 70))); OUnit (Ok tt); OVal (Ok (VItem (row 4 40))); OVal (Raise ValueError); ONoReader].
Lemma hist_ok : Forall (op_ok is_int fst_key) hist.
Proof.
  repeat constructor; try discriminate; try (intros k E; injection E as <-); try (eexists; reflexivity).
Qed.
Example C19_nonvacuous :
  total_family is_int /\ sd_init [] fst_key (Some 3%Z) = Ok empty_buf /\ Forall (op_ok is_int fst_key) hist /\
  snd (bsys_run (MkBS empty_buf []) hist) = hist_out /\
  strictly_ordered fst_key (accepted hist hist_out) /\
  snd (log_run fst_key (Some 3) empty_log hist) = hist_out.
Proof.
  split; [apply int_family|]. split; [reflexivity|]. split; [apply hist_ok|]. split; [vm_compute; reflexivity|].
  split; [|vm_compute; reflexivity].
  cbn. repeat (constructor; [|repeat (constructor; [do 2 eexists; split; [reflexivity|split; reflexivity]|]); constructor]). constructor.
Qed.

(** ** C21: no hypothesis on the order of the source's keys. *)
Theorem C21_reads_never_repeat :
  forall P, total_family P -> forall key maxlen d0, sd_init [] key maxlen = Ok d0 ->
  forall ops, Forall (op_ok P key) ops -> forall i, forward_reader i ops ->
  let outs := snd (bsys_run (MkBS d0 []) ops) in
  strictly_ordered key (got i ops outs) /\
  subseq (got i ops outs) (accepted ops outs) /\ subseq (accepted ops outs) (appended ops).
Proof.
  intros P F key m d0 H ops OK i FW. cbn zeta. destruct (init_empty key m d0 H) as (E1 & E2 & _ & E4).
  pose proof (fwd_run P F key d0 E1 E2 (E4 P) i ops OK FW) as K.
  destruct (bsys_run (MkBS d0 []) ops) as [s outs]. cbn [snd].
  assert (strictly_ordered key (got i ops outs) /\ subseq (got i ops outs) (accepted ops outs)) as [A B].
  { pose proof (fi_rd _ _ _ _ _ _ _ K) as R. destruct (nth_error (s_rds s) i).
    - destruct R as [_ [[_ ->]|(G' & p & _ & _ & _ & HS & HO)]]; [split; [constructor|apply subseq_nil_l]|].
      split; [assumption|]. now apply subseq_firstn in HS.
    - rewrite R. split; [constructor|apply subseq_nil_l]. }
  split; [assumption|]. split; [assumption|]. apply accepted_subseq.
Qed.
Print Assumptions C21_reads_never_repeat.
(** A source whose keys go back after the buffer was emptied: reader 0 gets 5, then nothing
    until the keys pass 5 again. *)
Definition hist_back : list lop :=
  [LMk 1 false false true; LAppend (row 5 1); LCall 0 (CRead noargs); LDrop 1; LAppend (row 3 2); LCall 0 (CRead noargs);
   LAppend (row 4 3); LAppend (row 6 4); LCall 0 (CRead noargs); LCall 0 (CNext false)].
Example C21_nonvacuous :
  sd_init [] fst_key (Some 3%Z) = Ok empty_buf /\ Forall (op_ok is_int fst_key) hist_back /\ forward_reader 0 hist_back /\
  let outs := snd (bsys_run (MkBS empty_buf []) hist_back) in
  got 0 hist_back outs = [row 5 1; row 6 4] /\ accepted hist_back outs = [row 5 1; row 3 2; row 4 3; row 6 4].
Proof.
  split; [reflexivity|]. split.
  { repeat constructor; try discriminate; try (intros k E; injection E as <-); try (eexists; reflexivity). }
  split; [split; [repeat constructor|discriminate]|]. vm_compute. split; reflexivity.
Qed.

(** ** C22 *)
Theorem C22_keeps_up_misses_nothing :
  forall P, total_family P -> forall key maxlen d0, sd_init [] key maxlen = Ok d0 ->
  forall ops, Forall (op_ok P key) ops -> forall i, forward_reader i ops -> keeps_up d0 i ops ->
  let outs := snd (bsys_run (MkBS d0 []) ops) in
  strictly_ordered key (accepted ops outs) ->
  (exists rest, accepted ops outs = got i ops outs ++ rest) /\
  (forall a v ops0, ops = ops0 ++ [LCall i (CRead a)] -> a_strict a = Some false -> i < length (made ops0) ->
     outs = snd (bsys_run (MkBS d0 []) ops0) ++ [v] -> got_from v = [] ->
     got i ops outs = accepted ops outs).
Proof.
  intros P F key m d0 H ops OK i FW KU. cbn zeta. pose proof (init_rel P key m d0 H) as R0.
  pose proof (ku_run P F key (option_map Z.to_nat m) i d0 R0 ops OK FW KU) as K.
  destruct (bsys_run (MkBS d0 []) ops) as [s outs] eqn:E. cbn [snd]. intro HS. split.
  - destruct (K HS) as (L & _ & EL & (_ & HG & _) & _). rewrite <- EL.
    exists (skipn (length (got i ops outs)) (lg L)). rewrite HG at 1. now rewrite firstn_skipn.
  - intros a v ops0 -> Ha Hi Ev Hv.
    pose proof (ku_last P F key (option_map Z.to_nat m) i d0 ops0 a R0 OK FW KU Ha Hi) as KL.
    rewrite run_app in E. pose proof (run_length (MkBS d0 []) ops0) as HL.
    destruct (bsys_run (MkBS d0 []) ops0) as [s0 outs0]. cbn [fst snd] in *. cbn [bsys_run] in E.
    destruct (bsys_step s0 (LCall i (CRead a))) as [s1 v1] eqn:E1. cbn [fst snd] in *. injection E as _ E.
    rewrite Ev in E. apply app_inj_tail in E as [_ E]. subst v1 outs.
    rewrite accepted_app, got_app in * by auto. cbn [accepted got] in *. rewrite !app_nil_r in *.
    rewrite Nat.eqb_refl, Hv, app_nil_r. apply KL; auto.
Qed.
Print Assumptions C22_keeps_up_misses_nothing.
Theorem C22_increasing_source :
  forall P, total_family P -> forall key maxlen d0, sd_init [] key maxlen = Ok d0 ->
  forall ops, Forall (op_ok P key) ops -> forall i, forward_reader i ops -> keeps_up d0 i ops ->
  strictly_ordered key (appended ops) ->
  let outs := snd (bsys_run (MkBS d0 []) ops) in
  exists rest, accepted ops outs = got i ops outs ++ rest.
Proof.
  intros P F key m d0 H ops OK i FW KU HS. eapply C22_keeps_up_misses_nothing; eauto.
  eapply subseq_sorted; [apply accepted_subseq|exact HS].
Qed.
Print Assumptions C22_increasing_source.
Definition hist_keep : list lop :=
  [LMk 2 false false true; LAppend (row 1 10); LAppend (row 2 20); LCall 0 (CNext false); LAppend (row 3 30); LAppend (row 4 40);
   LAppend (row 4 41); LCall 0 (CRead (MkRA (Some 1%Z) None None None)); LDrop 2; LAppend (row 5 50);
   LCall 0 (CRead noargs); LCall 0 (CRead (MkRA (Some 1%Z) None None (Some false)))].
Lemma hist_keep_up : keeps_up empty_buf 0 hist_keep.
Proof.
  intros pre post E.
  assert (K : forallb (fun n => let pre := firstn n hist_keep in let (s, outs) := bsys_run (MkBS empty_buf []) pre in
     Nat.leb (length (accepted pre outs) - length (sd_list (s_buf s))) (length (got 0 pre outs))) (seq 0 13) = true)
    by (vm_compute; reflexivity).
  rewrite forallb_forall in K. assert (Hl : length pre <= 12).
  { change 12 with (length hist_keep). rewrite E, app_length. lia. }
  specialize (K (length pre)). assert (Ep : firstn (length pre) hist_keep = pre).
  { rewrite E, firstn_app, Nat.sub_diag. cbn [firstn]. rewrite app_nil_r. apply firstn_all. }
  cbn zeta in K. rewrite Ep in K. destruct (bsys_run _ pre). apply Nat.leb_le, K. apply in_seq. lia.
Qed.
Example C22_nonvacuous :
  sd_init [] fst_key (Some 3%Z) = Ok empty_buf /\ Forall (op_ok is_int fst_key) hist_keep /\ forward_reader 0 hist_keep /\
  keeps_up empty_buf 0 hist_keep /\
  let outs := snd (bsys_run (MkBS empty_buf []) hist_keep) in
  strictly_ordered fst_key (accepted hist_keep outs) /\
  got 0 hist_keep outs = [row 1 10; row 2 20; row 3 30; row 4 40; row 5 50] /\
  got 0 hist_keep outs = accepted hist_keep outs.
Proof.
  split; [reflexivity|]. split.
  { repeat constructor; try discriminate; try (intros k E; injection E as <-); try (eexists; reflexivity). }
  split; [split; [repeat constructor|discriminate]|]. split; [apply hist_keep_up|].
  cbn zeta. replace (snd (bsys_run (MkBS empty_buf []) hist_keep)) with
    (let v := snd (bsys_run (MkBS empty_buf []) hist_keep) in v) by reflexivity.
  split; [|vm_compute; split; reflexivity].
  vm_compute. repeat (constructor; [|repeat (constructor; [do 2 eexists; split; [reflexivity|split; reflexivity]|]); constructor]). constructor.
Qed.

(** ** C23: no hypothesis at all on buffer, readers, keys, calls. *)
Lemma set_nth_other {A} (l : list A) i j x : i <> j -> nth_error (set_nth l j x) i = nth_error l i.
Proof. intro N. rewrite nth_error_set_nth. destruct (Nat.eqb_spec j i); congruence. Qed.
Definition same_view (i : nat) (s t : bsys) : Prop :=
  s_buf s = s_buf t /\ length (s_rds s) = length (s_rds t) /\ nth_error (s_rds s) i = nth_error (s_rds t) i.
Lemma view_step i s t o : same_view i s t -> not_others i o = true ->
  snd (bsys_step s o) = snd (bsys_step t o) /\ same_view i (fst (bsys_step s o)) (fst (bsys_step t o)).
Proof.
  intros (Hb & Hl & Hn) HO. destruct o as [x|n|n p st ig|j c]; cbn [bsys_step].
  - rewrite <- Hb. destruct (sd_append (s_buf s) x). cbn. repeat split; auto.
  - rewrite <- Hb. destruct (sd_drop (s_buf s) n). cbn. repeat split; auto.
  - cbn. repeat split; auto; cbn; [rewrite !app_length; cbn; lia|].
    destruct (le_lt_dec (length (s_rds s)) i).
    + rewrite !nth_error_app2 by lia. now rewrite Hl.
    + rewrite !nth_error_app1 by lia. exact Hn.
  - cbn in HO. apply Nat.eqb_eq in HO. subst j. rewrite <- Hn, <- Hb. destruct (nth_error (s_rds s) i) eqn:E.
    + destruct (run (do_call (s_buf s) c) b). cbn. repeat split; auto; cbn; [now rewrite !set_nth_length|].
      rewrite !nth_error_set_nth, Nat.eqb_refl, <- Hn, E. reflexivity.
    + cbn. repeat split; auto. congruence.
Qed.
Theorem C23_readers_independent :
  forall i ops s,
  let outs := snd (bsys_run s ops) in
  let alone := filter (not_others i) ops in
  let s_alone := fst (bsys_run s alone) in
  snd (bsys_run s alone) = map snd (filter (fun p => not_others i (fst p)) (combine ops outs)) /\
  s_buf s_alone = s_buf (fst (bsys_run s ops)) /\
  nth_error (s_rds s_alone) i = nth_error (s_rds (fst (bsys_run s ops))) i.
Proof.
  intros i ops.
  assert (K : forall s t, same_view i s t ->
    snd (bsys_run t (filter (not_others i) ops)) =
      map snd (filter (fun p => not_others i (fst p)) (combine ops (snd (bsys_run s ops)))) /\
    same_view i (fst (bsys_run s ops)) (fst (bsys_run t (filter (not_others i) ops)))).
  { induction ops as [|o ops IH]; intros s t V; cbn [filter bsys_run combine]; [cbn; auto|].
    destruct (not_others i o) eqn:EO.
    - destruct (view_step i s t o V EO) as [E1 V1]. cbn [bsys_run].
      destruct (bsys_step s o) as [s1 v], (bsys_step t o) as [t1 v']. cbn [fst snd] in *. subst v'.
      specialize (IH s1 t1 V1). destruct (bsys_run s1 ops) as [s2 vs], (bsys_run t1 (filter (not_others i) ops)) as [t2 vs'].
      cbn [fst snd combine filter] in *. rewrite EO. cbn [map snd]. destruct IH as [-> V2]. auto.
    - assert (V1 : same_view i (fst (bsys_step s o)) t).
      { destruct o as [x|n|n p st ig|j c]; try discriminate. cbn in EO. apply Nat.eqb_neq in EO.
        cbn [bsys_step]. destruct (nth_error (s_rds s) j); [|exact V]. destruct (run (do_call (s_buf s) c) b).
        destruct V as (Hb & Hl & Hn). cbn. repeat split; cbn; auto; [now rewrite set_nth_length|].
        now rewrite set_nth_other. }
      destruct (bsys_step s o) as [s1 v]. cbn [fst] in V1. specialize (IH s1 t V1).
      destruct (bsys_run s1 ops) as [s2 vs]. cbn [fst snd combine filter] in *. rewrite EO. exact IH. }
  intros s outs alone s_alone. destruct (K s s) as [K1 (K2 & _ & K3)]; [repeat split|]. subst outs alone s_alone. auto.
Qed.
Print Assumptions C23_readers_independent.
Example C23_nonvacuous :
  length (filter (not_others 0) hist) = 13 /\ length hist = 17 /\
  snd (bsys_run (MkBS empty_buf []) (filter (not_others 0) hist)) =
  [OUnit (Ok tt); OUnit (Ok tt); OUnit (Ok tt); OVal (Ok (VItem (row 1 10))); OUnit (Ok tt);
   OUnit (Ok tt); OUnit (Raise ValueError); OUnit (Ok tt); OVal (Ok (VList [row 2 20; row 4 40]));
   OVal (Ok (VItem (row 7 70))); OUnit (Ok tt); OVal (Ok (VItem (row 4 40))); OVal (Raise ValueError)].
Proof. vm_compute. repeat split. Qed.
