(** * Property theorems: any number of threads on one buffer, step by step (C80-C83) *)
From Coq Require Import List ZArith Bool Arith Lia Sorting.Sorted.
From Verif Require Import PyVal PyLib SortedDequeM Spec SpecDeque SpecLog SpecReader BufferReaderM BufferSysM Families ListFacts DequeFacts DequeSearch LogFacts LogReads
  PropsDeque PropsReader PropsLog RWLockM SpecLock LockFacts LockProps ReaderStepsM SpecLin LinFacts LinShape LinSim LinStep LinRun LinSerial.
Import ListNotations.

(** ** C80 *)
Theorem C80_linearizable :
  forall it key maxlen d0, sd_init it key maxlen = Ok d0 ->
  forall readers scripts sched s, lrun (linit d0 readers scripts) sched = Some s ->
  one_call_per_reader (ls_tr s) ->
  exists w,
    (* what the clients saw, with an instant for each call between its start and its return *)
    seen w = ls_tr s /\ (forall i, one_at_a_time (of_thread i w)) /\
    (* the answers are those of the calls made one after the other in the order of the instants *)
    snd (bsys_run (MkBS d0 readers) (acts w)) = answers w /\
    (* and so are the buffer and the cursors whenever no call is under way *)
    (at_rest s -> fst (bsys_run (MkBS d0 readers) (acts w)) = MkBS (the_buf s) (ls_rds s)).
Proof.
  intros it key m d0 H rds scripts sched s HR NO.
  destruct (sim_run (sd_key d0) d0 rds sched _ _ _ _ s
    (sim_init (sd_key d0) scripts d0 rds (consistent_init _ _ _ _ H) eq_refl) NO HR) as (w & b & P & S).
  exists w. split; [exact (sm_seen _ _ _ _ _ _ _ S)|]. split; [intro i; apply (hist_one i (P i)), (sm_hist _ _ _ _ _ _ _ S)|].
  rewrite (sm_run _ _ _ _ _ _ _ S). cbn [fst snd]. split; [reflexivity|]. intro R. exact (sim_rest _ _ _ _ _ _ _ S R).
Qed.
Print Assumptions C80_linearizable.

(** The calls a thread makes are those of its script, in order. *)
Lemma invoked_app i a c : invoked i (a ++ c) = invoked i a ++ invoked i c. Proof. apply flat_map_app. Qed.
Definition on_script (scripts : list (list lop)) (s : lstate) : Prop :=
  forall i q, nth_error scripts i = Some q -> exists h, nth_error (ls_ths s) i = Some h /\ q = invoked i (ls_tr s) ++ h_todo h.
Lemma lstep_script scripts s i s' : lstep s i = Some s' -> on_script scripts s -> on_script scripts s'.
Proof.
  intros H F j q Hq. destruct (F j q Hq) as (g & Hg & E). unfold lstep in H.
  destruct (nth_error (st_ths (ls_lock s)) i) as [t|] eqn:Hi; [|discriminate].
  destruct (nth_error (ls_ths s) i) as [h|] eqn:Hh; [|discriminate].
  assert (GEN : forall k rds h' tr', invoked j (ls_tr s ++ tr') ++ h_todo (if Nat.eqb i j then h' else g) = invoked j (ls_tr s) ++ h_todo g ->
     exists g', nth_error (ls_ths (MkLs k rds (go s i h') (ls_tr s ++ tr'))) j = Some g' /\
       q = invoked j (ls_tr (MkLs k rds (go s i h') (ls_tr s ++ tr'))) ++ h_todo g').
  { intros k rds h' tr' G. cbn [ls_ths ls_tr]. unfold go. rewrite nth_error_set_nth. destruct (Nat.eqb_spec i j) as [<-|N].
    - rewrite Hh. eexists. split; [reflexivity|]. congruence.
    - exists g. split; [exact Hg|]. congruence. }
  assert (GEN0 : forall k rds ph, exists g', nth_error (ls_ths (MkLs k rds (go s i (MkLth ph (h_todo h))) (ls_tr s))) j = Some g' /\
       q = invoked j (ls_tr (MkLs k rds (go s i (MkLth ph (h_todo h))) (ls_tr s))) ++ h_todo g').
  { intros k rds ph. pose proof (GEN k rds (MkLth ph (h_todo h)) []) as G. rewrite app_nil_r in G. apply G.
    destruct (Nat.eqb_spec i j) as [<-|N]; [|reflexivity]. cbn. congruence. }
  assert (RET : forall k rds o v ph, exists g', nth_error (ls_ths (MkLs k rds (go s i (MkLth ph (h_todo h))) (ls_tr s ++ [HRes i o v]))) j = Some g' /\
       q = invoked j (ls_tr (MkLs k rds (go s i (MkLth ph (h_todo h))) (ls_tr s ++ [HRes i o v]))) ++ h_todo g').
  { intros. apply GEN. rewrite invoked_app. cbn. rewrite app_nil_r. destruct (Nat.eqb_spec i j) as [<-|N]; [|reflexivity]. cbn. congruence. }
  assert (INV : forall k rds o ph q', h_todo h = o :: q' -> exists g', nth_error (ls_ths (MkLs k rds (go s i (MkLth ph q')) (ls_tr s ++ [HInv i o]))) j = Some g' /\
       q = invoked j (ls_tr (MkLs k rds (go s i (MkLth ph q')) (ls_tr s ++ [HInv i o]))) ++ h_todo g').
  { intros k rds o ph q' T. apply GEN. rewrite invoked_app. cbn. destruct (Nat.eqb_spec i j) as [<-|N]; cbn; [|now rewrite app_nil_r].
    assert (g = h) by congruence. subst g. now rewrite T, <- app_assoc. }
  destruct (in_lock t).
  - destruct (RWLockM.step (ls_lock s) i) as [k|]; [|discriminate]. injection H as <-.
    destruct (h_ph h) as [|r c p|o out]; [exists g; auto|exists g; auto|apply GEN0].
  - destruct (h_ph h) as [|r c p|o out].
    + destruct (h_todo h) as [|[x|n| |r c] q'] eqn:T; try discriminate.
      * injection H as <-. now apply INV.
      * injection H as <-. now apply INV.
      * destruct (Nat.ltb _ _); [|discriminate]. injection H as <-. now apply INV.
    + destruct p; try (injection H as <-; auto); destruct (nth_error (ls_rds s) r); try discriminate; injection H as <-; apply GEN0.
    + destruct out; [|discriminate]. injection H as <-. apply RET.
Qed.
Lemma lrun_script scripts sched : forall s s', lrun s sched = Some s' -> on_script scripts s -> on_script scripts s'.
Proof.
  induction sched as [|i q IH]; intros s s' H F; cbn in H; [now injection H as <-|].
  destruct (lstep s i) as [s1|] eqn:E; [|discriminate]. eapply IH; eauto. eapply lstep_script; eauto.
Qed.
Definition known_threads (n : nat) (s : lstate) : Prop :=
  length (ls_ths s) = n /\ forall i o, In (HInv i o) (ls_tr s) -> i < n.
Lemma lstep_threads n s i s' : lstep s i = Some s' -> known_threads n s -> known_threads n s'.
Proof.
  intros H [L F]. unfold lstep in H.
  destruct (nth_error (st_ths (ls_lock s)) i) as [t|] eqn:Hi; [|discriminate].
  destruct (nth_error (ls_ths s) i) as [h|] eqn:Hh; [|discriminate].
  assert (IN : i < n) by (rewrite <- L; apply nth_error_Some; congruence).
  assert (GEN : forall k rds h' e, (forall j o, In (HInv j o) e -> j = i) -> known_threads n (MkLs k rds (go s i h') (ls_tr s ++ e))).
  { intros k rds h' e G. split; cbn [ls_ths ls_tr]; [unfold go; now rewrite set_nth_length|].
    intros j o Hj. apply in_app_or in Hj as [Hj|Hj]; [exact (F j o Hj)|]. now rewrite (G j o Hj). }
  assert (GEN0 : forall k rds h', known_threads n (MkLs k rds (go s i h') (ls_tr s))).
  { intros k rds h'. rewrite <- (app_nil_r (ls_tr s)). apply GEN. contradiction. }
  assert (G1 : forall k rds h' o, known_threads n (MkLs k rds (go s i h') (ls_tr s ++ [HInv i o]))).
  { intros. apply GEN. intros j o' [E|[]]. now injection E as -> ->. }
  assert (G2 : forall k rds h' o v, known_threads n (MkLs k rds (go s i h') (ls_tr s ++ [HRes i o v]))).
  { intros. apply GEN. intros j o' [E|[]]. discriminate. }
  destruct (in_lock t).
  - destruct (RWLockM.step (ls_lock s) i) as [k|]; [|discriminate]. injection H as <-.
    destruct (h_ph h) as [|r c p|o out]; [split; assumption|split; assumption|apply GEN0].
  - destruct (h_ph h) as [|r c p|o out].
    + destruct (h_todo h) as [|[x|z| |r c] q'] eqn:T; try discriminate.
      * injection H as <-. apply G1.
      * injection H as <-. apply G1.
      * destruct (Nat.ltb _ _); [|discriminate]. injection H as <-. apply G1.
    + destruct p; try (injection H as <-; auto); destruct (nth_error (ls_rds s) r); try discriminate; injection H as <-; apply GEN0.
    + destruct out; [|discriminate]. injection H as <-. apply G2.
Qed.
Lemma lrun_threads n sched : forall s s', lrun s sched = Some s' -> known_threads n s -> known_threads n s'.
Proof.
  induction sched as [|i q IH]; intros s s' H F; cbn in H; [now injection H as <-|].
  destruct (lstep s i) as [s1|] eqn:E; [|discriminate]. eapply IH; eauto. eapply lstep_threads; eauto.
Qed.
Lemma in_invoked i o tr : In (HInv i o) tr -> In o (invoked i tr).
Proof. intro H. unfold invoked. apply in_flat_map. eexists. split; [exact H|]. cbn. rewrite Nat.eqb_refl. now left. Qed.
(* every call seen is one of its thread's script *)
Lemma lrun_called d0 rds scripts sched s : lrun (linit d0 rds scripts) sched = Some s ->
  forall i o, In (HInv i o) (ls_tr s) -> exists q, nth_error scripts i = Some q /\ In o q.
Proof.
  intros H i o Hin.
  assert (K : known_threads (length scripts) s).
  { eapply lrun_threads; [exact H|]. split; [cbn; apply map_length|contradiction]. }
  assert (S : on_script scripts s).
  { eapply lrun_script; [exact H|]. intros j q Hq. exists (MkLth PhIdle q). split; [|reflexivity]. cbn. now apply map_nth_error. }
  destruct (nth_error scripts i) as [q|] eqn:E; [|apply nth_error_None in E; destruct K as [_ K]; specialize (K i o Hin); lia].
  exists q. split; [reflexivity|]. destruct (S i q E) as (h & _ & ->). apply in_or_app. left. now apply in_invoked.
Qed.
(** In particular when every reader belongs to one thread. *)
Lemma not_shared_one_call d0 rds scripts sched s : readers_not_shared scripts -> lrun (linit d0 rds scripts) sched = Some s ->
  one_call_per_reader (ls_tr s).
Proof.
  intros OWN HR a i r c b j c' z E N. exfalso. apply N.
  destruct (lrun_called _ _ _ _ _ HR i (LCall r c)) as (q & Q1 & Q2); [rewrite E; apply in_or_app; right; now left|].
  destruct (lrun_called _ _ _ _ _ HR j (LCall r c')) as (q' & Q1' & Q2').
  { rewrite E. apply in_or_app. right. right. apply in_or_app. right. now left. }
  exact (OWN i j q q' r c c' Q1 Q1' Q2 Q2').
Qed.
Theorem C80_linearizable_own_readers :
  forall it key maxlen d0, sd_init it key maxlen = Ok d0 ->
  forall readers scripts, readers_not_shared scripts ->
  forall sched s, lrun (linit d0 readers scripts) sched = Some s ->
  exists w, seen w = ls_tr s /\ (forall i, one_at_a_time (of_thread i w)) /\
    snd (bsys_run (MkBS d0 readers) (acts w)) = answers w /\
    (at_rest s -> fst (bsys_run (MkBS d0 readers) (acts w)) = MkBS (the_buf s) (ls_rds s)).
Proof.
  intros it key m d0 H rds scripts OWN sched s HR. exact (C80_linearizable it key m d0 H rds scripts sched s HR (not_shared_one_call _ _ _ _ _ OWN HR)).
Qed.
Print Assumptions C80_linearizable_own_readers.

(** Two writers and two reading threads. *)
Definition lin_scripts : list (list lop) :=
  [[LAppend (row 1 0); LAppend (row 3 0); BufferSysM.LDrop 1]; [LAppend (row 2 0)];
   [LCall 0 (CRead noargs); LCall 0 (CTail false true true)];
   [LCall 1 (CRead (MkRA (Some 2%Z) None None None))]].
Definition lin_readers : list breader := [mk_breader 1 false false true; mk_breader 1 false false true].
(* the schedule in which the threads of [turns] move in turn when they can *)
Fixpoint in_turn (fuel : nat) (s : lstate) (turns : list nat) : list nat :=
  match fuel, turns with
  | S f, i :: q => match lstep s i with Some s' => i :: in_turn f s' (q ++ [i]) | None => in_turn f s (q ++ [i]) end
  | _, _ => []
  end.
Definition lin_sched : list nat := in_turn 1000 (linit empty_buf lin_readers lin_scripts) [0; 2; 3; 1; 2; 3; 2].
(** All calls overlap others; the second read of thread 2 sees the append of thread 1 that
    returned meanwhile. *)
Definition all_idle (s : lstate) : bool := forallb (fun h => match h_ph h with PhIdle => true | _ => false end) (ls_ths s).
Lemma idle_at_rest s : all_idle s = true -> at_rest s.
Proof.
  unfold all_idle. intros E i h Hi. rewrite forallb_forall in E. apply nth_error_In in Hi. specialize (E h Hi).
  now destruct (h_ph h).
Qed.
Lemma look_at {A} (f : lstate -> A) x a : option_map f x = Some a -> exists s, x = Some s /\ f s = a.
Proof. destruct x as [s|]; [|discriminate]. cbn. intro E. injection E as E. eauto. Qed.
Example C80_nonvacuous :
  sd_init [] fst_key (Some 3%Z) = Ok empty_buf /\ readers_not_shared lin_scripts /\
  exists s, lrun (linit empty_buf lin_readers lin_scripts) lin_sched = Some s /\ at_rest s /\
    map (fun e => match e with HInv i _ => i | HRes i _ _ => 10 + i end) (ls_tr s) =
      [0; 2; 3; 1; 12; 2; 13; 10; 0; 11; 12; 10; 0; 10] /\
    received 0 (ls_tr s) = [row 2 0] /\ sd_items (the_buf s) = [row 2 0; row 3 0].
Proof.
  split; [reflexivity|]. split.
  { intros i j qi qj r c c' Hi Hj. destruct i as [|[|[|[|[|i]]]]]; try discriminate Hi; injection Hi as <-;
      destruct j as [|[|[|[|[|j]]]]]; try discriminate Hj; injection Hj as <-; cbn; intros H1 H2;
      repeat match goal with H : _ \/ _ |- _ => destruct H end; try contradiction; congruence. }
  destruct (look_at (fun s => (all_idle s, map (fun e => match e with HInv i _ => i | HRes i _ _ => 10 + i end) (ls_tr s), received 0 (ls_tr s), sd_items (the_buf s)))
    (lrun (linit empty_buf lin_readers lin_scripts) lin_sched) (true, [0; 2; 3; 1; 12; 2; 13; 10; 0; 11; 12; 10; 0; 10], [row 2 0], [row 2 0; row 3 0]))
    as (s & E & O); [vm_compute; reflexivity|].
  injection O as O1 O2 O3 O4. exists s. split; [exact E|]. split; [now apply idle_at_rest|]. auto.
Qed.

(** ** C81 *)
(** [len(stream_buffer)] and [len(buffer)] take no lock (locked_sorted_deque.py:33-34): here is
    what they can find, at every instant of every execution. *)
Section Bound.
Variable m : nat.
Definition fits (d : sdeque) : Prop := sd_bound d = Some m /\ length (sd_keys d) <= m /\ length (sd_items d) <= m.
Definition keeps_fit (f : sdeque -> option sdeque) : Prop := forall d d', f d = Some d' -> fits d -> fits d'.
Definition fit_script (q : list (sop sdeque)) : Prop := Forall (fun o => match o with SWrite w => Forall keeps_fit w | _ => True end) q.
Definition fit_thread (t : RWLockM.thread sdeque) : Prop :=
  Forall keeps_fit (t_cur t) /\ fit_script (t_todo t) /\ forall rest, t_pc t = WIn rest -> Forall keeps_fit rest.
Definition fit_state (s : lstate) : Prop :=
  fits (the_buf s) /\ forall i t, nth_error (st_ths (ls_lock s)) i = Some t -> fit_thread t.
Lemma deque_append_fits {A} (l : list A) x : length l <= m -> length (deque_append (Some m) l x) <= m.
Proof.
  intro H. unfold deque_append. destruct (Nat.ltb_spec m (length (l ++ [x]))) as [L|L]; [|exact L].
  rewrite app_length in L. destruct l; cbn in *; [lia|]. rewrite app_length. cbn. lia.
Qed.
Lemma write_body_fits o : Forall keeps_fit (write_body o).
Proof.
  destruct o as [x|n| |]; cbn; try constructor.
  - intros d d' H F. unfold sd_check in H. destruct (snd _); [|discriminate]. now injection H as <-.
  - constructor; [|constructor; [|constructor]].
    + intros d d' H (F1 & F2 & F3). unfold sd_push_key in H. destruct (sd_key d x); [|discriminate]. injection H as <-.
      unfold fits. cbn. rewrite F1. split; [reflexivity|]. split; [now apply deque_append_fits|exact F3].
    + intros d d' H (F1 & F2 & F3). unfold sd_push_item in H. injection H as <-.
      unfold fits. cbn. rewrite F1. split; [reflexivity|]. split; [exact F2|now apply deque_append_fits].
  - unfold drop_body. induction (repeat tt (Z.to_nat n)); cbn; [constructor|]. constructor; [|constructor; [|assumption]].
    + intros d d' H (F1 & F2 & F3). unfold del_key0 in H. destruct (sd_keys d) eqn:E; [discriminate|]. injection H as <-.
      unfold fits. cbn in *. split; [exact F1|]. split; [lia|exact F3].
    + intros d d' H (F1 & F2 & F3). unfold del_item0 in H. destruct (sd_items d) eqn:E; [discriminate|]. injection H as <-.
      unfold fits. cbn in *. split; [exact F1|]. split; [exact F2|lia].
Qed.
Lemma tstep_fits h t h' t' : tstep h t = Some (h', t') -> fit_thread t -> fits (l_data h) -> fit_thread t' /\ fits (l_data h').
Proof.
  intros H (F1 & F2 & F3) D. destruct t as [p n cu q]. unfold fit_thread. cbn [t_pc t_nest t_cur t_todo] in *.
  unfold tstep, acquire, release in H. cbn [t_pc t_nest t_cur t_todo] in H.
  destruct p;
    repeat match type of H with
    | Some (_, at_pc _ (if ?a then _ else _)) = _ => destruct a
    | Some _ = Some _ => fail 1
    | (match ?x with _ => _ end) = _ => destruct x eqn:?; try discriminate
    end; injection H as <- <-; cbn [at_pc t_pc t_cur t_todo l_data];
    try (split; [|exact D]); try (split; [exact F1|split; [exact F2|discriminate]]).
  all: try (split; [assumption|split; [now inversion F2|discriminate]]).
  all: try (inversion F2; subst; split; [assumption|split; [assumption|discriminate]]).
  all: try (split; [assumption|split; [assumption|intros rest' E; try discriminate; injection E as <-; assumption]]).
  all: try (destruct n; split; [assumption|split; [assumption|discriminate]| |]; assumption).
  all: try (specialize (F3 _ eq_refl); pose proof (Forall_inv F3) as G1; pose proof (Forall_inv_tail F3) as G2;
            split; [|eapply G1; eauto]; split; [assumption|split; [assumption|intros rest' E; injection E as <-; assumption]]).
Qed.
Lemma set_nth_some {A} (l : list A) i x j y : nth_error (set_nth l i x) j = Some y -> (j = i /\ y = x) \/ nth_error l j = Some y.
Proof.
  rewrite nth_error_set_nth. destruct (Nat.eqb_spec i j) as [<-|]; [|auto]. destruct (nth_error l i); [|discriminate].
  intro H. injection H as <-. auto.
Qed.
Lemma ask_fits s i q : fit_state s -> fit_script q -> fits (l_data (st_sh (ask s i q))) /\
  forall j t, nth_error (st_ths (ask s i q)) j = Some t -> fit_thread t.
Proof.
  intros [F1 F2] Q. unfold ask. destruct (nth_error (st_ths (ls_lock s)) i) as [u|] eqn:E; [|split; assumption]. cbn [st_sh st_ths].
  split; [exact F1|]. intros j t Hj. apply set_nth_some in Hj as [[-> ->]|Hj]; [|now apply (F2 j)].
  destruct (F2 i u E) as (G1 & G2 & G3). unfold fit_thread. cbn. auto.
Qed.
Lemma lstep_fits s i s' : lstep s i = Some s' -> fit_state s -> fit_state s'.
Proof.
  unfold lstep. intros H F. destruct (nth_error (st_ths (ls_lock s)) i) as [t|] eqn:Hi; [|discriminate].
  destruct (nth_error (ls_ths s) i) as [h|] eqn:Hh; [|discriminate].
  assert (ASK : forall q rds ths tr, fit_script q -> fit_state (MkLs (ask s i q) rds ths tr)).
  { intros q rds ths tr Q. exact (ask_fits s i q F Q). }
  assert (SAME : forall rds ths tr, fit_state (MkLs (ls_lock s) rds ths tr)) by (intros; exact F).
  assert (Q1 : fit_script [SAcq]) by (repeat constructor). assert (Q2 : fit_script [SRel]) by (repeat constructor).
  assert (Q3 : forall o, fit_script [SWrite (write_body o)]) by (intro o; constructor; [apply write_body_fits|constructor]).
  destruct (in_lock t).
  - destruct (RWLockM.step (ls_lock s) i) as [k|] eqn:Hk; [|discriminate]. injection H as <-.
    apply step_inv in Hk as (t0 & h' & t' & Hi0 & Ht & ->). assert (t0 = t) by congruence. subst t0.
    destruct F as [F1 F2]. destruct (tstep_fits _ _ _ _ Ht (F2 i t Hi) F1) as [G1 G2].
    split; [exact G2|]. cbn [ls_lock st_ths]. intros j u Hj. apply set_nth_some in Hj as [[-> ->]|Hj]; [exact G1|now apply (F2 j)].
  - destruct (h_ph h) as [|r c p|o out].
    + destruct (h_todo h) as [|[x|n| |r c] q]; try discriminate.
      * injection H as <-. apply ASK. exact (Q3 (LAppend x)).
      * injection H as <-. apply ASK. exact (Q3 (BufferSysM.LDrop n)).
      * destruct (Nat.ltb _ _); [|discriminate]. injection H as <-. apply SAME.
    + destruct p; try (injection H as <-; auto); destruct (nth_error (ls_rds s) r); try discriminate; injection H as <-; apply SAME.
    + destruct out; [|discriminate]. injection H as <-. apply SAME.
Qed.
Lemma lrun_fits sched : forall s s', lrun s sched = Some s' -> fit_state s -> fit_state s'.
Proof.
  induction sched as [|i q IH]; intros s s' H F; cbn in H; [now injection H as <-|].
  destruct (lstep s i) as [s1|] eqn:E; [|discriminate]. eapply IH; eauto. eapply lstep_fits; eauto.
Qed.
Lemma deque_of_fits {A} (l : list A) : length (deque_of (Some m) l) <= m.
Proof.
  unfold deque_of. assert (G : forall (l a : list A), length a <= m -> length (fold_left (deque_append (Some m)) l a) <= m).
  { clear l. induction l as [|x q IH]; intros a Ha; [exact Ha|]. cbn [fold_left]. apply IH. now apply deque_append_fits. }
  apply G. cbn. lia.
Qed.
End Bound.
Theorem C81_len_never_exceeds_maxlen :
  forall it key m d0, sd_init it key (Some m) = Ok d0 ->
  forall readers scripts sched s, lrun (linit d0 readers scripts) sched = Some s ->
    (Z.of_nat (sd_len (the_buf s)) <= m)%Z.
Proof.
  intros it key m d0 H rds scripts sched s HR. unfold sd_init in H.
  destruct (sc_init it key) as [c|]; [|discriminate]. cbn in H.
  destruct (Z.ltb_spec m 0); [discriminate|]. cbn in H. injection H as <-.
  assert (F : fit_state (Z.to_nat m) s).
  { eapply lrun_fits; [exact HR|]. split.
    - unfold fits. cbn. split; [reflexivity|]. split; apply deque_of_fits.
    - cbn. intros i t Hi. rewrite map_map in Hi. apply nth_error_map_some in Hi as (q' & Hq' & ->). unfold fit_thread. cbn.
      split; [constructor|]. split; [constructor|discriminate]. }
  destruct F as [(_ & _ & F) _]. unfold sd_len. lia.
Qed.
Print Assumptions C81_len_never_exceeds_maxlen.
(** In the middle of an append to a full buffer: the new key is in, the new item is not. *)
Example C81_nonvacuous :
  exists d0, sd_init [row 1 0; row 2 0] fst_key (Some 2%Z) = Ok d0 /\
  exists s, lrun (linit d0 [] [[LAppend (row 3 0)]]) (repeat 0 11) = Some s /\
    sd_keys (the_buf s) = [PInt 2; PInt 3] /\ sd_items (the_buf s) = [row 1 0; row 2 0].
Proof.
  eexists. split; [reflexivity|].
  match goal with |- exists s, ?x = Some s /\ _ => 
    destruct (look_at (fun s => (sd_keys (the_buf s), sd_items (the_buf s))) x ([PInt 2; PInt 3], [row 1 0; row 2 0])) as (s & E & O);
      [vm_compute; reflexivity|] end.
  injection O as O1 O2. eauto.
Qed.

(** ** C82 *)
(** One reader given to two threads, which both call read(): every call holds the lock while
    it reads and moves the cursor, but as a reader. Both can get the same item; and one of
    them can raise TypeError. *)
Definition shared_reader_start : lstate :=
  linit (MkSD [PInt 1; PInt 2] [row 1 0; row 2 0] fst_key (Some 3) (Some 3%Z))
    [mk_breader 1 false false true] [[LCall 0 (CRead noargs)]; [LCall 0 (CRead noargs)]].
Theorem C82_shared_reader_refuted :
  sd_init [row 1 0; row 2 0] fst_key (Some 3%Z) = Ok (the_buf shared_reader_start) /\
  (exists sched s, lrun shared_reader_start sched = Some s /\ at_rest s /\
     received 0 (ls_tr s) = [row 1 0; row 1 0]) /\
  (exists sched s, lrun shared_reader_start sched = Some s /\ at_rest s /\
     In (HRes 0 (LCall 0 (CRead noargs)) (OVal (Raise TypeError))) (ls_tr s)).
Proof.
  split; [reflexivity|]. split.
  - destruct (look_at (fun s => (all_idle s, received 0 (ls_tr s))) (lrun shared_reader_start (repeat 0 20 ++ repeat 1 31 ++ repeat 0 13))
      (true, [row 1 0; row 1 0])) as (s & E & O); [vm_compute; reflexivity|]. injection O as O1 O2.
    eexists. exists s. split; [exact E|]. split; [now apply idle_at_rest|exact O2].
  - destruct (look_at (fun s => (all_idle s, ls_tr s)) (lrun shared_reader_start (repeat 0 17 ++ repeat 1 31 ++ repeat 0 12))
      (true, [HInv 0 (LCall 0 (CRead noargs)); HInv 1 (LCall 0 (CRead noargs)); HRes 1 (LCall 0 (CRead noargs)) (OVal (Ok (VItem (row 1 0))));
              HRes 0 (LCall 0 (CRead noargs)) (OVal (Raise TypeError))])) as (s & E & O); [vm_compute; reflexivity|]. injection O as O1 O2.
    eexists. exists s. split; [exact E|]. split; [now apply idle_at_rest|]. rewrite O2. cbn. auto.
Qed.
Print Assumptions C82_shared_reader_refuted.

(** ** C83 *)
Lemma acted_called w i o v : one_at_a_time (of_thread i w) -> In (XAct i o v) w -> In (XInv i o) w.
Proof.
  intros H Hin. assert (A : In (XAct i o v) (of_thread i w)) by (apply filter_In; cbn; now rewrite Nat.eqb_refl).
  assert (B : In (XInv i o) (of_thread i w)); [|now apply filter_In in B].
  revert A. generalize (of_thread i w) H. clear. intros l H. induction H; cbn.
  - tauto.
  - intros [E|[]]; discriminate.
  - intros [E|[E|[]]]; [discriminate|]. injection E as -> -> ->. now left.
  - intros [E|[E|[E|E]]]; try discriminate; [injection E as -> -> ->; now left|]. right. right. right. auto.
Qed.
Lemma returned_called w i o v : one_at_a_time (of_thread i w) -> In (XRes i o v) w -> In (XInv i o) w.
Proof.
  intros H Hin. assert (A : In (XRes i o v) (of_thread i w)) by (apply filter_In; cbn; now rewrite Nat.eqb_refl).
  assert (B : In (XInv i o) (of_thread i w)); [|now apply filter_In in B].
  revert A. generalize (of_thread i w) H. clear. intros l H. induction H; cbn.
  - tauto.
  - intros [E|[]]; discriminate.
  - intros [E|[E|[]]]; discriminate.
  - intros [E|[E|[E|E]]]; try discriminate; [injection E as -> -> ->; now left|]. right. right. right. auto.
Qed.
Lemma seen_inv w i o : In (XInv i o) w -> In (HInv i o) (seen w).
Proof. intro H. apply in_flat_map. eexists. split; [exact H|]. now left. Qed.

Section Got.
Variable r : nat.
Definition act_got (e : xev) : list pyval := match e with XAct _ (LCall j _) v => if Nat.eqb r j then got_from v else [] | _ => [] end.
Definition res_got (e : xev) : list pyval := match e with XRes _ (LCall j _) v => if Nat.eqb r j then got_from v else [] | _ => [] end.
Lemma got_acts w : got r (acts w) (answers w) = flat_map act_got w.
Proof.
  induction w as [|[i o|i o v|i o v] w IH]; cbn [acts answers flat_map app act_got]; auto.
  fold (acts w). fold (answers w). destruct o; cbn [got app]; auto. now rewrite IH.
Qed.
Lemma received_seen w : received r (seen w) = flat_map res_got w.
Proof.
  unfold received, seen. induction w as [|[i o|i o v|i o v] w IH]; cbn [flat_map app res_got]; auto.
  rewrite IH. reflexivity.
Qed.
Lemma got_on_reader (f : xev -> list pyval) w : (forall e, on_r r (op_of e) = false -> f e = []) -> flat_map f w = flat_map f (on_reader r w).
Proof.
  intro H. induction w as [|e w IH]; cbn; [reflexivity|]. rewrite IH. destruct (on_r r (op_of e)) eqn:E; cbn; [reflexivity|]. now rewrite H.
Qed.
Lemma one_prefix_got l : one_at_a_time l -> exists t, flat_map act_got l = flat_map res_got l ++ t.
Proof.
  induction 1 as [|i o|i o v|i o v w H (t & IH)]; cbn.
  - now exists [].
  - now exists [].
  - eexists. reflexivity.
  - exists t. rewrite IH. now rewrite app_assoc.
Qed.
Lemma on_reader_got w : (exists t, flat_map act_got w = flat_map res_got w ++ t) <->
  exists t, flat_map act_got (on_reader r w) = flat_map res_got (on_reader r w) ++ t.
Proof.
  rewrite (got_on_reader act_got w), (got_on_reader res_got w); [reflexivity| |];
    intros [i o|i o v|i o v] E; auto; destruct o; auto; cbn in *; now rewrite E.
Qed.
End Got.
Lemma sorted_prefix {A} (R : A -> A -> Prop) a b : StronglySorted R (a ++ b) -> StronglySorted R a.
Proof.
  induction a as [|x a IH]; intro H; constructor; cbn in H; inversion H as [|? ? H1 H2]; subst; auto. now apply Forall_app in H2.
Qed.
Lemma subseq_in {A} (a b : list A) x : subseq a b -> In x a -> In x b.
Proof. induction 1; cbn; intuition. Qed.
Definition made_as (d : Z * bool * bool * bool) : lop := let '(n, p, st, ig) := d in LMk n p st ig.
Definition reader_of (d : Z * bool * bool * bool) : breader := let '(n, p, st, ig) := d in mk_breader n p st ig.
Lemma run_made ds : forall d rds, bsys_run (MkBS d rds) (map made_as ds) = (MkBS d (rds ++ map reader_of ds), map (fun _ => OUnit (Ok tt)) ds).
Proof.
  induction ds as [|[[[n p] st] ig] ds IH]; intros d rds; cbn; [now rewrite app_nil_r|]. rewrite IH. now rewrite <- app_assoc.
Qed.
Lemma got_app r a c v1 v2 : length a = length v1 -> got r (a ++ c) (v1 ++ v2) = got r a v1 ++ got r c v2.
Proof.
  revert v1. induction a as [|o a IH]; intros [|v v1] E; try discriminate; [reflexivity|]. cbn in E.
  destruct o; cbn; rewrite (IH v1) by lia; auto. now rewrite app_assoc.
Qed.
Lemma in_appended x ops : In x (appended ops) -> In (LAppend x) ops.
Proof. induction ops as [|[y| | |] q IH]; cbn; try tauto. intros [->|H]; auto. Qed.

(** Readers [reader_of d] are what mk_reader makes; reader [r] does not peek by default and is
    only used for read() and next() without peek. *)
Theorem C83_concurrent_reads_never_repeat :
  forall P, total_family P -> forall key maxlen d0, sd_init [] key maxlen = Ok d0 ->
  forall defaults scripts r n st ig, nth_error defaults r = Some (n, false, st, ig) ->
  (forall q o, In q scripts -> In o q -> op_ok P key o /\ forward r o) ->
  forall sched s, lrun (linit d0 (map reader_of defaults) scripts) sched = Some s ->
  one_call_per_reader (ls_tr s) ->
    strictly_ordered key (received r (ls_tr s)) /\
    forall x, In x (received r (ls_tr s)) -> In x (offered (ls_tr s)).
Proof.
  intros P F key m d0 H0 ds scripts r n st ig Hr OK sched s HR NO.
  destruct (C80_linearizable _ _ _ _ H0 _ _ _ _ HR NO) as (w & W1 & W2 & W3 & _).
  assert (CALLED : forall i o, In (XInv i o) w -> exists q, nth_error scripts i = Some q /\ In o q).
  { intros i o Hin. apply (lrun_called _ _ _ _ _ HR). rewrite <- W1. now apply seen_inv. }
  assert (ACT : forall i o v, In (XAct i o v) w -> exists q, nth_error scripts i = Some q /\ In o q).
  { intros i o v Hin. apply CALLED. eapply acted_called; eauto. }
  assert (OPS : forall o, In o (acts w) -> op_ok P key o /\ forward r o).
  { intros o Ho. apply in_flat_map in Ho as (e & He & Ho). destruct e as [| i o' v|]; try contradiction.
    destruct Ho as [->|[]]. destruct (ACT _ _ _ He) as (q & Q1 & Q2). apply (OK q o); [eapply nth_error_In; eauto|exact Q2]. }
  pose proof (C21_reads_never_repeat P F key m d0 H0 (map made_as ds ++ acts w)) as G.
  assert (G1 : Forall (op_ok P key) (map made_as ds ++ acts w)).
  { apply Forall_app. split; [|apply Forall_forall; intros o Ho; now apply OPS].
    apply Forall_forall. intros o Ho. apply in_map_iff in Ho as ([[[a b] c] e] & <- & _). exact I. }
  assert (G2 : forward_reader r (map made_as ds ++ acts w)).
  { split.
    - apply Forall_app. split; [|apply Forall_forall; intros o Ho; now apply OPS].
      apply Forall_forall. intros o Ho. apply in_map_iff in Ho as ([[[a b] c] e] & <- & _). exact I.
    - assert (M : forall ds l r n st ig, nth_error ds r = Some (n, false, st, ig) -> nth_error (made (map made_as ds ++ l)) r = Some false).
      { clear. induction ds as [|[[[a b] c] e] ds IH]; intros l [|r] n st ig Hr; try discriminate; cbn in *; [congruence|].
        eapply IH; eauto. }
      rewrite (M _ _ _ _ _ _ Hr). discriminate. }
  specialize (G G1 r G2). cbv zeta in G. rewrite bsys_app, run_made in G. cbn [app] in G.
  destruct (bsys_run (MkBS d0 (map reader_of ds)) (acts w)) as [b vs]. cbn [snd] in W3, G. subst vs.
  rewrite got_app in G by now rewrite !map_length.
  assert (G0 : forall ds : list (Z * bool * bool * bool), got r (map made_as ds) (map (fun _ => OUnit (Ok tt)) ds) = []).
  { clear. induction ds as [|[[[a b] c] e] ds IH]; cbn; auto. }
  rewrite G0 in G. cbn [app] in G. destruct G as (GA & GB & GC). rewrite got_acts in GA, GB.
  assert (PRE : exists t, flat_map (act_got r) w = flat_map (res_got r) w ++ t).
  { rewrite (on_reader_got r w). apply one_prefix_got. apply calls_in_turn; [exact W2|now rewrite W1]. }
  rewrite <- W1, received_seen. destruct PRE as (t & PRE). split.
  - rewrite PRE in GA. eapply sorted_prefix; eauto.
  - intros x Hx. assert (A : In x (flat_map (act_got r) w)) by (rewrite PRE; apply in_or_app; now left).
    pose proof (subseq_in _ _ x GC (subseq_in _ _ x GB A)) as B. apply in_appended in B. apply in_app_or in B as [B|B].
    + apply in_map_iff in B as ([[[a bb] c] e] & B & _). discriminate.
    + apply in_flat_map in B as (e & He & B). destruct e as [|i o v|]; try contradiction. destruct B as [->|[]].
      apply in_flat_map. exists (HInv i (LAppend x)). split; [|now left]. apply seen_inv. eapply acted_called; eauto.
Qed.
Print Assumptions C83_concurrent_reads_never_repeat.
(** The run of [C80_nonvacuous] with thread 2 using next() instead of tail(). *)
Definition fwd_scripts : list (list lop) :=
  [[LAppend (row 1 0); LAppend (row 3 0); BufferSysM.LDrop 1]; [LAppend (row 2 0)];
   [LCall 0 (CNext false); LCall 0 (CNext false); LCall 0 (CRead noargs)];
   [LCall 1 (CRead (MkRA (Some 2%Z) None None None))]].
Definition fwd_defaults : list (Z * bool * bool * bool) := [(1%Z, false, false, true); (1%Z, false, false, true)].
Definition fwd_start : lstate := linit empty_buf (map reader_of fwd_defaults) fwd_scripts.
Example C83_nonvacuous :
  readers_not_shared fwd_scripts /\ nth_error fwd_defaults 0 = Some (1%Z, false, false, true) /\
  (forall q o, In q fwd_scripts -> In o q -> op_ok is_int fst_key o /\ forward 0 o) /\
  exists s, lrun fwd_start (in_turn 1000 fwd_start [0; 1; 3; 2; 0; 1]) = Some s /\ at_rest s /\
    received 0 (ls_tr s) = [row 1 0; row 2 0; row 3 0].
Proof.
  split.
  { intros i j qi qj r c c' Hi Hj. destruct i as [|[|[|[|[|i]]]]]; try discriminate Hi; injection Hi as <-;
      destruct j as [|[|[|[|[|j]]]]]; try discriminate Hj; injection Hj as <-; cbn; intros H1 H2;
      repeat match goal with H : _ \/ _ |- _ => destruct H end; try contradiction; congruence. }
  split; [reflexivity|]. split.
  { intros q o Hq Ho. cbn in Hq.
    repeat destruct Hq as [<-|Hq]; try contradiction; cbn in Ho; repeat destruct Ho as [<-|Ho]; try contradiction; cbn;
      (split; [|auto; discriminate]); auto; split; try discriminate; intros k E; injection E as <-; eexists; reflexivity. }
  destruct (look_at (fun s => (all_idle s, received 0 (ls_tr s)))
    (lrun fwd_start (in_turn 1000 fwd_start [0; 1; 3; 2; 0; 1])) (true, [row 1 0; row 2 0; row 3 0])) as (s & E & O); [vm_compute; reflexivity|].
  injection O as O1 O2. exists s. split; [exact E|]. split; [now apply idle_at_rest|exact O2].
Qed.
(** *** C82, with the calls on a reader made one at a time *)
Lemma acts_split w i o v : In (XAct i o v) w -> exists pre post vs vt, acts w = pre ++ o :: post /\ answers w = vs ++ v :: vt /\ length vs = length pre.
Proof.
  intro H. apply in_split in H as (a & b & ->). exists (acts a), (acts b), (answers a), (answers b).
  rewrite acts_app, answers_app. split; [reflexivity|]. split; [reflexivity|].
  clear. induction a as [|[] a IH]; cbn; auto.
Qed.
Lemma res_acted w i o v : one_at_a_time (of_thread i w) -> In (XRes i o v) w -> In (XAct i o v) w.
Proof.
  intros H Hin. assert (A : In (XRes i o v) (of_thread i w)) by (apply filter_In; cbn; now rewrite Nat.eqb_refl).
  assert (B : In (XAct i o v) (of_thread i w)); [|now apply filter_In in B].
  revert A. generalize (of_thread i w) H. clear. intros l H. induction H; cbn.
  - tauto.
  - intros [E|[]]; discriminate.
  - intros [E|[E|[]]]; discriminate.
  - intros [E|[E|[E|E]]]; try discriminate; [injection E as -> -> ->; right; now left|]. right. right. right. auto.
Qed.
Lemma in_seen_res w i o v : In (HRes i o v) (seen w) -> In (XRes i o v) w.
Proof. intro H. apply seen_res in H. now apply filter_In in H. Qed.
Theorem C82_guarded_reader_partial :
  forall P, total_family P -> forall key maxlen d0, sd_init [] key maxlen = Ok d0 ->
  forall defaults scripts r n st ig, nth_error defaults r = Some (n, false, st, ig) ->
  (forall q o, In q scripts -> In o q -> op_ok P key o /\ forward r o) ->
  forall sched s, lrun (linit d0 (map reader_of defaults) scripts) sched = Some s ->
  one_call_per_reader (ls_tr s) ->
    (* no item was delivered twice, to whichever threads *)
    strictly_ordered key (received r (ls_tr s)) /\
    (* and every answer is that of the call after some sequence of calls that were made *)
    forall i c v, In (HRes i (LCall r c) v) (ls_tr s) ->
      exists before, (forall o, In o before -> exists j, In (HInv j o) (ls_tr s)) /\
        let (b, _) := bsys_run (MkBS d0 (map reader_of defaults)) before in snd (bsys_step b (LCall r c)) = v.
Proof.
  intros P F key m d0 H0 ds scripts r n st ig Hr OK sched s HR NO.
  split; [exact (proj1 (C83_concurrent_reads_never_repeat P F key m d0 H0 ds scripts r n st ig Hr OK sched s HR NO))|].
  intros i c v Hin. destruct (C80_linearizable _ _ _ _ H0 _ _ _ _ HR NO) as (w & W1 & W2 & W3 & _).
  rewrite <- W1 in Hin. apply in_seen_res in Hin. pose proof (res_acted w i _ _ (W2 i) Hin) as HA.
  destruct (acts_split w i _ _ HA) as (pre & post & vs & vt & E1 & E2 & L). exists pre. split.
  - intros o Ho. assert (A : In o (acts w)) by (rewrite E1; apply in_or_app; now left).
    apply in_flat_map in A as (e & He & A). destruct e as [|j o' v'|]; try contradiction. destruct A as [->|[]].
    exists j. rewrite <- W1. apply seen_inv. eapply acted_called; eauto.
  - rewrite E1, E2, bsys_app in W3. pose proof (run_length (MkBS d0 (map reader_of ds)) pre) as RL.
    destruct (bsys_run (MkBS d0 (map reader_of ds)) pre) as [b v1]. cbn [bsys_run] in W3. cbn [snd] in RL.
    destruct (bsys_step b (LCall r c)) as [b1 x]. destruct (bsys_run b1 post) as [b2 v2]. cbn [snd] in *.
    assert (G : forall (a a' : list lout) x y t t', length a = length a' -> a ++ x :: t = a' ++ y :: t' -> x = y).
    { induction a as [|z a IH]; intros [|z' a'] x' y t t' LL E; try discriminate; [now injection E|]. injection E as _ E. injection LL as LL. eapply IH; eauto. }
    eapply G; [|exact W3]. lia.
Qed.
Print Assumptions C82_guarded_reader_partial.
(** Histories are checked for overlaps by looking at what follows each call. *)
Fixpoint later_ok (i r : nat) (c : call) (l : list hev) : Prop :=
  match l with
  | [] => True
  | HInv j (LCall r' _) :: q => (r = r' -> i <> j -> False) /\ later_ok i r c q
  | HInv _ _ :: q => later_ok i r c q
  | HRes j o _ :: q => (j = i /\ o = LCall r c) \/ later_ok i r c q
  end.
Fixpoint all_ok (l : list hev) : Prop :=
  match l with [] => True | HInv i (LCall r c) :: q => later_ok i r c q /\ all_ok q | _ :: q => all_ok q end.
Lemma all_ok_sound l : all_ok l -> one_call_per_reader l.
Proof.
  intros H a i r c b j c' z E N.
  assert (L : later_ok i r c (b ++ HInv j (LCall r c') :: z)).
  { subst l. induction a as [|e a IH]; cbn in H; [apply H|]. apply IH. destruct e as [? []|]; tauto. }
  clear H E. induction b as [|e b IH]; cbn in L; [now destruct (proj1 L eq_refl N)|].
  destruct e as [k o|k o v].
  - destruct IH as (v & V); [destruct o; tauto|]. exists v. now right.
  - destruct L as [[-> ->]|L]; [exists v; now left|]. destruct (IH L) as (v' & V). exists v'. now right.
Qed.
Ltac check_overlaps := apply all_ok_sound; cbn [all_ok later_ok];
  repeat match goal with
  | |- True => exact I
  | |- _ /\ _ => split
  | |- _ = _ -> _ <> _ -> False => intros; congruence
  | |- (_ /\ _) \/ _ => first [left; split; reflexivity | right]
  end.
(** Two threads take turns on one reader while a third appends. *)
Definition turns_start : lstate :=
  linit empty_buf [mk_breader 1 false false true]
    [[LAppend (row 1 0); LAppend (row 2 0)]; [LCall 0 (CRead noargs); LCall 0 (CRead noargs)]; [LCall 0 (CRead noargs)]].
(* the writer moves whenever it can; thread 1 reads, then thread 2, then thread 1 *)
Fixpoint phases (s : lstate) (l : list (nat * list nat)) : list nat :=
  match l with
  | [] => []
  | (f, turns) :: q => let part := in_turn f s turns in
                       part ++ match lrun s part with Some s' => phases s' q | None => [] end
  end.
Definition turns_sched : list nat := phases turns_start [(88, [0; 1]); (80, [0; 2]); (60, [1])].
Example C82_guarded_nonvacuous :
  sd_init [] fst_key (Some 3%Z) = Ok empty_buf /\
  exists s, lrun turns_start turns_sched = Some s /\ at_rest s /\ one_call_per_reader (ls_tr s) /\
    ~ readers_not_shared [[LAppend (row 1 0); LAppend (row 2 0)]; [LCall 0 (CRead noargs); LCall 0 (CRead noargs)]; [LCall 0 (CRead noargs)]] /\
    flat_map (fun e => match e with HInv i _ => [(i, ONoReader)] | HRes i _ v => [(i, v)] end) (ls_tr s) =
      [(0, ONoReader); (1, ONoReader); (0, OUnit (Ok tt)); (0, ONoReader); (1, OVal (Ok (VItem (row 1 0))));
       (2, ONoReader); (0, OUnit (Ok tt)); (2, OVal (Ok (VItem (row 2 0)))); (1, ONoReader); (1, OVal (Ok VNone))].
Proof.
  split; [reflexivity|].
  destruct (look_at (fun s => (all_idle s, ls_tr s)) (lrun turns_start turns_sched) (true,
    [HInv 0 (LAppend (row 1 0)); HInv 1 (LCall 0 (CRead noargs)); HRes 0 (LAppend (row 1 0)) (OUnit (Ok tt)); HInv 0 (LAppend (row 2 0));
     HRes 1 (LCall 0 (CRead noargs)) (OVal (Ok (VItem (row 1 0)))); HInv 2 (LCall 0 (CRead noargs)); HRes 0 (LAppend (row 2 0)) (OUnit (Ok tt));
     HRes 2 (LCall 0 (CRead noargs)) (OVal (Ok (VItem (row 2 0)))); HInv 1 (LCall 0 (CRead noargs)); HRes 1 (LCall 0 (CRead noargs)) (OVal (Ok VNone))]))
    as (s & E & O); [vm_compute; reflexivity|].
  injection O as O1 O2. exists s. split; [exact E|]. split; [now apply idle_at_rest|]. rewrite O2. split; [check_overlaps|].
  split; [|reflexivity].
  intro OWN. discriminate (OWN 1 2 _ _ 0 _ _ eq_refl eq_refl (or_introl eq_refl) (or_introl eq_refl)).
Qed.

(** ** C18, access by access *)
(** Nothing of the lock is held. *)
Definition lock_free {D} (h : shared D) : Prop :=
  l_queue h = false /\ l_noread h = false /\ l_nowrite h = false /\ l_rmutex h = false /\ l_wmutex h = false /\
  n_read h = 0 /\ n_write h = 0.
Lemma idle_lock_free D (s : RWLockM.state D) : lock_inv D s ->
  (forall i t, nth_error (st_ths s) i = Some t -> t_pc t = Idle) -> lock_free (st_sh s).
Proof.
  intros [(gr & gw & [C1 C2 C3 C4 C5 C6 C7 C8 C9]) N] I.
  assert (Z : forall w, (forall t, t_pc t = Idle -> t_nest t = 0 -> w t = 0) -> total w (st_ths s) = 0).
  { intros w H. apply total_zero. intros i t Hi. pose proof (I i t Hi) as E. apply H; [exact E|].
    specialize (N i t Hi). unfold nest_ok in N. now rewrite E in N. }
  assert (E1 : forall b, b2n b = 0 -> b = false) by (intros []; cbn; lia).
  rewrite Z in C1, C2, C3, C4, C5, C6, C7 by (intros t E E0;
    unfold w_rmutex, w_wmutex, w_queue, w_noread, w_nread, w_nwrite, w_nowrite; rewrite E; auto).
  rewrite !Z in C8 by (intros t E E0; unfold w_rnw, w_xrel, w_rtest, w_xtest; now rewrite E).
  rewrite !Z in C9 by (intros t E E0; unfold w_wnr, w_vrel, w_wtest, w_vtest; now rewrite E).
  assert (gr = 0) by (unfold LockFacts.phase in C8; lia). assert (gw = 0) by (unfold LockFacts.phase in C9; lia).
  unfold lock_free. repeat split; try (apply E1; lia); lia.
Qed.
Lemma bal_call c : bal 0 (call_p c).
Proof.
  destruct c as [a|s|g|p i o|p]; cbn [call_p].
  - apply bal_read.
  - unfold next_p, retP, raiseP. do 3 (apply bal_bind; [apply bal_load|]; intro). apply bal_bind; [apply bal_read|]. intro v. destruct (_ && _); constructor.
  - unfold reader_range_p. apply bal_bind; [apply bal_load|]. intro ig. apply bal_bind; [apply bal_lock, bal_range_body|].
    intros [l|]; [|constructor]. unfold set_last_item_p, key_p, retP, raiseP. bals.
  - unfold tail_p. apply bal_bind; [apply bal_lock, bal_tail_body|]. intros [x|]; [|constructor].
    unfold move_cursor_p, set_last_item_p, key_p, retP, raiseP. bals.
  - unfold head_p. apply bal_bind; [apply bal_lock, bal_look|]. intro x. unfold move_cursor_p, set_last_item_p, key_p, retP, raiseP. bals.
Qed.
Definition in_write (t : tok) : Prop :=
  (t_pc t = Idle /\ exists w, t_todo t = [SWrite w]) \/
  (t_todo t = [] /\ (wpc (t_pc t) = true \/ (exists rest, t_pc t = WIn rest) \/ vpc (t_pc t) = true \/ t_pc t = Idle)).
Definition balanced_thread (t : tok) (h : lth) : Prop :=
  match h_ph h with
  | PhIdle => t_pc t = Idle /\ t_todo t = []
  | PhCall r c p => exists n, eff t n /\ bal n p
  | PhWrite _ _ => in_write t
  end.
Definition balanced_state (s : lstate) : Prop :=
  lock_inv sdeque (ls_lock s) /\ length (st_ths (ls_lock s)) = length (ls_ths s) /\
  forall i t h, nth_error (st_ths (ls_lock s)) i = Some t -> nth_error (ls_ths s) i = Some h -> balanced_thread t h.
Lemma tstep_write h (t : tok) h' t' : in_write t -> in_lock t = true -> tstep h t = Some (h', t') -> in_write t'.
Proof.
  intros [[E (w & T)]|[T [E|[(rest & E)|[E|E]]]]] L H.
  - unfold tstep in H. rewrite E, T in H. injection H as <- <-. right. cbn. auto.
  - destruct (tstep_wpc _ _ _ _ H E T) as (_ & _ & T' & [W|[W _]]); right; eauto.
  - unfold tstep in H. rewrite E in H. right.
    destruct rest as [|f rest]; [injection H as <- <-; cbn; auto|]. destruct (f (l_data h)); injection H as <- <-; cbn; eauto 6.
  - destruct (tstep_vpc _ _ _ _ H E T) as (_ & T' & [W|W]); right; auto.
  - unfold in_lock in L. rewrite E, T in L. discriminate.
Qed.
Lemma bal_enter_inv {A} n (k : prog A) : bal n (PEnter k) -> bal (S n) k. Proof. intro H. now inversion H. Qed.
Lemma bal_leave_inv {A} n (k : prog A) : bal n (PLeave k) -> exists m, n = S m /\ bal m k. Proof. intro H. inversion H; subst. eauto. Qed.
Lemma lstep_balanced s i s' : lstep s i = Some s' -> balanced_state s -> balanced_state s'.
Proof.
  unfold lstep. intros H (L & LEN & F). destruct (nth_error (st_ths (ls_lock s)) i) as [t|] eqn:Hi; [|discriminate].
  destruct (nth_error (ls_ths s) i) as [h|] eqn:Hh; [|discriminate]. pose proof (F i t h Hi Hh) as B. unfold balanced_thread in B.
  assert (ASK : forall q rds ph todo tr, balanced_thread (MkT (t_pc t) (t_nest t) (t_cur t) q) (MkLth ph todo) ->
     balanced_state (MkLs (ask s i q) rds (go s i (MkLth ph todo)) tr)).
  { intros q rds ph todo tr G. rewrite (ask_same s i t Hi). split; [now apply lock_inv_todo|]. unfold go. cbn [ls_lock st_ths ls_ths].
    rewrite !set_nth_length. split; [exact LEN|]. intros j u g Hj Hg.
    rewrite nth_error_set_nth in Hj. rewrite nth_error_set_nth in Hg. destruct (Nat.eqb_spec i j) as [<-|]; [|now apply (F j)].
    rewrite Hi in Hj. rewrite Hh in Hg. injection Hj as <-. injection Hg as <-. exact G. }
  assert (SAME : forall rds ph todo tr, balanced_thread t (MkLth ph todo) -> balanced_state (MkLs (ls_lock s) rds (go s i (MkLth ph todo)) tr)).
  { intros rds ph todo tr G. split; [exact L|]. unfold go. cbn [ls_lock ls_ths]. rewrite set_nth_length. split; [exact LEN|]. intros j u g Hj Hg.
    rewrite nth_error_set_nth in Hg. destruct (Nat.eqb_spec i j) as [<-|]; [|now apply (F j)].
    rewrite Hh in Hg. injection Hg as <-. assert (u = t) by congruence. subst u. exact G. }
  destruct (in_lock t) eqn:IL.
  - destruct (RWLockM.step (ls_lock s) i) as [k|] eqn:Hk; [|discriminate]. injection H as <-.
    pose proof (step_lock_inv sdeque _ _ _ L Hk) as L'. apply step_inv in Hk as (t0 & h' & t' & Hi0 & Ht & ->).
    assert (t0 = t) by congruence. subst t0. clear Hi0.
    assert (GEN : forall h1, balanced_thread t' h1 -> balanced_state (MkLs (MkSt h' (set_nth (st_ths (ls_lock s)) i t')) (ls_rds s) (set_nth (ls_ths s) i h1) (ls_tr s))).
    { intros h1 G. split; [exact L'|]. cbn [ls_lock st_ths ls_ths]. rewrite !set_nth_length. split; [exact LEN|]. intros j u g Hj Hg.
      rewrite nth_error_set_nth in Hj. rewrite nth_error_set_nth in Hg. destruct (Nat.eqb_spec i j) as [<-|]; [|now apply (F j)].
      rewrite Hi in Hj. rewrite Hh in Hg. injection Hj as <-. injection Hg as <-. exact G. }
    destruct (h_ph h) as [|r c p|o out] eqn:Ep.
    + destruct B as [B1 B2]. unfold in_lock in IL. rewrite B1, B2 in IL. discriminate.
    + rewrite <- (set_nth_same (ls_ths s) i h Hh). apply GEN. unfold balanced_thread. rewrite Ep.
      destruct B as (n & E & BP). destruct (eff_step _ _ _ _ _ E IL Ht) as (E' & _). eauto.
    + unfold go. apply GEN. unfold balanced_thread. cbn. eapply tstep_write; eauto.
  - destruct (h_ph h) as [|r c p|o out] eqn:Ep.
    + destruct B as [B1 B2]. destruct (h_todo h) as [|[x|n| |r c] q]; try discriminate.
      * injection H as <-. apply ASK. left. cbn. eauto.
      * injection H as <-. apply ASK. left. cbn. eauto.
      * destruct (Nat.ltb _ _); [|discriminate]. injection H as <-. apply SAME. exists 0. split; [|apply bal_call].
        rewrite (thread_eta t), B1, B2, (idle_nest s i t L Hi B1). constructor.
    + destruct B as (n & E & BP). destruct (eff_out t n E IL) as (EN & ET & EP).
      destruct p as [o|k|k|k|k|f k].
      * injection H as <-. apply SAME. unfold balanced_thread. cbn. assert (N0 : n = 0) by now inversion BP. rewrite N0 in EP. split; [exact EP|exact ET].
      * injection H as <-. apply ASK. exists (S n). split; [|now apply bal_enter_inv]. rewrite EP, EN. destruct n; constructor.
      * injection H as <-. apply ASK. destruct (bal_leave_inv _ _ BP) as (m & -> & BK). exists m. split; [|exact BK]. rewrite EP, EN. constructor.
      * injection H as <-. apply SAME. exists n. split; [exact E|]. inversion BP. auto.
      * destruct (nth_error (ls_rds s) r); [|discriminate]. injection H as <-. apply SAME. exists n. split; [exact E|]. inversion BP. auto.
      * destruct (nth_error (ls_rds s) r); [|discriminate]. injection H as <-. apply SAME. exists n. split; [exact E|]. inversion BP. auto.
    + destruct out; [|discriminate]. injection H as <-. apply SAME. unfold balanced_thread. cbn.
      unfold in_lock in IL. destruct B as [[E (w & T)]|[T E]]; [rewrite E, T in IL; discriminate|].
      destruct E as [E|[(rest & E)|[E|E]]]; auto; exfalso; [destruct (t_pc t); discriminate|rewrite E in IL; discriminate|destruct (t_pc t); discriminate].
Qed.
Lemma lrun_balanced sched : forall s s', lrun s sched = Some s' -> balanced_state s -> balanced_state s'.
Proof.
  induction sched as [|i q IH]; intros s s' H F; cbn in H; [now injection H as <-|].
  destruct (lstep s i) as [s1|] eqn:E; [|discriminate]. eapply IH; eauto. eapply lstep_balanced; eauto.
Qed.
(** Whatever the calls returned or raised, and whoever used which reader: when no call is
    under way, nothing of the lock is held. *)
Theorem C18_lock_free_at_rest :
  forall d0 readers scripts sched s, lrun (linit d0 readers scripts) sched = Some s -> at_rest s -> lock_free (st_sh (ls_lock s)).
Proof.
  intros d0 rds scripts sched s H R.
  assert (B : balanced_state s).
  { eapply lrun_balanced; [exact H|]. split; [apply lock_inv_init|]. split; [cbn; now rewrite !map_length|].
    cbn. intros i t h Hi Hh. apply nth_error_map_some in Hh as (q & Hq & ->). rewrite map_map in Hi. apply nth_error_map_some in Hi as (q' & Hq' & ->).
    unfold balanced_thread. cbn. auto. }
  destruct B as (L & LEN & F). apply idle_lock_free; [exact L|]. intros i t Hi.
  destruct (nth_error (ls_ths s) i) as [h|] eqn:Hh.
  - specialize (F i t h Hi Hh). unfold balanced_thread in F. rewrite (R i h Hh) in F. apply F.
  - apply nth_error_None in Hh. rewrite <- LEN in Hh. apply nth_error_None in Hh. congruence.
Qed.
Print Assumptions C18_lock_free_at_rest.
(** An append that is refused, a drop of too many, a read that raises. *)
Definition failing_start : lstate :=
  linit empty_buf [mk_breader 1 false false false]
    [[LAppend (row 5 0); LAppend (row 2 0); BufferSysM.LDrop 2]; [LCall 0 (CRead noargs); LCall 0 (CHead false)]].
Example C18_at_rest_nonvacuous :
  exists s, lrun failing_start (in_turn 1000 failing_start [1; 1; 0; 1]) = Some s /\ at_rest s /\
    flat_map (fun e => match e with HRes i o v => [(i, v)] | HInv _ _ => [] end) (ls_tr s) =
      [(1, OVal (Raise ValueError)); (0, OUnit (Ok tt)); (1, OVal (Ok (VItem (row 5 0))));
       (0, OUnit (Raise ValueError)); (0, OUnit (Raise IndexError))].
Proof.
  destruct (look_at (fun s => (all_idle s, flat_map (fun e => match e with HRes i o v => [(i, v)] | HInv _ _ => [] end) (ls_tr s)))
    (lrun failing_start (in_turn 1000 failing_start [1; 1; 0; 1])) (true, [(1, OVal (Raise ValueError)); (0, OUnit (Ok tt)); (1, OVal (Ok (VItem (row 5 0))));
       (0, OUnit (Raise ValueError)); (0, OUnit (Raise IndexError))])) as (s & E & O); [vm_compute; reflexivity|].
  injection O as O1 O2. exists s. split; [exact E|]. split; [now apply idle_at_rest|exact O2].
Qed.
