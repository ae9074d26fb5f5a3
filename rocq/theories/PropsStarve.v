(** * Waiting readers (C91) *)
From Coq Require Import List ZArith Bool Arith Lia.
From Verif Require Import PyVal PyLib PyValFacts SortedDequeM Spec SpecDeque BufferReaderM BufferSysM Families ListFacts DequeFacts DequeSearch SpecReader ReaderLoops LogReads PropsDeque PropsReader
  RWLockM SpecLock LockFacts LockProps LockLive PropsLock.
Import ListNotations.

(** ** Specification *)
(** The schedule [sched] leads from [s] to [s'], and no thread begins a section in it: every
    step is one of a thread that is inside a section or inside the lock's code. *)
Inductive no_new {D} : state D -> list nat -> state D -> Prop :=
| nn_nil : forall s, no_new s [] s
| nn_cons : forall s j t m q s', thread_at s j t -> t_pc t <> Idle -> step s j = Some m -> no_new m q s' -> no_new s (j :: q) s'.
(** Thread [i] cannot move at any point of the schedule. *)
Definition blocked_throughout {D} (i : nat) (s : state D) (sched : list nat) : Prop :=
  forall n m, RWLockM.run s (firstn n sched) = Some m -> step m i = None.

(** ** What holds *)
Lemma no_new_run {D} (s : state D) q s' : no_new s q s' -> RWLockM.run s q = Some s'.
Proof. induction 1; cbn; [reflexivity|]. now rewrite H1. Qed.
Lemma step_thread {D} (s : state D) j m i t : step s j = Some m -> thread_at s i t ->
  exists t', thread_at m i t' /\ (i <> j -> t' = t).
Proof.
  intros E Hi. apply step_inv in E as (u & h' & u' & Hj & _ & ->). unfold thread_at in *. cbn [st_ths]. rewrite nth_error_set_nth.
  destruct (Nat.eqb_spec j i) as [<-|N]; rewrite Hi; eexists; split; try reflexivity; congruence.
Qed.
(** A reader that waits, in any state, gets in without anybody having to begin a new section:
    the threads in the lock's code and inside sections can go on for a bounded number of
    steps, and as long as the reader waits one of them can move; so in every schedule that
    runs them until none can move, there is a point where the reader is inside. *)
Theorem C91_waiting_ends_partial :
  forall (D : Type) (d : D) scripts, Forall (fun q => flat q = true) scripts ->
  forall s, reached d scripts s -> forall i t, thread_at s i t -> in_reader_acquire (t_pc t) = true ->
  (exists bound, forall q s', no_new s q s' -> length q <= bound) /\
  (forall q s', no_new s q s' ->
     (exists j u, thread_at s' j u /\ t_pc u <> Idle /\ step s' j <> None) \/
     exists n m t', RWLockM.run s (firstn n q) = Some m /\ thread_at m i t' /\ t_pc t' = RIn /\ t_nest t' = S (t_nest t)).
Proof.
  intros D d scripts HF s R i t Hi Ht. split.
  - exists (total (work D) (st_ths s)). intros q s' N. apply no_new_run, run_work in N. lia.
  - intros q s' N.
    assert (FL : all_flat D s) by (destruct R as (sched & R); eapply run_flat; [|exact R]; now apply init_flat).
    pose proof (reached_inv D d scripts s R) as I. clear R HF. revert t Hi Ht FL I. induction N as [s|s j u m q s' Hj Uj E N IH]; intros t Hi Ht FL I.
    + left. apply flat_progress; auto. exists i, t. split; [assumption|]. unfold in_reader_acquire in Ht. destruct (t_pc t); try discriminate; reflexivity.
    + assert (FLm : all_flat D m) by (apply (run_flat D [j] s m); [assumption|cbn; now rewrite E]).
      assert (Im : lock_inv D m) by (eapply step_lock_inv; eauto).
      assert (X : exists t1, thread_at m i t1 /\ ((in_reader_acquire (t_pc t1) = true /\ t_nest t1 = t_nest t) \/ (t_pc t1 = RIn /\ t_nest t1 = S (t_nest t)))).
      { destruct (step_thread s j m i t E Hi) as (t1 & H1 & K). exists t1. split; [assumption|]. destruct (Nat.eq_dec i j) as [<-|Nij]; [|rewrite K by auto; auto].
        apply step_inv in E as (v & h' & v' & Hv & Tv & ->). unfold thread_at in *. assert (v = t) by congruence. subst v.
        cbn [st_ths] in H1. rewrite nth_error_set_nth, Nat.eqb_refl, Hv in H1. injection H1 as <-. eapply racq_step; eauto. }
      destruct X as (t1 & H1 & [[X1 X2]|[X1 X2]]).
      * destruct (IH t1 H1 X1 FLm Im) as [Y|(n & m' & t' & Y1 & Y2 & Y3 & Y4)]; [now left|]. right. exists (S n), m', t'. cbn. rewrite E. repeat split; auto. congruence.
      * right. exists 1, m, t1. cbn. rewrite E. repeat split; auto.
Qed.
Print Assumptions C91_waiting_ends_partial.
(** Reader 1 waits for writer 2, which waits for reader 0. *)
Example C91_nonvacuous :
  exists s t q s', RWLockM.run (init 5 scr) (ent 0 ++ ann 2 ++ [1; 1]) = Some s /\ thread_at s 1 t /\ in_reader_acquire (t_pc t) = true /\ step s 1 = None /\
    no_new s q s' /\ exists t', thread_at s' 1 t' /\ t_pc t' = RIn.
Proof.
  do 2 eexists. exists (repeat 0 7 ++ repeat 2 11 ++ repeat 1 9). eexists. split; [vm_compute; reflexivity|]. split; [reflexivity|]. split; [reflexivity|]. split; [reflexivity|]. split.
  - cbn [repeat app]. repeat (eapply nn_cons; [reflexivity|discriminate|vm_compute; reflexivity|]). apply nn_nil.
  - eexists. split; [reflexivity|reflexivity].
Qed.

(** ** What does not *)
Section Starve.
Variable D : Type.
Inductive stuck_run (i : nat) : state D -> list nat -> state D -> Prop :=
| sr_nil : forall s, step s i = None -> stuck_run i s [] s
| sr_cons : forall s j m q s', step s i = None -> step s j = Some m -> stuck_run i m q s' -> stuck_run i s (j :: q) s'.
Lemma stuck_app i s p m q s' : stuck_run i s p m -> stuck_run i m q s' -> stuck_run i s (p ++ q) s'.
Proof. induction 1; cbn; auto. intro. econstructor; eauto. Qed.
Lemma stuck_blocked i s q s' : stuck_run i s q s' -> RWLockM.run s q = Some s' /\ blocked_throughout i s q.
Proof.
  induction 1 as [s H|s j m q s' H E _ [R B]].
  - split; [reflexivity|]. intros n m M. rewrite firstn_nil in M. injection M as <-. assumption.
  - split; [cbn; now rewrite E|]. intros [|n] k K; cbn in K; [injection K as <-; assumption|]. rewrite E in K. eapply B; eauto.
Qed.
Definition sh (nw : bool) (wm : bool) (n : nat) (d : D) (done : list (wbody D)) : shared D := MkS true true nw false wm 0 n d done.
Definition rd : thread D := MkT RNoReaders 0 [] [SRel].
Definition both (d : D) (done : list (wbody D)) (a b : thread D) : state D := MkSt (sh false false 2 d done) [rd; a; b].
Definition wt (w : wbody D) (q : list (sop D)) : thread D := MkT WNoWriters 0 w q.
Lemma body1 b w q : forall rest d done, exists sched d', stuck_run 0 (MkSt (sh true false 2 d done) [rd; MkT (WIn rest) 0 w q; b]) sched
  (MkSt (sh true false 2 d' (done ++ [w])) [rd; MkT VNoWritersRel 0 w q; b]).
Proof.
  induction rest as [|f rest IH]; intros d done.
  - exists [1], d. eapply sr_cons; [reflexivity|reflexivity|]. apply sr_nil. reflexivity.
  - destruct (f d) as [d1|] eqn:F.
    + destruct (IH d1 done) as (sched & d' & H). exists (1 :: sched), d'. eapply sr_cons; [reflexivity|cbn; rewrite F; reflexivity|]. exact H.
    + exists [1], d. eapply sr_cons; [reflexivity|cbn; rewrite F; reflexivity|]. apply sr_nil. reflexivity.
Qed.
Lemma body2 a w q : forall rest d done, exists sched d', stuck_run 0 (MkSt (sh true false 2 d done) [rd; a; MkT (WIn rest) 0 w q]) sched
  (MkSt (sh true false 2 d' (done ++ [w])) [rd; a; MkT VNoWritersRel 0 w q]).
Proof.
  induction rest as [|f rest IH]; intros d done.
  - exists [2], d. eapply sr_cons; [reflexivity|reflexivity|]. apply sr_nil. reflexivity.
  - destruct (f d) as [d1|] eqn:F.
    + destruct (IH d1 done) as (sched & d' & H). exists (2 :: sched), d'. eapply sr_cons; [reflexivity|cbn; rewrite F; reflexivity|]. exact H.
    + exists [2], d. eapply sr_cons; [reflexivity|cbn; rewrite F; reflexivity|]. apply sr_nil. reflexivity.
Qed.
Ltac go := eapply sr_cons; [reflexivity|reflexivity|].
Lemma cycle1 d done w w' q b : exists sched d', stuck_run 0 (both d done (wt w (SWrite w' :: q)) b) sched (both d' (done ++ [w]) (wt w' q) b).
Proof.
  destruct (body1 b w (SWrite w' :: q) w d done) as (sched & d' & H). exists ([1] ++ sched ++ repeat 1 12), d'.
  eapply stuck_app; [go; apply sr_nil; reflexivity|]. eapply stuck_app; [exact H|]. cbn [repeat].
  do 12 go. apply sr_nil. reflexivity.
Qed.
Lemma cycle2 d done w w' q a : exists sched d', stuck_run 0 (both d done a (wt w (SWrite w' :: q))) sched (both d' (done ++ [w]) a (wt w' q)).
Proof.
  destruct (body2 a w (SWrite w' :: q) w d done) as (sched & d' & H). exists ([2] ++ sched ++ repeat 2 12), d'.
  eapply stuck_app; [go; apply sr_nil; reflexivity|]. eapply stuck_app; [exact H|]. cbn [repeat].
  do 12 go. apply sr_nil. reflexivity.
Qed.
Definition waiting2 (pairs : list (wbody D * wbody D)) (x y : wbody D) (d : D) (done : list (wbody D)) : state D :=
  match pairs with
  | [] => both d done (wt x []) (wt y [])
  | (a, b) :: r => both d done (wt a (map SWrite (map fst r ++ [x]))) (wt b (map SWrite (map snd r ++ [y])))
  end.
Lemma rounds x y : forall pairs d done, exists sched d',
  stuck_run 0 (waiting2 pairs x y d done) sched (waiting2 [] x y d' (done ++ flat_map (fun p => [fst p; snd p]) pairs)).
Proof.
  induction pairs as [|[a b] r IH]; intros d done.
  - exists [], d. cbn [flat_map]. rewrite app_nil_r. apply sr_nil. reflexivity.
  - assert (X : exists sched d', stuck_run 0 (waiting2 ((a, b) :: r) x y d done) sched (waiting2 r x y d' ((done ++ [a]) ++ [b]))).
    { destruct r as [|[a' b'] r]; cbn [waiting2 map app fst snd].
      - destruct (cycle1 d done a x [] (wt b [SWrite y])) as (p & d1 & P). destruct (cycle2 d1 (done ++ [a]) b y [] (wt x [])) as (p2 & d2 & P2).
        exists (p ++ p2), d2. eapply stuck_app; eauto.
      - destruct (cycle1 d done a a' (map SWrite (map fst r ++ [x])) (wt b (SWrite b' :: map SWrite (map snd r ++ [y])))) as (p & d1 & P).
        destruct (cycle2 d1 (done ++ [a]) b b' (map SWrite (map snd r ++ [y])) (wt a' (map SWrite (map fst r ++ [x])))) as (p2 & d2 & P2).
        exists (p ++ p2), d2. eapply stuck_app; eauto. }
    destruct X as (p & d1 & P). destruct (IH d1 ((done ++ [a]) ++ [b])) as (p2 & d2 & P2). exists (p ++ p2), d2. replace (done ++ flat_map (fun p => [fst p; snd p]) ((a, b) :: r)) with (((done ++ [a]) ++ [b]) ++ flat_map (fun p => [fst p; snd p]) r) by (rewrite <- !app_assoc; reflexivity).
    eapply stuck_app; [exact P|exact P2].
Qed.
End Starve.

(** Two writing threads - the thread of the stream, which appends, and a client that calls
    drop() - with any bodies, taking turns: a reader that has asked before any of the writes
    was done waits until all but the last two are done; at no point in between can it move,
    not even if it is scheduled whenever possible. [pairs] is arbitrarily long. *)
Theorem C91_readers_starve_refuted :
  forall (D : Type) (d : D) (pairs : list (wbody D * wbody D)) x y,
  exists sched1 sched2 s1 s2,
    RWLockM.run (init d [[SAcq; SRel]; map SWrite (map fst pairs ++ [x]); map SWrite (map snd pairs ++ [y])]) sched1 = Some s1 /\
    l_done (st_sh s1) = [] /\ (exists t, thread_at s1 0 t /\ in_reader_acquire (t_pc t) = true) /\
    RWLockM.run s1 sched2 = Some s2 /\ blocked_throughout 0 s1 sched2 /\
    l_done (st_sh s2) = flat_map (fun p => [fst p; snd p]) pairs.
Proof.
  intros D d pairs x y. exists (repeat 1 7 ++ repeat 2 6 ++ [0; 0]).
  destruct (rounds D x y pairs d []) as (sched & d' & S). exists sched, (waiting2 D pairs x y d []). eexists.
  apply stuck_blocked in S as [R B]. split; [destruct pairs as [|[a b] r]; reflexivity|].
  split; [now destruct pairs as [|[a b] r]|]. split; [exists (rd D); now destruct pairs as [|[a b] r]|]. split; [exact R|]. split; [exact B|]. reflexivity.
Qed.
Print Assumptions C91_readers_starve_refuted.
(** The thread appends three items while a client drops one after each. *)
Example C91_starve_nonvacuous :
  let pairs := [(append_body (row 1 10), drop_body 1); (append_body (row 2 10), drop_body 1)] in
  exists sched1 sched2 s1 s2,
    RWLockM.run (init empty_buf [[SAcq; SRel]; map SWrite (map fst pairs ++ [append_body (row 3 10)]); map SWrite (map snd pairs ++ [drop_body 1])]) sched1 = Some s1 /\
    RWLockM.run s1 sched2 = Some s2 /\ blocked_throughout 0 s1 sched2 /\ length (l_done (st_sh s2)) = 4.
Proof.
  cbn zeta. destruct (C91_readers_starve_refuted sdeque empty_buf [(append_body (row 1 10), drop_body 1); (append_body (row 2 10), drop_body 1)] (append_body (row 3 10)) (drop_body 1))
    as (a & b & s1 & s2 & H1 & _ & _ & H2 & H3 & H4). exists a, b, s1, s2. split; [exact H1|]. split; [exact H2|]. split; [exact H3|]. rewrite H4. reflexivity.
Qed.
