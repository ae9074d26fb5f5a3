(** * Whole runs *)
From Coq Require Import List ZArith Bool Arith Lia.
From Verif Require Import PyVal PyLib SortedDequeM Spec SpecDeque BufferReaderM BufferSysM ListFacts DequeFacts DequeSearch LogFacts LogReads
  RWLockM SpecLock LockFacts LockProps ReaderStepsM SpecLin LinFacts LinShape LinSim LinStep.
Import ListNotations.

Section Run.
Variable K : pyval -> res pyval.
Notation core := (core K).
Notation goes := (goes K).

Lemma step_write_ret s b P i t h o v : core s b P ->
  nth_error (st_ths (ls_lock s)) i = Some t -> nth_error (ls_ths s) i = Some h -> in_lock t = false ->
  h_ph h = PhWrite o (Some v) ->
  goes s b P i (MkLs (ls_lock s) (ls_rds s) (go s i (MkLth PhIdle (h_todo h))) (ls_tr s ++ [HRes i o (OUnit v)])).
Proof.
  intros S Hi Hh IL Ep. pose proof (sm_th _ _ _ _ S i t h Hi Hh) as R. unfold thread_rel in R. rewrite Ep in R.
  destruct R as [W (R1 & R2 & R3)].
  assert (PI : t_pc t = Idle). { destruct R3 as [R3|R3]; [|exact R3]. unfold in_lock in IL. destruct (t_pc t); discriminate. }
  apply (goes_update K s b P i t h t (MkLth PhIdle (h_todo h)) (ls_lock s) (ls_rds s)
              (ls_tr s ++ [HRes i o (OUnit v)]) [XRes i o (OUnit v)] b Rest); auto.
  - apply (sm_lock _ _ _ _ S).
  - now rewrite (set_nth_same _ _ _ Hi).
  - cbn. auto.
  - intro NW. now apply (sm_buf _ _ _ _ S).
  - apply (sm_cons _ _ _ _ S).
  - apply (sm_key _ _ _ _ S).
  - apply (sm_key _ _ _ _ S).
  - intro r'. right. right. split; [reflexivity|]. split; [reflexivity|]. intros c' p1. rewrite Ep. congruence.
  - apply (sm_nrds _ _ _ _ S).
  - rewrite R1. constructor.
  - discriminate.
Qed.

Lemma step_idle_call s b P i t h r c q : core s b P ->
  nth_error (st_ths (ls_lock s)) i = Some t -> nth_error (ls_ths s) i = Some h ->
  h_ph h = PhIdle -> h_todo h = LCall r c :: q -> r < length (ls_rds s) ->
  (forall j g c' p', nth_error (ls_ths s) j = Some g -> h_ph g <> PhCall r c' p') ->
  goes s b P i (MkLs (ls_lock s) (ls_rds s) (go s i (MkLth (PhCall r c (call_p c)) q)) (ls_tr s ++ [HInv i (LCall r c)])).
Proof.
  intros S Hi Hh Ep Et Hr FREE. pose proof (sm_th _ _ _ _ S i t h Hi Hh) as R. unfold thread_rel in R. rewrite Ep in R.
  destruct R as (R1 & R2 & R3).
  assert (NN : t_nest t = 0) by exact (idle_nest s i t (sm_lock _ _ _ _ S) Hi R2).
  destruct (nth_error (ls_rds s) r) as [r1|] eqn:H1; [|apply nth_error_None in H1; lia].
  assert (H0 : nth_error (s_rds b) r = Some r1).
  { destruct (sm_rds _ _ _ _ S r) as [E|(j & g & c' & p' & G1 & G2)]; [congruence|]. exfalso. exact (FREE j g c' p' G1 G2). }
  apply (goes_update K s b P i t h t (MkLth (PhCall r c (call_p c)) q) (ls_lock s) (ls_rds s)
              (ls_tr s ++ [HInv i (LCall r c)]) [XInv i (LCall r c)] b (Called (LCall r c))); auto.
  - apply (sm_lock _ _ _ _ S).
  - now rewrite (set_nth_same _ _ _ Hi).
  - unfold thread_rel. cbn [h_ph]. exists r1, r1, 0. split; [exact H0|]. split; [exact H1|].
    split; [rewrite (thread_eta t), R2, R3, NN; constructor|]. left.
    assert (AG : forall d, ranp (call_p c) d r1 = BufferReaderM.run (do_call d c) r1).
    { intro d. unfold ranp, BufferReaderM.run. now rewrite (call_agrees d c r1). }
    split; [reflexivity|]. split; [intros _; split; [apply before_call|exact NN]|]. split; [lia|]. split; [intros _ d _; apply AG|apply AG].
  - intro NW. now apply (sm_buf _ _ _ _ S).
  - apply (sm_cons _ _ _ _ S).
  - apply (sm_key _ _ _ _ S).
  - apply (sm_key _ _ _ _ S).
  - intro r'. right. right. split; [reflexivity|]. split; [reflexivity|]. intros c' p1. rewrite Ep. congruence.
  - apply (sm_nrds _ _ _ _ S).
  - rewrite R1. constructor.
  - cbn. intros r' c' p' E. injection E as <- <- <-. right. intros j g c' p' _. apply FREE.
Qed.

Lemma step_idle_write s b P i t h o q : core s b P ->
  nth_error (st_ths (ls_lock s)) i = Some t -> nth_error (ls_ths s) i = Some h ->
  h_ph h = PhIdle -> h_todo h = o :: q -> is_write o ->
  goes s b P i (MkLs (ask s i [SWrite (write_body o)]) (ls_rds s) (go s i (MkLth (PhWrite o None) q)) (ls_tr s ++ [HInv i o])).
Proof.
  intros S Hi Hh Ep Et W. pose proof (sm_th _ _ _ _ S i t h Hi Hh) as R. unfold thread_rel in R. rewrite Ep in R.
  destruct R as (R1 & R2 & R3). rewrite (ask_same s i t Hi).
  apply (goes_update K s b P i t h (MkT (t_pc t) (t_nest t) (t_cur t) [SWrite (write_body o)]) (MkLth (PhWrite o None) q)
     (MkSt (st_sh (ls_lock s)) (set_nth (st_ths (ls_lock s)) i (MkT (t_pc t) (t_nest t) (t_cur t) [SWrite (write_body o)]))) (ls_rds s)
              (ls_tr s ++ [HInv i o]) [XInv i o] b (Called o)); auto; cbn [st_sh st_ths].
  - apply lock_inv_todo; [apply (sm_lock _ _ _ _ S)|exact Hi].
  - unfold thread_rel. cbn [h_ph]. split; [exact W|]. split; [reflexivity|]. left. cbn. auto.
  - intro NW. apply (sm_buf _ _ _ _ S). eapply win_same; eauto.
  - apply (sm_cons _ _ _ _ S).
  - apply (sm_key _ _ _ _ S).
  - apply (sm_key _ _ _ _ S).
  - intro r'. right. right. split; [reflexivity|]. split; [reflexivity|]. intros c' p1. rewrite Ep. congruence.
  - apply (sm_nrds _ _ _ _ S).
  - rewrite R1. constructor.
  - discriminate.
Qed.

(* one step, for any reader used by one thread at a time *)
Definition alone (s : lstate) (i : nat) : Prop :=
  forall h r c q, nth_error (ls_ths s) i = Some h -> h_ph h = PhIdle -> h_todo h = LCall r c :: q ->
  forall j g c' p', nth_error (ls_ths s) j = Some g -> h_ph g <> PhCall r c' p'.
Lemma core_step s b P i s' : core s b P -> alone s i -> lstep s i = Some s' -> goes s b P i s'.
Proof.
  intros S NO H. pose proof H as H0. unfold lstep in H.
  destruct (nth_error (st_ths (ls_lock s)) i) as [t|] eqn:Hi; [|discriminate].
  destruct (nth_error (ls_ths s) i) as [h|] eqn:Hh; [|discriminate].
  destruct (in_lock t) eqn:IL.
  - destruct (RWLockM.step (ls_lock s) i) as [k|] eqn:Hk; [|discriminate]. injection H as <-.
    destruct (h_ph h) as [|r c p|o out] eqn:Ep.
    + pose proof (sm_th _ _ _ _ S i t h Hi Hh) as R. unfold thread_rel in R. rewrite Ep in R. destruct R as (_ & R2 & R3).
      unfold in_lock in IL. rewrite R2, R3 in IL. discriminate.
    + eapply step_lock_call; eauto.
    + eapply step_lock_write; eauto.
  - destruct (h_ph h) as [|r c p|o out] eqn:Ep.
    + destruct (h_todo h) as [|o q] eqn:Et; [discriminate|].
      destruct o as [x|n|n0 p0 i0 s0|r c]; try discriminate.
      * injection H as <-. exact (step_idle_write _ _ _ _ _ _ (LAppend x) _ S Hi Hh Ep Et I).
      * injection H as <-. exact (step_idle_write _ _ _ _ _ _ (LDrop n) _ S Hi Hh Ep Et I).
      * destruct (Nat.ltb_spec r (length (ls_rds s))); [|discriminate]. injection H as <-. eapply step_idle_call; eauto.
    + eapply step_call; eauto.
    + destruct out as [v|]; [|discriminate]. injection H as <-. eapply step_write_ret; eauto.
Qed.

(** ** Histories *)
(* the thread's own explained events *)
Inductive finished_calls (i : nat) : list xev -> Prop :=
| fc_nil : finished_calls i []
| fc_more o v w : finished_calls i w -> finished_calls i (w ++ [XInv i o; XAct i o v; XRes i o v]).
Definition hist (i : nat) (st : tstat) (l : list xev) : Prop :=
  match st with
  | Rest => finished_calls i l
  | Called o => exists c, finished_calls i c /\ l = c ++ [XInv i o]
  | Acted o v => exists c, finished_calls i c /\ l = c ++ [XInv i o; XAct i o v]
  end.
Lemma one_prefix i w : finished_calls i w -> forall v, one_at_a_time v -> one_at_a_time (w ++ v).
Proof.
  induction 1 as [|o a w H IH]; intros v V; [exact V|]. rewrite <- app_assoc. apply IH. cbn. now constructor.
Qed.
Lemma hist_one i st l : hist i st l -> one_at_a_time l.
Proof.
  destruct st; cbn.
  - intro H. rewrite <- (app_nil_r l). apply (one_prefix i); [assumption|constructor].
  - intros (c & H & ->). apply (one_prefix i); [assumption|constructor].
  - intros (c & H & ->). apply (one_prefix i); [assumption|constructor].
Qed.

Record sim (d0 : sdeque) (rds0 : list breader) (s : lstate) (w : list xev) (b : bsys) (P : nat -> tstat) : Prop := {
  sm_core : core s b P;
  sm_seen : seen w = ls_tr s;
  sm_hist : forall i, hist i (P i) (of_thread i w);
  sm_run : bsys_run (MkBS d0 rds0) (acts w) = (b, answers w)
}.
Lemma move_own i st b es st' b' : move i st b es st' b' -> Forall (fun e => thread_of e = i) es.
Proof. destruct 1; repeat constructor. Qed.
Lemma move_hist i st b es st' b' l : move i st b es st' b' -> hist i st l -> hist i st' (l ++ es).
Proof.
  destruct 1; cbn.
  - now rewrite app_nil_r.
  - intro H. exists l. auto.
  - intros (c & F & ->). exists c. split; [exact F|]. now rewrite <- app_assoc.
  - intros (c & F & ->). rewrite <- app_assoc. cbn. now constructor.
  - intros (c & F & ->). rewrite <- app_assoc. cbn. now constructor.
Qed.
Lemma move_run i st b es st' b' : move i st b es st' b' -> bsys_run b (acts es) = (b', answers es).
Proof. destruct 1 as [| |o b b' v E| |o b b' v E]; cbn; try rewrite E; reflexivity. Qed.

(* a thread in a call has not returned from it *)
Lemma filter_split {A} (f : A -> bool) w : forall c x rest, filter f w = c ++ x :: rest ->
  exists a b, w = a ++ x :: b /\ filter f b = rest.
Proof.
  induction w as [|y w IH]; intros c x rest H; cbn in H; [now destruct c|].
  destruct (f y) eqn:E.
  - destruct c as [|y' c]; cbn in H; injection H as <- H.
    + exists [], w. auto.
    + destruct (IH c x rest H) as (a & b & -> & F). exists (y :: a), b. auto.
  - destruct (IH c x rest H) as (a & b & -> & F). exists (y :: a), b. auto.
Qed.
Lemma seen_res i o v b : In (HRes i o v) (seen b) -> In (XRes i o v) (of_thread i b).
Proof.
  unfold seen. rewrite in_flat_map. intros (e & He & H). destruct e as [j o'|j o' v'|j o' v']; cbn in H; [destruct H as [H|[]]; discriminate|destruct H|].
  destruct H as [H|[]]. injection H as -> -> ->. unfold of_thread. apply filter_In. split; [exact He|]. cbn. apply Nat.eqb_refl.
Qed.
Lemma call_pending d0 rds0 s w b P j g r c p : sim d0 rds0 s w b P -> nth_error (ls_ths s) j = Some g -> h_ph g = PhCall r c p ->
  exists x y, ls_tr s = x ++ HInv j (LCall r c) :: y /\ forall v, ~ In (HRes j (LCall r c) v) y.
Proof.
  intros S Hg G.
  destruct (nth_error (st_ths (ls_lock s)) j) as [u|] eqn:Hu.
  2:{ apply nth_error_None in Hu. rewrite <- (sm_len _ _ _ _ (sm_core _ _ _ _ _ _ S)) in Hu. apply nth_error_None in Hu. congruence. }
  pose proof (sm_th _ _ _ _ (sm_core _ _ _ _ _ _ S) j u g Hu Hg) as R. unfold thread_rel in R. rewrite G in R.
  pose proof (sm_hist _ _ _ _ _ _ S j) as HH.
  assert (exists c1 rest, of_thread j w = c1 ++ XInv j (LCall r c) :: rest /\ forall v, ~ In (XRes j (LCall r c) v) rest) as (c1 & rest & F & NI).
  { destruct R as (r0 & r1 & n & _ & _ & _ & [(S1 & _)|(v & S1 & _)]); rewrite S1 in HH; destruct HH as (c1 & _ & F);
      [exists c1, []|exists c1, [XAct j (LCall r c) (OVal v)]]; (split; [exact F|]); cbn; intuition congruence. }
  unfold of_thread in F. apply filter_split in F as (a & b1 & -> & F).
  exists (seen a), (seen b1). split.
  - rewrite <- (sm_seen _ _ _ _ _ _ S), seen_app. reflexivity.
  - intros v H. apply seen_res in H. unfold of_thread in H. rewrite F in H. now apply NI in H.
Qed.

Lemma sim_step d0 rds0 s w b P i s' : sim d0 rds0 s w b P -> one_call_per_reader (ls_tr s') -> lstep s i = Some s' -> exists w' b' P', sim d0 rds0 s' w' b' P'.
Proof.
  intros S NO H. destruct (core_step s b P i s' (sm_core _ _ _ _ _ _ S)) as (es & b' & st' & C & MV & TR); [|exact H|].
  - intros h r c q Hh Ep Et j g c' p' Hg G. destruct (Nat.eq_dec j i) as [->|N]; [congruence|].
    assert (TR : ls_tr s' = ls_tr s ++ [HInv i (LCall r c)]).
    { unfold lstep in H. rewrite Hh, Ep, Et in H. destruct (nth_error (st_ths (ls_lock s)) i) as [t|] eqn:Hi; [|discriminate].
      pose proof (sm_th _ _ _ _ (sm_core _ _ _ _ _ _ S) i t h Hi Hh) as R. unfold thread_rel in R. rewrite Ep in R. destruct R as (_ & R2 & R3).
      unfold in_lock in H. rewrite R2, R3 in H. destruct (Nat.ltb _ _); [|discriminate]. now injection H as <-. }
    destruct (call_pending _ _ _ _ _ _ _ _ _ _ _ S Hg G) as (x & y & E & NI). rewrite TR in NO.
    destruct (NO x j r c' y i c []) as (v & Hv); [now rewrite E, <- app_assoc|exact N|]. exact (NI v Hv).
  - exists (w ++ es), b', (put P i st'). constructor.
    + exact C.
    + rewrite seen_app, (sm_seen _ _ _ _ _ _ S). symmetry. exact TR.
    + intro j. rewrite of_thread_app. unfold put. pose proof (move_own _ _ _ _ _ _ MV) as OWN. destruct (Nat.eqb_spec j i) as [->|N].
      * rewrite (of_thread_own i es OWN). exact (move_hist _ _ _ _ _ _ _ MV (sm_hist _ _ _ _ _ _ S i)).
      * rewrite (of_thread_other i j es OWN) by congruence. rewrite app_nil_r. apply (sm_hist _ _ _ _ _ _ S).
    + now rewrite acts_app, answers_app, bsys_app, (sm_run _ _ _ _ _ _ S), (move_run _ _ _ _ _ _ MV).
Qed.

Lemma nth_error_map_some {A B} (f : A -> B) l i y : nth_error (map f l) i = Some y -> exists x, nth_error l i = Some x /\ y = f x.
Proof. rewrite nth_error_map. destruct (nth_error l i); cbn; [|discriminate]. intro H. injection H as <-. eauto. Qed.
Lemma core_init scripts d0 rds : consistent d0 -> sd_key d0 = K -> core (linit d0 rds scripts) (MkBS d0 rds) (fun _ => Rest).
Proof.
  intros C HK. constructor; cbn; auto.
  - apply lock_inv_init.
  - now rewrite !map_length.
  - intros i t h Hi Hh. apply nth_error_map_some in Hh as (q & Hq & ->). rewrite map_map in Hi. apply nth_error_map_some in Hi as (q' & Hq' & ->).
    unfold thread_rel. cbn. auto.
  - intros i j h g r c p c' p' Hi Hj E. apply nth_error_map_some in Hi as (q & Hq & ->). discriminate.
Qed.
Lemma sim_init scripts d0 rds : consistent d0 -> sd_key d0 = K ->
  sim d0 rds (linit d0 rds scripts) [] (MkBS d0 rds) (fun _ => Rest).
Proof. intros C HK. constructor; [now apply core_init|reflexivity|intro i; constructor|reflexivity]. Qed.
(* histories grow, and a prefix of a history without overlaps has none *)
Lemma lstep_tr s i s' : lstep s i = Some s' -> exists z, ls_tr s' = ls_tr s ++ z.
Proof.
  unfold lstep. intro H. destruct (nth_error (st_ths (ls_lock s)) i) as [t|]; [|discriminate].
  destruct (nth_error (ls_ths s) i) as [h|]; [|discriminate].
  repeat match type of H with
  | Some _ = Some _ => fail 1
  | (match ?x with _ => _ end) = _ => destruct x eqn:?; try discriminate
  end; injection H as <-; cbn [ls_tr]; first [eexists; reflexivity|exists []; now rewrite app_nil_r].
Qed.
Lemma lrun_tr sched : forall s s', lrun s sched = Some s' -> exists z, ls_tr s' = ls_tr s ++ z.
Proof.
  induction sched as [|i q IH]; intros s s' H; cbn in H.
  - injection H as <-. exists []. now rewrite app_nil_r.
  - destruct (lstep s i) as [s1|] eqn:E; [|discriminate]. destruct (lstep_tr _ _ _ E) as (z & Z). destruct (IH _ _ H) as (y & Y).
    exists (z ++ y). now rewrite Y, Z, <- app_assoc.
Qed.
Lemma one_call_prefix a z : one_call_per_reader (a ++ z) -> one_call_per_reader a.
Proof.
  intros H x i r c b j c' y E N. apply (H x i r c b j c' (y ++ z)); [|exact N]. rewrite E, <- app_assoc. cbn. now rewrite <- app_assoc.
Qed.
Lemma sim_run d0 rds0 sched : forall s w b P s', sim d0 rds0 s w b P -> one_call_per_reader (ls_tr s') -> lrun s sched = Some s' -> exists w' b' P', sim d0 rds0 s' w' b' P'.
Proof.
  induction sched as [|i q IH]; intros s w b P s' S NO H; cbn in H.
  - injection H as <-. eauto.
  - destruct (lstep s i) as [s1|] eqn:E; [|discriminate]. destruct (lrun_tr _ _ _ H) as (z & Z).
    destruct (sim_step _ _ _ _ _ _ _ _ S ltac:(rewrite Z in NO; exact (one_call_prefix _ _ NO)) E) as (w1 & b1 & P1 & S1). eauto.
Qed.

Lemma nth_error_ext {A} (l l' : list A) : (forall i, nth_error l i = nth_error l' i) -> l = l'.
Proof.
  revert l'. induction l as [|x l IH]; intros [|y l'] H; auto.
  - specialize (H 0). discriminate.
  - specialize (H 0). discriminate.
  - pose proof (H 0) as H0. cbn in H0. injection H0 as ->. f_equal. apply IH. intro i. exact (H (S i)).
Qed.
Lemma sim_rest d0 rds0 s w b P : sim d0 rds0 s w b P -> at_rest s -> b = MkBS (the_buf s) (ls_rds s).
Proof.
  intros S R. assert (the_buf s = s_buf b).
  { apply (sm_buf _ _ _ _ (sm_core _ _ _ _ _ _ S)). intros i t rest Hi E.
    destruct (nth_error (ls_ths s) i) as [h|] eqn:Hh.
    - pose proof (sm_th _ _ _ _ (sm_core _ _ _ _ _ _ S) i t h Hi Hh) as T. unfold thread_rel in T. rewrite (R i h Hh) in T. destruct T as (_ & T & _). congruence.
    - apply nth_error_None in Hh. rewrite (sm_len _ _ _ _ (sm_core _ _ _ _ _ _ S)) in Hh. apply nth_error_None in Hh. congruence. }
  assert (ls_rds s = s_rds b).
  { apply nth_error_ext. intro r. destruct (sm_rds _ _ _ _ (sm_core _ _ _ _ _ _ S) r) as [E|(i & h & c & p & E1 & E2)]; [exact E|].
    exfalso. rewrite (R i h E1) in E2. discriminate. }
  destruct b as [d rs]. cbn in *. congruence.
Qed.
End Run.
