(** * Invariants of the reader/writer lock *)
From Coq Require Import List ZArith Bool Arith Lia.
From Verif Require Import PyVal PyLib SortedDequeM BufferSysM LogReads RWLockM.
Import ListNotations.

Fixpoint total {A} (w : A -> nat) (l : list A) : nat :=
  match l with [] => 0 | x :: q => w x + total w q end.
Lemma total_upd {A} (w : A -> nat) l i x y : nth_error l i = Some x ->
  total w (set_nth l i y) + w x = total w l + w y.
Proof.
  revert i. induction l as [|z l IH]; intros [|i] H; cbn in *; try discriminate.
  - injection H as ->. lia.
  - specialize (IH i H). lia.
Qed.
Lemma total_ge {A} (w : A -> nat) l i x : nth_error l i = Some x -> w x <= total w l.
Proof.
  revert i. induction l as [|z l IH]; intros [|i] H; cbn in *; try discriminate.
  - injection H as ->. lia.
  - specialize (IH i H). lia.
Qed.
Lemma total_two {A} (w : A -> nat) l i j x y : i <> j -> nth_error l i = Some x -> nth_error l j = Some y ->
  w x + w y <= total w l.
Proof.
  revert i j. induction l as [|z l IH]; intros [|i] [|j] N Hi Hj; cbn in *; try discriminate; try congruence.
  - injection Hi as ->. pose proof (total_ge w l j y Hj). lia.
  - injection Hj as ->. pose proof (total_ge w l i x Hi). lia.
  - specialize (IH i j ltac:(lia) Hi Hj). lia.
Qed.
Lemma total_pos {A} (w : A -> nat) l : 0 < total w l -> exists i x, nth_error l i = Some x /\ 0 < w x.
Proof.
  induction l as [|z l IH]; cbn; [lia|]. intro H. destruct (w z) eqn:E.
  - destruct IH as (i & x & Hi & Hx); [lia|]. exists (S i), x. auto.
  - exists 0, z. cbn. split; [reflexivity|lia].
Qed.
Lemma total_zero {A} (w : A -> nat) l : (forall i x, nth_error l i = Some x -> w x = 0) -> total w l = 0.
Proof.
  intro H. destruct (total w l) eqn:E; [reflexivity|]. destruct (total_pos w l) as (i & x & Hi & Hx); [lia|].
  specialize (H i x Hi). lia.
Qed.

Definition b2n (b : bool) : nat := if b then 1 else 0.

Section LockInv.
Variable D : Type.
Notation thread := (thread D). Notation pc := (pc D). Notation shared := (shared D). Notation state := (state D).

(** Weights by program counter. *)
Definition w_rmutex (t : thread) : nat :=
  match t_pc t with RLoad | RStore _ | RTest | RNoWriters | RMutexRel | XLoad | XStore _ | XTest | XNoWritersRel | XMutexRel => 1 | _ => 0 end.
Definition w_wmutex (t : thread) : nat :=
  match t_pc t with WLoad | WStore _ | WTest | WNoReaders | WMutexRel | VLoad | VStore _ | VTest | VNoReadersRel | VMutexRel => 1 | _ => 0 end.
Definition w_queue (t : thread) : nat :=
  match t_pc t with RNoReaders | RMutex | RLoad | RStore _ | RTest | RNoWriters | RMutexRel | RNoReadersRel | RQueueRel => 1 | _ => 0 end.
Definition w_noread (t : thread) : nat :=
  match t_pc t with RMutex | RLoad | RStore _ | RTest | RNoWriters | RMutexRel | RNoReadersRel => 1 | _ => 0 end.
Definition w_nread (t : thread) : nat :=
  match t_pc t with RTest | RNoWriters | RMutexRel | RNoReadersRel | RQueueRel | XMutex | XLoad | XStore _ => S (t_nest t) | _ => t_nest t end.
Definition w_nwrite (t : thread) : nat :=
  match t_pc t with WTest | WNoReaders | WMutexRel | WNoWriters | WIn _ | VNoWritersRel | VMutex | VLoad | VStore _ => 1 | _ => 0 end.
Definition w_nowrite (t : thread) : nat := match t_pc t with WIn _ | VNoWritersRel => 1 | _ => 0 end.
Definition w_rtest (t : thread) : nat := match t_pc t with RTest => 1 | _ => 0 end.
Definition w_rnw (t : thread) : nat := match t_pc t with RNoWriters => 1 | _ => 0 end.
Definition w_xtest (t : thread) : nat := match t_pc t with XTest => 1 | _ => 0 end.
Definition w_xrel (t : thread) : nat := match t_pc t with XNoWritersRel => 1 | _ => 0 end.
Definition w_wtest (t : thread) : nat := match t_pc t with WTest => 1 | _ => 0 end.
Definition w_wnr (t : thread) : nat := match t_pc t with WNoReaders => 1 | _ => 0 end.
Definition w_vtest (t : thread) : nat := match t_pc t with VTest => 1 | _ => 0 end.
Definition w_vrel (t : thread) : nat := match t_pc t with VNoReadersRel => 1 | _ => 0 end.

(** Local facts: nesting and loaded counters. *)
Definition nest_ok (h : shared) (t : thread) : Prop :=
  match t_pc t with
  | Idle | WMutex | WLoad | WTest | WNoReaders | WMutexRel | WNoWriters | WIn _
  | VNoWritersRel | VMutex | VLoad | VTest | VNoReadersRel | VMutexRel => t_nest t = 0
  | WStore c | VStore c => t_nest t = 0 /\ c = n_write h
  | RStore c | XStore c => c = n_read h
  | RIn => 0 < t_nest t
  | _ => True
  end.

(** State of a light switch: nobody is switching; about to take the lock; about to release
    it; testing after an increment; testing after a decrement. [n]: the counter, [g]: 1 if the
    switch holds its lock. *)
Definition phase (a b c e n g : nat) : Prop :=
  (a = 0 /\ b = 0 /\ c = 0 /\ e = 0 /\ n = 0 /\ g = 0) \/
  (a = 0 /\ b = 0 /\ c = 0 /\ e = 0 /\ 0 < n /\ g = 1) \/
  (a = 1 /\ b = 0 /\ c = 0 /\ e = 0 /\ n = 1 /\ g = 0) \/
  (a = 0 /\ b = 1 /\ c = 0 /\ e = 0 /\ n = 0 /\ g = 1) \/
  (a = 0 /\ b = 0 /\ c = 1 /\ e = 0 /\ n = 1 /\ g = 0) \/
  (a = 0 /\ b = 0 /\ c = 1 /\ e = 0 /\ 1 < n /\ g = 1) \/
  (a = 0 /\ b = 0 /\ c = 0 /\ e = 1 /\ g = 1).
Lemma phase_same a b c e n g a' b' c' e' n' : phase a b c e n g ->
  a' = a -> b' = b -> c' = c -> e' = e -> n' = n -> phase a' b' c' e' n' g.
Proof. intros. now subst. Qed.

(** [gr] / [gw]: the read switch holds no_writers / the write switch holds no_readers. *)
Record cnt_inv (h : shared) (l : list thread) (gr gw : nat) : Prop := {
  ci_rm : b2n (l_rmutex h) = total w_rmutex l;
  ci_wm : b2n (l_wmutex h) = total w_wmutex l;
  ci_rq : b2n (l_queue h) = total w_queue l;
  ci_nr : b2n (l_noread h) = total w_noread l + gw;
  ci_nw : b2n (l_nowrite h) = total w_nowrite l + gr;
  ci_rc : n_read h = total w_nread l;
  ci_wc : n_write h = total w_nwrite l;
  ci_gr : phase (total w_rnw l) (total w_xrel l) (total w_rtest l) (total w_xtest l) (n_read h) gr;
  ci_gw : phase (total w_wnr l) (total w_vrel l) (total w_wtest l) (total w_vtest l) (n_write h) gw
}.
Definition lock_inv (s : state) : Prop :=
  (exists gr gw, cnt_inv (st_sh s) (st_ths s) gr gw) /\
  forall i t, nth_error (st_ths s) i = Some t -> nest_ok (st_sh s) t.

Lemma total_le {A} (v w : A -> nat) l : (forall x, v x <= w x) -> total v l <= total w l.
Proof. intro H. induction l as [|x l IH]; cbn; [lia|]. specialize (H x). lia. Qed.

Lemma lock_inv_init d scripts : lock_inv (init d scripts).
Proof.
  assert (Z : forall w : thread -> nat, (forall q, w (MkT Idle 0 [] q) = 0) -> total w (map (MkT Idle 0 []) scripts) = 0).
  { intros w Hw. induction scripts as [|q l IH]; cbn; [reflexivity|]. now rewrite Hw, IH. }
  split.
  - exists 0, 0. constructor; cbn [st_sh st_ths init l_rmutex l_wmutex l_queue l_noread l_nowrite n_read n_write b2n];
      rewrite ?Z by (intro; reflexivity); try reflexivity; left; lia.
  - intros i t H. cbn in H. rewrite nth_error_map in H. destruct (nth_error scripts i); [|discriminate].
    injection H as <-. cbn. reflexivity.
Qed.

Lemma step_inv (s : state) i s' : step s i = Some s' -> exists t h' t', nth_error (st_ths s) i = Some t /\
  tstep (st_sh s) t = Some (h', t') /\ s' = MkSt h' (set_nth (st_ths s) i t').
Proof.
  unfold step. destruct (nth_error (st_ths s) i) as [t|]; [|discriminate].
  destruct (tstep (st_sh s) t) as [[h' t']|] eqn:E; [|discriminate]. intro H. injection H as <-. eauto 10.
Qed.

Ltac sums l i Hi t' :=
  pose proof (total_upd w_rmutex l i _ t' Hi); pose proof (total_upd w_wmutex l i _ t' Hi);
  pose proof (total_upd w_queue l i _ t' Hi); pose proof (total_upd w_noread l i _ t' Hi);
  pose proof (total_upd w_nowrite l i _ t' Hi);
  pose proof (total_upd w_nread l i _ t' Hi); pose proof (total_upd w_nwrite l i _ t' Hi);
  pose proof (total_upd w_rtest l i _ t' Hi); pose proof (total_upd w_rnw l i _ t' Hi);
  pose proof (total_upd w_xtest l i _ t' Hi); pose proof (total_upd w_xrel l i _ t' Hi);
  pose proof (total_upd w_wtest l i _ t' Hi); pose proof (total_upd w_wnr l i _ t' Hi);
  pose proof (total_upd w_vtest l i _ t' Hi); pose proof (total_upd w_vrel l i _ t' Hi).

Lemma sub_sums (l : list thread) :
  total w_rtest l + total w_rnw l + total w_xtest l + total w_xrel l <= total w_rmutex l /\
  total w_wtest l + total w_wnr l + total w_vtest l + total w_vrel l <= total w_wmutex l /\
  total w_noread l <= total w_queue l.
Proof.
  induction l as [|t l IH]; cbn; [lia|].
  unfold w_rtest at 1, w_rnw at 1, w_xtest at 1, w_xrel at 1, w_rmutex at 1, w_wtest at 1, w_wnr at 1, w_vtest at 1,
    w_vrel at 1, w_wmutex at 1, w_noread at 1, w_queue at 1.
  destruct (t_pc t); lia.
Qed.
(* counters are only written under their mutex *)
Lemma tstep_counts h t h' t' : tstep h t = Some (h', t') ->
  (w_rmutex t = 0 -> n_read h' = n_read h) /\ (w_wmutex t = 0 -> n_write h' = n_write h).
Proof.
  unfold tstep, acquire, release, w_rmutex, w_wmutex. destruct t as [p n c q]. cbn [t_pc t_nest t_cur t_todo].
  destruct p; intro H;
    repeat match type of H with
    | (match ?x with _ => _ end) = _ => destruct x; try discriminate
    end; injection H as <- <-; cbn; auto; split; intro; try reflexivity; discriminate.
Qed.

Ltac ph C C' := destruct C as [C|[C|[C|[C|[C|[C|C]]]]]];
  first [exfalso; lia | unfold phase; first [left; lia|right; left; lia|right; right; left; lia|right; right; right; left; lia
   |right; right; right; right; left; lia|right; right; right; right; right; left; lia|right; right; right; right; right; right; lia]].
Ltac finish g1 g2 C8 C9 C6 C7 C4 C5 := exists g1, g2; constructor;
  cbn [set_queue set_noread set_nowrite set_rmutex set_wmutex set_nread set_nwrite set_data set_done
     l_rmutex l_wmutex l_queue l_noread l_nowrite n_read n_write b2n];
  [ clear C8 C9; lia | clear C8 C9; lia | clear C8 C9; lia | clear C8 | clear C9 | clear C8 C9; lia | clear C8 C9; lia
  | clear C9 C7; first [eapply phase_same; [exact C8|clear C8; lia..] | ph C8 C8]
  | clear C8 C6; first [eapply phase_same; [exact C9|clear C9; lia..] | ph C9 C9] ];
  [ first [clear C9; lia| destruct C9 as [C9|[C9|[C9|[C9|[C9|[C9|C9]]]]]]; lia]
  | first [clear C8; lia| destruct C8 as [C8|[C8|[C8|[C8|[C8|[C8|C8]]]]]]; lia] ].
Lemma step_counts (s : state) i s' : lock_inv s -> step s i = Some s' -> exists gr gw, cnt_inv (st_sh s') (st_ths s') gr gw.
Proof.
  intros [(gr & gw & C) N] H. apply step_inv in H as (t & h' & t' & Hi & Ht & ->). cbn [st_sh st_ths].
  destruct s as [h l]. cbn [st_sh st_ths] in *. specialize (N i t Hi).
  pose proof (sub_sums l) as SS.
  destruct C as [C1 C2 C3 C4 C5 C6 C7 C8 C9].
  assert (Hb : forall b, b2n b <= 1) by (intros []; cbn; lia).
  pose proof (Hb (l_rmutex h)); pose proof (Hb (l_wmutex h)); pose proof (Hb (l_nowrite h)); pose proof (Hb (l_noread h)). clear Hb.
  destruct t as [p n c q]. unfold tstep, acquire, release in Ht. cbn [t_pc t_nest t_cur t_todo] in Ht.
  unfold nest_ok in N. cbn [t_pc t_nest] in N.
  destruct p;
    repeat match type of Ht with
    | Some (_, at_pc _ (if Nat.eqb ?a ?b then _ else _)) = _ => destruct (Nat.eqb_spec a b)
    | Some (_, at_pc _ (match ?x with _ => _ end)) = _ => destruct x eqn:?
    | Some _ = Some _ => fail 1
    | (match ?x with _ => _ end) = _ => destruct x eqn:?; try discriminate
    end; injection Ht as <- <-;
    match goal with |- context [set_nth l i ?t'] => 
      sums l i Hi t'; pose proof (sub_sums (set_nth l i t')) as SS' end;
    cbn [at_pc t_pc t_nest t_cur t_todo w_rmutex w_wmutex w_queue w_noread w_nowrite w_nread w_nwrite w_rtest w_rnw w_xtest w_xrel w_wtest w_wnr w_vtest w_vrel b2n] in *.
  all: first [ finish gr gw C8 C9 C6 C7 C4 C5 | finish 1 gw C8 C9 C6 C7 C4 C5 | finish gr 1 C8 C9 C6 C7 C4 C5 | finish 0 gw C8 C9 C6 C7 C4 C5 | finish gr 0 C8 C9 C6 C7 C4 C5 ].
Qed.

Lemma b2n_le b : b2n b <= 1.
Proof. destruct b; cbn; lia. Qed.
Lemma nest_own h t h' t' : nest_ok h t -> tstep h t = Some (h', t') -> nest_ok h' t'.
Proof.
  intros N Ht. destruct t as [p n c q]. unfold tstep, acquire, release in Ht. cbn [t_pc t_nest t_cur t_todo] in Ht.
  unfold nest_ok in N. cbn [t_pc t_nest] in N.
  destruct p;
    repeat match type of Ht with
    | Some (_, at_pc _ (if Nat.eqb ?a ?b then _ else _)) = _ => destruct (Nat.eqb_spec a b)
    | Some (_, at_pc _ (match ?x with _ => _ end)) = _ => destruct x eqn:?
    | Some _ = Some _ => fail 1
    | (match ?x with _ => _ end) = _ => destruct x eqn:?; try discriminate
    end; injection Ht as <- <-; cbn; auto; try lia; tauto.
Qed.
Lemma step_lock_inv (s : state) i s' : lock_inv s -> step s i = Some s' -> lock_inv s'.
Proof.
  intros I H. split; [now apply (step_counts s i s')|].
  destruct I as [(gr & gw & C) N]. apply step_inv in H as (t & h' & t' & Hi & Ht & ->). cbn [st_sh st_ths].
  intros j u Hj. rewrite nth_error_set_nth in Hj. destruct (Nat.eqb_spec i j) as [<-|Nij].
  - rewrite Hi in Hj. injection Hj as <-. apply (nest_own (st_sh s) t); [apply (N i t Hi)|exact Ht].
  - pose proof (N j u Hj) as Nu. destruct (tstep_counts _ _ _ _ Ht) as [K1 K2].
    pose proof (total_two w_rmutex _ i j t u Nij Hi Hj) as T1. pose proof (total_two w_wmutex _ i j t u Nij Hi Hj) as T2.
    pose proof (ci_rm _ _ _ _ C) as C1. pose proof (ci_wm _ _ _ _ C) as C2.
    pose proof (b2n_le (l_rmutex (st_sh s))). pose proof (b2n_le (l_wmutex (st_sh s))).
    unfold nest_ok in *. unfold w_rmutex at 2 in T1. unfold w_wmutex at 2 in T2. destruct (t_pc u); auto.
    + rewrite K1 by lia. assumption.
    + rewrite K1 by lia. assumption.
    + destruct Nu. rewrite K2 by lia. auto.
    + destruct Nu. rewrite K2 by lia. auto.
Qed.
Lemma run_lock_inv sched : forall (s : state) s', lock_inv s -> run s sched = Some s' -> lock_inv s'.
Proof.
  induction sched as [|i q IH]; intros s s' I H; cbn in H; [congruence|].
  destruct (step s i) as [s1|] eqn:E; [|discriminate]. eapply IH; [|exact H]. eapply step_lock_inv; eauto.
Qed.
Lemma run_app_lock a b : forall (s : state) s', run s (a ++ b) = Some s' <-> exists m, run s a = Some m /\ run m b = Some s'.
Proof.
  induction a as [|i a IH]; intros s s'; cbn.
  - split; [eauto|]. intros (m & E & H). congruence.
  - destruct (step s i) as [s1|]; [apply IH|]. split; [discriminate|]. intros (m & E & _). discriminate.
Qed.
End LockInv.
