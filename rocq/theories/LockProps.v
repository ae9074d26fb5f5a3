(** * Lemmas for the lock properties *)
From Coq Require Import List ZArith Bool Arith Lia.
From Verif Require Import PyVal PyLib SortedDequeM BufferReaderM BufferSysM LogReads RWLockM SpecLock LockFacts.
Import ListNotations.

Section L.
Variable D : Type.
Notation thread := (thread D). Notation pc := (pc D). Notation shared := (shared D). Notation state := (state D).

Lemma reached_inv (d : D) scripts s : reached d scripts s -> lock_inv D s.
Proof. intros (sched & H). eapply run_lock_inv; [apply lock_inv_init|exact H]. Qed.

(** ** Exclusion *)
Lemma excl (s : state) i t : lock_inv D s -> thread_at s i t -> w_nowrite D t = 1 ->
  t_nest t = 0 /\ forall j u, j <> i -> thread_at s j u -> t_nest u = 0 /\ w_nowrite D u = 0.
Proof.
  intros [(gr & gw & C) N] Hi Hw. unfold thread_at in *.
  pose proof (ci_nw _ _ _ _ _ C) as C5. pose proof (ci_rc _ _ _ _ _ C) as C6. pose proof (ci_gr _ _ _ _ _ C) as C8.
  pose proof (b2n_le (l_nowrite (st_sh s))). pose proof (total_ge (w_nowrite D) _ _ _ Hi).
  assert (gr = 0 /\ total (w_nowrite D) (st_ths s) = 1) as [Hg Ht] by lia.
  split.
  - specialize (N i t Hi). unfold nest_ok, w_nowrite in *. destruct (t_pc t); try discriminate; auto.
  - intros j u Nj Hj. pose proof (total_two (w_nowrite D) _ i j t u ltac:(lia) Hi Hj). split; [|lia].
    destruct (t_nest u) as [|n] eqn:En; [reflexivity|exfalso].
    assert (Hu : S n <= w_nread D u) by (unfold w_nread; rewrite En; destruct (t_pc u); lia).
    pose proof (total_ge (w_nread D) _ _ _ Hj).
    assert (Hsum : forall w : thread -> nat, (forall x, 0 < w x -> w x = 1 /\ w_nread D x = S (t_nest x)) ->
              total w (st_ths s) = 1 -> 2 <= total (w_nread D) (st_ths s)).
    { intros w HW HT. destruct (total_pos w (st_ths s)) as (k & x & Hk & Hx); [lia|]. destruct (HW x Hx) as [_ Ex].
      destruct (Nat.eq_dec k j) as [->|Nk].
      - assert (x = u) by congruence. subst x. lia.
      - pose proof (total_two (w_nread D) _ k j x u Nk Hk Hj). lia. }
    destruct C8 as [C8|[C8|[C8|[C8|[C8|[C8|C8]]]]]]; try lia.
    + specialize (Hsum (w_rnw D)). enough (2 <= total (w_nread D) (st_ths s)) by lia. apply Hsum; [|lia].
      intro x. unfold w_rnw, w_nread. destruct (t_pc x); intro; try lia; auto.
    + specialize (Hsum (w_rtest D)). enough (2 <= total (w_nread D) (st_ths s)) by lia. apply Hsum; [|lia].
      intro x. unfold w_rtest, w_nread. destruct (t_pc x); intro; try lia; auto.
Qed.

(** ** Data *)
Definition data_inv (d0 : D) (s : state) : Prop :=
  (forall i t rest, thread_at s i t -> t_pc t = WIn rest ->
     exec rest (l_data (st_sh s)) = exec (t_cur t) (exec_all (l_done (st_sh s)) d0)) /\
  ((forall i t rest, thread_at s i t -> t_pc t <> WIn rest) -> l_data (st_sh s) = exec_all (l_done (st_sh s)) d0).
Lemma exec_all_snoc ws w (d : D) : exec_all (ws ++ [w]) d = exec w (exec_all ws d).
Proof. unfold exec_all. now rewrite fold_left_app. Qed.

(* what a step does to the data *)
Lemma tstep_data (h : shared) t h' t' : tstep h t = Some (h', t') ->
  (exists f rest d', t_pc t = WIn (f :: rest) /\ f (l_data h) = Some d' /\ t_pc t' = WIn rest /\ t_cur t' = t_cur t /\
      l_data h' = d' /\ l_done h' = l_done h) \/
  (exists rest, t_pc t = WIn rest /\ (rest = [] \/ exists f q, rest = f :: q /\ f (l_data h) = None) /\
      t_pc t' = VNoWritersRel /\ l_data h' = l_data h /\ l_done h' = l_done h ++ [t_cur t]) \/
  (l_data h' = l_data h /\ l_done h' = l_done h /\ (forall rest, t_pc t <> WIn rest) /\
     (forall rest, t_pc t' = WIn rest -> t_pc t = WNoWriters /\ rest = t_cur t' )).
Proof.
  destruct t as [p n c q]. unfold tstep, acquire, release. cbn [t_pc t_nest t_cur t_todo]. intro Ht.
  destruct p;
    repeat match type of Ht with
    | Some (_, at_pc _ (if Nat.eqb ?a ?b then _ else _)) = _ => destruct (Nat.eqb_spec a b)
    | Some (_, at_pc _ (match ?x with _ => _ end)) = _ => destruct x eqn:?
    | Some _ = Some _ => fail 1
    | (match ?x with _ => _ end) = _ => destruct x eqn:?; try discriminate
    end; injection Ht as <- <-; cbn [t_pc at_pc t_cur];
    try (right; right; split; [reflexivity|]; split; [reflexivity|]; split; [discriminate|]; intros ? E; try discriminate; injection E as <-; auto; fail).
  - right; left. exists []. repeat split; auto.
  - left. eauto 10.
  - right; left. exists (o :: w). repeat split; auto. right; eauto.
Qed.
Lemma step_data_inv d0 (s : state) i s' : lock_inv D s -> data_inv d0 s -> step s i = Some s' -> data_inv d0 s'.
Proof.
  intros I [H1 H2] H. apply step_inv in H as (t & h' & t' & Hi & Ht & ->).
  assert (EX : forall rest, t_pc t = WIn rest -> forall j u r, j <> i -> thread_at s j u -> t_pc u <> WIn r).
  { intros rest Ep j u r Nj Hj Eu.
    destruct (excl s i t I Hi) as [_ X]; [unfold w_nowrite; now rewrite Ep|].
    destruct (X j u Nj Hj) as [_ X2]. unfold w_nowrite in X2. rewrite Eu in X2. discriminate. }
  assert (OTH : forall j u, thread_at (MkSt h' (set_nth (st_ths s) i t')) j u -> (j = i /\ u = t') \/ (j <> i /\ thread_at s j u)).
  { intros j u Hj. unfold thread_at in *. cbn [st_ths] in Hj. rewrite nth_error_set_nth in Hj.
    destruct (Nat.eqb_spec i j) as [<-|]; [left; rewrite Hi in Hj; split; congruence|right; split; auto]. }
  assert (OWN : thread_at (MkSt h' (set_nth (st_ths s) i t')) i t').
  { unfold thread_at. cbn [st_ths]. rewrite nth_error_set_nth, Nat.eqb_refl, Hi. reflexivity. }
  destruct (tstep_data _ _ _ _ Ht) as [(f & rest & d' & Ep & Ef & Ep' & Ec & Ed & Edn)|[(rest & Ep & Er & Ep' & Ed & Edn)|(Ed & Edn & Np & Np')]];
    split; cbn [st_sh] in *.
  - intros j u r Hj Eu. destruct (OTH j u Hj) as [[-> ->]|[Nj Hj']]; [|exfalso; eapply EX; eauto].
    assert (r = rest) by congruence. subst r. rewrite Edn, Ec, <- (H1 i t (f :: rest) Hi Ep). cbn. now rewrite Ef, Ed.
  - intro X. exfalso. now apply (X i t' rest OWN).
  - intros j u r Hj Eu. destruct (OTH j u Hj) as [[-> ->]|[Nj Hj']]; [congruence|exfalso; eapply EX; eauto].
  - intros _. rewrite Ed, Edn, exec_all_snoc, <- (H1 i t rest Hi Ep).
    destruct Er as [->|(f & q & -> & Ef)]; cbn; [reflexivity|now rewrite Ef].
  - intros j u r Hj Eu. rewrite Ed, Edn. destruct (OTH j u Hj) as [[-> ->]|[Nj Hj']]; [|now apply (H1 j u)].
    destruct (Np' r Eu) as [Ew ->]. f_equal. apply H2. intros k v r Hk Ev.
    assert (HN : l_nowrite (st_sh s) = false).
    { unfold tstep in Ht. rewrite Ew in Ht. unfold acquire in Ht. now destruct (l_nowrite (st_sh s)). }
    destruct I as [(gr & gw & C) _]. pose proof (ci_nw _ _ _ _ _ C) as C5. rewrite HN in C5. cbn in C5.
    pose proof (total_ge (w_nowrite D) _ _ _ Hk) as G. unfold w_nowrite at 1 in G. rewrite Ev in G. lia.
  - intro X. rewrite Ed, Edn. apply H2. intros j u r Hj Eu.
    destruct (Nat.eq_dec j i) as [->|Nj].
    + assert (u = t) by (unfold thread_at in Hj; congruence). subst u. now apply (Np r).
    + apply (X j u r); [|assumption]. unfold thread_at in *. cbn [st_ths]. rewrite nth_error_set_nth.
      destruct (Nat.eqb_spec i j); [congruence|assumption].
Qed.
Lemma reached_data (d0 : D) scripts s : reached d0 scripts s -> data_inv d0 s.
Proof.
  intros (sched & H).
  assert (I0 : data_inv d0 (init d0 scripts)).
  { split; [|reflexivity]. intros i t rest Hi Ep. unfold thread_at, init in Hi. cbn in Hi. rewrite nth_error_map in Hi.
    destruct (nth_error scripts i); [|discriminate]. injection Hi as <-. discriminate. }
  pose proof (lock_inv_init D d0 scripts) as L0. revert I0 L0 H. generalize (init d0 scripts).
  induction sched as [|i q IH]; intros s0 I0 L0 H; cbn in H; [congruence|].
  destruct (step s0 i) as [s1|] eqn:E; [|discriminate]. apply (IH s1); auto.
  - eapply step_data_inv; eauto.
  - eapply step_lock_inv; eauto.
Qed.
End L.
