(** * Progress of the lock *)
From Coq Require Import List ZArith Bool Arith Lia.
From Verif Require Import PyVal PyLib SortedDequeM BufferReaderM BufferSysM LogReads RWLockM SpecLock LockFacts LockProps.
Import ListNotations.

Section L.
Variable D : Type.
Notation thread := (thread D). Notation pc := (pc D). Notation shared := (shared D). Notation state := (state D).

(** ** What a state looks like in which no thread inside the lock code can move *)
Definition busy (p : pc) : bool := match p with Idle | RIn => false | _ => true end.
Definition waiting (p : pc) : Prop :=
  match p with Idle | RIn | RQueue | RNoReaders | WNoWriters => True | _ => False end.

Lemma stuck_shape (s : state) : lock_inv D s ->
  (forall i t, thread_at s i t -> busy (t_pc t) = true -> tstep (st_sh s) t = None) ->
  (forall i t, thread_at s i t -> waiting (t_pc t)) /\
  ((exists i t, thread_at s i t /\ busy (t_pc t) = true) ->
   (exists j u, thread_at s j u /\ t_pc u = WNoWriters) /\ (exists k v, thread_at s k v /\ 0 < t_nest v)).
Proof.
  intros [(gr & gw & C) N] ST. destruct s as [h l]. unfold thread_at in *. cbn [st_sh st_ths] in *.
  destruct C as [C1 C2 C3 C4 C5 C6 C7 C8 C9].
  (* release and plain steps are never blocked *)
  assert (A : forall i t, nth_error l i = Some t ->
    match t_pc t with
    | Idle | RIn => True
    | RQueue => l_queue h = true | RNoReaders | WNoReaders => l_noread h = true
    | RMutex | XMutex => l_rmutex h = true | RNoWriters | WNoWriters => l_nowrite h = true
    | WMutex | VMutex => l_wmutex h = true
    | _ => False
    end).
  { intros i t Hi. specialize (ST i t Hi).
    pose proof (total_ge (w_rmutex D) _ _ _ Hi). pose proof (total_ge (w_wmutex D) _ _ _ Hi).
    pose proof (total_ge (w_queue D) _ _ _ Hi). pose proof (total_ge (w_noread D) _ _ _ Hi).
    pose proof (total_ge (w_nowrite D) _ _ _ Hi). pose proof (total_ge (w_xrel D) _ _ _ Hi). pose proof (total_ge (w_vrel D) _ _ _ Hi).
    unfold tstep, acquire, release in ST. destruct t as [p n c q]. cbn [t_pc t_nest t_cur t_todo] in *.
    destruct p; cbn [busy] in *; auto; try (specialize (ST eq_refl)); try discriminate ST;
      cbn [w_rmutex w_wmutex w_queue w_noread w_nowrite w_xrel w_vrel t_pc] in *.
    all: try (match type of ST with (if ?b then _ else _) = _ => destruct b eqn:?; try discriminate ST end; cbn [b2n] in *; try reflexivity; try lia).
    - destruct C8 as [C8|[C8|[C8|[C8|[C8|[C8|C8]]]]]]; lia.
    - destruct rest as [|f r]; [discriminate|]. destruct (f (l_data h)); discriminate.
    - destruct C9 as [C9|[C9|[C9|[C9|[C9|[C9|C9]]]]]]; lia. }
  assert (Z1 : total (w_nowrite D) l = 0 /\ total (w_rtest D) l = 0 /\ total (w_xtest D) l = 0 /\ total (w_xrel D) l = 0 /\
               total (w_wtest D) l = 0 /\ total (w_vtest D) l = 0 /\ total (w_vrel D) l = 0).
  { repeat split; apply total_zero; intros i t Hi; specialize (A i t Hi);
      unfold w_nowrite, w_rtest, w_xtest, w_xrel, w_wtest, w_vtest, w_vrel; destruct (t_pc t); auto; destruct A. }
  destruct Z1 as (Z1 & Z2 & Z3 & Z4 & Z5 & Z6 & Z7).
  assert (Z8 : total (w_rnw D) l = 0).
  { destruct (total (w_rnw D) l) eqn:E; [reflexivity|exfalso].
    destruct (total_pos (w_rnw D) l) as (i & t & Hi & Hw); [lia|]. specialize (A i t Hi).
    unfold w_rnw in Hw. destruct (t_pc t); try lia. rewrite A in C5. cbn in C5.
    destruct C8 as [C8|[C8|[C8|[C8|[C8|[C8|C8]]]]]]; lia. }
  assert (Z9 : total (w_rmutex D) l = 0).
  { apply total_zero. intros i t Hi. specialize (A i t Hi). pose proof (total_ge (w_rnw D) _ _ _ Hi) as G.
    unfold w_rmutex, w_rnw in *. destruct (t_pc t); auto; try (destruct A; fail). lia. }
  rewrite Z9 in C1. destruct (l_rmutex h) eqn:Erm; [discriminate|]. clear C1.
  assert (Z10 : total (w_noread D) l = 0).
  { apply total_zero. intros i t Hi. pose proof (A i t Hi) as B. pose proof (total_ge (w_rnw D) _ _ _ Hi) as G.
    unfold w_noread, w_rnw in *. destruct (t_pc t); auto; try (destruct B; fail); try discriminate B. lia. }
  assert (Z11 : total (w_wnr D) l = 0).
  { destruct (total (w_wnr D) l) eqn:E; [reflexivity|exfalso].
    destruct (total_pos (w_wnr D) l) as (i & t & Hi & Hw); [lia|]. specialize (A i t Hi).
    unfold w_wnr in Hw. destruct (t_pc t); try lia. rewrite A in C4. cbn in C4.
    destruct C9 as [C9|[C9|[C9|[C9|[C9|[C9|C9]]]]]]; lia. }
  assert (Z12 : total (w_wmutex D) l = 0).
  { apply total_zero. intros i t Hi. specialize (A i t Hi). pose proof (total_ge (w_wnr D) _ _ _ Hi) as G.
    unfold w_wmutex, w_wnr in *. destruct (t_pc t); auto; try (destruct A; fail). lia. }
  rewrite Z12 in C2. destruct (l_wmutex h) eqn:Ewm; [discriminate|]. clear C2.
  assert (W : forall i t, nth_error l i = Some t -> waiting (t_pc t)).
  { intros i t Hi. pose proof (A i t Hi) as B. pose proof (total_ge (w_rnw D) _ _ _ Hi) as G1.
    pose proof (total_ge (w_wnr D) _ _ _ Hi) as G2. unfold waiting, w_rnw, w_wnr in *.
    destruct (t_pc t); auto; try discriminate B; lia. }
  split; [exact W|]. intros (i & t & Hi & Hb).
  assert (HW : (exists j u, nth_error l j = Some u /\ t_pc u = WNoWriters) -> 
    exists k v, nth_error l k = Some v /\ 0 < t_nest v).
  { intros (j & u & Hj & Eu). pose proof (A j u Hj) as B. rewrite Eu in B. rewrite B, Z1 in C5. cbn in C5.
    assert (0 < total (w_nread D) l) as P. { destruct C8 as [C8|[C8|[C8|[C8|[C8|[C8|C8]]]]]]; lia. }
    apply total_pos in P as (k & v & Hk & Hv). exists k, v. split; [assumption|]. specialize (W k v Hk).
    unfold w_nread in Hv. unfold waiting in W. destruct (t_pc v); auto; destruct W. }
  assert (HR : (exists j u, nth_error l j = Some u /\ t_pc u = RNoReaders) -> exists j u, nth_error l j = Some u /\ t_pc u = WNoWriters).
  { intros (j & u & Hj & Eu). pose proof (A j u Hj) as B. rewrite Eu in B. rewrite B, Z10 in C4. cbn in C4.
    assert (0 < total (w_nwrite D) l) as P. { destruct C9 as [C9|[C9|[C9|[C9|[C9|[C9|C9]]]]]]; lia. }
    apply total_pos in P as (k & v & Hk & Hv). exists k, v. split; [assumption|]. specialize (W k v Hk).
    unfold w_nwrite in Hv. unfold waiting in W. destruct (t_pc v); auto; try lia; destruct W. }
  assert (exists j u, nth_error l j = Some u /\ t_pc u = WNoWriters) as X.
  { pose proof (W i t Hi) as Wt. pose proof (A i t Hi) as B. destruct (t_pc t) eqn:Et; try discriminate Hb; try (destruct Wt; fail).
    - apply HR. rewrite B in C3. cbn in C3. destruct (total_pos (w_queue D) l) as (k & v & Hk & Hv); [lia|].
      exists k, v. split; [assumption|]. specialize (W k v Hk). unfold w_queue in Hv. unfold waiting in W.
      destruct (t_pc v); auto; try lia; destruct W.
    - apply HR. eauto.
    - eauto. }
  split; [exact X|]. now apply HW.
Qed.

(** ** Every step uses up some of the remaining work *)
Definition rank (t : thread) : nat :=
  match t_pc t with
  | Idle | RIn => 0
  | RQueue => 10 | RNoReaders => 9 | RMutex => 8 | RLoad => 7 | RStore _ => 6 | RTest => 5 | RNoWriters => 4
  | RMutexRel => 3 | RNoReadersRel => 2 | RQueueRel => 1
  | XMutex => 6 | XLoad => 5 | XStore _ => 4 | XTest => 3 | XNoWritersRel => 2 | XMutexRel => 1
  | WMutex => 20 + length (t_cur t) | WLoad => 19 + length (t_cur t) | WStore _ => 18 + length (t_cur t)
  | WTest => 17 + length (t_cur t) | WNoReaders => 16 + length (t_cur t) | WMutexRel => 15 + length (t_cur t)
  | WNoWriters => 14 + length (t_cur t) | WIn rest => 9 + length rest
  | VNoWritersRel => 7 | VMutex => 6 | VLoad => 5 | VStore _ => 4 | VTest => 3 | VNoReadersRel => 2 | VMutexRel => 1
  end.
Definition cost (o : sop D) : nat := match o with SAcq => 11 | SRel => 7 | SWrite w => 21 + length w end.
Definition work (t : thread) : nat := rank t + total cost (t_todo t).
Lemma tstep_work h t h' t' : tstep h t = Some (h', t') -> work t' < work t.
Proof.
  destruct t as [p n c q]. unfold tstep, acquire, release, work. cbn [t_pc t_nest t_cur t_todo]. intro Ht.
  destruct p;
    repeat match type of Ht with
    | Some (_, at_pc _ (if Nat.eqb ?a ?b then _ else _)) = _ => destruct (Nat.eqb_spec a b)
    | Some (_, at_pc _ (match ?x with _ => _ end)) = _ => destruct x eqn:?
    | Some _ = Some _ => fail 1
    | (match ?x with _ => _ end) = _ => destruct x eqn:?; try discriminate
    end; injection Ht as <- <-; unfold rank; cbn [at_pc t_pc t_cur t_todo total cost length]; lia.
Qed.
Lemma step_work (s : state) i s' : step s i = Some s' -> total work (st_ths s') < total work (st_ths s).
Proof.
  intro H. apply step_inv in H as (t & h' & t' & Hi & Ht & ->). cbn [st_ths]. apply tstep_work in Ht.
  pose proof (total_upd work (st_ths s) i t t' Hi). lia.
Qed.
Lemma run_work sched : forall (s : state) s', run s sched = Some s' -> length sched + total work (st_ths s') <= total work (st_ths s).
Proof.
  induction sched as [|i q IH]; intros s s' H; cbn in H; [injection H as <-; cbn; lia|].
  destruct (step s i) as [s1|] eqn:E; [|discriminate]. apply step_work in E. specialize (IH s1 s' H). cbn. lia.
Qed.

(** ** Scripts without nesting *)
Definition flat_thread (t : thread) : Prop :=
  match t_pc t with
  | RQueue | RNoReaders | RMutex | RLoad | RStore _ | RTest | RNoWriters | RMutexRel | RNoReadersRel | RQueueRel =>
      t_nest t = 0 /\ exists q, t_todo t = SRel :: q /\ flat q = true
  | RIn => t_nest t = 1 /\ exists q, t_todo t = SRel :: q /\ flat q = true
  | _ => t_nest t = 0 /\ flat (t_todo t) = true
  end.
Lemma tstep_flat h t h' t' : tstep h t = Some (h', t') -> flat_thread t -> flat_thread t'.
Proof.
  destruct t as [p n c q]. unfold tstep, acquire, release, flat_thread. cbn [t_pc t_nest t_cur t_todo]. intro Ht.
  destruct p;
    repeat match type of Ht with
    | Some (_, at_pc _ (if Nat.eqb ?a ?b then _ else _)) = _ => destruct (Nat.eqb_spec a b)
    | Some (_, at_pc _ (match ?x with _ => _ end)) = _ => destruct x eqn:?
    | Some _ = Some _ => fail 1
    | (match ?x with _ => _ end) = _ => destruct x eqn:?; try discriminate
    end; injection Ht as <- <-; cbn [at_pc t_pc t_nest t_cur t_todo]; auto.
  all: try (intros [E1 (q' & E & H)]; discriminate E).
  all: try (intros [E1 H]; discriminate E1).
  all: try (intros [E1 (q' & E & H)]; injection E as <-; subst n; split; auto; fail).
  all: try (intros [-> H]; split; [reflexivity|exact H]).
  - intros [-> H]. cbn in H. split; [reflexivity|]. destruct l as [|[| |w] l]; try discriminate. eauto.
Qed.
Definition all_flat (s : state) : Prop := forall i t, thread_at s i t -> flat_thread t.
Lemma run_flat sched : forall (s : state) s', all_flat s -> run s sched = Some s' -> all_flat s'.
Proof.
  induction sched as [|i q IH]; intros s s' F H; cbn in H; [injection H as <-; exact F|].
  destruct (step s i) as [s1|] eqn:E; [|discriminate]. apply (IH s1); [|assumption].
  apply step_inv in E as (t & h' & t' & Hi & Ht & ->). intros j u Hj. unfold thread_at in *. cbn [st_ths] in Hj.
  rewrite nth_error_set_nth in Hj. destruct (Nat.eqb_spec i j) as [<-|]; [|now apply (F j)].
  rewrite Hi in Hj. injection Hj as <-. eapply tstep_flat; eauto.
Qed.
Lemma init_flat (d : D) scripts : Forall (fun q => flat q = true) scripts -> all_flat (init d scripts).
Proof.
  intros H i t Hi. unfold thread_at, init in Hi. cbn in Hi. rewrite nth_error_map in Hi.
  destruct (nth_error scripts i) as [q|] eqn:E; [|discriminate]. injection Hi as <-. cbn. split; [reflexivity|].
  rewrite Forall_forall in H. apply H. eapply nth_error_In; eauto.
Qed.

Lemma step_some (s : state) i t : thread_at s i t -> tstep (st_sh s) t <> None -> step s i <> None.
Proof. intros H N. unfold step. unfold thread_at in H. rewrite H. destruct (tstep (st_sh s) t) as [[]|]; congruence. Qed.

Lemma dec_step (s : state) : (exists i t, thread_at s i t /\ busy (t_pc t) = true /\ tstep (st_sh s) t <> None) \/
  (forall i t, thread_at s i t -> busy (t_pc t) = true -> tstep (st_sh s) t = None).
Proof.
  unfold thread_at. destruct s as [h l]. cbn [st_ths st_sh]. induction l as [|t l IH].
  - right. intros [|i] t H; discriminate.
  - destruct IH as [(i & u & Hi & Hb & Hs)|IH]; [left; exists (S i), u; auto|].
    destruct (busy (t_pc t)) eqn:B.
    + destruct (tstep h t) eqn:E; [left; exists 0, t; repeat split; auto; congruence|].
      right. intros [|i] u H; cbn in H; [injection H as <-; auto|eauto].
    + right. intros [|i] u H; cbn in H; [injection H as <-; congruence|eauto].
Qed.
Lemma flat_progress (s : state) : lock_inv D s -> all_flat s ->
  (exists i t, thread_at s i t /\ busy (t_pc t) = true) ->
  exists j u, thread_at s j u /\ t_pc u <> Idle /\ step s j <> None.
Proof.
  intros I F B. destruct (dec_step s) as [(i & t & Hi & Hb & Hs)|ST].
  - exists i, t. split; [assumption|]. split; [destruct (t_pc t); try discriminate|]. eapply step_some; eauto.
  - destruct (stuck_shape s I ST) as [W X]. destruct (X B) as [_ (k & v & Hk & Hn)].
    specialize (W k v Hk). pose proof (F k v Hk) as Fv. unfold waiting, flat_thread in *.
    destruct (t_pc v) eqn:Ev; try (destruct W; fail); try (destruct Fv; lia).
    exists k, v. split; [assumption|]. split; [congruence|]. apply (step_some s k v Hk).
    destruct Fv as [_ (q & E & _)]. unfold tstep. rewrite Ev, E. discriminate.
Qed.

(** ** Readers without writers *)
Lemma nowriter_step h (t : thread) h' (t' : thread) : in_reader_code (t_pc t) = true -> tstep h t = Some (h', t') -> is_writer (t_pc t') = false.
Proof.
  destruct t as [p n c q]. unfold tstep, acquire, release. cbn [t_pc t_nest t_cur t_todo]. intros Hp Ht.
  destruct p; try discriminate Hp;
    repeat match type of Ht with
    | Some (_, at_pc _ (if Nat.eqb ?a ?b then _ else _)) = _ => destruct (Nat.eqb_spec a b)
    | Some (_, at_pc _ (match ?x with _ => _ end)) = _ => destruct x eqn:?
    | Some _ = Some _ => fail 1
    | (match ?x with _ => _ end) = _ => destruct x eqn:?; try discriminate
    end; injection Ht as <- <-; reflexivity.
Qed.
Lemma racq_step h (t : thread) h' (t' : thread) : in_reader_acquire (t_pc t) = true -> tstep h t = Some (h', t') ->
  (in_reader_acquire (t_pc t') = true /\ t_nest t' = t_nest t) \/ (t_pc t' = RIn /\ t_nest t' = S (t_nest t)).
Proof.
  destruct t as [p n c q]. unfold tstep, acquire, release. cbn [t_pc t_nest t_cur t_todo]. intros Hp Ht.
  destruct p; try discriminate Hp;
    repeat match type of Ht with
    | Some (_, at_pc _ (if Nat.eqb ?a ?b then _ else _)) = _ => destruct (Nat.eqb_spec a b)
    | Some (_, at_pc _ (match ?x with _ => _ end)) = _ => destruct x eqn:?
    | Some _ = Some _ => fail 1
    | (match ?x with _ => _ end) = _ => destruct x eqn:?; try discriminate
    end; injection Ht as <- <-; cbn; auto.
Qed.
Lemma readers_run N : forall (s : state) i t, total work (st_ths s) <= N -> lock_inv D s ->
  (forall j u, thread_at s j u -> is_writer (t_pc u) = false) ->
  thread_at s i t -> in_reader_acquire (t_pc t) = true ->
  exists s', by_reader_code s s' /\ (exists t', thread_at s' i t' /\ t_pc t' = RIn /\ t_nest t' = S (t_nest t)) /\
    forall j u, thread_at s j u -> in_reader_code (t_pc u) = false -> thread_at s' j u.
Proof.
  induction N as [|N IH]; intros s i t HN I NW Hi Hr.
  { exfalso. pose proof (total_ge work _ _ _ Hi) as G. assert (0 < work t) by (unfold work, rank; destruct (t_pc t); try discriminate; lia). lia. }
  assert (exists j u, thread_at s j u /\ busy (t_pc u) = true /\ tstep (st_sh s) u <> None) as (j & u & Hj & Hb & Hs).
  { destruct (dec_step s) as [X|ST]; [exact X|exfalso].
    destruct (stuck_shape s I ST) as [_ X]. destruct X as [(j & u & Hj & Eu) _].
    - exists i, t. split; [assumption|]. destruct (t_pc t); auto; discriminate.
    - specialize (NW j u Hj). rewrite Eu in NW. discriminate. }
  destruct (tstep (st_sh s) u) as [[h' u']|] eqn:Hst; [clear Hs|congruence].
  assert (Hc : in_reader_code (t_pc u) = true).
  { specialize (NW j u Hj). unfold is_writer in NW. destruct (t_pc u); auto; try discriminate. }
  set (m := MkSt h' (set_nth (st_ths s) j u')).
  assert (Em : step s j = Some m) by (unfold step, thread_at in *; rewrite Hj, Hst; reflexivity).
  assert (TM : forall k v, thread_at m k v -> (k = j /\ v = u') \/ (k <> j /\ thread_at s k v)).
  { intros k v Hk. unfold thread_at, m in *. cbn [st_ths] in Hk. rewrite nth_error_set_nth in Hk.
    destruct (Nat.eqb_spec j k) as [<-|]; [left; rewrite Hj in Hk; split; congruence|right; split; auto]. }
  assert (TK : forall k v, k <> j -> thread_at s k v -> thread_at m k v).
  { intros k v Nk Hk. unfold thread_at, m in *. cbn [st_ths]. rewrite nth_error_set_nth.
    destruct (Nat.eqb_spec j k); [congruence|assumption]. }
  assert (TJ : thread_at m j u').
  { unfold thread_at, m in *. cbn [st_ths]. rewrite nth_error_set_nth, Nat.eqb_refl, Hj. reflexivity. }
  assert (NWm : forall k v, thread_at m k v -> is_writer (t_pc v) = false).
  { intros k v Hk. destruct (TM k v Hk) as [[-> ->]|[_ Hk']]; [eapply nowriter_step; eauto|eauto]. }
  pose proof (step_work s j m Em) as HW. pose proof (step_lock_inv D s j m I Em) as Im.
  assert (KEEP : forall k v, thread_at s k v -> in_reader_code (t_pc v) = false -> thread_at m k v).
  { intros k v Hk Hv. apply TK; [|assumption]. intros ->. assert (v = u) by (unfold thread_at in *; congruence). congruence. }
  destruct (Nat.eq_dec i j) as [<-|Nij].
  - assert (u = t) by (unfold thread_at in *; congruence). subst u.
    destruct (racq_step _ _ _ _ Hr Hst) as [[R1 R2]|[R1 R2]].
    + destruct (IH m i u' ltac:(lia) Im NWm TJ R1) as (s' & B & (t' & H1 & H2 & H3) & K).
      exists s'. split; [eapply brc_step; eauto|]. split; [exists t'; repeat split; auto; congruence|].
      intros k v Hk Hv. apply K; auto.
    + exists m. split; [eapply brc_step; eauto; constructor|]. split; [eauto|]. exact KEEP.
  - destruct (IH m i t ltac:(lia) Im NWm (TK i t Nij Hi) Hr) as (s' & B & X & K).
    exists s'. split; [eapply brc_step; eauto|]. split; [exact X|]. intros k v Hk Hv. apply K; auto.
Qed.

(** ** Announced writers keep readers out *)
Lemma announced_shut (s : state) : lock_inv D s -> announced s -> total (w_noread D) (st_ths s) = 0 /\ l_noread (st_sh s) = true.
Proof.
  intros [(gr & gw & C) _] (i & t & Hi & Ht). unfold thread_at in *. destruct s as [h l]. cbn [st_sh st_ths] in *.
  destruct C as [C1 C2 C3 C4 C5 C6 C7 C8 C9].
  assert (Hw : w_nwrite D t = 1) by (unfold w_nwrite; destruct (t_pc t); try reflexivity; destruct Ht).
  pose proof (total_ge (w_nwrite D) _ _ _ Hi) as G.
  assert (Hsum : forall w : thread -> nat, (forall x, 0 < w x -> w_nwrite D x = 1) -> w t = 0 -> total w l = 1 -> 2 <= total (w_nwrite D) l).
  { intros w HW Hz HT. destruct (total_pos w l) as (k & x & Hk & Hx); [lia|]. specialize (HW x Hx).
    assert (k <> i) by (intros ->; assert (x = t) by congruence; subst x; lia).
    pose proof (total_two (w_nwrite D) _ k i x t H Hk Hi). lia. }
  assert (gw = 1).
  { destruct C9 as [C9|[C9|[C9|[C9|[C9|[C9|C9]]]]]]; try lia.
    - enough (2 <= total (w_nwrite D) l) by lia. apply (Hsum (w_wnr D)); [| |lia].
      + intro x. unfold w_wnr, w_nwrite. destruct (t_pc x); intro; lia.
      + unfold w_wnr. destruct (t_pc t); auto; destruct Ht.
    - enough (2 <= total (w_nwrite D) l) by lia. apply (Hsum (w_wtest D)); [| |lia].
      + intro x. unfold w_wtest, w_nwrite. destruct (t_pc x); intro; lia.
      + unfold w_wtest. destruct (t_pc t); auto; destruct Ht. }
  subst gw. pose proof (b2n_le (l_noread h)). destruct (l_noread h); cbn in C4; [split; [lia|reflexivity]|lia].
Qed.
Lemma tstep_granted h (t : thread) h' (t' : thread) : tstep h t = Some (h', t') -> w_noread D t = 0 -> nest_ok D h t -> granted t' <= granted t.
Proof.
  destruct t as [p n c q]. unfold tstep, acquire, release, granted, w_noread, nest_ok. cbn [t_pc t_nest t_cur t_todo]. intros Ht Hw N.
  destruct p; try discriminate Hw;
    repeat match type of Ht with
    | Some (_, at_pc _ (if Nat.eqb ?a ?b then _ else _)) = _ => destruct (Nat.eqb_spec a b)
    | Some (_, at_pc _ (match ?x with _ => _ end)) = _ => destruct x eqn:?
    | Some _ = Some _ => fail 1
    | (match ?x with _ => _ end) = _ => destruct x eqn:?; try discriminate
    end; injection Ht as <- <-; cbn [at_pc t_pc t_nest]; lia.
Qed.

(** ** Nested readers against a waiting writer *)
Definition deadlock_pair (s : state) (i j : nat) (t u : thread) : Prop :=
  thread_at s i t /\ t_pc t = RNoReaders /\ 0 < t_nest t /\ thread_at s j u /\ t_pc u = WNoWriters.
Lemma deadlock_blocked (s : state) i j t u : lock_inv D s -> deadlock_pair s i j t u ->
  tstep (st_sh s) t = None /\ tstep (st_sh s) u = None.
Proof.
  intros I (Hi & Et & Hn & Hj & Eu).
  destruct (announced_shut s I) as [_ NR]; [exists j, u; split; [assumption|now rewrite Eu]|].
  split; [unfold tstep, acquire; now rewrite Et, NR|].
  destruct I as [(gr & gw & C) N]. destruct s as [h l]. unfold thread_at in *. cbn [st_sh st_ths] in *.
  destruct C as [C1 C2 C3 C4 C5 C6 C7 C8 C9].
  pose proof (total_ge (w_nread D) _ _ _ Hi) as G. assert (w_nread D t = t_nest t) as Ew by (unfold w_nread; now rewrite Et).
  assert (Hsum : forall w : thread -> nat, (forall x, 0 < w x -> w_nread D x = S (t_nest x)) -> w t = 0 -> total w l = 1 -> 2 <= total (w_nread D) l).
  { intros w HW Hz HT. destruct (total_pos w l) as (k & x & Hk & Hx); [lia|]. specialize (HW x Hx).
    assert (k <> i) by (intros ->; assert (x = t) by congruence; subst x; lia).
    pose proof (total_two (w_nread D) _ k i x t H Hk Hi). lia. }
  assert (gr = 1).
  { destruct C8 as [C8|[C8|[C8|[C8|[C8|[C8|C8]]]]]]; try lia.
    - enough (2 <= total (w_nread D) l) by lia. apply (Hsum (w_rnw D)); [| |lia].
      + intro x. unfold w_rnw, w_nread. destruct (t_pc x); intro; lia.
      + unfold w_rnw. now rewrite Et.
    - enough (2 <= total (w_nread D) l) by lia. apply (Hsum (w_rtest D)); [| |lia].
      + intro x. unfold w_rtest, w_nread. destruct (t_pc x); intro; lia.
      + unfold w_rtest. now rewrite Et. }
  unfold tstep, acquire. rewrite Eu. destruct (l_nowrite h); [reflexivity|]. cbn in C5. lia.
Qed.
Lemma deadlock_forever sched i j t u : forall (s : state), lock_inv D s -> deadlock_pair s i j t u ->
  forall s', run s sched = Some s' -> thread_at s' i t /\ thread_at s' j u.
Proof.
  induction sched as [|k q IH]; intros s I DP s' H; cbn in H.
  - injection H as <-. destruct DP as (A & _ & _ & B & _). auto.
  - destruct (step s k) as [s1|] eqn:E; [|discriminate]. apply (IH s1); auto.
    + eapply step_lock_inv; eauto.
    + destruct (deadlock_blocked s i j t u I DP) as [B1 B2]. destruct DP as (Hi & Et & Hn & Hj & Eu).
      apply step_inv in E as (v & h' & v' & Hk & Hs & ->). unfold deadlock_pair, thread_at in *. cbn [st_ths].
      assert (k <> i) by (intros ->; congruence). assert (k <> j) by (intros ->; congruence).
      rewrite !nth_error_set_nth. destruct (Nat.eqb_spec k i), (Nat.eqb_spec k j); try congruence. auto.
Qed.
End L.
