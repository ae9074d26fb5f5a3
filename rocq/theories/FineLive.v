(** * Calls other than range(only_new_items=True) always come to an end *)
From Coq Require Import List ZArith Bool Arith Lia.
From Verif Require Import PyVal PyLib SortedDequeM Spec SpecDeque BufferReaderM BufferSysM ListFacts DequeFacts DequeSearch LogFacts LogReads
  RWLockM SpecLock LockFacts LockLive LockProps ReaderStepsM SpecLin LinFacts LinShape LinSim LinStep LinRun.
Import ListNotations.

(** ** Programs that never ask for the lock inside a section *)
Inductive quiet {A} : prog A -> Prop :=
| qu_ret o : quiet (PRet o)
| qu_look k : (forall d, quiet (k d)) -> quiet (PLook k)
| qu_get k : (forall r, quiet (k r)) -> quiet (PGet k)
| qu_set f k : quiet k -> quiet (PSet f k).
Inductive shallow {A} : nat -> prog A -> Prop :=
| sh_ret n o : shallow n (PRet o)
| sh_enter k : shallow 1 k -> shallow 0 (PEnter k)
| sh_leave n k : shallow n k -> shallow (S n) (PLeave k)
| sh_look n k : (forall d, shallow n (k d)) -> shallow n (PLook k)
| sh_get n k : (forall r, shallow n (k r)) -> shallow n (PGet k)
| sh_set n f k : shallow n k -> shallow n (PSet f k).
Lemma quiet_bind {A B} (x : prog A) (f : A -> prog B) : quiet x -> (forall a, quiet (f a)) -> quiet (bindP x f).
Proof. intros H F. induction H; cbn; try (constructor; auto; fail). destruct o; [apply F|constructor]. Qed.
Lemma quiet_try {A} (x : prog A) h : quiet x -> (forall a, quiet (h a)) -> quiet (tryP x h).
Proof. intros H F. induction H; cbn; try (constructor; auto; fail). destruct o; [constructor|apply F]. Qed.
Lemma quiet_look {A} (f : sdeque -> res A) : quiet (lookP f).
Proof. constructor. intro. constructor. Qed.
Lemma quiet_load {A} (f : breader -> A) : quiet (loadP f).
Proof. constructor. intro. constructor. Qed.
Lemma quiet_shallow {A} n (x : prog A) : quiet x -> shallow n x.
Proof. intro H. induction H; constructor; auto. Qed.
Lemma shallow_quiet {A B} n (x : prog A) (f : A -> prog B) : shallow n x -> (forall a, quiet (f a)) -> shallow n (bindP x f).
Proof. intros H F. induction H; cbn; try (constructor; auto; fail). destruct o; [apply quiet_shallow, F|constructor]. Qed.
Lemma shallow_load {A B} n (f : breader -> A) (k : A -> prog B) : (forall a, shallow n (k a)) -> shallow n (bindP (loadP f) k).
Proof. intro H. constructor. intro r. apply H. Qed.
Lemma shallow_lock {A} (x : prog A) : quiet x -> shallow 0 (with_lockP x).
Proof. intro H. constructor. induction H; cbn; constructor; auto. constructor. Qed.
Lemma quiet_bisect_right x : quiet (bisect_right_p x).
Proof.
  unfold bisect_right_p. apply quiet_bind; [apply quiet_look|]. intro n.
  assert (H : forall f lo hi, quiet (bisect_right_probes f x lo hi)); [|apply H].
  induction f as [|f IH]; intros lo hi; cbn [bisect_right_probes]; destruct (Nat.ltb lo hi); try apply qu_ret.
  apply quiet_bind; [apply quiet_look|]. intro m. apply quiet_bind; [apply qu_ret|]. intros [|]; apply IH.
Qed.
Lemma quiet_bisect_left x : quiet (bisect_left_p x).
Proof.
  unfold bisect_left_p. apply quiet_bind; [apply quiet_look|]. intro n.
  assert (H : forall f lo hi, quiet (bisect_left_probes f x lo hi)); [|apply H].
  induction f as [|f IH]; intros lo hi; cbn [bisect_left_probes]; destruct (Nat.ltb lo hi); try apply qu_ret.
  apply quiet_bind; [apply quiet_look|]. intro m. apply quiet_bind; [apply qu_ret|]. intros [|]; apply IH.
Qed.
Ltac quiets := repeat first
  [ apply quiet_bisect_left | apply quiet_bisect_right | apply quiet_look | apply quiet_load
  | apply quiet_bind; [|intro] | apply quiet_try; [|intro] | apply qu_ret | apply qu_set
  | match goal with |- quiet (match ?x with _ => _ end) => destruct x end ].
Lemma quiet_read_body n p ig s : quiet (read_body_p n p ig s).
Proof. unfold read_body_p, find_gt_p, read_many_p, index_p, move_cursor_p, set_last_item_p, key_p, retP, raiseP. cbv zeta. quiets. Qed.
Lemma shallow_read a : shallow 0 (read_p a).
Proof. unfold read_p. do 3 (apply shallow_load; intro). apply shallow_lock, quiet_read_body. Qed.
Lemma quiet_range_body g ig : g_only_new g = false -> quiet (range_body_p g ig).
Proof.
  intro E. unfold range_body_p. rewrite E. cbn [andb]. unfold find_le_p, find_ge_p, range_p, key_p, retP, raiseP. quiets.
Qed.
Definition no_nest (c : call) : Prop := match c with CRange g => g_only_new g = false | _ => True end.
Lemma shallow_call c : no_nest c -> shallow 0 (call_p c).
Proof.
  destruct c as [a|s|g|p i o|p]; cbn [call_p no_nest]; intro N.
  - apply shallow_read.
  - unfold next_p. do 3 (apply shallow_load; intro). apply shallow_quiet; [apply shallow_read|]. intro v. unfold retP, raiseP. quiets.
  - unfold reader_range_p. apply shallow_load. intro ig. apply shallow_quiet; [apply shallow_lock, quiet_range_body, N|]. intro o.
    unfold set_last_item_p, key_p, retP, raiseP. quiets.
  - unfold tail_p. apply shallow_quiet; [apply shallow_lock; unfold tail_body_p, find_last_gt_p, retP, raiseP; quiets|]. intro x.
    unfold move_cursor_p, set_last_item_p, key_p, retP, raiseP. quiets.
  - unfold head_p. apply shallow_quiet; [apply shallow_lock, quiet_look|]. intro x. unfold move_cursor_p, set_last_item_p, key_p, retP, raiseP. quiets.
Qed.
Lemma sh_enter_inv {A} n (k : prog A) : shallow n (PEnter k) -> n = 0 /\ shallow 1 k.
Proof. intro H. now inversion H. Qed.
Lemma sh_leave_inv {A} n (k : prog A) : shallow n (PLeave k) -> exists m, n = S m /\ shallow m k.
Proof. intro H. inversion H; subst. eauto. Qed.

(** ** One step of one thread *)
Definition shal (L : lstate) : Prop :=
  forall i t h r c p, nth_error (st_ths (ls_lock L)) i = Some t -> nth_error (ls_ths L) i = Some h -> h_ph h = PhCall r c p ->
    exists n, eff t n /\ n <= 1 /\ shallow n p.

Definition elt : Type := option (prog rval) * nat.
Inductive sub : prog rval -> prog rval -> Prop :=
| sb_enter k : sub k (PEnter k) | sb_leave k : sub k (PLeave k) | sb_look k d : sub (k d) (PLook k)
| sb_get k r : sub (k r) (PGet k) | sb_set f k : sub k (PSet f k).
Inductive less : elt -> elt -> Prop :=
| ls_prog p q n m : sub p q -> less (Some p, n) (Some q, m)
| ls_none q n m : less (None, n) (Some q, m)
| ls_work o n m : n < m -> less (o, n) (o, m).
Lemma wf_less : well_founded less.
Proof.
  assert (N : forall n, Acc less (None, n)).
  { intro n. induction n as [n IH] using lt_wf_ind. constructor. intros y H. inversion H; subst. now apply IH. }
  assert (S : forall p n, Acc less (Some p, n)).
  { induction p as [o|k IH|k IH|k IH|k IH|f k IH]; intro n; induction n as [n IHn] using lt_wf_ind; constructor; intros y H; inversion H; subst; auto.
    all: match goal with S : sub _ _ |- _ => inversion S; subst; auto end. }
  intros [[p|] n]; auto.
Qed.
Inductive one : list elt -> list elt -> Prop := one_at i l a a' : nth_error l i = Some a -> less a' a -> one (set_nth l i a') l.
Lemma wf_one : well_founded one.
Proof.
  assert (C : forall a, Acc less a -> forall l, Acc one l -> Acc one (a :: l)).
  { intros a Ha. induction Ha as [a _ IHa]. intros l Hl. induction Hl as [l Hl IHl]. constructor. intros y H. inversion H as [i l0 b b' E R]; subst.
    destruct i as [|i]; cbn in *.
    - injection E as ->. apply IHa; [exact R|]. constructor. exact Hl.
    - apply IHl. now apply (one_at i l b b'). }
  intro l. induction l as [|a l IH].
  - constructor. intros y H. inversion H as [i l0 b b' E R]; subst. destruct i; discriminate.
  - apply C; [apply wf_less|exact IH].
Qed.
Definition weigh (x : lth * tok) : elt :=
  match h_ph (fst x) with
  | PhIdle => (None, 0)
  | PhWrite _ _ => (None, S (work sdeque (snd x)))
  | PhCall _ _ p => (Some p, work sdeque (snd x))
  end.
Definition weights (L : lstate) : list elt := map weigh (combine (ls_ths L) (st_ths (ls_lock L))).
Lemma combine_set {A B} (l : list A) (k : list B) i a b : combine (set_nth l i a) (set_nth k i b) = set_nth (combine l k) i (a, b).
Proof. revert k i. induction l as [|x l IH]; intros [|y k] [|i]; cbn; try reflexivity. now rewrite IH. Qed.
Lemma map_set {A B} (f : A -> B) l i a : map f (set_nth l i a) = set_nth (map f l) i (f a).
Proof. revert i. induction l as [|x l IH]; intros [|i]; cbn; try reflexivity. now rewrite IH. Qed.
Lemma nth_combine {A B} (l : list A) (k : list B) i a b : nth_error l i = Some a -> nth_error k i = Some b -> nth_error (combine l k) i = Some (a, b).
Proof. revert k i. induction l as [|x l IH]; intros [|y k] [|i] H1 H2; cbn in *; try discriminate; [congruence|auto]. Qed.

Lemma weights_set L lk rds i h t tr : nth_error (ls_ths L) i <> None -> st_ths lk = set_nth (st_ths (ls_lock L)) i t ->
  weights (MkLs lk rds (set_nth (ls_ths L) i h) tr) = set_nth (weights L) i (weigh (h, t)).
Proof. intros _ E. unfold weights. cbn [ls_ths ls_lock]. rewrite E, combine_set, map_set. reflexivity. Qed.
(* the thread that makes a step inside a call gets closer to the end of it *)
Lemma lstep_down L i L' h : lstep L i = Some L' -> nth_error (ls_ths L) i = Some h -> h_ph h <> PhIdle -> one (weights L') (weights L).
Proof.
  intros H Hh NI. unfold lstep in H. destruct (nth_error (st_ths (ls_lock L)) i) as [t|] eqn:Hi; [|discriminate]. rewrite Hh in H.
  assert (W : nth_error (weights L) i = Some (weigh (h, t))) by (unfold weights; apply map_nth_error, nth_combine; assumption).
  assert (GEN : forall lk rds h' t' tr, st_ths lk = set_nth (st_ths (ls_lock L)) i t' -> less (weigh (h', t')) (weigh (h, t)) ->
     one (weights (MkLs lk rds (set_nth (ls_ths L) i h') tr)) (weights L)).
  { intros lk rds h' t' tr E R. rewrite (weights_set L lk rds i h' t' tr) by (congruence || assumption). eapply one_at; eauto. }
  assert (SAME : set_nth (st_ths (ls_lock L)) i t = st_ths (ls_lock L)) by now apply set_nth_same.
  destruct (in_lock t) eqn:IL.
  - destruct (RWLockM.step (ls_lock L) i) as [k|] eqn:Hk; [|discriminate]. injection H as <-.
    apply step_inv in Hk as (t0 & h' & t' & Hi0 & Ht & ->). assert (t0 = t) by congruence. subst t0. clear Hi0.
    pose proof (tstep_work sdeque _ _ _ _ Ht) as LT. destruct (h_ph h) as [|r c p|o out] eqn:Ep; [congruence| |].
    + rewrite <- (set_nth_same (ls_ths L) i h Hh). apply (GEN _ _ _ t'); [reflexivity|]. unfold weigh. cbn [fst snd]. rewrite Ep. now constructor.
    + unfold go. apply (GEN _ _ _ t'); [reflexivity|]. unfold weigh. cbn [fst snd h_ph]. rewrite Ep. apply ls_work. lia.
  - destruct (h_ph h) as [|r c p|o out] eqn:Ep; [congruence| |].
    + unfold go in H. destruct p as [o|k|k|k|k|f k].
      * injection H as <-. apply (GEN _ _ _ t); [now symmetry|]. unfold weigh. cbn [fst snd h_ph]. rewrite Ep. constructor.
      * injection H as <-. eapply GEN; [rewrite (ask_same L i t Hi); reflexivity|]. unfold weigh. cbn [fst snd h_ph]. rewrite Ep. constructor. constructor.
      * injection H as <-. eapply GEN; [rewrite (ask_same L i t Hi); reflexivity|]. unfold weigh. cbn [fst snd h_ph]. rewrite Ep. constructor. constructor.
      * injection H as <-. apply (GEN _ _ _ t); [now symmetry|]. unfold weigh. cbn [fst snd h_ph]. rewrite Ep. constructor. constructor.
      * destruct (nth_error (ls_rds L) r); [|discriminate]. injection H as <-. apply (GEN _ _ _ t); [now symmetry|]. unfold weigh. cbn [fst snd h_ph]. rewrite Ep. constructor. constructor.
      * destruct (nth_error (ls_rds L) r); [|discriminate]. injection H as <-. apply (GEN _ _ _ t); [now symmetry|]. unfold weigh. cbn [fst snd h_ph]. rewrite Ep. constructor. constructor.
    + destruct out; [|discriminate]. injection H as <-. unfold go. apply (GEN _ _ _ t); [now symmetry|]. unfold weigh. cbn [fst snd h_ph]. rewrite Ep. apply ls_work. lia.
Qed.

Lemma lstep_shal L i L' : lstep L i = Some L' -> shal L -> lock_inv sdeque (ls_lock L) ->
  (forall t h, nth_error (st_ths (ls_lock L)) i = Some t -> nth_error (ls_ths L) i = Some h -> h_ph h = PhIdle ->
     t_pc t = Idle /\ t_todo t = [] /\ forall r c q, h_todo h = LCall r c :: q -> no_nest c) -> shal L'.
Proof.
  intros H F LI ID. unfold lstep in H. destruct (nth_error (st_ths (ls_lock L)) i) as [t|] eqn:Hi; [|discriminate].
  destruct (nth_error (ls_ths L) i) as [h|] eqn:Hh; [|discriminate]. specialize (ID t h eq_refl eq_refl).
  assert (GEN : forall lk rds h' t' tr, st_ths lk = set_nth (st_ths (ls_lock L)) i t' ->
     (forall r c p, h_ph h' = PhCall r c p -> exists n, eff t' n /\ n <= 1 /\ shallow n p) -> shal (MkLs lk rds (set_nth (ls_ths L) i h') tr)).
  { intros lk rds h' t' tr E R j u g r c p Hj Hg Ep. cbn [ls_lock ls_ths] in *. rewrite E, nth_error_set_nth in Hj. rewrite nth_error_set_nth in Hg.
    destruct (Nat.eqb_spec i j) as [<-|N]; [|eapply F; eauto]. rewrite Hi in Hj. rewrite Hh in Hg. injection Hj as <-. injection Hg as <-. eauto. }
  assert (SAME : set_nth (st_ths (ls_lock L)) i t = st_ths (ls_lock L)) by now apply set_nth_same.
  destruct (in_lock t) eqn:IL.
  - destruct (RWLockM.step (ls_lock L) i) as [k|] eqn:Hk; [|discriminate]. injection H as <-.
    apply step_inv in Hk as (t0 & h' & t' & Hi0 & Ht & ->). assert (t0 = t) by congruence. subst t0. clear Hi0.
    destruct (h_ph h) as [|r c p|o out] eqn:Ep.
    + destruct (ID eq_refl) as (B1 & B2 & _). unfold in_lock in IL. rewrite B1, B2 in IL. discriminate.
    + rewrite <- (set_nth_same (ls_ths L) i h Hh). apply (GEN _ _ _ t'); [reflexivity|]. rewrite Ep. intros r1 c1 p1 Q. injection Q as <- <- <-.
      destruct (F i t h r c p Hi Hh Ep) as (n & E & N1 & S). destruct (eff_step _ _ _ _ _ E IL Ht) as (E' & _). eauto.
    + unfold go. apply (GEN _ _ _ t'); [reflexivity|]. cbn. discriminate.
  - destruct (h_ph h) as [|r c p|o out] eqn:Ep.
    + destruct (ID eq_refl) as (B1 & B2 & B3). unfold go in H. destruct (h_todo h) as [|[x|n| |r c] q]; try discriminate.
      * injection H as <-. eapply GEN; [rewrite (ask_same L i t Hi); reflexivity|]. discriminate.
      * injection H as <-. eapply GEN; [rewrite (ask_same L i t Hi); reflexivity|]. discriminate.
      * destruct (Nat.ltb _ _); [|discriminate]. injection H as <-. apply (GEN _ _ _ t); [now symmetry|]. cbn. intros r1 c1 p1 Q. injection Q as <- <- <-.
        exists 0. split; [|split; [lia|apply shallow_call; eapply B3; reflexivity]].
        rewrite (thread_eta t), B1, B2, (idle_nest L i t LI Hi B1). constructor.
    + destruct (F i t h r c p Hi Hh Ep) as (n & E & N1 & S). destruct (eff_out t n E IL) as (EN & ET & EP). unfold go in H.
      destruct p as [o|k|k|k|k|f k].
      * injection H as <-. apply (GEN _ _ _ t); [now symmetry|]. discriminate.
      * injection H as <-. apply sh_enter_inv in S as [-> S]. eapply GEN; [rewrite (ask_same L i t Hi); reflexivity|]. cbn. intros r1 c1 p1 Q. injection Q as <- <- <-.
        exists 1. split; [|auto]. rewrite EP, EN. constructor.
      * injection H as <-. apply sh_leave_inv in S as (m & -> & S). eapply GEN; [rewrite (ask_same L i t Hi); reflexivity|]. cbn. intros r1 c1 p1 Q. injection Q as <- <- <-.
        exists m. split; [|split; [lia|exact S]]. rewrite EP, EN. constructor.
      * injection H as <-. apply (GEN _ _ _ t); [now symmetry|]. cbn. intros r1 c1 p1 Q. injection Q as <- <- <-. exists n. split; [exact E|]. split; [exact N1|]. inversion S; auto.
      * destruct (nth_error (ls_rds L) r); [|discriminate]. injection H as <-. apply (GEN _ _ _ t); [now symmetry|]. cbn. intros r1 c1 p1 Q. injection Q as <- <- <-. exists n. split; [exact E|]. split; [exact N1|]. inversion S; auto.
      * destruct (nth_error (ls_rds L) r); [|discriminate]. injection H as <-. apply (GEN _ _ _ t); [now symmetry|]. cbn. intros r1 c1 p1 Q. injection Q as <- <- <-. exists n. split; [exact E|]. split; [exact N1|]. inversion S; auto.
    + destruct out; [|discriminate]. injection H as <-. unfold go. apply (GEN _ _ _ t); [now symmetry|]. discriminate.
Qed.

(** ** Somebody inside can always make a step *)
Definition is_idle (h : lth) : bool := match h_ph h with PhIdle => true | _ => false end.
Lemma someone (l : list lth) : (exists i h, nth_error l i = Some h /\ h_ph h <> PhIdle) \/ forall i h, nth_error l i = Some h -> h_ph h = PhIdle.
Proof.
  induction l as [|h l IH]; [right; intros [|i] h H; discriminate|].
  destruct (h_ph h) eqn:E; [|left; exists 0, h; split; [reflexivity|congruence]|left; exists 0, h; split; [reflexivity|congruence]].
  destruct IH as [(i & g & H1 & H2)|IH]; [left; exists (S i), g; auto|]. right. intros [|i] g H; cbn in H; [congruence|eauto].
Qed.
Lemma somebody_moves K L b P : core K L b P -> shal L -> (exists i h, nth_error (ls_ths L) i = Some h /\ h_ph h <> PhIdle) ->
  exists i h, nth_error (ls_ths L) i = Some h /\ h_ph h <> PhIdle /\ lstep L i <> None.
Proof.
  intros C SH (i & h & Hh & NI). pose proof (sm_lock _ _ _ _ C) as LI.
  assert (TH : forall j u, nth_error (st_ths (ls_lock L)) j = Some u -> exists g, nth_error (ls_ths L) j = Some g /\ thread_rel K (the_buf L) b (ls_rds L) u g (P j)).
  { intros j u Hj. destruct (nth_error (ls_ths L) j) as [g|] eqn:Hg.
    - exists g. split; [reflexivity|]. eapply (sm_th _ _ _ _ C); eauto.
    - apply nth_error_None in Hg. rewrite (sm_len _ _ _ _ C) in Hg. apply nth_error_None in Hg. congruence. }
  assert (ST : forall j u g, nth_error (st_ths (ls_lock L)) j = Some u -> nth_error (ls_ths L) j = Some g -> in_lock u = true -> tstep (st_sh (ls_lock L)) u <> None -> lstep L j <> None).
  { intros j u g Hj Hg IL TS. unfold lstep. rewrite Hj, Hg, IL. unfold RWLockM.step. rewrite Hj. destruct (tstep _ u) as [[? ?]|]; [discriminate|congruence]. }
  assert (BU : forall (u : tok), busy sdeque (t_pc u) = true -> in_lock u = true) by (intros u B; unfold in_lock; destruct (t_pc u); try discriminate; reflexivity).
  assert (NIDLE : forall j u g, nth_error (st_ths (ls_lock L)) j = Some u -> nth_error (ls_ths L) j = Some g -> in_lock u = true -> h_ph g <> PhIdle).
  { intros j u g Hj Hg IL E. pose proof (sm_th _ _ _ _ C j u g Hj Hg) as T. unfold thread_rel in T. rewrite E in T. destruct T as (_ & T1 & T2). unfold in_lock in IL. rewrite T1, T2 in IL. discriminate. }
  (* a thread inside that is not in a section of the lock moves *)
  assert (QU : forall j u g, nth_error (st_ths (ls_lock L)) j = Some u -> nth_error (ls_ths L) j = Some g -> h_ph g <> PhIdle -> busy sdeque (t_pc u) = false -> lstep L j <> None).
  { intros j u g Hj Hg NG B. pose proof (sm_th _ _ _ _ C j u g Hj Hg) as T. unfold thread_rel in T. destruct (in_lock u) eqn:IL.
    - apply (ST j u g Hj Hg IL). destruct (h_ph g) as [|r c p|o out] eqn:Ep; [congruence| |].
      + destruct T as (r0 & r1 & n & _ & _ & E & _). destruct E; cbn in *; try discriminate; unfold tstep; cbn; try discriminate; destruct p0; discriminate.
      + destruct T as [_ T]. destruct out as [v|].
        * destruct T as (_ & T & [V|V]); [destruct (t_pc u); discriminate|]. unfold in_lock in IL. rewrite V, T in IL. discriminate.
        * destruct T as (_ & [(V & T)|[(V & _)|(_ & rest & V & _)]]); [unfold tstep; rewrite V, T; discriminate|destruct (t_pc u); discriminate|rewrite V in B; discriminate].
    - unfold lstep. rewrite Hj, Hg, IL. destruct (h_ph g) as [|r c p|o out] eqn:Ep; [congruence| |].
      + destruct T as (r0 & r1 & n & _ & E1 & _). rewrite E1. destruct p; discriminate.
      + destruct T as [_ T]. destruct out as [v|]; [discriminate|]. destruct T as (_ & [(V & T)|[(V & _)|(_ & rest & V & _)]]).
        * unfold in_lock in IL. rewrite V, T in IL. discriminate.
        * destruct (t_pc u); discriminate.
        * rewrite V in B. discriminate. }
  destruct (dec_step sdeque (ls_lock L)) as [(j & u & Hj & Hb & Hs)|ALL].
  - destruct (TH j u Hj) as (g & Hg & _). exists j, g. split; [exact Hg|]. split; [eapply NIDLE; eauto|]. eapply ST; eauto.
  - destruct (nth_error (st_ths (ls_lock L)) i) as [t|] eqn:Hi.
    2:{ apply nth_error_None in Hi. rewrite <- (sm_len _ _ _ _ C) in Hi. apply nth_error_None in Hi. congruence. }
    destruct (busy sdeque (t_pc t)) eqn:B; [|exists i, h; eauto].
    destruct (stuck_shape sdeque _ LI ALL) as [W X]. destruct (X (ex_intro _ i (ex_intro _ t (conj Hi B)))) as (_ & k & v & Hk & Hn).
    destruct (TH k v Hk) as (g & Hg & _). destruct (busy sdeque (t_pc v)) eqn:Bv.
    + exfalso. pose proof (NIDLE k v g Hk Hg (BU v Bv)) as NG. specialize (W k v Hk). destruct LI as [_ NO]. pose proof (NO k v Hk) as N0. unfold nest_ok in N0.
      pose proof (sm_th _ _ _ _ C k v g Hk Hg) as T. unfold thread_rel in T. destruct (h_ph g) as [|r c p|o out] eqn:Ep; [congruence| |].
      * destruct (SH k v g r c p Hk Hg Ep) as (n & E & N1 & _). destruct E; cbn in *; try discriminate; try lia. destruct p0; try discriminate; contradiction.
      * destruct T as [_ T]. destruct out as [w|].
        -- destruct T as (_ & T & [V|V]); destruct (t_pc v); try discriminate; try contradiction; lia.
        -- destruct T as (_ & [(V & T)|[(V & _)|(_ & rest & V & _)]]); [rewrite V in Bv; discriminate| |rewrite V in W; contradiction].
           destruct (t_pc v); try discriminate; try contradiction; lia.
    + exists k, g. split; [exact Hg|]. assert (NG : h_ph g <> PhIdle).
      { intro E. pose proof (sm_th _ _ _ _ C k v g Hk Hg) as T. unfold thread_rel in T. rewrite E in T. destruct T as (_ & T1 & T2).
        destruct LI as [_ NO]. pose proof (NO k v Hk) as N0. unfold nest_ok in N0. rewrite T1 in N0. lia. }
      split; [exact NG|]. eapply QU; eauto.
Qed.
