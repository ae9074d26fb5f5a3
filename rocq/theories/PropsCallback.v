(** * Methods of the source that call the stream: C114 *)
From Coq Require Import List ZArith Bool Arith Lia.
From Verif Require Import PyVal PyLib PyValFacts SortedDequeM Spec SpecDeque ListFacts DequeFacts DequeSearch
  BufferReaderM BufferSysM LogFacts LogReads LogKeepUp StreamBufferM SpecStream StreamFacts StreamLife StreamInv StreamOrderly StreamView StreamReads StreamMore PropsStream PropsStreamRead CallbackM.
From Verif Require PropsFault.
Import ListNotations.
Open Scope nat_scope.

(** ** Specification *)
Definition b_history (c : cfg) (ls : list blabel) (b : cb) : Prop := b_run c cb0 ls = Some b.
(** The call needs the lock: every one but next(stream_buffer) when its reader is there. *)
Definition needs_lock (s : sb) (x : scall) : Prop := x = CNextMk -> sb_next s = None.
(** The end of a start(), mk_reader() or attach_reader(); a source that is read. *)
Definition under_lock (e : ev) : bool :=
  match e with EOpen _ _ | EBuilt _ _ | EStarted _ | EFailed _ _ | EMk _ | EAttach _ _ | ENew _ _ _ _ _ _ => true | _ => false end.
(** Steps that nobody but a start() under way and the code of the source makes. *)
Definition own_step (i : nat) (l : blabel) : Prop :=
  match l with BStep (LS _ _) => True | BGo who => who = InThread i | _ => False end.

(** ** Lemmas *)
Lemma b_run_app c a b : forall s, b_run c s (a ++ b) = match b_run c s a with Some m => b_run c m b | None => None end.
Proof. induction a as [|x a IH]; intro s; cbn [app b_run]; [reflexivity|]. destruct (b_step c s x); [apply IH|reflexivity]. Qed.
Lemma b_ind c (P : list blabel -> cb -> Prop) : P [] cb0 ->
  (forall ls b l b', b_history c ls b -> P ls b -> b_step c b l = Some b' -> P (ls ++ [l]) b') -> forall ls b, b_history c ls b -> P ls b.
Proof.
  intros P0 PS ls. induction ls as [|l ls IH] using rev_ind; intros b H; [injection H as <-; exact P0|].
  unfold b_history in H. rewrite b_run_app in H. destruct (b_run c cb0 ls) as [m|] eqn:E; [|discriminate]. cbn in H.
  destruct (b_step c m l) as [m'|] eqn:F; [|discriminate]. injection H as ->. eapply PS; eauto.
Qed.
Lemma set_call_s b who x : cb_s (set_call b who x) = cb_s b.
Proof. now destruct who. Qed.
(* what a step is for the stream *)
Lemma b_step_s c b l b' : b_step c b l = Some b' ->
  cb_s b' = cb_s b \/ exists l0, sb_step c (cb_s b) l0 = Some (cb_s b') /\ waits b l0 = false /\
    (l = BStep l0 \/ exists who x, l = BGo who /\ calls b who = Some x /\
       ((x = CStart /\ l0 = LStart) \/ (exists n p st ig, x = CMk n p st ig /\ l0 = StreamBufferM.LMk n p st ig) \/ (exists r, x = CAttach r /\ l0 = LAttach r) \/ (x = CNextMk /\ l0 = LNextMk))).
Proof.
  destruct l as [l|who x|who]; cbn [b_step]; intro H.
  - destruct (waits b l) eqn:W; [discriminate|]. destruct (sb_step c (cb_s b) l) as [s'|] eqn:E; [|discriminate]. injection H as <-. right. exists l. cbn. auto.
  - destruct (may_call b who x); [|discriminate]. injection H as <-. left. apply set_call_s.
  - destruct (calls b who) as [x|] eqn:C; [|discriminate]. destruct (proceed c (cb_s b) x) as [[s' y]|] eqn:E; [|discriminate]. injection H as <-. rewrite set_call_s. cbn [cb_s].
    destruct x as [|n p st ig|r| | |]; cbn [proceed] in E.
    + right. exists LStart. destruct (sb_step c (cb_s b) LStart) as [s1|] eqn:Q; [|discriminate]. injection E as <- <-. split; [reflexivity|]. split; [reflexivity|]. right. exists who, CStart. auto.
    + right. exists (StreamBufferM.LMk n p st ig). destruct (sb_step c (cb_s b) _) as [s1|] eqn:Q; [|discriminate]. injection E as <- <-. split; [reflexivity|]. split; [reflexivity|]. right. exists who, (CMk n p st ig). eauto 10.
    + right. exists (LAttach r). destruct (sb_step c (cb_s b) _) as [s1|] eqn:Q; [|discriminate]. injection E as <- <-. split; [reflexivity|]. split; [reflexivity|]. right. exists who, (CAttach r). eauto 10.
    + right. exists LNextMk. destruct (sb_step c (cb_s b) _) as [s1|] eqn:Q; [|discriminate]. injection E as <- <-. split; [reflexivity|]. split; [reflexivity|]. right. exists who, CNextMk. auto 10.
    + left. destruct (lock_free (cb_s b)); [|discriminate]. now injection E as <- <-.
    + left. destruct (lock_free (cb_s b)); [|discriminate]. now injection E as <- <-.
Qed.

(** ** C114 *)
(** For the stream, the calls that its source makes are calls like any others: whatever holds
    of all histories of the stream holds of those in which the source calls it. *)
Theorem C114_callbacks_are_calls :
  forall c ls b, b_history c ls b -> exists ls', history c ls' (cb_s b).
Proof.
  intro c. apply (b_ind c (fun _ b => exists ls', history c ls' (cb_s b))).
  - exists []. reflexivity.
  - intros ls b l b' _ (ls0 & H0) H. destruct (b_step_s c b l b' H) as [E|(l0 & E & _)].
    + exists ls0. now rewrite E.
    + exists (ls0 ++ [l0]). unfold history. rewrite sb_run_app, H0. cbn [sb_run]. now rewrite E.
Qed.
Print Assumptions C114_callbacks_are_calls.

(** Each of the four methods may make each of these calls, whenever it runs. *)
Definition method_runs (s : sb) (who : caller) : Prop :=
  match who with
  | InOpen => sb_start s = SOpen \/ sb_start s = SBuild                                  (* open(), info *)
  | InThread i => thread_is s i TRead \/ exists e, thread_is s i (TClose e)               (* read(), close() *)
  end.
Theorem C114_every_method_may_call :
  forall c b who x, method_runs (cb_s b) who -> calls b who = None -> x <> CWait ->
  (forall r, x = CAttach r -> nth_error (sb_rds (cb_s b)) r <> None) ->
  exists b', b_step c b (BCall who x) = Some b' /\ cb_s b' = cb_s b /\ calls b' who = Some x.
Proof.
  intros c b who x M C W A. exists (set_call b who (Some x)). split; [|split; [apply set_call_s|destruct who; cbn; [reflexivity|now rewrite Nat.eqb_refl]]].
  cbn [b_step]. unfold may_call. rewrite C. cbn [andb].
  assert (X : match who with InOpen => in_open (cb_s b) | InThread i => in_source (cb_s b) i end = true).
  { destruct who as [|i]; cbn in M.
    - unfold in_open. destruct M as [-> | ->]; reflexivity.
    - unfold in_source. destruct M as [(e & -> & E)|(e0 & e & -> & E)]; rewrite E; reflexivity. }
  rewrite X. cbn [andb]. destruct x as [|n p st ig|r| | |]; try reflexivity; [|contradiction].
  specialize (A r eq_refl). apply nth_error_Some in A. apply Nat.ltb_lt in A. now rewrite A.
Qed.
Print Assumptions C114_every_method_may_call.

(** Refuted: if open() or info makes one of these calls, it hangs for good, and so does the
    start() under way. Nobody can start, make or attach a reader any more, the session is never
    read nor closed, and [is_running] never answers. *)
Definition hung (k : nat) (p : spc) (x : scall) (b : cb) : Prop :=
  cb_open b = Some x /\ sb_start (cb_s b) = p /\ in_open (cb_s b) = true /\ needs_lock (cb_s b) x /\ length (sb_ss (cb_s b)) = S k /\
  exists e, nth_error (sb_ss (cb_s b)) k = Some e /\ se_pc e = TNew.
Lemma locked_step c s l s' : sb_step c s l = Some s' -> in_open s = true -> (forall o v, l <> LS o v) ->
  sb_start s' = sb_start s /\ length (sb_ss s') = length (sb_ss s) /\ (sb_next s = None -> sb_next s' = None) /\
  exists es, sb_tr s' = sb_tr s ++ es /\ forallb (fun e => negb (under_lock e)) es = true.
Proof.
  intros H IO N. unfold in_open in IO.
  assert (LF : lock_free s = false) by (unfold lock_free; destruct (sb_start s); try discriminate; reflexivity).
  step_cases H; try congruence; try (elim (N _ _ eq_refl)); injection H as <-; proj; rewrite ?upd_length.
  all: split; [reflexivity|]; split; [reflexivity|]; split; [intros; congruence|].
  all: try (exists []; split; [now rewrite app_nil_r|reflexivity]).
  all: try (eexists; split; [reflexivity|reflexivity]).
Qed.
Lemma hung_step c k p x b l b' : hung k p x b -> b_step c b l = Some b' ->
  hung k p x b' /\ exists es, sb_tr (cb_s b') = sb_tr (cb_s b) ++ es /\ forall e, In e es -> under_lock e = false /\ by_thread k e = false.
Proof.
  intros (C & P & IO & NL & LE & (e & He & Pe)) H.
  assert (LF : lock_free (cb_s b) = false) by (unfold in_open in IO; unfold lock_free; destruct (sb_start (cb_s b)); try discriminate; reflexivity).
  assert (CO : cb_open b' = Some x).
  { destruct l as [l|who y|who]; cbn [b_step] in H.
    - destruct (waits b l); [discriminate|]. destruct (sb_step c (cb_s b) l); [|discriminate]. injection H as <-. exact C.
    - destruct (may_call b who y) eqn:M; [|discriminate]. injection H as <-. destruct who as [|i]; [|exact C]. unfold may_call in M. cbn in M. rewrite C in M. discriminate.
    - destruct who as [|i].
      + cbn [calls] in H. rewrite C in H. destruct (proceed c (cb_s b) x) as [[s' y]|] eqn:E; [|discriminate]. exfalso. unfold proceed in E.
        destruct x as [|n q st ig|r| | |]; cbn [sb_step] in E; rewrite ?LF in E; try discriminate. unfold needs_lock in NL. rewrite NL in E by reflexivity. discriminate.
      + cbn [calls] in H. destruct (cb_thr b i); [|discriminate]. destruct (proceed c (cb_s b) s) as [[s' y]|]; [|discriminate]. injection H as <-. exact C. }
  destruct (b_step_s c b l b' H) as [E|(l0 & E & W & _)].
  - split; [|exists []; rewrite E, app_nil_r; split; [reflexivity|intros ? []]]. unfold hung. rewrite E. eauto 10.
  - assert (N : forall o v, l0 <> LS o v) by (intros o v ->; cbn [waits] in W; rewrite IO, C in W; discriminate).
    destruct (locked_step c _ _ _ E IO N) as (A1 & A2 & A3 & es & A4 & A5).
    assert (NT : forall o, l0 <> LT k o) by (intros o ->; cbn in E; rewrite He, Pe in E; discriminate).
    split.
    + unfold hung. rewrite A1, A2. split; [exact CO|]. split; [exact P|]. split; [unfold in_open in *; now rewrite A1|]. split; [intro Q; auto|]. split; [exact LE|].
      destruct (step_frame c _ _ _ E k e He) as (e' & He' & Q & _). exists e'. split; [exact He'|].
      destruct Q as [Q|[[o Q]|(S1 & _)]]; [congruence|elim (NT o Q)|]. unfold in_open in IO. rewrite S1 in IO. discriminate.
    + exists es. split; [exact A4|]. intros e0 X. rewrite forallb_forall in A5. specialize (A5 e0 X). split; [now destruct (under_lock e0)|].
      pose proof (PropsFault.step_events c _ _ _ k E NT) as T. rewrite A4 in T. unfold thread_events in T. rewrite filter_app in T.
      destruct (by_thread k e0) eqn:B; [|reflexivity]. assert (Y : In e0 (filter (by_thread k) es)) by (apply filter_In; auto).
      assert (Z : filter (by_thread k) es = []) by (apply (app_inv_head (filter (by_thread k) (sb_tr (cb_s b)))); now rewrite app_nil_r). rewrite Z in Y. destruct Y.
Qed.
Theorem C114_callback_with_lock_hangs_refuted :
  forall c ls b x, b_history c ls b -> may_call b InOpen x = true -> needs_lock (cb_s b) x ->
  exists b1, b_step c b (BCall InOpen x) = Some b1 /\ cb_s b1 = cb_s b /\
  forall ls' b', b_run c b1 ls' = Some b' ->
    cb_open b' = Some x /\ sb_start (cb_s b') = sb_start (cb_s b) /\ lock_free (cb_s b') = false /\
    (sb_step c (cb_s b') LStart = None /\ (forall n p st ig, sb_step c (cb_s b') (StreamBufferM.LMk n p st ig) = None) /\ (forall r, sb_step c (cb_s b') (LAttach r) = None)) /\
    exists es, sb_tr (cb_s b') = sb_tr (cb_s b) ++ es /\ forall e, In e es -> under_lock e = false /\ by_thread (latest (cb_s b)) e = false.
Proof.
  intros c ls b x Hh M NL. exists (set_call b InOpen (Some x)). split; [cbn [b_step]; now rewrite M|]. split; [reflexivity|].
  assert (IO : in_open (cb_s b) = true) by (unfold may_call in M; apply andb_true_iff in M as [M _]; now apply andb_true_iff in M).
  destruct (C114_callbacks_are_calls c ls b Hh) as (ls0 & H0). pose proof (si_new _ (sinv_history c ls0 _ H0)) as SN.
  assert (H : hung (latest (cb_s b)) (sb_start (cb_s b)) x (set_call b InOpen (Some x))).
  { split; [reflexivity|]. split; [reflexivity|]. split; [exact IO|]. split; [exact NL|]. unfold in_open in IO.
    assert (E : exists e, nth_error (sb_ss (cb_s b)) (latest (cb_s b)) = Some e /\ se_pc e = TNew) by (destruct (sb_start (cb_s b)); try discriminate; destruct SN as (e & A & B & _); eauto).
    split; [|exact E]. destruct E as (e & E & _). pose proof (nth_lt _ _ _ E) as LT. cbn [set_call cb_s]. unfold latest in *. lia. }
  assert (G : forall ls' b0 b', hung (latest (cb_s b)) (sb_start (cb_s b)) x b0 -> b_run c b0 ls' = Some b' ->
     hung (latest (cb_s b)) (sb_start (cb_s b)) x b' /\ exists es, sb_tr (cb_s b') = sb_tr (cb_s b0) ++ es /\ forall e, In e es -> under_lock e = false /\ by_thread (latest (cb_s b)) e = false).
  { induction ls' as [|l q IH]; intros b0 b' Q R; cbn [b_run] in R; [injection R as <-; split; [exact Q|exists []; rewrite app_nil_r; split; [reflexivity|intros ? []]]|].
    destruct (b_step c b0 l) as [b2|] eqn:E; [|discriminate]. destruct (hung_step _ _ _ _ _ _ _ Q E) as (Q2 & es & T & F). destruct (IH _ _ Q2 R) as (Q3 & es' & T' & F').
    split; [exact Q3|]. exists (es ++ es'). rewrite T', T, app_assoc. split; [reflexivity|]. intros e X. apply in_app_or in X as [X|X]; auto. }
  intros ls' b' R. destruct (G _ _ _ H R) as ((C & P & IO' & _) & es & T & F).
  assert (LF : lock_free (cb_s b') = false) by (unfold in_open in IO'; unfold lock_free; destruct (sb_start (cb_s b')); try discriminate; reflexivity).
  split; [exact C|]. split; [exact P|]. split; [exact LF|]. split; [cbn [sb_step]; rewrite LF; auto|]. exists es. auto.
Qed.
Print Assumptions C114_callback_with_lock_hangs_refuted.

(** A method does not go on before its call is back: until then its thread reads nothing, adds
    nothing and closes nothing, and a start() inside open() or info stands where it stands. *)
Theorem C114_method_waits :
  forall c ls b i x ls' b', b_history c ls b -> b_run c b ls' = Some b' ->
  (cb_thr b i = Some x -> ~ In (BGo (InThread i)) ls' ->
     cb_thr b' i = Some x /\ exists es, sb_tr (cb_s b') = sb_tr (cb_s b) ++ es /\ thread_events i es = []) /\
  (cb_open b = Some x -> in_open (cb_s b) = true -> ~ In (BGo InOpen) ls' ->
     cb_open b' = Some x /\ sb_start (cb_s b') = sb_start (cb_s b) /\ exists es, sb_tr (cb_s b') = sb_tr (cb_s b) ++ es /\ forall e, In e es -> under_lock e = false).
Proof.
  intros c ls b i x ls' b' _ R.
  assert (K : forall b l b' who y, b_step c b l = Some b' -> calls b who = Some y -> l <> BGo who -> calls b' who = Some y).
  { clear. intros b l b' who y H C N. destruct l as [l|w z|w]; cbn [b_step] in H.
    - destruct (waits b l); [discriminate|]. destruct (sb_step c (cb_s b) l); [|discriminate]. injection H as <-. exact C.
    - destruct (may_call b w z) eqn:M; [|discriminate]. injection H as <-. unfold may_call in M. destruct (calls b w) eqn:CW; [discriminate|].
      destruct w as [|k], who as [|j]; cbn in *; try congruence. destruct (Nat.eqb_spec j k); congruence.
    - destruct (calls b w) eqn:CW; [|discriminate]. destruct (proceed c (cb_s b) s) as [[s' u]|]; [|discriminate]. injection H as <-.
      destruct w as [|k], who as [|j]; cbn in *; try congruence. destruct (Nat.eqb_spec j k); congruence. }
  split.
  - revert b R. induction ls' as [|l q IH]; intros b R C N; cbn [b_run] in R.
    + injection R as <-. split; [exact C|]. exists []. split; [now rewrite app_nil_r|reflexivity].
    + destruct (b_step c b l) as [m|] eqn:E; [|discriminate].
      assert (N1 : l <> BGo (InThread i)) by (intros ->; apply N; now left). assert (N2 : ~ In (BGo (InThread i)) q) by (intro X; apply N; now right).
      destruct (IH m R (K b l m (InThread i) x E C N1) N2) as (A & es & T & F). split; [exact A|].
      destruct (b_step_s c b l m E) as [EQ|(l0 & S0 & W & _)].
      * exists es. split; [now rewrite T, EQ|exact F].
      * destruct (step_trace _ _ _ _ S0) as (es0 & T0). exists (es0 ++ es). split; [now rewrite T, T0, app_assoc|].
        assert (NT : forall o, l0 <> LT i o) by (intros o ->; cbn [waits] in W; rewrite C in W; discriminate).
        pose proof (PropsFault.step_events c _ _ _ i S0 NT) as X. rewrite T0 in X. unfold thread_events in *. rewrite filter_app in *.
        rewrite F, app_nil_r. apply (app_inv_head (filter (by_thread i) (sb_tr (cb_s b)))). now rewrite app_nil_r.
  - revert b R. induction ls' as [|l q IH]; intros b R C IO N; cbn [b_run] in R.
    + injection R as <-. split; [exact C|]. split; [reflexivity|]. exists []. split; [now rewrite app_nil_r|intros ? []].
    + destruct (b_step c b l) as [m|] eqn:E; [|discriminate].
      assert (N1 : l <> BGo InOpen) by (intros ->; apply N; now left). assert (N2 : ~ In (BGo InOpen) q) by (intro X; apply N; now right).
      assert (ST : sb_start (cb_s m) = sb_start (cb_s b) /\ exists es, sb_tr (cb_s m) = sb_tr (cb_s b) ++ es /\ forall e, In e es -> under_lock e = false).
      { destruct (b_step_s c b l m E) as [EQ|(l0 & S0 & W & _)].
        - rewrite EQ. split; [reflexivity|]. exists []. split; [now rewrite app_nil_r|intros ? []].
        - assert (NS : forall o v, l0 <> LS o v) by (intros o v ->; cbn [waits] in W; rewrite IO, C in W; discriminate).
          destruct (locked_step c _ _ _ S0 IO NS) as (A1 & _ & _ & es & A4 & A5). split; [exact A1|]. exists es. split; [exact A4|].
          intros e X. rewrite forallb_forall in A5. specialize (A5 e X). now destruct (under_lock e). }
      destruct ST as (S1 & es0 & T0 & F0). assert (IO2 : in_open (cb_s m) = true) by (unfold in_open in *; now rewrite S1).
      destruct (IH m R (K b l m InOpen x E C N1) IO2 N2) as (A & B & es & T & F). split; [exact A|]. split; [congruence|].
      exists (es0 ++ es). split; [now rewrite T, T0, app_assoc|]. intros e X. apply in_app_or in X as [X|X]; auto.
Qed.
Print Assumptions C114_method_waits.

(** Calls made by read() and close() can always come back: for that it takes nothing but the
    steps of the start() that may be under way, whatever open() and info answer. *)
Definition to_go (p : spc) : nat :=
  match p with SFree => 0 | SSpawn => 1 | SBuild => 2 | SOpen => 3 | SFresh => 4 | SClear => 5 | SStopClear true => 6 | SStopSet true => 7 | SCheck2 => 8
  | SStopClear false => 9 | SStopSet false => 10 | SCheck1 => 11 end.
Lemma start_moves c s o v : lock_free s = false -> exists s', start_step c s o v = Some s' /\ to_go (sb_start s') < to_go (sb_start s) /\ length (sb_rds s') = length (sb_rds s).
Proof.
  unfold lock_free, start_step. destruct (sb_start s) as [| |b|b| | | | | |] eqn:E; intro H; try discriminate.
  - eexists. split; [reflexivity|]. split; [cbn; destruct (running s); cbn; lia|reflexivity].
  - eexists. split; [reflexivity|]. split; [cbn; destruct b; cbn; lia|reflexivity].
  - eexists. split; [reflexivity|]. split; [cbn; destruct b; cbn; lia|reflexivity].
  - eexists. split; [reflexivity|]. split; [cbn; destruct (running s); cbn; lia|reflexivity].
  - eexists. split; [reflexivity|]. split; [cbn; lia|reflexivity].
  - eexists. split; [reflexivity|]. split; [cbn; lia|reflexivity].
  - destruct o; (eexists; split; [reflexivity|]; split; [cbn; lia|reflexivity]).
  - destruct v, (sd_init [] (c_key c) (c_maxlen c)); (eexists; split; [reflexivity|]; split; [cbn; lia|reflexivity]).
  - eexists. split; [reflexivity|]. split; [cbn; lia|reflexivity].
Qed.
Lemma lock_gets_free c o v : forall m b, to_go (sb_start (cb_s b)) <= m -> cb_open b = None -> exists n b',
  b_run c b (repeat (BStep (LS o v)) n) = Some b' /\ lock_free (cb_s b') = true /\ cb_open b' = None /\ cb_thr b' = cb_thr b /\ length (sb_rds (cb_s b')) = length (sb_rds (cb_s b)).
Proof.
  induction m as [|m IH]; intros b L C.
  - exists 0, b. split; [reflexivity|]. split; [unfold lock_free; destruct (sb_start (cb_s b)) as [| |[]|[]| | | | | |]; cbn in L; try lia; reflexivity|auto].
  - destruct (lock_free (cb_s b)) eqn:F; [exists 0, b; auto|]. destruct (start_moves c (cb_s b) o v F) as (s' & E & LT & R).
    destruct (IH (MkCb s' (cb_open b) (cb_thr b))) as (n & b' & A & B & C' & D & R'); [cbn; lia|exact C|].
    exists (S n), b'. split; [|cbn in D, R'; split; [exact B|]; split; [exact C'|]; split; [exact D|lia]].
    cbn [repeat b_run]. unfold b_step. cbn [waits]. rewrite C, andb_false_r. cbn [sb_step]. rewrite E. cbn [option_map]. rewrite C in A. exact A.
Qed.
Lemma rds_grow c s l s' : sb_step c s l = Some s' -> length (sb_rds s) <= length (sb_rds s').
Proof.
  intro H. step_cases H; injection H as <-; proj; rewrite ?app_length, ?set_nth_length; cbn [length]; lia.
Qed.
Lemma attach_ok c ls b : b_history c ls b -> forall who r, calls b who = Some (CAttach r) -> r < length (sb_rds (cb_s b)).
Proof.
  revert ls b. apply (b_ind c (fun _ b => forall who r, calls b who = Some (CAttach r) -> r < length (sb_rds (cb_s b)))).
  - intros [|i] r H; discriminate.
  - intros ls b l b' _ IH H who r X.
    assert (LE : length (sb_rds (cb_s b)) <= length (sb_rds (cb_s b'))).
    { destruct (b_step_s c b l b' H) as [E|(l0 & E & _)]; [rewrite E; lia|]. eapply rds_grow, E. }
    destruct l as [l|who' y|who']; cbn [b_step] in H.
    + destruct (waits b l); [discriminate|]. destruct (sb_step c (cb_s b) l); [|discriminate]. injection H as <-. assert (calls b who = Some (CAttach r)) by (destruct who; exact X). specialize (IH who r H). cbn in *. lia.
    + destruct (may_call b who' y) eqn:M; [|discriminate]. injection H as <-. rewrite set_call_s. assert (D : y = CAttach r \/ calls b who = Some (CAttach r)).
      { destruct who' as [|i], who as [|j]; cbn in X |- *; auto; [injection X as ->; auto|]. destruct (Nat.eqb j i); [injection X as ->; auto|auto]. }
      destruct D as [->|D]; [|eapply IH; eauto]. unfold may_call in M. apply andb_true_iff in M as [_ M]. now apply Nat.ltb_lt in M.
    + destruct (calls b who') as [x|] eqn:C; [|discriminate]. destruct (proceed c (cb_s b) x) as [[s' y]|] eqn:P; [|discriminate]. injection H as <-.
      assert (NY : y <> Some (CAttach r)).
      { unfold proceed in P. destruct x as [|n q st ig|k| | |]; try (destruct (sb_step _ _ _); [injection P as _ <-; discriminate|discriminate]); destruct (lock_free _); try discriminate; injection P as _ <-; discriminate. }
      assert (D : calls b who = Some (CAttach r)).
      { destruct who' as [|i], who as [|j]; cbn in X |- *; auto; [congruence|]. destruct (Nat.eqb j i); [congruence|auto]. }
      specialize (IH who r D). rewrite set_call_s in *. cbn [cb_s] in *. lia.
Qed.
Lemma own_repeat i n o v : Forall (own_step i) (repeat (BStep (LS o v)) n).
Proof. induction n; cbn; constructor; auto. exact Logic.I. Qed.
Theorem C114_calls_of_reading_threads_return :
  forall c ls b i x, b_history c ls b -> cb_open b = None -> cb_thr b i = Some x ->
  forall o v, exists ls' b', b_run c b ls' = Some b' /\ Forall (own_step i) ls' /\ (forall o' v', In (BStep (LS o' v')) ls' -> o' = o /\ v' = v) /\ cb_thr b' i = None.
Proof.
  intros c ls b i x Hh C X o v.
  assert (IR : forall n o' v', In (BStep (LS o' v')) (repeat (BStep (LS o v)) n) -> o' = o /\ v' = v) by (intros n o' v' Q; apply repeat_spec in Q; injection Q as -> ->; auto).
  destruct (lock_gets_free c o v (to_go (sb_start (cb_s b))) b (le_n _) C) as (n & b1 & R1 & F1 & C1 & T1 & L1).
  assert (X1 : calls b1 (InThread i) = Some x) by (cbn; now rewrite T1).
  assert (DONE : forall s', proceed c (cb_s b1) x = Some (s', None) ->
    exists ls' b', b_run c b ls' = Some b' /\ Forall (own_step i) ls' /\ (forall o' v', In (BStep (LS o' v')) ls' -> o' = o /\ v' = v) /\ cb_thr b' i = None).
  { intros s' P. exists (repeat (BStep (LS o v)) n ++ [BGo (InThread i)]). eexists. split.
    - rewrite b_run_app, R1. cbn [b_run b_step]. rewrite X1, P. reflexivity.
    - split; [apply Forall_app; split; [apply own_repeat|repeat constructor]|]. split; [intros o' v' Q; apply in_app_or in Q as [Q|[Q|[]]]; [eauto|discriminate]|]. cbn. now rewrite Nat.eqb_refl. }
  destruct x as [|m p st ig|r| | |].
  - set (s1 := set_start (cb_s b1) SCheck1). set (b2 := set_call (MkCb s1 (cb_open b1) (cb_thr b1)) (InThread i) (Some CWait)).
    assert (G : b_step c b1 (BGo (InThread i)) = Some b2) by (cbn [b_step]; rewrite X1; unfold proceed; cbn [sb_step]; rewrite F1; reflexivity).
    destruct (lock_gets_free c o v (to_go (sb_start (cb_s b2))) b2 (le_n _) C1) as (n2 & b3 & R2 & F2 & C2 & T2 & _).
    exists (repeat (BStep (LS o v)) n ++ BGo (InThread i) :: repeat (BStep (LS o v)) n2 ++ [BGo (InThread i)]).
    exists (set_call b3 (InThread i) None). split.
    + rewrite b_run_app, R1. cbn [b_run]. rewrite G. rewrite b_run_app, R2. cbn [b_run b_step].
      assert (X3 : calls b3 (InThread i) = Some CWait) by (cbn; rewrite T2; cbn; now rewrite Nat.eqb_refl). rewrite X3. unfold proceed. rewrite F2. destruct b3; reflexivity.
    + split; [apply Forall_app; split; [apply own_repeat|]; constructor; [reflexivity|]; apply Forall_app; split; [apply own_repeat|repeat constructor]|].
      split; [|cbn; now rewrite Nat.eqb_refl]. intros o' v' Q. apply in_app_or in Q as [Q|[Q|Q]]; [eauto|discriminate|]. apply in_app_or in Q as [Q|[Q|[]]]; [eauto|discriminate].
  - unfold proceed in DONE. cbn [sb_step] in DONE. rewrite F1 in DONE. destruct (sb_cur (cb_s b1)); cbn [option_map] in DONE; eapply DONE; reflexivity.
  - assert (LT : r < length (sb_rds (cb_s b1))) by (rewrite L1; eapply (attach_ok c ls b Hh (InThread i)); exact X).
    unfold proceed in DONE. cbn [sb_step] in DONE. rewrite F1 in DONE. destruct (nth_error (sb_rds (cb_s b1)) r) as [q|] eqn:Q; [|apply nth_error_None in Q; lia].
    destruct (sb_cur (cb_s b1)); cbn [option_map] in DONE; eapply DONE; reflexivity.
  - unfold proceed in DONE. cbn [sb_step] in DONE. rewrite F1 in DONE. destruct (sb_next (cb_s b1)); [cbn [option_map] in DONE; eapply DONE; reflexivity|].
    destruct (sb_cur (cb_s b1)); cbn [option_map] in DONE; eapply DONE; reflexivity.
  - unfold proceed in DONE. rewrite F1 in DONE. eapply DONE; reflexivity.
  - unfold proceed in DONE. rewrite F1 in DONE. eapply DONE; reflexivity.
Qed.
Print Assumptions C114_calls_of_reading_threads_return.

(** Non-vacuity. open() may ask [is_running], and that needs the lock; the session being opened
    is the second one here, and the reading thread of the first one has come to its end. *)
Definition restarting : list blabel :=
  map BStep (starting (PObj 7) ++ room_round 0 (PInt 1) ++ [LStop; LT 0 (Ok PNone); LT 0 (Ok PNone); LT 0 (Ok PNone); LStopRet; LStart] ++ repeat (LS (Ok tt) (Ok PNone)) 4).
Example C114_refuted_nonvacuous :
  exists b, b_history cfg_man restarting b /\ in_open (cb_s b) = true /\ may_call b InOpen CRunning = true /\ needs_lock (cb_s b) CRunning /\
    may_call b InOpen CNextMk = true /\ sb_next (cb_s b) = None.
Proof.
  unfold b_history. destruct (b_run cfg_man cb0 restarting) as [b|] eqn:E; [|exfalso; revert E; vm_compute; discriminate].
  exists b. assert (Q : (in_open (cb_s b), may_call b InOpen CRunning, may_call b InOpen CNextMk, sb_next (cb_s b)) = (true, true, true, None)).
  { assert (G : option_map (fun b => (in_open (cb_s b), may_call b InOpen CRunning, may_call b InOpen CNextMk, sb_next (cb_s b))) (b_run cfg_man cb0 restarting) = Some (true, true, true, None)) by (vm_compute; reflexivity).
    rewrite E in G. injection G. intros -> -> -> ->. reflexivity. }
  injection Q as A B D F. repeat (split; [first [reflexivity|assumption|discriminate]|]). assumption.
Qed.
(** read() of the running session makes a reader. *)
Example C114_reading_nonvacuous :
  let h := map BStep (starting (PObj 7) ++ repeat (LT 0 (Ok PNone)) 3) ++ [BCall (InThread 0) (CMk 10%Z false false false)] in
  exists b, b_history cfg_man h b /\ cb_open b = None /\ cb_thr b 0 = Some (CMk 10%Z false false false).
Proof. cbn zeta. eexists. split; [vm_compute; reflexivity|]. split; vm_compute; reflexivity. Qed.
