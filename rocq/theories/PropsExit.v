(** * A stream in single steps: C113, what does hold *)
From Coq Require Import List ZArith Bool Arith Lia.
From Verif Require Import PyVal PyLib SortedDequeM Spec SpecDeque BufferReaderM BufferSysM ListFacts DequeFacts DequeSearch LogFacts LogReads
  RWLockM SpecLock LockFacts LockLive LockProps ReaderStepsM SpecLin LinFacts LinShape LinSim LinStep LinRun
  StreamBufferM SpecStream StreamFacts StreamOrderly StreamFineM SpecFine FineOut FineSim FineRun FineHang FineLive FineExit PropsStreamRead PropsLin PropsFine.
Import ListNotations.

Lemma f_run_app c clients l1 : forall l2 f, f_run c clients f (l1 ++ l2) = match f_run c clients f l1 with Some f' => f_run c clients f' l2 | None => None end.
Proof. induction l1 as [|l l1 IH]; intros l2 f; cbn; [reflexivity|]. destruct (f_step c clients f l); [apply IH|reflexivity]. Qed.
Lemma reach_shal c clients fls f : is_True (c_auto c) = true -> f_run c clients f0 fls = Some f -> no_new_ranges (f_tr f) -> fshal f.
Proof. intros AU H N. eapply (run_shal c clients AU fls); [apply frel_init|exact (eq_refl : sb_run c sb0 [] = Some sb0)|apply shal0|exact H|exact N]. Qed.

(** If nobody has called range(only_new_items=True): whenever somebody is inside a buffer,
    somebody inside that buffer can go on. *)
Theorem C113_somebody_moves_partial :
  forall c clients fls f, is_True (c_auto c) = true -> f_run c clients f0 fls = Some f -> no_new_ranges (f_tr f) ->
  forall j L, the_lock f j = Some L -> ~ at_rest L -> exists i f', f_step c clients f (FGo j i) = Some f'.
Proof.
  intros c clients fls f AU H N j L HL NR. pose proof (reach_shal _ _ _ _ AU H N j L HL) as S.
  destruct (explained c clients AU fls f H) as (ls & s & w & P & a & HI & F).
  pose proof (fr_buf _ _ _ _ _ _ _ F j) as FB. pose proof HL as HL0. unfold the_lock in HL0. destruct (nth_error (f_bufs f) j) as [[L2|]|] eqn:E; try discriminate. injection HL0 as ->.
  destruct FB as (d & R & A1 & A2 & _).
  destruct (someone (ls_ths L)) as [X|X]; [|exfalso; apply NR; exact X].
  destruct (somebody_moves _ _ _ _ A2 S X) as (i & h & Hh & NI & M). exists i. cbn [f_step]. rewrite HL, Hh.
  destruct h as [[] td]; [cbn in NI; congruence| |]; (destruct (lstep L i) as [L'|]; [|congruence]); destruct (ls_tr L') as [|[|]]; eauto.
Qed.
Print Assumptions C113_somebody_moves_partial.
(** Nobody stays inside for ever while going on: there is no endless run of such steps. *)
Theorem C113_calls_are_finite :
  forall c clients (st : nat -> fsb) (who : nat -> nat * nat),
  ~ forall n, f_step c clients (st n) (FGo (fst (who n)) (snd (who n))) = Some (st (S n)).
Proof.
  intros c clients st who H. assert (X : forall w n, fweights (st n) = w -> False).
  { intro w. induction w as [w IH] using (well_founded_ind wf_one). intros n E. eapply (IH (fweights (st (S n)))); [|reflexivity]. subst w. eapply go_down, H. }
  exact (X _ 0 eq_refl).
Qed.
Print Assumptions C113_calls_are_finite.
(** So all calls and appends under way can be brought to an end, by nothing but steps of the
    threads that are in them; which of these make a step first does not matter. *)
Theorem C113_everybody_gets_out_partial :
  forall c clients fls f, is_True (c_auto c) = true -> f_run c clients f0 fls = Some f -> no_new_ranges (f_tr f) ->
  exists fls' f', f_run c clients f fls' = Some f' /\ Forall inside_step fls' /\ nobody_inside f'.
Proof.
  intros c clients fls f AU H N. remember (fweights f) as w eqn:W. revert fls f H N W.
  induction w as [w IH] using (well_founded_ind wf_one). intros fls f H N W. subst w.
  assert (D : nobody_inside f \/ exists j L, the_lock f j = Some L /\ ~ at_rest L).
  { assert (G : forall bs : list (option lstate), (forall j L, nth_error bs j = Some (Some L) -> at_rest L) \/ exists j L, nth_error bs j = Some (Some L) /\ ~ at_rest L).
    { induction bs as [|b bs IHb]; [left; intros [|j] L X; discriminate|].
      destruct IHb as [IHb|(j & L & X & Y)]; [|right; exists (S j), L; auto].
      destruct b as [L|].
      - destruct (someone (ls_ths L)) as [(i & h & X & Y)|X].
        + right. exists 0, L. split; [reflexivity|]. intro Z. exact (Y (Z i h X)).
        + left. intros [|j] L' Z; cbn in Z; [injection Z as <-; exact X|eauto].
      - left. intros [|j] L' Z; cbn in Z; [discriminate|eauto]. }
    destruct (G (f_bufs f)) as [X|(j & L & X & Y)]; [left|right].
    - intros j L Z. unfold the_lock in Z. destruct (nth_error (f_bufs f) j) as [[L1|]|] eqn:E; try discriminate. injection Z as ->. eauto.
    - exists j, L. split; [unfold the_lock; now rewrite X|exact Y]. }
  destruct D as [D|(j & L & HL & NR)]; [exists [], f; repeat split; auto|].
  destruct (C113_somebody_moves_partial c clients fls f AU H N j L HL NR) as (i & f1 & E).
  assert (H1 : f_run c clients f0 (fls ++ [FGo j i]) = Some f1) by (rewrite f_run_app, H; cbn [f_run]; now rewrite E).
  assert (N1 : no_new_ranges (f_tr f1)).
  { destruct (go_cases c clients _ _ _ _ E) as (_ & _ & _ & tr' & _ & _ & _ & _ & _ & T & T2 & _). intros j1 i1 r g X. rewrite T in X.
    apply in_app_or in X as [X|X]; [eapply N; exact X|]. destruct (T2 _ X) as (o & v & Q). discriminate. }
  destruct (IH _ (go_down c clients _ _ _ _ E) _ f1 H1 N1 eq_refl) as (fls' & f' & R & FI & NB).
  exists (FGo j i :: fls'), f'. split; [cbn [f_run]; now rewrite E|]. split; [constructor; [exact Logic.I|exact FI]|exact NB].
Qed.
Print Assumptions C113_everybody_gets_out_partial.

(** ** After stop() the source can be closed *)
Section Close.
Variable c : cfg.
Variable clients : nat.
Hypothesis AU : is_True (c_auto c) = true.
Definition pc_of (f : fsb) (i : nat) : option tpc := option_map se_pc (nth_error (sb_ss (f_s f)) i).
Definition settled (f : fsb) (i : nat) : Prop := pc_of f i = Some TCheck \/ exists e, pc_of f i = Some (TFinCheck (Some e)).
Lemma running_pc s i p : running (set_tpc s i p) = running s.
Proof.
  unfold running, latest, set_tpc, upd_sess, set_ss. cbn [sb_ss]. rewrite upd_length, nth_upd. destruct (Nat.eqb_spec i (length (sb_ss s) - 1)) as [->|]; [|reflexivity].
  destruct (nth_error (sb_ss s) (length (sb_ss s) - 1)); reflexivity.
Qed.
Lemma pc_set s i p k bufs tr : pc_of (MkF (set_tpc s i p) bufs tr) k = if Nat.eqb i k then option_map (fun _ => p) (nth_error (sb_ss s) k) else option_map se_pc (nth_error (sb_ss s) k).
Proof.
  unfold pc_of, set_tpc, upd_sess, set_ss. cbn [f_s sb_ss]. rewrite nth_upd. destruct (Nat.eqb i k); [|reflexivity]. destruct (nth_error (sb_ss s) k); reflexivity.
Qed.
(* a step inside a buffer changes the place of a reading thread only when its append returns *)
Lemma on_return_pc s i v k bufs tr : nth_error (sb_ss s) k <> None ->
  pc_of (MkF (on_return clients s i v) bufs tr) k = option_map se_pc (nth_error (sb_ss s) k) \/ settled (MkF (on_return clients s i v) bufs tr) k.
Proof.
  intro N. unfold settled, on_return. destruct (Nat.leb clients i); [|left; reflexivity]. rewrite !pc_set. destruct (Nat.eqb_spec (i - clients) k) as [<-|]; [|left; reflexivity].
  right. destruct (nth_error (sb_ss s) (i - clients)); [|congruence]. cbn. unfold after_put. destruct v as [[]| |]; eauto.
Qed.
Lemma go_pc f j k f' i : f_step c clients f (FGo j k) = Some f' -> nth_error (sb_ss (f_s f)) i <> None ->
  nth_error (sb_ss (f_s f')) i <> None /\ running (f_s f') = running (f_s f) /\ (pc_of f' i = pc_of f i \/ settled f' i).
Proof.
  intros H N. destruct (go_cases c clients _ _ _ _ H) as (L & L' & h & tr' & _ & _ & _ & _ & _ & _ & _ & [[E _]|(v & E)]).
  - unfold settled, pc_of. rewrite E. auto.
  - unfold settled, pc_of. rewrite E. split; [|split].
    + unfold on_return. destruct (Nat.leb clients k); [|exact N]. unfold set_tpc, upd_sess, set_ss. cbn [sb_ss]. rewrite nth_upd. destruct (Nat.eqb _ i); [|exact N]. destruct (nth_error (sb_ss (f_s f)) i); [discriminate|congruence].
    + unfold on_return. destruct (Nat.leb clients k); [|reflexivity]. apply running_pc.
    + apply (on_return_pc (f_s f) k v i [] [] N).
Qed.
Lemma lstep_ths L k L' m : lstep L k = Some L' -> k <> m -> nth_error (ls_ths L') m = nth_error (ls_ths L) m.
Proof.
  intros H N. unfold lstep in H. destruct (nth_error (st_ths (ls_lock L)) k); [|discriminate]. destruct (nth_error (ls_ths L) k) as [h|]; [|discriminate].
  assert (G : forall g, nth_error (go L k g) m = nth_error (ls_ths L) m) by (intro g; unfold go; rewrite nth_error_set_nth; destruct (Nat.eqb_spec k m); congruence).
  destruct (in_lock _).
  - destruct (RWLockM.step (ls_lock L) k); [|discriminate]. injection H as <-. cbn [ls_ths]. destruct (h_ph h); auto.
  - destruct (h_ph h) as [|r cl p|o out].
    + destruct (h_todo h) as [|[]]; try discriminate; [injection H as <-; cbn [ls_ths]; auto|injection H as <-; cbn [ls_ths]; auto|].
      destruct (Nat.ltb _ _); [|discriminate]. injection H as <-. cbn [ls_ths]. auto.
    + destruct p; [| | | |destruct (nth_error (ls_rds L) r); [|discriminate]|destruct (nth_error (ls_rds L) r); [|discriminate]]; injection H as <-; cbn [ls_ths]; auto.
    + destruct out; [|discriminate]. injection H as <-. cbn [ls_ths]. auto.
Qed.
(* reading thread [i] is in its append on buffer [j] *)
Definition putting (f : fsb) (j i : nat) : Prop :=
  exists L h o out, the_lock f j = Some L /\ nth_error (ls_ths L) (rthread clients i) = Some h /\ h_ph h = PhWrite o out.
Lemma no_trace fls f j L : f_run c clients f0 fls = Some f -> the_lock f j = Some L -> ls_tr L = [].
Proof.
  intros H HL. destruct (explained c clients AU fls f H) as (ls & s & w & P & a & HI & F). pose proof (fr_buf _ _ _ _ _ _ _ F j) as FB. unfold the_lock in HL.
  destruct (nth_error (f_bufs f) j) as [[L2|]|]; try discriminate. injection HL as ->. destruct FB as (d & R & _ & _ & T & _). exact T.
Qed.
Lemma go_putting fls f j' k f' j i : f_run c clients f0 fls = Some f -> f_step c clients f (FGo j' k) = Some f' -> nth_error (sb_ss (f_s f)) i <> None ->
  putting f j i -> putting f' j i \/ settled f' i.
Proof.
  intros HR H N (L & h & o & out & HL & Hh & Ep). destruct (Nat.eq_dec j' j) as [->|NJ].
  2:{ left. destruct (go_cases c clients _ _ _ _ H) as (L1 & L' & h1 & tr' & _ & _ & _ & _ & E & _). exists L, h, o, out. split; [|auto].
      unfold the_lock in *. rewrite E, nth_error_set_nth. destruct (Nat.eqb_spec j' j); [congruence|exact HL]. }
  destruct (Nat.eq_dec k (rthread clients i)) as [->|NK].
  2:{ left. destruct (go_cases c clients _ _ _ _ H) as (L1 & L' & h1 & tr' & HL1 & _ & _ & HS & E & _). assert (L1 = L) by congruence. subst L1.
      eexists _, h, o, out. split; [|split; [|exact Ep]].
      - unfold the_lock. rewrite E, nth_error_set_nth, Nat.eqb_refl. unfold the_lock in HL. destruct (nth_error (f_bufs f) j) as [[|]|]; try discriminate. reflexivity.
      - cbn [ls_ths]. rewrite (lstep_ths _ _ _ _ HS NK). exact Hh. }
  cbn [f_step] in H. rewrite HL, Hh in H. destruct h as [ph td]. cbn in Ep. subst ph. destruct (lstep L (rthread clients i)) as [L'|] eqn:HS; [|discriminate].
  pose proof (no_trace _ _ _ _ HR HL) as T0. unfold lstep in HS. rewrite Hh in HS. destruct (nth_error (st_ths (ls_lock L)) (rthread clients i)) as [t|] eqn:Ht; [|discriminate].
  destruct (in_lock t).
  - destruct (RWLockM.step (ls_lock L) (rthread clients i)) as [lk|]; [|discriminate]. injection HS as <-. cbn [ls_tr h_ph h_todo] in H. rewrite T0 in H. injection H as <-. left.
    eexists _, _, _, _. split; [unfold the_lock; cbn [f_bufs]; rewrite nth_error_set_nth, Nat.eqb_refl; unfold the_lock in HL; destruct (nth_error (f_bufs f) j) as [[|]|]; try discriminate; reflexivity|].
    cbn [ls_ths]. split; [unfold go; rewrite nth_error_set_nth, Nat.eqb_refl, Hh; reflexivity|reflexivity].
  - cbn [h_ph] in HS. destruct out as [v|]; [|discriminate]. injection HS as <-. cbn [ls_tr] in H. rewrite T0 in H. cbn [app] in H. injection H as <-. right.
    unfold settled. unfold on_return. replace (Nat.leb clients (rthread clients i)) with true by (symmetry; apply Nat.leb_le; unfold rthread; lia).
    rewrite !pc_set. replace (rthread clients i - clients) with i by (unfold rthread; lia). rewrite Nat.eqb_refl. destruct (nth_error (sb_ss (f_s f)) i); [|congruence]. cbn. destruct v; eauto.
Qed.
Lemma inside_run fls' : forall fls f f' j i, f_run c clients f0 fls = Some f -> Forall inside_step fls' -> f_run c clients f fls' = Some f' -> nth_error (sb_ss (f_s f)) i <> None ->
  nth_error (sb_ss (f_s f')) i <> None /\ running (f_s f') = running (f_s f) /\ (pc_of f' i = pc_of f i \/ settled f' i) /\ (settled f i -> settled f' i) /\
  (putting f j i -> putting f' j i \/ settled f' i).
Proof.
  induction fls' as [|l fls' IH]; intros fls f f' j i HR FI H N; cbn [f_run] in H.
  - injection H as <-. auto 10.
  - inversion FI as [|x y FI1 FI2]; subst. destruct l as [|r|i1|j' k]; try contradiction. destruct (f_step c clients f (FGo j' k)) as [f1|] eqn:E; [|discriminate].
    destruct (go_pc _ _ _ _ i E N) as (N1 & R1 & P1).
    assert (HR1 : f_run c clients f0 (fls ++ [FGo j' k]) = Some f1) by (rewrite f_run_app, HR; cbn [f_run]; now rewrite E).
    destruct (IH _ _ _ j i HR1 FI2 H N1) as (N2 & R2 & P2 & S2 & Q2). split; [exact N2|]. split; [congruence|].
    assert (ST : settled f i -> settled f1 i) by (intro X; destruct P1 as [P1|P1]; [unfold settled in *; rewrite P1; exact X|exact P1]).
    split; [|split].
    + destruct P2 as [P2|P2]; [|auto]. destruct P1 as [P1|P1]; [left; congruence|auto].
    + auto.
    + intro X. destruct (go_putting _ _ _ _ _ _ _ HR E N X) as [X1|X1]; auto.
Qed.

(* one step of the reading thread outside the buffers *)
Lemma lt_step f i p o s' : pc_of f i = Some p -> match p with TPut _ _ | TLen _ => False | _ => True end -> thread_step c (f_s f) i p o = Some s' ->
  f_step c clients f (FOut (LT i o)) = Some (MkF s' (f_bufs f) (f_tr f ++ map FEv (skipn (length (sb_tr (f_s f))) (sb_tr s')))).
Proof.
  intros P NP T. unfold pc_of in P. destruct (nth_error (sb_ss (f_s f)) i) as [e|] eqn:He; [|discriminate]. injection P as P. cbn [f_step outside may_attach]. rewrite He, P.
  assert (O : match p with TPut _ _ | TLen _ => false | _ => true end = true) by (destruct p; auto; contradiction). rewrite O. cbn [andb sb_step]. rewrite He, P, T. reflexivity.
Qed.
Definition closes (f : fsb) (i : nat) : Prop :=
  exists fls' f' e, f_run c clients f fls' = Some f' /\ Forall (no_client_step i) fls' /\ pc_of f' i = Some (TDone e) /\
    exists tr u, f_tr f' = f_tr f ++ tr /\ In (FEv (EClose i u)) tr.
Lemma closes_after f l f1 i : f_step c clients f l = Some f1 -> no_client_step i l -> closes f1 i -> closes f i.
Proof.
  intros H N (fls & f' & e & R & FA & P & tr & u & T & I). exists (l :: fls), f', e. cbn [f_run]. rewrite H. split; [exact R|]. split; [constructor; auto|]. split; [exact P|].
  destruct (step_trace c clients _ _ _ H) as (es & E). exists (es ++ tr), u. rewrite T, E, app_assoc. split; [reflexivity|]. apply in_or_app. now right.
Qed.
Lemma closes_run fls0 : forall f f1 i, f_run c clients f fls0 = Some f1 -> Forall (no_client_step i) fls0 -> closes f1 i -> closes f i.
Proof.
  induction fls0 as [|l fls0 IH]; intros f f1 i H FA C; cbn [f_run] in H; [now injection H as <-|]. destruct (f_step c clients f l) as [f2|] eqn:E; [|discriminate].
  inversion FA; subst. eapply closes_after; eauto.
Qed.
Lemma close_close f i e : pc_of f i = Some (TClose e) -> closes f i.
Proof.
  intro P. set (s' := set_tpc (log (f_s f) (EClose i (Ok tt))) i (TDone e)).
  assert (H : f_step c clients f (FOut (LT i (Ok PNone))) = Some (MkF s' (f_bufs f) (f_tr f ++ map FEv (skipn (length (sb_tr (f_s f))) (sb_tr s'))))) by (eapply lt_step; [exact P|exact Logic.I|reflexivity]).
  exists [FOut (LT i (Ok PNone))]. do 2 eexists. cbn [f_run]. rewrite H. split; [reflexivity|]. split; [constructor; [reflexivity|constructor]|]. split.
  - unfold s'. rewrite pc_set, Nat.eqb_refl. unfold pc_of in P. destruct (nth_error (sb_ss (f_s f)) i) eqn:He; [|discriminate]. unfold log. cbn [sb_ss]. rewrite He. reflexivity.
  - cbn [f_tr]. do 2 eexists. split; [reflexivity|]. unfold s', set_tpc, upd_sess, set_ss, log. cbn [sb_tr]. rewrite skipn_app, skipn_all, Nat.sub_diag. left. reflexivity.
Qed.
Lemma pc_here f i p q bufs tr : pc_of f i = Some p -> pc_of (MkF (set_tpc (f_s f) i q) bufs tr) i = Some q.
Proof. intro P. rewrite pc_set, Nat.eqb_refl. unfold pc_of in P. destruct (nth_error (sb_ss (f_s f)) i); [reflexivity|discriminate]. Qed.
Lemma pc_log f i p q e bufs tr : pc_of f i = Some p -> pc_of (MkF (set_tpc (log (f_s f) e) i q) bufs tr) i = Some q.
Proof. intro P. rewrite pc_set, Nat.eqb_refl. unfold pc_of in P. unfold log. cbn [sb_ss]. destruct (nth_error (sb_ss (f_s f)) i); [reflexivity|discriminate]. Qed.
Lemma running_log s e : running (log s e) = running s. Proof. reflexivity. Qed.
Lemma pc_stop f i p q bufs tr : pc_of f i = Some p -> pc_of (MkF (set_tpc (do_stop (f_s f)) i q) bufs tr) i = Some q.
Proof.
  intro P. rewrite pc_set, Nat.eqb_refl. unfold pc_of in P. unfold do_stop, upd_sess, set_ss. cbn [sb_ss]. rewrite nth_upd.
  destruct (Nat.eqb _ i); destruct (nth_error (sb_ss (f_s f)) i); try discriminate; reflexivity.
Qed.
Lemma close_set f i e : pc_of f i = Some (TFinSet e) -> closes f i.
Proof.
  intro P. eapply (closes_after _ (FOut (LT i (Ok PNone)))); [eapply lt_step; [exact P|exact Logic.I|reflexivity]|reflexivity|]. eapply close_close. eapply pc_stop, P.
Qed.
Lemma close_fin f i e : running (f_s f) = false -> pc_of f i = Some (TFinCheck e) -> closes f i.
Proof.
  intros R P. eapply (closes_after _ (FOut (LT i (Ok PNone)))); [eapply lt_step; [exact P|exact Logic.I|cbn [thread_step]; rewrite R; reflexivity]|reflexivity|].
  eapply close_close. eapply pc_here, P.
Qed.
Lemma close_check f i : running (f_s f) = false -> pc_of f i = Some TCheck -> closes f i.
Proof.
  intros R P. eapply (closes_after _ (FOut (LT i (Ok PNone)))); [eapply lt_step; [exact P|exact Logic.I|cbn [thread_step]; rewrite R; reflexivity]|reflexivity|].
  eapply close_fin; [cbn [f_s]; now rewrite running_pc|]. eapply pc_here, P.
Qed.
Lemma close_settled f i : running (f_s f) = false -> settled f i -> closes f i.
Proof. intros R [P|(e & P)]; [now apply close_check|eapply close_fin; eauto]. Qed.
Lemma close_sleep f i : running (f_s f) = false -> pc_of f i = Some TSleep -> closes f i.
Proof.
  intros R P. eapply (closes_after _ (FOut (LT i (Ok PNone)))); [eapply lt_step; [exact P|exact Logic.I|reflexivity]|reflexivity|].
  eapply close_check; [cbn [f_s]; now rewrite running_pc|]. eapply pc_here, P.
Qed.
Lemma close_read f i : running (f_s f) = false -> pc_of f i = Some TRead -> closes f i.
Proof.
  intros R P. eapply (closes_after _ (FOut (LT i (Ok PNone)))); [eapply lt_step; [exact P|exact Logic.I|reflexivity]|reflexivity|].
  eapply close_sleep; [cbn [f_s]; now rewrite running_pc|]. cbn [is_none]. eapply pc_log, P.
Qed.
Lemma close_gate f i : running (f_s f) = false -> pc_of f i = Some TGate -> closes f i.
Proof.
  intros R P. eapply (closes_after _ (FOut (LT i (Ok PNone)))); [eapply lt_step; [exact P|exact Logic.I|cbn [thread_step]; rewrite AU; reflexivity]|reflexivity|].
  eapply close_read; [cbn [f_s]; now rewrite running_pc|]. eapply pc_here, P.
Qed.
Lemma inside_no_client i fls : Forall inside_step fls -> Forall (no_client_step i) fls.
Proof. intro H. eapply Forall_impl; [|exact H]. intros [| | |] X; try contradiction. exact Logic.I. Qed.
Lemma close_put fls f i j x : f_run c clients f0 fls = Some f -> no_new_ranges (f_tr f) -> nobody_inside f -> running (f_s f) = false -> pc_of f i = Some (TPut j x) -> closes f i.
Proof.
  intros HR N NB R P. unfold pc_of in P. destruct (nth_error (sb_ss (f_s f)) i) as [e|] eqn:He; [|discriminate]. injection P as P.
  destruct (C111_nobody_left_out c clients fls f AU HR) as [A _]. destruct (A i e j x He P) as (L & h & HL & Hh & [(out & Ep)|(Ep & f1 & E)]).
  - pose proof (NB j L HL (rthread clients i) h Hh) as Z. congruence.
  - eapply (closes_after _ (FPut i)); [exact E|reflexivity|].
    assert (HR1 : f_run c clients f0 (fls ++ [FPut i]) = Some f1) by (rewrite f_run_app, HR; cbn [f_run]; now rewrite E).
    cbn [f_step] in E. rewrite He, P in E. pose proof (begin_trace _ _ _ _ _ E) as T1.
    assert (N1 : no_new_ranges (f_tr f1)).
    { intros j1 i1 r g X. rewrite T1 in X. apply in_app_or in X as [X|[X|[]]]; [eapply N; exact X|discriminate]. }
    assert (PU : putting f1 j i /\ f_s f1 = f_s f).
    { unfold begin_op in E. rewrite HL, Hh in E. destruct h as [ph td]. cbn in Ep. subst ph. destruct td; [|discriminate]. destruct (lstep _ _) as [L'|] eqn:HS; [|discriminate]. injection E as <-.
      split; [|reflexivity]. unfold lstep in HS. cbn [ls_lock ls_ths] in HS. rewrite nth_error_set_nth, Nat.eqb_refl, Hh in HS.
      destruct (nth_error (st_ths (ls_lock L)) (rthread clients i)) as [t|] eqn:Ht; [|discriminate].
      destruct (explained c clients AU fls f HR) as (ls & s & w & PP & a & HI & F). pose proof (fr_buf _ _ _ _ _ _ _ F j) as FB. pose proof HL as HL0. unfold the_lock in HL0.
      destruct (nth_error (f_bufs f) j) as [[L2|]|] eqn:EB; try discriminate. injection HL0 as ->. destruct FB as (d & RR & A1 & A2 & _).
      pose proof (sm_th _ _ _ _ A2 _ _ _ Ht Hh) as TR. unfold thread_rel in TR. cbn [h_ph] in TR. destruct TR as (_ & T2 & T3).
      assert (IL : in_lock t = false) by (unfold in_lock; now rewrite T2, T3). rewrite IL in HS. cbn [h_ph h_todo] in HS. injection HS as <-.
      eexists _, _, _, _. split; [unfold the_lock; cbn [f_bufs]; rewrite nth_error_set_nth, Nat.eqb_refl, EB; reflexivity|]. cbn [ls_ths]. unfold go. cbn [ls_ths].
      rewrite !nth_error_set_nth, Nat.eqb_refl, Hh. split; reflexivity. }
    destruct PU as [PU E0].
    destruct (C113_everybody_gets_out_partial c clients _ f1 AU HR1 N1) as (fls' & f' & R' & FI & NB').
    assert (NS : nth_error (sb_ss (f_s f1)) i <> None) by (rewrite E0, He; discriminate).
    destruct (inside_run fls' _ f1 f' j i HR1 FI R' NS) as (N2 & R2 & _ & _ & Q).
    eapply closes_run; [exact R'|now apply inside_no_client|]. apply close_settled; [congruence|].
    destruct (Q PU) as [(L1 & h1 & o & out & Q1 & Q2 & Q3)|Q1]; [|exact Q1].
    pose proof (NB' j L1 Q1 _ h1 Q2) as Z. congruence.
Qed.
Lemma close_append fls f i x : f_run c clients f0 fls = Some f -> no_new_ranges (f_tr f) -> nobody_inside f -> running (f_s f) = false -> pc_of f i = Some (TAppend x) -> closes f i.
Proof.
  intros HR N NB R P. destruct (sb_cur (f_s f)) as [j|] eqn:EC.
  - assert (E : f_step c clients f (FOut (LT i (Ok PNone))) = Some (MkF (set_tpc (f_s f) i (TPut j x)) (f_bufs f) (f_tr f ++ map FEv (skipn (length (sb_tr (f_s f))) (sb_tr (f_s f)))))).
    { apply (lt_step f i (TAppend x) (Ok PNone) (set_tpc (f_s f) i (TPut j x)) P Logic.I). cbn [thread_step]. rewrite EC. reflexivity. }
    eapply closes_after; [exact E|reflexivity|]. eapply (close_put (fls ++ [FOut (LT i (Ok PNone))])).
    + rewrite f_run_app, HR. cbn [f_run]. now rewrite E.
    + cbn [f_tr]. rewrite skipn_all. cbn [map]. rewrite app_nil_r. exact N.
    + intros j' L X. eapply NB. exact X.
    + cbn [f_s]. now rewrite running_pc.
    + eapply pc_here, P.
  - eapply (closes_after _ (FOut (LT i (Ok PNone)))); [eapply lt_step; [exact P|exact Logic.I|cbn [thread_step]; rewrite EC; reflexivity]|reflexivity|].
    eapply close_fin; [cbn [f_s]; now rewrite running_pc|]. eapply pc_log, P.
Qed.
End Close.

(** When nobody has called range(only_new_items=True) and the stream is not running - stop()
    was called and no start() since - every reading thread, whatever it is doing and
    whatever calls are under way, can end and close its source without any further call of a
    client: by its own steps and those of the threads that are inside buffers. (Its source's
    read() is assumed to return.) *)
Theorem C113_can_be_closed_partial :
  forall c clients fls f, is_True (c_auto c) = true -> f_run c clients f0 fls = Some f -> no_new_ranges (f_tr f) -> running (f_s f) = false ->
  forall i, alive (f_s f) i ->
  exists fls' f', f_run c clients f fls' = Some f' /\ Forall (no_client_step i) fls' /\ ended (f_s f') i /\
    exists tr u, f_tr f' = f_tr f ++ tr /\ In (FEv (EClose i u)) tr.
Proof.
  intros c clients fls f AU H N R i (p & (e & He & Ep) & AL).
  assert (C : closes c clients f i).
  { destruct (C113_everybody_gets_out_partial c clients fls f AU H N) as (fl1 & f1 & R1 & FI & NB).
    assert (NS : nth_error (sb_ss (f_s f)) i <> None) by congruence.
    destruct (inside_run c clients AU fl1 fls f f1 0 i H FI R1 NS) as (N2 & R2 & P2 & S2 & _).
    eapply closes_run; [exact R1|now apply inside_no_client|]. rewrite R in R2.
    destruct P2 as [P2|P2]; [|now apply close_settled].
    assert (H1 : f_run c clients f0 (fls ++ fl1) = Some f1) by (rewrite f_run_app, H; exact R1).
    assert (N1 : no_new_ranges (f_tr f1)).
    { assert (G : forall q g g', f_run c clients g q = Some g' -> Forall inside_step q -> no_new_ranges (f_tr g) -> no_new_ranges (f_tr g')).
      { induction q as [|l q IH]; intros g g' X Y Z; cbn [f_run] in X; [now injection X as <-|]. destruct (f_step c clients g l) as [g1|] eqn:E; [|discriminate]. inversion Y; subst.
        apply (IH g1 g' X); [assumption|]. destruct l; try contradiction. destruct (go_cases c clients _ _ _ _ E) as (_ & _ & _ & tr' & _ & _ & _ & _ & _ & T & T2 & _). intros j1 i2 r g2 X2. rewrite T in X2.
        apply in_app_or in X2 as [X2|X2]; [eapply Z; exact X2|]. destruct (T2 _ X2) as (o & v & Q). discriminate. }
      exact (G _ _ _ R1 FI N). }
    assert (P : pc_of f1 i = Some p) by (rewrite P2; unfold pc_of; rewrite He, <- Ep; reflexivity).
    destruct p as [| | | | |x|j x| |e1|e1|e1|e1]; try contradiction.
    - now apply close_check.
    - now apply close_gate.
    - exfalso. destruct (C111_calls_have_instants c clients _ f1 AU H1) as (ls & s & w & HI & _ & _ & _ & _ & _ & E3). destruct (E3 NB) as ((TL & T) & _).
      unfold pc_of in P. destruct (nth_error (sb_ss (f_s f1)) i) as [e0|] eqn:E0; [|discriminate]. injection P as P.
      destruct (nth_error (sb_ss s) i) as [e'|] eqn:E1.
      + destruct (T i e0 e' E0 E1) as (_ & _ & Q). rewrite P in Q. pose proof (len_auto c ls s HI i e' j E1 (eq_sym Q)). congruence.
      + apply nth_error_None in E1. rewrite <- TL in E1. apply nth_error_None in E1. congruence.
    - now apply close_read.
    - eapply close_append; eauto.
    - eapply close_put; eauto.
    - now apply close_sleep.
    - eapply close_fin; eauto.
    - eapply close_set; eauto.
    - eapply close_close; eauto. }
  destruct C as (fls' & f' & e1 & A & B & P & T). exists fls', f'. split; [exact A|]. split; [exact B|]. split; [|exact T].
  unfold pc_of in P. destruct (nth_error (sb_ss (f_s f')) i) as [e2|] eqn:E2; [|discriminate]. injection P as P. exists e1, e2. auto.
Qed.
Print Assumptions C113_can_be_closed_partial.
(** The hypotheses hold in the middle of [fine_hist], with stop() called: a read and an append
    are under way. *)
Example C113_partial_nonvacuous :
  exists f, f_run cfg3 1 f0 (firstn 30 fine_hist ++ [FOut LStop]) = Some f /\ no_new_ranges (f_tr f) /\ running (f_s f) = false /\ alive (f_s f) 0 /\
    exists L, the_lock f 0 = Some L /\ ~ at_rest L.
Proof.
  assert (B : option_map (fun f => (f_tr f, running (f_s f), pc_of f 0, option_map all_idle (the_lock f 0))) (f_run cfg3 1 f0 (firstn 30 fine_hist ++ [FOut LStop]))
     = Some (firstn 8 fine_trace ++ [FEv (EStop (Ok 0))], false, Some (TPut 0 (PInt 1)), Some false)) by (vm_compute; reflexivity).
  destruct (f_run cfg3 1 f0 (firstn 30 fine_hist ++ [FOut LStop])) as [f|] eqn:E; [|discriminate]. clear E. exists f. split; [reflexivity|].
  cbn [option_map] in B. injection B as T R P A. split; [|split; [|split]].
  - intros j i r g X. rewrite T in X. cbn in X. repeat destruct X as [X|X]; try discriminate; contradiction.
  - exact R.
  - unfold pc_of in P. destruct (nth_error (sb_ss (f_s f)) 0) as [e|] eqn:He; [|discriminate]. injection P as P. exists (TPut 0 (PInt 1)). split; [exists e; auto|exact Logic.I].
  - destruct (the_lock f 0) as [L|] eqn:HL; [|discriminate]. cbn [option_map] in A. injection A as A.
    exists L. split; [reflexivity|]. intro AR. enough (all_idle L = true) by congruence. unfold all_idle. apply forallb_forall. intros h X.
    apply In_nth_error in X as (i & X). now rewrite (AR i h X).
Qed.
