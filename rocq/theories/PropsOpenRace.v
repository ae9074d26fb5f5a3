(** * open_reader() called by several threads at once (C105) *)
From Coq Require Import List ZArith Bool Arith Lia Permutation.
From Verif Require Import PyVal PyLib SortedDequeM BufferReaderM BufferSysM StreamBufferM StreamSourceM SourceRaceM SpecSource StreamFacts StreamLife LogFacts PropsStreamLoop PropsRace.
Import ListNotations.
Open Scope nat_scope.

(** ** Specification *)
(** The call thread [t] made last in the schedule [ls]. *)
Definition asked (ls : list qlabel) (t : nat) : option ccall :=
  fold_left (fun a l => match l with QCall t' cl => if Nat.eqb t' t then Some cl else a | _ => a end) ls None.
(** Reader [r] of StreamBuffer [k] exists and has these defaults; its reads consume (no peek). *)
Definition has_defaults (q : race) (k r : nat) (n : Z) (st ig : bool) : Prop :=
  exists s x, nth_error (q_sbs q) k = Some s /\ nth_error (sb_rds s) r = Some x /\
    rk_n (rd_r x) = n /\ rk_peek (rd_r x) = false /\ rk_strict (rd_r x) = st /\ rk_ignore (rd_r x) = ig.
(** The readers open_reader() has returned. *)
Definition handed_out (q : race) : list (nat * nat) :=
  flat_map (fun p => match snd p with GotReader k r => [(k, r)] | _ => [] end) (q_out q).

(** ** Steps of a StreamBuffer *)
Lemma step_defaults c s l s' : sb_step c s l = Some s' ->
  forall r x, nth_error (sb_rds s) r = Some x -> exists x', nth_error (sb_rds s') r = Some x' /\ same_defaults (rd_r x) (rd_r x').
Proof.
  assert (R : forall (s0 : list rdr) r0 (x0 x1 : rdr), nth_error s0 r0 = Some x0 -> same_defaults (rd_r x0) (rd_r x1) ->
    forall r x, nth_error s0 r = Some x -> exists x', nth_error (set_nth s0 r0 x1) r = Some x' /\ same_defaults (rd_r x) (rd_r x')).
  { intros s0 r0 x0 x1 E0 D r x E. rewrite nth_set_nth'. destruct (Nat.eqb_spec r0 r) as [<-|].
    - rewrite E0. rewrite E0 in E. injection E as <-. eauto.
    - exists x. split; [assumption|apply same_refl]. }
  assert (C : forall q r0 cl w s2, call_step q r0 cl w = Some s2 ->
    forall r x, nth_error (sb_rds q) r = Some x -> exists x', nth_error (sb_rds s2) r = Some x' /\ same_defaults (rd_r x) (rd_r x')).
  { intros q r0 cl w s2 H. unfold call_step in H. destruct (nth_error (sb_rds q) r0) as [q0|] eqn:E; [|discriminate].
    destruct (buf_of q (rd_sess q0)) as [d|]; [|discriminate]. pose proof (run_defaults d (with_stopped (ev_set q (rd_ev q0)) cl) (rd_r q0)) as D.
    destruct (run _ _) as [br v]. injection H as <-. refine (R _ _ _ _ E _); exact D. }
  assert (S : forall m : list rdr, forall r x, nth_error m r = Some x -> exists x', nth_error m r = Some x' /\ same_defaults (rd_r x) (rd_r x')).
  { intros m r x E. exists x. split; [assumption|apply same_refl]. }
  assert (A : forall (m : list rdr) y r x, nth_error m r = Some x -> exists x', nth_error (m ++ y) r = Some x' /\ same_defaults (rd_r x) (rd_r x')).
  { intros m y r x E. exists x. split; [|apply same_refl]. rewrite nth_error_app1; [assumption|]. apply nth_error_Some. congruence. }
  intro H. destruct l as [|o info| | |n p st ig|r| | |n|kd|jd|kd2|r cl|r|i o]; cbn [sb_step] in H.
  - destruct (lock_free s); [|discriminate]. injection H as <-. apply S.
  - unfold start_step in H. destruct (sb_start s); try discriminate; try (injection H as <-; apply S).
    + destruct o; injection H as <-; apply S.
    + destruct info as [v|e]; [destruct (sd_init _ _ _)|]; injection H as <-; apply S.
  - destruct (Nat.eqb _ 0); injection H as <-; apply S.
  - destruct (sb_stops s); [discriminate|]. injection H as <-. apply S.
  - destruct (lock_free s); [|discriminate]. destruct (sb_cur s); injection H as <-; [apply A|apply S].
  - destruct (lock_free s); [|discriminate]. destruct (nth_error (sb_rds s) r) as [q0|] eqn:E; [|discriminate].
    destruct (sb_cur s); injection H as <-; [|apply S]. refine (R _ _ _ _ E _). apply same_refl.
  - destruct (sb_next s); [injection H as <-; apply S|]. destruct (lock_free s); [|discriminate].
    destruct (sb_cur s); injection H as <-; [apply A|apply S].
  - destruct (sb_nx s); [discriminate|]. destruct (sb_next s); [exact (C _ _ _ _ _ H)|]. injection H as <-. apply S.
  - destruct (is_True _); [injection H as <-; apply S|].
    destruct (sb_cur s); injection H as <-; apply S.
  - destruct (nth_error (sb_dr s) kd) as [[j0 n0]|]; [|discriminate]. destruct (dropping s j0); [discriminate|]. injection H as <-. apply S.
  - destruct (dropping s jd) as [[n0 k0]|]; [|discriminate]. destruct (buf_of _ _); [|discriminate]. destruct (Nat.ltb _ _); [|discriminate]. injection H as <-. apply S.
  - destruct (nth_error (sb_dr s) kd2) as [[j0 n0]|]; [|discriminate]. destruct (match dropping s j0 with Some _ => _ | None => _ end); [|discriminate]. destruct (buf_of _ _); [|discriminate].
    destruct (sd_drop _ _). injection H as <-. apply S.
  - exact (C _ _ _ _ _ H).
  - unfold iter_step in H. destruct (nth_error (sb_rds s) r) as [qr|] eqn:E; [|discriminate].
    destruct (rd_loop qr); try discriminate; try (injection H as <-; refine (R _ _ _ _ E _); apply same_refl).
    destruct (buf_of s (rd_sess qr)) as [d|]; [|discriminate].
    assert (D : same_defaults (rd_r qr) (fst (run (read_for_next d) (rd_r qr)))).
    { assert (K : keeps (read_for_next d)); [|specialize (K (rd_r qr)); unfold run; now destruct (read_for_next d (rd_r qr)) as [[t r1] a]].
      unfold read_for_next. apply keeps_bind; [apply keeps_get|intro r0]. exact (keeps_call d (CRead _)). }
    destruct (run _ _) as [br v]. destruct (match v with Ok _ => _ | Raise _ => _ end) as [l1 out1]. injection H as <-. refine (R _ _ _ _ E _); exact D.
  - destruct (nth_error _ i) as [e|]; [|discriminate]. unfold thread_step in H. destruct (se_pc e); try discriminate; try (injection H as <-; apply S).
    + destruct (is_True _); [injection H as <-; apply S|]. destruct (sb_cur s); [|injection H as <-; apply S].
      destruct (c_maxlen c); injection H as <-; apply S.
    + destruct (c_maxlen c); [|injection H as <-; apply S]. destruct (buf_of _ _); [|discriminate]. injection H as <-. apply S.
    + destruct o; injection H as <-; apply S.
    + destruct (sb_cur s); injection H as <-; apply S.
    + destruct (dropping _ _); [discriminate|]. destruct (buf_of _ _); [|discriminate].
      destruct (sd_append _ _). injection H as <-. apply S.
    + destruct o; injection H as <-; apply S.
Qed.
Lemma do_defaults c q k l q' : sb_do c q k l = Some q' -> forall k1 r n st ig, has_defaults q k1 r n st ig -> has_defaults q' k1 r n st ig.
Proof.
  unfold sb_do. destruct (nth_error (q_sbs q) k) as [s|] eqn:E; [|discriminate]. destruct (sb_step c s l) as [s'|] eqn:Es; [|discriminate].
  intro H. injection H as <-. intros k1 r n st ig (s1 & x & E1 & E2 & D). unfold has_defaults. cbn. rewrite nth_set_nth'.
  destruct (Nat.eqb_spec k k1) as [<-|].
  - rewrite E in *. injection E1 as <-. destruct (step_defaults _ _ _ _ Es r x E2) as (x' & E' & (D1 & D2 & D3 & D4)).
    exists s', x'. repeat split; [assumption|..]; intuition congruence.
  - exists s1, x. auto.
Qed.
Lemma do_mk c q k n p st ig q' s' : sb_do c q k (StreamBufferM.LMk n p st ig) = Some q' -> nth_error (q_sbs q') k = Some s' ->
  forall r dft, last (sb_tr s') dft = EMk (Ok r) ->
  exists s, nth_error (q_sbs q) k = Some s /\ r = length (sb_rds s) /\ exists x, nth_error (sb_rds s') r = Some x /\ rd_r x = mk_breader n p st ig.
Proof.
  unfold sb_do. destruct (nth_error (q_sbs q) k) as [s|] eqn:E; [|discriminate]. cbn [sb_step].
  destruct (lock_free s); [|discriminate]. destruct (sb_cur s) as [j|] eqn:Ej; intro H; injection H as <-; cbn; rewrite nth_set_nth', Nat.eqb_refl, E; intro H; injection H as <-; intros r dft L; cbn [sb_tr log] in L.
  - rewrite last_last in L. injection L as <-. exists s. repeat split.
    eexists. split; [cbn; rewrite nth_error_app2, Nat.sub_diag by lia; reflexivity|reflexivity].
  - rewrite last_last in L. discriminate.
Qed.

(** ** Invariant: pending and returned readers *)
Definition pending (p : cpc) : list (nat * nat) := match p with OCount k r | OAdd k r _ => [(k, r)] | _ => [] end.
Definition held (q : race) : list (nat * nat) := handed_out q ++ flat_map pending (q_thr q).
Definition known (q : race) (p : nat * nat) : Prop := exists n st ig, has_defaults q (fst p) (snd p) n st ig.
Definition args_of (q : race) (a : option ccall) (p : cpc) : Prop :=
  match p with
  | OCheck n st ig | OMake n st ig | OLoad n st ig | OStart _ n st ig | OStarting _ n st ig | OLoad2 n st ig | OMk _ n st ig => a = Some (CallOpen n st ig)
  | OCount k r | OAdd k r _ => exists n st ig, a = Some (CallOpen n st ig) /\ has_defaults q k r n st ig
  | CIdle | KCount _ _ | KSub _ _ _ | KTest _ _ | KExit _ _ | KStop _ _ _ | KStopping _ _ _ => True
  end.
Definition inv (ls : list qlabel) (q : race) : Prop :=
  NoDup (held q) /\ (forall p, In p (held q) -> known q p) /\
  (forall t p, nth_error (q_thr q) t = Some p -> args_of q (asked ls t) p).

Lemma asked_snoc ls l t : asked (ls ++ [l]) t = match l with QCall t' cl => if Nat.eqb t' t then Some cl else asked ls t | _ => asked ls t end.
Proof. unfold asked. now rewrite fold_left_app. Qed.
Lemma args_mono q q' a p : (forall k r n st ig, has_defaults q k r n st ig -> has_defaults q' k r n st ig) -> args_of q a p -> args_of q' a p.
Proof. intros M. destruct p; cbn; auto; intros (n0 & st & ig & E & H); exists n0, st, ig; auto. Qed.
Lemma args_same q a b p : a = b -> args_of q a p -> args_of q b p.
Proof. now intros ->. Qed.
Lemma flat_set (f : cpc -> list (nat * nat)) thr t p : nth_error thr t = Some p ->
  exists rest, Permutation (flat_map f thr) (f p ++ rest) /\ forall p1, Permutation (flat_map f (set_nth thr t p1)) (f p1 ++ rest).
Proof.
  revert t. induction thr as [|y thr IH]; intros [|t] E; cbn in E; try discriminate.
  - injection E as ->. exists (flat_map f thr). split; [reflexivity|]. intro p1. reflexivity.
  - destruct (IH t E) as (rest & P & Q). exists (f y ++ rest). split; [|intro p1; specialize (Q p1)]; cbn;
    [rewrite P|rewrite Q]; rewrite !app_assoc; apply Permutation_app_tail, Permutation_app_comm.
Qed.
(** Thread [t] goes from [p] to [p1]; the new readers of this step are [new]. *)
Lemma moves ls q q' t p p1 o i outs new :
  inv ls q -> nth_error (q_thr q) t = Some p -> q_thr q' = set_nth (q_thr q) t p1 ->
  (forall k r n st ig, has_defaults q k r n st ig -> has_defaults q' k r n st ig) ->
  handed_out q' = handed_out q ++ outs -> Permutation (outs ++ pending p1) (new ++ pending p) ->
  NoDup new -> (forall x, In x new -> ~ In x (held q) /\ known q' x) ->
  args_of q' (asked ls t) p1 -> inv (ls ++ [QStep t o i]) q'.
Proof.
  intros (ND & KN & AR) Ht ET M EO P NN NX A1.
  destruct (flat_set pending _ _ _ Ht) as (rest & R1 & R2). specialize (R2 p1).
  assert (PP : Permutation (held q') (new ++ held q)).
  { unfold held. rewrite EO, ET, R2, R1. rewrite (Permutation_app_comm (handed_out q) outs), <- !app_assoc.
    transitivity ((outs ++ pending p1) ++ handed_out q ++ rest); [rewrite <- !app_assoc; apply Permutation_app_head; rewrite !app_assoc; apply Permutation_app_tail, Permutation_app_comm|].
    rewrite P, <- !app_assoc. apply Permutation_app_head. rewrite !app_assoc. apply Permutation_app_tail, Permutation_app_comm. }
  split; [|split].
  - rewrite PP. clear - ND NN NX. induction new as [|x new IH]; [exact ND|]. inversion NN; subst. cbn. constructor.
    + rewrite in_app_iff. intros [H|H]; [contradiction|]. now apply (NX x (or_introl eq_refl)).
    + apply IH; auto. intros y Hy. apply NX. now right.
  - intros x Hx. rewrite PP, in_app_iff in Hx. destruct Hx as [Hx|Hx]; [now apply NX|].
    destruct (KN x Hx) as (n & st & ig & D). exists n, st, ig. auto.
  - intros t' p' E. rewrite ET, nth_set_nth' in E. rewrite asked_snoc. destruct (Nat.eqb_spec t t') as [<-|N].
    + rewrite Ht in E. injection E as <-. exact A1.
    + eapply args_mono; eauto.
Qed.
Lemma inv_client ls c q t p o info q' : inv ls q -> nth_error (q_thr q) t = Some p -> client_step c q t p o info = Some q' ->
  inv (ls ++ [QStep t o info]) q'.
Proof.
  intros I Ht H. assert (A := proj2 (proj2 I) t p Ht).
  assert (SM : forall q1, q_sbs q1 = q_sbs q -> forall k r n st ig, has_defaults q k r n st ig -> has_defaults q1 k r n st ig).
  { intros q1 E k r n st ig. unfold has_defaults. now rewrite E. }
  assert (GO : forall q1 p1, q_thr q1 = set_nth (q_thr q) t p1 -> q_sbs q1 = q_sbs q -> q_out q1 = q_out q -> pending p1 = pending p ->
    args_of q (asked ls t) p1 -> inv (ls ++ [QStep t o info]) q1).
  { intros q1 p1 E1 E2 E3 E4 E5. eapply (moves ls q q1 t p p1 o info [] []); eauto.
    - unfold handed_out. now rewrite E3, app_nil_r.
    - now rewrite E4.
    - constructor.
    - intros x [].
    - eapply args_mono; [|exact E5]. now apply SM. }
  assert (RT : forall o1, pending p = [] -> (match o1 with GotReader _ _ => False | _ => True end) -> inv (ls ++ [QStep t o info]) (ret q t o1)).
  { intros o1 E4 N. eapply (moves ls q _ t p CIdle o info [] []); eauto; try reflexivity.
    - unfold handed_out. cbn. rewrite flat_map_app. now destruct o1.
    - now rewrite E4.
    - constructor.
    - intros x []. }
  assert (DO : forall k l q1, sb_do c q k l = Some q1 -> forall q2 p1, q_sbs q2 = q_sbs q1 -> q_thr q2 = set_nth (q_thr q) t p1 -> handed_out q2 = handed_out q ->
     pending p = [] -> pending p1 = [] -> args_of q (asked ls t) p1 -> inv (ls ++ [QStep t o info]) q2).
  { intros k l q1 E q2 p1 E1 E2 E3 E4 E5 E6.
    assert (M : forall k r n st ig, has_defaults q k r n st ig -> has_defaults q2 k r n st ig).
    { intros k1 r n st ig D. eapply do_defaults in D; [|exact E]. unfold has_defaults in *. now rewrite E1. }
    eapply (moves ls q q2 t p p1 o info [] []); eauto; try reflexivity.
    - now rewrite E3, app_nil_r.
    - now rewrite E4, E5.
    - constructor.
    - intros x [].
    - eapply args_mono; [|exact E6]. exact M. }
  destruct p; cbn [client_step] in H; try discriminate; cbn [args_of] in A.
  - (* OCheck *) injection H as <-. eapply GO; try reflexivity; now destruct (q_attr q).
  - (* OMake *) injection H as <-. eapply (moves ls q _ t _ (OLoad n st ig) o info [] []); eauto; try reflexivity.
    + intros k r n1 st1 ig1 (s & x & E1 & E2 & D). exists s, x. split; [cbn; rewrite nth_error_app1; [exact E1|apply nth_error_Some; congruence]|auto].
    + unfold handed_out. cbn. now rewrite app_nil_r.
    + constructor.
    + intros x [].
  - (* OLoad *) destruct (q_attr q); [|discriminate]. injection H as <-. eapply GO; try reflexivity. exact A.
  - (* OStart *) destruct (sb_do c q k LStart) as [q1|] eqn:E; [|discriminate]. injection H as <-. destruct (sb_do_spec _ _ _ _ _ E) as (X1 & X2 & X3 & X4 & _).
    eapply (DO _ _ _ E _ (OStarting k n st ig)); try reflexivity; [cbn; now rewrite X3|unfold handed_out; cbn; now rewrite X4|exact A].
  - (* OStarting *) destruct (sb_do c q k (LS o info)) as [q1|] eqn:E; [|discriminate]. destruct (sb_do_spec _ _ _ _ _ E) as (X1 & X2 & X3 & X4 & _).
    destruct (nth_error (q_sbs q1) k) as [s'|]; [|discriminate]. destruct (lock_free s'); [destruct (raised s')|]; injection H as <-.
    + eapply (DO _ _ _ E _ CIdle); try reflexivity; [cbn; now rewrite X3|unfold handed_out; cbn; rewrite X4, flat_map_app; cbn; now rewrite app_nil_r].
    + eapply (DO _ _ _ E _ (OLoad2 n st ig)); try reflexivity; [cbn; now rewrite X3|unfold handed_out; cbn; now rewrite X4|exact A].
    + eapply (DO _ _ _ E _ (OStarting k n st ig)); try reflexivity; [|unfold handed_out; cbn; now rewrite X4|exact A].
      rewrite X3. clear - Ht. revert t Ht. generalize (q_thr q). induction l as [|y l IH]; intros [|t] E; cbn in *; try discriminate; [now injection E as ->|f_equal; auto].
  - (* OLoad2 *) destruct (q_attr q); [|discriminate]. injection H as <-. eapply GO; try reflexivity. exact A.
  - (* OMk *) destruct (sb_do c q k _) as [q1|] eqn:E; [|discriminate]. destruct (sb_do_spec _ _ _ _ _ E) as (X1 & X2 & X3 & X4 & _).
    destruct (nth_error (q_sbs q1) k) as [s'|] eqn:Es; [|discriminate]. destruct (last _ _) as [| | | | | | | | | |[r|e]| | | | | |] eqn:EL; try discriminate; injection H as <-.
    + destruct (do_mk _ _ _ _ _ _ _ _ _ E Es _ _ EL) as (s & Es0 & -> & x & Ex & Dx).
      assert (HD : has_defaults (set_pc q1 t (OCount k (length (sb_rds s)))) k (length (sb_rds s)) n st ig).
      { exists s', x. cbn. split; [exact Es|]. split; [exact Ex|]. rewrite Dx. repeat split. }
      eapply (moves ls q _ t _ (OCount k (length (sb_rds s))) o info [] [(k, length (sb_rds s))]); eauto; try reflexivity.
      * cbn. now rewrite X3.
      * intros k1 r1 n1 st1 ig1 D. exact (do_defaults _ _ _ _ _ E _ _ _ _ _ D).
      * unfold handed_out. cbn. now rewrite X4, app_nil_r.
      * constructor; [intros []|constructor].
      * intros y [<-|[]]. split; [|exists n, st, ig; exact HD]. intro HI. destruct (proj1 (proj2 I) _ HI) as (n1 & st1 & ig1 & s1 & x1 & E1 & E2 & _). cbn in E1, E2.
        rewrite Es0 in E1. injection E1 as <-. assert (length (sb_rds s) < length (sb_rds s)) by (apply nth_error_Some; congruence). lia.
      * cbn. exists n, st, ig. auto.
    + eapply (DO _ _ _ E _ CIdle); try reflexivity; [cbn; now rewrite X3|unfold handed_out; cbn; rewrite X4, flat_map_app; cbn; now rewrite app_nil_r].
  - (* OCount *) injection H as <-. eapply GO; try reflexivity. exact A.
  - (* OAdd *) injection H as <-. eapply (moves ls q _ t _ CIdle o info [(k, r)] []); eauto; try reflexivity.
    + unfold handed_out. cbn. now rewrite flat_map_app.
    + constructor.
    + intros x [].
  - (* KCount *) injection H as <-. eapply GO; try reflexivity.
  - (* KSub *) injection H as <-. eapply GO; try reflexivity.
  - (* KTest *) destruct (Z.leb (q_open q) 0); injection H as <-; [eapply GO; try reflexivity|apply RT; [reflexivity|constructor]].
  - (* KExit *) destruct (q_attr q); injection H as <-; [eapply GO; try reflexivity|apply RT; [reflexivity|constructor]].
  - (* KStop *) destruct (sb_do c q j LStop) as [q1|] eqn:E; [|discriminate]. destruct (sb_do_spec _ _ _ _ _ E) as (X1 & X2 & X3 & X4 & _).
    destruct (nth_error (q_sbs q1) j) as [s'|]; [|discriminate].
    assert (NB : inv (ls ++ [QStep t o info]) (set_pc q1 t (KStopping k r j))).
    { eapply (DO _ _ _ E _ (KStopping k r j)); try reflexivity; [cbn; now rewrite X3|unfold handed_out; cbn; now rewrite X4]. }
    destruct (last _ _) as [| | | | | | | |[x|e]| | | | | | | |]; injection H as <-; auto.
    eapply (DO _ _ _ E _ CIdle); try reflexivity; [cbn; now rewrite X3|unfold handed_out; cbn; rewrite X4, flat_map_app; cbn; now rewrite app_nil_r].
  - (* KStopping *) destruct (sb_do c q j LStopRet) as [q1|] eqn:E; [|discriminate]. destruct (sb_do_spec _ _ _ _ _ E) as (X1 & X2 & X3 & X4 & _). injection H as <-.
    eapply (DO _ _ _ E _ CIdle); try reflexivity; [cbn; now rewrite X3|unfold handed_out; cbn; rewrite X4, flat_map_app; cbn; now rewrite app_nil_r].
Qed.
Lemma inv_step ls c q l q' : inv ls q -> race_step c q l = Some q' -> inv (ls ++ [l]) q'.
Proof.
  intros I H. destruct l as [t1 cl|t1 o info|k l]; cbn [race_step] in H.
  - destruct (nth_error (q_thr q) t1) as [p1|] eqn:E; [|discriminate]. destruct p1; try discriminate.
    assert (X : forall p, pending p = [] -> args_of q (Some cl) p -> inv (ls ++ [QCall t1 cl]) (set_pc q t1 p)).
    { intros p E1 E2. destruct I as (ND & KN & AR). destruct (flat_set pending _ _ _ E) as (rest & R1 & R2). specialize (R2 p). rewrite E1 in R2. cbn in R1, R2.
      assert (PP : Permutation (held (set_pc q t1 p)) (held q)).
      { unfold held. change (handed_out (set_pc q t1 p)) with (handed_out q). cbn [q_thr set_pc]. now rewrite R1, R2. }
      split; [now rewrite PP|]. split.
      - intros x Hx. rewrite PP in Hx. exact (KN x Hx).
      - intros t' p' Ep. cbn in Ep. rewrite nth_set_nth' in Ep. rewrite asked_snoc. destruct (Nat.eqb_spec t1 t') as [<-|N].
        + rewrite E in Ep. injection Ep as <-. exact E2.
        + exact (AR t' p' Ep). }
    destruct cl as [n1 st ig|k r]; [|destruct (returned q k r); [|discriminate]]; injection H as <-; now apply X.
  - destruct (nth_error (q_thr q) t1) as [p1|] eqn:E; [|discriminate]. eapply inv_client; eauto.
  - destruct (is_bg l) eqn:B; [|discriminate]. destruct (sb_do_spec _ _ _ _ _ H) as (X1 & X2 & X3 & X4 & _).
    destruct I as (ND & KN & AR). unfold inv, held, handed_out in *. rewrite X3, X4. split; [exact ND|]. split.
    + intros x Hx. destruct (KN x Hx) as (n & st & ig & D). exists n, st, ig. eapply do_defaults; eauto.
    + intros t' p' Ep. rewrite asked_snoc. eapply args_mono; [|exact (AR t' p' Ep)]. intros. eapply do_defaults; eauto.
Qed.
Lemma race_run_snoc c q ls l : race_run c q (ls ++ [l]) = match race_run c q ls with Some q1 => race_step c q1 l | None => None end.
Proof.
  revert q. induction ls as [|x ls IH]; intro q; cbn; [now destruct (race_step c q l)|]. destruct (race_step c q x); [apply IH|reflexivity].
Qed.
Lemma inv_history c m ls : forall q, race_history c m ls q -> inv ls q.
Proof.
  induction ls as [|l ls IH] using rev_ind; intros q H; unfold race_history in H.
  - injection H as <-. split; [|split].
    + unfold held, handed_out. cbn. replace (flat_map pending (repeat CIdle m)) with (@nil (nat * nat)); [constructor|]. induction m; [reflexivity|assumption].
    + unfold held, handed_out. cbn. intros p Hp. exfalso. induction m; [exact Hp|exact (IHm Hp)].
    + intros t p E. cbn in E. apply nth_error_In, repeat_spec in E. now subst.
  - rewrite race_run_snoc in H. destruct (race_run c (race0 m) ls) as [q1|] eqn:E; [|discriminate]. eapply inv_step; eauto.
Qed.

(** ** C105 *)
(** Whatever the other threads do: a call open_reader(read_size, strict_n, ignore_no_item_found)
    that returns, returns a reader with these defaults, and no reader is ever returned twice. *)
Theorem C105_open_reader_in_any_race :
  forall c m ls q, race_history c m ls q ->
  NoDup (handed_out q) /\
  forall t o info q' k r, race_step c q (QStep t o info) = Some q' -> q_out q' = q_out q ++ [(t, GotReader k r)] ->
    exists n st ig, asked ls t = Some (CallOpen n st ig) /\ has_defaults q' k r n st ig.
Proof.
  intros c m ls q H. pose proof (inv_history _ _ _ _ H) as I. split.
  - destruct I as (ND & _). unfold held in ND. clear - ND. induction (handed_out q) as [|x l IH]; [constructor|]. inversion ND; subst. constructor; [|now apply IH].
    intro. apply H1, in_app_iff. now left.
  - intros t o info q' k r S O. cbn [race_step] in S. destruct (nth_error (q_thr q) t) as [p|] eqn:Ht; [|discriminate].
    pose proof (proj2 (proj2 I) t p Ht) as A.
    assert (N : forall q1, q_out q1 = q_out q -> Some q1 = Some q' -> False).
    { intros q1 E1 E2. injection E2 as <-. rewrite O in E1. apply (f_equal (@length _)) in E1. rewrite app_length in E1. cbn in E1. lia. }
    assert (R : forall q1 o1, q_out q1 = q_out q -> Some (ret q1 t o1) = Some q' -> o1 = GotReader k r).
    { intros q1 o1 E1 E2. injection E2 as <-. cbn in O. rewrite E1 in O. apply app_inv_head in O. now injection O. }
    destruct p; cbn [client_step] in S; try discriminate.
    + exfalso. now apply N in S.
    + exfalso. now apply N in S.
    + exfalso. destruct (q_attr q); [|discriminate]. now apply N in S.
    + exfalso. destruct (sb_do c q k0 LStart) as [q1|] eqn:E; [|discriminate]. apply N in S; [easy|]. now apply sb_do_spec in E.
    + exfalso. destruct (sb_do c q k0 (LS o info)) as [q1|] eqn:E; [|discriminate]. apply sb_do_spec in E. destruct (nth_error (q_sbs q1) k0) as [s'|]; [|discriminate].
      destruct (lock_free s'); [destruct (raised s')|]; [apply R in S; [discriminate|tauto]|apply N in S; [easy|cbn; tauto]|apply N in S; [easy|tauto]].
    + exfalso. destruct (q_attr q); [|discriminate]. now apply N in S.
    + exfalso. destruct (sb_do c q k0 _) as [q1|] eqn:E; [|discriminate]. apply sb_do_spec in E. destruct (nth_error (q_sbs q1) k0) as [s'|]; [|discriminate].
      destruct (last _ _) as [| | | | | | | | | |[r1|e]| | | | | |]; try discriminate; [apply N in S; [easy|cbn; tauto]|apply R in S; [discriminate|tauto]].
    + exfalso. now apply N in S.
    + pose proof S as S1. apply R in S; [|reflexivity]. injection S as -> ->. injection S1 as <-. destruct A as (n & st & ig & A1 & A2). exists n, st, ig. split; [exact A1|exact A2].
    + exfalso. now apply N in S.
    + exfalso. now apply N in S.
    + exfalso. destruct (Z.leb (q_open q) 0); [now apply N in S|apply R in S; [discriminate|reflexivity]].
    + exfalso. destruct (q_attr q); [now apply N in S|apply R in S; [discriminate|reflexivity]].
    + exfalso. destruct (sb_do c q j LStop) as [q1|] eqn:E; [|discriminate]. apply sb_do_spec in E. destruct (nth_error (q_sbs q1) j) as [s'|]; [|discriminate].
      destruct (last _ _) as [| | | | | | | |[x|e]| | | | | | | |]; first [apply N in S; [easy|cbn; tauto]|apply R in S; [discriminate|tauto]].
    + exfalso. destruct (sb_do c q j LStopRet) as [q1|] eqn:E; [|discriminate]. apply sb_do_spec in E. apply R in S; [discriminate|tauto].
Qed.
Print Assumptions C105_open_reader_in_any_race.
(** Two threads, different arguments, interleaved step by step on a running source. *)
Example C105_nonvacuous :
  exists q, race_history rcfg 2 (openr 0 :: repeat (go 0) 10 ++ QCall 1 (CallOpen 3 true false) :: [go 1; go 1] ++ repeat (go 0) 1 ++ [go 1; go 0; go 1; go 0; go 1; go 0; go 0]) q /\
    handed_out q = [(0, 0); (0, 1)].
Proof. eexists. vm_compute. split; reflexivity. Qed.
