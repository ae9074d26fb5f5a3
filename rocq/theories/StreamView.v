(** * Every reader of a stream sees a sequential history of its buffer *)
From Coq Require Import List ZArith Bool Arith Lia.
From Verif Require Import PyVal PyLib PyValFacts SortedDequeM Spec SpecDeque SpecReader SpecLog ListFacts DequeFacts DequeSearch
  BufferReaderM BufferSysM LogFacts LogReads LogKeepUp StreamBufferM SpecStream StreamFacts StreamLife StreamInv.
Import ListNotations.

Definition bufd (d0 : sdeque) (s : sb) (j : nat) : sdeque := match buf_of s j with Some d => d | None => d0 end.
Definition rdl (s : sb) (r : nat) : list breader := match nth_error (sb_rds s) r with Some q => [rd_r q] | None => [] end.
Lemma view_app r j a b : view r j (a ++ b) = view r j a ++ view r j b.
Proof. apply flat_map_app. Qed.
Lemma next_poll d r : rval_is_none (VItem PNone) = true -> run (do_call d (CNext false)) r = run (read_for_next d) r.
Proof.
  intros _. unfold do_call, next_dunder, run, bindM. destruct (read_for_next d r) as [[t r1] [v|e]]; cbn.
  - rewrite andb_false_r. reflexivity.
  - reflexivity.
Qed.
Lemma sess_keep c s l s' r q q' : sb_step c s l = Some s' -> nth_error (sb_rds s) r = Some q -> nth_error (sb_rds s') r = Some q' ->
  rd_sess q' = rd_sess q \/ exists j, In (EAttach r (Ok j)) (sb_tr s').
Proof.
  intros H Hq Hq'. step_cases H; injection H as <-; proj; try (left; congruence);
    repeat match type of Hq' with
    | nth_error (set_nth _ _ _) _ = _ => apply nth_set_inv in Hq' as [(-> & -> & ? & ?)|(? & Hq')]
    | nth_error (_ ++ [_]) _ = _ => rewrite nth_error_app1 in Hq' by (eapply nth_lt; eauto)
    end; try (left; cbn; congruence).
  - right. eexists. apply in_or_app. right. left. reflexivity.
Qed.

Lemma rd_of_set (l : list rdr) n x r : match nth_error (set_nth l n x) r with Some q => [rd_r q] | None => [] end =
  if Nat.eqb n r then match nth_error l r with Some _ => [rd_r x] | None => [] end else match nth_error l r with Some q => [rd_r q] | None => [] end.
Proof. rewrite nth_error_set_nth. destruct (Nat.eqb_spec n r) as [->|]; [|reflexivity]. now destruct (nth_error l r). Qed.
Lemma rd_of_snoc (l : list rdr) x r : match nth_error (l ++ [x]) r with Some q => [rd_r q] | None => [] end =
  if Nat.eqb (length l) r then [rd_r x] else match nth_error l r with Some q => [rd_r q] | None => [] end.
Proof.
  rewrite nth_snoc. destruct (Nat.ltb_spec r (length l)) as [L|L].
  - destruct (Nat.eqb_spec (length l) r); [lia|reflexivity].
  - rewrite Nat.eqb_sym. destruct (Nat.eqb_spec (length l) r); [reflexivity|].
    now replace (nth_error l r) with (@None rdr) by (symmetry; apply nth_error_None; lia).
Qed.

Lemma view_call d0 s n q d c1 b v lo out ev r j : nth_error (sb_rds s) n = Some q -> buf_of s (rd_sess q) = Some d ->
  run (do_call d c1) (rd_r q) = (b, v) -> view_ev r j ev = (if Nat.eqb n r then [(LCall 0 c1, OVal v)] else []) ->
  (forall q, nth_error (sb_rds s) r = Some q -> rd_sess q = j) ->
  let s' := StreamBufferM.log (set_rds s (set_nth (sb_rds s) n (MkRdr (rd_sess q) (rd_ev q) (rd_info q) b lo out))) ev in
  bsys_run (MkBS (bufd d0 s j) (rdl s r)) (map fst (view r j [ev])) = (MkBS (bufd d0 s' j) (rdl s' r), map snd (view r j [ev])).
Proof.
  intros Hq Hd Hr Hv J s'. unfold view. cbn [flat_map]. rewrite app_nil_r, Hv. unfold rdl, s'. proj. rewrite rd_of_set.
  destruct (Nat.eqb_spec n r) as [->|N].
  - rewrite Hq. cbn [map fst snd bsys_run bsys_step s_rds s_buf nth_error]. unfold bufd, buf_of in *. proj. rewrite (J q Hq) in Hd. rewrite Hd, Hr. reflexivity.
  - reflexivity.
Qed.
(** The view of one step. *)
Lemma view_step c d0 s l s' r j : sd_init [] (c_key c) (c_maxlen c) = Ok d0 -> sinv s -> sb_step c s l = Some s' ->
  (forall q, nth_error (sb_rds s) r = Some q -> rd_sess q = j) -> (forall q, nth_error (sb_rds s') r = Some q -> rd_sess q = j) ->
  exists es, sb_tr s' = sb_tr s ++ es /\ length (view r j es) <= 1 /\
    bsys_run (MkBS (bufd d0 s j) (rdl s r)) (map fst (view r j es)) = (MkBS (bufd d0 s' j) (rdl s' r), map snd (view r j es)).
Proof.
  intros D0 I H J J'. pose proof (si_new _ I) as I3.
  assert (NONE : forall es, sb_tr s' = sb_tr s ++ es -> view r j es = [] -> bufd d0 s' j = bufd d0 s j -> rdl s' r = rdl s r ->
    exists es, sb_tr s' = sb_tr s ++ es /\ length (view r j es) <= 1 /\
    bsys_run (MkBS (bufd d0 s j) (rdl s r)) (map fst (view r j es)) = (MkBS (bufd d0 s' j) (rdl s' r), map snd (view r j es))).
  { intros es E1 E2 E3 E4. exists es. rewrite E2, E3, E4. cbn. auto. }
  assert (L1 : forall ev, length (view r j [ev]) <= 1).
  { intro ev. unfold view. cbn [flat_map]. rewrite app_nil_r. destruct ev as [| | | | |i k x u| | | |r' ? ? ? ? ?| | |[k|] n u|[r'|] cc o|r' cc o|r' o|]; cbn; try destruct (Nat.eqb _ _); cbn; lia. }
  assert (STAY : sb_tr s' = sb_tr s -> bufd d0 s' j = bufd d0 s j -> rdl s' r = rdl s r -> exists es, sb_tr s' = sb_tr s ++ es /\ length (view r j es) <= 1 /\
    bsys_run (MkBS (bufd d0 s j) (rdl s r)) (map fst (view r j es)) = (MkBS (bufd d0 s' j) (rdl s' r), map snd (view r j es))).
  { intros E1 E3 E4. apply (NONE []); auto. now rewrite app_nil_r. }
  assert (BU : forall d n f, (forall e, se_buf (f e) = se_buf e) -> 
     (match (match nth_error (upd (sb_ss s) n f) j with Some e => se_buf e | None => None end) with Some d => d | None => d end) =
     (match (match nth_error (sb_ss s) j with Some e => se_buf e | None => None end) with Some d => d | None => d end)).
  { intros d n f Hf. now rewrite buf_upd_id. }
  step_cases H; injection H as <-;
    try (apply STAY; [reflexivity|unfold bufd, buf_of; proj; auto|reflexivity]; fail);
    try (eapply NONE; [reflexivity|reflexivity|unfold bufd, buf_of; proj; rewrite ?buf_upd_id by reflexivity; reflexivity|reflexivity]; fail);
    try (eapply NONE; [proj; rewrite <- app_assoc; reflexivity|reflexivity|unfold bufd, buf_of; proj; rewrite ?buf_upd_id by reflexivity; reflexivity|reflexivity]; fail).
  - (* new session *)
    apply STAY; [reflexivity| |reflexivity]. unfold bufd, buf_of. proj. rewrite nth_snoc. destruct (Nat.ltb_spec j (length (sb_ss s))); [reflexivity|].
    replace (nth_error (sb_ss s) j) with (@None sess) by (symmetry; apply nth_error_None; lia).
    now destruct (Nat.eqb j (length (sb_ss s))).
  - (* build *)
    eapply NONE; [reflexivity|reflexivity| |reflexivity]. unfold bufd, buf_of. proj. rewrite buf_upd. destruct (Nat.eqb_spec (latest s) j) as [<-|N]; [|reflexivity].
    rewrite E0 in I3. destruct I3 as (e & He & _ & Hb). rewrite He, Hb. cbn. congruence.
  - (* mk_reader *)
    exists [ENew (length (sb_rds s)) n0 n p st ig; EMk (Ok (length (sb_rds s)))]. proj. rewrite <- app_assoc. split; [reflexivity|].
    split; [exact (L1 (ENew (length (sb_rds s)) n0 n p st ig))|].
    unfold view, rdl. cbn [flat_map view_ev]. proj. rewrite rd_of_snoc. rewrite !app_nil_r.
    destruct (Nat.eqb_spec (length (sb_rds s)) r) as [<-|N]; [|reflexivity].
    replace (nth_error (sb_rds s) (length (sb_rds s))) with (@None rdr) by (symmetry; apply nth_error_None; lia). reflexivity.
  - (* attach *)
    eapply NONE; [reflexivity|reflexivity|reflexivity|]. unfold rdl. proj. rewrite rd_of_set. cbn [rd_r].
    destruct (Nat.eqb_spec r0 r) as [->|]; [|reflexivity]. now rewrite E1.
  - (* next(stream), new reader *)
    exists [ENew (length (sb_rds s)) n 1 false false false]. proj. split; [reflexivity|]. split; [apply L1|].
    unfold view, rdl. cbn [flat_map view_ev]. proj. rewrite rd_of_snoc. rewrite !app_nil_r.
    destruct (Nat.eqb_spec (length (sb_rds s)) r) as [<-|N]; [|reflexivity].
    replace (nth_error (sb_rds s) (length (sb_rds s))) with (@None rdr) by (symmetry; apply nth_error_None; lia). reflexivity.
  - (* next(stream), the call *)
    eexists. split; [reflexivity|]. split; [apply L1|]. unfold set_nx in *. proj. eapply (view_call d0 s n0); eauto.
  - (* drop *)
    eexists. split; [reflexivity|]. split; [apply L1|]. unfold view. cbn [flat_map view_ev]. rewrite app_nil_r. unfold bufd, buf_of in *. proj. rewrite buf_upd.
    unfold rdl. proj. match goal with |- context [Nat.eqb ?n9 j] => destruct (Nat.eqb_spec n9 j) as [->|]; [|reflexivity] end.
    destruct (nth_error (sb_ss s) j) as [e|]; [|discriminate]. cbn [map fst snd bsys_run bsys_step s_buf s_rds w_buf se_buf].
    match goal with X : se_buf e = Some ?d9, Y : sd_drop ?d9 _ = _ |- _ => rewrite X, Y end. reflexivity.
  - (* reader call *)
    eexists. split; [reflexivity|]. split; [apply L1|]. eapply view_call; eauto.
  - (* poll *)
    eexists. split; [reflexivity|]. split; [apply L1|]. apply (view_call d0 s r0 r1 s0 (CNext false) b r2); auto. now rewrite next_poll.
  - eapply NONE; [proj; symmetry; apply app_nil_r|reflexivity|reflexivity|]. unfold rdl. proj. rewrite rd_of_set. cbn [rd_r].
    destruct (Nat.eqb_spec r0 r) as [->|]; [|reflexivity]. now rewrite E0.
  - eapply NONE; [proj; symmetry; apply app_nil_r|reflexivity|reflexivity|]. unfold rdl. proj. rewrite rd_of_set. cbn [rd_r].
    destruct (Nat.eqb_spec r0 r) as [->|]; [|reflexivity]. now rewrite E0.
  - (* append *)
    eexists. split; [reflexivity|]. split; [apply L1|]. unfold view. cbn [flat_map view_ev]. rewrite app_nil_r. unfold bufd, buf_of in *. proj.
    rewrite buf_upd_id by reflexivity. rewrite buf_upd.
    unfold rdl. proj. match goal with |- context [Nat.eqb ?n9 j] => destruct (Nat.eqb_spec n9 j) as [->|]; [|reflexivity] end.
    destruct (nth_error (sb_ss s) j) as [e9|]; [|discriminate]. cbn [map fst snd bsys_run bsys_step s_buf s_rds w_buf se_buf].
    match goal with X : se_buf e9 = Some ?d9, Y : sd_append ?d9 _ = _ |- _ => rewrite X, Y end. reflexivity.
  - apply STAY; [reflexivity| |reflexivity]. unfold bufd, buf_of, do_stop. proj. now rewrite !buf_upd_id by reflexivity.
Qed.

Lemma view_history c d0 ls s : history c ls s -> sd_init [] (c_key c) (c_maxlen c) = Ok d0 ->
  forall r j, never_attached r (sb_tr s) -> (forall q, nth_error (sb_rds s) r = Some q -> rd_sess q = j) ->
  bsys_run (MkBS d0 []) (map fst (view r j (sb_tr s))) = (MkBS (bufd d0 s j) (rdl s r), map snd (view r j (sb_tr s))).
Proof.
  intros H D0. revert ls s H. apply (sb_ind c (fun _ s => forall r j, never_attached r (sb_tr s) -> (forall q, nth_error (sb_rds s) r = Some q -> rd_sess q = j) ->
  bsys_run (MkBS d0 []) (map fst (view r j (sb_tr s))) = (MkBS (bufd d0 s j) (rdl s r), map snd (view r j (sb_tr s))))).
  - intros r j _ _. unfold bufd, buf_of, rdl. cbn. now destruct r, j.
  - intros ls s l s' Hh IH H r j NA J'.
    assert (J : forall q, nth_error (sb_rds s) r = Some q -> rd_sess q = j).
    { intros q Hq. assert (X : exists q', nth_error (sb_rds s') r = Some q').
      { apply nth_lt in Hq. assert (L : length (sb_rds s) <= length (sb_rds s')).
        { clear - H. step_cases H; injection H as <-; proj; rewrite ?set_nth_length, ?app_length; lia. }
        destruct (nth_error (sb_rds s') r) eqn:E; [eauto|]. apply nth_error_None in E. lia. }
      destruct X as (q' & Hq'). rewrite <- (J' q' Hq'). destruct (sess_keep c s l s' r q q' H Hq Hq') as [->|(k & X)]; [reflexivity|].
      exfalso. exact (NA k X). }
    destruct (view_step c d0 s l s' r j D0 (sinv_history c ls s Hh) H J J') as (es & Et & _ & Er).
    rewrite Et in *. rewrite view_app, !map_app, run_app, IH; [|intros k X; apply (NA k), in_or_app; now left|assumption].
    cbn [fst snd]. rewrite Er. reflexivity.
Qed.

(** The stream-level vocabulary is the view's. *)
Lemma accepted_view r j tr : accepted (map fst (view r j tr)) (map snd (view r j tr)) = accepted_by j tr.
Proof.
  unfold accepted_by. induction tr as [|e tr IH]; [reflexivity|]. unfold view in *. cbn [flat_map]. rewrite !map_app, accepted_app by (now rewrite !map_length).
  rewrite IH. f_equal. destruct e as [| | | | |i k x [[]|]| | | | | |r' []|[k|] n []|[r'|] cc []|r' cc []|r' []|]; cbn; try reflexivity; destruct (Nat.eqb _ _); reflexivity.
Qed.
Lemma got_view r j tr : got 0 (map fst (view r j tr)) (map snd (view r j tr)) = received r tr.
Proof.
  unfold received. induction tr as [|e tr IH]; [reflexivity|]. unfold view in *. cbn [flat_map]. rewrite !map_app, got_app by (now rewrite !map_length).
  rewrite IH. f_equal. destruct e as [| | | | |i k x [[]|]| | | | | |r' []|[k|] n []|[r'|] cc []|r' cc []|r' []|]; cbn; try reflexivity;
    destruct (Nat.eqb _ _); cbn; rewrite ?app_nil_r; try reflexivity; destruct a as [[]|]; reflexivity.
Qed.

(** ** For loops *)
Lemma last_poll_snoc r tr e : last_poll r (tr ++ [e]) =
  match e with EPoll r' o => if Nat.eqb r' r then Some o else last_poll r tr | _ => last_poll r tr end.
Proof.
  induction tr as [|x tr IH]; cbn [app last_poll]; [destruct e; auto; now destruct (Nat.eqb _ _)|]. rewrite IH.
  destruct e; auto; try (destruct (last_poll r tr); auto; fail). destruct (Nat.eqb _ _); auto.
Qed.
Lemma yielded_snoc r tr e : yielded r (tr ++ [e]) = yielded r tr ++ yielded r [e].
Proof. apply flat_map_app. Qed.
Definition loop_inv (s : sb) (r : nat) (q : rdr) : Prop :=
  rd_out q = yielded r (sb_tr s) /\
  match rd_loop q with
  | ItPoll => True
  | ItChk1 | ItChk2 => last_poll r (sb_tr s) = Some (Ok VNone)
  | ItEnd => (last_poll r (sb_tr s) = Some (Ok VNone) /\ ev_set s (rd_sess q) = true) \/ exists e, last_poll r (sb_tr s) = Some (Raise e)
  end.
Lemma is_none_val v : rval_is_none v = true -> v = VNone.
Proof. destruct v as [[]|]; cbn; try discriminate. reflexivity. Qed.
Lemma ev_set_mono c s l s' k : sb_step c s l = Some s' -> ev_set s k = true -> ev_set s' k = true.
Proof.
  intros H. unfold ev_set. destruct (nth_error (sb_ss s) k) as [e|] eqn:E; [|discriminate].
  destruct (step_sessions c s l s' H) as [M _]. destruct (M k e E) as (e' & -> & X). exact X.
Qed.
(** What a step does to the events of the for loop over [r] and to its record. *)
Lemma loop_other c s l s' r q : sb_step c s l = Some s' -> nth_error (sb_rds s) r = Some q -> l <> LIter r ->
  yielded r (sb_tr s') = yielded r (sb_tr s) /\ last_poll r (sb_tr s') = last_poll r (sb_tr s) /\
  exists q', nth_error (sb_rds s') r = Some q' /\ rd_out q' = rd_out q /\ rd_loop q' = rd_loop q.
Proof.
  intros H Hq N. step_cases H; injection H as <-; proj; rewrite ?yielded_snoc, ?last_poll_snoc; cbn [yielded flat_map]; rewrite ?app_nil_r;
    try (repeat split; eauto; fail).
  all: try (repeat split; [try reflexivity..|]; rewrite ?nth_error_set_nth, ?nth_snoc;
    repeat match goal with |- context [Nat.eqb ?a ?b] => destruct (Nat.eqb_spec a b) as [?|?] | |- context [Nat.ltb ?a ?b] => destruct (Nat.ltb_spec a b) end;
    rewrite ?Hq; try (apply nth_lt in Hq; lia); try (eexists; split; [reflexivity|]; cbn; split; congruence); eauto; fail).
  destruct (Nat.eqb_spec r0 r) as [->|NR]; [exfalso; now apply N|]. rewrite nth_error_set_nth.
  destruct (Nat.eqb_spec r0 r); [congruence|]. repeat split; eauto. destruct r2; apply app_nil_r.
Qed.
Lemma loop_step c s l s' r q' : (forall q, nth_error (sb_rds s) r = Some q -> rd_ev q = rd_sess q) -> sb_step c s l = Some s' -> never_attached r (sb_tr s') -> nth_error (sb_rds s') r = Some q' ->
  (forall q, nth_error (sb_rds s) r = Some q -> loop_inv s r q) -> (nth_error (sb_rds s) r = None -> yielded r (sb_tr s) = [] /\ last_poll r (sb_tr s) = None) ->
  loop_inv s' r q'.
Proof.
  intros RE H NA Hq' IH NEW. destruct (nth_error (sb_rds s) r) as [q|] eqn:Hq.
  - specialize (IH q eq_refl). specialize (RE q eq_refl). assert (D : l = LIter r \/ l <> LIter r).
    { destruct l as [| | | | | | | | | | | | |r0|]; try (right; discriminate). destruct (Nat.eq_dec r0 r) as [->|]; [now left|right; congruence]. }
    destruct D as [->|N].
    + pose proof (fun k => ev_set_mono c s _ s' k H) as EM. cbn in H. unfold iter_step in H. rewrite Hq in H. cbn zeta in H. destruct IH as [IO IL].
      destruct (rd_loop q) eqn:EL.
      * destruct (buf_of s (rd_sess q)) as [d|]; [|discriminate]. destruct (run (read_for_next d) (rd_r q)) as [br o].
        destruct (match o with Ok v => _ | Raise _ => _ end) as [lo out] eqn:EO. injection H as <-. proj.
        rewrite nth_error_set_nth, Nat.eqb_refl, Hq in Hq'. injection Hq' as <-. unfold loop_inv. proj. cbn [rd_out rd_loop rd_sess].
        rewrite yielded_snoc, last_poll_snoc, Nat.eqb_refl. cbn [yielded flat_map]. rewrite Nat.eqb_refl, app_nil_r.
        destruct o as [v|e].
        -- destruct (rval_is_none v) eqn:EV; injection EO as <- <-; cbn [andb negb]; rewrite ?app_nil_r; [|split; [congruence|exact Logic.I]].
           rewrite (is_none_val v EV). auto.
        -- injection EO as <- <-. rewrite app_nil_r. eauto.
      * injection H as <-. proj. rewrite nth_error_set_nth, Nat.eqb_refl, Hq in Hq'. injection Hq' as <-. unfold loop_inv. proj. cbn [rd_out rd_loop rd_sess].
        rewrite RE. split; [assumption|]. unfold ev_set in *. proj. destruct (match nth_error (sb_ss s) (rd_sess q) with Some e => se_set e | None => false end) eqn:EV; auto.
      * injection H as <-. proj. rewrite nth_error_set_nth, Nat.eqb_refl, Hq in Hq'. injection Hq' as <-. unfold loop_inv. proj. cbn [rd_out rd_loop rd_sess].
        rewrite RE. split; [assumption|]. unfold ev_set in *. proj. destruct (match nth_error (sb_ss s) (rd_sess q) with Some e => se_set e | None => false end) eqn:EV; auto.
      * discriminate.
    + destruct (loop_other c s l s' r q H Hq N) as (E1 & E2 & q1 & Hq1 & E3 & E4). assert (q1 = q') by congruence. subst q1.
      destruct (sess_keep c s l s' r q q' H Hq Hq') as [ES|(k & X)]; [|exfalso; exact (NA k X)].
      unfold loop_inv in *. rewrite E1, E2, E3, E4, ES. destruct IH as [I1 I2]. split; [assumption|].
      destruct (rd_loop q); auto. destruct I2 as [[A B]|X]; [left|now right]. split; [assumption|]. eapply ev_set_mono; eauto.
  - destruct (NEW eq_refl) as [N1 N2]. clear IH NEW NA.
    assert (LR : length (sb_rds s) <= r) by (now apply nth_error_None).
    step_cases H; injection H as <-; proj; rewrite ?yielded_snoc, ?last_poll_snoc; try congruence;
      repeat match type of Hq' with
      | nth_error (set_nth _ _ _) _ = _ => apply nth_set_inv in Hq' as [(-> & -> & ? & ?)|(? & Hq')]
      | nth_error (_ ++ [_]) _ = _ => apply nth_snoc_inv in Hq' as [Hq'|(-> & ->)]
      end; try congruence.
    + unfold loop_inv. proj. cbn [rd_out rd_loop mk_rdr]. rewrite !yielded_snoc, N1. auto.
    + unfold loop_inv. proj. cbn [rd_out rd_loop mk_rdr]. rewrite !yielded_snoc, N1. auto.
Qed.
Lemma no_reader_no_poll c ls s : history c ls s -> forall r, nth_error (sb_rds s) r = None -> yielded r (sb_tr s) = [] /\ last_poll r (sb_tr s) = None.
Proof.
  intro H. revert ls s H. apply (sb_ind c (fun _ s => forall r, nth_error (sb_rds s) r = None -> yielded r (sb_tr s) = [] /\ last_poll r (sb_tr s) = None)).
  - auto.
  - intros ls s l s' Hh IH H r Hr. specialize (IH r).
    assert (L : nth_error (sb_rds s) r = None).
    { apply nth_error_None in Hr. apply nth_error_None. assert (L : length (sb_rds s) <= length (sb_rds s')).
      { clear - H. step_cases H; injection H as <-; proj; rewrite ?set_nth_length, ?app_length; lia. } lia. }
    destruct (IH L) as [I1 I2]. clear IH.
    step_cases H; injection H as <-; proj; rewrite ?yielded_snoc, ?last_poll_snoc, ?I1, ?I2; cbn [yielded flat_map]; auto.
    destruct (Nat.eqb_spec r0 r) as [->|]; [congruence|]. cbn [andb]. now destruct r2.
Qed.
Lemma loop_history c ls s : history c ls s -> forall r q, never_attached r (sb_tr s) -> nth_error (sb_rds s) r = Some q -> loop_inv s r q.
Proof.
  intro H. revert ls s H. apply (sb_ind c (fun _ s => forall r q, never_attached r (sb_tr s) -> nth_error (sb_rds s) r = Some q -> loop_inv s r q)).
  - intros [|r] q _ E; discriminate.
  - intros ls s l s' Hh IH H r q NA Hq. eapply loop_step; [intros q0 Hq0; exact (rd_ev_sess c ls s Hh r q0 Hq0)|eauto..| |].
    + intros q0 Hq0. apply IH; [|assumption]. intros k X. apply (NA k).
      clear - X H. step_cases H; injection H as <-; proj; repeat rewrite in_app_iff; auto.
    + now apply (no_reader_no_poll c ls s Hh).
Qed.
