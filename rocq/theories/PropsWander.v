(** * A reader attached to several streams: C116 *)
From Coq Require Import List ZArith Bool Arith Lia Sorted.
From Verif Require Import PyVal PyLib PyValFacts SortedDequeM Spec SpecDeque SpecReader SpecLog ListFacts Families DequeFacts DequeSearch
  BufferReaderM BufferSysM ReaderFacts LogFacts LogReads StreamBufferM SpecStream StreamFacts StreamLife StreamInv StreamView StreamReads StreamMore StreamSuffix
  StreamAttach ReaderLoops PropsReader PropsStream PropsStreamRead PropsSession WanderM.
Import ListNotations.
Open Scope nat_scope.

(** ** Specification *)
Definition w_history (cs : nat -> cfg) (ls : list wlabel) (w : world) : Prop := w_run cs world0 ls = Some w.
(** What stream [k] does. *)
Definition steps_of (k : nat) (ls : list wlabel) : list label :=
  flat_map (fun l => match l with WStep i l => if i =? k then [l] else [] | _ => [] end) ls.
(** The items the reader has received; the streams that made it or that it was attached to. *)
Definition w_got (tr : list wev) : list pyval := flat_map (fun e => match e with WGot _ (Ok v) => SpecStream.items_of v | _ => [] end) tr.
Definition visited (k : nat) (tr : list wev) : Prop := In (WMade k (Ok tt)) tr \/ In (WAttached k (Ok tt)) tr.
(** The reader only moves forward: read and next, no peeking. *)
Definition only_forward (ls : list wlabel) : Prop := forall l, In l ls ->
  match l with
  | WMk _ _ p _ _ => p = false
  | WCall (CRead a) => dflt (a_peek a) false = false
  | WCall (CNext _) => True
  | WCall _ => False
  | _ => True
  end.
(** What it visits has keys of one family, from one key function. *)
Definition same_keys (P : pyval -> Prop) (key : pyval -> res pyval) (cs : nat -> cfg) (w : world) : Prop :=
  forall k, visited k (w_tr w) -> c_key (cs k) = key /\ stream_keys_in P (cs k) (sb_tr (w_ss w k)).

(** ** Lemmas *)
Lemma w_run_app cs a b : forall w, w_run cs w (a ++ b) = match w_run cs w a with Some m => w_run cs m b | None => None end.
Proof. induction a as [|l a IH]; intro w; cbn [app w_run]; [reflexivity|]. destruct (w_step cs w l); [apply IH|reflexivity]. Qed.
Lemma w_ind cs (P : list wlabel -> world -> Prop) : P [] world0 ->
  (forall ls w l w', w_history cs ls w -> P ls w -> w_step cs w l = Some w' -> P (ls ++ [l]) w') -> forall ls w, w_history cs ls w -> P ls w.
Proof.
  intros P0 PS ls. induction ls as [|l ls IH] using rev_ind; intros w H; [injection H as <-; exact P0|].
  unfold w_history in H. rewrite w_run_app in H. destruct (w_run cs world0 ls) as [m|] eqn:E; [|discriminate]. cbn [w_run] in H.
  destruct (w_step cs m l) as [m'|] eqn:F; [|discriminate]. injection H as ->. eapply PS; eauto.
Qed.
Lemma steps_app k a b : steps_of k (a ++ b) = steps_of k a ++ steps_of k b.
Proof. apply flat_map_app. Qed.
Lemma w_got_app a b : w_got (a ++ b) = w_got a ++ w_got b.
Proof. apply flat_map_app. Qed.
(* a step of the world: of one stream, or of the reader *)
Lemma w_cases cs w l w' : w_step cs w l = Some w' ->
  (exists k l0 s, l = WStep k l0 /\ sb_step (cs k) (w_ss w k) l0 = Some s /\ w' = MkW (set_stream (w_ss w) k s) (w_rd w) (w_tr w)) \/
  (exists es, w_ss w' = w_ss w /\ w_tr w' = w_tr w ++ es /\ forall k, steps_of k [l] = []).
Proof.
  destruct l as [k l|k n p st ig|k|c]; cbn [w_step]; intro H.
  - left. destruct (sb_step (cs k) (w_ss w k) l) as [s|] eqn:E; [|discriminate]. injection H as <-. eauto 10.
  - right. destruct (w_rd w); [discriminate|]. destruct (lock_free _); [|discriminate]. destruct (sb_cur _); injection H as <-; eexists; cbn; auto.
  - right. destruct (w_rd w); [|discriminate]. destruct (lock_free _); [|discriminate]. destruct (sb_cur _); injection H as <-; eexists; cbn; auto.
  - right. destruct (w_rd w) as [q|]; [|discriminate]. destruct (buf_of _ _) as [d|]; [|discriminate]. cbn zeta in H. destruct (run _ _). injection H as <-. eexists; cbn; auto.
Qed.

(** ** C116 *)
(** The streams do not notice the reader: each runs as without it, so all that holds of the
    histories of a stream holds of each. *)
Theorem C116_streams_unaware :
  forall cs ls w, w_history cs ls w -> forall k, history (cs k) (steps_of k ls) (w_ss w k).
Proof.
  intros cs. apply (w_ind cs (fun ls w => forall k, history (cs k) (steps_of k ls) (w_ss w k))); [intro k; reflexivity|].
  intros ls w l w' _ IH H k. rewrite steps_app. destruct (w_cases _ _ _ _ H) as [(i & l0 & s & -> & E & ->)|(es & E & _ & N)].
  - cbn [steps_of flat_map w_ss]. unfold set_stream. destruct (Nat.eqb_spec i k) as [->|].
    + rewrite Nat.eqb_refl. unfold history. apply sb_run_snoc. exists (w_ss w k). split; [apply IH|exact E].
    + rewrite (proj2 (Nat.eqb_neq k i)) by congruence. rewrite !app_nil_r. apply IH.
  - rewrite N, app_nil_r, E. apply IH.
Qed.
Print Assumptions C116_streams_unaware.

Definition w_inv (P : pyval -> Prop) (key : pyval -> res pyval) (w : world) : Prop :=
  match w_rd w with
  | None => w_got (w_tr w) = []
  | Some q => rk_peek (wr_r q) = false /\ at_cursor P key (w_got (w_tr w)) (wr_r q) /\ visited (wr_stream q) (w_tr w) /\ has_buf (w_ss w (wr_stream q)) (wr_sess q)
  end /\
  forall x, In x (w_got (w_tr w)) -> exists k j, In x (accepted_by j (sb_tr (w_ss w k))).
Lemma visited_app k a b : visited k a -> visited k (a ++ b).
Proof. intros [H|H]; [left|right]; apply in_or_app; auto. Qed.
Lemma w_grows cs w l w' k : w_step cs w l = Some w' -> (exists es, sb_tr (w_ss w' k) = sb_tr (w_ss w k) ++ es) /\ (exists es, w_tr w' = w_tr w ++ es).
Proof.
  intro H. destruct (w_cases _ _ _ _ H) as [(i & l0 & s & -> & E & ->)|(es & E & T & _)].
  - cbn [w_ss w_tr]. unfold set_stream. destruct (step_trace _ _ _ _ E) as (es & X). split; [|exists []; now rewrite app_nil_r].
    destruct (Nat.eqb_spec k i) as [->|]; [eauto|exists []; now rewrite app_nil_r].
  - rewrite E, T. split; [exists []; now rewrite app_nil_r|eauto].
Qed.
Lemma same_keys_back P key cs w l w' : w_step cs w l = Some w' -> same_keys P key cs w' -> same_keys P key cs w.
Proof.
  intros H K k V. destruct (w_grows _ _ _ _ k H) as ((es & E) & (es2 & T)). destruct (K k) as (A & B); [rewrite T; now apply visited_app|]. split; [exact A|].
  rewrite E in B. eapply sk_app, B.
Qed.
Lemma w_inv_all P key cs ls w : total_family P -> w_history cs ls w -> same_keys P key cs w -> only_forward ls -> w_inv P key w.
Proof.
  intros F H. revert ls w H. apply (w_ind cs (fun ls w => same_keys P key cs w -> only_forward ls -> w_inv P key w)).
  - intros _ _. split; [reflexivity|intros x []].
  - intros ls w l w' Hh IH H K OF. pose proof (same_keys_back _ _ _ _ _ _ H K) as K0.
    assert (OF0 : only_forward ls) by (intros x X; apply OF, in_or_app; now left). destruct (IH K0 OF0) as [I SR]. clear IH.
    assert (FL := OF l ltac:(apply in_or_app; right; now left)).
    assert (SRB : forall x, In x (w_got (w_tr w)) -> exists k j, In x (accepted_by j (sb_tr (w_ss w' k)))).
    { intros x X. destruct (SR x X) as (k & j & Y). exists k, j. destruct (w_grows _ _ _ _ k H) as ((es & E) & _). rewrite E, acc_app. apply in_or_app. now left. }
    pose proof (C116_streams_unaware cs ls w Hh) as HS.
    destruct l as [k l|k n p st ig|k|c]; cbn [w_step] in H.
    + destruct (sb_step (cs k) (w_ss w k) l) as [s|] eqn:E; [|discriminate]. injection H as <-. split; [|exact SRB]. cbn [w_rd w_tr w_ss]. destruct (w_rd w) as [q|]; [|exact I].
      destruct I as (I1 & I2 & I3 & I4). split; [exact I1|]. split; [exact I2|]. split; [exact I3|]. unfold set_stream. destruct (Nat.eqb_spec (wr_stream q) k) as [X|]; [|exact I4].
      rewrite X in I4. eapply step_has_buf; eauto.
    + destruct (w_rd w); [discriminate|]. destruct (lock_free _); [|discriminate]. destruct (sb_cur (w_ss w k)) as [j|] eqn:C; injection H as <-; cbn [w_tr w_ss w_rd] in *.
      * split; cbn [w_tr w_ss w_rd wr_r wr_stream wr_sess]; rewrite w_got_app, I; [|intros x []]. split; [exact FL|]. split; [split; [constructor|split; reflexivity]|].
        split; [left; apply in_or_app; right; now left|]. exact (proj2 (si_cur _ (sinv_history _ _ _ (HS k)) j C)).
      * split; cbn [w_tr w_rd]; rewrite w_got_app, I; [reflexivity|intros x []].
    + destruct (w_rd w) as [q|]; [|discriminate]. destruct (lock_free _); [|discriminate]. destruct I as (I1 & I2 & I3 & I4).
      destruct (sb_cur (w_ss w k)) as [j|] eqn:C; injection H as <-; unfold w_inv; cbn [w_tr w_ss w_rd wr_r wr_stream wr_sess] in *; rewrite w_got_app; cbn [w_got flat_map]; rewrite app_nil_r; (split; [|exact SRB]).
      * split; [exact I1|]. split; [exact I2|]. split; [right; apply in_or_app; right; now left|]. exact (proj2 (si_cur _ (sinv_history _ _ _ (HS k)) j C)).
      * split; [exact I1|]. split; [exact I2|]. split; [now apply visited_app|exact I4].
    + destruct (w_rd w) as [q|]; [|discriminate]. destruct I as (I1 & I2 & I3 & I4). destruct I4 as (d & D). rewrite D in H. cbn zeta in H.
      set (c1 := with_stopped _ c) in H. destruct (run (do_call d c1) (wr_r q)) as [br v] eqn:R. injection H as <-. cbn [w_tr w_ss w_rd] in *.
      destruct (K0 _ I3) as (EK & KI). destruct (stream_buffer_in P _ _ _ _ d (HS (wr_stream q)) KI D) as (BI & SK & NN & SUB). rewrite EK in SK.
      assert (FC : forward_call c1) by (unfold c1; destruct c; cbn in *; auto).
      destruct (forward_shape P d c1 (wr_r q) F (buffer_bok P d BI) (at_cursor_in _ _ _ _ I2) NN I1 FC) as (m & E1 & E2). rewrite R in E1, E2. cbn [fst snd] in E1, E2. rewrite got_items in E2.
      unfold w_inv; cbn [w_tr w_ss w_rd wr_r wr_stream wr_sess]. rewrite w_got_app. cbn [w_got flat_map]. rewrite app_nil_r.
      replace (match v with Ok v0 => SpecStream.items_of v0 | Raise _ => [] end) with (firstn m (unseen key (wr_r q) (sd_items d))) by (rewrite <- SK; symmetry; exact E2).
      rewrite E1, SK. split.
      * split; [now rewrite moved_peek|]. split; [apply (at_cursor_moves P F key _ _ _ _ I2 (buffer_bok P d BI) SK)|]. split; [now apply visited_app|]. exists d. exact D.
      * intros x X. apply in_app_or in X as [X|X]; [exact (SRB x X)|]. apply firstn_in, unseen_in in X. exists (wr_stream q), (wr_sess q). apply SUB, X.
Qed.

(** Wherever the reader is attached, it never gives an item twice, nor one that does not come
    after all it gave before; what it gives was added to one of the streams; and next(reader)
    is the first item of the buffer it is attached to that comes after all it gave. If there
    is none, what counts is whether that stream has stopped, not those it was attached to before. *)
Theorem C116_goes_on :
  forall P key, total_family P -> forall cs ls w, w_history cs ls w -> same_keys P key cs w -> only_forward ls ->
  strictly_ordered key (w_got (w_tr w)) /\
  (forall x, In x (w_got (w_tr w)) -> exists k j, In x (accepted_by j (sb_tr (w_ss w k)))) /\
  forall q, w_rd w = Some q -> exists d, buf_of (w_ss w (wr_stream q)) (wr_sess q) = Some d /\
  forall b, exists w' o,
    w_step cs w (WCall (CNext b)) = Some w' /\ w_ss w' = w_ss w /\ (exists b', w_tr w' = w_tr w ++ [WGot (CNext b') o]) /\
    let new := not_got_yet key (w_got (w_tr w)) (sd_list d) in
    match new with
    | [] => o = if ev_set (w_ss w (wr_stream q)) (wr_sess q) then Raise StopIteration else Ok VNone
    | x :: _ => ((rk_n (wr_r q) <= 1)%Z -> o = Ok (VItem x)) /\
                ((1 < rk_n (wr_r q))%Z -> rk_strict (wr_r q) = false -> o = Ok (VList (firstn (Z.to_nat (rk_n (wr_r q))) new)))
    end.
Proof.
  intros P key F cs ls w H K OF. destruct (w_inv_all P key cs ls w F H K OF) as [I SR]. split.
  - destruct (w_rd w); [apply I|rewrite I; constructor].
  - split; [assumption|]. intros q Hq. rewrite Hq in I. destruct I as (HP & AC & V & (d & Hd)). exists d. split; [exact Hd|]. intro b.
    destruct (K _ V) as (EK & KI). pose proof (C116_streams_unaware cs ls w H) as HS.
    destruct (stream_buffer_in P _ _ _ _ d (HS (wr_stream q)) KI Hd) as (BI & SK & NN & _). rewrite EK in SK.
    pose proof (C33_next_protocol P F d BI NN (wr_r q) (at_cursor_in _ _ _ _ AC) (ev_set (w_ss w (wr_stream q)) (wr_sess q))) as X. cbn zeta in X.
    change (sd_list d) with (sd_items d) in *. rewrite SK, (at_cursor_unseen P _ _ _ d F AC (buffer_bok P d BI) SK) in X. destruct X as (X1 & X2 & X3 & _).
    cbn [w_step]. rewrite Hq, Hd. cbn zeta. cbn [with_stopped do_call]. destruct (run (next_dunder d (ev_set (w_ss w (wr_stream q)) (wr_sess q))) (wr_r q)) as [br v] eqn:ER.
    eexists _, v. split; [reflexivity|]. split; [reflexivity|]. split; [eexists; reflexivity|]. cbn [snd] in *.
    destruct (not_got_yet key (w_got (w_tr w)) (sd_items d)) as [|x new] eqn:EN.
    + specialize (X1 eq_refl). injection X1 as _ ->. reflexivity.
    + split; [intro L; exact (X2 ltac:(discriminate) L)|]. intros L S. exact (X3 ltac:(discriminate) L S).
Qed.
Print Assumptions C116_goes_on.

(** [source_reader_info] is that of the session the reader was made in, whatever it is attached
    to later. *)
Theorem C116_info_stays :
  forall cs ls w ls' w' q, w_history cs ls w -> w_rd w = Some q -> w_run cs w ls' = Some w' ->
  exists q', w_rd w' = Some q' /\ wr_info q' = wr_info q.
Proof.
  intros cs ls w ls' w' q _. revert w q. induction ls' as [|l ls' IH]; intros w q Q R; cbn [w_run] in R; [injection R as <-; eauto|].
  destruct (w_step cs w l) as [m|] eqn:E; [|discriminate].
  assert (X : exists u, w_rd m = Some u /\ wr_info u = wr_info q).
  { destruct l as [k l|k n p st ig|k|c]; cbn [w_step] in E; rewrite ?Q in E; try discriminate.
    - destruct (sb_step (cs k) (w_ss w k) l); [|discriminate]. injection E as <-. exists q. cbn. auto.
    - destruct (lock_free _); [|discriminate]. destruct (sb_cur _); injection E as <-; cbn [w_rd]; eexists; split; reflexivity.
    - destruct (buf_of _ _) as [d|]; [|discriminate]. cbn zeta in E. destruct (run _ _). injection E as <-. cbn. eauto. }
  destruct X as (u & U & I). destruct (IH m u U R) as (q' & Q' & I'). exists q'. split; [exact Q'|congruence].
Qed.
Print Assumptions C116_info_stays.

(** A reader of a single stream is such a reader: one that is made, attached and called as
    reader [r] of a history of [StreamBufferM] is made, attached and called gets what [r]
    gets, ends with the same cursor, and is at the same session. *)
(** The calls on [r], each followed by the same on the other reader. [n]: readers made so far. *)
Fixpoint mirrored (c : cfg) (r : nat) (s : sb) (ls : list label) : list wlabel :=
  match ls with
  | [] => []
  | l :: q =>
      match sb_step c s l with
      | None => []
      | Some s' =>
          WStep 0 l ::
          (if (length (sb_rds s) =? r) && (length (sb_rds s') =? S r) then
             match l with
             | StreamBufferM.LMk n p st ig => [WMk 0 n p st ig]
             | _ => [WMk 0 1 false false false]
             end
           else match l with
                | LAttach k => if k =? r then [WAttach 0] else []
                | LCallR k cl => if k =? r then [WCall cl] else []
                | _ => []
                end) ++
          mirrored c r s' q
      end
  end.
(** What [r] got, call by call. *)
Definition answers (r : nat) (tr : list ev) : list (call * res rval) := flat_map (fun e => match e with ECall k c o => if k =? r then [(c, o)] else [] | _ => [] end) tr.
Definition w_answers (tr : list wev) : list (call * res rval) := flat_map (fun e => match e with WGot c o => [(c, o)] | _ => [] end) tr.
Definition w_as (r : nat) (s : sb) (w : world) : Prop :=
  w_ss w 0 = s /\ w_answers (w_tr w) = answers r (sb_tr s) /\
  match nth_error (sb_rds s) r, w_rd w with
  | Some q, Some u => wr_stream u = 0 /\ wr_sess u = rd_sess q /\ wr_info u = rd_info q /\ wr_r u = rd_r q
  | None, None => True
  | _, _ => False
  end.
Lemma answers_app r a b : answers r (a ++ b) = answers r a ++ answers r b.
Proof. apply flat_map_app. Qed.
Lemma w_answers_app a b : w_answers (a ++ b) = w_answers a ++ w_answers b.
Proof. apply flat_map_app. Qed.
Definition chunk (r : nat) (s s' : sb) (l : label) : list wlabel :=
  WStep 0 l ::
  (if (length (sb_rds s) =? r) && (length (sb_rds s') =? S r) then
     match l with StreamBufferM.LMk n p st ig => [WMk 0 n p st ig] | _ => [WMk 0 1 false false false] end
   else match l with
        | LAttach k => if k =? r then [WAttach 0] else []
        | LCallR k cl => if k =? r then [WCall cl] else []
        | _ => []
        end).
Lemma as_same r s s' w es : w_as r s w -> sb_rds s' = sb_rds s -> sb_tr s' = sb_tr s ++ es -> answers r es = [] ->
  w_as r s' (MkW (set_stream (w_ss w) 0 s') (w_rd w) (w_tr w)).
Proof. intros (A & B & C) E T N. split; [reflexivity|]. cbn [w_tr w_rd]. rewrite T, answers_app, N, app_nil_r, E. auto. Qed.
(* a call on another reader, or another new reader *)
Lemma as_other r s s' w es : w_as r s w -> nth_error (sb_rds s') r = nth_error (sb_rds s) r -> sb_tr s' = sb_tr s ++ es -> answers r es = [] ->
  w_as r s' (MkW (set_stream (w_ss w) 0 s') (w_rd w) (w_tr w)).
Proof. intros (A & B & C) E T N. split; [reflexivity|]. cbn [w_tr w_rd]. rewrite T, answers_app, N, app_nil_r, E. auto. Qed.
Lemma as_made r s s' w es q n p st ig : w_as r s w -> length (sb_rds s) = r -> sb_rds s' = sb_rds s ++ [q] -> sb_cur s' = Some (rd_sess q) -> rd_info q = info_of s' (rd_sess q) -> rd_r q = mk_breader n p st ig ->
  lock_free s' = true -> sb_tr s' = sb_tr s ++ es -> answers r es = [] ->
  exists w', w_run (fun _ => MkCfg (fun _ => Raise TypeError) None PNone) (MkW (set_stream (w_ss w) 0 s') (w_rd w) (w_tr w)) [WMk 0 n p st ig] = Some w' /\ w_as r s' w'.
Proof.
  intros (A & B & C) L E CU EI ER LF T N.
  assert (X : nth_error (sb_rds s) r = None) by (apply nth_error_None; lia). rewrite X in C. destruct (w_rd w) eqn:W; [destruct C|].
  cbn [w_run w_step w_rd w_ss set_stream Nat.eqb]. rewrite LF, CU. eexists. split; [reflexivity|]. split; [reflexivity|]. cbn [w_tr w_rd]. rewrite w_answers_app, T, answers_app, N, B. cbn [w_answers flat_map].
  split; [reflexivity|]. rewrite E, nth_error_app2 by lia. replace (r - length (sb_rds s)) with 0 by lia. cbn [nth_error wr_stream wr_sess wr_info wr_r]. auto.
Qed.
Lemma as_step c r ls s l s' w : history c ls s -> w_as r s w -> sb_step c s l = Some s' -> (forall k, l = LIter k -> k <> r) -> (forall cl o, ~ In (ENext (Some r) cl o) (sb_tr s')) ->
  exists w', w_run (fun _ => c) w (chunk r s s' l) = Some w' /\ w_as r s' w'.
Proof.
  intros Hh A H NI NN. pose proof A as (A1 & A2 & A3). unfold chunk. cbn [w_run w_step]. rewrite A1, H. cbn [option_map].
  assert (PLAIN : sb_rds s' = sb_rds s -> (exists es, sb_tr s' = sb_tr s ++ es /\ answers r es = []) -> match l with LAttach _ | LCallR _ _ => False | _ => True end ->
     exists w', w_run (fun _ => c) (MkW (set_stream (w_ss w) 0 s') (w_rd w) (w_tr w)) (if (length (sb_rds s) =? r) && (length (sb_rds s') =? S r) then match l with StreamBufferM.LMk n p st ig => [WMk 0 n p st ig] | _ => [WMk 0 1 false false false] end
       else match l with LAttach k => if k =? r then [WAttach 0] else [] | LCallR k cl => if k =? r then [WCall cl] else [] | _ => [] end) = Some w' /\ w_as r s' w').
  { intros E (es & T & N) Q. rewrite E. replace ((length (sb_rds s) =? r) && (length (sb_rds s) =? S r)) with false by (symmetry; destruct (Nat.eqb_spec (length (sb_rds s)) r); [cbn; apply Nat.eqb_neq; lia|reflexivity]).
    replace (match l with LAttach k => if k =? r then [WAttach 0] else [] | LCallR k cl => if k =? r then [WCall cl] else [] | _ => [] end) with (@nil wlabel) by (destruct l; auto; destruct Q).
    cbn [w_run]. eexists. split; [reflexivity|]. eapply as_same; eauto. }
  assert (NEW : forall q es n p st ig, sb_rds s' = sb_rds s ++ [q] -> sb_cur s' = Some (rd_sess q) -> rd_info q = info_of s' (rd_sess q) -> rd_r q = mk_breader n p st ig ->
     lock_free s' = true -> sb_tr s' = sb_tr s ++ es -> answers r es = [] ->
     exists w', w_run (fun _ => c) (MkW (set_stream (w_ss w) 0 s') (w_rd w) (w_tr w)) (if (length (sb_rds s) =? r) && (length (sb_rds s') =? S r) then [WMk 0 n p st ig] else []) = Some w' /\ w_as r s' w').
  { intros q es n p st ig E CU EI ER LF T N. destruct (Nat.eqb_spec (length (sb_rds s)) r) as [L|L]; cbn [andb].
    - rewrite E, app_length. cbn [length]. replace (length (sb_rds s) + 1 =? S r) with true by (symmetry; apply Nat.eqb_eq; lia).
      exact (as_made r s s' w es q n p st ig A L E CU EI ER LF T N).
    - cbn [w_run]. eexists. split; [reflexivity|]. eapply as_other; eauto. rewrite E.
      destruct (Nat.lt_ge_cases r (length (sb_rds s))) as [X|X]; [now rewrite nth_error_app1|]. rewrite nth_error_app2 by exact X. rewrite (proj2 (nth_error_None (sb_rds s) r)) by exact X. apply nth_error_None. cbn. lia. }
  assert (SAMELEN : length (sb_rds s') = length (sb_rds s) -> (length (sb_rds s) =? r) && (length (sb_rds s') =? S r) = false).
  { intros ->. destruct (Nat.eqb_spec (length (sb_rds s)) r); [cbn; apply Nat.eqb_neq; lia|reflexivity]. }
  destruct l as [|o v| | |n p st ig|k| | |n|k|k|k|k cl|k|i o].
  all: try (apply PLAIN; [| |exact Logic.I]; clear PLAIN NEW SAMELEN; step_cases H; try discriminate; injection H as H; rewrite <- H; proj; try reflexivity; rewrite <- ?app_assoc; try (eexists; split; [reflexivity|reflexivity]); (exists []; split; [now rewrite app_nil_r|reflexivity])).
  - (* mk_reader *)
    cbn [sb_step] in H. destruct (lock_free s) eqn:LF; [|discriminate]. destruct (sb_cur s) as [j|] eqn:C; injection H as <-.
    + eapply (NEW (mk_rdr s j n p st ig) [ENew (length (sb_rds s)) j n p st ig; EMk (Ok (length (sb_rds s)))] n p st ig); try reflexivity.
      * exact C. * exact LF. * cbn. now rewrite <- app_assoc.
    + apply PLAIN; [reflexivity|exists [EMk (Raise StreamNotStartedError)]; split; reflexivity|exact Logic.I].
  - (* attach_reader *)
    cbn [sb_step] in H. destruct (lock_free s) eqn:LF; [|discriminate]. destruct (nth_error (sb_rds s) k) as [q|] eqn:Q; [|discriminate].
    destruct (sb_cur s) as [j|] eqn:C; injection H as <-; rewrite SAMELEN by (proj; now rewrite ?set_nth_length).
    + destruct (Nat.eqb_spec k r) as [->|N].
      * rewrite Q in A3. destruct (w_rd w) as [u|] eqn:W; [|destruct A3]. destruct A3 as (B1 & B2 & B3 & B4). cbn [w_run w_step w_rd w_ss set_stream Nat.eqb].
        change (lock_free (StreamBufferM.log (set_rds s (set_nth (sb_rds s) r (MkRdr j j (rd_info q) (rd_r q) (rd_loop q) (rd_out q)))) (EAttach r (Ok j)))) with (lock_free s). rewrite LF. proj. rewrite C.
        eexists. split; [reflexivity|]. split; [reflexivity|]. cbn [w_tr w_rd]. proj. rewrite w_answers_app, answers_app, A2. split; [reflexivity|].
        rewrite nth_error_set_nth, Nat.eqb_refl, Q. cbn. auto.
      * cbn [w_run]. eexists. split; [reflexivity|]. eapply as_other; [exact A| |reflexivity|reflexivity]. proj. rewrite nth_error_set_nth. now rewrite (proj2 (Nat.eqb_neq k r)).
    + destruct (Nat.eqb_spec k r) as [->|N].
      * rewrite Q in A3. destruct (w_rd w) as [u|] eqn:W; [|destruct A3]. cbn [w_run w_step w_rd w_ss set_stream Nat.eqb].
        change (lock_free (StreamBufferM.log s (EAttach r (Raise StreamNotStartedError)))) with (lock_free s). rewrite LF. proj. rewrite C.
        eexists. split; [reflexivity|]. split; [reflexivity|]. cbn [w_tr w_rd]. proj. rewrite w_answers_app, answers_app, A2. split; [reflexivity|]. now rewrite Q.
      * cbn [w_run]. eexists. split; [reflexivity|]. eapply as_other; [exact A|reflexivity|reflexivity|reflexivity].
  - (* next(stream_buffer) makes its reader *)
    cbn [sb_step] in H. destruct (sb_next s) as [k|] eqn:NX.
    + injection H as <-. apply PLAIN; [reflexivity|exists []; split; [proj; now rewrite app_nil_r|reflexivity]|exact Logic.I].
    + destruct (lock_free s) eqn:LF; [|discriminate]. destruct (sb_cur s) as [j|] eqn:C; injection H as <-.
      * eapply (NEW (mk_rdr s j 1 false false false) [ENew (length (sb_rds s)) j 1 false false false] 1%Z false false false); try reflexivity.
        -- exact C. -- exact LF.
      * apply PLAIN; [reflexivity|eexists; split; [reflexivity|reflexivity]|exact Logic.I].
  - (* next of it *)
    cbn [sb_step] in H. destruct (sb_nx s) as [|m] eqn:NX; [discriminate|]. destruct (sb_next s) as [k|] eqn:N.
    + unfold call_step in H. change (sb_rds (set_nx s m)) with (sb_rds s) in H. destruct (nth_error (sb_rds s) k) as [q|] eqn:Q; [|discriminate]. destruct (buf_of (set_nx s m) (rd_sess q)) as [d|]; [|discriminate].
      cbn zeta in H. destruct (run _ _) as [br v]. injection H as <-.
      assert (NE : k <> r) by (intros ->; eapply NN; proj; apply in_or_app; right; now left).
      rewrite SAMELEN by (proj; now rewrite set_nth_length). cbn [w_run]. eexists. split; [reflexivity|]. eapply as_other; [exact A| |reflexivity|reflexivity]. proj. rewrite nth_error_set_nth. now rewrite (proj2 (Nat.eqb_neq k r)).
    + injection H as <-. apply PLAIN; [reflexivity|eexists; split; [reflexivity|reflexivity]|exact Logic.I].
  - (* a call *)
    cbn [sb_step] in H. unfold call_step in H. destruct (nth_error (sb_rds s) k) as [q|] eqn:Q; [|discriminate]. destruct (buf_of s (rd_sess q)) as [d|] eqn:D; [|discriminate].
    cbn zeta in H. destruct (run (do_call d (with_stopped (ev_set s (rd_ev q)) cl)) (rd_r q)) as [br v] eqn:R. injection H as <-.
    rewrite SAMELEN by (proj; now rewrite set_nth_length). destruct (Nat.eqb_spec k r) as [->|N].
    + rewrite Q in A3. destruct (w_rd w) as [u|] eqn:W; [|destruct A3]. destruct A3 as (B1 & B2 & B3 & B4). cbn [w_run w_step w_rd w_ss]. rewrite B1, B2, B4. cbn [set_stream Nat.eqb].
      rewrite (rd_ev_sess c ls s Hh r q Q) in R.
      set (s1 := StreamBufferM.log _ _). change (buf_of s1 (rd_sess q)) with (buf_of s (rd_sess q)). rewrite D. cbn zeta. change (ev_set s1 (rd_sess q)) with (ev_set s (rd_sess q)). rewrite R.
      eexists. split; [reflexivity|]. split; [reflexivity|]. cbn [w_tr w_rd]. unfold s1. proj. rewrite w_answers_app, answers_app, A2. cbn [w_answers answers flat_map app]. rewrite Nat.eqb_refl, app_nil_r.
      split; [now rewrite (rd_ev_sess c ls s Hh r q Q)|]. rewrite nth_error_set_nth, Nat.eqb_refl, Q. cbn. auto.
    + cbn [w_run]. eexists. split; [reflexivity|]. eapply as_other; [exact A| |reflexivity|]. { proj. rewrite nth_error_set_nth. now rewrite (proj2 (Nat.eqb_neq k r)). }
      cbn. now rewrite (proj2 (Nat.eqb_neq k r)).
  - (* a for loop *)
    cbn [sb_step] in H. assert (NE : k <> r) by (apply NI; reflexivity). unfold iter_step in H. destruct (nth_error (sb_rds s) k) as [q|] eqn:Q; [|discriminate]. cbn zeta in H.
    destruct (rd_loop q); try discriminate.
    + destruct (buf_of s (rd_sess q)) as [d|]; [|discriminate]. destruct (run _ _) as [br v]. destruct (match v with Ok _ => _ | Raise _ => _ end) as [lo out]. injection H as <-.
      rewrite SAMELEN by (proj; now rewrite set_nth_length). cbn [w_run]. eexists. split; [reflexivity|]. eapply as_other; [exact A| |reflexivity|reflexivity]. proj. rewrite nth_error_set_nth. now rewrite (proj2 (Nat.eqb_neq k r)).
    + injection H as <-. rewrite SAMELEN by (proj; now rewrite set_nth_length). cbn [w_run]. eexists. split; [reflexivity|]. eapply (as_other r s _ w []); [exact A| |proj; now rewrite app_nil_r|reflexivity]. proj. rewrite nth_error_set_nth. now rewrite (proj2 (Nat.eqb_neq k r)).
    + injection H as <-. rewrite SAMELEN by (proj; now rewrite set_nth_length). cbn [w_run]. eexists. split; [reflexivity|]. eapply (as_other r s _ w []); [exact A| |proj; now rewrite app_nil_r|reflexivity]. proj. rewrite nth_error_set_nth. now rewrite (proj2 (Nat.eqb_neq k r)).
Qed.
Lemma mirrored_snoc c r ls l s' : forall s0 s, sb_run c s0 ls = Some s -> sb_step c s l = Some s' -> mirrored c r s0 (ls ++ [l]) = mirrored c r s0 ls ++ chunk r s s' l.
Proof.
  induction ls as [|x ls IH]; intros s0 s H E; cbn [sb_run] in H.
  - injection H as ->. cbn [app mirrored]. rewrite E. unfold chunk. now rewrite app_nil_r.
  - destruct (sb_step c s0 x) as [s1|] eqn:E1; [|discriminate]. cbn [app mirrored]. rewrite E1. cbn [app]. f_equal. rewrite <- app_assoc. f_equal. exact (IH s1 s H E).
Qed.
Theorem C116_as_in_one_stream :
  forall c r ls s, history c ls s -> (forall k, In (LIter k) ls -> k <> r) -> (forall cl o, ~ In (ENext (Some r) cl o) (sb_tr s)) ->
  exists w, w_history (fun _ => c) (mirrored c r sb0 ls) w /\ w_ss w 0 = s /\ w_answers (w_tr w) = answers r (sb_tr s) /\
  match nth_error (sb_rds s) r, w_rd w with
  | Some q, Some u => wr_sess u = rd_sess q /\ wr_info u = rd_info q /\ wr_r u = rd_r q
  | None, None => True
  | _, _ => False
  end.
Proof.
  intros c r ls s H NI NN. enough (G : exists w, w_history (fun _ => c) (mirrored c r sb0 ls) w /\ w_as r s w).
  { destruct G as (w & W & A & B & C). exists w. split; [exact W|]. split; [exact A|]. split; [exact B|]. destruct (nth_error (sb_rds s) r), (w_rd w); auto. tauto. }
  revert s H NN. induction ls as [|l ls IH] using rev_ind; intros s H NN.
  - injection H as <-. exists world0. split; [reflexivity|]. split; [reflexivity|]. split; [reflexivity|]. destruct r; exact Logic.I.
  - apply sb_run_snoc in H as (m & Hm & Hs).
    assert (NM : forall cl o, ~ In (ENext (Some r) cl o) (sb_tr m)). { intros cl o X. destruct (step_trace _ _ _ _ Hs) as (es & T). apply (NN cl o). rewrite T. apply in_or_app. now left. }
    destruct (IH (fun k X => NI k (in_or_app _ _ _ (or_introl X))) m Hm NM) as (w & W & A).
    destruct (as_step c r ls m l s w Hm A Hs) as (w' & W' & A'); [intros k ->; apply NI, in_or_app; right; now left|exact NN|].
    exists w'. split; [|exact A']. unfold w_history. rewrite (mirrored_snoc c r ls l s sb0 m Hm Hs), w_run_app. unfold w_history in W. rewrite W. exact W'.
Qed.
Print Assumptions C116_as_in_one_stream.

(** Two streams: a reader of stream 0 gets 1 and 5, stream 0 stops, and the reader is attached
    to stream 1, which runs and holds 4 and 7: it goes on with 7; back at stream 0 it is
    told that that one has stopped. *)
Definition on (k : nat) (ls : list label) : list wlabel := map (WStep k) ls.
Definition journey : list wlabel :=
  on 0 (starting (PObj 7)) ++ on 1 (starting (PObj 8)) ++ [WMk 0 1 false false true] ++ on 0 (round 0 (PInt 1)) ++ on 1 (round 0 (PInt 4)) ++ on 0 (round 0 (PInt 5)) ++
  [WCall (CNext false); WCall (CRead (MkRA None (Some false) None None)); WStep 0 LStop; WCall (CNext false); WAttach 1] ++ on 1 (round 0 (PInt 7)).
Definition journey_facts (w : world) :=
  (w_got (w_tr w), option_map (fun q => (wr_stream q, wr_sess q, wr_info q)) (w_rd w), w_answers (w_tr w), ev_set (w_ss w 0) 0, ev_set (w_ss w 1) 0,
   (option_map sd_list (buf_of (w_ss w 1) 0)),
   ints_ok (sb_tr (w_ss w 0)) && ints_ok (sb_tr (w_ss w 1)))%bool.
Lemma journey_runs : option_map journey_facts (w_run (fun _ => cfg3) world0 journey) =
  Some ([PInt 1; PInt 5], Some (1, 0, PObj 7), [(CNext false, Ok (VItem (PInt 1))); (CRead (MkRA None (Some false) None None), Ok (VItem (PInt 5))); (CNext true, Raise StopIteration)], true, false, Some [PInt 4; PInt 7], true).
Proof. vm_compute. reflexivity. Qed.
Definition forward_label (l : wlabel) : bool := match l with WMk _ _ p _ _ => negb p | WCall (CRead a) => negb (dflt (a_peek a) false) | WCall (CNext _) => true | WCall _ => false | _ => true end.
Lemma forward_label_ok l : forward_label l = true -> match l with WMk _ _ p _ _ => p = false | WCall (CRead a) => dflt (a_peek a) false = false | WCall (CNext _) => True | WCall _ => False | _ => True end.
Proof. destruct l as [k l|k n p st ig|k|[a| | | |]]; cbn; intro H; try exact Logic.I; try discriminate; [now destruct p|now destruct (dflt (a_peek a) false)]. Qed.
Lemma journey_forward : only_forward journey.
Proof. assert (OF : forallb forward_label journey = true) by reflexivity. rewrite forallb_forall in OF. intros l L. apply forward_label_ok, OF, L. Qed.
Example C116_nonvacuous :
  exists w, w_history (fun _ => cfg3) journey w /\ same_keys is_int ident (fun _ => cfg3) w /\ only_forward journey /\
  w_got (w_tr w) = [PInt 1; PInt 5] /\ ev_set (w_ss w 0) 0 = true /\ exists q d, w_rd w = Some q /\ wr_stream q = 1 /\ wr_info q = PObj 7 /\
  buf_of (w_ss w 1) (wr_sess q) = Some d /\ not_got_yet ident (w_got (w_tr w)) (sd_list d) = [PInt 7] /\ ev_set (w_ss w 1) (wr_sess q) = false.
Proof.
  pose proof journey_runs as G. unfold w_history. destruct (w_run (fun _ => cfg3) world0 journey) as [w|] eqn:R; [|discriminate G]. cbn [option_map] in G. unfold journey_facts in G.
  injection G as E Q A S0 S1 B I. exists w. split; [reflexivity|].
  pose proof (C116_streams_unaware _ _ _ R) as HS.
  assert (OTHER : forall k, 2 <= k -> w_ss w k = sb0).
  { intros k L. specialize (HS k). assert (Z : steps_of k journey = []) by (destruct k as [|[|k]]; [lia|lia|reflexivity]). rewrite Z in HS. injection HS as <-. reflexivity. }
  apply andb_true_iff in I as [I0 I1]. split.
  { intros k _. split; [reflexivity|]. destruct k as [|[|k]].
    - exact (proj1 (ints_keys cfg3 _ eq_refl I0)).
    - exact (proj1 (ints_keys cfg3 _ eq_refl I1)).
    - rewrite OTHER by lia. intros ? ? ? ? ? []. }
  split; [exact journey_forward|].
  split; [exact E|]. split; [exact S0|]. destruct (w_rd w) as [q|]; [|discriminate]. cbn [option_map] in Q. injection Q as Q1 Q2 Q3.
  destruct (buf_of (w_ss w 1) 0) as [d|] eqn:D; [|discriminate]. cbn [option_map] in B. injection B as B.
  exists q, d. rewrite Q2. split; [reflexivity|]. split; [exact Q1|]. split; [exact Q3|]. split; [exact D|]. split; [|exact S1]. rewrite E, B. reflexivity.
Qed.
