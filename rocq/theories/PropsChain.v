(** * A stream that reads from another stream: C115 *)
From Coq Require Import List ZArith Bool Arith Lia Sorted.
From Verif Require Import PyVal PyLib PyValFacts SortedDequeM Spec SpecDeque SpecReader SpecLog ListFacts Families DequeFacts DequeSearch
  BufferReaderM BufferSysM ReaderFacts LogFacts LogReads LogKeepUp PropsLog StreamBufferM SpecStream StreamFacts StreamLife StreamInv StreamOrderly StreamView StreamReads StreamMore StreamSuffix
  StreamAttach PropsReader PropsStream PropsStreamRead PropsSession PropsConsume NextRaceM PropsNextRace ChainM.
From Verif Require PropsOpenRace.
Import ListNotations.
Open Scope nat_scope.

(** ** Specification *)
Definition ch_history (cu cd : cfg) (r : nat) (ls : list clabel) (x : chain) : Prop := ch_run cu cd r ch0 ls = Some x.
(** The schedule of the upstream stream. *)
Definition up_sched (r : nat) (ls : list clabel) : list label :=
  flat_map (fun l => match l with CUp l => [l] | CLink _ => [LCallR r (CNext false)] | CDown _ => [] end) ls.
(** [ld] is a schedule of the downstream stream: that of [ls], with some answers of read(). *)
Inductive down_sched : list clabel -> list label -> Prop :=
| ds_nil : down_sched [] []
| ds_up : forall ls ld l, down_sched ls ld -> down_sched (ls ++ [CUp l]) ld
| ds_down : forall ls ld l, down_sched ls ld -> down_sched (ls ++ [CDown l]) (ld ++ [l])
| ds_link : forall ls ld i o, down_sched ls ld -> down_sched (ls ++ [CLink i]) (ld ++ [LT i o]).
(** All data (not None) that the source gave to any thread of the stream, in order. *)
Definition all_data_read (tr : list ev) : list pyval :=
  flat_map (fun e => match e with ERead _ (Ok v) => if is_none v then [] else [v] | _ => [] end) tr.
(** Nobody but the downstream source uses reader [r], and it gives one item at a time. *)
Definition for_the_link (r : nat) (ls : list clabel) (s : sb) : Prop :=
  (forall l, In (CUp l) ls -> match l with LCallR k _ | LIter k => k <> r | _ => True end) /\
  (forall cl o, ~ In (ENext (Some r) cl o) (sb_tr s)) /\
  exists q, nth_error (sb_rds s) r = Some q /\ (rk_n (rd_r q) <= 1)%Z.

(** ** Lemmas *)
Lemma ch_run_app cu cd r a b : forall x, ch_run cu cd r x (a ++ b) = match ch_run cu cd r x a with Some m => ch_run cu cd r m b | None => None end.
Proof. induction a as [|l a IH]; intro x; cbn [app ch_run]; [reflexivity|]. destruct (ch_step cu cd r x l); [apply IH|reflexivity]. Qed.
Lemma ch_snoc cu cd r ls l x : ch_history cu cd r (ls ++ [l]) x -> exists m, ch_history cu cd r ls m /\ ch_step cu cd r m l = Some x.
Proof.
  unfold ch_history. rewrite ch_run_app. destruct (ch_run cu cd r ch0 ls) as [m|]; [|discriminate]. cbn. destruct (ch_step cu cd r m l) eqn:E; [|discriminate].
  intro H. injection H as <-. eauto.
Qed.
Lemma outcome_snoc tr r c o : outcome (tr ++ [ECall r c o]) = Some o.
Proof. unfold outcome. now rewrite last_opt_snoc. Qed.
(* the link's call, taken apart *)
Lemma link_up c s r s' : sb_step c s (LCallR r (CNext false)) = Some s' ->
  exists q d, nth_error (sb_rds s) r = Some q /\ buf_of s (rd_sess q) = Some d /\
  let o := snd (run (next_dunder d (ev_set s (rd_ev q))) (rd_r q)) in
  sb_tr s' = sb_tr s ++ [ECall r (CNext (ev_set s (rd_ev q))) o] /\ outcome (sb_tr s') = Some o.
Proof.
  cbn [sb_step]. unfold call_step. destruct (nth_error (sb_rds s) r) as [q|] eqn:E; [|discriminate]. destruct (buf_of s (rd_sess q)) as [d|] eqn:D; [|discriminate].
  cbn [with_stopped do_call]. destruct (run (next_dunder d (ev_set s (rd_ev q))) (rd_r q)) as [br v] eqn:R. intro H. injection H as <-.
  exists q, d. split; [reflexivity|]. split; [exact D|]. rewrite R. cbn [snd log sb_tr]. split; [reflexivity|apply outcome_snoc].
Qed.
(* every step of a chain is a step of one stream or of both *)
Lemma ch_cases cu cd r x l x' : ch_step cu cd r x l = Some x' ->
  (exists l0, l = CUp l0 /\ sb_step cu (ch_up x) l0 = Some (ch_up x') /\ ch_down x' = ch_down x) \/
  (exists l0, l = CDown l0 /\ sb_step cd (ch_down x) l0 = Some (ch_down x') /\ ch_up x' = ch_up x /\ (forall i o, l0 = LT i o -> reading (ch_down x) i = false)) \/
  (exists i o cl, l = CLink i /\ reading (ch_down x) i = true /\ sb_step cu (ch_up x) (LCallR r (CNext false)) = Some (ch_up x') /\
     sb_tr (ch_up x') = sb_tr (ch_up x) ++ [ECall r (CNext cl) o] /\ sb_step cd (ch_down x) (LT i (answer o)) = Some (ch_down x')).
Proof.
  destruct l as [l0|l0|i]; cbn [ch_step]; intro H.
  - destruct (sb_step cu (ch_up x) l0) eqn:E; [|discriminate]. injection H as <-. left. eauto.
  - right; left. exists l0. destruct (match l0 with LT i _ => reading (ch_down x) i | _ => false end) eqn:Q; [discriminate|].
    destruct (sb_step cd (ch_down x) l0) eqn:E; [|discriminate]. injection H as <-. split; [reflexivity|]. split; [reflexivity|]. split; [reflexivity|]. intros i o ->. exact Q.
  - right; right. destruct (reading (ch_down x) i) eqn:Q; [|discriminate]. destruct (sb_step cu (ch_up x) (LCallR r (CNext false))) as [s|] eqn:E; [|discriminate].
    destruct (link_up _ _ _ _ E) as (q & d & _ & _ & T & O). rewrite O in H. destruct (sb_step cd (ch_down x) (LT i _)) as [t|] eqn:F; [|discriminate]. injection H as <-.
    do 3 eexists. split; [reflexivity|]. split; [first [reflexivity|exact Q]|]. split; [first [reflexivity|exact E]|]. split; [exact T|exact F].
Qed.
Lemma adr_app a b : all_data_read (a ++ b) = all_data_read a ++ all_data_read b.
Proof. unfold all_data_read. apply flat_map_app. Qed.
Lemma rcv_app r a b : SpecStream.received r (a ++ b) = SpecStream.received r a ++ SpecStream.received r b.
Proof. unfold SpecStream.received. apply flat_map_app. Qed.
(* a step that is no read() leaves the data read *)
Lemma adr_other c s l s' : sb_step c s l = Some s' -> (forall i o, l = LT i o -> reading s i = false) -> all_data_read (sb_tr s') = all_data_read (sb_tr s).
Proof.
  intros H N. step_cases H; injection H as <-; proj; rewrite ?adr_app; cbn [all_data_read flat_map]; rewrite ?app_nil_r; auto.
  all: exfalso; subst l; specialize (N _ _ eq_refl); unfold reading in N; repeat match goal with X : nth_error _ _ = Some _ |- _ => rewrite X in N end; repeat match goal with X : se_pc _ = _ |- _ => rewrite X in N end; discriminate.
Qed.
Lemma adr_read c s i o s' : sb_step c s (LT i o) = Some s' -> reading s i = true -> sb_tr s' = sb_tr s ++ [ERead i o].
Proof.
  intros H R. unfold reading in R. cbn [sb_step] in H. destruct (nth_error (sb_ss s) i) as [e|]; [|discriminate]. unfold thread_step in H. cbn zeta in H.
  destruct (se_pc e); try discriminate. destruct o; injection H as <-; reflexivity.
Qed.
Ltac destruct_res := repeat match goal with |- context [match ?x with Ok _ => _ | Raise _ => _ end] => destruct x end.
Lemma rcv_other c s l s' r : sb_step c s l = Some s' -> match l with LCallR k _ | LIter k => k <> r | _ => True end ->
  (forall cl o, ~ In (ENext (Some r) cl o) (sb_tr s')) -> SpecStream.received r (sb_tr s') = SpecStream.received r (sb_tr s).
Proof.
  intros H N NX. step_cases H; injection H as <-; proj; rewrite ?rcv_app; cbn [SpecStream.received flat_map]; rewrite ?app_nil_r; auto.
  all: repeat match goal with X : ?v = _, Y : match ?v with _ => _ end |- _ => rewrite X in Y; cbn beta iota in Y end.
  all: try (match goal with |- context [if ?a =? ?b then _ else _] => destruct (Nat.eqb_spec a b) as [->|]; [|destruct_res; now rewrite ?app_nil_r] end; solve [congruence|exfalso; eapply NX; apply in_or_app; right; left; reflexivity]).
Qed.
Lemma ch_ind cu cd r (P : list clabel -> chain -> Prop) : P [] ch0 ->
  (forall ls x l x', ch_history cu cd r ls x -> P ls x -> ch_step cu cd r x l = Some x' -> P (ls ++ [l]) x') -> forall ls x, ch_history cu cd r ls x -> P ls x.
Proof.
  intros P0 PS ls. induction ls as [|l ls IH] using rev_ind; intros x H; [injection H as <-; exact P0|].
  apply ch_snoc in H as (m & H & E). eapply PS; eauto.
Qed.
Lemma up_sched_app r a b : up_sched r (a ++ b) = up_sched r a ++ up_sched r b.
Proof. apply flat_map_app. Qed.
Lemma history_snoc c ls s l s' : history c ls s -> sb_step c s l = Some s' -> history c (ls ++ [l]) s'.
Proof. intros H E. unfold history. apply sb_run_snoc. eauto. Qed.
Lemma up_trace cu cd r x l x' : ch_step cu cd r x l = Some x' -> exists es, sb_tr (ch_up x') = sb_tr (ch_up x) ++ es.
Proof.
  intro H. destruct (ch_cases _ _ _ _ _ _ H) as [(l0 & _ & E & _)|[(l0 & _ & _ & E & _)|(i & o & cl & _ & _ & E & _)]].
  - eapply step_trace, E.
  - exists []. now rewrite E, app_nil_r.
  - eapply step_trace, E.
Qed.
Lemma up_reader cu cd r x l x' k q : ch_step cu cd r x l = Some x' -> nth_error (sb_rds (ch_up x)) k = Some q ->
  exists q', nth_error (sb_rds (ch_up x')) k = Some q' /\ rk_n (rd_r q') = rk_n (rd_r q).
Proof.
  intros H Q. assert (G : forall c s l0 s', sb_step c s l0 = Some s' -> nth_error (sb_rds s) k = Some q -> exists q', nth_error (sb_rds s') k = Some q' /\ rk_n (rd_r q') = rk_n (rd_r q)).
  { intros c s l0 s' E Q0. destruct (PropsOpenRace.step_defaults c s l0 s' E k q Q0) as (q' & Q' & D). exists q'. split; [exact Q'|]. destruct D as (D & _). congruence. }
  destruct (ch_cases _ _ _ _ _ _ H) as [(l0 & _ & E & _)|[(l0 & _ & _ & E & _)|(i & o & cl & _ & _ & E & _)]]; eauto. rewrite E. eauto.
Qed.
Lemma bind_ok {A B} (x : M A) (f : A -> M B) r v : snd (bindM x f r) = Ok v -> exists a r1, snd (f a r1) = Ok v.
Proof. unfold bindM. destruct (x r) as [[t r1] [a|e]]; [|discriminate]. intro H. exists a, r1. destruct (f a r1) as [[t2 r2] b]. exact H. Qed.
Lemma body_one d n pk ig st r v : (n <= 1)%Z -> snd (read_body d n pk ig st r) = Ok v -> exists y, v = VItem y.
Proof.
  intros N H. unfold read_body in H. apply bind_ok in H as (r0 & r1 & H). apply bind_ok in H as (o & r2 & H).
  destruct o as [x|]; [|injection H as <-; unfold VNone; eauto]. assert (L : (1 <? n)%Z = false) by (apply Z.ltb_ge; lia). rewrite L in H.
  apply bind_ok in H as (u & r3 & H). injection H as <-. eauto.
Qed.
Lemma next_one d b br v : (rk_n br <= 1)%Z -> snd (run (next_dunder d b) br) = Ok v -> exists y, v = VItem y.
Proof.
  intros N H. unfold run in H. unfold next_dunder, bindM at 1 in H.
  destruct (read_for_next d br) as [[t r1] [w|e]] eqn:E; [|discriminate].
  assert (W : exists y, w = VItem y).
  { unfold read_for_next, getM, bindM at 1 in E. unfold read, bindM at 1, getM in E. cbn [dflt a_n a_peek a_ignore a_strict] in E. unfold with_lock in E.
    destruct (read_body d (rk_n br) (rk_peek br) true (rk_strict br) br) as [[t0 r0] o] eqn:B. injection E as _ _ ->. eapply (body_one d); [exact N|]. rewrite B. reflexivity. }
  destruct (rval_is_none w && b); [discriminate|]. injection H as <-. exact W.
Qed.

Lemma acc_app j a b : accepted_by j (a ++ b) = accepted_by j a ++ accepted_by j b.
Proof. apply flat_map_app. Qed.
Lemma accepted_has_key c ls s : history c ls s -> forall j y, In y (accepted_by j (sb_tr s)) -> exists k, c_key c y = Ok k.
Proof.
  intro H. revert ls s H. apply (sb_ind c (fun ls s => forall j y, In y (accepted_by j (sb_tr s)) -> exists k, c_key c y = Ok k)); [intros j y []|].
  intros ls s l s' Hh IH H j y Y.
  step_cases H; injection H as <-; proj; rewrite ?acc_app in Y; cbn [accepted_by flat_map app] in Y; rewrite ?app_nil_r in Y; eauto.
  all: apply in_app_or in Y as [Y|Y]; [eauto|].
  all: match goal with X : sd_append ?d ?z = (_, ?u), D : buf_of _ _ = Some ?d |- _ => destruct u as [|]; cbn in Y; [|destruct Y]; destruct (shaped_history c ls s _ d Hh D) as (_ & KK & _);
         unfold sd_append in X; rewrite KK in X end.
  all: match type of Y with In _ (if ?a =? ?b then _ else _) => destruct (a =? b); [|destruct Y] | _ => idtac end; cbn in Y; destruct Y as [<-|[]].
  all: destruct (c_key c _) as [k|]; [eauto|discriminate].
Qed.

(** ** C115 *)
(** Both streams behave as if the other was not there: whatever holds of all histories of a
    stream holds of each of them. *)
Theorem C115_both_are_histories :
  forall cu cd r ls x, ch_history cu cd r ls x ->
  history cu (up_sched r ls) (ch_up x) /\ exists ld, down_sched ls ld /\ history cd ld (ch_down x).
Proof.
  intros cu cd r. apply (ch_ind cu cd r (fun ls x => history cu (up_sched r ls) (ch_up x) /\ exists ld, down_sched ls ld /\ history cd ld (ch_down x))).
  - split; [reflexivity|]. exists []. split; [constructor|reflexivity].
  - intros ls x l x' _ (HU & ld & DS & HD) H. rewrite up_sched_app.
    destruct (ch_cases _ _ _ _ _ _ H) as [(l0 & -> & E & D)|[(l0 & -> & E & D & _)|(i & o & cl & -> & _ & E & _ & F)]]; cbn [up_sched flat_map app].
    + split; [eapply history_snoc; eauto|]. exists ld. rewrite D. split; [now constructor|exact HD].
    + rewrite app_nil_r, D. split; [exact HU|]. exists (ld ++ [l0]). split; [now constructor|eapply history_snoc; eauto].
    + split; [eapply history_snoc; eauto|]. exists (ld ++ [LT i (answer o)]). split; [now constructor|eapply history_snoc; eauto].
Qed.
Print Assumptions C115_both_are_histories.

(** What the downstream threads - of all its sessions - read is what the reader has received. *)
Theorem C115_reads_what_the_reader_gets :
  forall cu cd r ls x, ch_history cu cd r ls x -> for_the_link r ls (ch_up x) ->
  all_data_read (sb_tr (ch_down x)) = received r (sb_tr (ch_up x)).
Proof.
  intros cu cd r ls x H (FL & FN & q & Q & N1).
  assert (G : forall ls x, ch_history cu cd r ls x -> (forall l, In (CUp l) ls -> match l with LCallR k _ | LIter k => k <> r | _ => True end) ->
     (forall cl o, ~ In (ENext (Some r) cl o) (sb_tr (ch_up x))) -> (forall q, nth_error (sb_rds (ch_up x)) r = Some q -> (rk_n (rd_r q) <= 1)%Z) ->
     all_data_read (sb_tr (ch_down x)) = received r (sb_tr (ch_up x))).
  2:{ apply (G ls x); auto. intros q' Q'. congruence. }
  clear ls x H FL FN q Q N1.
  apply (ch_ind cu cd r (fun ls x => (forall l, In (CUp l) ls -> match l with LCallR k _ | LIter k => k <> r | _ => True end) ->
     (forall cl o, ~ In (ENext (Some r) cl o) (sb_tr (ch_up x))) -> (forall q, nth_error (sb_rds (ch_up x)) r = Some q -> (rk_n (rd_r q) <= 1)%Z) ->
     all_data_read (sb_tr (ch_down x)) = received r (sb_tr (ch_up x)))).
  - reflexivity.
  - intros ls x l x' _ IH H FL FN N1.
    assert (I : all_data_read (sb_tr (ch_down x)) = received r (sb_tr (ch_up x))).
    { apply IH.
      - intros l0 X. apply (FL l0). apply in_or_app. auto.
      - intros cl o X. destruct (up_trace _ _ _ _ _ _ H) as (es & E). apply (FN cl o). rewrite E. apply in_or_app. auto.
      - intros q Q. destruct (up_reader _ _ _ _ _ _ _ _ H Q) as (q' & Q' & E). rewrite <- E. auto. }
    destruct (ch_cases _ _ _ _ _ _ H) as [(l0 & -> & E & D)|[(l0 & -> & E & D & R)|(i & o & cl & -> & R & E & T & F)]].
    + rewrite D, I. symmetry. eapply rcv_other; [exact E| |exact FN]. apply FL. apply in_or_app. right. now left.
    + rewrite D, <- I. eapply adr_other; eauto.
    + rewrite (adr_read _ _ _ _ _ F R), T, adr_app, rcv_app, I. f_equal. cbn [all_data_read received flat_map]. rewrite Nat.eqb_refl.
      destruct (link_up _ _ _ _ E) as (q & d & Q & Dq & T' & _). rewrite T in T'. apply app_inv_head in T'. injection T' as _ To.
      destruct (up_reader _ _ _ _ _ _ _ _ H Q) as (q' & Q' & EN).
      destruct o as [v|e]; [|reflexivity]. cbn [answer].
      destruct (next_one d (ev_set (ch_up x) (rd_ev q)) (rd_r q) v) as (y & ->); [rewrite <- EN; auto|now rewrite <- To|]. destruct y; reflexivity.
Qed.
Print Assumptions C115_reads_what_the_reader_gets.

(** With any read size: each read() of the downstream threads is one next(r), and gives what
    that gave - the item, the chunk (as a tuple), None or the exception. *)
Definition next_outcomes (r : nat) (tr : list ev) : list (res rval) :=
  flat_map (fun e => match e with ECall k (CNext _) o => if Nat.eqb k r then [o] else [] | _ => [] end) tr.
Definition read_outcomes (tr : list ev) : list (res pyval) := flat_map (fun e => match e with ERead _ o => [o] | _ => [] end) tr.
Inductive gives : res rval -> res pyval -> Prop :=
| g_item : forall x, gives (Ok (VItem x)) (Ok x)
| g_chunk : forall l, gives (Ok (VList l)) (Ok (PTuple l))
| g_raise : forall e, gives (Raise e) (Raise e).
Theorem C115_each_read_is_a_next :
  forall cu cd r ls x, ch_history cu cd r ls x ->
  (forall l, In (CUp l) ls -> match l with LCallR k _ | LIter k => k <> r | _ => True end) ->
  Forall2 gives (next_outcomes r (sb_tr (ch_up x))) (read_outcomes (sb_tr (ch_down x))).
Proof.
  intros cu cd r.
  apply (ch_ind cu cd r (fun ls x => (forall l, In (CUp l) ls -> match l with LCallR k _ | LIter k => k <> r | _ => True end) ->
    Forall2 gives (next_outcomes r (sb_tr (ch_up x))) (read_outcomes (sb_tr (ch_down x))))); [constructor|].
  intros ls x l x' _ IH H FL.
  assert (I : Forall2 gives (next_outcomes r (sb_tr (ch_up x))) (read_outcomes (sb_tr (ch_down x)))) by (apply IH; intros l0 X; apply (FL l0), in_or_app; auto).
  assert (O : forall s l0 s', sb_step cu s l0 = Some s' -> match l0 with LCallR k _ | LIter k => k <> r | _ => True end -> next_outcomes r (sb_tr s') = next_outcomes r (sb_tr s)).
  { intros s l0 s' E N. unfold next_outcomes. step_cases E; injection E as <-; proj; rewrite ?flat_map_app; cbn [flat_map]; rewrite ?app_nil_r; try reflexivity.
    all: match goal with |- context [match ?c with CNext _ => _ | _ => _ end] => destruct c | _ => idtac end; cbn [app]; rewrite ?app_nil_r; try reflexivity.
    all: repeat match goal with X : ?v = _, Y : match ?v with _ => _ end |- _ => rewrite X in Y; cbn beta iota in Y end.
    all: match goal with |- context [if ?a =? ?b then _ else _] => destruct (Nat.eqb_spec a b) as [->|]; [congruence|now rewrite ?app_nil_r] | _ => idtac end. }
  assert (R : forall s l0 s', sb_step cd s l0 = Some s' ->
    (exists i o, l0 = LT i o /\ reading s i = true /\ read_outcomes (sb_tr s') = read_outcomes (sb_tr s) ++ [o]) \/
    ((forall i o, l0 = LT i o -> reading s i = false) /\ read_outcomes (sb_tr s') = read_outcomes (sb_tr s))).
  { intros s l0 s' E. unfold read_outcomes, reading. step_cases E; injection E as <-; proj; rewrite ?flat_map_app; cbn [flat_map]; rewrite ?app_nil_r.
    all: repeat match goal with X : ?v = ?w |- _ => is_var v; match type of v with label => subst v | res pyval => subst v end end.
    all: try (first [left; do 2 eexists; split; [reflexivity|]; match goal with A : nth_error _ _ = Some _, B : se_pc _ = _ |- _ => rewrite A, B end; split; reflexivity
      | right; split; [|reflexivity]; let Q := fresh in intros ? ? Q; first [discriminate Q|injection Q as <- <-]; match goal with A : nth_error _ _ = Some _, B : se_pc _ = _ |- _ => rewrite A, B end; reflexivity]). }
  destruct (ch_cases _ _ _ _ _ _ H) as [(l0 & -> & E & D)|[(l0 & -> & E & D & G)|(i & o & cl & -> & G & E & T & F)]].
  - rewrite D, (O _ _ _ E); [exact I|]. apply FL. apply in_or_app. right. now left.
  - rewrite D. destruct (R _ _ _ E) as [(i & o & -> & Q & _)|[_ ->]]; [|exact I]. rewrite (G i o eq_refl) in Q. discriminate.
  - destruct (R _ _ _ F) as [(k & w & L & _ & Q)|[Q _]]; [|rewrite (Q i (answer o) eq_refl) in G; discriminate]. injection L as <- <-.
    rewrite Q, T. unfold next_outcomes at 1. rewrite flat_map_app. cbn [flat_map]. rewrite Nat.eqb_refl. cbn [app]. apply Forall2_app; [exact I|]. constructor; [|constructor].
    destruct o as [[v|v]|e]; constructor.
Qed.
Print Assumptions C115_each_read_is_a_next.

(** So it gets upstream items, in order and none twice - also across restarts of the
    downstream stream; and if the reader keeps up, from the first one on and without gaps. *)
Theorem C115_in_order :
  forall P, total_family P -> forall cu cd r ls x, ch_history cu cd r ls x -> for_the_link r ls (ch_up x) ->
  stream_keys_in P cu (sb_tr (ch_up x)) -> stream_ranges_in P cu (sb_tr (ch_up x)) -> never_attached r (sb_tr (ch_up x)) -> moves_forward r (sb_tr (ch_up x)) ->
  forall q, nth_error (sb_rds (ch_up x)) r = Some q ->
  let got := all_data_read (sb_tr (ch_down x)) in
  strictly_ordered (c_key cu) got /\ subseq got (accepted_by (rd_sess q) (sb_tr (ch_up x))) /\
  (reader_keeps_up cu (up_sched r ls) r (rd_sess q) -> strictly_ordered (c_key cu) (accepted_by (rd_sess q) (sb_tr (ch_up x))) ->
   exists rest, accepted_by (rd_sess q) (sb_tr (ch_up x)) = got ++ rest).
Proof.
  intros P F cu cd r ls x H L K R NA MF q Q. cbn zeta. rewrite (C115_reads_what_the_reader_gets _ _ _ _ _ H L). destruct (C115_both_are_histories _ _ _ _ _ H) as (HU & _).
  destruct (C75_never_repeats P F cu _ _ HU K r q Q NA R MF) as (A & B). split; [exact A|]. split; [exact B|]. intros KU SO. eapply C75_keeps_up; eauto.
Qed.
Print Assumptions C115_in_order.

(** A read() with a reader that keeps up gives the first upstream item not read yet; if there
    is none, None - or StopIteration once the upstream stream has been stopped. *)
Theorem C115_next_item :
  forall P, total_family P -> forall cu cd r ls x, ch_history cu cd r ls x -> for_the_link r ls (ch_up x) ->
  stream_keys_in P cu (sb_tr (ch_up x)) -> stream_ranges_in P cu (sb_tr (ch_up x)) -> never_attached r (sb_tr (ch_up x)) -> moves_forward r (sb_tr (ch_up x)) ->
  forall q, nth_error (sb_rds (ch_up x)) r = Some q -> let j := rd_sess q in
  reader_keeps_up cu (up_sched r ls) r j -> strictly_ordered (c_key cu) (accepted_by j (sb_tr (ch_up x))) ->
  forall i, reading (ch_down x) i = true ->
  exists x' o, ch_step cu cd r x (CLink i) = Some x' /\ sb_tr (ch_down x') = sb_tr (ch_down x) ++ [ERead i o] /\
  exists rest, accepted_by j (sb_tr (ch_up x)) = all_data_read (sb_tr (ch_down x)) ++ rest /\
  o = match rest with y :: _ => Ok y | [] => if ev_set (ch_up x) j then Raise StopIteration else Ok PNone end.
Proof.
  intros P F cu cd r ls x H L K R NA MF q Q j KU SO i RD. subst j. destruct (C115_both_are_histories _ _ _ _ _ H) as (HU & _).
  destruct (C115_in_order P F _ _ _ _ _ H L K R NA MF q Q) as (_ & _ & PR). destruct (PR KU SO) as (rest & ER).
  pose proof (C115_reads_what_the_reader_gets _ _ _ _ _ H L) as AR. destruct L as (_ & _ & q0 & Q0 & N1). rewrite Q in Q0. injection Q0 as <-.
  destruct (reader_init cu _ _ r q HU Q) as (d0 & d & D0 & D).
  assert (S1 : exists s, sb_step cu (ch_up x) (LCallR r (CNext false)) = Some s).
  { cbn [sb_step]. unfold call_step. rewrite Q, D. cbv zeta. destruct (BufferReaderM.run _ _) as [br v]. eexists. reflexivity. }
  destruct (att_history P cu _ _ F HU r K MF) as [I _]. rewrite Q in I. destruct I as [HP AC].
  destruct (stream_buffer_in P cu _ _ _ d HU K D) as (BI & EK & NN & _).
  pose proof (C33_next_protocol P F d BI NN (rd_r q) (at_cursor_in _ _ _ _ AC) (ev_set (ch_up x) (rd_ev q))) as X. cbn zeta in X.
  change (sd_list d) with (sd_items d) in X. rewrite EK, (at_cursor_unseen P _ _ _ d F AC (buffer_bok P d BI) EK) in X.
  destruct (buf_holds cu _ _ HU _ d D) as (n & B & _).
  rewrite AR in ER.
  assert (U : not_got_yet (c_key cu) (received r (sb_tr (ch_up x))) (sd_items d) = rest).
  { change (sd_items d) with (sd_list d). pose proof (KU (up_sched r ls) [] (ch_up x) d (eq_sym (app_nil_r _)) HU D) as Y. rewrite B, skipn_length in Y. rewrite ER in B, Y, SO. rewrite B.
    destruct (le_lt_dec n (length (received r (sb_tr (ch_up x))))) as [LE|GT]; [now apply after_all|].
    rewrite app_length in Y. assert (rest = []) by (destruct rest; [reflexivity|cbn in Y; lia]). subst rest. rewrite app_nil_r, skipn_all2 by lia. reflexivity. }
  rewrite U in X. destruct X as (X1 & X2 & _).
  rewrite (rd_ev_sess cu _ _ HU r q Q) in X1, X2.
  set (o := snd (run (next_dunder d (ev_set (ch_up x) (rd_sess q))) (rd_r q))) in *.
  assert (EO : answer o = match rest with y :: _ => Ok y | [] => if ev_set (ch_up x) (rd_sess q) then Raise StopIteration else Ok PNone end).
  { destruct rest as [|y rest]; [unfold o; rewrite X1 by reflexivity; cbn [snd]; destruct (ev_set _ _); reflexivity|]. rewrite X2 by (discriminate || exact N1). reflexivity. }
  destruct S1 as (s & S1). destruct (link_up _ _ _ _ S1) as (q1 & d1 & Q1 & D1 & _ & O1). cbn zeta in O1. rewrite Q in Q1. injection Q1 as <-. rewrite D in D1. injection D1 as <-.
  rewrite (rd_ev_sess cu _ _ HU r q Q) in O1. fold o in O1.
  assert (S2 : exists t, sb_step cd (ch_down x) (LT i (answer o)) = Some t).
  { unfold reading in RD. cbn [sb_step]. destruct (nth_error (sb_ss (ch_down x)) i) as [e|]; [|discriminate]. unfold thread_step. cbn zeta. destruct (se_pc e); try discriminate. destruct (answer o); eauto. }
  destruct S2 as (t & S2). exists (MkCh s t), (answer o). split; [cbn [ch_step]; rewrite RD, S1, O1, S2; reflexivity|].
  split; [cbn [ch_down]; eapply adr_read; eauto|]. exists rest. split; [rewrite AR; exact ER|exact EO].
Qed.
Print Assumptions C115_next_item.

(** Downstream, if its starts wait for the threads before them and its key is that of the
    upstream stream: nothing that was read is refused by the buffer or given up, so each
    session has kept all it read, except for an item on its way into the buffer. *)
Theorem C115_nothing_lost_on_the_way :
  forall P, total_family P -> forall cu cd r ls x, ch_history cu cd r ls x -> for_the_link r ls (ch_up x) ->
  stream_keys_in P cu (sb_tr (ch_up x)) -> stream_ranges_in P cu (sb_tr (ch_up x)) -> never_attached r (sb_tr (ch_up x)) -> moves_forward r (sb_tr (ch_up x)) ->
  c_key cd = c_key cu -> forall ld, down_sched ls ld -> history cd ld (ch_down x) -> orderly cd ld ->
  (forall i j y o, In (EAppend i j y o) (sb_tr (ch_down x)) -> o = Ok tt) /\
  forall i, exists rest, data_read i (sb_tr (ch_down x)) = accepted_by i (sb_tr (ch_down x)) ++ rest /\
    (rest = [] \/ exists v, rest = [v] /\ in_hand (ch_down x) i v).
Proof.
  intros P F cu cd r ls x H L K R NA MF EK ld _ HD OD. destruct L as (L1 & L2 & q & Q & N1).
  destruct (C115_in_order P F _ _ _ _ _ H (conj L1 (conj L2 (ex_intro _ q (conj Q N1)))) K R NA MF q Q) as (SO & SS & _).
  assert (SUB : forall i tr, subseq (data_read i tr) (all_data_read tr)).
  { intros i tr. induction tr as [|e tr IH]; [constructor|]. cbn [data_read all_data_read flat_map]. apply subseq_app; [|exact IH].
    destruct e as [| | | |i0 [v|]| | | | | | | | | | | |]; try constructor. destruct (is_none v); cbn [negb]; rewrite ?andb_false_r, ?andb_true_r; [constructor|]. destruct (i0 =? i); [apply subseq_take; constructor|apply subseq_skip; constructor]. }
  assert (OK : forall i j y o, In (EAppend i j y o) (sb_tr (ch_down x)) -> o = Ok tt).
  { apply (increasing_appends cd ld _ HD OD).
    - intro i. rewrite EK. unfold strictly_ordered. eapply subseq_sorted; [apply SUB|exact SO].
    - intros i y Y. rewrite EK. apply (subseq_in _ _ _ (SUB i _)) in Y. apply (subseq_in _ _ _ SS) in Y.
      destruct (C115_both_are_histories _ _ _ _ _ H) as (HU & _). eapply accepted_has_key; eauto. }
  split; [exact OK|]. intro i. destruct (C41_read_order cd ld _ HD i) as ((rest & E & D) & _). destruct (C41_own_buffer cd ld _ HD OD i) as (AO & _ & NB).
  exists rest. split; [congruence|]. destruct D as [D|[D|(v & e & _ & [(k & D)|D])]]; auto; [apply OK in D; discriminate|tauto].
Qed.
Print Assumptions C115_nothing_lost_on_the_way.

(** The end of the upstream stream travels on: when it has been stopped and everything in its
    buffer has been read, the next read() ends the downstream thread, which sets the stop event
    and closes its source within three steps of its own, whatever else happens. *)
Theorem C115_end_travels :
  forall P, total_family P -> forall cu cd r ls x, ch_history cu cd r ls x -> for_the_link r ls (ch_up x) ->
  stream_keys_in P cu (sb_tr (ch_up x)) -> stream_ranges_in P cu (sb_tr (ch_up x)) -> never_attached r (sb_tr (ch_up x)) -> moves_forward r (sb_tr (ch_up x)) ->
  forall q, nth_error (sb_rds (ch_up x)) r = Some q -> let j := rd_sess q in
  reader_keeps_up cu (up_sched r ls) r j -> strictly_ordered (c_key cu) (accepted_by j (sb_tr (ch_up x))) ->
  forall i, reading (ch_down x) i = true ->
  ev_set (ch_up x) j = true -> accepted_by j (sb_tr (ch_up x)) = all_data_read (sb_tr (ch_down x)) ->
  exists x', ch_step cu cd r x (CLink i) = Some x' /\ sb_tr (ch_down x') = sb_tr (ch_down x) ++ [ERead i (Raise StopIteration)] /\
  (forall o, exists s', sb_step cd (ch_down x') (LT i o) = Some s') /\
  forall ls' s', sb_run cd (ch_down x') ls' = Some s' ->
    own_steps i ls' <= 3 /\
    (own_steps i ls' = 3 -> ended s' i /\ ev_set s' i = true /\ exists u, thread_events i (sb_tr s') = thread_events i (sb_tr (ch_down x')) ++ [EClose i u]).
Proof.
  intros P F cu cd r ls x H L K R NA MF q Q j KU SO i RD EV ALL.
  destruct (C115_next_item P F _ _ _ _ _ H L K R NA MF q Q KU SO i RD) as (x' & o & S & T & rest & E & O). fold j in E, O.
  rewrite ALL in E. rewrite <- (app_nil_r (all_data_read _)) in E at 1. apply app_inv_head in E. subst rest. rewrite EV in O. subst o.
  exists x'. split; [exact S|]. split; [exact T|].
  assert (H' : ch_history cu cd r (ls ++ [CLink i]) x') by (unfold ch_history in *; rewrite ch_run_app, H; cbn [ch_run]; now rewrite S).
  destruct (C115_both_are_histories _ _ _ _ _ H') as (_ & ld & _ & HD).
  destruct (C42_failure_stops_cleanly cd ld _ i StopIteration (ERead i (Raise StopIteration)) (sb_tr (ch_down x)) [] HD T (or_introl eq_refl)) as (ST & CAN & BND).
  assert (AL : alive (ch_down x') i) by (destruct ST as [(_ & A)|(u & A & _)]; [exact A|discriminate]).
  split; [intro o; apply CAN, AL|]. intros ls' s' RN. destruct (BND ls' s' RN) as (B1 & B2). split; [exact B1|]. intro N. specialize (B2 N). split; [exact B2|].
  assert (HS : history cd (ld ++ ls') s') by (unfold history in *; now rewrite sb_run_app, HD).
  destruct (run_trace cd ls' _ _ RN) as (es & TE).
  assert (T2 : sb_tr s' = sb_tr (ch_down x) ++ ERead i (Raise StopIteration) :: es) by (rewrite TE, T, <- app_assoc; reflexivity).
  destruct (C42_failure_stops_cleanly cd _ _ i StopIteration (ERead i (Raise StopIteration)) (sb_tr (ch_down x)) es HS T2 (or_introl eq_refl)) as (ST2 & _).
  destruct ST2 as [(_ & A)|(u & A & _ & EV2)].
  - exfalso. destruct B2 as (e & B2). destruct A as (p & A & NA2). destruct A as (e1 & A1 & A2), B2 as (e2 & B3 & B4). rewrite A1 in B3. injection B3 as <-. rewrite A2 in B4. subst p. exact NA2.
  - split; [exact EV2|]. exists u. rewrite TE. unfold thread_events in *. rewrite filter_app, A. reflexivity.
Qed.
Print Assumptions C115_end_travels.

(** Non-vacuity: the upstream stream appends 1, 2, 3 and is stopped, the downstream one is
    restarted in between; the hypotheses of all the theorems hold, and its next read() ends it. *)
Definition cfg_down : cfg := MkCfg ident (Some 2%Z) (PBool true).
Definition gate2 (i : nat) : list clabel := map CDown [LT i (Ok PNone); LT i (Ok PNone)].
Definition put2 (i : nat) : list clabel := map CDown [LT i (Ok PNone); LT i (Ok PNone)].
Definition piped : list clabel :=
  map CUp (starting (PObj 7) ++ round 0 (PInt 1) ++ [StreamBufferM.LMk 1 false false false]) ++ map CDown (starting (PObj 8)) ++
  gate2 0 ++ [CLink 0] ++ put2 0 ++ gate2 0 ++ [CLink 0; CDown (LT 0 (Ok PNone))] ++ map CUp (round 0 (PInt 2) ++ round 0 (PInt 3)) ++
  gate2 0 ++ [CLink 0] ++ put2 0 ++ map CDown [LStop; LT 0 (Ok PNone); LT 0 (Ok PNone); LT 0 (Ok PNone); LStopRet] ++
  map CDown (LStart :: repeat (LS (Ok tt) (Ok (PObj 9))) 7) ++ gate2 1 ++ [CLink 1] ++ put2 1 ++ [CUp LStop] ++ gate2 1.
Definition clean (tr : list ev) : bool := forallb (fun e => match e with ENext (Some _) _ _ => false | _ => true end) tr.
Definition facts (x : chain) :=
  let u := ch_up x in let d := ch_down x in
  ((clean (sb_tr u), ints_ok (sb_tr u), no_attach (sb_tr u), forwardb 0 (sb_tr u)),
   (reading d 1, ev_set u 0, accepted_by 0 (sb_tr u), all_data_read (sb_tr d)),
   (accepted_by 0 (sb_tr d), accepted_by 1 (sb_tr d), map (fun q => rk_n (rd_r q)) (sb_rds u), map rd_sess (sb_rds u))).
Lemma piped_facts : option_map facts (ch_run cfg3 cfg_down 0 ch0 piped) =
  Some ((true, true, true, true), (true, true, [PInt 1; PInt 2; PInt 3], [PInt 1; PInt 2; PInt 3]), ([PInt 1; PInt 2], [PInt 3], [1%Z], [0])).
Proof. vm_compute. reflexivity. Qed.
Lemma piped_keeps : keeps_upb cfg3 0 0 sb0 (up_sched 0 piped) = true.
Proof. vm_compute. reflexivity. Qed.
Lemma piped_labels : forallb (fun l => match l with CUp (LCallR _ _) | CUp (LIter _) => false | _ => true end) piped = true.
Proof. vm_compute. reflexivity. Qed.
Lemma facts_of o v : option_map facts o = Some v -> exists x, o = Some x /\ facts x = v.
Proof. destruct o as [x|]; [|discriminate]. intro H. exists x. cbn [option_map] in H. split; [reflexivity|congruence]. Qed.
Example C115_nonvacuous :
  exists x q, ch_history cfg3 cfg_down 0 piped x /\ for_the_link 0 piped (ch_up x) /\ stream_keys_in is_int cfg3 (sb_tr (ch_up x)) /\
  stream_ranges_in is_int cfg3 (sb_tr (ch_up x)) /\ never_attached 0 (sb_tr (ch_up x)) /\ moves_forward 0 (sb_tr (ch_up x)) /\
  nth_error (sb_rds (ch_up x)) 0 = Some q /\ reader_keeps_up cfg3 (up_sched 0 piped) 0 (rd_sess q) /\
  strictly_ordered (c_key cfg3) (accepted_by (rd_sess q) (sb_tr (ch_up x))) /\ reading (ch_down x) 1 = true /\ ev_set (ch_up x) (rd_sess q) = true /\
  accepted_by (rd_sess q) (sb_tr (ch_up x)) = all_data_read (sb_tr (ch_down x)) /\
  accepted_by 0 (sb_tr (ch_down x)) = [PInt 1; PInt 2] /\ accepted_by 1 (sb_tr (ch_down x)) = [PInt 3].
Proof.
  destruct (facts_of _ _ piped_facts) as (x & H & F). pose proof piped_keeps as KP. pose proof piped_labels as G. change (ch_history cfg3 cfg_down 0 piped x) in H. revert H G KP. generalize piped. intros ls H G KP.
  unfold facts in F. cbv zeta in F. injection F as F1 F2 F3 F4 F6 F7 F8 F9 F10 F11 F12 F13.
  destruct (sb_rds (ch_up x)) as [|q l] eqn:RD; [discriminate|]. cbn [map] in F12, F13. injection F12 as N1 NL. injection F13 as J _. destruct l; [|discriminate NL].
  exists x, q. rewrite J, RD. destruct (ints_keys cfg3 (sb_tr (ch_up x)) eq_refl F2) as (K & R).
  split; [exact H|]. split.
  { split; [|split].
    - intros l0 X. rewrite forallb_forall in G. specialize (G _ X). destruct l0; auto; discriminate.
    - intros cl o X. unfold clean in F1. rewrite forallb_forall in F1. specialize (F1 _ X). discriminate.
    - rewrite RD. exists q. split; [reflexivity|]. lia. }
  split; [exact K|]. split; [exact R|]. split; [now apply no_attach_never|]. split; [now apply forwardb_spec|]. split; [reflexivity|].
  split; [now apply keeps_upb_spec|]. rewrite F8. split.
  { repeat constructor; do 2 eexists; (split; [reflexivity|]; split; [reflexivity|vm_compute; reflexivity]). }
  split; [exact F6|]. split; [exact F7|]. split; [now rewrite F9|]. split; [exact F10|exact F11].
Qed.

(** A reader that reads two items at a time. *)
Definition by_two : list clabel :=
  map CUp (starting (PObj 7) ++ round 0 (PInt 1) ++ round 0 (PInt 2) ++ [StreamBufferM.LMk 2 false false false]) ++ map CDown (starting (PObj 8)) ++
  gate2 0 ++ [CLink 0] ++ put2 0 ++ gate2 0 ++ [CLink 0].
Example C115_chunks_nonvacuous :
  exists x, ch_history cfg3 cfg_down 0 by_two x /\ (forall l, In (CUp l) by_two -> match l with LCallR k _ | LIter k => k <> 0 | _ => True end) /\
    read_outcomes (sb_tr (ch_down x)) = [Ok (PTuple [PInt 1; PInt 2]); Ok PNone].
Proof.
  destruct (ch_run cfg3 cfg_down 0 ch0 by_two) as [x|] eqn:E; [|vm_compute in E; discriminate]. exists x. split; [exact E|]. split.
  - intros l X. clear E.
    assert (F : forallb (fun l => match l with CUp (LCallR _ _) | CUp (LIter _) => false | _ => true end) by_two = true) by (vm_compute; reflexivity).
    rewrite forallb_forall in F. destruct l; try exact Logic.I; apply F in X; discriminate.
  - vm_compute in E. injection E as <-. reflexivity.
Qed.
