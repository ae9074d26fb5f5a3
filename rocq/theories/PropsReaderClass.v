(** * The source classes: C63, C64, C65, C77, C78, C79 *)
From Coq Require Import List ZArith QArith Bool Arith Lia.
From Verif Require Import PyVal PyLib SortedDequeM BufferReaderM BufferSysM StreamBufferM SpecStream StreamFacts StreamSourceM PropsStreamRead PropsStream SourcesM SpecSources SourcesFacts ReaderClassM SpecReaderClass.
Import ListNotations.
Open Scope nat_scope.

(** ** C65 *)
Lemma next_cases rs : match gen_next rs with
  | None => exists ds, valid_data rs ds /\ ds = []
  | Some (Ok d, q) => exists sk r, rs = sk ++ r :: q /\ valid_data sk [] /\ yields r d
  | Some (Raise x, q) => exists sk r e, rs = sk ++ r :: q /\ valid_data sk [] /\ fails r e /\ x = from_generator e
  end.
Proof.
  induction rs as [|[r v w] rs IH]; [exists []; split; [constructor|reflexivity]|]. cbn.
  destruct r as [d|e]; [|exists [], (MkRound (Raise e) v w), e; repeat split; [constructor|now left]].
  destruct (v d) as [[]|e] eqn:V; [exists [], (MkRound (Ok d) v w); repeat split; [constructor|assumption]| |].
  - destruct w as [[]|e]; [|exists [], (MkRound (Ok d) v (Raise e)), e; repeat split; [constructor|right; exists d; cbn; auto]].
    assert (S : skips (MkRound (Ok d) v (Ok tt))) by (exists d; cbn; auto).
    destruct (gen_next rs) as [[[d'|x] q]|].
    + destruct IH as (sk & r & -> & A & B). exists (MkRound (Ok d) v (Ok tt) :: sk), r. repeat split; [constructor; assumption|apply B|apply B].
    + destruct IH as (sk & r & e & -> & A & B & C). exists (MkRound (Ok d) v (Ok tt) :: sk), r, e. repeat split; [constructor; assumption|assumption|assumption].
    + destruct IH as (ds & A & ->). exists []. split; [now constructor|reflexivity].
  - exists [], (MkRound (Ok d) v w), e. repeat split; [constructor|right; exists d; cbn; auto].
Qed.
Lemma vd_app a x b y : valid_data a x -> valid_data b y -> valid_data (a ++ b) (x ++ y).
Proof. induction 1; intro H'; cbn; [assumption|apply vd_skip|apply vd_yield]; auto. Qed.
Lemma nexts_fin n : forall rs, gen_nexts n true rs = Some (repeat (Raise StopIteration) n, rs).
Proof. induction n as [|n IH]; intro rs; cbn; [reflexivity|]. now rewrite IH. Qed.
(** [n] next() calls on the iterator of a source, the reads and user hooks doing anything:
    the values yielded are exactly the valid data of the rounds used, in order. Without an
    exception, nothing is read beyond the last value yielded; after one, next() raises
    StopIteration for ever, and the exception is the hook's own (a StopIteration becomes
    RuntimeError, as in every generator). *)
Theorem C65_yields_valid_data :
  forall n rs out rest, gen_nexts n false rs = Some (out, rest) ->
  exists used ds, rs = used ++ rest /\
    ((out = map (@Ok pyval) ds /\ valid_data used ds /\ (used = [] \/ exists a r d, used = a ++ [r] /\ yields r d)) \/
     (exists a r e k, used = a ++ [r] /\ valid_data a ds /\ fails r e /\ out = map (@Ok pyval) ds ++ Raise (from_generator e) :: repeat (Raise StopIteration) k)).
Proof.
  induction n as [|n IH]; intros rs out rest H; cbn in H.
  - injection H as <- <-. exists [], []. split; [reflexivity|]. left. split; [reflexivity|]. split; [constructor|now left].
  - pose proof (next_cases rs) as N. destruct (gen_next rs) as [[[d|x] q]|]; [| |discriminate].
    + destruct (gen_nexts n false q) as [[l q']|] eqn:E; [|discriminate]. injection H as <- <-. destruct N as (sk & r & -> & SK & Y).
      destruct (IH q l q' E) as (used & ds & -> & C). exists (sk ++ r :: used), (d :: ds). split; [now rewrite <- app_assoc|].
      destruct C as [(-> & V & L)|(a & r' & e & k & -> & V & F & ->)].
      * left. split; [reflexivity|]. split; [apply (vd_app sk [] (r :: used) (d :: ds)); [assumption|now constructor]|]. right.
        destruct L as [->|(a & r' & d' & -> & Y')]; [exists sk, r, d; auto|]. exists (sk ++ r :: a), r', d'. rewrite <- app_assoc. auto.
      * right. exists (sk ++ r :: a), r', e, k. rewrite <- app_assoc. split; [reflexivity|]. split; [apply (vd_app sk [] (r :: a) (d :: ds)); [assumption|now constructor]|]. auto.
    + rewrite nexts_fin in H. injection H as <- <-. destruct N as (sk & r & e & -> & SK & F & ->). exists (sk ++ [r]), []. split; [now rewrite <- app_assoc|]. right.
      exists sk, r, e, n. auto.
Qed.
Print Assumptions C65_yields_valid_data.
(** The default, and SourceReader's own iterator: all data but None. *)
Theorem C65_default_skips_none :
  forall rs ds, valid_data (map plain_round rs) ds <-> rs = map (@Ok pyval) (flat_map (fun r => match r with Ok d => [d] | Raise _ => [] end) rs) /\
    ds = flat_map (fun r => match r with Ok PNone => [] | Ok d => [d] | Raise _ => [] end) rs.
Proof.
  induction rs as [|r rs IH]; intro ds; cbn [map flat_map].
  - split; [intro H; inversion H; auto|]. intros [_ ->]. constructor.
  - split.
    + intro H. inversion H as [|? ? ? (d & E & V & W) V'|? ? d ? [E V] V']; subst; apply IH in V' as [V1 ->]; cbn in E; subst r; cbn [map app].
      * cbn in V. destruct d; try discriminate. split; [f_equal; exact V1|reflexivity].
      * cbn in V. split; [f_equal; exact V1|]. destruct d; try reflexivity. discriminate.
    + intros [E ->]. destruct r as [d|e]; cbn in E; [|exfalso; clear - E; 
        assert (X : In (Raise e) (map (@Ok pyval) (flat_map (fun r => match r with Ok d => [d] | Raise _ => [] end) rs))) by (rewrite <- E; now left); apply in_map_iff in X as (? & X & _); discriminate].
      injection E as E. specialize (IH (flat_map (fun r => match r with Ok PNone => [] | Ok d => [d] | Raise _ => [] end) rs)). destruct IH as [_ IH]. specialize (IH (conj E eq_refl)).
      destruct d; try (apply vd_yield; [split; reflexivity|exact IH]). apply vd_skip; [exists PNone; repeat split; reflexivity|exact IH].
Qed.
Print Assumptions C65_default_skips_none.
(** is_valid_data = (data > 2) on ints, reads 1, 5, 2, 3, then a StopIteration. *)
Definition quick_round (r : res pyval) : round_of := MkRound r (fun d => match d with PInt z => Ok (Z.ltb 2 z) | _ => Raise TypeError end) (Ok tt).
Example C65_nonvacuous :
  gen_nexts 4 false (map quick_round [Ok (PInt 1); Ok (PInt 5); Ok (PInt 2); Ok (PInt 3); Raise StopIteration; Ok (PInt 9)]) =
    Some ([Ok (PInt 5); Ok (PInt 3); Raise RuntimeError; Raise StopIteration], [quick_round (Ok (PInt 9))]) /\
  gen_nexts 2 false (map plain_round [Ok PNone; Ok (PInt 0); Ok PNone; Ok (PBool false); Ok (PInt 7)]) = Some ([Ok (PInt 0); Ok (PBool false)], [plain_round (Ok (PInt 7))]).
Proof. split; reflexivity. Qed.

(** ** C64 *)
Lemma closed_gen k ps : forall cl, (k = SetsFlag \/ Forall by_with ps) -> fold_left (sr_step k) ps cl = negb (open_after (negb cl) ps).
Proof.
  induction ps as [|p ps IH]; intros cl H; cbn [fold_left open_after]; [now rewrite negb_involutive|].
  assert (H' : k = SetsFlag \/ Forall by_with ps) by (destruct H as [|H]; [auto|right; inversion H; assumption]).
  assert (D : k = SetsFlag \/ by_with p) by (destruct H as [|H]; [auto|right; inversion H; assumption]).
  rewrite IH by assumption. destruct p as [[[]|e]|[[]|e]|[[]|e]|[[]|e]]; destruct k; cbn; try reflexivity; destruct D as [D|D]; try discriminate D; destruct D.
Qed.
(** QuickSourceReader and classes that follow the docstring: however open() and close() are
    called, and whichever fail, closed is the negation of "open". *)
Theorem C64_flag_setting_classes :
  forall ps, sr_closed SetsFlag ps = negb (open_after false ps).
Proof. intro ps. apply (closed_gen SetsFlag ps true). now left. Qed.
Print Assumptions C64_flag_setting_classes.
(** Every class, as long as only with statements are used. *)
Theorem C64_with_statements_partial :
  forall k ps, Forall by_with ps -> sr_closed k ps = negb (open_after false ps).
Proof. intros k ps H. apply (closed_gen k ps true). now right. Qed.
Print Assumptions C64_with_statements_partial.
(** Violation: HTTPResponseReader, SimplifiedSourceReader and the example SimpleCounterString
    report closed whatever is done by open() and close() - in particular on every
    StreamBuffer, at all times. *)
Theorem C64_direct_calls_refuted :
  (forall ps, Forall direct ps -> sr_closed LeavesFlag ps = true) /\
  (forall c ls s, history c ls s -> sr_closed LeavesFlag (source_ops (sb_tr s)) = true) /\
  (exists c ls s, history c ls s /\ open_after false (source_ops (sb_tr s)) = true /\ count (is_read_of 0) (sb_tr s) = 1).
Proof.
  assert (A : forall ps, Forall direct ps -> sr_closed LeavesFlag ps = true).
  { unfold sr_closed. intros ps H. induction H as [|p ps D F IH]; cbn; [reflexivity|]. destruct p; try (destruct D; fail); cbn; exact IH. }
  split; [exact A|]. split.
  - intros c ls s _. apply A. unfold source_ops. induction (sb_tr s) as [|e tr IH]; cbn; [constructor|]. apply Forall_app. split; [|exact IH]. destruct e; repeat constructor.
  - exists cfg3, (starting (PObj 7) ++ round 0 (PInt 1)), (end_of cfg3 (starting (PObj 7) ++ round 0 (PInt 1))). split; [apply history_end; vm_compute; reflexivity|]. split; vm_compute; reflexivity.
Qed.
Print Assumptions C64_direct_calls_refuted.
Example C64_nonvacuous :
  sr_closed SetsFlag [SOpenCall (Ok tt); SCloseCall (Raise (OtherError 1)); SOpenCall (Ok tt)] = false /\ Forall by_with [SEnter (Ok tt); SExit (Raise KeyError)] /\
  sr_closed LeavesFlag [SEnter (Ok tt); SExit (Raise KeyError)] = false /\ sr_closed LeavesFlag [SEnter (Ok tt); SExit (Ok tt)] = true.
Proof. repeat split. repeat constructor. Qed.

(** ** C63 *)
Lemma sent_open a : forall ps s q o, In (HSend q o) (snd (fst (http_run a s ps))) -> q = open_request a.
Proof.
  induction ps as [|p ps IH]; intros s q o; cbn; [intros []|]. destruct (http_step a s p) as [[s1 e1] o1] eqn:E. specialize (IH s1 q o).
  destruct (http_run a s1 ps) as [[s2 e2] o2]. cbn in *. rewrite in_app_iff. intros [X|X]; [|auto].
  destruct p as [[id|e]|[[]|e]|r now]; cbn in E; try destruct (hs_resp s); injection E as <- <- <-; cbn in X; (destruct X as [X|[]]; congruence) || destruct X.
Qed.
(** The url and the headers are those of the constructor. Missing: method and body. *)
Theorem C63_url_and_headers_partial :
  forall a ps q o, In (HSend q o) (snd (fst (http_run a http0 ps))) -> q_url q = h_url a /\ q_headers q = match h_headers a with Some h => h | None => [] end.
Proof.
  intro a. pose proof (sent_open a) as G.
  intros ps q o X. rewrite (G _ _ _ _ X). split; reflexivity.
Qed.
Print Assumptions C63_url_and_headers_partial.
Lemma str_eqb_refl s : str_eqb s s = true.
Proof. unfold str_eqb. destruct (list_eq_dec Z.eq_dec s s); congruence. Qed.
(** Every request that open() sends is a GET request without a body: it is the configured one
    iff the method given is 'GET'. *)
Theorem C63_method_and_body_refuted :
  forall a ps q o, In (HSend q o) (snd (fst (http_run a http0 ps))) -> get_method q = GET /\ q_data q = None /\ (sent_as_configured a q <-> h_method a = GET).
Proof.
  intro a. pose proof (sent_open a) as G.
  intros ps q o X. rewrite (G _ _ _ _ X). split; [reflexivity|]. split; [reflexivity|]. unfold sent_as_configured. cbn. split.
  - intros [E _]. symmetry. exact E.
  - intros ->. split; [reflexivity|]. split; [reflexivity|]. intro N. exfalso. apply N. exists 71%Z, 69%Z, 84%Z. auto.
Qed.
Print Assumptions C63_method_and_body_refuted.
Lemma upper_get m : str_eqb (upper m) GET = true <-> spells_get m.
Proof.
  unfold str_eqb. destruct (list_eq_dec Z.eq_dec (upper m) GET) as [E|N]; split; try congruence; try discriminate.
  - intros _. destruct m as [|g [|e [|t [|]]]]; try discriminate E. unfold upper, GET in E. cbn [map] in E. injection E as E1 E2 E3.
    exists g, e, t. split; [reflexivity|].
    assert (K : forall z k, (if ((97 <=? z) && (z <=? 122))%Z then (z - 32)%Z else z) = k -> (65 <= k <= 90)%Z -> z = k \/ z = (k + 32)%Z).
    { intros z k Hz Hk. destruct ((97 <=? z) && (z <=? 122))%Z; lia. }
    apply K in E1; [|lia]. apply K in E2; [|lia]. apply K in E3; [|lia]. cbn in *. auto.
  - intros (g & e & t & -> & G & E & T). exfalso. apply N. destruct G as [-> | ->], E as [-> | ->], T as [-> | ->]; reflexivity.
Qed.
(** The request that the constructor builds, and that open() does not send, is the configured
    one. (With an empty method urllib chooses GET or POST itself.) *)
Theorem C63_kept_request_partial :
  forall a, h_method a <> [] -> sent_as_configured a (init_request a) /\ q_url (init_request a) = h_url a /\ q_headers (init_request a) = match h_headers a with Some h => h | None => [] end.
Proof.
  intros a NE. split; [|split; reflexivity]. split; [|split].
  - unfold get_method, init_request. cbn. now destruct (h_method a).
  - intro G. apply upper_get in G. cbn. now rewrite G.
  - intro G. cbn. destruct (str_eqb (upper (h_method a)) GET) eqn:E; [|reflexivity]. exfalso. apply G. now apply upper_get.
Qed.
Print Assumptions C63_kept_request_partial.
(** POST with a body, opened. *)
Example C63_nonvacuous :
  let a := MkHttp [104%Z] POST (Some [([65%Z], [66%Z])]) (PBytes [1%Z]) [] in
  snd (fst (http_run a http0 [HOpen (Ok 5)])) = [HSend (MkReq [104%Z] None [([65%Z], [66%Z])] None) (Ok 5)] /\ get_method (init_request a) = POST /\ q_data (init_request a) = Some (PBytes [1%Z]).
Proof. repeat split. Qed.

(** ** C77 *)
(** Violation: whatever a stream on an HTTPResponseReader reads, it is never None. *)
Theorem C77_eof_is_data_refuted :
  forall a c ls s, stream_on (http_source a) c ls s -> forall i v, In (ERead i (Ok v)) (sb_tr s) -> exists now d, v = PTuple [now; d].
Proof.
  intros a c ls s (_ & _ & st & P) i v X.
  assert (Y : In (ERead i (Ok v)) (source_events (sb_tr s))) by (apply filter_In; auto).
  clear X. revert P Y. generalize (so_init (http_source a)). induction (source_events (sb_tr s)) as [|e evs IH]; intros s0 P Y; [destruct Y|].
  inversion P; subst; destruct Y as [Y|Y]; try discriminate Y; eauto.
  injection Y as -> ->. match goal with Z : so_read _ _ _ |- _ => destruct Z as (o & now & E) end. cbn in E. destruct (hs_resp s0); [|discriminate]. destruct o; [|discriminate]. injection E as _ ->. eauto.
Qed.
Print Assumptions C77_eof_is_data_refuted.
(** At the end of the response, read() gives empty bytes again and again: they fill the
    buffer; and when two of them fall on the same tick of the clock, the second is rejected
    and the thread dies. *)
Definition tick (n : Z) (b : list Z) : pyval := PTuple [PFloat (FFin (inject_Z n)); PBytes b].
Definition http_hist : list label :=
  starting (PObj 7) ++ round 0 (tick 1 [104; 105]%Z) ++ round 0 (tick 2 []) ++ round 0 (tick 3 []) ++ round 0 (tick 3 []) ++ [LT 0 (Ok PNone); LT 0 (Ok PNone); LT 0 (Ok PNone)].
Theorem C77_eof_fills_and_kills_refuted :
  let c := MkCfg http_key (Some 2%Z) (PBool true) in let s := end_of c http_hist in let a := MkHttp [104%Z] GET None PNone [] in
  stream_on (http_source a) c http_hist s /\ accepted_by 0 (sb_tr s) = [tick 1 [104; 105]%Z; tick 2 []; tick 3 []] /\
  option_map sd_list (buf_of s 0) = Some [tick 2 []; tick 3 []] /\ In (EAppend 0 0 (tick 3 []) (Raise ValueError)) (sb_tr s) /\ thread_is s 0 (TDone (Some ValueError)).
Proof.
  cbn zeta. split.
  - split; [apply history_end; vm_compute; reflexivity|]. split; [apply orderlyb_ok; vm_compute; reflexivity|]. exists (MkHS None 0).
    assert (E : source_events (sb_tr (end_of (MkCfg http_key (Some 2%Z) (PBool true)) http_hist)) =
      [EOpen 0 (Ok tt); ERead 0 (Ok (tick 1 [104; 105]%Z)); ERead 0 (Ok (tick 2 [])); ERead 0 (Ok (tick 3 [])); ERead 0 (Ok (tick 3 [])); EClose 0 (Ok tt)]) by (vm_compute; reflexivity).
    rewrite E. clear E. eapply pl_open; [exists (Ok 0); reflexivity|].
    eapply pl_read; [exists (Ok (PBytes [104; 105]%Z)), (PFloat (FFin (inject_Z 1))); reflexivity|].
    eapply pl_read; [exists (Ok (PBytes [])), (PFloat (FFin (inject_Z 2))); reflexivity|].
    eapply pl_read; [exists (Ok (PBytes [])), (PFloat (FFin (inject_Z 3))); reflexivity|].
    eapply pl_read; [exists (Ok (PBytes [])), (PFloat (FFin (inject_Z 3))); reflexivity|].
    eapply pl_close; [exists (Ok tt); reflexivity|]. apply pl_nil.
  - set (s := end_of _ _). assert (E : sb_tr s = [EOpen 0 (Ok tt); EBuilt 0 (PObj 7); EStarted 0; ERead 0 (Ok (tick 1 [104; 105]%Z)); EAppend 0 0 (tick 1 [104; 105]%Z) (Ok tt);
      ERead 0 (Ok (tick 2 [])); EAppend 0 0 (tick 2 []) (Ok tt); ERead 0 (Ok (tick 3 [])); EAppend 0 0 (tick 3 []) (Ok tt); ERead 0 (Ok (tick 3 [])); EAppend 0 0 (tick 3 []) (Raise ValueError); EClose 0 (Ok tt)])
      by (vm_compute; reflexivity).
    rewrite E. split; [vm_compute; reflexivity|]. split; [vm_compute; reflexivity|]. split; [do 10 right; left; reflexivity|]. eexists. split; vm_compute; reflexivity.
Qed.
Print Assumptions C77_eof_fills_and_kills_refuted.

(** ** C78 *)
(** Violation: info['n_bytes_read'] is 0 for ever. *)
Theorem C78_bytes_never_counted_refuted :
  (forall a ps, info_bytes (fst (fst (http_run a http0 ps))) = 0%Z) /\
  (exists a ps, bytes_read (snd (fst (http_run a http0 ps))) = 5%Z).
Proof.
  split.
  - intro a. assert (G : forall ps s, hs_bytes (fst (fst (http_run a s ps))) = hs_bytes s).
    { induction ps as [|p ps IH]; intro s; cbn; [reflexivity|]. destruct (http_step a s p) as [[s1 e1] o1] eqn:E. specialize (IH s1). destruct (http_run a s1 ps) as [[s2 e2] o2]. cbn in *. rewrite IH.
      destruct p as [[id|e]|[[]|e]|r now]; cbn in E; try destruct (hs_resp s); injection E as <- <- <-; reflexivity. }
    intro ps. apply G.
  - exists (MkHttp [104%Z] GET None PNone []), [HOpen (Ok 1); HReadCall (Ok (PBytes [1; 2; 3]%Z)) (PInt 1); HReadCall (Ok (PBytes [4; 5]%Z)) (PInt 2)]. reflexivity.
Qed.
Print Assumptions C78_bytes_never_counted_refuted.

(** ** C79 *)
Definition fresh_ids (ps : list hop) : Prop := NoDup (flat_map (fun p => match p with HOpen (Ok i) => [i] | _ => [] end) ps).
Lemma opened_app a b : opened_responses (a ++ b) = opened_responses a ++ opened_responses b.
Proof. apply flat_map_app. Qed.
Lemma closed_app a b : closed_responses (a ++ b) = closed_responses a ++ closed_responses b.
Proof. apply flat_map_app. Qed.
Lemma http_app a ps p : forall s, http_run a s (ps ++ [p]) =
  let '(s1, e1, o1) := http_run a s ps in let '(s2, e2, o2) := http_step a s1 p in (s2, e1 ++ e2, o1 ++ [o2]).
Proof.
  induction ps as [|p' ps IH]; intro s; cbn [app http_run].
  - destruct (http_step a s p) as [[s2 e2] o2]. now rewrite app_nil_r.
  - destruct (http_step a s p') as [[s1 e1] o1]. rewrite IH. destruct (http_run a s1 ps) as [[s2 e2] o2]. destruct (http_step a s2 p) as [[s3 e3] o3]. now rewrite app_assoc.
Qed.
Lemma alt_app held ps p : alternating held (ps ++ [p]) -> alternating held ps /\
  (forall a s, (hs_resp s = None <-> held = false) -> forall i, p = HOpen (Ok i) -> hs_resp (fst (fst (http_run a s ps))) = None).
Proof.
  revert held. induction ps as [|p' ps IH]; intros held H; cbn [app alternating] in H.
  - split; [exact Logic.I|]. intros a s R i ->. cbn. apply R. apply H.
  - destruct p' as [[i|e]|[[]|e]|r now].
    + destruct H as [-> H]. destruct (IH _ H) as [A B]. split; [cbn; auto|]. intros a s R k E. cbn. specialize (B a (MkHS (Some i) (hs_bytes s))). destruct (http_run a (MkHS (Some i) (hs_bytes s)) ps) as [[s2 e2] o2].
      cbn in *. eapply B; eauto. split; discriminate.
    + destruct (IH _ H) as [A B]. split; [cbn; auto|]. intros a s R k E. cbn. specialize (B a s R k E). destruct (http_run a s ps) as [[s2 e2] o2]. assumption.
    + destruct (IH _ H) as [A B]. split; [cbn; auto|]. intros a s R k E. cbn. destruct (hs_resp s) as [id|] eqn:ER; cbn.
      * specialize (B a (MkHS None (hs_bytes s))). destruct (http_run a (MkHS None (hs_bytes s)) ps) as [[s2 e2] o2]. cbn in *. eapply B; eauto. split; auto.
      * specialize (B a s). destruct (http_run a s ps) as [[s2 e2] o2]. cbn in *. eapply B; eauto. split; auto.
    + destruct (IH _ H) as [A B]. split; [cbn; auto|]. intros a s R k E. cbn. specialize (B a s R k E). destruct (hs_resp s) as [id|] eqn:ER; cbn; destruct (http_run a s ps) as [[s2 e2] o2]; assumption.
    + destruct (IH _ H) as [A B]. split; [cbn; auto|]. intros a s R k E. cbn. specialize (B a s R k E). destruct (hs_resp s) as [id|] eqn:ER; cbn; destruct (http_run a s ps) as [[s2 e2] o2]; assumption.
Qed.
(** Whatever is called: a response is closed at most once, only those that were obtained are
    closed, and the one in use is not closed; if open() is not called again before close(),
    every response but the one in use has been closed. *)
Theorem C79_responses_are_closed :
  forall a ps, fresh_ids ps -> let '(s, es, _) := http_run a http0 ps in
  NoDup (closed_responses es) /\ (forall i, In i (closed_responses es) -> In i (opened_responses es)) /\
  (forall i, hs_resp s = Some i -> In i (opened_responses es) /\ ~ In i (closed_responses es)) /\
  (alternating false ps -> forall i, In i (opened_responses es) -> In i (closed_responses es) \/ hs_resp s = Some i).
Proof.
  intros a ps. induction ps as [|p ps IH] using rev_ind; intro F; [cbn; split; [constructor|split; [intros i []|split; [discriminate|intros _ i []]]]|].
  rewrite http_app. assert (F1 : fresh_ids ps /\ forall i, p = HOpen (Ok i) -> ~ In i (flat_map (fun p => match p with HOpen (Ok i) => [i] | _ => [] end) ps)).
  { unfold fresh_ids in *. rewrite flat_map_app in F. clear IH. induction (flat_map (fun p => match p with HOpen (Ok i) => [i] | _ => [] end) ps) as [|x l IH]; cbn [app] in F.
    - split; [constructor|intros i _ []].
    - inversion F; subst. destruct (IH H2) as [A B]. split; [constructor; [intro X; apply H1, in_or_app; now left|assumption]|]. intros i ->. intros [->|X]; [|now apply (B i)].
      apply H1, in_or_app. right. cbn. now left. }
  destruct F1 as [F1 F2]. specialize (IH F1).
  assert (OP : opened_responses (snd (fst (http_run a http0 ps))) = flat_map (fun p => match p with HOpen (Ok i) => [i] | _ => [] end) ps).
  { clear. generalize http0. induction ps as [|p ps IH]; intro s; cbn [http_run flat_map]; [reflexivity|]. destruct (http_step a s p) as [[s1 e1] o1] eqn:E. specialize (IH s1). destruct (http_run a s1 ps) as [[s2 e2] o2]. cbn [fst snd] in *.
    rewrite opened_app, IH. f_equal. destruct p as [[id|e]|[[]|e]|r now]; cbn in E; try destruct (hs_resp s); injection E as <- <- <-; reflexivity. }
  assert (AL : alternating false (ps ++ [p]) -> alternating false ps /\ forall i, p = HOpen (Ok i) -> hs_resp (fst (fst (http_run a http0 ps))) = None).
  { intro X. destruct (alt_app false ps p X) as [A B]. split; [assumption|]. apply B. cbn. tauto. }
  destruct (http_run a http0 ps) as [[s e] o]. cbn [fst snd] in OP, AL. destruct IH as (I1 & I2 & I3 & I4).
  destruct (http_step a s p) as [[s2 e2] o2] eqn:E. rewrite closed_app, opened_app.
  destruct p as [[id|x]|[[]|x]|r now]; cbn in E.
  - injection E as <- <- <-. cbn. rewrite app_nil_r. specialize (F2 id eq_refl). rewrite <- OP in F2. split; [assumption|]. split; [intros i X; apply in_or_app; left; auto|]. split.
    + intros i X. injection X as <-. split; [apply in_or_app; right; now left|]. intro X. apply F2. auto.
    + intros AA i X. destruct (AL AA) as [A1 A2]. specialize (A2 id eq_refl). apply in_app_or in X as [X|[X|[]]]; [|right; congruence]. left. destruct (I4 A1 i X); [assumption|congruence].
  - injection E as <- <- <-. cbn. rewrite !app_nil_r. repeat split; auto; try apply I3; auto. intros AA. apply I4. apply (AL AA).
  - destruct (hs_resp s) as [id|] eqn:ER; injection E as <- <- <-; cbn; rewrite !app_nil_r.
    + destruct (I3 id eq_refl) as [J1 J2]. split; [|split; [|split]].
      * apply NoDup_rev in I1. rewrite <- (rev_involutive (closed_responses e ++ [id])). apply NoDup_rev. rewrite rev_app_distr. cbn. constructor; [|assumption]. now rewrite <- in_rev.
      * intros i X. apply in_app_or in X as [X|[<-|[]]]; auto.
      * discriminate.
      * intros AA i X. destruct (AL AA) as [A1 _]. left. apply in_or_app. destruct (I4 A1 i X) as [|Y]; [now left|]. right. left. congruence.
    + repeat split; auto; try congruence. intros AA i X. destruct (AL AA) as [A1 _]. destruct (I4 A1 i X); [now left|congruence].
  - destruct (hs_resp s) as [id|] eqn:ER; injection E as <- <- <-; cbn; rewrite !app_nil_r; repeat split; auto; try (rewrite ER in *; apply I3; auto; fail); try (rewrite ER in *; congruence); intros AA; rewrite ?ER; apply I4; apply (AL AA).
  - destruct (hs_resp s) as [id|] eqn:ER; injection E as <- <- <-; cbn; rewrite !app_nil_r; repeat split; auto; try (rewrite ER in *; apply I3; auto; fail); try (rewrite ER in *; congruence); intros AA; rewrite ?ER; apply I4; apply (AL AA).
Qed.
Print Assumptions C79_responses_are_closed.
(** close() when there is nothing to close does nothing; read() after close() raises. open()
    and close() return None or what the network raised, and one that raised leaves the reader
    as it was. *)
Theorem C79_closed_reader :
  (forall a s o, snd (http_step a s (HOpen o)) = match o with Ok _ => Ok PNone | Raise e => Raise e end /\ (forall e, o = Raise e -> fst (fst (http_step a s (HOpen o))) = s)) /\
  (forall a s o, snd (http_step a s (HClose o)) = Ok PNone \/ (exists e, o = Raise e /\ http_step a s (HClose o) = (s, snd (fst (http_step a s (HClose o))), Raise e))) /\
  forall a ps, let s := fst (fst (http_run a http0 (ps ++ [HClose (Ok tt)]))) in
  (forall o, http_step a s (HClose o) = (s, [], Ok PNone)) /\ (forall o now, http_step a s (HReadCall o now) = (s, [], Raise AttributeError)).
Proof.
  split; [intros a s [id|e]; split; try reflexivity; intros x X; congruence|].
  split; [intros a s o; unfold http_step; destruct (hs_resp s); [destruct o as [u|e]|]; cbn; eauto|].
  intros a ps. cbn zeta. assert (E : hs_resp (fst (fst (http_run a http0 (ps ++ [HClose (Ok tt)])))) = None).
  { rewrite http_app. destruct (http_run a http0 ps) as [[s e] o']. cbn. destruct (hs_resp s) eqn:ER; [reflexivity|assumption]. }
  unfold http_step. rewrite E. auto.
Qed.
Print Assumptions C79_closed_reader.
(** Without the condition a response is never closed. *)
Example C79_nonvacuous :
  let a := MkHttp [104%Z] GET None PNone [] in
  fresh_ids [HOpen (Ok 1); HClose (Raise KeyError); HClose (Ok tt); HClose (Ok tt); HOpen (Ok 2)] /\
  alternating false [HOpen (Ok 1); HClose (Raise KeyError); HClose (Ok tt); HClose (Ok tt); HOpen (Ok 2)] /\
  (let '(s, es, _) := http_run a http0 [HOpen (Ok 1); HOpen (Ok 2); HClose (Ok tt)] in opened_responses es = [1; 2] /\ closed_responses es = [2] /\ hs_resp s = None).
Proof. cbn. repeat split. repeat constructor; cbn; intuition discriminate. Qed.
