(** * for x in stream_buffer (C95) *)
From Coq Require Import List ZArith Bool Arith Lia.
From Verif Require Import PyVal PyLib PyValFacts SortedDequeM Spec SpecDeque SpecReader SpecLog ListFacts BisectFacts DequeFacts DequeSearch Families
  BufferReaderM BufferSysM ReaderFacts ReaderLoops LogFacts LogReads StreamBufferM SpecStream StreamFacts StreamLife StreamInv StreamView StreamReads StreamMore
  PropsDeque PropsReader PropsIter PropsStreamRead PropsStream StreamSuffix StreamAttach PropsSession StreamClientM PropsJoin.
Import ListNotations.
Open Scope nat_scope.

(** ** Calls never change a reader's defaults *)
Definition same_defaults (r r' : breader) : Prop :=
  rk_n r' = rk_n r /\ rk_peek r' = rk_peek r /\ rk_ignore r' = rk_ignore r /\ rk_strict r' = rk_strict r.
Definition keeps {A} (x : M A) : Prop := forall r, same_defaults r (snd (fst (x r))).
Lemma same_refl r : same_defaults r r.
Proof. now repeat split. Qed.
Lemma same_trans a b c : same_defaults a b -> same_defaults b c -> same_defaults a c.
Proof. unfold same_defaults. intuition congruence. Qed.
Lemma keeps_pure {A} (x : res A) : keeps (liftM x).
Proof. intro r. apply same_refl. Qed.
Lemma keeps_ret {A} (x : A) : keeps (retM x).
Proof. intro r. apply same_refl. Qed.
Lemma keeps_raise {A} e : keeps (@raiseM A e).
Proof. intro r. apply same_refl. Qed.
Lemma keeps_get : keeps getM.
Proof. intro r. apply same_refl. Qed.
Lemma keeps_bind {A B} (x : M A) (f : A -> M B) : keeps x -> (forall a, keeps (f a)) -> keeps (bindM x f).
Proof.
  intros X Y r. unfold bindM. specialize (X r). destruct (x r) as [[t r1] [a|e]]; cbn in *; [|assumption].
  specialize (Y a r1). destruct (f a r1) as [[t2 r2] b]. cbn in *. eapply same_trans; eauto.
Qed.
Lemma keeps_try {A} (x : M A) h : keeps x -> (forall e, keeps (h e)) -> keeps (tryM x h).
Proof.
  intros X Y r. unfold tryM. specialize (X r). destruct (x r) as [[t r1] [a|e]]; cbn in *; [assumption|].
  specialize (Y e r1). destruct (h e r1) as [[t2 r2] b]. cbn in *. eapply same_trans; eauto.
Qed.
Lemma keeps_lock {A} (x : M A) : keeps x -> keeps (with_lock x).
Proof. intros X r. unfold with_lock. specialize (X r). destruct (x r) as [[t r1] a]. exact X. Qed.
Lemma keeps_set d x : keeps (set_last_item d x).
Proof. intro r. unfold set_last_item. destruct (sd_key d x); now repeat split. Qed.
Lemma keeps_call d c : keeps (do_call d c).
Proof.
  assert (K : keeps (do_call d c)); [|exact K].
  destruct c as [a|st|g|p i o|p]; cbn [do_call]; unfold next_dunder, read_for_next, read, read_body, read_many, range, range_body, read, read_body, read_many, tail, tail_body, head, move_cursor;
    repeat match goal with
    | |- keeps (bindM _ _) => apply keeps_bind; [|intro]
    | |- keeps (tryM _ _) => apply keeps_try; [|intro]
    | |- keeps (with_lock _) => apply keeps_lock
    | |- keeps (liftM _) => apply keeps_pure
    | |- keeps (retM _) => apply keeps_ret
    | |- keeps (raiseM _) => apply keeps_raise
    | |- keeps getM => apply keeps_get
    | |- keeps (set_last_item _ _) => apply keeps_set
    | |- keeps (match ?x with _ => _ end) => destruct x
    | |- keeps (let x := _ in _) => cbn zeta
    end.
Qed.
Lemma run_defaults d c r : same_defaults r (fst (run (do_call d c) r)).
Proof. pose proof (keeps_call d c r) as X. unfold run. now destruct (do_call d c r) as [[t r1] a]. Qed.

(** ** What a step does to readers it does not use *)
Definition reader_event (s s' : sb) (l : label) (e : ev) : Prop :=
  match e with
  | ECall r _ _ | EAttach r _ | EPoll r _ => used_reader l = Some r
  | ENext (Some r) _ _ => sb_next s = Some r
  | ENew r _ n p st ig => r = length (sb_rds s) /\ r < length (sb_rds s') /\ (l = StreamBufferM.LMk n p st ig \/ p = false)
  | _ => True
  end.
Lemma step_readers c s l s' : sb_step c s l = Some s' ->
  (exists es, sb_tr s' = sb_tr s ++ es /\ Forall (reader_event s s' l) es) /\
  (sb_next s' = sb_next s \/ sb_next s' = None \/ sb_next s' = Some (length (sb_rds s))) /\
  (forall r q, nth_error (sb_rds s) r = Some q -> used_reader l <> Some r -> sb_next s <> Some r -> nth_error (sb_rds s') r = Some q) /\
  length (sb_rds s) <= length (sb_rds s').
Proof.
  intro H. step_cases H; injection H as <-; proj; subst; cbn [used_reader];
    (split; [first [exists []; split; [now rewrite app_nil_r|constructor]
                   |eexists; split; [rewrite <- ?app_assoc; reflexivity|repeat constructor; cbn; rewrite ?app_length; cbn; auto; lia]]|]);
    (split; [auto|]); (split; [|rewrite ?set_nth_length, ?app_length; cbn; lia]);
    intros rr qq Hq HU HN; try assumption;
    try (rewrite nth_error_app1 by (eapply nth_lt; eauto); assumption);
    rewrite nth_error_set_nth; match goal with |- context [Nat.eqb ?a ?b] => destruct (Nat.eqb_spec a b) as [->|]; [congruence|assumption] end.
Qed.
Definition mentions (r : nat) (e : ev) : Prop :=
  match e with
  | ECall r' _ _ | EAttach r' _ | EPoll r' _ | ENext (Some r') _ _ | ENew r' _ _ _ _ _ => r' = r
  | _ => False
  end.
Lemma used_lt c s l s' r : sb_step c s l = Some s' -> used_reader l = Some r -> r < length (sb_rds s).
Proof.
  intros H U. destruct l as [|o v| | |n p st ig|r0| | |n|kd|jd|kd2|r0 cl|r0|i o]; try discriminate U; injection U as ->; cbn in H.
  - destruct (lock_free s); [|discriminate]. destruct (nth_error (sb_rds s) r) eqn:E; [|discriminate]. eapply nth_lt; eauto.
  - unfold call_step in H. destruct (nth_error (sb_rds s) r) eqn:E; [|discriminate]. eapply nth_lt; eauto.
  - unfold iter_step in H. destruct (nth_error (sb_rds s) r) eqn:E; [|discriminate]. eapply nth_lt; eauto.
Qed.
Lemma rds_snoc c s n p st ig s' : sb_step c s (StreamBufferM.LMk n p st ig) = Some s' ->
  match sb_cur s with Some j => sb_rds s' = sb_rds s ++ [mk_rdr s j n p st ig] | None => sb_rds s' = sb_rds s end /\ sb_next s' = sb_next s.
Proof. cbn. destruct (lock_free s); [|discriminate]. destruct (sb_cur s); intro H; injection H as <-; proj; auto. Qed.
Lemma mention_lt c ls s : history c ls s -> forall r e, In e (sb_tr s) -> mentions r e -> r < length (sb_rds s).
Proof.
  intro H. revert ls s H. apply (sb_ind c (fun _ s => forall r e, In e (sb_tr s) -> mentions r e -> r < length (sb_rds s))).
  - intros r e [].
  - intros ls s l s' Hh IH H r e Hin M. destruct (step_readers c s l s' H) as ((es & Et & RE) & _ & _ & L). rewrite Et in Hin. apply in_app_or in Hin as [Hin|Hin].
    + specialize (IH r e Hin M). lia.
    + rewrite Forall_forall in RE. specialize (RE e Hin). destruct e as [| | | | | | | | |r' j n p st ig| |r' o| |[r'|] cc o|r' cc o|r' o|]; try (destruct M; fail); cbn in M; subst r'; cbn in RE.
      * lia.
      * pose proof (used_lt c s l s' r H RE). lia.
      * pose proof (si_next _ (sinv_history c ls s Hh) r RE). lia.
      * pose proof (used_lt c s l s' r H RE). lia.
      * pose proof (used_lt c s l s' r H RE). lia.
Qed.

(** ** The readers of generators are private *)
Definition private (r : nat) (tr : list ev) : Prop :=
  forall e, In e tr -> match e with
    | ECall r' _ _ | EAttach r' _ | ENext (Some r') _ _ => r' <> r
    | ENew r' _ _ p _ _ => r' = r -> p = false
    | _ => True
    end.
Definition owned (s : sb) (r : nat) : Prop :=
  (exists q, nth_error (sb_rds s) r = Some q /\ rk_n (rd_r q) = 1%Z /\ rk_peek (rd_r q) = false /\ rk_strict (rd_r q) = false /\
             In (ENew r (rd_sess q) 1 false false false) (sb_tr s)) /\
  sb_next s <> Some r /\ private r (sb_tr s).
Lemma iter_record c s r s' : sb_step c s (LIter r) = Some s' -> exists q q', nth_error (sb_rds s) r = Some q /\ nth_error (sb_rds s') r = Some q' /\
  rd_sess q' = rd_sess q /\ same_defaults (rd_r q) (rd_r q') /\ sb_next s' = sb_next s.
Proof.
  intro H. cbn in H. unfold iter_step in H. destruct (nth_error (sb_rds s) r) as [q|] eqn:Hq; [|discriminate]. cbn zeta in H.
  destruct (rd_loop q); [|injection H as <-|injection H as <-|discriminate].
  - destruct (buf_of s (rd_sess q)) as [d|]; [|discriminate]. rewrite <- next_poll in H by reflexivity. pose proof (run_defaults d (CNext false) (rd_r q)) as X.
    destruct (run _ _) as [br v]. destruct (match v with Ok v => _ | Raise _ => _ end) as [lo out]. injection H as <-. proj.
    exists q. eexists. rewrite nth_error_set_nth, Nat.eqb_refl, Hq. split; [reflexivity|]. split; [reflexivity|]. cbn. auto.
  - exists q. eexists. proj. rewrite nth_error_set_nth, Nat.eqb_refl, Hq. split; [reflexivity|]. split; [reflexivity|]. cbn. auto using same_refl.
  - exists q. eexists. proj. rewrite nth_error_set_nth, Nat.eqb_refl, Hq. split; [reflexivity|]. split; [reflexivity|]. cbn. auto using same_refl.
Qed.
Lemma owned_step c s l s' r : sb_step c s l = Some s' -> owned s r -> used_reader l <> Some r \/ l = LIter r -> owned s' r.
Proof.
  intros H ((q & Hq & K1 & K2 & K3 & K4) & N & PR) U. pose proof (nth_lt _ _ _ Hq) as LT.
  destruct (step_readers c s l s' H) as ((es & Et & RE) & NX & KEEP & _). rewrite Forall_forall in RE. split; [|split].
  - assert (X : exists q', nth_error (sb_rds s') r = Some q' /\ rd_sess q' = rd_sess q /\ same_defaults (rd_r q) (rd_r q')).
    { destruct U as [U| ->]; [exists q; split; [now apply KEEP|]; split; [reflexivity|apply same_refl]|].
      destruct (iter_record c s r s' H) as (q0 & q' & A & B & C & D & _). assert (q0 = q) by congruence. subst. eauto. }
    destruct X as (q' & A & B & (D1 & D2 & D3 & D4)). exists q'. rewrite B, D1, D2, D4. repeat split; auto. rewrite Et. apply in_or_app. now left.
  - destruct NX as [->|[->| ->]]; [assumption|discriminate|]. intro X. injection X as X. lia.
  - intros e Hin. rewrite Et in Hin. apply in_app_or in Hin as [Hin|Hin]; [exact (PR e Hin)|]. specialize (RE e Hin).
    destruct e as [| | | | | | | | |r' j n p st ig| |r' o| |[r'|] cc o|r' cc o|r' o|]; auto; cbn in RE; intros ->.
    + lia.
    + destruct U as [U| ->]; [congruence|]. assert (X : In (EAttach r o) (sb_tr s')) by (rewrite Et; apply in_or_app; now right).
      clear - H Et Hin. cbn in H. unfold iter_step in H. destruct (nth_error (sb_rds s) r) as [q|]; [|discriminate]. cbn zeta in H. destruct (rd_loop q); try discriminate.
      * destruct (buf_of s (rd_sess q)); [|discriminate]. destruct (run _ _) as [br v]. destruct (match v with Ok v => _ | Raise _ => _ end). injection H as <-. proj. apply app_inv_head in Et. subst es. destruct Hin as [Hin|[]]. discriminate.
      * injection H as <-. proj. rewrite <- (app_nil_r (sb_tr s)) in Et at 1. apply app_inv_head in Et. subst es. destruct Hin.
      * injection H as <-. proj. rewrite <- (app_nil_r (sb_tr s)) in Et at 1. apply app_inv_head in Et. subst es. destruct Hin.
    + congruence.
    + destruct U as [U| ->]; [congruence|].
      clear - H Et Hin. cbn in H. unfold iter_step in H. destruct (nth_error (sb_rds s) r) as [q|]; [|discriminate]. cbn zeta in H. destruct (rd_loop q); try discriminate.
      * destruct (buf_of s (rd_sess q)); [|discriminate]. destruct (run _ _) as [br v]. destruct (match v with Ok v => _ | Raise _ => _ end). injection H as <-. proj. apply app_inv_head in Et. subst es. destruct Hin as [Hin|[]]. discriminate.
      * injection H as <-. proj. rewrite <- (app_nil_r (sb_tr s)) in Et at 1. apply app_inv_head in Et. subst es. destruct Hin.
      * injection H as <-. proj. rewrite <- (app_nil_r (sb_tr s)) in Et at 1. apply app_inv_head in Et. subst es. destruct Hin.
Qed.
Lemma owned_new c ls s s' j : history c ls s -> sb_step c s (StreamBufferM.LMk 1 false false false) = Some s' -> sb_cur s = Some j -> owned s' (length (sb_rds s)).
Proof.
  intros Hh H C. pose proof (sinv_history c ls s Hh) as I. pose proof (mention_lt c ls s Hh) as ML. cbn in H. destruct (lock_free s); [|discriminate]. rewrite C in H. injection H as <-. proj. split; [|split]; proj.
  - eexists. rewrite nth_snoc, Nat.ltb_irrefl, Nat.eqb_refl. split; [reflexivity|]. cbn. repeat split. apply in_or_app. left. apply in_or_app. right. now left.
  - intro X. pose proof (si_next _ I _ X). lia.
  - intros e Hin. rewrite !in_app_iff in Hin. destruct Hin as [[Hin|[<-|[]]]|[<-|[]]]; auto.
    pose proof (ML (length (sb_rds s)) e Hin) as M. destruct e as [| | | | | | | | |r' k n p st ig| |r' o| |[r'|] cc o|r' cc o|r' o|]; auto; cbn in M; intros ->; specialize (M eq_refl); lia.
Qed.
Lemma existsb_nth' {A} (f : A -> bool) l g x : nth_error l g = Some x -> f x = true -> existsb f l = true.
Proof. intros H F. apply existsb_exists. exists x. split; [eapply nth_error_In; eauto|assumption]. Qed.
Definition gens_ok (cl : client) : Prop :=
  (forall g r, nth_error (cl_gens cl) g = Some (GOn r) -> owned (cl_sb cl) r) /\
  (forall g g' r, nth_error (cl_gens cl) g = Some (GOn r) -> nth_error (cl_gens cl) g' = Some (GOn r) -> g = g').
Lemma gens_history c ls cl : client_history c ls cl -> gens_ok cl.
Proof.
  revert ls cl. apply (cl_ind c (fun _ cl => gens_ok cl)).
  - split; intros [|g]; discriminate.
  - intros ls cl l cl' Hh [IO IU] H. pose proof (stream_history_ok c ls cl Hh) as SH. pose proof (cl_step_stream c cl l cl' H) as SR.
    assert (OLD : forall g r, nth_error (cl_gens cl) g = Some (GOn r) -> owned (cl_sb cl') r).
    { intros g r Hg. specialize (IO g r Hg). destruct l as [a| |n| |g']; cbn [stream_label sb_run] in SR; try (injection SR as <-; assumption).
      - cbn in SR. destruct (sb_step c (cl_sb cl) a) as [m|] eqn:SA; [|discriminate]. injection SR as <-. eapply owned_step; eauto. left. intro U.
        unfold cl_step in H. cbn in H. rewrite SA in H. unfold allowed in H. rewrite U in H. destruct (existsb (owns r) (cl_gens cl)) eqn:EX; [discriminate|].
        rewrite (existsb_nth' _ _ g (GOn r) Hg (Nat.eqb_refl r)) in EX. discriminate.
      - destruct (nth_error (cl_gens cl) g') as [[|r'|]|] eqn:Eg; cbn [sb_run] in SR.
        + destruct (sb_step c (cl_sb cl) (StreamBufferM.LMk 1 false false false)) as [m|] eqn:SA'; [|discriminate]. injection SR as <-.
          eapply owned_step; [exact SA'|assumption|left; discriminate].
        + destruct (sb_step c (cl_sb cl) (LIter r')) as [m|] eqn:SA'; [|discriminate]. injection SR as <-.
          eapply owned_step; [exact SA'|assumption|]. destruct (Nat.eq_dec r' r) as [->|N]; [now right|left; cbn; congruence].
        + now injection SR as <-.
        + now injection SR as <-. }
    assert (G : cl_gens cl' = cl_gens cl \/ cl_gens cl' = cl_gens cl ++ [GNew] \/ exists g, nth_error (cl_gens cl) g = Some GNew /\ 
       ((cl_gens cl' = set_nth (cl_gens cl) g GFailed) \/ (cl_gens cl' = set_nth (cl_gens cl) g (GOn (length (sb_rds (cl_sb cl)))) /\ owned (cl_sb cl') (length (sb_rds (cl_sb cl)))))).
    { unfold cl_step in H. destruct (sb_run c (cl_sb cl) (stream_label cl l)) as [s'|] eqn:ER; [|discriminate]. destruct l as [a| |n| |g].
      - destruct (allowed cl a); [|discriminate]. injection H as <-. auto.
      - injection H as <-. auto.
      - destruct (nth_error (cl_joins cl) n) as [[k| |]|]; try discriminate. destruct (thread_done s' k); [|discriminate]. injection H as <-. auto.
      - injection H as <-. auto.
      - destruct (nth_error (cl_gens cl) g) as [[|r|]|] eqn:Eg; try discriminate; [|injection H as <-; auto].
        right. right. exists g. split; [assumption|]. destruct (sb_cur (cl_sb cl)) as [j|] eqn:C; injection H as <-; [right|left; reflexivity]. split; [reflexivity|].
        unfold stream_label in ER. rewrite Eg in ER. cbn [sb_run] in ER.
        destruct (sb_step c (cl_sb cl) (StreamBufferM.LMk 1 false false false)) as [m|] eqn:SA; [|discriminate]. injection ER as ->.
        eapply owned_new; eauto. }
    destruct G as [G|[G|(g0 & Eg & [G|[G ON]])]]; unfold gens_ok; rewrite G; split.
    + exact OLD.
    + exact IU.
    + intros g r Hg. apply nth_snoc_inv in Hg as [Hg|[_ Hg]]; [eauto|discriminate].
    + intros g g' r Hg Hg'. apply nth_snoc_inv in Hg as [Hg|[_ Hg]]; [|discriminate]. apply nth_snoc_inv in Hg' as [Hg'|[_ Hg']]; [|discriminate]. eauto.
    + intros g r Hg. apply nth_set_inv in Hg as [(_ & Hg & _)|[_ Hg]]; [discriminate|eauto].
    + intros g g' r Hg Hg'. apply nth_set_inv in Hg as [(_ & Hg & _)|[_ Hg]]; [discriminate|]. apply nth_set_inv in Hg' as [(_ & Hg' & _)|[_ Hg']]; [discriminate|]. eauto.
    + intros g r Hg. apply nth_set_inv in Hg as [(_ & Hg & _)|[_ Hg]]; [injection Hg as ->; assumption|eauto].
    + assert (NEW : forall g, nth_error (cl_gens cl) g <> Some (GOn (length (sb_rds (cl_sb cl))))).
      { intros g Hg. destruct (IO g _ Hg) as ((q & Hq & _) & _). apply nth_lt in Hq. lia. }
      intros g g' r Hg Hg'. apply nth_set_inv in Hg as [(-> & Hg & _)|[N Hg]]; apply nth_set_inv in Hg' as [(-> & Hg' & _)|[N' Hg']]; auto.
      * injection Hg as ->. now apply NEW in Hg'.
      * injection Hg' as ->. now apply NEW in Hg.
      * eauto.
Qed.

(** ** C95: for x in stream_buffer *)
(** iter(stream_buffer) does nothing yet, even before start(); the first next() of the
    generator makes a reader of its own on the current session, or raises
    StreamNotStartedError if the latest start() failed or there was none. *)
Theorem C95_iter_is_lazy :
  forall c ls cl, client_history c ls cl ->
  (exists cl', cl_step c cl CIter = Some cl' /\ cl_sb cl' = cl_sb cl /\ nth_error (cl_gens cl') (length (cl_gens cl)) = Some GNew) /\
  forall g, nth_error (cl_gens cl) g = Some GNew -> sb_start (cl_sb cl) = SFree ->
  exists cl', cl_step c cl (CGen g) = Some cl' /\
  match last_start (trace_of cl) with
  | Some (i, true) => let r := length (sb_rds (cl_sb cl)) in
      nth_error (cl_gens cl') g = Some (GOn r) /\ exists q, nth_error (sb_rds (cl_sb cl')) r = Some q /\ rd_sess q = i /\ rd_out q = [] /\ rd_r q = mk_breader 1 false false false
  | _ => nth_error (cl_gens cl') g = Some GFailed /\ trace_of cl' = trace_of cl ++ [EMk (Raise StreamNotStartedError)]
  end.
Proof.
  intros c ls cl H. pose proof (stream_history_ok c ls cl H) as SH. split.
  - cbn. eexists. split; [reflexivity|]. cbn. split; [reflexivity|]. now rewrite nth_error_app2, Nat.sub_diag by lia.
  - intros g Hg F. pose proof (ls_history c _ _ SH) as L. unfold ls_inv in L. rewrite F in L. unfold cl_step, stream_label. rewrite Hg.
    assert (LF : lock_free (cl_sb cl) = true) by (unfold lock_free; now rewrite F).
    cbn [sb_run sb_step]. rewrite LF. unfold trace_of in *. destruct (last_start (sb_tr (cl_sb cl))) as [[i []]|].
    + rewrite L. eexists. split; [reflexivity|]. cbn [cl_gens cl_sb]. rewrite nth_error_set_nth, Nat.eqb_refl, Hg. split; [reflexivity|]. proj.
      rewrite nth_snoc, Nat.ltb_irrefl, Nat.eqb_refl. eexists. split; [reflexivity|]. cbn. auto.
    + destruct L as [-> _]. eexists. split; [reflexivity|]. cbn [cl_gens cl_sb]. rewrite nth_error_set_nth, Nat.eqb_refl, Hg. split; reflexivity.
    + destruct L as [-> _]. eexists. split; [reflexivity|]. cbn [cl_gens cl_sb]. rewrite nth_error_set_nth, Nat.eqb_refl, Hg. split; reflexivity.
Qed.
Print Assumptions C95_iter_is_lazy.
(** Generators keep nobody from anything: every other call on the stream and on readers
    that no generator has made goes as if there were no generators. *)
Theorem C95_nobody_waits_for_a_loop :
  forall c cl l s', sb_step c (cl_sb cl) l = Some s' ->
  (forall r g, (l = LAttach r \/ (exists cc, l = LCallR r cc) \/ l = LIter r) -> nth_error (cl_gens cl) g <> Some (GOn r)) ->
  exists cl', cl_step c cl (CL l) = Some cl' /\ cl_sb cl' = s' /\ cl_gens cl' = cl_gens cl /\ cl_joins cl' = cl_joins cl.
Proof.
  intros c cl l s' H N. unfold cl_step. cbn [stream_label sb_run]. rewrite H.
  assert (A : allowed cl l = true).
  { unfold allowed. destruct (used_reader l) as [r|] eqn:U; [|reflexivity]. apply Bool.negb_true_iff. destruct (existsb (owns r) (cl_gens cl)) eqn:E; [|reflexivity].
    apply existsb_exists in E as (g & Hin & Hg). destruct g as [|k|]; try discriminate Hg. apply Nat.eqb_eq in Hg. subst k. apply In_nth_error in Hin as [i Hi].
    exfalso. apply (N r i); [|exact Hi]. destruct l; try discriminate U; injection U as ->; eauto. }
  rewrite A. eexists. split; [reflexivity|]. auto.
Qed.
Print Assumptions C95_nobody_waits_for_a_loop.

Lemma received_items r tr : Forall (fun v => exists x, x <> PNone /\ v = VItem x) (yielded r tr) -> loop_only r tr -> yielded r tr = map VItem (received r tr).
Proof.
  intros F L. rewrite (loop_only_received r tr L). induction F as [|v l (x & N & ->) F IH]; [reflexivity|]. cbn. destruct x; try congruence; cbn; now rewrite IH at 1.
Qed.
(** What poll does to the reader of a generator. *)
Lemma owned_poll P c ls s r q d : total_family P -> history c ls s -> stream_keys_in P c (sb_tr s) -> owned s r -> nth_error (sb_rds s) r = Some q ->
  buf_of s (rd_sess q) = Some d -> moves_forward r (sb_tr s) ->
  snd (run (read_for_next d) (rd_r q)) = match not_got_yet (c_key c) (received r (sb_tr s)) (sd_list d) with [] => Ok VNone | x :: _ => Ok (VItem x) end /\
  (forall x, In x (not_got_yet (c_key c) (received r (sb_tr s)) (sd_list d)) -> x <> PNone).
Proof.
  intros F H K ((q0 & Hq0 & N1 & _) & _) Hq Hd MF. assert (q0 = q) by congruence. subst q0. destruct (att_history P c ls s F H r K MF) as [I _]. rewrite Hq in I. destruct I as [HP AC].
  destruct (stream_buffer_in P c ls s _ d H K Hd) as (BI & EK & NN & _).
  pose proof (C33_next_protocol P F d BI NN (rd_r q) (at_cursor_in _ _ _ _ AC) false) as X. cbn zeta in X.
  change (sd_list d) with (sd_items d) in *. rewrite EK, (at_cursor_unseen P _ _ _ d F AC (buffer_bok P d BI) EK) in X. destruct X as (X1 & X2 & _).
  change (next_dunder d false) with (do_call d (CNext false)) in *. rewrite next_poll in * by reflexivity. split.
  - destruct (not_got_yet (c_key c) (received r (sb_tr s)) (sd_items d)) as [|x l]; [now rewrite X1|]. apply X2; [discriminate|lia].
  - intros x Hx E. subst x. unfold not_got_yet in Hx. apply filter_In in Hx as [Hx _]. contradiction.
Qed.
Lemma private_loop r tr : private r tr -> loop_only r tr /\ never_attached r tr /\ moves_forward r tr.
Proof.
  intro H. split; [|split].
  - intros e He. specialize (H e He). destruct e as [| | | | | | | | |r' j n p st ig| |r' o| |[r'|] cc o|r' cc o|r' o|]; auto.
  - intros j Hin. specialize (H _ Hin). cbn in H. congruence.
  - intros e He. specialize (H e He). destruct e as [| | | | | | | | |r' j n p st ig| |r' o| |[r'|] cc o|r' cc o|r' o|]; auto. destruct cc; auto. intro. contradiction.
Qed.
(** Polls of an owned reader never raise and yield single items. *)
Lemma owned_yields P c : total_family P -> forall ls cl, client_history c ls cl -> stream_keys_in P c (trace_of cl) -> forall g r, nth_error (cl_gens cl) g = Some (GOn r) ->
  Forall (fun v => exists x, x <> PNone /\ v = VItem x) (yielded r (trace_of cl)) /\ forall o, In (EPoll r o) (trace_of cl) -> exists v, o = Ok v.
Proof.
  intros F ls cl H. revert ls cl H. apply (cl_ind c (fun _ cl => stream_keys_in P c (trace_of cl) -> forall g r, nth_error (cl_gens cl) g = Some (GOn r) ->
    Forall (fun v => exists x, x <> PNone /\ v = VItem x) (yielded r (trace_of cl)) /\ forall o, In (EPoll r o) (trace_of cl) -> exists v, o = Ok v)).
  - intros _ [|g] r Hg; discriminate Hg.
  - intros ls cl l cl' Hh IH H K g r Hg. unfold trace_of in *. pose proof (stream_history_ok c ls cl Hh) as SH. pose proof (cl_step_stream c cl l cl' H) as SR.
    destruct (gens_history c ls cl Hh) as [OW _].
    assert (OLD : nth_error (cl_gens cl) g = Some (GOn r) \/ (nth_error (cl_gens cl) g = Some GNew /\ l = CGen g /\ r = length (sb_rds (cl_sb cl)))).
    { unfold cl_step in H. destruct (sb_run c (cl_sb cl) (stream_label cl l)) as [s'|]; [|discriminate]. destruct l as [a| |n| |g0].
      - destruct (allowed cl a); [|discriminate]. injection H as <-. auto.
      - injection H as <-. auto.
      - destruct (nth_error (cl_joins cl) n) as [[k| |]|]; try discriminate. destruct (thread_done s' k); [|discriminate]. injection H as <-. auto.
      - injection H as <-. cbn in Hg. apply nth_snoc_inv in Hg as [Hg|[_ Hg]]; [auto|discriminate].
      - destruct (nth_error (cl_gens cl) g0) as [[|r0|]|] eqn:Eg; try discriminate; injection H as <-; cbn in Hg; [|auto].
        apply nth_set_inv in Hg as [(-> & Hg & _)|[_ Hg]]; [|auto]. right. destruct (sb_cur (cl_sb cl)); [injection Hg as ->; auto|discriminate]. }
    destruct (stream_label_cases cl l) as [E|[a E]]; rewrite E in SR; cbn [sb_run] in SR.
    { injection SR as SR. destruct OLD as [OLD|(OLD & -> & _)]; [rewrite <- SR in *; eauto|]. unfold stream_label in E. rewrite OLD in E. discriminate. }
    destruct (sb_step c (cl_sb cl) a) as [m|] eqn:SA; [|discriminate]. injection SR as ->.
    destruct (step_readers c _ a _ SA) as ((es & Et & RE) & _). rewrite Forall_forall in RE.
    assert (K0 : stream_keys_in P c (sb_tr (cl_sb cl))) by (rewrite Et in K; eapply sk_app; eauto).
    assert (BASE : Forall (fun v => exists x, x <> PNone /\ v = VItem x) (yielded r (sb_tr (cl_sb cl))) /\ forall o, In (EPoll r o) (sb_tr (cl_sb cl)) -> exists v, o = Ok v).
    { destruct OLD as [OLD|(OLD & -> & ->)]; [eauto|]. split.
      - destruct (no_reader_no_poll c _ _ SH (length (sb_rds (cl_sb cl)))) as [-> _]; [apply nth_error_None; lia|constructor].
      - intros o Hin. pose proof (mention_lt c _ _ SH (length (sb_rds (cl_sb cl))) _ Hin eq_refl). lia. }
    assert (D : a = LIter r \/ (forall o, ~ In (EPoll r o) es)).
    { destruct a as [|o v| | |n p st ig|r0| | |n|kd|jd|kd2|r0 cc|r0|i o]; try (right; intros oo Hin; specialize (RE _ Hin); cbn in RE; discriminate RE).
      - right. intros oo Hin. clear - SA Et Hin. cbn in SA. destruct (lock_free (cl_sb cl)); [|discriminate]. destruct (nth_error (sb_rds (cl_sb cl)) r0); [|discriminate].
        destruct (sb_cur (cl_sb cl)); injection SA as SA; rewrite <- SA in Et; proj; apply app_inv_head in Et; subst es; destruct Hin as [Hin|[]]; discriminate.
      - right. intros oo Hin. clear - SA Et Hin. cbn in SA. unfold call_step in SA. destruct (nth_error (sb_rds (cl_sb cl)) r0) as [q|]; [|discriminate]. destruct (buf_of (cl_sb cl) (rd_sess q)); [|discriminate].
        destruct (run _ _). injection SA as SA; rewrite <- SA in Et; proj; apply app_inv_head in Et; subst es; destruct Hin as [Hin|[]]; discriminate.
      - destruct (Nat.eq_dec r0 r) as [->|N]; [now left|]. right. intros oo Hin. specialize (RE _ Hin). cbn in RE. congruence. }
    destruct BASE as [B1 B2]. rewrite Et. destruct D as [->|D].
    + assert (OLD' : nth_error (cl_gens cl) g = Some (GOn r)) by (destruct OLD as [OLD|(OLD & -> & ->)]; [assumption|unfold stream_label in E; rewrite OLD in E; discriminate]).
      specialize (OW g r OLD'). destruct (private_loop r _ (proj2 (proj2 OW))) as (_ & _ & MF).
      cbn in SA. unfold iter_step in SA. destruct (nth_error (sb_rds (cl_sb cl)) r) as [q|] eqn:Hq; [|discriminate]. cbn zeta in SA.
      destruct (rd_loop q); try discriminate.
      * destruct (buf_of (cl_sb cl) (rd_sess q)) as [d|] eqn:Hd; [|discriminate]. destruct (owned_poll P c _ _ r q d F SH K0 OW Hq Hd MF) as [PO NN].
        destruct (run (read_for_next d) (rd_r q)) as [br o]. cbn [snd] in PO. destruct (match o with Ok v => _ | Raise _ => _ end). injection SA as SA. rewrite <- SA in Et. proj.
        apply app_inv_head in Et. subst es. unfold yielded. rewrite flat_map_app. fold (yielded r (sb_tr (cl_sb cl))). split.
        -- apply Forall_app. split; [assumption|]. cbn. rewrite Nat.eqb_refl. rewrite PO. destruct (not_got_yet _ _ _) as [|x l9] eqn:EN; [constructor|]. cbn.
           pose proof (NN x (or_introl eq_refl)) as NX. destruct x; try congruence; repeat constructor; eauto.
        -- intros o' Hin. apply in_app_or in Hin as [Hin|[Hin|[]]]; [eauto|]. injection Hin as <-. rewrite PO. destruct (not_got_yet _ _ _); eauto.
      * injection SA as SA. rewrite <- SA in Et. proj. rewrite <- (app_nil_r (sb_tr (cl_sb cl))) in Et at 1. apply app_inv_head in Et. subst es. rewrite app_nil_r. auto.
      * injection SA as SA. rewrite <- SA in Et. proj. rewrite <- (app_nil_r (sb_tr (cl_sb cl))) in Et at 1. apply app_inv_head in Et. subst es. rewrite app_nil_r. auto.
    + split.
      * unfold yielded. rewrite flat_map_app. fold (yielded r (sb_tr (cl_sb cl))). apply Forall_app. split; [assumption|].
        assert (Z : yielded r es = []); [|unfold yielded in Z; rewrite Z; constructor].
        clear - D. induction es as [|e es IH]; [reflexivity|]. unfold yielded. cbn [flat_map]. fold (yielded r es). rewrite IH by (intros o Hin; apply (D o); now right). rewrite app_nil_r.
        destruct e as [| | | | | | | | | | | | | | |r' [v|ex]|]; auto. destruct (Nat.eqb_spec r' r) as [->|]; [|reflexivity]. exfalso. apply (D (Ok v)). now left.
      * intros o Hin. apply in_app_or in Hin as [Hin|Hin]; [eauto|]. now apply D in Hin.
Qed.
(** A running loop over the stream: nobody shares its reader; what it has handed out are
    single items of its session, in order, without repetition (the body of the loop gets
    exactly the list [rd_out]); each round it takes the first buffered item after those, or
    waits if there is none; it ends only when its session is stopped and its last look found
    nothing, and never with an exception. *)
Theorem C95_loop :
  forall P, total_family P -> forall c ls cl, client_history c ls cl -> stream_keys_in P c (trace_of cl) ->
  forall g r, nth_error (cl_gens cl) g = Some (GOn r) ->
  (forall g', nth_error (cl_gens cl) g' = Some (GOn r) -> g' = g) /\
  exists q d, nth_error (sb_rds (cl_sb cl)) r = Some q /\ session_of r (trace_of cl) = Some (rd_sess q) /\ buf_of (cl_sb cl) (rd_sess q) = Some d /\
  let got := received r (trace_of cl) in
  rd_out q = map VItem got /\ strictly_ordered (c_key c) got /\
  (stream_ranges_in P c (trace_of cl) -> subseq got (accepted_by (rd_sess q) (trace_of cl))) /\
  match rd_loop q with
  | ItPoll => exists cl' q', cl_step c cl (CGen g) = Some cl' /\ nth_error (sb_rds (cl_sb cl')) r = Some q' /\ rd_sess q' = rd_sess q /\
      match not_got_yet (c_key c) got (sd_list d) with
      | x :: _ => rd_out q' = map VItem (got ++ [x]) /\ rd_loop q' = ItPoll
      | [] => rd_out q' = map VItem got /\ rd_loop q' = ItChk1
      end
  | ItChk1 | ItChk2 => exists cl' q', cl_step c cl (CGen g) = Some cl' /\ nth_error (sb_rds (cl_sb cl')) r = Some q' /\ rd_out q' = map VItem got /\
      (rd_loop q' = ItEnd <-> ev_set (cl_sb cl) (rd_sess q) = true)
  | ItEnd => last_poll r (trace_of cl) = Some (Ok VNone) /\ ev_set (cl_sb cl) (rd_sess q) = true
  end.
Proof.
  intros P F c ls cl H K g r Hg. destruct (gens_history c ls cl H) as [OW UN]. split; [intros g' Hg'; eauto|].
  pose proof (OW g r Hg) as O. pose proof (stream_history_ok c ls cl H) as SH. destruct O as ((q & Hq & N1 & N2 & N3 & IN) & NX & PR). 
  destruct (private_loop r _ PR) as (LO & NA & MF). destruct (si_rds _ (sinv_history c _ _ SH) r q Hq) as [d Hd].
  exists q, d. split; [assumption|]. split; [exact (session_of_history c _ _ SH r q Hq)|]. split; [assumption|]. cbn zeta. destruct (owned_yields P c F ls cl H K g r Hg) as [YI NR]. unfold trace_of in *.
  destruct (loop_history c _ _ SH r q NA Hq) as [IO IL]. pose proof (received_items r _ YI LO) as RI. rewrite <- IO in RI.
  destruct (att_history P c _ _ F SH r K MF) as [I _]. rewrite Hq in I. destruct I as [_ AC].
  split; [assumption|]. split; [apply AC|]. split.
  { intro R. eapply C75_never_repeats; eauto. }
  destruct (owned_poll P c _ _ r q d F SH K (OW g r Hg) Hq Hd MF) as [PO NN].
  assert (ST : cl_step c cl (CGen g) = match sb_step c (cl_sb cl) (LIter r) with Some s' => Some (MkCl s' (cl_joins cl) (cl_gens cl)) | None => None end).
  { unfold cl_step, stream_label. rewrite Hg. cbn [sb_run]. now destruct (sb_step c (cl_sb cl) (LIter r)). }
  rewrite ST. cbn [sb_step]. unfold iter_step. rewrite Hq, (rd_ev_sess c _ _ SH r q Hq). cbn zeta. destruct (rd_loop q).
  - rewrite Hd. destruct (run (read_for_next d) (rd_r q)) as [br o]. cbn [snd] in PO. rewrite PO. destruct (not_got_yet (c_key c) (received r (sb_tr (cl_sb cl))) (sd_list d)) as [|x l0].
    + change (rval_is_none VNone) with true. cbn iota. do 2 eexists. split; [reflexivity|]. cbn [cl_sb]. proj. rewrite nth_error_set_nth, Nat.eqb_refl, Hq. split; [reflexivity|]. cbn. auto.
    + pose proof (NN x (or_introl eq_refl)) as NE. assert (RN : rval_is_none (VItem x) = false) by (destruct x; auto; congruence). rewrite RN.
      do 2 eexists. split; [reflexivity|]. cbn [cl_sb]. proj. rewrite nth_error_set_nth, Nat.eqb_refl, Hq. split; [reflexivity|]. cbn. rewrite RI, map_app. auto.
  - do 2 eexists. split; [reflexivity|]. cbn [cl_sb]. proj. rewrite nth_error_set_nth, Nat.eqb_refl, Hq. split; [reflexivity|]. cbn. split; [assumption|]. destruct (ev_set _ _); split; congruence.
  - do 2 eexists. split; [reflexivity|]. cbn [cl_sb]. proj. rewrite nth_error_set_nth, Nat.eqb_refl, Hq. split; [reflexivity|]. cbn. split; [assumption|]. destruct (ev_set _ _); split; congruence.
  - destruct IL as [IL|(e & IL)]; [assumption|]. exfalso. destruct (last_poll_split r _ _ IL) as (t1 & t2 & Et & _). destruct (NR (Raise e)) as (v & X); [|discriminate].
    rewrite Et. apply in_or_app. right. now left.
Qed.
Print Assumptions C95_loop.

(** ** Two loops, one started before any item and one after; the first sees its end. *)
Definition two_loops : list clabel :=
  [CIter] ++ map CL (starting (PObj 7)) ++ [CGen 0] ++ map CL (round 0 (PInt 1)) ++ [CGen 0; CGen 0] ++
  map CL (round 0 (PInt 2)) ++ [CGen 0; CIter; CGen 1; CGen 1; CGen 0] ++ map CL [LStop; LStopRet] ++ [CGen 0; CGen 0; CGen 0].
Example C95_nonvacuous :
  let cl := end_cl cfg3 two_loops in
  client_history cfg3 two_loops cl /\ stream_keys_in is_int cfg3 (trace_of cl) /\ stream_ranges_in is_int cfg3 (trace_of cl) /\
  cl_gens cl = [GOn 0; GOn 1] /\
  (exists q, nth_error (sb_rds (cl_sb cl)) 0 = Some q /\ rd_out q = [VItem (PInt 1); VItem (PInt 2)] /\ rd_loop q = ItEnd) /\
  (exists q, nth_error (sb_rds (cl_sb cl)) 1 = Some q /\ rd_out q = [VItem (PInt 1)] /\ rd_loop q = ItPoll).
Proof.
  cbn zeta. split; [apply client_history_end; vm_compute; reflexivity|].
  destruct (ints_keys cfg3 (trace_of (end_cl cfg3 two_loops)) eq_refl) as [A B]; [vm_compute; reflexivity|]. split; [exact A|]. split; [exact B|].
  split; [vm_compute; reflexivity|].
  split; eexists; (split; [vm_compute; reflexivity|]); (split; vm_compute; reflexivity).
Qed.
