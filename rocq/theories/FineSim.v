(** * Single steps inside the buffers are explained by whole calls *)
From Coq Require Import List ZArith Bool Arith Lia.
From Verif Require Import PyVal PyLib SortedDequeM Spec SpecDeque BufferReaderM BufferSysM ListFacts DequeFacts DequeSearch LogFacts LogReads
  RWLockM SpecLock LockFacts LockProps ReaderStepsM SpecLin LinFacts LinShape LinSim LinStep LinRun
  StreamBufferM SpecStream StreamFacts StreamFineM SpecFine FineOut.
Import ListNotations.

(** ** Changes to the list of readers, and other changes from outside *)
Section Core.
Variable K : pyval -> res pyval.
Notation core := (core K).
Lemma core_tr L b P tr : core L b P -> core (MkLs (ls_lock L) (ls_rds L) (ls_ths L) tr) b P.
Proof. intros []. constructor; auto. Qed.
Lemma core_todo L b P i h q tr : core L b P -> nth_error (ls_ths L) i = Some h ->
  core (MkLs (ls_lock L) (ls_rds L) (set_nth (ls_ths L) i (MkLth (h_ph h) q)) tr) b P.
Proof.
  intros [A1 A2 A3 A4 A5 A6 A7 A8 A9] Hh.
  assert (G : forall k g, nth_error (set_nth (ls_ths L) i (MkLth (h_ph h) q)) k = Some g -> exists g', nth_error (ls_ths L) k = Some g' /\ h_ph g' = h_ph g).
  { intros k g Hg. apply nth_set_inv in Hg as [(-> & -> & _)|[N Hg]]; eauto. }
  constructor; cbn [ls_lock ls_rds ls_ths ls_tr]; auto.
  - now rewrite set_nth_length.
  - intros k t g Ht Hg. destruct (G k g Hg) as (g' & Hg' & E). specialize (A3 k t g' Ht Hg'). unfold thread_rel in *. rewrite E in A3. exact A3.
  - intro r. destruct (A7 r) as [X|(k & g & cl & p & X1 & X2)]; [now left|right]. destruct (Nat.eq_dec i k) as [->|N].
    + exists k, (MkLth (h_ph h) q), cl, p. rewrite nth_error_set_nth, Nat.eqb_refl, X1. split; [reflexivity|]. cbn. congruence.
    + exists k, g, cl, p. rewrite nth_error_set_nth. destruct (Nat.eqb_spec i k); [congruence|]. auto.
  - intros k k' g g' r cl p cl' p' Hk Hk' E E'. destruct (G k g Hk) as (x & X1 & X2). destruct (G k' g' Hk') as (y & Y1 & Y2).
    exact (A9 k k' x y r cl p cl' p' X1 Y1 (eq_trans X2 E) (eq_trans Y2 E')).
Qed.
Lemma core_rds L d R R' rds' P tr : core L (MkBS d R) P ->
  length rds' = length R' ->
  (forall r, nth_error rds' r = nth_error R' r \/ (nth_error rds' r = nth_error (ls_rds L) r /\ nth_error R' r = nth_error R r)) ->
  (forall i h r cl p, nth_error (ls_ths L) i = Some h -> h_ph h = PhCall r cl p -> nth_error rds' r = nth_error (ls_rds L) r /\ nth_error R' r = nth_error R r) ->
  core (MkLs (ls_lock L) rds' (ls_ths L) tr) (MkBS d R') P.
Proof.
  intros [A1 A2 A3 A4 A5 A6 A7 A8 A9] LE F F2. constructor; cbn [ls_lock ls_rds ls_ths ls_tr s_rds s_buf] in *; auto.
  - intros k t g Ht Hg. unfold the_buf. cbn [ls_lock]. apply thread_rel_frame with (the_buf L) (MkBS d R) (ls_rds L); auto; eauto.
  - intro r. destruct (F r) as [X|[X1 X2]]; [now left|]. rewrite X1, X2. destruct (A7 r); auto.
Qed.
Lemma core_add L d R P q tr : core L (MkBS d R) P -> core (MkLs (ls_lock L) (ls_rds L ++ q) (ls_ths L) tr) (MkBS d (R ++ q)) P.
Proof.
  intro C. pose proof (sm_nrds _ _ _ _ C) as N. cbn in N. eapply core_rds; eauto.
  - rewrite !app_length. lia.
  - intro r. destruct (Nat.ltb_spec r (length R)).
    + right. rewrite !nth_error_app1 by lia. auto.
    + left. rewrite !nth_error_app2 by lia. now rewrite N.
  - intros i h r cl p Hh E. destruct (nth_error (st_ths (ls_lock L)) i) as [t|] eqn:Ht.
    2:{ apply nth_error_None in Ht. rewrite <- (sm_len _ _ _ _ C) in Ht. apply nth_error_None in Ht. congruence. }
    pose proof (sm_th _ _ _ _ C i t h Ht Hh) as T. unfold thread_rel in T. rewrite E in T. destruct T as (r0 & r1 & n & T1 & T2 & _).
    cbn in T1. split; apply nth_error_app1; apply nth_error_Some; congruence.
Qed.
Lemma not_calling L r : calling L r = false -> forall i h cl p, nth_error (ls_ths L) i = Some h -> h_ph h <> PhCall r cl p.
Proof.
  unfold calling. intros H i h cl p Hh E. assert (X : existsb (fun h => match h_ph h with PhCall r' _ _ => Nat.eqb r' r | _ => false end) (ls_ths L) = true).
  { apply existsb_exists. exists h. split; [eapply nth_error_In; eauto|]. rewrite E. apply Nat.eqb_refl. }
  congruence.
Qed.
Lemma core_set L d R P r x tr : core L (MkBS d R) P -> (forall i h cl p, nth_error (ls_ths L) i = Some h -> h_ph h <> PhCall r cl p) ->
  core (MkLs (ls_lock L) (set_nth (ls_rds L) r x) (ls_ths L) tr) (MkBS d (set_nth R r x)) P.
Proof.
  intros C NC. pose proof (sm_nrds _ _ _ _ C) as N. cbn in N. eapply core_rds; eauto.
  - now rewrite !set_nth_length.
  - intro r'. rewrite !nth_error_set_nth. destruct (Nat.eqb_spec r r') as [->|]; [left|right; auto].
    destruct (nth_error (ls_rds L) r') eqn:X; destruct (nth_error R r') eqn:Y; auto.
    + apply nth_error_None in Y. apply nth_lt in X. lia.
    + apply nth_error_None in X. apply nth_lt in Y. lia.
  - intros i h r' cl p Hh E. rewrite !nth_error_set_nth. destruct (Nat.eqb_spec r r') as [->|]; [|auto]. exfalso. eapply NC; eauto.
Qed.
End Core.

(** ** The relation *)
Section Fine.
Variable c : cfg.
Variable clients : nat.
Hypothesis AU : is_True (c_auto c) = true.
Notation core := (core (c_key c)).
Notation rthread := (rthread clients).

(* the operation a thread is in *)
Definition op_ok (s0 : sb) (j i : nat) (o : lop) : Prop :=
  if Nat.leb clients i
  then exists e x, nth_error (sb_ss s0) (i - clients) = Some e /\ se_pc e = TPut j x /\ o = LAppend x
  else exists r cl q, o = LCall r cl /\ (forall b, cl <> CNext b) /\ nth_error (sb_rds s0) r = Some q /\ rd_sess q = j.
Definition slot_ok (s0 : sb) (j i : nat) (st : tstat) : Prop :=
  match st with Rest => True | Called o => op_ok s0 j i o | Acted o v => op_ok s0 j i o /\ match o with LAppend _ => exists u, v = OUnit u | _ => exists u, v = OVal u end end.
Definition buf_rel (s : sb) (P : nat -> tstat) (j : nat) (L : lstate) : Prop :=
  exists d R, buf_of s j = Some d /\ core L (MkBS d R) P /\ ls_tr L = [] /\ length R = length (sb_rds s) /\
    length (ls_ths L) = clients + S j /\ (forall i h, nth_error (ls_ths L) i = Some h -> h_todo h = []) /\
    forall r q, nth_error (sb_rds s) r = Some q -> rd_sess q = j -> nth_error R r = Some (rd_r q).
Lemma seen_f_app x y : seen_f (x ++ y) = seen_f x ++ seen_f y. Proof. apply flat_map_app. Qed.
Lemma taken_app x y : taken clients (x ++ y) = taken clients x ++ taken clients y. Proof. apply flat_map_app. Qed.
Lemma on_buf_app j i x y : on_buf j i (x ++ y) = on_buf j i x ++ on_buf j i y. Proof. apply flat_map_app. Qed.
Lemma seen_f_ge es : seen_f (map GE es) = map FEv es.
Proof. induction es as [|e es IH]; [reflexivity|]. cbn. now f_equal. Qed.
Lemma taken_ge es : taken clients (map GE es) = es.
Proof. induction es as [|e es IH]; [reflexivity|]. cbn. now f_equal. Qed.
Lemma on_buf_ge j i es : on_buf j i (map GE es) = [].
Proof. induction es as [|e es IH]; [reflexivity|]. exact IH. Qed.

(* calls on reader [r] that have taken effect, and those that have returned *)
Definition act_r (r : nat) (w : list gev) : list (call * res rval) := answered_by r (taken clients w).
Definition ret_r (r : nat) (w : list gev) : list (call * res rval) := returned_by r (seen_f w).
Lemma act_r_app r x y : act_r r (x ++ y) = act_r r x ++ act_r r y. Proof. unfold act_r. rewrite taken_app. apply flat_map_app. Qed.
Lemma ret_r_app r x y : ret_r r (x ++ y) = ret_r r x ++ ret_r r y. Proof. unfold ret_r. rewrite seen_f_app. apply flat_map_app. Qed.
Lemma act_r_ge r es : (forall r cl v, ~ In (ECall r cl v) es) -> act_r r (map GE es) = [].
Proof.
  unfold act_r. rewrite taken_ge. unfold answered_by. induction es as [|e es IH]; [reflexivity|]. intro H. cbn [flat_map]. rewrite IH by (intros r' cl v X; eapply H; right; eauto).
  destruct e; auto. exfalso. eapply H. left. reflexivity.
Qed.
Lemma ret_r_ge r es : ret_r r (map GE es) = [].
Proof. unfold ret_r. rewrite seen_f_ge. induction es as [|e es IH]; [reflexivity|]. exact IH. Qed.
Definition pend_r (w : list gev) (P : nat -> nat -> tstat) (r : nat) : Prop :=
  (exists j i cl v, P j i = Acted (LCall r cl) (OVal v) /\ act_r r w = ret_r r w ++ [(cl, v)]) \/
  ((forall j i cl v, P j i <> Acted (LCall r cl) v) /\ act_r r w = ret_r r w).
(* appends and calls are never events of their own *)
Definition ge_ok (w : list gev) : Prop := forall e, In (GE e) w -> match e with ECall _ _ _ | EAppend _ _ _ _ | ENext (Some _) _ _ | EPoll _ _ => False | _ => True end.
Record frel (w : list gev) (f : fsb) (s : sb) (P : nat -> nat -> tstat) (a : nat -> option tpc) : Prop := {
  fr_o : exists t0 t, orel a t0 t (f_s f) s;
  fr_a : forall i, match a i with
           | Some p => exists e j x v, nth_error (sb_ss (f_s f)) i = Some e /\ se_pc e = TPut j x /\ P j (rthread i) = Acted (LAppend x) v /\ p = after_put v
           | None => forall j o v, P j (rthread i) <> Acted o v
           end;
  fr_slot : forall j i, slot_ok (f_s f) j i (P j i);
  fr_nb : length (f_bufs f) = length (sb_ss s);
  fr_buf : forall j, match nth_error (f_bufs f) j with Some (Some L) => buf_rel s (P j) j L | _ => buf_of s j = None /\ forall i, P j i = Rest end;
  fr_hist : forall j i, hist i (P j i) (on_buf j i w);
  fr_seen : seen_f w = f_tr f;
  fr_taken : taken clients w = sb_tr s;
  fr_in : forall j i, P j i <> Rest -> i < clients + S j;
  fr_ret : forall r, pend_r w P r;
  fr_ge : ge_ok w
}.

Lemma orel_re a t0 t s0 s : orel a t0 t s0 s -> orel a (sb_tr s0) (sb_tr s) s0 s.
Proof. intros []. constructor; auto. exists []. now rewrite !app_nil_r. Qed.
(* a step outside *)
Lemma buf_rel_frame s s' P j L : buf_rel s P j L -> buf_of s' j = buf_of s j -> sb_rds s' = sb_rds s -> buf_rel s' P j L.
Proof. intros (d & R & A1 & A2 & A3 & A4 & A5 & A6 & A7) E1 E2. exists d, R. rewrite E1, E2. auto 10. Qed.

Lemma op_rds s0 s0' j i o : op_ok s0 j i o ->
  (forall k e jj x, nth_error (sb_ss s0) k = Some e -> se_pc e = TPut jj x -> exists e', nth_error (sb_ss s0') k = Some e' /\ se_pc e' = TPut jj x) ->
  (forall r cl q, o = LCall r cl -> nth_error (sb_rds s0) r = Some q -> rd_sess q = j -> exists q', nth_error (sb_rds s0') r = Some q' /\ rd_sess q' = rd_sess q) ->
  op_ok s0' j i o.
Proof.
  unfold op_ok. intros H F G. destruct (Nat.leb clients i).
  - destruct H as (e & x & H1 & H2 & H3). destruct (F _ _ _ _ H1 H2) as (e' & F1 & F2). eauto.
  - destruct H as (r & cl & q & -> & H2 & H3 & H4). destruct (G r cl q eq_refl H3 H4) as (q' & G1 & G2). exists r, cl, q'. rewrite G2. auto.
Qed.

Lemma core_ext L b P Q : (forall i, P i = Q i) -> core L b P -> core L b Q.
Proof. intros E []. constructor; auto. intros i t h Ht Hh. rewrite <- E. auto. Qed.
Lemma in_call w f s P a j L i h r cl p : frel w f s P a -> nth_error (f_bufs f) j = Some (Some L) -> nth_error (ls_ths L) i = Some h -> h_ph h = PhCall r cl p ->
  exists q, nth_error (sb_rds (f_s f)) r = Some q /\ rd_sess q = j.
Proof.
  intros F HL Hh Ep. pose proof (fr_buf _ _ _ _ _ F j) as FB. rewrite HL in FB. destruct FB as (d & R & A1 & A2 & A3 & A4 & A5 & A6 & A7).
  destruct (nth_error (st_ths (ls_lock L)) i) as [th|] eqn:Ht.
  2:{ apply nth_error_None in Ht. rewrite <- (sm_len _ _ _ _ A2) in Ht. apply nth_error_None in Ht. congruence. }
  pose proof (sm_th _ _ _ _ A2 i th h Ht Hh) as T. unfold thread_rel in T. rewrite Ep in T.
  assert (OP : op_ok (f_s f) j i (LCall r cl)).
  { pose proof (fr_slot _ _ _ _ _ F j i) as SL. destruct T as (r0 & r1 & n & _ & _ & _ & [(S1 & _)|(v1 & S1 & _)]); rewrite S1 in SL; cbn in SL; intuition. }
  unfold op_ok in OP. destruct (Nat.leb clients i); [destruct OP as (e & x & _ & _ & OP); discriminate|].
  destruct OP as (r' & cl' & q & E & _ & Hq & Hj). injection E as <- <-. eauto.
Qed.
Lemma the_cursor L d R P r : core L (MkBS d R) P -> (forall i h cl p, nth_error (ls_ths L) i = Some h -> h_ph h <> PhCall r cl p) ->
  nth_error (ls_rds L) r = nth_error R r.
Proof. intros C N. destruct (sm_rds _ _ _ _ C r) as [X|(i & h & cl & p & X1 & X2)]; [exact X|]. exfalso. exact (N i h cl p X1 X2). Qed.
Lemma at_same r x L : nth_error (ls_rds L) r = Some x -> at_reader r x L = L.
Proof. intro H. unfold at_reader. rewrite (set_nth_same _ _ _ H). now destruct L. Qed.

Lemma step_out w f s P a l f' ls : frel w f s P a -> history c ls s -> f_step c clients f (FOut l) = Some f' ->
  exists s' w', sb_step c s l = Some s' /\ frel w' f' s' P a.
Proof.
  intros F HI H. cbn [f_step] in H. destruct (outside (f_s f) l) eqn:OU; [|discriminate]. destruct (may_attach f l) eqn:MA; [|discriminate].
  cbn [andb] in H. destruct (sb_step c (f_s f) l) as [s0'|] eqn:HS; [|discriminate]. injection H as <-.
  destruct (fr_o _ _ _ _ _ F) as (t0 & t & O). apply orel_re in O.
  pose proof (sinv_history c ls s HI) as SI.
  pose proof (orel_latest _ _ _ _ _ O) as LA. pose proof (or_start _ _ _ _ _ O) as ST.
  assert (NAP : forall i e p, nth_error (sb_ss s) i = Some e -> se_pc e = TNew -> a i = Some p -> False).
  { intros i e p He Hn Hp. pose proof (fr_a _ _ _ _ _ F i) as FA. rewrite Hp in FA. destruct FA as (e0 & j & x & v & B1 & B2 & B3 & ->).
    destruct (or_ss _ _ _ _ _ O i e0 e B1 He) as (_ & _ & B4). rewrite Hp in B4. destruct B4 as [B4 _]. rewrite Hn in B4.
    unfold after_put in B4. destruct v as [[]| |]; discriminate. }
  assert (SP : sb_start s = SSpawn -> exists e, nth_error (sb_ss s) (latest s) = Some e /\ se_pc e = TNew).
  { intro E. pose proof (si_new _ SI) as X. rewrite E in X. exact X. }
  destruct (orel_step a _ _ c (f_s f) s l s0' O AU OU) as (s' & HS' & O'); [|exact HS|].
  { rewrite ST. destruct (sb_start s) eqn:E; auto.
    - destruct (a (length (sb_ss s))) as [p|] eqn:Ea; [|reflexivity]. exfalso. pose proof (fr_a _ _ _ _ _ F (length (sb_ss s))) as FA. rewrite Ea in FA.
      destruct FA as (e0 & j & x & v & B1 & _). apply nth_lt in B1. rewrite (or_len _ _ _ _ _ O) in B1. lia.
    - destruct (SP eq_refl) as (e & B1 & B2). destruct (a (latest s)) eqn:Ea; [|reflexivity]. exfalso. eauto. }
  assert (OU' : outside s l = true).
  { destruct l; cbn [outside] in *; auto. destruct (nth_error (sb_ss (f_s f)) i) as [e0|] eqn:X; [|discriminate].
    destruct (nth_error (sb_ss s) i) as [e|] eqn:Y.
    2:{ apply nth_error_None in Y. apply nth_lt in X. pose proof (or_len _ _ _ _ _ O). lia. }
    destruct (or_ss _ _ _ _ _ O _ _ _ X Y) as (_ & _ & B3). destruct (a i) as [p|] eqn:Ai.
    - destruct B3 as (_ & j & x & B3). rewrite B3 in OU. discriminate.
    - now rewrite <- B3. }
  destruct (or_tr _ _ _ _ _ O') as (es & T1 & T2).
  assert (PUT : forall k e jj x, nth_error (sb_ss (f_s f)) k = Some e -> se_pc e = TPut jj x -> exists e', nth_error (sb_ss s0') k = Some e' /\ se_pc e' = TPut jj x).
  { intros k e jj x. apply (out_put c (f_s f) l s0' OU HS). rewrite ST, LA. intro E. destruct (SP E) as (e1 & B1 & B2).
    destruct (nth_error (sb_ss (f_s f)) (latest s)) as [e0|] eqn:X.
    - exists e0. split; [reflexivity|]. destruct (or_ss _ _ _ _ _ O _ _ _ X B1) as (_ & _ & B3). destruct (a (latest s)) eqn:Ea; [exfalso; eauto|]. congruence.
    - apply nth_error_None in X. apply nth_lt in B1. pose proof (or_len _ _ _ _ _ O). lia. }
  pose proof (out_rds c (f_s f) l s0' OU HS) as RD0. pose proof (out_rds c s l s' OU' HS') as RD.
  pose proof (out_bufs c s l s' OU' HS') as BO. pose proof (out_bufs c (f_s f) l s0' OU HS) as BO0.
  pose proof (out_len c s l s' OU' HS') as LE.
  exists s', (w ++ map GE es). split; [exact HS'|]. constructor; cbn [f_s f_bufs f_tr].
  - eauto.
  - intro i. pose proof (fr_a _ _ _ _ _ F i) as FA. destruct (a i) as [p|]; [|exact FA].
    destruct FA as (e0 & j & x & v & B1 & B2 & B3 & ->). destruct (PUT i e0 j x B1 B2) as (e' & C1 & C2). exists e', j, x, v. auto.
  - intros j i. pose proof (fr_slot _ _ _ _ _ F j i) as SL.
    assert (OP : forall o, (exists v, P j i = Called o \/ P j i = Acted o v) -> op_ok (f_s f) j i o -> op_ok s0' j i o).
    { intros o (v & HP) Ho. eapply op_rds; [exact Ho|exact PUT|]. intros r cl q -> Hq Hj.
      destruct l as [|o info| | |n p st ig|r'| | |n|k|j'|k|r' cl'|r'|i' o]; cbn [outside] in OU; try discriminate OU;
        try (rewrite RD0; eauto; fail);
        try (destruct RD0 as (q1 & -> & _); rewrite nth_error_app1 by (eapply nth_lt; eauto); eauto; fail).
      destruct RD0 as (q1 & Q1 & [[_ ->]|(j1 & CU & ->)]); [eauto|]. rewrite nth_error_set_nth. destruct (Nat.eqb_spec r' r) as [->|N]; [|eauto].
      (* the reader is in a call *)
      exfalso. unfold may_attach in MA. rewrite Hq in MA. pose proof (fr_buf _ _ _ _ _ F (rd_sess q)) as FB. unfold the_lock in MA.
      assert (NR : P (rd_sess q) i <> Rest) by (rewrite Hj; destruct HP as [HP|HP]; rewrite HP; discriminate).
      destruct (nth_error (f_bufs f) (rd_sess q)) as [[L|]|]; [|exfalso; apply NR, FB|exfalso; apply NR, FB].
      apply negb_true_iff in MA. destruct FB as (d & R & A1 & A2 & A3 & A4 & A5 & A6 & A7).
      destruct (nth_error (ls_ths L) i) as [h|] eqn:Hh.
      - destruct (nth_error (st_ths (ls_lock L)) i) as [th|] eqn:Ht.
        2:{ apply nth_error_None in Ht. rewrite <- (sm_len _ _ _ _ A2) in Ht. apply nth_error_None in Ht. congruence. }
        pose proof (sm_th _ _ _ _ A2 i th h Ht Hh) as T. unfold thread_rel in T. destruct (h_ph h) as [|r2 c2 p2|o2 out] eqn:Ep.
        + now apply NR.
        + assert (r2 = r). { destruct T as (r0 & r1 & n & _ & _ & _ & [(S1 & _)|(v1 & S1 & _)]); rewrite Hj in S1; destruct HP as [HP|HP]; congruence. }
          subst r2. exact (not_calling L r MA i h c2 p2 Hh Ep).
        + destruct T as [W T]. assert (o2 = LCall r cl). { rewrite Hj in T. destruct out; destruct T as (T & _); destruct HP as [HP|HP]; congruence. }
          subst o2. exact W.
      - (* no such thread *)
        unfold op_ok in Ho. assert (HC : i < clients).
        { destruct (Nat.leb_spec clients i); [|lia]. destruct Ho as (e & x & _ & _ & Hx). discriminate. }
        apply nth_error_None in Hh. lia. }
    unfold slot_ok in *. destruct (P j i) as [|o|o v] eqn:EP; [exact Logic.I| |].
    + apply OP; [exists (OUnit (Ok tt)); auto|exact SL].
    + destruct SL as [SL1 SL2]. split; [apply OP; [exists v; auto|exact SL1]|exact SL2].
  - pose proof (fr_nb _ _ _ _ _ F) as NB. rewrite LE. unfold bufs_after. destruct l; try lia.
    + rewrite ST. destruct (sb_start s); try lia.
      * rewrite app_length. cbn. lia.
      * destruct (buf_of s0' (latest (f_s f))); rewrite ?set_nth_length; lia.
    + rewrite map_length. lia.
    + repeat match goal with |- length (match ?x with _ => _ end) = _ => destruct x end; rewrite ?set_nth_length; lia.
    + rewrite map_length. lia.
  - assert (SAME : (forall j, buf_of s' j = buf_of s j) -> sb_rds s' = sb_rds s ->
      forall j, match nth_error (f_bufs f) j with Some (Some L) => buf_rel s' (P j) j L | _ => buf_of s' j = None /\ forall i, P j i = Rest end).
    { intros E1 E2 j. pose proof (fr_buf _ _ _ _ _ F j) as FB. rewrite E1. destruct (nth_error (f_bufs f) j) as [[L|]|]; auto. eapply buf_rel_frame; eauto. }
    assert (MK : forall q0 q, makes_buf c s l = None -> sb_rds s0' = sb_rds (f_s f) ++ q0 -> sb_rds s' = sb_rds s ++ q -> map rd_r q0 = map rd_r q ->
      forall j, match nth_error (map (option_map (add_rds (map rd_r (skipn (length (sb_rds (f_s f))) (sb_rds s0'))))) (f_bufs f)) j with
                Some (Some L) => buf_rel s' (P j) j L | _ => buf_of s' j = None /\ forall i, P j i = Rest end).
    { intros q0 q E0 E1 E2 E3 j. pose proof (fr_buf _ _ _ _ _ F j) as FB. specialize (BO j). rewrite E0 in BO. rewrite nth_error_map.
      rewrite E1, skipn_app, skipn_all, Nat.sub_diag. cbn [app skipn]. rewrite E3.
      destruct (nth_error (f_bufs f) j) as [[L|]|]; cbn [option_map]; try (rewrite BO; exact FB).
      destruct FB as (d & R & A1 & A2 & A3 & A4 & A5 & A6 & A7). exists d, (R ++ map rd_r q). rewrite BO, E2. split; [exact A1|]. split; [apply core_add, A2|].
      split; [exact A3|]. split; [rewrite !app_length, map_length; lia|]. split; [exact A5|]. split; [exact A6|].
      intros r x Hx Hj. destruct (Nat.ltb_spec r (length (sb_rds s))).
      - rewrite nth_error_app1 in Hx by assumption. rewrite nth_error_app1 by lia. auto.
      - rewrite nth_error_app2 in Hx by assumption. rewrite nth_error_app2 by lia. rewrite A4, nth_error_map, Hx. reflexivity. }
    destruct l as [|o info| | |n p st ig|r| | |n|k|j'|k|r' cl'|r'|i' o]; cbn [outside] in OU; try discriminate OU; cbn [bufs_after];
      try (apply SAME; [exact BO|exact RD]).
    + (* start() *)
      cbn [makes_buf] in BO, BO0. rewrite ST in *. destruct (sb_start s) eqn:ES; try (apply SAME; [exact BO|exact RD]).
      * intro j. pose proof (SAME BO RD j) as X. rewrite nth_snoc. rewrite (fr_nb _ _ _ _ _ F). destruct (Nat.ltb_spec j (length (sb_ss s))); [exact X|].
        destruct (nth_error (f_bufs f) j) eqn:E; [apply nth_lt in E; rewrite (fr_nb _ _ _ _ _ F) in E; lia|]. destruct (Nat.eqb j (length (sb_ss s))); exact X.
      * pose proof (si_new _ SI) as SN. rewrite ES in SN. destruct SN as (e & N1 & N2 & N3). pose proof (nth_lt _ _ _ N1) as LT.
        assert (BN : buf_of s (latest s) = None) by (unfold buf_of; rewrite N1; exact N3).
        assert (BN0 : buf_of (f_s f) (latest s) = None).
        { unfold buf_of. destruct (nth_error (sb_ss (f_s f)) (latest s)) as [e0|] eqn:X; [|reflexivity]. destruct (or_ss _ _ _ _ _ O _ _ _ X N1) as (_ & [_ B] & _). now apply B. }
        destruct (match info with Ok _ => _ | Raise _ => _ end) as [d|] eqn:MB.
        2:{ rewrite BO0, LA, BN0. apply SAME; [exact BO|exact RD]. }
        assert (DI : sd_init [] (c_key c) (c_maxlen c) = Ok d).
        { destruct info; [|discriminate]. destruct (sd_init _ _ _); [congruence|discriminate]. }
        assert (BD : buf_of s0' (latest (f_s f)) = Some d).
        { rewrite BO0, Nat.eqb_refl, LA. destruct (Nat.ltb_spec (latest s) (length (sb_ss (f_s f)))); [reflexivity|]. rewrite (or_len _ _ _ _ _ O) in *. lia. }
        rewrite BD, LA. intro j. rewrite nth_error_set_nth. destruct (Nat.eqb_spec (latest s) j) as [<-|N].
        -- destruct (nth_error (f_bufs f) (latest s)) as [x|] eqn:X.
           2:{ apply nth_error_None in X. rewrite (fr_nb _ _ _ _ _ F) in X. lia. }
           pose proof (fr_buf _ _ _ _ _ F (latest s)) as FB. rewrite X in FB.
           assert (PR : forall i, P (latest s) i = Rest). { destruct x as [L|]; [|apply FB]. destruct FB as (d1 & R & A1 & _). congruence. }
           exists d, (map rd_r (sb_rds (f_s f))). rewrite BO, Nat.eqb_refl. destruct (Nat.ltb_spec (latest s) (length (sb_ss s))); [|lia]. cbn [andb].
           split; [reflexivity|]. split.
           { apply (core_ext _ _ (fun _ => Rest)); [intro i; symmetry; apply PR|]. apply core_init; [eapply consistent_init; eauto|eapply init_key; eauto]. }
           split; [reflexivity|]. split; [now rewrite map_length, RD, (or_nr _ _ _ _ _ O)|]. unfold fresh_buf, linit. cbn [ls_ths].
           split; [now rewrite map_length, repeat_length|]. split.
           { intros i h Hh. apply nth_error_map_some in Hh as (q & Hq & ->). apply nth_error_In, repeat_spec in Hq. now subst. }
           intros r q Hq Hj. rewrite RD in Hq. destruct (si_rds _ SI r q Hq) as (d1 & D1). congruence.
        -- pose proof (fr_buf _ _ _ _ _ F j) as FB. specialize (BO j). destruct (Nat.eqb_spec (latest s) j); [congruence|]. cbn [andb] in BO.
           destruct (nth_error (f_bufs f) j) as [[L|]|]; try (rewrite BO; exact FB). eapply buf_rel_frame; eauto.
    + (* mk_reader() *)
      destruct RD0 as (q0 & E0 & Q0). destruct RD as (q & E & Q). apply (MK q0 q eq_refl E0 E).
      pose proof (or_nr _ _ _ _ _ O') as NR. rewrite E0, E, !app_length in NR. pose proof (or_nr _ _ _ _ _ O) as NR0.
      destruct Q0 as [->|(j0 & _ & ->)], Q as [->|(j1 & _ & ->)]; cbn in *; try lia; reflexivity.
    + (* attach_reader() *)
      destruct RD0 as (q0 & Q0 & RD0). destruct RD as (q & Q & RD). rewrite Q0.
      destruct (or_rds _ _ _ _ _ O _ _ _ Q0 Q) as (B1 & B2 & B3).
      assert (CE : sb_cur (f_s f) = sb_cur s) by apply (or_cur _ _ _ _ _ O).
      destruct (si_rds _ SI r q Q) as (dr & DR). rewrite <- B1 in DR.
      pose proof (fr_buf _ _ _ _ _ F (rd_sess q0)) as FB.
      destruct (nth_error (f_bufs f) (rd_sess q0)) as [[L|]|] eqn:HL; [|destruct FB; congruence|destruct FB; congruence].
      unfold may_attach, the_lock in MA. rewrite Q0, HL in MA. apply negb_true_iff in MA. pose proof (not_calling L r MA) as NC.
      destruct FB as (d & R & A1 & A2 & A3 & A4 & A5 & A6 & A7).
      assert (HX : nth_error (ls_rds L) r = Some (rd_r q)). { rewrite (the_cursor L d R _ r A2 NC). apply A7; [exact Q|congruence]. }
      rewrite HX. destruct RD0 as [[C0 RD0]|(j0 & C0 & RD0)]; destruct RD as [[C1 RD]|(j1 & C1 & RD)]; try congruence.
      * rewrite RD0, Q0, HL, (at_same _ _ _ HX), (set_nth_same _ _ _ HL). apply SAME; [exact BO|exact RD].
      * assert (j1 = j0) by congruence. subst j1. rewrite RD0, nth_error_set_nth, Nat.eqb_refl, Q0. cbn [rd_sess].
        destruct (si_cur _ SI j0 C1) as (LJ & d1 & D1). pose proof (fr_buf _ _ _ _ _ F j0) as FB.
        destruct (nth_error (f_bufs f) j0) as [[L'|]|] eqn:HL'; [|destruct FB; congruence|destruct FB; congruence].
        assert (NC' : forall i h cl p, nth_error (ls_ths L') i = Some h -> h_ph h <> PhCall r cl p).
        { intros i h cl p Hh Ep. destruct (in_call _ _ _ _ _ _ _ _ _ _ _ _ F HL' Hh Ep) as (q2 & X1 & X2). assert (q2 = q0) by congruence. subst q2.
          assert (L' = L) by congruence. subst L'. exact (NC i h cl p Hh Ep). }
        intro j. rewrite nth_error_set_nth. destruct (Nat.eqb_spec j0 j) as [<-|N].
        -- rewrite HL'. destruct FB as (d2 & R2 & A1' & A2' & A3' & A4' & A5' & A6' & A7'). exists d2, (set_nth R2 r (rd_r q)). rewrite BO. cbn [makes_buf].
           split; [exact A1'|]. split; [apply core_set; assumption|]. split; [exact A3'|]. rewrite RD, !set_nth_length. split; [exact A4'|]. split; [exact A5'|]. split; [exact A6'|].
           intros r1 q1 Hq1 Hj1. rewrite nth_error_set_nth in Hq1. rewrite nth_error_set_nth. destruct (Nat.eqb_spec r r1) as [<-|N1]; [|auto].
           cbn beta iota in Hq1. rewrite Q in Hq1. injection Hq1 as <-. destruct (nth_error R2 r) eqn:X; [reflexivity|]. apply nth_error_None in X. apply nth_lt in Q. lia.
        -- pose proof (fr_buf _ _ _ _ _ F j) as FBj. specialize (BO j). cbn [makes_buf] in BO. rewrite BO. destruct (nth_error (f_bufs f) j) as [[L1|]|]; auto.
           destruct FBj as (d2 & R2 & A1' & A2' & A3' & A4' & A5' & A6' & A7'). exists d2, R2. rewrite BO, RD, set_nth_length.
           split; [exact A1'|]. split; [exact A2'|]. split; [exact A3'|]. split; [exact A4'|]. split; [exact A5'|]. split; [exact A6'|].
           intros r1 q1 Hq1 Hj1. rewrite nth_error_set_nth in Hq1. destruct (Nat.eqb_spec r r1) as [<-|N1]; [|auto].
           rewrite Q in Hq1. injection Hq1 as <-. cbn in Hj1. congruence.
    + (* next(stream_buffer) makes a reader *)
      destruct RD0 as (q0 & E0 & Q0). destruct RD as (q & E & Q). apply (MK q0 q eq_refl E0 E).
      pose proof (or_nr _ _ _ _ _ O') as NR. rewrite E0, E, !app_length in NR. pose proof (or_nr _ _ _ _ _ O) as NR0.
      destruct Q0 as [->|(j0 & _ & ->)], Q as [->|(j1 & _ & ->)]; cbn in *; try lia; reflexivity.
  - intros j i. rewrite on_buf_app, on_buf_ge, app_nil_r. apply (fr_hist _ _ _ _ _ F).
  - rewrite seen_f_app, seen_f_ge, (fr_seen _ _ _ _ _ F), T1, skipn_app, skipn_all, Nat.sub_diag. reflexivity.
  - rewrite taken_app, taken_ge, (fr_taken _ _ _ _ _ F), T2. reflexivity.
  - apply (fr_in _ _ _ _ _ F).
  - intro r. unfold pend_r. rewrite act_r_app, ret_r_app, act_r_ge, ret_r_ge, !app_nil_r; [apply (fr_ret _ _ _ _ _ F)|].
    intros r1 cl v X. destruct (out_events c s l s' OU' HS') as (es' & E1 & E2). assert (es' = es) by (apply (app_inv_head (sb_tr s)); congruence). subst es'. exact (E2 _ X).
  - intros e X. apply in_app_or in X as [X|X]; [exact (fr_ge _ _ _ _ _ F e X)|]. apply in_map_iff in X as (e' & Q & X). injection Q as ->.
    destruct (out_events c s l s' OU' HS') as (es' & E1 & E2). assert (es' = es) by (apply (app_inv_head (sb_tr s)); congruence). subst es'.
    specialize (E2 _ X). destruct e; auto.
Qed.
End Fine.
