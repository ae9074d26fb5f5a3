(** * A stream in single steps: C111, C112, C113 *)
From Coq Require Import List ZArith Bool Arith Lia.
From Verif Require Import PyVal PyLib SortedDequeM Spec SpecDeque BufferReaderM BufferSysM ListFacts DequeFacts DequeSearch LogFacts LogReads
  RWLockM SpecLock LockFacts LockProps ReaderStepsM SpecLin LinFacts LinShape LinSim LinStep LinRun
  StreamBufferM SpecStream StreamFacts StreamFineM SpecFine FineOut FineSim FineRun FineHang LockLive Families StreamReads PropsStreamRead PropsStream PropsLin.
Import ListNotations.

Section Explained.
Variable c : cfg.
Variable clients : nat.
Hypothesis AU : is_True (c_auto c) = true.
Notation frel := (frel c clients).

Lemma explained fls f : f_run c clients f0 fls = Some f -> exists ls s w P a, history c ls s /\ frel w f s P a.
Proof. intro H. eapply (frel_run c clients AU fls); [apply frel_init|exact (eq_refl : sb_run c sb0 [] = Some sb0)|exact H]. Qed.
Lemma rest_all w f s P a : frel w f s P a -> nobody_inside f -> forall j i, P j i = Rest.
Proof.
  intros F N j i. destruct (P j i) eqn:EP; [reflexivity| |]; exfalso.
  all: pose proof (fr_in _ _ _ _ _ _ _ F j i) as LT; pose proof (fr_buf _ _ _ _ _ _ _ F j) as FB; unfold nobody_inside, the_lock in N; specialize (N j);
    destruct (nth_error (f_bufs f) j) as [[L|]|]; [|destruct FB as [_ FB]; specialize (FB i); congruence|destruct FB as [_ FB]; specialize (FB i); congruence].
  all: destruct FB as (d & R & A1 & A2 & A3 & A4 & A5 & A6 & A7); specialize (N L eq_refl i).
  all: destruct (nth_error (ls_ths L) i) as [h|] eqn:Hh; [|apply nth_error_None in Hh; rewrite EP in LT; specialize (LT ltac:(discriminate)); lia].
  all: destruct (nth_error (st_ths (ls_lock L)) i) as [th|] eqn:Ht; [|apply nth_error_None in Ht; rewrite <- (sm_len _ _ _ _ A2) in Ht; apply nth_error_None in Ht; congruence].
  all: pose proof (sm_th _ _ _ _ A2 i th h Ht Hh) as T; unfold thread_rel in T; rewrite (N h eq_refl) in T; destruct T as [T _]; congruence.
Qed.
Lemma rest_ahead w f s P a : frel w f s P a -> nobody_inside f -> forall i, a i = None.
Proof.
  intros F N i. pose proof (fr_a _ _ _ _ _ _ _ F i) as FA. destruct (a i); [|reflexivity]. destruct FA as (e & j & x & v & _ & _ & X & _).
  rewrite (rest_all _ _ _ _ _ F N) in X. discriminate.
Qed.
End Explained.

(** ** C111: the model in which each call is one step leaves nothing out *)
Theorem C111_calls_have_instants :
  forall c clients fls f, is_True (c_auto c) = true -> f_run c clients f0 fls = Some f ->
  exists ls s w, history c ls s /\ seen_f w = f_tr f /\ taken clients w = sb_tr s /\
    (forall j i, one_at_a_time (on_buf j i w)) /\ same_outside (f_s f) s /\
    (forall r, exists rest, answered_by r (sb_tr s) = returned_by r (f_tr f) ++ rest /\ length rest <= 1) /\
    (nobody_inside f -> same_threads f s /\ same_buffers f s /\ same_readers f s /\
       forall r, answered_by r (sb_tr s) = returned_by r (f_tr f)).
Proof.
  intros c clients fls f AU H. destruct (explained c clients AU fls f H) as (ls & s & w & P & a & HI & F).
  destruct (fr_o _ _ _ _ _ _ _ F) as (t0 & t & O).
  exists ls, s, w. split; [exact HI|]. split; [apply (fr_seen _ _ _ _ _ _ _ F)|]. split; [apply (fr_taken _ _ _ _ _ _ _ F)|].
  split; [intros j i; eapply hist_one, (fr_hist _ _ _ _ _ _ _ F)|].
  split. { destruct O. repeat split; assumption. }
  split.
  { intro r. rewrite <- (fr_taken _ _ _ _ _ _ _ F), <- (fr_seen _ _ _ _ _ _ _ F). destruct (fr_ret _ _ _ _ _ _ _ F r) as [(j & i & cl & v & _ & E)|[_ E]]; unfold act_r, ret_r in E; rewrite E.
    - eexists. split; [reflexivity|]. cbn. lia.
    - exists []. rewrite app_nil_r. split; [reflexivity|]. cbn. lia. }
  intro N. pose proof (rest_all _ _ _ _ _ _ _ F N) as PR. pose proof (rest_ahead _ _ _ _ _ _ _ F N) as AN.
  split; [|split; [|split]].
  - split; [apply (or_len _ _ _ _ _ O)|]. intros i e e' He He'. destruct (or_ss _ _ _ _ _ O i e e' He He') as (B1 & [B2 _] & B3). rewrite AN in B3. auto.
  - intro j. pose proof (fr_buf _ _ _ _ _ _ _ F j) as FB. unfold nobody_inside, the_lock in *. specialize (N j).
    destruct (nth_error (f_bufs f) j) as [[L|]|]; [|symmetry; apply FB|symmetry; apply FB]. destruct FB as (d & R & A1 & A2 & A3 & A4 & A5 & A6 & A7). rewrite A1. cbn [option_map]. f_equal.
    apply (sm_buf _ _ _ _ A2). intros i th rest Ht PW.
    destruct (nth_error (ls_ths L) i) as [h|] eqn:Hh.
    2:{ apply nth_error_None in Hh. rewrite (sm_len _ _ _ _ A2) in Hh. apply nth_error_None in Hh. congruence. }
    pose proof (sm_th _ _ _ _ A2 i th h Ht Hh) as T. unfold thread_rel in T. rewrite (N L eq_refl i h Hh) in T. destruct T as (_ & T & _). congruence.
  - split; [apply (or_nr _ _ _ _ _ O)|]. intros r q q' Hq Hq'. destruct (or_rds _ _ _ _ _ O r q q' Hq Hq') as (B1 & B2 & B3).
    split; [exact B1|]. split; [exact B2|]. split; [exact B3|]. pose proof (fr_buf _ _ _ _ _ _ _ F (rd_sess q)) as FB.
    destruct (si_rds _ (sinv_history c ls s HI) r q' Hq') as (d0 & D0). unfold nobody_inside, the_lock in *. specialize (N (rd_sess q)).
    destruct (nth_error (f_bufs f) (rd_sess q)) as [[L|]|]; [|destruct FB; congruence|destruct FB; congruence].
    destruct FB as (d & R & A1 & A2 & A3 & A4 & A5 & A6 & A7). exists L. split; [reflexivity|].
    rewrite (the_cursor c L d R _ r A2); [apply A7; congruence|]. intros i h cl p Hh Ep. rewrite (N L eq_refl i h Hh) in Ep. discriminate.
  - intro r. rewrite <- (fr_taken _ _ _ _ _ _ _ F), <- (fr_seen _ _ _ _ _ _ _ F). destruct (fr_ret _ _ _ _ _ _ _ F r) as [(j & i & cl & v & X & E)|[_ E]]; [|exact E].
    rewrite PR in X. discriminate.
Qed.
Print Assumptions C111_calls_have_instants.

(** So whatever is true of the events of every history of whole calls is true of the instants
    of every run in single steps. *)
Theorem C111_transfer :
  forall c clients (Q : list ev -> Prop), is_True (c_auto c) = true -> (forall ls s, history c ls s -> Q (sb_tr s)) ->
  forall fls f, f_run c clients f0 fls = Some f ->
  exists w, seen_f w = f_tr f /\ (forall j i, one_at_a_time (on_buf j i w)) /\ Q (taken clients w).
Proof.
  intros c clients Q AU HQ fls f H. destruct (C111_calls_have_instants c clients fls f AU H) as (ls & s & w & HI & E1 & E2 & E3 & _).
  exists w. split; [exact E1|]. split; [exact E3|]. rewrite E2. eapply HQ; eauto.
Qed.
Print Assumptions C111_transfer.

(** Nobody is kept out: a reading thread that has a value to append is inside the append or
    can begin it, and a client that is in no call on the buffer can begin any call on a
    reader that nobody is using. *)
Theorem C111_nobody_left_out :
  forall c clients fls f, is_True (c_auto c) = true -> f_run c clients f0 fls = Some f ->
  (forall i e j x, nth_error (sb_ss (f_s f)) i = Some e -> se_pc e = TPut j x ->
     exists L h, the_lock f j = Some L /\ nth_error (ls_ths L) (rthread clients i) = Some h /\
       ((exists out, h_ph h = PhWrite (LAppend x) out) \/ (h_ph h = PhIdle /\ exists f', f_step c clients f (FPut i) = Some f'))) /\
  (forall k r q cl, k < clients -> nth_error (sb_rds (f_s f)) r = Some q -> (forall b, cl <> CNext b) ->
     exists L h, the_lock f (rd_sess q) = Some L /\ nth_error (ls_ths L) k = Some h /\
       (h_ph h = PhIdle -> (forall i g cl' p, nth_error (ls_ths L) i = Some g -> h_ph g <> PhCall r cl' p) ->
        exists f', f_step c clients f (FCall k r cl) = Some f')).
Proof.
  intros c clients fls f AU H. destruct (explained c clients AU fls f H) as (ls & s & w & P & a & HI & F).
  destruct (fr_o _ _ _ _ _ _ _ F) as (t0 & t & O). pose proof (sinv_history c ls s HI) as SI.
  assert (BEG : forall j i o L h, the_lock f j = Some L -> nth_error (ls_ths L) i = Some h -> h_ph h = PhIdle ->
    match o with LAppend _ => True | LCall r _ => r < length (ls_rds L) | _ => False end -> exists f', begin_op f j i o = Some f').
  { intros j i o L h HL Hh Ep W. unfold begin_op. rewrite HL, Hh. pose proof (fr_buf _ _ _ _ _ _ _ F j) as FB. unfold the_lock in HL.
    destruct (nth_error (f_bufs f) j) as [[L1|]|]; try discriminate. injection HL as ->. destruct FB as (d & R & A1 & A2 & A3 & A4 & A5 & A6 & A7).
    destruct h as [ph td]. cbn in Ep. subst ph. pose proof (A6 i _ Hh) as TD. cbn in TD. subst td.
    destruct (nth_error (st_ths (ls_lock L)) i) as [th|] eqn:Ht; [|apply nth_error_None in Ht; rewrite <- (sm_len _ _ _ _ A2) in Ht; apply nth_error_None in Ht; congruence].
    pose proof (sm_th _ _ _ _ A2 i th _ Ht Hh) as T. cbn in T. destruct T as (_ & T2 & T3).
    unfold lstep. cbn [ls_lock ls_ths]. rewrite Ht, nth_error_set_nth, Nat.eqb_refl, Hh. unfold in_lock. rewrite T2, T3. cbn [h_ph h_todo].
    destruct o as [x|n|n0 p0 i0 s0|r cl]; try contradiction; [eauto|]. cbn [ls_rds]. destruct (Nat.ltb_spec r (length (ls_rds L))); [eauto|lia]. }
  split.
  - intros i e j x He Ep. destruct (nth_error (sb_ss s) i) as [e'|] eqn:He'.
    2:{ apply nth_error_None in He'. apply nth_lt in He. pose proof (or_len _ _ _ _ _ O). lia. }
    destruct (or_ss _ _ _ _ _ O i e e' He He') as (_ & _ & B3). pose proof (fr_a _ _ _ _ _ _ _ F i) as FA.
    pose proof (fr_buf _ _ _ _ _ _ _ F j) as FB.
    assert (IJ : i <= j /\ nth_error (f_bufs f) j <> None /\ nth_error (f_bufs f) j <> Some None).
    { destruct (a i) as [p|].
      - destruct FA as (e1 & j1 & x1 & v & C1 & C2 & C3 & _). assert (e1 = e) by congruence. subst e1. assert (j1 = j) by congruence. subst j1.
        assert (NR : P j (rthread clients i) <> Rest) by congruence. pose proof (fr_in _ _ _ _ _ _ _ F _ _ NR) as X. unfold rthread in X. split; [lia|].
        destruct (nth_error (f_bufs f) j) as [[L|]|]; [split; discriminate|exfalso; apply NR, FB|exfalso; apply NR, FB].
      - destruct (si_held _ SI i e' j He') as ((d & D) & B & _); [right; exists x; congruence|]. split; [exact B|].
        destruct (nth_error (f_bufs f) j) as [[L|]|]; [split; discriminate|destruct FB; congruence|destruct FB; congruence]. }
    destruct IJ as (IJ & N1 & N2). destruct (nth_error (f_bufs f) j) as [[L|]|] eqn:HL; [|congruence|congruence].
    assert (HL' : the_lock f j = Some L) by (unfold the_lock; now rewrite HL).
    destruct FB as (d & R & A1 & A2 & A3 & A4 & A5 & A6 & A7).
    destruct (nth_error (ls_ths L) (rthread clients i)) as [h|] eqn:Hh; [|apply nth_error_None in Hh; unfold rthread in Hh; lia].
    exists L, h. split; [exact HL'|]. split; [exact Hh|].
    destruct (nth_error (st_ths (ls_lock L)) (rthread clients i)) as [th|] eqn:Ht; [|apply nth_error_None in Ht; rewrite <- (sm_len _ _ _ _ A2) in Ht; apply nth_error_None in Ht; congruence].
    pose proof (sm_th _ _ _ _ A2 _ th h Ht Hh) as T. unfold thread_rel in T. pose proof (fr_slot _ _ _ _ _ _ _ F j (rthread clients i)) as SL.
    assert (OPX : forall o, op_ok clients (f_s f) j (rthread clients i) o -> o = LAppend x).
    { intros o. unfold op_ok, rthread. destruct (Nat.leb_spec clients (clients + i)); [|lia]. replace (clients + i - clients) with i by lia. intros (e1 & x1 & C1 & C2 & C3). congruence. }
    destruct (h_ph h) as [|r cl p|o out] eqn:Eh.
    + right. split; [reflexivity|]. cbn [f_step]. rewrite He, Ep. eapply BEG; eauto.
    + exfalso. destruct T as (r0 & r1 & n & _ & _ & _ & [(S1 & _)|(v1 & S1 & _)]); rewrite S1 in SL; cbn in SL; [apply OPX in SL; discriminate|destruct SL as [SL _]; apply OPX in SL; discriminate].
    + left. exists out. destruct T as [_ T]. destruct out; destruct T as (T & _); rewrite T in SL; cbn in SL; [destruct SL as [SL _]|]; apply OPX in SL; congruence.
  - intros k r q cl HK Hq NX. destruct (nth_error (sb_rds s) r) as [q'|] eqn:Hq'.
    2:{ apply nth_error_None in Hq'. apply nth_lt in Hq. pose proof (or_nr _ _ _ _ _ O). lia. }
    destruct (or_rds _ _ _ _ _ O r q q' Hq Hq') as (B1 & B2 & B3). destruct (si_rds _ SI r q' Hq') as (d0 & D0).
    pose proof (fr_buf _ _ _ _ _ _ _ F (rd_sess q)) as FB. destruct (nth_error (f_bufs f) (rd_sess q)) as [[L|]|] eqn:HL; [|destruct FB; congruence|destruct FB; congruence].
    assert (HL' : the_lock f (rd_sess q) = Some L) by (unfold the_lock; now rewrite HL). destruct FB as (d & R & A1 & A2 & A3 & A4 & A5 & A6 & A7).
    destruct (nth_error (ls_ths L) k) as [h|] eqn:Hh; [|apply nth_error_None in Hh; lia].
    exists L, h. split; [exact HL'|]. split; [exact Hh|]. intros Ep NC.
    assert (CF : calling L r = false).
    { destruct (calling L r) eqn:CL; [|reflexivity]. exfalso. unfold calling in CL. apply existsb_exists in CL as (g & G1 & G2). apply In_nth_error in G1 as (i & G1).
      destruct (h_ph g) as [|r1 cl1 p1|] eqn:Eg; try discriminate. apply Nat.eqb_eq in G2. subst r1. exact (NC i g cl1 p1 G1 Eg). }
    destruct (BEG (rd_sess q) k (LCall r cl) L h HL' Hh Ep) as (f' & Hf).
    { rewrite (sm_nrds _ _ _ _ A2). cbn. rewrite A4. eapply nth_lt; eauto. }
    exists f'. cbn [f_step]. destruct (Nat.ltb_spec k clients); [|lia]. rewrite Hq, HL', CF. destruct cl; auto. exfalso. eapply NX; reflexivity.
Qed.
Print Assumptions C111_nobody_left_out.

(** ** C112: readers in single steps *)
Lemma one_acted i w o v : one_at_a_time w -> Forall (fun e => thread_of e = i) w -> In (XAct i o v) w -> In (XInv i o) w.
Proof.
  induction 1 as [|i1 o1|i1 o1 v1|i1 o1 v1 w H IH]; intros F X; cbn in *.
  - destruct X.
  - destruct X as [X|[]]; discriminate.
  - destruct X as [X|[X|[]]]; [discriminate|]. injection X as -> -> ->. now left.
  - inversion F as [|? ? _ F1]; subst. inversion F1 as [|? ? _ F2]; subst. inversion F2 as [|? ? _ F3]; subst.
    destruct X as [X|[X|[X|X]]]; try discriminate; [injection X as -> -> ->; now left|]. right. right. right. auto.
Qed.
Lemma on_buf_thread j i w : Forall (fun e => thread_of e = i) (on_buf j i w).
Proof.
  induction w as [|g w IH]; [constructor|]. change (g :: w) with ([g] ++ w). rewrite on_buf_app. apply Forall_app. split; [|exact IH].
  destruct g; cbn; try constructor; destruct (_ && _); repeat constructor.
Qed.
Lemma acted_began w : (forall j i, one_at_a_time (on_buf j i w)) -> forall j i o v, In (GA j i o v) w -> In (FInv j i o) (seen_f w).
Proof.
  intros H j i o v X.
  assert (Y : In (XAct i o v) (on_buf j i w)). { apply in_flat_map. exists (GA j i o v). split; [exact X|]. rewrite !Nat.eqb_refl. now left. }
  apply (one_acted i) in Y; [|apply H|apply on_buf_thread]. unfold on_buf in Y. apply in_flat_map in Y as (g & G1 & G2).
  destruct g as [e|j1 i1 o1|j1 i1 o1 v1|j1 i1 o1 v1]; cbn in G2; [destruct G2| | |]; destruct (Nat.eqb_spec j1 j), (Nat.eqb_spec i1 i); cbn in G2; try destruct G2 as [G2|[]]; try contradiction; try discriminate.
  subst. injection G2 as ->. apply in_flat_map. exists (GI j i o). split; [exact G1|now left].
Qed.
Lemma in_taken clients w e : ge_ok w -> In e (taken clients w) ->
  match e with
  | EAppend i j x u => exists i', In (GA j i' (LAppend x) (OUnit u)) w
  | ECall r cl v => exists j i, In (GA j i (LCall r cl) (OVal v)) w
  | ENext (Some _) _ _ | EPoll _ _ => False
  | _ => In (FEv e) (seen_f w)
  end.
Proof.
  intros G X. apply in_flat_map in X as (g & X1 & X2). destruct g as [e1|j1 i1 o1|j1 i1 o1 v1|j1 i1 o1 v1]; cbn in X2; try contradiction.
  - destruct X2 as [<-|[]]. specialize (G e1 X1). assert (Y : In (FEv e1) (seen_f w)) by (apply in_flat_map; exists (GE e1); split; [exact X1|now left]).
    destruct e1; auto; try contradiction. destruct r; auto.
  - destruct o1 as [x| | |r cl]; try contradiction; destruct v1 as [u|v|]; try contradiction; destruct X2 as [<-|[]]; eauto.
Qed.
Definition items_back (p : call * res rval) : list pyval := match snd p with Ok v => items_of v | Raise _ => [] end.
Lemma received_answered r tr : (forall e, In e tr -> match e with ENext (Some _) _ _ | EPoll _ _ => False | _ => True end) ->
  SpecStream.received r tr = flat_map items_back (answered_by r tr).
Proof.
  unfold SpecStream.received, answered_by. induction tr as [|e tr IH]; [reflexivity|]. intro H. cbn [flat_map]. rewrite IH by (intros e' X; apply H; now right).
  rewrite flat_map_app. f_equal. specialize (H e (or_introl eq_refl)). destruct e; auto; try contradiction.
  - destruct r0; [contradiction|reflexivity].
  - destruct o; destruct (Nat.eqb r0 r); cbn; rewrite ?app_nil_r; reflexivity.
Qed.
Lemma received_returned r tr : received_f r tr = flat_map items_back (returned_by r tr).
Proof.
  unfold received_f, returned_by. induction tr as [|e tr IH]; [reflexivity|]. cbn [flat_map]. rewrite flat_map_app, IH. f_equal.
  destruct e as [e|j i o|j i o v]; auto. destruct o; auto. destruct v as [u|v|]; auto. destruct v, (Nat.eqb i0 r); cbn; rewrite ?app_nil_r; reflexivity.
Qed.

Theorem C112_steps_never_repeat :
  forall P, total_family P -> forall c clients fls f, is_True (c_auto c) = true -> f_run c clients f0 fls = Some f ->
  keys_in_f P c (f_tr f) -> ranges_in_f P c (f_tr f) ->
  forall r q, nth_error (sb_rds (f_s f)) r = Some q -> only_reads_f r (f_tr f) ->
  strictly_ordered (c_key c) (received_f r (f_tr f)) /\
  forall x, In x (received_f r (f_tr f)) -> exists i, In (FInv (rd_sess q) i (LAppend x)) (f_tr f).
Proof.
  intros P TF c clients fls f AU H K RG r q Hq (OR1 & OR2 & OR3). destruct (explained c clients AU fls f H) as (ls & s & w & PP & a & HI & F).
  destruct (fr_o _ _ _ _ _ _ _ F) as (t0 & t & O). pose proof (fr_ge _ _ _ _ _ _ _ F) as GE1.
  pose proof (fr_taken _ _ _ _ _ _ _ F) as TK. pose proof (fr_seen _ _ _ _ _ _ _ F) as SN.
  assert (ONE : forall j i, one_at_a_time (on_buf j i w)) by (intros j i; eapply hist_one, (fr_hist _ _ _ _ _ _ _ F)).
  assert (IN : forall e, In e (sb_tr s) -> match e with
     | EAppend i j x u => exists i', In (FInv j i' (LAppend x)) (f_tr f)
     | ECall r cl v => exists j i, In (FInv j i (LCall r cl)) (f_tr f)
     | ENext (Some _) _ _ | EPoll _ _ => False
     | _ => In (FEv e) (f_tr f) end).
  { intros e X. rewrite <- TK in X. pose proof (in_taken _ _ _ GE1 X) as Y. rewrite SN in Y. destruct e; auto.
    - destruct Y as (i' & Y). exists i'. rewrite <- SN. eapply acted_began; eauto.
    - destruct Y as (j & i & Y). exists j, i. rewrite <- SN. eapply acted_began; eauto. }
  destruct (nth_error (sb_rds s) r) as [q'|] eqn:Hq'.
  2:{ apply nth_error_None in Hq'. apply nth_lt in Hq. pose proof (or_nr _ _ _ _ _ O). lia. }
  destruct (or_rds _ _ _ _ _ O r q q' Hq Hq') as (B1 & _).
  destruct (C75_never_repeats P TF c ls s HI) with (r := r) (q := q') as [SO SU]; auto.
  { intros i j x o k X Hk. destruct (IN _ X) as (i' & Y). eapply K; eauto. }
  { intros j X. exact (OR3 j (IN _ X)). }
  { intros r1 g o X. destruct (IN _ X) as (j & i & Y). eapply RG; eauto. }
  { intros e X. pose proof (IN e X) as Y. destruct e as [| | | | | | | | |r1 j n p st ig| | | | |r1 cl o| |]; auto.
    - intros ->. eapply OR1; eauto.
    - destruct Y as (j & i & Y). destruct cl; auto; intros; try (intros ->); subst; destruct (OR2 _ _ _ Y) as (a1 & E & E2); try discriminate. injection E as <-. exact E2. }
  assert (PRE : exists rest, SpecStream.received r (sb_tr s) = received_f r (f_tr f) ++ rest).
  { rewrite received_answered, received_returned by (intros e X; pose proof (IN e X) as Y; destruct e as [| | | | | | | | | | | | |[]| | |]; auto). rewrite <- TK, <- SN.
    destruct (fr_ret _ _ _ _ _ _ _ F r) as [(j & i & cl & v & _ & E)|[_ E]]; unfold act_r, ret_r in E; rewrite E.
    - rewrite flat_map_app. eauto.
    - exists []. now rewrite app_nil_r. }
  destruct PRE as (rest & PRE). rewrite PRE in SO, SU. split; [eapply sorted_prefix; exact SO|].
  intros x X. assert (Y : In x (accepted_by (rd_sess q') (sb_tr s))) by (eapply subseq_in; [exact SU|]; apply in_or_app; now left).
  unfold accepted_by in Y. apply in_flat_map in Y as (e & Y1 & Y2). destruct e; try contradiction. destruct o; [|contradiction]. destruct (Nat.eqb_spec j (rd_sess q')) as [->|]; [|contradiction].
  destruct Y2 as [->|[]]. rewrite B1. exact (IN _ Y1).
Qed.
Print Assumptions C112_steps_never_repeat.

(** ** A run in single steps, for the examples *)
Definition t0 : flabel := FOut (LT 0 (Ok PNone)).
Definition rds (x : Z) : list flabel := [t0; t0; FOut (LT 0 (Ok (PInt x))); t0].
Definition one_read : call := CRead (MkRA None None None None).
(** The client (thread 0) begins a read while the reading thread (thread 1) is in its first
    append, and reads on while it is in its second. *)
Definition fine_hist : list flabel :=
  map FOut (starting (PObj 7)) ++ rds 1 ++ [FOut (StreamBufferM.LMk 1 false false true); FPut 0] ++ repeat (FGo 0 1) 10 ++ [FCall 0 0 one_read]
  ++ repeat (FGo 0 0) 4 ++ repeat (FGo 0 1) 10 ++ rds 2 ++ [FPut 0] ++ repeat (FGo 0 0) 10 ++ repeat (FGo 0 1) 5 ++ repeat (FGo 0 0) 18 ++ repeat (FGo 0 1) 15.
Definition fine_end : fsb := match f_run cfg3 1 f0 fine_hist with Some f => f | None => f0 end.
Definition fine_trace : list fev :=
  map FEv [EOpen 0 (Ok tt); EBuilt 0 (PObj 7); EStarted 0; ERead 0 (Ok (PInt 1)); ENew 0 0 1 false false true; EMk (Ok 0)] ++
  [FInv 0 1 (LAppend (PInt 1)); FInv 0 0 (LCall 0 one_read); FRes 0 1 (LAppend (PInt 1)) (OUnit (Ok tt)); FEv (ERead 0 (Ok (PInt 2)));
   FInv 0 1 (LAppend (PInt 2)); FRes 0 0 (LCall 0 one_read) (OVal (Ok (VItem (PInt 1)))); FRes 0 1 (LAppend (PInt 2)) (OUnit (Ok tt))].
Lemma fine_runs : f_run cfg3 1 f0 fine_hist = Some fine_end.
Proof. vm_compute. reflexivity. Qed.
Lemma fine_trace_is : f_tr fine_end = fine_trace.
Proof. vm_compute. reflexivity. Qed.
Lemma fine_rest : nobody_inside fine_end.
Proof.
  intros j L H. apply idle_at_rest. assert (E : forallb (fun b => match b with Some L => all_idle L | None => true end) (f_bufs fine_end) = true) by (vm_compute; reflexivity).
  rewrite forallb_forall in E. unfold the_lock in H. destruct (nth_error (f_bufs fine_end) j) as [[L'|]|] eqn:E1; try discriminate. injection H as ->.
  exact (E _ (nth_error_In _ _ E1)).
Qed.
(** The hypotheses hold of this run, in which the calls overlap; nobody is inside at its end,
    and in its middle (after the client has begun) a call and an append are under way. *)
Example C111_nonvacuous :
  is_True (c_auto cfg3) = true /\ f_run cfg3 1 f0 fine_hist = Some fine_end /\ nobody_inside fine_end /\ f_tr fine_end = fine_trace /\
  returned_by 0 (f_tr fine_end) = [(one_read, Ok (VItem (PInt 1)))] /\
  match f_run cfg3 1 f0 (firstn 30 fine_hist) with
  | Some f => match the_lock f 0 with
              | Some L => existsb (fun h => match h_ph h with PhCall _ _ _ => true | _ => false end) (ls_ths L) = true /\
                          existsb (fun h => match h_ph h with PhWrite _ _ => true | _ => false end) (ls_ths L) = true
              | None => False
              end
  | None => False
  end.
Proof. split; [reflexivity|]. split; [apply fine_runs|]. split; [apply fine_rest|]. split; [apply fine_trace_is|]. vm_compute. auto. Qed.
(** Before the first FPut: the reading thread has a value and can begin; so can the client. *)
Example C111_nobody_left_out_nonvacuous :
  exists f, f_run cfg3 1 f0 (firstn 13 fine_hist) = Some f /\ (exists e, nth_error (sb_ss (f_s f)) 0 = Some e /\ se_pc e = TPut 0 (PInt 1)) /\
    (exists q, nth_error (sb_rds (f_s f)) 0 = Some q) /\
    (exists f', f_step cfg3 1 f (FPut 0) = Some f') /\ (exists f', f_step cfg3 1 f (FCall 0 0 one_read) = Some f').
Proof.
  destruct (f_run cfg3 1 f0 (firstn 13 fine_hist)) as [f|] eqn:E; [|vm_compute in E; discriminate]. exists f. split; [reflexivity|].
  vm_compute in E. injection E as <-. split; [eexists; split; reflexivity|]. split; [eexists; reflexivity|]. split; eexists; vm_compute; reflexivity.
Qed.
(** C111_transfer with any statement about all histories for [Q]; here a part of C41. *)
Example C111_transfer_nonvacuous :
  (forall ls s, history cfg3 ls s -> forall i j x o, In (EAppend i j x o) (sb_tr s) -> x <> PNone) /\
  exists w, seen_f w = f_tr fine_end /\ In (EOpen 0 (Ok tt)) (taken 1 w) /\ forall i j x o, In (EAppend i j x o) (taken 1 w) -> x <> PNone.
Proof.
  assert (Q : forall ls s, history cfg3 ls s -> forall i j x o, In (EAppend i j x o) (sb_tr s) -> x <> PNone) by (intros ls s H i j x o X; destruct (C41_read_order cfg3 ls s H i); eauto).
  split; [exact Q|]. destruct (C111_transfer cfg3 1 (fun tr => forall i j x o, In (EAppend i j x o) tr -> x <> PNone) eq_refl Q fine_hist fine_end fine_runs) as (w & E1 & _ & E2).
  exists w. split; [exact E1|]. split; [|exact E2].
  assert (X : In (FEv (EOpen 0 (Ok tt))) (seen_f w)) by (rewrite E1, fine_trace_is; now left).
  unfold seen_f in X. apply in_flat_map in X as (g & Hg & X). unfold taken. apply in_flat_map. exists g. split; [exact Hg|].
  destruct g as [e|j i o|j i o v|j i o v]; [|now destruct X as [X|[]]|now destruct X|now destruct X as [X|[]]]. destruct X as [X|[]]. injection X as ->. now left.
Qed.
Example C112_nonvacuous :
  keys_in_f is_int cfg3 (f_tr fine_end) /\ ranges_in_f is_int cfg3 (f_tr fine_end) /\ only_reads_f 0 (f_tr fine_end) /\
  (exists q, nth_error (sb_rds (f_s fine_end)) 0 = Some q /\ rd_sess q = 0) /\ received_f 0 (f_tr fine_end) = [PInt 1].
Proof.
  rewrite fine_trace_is. split; [|split; [|split; [|split]]].
  - intros j i x k X Hk. cbn in Hk. injection Hk as <-. cbn in X. repeat destruct X as [X|X]; try discriminate; try contradiction; injection X as <- <- <-; eexists; reflexivity.
  - intros j i r g X. cbn in X. repeat destruct X as [X|X]; try discriminate; contradiction.
  - split; [|split].
    + intros j n p st ig X. cbn in X. repeat destruct X as [X|X]; try discriminate; try contradiction. now injection X as <- <- <- <- <-.
    + intros j i cl X. cbn in X. repeat destruct X as [X|X]; try discriminate; try contradiction. injection X as <- <- <-. eexists. split; reflexivity.
    + intros j X. cbn in X. repeat destruct X as [X|X]; try discriminate; contradiction.
  - eexists. split; vm_compute; reflexivity.
  - reflexivity.
Qed.

(** ** C113: a call can hang the stream for good *)
(** Refuted: a client that has read something calls range(only_new_items=True) while the
    reading thread wants to append. Then, whatever anybody does from then on - stop() and
    start() included - the call never returns, the source is never read again in that
    session, and it is never closed. *)
Theorem C113_range_hangs_the_stream_refuted :
  exists c clients fls f g, is_True (c_auto c) = true /\ f_run c clients f0 fls = Some f /\
    In (FRes 0 0 (LCall 0 one_read) (OVal (Ok (VItem (PInt 1))))) (f_tr f) /\
    In (FInv 0 0 (LCall 0 (CRange g))) (f_tr f) /\ g_only_new g = true /\
    (exists f', f_run c clients f [FOut LStop; FOut LStopRet] = Some f') /\
    forall fls' f', f_run c clients f fls' = Some f' ->
      exists tr, f_tr f' = f_tr f ++ tr /\
        (forall v, ~ In (FRes 0 0 (LCall 0 (CRange g)) v) tr) /\ (forall v, ~ In (FEv (ERead 0 v)) tr) /\ (forall v, ~ In (FEv (EClose 0 v)) tr).
Proof.
  pose (g := MkRG (PInt 0) (PInt 9) None false None true false false).
  pose (fls := map FOut (starting (PObj 7)) ++ rds 1 ++ [FOut (StreamBufferM.LMk 1 false false true); FPut 0] ++ repeat (FGo 0 1) 20 ++ [FCall 0 0 one_read] ++ repeat (FGo 0 0) 32
    ++ rds 2 ++ [FCall 0 0 (CRange g)] ++ repeat (FGo 0 0) 14 ++ [FPut 0] ++ repeat (FGo 0 1) 7 ++ repeat (FGo 0 0) 6).
  destruct (f_run cfg3 1 f0 fls) as [f|] eqn:H; [|vm_compute in H; discriminate].
  exists cfg3, 1, fls, f, g. split; [reflexivity|]. split; [exact H|].
  destruct (explained cfg3 1 eq_refl fls f H) as (ls & s & w & P & a & HI & F).
  assert (ST : stuck 0 0 1 0 (CRange g) (PInt 2) f).
  { clear F HI. vm_compute in H. injection H as <-. unfold stuck. eexists. split; [reflexivity|]. unfold jam, deadlock_pair, thread_at.
    do 5 eexists. split; [split; [reflexivity|split; [reflexivity|split; [cbn; lia|split; reflexivity]]]|]. split; [reflexivity|]. split; [reflexivity|]. split; reflexivity. }
  split; [|split; [|split; [|split]]].
  - clear - H. vm_compute in H. injection H as <-. cbn [f_tr]. repeat (try (left; reflexivity); right).
  - clear - H. vm_compute in H. injection H as <-. cbn [f_tr]. repeat (try (left; reflexivity); right).
  - reflexivity.
  - clear - H. vm_compute in H. injection H as <-. vm_compute. eexists. reflexivity.
  - intros fls' f' H'. destruct (stuck_forever cfg3 1 eq_refl fls' _ _ _ _ _ _ _ _ _ _ _ _ f' F HI ST (le_n 1) H') as (_ & tr & E & X). exists tr. split; [exact E|exact X].
Qed.
Print Assumptions C113_range_hangs_the_stream_refuted.
