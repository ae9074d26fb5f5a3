(** * Steps inside the buffers, and whole runs *)
From Coq Require Import List ZArith Bool Arith Lia.
From Verif Require Import PyVal PyLib SortedDequeM Spec SpecDeque BufferReaderM BufferSysM ListFacts DequeFacts DequeSearch LogFacts LogReads
  RWLockM SpecLock LockFacts LockProps ReaderStepsM SpecLin LinFacts LinShape LinSim LinStep LinRun
  StreamBufferM SpecStream StreamFacts StreamFineM SpecFine FineOut FineSim.
Import ListNotations.

Section Fine.
Variable c : cfg.
Variable clients : nat.
Hypothesis AU : is_True (c_auto c) = true.
Notation core := (core (c_key c)).
Notation rthread := (rthread clients).
Notation frel := (frel c clients).
Notation op_ok := (op_ok clients).
Notation slot_ok := (slot_ok clients).
Notation buf_rel := (buf_rel c clients).

Definition put2 (P : nat -> nat -> tstat) (j i : nat) (st : tstat) : nat -> nat -> tstat := fun j' => if Nat.eqb j' j then put (P j') i st else P j'.
Definition set_a (a : nat -> option tpc) (i : nat) (v : option tpc) : nat -> option tpc := fun k => if Nat.eqb k i then v else a k.
Lemma put2_at P j i st j' i' : put2 P j i st j' i' = if Nat.eqb j' j && Nat.eqb i' i then st else P j' i'.
Proof. unfold put2, put. destruct (Nat.eqb j' j); reflexivity. Qed.

(* no two calls on one reader *)
Definition on_r (st : tstat) (r : nat) : Prop := exists cl, st = Called (LCall r cl) \/ exists v, st = Acted (LCall r cl) v.
Definition one_per_reader (P : nat -> nat -> tstat) : Prop := forall r j i j' i', on_r (P j i) r -> on_r (P j' i') r -> j = j' /\ i = i'.
Lemma one_less P j i st : one_per_reader P -> (forall r, on_r st r -> on_r (P j i) r) -> one_per_reader (put2 P j i st).
Proof.
  intros H G r a b a' b'. rewrite !put2_at. intros X Y. apply (H r).
  - destruct (Nat.eqb_spec a j) as [->|]; [|exact X]. destruct (Nat.eqb_spec b i) as [->|]; [|exact X]. auto.
  - destruct (Nat.eqb_spec a' j) as [->|]; [|exact Y]. destruct (Nat.eqb_spec b' i) as [->|]; [|exact Y]. auto.
Qed.
(* a change that has nothing to do with reader [r] *)
Lemma pend_other w P j i st g r : pend_r clients w P r -> act_r clients r [g] = [] -> ret_r r [g] = [] -> ~ on_r (P j i) r -> ~ on_r st r -> pend_r clients (w ++ [g]) (put2 P j i st) r.
Proof.
  intros H E1 E2 N1 N2. unfold pend_r. rewrite act_r_app, ret_r_app, E1, E2, !app_nil_r. destruct H as [(j1 & i1 & cl & v & H1 & H2)|[H1 H2]].
  - left. exists j1, i1, cl, v. split; [|exact H2]. rewrite put2_at. destruct (Nat.eqb_spec j1 j) as [->|]; [|exact H1]. destruct (Nat.eqb_spec i1 i) as [->|]; [|exact H1].
    exfalso. apply N1. exists cl. right. eauto.
  - right. split; [|exact H2]. intros j1 i1 cl v. rewrite put2_at. destruct (Nat.eqb j1 j && Nat.eqb i1 i); [|apply H1]. intros ->. apply N2. exists cl. right. eauto.
Qed.
(* everything but the buffers *)
Record fout (w : list gev) (s0 : sb) (tr : list fev) (s : sb) (P : nat -> nat -> tstat) (a : nat -> option tpc) : Prop := {
  fo_o : exists t0 t, orel a t0 t s0 s;
  fo_a : forall i, match a i with
           | Some p => exists e j x v, nth_error (sb_ss s0) i = Some e /\ se_pc e = TPut j x /\ P j (rthread i) = Acted (LAppend x) v /\ p = after_put v
           | None => forall j o v, P j (rthread i) <> Acted o v
           end;
  fo_slot : forall j i, slot_ok s0 j i (P j i);
  fo_hist : forall j i, hist i (P j i) (on_buf j i w);
  fo_seen : seen_f w = tr;
  fo_taken : taken clients w = sb_tr s;
  fo_in : forall j i, P j i <> Rest -> i < clients + S j;
  fo_ret : forall r, pend_r clients w P r;
  fo_one : one_per_reader P;
  fo_ge : ge_ok w
}.
Lemma in_phase w f s P a j i r cl : frel w f s P a -> (P j i = Called (LCall r cl) \/ exists v, P j i = Acted (LCall r cl) v) ->
  exists L h p, nth_error (f_bufs f) j = Some (Some L) /\ nth_error (ls_ths L) i = Some h /\ h_ph h = PhCall r cl p.
Proof.
  intros F H. assert (NR : P j i <> Rest) by (destruct H as [H|[v H]]; congruence). pose proof (fr_in _ _ _ _ _ _ _ F j i NR) as LT.
  pose proof (fr_buf _ _ _ _ _ _ _ F j) as FB. destruct (nth_error (f_bufs f) j) as [[L|]|]; [|exfalso; apply NR, FB|exfalso; apply NR, FB].
  destruct FB as (d & R & A1 & A2 & A3 & A4 & A5 & A6 & A7).
  destruct (nth_error (ls_ths L) i) as [h|] eqn:Hh; [|apply nth_error_None in Hh; lia].
  destruct (nth_error (st_ths (ls_lock L)) i) as [th|] eqn:Ht.
  2:{ apply nth_error_None in Ht. rewrite <- (sm_len _ _ _ _ A2) in Ht. apply nth_error_None in Ht. congruence. }
  pose proof (sm_th _ _ _ _ A2 i th h Ht Hh) as T. unfold thread_rel in T. destruct (h_ph h) as [|r2 c2 p2|o2 out] eqn:Ep.
  - exfalso. apply NR, T.
  - exists L, h, p2. split; [reflexivity|]. split; [exact Hh|].
    destruct T as (r0 & r1 & n & _ & _ & _ & [(S1 & _)|(v1 & S1 & _)]); destruct H as [H|[v H]]; congruence.
  - exfalso. destruct T as [W T]. destruct out; destruct T as (T & _); destruct H as [H|[v' H]]; try congruence.
    all: assert (o2 = LCall r cl) by congruence; subst; exact W.
Qed.
Lemma frel_one w f s P a : frel w f s P a -> one_per_reader P.
Proof.
  intros F r j i j' i' (cl & X) (cl' & Y). destruct (in_phase _ _ _ _ _ _ _ _ _ F X) as (L & h & p & E1 & E2 & E3).
  destruct (in_phase _ _ _ _ _ _ _ _ _ F Y) as (L' & h' & p' & E1' & E2' & E3').
  destruct (in_call _ _ _ _ _ _ _ _ _ _ _ _ _ _ F E1 E2 E3) as (q & Q1 & Q2). destruct (in_call _ _ _ _ _ _ _ _ _ _ _ _ _ _ F E1' E2' E3') as (q' & Q1' & Q2').
  assert (q' = q) by congruence. rewrite H, Q2 in Q2'. rewrite <- Q2' in *. split; [reflexivity|]. assert (L' = L) by congruence. subst L'.
  pose proof (fr_buf _ _ _ _ _ _ _ F j) as FB. rewrite E1 in FB. destruct FB as (d & R & A1 & A2 & _). eapply (sm_excl _ _ _ _ A2); eauto.
Qed.
Lemma frel_out w f s P a : frel w f s P a -> fout w (f_s f) (f_tr f) s P a.
Proof. intro F. pose proof (frel_one _ _ _ _ _ F). destruct F. constructor; auto. Qed.

Lemma in_at (P : nat -> nat -> tstat) j i st : (forall j' i', P j' i' <> Rest -> i' < clients + S j') -> i < clients + S j ->
  forall j' i', put2 P j i st j' i' <> Rest -> i' < clients + S j'.
Proof.
  intros H G j' i'. rewrite put2_at. destruct (Nat.eqb_spec j' j) as [->|]; cbn [andb]; [|apply H]. destruct (Nat.eqb_spec i' i) as [->|]; [auto|apply H].
Qed.
Lemma ge_more w g : ge_ok w -> (forall e, g <> GE e) -> ge_ok (w ++ [g]).
Proof. intros H N e X. apply in_app_or in X as [X|[X|[]]]; [exact (H e X)|]. exfalso. exact (N e X). Qed.
Lemma hist_at w j i es st g : (forall j' i', on_buf j' i' [g] = if Nat.eqb j' j && Nat.eqb i' i then es else []) ->
  forall P, (forall j' i', hist i' (P j' i') (on_buf j' i' w)) -> (hist i (P j i) (on_buf j i w) -> hist i st (on_buf j i w ++ es)) ->
  forall j' i', hist i' (put2 P j i st j' i') (on_buf j' i' (w ++ [g])).
Proof.
  intros E P H G j' i'. rewrite on_buf_app, E, put2_at. destruct (Nat.eqb_spec j' j) as [->|]; cbn [andb]; [|rewrite app_nil_r; apply H].
  destruct (Nat.eqb_spec i' i) as [->|]; [|rewrite app_nil_r; apply H]. apply G, H.
Qed.
Lemma on_buf_one (g : gev) : match g with GE _ => True | GI j1 i1 o => forall j' i', on_buf j' i' [g] = if Nat.eqb j' j1 && Nat.eqb i' i1 then [XInv i1 o] else []
  | GA j1 i1 o v => forall j' i', on_buf j' i' [g] = if Nat.eqb j' j1 && Nat.eqb i' i1 then [XAct i1 o v] else []
  | GR j1 i1 o v => forall j' i', on_buf j' i' [g] = if Nat.eqb j' j1 && Nat.eqb i' i1 then [XRes i1 o v] else [] end.
Proof.
  destruct g as [e|j1 i1 o|j1 i1 o v|j1 i1 o v]; auto; intros j' i'; cbn; rewrite (Nat.eqb_sym j' _), (Nat.eqb_sym i' _); destruct (Nat.eqb j1 j'), (Nat.eqb_spec i1 i') as [->|]; reflexivity.
Qed.
Lemma rthread_at i : clients <= i -> rthread (i - clients) = i.
Proof. unfold StreamFineM.rthread. lia. Qed.

(* the coarse state after an operation took effect on buffer [j] *)
Definition acted_on (s s' : sb) (j : nat) (b' : bsys) : Prop :=
  (forall k, buf_of s' k = if Nat.eqb k j then Some (s_buf b') else buf_of s k) /\
  length (sb_ss s') = length (sb_ss s) /\ length (sb_rds s') = length (sb_rds s) /\
  forall r q', nth_error (sb_rds s') r = Some q' -> (rd_sess q' = j -> nth_error (s_rds b') r = Some (rd_r q')) /\ (rd_sess q' <> j -> nth_error (sb_rds s) r = Some q').

Lemma takes_effect w s0 tr s P a j i o v d R b' : fout w s0 tr s P a -> P j i = Called o -> buf_of s j = Some d ->
  (forall r q, nth_error (sb_rds s) r = Some q -> rd_sess q = j -> nth_error R r = Some (rd_r q)) ->
  bsys_step (MkBS d R) o = (b', v) ->
  exists l s' a', sb_step c s l = Some s' /\ fout (w ++ [GA j i o v]) s0 tr s' (put2 P j i (Acted o v)) a' /\ acted_on s s' j b' /\ length (s_rds b') = length R.
Proof.
  intros F EP BD RR ST. destruct (fo_o _ _ _ _ _ _ F) as (t0 & t & O). pose proof (fo_slot _ _ _ _ _ _ F j i) as SL. rewrite EP in SL. cbn in SL.
  pose proof SL as SL0. unfold FineSim.op_ok in SL. destruct (Nat.leb_spec clients i) as [LE|LT].
  - (* a reading thread appends *)
    destruct SL as (e0 & x & He0 & Hp0 & ->). cbn in ST. destruct (sd_append d x) as [d' u] eqn:EA. injection ST as <- <-.
    set (k := i - clients) in *.
    destruct (nth_error (sb_ss s) k) as [e|] eqn:He.
    2:{ apply nth_error_None in He. apply nth_lt in He0. pose proof (or_len _ _ _ _ _ O). lia. }
    destruct (or_ss _ _ _ _ _ O _ _ _ He0 He) as (B1 & B2 & B3).
    assert (AN : a k = None).
    { pose proof (fo_a _ _ _ _ _ _ F k) as FA. destruct (a k) as [p|] eqn:Ak; [|reflexivity]. destruct FA as (e1 & j1 & x1 & v1 & C1 & C2 & C3 & _).
      unfold k in C3. rewrite rthread_at in C3 by exact LE. assert (j1 = j) by congruence. subst j1. congruence. }
    rewrite AN in B3.
    assert (DN : dropping s j = None) by (unfold dropping; destruct (or_dr _ _ _ _ _ O) as (_ & _ & _ & ->); reflexivity).
    set (s' := set_tpc (log (upd_sess s j (fun e => w_buf e d')) (EAppend k j x u)) k (match u with Ok _ => TCheck | Raise e => TFinCheck (Some e) end)).
    exists (LT k (Ok PNone)), s', (set_a a k (Some (after_put (OUnit u)))).
    split. { cbn [sb_step]. rewrite He, <- B3, Hp0. cbn [thread_step]. rewrite DN, BD, EA. reflexivity. }
    assert (SS : forall m, nth_error (sb_ss s') m = match nth_error (sb_ss s) m with
        | Some e1 => Some (let e2 := if Nat.eqb j m then w_buf e1 d' else e1 in if Nat.eqb k m then w_pc e2 (after_put (OUnit u)) else e2) | None => None end).
    { intro m. unfold s'. proj. rewrite !nth_upd. destruct (Nat.eqb k m), (Nat.eqb j m); destruct (nth_error (sb_ss s) m); cbn; try reflexivity; destruct u as [[]|]; reflexivity. }
    split; [constructor|].
    + pose proof O as O1. destruct O1 as [A1 A2 A3 A4 A5 A6 A7 A8 A9 A10 (es & E1 & E2)].
      exists (sb_tr s0), (sb_tr s'). constructor; auto; try (unfold s'; proj; auto; fail).
      * unfold s'. proj. now rewrite !upd_length.
      * intros m f0 f1 H0 H1. rewrite SS in H1. destruct (nth_error (sb_ss s) m) as [f2|] eqn:Hm; [|discriminate]. injection H1 as <-.
        pose proof (A2 m f0 f2 H0 Hm) as (C1 & (C2 & C3) & C4). unfold set_a. rewrite (Nat.eqb_sym m k). cbn zeta.
        assert (BB : Nat.eqb j m = true -> se_buf f2 <> None).
        { intro Q. apply Nat.eqb_eq in Q. subst m. unfold buf_of in BD. rewrite Hm in BD. congruence. }
        destruct (Nat.eqb_spec k m) as [<-|N].
        -- assert (f0 = e0) by congruence. subst f0. destruct (Nat.eqb j k); (split; [exact C1|split; [split; [exact C2|]|split; [reflexivity|eauto]]]); cbn; auto.
           split; [intro X; exfalso; apply (BB eq_refl), C3, X|discriminate].
        -- destruct (Nat.eqb j m); (split; [exact C1|split; [split; [exact C2|]|exact C4]]); cbn; auto.
           split; [intro X; exfalso; apply (BB eq_refl), C3, X|discriminate].
      * exists []. now rewrite !app_nil_r.
    + intro m. unfold set_a. destruct (Nat.eqb_spec m k) as [->|N].
      * exists e0, j, x, (OUnit u). rewrite put2_at, Nat.eqb_refl. unfold k. rewrite rthread_at, Nat.eqb_refl by exact LE. auto.
      * pose proof (fo_a _ _ _ _ _ _ F m) as FA. assert (Q : forall j', put2 P j i (Acted (LAppend x) (OUnit u)) j' (rthread m) = P j' (rthread m)).
        { intro j'. rewrite put2_at. destruct (Nat.eqb_spec (rthread m) i) as [Q|]; [|now rewrite andb_false_r]. exfalso. apply N. unfold k. unfold StreamFineM.rthread in Q. lia. }
        destruct (a m) as [p|].
        -- destruct FA as (e1 & j1 & x1 & v1 & C1 & C2 & C3 & C4). exists e1, j1, x1, v1. rewrite Q. auto.
        -- intros j1 o1 v1. rewrite Q. apply FA.
    + intros j' i'. rewrite put2_at. destruct (Nat.eqb_spec j' j) as [->|]; cbn [andb]; [|apply (fo_slot _ _ _ _ _ _ F)].
      destruct (Nat.eqb_spec i' i) as [->|]; [|apply (fo_slot _ _ _ _ _ _ F)]. cbn. split; [exact SL0|eauto].
    + apply hist_at with [XAct i (LAppend x) (OUnit u)]; [apply (on_buf_one (GA j i (LAppend x) (OUnit u)))|apply (fo_hist _ _ _ _ _ _ F)|].
      rewrite EP. intros (c1 & Fc & ->). exists c1. split; [exact Fc|]. now rewrite <- app_assoc.
    + rewrite seen_f_app, (fo_seen _ _ _ _ _ _ F). apply app_nil_r.
    + rewrite taken_app, (fo_taken _ _ _ _ _ _ F). unfold s'. proj. reflexivity.
    + apply in_at; [apply (fo_in _ _ _ _ _ _ F)|]. apply (fo_in _ _ _ _ _ _ F). congruence.
    + intro r. apply pend_other; auto; [apply (fo_ret _ _ _ _ _ _ F)|rewrite EP|]; intros (cl & [X|[v' X]]); discriminate.
    + apply one_less; [apply (fo_one _ _ _ _ _ _ F)|]. intros r (cl & [X|[v' X]]); discriminate.
    + apply ge_more; [apply (fo_ge _ _ _ _ _ _ F)|discriminate].
    + split; [|reflexivity]. split; [|split; [|split]].
      * intro m. unfold buf_of. rewrite SS. rewrite (Nat.eqb_sym m j). destruct (nth_error (sb_ss s) m) as [f|] eqn:Hm.
        -- cbn zeta. destruct (Nat.eqb k m), (Nat.eqb j m); reflexivity.
        -- destruct (Nat.eqb_spec j m) as [<-|]; [|reflexivity]. unfold buf_of in BD. rewrite Hm in BD. discriminate.
      * unfold s'. proj. now rewrite !upd_length.
      * reflexivity.
      * intros r q' Hq. split; [intro; cbn; apply RR; assumption|intros _; exact Hq].
  - (* a client calls *)
    destruct SL as (r & cl & q0 & -> & NX & Hq0 & Hj).
    destruct (nth_error (sb_rds s) r) as [q|] eqn:Hq.
    2:{ apply nth_error_None in Hq. apply nth_lt in Hq0. pose proof (or_nr _ _ _ _ _ O). lia. }
    destruct (or_rds _ _ _ _ _ O _ _ _ Hq0 Hq) as (B1 & B2 & B3). assert (Hjq : rd_sess q = j) by congruence.
    pose proof (RR r q Hq Hjq) as HR. cbn in ST. rewrite HR in ST. destruct (BufferReaderM.run (do_call d cl) (rd_r q)) as [br u] eqn:ER. injection ST as <- <-.
    set (s' := log (set_rds s (set_nth (sb_rds s) r (MkRdr (rd_sess q) (rd_ev q) (rd_info q) br (rd_loop q) (rd_out q)))) (ECall r cl u)).
    exists (LCallR r cl), s', a.
    split. { cbn [sb_step]. unfold call_step. rewrite Hq, Hjq, BD. assert (W : with_stopped (ev_set s (rd_ev q)) cl = cl) by (destruct cl; try reflexivity; exfalso; eapply NX; reflexivity).
      rewrite W, ER. unfold s'. now rewrite Hjq. }
    assert (Q : forall m j' v', put2 P j i v' j' (rthread m) = P j' (rthread m)).
    { intros m j' v'. rewrite put2_at. destruct (Nat.eqb_spec (rthread m) i) as [Q|]; [|now rewrite andb_false_r]. unfold StreamFineM.rthread in Q. lia. }
    split; [constructor|].
    + pose proof O as O1. destruct O1 as [A1 A2 A3 A4 A5 A6 A7 A8 A9 A10 (es & E1 & E2)].
      exists (sb_tr s0), (sb_tr s'). constructor; auto; try (unfold s'; proj; auto; fail).
      * unfold s'. proj. now rewrite set_nth_length.
      * intros m p0 p1 H0 H1. unfold s' in H1. proj. rewrite nth_error_set_nth in H1. destruct (Nat.eqb_spec r m) as [<-|]; [|eauto].
        rewrite Hq in H1. injection H1 as <-. assert (p0 = q0) by congruence. subst p0. repeat split; assumption.
      * exists []. now rewrite !app_nil_r.
    + intro m. pose proof (fo_a _ _ _ _ _ _ F m) as FA. destruct (a m) as [p|].
      * destruct FA as (e1 & j1 & x1 & v1 & C1 & C2 & C3 & C4). exists e1, j1, x1, v1. rewrite Q. auto.
      * intros j1 o1 v1. rewrite Q. apply FA.
    + intros j' i'. rewrite put2_at. destruct (Nat.eqb_spec j' j) as [->|]; cbn [andb]; [|apply (fo_slot _ _ _ _ _ _ F)].
      destruct (Nat.eqb_spec i' i) as [->|]; [|apply (fo_slot _ _ _ _ _ _ F)]. cbn. split; [exact SL0|eauto].
    + apply hist_at with [XAct i (LCall r cl) (OVal u)]; [apply (on_buf_one (GA j i (LCall r cl) (OVal u)))|apply (fo_hist _ _ _ _ _ _ F)|].
      rewrite EP. intros (c1 & Fc & ->). exists c1. split; [exact Fc|]. now rewrite <- app_assoc.
    + rewrite seen_f_app, (fo_seen _ _ _ _ _ _ F). apply app_nil_r.
    + rewrite taken_app, (fo_taken _ _ _ _ _ _ F). unfold s'. proj. reflexivity.
    + apply in_at; [apply (fo_in _ _ _ _ _ _ F)|]. apply (fo_in _ _ _ _ _ _ F). congruence.
    + intro r'. destruct (Nat.eq_dec r r') as [<-|N].
      * left. exists j, i, cl, u. split; [now rewrite put2_at, !Nat.eqb_refl|]. rewrite act_r_app, ret_r_app. cbn. rewrite Nat.eqb_refl, ?app_nil_r.
        f_equal. destruct (fo_ret _ _ _ _ _ _ F r) as [(j1 & i1 & cl1 & v1 & X1 & _)|[_ X]]; [|rewrite ?app_nil_r; exact X]. exfalso.
        destruct (fo_one _ _ _ _ _ _ F r j1 i1 j i) as [-> ->]; [exists cl1; eauto|exists cl; eauto|congruence].
      * apply pend_other; [apply (fo_ret _ _ _ _ _ _ F)| | |rewrite EP|]; cbn; try (destruct (Nat.eqb_spec r r'); [congruence|reflexivity]); try reflexivity;
          intros (cl1 & [X|[v' X]]); congruence.
    + apply one_less; [apply (fo_one _ _ _ _ _ _ F)|]. intros r' (cl1 & [X|[v' X]]); [discriminate|]. injection X as <- <- <-. rewrite EP. exists cl. auto.
    + apply ge_more; [apply (fo_ge _ _ _ _ _ _ F)|discriminate].
    + split; [|cbn; now rewrite set_nth_length]. split; [|split; [|split]].
      * intro m. unfold buf_of, s'. proj. destruct (Nat.eqb_spec m j) as [->|]; [|reflexivity]. cbn. exact BD.
      * reflexivity.
      * unfold s'. proj. now rewrite set_nth_length.
      * intros m q' Hm. unfold s' in Hm. proj. cbn [s_rds]. rewrite nth_error_set_nth in Hm. rewrite nth_error_set_nth. destruct (Nat.eqb_spec r m) as [<-|]; [|auto].
        rewrite Hq in Hm. injection Hm as <-. cbn. rewrite HR. split; [reflexivity|congruence].
Qed.

Lemma comes_back w s0 tr s P a j i o v : fout w s0 tr s P a -> P j i = Acted o v ->
  exists a', fout (w ++ [GR j i o v]) (on_return clients s0 i v) (tr ++ [FRes j i o v]) s (put2 P j i Rest) a'.
Proof.
  intros F EP. destruct (fo_o _ _ _ _ _ _ F) as (t0 & t & O). pose proof (fo_slot _ _ _ _ _ _ F j i) as SL. rewrite EP in SL. destruct SL as [SL SV].
  pose proof SL as SL0. unfold FineSim.op_ok in SL. unfold on_return. destruct (Nat.leb_spec clients i) as [LE|LT].
  - destruct SL as (e0 & x & He0 & Hp0 & ->). set (k := i - clients) in *.
    assert (AK : a k = Some (after_put v)).
    { pose proof (fo_a _ _ _ _ _ _ F k) as FA. destruct (a k) as [p|].
      - destruct FA as (e1 & j1 & x1 & v1 & C1 & C2 & C3 & ->). unfold k in C3. rewrite rthread_at in C3 by exact LE. assert (j1 = j) by congruence. subst j1. congruence.
      - exfalso. apply (FA j (LAppend x) v). unfold k. rewrite rthread_at by exact LE. exact EP. }
    set (s0' := set_tpc s0 k (after_put v)).
    assert (SS : forall m, nth_error (sb_ss s0') m = if Nat.eqb k m then Some (w_pc e0 (after_put v)) else nth_error (sb_ss s0) m).
    { intro m. unfold s0'. proj. rewrite nth_upd. destruct (Nat.eqb_spec k m) as [<-|]; [|reflexivity]. rewrite He0. reflexivity. }
    exists (set_a a k None). constructor.
    + pose proof O as O1. destruct O1 as [A1 A2 A3 A4 A5 A6 A7 A8 A9 A10 (es & E1 & E2)].
      exists t0, t. constructor; auto; try (unfold s0'; proj; auto; fail).
      * unfold s0'. proj. now rewrite upd_length.
      * intros m f0 f1 H0 H1. rewrite SS in H0. unfold set_a. rewrite (Nat.eqb_sym m k). destruct (Nat.eqb_spec k m) as [<-|N]; [|eauto].
        injection H0 as <-. destruct (A2 k e0 f1 He0 H1) as (C1 & C2 & C3). rewrite AK in C3. destruct C3 as [C3 _]. split; [exact C1|]. split; [exact C2|]. cbn. congruence.
      * unfold s0'. proj. eauto.
    + intro m. unfold set_a. destruct (Nat.eqb_spec m k) as [->|N].
      * intros j1 o1 v1. unfold k. rewrite rthread_at by exact LE. rewrite put2_at, Nat.eqb_refl, andb_true_r. destruct (Nat.eqb_spec j1 j); [discriminate|].
        intro X. pose proof (fo_slot _ _ _ _ _ _ F j1 i) as S1. rewrite X in S1. destruct S1 as [S1 _]. unfold FineSim.op_ok in S1. destruct (Nat.leb_spec clients i); [|lia].
        destruct S1 as (e1 & x1 & Y1 & Y2 & _). fold k in Y1. rewrite He0 in Y1. injection Y1 as <-. congruence.
      * pose proof (fo_a _ _ _ _ _ _ F m) as FA. assert (Q : forall j', put2 P j i Rest j' (rthread m) = P j' (rthread m)).
        { intro j'. rewrite put2_at. destruct (Nat.eqb_spec (rthread m) i) as [Q|]; [|now rewrite andb_false_r]. exfalso. apply N. unfold k. unfold StreamFineM.rthread in Q. lia. }
        destruct (a m) as [p|].
        -- destruct FA as (e1 & j1 & x1 & v1 & C1 & C2 & C3 & C4). exists e1, j1, x1, v1. rewrite Q, SS. destruct (Nat.eqb_spec k m); [congruence|]. auto.
        -- intros j1 o1 v1. rewrite Q. apply FA.
    + intros j' i'. rewrite put2_at. pose proof (fo_slot _ _ _ _ _ _ F j' i') as S1.
      destruct (Nat.eqb j' j && Nat.eqb i' i) eqn:EE; [exact Logic.I|].
      assert (G : forall o1, op_ok s0 j' i' o1 -> op_ok s0' j' i' o1).
      { intro o1. unfold FineSim.op_ok. destruct (Nat.leb_spec clients i') as [LE1|]; [|auto]. intros (e1 & x1 & Y1 & Y2 & Y3). rewrite SS.
        destruct (Nat.eqb_spec k (i' - clients)) as [Q|]; [|eauto]. exfalso. rewrite <- Q in Y1. assert (e1 = e0) by congruence. subst e1.
        assert (j' = j) by congruence. assert (i' = i) by (unfold k in Q; lia). subst. rewrite !Nat.eqb_refl in EE. discriminate. }
      unfold FineSim.slot_ok in *. destruct (P j' i'); [exact Logic.I|auto|]. destruct S1. auto.
    + apply hist_at with [XRes i (LAppend x) v]; [apply (on_buf_one (GR j i (LAppend x) v))|apply (fo_hist _ _ _ _ _ _ F)|].
      rewrite EP. intros (c1 & Fc & ->). rewrite <- app_assoc. cbn. now constructor.
    + now rewrite seen_f_app, (fo_seen _ _ _ _ _ _ F).
    + rewrite taken_app, (fo_taken _ _ _ _ _ _ F). apply app_nil_r.
    + apply in_at; [apply (fo_in _ _ _ _ _ _ F)|]. apply (fo_in _ _ _ _ _ _ F). congruence.
    + intro r. apply pend_other; auto; [apply (fo_ret _ _ _ _ _ _ F)|rewrite EP|]; intros (cl & [X|[v' X]]); discriminate.
    + apply one_less; [apply (fo_one _ _ _ _ _ _ F)|]. intros r (cl & [X|[v' X]]); discriminate.
    + apply ge_more; [apply (fo_ge _ _ _ _ _ _ F)|discriminate].
  - destruct SL as (r & cl & q0 & -> & NX & Hq0 & Hj).
    assert (Q : forall m j' v', put2 P j i v' j' (rthread m) = P j' (rthread m)).
    { intros m j' v'. rewrite put2_at. destruct (Nat.eqb_spec (rthread m) i) as [Q|]; [|now rewrite andb_false_r]. unfold StreamFineM.rthread in Q. lia. }
    exists a. constructor.
    + eauto.
    + intro m. pose proof (fo_a _ _ _ _ _ _ F m) as FA. destruct (a m) as [p|].
      * destruct FA as (e1 & j1 & x1 & v1 & C1 & C2 & C3 & C4). exists e1, j1, x1, v1. rewrite Q. auto.
      * intros j1 o1 v1. rewrite Q. apply FA.
    + intros j' i'. rewrite put2_at. destruct (Nat.eqb j' j && Nat.eqb i' i); [exact Logic.I|]. apply (fo_slot _ _ _ _ _ _ F).
    + apply hist_at with [XRes i (LCall r cl) v]; [apply (on_buf_one (GR j i (LCall r cl) v))|apply (fo_hist _ _ _ _ _ _ F)|].
      rewrite EP. intros (c1 & Fc & ->). rewrite <- app_assoc. cbn. now constructor.
    + now rewrite seen_f_app, (fo_seen _ _ _ _ _ _ F).
    + rewrite taken_app, (fo_taken _ _ _ _ _ _ F). apply app_nil_r.
    + apply in_at; [apply (fo_in _ _ _ _ _ _ F)|]. apply (fo_in _ _ _ _ _ _ F). congruence.
    + intro r'. destruct SV as [u ->]. destruct (Nat.eq_dec r r') as [<-|N].
      * right. destruct (fo_ret _ _ _ _ _ _ F r) as [(j1 & i1 & cl1 & v1 & X1 & X2)|[X1 _]]; [|exfalso; eapply X1; eauto].
        destruct (fo_one _ _ _ _ _ _ F r j1 i1 j i) as [-> ->]; [exists cl1; eauto|exists cl; eauto|]. rewrite EP in X1. injection X1 as <- <-.
        split.
        -- intros j1 i1 cl1 v1. rewrite put2_at. destruct (Nat.eqb j1 j && Nat.eqb i1 i) eqn:EE; [discriminate|]. intro X.
           destruct (fo_one _ _ _ _ _ _ F r j1 i1 j i) as [-> ->]; [exists cl1; eauto|exists cl; eauto|]. rewrite !Nat.eqb_refl in EE. discriminate.
        -- rewrite act_r_app, ret_r_app, X2. cbn. rewrite Nat.eqb_refl, app_nil_r. reflexivity.
      * apply pend_other; [apply (fo_ret _ _ _ _ _ _ F)| | |rewrite EP|]; cbn; try (destruct (Nat.eqb_spec r r'); [congruence|reflexivity]); try reflexivity;
          intros (cl1 & [X|[v' X]]); congruence.
    + apply one_less; [apply (fo_one _ _ _ _ _ _ F)|]. intros r' (cl1 & [X|[v' X]]); discriminate.
    + apply ge_more; [apply (fo_ge _ _ _ _ _ _ F)|discriminate].
Qed.

Lemma put2_twice P j i x y : forall j' i', put2 (put2 P j i x) j i y j' i' = put2 P j i y j' i'.
Proof. intros j' i'. rewrite !put2_at. destruct (Nat.eqb j' j && Nat.eqb i' i); reflexivity. Qed.
Lemma put2_own P j i st i' : put2 P j i st j i' = put (P j) i st i'.
Proof. rewrite put2_at, Nat.eqb_refl. reflexivity. Qed.

(* the buffers, after one of them went on *)
Lemma bufs_on w f s P a j L L' d (R : list breader) b' st' i s0' tr' w' s' a' :
  frel w f s P a -> nth_error (f_bufs f) j = Some (Some L) -> buf_of s j = Some d ->
  core L' b' (put (P j) i st') -> (forall k h, nth_error (ls_ths L') k = Some h -> h_todo h = []) -> length (ls_ths L') = length (ls_ths L) ->
  length R = length (sb_rds s) -> length (s_rds b') = length R ->
  fout w' s0' tr' s' (put2 P j i st') a' -> acted_on s s' j b' ->
  frel w' (MkF s0' (set_nth (f_bufs f) j (Some (MkLs (ls_lock L') (ls_rds L') (ls_ths L') []))) tr') s' (put2 P j i st') a'.
Proof.
  intros F HL BD C TD LL LR LB FO (AC1 & AC2 & AC3 & AC4). constructor; cbn [f_s f_bufs f_tr]; try apply FO.
  - rewrite set_nth_length, AC2. apply (fr_nb _ _ _ _ _ _ _ F).
  - intro k. pose proof (fr_buf _ _ _ _ _ _ _ F k) as FB. rewrite nth_error_set_nth, AC1. rewrite (Nat.eqb_sym k j). destruct (Nat.eqb_spec j k) as [<-|N].
    + rewrite HL in *. destruct FB as (d1 & R1 & A1 & A2 & A3 & A4 & A5 & A6 & A7). exists (s_buf b'), (s_rds b'). cbn [ls_tr ls_ths].
      rewrite AC1, Nat.eqb_refl. split; [reflexivity|]. split; [|].
      { apply (core_ext c _ _ (put (P j) i st')); [intro; symmetry; apply put2_own|]. apply core_tr. destruct b'. exact C. }
      split; [reflexivity|]. split; [lia|]. split; [lia|]. split; [exact TD|]. intros r q Hq Hj. now apply AC4.
    + assert (PE : forall i', put2 P j i st' k i' = P k i') by (intro i'; rewrite put2_at; destruct (Nat.eqb_spec k j); [congruence|reflexivity]).
      destruct (nth_error (f_bufs f) k) as [[L1|]|].
      * destruct FB as (d1 & R1 & A1 & A2 & A3 & A4 & A5 & A6 & A7). exists d1, R1. rewrite AC1. destruct (Nat.eqb_spec k j); [congruence|].
        split; [exact A1|]. split; [apply (core_ext c _ _ (P k)); [intro; symmetry; apply PE|exact A2]|]. split; [exact A3|]. split; [lia|]. split; [exact A5|]. split; [exact A6|].
        intros r q Hq Hj. destruct (AC4 r q Hq) as [_ X]. apply A7; [apply X; congruence|exact Hj].
      * destruct FB as [X Y]. split; [exact X|]. intro i'. now rewrite PE.
      * destruct FB as [X Y]. split; [exact X|]. intro i'. now rewrite PE.
Qed.
Lemma acted_nothing s j d R : buf_of s j = Some d -> (forall r q, nth_error (sb_rds s) r = Some q -> rd_sess q = j -> nth_error R r = Some (rd_r q)) -> acted_on s s j (MkBS d R).
Proof.
  intros BD RR. split; [|split; [reflexivity|split; [reflexivity|]]].
  - intro k. destruct (Nat.eqb_spec k j) as [->|]; [exact BD|reflexivity].
  - intros r q Hq. split; [intro; apply RR; assumption|intros _; exact Hq].
Qed.
Lemma fout_ext w s0 tr s P Q a : (forall j i, P j i = Q j i) -> fout w s0 tr s P a -> fout w s0 tr s Q a.
Proof.
  intros E [A1 A2 A3 A4 A5 A6 A7 A8 A9 A10]. constructor; auto.
  - intro i. specialize (A2 i). destruct (a i) as [p|].
    + destruct A2 as (e & j & x & v & B1 & B2 & B3 & B4). exists e, j, x, v. rewrite <- E. auto.
    + intros j o v. rewrite <- E. apply A2.
  - intros j i. rewrite <- E. apply A3.
  - intros j i. rewrite <- E. apply A4.
  - intros j i. rewrite <- E. apply A7.
  - intro r. destruct (A8 r) as [(j & i & cl & v & X & Y)|[X Y]]; [left; exists j, i, cl, v; rewrite <- E; auto|right; split; [|exact Y]].
    intros j i cl v. rewrite <- E. apply X.
  - intros r j i j' i'. rewrite <- !E. apply A9.
Qed.

Lemma lstep_len L i L' : lstep L i = Some L' -> length (ls_ths L') = length (ls_ths L).
Proof.
  unfold lstep, go. intro H. repeat match type of H with
  | Some _ = Some _ => fail 1
  | (match ?x with _ => _ end) = _ => destruct x eqn:?; try discriminate
  end; injection H as <-; cbn [ls_ths]; rewrite ?set_nth_length; try reflexivity.
  all: match goal with |- context [match ?x with _ => _ end] => destruct x end; rewrite ?set_nth_length; reflexivity.
Qed.
Definition no_todo (ths : list lth) : Prop := forall k h, nth_error ths k = Some h -> h_todo h = [].
Lemma no_todo_set ths i g : no_todo ths -> h_todo g = [] -> no_todo (set_nth ths i g).
Proof. intros N G k h H. apply nth_set_inv in H as [(_ & -> & _)|[_ H]]; eauto. Qed.
Lemma lstep_todo L i L' : lstep L i = Some L' -> no_todo (ls_ths L) -> no_todo (ls_ths L').
Proof.
  unfold lstep, go. intros H N. destruct (nth_error (st_ths (ls_lock L)) i) as [t|] eqn:Ht; [|discriminate]. destruct (nth_error (ls_ths L) i) as [h|] eqn:Hh; [|discriminate].
  pose proof (N i h Hh) as T. rewrite T in H. destruct (in_lock t).
  - destruct (RWLockM.step (ls_lock L) i); [|discriminate]. injection H as <-. cbn [ls_ths]. destruct (h_ph h); auto. apply no_todo_set; auto.
  - destruct (h_ph h) as [|r cl p|o out]; [discriminate| |].
    + destruct p; repeat match type of H with
      | Some _ = Some _ => fail 1
      | (match ?x with _ => _ end) = _ => destruct x eqn:?; try discriminate
      end; injection H as <-; cbn [ls_ths]; auto; apply no_todo_set; auto.
    + destruct out; [|discriminate]. injection H as <-. apply no_todo_set; auto.
Qed.

(** ** A thread goes on inside a buffer *)
Lemma step_go w f s P a j i f' ls : frel w f s P a -> history c ls s -> f_step c clients f (FGo j i) = Some f' ->
  exists ls' s' w' P' a', history c ls' s' /\ frel w' f' s' P' a'.
Proof.
  intros F HI H. cbn [f_step] in H. unfold the_lock in H. destruct (nth_error (f_bufs f) j) as [[L|]|] eqn:HL; try discriminate.
  pose proof (fr_buf _ _ _ _ _ _ _ F j) as FB. rewrite HL in FB. destruct FB as (d & R & A1 & A2 & A3 & A4 & A5 & A6 & A7).
  destruct (nth_error (ls_ths L) i) as [h|] eqn:Hh; [|discriminate].
  assert (NI : h_ph h <> PhIdle) by (intro E; destruct h as [ph td]; cbn in E; subst ph; discriminate).
  destruct (lstep L i) as [L'|] eqn:HS; [|destruct h as [[] ?]; discriminate].
  assert (H1 : Some f' = match ls_tr L' with
                  | HRes _ o v :: _ => Some (MkF (on_return clients (f_s f) i v) (set_nth (f_bufs f) j (Some (MkLs (ls_lock L') (ls_rds L') (ls_ths L') []))) (f_tr f ++ [FRes j i o v]))
                  | _ => Some (MkF (f_s f) (set_nth (f_bufs f) j (Some (MkLs (ls_lock L') (ls_rds L') (ls_ths L') []))) (f_tr f))
                  end) by (destruct h as [[] ?]; congruence).
  clear H. destruct (core_step (c_key c) L _ _ i L' A2) as (es & b' & st' & C & MV & TR); [|exact HS|].
  { intros h' r cl q Hh' Ep. assert (h' = h) by congruence. subst h'. contradiction. }
  rewrite A3 in TR. cbn [app] in TR. rewrite TR in H1. clear TR.
  pose proof (lstep_len L i L' HS) as LL. pose proof (lstep_todo L i L' HS A6) as TD.
  pose proof (frel_out _ _ _ _ _ F) as FO.
  assert (GO : forall l s' w' s0' tr' a', sb_step c s l = Some s' -> fout w' s0' tr' s' (put2 P j i st') a' -> acted_on s s' j b' -> length (s_rds b') = length R ->
    exists ls' s1 w1 P1 a1, history c ls' s1 /\ frel w1 (MkF s0' (set_nth (f_bufs f) j (Some (MkLs (ls_lock L') (ls_rds L') (ls_ths L') []))) tr') s1 P1 a1).
  { intros l s' w' s0' tr' a' S1 F1 AC LB. exists (ls ++ [l]), s', w', (put2 P j i st'), a'. split.
    - unfold history in *. rewrite sb_run_app, HI. cbn. now rewrite S1.
    - eapply bufs_on; eauto. }
  assert (ST : forall w' s0' tr' a', b' = MkBS d R -> fout w' s0' tr' s (put2 P j i st') a' ->
    exists ls' s1 w1 P1 a1, history c ls' s1 /\ frel w1 (MkF s0' (set_nth (f_bufs f) j (Some (MkLs (ls_lock L') (ls_rds L') (ls_ths L') []))) tr') s1 P1 a1).
  { intros w' s0' tr' a' -> F1. exists ls, s, w', (put2 P j i st'), a'. split; [exact HI|]. eapply bufs_on; eauto. now apply acted_nothing. }
  inversion MV as [st b Q1 Q2 Q3 Q4 Q5|o b Q1 Q2 Q3 Q4 Q5|o b b1 v EB Q1 Q2 Q3 Q4 Q5|o v b Q1 Q2 Q3 Q4 Q5|o b b1 v EB Q1 Q2 Q3 Q4 Q5]; subst; cbn [seen flat_map app] in H1; injection H1 as ->.
  - eapply ST; [reflexivity|]. eapply fout_ext; [|exact FO]. intros j' i'. rewrite put2_at. destruct (Nat.eqb_spec j' j) as [->|]; [|reflexivity].
    destruct (Nat.eqb_spec i' i) as [->|]; reflexivity.
  - exfalso. destruct (nth_error (st_ths (ls_lock L)) i) as [t|] eqn:Ht.
    2:{ apply nth_error_None in Ht. rewrite <- (sm_len _ _ _ _ A2) in Ht. apply nth_error_None in Ht. congruence. }
    pose proof (sm_th _ _ _ _ A2 i t h Ht Hh) as T. unfold thread_rel in T. destruct (h_ph h) as [|r cl p|o1 out]; [contradiction| |].
    + destruct T as (r0 & r1 & n & _ & _ & _ & [(S1 & _)|(v1 & S1 & _)]); congruence.
    + destruct T as [_ T]. destruct out; destruct T as (T & _); congruence.
  - destruct (takes_effect _ _ _ _ _ _ j i o v d R b' FO (eq_sym Q1) A1 A7 EB) as (l & s' & a' & S1 & F1 & AC & LB). eapply GO; eauto.
  - destruct (comes_back _ _ _ _ _ _ j i o v FO (eq_sym Q1)) as (a' & F1). eapply ST; eauto.
  - destruct (takes_effect _ _ _ _ _ _ j i o v d R b' FO (eq_sym Q1) A1 A7 EB) as (l & s' & a' & S1 & F1 & AC & LB).
    destruct (comes_back _ _ _ _ _ _ j i o v F1) as (a2 & F2); [now rewrite put2_at, !Nat.eqb_refl|].
    eapply GO; [exact S1| |exact AC|exact LB]. eapply fout_ext; [|exact F2]. apply put2_twice.
Qed.

(** ** A thread begins *)
Lemma step_begin w f s P a j i o f' : frel w f s P a -> begin_op f j i o = Some f' ->
  (forall r cl, o = LCall r cl -> match the_lock f j with Some L => calling L r = false | None => True end) ->
  op_ok (f_s f) j i o -> exists w' P', frel w' f' s P' a.
Proof.
  intros F H NC OP. unfold begin_op in H. unfold the_lock in *. destruct (nth_error (f_bufs f) j) as [[L|]|] eqn:HL; try discriminate.
  pose proof (fr_buf _ _ _ _ _ _ _ F j) as FB. rewrite HL in FB. destruct FB as (d & R & A1 & A2 & A3 & A4 & A5 & A6 & A7).
  destruct (nth_error (ls_ths L) i) as [[ph td]|] eqn:Hh; [|discriminate]. destruct ph; try discriminate. destruct td; [|discriminate].
  set (L1 := MkLs (ls_lock L) (ls_rds L) (set_nth (ls_ths L) i (MkLth PhIdle [o])) []) in *.
  assert (C1 : core L1 (MkBS d R) (P j)) by (apply (core_todo (c_key c) L _ _ i (MkLth PhIdle []) [o] []); assumption).
  destruct (lstep L1 i) as [L'|] eqn:HS; [|discriminate]. injection H as <-.
  destruct (nth_error (st_ths (ls_lock L)) i) as [t|] eqn:Ht.
  2:{ apply nth_error_None in Ht. rewrite <- (sm_len _ _ _ _ A2) in Ht. apply nth_error_None in Ht. congruence. }
  pose proof (sm_th _ _ _ _ A2 i t _ Ht Hh) as T. cbn in T. destruct T as (T1 & T2 & T3).
  assert (Hh1 : nth_error (ls_ths L1) i = Some (MkLth PhIdle [o])) by (cbn; now rewrite nth_error_set_nth, Nat.eqb_refl, Hh).
  assert (OTH : forall k g, nth_error (ls_ths L1) k = Some g -> h_ph g <> PhIdle -> nth_error (ls_ths L) k = Some g).
  { intros k g Hg Ng. cbn in Hg. apply nth_set_inv in Hg as [(-> & -> & _)|[_ Hg]]; [now contradiction Ng|exact Hg]. }
  destruct (core_step (c_key c) L1 _ _ i L' C1) as (es & b' & st' & C & MV & TR); [|exact HS|].
  { intros h' r cl q Hh' Ep Et k g cl' p' Hg G. rewrite Hh1 in Hh'. injection Hh' as <-. cbn in Et. injection Et as -> _.
    apply (not_calling L r (NC r cl eq_refl) k g cl' p'); [|exact G]. apply OTH; [exact Hg|congruence]. }
  assert (IL : in_lock t = false) by (unfold in_lock; now rewrite T2, T3).
  assert (OUT : ls_tr L' = [HInv i o] /\ no_todo (ls_ths L')).
  { unfold lstep in HS. rewrite Hh1 in HS. cbn [L1 ls_lock] in HS. rewrite Ht, IL in HS. cbn [h_ph h_todo] in HS.
    assert (NT : forall g, h_todo g = [] -> no_todo (go L1 i g)).
    { intros g G k h Hk. unfold go in Hk. apply nth_set_inv in Hk as [(_ & -> & _)|[N Hk]]; [exact G|]. cbn in Hk. apply nth_set_inv in Hk as [(X & _)|[_ Hk]]; [congruence|eauto]. }
    destruct o as [x|n|n0 p0 i0 s0|r cl]; try discriminate; try (injection HS as <-; cbn [ls_tr ls_ths]; split; [reflexivity|now apply NT]).
    destruct (Nat.ltb r (length (ls_rds L1))); [|discriminate]. injection HS as <-. cbn [ls_tr ls_ths]. split; [reflexivity|now apply NT]. }
  destruct OUT as [TR1 TD]. rewrite TR1 in TR. cbn in TR.
  pose proof (lstep_len L1 i L' HS) as LL. cbn [L1 ls_ths] in LL. rewrite set_nth_length in LL.
  pose proof (frel_out _ _ _ _ _ F) as FO.
  rewrite T1 in MV. inversion MV as [st b Q1 Q2 Q3 Q4 Q5|o1 b Q1 Q2 Q3 Q4 Q5| | |]; subst; cbn in TR; try discriminate. injection TR as <-.
  assert (PA : forall j' i' o1 v1, put2 P j i (Called o) j' i' = Acted o1 v1 -> P j' i' = Acted o1 v1).
  { intros j' i' o1 v1. rewrite put2_at. destruct (Nat.eqb j' j && Nat.eqb i' i); [discriminate|auto]. }
  exists (w ++ [GI j i o]), (put2 P j i (Called o)).
  eapply bufs_on; eauto; [|now apply acted_nothing].
  destruct FO as [B1 B2 B3 B4 B5 B6 B7 B8 B9 B10]. constructor; auto.
  - intro k. specialize (B2 k). destruct (a k) as [p|].
    + destruct B2 as (e & j1 & x & v & X1 & X2 & X3 & X4). exists e, j1, x, v. split; [exact X1|]. split; [exact X2|]. split; [|exact X4].
      rewrite put2_at. destruct (Nat.eqb_spec j1 j) as [->|]; [|exact X3]. destruct (Nat.eqb_spec (rthread k) i) as [Q|]; [|exact X3]. rewrite Q in X3. congruence.
    + intros j1 o1 v1 X. exact (B2 _ _ _ (PA _ _ _ _ X)).
  - intros j' i'. rewrite put2_at. destruct (Nat.eqb_spec j' j) as [->|]; cbn [andb]; [|apply B3]. destruct (Nat.eqb_spec i' i) as [->|]; [exact OP|apply B3].
  - apply hist_at with [XInv i o]; [apply (on_buf_one (GI j i o))|exact B4|]. rewrite T1. intro X. exists (on_buf j i w). auto.
  - now rewrite seen_f_app, B5.
  - rewrite taken_app, B6. apply app_nil_r.
  - apply in_at; [exact B7|]. apply nth_lt in Hh. lia.
  - intro r. unfold pend_r. rewrite act_r_app, ret_r_app. cbn. rewrite !app_nil_r. destruct (B8 r) as [(j1 & i1 & cl & v & X & Y)|[X Y]].
    + left. exists j1, i1, cl, v. split; [|exact Y]. rewrite put2_at. destruct (Nat.eqb_spec j1 j) as [->|]; [|exact X]. destruct (Nat.eqb_spec i1 i) as [->|]; [congruence|exact X].
    + right. split; [|exact Y]. intros j1 i1 cl v Z. exact (X _ _ _ _ (PA _ _ _ _ Z)).
  - assert (FREE : forall r cl, o = LCall r cl -> forall j1 i1, ~ on_r (P j1 i1) r).
    { intros r cl -> j1 i1 (cl1 & X). destruct (in_phase _ _ _ _ _ _ _ _ _ F X) as (L2 & h2 & p2 & E1 & E2 & E3).
      destruct (in_call _ _ _ _ _ _ _ _ _ _ _ _ _ _ F E1 E2 E3) as (q & Z1 & Z2). unfold FineSim.op_ok in OP. destruct (Nat.leb clients i); [destruct OP as (e & x & _ & _ & OP); discriminate|].
      destruct OP as (r' & cl' & q' & E & _ & Z3 & Z4). injection E as <- <-. assert (j1 = j) by congruence. subst j1. assert (L2 = L) by congruence. subst L2.
      exact (not_calling L r (NC r cl eq_refl) i1 h2 cl1 p2 E2 E3). }
    intros r j1 i1 j2 i2. rewrite !put2_at. destruct (Nat.eqb_spec j1 j) as [->|N1]; destruct (Nat.eqb_spec j2 j) as [->|N2]; cbn [andb]; try apply B9.
    + destruct (Nat.eqb_spec i1 i) as [->|], (Nat.eqb_spec i2 i) as [->|]; auto; try apply B9; intros (cl1 & [X|[v X]]) Y; try discriminate; try (exfalso; injection X as ->; eapply FREE; eauto).
      all: destruct Y as (cl2 & [Y|[v2 Y]]); try discriminate; exfalso; injection Y as ->; eapply FREE; eauto; exists cl1; eauto.
    + destruct (Nat.eqb_spec i1 i) as [->|]; [|apply B9]. intros (cl1 & [X|[v X]]) Y; try discriminate. exfalso. injection X as ->. eapply FREE; eauto.
    + destruct (Nat.eqb_spec i2 i) as [->|]; [|apply B9]. intros Y (cl1 & [X|[v X]]); try discriminate. exfalso. injection X as ->. eapply FREE; eauto.
  - apply ge_more; [exact B10|discriminate].
Qed.

Lemma any_step w f s P a l f' ls : frel w f s P a -> history c ls s -> f_step c clients f l = Some f' ->
  exists ls' s' w' P' a', history c ls' s' /\ frel w' f' s' P' a'.
Proof.
  intros F HI H. destruct l as [l|k r cl|i|j i].
  - destruct (step_out c clients AU _ _ _ _ _ _ _ _ F HI H) as (s' & w' & S1 & F1). exists (ls ++ [l]), s', w', P, a. split; [|exact F1].
    unfold history in *. rewrite sb_run_app, HI. cbn. now rewrite S1.
  - cbn [f_step] in H. assert (NX : forall b, cl <> CNext b) by (intros b ->; discriminate).
    assert (H1 : (if Nat.ltb k clients then match nth_error (sb_rds (f_s f)) r with
      | Some q => match the_lock f (rd_sess q) with
                  | Some L => if calling L r then None else begin_op f (rd_sess q) k (LCall r cl)
                  | None => None
                  end
      | None => None end else None) = Some f') by (destruct cl; auto; discriminate).
    clear H. destruct (Nat.ltb_spec k clients) as [LT|]; [|discriminate]. destruct (nth_error (sb_rds (f_s f)) r) as [q|] eqn:Hq; [|discriminate].
    destruct (the_lock f (rd_sess q)) as [L|] eqn:HL; [|discriminate]. destruct (calling L r) eqn:CL; [discriminate|].
    destruct (step_begin _ _ _ _ _ _ _ _ _ F H1) as (w' & P' & F').
    + intros r1 cl1 E. injection E as <- <-. now rewrite HL.
    + unfold FineSim.op_ok. destruct (Nat.leb_spec clients k); [lia|]. exists r, cl, q. auto.
    + exists ls, s, w', P', a. auto.
  - cbn [f_step] in H. destruct (nth_error (sb_ss (f_s f)) i) as [e|] eqn:He; [|discriminate]. destruct (se_pc e) eqn:Ep; try discriminate.
    destruct (step_begin _ _ _ _ _ _ _ _ _ F H) as (w' & P' & F').
    + intros r1 cl1 E. discriminate.
    + unfold FineSim.op_ok, StreamFineM.rthread. destruct (Nat.leb_spec clients (clients + i)); [|lia]. replace (clients + i - clients) with i by lia. eauto.
    + exists ls, s, w', P', a. auto.
  - eapply step_go; eauto.
Qed.

Lemma frel_init : frel [] f0 sb0 (fun _ _ => Rest) (fun _ => None).
Proof.
  constructor; cbn; auto.
  - exists [], []. constructor; auto; cbn; try (intros [] ? ? X; discriminate). exists []. auto.
  - discriminate.
  - intro j. destruct j; cbn; (split; [unfold buf_of; cbn; now try destruct j|reflexivity]).
  - intros j i. constructor.
  - intros j i N. now contradiction N.
  - intro r. right. split; [discriminate|reflexivity].
  - intros e [].
Qed.
Lemma frel_run fls : forall f w s P a ls f', frel w f s P a -> history c ls s -> f_run c clients f fls = Some f' ->
  exists ls' s' w' P' a', history c ls' s' /\ frel w' f' s' P' a'.
Proof.
  induction fls as [|l fls IH]; intros f w s P a ls f' F HI H; cbn in H.
  - injection H as <-. exists ls, s, w, P, a. auto.
  - destruct (f_step c clients f l) as [f1|] eqn:E; [|discriminate].
    destruct (any_step _ _ _ _ _ _ _ _ F HI E) as (ls1 & s1 & w1 & P1 & a1 & H1 & F1). eapply IH; eauto.
Qed.
End Fine.
