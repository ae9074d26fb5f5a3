(** * A stream in single steps: everybody gets out again *)
From Coq Require Import List ZArith Bool Arith Lia.
From Verif Require Import PyVal PyLib SortedDequeM Spec SpecDeque BufferReaderM BufferSysM ListFacts DequeFacts DequeSearch LogFacts LogReads
  RWLockM SpecLock LockFacts LockLive LockProps ReaderStepsM SpecLin LinFacts LinShape LinSim LinStep LinRun
  StreamBufferM SpecStream StreamFacts StreamFineM SpecFine FineOut FineSim FineRun FineHang FineLive.
Import ListNotations.

Section Exit.
Variable c : cfg.
Variable clients : nat.
Hypothesis AU : is_True (c_auto c) = true.
Notation frel := (frel c clients).

Definition fshal (f : fsb) : Prop := forall j L, the_lock f j = Some L -> shal L.
Lemma shal_same L L' : shal L -> ls_lock L' = ls_lock L -> ls_ths L' = ls_ths L -> shal L'.
Proof. unfold shal. intros H -> ->. exact H. Qed.
Lemma shal_fresh j d rds : shal (fresh_buf clients j d rds).
Proof.
  intros i t h r cl p _ Hh Ep. unfold fresh_buf, linit in Hh. cbn [ls_ths] in Hh. apply nth_error_map_some in Hh as (q & _ & ->). discriminate.
Qed.
Lemma out_shal f l f' : fshal f -> f_step c clients f (FOut l) = Some f' -> fshal f'.
Proof.
  intros S H. cbn [f_step] in H. destruct (outside (f_s f) l); [|discriminate]. destruct (may_attach f l); [|discriminate].
  cbn [andb] in H. destruct (sb_step c (f_s f) l) as [s0'|]; [|discriminate]. injection H as <-.
  assert (MAP : forall q, fshal (MkF s0' (map (option_map (add_rds q)) (f_bufs f)) [])).
  { intros q j L H. unfold the_lock in H. cbn [f_bufs] in H. rewrite nth_error_map in H. destruct (nth_error (f_bufs f) j) as [[L1|]|] eqn:E; cbn in H; try discriminate.
    injection H as <-. eapply shal_same; [apply (S j L1)|reflexivity|reflexivity]. unfold the_lock. now rewrite E. }
  intros j L H. unfold the_lock in H. cbn [f_bufs] in H. unfold bufs_after in H.
  destruct l; try (apply (S j); exact H).
  - destruct (sb_start (f_s f)); try (apply (S j); exact H).
    + destruct (Nat.lt_ge_cases j (length (f_bufs f))) as [LT|GE].
      * rewrite nth_error_app1 in H by exact LT. apply (S j). exact H.
      * rewrite nth_error_app2 in H by exact GE. destruct (j - length (f_bufs f)) as [|[|]]; discriminate.
    + destruct (buf_of s0' (latest (f_s f))); [|apply (S j); exact H]. rewrite nth_error_set_nth in H.
      destruct (Nat.eqb_spec (latest (f_s f)) j); [|apply (S j); exact H]. destruct (nth_error (f_bufs f) j); cbn in H; [|discriminate]. injection H as <-. apply shal_fresh.
  - exact (MAP _ j L H).
  - destruct (nth_error (sb_rds (f_s f)) r); [|apply (S j); exact H]. destruct (nth_error (sb_rds s0') r); [|apply (S j); exact H].
    destruct (nth_error (f_bufs f) (rd_sess r0)) as [[L1|]|]; try (apply (S j); exact H).
    destruct (nth_error (f_bufs f) (rd_sess r1)) as [[L2|]|] eqn:E2; try (apply (S j); exact H).
    destruct (nth_error (ls_rds L1) r); [|apply (S j); exact H]. rewrite nth_error_set_nth in H. destruct (Nat.eqb_spec (rd_sess r1) j) as [<-|]; [|apply (S j); exact H].
    rewrite E2 in H. injection H as <-. eapply shal_same; [apply (S (rd_sess r1) L2)|reflexivity|reflexivity]. unfold the_lock. now rewrite E2.
  - exact (MAP _ j L H).
Qed.
Lemma set_shal f j L' s tr : fshal f -> shal L' -> fshal (MkF s (set_nth (f_bufs f) j (Some L')) tr).
Proof.
  intros S SL j' L H. unfold the_lock in *. cbn [f_bufs] in H. rewrite nth_error_set_nth in H. destruct (Nat.eqb_spec j j') as [<-|]; [|apply (S j'); exact H].
  destruct (nth_error (f_bufs f) j); [|discriminate]. now injection H as <-.
Qed.
Lemma begin_shal w f s P a j i o f' : frel w f s P a -> fshal f -> (forall r cl, o = LCall r cl -> no_nest cl) -> begin_op f j i o = Some f' -> fshal f'.
Proof.
  intros F S N H. unfold begin_op in H. destruct (the_lock f j) as [L1|] eqn:H1; [|discriminate].
  destruct (nth_error (ls_ths L1) i) as [[ph td]|] eqn:Hh; [|discriminate]. destruct ph; try discriminate. destruct td; [|discriminate].
  destruct (lstep _ i) as [L'|] eqn:HS; [|discriminate]. injection H as <-. apply set_shal; [exact S|].
  apply (shal_same L'); [|reflexivity|reflexivity].
  pose proof (fr_buf _ _ _ _ _ _ _ F j) as FB. unfold the_lock in H1. destruct (nth_error (f_bufs f) j) as [[L2|]|] eqn:E; try discriminate. injection H1 as ->.
  destruct FB as (d & R & A1 & A2 & _).
  eapply lstep_shal; [exact HS| |apply (sm_lock _ _ _ _ A2)|].
  - intros k t h r cl p Ht Hk Ep. cbn [ls_lock ls_ths] in *. rewrite nth_error_set_nth in Hk. destruct (Nat.eqb_spec i k) as [<-|].
    + rewrite Hh in Hk. injection Hk as <-. discriminate.
    + eapply (S j L1); eauto. unfold the_lock. now rewrite E.
  - intros t h Ht Hk Ep. cbn [ls_lock ls_ths] in *. rewrite nth_error_set_nth, Nat.eqb_refl, Hh in Hk. injection Hk as <-.
    pose proof (sm_th _ _ _ _ A2 i t _ Ht Hh) as T. unfold thread_rel in T. cbn in T. destruct T as (_ & T1 & T2). split; [exact T1|]. split; [exact T2|].
    cbn. intros r cl q Q. injection Q as -> _. eapply N; eauto.
Qed.
Lemma go_cases f j i f' : f_step c clients f (FGo j i) = Some f' -> exists L L' h tr' , the_lock f j = Some L /\ nth_error (ls_ths L) i = Some h /\ h_ph h <> PhIdle /\
  lstep L i = Some L' /\ f_bufs f' = set_nth (f_bufs f) j (Some (MkLs (ls_lock L') (ls_rds L') (ls_ths L') [])) /\ f_tr f' = f_tr f ++ tr' /\
  (forall g, In g tr' -> exists o v, g = FRes j i o v) /\
  ((f_s f' = f_s f /\ forall x y, ls_tr L' <> HRes x y (OUnit (Ok tt)) :: nil) \/ exists v, f_s f' = on_return clients (f_s f) i v).
Proof.
  intro H. cbn [f_step] in H. destruct (the_lock f j) as [L|] eqn:HL; [|discriminate]. destruct (nth_error (ls_ths L) i) as [h|] eqn:Hh; [|discriminate].
  destruct (lstep L i) as [L'|] eqn:HS; [|destruct h as [[] ?]; discriminate]. exists L, L', h.
  assert (NI : h_ph h <> PhIdle) by (destruct h as [[] ?]; cbn; congruence).
  assert (H' : match ls_tr L' with
                | HRes _ o v :: _ => Some (MkF (on_return clients (f_s f) i v) (set_nth (f_bufs f) j (Some (MkLs (ls_lock L') (ls_rds L') (ls_ths L') []))) (f_tr f ++ [FRes j i o v]))
                | _ => Some (MkF (f_s f) (set_nth (f_bufs f) j (Some (MkLs (ls_lock L') (ls_rds L') (ls_ths L') []))) (f_tr f))
                end = Some f') by (destruct h as [[] ?]; [discriminate|exact H|exact H]).
  clear H. destruct (ls_tr L') as [|[|i1 o v] tl]; injection H' as <-; cbn [f_bufs f_tr f_s].
  - exists []. rewrite app_nil_r. do 6 (split; [auto|]). split; [intros g []|]. left. split; [reflexivity|discriminate].
  - exists []. rewrite app_nil_r. do 6 (split; [auto|]). split; [intros g []|]. left. split; [reflexivity|discriminate].
  - exists [FRes j i o v]. do 6 (split; [auto|]). split; [intros g [<-|[]]; eauto|]. right. eauto.
Qed.
Lemma go_shal w f s P a j i f' : frel w f s P a -> fshal f -> f_step c clients f (FGo j i) = Some f' -> fshal f'.
Proof.
  intros F S H. destruct (go_cases _ _ _ _ H) as (L & L' & h & tr' & HL & Hh & NI & HS & EB & _).
  intros j' L1 H1. unfold the_lock in H1. rewrite EB in H1.
  apply (set_shal f j (MkLs (ls_lock L') (ls_rds L') (ls_ths L') []) (f_s f) [] S) with (j := j'); [|exact H1].
  apply (shal_same L'); [|reflexivity|reflexivity].
  pose proof (fr_buf _ _ _ _ _ _ _ F j) as FB. pose proof HL as HL0. unfold the_lock in HL0. destruct (nth_error (f_bufs f) j) as [[L2|]|] eqn:E; try discriminate. injection HL0 as ->.
  destruct FB as (d & R & A1 & A2 & _). eapply lstep_shal; [exact HS|apply (S j L HL)|apply (sm_lock _ _ _ _ A2)|]. intros t h1 Ht Hh1 Ep. congruence.
Qed.

Lemma step_trace f l f' : f_step c clients f l = Some f' -> exists es, f_tr f' = f_tr f ++ es.
Proof.
  intro H. assert (B : forall j i o, begin_op f j i o = Some f' -> exists es, f_tr f' = f_tr f ++ es).
  { intros j i o X. unfold begin_op in X. destruct (the_lock f j) as [L1|]; [|discriminate]. destruct (nth_error (ls_ths L1) i) as [[[] []]|]; try discriminate.
    destruct (lstep _ i); [|discriminate]. injection X as <-. cbn. eauto. }
  destruct l as [l|k r cl|i|j i].
  - cbn [f_step] in H. destruct (outside (f_s f) l); [|discriminate]. destruct (may_attach f l); [|discriminate]. cbn [andb] in H. destruct (sb_step c (f_s f) l); [|discriminate]. injection H as <-. cbn. eauto.
  - cbn [f_step] in H. destruct cl; try discriminate; destruct (Nat.ltb k clients); try discriminate; destruct (nth_error (sb_rds (f_s f)) r) as [q|]; try discriminate;
        destruct (the_lock f (rd_sess q)) as [L|]; try discriminate; destruct (calling L r); try discriminate; eauto.
  - cbn [f_step] in H. destruct (nth_error (sb_ss (f_s f)) i) as [e0|]; [|discriminate]. destruct (se_pc e0); try discriminate. eauto.
  - destruct (go_cases _ _ _ _ H) as (L & L' & h & tr' & _ & _ & _ & _ & _ & E & _). eauto.
Qed.
Lemma run_trace fls : forall f f', f_run c clients f fls = Some f' -> exists es, f_tr f' = f_tr f ++ es.
Proof.
  induction fls as [|l fls IH]; intros f f' H; cbn in H; [injection H as <-; exists []; now rewrite app_nil_r|].
  destruct (f_step c clients f l) as [f1|] eqn:E; [|discriminate]. destruct (step_trace _ _ _ E) as (e1 & E1). destruct (IH _ _ H) as (e2 & E2).
  exists (e1 ++ e2). now rewrite E2, E1, app_assoc.
Qed.
Lemma begin_trace f j i o f' : begin_op f j i o = Some f' -> f_tr f' = f_tr f ++ [FInv j i o].
Proof.
  unfold begin_op. intro X. destruct (the_lock f j) as [L1|]; [|discriminate]. destruct (nth_error (ls_ths L1) i) as [[[] []]|]; try discriminate.
  destruct (lstep _ i); [|discriminate]. now injection X as <-.
Qed.
Lemma step_shal w f s P a l f' : frel w f s P a -> fshal f -> f_step c clients f l = Some f' -> no_new_ranges (f_tr f') -> fshal f'.
Proof.
  intros F S H N. destruct l as [l|k r cl|i|j i].
  - eapply out_shal; eauto.
  - assert (B : exists j1, begin_op f j1 k (LCall r cl) = Some f').
    { cbn [f_step] in H. destruct cl; try discriminate; destruct (Nat.ltb k clients); try discriminate; destruct (nth_error (sb_rds (f_s f)) r) as [q|]; try discriminate;
        destruct (the_lock f (rd_sess q)) as [L|]; try discriminate; destruct (calling L r); try discriminate; eauto. }
    destruct B as (j1 & B). eapply begin_shal; eauto. intros r1 cl1 Q. injection Q as <- <-. destruct cl; cbn; auto.
    eapply (N j1 k r g). rewrite (begin_trace _ _ _ _ _ B). apply in_or_app. right. now left.
  - cbn [f_step] in H. destruct (nth_error (sb_ss (f_s f)) i) as [e0|]; [|discriminate]. destruct (se_pc e0); try discriminate. eapply begin_shal; eauto. discriminate.
  - eapply go_shal; eauto.
Qed.
Lemma run_shal fls : forall w f s P a ls f', frel w f s P a -> history c ls s -> fshal f -> f_run c clients f fls = Some f' -> no_new_ranges (f_tr f') -> fshal f'.
Proof.
  induction fls as [|l fls IH]; intros w f s P a ls f' F HI S H N; cbn in H; [now injection H as <-|].
  destruct (f_step c clients f l) as [f1|] eqn:E; [|discriminate].
  destruct (any_step c clients AU _ _ _ _ _ _ _ _ F HI E) as (ls1 & s1 & w1 & P1 & a1 & H1 & F1).
  eapply IH; eauto. apply (step_shal _ _ _ _ _ _ _ F S E). intros j i r g X. destruct (run_trace _ _ _ H) as (es & E1). apply (N j i r g). rewrite E1. apply in_or_app. left. exact X.
Qed.
Lemma shal0 : fshal f0.
Proof. intros j L H. unfold the_lock, f0 in H. cbn in H. destruct j; discriminate. Qed.

(** ** Every step inside a buffer is progress *)
Definition fweights (f : fsb) : list elt := flat_map (fun b => match b with Some L => weights L | None => [] end) (f_bufs f).
Lemma one_in (x w w' y : list elt) : one w' w -> one (x ++ w' ++ y) (x ++ w ++ y).
Proof.
  intro H. inversion H as [i l a a' E R]; subst. replace (x ++ set_nth w i a' ++ y) with (set_nth (x ++ w ++ y) (length x + i) a').
  - apply (one_at _ _ a); [|exact R]. rewrite nth_error_app2 by lia. replace (length x + i - length x) with i by lia. rewrite nth_error_app1; [exact E|]. apply nth_error_Some. rewrite E. discriminate.
  - clear H R. induction x as [|b x IH]; cbn.
    + revert i E. induction w as [|b w IH]; intros [|i] E; cbn in *; try discriminate; [reflexivity|]. now rewrite IH.
    + now rewrite IH.
Qed.
Lemma go_down f j i f' : f_step c clients f (FGo j i) = Some f' -> one (fweights f') (fweights f).
Proof.
  intro H. destruct (go_cases _ _ _ _ H) as (L & L' & h & tr' & HL & Hh & NI & HS & EB & _). unfold fweights. rewrite EB.
  unfold the_lock in HL. destruct (nth_error (f_bufs f) j) as [[L2|]|] eqn:E; try discriminate. injection HL as ->.
  pose proof (lstep_down _ _ _ _ HS Hh NI) as O. change (weights L') with (weights (MkLs (ls_lock L') (ls_rds L') (ls_ths L') [])) in O.
  set (L3 := MkLs (ls_lock L') (ls_rds L') (ls_ths L') []) in *. clearbody L3. clear - E O. revert j E. induction (f_bufs f) as [|b bs IH]; intros [|j] E; cbn in *; try discriminate.
  - injection E as ->. apply (one_in [] _ _ _ O).
  - specialize (IH _ E). set (x := match b with Some L => weights L | None => [] end).
    pose proof (one_in x _ _ [] IH) as X. now rewrite !app_nil_r in X.
Qed.
End Exit.
