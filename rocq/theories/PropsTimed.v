(** * stop() and start() when reads are short: C107 *)
From Coq Require Import List ZArith Bool Arith Lia.
From Verif Require Import PyVal PyLib PyValFacts SortedDequeM Spec SpecDeque ListFacts DequeFacts DequeSearch
  BufferReaderM BufferSysM LogFacts LogReads LogKeepUp StreamBufferM SpecStream StreamFacts StreamLife StreamInv StreamOrderly StreamView StreamReads StreamMore PropsStreamRead PropsStream
  StreamClientM PropsJoin TimedM.
Import ListNotations.
Open Scope Z_scope.

(** ** Specification *)
Definition timed_history (c : cfg) (tm : timing) (tls : list (Z * label)) (T : timed) : Prop := td_run c tm timed0 tls = Some T.
(** A read, a sleep, a close and six more lines take less than the second of stop(). *)
Definition fast (tm : timing) : Prop :=
  0 <= t_read tm /\ 0 <= t_sleep tm /\ 0 <= t_close tm /\ 0 <= t_line tm /\
  t_read tm + t_sleep tm + t_close tm + 6 * t_line tm < t_second tm.
(** stop() is not called while a start() is under way; and when start() looks whether the
    stream is running (180), it is, or has not been for at least a second. *)
Definition patient_step (tm : timing) (T : timed) (t : Z) (l : label) : Prop :=
  (l = LStop -> sb_start (td_sb T) = SFree) /\
  (sb_start (td_sb T) = SCheck1 -> (exists o v, l = LS o v) -> running (td_sb T) = false -> sb_ss (td_sb T) <> [] ->
   td_ran T + t_second tm <= t).
Fixpoint patient_from (c : cfg) (tm : timing) (T : timed) (tls : list (Z * label)) : Prop :=
  match tls with
  | [] => True
  | (t, l) :: q => patient_step tm T t l /\ match td_step c tm T t l with Some T' => patient_from c tm T' q | None => True end
  end.
Definition patient (c : cfg) (tm : timing) (tls : list (Z * label)) : Prop := patient_from c tm timed0 tls.

(** ** Lemmas *)
Lemma td_step_inv c tm T t l T' : td_step c tm T t l = Some T' ->
  td_now T <= t /\ in_time tm T t = true /\ awake tm T t l = true /\ sb_step c (td_sb T) l = Some (td_sb T') /\
  td_now T' = t /\ td_since T' = since' T t l /\ td_naps T' = naps' T t l /\ td_nap T' = nap' T t l /\
  td_ran T' = (if running (td_sb T) then t else td_ran T).
Proof.
  unfold td_step. destruct (td_now T <=? t) eqn:E1; [|discriminate]. destruct (in_time tm T t) eqn:E2; [|discriminate].
  destruct (awake tm T t l) eqn:E3; [|discriminate]. cbn [andb]. destruct (sb_step c (td_sb T) l) as [s'|]; [|discriminate].
  intro H. injection H as <-. cbn. apply Z.leb_le in E1. auto 12.
Qed.
Lemma td_run_app c tm a b : forall T, td_run c tm T (a ++ b) = match td_run c tm T a with Some M => td_run c tm M b | None => None end.
Proof. induction a as [|[t l] a IH]; intro T; cbn [app td_run]; [reflexivity|]. destruct (td_step c tm T t l); [apply IH|reflexivity]. Qed.
Lemma td_run_snoc c tm a t l T T' : td_run c tm T (a ++ [(t, l)]) = Some T' <-> exists M, td_run c tm T a = Some M /\ td_step c tm M t l = Some T'.
Proof.
  rewrite td_run_app. destruct (td_run c tm T a) as [M|]; cbn [td_run].
  - destruct (td_step c tm M t l) eqn:E.
    + split; [intro H; injection H as <-; eauto|]. intros (m' & H & H'). congruence.
    + split; [discriminate|]. intros (m' & H & H'). congruence.
  - split; [discriminate|]. intros (m' & H & H'). discriminate.
Qed.
Lemma td_run_untimed c tm tls : forall T T', td_run c tm T tls = Some T' -> sb_run c (td_sb T) (map snd tls) = Some (td_sb T').
Proof.
  induction tls as [|[t l] q IH]; intros T T' H; cbn in H; [injection H as <-; reflexivity|].
  destruct (td_step c tm T t l) as [T1|] eqn:E; [|discriminate]. cbn [map snd sb_run]. apply td_step_inv in E as (_ & _ & _ & -> & _). eauto.
Qed.
Lemma timed_untimed c tm tls T : timed_history c tm tls T -> history c (map snd tls) (td_sb T).
Proof. apply td_run_untimed. Qed.
Lemma patient_snoc_from c tm a t l : forall T0 T, td_run c tm T0 a = Some T -> patient_from c tm T0 (a ++ [(t, l)]) ->
  patient_from c tm T0 a /\ patient_step tm T t l.
Proof.
  induction a as [|[u m] a IH]; intros T0 T H P; cbn in H, P.
  - injection H as <-. cbn. tauto.
  - destruct P as [P1 P2]. destruct (td_step c tm T0 u m) as [T1|] eqn:E; [|discriminate]. destruct (IH T1 T H P2).
    cbn [patient_from]. rewrite E. auto.
Qed.

(** What is left for a thread to do, at most, if the event is set. *)
Definition rest (tm : timing) (p : tpc) : Z :=
  match p with
  | TNew | TDone _ => 0
  | TClose _ => t_close tm
  | TFinCheck _ | TFinSet _ => t_close tm + t_line tm
  | TCheck => t_close tm + 2 * t_line tm
  | TSleep => t_sleep tm + t_close tm + 2 * t_line tm
  | TPut _ _ => t_close tm + 3 * t_line tm
  | TAppend _ => t_close tm + 4 * t_line tm
  | TRead => t_read tm + t_sleep tm + t_close tm + 4 * t_line tm
  | TLen _ => t_read tm + t_sleep tm + t_close tm + 5 * t_line tm
  | TGate => t_read tm + t_sleep tm + t_close tm + 6 * t_line tm
  end.
Definition bound (tm : timing) : Z := t_read tm + t_sleep tm + t_close tm + 6 * t_line tm.
Lemma rest_bound tm p : fast tm -> 0 <= rest tm p <= bound tm.
Proof. intros (?&?&?&?&?). unfold bound. destruct p; cbn [rest]; lia. Qed.
Lemma rest_allowed tm p : fast tm -> live p = true -> 0 <= allowed tm p <= rest tm p.
Proof. intros (?&?&?&?&?) L. destruct p; cbn [rest allowed live] in *; try discriminate; lia. Qed.
Lemma rest_move c tm s k o s' e e' : fast tm -> sb_step c s (LT k o) = Some s' -> nth_error (sb_ss s) k = Some e -> nth_error (sb_ss s') k = Some e' ->
  running s' = false -> (running s = false -> allowed tm (se_pc e) + rest tm (se_pc e') <= rest tm (se_pc e)).
Proof.
  intros (F1&F2&F3&F4&F5) H He He' R' R. destruct (thread_move c s k o s' e H He) as (e1 & H1 & MV). assert (e1 = e') by congruence. subst e1. rewrite R in MV.
  destruct (se_pc e) eqn:Ep; cbn [allowed rest]; try (destruct MV; fail).
  - rewrite MV. cbn [rest]. lia.
  - destruct MV as [[_ MV]|[[_ [x MV]]|(_ & j & _ & MV)]]; rewrite MV; cbn [rest]; lia.
  - destruct MV as [[x MV]|(d & m & _ & _ & MV)]; [rewrite MV; cbn [rest]; lia|]. destruct (_ <? _); rewrite MV; cbn [rest]; lia.
  - destruct o as [v|x]; [destruct (is_none v)|]; rewrite MV; cbn [rest]; lia.
  - destruct MV as [[x0 MV]|(j & _ & MV)]; rewrite MV; cbn [rest]; lia.
  - destruct MV as [MV|[x0 MV]]; rewrite MV; cbn [rest]; lia.
  - destruct o; rewrite MV; cbn [rest]; lia.
  - rewrite MV. cbn [rest]. lia.
  - destruct MV as [MV _]. rewrite MV. cbn [rest]. lia.
  - rewrite MV. cbn [rest]. lia.
Qed.
Lemma in_time_thread tm T t i e : in_time tm T t = true -> nth_error (sb_ss (td_sb T)) i = Some e -> live (se_pc e) = true -> t <= td_since T i + allowed tm (se_pc e).
Proof.
  unfold in_time. rewrite forallb_forall. intros F E L. specialize (F i). assert (I : In i (seq 0 (length (sb_ss (td_sb T))))) by (apply in_seq; apply nth_lt in E; lia).
  specialize (F I). unfold thread_in_time in F. rewrite E in F. destruct (se_pc e); try discriminate L; now apply Z.leb_le in F.
Qed.

(** Running is decided by stop(), by the finally part of a thread, and by start(). *)
Lemma running_back c s l s' : sb_step c s l = Some s' -> running s = false -> running s' = true -> exists o v, l = LS o v /\ sb_start s = SFresh.
Proof.
  intros H R R'. destruct (step_sessions c s l s' H) as [_ [L|(F & LS & _)]].
  - exfalso. unfold running, latest in *. rewrite L in R'. destruct (nth_error (sb_ss s') (length (sb_ss s) - 1)) as [e'|] eqn:E'; [|discriminate].
    destruct (nth_error (sb_ss s) (length (sb_ss s) - 1)) as [e|] eqn:E; [|apply nth_error_None in E; apply nth_lt in E'; lia].
    destruct (step_frame c s l s' H _ _ E) as (e1 & H1 & _ & _ & _ & SE). assert (e1 = e') by congruence. subst. destruct SE as [SE|[SE _]]; rewrite SE in R'; [rewrite R' in R|]; discriminate.
  - destruct LS as (o & v & ->). eauto.
Qed.
Lemma running_eq ss ss' a b cc d e dr qi g h a' b' cc' d' e' dr' qi' g' h' : length ss' = length ss ->
  (forall x, nth_error ss (length ss - 1) = Some x -> exists y, nth_error ss' (length ss - 1) = Some y /\ se_set y = se_set x) ->
  running (MkSB ss a b cc d e dr qi g h) = true -> running (MkSB ss' a' b' cc' d' e' dr' qi' g' h') = true.
Proof.
  unfold running, latest. cbn. intros L H R. rewrite L. destruct (nth_error ss (length ss - 1)) as [x|] eqn:E; [|discriminate].
  destruct (H x eq_refl) as (y & -> & ->). exact R.
Qed.
Lemma running_gone c s l s' : sb_step c s l = Some s' -> running s = true -> running s' = false -> l = LStop \/ (exists k o, l = LT k o) \/ exists o v b, l = LS o v /\ sb_start s = SStopSet b.
Proof.
  intros H R R'. destruct s as [ss cu sp st nx nn dr qi rd tr].
  step_cases H; injection H as <-; eauto 7; exfalso; cbn [sb_start] in *; revert R'; proj;
   match goal with |- running ?x = false -> False => enough (running x = true) by congruence end; unfold new_rdr, do_stop, set_tpc, upd_sess, log, set_ss, set_cur, set_start, set_stops, set_next, set_nx, set_dr, set_in, set_rds; proj.
  all: try (eapply running_eq; [| |exact R]; rewrite ?upd_length; [reflexivity|]; intros x Hx; rewrite ?nth_upd, Hx; try (destruct (Nat.eqb _ _)); cbn; eauto; fail).
  all: try (unfold running, latest; cbn; rewrite app_length; cbn [length]; replace (length ss + 1 - 1)%nat with (length ss) by lia; rewrite nth_error_app2 by lia; now rewrite Nat.sub_diag).
Qed.

Record tinv (tm : timing) (T : timed) : Prop := {
  ti_ran : td_ran T <= td_now T;
  ti_since : forall k e, nth_error (sb_ss (td_sb T)) k = Some e -> live (se_pc e) = true -> td_since T k <= td_now T;
  ti_quit : forall k e, nth_error (sb_ss (td_sb T)) k = Some e -> live (se_pc e) = true -> running (td_sb T) = false ->
            td_since T k + rest tm (se_pc e) <= td_ran T + bound tm;
  ti_start : match sb_start (td_sb T) with
             | SOpen | SBuild | SSpawn => running (td_sb T) = true
             | SStopClear _ => running (td_sb T) = false /\ td_ran T <= td_nap T
             | SCheck2 | SClear | SFresh => running (td_sb T) = false /\ all_ended (td_sb T)
             | _ => True
             end
}.
Lemma tinv0 tm : tinv tm timed0.
Proof. constructor; cbn; auto; try lia; intros [|]; discriminate. Qed.
(** After a second without running nobody is alive. *)
Lemma quit_ended c tm T t l T' : fast tm -> tinv tm T -> td_step c tm T t l = Some T' -> running (td_sb T) = false -> td_ran T + t_second tm <= t -> all_ended (td_sb T).
Proof.
  intros F I H R L k A. apply alive_iff in A as (e & He & Le). apply td_step_inv in H as (_ & IT & _).
  pose proof (in_time_thread tm T t k e IT He Le). pose proof (ti_quit _ _ I k e He Le R). pose proof (rest_allowed tm (se_pc e) F Le). destruct F as (?&?&?&?&?). unfold bound in *. lia.
Qed.
Lemma tinv_step c tm T t l T' : fast tm -> sinv (td_sb T) -> oinv (td_sb T) -> tinv tm T -> patient_step tm T t l -> td_step c tm T t l = Some T' -> tinv tm T'.
Proof.
  intros F SI OI I [P1 P2] H. pose proof (quit_ended c tm T t l T' F I H) as QE.
  destruct (td_step_inv c tm T t l T' H) as (N & IT & AW & HS & EN & ES & _ & ENP & ER). destruct I as [IR IS IQ IST].
  assert (MOVE : forall k e', nth_error (sb_ss (td_sb T')) k = Some e' -> live (se_pc e') = true ->
     (td_since T' k = t /\ ((exists o e, l = LT k o /\ nth_error (sb_ss (td_sb T)) k = Some e /\ live (se_pc e) = true) \/ sb_start (td_sb T) = SSpawn)) \/
     (td_since T' k = td_since T k /\ exists e, nth_error (sb_ss (td_sb T)) k = Some e /\ se_pc e = se_pc e')).
  { intros k e' He' Le'. destruct (step_new _ _ _ _ HS k e' He') as [(e & He)|(_ & -> & _)]; [|discriminate].
    destruct (step_frame _ _ _ _ HS k e He) as (e1 & H1 & Q & _). assert (e1 = e') by congruence. subst e1. rewrite ES.
    destruct (thread_case l k) as [[o ->]|NT].
    - left. cbn [since']. unfold set_since. rewrite Nat.eqb_refl. split; [reflexivity|]. left. exists o, e. parts; auto.
      pose proof (step_thread_pc _ _ _ _ _ _ HS He). destruct (se_pc e); auto.
    - destruct Q as [Q|[[o ->]|(Q1 & Q2 & _ & o & v & ->)]]; [|exfalso; eapply NT; reflexivity|].
      + destruct (sb_start (td_sb T)) eqn:SP; try (right; split; [|eauto]; destruct l as [|o v| | | | | | | | | | | | |i o]; cbn [since']; rewrite ?SP; auto; unfold set_since; destruct (Nat.eqb_spec k i); auto; subst; exfalso; eapply NT; reflexivity).
        destruct l as [|o v| | | | | | | | | | | | |i o]; cbn [since']; rewrite ?SP; try (right; eauto; fail).
        * destruct (Nat.eqb_spec k (latest (td_sb T))) as [->|NE]; [left|right]; unfold set_since.
          -- rewrite Nat.eqb_refl. auto.
          -- destruct (Nat.eqb_spec k (latest (td_sb T))); [contradiction|]. eauto.
        * right. unfold set_since. destruct (Nat.eqb_spec k i); [subst; exfalso; eapply NT; reflexivity|]. eauto.
      + left. cbn [since']. rewrite Q1. unfold set_since. subst k. rewrite Nat.eqb_refl. auto. }
  constructor; rewrite ?EN, ?ER.
  - destruct (running (td_sb T)); lia.
  - intros k e' He' Le'. destruct (MOVE k e' He' Le') as [[-> _]|[-> (e & He & Q)]]; [lia|]. rewrite <- Q in Le'. specialize (IS k e He Le'). lia.
  - intros k e' He' Le' R'. pose proof (rest_bound tm (se_pc e') F). destruct (running (td_sb T)) eqn:R.
    + destruct (MOVE k e' He' Le') as [[-> _]|[-> (e & He & Q)]]; [lia|]. rewrite <- Q in Le'. specialize (IS k e He Le'). lia.
    + destruct (MOVE k e' He' Le') as [[-> [(o & e & -> & He & Le)|SP]]|[-> (e & He & Q)]].
      * pose proof (rest_move c tm _ k o _ e e' F HS He He' R' R). pose proof (in_time_thread tm T t k e IT He Le). specialize (IQ k e He Le ltac:(first [reflexivity|exact R])). lia.
      * rewrite SP in IST. congruence.
      * rewrite <- Q in *. apply (IQ k e He Le' ltac:(first [reflexivity|exact R])).
  - assert (NALV : forall o v, l = LS o v -> sb_start (td_sb T) <> SSpawn -> forall k, alive (td_sb T') k -> alive (td_sb T) k).
    { intros o v -> NS k A. destruct (alive_back _ _ _ _ k HS A) as [|(X & _)]; [assumption|contradiction]. }
    destruct (step_start _ _ _ _ HS) as [[E1 _]|[(-> & _ & E1 & _)|(o & v & ->)]].
    + destruct (sb_start (td_sb T)) eqn:SP; rewrite E1; auto.
      2-4: destruct IST as [R A].
      1: destruct IST as [R LE].
      1-4: assert (R' : running (td_sb T') = false) by (destruct (running (td_sb T')) eqn:R'; auto; destruct (running_back _ _ _ _ HS R R') as (o & v & -> & SF); rewrite SP in SF; try discriminate; cbn in HS; unfold start_step in HS; rewrite SP in HS; injection HS as HS; rewrite <- HS in E1; discriminate).
      * split; [assumption|]. rewrite R. rewrite ENP. destruct l; cbn [nap']; rewrite ?SP; assumption.
      * split; [assumption|]. intros k AL. destruct (alive_back _ _ _ _ k HS AL) as [A0|(X & _)]; [exact (A k A0)|congruence].
      * split; [assumption|]. intros k AL. destruct (alive_back _ _ _ _ k HS AL) as [A0|(X & _)]; [exact (A k A0)|congruence].
      * split; [assumption|]. intros k AL. destruct (alive_back _ _ _ _ k HS AL) as [A0|(X & _)]; [exact (A k A0)|congruence].
      * destruct (running (td_sb T')) eqn:R'; auto. destruct (running_gone _ _ _ _ HS IST R') as [->|[(k & o & ->)|(o & v & b & -> & SF)]]; [specialize (P1 eq_refl); congruence| |congruence].
        exfalso. apply (oi_late _ OI ltac:(rewrite SP; reflexivity) k). eapply step_alive; eauto.
      * destruct (running (td_sb T')) eqn:R'; auto. destruct (running_gone _ _ _ _ HS IST R') as [->|[(k & o & ->)|(o & v & b & -> & SF)]]; [specialize (P1 eq_refl); congruence| |congruence].
        exfalso. apply (oi_late _ OI ltac:(rewrite SP; reflexivity) k). eapply step_alive; eauto.
      * destruct (running (td_sb T')) eqn:R'; auto. destruct (running_gone _ _ _ _ HS IST R') as [->|[(k & o & ->)|(o & v & b & -> & SF)]]; [specialize (P1 eq_refl); congruence| |congruence].
        exfalso. apply (oi_late _ OI ltac:(rewrite SP; reflexivity) k). eapply step_alive; eauto.
    + rewrite E1. exact Logic.I.
    + cbn in HS. unfold start_step in HS. destruct (sb_start (td_sb T)) eqn:SP; try discriminate HS.
      * injection HS as HS. destruct (running (td_sb T)) eqn:R.
        -- rewrite <- HS. exact Logic.I.
        -- assert (AE : all_ended (td_sb T)).
           { destruct (sb_ss (td_sb T)) eqn:SS; [intros k (p & (e & Ek & _) & _); rewrite SS in Ek; destruct k; discriminate|].
             apply QE; [reflexivity|]. apply P2; eauto. discriminate. }
           rewrite <- HS. cbn [set_start sb_start]. split; [exact R|]. exact AE.
      * injection HS as HS. rewrite <- HS. cbn [set_start sb_start]. split; [exact (running_do_stop (td_sb T))|]. rewrite ENP. cbn [nap']. rewrite SP. destruct (running (td_sb T)); lia.
      * destruct IST as [R LE]. assert (AE : all_ended (td_sb T)).
        { apply QE; [exact R|]. cbn [awake] in AW. rewrite SP in AW. apply Z.leb_le in AW. lia. }
        injection HS as HS. rewrite <- HS. destruct second; cbn [set_start set_next sb_start]; (split; [exact R|exact AE]).
      * destruct IST as [R AE]. injection HS as HS. rewrite <- HS, R. cbn [set_start sb_start]. split; [exact R|exact AE].
      * destruct IST as [R AE]. injection HS as HS. rewrite <- HS. cbn [set_start set_cur sb_start]. split; [exact R|exact AE].
      * injection HS as HS. rewrite <- HS. cbn [set_start set_ss sb_start sb_ss]. unfold running, latest; cbn. rewrite app_length; cbn [length]. replace (length (sb_ss (td_sb T)) + 1 - 1)%nat with (length (sb_ss (td_sb T))) by lia. rewrite nth_error_app2 by lia. now rewrite Nat.sub_diag.
      * destruct o; injection HS as HS; rewrite <- HS; cbn [set_start sb_start]; [exact IST|exact Logic.I].
      * destruct v; [destruct (sd_init [] (c_key c) (c_maxlen c)) eqn:D0|]; injection HS as HS; rewrite <- HS; cbn [set_start set_cur sb_start]; try exact Logic.I.
        revert IST. destruct (td_sb T) as [ss cu sp st nx nn dr qi rd tr]. unfold upd_sess, log, set_ss, set_cur, set_start; proj. apply running_eq; [apply upd_length|]. intros x Hx. rewrite nth_upd, Hx. destruct (Nat.eqb _ _); cbn; eauto.
      * injection HS as HS. rewrite <- HS. exact Logic.I.
Qed.
Lemma tinv_all c tm tls : fast tm -> forall T, timed_history c tm tls T -> patient c tm tls -> tinv tm T /\ orderly c (map snd tls).
Proof.
  intro F. induction tls as [|[t l] q IH] using rev_ind; intros T H P.
  - injection H as <-. split; [apply tinv0|exact Logic.I].
  - unfold timed_history in H. apply td_run_snoc in H as (M & Hm & Hs). destruct (patient_snoc_from c tm q t l timed0 M Hm P) as [P1 P2].
    destruct (IH M Hm P1) as [I O]. pose proof (timed_untimed c tm q M Hm) as HH. split.
    + eapply tinv_step; eauto using sinv_history, oinv_history.
    + rewrite map_app. cbn [map snd]. eapply orderly_snoc_intro; [exact HH|exact O|]. intros SC _. pose proof (ti_start _ _ I) as X. rewrite SC in X. apply X.
Qed.

(** A thread that was started lives or has ended. *)
Lemma started_ended c ls s : history c ls s -> forall i, In (EStarted i) (sb_tr s) -> alive s i \/ ended s i.
Proof.
  intro H. revert ls s H. apply (sb_ind c (fun _ s => forall i, In (EStarted i) (sb_tr s) -> alive s i \/ ended s i)).
  - intros i [].
  - intros ls s l s' Hh IH H i HI.
    assert (D : In (EStarted i) (sb_tr s) \/ (sb_start s = SSpawn /\ i = latest s /\ exists o v, l = LS o v)).
    { clear IH. step_cases H; injection H as <-; in_new HI; auto; try (injection HI as <-; right; eauto). }
    destruct D as [D|(SP & -> & o & v & ->)].
    + destruct (IH i D) as [A|A]; [|right; eapply ended_step; eauto]. apply alive_iff in A as (e & He & Le).
      destruct (step_frame _ _ _ _ H i e He) as (e' & He' & Q & _). destruct Q as [Q|[[o ->]|(_ & _ & Q & _)]].
      * left. apply alive_iff. exists e'. rewrite Q. auto.
      * destruct (thread_move _ _ _ _ _ _ H He) as (e1 & H1 & MV). assert (e1 = e') by congruence. subst e1.
        destruct (live (se_pc e')) eqn:L'; [left; apply alive_iff; eauto|]. destruct (se_pc e') eqn:Ep'; try discriminate L'; [|right; exists e0, e'; auto].
        exfalso. destruct (se_pc e); try (destruct MV; fail); repeat match goal with X : _ \/ _ |- _ => destruct X | X : _ /\ _ |- _ => destruct X | X : exists _, _ |- _ => destruct X | X : context [if ?b then _ else _] |- _ => destruct b end; try discriminate; try congruence.
        all: destruct o; try destruct (is_none a); discriminate.
      * left. apply alive_iff. exists e'. rewrite Q. auto.
    + left. pose proof (si_new _ (sinv_history c ls s Hh)) as X. rewrite SP in X. destruct X as (e & He & _).
      cbn in H. unfold start_step in H. rewrite SP in H. injection H as <-. apply alive_iff. unfold set_tpc. proj. rewrite (upd_same _ _ _ _ He). eexists. split; [reflexivity|]. reflexivity.
Qed.

(** ** C107 *)
(** Restarts are orderly: whatever is proved of orderly histories (C38 - C41, C45, C48) holds.
    In particular only the thread of the latest start lives, an earlier one does nothing once
    a later start() has opened the source, and the source sees one session after the other. *)
Theorem C107_restart :
  forall c tm tls T, timed_history c tm tls T -> fast tm -> patient c tm tls ->
  orderly c (map snd tls) /\
  (forall i j, alive (td_sb T) i -> alive (td_sb T) j -> i = j) /\
  (forall i k o t1 t2, sb_tr (td_sb T) = t1 ++ EOpen k o :: t2 -> (i < k)%nat -> thread_events i t2 = []) /\
  (forall d0, infos_ok (map snd tls) -> sd_init [] (c_key c) (c_maxlen c) = Ok d0 -> exists o, proper (source_events (sb_tr (td_sb T))) o).
Proof.
  intros c tm tls T H F P. destruct (tinv_all c tm tls F T H P) as [_ O]. pose proof (timed_untimed c tm tls T H) as HH.
  destruct (C39_restart_partial c _ _ HH O) as [A B]. split; [exact O|]. split; [exact A|]. split; [exact B|].
  intros d0 IO D0. destruct (C38_source_sessions c d0 _ _ HH O IO D0) as (o & X & _). eauto.
Qed.
Print Assumptions C107_restart.

(** A stop() call, while other clients may call stop() too, and no start() is called: when it
    returns, the thread has ended, the source is closed, and until the next start() the source
    is not touched again and nothing is added to any buffer. Calls to stop() return in the order
    in which they began; the [td_naps T0] calls that were under way return before this one. *)
Definition no_start (h : list (Z * label)) : Prop := forall t l, In (t, l) h -> l <> LStart.
Definition is_stop_ret (x : Z * label) : bool := match snd x with LStopRet => true | _ => false end.
Definition stop_returns (h : list (Z * label)) : nat := length (filter is_stop_ret h).
Lemma while_stopping c tm h : no_start h -> forall T T', td_run c tm T h = Some T' -> running (td_sb T) = false -> sb_start (td_sb T) = SFree ->
  (stop_returns h <= length (td_naps T))%nat ->
  running (td_sb T') = false /\ sb_start (td_sb T') = SFree /\ td_ran T' = td_ran T /\ (exists more, td_naps T' = skipn (stop_returns h) (td_naps T) ++ more) /\ length (sb_ss (td_sb T')) = length (sb_ss (td_sb T)).
Proof.
  induction h as [|[t l] q IH]; intros N T T' H R SF LE; cbn in H.
  - injection H as <-. split; [assumption|]. split; [assumption|]. split; [reflexivity|]. split; [|reflexivity]. exists []. now rewrite app_nil_r.
  - destruct (td_step c tm T t l) as [M|] eqn:E; [|discriminate]. pose proof (N t l (or_introl eq_refl)) as N1.
    apply td_step_inv in E as (_ & _ & _ & HS & _ & _ & EN & _ & ER). rewrite R in ER.
    assert (NS : forall o v, l <> LS o v) by (intros o v ->; cbn in HS; unfold start_step in HS; rewrite SF in HS; discriminate).
    assert (RM : running (td_sb M) = false). { destruct (running (td_sb M)) eqn:RM; auto. destruct (running_back _ _ _ _ HS R RM) as (o & v & -> & _). exfalso. eapply NS; reflexivity. }
    assert (SM : sb_start (td_sb M) = SFree). { destruct (step_start _ _ _ _ HS) as [[X _]|[(-> & _)|(o & v & ->)]]; [congruence|contradiction|exfalso; eapply NS; reflexivity]. }
    assert (Q : (stop_returns q <= length (td_naps M))%nat /\ exists more, skipn (stop_returns q) (td_naps M) = skipn (stop_returns ((t, l) :: q)) (td_naps T) ++ more).
    { unfold stop_returns in LE |- *. cbn [filter] in LE |- *. rewrite EN. destruct l; cbn [is_stop_ret snd naps'] in LE |- *;
        try (split; [exact LE|exists []; now rewrite app_nil_r]).
      - destruct (Nat.eqb _ 0); [split; [exact LE|exists []; now rewrite app_nil_r]|]. rewrite app_length. split; [lia|]. rewrite skipn_app. eauto.
      - cbn [length] in LE |- *. destruct (td_naps T) as [|n0 ns]; cbn in LE |- *; [lia|]. split; [lia|]. exists []. now rewrite app_nil_r. }
    destruct Q as (Q1 & mo & Q2).
    destruct (IH (fun t0 l0 X => N t0 l0 (or_intror X)) M T' H RM SM Q1) as (A & B & C & (mo' & D) & G). split; [exact A|]. split; [exact B|]. split; [congruence|]. split.
    + rewrite D, Q2. exists (mo ++ mo'). now rewrite app_assoc.
    + rewrite G. destruct (step_sessions _ _ _ _ HS) as [_ [L|(_ & (o & v & ->) & _)]]; [exact L|exfalso; eapply NS; reflexivity].
Qed.
Theorem C107_stop :
  forall c tm h1 T0 t0 T1 h2 T2 t2 T3,
  timed_history c tm h1 T0 -> td_step c tm T0 t0 LStop = Some T1 -> td_run c tm T1 h2 = Some T2 -> td_step c tm T2 t2 LStopRet = Some T3 ->
  fast tm -> patient c tm (h1 ++ (t0, LStop) :: h2) -> sb_ss (td_sb T0) <> [] -> no_start h2 -> stop_returns h2 = length (td_naps T0) ->
  t0 + t_second tm <= t2 /\ all_ended (td_sb T3) /\
  (forall i, In (EStarted i) (sb_tr (td_sb T3)) -> exists u, In (EClose i u) (sb_tr (td_sb T3))) /\
  (forall ls' s', sb_run c (td_sb T3) ls' = Some s' -> start_steps ls' = 0%nat ->
   source_events (sb_tr s') = source_events (sb_tr (td_sb T3)) /\ forall j, accepted_by j (sb_tr s') = accepted_by j (sb_tr (td_sb T3))).
Proof.
  intros c tm h1 T0 t0 T1 h2 T2 t2 T3 H0 S0 H2 S3 F P NE NS NN.
  assert (HH : timed_history c tm (h1 ++ (t0, LStop) :: h2) T2).
  { unfold timed_history in *. rewrite td_run_app, H0. cbn [td_run]. now rewrite S0. }
  destruct (tinv_all c tm _ F T2 HH P) as [I2 O2]. pose proof (timed_untimed c tm _ T2 HH) as U2.
  assert (SF : sb_start (td_sb T0) = SFree).
  { assert (P' : patient c tm (h1 ++ [(t0, LStop)])).
    { clear - P. revert P. unfold patient. generalize timed0. induction h1 as [|[u m] q IH]; intros T P; cbn in *.
      - destruct P. split; [assumption|]. now destruct (td_step c tm T t0 LStop).
      - destruct P. split; [assumption|]. destruct (td_step c tm T u m); auto. }
    destruct (patient_snoc_from c tm h1 t0 LStop timed0 T0 H0 P') as [_ [X _]]. auto. }
  destruct (td_step_inv _ _ _ _ _ _ S0) as (N0 & _ & _ & HS & _ & _ & EN & _ & ER).
  assert (LE : length (sb_ss (td_sb T0)) <> 0%nat) by (destruct (sb_ss (td_sb T0)); [congruence|discriminate]).
  assert (R1 : running (td_sb T1) = false).
  { cbn in HS. destruct (Nat.eqb_spec (length (sb_ss (td_sb T0))) 0); [contradiction|]. injection HS as HS. rewrite <- HS. exact (running_do_stop (td_sb T0)). }
  assert (SF1 : sb_start (td_sb T1) = SFree). { destruct (step_start _ _ _ _ HS) as [[X _]|[(X & _)|(o & v & X)]]; try discriminate X. congruence. }
  assert (RAN : td_ran T1 <= t0).
  { pose proof (timed_untimed c tm h1 T0 H0). rewrite ER. destruct (running (td_sb T0)); [lia|].
    assert (TI : tinv tm T0) by (apply (tinv_all c tm h1 F T0 H0); clear - P; revert P; unfold patient; generalize timed0; induction h1 as [|[u m] q IH]; intros T P; cbn in *; [exact Logic.I|]; destruct P; split; [assumption|]; destruct (td_step c tm T u m); auto).
    pose proof (ti_ran _ _ TI). lia. }
  assert (NP : td_naps T1 = td_naps T0 ++ [t0]). { rewrite EN. cbn [naps']. now destruct (Nat.eqb_spec (length (sb_ss (td_sb T0))) 0). }
  destruct (while_stopping c tm h2 NS T1 T2 H2 R1 SF1) as (R2 & SF2 & ER2 & (more & EN2) & _); [rewrite NP, app_length, NN; lia|].
  destruct (td_step_inv _ _ _ _ _ _ S3) as (_ & _ & AW & HS3 & _). cbn [awake] in AW. rewrite EN2, NP, NN, skipn_app, skipn_all, Nat.sub_diag in AW. cbn [app skipn] in AW. apply Z.leb_le in AW.
  assert (AE : all_ended (td_sb T2)) by (eapply quit_ended; eauto; lia).
  assert (U3 : history c (map snd (h1 ++ (t0, LStop) :: h2) ++ [LStopRet]) (td_sb T3)) by (apply sb_run_snoc; eauto).
  assert (AE3 : all_ended (td_sb T3)). { intros k A. destruct (alive_back _ _ _ _ k HS3 A) as [A0|(_ & _ & o & v & X)]; [exact (AE k A0)|discriminate]. }
  split; [exact AW|]. split; [exact AE3|].
  assert (SF3 : sb_start (td_sb T3) = SFree). { destruct (step_start _ _ _ _ HS3) as [[X _]|[(X & _)|(o & v & X)]]; try discriminate X. congruence. }
  split.
  - intros i HI. destruct (started_ended c _ _ U3 i HI) as [AL|EN3]; [destruct (AE3 i AL)|].
    destruct (C38_thread_life c _ _ U3 i) as (_ & _ & EC & _). apply EC in EN3. clear - EN3.
    unfold count in EN3. destruct (filter (is_close_of i) (sb_tr (td_sb T3))) as [|e q] eqn:E; [discriminate|].
    assert (X : In e (filter (is_close_of i) (sb_tr (td_sb T3)))) by (rewrite E; now left). apply filter_In in X as [X Y].
    destruct e; try discriminate Y. cbn in Y. apply Nat.eqb_eq in Y. subst. eauto.
  - intros ls' s' Hr SS. destruct (C44_after_stop_partial c _ _ U3 AE3 ls' s' Hr SF3 SS) as (A & B & _). auto.
Qed.
Print Assumptions C107_stop.

(** The same from what the client does and the source does. The client does not call stop()
    while a start() is under way, and calls start() when the stream is running, or a second
    or more after it stopped (as after every stop() that has returned, by the above). Reads
    do not raise, and no item is refused. *)
Definition considerate_step (tm : timing) (T : timed) (t : Z) (l : label) : Prop :=
  match l with
  | LStop => sb_start (td_sb T) = SFree
  | LStart => is_running (td_sb T) = true \/ sb_ss (td_sb T) = [] \/ td_ran T + t_second tm <= t
  | _ => True
  end.
Fixpoint considerate_from (c : cfg) (tm : timing) (T : timed) (tls : list (Z * label)) : Prop :=
  match tls with
  | [] => True
  | (t, l) :: q => considerate_step tm T t l /\ match td_step c tm T t l with Some T' => considerate_from c tm T' q | None => True end
  end.
Definition considerate (c : cfg) (tm : timing) (tls : list (Z * label)) : Prop := considerate_from c tm timed0 tls.
Definition no_failure (tr : list ev) : Prop :=
  (forall i e, ~ In (ERead i (Raise e)) tr) /\ (forall i j x e, ~ In (EAppend i j x (Raise e)) tr) /\ (forall i e, ~ In (ENap i e) tr).

Lemma considerate_snoc_from c tm a t l : forall T0 T, td_run c tm T0 a = Some T -> considerate_from c tm T0 (a ++ [(t, l)]) ->
  considerate_from c tm T0 a /\ considerate_step tm T t l.
Proof.
  induction a as [|[u m] a IH]; intros T0 T H P; cbn in H, P.
  - injection H as <-. cbn. tauto.
  - destruct P as [P1 P2]. destruct (td_step c tm T0 u m) as [T1|] eqn:E; [|discriminate]. destruct (IH T1 T H P2).
    cbn [considerate_from]. rewrite E. auto.
Qed.
Lemma patient_snoc_intro c tm a t l : forall T0 T, td_run c tm T0 a = Some T -> patient_from c tm T0 a -> patient_step tm T t l -> patient_from c tm T0 (a ++ [(t, l)]).
Proof.
  induction a as [|[u m] a IH]; intros T0 T H P S; cbn in *.
  - injection H as <-. split; [assumption|]. now destruct (td_step c tm T0 t l).
  - destruct P as [P1 P2]. split; [assumption|]. destruct (td_step c tm T0 u m) as [T1|]; [|discriminate]. eauto.
Qed.
(** Without failures no exception is ever on its way out of a thread. *)
Lemma healthy_thread c ls s k e : history c ls s -> orderly c ls -> (is_True (c_auto c) = true \/ c_maxlen c <> None) -> no_failure (sb_tr s) ->
  nth_error (sb_ss s) k = Some e -> forall x, ph (se_pc e) <> PhEnding x.
Proof.
  intros H O A (NR & NA & NS) He x E. pose proof (life_all c ls s H k) as L. unfold life_inv in L. rewrite He, E in L. destruct L as [L _].
  assert (LAST : exists t y, thread_events k (sb_tr s) = t ++ [y] /\ (y = ERead k (Raise x) \/ (exists j v, y = EAppend k j v (Raise x)) \/ y = ENap k x \/ exists z, y = ENoBuf k z)).
  { revert L. generalize (thread_events k (sb_tr s)). intros tr L. inversion L; subst; eauto 10. }
  destruct LAST as (t & y & ET & C). assert (IN : In y (sb_tr s)).
  { assert (X : In y (thread_events k (sb_tr s))) by (rewrite ET; apply in_or_app; right; now left). now apply filter_In in X. }
  destruct C as [->|[(j & v & ->)|[->|[z ->]]]]; [exact (NR _ _ IN)|exact (NA _ _ _ _ IN)|exact (NS _ _ IN)|].
  destruct (own_buffer c ls s H O) as [_ NB]. destruct (NB _ _ IN) as (_ & B1 & B2). destruct A as [A|A]; congruence.
Qed.
Record hinv (tm : timing) (T : timed) : Prop := {
  hi_fin : forall k e x, nth_error (sb_ss (td_sb T)) k = Some e -> se_pc e = TFinCheck x -> running (td_sb T) = false;
  hi_set : forall k e x, nth_error (sb_ss (td_sb T)) k = Some e -> se_pc e <> TFinSet x;
  hi_chk : sb_start (td_sb T) = SCheck1 -> running (td_sb T) = true \/ sb_ss (td_sb T) = [] \/ td_ran T + t_second tm <= td_now T
}.
Lemma step_trace_in c s l s' y : sb_step c s l = Some s' -> In y (sb_tr s) -> In y (sb_tr s').
Proof. intros H I. destruct (step_trace c s l s' H) as (es & ->). apply in_or_app. now left. Qed.
Theorem C107_healthy_source :
  forall c tm tls T, timed_history c tm tls T -> fast tm -> considerate c tm tls ->
  (c_auto c = PBool true \/ c_maxlen c <> None) -> no_failure (sb_tr (td_sb T)) -> patient c tm tls.
Proof.
  intros c tm tls T H F C A NF. rewrite <- is_True_iff in A. enough (patient c tm tls /\ hinv tm T) by tauto. revert T H C NF.
  induction tls as [|[t l] q IH] using rev_ind; intros T H C NF.
  - injection H as <-. split; [exact Logic.I|]. constructor; cbn; try discriminate; intros [|]; discriminate.
  - unfold timed_history in H. apply td_run_snoc in H as (M & Hm & Hs). destruct (considerate_snoc_from c tm q t l timed0 M Hm C) as [C1 C2].
    destruct (td_step_inv _ _ _ _ _ _ Hs) as (N & _ & _ & HS & EN & _ & _ & _ & ER).
    assert (NM : no_failure (sb_tr (td_sb M))). { destruct NF as (N1 & N2 & N3). split; [|split]; intros; intro X; eapply (step_trace_in _ _ _ _ _ HS) in X; [eapply N1|eapply N2|eapply N3]; exact X. }
    destruct (IH M Hm C1 NM) as [P [HF HX HC]].
    assert (PS : patient_step tm M t l).
    { split; [intros ->; exact C2|]. intros SC _ R NE. destruct (HC SC) as [X|[X|X]]; [congruence|contradiction|lia]. }
    assert (PP : patient c tm (q ++ [(t, l)])) by (eapply patient_snoc_intro; eauto). split; [exact PP|].
    assert (HT : timed_history c tm (q ++ [(t, l)]) T) by (apply td_run_snoc; eauto).
    destruct (tinv_all c tm q F M Hm P) as [IM OM]. destruct (tinv_all c tm _ F T HT PP) as [IT OT].
    pose proof (timed_untimed c tm q M Hm) as UM. pose proof (timed_untimed c tm _ T HT) as UT.
    assert (BACK : forall k e', nth_error (sb_ss (td_sb T)) k = Some e' -> se_pc e' <> TNew -> se_pc e' <> TCheck ->
       exists e, nth_error (sb_ss (td_sb M)) k = Some e /\ (se_pc e = se_pc e' \/ exists o, l = LT k o)).
    { intros k e' He' N1 N2. destruct (step_new _ _ _ _ HS k e' He') as [(e & He)|(_ & -> & _)]; [|now destruct N1].
      exists e. split; [assumption|]. destruct (step_frame _ _ _ _ HS k e He) as (e1 & H1 & Q & _). assert (e1 = e') by congruence. subst e1.
      destruct Q as [Q|[Q|(_ & _ & Q & _)]]; auto. contradiction. }
    assert (NOFS : forall k e' x, nth_error (sb_ss (td_sb T)) k = Some e' -> se_pc e' <> TFinSet x).
    { intros k e' x He' Ep. destruct (BACK k e' He') as (e & He & [Q|[o ->]]); try congruence.
      - apply (HX k e x He). congruence.
      - destruct (thread_move _ _ _ _ _ _ HS He) as (e1 & H1 & MV). assert (e1 = e') by congruence. subst e1. rewrite Ep in MV. clear A.
        destruct (se_pc e) eqn:E; try (destruct MV; fail); repeat match goal with X : _ \/ _ |- _ => destruct X | X : _ /\ _ |- _ => destruct X | X : exists _, _ |- _ => destruct X end; try discriminate; try congruence.
        + destruct (running (td_sb M)); discriminate.
        + match goal with X : _ = (if (?a <? ?b) then _ else _) |- _ => destruct (a <? b); discriminate end.
        + destruct o; [destruct (is_none a)|]; discriminate.
        + destruct o; discriminate.
        + rewrite (HF k e _ He E) in MV. discriminate. }
    assert (KEEP : running (td_sb M) = true -> running (td_sb T) = false -> l = LStop \/ exists o v b, l = LS o v /\ sb_start (td_sb M) = SStopSet b).
    { intros R R'. destruct (running_gone _ _ _ _ HS R R') as [|[(k & o & ->)|]]; auto. exfalso.
      clear - HS R R' HX. cbn in HS. destruct (nth_error (sb_ss (td_sb M)) k) as [e|] eqn:Ek; [|discriminate].
      assert (K : forall p s1, running s1 = true -> running (set_tpc s1 k p) = true).
      { intros p [ss cu sp st nx nn dr rd tr] R1. unfold set_tpc, upd_sess, set_ss. revert R1. proj. apply running_eq; [apply upd_length|]. intros y Hy. rewrite nth_upd, Hy. destruct (Nat.eqb _ _); cbn; eauto. }
      assert (K2 : forall s1 e1, running s1 = true -> running (StreamBufferM.log s1 e1) = true) by (intros s1 e1 R1; exact R1).
      assert (K3 : forall s1 j d, running s1 = true -> running (upd_sess s1 j (fun e => w_buf e d)) = true).
      { intros [ss cu sp st nx nn dr rd tr] j d R1. unfold upd_sess, set_ss. revert R1. proj. apply running_eq; [apply upd_length|]. intros y Hy. rewrite nth_upd, Hy. destruct (Nat.eqb _ _); cbn; eauto. }
      unfold thread_step in HS. destruct (se_pc e) eqn:Ep; try discriminate HS; cbn zeta in HS; try (eapply HX; eassumption);
        repeat match type of HS with
        | Some _ = Some _ => fail 1
        | (match ?x with _ => _ end) = _ => destruct x; try discriminate HS; cbn zeta in HS
        end; injection HS as HS; enough (running (td_sb T) = true) by congruence; rewrite <- HS; auto. }
    constructor.
    + intros k e' x He' Ep. destruct x as [x|]. { exfalso. eapply (healthy_thread c _ _ k e' UT OT A NF He' x). rewrite Ep. reflexivity. }
      destruct (BACK k e' He') as (e & He & Q); try congruence.
      assert (R : running (td_sb M) = false).
      { destruct Q as [Q|[o ->]]; [apply (HF k e None He); congruence|].
        destruct (thread_move _ _ _ _ _ _ HS He) as (e1 & H1 & MV). assert (e1 = e') by congruence. subst e1. rewrite Ep in MV. clear A.
        destruct (se_pc e) eqn:E; try (destruct MV; fail); repeat match goal with X : _ \/ _ |- _ => destruct X | X : _ /\ _ |- _ => destruct X | X : exists _, _ |- _ => destruct X end; try discriminate; try congruence.
        - destruct (running (td_sb M)); [discriminate|reflexivity].
        - match goal with X : _ = (if (?a <? ?b) then _ else _) |- _ => destruct (a <? b); discriminate end.
        - destruct o; [destruct (is_none a)|]; discriminate.
        - destruct o; discriminate.
        - eapply HF; eauto. }
      destruct (running (td_sb T)) eqn:R'; auto. destruct (running_back _ _ _ _ HS R R') as (o & v & -> & SF). exfalso.
      pose proof (ti_start _ _ IM) as X. rewrite SF in X. destruct X as [_ AE].
      assert (AL : alive (td_sb T) k) by (apply alive_iff; exists e'; rewrite Ep; auto).
      destruct (alive_back _ _ _ _ k HS AL) as [A0|(Y & _)]; [exact (AE k A0)|congruence].
    + exact NOFS.
    + intro SC. rewrite EN, ER. destruct (step_start _ _ _ _ HS) as [[E1 _]|[(-> & _ & _ & E1)|(o & v & ->)]].
      * assert (SM : sb_start (td_sb M) = SCheck1) by congruence. destruct (HC SM) as [R|[E|L]].
        -- destruct (running (td_sb T)) eqn:R'; auto. destruct (KEEP R eq_refl) as [->|(o & v & b & -> & X)]; [|congruence].
           cbn [considerate_step] in C2. congruence.
        -- right. left. destruct (step_sessions _ _ _ _ HS) as [_ [LL|(SF & _)]]; [|congruence]. rewrite E in LL. destruct (sb_ss (td_sb T)); [reflexivity|discriminate].
        -- destruct (running (td_sb M)) eqn:R; [|right; right; lia]. destruct (running (td_sb T)) eqn:R'; auto. destruct (KEEP eq_refl eq_refl) as [->|(o & v & b & -> & X)]; [|congruence].
           cbn [considerate_step] in C2. congruence.
      * cbn [considerate_step] in C2. rewrite E1. destruct C2 as [R|[E|L]]; [left; exact R|right; left; exact E|].
        destruct (running (td_sb M)) eqn:R; [left; exact R|right; right; lia].
      * exfalso. cbn in HS. unfold start_step in HS. destruct (sb_start (td_sb M)); try discriminate HS; try destruct (running (td_sb M)); try destruct second; try destruct o; try destruct v; try (destruct (sd_init [] (c_key c) (c_maxlen c))); injection HS as HS; rewrite <- HS in SC; discriminate SC.
Qed.
Print Assumptions C107_healthy_source.

(** ** Concrete histories *)
Definition at_ (t : Z) (ls : list label) : list (Z * label) := map (fun l => (t, l)) ls.
Definition considerateb (c : cfg) (tm : timing) : timed -> list (Z * label) -> bool :=
  fix go T tls := match tls with
  | [] => true
  | (t, l) :: q =>
      match l with
      | LStop => lock_free (td_sb T)
      | LStart => is_running (td_sb T) || Nat.eqb (length (sb_ss (td_sb T))) 0 || (td_ran T + t_second tm <=? t)
      | _ => true
      end && match td_step c tm T t l with Some T' => go T' q | None => true end
  end.
Lemma considerateb_ok c tm tls : considerateb c tm timed0 tls = true -> considerate c tm tls.
Proof.
  unfold considerate. generalize timed0. induction tls as [|[t l] q IH]; intros T H; [exact Logic.I|].
  cbn [considerateb] in H. apply andb_true_iff in H as [H1 H2]. cbn [considerate_from]. split.
  - destruct l; try exact Logic.I; cbn [considerate_step].
    + apply orb_true_iff in H1 as [H1|H1]; [apply orb_true_iff in H1 as [H1|H1]|]; auto.
      * right. left. apply Nat.eqb_eq in H1. destruct (sb_ss (td_sb T)); [reflexivity|discriminate].
      * right. right. lia.
    + unfold lock_free in H1. destruct (sb_start (td_sb T)); auto; discriminate.
  - destruct (td_step c tm T t l); auto.
Qed.
Definition td_end (c : cfg) (tm : timing) (tls : list (Z * label)) : timed := match td_run c tm timed0 tls with Some T => T | None => timed0 end.
Definition td_runs (c : cfg) (tm : timing) (tls : list (Z * label)) : bool := match td_run c tm timed0 tls with Some _ => true | None => false end.
Lemma timed_end c tm tls : td_runs c tm tls = true -> timed_history c tm tls (td_end c tm tls).
Proof. unfold td_runs, td_end, timed_history. destruct (td_run c tm timed0 tls); [reflexivity|discriminate]. Qed.

(** Milliseconds: reads of up to 300, sleeps of 50. A session with a read under way when
    stop() is called; a second one; a third start() while the second session runs. *)
Definition tm1 : timing := MkTiming 1000 300 50 20 5.
Definition before_stop : list (Z * label) :=
  at_ 0 (starting (PObj 7)) ++ at_ 5 (firstn 2 (round 0 (PInt 1))) ++ at_ 250 [LT 0 (Ok (PInt 1))] ++ at_ 255 [LT 0 (Ok PNone); LT 0 (Ok PNone)] ++ at_ 258 [LT 0 (Ok PNone); LT 0 (Ok PNone)].
Definition stopping : list (Z * label) := at_ 550 [LT 0 (Ok (PInt 2))] ++ at_ 553 [LT 0 (Ok PNone); LT 0 (Ok PNone)] ++ at_ 556 (finish 0).
Definition later_sessions : list (Z * label) :=
  at_ 1400 (starting (PObj 8)) ++ at_ 1402 [LT 1 (Ok PNone); LT 1 (Ok PNone); LT 1 (Ok PNone)] ++ at_ 1410 [LStart; LS (Ok tt) (Ok (PObj 9)); LS (Ok tt) (Ok (PObj 9))] ++
  at_ 1450 [LT 1 (Ok PNone)] ++ at_ 1454 (finish 1) ++ at_ 2410 (repeat (LS (Ok tt) (Ok (PObj 9))) 7) ++ at_ 2411 (round 2 (PInt 3)).
Definition timed1 : list (Z * label) := before_stop ++ (400, LStop) :: stopping ++ (1400, LStopRet) :: later_sessions.
Example C107_nonvacuous :
  let T := td_end cfg3 tm1 timed1 in
  timed_history cfg3 tm1 timed1 T /\ fast tm1 /\ considerate cfg3 tm1 timed1 /\ patient cfg3 tm1 timed1 /\
  source_events (sb_tr (td_sb T)) = [EOpen 0 (Ok tt); ERead 0 (Ok (PInt 1)); ERead 0 (Ok (PInt 2)); EClose 0 (Ok tt);
    EOpen 1 (Ok tt); ERead 1 (Ok PNone); EClose 1 (Ok tt); EOpen 2 (Ok tt); ERead 2 (Ok (PInt 3))].
Proof.
  cbn zeta. assert (H : timed_history cfg3 tm1 timed1 (td_end cfg3 tm1 timed1)) by (apply timed_end; vm_compute; reflexivity).
  assert (F : fast tm1) by (unfold fast, tm1; cbn; lia). assert (C : considerate cfg3 tm1 timed1) by (apply considerateb_ok; vm_compute; reflexivity).
  assert (E : source_events (sb_tr (td_sb (td_end cfg3 tm1 timed1))) = [EOpen 0 (Ok tt); ERead 0 (Ok (PInt 1)); ERead 0 (Ok (PInt 2)); EClose 0 (Ok tt);
    EOpen 1 (Ok tt); ERead 1 (Ok PNone); EClose 1 (Ok tt); EOpen 2 (Ok tt); ERead 2 (Ok (PInt 3))]) by (vm_compute; reflexivity).
  split; [exact H|]. split; [exact F|]. split; [exact C|]. split; [|exact E].
  eapply C107_healthy_source; [exact H|exact F|exact C|left; reflexivity|].
  remember (sb_tr (td_sb (td_end cfg3 tm1 timed1))) as tr eqn:Etr. vm_compute in Etr. subst tr.
  split; [|split]; intros; intro X; repeat (destruct X as [X|X]; [discriminate X|]); destruct X.
Qed.
(** Another client's stop() is under way, and returns first; a third one is called meanwhile. *)
Example C107_stop_nonvacuous : exists T0 T1 T2 T3,
  let h2 := stopping ++ [(600, LStop); (1390, LStopRet)] in
  timed_history cfg3 tm1 (before_stop ++ [(390, LStop)]) T0 /\ td_step cfg3 tm1 T0 400 LStop = Some T1 /\ td_run cfg3 tm1 T1 h2 = Some T2 /\
  td_step cfg3 tm1 T2 1400 LStopRet = Some T3 /\ sb_ss (td_sb T0) <> [] /\ no_start h2 /\ stop_returns h2 = length (td_naps T0) /\ td_naps T0 = [390] /\ alive (td_sb T1) 0 /\
  patient cfg3 tm1 ((before_stop ++ [(390, LStop)]) ++ (400, LStop) :: h2).
Proof.
  exists (td_end cfg3 tm1 (before_stop ++ [(390, LStop)])). do 3 eexists. cbn zeta.
  assert (H : timed_history cfg3 tm1 ((before_stop ++ [(390, LStop)]) ++ (400, LStop) :: stopping ++ [(600, LStop); (1390, LStopRet)]) (td_end cfg3 tm1 ((before_stop ++ [(390, LStop)]) ++ (400, LStop) :: stopping ++ [(600, LStop); (1390, LStopRet)]))) by (apply timed_end; vm_compute; reflexivity).
  split; [apply timed_end; vm_compute; reflexivity|]. split; [vm_compute; reflexivity|]. split; [vm_compute; reflexivity|].
  split; [vm_compute; reflexivity|]. split; [vm_compute; discriminate|]. split; [|split; [vm_compute; reflexivity|split; [vm_compute; reflexivity|split]]].
  - intros t l X. vm_compute in X. repeat (destruct X as [X|X]; [injection X as <- <-; discriminate|]). destruct X.
  - apply alive_iff. eexists. split; vm_compute; reflexivity.
  - eapply C107_healthy_source; [exact H|unfold fast, tm1; cbn; lia|apply considerateb_ok; vm_compute; reflexivity|left; reflexivity|].
    remember (sb_tr (td_sb (td_end cfg3 tm1 ((before_stop ++ [(390, LStop)]) ++ (400, LStop) :: stopping ++ [(600, LStop); (1390, LStopRet)])))) as tr eqn:Etr. vm_compute in Etr. subst tr.
    split; [|split]; intros; intro X; repeat (destruct X as [X|X]; [discriminate X|]); destruct X.
Qed.

(** The bound counts: with [sleep_time_on_read_none_s] of two seconds, however fast the source
    is, stop() returns before the thread has ended; and after the next start() two threads
    read the source. *)
Definition tm_long_sleep : timing := MkTiming 1000 0 2000 0 1.
Theorem C107_long_sleep_breaks_it :
  exists c tm tls T, timed_history c tm tls T /\ considerate c tm tls /\ t_read tm = 0 /\ t_close tm = 0 /\
  sb_stops (td_sb T) = 0%nat /\ sb_start (td_sb T) = SFree /\ alive (td_sb T) 0 /\ alive (td_sb T) 1 /\
  (exists t1 t2, sb_tr (td_sb T) = t1 ++ EStarted 1 :: t2 /\ In (ERead 0 (Ok (PInt 5))) t2 /\ In (ERead 1 (Ok (PInt 6))) t2).
Proof.
  exists cfg3, tm_long_sleep, (at_ 0 (starting (PObj 7)) ++ at_ 1 [LT 0 (Ok PNone); LT 0 (Ok PNone); LT 0 (Ok PNone)] ++ [(2, LStop); (1002, LStopRet)] ++ at_ 1002 (starting (PObj 8)) ++
    at_ 1003 [LT 1 (Ok PNone); LT 1 (Ok PNone); LT 1 (Ok (PInt 6)); LT 1 (Ok PNone); LT 1 (Ok PNone); LT 1 (Ok PNone); LT 1 (Ok PNone); LT 1 (Ok PNone)] ++ at_ 2001 [LT 0 (Ok PNone); LT 0 (Ok PNone); LT 0 (Ok PNone); LT 0 (Ok (PInt 5))]).
  eexists. split; [apply timed_end; vm_compute; reflexivity|]. split; [apply considerateb_ok; vm_compute; reflexivity|].
  split; [reflexivity|]. split; [reflexivity|]. split; [vm_compute; reflexivity|]. split; [vm_compute; reflexivity|].
  split; [apply alive_iff; eexists; split; vm_compute; reflexivity|]. split; [apply alive_iff; eexists; split; vm_compute; reflexivity|].
  exists [EOpen 0 (Ok tt); EBuilt 0 (PObj 7); EStarted 0; ERead 0 (Ok PNone); EStop (Ok 0%nat); EOpen 1 (Ok tt); EBuilt 1 (PObj 8)]. eexists. split; [vm_compute; reflexivity|].
  split; vm_compute; repeat (try (left; reflexivity); right).
Qed.
Print Assumptions C107_long_sleep_breaks_it.
