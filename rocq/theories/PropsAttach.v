(** * Attaching a reader that is in use (C104) *)
From Coq Require Import List ZArith Bool Arith Lia.
From Verif Require Import PyVal PyLib SortedDequeM Spec BufferReaderM BufferSysM StreamBufferM SpecStream StreamFacts LogFacts LogReads PropsStreamRead PropsStream PropsSession AttachRaceM.
Import ListNotations.
Open Scope nat_scope.

(** ** Specification *)
(** A step by which somebody uses reader [r]. *)
Definition uses (r : nat) (s : sb) (l : alabel) : Prop :=
  match l with
  | AStep (LIter r') | AStep (LCallR r' _) => r' = r
  | AStep LNext => sb_next s = Some r
  | _ => False
  end.
(** [l] ends the for loop over reader [r], without an exception: [a] before, [a'] after. *)
Definition loop_ends (c : cfg) (a : ars) (r : nat) (a' : ars) : Prop :=
  ar_step c a (AStep (LIter r)) = Some a' /\
  exists q q', nth_error (sb_rds (ar_s a)) r = Some q /\ nth_error (sb_rds (ar_s a')) r = Some q' /\
    rd_loop q <> ItPoll /\ rd_loop q <> ItEnd /\ rd_loop q' = ItEnd.
(** The loop ends for a reason: the session the reader is on (the last one it was made on or
    attached to) is stopped, and when the loop looked last, it looked at the buffer of that
    session and found nothing new. *)
Definition ends_for_a_reason (c : cfg) (ls : list alabel) (a : ars) (r : nat) : Prop :=
  exists j, session_of r (sb_tr (ar_s a)) = Some j /\ ev_set (ar_s a) j = true /\
  exists pre post a1 q1 d v,
    ls = pre ++ AStep (LIter r) :: post /\ ar_run c ar0 pre = Some a1 /\ nth_error (sb_rds (ar_s a1)) r = Some q1 /\
    session_of r (sb_tr (ar_s a1)) = Some j /\ buf_of (ar_s a1) j = Some d /\
    snd (run (read_for_next d) (rd_r q1)) = Ok v /\ rval_is_none v = true.
(** Nobody uses a reader while it is being attached, and a reader is attached only while no
    for loop over it is between its look and its question whether the stream is stopped. *)
Definition calm (c : cfg) (ls : list alabel) : Prop :=
  forall pre l post a, ls = pre ++ l :: post -> ar_run c ar0 pre = Some a ->
    (forall r j, ar_hold a = Some (r, j) -> ~ uses r (ar_s a) l) /\
    (forall r q, l = ABuf r -> nth_error (sb_rds (ar_s a)) r = Some q -> rd_loop q = ItPoll \/ rd_loop q = ItEnd).

(** ** Facts *)
Lemma ar_run_app c ls1 ls2 a : ar_run c a (ls1 ++ ls2) = match ar_run c a ls1 with Some a' => ar_run c a' ls2 | None => None end.
Proof. revert a. induction ls1 as [|l ls1 IH]; intro a; [reflexivity|]. cbn. destruct (ar_step c a l); auto. Qed.
Lemma ar_run_snoc c ls l a' : ar_run c ar0 (ls ++ [l]) = Some a' -> exists a, ar_run c ar0 ls = Some a /\ ar_step c a l = Some a'.
Proof. rewrite ar_run_app. destruct (ar_run c ar0 ls) as [a|]; [|discriminate]. cbn. intro H. exists a. split; [reflexivity|]. destruct (ar_step c a l); congruence. Qed.

(** What a step of the stream does to a reader. *)
Lemma step_rdr c s l s' r q' : sb_step c s l = Some s' -> (forall r, l <> LAttach r) -> nth_error (sb_rds s') r = Some q' ->
  (exists q, nth_error (sb_rds s) r = Some q /\ rd_sess q' = rd_sess q /\ rd_ev q' = rd_ev q /\
     session_of r (sb_tr s') = session_of r (sb_tr s) /\
     (rd_loop q' = rd_loop q \/ (l = LIter r /\ (rd_loop q = ItPoll /\ (exists d, buf_of s (rd_sess q) = Some d /\
         ((exists v, snd (run (read_for_next d) (rd_r q)) = Ok v /\ rval_is_none v = true /\ rd_loop q' = ItChk1) \/ rd_loop q' = ItPoll \/ rd_loop q' = ItEnd)) \/
         (rd_loop q = ItChk1 /\ rd_loop q' = if ev_set s (rd_ev q) then ItEnd else ItChk2) \/
         (rd_loop q = ItChk2 /\ rd_loop q' = if ev_set s (rd_ev q) then ItEnd else ItPoll))))) \/
  (nth_error (sb_rds s) r = None /\ rd_sess q' = rd_ev q' /\ session_of r (sb_tr s') = Some (rd_ev q') /\ rd_loop q' = ItPoll).
Proof.
  intros H NA Hq.
  step_cases H; injection H as <-; proj; rewrite ?session_of_snoc; try (left; exists q'; split; [assumption|]; now auto); try (exfalso; eapply NA; eassumption).
  all: repeat match type of Hq with
    | nth_error (set_nth _ _ _) _ = _ => apply nth_set_inv in Hq as [(-> & -> & _)|(? & Hq)]
    | nth_error (_ ++ [_]) _ = _ => apply nth_snoc_inv in Hq as [Hq|[-> ->]]
    end.
  all: try (left; eexists; split; [eassumption|]; cbn [rd_sess rd_ev rd_loop]; now auto).
  all: try (left; exists q'; split; [eassumption|]; rewrite (proj2 (Nat.eqb_neq _ _)) by (apply nth_lt in Hq; lia); now auto).
  all: try (right; split; [apply nth_error_None; lia|]; rewrite Nat.eqb_refl; now auto).
  all: left; eexists; split; [eassumption|]; cbn [rd_sess rd_ev rd_loop]; split; [reflexivity|]; split; [reflexivity|]; split; [reflexivity|]; right; split; [assumption|]; auto.
  left. split; [assumption|]. eexists. split; [eassumption|].
  match goal with E : run _ _ = _ |- _ => rewrite E; cbn [snd] end.
  match goal with E : (match ?o with Ok _ => _ | Raise _ => _ end) = _ |- _ => destruct o as [v|x]; [destruct (rval_is_none v) eqn:N|]; injection E as <- _ end; eauto.
Qed.

Definition ar_inv (c : cfg) (ls : list alabel) (a : ars) : Prop :=
  (forall r j, ar_hold a = Some (r, j) -> nth_error (sb_rds (ar_s a)) r <> None) /\
  (forall r j, ar_hold a = Some (r, j) -> lock_free (ar_s a) = true) /\
  forall r q, nth_error (sb_rds (ar_s a)) r = Some q ->
    session_of r (sb_tr (ar_s a)) = Some (rd_ev q) /\
    (forall j, ar_hold a = Some (r, j) -> rd_sess q = j /\ (rd_loop q = ItPoll \/ rd_loop q = ItEnd)) /\
    ((forall j, ar_hold a <> Some (r, j)) -> rd_sess q = rd_ev q) /\
    (rd_loop q = ItChk1 \/ rd_loop q = ItChk2 -> exists pre post a1 q1 d v,
       ls = pre ++ AStep (LIter r) :: post /\ ar_run c ar0 pre = Some a1 /\ nth_error (sb_rds (ar_s a1)) r = Some q1 /\
       session_of r (sb_tr (ar_s a1)) = Some (rd_ev q) /\ buf_of (ar_s a1) (rd_ev q) = Some d /\
       snd (run (read_for_next d) (rd_r q1)) = Ok v /\ rval_is_none v = true).
Lemma ar_inv_run c ls a : ar_run c ar0 ls = Some a -> calm c ls -> ar_inv c ls a.
Proof.
  revert a. induction ls as [|l ls IH] using rev_ind; intros a H CM.
  - injection H as <-. split; [discriminate|]. split; [discriminate|]. intros [|r] q; discriminate.
  - apply ar_run_snoc in H as (a0 & H0 & Hs). destruct (CM ls l [] a0 eq_refl H0) as [U AB].
    destruct (IH a0 H0) as (HR & L & I). { intros pre l' post a' E. apply (CM pre l' (post ++ [l])). now rewrite E, <- app_assoc. }
    clear IH.
    destruct l as [l|r0|].
    + assert (HS : sb_step c (ar_s a0) l = Some (ar_s a) /\ ar_hold a = ar_hold a0 /\ (forall r, l <> LAttach r) /\ (forall r j, ar_hold a0 = Some (r, j) -> takes_lock (ar_s a0) l = false)).
      { unfold ar_step in Hs. destruct l; try discriminate Hs; (destruct (ar_hold a0) as [[r1 j1]|] eqn:EH; 
          [destruct (takes_lock (ar_s a0) _) eqn:TL; [discriminate Hs|]|]; cbn zeta in Hs; destruct (sb_step c (ar_s a0) _) as [s1|] eqn:ES; try discriminate Hs; injection Hs as <-; cbn [ar_s ar_hold]; repeat split; auto; try discriminate; try (intros; congruence)). }
      destruct HS as (HS & HH & NA & TL). split; [|split].
      * intros r j E. rewrite HH in E. specialize (HR r j E). intro X. apply HR. apply nth_error_None. apply nth_error_None in X.
        enough (length (sb_rds (ar_s a0)) <= length (sb_rds (ar_s a))) by lia. clear - HS. revert HS. generalize (ar_s a0) (ar_s a). intros s s' H. step_cases H; injection H as <-; proj; rewrite ?LogFacts.set_nth_length, ?app_length; lia.
      * intros r j E. rewrite HH in E. specialize (L r j E). specialize (TL r j E). clear - HS L TL NA.
        unfold lock_free in *. destruct (sb_start (ar_s a0)) eqn:ES; try discriminate L.
        enough (X : sb_start (ar_s a) = SFree) by now rewrite X.
        destruct l; try discriminate TL; unfold sb_step, start_step, thread_step, call_step, iter_step in HS; cbn zeta in HS; rewrite ?ES in HS;
        repeat match type of HS with
          | Some _ = Some _ => fail 1
          | None = Some _ => discriminate HS
          | (match ?x with _ => _ end) = _ => let E := fresh "E" in destruct x eqn:E in HS; try discriminate HS; cbn zeta in HS
          end; injection HS as <-; proj; assumption.
      * intros r q Hq. destruct (step_rdr c _ l _ r q HS NA Hq) as [(q0 & Hq0 & E1 & E2 & E3 & E4)|(N & E1 & E2 & E3)].
        -- destruct (I r q0 Hq0) as (I1 & I2 & I4 & I3). rewrite E3, E2, E1, HH. split; [assumption|]. split; [|split].
           ++ intros j Ej. destruct (I2 j Ej) as [I5 I6]. split; [assumption|]. destruct E4 as [->|(-> & _)]; [assumption|]. exfalso. exact (U r j Ej eq_refl).
           ++ assumption.
           ++ intro LC. destruct E4 as [E4|(-> & [(P & d & Hd & [(v & V1 & V2 & V3)|X])|[(P & X)|(P & X)]])].
              ** rewrite E4 in LC. destruct (I3 LC) as (pre & post & a1 & q1 & d & v & Els & R). exists pre, (post ++ [AStep l]), a1, q1, d, v. split; [rewrite Els, <- app_assoc; reflexivity|exact R].
              ** rewrite I4 in Hd by (intros j Ej; exact (U r j Ej eq_refl)). exists ls, [], a0, q0, d, v. auto 10.
              ** exfalso. destruct X as [X|X], LC; congruence.
              ** destruct (I3 (or_introl P)) as (pre & post & a1 & q1 & d & v & Els & R). exists pre, (post ++ [AStep (LIter r)]), a1, q1, d, v. split; [rewrite Els, <- app_assoc; reflexivity|exact R].
              ** destruct (I3 (or_intror P)) as (pre & post & a1 & q1 & d & v & Els & R). exists pre, (post ++ [AStep (LIter r)]), a1, q1, d, v. split; [rewrite Els, <- app_assoc; reflexivity|exact R].
        -- split; [assumption|]. split; [intros j Ej; exfalso; rewrite HH in Ej; apply (HR r j Ej N)|]. split; [auto|]. rewrite E3. intros [X|X]; discriminate.
    + unfold ar_step in Hs. cbn zeta in Hs. destruct (ar_hold a0) eqn:EH; [discriminate|]. destruct (lock_free (ar_s a0)) eqn:LF; [|discriminate].
      destruct (nth_error (sb_rds (ar_s a0)) r0) as [q0|] eqn:Eq0; [|discriminate]. destruct (sb_cur (ar_s a0)) as [j|] eqn:EC; injection Hs as <-; unfold ar_inv; cbn [ar_s ar_hold]; proj.
      * split; [|split; [auto|]].
        { intros r j' Ej. injection Ej as <- <-. rewrite nth_error_set_nth, Nat.eqb_refl, Eq0. discriminate. }
        intros r q Hq. apply nth_set_inv in Hq as [(-> & -> & _)|(NE & Hq)].
        -- destruct (I r0 q0 Eq0) as (I1 & I2 & I4 & I3). cbn [put_buf rd_ev rd_sess rd_loop]. split; [assumption|]. pose proof (AB r0 q0 eq_refl Eq0) as LP. split; [|split].
           ++ intros k Ek. injection Ek as <-. auto.
           ++ intro X. exfalso. exact (X j eq_refl).
           ++ intros [X|X]; destruct LP; congruence.
        -- destruct (I r q Hq) as (I1 & I2 & I4 & I3). split; [assumption|]. split; [intros k Ek; injection Ek as <- <-; congruence|]. split; [intros _; apply I4; discriminate|]. intro LC.
           destruct (I3 LC) as (pre & post & a1 & q1 & d & v & Els & R). exists pre, (post ++ [ABuf r0]), a1, q1, d, v. split; [rewrite Els, <- app_assoc; reflexivity|exact R].
      * split; [discriminate|]. split; [discriminate|]. intros r q Hq. destruct (I r q Hq) as (I1 & I2 & I4 & I3). rewrite session_of_snoc. split; [assumption|]. split; [discriminate|]. split; [auto|]. intro LC.
        destruct (I3 LC) as (pre & post & a1 & q1 & d & v & Els & R). exists pre, (post ++ [ABuf r0]), a1, q1, d, v. split; [rewrite Els, <- app_assoc; reflexivity|exact R].
    + unfold ar_step in Hs. cbn zeta in Hs. destruct (ar_hold a0) as [[r0 j]|] eqn:EH; [|discriminate].
      destruct (nth_error (sb_rds (ar_s a0)) r0) as [q0|] eqn:Eq0; [|discriminate]. injection Hs as <-; unfold ar_inv; cbn [ar_s ar_hold]; proj.
      split; [discriminate|]. split; [discriminate|]. intros r q Hq. rewrite session_of_snoc. apply nth_set_inv in Hq as [(-> & -> & _)|(NE & Hq)].
      * destruct (I r0 q0 Eq0) as (I1 & I2 & I4 & I3). cbn [put_ev rd_ev rd_sess rd_loop]. rewrite Nat.eqb_refl. destruct (I2 j eq_refl) as [I5 I6].
        split; [reflexivity|]. split; [discriminate|]. split; [auto|]. intros [X|X]; destruct I6; congruence.
      * destruct (I r q Hq) as (I1 & I2 & I4 & I3). rewrite (proj2 (Nat.eqb_neq r0 r)) by congruence. split; [assumption|]. split; [discriminate|]. split; [intros _; apply I4; intros k Ek; congruence|]. intro LC.
        destruct (I3 LC) as (pre & post & a1 & q1 & d & v & Els & R). exists pre, (post ++ [AEv]), a1, q1, d, v. split; [rewrite Els, <- app_assoc; reflexivity|exact R].
Qed.

(** ** A calm history is one in which attach_reader() is one step *)
Lemma set_nth_snoc {A} (l : list A) x : forall r y, r < length l -> set_nth (l ++ [x]) r y = set_nth l r y ++ [x].
Proof. induction l as [|z l IH]; intros [|r] y L; cbn in *; try lia; [reflexivity|]. f_equal. apply IH. lia. Qed.
Lemma set_nth_comm {A} (l : list A) : forall r k a b, r <> k -> set_nth (set_nth l r a) k b = set_nth (set_nth l k b) r a.
Proof. induction l as [|z l IH]; intros [|r] [|k] a b N; cbn; try reflexivity; [congruence|]. f_equal. apply IH. congruence. Qed.
Lemma set_nth_twice {A} (l : list A) : forall r a b, set_nth (set_nth l r a) r b = set_nth l r b.
Proof. induction l as [|z l IH]; intros [|r] a b; cbn; try reflexivity. f_equal. apply IH. Qed.
(** [s] with reader [r] replaced by [y]. *)
Definition with_rdr (s : sb) (r : nat) (y : rdr) : sb := set_rds s (set_nth (sb_rds s) r y).
Lemma step_other c s l s' r x y : nth_error (sb_rds s) r = Some x -> (forall r, l <> LAttach r) -> ~ uses r (with_rdr s r y) (AStep l) ->
  sb_step c (with_rdr s r y) l = Some s' ->
  exists s0, sb_step c s l = Some s0 /\ s' = with_rdr s0 r y /\ nth_error (sb_rds s0) r = Some x.
Proof.
  intros Hr NA U H. pose proof (nth_lt _ _ _ Hr) as L.
  assert (O : forall k, k <> r -> nth_error (set_nth (sb_rds s) r y) k = nth_error (sb_rds s) k) by (intros k N; rewrite nth_error_set_nth, (proj2 (Nat.eqb_neq r k)) by congruence; reflexivity).
  destruct s as [ss cur st stops nxt nx dr din rds tr]. cbn [sb_rds] in *.
  destruct l; try (exfalso; eapply NA; reflexivity); unfold with_rdr, uses in *; cbn [set_rds sb_ss sb_cur sb_start sb_stops sb_next sb_nx sb_dr sb_in sb_rds sb_tr] in *.
  all: unfold sb_step, lock_free, start_step, thread_step, call_step, iter_step, running, latest, ev_set, buf_of, len_seen, gone, dropping in *;
       unfold log, set_ss, set_cur, set_start, set_stops, set_next, set_nx, set_dr, set_in, set_rds, upd_sess, set_tpc, do_stop, new_rdr, mk_rdr, info_of, latest, running, upd_sess, set_rds, set_ss in *;
       cbn [sb_ss sb_cur sb_start sb_stops sb_next sb_nx sb_dr sb_in sb_rds sb_tr] in *.
  all: try (rewrite ?O in H by congruence).
  all: repeat match type of H with
    | Some _ = Some _ => fail 1
    | None = Some _ => discriminate H
    | (match ?x with _ => _ end) = _ => let E := fresh "E" in destruct x eqn:E; try discriminate H; cbn zeta in *; rewrite ?O in H by congruence
    end.
  all: try (injection H as <-; cbn zeta; eexists; split; [reflexivity|]; split; [reflexivity|assumption]).
  all: try (injection H as <-; cbn zeta; eexists; split; [reflexivity|]; cbn [sb_rds sb_tr]; rewrite ?set_nth_length, ?set_nth_snoc, ?nth_error_app1 by assumption; split; [reflexivity|assumption]).
  all: try (injection H as <-; unfold log; cbn [sb_ss sb_cur sb_start sb_stops sb_next sb_nx sb_dr sb_in sb_rds sb_tr]; eexists; split; [reflexivity|]; cbn [sb_ss sb_cur sb_start sb_stops sb_next sb_nx sb_dr sb_in sb_rds sb_tr];
    rewrite set_nth_length, set_nth_snoc, nth_error_app1 by assumption; split; [reflexivity|assumption]).
  all: injection H as <-; eexists; split; [reflexivity|]; cbn [sb_ss sb_cur sb_start sb_stops sb_next sb_nx sb_dr sb_in sb_rds sb_tr].
  all: match goal with U : ~ _ |- context [set_nth (set_nth ?R ?k ?z) ?r ?y] =>
    assert (K : k <> r) by (intro; subst; apply U; congruence); rewrite <- (set_nth_comm R r k y z) by congruence; rewrite nth_error_set_nth, (proj2 (Nat.eqb_neq k r) K); split; [reflexivity|assumption] end.
Qed.
(** Every calm history has the same states and trace as one of [StreamBufferM], where
    attach_reader() is one step; so all other theorems about streams apply to it. *)
Theorem C104_atomic_partial :
  forall c ls a, ar_run c ar0 ls = Some a -> calm c ls -> ar_hold a = None -> exists ls', history c ls' (ar_s a).
Proof.
  intros c ls a H CM HN.
  enough (G : exists ls' s, history c ls' s /\ match ar_hold a with
    | None => ar_s a = s
    | Some (r, j) => sb_cur s = Some j /\ lock_free s = true /\ exists q, nth_error (sb_rds s) r = Some q /\ ar_s a = with_rdr s r (put_buf q j)
    end) by (destruct G as (ls' & s & G1 & G2); rewrite HN in G2; subst; eauto).
  clear HN. revert a H. induction ls as [|l ls IH] using rev_ind; intros a H.
  - injection H as <-. exists [], sb0. split; reflexivity.
  - apply ar_run_snoc in H as (a0 & H0 & Hs). destruct (CM ls l [] a0 eq_refl H0) as [U AB].
    assert (CM0 : calm c ls) by (intros pre l' post a' E; apply (CM pre l' (post ++ [l])); now rewrite E, <- app_assoc).
    destruct (ar_inv_run c ls a0 H0 CM0) as (HR & LF & _).
    destruct (IH CM0 a0 H0) as (ls' & s & Hh & R). clear IH.
    destruct l as [l|r0|].
    + assert (HS : sb_step c (ar_s a0) l = Some (ar_s a) /\ ar_hold a = ar_hold a0 /\ (forall r, l <> LAttach r) /\ (forall r j, ar_hold a0 = Some (r, j) -> takes_lock (ar_s a0) l = false)).
      { unfold ar_step in Hs. destruct l; try discriminate Hs; (destruct (ar_hold a0) as [[r1 j1]|] eqn:EH; 
          [destruct (takes_lock (ar_s a0) _) eqn:TL; [discriminate Hs|]|]; cbn zeta in Hs; destruct (sb_step c (ar_s a0) _) as [s1|] eqn:ES; try discriminate Hs; injection Hs as <-; cbn [ar_s ar_hold]; repeat split; auto; try discriminate; try (intros; congruence)). }
      destruct HS as (HS & -> & NA & TL). destruct (ar_hold a0) as [[r j]|] eqn:EH.
      * destruct R as (C1 & C2 & q & Hq & E). specialize (U r j eq_refl). specialize (TL r j eq_refl). rewrite E in *.
        destruct (step_other c s l (ar_s a) r q (put_buf q j) Hq NA U HS) as (s0 & HS0 & E0 & Hq0).
        exists (ls' ++ [l]), s0. split; [unfold history; rewrite sb_run_app, Hh; cbn; now rewrite HS0|].
        assert (TL0 : takes_lock s l = false) by (destruct l; exact TL).
        assert (K : sb_cur s0 = sb_cur s /\ lock_free s0 = true).
        { clear - HS0 C2 TL0 NA. unfold lock_free in *. destruct (sb_start s) eqn:ES; try discriminate C2.
          destruct l; try discriminate TL0; unfold sb_step, start_step, thread_step, call_step, iter_step in HS0; cbn zeta in HS0; rewrite ?ES in HS0;
          repeat match type of HS0 with
            | Some _ = Some _ => fail 1
            | None = Some _ => discriminate HS0
            | (match ?x with _ => _ end) = _ => let E := fresh "E" in destruct x eqn:E in HS0; try discriminate HS0; cbn zeta in HS0
            end; injection HS0 as <-; proj; rewrite ?ES; split; auto; try (cbn in TL0; congruence). }
        destruct K as [-> ->]. split; [assumption|]. split; [reflexivity|]. exists q. auto.
      * subst s. exists (ls' ++ [l]), (ar_s a). split; [unfold history; rewrite sb_run_app, Hh; cbn; now rewrite HS|reflexivity].
    + unfold ar_step in Hs. cbn zeta in Hs. destruct (ar_hold a0) eqn:EH; [discriminate|]. subst s. destruct (lock_free (ar_s a0)) eqn:L0; [|discriminate].
      destruct (nth_error (sb_rds (ar_s a0)) r0) as [q0|] eqn:Eq0; [|discriminate]. destruct (sb_cur (ar_s a0)) as [j|] eqn:EC; injection Hs as <-; cbn [ar_s ar_hold].
      * exists ls', (ar_s a0). split; [assumption|]. split; [assumption|]. split; [assumption|]. exists q0. auto.
      * exists (ls' ++ [LAttach r0]), (log (ar_s a0) (EAttach r0 (Raise StreamNotStartedError))). split; [|reflexivity].
        unfold history. rewrite sb_run_app, Hh. cbn. now rewrite L0, Eq0, EC.
    + unfold ar_step in Hs. cbn zeta in Hs. destruct (ar_hold a0) as [[r0 j]|] eqn:EH; [|discriminate]. destruct R as (C1 & C2 & q & Hq & E). rewrite E in Hs.
      unfold with_rdr in Hs. cbn [sb_rds set_rds] in Hs. rewrite nth_error_set_nth, Nat.eqb_refl, Hq in Hs. injection Hs as <-. cbn [ar_s ar_hold].
      eexists (ls' ++ [LAttach r0]), _. split; [unfold history; rewrite sb_run_app, Hh; cbn; rewrite C2, Hq, C1; reflexivity|].
      unfold log, set_rds, with_rdr, put_ev, put_buf. cbn [sb_ss sb_cur sb_start sb_stops sb_next sb_nx sb_dr sb_rds sb_tr rd_sess rd_ev rd_info rd_r rd_loop rd_out]. now rewrite set_nth_twice.
Qed.
Print Assumptions C104_atomic_partial.

(** ** C104 *)
Theorem C104_calm_partial :
  forall c ls a, ar_run c ar0 ls = Some a -> forall r a', loop_ends c a r a' -> calm c (ls ++ [AStep (LIter r)]) -> ends_for_a_reason c ls a r.
Proof.
  intros c ls a H r a' (Hs & q & q' & Hq & Hq' & N1 & N2 & E) CM.
  assert (CM0 : calm c ls) by (intros pre l post a0 -> ; apply (CM pre l (post ++ [AStep (LIter r)])); now rewrite <- app_assoc).
  destruct (ar_inv_run c ls a H CM0) as (_ & _ & I). destruct (I r q Hq) as (I1 & _ & _ & I3).
  exists (rd_ev q). split; [assumption|].
  assert (HS : sb_step c (ar_s a) (LIter r) = Some (ar_s a')).
  { unfold ar_step in Hs. cbn [takes_lock] in Hs. cbn zeta in Hs. replace (match ar_hold a with Some _ => false | None => false end) with false in Hs by (now destruct (ar_hold a)).
    destruct (sb_step c (ar_s a) (LIter r)); [|discriminate]. now injection Hs as <-. }
  destruct (step_rdr c _ _ _ r q' HS ltac:(discriminate) Hq') as [(q0 & Hq0 & _ & _ & _ & E4)|(N & _)]; [|congruence].
  rewrite Hq in Hq0. injection Hq0 as <-.
  destruct E4 as [E4|(_ & [(P & _)|[(P & X)|(P & X)]])]; try congruence.
  - destruct (ev_set (ar_s a) (rd_ev q)); [|congruence]. split; [reflexivity|]. apply I3. now left.
  - destruct (ev_set (ar_s a) (rd_ev q)); [|congruence]. split; [reflexivity|]. apply I3. now right.
Qed.
Print Assumptions C104_calm_partial.

(** The property for every history of a stream whose readers are attached while in use. *)
Definition C104_statement : Prop :=
  forall c ls a, ar_run c ar0 ls = Some a -> forall r a', loop_ends c a r a' -> ends_for_a_reason c ls a r.
Definition ar_end (c : cfg) (ls : list alabel) : ars := match ar_run c ar0 ls with Some a => a | None => ar0 end.
Definition ar_runs (c : cfg) (ls : list alabel) : bool := match ar_run c ar0 ls with Some _ => true | None => false end.
Lemma ar_runs_end c ls : ar_runs c ls = true -> ar_run c ar0 ls = Some (ar_end c ls).
Proof. unfold ar_runs, ar_end. now destruct (ar_run c ar0 ls). Qed.
(** Session 0 has stopped with two items the reader has not seen; session 1 is running and
    has no items yet. While the reader is being attached to session 1, a for loop over it
    looks at the buffer of session 1, then at the stop event of session 0, and ends: it
    delivers neither the items of session 0 nor those of session 1. *)
Definition torn_hist : list alabel :=
  map AStep (starting (PObj 7) ++ [StreamBufferM.LMk 1 false false true] ++ round 0 (PInt 1) ++ round 0 (PInt 5) ++ [LStop] ++ finish 0 ++ [LStopRet] ++ starting (PObj 8))
  ++ [ABuf 0; AStep (LIter 0)].
(** While an attach_reader() is between its two lines, start(), mk_reader() and a
    next(stream_buffer) that must make its reader wait; nothing else does. *)
Theorem C104_who_waits :
  forall c a r j, ar_hold a = Some (r, j) -> forall l, (forall r, l <> LAttach r) ->
  match l with
  | LStart | LMk _ _ _ _ => ar_step c a (AStep l) = None
  | LNextMk => match sb_next (ar_s a) with
               | None => ar_step c a (AStep l) = None
               | Some _ => exists s', sb_step c (ar_s a) l = Some s' /\ ar_step c a (AStep l) = Some (MkAR s' (ar_hold a))
               end
  | l => forall s', sb_step c (ar_s a) l = Some s' <-> ar_step c a (AStep l) = Some (MkAR s' (ar_hold a))
  end.
Proof.
  intros c a r j E l N. destruct l; try (exfalso; eapply N; reflexivity); unfold ar_step; rewrite ?E; cbn [takes_lock]; try reflexivity;
    try (intro s'; match goal with |- context [sb_step ?c0 ?s0 ?l0] => destruct (sb_step c0 s0 l0) end; split; intro H; [injection H as ->; reflexivity|injection H as ->; reflexivity|discriminate|discriminate]).
  destruct (sb_next (ar_s a)) as [r0|] eqn:X; [|reflexivity]. cbn [sb_step]. rewrite X. eauto.
Qed.
Print Assumptions C104_who_waits.
(** The loop looks at session 0, which has nothing; then that session stops, session 1 gets
    an item and stops, the reader is attached to it; the loop now asks whether its stream is
    stopped, and ends without having looked at session 1. *)
Definition late_hist : list alabel :=
  map AStep (starting (PObj 7) ++ [StreamBufferM.LMk 1 false false true; LIter 0; LStop] ++ finish 0 ++ [LStopRet] ++ starting (PObj 8) ++ round 1 (PInt 1) ++ [LStop] ++ finish 1)
  ++ [ABuf 0; AEv].
Definition polls_at (r : nat) (ls : list alabel) : list nat :=
  filter (fun n => match nth_error ls n with Some (AStep (LIter r')) => r' =? r | _ => false end) (seq 0 (length ls)).
Lemma poll_index r ls pre post : ls = pre ++ AStep (LIter r) :: post -> In (length pre) (polls_at r ls).
Proof.
  intros ->. apply filter_In. split; [apply in_seq; rewrite app_length; cbn; lia|]. rewrite nth_error_app2, Nat.sub_diag by lia. cbn. apply Nat.eqb_refl.
Qed.
Lemma prefix_firstn {A} (ls pre post : list A) : ls = pre ++ post -> pre = firstn (length pre) ls.
Proof. intros ->. rewrite firstn_app, Nat.sub_diag, firstn_all, firstn_O. now rewrite app_nil_r. Qed.
Lemma no_reason c ls a r n : ar_run c ar0 ls = Some a -> polls_at r ls = [n] ->
  (forall j d q1 v, session_of r (sb_tr (ar_s a)) = Some j -> session_of r (sb_tr (ar_s (ar_end c (firstn n ls)))) = Some j -> buf_of (ar_s (ar_end c (firstn n ls))) j = Some d ->
     nth_error (sb_rds (ar_s (ar_end c (firstn n ls)))) r = Some q1 -> snd (run (read_for_next d) (rd_r q1)) = Ok v -> rval_is_none v = false) ->
  ~ ends_for_a_reason c ls a r.
Proof.
  intros H P N (j & S1 & _ & pre & post & a1 & q1 & d & v & Els & H1 & Hq1 & S2 & Hd & R & V).
  pose proof (poll_index r ls pre post Els) as X. rewrite P in X. destruct X as [X|[]]. pose proof (prefix_firstn _ _ _ Els) as Y. rewrite <- X in Y.
  assert (a1 = ar_end c (firstn n ls)) as -> by (unfold ar_end; now rewrite <- Y, H1).
  rewrite (N j d q1 v) in V; auto. discriminate.
Qed.
Theorem C104_torn_refuted :
  let a := ar_end cfg3 torn_hist in
  ar_run cfg3 ar0 torn_hist = Some a /\
  (exists a', loop_ends cfg3 a 0 a' /\ exists a'', ar_step cfg3 a' AEv = Some a'') /\
  ~ ends_for_a_reason cfg3 torn_hist a 0 /\
  session_of 0 (sb_tr (ar_s a)) = Some 0 /\ (exists d, buf_of (ar_s a) 0 = Some d /\ not_got_yet ident (received 0 (sb_tr (ar_s a))) (sd_list d) = [PInt 1; PInt 5]) /\
  ar_hold a = Some (0, 1) /\ ev_set (ar_s a) 1 = false.
Proof.
  cbn zeta. assert (H : ar_run cfg3 ar0 torn_hist = Some (ar_end cfg3 torn_hist)) by (apply ar_runs_end; vm_compute; reflexivity).
  split; [assumption|]. split; [eexists; split; [split; [vm_compute; reflexivity|]|eexists; vm_compute; reflexivity]|split; [|split; [vm_compute; reflexivity|split; [eexists; split; vm_compute; reflexivity|split; vm_compute; reflexivity]]]].
  - do 2 eexists. split; [vm_compute; reflexivity|]. split; [vm_compute; reflexivity|]. split; [vm_compute; discriminate|]. split; [vm_compute; discriminate|]. vm_compute. reflexivity.
  - eapply no_reason; [exact H|vm_compute; reflexivity|]. intros j d q1 v S1. vm_compute in S1. injection S1 as <-. intros _ Hd Hq. vm_compute in Hd. injection Hd as <-. vm_compute in Hq. injection Hq as <-.
    intro R. vm_compute in R. injection R as <-. reflexivity.
Qed.
Print Assumptions C104_torn_refuted.
Theorem C104_late_refuted :
  let a := ar_end cfg3 late_hist in
  ar_run cfg3 ar0 late_hist = Some a /\ (exists a', loop_ends cfg3 a 0 a') /\ ~ ends_for_a_reason cfg3 late_hist a 0 /\
  ar_hold a = None /\ session_of 0 (sb_tr (ar_s a)) = Some 1 /\
  (exists d, buf_of (ar_s a) 1 = Some d /\ not_got_yet ident (received 0 (sb_tr (ar_s a))) (sd_list d) = [PInt 1]).
Proof.
  cbn zeta. assert (H : ar_run cfg3 ar0 late_hist = Some (ar_end cfg3 late_hist)) by (apply ar_runs_end; vm_compute; reflexivity).
  split; [assumption|]. split; [eexists; split; [vm_compute; reflexivity|]|split; [|split; [vm_compute; reflexivity|split; [vm_compute; reflexivity|eexists; split; vm_compute; reflexivity]]]].
  - do 2 eexists. split; [vm_compute; reflexivity|]. split; [vm_compute; reflexivity|]. split; [vm_compute; discriminate|]. split; [vm_compute; discriminate|]. vm_compute. reflexivity.
  - eapply no_reason; [exact H|vm_compute; reflexivity|]. intros j d q1 v S1 S2. vm_compute in S1. injection S1 as <-. vm_compute in S2. discriminate.
Qed.
Print Assumptions C104_late_refuted.
Theorem C104_refuted : ~ C104_statement.
Proof.
  intro X. destruct C104_torn_refuted as (H & (a' & L & _) & N & _). exact (N (X _ _ _ H _ _ L)).
Qed.
Print Assumptions C104_refuted.

(** A calm history: the loop empties session 0, the reader is attached to session 1, the loop
    goes on there and ends after the stop. *)
Definition calm_hist : list alabel :=
  map AStep (starting (PObj 7) ++ [StreamBufferM.LMk 1 false false true] ++ round 0 (PInt 1) ++ [LIter 0; LStop] ++ finish 0 ++ [LStopRet] ++ starting (PObj 8) ++ round 1 (PInt 4))
  ++ [ABuf 0; AStep (LT 1 (Ok PNone)); AEv] ++ map AStep [LIter 0; LIter 0; LStop].
Definition calmb (c : cfg) (ls : list alabel) : bool :=
  forallb (fun n => match nth_error ls n, ar_run c ar0 (firstn n ls) with
    | Some l, Some a =>
        match ar_hold a with
        | Some (r, _) => match l with AStep (LIter r') | AStep (LCallR r' _) => negb (r' =? r) | AStep LNext => match sb_next (ar_s a) with Some r' => negb (r' =? r) | None => true end | _ => true end
        | None => true end &&
        match l with ABuf r => match nth_error (sb_rds (ar_s a)) r with Some q => match rd_loop q with ItPoll | ItEnd => true | _ => false end | None => true end | _ => true end
    | _, _ => true end) (seq 0 (length ls)).
Lemma calmb_spec c ls : calmb c ls = true -> calm c ls.
Proof.
  intros H pre l post a E Hr. unfold calmb in H. rewrite forallb_forall in H. specialize (H (length pre)). rewrite <- (prefix_firstn _ _ _ E), Hr in H.
  rewrite E, nth_error_app2, Nat.sub_diag in H by lia. cbn [nth_error] in H. specialize (H ltac:(apply in_seq; rewrite app_length; cbn; lia)).
  apply andb_true_iff in H as [H1 H2]. split.
  - intros r j Eh U. rewrite Eh in H1. destruct l as [[]| |]; cbn in U; try contradiction; subst; rewrite ?Nat.eqb_refl in H1; try discriminate. rewrite U, Nat.eqb_refl in H1. discriminate.
  - intros r q -> Hq. rewrite Hq in H2. destruct (rd_loop q); auto; discriminate.
Qed.
Example C104_nonvacuous :
  let a := ar_end cfg3 calm_hist in
  ar_run cfg3 ar0 calm_hist = Some a /\ (exists a', loop_ends cfg3 a 0 a') /\ calm cfg3 (calm_hist ++ [AStep (LIter 0)]) /\
  session_of 0 (sb_tr (ar_s a)) = Some 1 /\ received 0 (sb_tr (ar_s a)) = [PInt 1; PInt 4].
Proof.
  cbn zeta. split; [apply ar_runs_end; vm_compute; reflexivity|]. split; [|split; [apply calmb_spec; vm_compute; reflexivity|split; vm_compute; reflexivity]].
  eexists. split; [vm_compute; reflexivity|]. do 2 eexists. split; [vm_compute; reflexivity|]. split; [vm_compute; reflexivity|]. split; [vm_compute; discriminate|]. split; [vm_compute; discriminate|]. vm_compute. reflexivity.
Qed.
