(** * Changing auto_drop at run time: C108 *)
From Coq Require Import List ZArith Bool Arith Lia.
From Verif Require Import PyVal PyLib PyValFacts SortedDequeM Spec SpecDeque ListFacts DequeFacts DequeSearch
  BufferReaderM BufferSysM LogFacts LogReads LogKeepUp StreamBufferM SpecStream StreamFacts StreamLife StreamInv StreamOrderly StreamView StreamReads StreamMore PropsStreamRead PropsStream AutoDropM.
Import ListNotations.
Open Scope nat_scope.

(** ** Specification *)
Definition ad_history (c : cfg) (xs : list alabel) (A : ad) : Prop := ad_run c (ad0 c) xs = Some A.
(** Restarts find the earlier threads ended (as [orderly]). *)
Fixpoint ad_orderly_from (c : cfg) (A : ad) (xs : list alabel) : Prop :=
  match xs with
  | [] => True
  | x :: q =>
      (sb_start (ad_sb A) = SClear -> (exists o info, x = AStep (LS o info)) -> all_ended (ad_sb A)) /\
      match ad_step c A x with Some A' => ad_orderly_from c A' q | None => True end
  end.
Definition ad_orderly (c : cfg) (xs : list alabel) : Prop := ad_orderly_from c (ad0 c) xs.
Definition no_assignment (xs : list alabel) : Prop := forall v, ~ In (ASet v) xs.
(** The thread of start [j] has decided to read, and has not yet added what it reads. *)
Definition reading (s : sb) (j : nat) : bool :=
  match nth_error (sb_ss s) j with
  | Some e => match se_pc e with TRead | TAppend _ | TPut _ _ => true | _ => false end
  | None => false
  end.
Definition items_of (s : sb) (j : nat) : list pyval := match buf_of s j with Some d => sd_list d | None => [] end.

(** ** Lemmas *)
Lemma ad_run_app c a b : forall A, ad_run c A (a ++ b) = match ad_run c A a with Some M => ad_run c M b | None => None end.
Proof. induction a as [|x a IH]; intro A; cbn [app ad_run]; [reflexivity|]. destruct (ad_step c A x); [apply IH|reflexivity]. Qed.
Lemma ad_run_snoc c a x A A' : ad_run c A (a ++ [x]) = Some A' <-> exists M, ad_run c A a = Some M /\ ad_step c M x = Some A'.
Proof.
  rewrite ad_run_app. destruct (ad_run c A a) as [M|]; cbn [ad_run].
  - destruct (ad_step c M x) eqn:E.
    + split; [intro H; injection H as <-; eauto|]. intros (m' & H & H'). congruence.
    + split; [discriminate|]. intros (m' & H & H'). congruence.
  - split; [discriminate|]. intros (m' & H & H'). discriminate.
Qed.
Lemma ad_orderly_snoc_from c a x : forall A0 A, ad_run c A0 a = Some A -> ad_orderly_from c A0 (a ++ [x]) ->
  ad_orderly_from c A0 a /\ (sb_start (ad_sb A) = SClear -> (exists o v, x = AStep (LS o v)) -> all_ended (ad_sb A)).
Proof.
  induction a as [|y a IH]; intros A0 A H O.
  - injection H as <-. cbn in O. cbn. tauto.
  - cbn in H, O. destruct O as [O1 O2]. destruct (ad_step c A0 y) as [M|] eqn:E; [|discriminate].
    destruct (IH M A H O2) as [P Q]. cbn [ad_orderly_from]. rewrite E. auto.
Qed.
Record ainv (c : cfg) (s : sb) : Prop := {
  ai_s : sinv s; ai_o : oinv s; ai_shape : forall k d, buf_of s k = Some d -> shaped c d; ai_d : dinv s
}.
Lemma ainv_step c a s l s' : ainv c s -> (sb_start s = SClear -> (exists o v, l = LS o v) -> all_ended s) -> sb_step (with_auto c a) s l = Some s' -> ainv c s'.
Proof.
  intros [S O B DI] OC H. constructor; [eapply sinv_step; eauto|eapply oinv_step; eauto| |eapply dinv_step; eauto].
  intros k d E. destruct (step_buf _ _ _ _ S H k) as [[X _]|[(d1 & o & _ & E1 & OP & E2 & _)|(d0 & o & v & _ & _ & _ & _ & D0 & E2 & _)]].
  - apply (B k). congruence.
  - rewrite E2 in E. injection E as <-. apply shaped_step; [|assumption]. eauto.
  - rewrite E2 in E. injection E as <-. apply (shaped_init c). exact D0.
Qed.
Lemma ainv_history c xs : forall A, ad_history c xs A -> ad_orderly c xs -> ainv c (ad_sb A).
Proof.
  induction xs as [|x xs IH] using rev_ind; intros A H O.
  - injection H as <-. constructor.
    + apply sinv0.
    + constructor; [discriminate|]. intros k (p & (e & Ek & _) & _). destruct k; discriminate.
    + intros [|] d; discriminate.
    + intros j n k X. discriminate.
  - unfold ad_history in H. apply ad_run_snoc in H as (M & Hm & Hs). destruct (ad_orderly_snoc_from c xs x _ M Hm O) as [O1 O2].
    specialize (IH M Hm O1). destruct x as [l|v]; cbn in Hs.
    + destruct (sb_step (with_auto c (ad_auto M)) (ad_sb M) l) as [s'|] eqn:E; [|discriminate]. injection Hs as <-. cbn [ad_sb].
      eapply ainv_step; [exact IH| |exact E]. intros SC (o & v & ->). apply O2; eauto.
    + injection Hs as <-. exact IH.
Qed.
Lemma held_own_ad c s i e j : ainv c s -> nth_error (sb_ss s) i = Some e -> (se_pc e = TLen j \/ exists x, se_pc e = TPut j x) -> j = i.
Proof.
  intros [S O _ _] He P. destruct (si_held _ S i e j He P) as (_ & L1 & L2).
  assert (A : alive s i). { apply alive_iff. exists e. split; [assumption|]. destruct P as [->|[x ->]]; reflexivity. }
  pose proof (oi_alive _ O i A) as C. destruct (si_cur _ S i C). lia.
Qed.

(** What a step does to the buffer of start [k], and the events it records. *)
Lemma step_kept c s l s' k : sinv s -> sb_step c s l = Some s' -> exists es, sb_tr s' = sb_tr s ++ es /\
  ((buf_of s' k = buf_of s k /\ forall L, fold_left (kept_step k) es L = L) \/
   (exists i o e x d d' u, l = LT i o /\ nth_error (sb_ss s) i = Some e /\ se_pc e = TPut k x /\ buf_of s k = Some d /\ sd_append d x = (d', u) /\ buf_of s' k = Some d' /\
      forall L, fold_left (kept_step k) es L = match u with Ok _ => L ++ [x] | Raise _ => L end) \/
   (exists m d n, l = LDropDo m /\ buf_of s k = Some d /\ buf_of s' k = Some (fst (sd_drop d n)) /\ forall L, fold_left (kept_step k) es L = skipn (Z.to_nat n) L) \/
   (buf_of s k = None /\ items_of s' k = [] /\ forall L, fold_left (kept_step k) es L = L)).
Proof.
  intros I H. pose proof (si_new _ I) as I3. unfold items_of, buf_of in *.
  step_cases H; injection H as <-; proj; unfold new_rdr, log, buf_of in *; proj; rewrite <- ?app_assoc; (eexists; split; [first [reflexivity|symmetry; apply app_nil_r]|]);
    cbn [app fold_left kept_step]; rewrite ?buf_upd_id by reflexivity; try (left; split; [reflexivity|intro; reflexivity]; fail).
  - (* new session *)
    left. split; [|reflexivity]. rewrite nth_snoc. destruct (Nat.ltb_spec k (length (sb_ss s))); [reflexivity|].
    replace (nth_error (sb_ss s) k) with (@None sess) by (symmetry; apply nth_error_None; lia).
    now destruct (Nat.eqb k (length (sb_ss s))).
  - rewrite buf_upd. destruct (Nat.eqb_spec (latest s) k) as [<-|N]; [|left; auto]. do 3 right.
    rewrite E0 in I3. destruct I3 as (e & He & _ & Hb). rewrite He, Hb. cbn. parts; auto.
    match goal with X : sd_init _ _ _ = Ok _ |- _ => destruct (init_empty _ _ _ X) as (_ & X9 & _) end. unfold sd_list. now rewrite X9.
  - match goal with |- context [upd (sb_ss s) ?j0 _] => rewrite buf_upd; destruct (Nat.eqb_spec j0 k) as [->|N]; [|left; auto] end.
    right. right. left. match goal with X : match nth_error (sb_ss s) k with _ => _ end = Some ?d9, Y : sd_drop ?d9 ?n9 = _ |- _ =>
      destruct (nth_error (sb_ss s) k) as [e|] eqn:En; [|discriminate]; exists k0, d9, n9; cbn [w_buf se_buf]; rewrite Y end. auto.
  - match goal with |- context [upd (sb_ss s) ?j0 (fun e => w_buf e _)] => rewrite buf_upd; destruct (Nat.eqb_spec j0 k) as [->|N]; [|left; split; [reflexivity|]; intro L; now destruct r] end.
    right. left. match goal with X : match nth_error (sb_ss s) k with _ => _ end = Some ?d9, Y : sd_append ?d9 ?x9 = (?d8, ?u9), P : nth_error (sb_ss s) ?i9 = Some ?e9, Q : se_pc ?e9 = TPut k ?x9 |- _ =>
      exists i9, o, e9, x9, d9, d8, u9; destruct (nth_error (sb_ss s) k) as [e|] eqn:En; [|discriminate]; cbn [w_buf se_buf] end. parts; auto.
Qed.
Lemma skipn_skipn_comm {A} (l : list A) a b : skipn a (skipn b l) = skipn b (skipn a l).
Proof. rewrite !skipn_skipn. f_equal. lia. Qed.
Lemma append_loses_one c d x d' : shaped c d -> sd_append d x = (d', Ok tt) ->
  sd_list d' = sd_list d ++ [x] \/ sd_list d' = skipn 1 (sd_list d ++ [x]).
Proof.
  intros (C & K & B & M) H. destruct (append_cases d x) as [(k & _ & _ & E)|(e & E)]; rewrite E in H; [|discriminate].
  injection H as <-. unfold sd_list. cbn [sd_items]. rewrite newest_snoc by assumption. destruct (sd_bound d) as [m|] eqn:Eb; [|left; reflexivity].
  specialize (M m eq_refl). unfold newest, last_n. rewrite !app_length. cbn [length].
  assert (D : length (sd_items d) + 1 - m = 0 \/ length (sd_items d) + 1 - m = 1) by lia.
  destruct D as [D|D]; rewrite D; [left|right]; reflexivity.
Qed.

(** Room: as long as a thread that asked under auto_drop=False is reading, there is some. *)
Definition room_for (c : cfg) (s : sb) (j : nat) : Prop :=
  reading s j = true -> forall d m, buf_of s j = Some d -> c_maxlen c = Some m -> (Z.of_nat (len_seen s j d) < m)%Z.
(** The state of the buffer of start [j], relative to what it would hold if nothing was lost:
    nothing is lost yet, by a thread that was already reading; or at most [b] items are, and
    the thread has made sure of room. *)
Definition since_switch (c : cfg) (s : sb) (j : nat) (b : nat) (L : list pyval) : Prop :=
  (items_of s j = L /\ reading s j = true /\ b = 1) \/
  (exists m, m <= b /\ m <= length L /\ items_of s j = skipn m L /\ room_for c s j).
Lemma switch_step c a s l s' j b L : is_True a = false -> ainv c s -> b <= 1 -> sb_step (with_auto c a) s l = Some s' ->
  since_switch c s j b L -> exists es, sb_tr s' = sb_tr s ++ es /\ since_switch c s' j b (fold_left (kept_step j) es L).
Proof.
  intros AU I B1 H SW. pose proof (ai_s _ _ I) as SI. destruct (step_kept _ s l s' j SI H) as (es & Et & K). exists es. split; [assumption|].
  (* where the thread of start j is *)
  assert (BACK : reading s' j = true -> (reading s j = true /\ ((exists o, l = LT j o) \/ forall o, l <> LT j o)) \/
     (exists o e d m, l = LT j o /\ nth_error (sb_ss s) j = Some e /\ se_pc e = TLen j /\ buf_of s j = Some d /\ c_maxlen c = Some m /\ (Z.of_nat (len_seen s j d) < m)%Z /\ sb_tr s' = sb_tr s /\ buf_of s' j = buf_of s j)).
  { unfold reading. destruct (nth_error (sb_ss s') j) as [e'|] eqn:He'; [|discriminate]. intro RD.
    destruct (step_new _ _ _ _ H j e' He') as [(e & He)|(_ & -> & _)]; [|discriminate]. rewrite He.
    destruct (thread_case l j) as [[o ->]|N].
    - destruct (thread_move _ _ _ _ _ _ H He) as (e1 & H1 & MV). assert (e1 = e') by congruence. subst e1.
      destruct (se_pc e) eqn:Ep; try (destruct MV; fail); try (left; split; [reflexivity|eauto]; fail).
      + rewrite MV in RD. destruct (running s); discriminate.
      + cbn [with_auto c_auto] in MV. destruct MV as [[X _]|[[_ [y MV]]|(_ & j0 & C2 & MV)]]; [congruence|rewrite MV in RD; discriminate..].
      + destruct MV as [[y MV]|(d2 & m2 & B2 & M2 & MV)]; [rewrite MV in RD; discriminate|]. cbn [with_auto c_maxlen] in M2.
        pose proof (held_own_ad c s j e j0 I He (or_introl Ep)) as ->. destruct (Z.ltb_spec (Z.of_nat (len_seen s j d2)) m2); [|rewrite MV in RD; discriminate].
        right. exists o, e, d2, m2. parts; auto.
        * cbn in H. rewrite He, Ep in H. cbn in H. rewrite M2, B2 in H. injection H as <-. reflexivity.
        * cbn in H. rewrite He, Ep in H. cbn in H. rewrite M2, B2 in H. injection H as <-. unfold buf_of, set_tpc. proj. apply buf_upd_id. reflexivity.
      + destruct o; rewrite MV in RD; discriminate.
      + rewrite MV in RD. destruct (running s); discriminate.
      + destruct MV as [MV _]. rewrite MV in RD. discriminate.
      + rewrite MV in RD. discriminate.
    - destruct (step_frame _ _ _ _ H j e He) as (e1 & H1 & Q & _). assert (e1 = e') by congruence. subst e1.
      destruct Q as [Q|[[o ->]|(_ & _ & Q & _)]]; [|exfalso; eapply N; reflexivity|rewrite Q in RD; discriminate].
      left. rewrite <- Q. auto. }
  destruct K as [[BE KE]|[(i & o & e & x & d & d' & u & -> & He & Pe & Bd & AP & Bd' & KE)|[(m0 & d & n & -> & Bd & Bd' & KE)|(BN & IN & KE)]]].
  - (* the buffer is untouched *)
    rewrite KE. assert (IT : items_of s' j = items_of s j) by (unfold items_of; now rewrite BE).
    destruct SW as [(E & RD & Eb)|(m & Lm & LL & E & RM)].
    + destruct (reading s' j) eqn:RD'.
      * left. rewrite IT. auto.
      * right. exists 0. split; [lia|]. split; [lia|]. split; [rewrite IT; exact E|]. unfold room_for. rewrite RD'. discriminate.
    + right. exists m. split; [assumption|]. split; [assumption|]. split; [now rewrite IT|]. intros RD' d m9 Ed Em. rewrite BE in Ed.
      destruct (BACK RD') as [[RD _]|(o & e & d2 & m2 & EL2 & _ & _ & B2 & M2 & LT2 & _)]; [|].
      * specialize (RM RD d m9 Ed Em). enough (len_seen s' j d <= len_seen s j d) by lia.
        destruct (match l with LDropDo _ => true | _ => false end) eqn:EL; [destruct l; try discriminate; eapply (seen_drop _ c); [exact (ai_d _ _ I)|eapply (ai_shape _ _ I); eauto|exact H|assumption|congruence]|].
        eapply seen_same; [exact H|]. intros m1 ->. discriminate.
      * assert (d2 = d) by congruence. assert (m2 = m9) by congruence. subst d2 m2. pose proof (seen_same _ s l s' j d H) as LS. rewrite EL2 in LS. specialize (LS ltac:(discriminate)). lia.
  - (* an append, by the thread of this start *)
    pose proof (held_own_ad c s i e j I He (or_intror (ex_intro _ x Pe))) as <-.
    assert (SH : shaped c d) by (eapply (ai_shape _ _ I); eauto).
    assert (RD : reading s j = true) by (unfold reading; rewrite He, Pe; reflexivity).
    assert (RD' : reading s' j = false).
    { destruct (thread_move _ _ _ _ _ _ H He) as (e1 & H1 & MV). unfold reading. rewrite H1. rewrite Pe in MV. destruct MV as [MV|[y MV]]; rewrite MV; reflexivity. }
    assert (RM' : room_for c s' j) by (unfold room_for; rewrite RD'; discriminate).
    assert (IT : items_of s j = sd_list d) by (unfold items_of; now rewrite Bd). assert (IT' : items_of s' j = sd_list d') by (unfold items_of; now rewrite Bd').
    right. rewrite KE. destruct u as [[]|y].
    + destruct SW as [(E & _ & ->)|(m & Lm & LL & E & RM)].
      * destruct (append_loses_one c d x d' SH AP) as [X|X]; [exists 0|exists 1]; (split; [lia|]; split; [rewrite ?app_length; cbn [length]; lia|]; split; [|exact RM']); rewrite IT', X; rewrite <- E, IT; reflexivity.
      * exists m. split; [assumption|]. split; [rewrite app_length; lia|]. split; [|exact RM']. rewrite IT'.
        assert (X : sd_list d' = sd_list d ++ [x]).
        { destruct (c_maxlen c) as [m9|] eqn:Em; [eapply append_room; eauto; specialize (RM RD d m9 Bd Em); unfold len_seen in RM; rewrite gone_none, Nat.sub_0_r in RM; [exact RM|]; cbn in H; rewrite He, Pe in H; cbn in H; now destruct (dropping s j)|].
          destruct SH as (C & K & B & M). destruct (append_cases d x) as [(k & _ & _ & E9)|(e9 & E9)]; rewrite E9 in AP; [|discriminate].
          injection AP as <-. unfold sd_list. cbn [sd_items]. rewrite newest_snoc by assumption. rewrite B, Em. reflexivity. }
        rewrite X, <- IT, E. rewrite skipn_app.
        replace (m - length L) with 0 by lia. reflexivity.
    + assert (d' = d) as ->. { destruct (append_cases d x) as [(k & _ & _ & E9)|(e9 & E9)]; rewrite E9 in AP; [discriminate|]. congruence. }
      destruct SW as [(E & _ & ->)|(m & Lm & LL & E & RM)]; [exists 0|exists m]; (split; [lia|]; split; [rewrite ?app_length; cbn [length]; lia|]; split; [|exact RM']); rewrite IT', <- IT; exact E.
  - (* drop() *)
    assert (SH : shaped c d) by (eapply (ai_shape _ _ I); eauto). assert (IT : items_of s j = sd_list d) by (unfold items_of; now rewrite Bd).
    assert (IT' : items_of s' j = skipn (Z.to_nat n) (items_of s j)) by (rewrite IT; unfold items_of; rewrite Bd'; rewrite drop_spec by apply SH; reflexivity).
    rewrite KE. destruct SW as [(E & RD & Eb)|(m & Lm & LL & E & RM)].
    + destruct (reading s' j) eqn:RD'.
      * left. rewrite IT', E. auto.
      * right. exists 0. split; [lia|]. split; [lia|]. split; [rewrite IT', E; reflexivity|]. unfold room_for. rewrite RD'. discriminate.
    + right. exists (min m (length (skipn (Z.to_nat n) L))). split; [lia|]. split; [lia|]. split.
      * rewrite IT', E, skipn_skipn_comm. destruct (Nat.le_gt_cases m (length (skipn (Z.to_nat n) L))) as [G|G].
        -- now rewrite Nat.min_l by assumption.
        -- rewrite Nat.min_r by lia. rewrite !skipn_all2 by lia. reflexivity.
      * intros RD' d9 m9 Ed Em. rewrite Bd' in Ed. injection Ed as <-. destruct (BACK RD') as [[RD _]|(o & _ & _ & _ & X & _)]; [|discriminate].
        specialize (RM RD d m9 Bd Em). pose proof (seen_drop _ c s m0 s' j d _ (ai_d _ _ I) SH H Bd Bd'). lia.
  - (* the buffer is made *)
    rewrite KE. assert (IT : items_of s j = []) by (unfold items_of; now rewrite BN).
    assert (RD' : reading s' j = true -> False).
    { intro RD'. destruct (BACK RD') as [[RD _]|(o & e & d2 & m2 & _ & _ & _ & B2 & _)]; [|congruence].
      unfold reading in RD. destruct (nth_error (sb_ss s) j) as [e|] eqn:He; [|discriminate].
      assert (A : alive s j) by (apply alive_iff; exists e; split; [exact He|]; destruct (se_pc e); try discriminate RD; reflexivity).
      pose proof (oi_alive _ (ai_o _ _ I) j A) as C. destruct (si_cur _ SI j C) as [_ [d9 D9]]. congruence. }
    right. destruct SW as [(E & _ & _)|(m & Lm & LL & E & RM)].
    + exists 0. split; [lia|]. split; [lia|]. split; [rewrite IN, <- E; symmetry; exact IT|]. intro X. destruct (RD' X).
    + exists m. split; [lia|]. split; [lia|]. split; [rewrite IN, <- E; symmetry; exact IT|]. intro X. destruct (RD' X).
Qed.

(** ** C108 *)
(** drop() goes by the value of the moment. *)
Theorem C108_drop_now :
  forall c A n, exists A', ad_step c A (AStep (StreamBufferM.LDrop n)) = Some A' /\ sb_ss (ad_sb A') = sb_ss (ad_sb A) /\ ad_auto A' = ad_auto A /\
  (ad_auto A = PBool true -> sb_tr (ad_sb A') = sb_tr (ad_sb A) ++ [EDrop None n (Raise RuntimeError)] /\ sb_dr (ad_sb A') = sb_dr (ad_sb A)) /\
  (ad_auto A <> PBool true ->
     match sb_cur (ad_sb A) with
     | Some j => sb_dr (ad_sb A') = sb_dr (ad_sb A) ++ [(j, n)] /\ sb_tr (ad_sb A') = sb_tr (ad_sb A)
     | None => sb_tr (ad_sb A') = sb_tr (ad_sb A) ++ [EDrop None n (Raise AttributeError)]
     end).
Proof.
  intros c A n. pose proof (is_True_iff (ad_auto A)) as [T1 T2].
  cbn [ad_step sb_step with_auto c_auto]. destruct (is_True (ad_auto A)); [|destruct (sb_cur (ad_sb A)) as [j|]]; (eexists; split; [reflexivity|]); cbn;
    (split; [reflexivity|]; split; [reflexivity|]; split; [intro X; try (discriminate (T2 X))|intro X; try (now elim X; apply T1)]); auto.
Qed.
Print Assumptions C108_drop_now.
(** The value of the moment is the one last assigned, or that given to [__init__]; and a stream
    whose auto_drop nobody assigns behaves as if it could not be assigned. *)
Definition assigned (xs : list alabel) : list pyval := flat_map (fun x => match x with ASet v => [v] | AStep _ => [] end) xs.
Theorem C108_value :
  forall c xs A, ad_history c xs A -> ad_auto A = last (assigned xs) (c_auto c).
Proof.
  intros c xs A H. assert (G : forall xs A0, ad_run c A0 xs = Some A -> ad_auto A = last (assigned xs) (ad_auto A0)).
  { clear xs H. induction xs as [|x xs IH]; intros A0 H; cbn in H; [injection H as <-; reflexivity|].
    destruct (ad_step c A0 x) as [M|] eqn:E; [|discriminate]. rewrite (IH M H). destruct x as [l|v]; cbn in E.
    - destruct (sb_step _ _ l); [|discriminate]. injection E as <-. reflexivity.
    - injection E as <-. cbn [assigned flat_map app ad_auto]. fold (assigned xs). destruct (assigned xs) as [|w ws]; [reflexivity|].
      change (last (w :: ws) v = last (w :: ws) (ad_auto A0)). clear. revert w. induction ws as [|u ws IH]; intro w; [reflexivity|exact (IH u)]. }
  apply (G xs (ad0 c) H).
Qed.
Print Assumptions C108_value.
Theorem C108_never_assigned :
  forall c ls s, history c ls s <-> ad_history c (map AStep ls) (MkAd s (c_auto c)).
Proof.
  intros c ls s. assert (E : with_auto c (c_auto c) = c) by (destruct c; reflexivity).
  assert (G : forall ls s0, ad_run c (MkAd s0 (c_auto c)) (map AStep ls) = match sb_run c s0 ls with Some s' => Some (MkAd s' (c_auto c)) | None => None end).
  { clear ls s. induction ls as [|l ls IH]; intro s0; [reflexivity|]. cbn [map ad_run ad_step sb_run ad_auto ad_sb]. rewrite E. destruct (sb_step c s0 l); [apply IH|reflexivity]. }
  unfold history, ad_history, ad0. rewrite G. destruct (sb_run c sb0 ls); split; intro H; congruence.
Qed.
Print Assumptions C108_never_assigned.

(** Once auto_drop is not True: of everything the buffer held then and was given since, minus
    what was dropped, at most the one oldest item is missing; and none, if the thread was not
    already past its look at auto_drop. *)
Theorem C108_switched_off_partial :
  forall c xs A xs' A', ad_history c xs A -> ad_run c A xs' = Some A' -> ad_orderly c (xs ++ xs') ->
  ad_auto A <> PBool true -> no_assignment xs' -> forall j,
  exists es m, sb_tr (ad_sb A') = sb_tr (ad_sb A) ++ es /\
  items_of (ad_sb A') j = skipn m (fold_left (kept_step j) es (items_of (ad_sb A) j)) /\
  m <= (if reading (ad_sb A) j then 1 else 0).
Proof.
  intros c xs A xs' A' H R O AU NA j. apply is_True_f in AU. set (b := if reading (ad_sb A) j then 1 else 0).
  assert (B1 : b <= 1) by (unfold b; destruct (reading (ad_sb A) j); lia).
  enough (G : ad_auto A' = ad_auto A /\ exists es, sb_tr (ad_sb A') = sb_tr (ad_sb A) ++ es /\ since_switch c (ad_sb A') j b (fold_left (kept_step j) es (items_of (ad_sb A) j))).
  { destruct G as (_ & es & E & SW). exists es. destruct SW as [(X & _ & Y)|(m & Lm & _ & X & _)]; [exists 0|exists m]; auto with arith. }
  revert A' R O NA. induction xs' as [|x q IH] using rev_ind; intros A' R O NA.
  - injection R as <-. split; [reflexivity|]. exists []. split; [symmetry; apply app_nil_r|]. cbn [fold_left]. unfold since_switch, b, room_for. destruct (reading (ad_sb A) j); [left; auto|right; exists 0; parts; auto with arith; discriminate].
  - apply ad_run_snoc in R as (M & Hm & Hs). rewrite app_assoc in O.
    assert (HM : ad_history c (xs ++ q) M) by (unfold ad_history in *; rewrite ad_run_app, H; exact Hm).
    destruct (ad_orderly_snoc_from c (xs ++ q) x _ M HM O) as [O1 _].
    assert (NQ : no_assignment q) by (intros v X; apply (NA v), in_or_app; auto).
    destruct (IH M Hm O1 NQ) as (EA & es & Et & SW). destruct x as [l|v]; [|exfalso; apply (NA v), in_or_app; right; now left].
    cbn in Hs. destruct (sb_step (with_auto c (ad_auto M)) (ad_sb M) l) as [s'|] eqn:E; [|discriminate]. injection Hs as <-. cbn [ad_sb ad_auto]. split; [exact EA|].
    destruct (switch_step c (ad_auto M) (ad_sb M) l s' j b _ ltac:(now rewrite EA) (ainv_history c _ M HM O1) B1 E SW) as (es2 & Et2 & SW2).
    exists (es ++ es2). split; [rewrite Et2, Et; now rewrite app_assoc|]. rewrite fold_left_app. exact SW2.
Qed.
Print Assumptions C108_switched_off_partial.

(** Once auto_drop is True a full buffer keeps no thread waiting: within five steps of its own
    a thread reads the source again, or is on its way out (stopped, or an exception). *)
Definition ending (p : tpc) : Prop := match p with TFinCheck _ | TFinSet _ | TClose _ | TDone _ => True | _ => False end.
Definition own_asteps (i : nat) (xs : list alabel) : nat := length (filter (fun x => match x with AStep (LT k _) => Nat.eqb k i | _ => false end) xs).
Definition to_go (p : tpc) : nat :=
  match p with TRead => 1 | TGate => 2 | TCheck | TNew => 3 | TSleep | TPut _ _ => 4 | TAppend _ | TLen _ => 5 | _ => 0 end.
Lemma to_go_step c s l s' i : StreamFacts.sinv s -> is_True (c_auto c) = true -> sb_step c s l = Some s' ->
  (exists o, sb_tr s' = sb_tr s ++ [ERead i o]) \/ ending (tpc_of s' i) \/
  to_go (tpc_of s' i) + (match l with LT k _ => if Nat.eqb k i then 1 else 0 | _ => 0 end) <= to_go (tpc_of s i).
Proof.
  intros SI AU H. destruct (thread_case l i) as [[o ->]|N].
  - rewrite Nat.eqb_refl. destruct (nth_error (sb_ss s) i) as [e|] eqn:He; [|cbn in H; rewrite He in H; discriminate].
    destruct (thread_move _ _ _ _ _ _ H He) as (e' & He' & MV). unfold tpc_of. rewrite He, He'.
    destruct (se_pc e) eqn:Ep; try (destruct MV; fail).
    + rewrite MV. destruct (running s); cbn; auto.
    + destruct MV as [[_ ->]|[[X _]|(X & _)]]; [cbn; auto|congruence..].
    + destruct MV as [[x ->]|(d & m & _ & _ & ->)]; [cbn; auto|]. destruct (_ <? _)%Z; cbn; auto with arith.
    + left. exists o. cbn in H. rewrite He, Ep in H. cbn in H. destruct o; injection H as <-; reflexivity.
    + destruct MV as [[x0 ->]|(j & _ & ->)]; cbn; auto.
    + destruct MV as [->|[x0 ->]]; cbn; auto.
    + destruct o; rewrite MV; cbn; auto.
    + rewrite MV. destruct (running s); cbn; auto.
    + destruct MV as [-> _]. cbn. auto.
    + rewrite MV. cbn. auto.
  - right. assert (Z : (match l with LT k _ => if Nat.eqb k i then 1 else 0 | _ => 0 end) = 0).
    { destruct l as [| | | | | | | | | | | | | |k o]; try reflexivity. destruct (Nat.eqb_spec k i); [subst; exfalso; eapply N; reflexivity|reflexivity]. }
    rewrite Z, Nat.add_0_r. unfold tpc_of. destruct (nth_error (sb_ss s') i) as [e'|] eqn:He'.
    + destruct (step_new _ _ _ _ H i e' He') as [(e & He)|(L & -> & _)].
      * rewrite He. destruct (step_frame _ _ _ _ H i e He) as (e1 & H1 & Q & _). assert (e1 = e') by congruence. subst e1.
        destruct Q as [Q|[[o ->]|(Q1 & Q2 & Q3 & o & v & ->)]]; [rewrite Q; auto|exfalso; eapply N; reflexivity|].
        right. rewrite Q3. pose proof (si_new _ SI) as X. rewrite Q1 in X. destruct X as (e2 & X1 & X2). rewrite <- Q2 in X1.
        assert (e2 = e) by congruence. subst e2. rewrite X2. cbn. auto.
      * replace (nth_error (sb_ss s) i) with (@None sess) by (symmetry; apply nth_error_None; lia). auto.
    + destruct (nth_error (sb_ss s) i) as [e|] eqn:He; [|auto]. destruct (step_frame _ _ _ _ H i e He) as (e1 & H1 & _). congruence.
Qed.
Lemma ending_stays c s l s' i : StreamFacts.sinv s -> sb_step c s l = Some s' -> ending (tpc_of s i) -> ending (tpc_of s' i).
Proof.
  intros SI H E. unfold tpc_of in *. destruct (nth_error (sb_ss s) i) as [e|] eqn:He; [|destruct E].
  destruct (thread_case l i) as [[o ->]|N].
  - destruct (thread_move _ _ _ _ _ _ H He) as (e' & -> & MV). destruct (se_pc e) eqn:Ep; try (destruct E; fail).
    + rewrite MV. destruct (running s); exact Logic.I.
    + destruct MV as [-> _]. exact Logic.I.
    + rewrite MV. exact Logic.I.
    + destruct MV.
  - destruct (step_frame _ _ _ _ H i e He) as (e1 & -> & Q & _). destruct Q as [->|[[o ->]|(Q1 & Q2 & Q3 & _)]]; [exact E|exfalso; eapply N; reflexivity|].
    exfalso. pose proof (si_new _ SI) as X. rewrite Q1 in X. destruct X as (e2 & X1 & X2). rewrite <- Q2 in X1.
    assert (e2 = e) by congruence. subst e2. rewrite X2 in E. exact E.
Qed.
Lemma ad_sinv c xs : forall A0 A, StreamFacts.sinv (ad_sb A0) -> ad_run c A0 xs = Some A -> StreamFacts.sinv (ad_sb A).
Proof.
  induction xs as [|x xs IH]; intros A0 A I H; cbn in H; [injection H as <-; exact I|]. destruct (ad_step c A0 x) as [M|] eqn:E; [|discriminate].
  eapply IH; [|exact H]. destruct x as [l|v]; cbn in E; [|injection E as <-; exact I].
  destruct (sb_step _ _ l) as [s'|] eqn:E1; [|discriminate]. injection E as <-. eapply sinv_step; eauto.
Qed.
Theorem C108_switched_on :
  forall c xs A xs' A' i, ad_history c xs A -> ad_run c A xs' = Some A' ->
  ad_auto A = PBool true -> no_assignment xs' -> 5 <= own_asteps i xs' ->
  exists es, sb_tr (ad_sb A') = sb_tr (ad_sb A) ++ es /\ ((exists o, In (ERead i o) es) \/ ending (tpc_of (ad_sb A') i)).
Proof.
  intros c xs A xs' A' i H R AU NA L. rewrite <- is_True_iff in AU. assert (SI0 : StreamFacts.sinv (ad_sb A)) by (eapply ad_sinv; [|exact H]; apply sinv0).
  enough (G : ad_auto A' = ad_auto A /\ exists es, sb_tr (ad_sb A') = sb_tr (ad_sb A) ++ es /\
            ((exists o, In (ERead i o) es) \/ ending (tpc_of (ad_sb A') i) \/ to_go (tpc_of (ad_sb A') i) + own_asteps i xs' <= 5)).
  { destruct G as (_ & es & E & [G|[G|G]]); exists es; (split; [exact E|]); auto. right. destruct (tpc_of (ad_sb A') i); cbn in *; auto; lia. }
  clear L. revert A' R NA. induction xs' as [|x q IH] using rev_ind; intros A' R NA.
  - injection R as <-. split; [reflexivity|]. exists []. split; [symmetry; apply app_nil_r|]. right. right. destruct (tpc_of (ad_sb A) i); cbn; lia.
  - apply ad_run_snoc in R as (M & Hm & Hs). assert (NQ : no_assignment q) by (intros v X; apply (NA v), in_or_app; auto).
    destruct (IH M Hm NQ) as (EA & es & Et & G). destruct x as [l|v]; [|exfalso; apply (NA v), in_or_app; right; now left].
    assert (SM : StreamFacts.sinv (ad_sb M)) by (eapply ad_sinv; [exact SI0|exact Hm]).
    cbn in Hs. destruct (sb_step (with_auto c (ad_auto M)) (ad_sb M) l) as [s'|] eqn:E; [|discriminate]. injection Hs as <-. cbn [ad_sb ad_auto]. split; [exact EA|].
    destruct (step_kept _ _ _ _ i SM E) as (es2 & Et2 & _). exists (es ++ es2). split; [rewrite Et2, Et; now rewrite app_assoc|].
    destruct G as [[o G]|[G|G]].
    + left. exists o. apply in_or_app. auto.
    + right. left. eapply ending_stays; eauto.
    + assert (AUM : is_True (ad_auto M) = true) by now rewrite EA.
      destruct (to_go_step (with_auto c (ad_auto M)) _ _ _ i SM AUM E) as [[o X]|[X|X]]; [|auto|].
      * left. exists o. apply in_or_app. right. rewrite X in Et2. apply app_inv_head in Et2. rewrite <- Et2. now left.
      * right. right. unfold own_asteps in *. rewrite filter_app, app_length. cbn [filter]. destruct l; cbn [length] in *; try lia. destruct (Nat.eqb i0 i); cbn [length] in *; lia.
Qed.
Print Assumptions C108_switched_on.

(** ** Concrete histories *)
Definition ad_end (c : cfg) (xs : list alabel) : ad := match ad_run c (ad0 c) xs with Some A => A | None => ad0 c end.
Definition ad_runs (c : cfg) (xs : list alabel) : bool := match ad_run c (ad0 c) xs with Some _ => true | None => false end.
Lemma ad_at_end c xs : ad_runs c xs = true -> ad_history c xs (ad_end c xs).
Proof. unfold ad_runs, ad_end, ad_history. destruct (ad_run c (ad0 c) xs); [reflexivity|discriminate]. Qed.
Fixpoint ad_orderlyb (c : cfg) (A : ad) (xs : list alabel) : bool :=
  match xs with
  | [] => true
  | x :: q => match sb_start (ad_sb A) with SClear => forallb (fun e => negb (live (se_pc e))) (sb_ss (ad_sb A)) | _ => true end &&
              match ad_step c A x with Some A' => ad_orderlyb c A' q | None => true end
  end.
Lemma ad_orderlyb_ok c xs : forall A, ad_orderlyb c A xs = true -> ad_orderly_from c A xs.
Proof.
  induction xs as [|x q IH]; intros A H; [exact Logic.I|]. cbn [ad_orderlyb] in H. apply andb_true_iff in H as [H1 H2]. cbn [ad_orderly_from]. split.
  - intros SC _ k AL. apply alive_iff in AL as (e & He & Le). rewrite SC in H1. rewrite forallb_forall in H1. specialize (H1 e (nth_error_In _ _ He)). now rewrite Le in H1.
  - destruct (ad_step c A x); auto.
Qed.
Definition asteps (ls : list label) : list alabel := map AStep ls.
(** A buffer of two items, auto_drop True; two items are in it, and the thread is at the gate. *)
Definition two_auto : cfg := MkCfg ident (Some 2%Z) (PBool true).
Definition filled : list alabel := asteps (starting (PObj 7) ++ round 0 (PInt 1) ++ round 0 (PInt 2)).
(** Switched off at that point: the thread waits, and nothing is lost until drop() is called. *)
Definition off_in_time : list alabel := asteps [LT 0 (Ok PNone); LT 0 (Ok PNone); LT 0 (Ok PNone); LT 0 (Ok PNone); StreamBufferM.LDrop 1; LDropDo 0; LT 0 (Ok PNone); LT 0 (Ok PNone); LT 0 (Ok PNone); LT 0 (Ok (PInt 3)); LT 0 (Ok PNone); LT 0 (Ok PNone)].
Example C108_off_nonvacuous :
  let A := ad_end two_auto (filled ++ [ASet (PBool false)]) in let A' := ad_end two_auto (filled ++ [ASet (PBool false)] ++ off_in_time) in
  ad_history two_auto (filled ++ [ASet (PBool false)]) A /\ ad_run two_auto A off_in_time = Some A' /\ ad_orderly two_auto ((filled ++ [ASet (PBool false)]) ++ off_in_time) /\
  ad_auto A <> PBool true /\ no_assignment off_in_time /\ reading (ad_sb A) 0 = false /\ items_of (ad_sb A) 0 = [PInt 1; PInt 2] /\ items_of (ad_sb A') 0 = [PInt 2; PInt 3].
Proof.
  cbn zeta. split; [apply ad_at_end; vm_compute; reflexivity|]. split; [vm_compute; reflexivity|]. split; [apply ad_orderlyb_ok; vm_compute; reflexivity|].
  split; [vm_compute; discriminate|]. split; [|split; [vm_compute; reflexivity|split; vm_compute; reflexivity]].
  intros v X. vm_compute in X. repeat (destruct X as [X|X]; [discriminate X|]). destruct X.
Qed.
(** Switched on while the thread of a full buffer waits: it reads again in five steps. *)
Definition waiting_then_on : list alabel := asteps (full_hist ++ [LT 0 (Ok PNone); LT 0 (Ok PNone)]) ++ [ASet (PBool true)].
Definition five_steps : list alabel := asteps [LT 0 (Ok PNone); LT 0 (Ok PNone); LT 0 (Ok PNone); LT 0 (Ok PNone); LT 0 (Ok (PInt 4))].
Example C108_on_nonvacuous :
  let A := ad_end cfg_man waiting_then_on in let A' := ad_end cfg_man (waiting_then_on ++ five_steps) in
  ad_history cfg_man waiting_then_on A /\ ad_run cfg_man A five_steps = Some A' /\ ad_auto A = PBool true /\ no_assignment five_steps /\ own_asteps 0 five_steps = 5 /\
  length (items_of (ad_sb A) 0) = 2 /\ sb_tr (ad_sb A') = sb_tr (ad_sb A) ++ [ERead 0 (Ok (PInt 4))].
Proof.
  cbn zeta. split; [apply ad_at_end; vm_compute; reflexivity|]. split; [vm_compute; reflexivity|]. split; [vm_compute; reflexivity|]. split.
  - intros v X. vm_compute in X. repeat (destruct X as [X|X]; [discriminate X|]). destruct X.
  - split; [reflexivity|]. split; vm_compute; reflexivity.
Qed.
(** A thread that has decided to read while auto_drop was True still pushes out one item after
    the assignment auto_drop = False: that is all that [C108_switched_off_partial] lacks. *)
Theorem C108_one_lost_refuted :
  exists c xs A xs' A', ad_history c xs A /\ ad_run c A xs' = Some A' /\ ad_orderly c (xs ++ xs') /\ ad_auto A = PBool false /\ no_assignment xs' /\
  items_of (ad_sb A) 0 = [PInt 1; PInt 2] /\ items_of (ad_sb A') 0 = [PInt 2; PInt 3] /\
  (forall m n x, ~ In (EDrop m n x) (sb_tr (ad_sb A'))).
Proof.
  exists two_auto, (filled ++ asteps [LT 0 (Ok PNone); LT 0 (Ok PNone)] ++ [ASet (PBool false)]), (ad_end two_auto (filled ++ asteps [LT 0 (Ok PNone); LT 0 (Ok PNone)] ++ [ASet (PBool false)])),
    (asteps [LT 0 (Ok (PInt 3)); LT 0 (Ok PNone); LT 0 (Ok PNone)]). eexists.
  split; [apply ad_at_end; vm_compute; reflexivity|]. split; [vm_compute; reflexivity|]. split; [apply ad_orderlyb_ok; vm_compute; reflexivity|].
  split; [vm_compute; reflexivity|]. split; [intros v X; vm_compute in X; repeat (destruct X as [X|X]; [discriminate X|]); destruct X|].
  split; [vm_compute; reflexivity|]. split; [vm_compute; reflexivity|]. intros m n x X. vm_compute in X. repeat (destruct X as [X|X]; [discriminate X|]). destruct X.
Qed.
Print Assumptions C108_one_lost_refuted.
