(** * Invariants of StreamBuffer *)
From Coq Require Import List ZArith Bool Arith Lia.
From Verif Require Import PyVal PyLib PyValFacts SortedDequeM Spec SpecDeque DequeFacts DequeSearch
  BufferReaderM BufferSysM LogFacts LogReads StreamBufferM SpecStream.
Import ListNotations.

Lemma is_True_iff v : is_True v = true <-> v = PBool true.
Proof. destruct v as [|[]| | | | | |]; cbn; split; congruence. Qed.
Lemma is_True_f v : v <> PBool true -> is_True v = false.
Proof. intro N. destruct (is_True v) eqn:E; [|reflexivity]. now apply is_True_iff in E. Qed.
Lemma nth_upd {A} (l : list A) i f j :
  nth_error (upd l i f) j = if Nat.eqb i j then option_map f (nth_error l j) else nth_error l j.
Proof.
  unfold upd. destruct (nth_error l i) as [e|] eqn:E.
  - rewrite nth_error_set_nth. destruct (Nat.eqb_spec i j) as [<-|]; [now rewrite E|reflexivity].
  - destruct (Nat.eqb_spec i j) as [<-|]; [now rewrite E|reflexivity].
Qed.
Lemma upd_length {A} (l : list A) i f : length (upd l i f) = length l.
Proof. unfold upd. destruct (nth_error l i); [apply set_nth_length|reflexivity]. Qed.

Lemma sb_run_app c a b : forall s, sb_run c s (a ++ b) = match sb_run c s a with Some m => sb_run c m b | None => None end.
Proof. induction a as [|l a IH]; intro s; cbn [app sb_run]; [reflexivity|]. destruct (sb_step c s l); [apply IH|reflexivity]. Qed.
Lemma sb_run_snoc c a l s s' : sb_run c s (a ++ [l]) = Some s' <-> exists m, sb_run c s a = Some m /\ sb_step c m l = Some s'.
Proof.
  rewrite sb_run_app. destruct (sb_run c s a) as [m|]; cbn [sb_run].
  - destruct (sb_step c m l) eqn:E.
    + split; [intro H; injection H as <-; eauto|]. intros (m' & H & H'). congruence.
    + split; [discriminate|]. intros (m' & H & H'). congruence.
  - split; [discriminate|]. intros (m' & H & H'). discriminate.
Qed.

(** Induction over histories. *)
Lemma sb_ind c (P : list label -> sb -> Prop) :
  P [] sb0 -> (forall ls s l s', history c ls s -> P ls s -> sb_step c s l = Some s' -> P (ls ++ [l]) s') ->
  forall ls s, history c ls s -> P ls s.
Proof.
  intros H0 HS ls. induction ls as [|l ls IH] using rev_ind; intros s H.
  - injection H as <-. exact H0.
  - unfold history in H. apply sb_run_snoc in H as (m & H1 & H2). eapply HS; eauto.
Qed.
Lemma run_ind c s0 (P : sb -> Prop) : P s0 ->
  (forall s l s', P s -> sb_step c s l = Some s' -> P s') -> forall ls s, sb_run c s0 ls = Some s -> P s.
Proof.
  intros H0 HS ls. revert s0 H0. induction ls as [|l ls IH]; intros s0 H0 s H; cbn in H.
  - now injection H as <-.
  - destruct (sb_step c s0 l) as [s1|] eqn:E; [|discriminate]. eapply IH; [|exact H]. eauto.
Qed.

(** Case analysis of a step. *)
Ltac step_cases H :=
  unfold sb_step, start_step, thread_step, call_step, iter_step in H; cbn zeta in H;
  repeat match type of H with
  | Some _ = Some _ => fail 1
  | None = Some _ => discriminate H
  | (match ?x with _ => _ end) = _ =>
      let E := fresh "E" in destruct x eqn:E in H; try discriminate H; cbn zeta in H
  end.
Ltac proj := cbn [log set_ss set_cur set_start set_stops set_next set_nx set_dr set_in set_rds upd_sess set_tpc do_stop new_rdr
                  sb_ss sb_cur sb_start sb_stops sb_next sb_nx sb_dr sb_in sb_rds sb_tr] in *.

(** ** Sessions only grow; buffers are changed only through [source_buffer] *)
(** What one step may do to an existing session. *)
Definition same_but_pc_set (e e' : sess) : Prop := se_buf e' = se_buf e /\ se_info e' = se_info e.

Lemma step_sessions c s l s' : sb_step c s l = Some s' ->
  (forall i e, nth_error (sb_ss s) i = Some e -> exists e', nth_error (sb_ss s') i = Some e' /\
     (se_set e = true -> se_set e' = true)) /\
  (length (sb_ss s') = length (sb_ss s) \/
   (sb_start s = SFresh /\ (exists o v, l = LS o v) /\ sb_ss s' = sb_ss s ++ [MkSess false None PNone TNew] /\ sb_start s' = SOpen)).
Proof.
  intro H.
  assert (K : forall (f : sess -> sess) k i e, (forall e, se_set e = true -> se_set (f e) = true) ->
     nth_error (sb_ss s) i = Some e -> exists e', nth_error (upd (sb_ss s) k f) i = Some e' /\ (se_set e = true -> se_set e' = true)).
  { intros f k i e Hf Hi. rewrite nth_upd, Hi. destruct (Nat.eqb k i); cbn; eauto. }
  assert (K2 : forall (f g : sess -> sess) k k2 i e, (forall e, se_set e = true -> se_set (f e) = true) -> (forall e, se_set e = true -> se_set (g e) = true) ->
     nth_error (sb_ss s) i = Some e -> exists e', nth_error (upd (upd (sb_ss s) k f) k2 g) i = Some e' /\ (se_set e = true -> se_set e' = true)).
  { intros f g k k2 i e Hf Hg Hi. rewrite nth_upd. destruct (K f k i e Hf Hi) as (e1 & E1 & S1). rewrite E1. destruct (Nat.eqb k2 i); cbn; eauto. }
  split.
  - intros i e Hi. step_cases H; injection H as <-; proj; eauto;
      try (apply K; [|assumption]; intro; cbn; auto; fail);
      try (apply K2; [| |assumption]; intro; cbn; auto; fail).
    rewrite nth_error_app1 by (apply nth_error_Some; congruence). eauto.
  - step_cases H; injection H as <-; proj; rewrite ?upd_length; auto.
    right. eauto 10.
Qed.

(** How lookups behave under the updates of the model. *)
Lemma upd_same {A} (l : list A) i f e : nth_error l i = Some e -> nth_error (upd l i f) i = Some (f e).
Proof. intro H. now rewrite nth_upd, Nat.eqb_refl, H. Qed.
Lemma upd_other {A} (l : list A) i j f : i <> j -> nth_error (upd l i f) j = nth_error l j.
Proof. intro H. rewrite nth_upd. destruct (Nat.eqb_spec i j); congruence. Qed.
Lemma nth_snoc {A} (l : list A) x i : nth_error (l ++ [x]) i =
  if Nat.ltb i (length l) then nth_error l i else if Nat.eqb i (length l) then Some x else None.
Proof.
  destruct (Nat.ltb_spec i (length l)) as [L|L]; [now apply nth_error_app1|].
  rewrite nth_error_app2 by assumption. destruct (Nat.eqb_spec i (length l)) as [->|N].
  - now rewrite Nat.sub_diag.
  - destruct (i - length l) eqn:E; [lia|]. cbn. now destruct n.
Qed.
Lemma nth_lt {A} (l : list A) i x : nth_error l i = Some x -> i < length l.
Proof. intro H. apply nth_error_Some. congruence. Qed.

Lemma nth_set_inv {A} (l : list A) n x r q : nth_error (set_nth l n x) r = Some q ->
  (r = n /\ q = x /\ exists y, nth_error l n = Some y) \/ (r <> n /\ nth_error l r = Some q).
Proof.
  rewrite nth_error_set_nth. destruct (Nat.eqb_spec n r) as [<-|N]; [|auto].
  destruct (nth_error l n) eqn:E; [|discriminate]. intro H. injection H as <-. eauto.
Qed.
Lemma nth_snoc_inv {A} (l : list A) x r q : nth_error (l ++ [x]) r = Some q -> nth_error l r = Some q \/ (r = length l /\ q = x).
Proof.
  rewrite nth_snoc. destruct (Nat.ltb r (length l)); [auto|]. destruct (Nat.eqb_spec r (length l)); [|discriminate].
  intro H. injection H as <-. auto.
Qed.

(** Existence of buffers, readers and sessions. *)
Definition has_buf (s : sb) (j : nat) : Prop := exists d, buf_of s j = Some d.
Lemma has_buf_upd (ss : list sess) k f j d : (forall e d, se_buf e = Some d -> exists d', se_buf (f e) = Some d') ->
  match nth_error ss j with Some e => se_buf e | None => None end = Some d ->
  exists d', match nth_error (upd ss k f) j with Some e => se_buf e | None => None end = Some d'.
Proof.
  intros Hf H. rewrite nth_upd. destruct (Nat.eqb k j); [|eauto]. destruct (nth_error ss j) as [e|]; [|discriminate]. cbn. eauto.
Qed.
Lemma step_has_buf c s l s' j : sb_step c s l = Some s' -> has_buf s j -> has_buf s' j.
Proof.
  unfold has_buf, buf_of. intros H [d Hd].
  assert (K : forall k f, (forall e d, se_buf e = Some d -> exists d', se_buf (f e) = Some d') ->
    exists d', match nth_error (upd (sb_ss s) k f) j with Some e => se_buf e | None => None end = Some d').
  { intros k f Hf. eapply has_buf_upd; eauto. }
  step_cases H; injection H as <-; proj; eauto;
    try (apply K; intros; cbn; eauto; fail);
    try (edestruct K as [d9 K9]; [|eapply has_buf_upd; [|exact K9]]; intros; cbn; eauto; fail).
  destruct (nth_error (sb_ss s) j) as [e|] eqn:Ej; [|discriminate]. rewrite nth_error_app1 by (eapply nth_lt; eauto). rewrite Ej. eauto.
Qed.

(** The step [l] writes to the buffer of start [k]: the append of a thread, or the drop() of a
    caller, that has loaded this buffer. *)
Definition writes_to (s : sb) (l : label) (k : nat) : Prop :=
  (exists i o e x, l = LT i o /\ nth_error (sb_ss s) i = Some e /\ se_pc e = TPut k x) \/
  (exists m n, l = LDropDo m /\ nth_error (sb_dr s) m = Some (k, n)).
(** What one step can do to an existing session. *)
Lemma step_frame c s l s' : sb_step c s l = Some s' -> forall k e, nth_error (sb_ss s) k = Some e ->
  exists e', nth_error (sb_ss s') k = Some e' /\
    (se_pc e' = se_pc e \/ (exists o, l = LT k o) \/ (sb_start s = SSpawn /\ k = latest s /\ se_pc e' = TCheck /\ exists o v, l = LS o v)) /\
    (se_buf e' = se_buf e \/ (writes_to s l k /\ exists d, se_buf e = Some d) \/ (sb_start s = SBuild /\ k = latest s /\ exists o v, l = LS o v)) /\
    (se_info e' = se_info e \/ (sb_start s = SBuild /\ k = latest s /\ exists o v, l = LS o v)) /\
    (se_set e' = se_set e \/ (se_set e' = true /\ k = latest s)).
Proof.
  intros H k e Hk.
  step_cases H; injection H as <-; proj;
    try (exists e; rewrite ?nth_error_app1 by (eapply nth_lt; eauto); split; [assumption|]; repeat split; auto; fail);
    rewrite ?nth_upd, ?Hk;
    repeat match goal with |- context [Nat.eqb ?a k] => let Q := fresh "Q" in destruct (Nat.eqb_spec a k) as [Q|Q]; cbn [option_map] end;
    (eexists; split; [reflexivity|]; cbn [w_pc w_set w_buf w_info se_pc se_buf se_info se_set]; repeat split; auto; subst; eauto 12);
    try (right; left; match goal with X : buf_of s ?k0 = Some _, Y : nth_error (sb_ss s) ?k0 = Some _ |- _ => unfold buf_of in X; rewrite Y in X end;
         split; [|eauto]; unfold writes_to; first [left; eauto 9; fail|right; eauto 9]).
Qed.
Lemma step_new c s l s' : sb_step c s l = Some s' -> forall k e, nth_error (sb_ss s') k = Some e ->
  (exists e0, nth_error (sb_ss s) k = Some e0) \/ (k = length (sb_ss s) /\ e = MkSess false None PNone TNew /\ sb_start s = SFresh /\ sb_start s' = SOpen).
Proof.
  intros H k e Hk. destruct (step_sessions c s l s' H) as [_ [L|(F & _ & E & F')]].
  - left. destruct (nth_error (sb_ss s) k) eqn:X; [eauto|]. apply nth_error_None in X. apply nth_lt in Hk. lia.
  - rewrite E, nth_snoc in Hk. destruct (Nat.ltb_spec k (length (sb_ss s))) as [Lk|Lk]; [left; eauto|].
    destruct (Nat.eqb_spec k (length (sb_ss s))); [|discriminate]. injection Hk as <-. auto.
Qed.
(** A thread that has not been started does not move. *)
Lemma step_thread_pc c s i o s' e : sb_step c s (LT i o) = Some s' -> nth_error (sb_ss s) i = Some e ->
  match se_pc e with TNew | TDone _ => False | _ => True end.
Proof. intros H Hi. cbn in H. rewrite Hi in H. destruct (se_pc e); auto; discriminate. Qed.

Record sinv (s : sb) : Prop := {
  si_cur : forall j, sb_cur s = Some j -> S j = length (sb_ss s) /\ has_buf s j;
  si_none : match sb_start s with SFresh | SOpen | SBuild => sb_cur s = None | SSpawn => sb_cur s = Some (latest s) | _ => True end;
  si_new : match sb_start s with
           | SOpen | SBuild => exists e, nth_error (sb_ss s) (latest s) = Some e /\ se_pc e = TNew /\ se_buf e = None
           | SSpawn => exists e, nth_error (sb_ss s) (latest s) = Some e /\ se_pc e = TNew
           | _ => True end;
  si_rds : forall r q, nth_error (sb_rds s) r = Some q -> has_buf s (rd_sess q);
  si_next : forall r, sb_next s = Some r -> r < length (sb_rds s);
  (* a buffer that a thread or caller has loaded exists, and is not older than the thread *)
  si_held : forall i e j, nth_error (sb_ss s) i = Some e -> (se_pc e = TLen j \/ exists x, se_pc e = TPut j x) -> has_buf s j /\ i <= j /\ j < length (sb_ss s);
  si_drop : forall j n, In (j, n) (sb_dr s) -> has_buf s j /\ j < length (sb_ss s)
}.
Lemma latest_upd ss k f a b cc d e g h dr qi : latest (MkSB (upd ss k f) a b cc d e dr qi g h) = length ss - 1.
Proof. unfold latest. proj. now rewrite upd_length. Qed.

Lemma in_removed {A} k (m : list A) x : In x (firstn k m ++ skipn (S k) m) -> In x m.
Proof.
  revert k. induction m as [|y m IH]; intros [|k] H; cbn in *; auto. destruct H as [H|H]; eauto.
Qed.
Lemma sinv0 : sinv sb0.
Proof. constructor; cbn; try discriminate; auto. - intros [|] q H; discriminate.
  - intros [|] q j H; discriminate.
  - intros j n [].
Qed.

Lemma step_start c s l s' : sb_step c s l = Some s' ->
  (sb_start s' = sb_start s /\ sb_cur s' = sb_cur s) \/ (l = LStart /\ sb_start s = SFree /\ sb_start s' = SCheck1 /\ s' = set_start s SCheck1) \/ (exists o v, l = LS o v).
Proof. intro H. step_cases H; injection H as <-; proj; eauto 6; right; left; unfold lock_free in *; destruct (sb_start s); try discriminate; auto. Qed.

Lemma sinv_step c s l s' : sinv s -> sb_step c s l = Some s' -> sinv s'.
Proof.
  intros [I1 I2 I3 I4 I5 I6 I7] H. pose proof (fun j => step_has_buf c s l s' j H) as HB.
  constructor.
  - intros j Hj. assert (X : (sb_cur s = Some j /\ length (sb_ss s') = length (sb_ss s)) \/ (S j = length (sb_ss s') /\ has_buf s' j)).
    { step_cases H; injection H as <-; proj; rewrite ?upd_length; try discriminate; auto.
      - rewrite E0 in I2. congruence.
      - right. injection Hj as <-. rewrite E0 in I3. destruct I3 as (e & He & _ & _). pose proof (nth_lt _ _ _ He). unfold latest in *. split; [lia|].
        unfold has_buf, buf_of. proj. rewrite (upd_same _ _ _ _ He). cbn. eauto. }
    destruct X as [[X Y]|X]; [|assumption]. destruct (I1 j X). rewrite Y. auto.
  - step_cases H; injection H as <-; proj; auto; unfold latest in *; proj; rewrite ?upd_length in *; auto;
      try (rewrite E0 in I2; exact I2); try (destruct (running s); exact Logic.I); try (destruct second; exact Logic.I).
  - destruct (step_sessions c s l s' H) as [_ [L|(F & _ & E & F')]].
    2:{ rewrite F'. unfold latest. rewrite E, app_length. cbn [length]. rewrite Nat.add_sub.
        rewrite nth_error_app2, Nat.sub_diag by lia. cbn. eauto. }
    assert (LL : latest s' = latest s) by (unfold latest; now rewrite L).
    assert (KEEP : sb_start s' = sb_start s -> match sb_start s' with
           | SOpen | SBuild => exists e, nth_error (sb_ss s') (latest s') = Some e /\ se_pc e = TNew /\ se_buf e = None
           | SSpawn => exists e, nth_error (sb_ss s') (latest s') = Some e /\ se_pc e = TNew
           | _ => True end).
    { intro ES. rewrite ES, LL. 
      assert (Z : forall e, nth_error (sb_ss s) (latest s) = Some e -> se_pc e = TNew -> 
        sb_start s = SOpen \/ sb_start s = SBuild \/ sb_start s = SSpawn ->
        exists e', nth_error (sb_ss s') (latest s) = Some e' /\ se_pc e' = TNew /\ (sb_start s <> SSpawn -> se_buf e = None -> se_buf e' = None)).
      { intros e He Hp HS. destruct (step_frame c s l s' H _ _ He) as (e' & He' & P & B & _). exists e'. split; [assumption|].
        assert (NL : forall o v, l <> LS o v).
        { intros o v ->. cbn in H. unfold start_step in H. cbn zeta in H. destruct HS as [HS|[HS|HS]]; rewrite HS in H;
          repeat match type of H with (match ?x with _ => _ end) = _ => destruct x end; injection H as <-; proj; congruence. }
        split.
        - destruct P as [P|[[o ->]|(_ & _ & _ & o & v & ->)]]; [congruence| |exfalso; eapply NL; eauto].
          pose proof (step_thread_pc _ _ _ _ _ _ H He) as X. rewrite Hp in X. destruct X.
        - intros NS NB. destruct B as [B|[[_ [d B]]|(_ & _ & o & v & ->)]]; [congruence|congruence|exfalso; eapply NL; eauto]. }
      destruct (sb_start s) eqn:ES'; auto.
      - destruct I3 as (e & He & P & B). destruct (Z e He P) as (e' & A1 & A2 & A3); [auto|]. exists e'. repeat split; auto. apply A3; auto. discriminate.
      - destruct I3 as (e & He & P & B). destruct (Z e He P) as (e' & A1 & A2 & A3); [auto|]. exists e'. repeat split; auto. apply A3; auto. discriminate.
      - destruct I3 as (e & He & P). destruct (Z e He P) as (e' & A1 & A2 & A3); [auto|]. eauto. }
    destruct (step_start c s l s' H) as [[ES _]|[(_ & _ & -> & _)|(o & v & ->)]]; [exact (KEEP ES)|exact Logic.I|].
    clear KEEP. cbn in H. unfold start_step in H. cbn zeta in H.
    destruct (sb_start s); repeat match type of H with (match ?x with _ => _ end) = _ => destruct x; try discriminate end;
      try discriminate H; injection H as <-; proj; auto;
      try (destruct (running s); exact Logic.I); try (destruct second; exact Logic.I).
    + exfalso. rewrite app_length in L. cbn in L. lia.
    + unfold latest in *. proj. rewrite upd_length. destruct I3 as (e & He & P & B). rewrite (upd_same _ _ _ _ He). eauto.
  - intros r q Hq. assert (X : (exists q0, nth_error (sb_rds s) r = Some q0 /\ rd_sess q0 = rd_sess q) \/ sb_cur s = Some (rd_sess q)).
    { step_cases H; injection H as <-; proj; eauto;
        repeat match type of Hq with
        | nth_error (set_nth _ _ _) _ = _ => apply nth_set_inv in Hq as [(-> & -> & ? & ?)|(? & Hq)]
        | nth_error (_ ++ [_]) _ = _ => apply nth_snoc_inv in Hq as [Hq|(-> & ->)]
        end; cbn [rd_sess mk_rdr]; eauto. }
    destruct X as [(q0 & Hq0 & <-)|X]; [eauto|]. apply HB. apply (I1 _ X).
  - intros r Hr. assert (X : length (sb_rds s) <= length (sb_rds s') /\ (sb_next s = Some r \/ r < length (sb_rds s'))).
    { step_cases H; injection H as <-; proj; rewrite ?set_nth_length, ?app_length; cbn [length]; auto; try discriminate; split; try lia; auto; right; injection Hr as <-; lia. }
    destruct X as [X [Y|Y]]; [specialize (I5 r Y); lia|assumption].
  - assert (LEN : length (sb_ss s) <= length (sb_ss s')).
    { destruct (step_sessions c s l s' H) as [_ [L|(_ & _ & L & _)]]; [lia|]. rewrite L, app_length. lia. }
    intros i e j He Hp. destruct (step_new c s l s' H i e He) as [[e0 H0]|(_ & -> & _)]; [|destruct Hp as [Hp|[x Hp]]; discriminate].
    destruct (step_frame c s l s' H i e0 H0) as (e1 & H1 & P & _). assert (e1 = e) by congruence. subst e1.
    destruct P as [P|[[o ->]|(_ & _ & P & _)]]; [rewrite P in Hp| |destruct Hp as [Hp|[x Hp]]; congruence].
    + destruct (I6 i e0 j H0 Hp) as (X1 & X2 & X3). split; [auto|]. lia.
    + assert (X : sb_cur s = Some j \/ se_pc e0 = TLen j \/ exists x, se_pc e0 = TPut j x).
      { cbn [sb_step] in H. rewrite H0 in H. clear HB I3. unfold thread_step in H. pose proof (nth_lt _ _ _ H0) as LT0.
        repeat match type of H with
        | Some _ = Some _ => fail 1
        | None = Some _ => discriminate H
        | (match ?x with _ => _ end) = _ => let E := fresh "E" in destruct x eqn:E in H; try discriminate H; cbn zeta in H
        end; injection H as <-; proj; rewrite ?nth_upd, ?Nat.eqb_refl, ?H0 in He;
        repeat match type of He with context [Nat.eqb ?a ?b] => destruct (Nat.eqb a b) end; cbn in He; injection He as <-; cbn in Hp;
        repeat match type of Hp with context [if ?b then _ else _] => destruct b | context [match ?b with Ok _ => _ | Raise _ => _ end] => destruct b end;
        destruct Hp as [Hp|[x9 Hp]]; try discriminate; try (injection Hp as <-); try (injection Hp as <- <-); eauto. }
      destruct X as [X|X].
      * destruct (I1 j X) as [X1 X2]. split; [auto|]. pose proof (nth_lt _ _ _ H0). lia.
      * destruct (I6 i e0 j H0 X) as (X1 & X2 & X3). split; [auto|]. lia.
  - assert (LEN : length (sb_ss s) <= length (sb_ss s')).
    { destruct (step_sessions c s l s' H) as [_ [L|(_ & _ & L & _)]]; [lia|]. rewrite L, app_length. lia. }
    intros j n Hin. assert (X : In (j, n) (sb_dr s) \/ sb_cur s = Some j).
    { clear HB I3. step_cases H; injection H as <-; proj; auto;
        first [apply in_app_or in Hin as [Hin|[Hin|[]]]; [auto|injection Hin as <- <-; auto]
              |left; eapply in_removed; exact Hin]. }
    destruct X as [X|X]; [destruct (I7 j n X); split; [auto|lia]|]. destruct (I1 j X). split; [auto|lia].
Qed.
Lemma sinv_history c ls s : history c ls s -> sinv s.
Proof. intro H. revert ls s H. apply (sb_ind c (fun _ s => sinv s)); [apply sinv0|]. intros. eapply sinv_step; eauto. Qed.

(** ** Buffers *)
Lemma ops_on_app k a b : ops_on k (a ++ b) = ops_on k a ++ ops_on k b.
Proof. apply flat_map_app. Qed.
Lemma buf_upd (ss : list sess) n f k : (match nth_error (upd ss n f) k with Some e => se_buf e | None => None end) =
  if Nat.eqb n k then match nth_error ss k with Some e => se_buf (f e) | None => None end
  else match nth_error ss k with Some e => se_buf e | None => None end.
Proof. rewrite nth_upd. destruct (Nat.eqb n k); [|reflexivity]. now destruct (nth_error ss k). Qed.
Lemma buf_upd_id (ss : list sess) n f k : (forall e, se_buf (f e) = se_buf e) ->
  (match nth_error (upd ss n f) k with Some e => se_buf e | None => None end) = match nth_error ss k with Some e => se_buf e | None => None end.
Proof. intro H. rewrite buf_upd. destruct (Nat.eqb n k); [|reflexivity]. destruct (nth_error ss k); [apply H|reflexivity]. Qed.

Lemma step_buf c s l s' : sinv s -> sb_step c s l = Some s' -> forall k,
  (buf_of s' k = buf_of s k /\ ops_on k (sb_tr s') = ops_on k (sb_tr s)) \/
  (exists d o, writes_to s l k /\ buf_of s k = Some d /\ is_append_or_drop o /\ buf_of s' k = Some (fst (sd_step d o)) /\
     ops_on k (sb_tr s') = ops_on k (sb_tr s) ++ [o]) \/
  (exists d0 o v, sb_start s = SBuild /\ l = LS o v /\ k = latest s /\ buf_of s k = None /\ sd_init [] (c_key c) (c_maxlen c) = Ok d0 /\ buf_of s' k = Some d0 /\
     ops_on k (sb_tr s') = ops_on k (sb_tr s)).
Proof.
  intros I H k. pose proof (si_new _ I) as I3. unfold buf_of.
  step_cases H; injection H as <-; proj; rewrite ?ops_on_app; cbn [ops_on flat_map app]; rewrite ?app_nil_r;
    rewrite ?buf_upd_id by reflexivity; auto.
  - (* new session *)
    left. split; [|reflexivity]. rewrite nth_snoc. destruct (Nat.ltb_spec k (length (sb_ss s))); [reflexivity|].
    replace (nth_error (sb_ss s) k) with (@None sess) by (symmetry; apply nth_error_None; lia).
    now destruct (Nat.eqb k (length (sb_ss s))).
  - (* build *)
    rewrite buf_upd. destruct (Nat.eqb_spec (latest s) k) as [<-|N]; [right; right|left; auto].
    rewrite E0 in I3. destruct I3 as (e & He & _ & Hb). rewrite He, Hb. cbn. eexists _, _, _. repeat split; eauto.
  - (* drop *)
    match goal with |- context [upd (sb_ss s) ?j0 _] => rewrite buf_upd; destruct (Nat.eqb_spec j0 k) as [->|N]; [right; left|left; rewrite app_nil_r; auto] end.
    match goal with X : buf_of s k = Some ?d9, Y : sd_drop ?d9 ?n9 = _ |- _ =>
      unfold buf_of in X; destruct (nth_error (sb_ss s) k) as [e|] eqn:En; [|discriminate]; exists d9, (ODrop n9); cbn [w_buf se_buf sd_step]; rewrite Y end.
    repeat split; auto. subst. right. eauto.
  - (* append *)
    match goal with |- context [upd (sb_ss s) ?j0 (fun e => w_buf e _)] => rewrite buf_upd; destruct (Nat.eqb_spec j0 k) as [->|N]; [right; left|left; rewrite app_nil_r; auto] end.
    match goal with X : buf_of s k = Some ?d9, Y : sd_append ?d9 ?n9 = _ |- _ =>
      unfold buf_of in X; destruct (nth_error (sb_ss s) k) as [e9|] eqn:En; [|discriminate]; exists d9, (OAppend n9); cbn [w_buf se_buf sd_step]; rewrite Y end.
    repeat split; auto. subst. left. eauto 8.
Qed.

Definition buf_hist (c : cfg) (s : sb) (k : nat) : Prop :=
  match buf_of s k with
  | Some d => exists d0, sd_init [] (c_key c) (c_maxlen c) = Ok d0 /\ d = sd_run d0 (ops_on k (sb_tr s))
  | None => ops_on k (sb_tr s) = []
  end.
Lemma sd_run_snoc d ops o : sd_run d (ops ++ [o]) = fst (sd_step (sd_run d ops) o).
Proof. unfold sd_run. now rewrite fold_left_app. Qed.
Lemma buf_hist_all c ls s : history c ls s -> forall k, buf_hist c s k.
Proof.
  intro H. revert ls s H. apply (sb_ind c (fun _ s => forall k, buf_hist c s k)).
  - intro k. unfold buf_hist, buf_of. cbn. now destruct k.
  - intros ls s l s' Hh IH H k. specialize (IH k). unfold buf_hist in *.
    destruct (step_buf c s l s' (sinv_history c ls s Hh) H k) as [[-> ->]|[(d & o & _ & E & _ & -> & ->)|(d0 & o & v & _ & _ & _ & E & E0 & -> & ->)]]; auto.
    + rewrite E in IH. destruct IH as (d0 & E0 & ->). exists d0. split; [assumption|]. now rewrite sd_run_snoc.
    + rewrite E in IH. exists d0. rewrite IH. auto.
Qed.
Lemma ops_on_append_or_drop k tr : Forall is_append_or_drop (ops_on k tr).
Proof.
  induction tr as [|e tr IH]; [constructor|]. cbn. apply Forall_app. split; [|assumption].
  destruct e; try constructor; try (destruct (Nat.eqb _ _); repeat constructor).
  destruct j as [k'|]; [|constructor]. destruct (Nat.eqb _ _); repeat constructor.
Qed.

(** ** A reader holds the buffer and the event of the same session *)
Lemma rd_ev_sess c ls s : history c ls s -> forall r q, nth_error (sb_rds s) r = Some q -> rd_ev q = rd_sess q.
Proof.
  intro H. revert ls s H. apply (sb_ind c (fun _ s => forall r q, nth_error (sb_rds s) r = Some q -> rd_ev q = rd_sess q)).
  - intros [|r] q; discriminate.
  - intros ls s l s' Hh IH H r q Hq. step_cases H; injection H as <-; proj; eauto;
    repeat match type of Hq with
    | nth_error (set_nth _ _ _) _ = _ => apply nth_set_inv in Hq as [(-> & -> & ? & ?)|(? & Hq)]
    | nth_error (_ ++ [_]) _ = _ => apply nth_snoc_inv in Hq as [Hq|[-> ->]]
    end; cbn [rd_ev rd_sess mk_rdr]; eauto.
Qed.
