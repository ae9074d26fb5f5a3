(** * StreamSource: C52-C56, C76 *)
From Coq Require Import List ZArith Bool Arith Lia.
From Verif Require Import PyVal PyLib SortedDequeM BufferReaderM BufferSysM StreamBufferM SpecStream StreamFacts StreamLife StreamInv StreamView StreamReads
  StreamMore PropsStreamRead LogFacts StreamSourceM SpecSource.
Import ListNotations.
Open Scope nat_scope.

(** ** Runs of start() on a new StreamBuffer *)
Lemma start_first c o info : let s := start_now c sb0 o info in
  (exists ls, history c ls s) /\ sb_start s = SFree /\ length (sb_ss s) = 1 /\ sb_rds s = [] /\ sb_next s = None /\
  match o, info, sd_init [] (c_key c) (c_maxlen c) with
  | Raise e, _, _ => sb_tr s = [EOpen 0 (Raise e); EFailed 0 e] /\ sb_cur s = None
  | Ok u, Raise e, _ => sb_tr s = [EOpen 0 (Ok u); EFailed 0 e] /\ sb_cur s = None
  | Ok u, Ok v, Raise e => sb_tr s = [EOpen 0 (Ok u); EFailed 0 e] /\ sb_cur s = None
  | Ok u, Ok v, Ok d0 => sb_tr s = [EOpen 0 (Ok u); EBuilt 0 v; EStarted 0] /\ sb_cur s = Some 0 /\ ev_set s 0 = false
  end.
Proof.
  intro s. assert (RS : forall x y f, start_step c x o info = Some y -> run_start c x o info (S f) = run_start c y o info f) by (intros x y f E; cbn [run_start]; now rewrite E).
  assert (RC : forall x l q y, sb_step c x l = Some y -> sb_run c x (l :: q) = sb_run c y q) by (intros x l q y E; cbn [sb_run]; now rewrite E).
  set (s1 := set_start sb0 SCheck1). set (s2 := set_start sb0 SCheck2). set (s3 := set_start sb0 SClear). set (s4 := set_start sb0 SFresh).
  set (s5 := MkSB [MkSess false None PNone TNew] None SOpen 0 None 0 [] [] [] []).
  assert (H1 : sb_step c sb0 LStart = Some s1) by reflexivity.
  assert (H2 : start_step c s1 o info = Some s2) by reflexivity. assert (H3 : start_step c s2 o info = Some s3) by reflexivity.
  assert (H4 : start_step c s3 o info = Some s4) by reflexivity. assert (H5 : start_step c s4 o info = Some s5) by reflexivity.
  assert (R0 : forall f, run_start c s1 o info (4 + f) = run_start c s5 o info f).
  { intro f. cbn [Nat.add]. now rewrite (RS _ _ _ H2), (RS _ _ _ H3), (RS _ _ _ H4), (RS _ _ _ H5). }
  assert (Q0 : forall k, sb_run c sb0 (LStart :: repeat (LS o info) (4 + k)) = sb_run c s5 (repeat (LS o info) k)).
  { intro k. cbn [Nat.add repeat]. now rewrite (RC _ _ _ _ H1), (RC s1 (LS o info) _ _ H2), (RC s2 (LS o info) _ _ H3), (RC s3 (LS o info) _ _ H4), (RC s4 (LS o info) _ _ H5). }
  assert (FIN : forall k y, run_start c s5 o info 7 = y -> sb_run c s5 (repeat (LS o info) k) = Some y -> s = y /\ exists ls, history c ls y).
  { intros k y A B. split; [unfold s, start_now; fold s1; rewrite <- A; exact (R0 7)|]. exists (LStart :: repeat (LS o info) (4 + k)). unfold history. now rewrite Q0. }
  assert (RZ : forall x f, start_step c x o info = None -> run_start c x o info f = x) by (intros x [|f] E; cbn [run_start]; [reflexivity|now rewrite E]).
  clearbody s. destruct o as [u|e].
  - set (s6 := MkSB [MkSess false None PNone TNew] None SBuild 0 None 0 [] [] [] [EOpen 0 (Ok u)]).
    assert (H6 : start_step c s5 (Ok u) info = Some s6) by reflexivity.
    destruct info as [v|e].
    + destruct (sd_init [] (c_key c) (c_maxlen c)) as [d0|e] eqn:D.
      * set (s7 := MkSB [MkSess false (Some d0) v TNew] (Some 0) SSpawn 0 None 0 [] [] [] [EOpen 0 (Ok u); EBuilt 0 v]).
        set (s8 := MkSB [MkSess false (Some d0) v TCheck] (Some 0) SFree 0 None 0 [] [] [] [EOpen 0 (Ok u); EBuilt 0 v; EStarted 0]).
        assert (H7 : start_step c s6 (Ok u) (Ok v) = Some s7) by (unfold start_step, s6; cbn [sb_start]; rewrite D; reflexivity).
        assert (H8 : start_step c s7 (Ok u) (Ok v) = Some s8) by reflexivity.
        destruct (FIN 3 s8) as [-> HH].
        { rewrite (RS _ _ _ H6), (RS _ _ _ H7), (RS _ _ _ H8). apply RZ. reflexivity. }
        { cbn [repeat]. rewrite (RC s5 (LS (Ok u) (Ok v)) _ _ H6), (RC s6 (LS (Ok u) (Ok v)) _ _ H7), (RC s7 (LS (Ok u) (Ok v)) _ _ H8). reflexivity. }
        split; [exact HH|]. repeat split.
      * set (s7 := MkSB [MkSess false None PNone TNew] None SFree 0 None 0 [] [] [] [EOpen 0 (Ok u); EFailed 0 e]).
        assert (H7 : start_step c s6 (Ok u) (Ok v) = Some s7) by (unfold start_step, s6; cbn [sb_start]; rewrite D; reflexivity).
        destruct (FIN 2 s7) as [-> HH].
        { rewrite (RS _ _ _ H6), (RS _ _ _ H7). apply RZ. reflexivity. }
        { cbn [repeat]. rewrite (RC s5 (LS (Ok u) (Ok v)) _ _ H6), (RC s6 (LS (Ok u) (Ok v)) _ _ H7). reflexivity. }
        split; [exact HH|]. repeat split.
    + set (s7 := MkSB [MkSess false None PNone TNew] None SFree 0 None 0 [] [] [] [EOpen 0 (Ok u); EFailed 0 e]).
      assert (H7 : start_step c s6 (Ok u) (Raise e) = Some s7) by reflexivity.
      destruct (FIN 2 s7) as [-> HH].
      { rewrite (RS _ _ _ H6), (RS _ _ _ H7). apply RZ. reflexivity. }
      { cbn [repeat]. rewrite (RC s5 (LS (Ok u) (Raise e)) _ _ H6), (RC s6 (LS (Ok u) (Raise e)) _ _ H7). reflexivity. }
      split; [exact HH|]. repeat split.
  - set (s6 := MkSB [MkSess false None PNone TNew] None SFree 0 None 0 [] [] [] [EOpen 0 (Raise e); EFailed 0 e]).
    assert (H6 : start_step c s5 (Raise e) info = Some s6) by reflexivity.
    destruct (FIN 1 s6) as [-> HH].
    { rewrite (RS _ _ _ H6). apply RZ. reflexivity. }
    { cbn [repeat]. rewrite (RC s5 (LS (Raise e) info) _ _ H6). reflexivity. }
    split; [exact HH|]. repeat split.
Qed.

Lemma x_run_snoc d ops op : forall x x' tr', x_run d x (ops ++ [op]) = Some (x', tr') <->
  exists x1 tr1 o, x_run d x ops = Some (x1, tr1) /\ x_step d x1 op = Some (x', o) /\ tr' = tr1 ++ [(op, o)].
Proof.
  induction ops as [|p q IH]; intros x x' tr'; cbn.
  - split.
    + destruct (x_step d x op) as [[x1 o]|] eqn:E; [|discriminate]. intro H. injection H as <- <-. exists x, [], o. auto.
    + intros (x1 & tr1 & o & H1 & H2 & ->). injection H1 as <- <-. now rewrite H2.
  - destruct (x_step d x p) as [[x1 o1]|]; [|split; [discriminate|intros (? & ? & ? & ? & _); discriminate]]. split.
    + destruct (x_run d x1 (q ++ [op])) as [[x2 tr2]|] eqn:E; [|discriminate]. intro H. injection H as <- <-.
      apply (IH x1) in E as (x3 & tr3 & o & E1 & E2 & ->). rewrite E1. eauto 10.
    + intros (x2 & tr2 & o & H1 & H2 & ->). destruct (x_run d x1 q) as [[x3 tr3]|] eqn:E; [|discriminate]. injection H1 as <- <-.
      assert (X : x_run d x1 (q ++ [op]) = Some (x', tr3 ++ [(op, o)])) by (apply (IH x1); eauto 10). now rewrite X.
Qed.
Lemma x_ind d (P : list xop -> xsrc -> list (xop * xout) -> Prop) :
  P [] x0 [] ->
  (forall ops x tr op x' o, uses d ops x tr -> P ops x tr -> x_step d x op = Some (x', o) -> P (ops ++ [op]) x' (tr ++ [(op, o)])) ->
  forall ops x tr, uses d ops x tr -> P ops x tr.
Proof.
  intros H0 HS ops. induction ops as [|op q IH] using rev_ind; intros x tr H.
  - injection H as <- <-. assumption.
  - apply (x_run_snoc d q op x0) in H as (x1 & tr1 & o & H1 & H2 & ->). eapply HS; eauto.
Qed.

(** The operations of the StreamSource are steps of its StreamBuffer. *)
Lemma outer_step c s l s' : sb_step c s l = Some s' -> (forall o v, l <> LS o v) -> l <> LStart ->
  sb_start s' = sb_start s /\ sb_cur s' = sb_cur s /\ length (sb_ss s') = length (sb_ss s) /\
  filter is_open (sb_tr s') = filter is_open (sb_tr s) /\ last_start (sb_tr s') = last_start (sb_tr s).
Proof.
  intros H N1 N2. destruct (step_starts c s l s' H N1) as [L1 L2].
  destruct (step_start c s l s' H) as [[A B]|[[-> _]|(o & v & ->)]]; [|congruence|now elim (N1 o v)].
  split; [assumption|]. split; [assumption|]. split; [assumption|]. split; [|assumption].
  clear - H N1. step_cases H; injection H as <-; proj; rewrite ?filter_app; cbn; rewrite ?app_nil_r; auto; exfalso; eapply N1; eassumption.
Qed.
Lemma bg_step c s l s' : is_bg l = true -> sb_step c s l = Some s' -> length (sb_rds s') = length (sb_rds s) /\ filter is_stop (sb_tr s') = filter is_stop (sb_tr s).
Proof.
  intros B H. step_cases H; try (subst l; discriminate B); injection H as <-; proj; rewrite ?filter_app, ?app_nil_r; cbn; rewrite ?app_nil_r, ?LogFacts.set_nth_length; auto.
Qed.

Record xinv (d : sdef) (x : xsrc) (tr : list (xop * xout)) (c : cfg) (s : sb) : Prop := {
  xi_hist : exists ls, history c ls s;
  xi_free : sb_start s = SFree;
  xi_one : length (sb_ss s) = 1;
  xi_opened : opened tr = seq 0 (length (sb_rds s));
  xi_count : x_open x = (Z.of_nat (length (opened tr)) - Z.of_nat (length (closed tr)))%Z;
  xi_closed : forall r, In r (closed tr) -> r < length (sb_rds s);
  xi_cfg : c = mk_cfg d (x_kw x);
  xi_src : exists o, filter is_open (sb_tr s) = [EOpen 0 o];
  xi_started : exists b, last_start (sb_tr s) = Some (0, b)
}.
Definition xinv_all (d : sdef) (x : xsrc) (tr : list (xop * xout)) : Prop :=
  match x_sb x with
  | None => x_open x = 0%Z /\ opened tr = [] /\ closed tr = []
  | Some (c, s) => xinv d x tr c s
  end.
Lemma opened_snoc tr p : opened (tr ++ [p]) = opened tr ++ match p with (XOpen _ _ _ _ _, OutReader r _) => [r] | _ => [] end.
Proof. unfold opened. rewrite flat_map_app. cbn. now rewrite app_nil_r. Qed.
Lemma closed_snoc tr p : closed (tr ++ [p]) = closed tr ++ match p with (XClose r, _) => [r] | _ => [] end.
Proof. unfold closed. rewrite flat_map_app. cbn. now rewrite app_nil_r. Qed.

(** What [exit] does when there is a StreamBuffer. *)
Lemma exit_spec d x tr c s : xinv d x tr c s -> x_sb x = Some (c, s) -> exists s', sb_step c s LStop = Some s' /\ sb_tr s' = sb_tr s ++ [EStop (Ok 0)] /\
  sb_rds s' = sb_rds s /\ ev_set s' 0 = true /\ x_exit x = (MkX (x_kw x) (x_open x) (Some (c, s')), OutOk).
Proof.
  intros I E. unfold x_exit. rewrite E. cbn [sb_step]. rewrite (xi_one _ _ _ _ _ I). cbn [Nat.eqb].
  eexists. split; [reflexivity|]. proj. assert (LA : latest s = 0) by (unfold latest; now rewrite (xi_one _ _ _ _ _ I)). rewrite LA. split; [reflexivity|]. split; [reflexivity|].
  split. { unfold ev_set. proj. rewrite nth_upd. pose proof (xi_one _ _ _ _ _ I). unfold latest. rewrite ?H. cbn. destruct (sb_ss s); [discriminate|reflexivity]. }
  rewrite last_last. reflexivity.
Qed.
(** What [mk_reader] does. *)
Lemma mk_spec d x tr c s : xinv d x tr c s -> forall n st ig, exists s', sb_step c s (StreamBufferM.LMk n false st ig) = Some s' /\
  ((sb_cur s = None /\ sb_tr s' = sb_tr s ++ [EMk (Raise StreamNotStartedError)] /\ sb_rds s' = sb_rds s) \/
   (sb_cur s = Some 0 /\ sb_tr s' = sb_tr s ++ [ENew (length (sb_rds s)) 0 n false st ig; EMk (Ok (length (sb_rds s)))] /\
    exists q, sb_rds s' = sb_rds s ++ [q] /\ rd_sess q = 0)).
Proof.
  intros I n st ig. cbn [sb_step]. unfold lock_free. rewrite (xi_free _ _ _ _ _ I). destruct (sb_cur s) as [j|] eqn:C.
  - eexists. split; [reflexivity|]. right. proj. destruct (xi_hist _ _ _ _ _ I) as [ls H].
    destruct (si_cur _ (sinv_history c ls s H) j C) as [J _]. rewrite (xi_one _ _ _ _ _ I) in J. assert (j = 0) by lia. subst j.
    split; [reflexivity|]. rewrite <- app_assoc. split; [reflexivity|]. eexists. split; [reflexivity|]. reflexivity.
  - eexists. split; [reflexivity|]. left. proj. auto.
Qed.
Lemma history_snoc c ls s l s' : history c ls s -> sb_step c s l = Some s' -> history c (ls ++ [l]) s'.
Proof. intros. apply sb_run_snoc. eauto. Qed.
Lemma xinv_inner d x tr c s l s' : xinv d x tr c s -> sb_step c s l = Some s' -> (forall o v, l <> LS o v) -> l <> LStart ->
  length (sb_rds s') = length (sb_rds s) -> forall p, opened (tr ++ [p]) = opened tr -> closed (tr ++ [p]) = closed tr ->
  xinv d (MkX (x_kw x) (x_open x) (Some (c, s'))) (tr ++ [p]) c s'.
Proof.
  intros [[ls H] F O Op Cn Cl Cf Sr St] Hs N1 N2 L p E1 E2. destruct (outer_step c s l s' Hs N1 N2) as (A & B & C & D & E).
  constructor; cbn; rewrite ?E1, ?E2, ?L, ?A, ?C, ?D, ?E; auto. exists (ls ++ [l]). eapply history_snoc; eauto.
Qed.
Lemma xinv_mk d x tr c s n st ig s' : xinv d x tr c s -> sb_step c s (StreamBufferM.LMk n false st ig) = Some s' ->
  forall q, sb_rds s' = sb_rds s ++ [q] -> forall a b e f g k,
  xinv d (MkX (x_kw x) (x_open x + 1) (Some (c, s'))) (tr ++ [(XOpen a b e f g, OutReader (length (sb_rds s)) k)]) c s'.
Proof.
  intros [[ls H] F O Op Cn Cl Cf Sr St] Hs q R a b e f g k. destruct (outer_step c s _ s' Hs) as (A & B & C & D & E); [discriminate|discriminate|].
  constructor; cbn; rewrite ?A, ?C, ?D, ?E; auto.
  - exists (ls ++ [StreamBufferM.LMk n false st ig]). eapply history_snoc; eauto.
  - rewrite opened_snoc, R, app_length, seq_app, Op. reflexivity.
  - rewrite opened_snoc, closed_snoc, app_nil_r, app_length. cbn. lia.
  - intros r Hr. rewrite closed_snoc, app_nil_r in Hr. specialize (Cl r Hr). rewrite R, app_length. cbn. lia.
Qed.
Lemma raised_cases c o info : match raised (start_now c sb0 o info) with
  | Some e => sb_cur (start_now c sb0 o info) = None
  | None => sb_cur (start_now c sb0 o info) = Some 0 /\ ev_set (start_now c sb0 o info) 0 = false
  end.
Proof.
  pose proof (start_first c o info) as X. cbn zeta in X. destruct X as (_ & _ & _ & _ & _ & X). unfold raised.
  generalize dependent (start_now c sb0 o info). intros s X. destruct o as [u|e]; [destruct info as [v|e]; [destruct (sd_init [] (c_key c) (c_maxlen c))|]|]; destruct X as [-> X]; cbn [last]; exact X.
Qed.
Lemma ensure_inv d x tr o info : xinv_all d x tr -> let '(x1, r) := ensure_buffer d x o info in
  exists c s, x_sb x1 = Some (c, s) /\ xinv d x1 tr c s /\ x_kw x1 = x_kw x /\
  match x_sb x with
  | Some _ => x1 = x /\ r = None
  | None => c = mk_cfg d (x_kw x) /\ s = start_now c sb0 o info /\ r = raised s
  end.
Proof.
  intro I. unfold xinv_all in I. unfold ensure_buffer. destruct (x_sb x) as [[c s]|] eqn:E.
  - exists c, s. auto.
  - destruct I as (A & B & C). set (c := mk_cfg d (x_kw x)). pose proof (start_first c o info) as X. cbn zeta in X. destruct X as (H & F & L & R & N & X).
    exists c, (start_now c sb0 o info). cbn [x_sb x_kw x_open]. split; [reflexivity|]. split; [|auto].
    constructor; cbn [x_sb x_kw x_open]; auto.
    + rewrite B, R. reflexivity.
    + rewrite A, B, C. reflexivity.
    + rewrite C. intros r [].
    + generalize dependent (start_now c sb0 o info). intros s H F L R N X. destruct o as [u|e]; [destruct info as [v|e]; [destruct (sd_init [] (c_key c) (c_maxlen c))|]|]; destruct X as [-> X]; cbn; eauto.
    + generalize dependent (start_now c sb0 o info). intros s H F L R N X. destruct o as [u|e]; [destruct info as [v|e]; [destruct (sd_init [] (c_key c) (c_maxlen c))|]|]; destruct X as [-> X]; cbn; eauto.
Qed.

(** What open_reader() does. *)
Lemma open_spec d x tr n st ig o info : xinv_all d x tr -> let '(x', out) := open_reader d x n st ig o info in
  exists c s s1, x_sb x' = Some (c, s1) /\ x_kw x' = x_kw x /\ xinv d x' (tr ++ [(XOpen n st ig o info, out)]) c s1 /\
  match x_sb x with
  | Some (c0, s0) => c = c0 /\ s = s0
  | None => c = mk_cfg d (x_kw x) /\ s = start_now c sb0 o info
  end /\
  ((x_sb x = None /\ s1 = s /\ exists e, raised s = Some e /\ out = OutRaise e) \/
   (sb_cur s = None /\ out = OutRaise StreamNotStartedError /\ sb_tr s1 = sb_tr s ++ [EMk (Raise StreamNotStartedError)] /\ sb_rds s1 = sb_rds s) \/
   (sb_cur s = Some 0 /\ out = OutReader (length (sb_rds s)) (match d_attr_cls d with Some k => k | None => BufferReaderClass end) /\
    sb_tr s1 = sb_tr s ++ [ENew (length (sb_rds s)) 0 n false st ig; EMk (Ok (length (sb_rds s)))] /\ x_open x' = (x_open x + 1)%Z /\
    exists q, sb_rds s1 = sb_rds s ++ [q] /\ rd_sess q = 0)).
Proof.
  intro I. unfold open_reader. pose proof (ensure_inv d x tr o info I) as EN. destruct (ensure_buffer d x o info) as [x1 r] eqn:EE.
  destruct EN as (c & s & E1 & I1 & K1 & CASE).
  assert (OP1 : x_open x1 = x_open x). { unfold ensure_buffer in EE. destruct (x_sb x); injection EE as <- _; reflexivity. }
  destruct r as [e|].
  - destruct (x_sb x) as [[c0 s0]|] eqn:Ex; [destruct CASE; discriminate|]. destruct CASE as (Ec & Es & Er).
    exists c, s, s. split; [assumption|]. split; [assumption|]. split.
    + destruct I1 as [A1 A2 A3 A4 A5 A6 A7 A8 A9]. constructor; rewrite ?opened_snoc, ?closed_snoc, ?app_nil_r; auto.
    + split; [auto|]. left. split; [reflexivity|]. split; [reflexivity|]. exists e. auto.
  - rewrite E1. destruct (mk_spec d x1 tr c s I1 n st ig) as (s' & Hs & CS). rewrite Hs. destruct CS as [(C0 & T & R)|(C0 & T & q & R & Q)].
    + rewrite T, last_last. exists c, s, s'. cbn. split; [reflexivity|]. split; [assumption|]. split.
      * eapply xinv_inner; eauto; try discriminate; rewrite ?opened_snoc, ?closed_snoc, ?app_nil_r; auto. now rewrite R.
      * split. { destruct (x_sb x) as [[c0 s0]|] eqn:Ex; [destruct CASE as [-> _]; rewrite Ex in E1; injection E1 as <- <-; auto|tauto]. }
        right. left. auto.
    + rewrite T. change (ENew ?a ?b ?c ?d ?e ?f :: ?z) with ([ENew a b c d e f] ++ z). rewrite app_assoc, last_last. exists c, s, s'. cbn. split; [reflexivity|]. split; [assumption|]. split.
      * eapply xinv_mk; eauto.
      * split. { destruct (x_sb x) as [[c0 s0]|] eqn:Ex; [destruct CASE as [-> _]; rewrite Ex in E1; injection E1 as <- <-; auto|tauto]. }
        right. right. split; [assumption|]. split; [reflexivity|]. split; [assumption|]. split; [lia|]. eauto.
Qed.

Lemma close_spec d x tr c s r : xinv d x tr c s -> x_sb x = Some (c, s) -> r < length (sb_rds s) ->
  let '(x', out) := x_close x in out = OutOk /\ exists s', x_sb x' = Some (c, s') /\ xinv d x' (tr ++ [(XClose r, out)]) c s' /\
  sb_rds s' = sb_rds s /\
  if Nat.leb (length (opened tr)) (S (length (closed tr))) then sb_tr s' = sb_tr s ++ [EStop (Ok 0)] /\ ev_set s' 0 = true else s' = s.
Proof.
  intros I E Hr. unfold x_close. cbn [x_open x_kw x_sb].
  set (x1 := MkX (x_kw x) (x_open x - 1) (x_sb x)).
  pose proof (xi_count _ _ _ _ _ I) as Cn.
  assert (G : forall s', sb_rds s' = sb_rds s -> (exists ls, history c ls s') -> sb_start s' = SFree -> length (sb_ss s') = 1 ->
    filter is_open (sb_tr s') = filter is_open (sb_tr s) -> last_start (sb_tr s') = last_start (sb_tr s) ->
    xinv d (MkX (x_kw x) (x_open x - 1) (Some (c, s'))) (tr ++ [(XClose r, OutOk)]) c s').
  { intros s' R H F O T1 T2. destruct I as [[ls H0] F0 O0 Op _ Cl Cf Sr St]. constructor; cbn; rewrite ?R, ?T1, ?T2; auto.
    - rewrite opened_snoc, app_nil_r. assumption.
    - rewrite opened_snoc, closed_snoc, app_nil_r, app_length. cbn. lia.
    - intros r' Hr'. rewrite closed_snoc in Hr'. apply in_app_iff in Hr' as [Hr'|[<-|[]]]; auto. }
  destruct (Nat.leb_spec (length (opened tr)) (S (length (closed tr)))) as [L|L].
  - replace (Z.leb (x_open x - 1) 0) with true by (symmetry; apply Z.leb_le; lia).
    assert (I1 : exists s', sb_step c s LStop = Some s' /\ sb_tr s' = sb_tr s ++ [EStop (Ok 0)] /\ sb_rds s' = sb_rds s /\ ev_set s' 0 = true /\
      x_exit x1 = (MkX (x_kw x) (x_open x - 1) (Some (c, s')), OutOk)).
    { destruct (exit_spec d x tr c s I E) as (s' & A & B & C & D & F). exists s'. repeat (split; [assumption|]).
      unfold x_exit in F |- *. subst x1. cbn [x_sb x_kw x_open]. rewrite E in *. rewrite A in *. rewrite B, last_last. reflexivity. }
    destruct I1 as (s' & A & B & C & D & F). rewrite F. split; [reflexivity|]. exists s'. split; [reflexivity|].
    destruct (outer_step c s _ s' A) as (O1 & O2 & O3 & O4 & O5); [discriminate|discriminate|].
    split; [|auto]. apply G; auto; try congruence.
    + destruct (xi_hist _ _ _ _ _ I) as [ls H]. exists (ls ++ [LStop]). eapply history_snoc; eauto.
    + rewrite O1. exact (xi_free _ _ _ _ _ I).
    + rewrite O3. exact (xi_one _ _ _ _ _ I).
  - replace (Z.leb (x_open x - 1) 0) with false by (symmetry; apply Z.leb_gt; lia). split; [reflexivity|]. exists s. subst x1. split; [assumption|].
    split; [|auto]. rewrite E. destruct I as [H0 F0 O0 Op Cn' Cl Cf Sr St]. apply G; auto.
Qed.
Lemma xinv_uses d ops x tr : uses d ops x tr -> xinv_all d x tr.
Proof.
  revert ops x tr. apply (x_ind d (fun _ x tr => xinv_all d x tr)); [repeat split|].
  intros ops x tr op x' o Hu I H. destruct op as [m a|n st ig oo info|r| | |l]; cbn [x_step] in H.
  - injection H as H. unfold configure in H. unfold xinv_all in *. destruct (x_sb x) as [[c s]|] eqn:E.
    + injection H as <- <-. rewrite E. destruct I as [A1 A2 A3 A4 A5 A6 A7 A8 A9]. constructor; rewrite ?opened_snoc, ?closed_snoc, ?app_nil_r; auto.
    + injection H as <- <-. cbn. rewrite opened_snoc, closed_snoc, !app_nil_r. assumption.
  - injection H as H. pose proof (open_spec d x tr n st ig oo info I) as X. rewrite H in X. destruct X as (c & s & s1 & E & _ & IX & _). unfold xinv_all. now rewrite E.
  - destruct (has_reader x r) eqn:HR; [|discriminate]. unfold has_reader in HR. unfold xinv_all in I. destruct (x_sb x) as [[c s]|] eqn:E; [|discriminate].
    apply Nat.ltb_lt in HR. injection H as H. pose proof (close_spec d x tr c s r I E HR) as X. rewrite H in X. destruct X as (_ & s' & E' & IX & _). unfold xinv_all. now rewrite E'.
  - injection H as H. unfold xinv_all in I. destruct (x_sb x) as [[c s]|] eqn:E.
    + destruct (exit_spec d x tr c s I E) as (s' & A & B & C & D & F). rewrite F in H. injection H as <- <-. unfold xinv_all. cbn.
      eapply xinv_inner; eauto; try discriminate; rewrite ?opened_snoc, ?closed_snoc, ?app_nil_r; auto. now rewrite C.
    + unfold x_exit in H. rewrite E in H. injection H as <- <-. unfold xinv_all. rewrite E, opened_snoc, closed_snoc, !app_nil_r. assumption.
  - unfold xinv_all in I. destruct (x_sb x) as [[c s]|] eqn:E; [|discriminate]. destruct (sb_step c s LStopRet) as [s'|] eqn:Es; [|discriminate]. injection H as <- <-.
    unfold xinv_all. cbn. eapply xinv_inner; eauto; try discriminate; rewrite ?opened_snoc, ?closed_snoc, ?app_nil_r; auto.
    cbn in Es. destruct (sb_stops s); [discriminate|]. injection Es as <-. reflexivity.
  - destruct (is_bg l) eqn:B; [|discriminate]. unfold xinv_all in I. destruct (x_sb x) as [[c s]|] eqn:E; [|discriminate]. destruct (sb_step c s l) as [s'|] eqn:Es; [|discriminate].
    injection H as <- <-. unfold xinv_all. cbn. destruct (bg_step c s l s' B Es) as [R _].
    eapply xinv_inner; eauto; try (intros; intros ->; discriminate B); rewrite ?opened_snoc, ?closed_snoc, ?app_nil_r; auto.
Qed.

Lemma close_step d ops x tr r x' o : uses d ops x tr -> x_step d x (XClose r) = Some (x', o) ->
  exists c s s', x_sb x = Some (c, s) /\ xinv d x tr c s /\ x_sb x' = Some (c, s') /\ r < length (sb_rds s) /\ o = OutOk /\
  if Nat.leb (length (opened tr)) (S (length (closed tr))) then sb_tr s' = sb_tr s ++ [EStop (Ok 0)] /\ ev_set s' 0 = true else s' = s.
Proof.
  intros H Hs. pose proof (xinv_uses d ops x tr H) as I. cbn [x_step] in Hs. destruct (has_reader x r) eqn:HR; [|discriminate].
  unfold has_reader in HR. unfold xinv_all in I. destruct (x_sb x) as [[c s]|] eqn:E; [|discriminate]. apply Nat.ltb_lt in HR. injection Hs as Hs.
  pose proof (close_spec d x tr c s r I E HR) as X. rewrite Hs in X. destruct X as (Eo & s' & E' & _ & _ & C). exists c, s, s'. auto 10.
Qed.
Lemma last_close d x tr c s r : xinv d x tr c s -> NoDup (closed tr) -> ~ In r (closed tr) -> r < length (sb_rds s) ->
  (forall r', In r' (opened tr) -> r' = r \/ In r' (closed tr)) <-> length (opened tr) <= S (length (closed tr)).
Proof.
  intros I ND NI L. pose proof (xi_opened _ _ _ _ _ I) as EO. pose proof (xi_closed _ _ _ _ _ I) as EC. split.
  - intro A. apply (NoDup_incl_length (l' := r :: closed tr)); [rewrite EO; apply seq_NoDup|]. intros r' Hr'. cbn. destruct (A r' Hr'); auto.
  - intros A r' Hr'. assert (X : In r' (r :: closed tr)); [|destruct X; auto].
    revert r' Hr'. apply (NoDup_length_incl (l := r :: closed tr)); [now constructor|exact A|].
    intros y [<-|Hy]; rewrite EO; apply in_seq; [|specialize (EC y Hy)]; lia.
Qed.

(** With a buffer already there open_reader() is one make-reader step of it. *)
Lemma open_existing d x tr c s n st ig o info x' out : xinv d x tr c s -> x_sb x = Some (c, s) -> open_reader d x n st ig o info = (x', out) ->
  exists s1, sb_step c s (StreamBufferM.LMk n false st ig) = Some s1 /\ x_sb x' = Some (c, s1).
Proof.
  intros I E Hs. destruct (mk_spec d x tr c s I n st ig) as (s2 & H2 & W). exists s2. split; [assumption|].
  unfold open_reader, ensure_buffer in Hs. rewrite E in Hs. rewrite E in Hs. rewrite H2 in Hs. destruct W as [(_ & T & _)|(_ & T & _)]; rewrite T in Hs.
  - rewrite last_last in Hs. injection Hs as <- <-. reflexivity.
  - replace [ENew (length (sb_rds s)) 0 n false st ig; EMk (Ok (length (sb_rds s)))] with ([ENew (length (sb_rds s)) 0 n false st ig] ++ [EMk (Ok (length (sb_rds s)))]) in Hs by reflexivity.
    rewrite app_assoc, last_last in Hs. injection Hs as <- <-. reflexivity.
Qed.

(** ** C52 *)
(** Closing a reader that has not been closed before: if all other opened readers have been
    closed this calls stop() once and the stream is stopped; if not, nothing happens. *)
Theorem C52_stop_after_last_close :
  forall d ops x tr, uses d ops x tr -> NoDup (closed tr) -> forall r x' o, x_step d x (XClose r) = Some (x', o) -> ~ In r (closed tr) ->
  o = OutOk /\
  ((forall r', In r' (opened tr) -> r' = r \/ In r' (closed tr)) -> stop_calls x' = stop_calls x ++ [EStop (Ok 0)] /\ is_stopped x') /\
  ((exists r', In r' (opened tr) /\ r' <> r /\ ~ In r' (closed tr)) -> stream_events x' = stream_events x /\ x_sb x' = x_sb x).
Proof.
  intros d ops x tr H ND r x' o Hs NI. destruct (close_step d ops x tr r x' o H Hs) as (c & s & s' & E & I & E' & L & -> & C).
  pose proof (last_close d x tr c s r I ND NI L) as LC. split; [reflexivity|]. unfold stop_calls, is_stopped, stream_events. rewrite E, E'. split.
  - intro A. apply LC in A. destruct (Nat.leb_spec (length (opened tr)) (S (length (closed tr)))); [|lia]. destruct C as [-> C]. rewrite filter_app. auto.
  - intros (r' & A1 & A2 & A3). destruct (Nat.leb_spec (length (opened tr)) (S (length (closed tr)))) as [LL|_]; [|subst; auto].
    exfalso. destruct LC as [_ LC]. specialize (LC LL r' A1). tauto.
Qed.
Print Assumptions C52_stop_after_last_close.
(** Nothing but close() of a reader and exit() calls stop(). *)
Theorem C52_nothing_else_stops :
  forall d ops x tr, uses d ops x tr -> forall op x' o, x_step d x op = Some (x', o) -> (forall r, op <> XClose r) -> op <> XExit -> stop_calls x' = stop_calls x.
Proof.
  intros d ops x tr H op x' o Hs N1 N2. pose proof (xinv_uses d ops x tr H) as I. unfold stop_calls, stream_events.
  destruct op as [m a|n st ig oo info|r| | |l]; cbn [x_step] in Hs; try congruence; try (now elim (N1 r)).
  - injection Hs as Hs. unfold configure in Hs. destruct (x_sb x) as [[c s]|] eqn:E; injection Hs as <- <-; cbn; rewrite ?E; reflexivity.
  - injection Hs as Hs. pose proof (open_spec d x tr n st ig oo info I) as X. rewrite Hs in X. destruct X as (c & s & s1 & E & _ & _ & CS & W). rewrite E.
    assert (ST : filter is_stop (sb_tr s) = filter is_stop (match x_sb x with Some (_, s) => sb_tr s | None => [] end)).
    { destruct (x_sb x) as [[c0 s0]|]; [destruct CS as [_ ->]; reflexivity|]. destruct CS as [_ ->]. pose proof (start_first c oo info) as Y. cbn zeta in Y. destruct Y as (_ & _ & _ & _ & _ & Y).
      generalize dependent (start_now c sb0 oo info). intros s W Y.
      destruct oo as [u|e]; [destruct info as [v|e]; [destruct (sd_init [] (c_key c) (c_maxlen c))|]|]; destruct Y as [-> _]; reflexivity. }
    rewrite <- ST. destruct W as [(_ & -> & _)|[(_ & _ & -> & _)|(_ & _ & -> & _)]]; rewrite ?filter_app; cbn; rewrite ?app_nil_r; reflexivity.
  - destruct (x_sb x) as [[c s]|] eqn:E; [|discriminate]. destruct (sb_step c s LStopRet) as [s'|] eqn:Es; [|discriminate]. injection Hs as <- <-. cbn in *.
    destruct (sb_stops s); [discriminate|]. injection Es as <-. reflexivity.
  - destruct (is_bg l) eqn:B; [|discriminate]. destruct (x_sb x) as [[c s]|] eqn:E; [|discriminate]. destruct (sb_step c s l) as [s'|] eqn:Es; [|discriminate]. injection Hs as <- <-.
    cbn. apply (bg_step c s l s' B Es).
Qed.
Print Assumptions C52_nothing_else_stops.
Definition sdef0 : sdef := MkSDef ident 7 None.
Definition opn : xop := XOpen 1 false true (Ok tt) (Ok (PObj 7)).
Definition x_end (d : sdef) (ops : list xop) : xsrc * list (xop * xout) := match x_run d x0 ops with Some p => p | None => (x0, []) end.
Definition three_readers : list xop := [opn; opn] ++ map XBg (round 0 (PInt 1)) ++ [XClose 1; opn; XClose 0].
Example C52_nonvacuous :
  let p := x_end sdef0 three_readers in uses sdef0 three_readers (fst p) (snd p) /\ NoDup (closed (snd p)) /\ closed (snd p) = [1; 0] /\ opened (snd p) = [0; 1; 2] /\
  ~ In 2 (closed (snd p)) /\ exists x' o, x_step sdef0 (fst p) (XClose 2) = Some (x', o).
Proof.
  cbn zeta. split; [vm_compute; reflexivity|]. assert (E : closed (snd (x_end sdef0 three_readers)) = [1; 0]) by (vm_compute; reflexivity). rewrite E.
  split; [repeat constructor; cbn; intuition discriminate|]. split; [reflexivity|]. split; [vm_compute; reflexivity|]. split; [cbn; intuition discriminate|].
  do 2 eexists. vm_compute. reflexivity.
Qed.

(** ** C53 *)
(** What holds: a close() never raises, and it calls stop() exactly if there have been, with
    it, at least as many close() calls as opened readers. *)
Theorem C53_counts_close_calls_partial :
  forall d ops x tr, uses d ops x tr -> forall r x' o, x_step d x (XClose r) = Some (x', o) ->
  o = OutOk /\
  (length (opened tr) <= S (length (closed tr)) -> stop_calls x' = stop_calls x ++ [EStop (Ok 0)] /\ is_stopped x') /\
  (S (length (closed tr)) < length (opened tr) -> x_sb x' = x_sb x).
Proof.
  intros d ops x tr H r x' o Hs. destruct (close_step d ops x tr r x' o H Hs) as (c & s & s' & E & I & E' & L & -> & C). split; [reflexivity|].
  unfold stop_calls, is_stopped, stream_events. rewrite E, E'. destruct (Nat.leb_spec (length (opened tr)) (S (length (closed tr)))); (split; [intro A|intro A]); try lia.
  - destruct C as [-> C]. rewrite filter_app. auto.
  - now subst.
Qed.
Print Assumptions C53_counts_close_calls_partial.
(** Two readers; the first is closed twice (explicitly inside its with block, say): the
    stream is stopped under the second. *)
Theorem C53_double_close_refuted :
  exists d ops x tr, uses d ops x tr /\ opened tr = [0; 1] /\ closed tr = [0; 0] /\ no_exit tr /\ stop_calls x = [EStop (Ok 0)] /\ is_stopped x.
Proof.
  exists sdef0, [opn; opn; XClose 0; XClose 0]. do 2 eexists. split; [vm_compute; reflexivity|]. split; [reflexivity|]. split; [reflexivity|].
  split; [|split; vm_compute; reflexivity]. intros o X. repeat (destruct X as [X|X]; [discriminate|]). destruct X.
Qed.
Print Assumptions C53_double_close_refuted.

(** ** C54 *)
(** The source is opened at most once in the life of a StreamSource; a reader opened after
    the stream was stopped is on that stopped session. *)
Theorem C54_never_reopened_refuted :
  forall d ops x tr, uses d ops x tr ->
  length (filter is_open (stream_events x)) <= 1 /\
  (is_stopped x -> forall n st ig o info x' out, x_step d x (XOpen n st ig o info) = Some (x', out) ->
     is_stopped x' /\ filter is_open (stream_events x') = filter is_open (stream_events x) /\
     forall r k, out = OutReader r k -> exists c s q, x_sb x' = Some (c, s) /\ nth_error (sb_rds s) r = Some q /\ ev_set s (rd_sess q) = true).
Proof.
  intros d ops x tr H. pose proof (xinv_uses d ops x tr H) as I. split.
  - unfold stream_events. unfold xinv_all in I. destruct (x_sb x) as [[c s]|]; [|cbn; lia]. destruct (xi_src _ _ _ _ _ I) as [o ->]. cbn. lia.
  - intros S n st ig o info x' out Hs. cbn [x_step] in Hs. injection Hs as Hs. pose proof (open_spec d x tr n st ig o info I) as X. rewrite Hs in X.
    destruct X as (c & s & s1 & E & _ & I1 & CS & W). unfold is_stopped, stream_events in *. rewrite E. destruct (x_sb x) as [[c0 s0]|] eqn:Ex; [|destruct S].
    destruct CS as [-> ->]. unfold xinv_all in I. rewrite Ex in I. destruct (open_existing d x tr c0 s0 n st ig o info x' out I Ex Hs) as (s2 & EV & E2).
    assert (s2 = s1) by congruence. subst s2.
    split; [eapply ev_set_mono; eauto|]. destruct (outer_step c0 s0 _ s1 EV) as (_ & _ & _ & FO & _); [discriminate|discriminate|]. split; [assumption|].
    intros r k ->. destruct W as [(X & _)|[(_ & X & _)|(_ & X & _ & _ & q & R & Q)]]; try discriminate. injection X as -> _. exists c0, s1, q. split; [reflexivity|].
    split; [rewrite R, nth_snoc, Nat.ltb_irrefl, Nat.eqb_refl; reflexivity|]. rewrite Q. eapply ev_set_mono; eauto.
Qed.
Print Assumptions C54_never_reopened_refuted.
(** The example of the class's documentation: read, leave the with block, open again. *)
Example C54_nonvacuous :
  exists x tr, uses sdef0 ([opn] ++ map XBg (round 0 (PInt 1)) ++ [XClose 0; XStopRet; opn]) x tr /\ opened tr = [0; 1] /\ closed tr = [0] /\ is_stopped x /\
  filter is_open (stream_events x) = [EOpen 0 (Ok tt)].
Proof. do 2 eexists. split; [vm_compute; reflexivity|]. repeat split. Qed.

(** ** C76 *)
(** Once an open_reader() has raised, every later one raises StreamNotStartedError. *)
Theorem C76_failed_open_is_final_refuted :
  forall d ops x tr, uses d ops x tr -> forall n st ig o info e, In (XOpen n st ig o info, OutRaise e) tr ->
  forall n' st' ig' o' info' x' out, x_step d x (XOpen n' st' ig' o' info') = Some (x', out) -> out = OutRaise StreamNotStartedError.
Proof.
  intros d ops x tr H n st ig o info e.
  assert (G : In (XOpen n st ig o info, OutRaise e) tr -> exists c s, x_sb x = Some (c, s) /\ sb_cur s = None).
  { revert H. revert ops x tr. apply (x_ind d (fun _ x tr => In (XOpen n st ig o info, OutRaise e) tr -> exists c s, x_sb x = Some (c, s) /\ sb_cur s = None)); [intros []|].
    intros ops x tr op x' out Hu IH Hs Hin. pose proof (xinv_uses d ops x tr Hu) as I. apply in_app_iff in Hin as [Hin|[Hin|[]]].
    - destruct (IH Hin) as (c & s & E & C). clear IH. destruct op as [m a|n1 st1 ig1 o1 info1|r| | |l]; cbn [x_step] in Hs.
      + unfold configure in Hs. rewrite E in Hs. injection Hs as <- _. eauto.
      + injection Hs as Hs. pose proof (open_spec d x tr n1 st1 ig1 o1 info1 I) as X. rewrite Hs in X. destruct X as (c1 & s1 & s2 & E1 & _ & I1 & CS & W). rewrite E in CS, W. destruct CS as [-> ->].
        destruct W as [(X & _)|[(_ & _ & T & R)|(X & _)]]; [discriminate| |congruence]. exists c, s2. split; [assumption|].
        unfold xinv_all in I. rewrite E in I. destruct (open_existing d x tr c s n1 st1 ig1 o1 info1 x' out I E Hs) as (s3 & H3 & E3).
        assert (s3 = s2) by congruence. subst s3. destruct (outer_step c s _ s2 H3) as (_ & CC & _); [discriminate|discriminate|]. congruence.
      + destruct (close_step d ops x tr r x' out Hu Hs) as (c1 & s1 & s2 & E1 & I1 & E2 & _ & _ & CC). assert (c1 = c /\ s1 = s) as [-> ->] by (split; congruence).
        exists c, s2. split; [assumption|].
        cbn [x_step] in Hs. destruct (has_reader x r); [|discriminate]. injection Hs as Hs. unfold x_close in Hs. cbn [x_open x_kw x_sb] in Hs.
        destruct (Z.leb _ 0).
        * unfold x_exit in Hs. cbn [x_sb] in Hs. rewrite E in Hs. destruct (sb_step c s LStop) as [s3|] eqn:H3; [|injection Hs as <- _; cbn in E2; congruence].
          injection Hs as <- _. cbn in E2. injection E2 as <-. destruct (outer_step c s _ s3 H3) as (_ & X & _); [discriminate|discriminate|]. congruence.
        * injection Hs as <- _. cbn in E2. congruence.
      + injection Hs as Hs. unfold x_exit in Hs. rewrite E in Hs. destruct (sb_step c s LStop) as [s3|] eqn:H3; [|injection Hs as <- _; eauto].
        injection Hs as <- _. cbn. exists c, s3. split; [reflexivity|]. destruct (outer_step c s _ s3 H3) as (_ & X & _); [discriminate|discriminate|]. congruence.
      + rewrite E in Hs. destruct (sb_step c s LStopRet) as [s3|] eqn:H3; [|discriminate]. injection Hs as <- _. cbn. exists c, s3. split; [reflexivity|].
        destruct (outer_step c s _ s3 H3) as (_ & X & _); [discriminate|discriminate|]. congruence.
      + destruct (is_bg l) eqn:B; [|discriminate]. rewrite E in Hs. destruct (sb_step c s l) as [s3|] eqn:H3; [|discriminate]. injection Hs as <- _. cbn. exists c, s3. split; [reflexivity|].
        destruct (outer_step c s _ s3 H3) as (_ & X & _); [intros; intros ->; discriminate B|intros ->; discriminate B|]. congruence.
    - injection Hin as -> ->. cbn [x_step] in Hs. injection Hs as Hs. pose proof (open_spec d x tr n st ig o info I) as X. rewrite Hs in X. destruct X as (c1 & s1 & s2 & E1 & _ & I1 & CS & W).
      exists c1, s2. split; [assumption|]. destruct W as [(N & -> & e0 & R & _)|[(C0 & _ & T & R)|(_ & X & _)]]; [| |discriminate].
      + rewrite N in CS. destruct CS as [-> ->]. pose proof (raised_cases (mk_cfg d (x_kw x)) o info) as RC. now rewrite R in RC.
      + destruct (xi_hist _ _ _ _ _ I1) as [ls Hl]. pose proof (ls_history c1 ls s2 Hl) as L. unfold ls_inv in L. rewrite (xi_free _ _ _ _ _ I1) in L.
        destruct (last_start (sb_tr s2)) as [[i []]|] eqn:LS; [|tauto|tauto]. exfalso.
        assert (LS1 : last_start (sb_tr s1) = Some (i, true)) by (rewrite T, last_start_snoc in LS; exact LS).
        destruct (x_sb x) as [[c0 s0]|] eqn:Ex.
        * destruct CS as [-> ->]. unfold xinv_all in I. rewrite Ex in I. destruct (xi_hist _ _ _ _ _ I) as [ls0 Hl0]. pose proof (ls_history c0 ls0 s0 Hl0) as L0. unfold ls_inv in L0.
          rewrite (xi_free _ _ _ _ _ I), LS1 in L0. congruence.
        * destruct CS as [-> ->]. pose proof (start_first (mk_cfg d (x_kw x)) o info) as SF. cbn zeta in SF. destruct SF as ([ls0 Hl0] & F0 & _).
          pose proof (ls_history _ ls0 _ Hl0) as L0. unfold ls_inv in L0. rewrite F0, LS1 in L0. congruence. }
  intros Hin n' st' ig' o' info' x' out Hs. destruct (G Hin) as (c & s & E & C). pose proof (xinv_uses d ops x tr H) as I. cbn [x_step] in Hs. injection Hs as Hs.
  pose proof (open_spec d x tr n' st' ig' o' info' I) as X. rewrite Hs in X. destruct X as (c1 & s1 & s2 & E1 & _ & _ & CS & W). rewrite E in CS, W. destruct CS as [-> ->].
  destruct W as [(X & _)|[(_ & X & _)|(X & _)]]; [discriminate|assumption|congruence].
Qed.
Print Assumptions C76_failed_open_is_final_refuted.
Example C76_nonvacuous :
  exists x tr, uses sdef0 [XOpen 1 false true (Raise RuntimeError) (Ok PNone); opn] x tr /\
  tr = [(XOpen 1 false true (Raise RuntimeError) (Ok PNone), OutRaise RuntimeError); (opn, OutRaise StreamNotStartedError)].
Proof. do 2 eexists. split; vm_compute; reflexivity. Qed.

(** ** C55 *)
Definition opens_reader (op : xop) : bool := match op with XOpen _ _ _ _ _ => true | _ => false end.
Lemma no_sb d ops x tr : uses d ops x tr -> (x_sb x = None <-> existsb opens_reader ops = false).
Proof.
  revert ops x tr. apply (x_ind d (fun ops x tr => x_sb x = None <-> existsb opens_reader ops = false)); [split; reflexivity|].
  intros ops x tr op x' o Hu IH Hs. pose proof (xinv_uses d ops x tr Hu) as I. rewrite existsb_app. cbn [existsb]. rewrite orb_false_r.
  destruct op as [m a|n st ig oo info|r| | |l]; cbn [x_step opens_reader] in *; rewrite ?orb_false_r, ?orb_true_r.
  - injection Hs as Hs. unfold configure in Hs. destruct (x_sb x) as [[c s]|] eqn:E; injection Hs as <- <-; cbn; rewrite ?E; assumption.
  - injection Hs as Hs. pose proof (open_spec d x tr n st ig oo info I) as X. rewrite Hs in X. destruct X as (c & s & s1 & E & _). rewrite E. split; discriminate.
  - destruct (close_step d ops x tr r x' o Hu Hs) as (c1 & s1 & s2 & E1 & _ & E2 & _). rewrite E1 in IH. rewrite E2. split; [discriminate|intro X; apply IH in X; discriminate].
  - injection Hs as Hs. unfold x_exit in Hs. destruct (x_sb x) as [[c s]|] eqn:E; [destruct (sb_step c s LStop)|]; injection Hs as <- <-; cbn; rewrite ?E; auto;
      (split; [discriminate|intro X; apply IH in X; discriminate]).
  - destruct (x_sb x) as [[c s]|] eqn:E; [|discriminate]. destruct (sb_step c s LStopRet); [|discriminate]. injection Hs as <- <-. cbn. split; [discriminate|intro X; apply IH in X; discriminate].
  - destruct (is_bg l); [|discriminate]. destruct (x_sb x) as [[c s]|] eqn:E; [|discriminate]. destruct (sb_step c s l); [|discriminate]. injection Hs as <- <-. cbn. split; [discriminate|intro X; apply IH in X; discriminate].
Qed.
(** configure_buffer(): accepted exactly before the first open_reader() call; the last
    configuration before it is the one the stream gets. *)
Theorem C55_configure_buffer :
  forall d ops x tr, uses d ops x tr -> forall m a x' out, x_step d x (XConfigure m a) = Some (x', out) ->
  (existsb opens_reader ops = true -> out = OutRaise ValueError /\ x' = x) /\
  (existsb opens_reader ops = false -> out = OutOk /\
     forall n st ig o info x2 out2, x_step d x' (XOpen n st ig o info) = Some (x2, out2) -> exists s, x_sb x2 = Some (MkCfg (d_key d) m a, s)).
Proof.
  intros d ops x tr H m a x' out Hs. pose proof (no_sb d ops x tr H) as N. pose proof Hs as Hs0. cbn [x_step] in Hs. injection Hs as Hs. unfold configure in Hs.
  destruct (x_sb x) as [[c s]|] eqn:E; injection Hs as <- <-; (split; intro B).
  - auto.
  - apply N in B. discriminate.
  - destruct N as [N _]. specialize (N eq_refl). congruence.
  - split; [reflexivity|]. intros n st ig o info x2 out2 H2. cbn [x_step] in H2. injection H2 as H2.
    assert (Hu : uses d (ops ++ [XConfigure m a]) (MkX (Some (m, a)) (x_open x) None) (tr ++ [(XConfigure m a, OutOk)])) by (apply x_run_snoc; eauto 10).
    pose proof (open_spec d _ _ n st ig o info (xinv_uses d _ _ _ Hu)) as X. rewrite H2 in X. destruct X as (c1 & s1 & s2 & E1 & _ & _ & CS & _). cbn in CS. destruct CS as [-> _]. eauto.
Qed.
Print Assumptions C55_configure_buffer.
(** Without configure_buffer(): maxlen 100 and auto_drop. *)
Theorem C55_default_buffer :
  forall d ops x tr, uses d ops x tr -> (forall m a, ~ In (XConfigure m a) ops) -> forall c s, x_sb x = Some (c, s) -> c = MkCfg (d_key d) (Some 100%Z) (PBool true).
Proof.
  intros d ops x tr H N c s E. pose proof (xinv_uses d ops x tr H) as I. unfold xinv_all in I. rewrite E in I. rewrite (xi_cfg _ _ _ _ _ I).
  assert (K : x_kw x = None); [|rewrite K; reflexivity]. clear E I. revert N. revert ops x tr H.
  apply (x_ind d (fun ops x tr => (forall m a, ~ In (XConfigure m a) ops) -> x_kw x = None)); [reflexivity|].
  intros ops x tr op x' o Hu IH Hs N. assert (K : x_kw x = None) by (apply IH; intros m a X; apply (N m a); apply in_or_app; now left).
  pose proof (xinv_uses d ops x tr Hu) as I. destruct op as [m a|n st ig oo info|r| | |l]; cbn [x_step] in *.
  - elim (N m a). apply in_or_app. right. now left.
  - injection Hs as Hs. pose proof (open_spec d x tr n st ig oo info I) as X. rewrite Hs in X. destruct X as (c1 & s1 & s2 & _ & X & _). congruence.
  - destruct (has_reader x r); [|discriminate]. injection Hs as Hs. unfold x_close, x_exit in Hs. cbn [x_open x_kw x_sb] in Hs. destruct (Z.leb _ _); [|injection Hs as <- <-; assumption].
    destruct (x_sb x) as [[c1 s1]|]; [destruct (sb_step c1 s1 LStop)|]; injection Hs as <- <-; assumption.
  - injection Hs as Hs. unfold x_exit in Hs. destruct (x_sb x) as [[c1 s1]|]; [destruct (sb_step c1 s1 LStop)|]; injection Hs as <- <-; assumption.
  - destruct (x_sb x) as [[c1 s1]|]; [|discriminate]. destruct (sb_step c1 s1 LStopRet); [|discriminate]. injection Hs as <- <-. assumption.
  - destruct (is_bg l); [|discriminate]. destruct (x_sb x) as [[c1 s1]|]; [|discriminate]. destruct (sb_step c1 s1 l); [|discriminate]. injection Hs as <- <-. assumption.
Qed.
Print Assumptions C55_default_buffer.
(** The reader_cls argument has no effect, whatever is done: every reader is a BufferReader
    unless the source has an attribute buffer_reader_class. *)
Theorem C55_reader_cls_ignored_refuted :
  forall d ops x tr, uses d ops x tr -> forall op r k, In (op, OutReader r k) tr ->
  k = match d_attr_cls d with Some a => a | None => BufferReaderClass end.
Proof.
  intros d ops x tr H op r k. revert H. revert ops x tr.
  apply (x_ind d (fun _ x tr => In (op, OutReader r k) tr -> k = match d_attr_cls d with Some a => a | None => BufferReaderClass end)); [intros []|].
  intros ops x tr op' x' o Hu IH Hs Hin. apply in_app_iff in Hin as [Hin|[Hin|[]]]; [auto|]. injection Hin as -> ->. pose proof (xinv_uses d ops x tr Hu) as I.
  destruct op as [m a|n st ig oo info|r'| | |l]; cbn [x_step] in Hs.
  - injection Hs as Hs. unfold configure in Hs. destruct (x_sb x) as [[c s]|]; discriminate.
  - injection Hs as Hs. pose proof (open_spec d x tr n st ig oo info I) as X. rewrite Hs in X. destruct X as (c & s & s1 & _ & _ & _ & _ & W).
    destruct W as [(_ & _ & e & _ & X)|[(_ & X & _)|(_ & X & _)]]; try discriminate. now injection X.
  - destruct (has_reader x r'); [|discriminate]. injection Hs as Hs. unfold x_close, x_exit in Hs. cbn [x_open x_kw x_sb] in Hs. destruct (Z.leb _ _); [|discriminate].
    destruct (x_sb x) as [[c1 s1]|]; [destruct (sb_step c1 s1 LStop)|]; try discriminate. injection Hs as _ X. destruct (last _ _); try discriminate. destruct o; discriminate.
  - injection Hs as Hs. unfold x_exit in Hs. destruct (x_sb x) as [[c1 s1]|]; [destruct (sb_step c1 s1 LStop)|]; try discriminate. injection Hs as _ X. destruct (last _ _); try discriminate. destruct o; discriminate.
  - destruct (x_sb x) as [[c1 s1]|]; [|discriminate]. destruct (sb_step c1 s1 LStopRet); discriminate.
  - destruct (is_bg l); [|discriminate]. destruct (x_sb x) as [[c1 s1]|]; [|discriminate]. destruct (sb_step c1 s1 l); discriminate.
Qed.
Print Assumptions C55_reader_cls_ignored_refuted.
Example C55_nonvacuous :
  d_reader_cls sdef0 = 7 /\ (exists x tr, uses sdef0 [XConfigure (Some 5%Z) (PBool false); opn; XConfigure None (PBool true)] x tr /\
    map snd tr = [OutOk; OutReader 0 BufferReaderClass; OutRaise ValueError] /\ exists c s, x_sb x = Some (c, s) /\ c_maxlen c = Some 5%Z).
Proof. split; [reflexivity|]. do 2 eexists. split; [vm_compute; reflexivity|]. split; [reflexivity|]. do 2 eexists. split; reflexivity. Qed.

(** ** C56 *)
(** Readers from open_reader(): their close() never raises, whatever was done before, however
    often it is called. (For with blocks, and for readers of mk_reader(), see PropsAttr.v.) *)
Theorem C56_opened_readers_partial :
  forall d ops x tr r x' o, uses d ops x tr -> x_step d x (XClose r) = Some (x', o) -> o = OutOk.
Proof.
  intros d ops x tr r x' o H Hs. destruct (close_step d ops x tr r x' o H Hs) as (c & s & s' & _ & _ & _ & _ & -> & _). reflexivity.
Qed.
Print Assumptions C56_opened_readers_partial.
