(** * len() looked at in the middle of drop(n): C109 *)
From Coq Require Import List ZArith Bool Arith Lia.
From Verif Require Import PyVal PyLib PyValFacts SortedDequeM Spec SpecDeque ListFacts DequeFacts DequeSearch
  BufferReaderM BufferSysM LogFacts LogReads LogKeepUp StreamBufferM SpecStream StreamFacts StreamLife StreamInv StreamOrderly StreamView StreamReads StreamMore PropsStreamRead PropsStream.
Import ListNotations.
Open Scope nat_scope.

(** ** Lemmas *)
Lemma out_of_none s j : dropping s j = None -> out_of (sb_in s) j = sb_in s.
Proof.
  unfold dropping, out_of. induction (sb_in s) as [|[a p] q IH]; [reflexivity|]. cbn [find filter fst]. destruct (Nat.eqb a j); [discriminate|].
  intro H. cbn [negb]. now rewrite IH.
Qed.
Lemma out_of_twice q j : out_of (out_of q j) j = out_of q j.
Proof. unfold out_of. induction q as [|[a p] q IH]; [reflexivity|]. cbn [filter fst]. destruct (Nat.eqb a j) eqn:E; cbn [negb]; [assumption|]. cbn [filter fst]. rewrite E. cbn. now rewrite IH. Qed.
Lemma set_in_twice s q q' : set_in (set_in s q) q' = set_in s q'.
Proof. reflexivity. Qed.
Lemma set_in_id s : set_in s (sb_in s) = s.
Proof. now destruct s. Qed.
(** After [k] removals the state is the one before, but for what is inside. *)
Lemma ones_state c j n : forall ks s k s', dropping s j = Some (n, k) -> sb_run c s (repeat (LDropOne j) ks) = Some s' ->
  s' = s /\ ks = 0 \/ s' = set_in s ((j, (n, k + ks)) :: out_of (sb_in s) j).
Proof.
  induction ks as [|ks IH]; intros s k s' D H; [injection H as <-; auto|]. cbn [repeat sb_run] in H. cbn [sb_step] in H. rewrite D in H.
  destruct (buf_of s j) as [d|] eqn:Ed; [|discriminate]. destruct (Nat.ltb k (Nat.min (Z.to_nat n) (sd_len d))); [|discriminate].
  pose proof (dropping_cons s j (n, S k) j) as D1. rewrite Nat.eqb_refl in D1.
  destruct (IH _ (S k) s' D1 H) as [[-> ->]| -> ]; right.
  - now rewrite Nat.add_1_r.
  - rewrite set_in_twice. cbn [set_in sb_in]. replace (S k + ks) with (k + S ks) by lia. cbn [out_of filter fst]. rewrite Nat.eqb_refl. cbn [negb]. fold (out_of (out_of (sb_in s) j) j). now rewrite out_of_twice.
Qed.

(** ** C109 *)
(** What len() shows of the buffer of a start, at any moment of any run: the number of its
    items; or, when a drop(n) is inside, that number less [k], with [k] growing from 0 to what
    that drop removes. *)
Theorem C109_len_shown :
  forall c ls s, history c ls s -> forall j d, buf_of s j = Some d ->
  (dropping s j = None -> len_seen s j d = length (sd_list d)) /\
  (forall n k, dropping s j = Some (n, k) -> In (j, n) (sb_dr s) /\ k <= Z.to_nat n /\ k <= length (sd_list d) /\ len_seen s j d = length (sd_list d) - k).
Proof.
  intros c ls s H j d Ed. unfold len_seen, gone. split.
  - intros ->. apply Nat.sub_0_r.
  - intros n k D. destruct (dinv_history c ls s H j n k D) as (A & L1 & d1 & E1 & L2). assert (d1 = d) by congruence. subst d1. rewrite D. auto.
Qed.
Print Assumptions C109_len_shown.
(** Nobody but len() can tell that a drop is in the middle: entering, removing item after
    item and ending is the same as doing all at once. *)
Theorem C109_drop_is_one_step :
  forall c s k j n s1 ks s2 s3, nth_error (sb_dr s) k = Some (j, n) ->
  sb_step c s (LDropIn k) = Some s1 -> sb_run c s1 (repeat (LDropOne j) ks) = Some s2 ->
  (forall i, buf_of s2 i = buf_of s i) /\ sb_tr s2 = sb_tr s /\ sb_rds s2 = sb_rds s /\
  (sb_step c s2 (LDropDo k) = Some s3 -> sb_step c s (LDropDo k) = Some s3).
Proof.
  intros c s k j n s1 ks s2 s3 E H1 H2. cbn [sb_step] in H1. rewrite E in H1. destruct (dropping s j) eqn:D; [discriminate|]. injection H1 as <-.
  assert (D1 : dropping (set_in s ((j, (n, 0)) :: sb_in s)) j = Some (n, 0)) by (unfold dropping; cbn; now rewrite Nat.eqb_refl).
  assert (X : exists m, s2 = set_in s ((j, (n, m)) :: sb_in s)).
  { destruct (ones_state c j n ks _ 0 s2 D1 H2) as [[-> _]| ->]; [eauto|]. rewrite set_in_twice. cbn [set_in sb_in]. cbn [out_of filter fst]. rewrite Nat.eqb_refl. cbn [negb]. fold (out_of (sb_in s) j). rewrite out_of_none by assumption. eauto. }
  destruct X as [m ->]. split; [reflexivity|]. split; [reflexivity|]. split; [reflexivity|]. cbn [sb_step set_in sb_dr]. rewrite E, D.
  assert (D2 : dropping (set_in s ((j, (n, m)) :: sb_in s)) j = Some (n, m)) by (unfold dropping; cbn; now rewrite Nat.eqb_refl).
  rewrite D2, Z.eqb_refl. change (buf_of (set_in s ((j, (n, m)) :: sb_in s)) j) with (buf_of s j). destruct (buf_of s j) as [d|]; [|discriminate]. destruct (sd_drop d n) as [d' u].
  intro H. rewrite <- H. f_equal. f_equal. unfold upd_sess, set_ss. cbn. now rewrite Nat.eqb_refl.
Qed.
Print Assumptions C109_drop_is_one_step.
(** The thread may take the len() of a half-done drop for room, start to read before the drop
    has ended - and its item still never pushes another out: when it comes to add it, after
    waiting for the drop to end, there is room. *)
Theorem C109_room_is_kept :
  forall c ls s, history c ls s -> orderly c ls -> c_auto c <> PBool true -> forall m, c_maxlen c = Some m ->
  forall i j x o s', thread_is s i (TPut j x) -> sb_step c s (LT i o) = Some s' ->
  exists d d' u, buf_of s j = Some d /\ buf_of s' j = Some d' /\ (Z.of_nat (length (sd_list d)) < m)%Z /\
    sb_tr s' = sb_tr s ++ [EAppend i j x u] /\ sd_list d' = match u with Ok _ => sd_list d ++ [x] | Raise _ => sd_list d end.
Proof.
  intros c ls s H O AU m Em i j x o s' (e & He & Pe) Hs.
  assert (AU' : is_True (c_auto c) = false) by (destruct (is_True (c_auto c)) eqn:T; [apply is_True_iff in T; contradiction|reflexivity]).
  pose proof (held_own c ls s i e j H O He (or_intror (ex_intro _ x Pe))) as ->.
  pose proof (room_history c ls s AU' H O) as R. cbn in Hs. rewrite He, Pe in Hs. cbn in Hs.
  destruct (dropping s i) eqn:D; [discriminate|]. destruct (buf_of s i) as [d|] eqn:Ed; [|discriminate].
  assert (L : (Z.of_nat (sd_len d) < m)%Z).
  { specialize (R i e d m He). rewrite Pe in R. specialize (R Logic.I Ed Em). unfold len_seen in R. now rewrite gone_none, Nat.sub_0_r in R by assumption. }
  destruct (sd_append d x) as [d' u] eqn:EA. injection Hs as <-. exists d, d', u. split; [reflexivity|].
  split; [unfold buf_of, set_tpc in *; proj; rewrite ?buf_upd_id by reflexivity; rewrite buf_upd, Nat.eqb_refl; rewrite He; reflexivity|]. split; [exact L|]. split; [reflexivity|].
  destruct u as [[]|y]; [eapply append_room; eauto; eapply shaped_history; eauto|].
  destruct (append_cases d x) as [(k & _ & _ & E)|(z & E)]; rewrite E in EA; [discriminate|]. now injection EA as <- _.
Qed.
Print Assumptions C109_room_is_kept.
(** drop(2) on a full buffer of two: the thread looks at len() when one of the two is gone,
    and reads; it cannot add its item before the drop has ended. *)
Definition mid_drop : list label :=
  starting (PObj 7) ++ room_round 0 (PInt 1) ++ room_round 0 (PInt 2) ++
  [LT 0 (Ok PNone); LT 0 (Ok PNone); StreamBufferM.LDrop 2; LDropIn 0; LDropOne 0; LT 0 (Ok PNone); LT 0 (Ok (PInt 3)); LT 0 (Ok PNone)].
Example C109_nonvacuous :
  let s := end_of cfg_man mid_drop in history cfg_man mid_drop s /\ orderly cfg_man mid_drop /\
  (exists d, buf_of s 0 = Some d /\ sd_list d = [PInt 1; PInt 2] /\ len_seen s 0 d = 1) /\
  thread_is s 0 (TPut 0 (PInt 3)) /\ sb_step cfg_man s (LT 0 (Ok PNone)) = None /\
  let h := mid_drop ++ [LDropOne 0; LDropDo 0; LT 0 (Ok PNone)] in let t := end_of cfg_man h in
  history cfg_man h t /\ kept 0 (sb_tr t) = [PInt 3] /\ accepted_by 0 (sb_tr t) = [PInt 1; PInt 2; PInt 3] /\ dropping t 0 = None.
Proof.
  cbn zeta. split; [apply history_end; vm_compute; reflexivity|]. split; [apply orderlyb_ok; vm_compute; reflexivity|].
  split; [eexists; vm_compute; auto|]. split; [eexists; vm_compute; auto|]. split; [vm_compute; reflexivity|].
  split; [apply history_end; vm_compute; reflexivity|]. vm_compute. auto.
Qed.
(** source_reader_info in the middle of a drop of everything. *)
Example C109_info_nonvacuous :
  let h := mid_drop ++ [LDropOne 0] in let s := end_of cfg_man h in
  history cfg_man h s /\ source_reader_info s = PNone /\ source_reader_info (end_of cfg_man mid_drop) = PObj 7.
Proof. cbn zeta. split; [apply history_end; vm_compute; reflexivity|]. vm_compute. auto. Qed.
