(** * How much a superseded session can still change (C48) *)
From Coq Require Import List ZArith Bool Arith Lia.
From Verif Require Import PyVal PyLib SortedDequeM BufferReaderM BufferSysM StreamBufferM SpecStream StreamFacts StreamLife StreamInv StreamOrderly StreamView StreamReads StreamMore PropsStreamRead PropsStream PropsConsume.
Import ListNotations.
Open Scope nat_scope.

(** ** Specification *)
(** The writes to the buffer of start [j] in a trace. *)
Definition writes (j : nat) (tr : list ev) : nat :=
  length (filter (fun e => match e with EAppend _ k _ _ => k =? j | EDrop (Some k) _ _ => k =? j | _ => false end) tr).
(** How many threads and callers of drop() are between loading the buffer of start [j] and
    writing to it. *)
Definition holders (s : sb) (j : nat) : nat :=
  length (filter (fun e => match se_pc e with TPut k _ => k =? j | _ => false end) (sb_ss s)) + length (filter (fun p => fst p =? j) (sb_dr s)).

(** ** Facts *)
Definition b2n (b : bool) : nat := if b then 1 else 0.
Lemma filter_set {A} (f : A -> bool) l : forall k e e', nth_error l k = Some e -> length (filter f (set_nth l k e')) + b2n (f e) = length (filter f l) + b2n (f e').
Proof.
  induction l as [|y l IH]; intros [|k] e e' H; cbn in H; try discriminate.
  - injection H as ->. cbn. destruct (f e), (f e'); cbn; lia.
  - cbn. specialize (IH k e e' H). destruct (f y); cbn; lia.
Qed.
Lemma set_nth_map {A B} (h : A -> B) l : forall k e, map h (set_nth l k e) = set_nth (map h l) k (h e).
Proof. induction l as [|y l IH]; intros [|k] e; cbn; try reflexivity. now rewrite IH. Qed.
Lemma set_nth_self {A} (l : list A) : forall k e, nth_error l k = Some e -> set_nth l k e = l.
Proof. induction l as [|y l IH]; intros [|k] e H; cbn in *; try discriminate; [now injection H as ->|]. now rewrite IH. Qed.
Lemma pcs_upd l k g : (forall e, se_pc (g e) = se_pc e) -> map se_pc (upd l k g) = map se_pc l.
Proof. intro G. unfold upd. destruct (nth_error l k) as [e|] eqn:E; [|reflexivity]. rewrite set_nth_map, G. apply set_nth_self. now rewrite nth_error_map, E. Qed.
Lemma set_nth_out {A} (l : list A) : forall k e, nth_error l k = None -> set_nth l k e = l.
Proof. induction l as [|y l IH]; intros [|k] e H; cbn in *; try reflexivity; try discriminate. now rewrite IH. Qed.
Lemma pcs_put l k p : map se_pc (upd l k (fun e => w_pc e p)) = set_nth (map se_pc l) k p.
Proof. unfold upd. destruct (nth_error l k) as [e|] eqn:E; [now rewrite set_nth_map|]. rewrite set_nth_out; [reflexivity|]. now rewrite nth_error_map, E. Qed.
Lemma filter_removed {A} (f : A -> bool) l : forall k e, nth_error l k = Some e -> length (filter f (firstn k l ++ skipn (S k) l)) + b2n (f e) = length (filter f l).
Proof.
  induction l as [|y l IH]; intros [|k] e H; cbn in H; try discriminate.
  - injection H as ->. cbn. destruct (f e); cbn; lia.
  - specialize (IH k e H). cbn [firstn skipn app filter] in *. destruct (f y); cbn [length]; lia.
Qed.
Lemma writes_snoc j tr e : writes j (tr ++ [e]) = writes j tr + match e with EAppend _ k _ _ => b2n (k =? j) | EDrop (Some k) _ _ => b2n (k =? j) | _ => 0 end.
Proof. unfold writes. rewrite filter_app, app_length. cbn [filter]. destruct e; try (cbn; lia); [|destruct j0 as [k|]; [|cbn; lia]]; destruct (_ =? j); cbn; lia. Qed.
Definition puts (j : nat) (p : tpc) : bool := match p with TPut k _ => k =? j | _ => false end.
Lemma filter_map_len {A B} (h : A -> B) f l : length (filter (fun x => f (h x)) l) = length (filter f (map h l)).
Proof. induction l as [|x l IH]; [reflexivity|]. cbn. destruct (f (h x)); cbn; now rewrite IH. Qed.
Lemma holders_pcs s j : holders s j = length (filter (puts j) (map se_pc (sb_ss s))) + length (filter (fun p => fst p =? j) (sb_dr s)).
Proof. unfold holders. f_equal. exact (filter_map_len se_pc (puts j) (sb_ss s)). Qed.
Lemma holders_step c s l s' j : sinv s -> S j < length (sb_ss s) -> sb_step c s l = Some s' -> writes j (sb_tr s') + holders s' j <= writes j (sb_tr s) + holders s j.
Proof.
  intros I L H. assert (NC : forall k, sb_cur s = Some k -> (k =? j) = false) by (intros k C; apply Nat.eqb_neq; intros ->; destruct (si_cur s I j C); lia).
  rewrite !holders_pcs.
  assert (PUT : forall k p e, nth_error (sb_ss s) k = Some e -> length (filter (puts j) (set_nth (map se_pc (sb_ss s)) k p)) + b2n (puts j (se_pc e)) = length (filter (puts j) (map se_pc (sb_ss s))) + b2n (puts j p)).
  { intros k p e E. apply filter_set. now rewrite nth_error_map, E. }
  assert (NEW : sb_start s = SSpawn -> exists e, nth_error (sb_ss s) (latest s) = Some e /\ se_pc e = TNew) by (intro X; pose proof (si_new s I) as N; now rewrite X in N).
  step_cases H; injection H as <-; proj; rewrite ?writes_snoc, ?pcs_put, ?pcs_upd, ?map_app, ?filter_app, ?app_length by reflexivity; cbn [map filter length fst se_pc puts]; try lia.
  all: try (destruct (NEW ltac:(assumption)) as (e0 & E9 & P9); pose proof (PUT _ TCheck _ E9) as X9; rewrite P9 in X9; cbn in X9; lia).
  all: try (rewrite NC by assumption; cbn; lia).
  all: try (match goal with Q : forall k p e, nth_error _ k = Some e -> _, E : nth_error _ ?k = Some ?e, P : se_pc ?e = _ |- context [set_nth _ ?k ?p] => pose proof (Q k p e E) as X9; rewrite P in X9; cbn [puts b2n] in X9 end).
  all: try lia.
  all: try (match goal with X9 : context [puts _ (if ?b then _ else _)] |- _ => destruct b; cbn [puts b2n] in X9; lia end).
  - match goal with E : nth_error (sb_dr s) _ = Some _ |- _ => pose proof (filter_removed (fun p => fst p =? j) _ _ _ E) as X9 end. rewrite filter_app, app_length in X9. cbn [fst skipn] in X9. subst p; cbn [fst] in X9; lia.
  - rewrite NC in X9 by assumption. cbn [b2n] in X9. lia.
  - destruct r; cbn [puts b2n] in X9; lia.
Qed.
(** A session that is superseded changes at most as often as there were threads and callers
    holding its buffer: each of them writes at most once more, nobody else does. *)
Theorem C48_late_writes_bounded_partial :
  forall c ls s, history c ls s -> forall j, superseded j (sb_tr s) ->
  forall ls' s', sb_run c s ls' = Some s' ->
  exists es, sb_tr s' = sb_tr s ++ es /\ writes j es <= holders s j.
Proof.
  intros c ls s H j (k & o & Hk & Hin) ls' s' R. pose proof (open_lt c ls s H k o Hin) as L. destruct (run_trace c ls' s s' R) as (es & E). exists es. split; [assumption|].
  enough (G : forall ls' s', sb_run c s ls' = Some s' -> S j < length (sb_ss s') /\ writes j (sb_tr s') + holders s' j <= writes j (sb_tr s) + holders s j).
  { destruct (G ls' s' R) as [_ B]. rewrite E in B. unfold writes in B |- *. rewrite filter_app, app_length in B. lia. }
  clear - H L Hk. induction ls' as [|l ls' IH] using rev_ind; intros s' R; [injection R as <-; split; lia|].
  apply sb_run_snoc in R as (m & Hm & Hs). destruct (IH m Hm) as [LM B]. pose proof (StreamLife.step_length _ _ _ _ Hs) as SL. split; [lia|].
  assert (Hm' : history c (ls ++ ls') m) by (unfold history in *; now rewrite sb_run_app, H).
  pose proof (holders_step c m l s' j (sinv_history c _ m Hm') LM Hs). lia.
Qed.
Print Assumptions C48_late_writes_bounded_partial.
(** Both writers of the two counterexamples: one holder, one write. *)
Example C48_bounded_nonvacuous :
  let s := end_of cfg3 late_put in let s' := end_of cfg3 (late_put ++ [LT 0 (Ok PNone)]) in
  history cfg3 late_put s /\ superseded 0 (sb_tr s) /\ holders s 0 = 1 /\ holders s' 0 = 0 /\ sb_run cfg3 s [LT 0 (Ok PNone)] = Some s' /\ writes 0 (sb_tr s') = S (writes 0 (sb_tr s)).
Proof.
  cbn zeta. split; [apply history_end; vm_compute; reflexivity|]. split. { exists 1, (Ok tt). split; [lia|]. vm_compute. repeat (try (left; reflexivity); right). }
  split; [vm_compute; reflexivity|]. split; [vm_compute; reflexivity|]. split; vm_compute; reflexivity.
Qed.

(** ** C49: one call of drop(n), one outcome *)
(** Every call of drop(n) has exactly one outcome, once it is no longer under way: it drops
    (or raises) once, not twice, and no other [n] than the one given. *)
Theorem C49_each_call_once :
  forall c ls s, history c ls s -> forall n,
  length (filter (fun e => match e with EDrop _ m _ => Z.eqb m n | _ => false end) (sb_tr s)) + length (filter (fun p => Z.eqb (snd p) n) (sb_dr s)) =
  length (filter (fun l => match l with StreamBufferM.LDrop m => Z.eqb m n | _ => false end) ls).
Proof.
  intros c ls s H n. revert ls s H. apply (sb_ind c (fun ls s => length (filter (fun e => match e with EDrop _ m _ => Z.eqb m n | _ => false end) (sb_tr s)) + length (filter (fun p => Z.eqb (snd p) n) (sb_dr s)) =
    length (filter (fun l => match l with StreamBufferM.LDrop m => Z.eqb m n | _ => false end) ls))); [reflexivity|].
  intros ls s l s' _ IH H. rewrite (filter_app _ ls), app_length, <- IH. clear IH.
  step_cases H; injection H as <-; subst l; proj; rewrite ?filter_app, ?app_length; cbn [filter length snd];
    repeat match goal with |- context [Z.eqb ?a n] => is_var a; destruct (Z.eqb a n) eqn:? end; cbn [length]; try lia.
  all: match goal with E : nth_error (sb_dr _) _ = Some _ |- _ => pose proof (filter_removed (fun p => Z.eqb (snd p) n) _ _ _ E) as X9 end;
    rewrite filter_app, app_length in X9; subst; cbn [snd skipn] in X9; match goal with Q : Z.eqb _ _ = _ |- _ => rewrite Q in X9 end; cbn [b2n] in X9; lia.
Qed.
Print Assumptions C49_each_call_once.
Example C49_each_call_once_nonvacuous :
  let h := full_hist ++ [StreamBufferM.LDrop 5; StreamBufferM.LDrop 1; LDropDo 1] in let s := end_of cfg_man h in
  history cfg_man h s /\ sb_dr s = [(0, 5%Z)] /\ In (EDrop (Some 0) 1 (Ok tt)) (sb_tr s).
Proof. cbn zeta. split; [apply history_end; vm_compute; reflexivity|]. split; [vm_compute; reflexivity|]. vm_compute. repeat (try (left; reflexivity); right). Qed.
