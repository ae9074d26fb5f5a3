(** * Facts on lists *)
From Coq Require Import List ZArith Bool Arith Lia Sorting.Sorted Sorting.Permutation.
From Verif Require Import PyVal PyLib Spec BisectFacts.
Import ListNotations.

Lemma nth_error_skipn {A} (l : list A) i j : nth_error (skipn i l) j = nth_error l (i + j).
Proof.
  revert l; induction i as [|i IH]; intro l; [reflexivity|]. destruct l; cbn; [now destruct j|]. apply IH.
Qed.
Lemma nth_error_firstn {A} (l : list A) i j : j < i -> nth_error (firstn i l) j = nth_error l j.
Proof.
  revert l j; induction i as [|i IH]; intros l j H; [lia|].
  destruct l; [now destruct j|]. destruct j; cbn; [reflexivity|]. apply IH. lia.
Qed.
Lemma skipn_skipn {A} (l : list A) i j : skipn i (skipn j l) = skipn (j + i) l.
Proof.
  revert l; induction j as [|j IH]; intro l; [reflexivity|].
  destruct l; cbn; [now rewrite skipn_nil|]. apply IH.
Qed.
Lemma hd_error_skipn {A} (l : list A) i : hd_error (skipn i l) = nth_error l i.
Proof. revert l; induction i as [|i IH]; intro l; destruct l; cbn; auto. Qed.
Lemma firstn_S_nth {A} (l : list A) i x :
  nth_error l i = Some x -> firstn (S i) l = firstn i l ++ [x].
Proof.
  revert l; induction i as [|i IH]; intros [|y l]; cbn; try discriminate.
  - now injection 1 as ->.
  - intro H. f_equal. now apply IH.
Qed.
Lemma skipn_nth_cons {A} (l : list A) i x :
  nth_error l i = Some x -> skipn i l = x :: skipn (S i) l.
Proof.
  revert l; induction i as [|i IH]; intros [|y l]; cbn; try discriminate.
  - now injection 1 as ->.
  - intro H. now apply IH.
Qed.

Lemma find_app_false {A} (g : A -> bool) a b :
  Forall (fun y => g y = false) a -> find g (a ++ b) = find g b.
Proof. induction 1 as [|x a Hx Ha IH]; cbn; [reflexivity|]. now rewrite Hx. Qed.
Lemma find_all_true {A} (g : A -> bool) b :
  Forall (fun y => g y = true) b -> find g b = hd_error b.
Proof. destruct 1 as [|x b Hx _]; cbn; [reflexivity|]. now rewrite Hx. Qed.
Lemma filter_all {A} (g : A -> bool) l : Forall (fun y => g y = true) l -> filter g l = l.
Proof. induction 1 as [|x a Hx Ha IH]; cbn; [reflexivity|]. now rewrite Hx, IH. Qed.
Lemma filter_none {A} (g : A -> bool) l : Forall (fun y => g y = false) l -> filter g l = [].
Proof. induction 1 as [|x a Hx Ha IH]; cbn; [reflexivity|]. now rewrite Hx. Qed.
Lemma filter_filter {A} (f g : A -> bool) l : filter f (filter g l) = filter (fun x => g x && f x) l.
Proof. induction l as [|x l IH]; cbn; [reflexivity|]. destruct (g x); cbn; rewrite ?IH; auto. Qed.
Lemma filter_ext_in' {A} (f g : A -> bool) l :
  (forall x, In x l -> f x = g x) -> filter f l = filter g l.
Proof.
  induction l as [|x l IH]; cbn; intro H; [reflexivity|].
  rewrite (H x) by auto. rewrite IH by auto. reflexivity.
Qed.
Lemma find_ext_in {A} (f g : A -> bool) l :
  (forall x, In x l -> f x = g x) -> find f l = find g l.
Proof.
  induction l as [|x l IH]; cbn; intro H; [reflexivity|].
  rewrite (H x) by auto. rewrite IH by auto. reflexivity.
Qed.

Lemma splits_ext {A} (f g : A -> bool) l i :
  (forall x, In x l -> f x = g x) -> splits f l i -> splits g l i.
Proof.
  intros H (H1 & H2 & H3). split; [assumption|]. split; intros j y Hj Hn.
  - rewrite <- H by (eapply nth_error_In; eauto). eauto.
  - rewrite <- H by (eapply nth_error_In; eauto). eauto.
Qed.
Lemma splits_find {A} (g : A -> bool) l i : splits g l i -> find g l = nth_error l i.
Proof.
  intro H. rewrite <- (firstn_skipn i l) at 1.
  rewrite find_app_false by now apply splits_firstn.
  rewrite find_all_true by now apply splits_skipn. apply hd_error_skipn.
Qed.
Lemma splits_filter {A} (g : A -> bool) l i : splits g l i -> filter g l = skipn i l.
Proof.
  intro H. rewrite <- (firstn_skipn i l) at 1. rewrite filter_app.
  rewrite filter_none by now apply splits_firstn.
  rewrite filter_all by now apply splits_skipn. reflexivity.
Qed.
Lemma splits_filter_neg {A} (g : A -> bool) l i :
  splits g l i -> filter (fun x => negb (g x)) l = firstn i l.
Proof.
  intro H. rewrite <- (firstn_skipn i l) at 1. rewrite filter_app.
  rewrite filter_all.
  - rewrite filter_none; [apply app_nil_r|].
    eapply Forall_impl; [|apply splits_skipn; eauto]. cbn. now intros a ->.
  - eapply Forall_impl; [|apply splits_firstn; eauto]. cbn. now intros a ->.
Qed.
Lemma splits_find_rev {A} (g : A -> bool) l i : splits g l i ->
  find (fun x => negb (g x)) (rev l) = if Nat.eqb i 0 then None else nth_error l (i - 1).
Proof.
  intro H. rewrite <- (firstn_skipn i l) at 1. rewrite rev_app_distr.
  rewrite find_app_false.
  2:{ apply Forall_rev. eapply Forall_impl; [|apply splits_skipn; eauto]. cbn. now intros a ->. }
  rewrite find_all_true.
  2:{ apply Forall_rev. eapply Forall_impl; [|apply splits_firstn; eauto]. cbn. now intros a ->. }
  destruct i as [|i]; [reflexivity|]. cbn [Nat.eqb]. rewrite Nat.sub_succ, Nat.sub_0_r.
  destruct H as (Hl & _). destruct (nth_error l i) as [x|] eqn:E.
  - rewrite (firstn_S_nth l i x E), rev_app_distr. reflexivity.
  - apply nth_error_None in E. lia.
Qed.
Lemma splits_position g l i : splits g l i ->
  position g l = if Nat.ltb i (length l) then Some i else None.
Proof.
  revert i; induction l as [|x l IH]; intros i (Hl & H1 & H2).
  - cbn. now destruct (Nat.ltb i 0).
  - cbn [position]. destruct i as [|i].
    + now rewrite (H2 0 x).
    + rewrite (H1 0 x) by (auto; lia). rewrite (IH i).
      * change (Nat.ltb (S i) (length (x :: l))) with (Nat.ltb i (length l)).
        now destruct (Nat.ltb i (length l)).
      * cbn in Hl. split; [lia|]. split; intros j y Hj Hn.
        -- apply (H1 (S j)); auto. lia.
        -- apply (H2 (S j)); auto. lia.
Qed.
Lemma splits_slice {A} (f g : A -> bool) l i j : splits f l i -> splits g l j ->
  filter (fun x => f x && negb (g x)) l = slice l i j.
Proof.
  intros Hf Hg. rewrite <- filter_filter. rewrite (splits_filter f l i Hf).
  unfold slice. apply splits_filter_neg.
  destruct Hg as (Hl & H1 & H2). split; [rewrite skipn_length; lia|].
  split; intros p y Hp; rewrite nth_error_skipn; intro Hn.
  - apply (H1 (i + p)); auto. lia.
  - apply (H2 (i + p)); auto. lia.
Qed.

Lemma Forall2_nth_l {A B} (R : A -> B -> Prop) l m : Forall2 R l m -> forall i x,
  nth_error l i = Some x -> exists y, nth_error m i = Some y /\ R x y.
Proof.
  induction 1 as [|a b l m Hab Hlm IH]; intros [|i] x; cbn; try discriminate.
  - injection 1 as <-. eauto.
  - apply IH.
Qed.
Lemma Forall2_nth_r {A B} (R : A -> B -> Prop) l m : Forall2 R l m -> forall i y,
  nth_error m i = Some y -> exists x, nth_error l i = Some x /\ R x y.
Proof.
  induction 1 as [|a b l m Hab Hlm IH]; intros [|i] x; cbn; try discriminate.
  - injection 1 as <-. eauto.
  - apply IH.
Qed.
Lemma Forall2_skipn {A B} (R : A -> B -> Prop) l m n :
  Forall2 R l m -> Forall2 R (skipn n l) (skipn n m).
Proof. intro H. revert n. induction H; intros [|n]; cbn; auto. Qed.
Lemma Forall2_firstn {A B} (R : A -> B -> Prop) l m n :
  Forall2 R l m -> Forall2 R (firstn n l) (firstn n m).
Proof. intro H. revert n. induction H; intros [|n]; cbn; auto. Qed.
Lemma Forall2_length {A B} (R : A -> B -> Prop) l m : Forall2 R l m -> length l = length m.
Proof. induction 1; cbn; auto. Qed.

(** ** newest / last_n *)
Lemma last_n_length {A} n (l : list A) : length (last_n n l) = Nat.min n (length l).
Proof. unfold last_n. rewrite skipn_length. lia. Qed.
Lemma last_n_all {A} n (l : list A) : length l <= n -> last_n n l = l.
Proof. intro H. unfold last_n. now replace (length l - n) with 0 by lia. Qed.
Lemma skipn_app_le {A} (a b : list A) n : n <= length a -> skipn n (a ++ b) = skipn n a ++ b.
Proof. intro H. rewrite skipn_app. now replace (n - length a) with 0 by lia. Qed.
Lemma last_n_snoc {A} n (l : list A) x : length l <= n -> 
  last_n n (l ++ [x]) = if Nat.ltb n (length (l ++ [x])) then tl (l ++ [x]) else l ++ [x].
Proof.
  intro H. unfold last_n. rewrite app_length. cbn [length].
  destruct (Nat.ltb_spec n (length l + 1)).
  - replace (length l + 1 - n) with 1 by lia. now destruct (l ++ [x]).
  - now replace (length l + 1 - n) with 0 by lia.
Qed.
Lemma last_n_app_last_n {A} n (a b : list A) : last_n n (last_n n a ++ b) = last_n n (a ++ b).
Proof.
  unfold last_n. rewrite !app_length, skipn_length.
  destruct (Nat.le_gt_cases (length a) n).
  - replace (length a - n) with 0 by lia. cbn [skipn]. f_equal. lia.
  - rewrite <- skipn_app_le by lia. rewrite skipn_skipn. f_equal. lia.
Qed.
Lemma newest_snoc {A} b (l : list A) x :
  (forall m, b = Some m -> length l <= m) -> deque_append b l x = newest b (l ++ [x]).
Proof.
  intro H. destruct b as [m|]; [|reflexivity]. cbn [deque_append newest].
  now rewrite last_n_snoc by auto.
Qed.
Lemma newest_app {A} b (a c : list A) : newest b (newest b a ++ c) = newest b (a ++ c).
Proof. destruct b; [apply last_n_app_last_n | reflexivity]. Qed.
Lemma newest_length {A} b (l : list A) : forall m, b = Some m -> length (newest b l) <= m.
Proof. intros m ->. cbn. rewrite last_n_length. lia. Qed.
Lemma newest_id {A} b (l : list A) : (forall m, b = Some m -> length l <= m) -> newest b l = l.
Proof. intro H. destruct b; [|reflexivity]. apply last_n_all. auto. Qed.
Lemma deque_of_fold {A} b (l acc : list A) : (forall m, b = Some m -> length acc <= m) ->
  fold_left (deque_append b) l acc = newest b (acc ++ l).
Proof.
  revert acc; induction l as [|x l IH]; intros acc H; cbn [fold_left].
  - rewrite app_nil_r. now rewrite newest_id.
  - rewrite newest_snoc by assumption. rewrite IH by apply newest_length.
    rewrite newest_app, <- app_assoc. reflexivity.
Qed.
Lemma deque_of_newest {A} b (l : list A) : deque_of b l = newest b l.
Proof. unfold deque_of. rewrite deque_of_fold; [reflexivity|]. intros; cbn; lia. Qed.
Lemma newest_skipn {A} b (l : list A) : exists n, newest b l = skipn n l /\
  forall (B : Type) (l' : list B), length l' = length l -> newest b l' = skipn n l'.
Proof.
  destruct b as [m|].
  - exists (length l - m). split; [reflexivity|]. intros B l' H. cbn. unfold last_n. now rewrite H.
  - exists 0. auto.
Qed.

(** ** stride *)
Lemma stride_spec {A} s (l : list A) : 0 < s -> forall a,
  map snd (filter (fun p => Nat.eqb (Nat.modulo (fst p) s) 0) (combine (seq a (length l)) l))
  = stride s ((s - a mod s) mod s) l.
Proof.
  intro Hs. induction l as [|x l IH]; intro a; [reflexivity|].
  cbn [length seq combine filter fst]. 
  pose proof (Nat.mod_upper_bound a s ltac:(lia)) as Hm.
  destruct (Nat.eqb_spec (a mod s) 0) as [E|E].
  - cbn [map snd]. rewrite IH. rewrite E, Nat.sub_0_r, Nat.mod_same by lia. cbn [stride]. f_equal.
    f_equal. rewrite <- (Nat.add_1_r a), Nat.add_mod, E by lia.
    destruct (Nat.eq_dec s 1) as [->|N1]; [reflexivity|].
    rewrite (Nat.mod_small 1 s) by lia. cbn [Nat.add]. rewrite (Nat.mod_small 1 s) by lia.
    apply Nat.mod_small. lia.
  - rewrite IH. rewrite (Nat.mod_small (s - a mod s)) by lia.
    destruct (s - a mod s) as [|k] eqn:E2; [lia|]. cbn [stride]. f_equal.
    rewrite <- (Nat.add_1_r a), Nat.add_mod by lia.
    destruct (Nat.eq_dec s 1) as [->|N1]; [cbn in *; lia|].
    rewrite (Nat.mod_small 1 s) by lia.
    destruct (Nat.eq_dec k 0) as [->|Nk].
    + replace (a mod s + 1) with s by lia. rewrite Nat.mod_same by lia.
      rewrite Nat.sub_0_r. apply Nat.mod_same. lia.
    + rewrite (Nat.mod_small (a mod s + 1)) by lia.
      rewrite Nat.mod_small by lia. lia.
Qed.
Lemma stride_every_nth {A} s (l : list A) : 0 < s -> stride s 0 l = every_nth s l.
Proof.
  intro Hs. unfold every_nth. rewrite stride_spec by assumption.
  rewrite Nat.mod_0_l, Nat.sub_0_r, Nat.mod_same by lia. reflexivity.
Qed.
