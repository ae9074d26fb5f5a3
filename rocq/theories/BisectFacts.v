(** * Correctness of binary search *)
From Coq Require Import List ZArith Bool Arith Lia Sorting.Sorted.
From Verif Require Import PyVal PyLib PyValFacts Spec.
Import ListNotations.

Lemma ltb_true a b : ltb a b = true <-> py_lt a b = Ok true.
Proof. unfold ltb. destruct (py_lt a b) as [r|e]; split; congruence. Qed.
Lemma ltb_of_ok a b r : py_lt a b = Ok r -> ltb a b = r.
Proof. unfold ltb. now intros ->. Qed.
Lemma ltb_trans a b c : ltb a b = true -> ltb b c = true -> ltb a c = true.
Proof. rewrite !ltb_true. apply py_lt_trans. Qed.
Lemma ltb_asym a b : ltb a b = true -> ltb b a = false.
Proof. rewrite ltb_true. intro H. apply ltb_of_ok. now apply py_lt_asym. Qed.
Lemma ltb_irrefl a : ltb a a = false.
Proof. destruct (ltb a a) eqn:E; [|reflexivity]. pose proof (ltb_asym _ _ E). congruence. Qed.
Lemma ltb_eq_l a b c : py_eq a b = true -> ltb a c = ltb b c.
Proof. intro H. unfold ltb. now rewrite (py_lt_eq_l a b c H). Qed.
Lemma ltb_eq_r a b c : py_eq a b = true -> ltb c a = ltb c b.
Proof. intro H. unfold ltb. now rewrite (py_lt_eq_r a b c H). Qed.
Lemma ltb_neq a b : ltb a b = true -> py_eq a b = false.
Proof. rewrite ltb_true. apply py_lt_neq. Qed.

(** Only TypeError comes out of a comparison. *)
Lemma py_lt_raise a b e : py_lt a b = Raise e -> e = TypeError.
Proof.
  revert b. induction a as [|x|x|x|s|s|l IH|i] using pyval_ind'; intros [|y|y|y|t|t|m|j];
    try (cbn; congruence).
  rewrite py_lt_tuple.
  revert m. induction IH as [|x l Hx Hl IH]; intros [|y m]; cbn [tup_lt]; try congruence.
  destruct (py_eq x y); [apply IH | apply Hx].
Qed.

(** ** Total families *)
Section Family.
  Variable P : pyval -> Prop.
  Hypothesis F : total_family P.
  Lemma tf_lt_ok a b : P a -> P b -> py_lt a b = Ok (ltb a b).
  Proof.
    intros Ha Hb. destruct (tf_comparable P F a b Ha Hb) as [[r Hr] _].
    now rewrite Hr, (ltb_of_ok _ _ _ Hr).
  Qed.
  (* not (b < a), b < c  ->  a < c *)
  Lemma tf_le_lt_trans a b c : P a -> P b -> P c ->
    ltb b a = false -> ltb b c = true -> ltb a c = true.
  Proof.
    intros Ha Hb Hc H1 H2. destruct (ltb a b) eqn:E.
    - now apply (ltb_trans a b c).
    - rewrite (ltb_eq_l a b c); [assumption|]. now apply (tf_antisym P F).
  Qed.
  Lemma tf_lt_le_trans a b c : P a -> P b -> P c ->
    ltb a b = true -> ltb c b = false -> ltb a c = true.
  Proof.
    intros Ha Hb Hc H1 H2. destruct (ltb b c) eqn:E.
    - now apply (ltb_trans a b c).
    - rewrite <- (ltb_eq_r b c a); [assumption|]. now apply (tf_antisym P F).
  Qed.
  Lemma tf_le_trans a b c : P a -> P b -> P c ->
    ltb b a = false -> ltb c b = false -> ltb c a = false.
  Proof.
    intros Ha Hb Hc H1 H2. destruct (ltb c a) eqn:E; [|reflexivity].
    rewrite (tf_lt_le_trans c a b) in H2; auto.
  Qed.
  Lemma tf_leb a b : P a -> P b -> leb a b = negb (ltb b a).
  Proof.
    intros Ha Hb. unfold leb. destruct (ltb a b) eqn:E1; cbn.
    - now rewrite (ltb_asym _ _ E1).
    - destruct (ltb b a) eqn:E2; cbn.
      + rewrite py_eq_sym. now apply ltb_neq.
      + now apply (tf_antisym P F).
  Qed.
End Family.

(** ** The loops *)
Definition up_closed (f : pyval -> bool) (a : list pyval) : Prop :=
  forall i j x y, i <= j -> nth_error a i = Some x -> nth_error a j = Some y ->
                  f x = true -> f y = true.
Definition down_closed (f : pyval -> bool) (a : list pyval) : Prop :=
  forall i j x y, i <= j -> nth_error a i = Some x -> nth_error a j = Some y ->
                  f y = true -> f x = true.

Lemma get_ok {A} (a : list A) i x : get a i = Ok x <-> nth_error a i = Some x.
Proof. unfold get. destruct (nth_error a i); split; congruence. Qed.
Lemma get_lt {A} (a : list A) i : i < length a -> exists x, get a i = Ok x /\ nth_error a i = Some x.
Proof.
  intro H. unfold get. destruct (nth_error a i) as [x|] eqn:E; [eauto|].
  apply nth_error_None in E. lia.
Qed.

(** [splits f a i]: everything left of [i] fails [f], everything from [i] on satisfies it. *)
Definition splits {A} (f : A -> bool) (a : list A) (i : nat) : Prop :=
  i <= length a /\
  (forall j y, j < i -> nth_error a j = Some y -> f y = false) /\
  (forall j y, i <= j -> nth_error a j = Some y -> f y = true).

Lemma mid_bounds lo hi : lo < hi -> lo <= (lo + hi) / 2 < hi.
Proof.
  intro H. pose proof (Nat.div_mod (lo + hi) 2). pose proof (Nat.mod_upper_bound (lo + hi) 2). lia.
Qed.

Lemma bisect_right_loop_spec a x fuel : forall lo hi i,
  up_closed (ltb x) a -> lo <= hi -> hi <= length a ->
  (forall j y, j < lo -> nth_error a j = Some y -> ltb x y = false) ->
  (forall j y, hi <= j -> nth_error a j = Some y -> ltb x y = true) ->
  bisect_right_loop fuel a x lo hi = Ok i -> splits (ltb x) a i.
Proof.
  induction fuel as [|fuel IH]; intros lo hi i Hm Hlh Hh Hlo Hhi; cbn [bisect_right_loop];
    destruct (Nat.ltb_spec lo hi) as [L|L]; try discriminate;
    try (intro HH; injection HH as <-; split; [lia|]; split; [exact Hlo|];
         intros j y Hj Hy; apply (Hhi j y); [lia|exact Hy]).
  pose proof (mid_bounds lo hi L) as [B1 B2]. set (mid := (lo + hi) / 2) in *.
  destruct (get_lt a mid) as (y & Hg & Hn); [lia|]. rewrite Hg. cbn [bind].
  destruct (py_lt x y) as [[|]|] eqn:E; cbn [bind]; [| |congruence]; apply IH; auto; try lia.
  - intros j z Hj Hz. eapply (Hm mid j y z); eauto. now apply ltb_true.
  - intros j z Hj Hz. destruct (ltb x z) eqn:C; [|reflexivity].
    assert (ltb x y = true) by (eapply (Hm j mid z y); eauto; lia).
    rewrite (ltb_of_ok _ _ _ E) in *. congruence.
Qed.

Lemma bisect_left_loop_spec a x fuel : forall lo hi i,
  down_closed (fun y => ltb y x) a -> lo <= hi -> hi <= length a ->
  (forall j y, j < lo -> nth_error a j = Some y -> ltb y x = true) ->
  (forall j y, hi <= j -> nth_error a j = Some y -> ltb y x = false) ->
  bisect_left_loop fuel a x lo hi = Ok i -> splits (fun y => negb (ltb y x)) a i.
Proof.
  induction fuel as [|fuel IH]; intros lo hi i Hm Hlh Hh Hlo Hhi; cbn [bisect_left_loop];
    destruct (Nat.ltb_spec lo hi) as [L|L]; try discriminate;
    try (intro HH; injection HH as <-; split; [lia|]; split; intros j y Hj Hy;
         [apply negb_false_iff; apply (Hlo j y); assumption
         |apply negb_true_iff; apply (Hhi j y); [lia|exact Hy]]).
  pose proof (mid_bounds lo hi L) as [B1 B2]. set (mid := (lo + hi) / 2) in *.
  destruct (get_lt a mid) as (y & Hg & Hn); [lia|]. rewrite Hg. cbn [bind].
  destruct (py_lt y x) as [[|]|] eqn:E; cbn [bind]; [| |congruence]; apply IH; auto; try lia.
  - intros j z Hj Hz. eapply (Hm j mid z y); eauto; [lia|]. now apply ltb_true.
  - intros j z Hj Hz. destruct (ltb z x) eqn:C; [|reflexivity].
    assert (ltb y x = true) by (eapply (Hm mid j y z); eauto; lia).
    rewrite (ltb_of_ok _ _ _ E) in *. congruence.
Qed.

Lemma bisect_right_spec a x i :
  up_closed (ltb x) a -> bisect_right a x = Ok i -> splits (ltb x) a i.
Proof.
  intros Hm H. eapply bisect_right_loop_spec in H; eauto; try lia.
  - intros j y Hj Hn. apply nth_error_None in Hj. congruence.
Qed.
Lemma bisect_left_spec a x i :
  down_closed (fun y => ltb y x) a -> bisect_left a x = Ok i ->
  splits (fun y => negb (ltb y x)) a i.
Proof.
  intros Hm H. eapply bisect_left_loop_spec in H; eauto; try lia.
  - intros j y Hj Hn. apply nth_error_None in Hj. congruence.
Qed.

(** Termination within the fuel, no out-of-range access, and the only possible exception is
    a TypeError of a comparison with a stored key. *)
Lemma bisect_right_loop_raise a x fuel : forall lo hi e,
  hi <= length a -> hi - lo <= fuel -> bisect_right_loop fuel a x lo hi = Raise e ->
  e = TypeError /\ exists y, In y a /\ py_lt x y = Raise TypeError.
Proof.
  induction fuel as [|fuel IH]; intros lo hi e Hh Hf; cbn [bisect_right_loop];
    destruct (Nat.ltb_spec lo hi) as [L|L]; try congruence; try lia.
  pose proof (mid_bounds lo hi L) as [B1 B2]. set (mid := (lo + hi) / 2) in *.
  destruct (get_lt a mid) as (y & Hg & Hn); [lia|]. rewrite Hg. cbn [bind].
  destruct (py_lt x y) as [[|]|] eqn:E; cbn [bind].
  - apply IH; lia.
  - apply IH; lia.
  - injection 1 as <-. pose proof (py_lt_raise _ _ _ E). subst. split; [reflexivity|].
    exists y. split; [|assumption]. eapply nth_error_In; eauto.
Qed.
Lemma bisect_left_loop_raise a x fuel : forall lo hi e,
  hi <= length a -> hi - lo <= fuel -> bisect_left_loop fuel a x lo hi = Raise e ->
  e = TypeError /\ exists y, In y a /\ py_lt y x = Raise TypeError.
Proof.
  induction fuel as [|fuel IH]; intros lo hi e Hh Hf; cbn [bisect_left_loop];
    destruct (Nat.ltb_spec lo hi) as [L|L]; try congruence; try lia.
  pose proof (mid_bounds lo hi L) as [B1 B2]. set (mid := (lo + hi) / 2) in *.
  destruct (get_lt a mid) as (y & Hg & Hn); [lia|]. rewrite Hg. cbn [bind].
  destruct (py_lt y x) as [[|]|] eqn:E; cbn [bind].
  - apply IH; lia.
  - apply IH; lia.
  - injection 1 as <-. pose proof (py_lt_raise _ _ _ E). subst. split; [reflexivity|].
    exists y. split; [|assumption]. eapply nth_error_In; eauto.
Qed.
Lemma bisect_right_raise a x e : bisect_right a x = Raise e ->
  e = TypeError /\ exists y, In y a /\ py_lt x y = Raise TypeError.
Proof. apply bisect_right_loop_raise; lia. Qed.
Lemma bisect_left_raise a x e : bisect_left a x = Raise e ->
  e = TypeError /\ exists y, In y a /\ py_lt y x = Raise TypeError.
Proof. apply bisect_left_loop_raise; lia. Qed.

Lemma bisect_right_ok a x : (forall y, In y a -> exists r, py_lt x y = Ok r) ->
  exists i, bisect_right a x = Ok i.
Proof.
  intro H. destruct (bisect_right a x) as [i|e] eqn:E; [eauto|].
  apply bisect_right_raise in E as (-> & y & Hy & C). destruct (H y Hy) as [r Hr]. congruence.
Qed.
Lemma bisect_left_ok a x : (forall y, In y a -> exists r, py_lt y x = Ok r) ->
  exists i, bisect_left a x = Ok i.
Proof.
  intro H. destruct (bisect_left a x) as [i|e] eqn:E; [eauto|].
  apply bisect_left_raise in E as (-> & y & Hy & C). destruct (H y Hy) as [r Hr]. congruence.
Qed.

(** ** Consequences of a split *)
Lemma splits_firstn {A} (f : A -> bool) a i : splits f a i -> Forall (fun y => f y = false) (firstn i a).
Proof.
  intros (Hl & H1 & _). apply Forall_forall. intros y Hy.
  apply In_nth_error in Hy as [j Hj].
  assert (j < i).
  { assert (j < length (firstn i a)) by (apply nth_error_Some; congruence).
    rewrite firstn_length in *. lia. }
  apply (H1 j y); [assumption|]. rewrite <- Hj.
  rewrite <- (firstn_skipn i a) at 1. rewrite nth_error_app1; [reflexivity|].
  rewrite firstn_length. lia.
Qed.
Lemma splits_skipn {A} (f : A -> bool) a i : splits f a i -> Forall (fun y => f y = true) (skipn i a).
Proof.
  intros (Hl & _ & H2). apply Forall_forall. intros y Hy.
  apply In_nth_error in Hy as [j Hj]. apply (H2 (i + j) y); [lia|].
  rewrite <- Hj. rewrite <- (firstn_skipn i a) at 1.
  rewrite nth_error_app2; rewrite firstn_length; [|lia]. f_equal. lia.
Qed.
Lemma splits_unique {A} (f : A -> bool) a i j : splits f a i -> splits f a j -> i = j.
Proof.
  intros (Hi & Hi1 & Hi2) (Hj & Hj1 & Hj2).
  destruct (lt_eq_lt_dec i j) as [[L|L]|L]; auto.
  - destruct (nth_error a i) as [y|] eqn:E; [|apply nth_error_None in E; lia].
    specialize (Hj1 i y L E). specialize (Hi2 i y (le_n _) E). congruence.
  - destruct (nth_error a j) as [y|] eqn:E; [|apply nth_error_None in E; lia].
    specialize (Hi1 j y L E). specialize (Hj2 j y (le_n _) E). congruence.
Qed.

(** ** Sorted lists are up/down closed *)
Lemma StronglySorted_nth {A} (R : A -> A -> Prop) l :
  StronglySorted R l <->
  (forall i j x y, i < j -> nth_error l i = Some x -> nth_error l j = Some y -> R x y).
Proof.
  split.
  - induction 1 as [|a l Hs IH Hf]; intros i j x y Hij Hi Hj.
    + destruct i; discriminate.
    + destruct j as [|j]; [lia|]. cbn in Hj. destruct i as [|i]; cbn in Hi.
      * injection Hi as <-. rewrite Forall_forall in Hf. apply Hf. eapply nth_error_In; eauto.
      * apply (IH i j); auto. lia.
  - induction l as [|a l IH]; intro H; constructor.
    + apply IH. intros i j x y Hij Hi Hj. apply (H (S i) (S j) x y); [lia|exact Hi|exact Hj].
    + apply Forall_forall. intros y Hy. apply In_nth_error in Hy as [j Hj].
      apply (H 0 (S j) a y); [lia|reflexivity|exact Hj].
Qed.

Definition strict_keys (ks : list pyval) : Prop := StronglySorted (fun a b => ltb a b = true) ks.
Definition nondecr_keys (ks : list pyval) : Prop := StronglySorted (fun a b => ltb b a = false) ks.

Lemma strict_nondecr ks : strict_keys ks -> nondecr_keys ks.
Proof.
  unfold strict_keys, nondecr_keys. rewrite !StronglySorted_nth. intros H i j x y Hij Hi Hj.
  apply ltb_asym. eapply H; eauto.
Qed.

Lemma strict_up_closed ks x : strict_keys ks -> up_closed (ltb x) ks.
Proof.
  unfold strict_keys. rewrite StronglySorted_nth. intros H i j a b Hij Hi Hj Ha.
  destruct (Nat.eq_dec i j) as [->|N]; [congruence|].
  apply (ltb_trans x a b); [assumption|]. apply (H i j); auto. lia.
Qed.
Lemma strict_down_closed ks x : strict_keys ks -> down_closed (fun y => ltb y x) ks.
Proof.
  unfold strict_keys. rewrite StronglySorted_nth. intros H i j a b Hij Hi Hj Ha.
  destruct (Nat.eq_dec i j) as [->|N]; [congruence|].
  apply (ltb_trans a b x); [|assumption]. apply (H i j); auto. lia.
Qed.

Section FamilyClosed.
  Variable P : pyval -> Prop.
  Hypothesis F : total_family P.
  Lemma nondecr_up_closed ks x : nondecr_keys ks -> Forall P ks -> P x -> up_closed (ltb x) ks.
  Proof.
    unfold nondecr_keys. rewrite StronglySorted_nth. intros H HP Hx i j a b Hij Hi Hj Ha.
    rewrite Forall_forall in HP.
    destruct (Nat.eq_dec i j) as [->|N]; [congruence|].
    apply (tf_lt_le_trans P F x a b); eauto using nth_error_In. apply (H i j); auto. lia.
  Qed.
  Lemma nondecr_down_closed ks x : nondecr_keys ks -> Forall P ks -> P x ->
    down_closed (fun y => ltb y x) ks.
  Proof.
    unfold nondecr_keys. rewrite StronglySorted_nth. intros H HP Hx i j a b Hij Hi Hj Ha.
    rewrite Forall_forall in HP.
    destruct (Nat.eq_dec i j) as [->|N]; [congruence|].
    apply (tf_le_lt_trans P F a b x); eauto using nth_error_In. apply (H i j); auto. lia.
  Qed.
End FamilyClosed.
