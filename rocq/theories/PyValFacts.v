(** * Laws of the Python comparison operators of [PyVal] *)
From Coq Require Import List ZArith QArith Bool Arith Lia.
From Verif Require Import PyVal.
Import ListNotations.
Open Scope nat_scope.

(** ** Induction on values *)
Section PyvalInd.
  Variable P : pyval -> Prop.
  Hypothesis HNone : P PNone.
  Hypothesis HBool : forall b, P (PBool b).
  Hypothesis HInt : forall z, P (PInt z).
  Hypothesis HFloat : forall f, P (PFloat f).
  Hypothesis HStr : forall s, P (PStr s).
  Hypothesis HBytes : forall s, P (PBytes s).
  Hypothesis HTuple : forall l, Forall P l -> P (PTuple l).
  Hypothesis HObj : forall i, P (PObj i).
  Fixpoint pyval_ind' (v : pyval) : P v :=
    match v with
    | PNone => HNone
    | PBool b => HBool b
    | PInt z => HInt z
    | PFloat f => HFloat f
    | PStr s => HStr s
    | PBytes s => HBytes s
    | PTuple l =>
        HTuple l ((fix go (l : list pyval) : Forall P l :=
                     match l with
                     | [] => Forall_nil P
                     | x :: l' => Forall_cons x (pyval_ind' x) (go l')
                     end) l)
    | PObj i => HObj i
    end.
End PyvalInd.

(** ** Tuples *)
Fixpoint tup_eq (l m : list pyval) : bool :=
  match l, m with
  | [], [] => true
  | x :: l', y :: m' => py_eq x y && tup_eq l' m'
  | _, _ => false
  end.
Fixpoint tup_lt (l m : list pyval) : res bool :=
  match l, m with
  | _, [] => Ok false
  | [], _ :: _ => Ok true
  | x :: l', y :: m' => if py_eq x y then tup_lt l' m' else py_lt x y
  end.
Lemma py_eq_tuple l m : py_eq (PTuple l) (PTuple m) = tup_eq l m.
Proof. reflexivity. Qed.
Lemma py_lt_tuple l m : py_lt (PTuple l) (PTuple m) = tup_lt l m.
Proof. reflexivity. Qed.

(** ** Strings *)
Lemma zs_eq_iff a b : zs_eq a b = true <-> a = b.
Proof.
  revert b; induction a as [|x a IH]; intros [|y b]; cbn; split; intro H; try congruence.
  - apply andb_true_iff in H as [H1 H2]. apply Z.eqb_eq in H1. apply IH in H2. congruence.
  - injection H as -> ->. rewrite Z.eqb_refl. cbn. now apply IH.
Qed.
Lemma zs_lt_trans a b c : zs_lt a b = true -> zs_lt b c = true -> zs_lt a c = true.
Proof.
  revert b c; induction a as [|x a IH]; intros [|y b] [|z c]; cbn; try congruence.
  destruct (Z.eqb_spec x y), (Z.eqb_spec y z), (Z.eqb_spec x z); subst; try congruence;
    intros H1 H2; try (apply Z.ltb_lt in H1); try (apply Z.ltb_lt in H2);
    try apply Z.ltb_lt; try lia.
  eapply IH; eassumption.
Qed.
Lemma zs_lt_asym a b : zs_lt a b = true -> zs_lt b a = false.
Proof.
  revert b; induction a as [|x a IH]; intros [|y b]; cbn; try congruence.
  rewrite (Z.eqb_sym y x). destruct (Z.eqb_spec x y); [apply IH|].
  intro H. apply Z.ltb_lt in H. apply Z.ltb_ge. lia.
Qed.
Lemma zs_lt_total a b : zs_lt a b = false -> zs_lt b a = false -> a = b.
Proof.
  revert b; induction a as [|x a IH]; intros [|y b]; cbn; try congruence.
  rewrite (Z.eqb_sym y x). destruct (Z.eqb_spec x y).
  - intros. f_equal; auto.
  - intros H1 H2. apply Z.ltb_ge in H1, H2. lia.
Qed.

(** ** Numbers *)
Lemma Qlt_bool_iff a b : Qlt_bool a b = true <-> (a < b)%Q.
Proof.
  unfold Qlt_bool. rewrite negb_true_iff. split; intro H.
  - apply Qnot_le_lt. intro C. apply Qle_bool_iff in C. congruence.
  - destruct (Qle_bool b a) eqn:E; [|reflexivity]. apply Qle_bool_iff in E.
    exfalso. now apply (Qlt_not_le a b).
Qed.
Lemma Qlt_bool_false a b : Qlt_bool a b = false <-> (b <= a)%Q.
Proof. unfold Qlt_bool. rewrite negb_false_iff. apply Qle_bool_iff. Qed.

Lemma flt_eq_sym a b : flt_eq a b = flt_eq b a.
Proof.
  destruct a, b; cbn; try reflexivity. apply eq_true_iff_eq. rewrite !Qeq_bool_iff. split; apply Qeq_sym.
Qed.
Lemma flt_eq_trans a b c : flt_eq a b = true -> flt_eq b c = true -> flt_eq a c = true.
Proof.
  destruct a, b, c; cbn; try congruence. rewrite !Qeq_bool_iff. apply Qeq_trans.
Qed.
Lemma flt_lt_eq_l a b c : flt_eq a b = true -> flt_lt a c = flt_lt b c.
Proof.
  destruct a, b, c; cbn; try congruence. rewrite Qeq_bool_iff. intro H.
  apply eq_true_iff_eq. rewrite !Qlt_bool_iff. now rewrite H.
Qed.
Lemma flt_lt_eq_r a b c : flt_eq a b = true -> flt_lt c a = flt_lt c b.
Proof.
  destruct a, b, c; cbn; try congruence. rewrite Qeq_bool_iff. intro H.
  apply eq_true_iff_eq. rewrite !Qlt_bool_iff. now rewrite H.
Qed.
Lemma flt_lt_trans a b c : flt_lt a b = true -> flt_lt b c = true -> flt_lt a c = true.
Proof. destruct a, b, c; cbn; try congruence. rewrite !Qlt_bool_iff. apply Qlt_trans. Qed.
Lemma flt_lt_asym a b : flt_lt a b = true -> flt_lt b a = false.
Proof.
  destruct a, b; cbn; try congruence. rewrite Qlt_bool_iff, Qlt_bool_false. apply Qlt_le_weak.
Qed.
Lemma flt_lt_neq a b : flt_lt a b = true -> flt_eq a b = false.
Proof.
  destruct a, b; cbn; try congruence. rewrite Qlt_bool_iff. intro H.
  destruct (Qeq_bool q q0) eqn:E; [|reflexivity]. apply Qeq_bool_iff in E.
  rewrite E in H. now apply Qlt_irrefl in H.
Qed.
Lemma flt_lt_total a b : a <> FNaN -> b <> FNaN ->
  flt_lt a b = false -> flt_lt b a = false -> flt_eq a b = true.
Proof.
  destruct a, b; cbn; try congruence. intros _ _. rewrite !Qlt_bool_false, Qeq_bool_iff.
  intros. now apply Qle_antisym.
Qed.

(** ** The operators on values *)
Lemma py_eq_sym a b : py_eq a b = py_eq b a.
Proof.
  revert b. induction a as [|x|x|x|s|s|l IH|i] using pyval_ind'; intros [|y|y|y|t|t|m|j];
    try reflexivity; try (cbn [py_eq py_lt num_of tup_eq tup_lt]; apply flt_eq_sym).
  - cbn [py_eq py_lt num_of tup_eq tup_lt]. apply eq_true_iff_eq. rewrite !zs_eq_iff. split; congruence.
  - cbn [py_eq py_lt num_of tup_eq tup_lt]. apply eq_true_iff_eq. rewrite !zs_eq_iff. split; congruence.
  - rewrite !py_eq_tuple. revert m. induction IH as [|x l Hx Hl IH]; intros [|y m]; cbn [py_eq py_lt num_of tup_eq tup_lt]; try reflexivity.
    now rewrite Hx, IH.
  - cbn [py_eq py_lt num_of tup_eq tup_lt]. apply Nat.eqb_sym.
Qed.

Lemma py_eq_num a b : py_eq a b = true -> num_of a = None -> num_of b = None.
Proof. destruct a, b; cbn [py_eq py_lt num_of tup_eq tup_lt]; congruence. Qed.

Lemma py_eq_trans a b c : py_eq a b = true -> py_eq b c = true -> py_eq a c = true.
Proof.
  revert b c. induction a as [|x|x|x|s|s|l IH|i] using pyval_ind'; intros [|y|y|y|t|t|m|j] c;
    try (cbn [py_eq py_lt num_of tup_eq tup_lt]; congruence);
    try (destruct c; cbn [py_eq py_lt num_of tup_eq tup_lt]; try congruence; apply flt_eq_trans).
  - destruct c; cbn [py_eq py_lt num_of tup_eq tup_lt]; try congruence. rewrite !zs_eq_iff. congruence.
  - destruct c; cbn [py_eq py_lt num_of tup_eq tup_lt]; try congruence. rewrite !zs_eq_iff. congruence.
  - destruct c as [|?|?|?|?|?|n|?]; try (cbn [py_eq py_lt num_of tup_eq tup_lt]; congruence). rewrite !py_eq_tuple.
    revert m n. induction IH as [|x l Hx Hl IH]; intros [|y m] [|z n]; cbn [py_eq py_lt num_of tup_eq tup_lt]; try congruence.
    rewrite !andb_true_iff. intros [H1 H2] [H3 H4]. split; [eapply Hx|eapply IH]; eassumption.
  - destruct c; cbn [py_eq py_lt num_of tup_eq tup_lt]; try congruence. rewrite !Nat.eqb_eq. congruence.
Qed.

Lemma py_eq_cong_l a b c : py_eq a b = true -> py_eq a c = py_eq b c.
Proof.
  intro H. apply eq_true_iff_eq. split; intro H1.
  - eapply py_eq_trans; [rewrite py_eq_sym|]; eassumption.
  - eapply py_eq_trans; eassumption.
Qed.
Lemma py_eq_cong_r a b c : py_eq a b = true -> py_eq c a = py_eq c b.
Proof. intro H. rewrite !(py_eq_sym c). now apply py_eq_cong_l. Qed.

Lemma py_lt_eq_l a b c : py_eq a b = true -> py_lt a c = py_lt b c.
Proof.
  revert b c. induction a as [|x|x|x|s|s|l IH|i] using pyval_ind'; intros [|y|y|y|t|t|m|j] c;
    try (cbn [py_eq py_lt num_of tup_eq tup_lt]; congruence);
    try (destruct c; cbn [py_eq py_lt num_of tup_eq tup_lt]; intro H; try reflexivity; f_equal; now apply flt_lt_eq_l).
  - intro H. cbn [py_eq num_of] in H. apply zs_eq_iff in H. now subst.
  - intro H. cbn [py_eq num_of] in H. apply zs_eq_iff in H. now subst.
  - destruct c as [|?|?|?|?|?|n|?]; try reflexivity. rewrite !py_eq_tuple, !py_lt_tuple.
    revert m n. induction IH as [|x l Hx Hl IH]; intros [|y m] [|z n]; cbn [py_eq py_lt num_of tup_eq tup_lt]; try congruence.
    rewrite andb_true_iff. intros [H1 H2]. rewrite (py_eq_cong_l x y z H1).
    destruct (py_eq y z); [now apply IH | now apply Hx].
Qed.
Lemma py_lt_eq_r a b c : py_eq a b = true -> py_lt c a = py_lt c b.
Proof.
  revert a b. induction c as [|x|x|x|s|s|n IH|i] using pyval_ind'; intros a b H;
    try (destruct a, b; cbn [py_eq py_lt num_of] in H |- *; try congruence; try reflexivity;
         first [ f_equal; now apply flt_lt_eq_r | apply zs_eq_iff in H; now subst ]).
  destruct a as [|?|?|?|?|?|l|?], b as [|?|?|?|?|?|m|?]; cbn [py_eq num_of] in H; try congruence; try reflexivity.
  change (py_eq (PTuple l) (PTuple m) = true) in H.
  rewrite py_eq_tuple in H. rewrite !py_lt_tuple.
  revert l m H. induction IH as [|z n Hz Hn IH]; intros [|x l] [|y m]; cbn [py_eq py_lt num_of tup_eq tup_lt]; try congruence.
  rewrite andb_true_iff. intros [H1 H2]. rewrite (py_eq_cong_r x y z H1).
  destruct (py_eq z y); [now apply IH | now apply Hz].
Qed.

Lemma py_lt_neq a b : py_lt a b = Ok true -> py_eq a b = false.
Proof.
  revert b. induction a as [|x|x|x|s|s|l IH|i] using pyval_ind'; intros [|y|y|y|t|t|m|j];
    try (cbn [py_eq py_lt num_of tup_eq tup_lt]; congruence);
    try (cbn [py_eq py_lt num_of tup_eq tup_lt]; intro H; apply flt_lt_neq; congruence).
  - cbn [py_eq py_lt num_of tup_eq tup_lt]. intro H. destruct (zs_eq s t) eqn:E; [|reflexivity]. apply zs_eq_iff in E. subst.
    injection H as H. pose proof (zs_lt_asym _ _ H). congruence.
  - cbn [py_eq py_lt num_of tup_eq tup_lt]. intro H. destruct (zs_eq s t) eqn:E; [|reflexivity]. apply zs_eq_iff in E. subst.
    injection H as H. pose proof (zs_lt_asym _ _ H). congruence.
  - rewrite py_eq_tuple, py_lt_tuple.
    revert m. induction IH as [|x l Hx Hl IH]; intros [|y m]; cbn [py_eq py_lt num_of tup_eq tup_lt]; try congruence.
    destruct (py_eq x y) eqn:E; cbn [py_eq py_lt num_of tup_eq tup_lt]; [apply IH | reflexivity].
Qed.

Lemma py_lt_asym a b : py_lt a b = Ok true -> py_lt b a = Ok false.
Proof.
  revert b. induction a as [|x|x|x|s|s|l IH|i] using pyval_ind'; intros [|y|y|y|t|t|m|j];
    try (cbn [py_eq py_lt num_of tup_eq tup_lt]; congruence);
    try (cbn [py_eq py_lt num_of tup_eq tup_lt]; intro H; f_equal; first [apply flt_lt_asym | apply zs_lt_asym]; congruence).
  rewrite !py_lt_tuple.
  revert m. induction IH as [|x l Hx Hl IH]; intros [|y m]; cbn [py_eq py_lt num_of tup_eq tup_lt]; try congruence.
  rewrite (py_eq_sym y x). destruct (py_eq x y); [apply IH | apply Hx].
Qed.

Lemma py_lt_irrefl a : py_lt a a <> Ok true.
Proof. intro H. pose proof (py_lt_asym _ _ H). congruence. Qed.

Lemma flt_lt_trans' a b c :
  Ok (flt_lt a b) = Ok true -> Ok (flt_lt b c) = Ok true -> Ok (flt_lt a c) = Ok true.
Proof.
  intros H1 H2. f_equal. apply (flt_lt_trans a b c); congruence.
Qed.
Lemma zs_lt_trans' a b c :
  Ok (zs_lt a b) = Ok true -> Ok (zs_lt b c) = Ok true -> Ok (zs_lt a c) = Ok true.
Proof. intros H1 H2. f_equal. apply (zs_lt_trans a b c); congruence. Qed.

(** Transitivity holds whenever both comparisons succeed with True, whatever the types. *)
Lemma py_lt_trans a b c : py_lt a b = Ok true -> py_lt b c = Ok true -> py_lt a c = Ok true.
Proof.
  revert b c. induction a as [|x|x|x|s|s|l IH|i] using pyval_ind'; intros [|y|y|y|t|t|m|j] c;
    try (cbn [py_eq py_lt num_of tup_eq tup_lt]; congruence);
    try (destruct c; cbn [py_eq py_lt num_of tup_eq tup_lt]; try congruence;
         first [apply flt_lt_trans' | apply zs_lt_trans']).
  destruct c as [|?|?|?|?|?|n|?]; try (cbn [py_eq py_lt num_of tup_eq tup_lt]; congruence). rewrite !py_lt_tuple.
  revert m n. induction IH as [|x l Hx Hl IH]; intros [|y m] [|z n]; cbn [py_eq py_lt num_of tup_eq tup_lt]; try congruence.
  intros H1 H2. destruct (py_eq x y) eqn:Exy.
  - rewrite (py_eq_cong_l x y z Exy). destruct (py_eq y z) eqn:Eyz; [eapply IH; eassumption|].
    now rewrite (py_lt_eq_l x y z Exy).
  - destruct (py_eq y z) eqn:Eyz.
    + rewrite <- (py_eq_cong_r y z x Eyz), Exy. now rewrite <- (py_lt_eq_r y z x Eyz).
    + assert (H3 : py_lt x z = Ok true) by (eapply Hx; eassumption).
      now rewrite (py_lt_neq _ _ H3).
Qed.

Lemma same_item_refl x : same_item x x = true.
Proof. unfold same_item. destruct (pyval_eq_dec x x); congruence. Qed.
