(** * Totally ordered families of Python values *)
From Coq Require Import List ZArith QArith Bool Arith Lia.
From Verif Require Import PyVal PyValFacts Spec BisectFacts.
Import ListNotations.
Open Scope nat_scope.

Definition is_int (v : pyval) : Prop := exists z, v = PInt z.
Definition is_number (v : pyval) : Prop := exists f, num_of v = Some f /\ f <> FNaN.
Definition is_str (v : pyval) : Prop := exists s, v = PStr s.
Definition is_bytes (v : pyval) : Prop := exists s, v = PBytes s.
Definition is_pair (A B : pyval -> Prop) (v : pyval) : Prop :=
  exists a b, v = PTuple [a; b] /\ A a /\ B b.

Lemma num_lt a b x y : num_of a = Some x -> num_of b = Some y -> py_lt a b = Ok (flt_lt x y).
Proof.
  destruct a, b; cbn [num_of]; intros H1 H2; try discriminate; injection H1 as <-; injection H2 as <-; reflexivity.
Qed.
Lemma num_eq a b x y : num_of a = Some x -> num_of b = Some y -> py_eq a b = flt_eq x y.
Proof.
  destruct a, b; cbn [num_of]; intros H1 H2; try discriminate; injection H1 as <-; injection H2 as <-; reflexivity.
Qed.

Lemma number_family : total_family is_number.
Proof.
  constructor.
  - intros a b (x & Hx & _) (y & Hy & _). split; eexists; eapply num_lt; eauto.
  - intros a b (x & Hx & Nx) (y & Hy & Ny). unfold ltb.
    rewrite (num_lt a b x y), (num_lt b a y x), (num_eq a b x y) by assumption.
    now apply flt_lt_total.
Qed.
Lemma family_sub (P Q : pyval -> Prop) : (forall v, P v -> Q v) -> total_family Q -> total_family P.
Proof. intros H [H1 H2]. constructor; auto. Qed.
Lemma int_number v : is_int v -> is_number v.
Proof. intros (z & ->). exists (FFin (inject_Z z)). split; [reflexivity|discriminate]. Qed.
Lemma int_family : total_family is_int.
Proof. apply (family_sub _ is_number int_number number_family). Qed.
Lemma str_family : total_family is_str.
Proof.
  constructor.
  - intros a b (s & ->) (t & ->). split; cbn; eauto.
  - intros a b (s & ->) (t & ->). unfold ltb. cbn. intros H1 H2. apply zs_eq_iff.
    now apply zs_lt_total.
Qed.
Lemma bytes_family : total_family is_bytes.
Proof.
  constructor.
  - intros a b (s & ->) (t & ->). split; cbn; eauto.
  - intros a b (s & ->) (t & ->). unfold ltb. cbn. intros H1 H2. apply zs_eq_iff.
    now apply zs_lt_total.
Qed.
Lemma pair_lt2 a b c d : py_lt (PTuple [a; b]) (PTuple [c; d]) =
  if py_eq a c then (if py_eq b d then Ok false else py_lt b d) else py_lt a c.
Proof. reflexivity. Qed.
Lemma pair_eq2 a b c d : py_eq (PTuple [a; b]) (PTuple [c; d]) = py_eq a c && py_eq b d.
Proof. cbn. now rewrite andb_true_r. Qed.
Lemma pair_family A B : total_family A -> total_family B -> total_family (is_pair A B).
Proof.
  intros [A1 A2] [B1 B2]. constructor.
  - intros v w (a & b & -> & Ha & Hb) (c & d & -> & Hc & Hd). unfold comparable. rewrite !pair_lt2.
    destruct (A1 a c Ha Hc), (B1 b d Hb Hd).
    split; destruct (py_eq _ _); [destruct (py_eq _ _)| |destruct (py_eq _ _)|]; eauto.
  - intros v w (a & b & -> & Ha & Hb) (c & d & -> & Hc & Hd). rewrite pair_eq2.
    unfold ltb. rewrite !pair_lt2. rewrite (py_eq_sym c a), (py_eq_sym d b).
    destruct (py_eq a c) eqn:E1; [destruct (py_eq b d) eqn:E2|]; cbn [andb]; auto; intros H1 H2.
    + rewrite <- E2. now apply B2.
    + rewrite <- E1. now apply A2.
Qed.
