(** * Proofs about [SortedDequeM] *)
From Coq Require Import List ZArith Bool Arith Lia Sorting.Sorted Sorting.Permutation.
From Verif Require Import PyVal PyLib PyValFacts SortedDequeM Spec SpecDeque BisectFacts ListFacts.
Import ListNotations.

Definition keyed (key : pyval -> res pyval) (l ks : list pyval) : Prop :=
  Forall2 (fun x k => key x = Ok k) l ks.
Definition consistent (d : sdeque) : Prop := keyed (sd_key d) (sd_items d) (sd_keys d).

Lemma keyed_splits key f l ks i : keyed key l ks -> splits f ks i -> splits (key_sat key f) l i.
Proof.
  intros HK (H & H1 & H2). pose proof (Forall2_length _ _ _ HK) as HL.
  split; [lia|]. split; intros j x Hj Hn;
    destruct (Forall2_nth_l _ _ _ HK j x Hn) as (k & Hk & E); unfold key_sat; rewrite E; eauto.
Qed.
Lemma keyed_in key l ks x : keyed key l ks -> In x l -> exists k, key x = Ok k /\ In k ks.
Proof.
  intros HK Hx. apply In_nth_error in Hx as [i Hi].
  destruct (Forall2_nth_l _ _ _ HK i x Hi) as (k & Hk & E). eauto using nth_error_In.
Qed.
Lemma keyed_in_r key l ks k : keyed key l ks -> In k ks -> exists x, key x = Ok k /\ In x l.
Proof.
  intros HK Hx. apply In_nth_error in Hx as [i Hi].
  destruct (Forall2_nth_r _ _ _ HK i k Hi) as (x & Hk & E). eauto using nth_error_In.
Qed.
Lemma keyed_key_sat_ext key l ks f g : keyed key l ks ->
  (forall k, In k ks -> f k = g k) -> forall x, In x l -> key_sat key f x = key_sat key g x.
Proof.
  intros HK H x Hx. destruct (keyed_in _ _ _ _ HK Hx) as (k & E & Hk).
  unfold key_sat. rewrite E. auto.
Qed.
Lemma key_sat_negb key l ks f : keyed key l ks ->
  forall x, In x l -> key_sat key (fun k => negb (f k)) x = negb (key_sat key f x).
Proof.
  intros HK x Hx. destruct (keyed_in _ _ _ _ HK Hx) as (k & E & Hk).
  unfold key_sat. now rewrite E.
Qed.
Lemma keyed_strict key l ks : keyed key l ks -> strict_keys ks -> strictly_ordered key l.
Proof.
  unfold strict_keys, strictly_ordered. rewrite !StronglySorted_nth.
  intros HK H i j x y Hij Hi Hj.
  destruct (Forall2_nth_l _ _ _ HK i x Hi) as (kx & Hkx & Ex).
  destruct (Forall2_nth_l _ _ _ HK j y Hj) as (ky & Hky & Ey).
  exists kx, ky. eauto.
Qed.
Lemma keyed_ordered key l ks : keyed key l ks -> nondecr_keys ks -> ordered key l.
Proof.
  unfold nondecr_keys, ordered. rewrite !StronglySorted_nth.
  intros HK H i j x y Hij Hi Hj.
  destruct (Forall2_nth_l _ _ _ HK i x Hi) as (kx & Hkx & Ex).
  destruct (Forall2_nth_l _ _ _ HK j y Hj) as (ky & Hky & Ey).
  exists kx, ky. eauto.
Qed.

(** ** Sorting *)
Lemma sort_insert_perm x l r : sort_insert x l = Ok r -> Permutation r (x :: l).
Proof.
  revert r; induction l as [|y l IH]; cbn [sort_insert]; intros r H.
  - injection H as <-. reflexivity.
  - destruct (pair_lt y x) as [[|]|]; cbn [bind] in H; try discriminate.
    + destruct (sort_insert x l) as [r'|]; cbn [bind] in H; [|discriminate].
      injection H as <-. rewrite (IH r' eq_refl). apply perm_swap.
    + injection H as <-. reflexivity.
Qed.
Lemma py_sorted_perm l r : py_sorted l = Ok r -> Permutation r l.
Proof.
  revert r; induction l as [|x l IH]; cbn [py_sorted]; intros r H.
  - injection H as <-. reflexivity.
  - destruct (py_sorted l) as [r'|]; cbn [bind] in H; [|discriminate].
    apply sort_insert_perm in H. rewrite H. constructor. now apply IH.
Qed.

(** Comparing (key, item) tuples orders the keys. *)
Lemma pair_lt_true a b : pair_lt a b = Ok true ->
  py_eq (fst a) (fst b) = true \/ ltb (fst a) (fst b) = true.
Proof.
  unfold pair_lt. rewrite py_lt_tuple. cbn [tup_lt].
  destruct (py_eq (fst a) (fst b)); [auto|]. intro H. right. now apply ltb_true.
Qed.
Lemma pair_lt_false a b : pair_lt a b = Ok false -> ltb (fst a) (fst b) = false.
Proof.
  unfold pair_lt. rewrite py_lt_tuple. cbn [tup_lt].
  destruct (py_eq (fst a) (fst b)) eqn:E.
  - intros _. destruct (ltb (fst a) (fst b)) eqn:C; [|reflexivity]. apply ltb_neq in C. congruence.
  - intro H. now apply ltb_of_ok.
Qed.

Section Fam.
  Variable P : pyval -> Prop.
  Hypothesis F : total_family P.

  Lemma py_eq_not_ltb a b : py_eq a b = true -> ltb b a = false.
  Proof.
    intro H. destruct (ltb b a) eqn:C; [|reflexivity]. apply ltb_neq in C.
    rewrite py_eq_sym in C. congruence.
  Qed.

  Lemma sort_insert_nondecr x l r : P (fst x) -> Forall (fun p => P (fst p)) l ->
    nondecr_keys (map fst l) -> sort_insert x l = Ok r -> nondecr_keys (map fst r).
  Proof.
    unfold nondecr_keys. intros Hx. revert r; induction l as [|y l IH]; cbn [sort_insert]; intros r Hl Hs H.
    - injection H as <-. cbn. repeat constructor.
    - inversion_clear Hl as [|? ? Hy Hl']. cbn [map] in Hs. inversion_clear Hs as [|? ? Hs' Hf].
      destruct (pair_lt y x) as [[|]|] eqn:E; cbn [bind] in H; try discriminate.
      + destruct (sort_insert x l) as [r'|] eqn:Er; cbn [bind] in H; [|discriminate].
        injection H as <-. cbn [map]. constructor; [now apply IH|].
        apply Forall_forall. intros k Hk.
        assert (Hk' : In k (map fst (x :: l))).
        { eapply Permutation_in; [|exact Hk]. apply Permutation_map. now apply sort_insert_perm. }
        cbn in Hk'. destruct Hk' as [<-|Hk'].
        * apply pair_lt_true in E as [E|E]; [now apply py_eq_not_ltb | now apply ltb_asym].
        * rewrite Forall_forall in Hf. now apply Hf.
      + injection H as <-. cbn [map]. constructor; [now constructor|].
        apply pair_lt_false in E. constructor; [assumption|].
        rewrite Forall_forall in Hf, Hl'. apply Forall_forall. intros k Hk.
        apply (tf_le_trans P F (fst x) (fst y) k); auto.
        apply in_map_iff in Hk as (p & <- & Hp). auto.
  Qed.
  Lemma py_sorted_nondecr l r : Forall (fun p => P (fst p)) l ->
    py_sorted l = Ok r -> nondecr_keys (map fst r).
  Proof.
    revert r; induction l as [|x l IH]; cbn [py_sorted]; intros r Hl H.
    - injection H as <-. constructor.
    - destruct (py_sorted l) as [r'|] eqn:E; cbn [bind] in H; [|discriminate].
      inversion_clear Hl as [|? ? Hx Hl'].
      apply (sort_insert_nondecr x r' r); auto.
      apply (Permutation_Forall (x := l)); [|exact Hl']. symmetry. now apply py_sorted_perm.
  Qed.
End Fam.

(** When all the pairs are mutually comparable, sorting succeeds and sorts the pairs. *)
Section FamPair.
  Variable P : pyval -> Prop.
  Hypothesis F : total_family P.
  Definition tup (p : pyval * pyval) : pyval := PTuple [fst p; snd p].
  Definition pairs_sorted := StronglySorted (fun a b => ltb (tup b) (tup a) = false).
  Lemma sort_insert_total x l : P (tup x) -> Forall (fun p => P (tup p)) l -> pairs_sorted l ->
    exists r, sort_insert x l = Ok r /\ pairs_sorted r.
  Proof.
    intros Hx. induction l as [|y l IH]; intros Hl Hs; cbn [sort_insert].
    - exists [x]. split; [reflexivity|]. repeat constructor.
    - inversion_clear Hl as [|? ? Hy Hl']. inversion_clear Hs as [|? ? Hs' Hf].
      unfold pair_lt. fold (tup y) (tup x). rewrite (tf_lt_ok P F) by assumption. cbn [bind].
      destruct (ltb (tup y) (tup x)) eqn:E.
      + destruct (IH Hl' Hs') as (r & Hr & Hsr). rewrite Hr. cbn [bind].
        exists (y :: r). split; [reflexivity|]. constructor; [assumption|].
        apply Forall_forall. intros p Hp.
        apply (Permutation_in p (sort_insert_perm _ _ _ Hr)) in Hp. destruct Hp as [<-|Hp].
        * now apply ltb_asym.
        * rewrite Forall_forall in Hf. now apply Hf.
      + exists (x :: y :: l). split; [reflexivity|]. constructor; [now constructor|].
        constructor; [assumption|]. rewrite Forall_forall in Hf, Hl'. apply Forall_forall. intros p Hp.
        apply (tf_le_trans P F (tup x) (tup y) (tup p)); auto.
  Qed.
  Lemma py_sorted_total l : Forall (fun p => P (tup p)) l ->
    exists r, py_sorted l = Ok r /\ pairs_sorted r.
  Proof.
    induction l as [|x l IH]; intro H; cbn [py_sorted].
    - exists []. split; [reflexivity|constructor].
    - inversion_clear H as [|? ? Hx Hl]. destruct (IH Hl) as (r & Hr & Hs). rewrite Hr. cbn [bind].
      apply sort_insert_total; auto.
      eapply Permutation_Forall; [|exact Hl]. symmetry. now apply py_sorted_perm.
  Qed.
End FamPair.

Lemma decorate_spec key l dec : decorate key l = Ok dec ->
  map snd dec = l /\ Forall (fun p => key (snd p) = Ok (fst p)) dec.
Proof.
  revert dec; induction l as [|x l IH]; cbn [decorate]; intros dec H.
  - injection H as <-. auto.
  - destruct (key x) as [k|] eqn:E; cbn [bind] in H; [|discriminate].
    destruct (decorate key l) as [r|]; cbn [bind] in H; [|discriminate].
    injection H as <-. destruct (IH r eq_refl) as (H1 & H2). cbn. split; [now rewrite H1|].
    constructor; assumption.
Qed.
Lemma dec_keyed key dec : Forall (fun p => key (snd p) = Ok (fst p)) dec ->
  keyed key (map snd dec) (map fst dec).
Proof. induction 1; cbn; constructor; auto. Qed.

Lemma sc_init_inv it key c : sc_init it key = Ok c ->
  keyed key (sd_items c) (sd_keys c) /\ Permutation (sd_items c) it.
Proof.
  unfold sc_init. destruct (decorate key it) as [dec|] eqn:E; cbn [bind]; [|discriminate].
  destruct (py_sorted dec) as [srt|] eqn:E2; cbn [bind]; [|discriminate].
  injection 1 as <-. cbn [sd_items sd_keys].
  apply decorate_spec in E as (H1 & H2). apply py_sorted_perm in E2. split.
  - apply dec_keyed. eapply Permutation_Forall; [|exact H2]. now symmetry.
  - rewrite <- H1. now apply Permutation_map.
Qed.
Lemma sc_init_nondecr P it key c : total_family P ->
  (forall x k, In x it -> key x = Ok k -> P k) -> sc_init it key = Ok c ->
  nondecr_keys (sd_keys c) /\ Forall P (sd_keys c).
Proof.
  intros F HP H. pose proof (sc_init_inv _ _ _ H) as (HK & HPm). revert H.
  unfold sc_init. destruct (decorate key it) as [dec|] eqn:E; cbn [bind]; [|discriminate].
  destruct (py_sorted dec) as [srt|] eqn:E2; cbn [bind]; [|discriminate].
  injection 1 as <-. cbn [sd_items sd_keys] in *.
  apply decorate_spec in E as (H1 & H2). split.
  - apply (py_sorted_nondecr P F dec); [|assumption].
    rewrite Forall_forall in H2. apply Forall_forall. intros p Hp.
    apply (HP (snd p)); [|auto]. rewrite <- H1. now apply in_map.
  - apply Forall_forall. intros k Hk. destruct (keyed_in_r _ _ _ _ HK Hk) as (x & Ex & Hx).
    apply (HP x); [|assumption]. eapply Permutation_in; eauto.
Qed.

(** ** The invariant under the full mutation API *)
Record inv (U P : pyval -> Prop) (d : sdeque) : Prop := {
  inv_cons : consistent d;
  inv_nondecr : nondecr_keys (sd_keys d);
  inv_P : Forall P (sd_keys d);
  inv_U : Forall U (sd_items d);
  inv_key : key_into U P (sd_key d);
  inv_bound : forall m, sd_bound d = Some m -> length (sd_items d) <= m
}.

Lemma nondecr_skipn n ks : nondecr_keys ks -> nondecr_keys (skipn n ks).
Proof.
  unfold nondecr_keys. rewrite !StronglySorted_nth. intros H i j x y Hij.
  rewrite !nth_error_skipn. apply H. lia.
Qed.
Lemma strict_skipn n ks : strict_keys ks -> strict_keys (skipn n ks).
Proof.
  unfold strict_keys. rewrite !StronglySorted_nth. intros H i j x y Hij.
  rewrite !nth_error_skipn. apply H. lia.
Qed.
Lemma Forall_skipn' {A} (Q : A -> Prop) n l : Forall Q l -> Forall Q (skipn n l).
Proof. intro H. revert n. induction H; intros [|n]; cbn; auto. Qed.
Lemma Forall_firstn' {A} (Q : A -> Prop) n l : Forall Q l -> Forall Q (firstn n l).
Proof. intro H. revert n. induction H; intros [|n]; cbn; auto. Qed.

Lemma inv_newest U P b ks its key ml :
  keyed key its ks -> nondecr_keys ks -> Forall P ks -> Forall U its -> key_into U P key ->
  inv U P (MkSD (newest b ks) (newest b its) key b ml).
Proof.
  intros HK HN HP HU Hk. pose proof (Forall2_length _ _ _ HK) as HL.
  destruct (newest_skipn b its) as (n & H1 & H2).
  constructor; cbn [sd_keys sd_items sd_key sd_bound].
  - unfold consistent. cbn. rewrite H1, (H2 _ ks) by auto. now apply Forall2_skipn.
  - rewrite (H2 _ ks) by auto. now apply nondecr_skipn.
  - rewrite (H2 _ ks) by auto. now apply Forall_skipn'.
  - rewrite H1. now apply Forall_skipn'.
  - assumption.
  - intros m Hm. now apply newest_length.
Qed.

Lemma inv_init U P it key m d : total_family P -> Forall U it -> key_into U P key ->
  sd_init it key m = Ok d -> inv U P d.
Proof.
  intros F HU Hk. unfold sd_init.
  destruct (sc_init it key) as [c|] eqn:E; cbn [bind]; [|discriminate].
  destruct (check_maxlen m) as [b|] eqn:E2; cbn [bind]; [|discriminate].
  injection 1 as <-. rewrite !deque_of_newest.
  pose proof (sc_init_inv _ _ _ E) as (HK & HPm).
  rewrite Forall_forall in HU.
  destruct (sc_init_nondecr P it key c F) as (HN & HP); auto.
  { intros x k Hx. apply Hk. auto. }
  apply inv_newest; auto.
  apply Forall_forall. intros x Hx. apply HU. eapply Permutation_in; eauto.
Qed.
Lemma inv_reinit U P d it key m : total_family P -> inv U P d -> Forall U it -> key_into U P key ->
  inv U P (fst (sd_reinit d it key m)).
Proof.
  intros F I HU Hk. unfold sd_reinit.
  destruct (sc_init it key) as [c|] eqn:E; [|assumption].
  pose proof (sc_init_inv _ _ _ E) as (HK & HPm).
  rewrite Forall_forall in HU.
  destruct (sc_init_nondecr P it key c F) as (HN & HP); auto.
  { intros x k Hx. apply Hk. auto. }
  assert (HU' : Forall U (sd_items c)).
  { apply Forall_forall. intros x Hx. apply HU. eapply Permutation_in; eauto. }
  destruct (check_maxlen m) as [b|] eqn:E2; cbn [fst].
  - rewrite !deque_of_newest. now apply inv_newest.
  - now apply (inv_newest U P None).
Qed.

Lemma StronglySorted_app {A} (R : A -> A -> Prop) a b :
  StronglySorted R a -> StronglySorted R b -> (forall x y, In x a -> In y b -> R x y) ->
  StronglySorted R (a ++ b).
Proof.
  intros Ha Hb Hab. induction Ha as [|x a Ha IH Hx]; cbn; [assumption|].
  constructor.
  - apply IH. intros u v Hu Hv. apply Hab; cbn; auto.
  - apply Forall_app. split; [assumption|]. apply Forall_forall. intros y Hy. apply Hab; cbn; auto.
Qed.
Lemma StronglySorted_app_inv {A} (R : A -> A -> Prop) a b :
  StronglySorted R (a ++ b) -> forall x y, In x a -> In y b -> R x y.
Proof.
  induction a as [|u a IH]; cbn; intros H x y Hx Hy; [easy|].
  inversion_clear H as [|? ? Hs Hf]. rewrite Forall_app in Hf. destruct Hf as [_ Hf].
  rewrite Forall_forall in Hf. destruct Hx as [<-|Hx]; auto.
Qed.
Lemma StronglySorted_firstn {A} (R : A -> A -> Prop) l n :
  StronglySorted R l -> StronglySorted R (firstn n l).
Proof.
  rewrite !StronglySorted_nth. intros H i j x y Hij Hi Hj.
  assert (j < length (firstn n l)) by (apply nth_error_Some; congruence).
  rewrite firstn_length in *.
  rewrite nth_error_firstn in Hi, Hj by lia. eauto.
Qed.
Lemma StronglySorted_skipn {A} (R : A -> A -> Prop) l n :
  StronglySorted R l -> StronglySorted R (skipn n l).
Proof.
  rewrite !StronglySorted_nth. intros H i j x y Hij.
  rewrite !nth_error_skipn. apply H. lia.
Qed.

Lemma last_opt_snoc {A} (l : list A) x : last_opt (l ++ [x]) = Some x.
Proof. unfold last_opt. now rewrite rev_app_distr. Qed.
Lemma last_opt_some {A} (l : list A) x : last_opt l = Some x <-> exists l', l = l' ++ [x].
Proof.
  split.
  - destruct l as [|y l] using rev_ind; [discriminate|]. rewrite last_opt_snoc.
    injection 1 as ->. eauto.
  - intros (l' & ->). apply last_opt_snoc.
Qed.
Lemma last_opt_none {A} (l : list A) : last_opt l = None <-> l = [].
Proof.
  destruct l as [|y l _] using rev_ind; [easy|]. rewrite last_opt_snoc. split; [discriminate|].
  intro H. now destruct l.
Qed.

(** Appending after the last key. *)
Lemma keyed_snoc key l ks x k : keyed key l ks -> key x = Ok k -> keyed key (l ++ [x]) (ks ++ [k]).
Proof. intros H1 H2. apply Forall2_app; [assumption|]. repeat constructor. assumption. Qed.

Lemma append_cases d x : 
  (exists k, sd_key d x = Ok k /\
     (sd_keys d = [] \/ exists ks l, sd_keys d = ks ++ [l] /\ ltb l k = true) /\
     sd_append d x = (MkSD (deque_append (sd_bound d) (sd_keys d) k)
                           (deque_append (sd_bound d) (sd_items d) x)
                           (sd_key d) (sd_bound d) (sd_maxlen d), Ok tt))
  \/ exists e, sd_append d x = (d, Raise e).
Proof.
  unfold sd_append. destruct (sd_key d x) as [k|e]; [|eauto].
  destruct (last_opt (sd_keys d)) as [l|] eqn:E.
  - unfold py_gt. destruct (py_lt l k) as [[|]|] eqn:L; eauto. left. exists k.
    split; [reflexivity|]. split; [|reflexivity]. right.
    apply last_opt_some in E as (ks & ->). exists ks, l. split; [reflexivity|]. now apply ltb_true.
  - left. exists k. split; [reflexivity|]. apply last_opt_none in E. auto.
Qed.

Lemma inv_append U P d x : total_family P -> inv U P d -> U x -> inv U P (fst (sd_append d x)).
Proof.
  intros F I Hx. destruct (append_cases d x) as [(k & Hk & Hl & ->)|(e & ->)]; [|assumption].
  cbn [fst]. destruct I as [IC IN IP IU IK IB].
  rewrite !newest_snoc; auto.
  2:{ intros m Hm. unfold consistent in IC. rewrite <- (Forall2_length _ _ _ IC). auto. }
  apply inv_newest; auto.
  - now apply keyed_snoc.
  - apply StronglySorted_app; [assumption|repeat constructor|].
    intros a b Ha [<-|[]]. destruct Hl as [Hl|(ks & l & Hl & Hlk)]; [rewrite Hl in Ha; easy|].
    assert (P k) by (apply (IK x); auto).
    rewrite Hl in *. rewrite Forall_app in IP. destruct IP as [IP1 IP2]. inversion_clear IP2 as [|? ? Hpl _].
    rewrite Forall_forall in IP1.
    apply in_app_iff in Ha as [Ha|[<-|[]]]; [|now apply ltb_asym].
    apply ltb_asym. apply (tf_le_lt_trans P F a l k); auto.
    apply (StronglySorted_app_inv _ _ _ IN); cbn; auto.
  - apply Forall_app. split; [assumption|]. constructor; [|constructor]. apply (IK x); auto.
  - apply Forall_app. split; [assumption|]. constructor; auto.
Qed.

Lemma list_del_ok {A} (l : list A) i r : list_del l i = Ok r -> i < length l /\ r = firstn i l ++ skipn (S i) l.
Proof. unfold list_del. destruct (Nat.ltb_spec i (length l)); [|discriminate]. now injection 1 as <-. Qed.
Lemma list_del_lt {A} (l : list A) i : i < length l -> list_del l i = Ok (firstn i l ++ skipn (S i) l).
Proof. unfold list_del. intro. destruct (Nat.ltb_spec i (length l)); [reflexivity|lia]. Qed.
Lemma list_del_ge {A} (l : list A) i : length l <= i -> list_del l i = Raise IndexError.
Proof. unfold list_del. intro. destruct (Nat.ltb_spec i (length l)); [lia|reflexivity]. Qed.

(** [drop]: [d] with the first [n] entries gone. *)
Definition with_skip (n : nat) (d : sdeque) : sdeque :=
  MkSD (skipn n (sd_keys d)) (skipn n (sd_items d)) (sd_key d) (sd_bound d) (sd_maxlen d).
Lemma drop_nat_spec n : forall d, length (sd_keys d) = length (sd_items d) ->
  sd_drop_nat d n = (with_skip n d, if Nat.leb n (length (sd_items d)) then Ok tt else Raise IndexError).
Proof.
  induction n as [|n IH]; intros d HL; cbn [sd_drop_nat].
  - now destruct d.
  - destruct d as [ks its key b m]. cbn [sd_keys sd_items sd_key sd_bound sd_maxlen] in *.
    destruct ks as [|k ks], its as [|x its]; cbn [length] in HL; try discriminate.
    + rewrite list_del_ge by (cbn; lia). unfold with_skip. cbn. reflexivity.
    + rewrite !list_del_lt by (cbn; lia). cbn [firstn skipn app].
      rewrite IH by (cbn; lia). reflexivity.
Qed.
Lemma drop_spec d n : consistent d ->
  sd_drop d n = (with_skip (Z.to_nat n) d,
                 if Nat.leb (Z.to_nat n) (length (sd_items d)) then Ok tt else Raise IndexError).
Proof. intro H. apply drop_nat_spec. symmetry. apply (Forall2_length _ _ _ H). Qed.

Lemma inv_drop U P d n : inv U P d -> inv U P (fst (sd_drop d n)).
Proof.
  intros [IC IN IP IU IK IB]. rewrite drop_spec by assumption. cbn [fst].
  constructor; cbn; auto using nondecr_skipn, Forall_skipn'.
  - now apply Forall2_skipn.
  - intros m Hm. rewrite skipn_length. specialize (IB m Hm). lia.
Qed.

(** Binary search on a container satisfying the invariant. *)
Lemma inv_bisect_right U P d k : total_family P -> inv U P d -> P k ->
  exists i, bisect_right (sd_keys d) k = Ok i /\ splits (ltb k) (sd_keys d) i.
Proof.
  intros F [IC IN IP IU IK IB] Hk.
  destruct (bisect_right_ok (sd_keys d) k) as [i Hi].
  { intros y Hy. rewrite Forall_forall in IP. exists (ltb k y). apply (tf_lt_ok P F); auto. }
  exists i. split; [assumption|]. apply bisect_right_spec; [|assumption].
  now apply (nondecr_up_closed P F).
Qed.
Lemma inv_bisect_left U P d k : total_family P -> inv U P d -> P k ->
  exists i, bisect_left (sd_keys d) k = Ok i /\ splits (fun y => negb (ltb y k)) (sd_keys d) i.
Proof.
  intros F [IC IN IP IU IK IB] Hk.
  destruct (bisect_left_ok (sd_keys d) k) as [i Hi].
  { intros y Hy. rewrite Forall_forall in IP. exists (ltb y k). apply (tf_lt_ok P F); auto. }
  exists i. split; [assumption|]. apply bisect_left_spec; [|assumption].
  now apply (nondecr_down_closed P F).
Qed.

Lemma keyed_insert key l ks i x k : keyed key l ks -> key x = Ok k ->
  keyed key (list_insert l i x) (list_insert ks i k).
Proof.
  intros H E. unfold list_insert. apply Forall2_app; [now apply Forall2_firstn|].
  constructor; [assumption|]. now apply Forall2_skipn.
Qed.
Lemma list_insert_length {A} (l : list A) i x : length (list_insert l i x) = S (length l).
Proof.
  unfold list_insert. rewrite app_length. cbn [length]. rewrite firstn_length, skipn_length. lia.
Qed.
Lemma insert_at_cases d i k x : consistent d ->
  sd_insert_at d i k x = (d, Raise IndexError) /\ (exists m, sd_bound d = Some m /\ m <= length (sd_items d))
  \/ sd_insert_at d i k x = (MkSD (list_insert (sd_keys d) i k) (list_insert (sd_items d) i x)
                                (sd_key d) (sd_bound d) (sd_maxlen d), Ok tt) /\
    (forall m, sd_bound d = Some m -> S (length (sd_items d)) <= m).
Proof.
  intro HC. pose proof (Forall2_length _ _ _ HC) as HL. unfold sd_insert_at, deque_insert.
  destruct (sd_bound d) as [m|]; [|right; split; [reflexivity|discriminate]].
  rewrite <- HL. destruct (Nat.leb_spec m (length (sd_items d))).
  - left. eauto.
  - right. split; [reflexivity|]. intros m' E. injection E as <-. lia.
Qed.
Lemma inv_insert_at U P d i k x : inv U P d -> U x -> sd_key d x = Ok k ->
  (forall a, In a (firstn i (sd_keys d)) -> ltb k a = false) ->
  (forall a, In a (skipn i (sd_keys d)) -> ltb a k = false) ->
  inv U P (fst (sd_insert_at d i k x)).
Proof.
  intros I Hx Hk Hl Hr. pose proof I as [IC IN IP IU IK IB].
  destruct (insert_at_cases d i k x IC) as [[-> _]|[-> HB]]; [assumption|]. cbn [fst].
  constructor; cbn [sd_keys sd_items sd_key sd_bound]; auto.
  - now apply keyed_insert.
  - unfold list_insert. apply StronglySorted_app.
    + now apply StronglySorted_firstn.
    + constructor; [now apply StronglySorted_skipn|]. now apply Forall_forall.
    + intros a b Ha [<-|Hb]; [auto|].
      rewrite <- (firstn_skipn i (sd_keys d)) in IN. apply (StronglySorted_app_inv _ _ _ IN); auto.
  - unfold list_insert. apply Forall_app. split; [now apply Forall_firstn'|].
    constructor; [apply (IK x); auto | now apply Forall_skipn'].
  - unfold list_insert. apply Forall_app. split; [now apply Forall_firstn'|].
    constructor; [auto | now apply Forall_skipn'].
  - intros m Hm. rewrite list_insert_length. auto.
Qed.
Lemma inv_insert U P d x : total_family P -> inv U P d -> U x -> inv U P (fst (sd_insert d x)).
Proof.
  intros F I Hx. unfold sd_insert. destruct (sd_key d x) as [k|] eqn:E; cbn [bind]; [|assumption].
  assert (Hk : P k) by (apply (inv_key _ _ _ I x); auto).
  destruct (inv_bisect_left U P d k F I Hk) as (i & -> & Hs). cbn [bind].
  apply inv_insert_at; auto.
  - intros a Ha. pose proof (splits_firstn _ _ _ Hs) as HF. rewrite Forall_forall in HF.
    specialize (HF a Ha). apply negb_false_iff in HF. now apply ltb_asym.
  - intros a Ha. pose proof (splits_skipn _ _ _ Hs) as HF. rewrite Forall_forall in HF.
    specialize (HF a Ha). now apply negb_true_iff in HF.
Qed.
Lemma inv_insert_right U P d x : total_family P -> inv U P d -> U x -> inv U P (fst (sd_insert_right d x)).
Proof.
  intros F I Hx. unfold sd_insert_right. destruct (sd_key d x) as [k|] eqn:E; cbn [bind]; [|assumption].
  assert (Hk : P k) by (apply (inv_key _ _ _ I x); auto).
  destruct (inv_bisect_right U P d k F I Hk) as (i & -> & Hs). cbn [bind].
  apply inv_insert_at; auto.
  - intros a Ha. pose proof (splits_firstn _ _ _ Hs) as HF. rewrite Forall_forall in HF. auto.
  - intros a Ha. pose proof (splits_skipn _ _ _ Hs) as HF. rewrite Forall_forall in HF.
    apply ltb_asym. auto.
Qed.
Lemma inv_remove U P d x : inv U P d -> inv U P (fst (sd_remove d x)).
Proof.
  intros I. pose proof I as [IC IN IP IU IK IB]. pose proof (Forall2_length _ _ _ IC) as HL.
  unfold sd_remove. destruct (sd_index d x) as [i|]; [|assumption].
  destruct (Nat.lt_ge_cases i (length (sd_items d))) as [L|L].
  2:{ rewrite list_del_ge by lia. assumption. }
  rewrite !list_del_lt by lia. cbn [fst].
  constructor; cbn [sd_keys sd_items sd_key sd_bound]; auto.
  - apply Forall2_app; [now apply Forall2_firstn | now apply Forall2_skipn].
  - apply StronglySorted_app; [now apply StronglySorted_firstn | now apply StronglySorted_skipn |].
    intros a b Ha Hb. rewrite <- (firstn_skipn i (sd_keys d)) in IN.
    apply (StronglySorted_app_inv _ _ _ IN); auto.
    destruct (nth_error (sd_keys d) i) as [k|] eqn:E.
    + rewrite (skipn_nth_cons _ _ _ E). now right.
    + apply nth_error_None in E. lia.
  - apply Forall_app. split; [now apply Forall_firstn' | now apply Forall_skipn'].
  - apply Forall_app. split; [now apply Forall_firstn' | now apply Forall_skipn'].
  - intros m Hm. rewrite app_length, firstn_length, skipn_length. specialize (IB m Hm). lia.
Qed.

Lemma inv_step U P d o : total_family P -> inv U P d -> op_in U P o -> inv U P (fst (sd_step d o)).
Proof.
  intros F I Ho. pose proof (inv_U _ _ _ I) as IU. pose proof (inv_key _ _ _ I) as IK.
  destruct o as [x|x|x|x|n| | |same key| |same m]; cbn [sd_step op_in] in *.
  - now apply inv_append.
  - now apply inv_insert.
  - now apply inv_insert_right.
  - now apply inv_remove.
  - now apply inv_drop.
  - unfold sd_clear. now apply inv_reinit.
  - unfold sd_copy. destruct (sd_init _ _ _) as [d'|] eqn:E; [|assumption]. cbn [fst].
    apply (inv_init U P) in E; auto.
  - unfold sd_assign_key. destruct same; [assumption|]. now apply inv_reinit.
  - unfold sd_delete_key. apply inv_reinit; auto. intros x k Hx E. injection E as <-. auto.
  - unfold sd_setmaxlen. destruct same; [assumption|]. now apply inv_reinit.
Qed.
Lemma reachable_inv U P d : total_family P -> reachable U P d -> inv U P d.
Proof.
  intros F H. induction H.
  - eapply inv_init; eauto.
  - now apply inv_step.
Qed.
