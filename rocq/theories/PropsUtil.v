(** * util.py and defaulted_values: C60, C61, C62 *)
From Coq Require Import List ZArith Bool Arith Lia.
From Verif Require Import PyVal UtilM SpecUtil.
Import ListNotations.

(** ** C62 *)
Section DictFacts.
  Context {K V : Type} (eqb : K -> K -> bool) (EQ : is_equality eqb).
  Lemma get_binds (d : list (K * V)) k v : is_dict eqb d -> (dict_get eqb d k = Some v <-> binds eqb d k v).
  Proof.
    destruct EQ as (R & S & T). induction 1 as [|[k1 v1] d F D IH]; cbn.
    - split; [discriminate|]. intros (k' & _ & []).
    - destruct (eqb k1 k) eqn:E.
      + split; [intro X; injection X as ->; exists k1; split; [assumption|now left]|]. intros (k' & E' & [X|X]); [congruence|]. exfalso.
        rewrite Forall_forall in F. specialize (F _ X). cbn in F. rewrite (T k1 k k') in F; [discriminate|assumption|now rewrite S].
      + rewrite IH. split; intros (k' & E' & X).
        * exists k'. split; [assumption|now right].
        * destruct X as [X|X]; [congruence|]. exists k'. auto.
  Qed.
  Lemma get_none (d : list (K * V)) k : dict_get eqb d k = None <-> (forall v, ~ binds eqb d k v).
  Proof.
    induction d as [|[k1 v1] d IH]; cbn.
    - split; [intros _ v (k' & _ & [])|reflexivity].
    - destruct (eqb k1 k) eqn:E; [split; [discriminate|intro X; elim (X v1); exists k1; split; [assumption|now left]]|].
      rewrite IH. split; intros A v (k' & E' & X); [destruct X as [X|X]; [congruence|]; apply (A v); exists k'; auto|apply (A v); exists k'; split; [assumption|now right]].
  Qed.
  Lemma set_new (d : list (K * V)) k v : (forall p, In p d -> eqb (fst p) k = false) -> dict_set eqb d k v = d ++ [(k, v)].
  Proof.
    induction d as [|[k1 v1] d IH]; intro A; cbn; [reflexivity|]. pose proof (A (k1, v1) (or_introl eq_refl)) as A1. cbn in A1. rewrite A1. f_equal. apply IH. intros p X. apply A. now right.
  Qed.
End DictFacts.
Lemma fop_app_inv {A} (R : A -> A -> Prop) a b : ForallOrdPairs R (a ++ b) -> ForallOrdPairs R b /\ (forall x y, In x a -> In y b -> R x y).
Proof.
  induction a as [|z a IH]; cbn; intro H; [split; [assumption|intros x y []]|]. inversion H; subst. destruct (IH H3) as [I1 I2]. split; [assumption|].
  intros x y [<-|X] Y; [|auto]. rewrite Forall_forall in H2. apply H2, in_or_app. now right.
Qed.
Lemma defaulted_dict_spec {K} (eqb : K -> K -> bool) : is_equality eqb -> forall defaults, is_dict eqb defaults -> forall items acc,
  ForallOrdPairs (fun p q => eqb (fst p) (fst q) = false) (map (fun k => (k, tt)) (map fst acc) ++ map (fun k => (k, tt)) (map fst items)) ->
  match defaulted_dict eqb defaults items acc with
  | Ok d => exists ws, d = acc ++ combine (map fst items) ws /\ length ws = length items /\ Forall2 (stands_for eqb defaults) items ws
  | Raise e => e = KeyError /\ exists k, In (k, PNone) items /\ forall v, ~ binds eqb defaults k v
  end.
Proof.
  intros EQ defaults DD items. induction items as [|[k v] items IH]; intros acc D; cbn [defaulted_dict].
  - exists []. cbn. rewrite app_nil_r. auto.
  - assert (NEW : forall w, dict_set eqb acc k w = acc ++ [(k, w)]).
    { intro w. apply set_new. intros [k1 v1] X. apply fop_app_inv in D as [_ D]. apply (D (k1, tt) (k, tt)).
      - apply (in_map (fun k => (k, tt))), (in_map fst _ _ X).
      - now left. }
    assert (STEP : forall w, stands_for eqb defaults (k, v) w ->
      match defaulted_dict eqb defaults items (dict_set eqb acc k w) with
      | Ok d => exists ws, d = acc ++ combine (map fst ((k, v) :: items)) ws /\ length ws = length ((k, v) :: items) /\ Forall2 (stands_for eqb defaults) ((k, v) :: items) ws
      | Raise e => e = KeyError /\ exists k0, In (k0, PNone) ((k, v) :: items) /\ forall v, ~ binds eqb defaults k0 v
      end).
    { intros w SF. rewrite NEW. specialize (IH (acc ++ [(k, w)])). rewrite !map_app in IH. cbn [map fst] in *. rewrite <- app_assoc in IH. specialize (IH D).
      destruct (defaulted_dict eqb defaults items (acc ++ [(k, w)])) as [d|e].
      - destruct IH as (ws & -> & L & F). exists (w :: ws). rewrite <- app_assoc. cbn. split; [reflexivity|]. split; [now rewrite L|]. constructor; assumption.
      - destruct IH as (-> & k0 & I & N). split; [reflexivity|]. exists k0. split; [now right|assumption]. }
    destruct (match v with PNone => true | _ => false end) eqn:EV.
    + assert (v = PNone) by (destruct v; auto; discriminate). subst v. destruct (dict_get eqb defaults k) as [w|] eqn:E.
      * apply STEP. right. split; [reflexivity|]. apply (get_binds eqb EQ); assumption.
      * split; [reflexivity|]. exists k. split; [now left|]. now apply get_none.
    + replace (match v with PNone => match dict_get eqb defaults k with Some w => Ok w | None => Raise KeyError end | _ => Ok v end) with (Ok v) by (destruct v; auto; discriminate).
      apply STEP. left. cbn. split; [destruct v; discriminate|reflexivity].
Qed.
Lemma f2_fun {A B} (R : A -> B -> Prop) l a b : (forall x y z, R x y -> R x z -> y = z) -> Forall2 R l a -> Forall2 R l b -> a = b.
Proof. intros F H. revert b. induction H; intros b H'; inversion H'; subst; [reflexivity|]. f_equal; eauto. Qed.
(** For mappings with keys of any type: the values returned are, in the order of the source,
    what its entries stand for; the only exception is KeyError, raised exactly if an entry
    that is None has no default. *)
Theorem C62_defaulted_values :
  forall K (eqb : K -> K -> bool), is_equality eqb -> forall source defaults, is_dict eqb source -> is_dict eqb defaults ->
  (forall ws, defaulted_values eqb source defaults = Ok ws <-> Forall2 (stands_for eqb defaults) source ws) /\
  (forall e, defaulted_values eqb source defaults = Raise e <-> e = KeyError /\ exists k, In (k, PNone) source /\ forall w, ~ binds eqb defaults k w).
Proof.
  intros K eqb EQ source defaults DS DD. unfold defaulted_values.
  pose proof (defaulted_dict_spec eqb EQ defaults DD source []) as H. cbn [map app] in H.
  assert (D0 : ForallOrdPairs (fun p q : K * unit => eqb (fst p) (fst q) = false) (map (fun k => (k, tt)) (map fst source))).
  { clear - DS. induction DS as [|p l F D IH]; cbn; constructor; [|assumption]. rewrite Forall_forall in *. intros x X. rewrite map_map in X. apply in_map_iff in X as (q & <- & X). cbn. now apply F. }
  specialize (H D0).
  assert (FUN : forall x y z, stands_for eqb defaults x y -> stands_for eqb defaults x z -> y = z).
  { intros x y z [[A ->]|[A B]] [[A' ->]|[A' B']]; try congruence. apply (get_binds eqb EQ) in B; [|assumption]. apply (get_binds eqb EQ) in B'; [|assumption]. congruence. }
  destruct (defaulted_dict eqb defaults source []) as [d|e].
  - destruct H as (ws & -> & L & F). assert (E : map snd (combine (map fst source) ws) = ws).
    { clear - L. revert source L. induction ws as [|w ws IH]; intros [|p s] L; try discriminate; cbn; [reflexivity|]. f_equal. apply IH. now injection L. }
    cbn [app]. rewrite E. split; intros x.
    + split; [intro X; injection X as <-; assumption|]. intro X. f_equal. eapply f2_fun; eauto.
    + split; [discriminate|]. intros (-> & k & I & N). exfalso. clear - F I N. induction F; [destruct I|]. destruct I as [->|I]; [|auto].
      destruct H as [[H _]|[_ H]]; [now apply H|]. eapply N; eauto.
  - destruct H as (-> & k & I & N). split; intros x.
    + split; [discriminate|]. intro F. exfalso. clear - F I N. induction F; [destruct I|]. destruct I as [->|I]; [|auto].
      destruct H as [[H _]|[_ H]]; [now apply H|]. eapply N; eauto.
    + split; [intro X; injection X as <-; eauto|]. intros [-> _]. reflexivity.
Qed.
Print Assumptions C62_defaulted_values.
Example C62_nonvacuous :
  is_equality Nat.eqb /\ is_dict Nat.eqb [(0, PNone); (1, PBool false); (2, PInt 0); (3, PNone)] /\ is_dict Nat.eqb [(3, PInt 7); (1, PInt 8); (0, PInt 9)] /\
  defaulted_values Nat.eqb [(0, PNone); (1, PBool false); (2, PInt 0); (3, PNone)] [(3, PInt 7); (1, PInt 8); (0, PInt 9)] = Ok [PInt 9; PBool false; PInt 0; PInt 7] /\
  defaulted_values Nat.eqb [(2, PNone)] [(3, PInt 7)] = Raise KeyError.
Proof.
  split; [split; [apply Nat.eqb_refl|split; [apply Nat.eqb_sym|intros a b c A B; apply Nat.eqb_eq in A, B; subst; apply Nat.eqb_refl]]|].
  split; [repeat constructor|]. split; [repeat constructor|]. split; reflexivity.
Qed.

(** ** C61 *)
(** Arguments that are rejected could not be used: [func] is not callable, or the enter
    function cannot be called with one argument, or the exit function is not callable.
    Missing: the converse, that everything else is rejected, is false (below). *)
Theorem C61_rejects_soundly_partial :
  forall w func enter exit, cc_init w func enter exit = Raise TypeError -> w_sig w enter <> Raise TypeError ->
  w_callable w func = false \/ ~ can_call w enter 1 \/ (forall n, ~ can_call w exit n).
Proof.
  intros w func enter exit H S. unfold cc_init in H. destruct (w_callable w func); [|auto]. right.
  unfold enter_valid, exit_valid, has_min_args in H. destruct (w_callable w enter) eqn:CE.
  - destruct (w_sig w enter) as [ps|e] eqn:ES.
    + destruct (Nat.leb 1 (length ps)) eqn:EL; cbn in H.
      * destruct (w_callable w exit) eqn:CX; [discriminate|]. right. intros n [C _]. congruence.
      * left. intros [_ (ps' & E' & T)]. rewrite ES in E'. injection E' as <-. destruct ps; [|discriminate EL]. destruct T as (_ & [T|T] & _); cbn in T; [lia|discriminate].
    + cbn in H. congruence.
  - left. intros [C _]. congruence.
Qed.
Print Assumptions C61_rejects_soundly_partial.
(** The exit function's signature plays no part in the validation: whatever two callables
    are given as exit functions, both are accepted or both lead to the same exception. *)
Theorem C61_exit_signature_ignored_refuted :
  forall w func enter exit exit', w_callable w exit = true -> w_callable w exit' = true ->
  (forall e, cc_init w func enter exit = Raise e <-> cc_init w func enter exit' = Raise e).
Proof.
  intros w func enter exit exit' C C' e. unfold cc_init, exit_valid. rewrite C, C'. destruct (w_callable w func); [|tauto].
  destruct (validate (enter_valid w enter)) as [[]|x]; cbn; [split; discriminate|tauto].
Qed.
Print Assumptions C61_exit_signature_ignored_refuted.
(** What is checked: that all three are callable and that the enter function has a
    parameter. If not, TypeError; if the enter function's signature cannot be found, what
    signature() raises. *)
Theorem C61_what_is_checked :
  forall w func enter exit,
  ((exists d, cc_init w func enter exit = Ok d) <->
     w_callable w func = true /\ w_callable w enter = true /\ (exists p ps, w_sig w enter = Ok (p :: ps)) /\ w_callable w exit = true) /\
  (forall e, cc_init w func enter exit = Raise e ->
     e = TypeError \/ (w_callable w func = true /\ w_callable w enter = true /\ w_sig w enter = Raise e)).
Proof.
  intros w func enter exit. unfold cc_init, enter_valid, exit_valid, has_min_args.
  destruct (w_callable w func); [|split; [split; [intros [d H]; discriminate|intros (H & _); discriminate]|intros e H; injection H as <-; auto]].
  destruct (w_callable w enter); [|cbn; split; [split; [intros [d H]; discriminate|intros (_ & H & _); discriminate]|intros e H; injection H as <-; auto]].
  destruct (w_sig w enter) as [[|p ps]|x]; cbn.
  - split; [split; [intros [d H]; discriminate|intros (_ & _ & (p & ps & H) & _); discriminate]|intros e H; injection H as <-; auto].
  - destruct (w_callable w exit); cbn.
    + split; [split; [intros _; eauto 9|eauto]|discriminate].
    + split; [split; [intros [d H]; discriminate|intros (_ & _ & _ & H); discriminate]|intros e H; injection H as <-; auto].
  - split; [split; [intros [d H]; discriminate|intros (_ & _ & (p & ps & H) & _); discriminate]|intros e H; injection H as <-; auto].
Qed.
Print Assumptions C61_what_is_checked.
(** Accepted although they cannot be called as the with statement will: an enter
    function with one required keyword-only parameter, and [def exit()]. *)
Theorem C61_accepts_uncallable_refuted :
  exists w func enter exit d, cc_init w func enter exit = Ok d /\ ~ can_call w enter 1 /\ ~ can_call w exit 4.
Proof.
  exists (MkWorld (fun _ => true) (fun o => match o with OUser 1 => Ok [MkParam KeywordOnly false] | _ => Ok [] end) (fun _ => []) (fun _ => []) (fun _ => Raise AttributeError) (fun _ => false)).
  exists (OUser 0), (OUser 1), (OUser 2). eexists. split; [reflexivity|]. split; intros [_ (ps & E & T)]; injection E as <-; destruct T as (_ & T & T'); [discriminate|destruct T as [T|T]; cbn in T; [lia|discriminate]].
Qed.
Print Assumptions C61_accepts_uncallable_refuted.
Example C61_nonvacuous :
  exists w, w_sig w (OUser 1) <> Raise TypeError /\ cc_init w (OUser 0) (OUser 1) (OUser 2) = Raise TypeError /\ w_callable w (OUser 0) = true /\ w_callable w (OUser 1) = true.
Proof.
  exists (MkWorld (fun _ => true) (fun _ => Ok []) (fun _ => []) (fun _ => []) (fun _ => Raise AttributeError) (fun _ => false)). repeat split. discriminate.
Qed.

(** ** C60 *)
Lemma name_eqb_spec a b : name_eqb a b = true <-> a = b.
Proof. destruct a, b; cbn; split; intro H; try discriminate; auto; try (apply Nat.eqb_eq in H; now subst). injection H as <-. apply Nat.eqb_refl. Qed.
Lemma get_set_same (d : attrs) n o : dict_get name_eqb (dict_set name_eqb d n o) n = Some o.
Proof.
  induction d as [|[m v] d IH]; cbn; [|destruct (name_eqb m n) eqn:E; cbn; rewrite E; auto]. now rewrite (proj2 (name_eqb_spec n n) eq_refl).
Qed.
Lemma get_set_other (d : attrs) n m o : m <> n -> dict_get name_eqb (dict_set name_eqb d m o) n = dict_get name_eqb d n.
Proof.
  intro N. assert (E0 : name_eqb m n = false) by (destruct (name_eqb m n) eqn:E; [apply name_eqb_spec in E; contradiction|reflexivity]).
  induction d as [|[k v] d IH]; cbn; [now rewrite E0|]. destruct (name_eqb k m) eqn:E; cbn; [|now rewrite IH]. apply name_eqb_spec in E. subst k. now rewrite E0.
Qed.
Lemma get_update_other e : forall (d : attrs) n, (forall o, ~ In (n, o) e) -> dict_get name_eqb (dict_update name_eqb d e) n = dict_get name_eqb d n.
Proof.
  unfold dict_update. induction e as [|[m v] e IH]; intros d n N; cbn; [reflexivity|]. rewrite IH by (intros o X; apply (N o); now right). apply get_set_other.
  intro E. subst m. apply (N v). now left.
Qed.
Lemma get_assigned l : forall (d : attrs) n, (forall k, n <> NOther k) -> dict_get name_eqb (fold_left (fun d p => dict_set name_eqb d (NOther (fst p)) (snd p)) l d) n = dict_get name_eqb d n.
Proof.
  induction l as [|[k v] l IH]; intros d n N; cbn; [reflexivity|]. rewrite IH by assumption. apply get_set_other. cbn. intro E. now elim (N k).
Qed.
Lemma init_attrs w func enter exit d : cc_init w func enter exit = Ok d -> plain w func -> attr d NFunc = Ok func /\ attr d NEnter = Ok enter /\ attr d NExit = Ok exit.
Proof.
  intros H P. unfold cc_init in H. destruct (w_callable w func); [|discriminate]. destruct (validate (enter_valid w enter)); [|discriminate]. destruct (validate (exit_valid w exit)); [|discriminate].
  cbn in H. injection H as <-. unfold attr, update_wrapper.
  assert (G : forall n o, n = NFunc \/ n = NEnter \/ n = NExit -> ~ In (n, o) (w_dict w func)).
  { intros n o N X. destruct (P n o X) as (A & B & C). destruct N as [|[|]]; contradiction. }
  rewrite !get_set_other by discriminate. rewrite !get_update_other by (intro; apply G; auto). rewrite !get_assigned by discriminate. auto.
Qed.
(** Calling the wrapper is calling the wrapped object with the same arguments. *)
Theorem C60_call_forwards :
  forall w func enter exit d, cc_init w func enter exit = Ok d -> plain w func ->
  forall ans log args kwargs, cc_call w ans log d args kwargs = call_obj w ans log func args kwargs.
Proof. intros w func enter exit d H P ans log args kwargs. destruct (init_attrs _ _ _ _ _ H P) as (A & _ & _). unfold cc_call. now rewrite A. Qed.
Print Assumptions C60_call_forwards.
Lemma user_call w ans log f args kw : user_fn f -> call_obj w ans log f args kw = call_out ans log (ECalled f args kw).
Proof. destruct f; intros []; reflexivity. Qed.
Lemma with_shape w ans log d body en ex :
  (forall log, cc_enter w ans log d = call_out ans log en) -> (forall log x, cc_exit w ans log d x = call_out ans log (ex x)) ->
  with_calls w ans en ex body log (fst (cc_with w ans log d body)) (snd (cc_with w ans log d body)).
Proof.
  intros HE HX. unfold cc_with, with_calls. rewrite HE. unfold call_out. destruct (ans (log ++ [en])) as [v|e]; [|cbn; auto].
  destruct (body v (log ++ [en])) as [log2 [[]|e]]; cbn [fst snd]; rewrite HX; unfold call_out.
  - destruct (ans (log2 ++ [ex None])) eqn:E; cbn; rewrite E; auto.
  - destruct (ans (log2 ++ [ex (Some e)])) eqn:E; cbn; rewrite E; auto.
Qed.
(** A with statement on the wrapper calls the enter function once, with the wrapped object,
    then runs the body, then calls the exit function once, with the wrapped object and the
    body's exception; the latter is suppressed iff the exit function returns a true value. *)
Theorem C60_with_statement :
  forall w func enter exit d, cc_init w func enter exit = Ok d -> plain w func -> user_fn enter -> user_fn exit ->
  forall ans log body, with_calls w ans (ECalled enter [func] []) (fun x => ECalled exit (func :: exc_info x) []) body log
    (fst (cc_with w ans log d body)) (snd (cc_with w ans log d body)).
Proof.
  intros w func enter exit d H P UE UX ans log body. destruct (init_attrs _ _ _ _ _ H P) as (A & B & C). apply with_shape; intros; unfold cc_enter, cc_exit; rewrite ?A, ?B, ?C; now apply user_call.
Qed.
Print Assumptions C60_with_statement.
(** contextualize_with_instance on a bound method: the instance's [__enter__] and [__exit__]. *)
Theorem C60_with_instance :
  forall w func inst d, cc_with_instance w func = Ok d -> plain w func -> w_self w func = Ok inst ->
  forall ans log body, with_calls w ans (EMethod inst MEnter []) (fun x => EMethod inst MExit (exc_info x)) body log
    (fst (cc_with w ans log d body)) (snd (cc_with w ans log d body)).
Proof.
  intros w func inst d H P S ans log body. destruct (init_attrs _ _ _ _ _ H P) as (A & B & C). apply with_shape; intros; unfold cc_enter, cc_exit; rewrite ?A, ?B, ?C; cbn; now rewrite S.
Qed.
Print Assumptions C60_with_instance.
(** By default nothing happens on entering and leaving, and the body's outcome is kept. *)
Theorem C60_default_does_nothing :
  forall w func d, cc_init w func ONullEnter ONullExit = Ok d -> plain w func -> w_truth w ONone = false ->
  forall ans log body, cc_with w ans log d body = body func log.
Proof.
  intros w func d H P T ans log body. destruct (init_attrs _ _ _ _ _ H P) as (A & B & C). unfold cc_with, cc_enter, cc_exit. rewrite A, B, C. cbn.
  destruct (body func log) as [log2 [[]|e]]; cbn; [reflexivity|now rewrite T].
Qed.
Print Assumptions C60_default_does_nothing.
(** Violation: wrapping an object that has the three attributes, such as another
    ContextualizeCall, copies them over the wrapper's own: the enter and exit functions just
    given are never called. *)
Theorem C60_nested_refuted :
  forall w inner func1 enter1 exit1 d1 enter2 exit2 d2,
  cc_init w func1 enter1 exit1 = Ok d1 -> w_dict w inner = d1 -> cc_init w inner enter2 exit2 = Ok d2 ->
  forall ans log body, cc_with w ans log d2 body = cc_with w ans log d1 body.
Proof.
  intros w inner func1 enter1 exit1 d1 enter2 exit2 d2 H1 HD H2 ans log body.
  assert (U : forall n (e d : attrs) o, dict_get name_eqb e n = Some o -> ForallOrdPairs (fun p q => name_eqb (fst p) (fst q) = false) e -> dict_get name_eqb (dict_update name_eqb d e) n = Some o).
  { intros n e. unfold dict_update. induction e as [|[m v] e IH]; intros d o G D; cbn in G |- *; [discriminate|]. inversion D; subst. destruct (name_eqb m n) eqn:E.
    - apply name_eqb_spec in E. subst m. injection G as ->. fold (dict_update name_eqb (dict_set name_eqb d n o) e). rewrite get_update_other; [apply get_set_same|].
      intros x X. rewrite Forall_forall in H3. specialize (H3 _ X). cbn in H3. rewrite (proj2 (name_eqb_spec n n) eq_refl) in H3. discriminate.
    - auto. }
  assert (SD : forall (d : attrs) n o, ForallOrdPairs (fun p q => name_eqb (fst p) (fst q) = false) d -> ForallOrdPairs (fun p q => name_eqb (fst p) (fst q) = false) (dict_set name_eqb d n o)).
  { intros d n o D. induction D as [|[m v] d F D IH]; cbn; [repeat constructor|]. destruct (name_eqb m n) eqn:E; constructor; auto.
    clear - F E. rewrite Forall_forall in *. intros [k x] X. cbn. assert (K : k = n \/ exists y, In (k, y) d).
    { clear - X. induction d as [|[k1 v1] d IH]; cbn in X; [destruct X as [X|[]]; left; congruence|]. destruct (name_eqb k1 n); destruct X as [X|X]; try (injection X as <- <-; right; eexists; now left).
      - right. eexists. right. eassumption.
      - destruct (IH X) as [->|(y & Y)]; [now left|right; exists y; now right]. }
    destruct K as [->|(y & Y)]; [assumption|]. apply (F _ Y). }
  assert (UD : forall l (d : attrs), ForallOrdPairs (fun p q => name_eqb (fst p) (fst q) = false) d -> ForallOrdPairs (fun p q => name_eqb (fst p) (fst q) = false) (dict_update name_eqb d l)).
  { unfold dict_update. induction l as [|p l IH]; intros d D; cbn; auto. }
  assert (DD : ForallOrdPairs (fun p q => name_eqb (fst p) (fst q) = false) d1).
  { unfold cc_init in H1. destruct (w_callable w func1); [|discriminate]. destruct (validate (enter_valid w enter1)); [|discriminate]. destruct (validate (exit_valid w exit1)); [|discriminate].
    cbn in H1. injection H1 as <-. unfold update_wrapper. apply SD, UD.
    assert (AS : forall l (d : attrs), ForallOrdPairs (fun p q => name_eqb (fst p) (fst q) = false) d -> ForallOrdPairs (fun p q => name_eqb (fst p) (fst q) = false) (fold_left (fun d p => dict_set name_eqb d (NOther (fst p)) (snd p)) l d)).
    { induction l as [|p l IH]; intros d D; cbn; auto. }
    apply AS. repeat constructor. }
  assert (IN : forall n, n = NFunc \/ n = NEnter \/ n = NExit -> exists o, dict_get name_eqb d1 n = Some o).
  { intros n N. unfold cc_init in H1. destruct (w_callable w func1); [|discriminate]. destruct (validate (enter_valid w enter1)); [|discriminate]. destruct (validate (exit_valid w exit1)); [|discriminate].
    cbn in H1. injection H1 as <-. unfold update_wrapper.
    assert (KEEP : forall l (d : attrs), (exists o, dict_get name_eqb d n = Some o) -> exists o, dict_get name_eqb (dict_update name_eqb d l) n = Some o).
    { unfold dict_update. induction l as [|[m v] l IH]; intros d D; cbn; [assumption|]. apply IH. destruct (name_eqb m n) eqn:E.
      - apply name_eqb_spec in E. subst m. rewrite get_set_same. eauto.
      - rewrite get_set_other; [assumption|]. intros ->. rewrite (proj2 (name_eqb_spec n n) eq_refl) in E. discriminate. }
    rewrite get_set_other by (destruct N as [ -> | [ -> | -> ] ]; discriminate). apply KEEP. rewrite get_assigned by (destruct N as [ -> | [ -> | -> ] ]; discriminate).
    destruct N as [ -> | [ -> | -> ] ]; eexists; reflexivity. }
  assert (E : forall n, n = NFunc \/ n = NEnter \/ n = NExit -> attr d2 n = attr d1 n).
  { intros n N. destruct (IN n N) as (o & G). unfold cc_init in H2. destruct (w_callable w inner); [|discriminate]. destruct (validate (enter_valid w enter2)); [|discriminate].
    destruct (validate (exit_valid w exit2)); [|discriminate]. cbn in H2. injection H2 as <-. unfold attr, update_wrapper.
    rewrite get_set_other by (destruct N as [ -> | [ -> | -> ] ]; discriminate). rewrite HD. rewrite (U n d1 _ o G DD). now rewrite G. }
  unfold cc_with, cc_enter, cc_exit. rewrite !E by auto. reflexivity.
Qed.
Print Assumptions C60_nested_refuted.
(** A function (object 0), enter and exit functions 1 and 2; the exit function returns the
    true object 9, so KeyError is suppressed. Then object 3, a ContextualizeCall of these
    three, wrapped with 4 and 5. *)
Definition util_world (d3 : attrs) : world :=
  MkWorld (fun o => match o with OUser _ => true | _ => false end) (fun _ => Ok [MkParam PositionalOrKeyword false]) (fun o => match o with OUser 3 => d3 | OUser 0 => [(NOther 40, OUser 41)] | _ => [] end)
    (fun o => [(0, OUser 50)]) (fun _ => Raise AttributeError) (fun o => match o with OUser _ => true | _ => false end).
Definition util_inner : attrs := match cc_init (util_world []) (OUser 0) (OUser 1) (OUser 2) with Ok d => d | Raise _ => [] end.
Example C60_nonvacuous :
  let w := util_world util_inner in
  plain w (OUser 0) /\ cc_init w (OUser 0) (OUser 1) (OUser 2) = Ok util_inner /\
  cc_with w (fun _ => Ok (OUser 9)) [] util_inner (fun _ log => (log, Raise KeyError)) =
    ([ECalled (OUser 1) [OUser 0] []; ECalled (OUser 2) [OUser 0; OExc KeyError 0; OExc KeyError 1; OExc KeyError 2] []], Ok tt) /\
  exists d2, cc_init w (OUser 3) (OUser 4) (OUser 5) = Ok d2 /\
    fst (cc_with w (fun _ => Ok (OUser 9)) [] d2 (fun _ log => (log, Ok tt))) = [ECalled (OUser 1) [OUser 0] []; ECalled (OUser 2) [OUser 0; ONone; ONone; ONone] []].
Proof.
  cbn zeta. split; [intros n o [X|[]]; injection X as <- <-; repeat split; discriminate|]. split; [reflexivity|]. split; [reflexivity|]. eexists. split; reflexivity.
Qed.
