(** * Copies and pickles of a SortedDeque (C97) *)
From Coq Require Import List ZArith Bool Arith Lia Permutation.
From Verif Require Import PyVal PyLib SortedDequeM Spec SpecDeque ListFacts BisectFacts DequeFacts DequeSearch DequeObjM PropsDeque.
Import ListNotations.

(** ** Specification: [o'] does the job of [o]: same items in the same order, same key
    function, same bound. *)
Definition same_container (o o' : sdobj) : Prop :=
  sd_list (o_sd o') = sd_list (o_sd o) /\ (forall x, sd_key (o_sd o') x = sd_key (o_sd o) x) /\ sd_maxlen (o_sd o') = sd_maxlen (o_sd o).
Definition snd_key (v : pyval) : res pyval := match v with PTuple [_; k] => Ok k | _ => Raise TypeError end.

(** A key assignment that raises, and leaves the container as it is, still changes what
    copy.copy and pickle will build and what repr shows: here the copy is sorted by the
    rejected key. (drop(1) removes the item that made the assignment fail.) *)
Definition mixed : list oop :=
  [PAppend (PTuple [PInt 1; PStr [97%Z]]); PAppend (row 2 9); PSetKey false (KFun snd_key true); PDrop 1; PAppend (row 3 1)].
Theorem C97_rejected_key_refuted :
  exists o0, obj_init [] (KFun fst_key true) (Some 4%Z) = Ok o0 /\
  snd (obj_step (obj_run o0 (firstn 2 mixed)) (PSetKey false (KFun snd_key true))) = Raise TypeError /\
  o_sd (obj_run o0 (firstn 3 mixed)) = o_sd (obj_run o0 (firstn 2 mixed)) /\
  let o := obj_run o0 mixed in
  sd_list (o_sd o) = [row 2 9; row 3 1] /\ obj_repr o = ([row 2 9; row 3 1], KFun snd_key true, Some 4%Z) /\
  exists o', obj_copy_copy o = Ok o' /\ obj_pickle o = Ok o' /\ sd_list (o_sd o') = [row 3 1; row 2 9] /\ ~ same_container o o'.
Proof.
  eexists. split; [reflexivity|]. split; [vm_compute; reflexivity|]. split; [vm_compute; reflexivity|]. cbn zeta.
  split; [vm_compute; reflexivity|]. split; [vm_compute; reflexivity|]. eexists. split; [vm_compute; reflexivity|]. split; [vm_compute; reflexivity|].
  split; [vm_compute; reflexivity|]. intros [X _]. vm_compute in X. discriminate.
Qed.
Print Assumptions C97_rejected_key_refuted.

(** clear(), maxlen = ... and copy() turn a container without a key, which can be pickled, into
    one that can never be: for every container and all later calls that do not set the key. *)
Definition keeps_key (p : oop) : bool := match p with PSetKey _ _ | PDelKey => false | _ => true end.
Definition rebuilds (p : oop) : Prop := p = PClear \/ p = PCopy \/ exists m, p = PSetMaxlen false m.

Lemma actual_idem k : actual_key (actual_key k) = actual_key k.
Proof. now destruct k. Qed.
Lemma actual_fun k : key_fun (actual_key k) = key_fun k.
Proof. now destruct k. Qed.
Lemma obj_step_key o p : keeps_key p = true -> actual_key (o_key o) = o_key o -> o_key (fst (obj_step o p)) = o_key o.
Proof.
  intros K A. destruct p as [x|x|x|x|n| | |same k| |same m]; try discriminate K; cbn; auto.
  - unfold obj_reinit. destruct (sd_reinit _ _ _ _). cbn. auto.
  - unfold obj_copy, obj_init. destruct (sd_init _ _ _); cbn; auto.
  - destruct same; [auto|]. unfold obj_reinit. destruct (sd_reinit _ _ _ _). cbn. destruct (sc_init _ _); auto.
Qed.
Lemma obj_step_given o p : keeps_key p = true -> o_given (fst (obj_step o p)) = o_key o \/ o_given (fst (obj_step o p)) = o_given o.
Proof.
  intro K. destruct p as [x|x|x|x|n| | |same k| |same m]; try discriminate K; cbn; auto.
  - unfold obj_reinit. destruct (sd_reinit _ _ _ _). cbn. auto.
  - unfold obj_copy, obj_init. destruct (sd_init _ _ _); cbn; auto.
  - destruct same; [auto|]. unfold obj_reinit. destruct (sd_reinit _ _ _ _). auto.
Qed.
Lemma run_keyless o ps : forallb keeps_key ps = true -> o_key o = KFun identity false ->
  o_key (obj_run o ps) = KFun identity false /\ (o_given o = KFun identity false -> o_given (obj_run o ps) = KFun identity false).
Proof.
  revert o. induction ps as [|p ps IH]; intros o K E; [auto|]. cbn in K. apply andb_true_iff in K as [K1 K2]. cbn.
  assert (E' : o_key (fst (obj_step o p)) = KFun identity false) by (rewrite obj_step_key; auto; now rewrite E). destruct (IH _ K2 E') as [A B].
  split; [exact A|]. intro G. apply B. destruct (obj_step_given o p K1) as [->| ->]; congruence.
Qed.
Theorem C97_keyless_cannot_be_pickled_refuted :
  forall m o0, obj_init [] KNone m = Ok o0 ->
  (exists o', obj_pickle o0 = Ok o' /\ same_container o0 o') /\
  forall pre p, forallb keeps_key pre = true -> rebuilds p -> snd (obj_step (obj_run o0 pre) p) = Ok tt ->
  forall post, forallb keeps_key post = true ->
  obj_pickle (obj_run (fst (obj_step (obj_run o0 pre) p)) post) = Raise AttributeError.
Proof.
  intros m o0 H. assert (E0 : o_key o0 = KFun identity false /\ o_given o0 = KNone /\ sd_items (o_sd o0) = [] /\ sd_maxlen (o_sd o0) = m).
  { unfold obj_init, sd_init in H. cbn in H. destruct (check_maxlen m) as [[]|]; cbn in H; try discriminate; injection H as <-; auto. }
  destruct E0 as (K0 & G0 & I0 & M0). split.
  - exists o0. split; [|now repeat split]. unfold obj_pickle, obj_copy_copy. rewrite G0, I0, M0. exact H.
  - intros pre p K1 RB OK post K2. destruct (run_keyless o0 pre K1 K0) as [K _]. set (o := obj_run o0 pre) in *.
    assert (X : o_key (fst (obj_step o p)) = KFun identity false /\ o_given (fst (obj_step o p)) = KFun identity false).
    { destruct RB as [->|[->|(m' & ->)]]; cbn [obj_step] in *.
      - unfold obj_reinit. destruct (sd_reinit _ _ _ _). cbn. rewrite K. split; reflexivity.
      - unfold obj_copy, obj_init in OK |- *. clear H. destruct (sd_init _ _ _); cbn in *; [rewrite K; split; reflexivity|discriminate].
      - unfold obj_reinit. destruct (sd_reinit _ _ _ _). cbn. destruct (sc_init _ _); rewrite K; split; reflexivity. }
    destruct X as [X1 X2]. destruct (run_keyless _ post K2 X1) as [_ Y]. unfold obj_pickle. rewrite (Y X2). reflexivity.
Qed.
Print Assumptions C97_keyless_cannot_be_pickled_refuted.

(** ** What holds *)
(** The call of SortedDequeM that the step makes. *)
Definition op_of (o : sdobj) (p : oop) : sdop :=
  match p with
  | PAppend x => OAppend x | PInsert x => OInsert x | PInsertRight x => OInsertRight x | PRemove x => ORemove x | PDrop n => ODrop n
  | PClear => OClear | PCopy => OCopy | PSetKey s k => OSetKey s (key_fun k) | PDelKey => ODelKey | PSetMaxlen s m => OSetMaxlen s m
  end.
Lemma step_project o p : sd_key (o_sd o) = key_fun (o_key o) -> (o_sd (fst (obj_step o p)), snd (obj_step o p)) = sd_step (o_sd o) (op_of o p).
Proof.
  intro K. assert (P : forall A B (x : A * B), (fst x, snd x) = x) by (now intros A B []).
  destruct p as [x|x|x|x|n| | |same k| |same m]; cbn [obj_step obj_call op_of sd_step fst snd o_sd]; rewrite ?P; auto.
  - unfold sd_clear, obj_reinit. rewrite K. destruct (sd_reinit _ _ _ _); reflexivity.
  - unfold sd_copy, obj_copy, obj_init. rewrite K. destruct (sd_init _ _ _); reflexivity.
  - unfold sd_assign_key, obj_reinit. destruct same; [reflexivity|]. destruct (sd_reinit _ _ _ _); reflexivity.
  - unfold sd_delete_key, obj_reinit. change (key_fun KNone) with (fun x : pyval => Ok x). destruct (sd_reinit _ _ _ _); reflexivity.
  - unfold sd_setmaxlen, obj_reinit. destruct same; [reflexivity|]. rewrite K. destruct (sd_reinit _ _ _ _); reflexivity.
Qed.

(** [_key] is the key function of the container. *)
Definition in_force (o : sdobj) : Prop := sd_key (o_sd o) = key_fun (o_key o).
Lemma in_force_init it k m o : obj_init it k m = Ok o -> in_force o /\ sd_init it (key_fun k) m = Ok (o_sd o) /\ o_given o = k /\ o_key o = actual_key k.
Proof.
  unfold obj_init. destruct (sd_init it (key_fun k) m) as [d|] eqn:E; cbn [bind]; [|discriminate]. injection 1 as <-. cbn.
  split; [|auto]. unfold in_force. cbn. rewrite actual_fun. exact (init_key _ _ _ _ E).
Qed.
Lemma in_force_reinit o it k m : in_force o -> in_force (fst (obj_reinit o it k m)).
Proof.
  intro I. unfold obj_reinit, sd_reinit. destruct (sc_init it (key_fun k)) as [c|]; [|exact I].
  destruct (check_maxlen m); unfold in_force; cbn; now rewrite actual_fun.
Qed.
Lemma in_force_call o x : in_force o -> sd_key (fst x) = sd_key (o_sd o) -> in_force (fst (obj_call o x)).
Proof. unfold in_force. cbn. intros A B. now rewrite B. Qed.
Lemma insert_at_key d i k x : consistent d -> sd_key (fst (sd_insert_at d i k x)) = sd_key d.
Proof. intro C. destruct (insert_at_cases d i k x C) as [[-> _]|[-> _]]; reflexivity. Qed.
Lemma in_force_step o p : consistent (o_sd o) -> in_force o -> in_force (fst (obj_step o p)).
Proof.
  intros C I. destruct p as [x|x|x|x|n| | |same k| |same m]; cbn [obj_step].
  - apply in_force_call; [exact I|]. apply append_key.
  - apply in_force_call; [exact I|]. unfold sd_insert. destruct (let! k := sd_key (o_sd o) x in _) as [[k i]|]; [|reflexivity]. now apply insert_at_key.
  - apply in_force_call; [exact I|]. unfold sd_insert_right. destruct (let! k := sd_key (o_sd o) x in _) as [[k i]|]; [|reflexivity]. now apply insert_at_key.
  - apply in_force_call; [exact I|]. unfold sd_remove. destruct (sd_index _ _); [|reflexivity]. destruct (list_del (sd_keys (o_sd o)) a); [|reflexivity]. now destruct (list_del (sd_items (o_sd o)) a).
  - apply in_force_call; [exact I|]. apply drop_nat_key.
  - now apply in_force_reinit.
  - unfold obj_copy. destruct (obj_init _ _ _) as [o'|] eqn:E; [|exact I]. now apply in_force_init in E.
  - destruct same; [exact I|]. now apply in_force_reinit.
  - now apply in_force_reinit.
  - destruct same; [exact I|]. now apply in_force_reinit.
Qed.
Lemma obj_step_consistent o p : consistent (o_sd o) -> in_force o -> consistent (o_sd (fst (obj_step o p))).
Proof.
  intros C I. pose proof (step_project o p I) as X. apply (f_equal fst) in X. cbn [fst] in X. rewrite X. now apply consistent_step.
Qed.

(** A call that assigns or deletes the key. *)
Definition changes_key (p : oop) : bool := match p with PSetKey _ _ | PDelKey => true | _ => false end.
(** The key function given last is the one in force. *)
Definition given_ok (o : sdobj) : Prop := key_fun (o_given o) = key_fun (o_key o).
Lemma given_reinit o it k m : given_ok o -> (snd (obj_reinit o it k m) = Ok tt \/ k = o_key o) -> given_ok (fst (obj_reinit o it k m)).
Proof.
  intros G H. unfold obj_reinit, sd_reinit in *. destruct (sc_init it (key_fun k)) as [c|].
  - destruct (check_maxlen m); unfold given_ok; cbn; now rewrite actual_fun.
  - cbn in *. destruct H as [H| ->]; [discriminate|reflexivity].
Qed.
Lemma given_step o p : given_ok o -> (changes_key p = true -> snd (obj_step o p) = Ok tt) -> given_ok (fst (obj_step o p)).
Proof.
  intros G H. destruct p as [x|x|x|x|n| | |same k| |same m]; cbn [obj_step] in *; try exact G.
  - apply given_reinit; auto.
  - unfold obj_copy. destruct (obj_init _ _ _) as [o'|] eqn:E; [|exact G]. apply in_force_init in E as (_ & _ & E1 & E2). cbn [fst]. unfold given_ok. now rewrite E1, E2, actual_fun.
  - destruct same; [exact G|]. apply given_reinit; auto.
  - apply given_reinit; auto.
  - destruct same; [exact G|]. apply given_reinit; auto.
Qed.

Definition no_negative (p : oop) : Prop := match p with PSetMaxlen _ (Some m) => (0 <= m)%Z | _ => True end.
(** Every key assignment and deletion of the history was accepted. *)
Definition keys_accepted (o : sdobj) (ps : list oop) : Prop :=
  forall pre p post, ps = pre ++ p :: post -> changes_key p = true -> snd (obj_step (obj_run o pre) p) = Ok tt.
Lemma obj_run_inv ps : forall o, consistent (o_sd o) -> in_force o -> bound_is_maxlen (o_sd o) -> given_ok o -> Forall no_negative ps -> keys_accepted o ps ->
  consistent (o_sd (obj_run o ps)) /\ in_force (obj_run o ps) /\ bound_is_maxlen (o_sd (obj_run o ps)) /\ given_ok (obj_run o ps).
Proof.
  induction ps as [|p ps IH]; intros o C I B G N K; [auto|]. cbn. inversion N as [|? ? N1 N2]; subst. apply IH; auto.
  - now apply obj_step_consistent.
  - now apply in_force_step.
  - pose proof (step_project o p I) as X. apply (f_equal fst) in X. cbn [fst] in X. rewrite X. apply bim_step; auto. now destruct p.
  - apply given_step; auto. apply (K [] p ps eq_refl).
  - intros pre q post E. subst. apply (K (p :: pre) q post eq_refl).
Qed.
Lemma rebuilt d m d' : bound_is_maxlen d -> sd_init (sd_items d) (sd_key d) (sd_maxlen d) = Ok d' -> m = sd_maxlen d ->
  Permutation (sd_list d') (sd_list d) /\ sd_maxlen d' = m.
Proof.
  intros [HM HB] H ->. unfold sd_init in H. destruct (sc_init _ _) as [c|] eqn:E; cbn [bind] in H; [|discriminate].
  destruct (check_maxlen _) as [b|] eqn:Eb; cbn [bind] in H; [|discriminate]. injection H as <-. cbn. split; [|reflexivity].
  apply sc_init_inv in E as [_ P]. assert (b = sd_bound d) as ->.
  { destruct (sd_maxlen d) as [m|]; cbn in *; [|congruence]. destruct HM as [M ->]. destruct (Z.ltb_spec m 0); [lia|congruence]. }
  rewrite deque_of_newest, newest_id; [exact P|]. intros n Hn. rewrite (Permutation_length P). auto.
Qed.

(** For every history in which no negative maxlen was assigned and every key assignment and
    deletion was accepted: what copy.copy, pickle, to_jdict / from_jdict and copy() return has
    the same items up to the order of equal keys (C11), the same key function and the same bound. *)
Theorem C97_reconstruction_partial :
  forall it k m o0 ps, obj_init it k m = Ok o0 -> Forall no_negative ps -> keys_accepted o0 ps ->
  let o := obj_run o0 ps in
  forall o', obj_copy_copy o = Ok o' \/ obj_pickle o = Ok o' \/ obj_jdict o = Ok o' \/ obj_copy o = Ok o' ->
    Permutation (sd_list (o_sd o')) (sd_list (o_sd o)) /\ (forall x, sd_key (o_sd o') x = sd_key (o_sd o) x) /\ sd_maxlen (o_sd o') = sd_maxlen (o_sd o).
Proof.
  intros it k m o0 ps H N K. apply in_force_init in H as (I0 & H & G0 & A0).
  destruct (obj_run_inv ps o0) as (C & I & B & G); eauto using consistent_init, bim_init.
  { unfold given_ok. now rewrite G0, A0, actual_fun. }
  cbn zeta. set (o := obj_run o0 ps) in *. intros o' R.
  assert (X : obj_copy_copy o = Ok o' \/ obj_jdict o = Ok o').
  { unfold obj_pickle in R. destruct R as [R|[R|[R|R]]]; auto. destruct (can_pickle _); [auto|discriminate]. }
  assert (Y : sd_init (sd_items (o_sd o)) (sd_key (o_sd o)) (sd_maxlen (o_sd o)) = Ok (o_sd o')).
  { unfold in_force in I. rewrite I. destruct X as [X|X]; apply in_force_init in X as (_ & X & _); [rewrite G in X|]; exact X. }
  destruct (rebuilt _ _ _ B Y eq_refl) as [P M]. split; [exact P|]. split; [|exact M]. intro x. now rewrite (init_key _ _ _ _ Y).
Qed.
Print Assumptions C97_reconstruction_partial.

(** A container created empty and only fed by append and drop is reproduced exactly, by
    copy.copy, from_jdict and copy(), and by pickle if the key it was given can be stored. *)
Definition append_or_drop (p : oop) : Prop := match p with PAppend _ | PDrop _ => True | _ => False end.
Theorem C97_exact_partial :
  forall k m o0 ps, obj_init [] k m = Ok o0 -> Forall append_or_drop ps ->
  let o := obj_run o0 ps in
  (exists o', obj_copy_copy o = Ok o' /\ same_container o o') /\ (exists o', obj_jdict o = Ok o' /\ same_container o o') /\
  (exists o', obj_copy o = Ok o' /\ same_container o o') /\
  if can_pickle k then exists o', obj_pickle o = Ok o' /\ same_container o o' else obj_pickle o = Raise AttributeError.
Proof.
  intros k m o0 ps H A. apply in_force_init in H as (I0 & H & G0 & A0).
  assert (R : forall ps o, Forall append_or_drop ps -> exists ops, Forall is_append_or_drop ops /\ o_sd (obj_run o ps) = sd_run (o_sd o) ops /\ o_key (obj_run o ps) = o_key o /\ o_given (obj_run o ps) = o_given o).
  { clear. induction ps as [|p ps IH]; intros o A; [exists []; cbn; auto|]. inversion A as [|? ? A1 A2]; subst.
    destruct (IH (fst (obj_step o p)) A2) as (ops & X1 & X2 & X3 & X4). destruct p as [x| | | |n| | | | | ]; try easy.
    - exists (OAppend x :: ops). split; [now constructor|]. auto.
    - exists (ODrop n :: ops). split; [now constructor|]. auto. }
  destruct (R ps o0 A) as (ops & X1 & X2 & X3 & X4). cbn zeta. set (o := obj_run o0 ps) in *.
  pose proof (copy_append_drop _ _ _ _ H X1) as CP. rewrite <- X2 in CP. pose proof (run_key (o_sd o0) ops X1) as RK. rewrite <- X2 in RK. unfold in_force in I0.
  assert (J : exists o', obj_init (sd_items (o_sd o)) (o_key o) (sd_maxlen (o_sd o)) = Ok o' /\ same_container o o').
  { unfold obj_init. rewrite X3, <- I0, <- RK. unfold sd_copy in CP. rewrite CP. cbn [bind]. eexists. split; [reflexivity|]. now repeat split. }
  assert (J' : exists o', obj_copy_copy o = Ok o' /\ same_container o o').
  { unfold obj_copy_copy, obj_init. rewrite X4, G0. rewrite <- (actual_fun k), <- A0, <- I0, <- RK. unfold sd_copy in CP. rewrite CP. cbn [bind]. eexists. split; [reflexivity|]. now repeat split. }
  split; [exact J'|]. split; [exact J|]. split; [exact J|]. unfold obj_pickle. rewrite X4, G0. destruct (can_pickle k); [exact J'|reflexivity].
Qed.
Print Assumptions C97_exact_partial.

(** Both theorems apply to: items appended, a key assignment, maxlen set, equal keys inserted. *)
Definition hist : list oop := [PAppend (row 1 9); PAppend (row 2 5); PSetMaxlen false (Some 3%Z); PSetKey false (KFun snd_key true); PInsert (row 4 5); PClear; PAppend (row 7 7); PDelKey].
Example C97_nonvacuous :
  exists o0, obj_init [] (KFun fst_key true) (Some 2%Z) = Ok o0 /\ Forall no_negative hist /\ keys_accepted o0 hist /\
  sd_list (o_sd (obj_run o0 (firstn 5 hist))) = [row 4 5; row 2 5; row 1 9] /\
  (exists o', obj_jdict (obj_run o0 (firstn 5 hist)) = Ok o' /\ sd_list (o_sd o') = [row 2 5; row 4 5; row 1 9]) /\
  sd_list (o_sd (obj_run o0 (firstn 2 hist))) = [row 1 9; row 2 5] /\ Forall append_or_drop (firstn 2 hist).
Proof.
  eexists. split; [reflexivity|]. split; [unfold hist; repeat constructor; cbn; try exact I; lia|]. split.
  { intros pre p post E K. unfold hist in E.
    repeat (destruct pre as [|q pre]; [injection E as <- <-; try discriminate K; vm_compute; reflexivity|injection E as <- E]). destruct pre; discriminate E. }
  split; [vm_compute; reflexivity|]. split; [eexists; split; vm_compute; reflexivity|]. split; [vm_compute; reflexivity|]. repeat constructor.
Qed.
