(** * The simulation step *)
From Coq Require Import List ZArith Bool Arith Lia.
From Verif Require Import PyVal PyLib SortedDequeM Spec SpecDeque BufferReaderM BufferSysM ListFacts DequeFacts DequeSearch LogFacts LogReads
  RWLockM SpecLock LockFacts LockProps ReaderStepsM SpecLin LinFacts LinShape LinSim.
Import ListNotations.

Section Step.
Variable K : pyval -> res pyval.
Notation core := (core K).
Notation goes := (goes K).
Notation thread_rel := (thread_rel K).

Lemma reader_no_win (k : RWLockM.state sdeque) i t : lock_inv sdeque k -> nth_error (st_ths k) i = Some t -> 0 < t_nest t ->
  forall j u rest, nth_error (st_ths k) j = Some u -> t_pc u <> WIn rest.
Proof.
  intros L Hi Hn j u rest Hj E. destruct (excl sdeque k j u L Hj) as [H1 H2]; [unfold w_nowrite; now rewrite E|].
  destruct (Nat.eq_dec i j) as [<-|N].
  - assert (t = u) by congruence. subst u. lia.
  - destruct (H2 i t N Hi). lia.
Qed.
Lemma win_alone (k : RWLockM.state sdeque) i t rest : lock_inv sdeque k -> nth_error (st_ths k) i = Some t -> t_pc t = WIn rest ->
  forall j u, j <> i -> nth_error (st_ths k) j = Some u -> t_nest u = 0 /\ forall r, t_pc u <> WIn r.
Proof.
  intros L Hi E j u N Hj. destruct (excl sdeque k i t L Hi) as [_ H]; [unfold w_nowrite; now rewrite E|].
  destruct (H j u N Hj) as [H1 H2]. split; [exact H1|]. intros r E'. unfold w_nowrite in H2. rewrite E' in H2. discriminate.
Qed.
Lemma nowrite_no_win (k : RWLockM.state sdeque) : lock_inv sdeque k -> l_nowrite (st_sh k) = false ->
  forall j u rest, nth_error (st_ths k) j = Some u -> t_pc u <> WIn rest.
Proof.
  intros [(gr & gw & C) _] HN j u rest Hj E. pose proof (ci_nw _ _ _ _ _ C) as C5. rewrite HN in C5. cbn in C5.
  pose proof (total_ge (w_nowrite sdeque) _ _ _ Hj) as G. unfold w_nowrite at 1 in G. rewrite E in G. lia.
Qed.
Lemma set_nth_same {A} (l : list A) i x : nth_error l i = Some x -> set_nth l i x = l.
Proof. revert i. induction l as [|y l IH]; intros [|i] H; cbn in *; try discriminate; [congruence|]. f_equal. now apply IH. Qed.
Lemma ranp_pair p d r : ranp p d r = (snd (fst (den p d r)), snd (den p d r)).
Proof. unfold ranp, BufferReaderM.run. now destruct (den p d r) as [[? ?] ?]. Qed.
Lemma bsys_call b r c r0 : nth_error (s_rds b) r = Some r0 ->
  bsys_step b (LCall r c) = (MkBS (s_buf b) (set_nth (s_rds b) r (fst (BufferReaderM.run (do_call (s_buf b) c) r0))), OVal (snd (BufferReaderM.run (do_call (s_buf b) c) r0))).
Proof. intro H. cbn. rewrite H. now destruct (BufferReaderM.run _ _). Qed.
Lemma bsys_write b o : is_write o -> bsys_step b o = (MkBS (fst (bwrite o (s_buf b))) (s_rds b), OUnit (snd (bwrite o (s_buf b)))).
Proof. destruct o; cbn; try contradiction; intros _; now destruct (_ : sdeque * res unit). Qed.

(* two threads in calls on the same reader are the same thread *)
Lemma same_reader s b P i j h g r c p c' p' : core s b P ->
  nth_error (ls_ths s) i = Some h -> nth_error (ls_ths s) j = Some g ->
  h_ph h = PhCall r c p -> h_ph g = PhCall r c' p' -> i = j.
Proof. intros S. exact (sm_excl _ _ _ _ S i j h g r c p c' p'). Qed.

(** ** Lock steps *)
Lemma step_lock_call s b P i t h r c p k : core s b P ->
  nth_error (st_ths (ls_lock s)) i = Some t -> nth_error (ls_ths s) i = Some h -> in_lock t = true ->
  h_ph h = PhCall r c p -> RWLockM.step (ls_lock s) i = Some k ->
  goes s b P i (MkLs k (ls_rds s) (ls_ths s) (ls_tr s)).
Proof.
  intros S Hi Hh IL Ep H. pose proof (sm_lock _ _ _ _ S) as L. pose proof (step_lock_inv sdeque _ _ _ L H) as L'.
  apply step_inv in H as (t0 & h' & t' & Hi0 & Ht & ->). assert (t0 = t) by congruence. subst t0. clear Hi0.
  pose proof (sm_th _ _ _ _ S i t h Hi Hh) as R. unfold LinSim.thread_rel in R. rewrite Ep in R.
  destruct R as (r0 & r1 & n & R1 & R2 & E & R). destruct (eff_step _ _ _ _ _ E IL Ht) as (E' & ED & EN).
  rewrite <- (set_nth_same (ls_ths s) i h Hh).
  apply (goes_update K s b P i t h t' h (MkSt h' (set_nth (st_ths (ls_lock s)) i t')) (ls_rds s) (ls_tr s) [] b (P i));
    auto; cbn [st_sh st_ths seen flat_map acts bsys_run answers]; rewrite ?app_nil_r; auto.
  - unfold LinSim.thread_rel. rewrite Ep. exists r0, r1, n. split; [exact R1|]. split; [exact R2|]. split; [exact E'|].
    destruct R as [(S1 & S2 & S3 & S4 & S5)|R]; [left|right; exact R].
    split; [exact S1|]. split; [|split; [exact S3|split; [|exact S5]]].
    + intro N0. destruct (S2 N0) as [X1 X2]. split; [exact X1|]. destruct EN as [EN|[[EN1 EN2]|[EN1 EN2]]]; lia.
    + intro N0. apply S4. destruct EN as [EN|[[EN1 EN2]|[EN1 EN2]]]; try lia;
        assert (NZ : n = 0) by lia; destruct (S2 NZ) as [_ X2]; lia.
  - intro NW. rewrite ED. apply (sm_buf _ _ _ _ S). intros j u rest Hj. destruct (Nat.eq_dec i j) as [<-|N].
    + assert (u = t) by congruence. subst u. now apply (eff_not_win t n).
    + apply (NW j u rest). rewrite nth_error_set_nth. destruct (Nat.eqb_spec i j); [congruence|exact Hj].
  - apply (sm_cons _ _ _ _ S).
  - apply (sm_key _ _ _ _ S).
  - rewrite ED. apply (sm_key _ _ _ _ S).
  - intro r'. destruct (Nat.eq_dec r' r) as [->|N]; [right; left; eauto|]. right. right. split; [reflexivity|]. split; [reflexivity|].
    intros c' p'. rewrite Ep. congruence.
  - apply (sm_nrds _ _ _ _ S).
  - constructor.
  - intros r' c' p' E1. left. eauto.
Qed.

Definition go_write s i o out h := set_nth (ls_ths s) i (MkLth (PhWrite o out) (h_todo h)).
Lemma tstep_wpc h (t : tok) h' t' : tstep h t = Some (h', t') -> wpc (t_pc t) = true -> t_todo t = [] ->
  l_data h' = l_data h /\ t_cur t' = t_cur t /\ t_todo t' = [] /\
  (wpc (t_pc t') = true \/ (t_pc t' = WIn (t_cur t) /\ l_nowrite h = false)).
Proof.
  destruct t as [p n cu q]. unfold tstep, acquire, release. cbn [t_pc t_nest t_cur t_todo]. intros H W ->.
  destruct p; try discriminate;
      repeat match type of H with
      | Some (_, at_pc _ (if Nat.eqb ?a ?b then _ else _)) = _ => destruct (Nat.eqb_spec a b)
      | Some _ = Some _ => fail 1
      | (match ?x with _ => _ end) = _ => destruct x eqn:?; try discriminate
      end; injection H as <- <-; cbn; repeat split; auto 6.
Qed.
Lemma tstep_vpc h (t : tok) h' t' : tstep h t = Some (h', t') -> vpc (t_pc t) = true -> t_todo t = [] ->
  l_data h' = l_data h /\ t_todo t' = [] /\ (vpc (t_pc t') = true \/ t_pc t' = Idle).
Proof.
  destruct t as [p n cu q]. unfold tstep, acquire, release. cbn [t_pc t_nest t_cur t_todo]. intros H W ->.
  destruct p; try discriminate;
      repeat match type of H with
      | Some (_, at_pc _ (if Nat.eqb ?a ?b then _ else _)) = _ => destruct (Nat.eqb_spec a b)
      | Some _ = Some _ => fail 1
      | (match ?x with _ => _ end) = _ => destruct x eqn:?; try discriminate
      end; injection H as <- <-; cbn; repeat split; auto 6.
Qed.

Lemma step_lock_write s b P i t h o out k : core s b P ->
  nth_error (st_ths (ls_lock s)) i = Some t -> nth_error (ls_ths s) i = Some h -> in_lock t = true ->
  h_ph h = PhWrite o out -> RWLockM.step (ls_lock s) i = Some k ->
  goes s b P i (MkLs k (ls_rds s) (go s i (MkLth (PhWrite o (write_outcome o t (the_buf s) out)) (h_todo h))) (ls_tr s)).
Proof.
  intros S Hi Hh IL Ep H. pose proof (sm_lock _ _ _ _ S) as L. pose proof (step_lock_inv sdeque _ _ _ L H) as L'.
  apply step_inv in H as (t0 & h' & t' & Hi0 & Ht & ->). assert (t0 = t) by congruence. subst t0. clear Hi0.
  pose proof (sm_th _ _ _ _ S i t h Hi Hh) as R. unfold LinSim.thread_rel in R. rewrite Ep in R. destruct R as [W R].
  set (lk' := MkSt h' (set_nth (st_ths (ls_lock s)) i t')) in *.
  assert (OTH : forall j u, j <> i -> nth_error (st_ths lk') j = Some u <-> nth_error (st_ths (ls_lock s)) j = Some u).
  { intros j u N. unfold lk'. cbn [st_ths]. rewrite nth_error_set_nth. destruct (Nat.eqb_spec i j); [congruence|]. reflexivity. }
  assert (ME : nth_error (st_ths lk') i = Some t').
  { unfold lk'. cbn [st_ths]. rewrite nth_error_set_nth, Nat.eqb_refl, Hi. reflexivity. }
  pose proof (sm_nrds _ _ _ _ S) as NR. pose proof (sm_cons _ _ _ _ S) as CO.
  destruct (sm_key _ _ _ _ S) as [K1 K2]. pose proof (sm_buf _ _ _ _ S) as SB.
  (* the quiet cases: data and explanation unchanged *)
  assert (QUIET : forall out', l_data h' = the_buf s -> (forall rest, t_pc t <> WIn rest) ->
     write_rel (the_buf s) b t' o out' (P i) ->
     goes s b P i (MkLs lk' (ls_rds s) (go s i (MkLth (PhWrite o out') (h_todo h))) (ls_tr s))).
  { intros out' ED NT R'.
    apply (goes_update K s b P i t h t' (MkLth (PhWrite o out') (h_todo h)) lk' (ls_rds s) (ls_tr s) [] b (P i));
      auto; unfold lk' in *; cbn [st_sh st_ths seen flat_map acts bsys_run answers h_ph h_todo]; rewrite ?app_nil_r; auto.
    - rewrite ED. exact R'.
    - intros NW. rewrite ED. apply SB. intros j u rest Hj. destruct (Nat.eq_dec j i) as [->|N].
      + assert (u = t) by congruence. subst u. apply NT.
      + apply (NW j u rest). apply OTH; assumption.
    - rewrite ED. exact K2.
    - intro r. right. right. split; [reflexivity|]. split; [reflexivity|]. intros c p. rewrite Ep. discriminate.
    - constructor.
    - discriminate. }
  destruct out as [v|].
  - destruct R as (R1 & R2 & R3).
    assert (NT : forall rest, t_pc t <> WIn rest) by (destruct R3 as [R3|R3]; [destruct (t_pc t); discriminate|rewrite R3; discriminate]).
    assert (EO : write_outcome o t (the_buf s) (Some v) = Some v).
    { unfold write_outcome. destruct (t_pc t); try reflexivity. exfalso. now apply (NT rest). }
    rewrite EO. destruct R3 as [R3|R3].
    + destruct (tstep_vpc _ _ _ _ Ht R3 R2) as (D1 & D2 & D3). apply QUIET; [exact D1|exact NT|]. split; [exact W|]. auto.
    + exfalso. unfold in_lock in IL. rewrite R3, R2 in IL. discriminate.
  - destruct R as (R1 & R2). destruct R2 as [[A1 A2]|[(A1 & A2 & A3)|(A1 & rest & A2 & A3 & A4)]].
    + unfold write_outcome. rewrite A1. unfold tstep in Ht. rewrite A1, A2 in Ht. injection Ht as <- <-.
      apply QUIET; [reflexivity|rewrite A1; discriminate|]. split; [exact W|]. split; [exact R1|]. right. left. cbn. auto.
    + assert (NT : forall rest, t_pc t <> WIn rest) by (destruct (t_pc t); discriminate).
      assert (EO : write_outcome o t (the_buf s) None = None) by (unfold write_outcome; destruct (t_pc t); discriminate || reflexivity).
      rewrite EO. destruct (tstep_wpc _ _ _ _ Ht A1 A2) as (D1 & D2 & D3 & D4). apply QUIET; [exact D1|exact NT|].
      split; [exact W|]. split; [exact R1|]. destruct D4 as [D4|[D4 D5]]; [right; left; split; [assumption|split; congruence]|].
      right. right. split; [exact D3|]. exists (write_body o). rewrite D4, A3. split; [reflexivity|]. split; [apply body_keeps_key|].
      rewrite SB; [now apply wrun_body|]. exact (nowrite_no_win _ L D5).
    + pose proof (win_alone _ _ _ _ L Hi A2) as AL.
      destruct (tstep_data _ _ _ _ _ Ht) as [(f & q & d' & B1 & B2 & B3 & B4 & B5 & B6)|[(rs & B1 & B2 & B3 & B4 & B5)|(_ & _ & B3 & _)]];
        [| |exfalso; now apply (B3 rest)].
      * (* one mutation *)
        assert (rest = f :: q) by congruence. subst rest. pose proof (Forall_inv A3) as F1. pose proof (Forall_inv_tail A3) as F2.
        assert (EO : write_outcome o t (the_buf s) None = None).
        { unfold write_outcome. rewrite A2. unfold the_buf. now rewrite B2. }
        rewrite EO.
        assert (T' : t_todo t' = []).
        { unfold tstep in Ht. rewrite A2, B2 in Ht. injection Ht as _ Et. rewrite <- Et. exact A1. }
        apply (goes_update K s b P i t h t' (MkLth (PhWrite o None) (h_todo h)) lk' (ls_rds s) (ls_tr s) [] b (P i));
          auto; unfold lk' in *; cbn [st_sh st_ths seen flat_map acts bsys_run answers h_ph h_todo]; rewrite ?app_nil_r; auto.
        -- split; [exact W|]. split; [exact R1|]. right. right. split; [exact T'|]. exists q. split; [exact B3|]. split; [exact F2|].
           rewrite <- A4. cbn. unfold the_buf. now rewrite B2, B5.
        -- intros j u g N Hj Hg. split; [auto|]. split; [auto|]. right. apply (AL j u N Hj).
        -- intro NW. exfalso. apply (NW i t' q ME B3).
        -- rewrite B5, (F1 _ _ B2). exact K2.
        -- intro r. right. right. split; [reflexivity|]. split; [reflexivity|]. intros c p. rewrite Ep. discriminate.
        -- constructor.
        -- discriminate.
      * (* the end of the body: the instant of the write *)
        assert (rs = rest) by congruence. subst rs.
        assert (exists v, write_outcome o t (the_buf s) None = Some v /\ wrun o rest (the_buf s) = (the_buf s, v)) as (v & EO & EW).
        { unfold write_outcome. rewrite A2. destruct B2 as [->|(f & q & -> & Ef)]; [eexists; split; reflexivity|].
          unfold the_buf. cbn [wrun]. rewrite Ef. eexists; split; reflexivity. }
        rewrite EO.
        assert (T' : t_todo t' = []).
        { unfold tstep in Ht. rewrite A2 in Ht. destruct B2 as [->|(f & q & -> & Ef)]; [|rewrite Ef in Ht]; injection Ht as _ Et; rewrite <- Et; exact A1. }
        rewrite A4 in EW.
        apply (goes_update K s b P i t h t' (MkLth (PhWrite o (Some v)) (h_todo h)) lk' (ls_rds s) (ls_tr s)
                    [XAct i o (OUnit v)] (MkBS (the_buf s) (s_rds b)) (Acted o (OUnit v)));
          auto; unfold lk' in *; cbn [st_sh st_ths seen flat_map acts answers h_ph h_todo s_buf s_rds app]; rewrite ?app_nil_r; auto.
        -- split; [exact W|]. split; [reflexivity|]. split; [exact T'|]. left. rewrite B3. reflexivity.
        -- intros j u g N Hj Hg. destruct (AL j u N Hj) as [X1 X2]. split; [auto|]. split; [now right|]. right. exact X2.
        -- pose proof (bwrite_consistent o (s_buf b) CO) as X. now rewrite EW in X.
        -- rewrite B4. exact K2.
        -- intro r. right. right. split; [reflexivity|]. split; [reflexivity|]. intros c p. rewrite Ep. discriminate.
        -- rewrite R1. constructor. now rewrite (bsys_write b o W), EW.
        -- discriminate.
Qed.

(** ** Program steps *)
Lemma ask_same s i t : nth_error (st_ths (ls_lock s)) i = Some t -> forall q,
  ask s i q = MkSt (st_sh (ls_lock s)) (set_nth (st_ths (ls_lock s)) i (MkT (t_pc t) (t_nest t) (t_cur t) q)).
Proof. intros H q. unfold ask. now rewrite H. Qed.
Lemma idle_nest s i t : lock_inv sdeque (ls_lock s) -> nth_error (st_ths (ls_lock s)) i = Some t -> t_pc t = Idle -> t_nest t = 0.
Proof. intros [_ N] Hi E. specialize (N i t Hi). unfold nest_ok in N. now rewrite E in N. Qed.
Lemma thread_eta (t : tok) : t = MkT (t_pc t) (t_nest t) (t_cur t) (t_todo t).
Proof. now destruct t. Qed.

(* nobody enters or leaves a writer section when a thread's script changes *)
Lemma win_same (k : RWLockM.state sdeque) i t q : nth_error (st_ths k) i = Some t ->
  (forall j u rest, nth_error (set_nth (st_ths k) i (MkT (t_pc t) (t_nest t) (t_cur t) q)) j = Some u -> t_pc u <> WIn rest) ->
  forall j u rest, nth_error (st_ths k) j = Some u -> t_pc u <> WIn rest.
Proof.
  intros Hi H j u rest Hj. destruct (Nat.eq_dec i j) as [<-|N].
  - assert (u = t) by congruence. subst u. apply (H i (MkT (t_pc t) (t_nest t) (t_cur t) q) rest). now rewrite nth_error_set_nth, Nat.eqb_refl, Hi.
  - apply (H j u rest). rewrite nth_error_set_nth. destruct (Nat.eqb_spec i j); [congruence|exact Hj].
Qed.

(* a step of a call's program that leaves the explanation alone *)
Lemma step_call_quiet s b P i t h r c p q r1 r1' p' :
  core s b P ->
  nth_error (st_ths (ls_lock s)) i = Some t -> nth_error (ls_ths s) i = Some h ->
  h_ph h = PhCall r c p -> nth_error (ls_rds s) r = Some r1 ->
  call_rel K b (set_nth (ls_rds s) r r1') (MkT (t_pc t) (t_nest t) (t_cur t) q) r c p' (P i) ->
  goes s b P i (MkLs (MkSt (st_sh (ls_lock s)) (set_nth (st_ths (ls_lock s)) i (MkT (t_pc t) (t_nest t) (t_cur t) q)))
     (set_nth (ls_rds s) r r1') (go s i (MkLth (PhCall r c p') (h_todo h))) (ls_tr s)).
Proof.
  intros S Hi Hh Ep Hr R. pose proof (sm_lock _ _ _ _ S) as L.
  apply (goes_update K s b P i t h (MkT (t_pc t) (t_nest t) (t_cur t) q) (MkLth (PhCall r c p') (h_todo h))
     (MkSt (st_sh (ls_lock s)) (set_nth (st_ths (ls_lock s)) i (MkT (t_pc t) (t_nest t) (t_cur t) q))) (set_nth (ls_rds s) r r1') (ls_tr s) [] b (P i));
  auto; cbn [st_sh st_ths seen flat_map h_ph h_todo]; rewrite ?app_nil_r; auto.
  - now apply lock_inv_todo.
  - intros j u g N Hj Hg. split; [|split; auto]. intros r' c' p1 G. split; [|reflexivity]. rewrite nth_error_set_nth.
    destruct (Nat.eqb_spec r r') as [<-|]; [|reflexivity]. exfalso. apply N. symmetry. eapply same_reader; eauto.
  - intro NW. apply (sm_buf _ _ _ _ S). eapply win_same; eauto.
  - apply (sm_cons _ _ _ _ S).
  - apply (sm_key _ _ _ _ S).
  - apply (sm_key _ _ _ _ S).
  - intro r'. destruct (Nat.eq_dec r' r) as [->|N]; [right; left; eauto|]. right. right.
    split; [rewrite nth_error_set_nth; destruct (Nat.eqb_spec r r'); [congruence|reflexivity]|]. split; [reflexivity|].
    intros c' p1. rewrite Ep. congruence.
  - rewrite set_nth_length. apply (sm_nrds _ _ _ _ S).
  - constructor.
  - intros r' c' p1 E1. injection E1 as <- <- <-. left. eauto.
Qed.
Lemma step_call_stay s b P i t h r c p r1 r1' p' rds' :
  core s b P ->
  nth_error (st_ths (ls_lock s)) i = Some t -> nth_error (ls_ths s) i = Some h -> t_todo t = [] ->
  h_ph h = PhCall r c p -> nth_error (ls_rds s) r = Some r1 -> set_nth (ls_rds s) r r1' = rds' ->
  call_rel K b rds' t r c p' (P i) ->
  goes s b P i (MkLs (ls_lock s) rds' (go s i (MkLth (PhCall r c p') (h_todo h))) (ls_tr s)).
Proof.
  intros S Hi Hh T Ep Hr <- R.
  assert (TT : MkT (t_pc t) (t_nest t) (t_cur t) [] = t) by (rewrite <- T; symmetry; apply thread_eta).
  assert (LK : MkSt (st_sh (ls_lock s)) (set_nth (st_ths (ls_lock s)) i (MkT (t_pc t) (t_nest t) (t_cur t) [])) = ls_lock s).
  { rewrite TT, (set_nth_same _ _ _ Hi). now destruct (ls_lock s). }
  assert (G : goes s b P i (MkLs (MkSt (st_sh (ls_lock s)) (set_nth (st_ths (ls_lock s)) i (MkT (t_pc t) (t_nest t) (t_cur t) [])))
     (set_nth (ls_rds s) r r1') (go s i (MkLth (PhCall r c p') (h_todo h))) (ls_tr s))).
  { eapply step_call_quiet; eauto. now rewrite TT. }
  now rewrite LK in G.
Qed.
(* the instant of a call: [es] is the act, or the act and the return *)
Lemma step_call_act s b P i t h r c p q r0 r1 v ph' es st' :
  core s b P ->
  nth_error (st_ths (ls_lock s)) i = Some t -> nth_error (ls_ths s) i = Some h ->
  h_ph h = PhCall r c p -> P i = Called (LCall r c) ->
  nth_error (s_rds b) r = Some r0 -> nth_error (ls_rds s) r = Some r1 ->
  BufferReaderM.run (do_call (s_buf b) c) r0 = v ->
  thread_rel (the_buf s) (MkBS (s_buf b) (set_nth (s_rds b) r (fst v))) (ls_rds s) (MkT (t_pc t) (t_nest t) (t_cur t) q)
     (MkLth ph' (h_todo h)) st' ->
  ((exists p', ph' = PhCall r c p' /\ es = [XAct i (LCall r c) (OVal (snd v))] /\ st' = Acted (LCall r c) (OVal (snd v))) \/
   (ph' = PhIdle /\ r1 = fst v /\ es = [XAct i (LCall r c) (OVal (snd v)); XRes i (LCall r c) (OVal (snd v))] /\ st' = Rest)) ->
  goes s b P i (MkLs (MkSt (st_sh (ls_lock s)) (set_nth (st_ths (ls_lock s)) i (MkT (t_pc t) (t_nest t) (t_cur t) q)))
     (ls_rds s) (go s i (MkLth ph' (h_todo h))) (ls_tr s ++ seen es)).
Proof.
  intros S Hi Hh Ep Pi H0 H1 Hv R CASES. pose proof (sm_lock _ _ _ _ S) as L.
  assert (NOTH : forall j u g r' c' p', j <> i -> nth_error (st_ths (ls_lock s)) j = Some u -> nth_error (ls_ths s) j = Some g ->
     h_ph g = PhCall r' c' p' -> r' <> r).
  { intros j u g r' c' p' N Hj Hg G ->. apply N. symmetry. eapply same_reader; eauto. }
  apply (goes_update K s b P i t h (MkT (t_pc t) (t_nest t) (t_cur t) q) (MkLth ph' (h_todo h))
     (MkSt (st_sh (ls_lock s)) (set_nth (st_ths (ls_lock s)) i (MkT (t_pc t) (t_nest t) (t_cur t) q))) (ls_rds s) (ls_tr s ++ seen es) es
     (MkBS (s_buf b) (set_nth (s_rds b) r (fst v))) st'); auto; cbn [st_sh st_ths h_ph h_todo s_buf s_rds]; auto.
  - now apply lock_inv_todo.
  - intros j u g N Hj Hg. split; [|split; auto]. intros r' c' p1 G. split; [reflexivity|]. rewrite nth_error_set_nth.
    destruct (Nat.eqb_spec r r') as [<-|]; [|reflexivity]. exfalso. eapply NOTH; eauto.
  - intro NW. apply (sm_buf _ _ _ _ S). eapply win_same; eauto.
  - apply (sm_cons _ _ _ _ S).
  - apply (sm_key _ _ _ _ S).
  - apply (sm_key _ _ _ _ S).
  - intro r'. destruct (Nat.eq_dec r' r) as [->|N].
    + destruct CASES as [(p' & -> & _)|(_ & E & _)]; [right; left; eauto|left]. rewrite nth_error_set_nth, Nat.eqb_refl, H0. congruence.
    + right. right. split; [reflexivity|]. split; [rewrite nth_error_set_nth; destruct (Nat.eqb_spec r r'); [congruence|reflexivity]|].
      intros c' p1. rewrite Ep. congruence.
  - rewrite set_nth_length. apply (sm_nrds _ _ _ _ S).
  - rewrite Pi. destruct CASES as [(p' & _ & -> & ->)|(_ & _ & -> & ->)]; constructor; rewrite (bsys_call b r c r0 H0), Hv; reflexivity.
  - intros r' c' p1 E1. destruct CASES as [(p' & -> & _)|(-> & _)]; [|discriminate]. injection E1 as <- <- <-. left. eauto.
Qed.

Lemma step_call s b P i t h r c p s' : core s b P ->
  nth_error (st_ths (ls_lock s)) i = Some t -> nth_error (ls_ths s) i = Some h -> in_lock t = false ->
  h_ph h = PhCall r c p -> lstep s i = Some s' -> goes s b P i s'.
Proof.
  intros S Hi Hh IL Ep H. unfold lstep in H. rewrite Hi, Hh, IL, Ep in H.
  pose proof (sm_lock _ _ _ _ S) as L. destruct (sm_key _ _ _ _ S) as [K1 K2].
  pose proof (sm_th _ _ _ _ S i t h Hi Hh) as R. unfold LinSim.thread_rel in R. rewrite Ep in R.
  destruct R as (r0 & r1 & n & R1 & R2 & E & R). destruct (eff_out t n E IL) as (EN & ET & EP).
  assert (TT : MkT (t_pc t) (t_nest t) (t_cur t) [] = t) by (rewrite <- ET; symmetry; apply thread_eta).
  assert (LK : MkSt (st_sh (ls_lock s)) (set_nth (st_ths (ls_lock s)) i (MkT (t_pc t) (t_nest t) (t_cur t) [])) = ls_lock s).
  { rewrite TT, (set_nth_same _ _ _ Hi). now destruct (ls_lock s). }
  assert (RS : set_nth (ls_rds s) r r1 = ls_rds s) by now apply set_nth_same.
  assert (INB : 0 < n -> the_buf s = s_buf b).
  { intro N. apply (sm_buf _ _ _ _ S). apply (reader_no_win _ i t L Hi). lia. }
  assert (RN : nth_error (set_nth (ls_rds s) r r1) r = Some r1) by (rewrite RS; exact R2).
  destruct p as [o|k|k|k|k|f k].
  - (* return *)
    injection H as <-. destruct R as [(S1 & S2 & S3 & S4 & S5)|(v & S1 & S2 & S3 & S4)].
    + destruct n as [|n]; [|exfalso; specialize (S3 ltac:(lia)); inversion S3].
      cbn in S5. unfold ranp in S5. cbn in S5.
      pose proof (step_call_act s b P i t h r c (PRet o) [] r0 r1 (r1, o) PhIdle
                 [XAct i (LCall r c) (OVal o); XRes i (LCall r c) (OVal o)] Rest S Hi Hh Ep S1 R1 R2 (eq_sym S5)) as X.
      rewrite LK, TT in X. apply X; [cbn; auto|right; auto].
    + specialize (S4 (s_buf b) K1). unfold ranp in S4. cbn in S4. injection S4 as -> ->.
      apply (goes_update K s b P i t h t (MkLth PhIdle (h_todo h)) (ls_lock s) (ls_rds s)
                  (ls_tr s ++ [HRes i (LCall r c) (OVal v)]) [XRes i (LCall r c) (OVal v)] b Rest); auto.
      * now rewrite (set_nth_same _ _ _ Hi).
      * cbn. subst n. cbn in EP. auto.
      * intro NW. now apply (sm_buf _ _ _ _ S).
      * apply (sm_cons _ _ _ _ S).
      * intro r'. destruct (Nat.eq_dec r' r) as [->|N]; [left; congruence|]. right. right. split; [reflexivity|]. split; [reflexivity|].
        intros c' p1. rewrite Ep. congruence.
      * apply (sm_nrds _ _ _ _ S).
      * rewrite S1. constructor.
      * discriminate.
  - (* enter *)
    injection H as <-. rewrite (ask_same s i t Hi).
    rewrite <- RS. eapply step_call_quiet; eauto. exists r0, r1.
    destruct R as [(S1 & S2 & S3 & S4 & S5)|(v & S1 & S2 & S3 & S4)]; [|inversion S3].
    destruct n as [|n].
    + exists 1. split; [exact R1|]. split; [exact RN|]. split; [rewrite EP, EN; constructor|]. left.
      destruct (S2 eq_refl) as [B B0]. apply bf_enter_inv in B. split; [exact S1|]. split; [discriminate|]. split; [auto|]. cbn [t_nest].
      split.
      * intros N d Hd. rewrite <- (S4 B0 d Hd). unfold ranp, BufferReaderM.run. cbn. now destruct (den k d r1) as [[? ?] ?].
      * rewrite <- S5. unfold ranp, BufferReaderM.run. cbn. now destruct (den k _ r1) as [[? ?] ?].
    + exists (Datatypes.S (Datatypes.S n)). split; [exact R1|]. split; [exact RN|]. split; [rewrite EP, EN; constructor|]. left.
      specialize (S3 ltac:(lia)). apply is_enter_inv in S3. split; [exact S1|]. split; [discriminate|]. split; [auto|]. cbn [t_nest].
      split; [lia|]. rewrite <- S5. unfold ranp, BufferReaderM.run. cbn. now destruct (den k _ r1) as [[? ?] ?].
  - (* leave *)
    injection H as <-. rewrite (ask_same s i t Hi).
    destruct R as [(S1 & S2 & S3 & S4 & S5)|(v & S1 & S2 & S3 & S4)]; [|inversion S3].
    destruct n as [|n]; [destruct (S2 eq_refl) as [B _]; inversion B|].
    assert (DK : forall d, ranp (PLeave k) d r1 = ranp k d r1).
    { intro d. unfold ranp, BufferReaderM.run. cbn. now destruct (den k d r1) as [[? ?] ?]. }
    rewrite DK in S5. specialize (S3 ltac:(lia)). destruct n as [|n].
    + (* the outermost section: the instant of the call *)
      pose proof (is_last_inv _ S3) as AK.
      set (v := BufferReaderM.run (do_call (s_buf b) c) r0) in *.
      pose proof (step_call_act s b P i t h r c (PLeave k) [SRel] r0 r1 v (PhCall r c k)
                 [XAct i (LCall r c) (OVal (snd v))] (Acted (LCall r c) (OVal (snd v))) S Hi Hh Ep S1 R1 R2 eq_refl) as X.
      cbn [seen flat_map] in X. rewrite app_nil_r in X. apply X; clear X.
      * unfold LinSim.thread_rel. cbn [h_ph]. exists (fst v), r1, 0. cbn [s_rds s_buf].
        split; [now rewrite nth_error_set_nth, Nat.eqb_refl, R1|]. split; [exact R2|]. split; [rewrite EP, EN; constructor|].
        right. exists (snd v). split; [reflexivity|]. split; [reflexivity|]. split; [exact AK|]. intros d Hd.
        unfold ranp, BufferReaderM.run. rewrite (after_stable k d (s_buf b) AK) by congruence.
        fold (BufferReaderM.run (den k (s_buf b)) r1). change (ranp k (s_buf b) r1 = (fst v, snd v)). rewrite S5. now destruct v.
      * left. eauto.
    + rewrite <- RS. eapply step_call_quiet; eauto. exists r0, r1, (Datatypes.S n).
      split; [exact R1|]. split; [exact RN|]. split; [rewrite EP, EN; constructor|]. left.
      apply is_leave_inv in S3. split; [exact S1|]. split; [discriminate|]. split; [auto|]. cbn [t_nest]. split; [lia|exact S5].
  - (* look *)
    injection H as <-. eapply step_call_stay; eauto. exists r0, r1, n.
    split; [exact R1|]. split; [exact R2|]. split; [exact E|].
    destruct R as [(S1 & S2 & S3 & S4 & S5)|(v & S1 & S2 & S3 & S4)].
    + left. split; [exact S1|]. destruct n as [|n].
      * destruct (S2 eq_refl) as [B B0]. apply bf_look_inv in B as [HK HB].
        split; [auto|]. split; [lia|]. split.
        -- intros _ d Hd. rewrite <- (S4 B0 d Hd). unfold ranp. cbn. now rewrite (HK (the_buf s) d) by congruence.
        -- rewrite <- S5. unfold ranp. cbn. now rewrite (HK (the_buf s) (s_buf b)) by congruence.
      * specialize (S3 ltac:(lia)). pose proof (is_look_inv _ _ S3). split; [discriminate|]. split; [auto|]. split; [lia|].
        rewrite (INB ltac:(lia)). exact S5.
    + right. exists v. split; [exact S1|]. split; [exact S2|]. apply af_look_inv in S3 as [HK HB]. split; [auto|].
      intros d Hd. rewrite <- (S4 d Hd). unfold ranp. cbn. now rewrite (HK (the_buf s) d) by congruence.
  - (* load *)
    rewrite R2 in H. injection H as <-. eapply step_call_stay; eauto. exists r0, r1, n.
    split; [exact R1|]. split; [exact R2|]. split; [exact E|].
    destruct R as [(S1 & S2 & S3 & S4 & S5)|(v & S1 & S2 & S3 & S4)].
    + left. split; [exact S1|]. split; [|split; [|split; [exact S4|exact S5]]].
      * intro N. destruct (S2 N) as [B B0]. pose proof (bf_get_inv _ B). auto.
      * intro N. specialize (S3 N). pose proof (is_get_inv _ _ S3). auto.
    + right. exists v. split; [exact S1|]. split; [exact S2|]. pose proof (af_get_inv _ S3). split; [auto|]. exact S4.
  - (* store *)
    rewrite R2 in H. injection H as <-. eapply step_call_stay; eauto. exists r0, (f r1), n.
    split; [exact R1|]. split; [now rewrite nth_error_set_nth, Nat.eqb_refl, R2|]. split; [exact E|].
    destruct R as [(S1 & S2 & S3 & S4 & S5)|(v & S1 & S2 & S3 & S4)].
    + left. split; [exact S1|]. split; [|split; [|split; [exact S4|exact S5]]].
      * intro N. destruct (S2 N) as [B B0]. pose proof (bf_set_inv _ _ B). auto.
      * intro N. specialize (S3 N). pose proof (is_set_inv _ _ _ S3). auto.
    + right. exists v. split; [exact S1|]. split; [exact S2|]. pose proof (af_set_inv _ _ S3). split; [auto|]. exact S4.
Qed.
End Step.
