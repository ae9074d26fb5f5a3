(** * Every interleaving of step-by-step calls has a sequential explanation *)
From Coq Require Import List ZArith Bool Arith Lia.
From Verif Require Import PyVal PyLib SortedDequeM Spec SpecDeque BufferReaderM BufferSysM ListFacts DequeFacts DequeSearch LogFacts LogReads
  RWLockM SpecLock LockFacts LockProps ReaderStepsM SpecLin LinFacts LinShape.
Import ListNotations.

(** ** Writers *)
Definition is_write (o : lop) : Prop := match o with LAppend _ | BufferSysM.LDrop _ => True | _ => False end.
Definition bwrite (o : lop) (d : sdeque) : sdeque * res unit :=
  match o with LAppend x => sd_append d x | BufferSysM.LDrop n => sd_drop d n | _ => (d, Ok tt) end.
Fixpoint wrun (o : lop) (rest : wbody sdeque) (d : sdeque) : sdeque * res unit :=
  match rest with
  | [] => (d, Ok tt)
  | f :: q => match f d with Some d' => wrun o q d' | None => (d, Raise (write_exn o d)) end
  end.
Lemma wrun_append x d : wrun (LAppend x) (append_body x) d = sd_append d x.
Proof.
  unfold append_body, wrun, sd_check, sd_push_key, sd_push_item, write_exn. unfold sd_append.
  destruct (sd_key d x) as [k|e] eqn:Ek; cbn [snd fst]; [|reflexivity].
  destruct (last_opt (sd_keys d)) as [l|]; cbn [snd fst].
  - destruct (py_gt k l) as [[|]|]; cbn [snd fst]; now rewrite ?Ek.
  - now rewrite Ek.
Qed.
Lemma wrun_drop z n : forall d, consistent d -> wrun (BufferSysM.LDrop z) (flat_map (fun _ => [del_key0; del_item0]) (repeat tt n)) d = sd_drop_nat d n.
Proof.
  induction n as [|n IH]; intros d C; [reflexivity|].
  cbn [repeat flat_map app wrun sd_drop_nat]. destruct d as [ks its key b m]. unfold consistent in C. cbn [sd_key sd_items sd_keys] in *.
  destruct its as [|x its]; inversion C; subst.
  - reflexivity.
  - cbn [del_key0 del_item0 sd_keys sd_items sd_key sd_bound sd_maxlen].
    rewrite !list_del_lt by (cbn; lia). cbn [firstn skipn app]. apply IH. assumption.
Qed.
Lemma wrun_body o d : is_write o -> consistent d -> wrun o (write_body o) d = bwrite o d.
Proof.
  destruct o; cbn; try contradiction; intros _ C; [apply wrun_append|now apply wrun_drop].
Qed.
Lemma bwrite_consistent o d : consistent d -> consistent (fst (bwrite o d)).
Proof.
  intro C. destruct o; cbn; auto.
  - exact (consistent_step d (OAppend x) C).
  - exact (consistent_step d (ODrop n) C).
Qed.
(* bodies keep the key function *)
Definition keeps_key (f : sdeque -> option sdeque) : Prop := forall d d', f d = Some d' -> sd_key d' = sd_key d.
Lemma body_keeps_key o : Forall keeps_key (write_body o).
Proof.
  destruct o; cbn; try constructor.
  - intros d d' H. unfold sd_check in H. destruct (snd _); [|discriminate]. now injection H as <-.
  - constructor; [|constructor; [|constructor]].
    + intros d d' H. unfold sd_push_key in H. destruct (sd_key d x); [|discriminate]. now injection H as <-.
    + intros d d' H. unfold sd_push_item in H. now injection H as <-.
  - unfold drop_body. induction (repeat tt (Z.to_nat n)) as [|u l IH]; cbn; [constructor|].
    constructor; [|constructor; [|exact IH]].
    + intros d d' H. unfold del_key0 in H. destruct (sd_keys d); [discriminate|]. now injection H as <-.
    + intros d d' H. unfold del_item0 in H. destruct (sd_items d); [discriminate|]. now injection H as <-.
Qed.
Lemma wrun_key o rest : Forall keeps_key rest -> forall d, sd_key (fst (wrun o rest d)) = sd_key d.
Proof.
  induction 1 as [|f q Hf Hq IH]; intro d; cbn; [reflexivity|]. destruct (f d) as [d'|] eqn:E; [|reflexivity].
  rewrite IH. now apply Hf.
Qed.
Lemma bwrite_key o d : sd_key (fst (bwrite o d)) = sd_key d.
Proof.
  destruct o; cbn; auto.
  - unfold sd_append. destruct (sd_key d x); [|reflexivity]. destruct (last_opt (sd_keys d)); [|reflexivity].
    destruct (py_gt _ _) as [[|]|]; reflexivity.
  - unfold sd_drop. generalize (Z.to_nat n). clear n. intro n. revert d. induction n as [|n IH]; intro d; cbn; [reflexivity|].
    destruct (list_del (sd_keys d) 0); [|reflexivity]. destruct (list_del (sd_items d) 0); [|reflexivity]. now rewrite IH.
Qed.

(** ** How a thread's lock state fits the program it runs *)
Definition tok := RWLockM.thread sdeque.
Definition xpc (p : pc sdeque) : bool :=
  match p with XMutex | XLoad | XStore _ | XTest | XNoWritersRel | XMutexRel => true | _ => false end.
Definition wpc (p : pc sdeque) : bool :=
  match p with WMutex | WLoad | WStore _ | WTest | WNoReaders | WMutexRel | WNoWriters => true | _ => false end.
Definition vpc (p : pc sdeque) : bool :=
  match p with VNoWritersRel | VMutex | VLoad | VStore _ | VTest | VNoReadersRel | VMutexRel => true | _ => false end.
(* the program believes to be inside [n] sections *)
Inductive eff : tok -> nat -> Prop :=
| ef_idle cu : eff (MkT Idle 0 cu []) 0
| ef_in n cu : eff (MkT RIn (S n) cu []) (S n)
| ef_ask0 cu : eff (MkT Idle 0 cu [SAcq]) 1
| ef_ask n cu : eff (MkT RIn (S n) cu [SAcq]) (S (S n))
| ef_acq p n cu : in_reader_acquire p = true -> eff (MkT p n cu []) (S n)
| ef_askrel n cu : eff (MkT RIn (S n) cu [SRel]) n
| ef_rel p n cu : xpc p = true -> eff (MkT p n cu []) n.
Lemma eff_step h t n h' t' : eff t n -> in_lock t = true -> tstep h t = Some (h', t') ->
  eff t' n /\ l_data h' = l_data h /\
  (t_nest t' = t_nest t \/ (t_nest t' = S (t_nest t) /\ t_nest t' = n) \/ (t_nest t = S (t_nest t') /\ t_nest t' = n)).
Proof.
  intros E L H. destruct E.
  - discriminate.
  - discriminate.
  - cbn in H. injection H as <- <-. repeat split; auto. now constructor.
  - cbn in H. injection H as <- <-. repeat split; auto. now constructor.
  - destruct p; try discriminate; unfold tstep, acquire, release in H; cbn [t_pc t_nest t_cur t_todo] in H;
      repeat match type of H with
      | Some (_, at_pc _ (if Nat.eqb ?a ?b then _ else _)) = _ => destruct (Nat.eqb_spec a b)
      | Some _ = Some _ => fail 1
      | (match ?x with _ => _ end) = _ => destruct x eqn:?; try discriminate
      end; injection H as <- <-; cbn; repeat split; auto; try (now constructor).
  - cbn in H. injection H as <- <-. cbn. rewrite Nat.sub_0_r. repeat split; auto. now constructor.
  - destruct p; try discriminate; unfold tstep, acquire, release in H; cbn [t_pc t_nest t_cur t_todo] in H;
      repeat match type of H with
      | Some (_, at_pc _ (if Nat.eqb ?a ?b then _ else _)) = _ => destruct (Nat.eqb_spec a b)
      | Some _ = Some _ => fail 1
      | (match ?x with _ => _ end) = _ => destruct x eqn:?; try discriminate
      end; injection H as <- <-; cbn; repeat split; auto; try (now constructor).
    unfold at_pc. cbn. destruct n; constructor.
Qed.
Lemma eff_out t n : eff t n -> in_lock t = false -> t_nest t = n /\ t_todo t = [] /\ t_pc t = match n with O => Idle | _ => RIn end.
Proof.
  intros E L. destruct E; cbn in *; auto; try discriminate.
  - destruct p; discriminate.
  - destruct p; discriminate.
Qed.
Lemma eff_not_win t n : eff t n -> forall r, t_pc t <> WIn r.
Proof. intros E r. destruct E; cbn; try discriminate; destruct p; discriminate. Qed.

(** ** The relation *)
(* where the thread stands in the explained history *)
Inductive tstat := Rest | Called (o : lop) | Acted (o : lop) (v : lout).
Definition ranp (p : prog rval) (d : sdeque) (r : breader) : breader * res rval := BufferReaderM.run (den p d) r.

Section Sim.
Variable K : pyval -> res pyval.

Definition call_rel (b : bsys) (rds : list breader) (t : tok) (r : nat) (c : call) (p : prog rval) (st : tstat) : Prop :=
  exists r0 r1 n, nth_error (s_rds b) r = Some r0 /\ nth_error rds r = Some r1 /\ eff t n /\
  ((st = Called (LCall r c) /\
    (n = 0 -> before p /\ t_nest t = 0) /\ (0 < n -> inside n p) /\
    (t_nest t = 0 -> forall d, sd_key d = K -> ranp p d r1 = BufferReaderM.run (do_call d c) r0) /\
    (ranp p (s_buf b) r1 = BufferReaderM.run (do_call (s_buf b) c) r0))
   \/ (exists v, st = Acted (LCall r c) (OVal v) /\ n = 0 /\ after p /\ forall d, sd_key d = K -> ranp p d r1 = (r0, v))).
Definition write_rel (buf : sdeque) (b : bsys) (t : tok) (o : lop) (out : option (res unit)) (st : tstat) : Prop :=
  is_write o /\
  match out with
  | None => st = Called o /\
      ((t_pc t = Idle /\ t_todo t = [SWrite (write_body o)]) \/
       (wpc (t_pc t) = true /\ t_todo t = [] /\ t_cur t = write_body o) \/
       (t_todo t = [] /\ exists rest, t_pc t = WIn rest /\ Forall keeps_key rest /\ wrun o rest buf = bwrite o (s_buf b)))
  | Some v => st = Acted o (OUnit v) /\ t_todo t = [] /\ (vpc (t_pc t) = true \/ t_pc t = Idle)
  end.
Definition thread_rel (buf : sdeque) (b : bsys) (rds : list breader) (t : tok) (h : lth) (st : tstat) : Prop :=
  match h_ph h with
  | PhIdle => st = Rest /\ t_pc t = Idle /\ t_todo t = []
  | PhCall r c p => call_rel b rds t r c p st
  | PhWrite o out => write_rel buf b t o out st
  end.
Lemma thread_rel_frame buf b rds t h st buf' b' rds' :
  thread_rel buf b rds t h st ->
  (forall r c p, h_ph h = PhCall r c p -> nth_error rds' r = nth_error rds r /\ nth_error (s_rds b') r = nth_error (s_rds b) r) ->
  (s_buf b' = s_buf b \/ (t_nest t = 0 /\ sd_key (s_buf b') = K)) ->
  ((buf' = buf /\ s_buf b' = s_buf b) \/ (forall rest, t_pc t <> WIn rest)) ->
  thread_rel buf' b' rds' t h st.
Proof.
  unfold thread_rel. intros H F1 F2 F3. destruct (h_ph h) as [|r c p|o out].
  - exact H.
  - destruct (F1 r c p eq_refl) as [G1 G2]. destruct H as (r0 & r1 & n & H1 & H2 & E & H).
    exists r0, r1, n. rewrite G1, G2. split; [assumption|]. split; [assumption|]. split; [assumption|].
    destruct H as [(S1 & S2 & S3 & S4 & S5)|H]; [left|right; exact H].
    split; [assumption|]. split; [assumption|]. split; [assumption|]. split; [assumption|].
    destruct F2 as [->|[N Kb]]; [assumption|]. now apply S4.
  - destruct H as [W H]. split; [exact W|]. destruct out as [v|]; [exact H|]. destruct H as [S H]. split; [exact S|].
    destruct H as [H|[H|(T & rest & P & KK & R)]]; auto. right. right. split; [exact T|]. exists rest. split; [exact P|]. split; [exact KK|].
    destruct F3 as [[-> ->]|F3]; [exact R|]. exfalso. now apply (F3 rest).
Qed.

Record core (s : lstate) (b : bsys) (P : nat -> tstat) : Prop := {
  sm_lock : lock_inv sdeque (ls_lock s);
  sm_len : length (ls_ths s) = length (st_ths (ls_lock s));
  sm_th : forall i t h, nth_error (st_ths (ls_lock s)) i = Some t -> nth_error (ls_ths s) i = Some h ->
            thread_rel (the_buf s) b (ls_rds s) t h (P i);
  sm_buf : (forall i t rest, nth_error (st_ths (ls_lock s)) i = Some t -> t_pc t <> WIn rest) -> the_buf s = s_buf b;
  sm_cons : consistent (s_buf b);
  sm_key : sd_key (s_buf b) = K /\ sd_key (the_buf s) = K;
  sm_rds : forall r, nth_error (ls_rds s) r = nth_error (s_rds b) r \/
             exists i h c p, nth_error (ls_ths s) i = Some h /\ h_ph h = PhCall r c p;
  sm_nrds : length (ls_rds s) = length (s_rds b);
  sm_excl : forall i j h g r c p c' p', nth_error (ls_ths s) i = Some h -> nth_error (ls_ths s) j = Some g ->
             h_ph h = PhCall r c p -> h_ph g = PhCall r c' p' -> i = j
}.

(* what one step of thread [i] may do to its standing and to the explained state *)
Inductive move (i : nat) : tstat -> bsys -> list xev -> tstat -> bsys -> Prop :=
| mv_none st b : move i st b [] st b
| mv_inv o b : move i Rest b [XInv i o] (Called o) b
| mv_act o b b' v : bsys_step b o = (b', v) -> move i (Called o) b [XAct i o v] (Acted o v) b'
| mv_res o v b : move i (Acted o v) b [XRes i o v] Rest b
| mv_act_res o b b' v : bsys_step b o = (b', v) -> move i (Called o) b [XAct i o v; XRes i o v] Rest b'.
Definition put (P : nat -> tstat) (i : nat) (st : tstat) : nat -> tstat := fun j => if Nat.eqb j i then st else P j.
Definition goes (s : lstate) (b : bsys) (P : nat -> tstat) (i : nat) (s' : lstate) : Prop :=
  exists es b' st', core s' b' (put P i st') /\ move i (P i) b es st' b' /\ ls_tr s' = ls_tr s ++ seen es.

(** ** Bookkeeping *)
Lemma total_same {A} (w : A -> nat) l i x y : nth_error l i = Some x -> w x = w y -> total w (set_nth l i y) = total w l.
Proof. intros H E. pose proof (total_upd w l i x y H). lia. Qed.
Lemma lock_inv_todo (k : RWLockM.state sdeque) i t q : lock_inv sdeque k -> nth_error (st_ths k) i = Some t ->
  lock_inv sdeque (MkSt (st_sh k) (set_nth (st_ths k) i (MkT (t_pc t) (t_nest t) (t_cur t) q))).
Proof.
  intros [(gr & gw & [C1 C2 C3 C4 C5 C6 C7 C8 C9]) N] Hi.
  split; cbn [st_sh st_ths].
  - exists gr, gw. constructor; rewrite ?(total_same _ _ _ _ _ Hi) by reflexivity; assumption.
  - intros j u Hj. rewrite nth_error_set_nth in Hj. destruct (Nat.eqb_spec i j) as [<-|]; [|now apply (N j)].
    rewrite Hi in Hj. injection Hj as <-. exact (N i t Hi).
Qed.
Lemma of_thread_app i a c : of_thread i (a ++ c) = of_thread i a ++ of_thread i c.
Proof. apply filter_app. Qed.
Lemma of_thread_own i es : Forall (fun e => thread_of e = i) es -> of_thread i es = es.
Proof.
  induction 1 as [|e l E H IH]; cbn; [reflexivity|]. rewrite E, Nat.eqb_refl. f_equal. exact IH.
Qed.
Lemma of_thread_other i j es : Forall (fun e => thread_of e = i) es -> i <> j -> of_thread j es = [].
Proof.
  intros H N. induction H as [|e l E H IH]; cbn; [reflexivity|]. destruct (Nat.eqb_spec (thread_of e) j); [congruence|exact IH].
Qed.
Lemma seen_app a c : seen (a ++ c) = seen a ++ seen c. Proof. apply flat_map_app. Qed.
Lemma acts_app a c : acts (a ++ c) = acts a ++ acts c. Proof. apply flat_map_app. Qed.
Lemma answers_app a c : answers (a ++ c) = answers a ++ answers c. Proof. apply flat_map_app. Qed.
Lemma bsys_app a : forall s c, bsys_run s (a ++ c) =
  let (s1, v1) := bsys_run s a in let (s2, v2) := bsys_run s1 c in (s2, v1 ++ v2).
Proof.
  induction a as [|o a IH]; intros s c; cbn.
  - now destruct (bsys_run s c).
  - destruct (bsys_step s o) as [s1 v]. rewrite IH. destruct (bsys_run s1 a) as [s2 v2]. now destruct (bsys_run s2 c).
Qed.

Lemma core_update s b P i t h t' h' lk' rds' tr' b' st' :
  core s b P ->
  nth_error (st_ths (ls_lock s)) i = Some t -> nth_error (ls_ths s) i = Some h ->
  lock_inv sdeque lk' -> st_ths lk' = set_nth (st_ths (ls_lock s)) i t' ->
  thread_rel (l_data (st_sh lk')) b' rds' t' h' st' ->
  (* other threads *)
  (forall j u g, j <> i -> nth_error (st_ths (ls_lock s)) j = Some u -> nth_error (ls_ths s) j = Some g ->
     (forall r c p, h_ph g = PhCall r c p -> nth_error rds' r = nth_error (ls_rds s) r /\ nth_error (s_rds b') r = nth_error (s_rds b) r) /\
     (s_buf b' = s_buf b \/ t_nest u = 0) /\
     ((l_data (st_sh lk') = the_buf s /\ s_buf b' = s_buf b) \/ (forall rest, t_pc u <> WIn rest))) ->
  ((forall j u rest, nth_error (st_ths lk') j = Some u -> t_pc u <> WIn rest) -> l_data (st_sh lk') = s_buf b') ->
  consistent (s_buf b') -> sd_key (s_buf b') = K -> sd_key (l_data (st_sh lk')) = K ->
  (forall r, nth_error rds' r = nth_error (s_rds b') r \/
     (exists c p, h_ph h' = PhCall r c p) \/
     (nth_error rds' r = nth_error (ls_rds s) r /\ nth_error (s_rds b') r = nth_error (s_rds b) r /\ (forall c p, h_ph h <> PhCall r c p))) ->
  length rds' = length (s_rds b') ->
  (forall r c p, h_ph h' = PhCall r c p -> (exists c0 p0, h_ph h = PhCall r c0 p0) \/
     (forall j g c' p', j <> i -> nth_error (ls_ths s) j = Some g -> h_ph g <> PhCall r c' p')) ->
  core (MkLs lk' rds' (set_nth (ls_ths s) i h') tr') b' (put P i st').
Proof.
  intros S Hi Hh L E R F B C K1 K2 RD NR EX.
  assert (LT : i < length (ls_ths s)) by (apply nth_error_Some; congruence).
  constructor; cbn [ls_lock ls_rds ls_ths ls_tr the_buf]; unfold the_buf, put in *; cbn [ls_lock].
  - exact L.
  - rewrite E, !set_nth_length. apply (sm_len _ _ _ S).
  - intros j u g Hj Hg. rewrite E in Hj. rewrite nth_error_set_nth in Hj. rewrite nth_error_set_nth in Hg.
    destruct (Nat.eqb_spec i j) as [<-|N].
    + rewrite Hi in Hj. rewrite Hh in Hg. injection Hj as <-. injection Hg as <-. rewrite Nat.eqb_refl. exact R.
    + destruct (Nat.eqb_spec j i); [congruence|]. destruct (F j u g ltac:(congruence) Hj Hg) as (F1 & F2 & F3).
      eapply thread_rel_frame; [apply (sm_th _ _ _ S j u g Hj Hg)|exact F1| |exact F3].
      destruct F2; auto.
  - exact B.
  - exact C.
  - auto.
  - intro r. destruct (RD r) as [X|[(c & p & X)|(X1 & X2 & X3)]].
    + now left.
    + right. exists i, h', c, p. split; [|exact X]. rewrite nth_error_set_nth, Nat.eqb_refl, Hh. reflexivity.
    + destruct (sm_rds _ _ _ S r) as [Y|(j & g & c & p & Y1 & Y2)].
      * left. congruence.
      * right. exists j, g, c, p. split; [|exact Y2]. rewrite nth_error_set_nth. destruct (Nat.eqb_spec i j) as [<-|]; [|exact Y1].
        exfalso. assert (g = h) by congruence. subst g. now apply (X3 c p).
  - exact NR.
  - assert (ONE : forall k f r c p c' p', k <> i -> nth_error (ls_ths s) k = Some f -> h_ph h' = PhCall r c p -> h_ph f = PhCall r c' p' -> False).
    { intros k f r c p c' p' N Hk E1 E2. destruct (EX r c p E1) as [(c0 & p0 & E0)|Y].
      - apply N. symmetry. exact (sm_excl _ _ _ S i k h f r c0 p0 c' p' Hh Hk E0 E2).
      - exact (Y k f c' p' N Hk E2). }
    intros j k g f r c p c' p' Hj Hk E1 E2. rewrite nth_error_set_nth in Hj. rewrite nth_error_set_nth in Hk.
    destruct (Nat.eqb_spec i j) as [<-|N1]; destruct (Nat.eqb_spec i k) as [<-|N2]; auto.
    + exfalso. rewrite Hh in Hj. injection Hj as <-. exact (ONE k f r c p c' p' ltac:(congruence) Hk E1 E2).
    + exfalso. rewrite Hh in Hk. injection Hk as <-. exact (ONE j g r c' p' c p ltac:(congruence) Hj E2 E1).
    + exact (sm_excl _ _ _ S j k g f r c p c' p' Hj Hk E1 E2).
Qed.
Lemma goes_update s b P i t h t' h' lk' rds' tr' es b' st' :
  core s b P ->
  nth_error (st_ths (ls_lock s)) i = Some t -> nth_error (ls_ths s) i = Some h ->
  lock_inv sdeque lk' -> st_ths lk' = set_nth (st_ths (ls_lock s)) i t' ->
  thread_rel (l_data (st_sh lk')) b' rds' t' h' st' ->
  (* other threads *)
  (forall j u g, j <> i -> nth_error (st_ths (ls_lock s)) j = Some u -> nth_error (ls_ths s) j = Some g ->
     (forall r c p, h_ph g = PhCall r c p -> nth_error rds' r = nth_error (ls_rds s) r /\ nth_error (s_rds b') r = nth_error (s_rds b) r) /\
     (s_buf b' = s_buf b \/ t_nest u = 0) /\
     ((l_data (st_sh lk') = the_buf s /\ s_buf b' = s_buf b) \/ (forall rest, t_pc u <> WIn rest))) ->
  ((forall j u rest, nth_error (st_ths lk') j = Some u -> t_pc u <> WIn rest) -> l_data (st_sh lk') = s_buf b') ->
  consistent (s_buf b') -> sd_key (s_buf b') = K -> sd_key (l_data (st_sh lk')) = K ->
  (forall r, nth_error rds' r = nth_error (s_rds b') r \/
     (exists c p, h_ph h' = PhCall r c p) \/
     (nth_error rds' r = nth_error (ls_rds s) r /\ nth_error (s_rds b') r = nth_error (s_rds b) r /\ (forall c p, h_ph h <> PhCall r c p))) ->
  length rds' = length (s_rds b') ->
  ls_tr s ++ seen es = tr' -> move i (P i) b es st' b' ->
  (forall r c p, h_ph h' = PhCall r c p -> (exists c0 p0, h_ph h = PhCall r c0 p0) \/
     (forall j g c' p', j <> i -> nth_error (ls_ths s) j = Some g -> h_ph g <> PhCall r c' p')) ->
  goes s b P i (MkLs lk' rds' (set_nth (ls_ths s) i h') tr').
Proof.
  intros S Hi Hh L E R F B C K1 K2 RD NR TR MV EX. exists es, b', st'. split; [|split; [exact MV|symmetry; exact TR]].
  eapply core_update; eauto.
Qed.
End Sim.
