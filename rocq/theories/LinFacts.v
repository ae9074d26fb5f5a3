(** * Step-by-step calls agree with the calls on a snapshot *)
From Coq Require Import List ZArith Bool Arith Lia.
From Verif Require Import PyVal PyLib SortedDequeM BufferReaderM BufferSysM RWLockM ReaderStepsM.
Import ListNotations.

(** A program run alone on a buffer that does not change. *)
Fixpoint den {A} (p : prog A) (d : sdeque) (r : breader) : list lockev * breader * res A :=
  match p with
  | PRet o => ([], r, o)
  | PEnter k => let '(t, r1, a) := den k d r in (Acq :: t, r1, a)
  | PLeave k => let '(t, r1, a) := den k d r in (Rel :: t, r1, a)
  | PLook k => den (k d) d r
  | PGet k => den (k r) d r
  | PSet f k => den k d (f r)
  end.

Definition agrees {A} (d : sdeque) (p : prog A) (m : M A) : Prop := forall r, den p d r = m r.

Lemma den_bind {A B} (x : prog A) (f : A -> prog B) d : forall r,
  den (bindP x f) d r = bindM (den x d) (fun a => den (f a) d) r.
Proof.
  induction x as [o|k IH|k IH|k IH|k IH|g k IH]; intro r; unfold bindM; cbn.
  - destruct o; [|reflexivity]. now destruct (den (f a) d r) as [[t r1] b].
  - rewrite IH. unfold bindM. destruct (den k d r) as [[t r1] [a|e]]; [|reflexivity]. now destruct (den (f a) d r1) as [[t2 r2] b].
  - rewrite IH. unfold bindM. destruct (den k d r) as [[t r1] [a|e]]; [|reflexivity]. now destruct (den (f a) d r1) as [[t2 r2] b].
  - apply IH.
  - apply IH.
  - apply IH.
Qed.
Lemma den_try {A} (x : prog A) (h : exn -> prog A) d : forall r,
  den (tryP x h) d r = tryM (den x d) (fun e => den (h e) d) r.
Proof.
  induction x as [o|k IH|k IH|k IH|k IH|g k IH]; intro r; unfold tryM; cbn.
  - destruct o; [reflexivity|]. now destruct (den (h e) d r) as [[t r1] b].
  - rewrite IH. unfold tryM. destruct (den k d r) as [[t r1] [a|e]]; [reflexivity|]. now destruct (den (h e) d r1) as [[t2 r2] b].
  - rewrite IH. unfold tryM. destruct (den k d r) as [[t r1] [a|e]]; [reflexivity|]. now destruct (den (h e) d r1) as [[t2 r2] b].
  - apply IH.
  - apply IH.
  - apply IH.
Qed.
Lemma den_leave {A} (x : prog A) d : forall r, den (leaveP x) d r = let '(t, r1, a) := den x d r in (t ++ [Rel], r1, a).
Proof.
  induction x as [o|k IH|k IH|k IH|k IH|g k IH]; intro r; cbn; auto.
  - rewrite IH. now destruct (den k d r) as [[t r1] a].
  - rewrite IH. now destruct (den k d r) as [[t r1] a].
Qed.

Lemma ag_bind {A B} d (x : prog A) (f : A -> prog B) m g : agrees d x m -> (forall a, agrees d (f a) (g a)) -> agrees d (bindP x f) (bindM m g).
Proof.
  intros H1 H2 r. rewrite den_bind. unfold bindM. rewrite H1. destruct (m r) as [[t r1] [a|e]]; [|reflexivity].
  now rewrite H2.
Qed.
Lemma ag_try {A} d (x : prog A) h m g : agrees d x m -> (forall a, agrees d (h a) (g a)) -> agrees d (tryP x h) (tryM m g).
Proof.
  intros H1 H2 r. rewrite den_try. unfold tryM. rewrite H1. destruct (m r) as [[t r1] [a|e]]; [reflexivity|].
  now rewrite H2.
Qed.
Lemma ag_lock {A} d (x : prog A) m : agrees d x m -> agrees d (with_lockP x) (with_lock m).
Proof. intros H r. cbn. rewrite den_leave, H. unfold with_lock. now destruct (m r) as [[t r1] a]. Qed.
Lemma ag_ret {A} d (a : A) : agrees d (retP a) (retM a). Proof. intro r. reflexivity. Qed.
Lemma ag_raise {A} d e : agrees (A:=A) d (raiseP e) (raiseM e). Proof. intro r. reflexivity. Qed.
Lemma ag_lift {A} d (o : res A) : agrees d (PRet o) (liftM o). Proof. intro r. reflexivity. Qed.
Lemma ag_look {A} d (f : sdeque -> res A) : agrees d (lookP f) (liftM (f d)). Proof. intro r. reflexivity. Qed.
Lemma ag_ext {A} d (p : prog A) m m' : agrees d p m -> (forall r, m r = m' r) -> agrees d p m'.
Proof. intros H E r. now rewrite H. Qed.
(* loading a field, then going on *)
Lemma ag_load {A B} d (f : breader -> A) (k : A -> prog B) (m : breader -> M B) :
  (forall r, den (k (f r)) d r = m r r) -> agrees d (bindP (loadP f) k) (bindM getM m).
Proof. intros H r. rewrite den_bind. unfold bindM, loadP, getM. cbn. rewrite H. now destruct (m r r) as [[t r1] b]. Qed.
Lemma ag_get {B} d (p : prog B) (m : breader -> M B) : (forall r, den p d r = m r r) -> agrees d p (bindM getM m).
Proof. intros H r. unfold bindM, getM. rewrite H. now destruct (m r r) as [[t r1] b]. Qed.
(* the same, at one reader state *)
Lemma ag_bind_at {A B} d (x : prog A) (f : A -> prog B) m g r : den x d r = m r -> (forall a, agrees d (f a) (g a)) -> den (bindP x f) d r = bindM m g r.
Proof.
  intros H1 H2. rewrite den_bind. unfold bindM. rewrite H1. destruct (m r) as [[t r1] [a|e]]; [|reflexivity].
  now rewrite H2.
Qed.
(* pure looks: programs whose denotation is a function of the buffer *)
Definition pure {A} (d : sdeque) (p : prog A) (o : res A) : Prop := forall r, den p d r = ([], r, o).
Lemma pu_bind {A B} d (x : prog A) (f : A -> prog B) o q :
  pure d x o -> (forall a, o = Ok a -> pure d (f a) (q a)) -> pure d (bindP x f) (let! a := o in q a).
Proof. intros H1 H2 r. rewrite den_bind. unfold bindM. rewrite H1. destruct o as [a|e]; cbn; [|reflexivity]. now rewrite (H2 a eq_refl). Qed.
Lemma pu_look {A} d (f : sdeque -> res A) : pure d (lookP f) (f d). Proof. intro r. reflexivity. Qed.
Lemma pu_ret {A} d (o : res A) : pure d (PRet o) o. Proof. intro r. reflexivity. Qed.
Lemma pu_ag {A} d (p : prog A) o : pure d p o -> agrees d p (liftM o). Proof. intros H r. now rewrite H. Qed.

Lemma pu_bisect_right d x : pure d (bisect_right_p x) (bisect_right (sd_keys d) x).
Proof.
  intro r. unfold bisect_right_p. rewrite den_bind. unfold bindM. cbn [den lookP]. unfold bisect_right.
  assert (H : forall f lo hi, pure d (bisect_right_probes f x lo hi) (bisect_right_loop f (sd_keys d) x lo hi)).
  { induction f as [|f IH]; intros lo hi; cbn [bisect_right_probes bisect_right_loop]; destruct (Nat.ltb lo hi); try (intro; reflexivity).
    apply pu_bind; [exact (pu_look d _)|]. intros m _. apply pu_bind; [apply pu_ret|]. intros [|] _; apply IH. }
  rewrite H. reflexivity.
Qed.
Lemma pu_bisect_left d x : pure d (bisect_left_p x) (bisect_left (sd_keys d) x).
Proof.
  intro r. unfold bisect_left_p. rewrite den_bind. unfold bindM. cbn [den lookP]. unfold bisect_left.
  assert (H : forall f lo hi, pure d (bisect_left_probes f x lo hi) (bisect_left_loop f (sd_keys d) x lo hi)).
  { induction f as [|f IH]; intros lo hi; cbn [bisect_left_probes bisect_left_loop]; destruct (Nat.ltb lo hi); try (intro; reflexivity).
    apply pu_bind; [exact (pu_look d _)|]. intros m _. apply pu_bind; [apply pu_ret|]. intros [|] _; apply IH. }
  rewrite H. reflexivity.
Qed.
Lemma pu_eq {A} d (p : prog A) o o' : pure d p o -> o = o' -> pure d p o'.
Proof. now intros H <-. Qed.
Lemma pu_find_gt d k : pure d (find_gt_p k) (sd_find_gt d k).
Proof.
  unfold find_gt_p, sd_find_gt. apply pu_bind; [apply pu_bisect_right|]. intros i _.
  eapply pu_eq; [apply pu_bind; [apply (pu_look d (fun d => Ok (sd_len d)))|]|].
  - intros n Hn. injection Hn as <-. instantiate (1 := fun n => if negb (Nat.eqb i n) then get (sd_items d) i else Raise ValueError). cbn.
    destruct (negb (Nat.eqb i (sd_len d))); [exact (pu_look d _)|apply pu_ret].
  - reflexivity.
Qed.
Lemma pu_find_ge d k : pure d (find_ge_p k) (sd_find_ge d k).
Proof.
  unfold find_ge_p, sd_find_ge. apply pu_bind; [apply pu_bisect_left|]. intros i _.
  eapply pu_eq; [apply pu_bind; [apply (pu_look d (fun d => Ok (sd_len d)))|]|].
  - intros n Hn. injection Hn as <-. instantiate (1 := fun n => if negb (Nat.eqb i n) then get (sd_items d) i else Raise ValueError). cbn.
    destruct (negb (Nat.eqb i (sd_len d))); [exact (pu_look d _)|apply pu_ret].
  - reflexivity.
Qed.
Lemma pu_find_le d k : pure d (find_le_p k) (sd_find_le d k).
Proof.
  unfold find_le_p, sd_find_le. apply pu_bind; [apply pu_bisect_right|]. intros i _.
  destruct (Nat.eqb i 0); [apply pu_ret|exact (pu_look d _)].
Qed.
Lemma pu_find_last_gt d k : pure d (find_last_gt_p k) (sd_find_last_gt d k).
Proof.
  unfold find_last_gt_p, sd_find_last_gt.
  eapply pu_eq; [apply pu_bind; [apply (pu_look d (fun d => Ok (last_opt (sd_keys d))))|]|].
  - intros l Hl. injection Hl as <-.
    instantiate (1 := fun l => match l with None => Raise ValueError | Some l => let! b := py_gt l k in if b then sd_getitem d (-1) else Raise ValueError end).
    destruct (last_opt (sd_keys d)); [|apply pu_ret]. apply pu_bind; [apply pu_ret|]. intros [|] _; [exact (pu_look d _)|apply pu_ret].
  - reflexivity.
Qed.
Lemma pu_index d x : pure d (index_p x) (sd_index d x).
Proof.
  unfold index_p, sd_index. apply pu_bind; [exact (pu_look d _)|]. intros k _. apply pu_bind; [apply pu_bisect_left|]. intros i _.
  apply pu_bind; [apply pu_bisect_right|]. intros j _. exact (pu_look d _).
Qed.
Lemma pu_range d a b s : pure d (range_p a b s) (sd_range d a b s).
Proof.
  unfold range_p, sd_range. apply pu_bind; [apply pu_bisect_left|]. intros i _.
  apply pu_bind; [apply pu_bisect_right|]. intros j _. exact (pu_look d _).
Qed.

Lemma ag_set_last d x : agrees d (set_last_item_p x) (set_last_item d x).
Proof.
  intro r. unfold set_last_item_p, key_p. rewrite den_bind. unfold bindM, lookP, set_last_item. cbn.
  destruct (sd_key d x); reflexivity.
Qed.
Lemma ag_move d p x : agrees d (move_cursor_p p x) (move_cursor d p x).
Proof. unfold move_cursor_p, move_cursor. destruct p; [apply ag_ret|apply ag_set_last]. Qed.
Lemma ag_read_many d n p s x : agrees d (read_many_p n p s x) (read_many d n p s x).
Proof.
  unfold read_many_p, read_many. apply ag_bind; [apply pu_ag, pu_index|]. intro i. cbv zeta.
  intro r. rewrite den_bind. unfold bindM at 1.
  assert (E : den (if s then lookP (fun d => Ok (Z.leb (Z.of_nat (sd_len d)) (Z.of_nat i + n))) else retP false) d r
              = ([], r, Ok (s && Z.leb (Z.of_nat (sd_len d)) (Z.of_nat i + n)))) by (destruct s; reflexivity).
  rewrite E. clear E. destruct (s && _).
  - reflexivity.
  - assert (E : den (doP l := lookP (fun d => sd_range_by_index d i (Z.to_nat (Z.of_nat i + n)) None) in
      (if p then retP (VList l) else doP x := PRet (last_of l) in doP _ := set_last_item_p x in retP (VList l))) d r =
      (do! l := liftM (sd_range_by_index d i (Z.to_nat (Z.of_nat i + n)) None) in
      (if p then retM (VList l) else do! x := liftM (last_of l) in do! _ := set_last_item d x in retM (VList l))) r).
    { refine (ag_bind _ _ _ _ _ _ _ r); [exact (ag_look d _)|]. intro l. destruct p; [apply ag_ret|].
      apply ag_bind; [apply ag_lift|]. intro y. apply ag_bind; [apply ag_set_last|]. intro. apply ag_ret. }
    rewrite E. now destruct (bindM _ _ r) as [[? ?] ?].
Qed.
Lemma ag_read_body d n p ig s : agrees d (read_body_p n p ig s) (read_body d n p ig s).
Proof.
  unfold read_body_p, read_body. apply ag_get. intro r. apply ag_bind_at.
  - rewrite den_try. unfold tryM. rewrite den_bind. unfold bindM. cbn [loadP den].
    rewrite den_bind. unfold bindM. rewrite pu_find_gt. destruct (sd_find_gt d (r_last_key r)) as [x|e]; [reflexivity|].
    unfold liftM. cbn [app]. destruct e; try reflexivity.
    + destruct ig; reflexivity.
    + rewrite den_bind. unfold bindM. cbn [loadP den]. destruct (is_none (r_last_item r)); [|reflexivity].
      rewrite den_bind. unfold bindM, liftM. cbn [lookP den]. destruct (sd_getitem d 0); reflexivity.
  - intros [x|]; [|apply ag_ret]. destruct (Z.ltb 1 n); [apply ag_read_many|].
    apply ag_bind; [apply ag_move|]. intro. apply ag_ret.
Qed.
Lemma app_nil_pair {A} (x : list lockev * breader * res A) : (let '(t2, r2, b) := x in ([] ++ t2, r2, b)) = x.
Proof. now destruct x as [[? ?] ?]. Qed.
Lemma ag_read d a : agrees d (read_p a) (read d a).
Proof.
  unfold read_p, read. apply ag_load. intro r. rewrite den_bind. unfold bindM. cbn [loadP den]. rewrite den_bind. unfold bindM. cbn [loadP den].
  rewrite (ag_lock d _ _ (ag_read_body d _ _ _ _)). now destruct (with_lock _ r) as [[? ?] ?].
Qed.
Lemma ag_next d s : agrees d (next_p s) (next_dunder d s).
Proof.
  intro r. unfold next_p, next_dunder, read_for_next.
  do 3 (rewrite den_bind; unfold bindM at 1; cbn [loadP den]).
  rewrite den_bind. unfold bindM, getM. rewrite ag_read.
  destruct (read d _ r) as [[t r1] [v|e]]; cbn; [|reflexivity].
  destruct (rval_is_none v && s); reflexivity.
Qed.
Lemma ag_range_body d g ig : agrees d (range_body_p g ig) (range_body d g ig).
Proof.
  unfold range_body_p, range_body. apply ag_get. intro r.
  assert (E : exists lk, den (if g_only_new g then loadP r_last_key else retP PNone) d r = ([], r, Ok lk) /\
     (g_only_new g && negb (is_none lk)) = (g_only_new g && negb (is_none (r_last_key r)))).
  { destruct (g_only_new g); cbn; eexists; split; reflexivity. }
  destruct E as (lk & E & El). rewrite den_bind. unfold bindM at 1. rewrite E, El. clear E El.
  rewrite app_nil_pair.
  apply ag_bind_at.
  - destruct (g_only_new g && negb (is_none (r_last_key r))); [|reflexivity]. refine (ag_bind _ _ _ _ _ _ _ r); [apply ag_read|]. intro nx. cbv zeta.
    apply ag_bind.
    + apply ag_try; [apply ag_bind; [exact (ag_look d _)|intro; apply ag_ret]|]. intros e. destruct e; try apply ag_raise. destruct ig; [apply ag_ret|apply ag_raise].
    + intros [k|]; [|apply ag_ret]. apply ag_bind; [apply ag_lift|]. intro. apply ag_ret.
  - intros [s1|]; [|apply ag_ret]. apply ag_bind.
    + destruct (g_start_le g); [|apply ag_ret]. apply ag_try; [apply ag_bind; [apply pu_ag, pu_find_le|intro; exact (ag_look d _)]|].
      intros e. destruct e; try apply ag_raise. apply ag_ret.
    + intro s2. apply ag_bind.
      * destruct (g_stop_ge g); [|apply ag_ret]. apply ag_try.
        -- apply ag_bind; [apply pu_ag, pu_find_ge|]. intro. apply ag_bind; [exact (ag_look d _)|]. intro. apply ag_ret.
        -- intros e. destruct e; try apply ag_raise. destruct ig; [apply ag_ret|apply ag_raise].
      * intros [st|]; [|apply ag_ret]. apply ag_bind; [apply pu_ag, pu_range|]. intro. apply ag_ret.
Qed.
Lemma ag_range d g : agrees d (reader_range_p g) (range d g).
Proof.
  unfold reader_range_p, range. apply ag_load. intro r. cbv zeta.
  refine (ag_bind _ _ _ _ _ _ _ r); [apply ag_lock, ag_range_body|]. intros [l|]; [|apply ag_ret].
  destruct (g_peek g); [apply ag_ret|]. apply ag_try.
  - apply ag_bind; [apply ag_lift|]. intro. apply ag_bind; [apply ag_set_last|]. intro. apply ag_ret.
  - intros e. destruct e; try apply ag_raise. destruct (dflt _ _); [apply ag_ret|apply ag_raise].
Qed.
Lemma ag_tail d p i o : agrees d (tail_p p i o) (tail d p i o).
Proof.
  unfold tail_p, tail. apply ag_bind.
  - apply ag_lock. unfold tail_body_p, tail_body. apply ag_get. intro r. destruct o.
    + rewrite den_try. unfold tryM. rewrite den_bind. unfold bindM. cbn [loadP den].
      rewrite den_bind. unfold bindM. rewrite pu_find_last_gt. destruct (sd_find_last_gt d (r_last_key r)) as [x|e]; [reflexivity|].
      unfold liftM. cbn [app]. destruct e; try reflexivity.
      * destruct i; reflexivity.
      * rewrite den_bind. unfold bindM. cbn [loadP den]. destruct (is_none (r_last_item r)); [|reflexivity].
        rewrite den_bind. unfold bindM, liftM. cbn [lookP den]. destruct (sd_getitem d (-1)); reflexivity.
    + refine (ag_try _ _ _ _ _ _ _ r).
      * apply ag_bind; [exact (ag_look d _)|]. intro. apply ag_ret.
      * intros e. destruct e; try apply ag_raise. destruct i; [apply ag_ret|apply ag_raise].
  - intros [x|]; [|apply ag_ret]. apply ag_bind; [apply ag_move|]. intro. apply ag_ret.
Qed.
Lemma ag_head d p : agrees d (head_p p) (head d p).
Proof.
  unfold head_p, head. apply ag_bind; [apply ag_lock; exact (ag_look d _)|]. intro x. apply ag_bind; [apply ag_move|]. intro. apply ag_ret.
Qed.
(** Run alone, a call's program is the call: same lock events, cursor and answer. *)
Lemma call_agrees d c : agrees d (call_p c) (do_call d c).
Proof. destruct c; [apply ag_read|apply ag_next|apply ag_range|apply ag_tail|apply ag_head]. Qed.
