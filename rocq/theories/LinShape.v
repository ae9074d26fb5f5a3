(** * Where the step-by-step calls take and release the lock *)
From Coq Require Import List ZArith Bool Arith Lia.
From Verif Require Import PyVal PyLib SortedDequeM BufferReaderM BufferSysM RWLockM ReaderStepsM LinFacts.
Import ListNotations.

(** After the last section: only the key function is looked at. *)
Inductive after {A} : prog A -> Prop :=
| af_ret o : after (PRet o)
| af_look k : (forall d d', sd_key d = sd_key d' -> k d = k d') -> (forall d, after (k d)) -> after (PLook k)
| af_get k : (forall r, after (k r)) -> after (PGet k)
| af_set f k : after k -> after (PSet f k).
(** Inside [n] sections. *)
Inductive inside {A} : nat -> prog A -> Prop :=
| is_enter n k : inside (S n) k -> inside n (PEnter k)
| is_leave n k : inside (S n) k -> inside (S (S n)) (PLeave k)
| is_last k : after k -> inside 1 (PLeave k)
| is_look n k : (forall d, inside n (k d)) -> inside n (PLook k)
| is_get n k : (forall r, inside n (k r)) -> inside n (PGet k)
| is_set n f k : inside n k -> inside n (PSet f k).
(** Before the first section. *)
Inductive before {A} : prog A -> Prop :=
| bf_ret o : before (PRet o)
| bf_enter k : inside 1 k -> before (PEnter k)
| bf_look k : (forall d d', sd_key d = sd_key d' -> k d = k d') -> (forall d, before (k d)) -> before (PLook k)
| bf_get k : (forall r, before (k r)) -> before (PGet k)
| bf_set f k : before k -> before (PSet f k).
(** Returns [n] sections further out than it starts. *)
Inductive bal {A} : nat -> prog A -> Prop :=
| bl_ret o : bal 0 (PRet o)
| bl_enter n k : bal (S n) k -> bal n (PEnter k)
| bl_leave n k : bal n k -> bal (S n) (PLeave k)
| bl_look n k : (forall d, bal n (k d)) -> bal n (PLook k)
| bl_get n k : (forall r, bal n (k r)) -> bal n (PGet k)
| bl_set n f k : bal n k -> bal n (PSet f k).

Lemma bal_bind {A B} n (x : prog A) (f : A -> prog B) : bal n x -> (forall a, bal 0 (f a)) -> bal n (bindP x f).
Proof.
  intros H F. induction H; cbn; try (constructor; auto; fail). destruct o; [apply F|constructor].
Qed.
Lemma bal_try {A} n (x : prog A) h : bal n x -> (forall a, bal 0 (h a)) -> bal n (tryP x h).
Proof. intros H F. induction H; cbn; try (constructor; auto; fail). destruct o; [constructor|apply F]. Qed.
Lemma bal_leave {A} n (x : prog A) : bal n x -> bal (S n) (leaveP x).
Proof. intro H. induction H; cbn; constructor; auto. constructor. Qed.
Lemma bal_lock {A} (x : prog A) : bal 0 x -> bal 0 (with_lockP x).
Proof. intro H. constructor. now apply bal_leave. Qed.
Lemma bal_look {A} (f : sdeque -> res A) : bal 0 (lookP f).
Proof. constructor. intro. constructor. Qed.
Lemma bal_load {A} (f : breader -> A) : bal 0 (loadP f).
Proof. constructor. intro. constructor. Qed.

Lemma inside_leave {A B} n (x : prog A) (f : A -> prog B) : bal n x -> (forall a, after (f a)) -> inside (S n) (bindP (leaveP x) f).
Proof.
  intros H F. induction H; cbn [leaveP bindP]; try (constructor; auto; fail). apply is_last. destruct o; [apply F|constructor].
Qed.
Lemma before_lock {A B} (x : prog A) (f : A -> prog B) : bal 0 x -> (forall a, after (f a)) -> before (bindP (with_lockP x) f).
Proof. intros H F. constructor. now apply inside_leave. Qed.
Lemma before_load {A B} (f : breader -> A) (k : A -> prog B) : (forall a, before (k a)) -> before (bindP (loadP f) k).
Proof. intro H. constructor. intro r. apply H. Qed.
Lemma after_bind {A B} (x : prog A) (f : A -> prog B) : after x -> (forall a, after (f a)) -> after (bindP x f).
Proof.
  intros H F. induction H; cbn; try (constructor; auto; fail).
  - destruct o; [apply F|constructor].
  - constructor; auto. intros d d' E. now rewrite (H d d' E).
Qed.
Lemma after_try {A} (x : prog A) h : after x -> (forall a, after (h a)) -> after (tryP x h).
Proof.
  intros H F. induction H; cbn; try (constructor; auto; fail).
  - destruct o; [constructor|apply F].
  - constructor; auto. intros d d' E. now rewrite (H d d' E).
Qed.
Lemma before_leave {A} n (x : prog A) : bal n x -> inside (S n) (leaveP x).
Proof. intro H. induction H; cbn [leaveP]; try (constructor; auto; fail). apply is_last. constructor. Qed.
Lemma before_only_lock {A} (x : prog A) : bal 0 x -> before (with_lockP x).
Proof. intro H. constructor. now apply before_leave. Qed.
Lemma before_after {A B} (x : prog A) (f : A -> prog B) : before x -> (forall a, after (f a)) -> before (bindP x f).
Proof.
  assert (AF : forall (y : prog B), after y -> before y).
  { intros y H. induction H; constructor; auto. }
  assert (IN : forall n (y : prog A) (f : A -> prog B), inside n y -> (forall a, after (f a)) -> inside n (bindP y f)).
  { intros n y g H F. induction H; cbn; try (constructor; auto; fail). apply is_last. now apply after_bind. }
  intros H F. induction H; cbn; try (constructor; auto; fail).
  - destruct o; [now apply AF|constructor].
  - constructor; auto. intros d d' E. now rewrite (H d d' E).
Qed.
(** The key function is all that is looked at. *)
Lemma after_key x : after (key_p x).
Proof. constructor; [intros d d' E; now rewrite E|]. intro. constructor. Qed.
Lemma after_set_last x : after (set_last_item_p x).
Proof. apply after_bind; [apply after_key|]. intro k. repeat constructor. Qed.
Lemma after_move p x : after (move_cursor_p p x).
Proof. destruct p; [constructor|apply after_set_last]. Qed.

Lemma bal_bisect_right x : bal 0 (bisect_right_p x).
Proof.
  unfold bisect_right_p. apply bal_bind; [apply bal_look|]. intro n.
  assert (H : forall f lo hi, bal 0 (bisect_right_probes f x lo hi)); [|apply H].
  induction f as [|f IH]; intros lo hi; cbn [bisect_right_probes]; destruct (Nat.ltb lo hi); try apply bl_ret.
  apply bal_bind; [apply bal_look|]. intro m. apply bal_bind; [apply bl_ret|]. intros [|]; apply IH.
Qed.
Lemma bal_bisect_left x : bal 0 (bisect_left_p x).
Proof.
  unfold bisect_left_p. apply bal_bind; [apply bal_look|]. intro n.
  assert (H : forall f lo hi, bal 0 (bisect_left_probes f x lo hi)); [|apply H].
  induction f as [|f IH]; intros lo hi; cbn [bisect_left_probes]; destruct (Nat.ltb lo hi); try apply bl_ret.
  apply bal_bind; [apply bal_look|]. intro m. apply bal_bind; [apply bl_ret|]. intros [|]; apply IH.
Qed.
Ltac bals := repeat first
  [ apply bal_bisect_left | apply bal_bisect_right | apply bal_look | apply bal_load | apply bal_lock
  | apply bal_bind; [|intro] | apply bal_try; [|intro] | apply bl_ret | apply bl_set
  | match goal with |- bal _ (match ?x with _ => _ end) => destruct x end ].
Lemma bal_read_body n p ig s : bal 0 (read_body_p n p ig s).
Proof.
  unfold read_body_p, find_gt_p, read_many_p, index_p, move_cursor_p, set_last_item_p, key_p, retP, raiseP. cbv zeta. bals.
Qed.
Lemma bal_read a : bal 0 (read_p a).
Proof. unfold read_p. do 3 (apply bal_bind; [apply bal_load|]; intro). apply bal_lock, bal_read_body. Qed.
Lemma before_read a : before (read_p a).
Proof. unfold read_p. do 3 (apply before_load; intro). apply before_only_lock, bal_read_body. Qed.
Lemma bal_range_body g ig : bal 0 (range_body_p g ig).
Proof.
  unfold range_body_p. apply bal_bind; [bals; constructor|]. intro lk. apply bal_bind.
  - destruct (_ && _); [|constructor]. apply bal_bind; [apply bal_read|]. intro nx. cbv zeta. unfold key_p, retP, raiseP. bals.
  - intros [s1|]; [|constructor]. unfold find_le_p, find_ge_p, range_p, key_p, retP, raiseP. bals.
Qed.
Lemma bal_tail_body i o : bal 0 (tail_body_p i o).
Proof. unfold tail_body_p, find_last_gt_p, retP, raiseP. bals. Qed.
(** Every call: at most one outermost section; outside it only the key function. *)
Lemma before_call c : before (call_p c).
Proof.
  destruct c as [a|s|g|p i o|p]; cbn [call_p].
  - apply before_read.
  - unfold next_p. do 3 (apply before_load; intro). apply before_after; [apply before_read|]. intro v.
    destruct (_ && _); constructor.
  - unfold reader_range_p. apply before_load. intro ig. apply before_lock; [apply bal_range_body|]. intros [l|]; [|constructor].
    destruct (g_peek g); [constructor|]. apply after_try.
    + apply after_bind; [constructor|]. intro x. apply after_bind; [apply after_set_last|]. intro. constructor.
    + intros e. destruct e; try constructor. destruct ig; constructor.
  - unfold tail_p. apply before_lock; [apply bal_tail_body|]. intros [x|]; [|constructor].
    apply after_bind; [apply after_move|]. intro. constructor.
  - unfold head_p. apply before_lock; [apply bal_look|]. intro x. apply after_bind; [apply after_move|]. intro. constructor.
Qed.
Lemma after_stable {A} (p : prog A) d d' : after p -> sd_key d = sd_key d' -> forall r, den p d r = den p d' r.
Proof.
  intros H E. induction H as [o|k Hk Ha IH|k Ha IH|f k Ha IH]; intro r; cbn; auto. rewrite (Hk d d' E). apply IH.
Qed.

(** Inversions. *)
Section Inv.
Context {A : Type}.
Lemma af_look_inv (k : sdeque -> prog A) : after (PLook k) -> (forall d d', sd_key d = sd_key d' -> k d = k d') /\ forall d, after (k d).
Proof. intro H. now inversion H. Qed.
Lemma af_get_inv (k : breader -> prog A) : after (PGet k) -> forall r, after (k r).
Proof. intro H. now inversion H. Qed.
Lemma af_set_inv f (k : prog A) : after (PSet f k) -> after k.
Proof. intro H. now inversion H. Qed.
Lemma bf_enter_inv (k : prog A) : before (PEnter k) -> inside 1 k.
Proof. intro H. now inversion H. Qed.
Lemma bf_look_inv (k : sdeque -> prog A) : before (PLook k) -> (forall d d', sd_key d = sd_key d' -> k d = k d') /\ forall d, before (k d).
Proof. intro H. now inversion H. Qed.
Lemma bf_get_inv (k : breader -> prog A) : before (PGet k) -> forall r, before (k r).
Proof. intro H. now inversion H. Qed.
Lemma bf_set_inv f (k : prog A) : before (PSet f k) -> before k.
Proof. intro H. now inversion H. Qed.
Lemma is_enter_inv n (k : prog A) : inside n (PEnter k) -> inside (S n) k.
Proof. intro H. now inversion H. Qed.
Lemma is_last_inv (k : prog A) : inside 1 (PLeave k) -> after k.
Proof. intro H. now inversion H. Qed.
Lemma is_leave_inv n (k : prog A) : inside (S (S n)) (PLeave k) -> inside (S n) k.
Proof. intro H. now inversion H. Qed.
Lemma is_look_inv n (k : sdeque -> prog A) : inside n (PLook k) -> forall d, inside n (k d).
Proof. intro H. now inversion H. Qed.
Lemma is_get_inv n (k : breader -> prog A) : inside n (PGet k) -> forall r, inside n (k r).
Proof. intro H. now inversion H. Qed.
Lemma is_set_inv n f (k : prog A) : inside n (PSet f k) -> inside n k.
Proof. intro H. now inversion H. Qed.
End Inv.
