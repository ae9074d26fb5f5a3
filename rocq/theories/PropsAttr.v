(** * C56: readers as context managers, for every client program *)
From Coq Require Import List ZArith Bool Arith Lia.
From Verif Require Import PyVal PyLib ReaderAttrM.
Import ListNotations.

(** The statement assigns or deletes [onclose] of reader [r]. *)
Fixpoint touches (r : nat) (s : stmt) : bool :=
  match s with
  | SAssign q _ | SDelete q => Nat.eqb q r
  | SWith _ b | STry b => existsb (touches r) b
  | _ => false
  end.
Definition untouched (r : nat) (p : list stmt) : Prop := existsb (touches r) p = false.

Lemma stmt_ind2 (P : stmt -> Prop) :
  P SMk -> P SOpenReader -> (forall r h, P (SAssign r h)) -> (forall r, P (SDelete r)) -> (forall r, P (SAttach r)) -> (forall r, P (SClose r)) -> (forall e, P (SRaise e)) ->
  (forall r b, Forall P b -> P (SWith r b)) -> (forall b, Forall P b -> P (STry b)) -> forall s, P s.
Proof.
  intros H1 H2 H3 H4 H5 H6 H7 H8 H9.
  fix IH 1. intros [| |r h|r|r|r|e|r b|b]; [exact H1|exact H2|apply H3|apply H4|apply H5|apply H6|apply H7| |].
  - apply H8. induction b as [|x b IHb]; constructor; [apply IH|exact IHb].
  - apply H9. induction b as [|x b IHb]; constructor; [apply IH|exact IHb].
Qed.
Lemma block_nil w rs : block w [] rs = (rs, [], Ok tt).
Proof. reflexivity. Qed.
Lemma block_cons w s q rs : block w (s :: q) rs = let '(rs1, es1, o1) := exec w s rs in
  match o1 with Raise e => (rs1, es1, Raise e) | Ok _ => let '(rs2, es2, o2) := block w q rs1 in (rs2, es1 ++ es2, o2) end.
Proof. reflexivity. Qed.
Lemma exec_with w r b rs : exec w (SWith r b) rs = let '(rs1, es1, o1) := block w b rs in let (es2, o2) := exit_reader rs1 r w o1 in (rs1, es1 ++ es2, o2).
Proof. reflexivity. Qed.
Lemma exec_try w b rs : exec w (STry b) rs = let '(rs1, es1, o1) := block w b rs in (rs1, es1, Ok tt).
Proof. reflexivity. Qed.
Lemma set_at_other rs q r o : q <> r -> nth_error (set_at rs q o) r = nth_error rs r.
Proof. revert q r. induction rs as [|x rs IH]; intros [|q] [|r] N; cbn; auto; congruence. Qed.

(** A reader's [onclose] changes by assignment and deletion only. *)
Lemma keeps_block w r b : Forall (fun s => forall rs rs' es o x, touches r s = false -> exec w s rs = (rs', es, o) -> nth_error rs r = Some x -> nth_error rs' r = Some x) b ->
  forall rs rs' es o x, untouched r b -> block w b rs = (rs', es, o) -> nth_error rs r = Some x -> nth_error rs' r = Some x.
Proof.
  induction 1 as [|s b Hs Hb IH]; intros rs rs' es o x U E N; [rewrite block_nil in E; congruence|rewrite block_cons in E].
  unfold untouched in U. cbn in U. apply orb_false_iff in U as [U1 U2]. destruct (exec w s rs) as [[rs1 es1] o1] eqn:E1. pose proof (Hs _ _ _ _ _ U1 E1 N) as N1.
  destruct o1 as [u|e]; [|congruence]. destruct (block w b rs1) as [[rs2 es2] o2] eqn:E2. injection E as <- _ _. eapply IH; eauto.
Qed.
Lemma keeps_stmt w r : forall s rs rs' es o x, touches r s = false -> exec w s rs = (rs', es, o) -> nth_error rs r = Some x -> nth_error rs' r = Some x.
Proof.
  induction s using stmt_ind2; intros rs rs' es o x U E N.
  - injection E as <- _ _. rewrite nth_error_app1; [assumption|]. apply nth_error_Some. congruence.
  - injection E as <- _ _. rewrite nth_error_app1; [assumption|]. apply nth_error_Some. congruence.
  - cbn in U. apply Nat.eqb_neq in U. injection E as <- _ _. now rewrite set_at_other.
  - cbn in U. apply Nat.eqb_neq in U. cbn in E. destruct (nth_error rs r0) as [[h|]|]; injection E as <- _ _; auto. now rewrite set_at_other.
  - cbn in E. congruence.
  - cbn in E. destruct (close_reader rs r0 w). congruence.
  - cbn in E. congruence.
  - rewrite exec_with in E. destruct (block w b rs) as [[rs1 es1] o1] eqn:B. destruct (exit_reader rs1 r0 w o1). injection E as <- _ _. eapply keeps_block; eauto.
  - rewrite exec_try in E. destruct (block w b rs) as [[rs1 es1] o1] eqn:B. injection E as <- _ _. eapply keeps_block; eauto.
Qed.
Lemma keeps w r b rs rs' es o x : untouched r b -> block w b rs = (rs', es, o) -> nth_error rs r = Some x -> nth_error rs' r = Some x.
Proof. apply keeps_block. apply Forall_forall. intros s _. apply keeps_stmt. Qed.

(** [rs] is what a program leaves behind that did anything ([before]), then made reader [r] by
    [how], then did anything but touch [r]'s onclose ([after]). *)
Definition made_by (how : stmt) (w : hook -> res unit) (r : nat) (rs : list robj) : Prop :=
  exists before after rs1 es1 o1 es o,
    block w before [] = (rs1, es1, o1) /\ r = length rs1 /\ untouched r after /\ block w (how :: after) rs1 = (rs, es, o).

(** Readers from open_reader() whose onclose the client does not touch, the StreamSource's
    handler not raising (see C56_opened_readers_partial): [with reader: body] ends exactly as
    its body, value or exception, and the handler is called once, after the body; close()
    and exit() return. *)
Theorem C56_with_opened_partial :
  forall w r rs, made_by SOpenReader w r rs -> w HHandler = Ok tt ->
  exec w (SClose r) rs = (rs, [ECalled r HHandler (Ok tt)], Ok tt) /\
  forall body, untouched r body -> forall rs' es o, block w body rs = (rs', es, o) -> exec w (SWith r body) rs = (rs', es ++ [ECalled r HHandler (Ok tt)], o).
Proof.
  intros w r rs (before & after & rs1 & es1 & o1 & es & o & B1 & -> & U & B2) W. rewrite block_cons in B2. cbn [exec] in B2. destruct (block w after (rs1 ++ [Some HHandler])) as [[rs2 es2] o2] eqn:E. injection B2 as <- _ _.
  assert (N : nth_error rs2 (length rs1) = Some (Some HHandler)) by (apply (keeps w _ _ _ _ _ _ _ U E); rewrite nth_error_app2, Nat.sub_diag by lia; reflexivity).
  split; [cbn; unfold close_reader; rewrite N; cbn; now rewrite W|].
  intros body UB rs' es' o' EB. rewrite exec_with, EB. pose proof (keeps w _ _ _ _ _ _ _ UB EB N) as N'. unfold exit_reader, close_reader. rewrite N'. cbn. now rewrite W.
Qed.
Print Assumptions C56_with_opened_partial.
(** Readers from mk_reader() whose onclose nobody assigned, whatever else the program does
    (attaching them again, nested blocks, handled exceptions): close(), exit() and
    [del reader.onclose] raise AttributeError, and a with block ends in AttributeError even if its body raised something
    else; and no hook is called for the reader. *)
Theorem C56_with_made_refuted :
  forall w r rs, made_by SMk w r rs ->
  exec w (SClose r) rs = (rs, [], Raise AttributeError) /\ exec w (SDelete r) rs = (rs, [], Raise AttributeError) /\
  forall body, untouched r body -> forall rs' es o, block w body rs = (rs', es, o) -> exec w (SWith r body) rs = (rs', es, Raise AttributeError).
Proof.
  intros w r rs (before & after & rs1 & es1 & o1 & es & o & B1 & -> & U & B2). rewrite block_cons in B2. cbn [exec] in B2. destruct (block w after (rs1 ++ [None])) as [[rs2 es2] o2] eqn:E. injection B2 as <- _ _.
  assert (N : nth_error rs2 (length rs1) = Some None) by (apply (keeps w _ _ _ _ _ _ _ U E); rewrite nth_error_app2, Nat.sub_diag by lia; reflexivity).
  split; [cbn; unfold close_reader; now rewrite N|]. split; [cbn; now rewrite N|].
  intros body UB rs' es' o' EB. rewrite exec_with, EB. pose proof (keeps w _ _ _ _ _ _ _ UB EB N) as N'. unfold exit_reader, close_reader. rewrite N'. cbn. now rewrite app_nil_r.
Qed.
Print Assumptions C56_with_made_refuted.
(** The way out for the client: once it has assigned onclose - a false value, or a function
    that does not raise - close() returns and with blocks end as their bodies, however the
    reader was made. *)
Theorem C56_assigned_partial :
  forall w rs r h, r < length rs -> h = HFalse \/ w h = Ok tt ->
  forall rs1 es1 o1, exec w (SAssign r h) rs = (rs1, es1, o1) -> forall p, untouched r p -> forall rs2 es2 o2, block w p rs1 = (rs2, es2, o2) ->
  snd (exec w (SClose r) rs2) = Ok tt /\ forall body, untouched r body -> snd (exec w (SWith r body) rs2) = snd (block w body rs2).
Proof.
  intros w rs r h L HW rs1 es1 o1 E1 p UP rs2 es2 o2 E2. injection E1 as <- _ _.
  assert (N0 : nth_error (set_at rs r (Some h)) r = Some (Some h)).
  { clear - L. revert r L. induction rs as [|x rs IH]; intros [|r] L; cbn in *; try lia; [reflexivity|]. apply IH. lia. }
  pose proof (keeps w _ _ _ _ _ _ _ UP E2 N0) as N.
  assert (C : forall rs3 : list robj, nth_error rs3 r = Some (Some h) -> snd (close_reader rs3 r w) = Ok tt).
  { intros rs3 N3. unfold close_reader. rewrite N3. cbn. destruct HW as [->|W]; [reflexivity|]. destruct h; cbn; auto. }
  split; [cbn; specialize (C rs2 N); destruct (close_reader rs2 r w); exact C|].
  intros body UB. rewrite exec_with. destruct (block w body rs2) as [[rs3 es3] o3] eqn:EB. specialize (C rs3 (keeps w _ _ _ _ _ _ _ UB EB N)). unfold exit_reader.
  destruct (close_reader rs3 r w) as [es4 o4]. cbn in C. subst o4. reflexivity.
Qed.
Print Assumptions C56_assigned_partial.

(** A client that opens a reader, makes another one, and fails inside nested blocks: the
    KeyError is lost. *)
Example C56_attr_nonvacuous :
  let w := fun h => match h with HFun _ => Raise RuntimeError | _ => Ok tt end in
  made_by SOpenReader w 0 [Some HHandler; None] /\ made_by SMk w 1 [Some HHandler; None] /\ w HHandler = Ok tt /\
  exec w (SWith 0 [SWith 1 [SAttach 1; SRaise KeyError]]) [Some HHandler; None] = ([Some HHandler; None], [ECalled 0 HHandler (Ok tt)], Raise AttributeError) /\
  exec w (SWith 0 [SRaise KeyError]) [Some HHandler; None] = ([Some HHandler; None], [ECalled 0 HHandler (Ok tt)], Raise KeyError) /\
  block w [SAssign 1 HFalse; SWith 1 [SRaise KeyError]] [Some HHandler; None] = ([Some HHandler; Some HFalse], [], Raise KeyError).
Proof.
  cbn zeta. split; [exists [], [SMk], [], [], (Ok tt), [], (Ok tt); repeat split|]. split; [exists [SOpenReader], [STry [SRaise KeyError]], [Some HHandler], [], (Ok tt), [], (Ok tt); repeat split|].
  repeat split.
Qed.
