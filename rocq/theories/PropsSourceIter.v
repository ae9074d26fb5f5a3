(** * Iterating over a StreamSource (C89), timestamps (C90) *)
From Coq Require Import String List ZArith Bool Arith Lia.
From Verif Require Import PyVal PyLib SortedDequeM BufferReaderM BufferSysM StreamBufferM StreamSourceM SourcesM SourceIterM.
Import ListNotations.
Open Scope string_scope.

(** ** Specification *)
(** [wanted rs out fin]: the reads of [rs] give the data [out], in order; None means "nothing
    yet" and the source is not stopped; [fin]: the last round saw nothing and the stop. *)
Inductive wanted : list sround -> list pyval -> bool -> Prop :=
| w_nil : wanted [] [] false
| w_data : forall d st rs out f, d <> PNone -> wanted rs out f -> wanted (MkSRound (Ok d) st :: rs) (d :: out) f
| w_wait : forall rs out f, wanted rs out f -> wanted (MkSRound (Ok PNone) (Ok false) :: rs) out f
| w_stop : wanted [MkSRound (Ok PNone) (Ok true)] [] true.
Definition all_data (rs : list sround) (out : list pyval) : Prop := map sr_read rs = map (@Ok pyval) out /\ ~ In PNone out.

Lemma lookup_has {A} bodies name (v : res A) : In name (concat bodies) -> lookup bodies name v = v.
Proof.
  intro H. unfold lookup. destruct (existsb (String.eqb name) (concat bodies)) eqn:E; [reflexivity|].
  exfalso. assert (X : existsb (String.eqb name) (concat bodies) = true) by (apply existsb_exists; exists name; split; [assumption|apply String.eqb_refl]). congruence.
Qed.
Lemma lookup_not {A} bodies name (v : res A) : ~ In name (concat bodies) -> lookup bodies name v = Raise AttributeError.
Proof.
  intro H. unfold lookup. destruct (existsb (String.eqb name) (concat bodies)) eqn:E; [|reflexivity].
  exfalso. apply existsb_exists in E as (x & I & Q). apply String.eqb_eq in Q. subst. auto.
Qed.
Lemma no_stopped sub : ~ In "is_stopped" sub -> ~ In "is_stopped" (concat [sub; stream_source_body; source_body]).
Proof.
  intros N H. cbn [concat] in H. apply in_app_or in H as [H|H]; [auto|]. cbn in H. repeat (destruct H as [H|H]; [discriminate H|]). exact H.
Qed.

Lemma for_fuel sub rs : forall f, List.length rs <= f -> for_source f sub rs = for_in_source sub rs.
Proof.
  enough (G : forall n rs, List.length rs <= n -> forall f g, List.length rs <= f -> List.length rs <= g -> for_source f sub rs = for_source g sub rs) by (intros; unfold for_in_source; eapply G; eauto).
  assert (SH : forall rs o q, src_next sub rs = Some (o, q) -> List.length q < List.length rs).
  { induction rs0 as [|[r st] rs0 IH]; intros o q H; cbn in H; [discriminate|]. destruct r as [d|e]; [|injection H as _ <-; cbn; lia].
    destruct (is_none d); [|injection H as _ <-; cbn; lia]. destruct (lookup _ _ st) as [[]|e]; try (injection H as _ <-; cbn; lia). apply IH in H. cbn. lia. }
  induction n as [|n IH]; intros [|r rs'] L f g F G; cbn [List.length] in *; try lia; destruct f, g; try lia; try reflexivity.
  cbn [for_source]. destruct (src_next sub (r :: rs')) as [[[d|e] q]|] eqn:E; [|reflexivity|reflexivity]. apply SH in E. cbn in E.
  rewrite (IH q ltac:(lia) f g ltac:(lia) ltac:(lia)). reflexivity.
Qed.
Lemma for_cons sub r st rs : for_in_source sub (MkSRound r st :: rs) =
  match r with
  | Raise e => ([], match from_generator e with StopIteration => Finished | e' => Died e' end)
  | Ok d => if is_none d then
              match lookup [sub; stream_source_body; source_body] "is_stopped" st with
              | Raise e => ([], match from_generator e with StopIteration => Finished | e' => Died e' end)
              | Ok true => ([], Finished)
              | Ok false => for_in_source sub rs
              end
            else let (l, e) := for_in_source sub rs in (d :: l, e)
  end.
Proof.
  unfold for_in_source at 1. cbn [List.length for_source src_next].
  destruct r as [d|e]; [|destruct e; reflexivity]. destruct (is_none d); [|unfold for_in_source; reflexivity].
  destruct (lookup _ _ st) as [[]|e]; [reflexivity| |destruct e; reflexivity].
  rewrite <- (for_fuel sub rs (S (List.length rs))) by lia. reflexivity.
Qed.

(** ** C89 *)
(** A subclass that itself defines is_stopped gets what it wants. *)
Theorem C89_iteration_partial :
  forall sub rs out fin, In "is_stopped" sub -> wanted rs out fin ->
  for_in_source sub rs = (out, if fin then Finished else Looking).
Proof.
  intros sub rs out fin S W. assert (HL : forall v : res bool, lookup [sub; stream_source_body; source_body] "is_stopped" v = v).
  { intro v. apply lookup_has. cbn [concat]. apply in_or_app. now left. }
  induction W as [|d st rs out f N W IH|rs out f W IH|]; [reflexivity| | |].
  - rewrite for_cons. replace (is_none d) with false by (destruct d; auto; congruence). now rewrite IH.
  - rewrite for_cons. cbn [is_none]. now rewrite HL.
  - rewrite for_cons. cbn [is_none]. now rewrite HL.
Qed.
Print Assumptions C89_iteration_partial.
(** Nothing in the library defines it: the loop dies at the first None, whatever the stream
    does, and never ends normally. *)
Theorem C89_iteration_dies_refuted :
  forall sub rs1 out st rs2, ~ In "is_stopped" sub -> all_data rs1 out ->
  for_in_source sub (rs1 ++ MkSRound (Ok PNone) st :: rs2) = (out, Died AttributeError).
Proof.
  intros sub rs1 out st rs2 N. revert out. induction rs1 as [|[r s] rs1 IH]; intros out [E D]; cbn [map app] in *.
  - destruct out; [|discriminate]. rewrite for_cons. cbn [is_none]. rewrite lookup_not by now apply no_stopped. reflexivity.
  - destruct out as [|d out]; [discriminate|]. injection E as E1 E2. cbn in E1. subst r. rewrite for_cons.
    replace (is_none d) with false by (destruct d; auto; exfalso; apply D; now left).
    rewrite (IH out); [reflexivity|]. split; [assumption|]. intro X. apply D. now right.
Qed.
Print Assumptions C89_iteration_dies_refuted.
(** A source that has two items, then nothing for a while, then one more, then is stopped. *)
Example C89_nonvacuous :
  let rs := [MkSRound (Ok (PInt 1)) (Ok false); MkSRound (Ok (PInt 2)) (Ok false); MkSRound (Ok PNone) (Ok false); MkSRound (Ok (PInt 3)) (Ok true); MkSRound (Ok PNone) (Ok true)] in
  wanted rs [PInt 1; PInt 2; PInt 3] true /\
  for_in_source ["is_stopped"; "read"] rs = ([PInt 1; PInt 2; PInt 3], Finished) /\
  for_in_source ["read"; "open"; "close"] rs = ([PInt 1; PInt 2], Died AttributeError).
Proof. cbn zeta. split; [|split; reflexivity]. repeat (apply w_data; [discriminate|]). apply w_wait, w_data; [discriminate|]. apply w_stop. Qed.

(** ** C90 *)
Theorem C90_stream_source_timestamp_refuted :
  forall sub t, ~ In "timestamp_seconds_to_unit_conversion" sub -> stream_source_timestamp sub t = Raise AttributeError.
Proof.
  intros sub t N. apply lookup_not. intros H. cbn [concat] in H. apply in_app_or in H as [H|H]; [auto|]. cbn in H. repeat (destruct H as [H|H]; [discriminate H|]). exact H.
Qed.
Print Assumptions C90_stream_source_timestamp_refuted.
Theorem C90_timestamp_partial :
  forall sub t, source_reader_timestamp sub t = Ok t /\ (In "timestamp_seconds_to_unit_conversion" sub -> stream_source_timestamp sub t = Ok t).
Proof.
  intros sub t. split; [|intro H]; apply lookup_has; cbn [concat]; apply in_or_app; [right|now left]. cbn. intuition.
Qed.
Print Assumptions C90_timestamp_partial.
Example C90_nonvacuous : stream_source_timestamp ["read"; "open"] 17 = Raise AttributeError /\ source_reader_timestamp ["read"] 17 = Ok 17%Z.
Proof. split; reflexivity. Qed.
