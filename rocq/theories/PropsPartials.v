(** * Property theorems: the part of C71 that holds *)
From Coq Require Import List ZArith Bool Arith Lia.
From Verif Require Import PyVal PyLib PyValFacts SortedDequeM BufferReaderM BufferSysM Spec SpecDeque SpecReader Families
  BisectFacts ListFacts DequeFacts DequeSearch ReaderFacts ReaderLoops PropsDeque PropsReader PropsIter.
Import ListNotations.

(** ** C71: a loop with strict_n and read_size n > 1. It yields chunks of exactly n items, in order
    and without a gap; it waits when there is nothing new; it returns only after a look that found
    nothing new and saw the stop. What it does not do is wait for a chunk to fill up: a look that
    finds some, but not more than n, new items ends it with ValueError. *)
Definition full_chunk (n : Z) (v : rval) : Prop := exists l, v = VList l /\ Z.of_nat (length l) = n.
Theorem C71_full_chunks_partial :
  forall P, total_family P -> forall r, cursor_in P r -> rk_strict r = true -> (1 < rk_n r)%Z ->
  forall rounds, Forall (fun q => buffer_in P (fst (fst q)) /\ ~ In PNone (sd_list (fst (fst q)))) rounds ->
  forall r' ys e, iterate rounds r = (r', ys, e) ->
  Forall (full_chunk (rk_n r)) ys /\
  exists before after, rounds = before ++ after /\ consumed (map (fun q => fst (fst q)) before) r ys r' /\
    match e with
    | None => after = []
    | Some IterReturned => exists d s1 s2 rest, after = (d, s1, s2) :: rest /\ (s1 = true \/ s2 = true) /\
        unseen (sd_key d) r' (sd_list d) = []
    | Some (IterRaised x) => x = ValueError /\ exists d s1 s2 rest, after = (d, s1, s2) :: rest /\
        (0 < Z.of_nat (length (unseen (sd_key d) r' (sd_list d))) <= rk_n r)%Z
    end.
Proof.
  intros P F r H Hs Hn rounds. revert r H Hs Hn. induction rounds as [|[[d s1] s2] rounds IH]; intros r H Hs Hn HB r' ys e E.
  - injection E as <- <- <-. split; [constructor|]. exists [], []. split; [reflexivity|]. split; [constructor|reflexivity].
  - inversion HB as [|? ? [BI N] HB']; subst. cbn [fst] in BI, N. pose proof (buffer_bok P d BI) as B. cbn [iterate] in E.
    rewrite (next_closed P F) in E by assumption. unfold sd_list in *.
    destruct (unseen (sd_key d) r (sd_items d)) as [|x U] eqn:EU.
    + destruct s1.
      * injection E as <- <- <-. split; [constructor|]. exists [], ((d, true, s2) :: rounds). split; [reflexivity|]. split; [constructor|].
        exists d, true, s2, rounds. auto.
      * cbn [rval_is_none negb] in E. destruct s2.
        -- injection E as <- <- <-. split; [constructor|]. exists [], ((d, false, true) :: rounds). split; [reflexivity|]. split; [constructor|].
           exists d, false, true, rounds. auto.
        -- destruct (IH r H Hs Hn HB' r' ys e E) as (G1 & b & a & -> & C & G). split; [exact G1|].
           exists ((d, false, false) :: b), a. split; [reflexivity|]. split; [|exact G]. cbn. now apply consumed_nothing.
    + unfold read_result in E. rewrite EU, Hs in E. destruct (Z.ltb_spec 1 (rk_n r)); [|lia]. cbn [andb] in E.
      destruct (Z.leb_spec (Z.of_nat (length (x :: U))) (rk_n r)) as [L|L].
      * injection E as <- <- <-. split; [constructor|]. exists [], ((d, s1, s2) :: rounds). split; [reflexivity|]. split; [constructor|].
        split; [reflexivity|]. exists d, s1, s2, rounds. split; [reflexivity|]. rewrite EU. cbn [length] in *. lia.
      * set (m := firstn (Z.to_nat (rk_n r)) (x :: U)) in *.
        assert (Hm : forall y, In y m -> In y (sd_items d)).
        { intros y Hy. apply firstn_in in Hy. rewrite <- EU in Hy. now apply unseen_in in Hy. }
        assert (LM : length m = Z.to_nat (rk_n r)) by (unfold m; rewrite firstn_length; lia).
        assert (exists z, last_opt m = Some z) as [z Ez].
        { destruct (last_opt m) eqn:El; [eauto|]. apply last_opt_none in El. rewrite El in LM. cbn in LM. lia. }
        cbn [rval_is_none negb] in E. set (r1 := moved (sd_key d) (rk_peek r) m r) in *.
        destruct (kwargs_moved (sd_key d) (rk_peek r) m r) as (K1 & _ & _ & K4). fold r1 in K1, K4.
        destruct (iterate rounds r1) as [[r2 zs] e2] eqn:EI. injection E as <- <- <-.
        destruct (IH r1 ltac:(now apply cursor_moved) ltac:(congruence) ltac:(congruence) HB' r2 zs e2 EI) as (G1 & b & a & -> & C & G).
        rewrite K1 in G1, G. split; [constructor; [exists m; split; [reflexivity|lia]|exact G1]|].
        exists ((d, s1, s2) :: b), a. split; [reflexivity|]. split; [|exact G]. cbn [map fst].
        apply consumed_chunk with z; auto; [discriminate|]. unfold r1, moved in C. rewrite Ez in C. exact C.
Qed.
Print Assumptions C71_full_chunks_partial.
Example C71_partial_nonvacuous :
  let r := mk_breader 2 false true false in
  cursor_in is_int r /\ Forall (fun q => buffer_in is_int (fst (fst q)) /\ ~ In PNone (sd_list (fst (fst q)))) [(empty_buf, false, false); (buf, false, false); (empty_buf, false, true)] /\
  iterate [(empty_buf, false, false); (buf, false, false); (empty_buf, false, true)] r = (cursor_to (sd_key buf) (row 4 40) r, [VList [row 2 20; row 4 40]], Some IterReturned) /\
  snd (iterate [(empty_buf, false, false); (buf, false, false); (buf, false, false)] r) = Some (IterRaised ValueError).
Proof.
  split; [left; split; reflexivity|]. split; [|vm_compute; split; reflexivity].
  pose proof empty_buf_in. pose proof buf_in. pose proof buf_no_none. repeat constructor; auto; intros [].
Qed.
