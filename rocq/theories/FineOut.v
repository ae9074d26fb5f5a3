(** * Steps outside the buffers do not depend on what is in them *)
From Coq Require Import List ZArith Bool Arith Lia.
From Verif Require Import PyVal PyLib SortedDequeM BufferReaderM BufferSysM LogFacts LogReads StreamBufferM SpecStream StreamFacts
  RWLockM ReaderStepsM StreamFineM.
Import ListNotations.

(* [a]: where the reading thread stands in the coarse state, if it is ahead there *)
Definition sess_rel (a : option tpc) (e0 e : sess) : Prop :=
  se_set e0 = se_set e /\ (se_info e0 = se_info e /\ (se_buf e0 = None <-> se_buf e = None)) /\
  match a with None => se_pc e0 = se_pc e | Some p => se_pc e = p /\ exists j x, se_pc e0 = TPut j x end.
Definition rdr_rel (q0 q : rdr) : Prop :=
  rd_sess q0 = rd_sess q /\ rd_ev q0 = rd_ev q /\ rd_info q0 = rd_info q.
Record orel (a : nat -> option tpc) (t0 t : list ev) (s0 s : sb) : Prop := MkO {
  or_len : length (sb_ss s0) = length (sb_ss s);
  or_ss : forall i e0 e, nth_error (sb_ss s0) i = Some e0 -> nth_error (sb_ss s) i = Some e -> sess_rel (a i) e0 e;
  or_cur : sb_cur s0 = sb_cur s; or_start : sb_start s0 = sb_start s; or_stops : sb_stops s0 = sb_stops s;
  or_next : sb_next s0 = sb_next s; or_nx : sb_nx s0 = sb_nx s;
  or_dr : sb_dr s0 = [] /\ sb_dr s = [] /\ sb_in s0 = [] /\ sb_in s = [];
  or_nr : length (sb_rds s0) = length (sb_rds s);
  or_rds : forall r q0 q, nth_error (sb_rds s0) r = Some q0 -> nth_error (sb_rds s) r = Some q -> rdr_rel q0 q;
  or_tr : exists es, sb_tr s0 = t0 ++ es /\ sb_tr s = t ++ es
}.

Section Out.
Variables (a : nat -> option tpc) (t0 t : list ev).
Notation orel := (orel a t0 t).
Lemma orel_log s0 s e : orel s0 s -> orel (log s0 e) (log s e).
Proof.
  intros [A1 A2 A3 A4 A5 A6 A7 A8 A9 A10 (es & E1 & E2)]. constructor; proj; auto. exists (es ++ [e]). rewrite E1, E2. now rewrite !app_assoc.
Qed.
Lemma orel_start s0 s p : orel s0 s -> orel (set_start s0 p) (set_start s p).
Proof. intros []. constructor; proj; auto. Qed.
Lemma orel_cur s0 s p : orel s0 s -> orel (set_cur s0 p) (set_cur s p).
Proof. intros []. constructor; proj; auto. Qed.
Lemma orel_stops s0 s p : orel s0 s -> orel (set_stops s0 p) (set_stops s p).
Proof. intros []. constructor; proj; auto. Qed.
Lemma orel_next s0 s p : orel s0 s -> orel (set_next s0 p) (set_next s p).
Proof. intros []. constructor; proj; auto. Qed.
Lemma orel_nx s0 s p : orel s0 s -> orel (set_nx s0 p) (set_nx s p).
Proof. intros []. constructor; proj; auto. Qed.
Lemma orel_upd s0 s i g : (forall e0 e, sess_rel (a i) e0 e -> sess_rel (a i) (g e0) (g e)) -> orel s0 s -> orel (upd_sess s0 i g) (upd_sess s i g).
Proof.
  intros G []. constructor; proj; auto; rewrite ?upd_length; auto.
  intros k e0 e. rewrite !nth_upd. destruct (Nat.eqb_spec i k) as [->|]; [|auto].
  destruct (nth_error (sb_ss s0) k) eqn:X; [|discriminate]. destruct (nth_error (sb_ss s) k) eqn:Y; [|discriminate].
  cbn. intros H1 H2. injection H1 as <-. injection H2 as <-. apply G. eauto.
Qed.
Lemma orel_pc s0 s i p : a i = None -> orel s0 s -> orel (set_tpc s0 i p) (set_tpc s i p).
Proof. intros N. apply orel_upd. intros e0 e (H1 & H2 & _). rewrite N. split; [exact H1|]. split; [exact H2|reflexivity]. Qed.
Lemma orel_latest s0 s : orel s0 s -> latest s0 = latest s.
Proof. intros []. unfold latest. congruence. Qed.
Lemma orel_set s0 s : orel s0 s -> orel (do_stop s0) (do_stop s).
Proof.
  intro R. unfold do_stop. rewrite (orel_latest _ _ R). apply orel_upd; [|exact R]. intros e0 e (H1 & H2 & H3). split; [reflexivity|]. split; [exact H2|exact H3].
Qed.
Lemma orel_build s0 s i d v : orel s0 s -> orel (upd_sess s0 i (fun e => w_info (w_buf e d) v)) (upd_sess s i (fun e => w_info (w_buf e d) v)).
Proof.
  apply orel_upd. intros e0 e (H1 & H2 & H3). split; [exact H1|]. split; [split; [reflexivity|split; discriminate]|exact H3].
Qed.
Lemma orel_fresh s0 s : a (length (sb_ss s)) = None -> orel s0 s ->
  orel (set_ss s0 (sb_ss s0 ++ [MkSess false None PNone TNew])) (set_ss s (sb_ss s ++ [MkSess false None PNone TNew])).
Proof.
  intros N []. constructor; proj; auto; rewrite ?app_length; [congruence|].
  intros i e0 e H1 H2. apply nth_snoc_inv in H1 as [H1|[-> ->]]; apply nth_snoc_inv in H2 as [H2|[E ->]]; eauto.
  - apply nth_lt in H1. lia.
  - apply nth_lt in H2. lia.
  - rewrite or_len0, N. repeat split.
Qed.
Lemma orel_mk s0 s q0 q : rdr_rel q0 q -> orel s0 s -> orel (set_rds s0 (sb_rds s0 ++ [q0])) (set_rds s (sb_rds s ++ [q])).
Proof.
  intros N []. constructor; proj; auto; rewrite ?app_length; [cbn [length]; congruence|].
  intros i e0 e H1 H2. apply nth_snoc_inv in H1 as [H1|[-> ->]]; apply nth_snoc_inv in H2 as [H2|[E ->]]; eauto.
  - apply nth_lt in H1. lia.
  - apply nth_lt in H2. lia.
Qed.
Lemma orel_rd s0 s r q0 q : rdr_rel q0 q -> orel s0 s -> orel (set_rds s0 (set_nth (sb_rds s0) r q0)) (set_rds s (set_nth (sb_rds s) r q)).
Proof.
  intros N []. constructor; proj; auto; rewrite ?set_nth_length; auto.
  intros i e0 e H1 H2. apply nth_set_inv in H1 as [(-> & -> & _)|[N1 H1]]; apply nth_set_inv in H2 as [(E & -> & _)|[N2 H2]]; try congruence; eauto.
Qed.
Lemma orel_running s0 s : orel s0 s -> running s0 = running s.
Proof.
  intro R. unfold running. rewrite (orel_latest _ _ R). pose proof (or_len _ _ _ _ _ R) as L.
  destruct (nth_error (sb_ss s0) (latest s)) as [e0|] eqn:X; destruct (nth_error (sb_ss s) (latest s)) as [e|] eqn:Y; auto.
  - destruct (or_ss _ _ _ _ _ R _ _ _ X Y) as (-> & _). reflexivity.
  - apply nth_error_None in Y. apply nth_lt in X. lia.
  - apply nth_error_None in X. apply nth_lt in Y. lia.
Qed.
Lemma orel_info s0 s i : orel s0 s -> info_of s0 i = info_of s i.
Proof.
  intro R. unfold info_of. pose proof (or_len _ _ _ _ _ R) as L.
  destruct (nth_error (sb_ss s0) i) as [e0|] eqn:X; destruct (nth_error (sb_ss s) i) as [e|] eqn:Y; auto.
  - destruct (or_ss _ _ _ _ _ R _ _ _ X Y) as (_ & [-> _] & _). reflexivity.
  - apply nth_error_None in Y. apply nth_lt in X. lia.
  - apply nth_error_None in X. apply nth_lt in Y. lia.
Qed.
Lemma orel_new s0 s j n p st ig : orel s0 s -> orel (new_rdr s0 j n p st ig) (new_rdr s j n p st ig).
Proof.
  intro R. unfold new_rdr. rewrite (or_nr _ _ _ _ _ R). apply orel_log, orel_mk; [|exact R]. unfold mk_rdr. rewrite (orel_info _ _ j R). repeat split.
Qed.

(** Every step outside the buffers can be made in both. *)
Variable c : cfg.
Lemma orel_step s0 s l s0' : orel s0 s -> is_True (c_auto c) = true -> outside s0 l = true ->
  (match sb_start s0 with SFresh => a (length (sb_ss s)) = None | SSpawn => a (latest s) = None | _ => True end) ->
  sb_step c s0 l = Some s0' -> exists s', sb_step c s l = Some s' /\ orel s0' s'.
Proof.
  intros R AU OU NA H. pose proof (orel_latest _ _ R) as LA. pose proof (orel_running _ _ R) as RU.
  destruct l as [|o info| | |n p st ig|r| | |n|k|j|k|r cl|r|i o]; cbn [outside] in OU; try discriminate OU; cbn [sb_step] in *.
  - unfold lock_free in *. rewrite (or_start _ _ _ _ _ R) in H. destruct (sb_start s); try discriminate. injection H as <-. eexists. split; [reflexivity|]. now apply orel_start.
  - unfold start_step in *. rewrite <- (or_start _ _ _ _ _ R). rewrite LA, RU in H.
    destruct (sb_start s0) eqn:ST; try discriminate.
    + injection H as <-. eexists. split; [reflexivity|]. now apply orel_start.
    + injection H as <-. eexists. split; [reflexivity|]. now apply orel_start, orel_set.
    + injection H as <-. eexists. split; [reflexivity|]. now apply orel_start, orel_next.
    + injection H as <-. eexists. split; [reflexivity|]. now apply orel_start.
    + injection H as <-. eexists. split; [reflexivity|]. now apply orel_start, orel_cur.
    + injection H as <-. eexists. split; [reflexivity|]. now apply orel_start, orel_fresh.
    + destruct o; injection H as <-; (eexists; split; [reflexivity|]); repeat apply orel_start; repeat apply orel_log; assumption.
    + destruct info as [v|e]; [destruct (sd_init [] (c_key c) (c_maxlen c)) as [d|e]|]; injection H as <-; (eexists; split; [reflexivity|]).
      * apply orel_start, orel_cur, orel_log, orel_build, R.
      * now apply orel_start, orel_log.
      * now apply orel_start, orel_log.
    + injection H as <-. eexists. split; [reflexivity|]. now apply orel_start, orel_log, orel_pc.
  - rewrite (or_len _ _ _ _ _ R) in H. destruct (Nat.eqb (length (sb_ss s)) 0); injection H as <-; (eexists; split; [reflexivity|]).
    + now apply orel_log.
    + rewrite LA, (or_stops _ _ _ _ _ R). now apply orel_log, orel_stops, orel_set.
  - rewrite (or_stops _ _ _ _ _ R) in H. destruct (sb_stops s); [discriminate|]. injection H as <-. eexists. split; [reflexivity|]. now apply orel_stops, orel_next.
  - unfold lock_free in *. rewrite (or_start _ _ _ _ _ R), (or_cur _ _ _ _ _ R) in H. destruct (sb_start s); try discriminate.
    destruct (sb_cur s) as [j|]; injection H as <-; (eexists; split; [reflexivity|]).
    + rewrite (or_nr _ _ _ _ _ R). now apply orel_log, orel_new.
    + now apply orel_log.
  - unfold lock_free in *. rewrite (or_start _ _ _ _ _ R), (or_cur _ _ _ _ _ R) in H. destruct (sb_start s); try discriminate.
    destruct (nth_error (sb_rds s0) r) as [q0|] eqn:Q0; [|discriminate].
    destruct (nth_error (sb_rds s) r) as [q|] eqn:Q.
    2:{ apply nth_error_None in Q. apply nth_lt in Q0. pose proof (or_nr _ _ _ _ _ R). lia. }
    destruct (or_rds _ _ _ _ _ R _ _ _ Q0 Q) as (B1 & B2 & B3).
    destruct (sb_cur s) as [j|]; injection H as <-; (eexists; split; [reflexivity|]).
    + apply orel_log, orel_rd; [|exact R]. repeat split; assumption.
    + now apply orel_log.
  - rewrite (or_next _ _ _ _ _ R), (or_nx _ _ _ _ _ R) in H. destruct (sb_next s).
    + injection H as <-. eexists. split; [reflexivity|]. now apply orel_nx.
    + unfold lock_free in *. rewrite (or_start _ _ _ _ _ R), (or_cur _ _ _ _ _ R) in H. destruct (sb_start s); try discriminate.
      destruct (sb_cur s) as [j|]; injection H as <-; (eexists; split; [reflexivity|]).
      * rewrite (or_nr _ _ _ _ _ R). now apply orel_nx, orel_next, orel_new.
      * now apply orel_log.
  - rewrite AU in *. injection H as <-. eexists. split; [reflexivity|]. now apply orel_log.
  - destruct (nth_error (sb_ss s0) i) as [e0|] eqn:X; [|discriminate].
    destruct (nth_error (sb_ss s) i) as [e|] eqn:Y.
    2:{ apply nth_error_None in Y. apply nth_lt in X. pose proof (or_len _ _ _ _ _ R). lia. }
    destruct (or_ss _ _ _ _ _ R _ _ _ X Y) as (B1 & B2 & B3).
    assert (AN : a i = None). { destruct (a i); [|reflexivity]. destruct B3 as (_ & j & x & B3). rewrite B3 in OU. discriminate. }
    rewrite AN in B3. rewrite <- B3. unfold thread_step in *. rewrite RU, (or_cur _ _ _ _ _ R), ?AU in H.
    destruct (se_pc e0) as [| | | | |x|j x| |er|er|er|er]; try discriminate.
    + injection H as <-. eexists. split; [reflexivity|]. now apply orel_pc.
    + rewrite AU. injection H as <-. eexists. split; [reflexivity|]. now apply orel_pc.
    + destruct o as [v|e1]; [destruct (is_none v)|]; injection H as <-; (eexists; split; [reflexivity|]); now apply orel_pc, orel_log.
    + destruct (sb_cur s); injection H as <-; (eexists; split; [reflexivity|]); apply orel_pc; auto using orel_log.
    + destruct o; injection H as <-; (eexists; split; [reflexivity|]); [now apply orel_pc|now apply orel_pc, orel_log].
    + injection H as <-. eexists. split; [reflexivity|]. now apply orel_pc.
    + injection H as <-. eexists. split; [reflexivity|]. now apply orel_pc, orel_set.
    + injection H as <-. eexists. split; [reflexivity|]. now apply orel_pc, orel_log.
Qed.
End Out.

(** ** What such a step leaves alone, and what it makes *)
Definition makes_buf (c : cfg) (s : sb) (l : label) : option sdeque :=
  match l with
  | LS _ info => match sb_start s with
                 | SBuild => match info with Ok _ => match sd_init [] (c_key c) (c_maxlen c) with Ok d => Some d | Raise _ => None end | Raise _ => None end
                 | _ => None
                 end
  | _ => None
  end.
Lemma out_bufs c s l s' : outside s l = true -> sb_step c s l = Some s' -> forall j,
  buf_of s' j = match makes_buf c s l with Some d => if Nat.eqb (latest s) j && Nat.ltb j (length (sb_ss s)) then Some d else buf_of s j | None => buf_of s j end.
Proof.
  intros OU H j.
  assert (G : forall k f, (forall e, se_buf (f e) = se_buf e) -> match nth_error (upd (sb_ss s) k f) j with Some e => se_buf e | None => None end = buf_of s j).
  { intros k f F. unfold buf_of. rewrite nth_upd. destruct (Nat.eqb k j); [|reflexivity]. destruct (nth_error (sb_ss s) j); [cbn; apply F|reflexivity]. }
  assert (G2 : forall k f k' f', (forall e, se_buf (f e) = se_buf e) -> (forall e, se_buf (f' e) = se_buf e) ->
     match nth_error (upd (upd (sb_ss s) k f) k' f') j with Some e => se_buf e | None => None end = buf_of s j).
  { intros k f k' f' F F'. rewrite nth_upd. rewrite <- (G k f F). destruct (Nat.eqb k' j); [|reflexivity].
    destruct (nth_error (upd (sb_ss s) k f) j); [cbn; apply F'|reflexivity]. }
  destruct l as [|o info| | |n p st ig|r| | |n|k|j'|k|r cl|r|i' o]; cbn [outside] in OU; try discriminate OU; unfold makes_buf.
  9:{ cbn [sb_step] in H. destruct (nth_error (sb_ss s) i') as [e1|] eqn:E1; [|discriminate].
      unfold thread_step in H. destruct (se_pc e1) as [| | | | |y|j1 y| |er|er|er|er]; try discriminate;
           repeat match type of H with
           | Some _ = Some _ => fail 1
           | (match ?x with _ => _ end) = _ => destruct x eqn:?; try discriminate
           end; injection H as <-; unfold buf_of at 1; proj; first [apply G; reflexivity|apply G2; reflexivity]. }
  all: step_cases H; injection H as <-; unfold buf_of at 1; proj;
    repeat match goal with X : sb_start _ = _ |- _ => rewrite X | X : _ = Ok _ |- context [match ?v with Ok _ => _ | Raise _ => _ end] => rewrite X | X : _ = Raise _ |- context [match ?v with Ok _ => _ | Raise _ => _ end] => rewrite X | X : sd_init _ _ _ = _ |- _ => rewrite X end; try reflexivity; try (apply G; reflexivity).
  - unfold buf_of. rewrite nth_snoc. destruct (Nat.ltb_spec j (length (sb_ss s))); [reflexivity|].
    destruct (nth_error (sb_ss s) j) eqn:X; [apply nth_lt in X; lia|]. destruct (Nat.eqb j (length (sb_ss s))); reflexivity.
  - rewrite nth_upd. unfold buf_of. destruct (Nat.eqb_spec (latest s) j) as [Q|]; [subst j|reflexivity]. cbn [andb].
    destruct (Nat.ltb_spec (latest s) (length (sb_ss s))); destruct (nth_error (sb_ss s) (latest s)) eqn:X; cbn; try reflexivity.
    + apply nth_error_None in X. lia.
    + apply nth_lt in X. lia.
Qed.
Lemma out_len c s l s' : outside s l = true -> sb_step c s l = Some s' ->
  length (sb_ss s') = length (sb_ss s) + match l, sb_start s with LS _ _, SFresh => 1 | _, _ => 0 end.
Proof.
  intros OU H. destruct l as [|o info| | |n p st ig|r| | |n|k|j'|k|r cl|r|i' o]; cbn [outside] in OU; try discriminate OU.
  9:{ cbn [sb_step] in H. destruct (nth_error (sb_ss s) i') as [e1|] eqn:E1; [|discriminate].
      unfold thread_step in H. destruct (se_pc e1) as [| | | | |y|j1 y| |er|er|er|er]; try discriminate;
           repeat match type of H with
           | Some _ = Some _ => fail 1
           | (match ?x with _ => _ end) = _ => destruct x eqn:?; try discriminate
           end; injection H as <-; proj; rewrite ?upd_length; lia. }
  all: step_cases H; injection H as <-; proj; repeat match goal with X : sb_start _ = _ |- _ => rewrite X end; rewrite ?upd_length, ?app_length; cbn [length]; lia.
Qed.
Lemma out_rds c s l s' : outside s l = true -> sb_step c s l = Some s' ->
  match l with
  | LMk n p st ig => exists q, sb_rds s' = sb_rds s ++ q /\ (q = [] \/ exists j, sb_cur s = Some j /\ q = [mk_rdr s j n p st ig])
  | LNextMk => exists q, sb_rds s' = sb_rds s ++ q /\ (q = [] \/ exists j, sb_cur s = Some j /\ q = [mk_rdr s j 1 false false false])
  | LAttach r => exists q, nth_error (sb_rds s) r = Some q /\
      ((sb_cur s = None /\ sb_rds s' = sb_rds s) \/ exists j, sb_cur s = Some j /\ sb_rds s' = set_nth (sb_rds s) r (MkRdr j j (rd_info q) (rd_r q) (rd_loop q) (rd_out q)))
  | _ => sb_rds s' = sb_rds s
  end.
Proof.
  intros OU H. destruct l as [|o info| | |n p st ig|r| | |n|k|j'|k|r cl|r|i' o]; cbn [outside] in OU; try discriminate OU.
  9:{ cbn [sb_step] in H. destruct (nth_error (sb_ss s) i') as [e1|] eqn:E1; [|discriminate].
      unfold thread_step in H. destruct (se_pc e1) as [| | | | |y|j1 y| |er|er|er|er]; try discriminate;
           repeat match type of H with
           | Some _ = Some _ => fail 1
           | (match ?x with _ => _ end) = _ => destruct x eqn:?; try discriminate
           end; injection H as <-; proj; reflexivity. }
  all: step_cases H; injection H as <-; proj; try reflexivity;
    try (exists []; rewrite app_nil_r; split; [reflexivity|]; left; reflexivity);
    try (eexists; split; [reflexivity|]; right; eexists; split; [eassumption|reflexivity]);
    eexists; (split; [eassumption|]); eauto 6.
Qed.
Lemma out_put c s l s' : outside s l = true -> sb_step c s l = Some s' ->
  (sb_start s = SSpawn -> exists e, nth_error (sb_ss s) (latest s) = Some e /\ se_pc e = TNew) ->
  forall i e j x, nth_error (sb_ss s) i = Some e -> se_pc e = TPut j x ->
  exists e', nth_error (sb_ss s') i = Some e' /\ se_pc e' = TPut j x.
Proof.
  intros OU H SP i e j x Hi Hp.
  assert (G : forall k f, (forall e, se_pc (f e) = se_pc e) -> exists e', nth_error (upd (sb_ss s) k f) i = Some e' /\ se_pc e' = TPut j x).
  { intros k f F. rewrite nth_upd. destruct (Nat.eqb k i); rewrite Hi; cbn; eexists; (split; [reflexivity|]); rewrite ?F; exact Hp. }
  destruct l as [|o info| | |n p st ig|r| | |n|k|j'|k|r cl|r|i' o]; cbn [outside] in OU; try discriminate OU.
  9:{ destruct (Nat.eq_dec i' i) as [->|N].
       - rewrite Hi, Hp in OU. discriminate.
       - cbn [sb_step] in H. destruct (nth_error (sb_ss s) i') as [e1|] eqn:E1; [|discriminate].
         assert (G2 : forall p, exists e', nth_error (sb_ss (set_tpc s i' p)) i = Some e' /\ se_pc e' = TPut j x).
         { intro p. proj. rewrite upd_other by exact N. eauto. }
         assert (G3 : forall p, exists e', nth_error (sb_ss (set_tpc (do_stop s) i' p)) i = Some e' /\ se_pc e' = TPut j x).
         { intro p. proj. rewrite upd_other by exact N. apply G. reflexivity. }
         unfold thread_step in H. destruct (se_pc e1) as [| | | | |y|j1 y| |er|er|er|er]; try discriminate;
           repeat match type of H with
           | Some _ = Some _ => fail 1
           | (match ?x with _ => _ end) = _ => destruct x eqn:?; try discriminate
           end; injection H as <-; first [apply G2|apply G3|idtac]; proj; rewrite upd_other by exact N; eauto. }
  all: step_cases H; injection H as <-; proj; eauto; try (apply G; reflexivity).
  - rewrite nth_error_app1 by (eapply nth_lt; eauto). eauto.
  - rewrite nth_upd. destruct (Nat.eqb_spec (latest s) i) as [<-|]; [|eauto].
    destruct (SP E) as (e1 & X & Y). rewrite Hi in X. injection X as <-. congruence.
Qed.
Lemma out_events c s l s' : outside s l = true -> sb_step c s l = Some s' ->
  exists es, sb_tr s' = sb_tr s ++ es /\ forall e, In e es -> match e with ECall _ _ _ | EAppend _ _ _ _ | ENext (Some _) _ _ | EPoll _ _ => False | EDrop (Some _) _ _ => is_True (c_auto c) = false | _ => True end.
Proof.
  intros OU H. destruct l as [|o info| | |n p st ig|r| | |n|k|j'|k|r cl|r|i' o]; cbn [outside] in OU; try discriminate OU.
  9:{ cbn [sb_step] in H. destruct (nth_error (sb_ss s) i') as [e1|] eqn:E1; [|discriminate].
      unfold thread_step in H. destruct (se_pc e1) as [| | | | |y|j1 y| |er|er|er|er]; try discriminate;
           repeat match type of H with
           | Some _ = Some _ => fail 1
           | (match ?x with _ => _ end) = _ => destruct x eqn:?; try discriminate
           end; injection H as <-; proj; first [exists []; rewrite app_nil_r; split; [reflexivity|intros ee []]|eexists; split; [reflexivity|]; intros ee [<-|[]]; exact Logic.I]. }
  all: step_cases H; injection H as <-; proj; rewrite <- ?app_assoc;
    first [exists []; rewrite app_nil_r; split; [reflexivity|intros ee []]|eexists; split; [reflexivity|]; intros ee He; cbn in He; intuition (subst; auto)].
Qed.
