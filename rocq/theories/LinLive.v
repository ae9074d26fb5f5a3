(** * Threads that make calls on one buffer always finish *)
From Coq Require Import List ZArith Bool Arith Lia.
From Verif Require Import PyVal PyLib SortedDequeM Spec SpecDeque BufferReaderM BufferSysM ListFacts DequeFacts DequeSearch LogFacts LogReads
  RWLockM SpecLock LockFacts LockLive LockProps ReaderStepsM SpecLin LinFacts LinShape LinSim LinStep LinRun FineLive.
Import ListNotations.

(** ** Programs that leave each section they enter before they enter the next and before they end *)
Inductive fair {A} : nat -> prog A -> Prop :=
| fa_ret o : fair 0 (PRet o)
| fa_enter k : fair 1 k -> fair 0 (PEnter k)
| fa_leave n k : fair n k -> fair (S n) (PLeave k)
| fa_look n k : (forall d, fair n (k d)) -> fair n (PLook k)
| fa_get n k : (forall r, fair n (k r)) -> fair n (PGet k)
| fa_set n f k : fair n k -> fair n (PSet f k).
Lemma quiet_fair {A} (x : prog A) : quiet x -> fair 0 x.
Proof. intro H. induction H; constructor; auto. Qed.
Lemma fair_quiet {A B} n (x : prog A) (f : A -> prog B) : fair n x -> (forall a, quiet (f a)) -> fair n (bindP x f).
Proof. intros H F. induction H; cbn; try (constructor; auto; fail). destruct o; [apply quiet_fair, F|constructor]. Qed.
Lemma fair_load {A B} n (f : breader -> A) (k : A -> prog B) : (forall a, fair n (k a)) -> fair n (bindP (loadP f) k).
Proof. intro H. constructor. intro r. apply H. Qed.
Lemma fair_lock {A} (x : prog A) : quiet x -> fair 0 (with_lockP x).
Proof. intro H. constructor. induction H; cbn; constructor; auto. constructor. Qed.
Lemma fair_read a : fair 0 (read_p a).
Proof. unfold read_p. do 3 (apply fair_load; intro). apply fair_lock, quiet_read_body. Qed.
Lemma fair_call c : no_nest c -> fair 0 (call_p c).
Proof.
  destruct c as [a|s|g|p i o|p]; cbn [call_p no_nest]; intro N.
  - apply fair_read.
  - unfold next_p. do 3 (apply fair_load; intro). apply fair_quiet; [apply fair_read|]. intro v. unfold retP, raiseP. quiets.
  - unfold reader_range_p. apply fair_load. intro ig. apply fair_quiet; [apply fair_lock, quiet_range_body, N|]. intro o.
    unfold set_last_item_p, key_p, retP, raiseP. quiets.
  - unfold tail_p. apply fair_quiet; [apply fair_lock; unfold tail_body_p, find_last_gt_p, retP, raiseP; quiets|]. intro x.
    unfold move_cursor_p, set_last_item_p, key_p, retP, raiseP. quiets.
  - unfold head_p. apply fair_quiet; [apply fair_lock, quiet_look|]. intro x. unfold move_cursor_p, set_last_item_p, key_p, retP, raiseP. quiets.
Qed.

Lemma ask_lock_inv L i t q : lock_inv sdeque (ls_lock L) -> nth_error (st_ths (ls_lock L)) i = Some t -> lock_inv sdeque (ask L i q).
Proof. intros LI Hi. rewrite (ask_same L i t Hi). now apply lock_inv_todo. Qed.

(** ** The invariant *)
Definition plain (rds : nat) (o : lop) : Prop :=
  match o with LCall r c => r < rds /\ no_nest c | BufferSysM.LMk _ _ _ _ => False | _ => True end.
Definition wk (rds : nat) (t : tok) (h : lth) : Prop :=
  match h_ph h with
  | PhIdle => t_pc t = Idle /\ t_todo t = []
  | PhCall r _ p => r < rds /\ exists n, eff t n /\ n <= 1 /\ fair n p
  | PhWrite o None => (t_pc t = Idle /\ exists w, t_todo t = [SWrite w]) \/ (wpc (t_pc t) = true /\ t_todo t = []) \/ (t_todo t = [] /\ exists rest, t_pc t = WIn rest)
  | PhWrite o (Some _) => t_todo t = [] /\ (vpc (t_pc t) = true \/ t_pc t = Idle)
  end.
Record live (L : lstate) : Prop := {
  lv_lock : lock_inv sdeque (ls_lock L);
  lv_len : length (ls_ths L) = length (st_ths (ls_lock L));
  lv_th : forall i t h, nth_error (st_ths (ls_lock L)) i = Some t -> nth_error (ls_ths L) i = Some h -> wk (length (ls_rds L)) t h;
  lv_todo : forall i h, nth_error (ls_ths L) i = Some h -> Forall (plain (length (ls_rds L))) (h_todo h)
}.

(* what the threads have begun, what they have still to do, what has returned *)
Definition current (h : lth) : list lop := match h_ph h with PhIdle => [] | PhCall r c _ => [LCall r c] | PhWrite o _ => [o] end.
Definition begun (i : nat) (tr : list hev) : list lop := flat_map (fun e => match e with HInv j o => if Nat.eqb j i then [o] else [] | _ => [] end) tr.
Definition ended_ (i : nat) (tr : list hev) : list lop := flat_map (fun e => match e with HRes j o _ => if Nat.eqb j i then [o] else [] | _ => [] end) tr.
Definition books (scripts : list (list lop)) (L : lstate) : Prop :=
  length (ls_ths L) = length scripts /\
  forall i h q, nth_error (ls_ths L) i = Some h -> nth_error scripts i = Some q ->
    ended_ i (ls_tr L) ++ current h ++ h_todo h = q.

Lemma ended_app i a b : ended_ i (a ++ b) = ended_ i a ++ ended_ i b.
Proof. unfold ended_. apply flat_map_app. Qed.

Lemma lv_init d rds scripts : Forall (Forall (plain (length rds))) scripts -> live (linit d rds scripts) /\ books scripts (linit d rds scripts).
Proof.
  intro F. unfold linit. split; [split|]; cbn [ls_lock ls_ths ls_rds].
  - apply lock_inv_init.
  - unfold RWLockM.init. cbn [st_ths]. now rewrite !map_length.
  - intros i t h Hi Hh. unfold RWLockM.init in Hi. cbn [st_ths] in Hi. rewrite map_map in Hi. apply nth_error_map_some in Hi as (q & _ & ->). apply nth_error_map_some in Hh as (q' & _ & ->).
    cbn. auto.
  - intros i h Hh. apply nth_error_map_some in Hh as (q' & H & ->). cbn. rewrite Forall_forall in F. apply F. eapply nth_error_In, H.
  - split; [cbn; now rewrite map_length|]. intros i h q Hh Hq. cbn [ls_ths ls_tr] in *. apply nth_error_map_some in Hh as (q' & H & ->). cbn. congruence.
Qed.

Lemma wpc_step h (t : tok) h' t' : tstep h t = Some (h', t') -> wpc (t_pc t) = true -> t_todo t = [] ->
  t_todo t' = [] /\ (wpc (t_pc t') = true \/ exists rest, t_pc t' = WIn rest).
Proof. intros H W T. destruct (tstep_wpc _ _ _ _ H W T) as (_ & _ & A & [B|(B & _)]); eauto. Qed.

Lemma lv_step scripts L i L' : lstep L i = Some L' -> live L -> books scripts L -> live L' /\ books scripts L' /\ length (ls_rds L') = length (ls_rds L).
Proof.
  intros H [LI LE TH TD] [BL BK]. unfold lstep in H. destruct (nth_error (st_ths (ls_lock L)) i) as [t|] eqn:Hi; [|discriminate].
  destruct (nth_error (ls_ths L) i) as [h|] eqn:Hh; [|discriminate]. pose proof (TH i t h Hi Hh) as W. pose proof (TD i h Hh) as D.
  assert (SAME : set_nth (st_ths (ls_lock L)) i t = st_ths (ls_lock L)) by now apply set_nth_same.
  (* what has to be shown of a step that changes this thread only *)
  assert (GEN : forall lk rds h' t' tr, lock_inv sdeque lk -> st_ths lk = set_nth (st_ths (ls_lock L)) i t' -> length rds = length (ls_rds L) ->
     wk (length (ls_rds L)) t' h' -> Forall (plain (length (ls_rds L))) (h_todo h') ->
     (forall j, j <> i -> ended_ j tr = ended_ j (ls_tr L)) -> ended_ i tr ++ current h' ++ h_todo h' = ended_ i (ls_tr L) ++ current h ++ h_todo h ->
     live (MkLs lk rds (set_nth (ls_ths L) i h') tr) /\ books scripts (MkLs lk rds (set_nth (ls_ths L) i h') tr) /\ length rds = length (ls_rds L)).
  { intros lk rds h' t' tr A1 A2 A3 A4 A5 A6 A7. split; [split|split; [split|exact A3]]; cbn [ls_lock ls_ths ls_rds ls_tr].
    - exact A1.
    - rewrite A2, !set_nth_length. exact LE.
    - intros j u g Hj Hg. rewrite A2, nth_error_set_nth in Hj. rewrite nth_error_set_nth in Hg. rewrite A3. destruct (Nat.eqb_spec i j) as [<-|N]; [|eapply TH; eauto].
      rewrite Hi in Hj. rewrite Hh in Hg. injection Hj as <-. injection Hg as <-. exact A4.
    - intros j g Hg. rewrite nth_error_set_nth in Hg. rewrite A3. destruct (Nat.eqb_spec i j) as [<-|N]; [|eapply TD; eauto].
      rewrite Hh in Hg. injection Hg as <-. exact A5.
    - now rewrite set_nth_length.
    - intros j g q Hg Hq. rewrite nth_error_set_nth in Hg. destruct (Nat.eqb_spec i j) as [<-|N].
      + rewrite Hh in Hg. injection Hg as <-. rewrite A7. eapply BK; eauto.
      + rewrite A6 by congruence. eapply BK; eauto. }
  assert (EV : forall o v, (forall j, j <> i -> ended_ j (ls_tr L ++ [HRes i o v]) = ended_ j (ls_tr L)) /\ ended_ i (ls_tr L ++ [HRes i o v]) = ended_ i (ls_tr L) ++ [o]).
  { intros o v. split.
    - intros j N. rewrite ended_app. cbn. replace (Nat.eqb i j) with false by (symmetry; apply Nat.eqb_neq; congruence). apply app_nil_r.
    - rewrite ended_app. cbn. now rewrite Nat.eqb_refl. }
  assert (EI : forall o j, ended_ j (ls_tr L ++ [HInv i o]) = ended_ j (ls_tr L)) by (intros; rewrite ended_app; cbn; apply app_nil_r).
  destruct (in_lock t) eqn:IL.
  - destruct (RWLockM.step (ls_lock L) i) as [k|] eqn:Hk; [|discriminate]. injection H as <-. pose proof (step_lock_inv sdeque _ _ _ LI Hk) as LI'.
    apply step_inv in Hk as (t0 & h' & t' & Hi0 & Ht & ->). assert (t0 = t) by congruence. subst t0. clear Hi0. unfold wk in W.
    destruct (h_ph h) as [|r c p|o out] eqn:Ep.
    + destruct W as (B1 & B2). unfold in_lock in IL. rewrite B1, B2 in IL. discriminate.
    + destruct W as (R & n & E & N1 & S). rewrite <- (set_nth_same (ls_ths L) i h Hh). apply (GEN _ _ _ t'); auto. unfold wk. rewrite Ep.
      destruct (eff_step _ _ _ _ _ E IL Ht) as (E' & _). split; [exact R|]. exists n. auto.
    + unfold go. apply (GEN _ _ _ t'); auto.
      * unfold wk. cbn [h_ph]. destruct out as [v|].
        -- destruct W as (T & [V|V]); [|unfold in_lock in IL; rewrite V, T in IL; discriminate].
           assert (WO : write_outcome o t (the_buf L) (Some v) = Some v) by (unfold write_outcome; destruct (t_pc t); try discriminate; reflexivity).
           rewrite WO. destruct (tstep_vpc _ _ _ _ Ht V T) as (_ & A & B). auto.
        -- destruct W as [(V & w & T)|[(V & T)|(T & rest & V)]].
           ++ assert (WO : write_outcome o t (the_buf L) None = None) by (unfold write_outcome; rewrite V; reflexivity). rewrite WO.
              unfold tstep in Ht. rewrite V, T in Ht. injection Ht as <- <-. right. left. split; reflexivity.
           ++ assert (WO : write_outcome o t (the_buf L) None = None) by (unfold write_outcome; destruct (t_pc t); try discriminate; reflexivity). rewrite WO.
              destruct (wpc_step _ _ _ _ Ht V T) as (A & [B|B]); auto.
           ++ unfold write_outcome. rewrite V. unfold tstep in Ht. rewrite V in Ht. unfold the_buf. destruct rest as [|f rest].
              ** injection Ht as <- <-. cbn. split; [exact T|]. left. reflexivity.
              ** destruct (f (l_data (st_sh (ls_lock L)))) as [d|] eqn:Ef; injection Ht as <- <-.
                 --- right. right. split; [exact T|]. exists rest. reflexivity.
                 --- cbn. split; [exact T|]. left. reflexivity.
      * unfold current. cbn [h_ph h_todo]. now rewrite Ep.
  - unfold wk in W. destruct (h_ph h) as [|r c p|o out] eqn:Ep.
    + destruct W as (B1 & B2). unfold go in H. destruct (h_todo h) as [|o q] eqn:Eq; [discriminate|]. pose proof (Forall_inv D) as D1. pose proof (Forall_inv_tail D) as D2.
      assert (LA : forall w, lock_inv sdeque (ask L i [SWrite w])).
      { intro w. apply (ask_lock_inv L i t); auto. }
      assert (WR : (exists w, L' = MkLs (ask L i [SWrite w]) (ls_rds L) (set_nth (ls_ths L) i (MkLth (PhWrite o None) q)) (ls_tr L ++ [HInv i o])) -> live L' /\ books scripts L' /\ length (ls_rds L') = length (ls_rds L)).
      { intros (w & ->). eapply GEN; auto; [rewrite (ask_same L i t Hi); reflexivity|..].
        - unfold wk. cbn [h_ph t_pc t_todo]. left. eauto.
        - rewrite EI. unfold current. cbn [h_ph h_todo]. rewrite ?Ep, ?Eq; reflexivity. }
      destruct o as [x|n| |r c]; try contradiction.
      * apply WR. injection H as <-. eauto.
      * apply WR. injection H as <-. eauto.
      * destruct D1 as (R & NN). destruct (Nat.ltb _ _); [|discriminate]. injection H as <-. apply (GEN _ _ _ t); auto.
        -- unfold wk. cbn [h_ph]. split; [exact R|]. exists 0. split; [|split; [lia|now apply fair_call]].
           rewrite (thread_eta t), B1, B2, (idle_nest L i t LI Hi B1). constructor.
        -- rewrite EI. unfold current. cbn [h_ph h_todo]. rewrite ?Ep, ?Eq; reflexivity.
    + destruct W as (R & n & E & N1 & S). destruct (eff_out t n E IL) as (EN & ET & EP). unfold go in H.
      assert (CU : forall k, current (MkLth (PhCall r c k) (h_todo h)) = current h) by (intro k; unfold current; cbn [h_ph]; now rewrite Ep).
      assert (LB : r < length (ls_rds L) -> nth_error (ls_rds L) r <> None) by (intros X Y; apply nth_error_None in Y; lia).
      destruct p as [o|k|k|k|k|f k].
      * injection H as <-. destruct (EV (LCall r c) (OVal o)) as (E1 & E2). assert (n = 0) as -> by now inversion S. apply (GEN _ _ _ t); auto.
        -- unfold wk. cbn [h_ph]. split; [exact EP|exact ET].
        -- rewrite E2. unfold current. cbn [h_ph h_todo]. now rewrite Ep, <- app_assoc.
      * injection H as <-. assert (n = 0 /\ fair 1 k) as (-> & S') by (inversion S; auto). eapply GEN; auto; [apply (ask_lock_inv L i t); auto|rewrite (ask_same L i t Hi); reflexivity|..].
        -- unfold wk. cbn [h_ph]. split; [exact R|]. exists 1. split; [|auto]. rewrite EP, EN. constructor.
        -- cbn [h_todo]. now rewrite CU.
      * injection H as <-. assert (exists m, n = Datatypes.S m /\ fair m k) as (m & -> & S') by (inversion S; eauto). eapply GEN; auto; [apply (ask_lock_inv L i t); auto|rewrite (ask_same L i t Hi); reflexivity|..].
        -- unfold wk. cbn [h_ph]. split; [exact R|]. exists m. split; [|split; [lia|exact S']]. rewrite EP, EN. constructor.
        -- cbn [h_todo]. now rewrite CU.
      * injection H as <-. apply (GEN _ _ _ t); auto; [|cbn [h_todo]; now rewrite CU]. unfold wk. cbn [h_ph]. split; [exact R|]. exists n. split; [exact E|]. split; [exact N1|]. inversion S; auto.
      * destruct (nth_error (ls_rds L) r); [|discriminate]. injection H as <-. apply (GEN _ _ _ t); auto; [|cbn [h_todo]; now rewrite CU]. unfold wk. cbn [h_ph]. split; [exact R|]. exists n. split; [exact E|]. split; [exact N1|]. inversion S; auto.
      * destruct (nth_error (ls_rds L) r); [|discriminate]. injection H as <-. apply (GEN _ _ _ t); auto; [now rewrite set_nth_length| |cbn [h_todo]; now rewrite CU]. unfold wk. cbn [h_ph]. split; [exact R|]. exists n. split; [exact E|]. split; [exact N1|]. inversion S; auto.
    + destruct out as [v|]; [|discriminate]. destruct W as (T & V). injection H as <-. unfold go. destruct (EV o (OUnit v)) as (E1 & E2). apply (GEN _ _ _ t); auto.
      * unfold wk. cbn [h_ph]. split; [|exact T]. destruct V as [V|V]; [|exact V]. unfold in_lock in IL. destruct (t_pc t); discriminate.
      * rewrite E2. unfold current. cbn [h_ph h_todo]. now rewrite Ep, <- app_assoc.
Qed.

(** ** Somebody can always make a step *)
Lemma live_moves L : live L -> (exists i h, nth_error (ls_ths L) i = Some h /\ h_ph h <> PhIdle) ->
  exists i h, nth_error (ls_ths L) i = Some h /\ h_ph h <> PhIdle /\ lstep L i <> None.
Proof.
  intros [LI LE TH TD] (i & h & Hh & NI).
  assert (TG : forall j u, nth_error (st_ths (ls_lock L)) j = Some u -> exists g, nth_error (ls_ths L) j = Some g /\ wk (length (ls_rds L)) u g).
  { intros j u Hj. destruct (nth_error (ls_ths L) j) as [g|] eqn:Hg.
    - exists g. split; [reflexivity|]. eapply TH; eauto.
    - apply nth_error_None in Hg. rewrite LE in Hg. apply nth_error_None in Hg. congruence. }
  assert (ST : forall j u g, nth_error (st_ths (ls_lock L)) j = Some u -> nth_error (ls_ths L) j = Some g -> in_lock u = true -> tstep (st_sh (ls_lock L)) u <> None -> lstep L j <> None).
  { intros j u g Hj Hg IL TS. unfold lstep. rewrite Hj, Hg, IL. unfold RWLockM.step. rewrite Hj. destruct (tstep _ u) as [[? ?]|]; [discriminate|congruence]. }
  assert (BU : forall (u : tok), busy sdeque (t_pc u) = true -> in_lock u = true) by (intros u B; unfold in_lock; destruct (t_pc u); try discriminate; reflexivity).
  assert (NIDLE : forall j u g, nth_error (st_ths (ls_lock L)) j = Some u -> nth_error (ls_ths L) j = Some g -> in_lock u = true -> h_ph g <> PhIdle).
  { intros j u g Hj Hg IL E. pose proof (TH j u g Hj Hg) as T. unfold wk in T. rewrite E in T. destruct T as (T1 & T2). unfold in_lock in IL. rewrite T1, T2 in IL. discriminate. }
  (* a thread inside that is not in a section of the lock moves *)
  assert (QU : forall j u g, nth_error (st_ths (ls_lock L)) j = Some u -> nth_error (ls_ths L) j = Some g -> h_ph g <> PhIdle -> busy sdeque (t_pc u) = false -> lstep L j <> None).
  { intros j u g Hj Hg NG B. pose proof (TH j u g Hj Hg) as T. unfold wk in T. destruct (in_lock u) eqn:IL.
    - apply (ST j u g Hj Hg IL). destruct (h_ph g) as [|r c p|o out] eqn:Ep; [congruence| |].
      + destruct T as (_ & n & E & _). destruct E; cbn in *; try discriminate; unfold tstep; cbn; try discriminate; destruct p0; discriminate.
      + destruct out as [v|].
        * destruct T as (T & [V|V]); [destruct (t_pc u); discriminate|]. unfold in_lock in IL. rewrite V, T in IL. discriminate.
        * destruct T as [(V & w & T)|[(V & _)|(_ & rest & V)]]; [unfold tstep; rewrite V, T; discriminate|destruct (t_pc u); discriminate|rewrite V in B; discriminate].
    - unfold lstep. rewrite Hj, Hg, IL. destruct (h_ph g) as [|r c p|o out] eqn:Ep; [congruence| |].
      + destruct T as (R & _). destruct (nth_error (ls_rds L) r) eqn:E1; [destruct p; discriminate|]. apply nth_error_None in E1. lia.
      + destruct out as [v|]; [discriminate|]. destruct T as [(V & w & T)|[(V & _)|(_ & rest & V)]].
        * unfold in_lock in IL. rewrite V, T in IL. discriminate.
        * destruct (t_pc u); discriminate.
        * rewrite V in B. discriminate. }
  destruct (dec_step sdeque (ls_lock L)) as [(j & u & Hj & Hb & Hs)|ALL].
  - destruct (TG j u Hj) as (g & Hg & _). exists j, g. split; [exact Hg|]. split; [eapply NIDLE; eauto|]. eapply ST; eauto.
  - destruct (nth_error (st_ths (ls_lock L)) i) as [t|] eqn:Hi.
    2:{ apply nth_error_None in Hi. rewrite <- LE in Hi. apply nth_error_None in Hi. congruence. }
    destruct (busy sdeque (t_pc t)) eqn:B; [|exists i, h; eauto].
    destruct (stuck_shape sdeque _ LI ALL) as [W X]. destruct (X (ex_intro _ i (ex_intro _ t (conj Hi B)))) as (_ & k & v & Hk & Hn).
    destruct (TG k v Hk) as (g & Hg & T). destruct (busy sdeque (t_pc v)) eqn:Bv.
    + exfalso. pose proof (NIDLE k v g Hk Hg (BU v Bv)) as NG. specialize (W k v Hk). destruct LI as [_ NO]. pose proof (NO k v Hk) as N0. unfold nest_ok in N0.
      unfold wk in T. destruct (h_ph g) as [|r c p|o out] eqn:Ep; [congruence| |].
      * destruct T as (_ & n & E & N1 & _). destruct E; cbn in *; try discriminate; try lia. destruct p0; try discriminate; contradiction.
      * destruct out as [w|].
        -- destruct T as (T & [V|V]); destruct (t_pc v); try discriminate; try contradiction; lia.
        -- destruct T as [(V & T)|[(V & _)|(_ & rest & V)]]; [rewrite V in Bv; discriminate| |rewrite V in W; contradiction].
           destruct (t_pc v); try discriminate; try contradiction; lia.
    + exists k, g. split; [exact Hg|]. assert (NG : h_ph g <> PhIdle).
      { intro E. unfold wk in T. rewrite E in T. destruct T as (T1 & T2).
        destruct LI as [_ NO]. pose proof (NO k v Hk) as N0. unfold nest_ok in N0. rewrite T1 in N0. lia. }
      split; [exact NG|]. eapply QU; eauto.
Qed.
(* when nobody can make a step, everybody is done *)
Lemma live_stuck L : live L -> (forall i, lstep L i = None) -> forall i h, nth_error (ls_ths L) i = Some h -> h_ph h = PhIdle /\ h_todo h = [].
Proof.
  intros LV S i h Hh. destruct (someone (ls_ths L)) as [(j & g & Hg & NG)|AI].
  - exfalso. destruct (live_moves L LV) as (k & u & _ & _ & X); [eauto|]. now apply X.
  - split; [eapply AI; eauto|]. destruct LV as [LI LE TH TD]. destruct (nth_error (st_ths (ls_lock L)) i) as [t|] eqn:Hi.
    2:{ apply nth_error_None in Hi. rewrite <- LE in Hi. apply nth_error_None in Hi. congruence. }
    pose proof (TH i t h Hi Hh) as W. unfold wk in W. rewrite (AI i h Hh) in W. destruct W as (B1 & B2). specialize (S i). unfold lstep in S.
    rewrite Hi, Hh in S. unfold in_lock in S. rewrite B1, B2, (AI i h Hh) in S. pose proof (TD i h Hh) as D. destruct (h_todo h) as [|o q]; [reflexivity|].
    exfalso. pose proof (Forall_inv D) as D1. destruct o as [x|n| |r c]; try discriminate; [contradiction|]. destruct D1 as (R & _).
    apply Nat.ltb_lt in R. rewrite R in S. discriminate.
Qed.

(** ** All runs end *)
Definition elt2 : Type := nat * elt.
Definition less2 (x y : elt2) : Prop := fst x < fst y \/ (fst x = fst y /\ less (snd x) (snd y)).
Lemma wf_less2 : well_founded less2.
Proof.
  intros [n e]. revert e. induction n as [n IHn] using lt_wf_ind. intro e. induction e as [e IHe] using (well_founded_ind wf_less).
  constructor. intros [m f] [H|[H1 H2]]; cbn in *; [now apply IHn|]. subst m. now apply IHe.
Qed.
Inductive two : list elt2 -> list elt2 -> Prop := two_at i l a a' : nth_error l i = Some a -> less2 a' a -> two (set_nth l i a') l.
Lemma wf_two : well_founded two.
Proof.
  assert (C : forall a, Acc less2 a -> forall l, Acc two l -> Acc two (a :: l)).
  { intros a Ha. induction Ha as [a _ IHa]. intros l Hl. induction Hl as [l Hl IHl]. constructor. intros y H. inversion H as [i l0 b b' E R]; subst.
    destruct i as [|i]; cbn in *.
    - injection E as ->. apply IHa; [exact R|]. constructor. exact Hl.
    - apply IHl. now apply (two_at i l b b'). }
  intro l. induction l as [|a l IH].
  - constructor. intros y H. inversion H as [i l0 b b' E R]; subst. destruct i; discriminate.
  - apply C; [apply wf_less2|exact IH].
Qed.
Definition weigh0 (x : lth * tok) : elt :=
  match h_ph (fst x) with
  | PhIdle => (None, work sdeque (snd x))
  | PhWrite _ _ => (None, S (work sdeque (snd x)))
  | PhCall _ _ p => (Some p, work sdeque (snd x))
  end.
Definition weigh2 (x : lth * tok) : elt2 := (length (h_todo (fst x)), weigh0 x).
Definition weights2 (L : lstate) : list elt2 := map weigh2 (combine (ls_ths L) (st_ths (ls_lock L))).
Lemma lstep_two L i L' : lstep L i = Some L' -> two (weights2 L') (weights2 L).
Proof.
  intro H. unfold lstep in H. destruct (nth_error (st_ths (ls_lock L)) i) as [t|] eqn:Hi; [|discriminate].
  destruct (nth_error (ls_ths L) i) as [h|] eqn:Hh; [|discriminate].
  assert (W : nth_error (weights2 L) i = Some (weigh2 (h, t))) by (unfold weights2; apply map_nth_error, nth_combine; assumption).
  assert (GEN : forall lk rds h' t' tr, st_ths lk = set_nth (st_ths (ls_lock L)) i t' -> less2 (weigh2 (h', t')) (weigh2 (h, t)) ->
     two (weights2 (MkLs lk rds (set_nth (ls_ths L) i h') tr)) (weights2 L)).
  { intros lk rds h' t' tr E R. unfold weights2 at 1. cbn [ls_ths ls_lock]. rewrite E, combine_set, map_set. eapply two_at; eauto. }
  assert (DOWN : forall ph' t', less (weigh0 (MkLth ph' (h_todo h), t')) (weigh0 (h, t)) -> less2 (weigh2 (MkLth ph' (h_todo h), t')) (weigh2 (h, t))).
  { intros ph' t' X. right. split; [reflexivity|exact X]. }
  assert (SAME : set_nth (st_ths (ls_lock L)) i t = st_ths (ls_lock L)) by now apply set_nth_same.
  destruct (in_lock t) eqn:IL.
  - destruct (RWLockM.step (ls_lock L) i) as [k|] eqn:Hk; [|discriminate]. injection H as <-.
    apply step_inv in Hk as (t0 & h' & t' & Hi0 & Ht & ->). assert (t0 = t) by congruence. subst t0. clear Hi0.
    pose proof (tstep_work sdeque _ _ _ _ Ht) as LT. destruct h as [ph q]. cbn [h_ph h_todo] in *. destruct ph as [|r c p|o out].
    + rewrite <- (set_nth_same (ls_ths L) i _ Hh). apply (GEN _ _ _ t'); [reflexivity|]. right. split; [reflexivity|]. unfold weigh2, weigh0. cbn [fst snd h_ph]. now constructor.
    + rewrite <- (set_nth_same (ls_ths L) i _ Hh). apply (GEN _ _ _ t'); [reflexivity|]. apply DOWN. unfold weigh0. cbn [fst snd h_ph]. now constructor.
    + unfold go. apply (GEN _ _ _ t'); [reflexivity|]. apply DOWN. unfold weigh0. cbn [fst snd h_ph]. apply ls_work. lia.
  - unfold go in H. destruct (h_ph h) as [|r c p|o out] eqn:Ep.
    + destruct (h_todo h) as [|o q] eqn:Eq; [discriminate|].
      assert (LESS : forall ph' t', less2 (weigh2 (MkLth ph' q, t')) (weigh2 (h, t))) by (intros ph' t'; left; unfold weigh2; cbn [fst h_todo]; rewrite Eq; cbn [length]; lia).
      destruct o as [x|n| |r c]; try discriminate.
      * injection H as <-. eapply GEN; [rewrite (ask_same L i t Hi); reflexivity|apply LESS].
      * injection H as <-. eapply GEN; [rewrite (ask_same L i t Hi); reflexivity|apply LESS].
      * destruct (Nat.ltb _ _); [|discriminate]. injection H as <-. apply (GEN _ _ _ t); [now symmetry|apply LESS].
    + assert (SUB : forall k t', sub k p -> less2 (weigh2 (MkLth (PhCall r c k) (h_todo h), t')) (weigh2 (h, t))).
      { intros k t' X. apply DOWN. unfold weigh0. cbn [fst snd h_ph]. rewrite Ep. now constructor. }
      destruct p as [o|k|k|k|k|f k].
      * injection H as <-. apply (GEN _ _ _ t); [now symmetry|]. apply DOWN. unfold weigh0. cbn [fst snd h_ph]. rewrite Ep. constructor.
      * injection H as <-. eapply GEN; [rewrite (ask_same L i t Hi); reflexivity|]. apply SUB. constructor.
      * injection H as <-. eapply GEN; [rewrite (ask_same L i t Hi); reflexivity|]. apply SUB. constructor.
      * injection H as <-. apply (GEN _ _ _ t); [now symmetry|]. apply SUB. constructor.
      * destruct (nth_error (ls_rds L) r); [|discriminate]. injection H as <-. apply (GEN _ _ _ t); [now symmetry|]. apply SUB. constructor.
      * destruct (nth_error (ls_rds L) r); [|discriminate]. injection H as <-. apply (GEN _ _ _ t); [now symmetry|]. apply SUB. constructor.
    + destruct out; [|discriminate]. injection H as <-. apply (GEN _ _ _ t); [now symmetry|]. apply DOWN. unfold weigh0. cbn [fst snd h_ph]. rewrite Ep. apply ls_work. lia.
Qed.
Lemma lrun_bound L : exists B, forall sched s, lrun L sched = Some s -> length sched <= B.
Proof.
  remember (weights2 L) as w eqn:Ew. revert L Ew. induction w as [w IH] using (well_founded_ind wf_two). intros L ->.
  assert (G : forall n, exists B, forall i L', i < n -> lstep L i = Some L' -> forall sched s, lrun L' sched = Some s -> length sched <= B).
  { induction n as [|n (B & HB)]; [exists 0; intros; lia|]. destruct (lstep L n) as [L'|] eqn:E.
    - destruct (IH _ (lstep_two _ _ _ E) L' eq_refl) as (B' & HB'). exists (Nat.max B B'). intros i L1 LT E1 sched s R.
      destruct (Nat.eq_dec i n) as [->|N].
      + assert (L1 = L') by congruence. subst L1. pose proof (HB' _ _ R). lia.
      + assert (i < n) by lia. pose proof (HB i L1 ltac:(lia) E1 _ _ R). lia.
    - exists B. intros i L1 LT E1 sched s R. destruct (Nat.eq_dec i n) as [->|N]; [congruence|]. apply (HB i L1 ltac:(lia) E1 _ _ R). }
  destruct (G (length (ls_ths L))) as (B & HB). exists (S B). intros [|i sched] s R; cbn [length]; [lia|]. cbn [lrun] in R.
  destruct (lstep L i) as [L'|] eqn:E; [|discriminate]. assert (i < length (ls_ths L)).
  { apply nth_error_Some. unfold lstep in E. destruct (nth_error (ls_ths L) i); [discriminate|]. destruct (nth_error (st_ths _) i); discriminate. }
  pose proof (HB i L' H E _ _ R). lia.
Qed.
Lemma lv_run scripts sched : forall L L', lrun L sched = Some L' -> live L -> books scripts L -> live L' /\ books scripts L'.
Proof.
  induction sched as [|i q IH]; intros L L' H LV BK; cbn [lrun] in H; [injection H as <-; auto|].
  destruct (lstep L i) as [L1|] eqn:E; [|discriminate]. destruct (lv_step scripts L i L1 E LV BK) as (A & B & _). eauto.
Qed.
