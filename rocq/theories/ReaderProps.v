(** C50-C52: the interval reader, the producer manager, the reader. *)

From Coq Require Import String.
From Coq Require Import List Arith ZArith Bool Lia ZifyBool ZifyNat Permutation.
From Verif Require Import Base ListLib GoMap AggModel AggProofs ReaderModel ReaderSpec ReaderProofs.
Import ListNotations.
Open Scope nat_scope.

(** ** C50 *)

Lemma inv_run_steps : forall cs s s', inv s -> rrun false s cs = Some s' -> inv s'.
Proof.
  induction cs as [|c cs IH]; intros s s' Hi E; cbn [rrun] in E; [injection E as <-; exact Hi |].
  destruct (rstep false s c) as [s1 |] eqn:E1; [| discriminate]. exact (IH s1 s' (inv_step s c s1 Hi E1) E).
Qed.

Lemma inv_reach progs cs s : rrun false (r_init progs) cs = Some s -> inv s.
Proof. apply inv_run_steps, inv_init. Qed.

(** Any number of goroutines, each making any calls of Start, Stop and Flush, with the
    steps of all of them, of the loop and of the ticker in any order: the history is one
    that the specification allows. *)
Theorem C50_history (progs : list (list rop)) (cs : list rchoice) (s : rst) :
  rrun false (r_init progs) cs = Some s -> exists x, rspec_run rspec_init (r_hist s) = Some x.
Proof.
  intros H. destruct (inv_reach progs cs s H) as (_ & hp & _ & Hq). destruct (r_quit s).
  - destruct Hq as (d & t & pre & x & on & pend & []). eauto.
  - destruct Hq as [_ _ _ (tk & Hs)]. eauto.
Qed.

(** Nothing panics: no channel is closed twice, none is sent to after it was closed. *)
Theorem C50_no_panic (progs : list (list rop)) (cs : list rchoice) (s : rst) :
  rrun false (r_init progs) cs = Some s -> r_panic s = false.
Proof. intros H. exact (proj1 (inv_reach progs cs s H)). Qed.

(** At most one export loop is alive. *)
Theorem C50_one_loop (progs : list (list rop)) (cs : list rchoice) (s : rst) (j k : nat) (a b : lpc) :
  rrun false (r_init progs) cs = Some s ->
  nth_error (r_loops s) j = Some a -> nth_error (r_loops s) k = Some b -> a <> LExit -> b <> LExit -> j = k.
Proof.
  intros H Ha Hb Na Nb. destruct (inv_reach progs cs s H) as (_ & hp & _ & Hq). destruct (r_quit s).
  - destruct Hq as (d & t & pre & x & on & pend & []). rewrite ir_loops in Ha, Hb.
    destruct (loop_at _ _ _ _ ir_pre Ha) as [-> | [-> _]]; [congruence |]. destruct (loop_at _ _ _ _ ir_pre Hb) as [-> | [-> _]]; [congruence | reflexivity].
  - destruct Hq as [Hl _ _ _]. rewrite Forall_forall in Hl. exfalso. apply Na. symmetry. apply Hl. exact (nth_error_In _ _ Ha).
Qed.

Definition is_started (e : rev_) : bool := match e with RvStarted _ _ => true | _ => false end.
Definition is_begin (e : rev_) : bool := match e with RvBegin _ => true | _ => false end.
Definition is_end (e : rev_) : bool := match e with RvEnd _ => true | _ => false end.

Lemma quiet h : forall x y, rspec_run x h = Some y -> rs_running x = false -> rs_exporting x <> Some SrcLoop -> existsb is_started h = false ->
  rs_running y = false /\ ~ In (RvBegin SrcLoop) h /\ ~ In (RvEnd SrcLoop) h /\ ~ In RvTick h.
Proof.
  induction h as [|e h IH]; intros x y E Hr He Hs; cbn [rspec_run existsb] in *; [injection E as <-; auto |].
  destruct (rspec_step x e) as [x1 |] eqn:E1; [| discriminate]. apply orb_false_elim in Hs. destruct Hs as [Hs1 Hs].
  assert (H1 : rs_running x1 = false /\ rs_exporting x1 <> Some SrcLoop /\ e <> RvBegin SrcLoop /\ e <> RvEnd SrcLoop /\ e <> RvTick).
  { destruct x as [r ex tk]. cbn [rs_running rs_exporting] in *. subst r. destruct e as [iv p | iv [] | | | [] | [] |]; cbn [rspec_step rs_running rs_exporting rs_tick is_started negb andb] in *; try discriminate.
    - destruct (interval_ok iv); [discriminate |]. injection E1 as <-. cbn. repeat split; try discriminate; exact He.
    - rewrite andb_false_r in E1. discriminate.
    - destruct ex; [discriminate |]. injection E1 as <-. cbn. repeat split; discriminate.
    - destruct ex; [discriminate |]. injection E1 as <-. cbn. repeat split; discriminate.
    - destruct ex as [[] |]; try discriminate. congruence.
    - destruct ex as [[] |]; try discriminate. injection E1 as <-. cbn. repeat split; discriminate. }
  destruct H1 as (H1 & H2 & H3 & H4 & H5). destruct (IH x1 y E H1 H2 Hs) as (I1 & I2 & I3 & I4). split; [exact I1 |].
  cbn [In]. intuition.
Qed.

Lemma balance h : forall x y, rspec_run x h = Some y ->
  length (filter is_begin h) + (match rs_exporting x with Some _ => 1 | None => 0 end) =
  length (filter is_end h) + (match rs_exporting y with Some _ => 1 | None => 0 end).
Proof.
  induction h as [|e h IH]; intros x y E; cbn [rspec_run filter] in *; [injection E as <-; reflexivity |].
  destruct (rspec_step x e) as [x1 |] eqn:E1; [| discriminate]. specialize (IH x1 y E).
  destruct x as [r ex tk]. destruct e as [iv p | iv [] | | | [] | [] |]; cbn [rspec_step rs_running rs_exporting rs_tick is_begin is_end] in *.
  - destruct (negb r && interval_ok iv && _)%bool in E1; [| discriminate]. destruct ex; [discriminate |]. injection E1 as <-. cbn [length rs_exporting] in *. lia.
  - destruct (negb (interval_ok iv)); [| discriminate]. injection E1 as <-. cbn [length rs_exporting] in *. lia.
  - destruct (interval_ok iv && r); [| discriminate]. injection E1 as <-. cbn [length rs_exporting] in *. lia.
  - destruct ex; [discriminate |]. injection E1 as <-. cbn [length rs_exporting] in *. lia.
  - destruct r; [| discriminate]. injection E1 as <-. cbn [length rs_exporting] in *. lia.
  - destruct (r && tk); [| discriminate]. destruct ex; [discriminate |]. injection E1 as <-. cbn [length rs_exporting] in *. lia.
  - destruct (negb r); [| discriminate]. destruct ex; [discriminate |]. injection E1 as <-. cbn [length rs_exporting] in *. lia.
  - destruct ex as [[] |]; try discriminate. injection E1 as <-. cbn [length rs_exporting] in *. lia.
  - destruct ex as [[] |]; try discriminate. injection E1 as <-. cbn [length rs_exporting] in *. lia.
  - destruct r; [| discriminate]. injection E1 as <-. cbn [length rs_exporting] in *. lia.
Qed.

Definition begun (h : list rev_) : nat := length (filter is_begin h).
Definition ended (h : list rev_) : nat := length (filter is_end h).

(** When Stop returns, every export that was begun has ended; from then until the next
    successful Start the loop neither exports nor ticks, and no loop is alive. *)
Theorem C50_stop (progs : list (list rop)) (cs : list rchoice) (s : rst) (h1 h2 : list rev_) :
  rrun false (r_init progs) cs = Some s -> r_hist s = h1 ++ RvStopped :: h2 -> existsb is_started h2 = false ->
  begun h1 = ended h1 /\ ~ In (RvBegin SrcLoop) h2 /\ ~ In (RvEnd SrcLoop) h2 /\ ~ In RvTick h2 /\
  Forall (eq LExit) (r_loops s).
Proof.
  intros H Eh Hn. destruct (C50_history progs cs s H) as (z & Hz). pose proof Hz as Hz0. rewrite Eh, rspec_run_app in Hz.
  destruct (rspec_run rspec_init h1) as [x |] eqn:E1; [| discriminate]. cbn [rspec_run rspec_step] in Hz.
  destruct (rs_exporting x) as [e |] eqn:Ex; [discriminate |]. pose proof (balance h1 _ _ E1) as B. rewrite Ex in B. cbn [rspec_init rs_exporting] in B.
  destruct (quiet h2 _ _ Hz eq_refl ltac:(discriminate) Hn) as (Q0 & Q1 & Q2 & Q3).
  split; [unfold begun, ended; lia |]. split; [exact Q1 |]. split; [exact Q2 |]. split; [exact Q3 |].
  destruct (inv_reach progs cs s H) as (_ & hp & _ & Hq). destruct (r_quit s).
  - exfalso. destruct Hq as (d & t & pre & y & on & pend & []). rewrite ir_spec in Hz0. injection Hz0 as <-. discriminate.
  - destruct Hq. assumption.
Qed.

(** Two exports never overlap: at every moment at most one is going on. *)
Theorem C50_serial (progs : list (list rop)) (cs : list rchoice) (s : rst) (h1 h2 : list rev_) :
  rrun false (r_init progs) cs = Some s -> r_hist s = h1 ++ h2 -> ended h1 <= begun h1 <= S (ended h1).
Proof.
  intros H Eh. destruct (C50_history progs cs s H) as (z & Hz). rewrite Eh, rspec_run_app in Hz.
  destruct (rspec_run rspec_init h1) as [x |] eqn:E1; [| discriminate]. pose proof (balance h1 _ _ E1) as B. unfold begun, ended.
  cbn [rspec_init rs_exporting] in B. destruct (rs_exporting x); lia.
Qed.

(** The number of the ticker's ticks bounds the number of the loop's exports. *)
Definition loop_begin (e : rev_) : bool := match e with RvBegin SrcLoop => true | _ => false end.
Definition is_tick (e : rev_) : bool := match e with RvTick => true | _ => false end.

Lemma ticks_bound h : forall x y, rspec_run x h = Some y ->
  length (filter loop_begin h) + (if rs_tick y then 1 else 0) <= length (filter is_tick h) + (if rs_tick x then 1 else 0).
Proof.
  induction h as [|e h IH]; intros x y E; cbn [rspec_run filter] in *; [injection E as <-; lia |].
  destruct (rspec_step x e) as [x1 |] eqn:E1; [| discriminate]. specialize (IH x1 y E).
  destruct x as [r ex tk]. destruct e as [iv p | iv [] | | | [] | [] |]; cbn [rspec_step rs_running rs_exporting rs_tick loop_begin is_tick] in *.
  - destruct (negb r && interval_ok iv && _)%bool in E1; [| discriminate]. destruct ex; [discriminate |]. injection E1 as <-. cbn [rs_tick] in IH. lia.
  - destruct (negb (interval_ok iv)); [| discriminate]. injection E1 as <-. exact IH.
  - destruct (interval_ok iv && r); [| discriminate]. injection E1 as <-. exact IH.
  - destruct ex; [discriminate |]. injection E1 as <-. cbn [rs_tick] in IH. lia.
  - destruct r; [| discriminate]. injection E1 as <-. exact IH.
  - destruct r, tk; try discriminate. destruct ex; [discriminate |]. injection E1 as <-. cbn [rs_tick length andb] in *. lia.
  - destruct (negb r); [| discriminate]. destruct ex; [discriminate |]. injection E1 as <-. exact IH.
  - destruct ex as [[] |]; try discriminate. injection E1 as <-. exact IH.
  - destruct ex as [[] |]; try discriminate. injection E1 as <-. exact IH.
  - destruct r; [| discriminate]. injection E1 as <-. cbn [rs_tick length] in *. destruct tk; lia.
Qed.

Theorem C50_ticks (progs : list (list rop)) (cs : list rchoice) (s : rst) :
  rrun false (r_init progs) cs = Some s -> length (filter loop_begin (r_hist s)) <= length (filter is_tick (r_hist s)).
Proof.
  intros H. destruct (C50_history progs cs s H) as (z & Hz). pose proof (ticks_bound _ _ _ Hz) as B. cbn [rspec_init rs_tick] in B. lia.
Qed.

Definition timer_choice (c : rchoice) : bool := match c with RTake _ | RTickOf _ => true | _ => false end.

(** As long as some call has not returned, a step other than one of the ticker is possible:
    Start, Stop and Flush do not block each other. *)
Theorem C50_no_deadlock (progs : list (list rop)) (cs : list rchoice) (s : rst) (i : nat) (c : caller) :
  rrun false (r_init progs) cs = Some s -> nth_error (r_callers s) i = Some c -> c_todo c <> [] ->
  exists a s', timer_choice a = false /\ rstep false s a = Some s'.
Proof.
  intros H Hi Hc. destruct (inv_reach progs cs s H) as (Hp & hp & Hh & Hq).
  inversion Hh as [H1 H2 | k c' H1 H2 H3 H4 H5]; subst.
  - exists (RDo i). unfold rstep. rewrite Hp, Hi, H1. specialize (H2 i c Hi). destruct c as [[|op rest] pc]; cbn in *; [congruence |]. subst pc. eauto.
  - destruct c' as [[|op rest] pc]; cbn [c_todo c_pc] in *; [congruence |].
    assert (Hdo : (exists s', rstep false s (RDo k) = Some s') -> exists a s', timer_choice a = false /\ rstep false s a = Some s') by (intros (s' & E); exists (RDo k), s'; auto).
    destruct pc.
    + congruence.
    + apply Hdo. unfold rstep. rewrite Hp, H2. destruct op; [| destruct (r_quit s) | destruct (r_quit s)]; eauto.
    + destruct (r_quit s) as [q' |]; [| destruct Hq as [_ [E | [E | [E | E]]] _ _]; discriminate].
      destruct Hq as (d & t & pre & x & on & pend & []). destruct ir_pc as [-> Ha].
      assert (Hj : nth_error (r_loops s) (length pre) = Some x) by (rewrite ir_loops, nth_error_app2, Nat.sub_diag by lia; reflexivity).
      destruct Ha as [-> | [-> | ->]].
      * exists (RLoop (length pre)). unfold rstep. rewrite Hp, Hj. eauto.
      * exists (RQuit k (length pre)). unfold rstep. rewrite Hp, H2, Hj, Nat.eqb_refl, ir_qc. cbn [andb negb]. eauto.
      * exists (RLoop (length pre)). unfold rstep. rewrite Hp, Hj. eauto.
    + destruct (r_quit s) as [q' |]; [| destruct Hq as [_ [E | [E | [E | E]]] _ _]; discriminate].
      destruct Hq as (d & t & pre & x & on & pend & []). apply Hdo. unfold rstep. rewrite Hp, H2, ir_done. eauto.
    + destruct (r_quit s) as [q' |]; [| destruct Hq as [_ [E | [E | [E | E]]] _ _]; discriminate].
      destruct Hq as (d' & t & pre & x & on & pend & []). destruct ir_pc as [-> Ha].
      assert (Hj : nth_error (r_loops s) (length pre) = Some x) by (rewrite ir_loops, nth_error_app2, Nat.sub_diag by lia; reflexivity).
      destruct Ha as [-> | [-> | ->]].
      * exists (RLoop (length pre)). unfold rstep. rewrite Hp, Hj, ir_timer. eauto.
      * exists (RLoop (length pre)). unfold rstep. rewrite Hp, Hj, ir_done. eauto.
      * exists (RDone k (length pre)). unfold rstep. rewrite Hp, H2, Hj, Nat.eqb_refl, ir_dc. cbn [andb negb]. eauto.
    + apply Hdo. unfold rstep. rewrite Hp, H2. eauto.
    + apply Hdo. unfold rstep. rewrite Hp, H2. eauto.
    + apply Hdo. unfold rstep. rewrite Hp, H2. eauto.
    + apply Hdo. unfold rstep. rewrite Hp, H2. eauto.
Qed.

(** How much is left to do apart from the ticker. *)
Definition pc_rank (p : rpc) : nat :=
  match p with RIdle => 0 | RLocked => 1 | RSend _ => 2 | RRecv => 3 | RRecv2 _ => 4 | RClose1 => 5 | RClose2 => 6 | RExport => 2 | RRet => 15 end.
Definition caller_rank (c : caller) : nat := 20 * length (c_todo c) - pc_rank (c_pc c).
Definition loop_rank (l : lpc) : nat :=
  match l with LExport => 6 | LTop => 5 | LSelect _ _ => 4 | LQuit => 3 | LDone => 2 | LSend _ => 1 | _ => 0 end.
Definition rank (s : rst) : nat := list_sum (map caller_rank (r_callers s)) + list_sum (map loop_rank (r_loops s)).

Lemma list_sum_upd {A} (f : A -> nat) l i x y : nth_error l i = Some x -> list_sum (map f (upd l i (fun _ => y))) + f x = list_sum (map f l) + f y.
Proof.
  revert i. induction l as [|a l IH]; intros [|i] H; cbn [nth_error] in H; try discriminate; cbn [upd map list_sum fold_right].
  - injection H as ->. unfold list_sum. cbn [fold_right]. lia.
  - specialize (IH i H). unfold list_sum in *. cbn [fold_right]. lia.
Qed.

(** Steps other than the ticker's bring every call closer to its end: none can go on
    for ever, so with C50_no_deadlock every call returns. *)
Theorem C50_calls_end (progs : list (list rop)) (cs : list rchoice) (s s' : rst) (a : rchoice) :
  rrun false (r_init progs) cs = Some s -> timer_choice a = false -> rstep false s a = Some s' -> rank s' < rank s.
Proof.
  intros H Ht E. pose proof (inv_reach progs cs s H) as Hi. pose proof (inv_step s a s' Hi E) as (Hp' & _). destruct Hi as (Hp & _).
  unfold rstep in E. rewrite Hp in E. destruct a as [i | j | i j | i j | j | t]; try discriminate.
  - destruct (nth_error (r_callers s) i) as [[[|op rest] pc] |] eqn:Ei; try discriminate.
    assert (G : forall y, rank (put_caller s i y) + caller_rank (MkCaller (op :: rest) pc) = rank s + caller_rank y).
    { intros y. unfold rank. rsimp. pose proof (list_sum_upd caller_rank _ _ _ y Ei). lia. }
    assert (G2 : forall s1 y, r_callers s1 = r_callers s -> r_loops s1 = r_loops s -> rank (put_caller s1 i y) + caller_rank (MkCaller (op :: rest) pc) = rank s + caller_rank y).
    { intros s1 y E1 E2. rewrite <- G. unfold rank. rsimp. rewrite E1, E2. reflexivity. }
    unfold caller_rank in G2. cbn [c_todo c_pc length] in G2.
    destruct pc; cbn [pc_rank] in G2.
    + destruct (r_mu s); [discriminate |]. injection E as <-. specialize (G2 (set_mu s (Some (HCaller i))) (MkCaller (op :: rest) RLocked) eq_refl eq_refl). cbn [c_todo c_pc pc_rank length] in G2. lia.
    + destruct op as [iv | |].
      * injection E as <-. unfold start_body. destruct (negb (iv =? 0)%Z && (iv <? minimum_interval)%Z); [| destruct (r_quit s)].
        -- specialize (G2 (log s [RvStartErr iv ErrTooLow]) (MkCaller (RStart iv :: rest) RRet) eq_refl eq_refl). cbn [c_todo c_pc pc_rank length] in G2. lia.
        -- specialize (G2 (log s [RvStartErr iv ErrAlreadyStarted]) (MkCaller (RStart iv :: rest) RRet) eq_refl eq_refl). cbn [c_todo c_pc pc_rank length] in G2. lia.
        -- unfold rank. rsimp. pose proof (list_sum_upd caller_rank _ _ _ (MkCaller (RStart iv :: rest) RRet) Ei) as L. unfold caller_rank in L at 2 4. cbn [c_todo c_pc pc_rank length] in L.
           rewrite map_app, list_sum_app. cbn [map list_sum fold_right loop_rank]. unfold list_sum in *. cbn [fold_right]. lia.
      * destruct (r_quit s); injection E as <-.
        -- specialize (G2 s (MkCaller (RStop :: rest) (RSend n)) eq_refl eq_refl). cbn [c_todo c_pc pc_rank length] in G2. lia.
        -- specialize (G2 (log s [RvStopped]) (MkCaller (RStop :: rest) RRet) eq_refl eq_refl). cbn [c_todo c_pc pc_rank length] in G2. lia.
      * destruct (r_quit s); injection E as <-.
        -- specialize (G2 (log s [RvSkip]) (MkCaller (RFlush :: rest) RRet) eq_refl eq_refl). cbn [c_todo c_pc pc_rank length] in G2. lia.
        -- specialize (G2 (log s [RvBegin SrcFlush]) (MkCaller (RFlush :: rest) RExport) eq_refl eq_refl). cbn [c_todo c_pc pc_rank length] in G2. lia.
    + destruct (closed s q); [| discriminate]. injection E as <-. discriminate.
    + destruct (r_done s) as [d |]; [| discriminate]. injection E as <-. specialize (G2 s (MkCaller (op :: rest) (RRecv2 d)) eq_refl eq_refl). cbn [c_todo c_pc pc_rank length] in G2. lia.
    + destruct (closed s d); [| discriminate]. injection E as <-. specialize (G2 s (MkCaller (op :: rest) RClose1) eq_refl eq_refl). cbn [c_todo c_pc pc_rank length] in G2. lia.
    + injection E as <-. specialize (G2 (close_chan s (r_quit s)) (MkCaller (op :: rest) RClose2)). cbn [c_todo c_pc pc_rank length] in G2.
      assert (r_callers (close_chan s (r_quit s)) = r_callers s /\ r_loops (close_chan s (r_quit s)) = r_loops s) as [Q1 Q2] by (unfold close_chan; destruct (r_quit s); [destruct (closed s n) |]; auto).
      specialize (G2 Q1 Q2). lia.
    + injection E as <-. specialize (G2 (log (set_quit (close_chan s (r_done s)) None) [RvStopped]) (MkCaller (op :: rest) RRet)). cbn [c_todo c_pc pc_rank length] in G2.
      assert (r_callers (close_chan s (r_done s)) = r_callers s /\ r_loops (close_chan s (r_done s)) = r_loops s) as [Q1 Q2] by (unfold close_chan; destruct (r_done s); [destruct (closed s n) |]; auto).
      specialize (G2 Q1 Q2). lia.
    + injection E as <-. specialize (G2 (log s [RvEnd SrcFlush]) (MkCaller (op :: rest) RRet) eq_refl eq_refl). cbn [c_todo c_pc pc_rank length] in G2. lia.
    + injection E as <-. specialize (G2 (set_mu s None) (MkCaller rest RIdle) eq_refl eq_refl). cbn [c_todo c_pc pc_rank length] in G2. lia.
  - destruct (nth_error (r_loops s) j) as [l |] eqn:Ej; [| discriminate].
    assert (G2 : forall s1 y, r_callers s1 = r_callers s -> r_loops s1 = r_loops s -> rank (put_loop s1 j y) + loop_rank l = rank s + loop_rank y).
    { intros s1 y E1 E2. unfold rank. rsimp. rewrite E1, E2. pose proof (list_sum_upd loop_rank _ _ _ y Ej). lia. }
    destruct l as [|t [q |] | | | | d | | | q]; try discriminate; cbn [loop_rank] in G2.
    + injection E as <-. specialize (G2 s (LSelect (r_timer s) (r_quit s)) eq_refl eq_refl). cbn [loop_rank] in G2. lia.
    + destruct (closed s q); [| discriminate]. injection E as <-. specialize (G2 s LQuit eq_refl eq_refl). cbn [loop_rank] in G2. lia.
    + injection E as <-. specialize (G2 (log s [RvEnd SrcLoop]) LTop eq_refl eq_refl). cbn [loop_rank] in G2. lia.
    + destruct (r_timer s) as [t |]; injection E as <-; [| discriminate].
      specialize (G2 (set_tickers s (upd (r_tickers s) t (fun x => MkTicker false (t_pending x)))) LDone eq_refl eq_refl). cbn [loop_rank] in G2. lia.
    + destruct (r_done s) as [d |]; [| discriminate]. injection E as <-. specialize (G2 s (LSend d) eq_refl eq_refl). cbn [loop_rank] in G2. lia.
    + destruct (closed s d); [| discriminate]. injection E as <-. discriminate.
    + exfalso. destruct (inv_reach progs cs s H) as (_ & hp & _ & Hq). destruct (r_quit s).
      * destruct Hq as (d & t & pre & x & on & pend & []). rewrite ir_loops in Ej. destruct (loop_at _ _ _ _ ir_pre Ej) as [? | [_ <-]]; [discriminate |].
        destruct hp; cbn [pc_ok] in ir_pc; unfold active, ending in ir_pc; intuition discriminate.
      * destruct Hq as [Hl _ _ _]. rewrite Forall_forall in Hl. specialize (Hl _ (nth_error_In _ _ Ej)). discriminate.
    + destruct (closed s q); [| discriminate]. injection E as <-. discriminate.
  - destruct (nth_error (r_callers s) i) as [[todo pc] |] eqn:Ei; [| discriminate]. destruct pc; try discriminate.
    destruct (nth_error (r_loops s) j) as [l |] eqn:Ej; [| discriminate]. destruct l as [|t [q' |] | | | | | | |]; try discriminate.
    destruct ((q =? q') && negb (closed s q)); [| discriminate]. injection E as <-. unfold rank. rsimp.
    pose proof (list_sum_upd caller_rank _ _ _ (MkCaller todo RRecv) Ei) as L1. pose proof (list_sum_upd loop_rank _ _ _ LQuit Ej) as L2.
    unfold caller_rank in L1 at 2 4. cbn [c_todo c_pc pc_rank loop_rank] in *. lia.
  - destruct (nth_error (r_callers s) i) as [[todo pc] |] eqn:Ei; [| discriminate]. destruct pc; try discriminate.
    destruct (nth_error (r_loops s) j) as [l |] eqn:Ej; [| discriminate]. destruct l; try discriminate.
    destruct ((d =? d0) && negb (closed s d)); [| discriminate]. injection E as <-. unfold rank. rsimp.
    pose proof (list_sum_upd caller_rank _ _ _ (MkCaller todo RClose1) Ei) as L1. pose proof (list_sum_upd loop_rank _ _ _ LExit Ej) as L2.
    unfold caller_rank in L1 at 2 4. cbn [c_todo c_pc pc_rank loop_rank] in *. lia.
Qed.

(** An exporter that calls Stop on its own reader blocks for ever: the lock is never given
    back, whatever happens next, and the call of Stop of the other goroutine never
    returns. *)
Theorem C50_exporter_stop_refuted : exists cs s, rrun true (r_init [[RStart 0; RStop]]) cs = Some s /\
  forall cs' s', rrun true s cs' = Some s' ->
    r_mu s' = Some (HLoop 0) /\ r_loops s' = [LReSend 0] /\ r_callers s' = [MkCaller [RStop] RIdle].
Proof.
  exists [RDo 0; RDo 0; RDo 0; RLoop 0; RTickOf 0; RTake 0; RLoop 0; RLoop 0]. eexists. split; [vm_compute; reflexivity |].
  assert (G : forall cs' s s', r_mu s = Some (HLoop 0) /\ r_loops s = [LReSend 0] /\ r_callers s = [MkCaller [RStop] RIdle] /\ r_closed s = [false; false] /\ r_panic s = false ->
    rrun true s cs' = Some s' -> r_mu s' = Some (HLoop 0) /\ r_loops s' = [LReSend 0] /\ r_callers s' = [MkCaller [RStop] RIdle]).
  { induction cs' as [|c cs' IH]; intros s s' (H1 & H2 & H3 & H4 & H5) E; cbn [rrun] in E; [injection E as <-; auto |].
    destruct (rstep true s c) as [s1 |] eqn:E1; [| discriminate]. apply (IH s1 s'); [| exact E].
    unfold rstep in E1. rewrite H5, H1, H2, H3 in E1. destruct c as [i | j | i j | i j | j | t].
    - destruct i as [|[|i]]; discriminate.
    - destruct j as [|[|j]]; cbn [nth_error] in E1; try discriminate. unfold closed in E1. rewrite H4 in E1. discriminate.
    - destruct i as [|[|i]]; discriminate.
    - destruct i as [|[|i]]; discriminate.
    - destruct j as [|[|j]]; discriminate.
    - destruct (nth_error (r_tickers s) t) as [[[|] p] |]; try discriminate. injection E1 as <-. rsimp. auto. }
  intros cs' s' E. refine (G cs' _ s' _ E). split; [reflexivity |]. split; [reflexivity |]. split; [reflexivity |]. split; reflexivity.
Qed.

(** A run: Start, a second Start that fails, a tick and its export, Flush (skipped), Stop,
    Flush, Start again. *)
Example C50_example : exists s,
  rrun false (r_init [[RStart 0; RStart 5; RStart 0; RFlush; RStop; RFlush; RStart 2000000000]])
    [RDo 0; RDo 0; RDo 0; RDo 0; RDo 0; RDo 0; RDo 0; RDo 0; RDo 0; RLoop 0; RTickOf 0; RTake 0; RDo 0; RDo 0; RDo 0; RDo 0; RDo 0; RLoop 0; RLoop 0;
     RQuit 0 0; RLoop 0; RLoop 0; RDo 0; RDone 0 0; RDo 0; RDo 0; RDo 0; RDo 0; RDo 0; RDo 0; RDo 0; RDo 0; RDo 0; RDo 0] = Some s /\
  r_hist s = [RvStarted 0 60000000000; RvStartErr 5 ErrTooLow; RvStartErr 0 ErrAlreadyStarted; RvTick; RvBegin SrcLoop; RvSkip; RvEnd SrcLoop; RvStopped;
    RvBegin SrcFlush; RvEnd SrcFlush; RvStarted 2000000000 2000000000].
Proof. eexists. split; [vm_compute; reflexivity | reflexivity]. Qed.

(** ** C51 *)

(** Whether p was added, and not deleted since. *)
Fixpoint registered (ops : list mop) (p : nat) : bool :=
  match ops with
  | [] => false
  | MAdd (Some q) :: r => if q =? p then true else registered r p
  | MDelete (Some q) :: r => if q =? p then false else registered r p
  | _ :: r => registered r p
  end.

Lemma manager_spec ops : mwf (manager_run ops) /\ forall p, (exists u, mget Nat.eqb (manager_run ops) p = Some u) <-> registered (rev ops) p = true.
Proof.
  assert (E : manager_run ops = fold_right (fun op m => manager_step m op) [] (rev ops)).
  { unfold manager_run. rewrite <- fold_left_rev_right. reflexivity. }
  rewrite E. clear E. induction (rev ops) as [|op l [W IH]]; cbn [fold_right registered].
  - split; [constructor |]. intros p. split; [intros (u & E); discriminate | discriminate].
  - destruct op as [[q |] | [q |]]; cbn [manager_step]; try (split; [exact W | exact IH]).
    + split; [apply (mwf_mset Nat.eqb Nat.eqb_spec); exact W |]. intros p. rewrite (mget_mset Nat.eqb Nat.eqb_spec). destruct (q =? p); [| apply IH]. split; [reflexivity | eauto].
    + split; [apply (mwf_mdel Nat.eqb); exact W |]. intros p. rewrite (mget_mdel Nat.eqb Nat.eqb_spec). destruct (q =? p); [| apply IH]. split; [intros (u & E); discriminate | discriminate].
Qed.

(** GetAll returns every producer that was added and not deleted since, exactly once, and
    nothing else; whatever the history of calls. *)
Theorem C51_get_all (ops : list mop) (o : order) :
  NoDup (get_all o (manager_run ops)) /\
  forall p, In p (get_all o (manager_run ops)) <-> registered (rev ops) p = true.
Proof.
  destruct (manager_spec ops) as [W S]. unfold get_all. split.
  - apply (Permutation_NoDup (l := map fst (manager_run ops))); [| exact W]. apply Permutation_map, Permutation_sym, (ord_perm o).
  - intros p. rewrite <- S. rewrite (Permutation_in' (eq_refl p) (Permutation_map fst (ord_perm o _ (manager_run ops)))). split.
    + intros H. destruct (mget Nat.eqb (manager_run ops) p) as [u |] eqn:E; [eauto |]. apply (mget_None Nat.eqb Nat.eqb_spec) in E. contradiction.
    + intros (u & E). exact (mget_Some_key Nat.eqb Nat.eqb_spec _ _ _ E).
Qed.

Example C51_example : get_all id_order (manager_run [MAdd (Some 1); MAdd (Some 2); MAdd None; MAdd (Some 1); MDelete (Some 2); MAdd (Some 3); MDelete (Some 7)]) = [1; 3] /\
  registered (rev [MAdd (Some 1); MAdd (Some 2); MAdd None; MAdd (Some 1); MDelete (Some 2); MAdd (Some 3); MDelete (Some 7)]) 2 = false.
Proof. split; reflexivity. Qed.

(** ** C52 *)

Lemma read_loop_spec {M} (read : nat -> list M) ps : forall data, read_loop read ps data = (map XRead ps, data ++ flat_map read ps).
Proof.
  induction ps as [|p ps IH]; intros data; cbn [read_loop map flat_map]; [rewrite app_nil_r; reflexivity |]. rewrite IH, <- app_assoc. reflexivity.
Qed.

Definition reads {M} (cs : list (rx_call M)) : list nat := flat_map (fun c => match c with XRead p => [p] | _ => [] end) cs.
Definition exports {M} (cs : list (rx_call M)) : list (list M) := flat_map (fun c => match c with XExport d => [d] | _ => [] end) cs.

Lemma reads_app {M} (a b : list (rx_call M)) : reads (a ++ b) = reads a ++ reads b.
Proof. apply flat_map_app. Qed.
Lemma exports_app {M} (a b : list (rx_call M)) : exports (a ++ b) = exports a ++ exports b.
Proof. apply flat_map_app. Qed.

Lemma reads_map {M} ps : reads (map (@XRead M) ps) = ps /\ exports (map (@XRead M) ps) = [].
Proof. induction ps as [|p ps [I1 I2]]; [split; reflexivity |]. split; [change (p :: reads (map (@XRead M) ps) = p :: ps); rewrite I1; reflexivity | exact I2]. Qed.

(** ReadAndExport reads every producer registered at that time once, and gives the
    exporter once the metrics of all of them: those of one producer together and in its
    order.  It does so inside a span of the reader's name. *)
Theorem C52_read_and_export {M} (name : bytes) (ops : list mop) (o : order) (read : nat -> list M) :
  let ps := get_all o (manager_run ops) in
  let cs := read_and_export name ps read in
  (forall p, count_occ Nat.eq_dec (reads cs) p = if registered (rev ops) p then 1 else 0) /\
  exports cs = [flat_map read (reads cs)] /\
  (exists mid, cs = XStartSpan name :: mid ++ [XEndSpan] /\ ~ In XEndSpan mid /\ forall n, ~ In (XStartSpan n) mid).
Proof.
  cbv zeta. destruct (C51_get_all ops o) as [Hnd Hin]. set (ps := get_all o (manager_run ops)) in *.
  unfold read_and_export. rewrite read_loop_spec. cbn [app]. destruct (@reads_map M ps) as [R1 R2].
  assert (Er : reads (XStartSpan name :: map (@XRead M) ps ++ [XExport (flat_map read ps); XEndSpan]) = ps).
  { change (reads (map (@XRead M) ps ++ [XExport (flat_map read ps); XEndSpan]) = ps). rewrite reads_app, R1. apply app_nil_r. }
  rewrite Er. split; [| split].
  - intros p. destruct (registered (rev ops) p) eqn:Ep.
    + apply Hin in Ep. apply NoDup_count_occ'; assumption.
    + apply count_occ_not_In. intros H. apply Hin in H. congruence.
  - change (exports (map (@XRead M) ps ++ [XExport (flat_map read ps); XEndSpan]) = [flat_map read ps]). rewrite exports_app, R2. reflexivity.
  - exists (map XRead ps ++ [XExport (flat_map read ps)]). split; [rewrite <- app_assoc; reflexivity |].
    split; [| intros n]; rewrite in_app_iff, in_map_iff; intros [(x & E & _) | [E | []]]; discriminate.
Qed.

(** The span's name is that of the last WithSpanName option, ExportMetrics if there is none
    or it is empty. *)
Theorem C52_span_name (opts : list bytes) (n : bytes) :
  reader_span_name [] = bs "ExportMetrics" /\
  reader_span_name (opts ++ [n]) = if bytes_eqb n [] then bs "ExportMetrics" else n.
Proof. split; [reflexivity |]. unfold reader_span_name. rewrite fold_left_app. cbn [fold_left]. destruct n; reflexivity. Qed.

Example C52_example : read_and_export (bs "x") (get_all id_order (manager_run [MAdd (Some 1); MAdd (Some 2)])) (fun p => [p; p + 10]) =
  [XStartSpan (bs "x"); XRead 1; XRead 2; XExport [1; 11; 2; 12]; XEndSpan].
Proof. reflexivity. Qed.

Print Assumptions C50_history.
Print Assumptions C50_stop.
Print Assumptions C50_no_deadlock.
Print Assumptions C50_calls_end.
Print Assumptions C50_exporter_stop_refuted.
Print Assumptions C51_get_all.
Print Assumptions C52_read_and_export.
