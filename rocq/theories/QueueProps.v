(** C15: a Meter used from any number of goroutines at once.

    [qreach cap u progs s]: [s] is reachable when goroutine number [g] runs the
    program [nth g progs], the meter's queue holds [cap] commands, and the scheduler
    is arbitrary. *)

From Coq Require Import String.
From Coq Require Import List Arith ZArith Bool Lia.
From Verif Require Import Base ListLib GoMap Float64 TagModel AggModel AggProofs ViewModel WorkerModel WorkerSpec
     WorkerProofs WorkerProps QueueModel QueueSpec QueueProofs.
Import ListNotations.
Open Scope nat_scope.

Section Props.
  Variable (u : uworld) (cap : nat) (progs : list (list gop)).
  Hypothesis U : u_ok u.
  Hypothesis P : Forall (prog_ok u) progs.

  (** Nothing is lost, duplicated or reordered: at every moment of every schedule,
      the queued calls of a goroutine are, in program order, those that took effect,
      those waiting in the queue, those not yet made. *)
  Theorem C15_exactly_once_in_order s g p x :
    qreach cap u progs s -> nth_error progs g = Some p -> nth_error (q_gs s) g = Some x ->
    queued p = by_caller g (log_queued (q_log s)) ++ by_caller g (q_chan s) ++ queued (g_todo x).
  Proof. intros H. apply (qi_order u cap progs s (QI_reach u cap progs U s P H)). Qed.

  Lemma step_fifo s ch s' : qreach cap u progs s -> qdo cap s ch = Some s' ->
    exists l, log_queued (q_log s') ++ q_chan s' = (log_queued (q_log s) ++ q_chan s) ++ l.
  Proof.
    intros H E. assert (I := QI_reach u cap progs U s P H).
    unfold qdo in E. destruct (q_panic s); [discriminate|].
    destruct ch as [g|o| |o now|o g|g|g| |g].
    - destruct (nth_error (q_gs s) g) as [[[|[c|c| | |] rest] wt got]|]; try discriminate.
      destruct wt; [discriminate|].
      destruct (q_phase s).
      1,2: destruct (length (q_chan s) <? cap); [|discriminate]; injection E as <-; exists [(g, c)]; apply app_assoc.
      injection E as <-. exists []. now rewrite app_nil_r.
    - destruct (q_phase s); try discriminate. destruct (q_chan s) as [|[g c] rest] eqn:Ech; [discriminate|].
      pose proof (qi_chan _ _ _ s I) as Hc. rewrite Ech in Hc. inversion Hc as [|? ? [Hc1 _] _]; subst.
      destruct (handled u cap progs U s o c I Hc1) as (r & evs & w' & Eh & _). rewrite Eh in E.
      injection E as <-. exists []. cbn [q_log q_chan]. rewrite log_queued_app, app_nil_r, <- app_assoc. reflexivity.
    - destruct (q_phase s); try discriminate.
      destruct (nth_error (q_gs s) g) as [[todo wt got]|]; [|discriminate]. destruct wt; [|discriminate].
      injection E as <-. exists []. now rewrite app_nil_r.
    - destruct (q_phase s); try discriminate. destruct (handle o (q_w s) (CmdTick now)) as [[[r evs] w']|];
        injection E as <-; exists []; cbn [q_log q_chan]; rewrite ?log_queued_app, app_nil_r; cbn; rewrite ?app_nil_r; reflexivity.
    - destruct (nth_error (q_gs s) g) as [[[|[c|c| | |] rest] wt got]|]; try discriminate.
      destruct wt; [discriminate|]. destruct (handle o (q_w s) c) as [[[r evs] w']|];
        injection E as <-; exists []; cbn [q_log q_chan]; rewrite ?log_queued_app, app_nil_r; cbn; rewrite ?app_nil_r; reflexivity.
    - destruct (nth_error (q_gs s) g) as [[[|[c|c| | |] rest] wt got]|]; try discriminate.
      destruct wt; [discriminate|]. injection E as <-. exists []. now rewrite app_nil_r.
    - destruct (nth_error (q_gs s) g) as [[[|[c|c| | |] rest] wt got]|]; try discriminate.
      destruct wt; [discriminate|]. destruct (q_quit s); injection E as <-; exists []; now rewrite app_nil_r.
    - destruct (q_phase s); try discriminate. destruct (q_quit s); [|discriminate].
      injection E as <-; exists []; now rewrite app_nil_r.
    - destruct (nth_error (q_gs s) g) as [[[|[c|c| | |] rest] wt got]|]; try discriminate.
      destruct wt; [discriminate|]. destruct (q_phase s); try discriminate.
      injection E as <-; exists []; now rewrite app_nil_r.
  Qed.

  (** Calls by different goroutines take effect in the order in which they were put
      in the queue: whatever was sent by the time of [s] takes effect before
      whatever is sent later. *)
  Theorem C15_fifo s chs s' :
    qreach cap u progs s -> qsteps cap s chs s' ->
    exists later, log_queued (q_log s') ++ q_chan s' = (log_queued (q_log s) ++ q_chan s) ++ later.
  Proof.
    intros R H. induction H as [s|s ch s' chs s'' E _ IH]; [exists []; now rewrite app_nil_r|].
    destruct (step_fifo _ _ _ R E) as [l1 X1]. destruct IH as [l2 X2]; [eapply qreach_step; eassumption|].
    exists (l1 ++ l2). now rewrite X2, X1, app_assoc.
  Qed.

  (** Each call behaves as if it ran alone, at one point of one sequential history of
      all calls; that history contains, before it, all earlier calls of the same
      goroutine.  So a RetrieveData sees every Record the goroutine made before it.
      [answer u h c r evs] is the sequential specification of C14. *)
  Theorem C15_linearizable s l1 g c r evs l2 p :
    qreach cap u progs s -> nth_error progs g = Some p ->
    q_log s = l1 ++ (SrcQ g, c, r, evs) :: l2 ->
    answer u (log_cmds l1) c r evs /\
    exists rest, queued p = by_caller g (log_queued l1) ++ c :: rest.
  Proof.
    intros H Hp E. assert (I := QI_reach u cap progs U s P H). split; [eapply (qi_ans _ _ _ s I); exact E|].
    assert (Hl : g < length (q_gs s)).
    { rewrite (qi_len _ _ _ s I). apply nth_error_Some. congruence. }
    destruct (nth_error (q_gs s) g) as [x|] eqn:Ex; [|apply nth_error_None in Ex; lia].
    rewrite (qi_order _ _ _ s I _ _ _ Hp Ex), E, log_queued_app.
    change (log_queued ((SrcQ g, c, r, evs) :: l2)) with ((g, c) :: log_queued l2).
    rewrite by_caller_app. cbn. rewrite Nat.eqb_refl. rewrite <- app_assoc. cbn. eauto.
  Qed.

  (** The replies a goroutine has received are what its waiting calls returned, in
      order, up to one the worker is about to hand over. *)
  Theorem C15_replies s g x :
    qreach cap u progs s -> nth_error (q_gs s) g = Some x ->
    g_got x ++ replying g (q_phase s) = returned g (q_log s).
  Proof. intros H. apply (qi_got u cap progs s (QI_reach u cap progs U s P H)). Qed.

  (** The queue never holds more than its capacity. *)
  Theorem C15_bounded_queue s : qreach cap u progs s -> length (q_chan s) <= cap.
  Proof. intros H. apply (qi_cap u cap progs s (QI_reach u cap progs U s P H)). Qed.

  (** *** Without Stop: no deadlock, bounded work, no panic *)
  Hypothesis NS : Forall no_stop progs.

  Definition NSI (s : qst) : Prop :=
    (forall g x, nth_error (q_gs s) g = Some x -> no_stop (g_todo x)) /\
    q_quit s = false /\ q_panic s = false /\ q_phase s <> WStopped.

  Lemma NSI_reach s : qreach cap u progs s -> NSI s.
  Proof.
    intros H. induction H as [|s ch s' H IH E].
    - split; [|repeat split; discriminate]. intros g x Hx. cbn in Hx. rewrite nth_error_map in Hx.
      destruct (nth_error progs g) eqn:Eg; [|discriminate]. injection Hx as <-. cbn.
      rewrite Forall_forall in NS. apply NS. eapply nth_error_In; exact Eg.
    - assert (I := QI_reach u cap progs U s P H). destruct IH as (Ht & Hq & Hp & Hph).
      unfold qdo in E. rewrite Hp in E.
      destruct ch as [g|o| |o now|o g|g|g| |g].
      + destruct (nth_error (q_gs s) g) as [[todo wt got]|] eqn:Eg; [|discriminate].
        destruct todo as [|[c|c| | |] rest]; try discriminate. destruct wt; [discriminate|].
        assert (X : s' = MkQ (with_g s g (MkG rest (is_sync c) got)) (q_chan s ++ [(g, c)])
                           (q_phase s) (q_w s) (q_log s) (q_quit s) false).
        { destruct (q_phase s); [| |congruence]; destruct (_ <? _); congruence. }
        subst s'. split; [|auto]. intros g' x Hx. apply nth_upd in Hx. destruct Hx as [(-> & -> & _)|(_ & Hx)]; [|eauto].
        specialize (Ht _ _ Eg). inversion Ht; assumption.
      + destruct (q_phase s); try discriminate. destruct (q_chan s) as [|[g c] rest] eqn:Ech; [discriminate|].
        pose proof (qi_chan _ _ _ s I) as Hc. rewrite Ech in Hc. inversion Hc as [|? ? [Hc1 _] _]; subst.
        destruct (handled u cap progs U s o c I Hc1) as (r & evs & w' & Eh & _). rewrite Eh in E.
        injection E as <-. split; [exact Ht|]. split; [exact Hq|]. split; [reflexivity|]. cbn. destruct (is_sync c); discriminate.
      + destruct (q_phase s); try discriminate.
        destruct (nth_error (q_gs s) g) as [[todo wt got]|] eqn:Eg; [|discriminate]. destruct wt; [|discriminate].
        injection E as <-. split; [|repeat split; auto; discriminate].
        intros g' x Hx. apply nth_upd in Hx. destruct Hx as [(-> & -> & _)|(_ & Hx)]; [|eauto]. apply (Ht _ _ Eg).
      + destruct (q_phase s); try discriminate.
        destruct (handled u cap progs U s o (CmdTick now) I Logic.I) as (r & evs & w' & Eh & _). rewrite Eh in E.
        injection E as <-. split; [exact Ht|]. repeat split; auto; discriminate.
      + destruct (nth_error (q_gs s) g) as [[todo wt got]|] eqn:Eg; [|discriminate].
        destruct todo as [|[c|c| | |] rest]; try discriminate. destruct wt; [discriminate|].
        pose proof (qi_todo _ _ _ s I _ _ Eg) as Hc. inversion Hc as [|? ? Hc1 Hc2]; subst.
        destruct (handled u cap progs U s o c I Hc1) as (r & evs & w' & Eh & _). rewrite Eh in E.
        injection E as <-. split; [|auto]. intros g' x Hx. apply nth_upd in Hx. destruct Hx as [(-> & -> & _)|(_ & Hx)]; [|eauto].
        specialize (Ht _ _ Eg). inversion Ht; assumption.
      + destruct (nth_error (q_gs s) g) as [[todo wt got]|] eqn:Eg; [|discriminate].
        destruct todo as [|[c|c| | |] rest]; try discriminate. exfalso. specialize (Ht _ _ Eg). inversion Ht; contradiction.
      + destruct (nth_error (q_gs s) g) as [[todo wt got]|] eqn:Eg; [|discriminate].
        destruct todo as [|[c|c| | |] rest]; try discriminate. exfalso. specialize (Ht _ _ Eg). inversion Ht; contradiction.
      + rewrite Hq in E. destruct (q_phase s); discriminate.
      + destruct (nth_error (q_gs s) g) as [[todo wt got]|] eqn:Eg; [|discriminate].
        destruct todo as [|[c|c| | |] rest]; try discriminate. exfalso. specialize (Ht _ _ Eg). inversion Ht; contradiction.
  Qed.

  (** No call panics. *)
  Theorem C15_no_panic s : qreach cap u progs s -> q_panic s = false.
  Proof. intros H. apply (NSI_reach s H). Qed.

  (** No deadlock: as long as a call has not been made, has not returned or waits in
      the queue, some goroutine or the worker can move (not counting the timer). *)
  Theorem C15_no_deadlock s :
    1 <= cap -> qreach cap u progs s ->
    ~ (all_returned s /\ q_chan s = [] /\ q_phase s = WIdle) ->
    exists ch s', is_tick ch = false /\ qdo cap s ch = Some s'.
  Proof.
    intros Hcap H Hn. assert (I := QI_reach u cap progs U s P H). destruct (NSI_reach s H) as (Ht & Hq & Hp & Hph).
    destruct (q_phase s) as [|g r|] eqn:Eph; [| |congruence].
    - destruct (q_chan s) as [|[g c] rest] eqn:Ech.
      + (* some goroutine has a call left *)
        assert (W : forall g x, nth_error (q_gs s) g = Some x -> g_wait x = false).
        { intros g x Hx. pose proof (qi_wait _ _ _ s I _ _ Hx) as X. rewrite Ech, Eph in X. cbn in X.
          destruct (g_wait x); [discriminate|reflexivity]. }
        assert (D : (exists g x, nth_error (q_gs s) g = Some x /\ g_todo x <> []) \/
                    forall g x, nth_error (q_gs s) g = Some x -> g_todo x = []).
        { destruct (existsb (fun x => match g_todo x with [] => false | _ => true end) (q_gs s)) eqn:E.
          - left. apply existsb_exists in E. destruct E as (x & Hin & Hx). apply In_nth_error in Hin.
            destruct Hin as [g Hg]. exists g, x. split; [exact Hg|]. destruct (g_todo x); congruence.
          - right. intros g x Hx. destruct (g_todo x) eqn:Et; [reflexivity|]. exfalso.
            assert (Y : existsb (fun x => match g_todo x with [] => false | _ => true end) (q_gs s) = true).
            { apply existsb_exists. exists x. split; [eapply nth_error_In; exact Hx|]. now rewrite Et. }
            congruence. }
        destruct D as [(g & [todo wt got] & Eg & Hne)|D].
        * pose proof (W _ _ Eg) as Hw. cbn in Hw, Hne. subst wt. pose proof (Ht _ _ Eg) as Hns. cbn in Hns.
          destruct todo as [|op rest]; [congruence|]. inversion Hns as [|? ? Hop _]; subst.
          destruct op as [c|c| | |]; try contradiction.
          -- exists (ChSend g). unfold qdo. rewrite Hp, Eg, Eph, Ech. destruct (length [] <? cap) eqn:El.
             ++ eexists. split; reflexivity.
             ++ apply Nat.ltb_ge in El. cbn in El. lia.
          -- pose proof (qi_todo _ _ _ s I _ _ Eg) as Hc. inversion Hc as [|? ? Hc1 Hc2]; subst.
             destruct (handled u cap progs U s id_order c I Hc1) as (r & evs & w' & Eh & _).
             exists (ChDirect id_order g). unfold qdo. rewrite Hp, Eg, Eh. eexists. split; reflexivity.
        * exfalso. apply Hn. split; [|auto]. intros g x Hx. split; [eapply D; exact Hx|eapply W; exact Hx].
      + pose proof (qi_chan _ _ _ s I) as Hc. rewrite Ech in Hc. inversion Hc as [|? ? [Hc1 _] _]; subst.
        destruct (handled u cap progs U s id_order c I Hc1) as (r & evs & w' & Eh & _).
        exists (ChHandle id_order). unfold qdo. rewrite Hp, Eph, Ech, Eh. eexists. split; reflexivity.
    - pose proof (qi_phase _ _ _ s I _ _ Eph) as Hg. rewrite <- (qi_len _ _ _ s I) in Hg.
      destruct (nth_error (q_gs s) g) as [[todo wt got]|] eqn:Eg; [|apply nth_error_None in Eg; lia].
      pose proof (qi_wait _ _ _ s I _ _ Eg) as X. rewrite Eph in X. cbn in X. rewrite Nat.eqb_refl in X. cbn in X.
      destruct wt; [|lia]. exists ChReply. unfold qdo. rewrite Hp, Eph, Eg. eexists. split; reflexivity.
  Qed.

  Definition todo_sum (l : list gst) : nat := list_sum (map (fun x => length (g_todo x)) l).

  Definition work (s : qst) : nat :=
    3 * todo_sum (q_gs s) + 2 * length (q_chan s) + match q_phase s with WReply _ _ => 1 | _ => 0 end.

  Lemma todo_sum_upd l g x y : nth_error l g = Some x ->
    todo_sum (upd l g (fun _ => y)) + length (g_todo x) = todo_sum l + length (g_todo y).
  Proof.
    unfold todo_sum. revert g. induction l as [|z l IH]; intros [|g] E; try discriminate.
    - injection E as ->. cbn. lia.
    - cbn in *. specialize (IH g E). unfold list_sum in *. lia.
  Qed.

  Lemma work_step s ch s' : qreach cap u progs s -> qdo cap s ch = Some s' ->
    (if is_tick ch then 0 else 1) + work s' <= work s.
  Proof.
    intros H E. assert (I := QI_reach u cap progs U s P H). destruct (NSI_reach s H) as (Ht & Hq & Hp & Hph).
    unfold qdo in E. rewrite Hp in E. unfold work.
    destruct ch as [g|o| |o now|o g|g|g| |g]; cbn [is_tick].
    - destruct (nth_error (q_gs s) g) as [[todo wt got]|] eqn:Eg; [|discriminate].
      destruct todo as [|[c|c| | |] rest]; try discriminate. destruct wt; [discriminate|].
      assert (X : s' = MkQ (with_g s g (MkG rest (is_sync c) got)) (q_chan s ++ [(g, c)])
                           (q_phase s) (q_w s) (q_log s) (q_quit s) false).
      { destruct (q_phase s); [| |congruence]; destruct (_ <? _); congruence. }
      subst s'. cbn [q_gs q_chan q_phase]. unfold with_g. rewrite app_length. cbn [length].
      pose proof (todo_sum_upd _ _ _ (MkG rest (is_sync c) got) Eg) as X. cbn in X. lia.
    - destruct (q_phase s); try discriminate. destruct (q_chan s) as [|[g c] rest] eqn:Ech; [discriminate|].
      destruct (handle o (q_w s) c) as [[[r evs] w']|]; injection E as <-; cbn [q_gs q_chan q_phase length].
      + destruct (is_sync c); lia.
      + lia.
    - destruct (q_phase s); try discriminate.
      destruct (nth_error (q_gs s) g) as [[todo wt got]|] eqn:Eg; [|discriminate]. destruct wt; [|discriminate].
      injection E as <-. cbn [q_gs q_chan q_phase]. unfold with_g.
      pose proof (todo_sum_upd _ _ _ (MkG todo false (got ++ [r])) Eg) as X. cbn in X. lia.
    - destruct (q_phase s); try discriminate.
      destruct (handle o (q_w s) (CmdTick now)) as [[[r evs] w']|]; injection E as <-; cbn [q_gs q_chan q_phase]; lia.
    - destruct (nth_error (q_gs s) g) as [[todo wt got]|] eqn:Eg; [|discriminate].
      destruct todo as [|[c|c| | |] rest]; try discriminate. destruct wt; [discriminate|].
      pose proof (qi_todo _ _ _ s I _ _ Eg) as Hc. inversion Hc as [|? ? Hc1 Hc2]; subst.
      destruct (handled u cap progs U s o c I Hc1) as (r & evs & w' & Eh & _). rewrite Eh in E.
      injection E as <-. cbn [q_gs q_chan q_phase]. unfold with_g.
      pose proof (todo_sum_upd _ _ _ (MkG rest false got) Eg) as X. cbn in X. lia.
    - destruct (nth_error (q_gs s) g) as [[todo wt got]|] eqn:Eg; [|discriminate].
      destruct todo as [|[c|c| | |] rest]; try discriminate. exfalso. specialize (Ht _ _ Eg). inversion Ht; contradiction.
    - destruct (nth_error (q_gs s) g) as [[todo wt got]|] eqn:Eg; [|discriminate].
      destruct todo as [|[c|c| | |] rest]; try discriminate. exfalso. specialize (Ht _ _ Eg). inversion Ht; contradiction.
    - rewrite Hq in E. destruct (q_phase s); discriminate.
    - destruct (nth_error (q_gs s) g) as [[todo wt got]|] eqn:Eg; [|discriminate].
      destruct todo as [|[c|c| | |] rest]; try discriminate. exfalso. specialize (Ht _ _ Eg). inversion Ht; contradiction.
  Qed.

  (** Every schedule ends: apart from timer ticks, an execution takes at most three
      steps per call.  With [C15_no_deadlock], every schedule that lets somebody
      move reaches the state of [C15_finished]. *)
  Theorem C15_terminates chs s :
    qsteps cap (qinit u progs) chs s ->
    length (filter (fun ch => negb (is_tick ch)) chs) <= 3 * list_sum (map (@length gop) progs).
  Proof.
    intros H.
    assert (X : forall s0 chs s, qreach cap u progs s0 -> qsteps cap s0 chs s ->
              length (filter (fun ch => negb (is_tick ch)) chs) + work s <= work s0).
    { clear H s chs. intros s0 chs s R H. induction H as [s|s ch s' chs s'' E _ IH]; [cbn; lia|].
      specialize (IH (qreach_step _ _ _ _ _ _ R E)). pose proof (work_step _ _ _ R E). cbn [filter].
      destruct (is_tick ch); cbn [negb length]; lia. }
    specialize (X _ _ _ (qreach_init _ _ _) H).
    assert (Y : work (qinit u progs) = 3 * list_sum (map (@length gop) progs)).
    { unfold work, qinit, todo_sum. cbn [q_gs q_chan q_phase length]. rewrite map_map. cbn [g_todo].
      rewrite (map_ext _ (@length gop)) by reflexivity. lia. }
    lia.
  Qed.

  (** When nothing can move any more, every call of every goroutine took effect
      exactly once, in program order, and every waiting call returned. *)
  Theorem C15_finished s g p x :
    1 <= cap -> qreach cap u progs s ->
    (forall ch s', is_tick ch = false -> qdo cap s ch <> Some s') ->
    nth_error progs g = Some p -> nth_error (q_gs s) g = Some x ->
    by_caller g (log_queued (q_log s)) = queued p /\ g_wait x = false /\ g_got x = returned g (q_log s).
  Proof.
    intros Hcap H Hstuck Hp Hx.
    assert (D : all_returned s /\ q_chan s = [] /\ q_phase s = WIdle).
    { destruct (q_chan s) eqn:Ec; [destruct (q_phase s) eqn:Ep|].
      2,3,4: exfalso; destruct (C15_no_deadlock s Hcap H) as (ch & s' & E1 & E2);
        [intros (_ & X & Y); congruence|exact (Hstuck _ _ E1 E2)].
      split; [|auto]. intros g' x' Hx'.
      destruct (g_todo x') eqn:Et; [destruct (g_wait x') eqn:Ew; [|auto]|];
        exfalso; destruct (C15_no_deadlock s Hcap H) as (ch & s' & E1 & E2);
        try exact (Hstuck _ _ E1 E2); intros (X & _); destruct (X _ _ Hx'); congruence. }
    destruct D as (A & Ec & Ep). destruct (A _ _ Hx) as [Et Ew].
    pose proof (C15_exactly_once_in_order _ _ _ _ H Hp Hx) as O. rewrite Ec, Et in O. cbn in O. rewrite app_nil_r in O.
    pose proof (C15_replies _ _ _ H Hx) as R. rewrite Ep in R. cbn in R. rewrite app_nil_r in R. auto.
  Qed.
End Props.

(** *** A concrete schedule *)

Lemma qrun_reach cap u progs s chs s' :
  qreach cap u progs s -> qrun cap s chs = Some s' -> qreach cap u progs s'.
Proof.
  revert s. induction chs as [|ch chs IH]; intros s R E; cbn in E; [injection E as <-; exact R|].
  destruct (qdo cap s ch) eqn:Ed; [|discriminate]. eapply IH; [eapply qreach_step; eassumption|exact E].
Qed.

(** Two goroutines and a queue of one command: the first registers a view, records
    and retrieves; the second records too, and reads directly. *)
Definition ex_progs : list (list gop) :=
  [ [GCmd (CmdRegister [4] 100%Z);
     GCmd (CmdRecord (tmx (bs "a")) [Some (m_cnt, f_of_Z 1)] [] 110%Z);
     GCmd (CmdRetrieve (bs "requests"))];
    [GCmd (CmdRecord (tmx (bs "b")) [Some (m_cnt, f_of_Z 1)] [] 120%Z);
     GDirect (CmdRead 130%Z)] ].

Definition ex_sched : list choice :=
  [ChSend 0; ChHandle id_order; ChReply; ChSend 1; ChDirect id_order 1; ChHandle id_order; ChTick id_order 140%Z;
   ChSend 0; ChHandle id_order; ChSend 0; ChHandle id_order; ChReply].

Example C15_example :
  u_ok ex_u /\ Forall (prog_ok ex_u) ex_progs /\ Forall no_stop ex_progs /\
  exists s, qreach 1 ex_u ex_progs s /\ all_returned s /\ q_chan s = [] /\
    map (fun r => match r with RRows (Some rows) => length rows | _ => 0 end)
        (flat_map g_got (q_gs s)) = [0; 2] /\
    length (q_log s) = 6.
Proof.
  split; [apply ex_u_ok|].
  split.
  { unfold ex_progs, prog_ok.
    repeat (apply Forall_cons; [repeat (apply Forall_cons;
      [first [apply tmx_short; cbn; lia | exact I | cbn; repeat constructor; lia]|]); apply Forall_nil|]).
    apply Forall_nil. }
  split; [repeat (apply Forall_cons; [repeat (apply Forall_cons; [exact I|]); apply Forall_nil|]); apply Forall_nil|].
  destruct (qrun 1 (qinit ex_u ex_progs) ex_sched) as [s|] eqn:E; [|vm_compute in E; discriminate].
  assert (R : qreach 1 ex_u ex_progs s) by (eapply qrun_reach; [constructor|exact E]).
  exists s. split; [exact R|].
  assert (X : match qrun 1 (qinit ex_u ex_progs) ex_sched with
              | Some s => (map (fun x => (length (g_todo x), g_wait x)) (q_gs s), length (q_chan s),
                           map (fun r => match r with RRows (Some rows) => length rows | _ => 0 end)
                               (flat_map g_got (q_gs s)), length (q_log s))
              | None => ([], 9, [], 0) end = ([(0, false); (0, false)], 0, [0; 2], 6)) by (vm_compute; reflexivity).
  rewrite E in X. apply pair_equal_spec in X. destruct X as [X X4]. apply pair_equal_spec in X. destruct X as [X X3].
  apply pair_equal_spec in X. destruct X as [X1 X2].
  split; [|split; [|split; [exact X3|exact X4]]].
  - intros g x Hx. assert (Y : nth_error (map (fun x => (length (g_todo x), g_wait x)) (q_gs s)) g
                               = Some (length (g_todo x), g_wait x)) by (rewrite nth_error_map, Hx; reflexivity).
    rewrite X1 in Y. destruct g as [|[|g]]; cbn in Y; [| |destruct g; discriminate Y];
      injection Y as Y1 Y2; split; [destruct (g_todo x); [reflexivity|discriminate Y1]|congruence
                                  |destruct (g_todo x); [reflexivity|discriminate Y1]|congruence].
  - destruct (q_chan s); [reflexivity|discriminate X2].
Qed.

(** *** Stop

    "Every call returns" and "every accepted Record takes effect" are false once a
    goroutine may call Stop, and so is "no call panics". *)

(** A call made before Stop never returns, and a Record accepted before Stop never
    takes effect: nothing can move any more. *)
Theorem C15_stop_loses_calls_refuted :
  exists progs s x,
    Forall (prog_ok ex_u) progs /\ qreach 1024 ex_u progs s /\
    nth_error (q_gs s) 0 = Some x /\ g_wait x = true /\
    q_chan s = [(0, CmdRecord None [Some (m_cnt, f_of_Z 1)] [] 110%Z); (0, CmdFind (bs "v"))] /\
    q_log s = [] /\ q_panic s = false /\
    forall ch, qdo 1024 s ch = None.
Proof.
  pose (pr := [[GCmd (CmdRecord None [Some (m_cnt, f_of_Z 1)] [] 110%Z); GCmd (CmdFind (bs "v"))]; [GStop]]).
  exists pr.
  exists (MkQ [MkG [] true []; MkG [] false []]
              [(0, CmdRecord None [Some (m_cnt, f_of_Z 1)] [] 110%Z); (0, CmdFind (bs "v"))]
              WStopped (new_meter ex_u) [] true false).
  exists (MkG [] true []).
  split.
  { repeat (apply Forall_cons; [repeat (apply Forall_cons; [first [exact I | intros k; cbn; lia]|]); apply Forall_nil|]); apply Forall_nil. }
  split.
  { eapply (qrun_reach 1024 ex_u pr _ [ChSend 0; ChSend 0; ChStop 1; ChClose 1; ChQuit; ChStopped 1]); [constructor|reflexivity]. }
  split; [reflexivity|]. split; [reflexivity|]. split; [reflexivity|]. split; [reflexivity|]. split; [reflexivity|].
  intros [g|o| |o now|o g|g|g| |g]; try reflexivity;
    unfold qdo; cbn [q_panic q_gs]; destruct g as [|[|g]]; cbn [nth_error]; try reflexivity; destruct g; reflexivity.
Qed.

(** Record panics after Stop. *)
Theorem C15_record_after_stop_refuted :
  exists progs s, Forall (prog_ok ex_u) progs /\ qreach 1024 ex_u progs s /\ q_panic s = true.
Proof.
  pose (pr := [[GStop; GCmd (CmdRecord None [Some (m_cnt, f_of_Z 1)] [] 110%Z)]]).
  exists pr. eexists. split.
  { repeat (apply Forall_cons; [repeat (apply Forall_cons; [first [exact I | intros k; cbn; lia]|]); apply Forall_nil|]); apply Forall_nil. }
  split.
  { eapply (qrun_reach 1024 ex_u pr _ [ChStop 0; ChClose 0; ChQuit; ChStopped 0; ChSend 0]); [constructor|reflexivity]. }
  reflexivity.
Qed.

(** Two concurrent calls of Stop can close the same channel twice. *)
Theorem C15_concurrent_stop_refuted :
  exists s, Forall (prog_ok ex_u) [[GStop]; [GStop]] /\ qreach 1024 ex_u [[GStop]; [GStop]] s /\ q_panic s = true.
Proof.
  eexists. split.
  { repeat (apply Forall_cons; [repeat (apply Forall_cons; [exact I|]); apply Forall_nil|]); apply Forall_nil. }
  split.
  { eapply (qrun_reach 1024 ex_u [[GStop]; [GStop]] _ [ChStop 0; ChStop 1; ChClose 0; ChClose 1]); [constructor|reflexivity]. }
  reflexivity.
Qed.

Print Assumptions C15_exactly_once_in_order.
Print Assumptions C15_fifo.
Print Assumptions C15_linearizable.
Print Assumptions C15_replies.
Print Assumptions C15_bounded_queue.
Print Assumptions C15_no_panic.
Print Assumptions C15_no_deadlock.
Print Assumptions C15_terminates.
Print Assumptions C15_finished.
Print Assumptions C15_stop_loses_calls_refuted.
Print Assumptions C15_record_after_stop_refuted.
Print Assumptions C15_concurrent_stop_refuted.
