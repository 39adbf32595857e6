From Coq Require Import List Arith Bool Lia.
From Verif Require Import Base ListLib GoMap Float64 TagModel AggModel AggProofs ViewModel WorkerModel WorkerSpec
     WorkerProofs QueueModel QueueSpec.
Import ListNotations.
Open Scope nat_scope.

Lemma by_caller_app g l1 l2 : by_caller g (l1 ++ l2) = by_caller g l1 ++ by_caller g l2.
Proof. apply flat_map_app. Qed.
Lemma log_queued_app l1 l2 : log_queued (l1 ++ l2) = log_queued l1 ++ log_queued l2.
Proof. apply flat_map_app. Qed.
Lemma returned_app g l1 l2 : returned g (l1 ++ l2) = returned g l1 ++ returned g l2.
Proof. apply flat_map_app. Qed.
Lemma log_cmds_app l1 l2 : log_cmds (l1 ++ l2) = log_cmds l1 ++ log_cmds l2.
Proof. apply map_app. Qed.

Definition sync_pending (g : nat) (l : list (nat * cmd)) : nat := length (filter is_sync (by_caller g l)).

Lemma sync_pending_app g l1 l2 : sync_pending g (l1 ++ l2) = sync_pending g l1 + sync_pending g l2.
Proof. unfold sync_pending. rewrite by_caller_app, filter_app, app_length. reflexivity. Qed.

Lemma nth_upd {A} (l : list A) (i j : nat) (y : A) x :
  nth_error (upd l i (fun _ => y)) j = Some x ->
  (j = i /\ x = y /\ i < length l) \/ (j <> i /\ nth_error l j = Some x).
Proof.
  rewrite nth_error_upd. destruct (Nat.eq_dec j i) as [->|Hn]; intros H.
  - left. destruct (nth_error l i) eqn:E.
    + assert (i < length l) by (apply nth_error_Some; congruence).
      rewrite Nat.eqb_refl in H. cbn in H. injection H as <-. auto.
    + destruct (_ =? _) in H; discriminate.
  - right. split; [exact Hn|]. destruct (nth_error l j) eqn:E.
    + destruct (Nat.eqb_spec i j) as [X|X]; [congruence|]; destruct (Nat.eqb_spec j i) as [X'|X']; [congruence|].
      exact H.
    + destruct (_ =? _) in H; discriminate.
Qed.

Lemma exists_last_or {A} (l : list A) : l = [] \/ exists l' x, l = l' ++ [x].
Proof. induction l using rev_ind; [left; reflexivity|right; eauto]. Qed.

Section Inv.
  Variable (u : uworld) (cap : nat) (progs : list (list gop)).

  Definition op_ok (op : gop) : Prop :=
    match op with GCmd c | GDirect c => cmd_ok u c | _ => True end.

  Record QI (s : qst) : Prop := {
    qi_len : length (q_gs s) = length progs;
    qi_order : forall g p x, nth_error progs g = Some p -> nth_error (q_gs s) g = Some x ->
      queued p = by_caller g (log_queued (q_log s)) ++ by_caller g (q_chan s) ++ queued (g_todo x);
    qi_cap : length (q_chan s) <= cap;
    qi_run : wrun u (log_cmds (q_log s)) (q_w s);
    qi_ok : Forall (cmd_ok u) (log_cmds (q_log s));
    qi_todo : forall g x, nth_error (q_gs s) g = Some x -> Forall op_ok (g_todo x);
    qi_chan : Forall (fun e => cmd_ok u (snd e) /\ fst e < length progs) (q_chan s);
    qi_phase : forall g r, q_phase s = WReply g r -> g < length progs;
    qi_wait : forall g x, nth_error (q_gs s) g = Some x ->
      sync_pending g (q_chan s) + length (replying g (q_phase s)) = if g_wait x then 1 else 0;
    qi_got : forall g x, nth_error (q_gs s) g = Some x ->
      g_got x ++ replying g (q_phase s) = returned g (q_log s);
    qi_ans : forall l1 sr c r evs l2, q_log s = l1 ++ (sr, c, r, evs) :: l2 ->
      answer u (log_cmds l1) c r evs
  }.

  Lemma QI_init : Forall (prog_ok u) progs -> QI (qinit u progs).
  Proof.
    intros Hp. split; cbn.
    - now rewrite map_length.
    - intros g p x Hg Hx. rewrite nth_error_map, Hg in Hx. injection Hx as <-. reflexivity.
    - lia.
    - constructor.
    - constructor.
    - intros g x Hx. rewrite nth_error_map in Hx. destruct (nth_error progs g) eqn:E; [|discriminate].
      injection Hx as <-. cbn. apply nth_error_In in E. rewrite Forall_forall in Hp.
      specialize (Hp _ E). unfold prog_ok in Hp. eapply Forall_impl; [|exact Hp]. intros [] ?; cbn; auto.
    - constructor.
    - discriminate.
    - intros g x Hx. rewrite nth_error_map in Hx. destruct (nth_error progs g); [|discriminate].
      injection Hx as <-. reflexivity.
    - intros g x Hx. rewrite nth_error_map in Hx. destruct (nth_error progs g); [|discriminate].
      injection Hx as <-. reflexivity.
    - intros l1 sr c r evs l2 H. destruct l1; discriminate.
  Qed.

  Hypothesis U : u_ok u.

  (** A handled command extends the log. *)
  Lemma handled s o c (I : QI s) : cmd_ok u c ->
    exists r evs w', handle o (q_w s) c = Some (r, evs, w') /\
      forall sr, wrun u (log_cmds (q_log s ++ [(sr, c, r, evs)])) w' /\
      Forall (cmd_ok u) (log_cmds (q_log s ++ [(sr, c, r, evs)])) /\
      forall l1 sr' c' r' evs' l2, q_log s ++ [(sr, c, r, evs)] = l1 ++ (sr', c', r', evs') :: l2 ->
        answer u (log_cmds l1) c' r' evs'.
  Proof.
    intros Hc.
    destruct (handle_spec u U o (log_cmds (q_log s)) (q_w s) c) as (r & evs & w' & E & Ha & _);
      [apply wrun_WI; auto; apply I|exact Hc|].
    exists r, evs, w'. split; [exact E|]. intros sr. rewrite log_cmds_app. cbn.
    split; [|split].
    - eapply wrun_snoc; [apply I|exact E].
    - apply Forall_app. split; [apply I|constructor; [exact Hc|constructor]].
    - intros l1 sr' c' r' evs' l2 H.
      destruct (exists_last_or l2) as [->|(l2' & e & ->)].
      + apply app_inj_tail in H. destruct H as [<- [= -> -> -> ->]]. exact Ha.
      + change (l1 ++ (sr', c', r', evs') :: l2' ++ [e]) with (l1 ++ ((sr', c', r', evs') :: l2') ++ [e]) in H.
        rewrite app_assoc in H. apply app_inj_tail in H. destruct H as [H _]. eapply (qi_ans s I); exact H.
  Qed.

  Lemma replying_idle g : replying g WIdle = [].
  Proof. reflexivity. Qed.

  Lemma sync_pending_one g g' c : sync_pending g [(g', c)] = if (g' =? g) && is_sync c then 1 else 0.
  Proof.
    unfold sync_pending. cbn. destruct (g' =? g); cbn; [|reflexivity]. destruct (is_sync c); reflexivity.
  Qed.

  (** Replacing a goroutine's program by one with the same queued calls. *)
  Lemma QI_same s s' g x y :
    QI s -> nth_error (q_gs s) g = Some x ->
    q_gs s' = with_g s g y -> q_chan s' = q_chan s -> q_phase s' = q_phase s -> q_w s' = q_w s -> q_log s' = q_log s ->
    g_wait y = g_wait x -> g_got y = g_got x -> queued (g_todo y) = queued (g_todo x) ->
    Forall op_ok (g_todo y) -> QI s'.
  Proof.
    intros I Eg E1 E2 E3 E4 E5 Ew Er Eq Ht.
    split; rewrite ?E1, ?E2, ?E3, ?E4, ?E5; try apply I.
    - unfold with_g. rewrite upd_length. apply I.
    - intros g' p z Hp Hz. apply nth_upd in Hz. destruct Hz as [(-> & -> & _)|(Hn & Hz)].
      + rewrite Eq. apply (qi_order s I _ _ _ Hp Eg).
      + apply (qi_order s I _ _ _ Hp Hz).
    - intros g' z Hz. apply nth_upd in Hz. destruct Hz as [(-> & -> & _)|(Hn & Hz)]; [exact Ht|].
      apply (qi_todo s I _ _ Hz).
    - intros g' z Hz. apply nth_upd in Hz. destruct Hz as [(-> & -> & _)|(Hn & Hz)].
      + rewrite Ew. apply (qi_wait s I _ _ Eg).
      + apply (qi_wait s I _ _ Hz).
    - intros g' z Hz. apply nth_upd in Hz. destruct Hz as [(-> & -> & _)|(Hn & Hz)].
      + rewrite Er. apply (qi_got s I _ _ Eg).
      + apply (qi_got s I _ _ Hz).
  Qed.

  Lemma QI_step s ch s' : QI s -> qdo cap s ch = Some s' -> QI s'.
  Proof.
    intros I E. unfold qdo in E. destruct (q_panic s); [discriminate|].
    destruct ch as [g|o| |o now|o g|g|g| |g].
    - (* send *)
      destruct (nth_error (q_gs s) g) as [[todo wt got]|] eqn:Eg; [|discriminate].
      destruct todo as [|[c|c| | |] rest]; try discriminate. destruct wt; [discriminate|].
      assert (E' : (q_phase s = WStopped /\ s' = MkQ (q_gs s) (q_chan s) (q_phase s) (q_w s) (q_log s) (q_quit s) true)
                   \/ (length (q_chan s) < cap /\
                       s' = MkQ (with_g s g (MkG rest (is_sync c) got)) (q_chan s ++ [(g, c)])
                            (q_phase s) (q_w s) (q_log s) (q_quit s) false)).
      { destruct (q_phase s); [right|right|left; split; [reflexivity|congruence]].
        all: destruct (length (q_chan s) <? cap) eqn:El; [|discriminate E];
          apply Nat.ltb_lt in El; split; [exact El|congruence]. }
      clear E. assert (Hgl : g < length progs).
      { rewrite <- (qi_len s I). apply nth_error_Some. congruence. }
      pose proof (qi_todo s I _ _ Eg) as Htd. cbn in Htd. inversion Htd as [|? ? Hc Hrest]; subst.
      destruct E' as [[_ ->]|[Hl ->]].
      + destruct I. split; assumption.
      + split; cbn [q_gs q_chan q_phase q_w q_log].
        * unfold with_g. rewrite upd_length. apply I.
        * intros g' p x Hp Hx. apply nth_upd in Hx. rewrite by_caller_app. cbn.
          destruct Hx as [(-> & -> & _)|(Hn & Hx)].
          -- rewrite Nat.eqb_refl. cbn. rewrite (qi_order s I _ _ _ Hp Eg). cbn. now rewrite <- !app_assoc.
          -- destruct (Nat.eqb_spec g g') as [X|X]; [congruence|]. cbn. rewrite app_nil_r.
             apply (qi_order s I _ _ _ Hp Hx).
        * rewrite app_length. cbn. lia.
        * apply I.
        * apply I.
        * intros g' x Hx. apply nth_upd in Hx. destruct Hx as [(-> & -> & _)|(Hn & Hx)]; [exact Hrest|].
          eapply (qi_todo s I); exact Hx.
        * apply Forall_app. split; [apply I|]. constructor; [split; assumption|constructor].
        * apply I.
        * intros g' x Hx. rewrite sync_pending_app, sync_pending_one. apply nth_upd in Hx.
          destruct Hx as [(-> & -> & _)|(Hn & Hx)].
          -- rewrite Nat.eqb_refl. cbn. pose proof (qi_wait s I _ _ Eg) as W. cbn in W.
             destruct (is_sync c); lia.
          -- destruct (Nat.eqb_spec g g') as [X|X]; [congruence|]. cbn.
             pose proof (qi_wait s I _ _ Hx). lia.
        * intros g' x Hx. apply nth_upd in Hx. destruct Hx as [(-> & -> & _)|(Hn & Hx)].
          -- apply (qi_got s I _ _ Eg).
          -- apply (qi_got s I _ _ Hx).
        * apply I.
    - (* handle *)
      destruct (q_phase s) eqn:Eph; try discriminate. destruct (q_chan s) as [|[g c] rest] eqn:Ech; [discriminate|].
      pose proof (qi_chan s I) as Hch. rewrite Ech in Hch. inversion Hch as [|? ? [Hc Hg] Hrest]; subst. cbn in Hc, Hg.
      destruct (handled s o c I Hc) as (r & evs & w' & Eh & HL). destruct (HL (SrcQ g)) as (H1 & H2 & H3). clear HL.
      rewrite Eh in E. injection E as <-. split; cbn [q_gs q_chan q_phase q_w q_log].
      + apply I.
      + intros g' p x Hp Hx. rewrite log_queued_app, by_caller_app. cbn. rewrite (qi_order s I _ _ _ Hp Hx), Ech.
        cbn. rewrite app_nil_r, <- !app_assoc. reflexivity.
      + pose proof (qi_cap s I) as X. rewrite Ech in X. cbn in X. lia.
      + exact H1.
      + exact H2.
      + apply I.
      + exact Hrest.
      + intros g' r'. destruct (is_sync c); [|discriminate]. intros [= <- <-]. exact Hg.
      + intros g' x Hx. pose proof (qi_wait s I _ _ Hx) as X. rewrite Ech, Eph in X.
        change ((g, c) :: rest) with ([(g, c)] ++ rest) in X. rewrite sync_pending_app, sync_pending_one in X.
        cbn in X. destruct (is_sync c); cbn; destruct (g =? g'); cbn in *; lia.
      + intros g' x Hx. pose proof (qi_got s I _ _ Hx) as X. rewrite Eph in X. cbn in X. rewrite app_nil_r in X.
        rewrite returned_app, X. cbn. destruct (is_sync c); cbn; destruct (g =? g'); cbn; rewrite ?app_nil_r; reflexivity.
      + exact H3.
    - (* reply *)
      destruct (q_phase s) as [|g r|] eqn:Eph; try discriminate.
      destruct (nth_error (q_gs s) g) as [[todo wt got]|] eqn:Eg; [|discriminate]. destruct wt; [|discriminate].
      injection E as <-. split; cbn [q_gs q_chan q_phase q_w q_log]; try apply I.
      + unfold with_g. rewrite upd_length. apply I.
      + intros g' p x Hp Hx. apply nth_upd in Hx. destruct Hx as [(-> & -> & _)|(Hn & Hx)].
        * apply (qi_order s I _ _ _ Hp Eg).
        * apply (qi_order s I _ _ _ Hp Hx).
      + intros g' x Hx. apply nth_upd in Hx. destruct Hx as [(-> & -> & _)|(Hn & Hx)].
        * apply (qi_todo s I _ _ Eg).
        * apply (qi_todo s I _ _ Hx).
      + discriminate.
      + intros g' x Hx. apply nth_upd in Hx. destruct Hx as [(-> & -> & _)|(Hn & Hx)].
        * pose proof (qi_wait s I _ _ Eg) as X. rewrite Eph in X. cbn in X. rewrite Nat.eqb_refl in X. cbn in *. lia.
        * pose proof (qi_wait s I _ _ Hx) as X. rewrite Eph in X. cbn in X.
          destruct (Nat.eqb_spec g g') as [Y|Y]; [congruence|]. cbn in *. lia.
      + intros g' x Hx. cbn. rewrite app_nil_r. apply nth_upd in Hx. destruct Hx as [(-> & -> & _)|(Hn & Hx)].
        * pose proof (qi_got s I _ _ Eg) as X. rewrite Eph in X. cbn in X. rewrite Nat.eqb_refl in X. exact X.
        * pose proof (qi_got s I _ _ Hx) as X. rewrite Eph in X. cbn in X.
          destruct (Nat.eqb_spec g g') as [Y|Y]; [congruence|]. now rewrite app_nil_r in X.
    - (* tick *)
      destruct (q_phase s) eqn:Eph; try discriminate.
      destruct (handled s o (CmdTick now) I Logic.I) as (r & evs & w' & Eh & HL).
      destruct (HL SrcTick) as (H1 & H2 & H3). clear HL.
      rewrite Eh in E. injection E as <-. split; cbn [q_gs q_chan q_phase q_w q_log]; try apply I; auto.
      + intros g' p x Hp Hx. rewrite log_queued_app. cbn. rewrite app_nil_r. apply (qi_order s I _ _ _ Hp Hx).
      + discriminate.
      + intros g' x Hx. rewrite <- Eph. apply (qi_wait s I _ _ Hx).
      + intros g' x Hx. rewrite returned_app, <- Eph. cbn. rewrite !app_nil_r. apply (qi_got s I _ _ Hx).
    - (* direct *)
      destruct (nth_error (q_gs s) g) as [[todo wt got]|] eqn:Eg; [|discriminate].
      destruct todo as [|[c|c| | |] rest]; try discriminate. destruct wt; [discriminate|].
      pose proof (qi_todo s I _ _ Eg) as Htd. cbn in Htd. inversion Htd as [|? ? Hc Hrest]; subst.
      destruct (handled s o c I Hc) as (r & evs & w' & Eh & HL). destruct (HL (SrcDirect g)) as (H1 & H2 & H3). clear HL.
      rewrite Eh in E. injection E as <-. split; cbn [q_gs q_chan q_phase q_w q_log]; try apply I; auto.
      + unfold with_g. rewrite upd_length. apply I.
      + intros g' p x Hp Hx. rewrite log_queued_app. cbn. rewrite app_nil_r.
        apply nth_upd in Hx. destruct Hx as [(-> & -> & _)|(Hn & Hx)].
        * apply (qi_order s I _ _ _ Hp Eg).
        * apply (qi_order s I _ _ _ Hp Hx).
      + intros g' x Hx. apply nth_upd in Hx. destruct Hx as [(-> & -> & _)|(Hn & Hx)]; [exact Hrest|].
        apply (qi_todo s I _ _ Hx).
      + intros g' x Hx. apply nth_upd in Hx. destruct Hx as [(-> & -> & _)|(Hn & Hx)].
        * apply (qi_wait s I _ _ Eg).
        * apply (qi_wait s I _ _ Hx).
      + intros g' x Hx. rewrite returned_app. cbn. rewrite !app_nil_r.
        apply nth_upd in Hx. destruct Hx as [(-> & -> & _)|(Hn & Hx)].
        * apply (qi_got s I _ _ Eg).
        * apply (qi_got s I _ _ Hx).
    - (* stop *)
      destruct (nth_error (q_gs s) g) as [[todo wt got]|] eqn:Eg; [|discriminate].
      destruct todo as [|[c|c| | |] rest]; try discriminate. destruct wt; [discriminate|].
      injection E as <-. eapply (QI_same s _ g _ _ I Eg); cbn; try reflexivity.
      + destruct (q_quit s); reflexivity.
      + pose proof (qi_todo s I _ _ Eg) as Htd. inversion Htd; subst. constructor; [destruct (q_quit s); exact Logic.I|assumption].
    - (* close *)
      destruct (nth_error (q_gs s) g) as [[todo wt got]|] eqn:Eg; [|discriminate].
      destruct todo as [|[c|c| | |] rest]; try discriminate. destruct wt; [discriminate|].
      destruct (q_quit s); injection E as <-.
      + destruct I. split; assumption.
      + eapply (QI_same s _ g _ _ I Eg); cbn; try reflexivity.
        pose proof (qi_todo s I _ _ Eg) as Htd. inversion Htd; subst. constructor; [exact Logic.I|assumption].
    - (* quit *)
      destruct (q_phase s) eqn:Eph; try discriminate. destruct (q_quit s); [|discriminate]. injection E as <-.
      split; cbn [q_gs q_chan q_phase q_w q_log]; try apply I.
      + discriminate.
      + intros g x Hx. pose proof (qi_wait s I _ _ Hx) as X. rewrite Eph in X. exact X.
      + intros g x Hx. pose proof (qi_got s I _ _ Hx) as X. rewrite Eph in X. exact X.
    - (* stopped *)
      destruct (nth_error (q_gs s) g) as [[todo wt got]|] eqn:Eg; [|discriminate].
      destruct todo as [|[c|c| | |] rest]; try discriminate. destruct wt; [discriminate|].
      destruct (q_phase s) eqn:Eph; try discriminate.
      injection E as <-. eapply (QI_same s _ g _ _ I Eg); cbn; try reflexivity; auto.
      pose proof (qi_todo s I _ _ Eg) as Htd. inversion Htd; subst. assumption.
  Qed.

  Lemma QI_reach s : Forall (prog_ok u) progs -> qreach cap u progs s -> QI s.
  Proof. intros Hp H. induction H; [now apply QI_init|eapply QI_step; eassumption]. Qed.
End Inv.
