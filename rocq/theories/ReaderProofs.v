(** Proofs about ReaderModel. *)

From Coq Require Import String.
From Coq Require Import List Arith ZArith Bool Lia ZifyBool ZifyNat.
From Verif Require Import Base ListLib GoMap AggModel AggProofs ReaderModel ReaderSpec.
Import ListNotations.
Open Scope nat_scope.

Lemma rspec_run_app x a b : rspec_run x (a ++ b) = match rspec_run x a with Some y => rspec_run y b | None => None end.
Proof. revert x. induction a as [|e a IH]; intros x; cbn [app rspec_run]; [reflexivity |]. destruct (rspec_step x e); [apply IH | reflexivity]. Qed.

(** The pc of the goroutine that has the lock. *)
Inductive held (s : rst) : rpc -> Prop :=
| held_none : r_mu s = None -> (forall i c, nth_error (r_callers s) i = Some c -> c_pc c = RIdle) -> held s RIdle
| held_by i c : r_mu s = Some (HCaller i) -> nth_error (r_callers s) i = Some c -> c_pc c <> RIdle -> c_todo c <> [] ->
    (forall j c', j <> i -> nth_error (r_callers s) j = Some c' -> c_pc c' = RIdle) -> held s (c_pc c).

Definition active (t q : nat) (x : lpc) : Prop := x = LTop \/ x = LSelect (Some t) (Some q) \/ x = LExport.
Definition ending (d : nat) (x : lpc) : Prop := x = LQuit \/ x = LDone \/ x = LSend d.
Definition pc_ok (q d t : nat) (x : lpc) (hp : rpc) : Prop :=
  match hp with
  | RIdle | RLocked | RRet => active t q x
  | RSend q' => q' = q /\ active t q x
  | RRecv => ending d x
  | RRecv2 d' => d' = d /\ ending d x
  | RClose1 | RClose2 => x = LExit
  | RExport => False
  end.

Definition exporting (x : option lpc) (hp : rpc) : option rsrc :=
  match x with
  | Some LExport => Some SrcLoop
  | _ => match hp with RExport => Some SrcFlush | _ => None end
  end.

Record inv_run (s : rst) (hp : rpc) (q d t : nat) (pre : list lpc) (x : lpc) (on pend : bool) : Prop := {
  ir_done : r_done s = Some d; ir_timer : r_timer s = Some t;
  ir_loops : r_loops s = pre ++ [x]; ir_pre : Forall (eq LExit) pre;
  ir_pc : pc_ok q d t x hp;
  ir_qd : q <> d; ir_q : q < length (r_closed s); ir_d : d < length (r_closed s);
  ir_qc : closed s q = match hp with RClose2 => true | _ => false end; ir_dc : closed s d = false;
  ir_tick : nth_error (r_tickers s) t = Some (MkTicker on pend);
  ir_off : forall t' k, t' <> t -> nth_error (r_tickers s) t' = Some k -> t_on k = false;
  ir_on : match x with LDone | LSend _ | LExit => on = false | _ => True end;
  ir_spec : rspec_run rspec_init (r_hist s) = Some (MkRS true (exporting (Some x) hp) pend) }.

Record inv_stop (s : rst) (hp : rpc) : Prop := {
  is_loops : Forall (eq LExit) (r_loops s);
  is_hp : hp = RIdle \/ hp = RLocked \/ hp = RExport \/ hp = RRet;
  is_off : forall t k, nth_error (r_tickers s) t = Some k -> t_on k = false;
  is_spec : exists tk, rspec_run rspec_init (r_hist s) = Some (MkRS false (exporting None hp) tk) }.

Definition inv (s : rst) : Prop :=
  r_panic s = false /\ exists hp, held s hp /\
  match r_quit s with
  | Some q => exists d t pre x on pend, inv_run s hp q d t pre x on pend
  | None => inv_stop s hp
  end.

Lemma inv_init progs : inv (r_init progs).
Proof.
  split; [reflexivity |]. exists RIdle. split.
  - apply held_none; [reflexivity |]. intros i c H. cbn [r_init r_callers] in H. apply nth_error_In, in_map_iff in H. destruct H as (p & <- & _). reflexivity.
  - cbn [r_init r_quit]. constructor; cbn [r_loops r_tickers r_hist]; [constructor | auto | intros t k H; destruct t; discriminate |]. exists false. reflexivity.
Qed.

(** What the setters do to the fields. *)
Ltac rsimp := cbn [r_callers r_loops r_tickers r_closed r_quit r_done r_timer r_mu r_panic r_hist
  set_callers set_loops set_tickers set_closed set_quit set_done set_timer set_mu set_panic log put_caller put_loop] in *.

(** Moves of the holder. *)
Lemma held_move s i c pc' : nth_error (r_callers s) i = Some c -> r_mu s = Some (HCaller i) -> c_pc c <> RIdle -> c_todo c <> [] ->
  (forall j c', j <> i -> nth_error (r_callers s) j = Some c' -> c_pc c' = RIdle) -> pc' <> RIdle ->
  forall s', r_mu s' = r_mu s -> r_callers s' = upd (r_callers s) i (fun _ => MkCaller (c_todo c) pc') -> held s' pc'.
Proof.
  intros Hi Hm Hp Ht Ho Hp' s' Em Ec.
  apply (held_by s' i (MkCaller (c_todo c) pc')); rewrite ?Em, ?Ec; auto.
  - rewrite nth_error_upd, Nat.eqb_refl, Hi. reflexivity.
  - intros j c' Hj Hc. rewrite nth_error_upd in Hc. destruct (Nat.eqb_spec i j); [congruence |]. apply (Ho j); [congruence | exact Hc].
Qed.

Lemma held_same s s' hp : held s hp -> r_mu s' = r_mu s -> r_callers s' = r_callers s -> held s' hp.
Proof.
  intros H Em Ec. inversion H as [H1 H2 | i c H1 H2 H3 H4 H5]; subst.
  - apply held_none; rewrite ?Em, ?Ec; auto.
  - apply (held_by s' i); rewrite ?Em, ?Ec; auto.
Qed.

(** The one caller that is in a call. *)
Lemma held_at s hp i c : held s hp -> nth_error (r_callers s) i = Some c -> c_pc c <> RIdle ->
  hp = c_pc c /\ r_mu s = Some (HCaller i) /\ c_todo c <> [] /\ (forall j c', j <> i -> nth_error (r_callers s) j = Some c' -> c_pc c' = RIdle).
Proof.
  intros H Hi Hp. inversion H as [H1 H2 | k c' H1 H2 H3 H4 H5]; subst.
  - exfalso. apply Hp. exact (H2 i c Hi).
  - destruct (Nat.eq_dec i k) as [-> | Hne]; [| exfalso; apply Hp; exact (H5 i c Hne Hi)].
    rewrite Hi in H2. injection H2 as <-. auto.
Qed.

Lemma loop_at pre x (j : nat) l : Forall (eq LExit) pre -> nth_error (pre ++ [x]) j = Some l -> l = LExit \/ (j = length pre /\ l = x).
Proof.
  intros Hp H. destruct (lt_dec j (length pre)) as [Hlt | Hge].
  - rewrite nth_error_app1 in H by exact Hlt. apply nth_error_In in H. rewrite Forall_forall in Hp. left. symmetry. apply Hp. exact H.
  - rewrite nth_error_app2 in H by lia. destruct (j - length pre) as [|k] eqn:E; [| destruct k; discriminate]. injection H as <-. right. split; [lia | reflexivity].
Qed.

Lemma upd_last {A} (pre : list A) x f : upd (pre ++ [x]) (length pre) f = pre ++ [f x].
Proof. induction pre as [|a pre IH]; cbn [app length upd]; [reflexivity | rewrite IH; reflexivity]. Qed.

Lemma closed_upd l n m : n < length l -> nth m (upd l n (fun _ => true)) false = if n =? m then true else nth m l false.
Proof.
  revert n m. induction l as [|b l IH]; intros n m Hn; cbn [length] in Hn; [lia |]. destruct n as [|n], m as [|m]; cbn [upd nth Nat.eqb]; try reflexivity. apply IH. lia.
Qed.

Lemma spec_snoc s x e y : rspec_run rspec_init (r_hist s) = Some x -> rspec_step x e = Some y -> rspec_run rspec_init (r_hist s ++ [e]) = Some y.
Proof. intros H E. rewrite rspec_run_app, H. cbn [rspec_run]. rewrite E. reflexivity. Qed.

Lemma off_put s t on pend t' k (f : ticker -> ticker) : nth_error (r_tickers s) t = Some (MkTicker on pend) ->
  (forall t' k, t' <> t -> nth_error (r_tickers s) t' = Some k -> t_on k = false) ->
  t' <> t -> nth_error (upd (r_tickers s) t f) t' = Some k -> t_on k = false.
Proof. intros H Ho Hne E. rewrite nth_error_upd in E. destruct (Nat.eqb_spec t t'); [congruence |]. exact (Ho t' k Hne E). Qed.

Theorem inv_step s c s' : inv s -> rstep false s c = Some s' -> inv s'.
Proof.
  intros (Hnp & hp & Hh & Hq) E. unfold rstep in E. rewrite Hnp in E. destruct c as [i | j | i j | i j | j | t0].
  - (* a caller *)
    destruct (nth_error (r_callers s) i) as [[[|op rest] pc] |] eqn:Ei; try discriminate.
    destruct (match pc with RIdle => true | _ => false end) eqn:Epc.
    + destruct pc; try discriminate. destruct (r_mu s) as [h |] eqn:Em; [discriminate |]. injection E as <-.
      inversion Hh as [H1 H2 | k c' H1 _ _ _ _]; subst; [| congruence]. split; [exact Hnp |]. exists RLocked. split.
      * apply (held_by _ i (MkCaller (op :: rest) RLocked)); rsimp; [reflexivity | rewrite nth_error_upd, Nat.eqb_refl, Ei; reflexivity | discriminate | discriminate |].
        intros j c' Hj Hc. rewrite nth_error_upd in Hc. destruct (Nat.eqb_spec i j); [congruence |]. exact (H2 j c' Hc).
      * rsimp. destruct (r_quit s) as [q |].
        -- destruct Hq as (d & t & pre & x & on & pend & []). exists d, t, pre, x, on, pend. constructor; rsimp; auto.
        -- destruct Hq. constructor; rsimp; auto.
    + assert (Hpc : c_pc (MkCaller (op :: rest) pc) <> RIdle) by (cbn [c_pc]; destruct pc; congruence).
      destruct (held_at s hp i _ Hh Ei Hpc) as (-> & Hm & Ht & Ho). cbn [c_pc c_todo] in *.
      assert (Hmove : forall pc' s'', pc' <> RIdle -> r_mu s'' = r_mu s -> r_callers s'' = upd (r_callers s) i (fun _ => MkCaller (op :: rest) pc') -> held s'' pc').
      { intros pc' s'' Hp' E1 E2. exact (held_move s i _ pc' Ei Hm Hpc Ht Ho Hp' s'' E1 E2). }
      destruct pc; cbn [c_pc c_todo] in *; try discriminate.
      * (* locked *)
        destruct op as [iv | |].
        -- injection E as <-. unfold start_body. destruct (negb (iv =? 0)%Z && (iv <? minimum_interval)%Z) eqn:Eiv; [| destruct (r_quit s) as [q |] eqn:Eq].
           ++ split; [exact Hnp |]. exists RRet. split; [apply Hmove; [discriminate | reflexivity | reflexivity] |]. rsimp.
              assert (Hs : forall x, rspec_step x (RvStartErr iv ErrTooLow) = Some x) by (intros x; cbn [rspec_step]; unfold minimum_interval in Eiv; unfold interval_ok; replace (negb ((iv =? 0)%Z || (1000000000 <=? iv)%Z)) with true by lia; reflexivity).
              destruct (r_quit s) as [q |].
              ** destruct Hq as (d & t & pre & x & on & pend & []). exists d, t, pre, x, on, pend. constructor; rsimp; auto.
                 rewrite (spec_snoc s _ _ _ ir_spec0 (Hs _)). unfold exporting. destruct x; reflexivity.
              ** destruct Hq as [? ? ? (tk & Hsp)]. constructor; rsimp; auto. exists tk. apply (spec_snoc s _ _ _ Hsp (Hs _)).
           ++ split; [exact Hnp |]. exists RRet. split; [apply Hmove; [discriminate | reflexivity | reflexivity] |]. rsimp. rewrite Eq.
              destruct Hq as (d & t & pre & x & on & pend & []). exists d, t, pre, x, on, pend. constructor; rsimp; auto.
              apply (spec_snoc s _ _ _ ir_spec0). cbn [rspec_step rs_running]. unfold minimum_interval in Eiv; unfold interval_ok; replace (((iv =? 0)%Z || (1000000000 <=? iv)%Z)) with true by lia. cbn [andb]. unfold exporting. destruct x; reflexivity.
           ++ split; [exact Hnp |]. exists RRet. split; [apply Hmove; [discriminate | reflexivity | reflexivity] |]. rsimp.
              destruct Hq as [Hl _ Hoff (tk & Hsp)]. exists (S (length (r_closed s))), (length (r_tickers s)), (r_loops s), LTop, true, false. constructor; rsimp; auto.
              ** left. reflexivity.
              ** rewrite app_length. cbn [length]. lia.
              ** rewrite app_length. cbn [length]. lia.
              ** unfold closed. rsimp. rewrite app_nth2, Nat.sub_diag by lia. reflexivity.
              ** unfold closed. rsimp. rewrite app_nth2 by lia. replace (S (length (r_closed s)) - length (r_closed s)) with 1 by lia. reflexivity.
              ** rewrite nth_error_app2, Nat.sub_diag by lia. reflexivity.
              ** intros t' k Hne Hk. destruct (lt_dec t' (length (r_tickers s))) as [Hlt | Hge]; [rewrite nth_error_app1 in Hk by exact Hlt; exact (Hoff t' k Hk) |].
                 rewrite nth_error_app2 in Hk by lia. destruct (t' - length (r_tickers s)) as [|n] eqn:En; [lia | destruct n; discriminate].
              ** apply (spec_snoc s _ _ _ Hsp). cbn [rspec_step rs_running rs_exporting exporting negb andb]. unfold minimum_interval in Eiv. unfold interval_ok. replace (((iv =? 0)%Z || (1000000000 <=? iv)%Z)) with true by lia. cbn [andb].
                 unfold default_interval. rewrite Z.eqb_refl. reflexivity.
        -- destruct (r_quit s) as [q |] eqn:Eq; injection E as <-; (split; [exact Hnp |]).
           ++ exists (RSend q). split; [apply Hmove; [discriminate | reflexivity | reflexivity] |]. rsimp. rewrite Eq.
              destruct Hq as (d & t & pre & x & on & pend & []). exists d, t, pre, x, on, pend. constructor; rsimp; auto. split; [reflexivity | exact ir_pc0].
           ++ exists RRet. split; [apply Hmove; [discriminate | reflexivity | reflexivity] |]. rsimp. rewrite Eq. destruct Hq as [? ? ? (tk & Hsp)]. constructor; rsimp; auto.
              exists false. apply (spec_snoc s _ _ _ Hsp). reflexivity.
        -- destruct (r_quit s) as [q |] eqn:Eq; injection E as <-; (split; [exact Hnp |]).
           ++ exists RRet. split; [apply Hmove; [discriminate | reflexivity | reflexivity] |]. rsimp. rewrite Eq.
              destruct Hq as (d & t & pre & x & on & pend & []). exists d, t, pre, x, on, pend. constructor; rsimp; auto.
              apply (spec_snoc s _ _ _ ir_spec0). cbn [rspec_step rs_running]. unfold exporting. destruct x; reflexivity.
           ++ exists RExport. split; [apply Hmove; [discriminate | reflexivity | reflexivity] |]. rsimp. rewrite Eq. destruct Hq as [? ? ? (tk & Hsp)]. constructor; rsimp; auto.
              exists tk. apply (spec_snoc s _ _ _ Hsp). reflexivity.
      * (* sending *)
        exfalso. destruct (r_quit s) as [q' |].
        -- destruct Hq as (d & t & pre & x & on & pend & []). destruct ir_pc0 as [-> _]. rewrite ir_qc0 in E. discriminate.
        -- destruct Hq as [_ [H | [H | [H | H]]] _ _]; discriminate.
      * destruct (r_done s) as [d0 |] eqn:Ed; [| discriminate]. injection E as <-. split; [exact Hnp |]. exists (RRecv2 d0).
        split; [apply Hmove; [discriminate | reflexivity | reflexivity] |]. rsimp. destruct (r_quit s) as [q |].
        -- destruct Hq as (d & t & pre & x & on & pend & []). exists d, t, pre, x, on, pend. constructor; rsimp; auto. split; [congruence | exact ir_pc0].
        -- exfalso. destruct Hq as [_ [H | [H | [H | H]]] _ _]; discriminate.
      * exfalso. destruct (r_quit s) as [q' |].
        -- destruct Hq as (d' & t & pre & x & on & pend & []). destruct ir_pc0 as [-> _]. rewrite ir_dc0 in E. discriminate.
        -- destruct Hq as [_ [H | [H | [H | H]]] _ _]; discriminate.
      * (* close(quit) *)
        destruct (r_quit s) as [q |] eqn:Eq; [| exfalso; destruct Hq as [_ [H | [H | [H | H]]] _ _]; discriminate].
        injection E as <-. destruct Hq as (d & t & pre & x & on & pend & []). cbn [close_chan]. rewrite ir_qc0. split; [exact Hnp |]. exists RClose2.
        split; [apply Hmove; [discriminate | reflexivity | reflexivity] |]. rsimp. rewrite Eq. exists d, t, pre, x, on, pend. unfold closed in *. constructor; unfold closed; rsimp; auto.
        -- rewrite upd_length. exact ir_q0.
        -- rewrite upd_length. exact ir_d0.
        -- rewrite closed_upd, Nat.eqb_refl by exact ir_q0. reflexivity.
        -- rewrite closed_upd by exact ir_q0. destruct (Nat.eqb_spec q d); [congruence | exact ir_dc0].
      * (* close(done) *)
        destruct (r_quit s) as [q |] eqn:Eq; [| exfalso; destruct Hq as [_ [H | [H | [H | H]]] _ _]; discriminate].
        injection E as <-. destruct Hq as (d & t & pre & x & on & pend & []). rewrite ir_done0. cbn [close_chan]. rewrite ir_dc0. split; [exact Hnp |]. exists RRet.
        split; [apply Hmove; [discriminate | reflexivity | reflexivity] |]. rsimp. cbn [pc_ok] in ir_pc0. subst x. constructor; rsimp.
        -- rewrite ir_loops0. apply Forall_app. split; [exact ir_pre0 | constructor; [reflexivity | constructor]].
        -- auto.
        -- intros t' k Hk. destruct (Nat.eq_dec t' t) as [-> | Hne]; [| exact (ir_off0 t' k Hne Hk)]. rewrite ir_tick0 in Hk. injection Hk as <-. exact ir_on0.
        -- exists false. apply (spec_snoc s _ _ _ ir_spec0). reflexivity.
      * (* the flush has exported *)
        injection E as <-. split; [exact Hnp |]. exists RRet. split; [apply Hmove; [discriminate | reflexivity | reflexivity] |]. rsimp.
        destruct (r_quit s) as [q |]; [destruct Hq as (d & t & pre & x & on & pend & []); contradiction |].
        destruct Hq as [? ? ? (tk & Hsp)]. constructor; rsimp; auto. exists tk. apply (spec_snoc s _ _ _ Hsp). reflexivity.
      * (* unlock *)
        injection E as <-. split; [exact Hnp |]. exists RIdle. split.
        -- apply held_none; [reflexivity |]. rsimp. intros j c' Hc. rewrite nth_error_upd in Hc. destruct (Nat.eqb_spec i j) as [-> | Hne].
           ++ rewrite Ei in Hc. injection Hc as <-. reflexivity.
           ++ apply (Ho j); [congruence | exact Hc].
        -- rsimp. destruct (r_quit s) as [q |].
           ++ destruct Hq as (d & t & pre & x & on & pend & []). exists d, t, pre, x, on, pend. constructor; rsimp; auto.
           ++ destruct Hq. constructor; rsimp; auto.
  - (* a loop *)
    destruct (nth_error (r_loops s) j) as [l |] eqn:Ej; [| discriminate].
    assert (Hnot : l <> LExit) by (intros ->; discriminate).
    destruct (r_quit s) as [q |] eqn:Eq.
    2:{ exfalso. destruct Hq as [Hl _ _ _]. rewrite Forall_forall in Hl. apply Hnot. symmetry. apply Hl. exact (nth_error_In _ _ Ej). }
    destruct Hq as (d & t & pre & x & on & pend & []). rewrite ir_loops0 in Ej. destruct (loop_at _ _ _ _ ir_pre0 Ej) as [-> | [-> ->]]; [congruence |].
    destruct x; try discriminate.
    + injection E as <-. split; [exact Hnp |]. exists hp. split; [apply (held_same s); auto |]. rsimp. rewrite Eq.
      exists d, t, pre, (LSelect (Some t) (Some q)), on, pend. constructor; rsimp; auto; try (rewrite ir_loops0, upd_last; reflexivity); [rewrite ir_timer0, ir_loops0, upd_last; reflexivity |].
      destruct hp; cbn [pc_ok] in *; unfold active, ending in *; intuition discriminate.
    + exfalso. assert (Hact : active t q (LSelect t0 q0) \/ ending d (LSelect t0 q0) \/ LSelect t0 q0 = LExit).
      { destruct hp; cbn [pc_ok] in ir_pc0; intuition auto. }
      unfold active, ending in Hact. destruct Hact as [[H | [H | H]] | [[H | [H | H]] | H]]; try discriminate. injection H as -> ->.
      rewrite ir_qc0 in E. destruct hp; try discriminate. 
    + injection E as <-. split; [exact Hnp |]. exists hp. split; [apply (held_same s); auto |]. rsimp. rewrite Eq.
      exists d, t, pre, LTop, on, pend. constructor; rsimp; auto; try (rewrite ir_loops0, upd_last; reflexivity).
      * destruct hp; cbn [pc_ok] in *; unfold active, ending in *; intuition discriminate.
      * apply (spec_snoc s _ _ _ ir_spec0). cbn [rspec_step rs_exporting exporting]. destruct hp; try reflexivity. contradiction.
    + rewrite ir_timer0 in E. injection E as <-. split; [exact Hnp |]. exists hp. split; [apply (held_same s); auto |]. rsimp. rewrite Eq.
      exists d, t, pre, LDone, false, pend. constructor; rsimp; auto; try (rewrite ir_loops0, upd_last; reflexivity).
      * destruct hp; cbn [pc_ok] in *; unfold active, ending in *; intuition discriminate.
      * rewrite nth_error_upd, Nat.eqb_refl, ir_tick0. reflexivity.
      * intros t' k Hne Hk. exact (off_put s t on pend t' k _ ir_tick0 ir_off0 Hne Hk).
    + rewrite ir_done0 in E. injection E as <-. split; [exact Hnp |]. exists hp. split; [apply (held_same s); auto |]. rsimp. rewrite Eq.
      exists d, t, pre, (LSend d), on, pend. constructor; rsimp; auto; try (rewrite ir_loops0, upd_last; reflexivity).
      destruct hp; cbn [pc_ok] in *; unfold active, ending in *; intuition discriminate.
    + exfalso. assert (d0 = d).
      { destruct hp; cbn [pc_ok] in ir_pc0; unfold active, ending in ir_pc0; intuition congruence. }
      subst d0. rewrite ir_dc0 in E. discriminate.
    + exfalso. destruct hp; cbn [pc_ok] in ir_pc0; unfold active, ending in ir_pc0; intuition congruence.
    + exfalso. destruct hp; cbn [pc_ok] in ir_pc0; unfold active, ending in ir_pc0; intuition congruence.
  - (* quit meets a loop *)
    destruct (nth_error (r_callers s) i) as [[todo pc] |] eqn:Ei; [| discriminate]. destruct pc; try discriminate.
    destruct (nth_error (r_loops s) j) as [l |] eqn:Ej; [| discriminate]. destruct l as [|t' [q' |] | | | | | | |]; try discriminate.
    destruct ((q =? q') && negb (closed s q)) eqn:Eqq; [| discriminate]. injection E as <-.
    destruct (held_at s hp i _ Hh Ei ltac:(discriminate)) as (-> & Hm & Ht & Ho). cbn [c_pc c_todo] in *.
    destruct (r_quit s) as [q1 |] eqn:Eq.
    2:{ exfalso. destruct Hq as [_ [H | [H | [H | H]]] _ _]; discriminate. }
    destruct Hq as (d & t & pre & x & on & pend & []). rewrite ir_loops0 in Ej. destruct (loop_at _ _ _ _ ir_pre0 Ej) as [He | [-> <-]]; [discriminate |].
    split; [exact Hnp |]. exists RRecv. split; [apply (held_move s i _ RRecv Ei Hm ltac:(discriminate) Ht Ho ltac:(discriminate)); reflexivity |].
    rsimp. rewrite Eq. exists d, t, pre, LQuit, on, pend. constructor; rsimp; auto; try (rewrite ir_loops0, upd_last; reflexivity). left. reflexivity.
  - (* done meets the stopper *)
    destruct (nth_error (r_callers s) i) as [[todo pc] |] eqn:Ei; [| discriminate]. destruct pc; try discriminate.
    destruct (nth_error (r_loops s) j) as [l |] eqn:Ej; [| discriminate]. destruct l; try discriminate.
    destruct ((d =? d0) && negb (closed s d)) eqn:Eqq; [| discriminate]. injection E as <-.
    destruct (held_at s hp i _ Hh Ei ltac:(discriminate)) as (-> & Hm & Ht & Ho). cbn [c_pc c_todo] in *.
    destruct (r_quit s) as [q1 |] eqn:Eq.
    2:{ exfalso. destruct Hq as [_ [H | [H | [H | H]]] _ _]; discriminate. }
    destruct Hq as (d1 & t & pre & x & on & pend & []). rewrite ir_loops0 in Ej. destruct (loop_at _ _ _ _ ir_pre0 Ej) as [He | [-> <-]]; [discriminate |].
    split; [exact Hnp |]. exists RClose1. split; [apply (held_move s i _ RClose1 Ei Hm ltac:(discriminate) Ht Ho ltac:(discriminate)); reflexivity |].
    rsimp. rewrite Eq. exists d1, t, pre, LExit, on, pend. constructor; rsimp; auto; try (rewrite ir_loops0, upd_last; reflexivity). reflexivity.
  - (* a tick is taken *)
    destruct (nth_error (r_loops s) j) as [l |] eqn:Ej; [| discriminate]. destruct l as [|[t' |] q' | | | | | | |]; try discriminate.
    destruct (nth_error (r_tickers s) t') as [[on' [|]] |] eqn:Et; try discriminate. injection E as <-.
    destruct (r_quit s) as [q |] eqn:Eq.
    2:{ exfalso. destruct Hq as [Hl _ _ _]. rewrite Forall_forall in Hl. specialize (Hl _ (nth_error_In _ _ Ej)). discriminate. }
    destruct Hq as (d & t & pre & x & on & pend & []). rewrite ir_loops0 in Ej. destruct (loop_at _ _ _ _ ir_pre0 Ej) as [He | [-> <-]]; [discriminate |].
    assert (Hact : (t' = t /\ q' = Some q) /\ hp <> RExport).
    { destruct hp; cbn [pc_ok] in ir_pc0; unfold active, ending in ir_pc0; split; try discriminate; intuition congruence. }
    destruct Hact as [[-> ->] Hne]. rewrite ir_tick0 in Et. injection Et as -> ->.
    split; [exact Hnp |]. exists hp. split; [apply (held_same s); auto |]. rsimp. rewrite Eq.
    exists d, t, pre, LExport, on', false. constructor; rsimp; auto; try (rewrite ir_loops0, upd_last; reflexivity).
    + destruct hp; cbn [pc_ok] in *; unfold active, ending in *; intuition discriminate.
    + rewrite nth_error_upd, Nat.eqb_refl, ir_tick0. reflexivity.
    + intros t'' k Hn Hk. exact (off_put s t on' true t'' k _ ir_tick0 ir_off0 Hn Hk).
    + apply (spec_snoc s _ _ _ ir_spec0). cbn [rspec_step rs_running rs_tick andb rs_exporting exporting]. destruct hp; try reflexivity. congruence.
  - (* the ticker fires *)
    destruct (nth_error (r_tickers s) t0) as [[[|] p] |] eqn:Et; try discriminate. injection E as <-.
    split; [exact Hnp |]. exists hp. split; [apply (held_same s); auto |]. rsimp. destruct (r_quit s) as [q |] eqn:Eq.
    + destruct Hq as (d & t & pre & x & on & pend & []). destruct (Nat.eq_dec t0 t) as [-> | Hne]; [| specialize (ir_off0 t0 _ Hne Et); discriminate].
      rewrite ir_tick0 in Et. injection Et as -> ->. exists d, t, pre, x, true, true. constructor; rsimp; auto; try (rewrite ir_loops0, upd_last; reflexivity).
      * rewrite nth_error_upd, Nat.eqb_refl, ir_tick0. reflexivity.
      * intros t'' k Hn Hk. exact (off_put s t true p t'' k _ ir_tick0 ir_off0 Hn Hk).
      * apply (spec_snoc s _ _ _ ir_spec0). reflexivity.
    + destruct Hq as [_ _ Hoff _]. specialize (Hoff t0 _ Et). discriminate.
Qed.
