(** Proofs about GrpcModel: schedules of HandleRPC. *)

From Coq Require Import String.
From Coq Require Import List Arith NArith ZArith Bool Lia Permutation ZifyBool ZifyNat ZifyN.
From Verif Require Import Base GoMap Text Float64 TagModel TagSpec AggModel AggProofs ViewModel WorkerModel RecordModel
  TraceTypes TraceModel HttpModel HttpSpec HttpProofs GrpcModel GrpcSpec.
Import ListNotations.
Open Scope nat_scope.

(** ** Runs *)

Lemma run_app rc l1 : forall s l2 s2, grpc_run rc s (l1 ++ l2) = Some s2 ->
  exists s1, grpc_run rc s l1 = Some s1 /\ grpc_run rc s1 l2 = Some s2.
Proof.
  induction l1 as [|a l1 IH]; intros s l2 s2 H; [exists s; auto|]. cbn in *.
  destruct (grpc_step rc s a) as [s'|]; [|discriminate]. now apply IH.
Qed.

Lemma run_app_intro rc l1 : forall s l2 s1 s2, grpc_run rc s l1 = Some s1 -> grpc_run rc s1 l2 = Some s2 ->
  grpc_run rc s (l1 ++ l2) = Some s2.
Proof.
  induction l1 as [|a l1 IH]; intros s l2 s1 s2 H1 H2; cbn in *; [congruence|].
  destruct (grpc_step rc s a) as [s'|]; [|discriminate]. eapply IH; eauto.
Qed.

Lemma events_app l1 l2 : events (l1 ++ l2) = events l1 ++ events l2.
Proof. apply flat_map_app. Qed.

(** An induction principle: a property of schedules and states, kept by calls and steps. *)
Lemma run_ind rc (P : list gact -> grpc_state -> Prop) :
  forall l0 s0, P l0 s0 ->
  (forall l s ev, g_panicked s = false -> P l s ->
     P (l ++ [GCall ev]) (MkGSt (g_cnt s) (g_calls s) (g_threads s ++ [MkGT ev (handle_rpc rc ev) []]) false)) ->
  (forall l s i t x r, P l s -> nth_error (g_threads s) i = Some t -> gt_todo t = x :: r ->
     P (l ++ [GStep i]) (do_instr s i t x r)) ->
  forall l s, grpc_run rc s0 l = Some s -> P (l0 ++ l) s.
Proof.
  intros l0 s0 H0 Hc Hs l s H. revert s H. induction l as [|a l IH] using rev_ind; intros s H.
  - injection H as <-. now rewrite app_nil_r.
  - apply run_app in H. destruct H as (s1 & H1 & H2). specialize (IH _ H1). rewrite app_assoc. cbn in H2.
    destruct (grpc_step rc s1 a) as [s'|] eqn:E; [|discriminate]. injection H2 as <-. unfold grpc_step in E.
    destruct (g_panicked s1) eqn:Ep; [discriminate|]. destruct a as [ev|i].
    + injection E as <-. now apply Hc.
    + destruct (nth_error (g_threads s1) i) as [t|] eqn:En; [|discriminate]. destruct (gt_todo t) as [|x r] eqn:Et; [discriminate|].
      injection E as <-. now apply Hs.
Qed.

Lemma do_instr_threads s i t x r : nth_error (g_threads s) i = Some t ->
  exists a d regs, g_threads s = a ++ t :: d /\ length a = i /\
    g_threads (do_instr s i t x r) = a ++ MkGT (gt_event t) r regs :: d /\
    regs = (match x with GLoad f => gt_regs t ++ [cn_get (g_cnt s) f] | _ => gt_regs t end).
Proof.
  intros En. set (regs := match x with GLoad f => gt_regs t ++ [cn_get (g_cnt s) f] | _ => gt_regs t end).
  destruct (upd_split _ i (fun _ => MkGT (gt_event t) r regs) _ En) as (a & d & E1 & E2 & E3).
  exists a, d, regs. split; [exact E1|]. split; [exact E2|]. split; [|reflexivity]. rewrite <- E3. now destruct x.
Qed.

(** ** Counters *)

(** What an event adds to a counter, and what is still to be added. *)
Definition adds (f : counter) (ev : gevent) : Z :=
  match f, ev with
  | SentBytes, GOut n _ _ => n
  | SentCount, GOut _ _ _ => 1
  | RecvBytes, GIn n _ _ => n
  | RecvCount, GIn _ _ _ => 1
  | _, _ => 0
  end.
Definition add_of (f : counter) (x : ginstr) : Z :=
  match f, x with
  | SentBytes, GAdd SentBytes n | SentCount, GAdd SentCount n | RecvBytes, GAdd RecvBytes n | RecvCount, GAdd RecvCount n => n
  | _, _ => 0
  end.
Definition pending (f : counter) (l : list ginstr) : Z := total (map (add_of f) l).
Definition done1 (f : counter) (t : gthread) : Z := adds f (gt_event t) - pending f (gt_todo t).
Definition done_all (f : counter) (ts : list gthread) : Z := total (map (done1 f) ts).

Lemma total_app a b : total (a ++ b) = (total a + total b)%Z.
Proof. unfold total. induction a as [|x a IH]; cbn; [reflexivity|]. lia. Qed.

Lemma pending_handle rc ev f : rc_data rc <> None -> pending f (handle_rpc rc ev) = adds f ev.
Proof.
  intros Hd. unfold handle_rpc, stats_handle. destruct (rc_data rc) as [[t0 full]|]; [|congruence].
  destruct ev as [cl ff|n w t|n w t|cl e t|]; try (destruct f; reflexivity).
  all: try (destruct f; cbn; lia).
  destruct e, f; reflexivity.
Qed.

Lemma pending_app f a b : pending f (a ++ b) = (pending f a + pending f b)%Z.
Proof. unfold pending. now rewrite map_app, total_app. Qed.

Record ginv (rc : rpc_ctx) (l : list gact) (s : grpc_state) : Prop := {
  gi_events : map gt_event (g_threads s) = events l;
  gi_suffix : forall t, In t (g_threads s) -> exists pre, handle_rpc rc (gt_event t) = pre ++ gt_todo t;
  gi_cnt : forall f, cn_get (g_cnt s) f = int64_of (done_all f (g_threads s)) }.

Lemma cn_get_add' c f g n : (- 2 ^ 63 <= cn_get c g < 2 ^ 63)%Z -> cn_get (cn_add c f n) g = int64_of (cn_get c g + add_of g (GAdd f n)).
Proof.
  intros H. destruct f, g; cbn in *; try reflexivity; rewrite Z.add_0_r; symmetry; now apply int64_of_small.
Qed.

Lemma done_all_app f a b : done_all f (a ++ b) = (done_all f a + done_all f b)%Z.
Proof. unfold done_all. now rewrite map_app, total_app. Qed.

Lemma done_all_cons f t b : done_all f (t :: b) = (done1 f t + done_all f b)%Z.
Proof. reflexivity. Qed.

Lemma cnt_range rc l s f : ginv rc l s -> (- 2 ^ 63 <= cn_get (g_cnt s) f < 2 ^ 63)%Z.
Proof. intros H. rewrite (gi_cnt _ _ _ H). apply int64_of_range. Qed.

Lemma ginv_call rc l s ev b : rc_data rc <> None -> ginv rc l s ->
  ginv rc (l ++ [GCall ev]) (MkGSt (g_cnt s) (g_calls s) (g_threads s ++ [MkGT ev (handle_rpc rc ev) []]) b).
Proof.
  intros Hd H. split; cbn [g_threads g_cnt].
  - rewrite map_app, events_app, (gi_events _ _ _ H). reflexivity.
  - intros t Hin. apply in_app_or in Hin. destruct Hin as [Hin|[<-|[]]]; [now apply (gi_suffix _ _ _ H)|]. exists []. reflexivity.
  - intros f. rewrite done_all_app, done_all_cons, (gi_cnt _ _ _ H). unfold done1 at 1. cbn [gt_event gt_todo].
    rewrite pending_handle by exact Hd. f_equal. cbn. lia.
Qed.

Lemma ginv_step rc l s i t x r : ginv rc l s -> nth_error (g_threads s) i = Some t -> gt_todo t = x :: r ->
  ginv rc (l ++ [GStep i]) (do_instr s i t x r).
Proof.
  intros H En Et. destruct (do_instr_threads s i t x r En) as (a & d & regs & E1 & E2 & E3 & _).
  assert (Hin : In t (g_threads s)) by (rewrite E1; apply in_or_app; right; now left).
  split.
  - rewrite E3, events_app. cbn. rewrite app_nil_r, <- (gi_events _ _ _ H), E1, !map_app. reflexivity.
  - rewrite E3. intros t' Hin'. apply in_app_or in Hin'. destruct Hin' as [Hin'|[<-|Hin']].
    + apply (gi_suffix _ _ _ H). rewrite E1. apply in_or_app. now left.
    + cbn [gt_event gt_todo]. destruct (gi_suffix _ _ _ H t Hin) as (pre & Ep). exists (pre ++ [x]). rewrite <- app_assoc, Ep, Et. reflexivity.
    + apply (gi_suffix _ _ _ H). rewrite E1. apply in_or_app. right. now right.
  - intros f. rewrite E3, done_all_app, done_all_cons.
    assert (Hg : cn_get (g_cnt (do_instr s i t x r)) f = int64_of (cn_get (g_cnt s) f + add_of f x)).
    { pose proof (cnt_range _ _ _ f H) as Hr.
      destruct x; cbn [do_instr g_cnt]; try (destruct f; cbn [add_of]; rewrite Z.add_0_r; symmetry; now apply int64_of_small).
      now apply cn_get_add'. }
    rewrite Hg, (gi_cnt _ _ _ H), int64_of_idem_add, E1, done_all_app, done_all_cons. f_equal.
    unfold done1. cbn [gt_event gt_todo]. rewrite Et.
    change (pending f (x :: r)) with (add_of f x + pending f r)%Z. lia.
Qed.

Lemma ginv_run rc l s : rc_data rc <> None -> grpc_run rc grpc_init l = Some s -> ginv rc l s.
Proof.
  intros Hd. apply (run_ind rc (ginv rc) [] grpc_init).
  - split; [reflexivity | intros t [] |]. intros f. destruct f; reflexivity.
  - intros. now apply ginv_call.
  - intros. now apply ginv_step.
Qed.

Lemma ok_adds evs : payloads_ok evs -> forall ev f, In ev evs -> (0 <= adds f ev)%Z.
Proof.
  intros (H1 & H2 & _) ev f Hin. rewrite Forall_forall in H1, H2.
  destruct f, ev; cbn [adds]; try lia.
  - apply H1. apply in_flat_map. eexists. split; [exact Hin|]. now left.
  - apply H2. apply in_flat_map. eexists. split; [exact Hin|]. now left.
Qed.

Lemma handle_nonneg rc ev f : (0 <= adds f ev)%Z -> Forall (fun x => 0 <= add_of f x)%Z (handle_rpc rc ev).
Proof.
  intros H. unfold handle_rpc, stats_handle, trace_handle.
  destruct ev as [cl ff|n w t|n w t|cl e t|]; try destruct e; destruct (rc_data rc) as [[t0 full]|], f; repeat constructor; cbn in *; lia.
Qed.

Lemma pending_nonneg f l : Forall (fun x => 0 <= add_of f x)%Z l -> (0 <= pending f l)%Z.
Proof.
  induction l as [|x l IH]; intros H; [cbn; lia|]. apply Forall_cons_iff in H. destruct H as [H1 H2]. specialize (IH H2).
  change (pending f (x :: l)) with (add_of f x + pending f l)%Z. lia.
Qed.

Lemma suffix_pending_le rc ev pre todo f : rc_data rc <> None -> (0 <= adds f ev)%Z -> handle_rpc rc ev = pre ++ todo -> (0 <= pending f todo <= adds f ev)%Z.
Proof.
  intros Hd H E. pose proof (handle_nonneg rc ev f H) as Hall. rewrite <- (pending_handle rc ev f Hd). rewrite E in *.
  apply Forall_app in Hall. destruct Hall as [H1 H2]. apply pending_nonneg in H1, H2. rewrite pending_app. lia.
Qed.

Definition adds_all (f : counter) (evs : list gevent) : Z := total (map (adds f) evs).

Lemma adds_all_spec evs :
  adds_all SentBytes evs = total (sent_sizes evs) /\ adds_all SentCount evs = Z.of_nat (length (sent_sizes evs)) /\
  adds_all RecvBytes evs = total (received_sizes evs) /\ adds_all RecvCount evs = Z.of_nat (length (received_sizes evs)).
Proof.
  unfold adds_all. induction evs as [|ev evs (I1 & I2 & I3 & I4)]; [auto|].
  unfold sent_sizes, received_sizes in *. cbn [map flat_map]. rewrite !total_app, !app_length. 
  unfold total in *. cbn [fold_right]. rewrite I1, I2, I3, I4. destruct ev; cbn; lia.
Qed.

Lemma adds_all_app f a b : adds_all f (a ++ b) = (adds_all f a + adds_all f b)%Z.
Proof. unfold adds_all. now rewrite map_app, total_app. Qed.

Lemma payloads_bound evs f : payloads_ok evs -> (adds_all f evs < 2 ^ 63)%Z.
Proof.
  intros (_ & _ & H1 & H2 & H3 & H4). destruct (adds_all_spec evs) as (E1 & E2 & E3 & E4). destruct f; lia.
Qed.

Lemma done_bounds rc ts f : rc_data rc <> None ->
  (forall t, In t ts -> exists pre, handle_rpc rc (gt_event t) = pre ++ gt_todo t) ->
  (forall t, In t ts -> 0 <= adds f (gt_event t))%Z ->
  (0 <= adds_all f (flat_map (fun t => match gt_todo t with [] => [gt_event t] | _ => [] end) ts) <= done_all f ts)%Z /\
  (done_all f ts <= adds_all f (map gt_event ts))%Z.
Proof.
  intros Hd Hs Hn. induction ts as [|t ts IH]; [cbn; lia|].
  destruct (Hs t) as (pre & Ep); [now left|]. pose proof (suffix_pending_le _ _ _ _ f Hd (Hn t (or_introl eq_refl)) Ep) as Hp.
  destruct IH as [IH1 IH2]; [intros; apply Hs; now right | intros; apply Hn; now right |].
  cbn [flat_map map]. rewrite done_all_cons, adds_all_app.
  change (adds_all f (gt_event t :: map gt_event ts)) with (adds f (gt_event t) + adds_all f (map gt_event ts))%Z.
  pose proof (Hn t (or_introl eq_refl)). unfold done1 in *. destruct (gt_todo t) as [|x l].
  - change (adds_all f [gt_event t]) with (adds f (gt_event t) + 0)%Z. change (pending f []) with 0%Z in *. lia.
  - change (adds_all f []) with 0%Z. lia.
Qed.

(** The counters of a state: at least what the calls that returned add, at most what all
    calls do; and they never decrease. *)
Lemma cnt_bounds rc l s f : rc_data rc <> None -> ginv rc l s -> payloads_ok (events l) ->
  cn_get (g_cnt s) f = done_all f (g_threads s) /\
  (0 <= adds_all f (returned s) <= cn_get (g_cnt s) f)%Z /\ (cn_get (g_cnt s) f <= adds_all f (events l))%Z.
Proof.
  intros Hd H Hok.
  destruct (done_bounds rc (g_threads s) f Hd (gi_suffix _ _ _ H)) as [B1 B2].
  { intros t Hin. apply (ok_adds (events l) Hok). rewrite <- (gi_events _ _ _ H). now apply in_map. }
  rewrite (gi_events _ _ _ H) in B2. pose proof (payloads_bound (events l) f Hok).
  rewrite (gi_cnt _ _ _ H), int64_of_small by lia. fold (returned s) in B1. lia.
Qed.

Lemma payloads_prefix a b : payloads_ok (a ++ b) -> payloads_ok a.
Proof.
  unfold payloads_ok, sent_sizes, received_sizes. rewrite !flat_map_app, !Forall_app, !total_app, !app_length.
  intros ((H1 & H1') & (H2 & H2') & H3 & H4 & H5 & H6).
  assert (Hp : forall l, Forall (fun n => 0 <= n)%Z l -> (0 <= total l)%Z).
  { unfold total. induction l as [|x l IH]; intros H; cbn; [lia|]. apply Forall_cons_iff in H. destruct H as [Hx H]. specialize (IH H). lia. }
  pose proof (Hp _ H1'). pose proof (Hp _ H2'). repeat split; try assumption; lia.
Qed.

(** ** A call with an End event *)

Definition load_order : list counter := [SentBytes; SentCount; RecvCount; RecvBytes].

Definition end_record (client : bool) (t0 : time) (full : bytes) (rc : rpc_ctx) (e : rpc_err) (now : time) (regs : list Z) : gcall :=
  GCRecord (rc_tags rc)
    [WithTags (if client then [Upsert key_grpc_client_method (method_name full) []; Upsert key_grpc_client_status (status_tag e) []]
               else [Upsert key_grpc_server_status (status_tag e) []]);
     WithAttachments (span_ctx_attachment (rc_span rc));
     WithMeasurements (end_measurements client regs (in_ms (time_sub now t0)))].

Section EndCall.
Variables (rc : rpc_ctx) (t0 : time) (full : bytes) (client : bool) (e : rpc_err) (now : time) (s1 : grpc_state) (n : nat).
Hypothesis Hdata : rc_data rc = Some (t0, full).

Let tail_ : list ginstr := stats_handle rc (GEnd client e now).

Definition reg_bound (s : grpc_state) (regs : list Z) : Prop :=
  forall k v f, nth_error regs k = Some v -> nth_error load_order k = Some f -> (cn_get (g_cnt s1) f <= v <= cn_get (g_cnt s) f)%Z.

Definition end_inv (l : list gact) (s : grpc_state) : Prop :=
  (forall f, cn_get (g_cnt s1) f <= cn_get (g_cnt s) f)%Z /\
  exists t, nth_error (g_threads s) n = Some t /\
    ((exists k, gt_todo t = map GDo k ++ tail_ /\ gt_regs t = []) \/
     (gt_todo t = skipn (length (gt_regs t)) tail_ /\ reg_bound s (gt_regs t) /\ 1 <= length (gt_regs t) <= 4) \/
     (gt_todo t = [] /\ length (gt_regs t) = 4 /\ reg_bound s (gt_regs t) /\ In (end_record client t0 full rc e now (gt_regs t)) (g_calls s))).

Lemma tail_eq : tail_ = map GLoad load_order ++
  [GRecEnd client (rc_tags rc) (if client then [Upsert key_grpc_client_method (method_name full) []; Upsert key_grpc_client_status (status_tag e) []]
               else [Upsert key_grpc_server_status (status_tag e) []]) (span_ctx_attachment (rc_span rc)) (in_ms (time_sub now t0))].
Proof. unfold tail_, stats_handle. rewrite Hdata. reflexivity. Qed.

Lemma calls_grow s i t x r k : In k (g_calls s) -> In k (g_calls (do_instr s i t x r)).
Proof. intros H. destruct x; cbn [do_instr g_calls]; try exact H; apply in_or_app; now left. Qed.

Lemma end_inv_step l s i t x r :
  (forall f, cn_get (g_cnt s) f <= cn_get (g_cnt (do_instr s i t x r)) f)%Z ->
  end_inv l s -> nth_error (g_threads s) i = Some t -> gt_todo t = x :: r -> end_inv (l ++ [GStep i]) (do_instr s i t x r).
Proof.
  intros Hm (Hlow & u & Hn & Hu) En Et. split; [intros f; specialize (Hm f); specialize (Hlow f); lia|].
  assert (Hrb : forall regs, reg_bound s regs -> reg_bound (do_instr s i t x r) regs).
  { intros regs H k v f H1 H2. specialize (H k v f H1 H2). specialize (Hm f). lia. }
  destruct (do_instr_threads s i t x r En) as (a & d & regs & E1 & E2 & E3 & Er).
  destruct (Nat.eq_dec i n) as [->|Hne].
  - rewrite Hn in En. injection En as ->. exists (MkGT (gt_event t) r regs). split.
    { rewrite E3, nth_error_app2 by lia. rewrite E2, Nat.sub_diag. reflexivity. }
    cbn [gt_todo gt_regs]. destruct Hu as [(k & Ek & Eg)|[(Ek & Hb & Hl)|(Ek & _)]]; [| |congruence].
    + rewrite Ek in Et. destruct k as [|y k].
      * cbn [map app] in Et. rewrite tail_eq in Et. cbn [map load_order app] in Et. injection Et as <- <-.
        right. left. rewrite Er, Eg. cbn [app length]. split; [rewrite tail_eq; reflexivity|]. split; [|lia].
        intros j v f H1 H2. destruct j as [|[|j]]; cbn in H1, H2; try discriminate. injection H1 as <-. injection H2 as <-.
        split; [apply Hlow|]. cbn. lia.
      * cbn [map app] in Et. injection Et as <- <-. left. exists k. split; [reflexivity|]. now rewrite Er.
    + rewrite Ek, tail_eq in Et.
      destruct (gt_regs t) as [|v1 [|v2 [|v3 [|v4 [|]]]]] eqn:Eg; cbn [length] in Hl; try lia; cbn [length skipn map load_order app] in Et;
        injection Et as <- <-.
      1,2,3: right; left; rewrite Er; cbn [app length]; split; [rewrite tail_eq; reflexivity|]; split; [|lia];
        intros j v f H1 H2;
        destruct (le_lt_dec (length (gt_regs t)) j) as [Hj|Hj]; rewrite Eg in Hj; cbn [length] in Hj;
        [ destruct j as [|[|[|[|j]]]]; cbn in H1, H2; try lia; try discriminate; try (destruct j; discriminate); injection H1 as <-; injection H2 as <-;
          split; [apply Hlow|]; cbn; lia
        | destruct j as [|[|[|j]]]; cbn in Hj; try lia;
          first [ exact (Hrb _ Hb 0 v f H1 H2) | exact (Hrb _ Hb 1 v f H1 H2) | exact (Hrb _ Hb 2 v f H1 H2) ] ].
      right. right. rewrite Er. split; [reflexivity|]. split; [reflexivity|]. split; [now apply Hrb|].
      cbn [do_instr g_calls]. apply in_or_app. right. left. rewrite Eg. reflexivity.
  - exists u. split.
    { rewrite E3. rewrite E1 in Hn. destruct (Nat.lt_ge_cases n i) as [Hlt|Hge].
      - rewrite nth_error_app1 in Hn |- * by lia. exact Hn.
      - rewrite nth_error_app2 in Hn |- * by lia. rewrite E2 in *. destruct (n - i) as [|j] eqn:Ej; [lia|]. exact Hn. }
    destruct Hu as [Hu|[(Ek & Hb & Hl)|(Ek & Hl & Hb & Hin)]]; [now left | |].
    + right. left. auto.
    + right. right. split; [exact Ek|]. split; [exact Hl|]. split; [now apply Hrb|]. now apply calls_grow.
Qed.
End EndCall.

(** A step does not decrease the counters. *)
Lemma step_grows rc l s i t x r f : rc_data rc <> None -> ginv rc l s -> payloads_ok (events l) ->
  nth_error (g_threads s) i = Some t -> gt_todo t = x :: r ->
  (cn_get (g_cnt s) f <= cn_get (g_cnt (do_instr s i t x r)) f)%Z.
Proof.
  intros Hd H Hok En Et.
  assert (Hin : In t (g_threads s)) by (eapply nth_error_In; eauto).
  destruct (gi_suffix _ _ _ H t Hin) as (pre & Ep).
  assert (Ha : forall f, (0 <= adds f (gt_event t))%Z).
  { intros f'. apply (ok_adds _ Hok). rewrite <- (gi_events _ _ _ H). now apply in_map. }
  destruct x; cbn [do_instr g_cnt]; try lia.
  rewrite cn_get_add' by apply (cnt_range _ _ _ f H).
  pose proof (done_bounds rc (g_threads s) f Hd (gi_suffix _ _ _ H)) as [B1 B2].
  { intros t' Hin'. apply (ok_adds (events l) Hok). rewrite <- (gi_events _ _ _ H). now apply in_map. }
  rewrite (gi_events _ _ _ H) in B2. pose proof (payloads_bound (events l) f Hok).
  rewrite (gi_cnt _ _ _ H). rewrite int64_of_small by lia.
  (* the rest of this thread still has to add [add_of] *)
  destruct (nth_error_split _ _ En) as (a & d & E1 & _).
  assert (Hs : forall t', In t' (a ++ MkGT (gt_event t) r (gt_regs t) :: d) -> exists pre, handle_rpc rc (gt_event t') = pre ++ gt_todo t').
  { intros t' Hin'. apply in_app_or in Hin'. destruct Hin' as [Hin'|[<-|Hin']].
    - apply (gi_suffix _ _ _ H). rewrite E1. apply in_or_app. now left.
    - exists (pre ++ [GAdd f0 n]). cbn. rewrite <- app_assoc, Ep, Et. reflexivity.
    - apply (gi_suffix _ _ _ H). rewrite E1. apply in_or_app. right. now right. }
  assert (Hev : map gt_event (a ++ MkGT (gt_event t) r (gt_regs t) :: d) = events l).
  { rewrite <- (gi_events _ _ _ H), E1, !map_app. reflexivity. }
  destruct (done_bounds rc (a ++ MkGT (gt_event t) r (gt_regs t) :: d) f Hd Hs) as [B3 B4].
  { intros t' Hin'. apply (ok_adds (events l) Hok). rewrite <- Hev. now apply in_map. }
  rewrite Hev in B4. rewrite E1 in *. rewrite done_all_app, done_all_cons in *. unfold done1 in B1, B2, B3, B4 |- *.
  cbn [gt_event gt_todo] in B3, B4. rewrite Et in *.
  replace (pending f (GAdd f0 n :: r)) with (add_of f (GAdd f0 n) + pending f r)%Z in * by reflexivity.
  assert (0 <= add_of f (GAdd f0 n))%Z.
  { pose proof (handle_nonneg rc (gt_event t) f (Ha f)) as Hall.
    rewrite Ep in Hall. rewrite Forall_forall in Hall. apply Hall. apply in_or_app. right. now left. }
  rewrite int64_of_small; lia.
Qed.

Lemma end_call rc t0 full client e now l1 l2 s1 s :
  rc_data rc = Some (t0, full) ->
  grpc_run rc grpc_init l1 = Some s1 ->
  grpc_run rc s1 (GCall (GEnd client e now) :: l2) = Some s ->
  payloads_ok (events (l1 ++ l2)) ->
  (exists t, nth_error (g_threads s) (length (g_threads s1)) = Some t /\ gt_todo t = []) ->
  exists regs, length regs = 4 /\ In (end_record client t0 full rc e now regs) (g_calls s) /\
    forall k v f, nth_error regs k = Some v -> nth_error load_order k = Some f ->
      (cn_get (g_cnt s1) f <= v <= cn_get (g_cnt s) f)%Z.
Proof.
  intros Hdata H1 H2 Hok (t & Hn & Ht).
  assert (Hd : rc_data rc <> None) by congruence.
  set (P := fun l s => payloads_ok (events l) -> ginv rc l s /\ end_inv rc t0 full client e now s1 (length (g_threads s1)) l s).
  assert (Hev : forall a b, payloads_ok (a ++ b) <-> payloads_ok (a ++ GEnd client e now :: b)).
  { intros a b. unfold payloads_ok, sent_sizes, received_sizes. rewrite !flat_map_app. cbn [flat_map app]. reflexivity. }
  assert (HP : P (l1 ++ GCall (GEnd client e now) :: l2) s).
  { destruct (g_panicked s1) eqn:Epan.
    { cbn in H2. unfold grpc_step in H2. rewrite Epan in H2. discriminate. }
    cbn in H2. unfold grpc_step in H2 at 1. rewrite Epan in H2.
    replace (l1 ++ GCall (GEnd client e now) :: l2) with ((l1 ++ [GCall (GEnd client e now)]) ++ l2) by (rewrite <- app_assoc; reflexivity).
    match type of H2 with grpc_run _ ?s0 _ = _ => apply (run_ind rc P (l1 ++ [GCall (GEnd client e now)]) s0) with (l := l2) (s := s) in H2; [exact H2| | |] end.
    - intros Hok0. split.
      + apply ginv_run; [exact Hd|]. eapply run_app_intro; [exact H1|]. cbn. unfold grpc_step. rewrite Epan. reflexivity.
      + split; [intros f; cbn; lia|]. eexists. split.
        * cbn [g_threads]. rewrite nth_error_app2, Nat.sub_diag by lia. reflexivity.
        * left. cbn [gt_todo gt_regs]. unfold handle_rpc, trace_handle.
          destruct e as [|c m|m]; [exists [GCSpan None] | eexists [GCSpan (Some _); GCSpan None] | eexists [GCSpan (Some _); GCSpan None]]; split; reflexivity.
    - intros l' s' ev Hp Hs Hok'. rewrite events_app in Hok'. destruct (Hs (payloads_prefix _ _ Hok')) as [Hg (Hl & u & Hu1 & Hu2)]. split.
      + now apply ginv_call.
      + split; [exact Hl|]. exists u. split; [|exact Hu2]. cbn [g_threads]. rewrite nth_error_app1; [exact Hu1|]. apply nth_error_Some. congruence.
    - intros l' s' i t' x r Hs En Et Hok'. rewrite events_app in Hok'. cbn in Hok'. rewrite app_nil_r in Hok'. destruct (Hs Hok') as [Hg He]. split.
      + now apply ginv_step.
      + apply end_inv_step; try assumption. intros f. eapply step_grows; eauto. }
  destruct HP as [Hg (Hl & u & Hu1 & Hu2)].
  { rewrite events_app in *. change (events (GCall (GEnd client e now) :: l2)) with (GEnd client e now :: events l2).
    apply (proj1 (Hev _ _)). exact Hok. }
  rewrite Hn in Hu1. injection Hu1 as <-.
  destruct Hu2 as [(k & Ek & _)|[(Ek & _ & Hle)|(_ & Hlen & Hb & Hin)]].
  - exfalso. rewrite Ht, (tail_eq rc t0 full client e now Hdata) in Ek. destruct k; discriminate.
  - exfalso. rewrite Ht, (tail_eq rc t0 full client e now Hdata) in Ek.
    destruct (gt_regs t) as [|v1 [|v2 [|v3 [|v4 [|]]]]]; cbn [length] in Hle; try lia; discriminate.
  - exists (gt_regs t). auto.
Qed.

(** ** How often measures are recorded *)

Lemma recorded_app a b : recorded_calls (a ++ b) = recorded_calls a ++ recorded_calls b.
Proof. apply flat_map_app. Qed.
Lemma span_calls_app a b : span_calls (a ++ b) = span_calls a ++ span_calls b.
Proof. apply flat_map_app. Qed.
Lemma times_app name a b : times_recorded name (a ++ b) = times_recorded name a + times_recorded name b.
Proof. unfold times_recorded. rewrite recorded_app, flat_map_app, filter_app, app_length. reflexivity. Qed.

(** The measures recorded once for each RPC on its own: those of starting and the
    latencies. *)
Definition counted_names : list bytes := [me_name gc_started; me_name gs_started; me_name gc_latency; me_name gs_latency].

Definition records_of (name : bytes) (x : ginstr) : nat :=
  match x with
  | GDo k => times_recorded name [k]
  | GRecEnd client _ _ _ _ => if bytes_eqb (me_name (if client then gc_latency else gs_latency)) name then 1 else 0
  | _ => 0
  end.
Definition nsum (l : list nat) : nat := fold_right Nat.add 0 l.
Lemma nsum_app a b : nsum (a ++ b) = nsum a + nsum b.
Proof. unfold nsum. induction a; cbn; lia. Qed.

Lemma end_records name client c mu a regs latency : In name counted_names ->
  times_recorded name [GCRecord c [WithTags mu; WithAttachments a; WithMeasurements (end_measurements client regs latency)]] =
  records_of name (GRecEnd client c mu a latency).
Proof.
  intros Hin. unfold times_recorded, recorded_calls. cbn [flat_map app snd measurements_given records_of].
  rewrite !app_nil_r. unfold end_measurements.
  destruct Hin as [<-|[<-|[<-|[<-|[]]]]]; destruct client, regs as [|v1 [|v2 [|v3 [|v4 regs]]]]; reflexivity.
Qed.

Lemma records_run rc name l s : In name counted_names -> grpc_run rc grpc_init l = Some s ->
  times_recorded name (g_calls s) + nsum (map (fun t => nsum (map (records_of name) (gt_todo t))) (g_threads s)) =
  nsum (map (fun ev => nsum (map (records_of name) (handle_rpc rc ev))) (events l)).
Proof.
  intros Hin. apply (run_ind rc (fun l s => times_recorded name (g_calls s) + nsum (map (fun t => nsum (map (records_of name) (gt_todo t))) (g_threads s)) =
  nsum (map (fun ev => nsum (map (records_of name) (handle_rpc rc ev))) (events l))) [] grpc_init).
  - reflexivity.
  - clear l s. intros l s ev _ IH. cbn [g_calls g_threads]. rewrite events_app, !map_app, !nsum_app, <- IH.
    cbn [map nsum fold_right gt_todo events flat_map app]. unfold nsum. lia.
  - clear l s. intros l s i t x r IH En Et. destruct (do_instr_threads s i t x r En) as (a & d & regs & E1 & E2 & E3 & _).
    rewrite events_app, map_app, nsum_app, E3, map_app, nsum_app. rewrite E1, map_app, nsum_app in IH. cbn [map nsum fold_right gt_todo events flat_map app] in *.
    fold nsum in *. rewrite Et in IH. cbn [map nsum fold_right] in IH. fold (nsum (map (records_of name) r)) in *.
    assert (Hx : times_recorded name (g_calls (do_instr s i t x r)) = times_recorded name (g_calls s) + records_of name x).
    { destruct x; cbn [do_instr g_calls records_of]; try lia; rewrite times_app; [reflexivity|]. f_equal. now apply end_records. }
    unfold nsum in *. lia.
Qed.

Lemma records_handle rc name ev : In name counted_names -> rc_data rc <> None ->
  nsum (map (records_of name) (handle_rpc rc ev)) =
  match ev with
  | GBegin client _ => if bytes_eqb (me_name (if client then gc_started else gs_started)) name then 1 else 0
  | GEnd client _ _ => if bytes_eqb (me_name (if client then gc_latency else gs_latency)) name then 1 else 0
  | _ => 0
  end.
Proof.
  intros Hin Hd. unfold handle_rpc, stats_handle. destruct (rc_data rc) as [[t0 full]|]; [|congruence].
  destruct Hin as [<-|[<-|[<-|[<-|[]]]]]; destruct ev as [[|] ff|n w t|n w t|[|] e t|]; try destruct e; reflexivity.
Qed.

(** ** The span *)

Definition spans_of (x : ginstr) : list (option supd) := match x with GDo (GCSpan u) => [u] | _ => [] end.
Definition todo_spans (t : gthread) : list (option supd) := flat_map spans_of (gt_todo t).

Lemma int32_code c : int32_of (Z.of_N c) = span_code c.
Proof.
  unfold int32_of, span_code. rewrite N2Z.inj_mod. change (Z.of_N (2 ^ 32)) with (2 ^ 32)%Z. pose proof (N2Z.is_nonneg c). set (z := Z.of_N c) in *. clearbody z.
  pose proof (Z.mod_pos_bound z (2 ^ 32) ltac:(lia)). rewrite <- Z.add_mod_idemp_l by lia. set (r := (z mod 2 ^ 32)%Z) in *. clearbody r.
  destruct (Z.ltb_spec r 2147483648).
  - rewrite Z.mod_small; lia.
  - replace (r + 2 ^ 31)%Z with ((r - 2 ^ 31) + 1 * 2 ^ 32)%Z by lia. rewrite Z.mod_add by lia. rewrite Z.mod_small; lia.
Qed.

Lemma spans_handle rc ev : flat_map spans_of (handle_rpc rc ev) = span_ops ev.
Proof.
  unfold handle_rpc, stats_handle, trace_handle, span_ops.
  destruct (rc_data rc) as [[t0 full]|]; destruct ev as [cl ff|n w t|n w t|cl e t|]; try destruct e; cbn [app flat_map spans_of]; rewrite <- ?int32_code; reflexivity.
Qed.

Lemma step_spans s i t x r : span_calls (g_calls (do_instr s i t x r)) = span_calls (g_calls s) ++ spans_of x.
Proof.
  destruct x as [[u|c xs]| | | |]; cbn [do_instr g_calls spans_of]; rewrite ?span_calls_app, ?app_nil_r; try reflexivity.
  all: cbn; now rewrite app_nil_r.
Qed.

Lemma idle_spans ts : (forall t, In t ts -> gt_todo t = []) -> flat_map todo_spans ts = [].
Proof.
  induction ts as [|t ts IH]; intros H; [reflexivity|]. cbn. unfold todo_spans at 1. rewrite (H t (or_introl eq_refl)).
  apply IH. intros; apply H; now right.
Qed.

Lemma spans_run rc s0 l s : idle s0 -> grpc_run rc s0 l = Some s ->
  exists new, span_calls (g_calls s) = span_calls (g_calls s0) ++ new /\
    Permutation (new ++ flat_map todo_spans (g_threads s)) (flat_map span_ops (events l)) /\
    (forall ev, events l = [ev] -> new ++ flat_map todo_spans (g_threads s) = span_ops ev).
Proof.
  intros Hi H.
  set (Q := fun (l : list gact) s => exists new, span_calls (g_calls s) = span_calls (g_calls s0) ++ new /\
    Permutation (new ++ flat_map todo_spans (g_threads s)) (flat_map span_ops (events l)) /\
    (events l = [] -> new = [] /\ forall t, In t (g_threads s) -> gt_todo t = []) /\
    (forall ev, events l = [ev] -> exists a t, g_threads s = a ++ [t] /\ (forall u, In u a -> gt_todo u = []) /\
        new ++ todo_spans t = span_ops ev)).
  assert (HQ : Q l s).
  { apply (run_ind rc Q [] s0) with (l := l) in H; [exact H| | |]; clear l s H.
    - exists []. split; [now rewrite app_nil_r|]. split; [cbn; now rewrite idle_spans|]. split; [auto|]. intros ev E. discriminate.
    - intros l s ev _ (new & E & P & Z & O). exists new. cbn [g_calls g_threads]. split; [exact E|].
      rewrite events_app, !flat_map_app. cbn [events flat_map app]. unfold todo_spans at 2. cbn [gt_todo]. rewrite spans_handle, !app_nil_r.
      split; [rewrite app_assoc; now apply Permutation_app_tail|]. split; [intros En; destruct (events l); discriminate|].
      intros ev' En. destruct (events l) as [|e1 [|]] eqn:El; try discriminate. injection En as <-. destruct (Z eq_refl) as [-> Hz].
      exists (g_threads s). eexists. split; [reflexivity|]. split; [exact Hz|]. cbn. unfold todo_spans. cbn [gt_todo]. apply spans_handle.
    - intros l s i t x r (new & E & P & Z & O) En Et. destruct (do_instr_threads s i t x r En) as (a & d & regs & E1 & E2 & E3 & _).
      exists (new ++ spans_of x). split; [rewrite step_spans, E, app_assoc; reflexivity|]. rewrite events_app. cbn [events flat_map app]. rewrite app_nil_r. split.
      + rewrite <- P, E3, E1, !flat_map_app. cbn [flat_map]. unfold todo_spans at 2 5. cbn [gt_todo]. rewrite Et. cbn [flat_map].
        rewrite <- !app_assoc. apply Permutation_app_head. rewrite app_assoc, (Permutation_app_comm (spans_of x)), <- app_assoc. reflexivity.
      + split.
        * intros Ee. destruct (Z Ee) as [_ Hz]. exfalso. specialize (Hz t). rewrite Hz in Et; [discriminate|]. eapply nth_error_In; eauto.
        * intros ev Ee. destruct (O ev Ee) as (a0 & t1 & F1 & F2 & F3).
          assert (Hd : d = []).
          { destruct d as [|z d]; [reflexivity|].
            destruct (exists_last (l := z :: d)) as (d' & z' & Ez); [discriminate|]. exfalso. rewrite E1, Ez in F1.
            replace (a ++ t :: d' ++ [z']) with ((a ++ t :: d') ++ [z']) in F1 by (rewrite <- app_assoc; reflexivity).
            apply app_inj_tail in F1. destruct F1 as [F1 _]. specialize (F2 t). rewrite F2 in Et; [discriminate|]. rewrite <- F1. apply in_or_app. right. now left. }
          subst d. rewrite E1 in F1. apply app_inj_tail in F1. destruct F1 as [<- <-].
          exists a, (MkGT (gt_event t) r regs). split; [exact E3|]. split; [exact F2|]. rewrite <- F3. unfold todo_spans. cbn [gt_todo]. rewrite Et. cbn [flat_map].
          now rewrite app_assoc. }
  destruct HQ as (new & E & P & Z & O). exists new. split; [exact E|]. split; [exact P|].
  intros ev Ee. destruct (O ev Ee) as (a & t & F1 & F2 & F3). rewrite F1, flat_map_app, (idle_spans a F2). cbn. now rewrite app_nil_r.
Qed.

Lemma idle_events_suffix rc l s : rc_data rc <> None -> grpc_run rc grpc_init l = Some s -> idle s -> returned s = events l.
Proof.
  intros Hd H Hi. rewrite <- (gi_events _ _ _ (ginv_run rc l s Hd H)). unfold returned, idle in *. revert Hi. generalize (g_threads s).
  induction l0 as [|t ts IH]; intros Hi; [reflexivity|]. cbn. rewrite (Hi t (or_introl eq_refl)). cbn. f_equal. apply IH. intros; apply Hi; now right.
Qed.

(** ** What is recorded *)

Definition begin_record (rc : rpc_ctx) (full : bytes) (client : bool) : list ropt :=
  [WithTags [Upsert key_grpc_client_method (method_name full) []]; WithMeasurements [m_int (if client then gc_started else gs_started) 1]].

Lemma record_forms rc l s c xs : grpc_run rc grpc_init l = Some s -> In (c, xs) (recorded_calls (g_calls s)) ->
  exists t0 full, rc_data rc = Some (t0, full) /\ c = rc_tags rc /\
    ((exists client ff, In (GBegin client ff) (events l) /\ xs = begin_record rc full client) \/
     (exists client e now regs, In (GEnd client e now) (events l) /\ GCRecord c xs = end_record client t0 full rc e now regs)).
Proof.
  set (F := fun l c xs => exists t0 full, rc_data rc = Some (t0, full) /\ c = rc_tags rc /\
    ((exists client ff, In (GBegin client ff) (events l) /\ xs = begin_record rc full client) \/
     (exists client e now regs, In (GEnd client e now) (events l) /\ GCRecord c xs = end_record client t0 full rc e now regs))).
  set (P := fun l s => (forall t, In t (g_threads s) -> In (gt_event t) (events l) /\ exists pre, handle_rpc rc (gt_event t) = pre ++ gt_todo t) /\
                       (forall c xs, In (c, xs) (recorded_calls (g_calls s)) -> F l c xs)).
  assert (Hmono : forall l a c xs, F l c xs -> F (l ++ a) c xs).
  { intros l' a c' xs' (t0 & full & E1 & E2 & H). exists t0, full. split; [exact E1|]. split; [exact E2|].
    rewrite events_app. destruct H as [(cl & ff & H & E)|(cl & e & now & regs & H & E)]; [left; exists cl, ff|right; exists cl, e, now, regs];
      (split; [apply in_or_app; now left|exact E]). }
  intros H. enough (P l s) as [_ Hf] by apply Hf.
  apply (run_ind rc P [] grpc_init) with (l := l) in H; [exact H| | |]; clear l s H c xs.
  - split; [intros t []|intros c xs []].
  - intros l s ev _ [H1 H2]. split; cbn [g_threads g_calls].
    + intros t Hin. rewrite events_app. apply in_app_or in Hin. destruct Hin as [Hin|[<-|[]]].
      * destruct (H1 t Hin) as [A B]. split; [apply in_or_app; now left|exact B].
      * split; [apply in_or_app; right; now left|]. exists []. reflexivity.
    + intros c xs Hin. apply Hmono. now apply H2.
  - intros l s i t x r [H1 H2] En Et. destruct (do_instr_threads s i t x r En) as (a & d & regs & E1 & E2 & E3 & _).
    assert (Hin : In t (g_threads s)) by (eapply nth_error_In; eauto). destruct (H1 t Hin) as [Hev (pre & Ep)]. split.
    + intros t' Hin'. rewrite events_app. rewrite E3 in Hin'. apply in_app_or in Hin'. destruct Hin' as [Hin'|[<-|Hin']].
      * destruct (H1 t') as [A B]; [rewrite E1; apply in_or_app; now left|]. split; [apply in_or_app; now left|exact B].
      * split; [apply in_or_app; now left|]. exists (pre ++ [x]). cbn. rewrite <- app_assoc, Ep, Et. reflexivity.
      * destruct (H1 t') as [A B]; [rewrite E1; apply in_or_app; right; now right|]. split; [apply in_or_app; now left|exact B].
    + intros c xs Hc. apply Hmono.
      assert (Hnew : In (c, xs) (recorded_calls (g_calls s)) \/
                     (In x (handle_rpc rc (gt_event t)) /\
                       (x = GDo (GCRecord c xs) \/ exists client mu at_ latency,
                          x = GRecEnd client c mu at_ latency /\ xs = [WithTags mu; WithAttachments at_; WithMeasurements (end_measurements client (gt_regs t) latency)]))).
      { destruct x as [[u|c1 xs1]|f n|f|client c1 mu at_ latency|]; cbn [do_instr g_calls] in Hc; rewrite ?recorded_app in Hc;
          try (left; exact Hc); apply in_app_or in Hc; destruct Hc as [Hc|Hc]; try (now left); cbn in Hc; try (now destruct Hc).
        - destruct Hc as [[= <- <-]|[]]. right. split; [rewrite Ep, Et; apply in_or_app; right; now left|]. now left.
        - destruct Hc as [[= <- <-]|[]]. right. split; [rewrite Ep, Et; apply in_or_app; right; now left|]. right. eauto 10. }
      destruct Hnew as [Hnew|[Hx Hform]]; [now apply H2|]. clear Hc.
      unfold handle_rpc, trace_handle, stats_handle in Hx.
      destruct (rc_data rc) as [[t0 full]|] eqn:Ed.
      2:{ exfalso. destruct Hform as [->|(cl & mu & at_ & lat & -> & _)]; destruct (gt_event t) as [cl' ff|n w t1|n w t1|cl' e t1|]; try destruct e;
            cbn in Hx; decompose [or] Hx; try discriminate; try contradiction. }
      exists t0, full. split; [reflexivity|].
      destruct (gt_event t) as [cl' ff|n w t1|n w t1|cl' e t1|] eqn:Ee; cbn [app] in Hx.
      * destruct Hform as [->|(cl & mu & at_ & lat & -> & _)]; cbn in Hx; decompose [or] Hx; try discriminate; try contradiction.
        match goal with H : GDo (GCRecord _ _) = GDo (GCRecord _ _) |- _ => injection H as <- <- end. split; [reflexivity|]. left. exists cl', ff. split; [exact Hev|reflexivity].
      * exfalso. destruct Hform as [->|(cl & mu & at_ & lat & -> & _)]; cbn in Hx; decompose [or] Hx; try discriminate; try contradiction.
      * exfalso. destruct Hform as [->|(cl & mu & at_ & lat & -> & _)]; cbn in Hx; decompose [or] Hx; try discriminate; try contradiction.
      * destruct Hform as [->|(cl & mu & at_ & lat & -> & ->)].
        -- exfalso. destruct e; cbn in Hx; decompose [or] Hx; try discriminate; try contradiction.
        -- assert (Hx' : GRecEnd cl c mu at_ lat = GRecEnd cl' (rc_tags rc)
             (if cl' then [Upsert key_grpc_client_method (method_name full) []; Upsert key_grpc_client_status (status_tag e) []]
              else [Upsert key_grpc_server_status (status_tag e) []]) (span_ctx_attachment (rc_span rc)) (in_ms (time_sub t1 t0))).
           { destruct e; cbn in Hx; decompose [or] Hx; try discriminate; try contradiction; symmetry; assumption. }
           injection Hx' as -> -> -> -> ->. split; [reflexivity|]. right. exists cl', e, t1, (gt_regs t). split; [exact Hev|reflexivity].
      * destruct Hx.
Qed.

Lemma never_panics rc l s : rc_data rc <> None -> grpc_run rc grpc_init l = Some s -> g_panicked s = false.
Proof.
  intros Hd H.
  set (P := fun (l : list gact) s => g_panicked s = false /\ forall t, In t (g_threads s) -> ~ In GPanic (gt_todo t)).
  assert (HP : P l s); [|apply HP].
  apply (run_ind rc P [] grpc_init) with (l := l) in H; [exact H| | |]; clear l s H.
  - split; [reflexivity|intros t []].
  - intros l s ev _ [H1 H2]. split; [reflexivity|]. cbn [g_threads]. intros t Hin. apply in_app_or in Hin. destruct Hin as [Hin|[<-|[]]]; [now apply H2|].
    cbn [gt_todo]. unfold handle_rpc, trace_handle, stats_handle. destruct (rc_data rc) as [[t0 full]|]; [|congruence].
    destruct ev as [cl ff|n w t|n w t|cl e t|]; try destruct e; cbn; intros Hin; decompose [or] Hin; try discriminate; try contradiction.
  - intros l s i t x r [H1 H2] En Et. destruct (do_instr_threads s i t x r En) as (a & d & regs & E1 & E2 & E3 & _).
    assert (Hin : In t (g_threads s)) by (eapply nth_error_In; eauto). pose proof (H2 t Hin) as Hn. rewrite Et in Hn. split.
    + destruct x; try exact H1. exfalso. apply Hn. now left.
    + rewrite E3. intros t' Hin'. apply in_app_or in Hin'. destruct Hin' as [Hin'|[<-|Hin']].
      * apply H2. rewrite E1. apply in_or_app. now left.
      * cbn. intros Hx. apply Hn. now right.
      * apply H2. rewrite E1. apply in_or_app. right. now right.
Qed.
