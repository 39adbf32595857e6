(** Property theorems for plugin/ocgrpc: C57 to C59, C65. *)

From Coq Require Import String.
From Coq Require Import List Arith NArith ZArith Bool Lia Permutation.
From Coq Require Import ZifyBool ZifyNat ZifyN.
From Verif Require Import Base GoMap Text Float64 TagModel TagSpec TagProofs TagProps AggModel AggProofs ViewModel WorkerModel WorkerSpec
  RecordModel RecordProps TracestateModel TracestateSpec TraceTypes PropagationModel PropagationSpec PropagationProofs PropagationProps TraceModel
  SpanStoreSpec TracerModel TracerSpec TracerProps HttpModel HttpSpec HttpProofs HttpProps HttpTraceProps HttpServerProps
  GrpcModel GrpcSpec GrpcProofs.
Import ListNotations.
Open Scope nat_scope.

(** ** C59: names of status codes *)

(** Each code has its canonical name; a code without one is shown by its number. *)
Theorem C59_status e : status_shown e (status_tag e).
Proof.
  destruct e as [|c m|m]; [reflexivity| |reflexivity]. cbn [status_shown status_tag].
  destruct (N.ltb_spec c 17) as [H|H].
  - assert (Hc : In c (map N.of_nat (seq 0 17))).
    { apply in_map_iff. exists (N.to_nat c). split; [lia|]. apply in_seq. lia. }
    clear H. cbn [map seq N.of_nat Pos.of_succ_nat Pos.succ] in Hc.
    repeat (destruct Hc as [<-|Hc]; [vm_compute; reflexivity|]). destruct Hc.
  - assert (Hn : nth_error status_names (N.to_nat c) = None) by (apply nth_error_None; cbn; lia). rewrite Hn.
    exists (itoa (Z.of_N c)). split; [|apply itoa_decimal].
    unfold status_code_to_string. destruct c as [|p]; [lia|]. do 5 (destruct p as [p|p|]; try lia; try reflexivity).
Qed.

Lemma decimal_fun z z' s : decimal z s -> decimal z' s -> z = z'.
Proof.
  intros (ds & n & Hv & Hne & _ & Hc) (ds' & n' & Hv' & Hne' & _ & Hc').
  assert (Hminus : forall l m r, dec_value 0 (n2b 45 :: l) = Some m -> r = false -> False).
  { intros l m r H _. apply dec_value_iff in H. destruct H as [H _]. inversion H; subst. vm_compute in H2. destruct H2 as [H2 _]. now apply H2. }
  destruct Hc as [(Hz & -> & E)|(Hz & -> & E)], Hc' as [(Hz' & E1 & E')|(Hz' & E1 & E')].
  - subst ds'. congruence.
  - exfalso. rewrite E1 in Hv. eapply Hminus; eauto.
  - exfalso. rewrite <- E1 in Hv'. eapply Hminus; eauto.
  - assert (ds = ds') by congruence. subst ds'. congruence.
Qed.

(** Two codes never share a name. *)
Theorem C59_injective c1 m1 c2 m2 s :
  status_shown (StatusError c1 m1) s -> status_shown (StatusError c2 m2) s -> c1 = c2.
Proof.
  cbn [status_shown]. intros H1 H2.
  assert (Hnames : NoDup status_names).
  { unfold status_names. repeat (constructor; [intros Hin; vm_compute in Hin; repeat (destruct Hin as [Hin|Hin]; [discriminate|]); destruct Hin|]). constructor. }
  assert (Hcode : forall c n d, nth_error status_names (N.to_nat c) = Some n -> n <> bs "CODE_" ++ d).
  { intros c n d Hn. apply nth_error_In in Hn. intros ->. unfold status_names in Hn.
    repeat (destruct Hn as [Hn|Hn]; [vm_compute in Hn; discriminate|]). destruct Hn. }
  destruct (nth_error status_names (N.to_nat c1)) as [n1|] eqn:E1, (nth_error status_names (N.to_nat c2)) as [n2|] eqn:E2.
  - subst n1 n2. assert (N.to_nat c1 = N.to_nat c2); [|lia].
    eapply NoDup_nth_error; [exact Hnames|apply nth_error_Some; congruence|congruence].
  - destruct H2 as (d & -> & _). exfalso. apply (Hcode c1 n1 d E1). now symmetry.
  - destruct H1 as (d & -> & _). exfalso. apply (Hcode c2 n2 d E2). now symmetry.
  - destruct H1 as (d & -> & D1), H2 as (d' & E & D2). apply app_inv_head in E. subst d'.
    pose proof (decimal_fun _ _ _ D1 D2). lia.
Qed.

(** The name is a legal tag value. *)
Theorem C59_valid e : (match e with StatusError c _ => (c < 2 ^ 32)%N | _ => True end) -> valid_value (status_tag e).
Proof.
  intros Hc. pose proof (C59_status e) as H. destruct e as [|c m|m]; cbn [status_shown] in H.
  - rewrite H. apply check_value_spec. reflexivity.
  - destruct (nth_error status_names (N.to_nat c)) as [n|] eqn:E.
    + rewrite H. apply nth_error_In in E. clear H. unfold status_names in E.
      repeat (destruct E as [<-|E]; [apply check_value_spec; reflexivity|]). destruct E.
    + destruct H as (d & -> & D).
      assert (Hz : (0 <= Z.of_N c < 2 ^ 32)%Z) by lia.
      pose proof D as D0. apply decimal_valid in D0; [|lia]. destruct D0 as [_ Hp]. split.
      * destruct D as (ds & n & Hv & _ & Hl & Hcase). destruct Hcase as [(_ & -> & Ez)|(Hneg & _)]; [|lia].
        rewrite app_length. change (length (bs "CODE_")) with 5. destruct Hl as [->|Hl]; [lia|].
        assert (length ds <= 10)%nat; [|lia]. apply Nat.nlt_ge. intros Hlt.
        assert (10 ^ 10 <= 10 ^ N.of_nat (length ds - 1))%N by (apply N.pow_le_mono_r; lia). lia.
      * apply Forall_app. split; [|exact Hp]. apply (check_value_spec (bs "CODE_")). reflexivity.
  - rewrite H. split; [cbn; lia|constructor].
Qed.

(** The error of an RPC that is not a status error is tagged with an empty status,
    although its span gets the status Internal. *)
Theorem C59_other_error_refuted : exists e, e <> NoError /\ status_tag e = [] /\
  In (GDo (GCSpan (Some (USetStatus 13 (bs "boom"))))) (trace_handle (GEnd true e 0)).
Proof. exists (OtherError (bs "boom")). split; [discriminate|]. split; [reflexivity|]. now left. Qed.

Example C59_nonvacuous :
  status_tag (StatusError 14 []) = bs "UNAVAILABLE" /\ status_tag (StatusError 4294967295 []) = bs "CODE_4294967295".
Proof. split; vm_compute; reflexivity. Qed.

Print Assumptions C59_status.
Print Assumptions C59_injective.
Print Assumptions C59_valid.
Print Assumptions C59_other_error_refuted.

(** ** C57: accounting *)

Lemma method_name_spec full : without_slashes full (method_name full).
Proof.
  induction full as [|b r IH]; [exists 0; split; [reflexivity|discriminate]|]. cbn [method_name].
  destruct (byte_eqb b slash) eqn:E.
  - destruct IH as (n & E1 & E2). exists (S n). split; [|exact E2]. cbn. assert (b = slash) as ->.
    { destruct (byte_eqb_spec b slash); [assumption|discriminate]. } now rewrite <- E1.
  - exists 0. split; [reflexivity|]. intros b' r' [= <- <-] ->. destruct (byte_eqb_spec slash slash); congruence.
Qed.

Lemma without_slashes_fun full m m' : without_slashes full m -> without_slashes full m' -> m = m'.
Proof.
  intros (n & -> & H) (n' & E & H'). revert n' E. induction n as [|n IH]; intros [|n'] E; cbn in *.
  - exact E.
  - exfalso. destruct m as [|b r]; [discriminate|]. injection E as -> _. now apply (H _ _ eq_refl).
  - exfalso. destruct m' as [|b r]; [discriminate|]. injection E as <- _. now apply (H' _ _ eq_refl).
  - injection E as E. now apply (IH n').
Qed.

(** The measurements of a completed RPC. *)
Definition rpc_measurements (client : bool) (sent_bytes sent recv recv_bytes : Z) (latency : f64) : list (bytes * f64) :=
  if client then
    [(bs "grpc.io/client/sent_bytes_per_rpc", f_of_Z sent_bytes); (bs "grpc.io/client/sent_messages_per_rpc", f_of_Z sent);
     (bs "grpc.io/client/received_messages_per_rpc", f_of_Z recv); (bs "grpc.io/client/received_bytes_per_rpc", f_of_Z recv_bytes);
     (bs "grpc.io/client/roundtrip_latency", latency)]
  else
    [(bs "grpc.io/server/sent_bytes_per_rpc", f_of_Z sent_bytes); (bs "grpc.io/server/sent_messages_per_rpc", f_of_Z sent);
     (bs "grpc.io/server/received_messages_per_rpc", f_of_Z recv); (bs "grpc.io/server/received_bytes_per_rpc", f_of_Z recv_bytes);
     (bs "grpc.io/server/server_latency", latency)].

(** Its tags. *)
Definition rpc_tags (client : bool) (m st : bytes) : list mutator :=
  if client then [Upsert (bs "grpc_client_method") m []; Upsert (bs "grpc_client_status") st []]
  else [Upsert (bs "grpc_server_status") st []].

(** The exemplar attachment: the context of the span, if there is one and it is sampled. *)
Definition span_attached (sc : option span_context) : attachments :=
  match sc with Some sc => if is_sampled sc then [(bs "SpanContext", binary sc)] else [] | None => [] end.

(** In every schedule: a call for an End event records once it has returned the five
    measurements of the RPC.  A count or sum includes all payloads whose calls had
    returned before the call for End, and no payload whose call was not made. *)
Theorem C57_accounting rc t0 full client e now l1 l2 s1 s m :
  rc_data rc = Some (t0, full) -> without_slashes full m -> clock_ok t0 now ->
  grpc_run rc grpc_init l1 = Some s1 ->
  grpc_run rc s1 (GCall (GEnd client e now) :: l2) = Some s ->
  payloads_ok (events (l1 ++ l2)) ->
  (exists t, nth_error (g_threads s) (length (g_threads s1)) = Some t /\ gt_todo t = []) ->
  exists xs sb sc rc_ rb st,
    In (rc_tags rc, xs) (recorded_calls (g_calls s)) /\
    named (measurements_given xs) = rpc_measurements client sb sc rc_ rb (ms_between t0 now) /\
    tags_given xs = rpc_tags client m st /\ status_shown e st /\
    attachments_given xs = span_attached (rc_span rc) /\
    (total (sent_sizes (returned s1)) <= sb <= total (sent_sizes (events (l1 ++ l2))))%Z /\
    (Z.of_nat (length (sent_sizes (returned s1))) <= sc <= Z.of_nat (length (sent_sizes (events (l1 ++ l2)))))%Z /\
    (Z.of_nat (length (received_sizes (returned s1))) <= rc_ <= Z.of_nat (length (received_sizes (events (l1 ++ l2)))))%Z /\
    (total (received_sizes (returned s1)) <= rb <= total (received_sizes (events (l1 ++ l2))))%Z.
Proof.
  intros Hdata Hm Hclock H1 H2 Hok Ht.
  destruct (end_call rc t0 full client e now l1 l2 s1 s Hdata H1 H2 Hok Ht) as (regs & Hlen & Hin & Hb).
  assert (Hd : rc_data rc <> None) by congruence.
  pose proof (ginv_run rc l1 s1 Hd H1) as G1.
  assert (H3 : grpc_run rc grpc_init (l1 ++ GCall (GEnd client e now) :: l2) = Some s) by (eapply run_app_intro; eauto).
  pose proof (ginv_run rc _ s Hd H3) as G2.
  assert (Hev : events (l1 ++ GCall (GEnd client e now) :: l2) = events l1 ++ GEnd client e now :: events l2) by (now rewrite events_app).
  assert (Hok2 : payloads_ok (events (l1 ++ GCall (GEnd client e now) :: l2))).
  { rewrite Hev. rewrite events_app in Hok. unfold payloads_ok, sent_sizes, received_sizes in *. rewrite !flat_map_app in *. exact Hok. }
  assert (Hok1 : payloads_ok (events l1)) by (rewrite events_app in Hok; eapply payloads_prefix; eauto).
  assert (B : forall f, (adds_all f (returned s1) <= cn_get (g_cnt s1) f)%Z /\ (cn_get (g_cnt s) f <= adds_all f (events (l1 ++ l2)))%Z).
  { intros f. destruct (cnt_bounds rc l1 s1 f Hd G1 Hok1) as (_ & X & _). destruct (cnt_bounds rc _ s f Hd G2 Hok2) as (_ & _ & Y). split; [lia|].
    replace (adds_all f (events (l1 ++ l2))) with (adds_all f (events (l1 ++ GCall (GEnd client e now) :: l2))); [exact Y|].
    rewrite Hev, events_app, !adds_all_app. f_equal. unfold adds_all, total. cbn [map fold_right adds]. destruct f; reflexivity. }
  destruct (adds_all_spec (returned s1)) as (A1 & A2 & A3 & A4). destruct (adds_all_spec (events (l1 ++ l2))) as (A5 & A6 & A7 & A8).
  destruct regs as [|sb [|sc [|rm [|rb [|]]]]]; try discriminate Hlen.
  pose proof (Hb 0 sb SentBytes eq_refl eq_refl). pose proof (Hb 1 sc SentCount eq_refl eq_refl).
  pose proof (Hb 2 rm RecvCount eq_refl eq_refl). pose proof (Hb 3 rb RecvBytes eq_refl eq_refl).
  pose proof (B SentBytes). pose proof (B SentCount). pose proof (B RecvCount). pose proof (B RecvBytes).
  eexists _, sb, sc, rm, rb, (status_tag e). split; [|split; [|split; [|split; [apply C59_status|split; [|lia]]]]].
  - apply in_flat_map. eexists. split; [exact Hin|]. now left.
  - cbn [measurements_given flat_map app end_measurements]. rewrite app_nil_r. rewrite (time_sub_ok _ _ Hclock). destruct client; reflexivity.
  - cbn [tags_given flat_map]. rewrite app_nil_r, (without_slashes_fun _ _ _ Hm (method_name_spec full)). destruct client; reflexivity.
  - cbn [attachments_given flat_map]. now rewrite app_nil_r.
Qed.

(** If all calls for payloads have returned when HandleRPC is called for End, and no
    others follow, the sums and counts are those of all payloads of the RPC. *)
Theorem C57_exact rc t0 full client e now l1 l2 s1 s m :
  rc_data rc = Some (t0, full) -> without_slashes full m -> clock_ok t0 now ->
  grpc_run rc grpc_init l1 = Some s1 -> idle s1 ->
  grpc_run rc s1 (GCall (GEnd client e now) :: l2) = Some s -> idle s ->
  payloads_ok (events l1) -> sent_sizes (events l2) = [] -> received_sizes (events l2) = [] ->
  let sent := sent_sizes (events l1) in let received := received_sizes (events l1) in
  exists xs st, In (rc_tags rc, xs) (recorded_calls (g_calls s)) /\
    named (measurements_given xs) = rpc_measurements client (total sent) (Z.of_nat (length sent)) (Z.of_nat (length received)) (total received) (ms_between t0 now) /\
    tags_given xs = rpc_tags client m st /\ status_shown e st /\ attachments_given xs = span_attached (rc_span rc).
Proof.
  intros Hdata Hm Hclock H1 I1 H2 I2 Hok Hs2 Hr2 sent received. subst sent received.
  assert (Hd : rc_data rc <> None) by congruence.
  assert (ES : sent_sizes (events (l1 ++ l2)) = sent_sizes (events l1)).
  { rewrite events_app. unfold sent_sizes in *. now rewrite flat_map_app, Hs2, app_nil_r. }
  assert (ER : received_sizes (events (l1 ++ l2)) = received_sizes (events l1)).
  { rewrite events_app. unfold received_sizes in *. now rewrite flat_map_app, Hr2, app_nil_r. }
  destruct (C57_accounting rc t0 full client e now l1 l2 s1 s m Hdata Hm Hclock H1 H2) as (xs & sb & sc & rm & rb & st & A & B & C & D & E0 & E1 & E2 & E3 & E4).
  - unfold payloads_ok in *. rewrite ES, ER. exact Hok.
  - assert (H3 : grpc_run rc grpc_init (l1 ++ GCall (GEnd client e now) :: l2) = Some s) by (eapply run_app_intro; eauto).
    assert (Hlt : length (g_threads s1) < length (g_threads s)).
    { pose proof (gi_events _ _ _ (ginv_run rc l1 s1 Hd H1)) as X1. pose proof (gi_events _ _ _ (ginv_run rc _ s Hd H3)) as X2.
      rewrite events_app in X2. apply (f_equal (@length _)) in X1, X2. rewrite map_length in X1, X2. rewrite app_length in X2. cbn in X2. lia. }
    destruct (nth_error (g_threads s) (length (g_threads s1))) as [t|] eqn:En; [|apply nth_error_None in En; lia].
    exists t. split; [reflexivity|]. apply I2. eapply nth_error_In; eauto.
  - rewrite (idle_events_suffix rc l1 s1 Hd H1 I1), ES, ER in *.
    exists xs, st. split; [exact A|]. split; [|auto]. rewrite B. f_equal; lia.
Qed.

(** Started and completed RPCs are counted once for each Begin and each End event: in a
    schedule in which all calls return, the measure of started RPCs is recorded exactly
    once for each Begin, and the latency exactly once for each End. *)
Definition begins (client : bool) (evs : list gevent) : nat :=
  length (filter (fun ev => match ev with GBegin c _ => Bool.eqb c client | _ => false end) evs).
Definition ends (client : bool) (evs : list gevent) : nat :=
  length (filter (fun ev => match ev with GEnd c _ _ => Bool.eqb c client | _ => false end) evs).

Theorem C57_once rc l s :
  rc_data rc <> None -> grpc_run rc grpc_init l = Some s -> idle s ->
  times_recorded (bs "grpc.io/client/started_rpcs") (g_calls s) = begins true (events l) /\
  times_recorded (bs "grpc.io/server/started_rpcs") (g_calls s) = begins false (events l) /\
  times_recorded (bs "grpc.io/client/roundtrip_latency") (g_calls s) = ends true (events l) /\
  times_recorded (bs "grpc.io/server/server_latency") (g_calls s) = ends false (events l).
Proof.
  intros Hd H Hi.
  assert (Hz : forall name, nsum (map (fun t => nsum (map (records_of name) (gt_todo t))) (g_threads s)) = 0).
  { intros name. unfold idle in Hi. revert Hi. generalize (g_threads s). induction l0 as [|t ts IH]; intros Hi; [reflexivity|].
    cbn. rewrite (Hi t (or_introl eq_refl)). cbn. apply IH. intros; apply Hi; now right. }
  assert (Hw : forall name (p : gevent -> bool), In name counted_names ->
     (forall ev, nsum (map (records_of name) (handle_rpc rc ev)) = if p ev then 1 else 0) ->
     times_recorded name (g_calls s) = length (filter p (events l))).
  { intros name p Hin Hp. pose proof (records_run rc name l s Hin H) as Hr. rewrite Hz, Nat.add_0_r in Hr. rewrite Hr. clear - Hp.
    induction (events l) as [|ev evs IH]; [reflexivity|]. cbn [map filter].
    assert (Hc : forall a b, nsum (a :: b) = a + nsum b) by reflexivity. rewrite Hc, Hp, IH. destruct (p ev); reflexivity. }
  assert (Hin : In (bs "grpc.io/client/started_rpcs") counted_names /\ In (bs "grpc.io/server/started_rpcs") counted_names /\
    In (bs "grpc.io/client/roundtrip_latency") counted_names /\ In (bs "grpc.io/server/server_latency") counted_names).
  { split; [left; reflexivity|]. split; [right; left; reflexivity|]. split; [right; right; left; reflexivity|]. right; right; right; left; reflexivity. }
  destruct Hin as (N1 & N2 & N3 & N4). unfold begins, ends.
  split; [|split; [|split]]; (apply Hw; [assumption|]); intros ev; rewrite records_handle by assumption;
    destruct ev as [[|] ff|n w t|n w t|[|] e t|]; reflexivity.
Qed.

(** What reaches the views: a recording whose measures have a view is delivered with the
    tags of the RPC's context and those given.  If the method is not a legal tag value,
    the recordings that are tagged with it are lost. *)
Theorem C57_delivered rc t0 full m l s c xs u h w ts i it hp' out :
  rc_data rc = Some (t0, full) -> without_slashes full m ->
  grpc_run rc grpc_init l = Some s -> In (c, xs) (recorded_calls (g_calls s)) ->
  (forall client code msg now, In (GEnd client (StatusError code msg) now) (events l) -> (code < 2 ^ 32)%N) ->
  u_ok u -> Forall (cmd_ok u) h -> wrun u h w ->
  tag_reach valid_key ts -> c = nth i (st_ctxs ts) None -> iterates (st_heap ts) c it ->
  (exists x, In x (measurements_given xs) /\ has_view u h x) ->
  api_record_opts true (w_subs w) (st_heap ts) c it xs = (hp', out) ->
  (valid_value m \/ ~ In (Upsert (bs "grpc_client_method") m []) (tags_given xs) ->
     exists tm, out = RecRet None (Some (MkSent default_recorder tm (measurements_given xs) (attachments_given xs))) /\
       forall k, (match tm with Some t => as_fun t | None => fempty end) k =
         fold_left (fun f mu => spec_mutate mu f) (tags_given xs) (ctx_fun (st_heap ts) c) k) /\
  (~ valid_value m -> In (Upsert (bs "grpc_client_method") m []) (tags_given xs) -> exists e, out = RecRet (Some e) None).
Proof.
  intros Hdata Hm Hrun Hin Hcodes U Hok Hw Hts Hc Hit Hview Hrec.
  pose proof (without_slashes_fun _ _ _ Hm (method_name_spec full)) as Em.
  destruct (record_forms rc l s c xs Hrun Hin) as (t0' & full' & Hd' & _ & Hform). rewrite Hdata in Hd'. injection Hd' as <- <-.
  assert (Hx : opt_ms xs = measurements_given xs /\ opt_mut xs = tags_given xs /\ opt_att xs = attachments_given xs /\ opt_rec xs = default_recorder /\
               ~ In None (opt_ms xs) /\
               ((tags_given xs = [Upsert (bs "grpc_client_method") m []]) \/
                (exists st, valid_value st /\ (tags_given xs = [Upsert (bs "grpc_client_method") m []; Upsert (bs "grpc_client_status") st []] \/
                                               tags_given xs = [Upsert (bs "grpc_server_status") st []])))).
  { destruct Hform as [(client & ff & Hev & ->)|(client & e & now & regs & Hev & E)].
    - unfold begin_record. rewrite <- Em. split; [reflexivity|]. split; [reflexivity|]. split; [reflexivity|]. split; [reflexivity|].
      split; [intros [H|[]]; discriminate|]. left. reflexivity.
    - injection E as _ ->. rewrite <- Em. cbn [opt_ms opt_mut opt_att opt_rec fold_left measurements_given tags_given attachments_given flat_map app].
      unfold opt_ms, opt_mut, opt_att, opt_rec. cbn [fold_left]. rewrite !app_nil_r.
      split; [reflexivity|]. split; [reflexivity|]. split; [reflexivity|]. split; [reflexivity|]. split.
      + intros H. unfold end_measurements in H. apply in_app_or in H. destruct H as [H|[H|[]]]; [|discriminate].
        apply in_map_iff in H. destruct H as (mv & H & _). discriminate.
      + right. exists (status_tag e). split.
        * apply C59_valid. destruct e; try exact I. eapply Hcodes; eauto.
        * destruct client; [left|right]; reflexivity. }
  destruct Hx as (X1 & X2 & X3 & X4 & X5 & X6).
  subst c. destruct (C16_record_with_options u h w ts i it xs hp' out U Hok Hw X5 Hts Hit Hrec) as [_ H16].
  rewrite X1 in H16. destruct (H16 Hview) as [Hbad Hgood]. rewrite X2 in *. rewrite X3, X4 in Hgood. split.
  - intros Hv. apply Hgood. intros mu Hmu. destruct X6 as [X6|(st & Hst & [X6|X6])]; rewrite X6 in *; cbn in Hmu.
    + destruct Hmu as [<-|[]]. destruct Hv as [Hv|Hv]; [exact Hv|]. exfalso. apply Hv. now left.
    + destruct Hmu as [<-|[<-|[]]]; [|exact Hst]. destruct Hv as [Hv|Hv]; [exact Hv|]. exfalso. apply Hv. now left.
    + destruct Hmu as [<-|[]]. exact Hst.
  - intros Hv Hmu. apply Hbad. eexists. split; [exact Hmu|]. exact Hv.
Qed.

(** HandleRPC does not panic in a context that comes from TagRPC ... *)
Theorem C57_no_panic rc l s : rc_data rc <> None -> grpc_run rc grpc_init l = Some s -> g_panicked s = false.
Proof. exact (never_panics rc l s). Qed.

(** ... but in another context it does, at Begin: it only logs that the data is missing,
    and then uses it. *)
Theorem C57_untagged_refuted : exists rc l s, rc_data rc = None /\ grpc_run rc grpc_init l = Some s /\ g_panicked s = true.
Proof.
  exists (MkRC None None None), [GCall (GBegin true false); GStep 0; GStep 0]. eexists. split; [reflexivity|]. split; [vm_compute; reflexivity|]. reflexivity.
Qed.

(** The other events are safe there: nothing is recorded, and the program goes on. *)
Theorem C57_untagged rc l s : rc_data rc = None -> grpc_run rc grpc_init l = Some s ->
  recorded_calls (g_calls s) = [] /\ ((forall client ff, ~ In (GBegin client ff) (events l)) -> g_panicked s = false).
Proof.
  intros Hd H.
  set (quiet := fun x => match x with GDo (GCSpan _) | GPanic => True | _ => False end).
  set (begun := exists client ff, In (GBegin client ff) (events l)).
  assert (G : forall l0 s0 s', grpc_run rc s0 l0 = Some s' -> (forall ev, In ev (events l0) -> In ev (events l)) ->
    (forall t, In t (g_threads s0) -> Forall quiet (gt_todo t) /\ (In GPanic (gt_todo t) -> begun)) -> recorded_calls (g_calls s0) = [] -> (g_panicked s0 = true -> begun) ->
    recorded_calls (g_calls s') = [] /\ (g_panicked s' = true -> begun)).
  { induction l0 as [|a l0 IH]; intros s0 s' Hr He Ht Hc Hp; [injection Hr as <-; auto|]. cbn [grpc_run] in Hr.
    destruct (grpc_step rc s0 a) as [s1|] eqn:E; [|discriminate Hr]. unfold grpc_step in E. destruct (g_panicked s0) eqn:Ep; [discriminate E|]. destruct a as [ev|i].
    - injection E as <-. apply (IH _ _ Hr); [intros ev' Hev; apply He; right; exact Hev| |exact Hc|discriminate].
      intros t Hin. cbn [g_threads] in Hin. apply in_app_or in Hin. destruct Hin as [Hin|[<-|[]]]; [exact (Ht t Hin)|]. cbn [gt_todo].
      unfold handle_rpc, stats_handle. rewrite Hd. split.
      + destruct ev as [cl ff|n wr t|n wr t|cl [|c msg|msg] t|]; cbn; repeat constructor.
      + intros Hg. assert (B : exists cl ff, ev = GBegin cl ff).
        { destruct ev as [cl ff|n wr t|n wr t|cl [|c msg|msg] t|]; cbn in Hg; try (eexists _, _; reflexivity); exfalso; intuition discriminate. }
        destruct B as (cl & ff & ->). exists cl, ff. apply He. left. reflexivity.
    - destruct (nth_error (g_threads s0) i) as [t|] eqn:En; [|discriminate E]. destruct (gt_todo t) as [|x r] eqn:Et; [discriminate E|]. injection E as <-.
      assert (Hin : In t (g_threads s0)) by (eapply nth_error_In; eauto). destruct (Ht t Hin) as [Q P]. rewrite Et in Q, P. apply Forall_cons_iff in Q. destruct Q as [Qx Qr].
      apply (IH _ _ Hr); [exact He| | |].
      + assert (U : forall regs t', In t' (upd (g_threads s0) i (fun _ => MkGT (gt_event t) r regs)) -> Forall quiet (gt_todo t') /\ (In GPanic (gt_todo t') -> begun)).
        { intros regs t' Hin'. apply In_nth_error in Hin'. destruct Hin' as (j & Hj). rewrite nth_error_upd in Hj. destruct (Nat.eqb_spec i j) as [->|].
          - rewrite En in Hj. cbn [option_map] in Hj. injection Hj as <-. cbn [gt_todo]. split; [exact Qr|]. intros Hg. apply P. right. exact Hg.
          - apply Ht. eapply nth_error_In; eauto. }
        destruct x as [[u|]| | | |]; try contradiction; exact (U (gt_regs t)).
      + destruct x as [[u|]| | | |]; try contradiction; cbn [do_instr g_calls]; [|exact Hc]. unfold recorded_calls in *. rewrite flat_map_app, Hc. reflexivity.
      + destruct x as [[u|]| | | |]; try contradiction; cbn [do_instr g_panicked]; [rewrite Ep; discriminate|]. intros _. apply P. left. reflexivity. }
  destruct (G l grpc_init s H (fun ev Hev => Hev)) as [G1 G2]; [intros t []|reflexivity|discriminate|]. split; [exact G1|].
  intros Hn. destruct (g_panicked s); [|reflexivity]. destruct (G2 eq_refl) as (cl & ff & Hb). exfalso. exact (Hn cl ff Hb).
Qed.

(** The started RPCs of a server are tagged with the method as that of a client. *)
Definition ex_rc : rpc_ctx := MkRC (Some (0%Z, bs "//pkg.Svc/Get")) None None.
Theorem C57_server_started_refuted : exists l s xs,
  grpc_run ex_rc grpc_init l = Some s /\ recorded_calls (g_calls s) = [(None, xs)] /\
  named (measurements_given xs) = [(bs "grpc.io/server/started_rpcs", f_of_Z 1)] /\
  tags_given xs = [Upsert (bs "grpc_client_method") (bs "pkg.Svc/Get") []].
Proof.
  exists [GCall (GBegin false false); GStep 0; GStep 0]. eexists _, _. split; [vm_compute; reflexivity|]. split; [reflexivity|]. split; vm_compute; reflexivity.
Qed.

(** An RPC with overlapping calls for two payloads sent and one received. *)
Definition ex_l1 : list gact :=
  [GCall (GBegin true false); GStep 0; GStep 0; GCall (GOut 5 7 1); GCall (GIn 3 4 1); GStep 1; GStep 2; GStep 2; GStep 1;
   GCall (GOut 6 8 2); GStep 3; GStep 3; GStep 1; GStep 2; GStep 3].
Definition ex_l2 : list gact := [GStep 4; GStep 4; GStep 4; GStep 4; GStep 4; GStep 4; GStep 4].
Example C57_nonvacuous : exists s1 s,
  grpc_run ex_rc grpc_init ex_l1 = Some s1 /\ idle s1 /\
  grpc_run ex_rc s1 (GCall (GEnd true (StatusError 14 []) 9000000) :: ex_l2) = Some s /\ idle s /\
  payloads_ok (events ex_l1) /\ clock_ok 0 9000000 /\ without_slashes (bs "//pkg.Svc/Get") (bs "pkg.Svc/Get") /\
  total (sent_sizes (events ex_l1)) = 11%Z /\ length (recorded_calls (g_calls s)) = 2 /\
  begins true (events ex_l1) = 1.
Proof.
  eexists _, _. split; [vm_compute; reflexivity|].
  split; [intros t Hin; cbn in Hin; decompose [or] Hin; subst; try reflexivity; contradiction|].
  split; [vm_compute; reflexivity|].
  split; [intros t Hin; cbn in Hin; decompose [or] Hin; subst; try reflexivity; contradiction|].
  split; [unfold payloads_ok; cbn; repeat split; repeat constructor; lia|].
  split; [unfold clock_ok; lia|]. split; [exact (method_name_spec (bs "//pkg.Svc/Get"))|].
  split; [reflexivity|]. split; reflexivity.
Qed.

Print Assumptions C57_accounting.
Print Assumptions C57_exact.
Print Assumptions C57_once.
Print Assumptions C57_delivered.
Print Assumptions C57_no_panic.
Print Assumptions C57_untagged_refuted.
Print Assumptions C57_server_started_refuted.
Print Assumptions C57_untagged.
