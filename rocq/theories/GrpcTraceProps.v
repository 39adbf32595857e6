(** Property theorems for plugin/ocgrpc: tracing (C58) and tag propagation (C65). *)

From Coq Require Import String.
From Coq Require Import List Arith NArith ZArith Bool Lia Permutation.
From Coq Require Import ZifyBool ZifyNat ZifyN.
From Verif Require Import Base GoMap Text Float64 TagModel TagSpec TagProofs TagProps AggModel AggProofs ViewModel WorkerModel WorkerSpec
  RecordModel RecordProps TracestateModel TracestateSpec TraceTypes PropagationModel PropagationSpec PropagationProofs PropagationProps TraceModel
  SpanStoreSpec TracerModel TracerSpec TracerProps HttpModel HttpSpec HttpProofs HttpProps HttpTraceProps HttpServerProps
  GrpcModel GrpcSpec GrpcProofs GrpcProps.
Import ListNotations.
Open Scope nat_scope.

(** ** C58 *)

(** The name of the span: the full method without one leading slash, with a dot for each
    other slash. *)
Definition named_after (full name : bytes) : Prop :=
  exists p, (full = slash :: p \/ (full = p /\ forall b r, p = b :: r -> b <> slash)) /\
    Forall2 (fun a b => (a = slash /\ b = dot) \/ (a <> slash /\ b = a)) p name.

Lemma span_name_spec full : named_after full (span_name full).
Proof.
  unfold named_after, span_name.
  exists (match full with b :: r => if byte_eqb b slash then r else full | [] => [] end). split.
  - destruct full as [|b r]; [right; split; [reflexivity|discriminate]|]. destruct (byte_eqb_spec b slash) as [->|Hn]; [now left|].
    right. split; [reflexivity|]. intros b' r' [= <- _]. exact Hn.
  - generalize (match full with b :: r => if byte_eqb b slash then r else full | [] => [] end). intros p.
    induction p as [|b p IH]; [constructor|]. cbn [map]. constructor; [|exact IH].
    destruct (byte_eqb_spec b slash) as [->|Hn]; auto.
Qed.

(** The client's TagRPC starts a client span, named after the method, with the handler's
    sampler, and adds its context to the metadata, under grpc-trace-bin, and nothing else. *)
Theorem C58_client smp info th c it md wire sc now out :
  client_tag_rpc smp info th c it md wire sc now = Some out ->
  exists full name xs, info = Some full /\ to_start out = (None, name, xs) /\ named_after full name /\
    opt_kind xs = 2%Z /\ opt_sampler xs = smp /\ to_updates out = [] /\
    md_values (to_md out) (bs "grpc-trace-bin") = md_values md (bs "grpc-trace-bin") ++ [binary sc] /\
    (forall k, k <> bs "grpc-trace-bin" -> md_values (to_md out) k = md_values md k) /\
    rc_span (to_ctx out) = Some sc /\ rc_data (to_ctx out) = Some (now, full).
Proof.
  unfold client_tag_rpc. destruct info as [full|]; [|discriminate]. intros H.
  assert (Hout : exists w, out = MkTO (None, span_name full, [WithSampler smp; WithSpanKind kind_client]) [] (md ++ [(trace_context_key, binary sc)]) w th
                             (MkRC (Some (now, full)) c (Some sc))).
  { destruct c as [p|]; [destruct (encode it) as [b|]; [|discriminate]|]; injection H as <-; eauto. }
  destruct Hout as (w & ->). exists full, (span_name full). eexists. split; [reflexivity|]. split; [reflexivity|]. split; [apply span_name_spec|].
  split; [reflexivity|]. split; [reflexivity|]. split; [reflexivity|]. cbn [to_md].
  split; [unfold md_values; rewrite flat_map_app; cbn [flat_map fst snd]; f_equal; vm_compute (bytes_eqb trace_context_key (bs "grpc-trace-bin")); reflexivity|].
  split; [|split; reflexivity].
  intros k Hk. unfold md_values. rewrite flat_map_app. cbn [flat_map fst snd].
  destruct (bytes_eqb_spec trace_context_key k) as [E|_]; [exfalso; apply Hk; rewrite <- E; reflexivity|]. now rewrite app_nil_r.
Qed.

(** The server's TagRPC: a server span with the handler's sampler.  The first value of
    grpc-trace-bin counts, if FromBinary accepts it: it is the remote parent of the span,
    or, at a public endpoint, a link of a span of its own. *)
Theorem C58_server h info th it md wire sc now out :
  server_tag_rpc h info th it md wire sc now = Some out ->
  exists full name xs p, info = Some full /\ to_start out = (p, name, xs) /\ named_after full name /\
    opt_kind xs = 1%Z /\ opt_sampler xs = gsv_sampler h /\ rc_span (to_ctx out) = Some sc /\ rc_data (to_ctx out) = Some (now, full) /\
    match md_values md (bs "grpc-trace-bin") with
    | [] => p = None /\ to_updates out = []
    | b :: _ => exists r, from_binary b = Ok r /\
        match r with
        | None => p = None /\ to_updates out = []
        | Some parent =>
            if gsv_public h then p = None /\ to_updates out = [ULink (MkLnk (sc_trace_id parent) (sc_span_id parent) 1 [])]
            else p = Some parent /\ to_updates out = []
        end
    end.
Proof.
  unfold server_tag_rpc. destruct info as [full|]; [|discriminate]. unfold server_trace_tag. intros H.
  change (bs "grpc-trace-bin") with trace_context_key.
  destruct (server_tags th wire) as [[th' c']|].
  2:{ destruct (match md_values md trace_context_key with [] => _ | _ => _ end) as [[[[? ?] ?] ?]|]; discriminate. }
  destruct (tag_new th' c' it _) as [[th2 c2] e].
  destruct (md_values md trace_context_key) as [|b r].
  - injection H as <-. exists full, (span_name full). do 2 eexists. split; [reflexivity|]. split; [reflexivity|]. split; [apply span_name_spec|].
    split; [reflexivity|]. split; [reflexivity|]. auto.
  - destruct (C41_no_panic b) as ([parent|] & E); rewrite E in *; [destruct (gsv_public h) eqn:Ep; cbn [negb] in H|];
      injection H as <-; exists full, (span_name full); do 2 eexists; (split; [reflexivity|]); (split; [reflexivity|]); (split; [apply span_name_spec|]);
      (split; [reflexivity|]); (split; [reflexivity|]); (split; [reflexivity|]); (split; [reflexivity|]); eexists; (split; [reflexivity|]);
      cbn iota; auto.
Qed.

(** Contexts that cross the wire. *)
Definition grpc_sendable (sc : span_context) : Prop := sc_wf sc /\ sc_span_id sc <> zero_span_id.

Lemma sendable_binary sc : grpc_sendable sc ->
  exists sc', from_binary (binary sc) = Ok (Some sc') /\ sc_trace_id sc' = sc_trace_id sc /\ sc_span_id sc' = sc_span_id sc /\ is_sampled sc' = is_sampled sc.
Proof.
  intros [Hwf Hz]. assert (Hn : sc <> zero_sc) by (intros ->; now apply Hz). eexists. split; [apply (C41_roundtrip sc Hwf Hn)|].
  split; [reflexivity|]. split; [reflexivity|]. unfold is_sampled. cbn [sc_options]. rewrite <- !N.bit0_odd. change 256%N with (2 ^ 8)%N.
  now rewrite N.mod_pow2_bits_low by lia.
Qed.

(** The trace goes on: if the application has not put grpc-trace-bin into the outgoing
    metadata itself, and the metadata arrives, the span of the server (in any history of
    its program) is in the trace of the client's span and has it as remote parent. *)
Theorem C58_continues en1 h1 w1 i si smp info th c it md wire now out h info2 th2 it2 md2 wire2 sc2 now2 out2 p name xs en2 h2 w2 j hj cj :
  trun en1 h1 w1 -> span_at w1 i = Some si -> grpc_sendable (s_context si) ->
  client_tag_rpc smp info th c it md wire (s_context si) now = Some out -> md_values md (bs "grpc-trace-bin") = [] ->
  md_values md2 (bs "grpc-trace-bin") = md_values (to_md out) (bs "grpc-trace-bin") ->
  gsv_public h = false -> server_tag_rpc h info2 th2 it2 md2 wire2 sc2 now2 = Some out2 ->
  to_start out2 = (p, name, xs) ->
  trun en2 h2 w2 -> created h2 j hj cj -> p = (match c_par cj with PCtx q => Some q | _ => None end) -> c_remote cj = true ->
  exists sj q, span_at w2 j = Some sj /\ p = Some q /\
    sc_trace_id (s_context sj) = sc_trace_id (s_context si) /\ is_sampled q = is_sampled (s_context si) /\
    forall e sd, In (e, j, sd) (w_exports w2) ->
      sc_trace_id (sd_context sd) = sc_trace_id (s_context si) /\ sd_parent sd = sc_span_id (s_context si) /\ sd_remote sd = true.
Proof.
  intros H1 Hsi Hsend Hcl Hmd Harr Hpub Hsv Hst H2 Hcj Ep Hrem.
  destruct (C58_client _ _ _ _ _ _ _ _ _ _ Hcl) as (_ & _ & _ & _ & _ & _ & _ & _ & _ & Em & _).
  rewrite Hmd, app_nil_l in Em. rewrite Em in Harr.
  destruct (C58_server _ _ _ _ _ _ _ _ _ Hsv) as (full & name' & xs' & p' & _ & Es & _ & _ & _ & _ & _ & Hr).
  rewrite Harr, Hpub in Hr. destruct Hr as (r & Er & Hr).
  destruct (sendable_binary _ Hsend) as (sc' & Ex & T & S & Sm). rewrite Ex in Er. injection Er as <-. destruct Hr as [-> _].
  rewrite Hst in Es. injection Es as -> <- <-.
  destruct (c_par cj) as [|q|] eqn:Ec; try discriminate. injection Ep as <-.
  destruct (C27_identity _ _ _ _ _ _ H2 Hcj) as (sj & parent & A & B & C & _). rewrite Ec in B. injection B as <-.
  assert (Hz : is_zero_sc sc' = false) by (apply nonzero_sc; rewrite S; apply Hsend). rewrite Hz in C.
  exists sj, sc'. split; [exact A|]. split; [reflexivity|]. split; [congruence|]. split; [exact Sm|].
  intros e sd Hin. destruct (C27_exported _ _ _ _ _ _ H2 Hin) as (s' & h1' & c' & parent' & A' & B' & C' & D' & E' & F').
  destruct (created_fun _ _ _ _ _ _ Hcj B') as [-> ->]. rewrite Ec in C'. injection C' as <-. rewrite Hz in E'.
  rewrite A in A'. injection A' as <-. split; [congruence|]. split; congruence.
Qed.

(** At a public endpoint the server's span starts its own trace and links to the
    client's. *)
Theorem C58_public smp info th c it md wire sc now out h info2 th2 it2 md2 wire2 sc2 now2 out2 :
  grpc_sendable sc -> client_tag_rpc smp info th c it md wire sc now = Some out -> md_values md (bs "grpc-trace-bin") = [] ->
  md_values md2 (bs "grpc-trace-bin") = md_values (to_md out) (bs "grpc-trace-bin") ->
  gsv_public h = true -> server_tag_rpc h info2 th2 it2 md2 wire2 sc2 now2 = Some out2 ->
  fst (fst (to_start out2)) = None /\ to_updates out2 = [ULink (MkLnk (sc_trace_id sc) (sc_span_id sc) 1 [])].
Proof.
  intros Hsend Hcl Hmd Harr Hpub Hsv.
  destruct (C58_client _ _ _ _ _ _ _ _ _ _ Hcl) as (_ & _ & _ & _ & _ & _ & _ & _ & _ & Em & _).
  rewrite Hmd, app_nil_l in Em. rewrite Em in Harr.
  destruct (C58_server _ _ _ _ _ _ _ _ _ Hsv) as (full & name' & xs' & p' & _ & Es & _ & _ & _ & _ & _ & Hr).
  rewrite Harr, Hpub in Hr. destruct Hr as (r & Er & Hr).
  destruct (sendable_binary _ Hsend) as (sc' & Ex & T & S & Sm). rewrite Ex in Er. injection Er as <-. destruct Hr as [-> Hu].
  rewrite Es. split; [reflexivity|]. rewrite Hu, T, S. reflexivity.
Qed.

(** A value that is in the outgoing metadata already, as when a server forwards the
    metadata it got, comes first and is the one the server takes. *)
Definition ex_sc1 : span_context := MkSC (repeat (n2b 1) 16) (repeat (n2b 2) 8) 1 None.
Definition ex_sc0 : span_context := MkSC (repeat (n2b 7) 16) (repeat (n2b 8) 8) 0 None.
Theorem C58_forwarded_refuted : exists md out out2,
  client_tag_rpc None (Some (bs "/a/b")) [] None [] md None ex_sc1 0 = Some out /\
  server_tag_rpc (MkGS false None) (Some (bs "/a/b")) [] [] (to_md out) None ex_sc1 0 = Some out2 /\
  fst (fst (to_start out2)) = Some ex_sc0.
Proof.
  exists [(bs "grpc-trace-bin", binary ex_sc0)]. do 2 eexists. split; [reflexivity|]. split; [vm_compute; reflexivity|]. vm_compute. reflexivity.
Qed.

(** Calls of HandleRPC and the span: calls that overlap each do their part, in some order;
    calls that follow one another do it in that order.  The first statement compares two
    moments at which no call is in progress. *)
Theorem C58_events rc s0 l s :
  idle s0 -> grpc_run rc s0 l = Some s -> idle s ->
  exists new, span_calls (g_calls s) = span_calls (g_calls s0) ++ new /\
    Permutation new (flat_map span_ops (events l)) /\
    (forall ev, events l = [ev] -> new = span_ops ev).
Proof.
  intros I0 H I. destruct (spans_run rc s0 l s I0 H) as (new & E & P & O). rewrite (idle_spans _ I), app_nil_r in *.
  exists new. auto.
Qed.

Lemma span_calls_before_end us : forall evs, Permutation us (flat_map span_ops evs) ->
  (forall client e now, ~ In (GEnd client e now) evs) -> ~ In None us.
Proof.
  intros evs P H Hin. apply (Permutation_in None P) in Hin. apply in_flat_map in Hin. destruct Hin as (ev & Hev & Hin).
  destruct ev as [cl ff|n w t|n w t|cl e t|]; cbn in Hin; try (decompose [or] Hin; discriminate || contradiction). eapply H; eauto.
Qed.

Lemma before_end_all l : ~ In None l -> forall r, before_end (l ++ None :: r) = Some (flat_map (fun u => match u with Some u => [u] | None => [] end) l).
Proof.
  induction l as [|[u|] l IH]; intros H r; [reflexivity| |exfalso; apply H; now left]. cbn. rewrite IH by (intros Hin; apply H; now right). reflexivity.
Qed.

(** The payload events, as message events of the span. *)
Definition message_of (ev : gevent) : list msgevent :=
  match ev with
  | GOut n w t => [MkME t true 0 n w]
  | GIn n w t => [MkME t false 0 n w]
  | _ => []
  end.
Definition rpc_status (e : rpc_err) : list (Z * bytes) :=
  match e with NoError => [] | StatusError c m => [(span_code c, m)] | OtherError m => [(13%Z, m)] end.
Definition rpc_attr (client failfast : bool) (k : bytes) : option attr :=
  if bytes_eq_dec k (bs "Client") then Some (AvBool client)
  else if bytes_eq_dec k (bs "FailFast") then Some (AvBool failfast)
  else None.

(** Selecting parts of the updates respects permutations. *)
Lemma perm_part {A B} (f : A -> list B) l l' : Permutation l l' -> Permutation (flat_map f l) (flat_map f l').
Proof. apply Permutation_flat_map. Qed.

(** One RPC: one Begin, any payloads and other events in any interleaving, then End, when
    all calls have returned.  The span is ended once, by the End call and last; before
    that it got the attributes, a message event for each payload, the link given by
    TagRPC, and the status exactly if there is an error. *)
Theorem C58_span rc l1 l2 s1 s client failfast client' e now lks :
  grpc_run rc grpc_init l1 = Some s1 -> idle s1 ->
  grpc_run rc s1 (GCall (GEnd client' e now) :: l2) = Some s -> idle s -> events l2 = [] ->
  filter (fun ev => match ev with GBegin _ _ => true | _ => false end) (events l1) = [GBegin client failfast] ->
  (forall c e t, ~ In (GEnd c e t) (events l1)) ->
  exists us mes, span_calls (g_calls s) = map Some us ++ [None] /\
    Permutation mes (flat_map message_of (events l1)) /\
    updates_ok (map ULink lks ++ us) (rpc_status e) (rpc_attr client failfast) mes lks.
Proof.
  intros H1 I1 H2 I2 Hl2 Hb He.
  assert (I0 : idle grpc_init) by (intros t []).
  destruct (C58_events rc grpc_init l1 s1 I0 H1 I1) as (n1 & E1 & P1 & _). cbn [grpc_init g_calls span_calls flat_map app] in E1.
  destruct (C58_events rc s1 (GCall (GEnd client' e now) :: l2) s I1 H2 I2) as (n2 & E2 & _ & O2).
  specialize (O2 (GEnd client' e now)). cbn [events flat_map app] in O2. unfold events in Hl2. rewrite Hl2 in O2. specialize (O2 eq_refl).
  pose proof (span_calls_before_end n1 (events l1) P1 He) as Hn1.
  set (g := fun u : option supd => match u with Some u => [u] | None => [] end).
  assert (En1 : n1 = map Some (flat_map g n1)).
  { clear - Hn1. induction n1 as [|[u|] n IH]; [reflexivity| |exfalso; apply Hn1; now left]. cbn. f_equal. apply IH. intros Hin; apply Hn1; now right. }
  set (us := flat_map g n1 ++ map (fun st => USetStatus (fst st) (snd st)) (rpc_status e)).
  exists us, (msgs us). split.
  { rewrite E2, E1, O2. unfold us. rewrite map_app, <- En1, <- app_assoc. f_equal. destruct e; reflexivity. }
  assert (Hpart : forall {B} (f : supd -> list B), Permutation (flat_map f (flat_map g n1)) (flat_map (fun ev => flat_map f (flat_map g (span_ops ev))) (events l1))).
  { intros B f. rewrite (perm_part g _ _ P1) at 1. clear. induction (events l1) as [|ev evs IH]; [reflexivity|]. cbn [flat_map].
    rewrite !flat_map_app, IH. reflexivity. }
  assert (Hst : forall l, map (fun st : Z * bytes => USetStatus (fst st) (snd st)) l = map (fun st => USetStatus (fst st) (snd st)) l) by reflexivity.
  assert (Hs0 : forall l : list (Z * bytes), statuses (map (fun st => USetStatus (fst st) (snd st)) l) = l /\
     sets (map (fun st => USetStatus (fst st) (snd st)) l) = [] /\ msgs (map (fun st => USetStatus (fst st) (snd st)) l) = [] /\
     links (map (fun st => USetStatus (fst st) (snd st)) l) = [] /\ names (map (fun st => USetStatus (fst st) (snd st)) l) = [] /\
     annots (map (fun st => USetStatus (fst st) (snd st)) l) = []).
  { induction l as [|[c m] l (I3 & I4 & I5 & I6 & I7 & I8)]; [repeat split|]. cbn. unfold statuses, sets, msgs, links, names, annots in *.
    rewrite I3, I4, I5, I6, I7, I8. repeat split. }
  assert (Hk0 : forall l, statuses (map ULink l) = [] /\ sets (map ULink l) = [] /\ msgs (map ULink l) = [] /\ links (map ULink l) = l /\
     names (map ULink l) = [] /\ annots (map ULink l) = []).
  { induction l as [|x l (I3 & I4 & I5 & I6 & I7 & I8)]; [repeat split|]. cbn. unfold statuses, sets, msgs, links, names, annots in *.
    rewrite I3, I4, I5, I6, I7, I8. repeat split. }
  destruct (Hs0 (rpc_status e)) as (S1 & S2 & S3 & S4 & S5 & S6). destruct (Hk0 lks) as (K1 & K2 & K3 & K4 & K5 & K6).
  assert (Hempty : forall {B} (f : supd -> list B), (forall ev, In ev (events l1) -> flat_map f (flat_map g (span_ops ev)) = []) -> flat_map f (flat_map g n1) = []).
  { intros B f Hf. apply Permutation_nil. rewrite (Hpart B f). clear - Hf. induction (events l1) as [|ev evs IH]; [constructor|].
    cbn [flat_map]. rewrite Hf by now left. apply IH. intros; apply Hf; now right. }
  assert (Hends : forall ev, In ev (events l1) -> match ev with GEnd _ _ _ => False | _ => True end).
  { intros ev Hin. destruct ev; try exact I. eapply He; eauto. }
  assert (Hsets : sets (flat_map g n1) = [(bs "Client", AvBool client); (bs "FailFast", AvBool failfast)]).
  { (* only one update sets attributes, as there is one Begin *)
    unfold sets.
    assert (Hf : filter (fun u => match u with USetAttrs _ => true | _ => false end) (flat_map g n1) = [USetAttrs [(bs "Client", AvBool client); (bs "FailFast", AvBool failfast)]]).
    { apply Permutation_length_1_inv. symmetry.
      assert (Hff : forall l, filter (fun u => match u with USetAttrs _ => true | _ => false end) l = flat_map (fun u => match u with USetAttrs a => [USetAttrs a] | _ => [] end) l).
      { clear. induction l as [|[] l IH]; cbn; rewrite ?IH; reflexivity. }
      rewrite Hff, (Hpart _ (fun u => match u with USetAttrs a => [USetAttrs a] | _ => [] end)).
      replace [USetAttrs [(bs "Client", AvBool client); (bs "FailFast", AvBool failfast)]]
        with (flat_map (fun ev => match ev with GBegin c f => [USetAttrs [(bs "Client", AvBool c); (bs "FailFast", AvBool f)]] | _ => [] end)
               (filter (fun ev => match ev with GBegin _ _ => true | _ => false end) (events l1))) by (rewrite Hb; reflexivity).
      clear - Hends. induction (events l1) as [|ev evs IH]; [constructor|]. specialize (IH (fun ev H => Hends ev (or_intror H))).
      pose proof (Hends ev (or_introl eq_refl)). destruct ev; cbn [filter flat_map span_ops g app]; try contradiction; try exact IH. now apply perm_skip. }
    clear - Hf. induction (flat_map g n1) as [|u us IH]; [discriminate|]. destruct u; cbn [filter flat_map] in *; try (apply IH; exact Hf).
    injection Hf as -> Hf. assert (Hz : flat_map (fun u => match u with USetAttrs l => l | _ => [] end) us = []).
    { clear - Hf. induction us as [|u us IH]; [reflexivity|]. destruct u; cbn in *; try (apply IH; exact Hf). discriminate. }
    rewrite Hz. reflexivity. }
  assert (Hmsgs : Permutation (msgs (flat_map g n1)) (flat_map message_of (events l1))).
  { unfold msgs. rewrite (Hpart _ _). clear - Hends. induction (events l1) as [|ev evs IH]; [constructor|].
    specialize (IH (fun ev H => Hends ev (or_intror H))). pose proof (Hends ev (or_introl eq_refl)).
    destruct ev; cbn [flat_map span_ops g app message_of]; try contradiction; try exact IH; now apply perm_skip. }
  split; [unfold us; rewrite msgs_app, S3, app_nil_r; exact Hmsgs|].
  unfold us. split.
  - rewrite !statuses_app, K1, S1. unfold statuses at 1. rewrite Hempty; [reflexivity|].
    intros ev Hin. specialize (Hends ev Hin). destruct ev; try contradiction; reflexivity.
  - intros k. rewrite !sets_app, K2, S2, Hsets, app_nil_r. cbn [app]. unfold rpc_attr. 
    destruct (bytes_eq_dec k (bs "Client")) as [->|N1]; [vm_compute; reflexivity|]. destruct (bytes_eq_dec k (bs "FailFast")) as [->|N2]; [vm_compute; reflexivity|].
    unfold last_val. cbn [flat_map fst].
    destruct (bytes_eqb_spec (bs "Client") k); [congruence|]. destruct (bytes_eqb_spec (bs "FailFast") k); [congruence|]. reflexivity.
  - rewrite !sets_app, K2, S2, Hsets. cbn. lia.
  - rewrite !msgs_app, K3. reflexivity.
  - rewrite !links_app, K4, S4. unfold links at 1. rewrite Hempty; [now rewrite app_nil_r|].
    intros ev Hin. specialize (Hends ev Hin). destruct ev; try contradiction; reflexivity.
  - rewrite !names_app, K5, S5. unfold names at 1. rewrite Hempty; [reflexivity|].
    intros ev Hin. specialize (Hends ev Hin). destruct ev; try contradiction; reflexivity.
  - rewrite !annots_app, K6, S6. unfold annots at 1. rewrite Hempty; [reflexivity|].
    intros ev Hin. specialize (Hends ev Hin). destruct ev; try contradiction; reflexivity.
Qed.

(** The exported span of an RPC, in any history of the program in which span [i] is the
    one TagRPC started and HandleRPC updated. *)
Theorem C58_exported en h w x i sd h1 cr hs rc l1 l2 s1 s client failfast client' e now lks :
  trun en h w -> In (x, i, sd) (w_exports w) -> created h i h1 cr -> completed h i hs (sd_end sd) ->
  grpc_run rc grpc_init l1 = Some s1 -> idle s1 ->
  grpc_run rc s1 (GCall (GEnd client' e now) :: l2) = Some s -> idle s -> events l2 = [] ->
  filter (fun ev => match ev with GBegin _ _ => true | _ => false end) (events l1) = [GBegin client failfast] ->
  (forall c e t, ~ In (GEnd c e t) (events l1)) ->
  map Some (map ULink lks) ++ span_calls (g_calls s) = map Some (upds hs i) ++ [None] ->
  (6 <= limit_after ca_attrs 32 h1)%Z ->
  sd_kind sd = opt_kind (c_opts cr) /\ sd_name sd = c_name cr /\
  sd_status sd = (match e with NoError => (0%Z, []) | StatusError c m => (span_code c, m) | OtherError m => (13%Z, m) end) /\
  (forall k, mget bytes_eqb (sd_attrs sd) k = rpc_attr client failfast k) /\
  (exists mes, Permutation mes (flat_map message_of (events l1)) /\ sd_msgs sd = lastn (Z.to_nat (limit_after ca_msgs 128 h1)) mes) /\
  sd_links sd = lastn (Z.to_nat (limit_after ca_links 32 h1)) lks.
Proof.
  intros H Hin Hc Hd H1 I1 H2 I2 E2 Hb He Hu Hlim.
  destruct (C58_span rc l1 l2 s1 s client failfast client' e now lks H1 I1 H2 I2 E2 Hb He) as (us & mes & Es & P & Ho).
  rewrite Es, app_assoc, <- map_app in Hu. apply app_inv_tail in Hu.
  assert (Hu' : map ULink lks ++ us = upds hs i).
  { revert Hu. generalize (map ULink lks ++ us), (upds hs i). clear. induction l as [|a l IH]; intros [|b l'] H; try discriminate; [reflexivity|].
    cbn in H. injection H as -> H. f_equal. now apply IH. }
  rewrite Hu' in Ho. destruct (updates_exported en h w x i sd h1 cr hs _ _ _ _ H Hin Hc Hd Ho Hlim) as (K & N & S & A & M & L & _).
  split; [exact K|]. split; [exact N|]. split; [rewrite S; destruct e; reflexivity|]. split; [exact A|]. split; [|exact L]. eauto.
Qed.

(** One exchange: the client's span is sent, the server's RPC begins, a message goes each
    way at the same time, and it ends with NOT_FOUND. *)
Definition ex_events : list gact :=
  [GCall (GBegin false true); GStep 0; GStep 0; GCall (GIn 3 5 1); GCall (GOut 4 6 2);
   GStep 2; GStep 1; GStep 1; GStep 2; GStep 2; GStep 1].
Example C58_nonvacuous :
  (exists out out2, client_tag_rpc None (Some (bs "/pkg.Svc/Get")) [] None [] [(bs "user", bs "x")] None ex_sc1 7 = Some out /\
     to_start out = (None, bs "pkg.Svc.Get", [WithSampler None; WithSpanKind 2]) /\ grpc_sendable ex_sc1 /\
     server_tag_rpc (MkGS false None) (Some (bs "/pkg.Svc/Get")) [] [] (to_md out) None ex_sc1 8 = Some out2 /\
     fst (fst (to_start out2)) = Some ex_sc1) /\
  (exists s1 s, grpc_run ex_rc grpc_init ex_events = Some s1 /\ idle s1 /\
     grpc_run ex_rc s1 [GCall (GEnd false (StatusError 5 (bs "gone")) 9); GStep 3; GStep 3; GStep 3; GStep 3; GStep 3; GStep 3; GStep 3] = Some s /\ idle s /\
     span_calls (g_calls s) =
       [Some (USetAttrs [(bs "Client", AvBool false); (bs "FailFast", AvBool true)]); Some (UMsg 2 true 0 4 6); Some (UMsg 1 false 0 3 5);
        Some (USetStatus 5 (bs "gone")); None]).
Proof.
  split.
  - do 2 eexists. split; [vm_compute; reflexivity|]. split; [vm_compute; reflexivity|].
    split; [split; [split; [reflexivity|split; [reflexivity|]]|intros E; discriminate E]|]. 2:{ split; [vm_compute; reflexivity|vm_compute; reflexivity]. }
    all: try (cbn; lia).
  - do 2 eexists. split; [vm_compute; reflexivity|]. split; [intros t Ht; repeat (destruct Ht as [<- | Ht]; [reflexivity|]); destruct Ht|].
    split; [vm_compute; reflexivity|]. split; [intros t Ht; repeat (destruct Ht as [<- | Ht]; [reflexivity|]); destruct Ht|].
    vm_compute. reflexivity.
Qed.

(** ** C65 *)

(** Tags that travel: those with unlimited propagation. *)
Definition travelling (f : fmap) : fmap := fun k =>
  match f k with Some c => if Z.eq_dec (c_ttl c) (-1) then Some c else None | None => None end.
(** The method tag the server adds, if the method is a legal tag value. *)
Definition with_method (full : bytes) (f g : fmap) : Prop :=
  exists m, without_slashes full m /\
    (valid_value m -> forall k, g k = fset f (bs "grpc_server_method") (Content m (-1)) k) /\
    (~ valid_value m -> forall k, g k = f k).

(** The server with tags [wire] on the request, in any history of its tag maps: the ones
    decoded, or none if nothing legal came, and the method. *)
Lemma server_tags_general s h full it md wire sc now f :
  tag_reach valid_key s ->
  match wire with
  | Some b => match decode b with DecOk m => Permutation m it /\ (forall k, as_fun m k = f k) | DecErr _ => forall k, f k = None | _ => False end
  | None => forall k, f k = None
  end ->
  exists out, server_tag_rpc h (Some full) (st_heap s) it md wire sc now = Some out /\
    with_method full f (ctx_fun (to_heap out) (rc_tags (to_ctx out))).
Proof.
  intros Hr Hw. unfold server_tag_rpc.
  assert (Htr : exists x, server_trace_tag h full md = Some x).
  { unfold server_trace_tag. destruct (md_values md trace_context_key) as [|b r]; [eauto|].
    destruct (C41_no_panic b) as ([parent|] & ->); [destruct (negb (gsv_public h))|]; eauto. }
  destruct Htr as ([[[p name] opts] us] & ->).
  assert (Hs : exists s' i, tag_reach valid_key s' /\ server_tags (st_heap s) wire = Some (st_heap s', nth i (st_ctxs s') None) /\
             iterates (st_heap s') (nth i (st_ctxs s') None) it /\ forall k, ctx_fun (st_heap s') (nth i (st_ctxs s') None) k = f k).
  { assert (Hnone : (forall k, f k = None) -> exists s' i, tag_reach valid_key s' /\ Some (st_heap s, None) = Some (st_heap s', nth i (st_ctxs s') None) /\
             iterates (st_heap s') (nth i (st_ctxs s') None) it /\ forall k, ctx_fun (st_heap s') (nth i (st_ctxs s') None) k = f k).
    { intros Hf. exists s, (length (st_ctxs s)). rewrite nth_overflow by lia. split; [exact Hr|]. split; [reflexivity|]. split; [exact I|].
      intros k. rewrite Hf. reflexivity. }
    unfold server_tags. destruct wire as [b|]; [|now apply Hnone].
    destruct (decode b) as [m|er| |] eqn:Ed; [|now apply Hnone|contradiction|contradiction]. destruct Hw as [Hp Hf].
    exists (tag_step s (OpDecode 0 b)), (length (st_ctxs s)). split; [now apply reach_decode|].
    cbn [tag_step]. rewrite Ed. cbn [st_heap st_ctxs]. rewrite app_nth2, Nat.sub_diag by lia. cbn [nth].
    assert (Hg : heap_get (st_heap s ++ [m]) (length (st_heap s)) = m) by (unfold heap_get; rewrite app_nth2, Nat.sub_diag by lia; reflexivity).
    split; [reflexivity|]. unfold iterates, ctx_fun, ctx_map. rewrite Hg. split; [exact Hp|exact Hf]. }
  destruct Hs as (s' & i & Hr' & -> & Hit & Hf).
  destruct (tag_new (st_heap s') (nth i (st_ctxs s') None) it _) as [[h2 c2] e] eqn:En.
  eexists. split; [reflexivity|]. cbn [to_heap to_ctx rc_tags]. exists (method_name full). split; [apply method_name_spec|].
  assert (Hwf : Forall (fun p => p < length (st_heap s'))%nat (match nth i (st_ctxs s') None with Some p => [p] | None => [] end)).
  { destruct (reach_wf _ _ Hr') as [_ Hc]. destruct (nth_in_or_default i (st_ctxs s') None) as [Hin | ->]; [|constructor].
    destruct (nth i (st_ctxs s') None) as [q|] eqn:Eq; constructor; [|constructor]. apply (Hc _ q Hin eq_refl). }
  destruct (C03_new s' i it _ h2 c2 e Hr' Hit En) as [Hok Hbad]. split.
  - intros Hv. destruct Hok as [_ Hok]; [intros mu [<- |[]]; exact Hv|]. intros k. rewrite Hok. cbn [fold_left spec_mutate spec_ttl].
    unfold fset. rewrite Hf. reflexivity.
  - intros Hv. destruct Hbad as [_ ->]; [eexists; split; [now left|exact Hv]|]. intros k. rewrite <- Hf.
    assert (Hst : h2 = st_heap (fold_left tag_step [OpNew i it [Upsert key_grpc_server_method (method_name full) []]] s')).
    { cbn [fold_left tag_step]. rewrite En. reflexivity. }
    rewrite Hst. destruct (nth_in_or_default i (st_ctxs s') None) as [Hin | ->]; [|reflexivity].
    now apply (C03_isolation valid_key).
Qed.

(** The tags with unlimited propagation in the client's context arrive at the server, and
    no others; the method is added to them. *)
Theorem C65_arrives s1 p it1 smp info md wire sc now out s2 h full it2 md2 sc2 now2 :
  tag_reach valid_key s1 -> In (Some p) (st_ctxs s1) -> Permutation (heap_get (st_heap s1) p) it1 -> (N.of_nat (length it1) < 2 ^ 50)%N ->
  client_tag_rpc smp info (st_heap s1) (Some p) it1 md wire sc now = Some out ->
  tag_reach valid_key s2 ->
  (forall b m, to_wire_tags out = Some b -> decode b = DecOk m -> Permutation m it2) ->
  exists out2, server_tag_rpc h (Some full) (st_heap s2) it2 md2 (to_wire_tags out) sc2 now2 = Some out2 /\
    with_method full (travelling (ctx_fun (st_heap s1) (Some p))) (ctx_fun (to_heap out2) (rc_tags (to_ctx out2))).
Proof.
  intros H1 Hp Hit Hlen Hcl H2 Hit2. destruct (C01_roundtrip s1 p it1 H1 Hp Hit Hlen) as (b & m & Eb & Ed & Hm).
  unfold client_tag_rpc in Hcl. destruct info as [f|]; [|discriminate]. rewrite Eb in Hcl. injection Hcl as <-. cbn [to_wire_tags] in *.
  apply server_tags_general; [exact H2|]. rewrite Ed. split; [now apply Hit2 with b|]. exact Hm.
Qed.

(** The client never fails to send them. *)
Theorem C65_sent s1 p it1 smp full md wire sc now :
  tag_reach valid_key s1 -> In (Some p) (st_ctxs s1) -> Permutation (heap_get (st_heap s1) p) it1 -> (N.of_nat (length it1) < 2 ^ 50)%N ->
  exists out b, client_tag_rpc smp (Some full) (st_heap s1) (Some p) it1 md wire sc now = Some out /\ to_wire_tags out = Some b /\
    to_heap out = st_heap s1 /\ rc_tags (to_ctx out) = Some p.
Proof.
  intros H1 Hp Hit Hlen. destruct (C01_roundtrip s1 p it1 H1 Hp Hit Hlen) as (b & m & Eb & _).
  unfold client_tag_rpc. rewrite Eb. do 2 eexists. split; [reflexivity|]. split; [reflexivity|]. split; reflexivity.
Qed.

(** Whatever arrives that is not a legal message yields the method alone. *)
Theorem C65_malformed s h full it md wire sc now :
  tag_reach valid_key s ->
  match wire with
  | None => True
  | Some b => (N.of_nat (length b) < 2 ^ 63)%N /\ decode b <> DecPanic /\
      ~ exists ts, message b ts /\ forall k v, In (k, v) ts -> valid_key k /\ valid_value v
  end ->
  exists out, server_tag_rpc h (Some full) (st_heap s) it md wire sc now = Some out /\
    with_method full fempty (ctx_fun (to_heap out) (rc_tags (to_ctx out))).
Proof.
  intros Hr Hw. apply server_tags_general; [exact Hr|]. destruct wire as [b|]; [|reflexivity]. destruct Hw as (Hl & Hp & Hn).
  destruct (decode b) as [m|er| |] eqn:Ed; [|reflexivity|congruence|exact (C02_terminates b Ed)].
  exfalso. apply Hn, (C02_accepts_iff b Hl). eauto.
Qed.

(** TagRPC of the server fails exactly on a nil RPCTagInfo or tags that make Decode
    panic; the trace metadata cannot make it fail. *)
Theorem C65_no_panic h info th it md wire sc now :
  server_tag_rpc h info th it md wire sc now = None <-> info = None \/ exists b, wire = Some b /\ decode b = DecPanic.
Proof.
  unfold server_tag_rpc. destruct info as [full|]; [|split; auto].
  assert (Htr : exists x, server_trace_tag h full md = Some x).
  { unfold server_trace_tag. destruct (md_values md trace_context_key) as [|b r]; [eauto|].
    destruct (C41_no_panic b) as ([parent|] & ->); [destruct (negb (gsv_public h))|]; eauto. }
  destruct Htr as ([[[p name] opts] us] & ->). unfold server_tags. split.
  - intros H. right. destruct wire as [b|]; [|destruct (tag_new _ _ _ _) as [[? ?] ?]; discriminate].
    exists b. split; [reflexivity|]. destruct (decode b) eqn:E; try (destruct (tag_new _ _ _ _) as [[? ?] ?]; discriminate); [reflexivity|].
    destruct (C02_terminates b E).
  - intros [H|(b & -> & ->)]; [discriminate|reflexivity].
Qed.

(** A peer that sends a length of 2^63 or more in grpc-tags-bin makes TagRPC panic, for
    every method, configuration and trace metadata. *)
Theorem C65_remote_panic_refuted : exists b, forall h info th it md sc now, server_tag_rpc h info th it md (Some b) sc now = None.
Proof.
  destruct C02_never_panics_refuted as (b & Hb). exists b. intros. apply C65_no_panic. right. eauto.
Qed.

(** Two tags, one of them local, and the method. *)
Example C65_nonvacuous : let s := fold_left tag_step [OpNew 0 [] [Insert (bs "user") (bs "a b") []; Insert (bs "local") (bs "x") [Some 0%Z]]] tag_init in
  tag_reach valid_key s /\ nth_error (st_ctxs s) 1 = Some (Some 0) /\
  exists out out2, client_tag_rpc None (Some (bs "/s/m")) (st_heap s) (Some 0) (heap_get (st_heap s) 0) [] None ex_sc1 0 = Some out /\
    server_tag_rpc (MkGS true None) (Some (bs "/s/m")) [] [(bs "user", Content (bs "a b") (-1))] [] (to_wire_tags out) ex_sc1 0 = Some out2 /\
    let f := ctx_fun (to_heap out2) (rc_tags (to_ctx out2)) in
    f (bs "user") = Some (Content (bs "a b") (-1)) /\ f (bs "local") = None /\ f (bs "grpc_server_method") = Some (Content (bs "s/m") (-1)).
Proof.
  intros s. split.
  - apply reach_new; [apply reach_init|exact I|]. intros mu [<- |[<- |[]]]; cbn [mutator_key]; (split; [cbn; lia|]; apply check_value_spec; reflexivity).
  - split; [reflexivity|]. do 2 eexists. split; [vm_compute; reflexivity|]. split; [vm_compute; reflexivity|].
    cbv zeta. split; [vm_compute; reflexivity|]. split; vm_compute; reflexivity.
Qed.

Print Assumptions C58_client.
Print Assumptions C58_server.
Print Assumptions C58_continues.
Print Assumptions C58_public.
Print Assumptions C58_forwarded_refuted.
Print Assumptions C58_events.
Print Assumptions C58_span.
Print Assumptions C58_exported.
Print Assumptions C65_arrives.
Print Assumptions C65_sent.
Print Assumptions C65_malformed.
Print Assumptions C65_no_panic.
Print Assumptions C65_remote_panic_refuted.
