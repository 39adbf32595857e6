(** Property theorems for the server handler of plugin/ochttp, for propagation between
    client and server and for the wrappers: C55 and C62 to C64. *)

From Coq Require Import String.
From Coq Require Import List Arith NArith ZArith Bool Lia Permutation.
From Coq Require Import ZifyBool ZifyNat ZifyN.
From Verif Require Import Base GoMap Text Float64 TagModel TagSpec TagProofs TagProps AggModel AggProofs ViewModel WorkerModel WorkerSpec
  RecordModel RecordProps TracestateModel TracestateSpec TraceTypes PropagationModel PropagationSpec PropagationProofs PropagationProps TraceModel
  SpanStoreSpec TracerModel TracerSpec TracerProps HttpModel HttpSpec HttpProofs HttpProps HttpTraceProps.
Import ListNotations.
Open Scope nat_scope.

(** ** C55 *)

(** Traced: neither of the health paths, nor a health endpoint by the handler's option. *)
Definition traced (h : handler) (r : request) : Prop := hd_health h = false /\ plain r.

Lemma traced_health h r : traced h r -> hd_health h || is_health_endpoint (rq_path r) = false.
Proof. intros [-> Hp]. now rewrite (plain_health _ Hp). Qed.

(** The size of the request body, if known. *)
Definition body_size (r : request) : option Z :=
  match rq_body r with SomeBody => Some (Z.max 0 (rq_length r)) | _ => None end.
Definition server_measurements (req : option Z) (sent : Z) (latency : f64) : list (bytes * f64) :=
  [(bs "opencensus.io/http/server/latency", latency); (bs "opencensus.io/http/server/response_bytes", f_of_Z sent)] ++
  match req with Some n => [(bs "opencensus.io/http/server/request_bytes", f_of_Z n)] | None => [] end.

Lemma writes_quiet s l : let cs := map (fun x : Z * time => KSet s (UMsg (snd x) true 0 (fst x) (-1))) l in
  counts cs = [] /\ records cs = [] /\ started cs = [] /\ ~ In (KEnd SOwn) cs /\
  on_span cs = match s with SOwn => map (fun x => Some (UMsg (snd x) true 0 (fst x) (-1))) l | SOuter => [] end.
Proof.
  cbv zeta. induction l as [|x l (H1 & H2 & H3 & H4 & H5)]; [repeat split; auto; destruct s; reflexivity|]. cbn [map].
  split; [exact H1|]. split; [exact H2|]. split; [exact H3|]. split; [intros [H | H]; [discriminate | auto]|].
  match goal with |- on_span (?a :: ?b) = _ => change (a :: b) with ([a] ++ b) end. rewrite on_span_app.
  rewrite H5. destruct s; reflexivity.
Qed.

Lemma start_trace_quiet h r hdr t0 pre st : start_trace h r hdr t0 = Ok (pre, st) ->
  counts pre = [] /\ records pre = [] /\ ~ In (KEnd SOwn) pre /\ st = negb (hd_health h || is_health_endpoint (rq_path r)).
Proof.
  unfold start_trace. destruct (hd_health h || is_health_endpoint (rq_path r)).
  - intros E. injection E as <- <-. repeat split; auto.
  - destruct (fmt_from _ hdr) as [ext| |]; try discriminate. intros E. injection E as <- <-.
    destruct (rq_body r), (0 <? rq_length r)%Z, ext as [sc|], (hd_public h); (split; [reflexivity|]; split; [reflexivity|]; split; [|reflexivity]);
      intros H; cbn [In app] in H; decompose [or] H; try discriminate; contradiction.
Qed.

(** Stats, for every request, health endpoints included: before the handler runs one
    request is counted; when it has returned or panicked one completion is recorded,
    with the status of the last WriteHeader (200 if there was none), the routes that were
    set and the bytes passed to Write.  ServeHTTP panics if the handler does. *)
Theorem C55_stats h r hdr th c it ops t0 t1 :
  clock_ok t0 t1 -> (0 <= bytes_written (performed ops) < 2 ^ 63)%Z ->
  let out := serve_http h r hdr th c it ops t0 t1 in
  let c' := snd (fst (tag_new th c it (server_tags r))) in
  let P := performed ops in
  so_panic out = panics ops /\
  exists before after, so_calls out = before ++ KHandler :: after /\
    (exists ms, counts before = [(c', ms)] /\ named ms = [(bs "opencensus.io/http/server/request_count", f_of_Z 1)]) /\
    records before = [] /\ counts after = [] /\
    exists st ms, decimal (status_of P) st /\
      records after = [(c', Upsert (bs "http.status") st [] :: map (fun x => Upsert (bs "http_server_route") x []) (routes P), ms)] /\
      named ms = server_measurements (body_size r) (bytes_written P) (ms_between t0 t1).
Proof.
  intros Hc Hb out c' P. subst out c'. unfold serve_http.
  destruct (start_trace h r hdr t0) as [[pre st]| |] eqn:Es.
  2,3: exfalso; unfold start_trace in Es; destruct (hd_health h || _); [discriminate|];
       destruct (fmt_from_ok (fmt_or_default (hd_format h)) hdr) as (x & Ex); rewrite Ex in Es; discriminate.
  destruct (start_trace_quiet _ _ _ _ _ _ Es) as (Q1 & Q2 & Q3 & Q4).
  destruct (tag_new th c it (server_tags r)) as [[th' c'] e]. rewrite run_hops_spec. fold P. cbn [fst snd so_panic so_calls].
  split; [reflexivity|].
  set (s := if st then SOwn else SOuter). destruct (writes_quiet s (written P)) as (W1 & W2 & W3 & W4 & W5).
  exists (pre ++ [KRecord c' [m_int server_request_count 1]]). eexists.
  split; [rewrite <- app_assoc; reflexivity|].
  rewrite counts_app, Q1. split; [eexists; split; reflexivity|]. rewrite records_app, Q2. split; [reflexivity|].
  rewrite !counts_app, !records_app, W1, W2. unfold server_end.
  assert (Hend : counts (if st then [KEnd SOwn] else []) = [] /\ records (if st then [KEnd SOwn] else []) = []) by (destruct st; auto).
  destruct Hend as [-> ->]. rewrite !app_nil_r. cbn [app sw_status sw_resp sw_tags].
  split; [reflexivity|].
  exists (itoa (status_of P)). eexists. split; [apply itoa_decimal|]. split.
  - cbn [records flat_map app]. unfold status_of. reflexivity.
  - unfold server_measurements, ms_between, in_ms. rewrite time_sub_ok by exact Hc.
    fold P in Hb. rewrite int64_of_small by (clearbody P; lia). cbn [named flat_map m_int m_float me_name server_latency server_response_bytes app].
    do 2 f_equal. unfold server_req_size, body_size. destruct (rq_body r); try reflexivity.
    destruct (Z.ltb_spec 0 (rq_length r)).
    + replace (Z.max 0 (rq_length r)) with (rq_length r) by lia. destruct (Z.leb_spec 0 (rq_length r)); [reflexivity | lia].
    + replace (Z.max 0 (rq_length r)) with 0%Z by lia. reflexivity.
Qed.

(** The message events: the body of the request, if its length is known, and what the
    handler wrote. *)
Definition server_events (r : request) (t0 : time) (P : list hop) : list msgevent :=
  match rq_body r with SomeBody => if (0 <? rq_length r)%Z then [MkME t0 false 0 (rq_length r) (-1)] else [] | _ => [] end ++
  map (fun x => MkME (snd x) true 0 (fst x) (-1)) (written P).

Lemma written_updates l : let us := map (fun x : Z * time => UMsg (snd x) true 0 (fst x) (-1)) l in
  statuses us = [] /\ sets us = [] /\ msgs us = map (fun x => MkME (snd x) true 0 (fst x) (-1)) l /\ links us = [] /\ names us = [] /\ annots us = [].
Proof.
  cbv zeta. induction l as [|x l (H1 & H2 & H3 & H4 & H5 & H6)]; [repeat split|]. cbn [map].
  repeat split; cbn; try assumption. f_equal. exact H3.
Qed.

Lemma before_end_some us : before_end (map Some us ++ [None]) = Some us.
Proof. induction us as [|u us IH]; [reflexivity|]. cbn. now rewrite IH. Qed.

(** The span of a traced request: started before the handler runs, as a server span whose
    parent is the context of the request's headers (or, at a public endpoint, linked to
    it); ended once, as the last thing done, also when the handler panics; by then with
    the attributes and the status of the response. *)
Theorem C55_span h r hdr th c it ops t0 t1 :
  traced h r ->
  let out := serve_http h r hdr th c it ops t0 t1 in
  let P := performed ops in
  let name := match hd_name h with Some n => n | None => rq_path r end in
  exists ext before after us,
    fmt_from (chosen_format (hd_format h)) hdr = Ok ext /\
    so_calls out = before ++ KHandler :: after ++ [KEnd SOwn] /\ ~ In (KEnd SOwn) (before ++ after) /\
    (exists xs, started before = [(if hd_public h then None else ext, name, xs)] /\ opt_sampler xs = hd_sampler h /\ opt_kind xs = 1%Z) /\
    started after = [] /\
    before_end (on_span (so_calls out)) = Some us /\
    updates_ok us [trace_status (status_of P)] (http_attr r (Some (status_of P))) (server_events r t0 P)
      (match ext with Some sc => if hd_public h then [MkLnk (sc_trace_id sc) (sc_span_id sc) 2 []] else [] | None => [] end).
Proof.
  change chosen_format with fmt_or_default.
  intros Ht out P name. subst out. unfold serve_http.
  destruct (fmt_from_ok (fmt_or_default (hd_format h)) hdr) as (ext & Ex). exists ext.
  destruct (start_trace h r hdr t0) as [[pre st]| |] eqn:Es.
  2,3: exfalso; unfold start_trace in Es; destruct (hd_health h || _); [discriminate|]; rewrite Ex in Es; discriminate.
  destruct (start_trace_quiet _ _ _ _ _ _ Es) as (Q1 & Q2 & Q3 & Q4).
  unfold start_trace in Es. rewrite (traced_health _ _ Ht) in Es, Q4. rewrite Ex in Es. subst st. injection Es as Epre.
  destruct (tag_new th c it (server_tags r)) as [[th' c'] e]. rewrite run_hops_spec. fold P. cbn [so_calls negb].
  destruct (writes_quiet SOwn (written P)) as (W1 & W2 & W3 & W4 & W5).
  set (w := MkSW _ _ _) in *.
  pose (ls := match ext with Some sc => if hd_public h then [ULink (MkLnk (sc_trace_id sc) (sc_span_id sc) 2 [])] else [] | None => [] end).
  pose (rs := match rq_body r with SomeBody => if (0 <? rq_length r)%Z then [UMsg t0 false 0 (rq_length r) (-1)] else [] | _ => [] end).
  pose (us := ls ++ [USetAttrs (request_attrs r)] ++ rs ++ map (fun x : Z * time => UMsg (snd x) true 0 (fst x) (-1)) (written P) ++
              [u_status (trace_status (status_of P)); USetAttrs [(bs "http.status_code", AvInt (status_of P))]]).
  exists (pre ++ [KRecord c' [m_int server_request_count 1]]),
         (map (fun x : Z * time => KSet SOwn (UMsg (snd x) true 0 (fst x) (-1))) (written P) ++ server_end SOwn c' (server_req_size r) t0 w t1), us.
  split; [exact Ex|]. split; [rewrite <- !app_assoc; reflexivity|].
  split. { intros H. repeat (apply in_app_or in H; destruct H as [H|H]); auto; cbn in H; decompose [or] H; try discriminate; contradiction. }
  split. { rewrite started_app, <- Epre, app_nil_r. eexists.
    split; [destruct (rq_body r), (0 <? rq_length r)%Z, ext as [sc|], (hd_public h); reflexivity|]. split; reflexivity. }
  split; [rewrite started_app, W3; reflexivity|].
  assert (Eon : on_span (pre ++ [KRecord c' [m_int server_request_count 1]; KHandler] ++
       map (fun x : Z * time => KSet SOwn (UMsg (snd x) true 0 (fst x) (-1))) (written P) ++
       server_end SOwn c' (server_req_size r) t0 w t1 ++ [KEnd SOwn]) = map Some us ++ [None]).
  { rewrite !on_span_app, W5. unfold us. rewrite !map_app, map_map, <- !app_assoc.
    assert (E1 : on_span pre = map Some ls ++ map Some [USetAttrs (request_attrs r)] ++ map Some rs).
    { rewrite <- Epre. unfold ls, rs. destruct (rq_body r), (0 <? rq_length r)%Z, ext as [sc|], (hd_public h); reflexivity. }
    rewrite E1, <- !app_assoc. reflexivity. }
  split.
  { rewrite Eon. apply before_end_some. }
  subst us. destruct (written_updates (written P)) as (U1 & U2 & U3 & U4 & U5 & U6).
  assert (Hls : statuses ls = [] /\ sets ls = [] /\ msgs ls = [] /\ names ls = [] /\ annots ls = []).
  { unfold ls. destruct ext; [destruct (hd_public h)|]; repeat split. }
  assert (Hrs : statuses rs = [] /\ sets rs = [] /\ links rs = [] /\ names rs = [] /\ annots rs = []).
  { unfold rs. destruct (rq_body r); try (repeat split; fail). destruct (0 <? rq_length r)%Z; repeat split. }
  destruct Hls as (L1 & L2 & L3 & L4 & L5). destruct Hrs as (R1 & R2 & R3 & R4 & R5).
  split.
  - rewrite !statuses_app, U1, L1, R1. destruct (trace_status (status_of P)). reflexivity.
  - intros k. rewrite !sets_app, U2, L2, R2. cbn [sets flat_map app u_status]. rewrite !app_nil_r. apply response_attrs_spec.
  - rewrite !sets_app, U2, L2, R2. cbn [sets flat_map app u_status]. rewrite !app_nil_r, app_length. pose proof (request_attrs_few r). cbn [length]. lia.
  - rewrite !msgs_app, U3, L3. cbn [msgs flat_map app u_status]. rewrite app_nil_r. unfold server_events. f_equal.
    unfold rs. destruct (rq_body r); try reflexivity. destruct (0 <? rq_length r)%Z; reflexivity.
  - rewrite !links_app, U4, R3. cbn [links flat_map app u_status]. rewrite app_nil_r. unfold ls. destruct ext; [destruct (hd_public h)|]; reflexivity.
  - rewrite !names_app, U5, L4, R4. reflexivity.
  - rewrite !annots_app, U6, L5, R5. reflexivity.
Qed.

(** A health endpoint gets no span. *)
Theorem C55_health h r hdr th c it ops t0 t1 :
  hd_health h = true \/ rq_path r = bs "/healthz" \/ rq_path r = bs "/_ah/health" ->
  let out := serve_http h r hdr th c it ops t0 t1 in
  started (so_calls out) = [] /\ on_span (so_calls out) = [].
Proof.
  intros Hh. assert (E : hd_health h || is_health_endpoint (rq_path r) = true).
  { destruct Hh as [-> | [-> | ->]]; [reflexivity | |]; now rewrite orb_true_r. }
  cbv zeta. unfold serve_http, start_trace. rewrite E. destruct (tag_new th c it (server_tags r)) as [[th' c'] e].
  rewrite run_hops_spec. cbn [so_calls app]. destruct (writes_quiet SOuter (written (performed ops))) as (W1 & W2 & W3 & W4 & W5).
  match goal with |- started (?a :: ?b :: ?l) = _ /\ _ => change (started (a :: b :: l)) with (started l); change (on_span (a :: b :: l)) with (on_span l) end.
  rewrite !started_app, !on_span_app, W3, W5. split; reflexivity.
Qed.

(** The tags of the context in which the handler runs and stats are recorded. *)
Theorem C55_tags s i it r h' c' e :
  tag_reach valid_key s -> let c := nth i (st_ctxs s) None in iterates (st_heap s) c it ->
  tag_new (st_heap s) c it (server_tags r) = (h', c', e) ->
  (valid_request r -> forall k, ctx_fun h' c' k = server_ctx_tags r (ctx_fun (st_heap s) c) k) /\
  (~ valid_request r -> forall k, ctx_fun h' c' k = ctx_fun (st_heap s) c k).
Proof.
  intros Hr c Hit En. destruct (ctx_tags s i it r _ h' c' e (server_mutators r) Hr Hit En) as (H1 & H2 & _). split; [|exact H2].
  intros Hv k. rewrite (H1 Hv). cbn [server_tags fold_left spec_mutate]. rewrite !fset_at. reflexivity.
Qed.

Lemma fold_routes l : forall (f : fmap) k,
  fold_left (fun f mu => spec_mutate mu f) (map (fun x => Upsert (bs "http_server_route") x []) l) f k =
  if bytes_eq_dec k (bs "http_server_route") then match rev l with x :: _ => Some (Content x (-1)) | [] => f k end else f k.
Proof.
  induction l as [|x l IH] using rev_ind; intros f k; [cbn; destruct (bytes_eq_dec k _); reflexivity|].
  rewrite map_app, fold_left_app, rev_app_distr. cbn [map fold_left spec_mutate rev app]. rewrite fset_at.
  destruct (bytes_eq_dec k (bs "http_server_route")) as [E|E]; [reflexivity|]. rewrite IH.
  destruct (bytes_eq_dec k _); [contradiction | reflexivity].
Qed.

(** What the recording of a completion delivers to the views, if one of its measures has a
    registered view: the caller's tags with host, path, method and status set, and the
    last route.  A route that is not a valid tag value costs the whole recording. *)
Theorem C55_delivered u h w s i it r th' c' e status st rts ms it' hp' out :
  u_ok u -> Forall (cmd_ok u) h -> wrun u h w ->
  tag_reach valid_key s -> let c := nth i (st_ctxs s) None in iterates (st_heap s) c it ->
  tag_new (st_heap s) c it (server_tags r) = (th', c', e) -> valid_request r ->
  (- 2 ^ 63 <= status < 2 ^ 63)%Z -> decimal status st ->
  ~ In None ms -> (exists m, In m ms /\ has_view u h m) -> iterates th' c' it' ->
  api_record_tags true (w_subs w) th' c' it'
    (Upsert (bs "http.status") st [] :: map (fun x => Upsert (bs "http_server_route") x []) rts) ms = (hp', out) ->
  (Forall valid_value rts ->
   exists tm, out = RecRet None (Some (MkSent default_recorder tm ms [])) /\
    forall k, (match tm with Some m => as_fun m | None => fempty end) k =
      if bytes_eq_dec k (bs "http_server_route")
      then match rev rts with x :: _ => Some (Content x (-1)) | [] => ctx_fun (st_heap s) c k end
      else if bytes_eq_dec k (bs "http.status") then Some (Content st (-1))
      else server_ctx_tags r (ctx_fun (st_heap s) c) k) /\
  (~ Forall valid_value rts -> exists err, out = RecRet (Some err) None).
Proof.
  intros U Hok Hw Hr c Hit En Hv Hst Hdec Hz Hview Hit' E.
  pose proof (delivered u h w s i it r _ th' c' e (Upsert (bs "http.status") st [] :: map (fun x => Upsert (bs "http_server_route") x []) rts)
                ms it' hp' out (server_mutators r)) as Hdel.
  destruct (Hdel
    ltac:(intros mu [<- | Hin]; [eauto | apply in_map_iff in Hin; destruct Hin as (x & <- & _); eauto]) U Hok Hw Hr Hit En Hv Hz Hview Hit' E) as [Hbad Hgood].
  split.
  - intros Hrts. destruct Hgood as (tm & Ho & Ht).
    { intros mu [<- | Hin]; [apply (decimal_valid _ _ Hdec Hst)|]. apply in_map_iff in Hin. destruct Hin as (x & <- & Hx).
      apply (proj1 (Forall_forall _ _) Hrts x Hx). }
    exists tm. split; [exact Ho|]. intros k. rewrite Ht.
    match goal with |- fold_left ?f (?a ++ ?b :: ?l) ?z k = _ => change (a ++ b :: l) with (a ++ [b] ++ l) end.
    rewrite !fold_left_app, fold_routes. cbn [server_tags fold_left spec_mutate]. rewrite !fset_at. unfold server_ctx_tags.
    destruct (bytes_eq_dec k (bs "http_server_route")) as [-> | _]; [|reflexivity]. destruct (rev rts); [|reflexivity].
    repeat match goal with |- context [bytes_eq_dec ?a ?b] => destruct (bytes_eq_dec a b) as [Eq|_]; [exfalso; vm_compute in Eq; discriminate Eq|] end.
    reflexivity.
  - intros Hn. apply Hbad. assert (Hx : exists x, In x rts /\ ~ valid_value x).
    { clear - Hn. induction rts as [|x rts IH]; [exfalso; apply Hn; constructor|].
      destruct (valid_value_dec x) as [V|V]; [|exists x; split; [now left | exact V]].
      destruct IH as (y & H1 & H2); [|exists y; split; [now right | exact H2]]. intros HF. apply Hn. now constructor. }
    destruct Hx as (x & H1 & H2). exists (Upsert (bs "http_server_route") x []). split; [|exact H2]. right.
    apply in_map_iff. exists x. auto.
Qed.

(** The exported server span. *)
Theorem C55_exported en h w e i sd h1 cr hs hd r hdr th c it ops t0 t1 p :
  trun en h w -> In (e, i, sd) (w_exports w) -> created h i h1 cr -> completed h i hs (sd_end sd) -> traced hd r ->
  let cs := so_calls (serve_http hd r hdr th c it ops t0 t1) in
  let P := performed ops in
  started cs = [(p, c_name cr, c_opts cr)] -> before_end (on_span cs) = Some (upds hs i) ->
  (6 <= limit_after ca_attrs 32 h1)%Z ->
  sd_kind sd = 1%Z /\ sd_name sd = (match hd_name hd with Some n => n | None => rq_path r end) /\
  sd_status sd = trace_status (status_of P) /\
  (forall k, mget bytes_eqb (sd_attrs sd) k = http_attr r (Some (status_of P)) k) /\
  sd_msgs sd = lastn (Z.to_nat (limit_after ca_msgs 128 h1)) (server_events r t0 P).
Proof.
  intros H Hin Hc Hd Ht cs P Hst Hbe Hlim.
  destruct (C55_span hd r hdr th c it ops t0 t1 Ht) as (ext & before & after & us & _ & Eso & _ & (xs & E1 & _ & Ek) & E2 & Eu & Hu).
  fold cs in Eso, Eu. fold P in Hu. rewrite Hbe in Eu. injection Eu as <-.
  assert (Es : started cs = started before).
  { rewrite Eso, started_app. change (KHandler :: after ++ [KEnd SOwn]) with ([KHandler] ++ after ++ [KEnd SOwn]).
    rewrite !started_app, E2. cbn. now rewrite app_nil_r. }
  rewrite Hst, E1 in Es. injection Es as _ En Ex.
  destruct (updates_exported en h w e i sd h1 cr hs _ _ _ _ H Hin Hc Hd Hu Hlim) as (K & N & S & A & M & _).
  split; [congruence|]. split; [congruence|]. split; [rewrite S; reflexivity|]. split; [exact A | exact M].
Qed.

(** Findings.  Bytes that reach the client through the original writer's ReadFrom are
    not counted; the status recorded is that of the last WriteHeader, even one that
    net/http rejects as superfluous or an informational one; a handler that panics
    before it writes is recorded as 200; at a health endpoint the handler sets status
    and attributes on the span of the caller's context. *)
Theorem C55_read_from_refuted : exists ops, bytes_sent ops <> bytes_written (performed ops) /\ panics ops = false.
Proof. exists [HReadFrom 100]. split; [vm_compute; discriminate | reflexivity]. Qed.
Theorem C55_status_sent_refuted :
  (exists ops, status_sent ops = 200%Z /\ status_of (performed ops) = 500%Z) /\
  (exists ops, status_sent ops = 200%Z /\ status_of (performed ops) = 103%Z).
Proof. split; [exists [HWrite 5 0; HHeader 500] | exists [HHeader 103]]; split; reflexivity. Qed.
Theorem C55_panic_refuted : exists ops, panics ops = true /\ status_of (performed ops) = 200%Z.
Proof. exists [HPanic]. split; reflexivity. Qed.
Definition ex_health : request := MkReq (bs "example.com") (bs "/healthz") (bs "/healthz") (bs "GET") [] NoBody 0 0.
Theorem C55_health_outer_refuted :
  In (KSet SOuter (USetStatus 2 (bs "UNKNOWN")))
     (so_calls (serve_http (MkHd None None None false false) ex_health [] [] None [] [HHeader 500] 0 1)).
Proof. vm_compute. auto 10. Qed.

Print Assumptions C55_stats.
Print Assumptions C55_span.
Print Assumptions C55_health.
Print Assumptions C55_tags.
Print Assumptions C55_delivered.
Print Assumptions C55_exported.

(** A handler that sets a route, writes twice and panics. *)
Definition ex_post : request := MkReq (bs "example.com") (bs "/b") (bs "/b") (bs "POST") (bs "ua") SomeBody 20 0.
Definition ex_handler : handler := MkHd None None None false false.
Definition ex_hops : list hop := [HRouted (bs "/b/:id") [HHeader 404; HWrite 3 10; HWrite 4 11]; HPanic; HWrite 9 12].
Example C55_nonvacuous :
  traced ex_handler ex_post /\ (0 <= bytes_written (performed ex_hops) < 2 ^ 63)%Z /\
  status_of (performed ex_hops) = 404%Z /\ bytes_written (performed ex_hops) = 7%Z /\ routes (performed ex_hops) = [bs "/b/:id"] /\
  panics ex_hops = true /\
  length (on_span (so_calls (serve_http ex_handler ex_post [] [] None [] ex_hops 0 100))) = 7.
Proof. split; [split; [reflexivity|]; split; discriminate|]. vm_compute. repeat split; discriminate. Qed.

(** ** C62 *)

(** Contexts that a format can carry, in a request that has the headers [hdr] already.
    For the W3C format: identifiers that are not zero, a legal tracestate, and a stale
    tracestate header only if it is overwritten. *)
Definition sendable (f : hformat) (sc : span_context) (hdr : header) : Prop :=
  sc_wf sc /\ sc_span_id sc <> zero_span_id /\
  match f with
  | FTraceContext =>
      sc_trace_id sc <> zero_trace_id /\ ts_ok (ts_entries (sc_tracestate sc)) /\
      (hdr_values hdr (bs "tracestate") = [] \/
       (ts_entries (sc_tracestate sc) <> [] /\ tracestate_fits (ts_entries (sc_tracestate sc))))
  | _ => True
  end.

Lemma format_roundtrip f sc hdr : sendable f sc hdr ->
  exists sc', fmt_from f (fmt_to f sc hdr) = Ok (Some sc') /\
    sc_trace_id sc' = sc_trace_id sc /\ sc_span_id sc' = sc_span_id sc /\ is_sampled sc' = is_sampled sc.
Proof.
  intros (Hwf & Hz & Hf). destruct f; cbn [fmt_from fmt_to].
  - rewrite (C42_roundtrip sc hdr Hwf). eexists. split; [reflexivity|]. split; [reflexivity|]. split; [reflexivity|].
    unfold is_sampled. cbn [sc_options]. rewrite <- !N.bit0_odd. rewrite <- (N.bit0_mod (sc_options sc)). destruct (N.testbit (sc_options sc) 0); reflexivity.
  - destruct Hf as (Ht & Hts & Hh). destruct (C43_roundtrip sc hdr Hwf Ht Hz Hts Hh) as (sc' & E & E1 & E2 & E3 & _).
    exists sc'. split; [exact E|]. split; [exact E1|]. split; [exact E2|].
    unfold is_sampled. rewrite E3, <- !N.bit0_odd. change 256%N with (2 ^ 8)%N. now rewrite N.mod_pow2_bits_low by lia.
  - rewrite (C44_roundtrip sc hdr Hwf). eexists. split; [reflexivity|]. auto.
Qed.

(** The request that reaches the server. *)
Definition base_header (out : rt_out) (hdr : header) : Prop :=
  exists q, In (KBase q) (ro_calls out) /\ q < length (ro_headers out) /\ hdr = header_at (ro_headers out) q.

(** What reaches the base transport: the caller's headers with those of the span's context in
    the format given to the transport (B3 if none). *)
Theorem C64_format t r th c it hh sc b t0 t1 hdr : plain r -> base_header (round_trip t r th c it hh sc b t0 t1) hdr ->
  hdr = fmt_to (chosen_format (tr_format t)) sc (header_at hh (rq_header r)).
Proof.
  change chosen_format with fmt_or_default.
  intros Hp (q & Hq & _ & ->). unfold round_trip in *. rewrite (plain_health _ Hp) in *.
  destruct (tag_new th c it (client_tags r)) as [[th' c'] e]. unfold trace_round_trip, tk_end in *. cbn [tk_done] in *.
  assert (q = length hh).
  { destruct b; cbn in Hq; decompose [or] Hq; try discriminate; try contradiction;
      match goal with H : KBase _ = KBase _ |- _ => injection H; auto end. }
  subst q. destruct b; cbn [ro_headers]; unfold header_at; rewrite app_nth2, Nat.sub_diag by lia; reflexivity.
Qed.

(** The trace goes on across the wire: if the handler uses the format of the transport,
    and the request arrives with the headers the transport gave it, then the server's span,
    in any history of the server's program, is in the trace of the client's span, has
    that span as remote parent, and is asked to sample what the client sampled. *)
Theorem C62_continues en1 h1 w1 i si t r th c it hh b t0 t1 hdr hd r2 th2 c2 it2 ops t2 t3 p name xs en2 h2 w2 j hj cj :
  trun en1 h1 w1 -> span_at w1 i = Some si ->
  plain r -> base_header (round_trip t r th c it hh (s_context si) b t0 t1) hdr ->
  sendable (chosen_format (tr_format t)) (s_context si) (header_at hh (rq_header r)) ->
  chosen_format (hd_format hd) = chosen_format (tr_format t) -> hd_public hd = false -> traced hd r2 ->
  started (so_calls (serve_http hd r2 hdr th2 c2 it2 ops t2 t3)) = [(p, name, xs)] ->
  trun en2 h2 w2 -> created h2 j hj cj ->
  p = (match c_par cj with PCtx q => Some q | _ => None end) -> c_remote cj = true ->
  exists sj q, span_at w2 j = Some sj /\ p = Some q /\
    sc_trace_id (s_context sj) = sc_trace_id (s_context si) /\
    is_sampled q = is_sampled (s_context si) /\
    forall e sd, In (e, j, sd) (w_exports w2) ->
      sc_trace_id (sd_context sd) = sc_trace_id (s_context si) /\ sd_parent sd = sc_span_id (s_context si) /\ sd_remote sd = true.
Proof.
  change chosen_format with fmt_or_default.
  intros H1 Hsi Hp Hbase Hsend Hfmt Hpub Htr Hst H2 Hcj Ep Hrem.
  rewrite (C64_format _ _ _ _ _ _ _ _ _ _ _ Hp Hbase) in *. change chosen_format with fmt_or_default in *.
  destruct (format_roundtrip _ _ _ Hsend) as (sc' & Ex & T & S & Sm).
  destruct (C55_span hd r2 (fmt_to (fmt_or_default (tr_format t)) (s_context si) (header_at hh (rq_header r))) th2 c2 it2 ops t2 t3 Htr)
    as (ext & before & after & us & Ef & Eso & _ & (xs' & E1 & _) & E2 & _).
  change chosen_format with fmt_or_default in Ef. rewrite Hfmt, Ex in Ef. injection Ef as <-.
  assert (Es : started before = [(p, name, xs)]).
  { rewrite <- Hst, Eso, started_app. change (KHandler :: after ++ [KEnd SOwn]) with ([KHandler] ++ after ++ [KEnd SOwn]).
    rewrite !started_app, E2. cbn. now rewrite app_nil_r. }
  rewrite E1, Hpub in Es. injection Es as <- _ _.
  destruct (c_par cj) as [|q|] eqn:Ec; try discriminate. injection Ep as <-.
  destruct (C27_identity _ _ _ _ _ _ H2 Hcj) as (sj & parent & A & B & C & _). rewrite Ec in B. injection B as <-.
  assert (Hz : is_zero_sc sc' = false) by (apply nonzero_sc; rewrite S; apply Hsend). rewrite Hz in C.
  exists sj, sc'. split; [exact A|]. split; [reflexivity|]. split; [congruence|]. split; [exact Sm|].
  intros e sd Hin. destruct (C27_exported _ _ _ _ _ _ H2 Hin) as (s' & h1' & c' & parent' & A' & B' & C' & D' & E' & F').
  destruct (created_fun _ _ _ _ _ _ Hcj B') as [-> ->]. rewrite Ec in C'. injection C' as <-. rewrite Hz in E'.
  rewrite A in A'. injection A' as <-. split; [congruence|]. split; congruence.
Qed.

(** At a public endpoint the server's span starts a trace of its own, linked to the
    client's span. *)
Theorem C62_public t r th c it hh sc b t0 t1 hdr hd r2 th2 c2 it2 ops t2 t3 :
  plain r -> base_header (round_trip t r th c it hh sc b t0 t1) hdr ->
  sendable (chosen_format (tr_format t)) sc (header_at hh (rq_header r)) ->
  chosen_format (hd_format hd) = chosen_format (tr_format t) -> hd_public hd = true -> traced hd r2 ->
  let cs := so_calls (serve_http hd r2 hdr th2 c2 it2 ops t2 t3) in
  exists name xs us, started cs = [(None, name, xs)] /\ before_end (on_span cs) = Some us /\
    links us = [MkLnk (sc_trace_id sc) (sc_span_id sc) 2 []].
Proof.
  change chosen_format with fmt_or_default.
  intros Hp Hbase Hsend Hfmt Hpub Htr cs. subst cs.
  rewrite (C64_format _ _ _ _ _ _ _ _ _ _ _ Hp Hbase) in *. change chosen_format with fmt_or_default in *.
  destruct (format_roundtrip _ _ _ Hsend) as (sc' & Ex & T & S & Sm).
  destruct (C55_span hd r2 (fmt_to (fmt_or_default (tr_format t)) sc (header_at hh (rq_header r))) th2 c2 it2 ops t2 t3 Htr)
    as (ext & before & after & us & Ef & Eso & _ & (xs' & E1 & _) & E2 & Eu & Hu).
  change chosen_format with fmt_or_default in Ef. rewrite Hfmt, Ex in Ef. injection Ef as <-. rewrite Hpub in *.
  do 2 eexists. exists us. split; [|split; [exact Eu|]].
  - rewrite Eso, started_app. change (KHandler :: after ++ [KEnd SOwn]) with ([KHandler] ++ after ++ [KEnd SOwn]).
    rewrite !started_app, E2, E1. reflexivity.
  - rewrite (uo_links _ _ _ _ _ Hu). congruence.
Qed.

Print Assumptions C62_continues.
Print Assumptions C62_public.

(** ** C64 *)

(** The headers a format sets. *)
Definition format_headers (f : hformat) : list bytes :=
  match f with
  | FB3 => [bs "X-B3-TraceId"; bs "X-B3-SpanId"; bs "X-B3-Sampled"]
  | FTraceContext => [bs "traceparent"; bs "tracestate"]
  | FStackdriver => [bs "X-Cloud-Trace-Context"]
  end.

(** RoundTrip does not change the caller's request: no header map that existed before is
    modified.  The base transport is called exactly once, with a new header map that has
    the trace's headers and otherwise those of the request. *)
Theorem C64_headers t r th c it hh sc b t0 t1 :
  plain r ->
  let out := round_trip t r th c it hh sc b t0 t1 in
  (forall p, p < length hh -> header_at (ro_headers out) p = header_at hh p) /\
  exists q, flat_map (fun k => match k with KBase p => [p] | _ => [] end) (ro_calls out) = [q] /\
    length hh <= q < length (ro_headers out) /\
    forall name, (forall n, In n (format_headers (chosen_format (tr_format t))) -> canon n <> canon name) ->
      hdr_values (header_at (ro_headers out) q) name = hdr_values (header_at hh (rq_header r)) name.
Proof.
  change chosen_format with fmt_or_default.
  intros Hp out. subst out. unfold round_trip. rewrite (plain_health _ Hp).
  destruct (tag_new th c it (client_tags r)) as [[th' c'] e]. unfold trace_round_trip, tk_end. cbn [tk_done].
  assert (Hh : forall p, p < length hh -> header_at (hh ++ [fmt_to (fmt_or_default (tr_format t)) sc (header_at hh (rq_header r))]) p = header_at hh p).
  { intros p Hlt. unfold header_at. now rewrite app_nth1. }
  split; [destruct b; exact Hh|]. exists (length hh). split; [destruct b; reflexivity|].
  split; [destruct b; cbn [ro_headers]; rewrite app_length; cbn; lia|].
  intros name Hn. assert (Eq : forall bb : base_result, header_at (ro_headers (match bb with BaseErr _ => MkRT th' (hh ++ [fmt_to (fmt_or_default (tr_format t)) sc (header_at hh (rq_header r))]) [] None
       | BaseResp _ _ => MkRT th' (hh ++ [fmt_to (fmt_or_default (tr_format t)) sc (header_at hh (rq_header r))]) [] None end)) (length hh) =
       fmt_to (fmt_or_default (tr_format t)) sc (header_at hh (rq_header r))).
  { intros bb. unfold header_at. destruct bb; cbn [ro_headers]; rewrite app_nth2, Nat.sub_diag by lia; reflexivity. }
  specialize (Eq b). destruct b; cbn [ro_headers] in *; rewrite Eq; clear Eq;
    (assert (Hne : forall n, In n (format_headers (fmt_or_default (tr_format t))) -> bytes_eqb (canon n) (canon name) = false);
     [intros n Hi; destruct (bytes_eqb_spec (canon n) (canon name)); [exfalso; eapply Hn; eauto | reflexivity]|]);
    destruct (fmt_or_default (tr_format t)); cbn [fmt_to format_headers] in *.
  all: unfold b3_to_request, tc_to_request, sd_to_request; cbv zeta.
  all: try (destruct (tc_to_headers sc) as [tp [|x ts]]).
  all: rewrite !hdr_values_set_other; try reflexivity; apply Hne; cbn; auto.
Qed.
Print Assumptions C64_headers.
Print Assumptions C64_format.

Example C62_nonvacuous :
  sendable FB3 ex_sc [] /\ sendable FTraceContext ex_sc [] /\ sendable FStackdriver ex_sc [] /\ plain ex_req /\ traced ex_handler ex_post /\
  exists hdr, base_header (round_trip ex_tr ex_req [] None [] [[]] ex_sc (BaseResp 200 0) 0 1) hdr /\
    started (so_calls (serve_http ex_handler ex_post hdr [] None [] ex_hops 0 100)) =
    [(Some (MkSC (bs "0123456789abcdef") (bs "01234567") 1 None), bs "/b", [WithSampler None; WithSpanKind 1])].
Proof.
  assert (W : sc_wf ex_sc) by (split; [reflexivity|]; split; reflexivity).
  assert (Z : sc_span_id ex_sc <> zero_span_id) by discriminate.
  split; [split; auto|]. split; [split; [exact W|]; split; [exact Z|]; split; [discriminate|]; split; [|left; reflexivity]|].
  { split; [constructor|]. split; [constructor | cbn; lia]. }
  split; [split; auto|]. split; [split; discriminate|]. split; [split; [reflexivity|]; split; discriminate|].
  eexists. split; [exists 1; split; [|split; [|reflexivity]]|].
  - vm_compute. auto 10.
  - vm_compute. lia.
  - vm_compute. reflexivity.
Qed.

(** ** C63 *)

Definition iface_eq_dec (a b : iface) : {a = b} + {a <> b}.
Proof. decide equality. Defined.

(** The ResponseWriter given to the handler offers http.Hijacker, CloseNotifier, Pusher,
    Flusher and io.ReaderFrom exactly if the original does. *)
Theorem C63_writer i0 i1 i2 i3 i4 :
  let l := wrapped_response_writer i0 i1 i2 i3 i4 in
  (In IHijacker l <-> i0 = true) /\ (In ICloseNotifier l <-> i1 = true) /\ (In IPusher l <-> i2 = true) /\
  (In IFlusher l <-> i3 = true) /\ (In IReaderFrom l <-> i4 = true) /\ ~ In IWriter l /\ NoDup l.
Proof.
  assert (E : forall x l b, (if in_dec iface_eq_dec x l then true else false) = b -> (In x l <-> b = true)).
  { intros x l b <-. destruct (in_dec iface_eq_dec x l) as [H|H]; split; intros Hx; try reflexivity; try assumption; [contradiction | discriminate]. }
  intros l. split; [apply E; destruct i0, i1, i2, i3, i4; vm_compute; reflexivity|].
  split; [apply E; destruct i0, i1, i2, i3, i4; vm_compute; reflexivity|].
  split; [apply E; destruct i0, i1, i2, i3, i4; vm_compute; reflexivity|].
  split; [apply E; destruct i0, i1, i2, i3, i4; vm_compute; reflexivity|].
  split; [apply E; destruct i0, i1, i2, i3, i4; vm_compute; reflexivity|].
  split.
  - intros H. destruct i0, i1, i2, i3, i4; cbn in H; decompose [or] H; try discriminate; contradiction.
  - subst l. destruct i0, i1, i2, i3, i4; cbn [wrapped_response_writer]; repeat constructor; cbn; intros H; decompose [or] H; try discriminate; contradiction.
Qed.

(** The body of a response offers io.Writer exactly if the original does. *)
Theorem C63_body i : let l := wrapped_body i in (In IWriter l <-> i = true) /\ (forall x, In x l -> x = IWriter).
Proof. destruct i; cbn; split; try split; intros; auto; try discriminate; try contradiction. destruct H; auto. contradiction. Qed.

Print Assumptions C63_writer.
Print Assumptions C63_body.
