(** A process that uses plugin/ochttp: packages tag, stats, stats/view and the plugin put
    together; and the views the plugin provides.  Definitions only.

    What the plugin does to spans is the subject of HttpModel and TracerModel and is left
    out here. *)

From Coq Require Import String.
From Coq Require Import List Arith ZArith Bool.
From Verif Require Import Base GoMap Text Float64 TagModel AggModel ViewModel WorkerModel RecordModel ProcessModel
  TraceTypes PropagationModel TraceModel HttpModel.
Import ListNotations.
Open Scope nat_scope.

(** ** Views *)

(** plugin/ochttp/stats.go:130-133: view.Distribution allocates; view.Count returns the
    one aggregation of that kind (stats/view/aggregation.go:53-75).  These are the pointers. *)
Record http_aggs : Type := MkHA { ha_size : nat; ha_latency : nat; ha_count : nat }.

(** plugin/ochttp/stats.go:131. *)
Definition size_bounds : list f64 :=
  map f_of_Z [1024; 2048; 4096; 16384; 65536; 262144; 1048576; 4194304; 16777216; 67108864; 268435456; 1073741824; 4294967296]%Z.
(** plugin/ochttp/stats.go:132. *)
Definition latency_bounds : list f64 :=
  map f_of_Z [1; 2; 3; 4; 5; 6; 8; 10; 13; 16; 20; 25; 30; 40; 50; 65; 80; 100; 130; 160; 200; 250; 300; 400; 500; 650; 800; 1000;
              2000; 5000; 10000; 20000; 50000; 100000]%Z.

(** The aggregations are where the pointers say. (plugin/ochttp/stats.go:130-133,
    stats/view/aggregation.go:54-59.) *)
Definition http_aggs_in (ha : http_aggs) (aggs : list (aggregation f64_num)) : Prop :=
  nth_error aggs (ha_size ha) = Some (AggDist size_bounds) /\
  nth_error aggs (ha_latency ha) = Some (AggDist latency_bounds) /\
  nth_error aggs (ha_count ha) = Some AggCount.

(** plugin/ochttp/stats.go:138-144. *)
Definition hcv_sent_bytes (ha : http_aggs) : view :=
  MkView (bs "opencensus.io/http/client/sent_bytes")
    (bs "Total bytes sent in request body (not including headers), by HTTP method and response status")
    [key_client_method; key_client_status] (Some client_sent_bytes) (Some (ha_size ha)).
(** plugin/ochttp/stats.go:146-152. *)
Definition hcv_received_bytes (ha : http_aggs) : view :=
  MkView (bs "opencensus.io/http/client/received_bytes")
    (bs "Total bytes received in response bodies (not including headers but including error responses with bodies), by HTTP method and response status")
    [key_client_method; key_client_status] (Some client_received_bytes) (Some (ha_size ha)).
(** plugin/ochttp/stats.go:154-160. *)
Definition hcv_roundtrip_latency (ha : http_aggs) : view :=
  MkView (bs "opencensus.io/http/client/roundtrip_latency") (bs "End-to-end latency, by HTTP method and response status")
    [key_client_method; key_client_status] (Some client_roundtrip_latency) (Some (ha_latency ha)).
(** plugin/ochttp/stats.go:162-168. *)
Definition hcv_completed_count (ha : http_aggs) : view :=
  MkView (bs "opencensus.io/http/client/completed_count") (bs "Count of completed requests, by HTTP method and response status")
    [key_client_method; key_client_status] (Some client_roundtrip_latency) (Some (ha_count ha)).

(** plugin/ochttp/stats.go:174-179: the older client views. *)
Definition hcv_request_count (ha : http_aggs) : view :=
  MkView (bs "opencensus.io/http/client/request_count") (bs "Count of HTTP requests started") [] (Some client_request_count) (Some (ha_count ha)).
(** plugin/ochttp/stats.go:182-187. *)
Definition hcv_request_bytes (ha : http_aggs) : view :=
  MkView (bs "opencensus.io/http/client/request_bytes") (bs "Size distribution of HTTP request body") [] (Some client_sent_bytes) (Some (ha_size ha)).
(** plugin/ochttp/stats.go:190-195. *)
Definition hcv_response_bytes (ha : http_aggs) : view :=
  MkView (bs "opencensus.io/http/client/response_bytes") (bs "Size distribution of HTTP response body") [] (Some client_received_bytes) (Some (ha_size ha)).
(** plugin/ochttp/stats.go:198-203. *)
Definition hcv_latency (ha : http_aggs) : view :=
  MkView (bs "opencensus.io/http/client/latency") (bs "Latency distribution of HTTP requests") [] (Some client_roundtrip_latency) (Some (ha_latency ha)).
(** plugin/ochttp/stats.go:206-212. *)
Definition hcv_request_count_by_method (ha : http_aggs) : view :=
  MkView (bs "opencensus.io/http/client/request_count_by_method") (bs "Client request count by HTTP method")
    [key_method] (Some client_sent_bytes) (Some (ha_count ha)).
(** plugin/ochttp/stats.go:215-221. *)
Definition hcv_response_count_by_status (ha : http_aggs) : view :=
  MkView (bs "opencensus.io/http/client/response_count_by_status_code") (bs "Client response count by status code")
    [key_status] (Some client_roundtrip_latency) (Some (ha_count ha)).

(** plugin/ochttp/stats.go:227-232. *)
Definition hsv_request_count (ha : http_aggs) : view :=
  MkView (bs "opencensus.io/http/server/request_count") (bs "Count of HTTP requests started") [] (Some server_request_count) (Some (ha_count ha)).
(** plugin/ochttp/stats.go:234-239. *)
Definition hsv_request_bytes (ha : http_aggs) : view :=
  MkView (bs "opencensus.io/http/server/request_bytes") (bs "Size distribution of HTTP request body") [] (Some server_request_bytes) (Some (ha_size ha)).
(** plugin/ochttp/stats.go:241-246. *)
Definition hsv_response_bytes (ha : http_aggs) : view :=
  MkView (bs "opencensus.io/http/server/response_bytes") (bs "Size distribution of HTTP response body") [] (Some server_response_bytes) (Some (ha_size ha)).
(** plugin/ochttp/stats.go:248-253. *)
Definition hsv_latency (ha : http_aggs) : view :=
  MkView (bs "opencensus.io/http/server/latency") (bs "Latency distribution of HTTP requests") [] (Some server_latency) (Some (ha_latency ha)).
(** plugin/ochttp/stats.go:255-261. *)
Definition hsv_request_count_by_method (ha : http_aggs) : view :=
  MkView (bs "opencensus.io/http/server/request_count_by_method") (bs "Server request count by HTTP method")
    [key_method] (Some server_request_count) (Some (ha_count ha)).
(** plugin/ochttp/stats.go:263-269. *)
Definition hsv_response_count_by_status (ha : http_aggs) : view :=
  MkView (bs "opencensus.io/http/server/response_count_by_status_code") (bs "Server response count by status code")
    [key_status] (Some server_latency) (Some (ha_count ha)).

(** plugin/ochttp/stats.go:274-281 [DefaultClientViews]. *)
Definition http_default_client_views (ha : http_aggs) : list view :=
  [hcv_request_count ha; hcv_request_bytes ha; hcv_response_bytes ha; hcv_latency ha; hcv_request_count_by_method ha; hcv_response_count_by_status ha].
(** plugin/ochttp/stats.go:285-292 [DefaultServerViews]. *)
Definition http_default_server_views (ha : http_aggs) : list view :=
  [hsv_request_count ha; hsv_request_bytes ha; hsv_response_bytes ha; hsv_latency ha; hsv_request_count_by_method ha; hsv_response_count_by_status ha].

(** All that the package exports. (plugin/ochttp/stats.go:137-292.) *)
Definition all_http_views (ha : http_aggs) : list view :=
  [hcv_sent_bytes ha; hcv_received_bytes ha; hcv_roundtrip_latency ha; hcv_completed_count ha] ++
  http_default_client_views ha ++ http_default_server_views ha.

(** ** The process *)

(** A request: on which side it is, with what the base RoundTripper does or what the handler
    does; the context with which the plugin goes on; when it began and when the base or the
    handler was done; the calls made for it so far and those RoundTrip or ServeHTTP has
    still to make (all fixed beforehand, as in HttpModel); the body of the response, if
    there is one. (plugin/ochttp/client.go:68-100, server.go:81-93.) *)
Inductive hside : Type := HClient (b : base_result) | HServer (ops : list hop).
(** The request (plugin/ochttp/client.go:68-100, server.go:81-93). *)
Record hreq : Type := MkHq {
  hq_side : hside; hq_req : request; hq_tags : ctx; hq_t0 : time; hq_t1 : time;
  hq_done : list call; hq_todo : list call; hq_body : option body }.
(** The process: tag, stats and view (ProcessModel.v) and the requests
    (plugin/ochttp/client.go:68-100, server.go:81-93). *)
Record hproc : Type := MkHP { hp_proc : proc; hp_reqs : list hreq }.
(** The start of the program (stats/view/worker.go:31-39). *)
Definition hproc_init (u : uworld) : hproc := MkHP (proc_init u) [].

(** The recording that a call is (stats/record.go:93-117). *)
Definition call_record (k : call) : option (ctx * list ropt) :=
  match k with
  | KRecord c ms => Some (c, [WithMeasurements ms])
  | KRecordTags c mu ms => Some (c, [WithTags mu; WithMeasurements ms])
  | _ => None
  end.
(** Recordings one after the other (stats/record.go:93-117). *)
Fixpoint perform (p : proc) (cs : list call) (it : list (key * content)) (o : order) (now : time) : option proc :=
  match cs with
  | [] => Some p
  | k :: r =>
      match call_record k with
      | None => perform p r it o now
      | Some (c, xs) => match do_record p c it xs o now with Some p => perform p r it o now | None => None end
      end
  end.

(** The program does something of its own; it calls Transport.RoundTrip with its context
    number [i]; net/http calls Handler.ServeHTTP with such a context; request number [j]
    does its next call; the body of its response is used ([it], [o], [now] as in [PRecord],
    for the case that the step is a recording). (plugin/ochttp/client.go:68-100,
    server.go:81-93, client_stats.go:125-143.) *)
Inductive hact : Type :=
| HApp (a : pact)
| HRoundTrip (t : transport) (r : request) (i : nat) (it : list (key * content)) (hh : list header) (sc : span_context)
             (b : base_result) (t0 t1 : time)
| HServe (h : handler) (r : request) (hdr : header) (i : nat) (it : list (key * content)) (ops : list hop) (t0 t1 : time)
| HStep (j : nat) (it : list (key * content)) (o : order) (now : time)
| HBody (j : nat) (ev : bev) (it : list (key * content)) (o : order) (now : time).

(** HttpModel's functions, with the recordings carried out. The base RoundTripper and the
    handler are code of the program and get the new context.
    (plugin/ochttp/client.go:68-100, client_stats.go:35-143, server.go:81-205.) *)
Definition hproc_step (g : hproc) (a : hact) : option hproc :=
  let ts := pc_tags (hp_proc g) in
  let w := pc_worker (hp_proc g) in
  match a with
  | HApp a => match proc_step (hp_proc g) a with Some p => Some (MkHP p (hp_reqs g)) | None => None end
  | HRoundTrip t r i it hh sc b t0 t1 =>
      let c := nth i (st_ctxs ts) None in
      let out := round_trip t r (st_heap ts) c it hh sc b t0 t1 in
      let health := is_health_endpoint (rq_path r) in
      let c' := if health then c else snd (fst (tag_new (st_heap ts) c it (client_tags r))) in
      Some (MkHP (MkProc (TagState (ro_tags out) (st_ctxs ts ++ if health then [] else [c'])) w)
                 (hp_reqs g ++ [MkHq (HClient b) r c' t0 t1 [] (ro_calls out) (option_map (fun tk => MkBody tk [] []) (ro_tracker out))]))
  | HServe h r hdr i it ops t0 t1 =>
      let c := nth i (st_ctxs ts) None in
      let out := serve_http h r hdr (st_heap ts) c it ops t0 t1 in
      let c' := snd (fst (tag_new (st_heap ts) c it (server_tags r))) in
      Some (MkHP (MkProc (TagState (so_tags out) (st_ctxs ts ++ [c'])) w)
                 (hp_reqs g ++ [MkHq (HServer ops) r c' t0 t1 [] (so_calls out) None]))
  | HStep j it o now =>
      match nth_error (hp_reqs g) j with
      | Some x =>
          match hq_todo x with
          | [] => None
          | k :: rest =>
              match perform (hp_proc g) [k] it o now with
              | Some p =>
                  Some (MkHP p (upd (hp_reqs g) j (fun x => MkHq (hq_side x) (hq_req x) (hq_tags x) (hq_t0 x) (hq_t1 x)
                                                                 (hq_done x ++ [k]) rest (hq_body x))))
              | None => None
              end
          end
      | None => None
      end
  | HBody j ev it o now =>
      match nth_error (hp_reqs g) j with
      | Some x =>
          match hq_todo x, hq_body x with
          | [], Some b =>
              match body_step b ev with
              | Some b' =>
                  match perform (hp_proc g) (skipn (length (bd_calls b)) (bd_calls b')) it o now with
                  | Some p =>
                      Some (MkHP p (upd (hp_reqs g) j (fun x => MkHq (hq_side x) (hq_req x) (hq_tags x) (hq_t0 x) (hq_t1 x)
                                                                     (hq_done x) (hq_todo x) (Some b'))))
                  | None => None
                  end
              | None => None
              end
          | _, _ => None
          end
      | None => None
      end
  end.

(** An execution: no code of its own (plugin/ochttp/client.go:68-100, server.go:81-93). *)
Fixpoint hproc_run (g : hproc) (l : list hact) : option hproc :=
  match l with
  | [] => Some g
  | a :: r => match hproc_step g a with Some g' => hproc_run g' r | None => None end
  end.
