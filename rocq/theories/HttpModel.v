(** Model of plugin/ochttp: client.go, client_stats.go, trace.go, server.go, route.go,
    wrapped_body.go, and of the measures and tag keys of stats.go.  Definitions only.

    The plugin is modelled by the calls it makes to packages tag, trace and stats, in
    order; what these calls do is the subject of TagModel, TracerModel and RecordModel.
    Not modelled: CancelRequest (it forwards to the base transport), the httptrace hook
    NewClientTrace, the default FormatSpanName beyond returning the path, and panics in
    user callbacks other than the handler. *)

From Coq Require Import String.
From Coq Require Import List Arith NArith ZArith Bool.
From Verif Require Import Base GoMap Text Float64 TagModel AggModel ViewModel WorkerModel TraceTypes PropagationModel TraceModel.
Import ListNotations.
Open Scope nat_scope.

(** ** Calls *)

(** [SOwn]: the span the plugin started; [SOuter]: the span of the context it was given (nil
    if there is none). (plugin/ochttp/trace.go:59, server.go:115-119, 189, 215.) *)
Inductive target : Type := SOwn | SOuter.

(** The calls made. [KStart]: trace.StartSpan ([None]) or StartSpanWithRemoteParent ([Some
    parent]). [KSet]: a setter of a span. [KEnd]: Span.End. [KRecord c ms]: stats.Record
    with the tags of context [c]. [KRecordTags c mu ms]: stats.RecordWithTags. [KBase p]:
    the RoundTripper below is called with the header map at [p]. [KHandler]: the handler
    below is called. (plugin/ochttp/client_stats.go:54-61, 118-121, trace.go:59-92,
    server.go:115-139, 165, 190-203.) *)
Inductive call : Type :=
| KStart (parent : option span_context) (name : bytes) (xs : list sopt)
| KSet (t : target) (u : supd)
| KEnd (t : target)
| KRecord (c : ctx) (ms : list measurement)
| KRecordTags (c : ctx) (mu : list mutator) (ms : list measurement)
| KBase (p : nat)
| KHandler.

(** ** Measures and tags *)

(** plugin/ochttp/stats.go:26-29, with the units of stats/units.go:21-24, as below. *)
Definition client_request_count : measure :=
  MkMeasure (bs "opencensus.io/http/client/request_count") (bs "Number of HTTP requests started") (bs "1") MInt64.
(** plugin/ochttp/stats.go:31-34. *)
Definition client_request_bytes : measure :=
  MkMeasure (bs "opencensus.io/http/client/request_bytes") (bs "HTTP request body size if set as ContentLength (uncompressed)") (bs "By") MInt64.
(** plugin/ochttp/stats.go:36-39. *)
Definition client_response_bytes : measure :=
  MkMeasure (bs "opencensus.io/http/client/response_bytes") (bs "HTTP response body size (uncompressed)") (bs "By") MInt64.
(** plugin/ochttp/stats.go:41-44. *)
Definition client_latency : measure :=
  MkMeasure (bs "opencensus.io/http/client/latency") (bs "End-to-end latency") (bs "ms") MFloat64.
(** plugin/ochttp/stats.go:49-53. *)
Definition client_sent_bytes : measure :=
  MkMeasure (bs "opencensus.io/http/client/sent_bytes") (bs "Total bytes sent in request body (not including headers)") (bs "By") MInt64.
(** plugin/ochttp/stats.go:54-58. *)
Definition client_received_bytes : measure :=
  MkMeasure (bs "opencensus.io/http/client/received_bytes")
    (bs "Total bytes received in response bodies (not including headers but including error responses with bodies)") (bs "By") MInt64.
(** plugin/ochttp/stats.go:59-63. *)
Definition client_roundtrip_latency : measure :=
  MkMeasure (bs "opencensus.io/http/client/roundtrip_latency")
    (bs "Time between first byte of request headers sent to last byte of response received, or terminal error") (bs "ms") MFloat64.
(** plugin/ochttp/stats.go:68-71. *)
Definition server_request_count : measure :=
  MkMeasure (bs "opencensus.io/http/server/request_count") (bs "Number of HTTP requests started") (bs "1") MInt64.
(** plugin/ochttp/stats.go:72-75. *)
Definition server_request_bytes : measure :=
  MkMeasure (bs "opencensus.io/http/server/request_bytes") (bs "HTTP request body size if set as ContentLength (uncompressed)") (bs "By") MInt64.
(** plugin/ochttp/stats.go:76-79. *)
Definition server_response_bytes : measure :=
  MkMeasure (bs "opencensus.io/http/server/response_bytes") (bs "HTTP response body size (uncompressed)") (bs "By") MInt64.
(** plugin/ochttp/stats.go:80-83. *)
Definition server_latency : measure :=
  MkMeasure (bs "opencensus.io/http/server/latency") (bs "End-to-end latency") (bs "ms") MFloat64.

(** stats/measure_int64.go:25-31 [M]. *)
Definition m_int (m : measure) (v : Z) : measurement := Some (m, f_of_Z v).
(** stats/measure_float64.go:25-31 [M]. *)
Definition m_float (m : measure) (v : f64) : measurement := Some (m, v).

(** float64(d) / float64(time.Millisecond). plugin/ochttp/client_stats.go:102,
    server.go:194. *)
Definition in_ms (d : Z) : f64 := f_div (f_of_Z d) (f_of_Z 1000000).

(** plugin/ochttp/stats.go:95. *)
Definition key_host : key := bs "http.host".
(** plugin/ochttp/stats.go:99. *)
Definition key_status : key := bs "http.status".
(** plugin/ochttp/stats.go:106. *)
Definition key_path : key := bs "http.path".
(** plugin/ochttp/stats.go:109. *)
Definition key_method : key := bs "http.method".
(** plugin/ochttp/stats.go:114. *)
Definition key_server_route : key := bs "http_server_route".
(** plugin/ochttp/stats.go:120. *)
Definition key_client_method : key := bs "http_client_method".
(** plugin/ochttp/stats.go:122. *)
Definition key_client_path : key := bs "http_client_path".
(** plugin/ochttp/stats.go:124. *)
Definition key_client_status : key := bs "http_client_status".
(** plugin/ochttp/stats.go:126. *)
Definition key_client_host : key := bs "http_client_host".

(** strconv.Itoa. Used at plugin/ochttp/client_stats.go:119-120, server.go:201. *)
Definition itoa (z : Z) : bytes :=
  if (z <? 0)%Z then n2b 45 :: format_dec (Z.to_N (- z)) else format_dec (Z.to_N z).

(** ** Status *)

(** plugin/ochttp/trace.go:214-232 [codeToStr]; a missing key gives the empty string. *)
Definition code_to_str (code : Z) : bytes :=
  match code with
  | 0 => bs "OK"
  | 1 => bs "CANCELLED"
  | 2 => bs "UNKNOWN"
  | 3 => bs "INVALID_ARGUMENT"
  | 4 => bs "DEADLINE_EXCEEDED"
  | 5 => bs "NOT_FOUND"
  | 6 => bs "ALREADY_EXISTS"
  | 7 => bs "PERMISSION_DENIED"
  | 8 => bs "RESOURCE_EXHAUSTED"
  | 9 => bs "FAILED_PRECONDITION"
  | 10 => bs "ABORTED"
  | 11 => bs "OUT_OF_RANGE"
  | 12 => bs "UNIMPLEMENTED"
  | 13 => bs "INTERNAL"
  | 14 => bs "UNAVAILABLE"
  | 15 => bs "DATA_LOSS"
  | 16 => bs "UNAUTHENTICATED"
  | _ => []
  end%Z.

(** plugin/ochttp/trace.go:179-212 [TraceStatus] (the status line is not used). *)
Definition trace_status (http : Z) : Z * bytes :=
  let code := if (http <? 200)%Z || (400 <=? http)%Z then 2%Z else 0%Z in
  let code :=
    match http with
    | 499 => 1
    | 400 => 3
    | 422 => 3
    | 504 => 4
    | 404 => 5
    | 403 => 7
    | 401 => 16
    | 429 => 8
    | 501 => 12
    | 503 => 14
    | 200 => 0
    | 409 => 6
    | _ => code
    end%Z in
  (code, code_to_str code).
(** Span.SetStatus with it (plugin/ochttp/trace.go:92, server.go:190). *)
Definition u_status (s : Z * bytes) : supd := USetStatus (fst s) (snd s).

(** plugin/ochttp/trace.go:234-244 [isHealthEndpoint]. *)
Definition is_health_endpoint (path : bytes) : bool :=
  bytes_eqb path (bs "/healthz") || bytes_eqb path (bs "/_ah/health").

(** ** Requests *)

(** What the plugin reads of an http.Request. [rq_header]: the header map, a pointer into a
    heap of headers. Its Body: nil, http.NoBody or another
    (plugin/ochttp/client_stats.go:48, server.go:133, 159). *)
Inductive body_kind : Type := NilBody | NoBody | SomeBody.
(** The fields read at plugin/ochttp/client_stats.go:36-53, trace.go:153-169,
    server.go:95-167. *)
Record request : Type := MkReq {
  rq_host : bytes; rq_path : bytes; rq_url : bytes; rq_method : bytes; rq_agent : bytes;
  rq_body : body_kind; rq_length : Z; rq_header : nat }.

(** plugin/ochttp/trace.go:153-169 [requestAttrs]; names 33-40. *)
Definition request_attrs (r : request) : list (bytes * attr) :=
  [(bs "http.path", AvStr (rq_path r)); (bs "http.url", AvStr (rq_url r));
   (bs "http.host", AvStr (rq_host r)); (bs "http.method", AvStr (rq_method r))] ++
  match rq_agent r with [] => [] | a => [(bs "http.user_agent", AvStr a)] end.
(** plugin/ochttp/trace.go:171-175 [responseAttrs]. *)
Definition response_attrs (status : Z) : list (bytes * attr) := [(bs "http.status_code", AvInt status)].

(** The propagation formats of the repository; users may supply others.
    (plugin/ochttp/propagation/b3/b3.go, propagation/tracecontext/propagation.go,
    exporter/stackdriver/propagation/http.go.) *)
Inductive hformat : Type := FB3 | FTraceContext | FStackdriver.
(** SpanContextToRequest of the format (trace/propagation/propagation.go:103-106, interface
    HTTPFormat). *)
Definition fmt_to (f : hformat) (sc : span_context) (h : header) : header :=
  match f with FB3 => b3_to_request sc h | FTraceContext => tc_to_request sc h | FStackdriver => sd_to_request sc h end.
(** SpanContextFromRequest of the format (trace/propagation/propagation.go:103-106,
    interface HTTPFormat). *)
Definition fmt_from (f : hformat) (h : header) : res unit (option span_context) :=
  match f with FB3 => Ok (b3_from_request h) | FTraceContext => tc_from_request h | FStackdriver => Ok (sd_from_request h) end.
(** plugin/ochttp/trace.go:29 [defaultFormat], client.go:74-77, server.go:142-147. *)
Definition fmt_or_default (f : option hformat) : hformat := match f with Some f => f | None => FB3 end.

(** ** Client *)

(** plugin/ochttp/client.go:31-65 [Transport]: Propagation; the sampler of the start
    options in force (StartOptions, or what GetStartOptions returns); the span name if
    FormatSpanName is set. *)
Record transport : Type := MkTr { tr_format : option hformat; tr_sampler : option sampler; tr_name : option bytes }.

(** What the base RoundTripper does: an error, or a response with a non-nil body.
    (plugin/ochttp/trace.go:84-98.) *)
Inductive base_result : Type :=
| BaseErr (msg : bytes)
| BaseResp (status : Z) (content_length : Z).

(** plugin/ochttp/client_stats.go:87-96 [tracker]; [tk_done]: endOnce. *)
Record tracker : Type := MkTk {
  tk_ctx : ctx; tk_resp : Z; tk_clen : Z; tk_req : Z; tk_start : time; tk_status : Z; tk_done : bool }.

(** plugin/ochttp/client_stats.go:100-123: the body of [end]. *)
Definition tk_record (t : tracker) (now : time) : call :=
  let latency := in_ms (time_sub now (tk_start t)) in
  let resp := if (tk_resp t =? 0)%Z && (0 <? tk_clen t)%Z then tk_clen t else tk_resp t in
  KRecordTags (tk_ctx t)
    [Upsert key_status (itoa (tk_status t)) []; Upsert key_client_status (itoa (tk_status t)) []]
    ([m_int client_sent_bytes (tk_req t);
      m_int client_received_bytes resp;
      m_float client_roundtrip_latency latency;
      m_float client_latency latency;
      m_int client_response_bytes (tk_resp t)] ++
     (if (0 <=? tk_req t)%Z then [m_int client_request_bytes (tk_req t)] else [])).
(** endOnce has been done (plugin/ochttp/client_stats.go:101). *)
Definition tk_set_done (t : tracker) : tracker :=
  MkTk (tk_ctx t) (tk_resp t) (tk_clen t) (tk_req t) (tk_start t) (tk_status t) true.
(** plugin/ochttp/client_stats.go:100-123 [end]: only once. *)
Definition tk_end (t : tracker) (now : time) : tracker * list call :=
  if tk_done t then (t, []) else (tk_set_done t, [tk_record t now]).
(** plugin/ochttp/client_stats.go:127. *)
Definition tk_add (t : tracker) (n : Z) : tracker :=
  MkTk (tk_ctx t) (int64_of (tk_resp t + n)) (tk_clen t) (tk_req t) (tk_start t) (tk_status t) (tk_done t).

(** The result of RoundTrip: the heaps of tag maps and of headers, the calls made, and the
    tracker in which the body of the response is wrapped, if there is a response.
    (plugin/ochttp/client.go:68-100.) *)
Record rt_out : Type := MkRT { ro_tags : heap; ro_headers : list header; ro_calls : list call; ro_tracker : option tracker }.

(** plugin/ochttp/client_stats.go:36-42. *)
Definition client_tags (r : request) : list mutator :=
  [Upsert key_client_host (rq_host r) []; Upsert key_host (rq_host r) [];
   Upsert key_client_path (rq_path r) []; Upsert key_path (rq_path r) [];
   Upsert key_client_method (rq_method r) []; Upsert key_method (rq_method r) []].

(** plugin/ochttp/client_stats.go:48-53. *)
Definition client_req_size (r : request) : Z :=
  match rq_body r with
  | NilBody => (-1)%Z
  | _ => if (0 <? rq_length r)%Z then rq_length r else 0%Z
  end.
(** plugin/ochttp/server.go:159-164. *)
Definition server_req_size (r : request) : Z :=
  match rq_body r with
  | NilBody | NoBody => (-1)%Z
  | SomeBody => if (0 <? rq_length r)%Z then rq_length r else 0%Z
  end.

(** trace.SpanKindServer: trace/trace.go:129. *)
Definition kind_server : Z := 1.
(** trace/trace.go:130. *)
Definition kind_client : Z := 2.

(** req.Header (plugin/ochttp/trace.go:75-79). *)
Definition header_at (hh : list header) (p : nat) : header := nth p hh [].

(** plugin/ochttp/trace.go:55-100 [traceTransport.RoundTrip] around the base transport.
    [sc]: the context of the span StartSpan returns.  The header is copied: the values
    are shared, but SpanContextToRequest only replaces them (net/http Header.Set). *)
Definition trace_round_trip (t : transport) (r : request) (hh : list header) (sc : span_context) (b : base_result)
  : list header * list call :=
  let name := match tr_name t with Some n => n | None => rq_path r end in
  let p := length hh in
  let hh := hh ++ [fmt_to (fmt_or_default (tr_format t)) sc (header_at hh (rq_header r))] in
  (hh,
   [KStart None name [WithSampler (tr_sampler t); WithSpanKind kind_client];
    KSet SOwn (USetAttrs (request_attrs r));
    KBase p] ++
   match b with
   | BaseErr msg => [KSet SOwn (USetStatus 2 msg); KEnd SOwn]
   | BaseResp status _ => [KSet SOwn (USetAttrs (response_attrs status)); KSet SOwn (u_status (trace_status status))]
   end).

(** plugin/ochttp/client.go:68-107 [Transport.RoundTrip] and base with client_stats.go:35-75
    [statsTransport.RoundTrip] around it.  [c]: the tags of the request's context, [it]
    an order of them; [t0]: when the call starts, [t1]: when the base has answered. *)
Definition round_trip (t : transport) (r : request) (th : heap) (c : ctx) (it : list (key * content)) (hh : list header)
                      (sc : span_context) (b : base_result) (t0 t1 : time) : rt_out :=
  if is_health_endpoint (rq_path r) then MkRT th hh [KBase (rq_header r)] None
  else
    let '(th, c, _) := tag_new th c it (client_tags r) in
    let start := KRecord c [m_int client_request_count 1] in
    let '(hh, calls) := trace_round_trip t r hh sc b in
    match b with
    | BaseErr _ =>
        let '(_, e) := tk_end (MkTk c 0 0 (client_req_size r) t0 500 false) t1 in
        MkRT th hh (start :: calls ++ e) None
    | BaseResp status clen =>
        let clen := if bytes_eqb (rq_method r) (bs "HEAD") then 0%Z else clen in
        MkRT th hh (start :: calls) (Some (MkTk c 0 clen (client_req_size r) t0 status false))
    end.

(** ** The body of the response

    The body returned by RoundTrip is the stats tracker around trace.go's bodyTracker
    around the body of the base transport.  Goroutines may call Read and Close
    concurrently: a call is a list of atomic steps, and a run interleaves them. *)

(** What the inner body's Read returns: bytes read and nil, io.EOF or another error.
    (plugin/ochttp/trace.go:113-127.) *)
Inductive read_res : Type := ROk (n : Z) | REof (n : Z) | RErr (n : Z) (msg : bytes).
(** A call of the body: Read, for which the inner body returns [r], or Close
    (plugin/ochttp/client_stats.go:125-143). *)
Inductive bop : Type := BRead (r : read_res) (now : time) | BClose (now : time).

(** [MStatus]: span.SetStatus; [MSpanEnd]: span.End; [MAdd]: respSize += n, which Go does
    without synchronisation; [MFinish]: tracker.end. (plugin/ochttp/trace.go:112-137,
    client_stats.go:125-143.) *)
Inductive micro : Type :=
| MStatus (code : Z) (msg : bytes)
| MSpanEnd
| MAdd (n : Z)
| MFinish (now : time).

(** plugin/ochttp/trace.go:112-129 (bodyTracker.Read) inside client_stats.go:125-135
    (tracker.Read); client_stats.go:137-143 (tracker.Close) around plugin/ochttp/trace.go:131-137
    (bodyTracker.Close). *)
Definition steps_of (op : bop) : list micro :=
  match op with
  | BRead (ROk n) _ => [MAdd n]
  | BRead (REof n) now => [MSpanEnd; MAdd n; MFinish now]
  | BRead (RErr n msg) _ => [MStatus 2 msg; MAdd n]
  | BClose now => [MFinish now; MSpanEnd]
  end.

(** One step of plugin/ochttp/client_stats.go:125-143 or trace.go:112-137. *)
Definition do_micro (t : tracker) (m : micro) : tracker * list call :=
  match m with
  | MStatus c msg => (t, [KSet SOwn (USetStatus c msg)])
  | MSpanEnd => (t, [KEnd SOwn])
  | MAdd n => (tk_add t n, [])
  | MFinish now => tk_end t now
  end.

(** [bd_threads]: the calls made so far, each with the steps it has still to do.
    (plugin/ochttp/client_stats.go:70-71.) *)
Record body : Type := MkBody { bd_tracker : tracker; bd_calls : list call; bd_threads : list (bop * list micro) }.

(** A goroutine calls Read or Close; call number [i] does its next step.
    (plugin/ochttp/client_stats.go:125-143.) *)
Inductive bev : Type := EvCall (op : bop) | EvStep (i : nat).

(** (plugin/ochttp/client_stats.go:125-143, trace.go:112-137, interleaved.) *)
Definition body_step (b : body) (e : bev) : option body :=
  match e with
  | EvCall op => Some (MkBody (bd_tracker b) (bd_calls b) (bd_threads b ++ [(op, steps_of op)]))
  | EvStep i =>
      match nth_error (bd_threads b) i with
      | Some (op, m :: ms) =>
          let '(t, cs) := do_micro (bd_tracker b) m in
          Some (MkBody t (bd_calls b ++ cs) (upd (bd_threads b) i (fun _ => (op, ms))))
      | _ => None
      end
  end.

(** An execution: no code of its own (plugin/ochttp/client_stats.go:125-143). *)
Fixpoint body_run (b : body) (es : list bev) : option body :=
  match es with
  | [] => Some b
  | e :: r => match body_step b e with Some b' => body_run b' r | None => None end
  end.

(** One goroutine using the body: each call runs to its end.
    (plugin/ochttp/client_stats.go:125-143.) *)
Fixpoint do_micros (t : tracker) (ms : list micro) : tracker * list call :=
  match ms with
  | [] => (t, [])
  | m :: r => let '(t1, c1) := do_micro t m in let '(t2, c2) := do_micros t1 r in (t2, c1 ++ c2)
  end.
(** A sequence of such calls (plugin/ochttp/client_stats.go:125-143). *)
Fixpoint use_body (t : tracker) (ops : list bop) : tracker * list call :=
  match ops with
  | [] => (t, [])
  | op :: r => let '(t1, c1) := do_micros t (steps_of op) in let '(t2, c2) := use_body t1 r in (t2, c1 ++ c2)
  end.

(** ** Server *)

(** plugin/ochttp/server.go:44-79 [Handler]: as for the client, and IsPublicEndpoint
    and the result of IsHealthEndpoint (false if it is not set). *)
Record handler : Type := MkHd {
  hd_format : option hformat; hd_sampler : option sampler; hd_name : option bytes; hd_public : bool; hd_health : bool }.

(** What a handler does with its ResponseWriter and context: WriteHeader; Write, of which
    the writer below accepts [n] bytes; ReadFrom, if the writer below has it, of [n] bytes;
    SetRoute; a handler wrapped by WithRouteTag; panic. Header, Flush, Hijack and the like
    go to the writer below. (plugin/ochttp/server.go:92, 207-224, route.go:27-55.) *)
Inductive hop : Type :=
| HHeader (status : Z)
| HWrite (n : Z) (now : time)
| HReadFrom (n : Z)
| HSetRoute (route : bytes)
| HRouted (route : bytes) (body : list hop)
| HPanic.

(** plugin/ochttp/server.go:169-178 [trackingResponseWriter]; [sw_tags]: addedTags. *)
Record swriter : Type := MkSW { sw_resp : Z; sw_status : Z; sw_tags : list mutator }.

(** Runs the operations of a handler; [s]: the span in its context.  The last result:
    did it panic?
    server.go:211-218 [Write], 220-224 [WriteHeader], route.go:27-31 [SetRoute], 35-43
    [WithRouteTag], 50-55 [taggedHandlerFunc.ServeHTTP]: the tags are added when the
    handler has returned. *)
Fixpoint run_hop (s : target) (w : swriter) (op : hop) : swriter * list call * bool :=
  match op with
  | HHeader status => (MkSW (sw_resp w) status (sw_tags w), [], false)
  | HWrite n now => (MkSW (int64_of (sw_resp w + n)) (sw_status w) (sw_tags w), [KSet s (UMsg now true 0 n (-1))], false)
  | HReadFrom n => (w, [], false)
  | HSetRoute route => (MkSW (sw_resp w) (sw_status w) (sw_tags w ++ [Upsert key_server_route route []]), [], false)
  | HRouted route body =>
      let '(w, cs, p) :=
        (fix run (w : swriter) (ops : list hop) : swriter * list call * bool :=
           match ops with
           | [] => (w, [], false)
           | op :: r =>
               let '(w, cs, p) := run_hop s w op in
               if p then (w, cs, true) else let '(w', cs', p') := run w r in (w', cs ++ cs', p')
           end) w body in
      if p then (w, cs, true)
      else (MkSW (sw_resp w) (sw_status w) (sw_tags w ++ [Upsert key_server_route route []]), cs, false)
  | HPanic => (w, [], true)
  end.
(** A handler's operations in order, up to a panic (plugin/ochttp/server.go:92). *)
Fixpoint run_hops (s : target) (w : swriter) (ops : list hop) : swriter * list call * bool :=
  match ops with
  | [] => (w, [], false)
  | op :: r =>
      let '(w, cs, p) := run_hop s w op in
      if p then (w, cs, true) else let '(w', cs', p') := run_hops s w r in (w', cs ++ cs', p')
  end.

(** plugin/ochttp/server.go:150-153. *)
Definition server_tags (r : request) : list mutator :=
  [Upsert key_host (rq_host r) []; Upsert key_path (rq_path r) []; Upsert key_method (rq_method r) []].

(** plugin/ochttp/server.go:95-140 [startTrace]: the calls, and whether a span was
    started.  trace.LinkTypeParent is 2 (trace/basetypes.go:87-91). *)
Definition start_trace (h : handler) (r : request) (hdr : header) (now : time) : res unit (list call * bool) :=
  if hd_health h || is_health_endpoint (rq_path r) then Ok ([], false)
  else
    let name := match hd_name h with Some n => n | None => rq_path r end in
    let xs := [WithSampler (hd_sampler h); WithSpanKind kind_server] in
    match fmt_from (fmt_or_default (hd_format h)) hdr with
    | Ok ext =>
        Ok (match ext with
            | Some sc =>
                if hd_public h then [KStart None name xs; KSet SOwn (ULink (MkLnk (sc_trace_id sc) (sc_span_id sc) 2 []))]
                else [KStart (Some sc) name xs]
            | None => [KStart None name xs]
            end ++
            [KSet SOwn (USetAttrs (request_attrs r))] ++
            match rq_body r with
            | SomeBody => if (0 <? rq_length r)%Z then [KSet SOwn (UMsg now false 0 (rq_length r) (-1))] else []
            | _ => []
            end, true)
    | Err e => Err e
    | Panic => Panic
    end.

(** plugin/ochttp/server.go:183-205 [end]. *)
Definition server_end (s : target) (c : ctx) (req_size : Z) (t0 : time) (w : swriter) (now : time) : list call :=
  let status := if (sw_status w =? 0)%Z then 200%Z else sw_status w in
  [KSet s (u_status (trace_status status));
   KSet s (USetAttrs [(bs "http.status_code", AvInt status)]);
   KRecordTags c (Upsert key_status (itoa status) [] :: sw_tags w)
     ([m_float server_latency (in_ms (time_sub now t0)); m_int server_response_bytes (sw_resp w)] ++
      (if (0 <=? req_size)%Z then [m_int server_request_bytes req_size] else []))].

(** What ServeHTTP leaves: the tag maps, the calls made, whether it panics.
    (plugin/ochttp/server.go:81-93.) *)
Record serve_out : Type := MkServe { so_tags : heap; so_calls : list call; so_panic : bool }.

(** plugin/ochttp/server.go:81-93 [ServeHTTP], 149-167 [startStats].  The deferred calls
    run also when the handler panics: first statsEnd, then traceEnd (which does nothing
    if no span was started).  Simplified: the clock is read once for the message event of
    the request body and for the start of the latency; Go reads it twice. *)
Definition serve_http (h : handler) (r : request) (hdr : header) (th : heap) (c : ctx) (it : list (key * content))
                      (ops : list hop) (t0 t1 : time) : serve_out :=
  match start_trace h r hdr t0 with
  | Ok (pre, started) =>
      let s := if started then SOwn else SOuter in
      let '(th, c, _) := tag_new th c it (server_tags r) in
      let '(w, cs, p) := run_hops s (MkSW 0 0 []) ops in
      MkServe th
        (pre ++ [KRecord c [m_int server_request_count 1]; KHandler] ++ cs ++
         server_end s c (server_req_size r) t0 w t1 ++ (if started then [KEnd SOwn] else [])) p
  | _ => MkServe th [] true
  end.

(** ** Optional interfaces *)

(** Which of the interfaces that a wrapper knows a value implements.
    (plugin/ochttp/server.go:233-239, wrapped_body.go:25-27.) *)
Inductive iface : Type := IHijacker | ICloseNotifier | IPusher | IFlusher | IReaderFrom | IWriter.

(** plugin/ochttp/server.go:232-455 [wrappedResponseWriter]: the interfaces embedded in
    the struct that is returned, besides ResponseWriter; each is the value of the
    original writer. *)
Definition wrapped_response_writer (i0 i1 i2 i3 i4 : bool) : list iface :=
  match i0, i1, i2, i3, i4 with
  | false, false, false, false, false => []
  | false, false, false, false, true => [IReaderFrom]
  | false, false, false, true, false => [IFlusher]
  | false, false, false, true, true => [IFlusher; IReaderFrom]
  | false, false, true, false, false => [IPusher]
  | false, false, true, false, true => [IPusher; IReaderFrom]
  | false, false, true, true, false => [IPusher; IFlusher]
  | false, false, true, true, true => [IPusher; IFlusher; IReaderFrom]
  | false, true, false, false, false => [ICloseNotifier]
  | false, true, false, false, true => [ICloseNotifier; IReaderFrom]
  | false, true, false, true, false => [ICloseNotifier; IFlusher]
  | false, true, false, true, true => [ICloseNotifier; IFlusher; IReaderFrom]
  | false, true, true, false, false => [ICloseNotifier; IPusher]
  | false, true, true, false, true => [ICloseNotifier; IPusher; IReaderFrom]
  | false, true, true, true, false => [ICloseNotifier; IPusher; IFlusher]
  | false, true, true, true, true => [ICloseNotifier; IPusher; IFlusher; IReaderFrom]
  | true, false, false, false, false => [IHijacker]
  | true, false, false, false, true => [IHijacker; IReaderFrom]
  | true, false, false, true, false => [IHijacker; IFlusher]
  | true, false, false, true, true => [IHijacker; IFlusher; IReaderFrom]
  | true, false, true, false, false => [IHijacker; IPusher]
  | true, false, true, false, true => [IHijacker; IPusher; IReaderFrom]
  | true, false, true, true, false => [IHijacker; IPusher; IFlusher]
  | true, false, true, true, true => [IHijacker; IPusher; IFlusher; IReaderFrom]
  | true, true, false, false, false => [IHijacker; ICloseNotifier]
  | true, true, false, false, true => [IHijacker; ICloseNotifier; IReaderFrom]
  | true, true, false, true, false => [IHijacker; ICloseNotifier; IFlusher]
  | true, true, false, true, true => [IHijacker; ICloseNotifier; IFlusher; IReaderFrom]
  | true, true, true, false, false => [IHijacker; ICloseNotifier; IPusher]
  | true, true, true, false, true => [IHijacker; ICloseNotifier; IPusher; IReaderFrom]
  | true, true, true, true, false => [IHijacker; ICloseNotifier; IPusher; IFlusher]
  | true, true, true, true, true => [IHijacker; ICloseNotifier; IPusher; IFlusher; IReaderFrom]
  end.

(** plugin/ochttp/wrapped_body.go:24-44 [wrappedBody]. *)
Definition wrapped_body (i0 : bool) : list iface := if negb i0 then [] else [IWriter].
