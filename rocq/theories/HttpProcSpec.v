(** Vocabulary for the properties of a process that uses plugin/ochttp. *)

From Coq Require Import String.
From Coq Require Import List Arith NArith ZArith Bool.
From Verif Require Import Base GoMap Text Float64 TagModel TagSpec AggModel ViewModel WorkerModel WorkerSpec RecordModel
  ProcessModel ProcessSpec TraceTypes TraceModel HttpModel HttpSpec HttpProcModel.
From Verif Require GrpcProcSpec HttpProps HttpServerProps.
Import ListNotations.
Open Scope nat_scope.

Notation shown_tags := GrpcProcSpec.shown_tags.
Notation valid_request := HttpProps.valid_request.

(** ** What may happen *)

Definition int64_range (z : Z) : Prop := (- 2 ^ 63 <= z < 2 ^ 63)%Z.

(** In state [g]: [it] is an order of the tag map ranged over; an HTTP status is an int. *)
Definition hact_ok (u : uworld) (g : hproc) (a : hact) : Prop :=
  let ts := pc_tags (hp_proc g) in
  match a with
  | HApp a => pact_ok u (hp_proc g) a
  | HRoundTrip _ _ i it _ _ b _ _ =>
      iterates (st_heap ts) (nth i (st_ctxs ts) None) it /\ match b with BaseResp status _ => int64_range status | BaseErr _ => True end
  | HServe _ _ _ i it ops _ _ => iterates (st_heap ts) (nth i (st_ctxs ts) None) it /\ int64_range (status_of (performed ops))
  | HStep j it _ _ | HBody j _ it _ _ => forall x, nth_error (hp_reqs g) j = Some x -> iterates (st_heap ts) (hq_tags x) it
  end.

(** Every action of a run, in the state in which it happens. *)
Fixpoint always (P : hproc -> hact -> Prop) (g : hproc) (l : list hact) : Prop :=
  match l with
  | [] => True
  | a :: r => P g a /\ match hproc_step g a with Some g' => always P g' r | None => True end
  end.

(** A response body is used by one call at a time: Read or Close is called when the calls
    before have returned. *)
Definition body_alone (g : hproc) (a : hact) : Prop :=
  match a with
  | HBody j (EvCall _) _ _ _ =>
      forall x b op ms, nth_error (hp_reqs g) j = Some x -> hq_body x = Some b -> In (op, ms) (bd_threads b) -> ms = []
  | _ => True
  end.

(** The program itself does not record the measure, and does not unregister the name. *)
Definition happ_avoids (m : bytes) (a : hact) : Prop :=
  match a with
  | HApp (PRecord _ _ xs _ _) => forall ms me v, In (WithMeasurements ms) xs -> In (Some (me, v)) ms -> me_name me <> m
  | _ => True
  end.
Definition happ_keeps (n : bytes) (a : hact) : Prop := match a with HApp a => ~ unregisters_name n a | _ => True end.

(** The view [v], with name [n] and measure [m], was registered, under a free name and
    with valid views only, when the process was in state [g1] after [acts1]; since then
    [acts] happened, without the name being unregistered and without the program recording
    the measure itself; the process is now in state [g].  [alone]: response bodies are used
    by one call at a time. *)
Definition hregistered_since (alone : bool) (u : uworld) (v : nat) (n m : bytes) (acts1 : list hact) (g1 : hproc) (acts : list hact) (g : hproc) : Prop :=
  exists o1 o0 ps1 ps2 now, let reg := HApp (PCmd o0 (CmdRegister (ps1 ++ v :: ps2) now)) in
    always (hact_ok u) (hproc_init u) (acts1 ++ reg :: acts) /\
    (alone = true -> always body_alone (hproc_init u) (acts1 ++ reg :: acts)) /\
    hproc_run (hproc_init u) acts1 = Some g1 /\ hproc_run g1 (reg :: acts) = Some g /\
    handle o1 (pc_worker (hp_proc g1)) (CmdFind n) = Some (RFind None, [], pc_worker (hp_proc g1)) /\
    (forall q, In q (ps1 ++ v :: ps2) -> spec_view u q <> None) /\
    (forall q sv, In q ps1 -> spec_view u q = Some sv -> sv_name sv <> n) /\
    (forall a, In a acts -> happ_keeps n a /\ happ_avoids m a).

(** What RetrieveData returns for the name; [o]: the order in which it ranges over maps. *)
Definition hshows (o : order) (g : hproc) (n : bytes) (rows : list (list (key * bytes) * agg_data f64_num)) : Prop :=
  handle o (pc_worker (hp_proc g)) (CmdRetrieve n) = Some (RRows (Some rows), [], pc_worker (hp_proc g)).

(** ** Requests *)

Definition client_side (x : hreq) : bool := match hq_side x with HClient _ => true | HServer _ => false end.

(** The HTTP status: of the response; 500 for a transport error; of the last WriteHeader,
    or 200. *)
Definition hstatus (x : hreq) : Z :=
  match hq_side x with
  | HClient (BaseErr _) => 500
  | HClient (BaseResp status _) => status
  | HServer ops => status_of (performed ops)
  end.

(** The client leaves health endpoints alone. *)
Definition observed (x : hreq) : bool :=
  negb (client_side x) || negb (bytes_eqb (rq_path (hq_req x)) (bs "/healthz") || bytes_eqb (rq_path (hq_req x)) (bs "/_ah/health")).

(** The calls made on the body, in order. *)
Definition body_ops (x : hreq) : list bop := match hq_body x with Some b => map fst (bd_threads b) | None => [] end.

(** The request has begun: RoundTrip or ServeHTTP has passed the point at which it counts
    requests. *)
Definition begun (x : hreq) : bool := observed x && negb (existsb (fun k => match k with KRecord _ _ => true | _ => false end) (hq_todo x)).

(** The request is complete.  If there is a response: a Close, or a Read that reported
    io.EOF, has come to the end of the exchange, which C53 says is before it returns.
    Otherwise RoundTrip or ServeHTTP has nothing more to record. *)
Definition ended (x : hreq) : bool :=
  observed x &&
  match hq_side x with
  | HClient (BaseResp _ _) =>
      match hq_body x with
      | Some b => existsb (fun t => completes (fst t) && negb (existsb (fun s => match s with MFinish _ => true | _ => false end) (snd t))) (bd_threads b)
      | None => false
      end
  | _ => negb (existsb (fun k => match k with KRecordTags _ _ _ => true | _ => false end) (hq_todo x))
  end.

(** ** Views *)

Inductive hview : Type :=
| VcSentBytes | VcReceivedBytes | VcRoundtripLatency | VcCompletedCount
| VcRequestCount | VcRequestBytes | VcResponseBytes | VcLatency | VcCountByMethod | VcCountByStatus
| VsRequestCount | VsRequestBytes | VsResponseBytes | VsLatency | VsCountByMethod | VsCountByStatus.

Definition hview_def (ha : http_aggs) (v : hview) : view :=
  match v with
  | VcSentBytes => hcv_sent_bytes ha | VcReceivedBytes => hcv_received_bytes ha | VcRoundtripLatency => hcv_roundtrip_latency ha
  | VcCompletedCount => hcv_completed_count ha | VcRequestCount => hcv_request_count ha | VcRequestBytes => hcv_request_bytes ha
  | VcResponseBytes => hcv_response_bytes ha | VcLatency => hcv_latency ha | VcCountByMethod => hcv_request_count_by_method ha
  | VcCountByStatus => hcv_response_count_by_status ha
  | VsRequestCount => hsv_request_count ha | VsRequestBytes => hsv_request_bytes ha | VsResponseBytes => hsv_response_bytes ha
  | VsLatency => hsv_latency ha | VsCountByMethod => hsv_request_count_by_method ha | VsCountByStatus => hsv_response_count_by_status ha
  end.

Definition v_client (v : hview) : bool :=
  match v with VsRequestCount | VsRequestBytes | VsResponseBytes | VsLatency | VsCountByMethod | VsCountByStatus => false | _ => true end.
Definition v_count (v : hview) : bool :=
  match v with VcCompletedCount | VcRequestCount | VcCountByMethod | VcCountByStatus | VsRequestCount | VsCountByMethod | VsCountByStatus => true | _ => false end.

(** Its name. *)
Definition hname (v : hview) : bytes :=
  bs (if v_client v then "opencensus.io/http/client/" else "opencensus.io/http/server/") ++
  bs match v with
     | VcSentBytes => "sent_bytes" | VcReceivedBytes => "received_bytes" | VcRoundtripLatency => "roundtrip_latency" | VcCompletedCount => "completed_count"
     | VcRequestCount | VsRequestCount => "request_count" | VcRequestBytes | VsRequestBytes => "request_bytes"
     | VcResponseBytes | VsResponseBytes => "response_bytes" | VcLatency | VsLatency => "latency"
     | VcCountByMethod | VsCountByMethod => "request_count_by_method" | VcCountByStatus | VsCountByStatus => "response_count_by_status_code"
     end.

(** The name of what it measures. *)
Definition hmeasure (v : hview) : bytes :=
  bs match v with
     | VcSentBytes | VcRequestBytes | VcCountByMethod => "opencensus.io/http/client/sent_bytes"
     | VcReceivedBytes | VcResponseBytes => "opencensus.io/http/client/received_bytes"
     | VcRoundtripLatency | VcCompletedCount | VcLatency | VcCountByStatus => "opencensus.io/http/client/roundtrip_latency"
     | VcRequestCount => "opencensus.io/http/client/request_count"
     | VsRequestCount | VsCountByMethod => "opencensus.io/http/server/request_count"
     | VsRequestBytes => "opencensus.io/http/server/request_bytes"
     | VsResponseBytes => "opencensus.io/http/server/response_bytes"
     | VsLatency | VsCountByStatus => "opencensus.io/http/server/latency"
     end.

(** Does the view say anything of the method, of the status? *)
Definition by_method (v : hview) : bool :=
  match v with VcSentBytes | VcReceivedBytes | VcRoundtripLatency | VcCompletedCount | VcCountByMethod | VsCountByMethod => true | _ => false end.
Definition by_status (v : hview) : bool :=
  match v with VcSentBytes | VcReceivedBytes | VcRoundtripLatency | VcCompletedCount | VcCountByStatus | VsCountByStatus => true | _ => false end.

(** The row for method [m] and status, in decimal, [st]. *)
Definition hrow (v : hview) (m st : bytes) : list (key * bytes) :=
  let new := match v with VcSentBytes | VcReceivedBytes | VcRoundtripLatency | VcCompletedCount => true | _ => false end in
  shown_tags ((if by_method v then [(if new then bs "http_client_method" else bs "http.method", m)] else []) ++
              (if by_status v then [(if new then bs "http_client_status" else bs "http.status", st)] else [])).

(** Does the request show in the view?  Requests are counted when they begin by the views
    of request counts, and by the server's view by method; otherwise when they are
    complete.  A handler that sets a route that is not a legal tag value costs the request
    its completion; the server's view of request sizes has the requests with a body. *)
Definition counts_in (v : hview) (x : hreq) : bool :=
  Bool.eqb (client_side x) (v_client v) &&
  match v with
  | VcRequestCount | VsRequestCount | VsCountByMethod => begun x
  | _ => ended x &&
         match hq_side x with HServer ops => forallb legal (routes (performed ops)) | HClient _ => true end &&
         match v with VsRequestBytes => match rq_body (hq_req x) with SomeBody => true | _ => false end | _ => true end
  end.

(** The measured value. *)
Definition hlatency (x : hreq) : f64 :=
  match hq_side x with
  | HClient (BaseResp _ _) => match completed_at (body_ops x) with Some now => ms_between (hq_t0 x) now | None => f_zero end
  | _ => ms_between (hq_t0 x) (hq_t1 x)
  end.
Definition hreceived (x : hreq) : Z :=
  match hq_side x with
  | HClient (BaseResp _ clen) => HttpProps.received_size (rq_method (hq_req x)) clen (bytes_until (body_ops x))
  | _ => 0
  end.
Definition hwritten (x : hreq) : Z := match hq_side x with HServer ops => bytes_written (performed ops) | _ => 0%Z end.
Definition hvalue (v : hview) (x : hreq) : f64 :=
  match v with
  | VcSentBytes | VcRequestBytes | VcCountByMethod => f_of_Z (HttpProps.sent_size (hq_req x))
  | VcReceivedBytes | VcResponseBytes => f_of_Z (hreceived x)
  | VcRoundtripLatency | VcLatency | VcCompletedCount | VcCountByStatus | VsLatency | VsCountByStatus => hlatency x
  | VcRequestCount | VsRequestCount | VsCountByMethod => f_of_Z 1
  | VsRequestBytes => f_of_Z (Z.max 0 (rq_length (hq_req x)))
  | VsResponseBytes => f_of_Z (hwritten x)
  end.
(** The bounds of the buckets: milliseconds, or 1 KiB to 4 GiB. *)
Definition hbounds (v : hview) : list f64 :=
  match v with
  | VcRoundtripLatency | VcLatency | VsLatency =>
      map f_of_Z [1; 2; 3; 4; 5; 6; 8; 10; 13; 16; 20; 25; 30; 40; 50; 65; 80; 100; 130; 160; 200; 250; 300; 400; 500; 650; 800; 1000;
                  2000; 5000; 10000; 20000; 50000; 100000]%Z
  | _ => map (fun k => f_of_Z (2 ^ k)) [10; 11; 12; 14; 16; 18; 20; 22; 24; 26; 28; 30; 32]%Z
  end.

(** Times and sizes in range. *)
Definition in_range (x : hreq) : Prop :=
  match hq_side x with
  | HClient (BaseResp _ _) => sizes_ok (body_ops x) /\ forall now, completed_at (body_ops x) = Some now -> clock_ok (hq_t0 x) now
  | HClient (BaseErr _) => clock_ok (hq_t0 x) (hq_t1 x)
  | HServer ops => clock_ok (hq_t0 x) (hq_t1 x) /\ (0 <= bytes_written (performed ops) < 2 ^ 63)%Z
  end.

(** The requests that show in the view in state [g] and did not in state [g1]; requests
    keep their positions. *)
Fixpoint newly (p : hreq -> bool) (l1 l : list hreq) : list hreq :=
  match l with
  | [] => []
  | x :: r => (if p x && negb (match l1 with x1 :: _ => p x1 | [] => false end) then [x] else []) ++ newly p (tl l1) r
  end.
(** Those of them with method [m] and status [s], if the view is by method, by status. *)
Definition since (v : hview) (m : bytes) (s : Z) (g1 g : hproc) : list hreq :=
  filter (fun x => (negb (by_method v) || bytes_eqb (rq_method (hq_req x)) m) && (negb (by_status v) || (hstatus x =? s)%Z))
         (newly (counts_in v) (hp_reqs g1) (hp_reqs g)).

(** The host, path and method of the requests of the side are legal tag values. *)
Definition requests_ok (client : bool) (g : hproc) : Prop :=
  forall x, In x (hp_reqs g) -> client_side x = client -> valid_request (hq_req x).

(** What was done with the body of request [j]. *)
Definition body_events (j : nat) (l : list hact) : list bev :=
  flat_map (fun a => match a with HBody j' ev _ _ _ => if j' =? j then [ev] else [] | _ => [] end) l.
(** How many steps request [j] has done. *)
Definition steps_done (j : nat) (l : list hact) : nat :=
  length (filter (fun a => match a with HStep j' _ _ _ => j' =? j | _ => false end) l).

(** The metrics that the views become: name, unit, type, labels. *)
Definition http_metrics : list (bytes * bytes * metric_type * list bytes) :=
  let c (n : string) u ty ks := (bs "opencensus.io/http/client/" ++ bs n, bs u, ty, map bs ks) in
  let s (n : string) u ty ks := (bs "opencensus.io/http/server/" ++ bs n, bs u, ty, map bs ks) in
  [c "sent_bytes" "By" TyCumulativeDistribution ["http_client_method"; "http_client_status"];
   c "received_bytes" "By" TyCumulativeDistribution ["http_client_method"; "http_client_status"];
   c "roundtrip_latency" "ms" TyCumulativeDistribution ["http_client_method"; "http_client_status"];
   c "completed_count" "1" TyCumulativeInt64 ["http_client_method"; "http_client_status"];
   c "request_count" "1" TyCumulativeInt64 [];
   c "request_bytes" "By" TyCumulativeDistribution [];
   c "response_bytes" "By" TyCumulativeDistribution [];
   c "latency" "ms" TyCumulativeDistribution [];
   c "request_count_by_method" "1" TyCumulativeInt64 ["http.method"];
   c "response_count_by_status_code" "1" TyCumulativeInt64 ["http.status"];
   s "request_count" "1" TyCumulativeInt64 [];
   s "request_bytes" "By" TyCumulativeDistribution [];
   s "response_bytes" "By" TyCumulativeDistribution [];
   s "latency" "ms" TyCumulativeDistribution [];
   s "request_count_by_method" "1" TyCumulativeInt64 ["http.method"];
   s "response_count_by_status_code" "1" TyCumulativeInt64 ["http.status"]]%string.
