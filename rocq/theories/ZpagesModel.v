(** Model of zpages/tracez.go and zpages/rpcz.go: the data the pages show.  Definitions
    only.  Not modelled: HTML templates, text/tabwriter,
    and what package fmt does with %q and %v.  The text pages and the parameters of the
    tracez handler are in ZpagesTextModel, the number formats in ZpagesNumModel. *)

From Coq Require Import String.
From Coq Require Import List Arith NArith ZArith Bool.
From Coq Require Import Floats.SpecFloat.
From Verif Require Import Base GoMap GoSort Text Float64 TagModel AggModel WorkerModel TraceTypes TraceModel SpanStoreModel TracerModel
  HttpModel GrpcModel.
Import ListNotations.
Open Scope nat_scope.

(** ** tracez *)

(** zpages/tracez.go:47-56 [defaultLatencies], in nanoseconds. *)
Definition page_latencies : list Z :=
  [10000; 100000; 1000000; 10000000; 100000000; 1000000000; 10000000000; 100000000000]%Z.

(** zpages/tracez.go:57-75 [canonicalCodes]. *)
Definition canonical_codes : list bytes :=
  [bs "OK"; bs "CANCELLED"; bs "UNKNOWN"; bs "INVALID_ARGUMENT"; bs "DEADLINE_EXCEEDED"; bs "NOT_FOUND"; bs "ALREADY_EXISTS";
   bs "PERMISSION_DENIED"; bs "RESOURCE_EXHAUSTED"; bs "FAILED_PRECONDITION"; bs "ABORTED"; bs "OUT_OF_RANGE"; bs "UNIMPLEMENTED";
   bs "INTERNAL"; bs "UNAVAILABLE"; bs "DATA_LOSS"; bs "UNAUTHENTICATED"].

(** zpages/tracez.go:78-83 [canonicalCodeString]. *)
Definition canonical_code_string (code : Z) : bytes :=
  if (code <? 0)%Z || (Z.of_nat (length canonical_codes) <=? code)%Z then bs "error code " ++ itoa code
  else nth (Z.to_nat code) canonical_codes [].

(** zpages/tracez.go:334-359 [traceSpans]: the report it asks package trace for. *)
Definition latency_range (sub : Z) : Z * Z :=
  let n := Z.of_nat (length page_latencies) in
  let lat i := nth (Z.to_nat i) page_latencies 0%Z in
  if (sub =? 0)%Z then (0%Z, lat 0%Z)
  else if (sub =? n)%Z then (lat (sub - 1)%Z, (2 ^ 63 - 1)%Z)
  else if (0 <? sub)%Z && (sub <? n)%Z then (lat (sub - 1)%Z, lat sub)
  else (0%Z, 0%Z).
(** zpages/tracez.go:341-357, of traceSpans. *)
Definition trace_spans (o : order) (name : bytes) (type sub : Z) : option top :=
  match type with
  | 0%Z => Some (TReportActive o name)
  | 1%Z => let '(lo, hi) := latency_range sub in Some (TReportLatency name lo hi)
  | 2%Z => Some (TReportErrors o name 0)
  | _ => None
  end.

(** zpages/tracez.go:400-405 [summaryPageRow]. *)
Record page_row : Type := MkPR { pr_name : bytes; pr_active : nat; pr_latency : list nat; pr_errors : nat }.

(** zpages/tracez.go:407-442 [getSummaryPageData]: the rows, and the lower bounds in the
    header.  [o]: the order of the maps.  ReportSpansPerMethod locks one store after the
    other; here it is one step. *)
Definition page_row_of (o : order) (ns : bytes * store) : page_row :=
  let '(active, errors, lats) := st_summary o (snd ns) in
  MkPR (fst ns) active (map snd lats) (list_sum (map snd errors)).
(** zpages/tracez.go:415, 436-440. *)
Definition summary_rows (o : order) (w : world) : list page_row :=
  isort (fun a b => bytes_ltb (pr_name a) (pr_name b)) (map (page_row_of o) (ord o _ (w_stores w))).
(** zpages/tracez.go:416-428: the lower bounds, of the first span name. *)
Definition summary_header (o : order) (w : world) : list Z :=
  match ord o _ (w_stores w) with
  | [] => []
  | ns :: _ => let '(_, _, lats) := st_summary o (snd ns) in map (fun x => fst (fst x)) lats
  end.

(** ** The rows of a span *)

(** fmt's %nd and %0nd. zpages/tracez.go:237-249. *)
Definition pad (c : byte) (n : nat) (s : bytes) : bytes := repeat c (n - length s) ++ s.
(** zpages/tracez.go:237. *)
Definition space : byte := n2b 32.
(** zpages/tracez.go:241. *)
Definition zero_digit : byte := n2b 48.

(** zpages/tracez.go:225-251 [formatElapsed], from the microseconds. *)
Definition elapsed_text (u : Z) : bytes :=
  if (u <? -9999999999)%Z then pad space 11 (itoa (Z.quot u 1000000)) ++ bs "s"
  else if (u <? 0)%Z then
    let sec := Z.quot u 1000000 in
    pad space 5 (itoa sec) ++ bs "." ++ pad zero_digit 6 (itoa (- (u - sec * 1000000)))
  else if (u <? 1000000)%Z then bs "     ." ++ pad space 6 (itoa u)
  else if (u <=? 99999999999)%Z then
    let sec := Z.quot u 1000000 in
    pad space 5 (itoa sec) ++ bs "." ++ pad zero_digit 6 (itoa (u - sec * 1000000))
  else pad space 11 (itoa (Z.quot u 1000000)) ++ bs "s".

(** The first column: nothing, date and time, or time only (tracez.go:211-223); the third
    column before fmt renders it. *)
Inductive when : Type := WNone | WDate (t : time) | WTime (t : time).
(** zpages/tracez.go:284-325. *)
Inductive row_msg : Type :=
| MNone
| MStatus (code : bytes) (msg : bytes)
| MAttrs (l : list (bytes * attr))
| MAnnot (msg : bytes) (l : list (bytes * attr))
| MMessage (sent : bool) (uncompressed compressed : Z).

(** zpages/tracez.go:180-184 [traceRow]. *)
Record trace_row : Type := MkTR { tr_when : when; tr_elapsed : bytes; tr_text : bytes; tr_span : option (span_context * bytes) }.

(** zpages/tracez.go:262-283 [formatAttributes]: sorted by key. *)
Definition sorted_attrs (o : order) (l : list (bytes * attr)) : list (bytes * attr) :=
  isort (fun a b => bytes_ltb (fst a) (fst b)) (ord o _ l).

(** zpages/tracez.go:295-302: the events of the span, sorted by time.  sort.Sort is not
    stable; [o] accounts for that too. *)
Definition span_events (o : order) (sd : sdata) : list (time * row_msg) :=
  isort (fun a b => (fst a <? fst b)%Z)
    (ord o _ (map (fun a => (an_time a, MAnnot (an_msg a) (match an_attrs a with Some l => sorted_attrs o l | None => [] end))) (sd_annots sd)
              ++ map (fun m => (me_time m, MMessage (me_sent m) (me_uncompressed m) (me_compressed m))) (sd_msgs sd))).

(** zpages/tracez.go:208-332 [traceRows].  [day]: the local date of a time; [render]: fmt.
    A message is cut at 1024 bytes (327-331). *)
Definition row_text (render : row_msg -> bytes) (m : row_msg) : bytes := firstn 1024 (render m).
(** zpages/tracez.go:226-228. *)
Definition elapsed_since (t last : time) : bytes := elapsed_text (Z.quot (time_sub t last) 1000).
(** zpages/tracez.go:302-325. *)
Fixpoint event_rows (day : time -> Z) (render : row_msg -> bytes) (lastday : Z) (last : time) (es : list (time * row_msg)) : list trace_row :=
  match es with
  | [] => []
  | (t, m) :: r =>
      MkTR (if (day t =? lastday)%Z then WTime t else WDate t) (elapsed_since t last) (row_text render m) None
      :: event_rows day render (day t) t r
  end.
(** zpages/tracez.go:208-332 [traceRows]. *)
Definition trace_rows (day : time -> Z) (render : row_msg -> bytes) (o : order) (sd : sdata) : list trace_row :=
  MkTR (WDate (sd_start sd))
       (if (sd_end sd =? zero_time)%Z then bs "            " else elapsed_since (sd_end sd) (sd_start sd))
       (row_text render MNone) (Some (sd_context sd, sd_parent sd))
  :: (if (fst (sd_status sd) =? 0)%Z && bytes_eqb (snd (sd_status sd)) [] then []
      else [MkTR WNone [] (row_text render (MStatus (canonical_code_string (fst (sd_status sd))) (snd (sd_status sd)))) None])
  ++ (if length (sd_attrs sd) =? 0 then [] else [MkTR WNone [] (row_text render (MAttrs (sorted_attrs o (sd_attrs sd)))) None])
  ++ event_rows day render (day (sd_start sd)) (sd_start sd) (span_events o sd).

(** zpages/tracez.go:361-370 [traceDataFromSpans]. *)
Definition page_rows (day : time -> Z) (render : row_msg -> bytes) (o : order) (l : list sdata) : list trace_row :=
  flat_map (trace_rows day render o) l.

(** ** rpcz *)

(** zpages/rpcz.go:43-58 [viewType]: the views of plugin/ocgrpc shown, for either
    direction; [None] is any other view. *)
Inductive rpc_view : Type := VCompleted | VSentBytes | VSentMessages | VReceivedBytes | VReceivedMessages | VLatency.

(** zpages/rpcz.go:169-191 [statSnapshot], without the fields nothing sets. *)
Record snapshot : Type := MkSnap {
  sn_method : bytes; sn_received : bool;
  sn_count : N; sn_latency : Z; sn_rate : f64; sn_in : f64; sn_out : f64; sn_errors : N }.
(** zpages/rpcz.go:241. *)
Definition new_snapshot (m : bytes) (received : bool) : snapshot := MkSnap m received 0 0 f_zero f_zero f_zero 0.

(** zpages/rpcz.go:193-196 [methodKey]. *)
Notation method_key := (bytes * bool)%type.
(** Equality of [methodKey] (zpages/rpcz.go:193-196). *)
Definition mkey_eqb (a b : method_key) : bool := bytes_eqb (fst a) (fst b) && Bool.eqb (snd a) (snd b).
Notation snapshots := (list (method_key * snapshot)).

(** A row of view.Data: tags and data (collector.go, view.go). *)
Notation data_row := (list (key * bytes) * agg_data f64_num)%type.

(** zpages/rpcz.go:229-236: the first method tag. *)
Fixpoint row_method (tags : list (key * bytes)) : bytes :=
  match tags with
  | [] => []
  | (k, v) :: r => if bytes_eqb k key_grpc_client_method || bytes_eqb k key_grpc_server_method then v else row_method r
  end.

(** zpages/rpcz.go:245-259; DistributionData.Sum is Mean * Count
    (aggregation_data.go:158). *)
Definition row_sum_count (d : agg_data f64_num) : f64 * f64 :=
  match d with
  | CountD _ v => (f_of_Z v, f_of_Z v)
  | DistD d => (f_mul (d_mean d) (f_of_Z (d_count d)), f_of_Z (d_count d))
  | SumD _ v => (v, v)
  | LastD _ => (f_zero, f_zero)
  end.

(** zpages/rpcz.go:210-223 [computeRate] with maxSec 0, [convertTime]. *)
Definition compute_rate (age : f64) (x : f64) : f64 := f_div x age.
(** zpages/rpcz.go:218-223 [convertTime]. *)
Definition convert_time (ms : f64) : Z :=
  match ms with
  | S754_infinity _ | S754_nan => 0%Z
  | _ => f_to_int (f_mul (f_of_Z 1000000) ms)
  end.

(** zpages/rpcz.go:261-312, for one row.  [reset]: the methods whose errors this export
    has set to zero; for VReceivedBytes of the server there is no case. *)
Definition set_errors (s : snapshot) (n : N) : snapshot :=
  MkSnap (sn_method s) (sn_received s) (sn_count s) (sn_latency s) (sn_rate s) (sn_in s) (sn_out s) n.
(** zpages/rpcz.go:261-313, for one row. *)
Definition update_snapshot (age : f64) (received : bool) (v : rpc_view) (reset : bool) (row : data_row) (s : snapshot) : snapshot :=
  let '(sum, count) := row_sum_count (snd row) in
  match v, received with
  | VCompleted, _ =>
      let s := if reset then s else set_errors s 0 in
      let k := if received then key_grpc_server_status else key_grpc_client_status in
      fold_left (fun s kv => if bytes_eqb (fst kv) k && negb (bytes_eqb (snd kv) (bs "OK"))
                             then set_errors s (u64 (sn_errors s + f_to_uint64 count)) else s) (fst row) s
  | VLatency, _ =>
      MkSnap (sn_method s) (sn_received s) (sn_count s) (convert_time (f_div sum count)) (sn_rate s) (sn_in s) (sn_out s) (sn_errors s)
  | VSentBytes, _ =>
      MkSnap (sn_method s) (sn_received s) (sn_count s) (sn_latency s) (sn_rate s) (sn_in s) (compute_rate age sum) (sn_errors s)
  | VReceivedBytes, false =>
      MkSnap (sn_method s) (sn_received s) (sn_count s) (sn_latency s) (sn_rate s) (compute_rate age sum) (sn_out s) (sn_errors s)
  | VSentMessages, false | VReceivedMessages, true =>
      MkSnap (sn_method s) (sn_received s) (f_to_uint64 count) (sn_latency s) (compute_rate age count) (sn_in s) (sn_out s) (sn_errors s)
  | VReceivedBytes, true | VSentMessages, true | VReceivedMessages, false => s
  end.

(** zpages/rpcz.go:200-315 [ExportView], under mu.  [age]: seconds since the start of the
    program. *)
Fixpoint export_rows (age : f64) (received : bool) (v : rpc_view) (reset : list bytes) (rows : list data_row) (snaps : snapshots) : snapshots :=
  match rows with
  | [] => snaps
  | row :: r =>
      let m := row_method (fst row) in
      let s := match mget mkey_eqb snaps (m, received) with Some s => s | None => new_snapshot m received end in
      let s' := update_snapshot age received v (existsb (bytes_eqb m) reset) row s in
      export_rows age received v (m :: reset) r (mset mkey_eqb snaps (m, received) s')
  end.
(** zpages/rpcz.go:200-315 [ExportView], under mu. *)
Definition export_view (snaps : snapshots) (age : f64) (v : option (bool * rpc_view)) (rows : list data_row) : snapshots :=
  match v with
  | None => snaps
  | Some (received, v) => export_rows age received v [] rows snaps
  end.

(** zpages/rpcz.go:317-333 [getStatsPage]: sent, received. *)
Definition stats_group (o : order) (snaps : snapshots) (received : bool) : list snapshot :=
  isort (fun a b => bytes_ltb (sn_method a) (sn_method b))
    (map snd (filter (fun ks => Bool.eqb (snd (fst ks)) received) (ord o _ snaps))).
(** zpages/rpcz.go:317-333 [getStatsPage]. *)
Definition stats_page (o : order) (snaps : snapshots) : list snapshot * list snapshot :=
  (stats_group o snaps false, stats_group o snaps true).
