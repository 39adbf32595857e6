(** Model of plugin/ocgrpc: client.go, server.go, client_stats_handler.go,
    server_stats_handler.go, stats_common.go, trace_common.go, and of the measures of
    client_metrics.go and server_metrics.go.  Definitions only.

    The plugin is modelled by the calls it makes to packages tag, trace and stats; what
    these calls do is the subject of TagModel, TracerModel and RecordModel.  Not
    modelled: gRPC itself (what it carries, when it calls the handlers), logging, and the
    connection handlers TagConn and HandleConn, which do nothing. *)

From Coq Require Import String.
From Coq Require Import List Arith NArith ZArith Bool.
From Verif Require Import Base GoMap Text Float64 TagModel AggModel ViewModel WorkerModel RecordModel
  TraceTypes PropagationModel TraceModel HttpModel.
Import ListNotations.
Open Scope nat_scope.

(** ** Measures and tags *)

(** plugin/ocgrpc/client_metrics.go:25-33.  The descriptions do not matter here and are
    left out. *)
Definition grpc_int (n unit : bytes) : measure := MkMeasure n [] unit MInt64.
(** plugin/ocgrpc/client_metrics.go:30, server_metrics.go:31, likewise. *)
Definition grpc_float (n unit : bytes) : measure := MkMeasure n [] unit MFloat64.
(** plugin/ocgrpc/client_metrics.go:26. *)
Definition gc_sent_messages : measure := grpc_int (bs "grpc.io/client/sent_messages_per_rpc") (bs "1").
(** plugin/ocgrpc/client_metrics.go:27. *)
Definition gc_sent_bytes : measure := grpc_int (bs "grpc.io/client/sent_bytes_per_rpc") (bs "By").
(** plugin/ocgrpc/client_metrics.go:28. *)
Definition gc_recv_messages : measure := grpc_int (bs "grpc.io/client/received_messages_per_rpc") (bs "1").
(** plugin/ocgrpc/client_metrics.go:29. *)
Definition gc_recv_bytes : measure := grpc_int (bs "grpc.io/client/received_bytes_per_rpc") (bs "By").
(** plugin/ocgrpc/client_metrics.go:30. *)
Definition gc_latency : measure := grpc_float (bs "grpc.io/client/roundtrip_latency") (bs "ms").
(** plugin/ocgrpc/client_metrics.go:31. *)
Definition gc_started : measure := grpc_int (bs "grpc.io/client/started_rpcs") (bs "1").

(** plugin/ocgrpc/server_metrics.go:25-32. *)
Definition gs_recv_messages : measure := grpc_int (bs "grpc.io/server/received_messages_per_rpc") (bs "1").
(** plugin/ocgrpc/server_metrics.go:27. *)
Definition gs_recv_bytes : measure := grpc_int (bs "grpc.io/server/received_bytes_per_rpc") (bs "By").
(** plugin/ocgrpc/server_metrics.go:28. *)
Definition gs_sent_messages : measure := grpc_int (bs "grpc.io/server/sent_messages_per_rpc") (bs "1").
(** plugin/ocgrpc/server_metrics.go:29. *)
Definition gs_sent_bytes : measure := grpc_int (bs "grpc.io/server/sent_bytes_per_rpc") (bs "By").
(** plugin/ocgrpc/server_metrics.go:30. *)
Definition gs_started : measure := grpc_int (bs "grpc.io/server/started_rpcs") (bs "1").
(** plugin/ocgrpc/server_metrics.go:31. *)
Definition gs_latency : measure := grpc_float (bs "grpc.io/server/server_latency") (bs "ms").

(** plugin/ocgrpc/stats_common.go:64. *)
Definition key_grpc_server_method : key := bs "grpc_server_method".
(** plugin/ocgrpc/stats_common.go:65. *)
Definition key_grpc_server_status : key := bs "grpc_server_status".
(** plugin/ocgrpc/stats_common.go:70. *)
Definition key_grpc_client_method : key := bs "grpc_client_method".
(** plugin/ocgrpc/stats_common.go:71. *)
Definition key_grpc_client_status : key := bs "grpc_client_status".

(** ** Names *)

(** plugin/ocgrpc/stats_common.go:79, trace_common.go:37-38, 54-55. *)
Definition slash : byte := n2b 47.
(** plugin/ocgrpc/trace_common.go:38, 55. *)
Definition dot : byte := n2b 46.

(** plugin/ocgrpc/stats_common.go:78-80 [methodName]: strings.TrimLeft removes every
    leading slash. *)
Fixpoint method_name (s : bytes) : bytes :=
  match s with
  | b :: r => if byte_eqb b slash then method_name r else s
  | [] => []
  end.

(** plugin/ocgrpc/trace_common.go:37-38, 54-55: strings.TrimPrefix removes one slash,
    strings.Replace with -1 replaces all others. *)
Definition span_name (s : bytes) : bytes :=
  map (fun b => if byte_eqb b slash then dot else b)
      (match s with b :: r => if byte_eqb b slash then r else s | [] => [] end).

(** plugin/ocgrpc/stats_common.go:195-235 [statusCodeToString]. *)
Definition status_code_to_string (c : N) : bytes :=
  match c with
  | 0 => bs "OK"
  | 1 => bs "CANCELLED"
  | 2 => bs "UNKNOWN"
  | 3 => bs "INVALID_ARGUMENT"
  | 4 => bs "DEADLINE_EXCEEDED"
  | 5 => bs "NOT_FOUND"
  | 6 => bs "ALREADY_EXISTS"
  | 7 => bs "PERMISSION_DENIED"
  | 8 => bs "RESOURCE_EXHAUSTED"
  | 9 => bs "FAILED_PRECONDITION"
  | 10 => bs "ABORTED"
  | 11 => bs "OUT_OF_RANGE"
  | 12 => bs "UNIMPLEMENTED"
  | 13 => bs "INTERNAL"
  | 14 => bs "UNAVAILABLE"
  | 15 => bs "DATA_LOSS"
  | 16 => bs "UNAUTHENTICATED"
  | c => bs "CODE_" ++ itoa (Z.of_N c)
  end%N.

(** ** TagRPC *)

(** What TagRPC leaves in the context of an RPC: *rpcData (stats_common.go:41-51; start
    time and method, the counters are below), the tag map, and the context of the span.
    [None]: there is none. *)
Record rpc_ctx : Type := MkRC { rc_data : option (time * bytes); rc_tags : ctx; rc_span : option span_context }.

(** Metadata of an RPC: the values of the keys, in order.  Keys are in lower case. *)
Notation grpc_md := (list (bytes * bytes)).
(** plugin/ocgrpc/trace_common.go:53, 56: the values of a key. *)
Definition md_values (md : grpc_md) (k : bytes) : list bytes :=
  flat_map (fun kv => if bytes_eqb (fst kv) k then [snd kv] else []) md.

(** plugin/ocgrpc/trace_common.go:30. *)
Definition trace_context_key : bytes := bs "grpc-trace-bin".

(** What TagRPC does to the span: how it starts it (as in HttpModel.KStart) and what it
    sets; the metadata and the encoded tags that go out; the heap of tag maps; and the
    context it returns. (plugin/ocgrpc/client.go:52-56, server.go:77-81.) *)
Record tag_out : Type := MkTO {
  to_start : option span_context * bytes * list sopt;
  to_updates : list supd;
  to_md : grpc_md;
  to_wire_tags : option bytes;
  to_heap : heap;
  to_ctx : rpc_ctx }.

(** plugin/ocgrpc/client.go:52-56 [ClientHandler.TagRPC]: trace_common.go:36-44, then
    client_stats_handler.go:29-49.  [info]: the full method name, [None] for a nil
    RPCTagInfo, on which traceTagRPC panics ([None]), as does [encode] if it does.
    [sc]: the context of the span StartSpan returns; [md], [wire]: the metadata and the
    tags already going out; [c], [it]: the tag map of the context and an order of it. *)
Definition client_tag_rpc (smp : option sampler) (info : option bytes) (th : heap) (c : ctx) (it : list (key * content))
                          (md : grpc_md) (wire : option bytes) (sc : span_context) (now : time) : option tag_out :=
  match info with
  | None => None
  | Some full =>
      let start := (None, span_name full, [WithSampler smp; WithSpanKind kind_client]) in
      let md := md ++ [(trace_context_key, binary sc)] in
      let out wire := Some (MkTO start [] md wire th (MkRC (Some (now, full)) c (Some sc))) in
      match c with
      | None => out wire
      | Some _ => match encode it with Some b => out (Some b) | None => None end
      end
  end.

(** plugin/ocgrpc/server.go:32-55 [ServerHandler]. *)
Record grpc_server : Type := MkGS { gsv_public : bool; gsv_sampler : option sampler }.

(** trace/basetypes.go:87-91. *)
Definition link_type_child : Z := 1.

(** plugin/ocgrpc/trace_common.go:52-82 [ServerHandler.traceTagRPC]. *)
Definition server_trace_tag (h : grpc_server) (full : bytes) (md : grpc_md)
  : option (option span_context * bytes * list sopt * list supd) :=
  let opts := [WithSpanKind kind_server; WithSampler (gsv_sampler h)] in
  match md_values md trace_context_key with
  | [] => Some (None, span_name full, opts, [])
  | b :: _ =>
      match from_binary b with
      | Ok (Some parent) =>
          if negb (gsv_public h) then Some (Some parent, span_name full, opts, [])
          else Some (None, span_name full, opts, [ULink (MkLnk (sc_trace_id parent) (sc_span_id parent) link_type_child [])])
      | Ok None => Some (None, span_name full, opts, [])
      | _ => None
      end
  end.

(** plugin/ocgrpc/server_stats_handler.go:50-63 [extractPropagatedTags] and 42-43: the map
    is decoded and put into the context; a missing or malformed one leaves a nil map,
    which hides the tags the context had.  [None]: Decode panics. *)
Definition server_tags (th : heap) (wire : option bytes) : option (heap * ctx) :=
  match wire with
  | None => Some (th, None)
  | Some b =>
      match decode b with
      | DecOk m => Some (th ++ [m], Some (length th))
      | DecErr _ => Some (th, None)
      | DecPanic | DecOutOfFuel => None
      end
  end.

(** plugin/ocgrpc/server.go:77-81 [ServerHandler.TagRPC], with
    server_stats_handler.go:30-46.  [md], [wire]: what arrived; [it]: an order of the
    decoded map. *)
Definition server_tag_rpc (h : grpc_server) (info : option bytes) (th : heap) (it : list (key * content))
                          (md : grpc_md) (wire : option bytes) (sc : span_context) (now : time) : option tag_out :=
  match info with
  | None => None
  | Some full =>
      match server_trace_tag h full md, server_tags th wire with
      | Some (p, name, opts, us), Some (th, c) =>
          let '(th, c, _) := tag_new th c it [Upsert key_grpc_server_method (method_name full) []] in
          Some (MkTO (p, name, opts) us [] None th (MkRC (Some (now, full)) c (Some sc)))
      | _, _ => None
      end
  end.

(** ** HandleRPC

    gRPC may call HandleRPC from several goroutines at once.  A call is a list of atomic
    steps, and a run interleaves them. *)

(** The error of an RPC: nil, one that status.FromError recognises (with its code), or
    another. (plugin/ocgrpc/stats_common.go:157-164, trace_common.go:97-104.) *)
Inductive rpc_err : Type := NoError | StatusError (code : N) (msg : bytes) | OtherError (msg : bytes).

(** The events of package google.golang.org/grpc/stats (plugin/ocgrpc/stats_common.go:84-97)
    with their time.  [now]: the clock during the call.
    [GOther]: headers, trailers and events of other types. *)
Inductive gevent : Type :=
| GBegin (client failfast : bool)
| GOut (len wire : Z) (now : time)
| GIn (len wire : Z) (now : time)
| GEnd (client : bool) (e : rpc_err) (now : time)
| GOther.

(** plugin/ocgrpc/stats_common.go:44: the counters of rpcData. *)
Inductive counter : Type := SentCount | SentBytes | RecvCount | RecvBytes.
(** plugin/ocgrpc/stats_common.go:44: the four counters. *)
Record counters : Type := MkCn { cn_sent : Z; cn_sent_bytes : Z; cn_recv : Z; cn_recv_bytes : Z }.
(** atomic.LoadInt64 (plugin/ocgrpc/stats_common.go:175-178, 187-190). *)
Definition cn_get (c : counters) (f : counter) : Z :=
  match f with SentCount => cn_sent c | SentBytes => cn_sent_bytes c | RecvCount => cn_recv c | RecvBytes => cn_recv_bytes c end.
(** atomic.AddInt64. (plugin/ocgrpc/stats_common.go:128-129, 141-142.) *)
Definition cn_add (c : counters) (f : counter) (n : Z) : counters :=
  let v := int64_of (cn_get c f + n) in
  match f with
  | SentCount => MkCn v (cn_sent_bytes c) (cn_recv c) (cn_recv_bytes c)
  | SentBytes => MkCn (cn_sent c) v (cn_recv c) (cn_recv_bytes c)
  | RecvCount => MkCn (cn_sent c) (cn_sent_bytes c) v (cn_recv_bytes c)
  | RecvBytes => MkCn (cn_sent c) (cn_sent_bytes c) (cn_recv c) v
  end.

(** Calls: a setter of the RPC's span, or ([None]) its End; and RecordWithOptions with the
    tags of the RPC's context. (plugin/ocgrpc/trace_common.go:84-107,
    stats_common.go:109-115, 169-191.) *)
Inductive gcall : Type :=
| GCSpan (u : option supd)
| GCRecord (c : ctx) (xs : list ropt).

(** The steps of a call of HandleRPC: a call, an atomic addition, an atomic load, the
    recording at the end, the nil dereference of plugin/ocgrpc/stats_common.go:110
    (stats_common.go:100-193). *)
Inductive ginstr : Type :=
| GDo (k : gcall)
| GAdd (f : counter) (n : Z)
| GLoad (f : counter)
| GRecEnd (client : bool) (c : ctx) (mu : list mutator) (a : attachments) (latency : f64)
| GPanic.

(** Go's conversion to int32. (plugin/ocgrpc/trace_common.go:100.) *)
Definition int32_of (z : Z) : Z := ((z + 2 ^ 31) mod 2 ^ 32 - 2 ^ 31)%Z.

(** plugin/ocgrpc/trace_common.go:84-107 [traceHandleRPC].  codes.Internal is 13. *)
Definition trace_handle (ev : gevent) : list ginstr :=
  match ev with
  | GBegin client failfast => [GDo (GCSpan (Some (USetAttrs [(bs "Client", AvBool client); (bs "FailFast", AvBool failfast)])))]
  | GIn len wire now => [GDo (GCSpan (Some (UMsg now false 0 len wire)))]
  | GOut len wire now => [GDo (GCSpan (Some (UMsg now true 0 len wire)))]
  | GEnd _ e _ =>
      match e with
      | NoError => []
      | StatusError code msg => [GDo (GCSpan (Some (USetStatus (int32_of (Z.of_N code)) msg)))]
      | OtherError msg => [GDo (GCSpan (Some (USetStatus 13 msg)))]
      end ++ [GDo (GCSpan None)]
  | GOther => []
  end.

(** plugin/ocgrpc/stats_common.go:237-248 [getSpanCtxAttachment].  The value, a
    SpanContext, is represented by its binary form. *)
Definition att_span_context : bytes := bs "SpanContext".
(** plugin/ocgrpc/stats_common.go:237-248 [getSpanCtxAttachment]. *)
Definition span_ctx_attachment (sc : option span_context) : attachments :=
  match sc with
  | None => []
  | Some sc => if is_sampled sc then [(att_span_context, binary sc)] else []
  end.

(** plugin/ocgrpc/stats_common.go:156-164. *)
Definition status_tag (e : rpc_err) : bytes :=
  match e with
  | NoError => bs "OK"
  | StatusError code _ => status_code_to_string code
  | OtherError _ => []
  end.

(** plugin/ocgrpc/stats_common.go:83-98 [statsHandleRPC] and its handlers, 100-193.  The loads
    are in the order in which the arguments are evaluated. *)
Definition stats_handle (rc : rpc_ctx) (ev : gevent) : list ginstr :=
  match ev with
  | GOther => []
  | GBegin client _ =>
      match rc_data rc with
      | None => [GPanic]
      | Some (_, full) =>
          [GDo (GCRecord (rc_tags rc) [WithTags [Upsert key_grpc_client_method (method_name full) []];
             WithMeasurements [m_int (if client then gc_started else gs_started) 1]])]
      end
  | GOut len _ _ => match rc_data rc with None => [] | Some _ => [GAdd SentBytes len; GAdd SentCount 1] end
  | GIn len _ _ => match rc_data rc with None => [] | Some _ => [GAdd RecvBytes len; GAdd RecvCount 1] end
  | GEnd client e now =>
      match rc_data rc with
      | None => []
      | Some (start, full) =>
          [GLoad SentBytes; GLoad SentCount; GLoad RecvCount; GLoad RecvBytes;
           GRecEnd client (rc_tags rc)
             (if client then [Upsert key_grpc_client_method (method_name full) []; Upsert key_grpc_client_status (status_tag e) []]
              else [Upsert key_grpc_server_status (status_tag e) []])
             (span_ctx_attachment (rc_span rc))
             (in_ms (time_sub now start))]
      end
  end.

(** plugin/ocgrpc/client.go:46-49, server.go:71-74 [HandleRPC]. *)
Definition handle_rpc (rc : rpc_ctx) (ev : gevent) : list ginstr := trace_handle ev ++ stats_handle rc ev.

(** plugin/ocgrpc/stats_common.go:174-179, 186-191: the measurements, from the loaded values. *)
Definition end_measurements (client : bool) (regs : list Z) (latency : f64) : list measurement :=
  let ms := if client then [gc_sent_bytes; gc_sent_messages; gc_recv_messages; gc_recv_bytes]
            else [gs_sent_bytes; gs_sent_messages; gs_recv_messages; gs_recv_bytes] in
  map (fun mv => m_int (fst mv) (snd mv)) (combine ms regs) ++ [m_float (if client then gc_latency else gs_latency) latency].

(** A call of HandleRPC: the event, the steps still to do, the values loaded.
    (plugin/ocgrpc/client.go:46-49, server.go:71-74.) *)
Record gthread : Type := MkGT { gt_event : gevent; gt_todo : list ginstr; gt_regs : list Z }.
(** The counters of an RPC (plugin/ocgrpc/stats_common.go:41-51), what its handlers have
    called so far, and its calls of HandleRPC. *)
Record grpc_state : Type := MkGSt {
  g_cnt : counters; g_calls : list gcall; g_threads : list gthread; g_panicked : bool }.
(** plugin/ocgrpc/client_stats_handler.go:38-41, server_stats_handler.go:38-41: a new
    rpcData. *)
Definition grpc_init : grpc_state := MkGSt (MkCn 0 0 0 0) [] [] false.

(** gRPC calls HandleRPC; or call number [i] does its next step.
    (plugin/ocgrpc/client.go:46-49, server.go:71-74.) *)
Inductive gact : Type := GCall (ev : gevent) | GStep (i : nat).

(** One step of plugin/ocgrpc/stats_common.go:83-193 or trace_common.go:84-107. *)
Definition do_instr (s : grpc_state) (i : nat) (t : gthread) (x : ginstr) (r : list ginstr) : grpc_state :=
  let put regs := upd (g_threads s) i (fun _ => MkGT (gt_event t) r regs) in
  match x with
  | GDo k => MkGSt (g_cnt s) (g_calls s ++ [k]) (put (gt_regs t)) (g_panicked s)
  | GAdd f n => MkGSt (cn_add (g_cnt s) f n) (g_calls s) (put (gt_regs t)) (g_panicked s)
  | GLoad f => MkGSt (g_cnt s) (g_calls s) (put (gt_regs t ++ [cn_get (g_cnt s) f])) (g_panicked s)
  | GRecEnd client c mu a latency =>
      MkGSt (g_cnt s)
        (g_calls s ++ [GCRecord c [WithTags mu; WithAttachments a; WithMeasurements (end_measurements client (gt_regs t) latency)]])
        (put (gt_regs t)) (g_panicked s)
  | GPanic => MkGSt (g_cnt s) (g_calls s) (put (gt_regs t)) true
  end.

(** [None]: no such step; after a panic the program is gone. (plugin/ocgrpc/client.go:46-49,
    server.go:71-74.) *)
Definition grpc_step (rc : rpc_ctx) (s : grpc_state) (a : gact) : option grpc_state :=
  if g_panicked s then None
  else match a with
       | GCall ev => Some (MkGSt (g_cnt s) (g_calls s) (g_threads s ++ [MkGT ev (handle_rpc rc ev) []]) false)
       | GStep i =>
           match nth_error (g_threads s) i with
           | Some t => match gt_todo t with x :: r => Some (do_instr s i t x r) | [] => None end
           | None => None
           end
       end.

(** An execution: no code of its own (plugin/ocgrpc/client.go:46-49, server.go:71-74). *)
Fixpoint grpc_run (rc : rpc_ctx) (s : grpc_state) (l : list gact) : option grpc_state :=
  match l with
  | [] => Some s
  | a :: r => match grpc_step rc s a with Some s' => grpc_run rc s' r | None => None end
  end.
