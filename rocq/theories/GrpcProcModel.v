(** A process that uses plugin/ocgrpc: packages tag, stats, stats/view and the plugin put
    together; and the views the plugin provides.  Definitions only.

    What the plugin does to spans is the subject of GrpcModel and TracerModel and is left
    out here. *)

From Coq Require Import String.
From Coq Require Import List Arith ZArith Bool.
From Verif Require Import Base GoMap Text Float64 TagModel AggModel ViewModel WorkerModel RecordModel ProcessModel
  TraceTypes TraceModel HttpModel GrpcModel.
Import ListNotations.
Open Scope nat_scope.

(** ** Views *)

(** plugin/ocgrpc/stats_common.go:55-59: view.Distribution allocates; view.Count returns the
    one aggregation of that kind (stats/view/aggregation.go:53-75).  These are the pointers. *)
Record grpc_aggs : Type := MkGA { ga_bytes : nat; ga_ms : nat; ga_msgs : nat; ga_count : nat }.

(** A bound with two decimals (plugin/ocgrpc/stats_common.go:57); the quotient is the
    float64 that the literal denotes. *)
Definition hundredth (z : Z) : f64 := f_div (f_of_Z z) (f_of_Z 100).
(** plugin/ocgrpc/stats_common.go:56. *)
Definition bytes_bounds : list f64 :=
  map f_of_Z [1024; 2048; 4096; 16384; 65536; 262144; 1048576; 4194304; 16777216; 67108864; 268435456; 1073741824; 4294967296]%Z.
(** plugin/ocgrpc/stats_common.go:57. *)
Definition ms_bounds : list f64 :=
  map hundredth [1; 5; 10; 30; 60; 80]%Z ++
  map f_of_Z [1; 2; 3; 4; 5; 6; 8; 10; 13; 16; 20; 25; 30; 40; 50; 65; 80; 100; 130; 160; 200; 250; 300; 400; 500; 650; 800; 1000;
              2000; 5000; 10000; 20000; 50000; 100000]%Z.
(** plugin/ocgrpc/stats_common.go:58. *)
Definition msgs_bounds : list f64 :=
  map f_of_Z [1; 2; 4; 8; 16; 32; 64; 128; 256; 512; 1024; 2048; 4096; 8192; 16384; 32768; 65536]%Z.

(** The aggregations are where the pointers say. (plugin/ocgrpc/stats_common.go:55-59,
    stats/view/aggregation.go:55-60.) *)
Definition grpc_aggs_in (ga : grpc_aggs) (aggs : list (aggregation f64_num)) : Prop :=
  nth_error aggs (ga_bytes ga) = Some (AggDist bytes_bounds) /\
  nth_error aggs (ga_ms ga) = Some (AggDist ms_bounds) /\
  nth_error aggs (ga_msgs ga) = Some (AggDist msgs_bounds) /\
  nth_error aggs (ga_count ga) = Some AggCount.

(** plugin/ocgrpc/client_metrics.go:32: recorded by nothing in the repository. *)
Definition gc_server_latency : measure := grpc_float (bs "grpc.io/client/server_latency") (bs "ms").

(** plugin/ocgrpc/client_metrics.go:40-46. *)
Definition gcv_sent_bytes (ga : grpc_aggs) : view :=
  MkView (bs "grpc.io/client/sent_bytes_per_rpc") (bs "Distribution of bytes sent per RPC, by method.")
    [key_grpc_client_method] (Some gc_sent_bytes) (Some (ga_bytes ga)).
(** plugin/ocgrpc/client_metrics.go:48-54. *)
Definition gcv_recv_bytes (ga : grpc_aggs) : view :=
  MkView (bs "grpc.io/client/received_bytes_per_rpc") (bs "Distribution of bytes received per RPC, by method.")
    [key_grpc_client_method] (Some gc_recv_bytes) (Some (ga_bytes ga)).
(** plugin/ocgrpc/client_metrics.go:56-62. *)
Definition gcv_latency (ga : grpc_aggs) : view :=
  MkView (bs "grpc.io/client/roundtrip_latency") (bs "Distribution of round-trip latency, by method.")
    [key_grpc_client_method] (Some gc_latency) (Some (ga_ms ga)).
(** plugin/ocgrpc/client_metrics.go:66-72. *)
Definition gcv_completed (ga : grpc_aggs) : view :=
  MkView (bs "grpc.io/client/completed_rpcs") (bs "Count of RPCs by method and status.")
    [key_grpc_client_method; key_grpc_client_status] (Some gc_latency) (Some (ga_count ga)).
(** plugin/ocgrpc/client_metrics.go:74-80. *)
Definition gcv_started (ga : grpc_aggs) : view :=
  MkView (bs "grpc.io/client/started_rpcs") (bs "Number of started client RPCs.")
    [key_grpc_client_method] (Some gc_started) (Some (ga_count ga)).
(** plugin/ocgrpc/client_metrics.go:82-88. *)
Definition gcv_sent_messages (ga : grpc_aggs) : view :=
  MkView (bs "grpc.io/client/sent_messages_per_rpc") (bs "Distribution of sent messages count per RPC, by method.")
    [key_grpc_client_method] (Some gc_sent_messages) (Some (ga_msgs ga)).
(** plugin/ocgrpc/client_metrics.go:90-96. *)
Definition gcv_recv_messages (ga : grpc_aggs) : view :=
  MkView (bs "grpc.io/client/received_messages_per_rpc") (bs "Distribution of received messages count per RPC, by method.")
    [key_grpc_client_method] (Some gc_recv_messages) (Some (ga_msgs ga)).
(** plugin/ocgrpc/client_metrics.go:98-104. *)
Definition gcv_server_latency (ga : grpc_aggs) : view :=
  MkView (bs "grpc.io/client/server_latency") (bs "Distribution of server latency as viewed by client, by method.")
    [key_grpc_client_method] (Some gc_server_latency) (Some (ga_ms ga)).

(** plugin/ocgrpc/server_metrics.go:43-49. *)
Definition gsv_recv_bytes (ga : grpc_aggs) : view :=
  MkView (bs "grpc.io/server/received_bytes_per_rpc") (bs "Distribution of received bytes per RPC, by method.")
    [key_grpc_server_method] (Some gs_recv_bytes) (Some (ga_bytes ga)).
(** plugin/ocgrpc/server_metrics.go:51-57. *)
Definition gsv_sent_bytes (ga : grpc_aggs) : view :=
  MkView (bs "grpc.io/server/sent_bytes_per_rpc") (bs "Distribution of total sent bytes per RPC, by method.")
    [key_grpc_server_method] (Some gs_sent_bytes) (Some (ga_bytes ga)).
(** plugin/ocgrpc/server_metrics.go:59-65. *)
Definition gsv_latency (ga : grpc_aggs) : view :=
  MkView (bs "grpc.io/server/server_latency") (bs "Distribution of server latency in milliseconds, by method.")
    [key_grpc_server_method] (Some gs_latency) (Some (ga_ms ga)).
(** plugin/ocgrpc/server_metrics.go:69-75. *)
Definition gsv_completed (ga : grpc_aggs) : view :=
  MkView (bs "grpc.io/server/completed_rpcs") (bs "Count of RPCs by method and status.")
    [key_grpc_server_method; key_grpc_server_status] (Some gs_latency) (Some (ga_count ga)).
(** plugin/ocgrpc/server_metrics.go:77-83. *)
Definition gsv_started (ga : grpc_aggs) : view :=
  MkView (bs "grpc.io/server/started_rpcs") (bs "Number of started server RPCs.")
    [key_grpc_server_method] (Some gs_started) (Some (ga_count ga)).
(** plugin/ocgrpc/server_metrics.go:85-91. *)
Definition gsv_recv_messages (ga : grpc_aggs) : view :=
  MkView (bs "grpc.io/server/received_messages_per_rpc") (bs "Distribution of messages received count per RPC, by method.")
    [key_grpc_server_method] (Some gs_recv_messages) (Some (ga_msgs ga)).
(** plugin/ocgrpc/server_metrics.go:93-99. *)
Definition gsv_sent_messages (ga : grpc_aggs) : view :=
  MkView (bs "grpc.io/server/sent_messages_per_rpc") (bs "Distribution of messages sent count per RPC, by method.")
    [key_grpc_server_method] (Some gs_sent_messages) (Some (ga_msgs ga)).

(** plugin/ocgrpc/client_metrics.go:108-113. *)
Definition default_client_views (ga : grpc_aggs) : list view :=
  [gcv_sent_bytes ga; gcv_recv_bytes ga; gcv_latency ga; gcv_completed ga].
(** plugin/ocgrpc/server_metrics.go:103-108. *)
Definition default_server_views (ga : grpc_aggs) : list view :=
  [gsv_recv_bytes ga; gsv_sent_bytes ga; gsv_latency ga; gsv_completed ga].

(** All that the package exports. (plugin/ocgrpc/client_metrics.go:39-105,
    server_metrics.go:42-100.) *)
Definition all_grpc_views (ga : grpc_aggs) : list view :=
  default_client_views ga ++ [gcv_started ga; gcv_sent_messages ga; gcv_recv_messages ga; gcv_server_latency ga] ++
  default_server_views ga ++ [gsv_started ga; gsv_recv_messages ga; gsv_sent_messages ga].

(** ** The process *)

(** An RPC: on which side it is, what TagRPC left in its context, its calls of HandleRPC.
    (plugin/ocgrpc/stats_common.go:41-51.) *)
Record grpc_rpc : Type := MkRpc { gr_client : bool; gr_ctx : rpc_ctx; gr_state : grpc_state }.
(** The process: tag, stats and view (ProcessModel.v) and the RPCs
    (plugin/ocgrpc/stats_common.go:41-51). *)
Record gproc : Type := MkGP { gp_proc : proc; gp_rpcs : list grpc_rpc }.
(** The start of the program (stats/view/worker.go:31-39). *)
Definition gproc_init (u : uworld) : gproc := MkGP (proc_init u) [].

(** The program does something of its own; gRPC calls TagRPC of a client (with the context
    number [i] of the program) or of a server; gRPC calls HandleRPC of RPC number [r], or
    one such call does a step ([it], [o], [now] as in [PRecord], if the step is a
    recording). (plugin/ocgrpc/client.go:46-56, server.go:71-81.) *)
Inductive gpact : Type :=
| GApp (a : pact)
| GClient (smp : option sampler) (info : option bytes) (i : nat) (it : list (key * content)) (md : grpc_md) (wire : option bytes)
          (sc : span_context) (now : time)
| GServer (h : grpc_server) (info : option bytes) (it : list (key * content)) (md : grpc_md) (wire : option bytes)
          (sc : span_context) (now : time)
| GRpc (r : nat) (a : gact) (it : list (key * content)) (o : order) (now : time).

(** The recording among the calls a step has added, if it is one.
    (plugin/ocgrpc/stats_common.go:109-115, 169-191.) *)
Definition new_record (before after : list gcall) : option (ctx * list ropt) :=
  match nth_error after (length before) with Some (GCRecord c xs) => Some (c, xs) | _ => None end.

(** The context that extractPropagatedTags puts the decoded map into
    (plugin/ocgrpc/server_stats_handler.go:42-43). *)
Definition decoded_ctx (th : heap) (wire : option bytes) : list ctx :=
  match wire with
  | Some b => match decode b with DecOk _ => [Some (length th)] | _ => [] end
  | None => []
  end.

(** [None]: a panic, or a step that cannot be done. (plugin/ocgrpc/client.go:46-56,
    server.go:71-81.) *)
Definition gproc_step (g : gproc) (a : gpact) : option gproc :=
  let ts := pc_tags (gp_proc g) in
  match a with
  | GApp a => match proc_step (gp_proc g) a with Some p => Some (MkGP p (gp_rpcs g)) | None => None end
  | GClient smp info i it md wire sc now =>
      match client_tag_rpc smp info (st_heap ts) (nth i (st_ctxs ts) None) it md wire sc now with
      | Some out => Some (MkGP (MkProc (TagState (to_heap out) (st_ctxs ts)) (pc_worker (gp_proc g)))
                               (gp_rpcs g ++ [MkRpc true (to_ctx out) grpc_init]))
      | None => None
      end
  | GServer h info it md wire sc now =>
      match server_tag_rpc h info (st_heap ts) it md wire sc now with
      | Some out =>
          Some (MkGP (MkProc (TagState (to_heap out) (st_ctxs ts ++ decoded_ctx (st_heap ts) wire ++ [rc_tags (to_ctx out)]))
                             (pc_worker (gp_proc g)))
                     (gp_rpcs g ++ [MkRpc false (to_ctx out) grpc_init]))
      | None => None
      end
  | GRpc r a it o now =>
      match nth_error (gp_rpcs g) r with
      | None => None
      | Some x =>
          match grpc_step (gr_ctx x) (gr_state x) a with
          | None => None
          | Some s =>
              if g_panicked s then None
              else
                let rpcs := upd (gp_rpcs g) r (fun x => MkRpc (gr_client x) (gr_ctx x) s) in
                match new_record (g_calls (gr_state x)) (g_calls s) with
                | None => Some (MkGP (gp_proc g) rpcs)
                | Some (c, xs) =>
                    match do_record (gp_proc g) c it xs o now with Some p => Some (MkGP p rpcs) | None => None end
                end
          end
      end
  end.

(** An execution: no code of its own (plugin/ocgrpc/client.go:46-56, server.go:71-81). *)
Fixpoint gproc_run (g : gproc) (l : list gpact) : option gproc :=
  match l with
  | [] => Some g
  | a :: r => match gproc_step g a with Some g' => gproc_run g' r | None => None end
  end.
