(** Vocabulary for the properties of a process that uses plugin/ocgrpc. *)

From Coq Require Import String.
From Coq Require Import List Arith NArith ZArith Bool.
From Verif Require Import Base GoMap Text Float64 TagModel TagSpec AggModel ViewModel WorkerModel WorkerSpec RecordModel
  ProcessModel ProcessSpec TraceTypes TraceModel HttpModel HttpSpec GrpcModel GrpcSpec GrpcProcModel.
Import ListNotations.
Open Scope nat_scope.

(** What the program and gRPC may do in state [g].  Status codes are uint32; the events of
    an RPC say on which side it is; [it] is an order of the map ranged over. *)
Definition gpact_ok (u : uworld) (g : gproc) (a : gpact) : Prop :=
  let ts := pc_tags (gp_proc g) in
  match a with
  | GApp a => pact_ok u (gp_proc g) a
  | GClient _ _ _ _ _ _ _ _ => True
  | GServer _ _ it _ wire _ _ => forall th c, server_tags (st_heap ts) wire = Some (th, c) -> iterates th c it
  | GRpc r a it _ _ =>
      forall x, nth_error (gp_rpcs g) r = Some x ->
        iterates (st_heap ts) (rc_tags (gr_ctx x)) it /\
        match a with
        | GCall (GBegin client _) => client = gr_client x
        | GCall (GEnd client e _) => client = gr_client x /\ match e with StatusError c _ => (c < 2 ^ 32)%N | _ => True end
        | _ => True
        end
  end.

Fixpoint gpacts_ok (u : uworld) (g : gproc) (l : list gpact) : Prop :=
  match l with
  | [] => True
  | a :: r => gpact_ok u g a /\ match gproc_step g a with Some g' => gpacts_ok u g' r | None => True end
  end.

(** The program itself does not record the measure. *)
Definition app_avoids (m : bytes) (a : gpact) : Prop :=
  match a with
  | GApp (PRecord _ _ xs _ _) => forall ms me v, In (WithMeasurements ms) xs -> In (Some (me, v)) ms -> me_name me <> m
  | _ => True
  end.
Definition app_keeps (n : bytes) (a : gpact) : Prop :=
  match a with GApp a => ~ unregisters_name n a | _ => True end.

(** The calls of HandleRPC that have returned, each with the context of its RPC. *)
Definition calls_done (g : gproc) : list (rpc_ctx * gevent) :=
  flat_map (fun x => map (pair (gr_ctx x)) (returned (gr_state x))) (gp_rpcs g).

(** [m] is the method of the RPC: its full name without the slashes it starts with. *)
Definition is_method (m full : bytes) : bool :=
  existsb (fun n => bytes_eqb full (repeat slash n ++ m)) (seq 0 (S (length full))) &&
  match m with b :: _ => negb (byte_eqb b slash) | [] => true end.
Definition has_method (m : bytes) (rc : rpc_ctx) : bool :=
  match rc_data rc with Some (_, full) => is_method m full | None => false end.

(** How many RPCs with method [m] have completed with the status, or have started: the
    calls of HandleRPC for End or Begin that have returned.  C59 says which status tag an
    error has. *)
Definition completed (client : bool) (m st : bytes) (g : gproc) : nat :=
  length (filter (fun x => match snd x with
                           | GEnd c e _ => Bool.eqb c client && has_method m (fst x) && bytes_eqb (status_tag e) st
                           | _ => false end) (calls_done g)).
Definition started (client : bool) (m : bytes) (g : gproc) : nat :=
  length (filter (fun x => match snd x with
                           | GBegin c _ => Bool.eqb c client && has_method m (fst x)
                           | _ => false end) (calls_done g)).

(** A row shows the tags whose value is not empty. *)
Definition shown_tags (l : list (key * bytes)) : list (key * bytes) :=
  filter (fun kv => match snd kv with [] => false | _ => true end) l.

(** What gRPC did with RPC number [r]. *)
Definition rpc_acts (r : nat) (l : list gpact) : list gact :=
  flat_map (fun a => match a with GRpc r' a _ _ _ => if r' =? r then [a] else [] | _ => [] end) l.

(** The view [v], with name [n] and measure [m], was registered, under a free name and
    with valid views only, when the process was in state [g1]; since then [acts] happened,
    without the name being unregistered and without the program recording the measure
    itself; the process is now in state [g]. *)
Definition registered_since (u : uworld) (v : nat) (n m : bytes) (g1 : gproc) (acts : list gpact) (g : gproc) : Prop :=
  exists acts1 o1 o0 ps1 ps2 now, let reg := GApp (PCmd o0 (CmdRegister (ps1 ++ v :: ps2) now)) in
    gpacts_ok u (gproc_init u) (acts1 ++ reg :: acts) /\
    gproc_run (gproc_init u) acts1 = Some g1 /\ gproc_run g1 (reg :: acts) = Some g /\
    handle o1 (pc_worker (gp_proc g1)) (CmdFind n) = Some (RFind None, [], pc_worker (gp_proc g1)) /\
    (forall q, In q (ps1 ++ v :: ps2) -> spec_view u q <> None) /\
    (forall q sv, In q ps1 -> spec_view u q = Some sv -> sv_name sv <> n) /\
    (forall a, In a acts -> app_keeps n a /\ app_avoids m a).

(** What RetrieveData returns for the name; [o]: the order in which it ranges over maps. *)
Definition shows (o : order) (g : gproc) (n : bytes) (rows : list (list (key * bytes) * agg_data f64_num)) : Prop :=
  handle o (pc_worker (gp_proc g)) (CmdRetrieve n) = Some (RRows (Some rows), [], pc_worker (gp_proc g)).

(** The methods of the server's RPCs are legal tag values. *)
Definition server_methods_ok (g : gproc) : Prop :=
  forall x t0 full m, In x (gp_rpcs g) -> gr_client x = false -> rc_data (gr_ctx x) = Some (t0, full) -> is_method m full = true -> valid_value m.

(** ** Sizes and latencies *)

(** What a view shows the distribution of, by method. *)
Inductive dkind : Type := DSentBytes | DRecvBytes | DSentMessages | DRecvMessages | DLatency.

Definition dview (client : bool) (ga : grpc_aggs) (k : dkind) : view :=
  match k with
  | DSentBytes => if client then gcv_sent_bytes ga else gsv_sent_bytes ga
  | DRecvBytes => if client then gcv_recv_bytes ga else gsv_recv_bytes ga
  | DSentMessages => if client then gcv_sent_messages ga else gsv_sent_messages ga
  | DRecvMessages => if client then gcv_recv_messages ga else gsv_recv_messages ga
  | DLatency => if client then gcv_latency ga else gsv_latency ga
  end.
(** The bounds of the buckets: 1 KiB to 4 GiB; powers of two; milliseconds. *)
Definition dbounds (k : dkind) : list f64 :=
  match k with
  | DSentBytes | DRecvBytes => map (fun k => f_of_Z (2 ^ k)) [10; 11; 12; 14; 16; 18; 20; 22; 24; 26; 28; 30; 32]%Z
  | DSentMessages | DRecvMessages => map (fun k => f_of_Z (2 ^ Z.of_nat k)) (seq 0 17)
  | DLatency =>
      map (fun k => f_div (f_of_Z k) (f_of_Z 100)) [1; 5; 10; 30; 60; 80]%Z ++
      map f_of_Z [1; 2; 3; 4; 5; 6; 8; 10; 13; 16; 20; 25; 30; 40; 50; 65; 80; 100; 130; 160; 200; 250; 300; 400; 500; 650; 800; 1000;
                  2000; 5000; 10000; 20000; 50000; 100000]%Z
  end.

(** The calls of HandleRPC made for an RPC, in order; its value. *)
Definition calls_made (x : grpc_rpc) : list gevent := map gt_event (g_threads (gr_state x)).
Definition end_time (evs : list gevent) : option time :=
  hd_error (flat_map (fun ev => match ev with GEnd _ _ now => [now] | _ => [] end) evs).
Definition dvalue (k : dkind) (x : grpc_rpc) : f64 :=
  let evs := calls_made x in
  match k with
  | DSentBytes => f_of_Z (total (sent_sizes evs))
  | DRecvBytes => f_of_Z (total (received_sizes evs))
  | DSentMessages => f_of_Z (Z.of_nat (length (sent_sizes evs)))
  | DRecvMessages => f_of_Z (Z.of_nat (length (received_sizes evs)))
  | DLatency => match rc_data (gr_ctx x), end_time evs with Some (t0, _), Some t1 => ms_between t0 t1 | _, _ => f_zero end
  end.

Definition is_end (ev : gevent) : bool := match ev with GEnd _ _ _ => true | _ => false end.

(** gRPC's use of the handler: when HandleRPC is called with End, the other calls of the
    RPC have returned; no payload and no other End follows; sizes and times are in range. *)
Definition orderly (x : grpc_rpc) : Prop :=
  existsb is_end (calls_made x) = true ->
  exists t0 full l1 s1 e now l2, rc_data (gr_ctx x) = Some (t0, full) /\ clock_ok t0 now /\
    grpc_run (gr_ctx x) grpc_init l1 = Some s1 /\ idle s1 /\
    grpc_run (gr_ctx x) s1 (GCall (GEnd (gr_client x) e now) :: l2) = Some (gr_state x) /\
    payloads_ok (events l1) /\ existsb is_end (events l1) = false /\
    sent_sizes (events l2) = [] /\ received_sizes (events l2) = [] /\ existsb is_end (events l2) = false.

(** The RPCs of one side with method [m] whose End has been handled in state [g], but had
    not been in state [g1].  RPCs keep their positions. *)
Definition finished (x : grpc_rpc) : bool := existsb is_end (returned (gr_state x)).
Fixpoint newly_finished (l1 l : list grpc_rpc) : list grpc_rpc :=
  match l with
  | [] => []
  | x :: r => (if finished x && negb (match l1 with x1 :: _ => finished x1 | [] => false end) then [x] else []) ++ newly_finished (tl l1) r
  end.
Definition finished_since (client : bool) (m : bytes) (g1 g : gproc) : list grpc_rpc :=
  filter (fun x => Bool.eqb (gr_client x) client && has_method m (gr_ctx x)) (newly_finished (gp_rpcs g1) (gp_rpcs g)).

(** The metrics that the views become: name, unit, type, labels. *)
Definition grpc_metrics : list (bytes * bytes * metric_type * list bytes) :=
  let c (n : string) u ty ks := (bs "grpc.io/client/" ++ bs n, bs u, ty, map bs ks) in
  let s (n : string) u ty ks := (bs "grpc.io/server/" ++ bs n, bs u, ty, map bs ks) in
  [c "sent_bytes_per_rpc" "By" TyCumulativeDistribution ["grpc_client_method"];
   c "received_bytes_per_rpc" "By" TyCumulativeDistribution ["grpc_client_method"];
   c "roundtrip_latency" "ms" TyCumulativeDistribution ["grpc_client_method"];
   c "completed_rpcs" "1" TyCumulativeInt64 ["grpc_client_method"; "grpc_client_status"];
   c "started_rpcs" "1" TyCumulativeInt64 ["grpc_client_method"];
   c "sent_messages_per_rpc" "1" TyCumulativeDistribution ["grpc_client_method"];
   c "received_messages_per_rpc" "1" TyCumulativeDistribution ["grpc_client_method"];
   c "server_latency" "ms" TyCumulativeDistribution ["grpc_client_method"];
   s "received_bytes_per_rpc" "By" TyCumulativeDistribution ["grpc_server_method"];
   s "sent_bytes_per_rpc" "By" TyCumulativeDistribution ["grpc_server_method"];
   s "server_latency" "ms" TyCumulativeDistribution ["grpc_server_method"];
   s "completed_rpcs" "1" TyCumulativeInt64 ["grpc_server_method"; "grpc_server_status"];
   s "started_rpcs" "1" TyCumulativeInt64 ["grpc_server_method"];
   s "received_messages_per_rpc" "1" TyCumulativeDistribution ["grpc_server_method"];
   s "sent_messages_per_rpc" "1" TyCumulativeDistribution ["grpc_server_method"]]%string.
