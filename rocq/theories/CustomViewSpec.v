(** What the plugins document of their measures, and what a view of one of them should look
    like as a metric. *)

From Coq Require Import String.
From Coq Require Import List ZArith.
From Verif Require Import Base Text Float64 AggModel ViewModel.
Import ListNotations.

(** Names, units and kinds of the measures of ochttp and of ocgrpc. *)
Definition documented_measures : list (bytes * bytes * mkind) :=
  let hc (n : string) u k := (bs "opencensus.io/http/client/" ++ bs n, bs u, k) in
  let hs (n : string) u k := (bs "opencensus.io/http/server/" ++ bs n, bs u, k) in
  let gc (n : string) u k := (bs "grpc.io/client/" ++ bs n, bs u, k) in
  let gs (n : string) u k := (bs "grpc.io/server/" ++ bs n, bs u, k) in
  [hc "request_count" "1" MInt64; hc "request_bytes" "By" MInt64; hc "response_bytes" "By" MInt64; hc "latency" "ms" MFloat64;
   hc "sent_bytes" "By" MInt64; hc "received_bytes" "By" MInt64; hc "roundtrip_latency" "ms" MFloat64;
   hs "request_count" "1" MInt64; hs "request_bytes" "By" MInt64; hs "response_bytes" "By" MInt64; hs "latency" "ms" MFloat64;
   gc "sent_messages_per_rpc" "1" MInt64; gc "sent_bytes_per_rpc" "By" MInt64; gc "received_messages_per_rpc" "1" MInt64;
   gc "received_bytes_per_rpc" "By" MInt64; gc "roundtrip_latency" "ms" MFloat64; gc "started_rpcs" "1" MInt64;
   gs "received_messages_per_rpc" "1" MInt64; gs "received_bytes_per_rpc" "By" MInt64; gs "sent_messages_per_rpc" "1" MInt64;
   gs "sent_bytes_per_rpc" "By" MInt64; gs "started_rpcs" "1" MInt64; gs "server_latency" "ms" MFloat64]%string.

(** The type of a view's metric. *)
Definition type_of_view (k : mkind) (a : aggregation f64_num) (ty : metric_type) : Prop :=
  match a with
  | AggCount => ty = TyCumulativeInt64
  | AggDist _ => ty = TyCumulativeDistribution
  | AggSum => ty = match k with MFloat64 => TyCumulativeFloat64 | _ => TyCumulativeInt64 end
  | AggLast => ty = match k with MFloat64 => TyGaugeFloat64 | _ => TyGaugeInt64 end
  end.

(** Its unit: a count has none. *)
Definition unit_of_view (unit : bytes) (a : aggregation f64_num) : bytes :=
  match a with AggCount => bs "1" | _ => unit end.
