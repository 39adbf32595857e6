(** Model of metric/test/exporter.go: the exporter that keeps the latest point of every
    time series.  Definitions only.

    String (exporter.go:60-62) prints the map and is not modelled. *)

From Coq Require Import String.
From Coq Require Import List Arith ZArith Bool.
From Verif Require Import Base GoMap Text Float64 TagModel AggModel ViewModel WorkerModel ReaderModel ProcessModel.
Import ListNotations.
Open Scope nat_scope.

(** exporter.go:64-67 [keyValue]. *)
Notation key_value := (bytes * bytes)%type.
(** metric/metricdata/point.go:22-28 [Point]. *)
Notation point := (time * point_value f64_num)%type.
(** exporter.go:18-23 [Exporter]: the points by signature.  [nil]: NewExporter. *)
Notation test_exporter := (list (bytes * point)).

Section Exporter.
  (** exporter.go:69-71 [sortKeyValue]: sort.Slice by key, which leaves entries with equal
      keys in an order of its own. *)
  Variable sort : list key_value -> list key_value.

  (** exporter.go:73-80 [labelMapToKeyValue]; the map in the order of its iteration. *)
  Definition label_map_to_key_value (labels : list key_value) : list key_value := sort labels.

  (** exporter.go:82-94 [labelObjectsToKeyValue]; [None] is the panic. *)
  Definition label_objects_to_key_value (keys : list bytes) (values : list label_value) : option (list key_value) :=
    if length keys =? length values then
      Some (sort (flat_map (fun kv => match snd kv with Some v => [(fst kv, v)] | None => [] end) (combine keys values)))
    else None.

  (** exporter.go:97-104 [labelSignature]. *)
  Definition label_signature (name : bytes) (kv : list key_value) : bytes :=
    name ++ bs "{" ++ flat_map (fun x => fst x ++ snd x) kv ++ bs "}".

  (** exporter.go:35-38, of ExportMetrics; [None] is a panic: labels that do not match the
      keys, a time series without points (index out of range). *)
  Fixpoint export_series (e : test_exporter) (d : descriptor) (ts : list time_series) : option test_exporter :=
    match ts with
    | [] => Some e
    | t :: r =>
        match label_objects_to_key_value (md_keys d) (ts_labels t) with
        | None => None
        | Some kv =>
            match nth_error (ts_points t) (length (ts_points t) - 1) with
            | None => None
            | Some p => export_series (mset bytes_eqb e (label_signature (md_name d) kv) p) d r
            end
        end
    end.
  (** exporter.go:33-41 [ExportMetrics]. *)
  Fixpoint export_metrics (e : test_exporter) (data : list metric) : option test_exporter :=
    match data with
    | [] => Some e
    | m :: r => match export_series e (mt_desc m) (mt_series m) with Some e => export_metrics e r | None => None end
    end.

  (** exporter.go:44-47 [GetPoint]. *)
  Definition get_point (e : test_exporter) (name : bytes) (labels : list key_value) : option point :=
    mget bytes_eqb e (label_signature name (label_map_to_key_value labels)).

  (** exporter.go:50-57 [ReadAndExport], in a process whose default worker is producer
      number 0 (stats/view/worker.go:291-293): SetReportingPeriod returns when the worker
      has handled what was sent to it before, so that nothing is in the queue; then
      metric/metricexport/reader.go:190-200 with the producers of the manager; [others]
      are the reads of the other producers. *)
  Definition minute : Z := 60000000000.
  (** What the exporter is given (reader.go:199). *)
  Definition exported {M} (cs : list (rx_call M)) : list (list M) :=
    flat_map (fun c => match c with XExport d => [d] | _ => [] end) cs.
  (** exporter.go:33-41 on what the reader gives (reader.go:199). *)
  Fixpoint export_all (e : test_exporter) (ds : list (list metric)) : option test_exporter :=
    match ds with
    | [] => Some e
    | d :: r => match export_metrics e d with Some e => export_all e r | None => None end
    end.
  (** exporter.go:50-57 [ReadAndExport]. *)
  Definition test_read_and_export (p : proc) (mgr : list (nat * unit)) (others : nat -> list metric) (o : order) (now : time)
                                  (e : test_exporter) : option test_exporter :=
    match handle o (pc_worker p) (CmdSetPeriod minute) with
    | Some (_, _, w) =>
        match handle o w (CmdRead now) with
        | Some (RMetrics ms, _, _) =>
            export_all e (exported (read_and_export default_span_name (get_all o mgr) (fun q => if q =? 0 then ms else others q)))
        | _ => None
        end
    | None => None
    end.
End Exporter.
