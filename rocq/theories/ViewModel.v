(** Model of stats/view/view.go (View, canonicalize) and
    stats/view/view_to_metric.go.  Definitions only.

    Views and aggregations are mutable objects that users share by pointer: a
    view is an index into [u_views], an aggregation an index into [u_aggs].
    Simplifications: tag key slices and bucket slices belong to one view resp.
    one aggregation (no two views share a part of one backing array), and users
    do not assign to the fields of a View or Aggregation once they have passed it
    to the library. *)

From Coq Require Import String.
From Coq Require Import List Arith ZArith NArith Bool.
From Verif Require Import Base GoMap GoSort Float64 TagModel AggModel CollectorModel.
Import ListNotations.
Open Scope nat_scope.

(** stats/measure.go:30-49 [Measure]: what its methods return, and its dynamic
    type: *stats.Int64Measure, *stats.Float64Measure or a user's own type. *)
Inductive mkind : Type := MInt64 | MFloat64 | MOther.
(** stats/measure.go:30-49 [Measure]; measureDescriptor, 55-61. *)
Record measure : Type := MkMeasure {
  me_name : bytes; me_desc : bytes; me_unit : bytes; me_kind : mkind }.

(** stats/view/view.go:35-48 [View]; nil Measure and nil Aggregation are [None]. *)
Record view : Type := MkView {
  v_name : bytes; v_desc : bytes; v_keys : list key;
  v_measure : option measure; v_agg : option nat }.

(** The views and the aggregations of the user (stats/view/view.go:35-48,
    aggregation.go:46-51). *)
Record uworld : Type := MkU { u_views : list view; u_aggs : list (aggregation f64_num) }.

(** Errors of canonicalize: stats/view/view.go:80, 83, 74 (ErrNegativeBucketBounds),
    215, 218. *)
Inductive view_err : Type :=
| ErrNoMeasure | ErrNoAggregation | ErrNegativeBounds | ErrNameLength | ErrNameASCII.

(** stats/view/view.go:204-211 [isPrintable].  The Go code ranges over runes; a
    byte outside ASCII gives a rune above '~' (or U+FFFD), so testing bytes is
    the same. *)
Definition is_printable (s : bytes) : bool :=
  forallb (fun c => (32 <=? b2n c)%N && (b2n c <=? 126)%N) s.

(** stats/view/view.go:213-221 [checkViewName]; 201 maxNameLength. *)
Definition check_view_name (name : bytes) : option view_err :=
  if (255 <? length name) then Some ErrNameLength
  else if negb (is_printable name) then Some ErrNameASCII
  else None.

(** The order of sort.Float64s: NaN before everything else. Used at stats/view/view.go:97. *)
Definition f_less (a b : f64) : bool := f_ltb a b || (is_nan a && negb (is_nan b)).

(** stats/view/view.go:109-116 [dropZeroBounds]. *)
Fixpoint drop_zero_bounds (bounds : list f64) : list f64 :=
  match bounds with
  | [] => []
  | b :: r => if f_ltb f_zero b then b :: r else drop_zero_bounds r
  end.

(** Aggregation.Buckets; nil unless the aggregation is a distribution.
    stats/view/aggregation.go:46-51. *)
Definition agg_buckets (a : aggregation f64_num) : list f64 :=
  match a with AggDist b => b | _ => [] end.
(** Assigning Aggregation.Buckets. stats/view/view.go:104. *)
Definition set_buckets (a : aggregation f64_num) (b : list f64) : aggregation f64_num :=
  match a with AggDist _ => AggDist (F := f64_num) b | _ => a end.

(** stats/view/view.go:78-107 [canonicalize]: writes to the view and to its
    aggregation, also when it fails half way.  [None] is an invalid pointer. *)
Definition canonicalize (u : uworld) (p : nat) : option (uworld * option view_err) :=
  match nth_error (u_views u) p with
  | None => None
  | Some v =>
      match v_measure v with
      | None => Some (u, Some ErrNoMeasure)
      | Some me =>
          match v_agg v with
          | None => Some (u, Some ErrNoAggregation)
          | Some ap =>
              let name := match v_name v with [] => me_name me | n => n end in
              let desc := match v_desc v with [] => me_desc me | d => d end in
              let v1 := MkView name desc (v_keys v) (v_measure v) (v_agg v) in
              match check_view_name name with
              | Some e => Some (MkU (upd (u_views u) p (fun _ => v1)) (u_aggs u), Some e)
              | None =>
                  let v2 := MkView name desc (isort bytes_ltb (v_keys v)) (v_measure v) (v_agg v) in
                  match nth_error (u_aggs u) ap with
                  | None => None
                  | Some a =>
                      let sorted := isort f_less (agg_buckets a) in
                      if existsb (fun b => f_ltb b f_zero) sorted then
                        Some (MkU (upd (u_views u) p (fun _ => v2))
                                  (upd (u_aggs u) ap (fun a => set_buckets a sorted)),
                              Some ErrNegativeBounds)
                      else
                        Some (MkU (upd (u_views u) p (fun _ => v2))
                                  (upd (u_aggs u) ap (fun a => set_buckets a (drop_zero_bounds sorted))),
                              None)
                  end
              end
          end
      end
  end.

(** stats/view/view.go:60-69 [same], on pointers.  reflect.DeepEqual of two
    *Aggregation is true for equal pointers, and false otherwise: the newData
    fields are non-nil funcs, which are never deeply equal. *)
Definition same (u : uworld) (p q : nat) : bool :=
  (p =? q) ||
  match nth_error (u_views u) p, nth_error (u_views u) q with
  | Some v, Some v' =>
      match v_agg v, v_agg v', v_measure v, v_measure v' with
      | Some a, Some a', Some m, Some m' => (a =? a') && bytes_eqb (me_name m) (me_name m')
      | _, _, _, _ => false
      end
  | _, _ => false
  end.

(** ** Metrics *)

(** metric/metricdata/metric.go:24-30 [Descriptor]; label keys have no
    description here. *)
Record descriptor : Type := MkDesc {
  md_name : bytes; md_desc : bytes; md_unit : bytes; md_type : metric_type;
  md_keys : list bytes }.

(** metric/metricdata/label.go:27-30 [LabelValue]: [None] is the zero value
    (not present). *)
Notation label_value := (option bytes).

(** stats/view/view_to_metric.go:27-37 [getUnit]. *)
Definition get_unit (u : bytes) : bytes :=
  if bytes_eqb u (bs "1") then bs "1"
  else if bytes_eqb u (bs "ms") then bs "ms"
  else if bytes_eqb u (bs "By") then bs "By"
  else bs "1".

(** stats/view/view_to_metric.go:39-76 [getType]; [None] is a panic. *)
Definition get_type (m : measure) (a : aggregation f64_num) : option metric_type :=
  match a, me_kind m with
  | AggSum, MInt64 => Some TyCumulativeInt64
  | AggSum, MFloat64 => Some TyCumulativeFloat64
  | AggSum, MOther => None
  | AggDist _, _ => Some TyCumulativeDistribution
  | AggLast, MInt64 => Some TyGaugeInt64
  | AggLast, MFloat64 => Some TyGaugeFloat64
  | AggLast, MOther => None
  | AggCount, MInt64 => Some TyCumulativeInt64
  | AggCount, MFloat64 => Some TyCumulativeInt64
  | AggCount, MOther => None
  end.

(** stats/view/view_to_metric.go:96-103 [convertUnit]. *)
Definition convert_unit (m : measure) (a : aggregation f64_num) : bytes :=
  match a with
  | AggCount => bs "1"
  | _ => get_unit (me_unit m)
  end.

(** stats/view/view_to_metric.go:78-94 [getLabelKeys], [viewToMetricDescriptor]. *)
Definition view_to_metric_descriptor (u : uworld) (v : view) : option descriptor :=
  match v_measure v, v_agg v with
  | Some m, Some ap =>
      match nth_error (u_aggs u) ap with
      | None => None
      | Some a =>
          match get_type m a with
          | None => None
          | Some ty => Some (MkDesc (v_name v) (v_desc v) (convert_unit m a) ty (v_keys v))
          end
      end
  | _, _ => None
  end.

(** stats/view/view_to_metric.go:105-120 [toLabelValues]. *)
Definition to_label_values (tags : list (key * bytes)) (expected : list bytes) : list label_value :=
  let tag_map := fold_left (fun m t => mset bytes_eqb m (fst t) (snd t)) tags [] in
  map (fun k => mget bytes_eqb tag_map k) expected.

(** metric/metricdata/metric.go:42-46 [TimeSeries] with its single point. *)
Record time_series : Type := MkTS {
  ts_labels : list label_value;
  ts_points : list (time * point_value f64_num);
  ts_start : option time }.

(** stats/view/view_to_metric.go:122-128 [rowToTimeseries]; [None] is a panic. *)
Definition row_to_timeseries (d : descriptor) (row : list (key * bytes) * agg_data f64_num)
                             (now : time) : option time_series :=
  match to_point (snd row) (md_type d) with
  | None => None
  | Some p => Some (MkTS (to_label_values (fst row) (md_keys d)) [(now, p)] (start_time (snd row)))
  end.

(** metric/metricdata/metric.go:34-38 [Metric]; the resource is whatever
    SetResource was given. *)
Record metric : Type := MkMetric {
  mt_desc : descriptor; mt_resource : option nat; mt_series : list time_series }.

(** The loops over rows that may panic (stats/view/view_to_metric.go:137-139). *)
Fixpoint map_opt {A B} (f : A -> option B) (l : list A) : option (list B) :=
  match l with
  | [] => Some []
  | x :: r => match f x, map_opt f r with
              | Some y, Some ys => Some (y :: ys)
              | _, _ => None
              end
  end.

(** stats/view/view_to_metric.go:130-147 [viewToMetric], given the collected rows.
    Outer [None]: panic; inner [None]: nil, no rows. *)
Definition view_to_metric (d : descriptor) (rows : list (list (key * bytes) * agg_data f64_num))
                          (r : option nat) (now : time) : option (option metric) :=
  match rows with
  | [] => Some None
  | _ => match map_opt (fun row => row_to_timeseries d row now) rows with
         | Some ts => Some (Some (MkMetric d r ts))
         | None => None
         end
  end.
