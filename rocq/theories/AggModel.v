(** Model of stats/view/aggregation.go and stats/view/aggregation_data.go: the
    aggregation methods and the data they accumulate.  Definitions only.

    The code works on float64.  The model is parameterised by the arithmetic
    ([num]) so that it can be run both on float64 ([f64_num]) and on exact
    rational numbers ([q_num]); every theorem says which one it is about. *)

From Coq Require Import List ZArith QArith Bool.
From Coq Require Import Floats.SpecFloat.
From Verif Require Import Base Float64.
Import ListNotations.
Open Scope Z_scope.

(** ** Arithmetic *)

(** The float64 of stats/view/aggregation_data.go:15-335, as an argument. *)
Record num : Type := Num {
  n_t :> Type;
  n_add : n_t -> n_t -> n_t;
  n_sub : n_t -> n_t -> n_t;
  n_mul : n_t -> n_t -> n_t;
  n_div : n_t -> n_t -> n_t;
  n_ltb : n_t -> n_t -> bool;
  n_of_int : Z -> n_t;          (* float64(n) *)
  n_to_int : n_t -> Z;          (* int64(x) *)
  n_zero : n_t;
  n_max : n_t;                  (* math.MaxFloat64 *)
  n_smallest : n_t              (* math.SmallestNonzeroFloat64 *)
}.

(** int64(x) for a float64: truncation towards zero. The Go specification leaves the result
    implementation-dependent when it does not fit (and for NaN); amd64 gives -2^63, which is
    what we take. Used at stats/view/aggregation_data.go:111, 311. *)
Definition f_to_int (x : f64) : Z :=
  match x with
  | S754_zero _ => 0
  | S754_finite s m e =>
      let a := Z.shiftl (Zpos m) e in
      if 2 ^ 63 <=? a then - 2 ^ 63 else if s then - a else a
  | _ => - 2 ^ 63
  end.

Canonical Structure f64_num : num :=
  Num f64 f_add f_sub f_mul f_div f_ltb f_of_Z f_to_int f_zero f_max f_smallest.

Canonical Structure q_num : num :=
  Num Q Qplus Qminus Qmult Qdiv (fun a b => negb (Qle_bool b a)) inject_Z
      (fun q => Z.quot (Qnum q) (Zpos (Qden q))) 0%Q
      (inject_Z ((2 ^ 53 - 1) * 2 ^ 971)) (1 # (2 ^ 1074)).

(** Times are integers (nanoseconds); exemplar attachments are a Go map from
    strings to interface values, kept as an opaque association list. *)
Notation time := Z.
Notation attachments := (list (bytes * bytes)).

Section Agg.
  Context (F : num).

  (** metric/metricdata/exemplar.go:31-35 [Exemplar]. *)
  Record exemplar : Type := MkExemplar {
    x_value : F; x_time : time; x_att : attachments }.

  (** stats/view/aggregation_data.go:131-143 [DistributionData]. *)
  Record dist : Type := MkDist {
    d_count : Z;
    d_min : F;
    d_max : F;
    d_mean : F;
    d_ssd : F;
    d_cpb : list Z;
    d_ex : list (option exemplar);
    d_bounds : list F;
    d_start : time }.

  (** stats/view/aggregation_data.go:43-46 (CountData), 85-88 (SumData), 131
      (DistributionData), 284-286 (LastValueData). *)
  Inductive agg_data : Type :=
  | CountD (start : time) (v : Z)
  | SumD (start : time) (v : F)
  | DistD (d : dist)
  | LastD (v : F).

  (** stats/view/aggregation.go:46-51 [Aggregation] as built by Count(), Sum(),
      Distribution(bounds...) and LastValue() (53-124). A literal Aggregation{}
      written by the user has a nil newData and is not modelled. *)
  Inductive aggregation : Type :=
  | AggCount | AggSum | AggDist (bounds : list F) | AggLast.

  (** A sample as handed to addSample. (stats/view/aggregation_data.go:30). *)
  Record sample : Type := MkSample { s_value : F; s_att : attachments; s_time : time }.

  (** stats/view/aggregation_data.go:145-155 [newDistributionData]. *)
  Definition new_distribution_data (bounds : list F) (t : time) : dist :=
    let bucket_count := S (length bounds) in
    {| d_count := 0; d_min := n_max F; d_max := n_smallest F;
       d_mean := n_zero F; d_ssd := n_zero F;
       d_cpb := repeat 0 bucket_count; d_ex := repeat None bucket_count;
       d_bounds := bounds; d_start := t |}.

  (** The newData functions: stats/view/aggregation.go:56-58, 62-64, 108-110,
      119-121. *)
  Definition new_data (a : aggregation) (t : time) : agg_data :=
    match a with
    | AggCount => CountD t 0
    | AggSum => SumD t (n_zero F)
    | AggDist bounds => DistD (new_distribution_data bounds t)
    | AggLast => LastD (n_zero F)
    end.

  (** stats/view/aggregation_data.go:191-204: index of the bucket, the first
      bound greater than the value or the last bucket. *)
  Fixpoint bucket_index (v : F) (bounds : list F) : nat :=
    match bounds with
    | [] => O
    | b :: r => if n_ltb F v b then O else S (bucket_index v r)
    end.

  (** Assignment to the element of a slice (stats/view/aggregation_data.go:204-207). *)
  Fixpoint upd {A} (l : list A) (i : nat) (f : A -> A) : list A :=
    match l, i with
    | [], _ => []
    | x :: r, O => f x :: r
    | x :: r, S i' => x :: upd r i' f
    end.

  (** stats/view/aggregation_data.go:210-219 [getExemplar]. *)
  Definition get_exemplar (s : sample) : option exemplar :=
    match s_att s with
    | [] => None
    | _ => Some (MkExemplar (s_value s) (s_time s) (s_att s))
    end.

  (** stats/view/aggregation_data.go:190-208 [addToBucket].  The slices have
      one more element than [bounds] (C08), so the index never panics. *)
  Definition add_to_bucket (d : dist) (s : sample) : dist :=
    let i := bucket_index (s_value s) (d_bounds d) in
    {| d_count := d_count d; d_min := d_min d; d_max := d_max d;
       d_mean := d_mean d; d_ssd := d_ssd d;
       d_cpb := upd (d_cpb d) i (fun c => int64_of (c + 1));
       d_ex := match get_exemplar s with
               | Some x => upd (d_ex d) i (fun _ => Some x)
               | None => d_ex d
               end;
       d_bounds := d_bounds d; d_start := d_start d |}.

  (** stats/view/aggregation_data.go:170-188 [DistributionData.addSample]. *)
  Definition dist_add (d0 : dist) (s : sample) : dist :=
    let v := s_value s in
    let mn := if n_ltb F v (d_min d0) then v else d_min d0 in
    let mx := if n_ltb F (d_max d0) v then v else d_max d0 in
    let count := int64_of (d_count d0 + 1) in
    let d := add_to_bucket
               {| d_count := count; d_min := mn; d_max := mx; d_mean := d_mean d0;
                  d_ssd := d_ssd d0; d_cpb := d_cpb d0; d_ex := d_ex d0;
                  d_bounds := d_bounds d0; d_start := d_start d0 |} s in
    if count =? 1 then
      {| d_count := d_count d; d_min := d_min d; d_max := d_max d; d_mean := v;
         d_ssd := d_ssd d; d_cpb := d_cpb d; d_ex := d_ex d;
         d_bounds := d_bounds d; d_start := d_start d |}
    else
      let old_mean := d_mean d in
      let mean := n_add F old_mean (n_div F (n_sub F v old_mean) (n_of_int F count)) in
      let ssd := n_add F (d_ssd d) (n_mul F (n_sub F v old_mean) (n_sub F v mean)) in
      {| d_count := d_count d; d_min := d_min d; d_max := d_max d; d_mean := mean;
         d_ssd := ssd; d_cpb := d_cpb d; d_ex := d_ex d;
         d_bounds := d_bounds d; d_start := d_start d |}.

  (** The addSample methods: stats/view/aggregation_data.go:50-52 (Count), 92-94
      (Sum), 170-188 (Distribution), 292-294 (LastValue). *)
  Definition add_sample (a : agg_data) (s : sample) : agg_data :=
    match a with
    | CountD t v => CountD t (int64_of (v + 1))
    | SumD t v => SumD t (n_add F v (s_value s))
    | DistD d => DistD (dist_add d s)
    | LastD _ => LastD (s_value s)
    end.

  (** stats/view/aggregation_data.go:158 [Sum] of a distribution. *)
  Definition dist_sum (d : dist) : F := n_mul F (d_mean d) (n_of_int F (d_count d)).

  (** The StartTime methods: stats/view/aggregation_data.go:77, 120, 279, 321
      (None: the zero time). *)
  Definition start_time (a : agg_data) : option time :=
    match a with
    | CountD t _ => Some t
    | SumD t _ => Some t
    | DistD d => Some (d_start d)
    | LastD _ => None
    end.

  (** A row's data after the given samples (row created at the time of its first
      sample: stats/view/collector.go:35-42). *)
  Definition aggregate (a : aggregation) (t : time) (ss : list sample) : agg_data :=
    fold_left add_sample ss (new_data a t).

  (** metric/metricdata/point.go:22-28 [Point] without its time, 94-155
      [Distribution], [BucketOptions], [Bucket]; summaries are not built here. *)
  Inductive point_value : Type :=
  | PInt (v : Z)
  | PFloat (v : F)
  | PDist (count : Z) (sum ssd : F) (bounds : list F) (buckets : list (Z * option exemplar)).

  (** metric/metricdata/point.go:182-193 [Type]. *)
  Inductive metric_type : Type :=
  | TyGaugeInt64 | TyGaugeFloat64 | TyGaugeDistribution
  | TyCumulativeInt64 | TyCumulativeFloat64 | TyCumulativeDistribution | TySummary.

  (** The toPoint methods: stats/view/aggregation_data.go:67-74, 108-117, 251-276,
      308-317.  [None] is panic("unsupported metricdata.Type"). *)
  Definition to_point (a : agg_data) (ty : metric_type) : option point_value :=
    match a, ty with
    | CountD _ v, TyCumulativeInt64 => Some (PInt v)
    | SumD _ v, TyCumulativeInt64 => Some (PInt (n_to_int F v))
    | SumD _ v, TyCumulativeFloat64 => Some (PFloat v)
    | DistD d, TyCumulativeDistribution =>
        Some (PDist (d_count d) (dist_sum d) (d_ssd d) (d_bounds d)
                    (combine (d_cpb d) (d_ex d)))
    | LastD v, TyGaugeInt64 => Some (PInt (n_to_int F v))
    | LastD v, TyGaugeFloat64 => Some (PFloat v)
    | _, _ => None
    end.
End Agg.

Arguments MkExemplar {F}.
Arguments x_value {F}.
Arguments x_time {F}.
Arguments x_att {F}.
Arguments MkDist {F}.
Arguments d_count {F}.
Arguments d_min {F}.
Arguments d_max {F}.
Arguments d_mean {F}.
Arguments d_ssd {F}.
Arguments d_cpb {F}.
Arguments d_ex {F}.
Arguments d_bounds {F}.
Arguments d_start {F}.
Arguments CountD {F}.
Arguments SumD {F}.
Arguments DistD {F}.
Arguments LastD {F}.
Arguments AggCount {F}.
Arguments AggSum {F}.
Arguments AggDist {F}.
Arguments AggLast {F}.
Arguments MkSample {F}.
Arguments s_value {F}.
Arguments s_att {F}.
Arguments s_time {F}.
Arguments PInt {F}.
Arguments PFloat {F}.
Arguments PDist {F}.
Arguments add_sample {F}.
Arguments dist_add {F}.
Arguments add_to_bucket {F}.
Arguments get_exemplar {F}.
Arguments new_data {F}.
Arguments new_distribution_data {F}.
Arguments aggregate {F}.
Arguments bucket_index {F}.
Arguments dist_sum {F}.
Arguments start_time {F}.
Arguments to_point {F}.
