(** Vocabulary for the test exporter. *)

From Coq Require Import List Arith ZArith Bool Permutation Sorted.
From Verif Require Import Base GoSort Float64 TagModel AggModel ViewModel.
Import ListNotations.
Open Scope nat_scope.

Definition by_key (a b : bytes * bytes) : Prop := bytes_ltb (fst b) (fst a) = false.
(** What sort.Slice by key may do. *)
Definition sorts_by_key (sort : list (bytes * bytes) -> list (bytes * bytes)) : Prop :=
  forall l, Permutation (sort l) l /\ StronglySorted by_key (sort l).

(** The labels of a time series: its keys with the values that are present. *)
Fixpoint labels_present (keys : list bytes) (values : list (option bytes)) : list (bytes * bytes) :=
  match keys, values with
  | k :: ks, Some v :: vs => (k, v) :: labels_present ks vs
  | _ :: ks, None :: vs => labels_present ks vs
  | _, _ => []
  end.

(** All time series of exported data, in order, with their descriptors. *)
Definition series_in (data : list metric) : list (descriptor * time_series) :=
  flat_map (fun m => map (fun t => (mt_desc m, t)) (mt_series m)) data.

(** [x] is the time series of metric [n] with labels [l], which is a Go map. *)
Definition is_series (n : bytes) (l : list (bytes * bytes)) (x : descriptor * time_series) : Prop :=
  md_name (fst x) = n /\ Permutation (labels_present (md_keys (fst x)) (ts_labels (snd x))) l.

(** It has a value for each key and at least one point. *)
Definition well_formed (x : descriptor * time_series) : Prop :=
  length (md_keys (fst x)) = length (ts_labels (snd x)) /\ ts_points (snd x) <> [].

(** [r] is the last point of the last such series in [h], if there is one. *)
Definition latest (h : list (descriptor * time_series)) (n : bytes) (l : list (bytes * bytes)) (r : option (time * point_value f64_num)) : Prop :=
  match r with
  | Some p => exists h1 x h2, h = h1 ++ x :: h2 /\ is_series n l x /\ (exists ps, ts_points (snd x) = ps ++ [p]) /\
                              forall y, In y h2 -> ~ is_series n l y
  | None => forall y, In y h -> ~ is_series n l y
  end.

(** Keys and values one after the other, by key, with nothing between them. *)
Definition writes (l : list (bytes * bytes)) (t : bytes) : Prop :=
  exists s, Permutation s l /\ StronglySorted by_key s /\ t = flat_map (fun x => fst x ++ snd x) s.
Definition confusable (l l' : list (bytes * bytes)) : Prop := (exists t, writes l t /\ writes l' t) /\ ~ Permutation l l'.

Definition brace : byte := n2b 123.
Definition no_brace (n : bytes) : Prop := ~ In brace n.

(** Nothing in [h] can be taken for the series of metric [n] with labels [l]. *)
Definition separable (h : list (descriptor * time_series)) (n : bytes) (l : list (bytes * bytes)) : Prop :=
  no_brace n /\
  forall x, In x h -> no_brace (md_name (fst x)) /\
    (md_name (fst x) = n -> ~ confusable (labels_present (md_keys (fst x)) (ts_labels (snd x))) l).

(** The value of a point: a count is an integer; a sum or a last value is one if the measure is;
    a distribution gives its count, mean times count, sum of squared deviations, bounds,
    and its buckets with their exemplars. *)
Definition point_of (k : mkind) (d : agg_data f64_num) : point_value f64_num :=
  match d with
  | CountD _ n => PInt (F := f64_num) n
  | SumD _ v | LastD v => match k with MInt64 => PInt (F := f64_num) (f_to_int v) | _ => PFloat (F := f64_num) v end
  | DistD d => PDist (F := f64_num) (d_count d) (f_mul (d_mean d) (f_of_Z (d_count d))) (d_ssd d) (d_bounds d) (combine (d_cpb d) (d_ex d))
  end.
