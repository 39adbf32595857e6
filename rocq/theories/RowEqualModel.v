(** Model of Row.Equal (stats/view/view.go) and of the equal methods of the data
    (stats/view/aggregation_data.go).  Definitions only. *)

From Coq Require Import List ZArith Bool.
From Coq Require Import Floats.SpecFloat.
From Verif Require Import Base GoMap Float64 AggModel.
Import ListNotations.
Open Scope Z_scope.

(** A row, stats/view/view.go:171-175; tags are key name and value (tag/map.go:26-29,
    tag/key.go:19-21), [None] is the nil slice.  Data is not nil. *)
Record row : Type := MkRow { r_tags : option (list (bytes * bytes)); r_data : agg_data f64_num }.

(** stats/view/aggregation_data.go:37 [epsilon], 1e-9 as a float64. *)
Definition epsilon : f64 := S754_finite false 4835703278458517 (-82).

(** math.Pow(a-b, 2) < epsilon, stats/view/aggregation_data.go:105, 248.  Pow squares the
    fraction of its argument and scales: the same as the product unless the result is
    subnormal, and then both are below epsilon. *)
Definition near (a b : f64) : bool := let d := f_sub a b in f_ltb (f_mul d d) epsilon.

(** stats/view/aggregation_data.go:160-165 [variance]. *)
Definition variance (d : dist f64_num) : f64 :=
  if d_count d <=? 1 then f_zero else f_div (d_ssd d) (f_of_Z (d_count d - 1)).

(** The loop of stats/view/aggregation_data.go:236-243, after the lengths are compared. *)
Fixpoint counts_equal (a b : list Z) : bool :=
  match a, b with
  | [], [] => true
  | x :: a, y :: b => (x =? y) && counts_equal a b
  | _, _ => false
  end.

(** stats/view/aggregation_data.go:228-249. *)
Definition dist_equal (a b : dist f64_num) : bool :=
  counts_equal (d_cpb a) (d_cpb b) &&
  ((d_start a =? d_start b) && (d_count a =? d_count b) && f_eqb (d_min a) (d_min b) && f_eqb (d_max a) (d_max b) &&
   near (d_mean a) (d_mean b) && near (variance a) (variance b)).

(** The equal methods, stats/view/aggregation_data.go:58-65, 100-106, 228-249, 300-306; the
    times are compared by Time.Equal: instants. *)
Definition data_equal (a b : agg_data f64_num) : bool :=
  match a, b with
  | CountD s v, CountD s' v' => (s =? s') && (v =? v')
  | SumD s v, SumD s' v' => (s =? s') && near v v'
  | DistD d, DistD d' => dist_equal d d'
  | LastD v, LastD v' => f_eqb v v'
  | _, _ => false
  end.

(** reflect.DeepEqual on slices of tags, stats/view/view.go:198: nil and an empty slice differ. *)
Fixpoint tags_equal (a b : list (bytes * bytes)) : bool :=
  match a, b with
  | [], [] => true
  | (k, v) :: a, (k', v') :: b => bytes_eqb k k' && bytes_eqb v v' && tags_equal a b
  | _, _ => false
  end.

(** stats/view/view.go:194-199 [Equal]; [same]: both are the same pointer. *)
Definition row_equal (same : bool) (a b : row) : bool :=
  if same then true
  else match r_tags a, r_tags b with
       | None, None => true
       | Some l, Some l' => tags_equal l l'
       | _, _ => false
       end && data_equal (r_data a) (r_data b).

(** A row as collectedRows makes it, stats/view/collector.go:46-53, 83-92: without tags the
    slice is nil. *)
Definition collected (tags : list (bytes * bytes)) (d : agg_data f64_num) : row :=
  MkRow (match tags with [] => None | _ => Some tags end) d.
