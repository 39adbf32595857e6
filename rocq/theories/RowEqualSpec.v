(** When rows should be equal.  The value of a float64 is [f_num] over 2^1074. *)

From Coq Require Import List ZArith Bool.
From Verif Require Import Base Float64 AggModel RowEqualModel.
Import ListNotations.
Open Scope Z_scope.

(** A number: neither NaN nor an infinity. *)
Definition number (x : f64) : Prop := f_valid x /\ is_nan x = false /\ Z.abs (f_num x) < 2 ^ 2098.

(** They differ by less than 1/31000, by at most 1/32000 (the square root of 10^-9 is between). *)
Definition close (x y : f64) : Prop := number x /\ number y /\ 31000 * Z.abs (f_num x - f_num y) < 2 ^ 1074.
Definition very_close (x y : f64) : Prop := number x /\ number y /\ 32000 * Z.abs (f_num x - f_num y) <= 2 ^ 1074.
(** Equal numbers; -0 and 0 are equal, NaN is not equal to anything. *)
Definition same (x y : f64) : Prop := is_nan x = false /\ is_nan y = false /\ f_num x = f_num y.

(** The variance of a sample: the sum of squared deviations over one less than its size. *)
Definition sample_variance (d : dist f64_num) : f64 :=
  if 2 <=? d_count d then f_div (d_ssd d) (f_of_Z (d_count d - 1)) else f_zero.

(** The same method, start and counts; values as [R] says. *)
Definition similar (R : f64 -> f64 -> Prop) (a b : agg_data f64_num) : Prop :=
  match a, b with
  | CountD s v, CountD s' v' => s = s' /\ v = v'
  | SumD s v, SumD s' v' => s = s' /\ R v v'
  | LastD v, LastD v' => same v v'
  | DistD d, DistD d' =>
      d_start d = d_start d' /\ d_count d = d_count d' /\ d_cpb d = d_cpb d' /\ same (d_min d) (d_min d') /\ same (d_max d) (d_max d') /\
      R (d_mean d) (d_mean d') /\ R (sample_variance d) (sample_variance d')
  | _, _ => False
  end.

(** All floats of the data are float64 values. *)
Definition valid_data (a : agg_data f64_num) : Prop :=
  match a with
  | CountD _ _ => True
  | SumD _ v | LastD v => f_valid v
  | DistD d => f_valid (d_min d) /\ f_valid (d_max d) /\ f_valid (d_mean d) /\ f_valid (d_ssd d)
  end.
(** None of them is NaN, and sums, means and variances are not infinite. *)
Definition clean_data (a : agg_data f64_num) : Prop :=
  match a with
  | CountD _ _ => True
  | SumD _ v => number v
  | LastD v => is_nan v = false
  | DistD d => is_nan (d_min d) = false /\ is_nan (d_max d) = false /\ number (d_mean d) /\ number (sample_variance d)
  end.
