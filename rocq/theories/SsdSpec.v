(** What the sum of squared deviations of a distribution of float64 values, and their sum,
    should be. *)

From Coq Require Import List ZArith.
From Verif Require Import Base Float64 MeanSpec.
Import ListNotations.
Open Scope Z_scope.

(** The exact sum of the squares of (value - mean), times the square of the number n of
    values: the sum of the squares of (n value - sum), in units of 2^-2148. *)
Definition exact_squares (vs : list f64) : Z :=
  fold_right Z.add 0 (map (fun v => (Z.of_nat (length vs) * f_num v - exact_sum vs) ^ 2) vs).

(** The exact sum of the sizes of the values, in units of 2^-1074. *)
Definition exact_size (vs : list f64) : Z := fold_right Z.add 0 (map (fun v => Z.abs (f_num v)) vs).
