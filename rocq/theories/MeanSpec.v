(** What the mean of a distribution of float64 values should be, up to rounding. *)

From Coq Require Import List ZArith.
From Coq Require Import Floats.SpecFloat.
From Verif Require Import Base Float64.
Import ListNotations.
Open Scope Z_scope.

(** A float64 of size at most 2^1022, so that differences do not overflow. ([f_num] is the
    value in units of 2^-1074.) *)
Definition modest (v : f64) : Prop := f_valid v /\ is_nan v = false /\ Z.abs (f_num v) <= 2 ^ 1022 * 2 ^ 1074.

(** The exact sum, in units of 2^-1074. *)
Definition exact_sum (vs : list f64) : Z := fold_right Z.add 0 (map f_num vs).
