(** What a Sum or LastValue view of an int64 measure should show: the integers recorded. *)

From Coq Require Import List ZArith.
From Verif Require Import Base Float64 AggModel AggSpec.
Import ListNotations.
Open Scope Z_scope.

(** The integers n_1, n_2, ... were recorded, as Int64Measure.M hands them on (that is, as
    float64). *)
Definition recorded_ints (ns : list Z) (ss : list (sample f64_num)) : Prop :=
  values ss = map f_of_Z ns.

Definition z_sum (l : list Z) : Z := fold_right Z.add 0 l.

(** Each of the integers, and the sum of every prefix, is at most 2^53 in size. *)
Definition small_sums (ns : list Z) : Prop :=
  (forall n, In n ns -> Z.abs n <= 2 ^ 53) /\
  (forall l l', ns = l ++ l' -> Z.abs (z_sum l) <= 2 ^ 53).
