(** Specification vocabulary for aggregations, independent of the model's
    accumulation functions. *)

From Coq Require Import List ZArith QArith Bool Sorted.
From Verif Require Import Base Float64 AggModel.
Import ListNotations.
Open Scope Z_scope.

(** Bounds of a histogram: float64 values, no NaN, in increasing order (the order
    Register puts them in). *)
Definition good_bounds (bounds : list f64) : Prop :=
  Forall (fun b => f_valid b /\ is_nan b = false) bounds /\
  StronglySorted (fun a b => f_num a <= f_num b) bounds.

(** The documented buckets (stats/view/aggregation.go:90-97): bucket i is
    [bounds(i-1), bounds(i)), with -infinity and +infinity at the ends. *)
Definition in_interval (bounds : list f64) (i : nat) (v : f64) : bool :=
  match i with
  | O => true
  | S j => match nth_error bounds j with Some b => f_num b <=? f_num v | None => false end
  end &&
  match nth_error bounds i with
  | Some b => f_num v <? f_num b
  | None => (i =? length bounds)%nat
  end.

(** NaN lies in no interval; it is counted in the last bucket. *)
Definition falls_in (bounds : list f64) (i : nat) (v : f64) : bool :=
  if is_nan v then (i =? length bounds)%nat else in_interval bounds i v.

Definition count_if {A} (p : A -> bool) (l : list A) : Z := Z.of_nat (length (filter p l)).

(** The last element of a list satisfying a predicate. *)
Fixpoint last_such {A} (p : A -> bool) (l : list A) : option A :=
  match l with
  | [] => None
  | x :: r => match last_such p r with
              | Some y => Some y
              | None => if p x then Some x else None
              end
  end.

Definition has_attachments {F} (s : sample F) : bool :=
  match s_att s with [] => false | _ => true end.

Definition values {F} (ss : list (sample F)) : list F := map (@s_value F) ss.

(** Exact sums over rationals. *)
Definition q_sum (l : list Q) : Q := fold_right Qplus 0%Q l.
Definition q_len (l : list Q) : Q := inject_Z (Z.of_nat (length l)).
Definition q_mean (l : list Q) : Q := (q_sum l / q_len l)%Q.
Definition q_sq_dev (l : list Q) : Q := q_sum (map (fun x => (x - q_mean l) * (x - q_mean l))%Q l).
