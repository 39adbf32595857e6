(** Specification vocabulary for C87: what two successive looks at a registered
    view have to do with each other. *)

From Coq Require Import List Arith ZArith Bool.
From Verif Require Import Base Float64 TagModel AggModel ViewModel WorkerModel.
Import ListNotations.
Open Scope Z_scope.

(** No Unregister call among [cs] names [n]. *)
Definition stays_registered (n : bytes) (cs : list cmd) : Prop :=
  forall ns t, In (CmdUnregister ns t) cs -> ~ In n ns.

(** The measurements of the Record calls among [cs]: name of the measure and value. *)
Definition recorded (cs : list cmd) : list (bytes * f64) :=
  flat_map (fun c => match c with
                     | CmdRecord _ ms _ _ =>
                         flat_map (fun m => match m with Some (me, v) => [(me_name me, v)] | None => [] end) ms
                     | _ => []
                     end) cs.

(** The values are float64 values, and fewer than 2^63 were recorded. *)
Definition modest_history (cs : list cmd) : Prop :=
  Forall (fun r => f_valid (snd r)) (recorded cs) /\ Z.of_nat (length (recorded cs)) < 2 ^ 63.

(** All measurements of the measure are finite and not negative. *)
Definition never_negative (mn : bytes) (cs : list cmd) : Prop :=
  forall v, In (mn, v) (recorded cs) -> 0 <= f_num v < 2 ^ 2098 /\ is_nan v = false.

(** Not smaller, as numbers; nothing is said when the old sum was already NaN. *)
Definition not_below (old new : f64) : Prop :=
  is_nan old = false -> is_nan new = false /\ f_num old <= f_num new.

(** The aggregation data of one row at two moments. *)
Definition grown (up : Prop) (old new : agg_data f64_num) : Prop :=
  match old, new with
  | CountD s v, CountD s' v' => s' = s /\ 0 <= v <= v'
  | SumD s v, SumD s' v' => s' = s /\ (up -> not_below v v')
  | DistD d, DistD d' =>
      d_start d' = d_start d /\ d_bounds d' = d_bounds d /\
      0 <= d_count d <= d_count d' /\
      Forall2 (fun c c' => 0 <= c <= c') (d_cpb d) (d_cpb d') /\
      not_below (d_min d') (d_min d) /\ not_below (d_max d) (d_max d')
  | LastD _, LastD _ => True
  | _, _ => False
  end.

(** The point of one time series at two moments, by the view's aggregation.  An
    int64 sum that no longer fits shows as -2^63. *)
Definition point_grown (up : Prop) (agg : aggregation f64_num) (old new : point_value f64_num) : Prop :=
  match agg, old, new with
  | AggCount, PInt a, PInt b => 0 <= a <= b
  | AggSum, PInt a, PInt b => up -> a <= b \/ b = - 2 ^ 63
  | AggSum, PFloat a, PFloat b => up -> not_below a b
  | AggDist _, PDist n _ _ bo bk, PDist n' _ _ bo' bk' =>
      bo' = bo /\ 0 <= n <= n' /\ Forall2 (fun c c' => 0 <= fst c <= fst c') bk bk'
  | AggLast, PInt _, PInt _ => True
  | AggLast, PFloat _, PFloat _ => True
  | _, _, _ => False
  end.

(** When a row of aggregation data says it was started; last values do not say. *)
Definition started (d : agg_data f64_num) : option time :=
  match d with CountD s _ | SumD s _ => Some s | DistD d => Some (d_start d) | LastD _ => None end.
