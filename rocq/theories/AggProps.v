(** C07-C11: aggregation data.  [aggregate a t ss] is the data of a row of
    aggregation [a] created at time [t] after the samples [ss], in order. *)

From Coq Require Import String.
From Coq Require Import List ZArith QArith Bool Sorted Lia ZifyBool ZifyNat.
From Coq Require Import Floats.SpecFloat.
From Verif Require Import Base ListLib Float64 AggModel AggSpec AggProofs.
Import ListNotations.
Open Scope Z_scope.

(** Samples used in the examples. *)
Definition f1 : f64 := f_of_Z 1.
Definition f2 : f64 := f_of_Z 2.
Definition f5 : f64 := f_of_Z 5.
Definition fm3 : f64 := f_of_Z (-3).
Definition smp (v : f64) (a : attachments) (t : Z) : sample f64_num := @MkSample f64_num v a t.
Definition att1 : attachments := [(bs "k", bs "v")].
Definition ex_samples : list (sample f64_num) :=
  [smp f1 [] 10; smp f5 att1 11; smp f2 att1 12; smp f2 [] 13; smp S754_nan [] 14].
Definition ex_bounds : list f64 := [f1; f2].

(** ** C07 *)

Theorem C07_count (t : time) (ss : list (sample f64_num)) :
  Z.of_nat (length ss) < 2 ^ 63 ->
  aggregate AggCount t ss = CountD t (Z.of_nat (length ss)).
Proof. intros H. rewrite run_count, int64_of_small by lia. reflexivity. Qed.

(** Beyond the range of int64 the count wraps around. *)
Theorem C07_count_wraps (t : time) (ss : list (sample f64_num)) :
  aggregate AggCount t ss = CountD t (int64_of (Z.of_nat (length ss))).
Proof. apply run_count. Qed.

Theorem C07_sum (t : time) (ss : list (sample f64_num)) :
  aggregate AggSum t ss = SumD t (fold_left f_add (values ss) f_zero).
Proof. exact (run_sum f64_num t ss). Qed.

(** In exact arithmetic that is the sum. *)
Theorem C07_sum_exact (t : time) (ss : list (sample q_num)) :
  exists v, aggregate AggSum t ss = SumD t v /\ Qeq v (q_sum (values ss)).
Proof.
  rewrite run_sum. eexists. split; [reflexivity|]. cbn [n_add n_zero q_num].
  change (Qeq (fold_left Qplus (values ss) 0%Q) (q_sum (values ss))).
  assert (G : forall l z, Qeq (fold_left Qplus l z) (z + q_sum l)%Q).
  { induction l as [|x l IH]; intros z; simpl; [unfold q_sum; simpl; ring|].
    rewrite IH. unfold q_sum. simpl. ring. }
  rewrite G. ring.
Qed.

Theorem C07_last (t : time) (ss : list (sample f64_num)) s :
  aggregate AggLast t (ss ++ [s]) = LastD (s_value s).
Proof. apply run_last. Qed.

Example C07_example :
  aggregate AggCount 7 ex_samples = CountD 7 5 /\
  aggregate AggSum 7 (firstn 4 ex_samples) = @SumD f64_num 7 (f_of_Z 10) /\
  aggregate AggLast 7 (firstn 4 ex_samples) = @LastD f64_num f2.
Proof. split; [|split]; reflexivity. Qed.

(** ** C08 *)

(** Shape of a distribution, for all bounds whatever: the bucket slices always
    have one more element than the bounds, so indexing never panics. *)
Theorem C08_shape (bounds : list f64) t (ss : list (sample f64_num)) :
  exists d, @aggregate f64_num (AggDist bounds) t ss = DistD d /\
    length (d_cpb d) = S (length bounds) /\ length (d_ex d) = S (length bounds) /\
    d_bounds d = bounds /\ d_start d = t /\
    forall v, (@bucket_index f64_num v (d_bounds d) < length (d_cpb d))%nat.
Proof.
  exists (drun f64_num bounds t ss). rewrite run_dist.
  destruct (drun_shape f64_num bounds t ss) as (B & S & C & L & X). cbv zeta in *.
  repeat split; auto. intros v. rewrite L, B. pose proof (bucket_index_le f64_num v bounds). lia.
Qed.

(** With increasing bounds, bucket i counts exactly the samples of the documented
    interval (NaN samples count in the last bucket). *)
Theorem C08_buckets (bounds : list f64) t (ss : list (sample f64_num)) :
  good_bounds bounds -> Forall f_valid (values ss) -> Z.of_nat (length ss) < 2 ^ 63 ->
  exists d, @aggregate f64_num (AggDist bounds) t ss = DistD d /\
    d_count d = Z.of_nat (length ss) /\
    forall i, (i <= length bounds)%nat ->
      nth_error (d_cpb d) i = Some (count_if (falls_in bounds i) (values ss)).
Proof.
  intros HB HV HL. exists (drun f64_num bounds t ss). split; [apply run_dist|].
  destruct (drun_shape f64_num bounds t ss) as (_ & _ & C & _). cbv zeta in *.
  split; [rewrite C; apply int64_of_small; lia|]. intros i Hi.
  rewrite drun_cpb by exact Hi. rewrite values_valid_filter by assumption.
  f_equal. apply int64_of_small.
  assert (count_if (falls_in bounds i) (values ss) <= Z.of_nat (length ss)).
  { unfold count_if. rewrite <- (map_length (@s_value f64_num) ss). apply inj_le.
    fold (values ss). apply filter_length_le. }
  unfold count_if in *. lia.
Qed.

(** Every sample falls in exactly one bucket. *)
Theorem C08_partition (bounds : list f64) v :
  good_bounds bounds -> f_valid v ->
  exists i, (i <= length bounds)%nat /\ falls_in bounds i v = true /\
            forall j, falls_in bounds j v = true -> j = i.
Proof. apply falls_in_unique. Qed.

(** The bucket counts add up to the number of samples, for all bounds. *)
Theorem C08_total (bounds : list f64) t (ss : list (sample f64_num)) :
  Z.of_nat (length ss) < 2 ^ 63 ->
  exists d, @aggregate f64_num (AggDist bounds) t ss = DistD d /\
    fold_right Z.add 0 (d_cpb d) = Z.of_nat (length ss) /\ d_count d = Z.of_nat (length ss).
Proof.
  intros HL. exists (drun f64_num bounds t ss). split; [apply run_dist|].
  destruct (drun_shape f64_num bounds t ss) as (_ & _ & C & L & _). cbv zeta in *.
  split; [|rewrite C; apply int64_of_small; lia].
  rewrite <- (hits_partition f64_num bounds ss). f_equal.
  apply nth_error_ext_eq. intros i.
  destruct (Nat.le_gt_cases i (length bounds)) as [Hi|Hi].
  - rewrite drun_cpb by exact Hi.
    rewrite nth_error_map. rewrite (nth_error_nth' _ 0%nat) by (rewrite seq_length; apply Nat.lt_succ_r; exact Hi).
    rewrite seq_nth by (apply Nat.lt_succ_r; exact Hi). simpl option_map. simpl Nat.add. f_equal. apply int64_of_small.
    assert (0 <= hits f64_num bounds i ss <= Z.of_nat (length ss)).
    { unfold hits, count_if. split; [lia|]. apply inj_le. apply filter_length_le. }
    change (n_t f64_num) with f64 in *. lia.
  - change (n_t f64_num) with f64 in *.
    rewrite (proj2 (nth_error_None _ _)) by lia. symmetry. apply nth_error_None.
    rewrite map_length, seq_length. exact Hi.
Qed.

Example C08_example :
  good_bounds ex_bounds /\ Forall f_valid (values ex_samples) /\
  map (fun i => count_if (falls_in ex_bounds i) (values ex_samples)) [0; 1; 2]%nat = [0; 1; 4].
Proof.
  split; [|split].
  - split; repeat constructor. unfold f_num, f1, f2. vm_compute. discriminate.
  - repeat constructor.
  - vm_compute. reflexivity.
Qed.

(** ** C09 *)

(** Min is the least non-NaN sample, provided some sample is below +Inf. *)
Theorem C09_min (bounds : list f64) t (ss : list (sample f64_num)) :
  Forall f_valid (values ss) ->
  (exists v, In v (values ss) /\ is_nan v = false /\ v <> S754_infinity false) ->
  exists d v, @aggregate f64_num (AggDist bounds) t ss = DistD d /\
    In v (values ss) /\ is_nan v = false /\ f_num (d_min d) = f_num v /\
    forall u, In u (values ss) -> is_nan u = false -> f_num v <= f_num u.
Proof.
  intros HV (w & Hw & Nw & Iw).
  destruct (drun_min bounds t ss HV) as (Vm & Nm & Cm & Lm & Am). cbv zeta in *.
  exists (drun f64_num bounds t ss).
  assert (Hwm : f_num w <= f_num f_max).
  { apply f_max_greatest; [rewrite Forall_forall in HV; now apply HV|].
    assert (P : 0 < 2 ^ 2098) by (apply Z.pow_pos_nonneg; lia).
    assert (Vw : f_valid w) by (rewrite Forall_forall in HV; now apply HV).
    destruct w as [s|[|]| |s m e]; unfold f_num; try discriminate; try congruence.
    - lia.
    - pose proof (finite_bound _ _ _ Vw). destruct s; lia. }
  destruct Cm as [Cm|Cm].
  - exists w. split; [apply run_dist|]. split; [exact Hw|]. split; [exact Nw|].
    pose proof (Am w Hw Nw). rewrite Cm in *. split; [lia|].
    intros u Hu Nu. specialize (Am u Hu Nu). lia.
  - eexists. split; [apply run_dist|]. split; [exact Cm|]. repeat split; auto.
Qed.

(** Max is the greatest non-NaN sample, provided some sample is positive. *)
Theorem C09_max (bounds : list f64) t (ss : list (sample f64_num)) :
  Forall f_valid (values ss) ->
  (exists v, In v (values ss) /\ is_nan v = false /\ 0 < f_num v) ->
  exists d v, @aggregate f64_num (AggDist bounds) t ss = DistD d /\
    In v (values ss) /\ is_nan v = false /\ f_num (d_max d) = f_num v /\
    forall u, In u (values ss) -> is_nan u = false -> f_num u <= f_num v.
Proof.
  intros HV (w & Hw & Nw & Iw).
  destruct (drun_max bounds t ss HV) as (Vm & Nm & Cm & Lm & Am). cbv zeta in *.
  exists (drun f64_num bounds t ss). rewrite f_smallest_num in Lm.
  destruct Cm as [Cm|Cm].
  - exists w. split; [apply run_dist|]. split; [exact Hw|]. split; [exact Nw|].
    pose proof (Am w Hw Nw) as A. rewrite Cm in A. rewrite f_smallest_num in A.
    rewrite Cm, f_smallest_num. split; [lia|].
    intros u Hu Nu. specialize (Am u Hu Nu). rewrite Cm, f_smallest_num in Am. lia.
  - eexists. split; [apply run_dist|]. split; [exact Cm|]. repeat split; auto.
Qed.

(** When no sample is positive, Max is always reported as the smallest positive
    float64 2^-1074, which is greater than every sample (defect: Max starts at
    math.SmallestNonzeroFloat64). *)
Theorem C09_max_refuted (bounds : list f64) t (ss : list (sample f64_num)) :
  Forall f_valid (values ss) ->
  (forall v, In v (values ss) -> f_num v <= 0) ->
  exists d, @aggregate f64_num (AggDist bounds) t ss = DistD d /\
    f_num (d_max d) = 1 /\ forall v, In v (values ss) -> f_num v < f_num (d_max d).
Proof.
  intros HV HN. exists (drun f64_num bounds t ss). split; [apply run_dist|].
  destruct (drun_max bounds t ss HV) as (_ & _ & Cm & Lm & _). cbv zeta in *.
  rewrite f_smallest_num in Lm.
  assert (E : f_num (d_max (drun f64_num bounds t ss)) = 1).
  { destruct Cm as [->|Hin]; [apply f_smallest_num|]. specialize (HN _ Hin). lia. }
  split; [exact E|]. intros v Hv. rewrite E. specialize (HN v Hv). lia.
Qed.

(** When every sample is +Inf, Min is reported as math.MaxFloat64. *)
Theorem C09_min_refuted :
  exists bounds t ss d, ss <> [] /\ @aggregate f64_num (AggDist bounds) t ss = DistD d /\
    forall v, In v (values ss) -> f_num (d_min d) < f_num v.
Proof.
  exists [], 0, [smp (S754_infinity false) [] 1]. eexists. split; [discriminate|].
  split; [reflexivity|]. intros v [<-|[]]. vm_compute. reflexivity.
Qed.

Example C09_example :
  exists d, @aggregate f64_num (AggDist ex_bounds) 0 ex_samples = DistD d /\
            d_min d = f1 /\ d_max d = f5 /\
  exists d', @aggregate f64_num (AggDist []) 0 [smp fm3 [] 1] = DistD d' /\
             d_min d' = fm3 /\ d_max d' = f_smallest.
Proof.
  eexists. split; [reflexivity|]. repeat (split; [reflexivity|]).
  eexists. split; [reflexivity|]. split; reflexivity.
Qed.

(** ** C10 *)

Theorem C10_welford (bounds : list Q) t (ss : list (sample q_num)) :
  ss <> [] -> Z.of_nat (length ss) < 2 ^ 63 ->
  exists d, @aggregate q_num (AggDist bounds) t ss = DistD d /\
    Qeq (d_mean d) (q_mean (values ss)) /\
    Qeq (d_ssd d) (q_sq_dev (values ss)) /\
    Qeq (dist_sum d) (q_sum (values ss)).
Proof.
  intros Hne HL. exists (drun q_num bounds t ss). split; [apply run_dist|].
  destruct (drun_welford bounds t ss Hne HL) as [Hm Hs]. cbv zeta in *.
  assert (Hv : values ss <> []) by (destruct ss; [congruence|discriminate]).
  split; [exact Hm|]. split; [rewrite Hs, q_sq_dev_alt by exact Hv; reflexivity|].
  destruct (drun_shape q_num bounds t ss) as (_ & _ & C & _). cbv zeta in C.
  unfold dist_sum. rewrite C, int64_of_small by lia. cbn [n_mul n_of_int q_num].
  rewrite Hm. unfold q_mean.
  assert (E : Qeq (inject_Z (Z.of_nat (length ss))) (q_len (values ss))).
  { unfold q_len, values. rewrite map_length. reflexivity. }
  rewrite E. field. intros E0. pose proof (q_len_pos _ Hv) as P. rewrite E0 in P.
  now apply Qlt_irrefl in P.
Qed.

Example C10_example :
  let ss := map (fun q => @MkSample q_num q [] 0) [1 # 2; 3 # 1; 11 # 2]%Q in
  exists d, @aggregate q_num (AggDist []) 0 ss = DistD d /\
    Qeq (d_mean d) 3 /\ Qeq (d_ssd d) (25 # 2) /\ Qeq (dist_sum d) 9.
Proof. cbv zeta. eexists. split; [reflexivity|]. split; [|split]; reflexivity. Qed.

(** ** C11 *)

Theorem C11_exemplars (bounds : list f64) t (ss : list (sample f64_num)) :
  good_bounds bounds -> Forall f_valid (values ss) ->
  exists d, @aggregate f64_num (AggDist bounds) t ss = DistD d /\
    forall i, (i <= length bounds)%nat ->
      nth_error (d_ex d) i =
      Some (match last_such (fun s => has_attachments s && falls_in bounds i (s_value s)) ss with
            | Some s => Some (@MkExemplar f64_num (s_value s) (s_time s) (s_att s))
            | None => None
            end).
Proof.
  intros HB HV. exists (drun f64_num bounds t ss). split; [apply run_dist|]. intros i Hi.
  rewrite drun_ex by exact Hi. f_equal. unfold option_map.
  rewrite (last_such_ext _ (fun s => has_attachments s && falls_in bounds i (s_value s)));
    [reflexivity|].
  intros s Hs. rewrite bucket_index_falls; auto.
  rewrite Forall_forall in HV. apply HV. now apply in_map.
Qed.

Example C11_example :
  exists d, @aggregate f64_num (AggDist ex_bounds) 0 ex_samples = DistD d /\
    d_ex d = [None; None; Some (@MkExemplar f64_num f2 12 att1)].
Proof. eexists. split; reflexivity. Qed.

Print Assumptions C07_count.
Print Assumptions C07_count_wraps.
Print Assumptions C07_sum.
Print Assumptions C07_sum_exact.
Print Assumptions C07_last.
Print Assumptions C08_shape.
Print Assumptions C08_buckets.
Print Assumptions C08_partition.
Print Assumptions C08_total.
Print Assumptions C09_min.
Print Assumptions C09_max.
Print Assumptions C09_max_refuted.
Print Assumptions C09_min_refuted.
Print Assumptions C10_welford.
Print Assumptions C11_exemplars.
