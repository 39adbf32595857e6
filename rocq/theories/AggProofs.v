(** Proofs about the aggregation model. *)

From Coq Require Import List ZArith QArith Qfield Bool Sorted Lia ZifyBool ZifyNat.
From Coq Require Import Floats.SpecFloat.
From Verif Require Import Base Float64 AggModel AggSpec.
Import ListNotations.
Open Scope Z_scope.

Lemma int64_of_idem_add a b : int64_of (int64_of a + b) = int64_of (a + b).
Proof.
  unfold int64_of.
  replace (((a + 2 ^ 63) mod 2 ^ 64 - 2 ^ 63 + b + 2 ^ 63)) with ((a + 2 ^ 63) mod 2 ^ 64 + b) by lia.
  rewrite Z.add_mod_idemp_l by lia. do 2 f_equal. lia.
Qed.

Lemma int64_of_0 : int64_of 0 = 0.
Proof. apply int64_of_small. lia. Qed.

Section Generic.
  Context (F : num).
  Implicit Types (s : sample F) (ss : list (sample F)) (d : dist F).

  Lemma upd_length {A} (l : list A) i f : length (upd l i f) = length l.
  Proof. revert i; induction l as [|x l IH]; intros [|i]; simpl; auto. Qed.

  Lemma nth_error_upd {A} (l : list A) i f j :
    nth_error (upd l i f) j =
    if (i =? j)%nat then option_map f (nth_error l j) else nth_error l j.
  Proof.
    revert i j; induction l as [|x l IH]; intros i j.
    - simpl. destruct j; destruct (i =? _)%nat; reflexivity.
    - destruct i, j; simpl; auto.
  Qed.

  Lemma bucket_index_le v bounds : (@bucket_index F v bounds <= length bounds)%nat.
  Proof. induction bounds as [|b r IH]; simpl; [lia|]. destruct (n_ltb F v b); lia. Qed.

  Lemma run_count t ss : aggregate AggCount t ss = CountD t (int64_of (Z.of_nat (length ss))).
  Proof.
    unfold aggregate, new_data. induction ss as [|s ss IH] using rev_ind.
    - simpl. now rewrite int64_of_0.
    - rewrite fold_left_app, IH. simpl. f_equal. rewrite int64_of_idem_add, app_length. simpl. f_equal. lia.
  Qed.

  Lemma run_sum t ss :
    aggregate AggSum t ss = SumD t (fold_left (n_add F) (values ss) (n_zero F)).
  Proof.
    unfold aggregate, new_data, values. generalize (n_zero F).
    induction ss as [|s ss IH]; intros z; simpl; [reflexivity|]. apply IH.
  Qed.

  Lemma run_last t ss s : aggregate AggLast t (ss ++ [s]) = LastD (s_value s).
  Proof.
    unfold aggregate. rewrite fold_left_app. cbn [fold_left].
    assert (H : forall ss z, exists z', fold_left add_sample ss (LastD z) = @LastD F z').
    { induction ss0 as [|a ss0 IH]; intros z; simpl; [eauto|apply IH]. }
    simpl. destruct (H ss (n_zero F)) as [z' ->]. reflexivity.
  Qed.

  Definition drun bounds t ss : dist F := fold_left dist_add ss (new_distribution_data bounds t).

  Lemma run_dist bounds t ss : aggregate (AggDist bounds) t ss = DistD (drun bounds t ss).
  Proof.
    unfold aggregate, drun. simpl. generalize (new_distribution_data bounds t).
    induction ss as [|s ss IH]; intros d; simpl; [reflexivity|]. apply IH.
  Qed.

  Lemma dist_add_shape d s :
    d_bounds (dist_add d s) = d_bounds d /\ d_start (dist_add d s) = d_start d /\
    d_count (dist_add d s) = int64_of (d_count d + 1) /\
    d_cpb (dist_add d s) =
      upd (d_cpb d) (bucket_index (s_value s) (d_bounds d)) (fun c => int64_of (c + 1)) /\
    d_ex (dist_add d s) =
      match get_exemplar s with
      | Some x => upd (d_ex d) (bucket_index (s_value s) (d_bounds d)) (fun _ => Some x)
      | None => d_ex d
      end /\
    d_min (dist_add d s) = (if n_ltb F (s_value s) (d_min d) then s_value s else d_min d) /\
    d_max (dist_add d s) = (if n_ltb F (d_max d) (s_value s) then s_value s else d_max d).
  Proof.
    unfold dist_add. cbv zeta. destruct (int64_of (d_count d + 1) =? 1); simpl; repeat split; reflexivity.
  Qed.

  Lemma drun_snoc bounds t ss s : drun bounds t (ss ++ [s]) = dist_add (drun bounds t ss) s.
  Proof. unfold drun. now rewrite fold_left_app. Qed.

  Lemma drun_shape bounds t ss :
    let d := drun bounds t ss in
    d_bounds d = bounds /\ d_start d = t /\ d_count d = int64_of (Z.of_nat (length ss)) /\
    length (d_cpb d) = S (length bounds) /\ length (d_ex d) = S (length bounds).
  Proof.
    cbv zeta. induction ss as [|s ss (B & S & C & L & X)] using rev_ind.
    - unfold drun; simpl. rewrite int64_of_0, !repeat_length. repeat split; reflexivity.
    - rewrite drun_snoc.
      destruct (dist_add_shape (drun bounds t ss) s) as (E1 & E2 & E3 & E4 & E5 & _).
      rewrite E1, E2, E3, E4, E5. repeat split; auto.
      + rewrite C, int64_of_idem_add, app_length. simpl. f_equal. lia.
      + now rewrite upd_length.
      + destruct (get_exemplar s); [rewrite upd_length|]; assumption.
  Qed.

  Definition hits bounds i ss : Z :=
    count_if (fun s => (bucket_index (s_value s) bounds =? i)%nat) ss.

  Lemma drun_cpb bounds t ss i :
    (i <= length bounds)%nat ->
    nth_error (d_cpb (drun bounds t ss)) i = Some (int64_of (hits bounds i ss)).
  Proof.
    intros Hi. unfold hits, count_if. induction ss as [|s ss IH] using rev_ind.
    - unfold drun. cbn [fold_left new_distribution_data d_cpb]. rewrite nth_error_repeat by lia.
      simpl. now rewrite int64_of_0.
    - rewrite drun_snoc.
      destruct (dist_add_shape (drun bounds t ss) s) as (_ & _ & _ & E4 & _).
      destruct (drun_shape bounds t ss) as (B & _). cbv zeta in B.
      rewrite E4, B, nth_error_upd, IH, filter_app, app_length. cbn [filter].
      destruct (Nat.eqb_spec (bucket_index (s_value s) bounds) i); simpl.
      + f_equal. rewrite int64_of_idem_add. f_equal. lia.
      + f_equal. f_equal. lia.
  Qed.

  Lemma last_such_app {A} (p : A -> bool) l x :
    last_such p (l ++ [x]) = if p x then Some x else last_such p l.
  Proof.
    induction l as [|y l IH]; simpl.
    - destruct (p x); reflexivity.
    - rewrite IH. destruct (p x); [reflexivity|]. destruct (last_such p l); reflexivity.
  Qed.

  Definition exemplar_of s : exemplar F := MkExemplar (s_value s) (s_time s) (s_att s).

  Lemma drun_ex bounds t ss i :
    (i <= length bounds)%nat ->
    nth_error (d_ex (drun bounds t ss)) i =
    Some (option_map exemplar_of
            (last_such (fun s => has_attachments s && (bucket_index (s_value s) bounds =? i)%nat) ss)).
  Proof.
    intros Hi. induction ss as [|s ss IH] using rev_ind.
    - unfold drun. cbn [fold_left new_distribution_data d_ex]. rewrite nth_error_repeat by lia. reflexivity.
    - rewrite drun_snoc, last_such_app.
      destruct (dist_add_shape (drun bounds t ss) s) as (_ & _ & _ & _ & E5 & _).
      destruct (drun_shape bounds t ss) as (B & _). cbv zeta in B.
      rewrite E5, B. unfold get_exemplar, has_attachments in *.
      destruct (s_att s) eqn:Ea; [exact IH|]. rewrite nth_error_upd, IH. cbn [andb].
      destruct (Nat.eqb_spec (bucket_index (s_value s) bounds) i); [|reflexivity].
      simpl. unfold exemplar_of. now rewrite Ea.
  Qed.
End Generic.

(** ** Float64 buckets *)

Lemma falls_in_last v : falls_in [] 0 v = true.
Proof. unfold falls_in, in_interval. destruct (is_nan v); reflexivity. Qed.

Lemma bucket_index_nan bounds : @bucket_index f64_num S754_nan bounds = length bounds.
Proof. induction bounds as [|b r IH]; simpl; auto. Qed.

Lemma bucket_index_falls bounds v i :
  good_bounds bounds -> f_valid v ->
  (@bucket_index f64_num v bounds =? i)%nat = falls_in bounds i v.
Proof.
  intros [HF HS] Hv. unfold falls_in. destruct (is_nan v) eqn:Nv.
  { destruct v; try discriminate. rewrite bucket_index_nan. apply Nat.eqb_sym. }
  revert i. induction bounds as [|b r IH]; intros i.
  - unfold in_interval. simpl. destruct i; simpl; [reflexivity|].
    destruct i; reflexivity.
  - inversion HF as [|? ? [Vb Nb] HF']; subst. inversion HS as [|? ? HS' Hall]; subst.
    specialize (IH HF' HS'). cbn [bucket_index]. change (n_ltb f64_num v b) with (f_ltb v b).
    destruct (f_ltb v b) eqn:E.
    + apply f_ltb_num in E; auto. destruct E as (_ & _ & E).
      destruct i as [|i].
      * unfold in_interval. simpl. symmetry. apply Z.ltb_lt in E. now rewrite E.
      * unfold in_interval. cbn [nth_error]. symmetry. change ((0 =? S i)%nat) with false.
        apply andb_false_iff. left. destruct i as [|i]; cbn [nth_error].
        -- lia.
        -- destruct (nth_error r i) eqn:En; [|reflexivity].
           apply nth_error_In in En. rewrite Forall_forall in Hall. specialize (Hall _ En). lia.
    + apply f_ltb_false in E; auto. destruct i as [|i].
      * unfold in_interval. simpl. lia.
      * cbn [Nat.eqb]. rewrite IH. unfold in_interval. cbn [nth_error length]. cbn [Nat.eqb].
        destruct i as [|i]; [|reflexivity].
        f_equal. symmetry. apply Z.leb_le. exact E.
Qed.

Lemma values_valid_filter bounds i (ss : list (sample f64_num)) :
  good_bounds bounds -> Forall f_valid (values ss) ->
  hits f64_num bounds i ss = count_if (falls_in bounds i) (values ss).
Proof.
  intros HB HV. unfold hits, count_if, values in *. f_equal.
  induction ss as [|s ss IH]; [reflexivity|]. simpl in *. inversion HV; subst.
  rewrite bucket_index_falls by assumption. destruct (falls_in bounds i (s_value s)); simpl; auto.
Qed.

Lemma last_such_ext {A} (p q : A -> bool) l :
  (forall x, In x l -> p x = q x) -> last_such p l = last_such q l.
Proof.
  induction l as [|x l IH]; intros H; [reflexivity|]. simpl.
  rewrite IH by (intros; apply H; now right). rewrite (H x) by now left. reflexivity.
Qed.

(** Every value lies in exactly one bucket. *)
Lemma falls_in_unique bounds v :
  good_bounds bounds -> f_valid v ->
  exists i, (i <= length bounds)%nat /\ falls_in bounds i v = true /\
            forall j, falls_in bounds j v = true -> j = i.
Proof.
  intros HB Hv. exists (@bucket_index f64_num v bounds).
  split; [apply bucket_index_le|]. rewrite <- bucket_index_falls by assumption.
  split; [apply Nat.eqb_refl|]. intros j Hj.
  rewrite <- bucket_index_falls in Hj by assumption. apply Nat.eqb_eq in Hj. auto.
Qed.

Lemma hits_partition (F : num) bounds (ss : list (sample F)) :
  fold_right Z.add 0 (map (fun i => hits F bounds i ss) (seq 0 (S (length bounds)))) = Z.of_nat (length ss).
Proof.
  assert (G : forall n k ss, fold_right Z.add 0 (map (fun i => hits F bounds i ss) (seq k n)) =
    count_if (fun s => (k <=? bucket_index (s_value s) bounds)%nat && (bucket_index (s_value s) bounds <? k + n)%nat) ss).
  { induction n as [|n IH]; intros k ss'.
    - simpl. unfold count_if. induction ss' as [|s ss' IHs]; [reflexivity|]. simpl.
      destruct (_ && _) eqn:E; [exfalso; lia|exact IHs].
    - cbn [seq map fold_right]. rewrite IH. unfold hits, count_if. clear IH.
      induction ss' as [|s ss' IHs]; [reflexivity|]. cbn [filter].
      set (b := bucket_index (s_value s) bounds) in *.
      destruct (b =? k)%nat eqn:E1, ((S k <=? b)%nat && (b <? S k + n)%nat) eqn:E2,
        ((k <=? b)%nat && (b <? k + S n)%nat) eqn:E3; cbn [length]; lia. }
  rewrite G. unfold count_if. f_equal.
  induction ss as [|s ss IH]; [reflexivity|]. cbn [filter].
  pose proof (bucket_index_le F (s_value s) bounds).
  match goal with |- context [if ?b then _ else _] => destruct b eqn:E end;
    [cbn [length]; f_equal; exact IH|exfalso; lia].
Qed.

(** ** Minimum and maximum *)

Lemma drun_min bounds t (ss : list (sample f64_num)) :
  Forall f_valid (values ss) ->
  let m := d_min (drun f64_num bounds t ss) in
  f_valid m /\ is_nan m = false /\ (m = f_max \/ In m (values ss)) /\
  f_num m <= f_num f_max /\
  (forall v, In v (values ss) -> is_nan v = false -> f_num m <= f_num v).
Proof.
  cbv zeta. induction ss as [|s ss IH] using rev_ind; intros HV.
  - unfold drun. simpl. repeat split; auto; try reflexivity; try contradiction; try lia.
  - unfold values in *. rewrite map_app in *. apply Forall_app in HV. destruct HV as [HV Hs].
    inversion Hs as [|? ? Vs _]; subst.
    destruct (IH HV) as (Vm & Nm & Cm & Lm & Am). clear IH.
    rewrite drun_snoc.
    destruct (dist_add_shape f64_num (drun f64_num bounds t ss) s) as (_ & _ & _ & _ & _ & E6 & _).
    rewrite E6. change (n_ltb f64_num) with f_ltb. clear E6.
    set (m := d_min (drun f64_num bounds t ss)) in *.
    destruct (f_ltb (s_value s) m) eqn:E.
    + apply f_ltb_num in E; auto. destruct E as (Ns & _ & E).
      split; [assumption|]. split; [assumption|]. split; [right; apply in_app_iff; right; now left|].
      split; [lia|]. intros v Hin Nv. apply in_app_iff in Hin. destruct Hin as [Hin|[<-|[]]].
      * specialize (Am v Hin Nv). lia.
      * lia.
    + split; [assumption|]. split; [assumption|].
      split; [destruct Cm; [now left|right; apply in_app_iff; now left]|].
      split; [lia|]. intros v Hin Nv. apply in_app_iff in Hin. destruct Hin as [Hin|[<-|[]]].
      * auto.
      * apply f_ltb_false in E; auto.
Qed.

Lemma drun_max bounds t (ss : list (sample f64_num)) :
  Forall f_valid (values ss) ->
  let m := d_max (drun f64_num bounds t ss) in
  f_valid m /\ is_nan m = false /\ (m = f_smallest \/ In m (values ss)) /\
  f_num f_smallest <= f_num m /\
  (forall v, In v (values ss) -> is_nan v = false -> f_num v <= f_num m).
Proof.
  cbv zeta. induction ss as [|s ss IH] using rev_ind; intros HV.
  - unfold drun. simpl. repeat split; auto; try reflexivity; try contradiction; try lia.
  - unfold values in *. rewrite map_app in *. apply Forall_app in HV. destruct HV as [HV Hs].
    inversion Hs as [|? ? Vs _]; subst.
    destruct (IH HV) as (Vm & Nm & Cm & Lm & Am). clear IH.
    rewrite drun_snoc.
    destruct (dist_add_shape f64_num (drun f64_num bounds t ss) s) as (_ & _ & _ & _ & _ & _ & E7).
    rewrite E7. change (n_ltb f64_num) with f_ltb. clear E7.
    set (m := d_max (drun f64_num bounds t ss)) in *.
    destruct (f_ltb m (s_value s)) eqn:E.
    + apply f_ltb_num in E; auto. destruct E as (_ & Ns & E).
      split; [assumption|]. split; [assumption|]. split; [right; apply in_app_iff; right; now left|].
      split; [lia|]. intros v Hin Nv. apply in_app_iff in Hin. destruct Hin as [Hin|[<-|[]]].
      * specialize (Am v Hin Nv). lia.
      * lia.
    + split; [assumption|]. split; [assumption|].
      split; [destruct Cm; [now left|right; apply in_app_iff; now left]|].
      split; [lia|]. intros v Hin Nv. apply in_app_iff in Hin. destruct Hin as [Hin|[<-|[]]].
      * auto.
      * apply f_ltb_false in E; auto.
Qed.

(** ** Welford's recurrence in exact arithmetic *)

Open Scope Q_scope.

Lemma q_sum_app a b : q_sum (a ++ b) == q_sum a + q_sum b.
Proof. unfold q_sum. induction a as [|x a IH]; simpl; [ring|]. rewrite IH. ring. Qed.

Definition q_sq (l : list Q) : Q := q_sum (map (fun x => x * x) l).

Lemma q_sq_app a b : q_sq (a ++ b) == q_sq a + q_sq b.
Proof. unfold q_sq. rewrite map_app. apply q_sum_app. Qed.

Lemma q_sum_one x : q_sum [x] == x.
Proof. unfold q_sum. simpl. ring. Qed.

Lemma q_sq_one x : q_sq [x] == x * x.
Proof. unfold q_sq. simpl map. apply q_sum_one. Qed.

Lemma q_len_app a x : q_len (a ++ [x]) == q_len a + 1.
Proof.
  unfold q_len. rewrite app_length. simpl length. rewrite Nat2Z.inj_add, inject_Z_plus. reflexivity.
Qed.

Lemma q_len_pos l : l <> [] -> 0 < q_len l.
Proof.
  intros H. unfold q_len. change 0 with (inject_Z 0). rewrite <- Zlt_Qlt.
  destruct l; [congruence|simpl; lia].
Qed.

Lemma q_sq_dev_alt l : l <> [] -> q_sq_dev l == q_sq l - q_sum l * q_sum l / q_len l.
Proof.
  intros Hne. pose proof (q_len_pos l Hne) as Hp.
  assert (Hn : ~ q_len l == 0) by (intros E; rewrite E in Hp; now apply Qlt_irrefl in Hp).
  assert (G : forall m, q_sum (map (fun x => (x - m) * (x - m)) l) ==
                        q_sq l - 2 * m * q_sum l + q_len l * m * m).
  { intros m. unfold q_sq. clear. induction l as [|x l IH].
    - unfold q_len, q_sum. simpl. ring.
    - simpl. unfold q_sum in *. simpl. rewrite IH.
      unfold q_len. simpl length. rewrite Nat2Z.inj_succ. unfold Z.succ. rewrite inject_Z_plus.
      change (inject_Z 1) with 1. ring. }
  unfold q_sq_dev. rewrite G. unfold q_mean. field. exact Hn.
Qed.

Lemma drun_welford bounds t (ss : list (sample q_num)) :
  ss <> [] -> (Z.of_nat (length ss) < 2 ^ 63)%Z ->
  let d := drun q_num bounds t ss in
  let xs := values ss in
  d_mean d == q_mean xs /\ d_ssd d == q_sq xs - q_sum xs * q_sum xs / q_len xs.
Proof.
  cbv zeta. induction ss as [|s ss IH] using rev_ind; intros Hne Hlen; [congruence|].
  rewrite drun_snoc. destruct (drun_shape q_num bounds t ss) as (_ & _ & C & _). cbv zeta in C.
  rewrite app_length in Hlen. simpl length in Hlen.
  unfold dist_add. cbv zeta. rewrite C, int64_of_idem_add.
  rewrite int64_of_small by lia.
  destruct ss as [|s0 ss'].
  - change ((Z.of_nat (@length (sample q_num) []) + 1 =? 1)%Z) with true. cbv iota.
    cbn [d_mean d_ssd add_to_bucket app values map].
    unfold q_mean, q_sq, q_sum, q_len, drun. cbn [map fold_right length].
    generalize (s_value s). intros x. change Q in x. cbn [fold_left new_distribution_data d_ssd n_zero q_num].
    change (Z.of_nat 1) with 1%Z. split; field.
  - remember (s0 :: ss') as ss1 eqn:E1.
    assert (Hne1 : ss1 <> []) by (subst; discriminate).
    specialize (IH Hne1 ltac:(lia)). destruct IH as [IHm IHs].
    replace (Z.of_nat (length ss1) + 1 =? 1)%Z with false by (subst ss1; simpl; lia).
    cbn [d_mean d_ssd add_to_bucket]. cbn [n_add n_sub n_mul n_div n_of_int q_num].
    assert (Hv : values ss1 <> []) by (subst ss1; discriminate).
    pose proof (q_len_pos _ Hv) as Hp.
    assert (Hn : ~ q_len (values ss1) == 0) by (intros E; rewrite E in Hp; now apply Qlt_irrefl in Hp).
    assert (Hn1 : ~ q_len (values ss1) + 1 == 0).
    { intros E. assert (0 < q_len (values ss1) + 1).
      { apply Qlt_trans with (q_len (values ss1)); [exact Hp|].
        rewrite <- (Qplus_0_r (q_len (values ss1))) at 1. apply Qplus_lt_r. reflexivity. }
      rewrite E in H. now apply Qlt_irrefl in H. }
    assert (Hcnt : inject_Z (Z.of_nat (length ss1) + 1) == q_len (values ss1) + 1).
    { unfold q_len, values. rewrite map_length, inject_Z_plus. reflexivity. }
    unfold values in *. rewrite map_app. cbn [map].
    unfold q_mean in *. rewrite q_sum_app, q_sq_app, q_len_app, q_sum_one, q_sq_one.
    rewrite Hcnt.
    change (list (n_t q_num)) with (list Q) in *.
    set (x := s_value s : Q) in *. change (s_value s) with x.
    set (l := map s_value ss1 : list Q) in *.
    split.
    + rewrite IHm. field. split; assumption.
    + rewrite IHm, IHs. field. split; assumption.
Qed.
