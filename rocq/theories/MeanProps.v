(** C10, in float64: the mean of a distribution stays between its samples, the squared
    deviation is never negative, and how far the mean and the sum may be off. *)

From Coq Require Import List ZArith Reals Bool Lia Lra ZifyBool ZifyNat.
From Coq Require Import Floats.SpecFloat.
From Flocq Require Import Core.Core IEEE754.BinarySingleNaN.
From Verif Require Import Base Float64 AggModel AggSpec AggProofs FloatAdd FloatDiv FloatErr SamplerProps RowEqualProps IntSumProps MeanSpec MeanProofs.
Import ListNotations.
Open Scope Z_scope.

Lemma nil_dec {A} (l : list A) : {l = []} + {l <> []}.
Proof. destruct l; [left; reflexivity|right; discriminate]. Qed.

Lemma bpow1074 : (0 < bpow radix2 1074)%R. Proof. apply bpow_gt_0. Qed.

Lemma num_le (x y : b64) : is_finite x = true -> is_finite y = true -> (f_num (B2SF x) <= f_num (B2SF y) <-> (B2R x <= B2R y)%R).
Proof.
  intros Fx Fy. split; intros H.
  - apply IZR_le in H. rewrite !num_R in H by assumption. apply Rmult_le_reg_r in H; [exact H|apply bpow1074].
  - apply le_IZR. rewrite !num_R by assumption. apply Rmult_le_compat_r; [apply Rlt_le, bpow1074|exact H].
Qed.

Lemma modest_b v : modest v <-> exists b : b64, v = B2SF b /\ is_finite b = true /\ (Rabs (B2R b) <= bpow radix2 1022)%R.
Proof.
  assert (E : IZR (2 ^ 1022 * 2 ^ 1074) = (bpow radix2 1022 * bpow radix2 1074)%R).
  { rewrite mult_IZR, two1074. apply (f_equal (fun z => z * bpow radix2 1074)%R). change (2 ^ 1022)%Z with (radix2 ^ 1022)%Z. apply (IZR_Zpower radix2). lia. }
  split.
  - intros (V & N & L). destruct (to_b v V) as [b ->]. exists b. split; [reflexivity|].
    assert (Fb : is_finite b = true).
    { destruct b as [s|s| |s m e H]; try reflexivity; [|discriminate N]. exfalso. unfold f_num in L. cbn [B2SF] in L. destruct s; lia. }
    split; [exact Fb|]. apply IZR_le in L. rewrite abs_IZR, num_R, E in L by exact Fb.
    rewrite Rabs_mult, (Rabs_pos_eq (bpow radix2 1074)) in L by apply bpow_ge_0. apply Rmult_le_reg_r in L; [exact L|apply bpow1074].
  - intros (b & -> & Fb & H). split; [apply valid_binary_B2SF|]. split; [destruct b; try discriminate Fb; reflexivity|].
    apply le_IZR. rewrite abs_IZR, num_R, E, Rabs_mult, (Rabs_pos_eq (bpow radix2 1074)) by (try exact Fb; apply bpow_ge_0).
    apply Rmult_le_compat_r; [apply bpow_ge_0|exact H].
Qed.

Lemma exact_sum_snoc l v : exact_sum (l ++ [v]) = exact_sum l + f_num v.
Proof. unfold exact_sum. rewrite map_app, fold_right_app. cbn [map fold_right]. induction (map f_num l) as [|x r IH]; cbn [fold_right]; lia. Qed.

(** One step of the mean, in units of 2^-1074. *)
Lemma step_num (m v c : b64) n M : is_finite m = true -> is_finite v = true -> is_finite (bmean m v c) = true ->
  B2R (bmean m v c) = rnd (B2R m + rnd (rnd (B2R v - B2R m) / B2R c)) -> B2R c = IZR n -> 2 <= n ->
  Z.abs (f_num (B2SF m)) <= M -> Z.abs (f_num (B2SF v)) <= M ->
  2 ^ 53 * Z.abs (n * f_num (B2SF (bmean m v c)) - ((n - 1) * f_num (B2SF m) + f_num (B2SF v))) <= (n + 5) * M + (n + 1) * 2 ^ 53.
Proof.
  intros Fm Fv Fs Rs Rc Hn Bm Bv. set (P := bpow radix2 1074). assert (P0 : (0 < P)%R) by apply bpow1074.
  assert (B : forall b : b64, is_finite b = true -> Z.abs (f_num (B2SF b)) <= M -> (Rabs (B2R b) <= IZR M / P)%R).
  { intros b Fb Hb. apply IZR_le in Hb. rewrite abs_IZR, num_R, Rabs_mult, (Rabs_pos_eq (bpow radix2 1074)) in Hb by (try exact Fb; apply bpow_ge_0). fold P in Hb.
    apply Rmult_le_reg_r with P; [exact P0|]. replace (IZR M / P * P)%R with (IZR M) by (field; lra). exact Hb. }
  assert (Hn' : (2 <= IZR n)%R) by (apply IZR_le; exact Hn).
  pose proof (new_mean_error (B2R v) (B2R m) (IZR n) (IZR M / P) (b2r_fmt v) (b2r_fmt m) Hn' (B v Fv Bv) (B m Fm Bm)) as E.
  rewrite <- Rc, <- Rs, Rc in E. apply le_IZR.
  rewrite mult_IZR, abs_IZR, minus_IZR, mult_IZR, !plus_IZR, !mult_IZR, !plus_IZR, minus_IZR, !num_R by assumption. fold P.
  replace (IZR n * (B2R (bmean m v c) * P) - ((IZR n - 1) * (B2R m * P) + B2R v * P))%R with ((IZR n * B2R (bmean m v c) - ((IZR n - 1) * B2R m + B2R v)) * P)%R by ring.
  rewrite Rabs_mult, (Rabs_pos_eq P) by lra.
  apply Rmult_le_compat_r with (r := P) in E; [|lra].
  assert (T : IZR (2 ^ 53) = bpow radix2 53) by (change (2 ^ 53)%Z with (radix2 ^ 53)%Z; apply (IZR_Zpower radix2); lia).
  rewrite T. apply Rle_trans with (bpow radix2 53 * (((IZR n + 5) * (IZR M / P * bpow radix2 (-53)) + (2 * IZR n + 2) * bpow radix2 (-1075)) * P))%R.
  { apply Rmult_le_compat_l; [apply bpow_ge_0|exact E]. }
  assert (H1 : (bpow radix2 (-1075) * P = / 2)%R) by (unfold P; rewrite <- bpow_plus; reflexivity).
  assert (H2 : (bpow radix2 53 * bpow radix2 (-53) = 1)%R) by (rewrite <- bpow_plus; reflexivity).
  apply Req_le. replace (bpow radix2 53 * (((IZR n + 5) * (IZR M / P * bpow radix2 (-53)) + (2 * IZR n + 2) * bpow radix2 (-1075)) * P))%R
    with ((IZR n + 5) * (IZR M * (bpow radix2 53 * bpow radix2 (-53))) + (2 * IZR n + 2) * (bpow radix2 (-1075) * P) * bpow radix2 53)%R by (field; lra).
  rewrite H1, H2. lra.
Qed.

Lemma drun_mean bounds t (ss : list (sample f64_num)) : ss <> [] -> Forall modest (values ss) -> Z.of_nat (length ss) <= 2 ^ 53 ->
  exists m s : b64, d_mean (drun f64_num bounds t ss) = B2SF m /\ d_ssd (drun f64_num bounds t ss) = B2SF s /\
    is_finite m = true /\ (Rabs (B2R m) <= bpow radix2 1022)%R /\ nonneg s /\
    (exists v w, In v (values ss) /\ In w (values ss) /\ f_num v <= f_num (B2SF m) <= f_num w) /\
    (forall M, (forall v, In v (values ss) -> Z.abs (f_num v) <= M) ->
       let n := Z.of_nat (length ss) in 2 ^ 54 * Z.abs (n * f_num (B2SF m) - exact_sum (values ss)) <= n * (n + 11) * (M + 2 ^ 53)).
Proof.
  induction ss as [|x ss IH] using rev_ind; [congruence|]. intros _ HF HL. rewrite drun_snoc.
  assert (EV : values (ss ++ [x]) = values ss ++ [s_value x]) by (unfold values; apply map_app). rewrite EV in *. clear EV.
  apply Forall_app in HF. destruct HF as [HF Hx]. inversion Hx as [|? ? Hx1 _]; subst. clear Hx.
  pose proof (drun_shape f64_num bounds t ss) as (_ & _ & HC & _). rewrite app_length in *. cbn [length] in *.
  destruct (proj1 (modest_b _) Hx1) as (v & Ev & Fv & Bv).
  assert (CNT : int64_of (d_count (drun f64_num bounds t ss) + 1) = Z.of_nat (length ss) + 1).
  { rewrite HC. rewrite (int64_of_small (Z.of_nat (length ss))) by lia. apply int64_of_small. lia. }
  unfold dist_add. rewrite CNT. cbv zeta. cbn [add_to_bucket d_mean d_ssd d_count].
  destruct (nil_dec ss) as [->|NE].
  - cbn [length]. change (Z.of_nat 0 + 1 =? 1) with true. cbn [d_mean d_ssd]. exists v, (B754_zero false).
    split; [exact Ev|]. split; [reflexivity|]. split; [exact Fv|]. split; [exact Bv|]. split; [cbn; apply Rle_refl|]. split.
    + exists (s_value x), (s_value x). rewrite <- Ev. cbn. auto using Z.le_refl.
    + intros M HM. cbv zeta. rewrite <- Ev. change (exact_sum (values [] ++ [s_value x])) with (f_num (s_value x) + 0).
      specialize (HM (s_value x) (or_introl eq_refl)). change (Z.of_nat (0 + 1)) with 1.
      replace (1 * f_num (s_value x) - (f_num (s_value x) + 0)) with 0 by lia. change (Z.abs 0) with 0. pose proof (Z.abs_nonneg (f_num (s_value x))). lia.
  - destruct (IH NE HF ltac:(lia)) as (m & s & Em & Es & Fm & Bm & Ns & (lo & hi & Ilo & Ihi & Lo & Hi) & Err).
    assert (LEN : (1 <= length ss)%nat) by (destruct ss; [congruence|cbn; lia]).
    destruct (Z.eqb_spec (Z.of_nat (length ss) + 1) 1) as [X|_]; [lia|]. cbn [d_mean d_ssd].
    change (n_add f64_num) with f_add. change (n_sub f64_num) with f_sub. change (n_mul f64_num) with f_mul. change (n_div f64_num) with f_div. change (n_of_int f64_num) with f_of_Z.
    set (n := Z.of_nat (length ss) + 1) in *.
    destruct (int_b n ltac:(lia)) as (c & Ec & Fc & Rc & _).
    rewrite Em, Es, Ev, Ec, f_sub_equiv, f_div_equiv, f_add_equiv. fold (bmean m v c). rewrite f_sub_equiv, f_times_equiv, f_add_equiv.
    assert (Hc : (2 <= B2R c)%R) by (rewrite Rc; apply IZR_le; lia).
    destruct (bmean_R m v c Fm Fv Bm Bv Hc) as (Fs & Rs & _).
    destruct (new_mean_between (B2R v) (B2R m) (B2R c) (b2r_fmt v) (b2r_fmt m) Hc) as [_ W]. rewrite <- Rs in W.
    exists (bmean m v c), (b_add s (b_times (b_sub v m) (b_sub v (bmean m v c)))).
    split; [reflexivity|]. split; [reflexivity|]. split; [exact Fs|]. split; [exact (between_abs _ _ _ _ W Bm Bv)|].
    split; [apply nonneg_add; [exact Ns|apply bssd_term; assumption]|]. split.
    + destruct W as [[W1 W2]|[W1 W2]]; apply num_le in W1, W2; try assumption.
      * exists lo, (B2SF v). split; [apply in_or_app; left; exact Ilo|]. split; [apply in_or_app; right; left; reflexivity|]. lia.
      * exists (B2SF v), hi. split; [apply in_or_app; right; left; reflexivity|]. split; [apply in_or_app; left; exact Ihi|]. lia.
    + intros M HM. cbv zeta. replace (Z.of_nat (length ss + 1)) with n by lia. rewrite exact_sum_snoc.
      assert (HM1 : forall v, In v (values ss) -> Z.abs (f_num v) <= M) by (intros; apply HM, in_or_app; left; assumption).
      specialize (Err M HM1). cbv zeta in Err. replace (Z.of_nat (length ss)) with (n - 1) in Err by lia.
      assert (HMx : Z.abs (f_num (B2SF v)) <= M) by (apply HM, in_or_app; right; left; reflexivity).
      assert (HMm : Z.abs (f_num (B2SF m)) <= M) by (pose proof (HM1 lo Ilo); pose proof (HM1 hi Ihi); lia).
      pose proof (step_num m v c n M Fm Fv Fs Rs Rc ltac:(lia) HMm HMx) as ST.
      set (A := n * f_num (B2SF (bmean m v c)) - ((n - 1) * f_num (B2SF m) + f_num (B2SF v))) in *.
      set (B := (n - 1) * f_num (B2SF m) - exact_sum (values ss)) in *.
      replace (n * f_num (B2SF (bmean m v c)) - (exact_sum (values ss) + f_num (B2SF v))) with (A + B) by (unfold A, B; ring).
      pose proof (Z.abs_triangle A B). assert (0 <= M) by lia. clearbody A B. change (2 ^ 54) with (2 * 2 ^ 53) in *. nia.
Qed.

(** The mean of any samples (of size at most 2^1022, and at most 2^53 of them) is a number
    between the least and the greatest of them: so, if all are equal, it is that value. *)
Theorem C10_mean_bounds bounds t (ss : list (sample f64_num)) d :
  ss <> [] -> Forall modest (values ss) -> Z.of_nat (length ss) <= 2 ^ 53 ->
  aggregate (AggDist bounds) t ss = DistD d ->
  modest (d_mean d) /\
  exists v w, In v (values ss) /\ In w (values ss) /\ f_num v <= f_num (d_mean d) <= f_num w.
Proof.
  intros NE HF HL E. rewrite run_dist in E. injection E as <-.
  destruct (drun_mean bounds t ss NE HF HL) as (m & s & -> & _ & Fm & Bm & _ & W & _). split; [|exact W].
  apply modest_b. exists m. auto.
Qed.

(** It lies between the minimum and the maximum the row shows. *)
Theorem C10_mean_min_max bounds t (ss : list (sample f64_num)) d :
  ss <> [] -> Forall modest (values ss) -> Z.of_nat (length ss) <= 2 ^ 53 ->
  aggregate (AggDist bounds) t ss = DistD d ->
  f_num (d_min d) <= f_num (d_mean d) <= f_num (d_max d).
Proof.
  intros NE HF HL E. destruct (C10_mean_bounds bounds t ss d NE HF HL E) as (_ & v & w & Iv & Iw & L & U).
  rewrite run_dist in E. injection E as <-. rewrite Forall_forall in HF.
  assert (V : Forall f_valid (values ss)) by (apply Forall_forall; intros y Hy; apply (HF y Hy)).
  destruct (drun_min bounds t ss V) as (_ & _ & _ & _ & MN). destruct (drun_max bounds t ss V) as (_ & _ & _ & _ & MX).
  specialize (MN v Iv (proj1 (proj2 (HF v Iv)))). specialize (MX w Iw (proj1 (proj2 (HF w Iw)))). lia.
Qed.

(** How far the mean may be off: with n samples of size at most M it differs from the exact
    mean by at most (n + 11) 2^-54 (M + 2^-1021). *)
Theorem C10_mean_error bounds t (ss : list (sample f64_num)) d M :
  ss <> [] -> Forall modest (values ss) -> Z.of_nat (length ss) <= 2 ^ 53 ->
  (forall v, In v (values ss) -> Z.abs (f_num v) <= M) ->
  aggregate (AggDist bounds) t ss = DistD d ->
  let n := Z.of_nat (length ss) in
  2 ^ 54 * Z.abs (n * f_num (d_mean d) - exact_sum (values ss)) <= n * (n + 11) * (M + 2 ^ 53).
Proof.
  intros NE HF HL HM E. rewrite run_dist in E. injection E as <-.
  destruct (drun_mean bounds t ss NE HF HL) as (m & s & -> & _ & _ & _ & _ & _ & Err). exact (Err M HM).
Qed.

(** The sum of squared deviations is a number or +Inf, and never negative. *)
Theorem C10_ssd_nonneg bounds t (ss : list (sample f64_num)) d :
  Forall modest (values ss) -> Z.of_nat (length ss) <= 2 ^ 53 ->
  aggregate (AggDist bounds) t ss = DistD d ->
  f_valid (d_ssd d) /\ is_nan (d_ssd d) = false /\ 0 <= f_num (d_ssd d).
Proof.
  intros HF HL E. rewrite run_dist in E. injection E as <-. destruct (nil_dec ss) as [->|NE].
  - split; [reflexivity|]. split; [reflexivity|]. vm_compute. congruence.
  - destruct (drun_mean bounds t ss NE HF HL) as (m & s & _ & -> & _ & _ & N & _). split; [apply valid_binary_B2SF|].
    destruct s as [b|b| |b mm e B]; cbn in N; try contradiction.
    + split; [reflexivity|]. apply Z.le_refl.
    + subst b. split; [reflexivity|]. unfold f_num. cbn [B2SF]. lia.
    + split; [reflexivity|]. apply le_IZR. rewrite num_R by reflexivity. apply Rmult_le_pos; [exact N|apply bpow_ge_0].
Qed.

(** How far the sum the row and its metric show may be off. *)
Theorem C10_sum_error bounds t (ss : list (sample f64_num)) d M :
  ss <> [] -> Forall modest (values ss) -> Z.of_nat (length ss) <= 2 ^ 53 ->
  (forall v, In v (values ss) -> Z.abs (f_num v) <= M) -> M <= 2 ^ 970 * 2 ^ 1074 ->
  aggregate (AggDist bounds) t ss = DistD d ->
  let n := Z.of_nat (length ss) in
  f_valid (dist_sum d) /\ is_nan (dist_sum d) = false /\
  2 ^ 54 * Z.abs (f_num (dist_sum d) - exact_sum (values ss)) <= n * (n + 13) * (M + 2 ^ 53).
Proof.
  intros NE HF HL HM Mx E. cbv zeta. rewrite run_dist in E. injection E as <-.
  pose proof (drun_shape f64_num bounds t ss) as (_ & _ & HC & _). unfold dist_sum. rewrite HC, int64_of_small by lia. clear HC.
  destruct (drun_mean bounds t ss NE HF HL) as (m & s & -> & _ & Fm & Bm & _ & (lo & hi & Ilo & Ihi & Lo & Hi) & Err). specialize (Err M HM). cbv zeta in Err.
  assert (Nm : Z.abs (f_num (B2SF m)) <= M) by (pose proof (HM lo Ilo); pose proof (HM hi Ihi); lia).
  assert (LEN : (1 <= length ss)%nat) by (destruct ss; [congruence|cbn; lia]).
  set (n := Z.of_nat (length ss)) in *. change (n_mul f64_num) with f_mul. change (n_of_int f64_num) with f_of_Z.
  destruct (int_b n ltac:(lia)) as (c & Ec & Fc & Rc & _). rewrite Ec, f_times_equiv.
  set (P := bpow radix2 1074). assert (P0 : (0 < P)%R) by apply bpow1074.
  assert (EP : (Rabs (B2R m * B2R c) * P = IZR (n * Z.abs (f_num (B2SF m))))%R).
  { rewrite mult_IZR, abs_IZR, num_R, Rabs_mult, Rabs_mult, Rc, (Rabs_pos_eq (bpow radix2 1074)), (Rabs_pos_eq (IZR n)) by (try exact Fm; try apply bpow_ge_0; apply IZR_le; lia). fold P. ring. }
  destruct (f_mul_R m c 1023 Fm Fc ltac:(lia)) as [Fs Rs].
  { apply Rmult_le_reg_r with P; [exact P0|]. rewrite EP. apply Rle_trans with (IZR (2 ^ 1023 * 2 ^ 1074)).
    - apply IZR_le. change (2 ^ 1023) with (2 ^ 53 * 2 ^ 970). nia.
    - rewrite mult_IZR, two1074. fold P. apply Rmult_le_compat_r; [lra|]. apply Req_le. change (2 ^ 1023)%Z with (radix2 ^ 1023)%Z. apply (IZR_Zpower radix2). lia. }
  split; [apply valid_binary_B2SF|]. split; [destruct (b_times m c); try discriminate Fs; reflexivity|].
  assert (ST : 2 ^ 54 * Z.abs (f_num (B2SF (b_times m c)) - n * f_num (B2SF m)) <= 2 * (n * M) + 2 ^ 53).
  { apply le_IZR. rewrite mult_IZR, abs_IZR, minus_IZR, mult_IZR, !num_R by assumption. fold P. rewrite Rs.
    replace (rnd (B2R m * B2R c) * P - IZR n * (B2R m * P))%R with ((rnd (B2R m * B2R c) - B2R m * B2R c) * P)%R by (rewrite Rc; ring).
    rewrite Rabs_mult, (Rabs_pos_eq P) by lra. pose proof (rnd_err (B2R m * B2R c)) as RE. apply Rmult_le_compat_r with (r := P) in RE; [|lra].
    rewrite Rmult_plus_distr_r in RE. replace (Rabs (B2R m * B2R c) * bpow radix2 (-53) * P)%R with (Rabs (B2R m * B2R c) * P * bpow radix2 (-53))%R in RE by ring.
    rewrite EP in RE. assert (H1 : (bpow radix2 (-1075) * P = / 2)%R) by (unfold P; rewrite <- bpow_plus; reflexivity). rewrite H1 in RE.
    assert (T : IZR (2 ^ 54) = bpow radix2 54) by (change (2 ^ 54)%Z with (radix2 ^ 54)%Z; apply (IZR_Zpower radix2); lia).
    assert (H2 : (bpow radix2 54 * bpow radix2 (-53) = 2)%R) by (rewrite <- bpow_plus; reflexivity).
    apply Rmult_le_compat_l with (r := bpow radix2 54) in RE; [|apply bpow_ge_0]. rewrite T. eapply Rle_trans; [exact RE|].
    rewrite Rmult_plus_distr_l. replace (bpow radix2 54 * (IZR (n * Z.abs (f_num (B2SF m))) * bpow radix2 (-53)))%R with (IZR (n * Z.abs (f_num (B2SF m))) * (bpow radix2 54 * bpow radix2 (-53)))%R by ring.
    rewrite H2, <- T. replace (IZR (2 ^ 54) * / 2)%R with (IZR (2 ^ 53)) by (change (2 ^ 54) with (2 ^ 53 * 2); rewrite mult_IZR; field).
    rewrite (Rmult_comm _ 2), <- mult_IZR, <- plus_IZR. apply IZR_le. nia. }
  set (A := f_num (B2SF (b_times m c)) - n * f_num (B2SF m)) in *. set (B := n * f_num (B2SF m) - exact_sum (values ss)) in *.
  replace (f_num (B2SF (b_times m c)) - exact_sum (values ss)) with (A + B) by (unfold A, B; ring).
  pose proof (Z.abs_triangle A B). assert (0 <= M) by lia. clearbody A B. nia.
Qed.

Definition smp (v : f64) : sample f64_num := {| s_value := v; s_time := 0; s_att := [] |}.

(** Integers are not summed exactly: after 0, 1 and 6 the sum shown is less than 7, and an
    int64 made of it is 6. *)
Theorem C10_sum_refuted : exists ss d, values ss = [f_of_Z 0; f_of_Z 1; f_of_Z 6] /\
  aggregate (AggDist []) 0 ss = DistD d /\ f_ltb (dist_sum d) (f_of_Z 7) = true /\ f_to_int (dist_sum d) = 6.
Proof.
  exists [smp (f_of_Z 0); smp (f_of_Z 1); smp (f_of_Z 6)]. eexists. split; [reflexivity|]. rewrite run_dist. split; [reflexivity|].
  vm_compute. auto.
Qed.

(** Beyond 2^1022 the mean may be infinite, although the samples are not, and then NaN for
    ever. *)
Theorem C10_mean_refuted : exists v, f_valid v /\ is_nan v = false /\ Z.abs (f_num v) < 2 ^ 2098 /\
  exists d, aggregate (AggDist []) 0 [smp v; smp (f_sub f_zero v)] = DistD d /\ d_mean d = S754_infinity true /\
  exists d', aggregate (AggDist []) 0 [smp v; smp (f_sub f_zero v); smp v] = DistD d' /\ d_mean d' = S754_nan /\ d_ssd d' = S754_nan.
Proof.
  exists (S754_finite false (3 * 2 ^ 51) 971). split; [reflexivity|]. split; [reflexivity|]. split; [vm_compute; reflexivity|].
  eexists. split; [rewrite run_dist; reflexivity|]. split; [vm_compute; reflexivity|].
  eexists. split; [rewrite run_dist; reflexivity|]. split; vm_compute; reflexivity.
Qed.

(** The hypotheses are met, for instance, by 0.1, 0.2 (as float64) and -3. *)
Example mean_case : let vs := [S754_finite false 7205759403792794 (-56); S754_finite false 7205759403792794 (-55); f_of_Z (-3)] in
  Forall modest vs /\ (forall v, In v vs -> Z.abs (f_num v) <= 3 * 2 ^ 1074) /\ 3 * 2 ^ 1074 <= 2 ^ 970 * 2 ^ 1074.
Proof.
  cbv zeta. split; [|split].
  - repeat constructor; vm_compute; congruence.
  - intros v [<-|[<-|[<-|[]]]]; vm_compute; congruence.
  - vm_compute. congruence.
Qed.

Print Assumptions C10_mean_bounds.
Print Assumptions C10_mean_min_max.
Print Assumptions C10_mean_error.
Print Assumptions C10_ssd_nonneg.
Print Assumptions C10_sum_error.
Print Assumptions C10_sum_refuted.
Print Assumptions C10_mean_refuted.
