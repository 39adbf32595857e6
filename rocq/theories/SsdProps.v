(** C10, in float64: how far the sum of squared deviations may be off. *)

From Coq Require Import List ZArith Reals Bool Lia Lra ZifyBool ZifyNat.
From Coq Require Import Floats.SpecFloat.
From Flocq Require Import Core.Core IEEE754.BinarySingleNaN.
From Verif Require Import Base Float64 AggModel AggSpec AggProofs FloatAdd FloatDiv FloatErr SamplerProps RowEqualProps IntSumProps MeanSpec SsdSpec MeanProofs MeanProps SsdProofs.
Import ListNotations.
Open Scope Z_scope.

Definition sum_sq (vs : list f64) : Z := fold_right Z.add 0 (map (fun v => f_num v * f_num v) vs).

Lemma sum_sq_snoc l v : sum_sq (l ++ [v]) = sum_sq l + f_num v * f_num v.
Proof. unfold sum_sq. rewrite map_app, fold_right_app. cbn [map fold_right]. induction (map (fun w => f_num w * f_num w) l) as [|x r IH]; cbn [fold_right]; lia. Qed.

Lemma squares_eq vs : let n := Z.of_nat (length vs) in exact_squares vs = n * (n * sum_sq vs - exact_sum vs * exact_sum vs).
Proof.
  cbv zeta. unfold exact_squares. set (n := Z.of_nat (length vs)). set (S := exact_sum vs).
  assert (G : forall l, fold_right Z.add 0 (map (fun v => (n * f_num v - S) ^ 2) l) = n * n * sum_sq l - 2 * n * S * exact_sum l + Z.of_nat (length l) * (S * S)).
  { induction l as [|x l IH]; [unfold sum_sq, exact_sum; cbn; ring|].
    change (map (fun v => (n * f_num v - S) ^ 2) (x :: l)) with ((n * f_num x - S) ^ 2 :: map (fun v => (n * f_num v - S) ^ 2) l). cbn [fold_right]. rewrite IH.
    change (sum_sq (x :: l)) with (f_num x * f_num x + sum_sq l). change (exact_sum (x :: l)) with (f_num x + exact_sum l).
    cbn [length]. rewrite Nat2Z.inj_succ. ring. }
  rewrite G. fold n S. ring.
Qed.

Section Run.
Variable M : Z.
Hypothesis M0 : 0 <= M.
Hypothesis Mx : M <= 2 ^ 480 * 2 ^ 1074.
Let P : R := bpow radix2 1074.
Let W : R := (IZR M / P + bpow radix2 (-1021))%R.

Lemma P_pos : (0 < P)%R. Proof. apply bpow1074. Qed.

Lemma Mr_le : (0 <= IZR M / P <= bpow radix2 480)%R.
Proof.
  pose proof P_pos. split.
  - apply Rmult_le_pos; [apply IZR_le; exact M0|apply Rlt_le, Rinv_0_lt_compat; assumption].
  - apply Rmult_le_reg_r with P; [assumption|]. replace (IZR M / P * P)%R with (IZR M) by (field; lra).
    apply IZR_le in Mx. rewrite mult_IZR, two1074 in Mx. fold P in Mx.
    assert (T : IZR (2 ^ 480) = bpow radix2 480) by (change (2 ^ 480)%Z with (radix2 ^ 480)%Z; apply (IZR_Zpower radix2); lia). rewrite T in Mx. exact Mx.
Qed.

Lemma W_le : (0 <= W <= bpow radix2 481)%R.
Proof.
  pose proof Mr_le as [A B]. unfold W. pose proof (bpow_gt_0 radix2 (-1021)). split; [lra|].
  change 481%Z with (1 + 480)%Z. rewrite bpow_plus. change (bpow radix2 1) with 2%R.
  assert (bpow radix2 (-1021) <= bpow radix2 480)%R by (apply bpow_le; lia). lra.
Qed.

Lemma small_R (b : b64) : is_finite b = true -> Z.abs (f_num (B2SF b)) <= M -> (Rabs (B2R b) <= IZR M / P)%R.
Proof.
  intros Fb Hb. pose proof P_pos. apply IZR_le in Hb. rewrite abs_IZR, num_R, Rabs_mult, (Rabs_pos_eq (bpow radix2 1074)) in Hb by (try exact Fb; apply bpow_ge_0). fold P in Hb.
  apply Rmult_le_reg_r with P; [assumption|]. replace (IZR M / P * P)%R with (IZR M) by (field; lra). exact Hb.
Qed.

Lemma num_over (b : b64) : is_finite b = true -> (IZR (f_num (B2SF b)) / P = B2R b)%R.
Proof. intros Fb. pose proof P_pos. rewrite num_R by exact Fb. fold P. field. lra. Qed.

Lemma drun_ssd bounds t (ss : list (sample f64_num)) : ss <> [] -> Forall modest (values ss) -> Z.of_nat (length ss) <= 2 ^ 53 ->
  (forall v, In v (values ss) -> Z.abs (f_num v) <= M) ->
  exists m s : b64, d_mean (drun f64_num bounds t ss) = B2SF m /\ d_ssd (drun f64_num bounds t ss) = B2SF s /\
    is_finite m = true /\ is_finite s = true /\ (Rabs (B2R m) <= IZR M / P)%R /\
    ok W (IZR (Z.of_nat (length ss))) (B2R m) (B2R s) (IZR (exact_sum (values ss)) / P) (IZR (sum_sq (values ss)) / (P * P)).
Proof.
  pose proof P_pos as P0. pose proof Mr_le as [Mr0 Mr1]. pose proof W_le as [W0 W1].
  assert (MW : (IZR M / P <= W)%R) by (unfold W; pose proof (bpow_ge_0 radix2 (-1021)); lra).
  induction ss as [|x ss IH] using rev_ind; [congruence|]. intros _ HF HL HM. rewrite drun_snoc.
  assert (EV : values (ss ++ [x]) = values ss ++ [s_value x]) by (unfold values; apply map_app). rewrite EV in *. clear EV.
  apply Forall_app in HF. destruct HF as [HF Hx]. inversion Hx as [|? ? Hx1 _]; subst. clear Hx.
  pose proof (drun_shape f64_num bounds t ss) as (_ & _ & HC & _). rewrite app_length in *. cbn [length] in *.
  destruct (proj1 (modest_b _) Hx1) as (v & Ev & Fv & _).
  assert (Bv : (Rabs (B2R v) <= IZR M / P)%R) by (apply small_R; [exact Fv|]; rewrite <- Ev; apply HM, in_or_app; right; left; reflexivity).
  assert (CNT : int64_of (d_count (drun f64_num bounds t ss) + 1) = Z.of_nat (length ss) + 1).
  { rewrite HC. rewrite (int64_of_small (Z.of_nat (length ss))) by lia. apply int64_of_small. lia. }
  rewrite exact_sum_snoc, sum_sq_snoc.
  unfold dist_add. rewrite CNT. cbv zeta. cbn [add_to_bucket d_mean d_ssd d_count].
  destruct (nil_dec ss) as [->|NE].
  - cbn [length]. change (Z.of_nat 0 + 1 =? 1) with true. cbn [d_mean d_ssd]. exists v, (B754_zero false).
    split; [exact Ev|]. split; [reflexivity|]. split; [exact Fv|]. split; [reflexivity|]. split; [exact Bv|].
    change (exact_sum (values []) + f_num (s_value x)) with (f_num (s_value x)). change (sum_sq (values []) + f_num (s_value x) * f_num (s_value x)) with (f_num (s_value x) * f_num (s_value x)).
    change (Z.of_nat (0 + 1)) with 1. rewrite Ev, mult_IZR, num_over by exact Fv.
    replace (IZR (f_num (B2SF v)) * IZR (f_num (B2SF v)) / (P * P))%R with (IZR (f_num (B2SF v)) / P * (IZR (f_num (B2SF v)) / P))%R by (field; lra). rewrite num_over by exact Fv.
    pose proof u_tiny as [U0 U1]. pose proof h_pos as H0. assert (WW : (0 <= W * W)%R) by (apply Rmult_le_pos; lra). assert (WU : (0 <= W * bpow radix2 (-53))%R) by (apply Rmult_le_pos; lra).
    assert (WWU : (0 <= W * W * bpow radix2 (-53))%R) by (apply Rmult_le_pos; lra).
    change (B2R (B754_zero false)) with 0%R. split; [split; [lra|]|split].
    + apply Rmult_le_pos; [|lra]. apply Rmult_le_pos; lra.
    + replace (1 * B2R v - B2R v)%R with 0%R by ring. rewrite Rabs_R0. lra.
    + replace (0 - (B2R v * B2R v - 2 * B2R v * B2R v + 1 * (B2R v * B2R v)))%R with 0%R by ring. rewrite Rabs_R0. lra.
  - assert (HM1 : forall v, In v (values ss) -> Z.abs (f_num v) <= M) by (intros; apply HM, in_or_app; left; assumption).
    destruct (IH NE HF ltac:(lia) HM1) as (m & s & Em & Es & Fm & Fs & Bm & OK).
    assert (LEN : (1 <= length ss)%nat) by (destruct ss; [congruence|cbn; lia]).
    destruct (Z.eqb_spec (Z.of_nat (length ss) + 1) 1) as [X|_]; [lia|]. cbn [d_mean d_ssd].
    change (n_add f64_num) with f_add. change (n_sub f64_num) with f_sub. change (n_mul f64_num) with f_mul. change (n_div f64_num) with f_div. change (n_of_int f64_num) with f_of_Z.
    replace (Z.of_nat (length ss + 1)) with (Z.of_nat (length ss) + 1) by lia.
    set (n := Z.of_nat (length ss) + 1) in *. replace (Z.of_nat (length ss)) with (n - 1) in OK by lia. rewrite minus_IZR in OK.
    destruct (int_b n ltac:(lia)) as (c & Ec & Fc & Rc & _).
    rewrite Em, Es, Ev, Ec, f_sub_equiv, f_div_equiv, f_add_equiv. fold (bmean m v c). rewrite f_sub_equiv, f_times_equiv, f_add_equiv.
    assert (Hn : (2 <= IZR n)%R) by (apply IZR_le; lia). assert (Hc : (2 <= B2R c)%R) by (rewrite Rc; exact Hn).
    assert (Hu : (IZR n * bpow radix2 (-53) <= 1)%R).
    { apply Rle_trans with (bpow radix2 53 * bpow radix2 (-53))%R; [|rewrite <- bpow_plus; apply Rle_refl]. apply Rmult_le_compat_r; [apply bpow_ge_0|].
      assert (T : IZR (2 ^ 53) = bpow radix2 53) by (change (2 ^ 53)%Z with (radix2 ^ 53)%Z; apply (IZR_Zpower radix2); lia). rewrite <- T. apply IZR_le. lia. }
    assert (L480 : (bpow radix2 480 <= bpow radix2 1022)%R) by (apply bpow_le; lia).
    destruct (bmean_R m v c Fm Fv ltac:(lra) ltac:(lra) Hc) as (Fm' & Rm' & Fa & Ra).
    destruct (new_mean_between (B2R v) (B2R m) (B2R c) (b2r_fmt v) (b2r_fmt m) Hc) as [_ BW]. rewrite <- Rm' in BW.
    pose proof (new_mean_error (B2R v) (B2R m) (B2R c) (IZR M / P) (b2r_fmt v) (b2r_fmt m) Hc Bv Bm) as NE'. rewrite <- Rm', Rc in NE'.
    pose proof (between_abs _ _ _ _ BW Bm Bv) as Bm'. set (m' := bmean m v c) in *.
    assert (L481 : forall x y : R, (Rabs x <= IZR M / P -> Rabs y <= IZR M / P -> Rabs (x - y) <= bpow radix2 481)%R).
    { intros a b Ha Hb. change 481%Z with (1 + 480)%Z. rewrite bpow_plus. change (bpow radix2 1) with 2%R. apply Rabs_le_inv in Ha, Hb. apply Rabs_le. lra. }
    destruct (f_minus_R v m' 481 Fv Fm' ltac:(lia) (L481 _ _ Bv Bm')) as [Fb Rb].
    destruct (term_err W (B2R v) (B2R m) (B2R m') (b2r_fmt v) (b2r_fmt m) (b2r_fmt m') ltac:(lra) ltac:(lra) ltac:(lra) BW) as (TE & [T0 T1] & TB). cbv zeta in *.
    assert (WW : (W * W <= bpow radix2 962)%R) by (change 962%Z with (481 + 481)%Z; rewrite bpow_plus; apply Rmult_le_compat; lra).
    assert (WW0 : (0 <= W * W)%R) by (apply Rmult_le_pos; lra).
    assert (B970 : (256 * bpow radix2 962 = bpow radix2 970)%R) by (change 970%Z with (8 + 962)%Z; rewrite bpow_plus; reflexivity).
    destruct (f_mul_R (b_sub v m) (b_sub v m') 970 Fa Fb ltac:(lia)) as [Ft Rt]; [rewrite Ra, Rb; lra|]. rewrite Ra, Rb in Rt. rewrite <- Rt in TE, T0, T1.
    set (tt := b_times (b_sub v m) (b_sub v m')) in *.
    assert (HP : (2 * bpow radix2 (-1075) = bpow radix2 (-1021) * bpow radix2 (-53))%R).
    { rewrite <- bpow_plus. change (-1021 + -53)%Z with (1 + -1075)%Z. rewrite (bpow_plus radix2 1). reflexivity. }
    assert (NE2 : (Rabs (IZR n * B2R m' - ((IZR n - 1) * B2R m + B2R v)) <= (IZR n + 5) * (W * bpow radix2 (-53)))%R).
    { eapply Rle_trans; [exact NE'|]. unfold W. pose proof h_pos as H0.
      replace ((IZR n + 5) * ((IZR M / P + bpow radix2 (-1021)) * bpow radix2 (-53)))%R
        with ((IZR n + 5) * (IZR M / P * bpow radix2 (-53)) + (IZR n + 5) * (bpow radix2 (-1021) * bpow radix2 (-53)))%R by ring.
      rewrite <- HP. lra. }
    pose proof OK as ((S0 & S1) & _).
    set (V1 := (IZR (exact_sum (values ss)) / P)%R) in *. set (V2 := (IZR (sum_sq (values ss)) / (P * P))%R) in *.
    assert (RS : forall s', (0 <= s')%R -> (Rabs (s' - (B2R s + B2R tt)) <= (B2R s + B2R tt) * bpow radix2 (-53) + bpow radix2 (-1075))%R ->
      ok W (IZR n) (B2R m') s' (V1 + B2R v) (V2 + B2R v * B2R v) /\ (B2R s + B2R tt <= 12 * (IZR n * (W * W)) + 6 * (IZR n * bpow radix2 (-1075)))%R).
    { intros s' S' HS. apply (step_ok W (IZR n) (B2R v) (B2R m) (B2R m') (B2R s) (B2R tt) s' V1 V2 W0 Hn Hu); try assumption; try lra. }
    pose proof (rnd_err (B2R s + B2R tt)) as RE. rewrite (Rabs_pos_eq (B2R s + B2R tt)) in RE by lra.
    assert (RP : (0 <= rnd (B2R s + B2R tt))%R) by (rewrite <- rnd_0; apply rnd_mono; lra).
    destruct (RS _ RP RE) as [OK' SB].
    destruct (f_plus_R s tt 1020 Fs Ft ltac:(lia)) as [Fs' Rs'].
    { rewrite Rabs_pos_eq by lra. eapply Rle_trans; [exact SB|].
      assert (N53 : (IZR n <= bpow radix2 53)%R).
      { assert (T : IZR (2 ^ 53) = bpow radix2 53) by (change (2 ^ 53)%Z with (radix2 ^ 53)%Z; apply (IZR_Zpower radix2); lia). rewrite <- T. apply IZR_le. lia. }
      assert (H1 : (IZR n * (W * W) <= bpow radix2 53 * bpow radix2 962)%R) by (apply Rmult_le_compat; lra).
      assert (H2 : (IZR n * bpow radix2 (-1075) <= bpow radix2 53 * bpow radix2 962)%R).
      { apply Rmult_le_compat; first [lra | apply bpow_ge_0 | apply bpow_le; lia]. }
      rewrite <- bpow_plus in H1, H2. change (53 + 962)%Z with 1015%Z in H1, H2.
      assert (H3 : (32 * bpow radix2 1015 = bpow radix2 1020)%R) by (change 1020%Z with (5 + 1015)%Z; rewrite bpow_plus; reflexivity).
      pose proof (bpow_gt_0 radix2 1015). lra. }
    exists m', (b_add s tt).
    split; [reflexivity|]. split; [reflexivity|]. split; [exact Fm'|]. split; [exact Fs'|]. split; [exact Bm'|].
    rewrite Rs', !plus_IZR, mult_IZR.
    replace ((IZR (exact_sum (values ss)) + IZR (f_num (B2SF v))) / P)%R with (V1 + IZR (f_num (B2SF v)) / P)%R by (unfold V1; field; lra).
    replace ((IZR (sum_sq (values ss)) + IZR (f_num (B2SF v)) * IZR (f_num (B2SF v))) / (P * P))%R with (V2 + IZR (f_num (B2SF v)) / P * (IZR (f_num (B2SF v)) / P))%R by (unfold V2; field; lra).
    rewrite num_over by exact Fv. exact OK'.
Qed.

End Run.

(** How far the sum of squared deviations may be off: with n samples of size at most M (and
    M at most 2^480) it is finite and differs from the exact one by at most
    n ((9 n + 79) 2^-53 (M + 2^-1021)^2 + 2^-1072). *)
Theorem C10_ssd_error bounds t (ss : list (sample f64_num)) d M :
  ss <> [] -> Forall modest (values ss) -> Z.of_nat (length ss) <= 2 ^ 53 ->
  (forall v, In v (values ss) -> Z.abs (f_num v) <= M) -> M <= 2 ^ 480 * 2 ^ 1074 ->
  aggregate (AggDist bounds) t ss = DistD d ->
  let n := Z.of_nat (length ss) in
  f_valid (d_ssd d) /\ is_nan (d_ssd d) = false /\ (forall b, d_ssd d <> S754_infinity b) /\
  2 ^ 53 * Z.abs (n ^ 2 * (f_num (d_ssd d) * 2 ^ 1074) - exact_squares (values ss)) <=
    n ^ 3 * ((9 * n + 79) * (M + 2 ^ 53) ^ 2 + 2 ^ 2 * 2 ^ 53 * 2 ^ 1074).
Proof.
  intros NE HF HL HM Mx E. cbv zeta. rewrite run_dist in E. injection E as <-.
  assert (LEN : (1 <= length ss)%nat) by (destruct ss; [congruence|cbn; lia]).
  assert (M0 : 0 <= M).
  { destruct ss as [|x ss']; [congruence|]. specialize (HM (s_value x) (or_introl eq_refl)). lia. }
  destruct (drun_ssd M M0 Mx bounds t ss NE HF HL HM) as (m & s & _ & -> & _ & Fs & _ & OK).
  split; [apply valid_binary_B2SF|]. split; [destruct s; try discriminate Fs; reflexivity|]. split; [intros b; destruct s; try discriminate Fs; discriminate|].
  set (P := bpow radix2 1074) in *. assert (P0 : (0 < P)%R) by apply bpow1074.
  pose proof (squares_eq (values ss)) as SQ. cbv zeta in SQ.
  match type of SQ with context [Z.of_nat ?x] => replace x with (length ss) in SQ by (unfold values; symmetry; apply map_length) end. rewrite SQ. clear SQ.
  set (n := Z.of_nat (length ss)) in *.
  assert (Hn : (1 <= IZR n)%R) by (apply IZR_le; lia).
  assert (Hu : (IZR n * bpow radix2 (-53) <= 1)%R).
  { apply Rle_trans with (bpow radix2 53 * bpow radix2 (-53))%R; [|rewrite <- bpow_plus; apply Rle_refl]. apply Rmult_le_compat_r; [apply bpow_ge_0|].
    assert (T : IZR (2 ^ 53) = bpow radix2 53) by (change (2 ^ 53)%Z with (radix2 ^ 53)%Z; apply (IZR_Zpower radix2); lia). rewrite <- T. apply IZR_le. lia. }
  apply ok_dev in OK; [|apply W_le; assumption|exact Hn|exact Hu].
  set (V1 := exact_sum (values ss)) in *. set (V2 := sum_sq (values ss)) in *.
  assert (KEY : 2 ^ 53 * Z.abs (n * (f_num (B2SF s) * 2 ^ 1074) - (n * V2 - V1 * V1)) <= n * n * ((9 * n + 79) * ((M + 2 ^ 53) * (M + 2 ^ 53)) + 4 * 2 ^ 53 * 2 ^ 1074)).
  { apply le_IZR. rewrite mult_IZR, abs_IZR, !minus_IZR, !mult_IZR, !plus_IZR, !mult_IZR, !plus_IZR, !mult_IZR, num_R, two1074 by exact Fs. fold P.
    assert (T : IZR (2 ^ 53) = bpow radix2 53) by (change (2 ^ 53)%Z with (radix2 ^ 53)%Z; apply (IZR_Zpower radix2); lia). rewrite T.
    assert (H1 : (bpow radix2 (-1075) * P = / 2)%R) by (unfold P; rewrite <- bpow_plus; reflexivity).
    assert (H2 : (bpow radix2 53 * bpow radix2 (-53) = 1)%R) by (rewrite <- bpow_plus; reflexivity).
    assert (H3 : (bpow radix2 (-1021) * P = bpow radix2 53)%R) by (unfold P; rewrite <- bpow_plus; reflexivity).
    apply Rmult_le_compat_l with (r := (bpow radix2 53 * (P * P))%R) in OK; [|apply Rmult_le_pos; [apply bpow_ge_0|apply Rmult_le_pos; lra]].
    replace (IZR n * (B2R s * P * P) - (IZR n * IZR V2 - IZR V1 * IZR V1))%R with ((IZR n * B2R s - (IZR n * (IZR V2 / (P * P)) - IZR V1 / P * (IZR V1 / P))) * (P * P))%R by (field; lra).
    rewrite Rabs_mult, (Rabs_pos_eq (P * P)) by (apply Rmult_le_pos; lra).
    eapply Rle_trans; [|eapply Rle_trans; [exact OK|]]; apply Req_le; [ring|].
    rewrite <- H3 at 2 3.
    replace (bpow radix2 53 * (P * P) * (IZR n * IZR n * ((9 * IZR n + 79) * ((IZR M / P + bpow radix2 (-1021)) * (IZR M / P + bpow radix2 (-1021)) * bpow radix2 (-53)) + 8 * bpow radix2 (-1075))))%R
      with (IZR n * IZR n * ((9 * IZR n + 79) * ((IZR M + bpow radix2 (-1021) * P) * (IZR M + bpow radix2 (-1021) * P) * (bpow radix2 53 * bpow radix2 (-53))) + 8 * bpow radix2 53 * (bpow radix2 (-1075) * P) * P))%R by (field; lra).
    rewrite H1, H2, !H3. field. }
  replace (n ^ 2 * (f_num (B2SF s) * 2 ^ 1074) - n * (n * V2 - V1 * V1)) with (n * (n * (f_num (B2SF s) * 2 ^ 1074) - (n * V2 - V1 * V1))) by (rewrite Z.pow_2_r; ring).
  rewrite Z.abs_mul, (Z.abs_eq n) by lia. change (2 ^ 2) with 4. rewrite !Z.pow_2_r. replace (n ^ 3) with (n * n * n) by ring.
  set (B := (9 * n + 79) * ((M + 2 ^ 53) * (M + 2 ^ 53)) + 4 * 2 ^ 53 * 2 ^ 1074) in *. set (A := Z.abs (n * (f_num (B2SF s) * 2 ^ 1074) - (n * V2 - V1 * V1))) in *. clearbody A B.
  replace (2 ^ 53 * (n * A)) with (n * (2 ^ 53 * A)) by ring. replace (n * n * n * B) with (n * (n * n * B)) by ring. apply Z.mul_le_mono_nonneg_l; lia.
Qed.

(** What [exact_squares] means: for 1, 2 and 6 the mean is 3 and the sum of the squared
    deviations 14, which is 126 over 9. *)
Example squares_case : exact_squares [f_of_Z 1; f_of_Z 2; f_of_Z 6] = 126 * (2 ^ 1074) ^ 2.
Proof. vm_compute. reflexivity. Qed.

Example ssd_case : exists d, aggregate (AggDist []) 0 [smp (f_of_Z 1); smp (f_of_Z 2); smp (f_of_Z 6)] = DistD d /\ d_ssd d = f_of_Z 14 /\
  Forall modest [f_of_Z 1; f_of_Z 2; f_of_Z 6].
Proof. eexists. split; [rewrite run_dist; reflexivity|]. split; [vm_compute; reflexivity|]. repeat constructor; vm_compute; congruence. Qed.

Print Assumptions C10_ssd_error.
