(** Rounding in Welford's method: one step.  Uses Flocq's proofs that the operations are
    correctly rounded; rests on the axioms of the standard library's real numbers. *)

From Coq Require Import ZArith Reals Bool Lia Lra.
From Coq Require Import Floats.SpecFloat.
From Flocq Require Import Core.Core IEEE754.BinarySingleNaN.
From Verif Require Import Base Float64 FloatAdd FloatDiv FloatErr RowEqualProps.
Open Scope R_scope.

Notation fmt := (generic_format radix2 (SpecFloat.fexp 53 1024)).
Notation u := (bpow radix2 (-53)).
Notation h := (bpow radix2 (-1075)).

Lemma u_small : 0 < u <= / 8.
Proof. split; [apply bpow_gt_0|]. change (/ 8) with (bpow radix2 (-3)). apply bpow_le. lia. Qed.
Lemma h_pos : 0 < h. Proof. apply bpow_gt_0. Qed.

Lemma VE' : Valid_exp (SpecFloat.fexp 53 1024).
Proof. apply FLT_exp_valid. reflexivity. Qed.

Lemma rnd_fmt x : fmt x -> rnd x = x.
Proof. intros H. apply round_generic; [apply valid_rnd_round_mode|exact H]. Qed.
Lemma rnd_0 : rnd 0 = 0.
Proof. apply round_0. apply valid_rnd_round_mode. Qed.
Lemma rnd_opp x : rnd (- x) = - rnd x.
Proof. apply round_NE_opp. Qed.

(** A difference of two numbers is a number itself, or not small. *)
Lemma diff_cases x y : fmt x -> fmt y -> fmt (x - y) \/ bpow radix2 (-1021) <= Rabs (x - y).
Proof.
  intros Hx Hy. destruct (Rle_or_lt (bpow radix2 (-1021)) (Rabs (x - y))) as [L|L]; [right; exact L|]. left.
  change fmt with (generic_format radix2 (FLT_exp (-1074) 53)) in *.
  apply generic_format_FLT_FIX; [reflexivity|apply Rlt_le; exact L|].
  apply generic_format_FIX_FLT in Hx, Hy. apply FIX_format_generic in Hx, Hy.
  destruct Hx as [fx Ex Lx], Hy as [fy Ey Ly]. apply generic_format_FIX.
  exists (Float radix2 (Fnum fx - Fnum fy) (-1074)); [|reflexivity].
  rewrite Ex, Ey. unfold F2R. cbn [Fnum Fexp]. rewrite Lx, Ly, minus_IZR. ring.
Qed.

Lemma mid_pos v m n : fmt v -> fmt m -> 2 <= n -> m <= v -> 0 <= rnd (rnd (v - m) / n) <= v - m.
Proof.
  intros Hv Hm Hn L. set (d := v - m) in *. assert (D0 : 0 <= d) by (unfold d; lra).
  assert (A0 : 0 <= rnd d) by (rewrite <- rnd_0; apply rnd_mono; exact D0).
  assert (Q : 0 <= rnd d / n <= rnd d / 2).
  { split; [apply Rmult_le_pos; [exact A0|apply Rlt_le, Rinv_0_lt_compat; lra]|]. apply Rmult_le_compat_l; [exact A0|]. apply Rinv_le; lra. }
  split; [rewrite <- rnd_0 at 1; apply rnd_mono; lra|].
  destruct (diff_cases v m Hv Hm) as [G|G]; fold d in G.
  - rewrite (rnd_fmt d G) in *. rewrite <- (rnd_fmt d G) at 2. apply rnd_mono. lra.
  - rewrite (Rabs_pos_eq d D0) in G. pose proof u_small as [U0 U1]. pose proof h_pos as H0.
    assert (Hd : h <= d / 8).
    { apply Rle_trans with (bpow radix2 (-1021) / 8); [|lra]. change (/ 8) with (bpow radix2 (-3)). unfold Rdiv. change (/ 8) with (bpow radix2 (-3)). rewrite <- bpow_plus. apply bpow_le. lia. }
    pose proof (rnd_err d) as E1. rewrite (Rabs_pos_eq d D0) in E1.
    assert (M1 : d * u <= d * / 8) by (apply Rmult_le_compat_l; lra).
    apply Rabs_le_inv in E1.
    pose proof (rnd_err (rnd d / n)) as E2. rewrite (Rabs_pos_eq (rnd d / n)) in E2 by apply Q.
    assert (M2 : rnd d / n * u <= rnd d / n * / 8) by (apply Rmult_le_compat_l; lra).
    apply Rabs_le_inv in E2. lra.
Qed.

Lemma mid_neg v m n : fmt v -> fmt m -> 2 <= n -> v <= m -> v - m <= rnd (rnd (v - m) / n) <= 0.
Proof.
  intros Hv Hm Hn L. pose proof (mid_pos (- v) (- m) n (generic_format_opp _ _ _ Hv) (generic_format_opp _ _ _ Hm) Hn ltac:(lra)) as P.
  replace (- v - - m) with (- (v - m)) in P by ring. rewrite rnd_opp in P.
  replace (- rnd (v - m) / n) with (- (rnd (v - m) / n)) in P by (unfold Rdiv; ring). rewrite rnd_opp in P. lra.
Qed.

(** Between: the new mean lies between the old one and the sample. *)
Definition between (a b x : R) : Prop := (a <= x <= b) \/ (b <= x <= a).

Lemma new_mean_between v m n : fmt v -> fmt m -> 2 <= n ->
  between m v (m + rnd (rnd (v - m) / n)) /\ between m v (rnd (m + rnd (rnd (v - m) / n))).
Proof.
  intros Hv Hm Hn. destruct (Rle_or_lt m v) as [L|L].
  - pose proof (mid_pos v m n Hv Hm Hn L). split; left; [lra|]. split.
    + apply Rle_trans with (rnd m); [rewrite (rnd_fmt m Hm); apply Rle_refl|apply rnd_mono; lra].
    + apply Rle_trans with (rnd v); [apply rnd_mono; lra|rewrite (rnd_fmt v Hv); apply Rle_refl].
  - pose proof (mid_neg v m n Hv Hm Hn ltac:(lra)). split; right; [lra|]. split.
    + apply Rle_trans with (rnd v); [rewrite (rnd_fmt v Hv); apply Rle_refl|apply rnd_mono; lra].
    + apply Rle_trans with (rnd m); [apply rnd_mono; lra|rewrite (rnd_fmt m Hm); apply Rle_refl].
Qed.

Lemma between_abs a b x M : between a b x -> Rabs a <= M -> Rabs b <= M -> Rabs x <= M.
Proof. intros H Ha Hb. apply Rabs_le_inv in Ha, Hb. apply Rabs_le. destruct H; lra. Qed.

Lemma new_mean_error v m n M : fmt v -> fmt m -> 2 <= n -> Rabs v <= M -> Rabs m <= M ->
  Rabs (n * rnd (m + rnd (rnd (v - m) / n)) - ((n - 1) * m + v)) <= (n + 5) * (M * u) + (2 * n + 2) * h.
Proof.
  intros Hv Hm Hn Bv Bm. pose proof u_small as [U0 U1]. pose proof h_pos as H0.
  destruct (new_mean_between v m n Hv Hm Hn) as [W _]. pose proof (between_abs _ _ _ M W Bm Bv) as BW.
  assert (M0 : 0 <= M) by (eapply Rle_trans; [apply Rabs_pos|exact Bv]).
  set (d := v - m) in *. assert (Bd : Rabs d <= 2 * M) by (apply Rabs_le_inv in Bv, Bm; apply Rabs_le; unfold d; lra).
  set (a := rnd d) in *. set (q := rnd (a / n)) in *. set (s := rnd (m + q)).
  pose proof (rnd_err d) as E1. fold a in E1. pose proof (rnd_err (a / n)) as E2. fold q in E2. pose proof (rnd_err (m + q)) as E3. fold s in E3.
  assert (P1 : Rabs d * u <= 2 * (M * u)) by (replace (2 * (M * u)) with (2 * M * u) by ring; apply Rmult_le_compat_r; lra).
  assert (P3 : Rabs (m + q) * u <= M * u) by (apply Rmult_le_compat_r; lra).
  assert (Ba : Rabs a <= 2 * M + 2 * (M * u) + h).
  { replace a with (d + (a - d)) by ring. eapply Rle_trans; [apply Rabs_triang|]. lra. }
  assert (P2 : n * Rabs (q - a / n) <= Rabs a * u + n * h).
  { apply Rle_trans with (n * (Rabs (a / n) * u + h)); [apply Rmult_le_compat_l; lra|].
    rewrite Rmult_plus_distr_l. apply Rplus_le_compat_r. rewrite <- Rmult_assoc. apply Rmult_le_compat_r; [lra|].
    unfold Rdiv. rewrite Rabs_mult, Rabs_inv, (Rabs_pos_eq n) by lra. apply Req_le. field. lra. }
  assert (P2' : Rabs a * u <= 2 * (M * u) + (M * u) + h).
  { apply Rle_trans with ((2 * M + 2 * (M * u) + h) * u); [apply Rmult_le_compat_r; lra|].
    assert (X1 : (M * u) * u <= (M * u) * / 8) by (apply Rmult_le_compat_l; [apply Rmult_le_pos; lra|lra]).
    assert (X2 : h * u <= h * / 8) by (apply Rmult_le_compat_l; lra).
    assert (X3 : 0 <= M * u) by (apply Rmult_le_pos; lra). lra. }
  replace (n * s - ((n - 1) * m + v)) with (n * (s - (m + q)) + (n * (q - a / n) + (a - d))) by (unfold d; field; lra).
  eapply Rle_trans; [apply Rabs_triang|]. rewrite Rabs_mult, (Rabs_pos_eq n) by lra.
  assert (T3 : n * Rabs (s - (m + q)) <= n * (M * u) + n * h).
  { rewrite <- Rmult_plus_distr_l. apply Rmult_le_compat_l; lra. }
  assert (T2 : Rabs (n * (q - a / n) + (a - d)) <= n * Rabs (q - a / n) + Rabs (a - d)).
  { eapply Rle_trans; [apply Rabs_triang|]. rewrite Rabs_mult, (Rabs_pos_eq n) by lra. lra. }
  assert (X3 : 0 <= M * u) by (apply Rmult_le_pos; lra). lra.
Qed.

(** ** Floats *)

Lemma b2r_fmt (b : b64) : fmt (B2R b). Proof. apply generic_format_B2R. Qed.

Lemma f_plus_R (x y : b64) e : is_finite x = true -> is_finite y = true -> (-1074 < e < 1024)%Z -> Rabs (B2R x + B2R y) <= bpow radix2 e ->
  is_finite (b_add x y) = true /\ B2R (b_add x y) = rnd (B2R x + B2R y).
Proof.
  intros Fx Fy He H. pose proof (Bplus_correct 53 1024 FloatAdd.Hprec FloatAdd.Hmax mode_NE x y Fx Fy) as C. fold (b_add x y) in C.
  rewrite Rlt_bool_true in C; [destruct C as (C1 & C2 & _); split; assumption|].
  apply Rle_lt_trans with (bpow radix2 e); [|apply bpow_lt; lia]. apply rnd_bound; [lia|exact H].
Qed.
Lemma f_minus_R (x y : b64) e : is_finite x = true -> is_finite y = true -> (-1074 < e < 1024)%Z -> Rabs (B2R x - B2R y) <= bpow radix2 e ->
  is_finite (b_sub x y) = true /\ B2R (b_sub x y) = rnd (B2R x - B2R y).
Proof.
  intros Fx Fy He H. pose proof (Bminus_correct 53 1024 FloatAdd.Hprec FloatAdd.Hmax mode_NE x y Fx Fy) as C. fold (b_sub x y) in C.
  rewrite Rlt_bool_true in C; [destruct C as (C1 & C2 & _); split; assumption|].
  apply Rle_lt_trans with (bpow radix2 e); [|apply bpow_lt; lia]. apply rnd_bound; [lia|exact H].
Qed.

Definition bmean (m v c : b64) : b64 := b_add m (b_div (b_sub v m) c).

Lemma bmean_R (m v c : b64) : is_finite m = true -> is_finite v = true ->
  Rabs (B2R m) <= bpow radix2 1022 -> Rabs (B2R v) <= bpow radix2 1022 -> 2 <= B2R c ->
  is_finite (bmean m v c) = true /\ B2R (bmean m v c) = rnd (B2R m + rnd (rnd (B2R v - B2R m) / B2R c)) /\
  is_finite (b_sub v m) = true /\ B2R (b_sub v m) = rnd (B2R v - B2R m).
Proof.
  intros Fm Fv Bm Bv Hc. unfold bmean.
  assert (D : Rabs (B2R v - B2R m) <= bpow radix2 1023).
  { change 1023%Z with (1022 + 1)%Z. rewrite bpow_plus. change (bpow radix2 1) with 2. apply Rabs_le_inv in Bm, Bv. apply Rabs_le. lra. }
  destruct (f_minus_R v m 1023 Fv Fm ltac:(lia) D) as [Fa Ra].
  assert (A : Rabs (B2R (b_sub v m)) <= bpow radix2 1023) by (rewrite Ra; apply rnd_bound; [lia|exact D]).
  destruct (f_div_R (b_sub v m) c 1023 Fa ltac:(lra) ltac:(lia)) as [Fq Rq].
  { unfold Rdiv. rewrite Rabs_mult, Rabs_inv, (Rabs_pos_eq (B2R c)) by lra. eapply Rle_trans; [|exact A].
    rewrite <- (Rmult_1_r (Rabs (B2R (b_sub v m)))) at 2. apply Rmult_le_compat_l; [apply Rabs_pos|]. rewrite <- Rinv_1. apply Rinv_le; lra. }
  rewrite Ra in Rq.
  destruct (new_mean_between (B2R v) (B2R m) (B2R c) (b2r_fmt v) (b2r_fmt m) Hc) as [W _]. pose proof (between_abs _ _ _ _ W Bm Bv) as BW. rewrite <- Rq in BW.
  destruct (f_plus_R m (b_div (b_sub v m) c) 1022 Fm Fq ltac:(lia) BW) as [Fs Rs]. rewrite Rq in Rs. auto.
Qed.

(** Non-negative, possibly infinite. *)
Definition nonneg (x : b64) : Prop := match x with B754_nan => False | B754_infinity s => s = false | _ => 0 <= B2R x end.

Lemma nonneg_finite x : is_finite x = true -> 0 <= B2R x -> nonneg x.
Proof. destruct x; intros F; try discriminate F; cbn; auto. Qed.

Lemma nonneg_mul (x y : b64) : is_finite x = true -> is_finite y = true -> 0 <= B2R x * B2R y -> nonneg (b_times x y).
Proof.
  intros Fx Fy H. pose proof (Bmult_correct 53 1024 FloatAdd.Hprec FloatAdd.Hmax mode_NE x y) as C. fold (b_times x y) in C.
  destruct (Rlt_bool_spec (Rabs (rnd (B2R x * B2R y))) (bpow radix2 1024)) as [L|L].
  - destruct C as (C1 & C2 & _). rewrite Fx, Fy in C2. apply nonneg_finite; [exact C2|]. change (0 <= B2R (b_times x y)). change (B2R (b_times x y) = rnd (B2R x * B2R y)) in C1. rewrite C1, <- rnd_0. apply rnd_mono. exact H.
  - assert (NZ : B2R x * B2R y <> 0).
    { intros Z. rewrite Z, rnd_0, Rabs_R0 in L. pose proof (bpow_gt_0 radix2 1024). lra. }
    assert (S : xorb (Bsign x) (Bsign y) = false).
    { assert (SG : forall b : b64, is_finite b = true -> (B2R b < 0 -> Bsign b = true) /\ (0 < B2R b -> Bsign b = false)).
      { intros b Fb. destruct b as [s|s| |s mm e B]; try discriminate Fb.
        - cbn. split; lra.
        - cbn [B2R Bsign]. destruct s; split; intros Z; try reflexivity; exfalso.
          + apply gt_0_F2R in Z. cbn in Z. lia.
          + apply lt_0_F2R in Z. cbn in Z. lia. }
      destruct (Rtotal_order (B2R x) 0) as [X|[X|X]].
      - assert (Y : B2R y < 0).
        { destruct (Rtotal_order (B2R y) 0) as [Y|[Y|Y]]; [exact Y|exfalso; apply NZ; rewrite Y; ring|exfalso]. assert (B2R x * B2R y < 0) by (rewrite Rmult_comm; replace 0 with (B2R y * 0) by ring; apply Rmult_lt_compat_l; lra). lra. }
        rewrite (proj1 (SG x Fx) X), (proj1 (SG y Fy) Y). reflexivity.
      - exfalso. apply NZ. rewrite X. ring.
      - assert (Y : 0 < B2R y).
        { destruct (Rtotal_order (B2R y) 0) as [Y|[Y|Y]]; [exfalso|exfalso; apply NZ; rewrite Y; ring|exact Y]. assert (B2R x * B2R y < 0) by (replace 0 with (B2R x * 0) by ring; apply Rmult_lt_compat_l; lra). lra. }
        rewrite (proj2 (SG x Fx) X), (proj2 (SG y Fy) Y). reflexivity. }
    rewrite S in C. change (B2SF (b_times x y) = binary_overflow 53 1024 mode_NE false) in C. unfold binary_overflow in C. cbn in C. destruct (b_times x y); try discriminate C. cbn in C. injection C as ->. reflexivity.
Qed.

Lemma nonneg_add (x y : b64) : nonneg x -> nonneg y -> nonneg (b_add x y).
Proof.
  intros Hx Hy. destruct (is_finite x) eqn:Fx.
  2:{ destruct x as [s|s| |]; try discriminate Fx; [|contradiction]. cbn in Hx. subst s. destruct y as [s|s| |]; cbn in Hy; try contradiction; try subst s; reflexivity. }
  destruct (is_finite y) eqn:Fy.
  2:{ destruct y as [s|s| |]; try discriminate Fy; [|contradiction]. cbn in Hy. subst s. destruct x as [s|s| |]; cbn in Hx; try contradiction; try discriminate Fx; reflexivity. }
  assert (Px : 0 <= B2R x) by (destruct x; try discriminate Fx; exact Hx).
  assert (Py : 0 <= B2R y) by (destruct y; try discriminate Fy; exact Hy).
  pose proof (Bplus_correct 53 1024 FloatAdd.Hprec FloatAdd.Hmax mode_NE x y Fx Fy) as C. fold (b_add x y) in C.
  destruct (Rlt_bool_spec (Rabs (rnd (B2R x + B2R y))) (bpow radix2 1024)) as [L|L].
  - destruct C as (C1 & C2 & _). apply nonneg_finite; [exact C2|]. rewrite C1, <- rnd_0. apply rnd_mono. lra.
  - destruct C as [C S]. assert (SX : Bsign x = false).
    { destruct (Bsign x) eqn:E; [|reflexivity]. exfalso. symmetry in S.
      assert (Z : forall b : b64, is_finite b = true -> Bsign b = true -> B2R b <= 0).
      { intros b Fb Sb. destruct b as [s|s| |s mm e B]; try discriminate Fb; [cbn; lra|]. cbn in Sb. subst s. cbn [B2R]. apply F2R_le_0. cbn. lia. }
      pose proof (Z x Fx E). pose proof (Z y Fy S). assert (E0 : B2R x + B2R y = 0) by lra. rewrite E0, rnd_0, Rabs_R0 in L. pose proof (bpow_gt_0 radix2 1024). lra. }
    rewrite SX in C. unfold binary_overflow in C. cbn in C. destruct (b_add x y); try discriminate C. cbn in C. injection C as ->. reflexivity.
Qed.

(** The term added to the sum of squared deviations. *)
Lemma bssd_term (m v c : b64) : is_finite m = true -> is_finite v = true ->
  Rabs (B2R m) <= bpow radix2 1022 -> Rabs (B2R v) <= bpow radix2 1022 -> 2 <= B2R c ->
  nonneg (b_times (b_sub v m) (b_sub v (bmean m v c))).
Proof.
  intros Fm Fv Bm Bv Hc. destruct (bmean_R m v c Fm Fv Bm Bv Hc) as (Fs & Rs & Fa & Ra).
  destruct (new_mean_between (B2R v) (B2R m) (B2R c) (b2r_fmt v) (b2r_fmt m) Hc) as [_ W]. rewrite <- Rs in W.
  pose proof (between_abs _ _ _ _ W Bm Bv) as Bs. set (s := bmean m v c) in *.
  assert (D : Rabs (B2R v - B2R s) <= bpow radix2 1023).
  { change 1023%Z with (1022 + 1)%Z. rewrite bpow_plus. change (bpow radix2 1) with 2. apply Rabs_le_inv in Bs, Bv. apply Rabs_le. lra. }
  destruct (f_minus_R v s 1023 Fv Fs ltac:(lia) D) as [Fb Rb].
  apply nonneg_mul; [exact Fa|exact Fb|]. rewrite Ra, Rb.
  destruct W as [W|W].
  - apply Rmult_le_pos; rewrite <- rnd_0; apply rnd_mono; lra.
  - replace (rnd (B2R v - B2R m) * rnd (B2R v - B2R s)) with (- rnd (B2R v - B2R m) * - rnd (B2R v - B2R s)) by ring.
    rewrite <- !rnd_opp. apply Rmult_le_pos; rewrite <- rnd_0 at 1; apply rnd_mono; lra.
Qed.
