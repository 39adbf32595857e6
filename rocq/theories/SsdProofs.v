(** Rounding in Welford's method: the sum of squared deviations, one step and all of them. *)

From Coq Require Import ZArith Reals Bool Lia Lra.
From Coq Require Import Floats.SpecFloat.
From Flocq Require Import Core.Core IEEE754.BinarySingleNaN.
From Verif Require Import Base Float64 FloatAdd FloatDiv FloatErr RowEqualProps MeanProofs.
Open Scope R_scope.

Lemma u_tiny : 0 < u <= / 32.
Proof. split; [apply bpow_gt_0|]. change (/ 32) with (bpow radix2 (-5)). apply bpow_le. lia. Qed.

(** A difference is rounded with a small relative error. *)
Lemma diff_err x y : fmt x -> fmt y -> Rabs (rnd (x - y) - (x - y)) <= 3 / 2 * u * Rabs (x - y).
Proof.
  intros Hx Hy. pose proof u_tiny. destruct (diff_cases x y Hx Hy) as [G|G].
  - rewrite (rnd_fmt _ G). replace (x - y - (x - y)) with 0 by ring. rewrite Rabs_R0. apply Rmult_le_pos; [lra|apply Rabs_pos].
  - eapply Rle_trans; [apply rnd_err|].
    assert (h <= / 2 * u * Rabs (x - y)).
    { apply Rle_trans with (/ 2 * u * bpow radix2 (-1021)); [|apply Rmult_le_compat_l; lra].
      change (/ 2) with (bpow radix2 (-1)). rewrite <- !bpow_plus. apply Rle_refl. }
    lra.
Qed.

(** The state after n samples of size at most [W] with sum [V1] and sum of squares [V2]. *)
Definition ok (W n m s V1 V2 : R) : Prop :=
  0 <= s <= n * (1 + n * u) * (6 * (W * W) + 3 * h) /\
  Rabs (n * m - V1) <= n * (n + 11) / 2 * (W * u) /\
  Rabs (s - (V2 - 2 * m * V1 + n * (m * m))) <= n * (8 * n + 73) * (W * W * u) + 8 * n * h.

(** The term of one step. *)
Lemma term_err W v m m' : fmt v -> fmt m -> fmt m' -> Rabs v <= W -> Rabs m <= W -> Rabs m' <= W -> between m v m' ->
  let t := rnd (rnd (v - m) * rnd (v - m')) in
  Rabs (t - (v - m) * (v - m')) <= 21 * (W * W * u) + h /\ 0 <= t <= 5 * (W * W) + h /\ Rabs (rnd (v - m) * rnd (v - m')) <= 5 * (W * W).
Proof.
  intros Hv Hm Hm' Bv Bm Bm' BW t. pose proof u_tiny as [U0 U1]. pose proof h_pos as H0.
  assert (W0 : 0 <= W) by (eapply Rle_trans; [apply Rabs_pos|exact Bv]).
  assert (Ba : Rabs (v - m) <= 2 * W) by (apply Rabs_le_inv in Bv, Bm; apply Rabs_le; lra).
  assert (Bb : Rabs (v - m') <= 2 * W) by (apply Rabs_le_inv in Bv, Bm'; apply Rabs_le; lra).
  pose proof (diff_err v m Hv Hm) as Ea. pose proof (diff_err v m' Hv Hm') as Eb.
  assert (SG : 0 <= rnd (v - m) * rnd (v - m')).
  { destruct BW as [BW|BW].
    - apply Rmult_le_pos; rewrite <- rnd_0; apply rnd_mono; lra.
    - replace (rnd (v - m) * rnd (v - m')) with (- rnd (v - m) * - rnd (v - m')) by ring.
      rewrite <- !rnd_opp. apply Rmult_le_pos; rewrite <- rnd_0 at 1; apply rnd_mono; lra. }
  unfold t. clear t. set (a := v - m) in *. set (b := v - m') in *. set (ra := rnd a) in *. set (rb := rnd b) in *. clearbody a b ra rb.
  assert (WW : 0 <= W * W) by (apply Rmult_le_pos; lra).
  assert (AB : Rabs (a * b) <= 4 * (W * W)).
  { rewrite Rabs_mult. replace (4 * (W * W)) with (2 * W * (2 * W)) by ring. apply Rmult_le_compat; try apply Rabs_pos; assumption. }
  assert (X : Rabs (ra * rb - a * b) <= 16 * (W * W * u)).
  { replace (ra * rb - a * b) with ((ra - a) * b + (a * (rb - b) + (ra - a) * (rb - b))) by ring.
    assert (Ea' : Rabs (ra - a) <= 3 * (W * u)).
    { eapply Rle_trans; [exact Ea|]. replace (3 * (W * u)) with (3 / 2 * u * (2 * W)) by field. apply Rmult_le_compat_l; lra. }
    assert (Eb' : Rabs (rb - b) <= 3 * (W * u)).
    { eapply Rle_trans; [exact Eb|]. replace (3 * (W * u)) with (3 / 2 * u * (2 * W)) by field. apply Rmult_le_compat_l; lra. }
    assert (T1 : Rabs ((ra - a) * b) <= 3 * (W * u) * (2 * W)) by (rewrite Rabs_mult; apply Rmult_le_compat; try apply Rabs_pos; assumption).
    assert (T2 : Rabs (a * (rb - b)) <= 2 * W * (3 * (W * u))) by (rewrite Rabs_mult; apply Rmult_le_compat; try apply Rabs_pos; assumption).
    assert (T3 : Rabs ((ra - a) * (rb - b)) <= 3 * (W * u) * (3 * (W * u))) by (rewrite Rabs_mult; apply Rmult_le_compat; try apply Rabs_pos; assumption).
    assert (T4 : 3 * (W * u) * (3 * (W * u)) <= W * W * u).
    { replace (3 * (W * u) * (3 * (W * u))) with (W * W * u * (9 * u)) by ring. rewrite <- (Rmult_1_r (W * W * u)) at 2.
      apply Rmult_le_compat_l; [apply Rmult_le_pos; lra|lra]. }
    eapply Rle_trans; [apply Rabs_triang|]. pose proof (Rabs_triang (a * (rb - b)) ((ra - a) * (rb - b))) as T5.
    replace (3 * (W * u) * (2 * W)) with (6 * (W * W * u)) in T1 by ring. replace (2 * W * (3 * (W * u))) with (6 * (W * W * u)) in T2 by ring.
    assert (0 <= W * W * u) by (apply Rmult_le_pos; lra). lra. }
  assert (WU : W * W * u <= W * W * / 32) by (apply Rmult_le_compat_l; lra).
  assert (Y : Rabs (ra * rb) <= 4 * (W * W) + 16 * (W * W * u)).
  { replace (ra * rb) with (a * b + (ra * rb - a * b)) by ring. eapply Rle_trans; [apply Rabs_triang|]. lra. }
  assert (Y5 : Rabs (ra * rb) <= 5 * (W * W)) by lra.
  pose proof (rnd_err (ra * rb)) as E. assert (Z : Rabs (ra * rb) * u <= 5 * (W * W * u)).
  { replace (5 * (W * W * u)) with (5 * (W * W) * u) by ring. apply Rmult_le_compat_r; lra. }
  split; [|split; [split|exact Y5]].
  - replace (rnd (ra * rb) - a * b) with (rnd (ra * rb) - ra * rb + (ra * rb - a * b)) by ring. eapply Rle_trans; [apply Rabs_triang|]. lra.
  - rewrite <- rnd_0. apply rnd_mono. exact SG.
  - apply Rabs_le_inv in E. apply Rabs_le_inv in Y. lra.
Qed.

Lemma step_ok W n v m m' s t s' V1 V2 : 0 <= W -> 2 <= n -> n * u <= 1 -> Rabs v <= W -> Rabs m <= W -> Rabs m' <= W ->
  Rabs (n * m' - ((n - 1) * m + v)) <= (n + 5) * (W * u) ->
  Rabs (t - (v - m) * (v - m')) <= 21 * (W * W * u) + h -> 0 <= t <= 5 * (W * W) + h ->
  0 <= s' -> Rabs (s' - (s + t)) <= (s + t) * u + h ->
  ok W (n - 1) m s V1 V2 -> ok W n m' s' (V1 + v) (V2 + v * v) /\ s + t <= 12 * (n * (W * W)) + 6 * (n * h).
Proof.
  intros W0 Hn Hu Bv Bm Bm' HE HT [T0 T1] S0 HS ([A0 A1] & B & C). pose proof u_tiny as [U0 U1]. pose proof h_pos as H0.
  assert (WW : 0 <= W * W) by (apply Rmult_le_pos; lra).
  assert (WU : 0 <= W * u) by (apply Rmult_le_pos; lra).
  assert (A : 0 <= W * W * u) by (apply Rmult_le_pos; lra).
  set (K := 6 * (W * W) + 3 * h) in *. assert (K0 : 0 <= K) by (unfold K; lra).
  assert (N1 : 0 <= (n - 1) * u) by (apply Rmult_le_pos; lra).
  assert (N2 : (n - 1) * u <= 1) by lra.
  (* the sum so far *)
  assert (SK : s <= 2 * ((n - 1) * K)).
  { eapply Rle_trans; [exact A1|]. replace (2 * ((n - 1) * K)) with ((n - 1) * 2 * K) by ring. apply Rmult_le_compat_r; [exact K0|]. apply Rmult_le_compat_l; lra. }
  assert (KE : (n - 1) * K = 6 * (n * (W * W)) + 3 * (n * h) - 6 * (W * W) - 3 * h) by (unfold K; ring).
  assert (ST : s + t <= 12 * (n * (W * W)) + 6 * (n * h)) by lra.
  split; [|exact ST]. split; [split; [exact S0|]|split].
  - (* size *)
    apply Rabs_le_inv in HS. change (s' <= n * (1 + n * u) * K).
    assert (X1 : s' <= (s + t) * (1 + u) + h) by lra.
    assert (X2 : (s + t) * (1 + u) <= ((n - 1) * (1 + (n - 1) * u) * K + (5 * (W * W) + h)) * (1 + u)) by (apply Rmult_le_compat_r; lra).
    assert (X3 : (5 * (W * W) + h) * (1 + u) + h <= K).
    { assert (W * W * u <= W * W * / 32) by (apply Rmult_le_compat_l; lra). assert (h * u <= h * / 32) by (apply Rmult_le_compat_l; lra). unfold K. lra. }
    assert (X4 : (n - 1) * u * ((n - 1) * u) * K <= n * u * K).
    { apply Rmult_le_compat_r; [exact K0|]. apply Rle_trans with ((n - 1) * u * 1); [apply Rmult_le_compat_l; lra|]. lra. }
    replace (n * (1 + n * u) * K) with ((n - 1) * (1 + n * u) * K + (1 + n * u) * K) by ring.
    replace (((n - 1) * (1 + (n - 1) * u) * K + (5 * (W * W) + h)) * (1 + u)) with ((n - 1) * (1 + n * u) * K + (n - 1) * u * ((n - 1) * u) * K + (5 * (W * W) + h) * (1 + u)) in X2 by ring.
    set (p := (n - 1) * (1 + n * u) * K) in *. set (q := (5 * (W * W) + h) * (1 + u)) in *. set (r := (n - 1) * u * ((n - 1) * u) * K) in *.
    replace ((1 + n * u) * K) with (K + n * u * K) by ring. set (z := n * u * K) in *. set (y := (s + t) * (1 + u)) in *. clearbody p q r z y K. clear - X1 X2 X3 X4. lra.
  - (* the mean *)
    replace (n * m' - (V1 + v)) with (n * m' - ((n - 1) * m + v) + ((n - 1) * m - V1)) by ring. eapply Rle_trans; [apply Rabs_triang|].
    replace (n * (n + 11) / 2 * (W * u)) with ((n + 5) * (W * u) + (n - 1) * (n - 1 + 11) / 2 * (W * u)) by field. lra.
  - (* the squares *)
    set (e := (n - 1) * m - V1) in *. set (d := n * m' - ((n - 1) * m + v)) in *.
    assert (D : Rabs ((m' - m) * (2 * e + d)) <= 4 * ((n + 11) * (W * W * u))).
    { rewrite Rabs_mult. assert (M1 : n * Rabs (m' - m) <= 4 * W).
      { rewrite <- (Rabs_pos_eq n) at 1 by lra. rewrite <- Rabs_mult. replace (n * (m' - m)) with ((v - m) + d) by (unfold d; ring).
        eapply Rle_trans; [apply Rabs_triang|]. assert (Rabs (v - m) <= 2 * W) by (apply Rabs_le_inv in Bv, Bm; apply Rabs_le; lra).
        assert ((n + 5) * (W * u) <= 2 * W). { replace ((n + 5) * (W * u)) with (W * ((n + 5) * u)) by ring. rewrite (Rmult_comm 2). apply Rmult_le_compat_l; lra. } lra. }
      assert (M2 : Rabs (2 * e + d) <= n * ((n + 11) * (W * u))).
      { eapply Rle_trans; [apply Rabs_triang|]. rewrite Rabs_mult, (Rabs_pos_eq 2) by lra.
        replace (n * ((n + 11) * (W * u))) with (2 * ((n - 1) * (n - 1 + 11) / 2 * (W * u)) + (n + 5) * (W * u) + (n + 5) * (W * u)) by field. 
        assert (0 <= (n + 5) * (W * u)) by (apply Rmult_le_pos; lra). lra. }
      apply Rle_trans with (Rabs (m' - m) * (n * ((n + 11) * (W * u)))); [apply Rmult_le_compat_l; [apply Rabs_pos|exact M2]|].
      replace (Rabs (m' - m) * (n * ((n + 11) * (W * u)))) with (n * Rabs (m' - m) * ((n + 11) * (W * u))) by ring.
      replace (4 * ((n + 11) * (W * W * u))) with (4 * W * ((n + 11) * (W * u))) by ring. apply Rmult_le_compat_r; [apply Rmult_le_pos; lra|exact M1]. }
    assert (R : (s + t) * u + h <= 12 * (n * (W * W * u)) + 7 * h).
    { assert ((s + t) * u <= (12 * (n * (W * W)) + 6 * (n * h)) * u) by (apply Rmult_le_compat_r; lra).
      assert (n * u * h <= 1 * h) by (apply Rmult_le_compat_r; lra).
      replace ((12 * (n * (W * W)) + 6 * (n * h)) * u) with (12 * (n * (W * W * u)) + 6 * (n * u * h)) in H by ring. lra. }
    replace (s' - (V2 + v * v - 2 * m' * (V1 + v) + n * (m' * m')))
      with ((s' - (s + t)) + ((t - (v - m) * (v - m')) + ((s - (V2 - 2 * m * V1 + (n - 1) * (m * m))) + - ((m' - m) * (2 * e + d))))) by (unfold e, d; ring).
    eapply Rle_trans; [apply Rabs_triang|]. eapply Rle_trans; [apply Rplus_le_compat_l, Rabs_triang|]. eapply Rle_trans; [apply Rplus_le_compat_l, Rplus_le_compat_l, Rabs_triang|].
    rewrite Rabs_Ropp.
    replace (n * (8 * n + 73) * (W * W * u) + 8 * n * h)
      with (12 * (n * (W * W * u)) + 7 * h + (21 * (W * W * u) + h + ((n - 1) * (8 * (n - 1) + 73) * (W * W * u) + 8 * (n - 1) * h + 4 * ((n + 11) * (W * W * u))))) by ring.
    lra.
Qed.

(** In the end: the distance from the exact sum of squared deviations. *)
Lemma ok_dev W n m s V1 V2 : 0 <= W -> 1 <= n -> n * u <= 1 -> ok W n m s V1 V2 ->
  Rabs (n * s - (n * V2 - V1 * V1)) <= n * n * ((9 * n + 79) * (W * W * u) + 8 * h).
Proof.
  intros W0 Hn Hu (_ & B & C). pose proof u_tiny as [U0 U1]. pose proof h_pos as H0.
  assert (WW : 0 <= W * W) by (apply Rmult_le_pos; lra).
  assert (A : 0 <= W * W * u) by (apply Rmult_le_pos; lra).
  replace (n * s - (n * V2 - V1 * V1)) with (n * (s - (V2 - 2 * m * V1 + n * (m * m))) + (n * m - V1) * (n * m - V1)) by ring.
  eapply Rle_trans; [apply Rabs_triang|]. rewrite !Rabs_mult, (Rabs_pos_eq n) by lra.
  assert (X : n * Rabs (s - (V2 - 2 * m * V1 + n * (m * m))) <= n * (n * (8 * n + 73) * (W * W * u) + 8 * n * h)) by (apply Rmult_le_compat_l; lra).
  assert (Y : Rabs (n * m - V1) * Rabs (n * m - V1) <= n * (n + 11) / 2 * (W * u) * (n * (n + 11) / 2 * (W * u))) by (apply Rmult_le_compat; try apply Rabs_pos; assumption).
  assert (Z : n * (n + 11) / 2 * (W * u) * (n * (n + 11) / 2 * (W * u)) <= n * n * (n + 6) * (W * W * u)).
  { replace (n * (n + 11) / 2 * (W * u) * (n * (n + 11) / 2 * (W * u))) with (n * n * (W * W * u) * ((n + 11) / 2 * ((n + 11) / 2 * u))) by field.
    replace (n * n * (n + 6) * (W * W * u)) with (n * n * (W * W * u) * (n + 6)) by ring.
    apply Rmult_le_compat_l; [repeat apply Rmult_le_pos; lra|]. apply Rle_trans with ((n + 11) / 2 * 1); [apply Rmult_le_compat_l; lra|]. lra. }
  replace (n * n * ((9 * n + 79) * (W * W * u) + 8 * h)) with (n * (n * (8 * n + 73) * (W * W * u) + 8 * n * h) + n * n * (n + 6) * (W * W * u)) by ring. lra.
Qed.
