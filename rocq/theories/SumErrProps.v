(** C07, in float64: how far a Sum row may be off, and that the order of the recordings
    hardly matters. *)

From Coq Require Import List ZArith Reals Bool Lia Lra ZifyBool ZifyNat Permutation.
From Coq Require Import Floats.SpecFloat.
From Flocq Require Import Core.Core Relative IEEE754.BinarySingleNaN.
From Verif Require Import Base Float64 AggModel AggSpec AggProofs AggProps FloatAdd FloatErr SamplerProps RowEqualProps MeanSpec SsdSpec MeanProofs MeanProps SsdProofs.
Import ListNotations.
Open Scope Z_scope.

(** A sum of two numbers is rounded with a relative error only. *)
Lemma plus_err x y : fmt x -> fmt y -> (Rabs (rnd (x + y) - (x + y)) <= bpow radix2 (-53) * Rabs (x + y))%R.
Proof.
  intros Hx Hy. pose proof (bpow_gt_0 radix2 (-53)). replace (x + y)%R with (x - - y)%R by ring.
  destruct (diff_cases x (- y) Hx (generic_format_opp _ _ _ Hy)) as [G|G].
  - rewrite (rnd_fmt _ G). replace (x - - y - (x - - y))%R with 0%R by ring. rewrite Rabs_R0. apply Rmult_le_pos; [lra|apply Rabs_pos].
  - pose proof (relative_error_N_FLT radix2 (-1074) 53 eq_refl (fun z => negb (Z.even z)) (x - - y)) as E.
    change (round radix2 (FLT_exp (-1074) 53) (Znearest (fun z => negb (Z.even z))) (x - - y)) with (rnd (x - - y)) in E.
    replace (bpow radix2 (-53)) with (/ 2 * bpow radix2 (-53 + 1))%R by (rewrite bpow_plus; change (bpow radix2 1) with 2%R; field).
    apply E. eapply Rle_trans; [|exact G]. apply bpow_le. lia.
Qed.

Lemma size_snoc l v : exact_size (l ++ [v]) = exact_size l + Z.abs (f_num v).
Proof. unfold exact_size. rewrite map_app, fold_right_app. cbn [map fold_right]. induction (map (fun w => Z.abs (f_num w)) l) as [|x r IH]; cbn [fold_right]; lia. Qed.
Lemma size_pos l : 0 <= exact_size l.
Proof. unfold exact_size. induction l as [|x l IH]; cbn [map fold_right]; lia. Qed.

Lemma size_in v l : In v l -> Z.abs (f_num v) <= exact_size l.
Proof.
  unfold exact_size. induction l as [|x l IH]; [intros []|]. intros [->|H]; cbn [map fold_right].
  - pose proof (size_pos l) as P. unfold exact_size in P. lia.
  - specialize (IH H). lia.
Qed.

(** One addition, in units of 2^-1074. *)
Lemma add_num (x y : b64) : is_finite x = true -> is_finite y = true -> Z.abs (f_num (B2SF x) + f_num (B2SF y)) <= 2 ^ 1023 * 2 ^ 1074 ->
  is_finite (b_add x y) = true /\
  2 ^ 53 * Z.abs (f_num (B2SF (b_add x y)) - (f_num (B2SF x) + f_num (B2SF y))) <= Z.abs (f_num (B2SF x) + f_num (B2SF y)).
Proof.
  intros Fx Fy H. set (P := bpow radix2 1074). assert (P0 : (0 < P)%R) by apply bpow1074.
  assert (EP : (IZR (Z.abs (f_num (B2SF x) + f_num (B2SF y))) = Rabs (B2R x + B2R y) * P)%R).
  { rewrite abs_IZR, plus_IZR, !num_R by assumption. fold P. rewrite <- Rmult_plus_distr_r, Rabs_mult, (Rabs_pos_eq P) by lra. reflexivity. }
  destruct (f_plus_R x y 1023 Fx Fy ltac:(lia)) as [Fs Rs].
  { apply Rmult_le_reg_r with P; [exact P0|]. rewrite <- EP. apply IZR_le in H. eapply Rle_trans; [exact H|]. rewrite mult_IZR, two1074. fold P.
    apply Rmult_le_compat_r; [lra|]. apply Req_le. change (2 ^ 1023)%Z with (radix2 ^ 1023)%Z. apply (IZR_Zpower radix2). lia. }
  split; [exact Fs|]. apply le_IZR. rewrite mult_IZR, EP, abs_IZR, minus_IZR, plus_IZR, !num_R by assumption. fold P. rewrite Rs.
  assert (T : IZR (2 ^ 53) = bpow radix2 53) by (change (2 ^ 53)%Z with (radix2 ^ 53)%Z; apply (IZR_Zpower radix2); lia). rewrite T.
  replace (rnd (B2R x + B2R y) * P - (B2R x * P + B2R y * P))%R with ((rnd (B2R x + B2R y) - (B2R x + B2R y)) * P)%R by ring.
  rewrite Rabs_mult, (Rabs_pos_eq P) by lra. pose proof (plus_err (B2R x) (B2R y) (b2r_fmt x) (b2r_fmt y)) as E.
  assert (H2 : (bpow radix2 53 * bpow radix2 (-53) = 1)%R) by (rewrite <- bpow_plus; reflexivity).
  rewrite <- Rmult_assoc. apply Rmult_le_compat_r; [lra|].
  apply Rmult_le_compat_l with (r := bpow radix2 53) in E; [|apply bpow_ge_0]. rewrite <- Rmult_assoc, H2, Rmult_1_l in E. exact E.
Qed.

Lemma sum_run vs : Forall (fun v => f_valid v /\ is_nan v = false) vs -> Z.of_nat (length vs) <= 2 ^ 52 -> exact_size vs <= 2 ^ 1022 * 2 ^ 1074 ->
  exists s : b64, fold_left f_add vs f_zero = B2SF s /\ is_finite s = true /\
    2 ^ 52 * Z.abs (f_num (B2SF s) - exact_sum vs) <= Z.of_nat (length vs) * exact_size vs /\ Z.abs (exact_sum vs) <= exact_size vs.
Proof.
  induction vs as [|v vs IH] using rev_ind; intros HF HL HS.
  - exists (B754_zero false). split; [reflexivity|]. split; [reflexivity|]. split; [change (exact_sum []) with 0; change (f_num (B2SF (B754_zero false))) with 0; cbn; lia|].
    change (exact_sum []) with 0. change (exact_size []) with 0. lia.
  - apply Forall_app in HF. destruct HF as [HF Hx]. inversion Hx as [|? ? [V N] _]; subst. clear Hx.
    rewrite app_length in *. cbn [length] in *. rewrite size_snoc in *. rewrite exact_sum_snoc, fold_left_app. cbn [fold_left].
    destruct (IH HF ltac:(lia) ltac:(lia)) as (s & -> & Fs & E & A).
    assert (Hv : modest v). { split; [exact V|]. split; [exact N|]. pose proof (size_pos vs). lia. }
    destruct (proj1 (modest_b _) Hv) as (b & -> & Fb & _). rewrite f_add_equiv.
    set (n := Z.of_nat (length vs)) in *. replace (Z.of_nat (length vs + 1)) with (n + 1) by lia.
    pose proof (size_pos vs) as A0. set (S := exact_sum vs) in *. set (Z1 := exact_size vs) in *. set (y := f_num (B2SF b)) in *. set (x := f_num (B2SF s)) in *.
    assert (D : Z.abs (x - S) <= Z1). { clear - E HL A0. assert (n * Z1 <= 2 ^ 52 * Z1) by (apply Z.mul_le_mono_nonneg_r; lia). lia. }
    assert (SUM : Z.abs (x + y) <= 2 ^ 1023 * 2 ^ 1074).
    { change (2 ^ 1023) with (2 * 2 ^ 1022). set (k := 2 ^ 1022 * 2 ^ 1074) in *. replace (2 * 2 ^ 1022 * 2 ^ 1074) with (2 * k) by (unfold k; ring). clearbody k. lia. }
    destruct (add_num s b Fs Fb SUM) as [Fs' E']. exists (b_add s b). split; [reflexivity|]. split; [exact Fs'|]. fold x y in E'. set (r := f_num (B2SF (b_add s b))) in *.
    split; [|lia]. clear - E E' A A0 HL.
    assert (X1 : Z.abs (r - (S + y)) <= Z.abs (r - (x + y)) + Z.abs (x - S)) by lia.
    assert (X2 : Z.abs (x + y) <= Z.abs (x - S) + Z1 + Z.abs y) by lia.
    assert (N0 : 0 <= n) by lia. assert (HL' : n <= 2 ^ 52) by lia. clearbody r x y S Z1 n.
    set (e := Z.abs (x - S)) in *. set (g := Z.abs (r - (x + y))) in *. set (w := Z.abs y) in *. assert (W0 : 0 <= w) by lia. assert (E0 : 0 <= e) by lia.
    assert (X3 : n * Z1 <= 2 ^ 52 * Z1) by (apply Z.mul_le_mono_nonneg_r; lia).
    assert (e <= Z1) by lia. assert (0 <= n * w) by (apply Z.mul_nonneg_nonneg; lia).
    replace ((n + 1) * (Z1 + w)) with (n * Z1 + n * w + Z1 + w) by ring. change (2 ^ 53) with (2 * 2 ^ 52) in *. set (k := 2 ^ 52) in *. 
    assert (k * Z.abs (r - (S + y)) <= k * (g + e)) by (apply Z.mul_le_mono_nonneg_l; lia). lia.
Qed.

(** How far a Sum row may be off: after n recordings (at most 2^52, and their sizes adding up
    to at most 2^1022) by at most n 2^-52 times the sum of the sizes. *)
Theorem C07_sum_error t (ss : list (sample f64_num)) :
  Forall (fun v => f_valid v /\ is_nan v = false) (values ss) -> Z.of_nat (length ss) <= 2 ^ 52 -> exact_size (values ss) <= 2 ^ 1022 * 2 ^ 1074 ->
  exists s, aggregate AggSum t ss = SumD t s /\ f_valid s /\ is_nan s = false /\ (forall b, s <> S754_infinity b) /\
    2 ^ 52 * Z.abs (f_num s - exact_sum (values ss)) <= Z.of_nat (length ss) * exact_size (values ss).
Proof.
  intros HF HL HS. rewrite C07_sum.
  assert (LV : @length f64 (values ss) = length ss) by apply map_length.
  destruct (sum_run (values ss) HF ltac:(rewrite LV; exact HL) HS) as (s & -> & Fs & E & _). rewrite LV in E. exists (B2SF s).
  split; [reflexivity|]. split; [apply valid_binary_B2SF|]. split; [destruct s; try discriminate Fs; reflexivity|]. split; [intros b; destruct s; try discriminate Fs; discriminate|exact E].
Qed.

Lemma perm_sums vs ws : Permutation vs ws -> exact_sum vs = exact_sum ws /\ exact_size vs = exact_size ws.
Proof.
  intros H. unfold exact_sum, exact_size. induction H as [|x a b H [I1 I2]|x y a|a b c H [I1 I2] H' [J1 J2]]; cbn [map fold_right]; lia.
Qed.

(** Two rows with the same recordings in different orders (say, of two processes, or after
    another schedule) differ by at most twice that. *)
Theorem C07_sum_order t t' (ss ss' : list (sample f64_num)) s s' :
  Permutation (values ss) (values ss') ->
  Forall (fun v => f_valid v /\ is_nan v = false) (values ss) -> Z.of_nat (length ss) <= 2 ^ 52 -> exact_size (values ss) <= 2 ^ 1022 * 2 ^ 1074 ->
  aggregate AggSum t ss = SumD t s -> aggregate AggSum t' ss' = SumD t' s' ->
  2 ^ 52 * Z.abs (f_num s - f_num s') <= 2 * Z.of_nat (length ss) * exact_size (values ss).
Proof.
  intros HP HF HL HS E E'. destruct (perm_sums _ _ HP) as [P1 P2].
  assert (LL : length ss = length ss').
  { transitivity (@length f64 (values ss)); [symmetry; apply map_length|]. transitivity (@length f64 (values ss')); [apply Permutation_length; exact HP|apply map_length]. }
  destruct (C07_sum_error t ss HF HL HS) as (r & R & _ & _ & _ & B).
  destruct (C07_sum_error t' ss') as (r' & R' & _ & _ & _ & B'); [| |rewrite <- P2; exact HS|].
  - apply Forall_forall. intros v Hv. rewrite Forall_forall in HF. apply HF. apply Permutation_sym in HP. exact (Permutation_in v HP Hv).
  - rewrite <- LL. exact HL.
  - rewrite R in E. rewrite R' in E'. injection E as <-. injection E' as <-. rewrite <- P1, <- P2, <- LL in B'.
    set (k := 2 ^ 52) in *. assert (K : 0 < k) by (unfold k; lia). clearbody k.
    assert (k * Z.abs (f_num r - f_num r') <= k * (Z.abs (f_num r - exact_sum (values ss)) + Z.abs (f_num r' - exact_sum (values ss)))) by (apply Z.mul_le_mono_nonneg_l; lia). lia.
Qed.

(** The order does matter a little: 0.1, 0.2 and 0.3 (as float64). *)
Theorem C07_order_refuted : exists ss ss' : list (sample f64_num), Permutation (values ss) (values ss') /\
  Forall modest (values ss) /\ aggregate AggSum 0 ss <> aggregate AggSum 0 ss'.
Proof.
  set (a := S754_finite false 7205759403792794 (-56)). set (b := S754_finite false 7205759403792794 (-55)). set (c := S754_finite false 5404319552844595 (-54)).
  exists [smp a; smp b; smp c], [smp c; smp b; smp a]. split; [|split].
  - change (Permutation [a; b; c] [c; b; a]). apply (Permutation_rev [a; b; c]).
  - repeat constructor; vm_compute; congruence.
  - rewrite !C07_sum. vm_compute. congruence.
Qed.

(** The hypotheses are met by these three, and by many more. *)
Example sum_case : let vs := [S754_finite false 7205759403792794 (-56); S754_finite false 7205759403792794 (-55); f_of_Z (-3)] in
  Forall (fun v => f_valid v /\ is_nan v = false) vs /\ exact_size vs <= 2 ^ 1022 * 2 ^ 1074.
Proof. cbv zeta. split; [repeat constructor|vm_compute; congruence]. Qed.

Print Assumptions C07_sum_error.
Print Assumptions C07_sum_order.
Print Assumptions C07_order_refuted.
