(** C80: the numbers on the HTML rpcz page. *)

From Coq Require Import String.
From Coq Require Import List Arith NArith ZArith Reals Bool Lia Lra ZifyBool ZifyNat ZifyN.
From Coq Require Import Floats.SpecFloat.
From Flocq Require Import Core.Core IEEE754.BinarySingleNaN.
From Verif Require Import Base Text Float64 FloatAdd FloatDiv FloatErr SamplerProps HttpModel HttpSpec HttpProofs ZpagesModel ZpagesProofs
  ZpagesNumModel ZpagesNumSpec.
Import ListNotations.
Open Scope nat_scope.

(** ** Rounding to thousandths *)

Lemma round_even_spec a b : (0 < b)%Z -> (2 * Z.abs (round_even a b * b - a) <= b)%Z /\
  ((2 * Z.abs (round_even a b * b - a))%Z = b -> Z.even (round_even a b) = true).
Proof.
  intros Hb. unfold round_even. pose proof (Z.div_mod a b ltac:(lia)) as E. pose proof (Z.mod_pos_bound a b Hb) as B.
  set (q := (a / b)%Z) in *. set (r := (a mod b)%Z) in *. cbv zeta.
  assert (A : (q * b - a = - r)%Z) by lia. assert (A' : ((q + 1) * b - a = b - r)%Z) by lia.
  destruct (Z.ltb_spec (2 * r) b); [rewrite A; split; lia|].
  destruct (Z.ltb_spec b (2 * r)); [rewrite A'; split; lia|].
  destruct (Z.even q) eqn:Q; [rewrite A; split; [lia|now intros _]|]. rewrite A'. split; [lia|]. intros _. rewrite Z.even_add, Q. reflexivity.
Qed.

Lemma round_even_nonneg a b : (0 <= a)%Z -> (0 < b)%Z -> (0 <= round_even a b)%Z.
Proof. intros Ha Hb. unfold round_even. pose proof (Z.div_pos a b Ha Hb). destruct (_ <? _)%Z; [lia|]. destruct (_ <? _)%Z; [lia|]. destruct (Z.even _); lia. Qed.

Lemma thousandths_nonneg m e : (0 <= thousandths m e)%Z.
Proof.
  unfold thousandths. destruct (Z.leb_spec 0 e).
  - apply Z.mul_nonneg_nonneg; [lia|apply Z.pow_nonneg; lia].
  - apply round_even_nonneg; [lia|apply Z.pow_pos_nonneg; lia].
Qed.

(** The text with three digits. *)
Lemma shows_fixed neg k : (0 <= k)%Z -> shows3 (fixed_text neg k) neg (if neg then - k else k)%Z.
Proof.
  intros Hk. pose proof (Z.mod_pos_bound k 1000 ltac:(lia)) as B. pose proof (Z.div_mod k 1000 ltac:(lia)) as E.
  pose proof (Z.div_pos k 1000 Hk ltac:(lia)) as P.
  destruct (format_dec_spec (Z.to_N (k mod 1000))) as (d & Ed & Hne & _ & Hv).
  assert (Hl : length d <= 3).
  { rewrite <- Ed. apply format_dec_length; [|lia]. change (10 ^ N.of_nat 3)%N with 1000%N. lia. }
  exists (itoa (k / 1000)), (pad zero_digit 3 (itoa (k mod 1000))), (Z.to_N (k / 1000)), (Z.to_N (k mod 1000)).
  split; [reflexivity|]. split; [rewrite Z2N.id by lia; apply itoa_decimal|]. rewrite itoa_nonneg by lia. rewrite Ed.
  split; [unfold pad; rewrite app_length, repeat_length; lia|]. split; [apply dec_value_zeros, Hv|]. rewrite !Z2N.id by lia. destruct neg; lia.
Qed.

(** Finite: not NaN and no infinity. *)
Definition finite_value (x : f64) : Prop := f_valid x /\ is_nan x = false /\ (Z.abs (f_num x) < 2 ^ 2098)%Z.

(** ** Rates *)

(** A rate is shown as the nearest number of thousandths, in the middle as the even one; what
    is no number is named. *)
Theorem C80_rate x : f_valid x ->
  (finite_value x -> exists neg k, shows3 (rate_text x) neg k /\ (neg = true -> (f_num x <= 0)%Z) /\ (neg = false -> (0 <= f_num x)%Z) /\
     (2 * Z.abs (k * 2 ^ 1074 - 1000 * f_num x) <= 2 ^ 1074)%Z /\
     ((2 * Z.abs (k * 2 ^ 1074 - 1000 * f_num x))%Z = (2 ^ 1074)%Z -> Z.even k = true)) /\
  (is_nan x = true -> rate_text x = bs "NaN") /\
  (f_num x = (2 ^ 2098)%Z -> rate_text x = bs "+Inf") /\ (f_num x = (- 2 ^ 2098)%Z -> rate_text x = bs "-Inf").
Proof.
  intros V. split; [|split; [|split]].
  - intros (_ & Nn & Fin). destruct x as [s|s| |s m e].
    + exists s, 0%Z. split; [pose proof (shows_fixed s 0 ltac:(lia)) as Z0; destruct s; exact Z0|]. unfold f_num. repeat split; lia.
    + exfalso. unfold f_num in Fin. destruct s; lia.
    + discriminate Nn.
    + unfold rate_text, fix3. set (k := thousandths m e). pose proof (thousandths_nonneg m e : (0 <= k)%Z) as Hk. destruct (valid_finite s m e V) as (He & _ & _).
      assert (P : (0 < 2 ^ (e + 1074))%Z) by (apply Z.pow_pos_nonneg; lia).
      assert (S : (2 * Z.abs (k * 2 ^ 1074 - 1000 * (Zpos m * 2 ^ (e + 1074))) <= 2 ^ 1074)%Z /\
                  ((2 * Z.abs (k * 2 ^ 1074 - 1000 * (Zpos m * 2 ^ (e + 1074))))%Z = (2 ^ 1074)%Z -> Z.even k = true)).
      { unfold k, thousandths. destruct (Z.leb_spec 0 e) as [Hp|Hn].
        - rewrite (Z.pow_add_r 2 e 1074) by lia.
          replace (1000 * Z.pos m * 2 ^ e * 2 ^ 1074 - 1000 * (Z.pos m * (2 ^ e * 2 ^ 1074)))%Z with 0%Z by ring. cbn [Z.abs]. split; lia.
        - assert (Pe : (0 < 2 ^ (- e))%Z) by (apply Z.pow_pos_nonneg; lia). destruct (round_even_spec (1000 * Z.pos m) (2 ^ (- e)) Pe) as [S1 S2].
          set (q := round_even (1000 * Z.pos m) (2 ^ (- e))) in *.
          replace (2 ^ 1074)%Z with (2 ^ (- e) * 2 ^ (e + 1074))%Z by (rewrite <- Z.pow_add_r by lia; f_equal; lia).
          replace (q * (2 ^ (- e) * 2 ^ (e + 1074)) - 1000 * (Z.pos m * 2 ^ (e + 1074)))%Z with ((q * 2 ^ (- e) - 1000 * Z.pos m) * 2 ^ (e + 1074))%Z by ring.
          rewrite Z.abs_mul, (Z.abs_eq (2 ^ (e + 1074))) by lia. rewrite Z.mul_assoc. split.
          + apply Z.mul_le_mono_nonneg_r; lia.
          + intros H. apply Z.mul_reg_r in H; [|lia]. exact (S2 H). }
      exists s, (if s then - k else k)%Z. split; [apply shows_fixed, Hk|]. unfold f_num. destruct s; (split; [lia|]; split; [lia|]).
      * replace (- k * 2 ^ 1074 - 1000 * - (Z.pos m * 2 ^ (e + 1074)))%Z with (- (k * 2 ^ 1074 - 1000 * (Z.pos m * 2 ^ (e + 1074))))%Z by ring.
        rewrite Z.abs_opp, Z.even_opp. exact S.
      * exact S.
  - intros N. destruct x; try discriminate N. reflexivity.
  - intros I. destruct x as [s|s| |s m e]; unfold f_num in I; try (destruct s; try lia; reflexivity); [lia|].
    destruct (finite_bound s m e V). destruct s; lia.
  - intros I. destruct x as [s|s| |s m e]; unfold f_num in I; try (destruct s; try lia; reflexivity); [lia|].
    destruct (finite_bound s m e V). destruct s; lia.
Qed.

(** ** The thousandths as reals *)

Lemma fix3_near (b : b64) : is_finite b = true -> exists k, shows3 (fix3 (B2SF b)) (Bsign b) k /\ (Rabs (IZR k - 1000 * B2R b) <= / 2)%R /\
  ((Rabs (IZR k - 1000 * B2R b) = / 2)%R -> Z.even k = true).
Proof.
  intros F. assert (V : f_valid (B2SF b)) by apply valid_binary_B2SF.
  destruct b as [s|s| |s m e H]; try discriminate F.
  - exists 0%Z. cbn [B2SF Bsign fix3 B2R]. split; [pose proof (shows_fixed s 0 ltac:(lia)) as Z0; destruct s; exact Z0|]. rewrite Rmult_0_r, Rminus_0_r, Rabs_R0. split; [lra|reflexivity].
  - destruct (proj1 (C80_rate (B2SF (B754_finite s m e H)) V)) as (neg & k & S & N1 & N2 & B & Ev).
    { split; [exact V|]. split; [reflexivity|]. destruct (finite_bound s m e V). unfold f_num. cbn [B2SF]. destruct s; lia. }
    assert (neg = s). { cbn [B2SF] in N1, N2. destruct (finite_bound s m e V). unfold f_num in *. destruct s, neg; try reflexivity; [specialize (N2 eq_refl)|specialize (N1 eq_refl)]; lia. }
    subst neg. exists k. split; [exact S|]. pose proof (num_R (B754_finite s m e H) F) as E.
    set (X := B2R (B754_finite s m e H)) in *. set (f := f_num (B2SF (B754_finite s m e H))) in *.
    assert (P : (0 < bpow radix2 1074)%R) by apply bpow_gt_0.
    assert (M : (Rabs (IZR k - 1000 * X) * bpow radix2 1074 = IZR (Z.abs (k * 2 ^ 1074 - 1000 * f)))%R).
    { rewrite <- (Rabs_pos_eq (bpow radix2 1074)) at 1 by lra. rewrite <- Rabs_mult, abs_IZR. f_equal.
      rewrite minus_IZR, !mult_IZR, E. change (2 ^ 1074)%Z with (radix2 ^ 1074)%Z. rewrite (IZR_Zpower radix2) by lia. ring. }
    assert (I2 : IZR (2 ^ 1074) = bpow radix2 1074) by (change (2 ^ 1074)%Z with (radix2 ^ 1074)%Z; apply (IZR_Zpower radix2); lia). split.
    + apply Rmult_le_reg_r with (bpow radix2 1074); [exact P|]. rewrite M. apply IZR_le in B. rewrite mult_IZR, I2 in B. lra.
    + intros T. apply Ev. apply eq_IZR. rewrite mult_IZR, I2, <- M, T. lra.
Qed.

Lemma near_mono (x y : R) (k l : Z) : (x <= y)%R -> (Rabs (IZR k - 1000 * x) <= / 2)%R -> (Rabs (IZR l - 1000 * y) <= / 2)%R ->
  ((Rabs (IZR k - 1000 * x) = / 2)%R -> Z.even k = true) -> ((Rabs (IZR l - 1000 * y) = / 2)%R -> Z.even l = true) -> (k <= l)%Z.
Proof.
  intros H A B E1 E2. destruct (Z.le_gt_cases k l) as [|G]; [assumption|exfalso].
  assert (G' : (IZR l + 1 <= IZR k)%R) by (rewrite <- plus_IZR; apply IZR_le; lia).
  pose proof (Rle_abs (IZR k - 1000 * x)) as A'. pose proof (Rle_abs (- (IZR l - 1000 * y))) as B'. rewrite Rabs_Ropp in B'.
  assert (Q : (IZR k = IZR l + 1)%R) by lra. assert (k = l + 1)%Z by (apply eq_IZR; rewrite plus_IZR; exact Q). subst k.
  assert (Z.even (l + 1) = true) by (apply E1; rewrite Rabs_pos_eq; lra). assert (Z.even l = true) by (apply E2; rewrite <- Rabs_Ropp, Rabs_pos_eq; lra).
  rewrite Z.even_add, H1 in H0. discriminate H0.
Qed.

(** ** Counts *)

Lemma unit_R u letter : In (u, letter) units -> exists b : b64, f_of_Z u = B2SF b /\ is_finite b = true /\ B2R b = IZR u /\ (10 ^ 6 <= u <= 10 ^ 18)%Z.
Proof.
  intros H. assert (exists c j, u = (c * 2 ^ j)%Z /\ (Z.abs c < 2 ^ 53)%Z /\ (0 <= j)%Z /\ (10 ^ 6 <= u <= 10 ^ 18)%Z) as (c & j & Eu & Hc & Hj & Hu).
  { cbn in H. destruct H as [H|[H|[H|[H|[H|[]]]]]]; injection H as <- _;
      [exists (5 ^ 6)%Z, 6%Z|exists (5 ^ 9)%Z, 9%Z|exists (5 ^ 12)%Z, 12%Z|exists (5 ^ 15)%Z, 15%Z|exists (5 ^ 18)%Z, 18%Z]; repeat split; try reflexivity; lia. }
  destruct (f_of_Z_R u) as (b & E & F & R); [lia|]. exists b. split; [exact E|]. split; [exact F|]. split; [|exact Hu]. rewrite R.
  apply round_generic; [apply valid_rnd_round_mode|]. apply (generic_format_FLT radix2 (-1074) 53). exists (Float radix2 c j).
  - unfold F2R. cbn [Fnum Fexp]. rewrite <- (IZR_Zpower radix2) by lia. rewrite <- mult_IZR. f_equal. exact Eu.
  - exact Hc.
  - cbn [Fexp]. lia.
Qed.

Lemma small_e : (bpow radix2 (-53) <= / 1000000000000000 /\ 0 < bpow radix2 (-53) /\ bpow radix2 (-1075) <= / 1000000000000000 /\ 0 < bpow radix2 (-1075))%R.
Proof.
  assert (A : (bpow radix2 (-53) <= / 1000000000000000)%R) by (change (bpow radix2 (-53)) with (/ 9007199254740992)%R; apply Rinv_le_contravar; lra).
  assert (B : (bpow radix2 (-1075) <= bpow radix2 (-53))%R) by (apply bpow_le; lia).
  pose proof (bpow_gt_0 radix2 (-53)). pose proof (bpow_gt_0 radix2 (-1075)). lra.
Qed.

(** The quotient of a count and a unit. *)
Lemma quot_err (n u : R) : (1 <= u)%R -> (0 <= n <= 1000 * u)%R ->
  (Rabs (rnd n / u) <= 1001)%R /\ (Rabs (rnd (rnd n / u) - n / u) <= / 1000000000)%R.
Proof.
  intros Hu Hn. destruct small_e as (E1 & E2 & E3 & E4). set (e := bpow radix2 (-53)) in *. set (h := bpow radix2 (-1075)) in *.
  pose proof (rnd_err n) as A. fold e h in A. rewrite (Rabs_pos_eq n) in A by lra.
  assert (I : (0 < / u <= 1)%R). { split; [apply Rinv_0_lt_compat; lra|]. rewrite <- Rinv_1. apply Rinv_le_contravar; lra. }
  assert (T : (0 <= n / u <= 1000)%R).
  { split; [apply Rmult_le_pos; lra|]. apply Rmult_le_reg_r with u; [lra|]. unfold Rdiv. rewrite Rmult_assoc, Rinv_l, Rmult_1_r by lra. lra. }
  assert (B : (Rabs (rnd n / u - n / u) <= 1000 * e + h)%R).
  { replace (rnd n / u - n / u)%R with ((rnd n - n) * / u)%R by (unfold Rdiv; ring). rewrite Rabs_mult, (Rabs_pos_eq (/ u)) by lra.
    apply Rle_trans with ((n * e + h) * / u)%R; [apply Rmult_le_compat_r; lra|]. rewrite Rmult_plus_distr_r.
    apply Rplus_le_compat.
    - replace (n * e * / u)%R with ((n / u) * e)%R by (unfold Rdiv; ring). apply Rmult_le_compat_r; lra.
    - rewrite <- (Rmult_1_r h) at 2. apply Rmult_le_compat_l; lra. }
  assert (C : (Rabs (rnd n / u) <= 1001)%R).
  { replace (rnd n / u)%R with ((rnd n / u - n / u) + n / u)%R by ring. eapply Rle_trans; [apply Rabs_triang|]. rewrite (Rabs_pos_eq (n / u)) by lra. lra. }
  split; [exact C|]. pose proof (rnd_err (rnd n / u)) as D. fold e h in D.
  assert (D' : (Rabs (rnd n / u) * e <= 1001 * e)%R) by (apply Rmult_le_compat_r; lra).
  replace (rnd (rnd n / u) - n / u)%R with ((rnd (rnd n / u) - rnd n / u) + (rnd n / u - n / u))%R by ring.
  eapply Rle_trans; [apply Rabs_triang|]. lra.
Qed.

(** A count of a million or more. *)
Lemma large_count n u letter : In (u, letter) units -> (u <= n <= 1000 * u)%Z -> (n < 2 ^ 64)%Z ->
  exists k, shows3 (fix3 (f_div (f_of_Z n) (f_of_Z u))) false k /\
    (Rabs (IZR k - 1000 * rnd (rnd (IZR n) / IZR u)) <= / 2)%R /\ ((Rabs (IZR k - 1000 * rnd (rnd (IZR n) / IZR u)) = / 2)%R -> Z.even k = true).
Proof.
  intros Hu Hn H64. destruct (unit_R u letter Hu) as (b & Eb & Fb & Rb & Bu). destruct (f_of_Z_R n) as (x & Ex & Fx & Rx); [lia|].
  assert (U1 : (1 <= IZR u)%R) by (apply IZR_le; lia). assert (Hr : (0 <= IZR n <= 1000 * IZR u)%R) by (rewrite <- mult_IZR; split; apply IZR_le; lia).
  destruct (quot_err (IZR n) (IZR u) U1 Hr) as [Q1 Q2]. destruct (f_div_R x b 10) as [Fq Rq]; [exact Fx|rewrite Rb; lra|lia| |].
  { rewrite Rb, Rx. eapply Rle_trans; [exact Q1|]. change (bpow radix2 10) with 1024%R. lra. }
  rewrite Rx, Rb in Rq. rewrite Ex, Eb, f_div_equiv. destruct (fix3_near (b_div x b) Fq) as (k & S & A & E). rewrite Rq in A, E.
  assert (Sg : Bsign (b_div x b) = false).
  { assert (Pos : (0 < B2R (b_div x b))%R).
    { rewrite Rq. assert (1 <= IZR n / IZR u)%R. { apply Rmult_le_reg_r with (IZR u); [lra|]. unfold Rdiv. rewrite Rmult_assoc, Rinv_l, Rmult_1_r, Rmult_1_l by lra. apply IZR_le. lia. }
      pose proof (Rle_abs (- (rnd (rnd (IZR n) / IZR u) - IZR n / IZR u))) as L. rewrite Rabs_Ropp in L. lra. }
    destruct (b_div x b) as [s|s| |s m e H]; cbn [B2R Bsign] in *; try discriminate Fq; [lra|].
    destruct s; [|reflexivity]. exfalso. unfold F2R in Pos. cbn [Fnum Fexp cond_Zopp] in Pos.
    pose proof (bpow_gt_0 radix2 e). assert (IZR (Z.neg m) < 0)%R by (apply IZR_lt; lia).
    apply (Rlt_irrefl 0). eapply Rlt_trans; [exact Pos|]. rewrite <- (Rmult_0_l (bpow radix2 e)). apply Rmult_lt_compat_r; assumption. }
  rewrite Sg in S. exists k. repeat split; assumption.
Qed.

Lemma count_cases n : (1000000 <= n < 2 ^ 64)%Z -> exists u letter, In (u, letter) units /\ (u <= n < 1000 * u)%Z /\
  count_text (Z.to_N n) = fix3 (f_div (f_of_Z n) (f_of_Z u)) ++ letter.
Proof.
  intros H. unfold count_text. rewrite Z2N.id by lia. destruct (N.eqb_spec (Z.to_N n) 0); [lia|].
  change (10 ^ 18)%N with (Z.to_N (10 ^ 18)). change (10 ^ 15)%N with (Z.to_N (10 ^ 15)). change (10 ^ 12)%N with (Z.to_N (10 ^ 12)).
  change (10 ^ 9)%N with (Z.to_N (10 ^ 9)). change (10 ^ 6)%N with (Z.to_N (10 ^ 6)).
  assert (L : forall u, (0 <= u)%Z -> (Z.to_N u <=? Z.to_N n)%N = (u <=? n)%Z).
  { intros u Hu. destruct (Z.leb_spec u n), (N.leb_spec (Z.to_N u) (Z.to_N n)); try reflexivity; lia. }
  rewrite !L by lia.
  destruct (Z.leb_spec (10 ^ 18) n); [exists (10 ^ 18)%Z, (bs " E "); split; [cbn; tauto|split; [lia|reflexivity]]|].
  destruct (Z.leb_spec (10 ^ 15) n); [exists (10 ^ 15)%Z, (bs " P "); split; [cbn; tauto|split; [lia|reflexivity]]|].
  destruct (Z.leb_spec (10 ^ 12) n); [exists (10 ^ 12)%Z, (bs " T "); split; [cbn; tauto|split; [lia|reflexivity]]|].
  destruct (Z.leb_spec (10 ^ 9) n); [exists (10 ^ 9)%Z, (bs " G "); split; [cbn; tauto|split; [lia|reflexivity]]|].
  destruct (Z.leb_spec (10 ^ 6) n); [exists (10 ^ 6)%Z, (bs " M "); split; [cbn; tauto|split; [lia|reflexivity]]|]. lia.
Qed.

Theorem C80_count n : (0 <= n < 2 ^ 64)%Z ->
  (n = 0%Z -> count_text (Z.to_N n) = bs " ") /\
  ((0 < n < 1000000)%Z -> decimal n (count_text (Z.to_N n))) /\
  ((1000000 <= n)%Z -> exists u letter t k, In (u, letter) units /\ (u <= n < 1000 * u)%Z /\ count_text (Z.to_N n) = t ++ letter /\ shows3 t false k /\
     (1000 * Z.abs (k * u - 1000 * n) <= 501 * u)%Z).
Proof.
  intros Hn. split; [|split].
  - intros ->. reflexivity.
  - intros H. unfold count_text. rewrite Z2N.id by lia. destruct (N.eqb_spec (Z.to_N n) 0); [lia|].
    do 5 (match goal with |- context [(?a <=? ?b)%N] => destruct (N.leb_spec a b); [exfalso; lia|] end). apply itoa_decimal.
  - intros H. destruct (count_cases n ltac:(lia)) as (u & letter & Hu & B & E). exists u, letter. destruct (large_count n u letter Hu ltac:(lia) ltac:(lia)) as (k & S & A & _).
    exists (fix3 (f_div (f_of_Z n) (f_of_Z u))), k. split; [exact Hu|]. split; [exact B|]. split; [exact E|]. split; [exact S|].
    destruct (unit_R u letter Hu) as (_ & _ & _ & _ & Bu). apply le_IZR. rewrite !mult_IZR, abs_IZR, minus_IZR, !mult_IZR.
    assert (U1 : (1 <= IZR u)%R) by (apply IZR_le; lia).
    destruct (quot_err (IZR n) (IZR u) U1) as [_ Q]; [rewrite <- mult_IZR; split; apply IZR_le; lia|].
    replace (IZR k * IZR u - 1000 * IZR n)%R with
      (((IZR k - 1000 * rnd (rnd (IZR n) / IZR u)) + 1000 * (rnd (rnd (IZR n) / IZR u) - IZR n / IZR u)) * IZR u)%R by (field; lra).
    rewrite Rabs_mult, (Rabs_pos_eq (IZR u)), <- Rmult_assoc by lra. apply Rmult_le_compat_r; [lra|].
    pose proof (Rabs_triang (IZR k - 1000 * rnd (rnd (IZR n) / IZR u)) (1000 * (rnd (rnd (IZR n) / IZR u) - IZR n / IZR u))) as T.
    rewrite (Rabs_mult 1000), (Rabs_pos_eq 1000) in T by lra. lra.
Qed.

(** The larger count is never shown as the smaller one. *)
Theorem C80_count_order n m : (0 <= n <= m)%Z -> (m < 2 ^ 64)%Z ->
  exists v w, reads_count (count_text (Z.to_N n)) v /\ reads_count (count_text (Z.to_N m)) w /\ (v <= w)%Z.
Proof.
  intros H Hm.
  assert (Small : forall x, (0 <= x < 1000000)%Z -> reads_count (count_text (Z.to_N x)) (1000 * x)).
  { intros x Hx. destruct (C80_count x ltac:(lia)) as (Z0 & D & _). destruct (Z.eq_dec x 0) as [->|]; [left; split; [exact (Z0 eq_refl)|reflexivity]|].
    right. left. exists x. split; [apply D; lia|reflexivity]. }
  assert (Large : forall x, (1000000 <= x < 2 ^ 64)%Z -> exists u letter k, In (u, letter) units /\ (u <= x < 1000 * u)%Z /\
    reads_count (count_text (Z.to_N x)) (k * u) /\ (1000 <= k <= 1000000)%Z /\
    (Rabs (IZR k - 1000 * rnd (rnd (IZR x) / IZR u)) <= / 2)%R /\ ((Rabs (IZR k - 1000 * rnd (rnd (IZR x) / IZR u)) = / 2)%R -> Z.even k = true)).
  { intros x Hx. destruct (count_cases x Hx) as (u & letter & Hu & B & E). destruct (large_count x u letter Hu ltac:(lia) ltac:(lia)) as (k & S & A & T).
    exists u, letter, k. split; [exact Hu|]. split; [exact B|]. split.
    { right. right. exists (fix3 (f_div (f_of_Z x) (f_of_Z u))), k, u, letter. repeat split; assumption. }
    split; [|split; assumption]. destruct (unit_R u letter Hu) as (_ & _ & _ & _ & Bu). assert (U1 : (1 <= IZR u)%R) by (apply IZR_le; lia).
    destruct (quot_err (IZR x) (IZR u) U1) as [_ Q]; [rewrite <- mult_IZR; split; apply IZR_le; lia|].
    assert (Tl : (1 <= IZR x / IZR u <= 1000)%R).
    { split; (apply Rmult_le_reg_r with (IZR u); [lra|]; unfold Rdiv; rewrite Rmult_assoc, Rinv_l, Rmult_1_r by lra); [rewrite Rmult_1_l|rewrite <- mult_IZR]; apply IZR_le; lia. }
    set (q := rnd (rnd (IZR x) / IZR u)) in *. apply Rabs_le_inv in A, Q.
    assert (999 < k < 1000001)%Z; [|lia]. split; apply lt_IZR; lra. }
  destruct (Z.lt_ge_cases m 1000000).
  - exists (1000 * n)%Z, (1000 * m)%Z. split; [apply Small; lia|]. split; [apply Small; lia|]. lia.
  - destruct (Large m ltac:(lia)) as (u & lu & k & Hu & Bu & R & K & A & T). destruct (unit_R u lu Hu) as (_ & _ & _ & _ & Uu).
    destruct (Z.lt_ge_cases n 1000000).
    + exists (1000 * n)%Z, (k * u)%Z. split; [apply Small; lia|]. split; [exact R|]. nia.
    + destruct (Large n ltac:(lia)) as (u' & lu' & k' & Hu' & Bu' & R' & K' & A' & T'). destruct (unit_R u' lu' Hu') as (_ & _ & _ & _ & Uu').
      exists (k' * u')%Z, (k * u)%Z. split; [exact R'|]. split; [exact R|].
      assert (C : u' = u \/ (1000 * u' <= u)%Z \/ (1000 * u <= u')%Z).
      { cbn in Hu, Hu'. destruct Hu as [Hu|[Hu|[Hu|[Hu|[Hu|[]]]]]], Hu' as [Hu'|[Hu'|[Hu'|[Hu'|[Hu'|[]]]]]]; injection Hu as <- _; injection Hu' as <- _; lia. }
      destruct C as [->|[C|C]]; [|nia|nia].
      apply Z.mul_le_mono_nonneg_r; [lia|]. apply (near_mono (rnd (rnd (IZR n) / IZR u)) (rnd (rnd (IZR m) / IZR u))); try assumption.
      apply rnd_mono. apply Rmult_le_compat_r; [apply Rlt_le, Rinv_0_lt_compat, IZR_lt; lia|]. apply rnd_mono. apply IZR_le. lia.
Qed.

(** Finding: just below the next unit a thousand of the smaller one is shown. *)
Theorem C80_unit_refuted : count_text 999999999 = bs "1000.000 M ".
Proof. vm_compute. reflexivity. Qed.

(** ** Latencies *)

Theorem C80_latency d : 
  (d = 0%Z -> ms_text d = bs "0") /\
  ((10000000 <= d)%Z -> exists ms, decimal ms (ms_text d) /\ (1000000 * ms <= d < 1000000 * (ms + 1))%Z) /\
  (d <> 0%Z -> (- 10 ^ 15 <= d < 10000000)%Z -> exists neg k, shows3 (ms_text d) neg k /\ (Z.abs (1000 * k - d) <= 501)%Z).
Proof.
  split; [intros ->; reflexivity|]. split.
  - intros H. exists (d / 1000000)%Z. unfold ms_text. destruct (Z.eqb_spec d 0); [lia|]. destruct (Z.ltb_spec d 10000000); [lia|].
    split; [apply itoa_decimal|]. pose proof (Z.div_mod d 1000000 ltac:(lia)). pose proof (Z.mod_pos_bound d 1000000 ltac:(lia)). lia.
  - intros N H. unfold ms_text. destruct (Z.eqb_spec d 0); [lia|]. destruct (Z.ltb_spec d 10000000); [|lia].
    destruct (f_of_Z_R d) as (x & Ex & Fx & Rx); [lia|].
    assert (Vc : f_valid f_1e_6) by reflexivity. destruct (to_b f_1e_6 Vc) as [c Ec].
    assert (Fc : is_finite c = true) by (destruct c; try discriminate Ec; reflexivity).
    assert (Rc : (B2R c = 4722366482869645 * / 4722366482869645213696)%R).
    { destruct c; try discriminate Ec. injection Ec as <- <- <-. reflexivity. }
    assert (D : (- 1000000000000000 <= IZR d <= 10000000)%R) by (split; apply IZR_le; lia).
    destruct small_e as (E1 & E2 & E3 & E4). pose proof (rnd_err (IZR d)) as A.
    assert (E1' : (bpow radix2 (-53) <= / 9000000000000000)%R) by (change (bpow radix2 (-53)) with (/ 9007199254740992)%R; apply Rinv_le_contravar; lra).
    set (e := bpow radix2 (-53)) in *. set (h := bpow radix2 (-1075)) in *.
    assert (Ad : (Rabs (IZR d) <= 1000000000000000)%R) by (apply Rabs_le; lra).
    assert (A' : (Rabs (rnd (IZR d) - IZR d) <= / 8)%R). { eapply Rle_trans; [exact A|]. assert (Rabs (IZR d) * e <= 1000000000000000 * e)%R by (apply Rmult_le_compat_r; lra). lra. }
    set (X := rnd (IZR d)) in *. apply Rabs_le_inv in A'.
    assert (Bx : (Rabs (X * B2R c) <= 1000000001)%R). { rewrite Rc. apply Rabs_le. lra. }
    destruct (f_mul_R x c 40) as [Fq Rq]; [exact Fx|exact Fc|lia| |].
    { rewrite Rx. fold X. eapply Rle_trans; [exact Bx|]. change (bpow radix2 40) with 1099511627776%R. lra. }
    rewrite Rx in Rq. fold X in Rq. rewrite Ex, Ec, f_times_equiv. destruct (fix3_near (b_times x c) Fq) as (k & S & B & _).
    exists (Bsign (b_times x c)), k. split; [exact S|]. rewrite Rq in B. pose proof (rnd_err (X * B2R c)) as Q. fold e h in Q.
    assert (Q' : (Rabs (X * B2R c) * e <= 1000000001 * e)%R) by (apply Rmult_le_compat_r; lra).
    apply le_IZR. rewrite abs_IZR, minus_IZR, mult_IZR. set (q := rnd (X * B2R c)) in *. rewrite Rc in *.
    assert (Q2 : (Rabs (q - X * (4722366482869645 * / 4722366482869645213696)) <= 1000000001 * e + h)%R) by lra.
    apply Rabs_le_inv in B, Q2. apply Rabs_le. lra.
Qed.

(** ** Data rates *)

(** Shown in millions of bytes per second, up to half a thousandth and the rounding. *)
Theorem C80_data_rate b : f_valid b -> is_nan b = false -> (Z.abs (f_num b) <= 2 ^ 50 * 2 ^ 1074)%Z ->
  exists neg k, shows3 (data_rate_text b) neg k /\ (Z.abs (1000 * k * 2 ^ 1074 - f_num b) <= 501 * 2 ^ 1074)%Z.
Proof.
  intros V Nn H. destruct (to_b b V) as [x ->].
  assert (Fx : is_finite x = true).
  { destruct x as [s|s| |s m e B]; try reflexivity; [|discriminate Nn]. exfalso. unfold f_num in H. cbn [B2SF] in H. destruct s; lia. }
  pose proof (num_R x Fx) as Ex. assert (P : (0 < bpow radix2 1074)%R) by apply bpow_gt_0.
  assert (I2 : IZR (2 ^ 1074) = bpow radix2 1074) by (change (2 ^ 1074)%Z with (radix2 ^ 1074)%Z; apply (IZR_Zpower radix2); lia).
  assert (Hx : (Rabs (B2R x) <= 1125899906842624)%R).
  { apply Rmult_le_reg_r with (bpow radix2 1074); [exact P|]. rewrite <- (Rabs_pos_eq (bpow radix2 1074)) at 1 by lra. rewrite <- Rabs_mult, <- Ex, <- abs_IZR, <- I2, <- mult_IZR.
    apply IZR_le. exact H. }
  destruct (unit_R (10 ^ 6) (bs " M ")) as (y & Ey & Fy & Ry & _); [cbn; tauto|].
  unfold data_rate_text. change (f_of_Z 1000000) with (f_of_Z (10 ^ 6)). rewrite Ey, f_div_equiv.
  change (IZR (10 ^ 6)) with 1000000%R in Ry.
  assert (Hq : (Rabs (B2R x / B2R y) <= 1125899907)%R). { rewrite Ry. unfold Rdiv. rewrite Rabs_mult, (Rabs_pos_eq (/ 1000000)) by lra. lra. }
  destruct (f_div_R x y 40) as [Fq Rq]; [exact Fx|rewrite Ry; lra|lia| |].
  { eapply Rle_trans; [exact Hq|]. change (bpow radix2 40) with 1099511627776%R. lra. }
  destruct (fix3_near (b_div x y) Fq) as (k & S & B & _). exists (Bsign (b_div x y)), k. split; [exact S|]. rewrite Rq in B.
  pose proof (rnd_err (B2R x / B2R y)) as Q. destruct small_e as (E1 & E2 & E3 & E4).
  assert (E1' : (bpow radix2 (-53) <= / 9000000000000000)%R) by (change (bpow radix2 (-53)) with (/ 9007199254740992)%R; apply Rinv_le_contravar; lra).
  set (e := bpow radix2 (-53)) in *. set (h := bpow radix2 (-1075)) in *.
  assert (Q' : (Rabs (B2R x / B2R y) * e <= 1125899907 * e)%R) by (apply Rmult_le_compat_r; lra).
  set (q := rnd (B2R x / B2R y)) in *. rewrite Ry in *.
  assert (Q2 : (Rabs (q - B2R x / 1000000) <= 1125899907 * e + h)%R) by lra. apply Rabs_le_inv in B, Q2.
  apply le_IZR. rewrite abs_IZR, minus_IZR, !mult_IZR, I2, Ex.
  replace (1000 * IZR k * bpow radix2 1074 - B2R x * bpow radix2 1074)%R with ((1000 * IZR k - B2R x) * bpow radix2 1074)%R by ring.
  rewrite Rabs_mult, (Rabs_pos_eq (bpow radix2 1074)) by lra. apply Rmult_le_compat_r; [lra|]. apply Rabs_le. unfold Rdiv in Q2. lra.
Qed.

(** ** The row of a method *)

(** The totals stand under their headings; the other cells show nothing or zero. *)
Theorem C80_row s :
  nth_error (html_cells s) 0 = Some (sn_method s) /\ length (html_cells s) = 1 + 3 * length html_groups /\
  let total g := cell_under html_groups g 2 (html_cells s) in
  total (bs "Count") = Some (count_text (sn_count s)) /\ total (bs "Errors") = Some (count_text (sn_errors s)) /\
  total (bs "Avg latency (ms)") = Some (ms_text (sn_latency s)) /\ total (bs "Rate (rpc/s)") = Some (rate_text (sn_rate s)) /\
  total (bs "Input (kb/s)") = Some (data_rate_text (sn_in s)) /\ total (bs "Output (kb/s)") = Some (data_rate_text (sn_out s)) /\
  (forall g j x, j < 2 -> cell_under html_groups g j (html_cells s) = Some x -> In x [bs " "; bs "0"; bs "0.000"]).
Proof.
  split; [reflexivity|]. split; [reflexivity|]. cbv zeta. do 6 (split; [reflexivity|]). intros g j x Hj H. unfold cell_under in H.
  destruct (position g html_groups) as [i|] eqn:P; [|discriminate H].
  assert (Hi : i < 6).
  { clear H. cbn [position html_groups] in P. repeat (match type of P with context [bytes_eqb ?a g] => destruct (bytes_eqb a g) end; [cbn in P; injection P as <-; lia|]). discriminate P. }
  clear P. do 6 (destruct i as [|i]; [destruct j as [|[|j]]; [| |lia]; cbn [nth_error html_cells Nat.add Nat.mul] in H; injection H as <-; vm_compute; tauto|]). lia.
Qed.

(** Finding: what is headed as kb/s is in millions of bytes per second. *)
Theorem C80_kb_refuted : exists s, sn_in s = f_of_Z 1000000 /\ cell_under html_groups (bs "Input (kb/s)") 2 (html_cells s) = Some (bs "1.000").
Proof. exists (MkSnap (bs "m") false 1 0 f_zero (f_of_Z 1000000) f_zero 0). split; [reflexivity|]. vm_compute. reflexivity. Qed.

Example C80_nonvacuous :
  map count_text [0; 7; 999999; 1000000; 1234567; 18446744073709551615]%N =
    [bs " "; bs "7"; bs "999999"; bs "1.000 M "; bs "1.235 M "; bs "18.447 E "] /\
  map ms_text [0; 400; 1500; 9999999; 10000000; 12345678901; -1500]%Z =
    [bs "0"; bs "0.000"; bs "0.002"; bs "10.000"; bs "10"; bs "12345"; bs "-0.002"] /\
  map rate_text [f_of_Z 3; f_div (f_of_Z 1) (f_of_Z 16); f_div (f_of_Z 1) f_zero] = [bs "3.000"; bs "0.062"; bs "+Inf"] /\
  data_rate_text (f_of_Z 2500) = bs "0.003".
Proof. vm_compute. repeat split; reflexivity. Qed.

Print Assumptions C80_rate.
Print Assumptions C80_count.
Print Assumptions C80_count_order.
Print Assumptions C80_unit_refuted.
Print Assumptions C80_latency.
Print Assumptions C80_data_rate.
Print Assumptions C80_row.
Print Assumptions C80_kb_refuted.
