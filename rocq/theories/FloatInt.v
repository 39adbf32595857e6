(** Integers up to 2^53 are exact as float64; the conversion back gives the integer.
    Uses Flocq's proof that its normalisation is correctly rounded; rests on the axioms
    of the standard library's real numbers. *)

From Coq Require Import ZArith Reals Bool Lia Lra.
From Coq Require Import Floats.SpecFloat.
From Flocq Require Import Core.Core IEEE754.BinarySingleNaN.
From Verif Require Import Base Float64 FloatAdd TraceModel SamplerProps.


Lemma f_of_Z_valid n : f_valid (f_of_Z n).
Proof. unfold f_of_Z. rewrite normalize_equiv. apply valid_binary_B2SF. Qed.

Lemma f_of_Z_exact n : (Z.abs n <= 2 ^ 53)%Z -> f_num (f_of_Z n) = (n * 2 ^ 1074)%Z /\ is_nan (f_of_Z n) = false.
Proof.
  intros Hn. unfold f_of_Z. rewrite normalize_equiv.
  pose proof (binary_normalize_correct 53 1024 FloatAdd.Hprec FloatAdd.Hmax mode_NE n 0 false) as C.
  set (b := BinarySingleNaN.binary_normalize 53 1024 FloatAdd.Hprec FloatAdd.Hmax mode_NE n 0 false) in *. cbv zeta in C.
  assert (En : F2R (Float radix2 n 0) = IZR n) by (unfold F2R; cbn [Fnum Fexp]; rewrite Rmult_1_r; reflexivity). rewrite En in C.
  set (fe := SpecFloat.fexp 53 1024) in *.
  assert (VE : Valid_exp fe) by (apply FLT_exp_valid; exact FloatAdd.Hprec).
  assert (G : generic_format radix2 fe (IZR n)).
  { destruct (Z.eq_dec (Z.abs n) (2 ^ 53)) as [E|E].
    - apply (generic_format_FLT radix2 (SpecFloat.emin 53 1024) 53). exists (Float radix2 (Z.sgn n * 2 ^ 52) 1).
      + unfold F2R. cbn [Fnum Fexp]. rewrite <- (IZR_Zpower radix2 1) by lia. rewrite <- mult_IZR. f_equal. change (radix2 ^ 1)%Z with 2%Z. lia.
      + cbn [Fnum]. change (radix_val radix2) with 2%Z. lia.
      + cbn [Fexp]. unfold SpecFloat.emin. lia.
    - apply (generic_format_FLT radix2 (SpecFloat.emin 53 1024) 53). exists (Float radix2 n 0).
      + symmetry. exact En.
      + cbn [Fnum]. change (radix_val radix2) with 2%Z. lia.
      + cbn [Fexp]. unfold SpecFloat.emin. lia. }
  rewrite round_generic in C by (auto; apply valid_rnd_round_mode).
  rewrite Rlt_bool_true in C.
  2:{ rewrite <- abs_IZR. apply Rle_lt_trans with (IZR (2 ^ 53)); [apply IZR_le; exact Hn|]. change (2 ^ 53)%Z with (radix2 ^ 53)%Z.
      rewrite (IZR_Zpower radix2) by lia. apply bpow_lt. lia. }
  destruct C as (C1 & C2 & _). split.
  - apply eq_IZR. rewrite num_R by exact C2. rewrite C1, mult_IZR. change (2 ^ 1074)%Z with (radix2 ^ 1074)%Z. rewrite (IZR_Zpower radix2) by lia. reflexivity.
  - destruct b; try reflexivity. discriminate C2.
Qed.

Theorem uint64_of_Z n : (0 <= n <= 2 ^ 53)%Z -> f_to_uint64 (f_of_Z n) = Z.to_N n.
Proof.
  intros Hn. destruct (f_of_Z_exact n) as [E N]; [lia|]. apply N2Z.inj. rewrite to_uint64_num.
  - rewrite E, Z.div_mul by (apply Z.pow_nonzero; lia). lia.
  - apply f_of_Z_valid.
  - exact N.
  - rewrite E. change 2098%Z with (1024 + 1074)%Z. rewrite Z.pow_add_r by lia. split; [apply Z.mul_nonneg_nonneg; [lia|apply Z.pow_nonneg; lia]|].
    apply Z.mul_lt_mono_pos_r; [apply Z.pow_pos_nonneg; lia|]. apply Z.le_lt_trans with (2 ^ 53)%Z; [lia|]. apply Z.pow_lt_mono_r; lia.
Qed.
