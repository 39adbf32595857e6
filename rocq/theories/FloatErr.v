(** Errors of single float64 operations, from Flocq's proofs that they are correctly
    rounded; rests on the axioms of the standard library's real numbers. *)

From Coq Require Import ZArith Reals Bool Lia Lra.
From Coq Require Import Floats.SpecFloat.
From Flocq Require Import Core.Core IEEE754.BinarySingleNaN Relative.
From Verif Require Import Base Float64 FloatAdd FloatDiv.

Local Instance Hprec : FLX.Prec_gt_0 53 := eq_refl.
Local Instance Hmax : Prec_lt_emax 53 1024 := eq_refl.

Notation rnd := (round radix2 (SpecFloat.fexp 53 1024) (round_mode mode_NE)).
Local Instance VE : Valid_exp (SpecFloat.fexp 53 1024).
Proof. apply FLT_exp_valid. exact Hprec. Qed.

Lemma rnd_err x : (Rabs (rnd x - x) <= Rabs x * bpow radix2 (-53) + bpow radix2 (-1075))%R.
Proof.
  destruct (error_N_FLT radix2 (-1074) 53 eq_refl (fun z => negb (Z.even z)) x) as (eps & eta & H1 & H2 & _ & E).
  change (round radix2 (FLT_exp (-1074) 53) (Znearest (fun z => negb (Z.even z))) x) with (rnd x) in E. rewrite E.
  replace (x * (1 + eps) + eta - x)%R with (x * eps + eta)%R by ring.
  eapply Rle_trans; [apply Rabs_triang|]. rewrite Rabs_mult. apply Rplus_le_compat.
  - apply Rmult_le_compat_l; [apply Rabs_pos|]. eapply Rle_trans; [exact H1|]. change (- (53) + 1)%Z with (-53 + 1)%Z. rewrite bpow_plus. change (bpow radix2 1) with 2%R. lra.
  - eapply Rle_trans; [exact H2|]. change (-1074)%Z with (-1075 + 1)%Z. rewrite bpow_plus. change (bpow radix2 1) with 2%R. lra.
Qed.

Lemma rnd_mono x y : (x <= y)%R -> (rnd x <= rnd y)%R.
Proof. apply round_le; [exact VE|apply valid_rnd_round_mode]. Qed.

Lemma rnd_bound x e : (-1074 < e)%Z -> (Rabs x <= bpow radix2 e)%R -> (Rabs (rnd x) <= bpow radix2 e)%R.
Proof.
  intros He H. apply abs_round_le_generic; [exact VE|apply valid_rnd_round_mode| |exact H].
  apply generic_format_bpow. unfold SpecFloat.fexp, SpecFloat.emin. lia.
Qed.

Lemma f_of_Z_R n : (Z.abs n <= 2 ^ 64)%Z -> exists b : b64, f_of_Z n = B2SF b /\ is_finite b = true /\ B2R b = rnd (IZR n).
Proof.
  intros Hn. unfold f_of_Z. rewrite normalize_equiv.
  pose proof (binary_normalize_correct 53 1024 FloatAdd.Hprec FloatAdd.Hmax mode_NE n 0 false) as C.
  set (b := BinarySingleNaN.binary_normalize 53 1024 FloatAdd.Hprec FloatAdd.Hmax mode_NE n 0 false) in *. cbv zeta in C.
  assert (En : F2R (Float radix2 n 0) = IZR n) by (unfold F2R; cbn [Fnum Fexp]; rewrite Rmult_1_r; reflexivity). rewrite En in C.
  rewrite Rlt_bool_true in C.
  - destruct C as (C1 & C2 & _). exists b. repeat split; assumption.
  - apply Rle_lt_trans with (bpow radix2 64); [|apply bpow_lt; lia]. apply rnd_bound; [lia|].
    rewrite <- abs_IZR, <- (IZR_Zpower radix2) by lia. apply IZR_le. exact Hn.
Qed.

Lemma f_div_R (x y : b64) e : is_finite x = true -> B2R y <> 0%R -> (-1074 < e < 1024)%Z -> (Rabs (B2R x / B2R y) <= bpow radix2 e)%R ->
  is_finite (b_div x y) = true /\ B2R (b_div x y) = rnd (B2R x / B2R y).
Proof.
  intros Fx Ny He H. pose proof (Bdiv_correct 53 1024 FloatDiv.Hprec FloatDiv.Hmax mode_NE x y Ny) as C.
  rewrite Rlt_bool_true in C.
  - destruct C as (C1 & C2 & _). unfold b_div. rewrite C2. split; assumption.
  - apply Rle_lt_trans with (bpow radix2 e); [|apply bpow_lt; lia]. apply rnd_bound; [lia|exact H].
Qed.

Definition b_times : b64 -> b64 -> b64 := Bmult mode_NE.
Lemma f_times_equiv (x y : b64) : f_mul (B2SF x) (B2SF y) = B2SF (b_times x y).
Proof.
  destruct x as [sx|sx| |sx mx ex Bx], y as [sy|sy| |sy my ey By]; try reflexivity.
  unfold f_mul, b_times, Bmult. rewrite B2SF_SF2B. cbn [B2SF SFmul]. apply round_aux_equiv.
Qed.
Lemma f_mul_R (x y : b64) e : is_finite x = true -> is_finite y = true -> (-1074 < e < 1024)%Z -> (Rabs (B2R x * B2R y) <= bpow radix2 e)%R ->
  is_finite (b_times x y) = true /\ B2R (b_times x y) = rnd (B2R x * B2R y).
Proof.
  intros Fx Fy He H. pose proof (Bmult_correct 53 1024 FloatAdd.Hprec FloatAdd.Hmax mode_NE x y) as C.
  rewrite Rlt_bool_true in C.
  - destruct C as (C1 & C2 & _). unfold b_times. rewrite Fx, Fy in C2. split; assumption.
  - apply Rle_lt_trans with (bpow radix2 e); [|apply bpow_lt; lia]. apply rnd_bound; [lia|exact H].
Qed.
