(** Quotients of float64 values are float64 values. *)

From Coq Require Import ZArith Reals Bool Lia.
From Coq Require Import Floats.SpecFloat.
From Flocq Require Import Core.Core IEEE754.BinarySingleNaN.
From Verif Require Import Base Float64 FloatAdd.
Open Scope Z_scope.

Local Instance Hprec : FLX.Prec_gt_0 53 := eq_refl.
Local Instance Hmax : Prec_lt_emax 53 1024 := eq_refl.

Definition b_div : b64 -> b64 -> b64 := Bdiv mode_NE.

Lemma f_div_equiv (x y : b64) : f_div (B2SF x) (B2SF y) = B2SF (b_div x y).
Proof.
  destruct x as [sx|sx| |sx mx ex Bx], y as [sy|sy| |sy my ey By]; try reflexivity.
  unfold f_div, b_div, Bdiv. rewrite B2SF_SF2B. cbn [B2SF SFdiv].
  destruct (SFdiv_core_binary 53 1024 (Z.pos mx) ex (Z.pos my) ey) as [[mz ez] lz]. apply round_aux_equiv.
Qed.

Theorem f_div_valid x y : f_valid x -> f_valid y -> f_valid (f_div x y).
Proof.
  intros Hx Hy. destruct (to_b x Hx) as [bx ->], (to_b y Hy) as [by_ ->]. rewrite f_div_equiv. apply valid_binary_B2SF.
Qed.
