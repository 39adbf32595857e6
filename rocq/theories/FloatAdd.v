(** Float addition of a positive number does not decrease a value.  Uses Flocq's
    proof that its addition is correctly rounded; rests on the axioms of the
    standard library's real numbers. *)

From Coq Require Import ZArith Reals Bool Lia Lra.
From Coq Require Import Floats.SpecFloat.
From Flocq Require Import Core.Core IEEE754.BinarySingleNaN.
From Verif Require Import Base Float64.

Local Instance Hprec : FLX.Prec_gt_0 53 := eq_refl.
Local Instance Hmax : Prec_lt_emax 53 1024 := eq_refl.

Notation b64 := (binary_float 53 1024).
Definition b_add : b64 -> b64 -> b64 := Bplus mode_NE.

Lemma round_ne_equiv s m l : round_nearest_even m l = choice_mode mode_NE s m l.
Proof. destruct l as [|[]]; try reflexivity. cbn. unfold Round.cond_incr. destruct (Z.even m); reflexivity. Qed.

Lemma round_aux_equiv sx mx ex lx :
  SpecFloat.binary_round_aux 53 1024 sx mx ex lx = BinarySingleNaN.binary_round_aux 53 1024 mode_NE sx mx ex lx.
Proof.
  unfold SpecFloat.binary_round_aux, BinarySingleNaN.binary_round_aux. destruct (shr_fexp _ _ _ _ _) as [mrs e].
  rewrite (round_ne_equiv sx). reflexivity.
Qed.

Lemma round_equiv s m e : SpecFloat.binary_round 53 1024 s m e = BinarySingleNaN.binary_round 53 1024 mode_NE s m e.
Proof.
  unfold SpecFloat.binary_round, BinarySingleNaN.binary_round, shl_align_fexp. destruct (shl_align _ _ _) as [mz ez].
  apply round_aux_equiv.
Qed.

Lemma normalize_equiv m e sz :
  SpecFloat.binary_normalize 53 1024 m e sz = B2SF (BinarySingleNaN.binary_normalize 53 1024 Hprec Hmax mode_NE m e sz).
Proof. destruct m as [|p|p]; [reflexivity| |]; cbn; rewrite B2SF_SF2B; apply round_equiv. Qed.

Lemma f_add_equiv (x y : b64) : f_add (B2SF x) (B2SF y) = B2SF (b_add x y).
Proof.
  destruct x as [sx|sx| |sx mx ex Bx], y as [sy|sy| |sy my ey By]; try reflexivity;
    try (cbn; destruct (Bool.eqb sx sy); reflexivity).
  apply normalize_equiv.
Qed.

Lemma to_b (x : f64) : f_valid x -> exists b : b64, x = B2SF b.
Proof. intros H. exists (SF2B x H). now rewrite B2SF_SF2B. Qed.

Theorem f_add_valid x y : f_valid x -> f_valid y -> f_valid (f_add x y).
Proof.
  intros Hx Hy. destruct (to_b x Hx) as [bx ->], (to_b y Hy) as [by_ ->]. rewrite f_add_equiv. apply valid_binary_B2SF.
Qed.

Local Lemma ltb_b (x y : b64) : is_finite x = true -> is_finite y = true -> f_ltb (B2SF x) (B2SF y) = Rlt_bool (B2R x) (B2R y).
Proof. intros. now apply Bltb_correct. Qed.

Theorem f_add_pos x v : f_valid x -> f_valid v -> is_nan x = false -> f_ltb x f_zero = false -> f_ltb f_zero v = true ->
  is_nan (f_add x v) = false /\ f_ltb (f_add x v) x = false /\ f_ltb (f_add x v) f_zero = false.
Proof.
  intros Hx Hv Nx Px Pv. destruct (to_b x Hx) as [bx ->], (to_b v Hv) as [bv ->]. rewrite f_add_equiv.
  destruct (BinarySingleNaN.is_finite bx) eqn:Fx.
  2:{ (* x is +oo *)
      destruct bx as [s|s| |]; try discriminate Fx; [|discriminate Nx]. destruct s; [discriminate Px|].
      destruct bv as [t|t| |]; try discriminate Pv.
      - destruct t; [discriminate Pv|]. cbn. auto.
      - cbn. auto. }
  destruct (BinarySingleNaN.is_finite bv) eqn:Fv.
  2:{ (* v is +oo *)
      destruct bv as [t|t| |]; try discriminate Fv; [|destruct bx; discriminate Pv]. destruct t; [discriminate Pv|].
      destruct bx as [s|s| |s m e B]; try discriminate Fx; cbn; auto. }
  change f_zero with (B2SF (B754_zero false : b64)) in *. set (z := B754_zero false : b64) in *.
  rewrite ltb_b in Px, Pv by (reflexivity || assumption). cbn [z B2R] in Px, Pv.
  assert (Px' : (0 <= B2R bx)%R) by (revert Px; case Rlt_bool_spec; [discriminate|auto]).
  assert (Pv' : (0 < B2R bv)%R) by (revert Pv; case Rlt_bool_spec; [auto|discriminate]).
  pose proof (Bplus_correct 53 1024 Hprec Hmax mode_NE bx bv Fx Fv) as C. fold (b_add bx bv) in C.
  set (fe := SpecFloat.fexp 53 1024) in *.
  assert (VE : Valid_exp fe) by (apply FLT_exp_valid; exact Hprec).
  assert (G : generic_format radix2 fe (B2R bx)) by apply generic_format_B2R.
  assert (R : (B2R bx <= round radix2 fe (round_mode mode_NE) (B2R bx + B2R bv))%R).
  { apply round_ge_generic; [exact VE|apply valid_rnd_round_mode|exact G|lra]. }
  destruct (Rlt_bool _ _) in C.
  - destruct C as (C1 & C2 & _). split; [|split].
    + destruct (b_add bx bv); try reflexivity; discriminate C2.
    + rewrite ltb_b by assumption. rewrite C1. apply Rlt_bool_false. exact R.
    + rewrite ltb_b by (reflexivity || assumption). rewrite C1. cbn [z B2R]. apply Rlt_bool_false. lra.
  - destruct C as (C1 & C2). rewrite C1.
    assert (S : Bsign bx = false).
    { destruct (Bsign bv) eqn:E; [|exact C2]. exfalso.
      destruct bv as [t|t| |t m e B]; try discriminate Fv.
      - cbn in Pv'. lra.
      - cbn [Bsign] in E. subst t. cbn [B2R cond_Zopp] in Pv'.
        assert (F2R (Float radix2 (Z.neg m) e) < 0)%R by (apply F2R_lt_0; reflexivity). cbn in *. lra. }
    rewrite S. cbn. split; [reflexivity|]. split; [|reflexivity]. destruct bx as [s|s| |s m e B]; try discriminate Fx; reflexivity.
Qed.
