(** C29: ProbabilitySampler.  Rests on the axioms of the standard library's real
    numbers, through Flocq's proof that float multiplication is correctly rounded. *)

From Coq Require Import ZArith NArith Reals Bool List Lia Lra ZifyBool ZifyNat ZifyN.
From Coq Require Import Floats.SpecFloat.
From Flocq Require Import Core.Core IEEE754.BinarySingleNaN.
From Verif Require Import Base Float64 FloatAdd TraceTypes TraceModel.
Import ListNotations.
Open Scope Z_scope.

(** ** Specification *)

(** The leading 63 bits of a trace ID. *)
Definition prefix63 (tid : bytes) : N := (be_value (firstn 8 tid) / 2)%N.

(** floor(p * 2^63), cut to [0, 2^63].  The number p is [f_num p] * 2^-1074; NaN counts
    as 0. *)
Definition threshold (p : f64) : Z := Z.min (2 ^ 63) (Z.max 0 (f_num p / 2 ^ 1011)).

(** ** Multiplication by 2^63 is exact *)

Local Instance Hprec : FLX.Prec_gt_0 53 := eq_refl.
Local Instance Hmax : Prec_lt_emax 53 1024 := eq_refl.

Definition b_mul : b64 -> b64 -> b64 := Bmult mode_NE.

Lemma f_mul_equiv (x y : b64) : f_mul (B2SF x) (B2SF y) = B2SF (b_mul x y).
Proof.
  destruct x as [sx|sx| |sx mx ex Bx], y as [sy|sy| |sy my ey By]; try reflexivity.
  unfold f_mul, b_mul, Bmult. rewrite B2SF_SF2B. cbn [B2SF SFmul]. apply round_aux_equiv.
Qed.

Theorem f_mul_valid x y : f_valid x -> f_valid y -> f_valid (f_mul x y).
Proof.
  intros Hx Hy. destruct (to_b x Hx) as [bx ->], (to_b y Hy) as [by_ ->]. rewrite f_mul_equiv. apply valid_binary_B2SF.
Qed.

Lemma num_R (b : b64) : is_finite b = true -> IZR (f_num (B2SF b)) = (B2R b * bpow radix2 1074)%R.
Proof.
  intros F. destruct b as [s|s| |s m e B]; try discriminate F.
  - cbn [B2SF B2R]. rewrite Rmult_0_l. reflexivity.
  - assert (V : f_valid (S754_finite s m e)) by exact B. apply valid_finite in V. destruct V as ((Hlo & _) & _).
    cbn [B2SF B2R]. unfold F2R. cbn [Fnum Fexp]. rewrite Rmult_assoc, <- bpow_plus.
    unfold f_num. rewrite <- (IZR_Zpower radix2) by lia. rewrite <- mult_IZR. f_equal.
    change (radix_val radix2) with 2. destruct s; cbn [cond_Zopp]; lia.
Qed.

Lemma two63_R : exists b : b64, f_two63 = B2SF b /\ is_finite b = true /\ B2R b = bpow radix2 63 /\ Bsign b = false.
Proof.
  exists (B754_finite (prec := 53) (emax := 1024) false 4503599627370496 11 eq_refl). split; [reflexivity |]. split; [reflexivity |]. split; [| reflexivity].
  cbn [B2R cond_Zopp]. change (Zpos 4503599627370496) with (radix2 ^ 52)%Z. unfold F2R. cbn [Fnum Fexp].
  rewrite IZR_Zpower by lia. rewrite <- bpow_plus. reflexivity.
Qed.

Lemma mul_two63 x : f_valid x -> is_nan x = false -> 0 <= f_num x < 2 ^ 1074 ->
  f_num (f_mul x f_two63) = f_num x * 2 ^ 63 /\ f_valid (f_mul x f_two63) /\ is_nan (f_mul x f_two63) = false.
Proof.
  intros Hx Nx Hr. assert (Hv : f_valid (f_mul x f_two63)) by (apply f_mul_valid; [exact Hx | reflexivity]).
  destruct (to_b x Hx) as [b ->]. destruct two63_R as (t & Et & Ft & Rt & _). rewrite Et, f_mul_equiv in *.
  assert (Fb : is_finite b = true).
  { destruct b as [s|s| |]; try reflexivity; [| discriminate Nx]. exfalso. unfold f_num in Hr. cbn [B2SF] in Hr.
    assert (2 ^ 1074 < 2 ^ 2098) by (apply Z.pow_lt_mono_r; lia). destruct s; lia. }
  pose proof (Bmult_correct 53 1024 Hprec Hmax mode_NE b t) as C. fold (b_mul b t) in C.
  set (fe := SpecFloat.fexp 53 1024) in *. rewrite Rt in C.
  assert (VE : Valid_exp fe) by (apply FLT_exp_valid; exact Hprec).
  assert (G : generic_format radix2 fe (B2R b * bpow radix2 63)).
  { destruct b as [s|s| |s m e B]; try discriminate Fb.
    - cbn [B2R]. rewrite Rmult_0_l. apply generic_format_0.
    - assert (V : f_valid (S754_finite s m e)) by exact B. apply valid_finite in V. destruct V as ((Hlo & _) & Hm & _).
      apply (generic_format_FLT radix2 (SpecFloat.emin 53 1024) 53). exists (Float radix2 (cond_Zopp s (Zpos m)) (e + 63)).
      + cbn [B2R]. unfold F2R. cbn [Fnum Fexp]. rewrite bpow_plus. ring.
      + cbn [Fnum]. change (radix_val radix2) with 2. destruct s; cbn [cond_Zopp]; lia.
      + cbn [Fexp]. unfold SpecFloat.emin. lia. }
  rewrite round_generic in C by (auto; apply valid_rnd_round_mode).
  assert (Hb : (0 <= B2R b < 1)%R).
  { pose proof (num_R b Fb) as E. assert (P : (0 < bpow radix2 1074)%R) by apply bpow_gt_0.
    split.
    - apply Rmult_le_reg_r with (bpow radix2 1074); [exact P |]. rewrite <- E, Rmult_0_l. apply IZR_le. lia.
    - apply Rmult_lt_reg_r with (bpow radix2 1074); [exact P |]. rewrite <- E, Rmult_1_l. rewrite <- (IZR_Zpower radix2) by lia. apply IZR_lt. exact (proj2 Hr). }
  rewrite Rlt_bool_true in C.
  2:{ rewrite Rabs_pos_eq by (apply Rmult_le_pos; [lra | apply bpow_ge_0]).
      apply Rlt_trans with (bpow radix2 63); [| apply bpow_lt; lia].
      rewrite <- (Rmult_1_l (bpow radix2 63)) at 2. apply Rmult_lt_compat_r; [apply bpow_gt_0 | lra]. }
  destruct C as (C1 & C2 & _). rewrite Fb, Ft in C2. cbn in C2. split; [| split; [exact Hv |]].
  - apply eq_IZR. rewrite num_R by exact C2. rewrite C1, mult_IZR, num_R by exact Fb.
    change (2 ^ 63)%Z with (radix2 ^ 63)%Z. rewrite (IZR_Zpower radix2) by lia. ring.
  - destruct (b_mul b t); try reflexivity. discriminate C2.
Qed.

Lemma to_uint64_num y : f_valid y -> is_nan y = false -> 0 <= f_num y < 2 ^ 2098 -> Z.of_N (f_to_uint64 y) = f_num y / 2 ^ 1074.
Proof.
  intros Hy Ny Hr. destruct y as [s|s| |s m e]; try discriminate Ny.
  - reflexivity.
  - unfold f_num in Hr. destruct s; lia.
  - pose proof (finite_bound _ _ _ Hy) as Hb. apply valid_finite in Hy. destruct Hy as ((Hlo & _) & _).
    unfold f_num in *. destruct s; [lia |]. cbn [f_to_uint64]. destruct (Z.leb_spec 0 e) as [He | He].
    + rewrite Z2N.id by (apply Z.mul_nonneg_nonneg; [lia | apply Z.pow_nonneg; lia]).
      rewrite Z.pow_add_r, Z.mul_assoc, Z.div_mul by (lia || (apply Z.pow_nonzero; lia)). reflexivity.
    + rewrite Z2N.id by (apply Z.div_pos; [lia | apply Z.pow_pos_nonneg; lia]).
      assert (E : 2 ^ 1074 = 2 ^ (- e) * 2 ^ (e + 1074)) by (rewrite <- Z.pow_add_r by lia; f_equal; lia).
      rewrite E. rewrite Z.div_mul_cancel_r by (apply Z.pow_nonzero; lia). reflexivity.
Qed.

(** ** The sampler *)

Lemma f_one_num : f_num f_one = 2 ^ 1074.
Proof. unfold f_num, f_one. change (Zpos 4503599627370496) with (2 ^ 52). rewrite <- Z.pow_add_r by lia. reflexivity. Qed.
Lemma f_zero_num : f_num f_zero = 0. Proof. reflexivity. Qed.

Lemma f_geb_num x y : f_valid x -> f_valid y -> (f_geb x y = true <-> is_nan x = false /\ is_nan y = false /\ f_num y <= f_num x).
Proof.
  intros Hx Hy. unfold f_geb. rewrite orb_true_iff, (f_ltb_num y x Hy Hx), (f_eqb_num x y Hx Hy). intuition lia.
Qed.

Lemma be_value_bound b : (be_value b < 256 ^ N.of_nat (length b))%N.
Proof.
  induction b as [|x r IH]; cbn [be_value length]; [reflexivity |]. rewrite Nat2N.inj_succ, N.pow_succ_r'.
  pose proof (b2n_lt x). set (q := (256 ^ N.of_nat (length r))%N) in *. nia.
Qed.

Lemma prefix63_bound tid : length tid = 16%nat -> Z.of_N (prefix63 tid) < 2 ^ 63.
Proof.
  intros H. unfold prefix63. pose proof (be_value_bound (firstn 8 tid)) as B. rewrite firstn_length, H in B.
  change (256 ^ N.of_nat (Nat.min 8 16))%N with (2 * 2 ^ 63)%N in B.
  assert (be_value (firstn 8 tid) / 2 < 2 ^ 63)%N by (apply N.div_lt_upper_bound; lia). lia.
Qed.

(** The decision, for every float64 and every trace ID: taken if the parent is sampled,
    or else if the leading 63 bits are below floor(p * 2^63). *)
Theorem C29_decision p sp : f_valid p -> length (sp_trace_id sp) = 16%nat ->
  (probability_sampler p sp = true <->
   is_sampled (sp_parent sp) = true \/ Z.of_N (prefix63 (sp_trace_id sp)) < threshold p).
Proof.
  intros Hp Hl. pose proof (prefix63_bound _ Hl) as Hpre. unfold probability_sampler.
  pose proof (f_geb_num p f_zero Hp eq_refl) as G0. pose proof (f_geb_num p f_one Hp eq_refl) as G1.
  rewrite f_zero_num in G0. rewrite f_one_num in G1. cbn [is_nan f_zero f_one] in G0, G1.
  assert (E1011 : 2 ^ 1074 = 2 ^ 63 * 2 ^ 1011) by (rewrite <- Z.pow_add_r by lia; reflexivity).
  assert (P1011 : 0 < 2 ^ 1011) by (apply Z.pow_pos_nonneg; lia).
  assert (Hcase : forall c, f_valid c -> is_nan c = false -> 0 <= f_num c < 2 ^ 1074 -> Z.of_N (f_to_uint64 (f_mul c f_two63)) = f_num c / 2 ^ 1011).
  { intros c Hc Nc Hr. destruct (mul_two63 c Hc Nc Hr) as (E & V & N). rewrite to_uint64_num; auto.
    - rewrite E. replace (2 ^ 1074) with (2 ^ 1011 * 2 ^ 63) by lia. rewrite Z.div_mul_cancel_r; lia.
    - rewrite E. change (2 ^ 2098) with (2 ^ 1074 * 2 ^ 1024).
      assert (2 ^ 63 <= 2 ^ 1024) by (apply Z.pow_le_mono_r; lia). assert (0 < 2 ^ 63) by lia. nia. }
  destruct (f_geb p f_zero) eqn:E0; cbn [negb andb].
  - destruct (proj1 G0 eq_refl) as (Np & _ & Hge). destruct (f_geb p f_one) eqn:E1.
    + destruct (proj1 G1 eq_refl) as (_ & _ & Hge1). unfold always_sample. split; [intros _; right | reflexivity].
      unfold threshold. assert (2 ^ 63 <= f_num p / 2 ^ 1011) by (apply Z.div_le_lower_bound; lia). lia.
    + assert (Hlt : f_num p < 2 ^ 1074).
      { destruct (Z.lt_ge_cases (f_num p) (2 ^ 1074)) as [H | H]; [exact H |]. assert (false = true) by (apply G1; auto). discriminate. }
      pose proof (Hcase p Hp Np (conj Hge Hlt)) as E. fold (prefix63 (sp_trace_id sp)).
      assert (T : threshold p = f_num p / 2 ^ 1011).
      { unfold threshold. assert (0 <= f_num p / 2 ^ 1011) by (apply Z.div_pos; lia).
        assert (f_num p / 2 ^ 1011 < 2 ^ 63) by (apply Z.div_lt_upper_bound; lia). lia. }
      rewrite T, <- E. destruct (is_sampled (sp_parent sp)); [tauto |]. rewrite N.ltb_lt. intuition; try discriminate; lia.
  - pose proof (Hcase f_zero eq_refl eq_refl ltac:(rewrite f_zero_num; split; [lia | apply Z.pow_pos_nonneg; lia])) as E. rewrite f_zero_num in E.
    rewrite Z.div_0_l in E by lia. fold (prefix63 (sp_trace_id sp)).
    assert (T : threshold p = 0).
    { unfold threshold. assert (Hle : f_num p <= 0).
      { destruct (Z.lt_ge_cases 0 (f_num p)) as [H | H]; [| exact H]. destruct (is_nan p) eqn:Np; [destruct p; try discriminate; reflexivity |].
        assert (false = true) by (apply G0; repeat split; lia). discriminate. }
      assert (f_num p / 2 ^ 1011 <= 0) by (apply Z.div_le_upper_bound; lia). lia. }
    rewrite T. destruct (is_sampled (sp_parent sp)); [tauto |]. rewrite N.ltb_lt. intuition; try discriminate; lia.
Qed.

(** A sampled parent always gives a sampled child. *)
Theorem C29_sampled_parent p sp : is_sampled (sp_parent sp) = true -> probability_sampler p sp = true.
Proof. intros H. unfold probability_sampler. destruct (_ && _); [reflexivity |]. rewrite H. reflexivity. Qed.

(** Without a sampled parent the decision depends on the trace ID only. *)
Theorem C29_trace_id_only p sp1 sp2 :
  is_sampled (sp_parent sp1) = false -> is_sampled (sp_parent sp2) = false -> sp_trace_id sp1 = sp_trace_id sp2 ->
  probability_sampler p sp1 = probability_sampler p sp2.
Proof. intros H1 H2 E. unfold probability_sampler. destruct (_ && _); [reflexivity |]. rewrite H1, H2, E. reflexivity. Qed.

(** A trace sampled at p is sampled at every q >= p. *)
Theorem C29_monotone p q sp : f_valid p -> f_valid q -> length (sp_trace_id sp) = 16%nat -> f_geb q p = true ->
  probability_sampler p sp = true -> probability_sampler q sp = true.
Proof.
  intros Hp Hq Hl Hge. rewrite !C29_decision by assumption. intros [H | H]; [left; exact H | right].
  apply (f_geb_num q p Hq Hp) in Hge. destruct Hge as (_ & _ & Hge).
  assert (f_num p / 2 ^ 1011 <= f_num q / 2 ^ 1011) by (apply Z.div_le_mono; [apply Z.pow_pos_nonneg; lia | exact Hge]).
  unfold threshold in *. lia.
Qed.

(** Nothing for p <= 0 and for NaN; everything for p >= 1. *)
Theorem C29_none p sp : f_valid p -> length (sp_trace_id sp) = 16%nat -> is_sampled (sp_parent sp) = false ->
  is_nan p = true \/ f_geb f_zero p = true -> probability_sampler p sp = false.
Proof.
  intros Hp Hl Hs H. apply not_true_is_false. rewrite C29_decision by assumption. intros [E | E]; [congruence |].
  assert (Hle : f_num p <= 0).
  { destruct H as [H | H]; [destruct p; try discriminate; reflexivity |]. apply (f_geb_num f_zero p eq_refl Hp) in H. rewrite f_zero_num in H. lia. }
  assert (f_num p / 2 ^ 1011 <= 0) by (apply Z.div_le_upper_bound; [apply Z.pow_pos_nonneg |]; lia). unfold threshold in E. lia.
Qed.

Theorem C29_all p sp : f_valid p -> f_geb p f_one = true -> probability_sampler p sp = true.
Proof.
  intros Hp H. unfold probability_sampler. rewrite H.
  assert (E : f_geb p f_zero = true).
  { apply (f_geb_num p f_one Hp eq_refl) in H. apply (f_geb_num p f_zero Hp eq_refl). rewrite f_one_num in H. rewrite f_zero_num.
    assert (0 < 2 ^ 1074) by (apply Z.pow_pos_nonneg; lia). intuition lia. }
  rewrite E. reflexivity.
Qed.

(** Exactly floor(p * 2^63) of the 2^63 prefixes are sampled, for 0 <= p < 1. *)
Theorem C29_count p : f_valid p -> f_geb p f_zero = true -> f_ltb p f_one = true ->
  exists l : list N, NoDup l /\ Z.of_nat (length l) = f_num p * 2 ^ 63 / 2 ^ 1074 /\
    (forall x, In x l -> (x < 2 ^ 63)%N) /\
    forall sp, length (sp_trace_id sp) = 16%nat -> is_sampled (sp_parent sp) = false ->
      (probability_sampler p sp = true <-> In (prefix63 (sp_trace_id sp)) l).
Proof.
  intros Hp H0 H1. apply (f_geb_num p f_zero Hp eq_refl) in H0. apply (f_ltb_num p f_one Hp eq_refl) in H1.
  rewrite f_zero_num in H0. rewrite f_one_num in H1. destruct H0 as (_ & _ & H0), H1 as (_ & _ & H1).
  assert (P : 0 < 2 ^ 1011) by (apply Z.pow_pos_nonneg; lia).
  assert (E1011 : 2 ^ 1074 = 2 ^ 1011 * 2 ^ 63) by (rewrite <- Z.pow_add_r by lia; reflexivity).
  assert (T : threshold p = f_num p / 2 ^ 1011).
  { unfold threshold. assert (0 <= f_num p / 2 ^ 1011) by (apply Z.div_pos; lia).
    assert (f_num p / 2 ^ 1011 < 2 ^ 63) by (apply Z.div_lt_upper_bound; lia). lia. }
  assert (Tp : 0 <= threshold p) by (unfold threshold; lia).
  exists (map N.of_nat (seq 0 (Z.to_nat (threshold p)))). split; [| split; [| split]].
  - apply FinFun.Injective_map_NoDup; [intros x y; apply Nat2N.inj | apply seq_NoDup].
  - rewrite map_length, seq_length, Z2Nat.id by exact Tp. rewrite T, E1011. rewrite Z.div_mul_cancel_r; lia.
  - intros x Hx. apply in_map_iff in Hx. destruct Hx as (k & <- & Hk). apply in_seq in Hk.
    assert (threshold p <= 2 ^ 63) by (unfold threshold; lia). lia.
  - intros sp Hl Hs. rewrite C29_decision by assumption. rewrite in_map_iff. split.
    + intros [E | E]; [congruence |]. exists (N.to_nat (prefix63 (sp_trace_id sp))). split; [apply N2Nat.id |]. apply in_seq. lia.
    + intros (k & Ek & Hk). right. apply in_seq in Hk. lia.
Qed.

(** One half; a trace ID just below and one just at the bound; the smallest positive
    float64 samples nothing; NaN. *)
Definition f_half : f64 := S754_finite false 4503599627370496 (-53).
Definition ex_params (first : byte) : sparams := MkSP (MkSC (repeat x00 16) (repeat x00 8) 0 None) (first :: repeat xff 15) (repeat x01 8) [] false.
Example C29_example :
  threshold f_half = 2 ^ 62 /\ threshold f_smallest = 0 /\ threshold (S754_infinity false) = 2 ^ 63 /\
  probability_sampler f_half (ex_params x7f) = true /\ probability_sampler f_half (ex_params x80) = false /\
  probability_sampler f_smallest (ex_params x00) = false /\ probability_sampler S754_nan (ex_params x00) = false.
Proof. vm_compute. repeat split. Qed.

Print Assumptions C29_decision.
Print Assumptions C29_monotone.
Print Assumptions C29_count.
Print Assumptions C29_none.
Print Assumptions C29_all.
Print Assumptions C29_trace_id_only.
