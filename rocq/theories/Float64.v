(** Go's float64 as the IEEE-754 binary64 format of Coq.Floats.SpecFloat
    (53 bits of precision, largest exponent 1024): an inductive type and total
    functions, no axioms.  NaN payloads are not distinguished.

    The order of float64 values is characterised by [f_num]: every finite
    float64 is an integer multiple of 2^-1074, [f_num] is that integer, and the
    infinities count as +-2^1024, beyond every finite value. *)

From Coq Require Import ZArith Bool Lia.
From Coq Require Import Floats.SpecFloat.
From Verif Require Import Base.
Open Scope Z_scope.

Notation f64 := spec_float.

(** The values of Go's float64, e.g. stats/measure.go:96: no code of its own. *)
Definition f_valid (x : f64) : Prop := valid_binary 53 1024 x = true.

(** math.IsNaN (zpages/rpcz.go:219). *)
Definition is_nan (x : f64) : bool := match x with S754_nan => true | _ => false end.

(** Go's + on float64, e.g. stats/view/aggregation_data.go:186. *)
Definition f_add : f64 -> f64 -> f64 := SFadd 53 1024.
(** Go's - on float64, e.g. stats/view/aggregation_data.go:186. *)
Definition f_sub : f64 -> f64 -> f64 := SFsub 53 1024.
(** Go's * on float64, e.g. stats/view/aggregation_data.go:158. *)
Definition f_mul : f64 -> f64 -> f64 := SFmul 53 1024.
(** Go's / on float64, e.g. stats/view/aggregation_data.go:164. *)
Definition f_div : f64 -> f64 -> f64 := SFdiv 53 1024.

(** Go's [<] and [==] on float64 (both false when an operand is NaN). E.g.
    stats/view/aggregation_data.go:171-176, 195. *)
Definition f_ltb : f64 -> f64 -> bool := SFltb.
(** E.g. stats/view/aggregation_data.go:246. *)
Definition f_eqb : f64 -> f64 -> bool := SFeqb.

(** The float64 constant 0, e.g. stats/view/view.go:99, 111. *)
Definition f_zero : f64 := S754_zero false.

(** float64(n) for an integer n: round to nearest even. E.g.
    stats/view/aggregation_data.go:186. *)
Definition f_of_Z (n : Z) : f64 := binary_normalize 53 1024 n 0 false.

(** math.MaxFloat64 = (2^53 - 1) * 2^971. stats/view/aggregation_data.go:151. *)
Definition f_max : f64 := S754_finite false 9007199254740991 971.

(** math.SmallestNonzeroFloat64 = 2^-1074. stats/view/aggregation_data.go:152. *)
Definition f_smallest : f64 := S754_finite false 1 (-1074).

(** The value of a float64 in units of 2^-1074, infinities at +-2^1024. No code of its own. *)
Definition f_num (x : f64) : Z :=
  match x with
  | S754_zero _ => 0
  | S754_infinity s => if s then - 2 ^ 2098 else 2 ^ 2098
  | S754_nan => 0
  | S754_finite s m e => if s then - (Zpos m * 2 ^ (e + 1074)) else Zpos m * 2 ^ (e + 1074)
  end.

Arguments f_num : simpl never.

(** ** Order *)

Lemma digits2_pos_bounds m :
  2 ^ (Zpos (digits2_pos m) - 1) <= Zpos m < 2 ^ Zpos (digits2_pos m).
Proof.
  assert (Hs : forall p, 2 ^ Zpos (Pos.succ p) = 2 * 2 ^ Zpos p).
  { intros p. rewrite Pos2Z.inj_succ, Z.pow_succ_r by lia. reflexivity. }
  assert (Hp : forall p, 2 ^ (Zpos (Pos.succ p) - 1) = 2 * 2 ^ (Zpos p - 1)).
  { intros p. rewrite <- Z.pow_succ_r by lia. f_equal. lia. }
  induction m as [m IH|m IH|]; cbn [digits2_pos].
  - rewrite Hs, Hp. lia.
  - rewrite Hs, Hp. lia.
  - cbv. split; congruence.
Qed.

Lemma valid_finite s m e :
  f_valid (S754_finite s m e) ->
  -1074 <= e <= 971 /\ Zpos m < 2 ^ 53 /\ (-1074 < e -> 2 ^ 52 <= Zpos m).
Proof.
  unfold f_valid, valid_binary, bounded, canonical_mantissa, fexp, emin.
  rewrite andb_true_iff. intros [H1 H2].
  apply Zeq_bool_eq in H1. apply Z.leb_le in H2.
  pose proof (digits2_pos_bounds m) as [Hlo Hhi].
  assert (Hd : Zpos (digits2_pos m) <= 53) by lia.
  split; [lia|]. split.
  - eapply Z.lt_le_trans; [exact Hhi|]. apply Z.pow_le_mono_r; lia.
  - intros He. assert (Zpos (digits2_pos m) = 53) as Hd' by lia.
    rewrite Hd' in Hlo. exact Hlo.
Qed.

Lemma finite_cmp m1 e1 m2 e2 s1 s2 :
  f_valid (S754_finite s1 m1 e1) -> f_valid (S754_finite s2 m2 e2) ->
  e1 < e2 -> Zpos m1 * 2 ^ (e1 + 1074) < Zpos m2 * 2 ^ (e2 + 1074).
Proof.
  intros H1 H2 He. apply valid_finite in H1, H2.
  destruct H1 as (B1 & U1 & _), H2 as (B2 & _ & L2). specialize (L2 ltac:(lia)).
  replace (e2 + 1074) with ((e2 - e1) + (e1 + 1074)) by lia.
  rewrite (Z.pow_add_r 2 (e2 - e1)) by lia.
  assert (0 < 2 ^ (e1 + 1074)) by (apply Z.pow_pos_nonneg; lia).
  assert (2 <= 2 ^ (e2 - e1)).
  { change 2 with (2 ^ 1) at 1. apply Z.pow_le_mono_r; lia. }
  rewrite Z.mul_assoc. apply Z.mul_lt_mono_pos_r; [assumption|].
  change (2 ^ 53) with (2 * 2 ^ 52) in U1.
  apply Z.lt_le_trans with (2 * 2 ^ 52); [assumption|].
  rewrite Z.mul_comm. apply Z.mul_le_mono_nonneg; lia.
Qed.

Lemma finite_bound s m e :
  f_valid (S754_finite s m e) -> 0 < Zpos m * 2 ^ (e + 1074) < 2 ^ 2098.
Proof.
  intros H. apply valid_finite in H. destruct H as (B & U & _).
  assert (0 < 2 ^ (e + 1074)) by (apply Z.pow_pos_nonneg; lia).
  split; [lia|].
  change (2 ^ 2098) with (2 ^ 53 * 2 ^ 2045).
  apply Z.lt_le_trans with (2 ^ 53 * 2 ^ (e + 1074)).
  - apply Z.mul_lt_mono_pos_r; assumption.
  - apply Z.mul_le_mono_nonneg_l; [lia|]. apply Z.pow_le_mono_r; lia.
Qed.

(** Go's comparison of float64 is the comparison of the values. *)
Lemma f_compare_num x y :
  f_valid x -> f_valid y -> is_nan x = false -> is_nan y = false ->
  SFcompare x y = Some (f_num x ?= f_num y).
Proof.
  intros Hx Hy Nx Ny.
  assert (P : 0 < 2 ^ 2098) by (apply Z.pow_pos_nonneg; lia).
  destruct x as [s1|s1| |s1 m1 e1]; try discriminate Nx;
  destruct y as [s2|s2| |s2 m2 e2]; try discriminate Ny; unfold f_num, SFcompare.
  - reflexivity.
  - destruct s2; apply (f_equal Some); symmetry.
    + apply Z.compare_gt_iff. lia.
    + apply Z.compare_lt_iff. lia.
  - pose proof (finite_bound _ _ _ Hy). destruct s2; apply (f_equal Some); symmetry.
    + apply Z.compare_gt_iff. lia.
    + apply Z.compare_lt_iff. lia.
  - destruct s1; apply (f_equal Some); symmetry.
    + apply Z.compare_lt_iff. lia.
    + apply Z.compare_gt_iff. lia.
  - destruct s1, s2; apply (f_equal Some); symmetry.
    + apply Z.compare_eq_iff. lia.
    + apply Z.compare_lt_iff. lia.
    + apply Z.compare_gt_iff. lia.
    + apply Z.compare_eq_iff. lia.
  - pose proof (finite_bound _ _ _ Hy). destruct s1, s2; apply (f_equal Some); symmetry;
      (apply Z.compare_lt_iff || apply Z.compare_gt_iff); lia.
  - pose proof (finite_bound _ _ _ Hx). destruct s1; apply (f_equal Some); symmetry;
      (apply Z.compare_lt_iff || apply Z.compare_gt_iff); lia.
  - pose proof (finite_bound _ _ _ Hx). destruct s1, s2; apply (f_equal Some); symmetry;
      (apply Z.compare_lt_iff || apply Z.compare_gt_iff); lia.
  - pose proof (finite_bound _ _ _ Hx). pose proof (finite_bound _ _ _ Hy).
    destruct (Z.compare_spec e1 e2) as [He|He|He].
    + subst e2. apply valid_finite in Hx. destruct Hx as (B & _).
      assert (Q : 0 < 2 ^ (e1 + 1074)) by (apply Z.pow_pos_nonneg; lia).
      change (Pos.compare_cont Eq m1 m2) with (m1 ?= m2)%positive.
      destruct s1, s2; apply (f_equal Some); symmetry.
        rewrite Z.compare_opp.
        rewrite <- Zmult_compare_compat_r by lia. apply (Pos.compare_antisym m1 m2).
      * apply Z.compare_lt_iff; lia.
      * apply Z.compare_gt_iff; lia.
      * rewrite <- Zmult_compare_compat_r by lia. reflexivity.
    + pose proof (finite_cmp _ _ _ _ _ _ Hx Hy He).
      destruct s1, s2; apply (f_equal Some); symmetry; (apply Z.compare_lt_iff || apply Z.compare_gt_iff); lia.
    + pose proof (finite_cmp _ _ _ _ _ _ Hy Hx He).
      destruct s1, s2; apply (f_equal Some); symmetry; (apply Z.compare_lt_iff || apply Z.compare_gt_iff); lia.
Qed.

Lemma f_ltb_num x y :
  f_valid x -> f_valid y ->
  (f_ltb x y = true <-> is_nan x = false /\ is_nan y = false /\ f_num x < f_num y).
Proof.
  intros Hx Hy. destruct (is_nan x) eqn:Nx.
  { destruct x; try discriminate. unfold f_ltb, SFltb. simpl. split; [discriminate|intuition congruence]. }
  destruct (is_nan y) eqn:Ny.
  { destruct y; try discriminate. unfold f_ltb, SFltb. destruct x; simpl; split; try discriminate; intuition congruence. }
  unfold f_ltb, SFltb. rewrite f_compare_num by assumption.
  destruct (Z.compare_spec (f_num x) (f_num y)); split; try discriminate; try lia; intuition.
Qed.

Lemma f_eqb_num x y :
  f_valid x -> f_valid y ->
  (f_eqb x y = true <-> is_nan x = false /\ is_nan y = false /\ f_num x = f_num y).
Proof.
  intros Hx Hy. destruct (is_nan x) eqn:Nx.
  { destruct x; try discriminate. unfold f_eqb, SFeqb. simpl. split; [discriminate|intuition congruence]. }
  destruct (is_nan y) eqn:Ny.
  { destruct y; try discriminate. unfold f_eqb, SFeqb. destruct x; simpl; split; try discriminate; intuition congruence. }
  unfold f_eqb, SFeqb. rewrite f_compare_num by assumption.
  destruct (Z.compare_spec (f_num x) (f_num y)); split; try discriminate; try lia; intuition.
Qed.

Lemma f_ltb_false x y :
  f_valid x -> f_valid y -> is_nan x = false -> is_nan y = false ->
  (f_ltb x y = false <-> f_num y <= f_num x).
Proof.
  intros Hx Hy Nx Ny. pose proof (f_ltb_num x y Hx Hy) as H.
  destruct (f_ltb x y); split; try discriminate; intros.
  - destruct H as [H _]. specialize (H eq_refl). lia.
  - destruct (Z.lt_ge_cases (f_num x) (f_num y)); [|assumption].
    destruct H as [_ H]. assert (false = true) by (apply H; tauto). discriminate.
  - reflexivity.
Qed.

Lemma f_max_valid : f_valid f_max.
Proof. reflexivity. Qed.
Lemma f_smallest_valid : f_valid f_smallest.
Proof. reflexivity. Qed.
Lemma f_zero_valid : f_valid f_zero.
Proof. reflexivity. Qed.

(** math.MaxFloat64 is the greatest finite float64. *)
Lemma f_max_greatest x : f_valid x -> f_num x < 2 ^ 2098 -> f_num x <= f_num f_max.
Proof.
  intros Hx Hlt. destruct x as [s|s| |s m e]; unfold f_num in *.
  - apply Z.mul_nonneg_nonneg; [lia|]. apply Z.pow_nonneg; lia.
  - destruct s.
    + unfold f_max. pose proof (Z.pow_nonneg 2 2098). pose proof (Z.pow_nonneg 2 (971 + 1074)). lia.
    + lia.
  - apply Z.mul_nonneg_nonneg; [lia|]. apply Z.pow_nonneg; lia.
  - unfold f_max. destruct s.
    + assert (0 <= Zpos m * 2 ^ (e + 1074)) by (apply Z.mul_nonneg_nonneg; [lia|]; apply Z.pow_nonneg; lia).
      assert (0 <= 9007199254740991 * 2 ^ (971 + 1074)) by (apply Z.mul_nonneg_nonneg; [lia|]; apply Z.pow_nonneg; lia).
      lia.
    + apply valid_finite in Hx. destruct Hx as (B & U & _).
      apply Z.mul_le_mono_nonneg; [lia| |apply Z.pow_nonneg; lia|apply Z.pow_le_mono_r; lia].
      change (2 ^ 53) with 9007199254740992 in U. lia.
Qed.

Lemma f_smallest_num : f_num f_smallest = 1.
Proof. reflexivity. Qed.
