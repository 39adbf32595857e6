(** C07 and C18 for int64 measures: sums and last values of integers are exact as long as
    they stay within 2^53, and not beyond.  Uses Flocq's proof that float64 addition is
    correctly rounded; rests on the axioms of the standard library's real numbers. *)

From Coq Require Import List ZArith Reals Bool Lia Lra ZifyBool.
From Coq Require Import Floats.SpecFloat.
From Flocq Require Import Core.Core IEEE754.BinarySingleNaN.
From Verif Require Import Base Float64 FloatAdd FloatInt SamplerProps AggModel AggSpec AggProofs AggProps IntSumSpec.
Import ListNotations.
Open Scope Z_scope.

Lemma int_b n : (Z.abs n <= 2 ^ 53)%Z ->
  exists b : b64, f_of_Z n = B2SF b /\ is_finite b = true /\ B2R b = IZR n /\ Bsign b = (n <? 0).
Proof.
  intros Hn. destruct (f_of_Z_exact n Hn) as [E N]. unfold f_of_Z in *. rewrite normalize_equiv in *.
  pose proof (binary_normalize_correct 53 1024 FloatAdd.Hprec FloatAdd.Hmax mode_NE n 0 false) as C.
  set (b := BinarySingleNaN.binary_normalize 53 1024 FloatAdd.Hprec FloatAdd.Hmax mode_NE n 0 false) in *. cbv zeta in C.
  assert (En : F2R (Float radix2 n 0) = IZR n) by (unfold F2R; cbn [Fnum Fexp]; rewrite Rmult_1_r; reflexivity). rewrite En in C.
  exists b. split; [reflexivity|].
  assert (F : is_finite b = true).
  { destruct b as [s|s| |s m e B]; try reflexivity; [|discriminate N]. exfalso. revert E. cbn [B2SF]. unfold f_num.
    change 2098 with (1024 + 1074). rewrite Z.pow_add_r by lia. pose proof (Z.pow_pos_nonneg 2 1074 eq_refl ltac:(lia)) as P.
    assert (Q : 2 ^ 53 < 2 ^ 1024) by (apply Z.pow_lt_mono_r; lia). set (k := 2 ^ 1074) in *. set (m := 2 ^ 1024) in *. clearbody k m.
    destruct s; intros E; [rewrite <- Z.mul_opp_l in E|]; apply Z.mul_cancel_r in E; lia. }
  assert (V : B2R b = IZR n).
  { pose proof (num_R b F) as R. rewrite E, mult_IZR in R. change (2 ^ 1074)%Z with (radix2 ^ 1074)%Z in R. rewrite (IZR_Zpower radix2) in R by lia.
    apply Rmult_eq_reg_r in R; [symmetry; exact R|]. apply Rgt_not_eq, bpow_gt_0. }
  split; [exact F|]. split; [exact V|].
  destruct (Rlt_bool _ _) in C.
  - destruct C as (_ & _ & S). rewrite S. destruct (Rcompare_spec (IZR n) 0) as [H|H|H].
    + apply lt_IZR in H. lia.
    + apply eq_IZR in H. lia.
    + apply lt_IZR in H. lia.
  - exfalso. revert F C. clear. destruct b; cbn; congruence.
Qed.

Lemma f_add_int a b : (Z.abs a <= 2 ^ 53)%Z -> (Z.abs b <= 2 ^ 53)%Z -> (Z.abs (a + b) <= 2 ^ 53)%Z ->
  f_add (f_of_Z a) (f_of_Z b) = f_of_Z (a + b).
Proof.
  intros Ha Hb Hc. destruct (int_b a Ha) as (x & Ex & Fx & Vx & Sx), (int_b b Hb) as (y & Ey & Fy & Vy & Sy), (int_b (a + b) Hc) as (z & Ez & Fz & Vz & Sz).
  rewrite Ex, Ey, Ez, f_add_equiv. f_equal.
  pose proof (Bplus_correct 53 1024 FloatAdd.Hprec FloatAdd.Hmax mode_NE x y Fx Fy) as C. fold (b_add x y) in C.
  rewrite Vx, Vy, <- plus_IZR, <- Vz in C.
  rewrite round_generic in C by (try apply valid_rnd_round_mode; apply generic_format_B2R).
  rewrite Rlt_bool_true in C by apply abs_B2R_lt_emax.
  destruct C as (C1 & C2 & C3). apply B2R_Bsign_inj; [exact C2|exact Fz|exact C1|].
  rewrite C3, Sz, Vz, Sx, Sy. destruct (Rcompare_spec (IZR (a + b)) 0) as [H|H|H].
  - apply lt_IZR in H. lia.
  - apply eq_IZR in H. lia.
  - apply lt_IZR in H. lia.
Qed.

(** int64(x) of a float64 in the range of int64 drops the fraction. *)
Theorem f_to_int_trunc x : f_valid x -> is_nan x = false -> - 2 ^ 63 <= Z.quot (f_num x) (2 ^ 1074) < 2 ^ 63 ->
  f_to_int x = Z.quot (f_num x) (2 ^ 1074).
Proof.
  intros Hv Hn Hr. destruct x as [s|s| |s m e]; try discriminate Hn.
  - reflexivity.
  - exfalso. unfold f_num in Hr. change 2098 with (1024 + 1074) in Hr. rewrite Z.pow_add_r in Hr by lia.
    assert (Q : 2 ^ 63 < 2 ^ 1024) by (apply Z.pow_lt_mono_r; lia).
    destruct s; [rewrite <- Z.mul_opp_l in Hr|]; rewrite Z.quot_mul in Hr by (apply Z.pow_nonzero; lia); lia.
  - apply valid_finite in Hv. destruct Hv as ((Hlo & _) & _).
    assert (E : Z.quot (Zpos m * 2 ^ (e + 1074)) (2 ^ 1074) = Z.shiftl (Zpos m) e).
    { destruct (Z.leb_spec 0 e) as [He | He].
      - rewrite Z.shiftl_mul_pow2 by lia. rewrite Z.pow_add_r, Z.mul_assoc, Z.quot_mul by (lia || (apply Z.pow_nonzero; lia)). reflexivity.
      - rewrite Z.shiftl_div_pow2 by lia. replace (2 ^ 1074) with (2 ^ (- e) * 2 ^ (e + 1074)) by (rewrite <- Z.pow_add_r by lia; f_equal; lia).
        rewrite Z.quot_mul_cancel_r by (apply Z.pow_nonzero; lia). apply Z.quot_div_nonneg; [lia|apply Z.pow_pos_nonneg; lia]. }
    unfold f_num in Hr |- *. cbn [f_to_int]. destruct s.
    + rewrite Z.quot_opp_l in * by (apply Z.pow_nonzero; lia). rewrite E in *. destruct (Z.leb_spec (2 ^ 63) (Z.shiftl (Zpos m) e)); lia.
    + rewrite E in *. destruct (Z.leb_spec (2 ^ 63) (Z.shiftl (Zpos m) e)); lia.
Qed.

Lemma f_to_int_of_Z n : Z.abs n <= 2 ^ 53 -> f_to_int (f_of_Z n) = n.
Proof.
  intros Hn. destruct (f_of_Z_exact n Hn) as [E N].
  assert (Q : Z.quot (f_num (f_of_Z n)) (2 ^ 1074) = n) by (rewrite E; apply Z.quot_mul, Z.pow_nonzero; lia).
  rewrite f_to_int_trunc; rewrite ?Q; [reflexivity|apply f_of_Z_valid|exact N|]. lia.
Qed.

Lemma z_sum_app a b : z_sum (a ++ b) = z_sum a + z_sum b.
Proof. unfold z_sum. induction a as [|x a IH]; [reflexivity|]. cbn [app fold_right]. lia. Qed.

Lemma sum_ints l0 ns : small_sums (l0 ++ ns) ->
  fold_left f_add (map f_of_Z ns) (f_of_Z (z_sum l0)) = f_of_Z (z_sum (l0 ++ ns)).
Proof.
  revert l0. induction ns as [|n ns IH]; intros l0 [H1 H2]; [rewrite app_nil_r; reflexivity|].
  cbn [map fold_left]. assert (E : l0 ++ n :: ns = (l0 ++ [n]) ++ ns) by (rewrite <- app_assoc; reflexivity).
  assert (S1 : z_sum l0 + n = z_sum (l0 ++ [n])) by (rewrite z_sum_app; unfold z_sum at 3; cbn; lia).
  rewrite f_add_int.
  - rewrite S1. rewrite E in *. apply IH. split; assumption.
  - apply (H2 l0 (n :: ns)). reflexivity.
  - apply H1. apply in_or_app. right. left. reflexivity.
  - rewrite S1. apply (H2 (l0 ++ [n]) ns). exact E.
Qed.

(** A Sum row of integers holds exactly their sum, in whatever order they came. *)
Theorem C07_int_sum (t : time) ns ss : recorded_ints ns ss -> small_sums ns ->
  aggregate AggSum t ss = SumD t (f_of_Z (z_sum ns)).
Proof.
  intros R H. rewrite C07_sum. rewrite R. f_equal. apply (sum_ints [] ns). exact H.
Qed.

(** The metric of the view shows exactly that integer. *)
Theorem C18_int_sum (t : time) ns ss : recorded_ints ns ss -> small_sums ns ->
  to_point (aggregate AggSum t ss) TyCumulativeInt64 = Some (PInt (z_sum ns)).
Proof.
  intros R H. rewrite (C07_int_sum t ns ss R H). cbn [to_point n_to_int f64_num]. rewrite f_to_int_of_Z; [reflexivity|].
  apply (proj2 H ns []). rewrite app_nil_r. reflexivity.
Qed.

Theorem C18_int_last (t : time) ns n ss : recorded_ints (ns ++ [n]) ss -> Z.abs n <= 2 ^ 53 ->
  to_point (aggregate AggLast t ss) TyGaugeInt64 = Some (PInt n).
Proof.
  intros R H. destruct ss as [|s ss _] using rev_ind.
  - unfold recorded_ints in R. rewrite map_app in R. destruct (map f_of_Z ns); discriminate R.
  - unfold recorded_ints, values in R. rewrite !map_app in R. apply app_inj_tail in R. destruct R as [_ R].
    rewrite C07_last. cbn [to_point n_to_int f64_num]. rewrite R, f_to_int_of_Z by exact H. reflexivity.
Qed.

(** What float64 values a metric of type int64 shows: those in range lose their fraction. *)
Theorem C18_trunc (t : time) v : f_valid v -> is_nan v = false -> - 2 ^ 63 <= Z.quot (f_num v) (2 ^ 1074) < 2 ^ 63 ->
  to_point (SumD t v : agg_data f64_num) TyCumulativeInt64 = Some (PInt (Z.quot (f_num v) (2 ^ 1074))) /\
  to_point (LastD v : agg_data f64_num) TyGaugeInt64 = Some (PInt (Z.quot (f_num v) (2 ^ 1074))).
Proof. intros H1 H2 H3. cbn [to_point n_to_int f64_num]. rewrite f_to_int_trunc by assumption. split; reflexivity. Qed.

(** Beyond 2^53 measurements are lost: after 2^53, any number of ones changes nothing; and a
    single int64 may be shown as another, even one of the other sign. *)
Theorem C07_int_sum_refuted (t : time) (k : nat) ss : recorded_ints (2 ^ 53 :: repeat 1 k) ss ->
  to_point (aggregate AggSum t ss) TyCumulativeInt64 = Some (PInt (2 ^ 53)) /\ z_sum (2 ^ 53 :: repeat 1 k) = 2 ^ 53 + Z.of_nat k.
Proof.
  intros R. split.
  - rewrite C07_sum, R. cbn [map fold_left]. change (f_add f_zero (f_of_Z (2 ^ 53))) with (f_of_Z (2 ^ 53)).
    assert (E : fold_left f_add (map f_of_Z (repeat 1 k)) (f_of_Z (2 ^ 53)) = f_of_Z (2 ^ 53)).
    { clear. induction k as [|k IH]; [reflexivity|]. cbn [repeat map fold_left].
      replace (f_add (f_of_Z (2 ^ 53)) (f_of_Z 1)) with (f_of_Z (2 ^ 53)) by (vm_compute; reflexivity). exact IH. }
    change (n_add f64_num) with f_add. rewrite E. cbn [to_point n_to_int f64_num]. rewrite f_to_int_of_Z by lia. reflexivity.
  - unfold z_sum. cbn [fold_right]. assert (E : fold_right Z.add 0 (repeat 1 k) = Z.of_nat k); [|lia].
    clear. induction k as [|k IH]; [reflexivity|]. cbn [repeat fold_right]. rewrite IH. lia.
Qed.

Theorem C18_int_last_refuted :
  to_point (aggregate AggLast 0 [smp (f_of_Z (2 ^ 53 + 1)) [] 1]) TyGaugeInt64 = Some (PInt (2 ^ 53)) /\
  to_point (aggregate AggLast 0 [smp (f_of_Z (2 ^ 63 - 1)) [] 1]) TyGaugeInt64 = Some (PInt (- 2 ^ 63)).
Proof.
  assert (A : f_to_int (f_of_Z (2 ^ 53 + 1)) = 2 ^ 53) by (vm_compute; reflexivity).
  assert (B : f_to_int (f_of_Z (2 ^ 63 - 1)) = - 2 ^ 63) by (vm_compute; reflexivity).
  split; [rewrite <- A|rewrite <- B]; reflexivity.
Qed.

(** Integers of both signs. *)
Definition ex_ints : list Z := [5; -7; 2 ^ 52; -3].
Example C07_int_demo : recorded_ints ex_ints (map (fun n => smp (f_of_Z n) [] n) ex_ints) /\ small_sums ex_ints /\ z_sum ex_ints = 2 ^ 52 - 5.
Proof.
  split; [reflexivity|]. split; [|reflexivity]. split.
  - intros n [<-|[<-|[<-|[<-|[]]]]]; lia.
  - intros l l' E. unfold ex_ints in E.
    destruct l as [|a l]; [cbn; lia|]. injection E as <- E. destruct l as [|a l]; [cbn; lia|]. injection E as <- E.
    destruct l as [|a l]; [cbn; lia|]. injection E as <- E. destruct l as [|a l]; [cbn; lia|]. injection E as <- E.
    destruct l as [|a l]; [cbn; lia|]. discriminate E.
Qed.
Example C18_trunc_demo :
  let v := S754_finite true 6755399441055744 (-51) in (* -3 *)
  let w := S754_finite true 7881299347898368 (-51) in (* -3.5 *)
  f_valid v /\ f_valid w /\ Z.quot (f_num w) (2 ^ 1074) = -3 /\ f_num w < f_num v.
Proof. vm_compute. auto. Qed.

Print Assumptions C07_int_sum.
Print Assumptions C18_int_sum.
Print Assumptions C18_int_last.
Print Assumptions C18_trunc.
Print Assumptions C07_int_sum_refuted.
Print Assumptions C18_int_last_refuted.
