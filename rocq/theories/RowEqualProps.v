(** C83: which rows Row.Equal takes for equal. *)

From Coq Require Import String.
From Coq Require Import List ZArith Reals Bool Lia Lra.
From Coq Require Import Floats.SpecFloat.
From Flocq Require Import Core.Core IEEE754.BinarySingleNaN.
From Verif Require Import Base GoMap Float64 FloatAdd FloatDiv FloatErr FloatInt SamplerProps AggModel RowEqualModel RowEqualSpec.
Import ListNotations.
Open Scope Z_scope.

Local Instance Hprec : FLX.Prec_gt_0 53 := eq_refl.
Local Instance Hmax : Prec_lt_emax 53 1024 := eq_refl.
Local Instance VE : Valid_exp (SpecFloat.fexp 53 1024).
Proof. apply FLT_exp_valid. exact Hprec. Qed.

Definition b_sub : b64 -> b64 -> b64 := Bminus mode_NE.
Lemma f_sub_equiv (x y : b64) : f_sub (B2SF x) (B2SF y) = B2SF (b_sub x y).
Proof.
  destruct x as [sx|sx| |sx mx ex Bx], y as [sy|sy| |sy my ey By]; try reflexivity;
    try (cbn; destruct sx, sy; reflexivity).
  unfold f_sub, b_sub, Bminus. cbn [B2SF SFsub]. cbv zeta. rewrite normalize_equiv. f_equal. f_equal.
  unfold Fplus_naive. rewrite <- Z.add_opp_r. f_equal. destruct sy; reflexivity.
Qed.

Lemma number_b x : number x <-> exists b : b64, x = B2SF b /\ is_finite b = true.
Proof.
  split.
  - intros (V & N & L). destruct (to_b x V) as [b ->]. exists b. split; [reflexivity |].
    destruct b as [s|s| |s m e H]; try reflexivity; [| discriminate N]. exfalso. unfold f_num in L. cbn [B2SF] in L. destruct s; lia.
  - intros (b & -> & F). split; [apply valid_binary_B2SF |]. split; [destruct b; try reflexivity; discriminate F |].
    assert (V : f_valid (B2SF b)) by apply valid_binary_B2SF.
    destruct b as [s|s| |s m e H]; try discriminate F; unfold f_num; cbn [B2SF].
    + rewrite Z.abs_0. apply Z.pow_pos_nonneg; lia.
    + destruct (finite_bound s m e V). destruct s; lia.
Qed.

(** ** Differences and their squares *)

Lemma eps_b : exists b : b64, epsilon = B2SF b /\ is_finite b = true /\ B2R b = (4835703278458517 * / 4835703278458516698824704)%R.
Proof.
  exists (@B754_finite 53 1024 false 4835703278458517 (-82) eq_refl). split; [reflexivity | split; [reflexivity |]].
  cbn [B2R cond_Zopp]. unfold F2R. cbn [Fnum Fexp]. change (bpow radix2 (-82)) with (/ 4835703278458516698824704)%R. reflexivity.
Qed.

Lemma small : (bpow radix2 (-53) <= / 9000000000000000 /\ 0 < bpow radix2 (-53) /\ bpow radix2 (-1075) <= / 1000000000000000000000000000000 /\ 0 < bpow radix2 (-1075))%R.
Proof.
  split; [change (bpow radix2 (-53)) with (/ 9007199254740992)%R; lra |]. split; [apply bpow_gt_0 |]. split; [| apply bpow_gt_0].
  apply Rle_trans with (bpow radix2 (-100)); [apply bpow_le; lia |].
  change (bpow radix2 (-100)) with (/ 1267650600228229401496703205376)%R. lra.
Qed.

Lemma sub_cases (x y : b64) : is_finite x = true -> is_finite y = true ->
  (is_finite (b_sub x y) = true /\ B2R (b_sub x y) = rnd (B2R x - B2R y)) \/
  (exists s, b_sub x y = B754_infinity s /\ (bpow radix2 1024 <= Rabs (rnd (B2R x - B2R y)))%R).
Proof.
  intros Fx Fy. pose proof (Bminus_correct 53 1024 Hprec Hmax mode_NE x y Fx Fy) as C. fold (b_sub x y) in C.
  revert C. case Rlt_bool_spec; intros H C.
  - left. destruct C as (C1 & C2 & _). split; assumption.
  - right. destruct C as (C1 & _). exists (Bsign x). split; [| exact H]. apply B2SF_inj. exact C1.
Qed.

Lemma square_cases (d : b64) : is_finite d = true ->
  (is_finite (b_times d d) = true /\ B2R (b_times d d) = rnd (B2R d * B2R d)) \/
  (b_times d d = B754_infinity false /\ (bpow radix2 1024 <= Rabs (rnd (B2R d * B2R d)))%R).
Proof.
  intros Fd. pose proof (Bmult_correct 53 1024 Hprec Hmax mode_NE d d) as C. fold (b_times d d) in C.
  revert C. case Rlt_bool_spec; intros H C.
  - left. destruct C as (C1 & C2 & _). rewrite Fd in C2. split; assumption.
  - right. split; [| exact H]. apply B2SF_inj. etransitivity; [exact C |]. rewrite xorb_nilpotent. reflexivity.
Qed.

Lemma near_b (x y : b64) : near (B2SF x) (B2SF y) = f_ltb (B2SF (b_times (b_sub x y) (b_sub x y))) epsilon.
Proof. unfold near. rewrite f_sub_equiv, f_times_equiv. reflexivity. Qed.

Lemma ltb_b (x y : b64) : is_finite x = true -> is_finite y = true -> f_ltb (B2SF x) (B2SF y) = Rlt_bool (B2R x) (B2R y).
Proof. intros. now apply Bltb_correct. Qed.

Lemma inf_ltb (b : b64) : is_finite b = true -> f_ltb (B2SF (B754_infinity false : b64)) (B2SF b) = false.
Proof. intros F. destruct b; try discriminate F; reflexivity. Qed.
Lemma inf_square s : b_times (B754_infinity s) (B754_infinity s) = B754_infinity false.
Proof. destruct s; reflexivity. Qed.

(** Only numbers are near anything. *)
Lemma near_number (x y : b64) : near (B2SF x) (B2SF y) = true -> is_finite x = true /\ is_finite y = true.
Proof.
  rewrite near_b. intros H.
  destruct x as [sx|sx| |sx mx ex Bx], y as [sy|sy| |sy my ey By]; try (split; reflexivity); exfalso; revert H; cbn;
    try (destruct sx); try (destruct sy); cbn; discriminate.
Qed.

Lemma near_R (x y : b64) : is_finite x = true -> is_finite y = true ->
  (near (B2SF x) (B2SF y) = true -> Rabs (B2R x - B2R y) < / 31000)%R /\
  ((Rabs (B2R x - B2R y) <= / 32000)%R -> near (B2SF x) (B2SF y) = true).
Proof.
  intros Fx Fy. rewrite near_b. destruct eps_b as (ep & -> & Fe & Re). destruct small as (S1 & S2 & S3 & S4).
  set (X := (B2R x - B2R y)%R) in *. pose proof (rnd_err X) as EX.
  set (e := bpow radix2 (-53)) in *. set (h := bpow radix2 (-1075)) in *.
  split.
  - intros N. apply Rnot_le_lt. intros L.
    destruct (sub_cases x y Fx Fy) as [[Fd Rd] | (s & E & _)].
    2:{ rewrite E, inf_square, inf_ltb in N by exact Fe. discriminate N. }
    fold X in Rd. set (d := b_sub x y) in *.
    assert (D : (/ 31001 <= Rabs (B2R d))%R).
    { rewrite Rd. assert (T := Rabs_triang_inv X (X - rnd X)). replace (X - (X - rnd X))%R with (rnd X) in T by ring.
      rewrite (Rabs_minus_sym X (rnd X)) in T.
      assert (M : (Rabs X * e <= Rabs X * / 9000000000000000)%R) by (apply Rmult_le_compat_l; [apply Rabs_pos | exact S1]). lra. }
    assert (Q : (/ 31001 * / 31001 <= B2R d * B2R d)%R).
    { replace (B2R d * B2R d)%R with (Rabs (B2R d) * Rabs (B2R d))%R by (rewrite <- Rabs_mult; apply Rabs_pos_eq, Rle_0_sqr).
      apply Rmult_le_compat; lra. }
    destruct (square_cases d Fd) as [[Fq Rq] | [E _]]; [| rewrite E, inf_ltb in N by exact Fe; discriminate N].
    rewrite ltb_b in N by assumption. revert N. case Rlt_bool_spec; [| discriminate]. rewrite Re, Rq. intros N _.
    set (Y := (B2R d * B2R d)%R) in *. pose proof (rnd_err Y) as EY. fold e h in EY.
    assert (PY : (Rabs Y = Y)%R) by (apply Rabs_pos_eq; lra). rewrite PY in EY.
    assert (M : (Y * e <= Y * / 9000000000000000)%R) by (apply Rmult_le_compat_l; [lra | exact S1]).
    assert (B := Rabs_def2 (rnd Y - Y) (Y * e + 2 * h) ltac:(lra)). lra.
  - intros L. assert (PX := Rabs_pos X).
    assert (M : (Rabs X * e <= Rabs X * / 9000000000000000)%R) by (apply Rmult_le_compat_l; [lra | exact S1]).
    assert (DX : (Rabs (rnd X) <= / 31999)%R).
    { assert (T := Rabs_triang X (rnd X - X)). replace (X + (rnd X - X))%R with (rnd X) in T by ring. lra. }
    destruct (sub_cases x y Fx Fy) as [[Fd Rd] | (s & _ & O)].
    2:{ exfalso. fold X in O. assert (B : (bpow radix2 0 <= bpow radix2 1024)%R) by (apply bpow_le; lia). change (bpow radix2 0) with 1%R in B. lra. }
    fold X in Rd. set (d := b_sub x y) in *. rewrite <- Rd in DX.
    assert (Q : (0 <= B2R d * B2R d <= / 31999 * / 31999)%R).
    { replace (B2R d * B2R d)%R with (Rabs (B2R d) * Rabs (B2R d))%R by (rewrite <- Rabs_mult; apply Rabs_pos_eq, Rle_0_sqr).
      assert (P := Rabs_pos (B2R d)). split; [apply Rmult_le_pos; exact P | apply Rmult_le_compat; lra]. }
    set (Y := (B2R d * B2R d)%R) in *. pose proof (rnd_err Y) as EY. fold e h in EY.
    assert (PY : (Rabs Y = Y)%R) by (apply Rabs_pos_eq; lra). rewrite PY in EY.
    assert (M' : (Y * e <= Y * / 9000000000000000)%R) by (apply Rmult_le_compat_l; [lra | exact S1]).
    assert (B := Rabs_def2 (rnd Y - Y) (Y * e + 2 * h) ltac:(lra)).
    destruct (square_cases d Fd) as [[Fq Rq] | [_ O]].
    2:{ exfalso. fold Y in O. assert (B' : (bpow radix2 0 <= bpow radix2 1024)%R) by (apply bpow_le; lia). change (bpow radix2 0) with 1%R in B'.
        assert (T := Rabs_triang Y (rnd Y - Y)). replace (Y + (rnd Y - Y))%R with (rnd Y) in T by ring. lra. }
    rewrite ltb_b by assumption. apply Rlt_bool_true. rewrite Re, Rq. fold Y. lra.
Qed.

Lemma num_diff (x y : b64) k : is_finite x = true -> is_finite y = true ->
  (IZR (k * Z.abs (f_num (B2SF x) - f_num (B2SF y))) = IZR k * Rabs (B2R x - B2R y) * bpow radix2 1074)%R.
Proof.
  intros Fx Fy. rewrite mult_IZR, abs_IZR, minus_IZR, !num_R by assumption.
  rewrite <- Rmult_minus_distr_r, Rabs_mult, (Rabs_pos_eq (bpow radix2 1074)) by apply bpow_ge_0. ring.
Qed.
Lemma two1074 : IZR (2 ^ 1074) = bpow radix2 1074.
Proof. change (2 ^ 1074)%Z with (radix2 ^ 1074)%Z. apply (IZR_Zpower radix2). lia. Qed.

Lemma near_close x y : f_valid x -> f_valid y -> near x y = true -> close x y.
Proof.
  intros Vx Vy H. destruct (to_b x Vx) as [bx ->], (to_b y Vy) as [by_ ->].
  destruct (near_number bx by_ H) as [Fx Fy]. split; [apply number_b; exists bx; split; [reflexivity | exact Fx] |].
  split; [apply number_b; exists by_; split; [reflexivity | exact Fy] |].
  apply lt_IZR. rewrite num_diff, two1074 by assumption. destruct (near_R bx by_ Fx Fy) as [N _]. specialize (N H).
  assert (P := bpow_gt_0 radix2 1074). rewrite <- (Rmult_1_l (bpow radix2 1074)) at 2. apply Rmult_lt_compat_r; [exact P | lra].
Qed.
Lemma close_near x y : very_close x y -> near x y = true.
Proof.
  intros (Nx & Ny & H). apply number_b in Nx, Ny. destruct Nx as (bx & -> & Fx), Ny as (by_ & -> & Fy).
  apply (near_R bx by_ Fx Fy). apply IZR_le in H. rewrite num_diff, two1074 in H by assumption.
  assert (P := bpow_gt_0 radix2 1074). rewrite <- (Rmult_1_l (bpow radix2 1074)) in H at 2. apply Rmult_le_reg_r in H; [lra | exact P].
Qed.

Lemma counts_equal_eq a : forall b, counts_equal a b = true <-> a = b.
Proof.
  induction a as [| x a IH]; intros [| y b]; cbn; try (split; (reflexivity || discriminate)).
  rewrite andb_true_iff, Z.eqb_eq, IH. split; [intros [-> ->]; reflexivity | intros E; injection E as <- <-; split; reflexivity].
Qed.
Lemma tags_equal_eq a : forall b, tags_equal a b = true <-> a = b.
Proof.
  induction a as [| [k v] a IH]; intros [| [k' v'] b]; cbn; try (split; (reflexivity || discriminate)).
  rewrite !andb_true_iff, IH. destruct (bytes_eqb_spec k k'), (bytes_eqb_spec v v'); split;
    try (intros [[? ?] ?]; congruence); try (intros E; injection E; intros; subst; try congruence; repeat split; reflexivity).
Qed.

Lemma variance_eq d : variance d = sample_variance d.
Proof. unfold variance, sample_variance. destruct (Z.leb_spec (d_count d) 1), (Z.leb_spec 2 (d_count d)); try lia; reflexivity. Qed.
Lemma variance_valid d : f_valid (d_ssd d) -> f_valid (variance d).
Proof. intros V. unfold variance. destruct (_ <=? _); [reflexivity | apply f_div_valid; [exact V | apply f_of_Z_valid]]. Qed.

(** ** Rows *)

(** Rows that are equal have the same tags and data of the same kind, with the same start, the
    same counts, and values that differ by less than 1/31000. *)
Theorem C83_equal : forall a b, valid_data (r_data a) -> valid_data (r_data b) -> row_equal false a b = true ->
  r_tags a = r_tags b /\ similar close (r_data a) (r_data b).
Proof.
  intros [ta da] [tb db]. cbn [r_tags r_data]. intros Va Vb E. unfold row_equal in E. cbn [r_tags r_data] in E.
  apply andb_true_iff in E. destruct E as [ET ED]. split.
  { destruct ta as [l|], tb as [l'|]; try discriminate ET; [| reflexivity]. apply tags_equal_eq in ET. congruence. }
  destruct da as [s v|s v|d|v], db as [s' v'|s' v'|d'|v']; try discriminate ED; cbn [data_equal similar valid_data] in *.
  - apply andb_true_iff in ED. rewrite !Z.eqb_eq in ED. exact ED.
  - apply andb_true_iff in ED. rewrite Z.eqb_eq in ED. destruct ED as [-> N]. split; [reflexivity | exact (near_close v v' Va Vb N)].
  - destruct Va as (Va1 & Va2 & Va3 & Va4), Vb as (Vb1 & Vb2 & Vb3 & Vb4).
    unfold dist_equal in ED. rewrite <- !variance_eq. rewrite !andb_true_iff, !Z.eqb_eq, counts_equal_eq in ED. destruct ED as (E1 & ((((E2 & E3) & E4) & E5) & E6) & E7).
    apply f_eqb_num in E4, E5; try assumption. split; [exact E2 |]. split; [exact E3 |]. split; [exact E1 |]. split; [exact E4 |]. split; [exact E5 |].
    split; [exact (near_close _ _ Va3 Vb3 E6) | exact (near_close _ _ (variance_valid d Va4) (variance_valid d' Vb4) E7)].
  - apply f_eqb_num; assumption.
Qed.

(** Rows with the same tags, and such data with values that differ by at most 1/32000, are equal. *)
Theorem C83_close : forall a b, valid_data (r_data a) -> valid_data (r_data b) ->
  r_tags a = r_tags b -> similar very_close (r_data a) (r_data b) -> row_equal false a b = true.
Proof.
  intros [ta da] [tb db]. cbn [r_tags r_data]. intros Va Vb <- S. unfold row_equal. cbn [r_tags r_data]. apply andb_true_iff. split.
  { destruct ta as [l|]; [| reflexivity]. apply tags_equal_eq. reflexivity. }
  destruct da as [s v|s v|d|v], db as [s' v'|s' v'|d'|v']; try destruct S; cbn [data_equal similar valid_data] in *.
  - rewrite andb_true_iff, !Z.eqb_eq. split; assumption.
  - rewrite andb_true_iff, !Z.eqb_eq. split; [assumption | apply close_near; assumption].
  - destruct Va as (Va1 & Va2 & Va3 & Va4), Vb as (Vb1 & Vb2 & Vb3 & Vb4). destruct H0 as (E3 & E1 & E4 & E5 & E6 & E7).
    rewrite <- !variance_eq in E7. unfold dist_equal. rewrite !andb_true_iff, !Z.eqb_eq, counts_equal_eq.
    assert (Q4 := proj2 (f_eqb_num _ _ Va1 Vb1) E4). assert (Q5 := proj2 (f_eqb_num _ _ Va2 Vb2) E5).
    assert (Q6 := close_near _ _ E6). assert (Q7 := close_near _ _ E7). repeat split; assumption.
  - apply f_eqb_num; try assumption. split; [assumption |]. assumption.
Qed.
Print Assumptions C83_equal. Print Assumptions C83_close.

(** The exact criterion, in reals. *)
Lemma near_exact (x y : b64) : is_finite x = true -> is_finite y = true ->
  near (B2SF x) (B2SF y) = Rlt_bool (rnd (rnd (B2R x - B2R y) * rnd (B2R x - B2R y))) (4835703278458517 * / 4835703278458516698824704).
Proof.
  intros Fx Fy. rewrite near_b. destruct eps_b as (ep & -> & Fe & Re). rewrite <- Re.
  assert (P0 : (1 <= bpow radix2 1024)%R) by (change 1%R with (bpow radix2 0); apply bpow_le; lia).
  assert (big : forall r, (1 <= r)%R -> (1 <= rnd r)%R).
  { intros r L. apply round_ge_generic; [exact VE | apply valid_rnd_round_mode | | exact L].
    change 1%R with (bpow radix2 0). apply generic_format_bpow. unfold SpecFloat.fexp, SpecFloat.emin. lia. }
  destruct (sub_cases x y Fx Fy) as [[Fd Rd] | (s & E & O)].
  - rewrite <- Rd. destruct (square_cases _ Fd) as [[Fq Rq] | [E O]].
    + rewrite ltb_b by assumption. rewrite Rq. reflexivity.
    + rewrite E, inf_ltb by exact Fe. symmetry. apply Rlt_bool_false. rewrite Rabs_pos_eq in O; [lra |].
      rewrite <- (round_0 radix2 (SpecFloat.fexp 53 1024) (round_mode mode_NE)). apply rnd_mono, Rle_0_sqr.
  - rewrite E, inf_square, inf_ltb by exact Fe. symmetry. apply Rlt_bool_false.
    set (r := rnd (B2R x - B2R y)) in *. assert (1 <= rnd (r * r))%R; [| lra]. apply big.
    replace (r * r)%R with (Rabs r * Rabs r)%R by (rewrite <- Rabs_mult; apply Rabs_pos_eq, Rle_0_sqr).
    replace 1%R with (1 * 1)%R by ring. apply Rmult_le_compat; lra.
Qed.

Lemma near_sym x y : f_valid x -> f_valid y -> near x y = near y x.
Proof.
  intros Vx Vy. destruct (to_b x Vx) as [bx ->], (to_b y Vy) as [by_ ->].
  destruct (is_finite bx && is_finite by_) eqn:F.
  - apply andb_true_iff in F. destruct F as [Fx Fy]. rewrite !near_exact by assumption.
    replace (B2R by_ - B2R bx)%R with (- (B2R bx - B2R by_))%R by ring.
    rewrite (round_NE_opp radix2 (SpecFloat.fexp 53 1024) : forall r, rnd (- r) = (- rnd r)%R). rewrite Rmult_opp_opp. reflexivity.
  - transitivity false; [| symmetry].
    + destruct (near (B2SF bx) (B2SF by_)) eqn:N; [| reflexivity]. destruct (near_number _ _ N) as [A B]. rewrite A, B in F. discriminate F.
    + destruct (near (B2SF by_) (B2SF bx)) eqn:N; [| reflexivity]. destruct (near_number _ _ N) as [A B]. rewrite A, B in F. discriminate F.
Qed.

Lemma f_eqb_sym x y : f_valid x -> f_valid y -> f_eqb x y = f_eqb y x.
Proof.
  intros Vx Vy. apply eq_true_iff_eq. rewrite !f_eqb_num by assumption. intuition congruence.
Qed.
Lemma counts_equal_sym a b : counts_equal a b = counts_equal b a.
Proof. apply eq_true_iff_eq. rewrite !counts_equal_eq. split; congruence. Qed.
Lemma tags_equal_sym a b : tags_equal a b = tags_equal b a.
Proof. apply eq_true_iff_eq. rewrite !tags_equal_eq. split; congruence. Qed.

Theorem C83_symmetric : forall p a b, valid_data (r_data a) -> valid_data (r_data b) -> row_equal p a b = row_equal p b a.
Proof.
  intros p [ta da] [tb db]. cbn [r_tags r_data]. intros Va Vb. unfold row_equal. cbn [r_tags r_data]. destruct p; [reflexivity |]. f_equal.
  { destruct ta, tb; try reflexivity. apply tags_equal_sym. }
  destruct da as [s v|s v|d|v], db as [s' v'|s' v'|d'|v']; try reflexivity; cbn [data_equal valid_data] in *.
  - rewrite (Z.eqb_sym s), (Z.eqb_sym v). reflexivity.
  - rewrite (Z.eqb_sym s), (near_sym v v') by assumption. reflexivity.
  - destruct Va as (Va1 & Va2 & Va3 & Va4), Vb as (Vb1 & Vb2 & Vb3 & Vb4). unfold dist_equal.
    rewrite counts_equal_sym, (Z.eqb_sym (d_start d)), (Z.eqb_sym (d_count d)), (f_eqb_sym (d_min d)), (f_eqb_sym (d_max d)),
      (near_sym (d_mean d)), (near_sym (variance d)) by (assumption || apply variance_valid; assumption). reflexivity.
  - apply f_eqb_sym; assumption.
Qed.

(** A row is equal to a copy of itself exactly if no NaN and no infinity is in the way. *)
Theorem C83_copy : forall a, valid_data (r_data a) -> (row_equal false a a = true <-> clean_data (r_data a)).
Proof.
  intros a V. split.
  - intros E. destruct (C83_equal a a V V E) as [_ S]. destruct (r_data a) as [s v|s v|d|v]; cbn [similar clean_data] in *.
    + exact I.
    + destruct S as (_ & N & _). exact N.
    + destruct S as (_ & _ & _ & (M1 & _) & (M2 & _) & (N1 & _) & (N2 & _)). repeat split; try assumption; apply N1 || apply N2.
    + destruct S as (N & _). exact N.
  - intros C. apply (C83_close a a V V eq_refl).
    assert (vc : forall x, number x -> very_close x x).
    { intros x N. split; [exact N | split; [exact N |]]. rewrite Z.sub_diag. cbn [Z.abs]. rewrite Z.mul_0_r. apply Z.pow_nonneg. lia. }
    destruct (r_data a) as [s v|s v|d|v]; cbn [similar clean_data] in *.
    + split; reflexivity.
    + split; [reflexivity | apply vc, C].
    + destruct C as (C1 & C2 & C3 & C4). repeat split; try assumption; try reflexivity; try (apply vc; assumption); try apply C3; try apply C4;
        try (rewrite Z.sub_diag; cbn [Z.abs]; rewrite Z.mul_0_r; apply Z.pow_nonneg; lia).
    + split; [exact C | split; [exact C | reflexivity]].
Qed.
Print Assumptions C83_symmetric. Print Assumptions C83_copy.

(** ** What Equal does not do *)

Definition fl (m : positive) (e : Z) : f64 := S754_finite false m e.
Definition ex_sample (x : f64) : sample f64_num := MkSample x [] 7.
Definition ex_one : f64 := f_of_Z 1.
Definition ex_half : f64 := fl 4503599627370496 (-53).

(** A sum that got an infinity is not equal to its copy: two calls of RetrieveData with nothing
    between them give rows that are not equal. *)
Theorem C83_copy_refuted : exists ss, row_equal false (collected [] (aggregate AggSum 5 ss)) (collected [] (aggregate AggSum 5 ss)) = false.
Proof. exists [ex_sample ex_one; ex_sample (S754_infinity false)]. vm_compute. reflexivity. Qed.

(** The tolerance is absolute: the same measurements in another order can give rows that are not
    equal. *)
Theorem C83_order_refuted : exists ss, row_equal false (collected [] (aggregate AggSum 5 ss)) (collected [] (aggregate AggSum 5 (rev ss))) = false.
Proof. exists [ex_sample (f_of_Z (2 ^ 53)); ex_sample ex_one; ex_sample ex_one]. vm_compute. reflexivity. Qed.

(** Equal is not transitive: 0, 2^-15 and 2^-14. *)
Theorem C83_transitive_refuted : exists a b c, row_equal false a b = true /\ row_equal false b c = true /\ row_equal false a c = false.
Proof.
  exists (collected [] (SumD 5 f_zero)), (collected [] (SumD 5 (fl 4503599627370496 (-67)))), (collected [] (SumD 5 (fl 4503599627370496 (-66)))).
  vm_compute. repeat split; reflexivity.
Qed.

(** The bounds of distributions are not compared. *)
Theorem C83_bounds_refuted : exists b b' ss, b <> b' /\
  row_equal false (collected [] (aggregate (AggDist b) 5 ss)) (collected [] (aggregate (AggDist b') 5 ss)) = true.
Proof.
  exists [ex_one], [f_of_Z 2], [ex_sample ex_half]. split; [intros E; vm_compute in E; discriminate E | vm_compute; reflexivity].
Qed.

(** A collected row without tags is not equal to one written down with an empty slice of tags. *)
Theorem C83_nil_refuted : forall d, row_equal false (collected [] d) (MkRow (Some []) d) = false.
Proof. reflexivity. Qed.
Print Assumptions C83_copy_refuted.

(** Rows with a tag and a distribution of two samples; one that differs in the mean by 2^-16. *)
Definition ex_dist : agg_data f64_num := aggregate (AggDist [ex_one]) 5 [ex_sample ex_half; ex_sample (f_of_Z 2)].
Definition ex_row : row := collected [(bs "k", bs "v")] ex_dist.
Definition ex_row2 : row := collected [(bs "k", bs "v")]
  match ex_dist with
  | DistD d => DistD (MkDist (d_count d) (d_min d) (d_max d) (f_add (d_mean d) (fl 4503599627370496 (-68))) (d_ssd d) (d_cpb d) [] [] (d_start d))
  | x => x
  end.
Example C83_nonvacuous : valid_data (r_data ex_row) /\ valid_data (r_data ex_row2) /\ row_equal false ex_row ex_row2 = true /\
  row_equal false ex_row (collected [(bs "k", bs "w")] ex_dist) = false /\ clean_data (r_data ex_row).
Proof.
  assert (V : valid_data (r_data ex_row)) by (vm_compute; repeat split).
  split; [exact V |]. split; [vm_compute; repeat split |]. split; [vm_compute; reflexivity |]. split; [vm_compute; reflexivity |].
  apply (C83_copy ex_row V). vm_compute. reflexivity.
Qed.
Example C83_close_nonvacuous : similar very_close (r_data ex_row) (r_data ex_row2) /\ r_tags ex_row = r_tags ex_row2.
Proof. split; [vm_compute; repeat split; intros H; discriminate H | reflexivity]. Qed.
