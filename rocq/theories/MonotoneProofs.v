(** Proofs about successive looks at a registered view (C87). *)

From Coq Require Import List Arith ZArith Bool Reals Lia Lra Sorted Permutation ZifyBool ZifyNat ZifyN.
From Coq Require Import Floats.SpecFloat.
From Flocq Require Import Core.Core IEEE754.BinarySingleNaN.
From Verif Require Import Base ListLib Float64 FloatAdd FloatInt IntSumProps TagModel AggModel AggSpec AggProofs
  CollectorModel CollectorSpec ViewModel WorkerModel WorkerSpec ViewProofs WorkerProofs MonotoneSpec.
Import ListNotations.
Open Scope Z_scope.

(** ** Floats *)

Lemma f_add_nonneg x v : f_valid x -> f_valid v -> is_nan x = false -> is_nan v = false -> 0 <= f_num v < 2 ^ 2098 ->
  is_nan (f_add x v) = false /\ f_num x <= f_num (f_add x v).
Proof.
  intros Hx Hv Nx Nv Pv.
  assert (G : is_nan (f_add x v) = false /\ f_ltb (f_add x v) x = false).
  2:{ destruct G as [G1 G2]. split; [exact G1|]. apply f_ltb_false in G2; auto using f_add_valid. }
  assert (Pv' : f_ltb v f_zero = false) by (apply f_ltb_false; auto using f_zero_valid; change (f_num f_zero) with 0; lia).
  destruct (to_b x Hx) as [bx ->], (to_b v Hv) as [bv ->]. rewrite f_add_equiv.
  assert (Fv : is_finite bv = true).
  { destruct bv as [s|s| |]; try reflexivity; [|discriminate Nv]. exfalso. cbn [B2SF] in Pv. unfold f_num in Pv. destruct s; lia. }
  destruct (BinarySingleNaN.is_finite bx) eqn:Fx.
  2:{ destruct bx as [s|s| |]; try discriminate Fx; [|discriminate Nx].
      destruct bv as [t|t| |]; try discriminate Fv; destruct s; cbn; auto. }
  change f_zero with (B2SF (B754_zero false : b64)) in *. set (z := B754_zero false : b64) in *.
  assert (L : forall a b : b64, is_finite a = true -> is_finite b = true -> f_ltb (B2SF a) (B2SF b) = Rlt_bool (B2R a) (B2R b))
    by (intros; now apply Bltb_correct).
  rewrite L in Pv' by (reflexivity || assumption). cbn [z B2R] in Pv'.
  assert (Pr : (0 <= B2R bv)%R) by (revert Pv'; case Rlt_bool_spec; [discriminate|auto]).
  pose proof (Bplus_correct 53 1024 FloatAdd.Hprec FloatAdd.Hmax mode_NE bx bv Fx Fv) as C. fold (b_add bx bv) in C.
  set (fe := SpecFloat.fexp 53 1024) in *.
  assert (VE : Valid_exp fe) by (apply FLT_exp_valid; exact FloatAdd.Hprec).
  assert (G : generic_format radix2 fe (B2R bx)) by apply generic_format_B2R.
  assert (R : (B2R bx <= round radix2 fe (round_mode mode_NE) (B2R bx + B2R bv))%R).
  { apply round_ge_generic; [exact VE|apply valid_rnd_round_mode|exact G|lra]. }
  destruct (Rlt_bool _ _) in C.
  - destruct C as (C1 & C2 & _). split.
    + destruct (b_add bx bv); try reflexivity; discriminate C2.
    + rewrite L by assumption. rewrite C1. apply Rlt_bool_false. exact R.
  - destruct C as (C1 & C2). rewrite C1.
    assert (S : Bsign bx = false).
    { destruct (Bsign bv) eqn:E; [|exact C2].
      destruct bv as [t|t| |t m e B]; try discriminate Fv.
      - exfalso. destruct bx as [s|s| |s m e B]; try discriminate Fx.
        + cbn in E, C2, C1. subst t s. discriminate C1.
        + cbn in C1. discriminate C1.
      - cbn [Bsign] in E. subst t. cbn [B2R cond_Zopp] in Pr.
        assert (F2R (Float radix2 (Z.neg m) e) < 0)%R by (apply F2R_lt_0; reflexivity). cbn in *. lra. }
    rewrite S. cbn. split; [reflexivity|]. destruct bx as [s|s| |s m e B]; try discriminate Fx; reflexivity.
Qed.

Lemma fold_add_valid l : forall x, f_valid x -> Forall f_valid l -> f_valid (fold_left f_add l x).
Proof.
  induction l as [|v l IH]; intros x Hx Hl; [exact Hx|]. inversion Hl; subst. cbn [fold_left]. apply IH; auto using f_add_valid.
Qed.

Lemma fold_add_nonneg l : forall x, f_valid x -> Forall f_valid l ->
  (forall v, In v l -> 0 <= f_num v < 2 ^ 2098 /\ is_nan v = false) -> not_below x (fold_left f_add l x).
Proof.
  induction l as [|v l IH]; intros x Hx Hl Hn Nx; cbn [fold_left]; [split; [exact Nx|lia]|]. inversion Hl; subst.
  destruct (Hn v (or_introl eq_refl)) as [P N].
  destruct (f_add_nonneg x v Hx H1 Nx N P) as [N1 L1].
  destruct (IH (f_add x v)) as [N2 L2]; auto using f_add_valid; [intros w Hw; apply Hn; now right|].
  split; [exact N2|lia].
Qed.

Lemma f_to_int_range x : - 2 ^ 63 <= f_to_int x.
Proof.
  destruct x as [s|s| |s m e]; cbn [f_to_int]; try lia.
  assert (0 <= Z.shiftl (Zpos m) e) by (apply Z.shiftl_nonneg; lia).
  destruct (Z.leb_spec (2 ^ 63) (Z.shiftl (Zpos m) e)); [lia|]. destruct s; lia.
Qed.

Lemma f_to_int_spec x : f_valid x -> is_nan x = false ->
  f_to_int x = Z.quot (f_num x) (2 ^ 1074) \/ (f_to_int x = - 2 ^ 63 /\ ~ - 2 ^ 63 <= Z.quot (f_num x) (2 ^ 1074) < 2 ^ 63).
Proof.
  intros Hv Hn.
  destruct (Z_le_dec (- 2 ^ 63) (Z.quot (f_num x) (2 ^ 1074))) as [A|A], (Z_lt_dec (Z.quot (f_num x) (2 ^ 1074)) (2 ^ 63)) as [B|B];
    [left; apply f_to_int_trunc; auto|right|right|right]; (split; [|lia]).
  all: destruct x as [s|s| |s m e]; try discriminate Hn; try reflexivity; [exfalso; change (f_num (S754_zero s)) with 0 in *; rewrite Z.quot_0_l in * by (apply Z.pow_nonzero; lia); lia|].
  all: apply valid_finite in Hv; destruct Hv as ((Hlo & _) & _).
  all: assert (E : Z.quot (Zpos m * 2 ^ (e + 1074)) (2 ^ 1074) = Z.shiftl (Zpos m) e)
    by (destruct (Z.leb_spec 0 e) as [He | He];
      [ rewrite Z.shiftl_mul_pow2 by lia; rewrite Z.pow_add_r, Z.mul_assoc, Z.quot_mul by (lia || (apply Z.pow_nonzero; lia)); reflexivity
      | rewrite Z.shiftl_div_pow2 by lia; replace (2 ^ 1074) with (2 ^ (- e) * 2 ^ (e + 1074)) by (rewrite <- Z.pow_add_r by lia; f_equal; lia);
        rewrite Z.quot_mul_cancel_r by (apply Z.pow_nonzero; lia); apply Z.quot_div_nonneg; [lia|apply Z.pow_pos_nonneg; lia] ]).
  all: assert (N : 0 <= Z.shiftl (Zpos m) e) by (apply Z.shiftl_nonneg; lia).
  all: unfold f_num in A, B; cbn [f_to_int]; destruct s; rewrite ?Z.quot_opp_l in A, B by (apply Z.pow_nonzero; lia); rewrite E in A, B;
    destruct (Z.leb_spec (2 ^ 63) (Z.shiftl (Zpos m) e)); lia.
Qed.

Lemma f_to_int_mono x y : f_valid x -> f_valid y -> not_below x y -> f_to_int x <= f_to_int y \/ f_to_int y = - 2 ^ 63.
Proof.
  intros Hx Hy H. destruct (is_nan x) eqn:Nx.
  { left. destruct x; try discriminate Nx. pose proof (f_to_int_range y). cbn [f_to_int]. lia. }
  destruct (H Nx) as [Ny L].
  assert (M : Z.quot (f_num x) (2 ^ 1074) <= Z.quot (f_num y) (2 ^ 1074)) by (apply Z.quot_le_mono; [apply Z.pow_pos_nonneg; lia|exact L]).
  pose proof (f_to_int_range y). pose proof (f_to_int_range x).
  destruct (f_to_int_spec x Hx Nx) as [Ex|[Ex Rx]], (f_to_int_spec y Hy Ny) as [Ey|[Ey Ry]]; lia.
Qed.

(** ** One row *)

Lemma Forall2_nth_error_intro {A B} (R : A -> B -> Prop) l : forall l', length l = length l' ->
  (forall i a b, nth_error l i = Some a -> nth_error l' i = Some b -> R a b) -> Forall2 R l l'.
Proof.
  induction l as [|a l IH]; intros [|b l'] H N; try discriminate H; constructor.
  - exact (N 0%nat a b eq_refl eq_refl).
  - apply IH; [injection H; auto|]. intros i x y. exact (N (S i) x y).
Qed.

Lemma grown_aggregate (up : Prop) (agg : aggregation f64_num) t (ss ss' : list (sample f64_num)) :
  Forall f_valid (values (ss ++ ss')) -> Z.of_nat (length (ss ++ ss')) < 2 ^ 63 ->
  (up -> forall v, In v (values ss') -> 0 <= f_num v < 2 ^ 2098 /\ is_nan v = false) ->
  grown up (aggregate agg t ss) (aggregate agg t (ss ++ ss')).
Proof.
  intros HV HL HU. rewrite app_length in HL.
  assert (HV' := HV). unfold values in HV'. rewrite map_app in HV'. apply Forall_app in HV'. destruct HV' as [V1 V2].
  change (map (@s_value f64_num) ss) with (values ss) in V1. change (map (@s_value f64_num) ss') with (values ss') in V2.
  destruct agg as [| |bounds|].
  - rewrite !run_count, !int64_of_small by (rewrite ?app_length; lia). cbn [grown]. rewrite app_length. split; [reflexivity|lia].
  - rewrite !run_sum. cbn [grown n_add n_zero f64_num]. split; [reflexivity|]. intros U.
    replace (values (ss ++ ss')) with (values ss ++ values ss') by (unfold values; now rewrite map_app).
    rewrite fold_left_app. apply fold_add_nonneg; auto. apply fold_add_valid; auto using f_zero_valid.
  - rewrite !run_dist. cbn [grown].
    destruct (drun_shape f64_num bounds t ss) as (B & S & C & L & _), (drun_shape f64_num bounds t (ss ++ ss')) as (B' & S' & C' & L' & _).
    cbv zeta in *. rewrite B, B', S, S', C, C', !int64_of_small by (rewrite ?app_length; lia).
    split; [reflexivity|]. split; [reflexivity|]. split; [rewrite app_length; lia|]. split; [|split].
    + apply (Forall2_nth_error_intro (fun c c' => 0 <= c <= c')); [congruence|].
      intros i c c' Ec Ec'.
      assert (Hi : (i <= length bounds)%nat) by (assert (i < length (d_cpb (drun f64_num bounds t ss)))%nat by (apply nth_error_Some; congruence); lia).
      rewrite drun_cpb in Ec, Ec' by exact Hi. injection Ec as <-. injection Ec' as <-.
      unfold hits, count_if. rewrite filter_app, app_length.
      assert (F1 := filter_length_le (fun s : sample f64_num => (bucket_index (s_value s) bounds =? i)%nat) ss).
      assert (F2 := filter_length_le (fun s : sample f64_num => (bucket_index (s_value s) bounds =? i)%nat) ss').
      rewrite !int64_of_small by lia. lia.
    + destruct (drun_min bounds t ss V1) as (_ & N & W & _), (drun_min bounds t (ss ++ ss') HV) as (_ & N' & _ & M & A). cbv zeta in *.
      intros _. split; [exact N|]. destruct W as [->|W]; [exact M|]. apply A; [|exact N].
      unfold values. rewrite map_app. apply in_or_app. left. exact W.
    + destruct (drun_max bounds t ss V1) as (_ & N & W & _), (drun_max bounds t (ss ++ ss') HV) as (_ & N' & _ & M & A). cbv zeta in *.
      intros _. split; [exact N'|]. destruct W as [->|W]; [exact M|]. apply A; [|exact N].
      unfold values. rewrite map_app. apply in_or_app. left. exact W.
  - assert (G : forall l : list (sample f64_num), exists v, aggregate AggLast t l = LastD v).
    { intros l. destruct l as [|s l _] using rev_ind; [exists f_zero; reflexivity|]. exists (s_value s). apply run_last. }
    destruct (G ss) as [v ->], (G (ss ++ ss')) as [v' ->]. exact I.
Qed.

(** ** Histories *)

Lemma recorded_app a b : recorded (a ++ b) = recorded a ++ recorded b.
Proof. unfold recorded. apply flat_map_app. Qed.

Lemma samples_for_recorded mn tm ms att t :
  forall ms0 s, In (ms0, s) (samples_for mn tm ms att t) ->
    In (mn, s_value s) (recorded [CmdRecord tm ms att t]) /\ s_time s = t.
Proof.
  intros m0 s H. unfold samples_for in H. apply in_flat_map in H. destruct H as ([[me v]|] & Hm & H); [|destruct H].
  destruct (bytes_eqb_spec (me_name me) mn) as [<-|]; [|destruct H]. destruct H as [[= <- <-]|[]]. cbn [s_value s_time]. split; [|reflexivity].
  unfold recorded. cbn [flat_map]. rewrite app_nil_r. apply in_flat_map. exists (Some (me, v)). split; [exact Hm|now left].
Qed.

Lemma samples_for_length mn tm ms att t :
  (length (samples_for mn tm ms att t) <= length (recorded [CmdRecord tm ms att t]))%nat.
Proof.
  unfold samples_for, recorded. cbn [flat_map]. rewrite app_nil_r.
  induction ms as [|[[me v]|] ms IH]; cbn [flat_map]; rewrite ?app_length; [cbn; lia| |exact IH].
  destruct (bytes_eqb (me_name me) mn); cbn [length]; lia.
Qed.

Section Hist.
  Context (u : uworld).

  (** The samples of an entry are measurements of its measure; those of commands
      after [h1] are appended. *)
  Lemma state_grows h1 cs n e :
    s_state u h1 n = Some e -> stays_registered n cs ->
    exists extra, s_state u (h1 ++ cs) n = Some (MkEntry (en_view e) (en_start e) (en_samples e ++ extra)) /\
      (length extra <= length (recorded cs))%nat /\
      forall sv, spec_view u (en_view e) = Some sv ->
        forall m s, In (m, s) extra -> In (me_name (sv_measure sv), s_value s) (recorded cs).
  Proof.
    intros E. induction cs as [|c cs IH] using rev_ind; intros HS.
    { exists []. rewrite !app_nil_r. destruct e as [p t ss]. cbn. repeat split; auto. }
    destruct IH as (extra & IE & IL & IV); [intros ns t Hin; apply (HS ns t), in_or_app; now left|].
    rewrite app_assoc, s_state_snoc.
    set (st := s_state u (h1 ++ cs)) in *.
    assert (K : forall c', (forall x, In x (recorded cs) -> In x (recorded (cs ++ [c']))) /\ (length (recorded cs) <= length (recorded (cs ++ [c'])))%nat).
    { intros c'. rewrite recorded_app, app_length. split; [intros; apply in_or_app; now left|lia]. }
    assert (Same : forall st', st' n = Some (MkEntry (en_view e) (en_start e) (en_samples e ++ extra)) ->
      exists extra0, st' n = Some (MkEntry (en_view e) (en_start e) (en_samples e ++ extra0)) /\
        (length extra0 <= length (recorded (cs ++ [c])))%nat /\
        forall sv, spec_view u (en_view e) = Some sv ->
          forall m s, In (m, s) extra0 -> In (me_name (sv_measure sv), s_value s) (recorded (cs ++ [c]))).
    { intros st' H. exists extra. destruct (K c) as [K1 K2]. split; [exact H|]. split; [lia|]. intros. eapply K1, IV; eassumption. }
    destruct c as [nm|ps now|ns now|nm|tm ms att t|d|now|now|x|x|r]; try (apply Same; exact IE).
    - apply Same. cbn [s_step]. destruct (forallb (valid_view u) ps); [|exact IE]. now apply fold_register_keeps.
    - apply Same. cbn [s_step]. destruct (existsb (bytes_eqb n) ns) eqn:X; [|exact IE]. exfalso.
      apply existsb_exists in X. destruct X as (y & Hy & Ey). destruct (bytes_eqb_spec n y) as [<-|]; [|discriminate].
      apply (HS ns now); [apply in_or_app; right; now left|exact Hy].
    - cbn [s_step]. rewrite IE. cbn [en_view en_start en_samples].
      destruct (spec_view u (en_view e)) as [sv|] eqn:Es.
      + exists (extra ++ samples_for (me_name (sv_measure sv)) tm ms att t). rewrite app_assoc. split; [reflexivity|].
        rewrite recorded_app, !app_length. split; [pose proof (samples_for_length (me_name (sv_measure sv)) tm ms att t); lia|].
        intros sv' [= <-] m s Hin. apply in_app_or in Hin. apply in_or_app. destruct Hin as [Hin|Hin]; [left; eapply IV; eauto|right].
        eapply samples_for_recorded; exact Hin.
      + exists extra. destruct (K (CmdRecord tm ms att t)) as [K1 K2]. split; [reflexivity|]. split; [lia|]. discriminate.
  Qed.

  (** All samples of an entry are measurements of its measure. *)
  Lemma state_samples h n e :
    s_state u h n = Some e ->
    (length (en_samples e) <= length (recorded h))%nat /\
    forall sv, spec_view u (en_view e) = Some sv ->
      forall m s, In (m, s) (en_samples e) -> In (me_name (sv_measure sv), s_value s) (recorded h).
  Proof.
    revert e. induction h as [|c h IH] using rev_ind; intros e E; [discriminate E|].
    rewrite s_state_snoc in E. rewrite recorded_app, app_length.
    assert (Same : forall e', s_state u h n = Some e' -> en_samples e' = en_samples e -> en_view e' = en_view e ->
      (length (en_samples e) <= length (recorded h) + length (recorded [c]))%nat /\
      forall sv, spec_view u (en_view e) = Some sv ->
        forall m s, In (m, s) (en_samples e) -> In (me_name (sv_measure sv), s_value s) (recorded h ++ recorded [c])).
    { intros e' H <- <-. destruct (IH e' H) as [I1 I2]. split; [lia|]. intros. apply in_or_app. left. eapply I2; eassumption. }
    assert (Empty : en_samples e = [] ->
      (length (en_samples e) <= length (recorded h) + length (recorded [c]))%nat /\
      forall sv, spec_view u (en_view e) = Some sv ->
        forall m s, In (m, s) (en_samples e) -> In (me_name (sv_measure sv), s_value s) (recorded h ++ recorded [c])).
    { intros ->. split; [cbn; lia|]. intros; contradiction. }
    destruct c as [nm|ps now|ns now|nm|tm ms att t|d|now|now|x|x|r]; try (eapply Same; [exact E|reflexivity|reflexivity]).
    - cbn [s_step] in E. destruct (forallb (valid_view u) ps); [|eapply Same; [exact E|reflexivity|reflexivity]].
      assert (G : forall ps st, fold_left (s_register u now) ps st n = Some e -> st n = Some e \/ en_samples e = []).
      { clear. induction ps as [|p ps IH]; intros st H; [now left|]. cbn [fold_left] in H. destruct (IH _ H) as [G|G]; [|now right].
        unfold s_register in G. destruct (spec_view u p) as [sv|]; [|now left]. destruct (st (sv_name sv)); [now left|].
        unfold s_set in G. destruct (bytes_eqb (sv_name sv) n); [|now left]. injection G as <-. now right. }
      destruct (G ps _ E) as [G1|G1]; [eapply Same; [exact G1|reflexivity|reflexivity]|apply Empty; exact G1].
    - cbn [s_step] in E. destruct (existsb (bytes_eqb n) ns); [discriminate|]. eapply Same; [exact E|reflexivity|reflexivity].
    - cbn [s_step] in E. destruct (s_state u h n) as [e'|] eqn:E'; [|discriminate].
      destruct (spec_view u (en_view e')) as [sv|] eqn:Es; [|injection E as <-; eapply Same; eauto].
      injection E as <-. cbn [en_samples en_view]. destruct (IH e' eq_refl) as [I1 I2]. rewrite app_length.
      split; [pose proof (samples_for_length (me_name (sv_measure sv)) tm ms att t); lia|].
      intros sv' Hsv m s Hin. rewrite Es in Hsv. injection Hsv as <-.
      apply in_app_or in Hin. apply in_or_app. destruct Hin as [Hin|Hin]; [left; eapply I2; eauto|right].
      eapply samples_for_recorded; exact Hin.
  Qed.

  (** Samples of an entry that was not there before the commands [cs] carry the
      time of a Record call of [cs]. *)
  Lemma state_fresh_times h1 cs n e (t0 : time) :
    s_state u h1 n = None ->
    (forall tm ms att t, In (CmdRecord tm ms att t) cs -> t0 <= t) ->
    s_state u (h1 ++ cs) n = Some e ->
    forall m s, In (m, s) (en_samples e) -> t0 <= s_time s.
  Proof.
    intros E0. revert e. induction cs as [|c cs IH] using rev_ind; intros e HT E m s Hin.
    { rewrite app_nil_r in E. congruence. }
    assert (HT' : forall tm ms att t, In (CmdRecord tm ms att t) cs -> t0 <= t) by (intros; eapply HT, in_or_app; left; eassumption).
    rewrite app_assoc, s_state_snoc in E.
    destruct c as [nm|ps now|ns now|nm|tm ms att t|d|now|now|x|x|r]; try (eapply IH; eassumption).
    - cbn [s_step] in E. destruct (forallb (valid_view u) ps); [|eapply IH; eassumption].
      assert (G : forall ps st, fold_left (s_register u now) ps st n = Some e -> st n = Some e \/ en_samples e = []).
      { clear. induction ps as [|p ps IH]; intros st H; [now left|]. cbn [fold_left] in H. destruct (IH _ H) as [G|G]; [|now right].
        unfold s_register in G. destruct (spec_view u p) as [sv|]; [|now left]. destruct (st (sv_name sv)); [now left|].
        unfold s_set in G. destruct (bytes_eqb (sv_name sv) n); [|now left]. injection G as <-. now right. }
      destruct (G ps _ E) as [G1|G1]; [eapply IH; eassumption|rewrite G1 in Hin; destruct Hin].
    - cbn [s_step] in E. destruct (existsb (bytes_eqb n) ns); [discriminate|]. eapply IH; eassumption.
    - cbn [s_step] in E. destruct (s_state u (h1 ++ cs) n) as [e'|] eqn:E'; [|discriminate].
      destruct (spec_view u (en_view e')) as [sv|] eqn:Es; [|injection E as <-; eapply (IH e'); eauto].
      injection E as <-. cbn [en_samples] in Hin. apply in_app_or in Hin. destruct Hin as [Hin|Hin]; [eapply (IH e'); eauto|].
      apply samples_for_recorded in Hin. destruct Hin as [_ ->]. eapply HT. apply in_or_app. right. now left.
  Qed.

  (** The rows of an entry and of the same entry with more samples. *)
  Lemma rows_grow (up : Prop) agg keys (ss extra : list (option tmap * sample f64_num)) rows rows' :
    is_group_by agg keys ss rows -> is_group_by agg keys (ss ++ extra) rows' ->
    Forall f_valid (map (fun x => s_value (snd x)) (ss ++ extra)) -> Z.of_nat (length (ss ++ extra)) < 2 ^ 63 ->
    (up -> forall m s, In (m, s) extra -> 0 <= f_num (s_value s) < 2 ^ 2098 /\ is_nan (s_value s) = false) ->
    forall tags d, In (tags, d) rows -> exists d', In (tags, d') rows' /\ grown up d d'.
  Proof.
    intros [_ G] [_ G'] HV HL HU tags d Hin. apply G in Hin. destruct Hin as (m0 & s0 & rest & Hw & ->).
    exists (aggregate agg (s_time s0) (map snd (((m0, s0) :: rest) ++ with_tags keys tags extra))).
    split.
    - apply G'. exists m0, s0, (rest ++ with_tags keys tags extra). split; [|reflexivity].
      unfold with_tags in *. rewrite filter_app, Hw. reflexivity.
    - rewrite map_app.
      assert (L : (length (with_tags keys tags ss) + length (with_tags keys tags extra) <= length (ss ++ extra))%nat).
      { unfold with_tags. rewrite app_length.
        pose proof (filter_length_le (fun ms : option tmap * sample f64_num => tags_eqb (row_tags keys (fst ms)) tags) ss).
        pose proof (filter_length_le (fun ms : option tmap * sample f64_num => tags_eqb (row_tags keys (fst ms)) tags) extra). lia. }
      apply grown_aggregate.
      + rewrite <- map_app, <- Hw. unfold values. rewrite map_map. apply Forall_map. rewrite Forall_map in HV.
        rewrite Forall_forall in *. intros x Hx. apply HV. apply in_app_or in Hx. apply in_or_app.
        unfold with_tags in Hx. rewrite !filter_In in Hx. tauto.
      + rewrite app_length, !map_length. rewrite Hw in L. lia.
      + intros U v Hv. unfold values in Hv. rewrite map_map in Hv. apply in_map_iff in Hv. destruct Hv as ([m s] & <- & Hx).
        unfold with_tags in Hx. rewrite filter_In in Hx. apply (HU U m s). tauto.
  Qed.
End Hist.
