(** C26: span IDs are not zero and do not repeat. *)

From Coq Require Import List Arith NArith ZArith Bool Lia ZifyBool ZifyNat ZifyN.
From Verif Require Import Base TraceTypes IdGenModel.
Import ListNotations.
Open Scope nat_scope.

(** The IDs handed out, in order. *)
Definition ids (l : list (nat * option bytes)) : list bytes :=
  flat_map (fun x => match snd x with Some b => [b] | None => [] end) l.

(** *** Bytes *)

Lemma le_bytes_length n : forall v, length (le_bytes n v) = n.
Proof. induction n as [|n IH]; intros v; cbn [le_bytes length]; [reflexivity | now rewrite IH]. Qed.

Lemma le_bytes_inj n : forall v w, (v < 256 ^ N.of_nat n)%N -> (w < 256 ^ N.of_nat n)%N -> le_bytes n v = le_bytes n w -> v = w.
Proof.
  induction n as [|n IH]; intros v w Hv Hw H.
  - cbn in Hv, Hw. lia.
  - cbn [le_bytes] in H. injection H as H1 H2. rewrite Nat2N.inj_succ, N.pow_succ_r' in Hv, Hw.
    apply (f_equal b2n) in H1. rewrite !b2n_n2b_small in H1 by (apply N.mod_lt; lia).
    apply IH in H2; [| apply N.div_lt_upper_bound; lia | apply N.div_lt_upper_bound; lia].
    pose proof (N.div_mod v 256 ltac:(lia)) as Dv. pose proof (N.div_mod w 256 ltac:(lia)) as Dw. rewrite H1, H2 in Dv. congruence.
Qed.

Lemma le_bytes_zero n : le_bytes n 0 = repeat x00 n.
Proof. induction n as [|n IH]; [reflexivity |]. cbn [le_bytes repeat]. change (0 / 256)%N with 0%N. rewrite IH. reflexivity. Qed.

(** *** The sequence of counter values *)

Definition val (g : idgen) (k : nat) : N := ((g_next g + N.of_nat (S k) * g_inc g) mod 2 ^ 64)%N.

Lemma p64 : (2 ^ 64 <> 0)%N. Proof. discriminate. Qed.

Lemma gen_run_vals ts : forall g,
  map snd (fst (gen_run g ts)) =
  map (fun k => let v := val g k in if (v =? 0)%N then None else Some (le_bytes 8 v)) (seq 0 (length ts)).
Proof.
  induction ts as [|t ts IH]; intros g; cbn [gen_run length seq map]; [reflexivity |].
  destruct (gen_step g) as [x g1] eqn:E. unfold gen_step, gen_add in E. injection E as <- <-.
  set (g1 := MkGen _ _ _). specialize (IH g1). destruct (gen_run g1 ts) as [l g2]. cbn [fst map snd] in *. f_equal.
  - unfold val. rewrite N.mul_1_l. reflexivity.
  - rewrite IH, <- seq_shift, map_map. apply map_ext. intros k. cbn zeta.
    assert (Ev : val g1 k = val g (S k)).
    { unfold val, g1. cbn [g_next g_inc]. rewrite N.add_mod_idemp_l by apply p64. f_equal. lia. }
    rewrite Ev. reflexivity.
Qed.

Definition nonzeros (g : idgen) (n : nat) : list N := filter (fun v => negb (v =? 0)%N) (map (val g) (seq 0 n)).

Lemma ids_nonzeros g ts : ids (fst (gen_run g ts)) = map (le_bytes 8) (nonzeros g (length ts)).
Proof.
  assert (E : ids (fst (gen_run g ts)) = flat_map (fun x => match x with Some b => [b] | None => [] end) (map snd (fst (gen_run g ts)))).
  { unfold ids. induction (fst (gen_run g ts)) as [|[t x] l IH]; cbn [flat_map map snd]; [reflexivity |]. rewrite IH. reflexivity. }
  rewrite E, gen_run_vals. unfold nonzeros. induction (seq 0 (length ts)) as [|k l IH]; cbn [map flat_map filter]; [reflexivity |].
  cbn zeta. destruct (val g k =? 0)%N; cbn [negb app map]; rewrite IH; reflexivity.
Qed.

Lemma val_lt g k : (val g k < 2 ^ 64)%N.
Proof. apply N.mod_lt. apply p64. Qed.

(** Powers of two dividing an odd multiple divide the number. *)
Lemma odd_divide inc : N.odd inc = true -> forall k d, N.divide (2 ^ N.of_nat k) (d * inc) -> N.divide (2 ^ N.of_nat k) d.
Proof.
  intros Ho. induction k as [|k IH]; intros d [q Hq].
  - exists d. cbn. lia.
  - rewrite Nat2N.inj_succ, N.pow_succ_r' in *.
    assert (He : N.odd d = false).
    { apply (f_equal N.odd) in Hq. rewrite !N.odd_mul, Ho, andb_true_r in Hq. rewrite Hq. cbn. rewrite ?andb_false_r. reflexivity. }
    destruct (proj1 (N.even_spec d)) as [d' ->]; [rewrite <- N.negb_odd, He; reflexivity |].
    destruct (IH d') as [q' Hq']; [exists q; lia |]. exists q'. lia.
Qed.

Lemma odd_cancel inc d : N.odd inc = true -> (d < 2 ^ 64)%N -> ((d * inc) mod 2 ^ 64 = 0)%N -> d = 0%N.
Proof.
  intros Ho Hd Hm. apply N.mod_divide in Hm; [| apply p64].
  apply (odd_divide inc Ho 64) in Hm. change (N.of_nat 64) with 64%N in Hm. destruct Hm as [q Hq].
  destruct (N.eq_dec q 0) as [-> | Hne]; [lia |]. exfalso. assert (1 * 2 ^ 64 <= q * 2 ^ 64)%N by (apply N.mul_le_mono_r; lia). lia.
Qed.

Lemma mod_diff a b m : (m <> 0)%N -> (a <= b)%N -> (a mod m = b mod m)%N -> ((b - a) mod m = 0)%N.
Proof.
  intros Hm Hle E. pose proof (N.div_mod a m Hm) as Da. pose proof (N.div_mod b m Hm) as Db. rewrite <- E in Db.
  assert (Hd : (a / m <= b / m)%N) by (apply N.div_le_mono; assumption).
  apply N.mod_divide; [exact Hm |]. exists (b / m - a / m)%N. nia.
Qed.

Lemma val_inj g i j : N.odd (g_inc g) = true -> (N.of_nat i < 2 ^ 64)%N -> (N.of_nat j < 2 ^ 64)%N -> val g i = val g j -> i = j.
Proof.
  intros Ho Hi Hj E.
  assert (Hw : forall i j, i <= j -> (N.of_nat j < 2 ^ 64)%N -> val g i = val g j -> i = j).
  { clear i j Hi Hj E. intros i j Hle Hj E. unfold val in E. apply mod_diff in E; [| apply p64 | nia].
    replace (g_next g + N.of_nat (S j) * g_inc g - (g_next g + N.of_nat (S i) * g_inc g))%N with (N.of_nat (j - i) * g_inc g)%N in E by nia.
    apply odd_cancel in E; [lia | exact Ho | lia]. }
  destruct (Nat.le_ge_cases i j) as [Hle | Hle]; [apply Hw; assumption | symmetry; apply Hw; auto].
Qed.

Lemma nth_error_seq k n : k < n -> nth_error (seq 0 n) k = Some k.
Proof.
  intros H. rewrite (nth_error_nth' (seq 0 n) 0) by (rewrite seq_length; exact H). rewrite seq_nth by exact H. reflexivity.
Qed.

Lemma vals_NoDup g n : N.odd (g_inc g) = true -> (N.of_nat n <= 2 ^ 64)%N -> NoDup (map (val g) (seq 0 n)).
Proof.
  intros Ho Hn. apply NoDup_nth_error. intros i j Hi E. rewrite map_length, seq_length in Hi.
  rewrite !nth_error_map in E. rewrite nth_error_seq in E by exact Hi.
  destruct (Nat.lt_ge_cases j n) as [Hj | Hj].
  - rewrite nth_error_seq in E by exact Hj. cbn [option_map] in E. injection E as E. apply (val_inj g) in E; [exact E | exact Ho | lia | lia].
  - rewrite (proj2 (nth_error_None (seq 0 n) j)) in E by (rewrite seq_length; exact Hj). discriminate.
Qed.

Lemma filter_nonzero_len (l : list N) : NoDup l -> length l <= S (length (filter (fun v => negb (v =? 0)%N) l)).
Proof.
  intros H. induction H as [|x l Hni Hnd IH]; cbn [length filter]; [lia |].
  destruct (N.eqb_spec x 0) as [-> | Hne]; cbn [negb length]; [| lia].
  assert (E : filter (fun v => negb (v =? 0)%N) l = l).
  { clear - Hni. induction l as [|y l IH]; cbn [filter]; [reflexivity |]. destruct (N.eqb_spec y 0) as [-> | Hne].
    - exfalso. apply Hni. left. reflexivity.
    - cbn [negb]. f_equal. apply IH. intros Hin. apply Hni. right. exact Hin. }
  rewrite E. lia.
Qed.

Definition n64 : nat := N.to_nat (2 ^ 64).
Lemma n64_spec : N.of_nat n64 = (2 ^ 64)%N.
Proof. unfold n64. apply N2Nat.id. Qed.
#[global] Opaque n64.

Lemma nonzeros_NoDup g n : N.odd (g_inc g) = true -> (N.of_nat (length (nonzeros g n)) < 2 ^ 64)%N -> NoDup (nonzeros g n).
Proof.
  intros Ho Hlen. pose proof n64_spec as H64. destruct (Nat.le_gt_cases n n64) as [Hn | Hn].
  - apply NoDup_filter. apply vals_NoDup; [exact Ho | lia].
  - assert (En : n = n64 + (n - n64)) by lia. unfold nonzeros in *. rewrite En, seq_app, map_app, filter_app in *.
    pose proof (vals_NoDup g n64 Ho ltac:(lia)) as Hnd. pose proof (filter_nonzero_len _ Hnd) as Hf. rewrite map_length, seq_length in Hf.
    rewrite app_length in Hlen.
    destruct (filter _ (map (val g) (seq (0 + n64) (n - n64)))) as [|x l]; [| cbn [length] in Hlen; lia].
    rewrite app_nil_r. apply NoDup_filter. exact Hnd.
Qed.

Lemma inc_odd next inc add : N.odd (g_inc (gen_init next inc add)) = true.
Proof. cbn [gen_init g_inc]. rewrite <- N.bit0_odd, N.lor_spec. apply orb_true_r. Qed.

(** Whatever numbers the generator was seeded with and however the additions of the
    goroutines are interleaved: no ID handed out is zero. *)
Theorem C26_nonzero next inc add ts t b :
  In (t, Some b) (fst (gen_run (gen_init next inc add) ts)) -> length b = 8 /\ b <> zero_span_id.
Proof.
  intros H. assert (Hb : In b (ids (fst (gen_run (gen_init next inc add) ts)))).
  { unfold ids. apply in_flat_map. exists (t, Some b). split; [exact H | left; reflexivity]. }
  rewrite ids_nonzeros in Hb. apply in_map_iff in Hb. destruct Hb as (v & <- & Hv). apply filter_In in Hv. destruct Hv as [Hv Hz].
  split; [apply le_bytes_length |]. intros E. unfold zero_span_id in E. rewrite <- le_bytes_zero in E.
  apply le_bytes_inj in E; [lia | | cbn; lia]. apply in_map_iff in Hv. destruct Hv as (k & <- & _). apply val_lt.
Qed.

(** The first 2^64-1 IDs handed out are different. *)
Theorem C26_unique next inc add ts :
  (N.of_nat (length (ids (fst (gen_run (gen_init next inc add) ts)))) < 2 ^ 64)%N ->
  NoDup (ids (fst (gen_run (gen_init next inc add) ts))).
Proof.
  rewrite ids_nonzeros, map_length. intros Hlen.
  pose proof (nonzeros_NoDup _ _ (inc_odd next inc add) Hlen) as H.
  assert (Hlt : forall v, In v (nonzeros (gen_init next inc add) (length ts)) -> (v < 2 ^ 64)%N).
  { intros v Hv. apply filter_In in Hv. destruct Hv as [Hv _]. apply in_map_iff in Hv. destruct Hv as (k & <- & _). apply val_lt. }
  clear Hlen. induction H as [|v l Hni Hnd IH]; cbn [map]; constructor.
  - intros Hin. apply in_map_iff in Hin. destruct Hin as (v' & E & Hin).
    apply le_bytes_inj in E; [subst; contradiction | apply Hlt; right; exact Hin | apply Hlt; left; reflexivity].
  - apply IH. intros v' Hv'. apply Hlt. right. exact Hv'.
Qed.

(** A call that drew zero gets an ID with its next addition, unless others have drawn
    2^64 numbers in between. *)
Theorem C26_retry next inc add ts1 ts2 t1 t2 :
  let run := fst (gen_run (gen_init next inc add) (ts1 ++ t1 :: ts2 ++ [t2])) in
  nth_error run (length ts1) = Some (t1, None) -> (N.of_nat (length ts2) < 2 ^ 64 - 1)%N ->
  exists b, nth_error run (S (length ts1 + length ts2)) = Some (t2, Some b).
Proof.
  intros run H1 Hlen. subst run. set (g := gen_init next inc add) in *. set (ts := ts1 ++ t1 :: ts2 ++ [t2]) in *.
  assert (Hl : length ts = S (S (length ts1 + length ts2))) by (unfold ts; rewrite app_length; cbn [length]; rewrite app_length; cbn [length]; lia).
  assert (Hts : map fst (fst (gen_run g ts)) = ts).
  { clear. clearbody g ts. revert g. induction ts as [|t ts IH]; intros g; cbn [gen_run]; [reflexivity |]. destruct (gen_step g) as [x g1].
    specialize (IH g1). destruct (gen_run g1 ts) as [l g2]. cbn [fst map] in *. now rewrite IH. }
  assert (Hk : forall k, k < length ts -> nth_error (map snd (fst (gen_run g ts))) k = Some (if (val g k =? 0)%N then None else Some (le_bytes 8 (val g k)))).
  { intros k Hk. rewrite gen_run_vals, nth_error_map, nth_error_seq by exact Hk. reflexivity. }
  assert (H1' : nth_error (map snd (fst (gen_run g ts))) (length ts1) = Some None) by (rewrite nth_error_map, H1; reflexivity).
  rewrite Hk in H1' by lia. destruct (N.eqb_spec (val g (length ts1)) 0) as [Ez | _]; [| discriminate].
  set (k := S (length ts1 + length ts2)).
  assert (Hnz : val g k <> 0%N).
  { intros E. rewrite <- Ez in E. unfold val in E. symmetry in E. apply mod_diff in E; [| apply p64 | unfold k; nia].
    replace (g_next g + N.of_nat (S k) * g_inc g - (g_next g + N.of_nat (S (length ts1)) * g_inc g))%N
      with (N.of_nat (S (length ts2)) * g_inc g)%N in E by (unfold k; nia).
    apply odd_cancel in E; [lia | apply inc_odd | lia]. }
  assert (Hsnd : nth_error (map snd (fst (gen_run g ts))) k = Some (Some (le_bytes 8 (val g k)))).
  { rewrite Hk by (unfold k; lia). destruct (N.eqb_spec (val g k) 0); [contradiction | reflexivity]. }
  assert (Hfst : nth_error (map fst (fst (gen_run g ts))) k = Some t2).
  { rewrite Hts. unfold ts, k. rewrite nth_error_app2 by lia. replace (S (length ts1 + length ts2) - length ts1) with (S (length ts2)) by lia.
    cbn [nth_error]. rewrite nth_error_app2, Nat.sub_diag by lia. reflexivity. }
  rewrite nth_error_map in Hsnd, Hfst. destruct (nth_error (fst (gen_run g ts)) k) as [[t x]|]; [| discriminate].
  cbn [option_map fst snd] in Hsnd, Hfst. injection Hsnd as ->. injection Hfst as ->. eexists. reflexivity.
Qed.

(** Finding: NewTraceID, documented to return a non-zero ID, can return zero. *)
Theorem C26_trace_id_zero_refuted a0 a1 next inc : (a0 < 2 ^ 64)%N -> (a1 < 2 ^ 64)%N ->
  exists r0 r1, (r0 < 2 ^ 64)%N /\ (r1 < 2 ^ 64)%N /\ new_trace_id (gen_init next inc (a0, a1)) r0 r1 = zero_trace_id.
Proof.
  intros H0 H1. exists ((2 ^ 64 - a0) mod 2 ^ 64)%N, ((2 ^ 64 - a1) mod 2 ^ 64)%N.
  split; [apply N.mod_lt, p64 |]. split; [apply N.mod_lt, p64 |]. unfold new_trace_id. cbn [gen_init g_add fst snd].
  rewrite !N.add_mod_idemp_l by apply p64. rewrite !N.sub_add by lia. reflexivity.
Qed.

(** Three goroutines; the counter passes zero. *)
Example C26_example :
  map snd (fst (gen_run (gen_init (2 ^ 64 - 3) 2 (0, 0)%N) [1; 2; 2; 3])) =
  [None; Some (le_bytes 8 3); Some (le_bytes 8 6); Some (le_bytes 8 9)].
Proof. vm_compute. reflexivity. Qed.

Print Assumptions C26_nonzero.
Print Assumptions C26_unique.
Print Assumptions C26_retry.
Print Assumptions C26_trace_id_zero_refuted.
