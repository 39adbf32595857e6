(** Proofs about the span store: buckets refine the specification. *)

From Coq Require Import List Arith ZArith Bool Lia Permutation ZifyBool ZifyNat.
From Verif Require Import Base GoMap TraceTypes TraceModel SpanStoreModel SpanStoreSpec.
Import ListNotations.
Open Scope nat_scope.

Lemma all_some_map {A B} (f : A -> option B) l l' :
  map f l = map Some l' -> all_some (map f l) = Some l'.
Proof.
  intros ->. clear l f. induction l' as [|x r IH]; simpl; [reflexivity | rewrite IH; reflexivity].
Qed.

Lemma set_at_app {A} (a : list A) x b y : set_at (a ++ x :: b) (length a) y = Some (a ++ y :: b).
Proof.
  unfold set_at. rewrite app_length. cbn [length].
  replace (length a <? length a + S (length b)) with true by lia.
  rewrite firstn_app, firstn_all, Nat.sub_diag. cbn [firstn]. rewrite app_nil_r.
  rewrite skipn_app. replace (S (length a) - length a) with 1 by lia.
  rewrite skipn_all2 by lia. reflexivity.
Qed.

Lemma set_at_app' {A} (a : list A) x b y i : i = length a -> set_at (a ++ x :: b) i y = Some (a ++ y :: b).
Proof. intros ->. apply set_at_app. Qed.

Lemma lastn_length {A} n (l : list A) : length (lastn n l) = min n (length l).
Proof. unfold lastn. rewrite skipn_length. lia. Qed.

Lemma lastn_all {A} n (l : list A) : length l <= n -> lastn n l = l.
Proof. intros H. unfold lastn. replace (length l - n) with 0 by lia. reflexivity. Qed.

Lemma lastn_snoc_full {A} (x : A) r y : lastn (S (length r)) (x :: r ++ [y]) = r ++ [y].
Proof.
  unfold lastn. replace (length (x :: r ++ [y]) - S (length r)) with 1 by (cbn [length]; rewrite app_length; cbn [length]; lia).
  reflexivity.
Qed.

(** The concrete bucket [b] represents [a]. *)
Inductive brep (b : bucket) (a : abucket) : Prop :=
| brep_fill :
    b_over b = false -> b_next b = ab_next a -> b_idx b = length (ab_items a) ->
    (length (ab_items a) < ab_cap a \/ ab_items a = [] /\ ab_cap a = 0) ->
    b_buf b = map Some (ab_items a) ++ repeat None (ab_cap a - length (ab_items a)) ->
    brep b a
| brep_over l1 l2 :
    b_over b = true -> b_next b = ab_next a -> ab_items a = l2 ++ l1 -> b_idx b = length l1 ->
    b_buf b = map Some (l1 ++ l2) -> (l2 <> [] \/ l1 = []) -> ab_cap a = length (l1 ++ l2) ->
    brep b a.

Lemma brep_make n : brep (make_bucket n) (ab_init n).
Proof.
  apply brep_fill; simpl; try reflexivity.
  - destruct n; [right; auto | left; lia].
  - f_equal. lia.
Qed.

Lemma brep_cap b a : brep b a -> length (b_buf b) = ab_cap a.
Proof.
  intros [Ho Hn Hi Hc Hb | l1 l2 Ho Hn Hit Hi Hb Hl Hc].
  - rewrite Hb, app_length, map_length, repeat_length. destruct Hc as [Hc | [Hc Hc0]]; [lia | rewrite Hc, Hc0; reflexivity].
  - rewrite Hb, map_length. auto.
Qed.

Lemma brep_items_le b a : brep b a -> length (ab_items a) <= ab_cap a.
Proof.
  intros [Ho Hn Hi Hc Hb | l1 l2 Ho Hn Hit Hi Hb Hl Hc].
  - destruct Hc as [Hc | [Hc Hc0]]; [lia | rewrite Hc; simpl; lia].
  - rewrite Hc, Hit, !app_length. lia.
Qed.

Lemma brep_size b a : brep b a -> b_size b = length (ab_items a).
Proof.
  intros [Ho Hn Hi Hc Hb | l1 l2 Ho Hn Hit Hi Hb Hl Hc]; unfold b_size; rewrite Ho.
  - auto.
  - rewrite Hb, map_length, Hit, !app_length. lia.
Qed.

Lemma brep_span b a i : brep b a -> i < length (ab_items a) ->
  b_span b i = option_map Some (nth_error (ab_items a) i).
Proof.
  intros [Ho Hn Hi Hc Hb | l1 l2 Ho Hn Hit Hi Hb Hl Hc] Hlt; unfold b_span; rewrite Ho; simpl negb; cbv iota.
  - rewrite Hb, nth_error_app1 by (rewrite map_length; auto). rewrite nth_error_map. reflexivity.
  - rewrite Hb, map_length, Hi, Hit in *. rewrite app_length in *.
    destruct (i <? length l1 + length l2 - length l1) eqn:E.
    + rewrite nth_error_map, nth_error_app2 by lia.
      replace (length l1 + i - length l1) with i by lia.
      rewrite (nth_error_app1 l2 l1) by lia. reflexivity.
    + replace (length l1 + i <? length l1 + length l2) with false by lia.
      rewrite nth_error_map, nth_error_app1 by lia.
      rewrite (nth_error_app2 l2 l1) by lia.
      replace (length l1 + i - (length l1 + length l2)) with (i - length l2) by lia. reflexivity.
Qed.

Lemma map_seq_nth {A} (l : list A) k n : k + n <= length l ->
  map (fun i => nth_error l (k + i)) (seq 0 n) = map Some (firstn n (skipn k l)).
Proof.
  revert k l. induction n as [|n IH]; intros k l H; [reflexivity |].
  destruct (nth_error l k) as [x|] eqn:E; [| apply nth_error_None in E; lia].
  destruct (nth_error_split l k E) as (l1 & l2 & -> & Hl1). subst k.
  rewrite skipn_app, skipn_all, Nat.sub_diag. simpl.
  rewrite Nat.add_0_r, E. f_equal.
  rewrite <- seq_shift, map_map.
  replace (map (fun x0 => nth_error (l1 ++ x :: l2) (length l1 + S x0)) (seq 0 n))
    with (map (fun x0 => nth_error (l1 ++ x :: l2) (S (length l1) + x0)) (seq 0 n))
    by (apply map_ext; intros; f_equal; lia).
  rewrite IH by lia. rewrite skipn_app. rewrite skipn_all2 by lia.
  replace (S (length l1) - length l1) with 1 by lia. reflexivity.
Qed.

Lemma brep_spans b a k n : brep b a -> k + n <= length (ab_items a) ->
  all_some (map (fun i => b_span b (k + i)) (seq 0 n)) = Some (map Some (firstn n (skipn k (ab_items a)))).
Proof.
  intros Hr H. apply all_some_map.
  rewrite (map_ext_in _ (fun i => option_map Some (nth_error (ab_items a) (k + i)))).
  2:{ intros i Hi. apply in_seq in Hi. rewrite (brep_span b a (k + i)) by (auto; lia). reflexivity. }
  rewrite <- (map_map (fun i => nth_error (ab_items a) (k + i)) (option_map Some)).
  rewrite map_seq_nth by auto. rewrite !map_map. reflexivity.
Qed.

Lemma brep_contents b a : brep b a -> b_contents b = Some (map Some (ab_items a)).
Proof.
  intros Hr. unfold b_contents. rewrite (brep_size b a Hr).
  pose proof (brep_spans b a 0 (length (ab_items a)) Hr ltac:(lia)) as H.
  simpl in H. rewrite firstn_all in H. exact H.
Qed.

Lemma until_nil_some l : until_nil (map Some l) = l.
Proof. induction l as [|x r IH]; simpl; [reflexivity | f_equal; auto]. Qed.

Lemma until_nil_fill l n : until_nil (map Some l ++ repeat None n) = l.
Proof. induction l as [|x r IH]; simpl; [destruct n; reflexivity | f_equal; auto]. Qed.

(** The reports see every span of a bucket. *)
Lemma brep_until_nil b a : brep b a -> Permutation (until_nil (b_buf b)) (ab_items a).
Proof.
  intros [Ho Hn Hi Hc Hb | l1 l2 Ho Hn Hit Hi Hb Hl Hc]; rewrite Hb.
  - rewrite until_nil_fill. reflexivity.
  - rewrite until_nil_some, Hit. apply Permutation_app_comm.
Qed.

Lemma brep_add b a sd : brep b a -> exists b', b_add b sd = Some b' /\ brep b' (ab_step a (BOffer sd)).
Proof.
  intros Hr. pose proof (brep_cap b a Hr) as Hcap. unfold b_add. rewrite Hcap. cbn [ab_step].
  assert (Hn : b_next b = ab_next a) by (destruct Hr; auto). rewrite Hn.
  unfold accepts.
  destruct (sd_end sd <? ab_next a)%Z eqn:E1.
  { replace (ab_next a <=? sd_end sd)%Z with false by lia. cbn [andb]. eauto. }
  replace (ab_next a <=? sd_end sd)%Z with true by lia. cbn [andb].
  destruct (ab_cap a =? 0) eqn:E2; cbn [negb]; [eauto |].
  destruct Hr as [Ho _ Hi Hc Hb | l1 l2 Ho _ Hit Hi Hb Hl Hc].
  - destruct Hc as [Hc | [_ Hc]]; [| lia].
    assert (Hb' : b_buf b = map Some (ab_items a) ++ None :: repeat None (ab_cap a - S (length (ab_items a)))).
    { rewrite Hb. f_equal. replace (ab_cap a - length (ab_items a)) with (S (ab_cap a - S (length (ab_items a)))) by lia. reflexivity. }
    rewrite Hb', Hi. rewrite set_at_app' by (rewrite map_length; reflexivity).
    rewrite app_length, map_length. cbn [length]. rewrite repeat_length.
    rewrite lastn_all by (rewrite app_length; simpl; lia).
    destruct (S (length (ab_items a)) =? length (ab_items a) + S (ab_cap a - S (length (ab_items a)))) eqn:E3.
    + eexists; split; [reflexivity |]. apply (brep_over _ _ [] (ab_items a ++ [sd])); simpl; auto.
      * rewrite app_nil_r. reflexivity.
      * rewrite map_app. replace (ab_cap a - S (length (ab_items a))) with 0 by lia. reflexivity.
      * rewrite app_length. simpl. lia.
    + eexists; split; [reflexivity |]. apply brep_fill; simpl; auto.
      * rewrite app_length. simpl. lia.
      * left. rewrite app_length. simpl. lia.
      * rewrite map_app, <- app_assoc, app_length. simpl.
        replace (ab_cap a - (length (ab_items a) + 1)) with (ab_cap a - S (length (ab_items a))) by lia. reflexivity.
  - destruct Hl as [Hl | Hl].
    + destruct l2 as [|x l2]; [congruence | clear Hl].
      rewrite Hb, map_app, Hi. cbn [map]. rewrite set_at_app' by (rewrite map_length; reflexivity).
      rewrite app_length, map_length. cbn [length]. rewrite map_length.
      assert (Hlast : lastn (ab_cap a) (ab_items a ++ [sd]) = l2 ++ l1 ++ [sd]).
      { rewrite Hit, Hc, <- app_assoc. cbn [app].
        replace (length (l1 ++ x :: l2)) with (S (length (l2 ++ l1))) by (rewrite !app_length; simpl; lia).
        rewrite app_assoc, lastn_snoc_full. reflexivity. }
      rewrite Hlast.
      destruct (S (length l1) =? length l1 + S (length l2)) eqn:E3.
      * assert (l2 = []) by (apply length_zero_iff_nil; lia). subst l2.
        eexists; split; [reflexivity |]. apply (brep_over _ _ [] (l1 ++ [sd])); simpl; auto.
        -- rewrite app_nil_r. reflexivity.
        -- rewrite map_app. reflexivity.
        -- rewrite Hc, !app_length. reflexivity.
      * eexists; split; [reflexivity |]. apply (brep_over _ _ (l1 ++ [sd]) l2); simpl; auto.
        -- rewrite app_length. simpl. lia.
        -- rewrite !map_app. rewrite <- app_assoc. reflexivity.
        -- left. intros ->. cbn [length] in E3. lia.
        -- rewrite Hc, !app_length. simpl. lia.
    + subst l1. cbn [app length] in *.
      destruct l2 as [|x l2]; [cbn [length] in Hc; lia |].
      rewrite Hb, Hi. cbn [map].
      change (set_at (Some x :: map Some l2) 0 (Some sd)) with (Some (Some sd :: map Some l2)).
      cbv iota. cbn [length]. rewrite map_length.
      assert (Hlast : lastn (ab_cap a) (ab_items a ++ [sd]) = l2 ++ [sd]).
      { rewrite Hit, Hc, app_nil_r. simpl length. simpl app. apply lastn_snoc_full. }
      rewrite Hlast.
      change (1 =? S (length l2)) with (0 =? length l2).
      destruct (0 =? length l2) eqn:E3.
      * assert (l2 = []) by (apply length_zero_iff_nil; lia). subst l2.
        eexists; split; [reflexivity |]. apply (brep_over _ _ [] [sd]); simpl; auto.
      * eexists; split; [reflexivity |]. apply (brep_over _ _ [sd] l2); simpl; auto.
        left. intros ->. cbn [length] in E3. lia.
Qed.

Lemma brep_resize b a n : brep b a -> exists b', b_resize b n = Some b' /\ brep b' (ab_step a (BResize n)).
Proof.
  intros Hr. unfold b_resize. rewrite (brep_size b a Hr).
  assert (Hn : b_next b = ab_next a) by (destruct Hr; auto).
  destruct (length (ab_items a) <? n) eqn:E.
  - pose proof (brep_spans b a 0 (length (ab_items a)) Hr ltac:(lia)) as H. simpl in H.
    rewrite firstn_all in H. change (fun i : nat => b_span b i) with (b_span b) in H. rewrite H.
    eexists; split; [reflexivity |]. simpl. rewrite lastn_all by lia.
    apply brep_fill; simpl; auto. left. lia.
  - pose proof (brep_spans b a (length (ab_items a) - n) n Hr ltac:(lia)) as H.
    rewrite (map_ext_in _ (fun i => b_span b (length (ab_items a) - n + i))).
    2:{ intros i Hi. apply in_seq in Hi. f_equal. lia. }
    rewrite H. eexists; split; [reflexivity |]. simpl.
    assert (Hfn : firstn n (skipn (length (ab_items a) - n) (ab_items a)) = lastn n (ab_items a)).
    { unfold lastn. apply firstn_all2. rewrite skipn_length. lia. }
    rewrite Hfn. apply (brep_over _ _ [] (lastn n (ab_items a))); simpl; auto.
    + rewrite app_nil_r. reflexivity.
    + rewrite lastn_length. lia.
Qed.

Lemma brep_step b a e : brep b a -> exists b', b_step b e = Some b' /\ brep b' (ab_step a e).
Proof. destruct e; intros H; [apply brep_add | apply brep_resize]; auto. Qed.

Lemma brep_run es : forall b a, brep b a -> exists b', b_run b es = Some b' /\ brep b' (fold_left ab_step es a).
Proof.
  induction es as [|e es IH]; intros b a Hr; simpl; [eauto |].
  destruct (brep_step b a e Hr) as (b1 & H1 & Hr1). rewrite H1. apply IH. auto.
Qed.

(** ** Consequences on the specification side *)

Lemma lastn_lastn {A} m n (l : list A) : lastn m (lastn n l) = lastn (min m n) l.
Proof.
  unfold lastn. rewrite skipn_length.
  destruct (Nat.le_gt_cases n (length l)) as [H | H].
  - rewrite skipn_skipn. f_equal. lia.
  - replace (length l - n) with 0 by lia. simpl. f_equal. lia.
Qed.

Lemma lastn_app_lastn {A} n (l1 l2 : list A) : lastn n (lastn n l1 ++ l2) = lastn n (l1 ++ l2).
Proof.
  unfold lastn. rewrite !app_length, skipn_length, !skipn_app, skipn_length, skipn_skipn.
  f_equal; f_equal; lia.
Qed.

Lemma accepted_app es1 es2 : forall a, accepted a (es1 ++ es2) = accepted a es1 ++ accepted (fold_left ab_step es1 a) es2.
Proof. induction es1 as [|e r IH]; intros a; simpl; [reflexivity |]. rewrite IH, app_assoc. reflexivity. Qed.

Lemma ab_run_snoc n es e : ab_run n (es ++ [e]) = ab_step (ab_run n es) e.
Proof. unfold ab_run. rewrite fold_left_app. reflexivity. Qed.

Lemma suffix_lastn {A} n (l : list A) : exists l0, l = l0 ++ lastn n l.
Proof. exists (firstn (length l - n) l). unfold lastn. symmetry. apply firstn_skipn. Qed.

Lemma ab_items_suffix n es : exists l0, accepted (ab_init n) es = l0 ++ ab_items (ab_run n es).
Proof.
  induction es as [|e es IH] using rev_ind; [exists []; reflexivity |].
  destruct IH as (l0 & IH). rewrite accepted_app, ab_run_snoc, IH. fold (ab_run n es).
  destruct e as [sd | m]; simpl.
  - destruct (accepts (ab_run n es) sd); simpl.
    + destruct (suffix_lastn (ab_cap (ab_run n es)) (ab_items (ab_run n es) ++ [sd])) as (l1 & H).
      exists (l0 ++ l1). rewrite <- !app_assoc. f_equal. exact H.
    + exists l0. rewrite !app_nil_r. reflexivity.
  - rewrite app_nil_r. destruct (suffix_lastn m (ab_items (ab_run n es))) as (l1 & H).
    exists (l0 ++ l1). rewrite <- app_assoc. f_equal. exact H.
Qed.

Lemma ab_cap_noresize n es : (forall m, ~ In (BResize m) es) -> ab_cap (ab_run n es) = n.
Proof.
  induction es as [|e es IH] using rev_ind; intros H; [reflexivity |].
  rewrite ab_run_snoc. destruct e as [sd | m]; simpl.
  - destruct (accepts _ _); simpl; apply IH; intros m Hm; apply (H m); apply in_or_app; auto.
  - exfalso. apply (H m). apply in_or_app. right. left. reflexivity.
Qed.

Lemma ab_items_noresize n es : (forall m, ~ In (BResize m) es) ->
  ab_items (ab_run n es) = lastn n (accepted (ab_init n) es).
Proof.
  induction es as [|e es IH] using rev_ind; intros H; [reflexivity |].
  assert (H' : forall m, ~ In (BResize m) es) by (intros m Hm; apply (H m); apply in_or_app; auto).
  rewrite ab_run_snoc, accepted_app. fold (ab_run n es). specialize (IH H').
  pose proof (ab_cap_noresize n es H') as Hc.
  destruct e as [sd | m]; simpl.
  - destruct (accepts _ _); simpl.
    + rewrite Hc, IH. apply lastn_app_lastn.
    + rewrite app_nil_r. auto.
  - exfalso. apply (H m). apply in_or_app. right. left. reflexivity.
Qed.

(** Consecutive accepted spans. *)
Definition next_ok (a : abucket) (l : list sdata) : Prop :=
  match rev l with [] => True | x :: _ => ab_next a = (sd_end x + 1000000000)%Z end.

Lemma ab_next_accepted n es : next_ok (ab_run n es) (accepted (ab_init n) es).
Proof.
  induction es as [|e es IH] using rev_ind; [exact I |].
  rewrite ab_run_snoc, accepted_app. fold (ab_run n es). unfold next_ok in *.
  destruct e as [sd | m]; simpl.
  - destruct (accepts _ _); simpl.
    + rewrite rev_app_distr. simpl. reflexivity.
    + rewrite app_nil_r. exact IH.
  - rewrite app_nil_r. exact IH.
Qed.

Lemma accepted_apart n es l1 x y l2 : accepted (ab_init n) es = l1 ++ x :: y :: l2 -> (sd_end x + 1000000000 <= sd_end y)%Z.
Proof.
  revert l1 x y l2. induction es as [|e es IH] using rev_ind; intros l1 x y l2 H.
  { destruct l1; discriminate. }
  rewrite accepted_app in H. fold (ab_run n es) in H.
  pose proof (ab_next_accepted n es) as Hn. unfold next_ok in Hn.
  destruct e as [sd | m]; simpl in H.
  - destruct (accepts (ab_run n es) sd) eqn:E; simpl in H.
    + destruct (rev l2) as [|z r] eqn:El2.
      * assert (l2 = []) by (rewrite <- (rev_involutive l2), El2; reflexivity). subst l2.
        assert (Hq : accepted (ab_init n) es = l1 ++ [x] /\ sd = y).
        { apply app_inj_tail. rewrite H, <- app_assoc. reflexivity. }
        destruct Hq as [Hq ->]. rewrite Hq, rev_app_distr in Hn. simpl in Hn.
        unfold accepts in E. lia.
      * assert (Hl2 : l2 = rev r ++ [z]) by (rewrite <- (rev_involutive l2), El2; reflexivity). subst l2.
        apply (IH l1 x y (rev r)).
        assert (Hq : accepted (ab_init n) es = l1 ++ x :: y :: rev r /\ sd = z).
        { apply app_inj_tail. rewrite H, <- app_assoc. reflexivity. }
        apply Hq.
    + rewrite app_nil_r in H. eauto.
  - rewrite app_nil_r in H. eauto.
Qed.

(** ** Latency buckets *)

Lemma latency_bucket_le d : latency_bucket d <= 8.
Proof.
  unfold latency_bucket, default_latencies. cbn [latency_from].
  repeat match goal with |- context [if ?c then _ else _] => destruct c end; lia.
Qed.

Lemma latency_bucket_iff d j : (0 <= d <= 2 ^ 63 - 1)%Z -> j <= 8 ->
  latency_bucket d = j <->
  (fst (latency_bounds j) <= d)%Z /\ ((d < snd (latency_bounds j))%Z \/ j = 8).
Proof.
  intros Hd Hj. unfold latency_bucket, default_latencies. cbn [latency_from].
  do 9 (destruct j as [|j]; [
    unfold latency_bounds, default_latencies; cbn [length Nat.eqb nth fst snd Nat.sub];
    repeat match goal with |- context [(?a <=? d)%Z] => destruct (a <=? d)%Z eqn:? end; lia | ]).
  lia.
Qed.

(** ** Stores *)

Lemma lat_class_eq sd :
  latency_bucket (if (time_sub (sd_end sd) (sd_start sd) <? 0)%Z then 0%Z else time_sub (sd_end sd) (sd_start sd)) = lat_class sd.
Proof.
  unfold latency_bucket, lat_class, latency, default_latencies. set (d := time_sub _ _).
  cbn [latency_from filter].
  destruct (d <? 0)%Z eqn:E0.
  - repeat match goal with |- context [(?a <=? d)%Z] => replace (a <=? d)%Z with false by lia end. reflexivity.
  - repeat match goal with |- context [(?a <=? d)%Z] => destruct (a <=? d)%Z eqn:?; try lia end; reflexivity.
Qed.

Lemma lat_class_le sd : lat_class sd <= 8.
Proof. rewrite <- lat_class_eq. apply latency_bucket_le. Qed.

Definition fresh (a : abucket) : Prop := ab_items a = [] /\ ab_next a = zero_time.

Record srep (s : store) (es : list sev) : Prop := {
  sr_len : length (st_latency s) = 9;
  sr_lat : forall j b, nth_error (st_latency s) j = Some b -> brep b (ab_run 10 (lat_events j es));
  sr_err : forall c b, mget Z.eqb (st_errors s) c = Some b -> c <> 0%Z /\ brep b (ab_run 10 (err_events c es));
  sr_none : forall c, c <> 0%Z -> mget Z.eqb (st_errors s) c = None -> fresh (ab_run 10 (err_events c es));
  sr_max : forall c, ab_cap (ab_run 10 (err_events c es)) = st_maxerr s;
  sr_wf : mwf (st_errors s) }.

Lemma lat_events_snoc j es e : lat_events j (es ++ [e]) = lat_events j es ++ lat_events j [e].
Proof. unfold lat_events. rewrite flat_map_app. reflexivity. Qed.
Lemma err_events_snoc c es e : err_events c (es ++ [e]) = err_events c es ++ err_events c [e].
Proof. unfold err_events. rewrite flat_map_app. reflexivity. Qed.

Lemma nth_error_repeat_inv {A} (x : A) n j y : nth_error (repeat x n) j = Some y -> y = x.
Proof. intros H. apply nth_error_In in H. apply repeat_spec in H. auto. Qed.

Lemma srep_new : srep (new_store default_bucket_size default_bucket_size) [].
Proof.
  constructor; simpl; auto.
  - intros j b H. change (nth_error (repeat (make_bucket default_bucket_size) 9) j = Some b) in H.
    apply nth_error_repeat_inv in H. subst b. apply brep_make.
  - discriminate.
  - intros. split; reflexivity.
  - apply mwf_nil.
Qed.

Lemma brep_fresh_resize n m : brep (make_bucket n) (ab_step (ab_init m) (BResize n)).
Proof. exact (brep_make n). Qed.

Lemma srep_new_size l m : srep (new_store l m) [SSize l m].
Proof.
  constructor; cbn [st_latency st_errors st_maxerr new_store]; auto.
  - intros j b H. apply nth_error_repeat_inv in H. subst b. cbn. apply (brep_fresh_resize l 10).
  - discriminate.
  - intros. split; reflexivity.
  - apply mwf_nil.
Qed.

Lemma Zeqb_spec' : forall x y, reflect (x = y) (Z.eqb x y).
Proof. exact Z.eqb_spec. Qed.

Lemma set_at_some {A} (l : list A) i x : i < length l ->
  exists l', set_at l i x = Some l' /\ length l' = length l /\
    forall j, nth_error l' j = if j =? i then Some x else nth_error l j.
Proof.
  intros H. destruct (nth_error l i) as [y|] eqn:E; [| apply nth_error_None in E; lia].
  destruct (nth_error_split l i E) as (l1 & l2 & -> & <-). exists (l1 ++ x :: l2).
  split; [apply set_at_app |]. split; [rewrite !app_length; reflexivity |].
  intros j. destruct (j =? length l1) eqn:Ej.
  - apply Nat.eqb_eq in Ej. subst j. rewrite nth_error_app2, Nat.sub_diag by lia. reflexivity.
  - apply Nat.eqb_neq in Ej. destruct (Nat.lt_ge_cases j (length l1)) as [Hj | Hj].
    + rewrite !nth_error_app1 by lia. reflexivity.
    + rewrite !nth_error_app2 by lia. destruct (j - length l1) as [|k] eqn:Ek; [lia | reflexivity].
Qed.

Lemma srep_finished s es i sd : srep s es ->
  exists s', st_finished s i sd = Some s' /\ srep s' (es ++ [SFin sd]) /\ st_active s' = mdel Nat.eqb (st_active s) i.
Proof.
  intros Hs. unfold st_finished. rewrite lat_class_eq. change (fst (sd_status sd)) with (code_of sd).
  pose proof (lat_class_le sd) as Hle.
  destruct (code_of sd =? 0)%Z eqn:Ec.
  - destruct (nth_error (st_latency s) (lat_class sd)) as [b|] eqn:Eb.
    2:{ apply nth_error_None in Eb. rewrite (sr_len s es Hs) in Eb. lia. }
    destruct (brep_add b _ sd (sr_lat s es Hs _ _ Eb)) as (b' & Hb' & Hr'). rewrite Hb'.
    destruct (set_at_some (st_latency s) (lat_class sd) b') as (l' & Hl' & Hlen & Hnth).
    { rewrite (sr_len s es Hs). lia. }
    rewrite Hl'. eexists; split; [reflexivity |]. split; [| reflexivity].
    constructor; cbn [st_latency st_errors st_maxerr].
    + rewrite Hlen. apply Hs.
    + intros j b0. rewrite Hnth, lat_events_snoc. cbn [lat_events flat_map]. rewrite Ec, app_nil_r. cbn [andb].
      destruct (j =? lat_class sd) eqn:Ej; intros H0.
      * apply Nat.eqb_eq in Ej. subst j. injection H0 as <-. rewrite Nat.eqb_refl, ab_run_snoc. exact Hr'.
      * rewrite Nat.eqb_sym, Ej, app_nil_r. apply Hs. auto.
    + intros c b0 H0. destruct (sr_err s es Hs c b0 H0) as [H1 H2]. split; [exact H1 |].
      rewrite err_events_snoc. cbn [err_events flat_map]. replace (code_of sd =? c)%Z with false by lia. rewrite !app_nil_r. exact H2.
    + intros c Hc H0. rewrite err_events_snoc. cbn [err_events flat_map]. replace (code_of sd =? c)%Z with false by lia.
      rewrite !app_nil_r. apply Hs; auto.
    + intros c. rewrite err_events_snoc. cbn [err_events flat_map]. rewrite app_nil_r.
      destruct (code_of sd =? c)%Z; [| rewrite app_nil_r; apply Hs]. rewrite ab_run_snoc. simpl.
      destruct (accepts _ _); simpl; apply (sr_max s es Hs).
    + apply Hs.
  - set (b := match mget Z.eqb (st_errors s) (code_of sd) with Some b => b | None => make_bucket (st_maxerr s) end).
    assert (Hb : brep b (ab_run 10 (err_events (code_of sd) es))).
    { unfold b. destruct (mget Z.eqb (st_errors s) (code_of sd)) as [b0|] eqn:E0.
      - apply (sr_err s es Hs _ _ E0).
      - destruct (sr_none s es Hs (code_of sd) ltac:(lia) E0) as [Hi Hn].
        replace (ab_run 10 (err_events (code_of sd) es)) with (ab_init (st_maxerr s)).
        + apply brep_make.
        + destruct (ab_run 10 (err_events (code_of sd) es)) as [cap it nx] eqn:Ea.
          pose proof (sr_max s es Hs (code_of sd)) as Hm. rewrite Ea in Hm. simpl in *. subst. reflexivity. }
    destruct (brep_add b _ sd Hb) as (b' & Hb' & Hr'). rewrite Hb'.
    eexists; split; [reflexivity |]. split; [| reflexivity].
    constructor; cbn [st_latency st_errors st_maxerr].
    + apply Hs.
    + intros j b0 H0. rewrite lat_events_snoc. cbn [lat_events flat_map]. rewrite Ec. cbn [andb]. rewrite !app_nil_r. apply Hs. auto.
    + intros c b0. rewrite (mget_mset Z.eqb Zeqb_spec'). rewrite err_events_snoc. cbn [err_events flat_map]. rewrite app_nil_r.
      destruct (code_of sd =? c)%Z eqn:E0; intros H0.
      * assert (c = code_of sd) by lia. subst c. injection H0 as <-. rewrite ab_run_snoc. split; [lia | exact Hr'].
      * rewrite app_nil_r. apply (sr_err s es Hs c b0 H0).
    + intros c Hc. rewrite (mget_mset Z.eqb Zeqb_spec'). rewrite err_events_snoc. cbn [err_events flat_map]. rewrite app_nil_r.
      destruct (code_of sd =? c)%Z eqn:E0; intros H0; [discriminate |].
      rewrite app_nil_r. apply (sr_none s es Hs c Hc H0).
    + intros c. rewrite err_events_snoc. cbn [err_events flat_map]. rewrite app_nil_r.
      destruct (code_of sd =? c)%Z; [| rewrite app_nil_r; apply Hs]. rewrite ab_run_snoc. simpl.
      destruct (accepts _ _); simpl; apply (sr_max s es Hs).
    + apply (mwf_mset Z.eqb Zeqb_spec'). apply Hs.
Qed.

Lemma all_some_spec {A B} (f : A -> option B) l :
  (forall x, In x l -> exists y, f x = Some y) ->
  exists l', all_some (map f l) = Some l' /\ length l' = length l /\
    forall j y, nth_error l' j = Some y -> exists x, nth_error l j = Some x /\ f x = Some y.
Proof.
  induction l as [|x r IH]; intros H; simpl.
  - exists []. repeat split; auto. intros [|j] y Hy; discriminate.
  - destruct (H x (or_introl eq_refl)) as (y & Hy). rewrite Hy.
    destruct IH as (l' & Hl' & Hlen & Hn). { intros z Hz. apply H. right. exact Hz. }
    rewrite Hl'. exists (y :: l'). split; [reflexivity |]. split; [simpl; auto |].
    intros [|j] y0 H0; simpl in *.
    + injection H0 as <-. eauto.
    + apply Hn. exact H0.
Qed.

Lemma resize_errs m l :
  (forall c b, In (c, b) l -> exists b', b_resize b m = Some b') ->
  exists l', all_some (map (fun kb => match b_resize (snd kb) m with Some b => Some (fst kb, b) | None => None end) l) = Some l' /\
    mkeys l' = mkeys l /\
    (forall c : Z, mget Z.eqb l' c = match mget Z.eqb l c with Some b => b_resize b m | None => None end).
Proof.
  induction l as [|[c b] r IH]; intros H; simpl.
  - exists []. auto.
  - destruct (H c b (or_introl eq_refl)) as (b' & Hb'). rewrite Hb'.
    destruct IH as (l' & Hl' & Hk & Hg). { intros c0 b0 H0. apply (H c0). right. exact H0. }
    rewrite Hl'. exists ((c, b') :: l'). split; [reflexivity |]. split; [simpl; f_equal; auto |].
    intros c0. simpl. destruct (Z.eqb c c0); [rewrite Hb'; reflexivity | apply Hg].
Qed.

Lemma srep_resize s es l m : srep s es ->
  exists s', st_resize s l m = Some s' /\ srep s' (es ++ [SSize l m]) /\ st_active s' = st_active s.
Proof.
  intros Hs. unfold st_resize.
  destruct (all_some_spec (fun b => b_resize b l) (st_latency s)) as (ls & Hls & Hlen & Hn).
  { intros b Hb. apply In_nth_error in Hb. destruct Hb as (j & Hj).
    destruct (brep_resize b _ l (sr_lat s es Hs j b Hj)) as (b' & Hb' & _). eauto. }
  destruct (resize_errs m (st_errors s)) as (le & Hle & Hk & Hg).
  { intros c b Hb. apply (In_mget Z.eqb Zeqb_spec') in Hb; [| apply Hs].
    destruct (brep_resize b _ m (proj2 (sr_err s es Hs c b Hb))) as (b' & Hb' & _). eauto. }
  rewrite Hls, Hle. eexists; split; [reflexivity |]. split; [| reflexivity].
  constructor; cbn [st_latency st_errors st_maxerr].
  - rewrite Hlen. apply Hs.
  - intros j b Hb. destruct (Hn j b Hb) as (b0 & Hb0 & Hr). rewrite lat_events_snoc. cbn [lat_events flat_map app].
    rewrite ab_run_snoc. destruct (brep_resize b0 _ l (sr_lat s es Hs j b0 Hb0)) as (b' & Hb' & H'). congruence.
  - intros c b Hb. rewrite Hg in Hb. destruct (mget Z.eqb (st_errors s) c) as [b0|] eqn:E0; [| discriminate].
    destruct (sr_err s es Hs c b0 E0) as [Hc0 Hr0]. split; [exact Hc0 |].
    rewrite err_events_snoc. cbn [err_events flat_map app]. rewrite ab_run_snoc.
    destruct (brep_resize b0 _ m Hr0) as (b' & Hb' & H'). congruence.
  - intros c Hc Hb. rewrite Hg in Hb. rewrite err_events_snoc. cbn [err_events flat_map app]. rewrite ab_run_snoc.
    destruct (mget Z.eqb (st_errors s) c) as [b0|] eqn:E0.
    + destruct (brep_resize b0 _ m (proj2 (sr_err s es Hs c b0 E0))) as (b' & Hb' & H'). congruence.
    + destruct (sr_none s es Hs c Hc E0) as [H1 H2]. split; simpl; [rewrite H1; reflexivity | exact H2].
  - intros c. rewrite err_events_snoc. cbn [err_events flat_map app]. rewrite ab_run_snoc. reflexivity.
  - unfold mwf. rewrite Hk. apply Hs.
Qed.

(** ** Reports *)

Lemma lat_match_wanted lo hi sd : lat_match lo hi sd = lat_wanted lo hi sd.
Proof.
  unfold lat_match, lat_wanted, latency. set (d := time_sub _ _).
  destruct (lo =? 0)%Z eqn:E1, (hi =? 0)%Z eqn:E2; simpl; auto;
  destruct (d <? lo)%Z eqn:E3; try (replace (lo <=? d)%Z with false by lia; reflexivity);
  replace (lo <=? d)%Z with true by lia; simpl; auto; destruct (hi <? d)%Z eqn:E4, (d <=? hi)%Z eqn:E5; simpl; lia.
Qed.

Lemma run_items_in n es x : In x (ab_items (ab_run n es)) -> In (BOffer x) es.
Proof.
  intros H. destruct (ab_items_suffix n es) as (l0 & Hl0).
  assert (Ha : In x (accepted (ab_init n) es)) by (rewrite Hl0; apply in_or_app; auto).
  clear H Hl0. revert Ha. generalize (ab_init n). induction es as [|e es IH]; intros a; simpl; auto.
  rewrite in_app_iff. intros [H | H].
  - destruct e as [sd | m]; [| destruct H]. destruct (accepts a sd); [| destruct H].
    destruct H as [<- | []]. left. reflexivity.
  - right. eapply IH. exact H.
Qed.

Lemma stored_lat_in j es x : In x (stored_lat j es) -> In (SFin x) es /\ code_of x = 0%Z /\ lat_class x = j.
Proof.
  intros H. apply run_items_in in H. unfold lat_events in H. apply in_flat_map in H. destruct H as ([sd | l m] & He & H).
  - destruct ((code_of sd =? 0)%Z && (lat_class sd =? j)) eqn:E; [| destruct H].
    destruct H as [H | []]. injection H as ->. split; [exact He |]. lia.
  - destruct H as [H | []]. discriminate.
Qed.

Lemma stored_err_in c es x : In x (stored_err c es) -> In (SFin x) es /\ code_of x = c.
Proof.
  intros H. apply run_items_in in H. unfold err_events in H. apply in_flat_map in H. destruct H as ([sd | l m] & He & H).
  - destruct (code_of sd =? c)%Z eqn:E; [| destruct H].
    destruct H as [H | []]. injection H as ->. split; [exact He |]. lia.
  - destruct H as [H | []]. discriminate.
Qed.

Lemma class_bounds x j : lat_class x = j -> j <= 8 ->
  (j = 8 \/ (latency x < snd (latency_bounds j))%Z) /\ (j = 0 \/ (fst (latency_bounds j) <= latency x)%Z).
Proof.
  unfold lat_class. set (d := latency x). cbn [filter]. intros H Hj.
  do 9 (destruct j as [|j]; [
    unfold latency_bounds, default_latencies; cbn [length Nat.eqb nth fst snd Nat.sub];
    revert H;
    repeat match goal with |- context [(?a <=? d)%Z] => destruct (a <=? d)%Z eqn:?; try lia end; cbn [length]; lia | ]).
  lia.
Qed.

Lemma filter_none {A} (p : A -> bool) l : (forall x, In x l -> p x = false) -> filter p l = [].
Proof.
  induction l as [|x r IH]; intros H; simpl; [reflexivity |].
  rewrite (H x (or_introl eq_refl)). apply IH. intros y Hy. apply H. right. exact Hy.
Qed.

Lemma filter_perm {A} (p : A -> bool) l l' : Permutation l l' -> Permutation (filter p l) (filter p l').
Proof.
  induction 1; simpl; auto.
  - destruct (p x); auto.
  - destruct (p x), (p y); auto using perm_swap.
  - eapply Permutation_trans; eauto.
Qed.

Lemma by_latency_perm s es lo hi bs i : srep s es -> (0 <= hi)%Z -> i + length bs = 9 ->
  (forall j b, nth_error bs j = Some b -> nth_error (st_latency s) (i + j) = Some b) ->
  Permutation (by_latency i 9 bs lo hi) (filter (lat_wanted lo hi) (flat_map (fun j => stored_lat j es) (seq i (length bs)))).
Proof.
  intros Hs Hhi. revert i. induction bs as [|b bs IH]; intros i Hi Hn; [constructor |].
  cbn [length] in Hi. cbn [by_latency length seq flat_map]. rewrite filter_app.
  destruct (latency_bounds i) as [mn mx] eqn:Eb.
  apply Permutation_app.
  2:{ apply IH; [lia |]. intros j b0 Hj. replace (S i + j) with (i + S j) by lia. apply Hn. exact Hj. }
  pose proof (Hn 0 b eq_refl) as Hb. rewrite Nat.add_0_r in Hb.
  pose proof (brep_until_nil _ _ (sr_lat s es Hs i b Hb)) as Hp. fold (stored_lat i es) in Hp.
  destruct ((negb (S i =? 9) && (mx <=? lo)%Z) || (negb (hi =? 0)%Z && (hi <? mn)%Z)) eqn:E.
  - rewrite filter_none; [constructor |]. intros x Hx. apply stored_lat_in in Hx. destruct Hx as (_ & _ & Hcl).
    destruct (class_bounds x i Hcl ltac:(lia)) as [H1 H2]. rewrite Eb in H1, H2. cbn [fst snd] in H1, H2.
    assert (Hmn : i = 0 -> mn = 0%Z) by (intros ->; cbn in Eb; congruence).
    assert (Hmx : i <> 8 -> (0 < mx)%Z).
    { intros Hi8. assert (Hj : i < 8) by lia. clear - Eb Hj.
      do 8 (destruct i as [|i]; [cbv in Eb; injection Eb as <- <-; lia |]). lia. }
    unfold lat_wanted. lia.
  - rewrite (filter_ext _ _ (lat_match_wanted lo hi)). apply filter_perm. exact Hp.
Qed.

Lemma srep_by_latency s es lo hi : srep s es -> (0 <= hi)%Z ->
  Permutation (st_by_latency s lo hi) (filter (lat_wanted lo hi) (stored_ok es)).
Proof.
  intros Hs Hhi. unfold st_by_latency, stored_ok. rewrite (sr_len s es Hs).
  pose proof (by_latency_perm s es lo hi (st_latency s) 0 Hs Hhi) as H. rewrite (sr_len s es Hs) in H.
  apply H; auto.
Qed.

Lemma srep_by_error s es o code : srep s es -> code <> 0%Z ->
  Permutation (st_by_error o s code) (stored_err code es).
Proof.
  intros Hs Hc. unfold st_by_error. replace (code =? 0)%Z with false by lia. simpl.
  destruct (mget Z.eqb (st_errors s) code) as [b|] eqn:E.
  - apply (brep_until_nil _ _ (proj2 (sr_err s es Hs code b E))).
  - destruct (sr_none s es Hs code Hc E) as [H _]. unfold stored_err. rewrite H. constructor.
Qed.

Lemma flat_map_perm {A B} (f : A -> list B) l l' : Permutation l l' -> Permutation (flat_map f l) (flat_map f l').
Proof.
  induction 1; simpl; auto.
  - apply Permutation_app_head. auto.
  - rewrite !app_assoc. apply Permutation_app_tail. apply Permutation_app_comm.
  - eapply Permutation_trans; eauto.
Qed.

Lemma srep_all_errors s es o : srep s es ->
  exists codes, NoDup codes /\ (forall c, In c codes -> c <> 0%Z) /\
    (forall c, c <> 0%Z -> stored_err c es <> [] -> In c codes) /\
    Permutation (st_by_error o s 0) (flat_map (fun c => stored_err c es) codes).
Proof.
  intros Hs. exists (mkeys (st_errors s)). split; [apply Hs |]. split; [| split].
  - intros c Hc. destruct (mget Z.eqb (st_errors s) c) as [b|] eqn:E.
    + apply (sr_err s es Hs c b E).
    + apply (mget_None Z.eqb Zeqb_spec') in E. contradiction.
  - intros c Hc Hne. destruct (mget Z.eqb (st_errors s) c) as [b|] eqn:E.
    + apply (mget_Some_key Z.eqb Zeqb_spec') in E. exact E.
    + destruct (sr_none s es Hs c Hc E) as [H _]. unfold stored_err in Hne. contradiction.
  - unfold st_by_error. simpl.
    eapply Permutation_trans; [apply flat_map_perm; apply ord_perm |].
    assert (Hin : forall c b, In (c, b) (st_errors s) -> Permutation (until_nil (b_buf b)) (stored_err c es)).
    { intros c b H. apply (In_mget Z.eqb Zeqb_spec') in H; [| apply Hs].
      apply (brep_until_nil _ _ (proj2 (sr_err s es Hs c b H))). }
    revert Hin. generalize (st_errors s). intros l. induction l as [|[c b] r IH]; intros Hin; simpl; [constructor |].
    apply Permutation_app; [apply Hin; left; reflexivity | apply IH; intros; apply Hin; right; auto].
Qed.
