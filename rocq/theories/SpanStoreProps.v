(** Span store buckets: C37, C38. *)

From Coq Require Import List Arith ZArith Bool Lia ZifyBool ZifyNat.
From Verif Require Import Base GoMap TraceTypes TraceModel SpanStoreModel SpanStoreSpec SpanStoreProofs.
Import ListNotations.
Open Scope nat_scope.

(** ** C37 *)

(** Whatever spans, with whatever end times, are offered to a bucket made with size [n]
    and however it is resized, no operation panics; reading the bucket through its size
    and its spans gives what the specification (SpanStoreSpec) keeps. *)
Theorem C37_bucket n es : exists b,
  b_run (make_bucket n) es = Some b /\
  b_contents b = Some (map Some (ab_items (ab_run n es))) /\
  b_size b = length (ab_items (ab_run n es)).
Proof.
  destruct (brep_run es (make_bucket n) (ab_init n) (brep_make n)) as (b & H1 & H2). exists b.
  split; [exact H1 |]. split; [apply brep_contents; exact H2 | apply brep_size; exact H2].
Qed.

Lemma ab_cap_last n es : ab_cap (ab_run n es) = last (n :: flat_map (fun e => match e with BResize m => [m] | _ => [] end) es) n.
Proof.
  induction es as [|e es IH] using rev_ind; [reflexivity |].
  rewrite ab_run_snoc, flat_map_app. destruct e as [sd | m]; cbn [ab_step flat_map app].
  - rewrite app_nil_r, <- IH. destruct (accepts _ _); reflexivity.
  - rewrite app_comm_cons, last_last. reflexivity.
Qed.

(** At most as many spans as the last size given. *)
Theorem C37_bounded n es b : b_run (make_bucket n) es = Some b ->
  b_size b <= last (n :: flat_map (fun e => match e with BResize m => [m] | _ => [] end) es) n.
Proof.
  intros H. destruct (brep_run es (make_bucket n) (ab_init n) (brep_make n)) as (b' & H1 & H2). rewrite H in H1. injection H1 as <-.
  rewrite <- ab_cap_last, (brep_size _ _ H2). apply (brep_items_le _ _ H2).
Qed.

(** What is kept are the newest of the accepted spans, in the order of acceptance, and
    without a resize exactly the last [n] of them. *)
Theorem C37_newest n es b : b_run (make_bucket n) es = Some b ->
  exists older kept, accepted (ab_init n) es = older ++ kept /\ b_contents b = Some (map Some kept) /\
    ((forall m, ~ In (BResize m) es) -> kept = lastn n (accepted (ab_init n) es)).
Proof.
  intros H. destruct (C37_bucket n es) as (b' & H1 & H2 & _). rewrite H in H1. injection H1 as <-.
  destruct (ab_items_suffix n es) as (l0 & Hl). exists l0, (ab_items (ab_run n es)).
  split; [exact Hl |]. split; [exact H2 | apply ab_items_noresize].
Qed.

(** Resizing keeps the newest spans that fit. *)
Theorem C37_resize n es m b b' l : b_run (make_bucket n) es = Some b -> b_contents b = Some l ->
  b_resize b m = Some b' -> b_contents b' = Some (lastn m l).
Proof.
  intros H Hl Hr. destruct (brep_run es (make_bucket n) (ab_init n) (brep_make n)) as (b0 & H1 & H2). rewrite H in H1. injection H1 as <-.
  rewrite (brep_contents _ _ H2) in Hl. injection Hl as <-.
  destruct (brep_resize _ _ m H2) as (b1 & H3 & H4). rewrite Hr in H3. injection H3 as <-.
  rewrite (brep_contents _ _ H4). cbn [ab_step ab_items]. f_equal. unfold lastn. rewrite map_length. rewrite skipn_map. reflexivity.
Qed.

(** A bucket takes a span exactly when it has room for any and the last accepted one
    ended at least a second before; so accepted spans are a second apart. *)
Theorem C37_rate n es :
  (forall l1 x y l2, accepted (ab_init n) es = l1 ++ x :: y :: l2 -> (sd_end x + 1000000000 <= sd_end y)%Z) /\
  (forall sd x l, accepted (ab_init n) es = l ++ [x] -> ab_cap (ab_run n es) <> 0 -> (sd_end x + 1000000000 <= sd_end sd)%Z ->
     accepted (ab_init n) (es ++ [BOffer sd]) = l ++ [x; sd]) /\
  (forall sd, accepted (ab_init n) es = [] -> ab_cap (ab_run n es) <> 0 -> (zero_time <= sd_end sd)%Z ->
     accepted (ab_init n) (es ++ [BOffer sd]) = [sd]).
Proof.
  split; [apply accepted_apart |].
  pose proof (ab_next_accepted n es) as Hn. unfold next_ok in Hn. split.
  - intros sd x l H Hc Ht. rewrite accepted_app, H. fold (ab_run n es). cbn [accepted app]. rewrite app_nil_r.
    rewrite H, rev_app_distr in Hn. cbn [rev app] in Hn. unfold accepts. rewrite Hn.
    replace (sd_end x + 1000000000 <=? sd_end sd)%Z with true by lia. replace (ab_cap (ab_run n es) =? 0) with false by lia.
    cbn [negb andb]. rewrite <- app_assoc. reflexivity.
  - intros sd H Hc Ht. rewrite accepted_app, H. fold (ab_run n es). cbn [accepted app]. rewrite app_nil_r.
    assert (Hz : ab_next (ab_run n es) = zero_time).
    { clear Hn Hc Ht. induction es as [|e es IH] using rev_ind; [reflexivity |]. rewrite accepted_app in H. fold (ab_run n es) in H.
      apply app_eq_nil in H. destruct H as [H1 H2]. rewrite ab_run_snoc. destruct e as [sd0 | m]; cbn [ab_step ab_next].
      - cbn [accepted app] in H2. destruct (accepts (ab_run n es) sd0); [discriminate | apply IH; exact H1].
      - apply IH. exact H1. }
    unfold accepts. rewrite Hz. replace (zero_time <=? sd_end sd)%Z with true by lia.
    replace (ab_cap (ab_run n es) =? 0) with false by lia. reflexivity.
Qed.

Definition ex_span (e : Z) : sdata :=
  MkSD zero_sc [] 0 [] 0 e [] [] [] (0%Z, []) [] false 0 0 0 0 0.

(** Three spans, the second too early, then shrinking to one. *)
Example C37_example :
  let es := [BOffer (ex_span 0); BOffer (ex_span 999999999); BOffer (ex_span 1000000000); BOffer (ex_span 2000000000); BResize 1] in
  accepted (ab_init 2) es = [ex_span 0; ex_span 1000000000; ex_span 2000000000] /\
  match b_run (make_bucket 2) es with
  | Some b => b_contents b = Some [Some (ex_span 2000000000)]
  | None => False
  end.
Proof. vm_compute. auto. Qed.

(** ** C38 *)

(** [d] is within the bounds of bucket [j]; the last bucket includes its upper bound. *)
Definition in_bounds (j : nat) (d : Z) : Prop :=
  (fst (latency_bounds j) <= d)%Z /\ ((d < snd (latency_bounds j))%Z \/ j = 8).

(** Every duration belongs to exactly one of the nine buckets. *)
Theorem C38_partition d : (0 <= d <= 2 ^ 63 - 1)%Z ->
  latency_bucket d <= 8 /\ in_bounds (latency_bucket d) d /\ (d <= snd (latency_bounds (latency_bucket d)))%Z /\
  forall j, j <= 8 -> in_bounds j d -> j = latency_bucket d.
Proof.
  intros Hd. pose proof (latency_bucket_le d) as Hle. split; [exact Hle |].
  pose proof (proj1 (latency_bucket_iff d (latency_bucket d) Hd Hle) eq_refl) as Hb. split; [exact Hb |]. split.
  - destruct Hb as [_ [Hb | Hb]]; [lia |]. rewrite Hb. cbn. lia.
  - intros j Hj H. symmetry. apply latency_bucket_iff; auto.
Qed.

(** The bounds tile the half line: they start at 0, each bucket begins where the last
    one ends, and the last has no upper limit. *)
Theorem C38_tiling :
  fst (latency_bounds 0) = 0%Z /\
  (forall j, j < 8 -> snd (latency_bounds j) = fst (latency_bounds (S j)) /\ (fst (latency_bounds j) < snd (latency_bounds j))%Z) /\
  snd (latency_bounds 8) = (2 ^ 63 - 1)%Z.
Proof.
  split; [reflexivity |]. split; [| reflexivity].
  intros j Hj. do 8 (destruct j as [|j]; [split; reflexivity |]). lia.
Qed.

Example C38_example :
  latency_bucket 9999 = 0 /\ latency_bucket 10000 = 1 /\ latency_bounds 1 = (10000, 100000)%Z /\
  latency_bucket 59999999999 = 7 /\ latency_bucket 60000000000 = 8.
Proof. vm_compute. auto 6. Qed.

Print Assumptions C37_bucket.
Print Assumptions C37_bounded.
Print Assumptions C37_newest.
Print Assumptions C37_resize.
Print Assumptions C37_rate.
Print Assumptions C38_partition.
Print Assumptions C38_tiling.
