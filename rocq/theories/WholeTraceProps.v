(** C89: an exporter gets whole traces. *)

From Coq Require Import String.
From Coq Require Import List Arith NArith ZArith Bool Lia Permutation.
From Verif Require Import Base ListLib GoMap TraceTypes TraceModel SpanStoreModel TracerModel TracerSpec TracerProofs TracerProps WholeTraceSpec.
Import ListNotations.
Open Scope nat_scope.

Lemma created_nth h i h1 c : created h i h1 c -> nth_error (creates h) i = Some c.
Proof.
  intros (out & h2 & -> & L). rewrite creates_app, nth_error_app2 by lia. rewrite L, Nat.sub_diag. destruct c. reflexivity.
Qed.

Lemma created_in h i h1 c : created h i h1 c -> In c (creates h).
Proof. intros H. eapply nth_error_In, created_nth, H. Qed.

Lemma created_before en h w i h1 c k : trun en h w -> created h i h1 c -> c_par c = PSpan k -> k < i.
Proof.
  intros H (out & h2 & E & L) P. rewrite E in H. destruct (trun_mid _ _ _ _ _ _ H) as (w1 & w2 & H1 & D & _).
  rewrite P in D. cbn [tdo parent_context] in D. destruct (nth_error (w_spans w1) k) eqn:K; [|discriminate].
  rewrite <- L, <- (ti_len _ _ _ (TI_run _ _ _ H1)). apply nth_error_Some. congruence.
Qed.

(** The span ID of a span is the one it drew; so they are different and not zero. *)
Lemma span_sid en h w i s : trun en h w -> span_at w i = Some s -> nth_error (map c_sid (creates h)) i = Some (sc_span_id (s_context s)).
Proof.
  intros H Hs. destruct (span_created _ _ _ _ _ H Hs) as (h1 & c & Hc). destruct (C27_identity _ _ _ _ _ _ H Hc) as (s' & p & A & _ & _ & S & _).
  rewrite Hs in A. injection A as <-. rewrite S. apply map_nth_error. eapply created_nth, Hc.
Qed.

Lemma span_nonzero en h w i s : trun en h w -> good_ids h -> span_at w i = Some s -> sc_span_id (s_context s) <> zero_span_id.
Proof. intros H [_ G] Hs E. apply G. rewrite <- E. eapply nth_error_In, span_sid; eauto. Qed.

Lemma span_inj en h w i j s t : trun en h w -> good_ids h -> span_at w i = Some s -> span_at w j = Some t ->
  sc_span_id (s_context s) = sc_span_id (s_context t) -> i = j.
Proof.
  intros H [G _] Hs Ht E. pose proof (span_sid _ _ _ _ _ H Hs) as A. pose proof (span_sid _ _ _ _ _ H Ht) as B. rewrite E in A.
  eapply (proj1 (NoDup_nth_error (map c_sid (creates h))) G); [|congruence]. apply nth_error_Some. congruence.
Qed.

Lemma sampled_recording en h w i s : trun en h w -> span_at w i = Some s -> is_sampled (s_context s) = true -> s_rec s <> None.
Proof.
  intros H Hs Hm. destruct (span_created _ _ _ _ _ H Hs) as (h1 & c & Hc). destruct (created_body _ _ _ _ _ _ H Hc) as (s' & p & A & _ & _ & D).
  rewrite Hs in A. injection A as <-. unfold body_ok in D. destruct (s_rec s); [discriminate|]. destruct D as (_ & D). intros _.
  decompose [and] D; congruence.
Qed.

(** ** Which spans an exporter gets *)
Lemma exported_iff en h w e i s : trun en h w -> kept_registered h e -> all_ended w -> span_at w i = Some s ->
  ((exists sd, In (e, i, sd) (w_exports w)) <-> is_sampled (s_context s) = true).
Proof.
  intros H K A Hs. split.
  - intros [sd Hi]. destruct (C30_only_registered _ _ _ _ _ _ H Hi) as ((s' & Hs' & Hm) & _). rewrite Hs in Hs'. injection Hs' as <-. exact Hm.
  - intros Hm. destruct (C30_exported_once en h w i H) as (s' & ha & Hs' & F & X).
    { exists s. split; [exact Hs|]. split; [eapply sampled_recording; eauto|]. eapply A; eauto. }
    rewrite Hs in Hs'. injection Hs' as <-. apply X. split; [exact Hm|]. destruct F as (_ & out & hb & E). eapply K, E.
Qed.

Lemma got_in w e sd : In sd (got w e) <-> exists i, In (e, i, sd) (w_exports w).
Proof.
  unfold got. rewrite in_map_iff. split.
  - intros ([[e' i] sd'] & <- & Hi). apply filter_In in Hi. destruct Hi as [Hi He]. cbn in He. apply Nat.eqb_eq in He. subst. now exists i.
  - intros [i Hi]. exists (e, i, sd). split; [reflexivity|]. apply filter_In. split; [exact Hi|]. cbn. apply Nat.eqb_refl.
Qed.

(** A local child is sampled exactly if its parent is. *)
Lemma child_sampled en h w i h1 c k s sk : trun en h w -> good_ids h -> created h i h1 c -> c_par c = PSpan k -> c_remote c = false ->
  opt_sampler (c_opts c) = None -> span_at w i = Some s -> span_at w k = Some sk ->
  is_sampled (s_context s) = is_sampled (s_context sk) /\ sc_trace_id (s_context s) = sc_trace_id (s_context sk).
Proof.
  intros H G Hc P R O Hs Hk. pose proof (span_nonzero _ _ _ _ _ H G Hk) as NZ. split.
  - destruct (C28_inherited _ _ _ _ _ _ _ _ H Hc P R O Hk NZ) as (s' & Hs' & E). congruence.
  - destruct (C27_identity _ _ _ _ _ _ H Hc) as (s' & par & A & B & T & _). rewrite P in B. cbn [parent_of] in B. rewrite Hk in B. injection B as <-.
    rewrite (nonzero_sc _ NZ) in T. congruence.
Qed.

(** ** C89: all the spans below a span, or none. *)

Theorem C89_all_or_nothing en h w e i j sj :
  trun en h w -> good_ids h -> kept_registered h e -> all_ended w -> below h j i -> span_at w j = Some sj ->
  ((exists sd, In (e, i, sd) (w_exports w)) <-> (exists sd, In (e, j, sd) (w_exports w))).
Proof.
  intros H G K A B Hj.
  assert (X : exists si, span_at w i = Some si /\ is_sampled (s_context si) = is_sampled (s_context sj)).
  { induction B as [|i k h1 c B (sk & Hk & IH) Hc P R O]; [eauto|]. destruct (created_exists _ _ _ _ _ _ H Hc) as [s Hs]. exists s. split; [exact Hs|].
    rewrite <- IH. eapply child_sampled; eauto. }
  destruct X as (si & Hi & E). rewrite (exported_iff _ _ _ _ _ _ H K A Hi), (exported_iff _ _ _ _ _ _ H K A Hj), E. tauto.
Qed.
Print Assumptions C89_all_or_nothing.

(** ** C89: the parent of every exported span was exported, once and in the same trace. *)

Lemma exported_once_each en h w e i sd sd' : trun en h w -> In (e, i, sd) (w_exports w) -> In (e, i, sd') (w_exports w) -> sd' = sd.
Proof. intros H A B. destruct (C30_only_registered _ _ _ _ _ _ H A) as (_ & _ & _ & _ & X). eauto. Qed.

Lemma exported_span en h w e i sd : trun en h w -> In (e, i, sd) (w_exports w) ->
  exists s, span_at w i = Some s /\ sd_context sd = s_context s /\ is_sampled (s_context s) = true.
Proof.
  intros H Hi. destruct (C27_exported _ _ _ _ _ _ H Hi) as (s & h1 & c & p & A & _ & _ & B & _). exists s. split; [exact A|]. split; [exact B|].
  destruct (C30_only_registered _ _ _ _ _ _ H Hi) as ((s' & Hs' & Hm) & _). congruence.
Qed.

Lemma exported_parent en h w e i sd : trun en h w -> one_process h -> root_samplers h -> good_ids h -> kept_registered h e -> all_ended w ->
  In (e, i, sd) (w_exports w) ->
  (sd_parent sd = zero_span_id /\ exists h1 c, created h i h1 c /\ c_par c = PNone) \/
  exists k p h1 c, created h i h1 c /\ c_par c = PSpan k /\ k < i /\ In (e, k, p) (w_exports w) /\ id_of p = sd_parent sd /\ trace_of p = trace_of sd.
Proof.
  intros H OP RS G K A Hi. destruct (C27_exported _ _ _ _ _ _ H Hi) as (s & h1 & c & par & Hs & Hc & HP & C & Pa & _).
  destruct (OP c (created_in _ _ _ _ Hc)) as [Rm [P|[k P]]].
  - left. rewrite P in HP. injection HP as <-. split; [exact Pa|]. eauto.
  - right. rewrite P in HP. cbn [parent_of] in HP. destruct (nth_error (w_spans w) k) as [sk|] eqn:Hk; [|discriminate]. injection HP as <-.
    pose proof (span_nonzero _ _ _ _ _ H G Hk) as NZ. rewrite (nonzero_sc _ NZ) in Pa.
    destruct (child_sampled _ _ _ _ _ _ _ _ _ H G Hc P Rm (RS c k (created_in _ _ _ _ Hc) P) Hs Hk) as [Sm Tr].
    destruct (exported_span _ _ _ _ _ _ H Hi) as (s' & Hs' & _ & M). rewrite Hs in Hs'. injection Hs' as <-.
    rewrite Sm in M. apply (exported_iff _ _ _ _ _ _ H K A Hk) in M. destruct M as [p Hp].
    destruct (exported_span _ _ _ _ _ _ H Hp) as (sk' & Hk' & Cp & _). assert (sk' = sk) as -> by congruence.
    exists k, p, h1, c. split; [exact Hc|]. split; [exact P|]. split; [eapply created_before; eauto|]. split; [exact Hp|]. rewrite Cp, C. auto.
Qed.

Theorem C89_ids en h w e : trun en h w -> good_ids h -> NoDup (map (fun sd => id_of sd) (got w e)).
Proof.
  intros H G. assert (X : forall i j sd sd', In (e, i, sd) (w_exports w) -> In (e, j, sd') (w_exports w) -> id_of sd = id_of sd' -> i = j).
  { intros i j sd sd' A B E. destruct (exported_span _ _ _ _ _ _ H A) as (s & Hs & C & _), (exported_span _ _ _ _ _ _ H B) as (t & Ht & D & _).
    rewrite C, D in E. exact (span_inj _ _ _ _ _ _ _ H G Hs Ht E). }
  pose proof (C30_at_most_once _ _ _ H) as N. unfold got. revert N X. generalize (w_exports w) as l. induction l as [|[[e' i] sd] l IH]; intros N X; [constructor|].
  cbn [map fst] in N. inversion N as [|? ? N1 N2]; subst. cbn [filter fst]. 
  assert (IH' : NoDup (map (fun sd => id_of sd) (map snd (filter (fun x => fst (fst x) =? e) l)))) by (apply IH; [exact N2|intros; eapply X; eauto; right; assumption]).
  destruct (Nat.eqb_spec e' e) as [-> |]; [|exact IH']. cbn [map snd]. constructor; [|exact IH'].
  intros Hi. apply in_map_iff in Hi. destruct Hi as (sd' & E & Hi). apply in_map_iff in Hi. destruct Hi as ([[e' j] sd''] & E2 & Hi). cbn in E2. subst sd''.
  apply filter_In in Hi. destruct Hi as [Hi He]. cbn in He. apply Nat.eqb_eq in He. subst e'.
  assert (j = i) as -> by (eapply X; [right; exact Hi|left; reflexivity|exact E]).
  apply N1. apply (in_map fst) in Hi. exact Hi.
Qed.
Print Assumptions C89_ids.

Theorem C89_no_orphans en h w e sd :
  trun en h w -> one_process h -> root_samplers h -> good_ids h -> kept_registered h e -> all_ended w ->
  In sd (got w e) -> sd_parent sd <> zero_span_id ->
  exists p, In p (got w e) /\ id_of p = sd_parent sd /\ trace_of p = trace_of sd /\
    forall q, In q (got w e) -> id_of q = sd_parent sd -> q = p.
Proof.
  intros H OP RS G K A Hi NZ. apply got_in in Hi. destruct Hi as [i Hi].
  destruct (exported_parent _ _ _ _ _ _ H OP RS G K A Hi) as [[Z _]|(k & p & _ & _ & _ & _ & _ & Hp & Ip & Tp)]; [congruence|].
  exists p. split; [apply got_in; eauto|]. split; [exact Ip|]. split; [exact Tp|].
  intros q Hq Eq. apply got_in in Hq. destruct Hq as [j Hq].
  destruct (exported_span _ _ _ _ _ _ H Hp) as (s & Hs & C & _), (exported_span _ _ _ _ _ _ H Hq) as (t & Ht & D & _).
  assert (j = k) as -> by (eapply span_inj; eauto; rewrite <- C, <- D, Ip; exact Eq). eapply exported_once_each; eauto.
Qed.
Print Assumptions C89_no_orphans.

(** ** C89: every exported span hangs below a root of its trace. *)
Theorem C89_rooted en h w e sd :
  trun en h w -> one_process h -> root_samplers h -> good_ids h -> kept_registered h e -> all_ended w ->
  In sd (got w e) -> exists root, rooted (got w e) root sd.
Proof.
  intros H OP RS G K A Hi. apply got_in in Hi. destruct Hi as [i Hi]. revert sd Hi. induction i as [i IH] using lt_wf_ind. intros sd Hi.
  destruct (exported_parent _ _ _ _ _ _ H OP RS G K A Hi) as [[Z _]|(k & p & h1 & c & _ & _ & L & Hp & Ip & Tp)].
  - exists sd. constructor; [apply got_in; eauto|exact Z].
  - destruct (IH k L p Hp) as [root R]. exists root. econstructor; [exact R|apply got_in; eauto|congruence|congruence].
Qed.
Print Assumptions C89_rooted.

(** One root in each trace, if the trace IDs drawn differ. *)
Theorem C89_one_root en h w e r r' :
  trun en h w -> one_process h -> root_samplers h -> good_ids h -> good_traces h -> kept_registered h e -> all_ended w ->
  In r (got w e) -> In r' (got w e) -> sd_parent r = zero_span_id -> sd_parent r' = zero_span_id -> trace_of r = trace_of r' -> r = r'.
Proof.
  intros H OP RS G GT K A Hr Hr' Z Z' T. apply got_in in Hr. destruct Hr as [i Hi]. apply got_in in Hr'. destruct Hr' as [j Hj].
  assert (X : forall i sd, In (e, i, sd) (w_exports w) -> sd_parent sd = zero_span_id -> nth_error (map c_tid (creates h)) i = Some (trace_of sd)).
  { clear i j Hi Hj. intros i sd Hi Zi. destruct (exported_parent _ _ _ _ _ _ H OP RS G K A Hi) as [(_ & h1 & c & Hc & P)|(k & p & h1 & c & _ & _ & _ & Hp & Ip & _)].
    - destruct (C27_identity _ _ _ _ _ _ H Hc) as (s & par & Hs & B & Tr & _). rewrite P in B. injection B as <-. cbn in Tr.
      destruct (exported_span _ _ _ _ _ _ H Hi) as (s' & Hs' & C & _). rewrite Hs in Hs'. injection Hs' as <-. rewrite C, Tr. apply map_nth_error. eapply created_nth, Hc.
    - exfalso. destruct (exported_span _ _ _ _ _ _ H Hp) as (s & Hs & C & _). apply (span_nonzero _ _ _ _ _ H G Hs). rewrite <- C. congruence. }
  pose proof (X i r Hi Z) as A1. pose proof (X j r' Hj Z') as A2. rewrite <- T in A2.
  assert (i = j) as -> by (eapply (proj1 (NoDup_nth_error _) GT); [apply nth_error_Some; congruence|congruence]).
  symmetry. eapply exported_once_each; eauto.
Qed.
Print Assumptions C89_one_root.

(** ** C89: the child count of an exported span. *)

Definition par_is (i : nat) (c : creation) : bool :=
  match c_par c with PSpan j => (j =? i) && negb (c_remote c) | _ => false end.

Lemma kids_filter h i : kids_made h i = length (filter (par_is i) (creates h)).
Proof.
  unfold kids_made. induction h as [|[op out] h IH]; [reflexivity|]. change ((op, out) :: h) with ([(op, out)] ++ h). rewrite did_app, creates_app, filter_app, !app_length, IH.
  f_equal. rewrite did_one. destruct op; try reflexivity. cbn [is_local_create creates flat_map fst app filter].
  unfold par_is. cbn [c_par c_remote]. destruct par as [|j|]; try reflexivity. destruct remote; [rewrite andb_false_r; reflexivity|]. cbn [negb]. rewrite andb_true_r. destruct (j =? i); reflexivity.
Qed.

Lemma filter_indices {A} (p : A -> bool) (l : list A) :
  length (filter (fun j => match nth_error l j with Some c => p c | None => false end) (seq 0 (length l))) = length (filter p l).
Proof.
  induction l as [|x l IH] using rev_ind; [reflexivity|]. rewrite app_length. cbn [length]. rewrite seq_app, !filter_app, !app_length. f_equal.
  - rewrite <- IH. f_equal. apply filter_ext_in. intros j Hj. apply in_seq in Hj. rewrite nth_error_app1 by lia. reflexivity.
  - cbn [plus seq filter]. rewrite nth_error_app2 by lia. rewrite Nat.sub_diag. cbn [nth_error]. destruct (p x); reflexivity.
Qed.

Lemma indices_nodup (l : list (nat * nat * sdata)) e P : NoDup (map fst l) ->
  NoDup (map (fun x => snd (fst x)) (filter (fun x => (fst (fst x) =? e) && P x) l)).
Proof.
  induction l as [|[[e' i] sd] l IH]; intros N; [constructor|]. cbn [map fst] in N. inversion N as [|? ? N1 N2]; subst. cbn [filter fst].
  destruct (Nat.eqb_spec e' e) as [-> |]; cbn [andb]; [|auto]. destruct (P (e, i, sd)); [|auto]. cbn [map fst snd]. constructor; [|auto].
  intros Hi. apply in_map_iff in Hi. destruct Hi as ([[e' j] sd'] & E & Hi). cbn in E. subst j. apply filter_In in Hi. destruct Hi as [Hi He].
  cbn in He. apply andb_prop in He. destruct He as [He _]. apply Nat.eqb_eq in He. subst e'. apply N1. apply (in_map fst) in Hi. exact Hi.
Qed.

Lemma children_got w e sd : children_in (got w e) sd =
  map snd (filter (fun x => (fst (fst x) =? e) && bytes_eqb (sd_parent (snd x)) (id_of sd)) (w_exports w)).
Proof.
  unfold children_in, got. induction (w_exports w) as [|[[e' i] s] l IH]; [reflexivity|]. cbn [filter fst snd]. destruct (e' =? e); cbn [andb map filter snd]; [|exact IH].
  destruct (bytes_eqb (sd_parent s) (id_of sd)); cbn [map snd]; [f_equal|]; exact IH.
Qed.

Lemma children_made en h w e i sd :
  trun en h w -> one_process h -> root_samplers h -> good_ids h -> kept_registered h e -> all_ended w ->
  In (e, i, sd) (w_exports w) -> length (children_in (got w e) sd) = kids_made h i.
Proof.
  intros H OP RS G K A Hi. rewrite kids_filter, <- filter_indices, children_got, map_length.
  destruct (exported_span _ _ _ _ _ _ H Hi) as (s & Hs & C & Sm). pose proof (span_nonzero _ _ _ _ _ H G Hs) as NZ.
  rewrite <- (map_length (fun x => snd (fst x))). apply Permutation_length. apply NoDup_Permutation.
  - apply (indices_nodup _ e (fun x => bytes_eqb (sd_parent (snd x)) (id_of sd))). exact (C30_at_most_once _ _ _ H).
  - apply NoDup_filter, seq_NoDup.
  - intros j. rewrite in_map_iff, filter_In, in_seq. split.
    + intros ([[e' j'] sd'] & E & Hj). cbn in E. subst j'. apply filter_In in Hj. destruct Hj as [Hj He]. cbn [fst snd] in He. apply andb_prop in He. destruct He as [He Hp].
      apply Nat.eqb_eq in He. subst e'. destruct (bytes_eqb_spec (sd_parent sd') (id_of sd)) as [Ep|]; [|discriminate].
      destruct (exported_parent _ _ _ _ _ _ H OP RS G K A Hj) as [[Z _]|(k & p & h1 & c & Hc & P & L & Hp' & Ip & Tp)]; [rewrite C in Ep; congruence|].
      destruct (exported_span _ _ _ _ _ _ H Hp') as (t & Ht & D & _).
      assert (k = i) as -> by (eapply span_inj; eauto; rewrite <- C, <- D, Ip; exact Ep).
      pose proof (created_nth _ _ _ _ Hc) as N. rewrite N. split; [split; [lia|]; cbn; apply nth_error_Some; congruence|].
      unfold par_is. rewrite P, Nat.eqb_refl. destruct (OP c (created_in _ _ _ _ Hc)) as [-> _]. reflexivity.
    + intros [_ Hj]. destruct (nth_error (creates h) j) as [c|] eqn:N; [|discriminate].
      unfold par_is in Hj. destruct (c_par c) as [|k|] eqn:P; try discriminate. apply andb_prop in Hj. destruct Hj as [Ek Er]. apply Nat.eqb_eq in Ek. subst k. apply negb_true_iff in Er.
      assert (Hl : j < length (w_spans w)) by (rewrite (ti_len _ _ _ (TI_run _ _ _ H)); apply nth_error_Some; congruence).
      destruct (span_at w j) as [t|] eqn:Ht; [|apply nth_error_None in Ht; lia].
      destruct (span_created _ _ _ _ _ H Ht) as (h1 & c' & Hc). pose proof (created_nth _ _ _ _ Hc) as N'. rewrite N in N'. injection N' as <-.
      destruct (child_sampled _ _ _ _ _ _ _ _ _ H G Hc P Er (RS c i (created_in _ _ _ _ Hc) P) Ht Hs) as [Sm' _]. rewrite Sm in Sm'.
      apply (exported_iff _ _ _ _ _ _ H K A Ht) in Sm'. destruct Sm' as [sd' Hj]. exists (e, j, sd'). split; [reflexivity|]. apply filter_In. split; [exact Hj|].
      cbn [fst snd]. rewrite Nat.eqb_refl. cbn [andb]. destruct (C27_exported _ _ _ _ _ _ H Hj) as (t' & h1' & c' & par & Ht' & Hc' & HP & _ & Pa & _).
      destruct (created_fun _ _ _ _ _ _ Hc Hc') as [_ ->]. rewrite P in HP. cbn [parent_of] in HP. rewrite Hs in HP. injection HP as <-.
      rewrite (nonzero_sc _ NZ) in Pa. rewrite Pa, C. destruct (bytes_eqb_spec (sc_span_id (s_context s)) (sc_span_id (s_context s))); [reflexivity|congruence].
Qed.

(** When no StartSpan is under way: the exported children of an exported span are its
    ChildSpanCount and those started after its data was completed. *)
Theorem C89_children en h w e i sd :
  trun en h w -> one_process h -> root_samplers h -> good_ids h -> kept_registered h e -> all_ended w -> w_pending w = [] ->
  In (e, i, sd) (w_exports w) ->
  exists hs, completed h i hs (sd_end sd) /\
    length (children_in (got w e) sd) = sd_children sd + length (did (is_child i) (since hs h)).
Proof.
  intros H OP RS G K A Pe Hi. destruct (C33_children _ _ _ _ _ _ H Hi) as (hs & ws & Co & _ & Ec & _). exists hs. split; [exact Co|].
  rewrite (children_made _ _ _ _ _ _ H OP RS G K A Hi), Ec. pose proof (ti_pending _ _ _ (TI_run _ _ _ H) i) as X. rewrite Pe in X. cbn [count_occ plus] in X. rewrite X.
  destruct Co as (o & out & hb & ->). unfold kids_begun, since. rewrite skipn_app, skipn_all, Nat.sub_diag. cbn [app skipn]. rewrite did_app, app_length. reflexivity.
Qed.
Print Assumptions C89_children.

Corollary C89_children_all en h w e i sd :
  trun en h w -> one_process h -> root_samplers h -> good_ids h -> kept_registered h e -> all_ended w -> w_pending w = [] ->
  In (e, i, sd) (w_exports w) -> (forall hs, completed h i hs (sd_end sd) -> no_late_child hs h i) ->
  length (children_in (got w e) sd) = sd_children sd.
Proof.
  intros H OP RS G K A Pe Hi NL. destruct (C89_children _ _ _ _ _ _ H OP RS G K A Pe Hi) as (hs & Co & E). rewrite E. rewrite (NL hs Co). cbn. lia.
Qed.
Print Assumptions C89_children_all.

(** ** Examples *)

Definition ex_fin (i : nat) (t : time) : list top := [TEnd (RSpan i); TSnap i id_order t; TFinished i; TExport i 7; TEndDone i].

(** A root with children 1 and 2, 3 below 1, and 4 started after the root has ended. *)
Definition ex_tree : list top :=
  [TRegister 7; TCreate PNone false (bs "root") [WithSampler (Some always_sample)] (ex_id 16 x01) (ex_id 8 x02) 100;
   TAddChild 0; TCreate (PSpan 0) false (bs "a") [] (ex_id 16 x03) (ex_id 8 x04) 200;
   TAddChild 0; TCreate (PSpan 0) false (bs "b") [] (ex_id 16 x05) (ex_id 8 x06) 300;
   TAddChild 1; TCreate (PSpan 1) false (bs "c") [] (ex_id 16 x07) (ex_id 8 x08) 400]
  ++ ex_fin 3 500 ++ ex_fin 0 600 ++
  [TAddChild 0; TCreate (PSpan 0) false (bs "late") [] (ex_id 16 x09) (ex_id 8 x0a) 700]
  ++ ex_fin 1 800 ++ ex_fin 2 900 ++ ex_fin 4 1000.

Lemma texec_ops w0 ops h w : texec w0 ops = Some (h, w) -> map fst h = ops.
Proof.
  revert w0 h w. induction ops as [|op l IH]; intros w0 h w E; cbn [texec] in E.
  - injection E as <- <-. reflexivity.
  - destruct (tdo w0 op) as [w1 out | |]; try discriminate. destruct (texec w1 l) as [[h1 w2]|] eqn:Ee; [|discriminate].
    injection E as <- <-. cbn [map fst]. f_equal. eapply IH. exact Ee.
Qed.

Lemma creates_ops h : creates h = creates (map (fun op => (op, [])) (map fst h)).
Proof. unfold creates. induction h as [|[op out] h IH]; [reflexivity|]. cbn [flat_map map fst]. now rewrite IH. Qed.

Lemma registered_ops h e : registered h e = registered (map (fun op => (op, [])) (map fst h)) e.
Proof.
  unfold registered. f_equal. induction h as [|[op out] h IH]; [reflexivity|]. cbn [flat_map map fst]. now rewrite IH.
Qed.

Fixpoint kept_from (pre ops : list top) (e : nat) : bool :=
  match ops with
  | [] => true
  | op :: r => (match op with TEnd (RSpan _) => registered (map (fun op => (op, [])) pre) e | _ => true end) && kept_from (pre ++ [op]) r e
  end.

Lemma kept_from_ok ops : forall pre e, kept_from pre ops e = true ->
  forall ha i r, ops = ha ++ TEnd (RSpan i) :: r -> registered (map (fun op => (op, [])) (pre ++ ha)) e = true.
Proof.
  induction ops as [|op ops IH]; intros pre e H ha i r E; [destruct ha; discriminate|]. cbn [kept_from] in H. apply andb_prop in H. destruct H as [H1 H2].
  destruct ha as [|x ha]; cbn [app] in E.
  - injection E as -> _. rewrite app_nil_r. exact H1.
  - injection E as <- E. specialize (IH _ _ H2 _ _ _ E). rewrite <- app_assoc in IH. exact IH.
Qed.

Lemma kept_ops h e : kept_from [] (map fst h) e = true -> kept_registered h e.
Proof.
  intros H ha i out hb ->. rewrite registered_ops. rewrite map_app in H. exact (kept_from_ok _ [] e H (map fst ha) i (map fst hb) eq_refl).
Qed.

(** The hypotheses are met, and what the exporter got. *)
Example C89_example : exists h w, trun false h w /\ one_process h /\ root_samplers h /\ good_ids h /\ good_traces h /\ kept_registered h 7 /\ all_ended w /\
  w_pending w = [] /\ below h 0 1 /\
  map (fun sd => (id_of sd, sd_parent sd, sd_children sd, length (children_in (got w 7) sd))) (got w 7) =
  [(ex_id 8 x08, ex_id 8 x04, 0, 0); (ex_id 8 x02, zero_span_id, 2, 3); (ex_id 8 x04, ex_id 8 x02, 1, 1); (ex_id 8 x06, ex_id 8 x02, 0, 0);
   (ex_id 8 x0a, ex_id 8 x02, 0, 0)].
Proof.
  destruct (texec (init_world false) ex_tree) as [[h w]|] eqn:E.
  2:{ exfalso. assert (X : match texec (init_world false) ex_tree with Some _ => true | None => false end = true) by (vm_compute; reflexivity). rewrite E in X. discriminate X. }
  exists h, w. assert (Hr : trun false h w) by apply (trun_exec false _ [] _ h w (trun_nil false) E). pose proof (texec_ops _ _ _ _ E) as Eo.
  assert (Ec : creates h = creates (map (fun op => (op, [])) ex_tree)) by (rewrite creates_ops, Eo; reflexivity).
  split; [exact Hr|]. split; [|split; [|split; [|split; [|split; [|split; [|split; [|split]]]]]]].
  - intros c. rewrite Ec. cbn. intros [<-|[<-|[<-|[<-|[<-|[]]]]]]; cbn; split; eauto.
  - intros c k. rewrite Ec. cbn. intros [<-|[<-|[<-|[<-|[<-|[]]]]]]; cbn; intros; (reflexivity || discriminate).
  - unfold good_ids. rewrite Ec. split; [|vm_compute; intuition discriminate]. vm_compute. repeat constructor; cbn; intuition discriminate.
  - unfold good_traces. rewrite Ec. vm_compute. repeat constructor; cbn; intuition discriminate.
  - apply kept_ops. rewrite Eo. vm_compute. reflexivity.
  - assert (X : forallb (fun s => match s_phase s with Ended => true | _ => false end) (w_spans w) = true).
    { assert (X : match texec (init_world false) ex_tree with Some (_, w) => forallb (fun s => match s_phase s with Ended => true | _ => false end) (w_spans w) | None => false end = true)
        by (vm_compute; reflexivity). rewrite E in X. exact X. }
    intros i s Hs _. rewrite forallb_forall in X. specialize (X s (nth_error_In _ _ Hs)). destruct (s_phase s); (reflexivity || discriminate X).
  - assert (X : match texec (init_world false) ex_tree with Some (_, w) => w_pending w | None => [] end = []) by (vm_compute; reflexivity). rewrite E in X. exact X.
  - assert (Hs : exists s, span_at w 1 = Some s).
    { destruct (span_at w 1) eqn:N; [eauto|]. exfalso. apply nth_error_None in N. rewrite (ti_len _ _ _ (TI_run _ _ _ Hr)), Ec in N. vm_compute in N. lia. }
    destruct Hs as [s Hs]. destruct (span_created _ _ _ _ _ Hr Hs) as (h1 & c & Hc). pose proof (created_nth _ _ _ _ Hc) as N. rewrite Ec in N. cbn in N. injection N as <-.
    eapply below_child; [constructor|exact Hc|reflexivity|reflexivity|reflexivity].
  - assert (X : match texec (init_world false) ex_tree with
                | Some (_, w) => map (fun sd => (id_of sd, sd_parent sd, sd_children sd, length (children_in (got w 7) sd))) (got w 7)
                | None => [] end =
      [(ex_id 8 x08, ex_id 8 x04, 0, 0); (ex_id 8 x02, zero_span_id, 2, 3); (ex_id 8 x04, ex_id 8 x02, 1, 1); (ex_id 8 x06, ex_id 8 x02, 0, 0);
       (ex_id 8 x0a, ex_id 8 x02, 0, 0)]) by (vm_compute; reflexivity).
    rewrite E in X. exact X.
Qed.

(** With samplers below the root, a span can be exported whose parent is not: span 2 here. *)
Definition ex_orphan : list top :=
  [TRegister 7; TCreate PNone false (bs "root") [WithSampler (Some always_sample)] (ex_id 16 x01) (ex_id 8 x02) 100;
   TAddChild 0; TCreate (PSpan 0) false (bs "a") [WithSampler (Some never_sample)] (ex_id 16 x03) (ex_id 8 x04) 200;
   TAddChild 1; TCreate (PSpan 1) false (bs "c") [WithSampler (Some always_sample)] (ex_id 16 x07) (ex_id 8 x08) 400]
  ++ ex_fin 2 500 ++ [TEnd (RSpan 1)] ++ ex_fin 0 600.

Theorem C89_sampler_refuted : exists h w sd, trun false h w /\ one_process h /\ good_ids h /\ kept_registered h 7 /\ all_ended w /\
  In sd (got w 7) /\ sd_parent sd <> zero_span_id /\ ~ exists p, In p (got w 7) /\ id_of p = sd_parent sd.
Proof.
  destruct (texec (init_world false) ex_orphan) as [[h w]|] eqn:E.
  2:{ exfalso. assert (X : match texec (init_world false) ex_orphan with Some _ => true | None => false end = true) by (vm_compute; reflexivity). rewrite E in X. discriminate X. }
  pose proof (trun_exec false _ [] _ h w (trun_nil false) E) as Hr. pose proof (texec_ops _ _ _ _ E) as Eo.
  assert (Ec : creates h = creates (map (fun op => (op, [])) ex_orphan)) by (rewrite creates_ops, Eo; reflexivity).
  assert (Eg : map (fun sd => (id_of sd, sd_parent sd)) (got w 7) = [(ex_id 8 x08, ex_id 8 x04); (ex_id 8 x02, zero_span_id)]).
  { assert (X : match texec (init_world false) ex_orphan with Some (_, w) => map (fun sd => (id_of sd, sd_parent sd)) (got w 7) | None => [] end =
      [(ex_id 8 x08, ex_id 8 x04); (ex_id 8 x02, zero_span_id)]) by (vm_compute; reflexivity). rewrite E in X. exact X. }
  destruct (got w 7) as [|sd [|sd2 [|]]] eqn:Egot; cbn [map] in Eg; [discriminate Eg|discriminate Eg| |discriminate Eg]. injection Eg as I1 P1 I2 P2.
  exists h, w, sd. split; [exact Hr|]. split; [|split; [|split; [|split; [|split; [|split]]]]].
  - intros c. rewrite Ec. cbn. intros [<-|[<-|[<-|[]]]]; cbn; split; eauto.
  - unfold good_ids. rewrite Ec. split; [|vm_compute; intuition discriminate]. vm_compute. repeat constructor; cbn; intuition discriminate.
  - apply kept_ops. rewrite Eo. vm_compute. reflexivity.
  - assert (X : forallb (fun s => negb (is_sampled (s_context s)) || match s_phase s with Ended => true | _ => false end) (w_spans w) = true).
    { assert (X : match texec (init_world false) ex_orphan with Some (_, w) => forallb (fun s => negb (is_sampled (s_context s)) || match s_phase s with Ended => true | _ => false end) (w_spans w) | None => false end = true)
        by (vm_compute; reflexivity). rewrite E in X. exact X. }
    intros i s Hs Hm. rewrite forallb_forall in X. specialize (X s (nth_error_In _ _ Hs)). rewrite Hm in X. destruct (s_phase s); (reflexivity || discriminate X).
  - rewrite Egot. now left.
  - rewrite P1. vm_compute. discriminate.
  - rewrite Egot. intros (p & [<-|[<-|[]]] & Ep); rewrite P1 in Ep; [rewrite I1 in Ep|rewrite I2 in Ep]; vm_compute in Ep; discriminate Ep.
Qed.
Print Assumptions C89_sampler_refuted.
