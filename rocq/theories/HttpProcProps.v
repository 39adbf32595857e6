(** What the views of plugin/ochttp show. *)

From Coq Require Import String.
From Coq Require Import List Arith NArith ZArith Bool Lia Permutation.
From Coq Require Import ZifyBool ZifyNat ZifyN.
From Verif Require Import Base ListLib GoMap GoSort Text Float64 TagModel TagSpec TagProofs TagProps AggModel AggSpec AggProofs AggProps CollectorSpec CollectorProofs
  ViewModel WorkerModel WorkerSpec RecordModel RecordProps ProcessModel ProcessSpec ProcessProofs ProcessProps TraceTypes TraceModel FloatInt FloatDiv.
From Verif Require Import GrpcProps GrpcProcProofs GrpcViewProofs GrpcProcProps.
From Verif Require Import HttpModel HttpSpec HttpProofs HttpProps HttpServerProps HttpProcModel HttpProcSpec HttpProcProofs HttpViewProofs.
From Verif Require Import WorkerProps.
Import ListNotations.
Open Scope nat_scope.

(** ** The views *)

Definition hagg (v : hview) : aggregation f64_num := if v_count v then AggCount else AggDist (hbounds v).

Lemma hspec_bounds v : spec_agg (@AggDist f64_num (hbounds v)) = Some (AggDist (hbounds v)).
Proof.
  unfold spec_agg. assert (E : existsb (fun b => f_ltb b f_zero) (hbounds v) = false) by (destruct v; vm_compute; reflexivity). rewrite E.
  do 2 f_equal. destruct v; vm_compute; reflexivity.
Qed.
Lemma hspec_view_dist u p name desc keys me ap v :
  nth_error (u_views u) p = Some (MkView name desc keys (Some me) (Some ap)) -> nth_error (u_aggs u) ap = Some (AggDist (hbounds v)) ->
  or_else name (me_name me) = name -> (length name <=? 255) && forallb printable name = true -> isort bytes_ltb keys = keys ->
  exists sv, spec_view u p = Some sv /\ sv_name sv = name /\ sv_measure sv = me /\ sv_keys sv = keys /\ sv_agg sv = AggDist (hbounds v).
Proof.
  intros E1 E2 E3 E4 E5. unfold spec_view. rewrite E1. cbn [v_measure v_agg v_name v_keys v_desc]. rewrite E3, E4, E2, E5, hspec_bounds.
  eexists. split; [reflexivity|]. repeat split.
Qed.

Lemma size_spec : hbounds VcSentBytes = size_bounds.
Proof. vm_compute. reflexivity. Qed.
Lemma latency_spec : hbounds VcLatency = latency_bounds.
Proof. vm_compute. reflexivity. Qed.
Lemma hname_spec ha v : v_name (hview_def ha v) = hname v.
Proof. destruct v; reflexivity. Qed.

Lemma hview_spec u ha p v : http_aggs_in ha (u_aggs u) -> nth_error (u_views u) p = Some (hview_def ha v) ->
  exists sv, spec_view u p = Some sv /\ sv_name sv = hname v /\ sv_measure sv = vmeas v /\ sv_keys sv = vkeys v /\ sv_agg sv = hagg v.
Proof.
  intros (A1 & A2 & A3) Ev. rewrite <- size_spec in A1. rewrite <- latency_spec in A2. rewrite <- (hname_spec ha).
  destruct v; first [ eapply spec_view_count; [exact Ev|exact A3|reflexivity|reflexivity|reflexivity]
                    | eapply hspec_view_dist; [exact Ev|first [exact A1|exact A2]|reflexivity|reflexivity|reflexivity] ].
Qed.

Lemma hmeasure_name v : me_name (vmeas v) = hmeasure v.
Proof. destruct v; reflexivity. Qed.

(** ** The entries *)

Lemma http_entries alone v u ha p acts1 g1 acts g o :
  u_ok u -> http_aggs_in ha (u_aggs u) -> nth_error (u_views u) p = Some (hview_def ha v) ->
  hregistered_since alone u p (hname v) (hmeasure v) acts1 g1 acts g -> (by_method v = true -> requests_ok (v_client v) g) ->
  hpinv g /\ exists rows ss, hshows o g (hname v) rows /\ grouped (hagg v) ss rows /\
    Permutation (map pv ss) (flat_map (hcontrib (st_heap (pc_tags (hp_proc g))) (vkeys v) (me_name (vmeas v))) (newly (counts_in v) (hp_reqs g1) (hp_reqs g))).
Proof.
  intros U HA Ev H Hv. destruct (hview_spec u ha p v HA Ev) as (sv & Es & En & Em & Ek & Ea).
  destruct (http_rows alone u p _ _ acts1 g1 acts g o sv U H Es En) as (HG & HG1 & rows & ss & R & G & P); [now rewrite Em, hmeasure_name|].
  rewrite Ek, Ea in *. rewrite <- hmeasure_name in P. split; [exact HG|]. exists rows, ss. split; [exact R|]. split; [exact G|].
  assert (Hev : forall j x1, nth_error (hp_reqs g1) j = Some x1 -> exists x, nth_error (hp_reqs g) j = Some x /\ hevolves x1 x).
  { destruct H as (o1 & o0 & ps1 & ps2 & now & _ & _ & _ & E2 & _). exact (hrun_evolves _ _ _ E2). }
  eapply Permutation_app_inv_l. etransitivity; [symmetry; exact P|]. unfold hcontribs. apply contribs_newly; [exact Hev|].
  intros x [Hx|Hx]; (split; [auto|]); intros Hb Hc.
  - now apply (Hv Hb).
  - destruct (In_nth_error _ _ Hx) as (j & Hj). destruct (Hev j x Hj) as (y & Hy & E1 & E2 & _). rewrite <- E2. apply (Hv Hb); [now apply nth_error_In in Hy|].
    unfold client_side in *. now rewrite E1.
Qed.

Lemma itoa_inj a b : itoa a = itoa b -> a = b.
Proof. intros E. apply (decimal_fun a b (itoa a)); [apply itoa_decimal|rewrite E; apply itoa_decimal]. Qed.

Lemma hrow_eq v x m s : tags_eqb (vrow v x) (hrow v m (itoa s)) =
  (negb (by_method v) || bytes_eqb (rq_method (hq_req x)) m) && (negb (by_status v) || (hstatus x =? s)%Z).
Proof.
  destruct (tags_eqb_spec (vrow v x) (hrow v m (itoa s))) as [E|E]; symmetry.
  - apply andb_true_iff. rewrite !orb_true_iff, !negb_true_iff.
    destruct v; cbn [by_method by_status hrow] in *; unfold hrow in E; cbn [by_method by_status app] in E; (split; [try (now left); right|try (now left); right]);
      try (destruct (bytes_eqb_spec (rq_method (hq_req x)) m) as [|Hn]; [reflexivity|exfalso; apply Hn]); try apply Z.eqb_eq, itoa_inj;
      first [ eapply shown_one_inj; exact E | eapply shown_two_inj in E; [destruct E; eassumption|discriminate] ].
  - apply not_true_iff_false. intros H. apply E. apply andb_true_iff in H. rewrite !orb_true_iff, !negb_true_iff in H. destruct H as [H1 H2].
    destruct (bytes_eqb_spec (rq_method (hq_req x)) m) as [->|Hn].
    + destruct H2 as [H2|H2]; [|apply Z.eqb_eq in H2; now subst s]. destruct v; try discriminate H2; reflexivity.
    + destruct H1 as [H1|]; [|discriminate]. destruct H2 as [H2|H2]; [|apply Z.eqb_eq in H2; subst s]; destruct v; try discriminate H1; try discriminate H2; reflexivity.
Qed.

(** What shows, with the values. *)
Definition entry_list (v : hview) (f : hreq -> f64) (l : list hreq) : list (list (key * bytes) * f64) := map (fun x => (vrow v x, f x)) l.
Lemma entries_row v f m s l : filter (fun e : list (key * bytes) * f64 => tags_eqb (fst e) (hrow v m (itoa s))) (entry_list v f l) =
  entry_list v f (filter (fun x => (negb (by_method v) || bytes_eqb (rq_method (hq_req x)) m) && (negb (by_status v) || (hstatus x =? s)%Z)) l).
Proof.
  unfold entry_list. induction l as [|x l IH]; [reflexivity|]. cbn [map filter fst]. rewrite hrow_eq, IH. now destruct (_ && _).
Qed.

Lemma contribs_entries v g1 g : hpinv g -> (by_method v = true -> requests_ok (v_client v) g) ->
  exists f, flat_map (hcontrib (st_heap (pc_tags (hp_proc g))) (vkeys v) (me_name (vmeas v))) (newly (counts_in v) (hp_reqs g1) (hp_reqs g)) =
            map (fun e => (vrow v (fst e), snd e)) (combine (newly (counts_in v) (hp_reqs g1) (hp_reqs g)) f) /\ length f = length (newly (counts_in v) (hp_reqs g1) (hp_reqs g)).
Proof.
  intros HG Hv. assert (H : forall x, In x (newly (counts_in v) (hp_reqs g1) (hp_reqs g)) -> In x (hp_reqs g) /\ counts_in v x = true) by apply newly_in.
  revert H. generalize (newly (counts_in v) (hp_reqs g1) (hp_reqs g)) as l. induction l as [|x l IH]; intros H; [exists []; auto|].
  destruct IH as (f & IH & L); [intros y Hy; apply H; now right|]. destruct (H x (or_introl eq_refl)) as [Hin Hc].
  destruct (contrib_shape (pc_tags (hp_proc g)) x v (HG x Hin)) as (r & f0 & _ & E); [intros Hb Hcl; now apply (Hv Hb)|].
  rewrite Hc in E. eexists (_ :: f). cbn [flat_map combine map fst snd length]. rewrite E, IH, L. split; reflexivity.
Qed.

(** ** Counts *)

(** A view that counts has one row for each method and status, as far as it says them,
    with which requests have begun or completed since it was registered; it shows their
    number. *)
Theorem C72_count alone v u ha p acts1 g1 acts g o :
  v_count v = true -> u_ok u -> http_aggs_in ha (u_aggs u) -> nth_error (u_views u) p = Some (hview_def ha v) ->
  hregistered_since alone u p (hname v) (hmeasure v) acts1 g1 acts g ->
  (by_method v = true -> requests_ok (v_client v) g) -> (Z.of_nat (length (hp_reqs g)) < 2 ^ 63)%Z ->
  exists rows, hshows o g (hname v) rows /\ NoDup (map fst rows) /\
    (forall m s, exists st, decimal s st /\
       let xs := since v m s g1 g in
       (xs = [] -> ~ In (hrow v m st) (map fst rows)) /\
       (xs <> [] -> exists t, In (hrow v m st, CountD t (Z.of_nat (length xs))) rows)) /\
    (forall row d, In (row, d) rows -> exists x st, In x (since v (rq_method (hq_req x)) (hstatus x) g1 g) /\ decimal (hstatus x) st /\ row = hrow v (rq_method (hq_req x)) st).
Proof.
  intros Hcv U HA Ev H Hv Hlen. destruct (http_entries alone v u ha p acts1 g1 acts g o U HA Ev H Hv) as (HG & rows & ss & R & G & P).
  destruct (contribs_entries v g1 g HG Hv) as (f & Ef & Lf). rewrite Ef in P. unfold hagg in G. rewrite Hcv in G.
  set (new := newly (counts_in v) (hp_reqs g1) (hp_reqs g)) in *.
  assert (Pf : Permutation (map fst (map pv ss)) (map (fun x => vrow v x) new)).
  { apply (Permutation_map fst) in P. rewrite (map_map (fun e => (vrow v (fst e), snd e)) fst) in P. cbn [fst] in P. replace (map (fun x => vrow v x) new) with (map (fun e : hreq * f64 => vrow v (fst e)) (combine new f)); [exact P|].
    clear - Lf. revert f Lf. induction new as [|x l IH]; intros [|y f] L; try discriminate L; [reflexivity|]. cbn [combine map fst]. f_equal. apply IH. now injection L. }
  assert (Ln : length new <= length (hp_reqs g)).
  { unfold new. clear. generalize (hp_reqs g1) as l1. induction (hp_reqs g) as [|x l IH]; intros l1; [cbn; lia|]. cbn [newly length]. rewrite app_length. specialize (IH (tl l1)).
    destruct (_ && _); cbn [length]; lia. }
  assert (Lss : length ss = length new) by (apply Permutation_length in Pf; now rewrite !map_length in Pf).
  assert (Hss : (Z.of_nat (length ss) < 2 ^ 63)%Z) by lia.
  assert (Hk : forall m s, with_row_tags (hrow v m (itoa s)) ss = length (since v m s g1 g)).
  { intros m s. rewrite with_row_tags_count. rewrite (tcount_perm _ _ _ Pf). unfold since. fold new. unfold tcount. clear.
    induction new as [|x l IH]; [reflexivity|]. cbn [map filter]. rewrite hrow_eq. destruct (_ && _); cbn [length]; now rewrite IH. }
  exists rows. split; [exact R|]. split; [exact (proj1 G)|]. split.
  - intros m s. exists (itoa s). split; [apply itoa_decimal|]. cbv zeta. destruct (C69_count ss rows (hrow v m (itoa s)) Hss G) as (K1 & K2 & _). rewrite Hk in K1, K2. split.
    + intros E. apply K1. now rewrite E.
    + intros E. apply K2. destruct (since v m s g1 g); [contradiction|discriminate].
  - intros row d Hin. destruct (C69_count ss rows row Hss G) as (K1 & _ & _).
    assert (Hc : tcount row (map (fun x => vrow v x) new) <> 0).
    { intros Hz. apply K1; [|apply in_map_iff; exists (row, d); auto]. rewrite with_row_tags_count, (tcount_perm _ _ _ Pf). exact Hz. }
    apply tcount_zero in Hc. apply in_map_iff in Hc. destruct Hc as (x & <- & Hx). exists x, (itoa (hstatus x)). split; [|split; [apply itoa_decimal|reflexivity]].
    unfold since. apply filter_In. split; [exact Hx|]. rewrite <- hrow_eq. now destruct (tags_eqb_spec (vrow v x) (vrow v x)).
Qed.

(** ** Distributions *)

(** The row of a method and status aggregates the values of the requests with that method
    and status that have completed since the registration, each once. *)
Theorem C72_distribution v u ha p acts1 g1 acts g o :
  v_count v = false -> u_ok u -> http_aggs_in ha (u_aggs u) -> nth_error (u_views u) p = Some (hview_def ha v) ->
  hregistered_since true u p (hname v) (hmeasure v) acts1 g1 acts g ->
  (by_method v = true -> requests_ok (v_client v) g) -> (forall x, In x (hp_reqs g) -> in_range x) ->
  exists rows, hshows o g (hname v) rows /\ NoDup (map fst rows) /\
    (forall m s, exists st, decimal s st /\
       let xs := since v m s g1 g in
       (xs = [] -> ~ In (hrow v m st) (map fst rows)) /\
       (xs <> [] -> exists t ss, In (hrow v m st, aggregate (AggDist (hbounds v)) t ss) rows /\ Permutation (values ss) (map (hvalue v) xs))) /\
    (forall row d, In (row, d) rows -> exists x st, In x (since v (rq_method (hq_req x)) (hstatus x) g1 g) /\ decimal (hstatus x) st /\ row = hrow v (rq_method (hq_req x)) st).
Proof.
  intros Hcv U HA Ev H Hv Hr. destruct (http_entries true v u ha p acts1 g1 acts g o U HA Ev H Hv) as (HG & rows & ss & R & G & P).
  unfold hagg in G. rewrite Hcv in G. destruct G as [N G].
  assert (Hso : hpsolo g).
  { destruct H as (o1 & o0 & ps1 & ps2 & now & Hok & Hal & E1 & E2 & _). set (reg := HApp (PCmd o0 (CmdRegister (ps1 ++ p :: ps2) now))) in *. specialize (Hal eq_refl).
    destruct (always_app _ _ _ _ _ Hok E1) as [Hok1 Hok2]. destruct (always_app _ _ _ _ _ Hal E1) as [Hal1 Hal2].
    assert (S0 : hpsolo (hproc_init u)) by (intros x []).
    destruct (hrun_lower u acts1 [] (hproc_init u) g1 U (pinv_init u) (hpinv_init u) Hok1 E1) as (_ & _ & A3 & h1 & A4). cbn [app] in A4.
    pose proof (hrun_solo u acts1 [] (hproc_init u) g1 U (pinv_init u) (hpinv_init u) S0 Hok1 Hal1 E1) as S1.
    exact (hrun_solo u (reg :: acts) h1 g1 g U A4 A3 S1 Hok2 Hal2 E2). }
  set (new := newly (counts_in v) (hp_reqs g1) (hp_reqs g)) in *.
  assert (Hn : forall x, In x new -> In x (hp_reqs g) /\ counts_in v x = true) by apply newly_in.
  assert (Ee : flat_map (hcontrib (st_heap (pc_tags (hp_proc g))) (vkeys v) (me_name (vmeas v))) new = entry_list v (hvalue v) new).
  { clear P G. unfold entry_list. induction new as [|x l IH]; [reflexivity|]. destruct (Hn x (or_introl eq_refl)) as [Hin Hc].
    cbn [flat_map map]. rewrite IH by (intros y Hy; apply Hn; now right).
    destruct (contrib_shape (pc_tags (hp_proc g)) x v (HG x Hin)) as (r & f0 & Hf & E); [intros Hb Hcl; now apply (Hv Hb)|]. rewrite E, Hc.
    assert (Hab : at_begin v = false) by (destruct v; try discriminate Hcv; reflexivity). rewrite Hab. destruct (Hf Hc Hab) as [Hf1 Hf2].
    rewrite (end_value_exact _ x v r f0 (HG x Hin) (Hso x Hin) (Hr x Hin) Hc Hab Hf1 Hf2). reflexivity. }
  rewrite Ee in P.
  assert (Hrow : forall tags, Permutation (values (map snd (filter (fun x => tags_eqb (fst x) tags) ss)))
    (map snd (filter (fun e => tags_eqb (fst e) tags) (entry_list v (hvalue v) new)))).
  { intros tags. replace (values (map snd (filter (fun x => tags_eqb (fst x) tags) ss))) with (map snd (filter (fun e => tags_eqb (fst e) tags) (map pv ss))).
    - apply Permutation_map. clear - P. induction P; cbn [filter]; try (destruct (tags_eqb _ _)); try (destruct (tags_eqb _ _)); auto using perm_swap, perm_skip. eapply perm_trans; eauto.
    - clear. unfold values. induction ss as [|[t s] ss IH]; [reflexivity|]. cbn [map filter pv fst]. destruct (tags_eqb t tags); cbn [map snd]; now rewrite IH. }
  exists rows. split; [exact R|]. split; [exact N|]. split.
  - intros m s. exists (itoa s). split; [apply itoa_decimal|]. cbv zeta. specialize (Hrow (hrow v m (itoa s))). rewrite entries_row in Hrow.
    match type of Hrow with context [entry_list v (hvalue v) ?l] => change l with (since v m s g1 g) in Hrow end.
    unfold entry_list in Hrow. rewrite (map_map (fun x => (vrow v x, hvalue v x)) snd) in Hrow. cbn [snd] in Hrow. split.
    + intros Hz Hin. rewrite Hz in Hrow. apply Permutation_sym, Permutation_nil in Hrow. apply in_map_iff in Hin. destruct Hin as ([t d] & E & Hin). cbn [fst] in E. rewrite E in Hin. clear E t.
      apply G in Hin. destruct Hin as (s0 & rest & E & _). rewrite E in Hrow. discriminate.
    + intros Hz. destruct (map snd (filter (fun x => tags_eqb (fst x) (hrow v m (itoa s))) ss)) as [|s0 rest] eqn:E.
      * exfalso. apply Permutation_nil in Hrow. apply map_eq_nil in Hrow. contradiction.
      * exists (s_time s0), (s0 :: rest). split; [|exact Hrow]. apply G. exists s0, rest. auto.
  - intros row d Hin. apply G in Hin. destruct Hin as (s0 & rest & E & _). specialize (Hrow row). rewrite E in Hrow.
    assert (Hin : In (s_value s0) (map snd (filter (fun e => tags_eqb (fst e) row) (entry_list v (hvalue v) new)))).
    { eapply Permutation_in; [exact Hrow|]. now left. }
    apply in_map_iff in Hin. destruct Hin as ([t f] & _ & Hin). apply filter_In in Hin. destruct Hin as [Hin Ht]. cbn [fst] in Ht.
    destruct (tags_eqb_spec t row) as [->|]; [|discriminate]. apply in_map_iff in Hin. destruct Hin as (x & Ex & Hx). injection Ex as <- _.
    exists x, (itoa (hstatus x)). split; [|split; [apply itoa_decimal|reflexivity]].
    unfold since. apply filter_In. split; [exact Hx|]. rewrite <- hrow_eq. now destruct (tags_eqb_spec (vrow v x) (vrow v x)).
Qed.

Lemma hbounds_good v : good_bounds (hbounds v).
Proof. apply good_boundsb_ok. destruct v; vm_compute; reflexivity. Qed.

Lemma hvalue_valid v x : f_valid (hvalue v x).
Proof.
  assert (L : f_valid (hlatency x)).
  { unfold hlatency, ms_between. destruct (hq_side x) as [[|]|]; [| |]; try (apply f_div_valid; apply f_of_Z_valid).
    destruct (completed_at (body_ops x)); [apply f_div_valid; apply f_of_Z_valid|reflexivity]. }
  destruct v; cbn [hvalue]; try apply f_of_Z_valid; exact L.
Qed.

(** The histogram of a row: bucket [i] counts the requests whose value is in its interval. *)
Theorem C72_buckets v u ha p acts1 g1 acts g o :
  v_count v = false -> u_ok u -> http_aggs_in ha (u_aggs u) -> nth_error (u_views u) p = Some (hview_def ha v) ->
  hregistered_since true u p (hname v) (hmeasure v) acts1 g1 acts g ->
  (by_method v = true -> requests_ok (v_client v) g) -> (forall x, In x (hp_reqs g) -> in_range x) ->
  exists rows, hshows o g (hname v) rows /\
    forall m s, exists st, decimal s st /\
      let xs := since v m s g1 g in
      (xs <> [] -> (Z.of_nat (length xs) < 2 ^ 63)%Z ->
       exists d, In (hrow v m st, DistD d) rows /\
         d_count d = Z.of_nat (length xs) /\ d_bounds d = hbounds v /\
         forall i, i <= length (hbounds v) -> nth_error (d_cpb d) i = Some (count_if (fun x => falls_in (hbounds v) i (hvalue v x)) xs)).
Proof.
  intros Hcv U HA Ev H Hv Hr. destruct (C72_distribution v u ha p acts1 g1 acts g o Hcv U HA Ev H Hv Hr) as (rows & R & _ & Hrow & _).
  exists rows. split; [exact R|]. intros m s. destruct (Hrow m s) as (st & Hst & Hx). exists st. split; [exact Hst|]. cbv zeta in *. destruct Hx as [_ Hx]. set (xs := since v m s g1 g) in *.
  intros Hn Hlen. destruct (Hx Hn) as (t & ss & Hin & P).
  assert (L : length ss = length xs) by (apply Permutation_length in P; unfold values in P; now rewrite !map_length in P).
  destruct (C08_buckets (hbounds v) t ss (hbounds_good v)) as (d & E & Ec & Eb).
  - rewrite Forall_forall. intros f Hf. eapply Permutation_in in Hf; [|exact P]. apply in_map_iff in Hf. destruct Hf as (x & <- & _). apply hvalue_valid.
  - now rewrite L.
  - destruct (C08_shape (hbounds v) t ss) as (d' & E' & _ & _ & Ebd & _). rewrite E in E'. injection E' as <-.
    exists d. rewrite E in Hin. split; [exact Hin|]. split; [now rewrite Ec, L|]. split; [exact Ebd|]. intros i Hi. rewrite (Eb i Hi).
    now rewrite (count_if_perm _ _ _ P), count_if_map.
Qed.

(** ** All views together *)

(** These are the views of the package; they are valid and have different names, so that
    they can be registered together. *)
Theorem C72_views u ha :
  http_aggs_in ha (u_aggs u) ->
  NoDup (map v_name (all_http_views ha)) /\ (forall w, In w (all_http_views ha) <-> exists v, w = hview_def ha v) /\
  (forall v, v_name (hview_def ha v) = hname v) /\
  incl (http_default_client_views ha ++ http_default_server_views ha) (all_http_views ha) /\
  forall p w, nth_error (u_views u) p = Some w -> In w (all_http_views ha) -> exists sv, spec_view u p = Some sv /\ sv_name sv = v_name w.
Proof.
  intros HA. assert (Hall : forall w, In w (all_http_views ha) <-> exists v, w = hview_def ha v).
  { intros w. split.
    - cbn [all_http_views http_default_client_views http_default_server_views app In]. intros Hin.
      repeat (destruct Hin as [<-|Hin]; [first [ now exists VcSentBytes | now exists VcReceivedBytes | now exists VcRoundtripLatency | now exists VcCompletedCount | now exists VcRequestCount
        | now exists VcRequestBytes | now exists VcResponseBytes | now exists VcLatency | now exists VcCountByMethod | now exists VcCountByStatus | now exists VsRequestCount
        | now exists VsRequestBytes | now exists VsResponseBytes | now exists VsLatency | now exists VsCountByMethod | now exists VsCountByStatus ]|]). destruct Hin.
    - intros (v & ->). destruct v; cbn [hview_def all_http_views http_default_client_views http_default_server_views app]; repeat (first [now left|right]). }
  split; [|split; [exact Hall|split; [apply hname_spec|split]]].
  - vm_compute. repeat (constructor; [cbn; intros Hin; repeat (destruct Hin as [Hin|Hin]; [discriminate Hin|]); exact Hin|]). constructor.
  - intros w Hin. unfold all_http_views. apply in_or_app. now right.
  - intros p w Ep Hin. apply Hall in Hin. destruct Hin as (v & ->). destruct (hview_spec u ha p v HA Ep) as (sv & Es & En & _). rewrite hname_spec. eauto.
Qed.

(** What a Reader or exporter of metrics is told of each view. *)
Theorem C72_metrics u ha :
  http_aggs_in ha (u_aggs u) ->
  map (fun v => option_map (fun d => (md_name d, md_unit d, md_type d, md_keys d)) (view_to_metric_descriptor u v)) (all_http_views ha) =
  map Some http_metrics.
Proof.
  intros (A1 & A2 & A3). cbn [all_http_views http_default_client_views http_default_server_views app map].
  unfold view_to_metric_descriptor. cbn [v_measure v_agg]. repeat f_equal.
  all: cbn -[nth_error bs]; rewrite ?A1, ?A2, ?A3; reflexivity.
Qed.

(** ** No panic *)

(** Once RoundTrip or ServeHTTP has been called, its steps and those of Read and Close on
    the body do not panic. *)
Theorem C72_no_panic u acts g j x :
  u_ok u -> always (hact_ok u) (hproc_init u) acts -> hproc_run (hproc_init u) acts = Some g -> nth_error (hp_reqs g) j = Some x ->
  (forall it o now, hq_todo x <> [] -> iterates (st_heap (pc_tags (hp_proc g))) (hq_tags x) it -> exists g', hproc_step g (HStep j it o now) = Some g') /\
  (forall b op it o now, hq_todo x = [] -> hq_body x = Some b -> exists g', hproc_step g (HBody j (EvCall op) it o now) = Some g') /\
  (forall b i op s ms it o now, hq_todo x = [] -> hq_body x = Some b -> nth_error (bd_threads b) i = Some (op, s :: ms) ->
     iterates (st_heap (pc_tags (hp_proc g))) (hq_tags x) it -> exists g', hproc_step g (HBody j (EvStep i) it o now) = Some g').
Proof.
  intros U Hok E Ex. destruct (hrun_lower u acts [] (hproc_init u) g U (pinv_init u) (hpinv_init u) Hok E) as (_ & _ & HG & h & HI). cbn [app] in HI.
  pose proof (HG x (nth_error_In _ _ Ex)) as Hi.
  assert (X : forall cs it o now, length (recs cs) <= 1 -> (forall r, In r (recs cs) -> rec_ok x r) -> iterates (st_heap (pc_tags (hp_proc g))) (hq_tags x) it ->
              exists p, perform (hp_proc g) cs it o now = Some p).
  { intros cs it o now Hl Hrs Hit. rewrite perform_run. destruct (recs cs) as [|r [|]]; [cbn; eauto| |cbn in Hl; lia].
    destruct (Hrs r (or_introl eq_refl)) as (R1 & R2 & R3). cbn [map to_pact proc_run proc_step]. rewrite R1.
    destruct (record_total u h (hp_proc g) (hq_tags x) it (snd r) o now U HI) as (p' & ->); [|eauto].
    split; [apply (hi_ctx _ _ Hi)|]. split; [exact Hit|]. split; assumption. }
  split; [|split].
  - intros it o now Ht Hit. cbn [hproc_step]. rewrite Ex. destruct (hq_todo x) as [|k rest] eqn:Et; [contradiction|].
    destruct (X [k] it o now) as (p & ->); [cbn [recs flat_map]; destruct (call_record k) as [[]|]; cbn; lia| |exact Hit|eauto].
    intros r Hin. apply plan_ok. rewrite <- (hi_plan _ _ Hi), Et. apply in_or_app. right. change (k :: rest) with ([k] ++ rest). rewrite recs_app. apply in_or_app. now left.
  - intros b op it o now Ht Hb. cbn [hproc_step body_step]. rewrite Ex, Ht, Hb. cbn [bd_calls]. rewrite skipn_all. cbn [perform]. eauto.
  - intros b i op s ms it o now Ht Hb Hth Hit. cbn [hproc_step]. rewrite Ex, Ht, Hb. 
    assert (Es : exists b', body_step b (EvStep i) = Some b') by (cbn [body_step]; rewrite Hth; destruct (do_micro _ _); eauto). destruct Es as (b' & Es). rewrite Es.
    pose proof (hi_body _ _ Hi) as Hbd. rewrite Hb in Hbd. destruct (hq_side x) as [[msg|status clen]|ops] eqn:Esd; try discriminate Hbd. destruct (observed x); [|discriminate Hbd].
    destruct Hbd as (b0 & [= <-] & Hst).
    destruct (bstep _ b (EvStep i) b' Hst Es) as (_ & cs & Ec & Hcs). rewrite Ec, skipn_app_exact.
    destruct (X cs it o now) as (p & ->); [destruct Hcs as [->|(resp & t & ->)]; cbn; lia| |exact Hit|eauto].
    intros r Hin. destruct Hcs as [Hcs|(resp & t & Hcs)]; rewrite Hcs in Hin; [destruct Hin|]. destruct Hin as [<-|[]]. now apply crec_ok.
Qed.

(** ** The requests *)

Lemma hrun_snoc l a : forall s g, hproc_run s (l ++ [a]) = Some g -> exists g0, hproc_run s l = Some g0 /\ hproc_step g0 a = Some g.
Proof.
  induction l as [|b l IH]; intros s g E; cbn [app hproc_run] in *.
  - exists s. split; [reflexivity|]. destruct (hproc_step s a); congruence.
  - destruct (hproc_step s b); [exact (IH _ _ E)|discriminate].
Qed.
Lemma body_run_snoc es e : forall b b1 b2, body_run b es = Some b1 -> body_step b1 e = Some b2 -> body_run b (es ++ [e]) = Some b2.
Proof.
  induction es as [|d es IH]; intros b b1 b2 E1 E2; cbn [app body_run] in *; [injection E1 as ->; now rewrite E2|].
  destruct (body_step b d); [eapply IH; eauto|discriminate].
Qed.

(** What [hp_reqs] says of request [j] is what was done with it: it is the [j]-th call of
    RoundTrip or ServeHTTP; it has made as many of the calls of HttpModel's function as
    steps were taken, and its body is the one of HttpModel after what was done with it. *)
Definition tells (j : nat) (x : hreq) (g0 : hproc) (a : hact) (acts : list hact) : Prop :=
  let ts := pc_tags (hp_proc g0) in
  let went calls := hq_done x = firstn (steps_done j acts) calls /\ hq_todo x = skipn (steps_done j acts) calls in
  match a with
  | HRoundTrip t r i it hh sc b t0 t1 =>
      let out := round_trip t r (st_heap ts) (nth i (st_ctxs ts) None) it hh sc b t0 t1 in
      hq_side x = HClient b /\ hq_req x = r /\ hq_t0 x = t0 /\ hq_t1 x = t1 /\ went (ro_calls out) /\
      match ro_tracker out with Some tk => exists b, body_run (MkBody tk [] []) (body_events j acts) = Some b /\ hq_body x = Some b | None => hq_body x = None end
  | HServe h r hdr i it ops t0 t1 =>
      let out := serve_http h r hdr (st_heap ts) (nth i (st_ctxs ts) None) it ops t0 t1 in
      hq_side x = HServer ops /\ hq_req x = r /\ hq_t0 x = t0 /\ hq_t1 x = t1 /\ went (so_calls out) /\ hq_body x = None
  | _ => False
  end.

Lemma tells_more j x g0 a acts b : tells j x g0 a acts -> steps_done j [b] = 0 -> body_events j [b] = [] -> tells j x g0 a (acts ++ [b]).
Proof.
  intros H E1 E2. assert (S1 : steps_done j (acts ++ [b]) = steps_done j acts) by (unfold steps_done in *; rewrite filter_app, app_length; lia).
  assert (S2 : body_events j (acts ++ [b]) = body_events j acts) by (unfold body_events in *; rewrite flat_map_app, E2; apply app_nil_r).
  unfold tells in *. rewrite S1, S2. exact H.
Qed.

Lemma firstn_step {A} n (l : list A) k rest : skipn n l = k :: rest -> firstn (S n) l = firstn n l ++ [k] /\ skipn (S n) l = rest.
Proof. revert l. induction n as [|n IH]; intros [|a l] E; try discriminate; [injection E as -> ->; auto|]. cbn [skipn] in E. destruct (IH l E) as [H1 H2]. cbn [firstn app]. rewrite <- H1. auto. Qed.

Theorem C72_history u acts g j x :
  hproc_run (hproc_init u) acts = Some g -> nth_error (hp_reqs g) j = Some x ->
  exists acts0 g0 a acts1, acts = acts0 ++ a :: acts1 /\ hproc_run (hproc_init u) acts0 = Some g0 /\ length (hp_reqs g0) = j /\ tells j x g0 a acts1.
Proof.
  revert g x. induction acts as [|a acts IH] using rev_ind; intros g x E Hx; [injection E as <-; destruct j; discriminate|].
  destruct (hrun_snoc _ _ _ _ E) as (gm & Em & Es).
  assert (Hold : forall y, nth_error (hp_reqs gm) j = Some y -> y = x -> steps_done j [a] = 0 -> body_events j [a] = [] ->
    exists acts0 g0 a0 acts1, acts ++ [a] = acts0 ++ a0 :: acts1 /\ hproc_run (hproc_init u) acts0 = Some g0 /\ length (hp_reqs g0) = j /\ tells j x g0 a0 acts1).
  { intros y Hy -> E1 E2. destruct (IH gm x Em Hy) as (acts0 & g0 & a0 & acts1 & A1 & A2 & A3 & A4). exists acts0, g0, a0, (acts1 ++ [a]).
    split; [rewrite A1, <- app_assoc; reflexivity|]. split; [exact A2|]. split; [exact A3|]. now apply tells_more. }
  destruct a as [pa|t r i it hh sc b t0 t1|hd r hdr i it ops t0 t1|j0 it o now|j0 ev it o now]; cbn [hproc_step] in Es.
  - destruct (proc_step (hp_proc gm) pa); [|discriminate]. injection Es as <-. eapply Hold; [exact Hx|reflexivity..].
  - cbv zeta in Es. injection Es as <-. cbn [hp_reqs] in Hx. destruct (Nat.lt_ge_cases j (length (hp_reqs gm))) as [Hlt|Hge].
    + rewrite nth_error_app1 in Hx by exact Hlt. eapply Hold; [exact Hx|reflexivity..].
    + rewrite nth_error_app2 in Hx by exact Hge. destruct (j - length (hp_reqs gm)) as [|n] eqn:En; [|destruct n; discriminate]. injection Hx as <-.
      exists acts, gm. eexists _, []. split; [reflexivity|]. split; [exact Em|]. split; [lia|]. unfold tells. cbv zeta. cbn [hq_side hq_req hq_t0 hq_t1 hq_done hq_todo hq_body steps_done filter length firstn skipn body_events flat_map body_run].
      do 4 (split; [reflexivity|]). split; [split; reflexivity|]. destruct (ro_tracker _); cbn [option_map]; eauto.
  - cbv zeta in Es. injection Es as <-. cbn [hp_reqs] in Hx. destruct (Nat.lt_ge_cases j (length (hp_reqs gm))) as [Hlt|Hge].
    + rewrite nth_error_app1 in Hx by exact Hlt. eapply Hold; [exact Hx|reflexivity..].
    + rewrite nth_error_app2 in Hx by exact Hge. destruct (j - length (hp_reqs gm)) as [|n] eqn:En; [|destruct n; discriminate]. injection Hx as <-.
      exists acts, gm. eexists _, []. split; [reflexivity|]. split; [exact Em|]. split; [lia|]. unfold tells. cbv zeta. cbn [hq_side hq_req hq_t0 hq_t1 hq_done hq_todo hq_body steps_done filter length firstn skipn].
      do 4 (split; [reflexivity|]). split; [split; reflexivity|]. reflexivity.
  - destruct (nth_error (hp_reqs gm) j0) as [y|] eqn:Ey; [|discriminate]. destruct (hq_todo y) as [|k rest] eqn:Et; [discriminate|].
    destruct (perform _ _ _ _ _); [|discriminate]. injection Es as <-. cbn [hp_reqs] in Hx. destruct (Nat.eq_dec j j0) as [->|Hn].
    + rewrite (nth_upd_at _ _ _ _ Ey) in Hx. injection Hx as <-. destruct (IH gm y Em Ey) as (acts0 & g0 & a0 & acts1 & A1 & A2 & A3 & A4).
      exists acts0, g0, a0, (acts1 ++ [HStep j0 it o now]). split; [rewrite A1, <- app_assoc; reflexivity|]. split; [exact A2|]. split; [exact A3|].
      assert (S1 : steps_done j0 (acts1 ++ [HStep j0 it o now]) = S (steps_done j0 acts1)).
      { unfold steps_done. rewrite filter_app, app_length. cbn [filter]. rewrite Nat.eqb_refl. cbn [length]. lia. }
      assert (S2 : body_events j0 (acts1 ++ [HStep j0 it o now]) = body_events j0 acts1) by (unfold body_events; rewrite flat_map_app; cbn [flat_map]; apply app_nil_r).
      unfold tells in *. cbv zeta in *. rewrite S1, S2. cbn [hq_side hq_req hq_t0 hq_t1 hq_done hq_todo hq_body].
      destruct a0; try contradiction; destruct A4 as (B1 & B2 & B3 & B4 & [B5 B6] & B7); rewrite Et in B6; symmetry in B6; destruct (firstn_step _ _ _ _ B6) as [F1 F2];
        repeat (split; [assumption|]); (split; [split; [now rewrite F1, B5|now rewrite F2]|exact B7]).
    + rewrite nth_upd_else in Hx by congruence. eapply Hold; [exact Hx|reflexivity|unfold steps_done; cbn [filter]; destruct (Nat.eqb_spec j0 j); [congruence|reflexivity]|reflexivity].
  - destruct (nth_error (hp_reqs gm) j0) as [y|] eqn:Ey; [|discriminate]. destruct (hq_todo y) eqn:Et; [|discriminate]. destruct (hq_body y) as [b|] eqn:Eb; [|discriminate].
    destruct (body_step b ev) as [b'|] eqn:Ebs; [|discriminate]. destruct (perform _ _ _ _ _); [|discriminate]. injection Es as <-. cbn [hp_reqs] in Hx. destruct (Nat.eq_dec j j0) as [->|Hn].
    + rewrite (nth_upd_at _ _ _ _ Ey) in Hx. injection Hx as <-. destruct (IH gm y Em Ey) as (acts0 & g0 & a0 & acts1 & A1 & A2 & A3 & A4).
      exists acts0, g0, a0, (acts1 ++ [HBody j0 ev it o now]). split; [rewrite A1, <- app_assoc; reflexivity|]. split; [exact A2|]. split; [exact A3|].
      assert (S1 : steps_done j0 (acts1 ++ [HBody j0 ev it o now]) = steps_done j0 acts1) by (unfold steps_done; rewrite filter_app, app_length; cbn [filter length]; lia).
      assert (S2 : body_events j0 (acts1 ++ [HBody j0 ev it o now]) = body_events j0 acts1 ++ [ev]).
      { unfold body_events. rewrite flat_map_app. cbn [flat_map]. now rewrite Nat.eqb_refl. }
      unfold tells in *. cbv zeta in *. rewrite S1, S2. cbn [hq_side hq_req hq_t0 hq_t1 hq_done hq_todo hq_body].
      destruct a0; try contradiction; destruct A4 as (B1 & B2 & B3 & B4 & B5 & B7); repeat (split; [assumption|]).
      * destruct (ro_tracker _) as [tk|]; [|congruence]. destruct B7 as (b1 & R1 & R2). rewrite Eb in R2. injection R2 as <-. exists b'. split; [eapply body_run_snoc; eauto|reflexivity].
      * congruence.
    + rewrite nth_upd_else in Hx by congruence. eapply Hold; [exact Hx|reflexivity|reflexivity|unfold body_events; cbn [flat_map]; destruct (Nat.eqb_spec j0 j); [congruence|reflexivity]].
Qed.

(** ** Examples *)

(** Tests for [always (hact_ok u)] and [always body_alone]. *)
Definition hact_okb (u : uworld) (g : hproc) (a : hact) : bool :=
  let ts := pc_tags (hp_proc g) in
  let int64b z := (- 2 ^ 63 <=? z)%Z && (z <? 2 ^ 63)%Z in
  match a with
  | HApp a => pact_okb u (hp_proc g) a
  | HRoundTrip _ _ i it _ _ b _ _ =>
      iterates_b (st_heap ts) (nth i (st_ctxs ts) None) it && match b with BaseResp status _ => int64b status | BaseErr _ => true end
  | HServe _ _ _ i it ops _ _ => iterates_b (st_heap ts) (nth i (st_ctxs ts) None) it && int64b (status_of (performed ops))
  | HStep j it _ _ | HBody j _ it _ _ => match nth_error (hp_reqs g) j with Some x => iterates_b (st_heap ts) (hq_tags x) it | None => true end
  end.
Definition body_aloneb (g : hproc) (a : hact) : bool :=
  match a with
  | HBody j (EvCall _) _ _ _ =>
      match nth_error (hp_reqs g) j with
      | Some x => match hq_body x with Some b => forallb (fun t => match snd t with [] => true | _ => false end) (bd_threads b) | None => true end
      | None => true
      end
  | _ => true
  end.
Fixpoint alwaysb (P : hproc -> hact -> bool) (g : hproc) (l : list hact) : bool :=
  match l with
  | [] => true
  | a :: r => P g a && match hproc_step g a with Some g' => alwaysb P g' r | None => true end
  end.
Lemma hact_okb_ok u g a : hact_okb u g a = true -> hact_ok u g a.
Proof.
  destruct a as [a|t r i it hh sc b t0 t1|hd r hdr i it ops t0 t1|j it o now|j ev it o now]; cbn [hact_okb hact_ok]; intros H.
  - now apply pact_okb_ok.
  - apply andb_true_iff in H. destruct H as [H1 H2]. split; [now apply iterates_b_ok|]. destruct b; [exact I|]. unfold int64_range. lia.
  - apply andb_true_iff in H. destruct H as [H1 H2]. split; [now apply iterates_b_ok|]. unfold int64_range. lia.
  - intros x Ex. rewrite Ex in H. now apply iterates_b_ok.
  - intros x Ex. rewrite Ex in H. now apply iterates_b_ok.
Qed.
Lemma body_aloneb_ok g a : body_aloneb g a = true -> body_alone g a.
Proof.
  destruct a as [| | | |j [op|i] it o now]; try (intros; exact I). cbn [body_aloneb body_alone]. intros H x b op' ms Ex Eb Hin. rewrite Ex, Eb, forallb_forall in H.
  specialize (H _ Hin). cbn [snd] in H. now destruct ms.
Qed.
Lemma alwaysb_ok (P : hproc -> hact -> bool) (Q : hproc -> hact -> Prop) : (forall g a, P g a = true -> Q g a) -> forall l g, alwaysb P g l = true -> always Q g l.
Proof.
  intros HPQ. induction l as [|a l IH]; intros g H; [exact I|]. cbn [alwaysb always] in *. apply andb_true_iff in H. destruct H as [H1 H2].
  split; [now apply HPQ|]. destruct (hproc_step g a); [now apply IH|exact I].
Qed.

Definition ex_ha : http_aggs := MkHA 0 1 2.
Definition ex_hu : uworld := MkU (all_http_views ex_ha) [AggDist size_bounds; AggDist latency_bounds; AggCount].

Lemma ex_hu_ok : u_ok ex_hu.
Proof.
  split; [|split].
  - intros p w ap. do 16 (destruct p as [|p]; [intros [= <-] [= <-]; cbn; lia|]). intros E; cbn in E; destruct p; discriminate.
  - intros ap bounds. assert (V : forall v, Forall f_valid (hbounds v)).
    { intros v. destruct (hbounds_good v) as [H _]. rewrite Forall_forall in *. intros b Hb. now apply H. }
    do 3 (destruct ap as [|ap]; [intros [= <-]; first [rewrite <- size_spec; exact (V VcSentBytes)|rewrite <- latency_spec; exact (V VcLatency)]|]); try discriminate.
    intros E; cbn in E; destruct ap; discriminate.
  - intros p w me. do 16 (destruct p as [|p]; [intros [= <-] [= <-]; discriminate|]). intros E; cbn in E; destruct p; discriminate.
Qed.

(** The tag map that mutators make. *)
Definition ex_map (ms : list mutator) : list (key * content) :=
  let '(h, c, _) := tag_new [] None [] ms in match ctx_map h c with Some m => m | None => [] end.
Definition hsteps (j n : nat) (ms : list mutator) (now : time) : list hact := repeat (HStep j (ex_map ms) id_order now) n.
Definition hbody (j : nat) (op : bop) (i n : nat) (ms : list mutator) (now : time) : list hact :=
  HBody j (EvCall op) (ex_map ms) id_order now :: repeat (HBody j (EvStep i) (ex_map ms) id_order now) n.
Definition ex_calls (a : hact) : nat := match hproc_step (hproc_init ex_hu) a with Some g => match hp_reqs g with x :: _ => length (hq_todo x) | [] => 0 end | None => 0 end.

Definition ex_get : hact := HRoundTrip ex_tr ex_req 0 [] [[]] ex_sc (BaseResp 200 4096) 0%Z 2000000%Z.
Definition ex_fail : hact := HRoundTrip ex_tr ex_post 0 [] [[]] ex_sc (BaseErr (bs "refused")) 3000000%Z 5500000%Z.
Definition ex_serve (ops : list hop) : hact := HServe ex_handler ex_post [] 0 [] ops 6000000%Z 7000000%Z.
(** A GET has begun when the views are registered. *)
Definition ex_hacts1 : list hact := ex_get :: hsteps 0 1 (client_tags ex_req) 0%Z.
Definition ex_hreg : hact := HApp (PCmd id_order (CmdRegister (seq 0 16) 100%Z)).
(** Its body is read and closed; a POST fails; a server answers a POST with 404. *)
Definition ex_ops : list hop := [HHeader 404; HWrite 3 6500000%Z; HWrite 4 6600000%Z].
Definition ex_hacts2 : list hact :=
  hsteps 0 (ex_calls ex_get - 1) (client_tags ex_req) 2000000%Z ++
  hbody 0 (BRead (ROk 1500) 2100000%Z) 0 1 (client_tags ex_req) 2100000%Z ++ hbody 0 (BRead (REof 1500) 2200000%Z) 1 3 (client_tags ex_req) 2200000%Z ++
  hbody 0 (BClose 2300000%Z) 2 2 (client_tags ex_req) 2300000%Z ++
  ex_fail :: hsteps 1 (ex_calls ex_fail) (client_tags ex_post) 5500000%Z ++
  ex_serve ex_ops :: hsteps 2 (ex_calls (ex_serve ex_ops)) (server_tags ex_post) 7000000%Z.

Definition hex_run (acts1 acts2 : list hact) : option (hproc * hproc) :=
  match hproc_run (hproc_init ex_hu) acts1 with
  | Some g1 => match hproc_run g1 (ex_hreg :: acts2) with Some g => Some (g1, g) | None => None end
  | None => None
  end.

Lemma hex_since acts1 acts2 g1 g p w m :
  alwaysb (hact_okb ex_hu) (hproc_init ex_hu) (acts1 ++ ex_hreg :: acts2) = true -> alwaysb body_aloneb (hproc_init ex_hu) (acts1 ++ ex_hreg :: acts2) = true ->
  hex_run acts1 acts2 = Some (g1, g) ->
  w_views (pc_worker (hp_proc g1)) = [] -> forallb (fun a => match a with HApp _ => false | _ => true end) acts2 = true ->
  nth_error (all_http_views ex_ha) p = Some w -> hregistered_since true ex_hu p (v_name w) m acts1 g1 acts2 g.
Proof.
  intros Hok Hal Hrun Hw Hacts Hv. unfold hex_run in Hrun. destruct (hproc_run (hproc_init ex_hu) acts1) as [g1'|] eqn:E1; [|discriminate].
  destruct (hproc_run g1' (ex_hreg :: acts2)) as [g'|] eqn:E2; [|discriminate]. injection Hrun as -> ->.
  assert (Hlt : p < 16) by (change 16 with (length (all_http_views ex_ha)); apply nth_error_Some; congruence).
  assert (Hseq : seq 0 p ++ p :: seq (S p) (15 - p) = seq 0 16).
  { change (p :: seq (S p) (15 - p)) with (seq p (S (15 - p))). rewrite <- (seq_app p). f_equal. lia. }
  destruct (C72_views ex_hu ex_ha) as (N & _ & _ & _ & V); [repeat split; reflexivity|].
  exists id_order, id_order, (seq 0 p), (seq (S p) (15 - p)), 100%Z. cbv zeta. rewrite Hseq. fold ex_hreg.
  split; [now apply (alwaysb_ok (hact_okb ex_hu)); [apply hact_okb_ok|]|]. split; [intros _; now apply (alwaysb_ok body_aloneb); [apply body_aloneb_ok|]|].
  split; [exact E1|]. split; [exact E2|]. split; [cbn [handle]; now rewrite Hw|]. split; [|split].
  - intros q Hq. apply in_seq in Hq. destruct (nth_error (all_http_views ex_ha) q) as [w'|] eqn:Eq; [|apply nth_error_None in Eq; cbn in Eq; lia].
    destruct (V q w' Eq (nth_error_In _ _ Eq)) as (sv & -> & _). discriminate.
  - intros q sv Hq Es En. apply in_seq in Hq. destruct (nth_error (all_http_views ex_ha) q) as [w'|] eqn:Eq; [|apply nth_error_None in Eq; cbn in Eq; lia].
    destruct (V q w' Eq (nth_error_In _ _ Eq)) as (sv' & Es' & En'). rewrite Es in Es'. injection Es' as <-.
    rewrite NoDup_nth_error in N. assert (q = p); [|lia]. apply N.
    + rewrite map_length. apply nth_error_Some. congruence.
    + rewrite !nth_error_map, Eq, Hv. cbn [option_map]. congruence.
  - intros a Ha. rewrite forallb_forall in Hacts. specialize (Hacts a Ha). destruct a; [discriminate| | | |]; split; exact I.
Qed.

Definition h_shown (n : bytes) (x : option (hproc * hproc)) : option (list (list (key * bytes) * (Z * list Z))) :=
  match x with
  | Some (_, g) => match handle_retrieve id_order (pc_worker (hp_proc g)) n with
                   | Some (Some rows) => Some (map (fun r => (fst r, row_numbers (snd r))) rows)
                   | _ => None end
  | None => None
  end.

Definition in_rangeb (x : hreq) : bool :=
  let clockb t0 t1 := ((- 2 ^ 63 <=? t1 - t0) && (t1 - t0 <? 2 ^ 63))%Z in
  match hq_side x with
  | HClient (BaseResp _ _) =>
      forallb (fun op => 0 <=? bytes_of op)%Z (body_ops x) && (fold_right Z.add 0 (map bytes_of (body_ops x)) <? 2 ^ 63)%Z &&
      match completed_at (body_ops x) with Some now => clockb (hq_t0 x) now | None => true end
  | HClient (BaseErr _) => clockb (hq_t0 x) (hq_t1 x)
  | HServer ops => clockb (hq_t0 x) (hq_t1 x) && (0 <=? bytes_written (performed ops))%Z && (bytes_written (performed ops) <? 2 ^ 63)%Z
  end.
Lemma in_rangeb_ok x : in_rangeb x = true -> in_range x.
Proof.
  unfold in_rangeb, in_range. cbv zeta. destruct (hq_side x) as [[msg|status clen]|ops]; intros H.
  - unfold clock_ok. lia.
  - apply andb_true_iff in H. destruct H as [H H3]. apply andb_true_iff in H. destruct H as [H1 H2]. rewrite forallb_forall in H1. split.
    + split; [intros op Hop; specialize (H1 op Hop); lia|lia].
    + intros now E. rewrite E in H3. unfold clock_ok. lia.
  - unfold clock_ok. lia.
Qed.
Definition valid_requestb (r : request) : bool := legal (rq_host r) && legal (rq_path r) && legal (rq_method r).
Lemma valid_requestb_ok r : valid_requestb r = true -> valid_request r.
Proof. unfold valid_requestb, valid_request. rewrite !andb_true_iff. intros [[H1 H2] H3]. split; [|split]; now apply legal_spec. Qed.

Example C72_example :
  u_ok ex_hu /\ http_aggs_in ex_ha (u_aggs ex_hu) /\
  (exists g1 g, (forall p w m, nth_error (all_http_views ex_ha) p = Some w -> hregistered_since true ex_hu p (v_name w) m ex_hacts1 g1 ex_hacts2 g) /\
     requests_ok true g /\ requests_ok false g /\ (forall x, In x (hp_reqs g) -> in_range x) /\ length (hp_reqs g) = 3 /\
     length (since VcCompletedCount (bs "GET") 200 g1 g) = 1 /\ length (since VcCompletedCount (bs "POST") 500 g1 g) = 1 /\
     length (since VcRequestCount [] 0 g1 g) = 1 /\ length (since VsLatency [] 0 g1 g) = 1) /\
  h_shown (bs "opencensus.io/http/client/completed_count") (hex_run ex_hacts1 ex_hacts2) =
    Some [([(bs "http_client_method", bs "GET"); (bs "http_client_status", bs "200")], (1%Z, []));
          ([(bs "http_client_method", bs "POST"); (bs "http_client_status", bs "500")], (1%Z, []))] /\
  h_shown (bs "opencensus.io/http/client/request_count") (hex_run ex_hacts1 ex_hacts2) = Some [([], (1%Z, []))] /\
  h_shown (bs "opencensus.io/http/server/response_count_by_status_code") (hex_run ex_hacts1 ex_hacts2) = Some [([(bs "http.status", bs "404")], (1%Z, []))] /\
  h_shown (bs "opencensus.io/http/client/response_bytes") (hex_run ex_hacts1 ex_hacts2) =
    Some [([], (2%Z, [1; 0; 1; 0; 0; 0; 0; 0; 0; 0; 0; 0; 0; 0]%Z))].
Proof.
  split; [exact ex_hu_ok|]. split; [repeat split; reflexivity|]. split; [|split; [|split; [|split]]; vm_compute; reflexivity].
  assert (X : match hex_run ex_hacts1 ex_hacts2 with
              | Some (g1, g) =>
                  match w_views (pc_worker (hp_proc g1)) with
                  | [] =>
                      (forallb (fun x => valid_requestb (hq_req x)) (hp_reqs g), forallb in_rangeb (hp_reqs g), length (hp_reqs g),
                       length (since VcCompletedCount (bs "GET") 200 g1 g), length (since VcCompletedCount (bs "POST") 500 g1 g), length (since VcRequestCount [] 0 g1 g), length (since VsLatency [] 0 g1 g)) =
                      (true, true, 3, 1, 1, 1, 1)
                  | _ => False
                  end
              | None => False
              end) by (vm_compute; reflexivity).
  destruct (hex_run ex_hacts1 ex_hacts2) as [[g1 g]|] eqn:E; [|contradiction]. exists g1, g.
  destruct (w_views (pc_worker (hp_proc g1))) eqn:Ew; [|contradiction]. injection X as X1 X2 X3 X4 X5 X6 X7. rewrite forallb_forall in X1, X2.
  split.
  { intros p w m Hv. eapply hex_since; [| |exact E|exact Ew| |exact Hv]; vm_compute; reflexivity. }
  split; [intros x Hx _; apply valid_requestb_ok; auto|]. split; [intros x Hx _; apply valid_requestb_ok; auto|]. split; [intros x Hx; apply in_rangeb_ok; auto|]. auto.
Qed.

(** If the path of a request is not a legal tag value, RoundTrip does not tag it: it is
    shown with the tags of the context it is made with.  A handler of a POST makes a GET of
    a path of 256 bytes; the view shows a POST by the client, which there was none. *)
Definition ex_get_long : hact := HRoundTrip ex_tr ex_long 1 (ex_map (server_tags ex_post)) [[]] ex_sc (BaseErr (bs "refused")) 0%Z 9%Z.
Definition ex_hacts3 : list hact :=
  ex_serve [] :: ex_get_long :: hsteps 1 (ex_calls ex_get_long) (server_tags ex_post) 9%Z.
Theorem C72_method_refuted : exists g1 g t,
  hregistered_since true ex_hu 8 (bs "opencensus.io/http/client/request_count_by_method") (hmeasure VcCountByMethod) [] g1 ex_hacts3 g /\
  (forall x, In x (hp_reqs g) -> client_side x = true -> rq_method (hq_req x) = bs "GET") /\
  exists rows, hshows id_order g (bs "opencensus.io/http/client/request_count_by_method") rows /\
    In ([(bs "http.method", bs "POST")], CountD t 1%Z) rows.
Proof.
  assert (X : match hex_run [] ex_hacts3 with
              | Some (g1, g) =>
                  match w_views (pc_worker (hp_proc g1)) with
                  | [] => forallb (fun x => negb (client_side x) || bytes_eqb (rq_method (hq_req x)) (bs "GET")) (hp_reqs g) = true /\
                      match handle_retrieve id_order (pc_worker (hp_proc g)) (bs "opencensus.io/http/client/request_count_by_method") with
                      | Some (Some [(tags, CountD _ n)]) => tags = [(bs "http.method", bs "POST")] /\ n = 1%Z
                      | _ => False
                      end
                  | _ => False
                  end
              | None => False
              end) by (vm_compute; repeat split; reflexivity).
  destruct (hex_run [] ex_hacts3) as [[g1 g]|] eqn:E; [|contradiction]. destruct (w_views (pc_worker (hp_proc g1))) eqn:Ew; [|contradiction].
  destruct X as (X1 & X3).
  destruct (handle_retrieve id_order (pc_worker (hp_proc g)) (bs "opencensus.io/http/client/request_count_by_method")) as [[rows|]|] eqn:Eh; [|contradiction|contradiction].
  destruct rows as [|[tags d] [|]]; [contradiction| |destruct d; contradiction]. destruct d as [t n|? ?|?|?]; try contradiction.
  destruct X3 as [-> ->]. exists g1, g, t. split; [|split].
  - eapply (hex_since [] ex_hacts3 g1 g 8 (hcv_request_count_by_method ex_ha)); [| |exact E|exact Ew| |]; vm_compute; reflexivity.
  - intros x Hx Hc. rewrite forallb_forall in X1. specialize (X1 x Hx). rewrite Hc in X1. cbn [negb orb] in X1. destruct (bytes_eqb_spec (rq_method (hq_req x)) (bs "GET")); [assumption|discriminate].
  - eexists. split; [unfold hshows; cbn [handle]; rewrite Eh; reflexivity|]. left. reflexivity.
Qed.

(** If a handler sets a route that is not a legal tag value, its request is counted when
    it begins, but no view of the server ever shows that it was answered. *)
Definition ex_bad_route : list hop := [HSetRoute (bs "/caf" ++ [n2b 195; n2b 169]); HHeader 404].
Definition ex_hacts4 : list hact := ex_serve ex_bad_route :: hsteps 0 (ex_calls (ex_serve ex_bad_route)) (server_tags ex_post) 7000000%Z.
Theorem C72_route_refuted : exists g1 g t,
  (forall p w m, nth_error (all_http_views ex_ha) p = Some w -> hregistered_since true ex_hu p (v_name w) m [] g1 ex_hacts4 g) /\
  (exists x, hp_reqs g = [x] /\ client_side x = false /\ hq_todo x = [] /\ hstatus x = 404%Z) /\
  hshows id_order g (bs "opencensus.io/http/server/request_count") [([], CountD t 1%Z)] /\
  hshows id_order g (bs "opencensus.io/http/server/response_count_by_status_code") [] /\
  hshows id_order g (bs "opencensus.io/http/server/latency") [].
Proof.
  assert (X : match hex_run [] ex_hacts4 with
              | Some (g1, g) =>
                  match w_views (pc_worker (hp_proc g1)), hp_reqs g with
                  | [], [x] => (client_side x, hq_todo x, hstatus x) = (false, [], 404%Z) /\
                      match handle_retrieve id_order (pc_worker (hp_proc g)) (bs "opencensus.io/http/server/request_count") with
                      | Some (Some [(tags, CountD _ n)]) => tags = [] /\ n = 1%Z
                      | _ => False
                      end /\
                      match handle_retrieve id_order (pc_worker (hp_proc g)) (bs "opencensus.io/http/server/response_count_by_status_code") with Some (Some []) => True | _ => False end /\
                      match handle_retrieve id_order (pc_worker (hp_proc g)) (bs "opencensus.io/http/server/latency") with Some (Some []) => True | _ => False end
                  | _, _ => False
                  end
              | None => False
              end) by (vm_compute; repeat split; reflexivity).
  destruct (hex_run [] ex_hacts4) as [[g1 g]|] eqn:E; [|contradiction]. destruct (w_views (pc_worker (hp_proc g1))) eqn:Ew; [|contradiction].
  destruct (hp_reqs g) as [|x [|]] eqn:Er; try contradiction. destruct X as (X1 & X2 & X3 & X4). injection X1 as A1 A2 A3.
  destruct (handle_retrieve id_order (pc_worker (hp_proc g)) (bs "opencensus.io/http/server/request_count")) as [[rows|]|] eqn:Eh; [|contradiction|contradiction].
  destruct rows as [|[tags d] [|]]; [contradiction| |destruct d; contradiction]. destruct d as [t n|? ?|?|?]; try contradiction. destruct X2 as [-> ->].
  exists g1, g, t. split; [|split; [|split; [|split]]].
  - clear - E Ew. intros p w m Hv. eapply hex_since; [| |exact E|exact Ew| |exact Hv]; vm_compute; reflexivity.
  - exists x. auto.
  - unfold hshows. cbn [handle]. now rewrite Eh.
  - clear - X3. unfold hshows. cbn [handle]. destruct (handle_retrieve id_order _ _) as [[[|]|]|]; [reflexivity|contradiction..].
  - clear - X4. unfold hshows. cbn [handle]. destruct (handle_retrieve id_order _ _) as [[[|]|]|]; [reflexivity|contradiction..].
Qed.

Print Assumptions C72_count.
Print Assumptions C72_distribution.
Print Assumptions C72_buckets.
Print Assumptions C72_views.
Print Assumptions C72_metrics.
Print Assumptions C72_no_panic.
Print Assumptions C72_history.
Print Assumptions C72_method_refuted.
Print Assumptions C72_route_refuted.
