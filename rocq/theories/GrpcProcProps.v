(** What the views of plugin/ocgrpc show. *)

From Coq Require Import String.
From Coq Require Import List Arith NArith ZArith Bool Lia Permutation.
From Verif Require Import Base ListLib GoMap GoSort Text Float64 TagModel TagSpec TagProofs TagProps AggModel AggSpec AggProofs AggProps CollectorSpec CollectorProofs
  ViewModel WorkerModel WorkerSpec RecordModel RecordProps ProcessModel ProcessSpec ProcessProofs ProcessProps
  TraceTypes TraceModel HttpModel HttpSpec HttpProofs GrpcModel GrpcSpec GrpcProofs GrpcProps GrpcProcModel GrpcProcSpec GrpcProcProofs GrpcViewProofs
  FloatInt FloatDiv.
From Verif Require Import WorkerProps.
Import ListNotations.
Open Scope nat_scope.

Lemma since_evolves u v n m g1 acts g : registered_since u v n m g1 acts g ->
  forall r x1, nth_error (gp_rpcs g1) r = Some x1 -> exists x, nth_error (gp_rpcs g) r = Some x /\ evolves x1 x.
Proof. intros (acts1 & o1 & o0 & ps1 & ps2 & now & _ & _ & E2 & _). exact (run_evolves _ _ _ E2). Qed.
Lemma since_methods u v n m g1 acts g : registered_since u v n m g1 acts g -> methods_ok (gp_rpcs g) -> methods_ok (gp_rpcs g1).
Proof. intros (acts1 & o1 & o0 & ps1 & ps2 & now & _ & _ & E2 & _). eapply methods_ok_before; eauto. Qed.

(** A view that counts. *)
Lemma count_rows u v n m g1 acts g o sv keys sig :
  u_ok u -> registered_since u v n m g1 acts g -> spec_view u v = Some sv -> sv_name sv = n -> me_name (sv_measure sv) = m -> sv_keys sv = keys ->
  sv_agg sv = @AggCount f64_num ->
  (forall ts g', (forall x, In x (gp_rpcs g') -> rpc_inv ts x) -> (g' = g \/ g' = g1) -> map fst (contribs (st_heap ts) keys m g') = done_sig sig g') ->
  (forall rc ev, length (sig rc ev) <= 1) -> (Z.of_nat (length (calls_done g)) < 2 ^ 63)%Z ->
  exists rows k, shows o g n rows /\ NoDup (map fst rows) /\
    (forall tags, tcount tags (done_sig sig g) = tcount tags (done_sig sig g1) + k tags) /\
    (forall tags, k tags = 0 -> ~ In tags (map fst rows)) /\
    (forall tags, k tags <> 0 -> exists t, In (tags, CountD t (Z.of_nat (k tags))) rows) /\
    (forall tags d, In (tags, d) rows -> k tags <> 0 /\ exists t, d = CountD t (Z.of_nat (k tags))).
Proof.
  intros U H Es En Em Ek Ea Hsig Hone Hlen. destruct (grpc_rows u v n m g1 acts g o sv U H Es En Em) as (HG & HG1 & rows & ss & R & G & P).
  rewrite Ek in P. exists rows, (fun tags => with_row_tags tags ss). split; [exact R|]. split; [exact (proj1 G)|].
  assert (P' : Permutation (done_sig sig g) (done_sig sig g1 ++ map fst (map pv ss))).
  { rewrite <- (Hsig _ g HG) by now left. rewrite <- (Hsig _ g1 HG1) by now right. rewrite <- map_app. now apply Permutation_map. }
  assert (Hss : (Z.of_nat (length ss) < 2 ^ 63)%Z).
  { apply Permutation_length in P'. rewrite app_length, !map_length in P'.
    assert (L : length (done_sig sig g) <= length (calls_done g)).
    { unfold done_sig. clear -Hone. induction (calls_done g) as [|[rc ev] l IH]; [cbn; lia|]. cbn [flat_map fst snd]. rewrite app_length. specialize (Hone rc ev). cbn [length]. lia. }
    lia. }
  rewrite Ea in G.
  split; [intros tags; rewrite with_row_tags_count, <- tcount_app; now apply tcount_perm|].
  split; [intros tags; apply (C69_count ss rows tags Hss G)|].
  split; [intros tags; apply (C69_count ss rows tags Hss G)|].
  intros tags d Hin. split; [|now apply (C69_count ss rows tags Hss G)].
  intros Hz. apply (proj1 (C69_count ss rows tags Hss G) Hz). apply in_map_iff. exists (tags, d). auto.
Qed.

Lemma spec_view_count u v name desc keys me ap :
  nth_error (u_views u) v = Some (MkView name desc keys (Some me) (Some ap)) -> nth_error (u_aggs u) ap = Some AggCount ->
  or_else name (me_name me) = name -> (length name <=? 255) && forallb printable name = true -> isort bytes_ltb keys = keys ->
  exists sv, spec_view u v = Some sv /\ sv_name sv = name /\ sv_measure sv = me /\ sv_keys sv = keys /\ sv_agg sv = @AggCount f64_num.
Proof.
  intros E1 E2 E3 E4 E5. unfold spec_view. rewrite E1. cbn [v_measure v_agg v_name v_keys v_desc]. rewrite E3, E4, E2, E5. cbn [spec_agg].
  eexists. split; [reflexivity|]. repeat split.
Qed.

(** ** Completed RPCs *)

Definition completed_view (client : bool) (ga : grpc_aggs) : view := if client then gcv_completed ga else gsv_completed ga.
Definition started_view (client : bool) (ga : grpc_aggs) : view := if client then gcv_started ga else gsv_started ga.
Definition method_key (client : bool) : key := if client then bs "grpc_client_method" else bs "grpc_server_method".
Definition status_key (client : bool) : key := if client then bs "grpc_client_status" else bs "grpc_server_status".
Definition latency_name (client : bool) : bytes := if client then bs "grpc.io/client/roundtrip_latency" else bs "grpc.io/server/server_latency".
Definition started_name (client : bool) : bytes := if client then bs "grpc.io/client/started_rpcs" else bs "grpc.io/server/started_rpcs".

(** The view of completed RPCs has one row for each method and status with which RPCs have
    completed since it was registered, and shows their number. *)
Theorem C70_completed client u ga v g1 acts g o :
  u_ok u -> grpc_aggs_in ga (u_aggs u) -> nth_error (u_views u) v = Some (completed_view client ga) ->
  registered_since u v (v_name (completed_view client ga)) (latency_name client) g1 acts g ->
  (client = false -> server_methods_ok g) -> (Z.of_nat (length (calls_done g)) < 2 ^ 63)%Z ->
  exists rows, shows o g (v_name (completed_view client ga)) rows /\ NoDup (map fst rows) /\
    (forall m st, valid_value m ->
       let row := shown_tags [(method_key client, m); (status_key client, st)] in
       exists k, completed client m st g = completed client m st g1 + k /\
         (k = 0 -> ~ In row (map fst rows)) /\ (k <> 0 -> exists t, In (row, CountD t (Z.of_nat k)) rows)) /\
    (forall row d, In (row, d) rows -> exists m st, valid_value m /\ row = shown_tags [(method_key client, m); (status_key client, st)]).
Proof.
  intros U (_ & _ & _ & HA) Ev H Hv Hlen.
  assert (Hsv : exists sv, spec_view u v = Some sv /\ sv_name sv = v_name (completed_view client ga) /\ sv_measure sv = m_latency client /\
                           sv_keys sv = [key_m client; key_s client] /\ sv_agg sv = @AggCount f64_num).
  { destruct client; eapply spec_view_count; eauto; reflexivity. }
  destruct Hsv as (sv & Es & En & Em & Ek & Ea).
  destruct (count_rows u v _ _ g1 acts g o sv [key_m client; key_s client] (end_sig client) U H Es En)
    as (rows & k & R & N & K0 & K1 & K2 & K3); try assumption.
  - rewrite Em. destruct client; reflexivity.
  - intros ts g' HR Hg. replace (latency_name client) with (me_name (m_latency client)) by (destruct client; reflexivity).
    apply contribs_end; [exact HR|]. intros Ec. specialize (Hv Ec). apply methods_ok_spec in Hv.
    destruct Hg as [-> | ->]; [exact Hv|]. eapply since_methods; eauto.
  - intros rc ev. unfold end_sig. destruct (rc_data rc) as [[t0 full]|]; [|cbn; lia]. destruct ev as [| | |c e now|]; try (cbn; lia). destruct (_ && _); cbn; lia.
  - assert (Emk : method_key client = key_m client) by (destruct client; reflexivity). assert (Esk : status_key client = key_s client) by (destruct client; reflexivity).
    exists rows. split; [exact R|]. split; [exact N|]. rewrite Emk, Esk. split.
    + intros m st Hm row. exists (k row). split; [|split; [apply K1|apply K2]].
      specialize (K0 row). unfold row in K0 at 1 2. now rewrite !done_end in K0 by exact Hm.
    + intros row d Hin. destruct (K3 row d Hin) as [Hk _]. specialize (K0 row).
      assert (Hc : tcount row (done_sig (end_sig client) g) <> 0) by lia. apply tcount_zero in Hc. unfold done_sig in Hc. apply in_flat_map in Hc.
      destruct Hc as ([rc ev] & _ & Hc). cbn [fst snd] in Hc. unfold end_sig in Hc. destruct (rc_data rc) as [[t0 full]|]; [|destruct Hc].
      destruct ev as [| | |c e now|]; try destruct Hc. destruct (Bool.eqb c client && legal (method_name full)) eqn:E; [|destruct Hc]. destruct Hc as [<-|[]].
      apply andb_true_iff in E. exists (method_name full), (status_tag e). split; [now apply legal_spec|reflexivity].
Qed.

(** ** Started RPCs *)

Theorem C70_started client u ga v g1 acts g o :
  u_ok u -> grpc_aggs_in ga (u_aggs u) -> nth_error (u_views u) v = Some (started_view client ga) ->
  registered_since u v (v_name (started_view client ga)) (started_name client) g1 acts g ->
  (client = false -> server_methods_ok g) -> (Z.of_nat (length (calls_done g)) < 2 ^ 63)%Z ->
  exists rows, shows o g (v_name (started_view client ga)) rows /\ NoDup (map fst rows) /\
    (forall m, valid_value m ->
       let row := shown_tags [(method_key client, m)] in
       exists k, started client m g = started client m g1 + k /\
         (k = 0 -> ~ In row (map fst rows)) /\ (k <> 0 -> exists t, In (row, CountD t (Z.of_nat k)) rows)) /\
    (forall row d, In (row, d) rows -> exists m, valid_value m /\ row = shown_tags [(method_key client, m)]).
Proof.
  intros U (_ & _ & _ & HA) Ev H Hv Hlen.
  assert (Hsv : exists sv, spec_view u v = Some sv /\ sv_name sv = v_name (started_view client ga) /\ sv_measure sv = m_started client /\
                           sv_keys sv = [key_m client] /\ sv_agg sv = @AggCount f64_num).
  { destruct client; eapply spec_view_count; eauto; reflexivity. }
  destruct Hsv as (sv & Es & En & Em & Ek & Ea).
  destruct (count_rows u v _ _ g1 acts g o sv [key_m client] (begin_sig client) U H Es En)
    as (rows & k & R & N & K0 & K1 & K2 & K3); try assumption.
  - rewrite Em. destruct client; reflexivity.
  - intros ts g' HR Hg. replace (started_name client) with (me_name (m_started client)) by (destruct client; reflexivity).
    apply contribs_begin; [exact HR|]. intros Ec. specialize (Hv Ec). apply methods_ok_spec in Hv.
    destruct Hg as [-> | ->]; [exact Hv|]. eapply since_methods; eauto.
  - intros rc ev. unfold begin_sig. destruct (rc_data rc) as [[t0 full]|]; [|cbn; lia]. destruct ev as [c ff| | | |]; try (cbn; lia). destruct (_ && _); cbn; lia.
  - assert (Emk : method_key client = key_m client) by (destruct client; reflexivity).
    exists rows. split; [exact R|]. split; [exact N|]. rewrite Emk. split.
    + intros m Hm row. exists (k row). split; [|split; [apply K1|apply K2]].
      specialize (K0 row). unfold row in K0 at 1 2. now rewrite !done_begin in K0 by exact Hm.
    + intros row d Hin. destruct (K3 row d Hin) as [Hk _]. specialize (K0 row).
      assert (Hc : tcount row (done_sig (begin_sig client) g) <> 0) by lia. apply tcount_zero in Hc. unfold done_sig in Hc. apply in_flat_map in Hc.
      destruct Hc as ([rc ev] & _ & Hc). cbn [fst snd] in Hc. unfold begin_sig in Hc. destruct (rc_data rc) as [[t0 full]|]; [|destruct Hc].
      destruct ev as [c ff| | | |]; try destruct Hc. destruct (Bool.eqb c client && legal (method_name full)) eqn:E; [|destruct Hc]. destruct Hc as [<-|[]].
      apply andb_true_iff in E. exists (method_name full). split; [now apply legal_spec|reflexivity].
Qed.

(** ** Sizes and latencies *)

Definition dname (client : bool) (k : dkind) : bytes :=
  bs (if client then "grpc.io/client/" else "grpc.io/server/") ++
  bs match k with
     | DSentBytes => "sent_bytes_per_rpc" | DRecvBytes => "received_bytes_per_rpc"
     | DSentMessages => "sent_messages_per_rpc" | DRecvMessages => "received_messages_per_rpc"
     | DLatency => if client then "roundtrip_latency" else "server_latency"
     end.

Lemma dname_measure client k : me_name (d_measure client k) = dname client k.
Proof. destruct client, k; reflexivity. Qed.
Lemma dname_view client ga k : v_name (dview client ga k) = dname client k.
Proof. destruct client, k; reflexivity. Qed.

Lemma spec_bounds k : spec_agg (@AggDist f64_num (dbounds k)) = Some (AggDist (dbounds k)).
Proof.
  unfold spec_agg. assert (E : existsb (fun b => f_ltb b f_zero) (dbounds k) = false) by (destruct k; vm_compute; reflexivity). rewrite E.
  do 2 f_equal. destruct k; vm_compute; reflexivity.
Qed.

Lemma spec_view_dist u v name desc keys me ap k :
  nth_error (u_views u) v = Some (MkView name desc keys (Some me) (Some ap)) -> nth_error (u_aggs u) ap = Some (AggDist (dbounds k)) ->
  or_else name (me_name me) = name -> (length name <=? 255) && forallb printable name = true -> isort bytes_ltb keys = keys ->
  exists sv, spec_view u v = Some sv /\ sv_name sv = name /\ sv_measure sv = me /\ sv_keys sv = keys /\ sv_agg sv = AggDist (dbounds k).
Proof.
  intros E1 E2 E3 E4 E5. unfold spec_view. rewrite E1. cbn [v_measure v_agg v_name v_keys v_desc]. rewrite E3, E4, E2, E5, spec_bounds.
  eexists. split; [reflexivity|]. repeat split.
Qed.

Lemma bytes_spec : bytes_bounds = dbounds DSentBytes.
Proof. vm_compute. reflexivity. Qed.
Lemma msgs_spec : msgs_bounds = dbounds DSentMessages.
Proof. vm_compute. reflexivity. Qed.
Lemma ms_spec : ms_bounds = dbounds DLatency.
Proof. vm_compute. reflexivity. Qed.

Lemma dview_spec client u ga v k : grpc_aggs_in ga (u_aggs u) -> nth_error (u_views u) v = Some (dview client ga k) ->
  exists sv, spec_view u v = Some sv /\ sv_name sv = dname client k /\ sv_measure sv = d_measure client k /\ sv_keys sv = [key_m client] /\
             sv_agg sv = AggDist (dbounds k).
Proof.
  intros (A1 & A2 & A3 & _) Ev. rewrite bytes_spec in A1. rewrite ms_spec in A2. rewrite msgs_spec in A3.
  assert (A1' : nth_error (u_aggs u) (ga_bytes ga) = Some (AggDist (dbounds DRecvBytes))) by exact A1.
  assert (A3' : nth_error (u_aggs u) (ga_msgs ga) = Some (AggDist (dbounds DRecvMessages))) by exact A3.
  clear - A1 A2 A3 A1' A3' Ev.
  destruct client, k; (eapply spec_view_dist; [exact Ev|assumption|reflexivity|reflexivity|reflexivity]).
Qed.

(** The row of a method aggregates the values of the RPCs of that method that have
    finished since the registration, each once. *)
Theorem C70_distribution client k u ga v g1 acts g o :
  u_ok u -> grpc_aggs_in ga (u_aggs u) -> nth_error (u_views u) v = Some (dview client ga k) ->
  registered_since u v (dname client k) (dname client k) g1 acts g ->
  (client = false -> server_methods_ok g) -> (forall x, In x (gp_rpcs g) -> orderly x) ->
  exists rows, shows o g (dname client k) rows /\ NoDup (map fst rows) /\
    (forall m, valid_value m ->
       let row := shown_tags [(method_key client, m)] in
       let rpcs := finished_since client m g1 g in
       (rpcs = [] -> ~ In row (map fst rows)) /\
       (rpcs <> [] -> exists t ss, In (row, aggregate (AggDist (dbounds k)) t ss) rows /\ Permutation (values ss) (map (dvalue k) rpcs))) /\
    (forall row d, In (row, d) rows -> exists m, valid_value m /\ row = shown_tags [(method_key client, m)]).
Proof.
  intros U HA Ev H Hv Ho. destruct (dview_spec client u ga v k HA Ev) as (sv & Es & En & Em & Ek & Ea).
  destruct (grpc_rows u v _ _ g1 acts g o sv U H Es En) as (HG & HG1 & rows & ss & R & [N G] & P); [now rewrite Em, dname_measure|].
  rewrite Ek, Ea in *. rewrite <- dname_measure in P.
  assert (Hmo : client = false -> methods_ok (gp_rpcs g)) by (intros Ec; apply methods_ok_spec; auto).
  pose proof (contribs_d (pc_tags (gp_proc g)) client k g1 g (since_evolves _ _ _ _ _ _ _ H) (fun x Hx => conj (HG x Hx) (Ho x Hx)) Hmo) as P2.
  assert (P3 : Permutation (map pv ss) (flat_map (d_entry client k) (newly_finished (gp_rpcs g1) (gp_rpcs g)))).
  { eapply Permutation_app_inv_l. etransitivity; [symmetry; exact P|exact P2]. }
  assert (Emk : method_key client = key_m client) by (destruct client; reflexivity). rewrite Emk.
  assert (Hrow : forall tags, Permutation (values (map snd (filter (fun x => tags_eqb (fst x) tags) ss)))
    (map snd (filter (fun e => tags_eqb (fst e) tags) (flat_map (d_entry client k) (newly_finished (gp_rpcs g1) (gp_rpcs g)))))).
  { intros tags. replace (values (map snd (filter (fun x => tags_eqb (fst x) tags) ss))) with (map snd (filter (fun e => tags_eqb (fst e) tags) (map pv ss))).
    - apply Permutation_map. clear - P3. induction P3; cbn [filter]; try (destruct (tags_eqb _ _)); try (destruct (tags_eqb _ _)); auto using perm_swap, perm_skip. eapply perm_trans; eauto.
    - clear. unfold values. induction ss as [|[t s] ss IH]; [reflexivity|]. cbn [map filter pv fst]. destruct (tags_eqb t tags); cbn [map snd]; now rewrite IH. }
  exists rows. split; [exact R|]. split; [exact N|]. split.
  - intros m Hm row rpcs. specialize (Hrow row). unfold row in Hrow at 2. rewrite (d_row client k m _ Hm) in Hrow. fold (finished_since client m g1 g) in Hrow. fold rpcs in Hrow. split.
    + intros Hn Hin. rewrite Hn in Hrow. apply Permutation_sym, Permutation_nil in Hrow. apply in_map_iff in Hin. destruct Hin as ([t d] & E & Hin). cbn [fst] in E. rewrite E in Hin. clear E t.
      apply G in Hin. destruct Hin as (s0 & rest & E & _). rewrite E in Hrow. discriminate.
    + intros Hn. destruct (map snd (filter (fun x => tags_eqb (fst x) row) ss)) as [|s0 rest] eqn:E.
      * exfalso. apply Permutation_nil in Hrow. apply map_eq_nil in Hrow. contradiction.
      * exists (s_time s0), (s0 :: rest). split; [|exact Hrow]. apply G. exists s0, rest. auto.
  - intros row d Hin. apply G in Hin. destruct Hin as (s0 & rest & E & _). specialize (Hrow row). rewrite E in Hrow.
    assert (Hin : In (s_value s0) (map snd (filter (fun e => tags_eqb (fst e) row) (flat_map (d_entry client k) (newly_finished (gp_rpcs g1) (gp_rpcs g)))))).
    { eapply Permutation_in; [exact Hrow|]. now left. }
    apply in_map_iff in Hin. destruct Hin as ([t f] & _ & Hin). apply filter_In in Hin. destruct Hin as [Hin Ht]. cbn [fst] in Ht.
    destruct (tags_eqb_spec t row) as [->|]; [|discriminate]. apply in_flat_map in Hin. destruct Hin as (x & _ & Hx). unfold d_entry in Hx.
    destruct (rc_data (gr_ctx x)) as [[t0 full]|]; [|destruct Hx]. destruct (Bool.eqb (gr_client x) client && legal (method_name full)) eqn:El; [|destruct Hx].
    destruct Hx as [Hx|[]]. injection Hx as <- _. apply andb_true_iff in El. exists (method_name full). split; [now apply legal_spec|reflexivity].
Qed.

Definition good_boundsb (l : list f64) : bool :=
  forallb (fun b => SpecFloat.valid_binary 53 1024 b && negb (is_nan b)) l &&
  (fix sorted (l : list f64) := match l with a :: r => forallb (fun b => (f_num a <=? f_num b)%Z) r && sorted r | [] => true end) l.
Lemma good_boundsb_ok l : good_boundsb l = true -> good_bounds l.
Proof.
  unfold good_boundsb, good_bounds. rewrite andb_true_iff, forallb_forall, Forall_forall. intros [H1 H2]. split.
  - intros b Hb. specialize (H1 b Hb). apply andb_true_iff in H1. destruct H1 as [H1 H3]. split; [exact H1|]. now destruct (is_nan b).
  - clear H1. induction l as [|a r IH]; constructor; apply andb_true_iff in H2; destruct H2 as [H2 H3]; [now apply IH|].
    rewrite forallb_forall in H2. rewrite Forall_forall. intros b Hb. apply Z.leb_le. auto.
Qed.

Lemma dbounds_good k : good_bounds (dbounds k).
Proof. apply good_boundsb_ok. destruct k; vm_compute; reflexivity. Qed.

Lemma dvalue_valid k x : f_valid (dvalue k x).
Proof.
  destruct k; cbn [dvalue]; try apply f_of_Z_valid. destruct (rc_data (gr_ctx x)) as [[t0 full]|]; [|reflexivity].
  destruct (end_time (calls_made x)); [|reflexivity]. unfold ms_between. apply f_div_valid; apply f_of_Z_valid.
Qed.

Lemma count_if_perm {A} (p : A -> bool) l l' : Permutation l l' -> count_if p l = count_if p l'.
Proof. unfold count_if. induction 1; cbn [filter]; try (destruct (p x)); try (destruct (p y)); cbn [length]; lia. Qed.
Lemma count_if_map {A B} (p : B -> bool) (f : A -> B) l : count_if p (map f l) = count_if (fun x => p (f x)) l.
Proof. unfold count_if. induction l as [|a l IH]; [reflexivity|]. cbn [map filter]. destruct (p (f a)); cbn [length]; lia. Qed.

(** The histogram of a method: bucket [i] counts the RPCs whose value is in its interval. *)
Theorem C70_buckets client k u ga v g1 acts g o :
  u_ok u -> grpc_aggs_in ga (u_aggs u) -> nth_error (u_views u) v = Some (dview client ga k) ->
  registered_since u v (dname client k) (dname client k) g1 acts g ->
  (client = false -> server_methods_ok g) -> (forall x, In x (gp_rpcs g) -> orderly x) ->
  exists rows, shows o g (dname client k) rows /\
    forall m, valid_value m ->
      let rpcs := finished_since client m g1 g in
      rpcs <> [] -> (Z.of_nat (length rpcs) < 2 ^ 63)%Z ->
      exists d, In (shown_tags [(method_key client, m)], DistD d) rows /\
        d_count d = Z.of_nat (length rpcs) /\ d_bounds d = dbounds k /\
        forall i, i <= length (dbounds k) -> nth_error (d_cpb d) i = Some (count_if (fun x => falls_in (dbounds k) i (dvalue k x)) rpcs).
Proof.
  intros U HA Ev H Hv Ho. destruct (C70_distribution client k u ga v g1 acts g o U HA Ev H Hv Ho) as (rows & R & _ & Hr & _).
  exists rows. split; [exact R|]. intros m Hm rpcs Hn Hlen. destruct (proj2 (Hr m Hm) Hn) as (t & ss & Hin & P). fold rpcs in P.
  assert (L : length ss = length rpcs) by (apply Permutation_length in P; unfold values in P; now rewrite !map_length in P).
  destruct (C08_buckets (dbounds k) t ss (dbounds_good k)) as (d & E & Ec & Eb).
  - rewrite Forall_forall. intros f Hf. eapply Permutation_in in Hf; [|exact P]. apply in_map_iff in Hf. destruct Hf as (x & <- & _). apply dvalue_valid.
  - now rewrite L.
  - destruct (C08_shape (dbounds k) t ss) as (d' & E' & _ & _ & Ebd & _). rewrite E in E'. injection E' as <-.
    exists d. rewrite E in Hin. split; [exact Hin|]. split; [now rewrite Ec, L|]. split; [exact Ebd|]. intros i Hi. rewrite (Eb i Hi).
    now rewrite (count_if_perm _ _ _ P), count_if_map.
Qed.

(** ** The view of latency as reported by servers *)

(** Nothing records its measure: it never has a row. *)
Theorem C70_server_latency_never u ga v g1 acts g o :
  u_ok u -> grpc_aggs_in ga (u_aggs u) -> nth_error (u_views u) v = Some (gcv_server_latency ga) ->
  registered_since u v (bs "grpc.io/client/server_latency") (bs "grpc.io/client/server_latency") g1 acts g ->
  shows o g (bs "grpc.io/client/server_latency") [].
Proof.
  intros U (A1 & A2 & A3 & A4) Ev H. rewrite ms_spec in A2.
  destruct (spec_view_dist u v _ _ _ _ _ DLatency Ev A2) as (sv & Es & En & Em & Ek & Ea); [reflexivity|reflexivity|reflexivity|].
  destruct (grpc_rows u v _ _ g1 acts g o sv U H Es En) as (HG & _ & rows & ss & R & [N G] & P); [now rewrite Em|].
  assert (Hz : contribs (st_heap (pc_tags (gp_proc g))) (sv_keys sv) (bs "grpc.io/client/server_latency") g = []).
  { unfold contribs. induction (gp_rpcs g) as [|x l IH]; [reflexivity|]. cbn [flat_map]. rewrite IH, app_nil_r. unfold rpc_contrib, rpc_recs.
    induction (g_threads (gr_state x)) as [|t r IHr]; [reflexivity|]. cbn [flat_map]. rewrite flat_map_app, IHr, app_nil_r. unfold thread_rec.
    destruct (gt_todo t); [|reflexivity]. destruct (rc_data (gr_ctx x)) as [[t0 full]|]; [|reflexivity]. destruct (gt_event t) as [c ff| | |c e now|]; try reflexivity; cbn [flat_map]; rewrite app_nil_r, vsamples_eq by reflexivity.
    - replace (picked _ _) with (@nil f64) by (destruct c; reflexivity). now destruct (forallb _ _).
    - replace (picked _ _) with (@nil f64); [now destruct (forallb _ _)|].
      change (given_ms (end_opts c t0 full (gr_ctx x) e now (gt_regs t))) with (end_measurements c (gt_regs t) (in_ms (time_sub now t0))).
      unfold end_measurements. rewrite picked_app. destruct c; destruct (gt_regs t) as [|q1 [|q2 [|q3 [|q4 q]]]]; reflexivity. }
  rewrite Hz in P. apply Permutation_nil, app_eq_nil in P. destruct P as [_ P]. apply map_eq_nil in P. subst ss.
  destruct rows as [|[t d] rows]; [exact R|]. destruct (proj1 (G t d) (or_introl eq_refl)) as (s0 & rest & E & _). discriminate.
Qed.

(** ** All views together *)

(** The views of the package are valid and have different names, so that they can be
    registered together. *)
Theorem C70_views u ga :
  grpc_aggs_in ga (u_aggs u) ->
  NoDup (map v_name (all_grpc_views ga)) /\
  (forall client, v_name (completed_view client ga) = (if client then bs "grpc.io/client/completed_rpcs" else bs "grpc.io/server/completed_rpcs") /\
                  v_name (started_view client ga) = started_name client /\ In (completed_view client ga) (all_grpc_views ga) /\ In (started_view client ga) (all_grpc_views ga) /\
                  forall k, v_name (dview client ga k) = dname client k /\ In (dview client ga k) (all_grpc_views ga)) /\
  forall p w, nth_error (u_views u) p = Some w -> In w (all_grpc_views ga) -> exists sv, spec_view u p = Some sv /\ sv_name sv = v_name w.
Proof.
  intros (A1 & A2 & A3 & A4). rewrite bytes_spec in A1. rewrite ms_spec in A2. rewrite msgs_spec in A3. split; [|split].
  - vm_compute. repeat (constructor; [cbn; intros Hin; decompose [or] Hin; try discriminate; assumption|]). constructor.
  - intros client. split; [now destruct client|]. split; [now destruct client|].
    split; [destruct client; cbn [completed_view all_grpc_views default_client_views default_server_views app]; repeat (first [left; reflexivity|right])|].
    split; [destruct client; cbn [started_view all_grpc_views default_client_views default_server_views app]; repeat (first [left; reflexivity|right])|].
    intros k. split; [now destruct client, k|]. destruct client, k; cbn [dview all_grpc_views default_client_views default_server_views app]; repeat (first [left; reflexivity|right]).
  - intros p w Ep Hin. cbn [all_grpc_views default_client_views default_server_views app In] in Hin. decompose [or] Hin; clear Hin; try contradiction; subst w;
      first [ destruct (spec_view_count u p _ _ _ _ _ Ep A4) as (sv & Es & En & _); [reflexivity|reflexivity|reflexivity|]; exists sv; split; [exact Es|exact En]
            | destruct (spec_view_dist u p _ _ _ _ _ DSentBytes Ep A1) as (sv & Es & En & _); [reflexivity|reflexivity|reflexivity|]; exists sv; split; [exact Es|exact En]
            | destruct (spec_view_dist u p _ _ _ _ _ DLatency Ep A2) as (sv & Es & En & _); [reflexivity|reflexivity|reflexivity|]; exists sv; split; [exact Es|exact En]
            | destruct (spec_view_dist u p _ _ _ _ _ DSentMessages Ep A3) as (sv & Es & En & _); [reflexivity|reflexivity|reflexivity|]; exists sv; split; [exact Es|exact En] ].
Qed.

(** What a Reader or exporter of metrics is told of each view. *)
Theorem C70_metrics u ga :
  grpc_aggs_in ga (u_aggs u) ->
  map (fun v => option_map (fun d => (md_name d, md_unit d, md_type d, md_keys d)) (view_to_metric_descriptor u v)) (all_grpc_views ga) =
  map Some grpc_metrics.
Proof.
  intros (A1 & A2 & A3 & A4). cbn [all_grpc_views default_client_views default_server_views app map].
  unfold view_to_metric_descriptor. cbn [v_measure v_agg]. repeat f_equal.
  all: cbn -[nth_error bs]; rewrite ?A1, ?A2, ?A3, ?A4; reflexivity.
Qed.

(** ** No panic *)

(** HandleRPC of an RPC that TagRPC has tagged does not panic, and neither does any of its
    steps. *)
Theorem C70_no_panic u acts g r x :
  u_ok u -> gpacts_ok u (gproc_init u) acts -> gproc_run (gproc_init u) acts = Some g -> nth_error (gp_rpcs g) r = Some x ->
  (forall ev it o now, exists g', gproc_step g (GRpc r (GCall ev) it o now) = Some g') /\
  (forall i t it o now, nth_error (g_threads (gr_state x)) i = Some t -> gt_todo t <> [] ->
     iterates (st_heap (pc_tags (gp_proc g))) (rc_tags (gr_ctx x)) it -> exists g', gproc_step g (GRpc r (GStep i) it o now) = Some g').
Proof.
  intros U Hok E Ex. destruct (grun_lower u acts [] (gproc_init u) g U (pinv_init u) (gpinv_init u) Hok E) as (_ & _ & HG & h & HI). cbn [app] in HI.
  pose proof (HG x (nth_error_In _ _ Ex)) as R. destruct (ri_run _ _ R) as (l & Hl). pose proof (never_panics _ l _ (ri_data _ _ R) Hl) as Hp.
  split.
  - intros ev it o now. cbn [gproc_step]. rewrite Ex. unfold grpc_step. rewrite Hp. cbn [g_panicked g_calls]. rewrite new_record_same. eauto.
  - intros i t it o now Et Hd Hit. cbn [gproc_step]. rewrite Ex.
    destruct (gt_todo t) as [|y rest] eqn:Etd; [contradiction|].
    assert (Es : grpc_step (gr_ctx x) (gr_state x) (GStep i) = Some (do_instr (gr_state x) i t y rest)) by (unfold grpc_step; now rewrite Hp, Et, Etd).
    rewrite Es.
    assert (Hl' : grpc_run (gr_ctx x) grpc_init (l ++ [GStep i]) = Some (do_instr (gr_state x) i t y rest)).
    { eapply run_app_intro; [exact Hl|]. cbn [grpc_run]. now rewrite Es. }
    rewrite (never_panics _ _ _ (ri_data _ _ R) Hl').
    destruct (rpc_step (gr_ctx x) l (gr_state x) (GStep i) _ (ri_data _ _ R) Hl Es) as [(En & _)|(xs & En & _ & Hrec)]; rewrite En; [eauto|].
    destruct (rec_of_ok _ _ _ Hrec) as [R1 R2].
    destruct (record_total u h (gp_proc g) (rc_tags (gr_ctx x)) it xs o now U HI) as (p' & Ep); [|rewrite Ep; eauto].
    split; [apply (ri_ctx _ _ R)|]. split; [exact Hit|]. split; assumption.
Qed.

(** ** The RPCs *)

(** What [gp_rpcs] says of an RPC is what gRPC did with it: its state is the one of
    GrpcModel after the calls and steps made for that RPC, in order, from the start. *)
Theorem C70_history u acts g r x :
  gproc_run (gproc_init u) acts = Some g -> nth_error (gp_rpcs g) r = Some x ->
  grpc_run (gr_ctx x) grpc_init (rpc_acts r acts) = Some (gr_state x).
Proof.
  assert (X : forall l g, gproc_run (gproc_init u) l = Some g ->
            (forall r x, nth_error (gp_rpcs g) r = Some x -> grpc_run (gr_ctx x) grpc_init (rpc_acts r l) = Some (gr_state x)) /\
            (forall r, length (gp_rpcs g) <= r -> rpc_acts r l = [])).
  { induction l as [|a l IH] using rev_ind; intros g' E.
    { injection E as <-. split; [|reflexivity]. intros r0 x0 H. destruct r0; discriminate. }
    assert (exists g0, gproc_run (gproc_init u) l = Some g0 /\ gproc_step g0 a = Some g') as (g0 & E0 & Es).
    { clear IH. revert E. generalize (gproc_init u). induction l as [|b l IHl]; intros s E; cbn [app gproc_run] in *.
      - exists s. split; [reflexivity|]. destruct (gproc_step s a); congruence.
      - destruct (gproc_step s b); [exact (IHl _ E) | discriminate]. }
    specialize (IH g0 E0). destruct IH as [I1 I2].
    assert (Happ : forall r, rpc_acts r (l ++ [a]) = rpc_acts r l ++ rpc_acts r [a]) by (intros; unfold rpc_acts; apply flat_map_app).
    assert (Hnew : forall cl rc p, rpc_acts 0 [a] = [] -> (forall r, rpc_acts r [a] = []) -> g' = MkGP p (gp_rpcs g0 ++ [MkRpc cl rc grpc_init]) ->
      (forall r x, nth_error (gp_rpcs g') r = Some x -> grpc_run (gr_ctx x) grpc_init (rpc_acts r (l ++ [a])) = Some (gr_state x)) /\
      (forall r, length (gp_rpcs g') <= r -> rpc_acts r (l ++ [a]) = [])).
    { intros cl rc p _ Hnil ->. cbn [gp_rpcs]. split.
      - intros r0 x0 Hx. rewrite Happ, Hnil, app_nil_r. destruct (Nat.lt_ge_cases r0 (length (gp_rpcs g0))) as [Hlt|Hge].
        + rewrite nth_error_app1 in Hx by exact Hlt. exact (I1 r0 x0 Hx).
        + rewrite nth_error_app2 in Hx by exact Hge. rewrite (I2 r0 Hge). destruct (r0 - length (gp_rpcs g0)) as [|j]; [|destruct j; discriminate].
          injection Hx as <-. reflexivity.
      - intros r0 Hr. rewrite Happ, Hnil, app_nil_r. apply I2. rewrite app_length in Hr. cbn in Hr. lia. }
    destruct a as [pa|smp info i it md wire sc now|h info it md wire sc now|r1 ga it o now]; cbn [gproc_step] in Es.
    - destruct (proc_step (gp_proc g0) pa) as [p|]; [|discriminate]. injection Es as <-. cbn [gp_rpcs].
      split; intros; rewrite Happ; cbn [rpc_acts flat_map]; rewrite app_nil_r; auto.
    - destruct (client_tag_rpc _ _ _ _ _ _ _ _ _) as [out|]; [|discriminate]. injection Es as <-. eapply Hnew; reflexivity.
    - destruct (server_tag_rpc _ _ _ _ _ _ _ _) as [out|]; [|discriminate]. injection Es as <-. eapply Hnew; reflexivity.
    - destruct (nth_error (gp_rpcs g0) r1) as [y|] eqn:Ey; [|discriminate].
      destruct (grpc_step (gr_ctx y) (gr_state y) ga) as [s|] eqn:Egs; [|discriminate]. destruct (g_panicked s); [discriminate|].
      assert (Eg : gp_rpcs g' = upd (gp_rpcs g0) r1 (fun x => MkRpc (gr_client x) (gr_ctx x) s)).
      { destruct (new_record _ _) as [[c xs]|]; [|injection Es as <-; reflexivity]. destruct (do_record _ _ _ _ _ _); [|discriminate]. injection Es as <-. reflexivity. }
      rewrite Eg. split.
      + intros r0 x0 Hx. rewrite Happ. cbn [rpc_acts flat_map]. destruct (Nat.eqb_spec r1 r0) as [->|Hn].
        * rewrite (nth_upd_at _ _ _ _ Ey) in Hx. injection Hx as <-. cbn [gr_ctx gr_state app]. eapply run_app_intro; [exact (I1 _ _ Ey)|]. cbn [grpc_run]. now rewrite Egs.
        * rewrite nth_upd_else in Hx by congruence. cbn [app]. rewrite app_nil_r. exact (I1 r0 x0 Hx).
      + intros r0 Hr. rewrite upd_length in Hr. rewrite Happ. cbn [rpc_acts flat_map]. destruct (Nat.eqb_spec r1 r0) as [->|Hn].
        * apply nth_error_None in Hr. congruence.
        * cbn [app]. rewrite app_nil_r. exact (I2 r0 Hr). }
  intros E Hx. exact (proj1 (X acts g E) r x Hx).
Qed.

(** ** Examples *)

(** A test for [gpacts_ok]. *)
Definition gpact_okb (u : uworld) (g : gproc) (a : gpact) : bool :=
  let ts := pc_tags (gp_proc g) in
  match a with
  | GApp a => pact_okb u (gp_proc g) a
  | GClient _ _ _ _ _ _ _ _ => true
  | GServer _ _ it _ wire _ _ => match server_tags (st_heap ts) wire with Some (th, c) => iterates_b th c it | None => true end
  | GRpc r a it _ _ =>
      match nth_error (gp_rpcs g) r with
      | None => true
      | Some x => iterates_b (st_heap ts) (rc_tags (gr_ctx x)) it &&
          match a with
          | GCall (GBegin client _) => Bool.eqb client (gr_client x)
          | GCall (GEnd client e _) => Bool.eqb client (gr_client x) && match e with StatusError c _ => (c <? 2 ^ 32)%N | _ => true end
          | _ => true
          end
      end
  end.
Fixpoint gpacts_okb (u : uworld) (g : gproc) (l : list gpact) : bool :=
  match l with
  | [] => true
  | a :: r => gpact_okb u g a && match gproc_step g a with Some g' => gpacts_okb u g' r | None => true end
  end.
Lemma gpact_okb_ok u g a : gpact_okb u g a = true -> gpact_ok u g a.
Proof.
  destruct a as [a|smp info i it md wire sc now|h info it md wire sc now|r a it o now]; cbn [gpact_okb gpact_ok]; intros H.
  - now apply pact_okb_ok.
  - exact I.
  - intros th c E. rewrite E in H. now apply iterates_b_ok.
  - intros x Ex. rewrite Ex in H. apply andb_true_iff in H. destruct H as [H1 H2]. split; [now apply iterates_b_ok|].
    destruct a as [[c ff| | |c e t|]|]; try exact I; [now apply eqb_prop|].
    apply andb_true_iff in H2. destruct H2 as [H2 H3]. split; [now apply eqb_prop|]. destruct e; try exact I. now apply N.ltb_lt.
Qed.
Lemma gpacts_okb_ok u l : forall g, gpacts_okb u g l = true -> gpacts_ok u g l.
Proof.
  induction l as [|a l IH]; intros g H; [exact I|]. cbn [gpacts_okb gpacts_ok] in *. apply andb_true_iff in H. destruct H as [H1 H2].
  split; [now apply gpact_okb_ok|]. destruct (gproc_step g a); [now apply IH|exact I].
Qed.

Definition ex_ga : grpc_aggs := MkGA 0 1 2 3.
Definition ex_gu : uworld := MkU (all_grpc_views ex_ga) [AggDist bytes_bounds; AggDist ms_bounds; AggDist msgs_bounds; AggCount].

Lemma ex_gu_ok : u_ok ex_gu.
Proof.
  split; [|split].
  - intros p w ap. do 15 (destruct p as [|p]; [intros [= <-] [= <-]; cbn; lia|]). intros E; cbn in E; destruct p; discriminate.
  - intros ap bounds. assert (V : forall k, Forall f_valid (dbounds k)).
    { intros k. destruct (dbounds_good k) as [H _]. rewrite Forall_forall in *. intros b Hb. now apply H. }
    do 4 (destruct ap as [|ap]; [intros [= <-]; first [rewrite bytes_spec; exact (V DSentBytes)|rewrite ms_spec; exact (V DLatency)|rewrite msgs_spec; exact (V DSentMessages)]|]); try discriminate.
    intros E; cbn in E; destruct ap; discriminate.
  - intros p w me. do 15 (destruct p as [|p]; [intros [= <-] [= <-]; discriminate|]). intros E; cbn in E; destruct p; discriminate.
Qed.

Definition ex_sc0 : span_context := MkSC (repeat (n2b 1) 16) (repeat (n2b 2) 8) 0%N None.
Definition gcalls (r : nat) (it : list (key * content)) (ev : gevent) (i n : nat) (now : time) : list gpact :=
  GRpc r (GCall ev) it id_order now :: repeat (GRpc r (GStep i) it id_order now) n.

Definition ex_m : bytes := bs "pkg.Svc/Get".
Definition ex_it : list (key * content) := [(key_grpc_server_method, Content ex_m ttl_unlimited)].
(** A client's RPC has begun when the views are registered. *)
Definition ex_gacts1 : list gpact :=
  GClient None (Some (bs "/pkg.Svc/Get")) 0 [] [] None ex_sc0 0%Z :: gcalls 0 [] (GBegin true false) 0 2 0%Z.
Definition ex_greg : gpact := GApp (PCmd id_order (CmdRegister (seq 0 15) 100%Z)).
(** It sends 3000 bytes and completes; a server handles an RPC that fails. *)
Definition ex_gacts2 : list gpact :=
  gcalls 0 [] (GOut 3000 3005 1%Z) 1 3 1%Z ++ gcalls 0 [] (GEnd true NoError 5000000%Z) 2 6 5000000%Z ++
  GServer (MkGS false None) (Some (bs "/pkg.Svc/Get")) [] [] None ex_sc0 6000000%Z ::
  gcalls 1 ex_it (GBegin false false) 0 2 6000000%Z ++ gcalls 1 ex_it (GEnd false (StatusError 5 (bs "no")) 7000000%Z) 1 7 7000000%Z.

Definition ex_run (acts1 acts2 : list gpact) : option (gproc * gproc) :=
  match gproc_run (gproc_init ex_gu) acts1 with
  | Some g1 => match gproc_run g1 (ex_greg :: acts2) with Some g => Some (g1, g) | None => None end
  | None => None
  end.

Lemma ex_since acts1 acts2 g1 g v w m :
  gpacts_okb ex_gu (gproc_init ex_gu) (acts1 ++ ex_greg :: acts2) = true -> ex_run acts1 acts2 = Some (g1, g) ->
  w_views (pc_worker (gp_proc g1)) = [] -> forallb (fun a => match a with GApp _ => false | _ => true end) acts2 = true ->
  nth_error (all_grpc_views ex_ga) v = Some w -> registered_since ex_gu v (v_name w) m g1 acts2 g.
Proof.
  intros Hok Hrun Hw Hacts Hv. unfold ex_run in Hrun. destruct (gproc_run (gproc_init ex_gu) acts1) as [g1'|] eqn:E1; [|discriminate].
  destruct (gproc_run g1' (ex_greg :: acts2)) as [g'|] eqn:E2; [|discriminate]. injection Hrun as -> ->.
  assert (Hlt : v < 15) by (change 15 with (length (all_grpc_views ex_ga)); apply nth_error_Some; congruence).
  assert (Hseq : seq 0 v ++ v :: seq (S v) (14 - v) = seq 0 15).
  { change (v :: seq (S v) (14 - v)) with (seq v (S (14 - v))). rewrite <- (seq_app v). f_equal. lia. }
  destruct (C70_views ex_gu ex_ga) as (N & _ & V); [repeat split; reflexivity|].
  exists acts1, id_order, id_order, (seq 0 v), (seq (S v) (14 - v)), 100%Z. cbv zeta. rewrite Hseq. fold ex_greg.
  split; [now apply gpacts_okb_ok|]. split; [exact E1|]. split; [exact E2|]. split; [cbn [handle]; now rewrite Hw|]. split; [|split].
  - intros q Hq. apply in_seq in Hq. destruct (nth_error (all_grpc_views ex_ga) q) as [w'|] eqn:Eq; [|apply nth_error_None in Eq; cbn in Eq; lia].
    destruct (V q w' Eq (nth_error_In _ _ Eq)) as (sv & -> & _). discriminate.
  - intros q sv Hq Es En. apply in_seq in Hq. destruct (nth_error (all_grpc_views ex_ga) q) as [w'|] eqn:Eq; [|apply nth_error_None in Eq; cbn in Eq; lia].
    destruct (V q w' Eq (nth_error_In _ _ Eq)) as (sv' & Es' & En'). rewrite Es in Es'. injection Es' as <-.
    rewrite NoDup_nth_error in N. assert (q = v); [|lia]. apply N.
    + rewrite map_length. apply nth_error_Some. congruence.
    + rewrite !nth_error_map, Eq, Hv. cbn [option_map]. congruence.
  - intros a Ha. rewrite forallb_forall in Hacts. specialize (Hacts a Ha). destruct a; [discriminate| | |]; split; exact I.
Qed.

(** What a view shows: the number of each row, or the counts of its buckets. *)
Definition row_numbers (d : agg_data f64_num) : Z * list Z :=
  match d with CountD _ n => (n, []) | DistD d => (d_count d, d_cpb d) | _ => (0%Z, []) end.
Definition g_shown (n : bytes) (x : option (gproc * gproc)) : option (list (list (key * bytes) * (Z * list Z))) :=
  match x with
  | Some (_, g) => match handle_retrieve id_order (pc_worker (gp_proc g)) n with
                   | Some (Some rows) => Some (map (fun r => (fst r, row_numbers (snd r))) rows)
                   | _ => None end
  | None => None
  end.

(** RPC [x] went through [l1], idle at its end, then End and [l2]. *)
Definition ended_by (x : grpc_rpc) (l1 : list gact) (e : rpc_err) (now : time) (l2 : list gact) : Prop :=
  match grpc_run (gr_ctx x) grpc_init l1 with
  | Some s1 => forallb (fun t => match gt_todo t with [] => true | _ => false end) (g_threads s1) = true /\
               grpc_run (gr_ctx x) s1 (GCall (GEnd (gr_client x) e now) :: l2) = Some (gr_state x)
  | None => False
  end.
Lemma ended_orderly x t0 full l1 e now l2 : ended_by x l1 e now l2 -> rc_data (gr_ctx x) = Some (t0, full) -> clock_ok t0 now ->
  payloads_ok (events l1) -> existsb is_end (events l1) = false -> sent_sizes (events l2) = [] -> received_sizes (events l2) = [] ->
  existsb is_end (events l2) = false -> orderly x.
Proof.
  unfold ended_by. intros H Hd Hc P N1 S2 R2 N2 _. destruct (grpc_run (gr_ctx x) grpc_init l1) as [s1|] eqn:E; [|contradiction]. destruct H as [Hi H].
  exists t0, full, l1, s1, e, now, l2. split; [exact Hd|]. split; [exact Hc|]. split; [exact E|]. split; [|auto 10].
  intros t Ht. rewrite forallb_forall in Hi. specialize (Hi t Ht). now destruct (gt_todo t).
Qed.

Definition ex_l0 : list gact := [GCall (GBegin true false); GStep 0; GStep 0; GCall (GOut 3000 3005 1%Z); GStep 1; GStep 1; GStep 1].

Example C70_example :
  u_ok ex_gu /\ grpc_aggs_in ex_ga (u_aggs ex_gu) /\
  (exists g1 g, (forall v w m, nth_error (all_grpc_views ex_ga) v = Some w -> registered_since ex_gu v (v_name w) m g1 ex_gacts2 g) /\
     server_methods_ok g /\ (forall x, In x (gp_rpcs g) -> orderly x) /\ length (calls_done g) = 5 /\
     completed true ex_m (bs "OK") g = 1 /\ completed false ex_m (bs "NOT_FOUND") g = 1 /\
     started true ex_m g = 1 /\ started true ex_m g1 = 1 /\ started false ex_m g = 1 /\
     length (finished_since true ex_m g1 g) = 1) /\
  g_shown (bs "grpc.io/client/completed_rpcs") (ex_run ex_gacts1 ex_gacts2) =
    Some [([(bs "grpc_client_method", ex_m); (bs "grpc_client_status", bs "OK")], (1%Z, []))] /\
  g_shown (bs "grpc.io/server/completed_rpcs") (ex_run ex_gacts1 ex_gacts2) =
    Some [([(bs "grpc_server_method", ex_m); (bs "grpc_server_status", bs "NOT_FOUND")], (1%Z, []))] /\
  g_shown (bs "grpc.io/client/started_rpcs") (ex_run ex_gacts1 ex_gacts2) = Some [] /\
  g_shown (bs "grpc.io/client/sent_bytes_per_rpc") (ex_run ex_gacts1 ex_gacts2) =
    Some [([(bs "grpc_client_method", ex_m)], (1%Z, [0; 0; 1; 0; 0; 0; 0; 0; 0; 0; 0; 0; 0; 0]%Z))].
Proof.
  split; [exact ex_gu_ok|]. split; [repeat split; reflexivity|]. split; [|split; [|split; [|split]]; vm_compute; reflexivity].
  assert (X : match ex_run ex_gacts1 ex_gacts2 with
              | Some (g1, g) =>
                  match w_views (pc_worker (gp_proc g1)), gp_rpcs g, gp_rpcs g1 with
                  | [], [x0; x1], [y] =>
                      (length (calls_done g), completed true ex_m (bs "OK") g, completed false ex_m (bs "NOT_FOUND") g, started true ex_m g, started true ex_m g1, started false ex_m g,
                       length (finished_since true ex_m g1 g), gr_client x0, gr_client x1, rc_data (gr_ctx x0), rc_data (gr_ctx x1)) =
                      (5, 1, 1, 1, 1, 1, 1, true, false, Some (0%Z, bs "/pkg.Svc/Get"), Some (6000000%Z, bs "/pkg.Svc/Get")) /\
                      ended_by x0 ex_l0 NoError 5000000%Z (repeat (GStep 2) 6) /\
                      ended_by x1 [GCall (GBegin false false); GStep 0; GStep 0] (StatusError 5 (bs "no")) 7000000%Z (repeat (GStep 1) 7)
                  | _, _, _ => False
                  end
              | None => False
              end) by (vm_compute; split; [reflexivity|split; split; reflexivity]).
  destruct (ex_run ex_gacts1 ex_gacts2) as [[g1 g]|] eqn:E; [|contradiction]. exists g1, g.
  destruct (w_views (pc_worker (gp_proc g1))) eqn:Ew; [|contradiction]. destruct (gp_rpcs g) as [|x0 [|x1 [|]]] eqn:Er; try contradiction.
  destruct (gp_rpcs g1) as [|y [|]] eqn:Er1; try contradiction. destruct X as (X & R0 & R1).
  injection X as L1 L2 L3 L4 L5 L6 L7 L8 L9 L10 L11.
  split.
  { intros v w m Hv. eapply ex_since; [|exact E|exact Ew| |exact Hv]; vm_compute; reflexivity. }
  split.
  { intros x t0 full m Hin Hc Hd Hm. apply is_method_spec in Hm. subst m. rewrite Er in Hin. destruct Hin as [<-|[<-|[]]]; [congruence|].
    rewrite L11 in Hd. injection Hd as _ <-. apply check_value_spec. reflexivity. }
  split; [|repeat split; assumption].
  intros x Hin. destruct Hin as [<-|[<-|[]]].
  - eapply ended_orderly; [exact R0|exact L10|unfold clock_ok; lia| | | | |]; try reflexivity. repeat split; try (repeat constructor; lia); vm_compute; reflexivity.
  - eapply ended_orderly; [exact R1|exact L11|unfold clock_ok; lia| | | | |]; try reflexivity. repeat split; try (repeat constructor; lia); vm_compute; reflexivity.
Qed.

(** If the method is not a legal tag value, TagRPC fails to tag the RPC, which keeps what
    its peer sent: an RPC is counted under the method that the peer claims. *)
Definition ex_bad : bytes := bs "/pkg.Svc/" ++ [n2b 7].
Definition ex_peer : list (key * content) := [(key_grpc_server_method, Content (bs "other") ttl_unlimited)].
Definition ex_gacts3 : list gpact :=
  GServer (MkGS false None) (Some ex_bad) ex_peer [] (encode ex_peer) ex_sc0 0%Z :: gcalls 0 ex_peer (GEnd false NoError 9%Z) 0 6 9%Z.

Theorem C70_server_method_refuted : exists g1 g t,
  registered_since ex_gu 11 (bs "grpc.io/server/completed_rpcs") (bs "grpc.io/server/server_latency") g1 ex_gacts3 g /\
  (forall x, In x (calls_done g) -> has_method (bs "other") (fst x) = false) /\ completed false (bs "other") (bs "OK") g = 0 /\
  exists rows, shows id_order g (bs "grpc.io/server/completed_rpcs") rows /\
    In ([(bs "grpc_server_method", bs "other"); (bs "grpc_server_status", bs "OK")], CountD t 1%Z) rows.
Proof.
  assert (X : match ex_run [] ex_gacts3 with
              | Some (g1, g) =>
                  match w_views (pc_worker (gp_proc g1)) with
                  | [] => forallb (fun x => negb (has_method (bs "other") (fst x))) (calls_done g) = true /\ completed false (bs "other") (bs "OK") g = 0 /\
                      match handle_retrieve id_order (pc_worker (gp_proc g)) (bs "grpc.io/server/completed_rpcs") with
                      | Some (Some [(tags, CountD _ n)]) => tags = [(bs "grpc_server_method", bs "other"); (bs "grpc_server_status", bs "OK")] /\ n = 1%Z
                      | _ => False
                      end
                  | _ => False
                  end
              | None => False
              end) by (vm_compute; repeat split; reflexivity).
  destruct (ex_run [] ex_gacts3) as [[g1 g]|] eqn:E; [|contradiction]. destruct (w_views (pc_worker (gp_proc g1))) eqn:Ew; [|contradiction].
  destruct X as (X1 & X2 & X3).
  destruct (handle_retrieve id_order (pc_worker (gp_proc g)) (bs "grpc.io/server/completed_rpcs")) as [[rows|]|] eqn:Eh; [|contradiction|contradiction].
  destruct rows as [|[tags d] [|]]; [contradiction| |destruct d; contradiction]. destruct d as [t n|? ?|?|?]; try contradiction.
  destruct X3 as [-> ->]. exists g1, g, t. split; [|split; [|split; [exact X2|]]].
  - eapply (ex_since [] ex_gacts3 g1 g 11 (gsv_completed ex_ga)); [|exact E|exact Ew| |]; vm_compute; reflexivity.
  - intros x Hx. rewrite forallb_forall in X1. specialize (X1 x Hx). now destruct (has_method _ _).
  - eexists. split; [unfold shows; cbn [handle]; rewrite Eh; reflexivity|]. left. reflexivity.
Qed.

Print Assumptions C70_completed.
Print Assumptions C70_started.
Print Assumptions C70_distribution.
Print Assumptions C70_buckets.
Print Assumptions C70_server_latency_never.
Print Assumptions C70_views.
Print Assumptions C70_metrics.
Print Assumptions C70_no_panic.
Print Assumptions C70_history.
Print Assumptions C70_server_method_refuted.
