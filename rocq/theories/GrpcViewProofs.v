(** What the RPCs contribute to the views of plugin/ocgrpc. *)

From Coq Require Import String.
From Coq Require Import List Arith NArith ZArith Bool Lia Permutation.
From Verif Require Import Base ListLib GoMap Text Float64 TagModel TagSpec TagProofs TagProps AggModel AggSpec AggProofs AggProps CollectorSpec CollectorProofs
  ViewModel WorkerModel WorkerSpec RecordModel RecordProps ProcessModel ProcessSpec ProcessProofs ProcessProps
  TraceTypes TraceModel HttpModel HttpSpec HttpProofs GrpcModel GrpcSpec GrpcProofs GrpcProps GrpcProcModel GrpcProcSpec GrpcProcProofs.
From Verif Require Import WorkerProps.
Import ListNotations.
Open Scope nat_scope.

(** ** The rows of any view *)

Lemma gpinv_init u : gpinv (gproc_init u).
Proof. intros x []. Qed.

Lemma gpacts_app u l1 : forall l2 g g1, gpacts_ok u g (l1 ++ l2) -> gproc_run g l1 = Some g1 -> gpacts_ok u g l1 /\ gpacts_ok u g1 l2.
Proof.
  induction l1 as [|a l1 IH]; intros l2 g g1 H E; [injection E as <-; split; [exact I|exact H]|].
  cbn [app gpacts_ok gproc_run] in *. destruct H as [Ha H]. destruct (gproc_step g a) as [g2|]; [|discriminate].
  destruct (IH l2 g2 g1 H E) as [H1 H2]. tauto.
Qed.

Lemma glower_keeps n l : forall g, (forall a, In a l -> app_keeps n a) -> forall a, In a (glower g l) -> ~ unregisters_name n a.
Proof.
  induction l as [|b l IH]; intros g H a Hin; [destruct Hin|]. cbn [glower] in Hin. apply in_app_or in Hin. destruct Hin as [Hin|Hin].
  - specialize (H b (or_introl eq_refl)). destruct b as [b|? ? ? ? ? ? ? ?|? info ? ? wire ? ?|r b ? ? ?]; cbn [glower1] in Hin.
    + destruct Hin as [<-|[]]. exact H.
    + destruct Hin.
    + apply in_app_or in Hin. destruct Hin as [Hin|Hin].
      * destruct wire as [w|]; [destruct (decode w)|]; cbn in Hin; destruct Hin as [<-|[]] || destruct Hin; intros [].
      * destruct info; [|destruct Hin]. destruct Hin as [<-|[]]. intros [].
    + destruct (nth_error (gp_rpcs g) r); [|destruct Hin]. destruct (grpc_step _ _ _); [|destruct Hin]. destruct (new_record _ _) as [[c xs]|]; [|destruct Hin].
      destruct Hin as [<-|[]]. intros [].
  - destruct (gproc_step g b); [|destruct Hin]. eapply IH; [|exact Hin]. intros c Hc. apply H. now right.
Qed.

Lemma grpc_rows u v n m g1 acts g o sv :
  u_ok u -> registered_since u v n m g1 acts g -> spec_view u v = Some sv -> sv_name sv = n -> me_name (sv_measure sv) = m ->
  gpinv g /\ (forall x, In x (gp_rpcs g1) -> rpc_inv (pc_tags (gp_proc g)) x) /\
  exists rows ss, shows o g n rows /\ grouped (sv_agg sv) ss rows /\
    Permutation (contribs (st_heap (pc_tags (gp_proc g))) (sv_keys sv) m g)
                (contribs (st_heap (pc_tags (gp_proc g))) (sv_keys sv) m g1 ++ map pv ss).
Proof.
  intros U (acts1 & o1 & o0 & ps1 & ps2 & now & Hok & E1 & E2 & Hfree & Hval & Hfirst & Hkeep) Es <- <-.
  set (reg := GApp (PCmd o0 (CmdRegister (ps1 ++ v :: ps2) now))) in *.
  destruct (gpacts_app _ _ _ _ _ Hok E1) as [Hok1 Hok2].
  destruct (grun_lower u acts1 [] (gproc_init u) g1 U (pinv_init u) (gpinv_init u) Hok1 E1) as (A1 & A2 & A3 & h1 & A4). cbn [app] in A4.
  destruct (grun_lower u (reg :: acts) h1 g1 g U A4 A3 Hok2 E2) as (B1 & B2 & B3 & h2 & B4).
  pose proof E2 as E2'. pose proof Hok2 as Hok2'. cbn [gproc_run gpacts_ok] in E2', Hok2'. destruct Hok2' as [Hreg Hok3].
  destruct (gproc_step g1 reg) as [g2|] eqn:Er; [|discriminate].
  assert (Elow : glower g1 (reg :: acts) = PCmd o0 (CmdRegister (ps1 ++ v :: ps2) now) :: glower g2 acts).
  { cbn [glower]. rewrite Er. reflexivity. }
  rewrite Elow in B1, B2.
  destruct (gstep_lower u h1 g1 reg g2 U A4 A3 Hreg Er) as (C1 & C2 & C3).
  destruct (run_inv u _ h1 _ _ U A4 C1 C2) as (hs & I1 & X1 & Y1 & _).
  destruct (grun_lower u acts (h1 ++ hs) g2 g U I1 C3 Hok3 E2') as (D1 & D2 & _ & h3 & D4).
  destruct (run_inv u _ _ _ _ U I1 D1 D2) as (hs2 & _ & X2 & Y2 & _).
  split; [exact B3|]. split.
  { intros x Hx. eapply rpc_inv_more; [apply (pi_tags _ _ _ A4)| | |apply A3; exact Hx].
    - eapply extends_trans; eauto.
    - eapply incl_tran; eauto. }
  assert (Hok' : pacts_ok u (proc_init u) (glower (gproc_init u) acts1 ++ PCmd o0 (CmdRegister (ps1 ++ v :: ps2) now) :: glower g2 acts)).
  { clear - A1 A2 B1. cbn [gproc_init gp_proc] in A1, A2. revert A1 A2 B1. generalize (proc_init u) as p. generalize (glower (gproc_init u) acts1) as l0.
    induction l0 as [|b l0 IH]; intros p A1 A2 B1.
    - injection A2 as ->. exact B1.
    - cbn [app pacts_ok proc_run] in *. destruct A1 as [Hb A1]. split; [exact Hb|]. destruct (proc_step p b); [|exact I]. now apply IH. }
  destruct (C69_rows u (glower (gproc_init u) acts1) (gp_proc g1) o1 o0 ps1 v ps2 now sv (glower g2 acts) (gp_proc g) o U Hok' A2 B2 Hval Es Hfirst Hfree)
    as (_ & rows & R & G).
  { apply glower_keeps. intros a Ha. now apply Hkeep. }
  exists rows. eexists. split; [exact R|]. split; [exact G|].
  pose proof (grun_contribs u (st_heap (pc_tags (gp_proc g))) (sv_keys sv) (me_name (sv_measure sv)) acts (h1 ++ hs) g2 g U I1 C3 Hok3) as P.
  etransitivity; [apply P; [intros a Ha; now apply Hkeep|exact E2']|]. apply Permutation_app_tail.
  unfold contribs. replace (gp_rpcs g2) with (gp_rpcs g1); [apply Permutation_refl|].
  unfold reg in Er. cbn [gproc_step] in Er. destruct (proc_step (gp_proc g1) _) as [p|]; [|discriminate]. injection Er as <-. reflexivity.
Qed.

(** ** What the calls contribute *)

Lemma is_method_spec m full : is_method m full = true <-> method_name full = m.
Proof.
  unfold is_method. rewrite andb_true_iff, existsb_exists. split.
  - intros ((n & _ & E) & Hb). destruct (bytes_eqb_spec full (repeat slash n ++ m)) as [->|]; [|discriminate].
    apply (without_slashes_fun (repeat slash n ++ m)); [apply method_name_spec|]. exists n. split; [reflexivity|].
    intros b r ->. destruct (byte_eqb_spec b slash); [discriminate|assumption].
  - intros <-. destruct (method_name_spec full) as (n & E & H). split.
    + exists n. split; [apply in_seq; rewrite E, app_length, repeat_length; lia|]. rewrite <- E. destruct (bytes_eqb_spec full full); congruence.
    + destruct (method_name full) as [|b r]; [reflexivity|]. destruct (byte_eqb_spec b slash) as [->|]; [|reflexivity]. exfalso. now apply (H _ _ eq_refl).
Qed.

Definition key_m (client : bool) : key := if client then key_grpc_client_method else key_grpc_server_method.
Definition key_s (client : bool) : key := if client then key_grpc_client_status else key_grpc_server_status.
Definition m_latency (client : bool) : measure := if client then gc_latency else gs_latency.
Definition m_started (client : bool) : measure := if client then gc_started else gs_started.

(** The values among the measurements. *)
Definition picked (mn : bytes) (ms : list measurement) : list f64 :=
  flat_map (fun x => match x with Some (me, v) => if bytes_eqb (me_name me) mn then [v] else [] | None => [] end) ms.

Lemma vsamples_eq hp keys mn c xs : given_rec xs = None ->
  vsamples hp keys mn c xs =
  if forallb legal_mutator (given_tags xs)
  then map (pair (tags_shown keys (fold_left (fun f mu => spec_mutate mu f) (given_tags xs) (ctx_fun hp c)))) (picked mn (given_ms xs))
  else [].
Proof.
  intros Hr. unfold vsamples, samples_of. rewrite Hr. destruct (forallb legal_mutator (given_tags xs)); [|reflexivity]. cbv zeta.
  unfold picked. induction (given_ms xs) as [|[[me v]|] ms IH]; [reflexivity| |exact IH]. cbn [flat_map]. rewrite !map_app, IH. f_equal.
  destruct (bytes_eqb (me_name me) mn); reflexivity.
Qed.

Lemma legal_status e : (match e with StatusError c _ => (c < 2 ^ 32)%N | _ => True end) -> legal (status_tag e) = true.
Proof. intros H. apply legal_spec. now apply C59_valid. Qed.

Lemma shown_two k1 k2 f m st t1 t2 : f k1 = Some (Content m t1) -> f k2 = Some (Content st t2) ->
  tags_shown [k1; k2] f = shown_tags [(k1, m); (k2, st)].
Proof.
  intros E1 E2. unfold tags_shown, shown_tags. cbn [flat_map filter snd]. rewrite E1, E2. cbn [c_value]. destruct m, st; reflexivity.
Qed.
Lemma shown_one k1 f m t1 : f k1 = Some (Content m t1) -> tags_shown [k1] f = shown_tags [(k1, m)].
Proof. intros E1. unfold tags_shown, shown_tags. cbn [flat_map filter snd]. rewrite E1. cbn [c_value]. destruct m; reflexivity. Qed.

Lemma shown_two_inj k1 k2 m st m' st' : k1 <> k2 -> shown_tags [(k1, m); (k2, st)] = shown_tags [(k1, m'); (k2, st')] -> m = m' /\ st = st'.
Proof.
  intros Hk. unfold shown_tags. cbn [filter snd]. destruct m, st, m', st'; intros E; try discriminate E; split; try reflexivity; try congruence;
    exfalso; apply Hk; congruence.
Qed.
Lemma shown_one_inj k1 m m' : shown_tags [(k1, m)] = shown_tags [(k1, m')] -> m = m'.
Proof. unfold shown_tags. cbn [filter snd]. destruct m, m'; intros E; congruence. Qed.

Lemma key_ms client : key_m client <> key_s client.
Proof. destruct client; discriminate. Qed.

Lemma upsert_same f k v : exists ttl, spec_mutate (Upsert k v []) f k = Some (Content v ttl).
Proof. cbn [spec_mutate]. unfold fset. destruct (bytes_eq_dec k k); [eauto|contradiction]. Qed.
Lemma upsert_other f k k' v : k <> k' -> spec_mutate (Upsert k v []) f k' = f k'.
Proof. intros H. cbn [spec_mutate]. unfold fset. destruct (bytes_eq_dec k k'); [contradiction|reflexivity]. Qed.

Definition end_mus (client : bool) (full : bytes) (e : rpc_err) : list mutator :=
  if client then [Upsert key_grpc_client_method (method_name full) []; Upsert key_grpc_client_status (status_tag e) []]
  else [Upsert key_grpc_server_status (status_tag e) []].

(** The tags of a recording for End. *)
Lemma end_tags hp client rc full e :
  (client = false -> exists ttl, ctx_fun hp (rc_tags rc) key_grpc_server_method = Some (Content (method_name full) ttl)) ->
  exists t1 t2, fold_left (fun f mu => spec_mutate mu f) (end_mus client full e) (ctx_fun hp (rc_tags rc)) (key_m client) = Some (Content (method_name full) t1) /\
                fold_left (fun f mu => spec_mutate mu f) (end_mus client full e) (ctx_fun hp (rc_tags rc)) (key_s client) = Some (Content (status_tag e) t2).
Proof.
  intros H. destruct client; cbn [end_mus fold_left key_m key_s].
  - destruct (upsert_same (ctx_fun hp (rc_tags rc)) key_grpc_client_method (method_name full)) as (t1 & E1).
    destruct (upsert_same (spec_mutate (Upsert key_grpc_client_method (method_name full) []) (ctx_fun hp (rc_tags rc))) key_grpc_client_status (status_tag e)) as (t2 & E2).
    exists t1, t2. split; [|exact E2]. rewrite upsert_other by discriminate. exact E1.
  - destruct (H eq_refl) as (t1 & E1). destruct (upsert_same (ctx_fun hp (rc_tags rc)) key_grpc_server_status (status_tag e)) as (t2 & E2).
    exists t1, t2. split; [|exact E2]. rewrite upsert_other by discriminate. exact E1.
Qed.

Lemma begin_tags hp client rc full :
  (client = false -> exists ttl, ctx_fun hp (rc_tags rc) key_grpc_server_method = Some (Content (method_name full) ttl)) ->
  exists t1, fold_left (fun f mu => spec_mutate mu f) [Upsert key_grpc_client_method (method_name full) []] (ctx_fun hp (rc_tags rc)) (key_m client) = Some (Content (method_name full) t1).
Proof.
  intros H. cbn [fold_left]. destruct client; cbn [key_m].
  - apply upsert_same.
  - rewrite upsert_other by discriminate. now apply H.
Qed.

Lemma picked_app mn a b : picked mn (a ++ b) = picked mn a ++ picked mn b.
Proof. apply flat_map_app. Qed.

Lemma picked_latency client c regs lat : picked (me_name (m_latency client)) (end_measurements c regs lat) = if Bool.eqb c client then [lat] else [].
Proof.
  unfold end_measurements. rewrite picked_app.
  replace (picked (me_name (m_latency client)) (map _ _)) with (@nil f64).
  - destruct c, client; reflexivity.
  - destruct c, client; destruct regs as [|r1 [|r2 [|r3 [|r4 regs]]]]; reflexivity.
Qed.

Lemma picked_started_end client c regs lat : picked (me_name (m_started client)) (end_measurements c regs lat) = [].
Proof.
  unfold end_measurements. rewrite picked_app. destruct c, client; destruct regs as [|r1 [|r2 [|r3 [|r4 regs]]]]; reflexivity.
Qed.

Lemma picked_started_begin (client c : bool) : picked (me_name (m_started client)) [m_int (if c then gc_started else gs_started) 1] = if Bool.eqb c client then [f_of_Z 1] else [].
Proof. destruct c, client; reflexivity. Qed.
Lemma picked_latency_begin (client c : bool) : picked (me_name (m_latency client)) [m_int (if c then gc_started else gs_started) 1] = [].
Proof. destruct c, client; reflexivity. Qed.

(** ** Counts *)

(** The row to which a call counts. *)
Definition end_sig (client : bool) (rc : rpc_ctx) (ev : gevent) : list (list (key * bytes)) :=
  match rc_data rc, ev with
  | Some (_, full), GEnd c e _ =>
      if Bool.eqb c client && legal (method_name full) then [shown_tags [(key_m client, method_name full); (key_s client, status_tag e)]] else []
  | _, _ => []
  end.
Definition begin_sig (client : bool) (rc : rpc_ctx) (ev : gevent) : list (list (key * bytes)) :=
  match rc_data rc, ev with
  | Some (_, full), GBegin c _ =>
      if Bool.eqb c client && legal (method_name full) then [shown_tags [(key_m client, method_name full)]] else []
  | _, _ => []
  end.

Definition methods_ok (l : list grpc_rpc) : Prop :=
  forall x t0 full, In x l -> gr_client x = false -> rc_data (gr_ctx x) = Some (t0, full) -> valid_value (method_name full).

Lemma server_tag ts x t0 full : rpc_inv ts x -> (gr_client x = false -> valid_value (method_name full)) -> rc_data (gr_ctx x) = Some (t0, full) ->
  gr_client x = false -> exists ttl, ctx_fun (st_heap ts) (rc_tags (gr_ctx x)) key_grpc_server_method = Some (Content (method_name full) ttl).
Proof. intros R Hv Hd Hc. apply (ri_tag _ _ R t0 full Hd Hc). auto. Qed.

Lemma end_legal client full e : (match e with StatusError c _ => (c < 2 ^ 32)%N | _ => True end) -> (client = false -> valid_value (method_name full)) ->
  forallb legal_mutator (end_mus client full e) = legal (method_name full).
Proof.
  intros He Hv. destruct client; cbn [end_mus forallb legal_mutator]; rewrite (legal_status e He).
  - now rewrite !andb_true_r.
  - symmetry. apply legal_spec. auto.
Qed.

Lemma end_vsamples ts x c full e t0 now regs keys mn :
  rpc_inv ts x -> c = gr_client x -> (match e with StatusError c _ => (c < 2 ^ 32)%N | _ => True end) ->
  (gr_client x = false -> valid_value (method_name full)) -> rc_data (gr_ctx x) = Some (t0, full) ->
  vsamples (st_heap ts) keys mn (rc_tags (gr_ctx x)) (end_opts c t0 full (gr_ctx x) e now regs) =
  if legal (method_name full)
  then map (pair (tags_shown keys (fold_left (fun f mu => spec_mutate mu f) (end_mus c full e) (ctx_fun (st_heap ts) (rc_tags (gr_ctx x))))))
           (picked mn (end_measurements c regs (in_ms (time_sub now t0))))
  else [].
Proof.
  intros R -> He Hv Hd. rewrite vsamples_eq by reflexivity.
  change (given_tags (end_opts (gr_client x) t0 full (gr_ctx x) e now regs)) with (end_mus (gr_client x) full e).
  rewrite (end_legal _ _ _ He Hv). reflexivity.
Qed.

Lemma begin_vsamples hp x c full keys mn :
  vsamples hp keys mn (rc_tags (gr_ctx x)) (begin_record (gr_ctx x) full c) =
  if legal (method_name full)
  then map (pair (tags_shown keys (fold_left (fun f mu => spec_mutate mu f) [Upsert key_grpc_client_method (method_name full) []] (ctx_fun hp (rc_tags (gr_ctx x))))))
           (picked mn [m_int (if c then gc_started else gs_started) 1])
  else [].
Proof.
  rewrite vsamples_eq by reflexivity. change (given_tags (begin_record (gr_ctx x) full c)) with [Upsert key_grpc_client_method (method_name full) []].
  cbn [forallb legal_mutator]. rewrite andb_true_r. reflexivity.
Qed.

Definition done_sig (sig : rpc_ctx -> gevent -> list (list (key * bytes))) (g : gproc) : list (list (key * bytes)) :=
  flat_map (fun ce => sig (fst ce) (snd ce)) (calls_done g).

Lemma contribs_sig hp keys mn sig g :
  (forall x t, In x (gp_rpcs g) -> In t (g_threads (gr_state x)) -> gt_todo t = [] ->
     map fst (flat_map (vsamples hp keys mn (rc_tags (gr_ctx x))) (thread_rec (gr_ctx x) t)) = sig (gr_ctx x) (gt_event t)) ->
  map fst (contribs hp keys mn g) = done_sig sig g.
Proof.
  intros H. unfold contribs, done_sig, calls_done. induction (gp_rpcs g) as [|x l IH]; [reflexivity|]. cbn [flat_map]. rewrite map_app, flat_map_app. f_equal.
  - specialize (fun t => H x t (or_introl eq_refl)). unfold rpc_contrib, rpc_recs, returned. clear IH. induction (g_threads (gr_state x)) as [|t r IHr]; [reflexivity|].
    cbn [flat_map]. rewrite !flat_map_app, !map_app, flat_map_app. rewrite IHr by (intros t' Ht'; apply H; now right). f_equal.
    destruct (gt_todo t) eqn:Et.
    + cbn [map flat_map fst snd]. rewrite app_nil_r. apply H; [now left|exact Et].
    + unfold thread_rec. rewrite Et. reflexivity.
  - apply IH. intros y t Hy. apply H. now right.
Qed.

Lemma thread_done rc t : gt_todo t = [] -> thread_rec rc t =
  match rc_data rc, gt_event t with
  | Some (t0, full), GBegin c _ => [begin_record rc full c]
  | Some (t0, full), GEnd c e now => [end_opts c t0 full rc e now (gt_regs t)]
  | _, _ => []
  end.
Proof. intros E. unfold thread_rec. rewrite E. destruct (rc_data rc) as [[t0 full]|]; [|reflexivity]. now destruct (gt_event t). Qed.

Lemma map_fst_pair {A B} (a : A) (l : list B) : map fst (map (pair a) l) = map (fun _ => a) l.
Proof. rewrite map_map. reflexivity. Qed.

Lemma contribs_end ts client g : (forall x, In x (gp_rpcs g) -> rpc_inv ts x) -> (client = false -> methods_ok (gp_rpcs g)) ->
  map fst (contribs (st_heap ts) [key_m client; key_s client] (me_name (m_latency client)) g) = done_sig (end_sig client) g.
Proof.
  intros HR HV. apply contribs_sig. intros x t Hx Ht Ed. pose proof (HR x Hx) as R. rewrite (thread_done _ _ Ed). unfold end_sig.
  destruct (rc_data (gr_ctx x)) as [[t0 full]|] eqn:Hd; [|reflexivity].
  assert (Hside : side_ok (gr_client x) (gt_event t)) by (apply (ri_side _ _ R); now apply in_map).
  destruct (gt_event t) as [c ff|? ? ?|? ? ?|c e now|]; try reflexivity; cbn [flat_map]; rewrite app_nil_r.
  - rewrite begin_vsamples, picked_latency_begin. now destruct (legal (method_name full)).
  - destruct Hside as [-> He]. destruct (Bool.eqb (gr_client x) client) eqn:Ec.
    + apply eqb_prop in Ec. subst client.
      assert (Hv : gr_client x = false -> valid_value (method_name full)) by (intros Ex; eapply HV; eauto).
      rewrite (end_vsamples ts x _ full e t0 now _ _ _ R eq_refl He Hv Hd), picked_latency, eqb_reflx. cbn [andb].
      destruct (legal (method_name full)); [|reflexivity]. cbn [map fst].
      destruct (end_tags (st_heap ts) (gr_client x) (gr_ctx x) full e) as (t1 & t2 & E1 & E2); [now apply (server_tag ts x t0 full R Hv Hd)|].
      now rewrite (shown_two _ _ _ _ _ _ _ E1 E2).
    + cbn [andb]. rewrite vsamples_eq by reflexivity.
      change (given_ms (end_opts (gr_client x) t0 full (gr_ctx x) e now (gt_regs t))) with (end_measurements (gr_client x) (gt_regs t) (in_ms (time_sub now t0))).
      rewrite picked_latency, Ec. now destruct (forallb _ _).
Qed.

Lemma contribs_begin ts client g : (forall x, In x (gp_rpcs g) -> rpc_inv ts x) -> (client = false -> methods_ok (gp_rpcs g)) ->
  map fst (contribs (st_heap ts) [key_m client] (me_name (m_started client)) g) = done_sig (begin_sig client) g.
Proof.
  intros HR HV. apply contribs_sig. intros x t Hx Ht Ed. pose proof (HR x Hx) as R. rewrite (thread_done _ _ Ed). unfold begin_sig.
  destruct (rc_data (gr_ctx x)) as [[t0 full]|] eqn:Hd; [|reflexivity].
  assert (Hside : side_ok (gr_client x) (gt_event t)) by (apply (ri_side _ _ R); now apply in_map).
  destruct (gt_event t) as [c ff|? ? ?|? ? ?|c e now|]; try reflexivity; cbn [flat_map]; rewrite app_nil_r.
  - cbn [side_ok] in Hside. subst c. rewrite begin_vsamples, picked_started_begin. destruct (Bool.eqb (gr_client x) client) eqn:Ec; [|now destruct (legal (method_name full))].
    apply eqb_prop in Ec. subst client. cbn [andb]. destruct (legal (method_name full)); [|reflexivity]. cbn [map fst].
    assert (Hv : gr_client x = false -> valid_value (method_name full)) by (intros Ex; eapply HV; eauto).
    destruct (begin_tags (st_heap ts) (gr_client x) (gr_ctx x) full) as (t1 & E1); [now apply (server_tag ts x t0 full R Hv Hd)|].
    now rewrite (shown_one _ _ _ _ E1).
  - rewrite vsamples_eq by reflexivity.
    change (given_ms (end_opts c t0 full (gr_ctx x) e now (gt_regs t))) with (end_measurements c (gt_regs t) (in_ms (time_sub now t0))).
    rewrite picked_started_end. now destruct (forallb _ _).
Qed.

(** How many calls count to a row. *)
Definition tcount (tags : list (key * bytes)) (l : list (list (key * bytes))) : nat := length (filter (fun t => tags_eqb t tags) l).

Lemma tcount_app tags a b : tcount tags (a ++ b) = tcount tags a + tcount tags b.
Proof. unfold tcount. now rewrite filter_app, app_length. Qed.
Lemma tcount_perm tags a b : Permutation a b -> tcount tags a = tcount tags b.
Proof.
  induction 1; unfold tcount in *; cbn [filter]; try lia.
  - destruct (tags_eqb x tags); cbn [length]; lia.
  - destruct (tags_eqb x tags), (tags_eqb y tags); cbn [length]; lia.
Qed.
Lemma tcount_zero tags l : tcount tags l <> 0 -> In tags l.
Proof.
  unfold tcount. intros H. destruct (filter (fun t => tags_eqb t tags) l) as [|t r] eqn:E; [contradiction|].
  assert (Hin : In t (filter (fun t => tags_eqb t tags) l)) by (rewrite E; now left). apply filter_In in Hin. destruct Hin as [Hin Ht].
  destruct (tags_eqb_spec t tags) as [<-|]; [exact Hin|discriminate].
Qed.
Lemma with_row_tags_count tags ss : with_row_tags tags ss = tcount tags (map fst (map pv ss)).
Proof.
  unfold with_row_tags, tcount. induction ss as [|[t s] ss IH]; [reflexivity|]. cbn [map filter pv fst]. destruct (tags_eqb t tags); cbn [length]; now rewrite IH.
Qed.

Lemma tcount_filter {A} (f : A -> list (list (key * bytes))) (p : A -> bool) tags l :
  (forall a, In a l -> tcount tags (f a) = if p a then 1 else 0) -> tcount tags (flat_map f l) = length (filter p l).
Proof.
  induction l as [|a l IH]; intros H; [reflexivity|]. cbn [flat_map filter]. rewrite tcount_app, (H a (or_introl eq_refl)), IH by (intros b Hb; apply H; now right).
  destruct (p a); reflexivity.
Qed.

Lemma tcount_one tags t : tcount tags [t] = if tags_eqb t tags then 1 else 0.
Proof. unfold tcount. cbn [filter]. now destruct (tags_eqb t tags). Qed.

Lemma done_end client m st g : valid_value m ->
  tcount (shown_tags [(key_m client, m); (key_s client, st)]) (done_sig (end_sig client) g) = completed client m st g.
Proof.
  intros Hm. apply legal_spec in Hm. apply tcount_filter. intros [rc ev] _. cbn [fst snd]. unfold end_sig, has_method.
  destruct (rc_data rc) as [[t0 full]|]; [|destruct ev; try reflexivity; now rewrite andb_false_r].
  destruct ev as [| | |c e now|]; try reflexivity. destruct (Bool.eqb c client); [|reflexivity]. cbn [andb].
  destruct (is_method m full) eqn:Em.
  - apply is_method_spec in Em. rewrite Em, Hm. rewrite tcount_one. cbn [andb].
    destruct (tags_eqb_spec (shown_tags [(key_m client, m); (key_s client, status_tag e)]) (shown_tags [(key_m client, m); (key_s client, st)])) as [E|E].
    + apply shown_two_inj in E; [|apply key_ms]. destruct E as [_ ->]. destruct (bytes_eqb_spec st st); congruence.
    + destruct (bytes_eqb_spec (status_tag e) st) as [<-|]; congruence.
  - cbn [andb]. destruct (legal (method_name full)); [|reflexivity]. rewrite tcount_one.
    destruct (tags_eqb_spec (shown_tags [(key_m client, method_name full); (key_s client, status_tag e)]) (shown_tags [(key_m client, m); (key_s client, st)])) as [E|E]; [|reflexivity].
    apply shown_two_inj in E; [|apply key_ms]. destruct E as [E _]. apply is_method_spec in E. congruence.
Qed.

Lemma done_begin client m g : valid_value m ->
  tcount (shown_tags [(key_m client, m)]) (done_sig (begin_sig client) g) = started client m g.
Proof.
  intros Hm. apply legal_spec in Hm. apply tcount_filter. intros [rc ev] _. cbn [fst snd]. unfold begin_sig, has_method.
  destruct (rc_data rc) as [[t0 full]|]; [|destruct ev; try reflexivity; now rewrite andb_false_r].
  destruct ev as [c ff| | | |]; try reflexivity. destruct (Bool.eqb c client); [|reflexivity]. cbn [andb].
  destruct (is_method m full) eqn:Em.
  - apply is_method_spec in Em. rewrite Em, Hm. rewrite tcount_one. destruct (tags_eqb_spec (shown_tags [(key_m client, m)]) (shown_tags [(key_m client, m)])); congruence.
  - destruct (legal (method_name full)); [|reflexivity]. rewrite tcount_one.
    destruct (tags_eqb_spec (shown_tags [(key_m client, method_name full)]) (shown_tags [(key_m client, m)])) as [E|E]; [|reflexivity].
    apply shown_one_inj in E. apply is_method_spec in E. congruence.
Qed.

(** ** RPCs keep their number, side and context *)

Lemma nth_upd_at {A} (f : A -> A) : forall l i x, nth_error l i = Some x -> nth_error (upd l i f) i = Some (f x).
Proof. induction l as [|y l IH]; intros [|i] x E; cbn in *; try discriminate; [congruence|auto]. Qed.
Lemma nth_upd_else {A} (f : A -> A) : forall l i j, j <> i -> nth_error (upd l i f) j = nth_error l j.
Proof. induction l as [|y l IH]; intros [|i] [|j] H; cbn; try reflexivity; try contradiction. apply IH. congruence. Qed.

Definition evolves (x x' : grpc_rpc) : Prop :=
  gr_client x' = gr_client x /\ gr_ctx x' = gr_ctx x /\ exists l, grpc_run (gr_ctx x) (gr_state x) l = Some (gr_state x').

Lemma evolves_refl x : evolves x x.
Proof. split; [reflexivity|]. split; [reflexivity|]. now exists []. Qed.
Lemma run_trans rc l1 l2 : forall s s1 s2, grpc_run rc s l1 = Some s1 -> grpc_run rc s1 l2 = Some s2 -> grpc_run rc s (l1 ++ l2) = Some s2.
Proof.
  induction l1 as [|a l1 IH]; intros s s1 s2 H1 H2; [injection H1 as ->; exact H2|]. cbn [app grpc_run] in *.
  destruct (grpc_step rc s a); [|discriminate]. eauto.
Qed.
Lemma evolves_trans x y z : evolves x y -> evolves y z -> evolves x z.
Proof.
  intros (A1 & A2 & l1 & A3) (B1 & B2 & l2 & B3). split; [congruence|]. split; [congruence|]. exists (l1 ++ l2). rewrite A2 in B3. eapply run_trans; eauto.
Qed.

Lemma step_evolves g a g' : gproc_step g a = Some g' -> forall r x, nth_error (gp_rpcs g) r = Some x -> exists x', nth_error (gp_rpcs g') r = Some x' /\ evolves x x'.
Proof.
  intros E r x En. destruct a as [a|smp info i it md wire sc now|h info it md wire sc now|r' a it o now]; cbn [gproc_step] in E.
  - destruct (proc_step (gp_proc g) a); [|discriminate]. injection E as <-. exists x. split; [exact En|apply evolves_refl].
  - destruct (client_tag_rpc _ _ _ _ _ _ _ _ _); [|discriminate]. injection E as <-. exists x. cbn [gp_rpcs]. split; [|apply evolves_refl].
    rewrite nth_error_app1; [exact En|]. apply nth_error_Some. congruence.
  - destruct (server_tag_rpc _ _ _ _ _ _ _ _); [|discriminate]. injection E as <-. exists x. cbn [gp_rpcs]. split; [|apply evolves_refl].
    rewrite nth_error_app1; [exact En|]. apply nth_error_Some. congruence.
  - destruct (nth_error (gp_rpcs g) r') as [y|] eqn:Ey; [|discriminate]. destruct (grpc_step (gr_ctx y) (gr_state y) a) as [s'|] eqn:Es; [|discriminate].
    assert (H : gp_rpcs g' = upd (gp_rpcs g) r' (fun x => MkRpc (gr_client x) (gr_ctx x) s')).
    { revert E. destruct (g_panicked s'); [discriminate|]. destruct (new_record _ _) as [[c xs]|]; [destruct (do_record _ _ _ _ _ _) as [p|]; [|discriminate]|]; intros [= <-]; reflexivity. }
    rewrite H. destruct (Nat.eq_dec r r') as [<-|Hne].
    + rewrite En in Ey. injection Ey as <-. eexists. split; [apply nth_upd_at; exact En|]. split; [reflexivity|]. split; [reflexivity|].
      exists [a]. cbn [grpc_run gr_state]. now rewrite Es.
    + exists x. split; [|apply evolves_refl]. rewrite nth_upd_else; auto.
Qed.

Lemma run_evolves l : forall g g', gproc_run g l = Some g' -> forall r x, nth_error (gp_rpcs g) r = Some x -> exists x', nth_error (gp_rpcs g') r = Some x' /\ evolves x x'.
Proof.
  induction l as [|a l IH]; intros g g' E r x En; [injection E as <-; exists x; split; [exact En|apply evolves_refl]|].
  cbn [gproc_run] in E. destruct (gproc_step g a) as [g1|] eqn:Es; [|discriminate].
  destruct (step_evolves g a g1 Es r x En) as (x1 & E1 & V1). destruct (IH g1 g' E r x1 E1) as (x2 & E2 & V2). exists x2. split; [exact E2|]. eapply evolves_trans; eauto.
Qed.

Lemma methods_ok_spec g : server_methods_ok g <-> methods_ok (gp_rpcs g).
Proof.
  split.
  - intros H x t0 full Hx Hc Hd. apply (H x t0 full (method_name full) Hx Hc Hd). now apply is_method_spec.
  - intros H x t0 full m Hx Hc Hd Hm. apply is_method_spec in Hm. subst m. eapply H; eauto.
Qed.

Lemma methods_ok_before l g g' : gproc_run g l = Some g' -> methods_ok (gp_rpcs g') -> methods_ok (gp_rpcs g).
Proof.
  intros E H x t0 full Hx Hc Hd. destruct (In_nth_error _ _ Hx) as (r & Er). destruct (run_evolves l g g' E r x Er) as (x' & E' & A & B & _).
  eapply (H x'); [eapply nth_error_In; eauto|congruence|]. rewrite B. exact Hd.
Qed.

(** ** Distributions *)

Definition d_measure (client : bool) (k : dkind) : measure :=
  match k with
  | DSentBytes => if client then gc_sent_bytes else gs_sent_bytes
  | DRecvBytes => if client then gc_recv_bytes else gs_recv_bytes
  | DSentMessages => if client then gc_sent_messages else gs_sent_messages
  | DRecvMessages => if client then gc_recv_messages else gs_recv_messages
  | DLatency => if client then gc_latency else gs_latency
  end.

Definition reg_value (k : dkind) (regs : list Z) (lat : f64) : f64 :=
  match k with
  | DSentBytes => f_of_Z (nth 0 regs 0%Z)
  | DSentMessages => f_of_Z (nth 1 regs 0%Z)
  | DRecvMessages => f_of_Z (nth 2 regs 0%Z)
  | DRecvBytes => f_of_Z (nth 3 regs 0%Z)
  | DLatency => lat
  end.

Lemma picked_d client c k a b d e r lat : picked (me_name (d_measure client k)) (end_measurements c (a :: b :: d :: e :: r) lat) =
  if Bool.eqb c client then [reg_value k [a; b; d; e] lat] else [].
Proof. destruct c, client, k; reflexivity. Qed.
Lemma picked_d_begin (client c : bool) k : picked (me_name (d_measure client k)) [m_int (if c then gc_started else gs_started) 1] = [].
Proof. destruct c, client, k; reflexivity. Qed.

(** What a call contributes. *)
Definition thread_contrib (ts : tag_state) (client : bool) (k : dkind) (x : grpc_rpc) (t : gthread) : list (list (key * bytes) * f64) :=
  flat_map (vsamples (st_heap ts) [key_m client] (me_name (d_measure client k)) (rc_tags (gr_ctx x))) (thread_rec (gr_ctx x) t).

Lemma rpc_contrib_threads ts client k x :
  rpc_contrib (st_heap ts) [key_m client] (me_name (d_measure client k)) x = flat_map (thread_contrib ts client k x) (g_threads (gr_state x)).
Proof. unfold rpc_contrib, rpc_recs, thread_contrib. induction (g_threads (gr_state x)) as [|t r IH]; [reflexivity|]. cbn [flat_map]. now rewrite flat_map_app, IH. Qed.

(** Only a finished call for End does. *)
Lemma not_end_contrib ts client k x t : ~ (gt_todo t = [] /\ is_end (gt_event t) = true) -> thread_contrib ts client k x t = [].
Proof.
  intros H. unfold thread_contrib, thread_rec. destruct (gt_todo t); [|reflexivity]. destruct (rc_data (gr_ctx x)) as [[t0 full]|]; [|reflexivity].
  destruct (gt_event t) as [c ff| | |c e now|]; try reflexivity.
  - cbn [flat_map]. rewrite begin_vsamples, picked_d_begin. now destruct (legal (method_name full)).
  - exfalso. now apply H.
Qed.

Lemma run_done rc l : forall s s' j t, grpc_run rc s l = Some s' -> nth_error (g_threads s) j = Some t -> gt_todo t = [] -> nth_error (g_threads s') j = Some t.
Proof.
  induction l as [|a l IH]; intros s s' j t E En Ed; [injection E as <-; exact En|]. cbn [grpc_run] in E. destruct (grpc_step rc s a) as [s1|] eqn:Es; [|discriminate].
  apply (IH s1 s' j t E); [|exact Ed]. unfold grpc_step in Es. destruct (g_panicked s); [discriminate|]. destruct a as [ev|i].
  - injection Es as <-. cbn [g_threads]. rewrite nth_error_app1; [exact En|]. apply nth_error_Some. congruence.
  - destruct (nth_error (g_threads s) i) as [t'|] eqn:Ei; [|discriminate]. destruct (gt_todo t') as [|y r] eqn:Et; [discriminate|]. injection Es as <-.
    assert (Hne : j <> i) by (intros ->; congruence).
    destruct y; cbn [do_instr g_threads]; rewrite nth_upd_else; auto.
Qed.

Lemma run_events rc l : forall s s', grpc_run rc s l = Some s' -> map gt_event (g_threads s') = map gt_event (g_threads s) ++ events l.
Proof.
  induction l as [|a l IH]; intros s s' E; [injection E as <-; now rewrite app_nil_r|]. cbn [grpc_run] in E. destruct (grpc_step rc s a) as [s1|] eqn:Es; [|discriminate].
  rewrite (IH s1 s' E), (step_events _ _ _ _ Es). unfold events. cbn [flat_map]. now rewrite app_assoc.
Qed.

Lemma single_contrib ts client k x j t : nth_error (g_threads (gr_state x)) j = Some t ->
  (forall i t', nth_error (g_threads (gr_state x)) i = Some t' -> is_end (gt_event t') = true -> i = j) ->
  flat_map (thread_contrib ts client k x) (g_threads (gr_state x)) = thread_contrib ts client k x t.
Proof.
  intros En Hu. destruct (nth_error_split _ _ En) as (a & b & E & La). rewrite E, flat_map_app. cbn [flat_map].
  assert (Hz : forall l, (forall t', In t' l -> is_end (gt_event t') = false) -> flat_map (thread_contrib ts client k x) l = []).
  { induction l as [|y l IH]; intros H; [reflexivity|]. cbn [flat_map]. rewrite IH by (intros; apply H; now right).
    rewrite not_end_contrib; [reflexivity|]. intros [_ Hy]. rewrite (H y (or_introl eq_refl)) in Hy. discriminate. }
  rewrite (Hz a), (Hz b); [now rewrite app_nil_r| |].
  - intros t' Hin. destruct (is_end (gt_event t')) eqn:Ee; [|reflexivity]. exfalso. destruct (In_nth_error _ _ Hin) as (i & Ei).
    assert (Hi : S (length a) + i = j).
    { eapply Hu; [|exact Ee]. rewrite E, nth_error_app2 by lia. replace (S (length a) + i - length a) with (S i) by lia. exact Ei. } lia.
  - intros t' Hin. destruct (is_end (gt_event t')) eqn:Ee; [|reflexivity]. exfalso. destruct (In_nth_error _ _ Hin) as (i & Ei).
    assert (Hl : i < length a) by (apply nth_error_Some; congruence).
    assert (Hi : i = j). { eapply Hu; [|exact Ee]. rewrite E, nth_error_app1 by lia. exact Ei. } lia.
Qed.

Lemma finished_thread x : finished x = true -> exists j t, nth_error (g_threads (gr_state x)) j = Some t /\ gt_todo t = [] /\ is_end (gt_event t) = true.
Proof.
  unfold finished, returned. intros H. apply existsb_exists in H. destruct H as (ev & Hin & He). apply in_flat_map in Hin. destruct Hin as (t & Ht & Hev).
  destruct (gt_todo t) eqn:Ed; [|destruct Hev]. destruct Hev as [<-|[]]. destruct (In_nth_error _ _ Ht) as (j & Ej). eauto.
Qed.
Lemma unfinished ts client k x : finished x = false -> flat_map (thread_contrib ts client k x) (g_threads (gr_state x)) = [].
Proof.
  unfold finished, returned. intros H. induction (g_threads (gr_state x)) as [|t l IH]; [reflexivity|]. cbn [flat_map] in *. rewrite existsb_app in H. apply orb_false_iff in H.
  destruct H as [H1 H2]. rewrite IH by exact H2. rewrite not_end_contrib; [reflexivity|]. intros [Ed Ee]. rewrite Ed in H1. cbn in H1. rewrite Ee in H1. discriminate.
Qed.

(** An orderly RPC has one call for End. *)
Lemma one_end x i j t t' : orderly x -> nth_error (g_threads (gr_state x)) i = Some t -> is_end (gt_event t) = true ->
  nth_error (g_threads (gr_state x)) j = Some t' -> is_end (gt_event t') = true -> i = j.
Proof.
  intros Ho Ei Hi Ej Hj. destruct Ho as (t0 & full & l1 & s1 & e & now & l2 & _ & _ & H1 & _ & H2 & _ & N1 & _ & _ & N2).
  { apply existsb_exists. exists (gt_event t). split; [|exact Hi]. apply in_map. eapply nth_error_In; eauto. }
  pose proof (run_trans _ _ _ _ _ _ H1 H2) as H3. pose proof (run_events _ _ _ _ H3) as Hev.
  unfold events in Hev. rewrite flat_map_app in Hev. cbn [flat_map g_threads grpc_init map app] in Hev. fold (events l1) in Hev. fold (events l2) in Hev.
  assert (Hpos : forall n y, nth_error (g_threads (gr_state x)) n = Some y -> is_end (gt_event y) = true -> n = length (events l1)).
  { intros n y En Hy. assert (Ee : nth_error (events l1 ++ GEnd (gr_client x) e now :: events l2) n = Some (gt_event y)).
    { rewrite <- Hev, nth_error_map, En. reflexivity. }
    assert (Hz : forall l, existsb is_end l = false -> ~ In (gt_event y) l).
    { intros l Hl Hin. rewrite (proj2 (existsb_exists is_end l)) in Hl; [discriminate|eauto]. }
    destruct (Nat.lt_trichotomy n (length (events l1))) as [L|[L|L]]; [exfalso|exact L|exfalso].
    - rewrite nth_error_app1 in Ee by exact L. eapply Hz; [exact N1|]. eapply nth_error_In; eauto.
    - rewrite nth_error_app2 in Ee by lia. destruct (n - length (events l1)) as [|m] eqn:Em; [lia|]. cbn in Ee. eapply Hz; [exact N2|]. eapply nth_error_In; eauto. }
  rewrite (Hpos i t Ei Hi), (Hpos j t' Ej Hj). reflexivity.
Qed.

Lemma end_time_of l1 c e now l2 : existsb is_end l1 = false -> end_time (l1 ++ GEnd c e now :: l2) = Some now.
Proof.
  intros H. unfold end_time. rewrite flat_map_app. replace (flat_map _ l1) with (@nil time); [reflexivity|].
  induction l1 as [|ev l1 IH]; [reflexivity|]. cbn [existsb] in H. apply orb_false_iff in H. destruct H as [H1 H2]. cbn [flat_map]. rewrite <- IH by exact H2.
  now destruct ev.
Qed.

Lemma named_regs (c : bool) regs lat sb sc rm rb lat' : named (end_measurements c regs lat) = rpc_measurements c sb sc rm rb lat' ->
  exists r1 r2 r3 r4 rest, regs = r1 :: r2 :: r3 :: r4 :: rest /\ f_of_Z r1 = f_of_Z sb /\ f_of_Z r2 = f_of_Z sc /\ f_of_Z r3 = f_of_Z rm /\ f_of_Z r4 = f_of_Z rb.
Proof.
  intros B. assert (L : length (named (end_measurements c regs lat)) = 5) by (rewrite B; destruct c; reflexivity).
  destruct regs as [|r1 [|r2 [|r3 [|r4 rest]]]]; try (destruct c; discriminate L).
  exists r1, r2, r3, r4, rest. split; [reflexivity|].
  split; [|split; [|split]]; [apply (f_equal (fun l => nth 0 (map snd l) f_zero)) in B|apply (f_equal (fun l => nth 1 (map snd l) f_zero)) in B|
    apply (f_equal (fun l => nth 2 (map snd l) f_zero)) in B|apply (f_equal (fun l => nth 3 (map snd l) f_zero)) in B]; destruct c; exact B.
Qed.

(** What a finished, orderly RPC contributes. *)
Lemma orderly_contrib ts client k x t0 full :
  rpc_inv ts x -> orderly x -> (gr_client x = false -> valid_value (method_name full)) -> rc_data (gr_ctx x) = Some (t0, full) -> finished x = true ->
  flat_map (thread_contrib ts client k x) (g_threads (gr_state x)) =
  if Bool.eqb (gr_client x) client && legal (method_name full) then [(shown_tags [(key_m client, method_name full)], dvalue k x)] else [].
Proof.
  intros R Ho Hv Hd Hf. destruct (finished_thread x Hf) as (j & t & Ej & Et & He).
  rewrite (single_contrib ts client k x j t Ej) by (intros i t' Ei Hi; eapply one_end; eauto).
  assert (Hside : side_ok (gr_client x) (gt_event t)) by (apply (ri_side _ _ R); apply in_map; eapply nth_error_In; eauto).
  destruct (gt_event t) as [| | |c e now|] eqn:Eev; try discriminate He. destruct Hside as [-> Hst].
  unfold thread_contrib. rewrite (thread_done _ _ Et), Hd, Eev. cbn [flat_map]. rewrite app_nil_r.
  rewrite (end_vsamples ts x _ full e t0 now _ _ _ R eq_refl Hst Hv Hd).
  pose proof Ho as Ho'. destruct Ho' as (t0' & full' & l1 & s1 & e' & now' & l2 & Hd' & Hclk & H1 & I1 & H2 & Pok & N1 & S2 & R2 & N2).
  { apply existsb_exists. exists (gt_event t). split; [|now rewrite Eev]. apply in_map. eapply nth_error_In; eauto. }
  rewrite Hd in Hd'. injection Hd' as <- <-.
  assert (Hdn : rc_data (gr_ctx x) <> None) by congruence.
  pose proof (run_trans _ _ _ _ _ _ H1 H2) as H3. pose proof (run_events _ _ _ _ H3) as Hev.
  unfold events in Hev. rewrite flat_map_app in Hev. cbn [flat_map g_threads grpc_init map app] in Hev. fold (events l1) in Hev. fold (events l2) in Hev.
  pose proof (run_events _ _ _ _ H1) as Hev1. cbn [g_threads grpc_init map app] in Hev1.
  assert (Hlen : length (g_threads s1) = length (events l1)) by (rewrite <- Hev1; now rewrite map_length).
  (* the call for End of the schedule is this one *)
  assert (Ethr : exists t', nth_error (g_threads (gr_state x)) (length (g_threads s1)) = Some t' /\ gt_event t' = GEnd (gr_client x) e' now').
  { assert (Ee : nth_error (map gt_event (g_threads (gr_state x))) (length (events l1)) = Some (GEnd (gr_client x) e' now')).
    { rewrite Hev, nth_error_app2, Nat.sub_diag by lia. reflexivity. }
    rewrite nth_error_map in Ee. rewrite Hlen. destruct (nth_error (g_threads (gr_state x)) (length (events l1))) as [t'|]; [|discriminate].
    exists t'. split; [reflexivity|]. cbn in Ee. congruence. }
  destruct Ethr as (t' & Et' & Eev').
  assert (j = length (g_threads s1)) as -> by (eapply one_end; eauto; [now rewrite Eev|now rewrite Eev']).
  rewrite Ej in Et'. injection Et' as <-. rewrite Eev in Eev'. injection Eev' as <- <-.
  assert (ES : sent_sizes (events (l1 ++ l2)) = sent_sizes (events l1)) by (rewrite events_app; unfold sent_sizes in *; now rewrite flat_map_app, S2, app_nil_r).
  assert (ER : received_sizes (events (l1 ++ l2)) = received_sizes (events l1)) by (rewrite events_app; unfold received_sizes in *; now rewrite flat_map_app, R2, app_nil_r).
  destruct (C57_accounting (gr_ctx x) t0 full (gr_client x) e now l1 l2 s1 (gr_state x) _ Hd (method_name_spec full) Hclk H1 H2)
    as (xs & sb & sc & rm & rb & st & A & B & C & D & _ & E1 & E2 & E3 & E4).
  { unfold payloads_ok in *. rewrite ES, ER. exact Pok. }
  { exists t. auto. }
  rewrite (idle_events_suffix _ l1 s1 Hdn H1 I1), ES, ER in *.
  (* the recording is that of this call *)
  pose proof (recs_run _ _ _ Hdn H3) as P. eapply Permutation_in in A; [|exact P]. apply in_map_iff in A. destruct A as (xs' & Exs & A). injection Exs as ->.
  unfold rpc_recs in A. apply in_flat_map in A. destruct A as (t' & Ht' & A).
  assert (Hsame : t' = t \/ is_end (gt_event t') = false).
  { destruct (is_end (gt_event t')) eqn:Ee; [left|now right]. destruct (In_nth_error _ _ Ht') as (i & Ei).
    assert (i = length (g_threads s1)) as -> by (eapply one_end; eauto; now rewrite Eev). congruence. }
  destruct Hsame as [->|Hno].
  2:{ exfalso. unfold thread_rec in A. destruct (gt_todo t'); [|destruct A]. rewrite Hd in A. destruct (gt_event t') as [c ff| | | |]; try destruct A; try discriminate Hno.
      - subst xs. cbn [tags_given flat_map begin_record] in C. rewrite app_nil_r in C. cbn [measurements_given flat_map begin_record app] in B.
        revert B. unfold rpc_measurements. destruct (gr_client x); discriminate.
      - destruct H. }
  rewrite (thread_done _ _ Et), Hd, Eev in A. destruct A as [<-|[]].
  change (measurements_given (end_opts (gr_client x) t0 full (gr_ctx x) e now (gt_regs t))) with
         (end_measurements (gr_client x) (gt_regs t) (in_ms (time_sub now t0)) ++ []) in B. rewrite app_nil_r in B.
  apply named_regs in B. destruct B as (r1 & r2 & r3 & r4 & rest & -> & V1 & V2 & V3 & V4). rewrite picked_d. destruct (Bool.eqb (gr_client x) client) eqn:Ec; cbn [andb]; [|now destruct (legal (method_name full))].
  destruct (legal (method_name full)); [|reflexivity]. apply eqb_prop in Ec. subst client. cbn [map]. f_equal. f_equal.
  - destruct (end_tags (st_heap ts) (gr_client x) (gr_ctx x) full e) as (t1 & t2 & T1 & T2); [now apply (server_tag ts x t0 full R Hv Hd)|].
    now rewrite (shown_one _ _ _ _ T1).
  - assert (Em : calls_made x = events l1 ++ GEnd (gr_client x) e now :: events l2) by exact Hev.
    assert (Es : sent_sizes (calls_made x) = sent_sizes (events l1)). { rewrite Em. unfold sent_sizes in *. rewrite flat_map_app. cbn [flat_map app]. now rewrite S2, app_nil_r. }
    assert (Er : received_sizes (calls_made x) = received_sizes (events l1)). { rewrite Em. unfold received_sizes in *. rewrite flat_map_app. cbn [flat_map app]. now rewrite R2, app_nil_r. }
    destruct k; cbn [reg_value nth dvalue]; rewrite ?Es, ?Er.
    + rewrite V1. f_equal. lia.
    + rewrite V4. f_equal. lia.
    + rewrite V2. f_equal. lia.
    + rewrite V3. f_equal. lia.
    + rewrite Hd, Em, (end_time_of _ _ _ _ _ N1). unfold ms_between, in_ms. rewrite time_sub_ok by exact Hclk. reflexivity.
Qed.

(** What an RPC contributed before is what it contributes now, or nothing. *)
Lemma contrib_before ts client k x1 x : orderly x -> evolves x1 x ->
  flat_map (thread_contrib ts client k x1) (g_threads (gr_state x1)) =
  if finished x1 then flat_map (thread_contrib ts client k x) (g_threads (gr_state x)) else [].
Proof.
  intros Ho (_ & Ec & l & Hl). destruct (finished x1) eqn:Hf; [|now apply unfinished].
  destruct (finished_thread x1 Hf) as (j & t & Ej & Et & He). pose proof (run_done _ _ _ _ _ _ Hl Ej Et) as Ej'.
  rewrite (single_contrib ts client k x j t Ej') by (intros i t' Ei Hi; eapply one_end; eauto).
  rewrite (single_contrib ts client k x1 j t Ej); [unfold thread_contrib; now rewrite Ec|].
  intros i t' Ei Hi. pose proof (run_events _ _ _ _ Hl) as Hev.
  assert (E1 : nth_error (map gt_event (g_threads (gr_state x))) i = Some (gt_event t')).
  { rewrite Hev, nth_error_app1; [now rewrite nth_error_map, Ei|]. rewrite map_length. apply nth_error_Some. congruence. }
  rewrite nth_error_map in E1. destruct (nth_error (g_threads (gr_state x)) i) as [t2|] eqn:E2; [|discriminate]. cbn in E1.
  eapply one_end; eauto. congruence.
Qed.

Lemma contrib_finished_before x1 x : evolves x1 x -> finished x1 = true -> finished x = true.
Proof.
  intros (_ & _ & l & Hl) Hf. destruct (finished_thread x1 Hf) as (j & t & Ej & Et & He). pose proof (run_done _ _ _ _ _ _ Hl Ej Et) as Ej'.
  unfold finished. apply existsb_exists. exists (gt_event t). split; [|exact He]. unfold returned. apply in_flat_map. exists t.
  split; [eapply nth_error_In; eauto|]. rewrite Et. now left.
Qed.

Definition d_entry (client : bool) (k : dkind) (x : grpc_rpc) : list (list (key * bytes) * f64) :=
  match rc_data (gr_ctx x) with
  | Some (_, full) => if Bool.eqb (gr_client x) client && legal (method_name full) then [(shown_tags [(key_m client, method_name full)], dvalue k x)] else []
  | None => []
  end.

Lemma contribs_since ts client k : forall l l1,
  (forall r x1, nth_error l1 r = Some x1 -> exists x, nth_error l r = Some x /\ evolves x1 x) ->
  (forall x, In x l -> rpc_inv ts x /\ orderly x) -> (client = false -> methods_ok l) ->
  Permutation (flat_map (fun x => flat_map (thread_contrib ts client k x) (g_threads (gr_state x))) l)
    (flat_map (fun x => flat_map (thread_contrib ts client k x) (g_threads (gr_state x))) l1 ++ flat_map (d_entry client k) (newly_finished l1 l)).
Proof.
  induction l as [|x l IH]; intros l1 Hv Hx Hm.
  - destruct l1 as [|x1 l1]; [apply Permutation_refl|]. destruct (Hv 0 x1 eq_refl) as (x & E & _). discriminate.
  - assert (Hhead : finished x = true -> flat_map (thread_contrib ts client k x) (g_threads (gr_state x)) = d_entry client k x).
    { intros Hf. destruct (Hx x (or_introl eq_refl)) as [R Ho]. unfold d_entry. destruct (rc_data (gr_ctx x)) as [[t0 full]|] eqn:Hd; [|now elim (ri_data _ _ R)].
      destruct client.
      - destruct (gr_client x) eqn:Ex; [rewrite <- Ex; apply (orderly_contrib ts (gr_client x) k x t0 full R Ho); auto; congruence|].
        cbn [Bool.eqb andb]. unfold thread_contrib. destruct (finished_thread x Hf) as (j & t & Ej & Et & He).
        fold (thread_contrib ts true k x). rewrite (single_contrib ts true k x j t Ej) by (intros i t' Ei Hi; eapply one_end; eauto).
        unfold thread_contrib. rewrite (thread_done _ _ Et), Hd.
        assert (Hs : side_ok (gr_client x) (gt_event t)) by (apply (ri_side _ _ R); apply in_map; eapply nth_error_In; eauto).
        destruct (gt_event t) as [| | |c e now|]; try discriminate He. destruct Hs as [-> Hst]. rewrite Ex. cbn [flat_map]. rewrite app_nil_r.
        rewrite vsamples_eq by reflexivity.
        change (given_ms (end_opts false t0 full (gr_ctx x) e now (gt_regs t))) with (end_measurements false (gt_regs t) (in_ms (time_sub now t0))).
        replace (picked (me_name (d_measure true k)) (end_measurements false (gt_regs t) (in_ms (time_sub now t0)))) with (@nil f64); [now destruct (forallb _ _)|].
        unfold end_measurements. rewrite picked_app. destruct k; destruct (gt_regs t) as [|q1 [|q2 [|q3 [|q4 q]]]]; reflexivity.
      - apply (orderly_contrib ts false k x t0 full R Ho); auto. intros Ex. eapply (Hm eq_refl x); eauto. now left. }
    assert (Htail : Permutation (flat_map (fun x => flat_map (thread_contrib ts client k x) (g_threads (gr_state x))) l)
      (flat_map (fun x => flat_map (thread_contrib ts client k x) (g_threads (gr_state x))) (tl l1) ++ flat_map (d_entry client k) (newly_finished (tl l1) l))).
    { apply IH.
      - intros r x1 Er. apply (Hv (S r) x1). destruct l1; [destruct r; discriminate|exact Er].
      - intros y Hy. apply Hx. now right.
      - intros Ec y t0 full Hy. apply (Hm Ec). now right. }
    cbn [flat_map newly_finished]. rewrite flat_map_app.
    destruct l1 as [|x1 l1]; cbn [tl flat_map app] in *.
    + cbn [negb andb]. rewrite andb_true_r. apply Permutation_app; [|exact Htail]. destruct (finished x) eqn:Hf.
      * rewrite Hhead by reflexivity. cbn [flat_map]. rewrite app_nil_r. apply Permutation_refl.
      * rewrite unfinished by exact Hf. apply Permutation_refl.
    + destruct (Hv 0 x1 eq_refl) as (x' & E & V). injection E as <-. destruct (Hx x (or_introl eq_refl)) as [R Ho].
      rewrite (contrib_before ts client k x1 x Ho V). destruct (finished x1) eqn:Hf1.
      * rewrite andb_false_r. cbn [flat_map app]. rewrite <- app_assoc. apply Permutation_app_head. exact Htail.
      * cbn [negb app]. rewrite andb_true_r. destruct (finished x) eqn:Hf.
        -- rewrite Hhead by reflexivity. cbn [flat_map]. rewrite app_nil_r. etransitivity; [apply Permutation_app_head; exact Htail|].
           rewrite !app_assoc. apply Permutation_app_tail, Permutation_app_comm.
        -- rewrite unfinished by exact Hf. exact Htail.
Qed.

Lemma contribs_d ts client k g1 g :
  (forall r x1, nth_error (gp_rpcs g1) r = Some x1 -> exists x, nth_error (gp_rpcs g) r = Some x /\ evolves x1 x) ->
  (forall x, In x (gp_rpcs g) -> rpc_inv ts x /\ orderly x) -> (client = false -> methods_ok (gp_rpcs g)) ->
  Permutation (contribs (st_heap ts) [key_m client] (me_name (d_measure client k)) g)
    (contribs (st_heap ts) [key_m client] (me_name (d_measure client k)) g1 ++ flat_map (d_entry client k) (newly_finished (gp_rpcs g1) (gp_rpcs g))).
Proof.
  intros H1 H2 H3. unfold contribs.
  rewrite (flat_map_ext _ _ (rpc_contrib_threads ts client k) (gp_rpcs g)), (flat_map_ext _ _ (rpc_contrib_threads ts client k) (gp_rpcs g1)).
  now apply contribs_since.
Qed.

(** The values of a row. *)
Lemma d_row client k m l : valid_value m ->
  map snd (filter (fun e => tags_eqb (fst e) (shown_tags [(key_m client, m)])) (flat_map (d_entry client k) l)) =
  map (dvalue k) (filter (fun x => Bool.eqb (gr_client x) client && has_method m (gr_ctx x)) l).
Proof.
  intros Hm. apply legal_spec in Hm. induction l as [|x l IH]; [reflexivity|]. cbn [flat_map filter]. rewrite filter_app, map_app, IH. unfold d_entry.
  change (has_method m (gr_ctx x)) with (match rc_data (gr_ctx x) with Some (_, full) => is_method m full | None => false end).
  destruct (rc_data (gr_ctx x)) as [[t0 full]|]; [|rewrite andb_false_r; reflexivity].
  destruct (Bool.eqb (gr_client x) client); [|reflexivity]. cbn [andb]. destruct (is_method m full) eqn:Em.
  - apply is_method_spec in Em. rewrite Em, Hm. cbn [filter fst]. destruct (tags_eqb_spec (shown_tags [(key_m client, m)]) (shown_tags [(key_m client, m)])); [reflexivity|contradiction].
  - destruct (legal (method_name full)); [|reflexivity]. cbn [filter fst].
    destruct (tags_eqb_spec (shown_tags [(key_m client, method_name full)]) (shown_tags [(key_m client, m)])) as [E|E]; [|reflexivity].
    apply shown_one_inj in E. apply is_method_spec in E. congruence.
Qed.
