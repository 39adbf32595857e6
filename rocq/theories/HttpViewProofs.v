(** What HTTP requests contribute to the views of plugin/ochttp. *)

From Coq Require Import String.
From Coq Require Import List Arith NArith ZArith Bool Lia Permutation.
From Coq Require Import ZifyBool ZifyNat ZifyN.
From Verif Require Import Base ListLib GoMap Text Float64 TagModel TagSpec TagProofs TagProps AggModel AggSpec AggProofs AggProps CollectorSpec CollectorProofs
  ViewModel WorkerModel WorkerSpec RecordModel RecordProps ProcessModel ProcessSpec ProcessProofs ProcessProps TraceTypes TraceModel.
From Verif Require Import GrpcProcProofs GrpcViewProofs.
From Verif Require Import HttpModel HttpSpec HttpProofs HttpProps HttpServerProps HttpProcModel HttpProcSpec HttpProcProofs.
From Verif Require Import WorkerProps.
Import ListNotations.
Open Scope nat_scope.

(** ** Runs *)

Lemma hrun_lower u l : forall h g g',
  u_ok u -> pinv u h (hp_proc g) -> hpinv g -> always (hact_ok u) g l -> hproc_run g l = Some g' ->
  pacts_ok u (hp_proc g) (hlower g l) /\ proc_run (hp_proc g) (hlower g l) = Some (hp_proc g') /\ hpinv g' /\ exists hs, pinv u (h ++ hs) (hp_proc g').
Proof.
  induction l as [|a l IH]; intros h g g' U HI HG Hok E.
  - injection E as <-. split; [exact I|]. split; [reflexivity|]. split; [exact HG|]. exists []. now rewrite app_nil_r.
  - cbn [hproc_run always hlower] in *. destruct Hok as [Ha Hok]. destruct (hproc_step g a) as [g1|] eqn:Es; [|discriminate].
    destruct (hstep_lower u h g a g1 U HI HG Ha Es) as (A1 & A2 & A3).
    destruct (run_inv u _ h _ _ U HI A1 A2) as (hs & I1 & _).
    destruct (IH (h ++ hs) g1 g' U I1 A3 Hok E) as (B1 & B2 & B3 & hs2 & B4).
    split; [|split; [|split; [exact B3|exists (hs ++ hs2); now rewrite app_assoc]]].
    + clear - A1 A2 B1. revert A1 A2 B1. generalize (hp_proc g) as p. generalize (hlower1 g a) as l0. induction l0 as [|b l0 IH]; intros p A1 A2 B1.
      * injection A2 as ->. exact B1.
      * cbn [app pacts_ok proc_run] in *. destruct A1 as [Hb A1]. split; [exact Hb|]. destruct (proc_step p b); [|exact I]. now apply IH.
    + rewrite proc_run_app, A2. exact B2.
Qed.

Lemma hpinv_init u : hpinv (hproc_init u).
Proof. intros x []. Qed.

Lemma always_app P l1 : forall l2 g g1, always P g (l1 ++ l2) -> hproc_run g l1 = Some g1 -> always P g l1 /\ always P g1 l2.
Proof.
  induction l1 as [|a l1 IH]; intros l2 g g1 H E; [injection E as <-; split; [exact I|exact H]|].
  cbn [app always hproc_run] in *. destruct H as [Ha H]. destruct (hproc_step g a) as [g2|]; [|discriminate].
  destruct (IH l2 g2 g1 H E) as [H1 H2]. tauto.
Qed.

Lemma hlower_keeps n l : forall g, (forall a, In a l -> happ_keeps n a) -> forall a, In a (hlower g l) -> ~ unregisters_name n a.
Proof.
  assert (X : forall it o now rs a, In a (map (to_pact it o now) rs) -> ~ unregisters_name n a).
  { intros it o now rs a Hin. apply in_map_iff in Hin. destruct Hin as (r & <- & _). intros []. }
  induction l as [|b l IH]; intros g H a Hin; [destruct Hin|]. cbn [hlower] in Hin. apply in_app_or in Hin. destruct Hin as [Hin|Hin].
  - specialize (H b (or_introl eq_refl)). destruct b; cbn [hlower1] in Hin.
    + destruct Hin as [<-|[]]. exact H.
    + destruct (is_health_endpoint _); [destruct Hin|]. destruct Hin as [<-|[]]. intros [].
    + destruct Hin as [<-|[]]. intros [].
    + destruct (nth_error (hp_reqs g) j) as [x|]; [|destruct Hin]. destruct (hq_todo x); [destruct Hin|]. eapply X; eauto.
    + destruct (nth_error (hp_reqs g) j) as [x|]; [|destruct Hin]. destruct (hq_body x); [|destruct Hin]. destruct (body_step _ _); [|destruct Hin]. eapply X; eauto.
  - destruct (hproc_step g b); [|destruct Hin]. eapply IH; [|exact Hin]. intros c Hc. apply H. now right.
Qed.

(** ** What the requests have recorded *)

Definition body_recs (x : hreq) : list rcd := match hq_body x with Some b => recs (bd_calls b) | None => [] end.
Definition hrecs (x : hreq) : list rcd := recs (hq_done x) ++ body_recs x.
Definition rsamples (hp : heap) (keys : list key) (m : bytes) (r : rcd) : list (list (key * bytes) * f64) := vsamples hp keys m (fst r) (snd r).
Definition hcontrib (hp : heap) (keys : list key) (m : bytes) (x : hreq) : list (list (key * bytes) * f64) := flat_map (rsamples hp keys m) (hrecs x).
Definition hcontribs (hp : heap) (keys : list key) (m : bytes) (g : hproc) : list (list (key * bytes) * f64) := flat_map (hcontrib hp keys m) (hp_reqs g).

Lemma to_pact_samples hp keys m it o now rs : map pv (all_samples hp keys m (map (to_pact it o now) rs)) = flat_map (rsamples hp keys m) rs.
Proof.
  induction rs as [|r rs IH]; [reflexivity|]. cbn [map to_pact all_samples flat_map]. rewrite map_app, vsamples_now. unfold all_samples in IH. now rewrite IH.
Qed.

Lemma hstep_contribs u g a g' hp keys m :
  hpinv g -> hact_ok u g a -> happ_avoids m a -> hproc_step g a = Some g' ->
  Permutation (hcontribs hp keys m g') (hcontribs hp keys m g ++ map pv (all_samples hp keys m (hlower1 g a))).
Proof.
  intros HG Ha Hav E. unfold hcontribs.
  destruct a as [a|t r i it hh sc b t0 t1|hd r hdr i it ops t0 t1|j it o now|j ev it o now]; cbn [hproc_step hlower1] in *.
  - destruct (proc_step (hp_proc g) a) as [p|]; [|discriminate]. injection E as <-. cbn [hp_reqs].
    replace (all_samples hp keys m [a]) with (@nil (list (key * bytes) * sample f64_num)); [rewrite app_nil_r; apply Permutation_refl|].
    destruct a as [| |c it xs o now]; try reflexivity. cbn [all_samples flat_map]. rewrite avoided_samples; [reflexivity|exact Hav].
  - cbv zeta in E. injection E as <-. cbn [hp_reqs]. rewrite flat_map_app. apply Permutation_app_head. cbn [flat_map]. rewrite app_nil_r.
    replace (all_samples hp keys m _) with (@nil (list (key * bytes) * sample f64_num)) by (now destruct (is_health_endpoint _)).
    unfold hcontrib, hrecs, body_recs. cbn [hq_done hq_body recs flat_map app]. destruct (ro_tracker _); apply Permutation_refl.
  - cbv zeta in E. injection E as <-. cbn [hp_reqs]. rewrite flat_map_app. apply Permutation_app_head. apply Permutation_refl.
  - destruct (nth_error (hp_reqs g) j) as [x|] eqn:Ex; [|discriminate]. destruct (hq_todo x) as [|k rest]; [discriminate|].
    destruct (perform _ _ _ _ _) as [p|]; [|discriminate]. injection E as <-. cbn [hp_reqs]. rewrite to_pact_samples.
    apply (flat_map_upd _ _ _ _ _ x Ex). unfold hcontrib, hrecs, body_recs. cbn [hq_done hq_body]. rewrite !recs_app, !flat_map_app, <- app_assoc, <- app_assoc.
    apply Permutation_app_head, Permutation_app_comm.
  - destruct (nth_error (hp_reqs g) j) as [x|] eqn:Ex; [|discriminate]. destruct (hq_todo x) eqn:Et; [|discriminate].
    destruct (hq_body x) as [b|] eqn:Eb; [|discriminate]. destruct (body_step b ev) as [b'|] eqn:Es; [|discriminate].
    destruct (perform _ _ _ _ _) as [p|]; [|discriminate]. injection E as <-. cbn [hp_reqs]. rewrite to_pact_samples.
    apply (flat_map_upd _ _ _ _ _ x Ex). unfold hcontrib, hrecs, body_recs. cbn [hq_done hq_body]. rewrite Eb, <- flat_map_app, <- app_assoc, <- recs_app.
    assert (Eq : bd_calls b ++ skipn (length (bd_calls b)) (bd_calls b') = bd_calls b').
    { destruct ev as [op|i]; cbn [body_step] in Es.
      - injection Es as <-. cbn [bd_calls]. rewrite skipn_all. apply app_nil_r.
      - destruct (nth_error (bd_threads b) i) as [[op [|mc ms]]|]; try discriminate. destruct (do_micro _ _) as [t1 cs]. injection Es as <-. cbn [bd_calls].
        now rewrite skipn_app_exact. }
    rewrite <- !recs_app, Eq. apply Permutation_refl.
Qed.

Lemma hrun_contribs u hp keys m l : forall h g g',
  u_ok u -> pinv u h (hp_proc g) -> hpinv g -> always (hact_ok u) g l -> (forall a, In a l -> happ_avoids m a) -> hproc_run g l = Some g' ->
  Permutation (hcontribs hp keys m g') (hcontribs hp keys m g ++ map pv (all_samples hp keys m (hlower g l))).
Proof.
  induction l as [|a l IH]; intros h g g' U HI HG Hok Hav E.
  - injection E as <-. cbn. rewrite app_nil_r. apply Permutation_refl.
  - cbn [hproc_run always hlower] in *. destruct Hok as [Ha Hok]. destruct (hproc_step g a) as [g1|] eqn:Es; [|discriminate].
    destruct (hstep_lower u h g a g1 U HI HG Ha Es) as (A1 & A2 & A3).
    destruct (run_inv u _ h _ _ U HI A1 A2) as (hs & I1 & _).
    etransitivity; [eapply (IH (h ++ hs)); eauto; intros b Hb; apply Hav; now right|].
    unfold all_samples. rewrite flat_map_app, map_app, app_assoc. apply Permutation_app_tail.
    eapply hstep_contribs; eauto. apply Hav. now left.
Qed.

(** ** The rows of any view *)

Lemma http_rows alone u v n m acts1 g1 acts g o sv :
  u_ok u -> hregistered_since alone u v n m acts1 g1 acts g -> spec_view u v = Some sv -> sv_name sv = n -> me_name (sv_measure sv) = m ->
  hpinv g /\ (forall x, In x (hp_reqs g1) -> hinv (pc_tags (hp_proc g)) x) /\
  exists rows ss, hshows o g n rows /\ grouped (sv_agg sv) ss rows /\
    Permutation (hcontribs (st_heap (pc_tags (hp_proc g))) (sv_keys sv) m g)
                (hcontribs (st_heap (pc_tags (hp_proc g))) (sv_keys sv) m g1 ++ map pv ss).
Proof.
  intros U (o1 & o0 & ps1 & ps2 & now & Hok & _ & E1 & E2 & Hfree & Hval & Hfirst & Hkeep) Es <- <-.
  set (reg := HApp (PCmd o0 (CmdRegister (ps1 ++ v :: ps2) now))) in *.
  destruct (always_app _ _ _ _ _ Hok E1) as [Hok1 Hok2].
  destruct (hrun_lower u acts1 [] (hproc_init u) g1 U (pinv_init u) (hpinv_init u) Hok1 E1) as (A1 & A2 & A3 & h1 & A4). cbn [app] in A4.
  destruct (hrun_lower u (reg :: acts) h1 g1 g U A4 A3 Hok2 E2) as (B1 & B2 & B3 & h2 & B4).
  pose proof E2 as E2'. pose proof Hok2 as Hok2'. cbn [hproc_run always] in E2', Hok2'. destruct Hok2' as [Hreg Hok3].
  destruct (hproc_step g1 reg) as [g2|] eqn:Er; [|discriminate].
  assert (Elow : hlower g1 (reg :: acts) = PCmd o0 (CmdRegister (ps1 ++ v :: ps2) now) :: hlower g2 acts).
  { cbn [hlower]. rewrite Er. reflexivity. }
  rewrite Elow in B1, B2.
  destruct (hstep_lower u h1 g1 reg g2 U A4 A3 Hreg Er) as (C1 & C2 & C3).
  destruct (run_inv u _ h1 _ _ U A4 C1 C2) as (hs & I1 & X1 & Y1 & _).
  destruct (hrun_lower u acts (h1 ++ hs) g2 g U I1 C3 Hok3 E2') as (D1 & D2 & _ & h3 & D4).
  destruct (run_inv u _ _ _ _ U I1 D1 D2) as (hs2 & _ & X2 & Y2 & _).
  split; [exact B3|]. split.
  { intros x Hx. eapply hinv_more; [apply (pi_tags _ _ _ A4)| | |apply A3; exact Hx].
    - eapply extends_trans; eauto.
    - eapply incl_tran; eauto. }
  assert (Hok' : pacts_ok u (proc_init u) (hlower (hproc_init u) acts1 ++ PCmd o0 (CmdRegister (ps1 ++ v :: ps2) now) :: hlower g2 acts)).
  { clear - A1 A2 B1. cbn [hproc_init hp_proc] in A1, A2. revert A1 A2 B1. generalize (proc_init u) as p. generalize (hlower (hproc_init u) acts1) as l0.
    induction l0 as [|b l0 IH]; intros p A1 A2 B1.
    - injection A2 as ->. exact B1.
    - cbn [app pacts_ok proc_run] in *. destruct A1 as [Hb A1]. split; [exact Hb|]. destruct (proc_step p b); [|exact I]. now apply IH. }
  destruct (C69_rows u (hlower (hproc_init u) acts1) (hp_proc g1) o1 o0 ps1 v ps2 now sv (hlower g2 acts) (hp_proc g) o U Hok' A2 B2 Hval Es Hfirst Hfree)
    as (_ & rows & R & G).
  { apply hlower_keeps. intros a Ha. now apply Hkeep. }
  exists rows. eexists. split; [exact R|]. split; [exact G|].
  pose proof (hrun_contribs u (st_heap (pc_tags (hp_proc g))) (sv_keys sv) (me_name (sv_measure sv)) acts (h1 ++ hs) g2 g U I1 C3 Hok3) as P.
  etransitivity; [apply P; [intros a Ha; now apply Hkeep|exact E2']|]. apply Permutation_app_tail.
  unfold hcontribs. replace (hp_reqs g2) with (hp_reqs g1); [apply Permutation_refl|].
  unfold reg in Er. cbn [hproc_step] in Er. destruct (proc_step (hp_proc g1) _) as [p|]; [|discriminate]. injection Er as <-. reflexivity.
Qed.

(** ** Each request *)

Lemma todo_count todo : existsb (fun k => match k with KRecord _ _ => true | _ => false end) todo = existsb (fun r : rcd => length (snd r) =? 1) (recs todo).
Proof. induction todo as [|k l IH]; [reflexivity|]. cbn [existsb recs flat_map]. rewrite IH. destruct k; reflexivity. Qed.
Lemma todo_record todo : existsb (fun k => match k with KRecordTags _ _ _ => true | _ => false end) todo = existsb (fun r : rcd => length (snd r) =? 2) (recs todo).
Proof. induction todo as [|k l IH]; [reflexivity|]. cbn [existsb recs flat_map]. rewrite IH. destruct k; reflexivity. Qed.

Definition end_rec (x : hreq) (r : rcd) : Prop :=
  match hq_side x with
  | HClient (BaseErr _) => r = crec (tkr x 500 0) (hq_t1 x)
  | HClient (BaseResp status clen) => exists resp now, r = crec (tk_with (tkr x status (resp_clen x clen)) resp false) now
  | HServer ops => r = srec x ops
  end.

Lemma app_one {A} (a b : list A) x : a ++ b = [x] -> (a = [] /\ b = [x]) \/ (a = [x] /\ b = []).
Proof. destruct a as [|y a]; [auto|]. destruct a; cbn; intros E; [injection E as -> ->; auto|discriminate]. Qed.
Lemma app_two {A} (a b : list A) x y : a ++ b = [x; y] -> (a = [] /\ b = [x; y]) \/ (a = [x] /\ b = [y]) \/ (a = [x; y] /\ b = []).
Proof.
  destruct a as [|z a]; [auto|]. intros E. cbn [app] in E. injection E as -> E. apply app_one in E. destruct E as [[-> ->]|[-> ->]]; auto.
Qed.

Lemma ended_done t b : body_inv t b ->
  existsb (fun t => completes (fst t) && negb (existsb (fun s => match s with MFinish _ => true | _ => false end) (snd t))) (bd_threads b) = tk_done (bd_tracker b).
Proof.
  intros Hi. pose proof (bi_done _ _ Hi) as Hd. destruct (tk_done (bd_tracker b)).
  - destruct Hd as [Hd _]. destruct (Hd eq_refl) as (op & ms & Hin & Hc & Hf). apply existsb_exists. exists (op, ms). split; [exact Hin|].
    cbn [fst snd]. rewrite Hc. change (fun s => match s with MFinish _ => true | _ => false end) with has_fin. now rewrite Hf.
  - destruct (existsb _ _) eqn:E; [|reflexivity]. apply existsb_exists in E. destruct E as ([op ms] & Hin & E). apply andb_true_iff in E. destruct E as [E1 E2].
    destruct Hd as [_ Hd]. rewrite Hd; [reflexivity|]. exists op, ms. split; [exact Hin|]. split; [exact E1|]. cbn [snd] in E2. now apply negb_true_iff.
Qed.

Lemma hrecs_shape ts x : hinv ts x ->
  exists e, hrecs x = (if begun x then [beg x] else []) ++ (if ended x then [e] else []) /\ (ended x = true -> end_rec x e).
Proof.
  intros [H1 H2 H3 H4 H5]. unfold begun, ended. rewrite todo_count, todo_record. unfold hrecs, body_recs, end_rec, plan in *.
  destruct (hq_side x) as [[msg|status clen]|ops] eqn:Esd.
  - assert (Hc : client_side x = true) by (unfold client_side; now rewrite Esd). rewrite observed_client by exact Hc. rewrite H5, app_nil_r.
    destruct (is_health_endpoint (rq_path (hq_req x))); cbn [negb andb].
    + apply app_eq_nil in H3. destruct H3 as [-> _]. exists (beg x). split; [reflexivity|discriminate].
    + exists (crec (tkr x 500 0) (hq_t1 x)). split; [|reflexivity].
      apply app_two in H3. destruct H3 as [[-> ->]|[[-> ->]|[-> ->]]]; reflexivity.
  - assert (Hc : client_side x = true) by (unfold client_side; now rewrite Esd). rewrite observed_client in * by exact Hc.
    destruct (is_health_endpoint (rq_path (hq_req x))); cbn [negb andb] in *.
    + rewrite H5. apply app_eq_nil in H3. destruct H3 as [-> _]. exists (beg x). split; [reflexivity|discriminate].
    + destruct H5 as (b & -> & Hi & Hr). rewrite (ended_done _ _ Hi).
      assert (Hd : recs (hq_done x) = if negb (existsb (fun r : rcd => length (snd r) =? 1) (recs (hq_todo x))) then [beg x] else []).
      { apply app_one in H3. destruct H3 as [[-> ->]|[-> ->]]; reflexivity. }
      rewrite Hd. destruct (tk_done (bd_tracker b)).
      * destruct Hr as (resp & now & ->). eexists. split; [reflexivity|]. intros _. eauto.
      * rewrite Hr. exists (beg x). split; [reflexivity|discriminate].
  - assert (Hc : observed x = true) by (unfold observed, client_side; now rewrite Esd). rewrite H5, app_nil_r, Hc. cbn [andb].
    exists (srec x ops). split; [|reflexivity]. apply app_two in H3. destruct H3 as [[-> ->]|[[-> ->]|[-> ->]]]; reflexivity.
Qed.

(** ** The views *)

Definition vkeys (v : hview) : list key := v_keys (hview_def (MkHA 0 0 0) v).
Definition vmeas (v : hview) : measure :=
  match v with
  | VcSentBytes | VcRequestBytes | VcCountByMethod => client_sent_bytes
  | VcReceivedBytes | VcResponseBytes => client_received_bytes
  | VcRoundtripLatency | VcCompletedCount | VcLatency | VcCountByStatus => client_roundtrip_latency
  | VcRequestCount => client_request_count
  | VsRequestCount | VsCountByMethod => server_request_count
  | VsRequestBytes => server_request_bytes | VsResponseBytes => server_response_bytes | VsLatency | VsCountByStatus => server_latency
  end.
Definition at_begin (v : hview) : bool := match v with VcRequestCount | VsRequestCount | VsCountByMethod => true | _ => false end.

Lemma picked_beg v (c : bool) : picked (me_name (vmeas v)) [m_int (if c then client_request_count else server_request_count) 1] =
  if Bool.eqb c (v_client v) && at_begin v then [f_of_Z 1] else [].
Proof. destruct v, c; reflexivity. Qed.

Definition cval (v : hview) (t : tracker) (now : time) : f64 :=
  match v with
  | VcSentBytes | VcRequestBytes | VcCountByMethod => f_of_Z (tk_req t)
  | VcReceivedBytes | VcResponseBytes => f_of_Z (if (tk_resp t =? 0)%Z && (0 <? tk_clen t)%Z then tk_clen t else tk_resp t)
  | _ => in_ms (time_sub now (tk_start t))
  end.
Lemma picked_crec v t now : picked (me_name (vmeas v)) (tk_ms t now) = if v_client v && negb (at_begin v) then [cval v t now] else [].
Proof. unfold tk_ms. cbv zeta. rewrite picked_app. destruct (0 <=? tk_req t)%Z; destruct v; reflexivity. Qed.

Definition sval (v : hview) (x : hreq) (ops : list hop) : f64 :=
  match v with
  | VsRequestBytes => f_of_Z (server_req_size (hq_req x))
  | VsResponseBytes => f_of_Z (int64_of (bytes_written (performed ops)))
  | _ => in_ms (time_sub (hq_t1 x) (hq_t0 x))
  end.
Lemma picked_srec v x a b : picked (me_name (vmeas v))
    ([m_float server_latency a; m_int server_response_bytes b] ++ (if (0 <=? server_req_size (hq_req x))%Z then [m_int server_request_bytes (server_req_size (hq_req x))] else [])) =
  if negb (v_client v) && negb (at_begin v) && match v with VsRequestBytes => match rq_body (hq_req x) with SomeBody => true | _ => false end | _ => true end
  then [match v with VsRequestBytes => f_of_Z (server_req_size (hq_req x)) | VsResponseBytes => f_of_Z b | _ => a end] else [].
Proof.
  rewrite picked_app.
  assert (H : match rq_body (hq_req x) with SomeBody => true | _ => false end = (0 <=? server_req_size (hq_req x))%Z).
  { unfold server_req_size. destruct (rq_body (hq_req x)); try reflexivity. destruct (Z.ltb_spec 0 (rq_length (hq_req x))); symmetry; apply Z.leb_le; lia. }
  rewrite H. destruct (0 <=? server_req_size (hq_req x))%Z; destruct v; reflexivity.
Qed.

(** The tags of the rows. *)
Lemma row_begin ts x v : hinv ts x -> observed x = true -> at_begin v = true -> (by_method v = true -> valid_request (hq_req x)) ->
  tags_shown (vkeys v) (ctx_fun (st_heap ts) (hq_tags x)) = hrow v (rq_method (hq_req x)) (itoa (hstatus x)).
Proof.
  intros Hi Ho Hv Hm. destruct v; try discriminate; try reflexivity.
  destruct (hi_tag _ _ Hi (Hm eq_refl) Ho) as [(ttl & E) _]. exact (shown_one key_method _ _ _ E).
Qed.

Lemma row_client ts x v : hinv ts x -> observed x = true -> client_side x = true -> v_client v = true -> at_begin v = false -> (by_method v = true -> valid_request (hq_req x)) ->
  tags_shown (vkeys v) (fold_left (fun f mu => spec_mutate mu f) [Upsert key_status (itoa (hstatus x)) []; Upsert key_client_status (itoa (hstatus x)) []]
                                  (ctx_fun (st_heap ts) (hq_tags x))) = hrow v (rq_method (hq_req x)) (itoa (hstatus x)).
Proof.
  intros Hi Ho Hc Hv Hb Hm. cbn [fold_left]. set (f := ctx_fun (st_heap ts) (hq_tags x)). set (st := itoa (hstatus x)).
  set (f2 := spec_mutate _ (spec_mutate _ f)).
  assert (F1 : exists t1, f2 key_client_status = Some (Content st t1)) by apply upsert_same.
  assert (F2 : exists t2, f2 key_status = Some (Content st t2)) by (unfold f2; rewrite upsert_other by discriminate; apply upsert_same).
  assert (F3 : valid_request (hq_req x) -> (exists t, f2 key_method = Some (Content (rq_method (hq_req x)) t)) /\ (exists t, f2 key_client_method = Some (Content (rq_method (hq_req x)) t))).
  { intros Hva. destruct (hi_tag _ _ Hi Hva Ho) as [T1 T2]. unfold f2. rewrite !upsert_other by discriminate. split; [exact T1|exact (T2 Hc)]. }
  destruct F1 as (t1 & F1). destruct F2 as (t2 & F2).
  destruct v; try discriminate; try reflexivity; try (destruct (F3 (Hm eq_refl)) as [(t3 & F3') (t4 & F4)]).
  - exact (shown_two key_client_method key_client_status _ _ _ _ _ F4 F1).
  - exact (shown_two key_client_method key_client_status _ _ _ _ _ F4 F1).
  - exact (shown_two key_client_method key_client_status _ _ _ _ _ F4 F1).
  - exact (shown_two key_client_method key_client_status _ _ _ _ _ F4 F1).
  - exact (shown_one key_method _ _ _ F3').
  - exact (shown_one key_status _ _ _ F2).
Qed.

Lemma row_server v f m st rts : v_client v = false -> at_begin v = false ->
  tags_shown (vkeys v) (fold_left (fun f mu => spec_mutate mu f) (Upsert key_status st [] :: map (fun r => Upsert key_server_route r []) rts) f) = hrow v m st.
Proof.
  intros Hv Hb. cbn [fold_left].
  assert (F : exists t, fold_left (fun f mu => spec_mutate mu f) (map (fun r => Upsert key_server_route r []) rts) (spec_mutate (Upsert key_status st []) f) key_status = Some (Content st t)).
  { change key_server_route with (bs "http_server_route"). rewrite fold_routes. destruct (bytes_eq_dec key_status (bs "http_server_route")) as [E|_]; [vm_compute in E; discriminate E|].
    apply upsert_same. }
  destruct F as (t & F). destruct v; try discriminate; try reflexivity. exact (shown_one key_status _ _ _ F).
Qed.

Lemma status_legal x : int64_range (hstatus x) -> legal (itoa (hstatus x)) = true.
Proof. intros H. apply legal_spec. eapply decimal_valid; [apply itoa_decimal|exact H]. Qed.

(** What the recordings contribute. *)
Lemma beg_samples ts x v : hinv ts x -> observed x = true -> (by_method v = true -> client_side x = v_client v -> valid_request (hq_req x)) ->
  rsamples (st_heap ts) (vkeys v) (me_name (vmeas v)) (beg x) =
  if Bool.eqb (client_side x) (v_client v) && at_begin v then [(hrow v (rq_method (hq_req x)) (itoa (hstatus x)), f_of_Z 1)] else [].
Proof.
  intros Hi Ho Hm. unfold rsamples, beg. cbn [fst snd]. rewrite vsamples_eq by reflexivity. 
  set (ms := [m_int (if client_side x then client_request_count else server_request_count) 1]).
  change (given_tags [WithMeasurements ms]) with (@nil mutator). change (given_ms [WithMeasurements ms]) with ms. cbn [forallb fold_left]. unfold ms.
  rewrite picked_beg. destruct (Bool.eqb (client_side x) (v_client v)) eqn:Ec; [|reflexivity]. destruct (at_begin v) eqn:Eb; [|reflexivity]. cbn [andb map].
  rewrite row_begin by (auto; intros; apply Hm; auto; now apply eqb_prop). reflexivity.
Qed.

Lemma crec_samples ts x v t now : hinv ts x -> observed x = true -> client_side x = true -> tk_ctx t = hq_tags x -> tk_status t = hstatus x ->
  (by_method v = true -> client_side x = v_client v -> valid_request (hq_req x)) ->
  rsamples (st_heap ts) (vkeys v) (me_name (vmeas v)) (crec t now) =
  if v_client v && negb (at_begin v) then [(hrow v (rq_method (hq_req x)) (itoa (hstatus x)), cval v t now)] else [].
Proof.
  intros Hi Ho Hc E1 E2 Hm. unfold rsamples, crec. cbn [fst snd]. rewrite vsamples_eq by reflexivity.
  change (given_tags _) with [Upsert key_status (itoa (tk_status t)) []; Upsert key_client_status (itoa (tk_status t)) []].
  match goal with |- context [given_ms ?l] => change (given_ms l) with (tk_ms t now) end. rewrite picked_crec, E1, E2.
  cbn [forallb legal_mutator]. rewrite status_legal by apply (hi_status _ _ Hi). cbn [andb].
  destruct (v_client v) eqn:Ev; [|reflexivity]. destruct (at_begin v) eqn:Eb; [reflexivity|]. cbn [negb andb map].
  rewrite row_client by (auto; intros; apply Hm; congruence). reflexivity.
Qed.

Lemma srec_samples ts x v ops : hinv ts x -> hq_side x = HServer ops ->
  rsamples (st_heap ts) (vkeys v) (me_name (vmeas v)) (srec x ops) =
  if negb (v_client v) && negb (at_begin v) && forallb legal (routes (performed ops)) &&
     match v with VsRequestBytes => match rq_body (hq_req x) with SomeBody => true | _ => false end | _ => true end
  then [(hrow v (rq_method (hq_req x)) (itoa (hstatus x)), sval v x ops)] else [].
Proof.
  intros Hi Es. unfold rsamples, srec. cbn [fst snd]. rewrite vsamples_eq by reflexivity.
  assert (Est : hstatus x = status_of (performed ops)) by (unfold hstatus; now rewrite Es).
  rewrite <- Est.
  match goal with |- context [given_tags ?l] => change (given_tags l) with (Upsert key_status (itoa (hstatus x)) [] :: map (fun r => Upsert key_server_route r []) (routes (performed ops))) end.
  match goal with |- context [given_ms ?l] => match l with [?a; WithMeasurements ?ms] => change (given_ms l) with ms end end.
  rewrite picked_srec.
  assert (El : forallb legal_mutator (Upsert key_status (itoa (hstatus x)) [] :: map (fun r => Upsert key_server_route r []) (routes (performed ops))) = forallb legal (routes (performed ops))).
  { cbn [forallb legal_mutator]. rewrite status_legal by apply (hi_status _ _ Hi). cbn [andb]. induction (routes (performed ops)) as [|r l IH]; [reflexivity|].
    cbn [map forallb legal_mutator]. now rewrite IH. }
  rewrite El. destruct (forallb legal (routes (performed ops))); [|now rewrite !andb_false_r]. rewrite andb_true_r.
  destruct (v_client v) eqn:Ev; [reflexivity|]. destruct (at_begin v) eqn:Eb; [reflexivity|]. cbn [negb andb].
  destruct (match v with VsRequestBytes => _ | _ => true end); [|reflexivity]. cbn [map].
  rewrite (row_server v _ (rq_method (hq_req x)) (itoa (hstatus x)) (routes (performed ops)) Ev Eb).
  reflexivity.
Qed.

Notation vcontrib ts v := (hcontrib (st_heap ts) (vkeys v) (me_name (vmeas v))).
Notation vrow v x := (hrow v (rq_method (hq_req x)) (itoa (hstatus x))).

Lemma begun_observed x : begun x = true -> observed x = true.
Proof. unfold begun. intros H. apply andb_true_iff in H. tauto. Qed.
Lemma ended_observed x : ended x = true -> observed x = true.
Proof. unfold ended. intros H. apply andb_true_iff in H. tauto. Qed.

Definition end_value (v : hview) (x : hreq) (r : rcd) (f : f64) : Prop :=
  match hq_side x with
  | HClient (BaseErr _) => f = cval v (tkr x 500 0) (hq_t1 x)
  | HClient (BaseResp status clen) => exists resp now, r = crec (tk_with (tkr x status (resp_clen x clen)) resp false) now /\
      f = cval v (tk_with (tkr x status (resp_clen x clen)) resp false) now
  | HServer ops => f = sval v x ops
  end.

Lemma end_samples ts x v r : hinv ts x -> observed x = true -> end_rec x r ->
  (by_method v = true -> client_side x = v_client v -> valid_request (hq_req x)) ->
  exists f, end_value v x r f /\
  rsamples (st_heap ts) (vkeys v) (me_name (vmeas v)) r =
  if Bool.eqb (client_side x) (v_client v) && negb (at_begin v) &&
     match hq_side x with HServer ops => forallb legal (routes (performed ops)) | HClient _ => true end &&
     match v with VsRequestBytes => match rq_body (hq_req x) with SomeBody => true | _ => false end | _ => true end
  then [(vrow v x, f)] else [].
Proof.
  intros Hi Ho He Hm. unfold end_rec in He. unfold end_value. destruct (hq_side x) as [[msg|status clen]|ops] eqn:Es.
  - assert (Hc : client_side x = true) by (unfold client_side; now rewrite Es). assert (Hst : hstatus x = 500%Z) by (unfold hstatus; now rewrite Es).
    subst r. eexists. split; [reflexivity|]. rewrite (crec_samples ts x v _ _ Hi Ho Hc) by (auto; now rewrite Hst). rewrite Hc.
    destruct v; reflexivity.
  - assert (Hc : client_side x = true) by (unfold client_side; now rewrite Es). assert (Hst : hstatus x = status) by (unfold hstatus; now rewrite Es).
    destruct He as (resp & now & ->). eexists. split; [eauto|]. rewrite (crec_samples ts x v _ _ Hi Ho Hc) by (auto; now rewrite Hst). rewrite Hc.
    destruct v; reflexivity.
  - assert (Hc : client_side x = false) by (unfold client_side; now rewrite Es).
    subst r. eexists. split; [reflexivity|]. rewrite (srec_samples ts x v ops Hi Es), Hc. destruct v; reflexivity.
Qed.

Lemma contrib_shape ts x v : hinv ts x -> (by_method v = true -> client_side x = v_client v -> valid_request (hq_req x)) ->
  exists r f, (counts_in v x = true -> at_begin v = false -> In r (hrecs x) /\ end_value v x r f) /\
    vcontrib ts v x = if counts_in v x then [(vrow v x, if at_begin v then f_of_Z 1 else f)] else [].
Proof.
  intros Hi Hm. destruct (hrecs_shape ts x Hi) as (e & Er & He). unfold hcontrib. rewrite Er, flat_map_app.
  assert (Hb : flat_map (rsamples (st_heap ts) (vkeys v) (me_name (vmeas v))) (if begun x then [beg x] else []) =
               if begun x && (Bool.eqb (client_side x) (v_client v) && at_begin v) then [(vrow v x, f_of_Z 1)] else []).
  { destruct (begun x) eqn:Eb; [|reflexivity]. cbn [flat_map andb]. rewrite app_nil_r. apply beg_samples; auto. now apply begun_observed. }
  rewrite Hb. clear Hb.
  destruct (ended x) eqn:Ee.
  - destruct (end_samples ts x v e Hi (ended_observed _ Ee) (He eq_refl) Hm) as (f & Hf & Es). exists e, f. split.
    + intros _ Ha. split; [apply in_or_app; right; now left|exact Hf].
    + cbn [flat_map]. rewrite app_nil_r, Es. unfold counts_in. rewrite Ee. destruct (Bool.eqb (client_side x) (v_client v)); [|now rewrite andb_false_r]. cbn [andb].
      destruct v; cbn [at_begin negb andb]; rewrite ?andb_true_r, ?andb_false_r; try (destruct (begun x); reflexivity);
        destruct (match hq_side x with HServer ops => _ | HClient _ => true end); reflexivity.
  - exists e, f_zero. split.
    + unfold counts_in. rewrite Ee. intros H Ha. exfalso. destruct (Bool.eqb _ _); [|discriminate]. destruct v; discriminate.
    + cbn [flat_map]. rewrite app_nil_r. unfold counts_in. rewrite Ee. destruct (Bool.eqb (client_side x) (v_client v)); [|now rewrite andb_false_r]. cbn [andb].
      destruct v; cbn [at_begin]; rewrite ?andb_true_r, ?andb_false_r; try reflexivity; destruct (begun x); reflexivity.
Qed.

(** ** Values *)

Definition hsolo (x : hreq) : Prop :=
  forall status clen b, hq_side x = HClient (BaseResp status clen) -> hq_body x = Some b -> sstate (tkr x status (resp_clen x clen)) b.
Definition hpsolo (g : hproc) : Prop := forall x, In x (hp_reqs g) -> hsolo x.

Lemma hstep_solo u g a g' : hpinv g -> hpsolo g -> hact_ok u g a -> body_alone g a -> hproc_step g a = Some g' -> hpsolo g'.
Proof.
  intros HG HS Ha Hal E. destruct a as [a|t r i it hh sc b t0 t1|hd r hdr i it ops t0 t1|j it o now|j ev it o now]; cbn [hproc_step] in E.
  - destruct (proc_step (hp_proc g) a); [|discriminate]. injection E as <-. exact HS.
  - cbv zeta in E. injection E as <-. intros x Hx. cbn [hp_reqs] in Hx. apply in_app_or in Hx. destruct Hx as [Hx|[<-|[]]]; [now apply HS|].
    intros status clen b0 Es Eb. cbn [hq_side hq_body] in *. injection Es as ->.
    unfold round_trip in Eb. destruct (is_health_endpoint (rq_path r)) eqn:Hh; [discriminate|].
    destruct (tag_new _ _ it (client_tags r)) as [[h' c'] e] eqn:En. destruct (trace_round_trip _ _ _ _ _) as [hh' calls]. cbn [ro_tracker option_map fst snd] in *.
    injection Eb as <-. apply bstate_init; reflexivity.
  - cbv zeta in E. injection E as <-. intros x Hx. cbn [hp_reqs] in Hx. apply in_app_or in Hx. destruct Hx as [Hx|[<-|[]]]; [now apply HS|].
    intros status clen b0 Es. discriminate.
  - destruct (nth_error (hp_reqs g) j) as [x|] eqn:Ex; [|discriminate]. destruct (hq_todo x) as [|k rest]; [discriminate|].
    destruct (perform _ _ _ _ _); [|discriminate]. injection E as <-. intros y Hy. cbn [hp_reqs] in Hy. apply upd_in in Hy.
    destruct Hy as [Hy|(x' & E' & ->)]; [now apply HS|]. exact (HS x' (nth_error_In _ _ E')).
  - destruct (nth_error (hp_reqs g) j) as [x|] eqn:Ex; [|discriminate]. destruct (hq_todo x); [|discriminate]. destruct (hq_body x) as [b|] eqn:Eb; [|discriminate].
    destruct (body_step b ev) as [b'|] eqn:Es; [|discriminate]. destruct (perform _ _ _ _ _); [|discriminate]. injection E as <-. intros y Hy. cbn [hp_reqs] in Hy.
    apply upd_in in Hy. destruct Hy as [Hy|(x' & E' & ->)]; [now apply HS|]. rewrite Ex in E'. injection E' as <-.
    intros status clen b0 Esd E0. cbn [hq_side hq_body] in *. injection E0 as <-.
    pose proof (HG x (nth_error_In _ _ Ex)) as Hi. pose proof (hi_body _ _ Hi) as Hb. rewrite Esd, Eb in Hb. destruct (observed x); [|discriminate].
    destruct Hb as (b1 & [= <-] & Hb). eapply (sstep (tkr x status (resp_clen x clen)) b ev b' Hb); [apply (HS x (nth_error_In _ _ Ex)); auto| |exact Es].
    intros op -> o0 ms Hin. cbn [body_alone] in Hal. eapply Hal; eauto.
Qed.

Lemma hrun_solo u l : forall h g g', u_ok u -> pinv u h (hp_proc g) -> hpinv g -> hpsolo g -> always (hact_ok u) g l -> always body_alone g l -> hproc_run g l = Some g' -> hpsolo g'.
Proof.
  induction l as [|a l IH]; intros h g g' U HI HG HS Hok Hal E; [now injection E as <-|].
  cbn [hproc_run always] in *. destruct Hok as [Ha Hok]. destruct Hal as [Hb Hal]. destruct (hproc_step g a) as [g1|] eqn:Es; [|discriminate].
  destruct (hstep_lower u h g a g1 U HI HG Ha Es) as (A1 & A2 & A3). destruct (run_inv u _ h _ _ U HI A1 A2) as (hs & I1 & _).
  exact (IH (h ++ hs) g1 g' U I1 A3 (hstep_solo u g a g1 HG HS Ha Hb Es) Hok Hal E).
Qed.

Lemma bytes_until_range ops : sizes_ok ops -> (0 <= bytes_until ops < 2 ^ 63)%Z.
Proof.
  intros [H1 H2]. assert (H : (0 <= bytes_until ops <= fold_right Z.add 0 (map bytes_of ops))%Z); [|lia]. clear H2.
  induction ops as [|op ops IH]; [cbn; lia|]. cbn [bytes_until map fold_right].
  assert (H0 : (0 <= bytes_of op)%Z) by (apply H1; now left). specialize (IH (fun o Ho => H1 o (or_intror Ho))). destruct (completes op); lia.
Qed.

Lemma end_value_exact ts x v r f : hinv ts x -> hsolo x -> in_range x -> counts_in v x = true -> at_begin v = false -> In r (hrecs x) -> end_value v x r f -> f = hvalue v x.
Proof.
  intros Hi Hs Hr Hc Hb Hin Hf. unfold end_value in Hf. unfold in_range in Hr. unfold counts_in in Hc. apply andb_true_iff in Hc. destruct Hc as [Hcl Hc]. apply eqb_prop in Hcl.
  unfold hvalue, hlatency, hreceived, hwritten. destruct (hq_side x) as [[msg|status clen]|ops] eqn:Esd.
  - assert (Hcs : client_side x = true) by (unfold client_side; now rewrite Esd). rewrite Hcs in Hcl. subst f.
    destruct v; try discriminate Hcl; try discriminate Hb; cbn [cval tkr tk_req tk_resp tk_clen tk_start];
      rewrite ?client_req_size_spec; try reflexivity; unfold ms_between, in_ms; now rewrite time_sub_ok.
  - assert (Hcs : client_side x = true) by (unfold client_side; now rewrite Esd). rewrite Hcs in Hcl.
    destruct Hf as (resp & now & -> & ->). assert (He : ended x = true) by (destruct v; try discriminate Hb; apply andb_true_iff in Hc; destruct Hc as [Hc _]; apply andb_true_iff in Hc; tauto).
    unfold ended in He. rewrite Esd in He. apply andb_true_iff in He. destruct He as [Ho He].
    pose proof (hi_body _ _ Hi) as Hbd. rewrite Esd, Ho in Hbd. destruct Hbd as (b & Ebd & Hst). rewrite Ebd in He. rewrite (ended_done _ _ (proj1 Hst)) in He.
    destruct (Hs status clen b Esd Ebd) as [_ Hex]. destruct (Hex He) as (now' & Hca & Hre). destruct Hr as [Hsz Hck].
    unfold body_ops in *. rewrite Ebd in *.
    assert (Heq : crec (tk_with (tkr x status (resp_clen x clen)) resp false) now = crec (tk_with (tkr x status (resp_clen x clen)) (int64_of (bytes_until (map fst (bd_threads b)))) false) now').
    { unfold hrecs, body_recs in Hin. rewrite Ebd, Hre in Hin. apply in_app_or in Hin. destruct Hin as [Hin|[Hin|[]]]; [|now symmetry].
      exfalso. assert (Hp : In (crec (tk_with (tkr x status (resp_clen x clen)) resp false) now) (plan x)) by (rewrite <- (hi_plan _ _ Hi); apply in_or_app; now left).
      unfold plan in Hp. rewrite Esd in Hp. destruct (is_health_endpoint _); [destruct Hp|]. destruct Hp as [Hp|[]]. unfold beg, crec in Hp. discriminate Hp. }
    pose proof (f_equal (fun r : rcd => match snd r with [_; WithMeasurements ms] => picked (me_name (vmeas v)) ms | _ => [] end) Heq) as Hpk.
    cbn [snd crec] in Hpk. rewrite !picked_crec, <- Hcl, Hb in Hpk. cbn [negb andb] in Hpk. injection Hpk as Hpk. rewrite Hpk. clear Hpk Heq.
    rewrite int64_of_small by (pose proof (bytes_until_range _ Hsz); lia). rewrite Hca. specialize (Hck _ Hca).
    destruct v; try discriminate Hcl; try discriminate Hb; cbn [cval tkr tk_with tk_req tk_resp tk_clen tk_start];
      rewrite ?client_req_size_spec; try reflexivity; try (unfold ms_between, in_ms; now rewrite time_sub_ok).
    + f_equal. unfold received_size, resp_clen. destruct (bytes_eqb_spec (rq_method (hq_req x)) (bs "HEAD")) as [E|E], (bytes_eq_dec (rq_method (hq_req x)) (bs "HEAD")); try contradiction; try reflexivity.
      change (0 <? 0)%Z with false. now rewrite andb_false_r.
    + f_equal. unfold received_size, resp_clen. destruct (bytes_eqb_spec (rq_method (hq_req x)) (bs "HEAD")) as [E|E], (bytes_eq_dec (rq_method (hq_req x)) (bs "HEAD")); try contradiction; try reflexivity.
      change (0 <? 0)%Z with false. now rewrite andb_false_r.
  - assert (Hcs : client_side x = false) by (unfold client_side; now rewrite Esd). rewrite Hcs in Hcl. subst f. destruct Hr as [Hck Hw].
    destruct v; try discriminate Hcl; try discriminate Hb; cbn [sval]; try (unfold ms_between, in_ms; now rewrite time_sub_ok).
    + f_equal. apply andb_true_iff in Hc. destruct Hc as [_ Hc]. unfold server_req_size. destruct (rq_body (hq_req x)); try discriminate Hc. destruct (Z.ltb_spec 0 (rq_length (hq_req x))); lia.
    + f_equal. apply int64_of_small. lia.
Qed.

(** ** Requests over time *)

Definition hevolves (x x' : hreq) : Prop :=
  hq_side x' = hq_side x /\ hq_req x' = hq_req x /\
  exists a b, recs (hq_done x') = recs (hq_done x) ++ a /\ body_recs x' = body_recs x ++ b.

Lemma hevolves_refl x : hevolves x x.
Proof. split; [reflexivity|]. split; [reflexivity|]. exists [], []. now rewrite !app_nil_r. Qed.
Lemma hevolves_trans x y z : hevolves x y -> hevolves y z -> hevolves x z.
Proof.
  intros (A1 & A2 & a & b & A3 & A4) (B1 & B2 & c & d & B3 & B4). split; [congruence|]. split; [congruence|]. exists (a ++ c), (b ++ d).
  rewrite B3, B4, A3, A4, !app_assoc. auto.
Qed.

Lemma hstep_evolves g a g' : hproc_step g a = Some g' -> forall j x, nth_error (hp_reqs g) j = Some x -> exists x', nth_error (hp_reqs g') j = Some x' /\ hevolves x x'.
Proof.
  intros E j x Hx. assert (Hlt : j < length (hp_reqs g)) by (apply nth_error_Some; congruence).
  destruct a as [a|t r i it hh sc b t0 t1|hd r hdr i it ops t0 t1|j0 it o now|j0 ev it o now]; cbn [hproc_step] in E.
  - destruct (proc_step (hp_proc g) a); [|discriminate]. injection E as <-. exists x. split; [exact Hx|apply hevolves_refl].
  - cbv zeta in E. injection E as <-. cbn [hp_reqs]. rewrite nth_error_app1 by exact Hlt. exists x. split; [exact Hx|apply hevolves_refl].
  - cbv zeta in E. injection E as <-. cbn [hp_reqs]. rewrite nth_error_app1 by exact Hlt. exists x. split; [exact Hx|apply hevolves_refl].
  - destruct (nth_error (hp_reqs g) j0) as [y|] eqn:Ey; [|discriminate]. destruct (hq_todo y) as [|k rest] eqn:Et; [discriminate|].
    destruct (perform _ _ _ _ _); [|discriminate]. injection E as <-. cbn [hp_reqs]. destruct (Nat.eq_dec j j0) as [->|Hn].
    + rewrite (nth_upd_at _ _ _ _ Hx). eexists. split; [reflexivity|]. split; [reflexivity|]. split; [reflexivity|]. exists (recs [k]), [].
      cbn [hq_done]. rewrite recs_app, app_nil_r. auto.
    + rewrite nth_upd_else by exact Hn. exists x. split; [exact Hx|apply hevolves_refl].
  - destruct (nth_error (hp_reqs g) j0) as [y|] eqn:Ey; [|discriminate]. destruct (hq_todo y) eqn:Et; [|discriminate]. destruct (hq_body y) as [b|] eqn:Eb; [|discriminate].
    destruct (body_step b ev) as [b'|] eqn:Es; [|discriminate]. destruct (perform _ _ _ _ _); [|discriminate]. injection E as <-. cbn [hp_reqs]. destruct (Nat.eq_dec j j0) as [->|Hn].
    + rewrite (nth_upd_at _ _ _ _ Hx). rewrite Ey in Hx. injection Hx as ->. eexists. split; [reflexivity|]. split; [reflexivity|]. split; [reflexivity|].
      assert (Hc : exists cs, bd_calls b' = bd_calls b ++ cs).
      { destruct ev as [op|i]; cbn [body_step] in Es; [injection Es as <-; exists []; cbn [bd_calls]; now rewrite app_nil_r|].
        destruct (nth_error (bd_threads b) i) as [[op [|m ms]]|]; try discriminate. destruct (do_micro _ _) as [t1 cs]. injection Es as <-. exists cs. reflexivity. }
      destruct Hc as (cs & Hc). exists [], (recs cs). unfold body_recs. cbn [hq_done hq_body]. rewrite Eb, Hc, !recs_app, app_nil_r. auto.
    + rewrite nth_upd_else by exact Hn. exists x. split; [exact Hx|apply hevolves_refl].
Qed.
Lemma hrun_evolves l : forall g g', hproc_run g l = Some g' -> forall j x, nth_error (hp_reqs g) j = Some x -> exists x', nth_error (hp_reqs g') j = Some x' /\ hevolves x x'.
Proof.
  induction l as [|a l IH]; intros g g' E j x Hx; [injection E as <-; exists x; split; [exact Hx|apply hevolves_refl]|].
  cbn [hproc_run] in E. destruct (hproc_step g a) as [g1|] eqn:Es; [|discriminate].
  destruct (hstep_evolves g a g1 Es j x Hx) as (y & Hy & H1). destruct (IH g1 g' E j y Hy) as (z & Hz & H2). exists z. split; [exact Hz|]. eapply hevolves_trans; eauto.
Qed.

Lemma evolves_contrib hp keys m x x' : hevolves x x' -> exists l, Permutation (hcontrib hp keys m x') (hcontrib hp keys m x ++ l).
Proof.
  intros (_ & _ & a & b & E1 & E2). unfold hcontrib, hrecs. rewrite E1, E2, !flat_map_app. exists (flat_map (rsamples hp keys m) a ++ flat_map (rsamples hp keys m) b).
  rewrite <- !app_assoc. apply Permutation_app_head. rewrite !app_assoc. apply Permutation_app_tail, Permutation_app_comm.
Qed.

(** What came since. *)
Lemma contribs_newly ts v : forall l l1,
  (forall j x1, nth_error l1 j = Some x1 -> exists x, nth_error l j = Some x /\ hevolves x1 x) ->
  (forall x, In x l \/ In x l1 -> hinv ts x /\ (by_method v = true -> client_side x = v_client v -> valid_request (hq_req x))) ->
  Permutation (flat_map (vcontrib ts v) l) (flat_map (vcontrib ts v) l1 ++ flat_map (vcontrib ts v) (newly (counts_in v) l1 l)).
Proof.
  induction l as [|x l IH]; intros l1 Hev Hok.
  - destruct l1 as [|x1 l1]; [apply Permutation_refl|]. destruct (Hev 0 x1 eq_refl) as (y & Hy & _). discriminate.
  - assert (Htl : Permutation (flat_map (vcontrib ts v) l) (flat_map (vcontrib ts v) (tl l1) ++ flat_map (vcontrib ts v) (newly (counts_in v) (tl l1) l))).
    { apply IH.
      - intros j y Hy. destruct l1 as [|z l1]; [destruct j; discriminate|]. exact (Hev (S j) y Hy).
      - intros y Hy. apply Hok. destruct Hy as [Hy|Hy]; [left; now right|]. destruct l1; [destruct Hy|]. right. now right. }
    cbn [flat_map newly]. rewrite flat_map_app.
    assert (Hx : Permutation (vcontrib ts v x) (flat_map (vcontrib ts v) (firstn 1 l1) ++
              flat_map (vcontrib ts v) (if counts_in v x && negb (match l1 with x1 :: _ => counts_in v x1 | [] => false end) then [x] else []))).
    { destruct (Hok x (or_introl (or_introl eq_refl))) as [Hi Hm]. destruct (contrib_shape ts x v Hi Hm) as (r & f & _ & E).
      destruct l1 as [|x1 l1].
      - cbn [firstn flat_map app negb]. rewrite andb_true_r. destruct (counts_in v x) eqn:Ec; cbn [flat_map]; rewrite ?app_nil_r; [apply Permutation_refl|]. rewrite E. apply Permutation_refl.
      - cbn [firstn flat_map]. rewrite app_nil_r. destruct (Hev 0 x1 eq_refl) as (y & [= <-] & Hev1).
        destruct (Hok x1 (or_intror (or_introl eq_refl))) as [Hi1 Hm1]. destruct (contrib_shape ts x1 v Hi1 Hm1) as (r1 & f1 & _ & E1).
        destruct (evolves_contrib (st_heap ts) (vkeys v) (me_name (vmeas v)) x1 x Hev1) as (l0 & P).
        destruct (counts_in v x1) eqn:Ec1; cbn [negb].
        + rewrite andb_false_r. cbn [flat_map]. rewrite app_nil_r. rewrite P. rewrite E1. pose proof (Permutation_length P) as L. rewrite E, E1, app_length in L. cbn [length] in L.
          destruct (counts_in v x); cbn [length] in L; [|lia]. destruct l0; [|cbn in L; lia]. rewrite app_nil_r. apply Permutation_refl.
        + rewrite andb_true_r, E1. cbn [app]. destruct (counts_in v x) eqn:Ec; cbn [flat_map]; rewrite ?app_nil_r; [apply Permutation_refl|]. rewrite E. apply Permutation_refl. }
    rewrite Hx, Htl. replace (flat_map (vcontrib ts v) l1) with (flat_map (vcontrib ts v) (firstn 1 l1) ++ flat_map (vcontrib ts v) (tl l1)) by (destruct l1; [reflexivity|]; cbn [firstn flat_map tl]; now rewrite app_nil_r).
    rewrite <- !app_assoc. apply Permutation_app_head. rewrite !app_assoc. apply Permutation_app_tail, Permutation_app_comm.
Qed.

Lemma newly_in p l : forall l1 x, In x (newly p l1 l) -> In x l /\ p x = true.
Proof.
  induction l as [|y l IH]; intros l1 x Hin; [destruct Hin|]. cbn [newly] in Hin. apply in_app_or in Hin. destruct Hin as [Hin|Hin].
  - destruct (p y) eqn:E; [|destruct Hin]. destruct (negb _); [|destruct Hin]. destruct Hin as [<-|[]]. split; [now left|exact E].
  - destruct (IH _ _ Hin) as [H1 H2]. split; [now right|exact H2].
Qed.
