(** Property theorems for plugin/ochttp: C53 to C56 and C62 to C64. *)

From Coq Require Import String.
From Coq Require Import List Arith NArith ZArith Bool Lia Permutation.
From Coq Require Import ZifyBool ZifyNat ZifyN.
From Verif Require Import Base GoMap Text Float64 TagModel TagSpec TagProofs TagProps AggModel AggProofs ViewModel WorkerModel WorkerSpec
  RecordModel RecordProps TraceTypes PropagationModel PropagationSpec PropagationProofs PropagationProps TraceModel HttpModel HttpSpec HttpProofs.
From Verif Require TracerModel TracerSpec TracerProps WorkerProps.
Import ListNotations.
Open Scope nat_scope.

(** A request that is not for a health endpoint. *)
Definition plain (r : request) : Prop := rq_path r <> bs "/healthz" /\ rq_path r <> bs "/_ah/health".

Lemma plain_health r : plain r -> is_health_endpoint (rq_path r) = false.
Proof.
  intros [H1 H2]. unfold is_health_endpoint.
  destruct (bytes_eqb_spec (rq_path r) (bs "/healthz")); [contradiction|].
  destruct (bytes_eqb_spec (rq_path r) (bs "/_ah/health")); [contradiction|]. reflexivity.
Qed.

(** The size of a request body as reported: -1 without a body, 0 if the length is not
    known. *)
Definition sent_size (r : request) : Z :=
  match rq_body r with NilBody => -1 | _ => Z.max 0 (rq_length r) end.
Lemma client_req_size_spec r : client_req_size r = sent_size r.
Proof. unfold client_req_size, sent_size. destruct (rq_body r); try reflexivity; destruct (Z.ltb_spec 0 (rq_length r)); lia. Qed.

(** The response size as reported by received_bytes: the bytes read, or the announced
    length if nothing was read. *)
Definition received_size (method : bytes) (clen n : Z) : Z :=
  if bytes_eq_dec method (bs "HEAD") then n
  else if (n =? 0)%Z && (0 <? clen)%Z then clen else n.

(** The measurements of a completed client request. *)
Definition client_measurements (sent received read : Z) (ms_latency : f64) : list (bytes * f64) :=
  [(bs "opencensus.io/http/client/sent_bytes", f_of_Z sent);
   (bs "opencensus.io/http/client/received_bytes", f_of_Z received);
   (bs "opencensus.io/http/client/roundtrip_latency", ms_latency);
   (bs "opencensus.io/http/client/latency", ms_latency);
   (bs "opencensus.io/http/client/response_bytes", f_of_Z read)] ++
  (if (sent <? 0)%Z then [] else [(bs "opencensus.io/http/client/request_bytes", f_of_Z sent)]).

(** A completion of a client request with the given HTTP status. *)
Definition client_completion (c : ctx) (status : Z) (l : list (bytes * f64)) (x : ctx * list mutator * list measurement) : Prop :=
  exists st ms, decimal status st /\ named ms = l /\
    x = (c, [Upsert (bs "http.status") st []; Upsert (bs "http_client_status") st []], ms).

Lemma tk_record_spec t now : clock_ok (tk_start t) now ->
  exists x, records [tk_record t now] = [x] /\
    client_completion (tk_ctx t) (tk_status t)
      (client_measurements (tk_req t) (if (tk_resp t =? 0)%Z && (0 <? tk_clen t)%Z then tk_clen t else tk_resp t) (tk_resp t)
         (ms_between (tk_start t) now)) x.
Proof.
  intros Hc. eexists. split; [reflexivity|]. eexists (itoa (tk_status t)), _. split; [apply itoa_decimal|]. split; [|reflexivity].
  rewrite named_app. unfold client_measurements, ms_between, in_ms. rewrite time_sub_ok by exact Hc.
  cbn [named flat_map m_int m_float me_name client_sent_bytes client_received_bytes client_roundtrip_latency client_latency client_response_bytes app].
  do 5 f_equal. destruct (Z.leb_spec 0 (tk_req t)), (Z.ltb_spec (tk_req t) 0); try lia; reflexivity.
Qed.

(** ** C53 *)

(** A response, its body used by one goroutine: one request is counted when the call is
    made; nothing else is recorded until a Read reports io.EOF or the body is closed;
    then the completion is recorded, once, whatever is done with the body later. *)
Theorem C53_response t r th c it hh sc status clen t0 t1 tk ops :
  plain r -> sizes_ok ops ->
  let out := round_trip t r th c it hh sc (BaseResp status clen) t0 t1 in
  ro_tracker out = Some tk ->
  let cs := ro_calls out ++ snd (use_body tk ops) in
  let c' := snd (fst (tag_new th c it (client_tags r))) in
  (exists ms, counts cs = [(c', ms)] /\ named ms = [(bs "opencensus.io/http/client/request_count", f_of_Z 1)]) /\
  match completed_at ops with
  | None => records cs = []
  | Some now => clock_ok t0 now ->
      exists x, records cs = [x] /\
        client_completion c' status
          (client_measurements (sent_size r) (received_size (rq_method r) clen (bytes_until ops)) (bytes_until ops) (ms_between t0 now)) x
  end.
Proof.
  intros Hp Hs out Htk cs c'. subst cs c' out. unfold round_trip in *. rewrite (plain_health _ Hp) in *.
  destruct (tag_new th c it (client_tags r)) as [[th' c'] e] eqn:Et. unfold trace_round_trip in *. cbn [fst snd ro_tracker ro_calls] in *.
  injection Htk as <-. set (tk := MkTk _ _ _ _ _ _ _).
  destruct (use_body_counts ops tk) as [Hcn _].
  rewrite counts_app, records_app, Hcn, app_nil_r. split; [eexists; split; reflexivity|].
  pose proof (use_body_records ops tk eq_refl) as Hr. specialize (Hr ltac:(cbn; lia)). rewrite Hr.
  destruct (completed_at ops) as [now|]; [|reflexivity]. intros Hc.
  match goal with |- context [records [tk_record ?T now]] => destruct (tk_record_spec T now Hc) as (x & Ex & Hx) end.
  exists x. split; [rewrite Ex; reflexivity|]. cbn [tk_with tk_ctx tk_status tk_req tk_resp tk_clen tk_start tk] in Hx.
  rewrite client_req_size_spec in Hx.
  assert (Hb : int64_of (0 + bytes_until ops) = bytes_until ops).
  { apply int64_of_small. destruct Hs as [H1 H2].
    assert (0 <= bytes_until ops <= fold_right Z.add 0 (map bytes_of ops))%Z; [|lia].
    clear - H1. induction ops as [|op ops IH]; cbn [bytes_until map fold_right]; [lia|].
    assert (0 <= bytes_of op)%Z by (apply H1; now left).
    assert (H1' : forall o, In o ops -> (0 <= bytes_of o)%Z) by (intros o Ho; apply H1; now right). specialize (IH H1').
    assert (0 <= fold_right Z.add 0 (map bytes_of ops))%Z by lia. destruct (completes op); lia. }
  rewrite Hb in Hx. unfold received_size. destruct (bytes_eqb_spec (rq_method r) (bs "HEAD")) as [E|E].
  - destruct (bytes_eq_dec (rq_method r) (bs "HEAD")); [|contradiction]. rewrite andb_false_r in Hx. exact Hx.
  - destruct (bytes_eq_dec (rq_method r) (bs "HEAD")); [contradiction|]. exact Hx.
Qed.

(** A transport error: one request is counted and one completion with status 500 is
    recorded before RoundTrip returns. *)
Theorem C53_error t r th c it hh sc msg t0 t1 :
  plain r -> clock_ok t0 t1 ->
  let out := round_trip t r th c it hh sc (BaseErr msg) t0 t1 in
  let c' := snd (fst (tag_new th c it (client_tags r))) in
  ro_tracker out = None /\
  (exists ms, counts (ro_calls out) = [(c', ms)] /\ named ms = [(bs "opencensus.io/http/client/request_count", f_of_Z 1)]) /\
  exists x, records (ro_calls out) = [x] /\
    client_completion c' 500 (client_measurements (sent_size r) 0 0 (ms_between t0 t1)) x.
Proof.
  intros Hp Hc out c'. subst out c'. unfold round_trip. rewrite (plain_health _ Hp).
  destruct (tag_new th c it (client_tags r)) as [[th' c'] e] eqn:Et. unfold trace_round_trip, tk_end. cbn [fst snd tk_done ro_calls ro_tracker].
  split; [reflexivity|]. split; [eexists; split; reflexivity|].
  match goal with |- context [tk_record ?T t1] => destruct (tk_record_spec T t1 Hc) as (x & Ex & Hx) end.
  exists x. split; [exact Ex|]. cbn [tk_ctx tk_status tk_req tk_resp tk_clen tk_start] in Hx. rewrite client_req_size_spec in Hx. exact Hx.
Qed.

(** A health endpoint is left alone: the base transport gets the caller's request, and
    nothing is recorded or traced. *)
Theorem C53_health t r th c it hh sc b t0 t1 :
  rq_path r = bs "/healthz" \/ rq_path r = bs "/_ah/health" ->
  round_trip t r th c it hh sc b t0 t1 = MkRT th hh [KBase (rq_header r)] None.
Proof. intros [E | E]; unfold round_trip; rewrite E; reflexivity. Qed.

(** Any number of goroutines using the body: for every interleaving the completion is
    recorded at most once; it is recorded if some Close, or some Read that met io.EOF,
    has returned; and only if there was such a call.  Its byte count is that of the
    reads that had been counted at that moment, which include the Read that met io.EOF
    if it is this Read that records. *)
Theorem C53_concurrent tk es b :
  tk_resp tk = 0%Z -> tk_done tk = false -> body_run (MkBody tk [] []) es = Some b ->
  length (records (bd_calls b)) <= 1 /\
  (forall op, In (op, []) (bd_threads b) -> completes op = true -> length (records (bd_calls b)) = 1) /\
  (records (bd_calls b) <> [] ->
     exists es1 i es2 bm now op ms, es = es1 ++ EvStep i :: es2 /\ body_run (MkBody tk [] []) es1 = Some bm /\
       nth_error (bd_threads bm) i = Some (op, MFinish now :: ms) /\ completes op = true /\ time_of op = now /\
       (clock_ok (tk_start tk) now ->
        exists x, records (bd_calls b) = [x] /\
          let n := int64_of (counted (bd_threads bm)) in
          client_completion (tk_ctx tk) (tk_status tk)
            (client_measurements (tk_req tk) (if (n =? 0)%Z && (0 <? tk_clen tk)%Z then tk_clen tk else n) n (ms_between (tk_start tk) now)) x) /\
       (forall k, op = BRead (REof k) now -> existsb has_add (MFinish now :: ms) = false)).
Proof.
  intros H0 Hd Hrun. pose proof (body_inv_init tk H0 Hd) as Hi.
  destruct (body_record tk es _ _ Hi Hd Hrun) as [[Hd' Hr] | (es1 & i & es2 & bm & now & -> & Hb & Hdm & (op & ms & Hn) & Hd' & Hr)].
  - rewrite Hr. split; [cbn; lia|]. split; [|congruence]. intros op Hin Hc. exfalso.
    pose proof (body_inv_run tk es _ _ Hi Hrun) as Hi'. enough (tk_done (bd_tracker b) = true) by congruence.
    apply (bi_done _ _ Hi'). exists op, []. auto.
  - rewrite Hr. split; [cbn; lia|]. split; [intros; reflexivity|]. intros _.
    exists es1, i, es2, bm, now, op, ms. split; [reflexivity|]. split; [exact Hb|]. split; [exact Hn|].
    pose proof (body_inv_run tk es1 _ _ Hi Hb) as Him. pose proof (bi_suffix _ _ Him op _ (nth_error_In _ _ Hn)) as Hsuf.
    apply suffix_cases in Hsuf.
    assert (Hop : completes op = true /\ time_of op = now /\ forall k, op = BRead (REof k) now -> existsb has_add (MFinish now :: ms) = false).
    { destruct op as [[k|k|k msg] nw | nw]; decompose [or] Hsuf; try discriminate;
        match goal with E : _ :: _ = _ :: _ |- _ => injection E; intros; subst end; repeat split; intros; try discriminate. }
    destruct Hop as (Hop1 & Hop2 & Hop3). split; [exact Hop1|]. split; [exact Hop2|]. split; [|exact Hop3].
    intros Hc. match goal with |- context [records [tk_record ?T now]] => destruct (tk_record_spec T now Hc) as (x & Ex & Hx) end.
    exists x. split; [exact Ex|]. exact Hx.
Qed.

(** *** Tags *)

(** [tag.New] with the client's mutators, in a context with the tags [f]. *)
Definition client_ctx_tags (r : request) (f : fmap) : fmap :=
  fun k =>
    if bytes_eq_dec k (bs "http.method") then Some (Content (rq_method r) (-1))
    else if bytes_eq_dec k (bs "http_client_method") then Some (Content (rq_method r) (-1))
    else if bytes_eq_dec k (bs "http.path") then Some (Content (rq_path r) (-1))
    else if bytes_eq_dec k (bs "http_client_path") then Some (Content (rq_path r) (-1))
    else if bytes_eq_dec k (bs "http.host") then Some (Content (rq_host r) (-1))
    else if bytes_eq_dec k (bs "http_client_host") then Some (Content (rq_host r) (-1))
    else f k.
Definition server_ctx_tags (r : request) (f : fmap) : fmap :=
  fun k =>
    if bytes_eq_dec k (bs "http.method") then Some (Content (rq_method r) (-1))
    else if bytes_eq_dec k (bs "http.path") then Some (Content (rq_path r) (-1))
    else if bytes_eq_dec k (bs "http.host") then Some (Content (rq_host r) (-1))
    else f k.
Definition valid_request (r : request) : Prop := valid_value (rq_host r) /\ valid_value (rq_path r) /\ valid_value (rq_method r).

Lemma fset_at f k c k' : fset f k c k' = if bytes_eq_dec k' k then Some c else f k'.
Proof. unfold fset. destruct (bytes_eq_dec k k'), (bytes_eq_dec k' k); congruence. Qed.

Lemma valid_value_dec v : valid_value v \/ ~ valid_value v.
Proof. destruct (check_value v) eqn:E; [left; now apply check_value_spec | right; now apply check_value_false]. Qed.

(** What the plugin's tag.New gives, for a list of mutators that use only the host, the
    path and the method. *)
Definition request_mutators (r : request) (mus : list mutator) : Prop :=
  (forall mu, In mu mus -> valid_key (mutator_key mu) /\
     (mu = Upsert (mutator_key mu) (rq_host r) [] \/ mu = Upsert (mutator_key mu) (rq_path r) [] \/ mu = Upsert (mutator_key mu) (rq_method r) [])) /\
  (exists k, In (Upsert k (rq_host r) []) mus) /\ (exists k, In (Upsert k (rq_path r) []) mus) /\ (exists k, In (Upsert k (rq_method r) []) mus).

Lemma ctx_tags s i it r mus h' c' e : request_mutators r mus ->
  tag_reach valid_key s -> let c := nth i (st_ctxs s) None in iterates (st_heap s) c it ->
  tag_new (st_heap s) c it mus = (h', c', e) ->
  (valid_request r -> forall k, ctx_fun h' c' k = fold_left (fun f mu => spec_mutate mu f) mus (ctx_fun (st_heap s) c) k) /\
  (~ valid_request r -> forall k, ctx_fun h' c' k = ctx_fun (st_heap s) c k) /\
  exists s' j, tag_reach valid_key s' /\ st_heap s' = h' /\ nth j (st_ctxs s') None = c'.
Proof.
  intros (Hall & (k1 & H1) & (k2 & H2) & (k3 & H3)) Hr c Hit En.
  destruct (C03_new s i it mus h' c' e Hr Hit En) as [Hgood Hbad]. split; [|split].
  - intros (V1 & V2 & V3) k. destruct Hgood as [_ Hg].
    { intros mu Hin. destruct (Hall mu Hin) as [_ [-> | [-> | ->]]]; assumption. }
    apply Hg.
  - intros Hv k. destruct Hbad as (_ & Hc).
    + destruct (valid_value_dec (rq_host r)) as [V1|V1]; [|exists (Upsert k1 (rq_host r) []); auto].
      destruct (valid_value_dec (rq_path r)) as [V2|V2]; [|exists (Upsert k2 (rq_path r) []); auto].
      destruct (valid_value_dec (rq_method r)) as [V3|V3]; [|exists (Upsert k3 (rq_method r) []); auto].
      exfalso. apply Hv. split; [exact V1|]. split; [exact V2 | exact V3].
    + rewrite Hc. fold c. rewrite Hc in En. fold c in En. clear Hc Hgood. pose proof (C03_isolation valid_key s [OpNew i it mus] c k Hr) as Hiso.
      cbn [fold_left tag_step] in Hiso. fold c in Hiso. rewrite En in Hiso. cbn [st_heap] in Hiso.
      destruct c as [p|] eqn:Ec; [|reflexivity]. apply Hiso. subst c.
      destruct (nth_in_or_default i (st_ctxs s) None) as [Hin | Hd]; [now rewrite Ec in Hin | congruence].
  - exists (tag_step s (OpNew i it mus)), (length (st_ctxs s)).
    split; [apply reach_new; auto; intros mu Hin; now apply Hall|].
    cbn [tag_step]. fold c. rewrite En. cbn [st_heap st_ctxs]. split; [reflexivity|]. now rewrite app_nth2, Nat.sub_diag by lia.
Qed.

Lemma client_mutators r : request_mutators r (client_tags r).
Proof.
  split; [|split; [|split]].
  - intros mu Hin. split.
    + cbn in Hin. decompose [or] Hin; try contradiction; subst mu; apply check_key_name_spec; reflexivity.
    + cbn in Hin. decompose [or] Hin; try contradiction; subst mu; cbn; auto.
  - exists key_host. cbn. auto.
  - exists key_path. cbn. auto 10.
  - exists key_method. cbn. auto 10.
Qed.
Lemma server_mutators r : request_mutators r (server_tags r).
Proof.
  split; [|split; [|split]].
  - intros mu Hin. split.
    + cbn in Hin. decompose [or] Hin; try contradiction; subst mu; apply check_key_name_spec; reflexivity.
    + cbn in Hin. decompose [or] Hin; try contradiction; subst mu; cbn; auto.
  - exists key_host. cbn. auto.
  - exists key_path. cbn. auto 10.
  - exists key_method. cbn. auto 10.
Qed.

Lemma upserts_ext mus : (forall mu, In mu mus -> exists k v l, mu = Upsert k v l) -> forall f g : fmap, (forall k, f k = g k) ->
  forall k, fold_left (fun f mu => spec_mutate mu f) mus f k = fold_left (fun f mu => spec_mutate mu f) mus g k.
Proof.
  induction mus as [|mu mus IH]; intros Hu f g E k; [apply E|]. cbn [fold_left]. apply IH; [intros; apply Hu; now right|].
  destruct (Hu mu) as (k0 & v & l & ->); [now left|]. intros k'. cbn [spec_mutate]. rewrite !fset_at. destruct (bytes_eq_dec k' k0); auto.
Qed.

(** The tags in the context with which the plugin goes on.  An invalid host, path or
    method means none of them: tag.New fails and its error is dropped. *)
Theorem C53_tags s i it r h' c' e :
  tag_reach valid_key s -> let c := nth i (st_ctxs s) None in iterates (st_heap s) c it ->
  tag_new (st_heap s) c it (client_tags r) = (h', c', e) ->
  (valid_request r -> forall k, ctx_fun h' c' k = client_ctx_tags r (ctx_fun (st_heap s) c) k) /\
  (~ valid_request r -> forall k, ctx_fun h' c' k = ctx_fun (st_heap s) c k).
Proof.
  intros Hr c Hit En. destruct (ctx_tags s i it r _ h' c' e (client_mutators r) Hr Hit En) as (H1 & H2 & _). split; [|exact H2].
  intros Hv k. rewrite (H1 Hv). cbn [client_tags fold_left spec_mutate]. rewrite !fset_at. reflexivity.
Qed.

Lemma decimal_valid z s : decimal z s -> (- 2 ^ 63 <= z < 2 ^ 63)%Z -> valid_value s.
Proof.
  intros (ds & n & Hv & _ & Hc & Hcase) Hz. apply dec_value_iff in Hv. destruct Hv as [Hd _].
  assert (Hp : Forall TagSpec.printable ds).
  { apply Forall_forall. intros a Ha. pose proof (proj1 (Forall_forall _ _) Hd a Ha) as H. cbn beta in H. unfold TagSpec.printable. lia. }
  assert (Hl : length ds <= 20).
  { destruct Hc as [-> | Hc]; [lia|]. destruct (le_lt_dec (length ds) 20) as [|Hlt]; [assumption|]. exfalso.
    assert (H1 : (10 ^ 20 <= 10 ^ N.of_nat (length ds - 1))%N) by (apply N.pow_le_mono_r; lia).
    assert (H2 : (10 ^ 20 = 100000000000000000000)%N) by reflexivity.
    destruct Hcase as [(_ & _ & ->) | (_ & _ & ->)]; lia. }
  destruct Hcase as [(_ & -> & _) | (_ & -> & _)]; (split; [cbn [length]; lia|]); [exact Hp|].
  constructor; [|exact Hp]. vm_compute. split; discriminate.
Qed.

Lemma delivered u h w s i it r mus th' c' e extra ms it' hp' out :
  request_mutators r mus -> (forall mu, In mu extra -> exists k v, mu = Upsert k v []) ->
  u_ok u -> Forall (cmd_ok u) h -> wrun u h w ->
  tag_reach valid_key s -> let c := nth i (st_ctxs s) None in iterates (st_heap s) c it ->
  tag_new (st_heap s) c it mus = (th', c', e) -> valid_request r ->
  ~ In None ms -> (exists m, In m ms /\ has_view u h m) ->
  iterates th' c' it' -> api_record_tags true (w_subs w) th' c' it' extra ms = (hp', out) ->
  ((exists mu, In mu extra /\ ~ mutator_ok mu) -> exists e, out = RecRet (Some e) None) /\
  ((forall mu, In mu extra -> mutator_ok mu) ->
   exists tm, out = RecRet None (Some (MkSent default_recorder tm ms [])) /\
    forall k, (match tm with Some m => as_fun m | None => fempty end) k =
      fold_left (fun f mu => spec_mutate mu f) (mus ++ extra) (ctx_fun (st_heap s) c) k).
Proof.
  intros Hmus Hex U Hok Hw Hr c Hit En Hv Hz Hview Hit' E.
  destruct (ctx_tags s i it r mus th' c' e Hmus Hr Hit En) as (H1 & _ & s' & j & Hr' & Eh & Ec).
  subst th'. pose proof (C16_record_with_tags u h w s' j it' extra ms hp' out U Hok Hw Hz Hr') as H16. cbv zeta in H16. rewrite Ec in H16.
  specialize (H16 Hit' E). destruct H16 as [_ H16]. specialize (H16 Hview). destruct H16 as [H16a H16]. split; [exact H16a|].
  intros Hgood. destruct (H16 Hgood) as (tm & Ho & Ht).
  exists tm. split; [exact Ho|]. intros k. rewrite Ht, fold_left_app. apply upserts_ext; [|exact (H1 Hv)].
  intros mu Hin. destruct (Hex mu Hin) as (k0 & v & ->). eauto.
Qed.

(** What the recording of a completion delivers to the views (C14 says what these make
    of it), if one of its measures has a registered view: the tags of the caller's
    context, with host, path, method and status set. *)
Theorem C53_delivered u h w s i it r th' c' e status st ms it' hp' out :
  u_ok u -> Forall (cmd_ok u) h -> wrun u h w ->
  tag_reach valid_key s -> let c := nth i (st_ctxs s) None in iterates (st_heap s) c it ->
  tag_new (st_heap s) c it (client_tags r) = (th', c', e) -> valid_request r ->
  (- 2 ^ 63 <= status < 2 ^ 63)%Z -> decimal status st ->
  ~ In None ms -> (exists m, In m ms /\ has_view u h m) -> iterates th' c' it' ->
  api_record_tags true (w_subs w) th' c' it' [Upsert (bs "http.status") st []; Upsert (bs "http_client_status") st []] ms = (hp', out) ->
  exists tm, out = RecRet None (Some (MkSent default_recorder tm ms [])) /\
    forall k, (match tm with Some m => as_fun m | None => fempty end) k =
      if bytes_eq_dec k (bs "http_client_status") then Some (Content st (-1))
      else if bytes_eq_dec k (bs "http.status") then Some (Content st (-1))
      else client_ctx_tags r (ctx_fun (st_heap s) c) k.
Proof.
  intros U Hok Hw Hr c Hit En Hv Hst Hdec Hz Hview Hit' E.
  pose proof (delivered u h w s i it r _ th' c' e [Upsert (bs "http.status") st []; Upsert (bs "http_client_status") st []]
                ms it' hp' out (client_mutators r)) as H.
  destruct (H ltac:(intros mu [<- | [<- | []]]; eauto) U Hok Hw Hr Hit En Hv Hz Hview Hit' E) as [_ H'].
  destruct H' as (tm & Ho & Ht).
  { pose proof (decimal_valid _ _ Hdec Hst) as V. intros mu [<- | [<- | []]]; exact V. }
  exists tm. split; [exact Ho|]. intros k. rewrite Ht.
  cbn [client_tags fold_left app spec_mutate]. rewrite !fset_at. reflexivity.
Qed.

(** Findings.  A request without a body is reported as having sent -1 bytes; a
    transport error has the status 500, where the documentation of KeyClientStatus
    announces the word error; a response whose body was never read is reported as
    received in full; a path of more than 255 bytes costs the request its host and
    method tags too. *)
Definition ex_req : request := MkReq (bs "example.com") (bs "/a") (bs "http://example.com/a") (bs "GET") (bs "agent") NilBody 0 0.
Definition ex_long : request := MkReq (bs "example.com") (repeat "/"%byte 256) (bs "u") (bs "GET") [] NilBody 0 0.
Definition ex_tr : transport := MkTr None None None.
Definition ex_sc : span_context := MkSC (bs "0123456789abcdef") (bs "01234567") 1 None.

Theorem C53_sent_bytes_refuted : exists r t0 t1 ms mu c,
  records (ro_calls (round_trip ex_tr r [] None [] [[]] ex_sc (BaseErr (bs "refused")) t0 t1)) = [(c, mu, ms)] /\
  In (bs "opencensus.io/http/client/sent_bytes", f_of_Z (-1)) (named ms).
Proof. exists ex_req, 0%Z, 1%Z. do 3 eexists. split; [vm_compute; reflexivity | left; vm_compute; reflexivity]. Qed.

Theorem C53_error_status_refuted : exists r t0 t1 ms mu c,
  records (ro_calls (round_trip ex_tr r [] None [] [[]] ex_sc (BaseErr (bs "refused")) t0 t1)) = [(c, mu, ms)] /\
  In (Upsert (bs "http_client_status") (bs "500") []) mu /\ ~ exists k l, In (Upsert k (bs "error") l) mu.
Proof.
  exists ex_req, 0%Z, 1%Z. do 3 eexists. split; [vm_compute; reflexivity|]. split; [right; left; vm_compute; reflexivity|].
  intros (k & l & [H | [H | []]]); injection H; discriminate.
Qed.

Theorem C53_unread_refuted : exists ops now tk c mu ms,
  completed_at ops = Some now /\ bytes_until ops = 0%Z /\
  ro_tracker (round_trip ex_tr ex_req [] None [] [[]] ex_sc (BaseResp 200 1000) 0 0) = Some tk /\
  records (snd (use_body tk ops)) = [(c, mu, ms)] /\
  In (bs "opencensus.io/http/client/received_bytes", f_of_Z 1000) (named ms).
Proof.
  exists [BClose 5], 5%Z. do 4 eexists. split; [reflexivity|]. split; [reflexivity|]. split; [vm_compute; reflexivity|].
  split; [vm_compute; reflexivity|]. right. left. vm_compute. reflexivity.
Qed.

Theorem C53_long_path_refuted : exists h' c' e,
  tag_new [] None [] (client_tags ex_long) = (h', c', Some e) /\ valid_value (rq_host ex_long) /\
  ctx_fun h' c' (bs "http.host") = None /\ ctx_fun h' c' (bs "http.method") = None.
Proof.
  do 3 eexists. split; [vm_compute; reflexivity|]. split; [apply check_value_spec; reflexivity|]. split; reflexivity.
Qed.

Print Assumptions C53_response.
Print Assumptions C53_error.
Print Assumptions C53_health.
Print Assumptions C53_concurrent.
Print Assumptions C53_tags.
Print Assumptions C53_delivered.

(** A request whose body is read in two goes and closed twice. *)
Example C53_nonvacuous :
  plain ex_req /\ sizes_ok [BRead (ROk 10) 1; BRead (REof 5) 2; BClose 3; BClose 4] /\
  exists tk c mu ms,
    ro_tracker (round_trip ex_tr ex_req [] None [] [[]] ex_sc (BaseResp 404 15) 0 0) = Some tk /\
    records (snd (use_body tk [BRead (ROk 10) 1; BRead (REof 5) 2; BClose 3; BClose 4])) = [(c, mu, ms)] /\
    mu = [Upsert (bs "http.status") (bs "404") []; Upsert (bs "http_client_status") (bs "404") []] /\
    In (bs "opencensus.io/http/client/received_bytes", f_of_Z 15) (named ms).
Proof.
  split; [split; discriminate|]. split.
  { split; [|reflexivity]. intros op H. cbn in H. decompose [or] H; subst; cbn; try lia; contradiction. }
  do 4 eexists. split; [vm_compute; reflexivity|]. split; [vm_compute; reflexivity|]. split; [vm_compute; reflexivity|].
  right. left. vm_compute. reflexivity.
Qed.

(** Two goroutines: one reads to the end while the other closes the body. *)
Example C53_concurrent_nonvacuous : exists b,
  body_run (MkBody (MkTk None 0 0 0 0 200 false) [] [])
    [EvCall (BRead (REof 7) 1); EvCall (BClose 2); EvStep 0; EvStep 1; EvStep 0; EvStep 0; EvStep 1] = Some b /\
  length (records (bd_calls b)) = 1 /\ In (BClose 2, []) (bd_threads b).
Proof. eexists. split; [vm_compute; reflexivity|]. split; [reflexivity | right; left; reflexivity]. Qed.

Example C53_tags_nonvacuous : tag_reach valid_key tag_init /\ valid_request ex_req /\ ~ valid_request ex_long.
Proof.
  split; [constructor|]. split.
  - split; [|split]; apply check_value_spec; reflexivity.
  - intros (_ & H & _). apply check_value_spec in H. vm_compute in H. discriminate.
Qed.
