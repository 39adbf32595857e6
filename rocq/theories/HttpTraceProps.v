(** Property theorems for the tracing side of plugin/ochttp and for its server handler:
    C54 to C56 and C62 to C64. *)

From Coq Require Import String.
From Coq Require Import List Arith NArith ZArith Bool Lia Permutation.
From Coq Require Import ZifyBool ZifyNat ZifyN.
From Verif Require Import Base GoMap Text Float64 TagModel TagSpec TagProofs TagProps AggModel AggProofs ViewModel WorkerModel WorkerSpec
  RecordModel RecordProps TraceTypes PropagationModel PropagationSpec PropagationProofs PropagationProps TraceModel
  SpanStoreSpec TracerModel TracerSpec TracerProps HttpModel HttpSpec HttpProofs HttpProps.
Import ListNotations.
Open Scope nat_scope.

(** ** What is expected on a span *)

(** The attributes of the span of a request, [status] being that of the response. *)
Definition http_attr (r : request) (status : option Z) (k : bytes) : option attr :=
  if bytes_eq_dec k (bs "http.status_code") then option_map AvInt status
  else if bytes_eq_dec k (bs "http.path") then Some (AvStr (rq_path r))
  else if bytes_eq_dec k (bs "http.url") then Some (AvStr (rq_url r))
  else if bytes_eq_dec k (bs "http.host") then Some (AvStr (rq_host r))
  else if bytes_eq_dec k (bs "http.method") then Some (AvStr (rq_method r))
  else if bytes_eq_dec k (bs "http.user_agent") then match rq_agent r with [] => None | a => Some (AvStr a) end
  else None.

(** The updates [us] made to a span before it is ended: its statuses, the attributes,
    message events and links, and nothing else. *)
Record updates_ok (us : list supd) (sts : list (Z * bytes)) (attrs : bytes -> option attr) (mes : list msgevent) (lks : list link) : Prop := {
  uo_statuses : statuses us = sts;
  uo_attrs : forall k, last_val k (sets us) = attrs k;
  uo_few : length (sets us) <= 6;
  uo_msgs : msgs us = mes;
  uo_links : links us = lks;
  uo_names : names us = [];
  uo_annots : annots us = [] }.

(** Decides an equation between a lookup in a list of literal keys and a chain of
    comparisons with them. *)
Ltac keys k :=
  repeat match goal with |- context [bytes_eq_dec k ?x] =>
    destruct (bytes_eq_dec k x); [subst k; vm_compute; reflexivity|] end.

Lemma last_val_app k a b : last_val k (a ++ b) = match last_val k b with Some v => Some v | None => last_val k a end.
Proof.
  unfold last_val. rewrite flat_map_app.
  set (f := fun kv : bytes * attr => if bytes_eqb (fst kv) k then [Some (snd kv)] else []).
  assert (H : forall l, last (flat_map f l) None = None -> flat_map f l = []).
  { clear. induction l as [|x l IH] using rev_ind; [reflexivity|]. rewrite flat_map_app. cbn [flat_map]. rewrite app_nil_r.
    unfold f at 2 4. destruct (bytes_eqb (fst x) k); [rewrite last_last; discriminate|]. rewrite !app_nil_r. exact IH. }
  destruct (last (flat_map f b) None) as [v|] eqn:E.
  - destruct (flat_map f b) as [|y l] eqn:Eb; [discriminate|]. rewrite <- E. destruct (exists_last (l := y :: l)) as (l' & z & ->); [discriminate|].
    now rewrite app_assoc, !last_last.
  - now rewrite (H b E), app_nil_r.
Qed.
Lemma last_val_cons k k' v l : last_val k ((k', v) :: l) = match last_val k l with Some x => Some x | None => if bytes_eq_dec k k' then Some v else None end.
Proof.
  change ((k', v) :: l) with ([(k', v)] ++ l). rewrite last_val_app. destruct (last_val k l); [reflexivity|].
  unfold last_val. cbn [flat_map fst snd]. destruct (bytes_eqb_spec k' k) as [-> | Hne]; destruct (bytes_eq_dec k _); try congruence; reflexivity.
Qed.

(** The six keys are different: the order in which they are set does not matter. *)
Lemma request_attrs_spec r k : last_val k (request_attrs r) = http_attr r None k.
Proof.
  unfold request_attrs, http_attr. rewrite last_val_app.
  destruct (rq_agent r) as [|a0 a]; rewrite ?last_val_cons; change (last_val k []) with (@None attr); cbn beta iota;
    repeat match goal with
    | |- context [bytes_eq_dec ?y ?x] => destruct (bytes_eq_dec y x) as [?E|?E]
    end; try reflexivity; exfalso; subst; match goal with H : _ = _ |- _ => vm_compute in H; discriminate H end.
Qed.
Lemma response_attrs_spec r status k :
  last_val k (request_attrs r ++ [(bs "http.status_code", AvInt status)]) = http_attr r (Some status) k.
Proof.
  rewrite last_val_app, last_val_cons. change (last_val k []) with (@None attr). cbn beta iota. rewrite request_attrs_spec. unfold http_attr.
  destruct (bytes_eq_dec k (bs "http.status_code")); reflexivity.
Qed.
Lemma request_attrs_few r : length (request_attrs r) <= 5.
Proof. unfold request_attrs. rewrite app_length. destruct (rq_agent r); cbn [length]; lia. Qed.

Lemma statuses_app a b : statuses (a ++ b) = statuses a ++ statuses b.
Proof. apply flat_map_app. Qed.
Lemma sets_app a b : sets (a ++ b) = sets a ++ sets b.
Proof. apply flat_map_app. Qed.
Lemma msgs_app a b : msgs (a ++ b) = msgs a ++ msgs b.
Proof. apply flat_map_app. Qed.
Lemma links_app a b : links (a ++ b) = links a ++ links b.
Proof. apply flat_map_app. Qed.
Lemma names_app a b : names (a ++ b) = names a ++ names b.
Proof. apply flat_map_app. Qed.
Lemma annots_app a b : annots (a ++ b) = annots a ++ annots b.
Proof. apply flat_map_app. Qed.

Lemma set_errors (l : list bytes) : let us := map (fun m => USetStatus 2 m) l in
  statuses us = map (fun m => (2%Z, m)) l /\ sets us = [] /\ msgs us = [] /\ links us = [] /\ names us = [] /\ annots us = [].
Proof.
  cbv zeta. induction l as [|m l (H1 & H2 & H3 & H4 & H5 & H6)]; [repeat split|]. cbn [map].
  repeat split; cbn; try assumption. f_equal. exact H1.
Qed.

(** ** C54 *)

(** A response: one span is started, as a client span under the given name and sampler.
    Its End is called when a Read reports io.EOF or the body is closed, and not before.
    By then it has the attributes of the request and of the response and the status that
    belongs to the HTTP status, or, if a Read had failed, that failure. *)
Theorem C54_response t r th c it hh sc status clen t0 t1 tk ops :
  plain r ->
  let out := round_trip t r th c it hh sc (BaseResp status clen) t0 t1 in
  ro_tracker out = Some tk ->
  let cs := ro_calls out ++ snd (use_body tk ops) in
  let name := match tr_name t with Some n => n | None => rq_path r end in
  (exists xs, started cs = [(None, name, xs)] /\ opt_sampler xs = tr_sampler t /\ opt_kind xs = 2%Z) /\
  match completed_at ops with
  | None => before_end (on_span cs) = None
  | Some _ => exists us, before_end (on_span cs) = Some us /\
      updates_ok us (trace_status status :: map (fun m => (2%Z, m)) (errors_until ops)) (http_attr r (Some status)) [] []
  end.
Proof.
  intros Hp out Htk cs name. subst cs out name. unfold round_trip in *. rewrite (plain_health _ Hp) in *.
  destruct (tag_new th c it (client_tags r)) as [[th' c'] e] eqn:Et. unfold trace_round_trip in *. cbn [fst snd ro_tracker ro_calls] in *.
  injection Htk as <-. set (tk := MkTk _ _ _ _ _ _ _).
  destruct (use_body_counts ops tk) as [_ Hst].
  rewrite started_app, Hst, app_nil_r. split; [eexists; split; [reflexivity|]; split; reflexivity|].
  rewrite on_span_app, before_end_app, use_body_span. cbn [on_span flat_map app before_end option_map u_status].
  destruct (completed_at ops); [|reflexivity]. eexists. split; [reflexivity|].
  destruct (set_errors (errors_until ops)) as (H1 & H2 & H3 & H4 & H5 & H6).
  cbn [app option_map].
  match goal with |- updates_ok (?a :: ?b :: ?d :: ?l) _ _ _ _ => change (a :: b :: d :: l) with ([a; b; d] ++ l) end.
  split.
  - rewrite statuses_app, H1. destruct (trace_status status). reflexivity.
  - intros k. rewrite sets_app, H2, app_nil_r. cbn [sets flat_map]. rewrite !app_nil_r. apply response_attrs_spec.
  - rewrite sets_app, H2, app_nil_r. cbn [sets flat_map]. rewrite !app_nil_r, app_length. pose proof (request_attrs_few r). change (length (response_attrs status)) with 1. lia.
  - rewrite msgs_app, H3. reflexivity.
  - rewrite links_app, H4. reflexivity.
  - rewrite names_app, H5. reflexivity.
  - rewrite annots_app, H6. reflexivity.
Qed.

(** A transport error: the span ends, with status UNKNOWN and the error's message,
    before RoundTrip returns. *)
Theorem C54_error t r th c it hh sc msg t0 t1 :
  plain r ->
  let cs := ro_calls (round_trip t r th c it hh sc (BaseErr msg) t0 t1) in
  let name := match tr_name t with Some n => n | None => rq_path r end in
  (exists xs, started cs = [(None, name, xs)] /\ opt_sampler xs = tr_sampler t /\ opt_kind xs = 2%Z) /\
  exists us, before_end (on_span cs) = Some us /\ updates_ok us [(2%Z, msg)] (http_attr r None) [] [].
Proof.
  intros Hp cs name. subst cs name. unfold round_trip in *. rewrite (plain_health _ Hp) in *.
  destruct (tag_new th c it (client_tags r)) as [[th' c'] e] eqn:Et. unfold trace_round_trip, tk_end. cbn [fst snd tk_done ro_calls].
  split; [eexists; split; [reflexivity|]; split; reflexivity|].
  eexists. split; [reflexivity|]. split; try reflexivity.
  - intros k. cbn [sets flat_map]. rewrite app_nil_r. apply request_attrs_spec.
  - cbn [sets flat_map]. rewrite app_nil_r. pose proof (request_attrs_few r). lia.
Qed.

(** Any number of goroutines using the body: End has been called once some Close, or
    some Read that met io.EOF, has returned, and only if there was such a call. *)
Theorem C54_concurrent tk es b :
  tk_resp tk = 0%Z -> tk_done tk = false -> body_run (MkBody tk [] []) es = Some b ->
  (forall op, In (op, []) (bd_threads b) -> completes op = true -> In (KEnd SOwn) (bd_calls b)) /\
  (In (KEnd SOwn) (bd_calls b) -> exists op, In (EvCall op) es /\ completes op = true).
Proof.
  intros H0 Hd Hrun. pose proof (body_inv_run tk es _ _ (body_inv_init tk H0 Hd) Hrun) as Hi. split.
  - intros op Hin Hc. apply (bi_end _ _ Hi). exists op, []. auto.
  - intros Hin. apply (bi_end _ _ Hi) in Hin. destruct Hin as (op & ms & Hin & Hc & _). exists op. split; [|exact Hc].
    clear - Hin Hrun. assert (H : forall es b0 b, body_run b0 es = Some b -> In (op, ms) (bd_threads b) ->
                        (exists ms0, In (op, ms0) (bd_threads b0)) \/ In (EvCall op) es).
    { clear. induction es as [|e es IH]; intros b0 b Hr Hin; cbn in Hr.
      - injection Hr as <-. left. eauto.
      - destruct (body_step b0 e) as [b1|] eqn:Es; [|discriminate]. destruct (IH _ _ Hr Hin) as [(ms0 & H) | H]; [|right; now right].
        destruct e as [op'|i]; cbn in Es.
        + injection Es as <-. cbn [bd_threads] in H. apply in_app_or in H. destruct H as [H | [H | []]]; [left; eauto|].
          injection H as -> _. right. now left.
        + destruct (nth_error (bd_threads b0) i) as [[op1 [|m ms1]]|] eqn:En; try discriminate.
          destruct (do_micro (bd_tracker b0) m) as [t1 c1]. injection Es as <-. cbn [bd_threads] in H. left.
          destruct (upd_split _ i (fun _ => (op1, ms1)) _ En) as (a & d & E1 & _ & E2). rewrite E2 in H. rewrite E1.
          apply in_app_or in H. destruct H as [H | [H | H]].
          * exists ms0. apply in_or_app. now left.
          * injection H as -> _. exists (m :: ms1). apply in_or_app. right. now left.
          * exists ms0. apply in_or_app. right. now right. }
    destruct (H _ _ _ Hrun Hin) as [(ms0 & []) | H']. exact H'.
Qed.

(** *** The exported span *)

Lemma completed_fun h i ha ha' now now' :
  length (did (is_snap i) h) = 1 -> completed h i ha now -> completed h i ha' now' -> ha' = ha.
Proof.
  intros Hl (o & out & hb & E) (o' & out' & hb' & E'). rewrite E in Hl, E'. clear E h.
  unfold did in Hl. rewrite map_app, filter_app, app_length in Hl. cbn [map fst filter is_snap] in Hl. rewrite Nat.eqb_refl in Hl. cbn [length] in Hl.
  revert ha' E'. assert (H0 : filter (is_snap i) (map fst ha) = []) by (destruct (filter (is_snap i) (map fst ha)); [reflexivity | cbn in Hl; lia]).
  assert (H1 : filter (is_snap i) (map fst hb) = []) by (destruct (filter (is_snap i) (map fst hb)); [reflexivity | cbn in Hl; lia]).
  clear Hl. induction ha as [|x ha IH]; intros [|y ha'] E.
  - reflexivity.
  - injection E as <- E. exfalso. rewrite E, map_app, filter_app in H1. cbn [map fst filter is_snap] in H1. rewrite Nat.eqb_refl in H1.
    destruct (filter (is_snap i) (map fst ha')); discriminate.
  - injection E as -> E. cbn [map fst filter is_snap] in H0. rewrite Nat.eqb_refl in H0. discriminate.
  - injection E as <- E. cbn [map filter] in H0. destruct (is_snap i (fst x)); [discriminate|]. f_equal. now apply IH.
Qed.

Lemma recent_few l : length (recent l) <= length l.
Proof.
  unfold recent.
  enough (forall acc, length (fold_left (fun acc kv => fst kv :: filter (fun k => negb (bytes_eqb k (fst kv))) acc) l acc) <= length acc + length l) as H
    by apply (H []).
  induction l as [|[k v] l IH]; intros acc; cbn [fold_left length]; [lia|]. rewrite IH. cbn [length fst].
  assert (H : length (filter (fun k0 : bytes => negb (bytes_eqb k0 k)) acc) <= length acc).
  { clear. induction acc as [|a acc IH]; cbn; [lia|]. destruct (negb (bytes_eqb a k)); cbn; lia. }
  lia.
Qed.

(** What exporters get for a span that had such updates (the attribute limit being at
    least 6 when it was started; the default is 32). *)
Lemma updates_exported en h w e i sd h1 c hs sts attrs mes lks :
  trun en h w -> In (e, i, sd) (w_exports w) -> created h i h1 c -> completed h i hs (sd_end sd) ->
  updates_ok (upds hs i) sts attrs mes lks -> (6 <= limit_after ca_attrs 32 h1)%Z ->
  sd_kind sd = opt_kind (c_opts c) /\ sd_name sd = c_name c /\ sd_status sd = last sts (0%Z, []) /\
  (forall k, mget bytes_eqb (sd_attrs sd) k = attrs k) /\
  sd_msgs sd = lastn (Z.to_nat (limit_after ca_msgs 128 h1)) mes /\
  sd_links sd = lastn (Z.to_nat (limit_after ca_links 32 h1)) lks /\
  sd_dropped_attrs sd = 0 /\ sd_annots sd = [].
Proof.
  intros H Hin Hc Hd Hu Hlim.
  destruct (C30_only_registered _ _ _ _ _ _ H Hin) as (_ & _ & _ & Hone & _).
  destruct (exported_describes _ _ _ _ _ _ H Hin) as (h1' & c' & hs' & (s & parent & A & B & C & D & E) & _).
  destruct (C32_last_write _ _ _ _ _ _ H Hin) as (h2 & c2 & hs2 & B2 & D2 & _ & _ & _ & _ & F & _).
  destruct (created_fun _ _ _ _ _ _ Hc B) as [-> ->]. destruct (created_fun _ _ _ _ _ _ Hc B2) as [-> ->].
  pose proof (completed_fun _ _ _ _ _ _ Hone Hd D) as ->. pose proof (completed_fun _ _ _ _ _ _ Hone Hd D2) as ->.
  assert (Hfew : length (recent (sets (upds hs i))) <= Z.to_nat (limit_after ca_attrs 32 h1)).
  { pose proof (recent_few (sets (upds hs i))). pose proof (uo_few _ _ _ _ _ Hu). lia. }
  destruct (F Hfew) as [F1 F2].
  split; [apply (sk_kind _ _ _ _ _ _ _ _ E)|]. split; [rewrite (sk_name _ _ _ _ _ _ _ _ E), (uo_names _ _ _ _ _ Hu); reflexivity|].
  split; [rewrite (sk_status _ _ _ _ _ _ _ _ E), (uo_statuses _ _ _ _ _ Hu); reflexivity|].
  split; [intros k; rewrite F2; apply (uo_attrs _ _ _ _ _ Hu)|].
  split; [rewrite (sk_msgs _ _ _ _ _ _ _ _ E), (uo_msgs _ _ _ _ _ Hu); reflexivity|].
  split; [rewrite (sk_links _ _ _ _ _ _ _ _ E), (uo_links _ _ _ _ _ Hu); reflexivity|].
  split; [exact F1|].
  pose proof (sk_annots _ _ _ _ _ _ _ _ E) as Ha. rewrite (uo_annots _ _ _ _ _ Hu) in Ha. 
  change (annots []) with (@nil (time * list (bytes * attr) * bytes)) in Ha. unfold lastn in Ha. rewrite ?skipn_nil in Ha. cbn in Ha. inversion Ha. reflexivity.
Qed.

(** The exported client span, in any history of a program in which span [i] is the one
    that this round trip started and updated. *)
Theorem C54_exported en h w e i sd h1 cr hs t r th c it hh sc status clen t0 t1 tk ops :
  trun en h w -> In (e, i, sd) (w_exports w) -> created h i h1 cr -> completed h i hs (sd_end sd) ->
  plain r -> ro_tracker (round_trip t r th c it hh sc (BaseResp status clen) t0 t1) = Some tk ->
  let cs := ro_calls (round_trip t r th c it hh sc (BaseResp status clen) t0 t1) ++ snd (use_body tk ops) in
  started cs = [(None, c_name cr, c_opts cr)] -> before_end (on_span cs) = Some (upds hs i) ->
  (6 <= limit_after ca_attrs 32 h1)%Z ->
  sd_kind sd = 2%Z /\ sd_name sd = (match tr_name t with Some n => n | None => rq_path r end) /\
  sd_status sd = last (map (fun m => (2%Z, m)) (errors_until ops)) (trace_status status) /\
  forall k, mget bytes_eqb (sd_attrs sd) k = http_attr r (Some status) k.
Proof.
  intros H Hin Hc Hd Hp Htk cs Hst Hbe Hlim.
  destruct (C54_response t r th c it hh sc status clen t0 t1 tk ops Hp Htk) as [(xs & E1 & _ & Ek) E2]. fold cs in E1, E2.
  rewrite Hst in E1. injection E1 as En Ex. destruct (completed_at ops) as [now|]; [|congruence].
  destruct E2 as (us & Eu & Hu). rewrite Hbe in Eu. injection Eu as <-.
  destruct (updates_exported en h w e i sd h1 cr hs _ _ _ _ H Hin Hc Hd Hu Hlim) as (K & N & S & A & _).
  split; [congruence|]. split; [congruence|]. split; [|exact A]. rewrite S.
  generalize (map (fun m : bytes => (2%Z, m)) (errors_until ops)) as l. intros l. destruct (trace_status status) as [c0 m0]. clear.
  destruct l as [|x l]; [reflexivity|]. cbn [last]. destruct (exists_last (l := x :: l)) as (l' & z & E); [discriminate|].
  change (last (x :: l) (0%Z, []) = last (x :: l) (c0, m0)). rewrite E, !last_last. reflexivity.
Qed.

(** ** C56 *)

(** The codes of google.rpc.Code and their names. *)
Definition canonical_names : list bytes :=
  [bs "OK"; bs "CANCELLED"; bs "UNKNOWN"; bs "INVALID_ARGUMENT"; bs "DEADLINE_EXCEEDED"; bs "NOT_FOUND"; bs "ALREADY_EXISTS";
   bs "PERMISSION_DENIED"; bs "RESOURCE_EXHAUSTED"; bs "FAILED_PRECONDITION"; bs "ABORTED"; bs "OUT_OF_RANGE"; bs "UNIMPLEMENTED";
   bs "INTERNAL"; bs "UNAVAILABLE"; bs "DATA_LOSS"; bs "UNAUTHENTICATED"].

(** The table of the HTTP mapping, by name. *)
Definition status_table : list (Z * bytes) :=
  [(400, bs "INVALID_ARGUMENT"); (401, bs "UNAUTHENTICATED"); (403, bs "PERMISSION_DENIED"); (404, bs "NOT_FOUND");
   (409, bs "ALREADY_EXISTS"); (422, bs "INVALID_ARGUMENT"); (429, bs "RESOURCE_EXHAUSTED"); (499, bs "CANCELLED");
   (501, bs "UNIMPLEMENTED"); (503, bs "UNAVAILABLE"); (504, bs "DEADLINE_EXCEEDED")]%Z.

Lemma trace_status_other http : ~ In http (map fst status_table) ->
  trace_status http = if (200 <=? http)%Z && (http <? 400)%Z then (0%Z, bs "OK") else (2%Z, bs "UNKNOWN").
Proof.
  intros Hn. cbn [map fst status_table In] in Hn.
  assert (Hd : forall a : Z, http = a -> In a [400; 401; 403; 404; 409; 422; 429; 499; 501; 503; 504]%Z -> False).
  { intros a <- Ha. apply Hn. exact Ha. }
  unfold trace_status.
  destruct (Z.eq_dec http 200) as [-> | H200]; [reflexivity|].
  assert (E : match http with
    | 499 => 1 | 400 => 3 | 422 => 3 | 504 => 4 | 404 => 5 | 403 => 7 | 401 => 16 | 429 => 8 | 501 => 12 | 503 => 14 | 200 => 0 | 409 => 6
    | _ => if (http <? 200)%Z || (400 <=? http)%Z then 2 else 0
    end%Z = if (http <? 200)%Z || (400 <=? http)%Z then 2%Z else 0%Z).
  { destruct http as [|p|p]; try reflexivity.
    do 9 (destruct p as [p|p|]; try reflexivity; try (exfalso; eapply Hd; [reflexivity | cbn; tauto]); try congruence). }
  cbv zeta. rewrite E. destruct (Z.ltb_spec http 200), (Z.leb_spec 400 http), (Z.leb_spec 200 http), (Z.ltb_spec http 400); try lia; reflexivity.
Qed.

(** Every HTTP status gives a canonical code with its name: that of the table, else OK
    for 200 to 399 and UNKNOWN for all others. *)
Theorem C56_status http :
  let '(code, name) := trace_status http in
  (0 <= code)%Z /\ nth_error canonical_names (Z.to_nat code) = Some name /\
  (forall n, In (http, n) status_table -> name = n) /\
  (~ In http (map fst status_table) -> name = if (200 <=? http)%Z && (http <? 400)%Z then bs "OK" else bs "UNKNOWN").
Proof.
  destruct (in_dec Z.eq_dec http (map fst status_table)) as [Hin | Hn].
  - cbn [map fst status_table In] in Hin.
    decompose [or] Hin; try contradiction; subst http; cbn -[bs status_table canonical_names]; (split; [lia|]; split; [reflexivity|]; split;
      [intros n Hi; cbn [status_table In] in Hi; decompose [or] Hi; try contradiction;
       match goal with H : (_, _) = (_, _) |- _ => injection H; intros; subst; try discriminate; reflexivity end
      | intros Hx; exfalso; apply Hx; cbn; tauto]).
  - rewrite (trace_status_other _ Hn). destruct ((200 <=? http)%Z && (http <? 400)%Z).
    + split; [lia|]. split; [reflexivity|]. split; [|reflexivity]. intros n Hi. exfalso. apply Hn. apply (in_map fst) in Hi. exact Hi.
    + split; [lia|]. split; [reflexivity|]. split; [|reflexivity]. intros n Hi. exfalso. apply Hn. apply (in_map fst) in Hi. exact Hi.
Qed.

(** OK is for success only. *)
Theorem C56_ok http : fst (trace_status http) = 0%Z <-> (200 <= http < 400)%Z.
Proof.
  destruct (in_dec Z.eq_dec http (map fst status_table)) as [Hin | Hn].
  - cbn [map fst status_table In] in Hin. decompose [or] Hin; try contradiction; subst http; cbn; split; intros; try discriminate; lia.
  - rewrite (trace_status_other _ Hn). destruct ((200 <=? http)%Z && (http <? 400)%Z) eqn:E; cbn [fst]; split; intros; try discriminate; try lia; reflexivity.
Qed.

Print Assumptions C54_response.
Print Assumptions C54_error.
Print Assumptions C54_concurrent.
Print Assumptions C54_exported.
Print Assumptions C56_status.
Print Assumptions C56_ok.

Lemma list_cons {A} (a b : A) l m : a :: l = b :: m -> a = b /\ l = m.
Proof. intros H. injection H as -> ->. auto. Qed.

Lemma texec_fst ops : forall w h w', texec w ops = Some (h, w') -> map fst h = ops.
Proof.
  induction ops as [|op l IH]; intros w0 h w E; cbn [texec] in E.
  - injection E as <- <-. reflexivity.
  - destruct (tdo w0 op) as [w1 out | |]; try discriminate. destruct (texec w1 l) as [[h1 w2]|] eqn:Ee; [| discriminate].
    injection E as <- <-. cbn [map fst]. f_equal. eapply IH. exact Ee.
Qed.

(** A whole round trip: a read error, then the end of the body, then Close; the span is
    exported. *)
Definition ex_bops : list bop := [BRead (ROk 3) 1; BRead (RErr 0 (bs "reset")) 2; BRead (REof 2) 3; BClose 4].
Definition ex_tr_always : transport := MkTr None (Some always_sample) None.
Definition ex_rt : rt_out := round_trip ex_tr_always ex_req [] None [] [[]] ex_sc (BaseResp 404 5) 0 1.
Definition ex_tk : tracker := match ro_tracker ex_rt with Some tk => tk | None => MkTk None 0 0 0 0 0 true end.
Definition ex_cs : list call := ro_calls ex_rt ++ snd (use_body ex_tk ex_bops).
Definition ex_us : list supd := match before_end (on_span ex_cs) with Some us => us | None => [] end.
Definition ex_http_ops : list top :=
  [TRegister 7; TCreate PNone false (bs "/a") [WithSampler (Some always_sample); WithSpanKind 2] (sc_trace_id ex_sc) (sc_span_id ex_sc) 0] ++
  map (TUpdate (RSpan 0)) ex_us ++ [TEnd (RSpan 0); TSnap 0 id_order 5; TFinished 0; TExport 0 7; TEndDone 0].

Example C54_nonvacuous : exists h w sd h1 cr hs,
  trun false h w /\ In (7, 0, sd) (w_exports w) /\ created h 0 h1 cr /\ completed h 0 hs (sd_end sd) /\
  plain ex_req /\ ro_tracker ex_rt = Some ex_tk /\ started ex_cs = [(None, c_name cr, c_opts cr)] /\
  before_end (on_span ex_cs) = Some (upds hs 0) /\ (6 <= limit_after ca_attrs 32 h1)%Z /\ sd_status sd = (2%Z, bs "reset").
Proof.
  destruct (texec (init_world false) ex_http_ops) as [[h w]|] eqn:E.
  2:{ exfalso. apply (f_equal (fun x => match x with Some _ => true | None => false end)) in E. vm_compute in E. discriminate. }
  pose proof (texec_fst _ _ _ _ E) as Hf.
  assert (Hexp : map (fun x => (fst x, sd_end (snd x), sd_status (snd x))) (w_exports w) = [(7, 0, 5%Z, (2%Z, bs "reset"))]).
  { apply (f_equal (fun x => match x with Some (_, w) => map (fun x => (fst x, sd_end (snd x), sd_status (snd x))) (w_exports w) | None => [] end)) in E.
    rewrite <- E. vm_compute. reflexivity. }
  assert (Ht : trun false h w) by apply (trun_exec false _ [] _ h w (trun_nil false) E). clear E.
  destruct (w_exports w) as [|[[e j] sd] l] eqn:Ew; [discriminate|]. cbn [map fst snd] in Hexp. injection Hexp as -> -> Hend Hstat Hl.
  exists h, w, sd.
  unfold ex_http_ops in Hf. cbn [app] in Hf.
  change (map (TUpdate (RSpan 0)) ex_us) with
    [TUpdate (RSpan 0) (USetAttrs (request_attrs ex_req)); TUpdate (RSpan 0) (USetAttrs (response_attrs 404));
     TUpdate (RSpan 0) (u_status (trace_status 404)); TUpdate (RSpan 0) (USetStatus 2 (bs "reset"))] in Hf.
  cbn [app] in Hf.
  destruct h as [|[o1 u1] h]; [discriminate|]. cbn [map fst] in Hf. injection Hf as -> Hf.
  destruct h as [|[o2 u2] h]; [discriminate|]. cbn [map fst] in Hf. apply list_cons in Hf. destruct Hf as [-> Hf].
  destruct h as [|[o3 u3] h]; [discriminate|]. cbn [map fst] in Hf. apply list_cons in Hf. destruct Hf as [-> Hf].
  destruct h as [|[o4 u4] h]; [discriminate|]. cbn [map fst] in Hf. apply list_cons in Hf. destruct Hf as [-> Hf].
  destruct h as [|[o5 u5] h]; [discriminate|]. cbn [map fst] in Hf. apply list_cons in Hf. destruct Hf as [-> Hf].
  destruct h as [|[o6 u6] h]; [discriminate|]. cbn [map fst] in Hf. apply list_cons in Hf. destruct Hf as [-> Hf].
  destruct h as [|[o7 u7] h]; [discriminate|]. cbn [map fst] in Hf. apply list_cons in Hf. destruct Hf as [-> Hf].
  destruct h as [|[o8 u8] h]; [discriminate|]. cbn [map fst] in Hf. apply list_cons in Hf. destruct Hf as [-> Hf]. clear Hf.
  match goal with |- context [trun false (?a :: ?b :: ?c :: ?d :: ?e :: ?f :: ?g :: ?k :: h) w] =>
    exists [a], (MkC PNone false (bs "/a") [WithSampler (Some always_sample); WithSpanKind 2] (sc_trace_id ex_sc) (sc_span_id ex_sc) 0),
      [a; b; c; d; e; f; g] end.
  split; [exact Ht|]. split; [rewrite Ew; left; reflexivity|].
  split; [eexists _, _; split; reflexivity|].
  split; [rewrite Hend; eexists _, _, _; reflexivity|].
  split; [split; discriminate|]. split; [reflexivity|]. split; [reflexivity|].
  split; [reflexivity|]. split; [vm_compute; discriminate | exact Hstat].
Qed.

Example C54_concurrent_nonvacuous : exists b,
  body_run (MkBody (MkTk None 0 0 0 0 200 false) [] [])
    [EvCall (BRead (REof 7) 1); EvCall (BClose 2); EvStep 1; EvStep 0; EvStep 1; EvStep 0; EvStep 0] = Some b /\
  In (KEnd SOwn) (bd_calls b) /\ In (BClose 2, []) (bd_threads b).
Proof. eexists. split; [vm_compute; reflexivity|]. split; [right; left; reflexivity | right; left; reflexivity]. Qed.

Example C56_nonvacuous : trace_status 404 = (5%Z, bs "NOT_FOUND") /\ trace_status 418 = (2%Z, bs "UNKNOWN") /\ trace_status 302 = (0%Z, bs "OK").
Proof. repeat split; reflexivity. Qed.
