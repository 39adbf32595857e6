(** Proofs about a process that uses plugin/ochttp. *)

From Coq Require Import String.
From Coq Require Import List Arith NArith ZArith Bool Lia Permutation.
From Coq Require Import ZifyBool ZifyNat ZifyN.
From Verif Require Import Base ListLib GoMap Text Float64 TagModel TagSpec TagProofs TagProps AggModel AggSpec AggProofs AggProps CollectorSpec CollectorProofs
  ViewModel WorkerModel WorkerSpec RecordModel RecordProps ProcessModel ProcessSpec ProcessProofs ProcessProps TraceTypes TraceModel.
From Verif Require Import GrpcProcProofs GrpcViewProofs.
From Verif Require Import HttpModel HttpSpec HttpProofs HttpProps HttpServerProps HttpProcModel HttpProcSpec.
From Verif Require Import WorkerProps.
Import ListNotations.
Open Scope nat_scope.

(** ** The recordings among the calls *)

Notation rcd := (ctx * list ropt)%type.
Definition recs (cs : list call) : list rcd := flat_map (fun k => match call_record k with Some p => [p] | None => [] end) cs.
Lemma recs_app a b : recs (a ++ b) = recs a ++ recs b.
Proof. apply flat_map_app. Qed.

Definition to_pact (it : list (key * content)) (o : order) (now : time) (r : rcd) : pact := PRecord (fst r) it (snd r) o now.
Lemma perform_run cs it o now : forall p, perform p cs it o now = proc_run p (map (to_pact it o now) (recs cs)).
Proof.
  induction cs as [|k cs IH]; intros p; [reflexivity|]. cbn [perform recs flat_map]. fold (recs cs).
  destruct (call_record k) as [[c xs]|]; [|apply IH]. cbn [app map proc_run to_pact proc_step fst snd].
  destruct (do_record p c it xs o now); [apply IH|reflexivity].
Qed.

Definition beg (x : hreq) : rcd := (hq_tags x, [WithMeasurements [m_int (if client_side x then client_request_count else server_request_count) 1]]).
Definition tkr (x : hreq) (status clen : Z) : tracker := MkTk (hq_tags x) 0 clen (client_req_size (hq_req x)) (hq_t0 x) status false.
Definition resp_clen (x : hreq) (clen : Z) : Z := if bytes_eqb (rq_method (hq_req x)) (bs "HEAD") then 0%Z else clen.
Definition tk_ms (t : tracker) (now : time) : list measurement :=
  let latency := in_ms (time_sub now (tk_start t)) in
  [m_int client_sent_bytes (tk_req t); m_int client_received_bytes (if (tk_resp t =? 0)%Z && (0 <? tk_clen t)%Z then tk_clen t else tk_resp t);
   m_float client_roundtrip_latency latency; m_float client_latency latency; m_int client_response_bytes (tk_resp t)] ++
  (if (0 <=? tk_req t)%Z then [m_int client_request_bytes (tk_req t)] else []).
Definition crec (t : tracker) (now : time) : rcd :=
  (tk_ctx t, [WithTags [Upsert key_status (itoa (tk_status t)) []; Upsert key_client_status (itoa (tk_status t)) []]; WithMeasurements (tk_ms t now)]).
Lemma crec_spec t now : call_record (tk_record t now) = Some (crec t now).
Proof. reflexivity. Qed.
Definition srec (x : hreq) (ops : list hop) : rcd :=
  (hq_tags x,
   [WithTags (Upsert key_status (itoa (status_of (performed ops))) [] :: map (fun r => Upsert key_server_route r []) (routes (performed ops)));
    WithMeasurements ([m_float server_latency (in_ms (time_sub (hq_t1 x) (hq_t0 x))); m_int server_response_bytes (int64_of (bytes_written (performed ops)))] ++
      (if (0 <=? server_req_size (hq_req x))%Z then [m_int server_request_bytes (server_req_size (hq_req x))] else []))]).

(** The recordings RoundTrip or ServeHTTP makes. *)
Definition plan (x : hreq) : list rcd :=
  match hq_side x with
  | HClient b => if is_health_endpoint (rq_path (hq_req x)) then []
                 else beg x :: match b with BaseErr _ => [crec (tkr x 500 0) (hq_t1 x)] | BaseResp _ _ => [] end
  | HServer ops => [beg x; srec x ops]
  end.

(** ** Bodies *)

Definition bstate (t : tracker) (b : body) : Prop :=
  body_inv t b /\
  if tk_done (bd_tracker b) then exists resp now, recs (bd_calls b) = [crec (tk_with t resp false) now] else recs (bd_calls b) = [].

Definition solo (l : list (bop * list micro)) : Prop := exists l0 l1, l = l0 ++ l1 /\ length l1 <= 1 /\ forall op ms, In (op, ms) l0 -> ms = [].
Definition sstate (t : tracker) (b : body) : Prop :=
  solo (bd_threads b) /\
  (tk_done (bd_tracker b) = true -> exists now, completed_at (map fst (bd_threads b)) = Some now /\
     recs (bd_calls b) = [crec (tk_with t (int64_of (bytes_until (map fst (bd_threads b)))) false) now]).

Lemma bstate_init t : tk_resp t = 0%Z -> tk_done t = false -> bstate t (MkBody t [] []) /\ sstate t (MkBody t [] []).
Proof.
  intros H1 H2. split; [|split].
  - split; [now apply body_inv_init|]. cbn [bd_tracker bd_calls]. now rewrite H2.
  - exists [], []. repeat split; auto. intros op ms [].
  - cbn. congruence.
Qed.

Lemma bstep t b e b' : bstate t b -> body_step b e = Some b' ->
  bstate t b' /\ exists cs, bd_calls b' = bd_calls b ++ cs /\ (recs cs = [] \/ exists resp now, recs cs = [crec (tk_with t resp false) now]).
Proof.
  intros [Hi Hr] E. pose proof (body_inv_step _ _ _ _ Hi E) as Hi'. split.
  - split; [exact Hi'|]. destruct e as [op|i]; cbn [body_step] in E; [injection E as <-; exact Hr|].
    destruct (nth_error (bd_threads b) i) as [[op [|m ms]]|]; try discriminate.
    destruct (do_micro (bd_tracker b) m) as [t1 cs] eqn:Em. injection E as <-. cbn [bd_tracker bd_calls]. rewrite recs_app.
    destruct m as [c msg | | n | now]; cbn [do_micro] in Em;
      try (injection Em as <- <-; cbn [recs flat_map call_record app tk_add tk_done]; rewrite app_nil_r; exact Hr).
    unfold tk_end in Em. destruct (tk_done (bd_tracker b)) eqn:Ed; injection Em as <- <-; cbn [tk_set_done tk_done].
    + rewrite Ed. cbn [recs flat_map]. rewrite app_nil_r. exact Hr.
    + rewrite Hr. cbn [recs flat_map app]. rewrite crec_spec. rewrite (bi_tracker _ _ Hi), Ed. cbn [app]. eauto.
  - destruct e as [op|i]; cbn [body_step] in E; [injection E as <-; exists []; rewrite app_nil_r; auto|].
    destruct (nth_error (bd_threads b) i) as [[op [|m ms]]|]; try discriminate.
    destruct (do_micro (bd_tracker b) m) as [t1 cs] eqn:Em. injection E as <-. cbn [bd_tracker bd_calls]. exists cs. split; [reflexivity|].
    destruct m as [c msg | | n | now]; cbn [do_micro] in Em; try (injection Em as <- <-; left; reflexivity).
    unfold tk_end in Em. destruct (tk_done (bd_tracker b)) eqn:Ed; injection Em as <- <-; [left; reflexivity|right].
    cbn [recs flat_map app]. rewrite crec_spec. rewrite (bi_tracker _ _ Hi), Ed. cbn [app]. eauto.
Qed.

Lemma completed_app l1 l2 now : completed_at l1 = Some now -> completed_at (l1 ++ l2) = Some now /\ bytes_until (l1 ++ l2) = bytes_until l1.
Proof.
  induction l1 as [|op l1 IH]; cbn [completed_at app bytes_until]; [discriminate|]. destruct (completes op); [auto|].
  intros H. destruct (IH H) as [-> ->]. auto.
Qed.

Lemma upd_fst {B C} (l : list (B * C)) i a c c' : nth_error l i = Some (a, c) -> map fst (upd l i (fun _ => (a, c'))) = map fst l.
Proof. revert i. induction l as [|[a0 c0] l IH]; intros [|i] H; cbn in H |- *; try discriminate; [congruence|]. f_equal. now apply IH. Qed.

Lemma not_completed_counted l0 : (forall op ms, In (op, ms) l0 -> ms = [] /\ completes op = false) -> forall op ms, completes op = true ->
  existsb has_add ms = false ->
  completed_at (map fst (l0 ++ [(op, ms)])) = Some (time_of op) /\ bytes_until (map fst (l0 ++ [(op, ms)])) = counted (l0 ++ [(op, ms)]).
Proof.
  induction l0 as [|[op0 ms0] l0 IH]; intros H op ms Hc Ha.
  - cbn [app map fst completed_at bytes_until counted fold_right snd]. rewrite Hc, Ha. split; [reflexivity|lia].
  - destruct (H op0 ms0 (or_introl eq_refl)) as [-> Hn]. cbn [app map fst completed_at bytes_until]. rewrite Hn.
    destruct (IH (fun o m Hin => H o m (or_intror Hin)) op ms Hc Ha) as [E1 E2]. rewrite E1, E2. split; [reflexivity|]. reflexivity.
Qed.

Lemma sstep t b e b' : bstate t b -> sstate t b -> (forall op, e = EvCall op -> forall o ms, In (o, ms) (bd_threads b) -> ms = []) ->
  body_step b e = Some b' -> sstate t b'.
Proof.
  intros [Hi Hr] [Hs Hd] Ha E. destruct e as [op|i]; cbn [body_step] in E.
  - injection E as <-. split; cbn [bd_threads bd_tracker bd_calls].
    + exists (bd_threads b), [(op, steps_of op)]. repeat split; auto. exact (Ha op eq_refl).
    + intros H. destruct (Hd H) as (now & E1 & E2). exists now. rewrite map_app. destruct (completed_app _ (map fst [(op, steps_of op)]) _ E1) as [-> ->]. auto.
  - destruct (nth_error (bd_threads b) i) as [[op [|m ms]]|] eqn:En; try discriminate.
    destruct (do_micro (bd_tracker b) m) as [t1 cs] eqn:Em. injection E as <-.
    assert (Hlast : exists l0, bd_threads b = l0 ++ [(op, m :: ms)] /\ (forall o x, In (o, x) l0 -> x = []) /\ upd (bd_threads b) i (fun _ => (op, ms)) = l0 ++ [(op, ms)]).
    { destruct Hs as (l0 & l1 & E & L & H). destruct (Nat.lt_ge_cases i (length l0)) as [Hlt|Hge].
      - rewrite E, nth_error_app1 in En by exact Hlt. apply nth_error_In in En. apply H in En. discriminate.
      - rewrite E, nth_error_app2 in En by exact Hge. destruct l1 as [|y [|]]; [destruct (i - length l0); discriminate| |cbn in L; lia].
        destruct (i - length l0) as [|k] eqn:Ei; [|destruct k; discriminate]. injection En as ->. exists l0. split; [exact E|]. split; [exact H|].
        rewrite E. replace i with (length l0 + 0) by lia. clear. induction l0 as [|z l0 IH]; [reflexivity|]. cbn. now rewrite IH. }
    destruct Hlast as (l0 & El & H0 & Eu). unfold sstate. cbn [bd_threads bd_tracker bd_calls]. split.
    + rewrite Eu. exists l0, [(op, ms)]. repeat split; auto.
    + rewrite (upd_fst _ _ _ _ _ En), recs_app. intros Hdone.
      destruct m as [c msg | | n | now]; cbn [do_micro] in Em;
        try (injection Em as <- <-; cbn [recs flat_map call_record app tk_add tk_done] in *; rewrite app_nil_r; apply Hd; exact Hdone).
      unfold tk_end in Em. destruct (tk_done (bd_tracker b)) eqn:Ed; injection Em as <- <-.
      * cbn [recs flat_map]. rewrite app_nil_r. now apply Hd.
      * rewrite Hr. cbn [recs flat_map app]. rewrite crec_spec. cbn [app].
        assert (Hsuf : is_suffix (MFinish now :: ms) (steps_of op)) by (apply (bi_suffix _ _ Hi); rewrite El; apply in_or_app; right; now left).
        pose proof (suffix_cases _ _ Hsuf) as Hcs.
        assert (Hop : completes op = true /\ time_of op = now /\ existsb has_add (MFinish now :: ms) = false).
        { destruct op as [[k|k|k msg] nw | nw]; decompose [or] Hcs; try discriminate;
            match goal with E : _ :: _ = _ :: _ |- _ => injection E; intros; subst end; repeat split; reflexivity. }
        destruct Hop as (Hc & Ht & Hadd). rewrite El.
        destruct (not_completed_counted l0) with (op := op) (ms := MFinish now :: ms) as [C1 C2]; [|exact Hc|exact Hadd|].
        { intros o x Hin. pose proof (H0 o x Hin) as ->. split; [reflexivity|]. destruct (completes o) eqn:Eo; [|reflexivity]. exfalso.
          assert (tk_done (bd_tracker b) = true); [|congruence]. apply (bi_done _ _ Hi). exists o, []. split; [rewrite El; apply in_or_app; now left|]. auto. }
        rewrite C1, C2, Ht, <- El. exists now. split; [reflexivity|]. do 2 f_equal. rewrite (bi_tracker _ _ Hi) at 1. now rewrite Ed.
Qed.

(** ** The process as one without the plugin *)

Definition hlower1 (g : hproc) (a : hact) : list pact :=
  match a with
  | HApp a => [a]
  | HRoundTrip _ r i it _ _ _ _ _ => if is_health_endpoint (rq_path r) then [] else [PTag (OpNew i it (client_tags r))]
  | HServe _ r _ i it _ _ _ => [PTag (OpNew i it (server_tags r))]
  | HStep j it o now =>
      match nth_error (hp_reqs g) j with
      | Some x => match hq_todo x with k :: _ => map (to_pact it o now) (recs [k]) | [] => [] end
      | None => []
      end
  | HBody j ev it o now =>
      match nth_error (hp_reqs g) j with
      | Some x => match hq_body x with
                  | Some b => match body_step b ev with Some b' => map (to_pact it o now) (recs (skipn (length (bd_calls b)) (bd_calls b'))) | None => [] end
                  | None => [] end
      | None => []
      end
  end.
Fixpoint hlower (g : hproc) (l : list hact) : list pact :=
  match l with
  | [] => []
  | a :: r => hlower1 g a ++ match hproc_step g a with Some g' => hlower g' r | None => [] end
  end.

Record hinv (ts : tag_state) (x : hreq) : Prop := {
  hi_ctx : In (hq_tags x) (None :: st_ctxs ts);
  hi_tag : valid_request (hq_req x) -> observed x = true ->
    (exists ttl, ctx_fun (st_heap ts) (hq_tags x) key_method = Some (Content (rq_method (hq_req x)) ttl)) /\
    (client_side x = true -> exists ttl, ctx_fun (st_heap ts) (hq_tags x) key_client_method = Some (Content (rq_method (hq_req x)) ttl));
  hi_plan : recs (hq_done x) ++ recs (hq_todo x) = plan x;
  hi_status : int64_range (hstatus x);
  hi_body : match hq_side x with
            | HClient (BaseResp status clen) =>
                if observed x then exists b, hq_body x = Some b /\ bstate (tkr x status (resp_clen x clen)) b else hq_body x = None
            | _ => hq_body x = None
            end }.
Definition hpinv (g : hproc) : Prop := forall x, In x (hp_reqs g) -> hinv (pc_tags (hp_proc g)) x.

Lemma hinv_more ts ts' x : tags_inv ts -> extends (st_heap ts) (st_heap ts') -> incl (st_ctxs ts) (st_ctxs ts') -> hinv ts x -> hinv ts' x.
Proof.
  intros Hi X C [H1 H2 H3 H4 H5]. split; auto.
  - destruct H1 as [H1|H1]; [now left|right; auto].
  - rewrite (extends_ctx ts (st_heap ts') _ Hi H1 X). exact H2.
Qed.

Lemma observed_client x : client_side x = true -> observed x = negb (is_health_endpoint (rq_path (hq_req x))).
Proof. unfold observed. intros ->. reflexivity. Qed.

(** Recordings as they may be made. *)
Definition rec_ok (x : hreq) (r : rcd) : Prop :=
  fst r = hq_tags x /\ (forall ms, In (WithMeasurements ms) (snd r) -> ~ In None ms) /\
  (forall mus mu, In (WithTags mus) (snd r) -> In mu mus -> valid_key (mutator_key mu)).

Lemma valid_keys_http : valid_key key_status /\ valid_key key_client_status /\ valid_key key_server_route /\ valid_key key_method /\ valid_key key_client_method /\
  valid_key key_host /\ valid_key key_client_host /\ valid_key key_path /\ valid_key key_client_path.
Proof. repeat split; apply check_key_name_spec; reflexivity. Qed.

Lemma beg_ok x : rec_ok x (beg x).
Proof.
  split; [reflexivity|]. split; cbn [snd beg].
  - intros ms [E|[]]. injection E as <-. intros [H|[]]. discriminate.
  - intros mus mu [H|[]]. discriminate.
Qed.
Lemma crec_ok x t now : tk_ctx t = hq_tags x -> rec_ok x (crec t now).
Proof.
  intros E. destruct valid_keys_http as (K1 & K2 & _). split; [exact E|]. split; cbn [snd crec].
  - intros ms [H|[[= <-]|[]]]; [discriminate|]. unfold tk_ms. intros H. apply in_app_or in H. destruct H as [H|H].
    + cbn [In] in H. repeat (destruct H as [H|H]; [discriminate|]). exact H.
    + destruct (0 <=? tk_req t)%Z; [|contradiction]. destruct H as [H|[]]. discriminate.
  - intros mus mu [[= <-]|[H|[]]]; [|discriminate]. intros [<-|[<-|[]]]; assumption.
Qed.
Lemma srec_ok x ops : rec_ok x (srec x ops).
Proof.
  destruct valid_keys_http as (K1 & _ & K3 & _). split; [reflexivity|]. split; cbn [snd srec].
  - intros ms [H|[[= <-]|[]]]; [discriminate|]. intros [H|[H|H]]; [discriminate|discriminate|].
    destruct (0 <=? server_req_size (hq_req x))%Z; [|contradiction]. destruct H as [H|[]]. discriminate.
  - intros mus mu [[= <-]|[H|[]]]; [|discriminate]. intros [<-|H]; [exact K1|]. apply in_map_iff in H. destruct H as (r & <- & _). exact K3.
Qed.
Lemma plan_ok x r : In r (plan x) -> rec_ok x r.
Proof.
  unfold plan. destruct (hq_side x) as [b|ops].
  - destruct (is_health_endpoint _); [intros []|]. intros [<-|H]; [apply beg_ok|]. destruct b; [|destruct H]. destruct H as [<-|[]]. now apply crec_ok.
  - intros [<-|[<-|[]]]; [apply beg_ok|apply srec_ok].
Qed.

Lemma rec_run u h p x it o now rs p' :
  u_ok u -> pinv u h p -> In (hq_tags x) (None :: st_ctxs (pc_tags p)) -> iterates (st_heap (pc_tags p)) (hq_tags x) it ->
  length rs <= 1 -> (forall r, In r rs -> rec_ok x r) ->
  pacts_ok u p (map (to_pact it o now) rs) /\ (proc_run p (map (to_pact it o now) rs) = Some p' -> True) /\
  exists p2, proc_run p (map (to_pact it o now) rs) = Some p2.
Proof.
  intros U HI Hc Hit L Hok. destruct rs as [|[c xs] [|]]; [split; [exact I|split; [auto|cbn; eauto]]| |cbn in L; lia].
  destruct (Hok _ (or_introl eq_refl)) as (E & H1 & H2). cbn [fst snd] in *. subst c. cbn [map to_pact fst snd].
  assert (Hp : pact_ok u p (PRecord (hq_tags x) it xs o now)) by (split; [exact Hc|]; split; [exact Hit|]; split; assumption).
  destruct (record_total u h p (hq_tags x) it xs o now U HI Hp) as (p2 & E2). cbn [pacts_ok proc_run proc_step map to_pact fst snd]. rewrite E2.
  split; [split; [exact Hp|exact I]|]. split; [auto|eauto].
Qed.

(** What RoundTrip and ServeHTTP do. *)
Lemma trace_recs t r hh sc b : recs (snd (trace_round_trip t r hh sc b)) = [].
Proof. unfold trace_round_trip. destruct b; reflexivity. Qed.

Lemma quiet_recs cs : counts cs = [] -> records cs = [] -> recs cs = [].
Proof.
  induction cs as [|k cs IH]; [reflexivity|]. intros H1 H2. destruct k; cbn in H1, H2 |- *; try discriminate; apply IH; assumption.
Qed.

Lemma new_tags u h g i it mus h' c' e : pinv u h (hp_proc g) -> (forall mu, In mu mus -> valid_key (mutator_key mu)) ->
  let ts := pc_tags (hp_proc g) in
  iterates (st_heap ts) (nth i (st_ctxs ts) None) it -> tag_new (st_heap ts) (nth i (st_ctxs ts) None) it mus = (h', c', e) ->
  pacts_ok u (hp_proc g) [PTag (OpNew i it mus)] /\
  proc_run (hp_proc g) [PTag (OpNew i it mus)] = Some (MkProc (TagState h' (st_ctxs ts ++ [c'])) (pc_worker (hp_proc g))) /\
  exists cs j, tag_reach valid_key (TagState (st_heap ts) cs) /\ nth j cs None = nth i (st_ctxs ts) None.
Proof.
  intros HI Hk ts Hit En. split; [split; [split; [exact Hit|exact Hk]|exact I]|]. split.
  - cbn [proc_run proc_step tag_step]. fold ts. now rewrite En.
  - destruct (tags_inv_ctx ts (nth i (st_ctxs ts) None) (pi_tags _ _ _ HI)) as (cs & j & Hr & _ & Hn).
    { destruct (nth_In_or_default (st_ctxs ts) i None) as [H|H]; [now right|left; now rewrite H]. }
    exists cs, j. auto.
Qed.

Lemma client_new u h g r i it h' c' e : pinv u h (hp_proc g) ->
  let ts := pc_tags (hp_proc g) in
  iterates (st_heap ts) (nth i (st_ctxs ts) None) it -> tag_new (st_heap ts) (nth i (st_ctxs ts) None) it (client_tags r) = (h', c', e) -> valid_request r ->
  (exists ttl, ctx_fun h' c' key_method = Some (Content (rq_method r) ttl)) /\ (exists ttl, ctx_fun h' c' key_client_method = Some (Content (rq_method r) ttl)).
Proof.
  intros HI ts Hit En Hv. destruct valid_keys_http as (K1 & K2 & K3 & K4 & K5 & K6 & K7 & K8 & K9).
  destruct (new_tags u h g i it (client_tags r) h' c' e HI) as (_ & _ & cs & j & Hr & Hn); [|exact Hit|exact En|].
  { intros mu Hin. cbn in Hin. decompose [or] Hin; subst; assumption || contradiction. }
  fold ts in Hr, Hn. rewrite <- Hn in Hit, En.
  destruct (ctx_tags (TagState (st_heap ts) cs) j it r _ h' c' e (client_mutators r) Hr Hit En) as (H & _).
  split; [rewrite (H Hv key_method)|rewrite (H Hv key_client_method)]; unfold client_tags; cbn [fold_left].
  - apply upsert_same.
  - rewrite upsert_other by discriminate. apply upsert_same.
Qed.
Lemma server_new u h g r i it h' c' e : pinv u h (hp_proc g) ->
  let ts := pc_tags (hp_proc g) in
  iterates (st_heap ts) (nth i (st_ctxs ts) None) it -> tag_new (st_heap ts) (nth i (st_ctxs ts) None) it (server_tags r) = (h', c', e) -> valid_request r ->
  exists ttl, ctx_fun h' c' key_method = Some (Content (rq_method r) ttl).
Proof.
  intros HI ts Hit En Hv. destruct valid_keys_http as (K1 & K2 & K3 & K4 & K5 & K6 & K7 & K8 & K9).
  destruct (new_tags u h g i it (server_tags r) h' c' e HI) as (_ & _ & cs & j & Hr & Hn); [|exact Hit|exact En|].
  { intros mu Hin. cbn in Hin. decompose [or] Hin; subst; assumption || contradiction. }
  fold ts in Hr, Hn. rewrite <- Hn in Hit, En.
  destruct (ctx_tags (TagState (st_heap ts) cs) j it r _ h' c' e (server_mutators r) Hr Hit En) as (H & _).
  rewrite (H Hv key_method); unfold server_tags; cbn [fold_left]. apply upsert_same.
Qed.

Lemma serve_plan h r hdr th c it ops t0 t1 th' c' e : tag_new th c it (server_tags r) = (th', c', e) ->
  so_tags (serve_http h r hdr th c it ops t0 t1) = th' /\
  recs (so_calls (serve_http h r hdr th c it ops t0 t1)) =
    [beg (MkHq (HServer ops) r c' t0 t1 [] [] None); srec (MkHq (HServer ops) r c' t0 t1 [] [] None) ops].
Proof.
  intros En. unfold serve_http. destruct (start_trace h r hdr t0) as [[pre st]| |] eqn:Es.
  2,3: exfalso; unfold start_trace in Es; destruct (hd_health h || _); [discriminate|];
       destruct (fmt_from_ok (fmt_or_default (hd_format h)) hdr) as (x & Ex); rewrite Ex in Es; discriminate.
  destruct (start_trace_quiet _ _ _ _ _ _ Es) as (Q1 & Q2 & _). rewrite En, run_hops_spec. cbn [so_tags so_calls]. split; [reflexivity|].
  set (s := if st then SOwn else SOuter). destruct (writes_quiet s (written (performed ops))) as (W1 & W2 & _).
  rewrite !recs_app, (quiet_recs pre Q1 Q2), (quiet_recs _ W1 W2).
  assert (Hend : recs (if st then [KEnd SOwn] else []) = []) by now destruct st. rewrite Hend. reflexivity.
Qed.

Lemma round_plan t r th c it hh sc b t0 t1 th' c' e : tag_new th c it (client_tags r) = (th', c', e) -> is_health_endpoint (rq_path r) = false ->
  let out := round_trip t r th c it hh sc b t0 t1 in
  let x := MkHq (HClient b) r c' t0 t1 [] [] None in
  ro_tags out = th' /\ recs (ro_calls out) = plan x /\
  ro_tracker out = match b with BaseErr _ => None | BaseResp status clen => Some (tkr x status (resp_clen x clen)) end.
Proof.
  intros En Hh out x. subst out x. unfold plan, round_trip. cbn [hq_side hq_req]. rewrite Hh, En.
  destruct (trace_round_trip t r hh sc b) as [hh' calls] eqn:Et. pose proof (trace_recs t r hh sc b) as Hq. rewrite Et in Hq. cbn [snd] in Hq.
  destruct b as [msg|status clen]; cbn [tk_end tk_done ro_tags ro_calls ro_tracker].
  - split; [reflexivity|]. split; [|reflexivity]. change (?a :: calls ++ ?b) with ([a] ++ calls ++ b). rewrite !recs_app, Hq. reflexivity.
  - split; [reflexivity|]. split; [|reflexivity]. change (?a :: calls) with ([a] ++ calls). rewrite recs_app, Hq. reflexivity.
Qed.

Lemma hstep_lower u h g a g' :
  u_ok u -> pinv u h (hp_proc g) -> hpinv g -> hact_ok u g a -> hproc_step g a = Some g' ->
  pacts_ok u (hp_proc g) (hlower1 g a) /\ proc_run (hp_proc g) (hlower1 g a) = Some (hp_proc g') /\ hpinv g'.
Proof.
  intros U HI HG Ha E.
  assert (Hrest : pacts_ok u (hp_proc g) (hlower1 g a) -> proc_run (hp_proc g) (hlower1 g a) = Some (hp_proc g') ->
                  forall x, In x (hp_reqs g) -> hinv (pc_tags (hp_proc g')) x).
  { intros Hok Hrun x Hx. destruct (run_inv u _ h _ _ U HI Hok Hrun) as (hs & _ & X & C & _).
    eapply hinv_more; [apply (pi_tags _ _ _ HI)|exact X|exact C|]. now apply HG. }
  set (ts := pc_tags (hp_proc g)) in *.
  assert (Hp0 : hp_proc g = MkProc (TagState (st_heap ts) (st_ctxs ts)) (pc_worker (hp_proc g))) by (unfold ts; destruct (hp_proc g) as [[hp cs] w]; reflexivity).
  destruct valid_keys_http as (K1 & K2 & K3 & K4 & K5 & K6 & K7 & K8 & K9).
  destruct a as [a|t r i it hh sc b t0 t1|hd r hdr i it ops t0 t1|j it o now|j ev it o now]; cbn [hproc_step] in E; fold ts in E.
  - destruct (proc_step (hp_proc g) a) as [p|] eqn:Ep; [|discriminate]. injection E as <-. cbn [hp_proc hp_reqs hlower1] in *.
    assert (A1 : pacts_ok u (hp_proc g) [a]) by (cbn [pacts_ok]; rewrite Ep; split; [exact Ha|exact I]).
    assert (A2 : proc_run (hp_proc g) [a] = Some p) by (cbn [proc_run]; now rewrite Ep).
    split; [exact A1|]. split; [exact A2|]. intros x Hx. cbn [hp_reqs hp_proc] in *. now apply Hrest.
  - cbv zeta in E. injection E as <-. cbn [hlower1 hp_proc] in *. destruct Ha as [Hit Hst]. cbn [hact_ok] in Hit. fold ts in Hit.
    destruct (is_health_endpoint (rq_path r)) eqn:Hh.
    + assert (Eo : round_trip t r (st_heap ts) (nth i (st_ctxs ts) None) it hh sc b t0 t1 = MkRT (st_heap ts) hh [KBase (rq_header r)] None).
      { unfold round_trip. now rewrite Hh. }
      rewrite Eo in *. cbn [ro_tags ro_calls ro_tracker option_map] in *. rewrite app_nil_r in *. rewrite <- Hp0 in *.
      split; [exact I|]. split; [reflexivity|]. intros x Hx. cbn [hp_reqs hp_proc] in *. fold ts. apply in_app_or in Hx. destruct Hx as [Hx|[<-|[]]]; [now apply HG|].
      split; cbn [hq_tags hq_req hq_side hq_done hq_todo hq_body].
      * destruct (nth_In_or_default (st_ctxs ts) i None) as [H|H]; [now right|left; now rewrite H].
      * intros _ Ho. rewrite observed_client in Ho by reflexivity. cbn [hq_req] in Ho. rewrite Hh in Ho. discriminate.
      * unfold plan. cbn [hq_side hq_req]. rewrite Hh. reflexivity.
      * unfold hstatus. cbn [hq_side]. destruct b; [unfold int64_range; lia|exact Hst].
      * destruct b; [reflexivity|]. rewrite observed_client by reflexivity. cbn [hq_req]. rewrite Hh. reflexivity.
    + destruct (tag_new (st_heap ts) (nth i (st_ctxs ts) None) it (client_tags r)) as [[h' c'] e] eqn:En. cbn [fst snd] in *.
      destruct (new_tags u h g i it (client_tags r) h' c' e HI) as (A1 & A2 & _); [|exact Hit|exact En|].
      { intros mu Hin. cbn in Hin. decompose [or] Hin; subst; assumption || contradiction. }
      fold ts in A2. destruct (round_plan t r _ _ it hh sc b t0 t1 h' c' e En Hh) as (P1 & P2 & P3). rewrite P1, P3 in *.
      split; [exact A1|]. split; [exact A2|]. intros x Hx. cbn [hp_reqs hp_proc] in *. apply in_app_or in Hx. destruct Hx as [Hx|[<-|[]]]; [now apply Hrest|].
      split; cbn [hq_tags hq_req hq_side hq_done hq_todo hq_body pc_tags st_ctxs st_heap].
      * right. apply in_or_app. right. now left.
      * intros Hv _. destruct (client_new u h g r i it h' c' e HI Hit En Hv) as [T1 T2]. split; [exact T1|auto].
      * cbn [app]. exact P2.
      * unfold hstatus. cbn [hq_side]. destruct b; [unfold int64_range; lia|exact Hst].
      * destruct b as [msg|status clen]; [reflexivity|]. rewrite observed_client by reflexivity. cbn [hq_req]. rewrite Hh. cbn [negb option_map].
        eexists. split; [reflexivity|]. apply bstate_init; reflexivity.
  - cbv zeta in E. injection E as <-. cbn [hlower1 hp_proc] in *. destruct Ha as [Hit Hst]. fold ts in Hit.
    destruct (tag_new (st_heap ts) (nth i (st_ctxs ts) None) it (server_tags r)) as [[h' c'] e] eqn:En. cbn [fst snd] in *.
    destruct (new_tags u h g i it (server_tags r) h' c' e HI) as (A1 & A2 & _); [|exact Hit|exact En|].
    { intros mu Hin. cbn in Hin. decompose [or] Hin; subst; assumption || contradiction. }
    fold ts in A2. destruct (serve_plan hd r hdr _ _ it ops t0 t1 h' c' e En) as (P1 & P2). rewrite P1 in *.
    split; [exact A1|]. split; [exact A2|]. intros x Hx. cbn [hp_reqs hp_proc] in *. apply in_app_or in Hx. destruct Hx as [Hx|[<-|[]]]; [now apply Hrest|].
    split; cbn [hq_tags hq_req hq_side hq_done hq_todo hq_body pc_tags st_ctxs st_heap].
    + right. apply in_or_app. right. now left.
    + intros Hv _. split; [exact (server_new u h g r i it h' c' e HI Hit En Hv)|]. discriminate.
    + cbn [app]. exact P2.
    + exact Hst.
    + reflexivity.
  - cbn [hlower1] in *. destruct (nth_error (hp_reqs g) j) as [x|] eqn:Ex; [|discriminate]. destruct (hq_todo x) as [|k rest] eqn:Et; [discriminate|].
    pose proof (HG x (nth_error_In _ _ Ex)) as Hx. rewrite perform_run in E.
    destruct (rec_run u h (hp_proc g) x it o now (recs [k]) (hp_proc g) U HI (hi_ctx _ _ Hx)) as (A1 & _ & p2 & A2).
    + exact (Ha x Ex).
    + cbn [recs flat_map]. destruct (call_record k); cbn; lia.
    + intros r Hr. apply plan_ok. rewrite <- (hi_plan _ _ Hx), Et. apply in_or_app. right. change (k :: rest) with ([k] ++ rest). rewrite recs_app. apply in_or_app. now left.
    + rewrite A2 in *. injection E as <-. cbn [hp_proc hp_reqs] in *. split; [exact A1|]. split; [reflexivity|].
      specialize (Hrest A1 eq_refl). intros y Hy. cbn [hp_reqs hp_proc] in *. apply upd_in in Hy. destruct Hy as [Hy|(x' & E' & ->)]; [now apply Hrest|].
      rewrite Ex in E'. injection E' as <-. destruct (Hrest x (nth_error_In _ _ Ex)) as [H1 H2 H3 H4 H5].
      split; cbn [hq_tags hq_req hq_side hq_done hq_todo hq_body]; auto.
      rewrite Et in H3. change (k :: rest) with ([k] ++ rest) in H3. rewrite !recs_app in *. rewrite <- app_assoc. exact H3.
  - cbn [hlower1] in *. destruct (nth_error (hp_reqs g) j) as [x|] eqn:Ex; [|discriminate]. destruct (hq_todo x) eqn:Et; [|discriminate].
    destruct (hq_body x) as [b|] eqn:Eb; [|discriminate]. destruct (body_step b ev) as [b'|] eqn:Es; [|discriminate].
    pose proof (HG x (nth_error_In _ _ Ex)) as Hx. rewrite perform_run in E.
    assert (Hb : exists status clen, hq_side x = HClient (BaseResp status clen) /\ observed x = true /\ bstate (tkr x status (resp_clen x clen)) b).
    { pose proof (hi_body _ _ Hx) as H. rewrite Eb in H. destruct (hq_side x) as [[msg|status clen]|ops]; try discriminate.
      destruct (observed x); [|discriminate]. destruct H as (b0 & [= <-] & H). eauto. }
    destruct Hb as (status & clen & Esd & Hob & Hb). destruct (bstep _ _ _ _ Hb Es) as (Hb' & cs & Ecs & Hcs).
    assert (Esk : skipn (length (bd_calls b)) (bd_calls b') = cs) by (rewrite Ecs; apply skipn_app_exact).
    rewrite Esk in *.
    destruct (rec_run u h (hp_proc g) x it o now (recs cs) (hp_proc g) U HI (hi_ctx _ _ Hx)) as (A1 & _ & p2 & A2).
    + exact (Ha x Ex).
    + destruct Hcs as [->|(resp & nw & ->)]; cbn; lia.
    + destruct Hcs as [->|(resp & nw & ->)]; [intros r []|]. intros r [<-|[]]. now apply crec_ok.
    + rewrite A2 in *. injection E as <-. cbn [hp_proc hp_reqs] in *. split; [exact A1|]. split; [reflexivity|].
      specialize (Hrest A1 eq_refl). intros y Hy. cbn [hp_reqs hp_proc] in *. apply upd_in in Hy. destruct Hy as [Hy|(x' & E' & ->)]; [now apply Hrest|].
      rewrite Ex in E'. injection E' as <-. destruct (Hrest x (nth_error_In _ _ Ex)) as [H1 H2 H3 H4 H5].
      split; cbn [hq_tags hq_req hq_side hq_done hq_todo hq_body]; auto.
      match goal with |- context [observed ?y] => change (observed y) with (observed x) end. rewrite Esd, Hob. eexists. split; [reflexivity|]. exact Hb'.
Qed.
