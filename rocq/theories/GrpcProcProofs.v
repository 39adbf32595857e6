(** Proofs about a process that uses plugin/ocgrpc. *)

From Coq Require Import String.
From Coq Require Import List Arith NArith ZArith Bool Lia Permutation.
From Verif Require Import Base ListLib GoMap Text Float64 TagModel TagSpec TagProofs TagProps AggModel AggProofs CollectorSpec ViewModel WorkerModel WorkerSpec
  RecordModel RecordProps ProcessModel ProcessSpec ProcessProofs ProcessProps
  TraceTypes TraceModel HttpModel HttpSpec GrpcModel GrpcSpec GrpcProofs GrpcProps GrpcProcModel GrpcProcSpec.
Import ListNotations.
Open Scope nat_scope.

(** ** What an RPC has recorded, by its calls of HandleRPC *)

Definition end_opts (client : bool) (t0 : time) (full : bytes) (rc : rpc_ctx) (e : rpc_err) (now : time) (regs : list Z) : list ropt :=
  [WithTags (if client then [Upsert key_grpc_client_method (method_name full) []; Upsert key_grpc_client_status (status_tag e) []]
             else [Upsert key_grpc_server_status (status_tag e) []]);
   WithAttachments (span_ctx_attachment (rc_span rc));
   WithMeasurements (end_measurements client regs (in_ms (time_sub now t0)))].

Definition thread_rec (rc : rpc_ctx) (t : gthread) : list (list ropt) :=
  match gt_todo t, rc_data rc with
  | [], Some (t0, full) =>
      match gt_event t with
      | GBegin client _ => [begin_record rc full client]
      | GEnd client e now => [end_opts client t0 full rc e now (gt_regs t)]
      | _ => []
      end
  | _, _ => []
  end.

Definition rpc_recs (rc : rpc_ctx) (s : grpc_state) : list (list ropt) := flat_map (thread_rec rc) (g_threads s).

Lemma new_record_app a k : new_record a (a ++ [k]) = match k with GCRecord c xs => Some (c, xs) | _ => None end.
Proof.
  unfold new_record. rewrite nth_error_app2 by apply Nat.le_refl. rewrite Nat.sub_diag. reflexivity.
Qed.
Lemma new_record_same a : new_record a a = None.
Proof. unfold new_record. replace (nth_error a (length a)) with (@None gcall); [reflexivity|]. symmetry. apply nth_error_None. apply Nat.le_refl. Qed.

(** The last step of a call for Begin or End is its recording, and no other step is one. *)
Lemma handle_last rc t0 full ev pre x r : rc_data rc = Some (t0, full) -> handle_rpc rc ev = pre ++ x :: r ->
  (exists client ff, ev = GBegin client ff /\
     ((exists u, x = GDo (GCSpan u) /\ r <> []) \/ (x = GDo (GCRecord (rc_tags rc) (begin_record rc full client)) /\ r = []))) \/
  (exists client e now, ev = GEnd client e now /\
     ((r <> [] /\ ((exists u, x = GDo (GCSpan u)) \/ exists f, x = GLoad f)) \/
      (x = GRecEnd client (rc_tags rc)
             (if client then [Upsert key_grpc_client_method (method_name full) []; Upsert key_grpc_client_status (status_tag e) []]
              else [Upsert key_grpc_server_status (status_tag e) []])
             (span_ctx_attachment (rc_span rc)) (in_ms (time_sub now t0)) /\ r = []))) \/
  ((forall client ff, ev <> GBegin client ff) /\ (forall client e now, ev <> GEnd client e now) /\
   ((exists u, x = GDo (GCSpan u)) \/ exists f n, x = GAdd f n)).
Proof.
  intros Hd E. unfold handle_rpc, stats_handle in E. rewrite Hd in E. destruct ev as [client ff|len wire now|len wire now|client e now|].
  - left. exists client, ff. split; [reflexivity|]. cbn [trace_handle app] in E.
    destruct pre as [|y [|y' pre]]; cbn [app] in E.
    + injection E as <- <-. left. eexists. split; [reflexivity|discriminate].
    + injection E as <- <- <-. right. split; reflexivity.
    + injection E as <- <- E. destruct pre; discriminate E.
  - right. right. split; [discriminate|]. split; [discriminate|]. cbn [trace_handle app] in E.
    destruct pre as [|y1 [|y2 [|y3 pre]]]; cbn [app] in E.
    + injection E as <- <-. left. eauto.
    + injection E as _ <- <-. right. eauto.
    + injection E as _ _ <- <-. right. eauto.
    + injection E as _ _ _ E. destruct pre; discriminate E.
  - right. right. split; [discriminate|]. split; [discriminate|]. cbn [trace_handle app] in E.
    destruct pre as [|y1 [|y2 [|y3 pre]]]; cbn [app] in E.
    + injection E as <- <-. left. eauto.
    + injection E as _ <- <-. right. eauto.
    + injection E as _ _ <- <-. right. eauto.
    + injection E as _ _ _ E. destruct pre; discriminate E.
  - right. left. exists client, e, now. split; [reflexivity|].
    set (mu := if client then _ else _) in *.
    assert (G : forall sp, Forall (fun y => exists u, y = GDo (GCSpan u)) sp ->
              sp ++ [GLoad SentBytes; GLoad SentCount; GLoad RecvCount; GLoad RecvBytes;
                     GRecEnd client (rc_tags rc) mu (span_ctx_attachment (rc_span rc)) (in_ms (time_sub now t0))] = pre ++ x :: r ->
              (r <> [] /\ ((exists u, x = GDo (GCSpan u)) \/ exists f, x = GLoad f)) \/
              (x = GRecEnd client (rc_tags rc) mu (span_ctx_attachment (rc_span rc)) (in_ms (time_sub now t0)) /\ r = [])).
    { clear E. intros sp Hs E. revert pre E. induction Hs as [|y sp (u & ->) Hs IH]; intros pre E; cbn [app] in E.
      - destruct pre as [|y1 [|y2 [|y3 [|y4 [|y5 pre]]]]]; cbn [app] in E.
        + injection E as <- <-. left. split; [discriminate|eauto].
        + injection E as _ <- <-. left. split; [discriminate|eauto].
        + injection E as _ _ <- <-. left. split; [discriminate|eauto].
        + injection E as _ _ _ <- <-. left. split; [discriminate|eauto].
        + injection E as _ _ _ _ <- <-. right. auto.
        + injection E as _ _ _ _ _ E. destruct pre; discriminate E.
      - destruct pre as [|y1 pre]; cbn [app] in E.
        + injection E as <- <-. left. split; [destruct sp; discriminate|eauto].
        + injection E as _ E. eapply IH; eauto. }
    eapply G; [|exact E]. cbn [trace_handle]. apply Forall_app. split; [|repeat constructor; eauto].
    destruct e; repeat constructor; eauto.
  - destruct pre; discriminate E.
Qed.

Lemma recs_split rc a t d : flat_map (thread_rec rc) (a ++ t :: d) =
  flat_map (thread_rec rc) a ++ thread_rec rc t ++ flat_map (thread_rec rc) d.
Proof. rewrite flat_map_app. reflexivity. Qed.

(** The form of a recording. *)
Definition rec_of (rc : rpc_ctx) (evs : list gevent) (xs : list ropt) : Prop :=
  exists t0 full, rc_data rc = Some (t0, full) /\
    ((exists client ff, In (GBegin client ff) evs /\ xs = begin_record rc full client) \/
     (exists client e now regs, In (GEnd client e now) evs /\ xs = end_opts client t0 full rc e now regs)).

Lemma rpc_step rc l s a s' : rc_data rc <> None -> grpc_run rc grpc_init l = Some s -> grpc_step rc s a = Some s' ->
  (new_record (g_calls s) (g_calls s') = None /\ Permutation (rpc_recs rc s') (rpc_recs rc s)) \/
  (exists xs, new_record (g_calls s) (g_calls s') = Some (rc_tags rc, xs) /\ Permutation (rpc_recs rc s') (rpc_recs rc s ++ [xs]) /\
     rec_of rc (map gt_event (g_threads s)) xs).
Proof.
  intros Hd Hrun E. pose proof (ginv_run rc l s Hd Hrun) as G. unfold grpc_step in E. destruct (g_panicked s); [discriminate|].
  destruct a as [ev|i].
  - injection E as <-. left. cbn [g_calls]. split; [apply new_record_same|]. unfold rpc_recs. cbn [g_threads]. rewrite flat_map_app.
    cbn [flat_map]. rewrite app_nil_r. replace (thread_rec rc (MkGT ev (handle_rpc rc ev) [])) with (@nil (list ropt)); [rewrite app_nil_r; apply Permutation_refl|].
    unfold thread_rec. cbn [gt_todo gt_event]. destruct (handle_rpc rc ev) eqn:Eh; [|reflexivity].
    destruct (rc_data rc) as [[t0 full]|] eqn:Ed; [|reflexivity]. destruct ev; try reflexivity; exfalso; unfold handle_rpc, stats_handle in Eh;
      rewrite Ed in Eh; cbn in Eh; [discriminate|]. destruct e; discriminate.
  - destruct (nth_error (g_threads s) i) as [t|] eqn:En; [|discriminate]. destruct (gt_todo t) as [|x r] eqn:Et; [discriminate|].
    injection E as <-. destruct (gi_suffix _ _ _ G t (nth_error_In _ _ En)) as (pre & Epre). rewrite Et in Epre.
    destruct (rc_data rc) as [[t0 full]|] eqn:Ed; [|contradiction].
    destruct (do_instr_threads s i t x r En) as (a & d & regs & E1 & _ & E2 & Er).
    unfold rpc_recs. rewrite E1, E2, !recs_split.
    assert (Z : thread_rec rc t = []) by (unfold thread_rec; now rewrite Et). rewrite Z. cbn [app].
    assert (Hin : In (gt_event t) (map gt_event (a ++ t :: d))) by (apply in_map, in_or_app; right; now left).
    destruct (handle_last rc t0 full _ _ _ _ Ed Epre) as [(client & ff & Eev & H)|[(client & e & now & Eev & H)|(N1 & N2 & H)]].
    + destruct H as [(u & -> & Hr)|(-> & ->)].
      * left. cbn [do_instr g_calls]. rewrite new_record_app. split; [reflexivity|]. unfold thread_rec. cbn [gt_todo].
        destruct r; [contradiction|]. apply Permutation_refl.
      * right. eexists. cbn [do_instr g_calls]. rewrite new_record_app. split; [reflexivity|]. split.
        -- unfold thread_rec at 2. cbn [gt_todo gt_event]. rewrite Ed, Eev, <- app_assoc. apply Permutation_app_head. cbn [app].
           apply Permutation_cons_append.
        -- exists t0, full. split; [exact Ed|]. left. exists client, ff. split; [rewrite <- Eev; exact Hin|reflexivity].
    + destruct H as [(Hr & H)|(-> & ->)].
      * left. assert (Hn : new_record (g_calls s) (g_calls (do_instr s i t x r)) = None).
        { destruct H as [(u & ->)|(f & ->)]; cbn [do_instr g_calls]; [apply new_record_app|apply new_record_same]. }
        split; [exact Hn|]. unfold thread_rec at 2. cbn [gt_todo]. destruct r; [contradiction|]. apply Permutation_refl.
      * right. eexists. cbn [do_instr g_calls]. rewrite new_record_app. split; [reflexivity|]. split.
        -- unfold thread_rec at 2. cbn [gt_todo gt_event gt_regs]. rewrite Ed, Eev, Er, <- app_assoc. apply Permutation_app_head. cbn [app].
           apply Permutation_cons_append.
        -- exists t0, full. split; [exact Ed|]. right. exists client, e, now, (gt_regs t). split; [rewrite <- Eev; exact Hin|reflexivity].
    + left. assert (Hn : new_record (g_calls s) (g_calls (do_instr s i t x r)) = None).
      { destruct H as [(u & ->)|(f & n & ->)]; cbn [do_instr g_calls]; [apply new_record_app|apply new_record_same]. }
      split; [exact Hn|]. unfold thread_rec at 2. cbn [gt_todo gt_event]. rewrite Ed. destruct r; [|apply Permutation_refl].
      destruct (gt_event t); try apply Permutation_refl; exfalso; [eapply N1|eapply N2]; reflexivity.
Qed.

(** What was recorded, as calls and as calls of HandleRPC. *)
Lemma recs_run rc l s : rc_data rc <> None -> grpc_run rc grpc_init l = Some s ->
  Permutation (recorded_calls (g_calls s)) (map (pair (rc_tags rc)) (rpc_recs rc s)).
Proof.
  intros Hd. revert s. induction l as [|a l IH] using rev_ind; intros s H; [injection H as <-; apply Permutation_refl|].
  apply run_app in H. destruct H as (s1 & H1 & H2). cbn [grpc_run] in H2. destruct (grpc_step rc s1 a) as [s2|] eqn:E; [|discriminate].
  injection H2 as <-. specialize (IH s1 H1).
  assert (Hc : exists ks, g_calls s2 = g_calls s1 ++ ks /\ length ks <= 1).
  { unfold grpc_step in E. destruct (g_panicked s1); [discriminate|]. destruct a as [ev|i].
    - injection E as <-. exists []. cbn. split; [now rewrite app_nil_r|lia].
    - destruct (nth_error (g_threads s1) i) as [t|]; [|discriminate]. destruct (gt_todo t) as [|x r]; [discriminate|]. injection E as <-.
      destruct x; cbn [do_instr g_calls]; first [eexists; split; [reflexivity|cbn; lia] | exists []; split; [now rewrite app_nil_r|cbn; lia]]. }
  destruct Hc as (ks & Ek & Lk). destruct (rpc_step rc l s1 a s2 Hd H1 E) as [(En & P)|(xs & En & P & _)].
  - rewrite Ek, recorded_app. replace (recorded_calls ks) with (@nil (ctx * list ropt)).
    + rewrite app_nil_r. etransitivity; [exact IH|]. apply Permutation_map. now symmetry.
    + destruct ks as [|k [|]]; [reflexivity| |cbn in Lk; lia]. rewrite Ek, new_record_app in En. destruct k; [reflexivity|discriminate].
  - rewrite Ek, recorded_app. destruct ks as [|k [|]]; [|..|cbn in Lk; lia].
    + rewrite app_nil_r in Ek. rewrite Ek, new_record_same in En. discriminate.
    + rewrite Ek, new_record_app in En. destruct k as [u|c ys]; [discriminate|]. injection En as -> ->. cbn [recorded_calls flat_map app].
      etransitivity; [apply Permutation_app_tail; exact IH|]. symmetry. etransitivity; [apply Permutation_map; exact P|]. rewrite map_app. apply Permutation_refl.
Qed.

(** ** The process as one without the plugin *)

Definition glower1 (g : gproc) (a : gpact) : list pact :=
  let ts := pc_tags (gp_proc g) in
  match a with
  | GApp a => [a]
  | GClient _ _ _ _ _ _ _ _ => []
  | GServer h info it md wire sc now =>
      match wire with Some b => match decode b with DecOk _ => [PTag (OpDecode 0 b)] | _ => [] end | None => [] end ++
      match info with
      | Some full => [PTag (OpNew (length (st_ctxs ts)) it [Upsert key_grpc_server_method (method_name full) []])]
      | None => []
      end
  | GRpc r a it o now =>
      match nth_error (gp_rpcs g) r with
      | None => []
      | Some x =>
          match grpc_step (gr_ctx x) (gr_state x) a with
          | None => []
          | Some s => match new_record (g_calls (gr_state x)) (g_calls s) with
                      | None => []
                      | Some (c, xs) => [PRecord c it xs o now]
                      end
          end
      end
  end.

Fixpoint glower (g : gproc) (l : list gpact) : list pact :=
  match l with
  | [] => []
  | a :: r => glower1 g a ++ match gproc_step g a with Some g' => glower g' r | None => [] end
  end.

Definition side_ok (client : bool) (ev : gevent) : Prop :=
  match ev with
  | GBegin c _ => c = client
  | GEnd c e _ => c = client /\ match e with StatusError n _ => (n < 2 ^ 32)%N | _ => True end
  | _ => True
  end.

(** What holds of each RPC. *)
Record rpc_inv (ts : tag_state) (x : grpc_rpc) : Prop := {
  ri_data : rc_data (gr_ctx x) <> None;
  ri_run : exists l, grpc_run (gr_ctx x) grpc_init l = Some (gr_state x);
  ri_ctx : In (rc_tags (gr_ctx x)) (None :: st_ctxs ts);
  ri_side : forall ev, In ev (map gt_event (g_threads (gr_state x))) -> side_ok (gr_client x) ev;
  ri_tag : forall t0 full, rc_data (gr_ctx x) = Some (t0, full) -> gr_client x = false -> valid_value (method_name full) ->
    exists ttl, ctx_fun (st_heap ts) (rc_tags (gr_ctx x)) key_grpc_server_method = Some (Content (method_name full) ttl) }.

Definition gpinv (g : gproc) : Prop := forall x, In x (gp_rpcs g) -> rpc_inv (pc_tags (gp_proc g)) x.

Lemma rpc_inv_more ts ts' x : tags_inv ts -> extends (st_heap ts) (st_heap ts') -> incl (st_ctxs ts) (st_ctxs ts') ->
  rpc_inv ts x -> rpc_inv ts' x.
Proof.
  intros Hi X C [H1 H2 H3 H4 H5]. split; auto.
  - destruct H3 as [H3|H3]; [now left|right; auto].
  - intros t0 full Hd Hc Hv. destruct (H5 t0 full Hd Hc Hv) as (ttl & E). exists ttl. rewrite <- E.
    now rewrite (extends_ctx ts (st_heap ts') _ Hi H3 X).
Qed.

Lemma valid_keys_grpc : valid_key key_grpc_server_method /\ valid_key key_grpc_server_status /\ valid_key key_grpc_client_method /\ valid_key key_grpc_client_status.
Proof. repeat split; apply check_key_name_spec; reflexivity. Qed.

Lemma rec_of_ok rc evs xs : rec_of rc evs xs ->
  (forall ms, In (WithMeasurements ms) xs -> ~ In None ms) /\
  (forall mus mu, In (WithTags mus) xs -> In mu mus -> valid_key (mutator_key mu)).
Proof.
  destruct valid_keys_grpc as (K1 & K2 & K3 & K4).
  intros (t0 & full & _ & [(client & ff & _ & ->)|(client & e & now & regs & _ & ->)]); (split; [intros ms Hin HN|intros mus mu Hin Hmu]).
  - cbn in Hin. destruct Hin as [Hin|[Hin|[]]]; [discriminate|]. injection Hin as <-. destruct HN as [HN|[]]. discriminate.
  - cbn in Hin. destruct Hin as [Hin|[Hin|[]]]; [|discriminate]. injection Hin as <-. destruct Hmu as [<-|[]]. exact K3.
  - cbn in Hin. destruct Hin as [Hin|[Hin|[Hin|[]]]]; try discriminate. injection Hin as <-. unfold end_measurements in HN.
    apply in_app_or in HN. destruct HN as [HN|[HN|[]]]; [|discriminate]. apply in_map_iff in HN. destruct HN as (mv & HN & _). discriminate.
  - cbn in Hin. destruct Hin as [Hin|[Hin|[Hin|[]]]]; try discriminate. injection Hin as <-.
    destruct client; cbn in Hmu; [destruct Hmu as [<-|[<-|[]]]|destruct Hmu as [<-|[]]]; assumption.
Qed.

Lemma upd_in {A} (l : list A) i f y : In y (upd l i f) -> In y l \/ exists x, nth_error l i = Some x /\ y = f x.
Proof.
  revert i. induction l as [|x l IH]; intros [|i] H; cbn in *; try tauto.
  - destruct H as [<-|H]; [right; eauto|left; now right].
  - destruct H as [<-|H]; [left; now left|]. destruct (IH i H) as [H'|H']; [left; now right|right; exact H'].
Qed.

Lemma step_events rc s a s' : grpc_step rc s a = Some s' ->
  map gt_event (g_threads s') = map gt_event (g_threads s) ++ match a with GCall ev => [ev] | GStep _ => [] end.
Proof.
  unfold grpc_step. destruct (g_panicked s); [discriminate|]. destruct a as [ev|i].
  - intros [= <-]. cbn [g_threads]. now rewrite map_app.
  - destruct (nth_error (g_threads s) i) as [t|] eqn:En; [|discriminate]. destruct (gt_todo t) as [|x r]; [discriminate|]. intros [= <-].
    destruct (do_instr_threads s i t x r En) as (a & d & regs & E1 & _ & E2 & _). rewrite E1, E2, app_nil_r, !map_app. reflexivity.
Qed.

Lemma server_lower g h info it md wire sc now out :
  server_tag_rpc h info (st_heap (pc_tags (gp_proc g))) it md wire sc now = Some out ->
  (forall th c, server_tags (st_heap (pc_tags (gp_proc g))) wire = Some (th, c) -> iterates th c it) ->
  tags_inv (pc_tags (gp_proc g)) ->
  exists full th c, info = Some full /\ server_tags (st_heap (pc_tags (gp_proc g))) wire = Some (th, c) /\
    rc_data (to_ctx out) = Some (now, full) /\
    proc_run (gp_proc g) (glower1 g (GServer h info it md wire sc now)) =
      Some (MkProc (TagState (to_heap out) (st_ctxs (pc_tags (gp_proc g)) ++ decoded_ctx (st_heap (pc_tags (gp_proc g))) wire ++ [rc_tags (to_ctx out)]))
                   (pc_worker (gp_proc g))) /\
    (forall u, pacts_ok u (gp_proc g) (glower1 g (GServer h info it md wire sc now))) /\
    (valid_value (method_name full) ->
     exists ttl, ctx_fun (to_heap out) (rc_tags (to_ctx out)) key_grpc_server_method = Some (Content (method_name full) ttl)).
Proof.
  intros E Hit Hi. destruct info as [full|]; [|discriminate]. unfold server_tag_rpc in E.
  destruct (server_trace_tag h full md) as [[[[p name] opts] us]|]; [|discriminate].
  destruct (server_tags (st_heap (pc_tags (gp_proc g))) wire) as [[th c]|] eqn:Es; [|discriminate].
  destruct (tag_new th c it [Upsert key_grpc_server_method (method_name full) []]) as [[th2 c2] e2] eqn:En. injection E as <-.
  cbn [to_ctx to_heap rc_data rc_tags]. exists full, th, c. split; [reflexivity|]. split; [reflexivity|]. split; [reflexivity|].
  specialize (Hit th c eq_refl).
  set (ts := pc_tags (gp_proc g)) in *. set (mu := Upsert key_grpc_server_method (method_name full) []) in *.
  assert (Hk : forall u p, iterates (st_heap (pc_tags p)) (nth (length (st_ctxs ts)) (st_ctxs (pc_tags p)) None) it ->
            pact_ok u p (PTag (OpNew (length (st_ctxs ts)) it [mu]))).
  { intros u p9 H. split; [exact H|]. intros mu' [<-|[]]. apply valid_keys_grpc. }
  (* the context the map was decoded into *)
  assert (Hc : exists ts1, TagState th (st_ctxs ts ++ decoded_ctx (st_heap ts) wire) = ts1 /\ nth (length (st_ctxs ts)) (st_ctxs ts1) None = c /\ tags_inv ts1 /\
    forall pcw, proc_run (MkProc ts pcw) (match wire with Some b => match decode b with DecOk _ => [PTag (OpDecode 0 b)] | _ => [] end | None => [] end) = Some (MkProc ts1 pcw) /\
    forall u, pacts_ok u (MkProc ts pcw) (match wire with Some b => match decode b with DecOk _ => [PTag (OpDecode 0 b)] | _ => [] end | None => [] end)).
  { unfold server_tags in Es. unfold decoded_ctx. destruct wire as [b|].
    - destruct (decode b) as [m|e1| |] eqn:Ed; try discriminate.
      + injection Es as <- <-. eexists. split; [reflexivity|]. cbn [st_ctxs].
        split; [rewrite app_nth2 by lia; now rewrite Nat.sub_diag|]. split.
        * destruct (tag_step_inv ts (OpDecode 0 b) Hi I) as (H & _). cbn [tag_step] in H. now rewrite Ed in H.
        * intros pcw. split; [|intros u; repeat split]. cbn [proc_run proc_step tag_step pc_tags pc_worker]. now rewrite Ed.
      + injection Es as <- <-. exists ts. rewrite app_nil_r. split; [now destruct ts|]. split; [now apply nth_overflow|]. split; [exact Hi|]. intros pcw. split; [reflexivity|intros u; exact I].
    - injection Es as <- <-. exists ts. rewrite app_nil_r. split; [now destruct ts|]. split; [now apply nth_overflow|]. split; [exact Hi|]. intros pcw. split; [reflexivity|intros u; exact I]. }
  destruct Hc as (ts1 & Ets & Hnth & Hi1 & Hrun). assert (Hth : st_heap ts1 = th) by (rewrite <- Ets; reflexivity).
  assert (Egp : gp_proc g = MkProc ts (pc_worker (gp_proc g))) by (unfold ts; now destruct (gp_proc g)).
  destruct (Hrun (pc_worker (gp_proc g))) as [Hr1 Hr2]. unfold glower1. fold ts. fold mu. cbv zeta. split; [|split].
  - rewrite proc_run_app, Egp. cbn [pc_worker pc_tags]. rewrite Hr1. cbn [proc_run proc_step tag_step pc_tags pc_worker]. rewrite Hnth, Hth, En. rewrite <- Ets. cbn [st_ctxs].
    now rewrite <- app_assoc.
  - intros u. specialize (Hr2 u). rewrite Egp. revert Hr1 Hr2. cbn [pc_tags pc_worker].
    generalize (match wire with Some b => match decode b with DecOk _ => [PTag (OpDecode 0 b)] | _ => [] end | None => [] end) as l0.
    generalize (MkProc ts (pc_worker (gp_proc g))) as p0. intros p0 l0. revert p0.
    assert (Hnew : pact_ok u (MkProc ts1 (pc_worker (gp_proc g))) (PTag (OpNew (length (st_ctxs ts)) it [mu]))).
    { apply Hk. cbn [pc_tags]. rewrite Hnth, Hth. exact Hit. }
    induction l0 as [|a l0 IH]; intros p0 Hr1 Hr2; cbn [proc_run app pacts_ok] in *.
    + injection Hr1 as ->. split; [exact Hnew|]. cbn [proc_step]. exact I.
    + destruct Hr2 as [Ha Hr2]. split; [exact Ha|]. destruct (proc_step p0 a); [|exact I]. now apply IH.
  - intros Hv. destruct Hi1 as (cs & Hreach & Hincl). destruct (ctx_index cs c) as (j & Ej).
    { destruct (Nat.lt_ge_cases (length (st_ctxs ts)) (length (st_ctxs ts1))) as [H|H].
      - right. apply Hincl. rewrite <- Hnth. now apply nth_In.
      - left. rewrite <- Hnth. symmetry. now apply nth_overflow. }
    pose proof (C03_new (TagState (st_heap ts1) cs) j it [mu] th2 c2 e2 Hreach) as H3. cbv zeta in H3. cbn [st_heap st_ctxs] in H3.
    rewrite Ej, Hth in H3. destruct (H3 Hit En) as [H4 _]. destruct H4 as [_ H4]; [intros mu' [<-|[]]; exact Hv|].
    exists (spec_ttl []). rewrite H4. cbn [fold_left]. unfold mu. cbn [spec_mutate]. unfold fset.
    destruct (bytes_eq_dec key_grpc_server_method key_grpc_server_method); [reflexivity|contradiction].
Qed.

(** One action. *)
Lemma gstep_lower u h g a g' :
  u_ok u -> pinv u h (gp_proc g) -> gpinv g -> gpact_ok u g a -> gproc_step g a = Some g' ->
  pacts_ok u (gp_proc g) (glower1 g a) /\ proc_run (gp_proc g) (glower1 g a) = Some (gp_proc g') /\ gpinv g'.
Proof.
  intros U HI HG Ha E.
  assert (Hrest : pacts_ok u (gp_proc g) (glower1 g a) -> proc_run (gp_proc g) (glower1 g a) = Some (gp_proc g') ->
                  forall x, In x (gp_rpcs g) -> rpc_inv (pc_tags (gp_proc g')) x).
  { intros Hok Hrun x Hx. destruct (run_inv u _ h _ _ U HI Hok Hrun) as (hs & _ & X & C & _).
    eapply rpc_inv_more; [apply (pi_tags _ _ _ HI)|exact X|exact C|]. now apply HG. }
  destruct a as [a|smp info i it md wire sc now|hd info it md wire sc now|r a it o now]; cbn [gproc_step] in E.
  - destruct (proc_step (gp_proc g) a) as [p|] eqn:Ep; [|discriminate]. injection E as <-. cbn [gp_proc gp_rpcs glower1] in *.
    assert (A1 : pacts_ok u (gp_proc g) [a]) by (cbn [pacts_ok]; rewrite Ep; split; [exact Ha|exact I]).
    assert (A2 : proc_run (gp_proc g) [a] = Some p) by (cbn [proc_run]; now rewrite Ep).
    split; [exact A1|]. split; [exact A2|]. intros x Hx. cbn [gp_rpcs gp_proc] in *. now apply Hrest.
  - destruct (client_tag_rpc smp info (st_heap (pc_tags (gp_proc g))) (nth i (st_ctxs (pc_tags (gp_proc g))) None) it md wire sc now) as [out|] eqn:Ec; [|discriminate].
    injection E as <-. cbn [gp_proc glower1].
    assert (Ho : to_heap out = st_heap (pc_tags (gp_proc g)) /\ (exists full, rc_data (to_ctx out) = Some (now, full)) /\ rc_tags (to_ctx out) = nth i (st_ctxs (pc_tags (gp_proc g))) None).
    { unfold client_tag_rpc in Ec. destruct info as [full|]; [|discriminate].
      destruct (nth i (st_ctxs (pc_tags (gp_proc g))) None); [destruct (encode it); [|discriminate]|]; injection Ec as <-; cbn; eauto. }
    destruct Ho as (Eh & (full & Ed) & Et). rewrite Eh.
    assert (Ep : MkProc (TagState (st_heap (pc_tags (gp_proc g))) (st_ctxs (pc_tags (gp_proc g)))) (pc_worker (gp_proc g)) = gp_proc g)
      by (destruct (gp_proc g) as [[hp cs] w]; reflexivity).
    split; [exact I|]. split; [cbn; now rewrite Ep|]. intros x Hx. cbn [gp_rpcs gp_proc] in *. rewrite Ep. apply in_app_or in Hx. destruct Hx as [Hx|[<-|[]]]; [now apply HG|].
    split; cbn [gr_ctx gr_state gr_client].
    + congruence.
    + exists []. reflexivity.
    + rewrite Et. destruct (nth_In_or_default (st_ctxs (pc_tags (gp_proc g))) i None) as [H|H]; [right; exact H|left; now rewrite H].
    + intros ev [].
    + discriminate.
  - destruct (server_tag_rpc hd info (st_heap (pc_tags (gp_proc g))) it md wire sc now) as [out|] eqn:Es; [|discriminate].
    injection E as <-. destruct (server_lower g hd info it md wire sc now out Es Ha (pi_tags _ _ _ HI)) as (full & th & c & -> & Est & Ed & Hrun & Hok & Htag).
    cbn [gp_proc] in *. split; [apply Hok|]. split; [exact Hrun|]. intros x Hx. cbn [gp_rpcs gp_proc] in *. apply in_app_or in Hx. destruct Hx as [Hx|[<-|[]]].
    + now apply Hrest.
    + split; cbn [gr_ctx gr_state gr_client pc_tags st_heap st_ctxs].
      * congruence.
      * exists []. reflexivity.
      * right. apply in_or_app. right. apply in_or_app. right. now left.
      * intros ev [].
      * intros t0 full0 Ed0 _ Hv. rewrite Ed in Ed0. injection Ed0 as <- <-. auto.
  - cbn [glower1]. destruct (nth_error (gp_rpcs g) r) as [x|] eqn:Ex; [|discriminate].
    pose proof (HG x (nth_error_In _ _ Ex)) as Hx. destruct (Ha x Ex) as [Hit Hside].
    destruct (grpc_step (gr_ctx x) (gr_state x) a) as [s|] eqn:Es; [|discriminate]. destruct (g_panicked s); [discriminate|].
    destruct (ri_run _ _ Hx) as (l & Hl).
    assert (Hl' : grpc_run (gr_ctx x) grpc_init (l ++ [a]) = Some s).
    { eapply run_app_intro; [exact Hl|]. cbn [grpc_run]. now rewrite Es. }
    assert (Hnew : forall ts, rpc_inv ts x -> rpc_inv ts (MkRpc (gr_client x) (gr_ctx x) s)).
    { intros ts [H1 H2 H3 H4 H5]. split; cbn [gr_ctx gr_client gr_state]; auto.
      - exists (l ++ [a]). exact Hl'.
      - intros ev Hin. rewrite (step_events _ _ _ _ Es) in Hin. apply in_app_or in Hin. destruct Hin as [Hin|Hin]; [now apply H4|].
        destruct a as [ev'|]; [|destruct Hin]. destruct Hin as [<-|[]]. destruct ev'; cbn [side_ok]; try exact I; exact Hside. }
    assert (Hall : forall p', (forall y, In y (gp_rpcs g) -> rpc_inv (pc_tags p') y) ->
                   gpinv (MkGP p' (upd (gp_rpcs g) r (fun x => MkRpc (gr_client x) (gr_ctx x) s)))).
    { intros p' Hy y Hin. cbn [gp_rpcs gp_proc] in *. apply upd_in in Hin. destruct Hin as [Hin|(x' & E' & ->)]; [now apply Hy|].
      rewrite Ex in E'. injection E' as <-. apply Hnew. apply Hy. eapply nth_error_In; eauto. }
    cbn [glower1] in Hrest. rewrite Ex, Es in Hrest.
    destruct (rpc_step (gr_ctx x) l (gr_state x) a s (ri_data _ _ Hx) Hl Es) as [(En & P)|(xs & En & P & Hrec)]; rewrite En in *.
    + injection E as <-. cbn [gp_proc] in *. split; [exact I|]. split; [reflexivity|]. apply Hall. exact HG.
    + destruct (do_record (gp_proc g) (rc_tags (gr_ctx x)) it xs o now) as [p|] eqn:Ep; [|discriminate]. injection E as <-. cbn [gp_proc] in *.
      destruct (rec_of_ok _ _ _ Hrec) as [R1 R2].
      assert (A1 : pacts_ok u (gp_proc g) [PRecord (rc_tags (gr_ctx x)) it xs o now]).
      { cbn [pacts_ok proc_step]. rewrite Ep. split; [|exact I]. split; [apply (ri_ctx _ _ Hx)|]. split; [exact Hit|]. split; [exact R1|exact R2]. }
      assert (A2 : proc_run (gp_proc g) [PRecord (rc_tags (gr_ctx x)) it xs o now] = Some p) by (cbn [proc_run proc_step]; now rewrite Ep).
      split; [exact A1|]. split; [exact A2|]. apply Hall. intros y Hy. now apply Hrest.
Qed.

Lemma grun_lower u l : forall h g g',
  u_ok u -> pinv u h (gp_proc g) -> gpinv g -> gpacts_ok u g l -> gproc_run g l = Some g' ->
  pacts_ok u (gp_proc g) (glower g l) /\ proc_run (gp_proc g) (glower g l) = Some (gp_proc g') /\ gpinv g' /\ exists hs, pinv u (h ++ hs) (gp_proc g').
Proof.
  induction l as [|a l IH]; intros h g g' U HI HG Hok E.
  - injection E as <-. split; [exact I|]. split; [reflexivity|]. split; [exact HG|]. exists []. now rewrite app_nil_r.
  - cbn [gproc_run gpacts_ok glower] in *. destruct Hok as [Ha Hok]. destruct (gproc_step g a) as [g1|] eqn:Es; [|discriminate].
    destruct (gstep_lower u h g a g1 U HI HG Ha Es) as (A1 & A2 & A3).
    destruct (run_inv u _ h _ _ U HI A1 A2) as (hs & I1 & _).
    destruct (IH (h ++ hs) g1 g' U I1 A3 Hok E) as (B1 & B2 & B3 & hs2 & B4).
    split; [|split; [|split; [exact B3|exists (hs ++ hs2); now rewrite app_assoc]]].
    + clear - A1 A2 B1. revert A1 A2 B1. generalize (gp_proc g) as p. generalize (glower1 g a) as l0. induction l0 as [|b l0 IH]; intros p A1 A2 B1.
      * injection A2 as ->. exact B1.
      * cbn [app pacts_ok proc_run] in *. destruct A1 as [Hb A1]. split; [exact Hb|]. destruct (proc_step p b); [|exact I]. now apply IH.
    + rewrite proc_run_app, A2. exact B2.
Qed.

(** ** What the RPCs have contributed to a measure *)

Definition pv (s : list (key * bytes) * sample f64_num) : list (key * bytes) * f64 := (fst s, s_value (snd s)).

Definition vsamples (hp : heap) (keys : list key) (m : bytes) (c : ctx) (xs : list ropt) : list (list (key * bytes) * f64) :=
  map pv (samples_of hp keys m c xs 0%Z).

Lemma vsamples_now hp keys m c xs now : map pv (samples_of hp keys m c xs now) = vsamples hp keys m c xs.
Proof.
  unfold vsamples, samples_of. destruct (given_rec xs) as [[|r]|]; try reflexivity; (destruct (forallb legal_mutator (given_tags xs)); [|reflexivity]);
    cbv zeta; (induction (given_ms xs) as [|[[me v]|] ms IH]; [reflexivity| |exact IH]); cbn [flat_map]; rewrite !map_app, IH; f_equal;
    now destruct (bytes_eqb (me_name me) m).
Qed.

Definition rpc_contrib (hp : heap) (keys : list key) (m : bytes) (x : grpc_rpc) : list (list (key * bytes) * f64) :=
  flat_map (vsamples hp keys m (rc_tags (gr_ctx x))) (rpc_recs (gr_ctx x) (gr_state x)).
Definition contribs (hp : heap) (keys : list key) (m : bytes) (g : gproc) : list (list (key * bytes) * f64) :=
  flat_map (rpc_contrib hp keys m) (gp_rpcs g).

Lemma flat_map_perm {A B} (f : A -> list B) l l' : Permutation l l' -> Permutation (flat_map f l) (flat_map f l').
Proof.
  induction 1; cbn [flat_map].
  - constructor.
  - now apply Permutation_app_head.
  - rewrite !app_assoc. apply Permutation_app_tail, Permutation_app_comm.
  - etransitivity; eauto.
Qed.

Lemma flat_map_upd {A B} (f : A -> list B) (g : A -> A) e : forall l i x, nth_error l i = Some x -> Permutation (f (g x)) (f x ++ e) ->
  Permutation (flat_map f (upd l i g)) (flat_map f l ++ e).
Proof.
  induction l as [|y l IH]; intros [|i] x En P; cbn in En; try discriminate.
  - injection En as ->. cbn [upd flat_map]. etransitivity; [apply Permutation_app_tail; exact P|]. rewrite <- !app_assoc.
    apply Permutation_app_head, Permutation_app_comm.
  - cbn [upd flat_map]. rewrite <- app_assoc. apply Permutation_app_head. eapply IH; eauto.
Qed.

Lemma avoided_samples hp keys m c xs now :
  (forall ms me v, In (WithMeasurements ms) xs -> In (Some (me, v)) ms -> me_name me <> m) -> samples_of hp keys m c xs now = [].
Proof.
  intros H. unfold samples_of.
  assert (Hn : forall tags : list (key * bytes), flat_map (fun x : measurement => match x with
    | Some (me, v) => if bytes_eqb (me_name me) m then [(tags, @MkSample f64_num v (given_att xs) now)] else []
    | None => [] end) (given_ms xs) = []).
  { intros tags. apply no_samples. intros me v Hin. rewrite given_ms_opt in Hin. apply opt_ms_in in Hin. destruct Hin as (ms & H1 & H2). eapply H; eauto. }
  cbv zeta. rewrite Hn. destruct (given_rec xs) as [[|r]|]; try reflexivity; now destruct (forallb legal_mutator (given_tags xs)).
Qed.

Lemma gstep_contribs u g a g' hp keys m :
  gpinv g -> gpact_ok u g a -> app_avoids m a -> gproc_step g a = Some g' ->
  Permutation (contribs hp keys m g') (contribs hp keys m g ++ map pv (all_samples hp keys m (glower1 g a))).
Proof.
  intros HG Ha Hav E. unfold contribs.
  destruct a as [a|smp info i it md wire sc now|hd info it md wire sc now|r a it o now]; cbn [gproc_step glower1] in *.
  - destruct (proc_step (gp_proc g) a) as [p|]; [|discriminate]. injection E as <-. cbn [gp_rpcs].
    replace (all_samples hp keys m [a]) with (@nil (list (key * bytes) * sample f64_num)); [rewrite app_nil_r; apply Permutation_refl|].
    destruct a as [| |c it xs o now]; try reflexivity. cbn [all_samples flat_map]. rewrite avoided_samples; [reflexivity|exact Hav].
  - destruct (client_tag_rpc _ _ _ _ _ _ _ _ _) as [out|]; [|discriminate]. injection E as <-. cbn [gp_rpcs]. rewrite flat_map_app.
    cbn. rewrite app_nil_r. apply Permutation_refl.
  - destruct (server_tag_rpc _ _ _ _ _ _ _ _) as [out|]; [|discriminate]. injection E as <-. cbn [gp_rpcs]. rewrite flat_map_app.
    replace (all_samples hp keys m _) with (@nil (list (key * bytes) * sample f64_num)).
    + cbn. rewrite app_nil_r. apply Permutation_refl.
    + unfold all_samples. rewrite flat_map_app. destruct wire as [b|]; [destruct (decode b)|]; destruct info; reflexivity.
  - destruct (nth_error (gp_rpcs g) r) as [x|] eqn:Ex; [|discriminate].
    pose proof (HG x (nth_error_In _ _ Ex)) as Hx.
    destruct (grpc_step (gr_ctx x) (gr_state x) a) as [s|] eqn:Es; [|discriminate]. destruct (g_panicked s); [discriminate|].
    destruct (ri_run _ _ Hx) as (l & Hl).
    destruct (rpc_step (gr_ctx x) l (gr_state x) a s (ri_data _ _ Hx) Hl Es) as [(En & P)|(xs & En & P & Hrec)]; rewrite En in *.
    + injection E as <-. cbn [gp_rpcs all_samples flat_map map]. apply (flat_map_upd _ _ [] _ _ x Ex). rewrite app_nil_r. unfold rpc_contrib. cbn [gr_ctx gr_state].
      now apply flat_map_perm.
    + destruct (do_record _ _ _ _ _ _) as [p|]; [|discriminate]. injection E as <-. cbn [gp_rpcs all_samples flat_map]. rewrite app_nil_r, vsamples_now.
      apply (flat_map_upd _ _ _ _ _ x Ex). unfold rpc_contrib. cbn [gr_ctx gr_state]. etransitivity; [apply flat_map_perm; exact P|].
      rewrite flat_map_app. cbn [flat_map]. rewrite app_nil_r. apply Permutation_refl.
Qed.

Lemma grun_contribs u hp keys m l : forall h g g',
  u_ok u -> pinv u h (gp_proc g) -> gpinv g -> gpacts_ok u g l -> (forall a, In a l -> app_avoids m a) -> gproc_run g l = Some g' ->
  Permutation (contribs hp keys m g') (contribs hp keys m g ++ map pv (all_samples hp keys m (glower g l))).
Proof.
  induction l as [|a l IH]; intros h g g' U HI HG Hok Hav E.
  - injection E as <-. cbn. rewrite app_nil_r. apply Permutation_refl.
  - cbn [gproc_run gpacts_ok glower] in *. destruct Hok as [Ha Hok]. destruct (gproc_step g a) as [g1|] eqn:Es; [|discriminate].
    destruct (gstep_lower u h g a g1 U HI HG Ha Es) as (A1 & A2 & A3).
    destruct (run_inv u _ h _ _ U HI A1 A2) as (hs & I1 & _).
    etransitivity; [eapply (IH (h ++ hs)); eauto; intros b Hb; apply Hav; now right|].
    unfold all_samples. rewrite flat_map_app, map_app, app_assoc. apply Permutation_app_tail.
    eapply gstep_contribs; eauto. apply Hav. now left.
Qed.
