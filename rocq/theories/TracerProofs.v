(** The invariant of the tracer over all histories. *)

From Coq Require Import List Arith NArith ZArith Bool Lia Permutation ZifyBool ZifyNat ZifyN.
From Verif Require Import Base GoMap ListLib AggModel AggProofs TraceTypes TraceModel SpanStoreModel SpanStoreSpec SpanStoreProofs
  TracerModel TracerSpec TraceProofs.
Import ListNotations.
Open Scope nat_scope.

(** ** Histories *)

Lemma did_app p h1 h2 : did p (h1 ++ h2) = did p h1 ++ did p h2.
Proof. unfold did. rewrite map_app, filter_app. reflexivity. Qed.

Lemma did_one p op out : did p [(op, out)] = if p op then [op] else [].
Proof. reflexivity. Qed.

Lemma did_nil_app p h1 h2 : did p (h1 ++ h2) = [] -> did p h1 = [] /\ did p h2 = [].
Proof. rewrite did_app. apply app_eq_nil. Qed.

Lemma upds_app h1 h2 i : upds (h1 ++ h2) i = upds h1 i ++ upds h2 i.
Proof. apply flat_map_app. Qed.

Lemma creates_app h1 h2 : creates (h1 ++ h2) = creates h1 ++ creates h2.
Proof. apply flat_map_app. Qed.

Lemma configs_app h1 h2 : configs (h1 ++ h2) = configs h1 ++ configs h2.
Proof. apply flat_map_app. Qed.

Lemma kids_begun_app h1 h2 i : kids_begun (h1 ++ h2) i = kids_begun h1 i + kids_begun h2 i.
Proof. unfold kids_begun. rewrite did_app, app_length. reflexivity. Qed.
Lemma kids_made_app h1 h2 i : kids_made (h1 ++ h2) i = kids_made h1 i + kids_made h2 i.
Proof. unfold kids_made. rewrite did_app, app_length. reflexivity. Qed.

Lemma created_app h x i h1 c : created h i h1 c -> created (h ++ x) i h1 c.
Proof. intros (out & h2 & -> & H). exists out, (h2 ++ x). rewrite <- app_assoc. auto. Qed.

Lemma created_len h i h1 c : created h i h1 c -> length h1 - length h = 0.
Proof. intros (out & h2 & -> & _). rewrite app_length. lia. Qed.

Lemma first_end_app h x i ha : first_end h i ha -> first_end (h ++ x) i ha.
Proof. intros (H & out & hb & ->). split; [exact H |]. exists out, (hb ++ x). rewrite <- app_assoc. auto. Qed.

Lemma completed_app h x i ha now : completed h i ha now -> completed (h ++ x) i ha now.
Proof. intros (o & out & hb & ->). exists o, out, (hb ++ x). rewrite <- app_assoc. auto. Qed.

(** The steps about span [i]. *)
Definition touches (i : nat) (op : top) : bool :=
  match op with
  | TAddChild j | TStoreAdd j | TFinished j | TEndDone j | TSnap j _ _ | TExport j _ => j =? i
  | TUpdate (RSpan j) _ | TEnd (RSpan j) => j =? i
  | _ => false
  end.

Lemma untouched i op out : touches i op = false ->
  upds [(op, out)] i = [] /\ kids_begun [(op, out)] i = 0 /\ did (is_add i) [(op, out)] = [] /\ did (is_end i) [(op, out)] = [] /\
  did (is_snap i) [(op, out)] = [] /\ did (is_fin i) [(op, out)] = [].
Proof.
  unfold upds, kids_begun. rewrite !did_one.
  destruct op as [j | | j | [| |j] | [| |j] | j | j | j | j | | | | | | |]; cbn; intros H; rewrite ?H; auto 10.
Qed.

Lemma untouched_h i h : did (touches i) h = [] ->
  upds h i = [] /\ kids_begun h i = 0 /\ did (is_add i) h = [] /\ did (is_end i) h = [] /\ did (is_snap i) h = [] /\ did (is_fin i) h = [].
Proof.
  induction h as [|[op out] h IH] using rev_ind; [cbn; auto 10 |].
  intros H. apply did_nil_app in H. destruct H as [H1 H2]. rewrite did_one in H2.
  assert (Ht : touches i op = false) by (destruct (touches i op); [discriminate | reflexivity]).
  destruct (IH H1) as (A1 & A2 & A3 & A4 & A5 & A6). destruct (untouched i op out Ht) as (B1 & B2 & B3 & B4 & B5 & B6).
  rewrite upds_app, kids_begun_app, !did_app, A1, A2, A3, A4, A5, A6, B1, B2, B3, B4, B5, B6. auto 10.
Qed.

(** ** The invariant *)

Definition noexp (ex : list (nat * nat * sdata)) (i : nat) : Prop := forall e sd, ~ In (e, i, sd) ex.

Definition must (sc : span_context) (ha : hist) (e : nat) : Prop := is_sampled sc = true /\ registered ha e = true.

Definition data_ok (h1 : hist) (c : creation) (parent sc : span_context) (i : nat) (hs : hist) (now : time) (sd : sdata) : Prop :=
  sd_ok h1 c parent sc (upds hs i) (kids_begun hs i) now sd /\
  (did (is_report (c_name c)) (since h1 hs) = [] -> attrs_exact (Z.to_nat (limit_after ca_attrs 32 h1)) (upds hs i) sd).

(** The data was completed once. *)
Definition snapped (h1 : hist) (c : creation) (parent sc : span_context) (h : hist) (i : nat) (sd : sdata) : Prop :=
  exists hs now, completed h i hs now /\ length (did (is_snap i) h) = 1 /\ data_ok h1 c parent sc i hs now sd.

Definition phase_ok (en : bool) (h1 : hist) (c : creation) (parent sc : span_context) (h : hist)
                    (ex : list (nat * nat * sdata)) (i : nat) (ph : phase) : Prop :=
  match ph with
  | Starting =>
      en = true /\ did (is_add i) h = [] /\ did (is_end i) h = [] /\ did (is_snap i) h = [] /\ did (is_fin i) h = [] /\ noexp ex i
  | Live =>
      (en = true -> did (is_add i) h <> []) /\ did (is_end i) h = [] /\ did (is_snap i) h = [] /\ did (is_fin i) h = [] /\ noexp ex i
  | Ending exps =>
      (en = true -> did (is_add i) h <> []) /\
      (exists ha, first_end h i ha /\ NoDup exps /\ forall e, In e exps <-> must sc ha e) /\
      did (is_snap i) h = [] /\ did (is_fin i) h = [] /\ noexp ex i
  | Storing sd exps =>
      (en = true -> did (is_add i) h <> []) /\
      (exists ha, first_end h i ha /\ NoDup exps /\ forall e, In e exps <-> must sc ha e) /\
      snapped h1 c parent sc h i sd /\ did (is_fin i) h = [] /\ noexp ex i
  | Exporting sd exps =>
      (en = true -> did (is_add i) h <> []) /\
      (exists ha, first_end h i ha /\ NoDup exps /\ (forall e, In e exps -> must sc ha e) /\
         forall e sd', In (e, i, sd') ex <-> sd' = sd /\ must sc ha e /\ ~ In e exps) /\
      snapped h1 c parent sc h i sd /\ did (is_fin i) h <> []
  | Ended =>
      (en = true -> did (is_add i) h <> []) /\
      exists ha, first_end h i ha /\
        ((en = false /\ (forall e, ~ must sc ha e) /\ did (is_snap i) h = [] /\ did (is_fin i) h = [] /\ noexp ex i) \/
         (exists sd, snapped h1 c parent sc h i sd /\ did (is_fin i) h <> [] /\
            forall e sd', In (e, i, sd') ex <-> sd' = sd /\ must sc ha e))
  end.

(** The attributes of the span have not been read so far. *)
Definition unread (h1 : hist) (c : creation) (i : nat) (h : hist) : Prop :=
  did (is_report (c_name c)) (since h1 h) = [] /\ did (is_snap i) h = [].

Lemma unread_app h1 c i h x : unread h1 c i (h ++ x) -> unread h1 c i h.
Proof. intros [H1 H2]. unfold since in H1. rewrite skipn_app in H1. apply did_nil_app in H1, H2. split; tauto. Qed.

Definition body_ok (en : bool) (h1 : hist) (c : creation) (parent : span_context) (h : hist)
                   (ex : list (nat * nat * sdata)) (i : nat) (s : span) : Prop :=
  match s_rec s with
  | None => en = false /\ is_sampled (s_context s) = false /\ s_store s = None /\ s_phase s = Live /\ noexp ex i /\
            did (is_snap i) h = [] /\ did (is_fin i) h = []
  | Some r =>
      (en = true \/ is_sampled (s_context s) = true) /\
      s_store s = (if en then Some (c_name c) else None) /\
      rec_ok h1 c parent (s_context s) (upds h i) (kids_begun h i) r /\
      (unread h1 c i h -> rec_exact h1 (upds h i) r) /\
      phase_ok en h1 c parent (s_context s) h ex i (s_phase s)
  end.

Definition span_ok (en : bool) (h : hist) (w : world) (i : nat) (s : span) : Prop :=
  exists h1 c parent, created h i h1 c /\ parent_of w (c_par c) = Some parent /\ context_ok h1 c parent (s_context s) /\
    body_ok en h1 c parent h (w_exports w) i s.

Definition in_store (ph : phase) : bool :=
  match ph with Live | Ending _ | Storing _ _ => true | _ => false end.
Definition skey (spans : list span) (i : nat) : option bytes :=
  match nth_error spans i with
  | Some s => if in_store (s_phase s) then s_store s else None
  | None => None
  end.

Definition stores_ok (h : hist) (w : world) : Prop :=
  forall name,
    match mget bytes_eqb (w_stores w) name with
    | Some st => srep st (events name h) /\ mwf (st_active st) /\
                 forall i, In i (mkeys (st_active st)) <-> skey (w_spans w) i = Some name
    | None => events name h = [] /\ forall i, skey (w_spans w) i <> Some name
    end.

Record TI (en : bool) (h : hist) (w : world) : Prop := {
  ti_cfg : cfg_ok h (w_config w);
  ti_exp_wf : mwf (w_exporters w);
  ti_exp : forall e, In e (mkeys (w_exporters w)) <-> registered h e = true;
  ti_en : w_enabled w = en;
  ti_len : length (w_spans w) = length (creates h);
  ti_fresh : forall i, length (w_spans w) <= i -> did (touches i) h = [] /\ noexp (w_exports w) i;
  ti_spans : forall i s, nth_error (w_spans w) i = Some s -> span_ok en h w i s;
  ti_stores : stores_ok h w;
  ti_exports : NoDup (map fst (w_exports w));
  ti_pending : forall i, count_occ Nat.eq_dec (w_pending w) i + kids_made h i = kids_begun h i }.

(** ** Frame lemmas *)

Definition ctx_mono (w w' : world) : Prop :=
  forall j s, nth_error (w_spans w) j = Some s -> exists s', nth_error (w_spans w') j = Some s' /\ s_context s' = s_context s.

Lemma parent_mono w w' p sc : ctx_mono w w' -> parent_of w p = Some sc -> parent_of w' p = Some sc.
Proof.
  intros Hm. destruct p as [|j|sc0]; cbn [parent_of]; auto.
  destruct (nth_error (w_spans w) j) as [s|] eqn:E; [| discriminate]. intros H.
  destruct (Hm j s E) as (s' & E' & Hc). rewrite E'. cbn in *. congruence.
Qed.

(** Steps that do not move span [i] on. *)
Definition calm (i : nat) (op : top) : bool := negb (is_add i op || is_end i op || is_snap i op || is_fin i op).

Lemma calm_did i op out : calm i op = true ->
  did (is_add i) [(op, out)] = [] /\ did (is_end i) [(op, out)] = [] /\ did (is_snap i) [(op, out)] = [] /\ did (is_fin i) [(op, out)] = [].
Proof.
  unfold calm. rewrite !did_one. destruct (is_add i op), (is_end i op), (is_snap i op), (is_fin i op); cbn; intros; try discriminate; auto.
Qed.

Lemma untouched_calm i op : touches i op = false -> calm i op = true.
Proof.
  unfold calm. destruct op as [j | | j | [| |j] | [| |j] | j | j | j | j | | | | | | |]; cbn; intros H; rewrite ?H; reflexivity.
Qed.

Lemma snapped_app h1 c parent sc h i sd op out : is_snap i op = false ->
  snapped h1 c parent sc h i sd -> snapped h1 c parent sc (h ++ [(op, out)]) i sd.
Proof.
  intros Ht (hs & now & H1 & H2 & H3). exists hs, now. split; [apply completed_app; exact H1 |]. split; [| exact H3].
  rewrite did_app, did_one, Ht, app_nil_r. exact H2.
Qed.

Lemma phase_frame en h1 c parent sc h ex ex' i ph op out :
  calm i op = true -> (forall e sd, In (e, i, sd) ex' <-> In (e, i, sd) ex) ->
  phase_ok en h1 c parent sc h ex i ph -> phase_ok en h1 c parent sc (h ++ [(op, out)]) ex' i ph.
Proof.
  intros Ht Hex.
  assert (Hn : noexp ex i -> noexp ex' i) by (intros H e sd Hin; apply Hex in Hin; apply (H e sd Hin)).
  destruct (calm_did i op out Ht) as (B3 & B4 & B5 & B6).
  assert (Hsn : is_snap i op = false) by (unfold calm in Ht; destruct (is_snap i op); [rewrite !orb_true_r in Ht; discriminate | reflexivity]).
  destruct ph as [| | exps | sd exps | sd exps |]; cbn [phase_ok]; rewrite !did_app, B3, ?B4, ?B5, ?B6, !app_nil_r.
  - intuition.
  - intuition.
  - intros (A & (ha & F & N & E) & B & C & D). split; [exact A |]. split; [| auto].
    exists ha. split; [apply first_end_app; exact F | auto].
  - intros (A & (ha & F & N & E) & B & C & D). split; [exact A |]. split; [| split; [apply snapped_app; auto | auto]].
    exists ha. split; [apply first_end_app; exact F | auto].
  - intros (A & (ha & F & N & E & G) & B & C). split; [exact A |]. split; [| split; [apply snapped_app; auto | auto]].
    exists ha. split; [apply first_end_app; exact F |]. split; [exact N |]. split; [exact E |].
    intros e sd'. rewrite Hex. apply G.
  - intros (A & ha & F & G). split; [exact A |]. exists ha. split; [apply first_end_app; exact F |].
    destruct G as [G | (sd & G1 & G2 & G3)].
    + left. intuition.
    + right. exists sd. split; [apply snapped_app; auto |]. split; [exact G2 |]. intros e sd'. rewrite Hex. apply G3.
Qed.

Lemma span_frame en h w w' i s op out :
  span_ok en h w i s -> touches i op = false ->
  (forall e sd, In (e, i, sd) (w_exports w') <-> In (e, i, sd) (w_exports w)) -> ctx_mono w w' ->
  span_ok en (h ++ [(op, out)]) w' i s.
Proof.
  intros (h1 & c & parent & H1 & H2 & H3 & H4) Ht Hex Hm.
  exists h1, c, parent. split; [apply created_app; exact H1 |]. split; [eapply parent_mono; eauto |]. split; [exact H3 |].
  destruct (untouched i op out Ht) as (B1 & B2 & B3 & B4 & B5 & B6).
  unfold body_ok in *. rewrite upds_app, B1, app_nil_r, kids_begun_app, B2, Nat.add_0_r.
  destruct (s_rec s) as [r|].
  - destruct H4 as (A1 & A2 & A3 & A4 & A5). split; [exact A1 |]. split; [exact A2 |]. split; [exact A3 |]. split.
    + intros Hr. apply unread_app in Hr. apply A4. apply Hr.
    + eapply phase_frame; eauto using untouched_calm.
  - rewrite !did_app, B5, B6, !app_nil_r. destruct H4 as (A1 & A2 & A3 & A4 & A5 & A6 & A7).
    repeat (split; [assumption |]). split; [| auto]. intros e sd Hin. apply Hex in Hin. apply (A5 e sd Hin).
Qed.

(** Histories with the same effect on the stores. *)
Definition fins_lt (h : hist) : Prop := forall i, did (is_fin i) h <> [] -> i < length (creates h).

Lemma TI_fins en h w : TI en h w -> fins_lt h.
Proof.
  intros H i Hi. rewrite <- (ti_len _ _ _ H). destruct (Nat.lt_ge_cases i (length (w_spans w))) as [Hl | Hl]; [exact Hl |].
  destruct (ti_fresh _ _ _ H i Hl) as [Hf _]. apply untouched_h in Hf. destruct Hf as (_ & _ & _ & _ & _ & Hf). contradiction.
Qed.

Lemma events_of_stable cs cs' name h : (forall i, did (is_fin i) h <> [] -> i < length cs) ->
  events_of (cs ++ cs') name h = events_of cs name h.
Proof.
  unfold events_of. induction h as [|[op out] h IH]; intros H; [reflexivity |]. cbn [flat_map].
  rewrite IH.
  2:{ intros i Hi. apply H. change ((op, out) :: h) with ([(op, out)] ++ h). rewrite did_app. intros E. apply app_eq_nil in E. tauto. }
  f_equal. destruct op; try reflexivity. destruct out as [|sd [|]]; try reflexivity.
  unfold name_is. rewrite nth_error_app1; [reflexivity |]. apply H. unfold did. cbn [map fst filter is_fin].
  rewrite Nat.eqb_refl. discriminate.
Qed.

Lemma events_app name h x : fins_lt h -> events name (h ++ [x]) = events name h ++ events_of (creates (h ++ [x])) name [x].
Proof.
  intros H. unfold events. rewrite creates_app. 
  unfold events_of at 1. rewrite flat_map_app. f_equal. apply (events_of_stable (creates h) (creates [x]) name h). exact H.
Qed.

Definition store_quiet (op : top) : bool := match op with TFinished _ | TConfigureBucket _ _ _ => false | _ => true end.

Lemma events_quiet name h op out : fins_lt h -> store_quiet op = true -> events name (h ++ [(op, out)]) = events name h.
Proof.
  intros H Hq. rewrite events_app by exact H. destruct op; try discriminate; cbn; rewrite app_nil_r; reflexivity.
Qed.

Lemma stores_frame h w w' op out : fins_lt h -> store_quiet op = true -> stores_ok h w ->
  w_stores w' = w_stores w -> (forall i, skey (w_spans w') i = skey (w_spans w) i) -> stores_ok (h ++ [(op, out)]) w'.
Proof.
  intros Hf Hq H Hs Hk name. specialize (H name). rewrite Hs, events_quiet by assumption.
  destruct (mget bytes_eqb (w_stores w) name) as [st|].
  - destruct H as (A & B & C). split; [exact A |]. split; [exact B |]. intros i. rewrite Hk. apply C.
  - destruct H as (A & B). split; [exact A |]. intros i. rewrite Hk. apply B.
Qed.

(** Steps that change neither configuration nor exporters nor the list of spans. *)
Definition quiet (op : top) : bool :=
  match op with TCreate _ _ _ _ _ _ _ | TApplyConfig _ | TRegister _ | TUnregister _ => false | _ => true end.

Lemma quiet_h op out h : quiet op = true ->
  creates (h ++ [(op, out)]) = creates h /\ configs (h ++ [(op, out)]) = configs h /\
  (forall e, registered (h ++ [(op, out)]) e = registered h e) /\ (forall i, kids_made (h ++ [(op, out)]) i = kids_made h i).
Proof.
  intros Hq. rewrite creates_app, configs_app. unfold registered.
  split; [destruct op; try discriminate; apply app_nil_r |]. split; [destruct op; try discriminate; apply app_nil_r |].
  split.
  - intros e. rewrite flat_map_app. destruct op; try discriminate; cbn; rewrite app_nil_r; reflexivity.
  - intros i. rewrite kids_made_app. unfold kids_made at 2. rewrite did_one. destruct op; try discriminate; cbn; lia.
Qed.

Lemma cfg_same h h' c : configs h' = configs h -> cfg_ok h c -> cfg_ok h' c.
Proof.
  intros E H. destruct H. constructor; unfold sampler_after, gen_after, limit_after in *; rewrite E; assumption.
Qed.

Lemma TI_quiet en h w op out w' :
  TI en h w -> quiet op = true ->
  w_config w' = w_config w -> w_exporters w' = w_exporters w -> w_enabled w' = w_enabled w ->
  length (w_spans w') = length (w_spans w) ->
  (forall i, touches i op = true -> i < length (w_spans w)) ->
  (forall i, length (w_spans w) <= i -> noexp (w_exports w') i) ->
  (forall i s, nth_error (w_spans w') i = Some s -> span_ok en (h ++ [(op, out)]) w' i s) ->
  stores_ok (h ++ [(op, out)]) w' ->
  NoDup (map fst (w_exports w')) ->
  (forall i, count_occ Nat.eq_dec (w_pending w') i + kids_made h i = kids_begun h i + (if is_child i op then 1 else 0)) ->
  TI en (h ++ [(op, out)]) w'.
Proof.
  intros H Hq Hcfg Hexp Hen Hlen Ht Hne Hsp Hst Hnd Hpd.
  destruct (quiet_h op out h Hq) as (Q1 & Q2 & Q3 & Q4).
  constructor.
  - rewrite Hcfg. apply (cfg_same h); [exact Q2 | apply H].
  - rewrite Hexp. apply H.
  - intros e. rewrite Hexp, Q3. apply H.
  - rewrite Hen. apply H.
  - rewrite Hlen, Q1. apply H.
  - intros i Hi. rewrite Hlen in Hi. split; [| apply Hne; exact Hi]. rewrite did_app.
    destruct (ti_fresh _ _ _ H i Hi) as [-> _]. rewrite did_one. destruct (touches i op) eqn:E; [| reflexivity].
    specialize (Ht i E). lia.
  - exact Hsp.
  - exact Hst.
  - exact Hnd.
  - intros i. rewrite Q4, kids_begun_app. unfold kids_begun at 2. rewrite did_one. rewrite Hpd. destruct (is_child i op); reflexivity.
Qed.

Lemma ctx_mono_refl w : ctx_mono w w.
Proof. intros j s H. eauto. Qed.

Lemma nth_upd {A} (l : list A) i x j : nth_error (upd l i (fun _ => x)) j = if j =? i then option_map (fun _ => x) (nth_error l j) else nth_error l j.
Proof. rewrite nth_error_upd. rewrite Nat.eqb_sym. destruct (j =? i); reflexivity. Qed.

Lemma ctx_mono_set w i s s' : nth_error (w_spans w) i = Some s -> s_context s' = s_context s -> ctx_mono w (set_span w i s').
Proof.
  intros Hs Hc j t Hj. cbn [set_span w_spans]. rewrite nth_upd. destruct (j =? i) eqn:E.
  - apply Nat.eqb_eq in E. subst j. rewrite Hs. cbn. exists s'. split; [reflexivity |]. congruence.
  - eauto.
Qed.

(** A step that leaves the world unchanged. *)
Lemma TI_skip en h w op out :
  TI en h w -> quiet op = true -> store_quiet op = true -> (forall i, is_child i op = false) ->
  (forall i, touches i op = true -> i < length (w_spans w)) ->
  (forall i s, touches i op = true -> nth_error (w_spans w) i = Some s -> span_ok en (h ++ [(op, out)]) w i s) ->
  TI en (h ++ [(op, out)]) w.
Proof.
  intros H Hq Hsq Hc Ht Hts. apply (TI_quiet en h w); auto.
  - intros i Hi. apply (ti_fresh _ _ _ H i Hi).
  - intros i s Hi. destruct (touches i op) eqn:E; [apply Hts; auto |].
    apply (span_frame en h w w); auto; [apply H; exact Hi | tauto | apply ctx_mono_refl].
  - apply (stores_frame h w); auto; [apply (TI_fins en h w H) | apply H].
  - apply H.
  - intros i. rewrite Hc, Nat.add_0_r. apply H.
Qed.

(** A step that changes one span. *)
Lemma TI_one en h w op out i s s' w' :
  TI en h w -> quiet op = true ->
  nth_error (w_spans w) i = Some s -> s_context s' = s_context s ->
  w_config w' = w_config w -> w_exporters w' = w_exporters w -> w_enabled w' = w_enabled w ->
  w_spans w' = upd (w_spans w) i (fun _ => s') ->
  (forall j, touches j op = (i =? j)) ->
  (forall j e sd, j <> i -> In (e, j, sd) (w_exports w') <-> In (e, j, sd) (w_exports w)) ->
  NoDup (map fst (w_exports w')) ->
  (ctx_mono w w' -> span_ok en (h ++ [(op, out)]) w' i s') ->
  stores_ok (h ++ [(op, out)]) w' ->
  (forall j, count_occ Nat.eq_dec (w_pending w') j + kids_made h j = kids_begun h j + (if is_child j op then 1 else 0)) ->
  TI en (h ++ [(op, out)]) w'.
Proof.
  intros H Hq Hs Hc E1 E2 E3 E4 Ht Hex Hnd Hsp Hst Hpd.
  assert (Hil : i < length (w_spans w)) by (apply nth_error_Some; congruence).
  assert (Hm : ctx_mono w w').
  { intros j t Hj. rewrite E4, nth_upd. destruct (j =? i) eqn:E; [| eauto].
    apply Nat.eqb_eq in E. subst j. rewrite Hs. exists s'. split; [reflexivity |]. congruence. }
  apply (TI_quiet en h w); auto.
  - rewrite E4. apply upd_length.
  - intros j Hj. rewrite Ht in Hj. apply Nat.eqb_eq in Hj. lia.
  - intros j Hj e sd Hin. apply Hex in Hin; [| lia]. apply (proj2 (ti_fresh _ _ _ H j Hj) e sd Hin).
  - intros j t Hj. rewrite E4, nth_upd in Hj. destruct (j =? i) eqn:E.
    + apply Nat.eqb_eq in E. subst j. rewrite Hs in Hj. injection Hj as <-. auto.
    + apply Nat.eqb_neq in E. apply (span_frame en h w w'); auto.
      * apply H. exact Hj.
      * rewrite Ht. apply Nat.eqb_neq. auto.
Qed.

Lemma skey_upd w i s s' : nth_error (w_spans w) i = Some s ->
  (if in_store (s_phase s') then s_store s' else None) = (if in_store (s_phase s) then s_store s else None) ->
  forall j, skey (upd (w_spans w) i (fun _ => s')) j = skey (w_spans w) j.
Proof.
  intros Hs He j. unfold skey. rewrite nth_upd. destruct (j =? i) eqn:E; [| reflexivity].
  apply Nat.eqb_eq in E. subst j. rewrite Hs. cbn. exact He.
Qed.

(** ** Steps *)

Lemma upd_id {A} (l : list A) i x : nth_error l i = Some x -> upd l i (fun _ => x) = l.
Proof.
  intros H. apply nth_error_ext_eq. intros j. rewrite nth_upd. destruct (j =? i) eqn:E; [| reflexivity].
  apply Nat.eqb_eq in E. subst j. rewrite H. reflexivity.
Qed.

Lemma iff_exports (w : world) : forall j e sd, In (e, j, sd) (w_exports w) <-> In (e, j, sd) (w_exports w).
Proof. tauto. Qed.

Lemma body_same_phase en h1 c parent h ex i s op out r' :
  body_ok en h1 c parent h ex i s -> calm i op = true -> (is_fin i op = false) ->
  (forall r, s_rec s = Some r ->
     rec_ok h1 c parent (s_context s) (upds (h ++ [(op, out)]) i) (kids_begun (h ++ [(op, out)]) i) r' /\
     (unread h1 c i (h ++ [(op, out)]) -> rec_exact h1 (upds (h ++ [(op, out)]) i) r')) ->
  forall r, s_rec s = Some r ->
  body_ok en h1 c parent (h ++ [(op, out)]) ex i (MkSpan (s_context s) (Some r') (s_store s) (s_phase s)).
Proof.
  intros H Hc Hf Hr r Er. destruct (Hr r Er) as [R1 R2]. unfold body_ok in *. rewrite Er in H. cbn [s_rec s_context s_store s_phase].
  destruct H as (A1 & A2 & A3 & A4 & A5). split; [exact A1 |]. split; [exact A2 |]. split; [exact R1 |]. split; [exact R2 |].
  eapply phase_frame; eauto. tauto.
Qed.

Lemma step_add_child en h w i w' out : TI en h w -> tdo w (TAddChild i) = Done w' out -> TI en (h ++ [(TAddChild i, out)]) w'.
Proof.
  intros H. cbn [tdo]. destruct (nth_error (w_spans w) i) as [s|] eqn:Es; [| discriminate].
  assert (Hpd : forall j, count_occ Nat.eq_dec (i :: w_pending w) j + kids_made h j =
                          kids_begun h j + (if is_child j (TAddChild i) then 1 else 0)).
  { intros j. pose proof (ti_pending _ _ _ H j) as Hp. cbn [is_child count_occ].
    destruct (Nat.eq_dec i j) as [-> | Hne].
    - rewrite Nat.eqb_refl. lia.
    - destruct (Nat.eqb_spec i j); [contradiction |]. lia. }
  destruct (ti_spans _ _ _ H i s Es) as (h1 & c & parent & S1 & S2 & S3 & S4).
  destruct (s_rec s) as [r|] eqn:Er; intros Hd; injection Hd as <- <-.
  - eapply (TI_one en h w _ _ i s (MkSpan (s_context s) (Some (rec_add_child r)) (s_store s) (s_phase s))); auto; try reflexivity; try apply iff_exports.
    + apply H.
    + intros Hm. exists h1, c, parent. split; [apply created_app; exact S1 |]. split; [eapply parent_mono; eauto |]. split; [exact S3 |].
      eapply body_same_phase; try eassumption; try reflexivity.
      intros r0 Hr0. unfold body_ok in S4. rewrite Er in S4. destruct S4 as (A1 & A2 & A3 & A4 & A5).
      rewrite upds_app, kids_begun_app. cbn [upds flat_map fst]. rewrite !app_nil_r.
      unfold kids_begun at 2. rewrite did_one. cbn [is_child]. rewrite Nat.eqb_refl. cbn [length]. rewrite Nat.add_1_r.
      split; [apply rec_ok_child; exact A3 |]. intros Hrep. apply unread_app in Hrep. apply A4. apply Hrep.
    + apply (stores_frame h w); auto; [apply (TI_fins _ _ _ H) | apply H |]. cbn [w_spans set_span add_pending].
      apply (skey_upd w i s); auto.
  - eapply (TI_one en h w _ _ i s s); auto; try reflexivity; try apply iff_exports.
    + cbn [w_spans add_pending]. symmetry. apply upd_id. exact Es.
    + apply H.
    + intros Hm. exists h1, c, parent. split; [apply created_app; exact S1 |]. split; [eapply parent_mono; eauto |]. split; [exact S3 |].
      unfold body_ok in *. rewrite Er in *. rewrite !did_app. cbn. rewrite !app_nil_r. exact S4.
    + apply (stores_frame h w); auto; [apply (TI_fins _ _ _ H) | apply H].
Qed.

Lemma pending_same en h w op : TI en h w -> (forall j, is_child j op = false) ->
  forall j, count_occ Nat.eq_dec (w_pending w) j + kids_made h j = kids_begun h j + (if is_child j op then 1 else 0).
Proof. intros H Hc j. rewrite Hc, Nat.add_0_r. apply H. Qed.

Lemma step_update en h w r u w' out : TI en h w -> tdo w (TUpdate r u) = Done w' out -> TI en (h ++ [(TUpdate r u, out)]) w'.
Proof.
  intros H. cbn [tdo]. destruct r as [| | i]; [| discriminate |].
  - intros Hd. injection Hd as <- <-. apply TI_skip; auto; intros; discriminate.
  - destruct (nth_error (w_spans w) i) as [s|] eqn:Es; [| discriminate].
    destruct (ti_spans _ _ _ H i s Es) as (h1 & c & parent & S1 & S2 & S3 & S4).
    destruct (s_rec s) as [r|] eqn:Er.
    + assert (S4' := S4). unfold body_ok in S4'. rewrite Er in S4'. destruct S4' as (A1 & A2 & A3 & A4 & A5).
      destruct (rec_ok_upd _ _ _ _ _ _ _ u A3) as (r' & Hu & R1 & R2). rewrite Hu.
      intros Hd. injection Hd as <- <-.
      eapply (TI_one en h w _ _ i s (MkSpan (s_context s) (Some r') (s_store s) (s_phase s))); auto; try reflexivity; try apply iff_exports.
      * apply H.
      * intros Hm. exists h1, c, parent. split; [apply created_app; exact S1 |]. split; [eapply parent_mono; eauto |]. split; [exact S3 |].
        eapply body_same_phase; try eassumption; try reflexivity.
        intros r0 Hr0. rewrite upds_app, kids_begun_app. cbn [upds flat_map fst]. rewrite Nat.eqb_refl, app_nil_r.
        unfold kids_begun at 2. rewrite did_one. cbn [is_child length]. rewrite Nat.add_0_r.
        split; [exact R1 |]. intros Hrep. apply unread_app in Hrep. apply R2, A4. apply Hrep.
      * apply (stores_frame h w); auto; [apply (TI_fins _ _ _ H) | apply H |]. cbn [w_spans set_span].
        apply (skey_upd w i s); auto.
      * apply (pending_same en h w _ H); intros; reflexivity.
    + intros Hd. injection Hd as <- <-. apply TI_skip; auto.
      * intros j Hj. cbn in Hj. apply Nat.eqb_eq in Hj. subst j. apply nth_error_Some. congruence.
      * intros j s0 Hj Hs0. cbn in Hj. apply Nat.eqb_eq in Hj. subst j.
        exists h1, c, parent. rewrite Es in Hs0. injection Hs0 as <-.
        split; [apply created_app; exact S1 |]. split; [exact S2 |]. split; [exact S3 |].
        unfold body_ok in *. rewrite Er in *. rewrite !did_app. cbn. rewrite !app_nil_r. exact S4.
Qed.

Lemma mget_in_unit (j : nat) (m : list (nat * unit)) : mget Nat.eqb m j = Some tt <-> In j (mkeys m).
Proof.
  destruct (mget Nat.eqb m j) as [[]|] eqn:E.
  - split; [intros _; eapply (mget_Some_key Nat.eqb Nat.eqb_spec); exact E | reflexivity].
  - apply (mget_None Nat.eqb Nat.eqb_spec) in E. split; [discriminate | contradiction].
Qed.

Lemma step_store_add en h w i w' out : TI en h w -> tdo w (TStoreAdd i) = Done w' out -> TI en (h ++ [(TStoreAdd i, out)]) w'.
Proof.
  intros H. cbn [tdo]. destruct (nth_error (w_spans w) i) as [s|] eqn:Es; [| discriminate].
  destruct (ti_spans _ _ _ H i s Es) as (h1 & c & parent & S1 & S2 & S3 & S4).
  destruct s as [sc rec [name|] ph]; [| discriminate]. destruct ph; try discriminate.
  intros Hd. injection Hd as <- <-.
  eapply (TI_one en h w _ _ i _ (MkSpan sc rec (Some name) Live)); eauto; try reflexivity; try apply iff_exports.
  - apply H.
  - intros Hm. exists h1, c, parent. split; [apply created_app; exact S1 |]. split; [eapply parent_mono; eauto |]. split; [exact S3 |].
    unfold body_ok in *. cbn [s_rec s_context s_store s_phase] in *. destruct rec as [r|].
    + destruct S4 as (A1 & A2 & A3 & A4 & A5). split; [exact A1 |]. split; [exact A2 |].
      rewrite upds_app, kids_begun_app. cbn [upds flat_map fst]. rewrite !app_nil_r.
      unfold kids_begun at 2. rewrite did_one. cbn [is_child length]. rewrite Nat.add_0_r. split; [exact A3 |].
      split; [intros Hrep; apply unread_app in Hrep; apply A4; apply Hrep |].
      cbn [phase_ok] in *. rewrite !did_app, !did_one. cbn [is_add is_end is_snap is_fin]. rewrite Nat.eqb_refl, !app_nil_r.
      split; [| tauto]. intros _ E. apply app_eq_nil in E. destruct E. discriminate.
    + destruct S4 as (A1 & A2 & A3 & A4 & _). discriminate.
  - intros name'. pose proof (ti_stores _ _ _ H name') as Hst. pose proof (ti_stores _ _ _ H name) as Hst0.
    cbn [set_stores w_stores w_spans set_span]. rewrite (mget_mset bytes_eqb bytes_eqb_spec).
    rewrite events_quiet by (auto; apply (TI_fins _ _ _ H)).
    assert (Hk : forall j nm, skey (upd (w_spans w) i (fun _ => MkSpan sc rec (Some name) Live)) j = Some nm <->
                   (j = i /\ nm = name) \/ (j <> i /\ skey (w_spans w) j = Some nm)).
    { intros j nm. unfold skey. rewrite nth_upd. destruct (Nat.eqb_spec j i) as [-> | Hne].
      - rewrite Es. cbn. split; [intros E; injection E as ->; auto | intros [[_ ->] | [E _]]; [reflexivity | congruence]].
      - split; [auto | intros [[E _] | [_ E]]; [congruence | exact E]]. }
    assert (Hki : skey (w_spans w) i = None) by (unfold skey; rewrite Es; reflexivity).
    destruct (bytes_eqb_spec name name') as [<- | Hne].
    + unfold get_store. destruct (mget bytes_eqb (w_stores w) name) as [st|].
      * destruct Hst0 as (B1 & B2 & B3). split; [destruct B1; constructor; auto |].
        cbn [st_add st_active]. split; [apply (mwf_mset Nat.eqb Nat.eqb_spec); exact B2 |].
        intros j. rewrite Hk. pose proof (B3 j) as Hj.
        destruct (Nat.eqb_spec j i) as [-> | Hne].
        -- split; [auto |]. intros _. eapply (mget_Some_key Nat.eqb Nat.eqb_spec). apply (mget_mset_same Nat.eqb Nat.eqb_spec).
        -- rewrite <- (mget_in_unit j). rewrite (mget_mset_other Nat.eqb Nat.eqb_spec) by auto. rewrite (mget_in_unit j), Hj. intuition congruence.
      * destruct Hst0 as (B1 & B2). rewrite B1. split; [destruct srep_new; constructor; auto |].
        split; [repeat constructor; intros [] |].
        intros j. rewrite Hk. cbn. split.
        -- intros [<- | []]. auto.
        -- intros [[-> _] | [_ E]]; [auto | exfalso; apply (B2 j E)].
    + destruct (mget bytes_eqb (w_stores w) name') as [st|].
      * destruct Hst as (B1 & B2 & B3). split; [exact B1 |]. split; [exact B2 |]. intros j. rewrite Hk, B3.
        destruct (Nat.eqb_spec j i) as [-> | Hne']; [rewrite Hki |]; intuition congruence.
      * destruct Hst as (B1 & B2). split; [exact B1 |]. intros j E. apply Hk in E. destruct E as [[_ E] | [_ E]]; [congruence | apply (B2 j E)].
  - apply (pending_same en h w _ H); intros; reflexivity.
Qed.

(** Histories extended by a step about span [i]: nothing recorded. *)
Lemma rec_same h1 c parent sc h i r op out :
  upds [(op, out)] i = [] -> kids_begun [(op, out)] i = 0 ->
  rec_ok h1 c parent sc (upds h i) (kids_begun h i) r -> rec_ok h1 c parent sc (upds (h ++ [(op, out)]) i) (kids_begun (h ++ [(op, out)]) i) r.
Proof. intros H1 H2. rewrite upds_app, kids_begun_app, H1, H2, app_nil_r, Nat.add_0_r. auto. Qed.

Lemma exact_same h1 c h i r op out :
  upds [(op, out)] i = [] ->
  (unread h1 c i h -> rec_exact h1 (upds h i) r) ->
  unread h1 c i (h ++ [(op, out)]) -> rec_exact h1 (upds (h ++ [(op, out)]) i) r.
Proof. intros H1 H2 Hr. apply unread_app in Hr. rewrite upds_app, H1, app_nil_r. apply H2. apply Hr. Qed.

Lemma first_end_here h i out : did (is_end i) h = [] -> first_end (h ++ [(TEnd (RSpan i), out)]) i h.
Proof. intros H. split; [exact H |]. exists out, []. reflexivity. Qed.

Lemma nonempty_app {A} (l l' : list A) : l <> [] -> l ++ l' <> [].
Proof. intros H E. apply app_eq_nil in E. tauto. Qed.

Lemma step_end en h w r w' out : TI en h w -> tdo w (TEnd r) = Done w' out -> TI en (h ++ [(TEnd r, out)]) w'.
Proof.
  intros H. cbn [tdo]. destruct r as [| | i]; [| discriminate |].
  - intros Hd. injection Hd as <- <-. apply TI_skip; auto; intros; discriminate.
  - destruct (nth_error (w_spans w) i) as [s|] eqn:Es; [| discriminate].
    destruct (ti_spans _ _ _ H i s Es) as (h1 & c & parent & S1 & S2 & S3 & S4).
    assert (Hskip : forall o, (s_rec s = None \/ s_phase s = Ended) -> TI en (h ++ [(TEnd (RSpan i), o)]) w).
    { intros o Hcase. apply TI_skip; auto.
      * intros j Hj. cbn in Hj. apply Nat.eqb_eq in Hj. subst j. apply nth_error_Some. congruence.
      * intros j s0 Hj Hs0. cbn in Hj. apply Nat.eqb_eq in Hj. subst j.
        exists h1, c, parent. rewrite Es in Hs0. injection Hs0 as <-.
        split; [apply created_app; exact S1 |]. split; [exact S2 |]. split; [exact S3 |].
        unfold body_ok in *. destruct (s_rec s) as [r|].
        + destruct Hcase as [Hc | Hc]; [discriminate |]. rewrite Hc in *.
          destruct S4 as (A1 & A2 & A3 & A4 & A5). split; [exact A1 |]. split; [exact A2 |].
          split; [apply rec_same; auto |]. split; [apply exact_same; auto |].
          cbn [phase_ok] in *. rewrite !did_app, !did_one. cbn [is_add is_end is_snap is_fin]. rewrite !app_nil_r.
          destruct A5 as (B1 & ha & B2 & B3). split; [exact B1 |]. exists ha. split; [apply first_end_app; exact B2 |].
          destruct B3 as [B3 | (sd & C1 & C2 & C3)]; [left; exact B3 |]. right. exists sd.
          split; [apply snapped_app; auto |]. auto.
        + rewrite !did_app. cbn. rewrite !app_nil_r. exact S4. }
    destruct (s_rec s) as [r|] eqn:Er.
    2:{ intros Hd. injection Hd as <- <-. apply Hskip. auto. }
    destruct (s_phase s) eqn:Ep; try discriminate.
    2:{ intros Hd. injection Hd as <- <-. apply Hskip. auto. }
    clear Hskip. intros Hd.
    assert (Hmust : forall e, In e (if is_sampled (s_context s) && negb (length (mkeys (w_exporters w)) =? 0) then mkeys (w_exporters w) else [])
                              <-> must (s_context s) h e).
    { intros e. unfold must. rewrite <- (ti_exp _ _ _ H e). destruct (is_sampled (s_context s)); cbn [andb].
      - destruct (length (mkeys (w_exporters w)) =? 0) eqn:El; cbn [negb]; [| tauto].
        apply Nat.eqb_eq, length_zero_iff_nil in El. rewrite El. cbn. tauto.
      - cbn. intuition discriminate. }
    set (must_b := is_sampled (s_context s) && negb (length (mkeys (w_exporters w)) =? 0)) in *.
    unfold body_ok in S4. rewrite Er, Ep in S4. destruct S4 as (A1 & A2 & A3 & A4 & A5).
    cbn [phase_ok] in A5. destruct A5 as (P1 & P2 & P3 & P4 & P5).
    destruct (match s_store s with Some _ => true | None => false end || must_b) eqn:Ec; injection Hd as <- <-.
    + eapply (TI_one en h w _ _ i s (set_phase s (Ending (if must_b then mkeys (w_exporters w) else [])))); eauto; try reflexivity; try apply iff_exports.
      * apply H.
      * intros Hm. exists h1, c, parent. split; [apply created_app; exact S1 |]. split; [eapply parent_mono; eauto |]. split; [exact S3 |].
        unfold body_ok. cbn [set_phase s_rec s_context s_store s_phase]. rewrite Er.
        split; [exact A1 |]. split; [exact A2 |].
        split; [apply rec_same; auto |]. split; [apply exact_same; auto |].
        cbn [phase_ok]. rewrite !did_app, !did_one. cbn [is_add is_end is_snap is_fin]. rewrite !app_nil_r.
        split; [exact P1 |]. split; [| auto]. exists h. split; [apply first_end_here; exact P2 |].
        split; [| exact Hmust]. destruct must_b; [apply H | constructor].
      * apply (stores_frame h w); auto; [apply (TI_fins _ _ _ H) | apply H |]. cbn [w_spans set_span].
        apply (skey_upd w i s); auto. cbn. rewrite Ep. reflexivity.
      * apply (pending_same en h w _ H); intros; reflexivity.
    + assert (Hen : s_store s = None /\ must_b = false) by (destruct (s_store s), must_b; try discriminate; auto).
      destruct Hen as [Hstn Hmb].
      assert (Hen : en = false) by (destruct en; [rewrite Hstn in A2; discriminate | reflexivity]).
      eapply (TI_one en h w _ _ i s (set_phase s Ended)); eauto; try reflexivity; try apply iff_exports.
      * apply H.
      * intros Hm. exists h1, c, parent. split; [apply created_app; exact S1 |]. split; [eapply parent_mono; eauto |]. split; [exact S3 |].
        unfold body_ok. cbn [set_phase s_rec s_context s_store s_phase]. rewrite Er.
        split; [exact A1 |]. split; [exact A2 |].
        split; [apply rec_same; auto |]. split; [apply exact_same; auto |].
        cbn [phase_ok]. rewrite !did_app, !did_one. cbn [is_add is_end is_snap is_fin]. rewrite !app_nil_r.
        split; [exact P1 |]. exists h. split; [apply first_end_here; exact P2 |]. left.
        split; [exact Hen |]. split; [| auto]. intros e He. apply Hmust in He. rewrite Hmb in He. destruct He.
      * apply (stores_frame h w); auto; [apply (TI_fins _ _ _ H) | apply H |]. cbn [w_spans set_span].
        apply (skey_upd w i s); auto. cbn. rewrite Ep, Hstn. reflexivity.
      * apply (pending_same en h w _ H); intros; reflexivity.
Qed.

Lemma step_snap en h w i o now w' out : TI en h w -> tdo w (TSnap i o now) = Done w' out -> TI en (h ++ [(TSnap i o now, out)]) w'.
Proof.
  intros H. cbn [tdo]. destruct (nth_error (w_spans w) i) as [s|] eqn:Es; [| discriminate].
  destruct (ti_spans _ _ _ H i s Es) as (h1 & c & parent & S1 & S2 & S3 & S4).
  destruct s as [sc [r|] st ph]; [| discriminate]. destruct ph as [| | exps | | |]; try discriminate.
  unfold body_ok in S4. cbn [s_rec s_context s_store s_phase] in *. destruct S4 as (A1 & A2 & A3 & A4 & A5).
  destruct (make_span_data o r) as [sd r'] eqn:Em.
  destruct (rec_ok_snap _ _ _ _ _ _ _ _ _ _ A3 Em) as (R1 & R2 & R3).
  intros Hd. injection Hd as <- <-.
  eapply (TI_one en h w _ _ i _ (MkSpan sc (Some r') st (Storing (with_end sd now) exps))); eauto; try reflexivity; try apply iff_exports.
  - apply H.
  - intros Hm. exists h1, c, parent. split; [apply created_app; exact S1 |]. split; [eapply parent_mono; eauto |]. split; [exact S3 |].
    unfold body_ok. cbn [s_rec s_context s_store s_phase]. split; [exact A1 |]. split; [exact A2 |].
    split; [apply rec_same; auto |].
    split.
    + intros [_ Hu]. rewrite did_app, did_one in Hu. cbn [is_snap] in Hu. rewrite Nat.eqb_refl in Hu. apply app_eq_nil in Hu. destruct Hu. discriminate.
    + cbn [phase_ok] in *. rewrite !did_app, !did_one. cbn [is_add is_end is_snap is_fin]. rewrite !app_nil_r.
      destruct A5 as (P1 & (ha & F & N & E) & P3 & P4 & P5). split; [exact P1 |].
      split; [exists ha; split; [apply first_end_app; exact F | auto] |]. split; [| auto].
      exists h, now. split; [exists o, [], []; reflexivity |].
      split; [rewrite did_app, did_one, P3; cbn [is_snap]; rewrite Nat.eqb_refl; reflexivity |].
      split; [apply sd_ok_end; exact R1 |]. intros Hrep. apply R3, A4. split; assumption.
  - apply (stores_frame h w); auto; [apply (TI_fins _ _ _ H) | apply H |]. cbn [w_spans set_span].
    eapply skey_upd; [exact Es | reflexivity].
  - apply (pending_same en h w _ H); intros; reflexivity.
Qed.

(** Storing a finished span. *)
Lemma phase_to_exporting en h1 c parent sc h ex i sd exps out :
  phase_ok en h1 c parent sc h ex i (Storing sd exps) ->
  phase_ok en h1 c parent sc (h ++ [(TFinished i, out)]) ex i (Exporting sd exps).
Proof.
  cbn [phase_ok]. intros (P1 & (ha & F & N & E) & P3 & P4 & P5).
  rewrite !did_app, !did_one. cbn [is_add is_fin]. rewrite Nat.eqb_refl, app_nil_r.
  split; [exact P1 |]. split; [| split; [apply snapped_app; [reflexivity | exact P3] | rewrite P4; discriminate]].
  exists ha. split; [apply first_end_app; exact F |]. split; [exact N |]. split; [intros e He; apply E; exact He |].
  intros e sd'. split; [intros Hin; exfalso; apply (P5 e sd' Hin) |]. intros (_ & Hm & Hni). exfalso. apply Hni, E, Hm.
Qed.

Lemma name_is_created h i h1 c name : created h i h1 c -> name_is (creates h) i name = bytes_eqb (c_name c) name.
Proof.
  intros (out & h2 & -> & Hl). unfold name_is. rewrite creates_app, nth_error_app2 by lia. rewrite Hl, Nat.sub_diag. reflexivity.
Qed.

Lemma step_finished en h w i w' out : TI en h w -> tdo w (TFinished i) = Done w' out -> TI en (h ++ [(TFinished i, out)]) w'.
Proof.
  intros H. cbn [tdo]. destruct (nth_error (w_spans w) i) as [s|] eqn:Es; [| discriminate].
  destruct (ti_spans _ _ _ H i s Es) as (h1 & c & parent & S1 & S2 & S3 & S4).
  destruct s as [sc rec st ph]. destruct ph as [| | | sd exps | |]; try discriminate.
  unfold body_ok in S4. cbn [s_rec s_context s_store s_phase] in *.
  destruct rec as [r|]; [| destruct S4 as (_ & _ & _ & E & _); discriminate].
  destruct S4 as (A1 & A2 & A3 & A4 & A5).
  assert (Hbody : forall o, body_ok en h1 c parent (h ++ [(TFinished i, o)]) (w_exports w) i (MkSpan sc (Some r) st (Exporting sd exps))).
  { intros o. unfold body_ok. cbn [s_rec s_context s_store s_phase]. split; [exact A1 |]. split; [exact A2 |].
    split; [apply rec_same; auto |]. split; [apply exact_same; auto |]. apply phase_to_exporting. exact A5. }
  assert (Hfl := TI_fins _ _ _ H).
  destruct st as [name|].
  - assert (Hen : en = true /\ name = c_name c) by (destruct en; [injection A2 as ->; auto | discriminate]).
    destruct Hen as [-> ->].
    assert (Hki : skey (w_spans w) i = Some (c_name c)) by (unfold skey; rewrite Es; reflexivity).
    pose proof (ti_stores _ _ _ H (c_name c)) as Hst0. unfold get_store.
    destruct (mget bytes_eqb (w_stores w) (c_name c)) as [s0|] eqn:Eg; [| destruct Hst0 as [_ B]; exfalso; apply (B i Hki)].
    destruct Hst0 as (B1 & B2 & B3).
    destruct (srep_finished s0 (events (c_name c) h) i sd B1) as (s' & F1 & F2 & F3). rewrite F1.
    intros Hd. injection Hd as <- <-.
    eapply (TI_one true h w _ _ i _ (MkSpan sc (Some r) (Some (c_name c)) (Exporting sd exps))); eauto; try reflexivity; try apply iff_exports.
    + apply H.
    + intros Hm. exists h1, c, parent. split; [apply created_app; exact S1 |]. split; [eapply parent_mono; eauto |]. split; [exact S3 |].
      apply Hbody.
    + intros name'. pose proof (ti_stores _ _ _ H name') as Hst.
      cbn [set_stores w_stores w_spans set_span]. rewrite (mget_mset bytes_eqb bytes_eqb_spec).
      assert (Hev : events name' (h ++ [(TFinished i, [sd])]) = events name' h ++ (if bytes_eqb (c_name c) name' then [SFin sd] else [])).
      { rewrite events_app by exact Hfl. f_equal. cbn [events_of flat_map]. rewrite app_nil_r.
        rewrite (name_is_created _ i h1 c name'); [reflexivity | apply created_app; exact S1]. }
      rewrite Hev.
      assert (Hk : forall j nm, skey (upd (w_spans w) i (fun _ => MkSpan sc (Some r) (Some (c_name c)) (Exporting sd exps))) j = Some nm <->
                     j <> i /\ skey (w_spans w) j = Some nm).
      { intros j nm. unfold skey. rewrite nth_upd. destruct (Nat.eqb_spec j i) as [-> | Hne].
        - rewrite Es. cbn. split; [discriminate | tauto].
        - tauto. }
      destruct (bytes_eqb_spec (c_name c) name') as [<- | Hne].
      * split; [exact F2 |]. rewrite F3. split; [apply (mwf_mdel Nat.eqb); exact B2 |].
        intros j. rewrite Hk, <- B3, <- !mget_in_unit, (mget_mdel Nat.eqb Nat.eqb_spec).
        destruct (Nat.eqb_spec i j) as [-> | Hne]; [split; [discriminate | tauto] | intuition].
      * rewrite app_nil_r. destruct (mget bytes_eqb (w_stores w) name') as [s1|].
        -- destruct Hst as (C1 & C2 & C3). split; [exact C1 |]. split; [exact C2 |]. intros j. rewrite Hk, C3.
           split; [| tauto]. intros E. split; [| exact E]. intros ->. congruence.
        -- destruct Hst as (C1 & C2). split; [exact C1 |]. intros j E. apply Hk in E. apply (C2 j). tauto.
    + apply (pending_same true h w _ H); intros; reflexivity.
  - intros Hd. injection Hd as <- <-.
    eapply (TI_one en h w _ _ i _ (MkSpan sc (Some r) None (Exporting sd exps))); eauto; try reflexivity; try apply iff_exports.
    + apply H.
    + intros Hm. exists h1, c, parent. split; [apply created_app; exact S1 |]. split; [eapply parent_mono; eauto |]. split; [exact S3 |].
      apply Hbody.
    + intros name'. pose proof (ti_stores _ _ _ H name') as Hst.
      cbn [w_stores w_spans set_span]. rewrite events_app by exact Hfl. cbn [events_of flat_map]. rewrite app_nil_r.
      assert (Hk : forall j, skey (upd (w_spans w) i (fun _ => MkSpan sc (Some r) None (Exporting sd exps))) j = skey (w_spans w) j).
      { eapply skey_upd; [exact Es | reflexivity]. }
      destruct (mget bytes_eqb (w_stores w) name') as [s1|].
      * destruct Hst as (C1 & C2 & C3). split; [exact C1 |]. split; [exact C2 |]. intros j. rewrite Hk. apply C3.
      * destruct Hst as (C1 & C2). split; [exact C1 |]. intros j. rewrite Hk. apply C2.
    + apply (pending_same en h w _ H); intros; reflexivity.
Qed.

Lemma filter_neq_in e x (l : list nat) : In x (filter (fun y => negb (y =? e)) l) <-> In x l /\ x <> e.
Proof. rewrite filter_In. destruct (Nat.eqb_spec x e); cbn; intuition congruence. Qed.

Lemma step_export en h w i e w' out : TI en h w -> tdo w (TExport i e) = Done w' out -> TI en (h ++ [(TExport i e, out)]) w'.
Proof.
  intros H. cbn [tdo]. destruct (nth_error (w_spans w) i) as [s|] eqn:Es; [| discriminate].
  destruct (ti_spans _ _ _ H i s Es) as (h1 & c & parent & S1 & S2 & S3 & S4).
  destruct s as [sc rec st ph]. destruct ph as [| | | | sd exps |]; try discriminate.
  unfold body_ok in S4. cbn [s_rec s_context s_store s_phase] in *.
  destruct rec as [r|]; [| destruct S4 as (_ & _ & _ & E & _); discriminate].
  destruct S4 as (A1 & A2 & A3 & A4 & A5).
  destruct (existsb (Nat.eqb e) exps) eqn:Ee; [| discriminate].
  assert (Hin : In e exps). { apply existsb_exists in Ee. destruct Ee as (x & Hx & E). apply Nat.eqb_eq in E. congruence. }
  cbn [phase_ok] in A5. destruct A5 as (P1 & (ha & F & N & M & X) & P3 & P4).
  intros Hd. injection Hd as <- <-.
  eapply (TI_one en h w _ _ i _ (MkSpan sc (Some r) st (Exporting sd (filter (fun x => negb (x =? e)) exps)))); eauto; try reflexivity.
  - intros j e0 sd0 Hj. cbn [w_exports set_span]. rewrite in_app_iff. cbn [In]. split; [intros [Hx | [Hx | []]]; [exact Hx | congruence] | auto].
  - cbn [w_exports set_span]. rewrite map_app. cbn [map fst]. apply NoDup_snoc; [apply H |].
    intros Hx. apply in_map_iff in Hx. destruct Hx as ([[e0 i0] sd0] & E & Hx). cbn [fst] in E. injection E as -> ->.
    apply X in Hx. tauto.
  - intros Hm. exists h1, c, parent. split; [apply created_app; exact S1 |]. split; [eapply parent_mono; eauto |]. split; [exact S3 |].
    unfold body_ok. cbn [s_rec s_context s_store s_phase w_exports set_span]. split; [exact A1 |]. split; [exact A2 |].
    split; [apply rec_same; auto |]. split; [apply exact_same; auto |].
    cbn [phase_ok]. rewrite !did_app, !did_one. cbn [is_add is_fin]. rewrite !app_nil_r.
    split; [exact P1 |]. split; [| split; [apply snapped_app; [reflexivity | exact P3] | exact P4]].
    exists ha. split; [apply first_end_app; exact F |]. split; [apply NoDup_filter; exact N |].
    split; [intros e0 He0; apply filter_neq_in in He0; apply M; tauto |].
    intros e0 sd'. rewrite in_app_iff, filter_neq_in, X. cbn [In].
    destruct (Nat.eq_dec e0 e) as [-> | Hne].
    + split.
      * intros [(-> & B & C) | [E | []]]; [tauto |]. injection E as <-. split; [reflexivity |]. split; [apply M; exact Hin | tauto].
      * intros (-> & _). right. left. reflexivity.
    + split.
      * intros [(-> & B & C) | [E | []]]; [tauto | congruence].
      * intros (-> & B & C). left. split; [reflexivity |]. split; [exact B |]. intros Hx. apply C. auto.
  - apply (stores_frame h w); auto; [apply (TI_fins _ _ _ H) | apply H |]. cbn [w_spans set_span].
    eapply skey_upd; [exact Es | reflexivity].
  - apply (pending_same en h w _ H); intros; reflexivity.
Qed.

Lemma step_end_done en h w i w' out : TI en h w -> tdo w (TEndDone i) = Done w' out -> TI en (h ++ [(TEndDone i, out)]) w'.
Proof.
  intros H. cbn [tdo]. destruct (nth_error (w_spans w) i) as [s|] eqn:Es; [| discriminate].
  destruct (ti_spans _ _ _ H i s Es) as (h1 & c & parent & S1 & S2 & S3 & S4).
  destruct s as [sc rec st ph]. destruct ph as [| | | | sd [|]|]; try discriminate.
  unfold body_ok in S4. cbn [s_rec s_context s_store s_phase] in *.
  destruct rec as [r|]; [| destruct S4 as (_ & _ & _ & E & _); discriminate].
  destruct S4 as (A1 & A2 & A3 & A4 & A5).
  cbn [phase_ok] in A5. destruct A5 as (P1 & (ha & F & N & M & X) & P3 & P4).
  intros Hd. injection Hd as <- <-.
  eapply (TI_one en h w _ _ i _ (MkSpan sc (Some r) st Ended)); eauto; try reflexivity; try apply iff_exports.
  - apply H.
  - intros Hm. exists h1, c, parent. split; [apply created_app; exact S1 |]. split; [eapply parent_mono; eauto |]. split; [exact S3 |].
    unfold body_ok. cbn [s_rec s_context s_store s_phase w_exports set_span]. split; [exact A1 |]. split; [exact A2 |].
    split; [apply rec_same; auto |]. split; [apply exact_same; auto |].
    cbn [phase_ok]. rewrite !did_app, !did_one. cbn [is_add is_fin is_snap]. rewrite !app_nil_r.
    split; [exact P1 |]. exists ha. split; [apply first_end_app; exact F |]. right. exists sd.
    split; [apply snapped_app; [reflexivity | exact P3] |]. split; [exact P4 |].
    intros e sd'. rewrite X. cbn [In]. tauto.
  - apply (stores_frame h w); auto; [apply (TI_fins _ _ _ H) | apply H |]. cbn [w_spans set_span].
    eapply skey_upd; [exact Es | reflexivity].
  - apply (pending_same en h w _ H); intros; reflexivity.
Qed.

(** ** Configuration and exporters *)

Lemma given_app {A} (a b : list (option A)) : given (a ++ b) = given a ++ given b.
Proof. apply flat_map_app. Qed.

Lemma limit_snoc f d h a out : limit_after f d (h ++ [(TApplyConfig a, out)]) = if (0 <? f a)%Z then f a else limit_after f d h.
Proof.
  unfold limit_after. rewrite configs_app. cbn [configs flat_map fst app]. rewrite map_app, filter_app. cbn [map filter].
  destruct (0 <? f a)%Z; [apply last_last | rewrite app_nil_r; reflexivity].
Qed.

Lemma cfg_apply h c a out : cfg_ok h c -> cfg_ok (h ++ [(TApplyConfig a, out)]) (apply_config c a).
Proof.
  intros H. constructor; cbn [apply_config cf_sampler cf_gen cf_annots cf_msgs cf_attrs cf_links]; rewrite ?limit_snoc.
  - unfold sampler_after. rewrite configs_app. cbn [configs flat_map fst app]. rewrite map_app, given_app. cbn [map given flat_map].
    destruct (ca_sampler a); cbn [app]; [rewrite last_last; reflexivity | rewrite app_nil_r; apply H].
  - unfold gen_after. rewrite configs_app. cbn [configs flat_map fst app]. rewrite map_app, given_app. cbn [map given flat_map].
    destruct (ca_gen a); cbn [app]; [rewrite last_last; reflexivity | rewrite app_nil_r; apply H].
  - unfold pos_or. rewrite (cg_annots _ _ H). reflexivity.
  - unfold pos_or. rewrite (cg_msgs _ _ H). reflexivity.
  - unfold pos_or. rewrite (cg_attrs _ _ H). reflexivity.
  - unfold pos_or. rewrite (cg_links _ _ H). reflexivity.
Qed.

(** Steps about no span. *)
Lemma TI_global en h w op out w' :
  TI en h w -> (forall i, touches i op = false) -> store_quiet op = true -> creates [(op, out)] = [] ->
  cfg_ok (h ++ [(op, out)]) (w_config w') -> mwf (w_exporters w') ->
  (forall e, In e (mkeys (w_exporters w')) <-> registered (h ++ [(op, out)]) e = true) ->
  w_enabled w' = w_enabled w -> w_spans w' = w_spans w -> w_stores w' = w_stores w -> w_exports w' = w_exports w ->
  w_pending w' = w_pending w -> (forall i, is_child i op = false) -> (forall i, is_local_create i op = false) ->
  TI en (h ++ [(op, out)]) w'.
Proof.
  intros H Ht Hq Hcr Hcfg Hwf Hexp E1 E2 E3 E4 E5 Hch Hlc. constructor; auto.
  - rewrite E1. apply H.
  - rewrite E2, creates_app, Hcr, app_nil_r. apply H.
  - intros i Hi. rewrite E2 in Hi. rewrite E4, did_app, did_one, Ht, app_nil_r. apply H. exact Hi.
  - intros i s Hi. rewrite E2 in Hi. apply (span_frame en h w); auto; [apply H; exact Hi | rewrite E4; tauto |].
    intros j t Hj. rewrite E2. eauto.
  - apply (stores_frame h w); auto; [apply (TI_fins _ _ _ H) | apply H | rewrite E2; reflexivity].
  - rewrite E4. apply H.
  - intros i. rewrite E5, kids_made_app, kids_begun_app. unfold kids_made at 2, kids_begun at 2. rewrite !did_one, Hch, Hlc.
    cbn [length]. rewrite !Nat.add_0_r. apply H.
Qed.

Lemma step_config en h w a : TI en h w ->
  TI en (h ++ [(TApplyConfig a, [])]) (MkW (apply_config (w_config w) a) (w_exporters w) (w_spans w) (w_stores w) (w_enabled w) (w_exports w) (w_pending w)).
Proof.
  intros H. apply (TI_global en h w); auto.
  - apply cfg_apply. apply H.
  - apply H.
  - intros e. unfold registered. rewrite flat_map_app. cbn [flat_map fst]. rewrite !app_nil_r. apply H.
Qed.

Lemma step_register en h w e : TI en h w ->
  TI en (h ++ [(TRegister e, [])]) (MkW (w_config w) (mset Nat.eqb (w_exporters w) e tt) (w_spans w) (w_stores w) (w_enabled w) (w_exports w) (w_pending w)).
Proof.
  intros H. apply (TI_global en h w); auto.
  - apply (cfg_same h); [rewrite configs_app; apply app_nil_r | apply H].
  - apply (mwf_mset Nat.eqb Nat.eqb_spec). apply H.
  - intros e0. cbn [w_exporters]. rewrite <- mget_in_unit, (mget_mset Nat.eqb Nat.eqb_spec).
    unfold registered. rewrite flat_map_app. cbn [flat_map fst]. rewrite app_nil_r.
    destruct (e =? e0); [rewrite last_last; tauto |]. rewrite app_nil_r, mget_in_unit. apply H.
Qed.

Lemma step_unregister en h w e : TI en h w ->
  TI en (h ++ [(TUnregister e, [])]) (MkW (w_config w) (mdel Nat.eqb (w_exporters w) e) (w_spans w) (w_stores w) (w_enabled w) (w_exports w) (w_pending w)).
Proof.
  intros H. apply (TI_global en h w); auto.
  - apply (cfg_same h); [rewrite configs_app; apply app_nil_r | apply H].
  - apply (mwf_mdel Nat.eqb). apply H.
  - intros e0. cbn [w_exporters]. rewrite <- mget_in_unit, (mget_mdel Nat.eqb Nat.eqb_spec).
    unfold registered. rewrite flat_map_app. cbn [flat_map fst]. rewrite app_nil_r.
    destruct (e =? e0); [rewrite last_last; intuition discriminate |]. rewrite app_nil_r, mget_in_unit. apply H.
Qed.

(** ** Reports and sizes *)

Lemma clamp_size_given n : clamp_size n = size_given n.
Proof.
  unfold clamp_size, size_given, max_bucket_size. destruct (n <? 0)%Z eqn:E; [|destruct (100000 <? n)%Z eqn:E1]; f_equal; lia.
Qed.

Lemma step_configure en h w name suc err w' out : TI en h w -> tdo w (TConfigureBucket name suc err) = Done w' out ->
  TI en (h ++ [(TConfigureBucket name suc err, out)]) w'.
Proof.
  intros H. cbn [tdo].
  assert (Hfl := TI_fins _ _ _ H).
  pose proof (ti_stores _ _ _ H name) as Hst0.
  rewrite !clamp_size_given.
  assert (Hmain : forall s', srep s' (events name h ++ [SSize (size_given suc) (size_given err)]) -> mwf (st_active s') ->
     (forall i, In i (mkeys (st_active s')) <-> skey (w_spans w) i = Some name) ->
     TI en (h ++ [(TConfigureBucket name suc err, [])]) (set_stores w (mset bytes_eqb (w_stores w) name s'))).
  { intros s' B1 B2 B3. apply (TI_quiet en h w); auto; try (intros; discriminate).
    - intros i Hi. apply (ti_fresh _ _ _ H i Hi).
    - intros i s Hi. apply (span_frame en h w); auto; [apply H; exact Hi | tauto |]. intros j t Hj. cbn. eauto.
    - intros name'. pose proof (ti_stores _ _ _ H name') as Hst. cbn [set_stores w_stores w_spans].
      rewrite (mget_mset bytes_eqb bytes_eqb_spec), events_app by exact Hfl. cbn [events_of flat_map]. rewrite app_nil_r.
      destruct (bytes_eqb_spec name name') as [<- | Hne]; [auto |]. rewrite app_nil_r. exact Hst.
    - apply H.
    - intros i. cbn [is_child]. rewrite Nat.add_0_r. apply H. }
  destruct (mget bytes_eqb (w_stores w) name) as [s|].
  - destruct Hst0 as (B1 & B2 & B3). destruct (srep_resize s _ (size_given suc) (size_given err) B1) as (s' & F1 & F2 & F3).
    rewrite F1. intros Hd. injection Hd as <- <-. apply Hmain; [exact F2 | rewrite F3; exact B2 | rewrite F3; exact B3].
  - destruct Hst0 as (B1 & B2). intros Hd. injection Hd as <- <-. apply Hmain.
    + rewrite B1. apply srep_new_size.
    + constructor.
    + intros i. cbn. split; [intros [] | intros E; exfalso; apply (B2 i E)].
Qed.

Lemma Forall2_impl_in {A B} (R R' : A -> B -> Prop) l l' : (forall a b, In a l -> R a b -> R' a b) -> Forall2 R l l' -> Forall2 R' l l'.
Proof.
  intros H F. induction F as [|a b l l' Hab F IH]; constructor.
  - apply H; [left; reflexivity | exact Hab].
  - apply IH. intros x y Hx. apply H. right. exact Hx.
Qed.

(** What report_active does to the spans. *)
Lemma report_active_spec o : forall l spans,
  (forall i, In i l -> exists s r, nth_error spans i = Some s /\ s_rec s = Some r) -> NoDup l ->
  exists out spans', report_active o spans l = Some (out, spans') /\ length spans' = length spans /\
    (forall i, ~ In i l -> nth_error spans' i = nth_error spans i) /\
    (forall i s, In i l -> nth_error spans i = Some s ->
       exists r, s_rec s = Some r /\
         nth_error spans' i = Some (MkSpan (s_context s) (Some (snd (make_span_data o r))) (s_store s) (s_phase s))) /\
    Forall2 (fun i sd => exists s r, nth_error spans i = Some s /\ s_rec s = Some r /\ sd = fst (make_span_data o r)) l out.
Proof.
  induction l as [|i l IH]; intros spans Hl Hnd; cbn [report_active].
  - exists [], spans. split; [reflexivity |]. split; [reflexivity |]. split; [auto |]. split; [intros i s [] | constructor].
  - inversion Hnd as [|? ? Hni Hnd']; subst.
    destruct (Hl i (or_introl eq_refl)) as (s & r & Hs & Hr). rewrite Hs.
    destruct s as [sc rec st ph]. cbn in Hr. subst rec.
    destruct (make_span_data o r) as [sd r'] eqn:Em.
    set (spans1 := upd spans i (fun _ => MkSpan sc (Some r') st ph)).
    destruct (IH spans1) as (out & spans' & H1 & H2 & H3 & H4 & H5).
    { intros j Hj. unfold spans1. rewrite nth_upd. destruct (Nat.eqb_spec j i) as [-> | Hne]; [contradiction |]. apply Hl. right. exact Hj. }
    { exact Hnd'. }
    rewrite H1. exists (sd :: out), spans'. split; [reflexivity |].
    split; [rewrite H2; apply upd_length |]. split; [| split].
    + intros j Hj. rewrite H3 by (intros Hx; apply Hj; right; exact Hx). unfold spans1. rewrite nth_upd.
      destruct (Nat.eqb_spec j i) as [-> | Hne]; [exfalso; apply Hj; left; reflexivity | reflexivity].
    + intros j t [<- | Hj] Ht.
      * rewrite Hs in Ht. injection Ht as <-. exists r. split; [reflexivity |]. cbn. rewrite Em. cbn.
        rewrite H3 by exact Hni. unfold spans1. rewrite nth_upd, Nat.eqb_refl, Hs. reflexivity.
      * apply H4; [exact Hj |]. unfold spans1. rewrite nth_upd. destruct (Nat.eqb_spec j i) as [-> | Hne]; [contradiction | exact Ht].
    + constructor.
      * exists (MkSpan sc (Some r) st ph), r. rewrite Em. auto.
      * eapply Forall2_impl_in; [| exact H5]. cbn. intros j sd0 Hj (t & r0 & E1 & E2 & E3). exists t, r0. split; [| auto].
        unfold spans1 in E1. rewrite nth_upd in E1. destruct (Nat.eqb_spec j i) as [-> | Hne]; [contradiction | exact E1].
Qed.

(** Spans in a store are recording. *)
Lemma skey_rec en h w i name : TI en h w -> skey (w_spans w) i = Some name ->
  exists s r h1 c parent, nth_error (w_spans w) i = Some s /\ s_rec s = Some r /\ created h i h1 c /\ c_name c = name /\ en = true /\
    parent_of w (c_par c) = Some parent /\ context_ok h1 c parent (s_context s) /\
    rec_ok h1 c parent (s_context s) (upds h i) (kids_begun h i) r /\ (unread h1 c i h -> rec_exact h1 (upds h i) r) /\
    phase_ok en h1 c parent (s_context s) h (w_exports w) i (s_phase s) /\ in_store (s_phase s) = true.
Proof.
  intros H Hk. unfold skey in Hk. destruct (nth_error (w_spans w) i) as [s|] eqn:Es; [| discriminate].
  destruct (in_store (s_phase s)) eqn:Ei; [| discriminate].
  destruct (ti_spans _ _ _ H i s Es) as (h1 & c & parent & S1 & S2 & S3 & S4). unfold body_ok in S4.
  destruct (s_rec s) as [r|] eqn:Er.
  - destruct S4 as (A1 & A2 & A3 & A4 & A5). exists s, r, h1, c, parent. rewrite A2 in Hk. destruct en; [| discriminate].
    injection Hk as <-. auto 15.
  - destruct S4 as (_ & _ & E & _). congruence.
Qed.

Lemma active_list en h w o name st : TI en h w -> mget bytes_eqb (w_stores w) name = Some st ->
  NoDup (ord o _ (mkeys (st_active st))) /\
  (forall i, In i (ord o _ (mkeys (st_active st))) <-> skey (w_spans w) i = Some name).
Proof.
  intros H Hg. pose proof (ti_stores _ _ _ H name) as Hst. rewrite Hg in Hst. destruct Hst as (B1 & B2 & B3).
  pose proof (ord_perm o _ (mkeys (st_active st))) as Hp. split.
  - eapply Permutation_NoDup; [symmetry; exact Hp | exact B2].
  - intros i. rewrite <- B3. split; apply Permutation_in; [exact Hp | symmetry; exact Hp].
Qed.

Lemma step_report_active en h w o name w' out : TI en h w -> tdo w (TReportActive o name) = Done w' out ->
  TI en (h ++ [(TReportActive o name, out)]) w'.
Proof.
  intros H. cbn [tdo]. destruct (mget bytes_eqb (w_stores w) name) as [st|] eqn:Eg.
  2:{ intros Hd. injection Hd as <- <-. apply TI_skip; auto; intros; discriminate. }
  destruct (active_list en h w o name st H Eg) as [Hnd Hal].
  destruct (report_active_spec o (ord o _ (mkeys (st_active st))) (w_spans w)) as (out0 & spans' & R1 & R2 & R3 & R4 & R5).
  { intros i Hi. apply Hal in Hi. destruct (skey_rec _ _ _ _ _ H Hi) as (s & r & _ & _ & _ & E1 & E2 & _). eauto. }
  { exact Hnd. }
  rewrite R1. intros Hd. injection Hd as <- <-.
  set (w' := MkW _ _ spans' _ _ _ _).
  assert (Hm : ctx_mono w w').
  { intros j t Hj. cbn [w' w_spans]. destruct (in_dec Nat.eq_dec j (ord o _ (mkeys (st_active st)))) as [Hi | Hi].
    - destruct (R4 j t Hi Hj) as (r & _ & E). rewrite E. eexists. split; [reflexivity |]. reflexivity.
    - rewrite R3 by exact Hi. eauto. }
  apply (TI_quiet en h w); auto; try (intros; discriminate).
  - intros i Hi. apply (ti_fresh _ _ _ H i Hi).
  - intros i s Hi. cbn [w' w_spans] in Hi. destruct (in_dec Nat.eq_dec i (ord o _ (mkeys (st_active st)))) as [Hin | Hin].
    + apply Hal in Hin as Hk. destruct (skey_rec _ _ _ _ _ H Hk) as (s0 & r0 & h1 & c & parent & E1 & E2 & S1 & E3 & E4 & S2 & S3 & A3 & A4 & A5 & A6).
      destruct (R4 i s0 Hin E1) as (r & Er & E). rewrite E in Hi. injection Hi as <-. rewrite E2 in Er. injection Er as <-.
      exists h1, c, parent. split; [apply created_app; exact S1 |]. split; [eapply parent_mono; eauto |]. split; [exact S3 |].
      destruct (ti_spans _ _ _ H i s0 E1) as (h1' & c' & parent' & S1' & S2' & S3' & S4').
      assert (Hst : s_store s0 = Some name) by (unfold skey in Hk; rewrite E1, A6 in Hk; exact Hk).
      destruct (make_span_data o r0) as [sd r'] eqn:Em. destruct (rec_ok_snap _ _ _ _ _ _ _ _ _ _ A3 Em) as (_ & R & _).
      unfold body_ok. cbn [snd s_rec s_context s_store s_phase w' w_exports]. rewrite E4. split; [auto |].
      split; [rewrite Hst, E3; reflexivity |]. split; [apply rec_same; auto |]. split.
      * intros [Hu _]. unfold since in Hu. rewrite skipn_app, did_app in Hu. rewrite (created_len _ _ _ _ S1), skipn_O in Hu.
        rewrite did_one in Hu. cbn [is_report] in Hu. rewrite <- E3, bytes_eqb_refl in Hu.
        apply app_eq_nil in Hu. destruct Hu. discriminate.
      * rewrite E4 in A5. apply (phase_frame true h1 c parent _ h (w_exports w)); [reflexivity | tauto | exact A5].
    + rewrite R3 in Hi by exact Hin. apply (span_frame en h w); auto; [apply H; exact Hi | tauto].
  - apply (stores_frame h w); auto; [apply (TI_fins _ _ _ H) | apply H |]. cbn [w' w_spans]. intros j. unfold skey.
    destruct (in_dec Nat.eq_dec j (ord o _ (mkeys (st_active st)))) as [Hi | Hi]; [| rewrite R3 by exact Hi; reflexivity].
    destruct (nth_error (w_spans w) j) as [t|] eqn:Et.
    + destruct (R4 j t Hi Et) as (r & _ & E). rewrite E. reflexivity.
    + apply Hal in Hi. unfold skey in Hi. rewrite Et in Hi. discriminate.
  - apply H.
  - apply (pending_same en h w _ H); intros; reflexivity.
Qed.

(** ** Creating a span *)

Lemma remove_one_count i : forall l l', remove_one i l = Some l' ->
  forall j, count_occ Nat.eq_dec l j = count_occ Nat.eq_dec l' j + (if i =? j then 1 else 0).
Proof.
  induction l as [|x l IH]; intros l' H j; cbn [remove_one] in H; [discriminate |].
  destruct (Nat.eqb_spec x i) as [-> | Hne].
  - injection H as <-. cbn [count_occ]. destruct (Nat.eq_dec i j) as [-> | Hn]; [rewrite Nat.eqb_refl; lia |].
    destruct (Nat.eqb_spec i j); [contradiction | lia].
  - destruct (remove_one i l) as [l0|] eqn:E; [| discriminate]. injection H as <-. cbn [count_occ].
    rewrite (IH l0 eq_refl j). destruct (Nat.eq_dec x j); lia.
Qed.

Lemma step_create en h w p rm nm xs tid sid now w' out :
  TI en h w -> tdo w (TCreate p rm nm xs tid sid now) = Done w' out -> TI en (h ++ [(TCreate p rm nm xs tid sid now, out)]) w'.
Proof.
  intros H. cbn [tdo]. destruct (parent_context w p) as [parent|] eqn:Ep; [| discriminate].
  destruct (take_pending w p rm) as [pend|] eqn:Etp; [| discriminate].
  intros Hd. injection Hd as <- <-.
  set (sc := start_context _ _ _ _ _ _ _ _). set (r := start_recording _ _ _ _ _ _ _ _).
  set (s := if negb (w_enabled w) && negb (is_sampled sc) then _ else _).
  set (w' := MkW _ _ _ _ _ _ pend). set (op := TCreate p rm nm xs tid sid now). set (c := MkC p rm nm xs tid sid now).
  assert (Hp : parent_of w p = Some parent).
  { destruct p; cbn in *; auto. }
  assert (Hm : ctx_mono w w').
  { intros j t Hj. cbn [w' w_spans]. rewrite nth_error_app1 by (apply nth_error_Some; congruence). eauto. }
  assert (Hsc : s_context s = sc) by (unfold s; destruct (negb (w_enabled w) && negb (is_sampled sc)); reflexivity).
  pose proof (start_context_ok h (w_config w) p rm nm xs tid sid now parent (ti_cfg _ _ _ H)) as Hctx. fold sc in Hctx. fold c in Hctx.
  destruct (rec_ok_start h (w_config w) p rm nm xs tid sid now parent sc (ti_cfg _ _ _ H)) as [Hr1 Hr2]. fold r in Hr1, Hr2. fold c in Hr1, Hr2.
  destruct (ti_fresh _ _ _ H (length (w_spans w)) (le_n _)) as [Hfr Hne].
  destruct (untouched_h _ _ Hfr) as (U1 & U2 & U3 & U4 & U5 & U6).
  constructor; cbn [w' w_config w_exporters w_spans w_stores w_enabled w_exports w_pending].
  - apply (cfg_same h); [rewrite configs_app; apply app_nil_r | apply H].
  - apply H.
  - intros e. unfold registered. rewrite flat_map_app. cbn [op flat_map fst]. rewrite !app_nil_r. apply H.
  - apply H.
  - rewrite app_length, creates_app, app_length, (ti_len _ _ _ H). reflexivity.
  - intros i Hi. rewrite app_length in Hi. cbn [length] in Hi. rewrite did_app, did_one. cbn [op touches]. rewrite app_nil_r.
    apply (ti_fresh _ _ _ H). lia.
  - intros i t Hi. destruct (Nat.lt_ge_cases i (length (w_spans w))) as [Hlt | Hge].
    + rewrite nth_error_app1 in Hi by exact Hlt. apply (span_frame en h w); auto; [apply H; exact Hi | tauto].
    + rewrite nth_error_app2 in Hi by exact Hge.
      assert (Hi2 : i = length (w_spans w)).
      { destruct (i - length (w_spans w)) as [|k] eqn:E; [lia |]. cbn in Hi. destruct k; discriminate. }
      subst i. rewrite Nat.sub_diag in Hi. cbn in Hi. injection Hi as <-.
      exists h, c, parent. split; [exists [], []; split; [reflexivity | symmetry; apply (ti_len _ _ _ H)] |].
      split; [eapply parent_mono; [exact Hm | exact Hp] |]. split; [rewrite Hsc; exact Hctx |].
      unfold body_ok. rewrite Hsc. rewrite upds_app, kids_begun_app. cbn [w' w_exports].
      assert (E1 : upds [(op, @nil sdata)] (length (w_spans w)) = []) by reflexivity.
      assert (E2 : kids_begun [(op, @nil sdata)] (length (w_spans w)) = 0) by reflexivity.
      rewrite E1, E2, U1, U2. unfold s. rewrite (ti_en _ _ _ H).
      destruct en; cbn [negb andb].
      * cbn [s_rec s_store s_phase phase_ok app Nat.add]. rewrite !did_app, !did_one. cbn [op is_add is_end is_snap is_fin].
        rewrite U3, U4, U5, U6. split; [auto |]. split; [reflexivity |]. split; [exact Hr1 |]. split; [intros _; exact Hr2 | auto 10].
      * destruct (is_sampled sc) eqn:Esm; cbn [negb s_rec s_store s_phase phase_ok app Nat.add];
          rewrite !did_app, !did_one; cbn [op is_add is_end is_snap is_fin]; rewrite ?U3, ?U4, U5, U6.
        -- split; [auto |]. split; [reflexivity |]. split; [exact Hr1 |]. split; [intros _; exact Hr2 |].
           split; [discriminate | auto].
        -- auto 10.
  - apply (stores_frame h w); auto; [apply (TI_fins _ _ _ H) | apply H |]. intros i. unfold skey. cbn [w' w_spans].
    destruct (Nat.lt_ge_cases i (length (w_spans w))) as [Hlt | Hge].
    + rewrite nth_error_app1 by exact Hlt. reflexivity.
    + rewrite nth_error_app2 by exact Hge. rewrite (proj2 (nth_error_None (w_spans w) i) Hge).
      destruct (i - length (w_spans w)) as [|k]; cbn [nth_error]; [| destruct k; reflexivity].
      unfold s. rewrite (ti_en _ _ _ H). destruct en; cbn [negb andb]; [reflexivity |].
      destruct (is_sampled sc); reflexivity.
  - apply H.
  - intros i. rewrite kids_made_app, kids_begun_app. unfold kids_made at 2, kids_begun at 2. rewrite !did_one. cbn [op is_child is_local_create length].
    rewrite Nat.add_0_r, <- (ti_pending _ _ _ H). unfold take_pending in Etp.
    destruct p as [|j|sc0].
    + injection Etp as <-. cbn [length]. lia.
    + destruct rm; [injection Etp as <-; cbn [length]; lia |]. rewrite (remove_one_count _ _ _ Etp i).
      destruct (j =? i); cbn [length]; lia.
    + injection Etp as <-. cbn [length]. lia.
Qed.

(** ** All histories *)

Lemma TI_init en : TI en [] (init_world en).
Proof.
  constructor; cbn [init_world w_config w_exporters w_spans w_stores w_enabled w_exports w_pending].
  - constructor; reflexivity.
  - constructor.
  - intros e. cbn. split; [intros [] | discriminate].
  - reflexivity.
  - reflexivity.
  - intros i _. split; [reflexivity |]. intros e sd [].
  - intros i s Hi. destruct i; discriminate.
  - intros name. cbn. split; [reflexivity |]. intros i. unfold skey. cbn. destruct i; discriminate.
  - constructor.
  - reflexivity.
Qed.

Lemma TI_step en h w op w' out : TI en h w -> tdo w op = Done w' out -> TI en (h ++ [(op, out)]) w'.
Proof.
  intros H Hd. destruct op.
  - eapply step_add_child; eauto.
  - eapply step_create; eauto.
  - eapply step_store_add; eauto.
  - eapply step_update; eauto.
  - eapply step_end; eauto.
  - eapply step_snap; eauto.
  - eapply step_finished; eauto.
  - eapply step_export; eauto.
  - eapply step_end_done; eauto.
  - cbn [tdo] in Hd. injection Hd as <- <-. apply step_config. exact H.
  - cbn [tdo] in Hd. injection Hd as <- <-. apply step_register. exact H.
  - cbn [tdo] in Hd. injection Hd as <- <-. apply step_unregister. exact H.
  - eapply step_configure; eauto.
  - eapply step_report_active; eauto.
  - cbn [tdo] in Hd. injection Hd as <- <-. apply TI_skip; auto; intros; discriminate.
  - cbn [tdo] in Hd. injection Hd as <- <-. apply TI_skip; auto; intros; discriminate.
Qed.

Theorem TI_run en h w : trun en h w -> TI en h w.
Proof. induction 1; [apply TI_init | eapply TI_step; eauto]. Qed.
