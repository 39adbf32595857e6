(** Spans, exporters, configuration and the span store over all histories:
    C27, C28, C30-C36, C39, C40.

    [trun en h w]: the history [h] of steps of any number of goroutines leads from
    the start of the program to [w]; [en]: the local span store is enabled. *)

From Coq Require Import String.
From Coq Require Import List Arith NArith ZArith Bool Permutation Lia ZifyBool ZifyNat ZifyN.
From Verif Require Import Base ListLib GoMap AggModel AggProofs TraceTypes TraceModel SpanStoreModel SpanStoreSpec SpanStoreProofs
     TracerModel TracerSpec TraceProofs TracerProofs.
Import ListNotations.
Open Scope nat_scope.

Notation span_at w i := (nth_error (w_spans w) i).

(** *** Histories *)

Lemma trun_snoc_inv en h op out w' : trun en (h ++ [(op, out)]) w' -> exists w, trun en h w /\ tdo w op = Done w' out.
Proof.
  intros H. remember (h ++ [(op, out)]) as hh eqn:Eh. destruct H as [|h0 w0 op0 w0' out0 H0 E0]; [destruct h; discriminate |].
  apply app_inj_tail in Eh. destruct Eh as [-> [= -> ->]]. eauto.
Qed.

Lemma trun_prefix en h1 h2 w : trun en (h1 ++ h2) w -> exists w1, trun en h1 w1.
Proof.
  revert w. induction h2 as [|[op out] h2 IH] using rev_ind; intros w H.
  - rewrite app_nil_r in H. eauto.
  - rewrite app_assoc in H. apply trun_snoc_inv in H. destruct H as (w0 & H & _). eauto.
Qed.

Lemma trun_mid en h1 op out h2 w : trun en (h1 ++ (op, out) :: h2) w ->
  exists w1 w2, trun en h1 w1 /\ tdo w1 op = Done w2 out /\ trun en (h1 ++ [(op, out)]) w2.
Proof.
  intros H. change (h1 ++ (op, out) :: h2) with (h1 ++ [(op, out)] ++ h2) in H. rewrite app_assoc in H.
  destruct (trun_prefix _ _ _ _ H) as (w2 & H2). destruct (trun_snoc_inv _ _ _ _ _ H2) as (w1 & H1 & E). eauto.
Qed.

(** Contexts of spans do not change; nor does whether a span records. *)
Definition same_span (s s' : span) : Prop :=
  s_context s' = s_context s /\ (s_rec s' = None <-> s_rec s = None) /\ s_store s' = s_store s.

Lemma same_refl s : same_span s s.
Proof. repeat split; auto. Qed.

Lemma set_same w i s s' j t : span_at w i = Some s -> same_span s s' -> span_at w j = Some t ->
  exists t', nth_error (upd (w_spans w) i (fun _ => s')) j = Some t' /\ same_span t t'.
Proof.
  intros Hi Hs Hj. rewrite nth_upd, Hj. destruct (Nat.eqb_spec j i) as [-> | Hne]; cbn [option_map].
  - rewrite Hi in Hj. injection Hj as <-. eauto.
  - exists t. split; [reflexivity | apply same_refl].
Qed.

Lemma report_active_same o : forall l spans out spans', report_active o spans l = Some (out, spans') ->
  forall j t, nth_error spans j = Some t -> exists t', nth_error spans' j = Some t' /\ same_span t t'.
Proof.
  induction l as [|i l IH]; intros spans out spans' H j t Hj; cbn [report_active] in H.
  - injection H as <- <-. exists t. split; [exact Hj | apply same_refl].
  - destruct (nth_error spans i) as [[sc [r|] st ph]|] eqn:Es; try discriminate.
    destruct (make_span_data o r) as [sd r']. destruct (report_active o _ l) as [[sds sp]|] eqn:E; [| discriminate].
    injection H as <- <-.
    assert (Hx : exists t1, nth_error (upd spans i (fun _ => MkSpan sc (Some r') st ph)) j = Some t1 /\ same_span t t1).
    { rewrite nth_upd, Hj. destruct (Nat.eqb_spec j i) as [-> | Hne]; cbn [option_map].
      - rewrite Es in Hj. injection Hj as <-. eexists; split; [reflexivity |]. repeat split; cbn; discriminate.
      - exists t. split; [reflexivity | apply same_refl]. }
    destruct Hx as (t1 & Hx1 & A1 & A2 & A3). destruct (IH _ _ _ E j t1 Hx1) as (t2 & Hx2 & B1 & B2 & B3).
    exists t2. split; [exact Hx2 |]. split; [congruence |]. split; [tauto | congruence].
Qed.

Lemma step_same w op w' out : tdo w op = Done w' out ->
  forall j t, span_at w j = Some t -> exists t', span_at w' j = Some t' /\ same_span t t'.
Proof.
  intros H j t Hj.
  assert (Hrefl : forall w0, w_spans w0 = w_spans w -> exists t', span_at w0 j = Some t' /\ same_span t t').
  { intros w0 ->. exists t. split; [exact Hj | apply same_refl]. }
  destruct op as [i | p rm nm xs tid sid now | i | r u | r | i o now | i | i e | i | a | e | e | nm suc err | o nm | o nm co | nm lo hi];
    cbn [tdo] in H.
  - destruct (span_at w i) as [s|] eqn:Es; [| discriminate]. destruct (s_rec s) as [rc|] eqn:Er; injection H as <- <-.
    + eapply set_same; eauto. repeat split; cbn; rewrite Er; discriminate.
    + apply Hrefl. reflexivity.
  - destruct (parent_context w p); [| discriminate]. destruct (take_pending w p rm); [| discriminate]. injection H as <- <-.
    cbn [w_spans]. rewrite nth_error_app1 by (apply nth_error_Some; congruence). exists t. split; [exact Hj | apply same_refl].
  - destruct (span_at w i) as [[sc rc [nm|] ph]|] eqn:Es; try discriminate. destruct ph; try discriminate. injection H as <- <-.
    eapply set_same; eauto. repeat split; auto.
  - destruct r as [| | i]; [| discriminate |]; [injection H as <- <-; apply Hrefl; reflexivity |].
    destruct (span_at w i) as [s|] eqn:Es; [| discriminate]. destruct (s_rec s) as [rc|] eqn:Er.
    + destruct (rec_update rc u); [| discriminate]. injection H as <- <-. eapply set_same; eauto. repeat split; cbn; rewrite Er; discriminate.
    + injection H as <- <-. apply Hrefl. reflexivity.
  - destruct r as [| | i]; [| discriminate |]; [injection H as <- <-; apply Hrefl; reflexivity |].
    destruct (span_at w i) as [s|] eqn:Es; [| discriminate]. destruct (s_rec s) as [rc|] eqn:Er.
    + destruct (s_phase s); try discriminate.
      * match type of H with context [if ?b then _ else _] => destruct b end; injection H as <- <-; (eapply set_same; [exact Es | | exact Hj]; repeat split; auto).
      * injection H as <- <-. apply Hrefl. reflexivity.
    + injection H as <- <-. apply Hrefl. reflexivity.
  - destruct (span_at w i) as [[sc [rc|] st ph]|] eqn:Es; try discriminate. destruct ph; try discriminate.
    destruct (make_span_data o rc). injection H as <- <-. eapply set_same; eauto. repeat split; cbn; discriminate.
  - destruct (span_at w i) as [[sc rc st ph]|] eqn:Es; try discriminate. destruct ph; try discriminate.
    destruct st as [nm|]; [destruct (st_finished _ i sd); [| discriminate] |]; injection H as <- <-; (eapply set_same; [exact Es | | exact Hj]; repeat split; auto).
  - destruct (span_at w i) as [[sc rc st ph]|] eqn:Es; try discriminate. destruct ph; try discriminate.
    destruct (existsb _ exps); [| discriminate]. injection H as <- <-. eapply set_same; eauto. repeat split; auto.
  - destruct (span_at w i) as [[sc rc st ph]|] eqn:Es; try discriminate. destruct ph as [| | | |sd [|]|]; try discriminate.
    injection H as <- <-. eapply set_same; eauto. repeat split; auto.
  - injection H as <- <-. apply Hrefl. reflexivity.
  - injection H as <- <-. apply Hrefl. reflexivity.
  - injection H as <- <-. apply Hrefl. reflexivity.
  - destruct (mget bytes_eqb (w_stores w) nm); [destruct (st_resize _ _ _); [| discriminate] |]; injection H as <- <-; apply Hrefl; reflexivity.
  - destruct (mget bytes_eqb (w_stores w) nm); [| injection H as <- <-; apply Hrefl; reflexivity].
    destruct (report_active _ _ _) as [[o1 sp]|] eqn:E; [| discriminate]. injection H as <- <-. cbn [w_spans].
    eapply report_active_same; eauto.
  - injection H as <- <-. apply Hrefl. reflexivity.
  - injection H as <- <-. apply Hrefl. reflexivity.
Qed.

Lemma run_same en h1 w1 : trun en h1 w1 -> forall h2 w2, trun en (h1 ++ h2) w2 ->
  forall j t, span_at w1 j = Some t -> exists t', span_at w2 j = Some t' /\ same_span t t'.
Proof.
  intros H1 h2. induction h2 as [|[op out] h2 IH] using rev_ind; intros w2 H2 j t Hj.
  - rewrite app_nil_r in H2.
    assert (w1 = w2).
    { clear j t Hj. revert w2 H2. induction H1 as [|h w op w' out H IH E]; intros w2 H2.
      - inversion H2; [reflexivity | destruct h; discriminate].
      - apply trun_snoc_inv in H2. destruct H2 as (w0 & H0 & E0). apply IH in H0. subst w0. congruence. }
    subst w2. exists t. split; [exact Hj | apply same_refl].
  - rewrite app_assoc in H2. apply trun_snoc_inv in H2. destruct H2 as (w0 & H0 & E).
    destruct (IH w0 H0 j t Hj) as (t1 & Ht1 & A1 & A2 & A3). destruct (step_same _ _ _ _ E j t1 Ht1) as (t2 & Ht2 & B1 & B2 & B3).
    exists t2. split; [exact Ht2 |]. split; [congruence |]. split; [tauto | congruence].
Qed.

(** Every span made is there, in the order of their making. *)
Lemma created_exists en h w i h1 c : trun en h w -> created h i h1 c -> exists s, span_at w i = Some s.
Proof.
  intros H Hc. destruct (span_at w i) as [s|] eqn:E; [eauto |]. apply nth_error_None in E.
  rewrite (ti_len _ _ _ (TI_run _ _ _ H)) in E. destruct Hc as (out & h2 & -> & Hl).
  rewrite creates_app, app_length in E. cbn in E. lia.
Qed.

Lemma created_fun h i h1 c h1' c' : created h i h1 c -> created h i h1' c' -> h1' = h1 /\ c' = c.
Proof.
  intros (o1 & h2 & E1 & L1) (o2 & h3 & E2 & L2). rewrite E1 in E2.
  assert (Hlen : forall (a a' : hist) x x' b b', a ++ x :: b = a' ++ x' :: b' -> length (creates a) = length (creates a') ->
             creates [x] <> [] -> creates [x'] <> [] -> a = a' /\ x = x').
  { induction a as [|y a IH]; intros a' x x' b b' E L Hx Hx'; destruct a' as [|y' a']; cbn [app] in E.
    - injection E as -> _. auto.
    - injection E as <- ->. change (x :: a') with ([x] ++ a') in L. rewrite creates_app, app_length in L.
      destruct (creates [x]); [contradiction | cbn in L; lia].
    - injection E as <- <-. change (y :: a) with ([y] ++ a) in L. rewrite creates_app, app_length in L.
      destruct (creates [y]); [contradiction | cbn in L; lia].
    - injection E as <- E. change (y :: a) with ([y] ++ a) in L. change (y :: a') with ([y] ++ a') in L.
      rewrite !creates_app, !app_length in L. destruct (IH a' x x' b b' E ltac:(lia) Hx Hx') as [-> ->]. auto. }
  destruct (Hlen _ _ _ _ _ _ E2 ltac:(lia)) as [-> E]; try discriminate. split; [reflexivity |].
  destruct c, c'; cbn in E. congruence.
Qed.

Lemma span_created en h w i s : trun en h w -> span_at w i = Some s -> exists h1 c, created h i h1 c.
Proof. intros H Hs. destruct (ti_spans _ _ _ (TI_run _ _ _ H) i s Hs) as (h1 & c & parent & S1 & _). eauto. Qed.

(** What is known of a span. *)
Lemma created_body en h w i h1 c : trun en h w -> created h i h1 c ->
  exists s parent, span_at w i = Some s /\ parent_of w (c_par c) = Some parent /\ context_ok h1 c parent (s_context s) /\
    body_ok en h1 c parent h (w_exports w) i s.
Proof.
  intros H Hc. destruct (created_exists _ _ _ _ _ _ H Hc) as (s & Hs).
  destruct (ti_spans _ _ _ (TI_run _ _ _ H) i s Hs) as (h1' & c' & parent & S1 & S2 & S3 & S4).
  destruct (created_fun _ _ _ _ _ _ Hc S1) as [-> ->]. exists s, parent. auto.
Qed.

(** ** C27 *)

(** A span with a parent continues its trace, one without starts the trace just drawn;
    its span ID is the one just drawn; the tracestate is the parent's.  The parent's
    context is the same in every later state (C27_context_constant). *)
Theorem C27_identity en h w i h1 c : trun en h w -> created h i h1 c ->
  exists s parent, span_at w i = Some s /\ parent_of w (c_par c) = Some parent /\
    sc_trace_id (s_context s) = (if is_zero_sc parent then c_tid c else sc_trace_id parent) /\
    sc_span_id (s_context s) = c_sid c /\
    sc_tracestate (s_context s) = sc_tracestate parent.
Proof.
  intros H Hc. destruct (created_body _ _ _ _ _ _ H Hc) as (s & parent & A & B & C & _). exists s, parent.
  split; [exact A |]. split; [exact B |]. split; [apply C |]. split; apply C.
Qed.

Theorem C27_context_constant en h h2 w w2 i s : trun en h w -> trun en (h ++ h2) w2 -> span_at w i = Some s ->
  exists s2, span_at w2 i = Some s2 /\ s_context s2 = s_context s.
Proof. intros H H2 Hs. destruct (run_same en h w H h2 w2 H2 i s Hs) as (t & Ht & A & _). eauto. Qed.

(** What an exporter was called with. *)
Lemma exported_body en h w e i sd : trun en h w -> In (e, i, sd) (w_exports w) ->
  exists s h1 c parent r, span_at w i = Some s /\ created h i h1 c /\ parent_of w (c_par c) = Some parent /\ s_rec s = Some r /\
    context_ok h1 c parent (s_context s) /\ phase_ok en h1 c parent (s_context s) h (w_exports w) i (s_phase s) /\
    snapped h1 c parent (s_context s) h i sd /\ exists ha, first_end h i ha /\ must (s_context s) ha e.
Proof.
  intros H Hin. pose proof (TI_run _ _ _ H) as I.
  destruct (span_at w i) as [s|] eqn:Es.
  2:{ apply nth_error_None in Es. destruct (ti_fresh _ _ _ I i Es) as [_ Hn]. exfalso. apply (Hn e sd Hin). }
  destruct (span_created _ _ _ _ _ H Es) as (h1 & c & Hc).
  destruct (created_body _ _ _ _ _ _ H Hc) as (s' & parent & A & B & C & D). rewrite Es in A. injection A as <-.
  unfold body_ok in D. destruct (s_rec s) as [r|] eqn:Er; [| destruct D as (_ & _ & _ & _ & Hn & _); exfalso; apply (Hn e sd Hin)].
  destruct D as (_ & _ & _ & _ & D). exists s, h1, c, parent, r. do 6 (split; [assumption || reflexivity |]).
  destruct (s_phase s); cbn [phase_ok] in D;
      try (exfalso; destruct D as (_ & D); decompose [and ex] D; match goal with Hn : noexp _ _ |- _ => apply (Hn e sd Hin) end; fail).
  - destruct D as (_ & (ha & F & _ & _ & X) & D & _). apply X in Hin. destruct Hin as (-> & Hm & _). eauto.
  - destruct D as (_ & ha & F & [(_ & _ & _ & _ & Hn) | (sd0 & D & _ & X)]); [exfalso; apply (Hn e sd Hin) |].
    apply X in Hin. destruct Hin as (-> & Hm). eauto.
Qed.

(** Exported data carries that identity, the parent's span ID (zero for none), and
    whether the parent was remote. *)
Theorem C27_exported en h w e i sd : trun en h w -> In (e, i, sd) (w_exports w) ->
  exists s h1 c parent, span_at w i = Some s /\ created h i h1 c /\ parent_of w (c_par c) = Some parent /\
    sd_context sd = s_context s /\
    sd_parent sd = (if is_zero_sc parent then zero_span_id else sc_span_id parent) /\
    sd_remote sd = c_remote c.
Proof.
  intros H Hin. destruct (exported_body _ _ _ _ _ _ H Hin) as (s & h1 & c & parent & r & A & B & C & _ & _ & _ & (hs & now & _ & _ & Hd & _) & _).
  exists s, h1, c, parent. do 3 (split; [assumption |]). split; [apply Hd |]. split; apply Hd.
Qed.

(** Span [i] descends from span [j] in the tree of spans of this process. *)
Inductive descends (h : hist) (j : nat) : nat -> Prop :=
| desc_self : descends h j j
| desc_child i k h1 c : descends h j k -> created h i h1 c -> c_par c = PSpan k -> descends h j i.

Lemma nonzero_sc sc : sc_span_id sc <> zero_span_id -> is_zero_sc sc = false.
Proof.
  intros H. unfold is_zero_sc. destruct (bytes_eqb_spec (sc_span_id sc) zero_span_id) as [E | _]; [contradiction |].
  rewrite andb_false_r. reflexivity.
Qed.

(** All descendants of a span belong to its trace, if the generator draws no zero span
    ID (C26). *)
Theorem C27_one_trace en h w j i sj : trun en h w -> (forall c, In c (creates h) -> c_sid c <> zero_span_id) ->
  descends h j i -> span_at w j = Some sj ->
  exists si, span_at w i = Some si /\ sc_trace_id (s_context si) = sc_trace_id (s_context sj) /\
             sc_tracestate (s_context si) = sc_tracestate (s_context sj).
Proof.
  intros H Hz Hd Hj. induction Hd as [|i k h1 c Hd (sk & Hk & IH1 & IH2) Hc Hp].
  - exists sj. auto.
  - destruct (C27_identity _ _ _ _ _ _ H Hc) as (s & parent & A & B & T & S & TS). rewrite Hp in B. cbn [parent_of] in B.
    rewrite Hk in B. injection B as <-. exists s. split; [exact A |].
    assert (Hnz : is_zero_sc (s_context sk) = false).
    { apply nonzero_sc. destruct (span_created _ _ _ _ _ H Hk) as (h1k & ck & Hck).
      destruct (C27_identity _ _ _ _ _ _ H Hck) as (s' & parent' & A' & _ & _ & S' & _). rewrite Hk in A'. injection A' as <-.
      rewrite S'. apply Hz. destruct Hck as (out & h2 & -> & _). rewrite creates_app. apply in_or_app. right. destruct ck. left. reflexivity. }
    rewrite Hnz in T. split; congruence.
Qed.

(** ** C28 *)

(** The sampling decision is bit 0 of the options, taken by whom [decision] says; all
    other option bits come from the parent. *)
Theorem C28_decision en h w i h1 c : trun en h w -> created h i h1 c ->
  exists s parent, span_at w i = Some s /\ parent_of w (c_par c) = Some parent /\
    N.testbit (sc_options (s_context s)) 0 = decision h1 c parent (sc_trace_id (s_context s)) /\
    (forall b, (0 < b < 32)%N -> N.testbit (sc_options (s_context s)) b = N.testbit (sc_options parent) b) /\
    (sc_options parent < 2 ^ 32 -> sc_options (s_context s) < 2 ^ 32)%N.
Proof.
  intros H Hc. destruct (created_body _ _ _ _ _ _ H Hc) as (s & parent & A & B & C & _). exists s, parent.
  split; [exact A |]. split; [exact B |]. split; [rewrite N.bit0_odd; apply C |]. split; apply C.
Qed.

(** The cases of [decision], in words. *)
Theorem C28_inherited en h w i h1 c k sk : trun en h w -> created h i h1 c ->
  c_par c = PSpan k -> c_remote c = false -> opt_sampler (c_opts c) = None ->
  span_at w k = Some sk -> sc_span_id (s_context sk) <> zero_span_id ->
  exists s, span_at w i = Some s /\ is_sampled (s_context s) = is_sampled (s_context sk).
Proof.
  intros H Hc Hp Hr Ho Hk Hz. destruct (created_body _ _ _ _ _ _ H Hc) as (s & parent & A & B & C & _). exists s. split; [exact A |].
  rewrite Hp in B. cbn [parent_of] in B. rewrite Hk in B. injection B as <-.
  rewrite (co_sampled _ _ _ _ C). unfold decision. rewrite Ho, Hr, (nonzero_sc _ Hz). reflexivity.
Qed.

Theorem C28_own_sampler en h w i h1 c smp : trun en h w -> created h i h1 c -> opt_sampler (c_opts c) = Some smp ->
  exists s parent, span_at w i = Some s /\ parent_of w (c_par c) = Some parent /\
    is_sampled (s_context s) = smp (MkSP parent (sc_trace_id (s_context s)) (c_sid c) (c_name c) (c_remote c)).
Proof.
  intros H Hc Ho. destruct (created_body _ _ _ _ _ _ H Hc) as (s & parent & A & B & C & _). exists s, parent.
  split; [exact A |]. split; [exact B |]. rewrite (co_sampled _ _ _ _ C). unfold decision. rewrite Ho. reflexivity.
Qed.

Theorem C28_default_sampler en h w i h1 c : trun en h w -> created h i h1 c -> opt_sampler (c_opts c) = None ->
  (c_par c = PNone \/ c_remote c = true) ->
  exists s parent, span_at w i = Some s /\ parent_of w (c_par c) = Some parent /\
    is_sampled (s_context s) = sampler_after h1 (MkSP parent (sc_trace_id (s_context s)) (c_sid c) (c_name c) (c_remote c)).
Proof.
  intros H Hc Ho Hcase. destruct (created_body _ _ _ _ _ _ H Hc) as (s & parent & A & B & C & _). exists s, parent.
  split; [exact A |]. split; [exact B |]. rewrite (co_sampled _ _ _ _ C). unfold decision. rewrite Ho.
  destruct Hcase as [E | ->]; [| rewrite orb_true_r; reflexivity]. rewrite E in B. injection B as <-. reflexivity.
Qed.

(** ** C30 *)

(** No exporter is called twice for one span. *)
Theorem C30_at_most_once en h w : trun en h w -> NoDup (map fst (w_exports w)).
Proof. intros H. apply (TI_run _ _ _ H). Qed.

(** Exporters are called only for sampled spans on which End was called, only if they
    were registered at that moment; all get the same data, whose end time was read once. *)
Theorem C30_only_registered en h w e i sd : trun en h w -> In (e, i, sd) (w_exports w) ->
  (exists s, span_at w i = Some s /\ is_sampled (s_context s) = true) /\
  (exists ha, first_end h i ha /\ registered ha e = true) /\
  (exists hs, completed h i hs (sd_end sd)) /\ length (did (is_snap i) h) = 1 /\
  (forall e' sd', In (e', i, sd') (w_exports w) -> sd' = sd).
Proof.
  intros H Hin. destruct (exported_body _ _ _ _ _ _ H Hin) as (s & h1 & c & parent & r & A & B & C & _ & _ & P & (hs & now & D1 & D2 & Hd & _) & ha & F & M1 & M2).
  split; [eauto |]. split; [eauto |]. split; [exists hs; rewrite (sk_end _ _ _ _ _ _ _ _ Hd); exact D1 |]. split; [exact D2 |].
  intros e' sd' Hin'. destruct (s_phase s); cbn [phase_ok] in P;
      try (exfalso; destruct P as (_ & P); decompose [and ex] P; match goal with Hn : noexp _ _ |- _ => apply (Hn e sd Hin) end; fail).
  - destruct P as (_ & (ha' & _ & _ & _ & X) & _). apply X in Hin, Hin'. destruct Hin, Hin'. congruence.
  - destruct P as (_ & ha' & _ & [(_ & _ & _ & _ & Hn) | (sd0 & _ & _ & X)]); [exfalso; apply (Hn e sd Hin) |].
    apply X in Hin, Hin'. destruct Hin, Hin'. congruence.
Qed.

(** The sampler that decides on a span is AlwaysSample or NeverSample, given in the call or,
    for a span without parent or with a remote one, as the default one: then it is sampled
    for sure, or it is not and no exporter ever gets it. *)
Definition decided_by (smp : sampler) (h1 : hist) (c : creation) : Prop :=
  opt_sampler (c_opts c) = Some smp \/
  (opt_sampler (c_opts c) = None /\ (c_par c = PNone \/ c_remote c = true) /\ sampler_after h1 = smp).

Lemma decided_sampled en h w i h1 c smp b : trun en h w -> created h i h1 c -> decided_by smp h1 c -> (forall p, smp p = b) ->
  exists s, span_at w i = Some s /\ is_sampled (s_context s) = b.
Proof.
  intros H Hc [Ho|(Ho & Hp & E)] Hb.
  - destruct (C28_own_sampler _ _ _ _ _ _ _ H Hc Ho) as (s & parent & A & _ & B). exists s. now rewrite B.
  - destruct (C28_default_sampler _ _ _ _ _ _ H Hc Ho Hp) as (s & parent & A & _ & B). exists s. now rewrite B, E.
Qed.

Theorem C28_always en h w i h1 c : trun en h w -> created h i h1 c -> decided_by always_sample h1 c ->
  exists s, span_at w i = Some s /\ is_sampled (s_context s) = true.
Proof. intros H Hc Hd. now apply (decided_sampled _ _ _ _ _ _ _ _ H Hc Hd). Qed.

Theorem C28_never en h w i h1 c : trun en h w -> created h i h1 c -> decided_by never_sample h1 c ->
  (exists s, span_at w i = Some s /\ is_sampled (s_context s) = false) /\ forall e sd, ~ In (e, i, sd) (w_exports w).
Proof.
  intros H Hc Hd. destruct (decided_sampled _ _ _ _ _ _ _ false H Hc Hd ltac:(reflexivity)) as (s & A & B). split; [eauto|].
  intros e sd Hin. destruct (C30_only_registered _ _ _ _ _ _ H Hin) as ((s' & A' & B') & _). rewrite A in A'. injection A' as <-. congruence.
Qed.

(** End has been called on span [i] and a call has returned: then every exporter
    registered when End was first called has got the span, if it is sampled; and no
    other. *)
Definition end_returned (w : world) (i : nat) : Prop := exists s, span_at w i = Some s /\ s_rec s <> None /\ s_phase s = Ended.

Theorem C30_exported_once en h w i : trun en h w -> end_returned w i ->
  exists s ha, span_at w i = Some s /\ first_end h i ha /\
    forall e, (exists sd, In (e, i, sd) (w_exports w)) <-> is_sampled (s_context s) = true /\ registered ha e = true.
Proof.
  intros H (s & Hs & Hr & Hp). destruct (span_created _ _ _ _ _ H Hs) as (h1 & c & Hc).
  destruct (created_body _ _ _ _ _ _ H Hc) as (s' & parent & A & B & C & D). rewrite Hs in A. injection A as <-.
  unfold body_ok in D. destruct (s_rec s) as [r|]; [| contradiction]. destruct D as (_ & _ & _ & _ & D). rewrite Hp in D. cbn [phase_ok] in D.
  destruct D as (_ & ha & F & D). exists s, ha. split; [exact Hs |]. split; [exact F |]. intros e.
  destruct D as [(_ & Hm & _ & _ & Hn) | (sd & _ & _ & X)].
  - split; [intros (sd & Hin); exfalso; apply (Hn e sd Hin) | intros Hx; exfalso; apply (Hm e Hx)].
  - split; [intros (sd' & Hin); apply X in Hin; apply Hin |]. intros Hx. exists sd. apply X. auto.
Qed.

(** Before End nothing is exported, and a span that is not sampled is never exported. *)
Theorem C30_nothing_else en h w i s : trun en h w -> span_at w i = Some s ->
  did (is_end i) h = [] \/ is_sampled (s_context s) = false -> forall e sd, ~ In (e, i, sd) (w_exports w).
Proof.
  intros H Hs Hcase e sd Hin. destruct (C30_only_registered _ _ _ _ _ _ H Hin) as ((s' & E & Hsm) & (ha & (F1 & out & hb & F2) & _) & _).
  rewrite Hs in E. injection E as <-. destruct Hcase as [He | He]; [| congruence].
  rewrite F2, did_app in He. apply app_eq_nil in He. destruct He as [_ He]. unfold did in He. cbn in He. rewrite Nat.eqb_refl in He. discriminate.
Qed.

(** A further End call waits for the first one, and then changes nothing. *)
Theorem C30_second_end en h w i : trun en h w -> (did (is_end i) h <> []) ->
  tdo w (TEnd (RSpan i)) = Blocked \/ (tdo w (TEnd (RSpan i)) = Done w [] /\ forall s, span_at w i = Some s -> s_rec s <> None -> end_returned w i).
Proof.
  intros H Hne. cbn [tdo]. destruct (span_at w i) as [s|] eqn:Es; [| auto].
  destruct (span_created _ _ _ _ _ H Es) as (h1 & c & Hc).
  destruct (created_body _ _ _ _ _ _ H Hc) as (s' & parent & A & B & C & D). rewrite Es in A. injection A as <-.
  unfold body_ok in D. destruct (s_rec s) as [r|] eqn:Er.
  - destruct D as (_ & _ & _ & _ & D). destruct (s_phase s) eqn:Ep; cbn [phase_ok] in D; auto.
    + exfalso. apply Hne, D.
    + right. split; [reflexivity |]. intros s0 Hs0 _. exists s. split; [exact Es |]. split; [congruence | exact Ep].
  - right. split; [reflexivity |]. intros s0 Hs0 Hr. injection Hs0 as <-. contradiction.
Qed.

Lemma filter_all {A} (p : A -> bool) l : (forall x, In x l -> p x = true) -> filter p l = l.
Proof.
  induction l as [|x l IH]; intros H; cbn [filter]; [reflexivity |]. rewrite (H x (or_introl eq_refl)). f_equal. apply IH. intros y Hy. apply H. right. exact Hy.
Qed.

(** The call of End that got in can always go on, whatever the others do: some step of
    it is possible, and there are at most 3 + (number of exporters) of them. *)
Definition end_steps (i : nat) (op : top) : bool :=
  match op with TSnap j _ _ | TFinished j | TExport j _ | TEndDone j => j =? i | _ => false end.
Definition end_left (p : phase) : nat :=
  match p with
  | Ending exps => 3 + length exps
  | Storing _ exps => 2 + length exps
  | Exporting _ exps => 1 + length exps
  | _ => 0
  end.
Definition left_at (w : world) (i : nat) : nat := match span_at w i with Some s => end_left (s_phase s) | None => 0 end.

Theorem C30_end_progress en h w i : trun en h w -> left_at w i <> 0 -> forall o now,
  exists op w' out, end_steps i op = true /\ (op = TSnap i o now \/ forall o' now', op <> TSnap i o' now') /\
    tdo w op = Done w' out /\ S (left_at w' i) = left_at w i /\ (left_at w' i = 0 -> end_returned w' i).
Proof.
  intros H Hl o now. unfold left_at in *. destruct (span_at w i) as [s|] eqn:Es; [| contradiction].
  destruct (span_created _ _ _ _ _ H Es) as (h1 & c & Hc).
  destruct (created_body _ _ _ _ _ _ H Hc) as (s' & parent & A & B & C & D). rewrite Es in A. injection A as <-.
  destruct s as [sc rec st ph]. unfold body_ok in D. cbn [s_rec s_context s_store s_phase] in D.
  destruct rec as [r|]; [| destruct D as (_ & _ & _ & -> & _); cbn in Hl; contradiction].
  destruct D as (D1 & D2 & D3 & D4 & D5). cbn [s_phase] in Hl.
  assert (Hat : forall s1, nth_error (upd (w_spans w) i (fun _ => s1)) i = Some s1) by (intros s1; rewrite nth_upd, Nat.eqb_refl, Es; reflexivity).
  destruct ph as [| | exps | sd exps | sd [|e exps] |]; cbn [end_left] in Hl; try contradiction.
  - exists (TSnap i o now). cbn [tdo]. rewrite Es. destruct (make_span_data o r) as [sd r'].
    eexists _, _. split; [cbn; apply Nat.eqb_refl |]. split; [auto |]. split; [reflexivity |]. cbn [w_spans set_span]. rewrite Hat.
    split; [reflexivity | discriminate].
  - exists (TFinished i). cbn [tdo]. rewrite Es. destruct st as [name|].
    + assert (Hen : en = true /\ name = c_name c) by (destruct en; [injection D2 as ->; auto | discriminate]).
      destruct Hen as [-> ->].
      assert (Hki : skey (w_spans w) i = Some (c_name c)) by (unfold skey; rewrite Es; reflexivity).
      pose proof (ti_stores _ _ _ (TI_run _ _ _ H) (c_name c)) as Hst0. unfold get_store.
      destruct (mget bytes_eqb (w_stores w) (c_name c)) as [s0|]; [| destruct Hst0 as [_ X]; exfalso; apply (X i Hki)].
      destruct Hst0 as (B1 & _). destruct (srep_finished s0 _ i sd B1) as (s1 & F1 & _). rewrite F1.
      eexists _, _. split; [cbn; apply Nat.eqb_refl |]. split; [right; discriminate |]. split; [reflexivity |]. cbn [w_spans set_span set_stores]. rewrite Hat.
      split; [reflexivity | discriminate].
    + eexists _, _. split; [cbn; apply Nat.eqb_refl |]. split; [right; discriminate |]. split; [reflexivity |]. cbn [w_spans set_span]. rewrite Hat.
      split; [reflexivity | discriminate].
  - exists (TEndDone i). cbn [tdo]. rewrite Es. eexists _, _. split; [cbn; apply Nat.eqb_refl |]. split; [right; discriminate |].
    split; [reflexivity |]. cbn [w_spans set_span]. rewrite Hat. split; [reflexivity |]. intros _. eexists. split; [apply Hat |].
    split; [discriminate | reflexivity].
  - exists (TExport i e). cbn [tdo]. rewrite Es. cbn [existsb]. rewrite Nat.eqb_refl. cbn [orb].
    eexists _, _. split; [cbn; apply Nat.eqb_refl |]. split; [right; discriminate |]. split; [reflexivity |]. cbn [w_spans set_span]. rewrite Hat.
    split; [| discriminate]. cbn [s_phase end_left filter]. rewrite Nat.eqb_refl. cbn [negb].
    cbn [phase_ok] in D5. destruct D5 as (_ & (ha & _ & Hnd & _) & _). inversion Hnd as [|? ? Hni Hnd']; subst.
    rewrite filter_all; [reflexivity |]. intros x Hx. destruct (Nat.eqb_spec x e); [subst; contradiction | reflexivity].
Qed.

(** ** C31, C32, C33: what is exported *)

(** The data [sd] describes span [i] as it was when its data was completed, [hs] being
    what had happened so far. *)
Definition describes (h : hist) (w : world) (i : nat) (h1 : hist) (c : creation) (hs : hist) (sd : sdata) : Prop :=
  exists s parent, span_at w i = Some s /\ created h i h1 c /\ parent_of w (c_par c) = Some parent /\ completed h i hs (sd_end sd) /\
    sd_ok h1 c parent (s_context s) (upds hs i) (kids_begun hs i) (sd_end sd) sd.

Lemma exported_describes en h w e i sd : trun en h w -> In (e, i, sd) (w_exports w) ->
  exists h1 c hs, describes h w i h1 c hs sd /\
    (did (is_report (c_name c)) (since h1 hs) = [] -> attrs_exact (Z.to_nat (limit_after ca_attrs 32 h1)) (upds hs i) sd).
Proof.
  intros H Hin. destruct (exported_body _ _ _ _ _ _ H Hin) as (s & h1 & c & parent & r & A & B & C & _ & _ & _ & (hs & now & D1 & D2 & Hd & Hx) & _).
  exists h1, c, hs. split; [| exact Hx]. exists s, parent. rewrite (sk_end _ _ _ _ _ _ _ _ Hd). auto.
Qed.

(** The last annotations, message events and links, in the order in which they were
    recorded, and how many are missing.  The limits are those in force when the span
    was started. *)
Theorem C31_newest_kept en h w e i sd : trun en h w -> In (e, i, sd) (w_exports w) ->
  exists h1 c hs, created h i h1 c /\ completed h i hs (sd_end sd) /\
    let la := limit_after ca_annots 32 h1 in
    let lm := limit_after ca_msgs 128 h1 in
    let ll := limit_after ca_links 32 h1 in
    (0 < la)%Z /\ (0 < lm)%Z /\ (0 < ll)%Z /\
    Forall2 annot_ok (lastn (Z.to_nat la) (annots (upds hs i))) (sd_annots sd) /\
    sd_dropped_annots sd = length (annots (upds hs i)) - Z.to_nat la /\
    sd_msgs sd = lastn (Z.to_nat lm) (msgs (upds hs i)) /\
    sd_dropped_msgs sd = length (msgs (upds hs i)) - Z.to_nat lm /\
    sd_links sd = lastn (Z.to_nat ll) (links (upds hs i)) /\
    sd_dropped_links sd = length (links (upds hs i)) - Z.to_nat ll.
Proof.
  intros H Hin. destruct (exported_describes _ _ _ _ _ _ H Hin) as (h1 & c & hs & (s & parent & A & B & C & D & E) & _).
  exists h1, c, hs. split; [exact B |]. split; [exact D |]. cbn zeta. split; [apply limit_pos; lia |]. split; [apply limit_pos; lia |].
  split; [apply limit_pos; lia |]. destruct E. auto 10.
Qed.

(** Each exported attribute has the last value set for its key; as many keys are kept
    as were set, up to the limit; if all fit nothing is counted as dropped. *)
Theorem C32_last_write en h w e i sd : trun en h w -> In (e, i, sd) (w_exports w) ->
  exists h1 c hs, created h i h1 c /\ completed h i hs (sd_end sd) /\
    let n := Z.to_nat (limit_after ca_attrs 32 h1) in
    let l := sets (upds hs i) in
    0 < n /\ mwf (sd_attrs sd) /\
    (forall k v, mget bytes_eqb (sd_attrs sd) k = Some v -> last_val k l = Some v) /\
    length (sd_attrs sd) = min n (length (recent l)) /\
    (length (recent l) <= n -> sd_dropped_attrs sd = 0 /\ forall k, mget bytes_eqb (sd_attrs sd) k = last_val k l) /\
    (did (is_report (c_name c)) (since h1 hs) = [] ->
       (forall k v, mget bytes_eqb (sd_attrs sd) k = Some v <-> In k (firstn n (recent l)) /\ last_val k l = Some v) /\
       sd_dropped_attrs sd = evictions n l).
Proof.
  intros H Hin. destruct (exported_describes _ _ _ _ _ _ H Hin) as (h1 & c & hs & (s & parent & A & B & C & D & E) & X).
  exists h1, c, hs. split; [exact B |]. split; [exact D |]. cbn zeta.
  pose proof (limit_pos ca_attrs 32 h1 ltac:(lia)) as Hp. split; [lia |].
  split; [apply E |]. split; [apply E |]. split; [apply E |]. split; [| exact X].
  intros Hfit. split; [apply E; exact Hfit |].
  pose proof (sk_attrs_count _ _ _ _ _ _ _ _ E) as Hc. rewrite Nat.min_r in Hc by exact Hfit.
  intros k. destruct (mget bytes_eqb (sd_attrs sd) k) as [v|] eqn:Ek.
  - symmetry. apply (sk_attrs _ _ _ _ _ _ _ _ E). exact Ek.
  - destruct (last_val k (sets (upds hs i))) as [v|] eqn:El; [| reflexivity]. exfalso.
    assert (Hin2 : In k (recent (sets (upds hs i)))) by (apply last_val_recent; congruence).
    assert (Hincl : incl (mkeys (sd_attrs sd)) (recent (sets (upds hs i)))).
    { intros k0 Hk0. destruct (mget bytes_eqb (sd_attrs sd) k0) as [v0|] eqn:E0.
      - apply last_val_recent. rewrite (sk_attrs _ _ _ _ _ _ _ _ E k0 v0 E0). discriminate.
      - apply (mget_None bytes_eqb bytes_eqb_spec) in E0. contradiction. }
    assert (Hback : incl (recent (sets (upds hs i))) (mkeys (sd_attrs sd))).
    { apply NoDup_length_incl; [apply (sk_attrs_wf _ _ _ _ _ _ _ _ E) | unfold mkeys; rewrite map_length; lia | exact Hincl]. }
    apply Hback in Hin2. apply (mget_None bytes_eqb bytes_eqb_spec) in Ek. contradiction.
Qed.

(** The child count: StartSpan calls that had begun with this span as local parent when
    its data was completed, all of which but those still under way had made their span. *)
Theorem C33_children en h w e i sd : trun en h w -> In (e, i, sd) (w_exports w) ->
  exists hs ws, completed h i hs (sd_end sd) /\ trun en hs ws /\
    sd_children sd = kids_begun hs i /\
    kids_begun hs i = kids_made hs i + count_occ Nat.eq_dec (w_pending ws) i.
Proof.
  intros H Hin. destruct (exported_describes _ _ _ _ _ _ H Hin) as (h1 & c & hs & (s & parent & A & B & C & D & E) & X).
  destruct D as (o & out & hb & D). pose proof H as H'. rewrite D in H'.
  destruct (trun_mid _ _ _ _ _ _ H') as (w1 & w2 & H1 & _). exists hs, w1. split; [exists o, out, hb; exact D |]. split; [exact H1 |].
  split; [apply E |]. pose proof (ti_pending _ _ _ (TI_run _ _ _ H1) i). lia.
Qed.

(** ** C34 *)

(** A call on a nil span, or on one that records nothing. *)
Definition dead (w : world) (r : sref) : bool :=
  match r with
  | RNil => true
  | RNilInternal => false
  | RSpan i => match span_at w i with Some s => match s_rec s with None => true | _ => false end | None => false end
  end.
Definition on_dead (w : world) (op : top) : bool :=
  match op with TUpdate r _ | TEnd r => dead w r | _ => false end.

Theorem C34_inert w op : on_dead w op = true -> tdo w op = Done w [].
Proof.
  destruct op; cbn [on_dead tdo]; try discriminate; destruct r as [| |i]; cbn [dead]; try reflexivity; try discriminate;
    destruct (span_at w i) as [s|]; try discriminate; destruct (s_rec s); try discriminate; reflexivity.
Qed.

Theorem C34_not_recording w r : dead w r = true -> is_recording w r = Some false.
Proof.
  destruct r as [| |i]; cbn [dead is_recording]; try discriminate; [reflexivity |]. destruct (span_at w i) as [s|]; [| discriminate].
  destruct (s_rec s); [discriminate | reflexivity].
Qed.

(** A span that records nothing never starts to, so the calls on it can be left out of
    any program: the rest has the same results. *)
Theorem C34_removable : forall ops w h w', texec w ops = Some (h, w') ->
  texec w (filter (fun op => negb (on_dead w' op)) ops) = Some (filter (fun x => negb (on_dead w' (fst x))) h, w').
Proof.
  assert (Hkeep : forall ops w h w', texec w ops = Some (h, w') ->
            forall j t, span_at w j = Some t -> exists t', span_at w' j = Some t' /\ same_span t t').
  { induction ops as [|op ops IH]; intros w h w' H j t Hj; cbn [texec] in H.
    - injection H as <- <-. exists t. split; [exact Hj | apply same_refl].
    - destruct (tdo w op) as [w1 out | |] eqn:Ed; try discriminate. destruct (texec w1 ops) as [[h1 w2]|] eqn:Ee; [| discriminate].
      injection H as <- <-. destruct (step_same _ _ _ _ Ed j t Hj) as (t1 & H1 & A1 & A2 & A3).
      destruct (IH _ _ _ Ee j t1 H1) as (t2 & H2 & B1 & B2 & B3). exists t2. split; [exact H2 |]. split; [congruence |]. split; [tauto | congruence]. }
  induction ops as [|op ops IH]; intros w h w' H; cbn [texec] in H.
  - injection H as <- <-. reflexivity.
  - destruct (tdo w op) as [w1 out | |] eqn:Ed; try discriminate. destruct (texec w1 ops) as [[h1 w2]|] eqn:Ee; [| discriminate].
    injection H as <- <-. cbn [filter fst]. destruct (on_dead w2 op) eqn:Eo; cbn [negb].
    + assert (Ew : on_dead w op = true \/ exists i, span_at w i = None /\ (op = TEnd (RSpan i) \/ exists u, op = TUpdate (RSpan i) u)).
      { assert (Hr : forall r, dead w2 r = true -> dead w r = true \/ exists i, span_at w i = None /\ r = RSpan i).
        { intros r Hr. destruct r as [| |i]; cbn [dead] in *; auto. destruct (span_at w i) as [s|] eqn:Es; [| eauto]. left.
          destruct (step_same _ _ _ _ Ed i s Es) as (s1 & Hs1 & _ & A2 & _). destruct (Hkeep _ _ _ _ Ee i s1 Hs1) as (s2 & Hs2 & _ & B2 & _).
          rewrite Hs2 in Hr. destruct (s_rec s2); [discriminate |]. destruct (s_rec s); [| reflexivity].
          assert (E : s_rec s1 = None) by (apply B2; reflexivity). apply A2 in E. discriminate. }
        destruct op; cbn [on_dead] in Eo |- *; try discriminate; destruct (Hr _ Eo) as [E | (i & E1 & E2)]; auto; subst; right; exists i; eauto. }
      destruct Ew as [Ew | (i & E1 & [-> | (u & ->)])].
      * rewrite (C34_inert _ _ Ew) in Ed. injection Ed as <- <-. apply IH. exact Ee.
      * cbn [tdo] in Ed. rewrite E1 in Ed. discriminate.
      * cbn [tdo] in Ed. rewrite E1 in Ed. discriminate.
    + cbn [texec]. rewrite Ed, (IH _ _ _ Ee). reflexivity.
Qed.

(** Nothing here panics, except calls on a Span made by trace.NewSpan(nil). *)
Theorem C34_no_panic en h w op : trun en h w -> tdo w op = Panicked -> op = TEnd RNilInternal \/ exists u, op = TUpdate RNilInternal u.
Proof.
  intros H Hp. pose proof (TI_run _ _ _ H) as I.
  destruct op as [i | p rm nm xs tid sid now | i | r u | r | i o now | i | i e | i | a | e | e | nm suc err | o nm | o nm co | nm lo hi];
    cbn [tdo] in Hp; try discriminate.
  - destruct (span_at w i) as [s|]; [| discriminate]. destruct (s_rec s); discriminate.
  - destruct (parent_context w p), (take_pending w p rm); discriminate.
  - destruct (span_at w i) as [[sc rc [n|] ph]|]; try discriminate. destruct ph; discriminate.
  - destruct r as [| | i]; [discriminate | eauto |]. exfalso. destruct (span_at w i) as [s|] eqn:Es; [| discriminate].
    destruct (s_rec s) as [rc|] eqn:Er; [| discriminate].
    destruct (ti_spans _ _ _ I i s Es) as (h1 & c & parent & _ & _ & _ & S4). unfold body_ok in S4. rewrite Er in S4.
    destruct S4 as (_ & _ & S & _). destruct (rec_ok_upd _ _ _ _ _ _ _ u S) as (r' & E & _). rewrite E in Hp. discriminate.
  - destruct r as [| | i]; [discriminate | auto |]. destruct (span_at w i) as [s|]; [| discriminate].
    destruct (s_rec s); [| discriminate]. destruct (s_phase s); try discriminate. destruct (_ || _); discriminate.
  - destruct (span_at w i) as [[sc [rc|] st ph]|]; try discriminate. destruct ph; try discriminate. destruct (make_span_data o rc); discriminate.
  - exfalso. destruct (span_at w i) as [[sc rc st ph]|] eqn:Es; try discriminate. destruct ph; try discriminate. destruct st as [nm|]; [| discriminate].
    unfold get_store in Hp. pose proof (ti_stores _ _ _ I nm) as Hst.
    assert (Hk : skey (w_spans w) i = Some nm) by (unfold skey; rewrite Es; reflexivity).
    destruct (mget bytes_eqb (w_stores w) nm) as [s0|]; [| destruct Hst as [_ X]; apply (X i Hk)].
    destruct Hst as (B1 & _). destruct (srep_finished s0 _ i sd B1) as (s1 & F1 & _). rewrite F1 in Hp. discriminate.
  - destruct (span_at w i) as [[sc rc st ph]|]; try discriminate. destruct ph; try discriminate. destruct (existsb _ _); discriminate.
  - destruct (span_at w i) as [[sc rc st ph]|]; try discriminate. destruct ph as [| | | |sd [|]|]; discriminate.
  - exfalso. pose proof (ti_stores _ _ _ I nm) as Hst. destruct (mget bytes_eqb (w_stores w) nm) as [s0|]; [| discriminate].
    destruct Hst as (B1 & _). destruct (srep_resize s0 _ (clamp_size suc) (clamp_size err) B1) as (s1 & F1 & _). rewrite F1 in Hp. discriminate.
  - exfalso. destruct (mget bytes_eqb (w_stores w) nm) as [st|] eqn:Eg; [| discriminate].
    destruct (active_list en h w o nm st I Eg) as [Hnd Hal].
    destruct (report_active_spec o (ord o _ (mkeys (st_active st))) (w_spans w)) as (out0 & spans' & R1 & _).
    { intros i Hi. apply Hal in Hi. destruct (skey_rec _ _ _ _ _ I Hi) as (s & r & _ & _ & _ & E1 & E2 & _). eauto. }
    { exact Hnd. }
    rewrite R1 in Hp. discriminate.
Qed.

(** The property fails for a Span without implementation: its methods panic. *)
Theorem C34_nil_internal_refuted w : tdo w (TEnd RNilInternal) = Panicked /\ is_recording w RNilInternal = None /\
  forall u, tdo w (TUpdate RNilInternal u) = Panicked.
Proof. repeat split. Qed.

(** ** C35 *)

(** The configuration in force is, for each setting, the last effective value given,
    or the default. *)
Theorem C35_config en h w : trun en h w ->
  cf_sampler (w_config w) = sampler_after h /\ cf_gen (w_config w) = gen_after h /\
  cf_annots (w_config w) = limit_after ca_annots 32 h /\ cf_msgs (w_config w) = limit_after ca_msgs 128 h /\
  cf_attrs (w_config w) = limit_after ca_attrs 32 h /\ cf_links (w_config w) = limit_after ca_links 32 h.
Proof. intros H. pose proof (ti_cfg _ _ _ (TI_run _ _ _ H)) as C. destruct C. auto 10. Qed.

Theorem C35_positive en h w : trun en h w ->
  (0 < cf_annots (w_config w))%Z /\ (0 < cf_msgs (w_config w))%Z /\ (0 < cf_attrs (w_config w))%Z /\ (0 < cf_links (w_config w))%Z.
Proof.
  intros H. destruct (C35_config _ _ _ H) as (_ & _ & -> & -> & -> & ->). repeat split; apply limit_pos; lia.
Qed.

(** ** C36 *)

(** The exporters are a set: those whose last call was a registration.  (That the
    calls may be taken as atomic is proved in ExporterProps.) *)
Theorem C36_registered en h w e : trun en h w -> In e (mkeys (w_exporters w)) <-> registered h e = true.
Proof. intros H. apply (TI_run _ _ _ H). Qed.

(** ** C39 *)

(** ReportActiveSpans lists each started, unfinished span of the name once, with what
    was recorded on it so far, and nothing else. *)
Theorem C39_active h w o name w' out : trun true h w -> tdo w (TReportActive o name) = Done w' out ->
  exists ids, NoDup ids /\ (forall i, In i ids <-> active h name i) /\
    Forall2 (fun i sd => exists s h1 c parent, span_at w i = Some s /\ created h i h1 c /\ parent_of w (c_par c) = Some parent /\
               sd_ok h1 c parent (s_context s) (upds h i) (kids_begun h i) zero_time sd) ids out.
Proof.
  intros H Hd. pose proof (TI_run _ _ _ H) as I.
  assert (Hact : forall i, skey (w_spans w) i = Some name <-> active h name i).
  { intros i. unfold active. split.
    - intros Hk. destruct (skey_rec _ _ _ _ _ I Hk) as (s & r & h1 & c & parent & E1 & E2 & S1 & E3 & _ & _ & _ & _ & _ & A5 & A6).
      split; [rewrite (name_is_created _ _ _ _ name S1), <- E3; apply bytes_eqb_refl |].
      destruct (s_phase s); try discriminate; cbn [phase_ok] in A5; decompose [and] A5; auto.
    - intros (Hn & Ha & Hf). unfold name_is in Hn. destruct (nth_error (creates h) i) as [c0|] eqn:Ec; [| discriminate].
      destruct (span_at w i) as [s|] eqn:Es.
      2:{ apply nth_error_None in Es. rewrite (ti_len _ _ _ I) in Es. apply nth_error_None in Es. congruence. }
      destruct (ti_spans _ _ _ I i s Es) as (h1 & c & parent & S1 & S2 & S3 & S4).
      assert (Hname : c_name c = name).
      { pose proof (name_is_created _ _ _ _ name S1) as E. unfold name_is in E. rewrite Ec, Hn in E. destruct (bytes_eqb_spec (c_name c) name); congruence. }
      unfold body_ok in S4. unfold skey. rewrite Es. destruct (s_rec s); [| destruct S4; discriminate].
      destruct S4 as (_ & A2 & _ & _ & A5). rewrite A2, Hname. destruct (s_phase s); cbn [phase_ok in_store] in *; auto.
      + destruct A5 as (_ & A5 & _). contradiction.
      + destruct A5 as (_ & _ & _ & A5). contradiction.
      + destruct A5 as (_ & ha & _ & [(A5 & _) | (sd & _ & A5 & _)]); [discriminate | contradiction]. }
  cbn [tdo] in Hd. destruct (mget bytes_eqb (w_stores w) name) as [st|] eqn:Eg.
  - destruct (active_list true h w o name st I Eg) as [Hnd Hal].
    destruct (report_active_spec o (ord o _ (mkeys (st_active st))) (w_spans w)) as (out0 & spans' & R1 & _ & _ & _ & R5).
    { intros i Hi. apply Hal in Hi. destruct (skey_rec _ _ _ _ _ I Hi) as (s & r & _ & _ & _ & E1 & E2 & _). eauto. }
    { exact Hnd. }
    rewrite R1 in Hd. injection Hd as <- <-. eexists. split; [exact Hnd |]. split; [intros i; rewrite Hal; apply Hact |].
    eapply Forall2_impl_in; [| exact R5]. cbn beta. intros i sd Hi (s & r & E1 & E2 & ->). apply Hal in Hi.
    destruct (skey_rec _ _ _ _ _ I Hi) as (s0 & r0 & h1 & c & parent & E1' & E2' & S1 & E3 & _ & S2 & S3 & A3 & _).
    rewrite E1 in E1'. injection E1' as <-. rewrite E2 in E2'. injection E2' as <-.
    exists s, h1, c, parent. do 3 (split; [assumption |]). destruct (make_span_data o r) as [sd r'] eqn:Em.
    apply (rec_ok_snap _ _ _ _ _ _ _ _ _ _ A3 Em).
  - injection Hd as <- <-. exists []. split; [constructor |]. split; [| constructor].
    intros i. split; [intros [] |]. intros Hi. apply Hact in Hi. pose proof (ti_stores _ _ _ I name) as Hst. rewrite Eg in Hst.
    destruct Hst as (_ & B). apply (B i Hi).
Qed.

(** A span finishes in the store of its name, and there it is offered to exactly one
    bucket: the one of its latency class if it succeeded, else the one of its code. *)
Theorem C39_one_bucket sd :
  (forall j, j <= 8 -> lat_events j [SFin sd] = [BOffer sd] \/ lat_events j [SFin sd] = []) /\
  (code_of sd = 0%Z -> lat_class sd <= 8 /\ (forall j, lat_events j [SFin sd] = [BOffer sd] <-> j = lat_class sd) /\
                       forall c, c <> 0%Z -> err_events c [SFin sd] = []) /\
  (code_of sd <> 0%Z -> (forall j, lat_events j [SFin sd] = []) /\
                        forall c, c <> 0%Z -> (err_events c [SFin sd] = [BOffer sd] <-> c = code_of sd) /\
                                              (c <> code_of sd -> err_events c [SFin sd] = [])).
Proof.
  unfold lat_events, err_events. cbn [flat_map]. split; [| split].
  - intros j _. destruct (_ && _); auto.
  - intros ->. split; [apply lat_class_le |]. split.
    + intros j. cbn [Z.eqb andb]. destruct (Nat.eqb_spec (lat_class sd) j) as [-> | Hne]; cbn; split; auto; try discriminate. intros ->. contradiction.
    + intros c Hc. replace (0 =? c)%Z with false by lia. reflexivity.
  - intros Hc. replace (code_of sd =? 0)%Z with false by lia. split; [reflexivity |]. intros c _.
    destruct (Z.eqb_spec (code_of sd) c) as [<- | Hne]; cbn; split; try tauto; try (split; [discriminate | intros ->; contradiction]).
Qed.

(** ** C40 *)

Lemma events_no_store en h w name : TI en h w -> mget bytes_eqb (w_stores w) name = None -> events name h = [].
Proof. intros H E. pose proof (ti_stores _ _ _ H name) as Hst. rewrite E in Hst. apply Hst. Qed.

(** ReportSpansByLatency: the stored successful spans with latency in the interval. *)
Theorem C40_by_latency en h w name lo hi w' out : trun en h w -> (0 <= hi)%Z -> tdo w (TReportLatency name lo hi) = Done w' out ->
  Permutation out (filter (lat_wanted lo hi) (stored_ok (events name h))).
Proof.
  intros H Hhi Hd. pose proof (TI_run _ _ _ H) as I. cbn [tdo] in Hd. injection Hd as <- <-.
  pose proof (ti_stores _ _ _ I name) as Hst. destruct (mget bytes_eqb (w_stores w) name) as [s|].
  - apply srep_by_latency; [apply Hst | exact Hhi].
  - destruct Hst as [-> _]. reflexivity.
Qed.

(** ReportSpansByError: the stored failed spans with the code, or all of them. *)
Theorem C40_by_error en h w o name code w' out : trun en h w -> code <> 0%Z -> tdo w (TReportErrors o name code) = Done w' out ->
  Permutation out (stored_err code (events name h)).
Proof.
  intros H Hc Hd. pose proof (TI_run _ _ _ H) as I. cbn [tdo] in Hd. injection Hd as <- <-.
  pose proof (ti_stores _ _ _ I name) as Hst. destruct (mget bytes_eqb (w_stores w) name) as [s|].
  - apply srep_by_error; [apply Hst | exact Hc].
  - destruct Hst as [-> _]. reflexivity.
Qed.

Theorem C40_all_errors en h w o name w' out : trun en h w -> tdo w (TReportErrors o name 0) = Done w' out ->
  exists codes, NoDup codes /\ (forall c, In c codes -> c <> 0%Z) /\
    (forall c, c <> 0%Z -> stored_err c (events name h) <> [] -> In c codes) /\
    Permutation out (flat_map (fun c => stored_err c (events name h)) codes).
Proof.
  intros H Hd. pose proof (TI_run _ _ _ H) as I. cbn [tdo] in Hd. injection Hd as <- <-.
  pose proof (ti_stores _ _ _ I name) as Hst. destruct (mget bytes_eqb (w_stores w) name) as [s|].
  - apply srep_all_errors. apply Hst.
  - destruct Hst as [-> _]. exists []. split; [constructor |]. split; [intros c [] |]. split; [intros c _ X; exfalso; apply X; reflexivity | constructor].
Qed.

(** Stored are only spans that were started under the name and have finished, with the
    data they finished with. *)
Theorem C40_stored_finished en h w name sd : trun en h w ->
  (In sd (stored_ok (events name h)) \/ exists c, In sd (stored_err c (events name h))) ->
  exists i h1 c hs, describes h w i h1 c hs sd /\ c_name c = name /\ In (TFinished i, [sd]) h.
Proof.
  intros H Hin. pose proof (TI_run _ _ _ H) as I.
  assert (Hev : In (SFin sd) (events name h)).
  { destruct Hin as [Hin | (c & Hin)].
    - unfold stored_ok in Hin. apply in_flat_map in Hin. destruct Hin as (j & _ & Hin). apply stored_lat_in in Hin. apply Hin.
    - apply stored_err_in in Hin. apply Hin. }
  unfold events, events_of in Hev. apply in_flat_map in Hev. destruct Hev as ([op out] & Hop & Hev).
  destruct op; try (destruct Hev; fail); try (destruct (bytes_eqb _ _) in Hev; [destruct Hev as [Hev | []]; discriminate | destruct Hev]).
  destruct out as [|sd0 [|]]; try (destruct Hev; fail). destruct (name_is (creates h) i name) eqn:En; [| destruct Hev].
  destruct Hev as [Hev | []]. injection Hev as ->.
  pose proof Hop as Hop2. apply in_split in Hop. destruct Hop as (ha & hb & E). pose proof H as H'. rewrite E in H'.
  destruct (trun_mid _ _ _ _ _ _ H') as (w1 & w2 & H1 & Hd & H2).
  cbn [tdo] in Hd. destruct (span_at w1 i) as [s1|] eqn:Es1; [| discriminate].
  destruct (ti_spans _ _ _ (TI_run _ _ _ H1) i s1 Es1) as (h1 & c & parent & S1 & S2 & S3 & S4).
  destruct s1 as [sc rec st ph]. destruct ph as [| | | sd' exps | |]; try discriminate.
  assert (Hsd : sd' = sd).
  { destruct st as [nm|]; [| discriminate]. destruct (st_finished _ i sd'); [| discriminate]. congruence. }
  subst sd'. unfold body_ok in S4. cbn [s_rec s_context s_store s_phase] in *.
  destruct rec as [r|]; [| destruct S4 as (_ & _ & _ & X & _); discriminate].
  destruct S4 as (_ & _ & _ & _ & (_ & _ & (hs & now & D1 & D2 & Hd2 & _) & _)).
  rewrite E in H. destruct (run_same en ha w1 H1 _ w H i _ Es1) as (s2 & Hs2 & A1 & _ & _). cbn in A1.
  exists i, h1, c, hs. split; [| split].
  - exists s2, parent. split; [exact Hs2 |]. rewrite E. split; [apply created_app; exact S1 |]. split.
    + assert (Hm : ctx_mono w1 w).
      { intros j t Hj. destruct (run_same en ha w1 H1 _ w H j t Hj) as (t' & Ht' & A & _). eauto. }
      eapply parent_mono; [exact Hm | exact S2].
    + rewrite (sk_end _ _ _ _ _ _ _ _ Hd2). split; [apply completed_app; exact D1 |]. rewrite A1.
      exact Hd2.
  - assert (S1' : created h i h1 c) by (rewrite E; apply created_app; exact S1).
    rewrite (name_is_created _ _ _ _ name S1') in En. destruct (bytes_eqb_spec (c_name c) name); congruence.
  - exact Hop2.
Qed.

(** ** Examples and findings *)

Lemma trun_exec en ops : forall h0 w h w', trun en h0 w -> texec w ops = Some (h, w') -> trun en (h0 ++ h) w'.
Proof.
  induction ops as [|op ops IH]; intros h0 w h w' H E; cbn [texec] in E.
  - injection E as <- <-. rewrite app_nil_r. exact H.
  - destruct (tdo w op) as [w1 out | |] eqn:Ed; try discriminate. destruct (texec w1 ops) as [[h1 w2]|] eqn:Ee; [| discriminate].
    injection E as <- <-. change ((op, out) :: h1) with ([(op, out)] ++ h1). rewrite app_assoc. apply (IH _ w1); [| exact Ee].
    eapply trun_snoc; eauto.
Qed.

Definition ex_id (n : nat) (b : Coq.Init.Byte.byte) : bytes := repeat x00 (n - 1) ++ [b].
Definition ex_root : top := TCreate PNone false (bs "root") [WithSampler (Some always_sample)] (ex_id 16 x01) (ex_id 8 x02) 100.
Definition ex_kid : top := TCreate (PSpan 0) false (bs "kid") [] (ex_id 16 x09) (ex_id 8 x03) 200.

(** Two exporters, a root and a child with the span store on; one exporter leaves
    between the two ends; End is called again. *)
Definition ex_ops : list top :=
  [TRegister 7; TRegister 8; ex_root; TStoreAdd 0; TUpdate (RSpan 0) (USetAttrs [(bs "a", AvInt 1); (bs "a", AvInt 2)]);
   TAddChild 0; ex_kid; TStoreAdd 1; TUpdate (RSpan 1) (UAnnotate 250 [] (bs "note")); TUpdate (RSpan 1) (USetStatus 5 (bs "bad"));
   TEnd (RSpan 1); TUnregister 8; TSnap 1 id_order 300; TFinished 1; TExport 1 8; TExport 1 7; TEndDone 1; TEnd (RSpan 1);
   TUpdate RNil (USetName (bs "none")); TEnd (RSpan 0); TSnap 0 id_order 5000; TFinished 0; TExport 0 7; TEndDone 0].

Definition ex_view (sd : sdata) : bytes * bytes * bytes * Z * Z * nat :=
  (sc_trace_id (sd_context sd), sc_span_id (sd_context sd), sd_parent sd, sd_start sd, sd_end sd, sd_children sd).

Definition ended_at (w : world) (i : nat) : bool :=
  match span_at w i with Some (MkSpan _ (Some _) _ Ended) => true | _ => false end.

Example ex_history :
  match texec (init_world true) ex_ops with
  | Some (h, w) =>
      map fst (w_exports w) = [(8, 1); (7, 1); (7, 0)] /\
      map (fun x => ex_view (snd x)) (w_exports w) =
        [(ex_id 16 x01, ex_id 8 x03, ex_id 8 x02, 200%Z, 300%Z, 0); (ex_id 16 x01, ex_id 8 x03, ex_id 8 x02, 200%Z, 300%Z, 0);
         (ex_id 16 x01, ex_id 8 x02, zero_span_id, 100%Z, 5000%Z, 1)] /\
      map (fun x => sd_attrs (snd x)) (w_exports w) = [[]; []; [(bs "a", AvInt 2)]] /\
      ended_at w 0 = true /\ ended_at w 1 = true /\
      length (stored_err 5 (events (bs "kid") h)) = 1 /\ length (stored_ok (events (bs "root") h)) = 1
  | None => False
  end.
Proof. vm_compute. auto 10. Qed.

(** A span whose sampler is NeverSample, given or by default, ends and is not exported. *)
Definition ex_never : list top :=
  [TRegister 7; TCreate PNone false (bs "a") [WithSampler (Some never_sample)] (ex_id 16 x01) (ex_id 8 x02) 100; TEnd (RSpan 0);
   TApplyConfig (MkCA (Some never_sample) None 0 0 0 0); TCreate PNone false (bs "b") [] (ex_id 16 x03) (ex_id 8 x04) 200;
   TCreate PNone false (bs "c") [WithSampler (Some always_sample)] (ex_id 16 x05) (ex_id 8 x06) 300; TEnd (RSpan 2); TSnap 2 id_order 400; TFinished 2; TExport 2 7; TEndDone 2].
Example ex_never_run :
  match texec (init_world false) ex_never with
  | Some (h, w) => map fst (w_exports w) = [(7, 2)]
  | None => False
  end.
Proof. vm_compute. reflexivity. Qed.
Example ex_never_decided h1 : sampler_after (h1 ++ [(TApplyConfig (MkCA (Some never_sample) None 0 0 0 0), [])]) = never_sample.
Proof. unfold sampler_after. rewrite configs_app, map_app, given_app. cbn. apply last_last. Qed.

(** The premises of C27, C28 and C39 in that history. *)
Example ex_created : exists h w, trun true h w /\ descends h 0 1 /\ active h (bs "root") 0 /\ did (is_end 1) h <> [] /\
  (forall c, In c (creates h) -> c_sid c <> zero_span_id).
Proof.
  destruct (texec (init_world true) (firstn 18 ex_ops)) as [[h w]|] eqn:E.
  2:{ exfalso. apply (f_equal (fun x => match x with Some _ => true | None => false end)) in E. vm_compute in E. discriminate. }
  exists h, w. split; [apply (trun_exec true _ [] _ h w (trun_nil true) E) |].
  assert (Hf : map fst h = firstn 18 ex_ops).
  { clear - E. revert h w E. generalize (init_world true). induction (firstn 18 ex_ops) as [|op l IH]; intros w0 h w E; cbn [texec] in E.
    - injection E as <- <-. reflexivity.
    - destruct (tdo w0 op) as [w1 out | |]; try discriminate. destruct (texec w1 l) as [[h1 w2]|] eqn:Ee; [| discriminate].
      injection E as <- <-. cbn [map fst]. f_equal. eapply IH. exact Ee. }
  clear E. cbn [firstn ex_ops] in Hf.
  do 18 (destruct h as [|[? ?] h]; [discriminate | cbn [map fst] in Hf; injection Hf as -> Hf]). destruct h; [| discriminate]. clear Hf.
  split.
  - eapply (desc_child _ 0 1 0 _ (MkC (PSpan 0) false (bs "kid") [] (ex_id 16 x09) (ex_id 8 x03) 200)); [constructor | | reflexivity].
    exists l5. eexists. split; [| ].
    + match goal with |- ?a :: ?b :: ?c :: ?d :: ?e :: ?f :: ?g :: ?r = _ => exact (eq_refl ([a; b; c; d; e; f] ++ g :: r)) end.
    + reflexivity.
  - split; [split; [vm_compute; reflexivity | split; [vm_compute; discriminate | vm_compute; reflexivity]] |].
    split; [vm_compute; discriminate |]. cbn [creates flat_map fst app ex_root ex_kid].
    intros c [<- | [<- | []]]; vm_compute; discriminate.
Qed.

(** Finding: a parent context with a zero trace ID is a parent if anything else in it
    is not zero, so the child gets a zero trace ID although a fresh one was drawn. *)
Theorem C27_zero_trace_refuted :
  match texec (init_world false) [TCreate (PCtx (MkSC zero_trace_id (ex_id 8 x05) 0 None)) true (bs "n") [] (ex_id 16 x01) (ex_id 8 x02) 0] with
  | Some (h, w) => option_map (fun s => sc_trace_id (s_context s)) (span_at w 0) = Some zero_trace_id
  | None => False
  end.
Proof. vm_compute. reflexivity. Qed.

Definition rev_order : order := MkOrder (fun _ l => rev l) (fun A l => Permutation_sym (Permutation_rev l)).

(** Finding: reading the active spans changes which attribute is dropped next.  With
    room for two, [a], [b], a report, then [c]: exported are [a] and [c], not the most
    recently set [b] and [c]. *)
Theorem C32_report_reorders_refuted :
  match texec (init_world true)
    [TApplyConfig (MkCA None None 0 0 2 0); TRegister 7; ex_root; TStoreAdd 0; TUpdate (RSpan 0) (USetAttrs [(bs "a", AvInt 1)]);
     TUpdate (RSpan 0) (USetAttrs [(bs "b", AvInt 2)]); TReportActive rev_order (bs "root"); TUpdate (RSpan 0) (USetAttrs [(bs "c", AvInt 3)]);
     TEnd (RSpan 0); TSnap 0 id_order 500; TFinished 0; TExport 0 7; TEndDone 0] with
  | Some (h, w) =>
      firstn 2 (recent (sets (upds h 0))) = [bs "c"; bs "b"] /\
      map (fun x => (mget bytes_eqb (sd_attrs (snd x)) (bs "a"), mget bytes_eqb (sd_attrs (snd x)) (bs "b"))) (w_exports w) =
        [(Some (AvInt 1), None)]
  | None => False
  end.
Proof. vm_compute. auto. Qed.

(** Finding: SetName does not move a span to another store, so a report about one name
    returns spans with another. *)
Theorem C40_renamed_refuted :
  match texec (init_world true)
    [ex_root; TStoreAdd 0; TUpdate (RSpan 0) (USetName (bs "other")); TEnd (RSpan 0); TSnap 0 id_order 500; TFinished 0;
     TReportLatency (bs "root") 0 0; TReportLatency (bs "other") 0 0] with
  | Some (h, w) => map (fun x => map sd_name (snd x)) (skipn 6 h) = [[bs "other"]; []]
  | None => False
  end.
Proof. vm_compute. reflexivity. Qed.

Print Assumptions C27_identity.
Print Assumptions C27_context_constant.
Print Assumptions C27_exported.
Print Assumptions C27_one_trace.
Print Assumptions C28_decision.
Print Assumptions C28_inherited.
Print Assumptions C28_own_sampler.
Print Assumptions C28_default_sampler.
Print Assumptions C28_always.
Print Assumptions C28_never.
Print Assumptions C30_at_most_once.
Print Assumptions C30_only_registered.
Print Assumptions C30_exported_once.
Print Assumptions C30_nothing_else.
Print Assumptions C30_second_end.
Print Assumptions C30_end_progress.
Print Assumptions C31_newest_kept.
Print Assumptions C32_last_write.
Print Assumptions C33_children.
Print Assumptions C34_inert.
Print Assumptions C34_removable.
Print Assumptions C34_no_panic.
Print Assumptions C35_config.
Print Assumptions C35_positive.
Print Assumptions C36_registered.
Print Assumptions C39_active.
Print Assumptions C39_one_bucket.
Print Assumptions C40_by_latency.
Print Assumptions C40_by_error.
Print Assumptions C40_all_errors.
Print Assumptions C40_stored_finished.
