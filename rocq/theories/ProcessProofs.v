(** Proofs about processes that record and view. *)

From Coq Require Import List Arith NArith ZArith Bool Lia Permutation.
From Verif Require Import Base ListLib GoMap Float64 TagModel TagSpec TagProofs TagProps AggModel CollectorModel CollectorSpec
  CollectorProofs ViewModel WorkerModel WorkerSpec ViewProofs WorkerProofs RecordModel RecordProps ProcessModel ProcessSpec.
From Verif Require Import WorkerProps.
Import ListNotations.
Open Scope nat_scope.

(** ** Options *)

Lemma last_given_spec {A} (f : ropt -> option A) xs : forall a d,
  match fold_left (fun a x => match f x with Some v => Some v | None => a end) xs a with Some m => m | None => d end =
  fold_left (fun a x => match f x with Some v => v | None => a end) xs (match a with Some m => m | None => d end).
Proof.
  induction xs as [|x xs IH]; intros a d; [reflexivity|]. cbn [fold_left]. rewrite IH. destruct (f x); reflexivity.
Qed.

Lemma fold_ext {A B} (f g : A -> B -> A) l : (forall a b, f a b = g a b) -> forall a, fold_left f l a = fold_left g l a.
Proof. intros H. induction l as [|x l IH]; intros a; [reflexivity|]. cbn. now rewrite H, IH. Qed.

Lemma given_ms_opt xs : given_ms xs = opt_ms xs.
Proof. unfold given_ms, last_given. rewrite last_given_spec. apply fold_ext. intros a []; reflexivity. Qed.
Lemma given_tags_opt xs : given_tags xs = opt_mut xs.
Proof. unfold given_tags, last_given. rewrite last_given_spec. apply fold_ext. intros a []; reflexivity. Qed.
Lemma given_att_opt xs : given_att xs = opt_att xs.
Proof. unfold given_att, last_given. rewrite last_given_spec. apply fold_ext. intros a []; reflexivity. Qed.
Lemma given_rec_opt xs : match given_rec xs with Some r => r | None => default_recorder end = opt_rec xs.
Proof.
  unfold given_rec, last_given, opt_rec. rewrite last_given_spec.
  match goal with |- match ?a with _ => _ end = match ?b with _ => _ end => replace b with a; [reflexivity|] end.
  apply fold_ext. intros a []; reflexivity.
Qed.

Lemma opt_in {A} (f : ropt -> option (list A)) xs : forall a x,
  In x (fold_left (fun a x => match f x with Some m => m | None => a end) xs a) ->
  In x a \/ exists y l, In y xs /\ f y = Some l /\ In x l.
Proof.
  induction xs as [|y xs IH]; intros a x H; [now left|]. cbn [fold_left] in H. apply IH in H. destruct H as [H|(z & l & Hz & E & Hl)].
  - destruct (f y) as [l|] eqn:E; [right; exists y, l; split; [now left|auto]|now left].
  - right. exists z, l. split; [now right|auto].
Qed.

Lemma opt_ms_in xs x : In x (opt_ms xs) -> exists ms, In (WithMeasurements ms) xs /\ In x ms.
Proof.
  intros H. unfold opt_ms in H. rewrite (fold_ext _ (fun a x => match (match x with WithMeasurements m => Some m | _ => None end) with Some m => m | None => a end)) in H by (intros a []; reflexivity).
  apply opt_in in H. destruct H as [[]|(y & l & Hy & E & Hl)]. destruct y; try discriminate. injection E as ->. eauto.
Qed.
Lemma opt_mut_in xs x : In x (opt_mut xs) -> exists ms, In (WithTags ms) xs /\ In x ms.
Proof.
  intros H. unfold opt_mut in H. rewrite (fold_ext _ (fun a x => match (match x with WithTags m => Some m | _ => None end) with Some m => m | None => a end)) in H by (intros a []; reflexivity).
  apply opt_in in H. destruct H as [[]|(y & l & Hy & E & Hl)]. destruct y; try discriminate. injection E as ->. eauto.
Qed.

(** ** Legal values *)

Lemma legal_spec v : legal v = true <-> valid_value v.
Proof.
  unfold legal, valid_value. rewrite andb_true_iff, Nat.leb_le, forallb_forall, Forall_forall. unfold TagSpec.printable.
  split; intros [H1 H2]; (split; [exact H1|]); intros b Hb; specialize (H2 b Hb).
  - apply andb_true_iff in H2. destruct H2 as [H2 H3]. apply N.leb_le in H2, H3. auto.
  - apply andb_true_iff. split; apply N.leb_le; tauto.
Qed.

Lemma legal_mutator_spec mu : legal_mutator mu = true <-> mutator_ok mu.
Proof. destruct mu; cbn [legal_mutator mutator_ok]; try apply legal_spec. tauto. Qed.

Lemma legal_mutators_spec mus :
  (forallb legal_mutator mus = true -> forall mu, In mu mus -> mutator_ok mu) /\
  (forallb legal_mutator mus = false -> exists mu, In mu mus /\ ~ mutator_ok mu).
Proof.
  split.
  - intros H mu Hin. rewrite forallb_forall in H. apply legal_mutator_spec. auto.
  - intros H. induction mus as [|mu mus IH]; [discriminate|]. cbn in H. apply andb_false_iff in H. destruct H as [H|H].
    + exists mu. split; [now left|]. intros Hok. apply legal_mutator_spec in Hok. congruence.
    + destruct (IH H) as (mu' & Hin & Hn). exists mu'. split; [now right|exact Hn].
Qed.

(** ** Tags *)

Lemma tags_shown_ext keys f g : (forall k, In k keys -> f k = g k) -> tags_shown keys f = tags_shown keys g.
Proof.
  unfold tags_shown. induction keys as [|k keys IH]; intros H; [reflexivity|]. cbn [flat_map].
  rewrite (H k (or_introl eq_refl)), IH; [reflexivity|]. intros k' Hk. apply H. now right.
Qed.

Lemma row_tags_shown keys tm :
  row_tags keys tm = tags_shown keys (match tm with Some m => as_fun m | None => fempty end).
Proof.
  unfold row_tags, tags_shown. induction keys as [|k keys IH]; [reflexivity|]. cbn [flat_map]. rewrite IH. f_equal.
  unfold value_of. destruct tm as [m|]; [|reflexivity]. unfold as_fun. destruct (tget m k) as [c|]; reflexivity.
Qed.

(** ** The invariant *)

Definition tags_inv (ts : tag_state) : Prop :=
  exists cs, tag_reach valid_key (TagState (st_heap ts) cs) /\ incl (st_ctxs ts) cs.

Record pinv (u : uworld) (h : list cmd) (p : proc) : Prop := {
  pi_run : wrun u h (pc_worker p);
  pi_ok : Forall (cmd_ok u) h;
  pi_tags : tags_inv (pc_tags p) }.

Lemma pinv_init u : pinv u [] (proc_init u).
Proof.
  split; [constructor|constructor|]. exists [None]. split; [constructor|]. apply incl_refl.
Qed.

Lemma ctx_index (cs : list ctx) c : In c (None :: cs) -> exists i, nth i cs None = c.
Proof.
  intros [<-|H].
  - exists (length cs). apply nth_overflow. apply Nat.le_refl.
  - destruct (In_nth cs c None H) as (i & _ & E). exists i. exact E.
Qed.

Lemma tags_inv_ctx ts c : tags_inv ts -> In c (None :: st_ctxs ts) ->
  exists cs i, tag_reach valid_key (TagState (st_heap ts) cs) /\ incl (st_ctxs ts) cs /\ nth i cs None = c.
Proof.
  intros (cs & Hr & Hi) Hc. destruct (ctx_index cs c) as (i & E); [destruct Hc as [Hc|Hc]; [now left|right; auto]|]. eauto 8.
Qed.

(** The heap only grows. *)
Definition extends (h h' : heap) : Prop :=
  length h <= length h' /\ forall p, p < length h -> heap_get h' p = heap_get h p.

Lemma extends_refl h : extends h h.
Proof. split; auto. Qed.
Lemma extends_trans a b c : extends a b -> extends b c -> extends a c.
Proof. intros [L1 E1] [L2 E2]. split; [lia|]. intros p Hp. rewrite E2 by lia. now apply E1. Qed.

Lemma ctx_in_heap ts c p : tags_inv ts -> In c (None :: st_ctxs ts) -> c = Some p -> p < length (st_heap ts).
Proof.
  intros (cs & Hr & Hi) [<-|Hc] E; [discriminate|]. destruct (reach_wf _ _ Hr) as [_ Hw].
  apply (Hw c p); [apply Hi; exact Hc|exact E].
Qed.

Lemma extends_ctx ts h' c : tags_inv ts -> In c (None :: st_ctxs ts) -> extends (st_heap ts) h' -> ctx_fun h' c = ctx_fun (st_heap ts) c.
Proof.
  intros Hi Hc [_ E]. unfold ctx_fun, ctx_map. destruct c as [p|]; [|reflexivity].
  rewrite E; [reflexivity|]. eapply ctx_in_heap; eauto.
Qed.

Lemma short_of_valid m : valid_tags m -> short_values (Some m).
Proof.
  intros H k. cbn [value_of]. destruct (tget m k) as [c|] eqn:E; [|cbn; lia]. cbn [fst].
  apply (mget_In bytes_eqb bytes_eqb_spec) in E. now destruct (H _ _ E) as [_ [? _]].
Qed.

Lemma short_none : short_values None.
Proof. intros k. cbn. lia. Qed.

Lemma tags_inv_short ts c : tags_inv ts -> In c (None :: st_ctxs ts) -> short_values (ctx_map (st_heap ts) c).
Proof.
  intros Hi Hc. destruct c as [p|]; [|apply short_none]. cbn [ctx_map]. apply short_of_valid.
  pose proof (ctx_in_heap ts (Some p) p Hi Hc eq_refl) as Hp. destruct Hi as (cs & Hr & _). apply (reach_valid _ Hr). exact Hp.
Qed.

(** ** Recording *)

(** Some view of the measure has been registered. *)
Definition viewed (u : uworld) (h : list cmd) (m : bytes) : Prop :=
  exists h1 h2 n e sv, h = h1 ++ h2 /\ s_state u h1 n = Some e /\ spec_view u (en_view e) = Some sv /\ me_name (sv_measure sv) = m.

Lemma viewed_more u h h' m : viewed u h m -> viewed u (h ++ h') m.
Proof.
  intros (h1 & h2 & n & e & sv & -> & H). exists h1, (h2 ++ h'), n, e, sv. split; [now rewrite app_assoc|exact H].
Qed.

Definition tagged (keys : list key) (l : list (option tmap * sample f64_num)) : list (list (key * bytes) * sample f64_num) :=
  map (fun ts => (row_tags keys (fst ts), snd ts)) l.

Lemma recorded_cmd m tm ms att now :
  recorded m [CmdRecord tm ms att now] =
  flat_map (fun x => match x with
                     | Some (me, v) => if bytes_eqb (me_name me) m then [(tm, @MkSample f64_num v att now)] else []
                     | None => [] end) ms.
Proof. unfold recorded. cbn [flat_map]. now rewrite app_nil_r. Qed.

Lemma tagged_recorded keys m tm ms att now tags : row_tags keys tm = tags ->
  tagged keys (recorded m [CmdRecord tm ms att now]) =
  flat_map (fun x => match x with
                     | Some (me, v) => if bytes_eqb (me_name me) m then [(tags, @MkSample f64_num v att now)] else []
                     | None => [] end) ms.
Proof.
  intros <-. rewrite recorded_cmd. unfold tagged. induction ms as [|[[me v]|] ms IH]; [reflexivity| |exact IH].
  cbn [flat_map]. rewrite map_app, IH. f_equal. destruct (bytes_eqb (me_name me) m); reflexivity.
Qed.

Lemma no_samples m (ms : list measurement) (att : attachments) (now : time) (tags : list (key * bytes)) :
  (forall me v, In (Some (me, v)) ms -> me_name me <> m) ->
  flat_map (fun x => match x with
                     | Some (me, v) => if bytes_eqb (me_name me) m then [(tags, @MkSample f64_num v att now)] else []
                     | None => [] end) ms = [].
Proof.
  induction ms as [|[[me v]|] ms IH]; intros H; [reflexivity| |].
  - cbn [flat_map]. destruct (bytes_eqb_spec (me_name me) m) as [E|_]; [exfalso; apply (H me v); [now left|exact E]|].
    apply IH. intros me' v' Hin. apply (H me' v'). now right.
  - cbn [flat_map]. apply IH. intros me' v' Hin. apply (H me' v'). now right.
Qed.

Lemma measured_dec m (ms : list measurement) :
  (exists me v, In (Some (me, v)) ms /\ me_name me = m) \/ (forall me v, In (Some (me, v)) ms -> me_name me <> m).
Proof.
  induction ms as [|x ms IH]; [right; intros me v []|].
  destruct IH as [(me & v & Hin & E)|H]; [left; exists me, v; split; [now right|exact E]|].
  destruct x as [[me v]|].
  - destruct (bytes_eqb_spec (me_name me) m) as [E|Ne]; [left; exists me, v; split; [now left|exact E]|].
    right. intros me' v' [[= <- <-]|Hin]; [exact Ne|]. eapply H; eauto.
  - right. intros me' v' [[=]|Hin]. eapply H; eauto.
Qed.

(** What RecordWithOptions does to the heap of tag maps. *)
Lemma record_heap subs h c it xs h' out :
  api_record_opts true subs h c it xs = (h', out) ->
  (h' = h /\ (forall e s, out = RecRet e (Some s) -> e = None /\ sn_tags s = ctx_map h c)) \/
  (exists c' e, tag_new h c it (opt_mut xs) = (h', c', e) /\
     forall e' s, out = RecRet e' (Some s) -> e = None /\ sn_tags s = ctx_map h' c').
Proof.
  unfold api_record_opts. destruct (create_opts xs) as (r & -> & _). cbn [ro_ms ro_rec ro_mut ro_att].
  destruct (opt_ms xs) as [|m0 ms0]; [intros [= <- <-]; left; split; [reflexivity|discriminate]|].
  destruct (match r with Some r => Some r | None => Some default_recorder end) as [r'|]; [|intros [= <- <-]; left; split; [reflexivity|discriminate]].
  destruct (any_subscribed subs (m0 :: ms0)) as [[|]|].
  - destruct (opt_mut xs) as [|mu mus] eqn:Em.
    + intros [= <- <-]. left. split; [reflexivity|]. intros e s [= <- <-]. auto.
    + rewrite <- Em. destruct (tag_new h c it (opt_mut xs)) as [[h1 c1] [e1|]] eqn:En; intros [= <- <-]; right.
      * exists c1, (Some e1). split; [reflexivity|]. discriminate.
      * exists c1, None. split; [reflexivity|]. intros e' s [= <- <-]. auto.
  - intros [= <- <-]. left. split; [reflexivity|discriminate].
  - intros [= <- <-]. left. split; [reflexivity|discriminate].
Qed.

(** The context a recording uses, as in [pact_ok]. *)
Lemma record_step u h p c it xs o now p' :
  u_ok u -> pinv u h p -> pact_ok u p (PRecord c it xs o now) ->
  do_record p c it xs o now = Some p' ->
  exists hs, pinv u (h ++ hs) p' /\ extends (st_heap (pc_tags p)) (st_heap (pc_tags p')) /\ st_ctxs (pc_tags p') = st_ctxs (pc_tags p) /\
    (forall n, s_state u h n = None -> s_state u (h ++ hs) n = None) /\
    (forall c, In c hs -> exists tm ms att t, c = CmdRecord tm ms att t) /\
    forall keys m, viewed u h m -> tagged keys (recorded m hs) = samples_of (st_heap (pc_tags p')) keys m c xs now.
Proof.
  intros U HI (Hc & Hit & Hz & Hmk) E. unfold do_record in E.
  destruct (tags_inv_ctx (pc_tags p) c (pi_tags _ _ _ HI) Hc) as (cs & i & Hr & Hincl & Hnth).
  destruct (api_record_opts true (w_subs (pc_worker p)) (st_heap (pc_tags p)) c it xs) as [h' out] eqn:Er.
  assert (Hz' : ~ In None (opt_ms xs)).
  { intros Hin. apply opt_ms_in in Hin. destruct Hin as (ms & H1 & H2). exact (Hz ms H1 H2). }
  assert (Hit' : iterates (st_heap (TagState (st_heap (pc_tags p)) cs)) (nth i (st_ctxs (TagState (st_heap (pc_tags p)) cs)) None) it)
    by (cbn [st_heap st_ctxs]; rewrite Hnth; exact Hit).
  pose proof (C16_record_with_options u h (pc_worker p) (TagState (st_heap (pc_tags p)) cs) i it xs h' out
                U (pi_ok _ _ _ HI) (pi_run _ _ _ HI) Hz' Hr Hit') as H16.
  cbn [st_heap st_ctxs] in H16. rewrite Hnth in H16. specialize (H16 Er). destruct H16 as [Hno Hyes].
  (* the heap, and the invariant on tags *)
  assert (Hheap : extends (st_heap (pc_tags p)) h' /\ tags_inv (TagState h' (st_ctxs (pc_tags p))) /\
                  (forall e s, out = RecRet e (Some s) -> short_values (sn_tags s))).
  { destruct (record_heap _ _ _ _ _ _ _ Er) as [[-> Hs]|(c' & e & En & Hs)].
    - split; [apply extends_refl|]. split; [exists cs; split; [exact Hr|exact Hincl]|].
      intros e s E1. destruct (Hs e s E1) as [_ ->]. now apply tags_inv_short; [apply (pi_tags _ _ _ HI)|].
    - assert (Hr' : tag_reach valid_key (TagState h' (cs ++ [c']))).
      { pose proof (reach_new valid_key (TagState (st_heap (pc_tags p)) cs) i it (opt_mut xs) Hr Hit') as Hn.
        cbn [tag_step st_heap st_ctxs] in Hn. rewrite Hnth, En in Hn. apply Hn.
        intros mu Hin. apply opt_mut_in in Hin. destruct Hin as (mus & H1 & H2). eapply Hmk; eauto. }
      split; [|split].
      + destruct (tag_new_frame _ _ _ _ _ _ _ En) as [L F]. split; [lia|exact F].
      + exists (cs ++ [c']). split; [exact Hr'|]. cbn [st_ctxs]. intros x Hx. apply in_or_app. left. auto.
      + intros e' s E1. destruct (Hs e' s E1) as [_ ->].
        apply (tags_inv_short (TagState h' (cs ++ [c'])) c'); [exists (cs ++ [c']); split; [exact Hr'|apply incl_refl]|].
        right. cbn. apply in_or_app. right. now left. }
  destruct Hheap as (Hext & Hti & Hshort).
  assert (Hctx : ctx_fun h' c = ctx_fun (st_heap (pc_tags p)) c).
  { apply (extends_ctx (pc_tags p)); auto. apply (pi_tags _ _ _ HI). }
  assert (Hsub : (exists m, In m (opt_ms xs) /\ has_view u h m) \/ ~ (exists m, In m (opt_ms xs) /\ has_view u h m)).
  { destruct (any_subscribed_spec u h (pc_worker p) (opt_ms xs) U (pi_ok _ _ _ HI) (pi_run _ _ _ HI) Hz') as (b & _ & Hb).
    destruct b; [left; now apply Hb|right]. intros Hv. apply Hb in Hv. discriminate. }
  assert (Hmeas : forall m, viewed u h m -> (exists me v, In (Some (me, v)) (opt_ms xs) /\ me_name me = m) ->
                  exists m, In m (opt_ms xs) /\ has_view u h m).
  { intros m (h1 & h2 & n & e & sv & E1 & E2 & E3 & E4) (me & v & Hin & En). exists (Some (me, v)). split; [exact Hin|].
    exists me, v. split; [reflexivity|]. exists h1, h2, n, e, sv. rewrite En. auto. }
  (* nothing delivered to the worker *)
  assert (Hnone : p' = MkProc (TagState h' (st_ctxs (pc_tags p))) (pc_worker p) ->
    (forall keys m, viewed u h m -> samples_of h' keys m c xs now = []) ->
    exists hs, pinv u (h ++ hs) p' /\ extends (st_heap (pc_tags p)) (st_heap (pc_tags p')) /\ st_ctxs (pc_tags p') = st_ctxs (pc_tags p) /\
      (forall n, s_state u h n = None -> s_state u (h ++ hs) n = None) /\
      (forall c, In c hs -> exists tm ms att t, c = CmdRecord tm ms att t) /\
      forall keys m, viewed u h m -> tagged keys (recorded m hs) = samples_of (st_heap (pc_tags p')) keys m c xs now).
  { intros -> Hs. exists []. rewrite app_nil_r. split; [|split; [exact Hext|split; [reflexivity|split; [auto|split; [intros c0 []|]]]]].
    - destruct HI as [H1 H2 _]. split; [exact H1|exact H2|exact Hti].
    - intros keys m Hv. cbn [pc_tags st_heap]. rewrite Hs by exact Hv. reflexivity. }
  assert (Hnosample : (forall m, viewed u h m -> forall me v, In (Some (me, v)) (opt_ms xs) -> me_name me <> m) ->
    forall keys m, viewed u h m -> samples_of h' keys m c xs now = []).
  { intros Hn keys m Hv. unfold samples_of. rewrite given_ms_opt. cbv zeta. rewrite no_samples by (apply Hn; exact Hv).
    destruct (given_rec xs) as [[|r]|]; [| reflexivity |]; now destruct (forallb legal_mutator (given_tags xs)). }
  destruct Hsub as [Hsub|Hsub].
  2:{ destruct (Hno Hsub) as [-> ->]. injection E as <-. apply Hnone; [reflexivity|].
      apply Hnosample. intros m Hv me v Hin Em. apply Hsub. apply (Hmeas m Hv). eauto. }
  destruct (Hyes Hsub) as [Hbad Hgood].
  destruct (forallb legal_mutator (given_tags xs)) eqn:Hlegal.
  - destruct (legal_mutators_spec (given_tags xs)) as [Hl _]. rewrite given_tags_opt in Hl, Hlegal.
    destruct (Hgood (Hl Hlegal)) as (tm & -> & Htm). cbn [sn_recorder] in E.
    destruct (opt_rec xs =? default_recorder) eqn:Erec.
    + apply Nat.eqb_eq in Erec. unfold sent_cmd in E. cbn [sn_tags sn_ms sn_att] in E.
      destruct (handle o (pc_worker p) (CmdRecord tm (opt_ms xs) (opt_att xs) now)) as [[[r evs] w']|] eqn:Eh; [|discriminate].
      injection E as <-. exists [CmdRecord tm (opt_ms xs) (opt_att xs) now].
      split; [|split; [exact Hext|split; [reflexivity|split; [|split]]]].
      * split; cbn [pc_worker pc_tags]; [eapply wrun_snoc; [apply (pi_run _ _ _ HI)|exact Eh]| |exact Hti].
        apply Forall_app. split; [apply (pi_ok _ _ _ HI)|]. constructor; [|constructor]. exact (Hshort _ _ eq_refl).
      * intros n Hn. rewrite s_state_snoc. cbn [s_step]. now rewrite Hn.
      * intros c0 [<-|[]]. eauto.
      * intros keys m _. cbn [pc_tags st_heap]. unfold samples_of. rewrite given_tags_opt, Hlegal, given_att_opt, given_ms_opt. cbv zeta.
        rewrite (tagged_recorded keys m tm (opt_ms xs) (opt_att xs) now
                   (tags_shown keys (fold_left (fun f mu => spec_mutate mu f) (opt_mut xs) (ctx_fun h' c)))).
        2:{ rewrite row_tags_shown. apply tags_shown_ext. intros k _. rewrite Htm, Hctx. reflexivity. }
        pose proof (given_rec_opt xs) as Hg. rewrite Erec in Hg. destruct (given_rec xs) as [[|r0]|]; [reflexivity|discriminate|reflexivity].
    + injection E as <-. apply Hnone; [reflexivity|]. intros keys m _. unfold samples_of.
      pose proof (given_rec_opt xs) as Hg. apply Nat.eqb_neq in Erec. rewrite <- Hg in Erec.
      destruct (given_rec xs) as [[|r0]|]; [exfalso; now apply Erec|reflexivity|exfalso; now apply Erec].
  - destruct (legal_mutators_spec (given_tags xs)) as [_ Hl]. specialize (Hl Hlegal). rewrite given_tags_opt in Hl.
    destruct (Hbad Hl) as (e & ->). injection E as <-. apply Hnone; [reflexivity|]. intros keys m _. unfold samples_of.
    rewrite Hlegal. now destruct (given_rec xs) as [[|r]|].
Qed.

(** Recording does not panic. *)
Lemma record_total u h p c it xs o now :
  u_ok u -> pinv u h p -> pact_ok u p (PRecord c it xs o now) -> exists p', do_record p c it xs o now = Some p'.
Proof.
  intros U HI (Hc & Hit & Hz & Hmk). unfold do_record.
  destruct (tags_inv_ctx (pc_tags p) c (pi_tags _ _ _ HI) Hc) as (cs & i & Hr & Hincl & Hnth).
  destruct (api_record_opts true (w_subs (pc_worker p)) (st_heap (pc_tags p)) c it xs) as [h' out] eqn:Er.
  assert (Hz' : ~ In None (opt_ms xs)).
  { intros Hin. apply opt_ms_in in Hin. destruct Hin as (ms & H1 & H2). exact (Hz ms H1 H2). }
  destruct out as [|e [sn|]]; [|destruct (sn_recorder sn =? default_recorder) eqn:Erec; [|eauto]|eauto].
  - exfalso. unfold api_record_opts in Er. destruct (create_opts xs) as (r & Ec & _). rewrite Ec in Er. cbn [ro_ms ro_rec ro_mut ro_att] in Er.
    destruct (any_subscribed_spec u h (pc_worker p) (opt_ms xs) U (pi_ok _ _ _ HI) (pi_run _ _ _ HI) Hz') as (b & Eb & _).
    rewrite Eb in Er. destruct (opt_ms xs); [discriminate|]. destruct r; destruct b; try discriminate;
      (destruct (opt_mut xs); [discriminate|]; destruct (tag_new _ _ _ _) as [[? ?] [?|]]; discriminate).
  - destruct (handle_spec u U o h (pc_worker p) (sent_cmd sn now)) as (r & evs & w' & E & _);
      [apply wrun_WI; [exact U|apply (pi_ok _ _ _ HI)|apply (pi_run _ _ _ HI)] | | rewrite E; eauto].
    + unfold sent_cmd. cbn [cmd_ok].
      destruct (record_heap _ _ _ _ _ _ _ Er) as [[-> Hs]|(c' & e' & En & Hs)].
      * destruct (Hs e sn eq_refl) as [_ ->]. now apply tags_inv_short; [apply (pi_tags _ _ _ HI)|].
      * destruct (Hs e sn eq_refl) as [_ ->].
        assert (Hit' : iterates (st_heap (TagState (st_heap (pc_tags p)) cs)) (nth i (st_ctxs (TagState (st_heap (pc_tags p)) cs)) None) it)
          by (cbn [st_heap st_ctxs]; rewrite Hnth; exact Hit).
        pose proof (reach_new valid_key (TagState (st_heap (pc_tags p)) cs) i it (opt_mut xs) Hr Hit') as Hn.
        cbn [tag_step st_heap st_ctxs] in Hn. rewrite Hnth, En in Hn.
        apply (tags_inv_short (TagState h' (cs ++ [c'])) c').
        { exists (cs ++ [c']). split; [|apply incl_refl]. apply Hn.
          intros mu Hin. apply opt_mut_in in Hin. destruct Hin as (mus & H1 & H2). eapply Hmk; eauto. }
        right. cbn. apply in_or_app. right. now left.
Qed.

(** ** Runs *)

Lemma tag_step_inv ts op : tags_inv ts ->
  (match op with
   | OpNew i it ms => iterates (st_heap ts) (nth i (st_ctxs ts) None) it /\ forall mu, In mu ms -> valid_key (mutator_key mu)
   | OpDecode _ _ => True end) ->
  tags_inv (tag_step ts op) /\ extends (st_heap ts) (st_heap (tag_step ts op)) /\ incl (st_ctxs ts) (st_ctxs (tag_step ts op)).
Proof.
  intros Hi Hop. split; [|split].
  - destruct Hi as (cs & Hr & Hincl). destruct op as [i it ms|i b].
    + destruct Hop as [Hit Hk].
      assert (Hin : In (nth i (st_ctxs ts) None) (None :: cs)).
      { destruct (Nat.lt_ge_cases i (length (st_ctxs ts))) as [H|H]; [right; apply Hincl; now apply nth_In|left; symmetry; now apply nth_overflow]. }
      destruct (ctx_index cs _ Hin) as (j & Ej).
      pose proof (reach_new valid_key (TagState (st_heap ts) cs) j it ms Hr) as Hn. cbn [tag_step st_heap st_ctxs] in *.
      rewrite Ej in Hn. specialize (Hn Hit Hk). destruct (tag_new (st_heap ts) (nth i (st_ctxs ts) None) it ms) as [[h' c'] e].
      exists (cs ++ [c']). split; [exact Hn|]. cbn [st_ctxs]. intros x Hx. apply in_app_or in Hx. apply in_or_app.
      destruct Hx as [Hx|Hx]; [left; auto|now right].
    + pose proof (reach_decode valid_key (TagState (st_heap ts) cs) 0 b Hr) as Hn. cbn [tag_step st_heap st_ctxs] in *.
      destruct (decode b) as [m| | |]; [|exists cs; auto ..]. exists (cs ++ [Some (length (st_heap ts))]). split; [exact Hn|].
      cbn [st_ctxs]. intros x Hx. apply in_app_or in Hx. apply in_or_app. destruct Hx as [Hx|Hx]; [left; auto|now right].
  - destruct (step_ext ts op) as [H1 H2]. split; auto.
  - destruct op as [i it ms|i b]; cbn [tag_step].
    + destruct (tag_new _ _ _ _) as [[h' c'] e]. cbn [st_ctxs]. intros x Hx. apply in_or_app. now left.
    + destruct (decode b); cbn [st_ctxs]; intros x Hx; try exact Hx. apply in_or_app. now left.
Qed.

Definition is_record (c : cmd) : Prop := match c with CmdRecord _ _ _ _ => True | _ => False end.

(** One action: the commands the worker handles. *)
Lemma step_inv u h p a p' :
  u_ok u -> pinv u h p -> pact_ok u p a -> proc_step p a = Some p' ->
  exists hs, pinv u (h ++ hs) p' /\ extends (st_heap (pc_tags p)) (st_heap (pc_tags p')) /\ incl (st_ctxs (pc_tags p)) (st_ctxs (pc_tags p')) /\
    (forall c, In c hs -> is_record c \/ exists o, a = PCmd o c) /\
    (forall o c, a = PCmd o c -> hs = [c]) /\
    forall keys m, viewed u h m -> tagged keys (recorded m hs) = all_samples (st_heap (pc_tags p')) keys m [a].
Proof.
  intros U HI Ha E. destruct a as [o c|op|c it xs o now]; cbn [proc_step] in E.
  - destruct (handle o (pc_worker p) c) as [[[r evs] w']|] eqn:Eh; [|discriminate]. injection E as <-. exists [c].
    assert (Hck : cmd_ok u c) by (destruct c; first [exact Ha | exact I | contradiction]).
    split; [|split; [apply extends_refl|split; [apply incl_refl|split; [|split]]]].
    + split; cbn [pc_worker pc_tags]; [eapply wrun_snoc; [apply (pi_run _ _ _ HI)|exact Eh]| |apply (pi_tags _ _ _ HI)].
      apply Forall_app. split; [apply (pi_ok _ _ _ HI)|]. auto.
    + intros c0 [<-|[]]. right. eauto.
    + intros o0 c0 [= _ <-]. reflexivity.
    + intros keys m _. destruct c; try reflexivity. contradiction.
  - injection E as <-. exists []. rewrite app_nil_r.
    destruct (tag_step_inv (pc_tags p) op (pi_tags _ _ _ HI)) as (H1 & H2 & H3); [destruct op; exact Ha|].
    split; [|split; [exact H2|split; [exact H3|split; [intros c []|split; [discriminate|reflexivity]]]]].
    destruct HI as [I1 I2 _]. split; assumption.
  - destruct (record_step u h p c it xs o now p' U HI Ha E) as (hs & H1 & H2 & H3 & _ & H5 & H6).
    exists hs. split; [exact H1|]. split; [exact H2|]. split; [rewrite H3; apply incl_refl|]. split; [|split; [discriminate|]].
    + intros c0 Hin. left. destruct (H5 c0 Hin) as (tm & ms & att & t & ->). exact I.
    + intros keys m Hv. rewrite H6 by exact Hv. cbn [all_samples flat_map]. now rewrite app_nil_r.
Qed.

Lemma step_total u h p a : u_ok u -> pinv u h p -> pact_ok u p a -> exists p', proc_step p a = Some p'.
Proof.
  intros U HI Ha. destruct a as [o c|op|c it xs o now]; cbn [proc_step]; [|eauto|eapply record_total; eauto].
  assert (Hck : cmd_ok u c) by (destruct c; first [exact Ha | exact I | contradiction]).
  destruct (handle_spec u U o h (pc_worker p) c) as (r & evs & w' & E & _); [|exact Hck|rewrite E; eauto].
  apply wrun_WI; [exact U|apply (pi_ok _ _ _ HI)|apply (pi_run _ _ _ HI)].
Qed.

Lemma samples_extends ts h' keys m c xs now : tags_inv ts -> In c (None :: st_ctxs ts) -> extends (st_heap ts) h' ->
  samples_of h' keys m c xs now = samples_of (st_heap ts) keys m c xs now.
Proof. intros Hi Hc Hx. unfold samples_of. now rewrite (extends_ctx ts h' c Hi Hc Hx). Qed.

Lemma run_inv u acts : forall h p p',
  u_ok u -> pinv u h p -> pacts_ok u p acts -> proc_run p acts = Some p' ->
  exists hs, pinv u (h ++ hs) p' /\ extends (st_heap (pc_tags p)) (st_heap (pc_tags p')) /\ incl (st_ctxs (pc_tags p)) (st_ctxs (pc_tags p')) /\
    (forall c, In c hs -> is_record c \/ exists o, In (PCmd o c) acts) /\
    forall keys m, viewed u h m -> tagged keys (recorded m hs) = all_samples (st_heap (pc_tags p')) keys m acts.
Proof.
  induction acts as [|a acts IH]; intros h p p' U HI Hok E.
  - injection E as <-. exists []. rewrite app_nil_r. split; [exact HI|]. split; [apply extends_refl|]. split; [apply incl_refl|].
    split; [intros c []|reflexivity].
  - cbn [proc_run] in E. destruct Hok as [Ha Hok]. destruct (proc_step p a) as [p1|] eqn:Es; [|discriminate].
    destruct (step_inv u h p a p1 U HI Ha Es) as (hs1 & I1 & X1 & C1 & O1 & _ & S1).
    destruct (IH (h ++ hs1) p1 p' U I1 Hok E) as (hs2 & I2 & X2 & C2 & O2 & S2).
    exists (hs1 ++ hs2). rewrite app_assoc. split; [exact I2|]. split; [eapply extends_trans; eauto|]. split; [eapply incl_tran; eauto|].
    split.
    + intros c Hin. apply in_app_or in Hin. destruct Hin as [Hin|Hin].
      * destruct (O1 c Hin) as [H|(o & ->)]; [now left|right; exists o; now left].
      * destruct (O2 c Hin) as [H|(o & H)]; [now left|right; exists o; now right].
    + intros keys m Hv. unfold recorded, tagged in *. rewrite flat_map_app, map_app. rewrite S1 by exact Hv.
      rewrite S2 by (apply viewed_more; exact Hv). change (a :: acts) with ([a] ++ acts). unfold all_samples. rewrite flat_map_app. f_equal.
      cbn [flat_map]. rewrite !app_nil_r. destruct a as [o c|op|c it xs o now]; try reflexivity. symmetry.
      apply (samples_extends (pc_tags p1)); [apply (pi_tags _ _ _ I1)| |exact X2].
      destruct Ha as (Hc & _). destruct Hc as [Hc|Hc]; [now left|right; apply C1; exact Hc].
Qed.

Lemma grouped_of agg keys ss rows :
  is_group_by agg keys ss rows -> grouped agg (tagged keys ss) rows.
Proof.
  intros [N H]. split; [exact N|]. intros tags data. rewrite H. clear N H.
  assert (E : map snd (filter (fun x => tags_eqb (fst x) tags) (tagged keys ss)) = map snd (with_tags keys tags ss)).
  { unfold tagged, with_tags. induction ss as [|[m s] ss IH]; [reflexivity|]. cbn [map filter fst snd].
    destruct (tags_eqb (row_tags keys m) tags); cbn [map snd]; now rewrite IH. }
  rewrite E. split.
  - intros (m0 & s0 & rest & E1 & E2). exists s0, (map snd rest). rewrite E1. split; [reflexivity|exact E2].
  - intros (s0 & rest & E1 & E2). destruct (with_tags keys tags ss) as [|[m0 s1] rest'] eqn:Ew; [discriminate|].
    cbn [map snd] in E1. injection E1 as <- <-. exists m0, s1, rest'. auto.
Qed.
