(** Property theorems for the test exporter of package metric/test (C73), alone and at the
    end of a process that records. *)

From Coq Require Import String.
From Coq Require Import List Arith NArith ZArith Bool Permutation Sorted Lia.
From Verif Require Import Base GoMap GoSort Text Float64 TagModel TagSpec TagProofs AggModel CollectorModel CollectorSpec CollectorProofs ViewModel ViewProofs
  WorkerModel WorkerSpec WorkerProofs WorkerProps RecordModel ReaderModel ProcessModel ProcessSpec ProcessProofs ProcessProps
  TestExporterModel TestExporterSpec TestExporterProofs.
Import ListNotations.
Open Scope nat_scope.

(** ExportMetrics panics exactly on a time series with a wrong number of label values or
    without a point. *)
Theorem C73_panic sort e ds :
  export_all sort e ds = None <-> exists x, In x (series_in (concat ds)) /\ ~ well_formed x.
Proof.
  destruct (export_all_spec sort ds e) as [H1 H2]. split.
  - intros E. assert (HF : ~ Forall well_formed (series_in (concat ds))) by (intros HF; rewrite (H1 HF) in E; discriminate).
    apply neg_Forall_Exists_neg in HF; [apply Exists_exists in HF; exact HF|].
    intros [d t]. unfold well_formed. cbn. destruct (Nat.eq_dec (List.length (md_keys d)) (List.length (ts_labels t))); [|right; tauto].
    destruct (ts_points t); [right; tauto|left; split; [assumption|discriminate]].
  - intros (x & Hx & Hw). apply H2. rewrite Forall_forall. intros HF. apply Hw. now apply HF.
Qed.

(** After any exports GetPoint returns the last point of the last time series exported with
    that name and those labels, unless another series can be taken for it. *)
Theorem C73_latest sort ds e n labels :
  sorts_by_key sort -> export_all sort [] ds = Some e -> NoDup (map fst labels) ->
  separable (series_in (concat ds)) n labels ->
  latest (series_in (concat ds)) n labels (get_point sort e n labels).
Proof.
  intros Hs E N Hsep. destruct (export_all_spec sort ds []) as [H1 H2].
  assert (HF : Forall well_formed (series_in (concat ds))).
  { apply Forall_forall. intros x Hx. destruct (Nat.eq_dec (List.length (md_keys (fst x))) (List.length (ts_labels (snd x)))) as [El|El].
    - split; [exact El|]. intros Ep. assert (X : export_all sort [] ds = None) by (apply C73_panic; exists x; split; [exact Hx|intros [_ Hp]; contradiction]).
      congruence.
    - assert (X : export_all sort [] ds = None) by (apply C73_panic; exists x; split; [exact Hx|intros [Hl _]; contradiction]). congruence. }
  rewrite (H1 HF) in E. injection E as <-. now apply find_latest.
Qed.

Lemma writes_nil t : writes [] t -> t = [].
Proof. intros (s & P & _ & ->). symmetry in P. apply Permutation_nil in P. now subst. Qed.
Lemma writes_one k v t : writes [(k, v)] t -> t = k ++ v.
Proof. intros (s & P & _ & ->). symmetry in P. apply Permutation_length_1_inv in P. subst. cbn. now rewrite app_nil_r. Qed.

(** Labels with one and the same key cannot be taken for each other. *)
Lemma one_key_separate k l l' : k <> [] -> List.length l <= 1 -> List.length l' <= 1 -> incl (map fst l) [k] -> incl (map fst l') [k] -> ~ confusable l l'.
Proof.
  intros Hk L L' I I' [(t & W & W') P]. destruct l as [|[a v] [|]]; try (cbn in L; lia); destruct l' as [|[a' v'] [|]]; try (cbn in L'; lia).
  - now apply P.
  - apply writes_nil in W. apply writes_one in W'. subst. destruct (I' a' (or_introl eq_refl)) as [<-|[]]. destruct k; [congruence|discriminate].
  - apply writes_nil in W'. apply writes_one in W. subst. destruct (I a (or_introl eq_refl)) as [<-|[]]. destruct k; [congruence|discriminate].
  - apply writes_one in W, W'. destruct (I a (or_introl eq_refl)) as [<-|[]], (I' a' (or_introl eq_refl)) as [<-|[]].
    rewrite W in W'. apply app_inv_head in W'. subst. now apply P.
Qed.

Lemma present_keys keys : forall vs, incl (map fst (labels_present keys vs)) keys /\ List.length (labels_present keys vs) <= List.length keys.
Proof.
  induction keys as [|k keys IH]; intros [|[v|] vs]; cbn [labels_present map fst List.length]; try (split; [intros x []|lia]);
    destruct (IH vs) as [I1 I2]; split; try lia.
  - intros x [<-|Hx]; [now left|right; now apply I1].
  - intros x Hx. right. now apply I1.
Qed.

(** So the exporter is exact for metrics with at most one label, the same in every export,
    whose names have no brace. *)
Theorem C73_one_label sort ds e n k labels :
  sorts_by_key sort -> export_all sort [] ds = Some e -> k <> [] ->
  (forall x, In x (series_in (concat ds)) -> no_brace (md_name (fst x)) /\ (md_name (fst x) = n -> md_keys (fst x) = [] \/ md_keys (fst x) = [k])) ->
  no_brace n -> labels = [] \/ (exists v, labels = [(k, v)]) ->
  latest (series_in (concat ds)) n labels (get_point sort e n labels).
Proof.
  intros Hs E Hk H Hn Hl. apply C73_latest; auto.
  - destruct Hl as [->|(v & ->)]; repeat constructor; intros [].
  - split; [exact Hn|]. intros x Hx. destruct (H x Hx) as [H1 H2]. split; [exact H1|]. intros En.
    destruct (present_keys (md_keys (fst x)) (ts_labels (snd x))) as [P1 P2].
    apply (one_key_separate k); try assumption.
    + eapply Nat.le_trans; [exact P2|]. destruct (H2 En) as [E2|E2]; rewrite E2; cbn; lia.
    + destruct Hl as [->|(v & ->)]; cbn; lia.
    + intros y Hy. apply P1 in Hy. destruct (H2 En) as [E2|E2]; rewrite E2 in Hy; [destruct Hy|exact Hy].
    + destruct Hl as [->|(v & ->)]; [intros y []|apply incl_refl].
Qed.

(** ** At the end of a process *)

Lemma read_loop_spec {M} (read : nat -> list M) ps : forall d,
  snd (read_loop read ps d) = d ++ flat_map read ps /\ exported (fst (read_loop read ps d)) = [].
Proof.
  induction ps as [|p ps IH]; intros d; cbn [read_loop]; [cbn; now rewrite app_nil_r|].
  destruct (IH (d ++ read p)) as [H1 H2]. destruct (read_loop read ps (d ++ read p)) as [cs d']. cbn [fst snd] in *.
  split; [rewrite H1; cbn [flat_map]; now rewrite app_assoc|exact H2].
Qed.

Lemma exported_spec {M} name ps (read : nat -> list M) : exported (read_and_export name ps read) = [flat_map read ps].
Proof.
  unfold read_and_export. destruct (read_loop_spec read ps []) as [H1 H2]. destruct (read_loop read ps []) as [cs d]. cbn [fst snd] in *.
  subst d. unfold exported in *. cbn [flat_map app]. rewrite flat_map_app, H2. reflexivity.
Qed.

Lemma get_all_nodup o m : mwf m -> NoDup (get_all o m).
Proof.
  intros H. unfold get_all. eapply Permutation_NoDup; [apply Permutation_map; symmetry; apply ord_perm|]. exact H.
Qed.

Lemma labels_in keys : forall vs k v, List.length vs = List.length keys ->
  (In (k, v) (labels_present keys vs) <-> exists i, nth_error keys i = Some k /\ nth_error vs i = Some (Some v)).
Proof.
  induction keys as [|a keys IH]; intros [|w vs] k v L; try discriminate.
  - cbn. split; [intros []|]. intros ([|i] & H & _); discriminate.
  - cbn in L. assert (L' : List.length vs = List.length keys) by congruence. specialize (IH vs k v L'). destruct w as [w|]; cbn [labels_present In]; rewrite IH; split.
    + intros [[= -> ->]|(i & H)]; [now exists 0|now exists (S i)].
    + intros ([|i] & H1 & H2); [left; cbn in *; congruence|right; now exists i].
    + intros (i & H). now exists (S i).
    + intros ([|i] & H1 & H2); [discriminate|now exists i].
Qed.

Lemma labels_nodup keys : forall vs, NoDup keys -> NoDup (map fst (labels_present keys vs)).
Proof.
  induction keys as [|a keys IH]; intros [|[w|] vs] N; cbn [labels_present map]; try constructor; inversion N; subst; auto.
  intros Hin. apply (proj1 (present_keys keys vs)) in Hin. contradiction.
Qed.

Lemma nodup_fst {A B} (l : list (A * B)) : NoDup (map fst l) -> NoDup l.
Proof. apply NoDup_map_inv. Qed.

Lemma shown_keys keys f : incl (map fst (tags_shown keys f)) keys.
Proof.
  intros k Hk. apply in_map_iff in Hk. destruct Hk as ([k' v] & <- & Hin). unfold tags_shown in Hin. apply in_flat_map in Hin.
  destruct Hin as (k & Hk & Hin). destruct (f k) as [c|]; [|destruct Hin]. destruct (c_value c); [destruct Hin|]. destruct Hin as [[= <- _]|[]]. exact Hk.
Qed.

Lemma shown_nodup keys f : NoDup keys -> NoDup (map fst (tags_shown keys f)).
Proof.
  induction keys as [|k keys IH]; intros N; [constructor|]. inversion N; subst. cbn [tags_shown flat_map]. rewrite map_app.
  assert (I : NoDup (map fst (tags_shown keys f))) by auto. destruct (f k) as [c|]; [|exact I]. destruct (c_value c); [exact I|].
  cbn [map fst app]. constructor; [|exact I]. intros Hin. apply (shown_keys keys f) in Hin. contradiction.
Qed.

Lemma shown_sorted keys f : sorted_keys keys -> StronglySorted by_key (tags_shown keys f).
Proof.
  induction keys as [|k keys IH]; intros S; [constructor|]. inversion S as [|? ? S' Hk]; subst. cbn [tags_shown flat_map].
  assert (I : StronglySorted by_key (tags_shown keys f)) by auto. destruct (f k) as [c|]; [|exact I]. destruct (c_value c); [exact I|].
  constructor; [exact I|]. apply Forall_forall. intros [k' v'] Hin. rewrite Forall_forall in Hk. apply Hk.
  apply (shown_keys keys f). apply in_map_iff. exists (k', v'). auto.
Qed.

Lemma sample_shown hp keys m acts x : In x (all_samples hp keys m acts) -> exists f, fst x = tags_shown keys f.
Proof.
  unfold all_samples. intros Hin. apply in_flat_map in Hin. destruct Hin as (a & _ & Hin). destruct a; try contradiction.
  unfold samples_of in Hin. destruct (given_rec xs) as [[|r]|]; try contradiction;
    (destruct (forallb legal_mutator (given_tags xs)); [|destruct Hin]; apply in_flat_map in Hin; destruct Hin as ([[me v]|] & _ & Hin); [|destruct Hin];
     destruct (bytes_eqb (me_name me) m); [|destruct Hin]; destruct Hin as [<-|[]]; eexists; reflexivity).
Qed.

(** The start time of a time series is that of its row, the time of the row's first
    measurement; a last value has none. *)
Theorem C18_start d now tags agg t ss ts : series_of d now (tags, aggregate agg t ss) ts ->
  ts_start ts = match agg with AggLast => None | _ => Some t end.
Proof.
  intros (_ & _ & _ & E). rewrite E. cbn [snd]. unfold aggregate. clear E.
  assert (H0 : match agg, new_data (F := f64_num) agg t with
               | AggCount, CountD t' _ | AggSum, SumD t' _ => t' = t | AggDist _, DistD d => d_start d = t | AggLast, LastD _ => True | _, _ => False end)
    by (destruct agg; cbn; auto).
  revert H0. generalize (new_data (F := f64_num) agg t). induction ss as [|s ss IH]; intros dt H0; cbn [fold_left].
  - destruct agg, dt; try contradiction; try congruence.
  - apply IH. destruct agg, dt; try contradiction; try exact H0; try exact I.
    cbn [add_sample]. unfold dist_add. destruct (_ =? 1)%Z; cbn [d_start add_to_bucket]; exact H0.
Qed.

Example C18_start_nonvacuous :
  series_of (MkDesc (bs "n") [] (bs "1") TyCumulativeInt64 [bs "k"]) 9%Z ([(bs "k", bs "v")], aggregate AggCount 5%Z [MkSample f_zero [] 7%Z])
    (MkTS [Some (bs "v")] [(9%Z, PInt 1)] (Some 5%Z)).
Proof.
  split; [reflexivity|]. split; [|split; [eexists; split; reflexivity|reflexivity]].
  intros [|[|i]] k l Hk Hl v; try discriminate. cbn in Hk, Hl. injection Hk as <-. injection Hl as <-. cbn [fst In]. split.
  - intros [= <-]. now left.
  - intros [[= <-]|[]]. reflexivity.
Qed.

(** The point made of an aggregate is the one the specification says. *)
Theorem C18_point sv d data :
  descriptor_of sv d -> me_kind (sv_measure sv) <> MOther -> (exists t ss, data = aggregate (sv_agg sv) t ss) ->
  to_point data (md_type d) = Some (point_of (me_kind (sv_measure sv)) data).
Proof.
  intros (_ & _ & _ & _ & Ht) Hk (t & ss & ->).
  assert (Hsh : match sv_agg sv, aggregate (sv_agg sv) t ss with
                | AggCount, CountD _ _ | AggSum, SumD _ _ | AggDist _, DistD _ | AggLast, LastD _ => True | _, _ => False end).
  { unfold aggregate. set (a := sv_agg sv). assert (H0 : match a, new_data a t with
                | AggCount, CountD _ _ | AggSum, SumD _ _ | AggDist _, DistD _ | AggLast, LastD _ => True | _, _ => False end) by (destruct a; exact I).
    revert H0. generalize (new_data a t). induction ss as [|s ss IH]; intros dt H0; [exact H0|]. cbn [fold_left]. apply IH.
    destruct a, dt; try contradiction; exact I. }
  destruct (sv_agg sv), (aggregate _ t ss); try contradiction; cbn [get_type] in Ht;
    destruct (me_kind (sv_measure sv)); try congruence; injection Ht as <-; reflexivity.
Qed.

(** In a process: a view is registered; nothing unregisters it; then ReadAndExport.  Then
    GetPoint with the view's name returns, for labels with which something was recorded
    since the registration, the aggregate of just that, and for other labels what it
    returned before.  The default worker is a producer; other producers have metrics of
    other names; labels that can be taken for one another are excluded. *)
Theorem C73_process u acts1 p1 o1 o0 ps1 v ps2 now sv acts2 p o sort mops others t e :
  u_ok u ->
  pacts_ok u (proc_init u) (acts1 ++ PCmd o0 (CmdRegister (ps1 ++ v :: ps2) now) :: acts2) ->
  proc_run (proc_init u) acts1 = Some p1 ->
  proc_run p1 (PCmd o0 (CmdRegister (ps1 ++ v :: ps2) now) :: acts2) = Some p ->
  (forall q, In q (ps1 ++ v :: ps2) -> spec_view u q <> None) ->
  spec_view u v = Some sv ->
  (forall q sv', In q ps1 -> spec_view u q = Some sv' -> sv_name sv' <> sv_name sv) ->
  finds o1 (pc_worker p1) (sv_name sv) None ->
  (forall a, In a acts2 -> ~ unregisters_name (sv_name sv) a) ->
  (* names and keys *)
  (forall q sv', spec_view u q = Some sv' -> no_brace (sv_name sv')) ->
  NoDup (sv_keys sv) ->
  (* producers *)
  In (0, tt) (manager_run mops) ->
  (forall q m, q <> 0 -> In m (others q) ->
     no_brace (md_name (mt_desc m)) /\ md_name (mt_desc m) <> sv_name sv /\ Forall well_formed (series_in [m])) ->
  sorts_by_key sort ->
  exists e', test_read_and_export sort p (manager_run mops) others o t e = Some e' /\
    forall labels tags,
      Permutation labels tags -> NoDup (map fst tags) -> StronglySorted by_key tags ->
      let samples := all_samples (st_heap (pc_tags p)) (sv_keys sv) (me_name (sv_measure sv)) acts2 in
      (forall x, In x samples -> ~ confusable (fst x) labels) ->
      get_point sort e' (sv_name sv) labels =
        match map snd (filter (fun x => tags_eqb (fst x) tags) samples) with
        | [] => get_point sort e (sv_name sv) labels
        | s0 :: rest => Some (t, point_of (me_kind (sv_measure sv)) (aggregate (sv_agg sv) (s_time s0) (s0 :: rest)))
        end.
Proof.
  intros U Hok E1 E2 Hval Es Hfirst Hfree Hun Hnb Nk Hprod Hoth Hsort.
  destruct (C69_rows u acts1 p1 o1 o0 ps1 v ps2 now sv acts2 p o U Hok E1 E2 Hval Es Hfirst Hfree Hun) as (F & rows0 & R & G).
  assert (Hk : me_kind (sv_measure sv) <> MOther).
  { destruct U as (_ & _ & U3). unfold spec_view in Es. destruct (nth_error (u_views u) v) as [w|] eqn:Ew; [|discriminate].
    destruct (v_measure w) as [me|] eqn:Em; [|discriminate]. destruct (v_agg w); [|discriminate].
    destruct ((List.length (or_else (v_name w) (me_name me)) <=? 255) && forallb printable (or_else (v_name w) (me_name me))); [|discriminate].
    destruct (nth_error (u_aggs u) n); [|discriminate]. destruct (spec_agg a); [|discriminate]. injection Es as <-. exact (U3 v w me Ew Em). }
  assert (Hks : sorted_keys (sv_keys sv)).
  { unfold spec_view in Es. destruct (nth_error (u_views u) v) as [w|] eqn:Ew; [|discriminate].
    destruct (v_measure w) as [me|] eqn:Em; [|discriminate]. destruct (v_agg w); [|discriminate].
    destruct ((List.length (or_else (v_name w) (me_name me)) <=? 255) && forallb printable (or_else (v_name w) (me_name me))); [|discriminate].
    destruct (nth_error (u_aggs u) n); [|discriminate]. destruct (spec_agg a); [|discriminate]. injection Es as <-. apply keys_sorted. }
  destruct (pacts_app _ _ _ _ _ Hok E1) as [Hok1 Hok2].
  destruct (run_inv u acts1 [] (proc_init u) p1 U (pinv_init u) Hok1 E1) as (h1 & I1 & _). cbn [app] in I1.
  destruct (run_inv u _ h1 p1 p U I1 Hok2 E2) as (h2 & I2 & _).
  destruct (C18_read u (h1 ++ h2) (pc_worker p) o t U (pi_ok _ _ _ I2) (pi_run _ _ _ I2)) as (ms & Er & Hms & Hall).
  unfold test_read_and_export. cbn [handle]. cbn [handle] in Er.
  destruct (read_all o (pc_worker p) (ord o _ (w_views (pc_worker p))) t) as [ms'|]; [|discriminate]. injection Er as ->.
  rewrite exported_spec. set (rd := fun q => if q =? 0 then ms else others q). set (data := flat_map rd (get_all o (manager_run mops))).
  (* the metrics *)
  assert (Hin0 : In 0 (get_all o (manager_run mops))).
  { unfold get_all. apply in_map_iff. exists (0, tt). split; [reflexivity|]. eapply Permutation_in; [symmetry; apply ord_perm|exact Hprod]. }
  assert (Hdata : forall x, In x (series_in data) -> (exists m ts, In m ms /\ In ts (mt_series m) /\ x = (mt_desc m, ts)) \/
                      (no_brace (md_name (fst x)) /\ md_name (fst x) <> sv_name sv /\ well_formed x)).
  { intros x Hx. unfold series_in in Hx. apply in_flat_map in Hx. destruct Hx as (m & Hm & Hx). unfold data in Hm. apply in_flat_map in Hm.
    destruct Hm as (q & _ & Hm). unfold rd in Hm. apply in_map_iff in Hx. destruct Hx as (ts & <- & Hts). destruct (Nat.eqb_spec q 0) as [Eq|Hq].
    - left. exists m, ts. auto.
    - right. destruct (Hoth q m Hq Hm) as (B1 & B2 & B3). cbn [fst]. split; [exact B1|]. split; [exact B2|].
      unfold series_in in B3. cbn [flat_map] in B3. rewrite app_nil_r, Forall_forall in B3. apply B3. now apply in_map. }
  assert (Hser : forall m ts, In m ms -> In ts (mt_series m) -> well_formed (mt_desc m, ts) /\ no_brace (md_name (mt_desc m)) /\
             (md_name (mt_desc m) = sv_name sv -> exists row, In row rows0 /\ md_keys (mt_desc m) = sv_keys sv /\ descriptor_of sv (mt_desc m) /\
                series_of (mt_desc m) t row ts)).
  { intros m ts Hm Hts. destruct (Hms m Hm) as (p0 & sv0 & rows & F0 & S0 & _ & (rows' & R0 & PR) & D0 & _ & HF).
    destruct (Forall2_in_r _ _ _ _ HF Hts) as (row & Hrow & Hso). split; [|split].
    - destruct Hso as (L & _ & (pv & _ & Ep) & _). split; [cbn [fst snd]; now symmetry|]. cbn [snd]. rewrite Ep. discriminate.
    - destruct D0 as (-> & _). now apply (Hnb p0).
    - intros En. rewrite En in F0, R0. unfold finds in F, F0. rewrite F in F0. injection F0 as <-. rewrite Es in S0. injection S0 as <-.
      unfold retrieves in R, R0. rewrite R in R0. injection R0 as <-.
      exists row. split; [eapply Permutation_in; [symmetry; exact PR|exact Hrow]|]. split; [apply D0|]. split; [exact D0|exact Hso]. }
  set (samples := all_samples (st_heap (pc_tags p)) (sv_keys sv) (me_name (sv_measure sv)) acts2) in *.
  assert (Hrows : forall row, In row rows0 -> (exists f, fst row = tags_shown (sv_keys sv) f) /\ In (fst row) (map fst samples) /\
             exists s0 rest, map snd (filter (fun x => tags_eqb (fst x) (fst row)) samples) = s0 :: rest /\ snd row = aggregate (sv_agg sv) (s_time s0) (s0 :: rest)).
  { intros [tg dt] Hrow. destruct G as [_ G]. destruct (proj1 (G tg dt) Hrow) as (s0 & rest & Ef & Ed).
    assert (Hx : exists x, In x samples /\ fst x = tg).
    { destruct (filter (fun x => tags_eqb (fst x) tg) samples) as [|x r] eqn:Ex; [discriminate|].
      assert (Hx : In x (filter (fun x => tags_eqb (fst x) tg) samples)) by (rewrite Ex; now left).
      apply filter_In in Hx. destruct Hx as [Hx Heq]. exists x. split; [exact Hx|]. now destruct (tags_eqb_spec (fst x) tg). }
    destruct Hx as (x & Hx & Ex). cbn [fst snd]. split; [rewrite <- Ex; eapply sample_shown; exact Hx|]. split; [rewrite <- Ex; now apply in_map|].
    exists s0, rest. auto. }
  assert (Hlab : forall m ts row, In m ms -> series_of (mt_desc m) t row ts -> md_keys (mt_desc m) = sv_keys sv -> In row rows0 ->
             Permutation (labels_present (md_keys (mt_desc m)) (ts_labels ts)) (fst row)).
  { intros m ts row _ (L & Hl & _) Ek Hrow. destruct (Hrows row Hrow) as ((f & Ef) & _). apply NoDup_Permutation.
    - apply nodup_fst. apply labels_nodup. now rewrite Ek.
    - apply nodup_fst. rewrite Ef. now apply shown_nodup.
    - intros [k w]. rewrite (labels_in _ _ k w L). split.
      + intros (i & H1 & H2). now apply (Hl i k (Some w) H1 H2).
      + intros Hin. assert (Hk' : In k (md_keys (mt_desc m))).
        { rewrite Ek. apply (shown_keys (sv_keys sv) f). rewrite <- Ef. apply in_map_iff. exists (k, w). auto. }
        apply In_nth_error in Hk'. destruct Hk' as (i & Hi).
        assert (Hj : exists l, nth_error (ts_labels ts) i = Some l).
        { destruct (nth_error (ts_labels ts) i) as [l|] eqn:En; [now exists l|]. exfalso. apply nth_error_None in En.
          assert (i < List.length (md_keys (mt_desc m))) by (apply nth_error_Some; congruence). lia. }
        destruct Hj as (l & Hj). exists i. split; [exact Hi|]. rewrite Hj. f_equal. now apply (Hl i k l Hi Hj w). }
  assert (HW : Forall well_formed (series_in data)).
  { apply Forall_forall. intros x Hx. destruct (Hdata x Hx) as [(m & ts & Hm & Hts & ->)|(_ & _ & H)]; [now apply Hser|exact H]. }
  destruct (export_all_spec sort [data] e) as [X _]. cbn [concat] in X. rewrite app_nil_r in X. rewrite (X HW).
  eexists. split; [reflexivity|]. cbv zeta. intros labels tags P N S Hamb.
  assert (Nl : NoDup (map fst labels)) by (eapply Permutation_NoDup; [apply Permutation_map; symmetry; exact P|exact N]).
  assert (Hn : no_brace (sv_name sv)) by (now apply (Hnb v)).
  assert (Hsep : separable (series_in data) (sv_name sv) labels).
  { split; [exact Hn|]. intros x Hx. destruct (Hdata x Hx) as [(m & ts & Hm & Hts & ->)|(B1 & B2 & _)].
    - destruct (Hser m ts Hm Hts) as (_ & B & Hrow). cbn [fst snd]. split; [exact B|]. intros En.
      destruct (Hrow En) as (row & Hr & Ek & _ & Hso). pose proof (Hlab m ts row Hm Hso Ek Hr) as PL.
      destruct (Hrows row Hr) as (_ & Hin & _). apply in_map_iff in Hin. destruct Hin as (x & Ex & Hin).
      intros [(tx & W1 & W2) HP]. apply (Hamb x Hin). rewrite Ex. split.
      + exists tx. split; [|exact W2]. destruct W1 as (s & Ps & Ss & Et). exists s. split; [|auto]. rewrite Ps. exact PL.
      + intros HP'. apply HP. rewrite PL. exact HP'.
    - split; [exact B1|]. intros En. contradiction. }
  unfold get_point at 1, label_map_to_key_value.
  destruct (find_put sort (series_in data) e (label_signature (sv_name sv) (sort labels))) as [(g1 & x & g2 & Eg & Hs & Ha & Em)|[Ha Em]]; rewrite Em.
  - assert (Hx : In x (series_in data)) by (rewrite Eg; apply in_or_app; right; now left).
    apply (sig_iff sort Hsort _ _ _ x Nl Hsep Hx) in Hs. destruct Hs as [En PL].
    destruct (Hdata x Hx) as [(m & ts & Hm & Hts & ->)|(_ & B2 & _)]; [|contradiction]. cbn [fst snd] in *.
    destruct (Hser m ts Hm Hts) as (_ & _ & Hrow). destruct (Hrow En) as (row & Hr & Ek & D & Hso).
    pose proof (Hlab m ts row Hm Hso Ek Hr) as PL2. destruct (Hrows row Hr) as ((f & Ef) & _ & s0 & rest & Esm & Ed).
    assert (Et : fst row = tags).
    { apply sorted_unique; [rewrite Ef; now apply shown_nodup|rewrite Ef; now apply shown_sorted|exact S|]. rewrite <- PL2, PL. exact P. }
    rewrite Et in Esm. rewrite Esm. destruct Hso as (_ & _ & (pv & Ep & Epts) & _).
    rewrite (C18_point sv (mt_desc m) (snd row) D Hk) in Ep by (rewrite Ed; now eexists _, _).
    injection Ep as <-. unfold last_of. cbn [snd]. rewrite Epts. cbn [List.last]. now rewrite Ed.
  - destruct (map snd (filter (fun x => tags_eqb (fst x) tags) samples)) as [|s0 rest] eqn:Ef; [reflexivity|]. exfalso.
    destruct G as [_ G]. assert (Hrow : In (tags, aggregate (sv_agg sv) (s_time s0) (s0 :: rest)) rows0) by (apply G; exists s0, rest; auto).
    destruct (Hall (sv_name sv) v rows0 F R) as (m & Hm & En); [intros ->; destruct Hrow|].
    destruct (Hms m Hm) as (p0 & sv0 & rows & F0 & S0 & _ & (rows' & R0 & PR) & D0 & _ & HF). rewrite En in F0, R0.
    unfold finds in F, F0. rewrite F in F0. injection F0 as <-. rewrite Es in S0. injection S0 as <-.
    unfold retrieves in R, R0. rewrite R in R0. injection R0 as <-.
    destruct (Forall2_in_l _ _ _ _ HF (Permutation_in _ PR Hrow)) as (ts & Hts & Hso).
    destruct (D0) as (_ & _ & Ek & _).
    assert (Hx : In (mt_desc m, ts) (series_in data)).
    { unfold series_in. apply in_flat_map. exists m. split; [|now apply in_map]. unfold data. apply in_flat_map. exists 0. split; [exact Hin0|exact Hm]. }
    apply (Ha _ Hx). apply (sig_iff sort Hsort _ _ _ _ Nl Hsep Hx). split; [exact En|]. cbn [fst snd].
    rewrite (Hlab m ts _ Hm Hso Ek Hrow). cbn [fst]. now symmetry.
Qed.

(** A view with at most one key: its rows cannot be taken for one another. *)
Theorem C73_one_key_samples hp keys m acts labels k :
  k <> [] -> keys = [] \/ keys = [k] -> labels = [] \/ (exists w, labels = [(k, w)]) ->
  forall x, In x (all_samples hp keys m acts) -> ~ confusable (fst x) labels.
Proof.
  intros Hk Hks Hl x Hx. destruct (sample_shown _ _ _ _ _ Hx) as (f & Ef). rewrite Ef. clear Ef.
  apply (one_key_separate k); [exact Hk| | | |].
  - destruct Hks as [-> | ->]; [cbn; lia|]. cbn [tags_shown flat_map]. destruct (f k) as [c|]; [|cbn; lia]. destruct (c_value c); cbn; lia.
  - destruct Hl as [->|(w & ->)]; cbn; lia.
  - intros y Hy. apply (shown_keys keys f) in Hy. destruct Hks as [-> | ->]; [destruct Hy|exact Hy].
  - destruct Hl as [->|(w & ->)]; [intros y []|apply incl_refl].
Qed.

(** ** Refutation *)

Definition point_int (r : option (time * point_value f64_num)) : option Z :=
  match r with Some (_, PInt n) => Some n | _ => None end.

Definition sort_ex (l : list (bytes * bytes)) : list (bytes * bytes) := isort (fun a b => bytes_ltb (fst a) (fst b)) l.
Lemma sort_ex_ok : sorts_by_key sort_ex.
Proof.
  intros l. split; [apply isort_perm|]. apply isort_sorted.
  - intros a b c. apply (bytes_leb_trans (fst a) (fst b) (fst c)).
  - intros a b. apply bytes_ltb_asym.
Qed.

(** A view that counts by two keys. *)
Definition two_u : uworld := MkU [MkView (bs "v") (bs "") [bs "a"; bs "b"] (Some m_cnt) (Some 0)] [AggCount].
Definition two_rec (x y : bytes) (t : time) : pact :=
  PRecord None [] [WithTags [Upsert (bs "a") x []; Upsert (bs "b") y []]; WithMeasurements [Some (m_cnt, f_of_Z 1)]] id_order t.
Definition two_acts : list pact :=
  [PCmd id_order (CmdRegister [0] 100%Z); two_rec (bs "x") (bs "by") 101%Z; two_rec (bs "xb") (bs "y") 102%Z; two_rec (bs "xb") (bs "y") 103%Z].

(** GetPoint does not tell label sets apart: one recording with a=x, b=by and two with
    a=xb, b=y; it returns 2 for both, and has a point for the labels axbby="" too. *)
Theorem C73_labels_refuted :
  pacts_ok two_u (proc_init two_u) two_acts /\ sorts_by_key sort_ex /\
  exists p e, proc_run (proc_init two_u) two_acts = Some p /\
    test_read_and_export sort_ex p (manager_run [MAdd (Some 0)]) (fun _ => []) id_order 200%Z [] = Some e /\
    point_int (get_point sort_ex e (bs "v") [(bs "a", bs "x"); (bs "b", bs "by")]) = Some 2%Z /\
    point_int (get_point sort_ex e (bs "v") [(bs "a", bs "xb"); (bs "b", bs "y")]) = Some 2%Z /\
    point_int (get_point sort_ex e (bs "v") [(bs "axbby", bs "")]) = Some 2%Z.
Proof.
  split; [apply pacts_okb_ok; vm_compute; reflexivity|]. split; [apply sort_ex_ok|].
  assert (X : match proc_run (proc_init two_u) two_acts with
              | Some p => match test_read_and_export sort_ex p (manager_run [MAdd (Some 0)]) (fun _ => []) id_order 200%Z [] with
                          | Some e => (point_int (get_point sort_ex e (bs "v") [(bs "a", bs "x"); (bs "b", bs "by")]),
                                       point_int (get_point sort_ex e (bs "v") [(bs "a", bs "xb"); (bs "b", bs "y")]),
                                       point_int (get_point sort_ex e (bs "v") [(bs "axbby", bs "")])) = (Some 2%Z, Some 2%Z, Some 2%Z)
                          | None => False end
              | None => False end) by (vm_compute; reflexivity).
  destruct (proc_run (proc_init two_u) two_acts) as [p|]; [|contradiction].
  exists p. destruct (test_read_and_export sort_ex p (manager_run [MAdd (Some 0)]) (fun _ => []) id_order 200%Z []) as [e|]; [|contradiction].
  exists e. split; [reflexivity|]. split; [reflexivity|]. injection X as X1 X2 X3. auto.
Qed.

(** ** Example *)

(** The process of C69's example, with another producer that has a metric of its own. *)
Definition other_metric : metric :=
  MkMetric (MkDesc (bs "other") [] (bs "1") TyGaugeInt64 [bs "x"]) None [MkTS [Some (bs "a")] [(5%Z, PInt (F := f64_num) 7); (6%Z, PInt (F := f64_num) 8)] None].
Definition ex_others (q : nat) : list metric := if q =? 3 then [other_metric] else [].
Definition ex_mops : list mop := [MAdd (Some 3); MAdd (Some 0); MAdd None].

Example C73_example :
  (forall q sv', spec_view ex_u q = Some sv' -> no_brace (sv_name sv')) /\
  (exists sv, spec_view ex_u 4 = Some sv /\ sv_keys sv = [kx]) /\
  In (0, tt) (manager_run ex_mops) /\
  (forall q m, q <> 0 -> In m (ex_others q) ->
     no_brace (md_name (mt_desc m)) /\ md_name (mt_desc m) <> bs "requests" /\ Forall well_formed (series_in [m])) /\
  sorts_by_key sort_ex /\
  exists p e, proc_run (proc_init ex_u) (ex_acts1 ++ ex_reg :: ex_acts2) = Some p /\
    test_read_and_export sort_ex p (manager_run ex_mops) ex_others id_order 200%Z [] = Some e /\
    point_int (get_point sort_ex e (bs "requests") [(kx, bs "a")]) = Some 2%Z /\
    point_int (get_point sort_ex e (bs "requests") [(kx, bs "b")]) = Some 1%Z /\
    point_int (get_point sort_ex e (bs "requests") [(kx, bs "c")]) = None /\
    point_int (get_point sort_ex e (bs "other") [(kx, bs "a")]) = Some 8%Z.
Proof.
  split; [|split; [|split; [|split; [|split; [apply sort_ex_ok|]]]]].
  - intros q sv' H. unfold no_brace. intros Hin. do 5 (destruct q as [|q]; [vm_compute in H; (discriminate || (injection H as <-; cbn in Hin; decompose [or] Hin; try discriminate; contradiction))|]).
    unfold spec_view in H. cbn in H. destruct q; discriminate.
  - eexists. split; reflexivity.
  - right. now left.
  - intros q m Hq Hm. unfold ex_others in Hm. destruct (q =? 3); [|destruct Hm]. destruct Hm as [<-|[]]. split; [|split].
    + unfold no_brace. cbn. intros Hin. decompose [or] Hin; try discriminate; contradiction.
    + discriminate.
    + repeat constructor. discriminate.
  - assert (X : match proc_run (proc_init ex_u) (ex_acts1 ++ ex_reg :: ex_acts2) with
              | Some p => match test_read_and_export sort_ex p (manager_run ex_mops) ex_others id_order 200%Z [] with
                          | Some e => (point_int (get_point sort_ex e (bs "requests") [(kx, bs "a")]),
                                       point_int (get_point sort_ex e (bs "requests") [(kx, bs "b")]),
                                       point_int (get_point sort_ex e (bs "requests") [(kx, bs "c")]),
                                       point_int (get_point sort_ex e (bs "other") [(kx, bs "a")])) = (Some 2%Z, Some 1%Z, None, Some 8%Z)
                          | None => False end
              | None => False end) by (vm_compute; reflexivity).
    destruct (proc_run (proc_init ex_u) (ex_acts1 ++ ex_reg :: ex_acts2)) as [p|]; [|contradiction].
    exists p. destruct (test_read_and_export sort_ex p (manager_run ex_mops) ex_others id_order 200%Z []) as [e|]; [|contradiction].
    exists e. split; [reflexivity|]. split; [reflexivity|]. injection X as X1 X2 X3 X4. auto.
Qed.

Print Assumptions C18_start.
Print Assumptions C18_point.
Print Assumptions C73_panic.
Print Assumptions C73_latest.
Print Assumptions C73_one_label.
Print Assumptions C73_process.
Print Assumptions C73_one_key_samples.
Print Assumptions C73_labels_refuted.
