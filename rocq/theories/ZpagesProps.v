(** Property theorems for zpages: C60, C66, C67 and the canonical codes of C59. *)

From Coq Require Import String.
From Coq Require Import List Arith NArith ZArith Bool Lia Permutation Sorted.
From Coq Require Import ZifyBool ZifyNat ZifyN.
From Verif Require Import Base GoMap GoSort Text TraceTypes TraceModel SpanStoreModel SpanStoreSpec SpanStoreProofs TraceProofs TracerModel TracerSpec
  TracerProofs TracerProps HttpModel HttpSpec HttpProofs GrpcProps ZpagesModel ZpagesSpec ZpagesProofs.
Import ListNotations.
Open Scope nat_scope.

(** ** C60: the summary and the lists behind it *)

(** The summary has one row per span name, sorted by name. *)
Theorem C60_rows en h w o : trun en h w ->
  StronglySorted (fun a b => bytes_ltb a b = true) (map pr_name (summary_rows o w)) /\
  forall n, In n (map pr_name (summary_rows o w)) <-> has_row h n.
Proof.
  intros H. pose proof (stores_wf _ _ _ H) as Hwf.
  assert (Hm : map pr_name (map (page_row_of o) (ord o _ (w_stores w))) = map fst (ord o _ (w_stores w))).
  { rewrite map_map. apply map_ext. intros [n s]. reflexivity. }
  split.
  - unfold summary_rows. apply by_name_strict. rewrite Hm. eapply Permutation_NoDup; [|exact Hwf]. apply Permutation_map. symmetry. apply ord_perm.
  - intros n. rewrite <- (stores_rows _ _ _ n H). unfold summary_rows. split.
    + intros Hin. eapply Permutation_in in Hin; [|apply Permutation_map, isort_perm]. rewrite Hm in Hin.
      eapply Permutation_in in Hin; [|apply Permutation_map, ord_perm]. intros Hg. apply (mget_None bytes_eqb bytes_eqb_spec) in Hg. exact (Hg Hin).
    + intros Hg. eapply Permutation_in; [apply Permutation_map; symmetry; apply isort_perm|]. rewrite Hm.
      eapply Permutation_in; [apply Permutation_map; symmetry; apply ord_perm|]. destruct (mget bytes_eqb (w_stores w) n) eqn:E; [|contradiction].
      apply (mget_Some_key bytes_eqb bytes_eqb_spec) in E. exact E.
Qed.

(** Its numbers: spans that are active; stored successful spans of each latency column;
    all stored spans with an error. *)
Theorem C60_summary h w o row : trun true h w -> In row (summary_rows o w) ->
  (exists ids, NoDup ids /\ (forall i, In i ids <-> active h (pr_name row) i) /\ pr_active row = length ids) /\
  (pr_latency row = map (fun j => length (stored_lat j (events (pr_name row) h))) (seq 0 9)) /\
  exists codes, NoDup codes /\ (forall c, In c codes -> c <> 0%Z) /\
    (forall c, c <> 0%Z -> stored_err c (events (pr_name row) h) <> [] -> In c codes) /\
    pr_errors row = list_sum (map (fun c => length (stored_err c (events (pr_name row) h))) codes).
Proof.
  intros H Hin. destruct (summary_in _ _ _ _ H Hin) as (st & Hg & Er).
  pose proof (page_row_facts h w o _ st H Hg) as Hf. cbv zeta in Hf. rewrite <- Er in Hf. destruct Hf as (_ & Ha & Hl & He).
  split; [exact Ha|]. split; [exact Hl|]. exists (mkeys (st_errors st)).
  pose proof (ti_stores _ _ _ (TI_run _ _ _ H) (pr_name row)) as Hst. rewrite Hg in Hst. destruct Hst as (B1 & _).
  split; [apply (sr_wf _ _ B1)|]. split; [|split; [|exact He]].
  - intros c Hc. destruct (mget Z.eqb (st_errors st) c) as [b|] eqn:E.
    + apply (sr_err _ _ B1 c b E).
    + apply (mget_None Z.eqb Zeqb_spec') in E. contradiction.
  - intros c Hc Hne. destruct (mget Z.eqb (st_errors st) c) as [b|] eqn:E.
    + apply (mget_Some_key Z.eqb Zeqb_spec') in E. exact E.
    + destruct (sr_none _ _ B1 c Hc E) as [X _]. unfold stored_err in Hne. contradiction.
Qed.

(** What ReportSpansPerMethod says of one name: the number of active spans; for each range of
    latencies its two ends and how many spans are stored; the same for each error code. *)
Theorem C60_per_method h w o name st : trun true h w -> mget bytes_eqb (w_stores w) name = Some st ->
  let '(active_spans, errors, latencies) := st_summary o st in
  (exists ids, NoDup ids /\ (forall i, In i ids <-> active h name i) /\ active_spans = length ids) /\
  latencies = map (fun j => (column_from j, if j =? 8 then (2 ^ 63 - 1)%Z else column_from (S j), length (stored_lat j (events name h)))) (seq 0 9) /\
  NoDup (map fst errors) /\ (forall c n, In (c, n) errors -> c <> 0%Z /\ n = length (stored_err c (events name h))) /\
  (forall c, c <> 0%Z -> stored_err c (events name h) <> [] -> In c (map fst errors)).
Proof.
  intros H Hg. pose proof (page_row_facts h w o name st H Hg) as Hf. cbv zeta in Hf. unfold page_row_of in Hf. cbn [snd fst] in Hf.
  destruct (st_summary o st) as [[a e] l] eqn:Es. cbn [pr_name pr_active pr_latency pr_errors] in Hf. destruct Hf as (_ & Ha & Hl & _).
  split; [exact Ha|]. unfold st_summary in Es. injection Es as _ <- El.
  pose proof (ti_stores _ _ _ (TI_run _ _ _ H) name) as Hst. rewrite Hg in Hst. destruct Hst as (B1 & _). pose proof (ord_perm o _ (st_errors st)) as Hp.
  split; [|split; [|split]].
  - rewrite <- El in Hl |- *. rewrite (sr_len _ _ B1) in *. pose proof (sr_len _ _ B1) as Hn. clear - Hl Hn.
    destruct st as [sa se lt sm]. cbn [st_latency] in *. do 9 (destruct lt as [|? lt]; [discriminate|]). destruct lt; [|discriminate].
    cbn [seq combine map fst snd] in *. injection Hl as -> -> -> -> -> -> -> -> ->. reflexivity.
  - rewrite map_map. cbn [fst]. eapply Permutation_NoDup; [symmetry; apply Permutation_map, Hp|]. apply (sr_wf _ _ B1).
  - intros c n Hin. apply in_map_iff in Hin. destruct Hin as ([c' b] & E & Hin). cbn [fst snd] in E. injection E as -> <-.
    apply (Permutation_in _ Hp) in Hin. apply (In_mget Z.eqb Zeqb_spec') in Hin; [|apply (sr_wf _ _ B1)].
    destruct (sr_err _ _ B1 c b Hin) as (Hc & Hb). split; [exact Hc|apply (brep_size _ _ Hb)].
  - intros c Hc Hne. rewrite map_map. cbn [fst]. apply (Permutation_in _ (Permutation_map fst (Permutation_sym Hp))).
    destruct (mget Z.eqb (st_errors st) c) as [b|] eqn:E.
    + apply (mget_Some_key Z.eqb Zeqb_spec') in E. exact E.
    + destruct (sr_none _ _ B1 c Hc E) as [X _]. unfold stored_err in Hne. contradiction.
Qed.

(** The page has the columns of the ranges, if it has a row. *)
Theorem C60_header en h w o : trun en h w ->
  ((exists n, has_row h n) -> summary_header o w = map column_from (seq 0 9)) /\
  ((forall n, ~ has_row h n) -> summary_header o w = []).
Proof.
  intros H. pose proof (stores_wf _ _ _ H) as Hwf. unfold summary_header.
  pose proof (ord_perm o _ (w_stores w)) as Hp. split.
  - intros [n Hn]. apply (stores_rows _ _ _ n H) in Hn. destruct (ord o _ (w_stores w)) as [|[m st] l] eqn:Eo.
    + apply Permutation_nil in Hp. rewrite Hp in Hn. now destruct Hn.
    + assert (Hg : mget bytes_eqb (w_stores w) m = Some st).
      { apply (In_mget bytes_eqb bytes_eqb_spec); [exact Hwf|]. eapply Permutation_in; [exact Hp|now left]. }
      pose proof (ti_stores _ _ _ (TI_run _ _ _ H) m) as Hst. rewrite Hg in Hst. destruct Hst as (B1 & _).
      unfold st_summary. cbn [snd]. rewrite map_map. cbn [fst]. rewrite (sr_len _ _ B1).
      rewrite <- (map_map (fun ib : nat * bucket => fst ib) (fun i => fst (latency_bounds i))).
      assert (Hc : forall (l : list bucket) k n, length l = n -> map fst (combine (seq k n) l) = seq k n).
      { induction l0 as [|b l0 IH]; intros k n0 <-; [reflexivity|]. cbn. f_equal. now apply IH. }
      rewrite Hc by apply (sr_len _ _ B1). reflexivity.
  - intros Hn. destruct (ord o _ (w_stores w)) as [|[m st] l] eqn:Eo; [reflexivity|]. exfalso. apply (Hn m).
    apply (stores_rows _ _ _ m H). intros Hg. apply (mget_None bytes_eqb bytes_eqb_spec) in Hg. apply Hg. unfold mkeys.
    apply in_map_iff. exists (m, st). split; [reflexivity|]. eapply Permutation_in; [exact Hp|now left].
Qed.

(** The stored spans of column [j] are those whose latency is in its range; the first
    column also has those of negative latency. *)
Theorem C60_columns name h j sd : j <= 8 -> In sd (stored_lat j (events name h)) ->
  code_of sd = 0%Z /\ (in_column j (latency sd) = true \/ (j = 0 /\ (latency sd < 0)%Z)).
Proof.
  intros Hj Hin. apply stored_lat_in in Hin. destruct Hin as (_ & Hc & Hl). split; [exact Hc|].
  destruct (Z.le_gt_cases 0 (latency sd)) as [H0|H0]; [left; now apply column_class|right]. split; [|exact H0].
  rewrite <- Hl. unfold lat_class. cbn [filter].
  repeat match goal with |- context [(?a <=? latency sd)%Z] => replace (a <=? latency sd)%Z with false by lia end. reflexivity.
Qed.

(** Opening a latency cell lists the stored successful spans in the range of the link. *)
Theorem C60_latency en h w o name j op w' out : trun en h w -> j <= 8 ->
  trace_spans o name 1 (Z.of_nat j) = Some op -> tdo w op = Done w' out ->
  Permutation out (filter (link_listed j) (stored_ok (events name h))).
Proof.
  intros H Hj Ht Hd. destruct (latency_cell w o name j op w' out Hj Ht Hd) as (lo & hi & Hhi & Hd' & Hw).
  rewrite <- (filter_ext _ _ Hw). apply (C40_by_latency en h w name lo hi w' out H Hhi Hd').
Qed.

(** So the number in the cell is the number of spans listed, unless a span of that name
    has a latency exactly on a bound, between 60 and 100 seconds, or negative. *)
Theorem C60_agree h w o o' row j op w' out : trun true h w -> j <= 8 -> In row (summary_rows o w) ->
  (forall sd, In sd (stored_ok (events (pr_name row) h)) -> plain_latency (latency sd)) ->
  trace_spans o' (pr_name row) 1 (Z.of_nat j) = Some op -> tdo w op = Done w' out ->
  length out = nth j (pr_latency row) 0 /\ Permutation out (stored_lat j (events (pr_name row) h)).
Proof.
  intros H Hj Hin Hp Ht Hd. pose proof (C60_latency _ _ _ _ _ _ _ _ _ H Hj Ht Hd) as Hl.
  rewrite (filter_ext_in _ (fun sd => lat_class sd =? j)) in Hl by (intros sd Hs; apply plain_listed; auto).
  rewrite filter_class in Hl by exact Hj. split; [|exact Hl]. rewrite (Permutation_length Hl).
  destruct (C60_summary _ _ _ _ H Hin) as (_ & -> & _).
  do 9 (destruct j as [|j]; [reflexivity|]). lia.
Qed.

(** No stored span is lost: one of latency at least 0 is listed behind the cell that
    counts it, except that those from 60 to less than 100 seconds are listed in the
    column before. *)
Theorem C60_found en h w o name j sd op w' out : trun en h w -> j <= 8 ->
  In sd (stored_lat j (events name h)) -> (0 <= latency sd)%Z ->
  trace_spans o name 1 (Z.of_nat (if (j =? 8) && (latency sd <? 100000000000)%Z then 7 else j)) = Some op -> tdo w op = Done w' out ->
  In sd out.
Proof.
  intros H Hj Hin H0 Ht Hd. set (k := if (j =? 8) && _ then 7 else j) in *.
  assert (Hk : k <= 8) by (subst k; destruct ((j =? 8) && _); lia).
  eapply Permutation_in; [symmetry; apply (C60_latency _ _ _ _ _ _ _ _ _ H Hk Ht Hd)|]. apply filter_In. split.
  - unfold stored_ok. apply in_flat_map. exists j. split; [apply in_seq; lia|exact Hin].
  - destruct (C60_columns _ _ _ _ Hj Hin) as (_ & [Hc|[_ Hc]]); [|lia]. unfold in_column, column_from in Hc. unfold link_listed. subst k.
    do 9 (destruct j as [|j]; [cbn [nth Nat.eqb andb] in *; try (destruct (latency sd <? 100000000000)%Z eqn:?; cbn [nth] in *); lia|]). lia.
Qed.

(** Opening the cell of active spans lists as many as it says, each the present state of
    a span that is active; in a call of the handler that follows the summary directly. *)
Theorem C60_active h w o o' row op w' out : trun true h w -> In row (summary_rows o w) ->
  trace_spans o' (pr_name row) 0 0 = Some op -> tdo w op = Done w' out -> length out = pr_active row.
Proof.
  intros H Hin Ht Hd. cbn in Ht. injection Ht as <-. destruct (C39_active h w o' _ w' out H Hd) as (ids & Hn & Hi & Hf).
  destruct (C60_summary _ _ _ _ H Hin) as ((ids' & Hn' & Hi' & ->) & _). assert (Hlen : length ids = length out) by (clear - Hf; induction Hf; cbn; congruence). rewrite <- Hlen.
  apply Permutation_length, NoDup_Permutation; [exact Hn|exact Hn'|]. intros i. rewrite Hi, Hi'. reflexivity.
Qed.

(** Opening the cell of errors lists as many as it says, whatever the subtype asked
    for. *)
Theorem C60_errors h w o o' row sub op w' out : trun true h w -> In row (summary_rows o w) ->
  trace_spans o' (pr_name row) 2 sub = Some op -> tdo w op = Done w' out -> length out = pr_errors row.
Proof.
  intros H Hin Ht Hd. cbn in Ht. injection Ht as <-. destruct (C40_all_errors true h w o' _ w' out H Hd) as (codes & Hn & Hz & Hc & Hp).
  destruct (C60_summary _ _ _ _ H Hin) as (_ & _ & (codes' & Hn' & Hz' & Hc' & ->)).
  rewrite (Permutation_length Hp), flat_map_length_sum.
  set (f := fun c => length (stored_err c (events (pr_name row) h))) in *.
  assert (Hone : forall l l', NoDup l -> NoDup l' -> (forall c, In c l -> f c <> 0 -> In c l') -> list_sum (map f l) <= list_sum (map f l')).
  { clear. induction l as [|c l IH]; intros l' Hn Hn' Hc; [cbn; lia|]. inversion Hn as [|? ? Hni Hn1]; subst.
    destruct (Nat.eq_dec (f c) 0) as [E|E].
    - change (list_sum (map f (c :: l))) with (f c + list_sum (map f l)). rewrite E. apply IH; auto. intros; apply Hc; auto. now right.
    - destruct (in_split c l') as (a & b & ->); [apply Hc; [now left|exact E]|].
      rewrite (list_sum_perm (map f (a ++ c :: b)) (map f (c :: a ++ b))) by (apply Permutation_map; symmetry; apply Permutation_middle).
      change (f c + list_sum (map f l) <= f c + list_sum (map f (a ++ b))). apply Nat.add_le_mono_l. apply IH; [exact Hn1|now apply NoDup_remove_1 in Hn'|].
      intros d Hd Hd0. specialize (Hc d (or_intror Hd) Hd0). apply in_app_iff in Hc. apply in_app_iff. destruct Hc as [|[->|]]; auto. contradiction. }
  assert (Hne : forall c, f c <> 0 -> stored_err c (events (pr_name row) h) <> []) by (intros c Hc0 E; apply Hc0; unfold f; now rewrite E).
  apply Nat.le_antisymm; apply Hone; auto.
Qed.

(** What a handler asks for: nothing else is possible, and no request panics. *)
Theorem C60_no_panic en h w o name type sub op : trun en h w -> trace_spans o name type sub = Some op -> tdo w op <> Panicked.
Proof.
  intros H Ht Hp. apply (C34_no_panic en h w op H) in Hp. unfold trace_spans in Ht.
  destruct type as [|[[]|[]|]|]; try discriminate; try (destruct (latency_range sub)); injection Ht as <-; destruct Hp as [Hp|(u & Hp)]; discriminate.
Qed.

(** Finding: the claim fails for latencies from 60 to 100 seconds, exactly on a bound,
    and negative. *)
Definition zp_span (fin : Z) : list top :=
  [ex_root; TStoreAdd 0; TEnd (RSpan 0); TSnap 0 id_order fin; TFinished 0].
Definition zp_cells (w : world) : list (list nat) := map pr_latency (summary_rows id_order w).
Definition zp_lists (w : world) : list nat :=
  map (fun j => match trace_spans id_order (bs "root") 1 (Z.of_nat j) with
                | Some op => match tdo w op with Done _ out => length out | _ => 99 end
                | None => 99 end) (seq 0 9).
Definition zp_run (fin : Z) : option (list (list nat) * list nat) :=
  match texec (init_world true) (zp_span fin) with Some (_, w) => Some (zp_cells w, zp_lists w) | None => None end.

Theorem C60_minute_refuted : zp_run (100 + 70 * 1000000000) = Some ([[0; 0; 0; 0; 0; 0; 0; 0; 1]], [0; 0; 0; 0; 0; 0; 0; 1; 0]).
Proof. vm_compute. reflexivity. Qed.
Theorem C60_bound_refuted : zp_run (100 + 1000000) = Some ([[0; 0; 0; 1; 0; 0; 0; 0; 0]], [0; 0; 1; 1; 0; 0; 0; 0; 0]).
Proof. vm_compute. reflexivity. Qed.
Theorem C60_negative_refuted : zp_run 50 = Some ([[1; 0; 0; 0; 0; 0; 0; 0; 0]], [0; 0; 0; 0; 0; 0; 0; 0; 0]).
Proof. vm_compute. reflexivity. Qed.

(** In the history of TracerProps: a child with an error and a root of 4.9us; both rows
    agree with what they link to. *)
Example C60_nonvacuous : exists h w, trun true h w /\
  summary_rows id_order w = [MkPR (bs "kid") 0 [0; 0; 0; 0; 0; 0; 0; 0; 0] 1; MkPR (bs "root") 0 [1; 0; 0; 0; 0; 0; 0; 0; 0] 0] /\
  (forall sd, In sd (stored_ok (events (bs "root") h)) -> plain_latency (latency sd)).
Proof.
  destruct (texec (init_world true) ex_ops) as [[h w]|] eqn:E.
  2:{ exfalso. apply (f_equal (fun x => match x with Some _ => true | None => false end)) in E. vm_compute in E. discriminate. }
  exists h, w. split; [apply (trun_exec true _ [] _ h w (trun_nil true) E)|].
  assert (E1 : option_map (fun x => summary_rows id_order (snd x)) (texec (init_world true) ex_ops) =
    Some [MkPR (bs "kid") 0 [0; 0; 0; 0; 0; 0; 0; 0; 0] 1; MkPR (bs "root") 0 [1; 0; 0; 0; 0; 0; 0; 0; 0] 0]) by (vm_compute; reflexivity).
  assert (E2 : option_map (fun x => map latency (stored_ok (events (bs "root") (fst x)))) (texec (init_world true) ex_ops) = Some [4900%Z])
    by (vm_compute; reflexivity).
  rewrite E in E1, E2. cbn [option_map fst snd] in E1, E2. injection E1 as E1. injection E2 as E2. split; [exact E1|].
  intros sd Hs. apply (in_map latency) in Hs. rewrite E2 in Hs. destruct Hs as [<-|[]]. unfold plain_latency. cbn [In]. lia.
Qed.

(** ** C59: canonical codes *)

Theorem C59_canonical c : code_shown c (canonical_code_string c).
Proof.
  unfold canonical_code_string, code_shown. change (Z.of_nat (length canonical_codes)) with 17%Z.
  destruct ((c <? 0)%Z || (17 <=? c)%Z) eqn:H.
  - assert (He : exists d, decimal c d /\ bs "error code " ++ itoa c = bs "error code " ++ d) by (exists (itoa c); split; [apply itoa_decimal|reflexivity]).
    destruct c as [|[[[[[]|[]|]|[[]|[]|]|]|[[[]|[]|]|[[]|[]|]|]|]|[[[[]|[]|]|[[]|[]|]|]|[[[]|[]|]|[[]|[]|]|]|]|]|]; try exact He; lia.
  - assert (Hc : (0 <= c < 17)%Z) by lia.
    destruct c as [|[[[[[]|[]|]|[[]|[]|]|]|[[[]|[]|]|[[]|[]|]|]|]|[[[[]|[]|]|[[]|[]|]|]|[[[]|[]|]|[[]|[]|]|]|]|]|]; try lia; reflexivity.
Qed.

Theorem C59_canonical_injective c c' : canonical_code_string c = canonical_code_string c' -> c = c'.
Proof.
  assert (Hnd : NoDup canonical_codes) by (repeat constructor; cbn; intuition discriminate).
  assert (Hmix : forall n d, n < length canonical_codes -> nth n canonical_codes [] = bs "error code " ++ d -> False).
  { intros n d Hn E. assert (Hall : forallb (fun s => negb (bytes_eqb (firstn 1 s) (bs "e"))) canonical_codes = true) by (vm_compute; reflexivity).
    rewrite forallb_forall in Hall. specialize (Hall _ (nth_In _ [] Hn)). rewrite E in Hall. discriminate. }
  assert (Hlen : length canonical_codes = 17) by reflexivity.
  unfold canonical_code_string. rewrite Hlen.
  destruct ((c <? 0)%Z || (Z.of_nat 17 <=? c)%Z) eqn:E, ((c' <? 0)%Z || (Z.of_nat 17 <=? c')%Z) eqn:E'; intros H.
  - apply app_inv_head in H. pose proof (itoa_decimal c) as D. rewrite H in D. apply (decimal_fun _ _ _ D (itoa_decimal c')).
  - exfalso. symmetry in H. apply Hmix in H; [exact H|]. rewrite Hlen. lia.
  - exfalso. apply Hmix in H; [exact H|]. rewrite Hlen. lia.
  - rewrite NoDup_nth in Hnd. apply Hnd in H; rewrite ?Hlen; lia.
Qed.

(** ** C66: the rows of a span *)

(** The first row carries start and identity, then come the status and the attributes if
    there are any, then one row for each event in the order of time.  The elapsed column
    of an event is the time since the event before it, the date is shown when it
    changes, and texts have at most 1024 bytes. *)
Theorem C66_rows day render o sd :
  exists attrs attrs_of es evs,
    sorted_of (sd_attrs sd) attrs /\
    (forall a, sorted_of (match an_attrs a with Some l => l | None => [] end) (attrs_of a)) /\
    Permutation es (map (fun a => event_of_annotation a (attrs_of a)) (sd_annots sd) ++ map event_of_message (sd_msgs sd)) /\
    StronglySorted (fun a b => (fst a <= fst b)%Z) es /\
    (trace_rows day render o sd =
       MkTR (WDate (sd_start sd)) (if (sd_end sd =? zero_time)%Z then bs "            " else elapsed_since (sd_end sd) (sd_start sd))
            (firstn 1024 (render MNone)) (Some (sd_context sd, sd_parent sd))
       :: (match sd_status sd with
           | (0%Z, []) => []
           | (c, msg) => [MkTR WNone [] (firstn 1024 (render (MStatus (canonical_code_string c) msg))) None]
           end)
       ++ (match sd_attrs sd with [] => [] | _ => [MkTR WNone [] (firstn 1024 (render (MAttrs attrs))) None] end)
       ++ evs) /\
    length evs = length es /\
    forall k t m, nth_error es k = Some (t, m) ->
      let prev := match k with 0 => sd_start sd | S k' => match nth_error es k' with Some (p, _) => p | None => sd_start sd end end in
      nth_error evs k = Some (MkTR (if (day t =? day prev)%Z then WTime t else WDate t) (elapsed_since t prev) (firstn 1024 (render m)) None).
Proof.
  exists (sorted_attrs o (sd_attrs sd)), (fun a => match an_attrs a with Some l => sorted_attrs o l | None => [] end), (span_events o sd),
    (event_rows day render (day (sd_start sd)) (sd_start sd) (span_events o sd)).
  split; [apply sorted_attrs_of|]. split.
  { intros a. destruct (an_attrs a) as [l|]; [apply sorted_attrs_of|]. split; constructor. }
  split.
  { unfold span_events. rewrite isort_perm, ord_perm. apply Permutation_refl. }
  split; [apply span_events_sorted|]. split.
  { unfold trace_rows, row_text. f_equal. f_equal.
    - destruct (sd_status sd) as [c msg]. cbn [fst snd]. destruct c; cbn [Z.eqb andb]; [|reflexivity|reflexivity]. destruct msg; reflexivity.
    - destruct (sd_attrs sd); reflexivity. }
  split; [apply event_rows_length|].
  intros k t m Hk. cbv zeta. pose proof (event_rows_nth day render _ (day (sd_start sd)) (sd_start sd) k t m Hk) as E. cbv zeta in E. rewrite E.
  unfold row_text. destruct k; reflexivity.
Qed.

(** The elapsed column is always twelve wide. *)
Theorem C66_width t last : length (elapsed_since t last) = 12.
Proof.
  unfold elapsed_since. apply elapsed_width. unfold time_sub.
  set (d := Z.max _ _). assert (Hd : (- 2 ^ 63 <= d < 2 ^ 63)%Z) by lia. clearbody d.
  pose proof (Z.quot_rem' d 1000). pose proof (Z.rem_bound_abs d 1000). lia.
Qed.

(** From 100 milliseconds up, and from 1 second down, it can be read back: exactly to the
    microsecond up to a day, in whole seconds beyond; toward zero. *)
Theorem C66_elapsed t last : clock_ok last t ->
  let u := Z.quot (t - last) 1000 in
  (100000 <= u \/ u <= -1000000)%Z ->
  read_elapsed (elapsed_since t last) =
    Some (if (-9999999999 <=? u)%Z && (u <=? 99999999999)%Z then u else 1000000 * Z.quot u 1000000)%Z.
Proof.
  intros Hc u Hu. unfold elapsed_since. rewrite time_sub_ok by exact Hc. apply elapsed_read. exact Hu.
Qed.

(** Finding: shorter times cannot: the decimals are padded with blanks instead of zeros
    (5 microseconds is shown as if it were 5 of anything), and a negative time under a
    second loses its sign. *)
Theorem C66_blanks_refuted : elapsed_since 5000 0 = bs "     .     5" /\ read_elapsed (elapsed_since 5000 0) = None.
Proof. vm_compute. auto. Qed.
Theorem C66_sign_refuted : elapsed_since 0 500000000 = bs "    0.500000" /\ read_elapsed (elapsed_since 0 500000000) = Some 500000%Z.
Proof. vm_compute. auto. Qed.

Example C66_nonvacuous :
  elapsed_since 1500000000 0 = bs "    1.500000" /\ read_elapsed (elapsed_since 1500000000 0) = Some 1500000%Z /\
  elapsed_since (-2000000) 3000000000 = bs "   -3.002000" /\ read_elapsed (elapsed_since (-2000000) 3000000000) = Some (-3002000)%Z /\
  elapsed_since 200000000000000 0 = bs "     200000s" /\ read_elapsed (elapsed_since 200000000000000 0) = Some 200000000000%Z.
Proof. vm_compute. auto 10. Qed.

Definition zp_sd : sdata :=
  MkSD zero_sc zero_span_id 0 (bs "n") 1000 9000 [(bs "b", AvInt 1); (bs "a", AvInt 2)]
    [MkAn 5000 (bs "late") None; MkAn 2000 (bs "early") (Some [])] [MkME 3000 true 1 10 20] (5%Z, bs "bad") [] false 0 0 0 0 0.

Example C66_nonvacuous_rows :
  map (fun r => (tr_elapsed r, tr_text r)) (trace_rows (fun _ => 0%Z) (fun m => match m with MNone => [] | MStatus c _ => c | MAttrs l => concat (map fst l) | MAnnot m _ => m | MMessage _ _ _ => bs "m" end) id_order zp_sd) =
    [(bs "     .     8", []); ([], bs "NOT_FOUND"); ([], bs "ab"); (bs "     .     1", bs "early"); (bs "     .     1", bs "m"); (bs "     .     2", bs "late")].
Proof. vm_compute. reflexivity. Qed.
Print Assumptions C60_rows.
Print Assumptions C60_summary.
Print Assumptions C60_header.
Print Assumptions C60_per_method.
Print Assumptions C60_columns.
Print Assumptions C60_latency.
Print Assumptions C60_agree.
Print Assumptions C60_found.
Print Assumptions C60_active.
Print Assumptions C60_errors.
Print Assumptions C60_no_panic.
Print Assumptions C60_minute_refuted.
Print Assumptions C60_bound_refuted.
Print Assumptions C60_negative_refuted.
Print Assumptions C59_canonical.
Print Assumptions C59_canonical_injective.
Print Assumptions C66_rows.
Print Assumptions C66_width.
Print Assumptions C66_elapsed.
Print Assumptions C66_blanks_refuted.
Print Assumptions C66_sign_refuted.
