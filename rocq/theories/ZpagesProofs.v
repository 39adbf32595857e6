(** Proofs about the zPages. *)

From Coq Require Import String.
From Coq Require Import List Arith NArith ZArith Bool Lia Permutation Sorted.
From Coq Require Import ZifyBool ZifyNat ZifyN.
From Verif Require Import Base GoMap GoSort Text Float64 TagModel AggModel TraceTypes TraceModel SpanStoreModel SpanStoreSpec SpanStoreProofs TraceProofs TracerModel TracerSpec
  TracerProofs TracerProps HttpModel HttpSpec HttpProofs TracestateProofs GrpcModel ZpagesModel ZpagesSpec.
Import ListNotations.
Open Scope nat_scope.

Lemma skey_active h w name i : trun true h w -> skey (w_spans w) i = Some name <-> active h name i.
Proof.
  intros H. pose proof (TI_run _ _ _ H) as I. unfold active. split.
  - intros Hk. destruct (skey_rec _ _ _ _ _ I Hk) as (s & r & h1 & c & parent & E1 & E2 & S1 & E3 & _ & _ & _ & _ & _ & A5 & A6).
    split; [rewrite (name_is_created _ _ _ _ name S1), <- E3; apply bytes_eqb_refl |].
    destruct (s_phase s); try discriminate; cbn [phase_ok] in A5; decompose [and] A5; auto.
  - intros (Hn & Ha & Hf). unfold name_is in Hn. destruct (nth_error (creates h) i) as [c0|] eqn:Ec; [| discriminate].
    destruct (span_at w i) as [s|] eqn:Es.
    2:{ apply nth_error_None in Es. rewrite (ti_len _ _ _ I) in Es. apply nth_error_None in Es. congruence. }
    destruct (ti_spans _ _ _ I i s Es) as (h1 & c & parent & S1 & S2 & S3 & S4).
    assert (Hname : c_name c = name).
    { pose proof (name_is_created _ _ _ _ name S1) as E. unfold name_is in E. rewrite Ec, Hn in E. destruct (bytes_eqb_spec (c_name c) name); congruence. }
    unfold body_ok in S4. unfold skey. rewrite Es. destruct (s_rec s); [| destruct S4; discriminate].
    destruct S4 as (_ & A2 & _ & _ & A5). rewrite A2, Hname. destruct (s_phase s); cbn [phase_ok in_store] in *; auto.
    + destruct A5 as (_ & A5 & _). contradiction.
    + destruct A5 as (_ & _ & _ & A5). contradiction.
    + destruct A5 as (_ & ha & _ & [(A5 & _) | (sd & _ & A5 & _)]); [discriminate | contradiction].
Qed.

(** The stores: one per name. *)
Lemma stores_wf en h w : trun en h w -> mwf (w_stores w).
Proof.
  induction 1 as [|h w op w' out H IH Hd]; [constructor|].
  assert (Hset : forall n s, mwf (mset bytes_eqb (w_stores w) n s)) by (intros; now apply (mwf_mset bytes_eqb bytes_eqb_spec)).
  destruct op; cbn [tdo] in Hd;
    repeat match type of Hd with
    | context [match ?x with _ => _ end] => destruct x; try discriminate Hd
    end; injection Hd as <- _; cbn [w_stores set_stores set_span]; auto.
Qed.

Lemma name_is_app cs cs' i n : name_is cs i n = true -> name_is (cs ++ cs') i n = true.
Proof.
  unfold name_is. destruct (nth_error cs i) eqn:E; [|discriminate]. rewrite nth_error_app1 by (apply nth_error_Some; congruence). now rewrite E.
Qed.

Lemma stores_rows en h w n : trun en h w -> mget bytes_eqb (w_stores w) n <> None <-> has_row h n.
Proof.
  intros H. revert n. induction H as [|h w op w' out H IH Hd]; intros n.
  { split; [intros E; now contradiction E|]. intros [(i & E & _)|(a & b & [])]. unfold name_is in E. cbn in E. destruct i; discriminate. }
  assert (I : TI en h w) by apply (TI_run _ _ _ H).
  assert (Hmono : has_row h n -> has_row (h ++ [(op, out)]) n).
  { intros [(i & E1 & E2)|(a & b & E)]; [left|right].
    - exists i. rewrite creates_app, did_app. split; [now apply name_is_app|]. intros E. apply app_eq_nil in E. tauto.
    - exists a, b. rewrite map_app. apply in_app_iff. auto. }
  assert (Hback : (forall i, is_add i op = false) -> (forall m a b, op <> TConfigureBucket m a b) -> has_row (h ++ [(op, out)]) n -> has_row h n).
  { intros Ha Hc [(i & E1 & E2)|(a & b & E)]; [left|right].
    - exists i. rewrite did_app, did_one, Ha, app_nil_r in E2. split; [|exact E2].
      unfold name_is in *. rewrite creates_app in E1. destruct (Nat.lt_ge_cases i (length (creates h))) as [Hl|Hl].
      + rewrite nth_error_app1 in E1 by exact Hl. exact E1.
      + exfalso. rewrite <- (ti_len _ _ _ I) in Hl. destruct (ti_fresh _ _ _ I i Hl) as [Hf _]. apply untouched_h in Hf. tauto.
    - exists a, b. rewrite map_app in E. apply in_app_iff in E. destruct E as [E|[E|[]]]; [exact E|]. cbn in E. exfalso. eapply Hc; eauto. }
  assert (Hset : forall m s, w_stores w' = mset bytes_eqb (w_stores w) m s ->
     (mget bytes_eqb (w_stores w') n <> None <-> (m = n \/ mget bytes_eqb (w_stores w) n <> None))).
  { intros m s ->. rewrite (mget_mset bytes_eqb bytes_eqb_spec). destruct (bytes_eqb_spec m n) as [->|Hn]; [split; [auto|discriminate]|tauto]. }
  destruct (match op with TStoreAdd _ | TConfigureBucket _ _ _ | TFinished _ => true | _ => false end) eqn:Eop.
  2:{ assert (Hs : w_stores w' = w_stores w).
      { destruct op; try discriminate; cbn [tdo] in Hd;
          repeat match type of Hd with context [match ?x with _ => _ end] => destruct x; try discriminate Hd end;
          injection Hd as <- _; reflexivity. }
      rewrite Hs, IH. split; [exact Hmono|]. apply Hback; [intros i; destruct op; try discriminate; reflexivity|intros m a b ->; discriminate]. }
  destruct op; try discriminate; cbn [tdo] in Hd.
  - (* TStoreAdd *)
    destruct (nth_error (w_spans w) i) as [[sc rec [name|] []]|] eqn:Es; try discriminate. injection Hd as <- <-.
    assert (Hname : name_is (creates h) i name = true).
    { destruct (ti_spans _ _ _ I i _ Es) as (h1 & c & parent & S1 & _ & _ & S4). unfold body_ok in S4. cbn [s_rec s_store] in S4.
      destruct rec; [|decompose [and] S4; discriminate]. destruct S4 as (_ & A2 & _). destruct en; [|discriminate]. injection A2 as ->.
      rewrite (name_is_created _ _ _ _ _ S1). apply bytes_eqb_refl. }
    erewrite Hset by reflexivity. rewrite IH. split.
    + intros [->|Hr]; [|auto]. left. exists i. rewrite creates_app, did_app, did_one. cbn [is_add]. rewrite Nat.eqb_refl.
      split; [now apply name_is_app|]. intros E. apply app_eq_nil in E. destruct E. discriminate.
    + intros [(j & E1 & E2)|(a & b & E)].
      * rewrite creates_app, app_nil_r in E1. rewrite did_app, did_one in E2. cbn [is_add] in E2. destruct (Nat.eqb_spec i j) as [->|Hn].
        -- left. unfold name_is in *. destruct (nth_error (creates h) j); [|discriminate]. apply (reflect_iff _ _ (bytes_eqb_spec _ _)) in E1, Hname. congruence.
        -- right. left. exists j. rewrite app_nil_r in E2. auto.
      * right. right. exists a, b. rewrite map_app in E. apply in_app_iff in E. destruct E as [E|[E|[]]]; [exact E|discriminate].
  - (* TFinished *)
    assert (Hs : exists m, (mget bytes_eqb (w_stores w) m <> None \/ w_stores w' = w_stores w) /\ (w_stores w' = w_stores w \/ exists s, w_stores w' = mset bytes_eqb (w_stores w) m s)).
    { destruct (nth_error (w_spans w) i) as [[sc rec st []]|] eqn:Es; try discriminate. destruct st as [name|].
      - destruct (st_finished (get_store w name) i sd) as [s'|] eqn:Ef; [|discriminate]. injection Hd as <- _. exists name. cbn [w_stores set_stores]. split; [|eauto].
        left. assert (Hk : skey (w_spans w) i = Some name) by (unfold skey; rewrite Es; reflexivity).
        pose proof (ti_stores _ _ _ I name) as Hst. destruct (mget bytes_eqb (w_stores w) name); [discriminate|]. destruct Hst as [_ B]. exfalso. apply (B i Hk).
      - injection Hd as <- _. exists []. cbn [w_stores set_span]. auto. }
    assert (Hiff : mget bytes_eqb (w_stores w') n <> None <-> mget bytes_eqb (w_stores w) n <> None).
    { destruct Hs as (m & [Hm|Hm] & [E|(s & E)]); try (rewrite E; tauto); try (rewrite Hm; tauto). rewrite (Hset m s E). split; [intros [->|]; auto|auto]. }
    rewrite Hiff, IH. split; [exact Hmono|]. apply Hback; [reflexivity|discriminate].
  - (* TConfigureBucket *)
    rename name into nm.
    assert (Hs : exists s, w_stores w' = mset bytes_eqb (w_stores w) nm s).
    { destruct (mget bytes_eqb (w_stores w) nm) as [s|].
      - destruct (st_resize s _ _) as [s'|]; [|discriminate]. injection Hd as <- _. eexists. reflexivity.
      - injection Hd as <- _. eexists. reflexivity. }
    destruct Hs as (s & Hs). rewrite (Hset _ _ Hs), IH. split.
    + intros [->|Hr]; [|auto]. right. do 2 eexists. rewrite map_app. apply in_app_iff. right. left. reflexivity.
    + intros [(j & E1 & E2)|(a & b & E)].
      * right. left. exists j. rewrite creates_app, app_nil_r in E1. rewrite did_app, did_one in E2. cbn [is_add] in E2. rewrite app_nil_r in E2. auto.
      * rewrite map_app in E. apply in_app_iff in E. destruct E as [E|[E|[]]]; [right; right; eauto|]. cbn in E. injection E as -> _ _. auto.
Qed.

(** ** The summary *)

Lemma list_sum_perm l l' : Permutation l l' -> list_sum l = list_sum l'.
Proof. induction 1 as [|x a b _ IH|x y a|a b c _ IH1 _ IH2]; cbn [list_sum fold_right] in *; unfold list_sum in *; lia. Qed.

Lemma flat_map_length_sum {A B} (f : A -> list B) l : length (flat_map f l) = list_sum (map (fun x => length (f x)) l).
Proof. induction l as [|x l IH]; [reflexivity|]. cbn. rewrite app_length, IH. reflexivity. Qed.

Lemma page_row_facts h w o name st : trun true h w -> mget bytes_eqb (w_stores w) name = Some st ->
  let row := page_row_of o (name, st) in
  pr_name row = name /\
  (exists ids, NoDup ids /\ (forall i, In i ids <-> active h name i) /\ pr_active row = length ids) /\
  pr_latency row = map (fun j => length (stored_lat j (events name h))) (seq 0 9) /\
  pr_errors row = list_sum (map (fun c => length (stored_err c (events name h))) (mkeys (st_errors st))).
Proof.
  intros H Hg. pose proof (TI_run _ _ _ H) as I. pose proof (ti_stores _ _ _ I name) as Hst. rewrite Hg in Hst. destruct Hst as (B1 & B2 & B3).
  cbv zeta. unfold page_row_of, st_summary. cbn [fst snd pr_name pr_active pr_latency pr_errors]. split; [reflexivity|]. split.
  - exists (mkeys (st_active st)). split; [exact B2|]. split; [intros i; rewrite B3; now apply skey_active|]. unfold mkeys. now rewrite map_length.
  - split.
    + rewrite map_map. rewrite (sr_len _ _ B1). cbn [snd].
      assert (Hl : forall (l : list bucket) k n, length l = n -> (forall j b, nth_error l j = Some b -> brep b (ab_run 10 (lat_events (k + j) (events name h)))) ->
        map (fun x : nat * bucket => b_size (snd x)) (combine (seq k n) l) = map (fun j => length (stored_lat j (events name h))) (seq k n)).
      { induction l as [|b l IH]; intros k n <- Hb; [reflexivity|]. cbn [length seq combine map snd]. f_equal.
        - pose proof (brep_size _ _ (Hb 0 b eq_refl)) as E. rewrite Nat.add_0_r in E. exact E.
        - apply IH; [reflexivity|]. intros j b' Hj. replace (S k + j) with (k + S j) by lia. now apply (Hb (S j)). }
      apply Hl; [apply (sr_len _ _ B1)|]. intros j b Hj. apply (sr_lat _ _ B1 j b Hj).
    + rewrite map_map. cbn [snd].
      rewrite (list_sum_perm _ (map (fun kb => b_size (snd kb)) (st_errors st))) by (apply Permutation_map, ord_perm).
      unfold mkeys. rewrite map_map. f_equal. apply map_ext_in. intros [c b] Hin. cbn [fst snd].
      apply (In_mget Z.eqb Zeqb_spec') in Hin; [|apply (sr_wf _ _ B1)]. apply (brep_size _ _ (proj2 (sr_err _ _ B1 c b Hin))).
Qed.

Lemma summary_in h w o row : trun true h w -> In row (summary_rows o w) ->
  exists st, mget bytes_eqb (w_stores w) (pr_name row) = Some st /\ row = page_row_of o (pr_name row, st).
Proof.
  intros H Hin. unfold summary_rows in Hin. apply (Permutation_in _ (isort_perm _ _)) in Hin. apply in_map_iff in Hin.
  destruct Hin as ([n st] & <- & Hin). apply (Permutation_in _ (ord_perm o _ _)) in Hin.
  apply (In_mget bytes_eqb bytes_eqb_spec) in Hin; [|apply (stores_wf _ _ _ H)]. exists st. split; [exact Hin|reflexivity].
Qed.

(** Sorting by a name. *)
Lemma by_name_strict {A} (f : A -> bytes) l : NoDup (map f l) ->
  StronglySorted (fun a b => bytes_ltb a b = true) (map f (isort (fun a b => bytes_ltb (f a) (f b)) l)).
Proof.
  intros Hnd.
  assert (Hs : StronglySorted (leb (fun a b => bytes_ltb (f a) (f b))) (isort (fun a b => bytes_ltb (f a) (f b)) l)).
  { apply isort_sorted.
    - intros a b c H1 H2. apply (bytes_leb_trans (f a) (f b) (f c)); assumption.
    - intros a b. apply bytes_ltb_asym. }
  assert (Hn : NoDup (map f (isort (fun a b => bytes_ltb (f a) (f b)) l))).
  { eapply Permutation_NoDup; [|exact Hnd]. apply Permutation_map. symmetry. apply isort_perm. }
  induction Hs as [|x r Hr IH Hx]; [constructor|]. cbn [map] in *. inversion Hn as [|? ? Hni Hn']. subst. constructor; [now apply IH|].
  apply Forall_forall. intros y Hy. apply in_map_iff in Hy. destruct Hy as (b & <- & Hb). rewrite Forall_forall in Hx. specialize (Hx b Hb). unfold leb in Hx.
  destruct (bytes_ltb (f x) (f b)) eqn:E; [reflexivity|]. exfalso. apply Hni. rewrite (bytes_ltb_antisym _ _ E Hx). apply in_map. exact Hb.
Qed.

(** ** Opening a cell *)

Lemma latency_cell w o name j op w' out : j <= 8 -> trace_spans o name 1 (Z.of_nat j) = Some op -> tdo w op = Done w' out ->
  exists lo hi, (0 <= hi)%Z /\ tdo w (TReportLatency name lo hi) = Done w' out /\ forall sd, lat_wanted lo hi sd = link_listed j sd.
Proof.
  intros Hj Ht Hd. unfold trace_spans in Ht. destruct (latency_range (Z.of_nat j)) as [lo hi] eqn:Er. injection Ht as <-.
  exists lo, hi. unfold lat_wanted, link_listed.
  assert (Hl : forall sd, (latency sd <= 2 ^ 63 - 1)%Z) by (intros sd; unfold latency, time_sub; lia).
  do 9 (destruct j as [|j]; [vm_compute in Er; injection Er as <- <-; split; [lia|]; split; [exact Hd|];
    intros sd; specialize (Hl sd); cbn [nth]; lia|]). lia.
Qed.

Lemma column_class j sd : j <= 8 -> (0 <= latency sd)%Z -> in_column j (latency sd) = true <-> lat_class sd = j.
Proof.
  intros Hj H0. unfold in_column, column_from, lat_class. set (d := latency sd) in *. cbn [filter].
  do 9 (destruct j as [|j]; [cbn [nth Nat.eqb];
    repeat match goal with |- context [(?a <=? d)%Z] => destruct (a <=? d)%Z eqn:?; try lia end; cbn [length]; lia|]). lia.
Qed.

Lemma plain_listed j sd : j <= 8 -> plain_latency (latency sd) -> link_listed j sd = (lat_class sd =? j).
Proof.
  intros Hj (H0 & H1 & H2). apply eq_true_iff_eq. rewrite Nat.eqb_eq, <- (column_class j sd Hj H0).
  unfold link_listed, in_column, column_from. set (d := latency sd) in *. cbn [In] in H2.
  do 9 (destruct j as [|j]; [cbn [nth Nat.eqb]; lia|]). lia.
Qed.

Lemma filter_class es j : j <= 8 -> filter (fun sd => lat_class sd =? j) (stored_ok es) = stored_lat j es.
Proof.
  intros Hj. unfold stored_ok.
  assert (Hk : forall l, NoDup l -> filter (fun sd => lat_class sd =? j) (flat_map (fun k => stored_lat k es) l) = if existsb (Nat.eqb j) l then stored_lat j es else []).
  { induction l as [|k l IH]; intros Hn; [reflexivity|]. inversion Hn as [|? ? Hni Hn']; subst. cbn [flat_map existsb]. rewrite filter_app, (IH Hn').
    destruct (Nat.eqb_spec j k) as [<-|Hne]; cbn [orb].
    - assert (E : existsb (Nat.eqb j) l = false).
      { destruct (existsb (Nat.eqb j) l) eqn:E; [|reflexivity]. apply existsb_exists in E. destruct E as (x & Hx & E). apply Nat.eqb_eq in E. congruence. }
      rewrite E, app_nil_r. assert (Ha : forall x, In x (stored_lat j es) -> (lat_class x =? j) = true) by (intros x Hx; apply stored_lat_in in Hx; apply Nat.eqb_eq; tauto).
      clear - Ha. revert Ha. generalize (stored_lat j es). induction l as [|x r IHr]; intros Ha; [reflexivity|]. cbn [filter]. rewrite (Ha x (or_introl eq_refl)). f_equal. apply IHr. intros y Hy. apply Ha. now right.
    - rewrite filter_none; [reflexivity|]. intros x Hx. apply stored_lat_in in Hx. apply Nat.eqb_neq. lia. }
  rewrite Hk by apply seq_NoDup. replace (existsb (Nat.eqb j) (seq 0 9)) with true; [reflexivity|].
  symmetry. apply existsb_exists. exists j. rewrite in_seq, Nat.eqb_refl. split; [lia|reflexivity].
Qed.

(** ** The elapsed column *)

Lemma digitb_is b : digitb b = is_digit b.
Proof. reflexivity. Qed.

Definition no_digit (s : bytes) : Prop := match s with b :: _ => digitb b = false | [] => True end.

Lemma span_digits_value d rest : forall acc n, dec_value acc d = Some n -> no_digit rest -> span_digits (Z.of_N acc) (d ++ rest) = (Z.of_N n, rest).
Proof.
  induction d as [|c d IH]; intros acc n Hv Hr; cbn [dec_value app] in *.
  - injection Hv as <-. destruct rest as [|b r]; [reflexivity|]. cbn [span_digits]. cbn in Hr. rewrite Hr. reflexivity.
  - destruct (is_digit c) eqn:E; [|discriminate]. cbn [span_digits]. rewrite digitb_is, E.
    replace (10 * Z.of_N acc + (Z.of_N (b2n c) - 48))%Z with (Z.of_N (acc * 10 + (b2n c - 48))%N); [now apply IH|].
    unfold is_digit in E. lia.
Qed.

Lemma span_format n rest : no_digit rest -> span_digits 0 (format_dec n ++ rest) = (Z.of_N n, rest).
Proof.
  intros Hr. destruct (format_dec_spec n) as (d & -> & _ & _ & Hv). apply (span_digits_value d rest 0 n Hv Hr).
Qed.

Lemma dec_value_zeros k d n : dec_value 0 d = Some n -> dec_value 0 (repeat zero_digit k ++ d) = Some n.
Proof. intros Hv. induction k as [|k IH]; [exact Hv|]. cbn [repeat app dec_value]. exact IH. Qed.

Lemma itoa_nonneg z : (0 <= z)%Z -> itoa z = format_dec (Z.to_N z).
Proof. intros H. unfold itoa. destruct (Z.ltb_spec z 0); [lia|reflexivity]. Qed.
Lemma itoa_neg z : (z < 0)%Z -> itoa z = n2b 45 :: format_dec (Z.to_N (- z)).
Proof. intros H. unfold itoa. destruct (Z.ltb_spec z 0); [reflexivity|lia]. Qed.

Lemma span_frac f : (0 <= f < 1000000)%Z -> span_digits 0 (pad zero_digit 6 (itoa f)) = (f, []) /\ length (pad zero_digit 6 (itoa f)) = 6.
Proof.
  intros H. unfold pad. rewrite itoa_nonneg by lia. destruct (format_dec_spec (Z.to_N f)) as (d & E & Hne & _ & Hv). rewrite E.
  assert (Hl : length d <= 6) by (rewrite <- E; apply format_dec_length; lia). split.
  - rewrite <- (app_nil_r (_ ++ _)). rewrite (span_digits_value _ [] 0%N (Z.to_N f)); [f_equal; lia|apply dec_value_zeros, Hv|exact I].
  - rewrite app_length, repeat_length. lia.
Qed.

Lemma after_pad n s : after_blanks s = s -> after_blanks (pad space n s) = s.
Proof. intros H. unfold pad. induction (n - length s) as [|k IH]; [exact H|]. cbn [repeat app after_blanks]. change (b2n space =? 32)%N with true. exact IH. Qed.

Lemma after_format n r : after_blanks (format_dec n ++ r) = format_dec n ++ r.
Proof.
  pose proof (format_dec_digits n) as Hd. pose proof (format_dec_nonempty n) as Hne. destruct (format_dec n) as [|c d]; [contradiction|]. cbn [app after_blanks].
  inversion Hd as [|? ? Hc _]. subst. unfold is_digit in Hc. destruct (N.eqb_spec (b2n c) 32) as [E|E]; [|reflexivity]. rewrite E in Hc. discriminate.
Qed.

Lemma pad_app c n s r : pad c n s ++ r = repeat c (n - length s) ++ s ++ r.
Proof. unfold pad. now rewrite app_assoc. Qed.

Lemma after_repeat k s : after_blanks s = s -> after_blanks (repeat space k ++ s) = s.
Proof. intros H. induction k as [|k IH]; [exact H|]. cbn [repeat app after_blanks]. change (b2n space =? 32)%N with true. exact IH. Qed.

Lemma read_pos k n r : no_digit r -> read_elapsed (repeat space k ++ format_dec n ++ r) = read_unsigned (format_dec n ++ r).
Proof.
  intros Hr. unfold read_elapsed. rewrite after_repeat by apply after_format.
  pose proof (format_dec_digits n) as Hd. pose proof (format_dec_nonempty n) as Hne. destruct (format_dec n) as [|c d]; [contradiction|]. cbn [app].
  inversion Hd as [|? ? Hc _]. subst. unfold is_digit in Hc. destruct (N.eqb_spec (b2n c) 45) as [E|E]; [|reflexivity]. rewrite E in Hc. discriminate.
Qed.

Lemma read_neg k n r : read_elapsed (repeat space k ++ n2b 45 :: format_dec n ++ r) = option_map Z.opp (read_unsigned (format_dec n ++ r)).
Proof. unfold read_elapsed. rewrite after_repeat by reflexivity. change (b2n (n2b 45) =? 45)%N with true. reflexivity. Qed.

Lemma read_unsigned_frac n f : (0 <= f < 1000000)%Z -> read_unsigned (format_dec n ++ bs "." ++ pad zero_digit 6 (itoa f)) = Some (1000000 * Z.of_N n + f)%Z.
Proof.
  intros Hf. unfold read_unsigned. change (bs "." ++ ?x) with (n2b 46 :: x). rewrite span_format by reflexivity. change (b2n (n2b 46) =? 46)%N with true.
  destruct (span_frac f Hf) as [-> ->]. reflexivity.
Qed.

Lemma read_unsigned_secs n : read_unsigned (format_dec n ++ bs "s") = Some (1000000 * Z.of_N n)%Z.
Proof. unfold read_unsigned. rewrite span_format by reflexivity. reflexivity. Qed.

Lemma elapsed_read u : (100000 <= u \/ u <= -1000000)%Z ->
  read_elapsed (elapsed_text u) = Some (if (-9999999999 <=? u)%Z && (u <=? 99999999999)%Z then u else 1000000 * Z.quot u 1000000)%Z.
Proof.
  intros Hu. pose proof (Z.quot_rem' u 1000000) as Hq.
  assert (Hr : (0 <= u -> 0 <= Z.rem u 1000000 < 1000000)%Z) by (intros; apply Z.rem_bound_pos; lia).
  assert (Hr' : (u <= 0 -> - 1000000 < Z.rem u 1000000 <= 0)%Z) by (intros; apply (Z.rem_bound_pos_neg u 1000000); lia).
  unfold elapsed_text.
  destruct (Z.ltb_spec u (-9999999999)) as [H1|H1].
  { replace ((-9999999999 <=? u)%Z && (u <=? 99999999999)%Z) with false by lia. rewrite itoa_neg by lia. rewrite pad_app, <- app_comm_cons, read_neg, read_unsigned_secs. cbn [option_map]. f_equal. lia. }
  destruct (Z.ltb_spec u 0) as [H2|H2].
  { replace ((-9999999999 <=? u)%Z && (u <=? 99999999999)%Z) with true by lia. cbv zeta. rewrite itoa_neg by lia. rewrite pad_app, <- app_comm_cons, read_neg, read_unsigned_frac by lia. cbn [option_map]. f_equal. lia. }
  destruct (Z.ltb_spec u 1000000) as [H3|H3].
  { replace ((-9999999999 <=? u)%Z && (u <=? 99999999999)%Z) with true by lia. rewrite itoa_nonneg by lia. destruct (format_dec_spec (Z.to_N u)) as (d & E & Hne & _ & Hv). rewrite E.
    assert (Hl : length d <= 6) by (rewrite <- E; apply format_dec_length; lia).
    assert (Hl' : 6 <= length d).
    { destruct (Nat.le_gt_cases 6 (length d)) as [|Hlt]; [assumption|]. exfalso.
      pose proof Hv as Hv'. apply dec_value_iff in Hv'. destruct Hv' as [HF Hv'].
      assert (Hb : forall s a, Forall (fun c => (48 <= b2n c <= 57)%N) s -> (fold_left (fun a c => 10 * a + (b2n c - 48))%N s a < (a + 1) * 10 ^ N.of_nat (length s))%N).
      { clear. induction s as [|c s IH]; intros a HF; [cbn; lia|]. inversion HF; subst. cbn [fold_left length]. specialize (IH (10 * a + (b2n c - 48))%N H2).
        rewrite Nat2N.inj_succ, N.pow_succ_r'. nia. }
      specialize (Hb d 0%N HF). rewrite <- Hv' in Hb.
      assert (10 ^ N.of_nat (length d) <= 10 ^ 5)%N by (apply N.pow_le_mono_r; lia). change (10 ^ 5)%N with 100000%N in H. lia. }
    unfold pad. replace (6 - length d) with 0 by lia. cbn [repeat app].
    change (bs "     ." ++ d) with (repeat space 5 ++ n2b 46 :: d). unfold read_elapsed. rewrite after_repeat by reflexivity.
    change (b2n (n2b 46) =? 45)%N with false. unfold read_unsigned. cbn [span_digits]. change (digitb (n2b 46)) with false. cbv iota. change (b2n (n2b 46) =? 46)%N with true. cbv iota.
    pose proof (span_digits_value d [] 0%N _ Hv I) as Hsp. rewrite app_nil_r in Hsp. change (Z.of_N 0) with 0%Z in Hsp. rewrite Hsp.
    replace (length d =? 6) with true by (symmetry; apply Nat.eqb_eq; lia). cbn [length Nat.eqb andb]. f_equal. lia. }
  destruct (Z.leb_spec u 99999999999) as [H4|H4].
  - replace ((-9999999999 <=? u)%Z && true) with true by lia. cbv zeta. rewrite (itoa_nonneg (Z.quot u 1000000)) by lia. rewrite pad_app, read_pos by reflexivity. rewrite read_unsigned_frac by lia. f_equal. lia.
  - rewrite andb_false_r. rewrite (itoa_nonneg (Z.quot u 1000000)) by lia. rewrite pad_app, read_pos by reflexivity. rewrite read_unsigned_secs. f_equal. lia.
Qed.

Lemma itoa_length_neg z k : (- 10 ^ Z.of_nat k < z < 0)%Z -> 0 < k -> length (itoa z) <= S k.
Proof. intros H Hk. rewrite itoa_neg by lia. cbn [length]. apply le_n_S. apply format_dec_length; [|exact Hk]. apply N2Z.inj_lt. rewrite N2Z.inj_pow. rewrite Z2N.id by lia. rewrite nat_N_Z. lia. Qed.
Lemma itoa_length_pos z k : (0 <= z < 10 ^ Z.of_nat k)%Z -> 0 < k -> length (itoa z) <= k.
Proof. intros H Hk. rewrite itoa_nonneg by lia. apply format_dec_length; [|exact Hk]. apply N2Z.inj_lt. rewrite N2Z.inj_pow. rewrite Z2N.id by lia. rewrite nat_N_Z. lia. Qed.
Lemma pad_length c n s : length s <= n -> length (pad c n s) = n.
Proof. intros H. unfold pad. rewrite app_length, repeat_length. lia. Qed.

Lemma elapsed_width u : (- 2 ^ 63 <= 1000 * u < 2 ^ 63)%Z -> length (elapsed_text u) = 12.
Proof.
  intros Hu. pose proof (Z.quot_rem' u 1000000) as Hq.
  assert (Hr : (0 <= u -> 0 <= Z.rem u 1000000 < 1000000)%Z) by (intros; apply Z.rem_bound_pos; lia).
  assert (Hr' : (u <= 0 -> - 1000000 < Z.rem u 1000000 <= 0)%Z) by (intros; apply (Z.rem_bound_pos_neg u 1000000); lia).
  unfold elapsed_text.
  destruct (Z.ltb_spec u (-9999999999)) as [H1|H1].
  { rewrite app_length, pad_length; [reflexivity|]. apply itoa_length_neg; [|lia]. change (10 ^ Z.of_nat 10)%Z with 10000000000%Z. lia. }
  destruct (Z.ltb_spec u 0) as [H2|H2].
  { cbv zeta. rewrite !app_length, !pad_length; [reflexivity| |].
    - apply itoa_length_pos; [|lia]. change (10 ^ Z.of_nat 6)%Z with 1000000%Z. lia.
    - destruct (Z.lt_ge_cases (Z.quot u 1000000) 0) as [H|H].
      + apply itoa_length_neg; [|lia]. change (10 ^ Z.of_nat 4)%Z with 10000%Z. lia.
      + apply itoa_length_pos; [|lia]. change (10 ^ Z.of_nat 5)%Z with 100000%Z. lia. }
  destruct (Z.ltb_spec u 1000000) as [H3|H3].
  { rewrite app_length, pad_length; [reflexivity|]. apply itoa_length_pos; [|lia]. change (10 ^ Z.of_nat 6)%Z with 1000000%Z. lia. }
  destruct (Z.leb_spec u 99999999999) as [H4|H4].
  - cbv zeta. rewrite !app_length, !pad_length; [reflexivity| |]; (apply itoa_length_pos; [|lia]).
    + change (10 ^ Z.of_nat 6)%Z with 1000000%Z. lia.
    + change (10 ^ Z.of_nat 5)%Z with 100000%Z. lia.
  - rewrite app_length, pad_length; [reflexivity|]. apply itoa_length_pos; [|lia]. change (10 ^ Z.of_nat 11)%Z with 100000000000%Z. lia.
Qed.

(** ** The rows of a span *)

Lemma event_rows_nth day render es : forall lastday last k t m, nth_error es k = Some (t, m) ->
  let prev := match k with 0 => last | S k' => match nth_error es k' with Some (p, _) => p | None => last end end in
  let prevday := match k with 0 => lastday | _ => day prev end in
  nth_error (event_rows day render lastday last es) k =
    Some (MkTR (if (day t =? prevday)%Z then WTime t else WDate t) (elapsed_since t prev) (row_text render m) None).
Proof.
  induction es as [|[t0 m0] es IH]; intros lastday last k t m Hk; cbv zeta; [destruct k; discriminate|].
  destruct k as [|k]; cbn [nth_error] in Hk; cbn [event_rows nth_error].
  - injection Hk as -> ->. reflexivity.
  - specialize (IH (day t0) t0 k t m Hk). cbv zeta in IH. rewrite IH. destruct k as [|k]; [reflexivity|]. cbn [nth_error].
    destruct (nth_error es k) as [[p q]|] eqn:E; [reflexivity|]. exfalso. apply nth_error_None in E. assert (S k < length es) by (apply nth_error_Some; congruence). lia.
Qed.

Lemma event_rows_length day render es : forall lastday last, length (event_rows day render lastday last es) = length es.
Proof. induction es as [|[t m] es IH]; intros lastday last; [reflexivity|]. cbn. now rewrite IH. Qed.

Lemma sorted_attrs_of o l : sorted_of l (sorted_attrs o l).
Proof.
  unfold sorted_of, sorted_attrs. split.
  - rewrite isort_perm. apply ord_perm.
  - apply (isort_sorted (fun a b : bytes * attr => bytes_ltb (fst a) (fst b))).
    + intros a b c H1 H2. apply (bytes_leb_trans (fst a) (fst b) (fst c)); assumption.
    + intros a b. apply bytes_ltb_asym.
Qed.

Lemma span_events_sorted o sd : StronglySorted (fun a b => (fst a <= fst b)%Z) (span_events o sd).
Proof.
  unfold span_events.
  match goal with |- StronglySorted _ (isort ?f ?l) => assert (Hs : StronglySorted (leb f) (isort f l)) end.
  { apply isort_sorted; unfold leb; intros; lia. }
  induction Hs as [|x r Hr IH Hx]; constructor; [exact IH|]. eapply Forall_impl; [|exact Hx]. unfold leb. intros; lia.
Qed.

(** ** rpcz *)

Lemma mkey_eqb_spec : forall a b, reflect (a = b) (mkey_eqb a b).
Proof.
  intros [m r] [m' r']. unfold mkey_eqb. cbn [fst snd]. destruct (bytes_eqb_spec m m') as [->|H]; [|constructor; congruence].
  destruct r, r'; constructor; congruence.
Qed.

(** What an export does to one row of the page. *)
Fixpoint fold_rows (age : f64) (received : bool) (v : rpc_view) (m : bytes) (reset : bool) (rows : list data_row) (s : option snapshot) : option snapshot :=
  match rows with
  | [] => s
  | row :: r => fold_rows age received v m true r
      (Some (update_snapshot age received v reset row (match s with Some s => s | None => new_snapshot m received end)))
  end.

Lemma export_rows_get age received v m r rows : forall reset snaps,
  mget mkey_eqb (export_rows age received v reset rows snaps) (m, r) =
  if Bool.eqb r received then fold_rows age received v m (existsb (bytes_eqb m) reset) (rows_of m rows) (mget mkey_eqb snaps (m, r))
  else mget mkey_eqb snaps (m, r).
Proof.
  induction rows as [|row rows IH]; intros reset snaps; cbn [export_rows rows_of filter]; [destruct (Bool.eqb r received); reflexivity|].
  rewrite IH. rewrite !(mget_mset mkey_eqb mkey_eqb_spec). set (m0 := row_method (fst row)).
  destruct (Bool.eqb_spec r received) as [->|Hr].
  - cbn [existsb]. rewrite (bytes_eqb_sym m m0). destruct (mkey_eqb_spec (m0, received) (m, received)) as [E|E].
    + injection E as ->. rewrite bytes_eqb_refl. cbn [orb fold_rows]. reflexivity.
    + destruct (bytes_eqb_spec m0 m) as [->|Hm]; [contradiction|reflexivity].
  - destruct (mkey_eqb_spec (m0, received) (m, r)) as [E|E]; [congruence|reflexivity].
Qed.

Lemma row_sum_count_eq row : row_sum_count (snd row) = (row_total row, row_calls row).
Proof. unfold row_total, row_calls. destruct (snd row); reflexivity. Qed.

(** The errors a row adds. *)
Lemma errors_fold (received : bool) (count : f64) (tags : list (bytes * bytes)) : forall s,
  let s' := fold_left (fun (s : snapshot) (kv : bytes * bytes) => if bytes_eqb (fst kv) (if received then key_grpc_server_status else key_grpc_client_status) && negb (bytes_eqb (snd kv) (bs "OK"))
                             then set_errors s (u64 (sn_errors s + f_to_uint64 count)) else s) tags s in
  (sn_method s', sn_received s', sn_count s', sn_latency s', sn_rate s', sn_in s', sn_out s') =
  (sn_method s, sn_received s, sn_count s, sn_latency s, sn_rate s, sn_in s, sn_out s) /\
  (sn_errors s < 2 ^ 64 -> sn_errors s' = (sn_errors s + total (flat_map (fun kv : bytes * bytes => if bytes_eqb (fst kv) (if received then key_grpc_server_status else key_grpc_client_status) &&
                           negb (bytes_eqb (snd kv) (bs "OK")) then [f_to_uint64 count] else []) tags)) mod 2 ^ 64)%N.
Proof.
  induction tags as [|[k v] tags IH]; intros s; cbv zeta; cbn [fold_left flat_map fst snd].
  - split; [reflexivity|]. intros H. cbn [total fold_right]. rewrite N.add_0_r. symmetry. apply N.mod_small. exact H.
  - destruct (bytes_eqb k _ && negb (bytes_eqb v (bs "OK"))) eqn:E.
    + specialize (IH (set_errors s (u64 (sn_errors s + f_to_uint64 count)))). cbv zeta in IH. destruct IH as [IH1 IH2]. split; [rewrite IH1; reflexivity|].
      intros H. rewrite IH2 by (cbn [sn_errors set_errors]; apply N.mod_lt; discriminate). cbn [sn_errors set_errors app total fold_right]. unfold u64, two64. 
      rewrite N.add_mod_idemp_l by discriminate. rewrite N.add_assoc. reflexivity.
    + specialize (IH s). cbv zeta in IH. cbn [app]. exact IH.
Qed.

Lemma total_app a b : total (a ++ b) = (total a + total b)%N.
Proof. unfold total. induction a as [|x a IH]; cbn [app fold_right]; [reflexivity|]. rewrite IH. lia. Qed.

Definition same_but_errors (s s' : snapshot) : Prop :=
  (sn_method s', sn_received s', sn_count s', sn_latency s', sn_rate s', sn_in s', sn_out s') =
  (sn_method s, sn_received s, sn_count s, sn_latency s, sn_rate s, sn_in s, sn_out s).

Lemma fold_completed age received m rows : forall s, (sn_errors s < 2 ^ 64)%N ->
  exists s', fold_rows age received VCompleted m true rows (Some s) = Some s' /\ same_but_errors s s' /\
    sn_errors s' = ((sn_errors s + total (failed received rows)) mod 2 ^ 64)%N.
Proof.
  induction rows as [|row rows IH]; intros s Hs; cbn [fold_rows].
  - exists s. split; [reflexivity|]. split; [reflexivity|]. cbn. rewrite N.add_0_r. symmetry. apply N.mod_small. exact Hs.
  - set (s1 := update_snapshot age received VCompleted true row s).
    assert (H1 : same_but_errors s s1 /\ sn_errors s1 = ((sn_errors s + total (failed received [row])) mod 2 ^ 64)%N).
    { unfold s1, update_snapshot. rewrite row_sum_count_eq. pose proof (errors_fold received (row_calls row) (fst row) s) as E. cbv zeta in E.
      destruct E as [E1 E2]. split; [exact E1|]. rewrite (E2 Hs). unfold failed. cbn [flat_map]. rewrite app_nil_r. reflexivity. }
    destruct H1 as [H1 H2]. destruct (IH s1) as (s' & E & E1 & E2). { rewrite H2. apply N.mod_lt. discriminate. }
    exists s'. split; [exact E|]. split; [unfold same_but_errors in *; congruence|]. rewrite E2, H2, N.add_mod_idemp_l by discriminate.
    change (failed received (row :: rows)) with (failed received ([row] ++ rows)). unfold failed at 3. rewrite flat_map_app. rewrite total_app, N.add_assoc. reflexivity.
Qed.

Lemma fold_completed_first age received m rows s0 : rows <> [] ->
  exists s', fold_rows age received VCompleted m false rows s0 = Some s' /\
    same_but_errors (match s0 with Some s => s | None => new_snapshot m received end) s' /\
    sn_errors s' = (total (failed received rows) mod 2 ^ 64)%N.
Proof.
  intros Hne. destruct rows as [|row rows]; [contradiction|]. cbn [fold_rows]. set (s := match s0 with Some s => s | None => _ end).
  set (s1 := update_snapshot age received VCompleted false row s).
  assert (H1 : same_but_errors s s1 /\ sn_errors s1 = (total (failed received [row]) mod 2 ^ 64)%N).
  { unfold s1, update_snapshot. rewrite row_sum_count_eq. pose proof (errors_fold received (row_calls row) (fst row) (set_errors s 0)) as E. cbv zeta in E.
    destruct E as [E1 E2]. split; [exact E1|]. rewrite E2 by reflexivity. unfold failed. cbn [flat_map sn_errors set_errors]. rewrite app_nil_r. reflexivity. }
  destruct H1 as [H1 H2]. destruct (fold_completed age received m rows s1) as (s' & E & E1 & E2). { rewrite H2. apply N.mod_lt. discriminate. }
  exists s'. split; [exact E|]. split; [unfold same_but_errors in *; congruence|]. rewrite E2, H2, N.add_mod_idemp_l by discriminate.
  change (failed received (row :: rows)) with (failed received ([row] ++ rows)). unfold failed at 3. rewrite flat_map_app, total_app. reflexivity.
Qed.

Lemma update_overwrites age received v b1 b2 b3 row1 row2 s : v <> VCompleted ->
  update_snapshot age received v b2 row2 (update_snapshot age received v b1 row1 s) = update_snapshot age received v b3 row2 s.
Proof.
  intros Hv. unfold update_snapshot. rewrite !row_sum_count_eq. destruct v, received; try contradiction; reflexivity.
Qed.

Lemma fold_last age received v m row rows : v <> VCompleted -> forall b s0 b', 
  fold_rows age received v m b (rows ++ [row]) s0 = Some (update_snapshot age received v b' row (match s0 with Some s => s | None => new_snapshot m received end)).
Proof.
  intros Hv. induction rows as [|r rows IH]; intros b s0 b'; cbn [app fold_rows].
  - f_equal. unfold update_snapshot. rewrite !row_sum_count_eq. destruct v, received; try contradiction; reflexivity.
  - rewrite (IH true _ b'). f_equal. apply update_overwrites. exact Hv.
Qed.

Definition the_row (snaps : snapshots) (m : bytes) (r : bool) : snapshot :=
  match mget mkey_eqb snaps (m, r) with Some s => s | None => new_snapshot m r end.

Lemma latest_snoc r v m h e : latest r v m (h ++ [e]) =
  match e with
  | (age, Some (r', v'), rows) =>
      if Bool.eqb r' r && view_eqb v' v && negb (length (rows_of m rows) =? 0) then Some (age, rows_of m rows) else latest r v m h
  | (_, None, _) => latest r v m h
  end.
Proof. unfold latest. rewrite fold_left_app. reflexivity. Qed.

Lemma exports_snoc h e : exports_to (h ++ [e]) = export_view (exports_to h) (fst (fst e)) (snd (fst e)) (snd e).
Proof. unfold exports_to. rewrite fold_left_app. reflexivity. Qed.

Lemma convert_time_ns x : convert_time x = nanoseconds x.
Proof. destruct x; reflexivity. Qed.

Lemma rpcz_shows h : forall m r, shows m r h (the_row (exports_to h) m r).
Proof.
  induction h as [|e h IH] using rev_ind; intros m r.
  { constructor; destruct r; reflexivity. }
  specialize (IH m r). rewrite exports_snoc. destruct e as [[age [[r' v]|]] rows]; cbn [fst snd export_view].
  2:{ destruct IH. constructor; try assumption; rewrite !latest_snoc; assumption. }
  assert (Hget : mget mkey_eqb (export_rows age r' v [] rows (exports_to h)) (m, r) =
    if Bool.eqb r r' then fold_rows age r' v m false (rows_of m rows) (mget mkey_eqb (exports_to h) (m, r)) else mget mkey_eqb (exports_to h) (m, r)) by apply export_rows_get.
  destruct (Bool.eqb_spec r r') as [<-|Hr].
  2:{ unfold the_row. rewrite Hget. fold (the_row (exports_to h) m r).
      assert (Hl : forall v', latest r v' m (h ++ [(age, Some (r', v), rows)]) = latest r v' m h).
      { intros v'. rewrite latest_snoc. replace (Bool.eqb r' r) with false by (destruct r, r'; try reflexivity; congruence). reflexivity. }
      destruct IH. constructor; rewrite ?Hl; try assumption. destruct r; [assumption|]. rewrite Hl. assumption. }
  destruct (rows_of m rows) as [|x xs] eqn:Erows.
  { cbn [fold_rows] in Hget. unfold the_row. rewrite Hget. fold (the_row (exports_to h) m r).
    assert (Hl : forall v', latest r v' m (h ++ [(age, Some (r, v), rows)]) = latest r v' m h).
    { intros v'. rewrite latest_snoc, Erows. cbn [length Nat.eqb negb]. rewrite andb_false_r. reflexivity. }
    destruct IH. constructor; rewrite ?Hl; try assumption. destruct r; [assumption|]. rewrite Hl. assumption. }
  assert (Hl : forall v', latest r v' m (h ++ [(age, Some (r, v), rows)]) = if view_eqb v v' then Some (age, x :: xs) else latest r v' m h).
  { intros v'. rewrite latest_snoc, Erows. cbn [length Nat.eqb negb]. rewrite Bool.eqb_reflx, andb_true_r. reflexivity. }
  assert (Hlast : exists ys y, x :: xs = ys ++ [y]) by (destruct (exists_last (l := x :: xs)) as (ys & y & ->); [discriminate|eauto]).
  destruct Hlast as (ys & y & Hlast).
  assert (Hrow : the_row (export_rows age r v [] rows (exports_to h)) m r = match fold_rows age r v m false (x :: xs) (mget mkey_eqb (exports_to h) (m, r)) with Some s => s | None => new_snapshot m r end)
    by (unfold the_row; rewrite Hget; reflexivity).
  assert (Hfl : forall A d (f : f64 -> data_row -> A), from_last d f (Some (age, x :: xs)) = f age y).
  { intros A d f. unfold from_last. rewrite Hlast, rev_app_distr. reflexivity. }
  destruct v.
  { destruct (fold_completed_first age r m (x :: xs) (mget mkey_eqb (exports_to h) (m, r)) ltac:(discriminate)) as (s' & E & E1 & E2).
    rewrite E in Hrow. rewrite Hrow. fold (the_row (exports_to h) m r) in E1. unfold same_but_errors in E1. injection E1 as A1 A2 A3 A4 A5 A6 A7.
    destruct IH. constructor; rewrite ?Hl; cbn [view_eqb]; try congruence; destruct r; cbn [view_eqb]; rewrite ?Hl; cbn [view_eqb]; congruence. }
  all: rewrite Hrow, Hlast; rewrite fold_last with (b' := false) by discriminate;
    fold (the_row (exports_to h) m r); unfold update_snapshot; rewrite row_sum_count_eq, ?convert_time_ns;
    destruct IH; destruct r; constructor; rewrite ?Hl; cbn [view_eqb sn_method sn_received sn_count sn_latency sn_rate sn_in sn_out sn_errors]; rewrite ?Hfl; try assumption; reflexivity.
Qed.

Lemma rpcz_seen h m r : mget mkey_eqb (exports_to h) (m, r) <> None <-> seen r m h.
Proof.
  induction h as [|e h IH] using rev_ind.
  { split; [intros E; now contradiction E|]. intros (a & v & rows & [] & _). }
  rewrite exports_snoc. destruct e as [[age [[r' v]|]] rows]; cbn [fst snd export_view].
  2:{ rewrite IH. split; intros (a & v & rs & Hin & Hne); exists a, v, rs; (split; [|exact Hne]).
      - apply in_app_iff. auto.
      - apply in_app_iff in Hin. destruct Hin as [Hin|[Hin|[]]]; [exact Hin|discriminate]. }
  assert (Hs : seen r m (h ++ [(age, Some (r', v), rows)]) <-> seen r m h \/ (r = r' /\ rows_of m rows <> [])).
  { split.
    - intros (a & v' & rs & Hin & Hne). apply in_app_iff in Hin. destruct Hin as [Hin|[Hin|[]]]; [left; exists a, v', rs; auto|right]. injection Hin as _ -> _ ->. auto.
    - intros [(a & v' & rs & Hin & Hne)|[-> Hne]]; [exists a, v', rs|exists age, v, rows]; (split; [apply in_app_iff|exact Hne]); [auto|right; left; reflexivity]. }
  rewrite Hs, <- IH, export_rows_get. destruct (Bool.eqb_spec r r') as [<-|Hr]; [|tauto].
  destruct (rows_of m rows) as [|x xs]; cbn [fold_rows]; [tauto|].
  assert (Hsome : forall rs b s, fold_rows age r v m b rs (Some s) <> None) by (induction rs as [|y rs IHr]; intros b s; cbn [fold_rows]; [discriminate|apply IHr]).
  split; [right; split; [reflexivity|discriminate]|]. intros _. apply Hsome.
Qed.

Lemma rpcz_wf h : mwf (exports_to h).
Proof.
  induction h as [|e h IH] using rev_ind; [constructor|]. rewrite exports_snoc. destruct e as [[age [[r v]|]] rows]; cbn [fst snd export_view]; [|exact IH].
  revert IH. generalize (@nil bytes), (exports_to h). induction rows as [|row rows IHr]; intros reset snaps Hw; [exact Hw|]. cbn [export_rows].
  apply IHr. apply (mwf_mset mkey_eqb mkey_eqb_spec). exact Hw.
Qed.
