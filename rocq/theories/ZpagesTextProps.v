(** C79: the text pages of zpages can be read back, and the links ask for what they show. *)

From Coq Require Import String.
From Coq Require Import List Arith NArith ZArith Bool Lia Permutation Sorted.
From Coq Require Import ZifyBool ZifyNat ZifyN.
From Coq Require Import Floats.SpecFloat.
From Verif Require Import Base ListLib GoMap GoSort Text Float64 TraceTypes TraceModel SpanStoreModel SpanStoreSpec TracerModel TracerSpec TracerProofs TracerProps
  HttpModel HttpSpec HttpProofs PropagationModel PropagationProofs ZpagesModel ZpagesSpec ZpagesProofs ZpagesProps ZpagesTextModel ZpagesTextSpec.
Import ListNotations.
Open Scope nat_scope.

(** ** Tables *)

Lemma removelast_cons {A} (x : A) l : l <> [] -> removelast (x :: l) = x :: removelast l.
Proof. destruct l; [congruence|reflexivity]. Qed.

Lemma table_line s r : ~ In newline s -> table_of (s ++ newline :: r) = split_byte tab s :: table_of r.
Proof.
  intros H. unfold table_of. fold newline tab. rewrite split_byte_app by exact H. rewrite removelast_cons by apply split_byte_nonempty. reflexivity.
Qed.

Lemma in_join c x l : In c (join_byte x l) -> c = x \/ exists s, In s l /\ In c s.
Proof.
  induction l as [|s l IH]; [intros []|]. cbn [join_byte]. destruct l as [|s' l].
  - intros H. right. exists s. split; [now left|exact H].
  - intros H. apply in_app_or in H. destruct H as [H|[<-|H]]; [right; exists s; split; [now left|exact H]|now left|].
    destruct (IH H) as [->|(s0 & H1 & H2)]; [now left|]. right. exists s0. split; [now right|exact H2].
Qed.

Lemma join_clean l : Forall clean l -> ~ In newline (join_byte tab l).
Proof.
  intros H Hin. apply in_join in Hin. destruct Hin as [E|(s & Hs & Hc)]; [discriminate E|].
  rewrite Forall_forall in H. destruct (H s Hs) as [_ H2]. exact (H2 Hc).
Qed.

Lemma split_clean l : l <> [] -> Forall clean l -> split_byte tab (join_byte tab l) = l.
Proof. intros Hne H. apply split_join; [exact Hne|]. eapply Forall_impl; [|exact H]. intros s [H1 _]. exact H1. Qed.

Lemma table_lines ls : Forall (fun l => l <> [] /\ Forall clean l) ls -> table_of (concat (map (fun cells => join_byte tab cells ++ [newline]) ls)) = ls.
Proof.
  induction 1 as [|l ls [Hne Hl] _ IH]; [reflexivity|]. cbn [map concat]. rewrite <- app_assoc. cbn [app].
  rewrite table_line by now apply join_clean. now rewrite IH, split_clean.
Qed.

Lemma clean_app a b : clean a -> clean b -> clean (a ++ b).
Proof. intros [A1 A2] [B1 B2]. split; intros H; apply in_app_or in H; tauto. Qed.
Lemma clean_high s : Forall (fun c => (32 <= b2n c)%N) s -> clean s.
Proof.
  intros H. rewrite Forall_forall in H. split; intros Hin; apply H in Hin.
  - change (b2n (n2b 9)) with 9%N in Hin. lia.
  - change (b2n (n2b 10)) with 10%N in Hin. lia.
Qed.
Lemma clean_hex b : clean (hex_encode b).
Proof. apply clean_high. eapply Forall_impl; [|apply hex_encode_lower]. intros c. unfold lower_hex. lia. Qed.
Lemma clean_format n : clean (format_dec n).
Proof. apply clean_high. eapply Forall_impl; [|apply format_dec_digits]. intros c. unfold is_digit. lia. Qed.
Lemma clean_itoa z : clean (itoa z).
Proof.
  unfold itoa. destruct (z <? 0)%Z; [|apply clean_format]. apply (clean_app [n2b 45]); [|apply clean_format].
  apply clean_high. constructor; [change (b2n (n2b 45)) with 45%N; lia|constructor].
Qed.
Ltac clean_lit := apply clean_high; repeat constructor; vm_compute; discriminate.
Lemma clean_id sp : clean (id_text sp).
Proof.
  destruct sp as [[sc p]|]; [|clean_lit]. cbn [id_text]. destruct (is_zero_sc sc); [clean_lit|].
  repeat apply clean_app; try apply clean_hex; try clean_lit. destruct (bytes_eqb p zero_span_id); [clean_lit|].
  apply clean_app; [clean_lit|apply clean_hex].
Qed.

(** ** Identifiers *)

Lemma hex_id_shown b : id_shown b (hex_encode b).
Proof. split; [apply hex_of_encode|apply hex_encode_lower]. Qed.

Lemma copy_all d b : length d = length b -> copy_at d 0 b = b.
Proof. intros H. unfold copy_at. rewrite Nat.sub_0_r, H, Nat.min_id. cbn [firstn Nat.add app]. rewrite firstn_all, <- H, skipn_all. apply app_nil_r. Qed.

(** An identifier is printed as 32 or 16 lower case hex digits; this is what the B3 header
    carries, and what its parser takes back; it stands in the traceparent header too. *)
Theorem C79_identifiers sc h : sc_wf sc ->
  id_shown (sc_trace_id sc) (trace_id_string (sc_trace_id sc)) /\ length (trace_id_string (sc_trace_id sc)) = 32 /\
  id_shown (sc_span_id sc) (span_id_string (sc_span_id sc)) /\ length (span_id_string (sc_span_id sc)) = 16 /\
  hdr_get (b3_to_request sc h) b3_trace_id_header = trace_id_string (sc_trace_id sc) /\
  hdr_get (b3_to_request sc h) b3_span_id_header = span_id_string (sc_span_id sc) /\
  b3_parse_trace_id (trace_id_string (sc_trace_id sc)) = Some (sc_trace_id sc) /\
  b3_parse_span_id (span_id_string (sc_span_id sc)) = Some (sc_span_id sc) /\
  exists flags, fst (tc_to_headers sc) = bs "00-" ++ trace_id_string (sc_trace_id sc) ++ bs "-" ++ span_id_string (sc_span_id sc) ++ bs "-" ++ flags.
Proof.
  intros (Ht & Hs & _). unfold trace_id_string, span_id_string.
  split; [apply hex_id_shown|]. split; [rewrite hex_encode_length, Ht; reflexivity|].
  split; [apply hex_id_shown|]. split; [rewrite hex_encode_length, Hs; reflexivity|].
  split. { unfold b3_to_request. rewrite !hdr_get_set_other by reflexivity. apply hdr_get_set_same. }
  split. { unfold b3_to_request. rewrite hdr_get_set_other by reflexivity. apply hdr_get_set_same. }
  split. { unfold b3_parse_trace_id. destruct (hex_encode (sc_trace_id sc)) eqn:E.
    - apply (f_equal (@List.length _)) in E. rewrite hex_encode_length, Ht in E. discriminate E.
    - rewrite <- E, hex_decode_encode, Ht. cbn [Nat.ltb Nat.leb Nat.sub]. now rewrite copy_all. }
  split. { unfold b3_parse_span_id. destruct (hex_encode (sc_span_id sc)) eqn:E.
    - apply (f_equal (@List.length _)) in E. rewrite hex_encode_length, Hs in E. discriminate E.
    - rewrite <- E, hex_decode_encode, Hs. cbn [Nat.ltb Nat.leb Nat.sub]. now rewrite copy_all. }
  exists (hex_encode [n2b (sc_options sc)]). reflexivity.
Qed.

(** The first row of a span shows its identity, in the text and on the page; where the
    page has markup, it is the fixed one, with hex digits between (so nothing of a span
    can be taken for HTML). *)
Theorem C79_identity sc parent : sc <> zero_sc ->
  identity sc parent (id_text (Some (sc, parent))) /\ identity_html sc parent (id_html (Some (sc, parent))).
Proof.
  intros Hz. assert (E : is_zero_sc sc = false).
  { destruct (is_zero_sc sc) eqn:E; [|reflexivity]. exfalso. apply Hz. unfold is_zero_sc in E.
    destruct sc as [t s o ts]. cbn [sc_trace_id sc_span_id sc_options sc_tracestate] in E.
    destruct ts; [now rewrite andb_false_r in E|]. rewrite andb_true_r in E. apply andb_prop in E. destruct E as [E Eo].
    apply andb_prop in E. destruct E as [Et Es]. apply bytes_eqb_eq in Et, Es. apply N.eqb_eq in Eo. subst. reflexivity. }
  cbn [id_text id_html]. rewrite E. unfold identity, identity_html, trace_id_string, span_id_string, is_sampled. split.
  - exists (hex_encode (sc_trace_id sc)), (hex_encode (sc_span_id sc)). split; [apply hex_id_shown|]. split; [apply hex_id_shown|].
    destruct (bytes_eqb_spec parent zero_span_id) as [->|Hne]; [left|right].
    + split; [reflexivity|]. now rewrite app_nil_r.
    + split; [exact Hne|]. exists (hex_encode parent). split; [apply hex_id_shown|reflexivity].
  - exists (hex_encode (sc_trace_id sc)), (hex_encode (sc_span_id sc)), (if bytes_eqb parent zero_span_id then [] else bs " parent_span_id: " ++ hex_encode parent).
    split; [apply hex_id_shown|]. split; [apply hex_id_shown|].
    destruct (bytes_eqb_spec parent zero_span_id) as [->|Hne].
    + split; [left; split; reflexivity|]. now rewrite app_nil_r.
    + split; [right; split; [exact Hne|]; exists (hex_encode parent); split; [apply hex_id_shown|reflexivity]|]. now rewrite <- !app_assoc.
Qed.

Lemma app_inj_length {A} (a a' b b' : list A) : a ++ b = a' ++ b' -> length a = length a' -> a = a' /\ b = b'.
Proof.
  revert a'. induction a as [|x a IH]; intros [|x' a'] E L; try discriminate L; [auto|]. cbn in E. injection E as -> E. injection L as L.
  destruct (IH _ E L) as [-> ->]. auto.
Qed.

(** It tells spans apart: the identifiers can be read from it. *)
Theorem C79_identity_read sc parent sc' parent' s : sc_wf sc -> sc_wf sc' ->
  identity sc parent s -> identity sc' parent' s ->
  sc_trace_id sc = sc_trace_id sc' /\ sc_span_id sc = sc_span_id sc' /\ parent = parent'.
Proof.
  intros (Ht & Hs & _) (Ht' & Hs' & _) (a & b & [Ha _] & [Hb _] & H) (a' & b' & [Ha' _] & [Hb' _] & H').
  pose proof (hex_of_length _ _ Ha) as La. pose proof (hex_of_length _ _ Hb) as Lb.
  pose proof (hex_of_length _ _ Ha') as La'. pose proof (hex_of_length _ _ Hb') as Lb'. rewrite Ht in La. rewrite Hs in Lb. rewrite Ht' in La'. rewrite Hs' in Lb'.
  assert (Hx : exists r r', s = bs "trace_id: " ++ a ++ bs " span_id: " ++ b ++ r /\ s = bs "trace_id: " ++ a' ++ bs " span_id: " ++ b' ++ r' /\
    ((parent = zero_span_id /\ r = []) \/ (parent <> zero_span_id /\ exists c, id_shown parent c /\ r = bs " parent_span_id: " ++ c)) /\
    ((parent' = zero_span_id /\ r' = []) \/ (parent' <> zero_span_id /\ exists c, id_shown parent' c /\ r' = bs " parent_span_id: " ++ c))).
  { destruct H as [[P E]|(P & c & C & E)], H' as [[P' E']|(P' & c' & C' & E')].
    - exists [], []. rewrite !app_nil_r. auto 10.
    - exists [], (bs " parent_span_id: " ++ c'). rewrite app_nil_r. eauto 12.
    - exists (bs " parent_span_id: " ++ c), []. rewrite app_nil_r. eauto 12.
    - exists (bs " parent_span_id: " ++ c), (bs " parent_span_id: " ++ c'). eauto 14. }
  destruct Hx as (r & r' & E & E' & R & R'). rewrite E in E'. apply app_inv_head in E'.
  apply app_inj_length in E'; [|congruence]. destruct E' as [-> E']. apply app_inv_head in E'.
  apply app_inj_length in E'; [|congruence]. destruct E' as [-> E'].
  split; [exact (hex_of_fun _ _ _ Ha Ha')|]. split; [exact (hex_of_fun _ _ _ Hb Hb')|].
  destruct R as [[P R]|(P & c & [C _] & R)], R' as [[P' R']|(P' & c' & [C' _] & R')]; rewrite R, R' in E'.
  - congruence.
  - discriminate E'.
  - discriminate E'.
  - apply app_inv_head in E'. subst c'. exact (hex_of_fun _ _ _ C C').
Qed.

(** ** The rows of spans *)

(** If no date, elapsed time or text has a tab or a line feed, the text page is a table with
    one line for each row, its three columns and, after the text, the identity. *)
Theorem C79_spans when_text rows :
  (forall r, In r rows -> clean (when_text (tr_when r)) /\ clean (tr_elapsed r) /\ clean (tr_text r)) ->
  table_of (text_traces when_text rows) =
    [bs "When"; bs "Elapsed(s)"; bs "Type"] ::
    map (fun r => [when_text (tr_when r); tr_elapsed r; tr_text r ++ id_text (tr_span r)]) rows.
Proof.
  intros H. rewrite <- (table_lines ([bs "When"; bs "Elapsed(s)"; bs "Type"] :: map (fun r => [when_text (tr_when r); tr_elapsed r; tr_text r ++ id_text (tr_span r)]) rows)).
  - f_equal. unfold text_traces. cbn [map concat]. rewrite map_map.
    replace (map (text_line when_text) rows) with (map (fun r => join_byte tab [when_text (tr_when r); tr_elapsed r; tr_text r ++ id_text (tr_span r)] ++ [newline]) rows).
    + reflexivity.
    + apply map_ext. intros r. unfold text_line. cbn [join_byte]. rewrite <- !app_assoc. cbn [app]. rewrite <- !app_assoc. cbn [app]. rewrite <- !app_assoc. reflexivity.
  - constructor; [split; [discriminate|repeat constructor; clean_lit]|]. apply Forall_map. apply Forall_forall. intros r Hr.
    destruct (H r Hr) as (H1 & H2 & H3). split; [discriminate|]. repeat constructor; try assumption; try apply H1; try apply H2; apply clean_app; auto; apply clean_id.
Qed.

(** ** The summary *)

Definition count_cell (x : nat) : bytes := if x =? 0 then bs "." else itoa (Z.of_nat x).

Lemma put_cell x : put_count x = count_cell x ++ [tab].
Proof. unfold put_count, count_cell. destruct (x =? 0); reflexivity. Qed.
Lemma count_cell_says x : cell_says (count_cell x) x.
Proof.
  unfold count_cell. destruct (Nat.eqb_spec x 0) as [->|H]; [left; auto|right]. split; [lia|apply itoa_decimal].
Qed.
Lemma count_cell_clean x : clean (count_cell x).
Proof. unfold count_cell. destruct (x =? 0); [clean_lit|apply clean_itoa]. Qed.

Lemma join_cons x l : l <> [] -> join_byte tab (x :: l) = x ++ tab :: join_byte tab l.
Proof. destruct l; [congruence|reflexivity]. Qed.

Lemma join_puts ls rest : rest <> [] -> join_byte tab (map count_cell ls ++ rest) = concat (map put_count ls) ++ join_byte tab rest.
Proof.
  intros Hr. induction ls as [|x ls IH]; [reflexivity|]. cbn [map concat app]. rewrite join_cons by (destruct ls; [exact Hr|discriminate]).
  rewrite IH, put_cell, <- !app_assoc. reflexivity.
Qed.

Definition summary_cells (r : page_row) : list bytes :=
  pr_name r :: count_cell (pr_active r) :: map count_cell (pr_latency r) ++ [count_cell (pr_errors r); []].

Lemma summary_line_cells r : summary_line r = join_byte tab (summary_cells r) ++ [newline].
Proof.
  unfold summary_line, summary_cells. rewrite join_cons by discriminate. rewrite join_cons by (destruct (map count_cell (pr_latency r)); discriminate).
  rewrite join_puts by discriminate. cbn [join_byte]. rewrite !put_cell. repeat (rewrite <- !app_assoc; cbn [app]). reflexivity.
Qed.

(** The summary is, after its title, a table: the headings, and one line for each span name
    with its name and its numbers (C60_summary says what they count). *)
Theorem C79_summary en dur o h w : trun en h w -> (forall d, clean (dur d)) -> (forall n, has_row h n -> clean n) -> (exists n, has_row h n) ->
  exists text body, text_summary dur o w = bs "Locally sampled spans summary" ++ [newline; newline] ++ text /\
    table_of text = ([bs "Name"; bs "Active"] ++ map (fun j => bs ">" ++ dur (column_from j)) (seq 0 9) ++ [bs "Errors"]) :: body /\
    Forall2 (fun r cells => exists a ls e, cells = pr_name r :: a :: ls ++ [e; []] /\
               cell_says a (pr_active r) /\ Forall2 cell_says ls (pr_latency r) /\ cell_says e (pr_errors r)) (summary_rows o w) body.
Proof.
  intros H Hd Hn Hex. destruct (C60_header en h w o H) as [Hh _]. specialize (Hh Hex). destruct (C60_rows en h w o H) as [_ Hrows].
  assert (Hheads : summary_heads dur o w = [bs "Name"; bs "Active"] ++ map (fun j => bs ">" ++ dur (column_from j)) (seq 0 9) ++ [bs "Errors"]).
  { unfold summary_heads. rewrite Hh. reflexivity. }
  unfold text_summary. rewrite Hheads. destruct (summary_rows o w) as [|r0 rows] eqn:Er.
  { exfalso. destruct Hex as [n Hx]. apply Hrows in Hx. destruct Hx. }
  eexists. exists (map summary_cells (r0 :: rows)). split; [reflexivity|]. split.
  - rewrite <- (table_lines (([bs "Name"; bs "Active"] ++ map (fun j => bs ">" ++ dur (column_from j)) (seq 0 9) ++ [bs "Errors"]) :: map summary_cells (r0 :: rows))).
    + f_equal. rewrite (map_ext _ _ summary_line_cells). rewrite (map_cons _ (_ ++ _)), map_map. cbn [concat]. now rewrite <- app_assoc.
    + constructor.
      * split; [discriminate|]. cbn [app map seq]. repeat (apply Forall_cons; [first [clean_lit | apply clean_app; [clean_lit|apply Hd]]|]). constructor.
      * apply Forall_map. apply Forall_forall. intros r Hr. split; [discriminate|]. unfold summary_cells. constructor.
        { apply Hn, Hrows. now apply in_map. }
        constructor; [apply count_cell_clean|]. apply Forall_app. split; [apply Forall_map, Forall_forall; intros; apply count_cell_clean|].
        constructor; [apply count_cell_clean|]. constructor; [clean_lit|constructor].
  - clear. induction (r0 :: rows) as [|r l IH]; cbn [map]; constructor; [|exact IH].
    exists (count_cell (pr_active r)), (map count_cell (pr_latency r)), (count_cell (pr_errors r)).
    split; [reflexivity|]. split; [apply count_cell_says|]. split; [|apply count_cell_says].
    induction (pr_latency r) as [|x ls IHl]; cbn [map]; constructor; [apply count_cell_says|exact IHl].
Qed.

(** Without a span name it is only the title. *)
Theorem C79_summary_empty en dur o h w : trun en h w -> (forall n, ~ has_row h n) ->
  text_summary dur o w = bs "Locally sampled spans summary" ++ [newline; newline].
Proof.
  intros H Hn. destruct (C60_rows en h w o H) as [_ Hrows]. unfold text_summary. destruct (summary_rows o w) as [|r rows]; [reflexivity|].
  exfalso. apply (Hn (pr_name r)), Hrows. now left.
Qed.

(** ** The links *)

Lemma parse_value ds : forall acc n, dec_value acc ds = Some n ->
  if (n <? two64)%N then parse_digits acc ds = Some (n, false)
  else (acc < two64)%N -> exists b, parse_digits acc ds = Some ((two64 - 1)%N, b).
Proof.
  assert (Hmono : forall ds acc n, dec_value acc ds = Some n -> (acc <= n)%N).
  { induction ds0 as [|c ds0 IH]; intros acc n; cbn [dec_value]; [intros [= <-]; lia|]. destruct (is_digit c); [|discriminate].
    intros H. apply IH in H. lia. }
  induction ds as [|c ds IH]; intros acc n; cbn [dec_value parse_digits].
  - intros [= <-]. destruct (N.ltb_spec acc two64); [reflexivity|lia].
  - destruct (is_digit c) eqn:Ec; [|discriminate]. intros H. pose proof (Hmono _ _ _ H) as Hm.
    replace (10 * acc + (b2n c - 48))%N with (acc * 10 + (b2n c - 48))%N by lia.
    specialize (IH _ _ H). destruct (N.ltb_spec n two64).
    + destruct (N.leb_spec two64 (acc * 10 + (b2n c - 48))); [lia|exact IH].
    + intros _. destruct (N.leb_spec two64 (acc * 10 + (b2n c - 48))); [eauto|]. now apply IH.
Qed.

Lemma parse_garbage ds : forall acc k, (length ds <= k) -> k <= 19 -> (acc < 10 ^ (19 - N.of_nat k))%N -> dec_value acc ds = None -> parse_digits acc ds = None.
Proof.
  induction ds as [|c ds IH]; intros acc k Hl Hk Ha; cbn [dec_value parse_digits]; [discriminate|].
  destruct (is_digit c) eqn:Ec; [|reflexivity]. intros H. destruct k as [|k]; [cbn in Hl; lia|].
  replace (10 * acc + (b2n c - 48))%N with (acc * 10 + (b2n c - 48))%N by lia.
  assert (Hb : (acc * 10 + (b2n c - 48) < 10 ^ (19 - N.of_nat k))%N).
  { replace (19 - N.of_nat k)%N with (N.succ (19 - N.of_nat (S k))) by lia. rewrite N.pow_succ_r'. unfold is_digit in Ec. nia. }
  assert (Hc : (10 ^ (19 - N.of_nat k) <= 10 ^ 19)%N) by (apply N.pow_le_mono_r; lia).
  change (10 ^ 19)%N with 10000000000000000000%N in Hc. change two64 with 18446744073709551616%N.
  destruct (N.leb_spec 18446744073709551616 (acc * 10 + (b2n c - 48))); [lia|]. apply (IH _ k); [cbn in Hl; lia|lia|exact Hb|exact H].
Qed.

Lemma digit_not_sign ds n : dec_value 0 ds = Some n -> forall c r, ds = c :: r -> (b2n c =? 45)%N = false /\ (b2n c =? 43)%N = false.
Proof. intros H c r ->. cbn [dec_value] in H. destruct (is_digit c) eqn:E; [|discriminate]. unfold is_digit in E. lia. Qed.

(** The type and the column of a request are read as numbers; what is not a number counts
    as 0. *)
Theorem C79_number s : 
  (forall z, reads_number s z -> atoi s = Z.max (- 2 ^ 63) (Z.min (2 ^ 63 - 1) z)) /\
  (length s <= 19 -> (forall z, ~ reads_number s z) -> atoi s = 0%Z).
Proof.
  split.
  - intros z (ds & n & Hne & Hd & H). pose proof (parse_value _ _ _ Hd) as Hp.
    assert (Hp' : exists m b, parse_digits 0 ds = Some (m, b) /\ (m = n /\ (n < two64)%N \/ m = two64 - 1 /\ two64 <= n)%N).
    { destruct (N.ltb_spec n two64); [eauto 8|]. destruct Hp as [b Hp]; [reflexivity|]. eauto 8. }
    clear Hp. destruct Hp' as (m & b & Hp & Hm). change two64 with 18446744073709551616%N in Hm. unfold atoi.
    destruct H as [[[-> | ->] ->]|[-> ->]].
    + destruct ds as [|c r]; [congruence|]. destruct (digit_not_sign _ _ Hd c r eq_refl) as [-> ->]. rewrite Hp. lia.
    + change (bs "+" ++ ds) with (n2b 43 :: ds). destruct ds; [congruence|]. cbv beta match. change (b2n (n2b 43) =? 45)%N with false. change (b2n (n2b 43) =? 43)%N with true. cbv match. rewrite Hp. lia.
    + change (bs "-" ++ ds) with (n2b 45 :: ds). destruct ds; [congruence|]. cbv beta match. change (b2n (n2b 45) =? 45)%N with true. cbv match. rewrite Hp. lia.
  - intros Hl Hn. unfold atoi. set (p := match s with [] => _ | _ => _ end). destruct p as [neg ds] eqn:Ep. subst p.
    destruct ds as [|c ds]; [reflexivity|].
    assert (Hds : length (c :: ds) <= 19 /\ (s = c :: ds \/ s = bs "+" ++ c :: ds \/ s = bs "-" ++ c :: ds)).
    { destruct s as [|c0 r]; [discriminate|]. destruct (N.eqb_spec (b2n c0) 45) as [E|_].
      - injection Ep as _ <-. cbn [length] in *. split; [lia|]. right. right. rewrite <- (n2b_b2n c0), E. reflexivity.
      - destruct (N.eqb_spec (b2n c0) 43) as [E|_]; inversion Ep; subst.
        + cbn [length] in *. split; [lia|]. right. left. rewrite <- (n2b_b2n c0), E. reflexivity.
        + auto. }
    destruct Hds as [Hl2 Hs]. destruct (dec_value 0 (c :: ds)) as [n|] eqn:Ed.
    + exfalso. destruct Hs as [Hs|[Hs|Hs]].
      * apply (Hn (Z.of_N n)). exists (c :: ds), n. repeat split; [discriminate|exact Ed|auto].
      * apply (Hn (Z.of_N n)). exists (c :: ds), n. repeat split; [discriminate|exact Ed|auto].
      * apply (Hn (- Z.of_N n)%Z). exists (c :: ds), n. repeat split; [discriminate|exact Ed|auto].
    + now rewrite (parse_garbage (c :: ds) 0 19 Hl2 (le_n _) eq_refl Ed).
Qed.

(** The links of the summary of a name that is not empty ask for the active spans, the spans
    of the latency column they stand in, and the spans with errors (C60 says what these
    are); a request without a name lists nothing. *)
Theorem C79_links o name : name <> [] ->
  tracez_request o (link_form name 0 None) = Some (TReportActive o name) /\
  (forall j, j <= 8 -> tracez_request o (link_form name 1 (Some j)) = trace_spans o name 1 (Z.of_nat j)) /\
  tracez_request o (link_form name 2 (Some 0)) = Some (TReportErrors o name 0).
Proof.
  intros Hne. unfold tracez_request.
  assert (E : forall t sub, form_get (link_form name t sub) (bs "zspanname") = name) by (intros t [j|]; reflexivity). rewrite !E.
  destruct (bytes_eqb_spec name []) as [?|_]; [contradiction|]. split; [reflexivity|]. split; [|reflexivity].
  intros j Hj. rewrite E. destruct (bytes_eqb_spec name []) as [?|_]; [contradiction|].
  do 9 (destruct j as [|j]; [vm_compute; reflexivity|]). lia.
Qed.

Lemma form_get_first form k v : first_value form k v -> form_get form k = v.
Proof.
  intros (pre & post & -> & H). induction pre as [|[k' v'] pre IH]; cbn [app form_get].
  - destruct (bytes_eqb_spec k k) as [_|n]; [reflexivity|contradiction].
  - destruct (bytes_eqb_spec k' k) as [e|_]; [exfalso; apply (H (k', v')); [now left|exact e]|].
    apply IH. intros x Hx. apply H. now right.
Qed.

(** Of a parameter given several times the first one counts, and other parameters do not matter. *)
Theorem C79_first_value o form name t sub : name <> [] ->
  first_value form (bs "zspanname") name -> first_value form (bs "ztype") t -> first_value form (bs "zsubtype") sub ->
  tracez_request o form = trace_spans o name (atoi t) (atoi sub).
Proof.
  intros Hn H1 H2 H3. unfold tracez_request. rewrite (form_get_first _ _ _ H1), (form_get_first _ _ _ H2), (form_get_first _ _ _ H3).
  destruct (bytes_eqb_spec name []) as [?|_]; [contradiction|reflexivity].
Qed.

Example C79_first_value_nonvacuous :
  let form := [(bs "x", bs "y"); (bs "ztype", bs "1"); (bs "zspanname", bs "n"); (bs "ztype", bs "2"); (bs "zsubtype", bs "3"); (bs "zspanname", bs "m")] in
  first_value form (bs "zspanname") (bs "n") /\ first_value form (bs "ztype") (bs "1") /\ first_value form (bs "zsubtype") (bs "3") /\
  tracez_request id_order form = trace_spans id_order (bs "n") 1 3.
Proof.
  split; [|split; [|split; [|reflexivity]]].
  - exists [(bs "x", bs "y"); (bs "ztype", bs "1")], [(bs "ztype", bs "2"); (bs "zsubtype", bs "3"); (bs "zspanname", bs "m")].
    split; [reflexivity|]. intros y Hy. cbn in Hy. destruct Hy as [<-|[<-|[]]]; discriminate.
  - exists [(bs "x", bs "y")], [(bs "zspanname", bs "n"); (bs "ztype", bs "2"); (bs "zsubtype", bs "3"); (bs "zspanname", bs "m")].
    split; [reflexivity|]. intros y Hy. cbn in Hy. destruct Hy as [<-|[]]; discriminate.
  - exists [(bs "x", bs "y"); (bs "ztype", bs "1"); (bs "zspanname", bs "n"); (bs "ztype", bs "2")], [(bs "zspanname", bs "m")].
    split; [reflexivity|]. intros y Hy. cbn in Hy. destruct Hy as [<-|[<-|[<-|[<-|[]]]]]; discriminate.
Qed.

(** Without a span name in the request, or with the empty one, no spans are listed. *)
Theorem C79_no_name o form :
  (forall v, ~ In (bs "zspanname", v) form) \/ first_value form (bs "zspanname") [] -> tracez_request o form = None.
Proof.
  intros H. assert (E : form_get form (bs "zspanname") = []).
  { destruct H as [H|H]; [|exact (form_get_first _ _ _ H)].
    induction form as [|[k v] r IH]; [reflexivity|]. cbn [form_get].
    destruct (bytes_eqb_spec k (bs "zspanname")) as [->|_]; [exfalso; apply (H v); now left|].
    apply IH. intros v' Hv. apply (H v'). now right. }
  unfold tracez_request. now rewrite E.
Qed.

(** Finding: spans may have the empty name; their row is there, but its links list nothing. *)
Theorem C79_empty_name_refuted : exists h w, trun true h w /\
  summary_rows id_order w = [MkPR [] 1 [0; 0; 0; 0; 0; 0; 0; 0; 0] 0] /\ tracez_request id_order (link_form [] 0 None) = None.
Proof.
  pose (ops := [TCreate PNone false [] [WithSampler (Some always_sample)] (ex_id 16 x01) (ex_id 8 x02) 100; TStoreAdd 0]).
  destruct (texec (init_world true) ops) as [[h w]|] eqn:E.
  2:{ exfalso. apply (f_equal (fun x => match x with Some _ => true | None => false end)) in E. vm_compute in E. discriminate. }
  exists h, w. split; [apply (trun_exec true _ [] _ h w (trun_nil true) E)|].
  assert (E1 : option_map (fun x => summary_rows id_order (snd x)) (texec (init_world true) ops) = Some [MkPR [] 1 [0; 0; 0; 0; 0; 0; 0; 0; 0] 0])
    by (vm_compute; reflexivity).
  rewrite E in E1. cbn [option_map snd] in E1. injection E1 as E1. split; [exact E1|reflexivity].
Qed.

(** Finding: messages and names are written as they are, so the text of one annotation can
    read like two, and a span name with a tab like a name and a number. *)
Definition plain_text (m : row_msg) : bytes := match m with MAnnot m _ => m | _ => [] end.
Definition forged (l : list annotation) : sdata := MkSD zero_sc zero_span_id 0 (bs "n") 1000 zero_time [] l [] (0%Z, []) [] false 0 0 0 0 0.
Theorem C79_forged_refuted :
  let page l := text_traces (fun w => match w with WNone => [] | _ => bs "00:00" end) (page_rows (fun _ => 0%Z) plain_text id_order [forged l]) in
  page [MkAn 101000000000 (bs "a" ++ [newline] ++ bs "00:00" ++ [tab] ++ bs "    2.000000" ++ [tab] ++ bs "b") None] =
  page [MkAn 101000000000 (bs "a") None; MkAn 103000000000 (bs "b") None].
Proof. vm_compute. reflexivity. Qed.

Theorem C79_name_refuted :
  summary_line (MkPR (bs "a" ++ [tab] ++ bs "7") 1 [] 2) = summary_line (MkPR (bs "a") 7 [1] 2).
Proof. vm_compute. reflexivity. Qed.

(** ** rpcz *)

Lemma rpcz_cells_line dur fix2 s : rpcz_line dur fix2 s (rpcz_cells dur fix2 s).
Proof.
  exists (itoa (Z.of_N (sn_count s))), (itoa (Z.of_N (sn_errors s))), (bs "0"), (fix2 f_zero).
  split; [apply itoa_decimal|]. split; [apply itoa_decimal|]. split; [reflexivity|]. split; [reflexivity|].
  unfold rpcz_cells. replace (f_div f_zero bytes_per_kb) with f_zero by (vm_compute; reflexivity). reflexivity.
Qed.

Lemma rpcz_table_read dur fix2 l : (forall d, clean (dur d)) -> (forall x, clean (fix2 x)) -> Forall (fun s => clean (sn_method s)) l ->
  table_of (rpcz_table dur fix2 l) = rpcz_head1 :: rpcz_head2 :: map (rpcz_cells dur fix2) l.
Proof.
  intros Hd Hf Hl. apply table_lines. constructor; [split; [discriminate|]; unfold rpcz_head1; repeat (apply Forall_cons; [clean_lit|]); constructor|].
  constructor; [split; [discriminate|]; unfold rpcz_head2; repeat (apply Forall_cons; [clean_lit|]); constructor|].
  apply Forall_map. eapply Forall_impl; [|exact Hl]. intros s Hs. split; [discriminate|]. unfold rpcz_cells.
  repeat (apply Forall_cons; [first [exact Hs | apply clean_itoa | apply Hd | apply Hf]|]). constructor.
Qed.

(** The rpcz text has two tables, sent and received, with one line for each method, in the
    order of the page (C67 says what the numbers are). *)
Theorem C79_rpcz_text dur fix2 o snaps : (forall d, clean (dur d)) -> (forall x, clean (fix2 x)) -> Forall (fun ks => clean (sn_method (snd ks))) snaps ->
  exists a b rows_a rows_b head1 head2,
    text_rpcz dur fix2 o snaps = bs "Sent:" ++ [newline] ++ a ++ [newline] ++ bs "Received:" ++ [newline] ++ b /\
    head1 = bs "Method" :: flat_map (fun g => [g; []; []]) [bs "Count"; bs "AvgLat"; bs "MaxLat"; bs "Rate"; bs "In (MiB/s)"; bs "Out (MiB/s)"; bs "Errors"] /\
    head2 = [] :: concat (repeat [bs "Min"; bs "Hr"; bs "Tot"] 7) /\
    table_of a = head1 :: head2 :: rows_a /\ table_of b = head1 :: head2 :: rows_b /\
    Forall2 (rpcz_line dur fix2) (fst (stats_page o snaps)) rows_a /\ Forall2 (rpcz_line dur fix2) (snd (stats_page o snaps)) rows_b.
Proof.
  intros Hd Hf Hs. exists (rpcz_table dur fix2 (stats_group o snaps false)), (rpcz_table dur fix2 (stats_group o snaps true)),
    (map (rpcz_cells dur fix2) (stats_group o snaps false)), (map (rpcz_cells dur fix2) (stats_group o snaps true)), rpcz_head1, rpcz_head2.
  assert (Hc : forall r, Forall (fun s => clean (sn_method s)) (stats_group o snaps r)).
  { intros r. unfold stats_group. apply Forall_forall. intros s Hin. eapply Permutation_in in Hin; [|apply isort_perm].
    apply in_map_iff in Hin. destruct Hin as (ks & <- & Hin). apply filter_In in Hin. destruct Hin as [Hin _].
    eapply Permutation_in in Hin; [|apply ord_perm]. rewrite Forall_forall in Hs. now apply Hs. }
  assert (Hl : forall l, Forall2 (rpcz_line dur fix2) l (map (rpcz_cells dur fix2) l)).
  { induction l; cbn [map]; constructor; [apply rpcz_cells_line|assumption]. }
  split; [reflexivity|]. split; [reflexivity|]. split; [reflexivity|]. split; [now apply rpcz_table_read|]. split; [now apply rpcz_table_read|]. split; apply Hl.
Qed.

(** Finding: the headings have a group MaxLat the lines do not have, so from there on every
    number stands under the wrong heading: the calls per second under MaxLat, the KiB
    received under Rate, the KiB sent under In, the errors under Out, and nothing under
    Errors.  In and Out are said to be MiB. *)
Theorem C79_rpcz_columns_refuted dur fix2 s l : (forall d, clean (dur d)) -> (forall x, clean (fix2 x)) -> Forall (fun s => clean (sn_method s)) (s :: l) ->
  let t := table_of (rpcz_table dur fix2 (s :: l)) in
  let row := nth 2 t [] in
  (heading t 3 = (bs "Count", bs "Tot") /\ decimal (Z.of_N (sn_count s)) (nth 3 row [])) /\
  (heading t 6 = (bs "AvgLat", bs "Tot") /\ nth 6 row [] = dur (sn_latency s)) /\
  (heading t 9 = (bs "MaxLat", bs "Tot") /\ nth 9 row [] = fix2 (sn_rate s)) /\
  (heading t 12 = (bs "Rate", bs "Tot") /\ nth 12 row [] = fix2 (f_div (sn_in s) (f_of_Z 1024))) /\
  (heading t 15 = (bs "In (MiB/s)", bs "Tot") /\ nth 15 row [] = fix2 (f_div (sn_out s) (f_of_Z 1024))) /\
  (heading t 18 = (bs "Out (MiB/s)", bs "Tot") /\ decimal (Z.of_N (sn_errors s)) (nth 18 row [])) /\
  (heading t 21 = (bs "Errors", bs "Tot") /\ nth_error row 21 = None).
Proof.
  intros Hd Hf Hl. cbv zeta. rewrite rpcz_table_read by assumption. unfold heading. cbn [nth map].
  do 6 (split; [split; [reflexivity|first [apply itoa_decimal | reflexivity]]|]). split; reflexivity.
Qed.

(** ** Examples *)

Example C79_nonvacuous :
  id_text (Some (MkSC (ex_id 16 x01) (ex_id 8 x02) 1 None, ex_id 8 x03)) =
    bs "trace_id: 00000000000000000000000000000001 span_id: 0000000000000002 parent_span_id: 0000000000000003" /\
  sc_wf (MkSC (ex_id 16 x01) (ex_id 8 x02) 1 None) /\
  id_html (Some (MkSC (ex_id 16 x01) (ex_id 8 x02) 0 None, zero_span_id)) =
    bs "trace_id: <b style=" ++ [n2b 34] ++ bs "color:black" ++ [n2b 34] ++ bs ">00000000000000000000000000000001</b> span_id: 0000000000000002" /\
  atoi (bs "-12") = (-12)%Z /\ atoi (bs "99999999999999999999") = (2 ^ 63 - 1)%Z /\ atoi (bs "1x") = 0%Z /\
  table_of (text_traces (fun _ => bs "t") (page_rows (fun _ => 0%Z) plain_text id_order [forged [MkAn 101000000000 (bs "a") None]])) =
    [[bs "When"; bs "Elapsed(s)"; bs "Type"]; [bs "t"; bs "            "; []]; [bs "t"; bs "  100.999999"; bs "a"]].
Proof. repeat split; vm_compute; reflexivity. Qed.

Example C79_nonvacuous_summary : exists h w, trun true h w /\ (exists n, has_row h n) /\ (forall n, has_row h n -> clean n) /\
  text_summary (fun d => itoa d) id_order w =
    bs "Locally sampled spans summary" ++ [newline; newline] ++
    join_byte tab [bs "Name"; bs "Active"; bs ">0"; bs ">10000"; bs ">100000"; bs ">1000000"; bs ">10000000"; bs ">100000000"; bs ">1000000000"; bs ">10000000000"; bs ">60000000000"; bs "Errors"] ++ [newline] ++
    join_byte tab [bs "kid"; bs "."; bs "."; bs "."; bs "."; bs "."; bs "."; bs "."; bs "."; bs "."; bs "."; bs "1"; []] ++ [newline] ++
    join_byte tab [bs "root"; bs "."; bs "1"; bs "."; bs "."; bs "."; bs "."; bs "."; bs "."; bs "."; bs "."; bs "."; []] ++ [newline].
Proof.
  destruct (texec (init_world true) ex_ops) as [[h w]|] eqn:E.
  2:{ exfalso. apply (f_equal (fun x => match x with Some _ => true | None => false end)) in E. vm_compute in E. discriminate. }
  assert (Hr : trun true h w) by apply (trun_exec true _ [] _ h w (trun_nil true) E).
  exists h, w. split; [exact Hr|].
  assert (E1 : option_map (fun x => map pr_name (summary_rows id_order (snd x))) (texec (init_world true) ex_ops) = Some [bs "kid"; bs "root"]) by (vm_compute; reflexivity).
  rewrite E in E1. cbn [option_map snd] in E1. injection E1 as E1. destruct (C60_rows true h w id_order Hr) as [_ Hn]. rewrite E1 in Hn.
  split; [exists (bs "kid"); apply Hn; now left|]. split.
  { intros n Hx. apply Hn in Hx. destruct Hx as [<-|[<-|[]]]; clean_lit. }
  match goal with |- text_summary ?d _ _ = ?r =>
    assert (E2 : option_map (fun x => text_summary d id_order (snd x)) (texec (init_world true) ex_ops) = Some r) by (vm_compute; reflexivity) end.
  rewrite E in E2. cbn [option_map snd] in E2. apply (f_equal (fun x => match x with Some y => y | None => [] end)) in E2. exact E2.
Qed.

Example C79_nonvacuous_rpcz :
  rpcz_table (fun _ => bs "1ms") (fun _ => bs "0.00") [MkSnap (bs "a/b") false 3 5 f_zero f_zero f_zero 2] <> [] /\ clean (bs "1ms") /\ clean (bs "0.00") /\ clean (bs "a/b").
Proof. split; [vm_compute; discriminate|]. split; [clean_lit|]. split; clean_lit. Qed.

Print Assumptions C79_identifiers.
Print Assumptions C79_identity.
Print Assumptions C79_identity_read.
Print Assumptions C79_spans.
Print Assumptions C79_summary.
Print Assumptions C79_summary_empty.
Print Assumptions C79_number.
Print Assumptions C79_links.
Print Assumptions C79_first_value.
Print Assumptions C79_no_name.
Print Assumptions C79_empty_name_refuted.
Print Assumptions C79_forged_refuted.
Print Assumptions C79_name_refuted.
Print Assumptions C79_rpcz_text.
Print Assumptions C79_rpcz_columns_refuted.
