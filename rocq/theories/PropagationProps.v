(** Properties C41-C44: span context propagation formats. *)

From Coq Require Import String.
From Coq Require Import List NArith Bool Arith Lia.
From Verif Require Import Base GoMap Text TracestateModel TracestateSpec TracestateProofs
  TraceTypes PropagationModel PropagationSpec PropagationProofs.
Import ListNotations.
Open Scope N_scope.

(** ** C41 binary format *)

Theorem C41_roundtrip sc :
  sc_wf sc -> sc <> zero_sc ->
  from_binary (binary sc) =
  Ok (Some (MkSC (sc_trace_id sc) (sc_span_id sc) (sc_options sc mod 256) None)).
Proof.
  intros Hwf Hz. apply from_binary_iff. rewrite binary_bytes by assumption.
  destruct Hwf as (Ht & Hs & _).
  exists (sc_trace_id sc), (n2b 1 :: sc_span_id sc ++ [n2b 2; n2b (sc_options sc)]).
  cbn [sc_trace_id sc_span_id sc_options sc_tracestate].
  split; [reflexivity|]. split; [exact Ht|]. split; [reflexivity|]. split; [|reflexivity].
  left. exists [n2b 2; n2b (sc_options sc)]. split; [reflexivity|]. split; [exact Hs|].
  left. exists (n2b (sc_options sc)), []. split; [reflexivity|]. now rewrite b2n_n2b.
Qed.

(** The zero value has no encoding, and no encoding is read back as "no context". *)
Theorem C41_zero sc :
  sc_wf sc -> (binary sc = [] <-> sc = zero_sc) /\ from_binary (binary zero_sc) = Ok None.
Proof.
  intros Hwf. split; [|reflexivity]. split; [|now intros ->]. intros H. destruct (is_zero_sc sc) eqn:E; [now apply is_zero_sc_iff|].
  rewrite binary_bytes in H; [discriminate|exact Hwf|].
  intros ->. discriminate.
Qed.

(** FromBinary accepts exactly the documented format, with exactly its content. *)
Theorem C41_accepts_iff b sc : from_binary b = Ok (Some sc) <-> bin_accepts b sc.
Proof. apply from_binary_iff. Qed.

(** No byte string makes FromBinary panic: it always returns. *)
Theorem C41_no_panic b : exists r, from_binary b = Ok r.
Proof. rewrite from_binary_fb. eauto. Qed.

Lemma hex_encode_lower b : lower_hex (hex_encode b) b.
Proof.
  split; [apply hex_of_encode|]. split; [apply hex_encode_length|].
  assert (D : forall n, n < 16 -> 48 <= b2n (hex_digit n) <= 57 \/ 97 <= b2n (hex_digit n) <= 102).
  { intros n Hn. unfold hex_digit. destruct (N.ltb_spec n 10); rewrite b2n_n2b_small by lia; lia. }
  induction b as [|x b IH]; [constructor|]. cbn [hex_encode]. pose proof (b2n_lt x).
  constructor; [apply D, N.div_lt_upper_bound; lia|]. constructor; [apply D, N.mod_lt; lia|exact IH].
Qed.

(** ** C42 B3 *)

(** What is sent: the three headers with one value each, in lower case; other
    headers stay. *)
Theorem C42_headers sc h :
  exists t s,
    hdr_values (b3_to_request sc h) (bs "X-B3-TraceId") = [t] /\ lower_hex t (sc_trace_id sc) /\
    hdr_values (b3_to_request sc h) (bs "X-B3-SpanId") = [s] /\ lower_hex s (sc_span_id sc) /\
    hdr_values (b3_to_request sc h) (bs "X-B3-Sampled") = [if N.odd (sc_options sc) then bs "1" else bs "0"] /\
    forall n, ~ In (canon n) [bs "X-B3-Traceid"; bs "X-B3-Spanid"; bs "X-B3-Sampled"] ->
      hdr_values (b3_to_request sc h) n = hdr_values h n.
Proof.
  exists (hex_encode (sc_trace_id sc)), (hex_encode (sc_span_id sc)). unfold b3_to_request. cbv zeta.
  assert (C : canon b3_trace_id_header = bs "X-B3-Traceid" /\ canon b3_span_id_header = bs "X-B3-Spanid" /\ canon b3_sampled_header = bs "X-B3-Sampled")
    by (repeat split; vm_compute; reflexivity).
  destruct C as (C1 & C2 & C3).
  split; [|split; [apply hex_encode_lower|split; [|split; [apply hex_encode_lower|split]]]].
  - rewrite (hdr_values_set_other _ b3_sampled_header (bs "X-B3-TraceId")), (hdr_values_set_other _ b3_span_id_header (bs "X-B3-TraceId")) by reflexivity.
    apply hdr_values_set_same.
  - rewrite (hdr_values_set_other _ b3_sampled_header (bs "X-B3-SpanId")) by reflexivity. apply hdr_values_set_same.
  - change (bs "X-B3-Sampled") with b3_sampled_header. rewrite hdr_values_set_same. unfold is_sampled.
    rewrite <- N.bit0_odd. destruct (N.testbit (sc_options sc) 0); reflexivity.
  - intros n Hn. rewrite !hdr_values_set_other; [reflexivity| | |]; rewrite ?C1, ?C2, ?C3;
      match goal with |- bytes_eqb ?a ?b = false => destruct (bytes_eqb_spec a b) as [E|]; [exfalso; apply Hn; rewrite <- E; cbn [In]; tauto|reflexivity] end.
Qed.

(** Whatever headers the request already had. *)
Theorem C42_roundtrip sc h :
  sc_wf sc ->
  b3_from_request (b3_to_request sc h) =
  Some (MkSC (sc_trace_id sc) (sc_span_id sc) (sc_options sc mod 2) None).
Proof.
  intros (Ht & Hs & _). unfold b3_from_request, b3_to_request. cbv zeta.
  rewrite (hdr_get_set_other _ b3_sampled_header b3_trace_id_header) by reflexivity.
  rewrite (hdr_get_set_other _ b3_span_id_header b3_trace_id_header) by reflexivity.
  rewrite hdr_get_set_same.
  assert (E1 : b3_parse_trace_id (hex_encode (sc_trace_id sc)) = Some (sc_trace_id sc)).
  { apply b3_parse_trace_id_iff. apply b3_id_full; [exact Ht|lia]. }
  rewrite E1.
  rewrite (hdr_get_set_other _ b3_sampled_header b3_span_id_header) by reflexivity.
  rewrite hdr_get_set_same.
  assert (E2 : b3_parse_span_id (hex_encode (sc_span_id sc)) = Some (sc_span_id sc)).
  { apply b3_parse_span_id_iff. apply b3_id_full; [exact Hs|lia]. }
  rewrite E2, hdr_get_set_same. do 2 f_equal. unfold is_sampled.
  rewrite <- N.bit0_odd, <- N.bit0_mod. destruct (N.testbit (sc_options sc) 0); reflexivity.
Qed.

(** Which headers are accepted: both IDs hexadecimal of 1..16 and 1..8 bytes, read
    as big-endian numbers (zero bytes on the left). *)
Theorem C42_accepts_iff h sc :
  b3_from_request h = Some sc <->
  b3_id 16 (hdr_get h (bs "X-B3-TraceId")) (sc_trace_id sc) /\
  b3_id 8 (hdr_get h (bs "X-B3-SpanId")) (sc_span_id sc) /\
  sc_tracestate sc = None /\
  ((In (hdr_get h (bs "X-B3-Sampled")) [bs "1"; bs "true"] /\ sc_options sc = 1) \/
   (~ In (hdr_get h (bs "X-B3-Sampled")) [bs "1"; bs "true"] /\ sc_options sc = 0)).
Proof.
  unfold b3_from_request.
  change b3_trace_id_header with (bs "X-B3-TraceId").
  change b3_span_id_header with (bs "X-B3-SpanId").
  change b3_sampled_header with (bs "X-B3-Sampled").
  generalize (hdr_get h (bs "X-B3-TraceId")) as a.
  generalize (hdr_get h (bs "X-B3-SpanId")) as b.
  generalize (hdr_get h (bs "X-B3-Sampled")) as c. intros c b a.
  assert (Hs : fst (b3_parse_sampled c) = 1 /\ In c [bs "1"; bs "true"] \/
               fst (b3_parse_sampled c) = 0 /\ ~ In c [bs "1"; bs "true"]).
  { unfold b3_parse_sampled. destruct (bytes_eqb_spec c (bs "true")) as [->|H1].
    - left. simpl. auto.
    - destruct (bytes_eqb_spec c (bs "1")) as [->|H2].
      + left. simpl. auto.
      + right. split; [reflexivity|]. intros [E|[E|[]]]; congruence. }
  split.
  - destruct (b3_parse_trace_id a) as [t|] eqn:Ea; [|discriminate].
    destruct (b3_parse_span_id b) as [s|] eqn:Eb; [|discriminate].
    intros H. apply some_inj in H. subst sc.
    cbn [sc_trace_id sc_span_id sc_options sc_tracestate].
    apply b3_parse_trace_id_iff in Ea. apply b3_parse_span_id_iff in Eb. tauto.
  - intros (Ha & Hb & Ht & Hc).
    apply b3_parse_trace_id_iff in Ha. apply b3_parse_span_id_iff in Hb.
    rewrite Ha, Hb. destruct sc as [t s o ts]. simpl in *. subst ts. do 2 f_equal.
    destruct Hs as [[Hs1 Hs2]|[Hs1 Hs2]], Hc as [[Hc1 Hc2]|[Hc1 Hc2]]; try tauto; congruence.
Qed.

(** ** Names of headers *)

Lemma all_bytes : forall P : byte -> bool, forallb P (map (fun k => n2b (N.of_nat k)) (seq 0 256)) = true -> forall b, P b = true.
Proof.
  intros P H b. rewrite forallb_forall in H. apply H. apply in_map_iff. exists (N.to_nat (b2n b)). split.
  - rewrite N2Nat.id. apply n2b_b2n.
  - apply in_seq. pose proof (b2n_lt b). lia.
Qed.

Lemma fold_up c : fold_case (up c) = fold_case c.
Proof. apply N.eqb_eq. revert c. apply (all_bytes (fun c => fold_case (up c) =? fold_case c)). vm_compute. reflexivity. Qed.
Lemma fold_low c : fold_case (low c) = fold_case c.
Proof. apply N.eqb_eq. revert c. apply (all_bytes (fun c => fold_case (low c) =? fold_case c)). vm_compute. reflexivity. Qed.
Lemma low_folded c : b2n (low c) = fold_case c.
Proof. apply N.eqb_eq. revert c. apply (all_bytes (fun c => b2n (low c) =? fold_case c)). vm_compute. reflexivity. Qed.
Lemma up_low c : up (low c) = up c.
Proof. apply b2n_inj. apply N.eqb_eq. revert c. apply (all_bytes (fun c => b2n (up (low c)) =? b2n (up c))). vm_compute. reflexivity. Qed.
Lemma dash_low c : byte_eqb (low c) dash = byte_eqb c dash.
Proof. apply Bool.eqb_prop. revert c. apply (all_bytes (fun c => Bool.eqb (byte_eqb (low c) dash) (byte_eqb c dash))). vm_compute. reflexivity. Qed.

Lemma same_low a b : fold_case a = fold_case b -> low a = low b.
Proof. intros H. apply b2n_inj. now rewrite !low_folded. Qed.

Lemma canon_same a : forall b u, canon_from u a = canon_from u b <-> same_name a b.
Proof.
  unfold same_name. induction a as [|x a IH]; intros [|y b] u; cbn [canon_from map]; [tauto|split; discriminate|split; discriminate|]. split.
  - intros H. injection H as H1 H2. assert (Hf : fold_case x = fold_case y) by (destruct u; apply (f_equal fold_case) in H1; rewrite ?fold_up, ?fold_low in H1; exact H1).
    rewrite Hf. f_equal. apply (IH b (byte_eqb x dash)). rewrite H2. f_equal. rewrite <- (dash_low x), <- (dash_low y). now rewrite (same_low _ _ Hf).
  - intros H. injection H as Hf H2. pose proof (same_low _ _ Hf) as Hl. f_equal.
    + destruct u; [|exact Hl]. now rewrite <- (up_low x), <- (up_low y), Hl.
    + replace (byte_eqb y dash) with (byte_eqb x dash) by (rewrite <- (dash_low x), <- (dash_low y); now rewrite Hl). now apply IH.
Qed.

(** A header set under one name is found under every name that differs from it in the case
    of letters only, and setting it changes no other header. *)
Theorem C42_header_case h n n' v :
  (same_name n n' -> hdr_get (hdr_set h n v) n' = v) /\
  (~ same_name n n' -> hdr_get (hdr_set h n v) n' = hdr_get h n').
Proof.
  unfold same_name. pose proof (canon_same n n' true) as H. fold (canon n) (canon n') in H. unfold same_name in H. split; intros Hn.
  - unfold hdr_get, hdr_values, hdr_set. rewrite <- (proj2 H Hn). now rewrite (mget_mset_same _ bytes_eqb_spec).
  - apply hdr_get_set_other. destruct (bytes_eqb_spec (canon n) (canon n')) as [E|E]; [|reflexivity]. exfalso. apply Hn. now apply H.
Qed.
Example C42_header_case_example : same_name (bs "X-B3-TraceId") (bs "x-b3-TRACEID") /\ ~ same_name (bs "X-B3-TraceId") (bs "X-B3-SpanId").
Proof. split; [vm_compute; reflexivity|vm_compute; discriminate]. Qed.
Print Assumptions C42_header_case.

(** ** C43 W3C TraceContext *)

(** The round trip on the two header values. *)
Theorem C43_headers_roundtrip sc tp ts :
  sc_wf sc -> sc_trace_id sc <> zeros 16 -> sc_span_id sc <> zeros 8 ->
  ts_ok (ts_entries (sc_tracestate sc)) ->
  tc_to_headers sc = (tp, ts) ->
  exists sc', tc_from_headers tp ts = Ok (Some sc') /\
    sc_trace_id sc' = sc_trace_id sc /\ sc_span_id sc' = sc_span_id sc /\
    sc_options sc' = sc_options sc mod 256 /\
    (tracestate_fits (ts_entries (sc_tracestate sc)) ->
       ts_entries (sc_tracestate sc') = ts_entries (sc_tracestate sc)) /\
    (~ tracestate_fits (ts_entries (sc_tracestate sc)) -> sc_tracestate sc' = None).
Proof.
  intros (Ht & Hs & _) Hzt Hzs Hts H. unfold tc_to_headers in H.
  apply pair_equal_spec in H. destruct H as [Htp Hh].
  rewrite (tc_from_headers_complete tp ts (sc_trace_id sc) (sc_span_id sc) (sc_options sc mod 256)).
  - eexists. split; [reflexivity|]. cbn [sc_trace_id sc_span_id sc_options sc_tracestate].
    split; [reflexivity|]. split; [reflexivity|]. split; [reflexivity|].
    destruct (tracestate_to_header_cases sc) as [(Hne & es & Ees & Hes & Hfit & Eh)|(Eh & Hc)].
    + rewrite <- Hh, Eh. rewrite Ees in *. cbn [ts_entries] in *.
      rewrite (tracestate_from_header_ok es) by (auto using padded_self).
      split; [reflexivity|]. intros Hn. contradiction.
    + rewrite <- Hh, Eh. split; [|reflexivity]. intros Hfit.
      destruct Hc as [->|Hc]; [reflexivity|contradiction].
  - exists (hex_encode [n2b 0]), (hex_encode (sc_trace_id sc)), (hex_encode (sc_span_id sc)),
      (hex_encode [n2b (sc_options sc)]), (n2b 0), [n2b (sc_options sc)], [].
    rewrite app_nil_r. split; [now rewrite <- Htp|]. split; [auto|].
    split; [apply hex_of_encode|]. split; [rewrite b2n_n2b_small; lia|]. split; [reflexivity|].
    split; [apply hex_of_encode|]. split; [exact Ht|]. split; [exact Hzt|].
    split; [apply hex_of_encode|]. split; [exact Hs|]. split; [exact Hzs|].
    split; [apply hex_of_encode|]. split.
    + simpl. f_equal. apply b2n_inj. rewrite !b2n_n2b. rewrite N.mod_mod by lia. reflexivity.
    + apply N.mod_lt. lia.
Qed.

(** What is sent: version 00 and lower-case hexadecimal. *)
Theorem C43_wire sc h :
  sc_wf sc ->
  exists t s f, hdr_values (tc_to_request sc h) (bs "traceparent") = [bs "00-" ++ t ++ bs "-" ++ s ++ bs "-" ++ f] /\
    lower_hex t (sc_trace_id sc) /\ length t = 32%nat /\ lower_hex s (sc_span_id sc) /\ length s = 16%nat /\
    lower_hex f [n2b (sc_options sc)].
Proof.
  intros (Ht & Hs & _).
  exists (hex_encode (sc_trace_id sc)), (hex_encode (sc_span_id sc)), (hex_encode [n2b (sc_options sc)]).
  split; [|split; [apply hex_encode_lower|split; [rewrite hex_encode_length, Ht; reflexivity|
    split; [apply hex_encode_lower|split; [rewrite hex_encode_length, Hs; reflexivity|apply hex_encode_lower]]]]].
  unfold tc_to_request, tc_to_headers. destruct (tracestate_to_header sc).
  - change (bs "traceparent") with traceparent_header. rewrite hdr_values_set_same. reflexivity.
  - rewrite (hdr_values_set_other _ tracestate_header (bs "traceparent")) by reflexivity.
    change (bs "traceparent") with traceparent_header. rewrite hdr_values_set_same. reflexivity.
Qed.

(** The round trip through a request that has no tracestate header yet, or when a
    tracestate is written. *)
Theorem C43_roundtrip sc h :
  sc_wf sc -> sc_trace_id sc <> zeros 16 -> sc_span_id sc <> zeros 8 ->
  ts_ok (ts_entries (sc_tracestate sc)) ->
  (hdr_values h (bs "tracestate") = [] \/
   (ts_entries (sc_tracestate sc) <> [] /\ tracestate_fits (ts_entries (sc_tracestate sc)))) ->
  exists sc', tc_from_request (tc_to_request sc h) = Ok (Some sc') /\
    sc_trace_id sc' = sc_trace_id sc /\ sc_span_id sc' = sc_span_id sc /\
    sc_options sc' = sc_options sc mod 256 /\
    (tracestate_fits (ts_entries (sc_tracestate sc)) ->
       ts_entries (sc_tracestate sc') = ts_entries (sc_tracestate sc)) /\
    (~ tracestate_fits (ts_entries (sc_tracestate sc)) -> sc_tracestate sc' = None).
Proof.
  intros Hwf Hzt Hzs Hts Hh. unfold tc_from_request, tc_to_request.
  destruct (tc_to_headers sc) as [tp ts] eqn:E.
  destruct (C43_headers_roundtrip sc tp ts Hwf Hzt Hzs Hts E) as (sc' & Hr & Hrest).
  exists sc'. split; [|exact Hrest]. rewrite <- Hr.
  assert (Hts' : ts = tracestate_to_header sc) by (unfold tc_to_headers in E; congruence).
  cbv zeta. unfold tc_get_header.
  destruct ts as [|c0 ts0].
  - rewrite hdr_values_set_same. rewrite hdr_values_set_other by reflexivity.
    destruct Hh as [Hh|[Hh1 Hh2]].
    + change tracestate_header with (bs "tracestate"). now rewrite Hh.
    + exfalso. destruct (tracestate_to_header_cases sc) as [(Hne & _)|(_ & [Hc|Hc])]; congruence.
  - rewrite (hdr_values_set_other _ tracestate_header traceparent_header) by reflexivity.
    now rewrite !hdr_values_set_same.
Qed.

(** Finding: SpanContextToRequest does not remove a tracestate header left on the
    request, so a span context without tracestate is read back with a stale one. *)
Theorem C43_stale_tracestate_refuted :
  exists sc h sc', sc_wf sc /\ sc_tracestate sc = None /\
    tc_from_request (tc_to_request sc h) = Ok (Some sc') /\
    sc_tracestate sc' = Some [MkEntry (bs "old") (bs "1")].
Proof.
  exists (MkSC (repeat x01 16) (repeat x02 8) 1 None), [(bs "Tracestate", [bs "old=1"])].
  eexists. split; [repeat split|]. split; [reflexivity|].
  split; vm_compute; reflexivity.
Qed.

(** Which traceparent values are accepted, and with which content. *)
Theorem C43_accepts_iff tp ts sc :
  tc_from_headers tp ts = Ok (Some sc) <->
  traceparent_ok tp (sc_trace_id sc) (sc_span_id sc) (sc_options sc) /\
  sc_tracestate sc = tracestate_from_header ts.
Proof.
  split.
  - apply tc_from_headers_sound.
  - intros [H1 H2]. destruct sc; simpl in *. subst. now apply tc_from_headers_complete.
Qed.

Theorem C43_never_zero tp ts sc :
  tc_from_headers tp ts = Ok (Some sc) ->
  sc_trace_id sc <> zeros 16 /\ sc_span_id sc <> zeros 8.
Proof.
  intros H. apply C43_accepts_iff in H. destruct H as [(v & t & s & f & ver & flags & extra & H) _].
  tauto.
Qed.

Theorem C43_no_panic tp ts : tc_from_headers tp ts <> Panic.
Proof. apply tc_from_headers_no_panic. Qed.

(** The tracestate header: it is read as the list [es] exactly when [es] is a
    valid non-empty tracestate, the header lists its members in order separated by
    commas with optional spaces and tabs around them, and the members take at most
    512 bytes without that white space.  Any other header reads as no tracestate. *)
Theorem C43_tracestate_iff ts es :
  tracestate_from_header ts = Some es <->
  es <> [] /\ ts_ok es /\
  exists pairs, Forall2 padded es pairs /\ ts = join_byte (n2b 44) pairs /\ tracestate_fits es.
Proof.
  split; [apply tracestate_from_header_sound|].
  intros (Hne & Hok & pairs & HF & -> & Hfit). now apply tracestate_from_header_ok.
Qed.

(** ** C44 Stackdriver *)

Theorem C44_roundtrip sc h :
  sc_wf sc ->
  sd_from_request (sd_to_request sc h) =
  Some (MkSC (sc_trace_id sc) (sc_span_id sc) (sc_options sc) None).
Proof.
  intros Hwf. unfold sd_from_request, sd_to_request. rewrite hdr_get_set_same.
  apply sd_parse_iff. now apply sd_format_accepts.
Qed.

Lemma dec_digits_lead f : forall n acc, 0 < n < 2 ^ N.of_nat f -> hd_error (dec_digits f n acc) <> Some (n2b 48).
Proof.
  induction f as [|f IH]; intros n acc H; [change (2 ^ N.of_nat 0) with 1 in H; lia|]. cbn [dec_digits].
  destruct (N.ltb_spec n 10) as [L|L].
  - cbn [hd_error]. intros [= E]. apply (f_equal b2n) in E. rewrite N.mod_small, !b2n_n2b_small in E by lia. lia.
  - apply IH. rewrite Nat2N.inj_succ, N.pow_succ_r' in H. split.
    + apply N.div_str_pos. lia.
    + apply N.div_lt_upper_bound; lia.
Qed.

Lemma format_dec_lead n : hd_error (format_dec n) = Some (n2b 48) -> format_dec n = bs "0".
Proof.
  intros H. destruct (N.eq_dec n 0) as [->|N]; [reflexivity|]. exfalso. revert H. apply dec_digits_lead.
  split; [lia|]. rewrite Nat2N.inj_succ, N2Nat.id. apply N.log2_spec. lia.
Qed.

(** What is sent: the trace ID in lower-case hexadecimal, the span ID and the
    options as decimal numbers. *)
Theorem C44_wire sc h :
  exists t d o, hdr_values (sd_to_request sc h) (bs "X-Cloud-Trace-Context") = [t ++ bs "/" ++ d ++ bs ";o=" ++ o] /\
    lower_hex t (sc_trace_id sc) /\ dec_of d (be_value (sc_span_id sc)) /\ dec_of o (sc_options sc) /\
    (* no leading zeros *)
    (hd_error d = Some (n2b 48) -> d = bs "0") /\ (hd_error o = Some (n2b 48) -> o = bs "0").
Proof.
  exists (hex_encode (sc_trace_id sc)), (format_dec (be_value (sc_span_id sc))), (format_dec (sc_options sc)).
  split; [unfold sd_to_request; change (bs "X-Cloud-Trace-Context") with sd_header; rewrite hdr_values_set_same; reflexivity|].
  split; [apply hex_encode_lower|]. split; [apply format_dec_of|]. split; [apply format_dec_of|]. split; apply format_dec_lead.
Qed.

Theorem C44_accepts_iff h sc :
  sd_from_request h = Some sc <-> sd_accepts (hdr_get h (bs "X-Cloud-Trace-Context")) sc.
Proof. apply sd_parse_iff. Qed.

(** Finding: the trace ID may have any even number of digits, so an empty one is
    accepted and read as the zero trace ID, and excess digits are dropped. *)
Theorem C44_trace_id_length_refuted :
  sd_parse (bs "/1") = Some (MkSC zero_trace_id (be_bytes 8 1) 0 None) /\
  sd_parse (bs "00112233445566778899aabbccddeeffFFFF/1;o=1")
  = sd_parse (bs "00112233445566778899aabbccddeeff/1;o=1").
Proof. vm_compute. auto. Qed.

(** ** Concrete cases *)

Definition ex_sc : span_context :=
  MkSC (bs "0123456789abcdef") (bs "ABCDEFGH") 257 (Some [MkEntry (bs "k") (bs "v w")]).

Example ex_sc_wf : sc_wf ex_sc /\ ex_sc <> zero_sc /\ sc_trace_id ex_sc <> zeros 16 /\
  sc_span_id ex_sc <> zeros 8 /\ ts_ok (ts_entries (sc_tracestate ex_sc)).
Proof.
  split; [repeat split; reflexivity|]. split; [discriminate|]. split; [discriminate|].
  split; [discriminate|]. split; [|split].
  - constructor; [|constructor]. apply entry_valid_iff. reflexivity.
  - constructor; [simpl; tauto|constructor].
  - simpl. lia.
Qed.

Example C43_example : tc_to_headers ex_sc =
  (bs "00-30313233343536373839616263646566-4142434445464748-01", bs "k=v w").
Proof. vm_compute. reflexivity. Qed.

Example C44_example : sd_format ex_sc = bs "30313233343536373839616263646566/4702394921427289928;o=257".
Proof. vm_compute. reflexivity. Qed.

Example C42_short_id : b3_parse_trace_id (bs "463ac35c9f6413ad") =
  Some (zeros 8 ++ [n2b 70; n2b 58; n2b 195; n2b 92; n2b 159; n2b 100; n2b 19; n2b 173]).
Proof. vm_compute. reflexivity. Qed.

Example C41_example : from_binary (binary ex_sc ++ bs "trailing") =
  Ok (Some (MkSC (bs "0123456789abcdef") (bs "ABCDEFGH") 1 None)).
Proof. vm_compute. reflexivity. Qed.

Print Assumptions C41_roundtrip.
Print Assumptions C41_zero.
Print Assumptions C41_accepts_iff.
Print Assumptions C41_no_panic.
Print Assumptions C42_roundtrip.
Print Assumptions C42_accepts_iff.
Print Assumptions C43_headers_roundtrip.
Print Assumptions C43_roundtrip.
Print Assumptions C43_stale_tracestate_refuted.
Print Assumptions C43_accepts_iff.
Print Assumptions C43_never_zero.
Print Assumptions C43_no_panic.
Print Assumptions C43_tracestate_iff.
Print Assumptions C44_roundtrip.
Print Assumptions C44_accepts_iff.
Print Assumptions C44_trace_id_length_refuted.
Print Assumptions C42_headers.
Print Assumptions C43_wire.
Print Assumptions C44_wire.
