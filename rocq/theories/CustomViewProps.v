(** C70 and C72 for views of the user: measures of the plugins are what they document, and
    any view of one becomes a metric with the unit and type to be expected. *)

From Coq Require Import String.
From Coq Require Import List ZArith.
From Verif Require Import Base Text Float64 AggModel ViewModel HttpModel GrpcModel CustomViewSpec.
Import ListNotations.

Definition plugin_measures : list measure :=
  [client_request_count; client_request_bytes; client_response_bytes; client_latency; client_sent_bytes; client_received_bytes; client_roundtrip_latency;
   server_request_count; server_request_bytes; server_response_bytes; server_latency;
   gc_sent_messages; gc_sent_bytes; gc_recv_messages; gc_recv_bytes; gc_latency; gc_started;
   gs_recv_messages; gs_recv_bytes; gs_sent_messages; gs_sent_bytes; gs_started; gs_latency].

Theorem C72_measures : map (fun m => (me_name m, me_unit m, me_kind m)) plugin_measures = documented_measures /\
  NoDup (map me_name plugin_measures).
Proof.
  split; [reflexivity|]. vm_compute. repeat (constructor; [cbn; intros H; decompose [or] H; try discriminate; assumption|]). constructor.
Qed.

(** Whatever the name, tag keys and aggregation of a view of one of these measures, its metric
    has that name, those labels, the measure's unit (none for a count), and the type of the
    aggregation. *)
Theorem C72_custom_view u v n unit k ap a m :
  In m plugin_measures -> In (n, unit, k) documented_measures -> me_name m = n ->
  v_measure v = Some m -> v_agg v = Some ap -> nth_error (u_aggs u) ap = Some a ->
  exists d, view_to_metric_descriptor u v = Some d /\ md_name d = v_name v /\ md_desc d = v_desc v /\ md_keys d = v_keys v /\
    md_unit d = unit_of_view unit a /\ type_of_view k a (md_type d).
Proof.
  intros Hm Hd En Ev Ea Ha. destruct C72_measures as [ED ND].
  assert (E : (me_unit m, me_kind m) = (unit, k)).
  { rewrite <- ED in Hd. apply in_map_iff in Hd. destruct Hd as (m' & E & Hm'). injection E as En' <- <-.
    assert (m' = m) as ->; [|reflexivity]. rewrite <- En in En'. clear - Hm Hm' En' ND.
    induction plugin_measures as [|x l IH]; [destruct Hm|]. cbn [map] in ND. inversion ND as [|? ? N1 N2]; subst.
    destruct Hm as [->|Hm], Hm' as [->|Hm']; auto.
    - exfalso. apply N1. rewrite <- En'. apply in_map. exact Hm'.
    - exfalso. apply N1. rewrite En'. apply in_map. exact Hm. }
  injection E as Eu Ek.
  assert (Hg : get_unit unit = unit /\ k <> MOther).
  { subst unit k. unfold plugin_measures in Hm. cbn [In] in Hm. decompose [or] Hm; clear Hm; try contradiction; subst m; split; first [reflexivity | discriminate]. }
  destruct Hg as [Hg Hk]. unfold view_to_metric_descriptor. rewrite Ev, Ea, Ha.
  destruct a as [| | |]; unfold get_type; rewrite ?Ek; destruct k; try contradiction; (eexists; split; [reflexivity|]); cbn; rewrite ?Eu, ?Hg; auto.
Qed.

(** For instance the last latency of a server, by path. *)
Example custom_case :
  let u := MkU [] [AggLast] in
  let v := MkView (bs "last") (bs "d") [bs "http.path"] (Some server_latency) (Some 0) in
  In server_latency plugin_measures /\ In (bs "opencensus.io/http/server/latency", bs "ms", MFloat64) documented_measures /\
  me_name server_latency = bs "opencensus.io/http/server/latency" /\ v_measure v = Some server_latency /\ v_agg v = Some 0 /\ nth_error (u_aggs u) 0 = Some AggLast.
Proof.
  cbv zeta. split; [unfold plugin_measures; repeat (first [left; reflexivity|right])|].
  split; [unfold documented_measures; repeat (first [left; reflexivity|right])|]. repeat split.
Qed.

Print Assumptions C72_measures.
Print Assumptions C72_custom_view.
