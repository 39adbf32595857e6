(** Types shared by the trace models: /repo/trace/basetypes.go and the
    SpanContext of /repo/trace/trace.go. *)

From Coq Require Import List NArith Bool.
From Verif Require Import Base TracestateModel.
Import ListNotations.
Open Scope N_scope.

(** trace.go:106-111 type SpanContext.  TraceID [16]byte and SpanID [8]byte are byte
    lists of those lengths (see [sc_wf]), TraceOptions is a uint32, Tracestate is a
    pointer to an immutable tracestate (see TracestateModel). *)
Record span_context : Type := MkSC {
  sc_trace_id : bytes;
  sc_span_id : bytes;
  sc_options : N;
  sc_tracestate : option (list entry)
}.

(** The zero TraceID (trace/basetypes.go:24). *)
Definition zero_trace_id : bytes := repeat x00 16.
(** The zero SpanID (trace/basetypes.go:27). *)
Definition zero_span_id : bytes := repeat x00 8.
(** trace.SpanContext{} (trace/trace.go:106-111.) *)
Definition zero_sc : span_context := MkSC zero_trace_id zero_span_id 0 None.

(** The values of the Go type. (trace/trace.go:106-111, trace/basetypes.go:22-28.) *)
Definition sc_wf (sc : span_context) : Prop :=
  length (sc_trace_id sc) = 16%nat /\ length (sc_span_id sc) = 8%nat /\
  sc_options sc < 2 ^ 32.

(** sc == SpanContext{}: the tracestate is compared as a pointer.
    trace/propagation/propagation.go:58, trace/trace.go:185. *)
Definition is_zero_sc (sc : span_context) : bool :=
  bytes_eqb (sc_trace_id sc) zero_trace_id && bytes_eqb (sc_span_id sc) zero_span_id
  && (sc_options sc =? 0) && match sc_tracestate sc with None => true | Some _ => false end.

(** trace.go:84-86, 98-100 IsSampled: bit 0 of the options. *)
Definition is_sampled (sc : span_context) : bool := N.odd (sc_options sc).
