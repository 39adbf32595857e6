(** Specification vocabulary for C89: what an exporter sees of a trace. *)

From Coq Require Import List Arith NArith Bool.
From Verif Require Import Base GoMap TraceTypes TraceModel TracerModel TracerSpec.
Import ListNotations.
Open Scope nat_scope.

(** No parents from outside: every span was started by StartSpan, without a span in its context
    or with one of this process. *)
Definition one_process (h : hist) : Prop :=
  forall c, In c (creates h) -> c_remote c = false /\ (c_par c = PNone \/ exists k, c_par c = PSpan k).

(** Only spans without parent were started with a sampler of their own. *)
Definition root_samplers (h : hist) : Prop :=
  forall c k, In c (creates h) -> c_par c = PSpan k -> opt_sampler (c_opts c) = None.

(** The span IDs drawn are not zero and differ (C26 for the default generator). *)
Definition good_ids (h : hist) : Prop :=
  NoDup (map c_sid (creates h)) /\ ~ In zero_span_id (map c_sid (creates h)).

(** The trace IDs drawn differ. *)
Definition good_traces (h : hist) : Prop := NoDup (map c_tid (creates h)).

(** The exporter was registered whenever End was called. *)
Definition kept_registered (h : hist) (e : nat) : Prop :=
  forall ha i out hb, h = ha ++ (TEnd (RSpan i), out) :: hb -> registered ha e = true.

(** End has returned on every sampled span. *)
Definition all_ended (w : world) : Prop :=
  forall i s, nth_error (w_spans w) i = Some s -> is_sampled (s_context s) = true -> s_phase s = Ended.

(** What exporter [e] was called with. *)
Definition got (w : world) (e : nat) : list sdata :=
  map snd (filter (fun x => fst (fst x) =? e) (w_exports w)).

Notation id_of sd := (sc_span_id (sd_context sd)).
Notation trace_of sd := (sc_trace_id (sd_context sd)).

(** Following the parents within [l] leads to a span without parent, always in the same trace. *)
Inductive rooted (l : list sdata) (root : sdata) : sdata -> Prop :=
| rooted_self : In root l -> sd_parent root = zero_span_id -> rooted l root root
| rooted_step p sd : rooted l root p -> In sd l -> sd_parent sd = id_of p -> trace_of sd = trace_of p -> rooted l root sd.

(** The spans in [l] whose parent is [sd]. *)
Definition children_in (l : list sdata) (sd : sdata) : list sdata :=
  filter (fun c => bytes_eqb (sd_parent c) (id_of sd)) l.

(** No StartSpan with span [i] in its context was begun after [hs]. *)
Definition no_late_child (hs h : hist) (i : nat) : Prop := did (is_child i) (since hs h) = [].

(** Span [i] was started below span [j], by StartSpan calls without samplers of their own. *)
Inductive below (h : hist) (j : nat) : nat -> Prop :=
| below_self : below h j j
| below_child i k h1 c : below h j k -> created h i h1 c -> c_par c = PSpan k -> c_remote c = false -> opt_sampler (c_opts c) = None -> below h j i.
