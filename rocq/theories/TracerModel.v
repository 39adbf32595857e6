(** Model of the tracer: starting, updating and ending spans, configuration,
    exporters and the span store, as one state with atomic steps.
    trace/trace.go, trace/trace_api.go, trace/config.go, trace/export.go,
    trace/spanstore.go.  Definitions only.

    A step is one critical section or one atomic operation, so that a sequence of
    steps is an interleaving of the calls of any number of goroutines.  What a call
    does in several steps is kept in the state of its span. *)

From Coq Require Import List NArith ZArith Bool.
From Verif Require Import Base GoMap AggModel TraceTypes TraceModel SpanStoreModel.
Import ListNotations.
Open Scope nat_scope.

(** Where a span is. [Starting]: created, not yet in the span store; StartSpan has not
    returned. [Live]: End has not been called. [Ending exps]: inside endOnce.Do; [exps] the
    exporters to call. [Storing sd exps]: the data is complete, spanStore.finished is next.
    [Exporting sd exps]: the exporters in [exps] have still to be called. [Ended]: endOnce
    is done. The code between the points is trace/trace.go:264-271 (Starting), 277-303 (the
    others). *)
Inductive phase : Type :=
| Starting
| Live
| Ending (exps : list nat)
| Storing (sd : sdata) (exps : list nat)
| Exporting (sd : sdata) (exps : list nat)
| Ended.

(** trace/trace.go:40-68 [span].  [s_store] is the name under which its span store is
    registered (stores are never removed or renamed). *)
Record span : Type := MkSpan {
  s_context : span_context;
  s_rec : option recording;
  s_store : option bytes;
  s_phase : phase }.

(** [w_exports]: what exporters were called with, in order: exporter, span, data.
    [w_pending]: the parents of the StartSpan calls that have run addChild and have not yet
    made their span. trace/trace.go:524, trace/export.go:34-39, trace/spanstore.go:29-32,
    internal/traceinternals.go:26; [w_pending] trace/trace.go:176-185. *)
Record world : Type := MkW {
  w_config : config;
  w_exporters : list (nat * unit);
  w_spans : list span;
  w_stores : list (bytes * store);
  w_enabled : bool;
  w_exports : list (nat * nat * sdata);
  w_pending : list nat }.

(** trace/trace.go:526-535 (the first configuration), trace/spanstore.go:29-32: nothing
    started, nothing registered. *)
Definition init_world (enabled : bool) : world := MkW default_config [] [] [] enabled [] [].

(** A *Span: nil, a Span without implementation (trace.NewSpan(nil)), or a span.
    trace/trace_api.go:141-149. *)
Inductive sref : Type := RNil | RNilInternal | RSpan (i : nat).

(** The span in the context passed to StartSpan: none, one of this package, or a foreign
    implementation with the given context; for StartSpanWithRemoteParent, the given context.
    trace/trace.go:173-210. *)
Inductive pref : Type := PNone | PSpan (i : nat) | PCtx (sc : span_context).

(** The steps; the lines of each are at [tdo]. trace/trace.go:173-303, 340-509,
    trace/config.go:63-86, trace/export.go:45-71, trace/spanstore.go:43-181. *)
Inductive top : Type :=
| TAddChild (i : nat)
| TCreate (par : pref) (remote : bool) (name : bytes) (xs : list sopt) (tid sid : bytes) (now : time)
| TStoreAdd (i : nat)
| TUpdate (r : sref) (u : supd)
| TEnd (r : sref)
| TSnap (i : nat) (o : order) (now : time)
| TFinished (i : nat)
| TExport (i : nat) (e : nat)
| TEndDone (i : nat)
| TApplyConfig (a : config_arg)
| TRegister (e : nat)
| TUnregister (e : nat)
| TConfigureBucket (name : bytes) (succeeded errors : Z)
| TReportActive (o : order) (name : bytes)
| TReportErrors (o : order) (name : bytes) (code : Z)
| TReportLatency (name : bytes) (lo hi : Z).

(** A step is done, with the spans it reports (or hands to the span store) if any; is not
    possible now; panics. No code of its own (trace/trace.go:173-303). *)
Inductive outcome : Type :=
| Done (w : world) (out : list sdata)
| Blocked
| Panicked.

(** No code of its own: assigning a span (trace/trace.go:212-303). *)
Definition set_span (w : world) (i : nat) (s : span) : world :=
  MkW (w_config w) (w_exporters w) (upd (w_spans w) i (fun _ => s)) (w_stores w) (w_enabled w) (w_exports w) (w_pending w).
(** No code of its own: assigning the span stores (trace/spanstore.go:29-32). *)
Definition set_stores (w : world) (st : list (bytes * store)) : world :=
  MkW (w_config w) (w_exporters w) (w_spans w) st (w_enabled w) (w_exports w) (w_pending w).
(** No code of its own: a StartSpan after addChild (trace/trace.go:176-179). *)
Definition add_pending (w : world) (i : nat) : world :=
  MkW (w_config w) (w_exporters w) (w_spans w) (w_stores w) (w_enabled w) (w_exports w) (i :: w_pending w).
(** No code of its own: a span goes on (trace/trace.go:264-303). *)
Definition set_phase (s : span) (p : phase) : span := MkSpan (s_context s) (s_rec s) (s_store s) p.

(** trace/trace.go:332-337 [SpanContext]: of the parent given to a start function. *)
Definition parent_context (w : world) (p : pref) : option span_context :=
  match p with
  | PNone => Some zero_sc
  | PCtx sc => Some sc
  | PSpan i => match nth_error (w_spans w) i with Some s => Some (s_context s) | None => None end
  end.

(** trace/trace.go:73-78, trace_api.go:159-164 [IsRecordingEvents]; [None]: panic. *)
Definition is_recording (w : world) (r : sref) : option bool :=
  match r with
  | RNil => Some false
  | RNilInternal => None
  | RSpan i => match nth_error (w_spans w) i with
               | Some s => match s_rec s with Some _ => Some true | None => Some false end
               | None => Some false
               end
  end.

(** No code of its own: used for [w_pending] (trace/trace.go:176-185). *)
Fixpoint remove_one (i : nat) (l : list nat) : option (list nat) :=
  match l with
  | [] => None
  | j :: r => if j =? i then Some r else match remove_one i r with Some r' => Some (j :: r') | None => None end
  end.

(** The StartSpan calls under way after one of them goes on to make its span: a local
    child of a span of this package has run addChild (trace/trace.go:176-179) before. *)
Definition take_pending (w : world) (par : pref) (remote : bool) : option (list nat) :=
  match par, remote with
  | PSpan i, false => remove_one i (w_pending w)
  | _, _ => Some (w_pending w)
  end.

(** trace/spanstore.go:212-239: the store of a name, if need be a new one. *)
Definition get_store (w : world) (name : bytes) : store :=
  match mget bytes_eqb (w_stores w) name with
  | Some s => s
  | None => new_store default_bucket_size default_bucket_size
  end.

(** trace/spanstore.go:43-57: makeSpanData of the active spans. *)
Fixpoint report_active (o : order) (spans : list span) (l : list nat) : option (list sdata * list span) :=
  match l with
  | [] => Some ([], spans)
  | i :: r =>
      match nth_error spans i with
      | Some (MkSpan sc (Some rec) st ph) =>
          let '(sd, rec') := make_span_data o rec in
          match report_active o (upd spans i (fun _ => MkSpan sc (Some rec') st ph)) r with
          | Some (sds, spans') => Some (sd :: sds, spans')
          | None => None
          end
      | _ => None
      end
  end.

(** One step; the lines of each are beside it (trace/trace.go:173-303, 340-509,
    trace/config.go:63-86, trace/export.go:45-71, trace/spanstore.go:43-181). *)
Definition tdo (w : world) (op : top) : outcome :=
  match op with
  (* trace.go:176-179: addChild on the parent, if it is recording; trace.go:401-408 *)
  | TAddChild i =>
      match nth_error (w_spans w) i with
      | None => Blocked
      | Some s =>
          let w := add_pending w i in
          match s_rec s with
          | None => Done w []
          | Some r => Done (set_span w i (MkSpan (s_context s) (Some (rec_add_child r)) (s_store s) (s_phase s))) []
          end
      end
  (* trace.go:173-191, 200-210, 212-266: read the configuration, make the span *)
  | TCreate par remote name xs tid sid now =>
      match parent_context w par, take_pending w par remote with
      | Some parent, Some pending =>
          let has_parent := negb (is_zero_sc parent) in
          let o := start_options xs in
          let sc := start_context (w_config w) has_parent parent remote name o tid sid in
          let s :=
            if negb (w_enabled w) && negb (is_sampled sc) then MkSpan sc None None Live
            else MkSpan sc (Some (start_recording (w_config w) has_parent parent remote name o now sc))
                        (if w_enabled w then Some name else None)
                        (if w_enabled w then Starting else Live) in
          Done (MkW (w_config w) (w_exporters w) (w_spans w ++ [s]) (w_stores w) (w_enabled w) (w_exports w) pending) []
      | _, _ => Blocked
      end
  (* trace.go:264-271: put it into the store of its name.  Finding or making the store
     and adding to it are two critical sections in Go. *)
  | TStoreAdd i =>
      match nth_error (w_spans w) i with
      | Some (MkSpan sc rec (Some name) Starting) =>
          Done (set_stores (set_span w i (MkSpan sc rec (Some name) Live))
                           (mset bytes_eqb (w_stores w) name (st_add (get_store w name) i))) []
      | _ => Blocked
      end
  (* the setters, trace_api.go:183-257 and trace.go:340-509 *)
  | TUpdate r u =>
      match r with
      | RNil => Done w []
      | RNilInternal => Panicked
      | RSpan i =>
          match nth_error (w_spans w) i with
          | None => Blocked
          | Some s =>
              match s_rec s with
              | None => Done w []
              | Some rec => match rec_update rec u with
                            | Some rec' => Done (set_span w i (MkSpan (s_context s) (Some rec') (s_store s) (s_phase s))) []
                            | None => Panicked
                            end
              end
          end
      end
  (* trace.go:277-291, trace_api.go:167-172: enter endOnce.Do and load the exporters;
     another call waits until it is done, and then does nothing *)
  | TEnd r =>
      match r with
      | RNil => Done w []
      | RNilInternal => Panicked
      | RSpan i =>
          match nth_error (w_spans w) i with
          | None => Blocked
          | Some s =>
              match s_rec s, s_phase s with
              | None, _ => Done w []
              | Some _, Live =>
                  let exps := mkeys (w_exporters w) in
                  let must := is_sampled (s_context s) && negb (length exps =? 0) in
                  if match s_store s with Some _ => true | None => false end || must
                  then Done (set_span w i (set_phase s (Ending (if must then exps else [])))) []
                  else Done (set_span w i (set_phase s Ended)) []
              | Some _, Ended => Done w []
              | Some _, _ => Blocked
              end
          end
      end
  (* trace.go:291-292 *)
  | TSnap i o now =>
      match nth_error (w_spans w) i with
      | Some (MkSpan sc (Some rec) st (Ending exps)) =>
          let '(sd, rec') := make_span_data o rec in
          Done (set_span w i (MkSpan sc (Some rec') st (Storing (with_end sd now) exps))) []
      | _ => Blocked
      end
  (* trace.go:293-295 *)
  | TFinished i =>
      match nth_error (w_spans w) i with
      | Some (MkSpan sc rec st (Storing sd exps)) =>
          match st with
          | None => Done (set_span w i (MkSpan sc rec st (Exporting sd exps))) []
          | Some name =>
              match st_finished (get_store w name) i sd with
              | Some s' => Done (set_stores (set_span w i (MkSpan sc rec st (Exporting sd exps)))
                                            (mset bytes_eqb (w_stores w) name s')) [sd]
              | None => Panicked
              end
          end
      | _ => Blocked
      end
  (* trace.go:296-300: one iteration over the exporters, in any order *)
  | TExport i e =>
      match nth_error (w_spans w) i with
      | Some (MkSpan sc rec st (Exporting sd exps)) =>
          if existsb (Nat.eqb e) exps then
            let w' := set_span w i (MkSpan sc rec st (Exporting sd (filter (fun x => negb (x =? e)) exps))) in
            Done (MkW (w_config w') (w_exporters w') (w_spans w') (w_stores w') (w_enabled w') (w_exports w' ++ [(e, i, sd)]) (w_pending w')) []
          else Blocked
      | _ => Blocked
      end
  | TEndDone i =>
      match nth_error (w_spans w) i with
      | Some (MkSpan sc rec st (Exporting sd [])) => Done (set_span w i (MkSpan sc rec st Ended)) []
      | _ => Blocked
      end
  (* config.go:63-86, under configWriteMu *)
  | TApplyConfig a =>
      Done (MkW (apply_config (w_config w) a) (w_exporters w) (w_spans w) (w_stores w) (w_enabled w) (w_exports w) (w_pending w)) []
  (* export.go:45-56, 60-71, under exporterMu; see ExporterModel for their steps *)
  | TRegister e =>
      Done (MkW (w_config w) (mset Nat.eqb (w_exporters w) e tt) (w_spans w) (w_stores w) (w_enabled w) (w_exports w) (w_pending w)) []
  | TUnregister e =>
      Done (MkW (w_config w) (mdel Nat.eqb (w_exporters w) e) (w_spans w) (w_stores w) (w_enabled w) (w_exports w) (w_pending w)) []
  (* spanstore.go:94-112, 244-261, for one BucketConfiguration *)
  | TConfigureBucket name suc err =>
      match mget bytes_eqb (w_stores w) name with
      | Some s => match st_resize s (clamp_size suc) (clamp_size err) with
                  | Some s' => Done (set_stores w (mset bytes_eqb (w_stores w) name s')) []
                  | None => Panicked
                  end
      | None => Done (set_stores w (mset bytes_eqb (w_stores w) name (new_store (clamp_size suc) (clamp_size err)))) []
      end
  (* spanstore.go:43-57.  Other goroutines may update spans between two calls of
     makeSpanData in Go; here the report is one step. *)
  | TReportActive o name =>
      match mget bytes_eqb (w_stores w) name with
      | None => Done w []
      | Some s =>
          match report_active o (w_spans w) (ord o _ (mkeys (st_active s))) with
          | Some (out, spans) => Done (MkW (w_config w) (w_exporters w) spans (w_stores w) (w_enabled w) (w_exports w) (w_pending w)) out
          | None => Panicked
          end
      end
  (* spanstore.go:62-90, 148-181 *)
  | TReportErrors o name code =>
      Done w (match mget bytes_eqb (w_stores w) name with Some s => st_by_error o s code | None => [] end)
  | TReportLatency name lo hi =>
      Done w (match mget bytes_eqb (w_stores w) name with Some s => st_by_latency s lo hi | None => [] end)
  end.

(** Histories: the steps so far with their reports. An execution: no code of its own
    (trace/trace.go:173-303). *)
Inductive trun (enabled : bool) : list (top * list sdata) -> world -> Prop :=
| trun_nil : trun enabled [] (init_world enabled)
| trun_snoc h w op w' out : trun enabled h w -> tdo w op = Done w' out -> trun enabled (h ++ [(op, out)]) w'.

(** Executes a list of steps. An execution: no code of its own (trace/trace.go:173-303). *)
Fixpoint texec (w : world) (ops : list top) : option (list (top * list sdata) * world) :=
  match ops with
  | [] => Some ([], w)
  | op :: r =>
      match tdo w op with
      | Done w' out => match texec w' r with Some (h, w'') => Some ((op, out) :: h, w'') | None => None end
      | _ => None
      end
  end.
