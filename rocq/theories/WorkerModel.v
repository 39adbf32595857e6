(** Model of stats/view/worker.go and worker_commands.go: the worker of a Meter.
    Definitions only.

    The worker goroutine handles one command at a time, so each handler is one
    atomic transition.  The queue in front of it and the goroutines that fill it
    are in QueueModel.v.  Read (worker.go:398) runs on the reader's goroutine
    under w.mu; it is modelled as one more atomic operation.  MeterStepModel.v
    has the same code in smaller steps, with Read between those of the worker.

    Collectors are the value-level ones of CollectorModel.v. *)

From Coq Require Import List Arith ZArith Bool Permutation.
From Verif Require Import Base GoMap GoSort Float64 TagModel AggModel CollectorModel ViewModel.
Import ListNotations.
Open Scope nat_scope.

(** stats/view/view.go:119-124 [viewInternal]; the collector's aggregation is the
    pointer [vi_agg].  [vi_start] is its entry in worker.viewStartTimes. *)
Record vint : Type := MkVI {
  vi_view : nat;
  vi_sub : bool;
  vi_agg : nat;
  vi_sigs : list (bytes * agg_data f64_num);
  vi_desc : descriptor;
  vi_start : time }.

(** stats/view/worker.go:44-57 [worker].  [w_vis]: all viewInternals ever created
    (pointer = index).  [w_meas]: measures, each with the set of its views.
    [w_subs]: the measures whose descriptor is subscribed (stats/measure.go:56-66);
    this flag is global to the process, not per worker. *)
Record wst : Type := MkWS {
  w_u : uworld;
  w_vis : list vint;
  w_views : list (bytes * nat);
  w_meas : list (bytes * list nat);
  w_subs : list bytes;
  w_exps : list nat;
  w_res : option nat }.

(** stats/measure.go:95-99 [Measurement]: [None] is the zero value. *)
Notation measurement := (option (measure * f64)).

(** stats/view/view.go:166-170 [Data]. *)
Record view_data : Type := MkData {
  vd_view : nat; vd_start : time; vd_end : time;
  vd_rows : list (list (key * bytes) * agg_data f64_num) }.

(** The commands (stats/view/worker_commands.go), the timer tick, Read and the
    exporter registration.  Times are those time.Now returns. *)
Inductive cmd : Type :=
| CmdFind (name : bytes)
| CmdRegister (views : list nat) (now : time)
| CmdUnregister (names : list bytes) (now : time)
| CmdRetrieve (name : bytes)
| CmdRecord (tm : option tmap) (ms : list measurement) (att : attachments) (t : time)
| CmdSetPeriod (d : Z)
| CmdTick (now : time)
| CmdRead (now : time)
| CmdAddExporter (e : nat)
| CmdDelExporter (e : nat)
| CmdSetResource (r : nat).

(** What the commands answer (stats/view/worker_commands.go:39-41, 55, 118-121; Read,
    worker.go:398-410). *)
Inductive resp : Type :=
| RNone
| RFind (v : option nat)
| RRegister (r : option (view_err + list nat))   (* nil, a canonicalize error, or conflicting views *)
| RRows (r : option (list (list (key * bytes) * agg_data f64_num)))  (* None: error, not registered *)
| RMetrics (ms : list metric).

Notation event := (nat * view_data)%type.  (* exporter, data *)

Section Worker.
  Variable o : order.

  (** stats/view/view.go:152-154 [collectedRows]: [None] is a panic. *)
  Definition collected_rows (w : wst) (vi : vint) : option (list (list (key * bytes) * agg_data f64_num)) :=
    match nth_error (u_views (w_u w)) (vi_view vi) with
    | None => None
    | Some v => vc_rows (v_keys v) (ord o _ (vi_sigs vi))
    end.

  (** stats/view/worker.go:317-327 [getMeasureRef]: the set of views of a measure. *)
  Definition get_measure_ref (w : wst) (name : bytes) : list nat :=
    match mget bytes_eqb (w_meas w) name with Some l => l | None => [] end.

  (** stats/view/worker.go:329-350 [tryRegisterView], then
      worker_commands.go:72-73 for a success.  Outer [None]: panic (getType, or the
      nil dereference in stats/record.go:27-31 for a measure the stats package does
      not know).  Boolean: false is the conflict error. *)
  Definition register_one (w : wst) (p : nat) (now : time) : option (wst * bool) :=
    match nth_error (u_views (w_u w)) p with
    | None => None
    | Some v =>
        match view_to_metric_descriptor (w_u w) v, v_agg v, v_measure v with
        | Some d, Some ap, Some me =>
            match me_kind me with
            | MOther =>
                (* reached only for a distribution of a foreign measure; the
                   conflict test comes first *)
                match mget bytes_eqb (w_views w) (v_name v) with
                | Some x => match nth_error (w_vis w) x with
                            | Some xi => if same (w_u w) (vi_view xi) p then None else Some (w, false)
                            | None => None
                            end
                | None => None
                end
            | _ =>
                match mget bytes_eqb (w_views w) (v_name v) with
                | Some x =>
                    match nth_error (w_vis w) x with
                    | None => None
                    | Some xi =>
                        if same (w_u w) (vi_view xi) p then
                          Some (MkWS (w_u w)
                                     (upd (w_vis w) x (fun i => MkVI (vi_view i) true (vi_agg i) (vi_sigs i) (vi_desc i) (vi_start i)))
                                     (w_views w) (w_meas w) (me_name me :: w_subs w) (w_exps w) (w_res w), true)
                        else Some (w, false)
                    end
                | None =>
                    let x := length (w_vis w) in
                    Some (MkWS (w_u w)
                               (w_vis w ++ [MkVI p true ap [] d now])
                               (mset bytes_eqb (w_views w) (v_name v) x)
                               (mset bytes_eqb (w_meas w) (me_name me)
                                     (get_measure_ref w (me_name me) ++ [x]))
                               (me_name me :: w_subs w) (w_exps w) (w_res w), true)
                end
            end
        | _, _, _ => None
        end
    end.

  (** stats/view/worker_commands.go:59-64: canonicalise every view, stop at the
      first error. *)
  Fixpoint canon_all (u : uworld) (ps : list nat) : option (uworld * option view_err) :=
    match ps with
    | [] => Some (u, None)
    | p :: r =>
        match canonicalize u p with
        | None => None
        | Some (u', Some e) => Some (u', Some e)
        | Some (u', None) => canon_all u' r
        end
    end.

  (** stats/view/worker_commands.go:66-74: the second loop; returns the views that
      conflict. *)
  Fixpoint register_all (w : wst) (ps : list nat) (now : time) : option (wst * list nat) :=
    match ps with
    | [] => Some (w, [])
    | p :: r =>
        match register_one w p now with
        | None => None
        | Some (w1, ok) =>
            match register_all w1 r now with
            | None => None
            | Some (w2, bad) => Some (w2, if ok then bad else p :: bad)
            end
        end
    end.

  (** No code of its own: canonicalize assigns to the user's views
      (worker_commands.go:59-64). *)
  Definition with_u (w : wst) (u : uworld) : wst :=
    MkWS u (w_vis w) (w_views w) (w_meas w) (w_subs w) (w_exps w) (w_res w).

  (** stats/view/worker_commands.go:58-80 [registerViewReq.handleCommand]. *)
  Definition handle_register (w : wst) (ps : list nat) (now : time) : option (resp * wst) :=
    match canon_all (w_u w) ps with
    | None => None
    | Some (u, Some e) => Some (RRegister (Some (inl e)), with_u w u)
    | Some (u, None) =>
        match register_all (with_u w u) ps now with
        | None => None
        | Some (w', []) => Some (RRegister None, w')
        | Some (w', bad) => Some (RRegister (Some (inr bad)), w')
        end
    end.

  (** stats/view/worker.go:362-378 [reportView]. *)
  Definition report_view (w : wst) (x : nat) (now : time) : option (list event) :=
    match nth_error (w_vis w) x with
    | None => None
    | Some vi =>
        if negb (vi_sub vi) then Some []
        else match collected_rows w vi with
             | None => None
             | Some rows =>
                 Some (map (fun e => (e, MkData (vi_view vi) (vi_start vi) now rows)) (ord o _ (w_exps w)))
             end
    end.

  (** stats/view/worker_commands.go:91-107: one name of an Unregister. *)
  Definition unregister_one (w : wst) (name : bytes) (now : time) : option (wst * list event) :=
    match mget bytes_eqb (w_views w) name with
    | None => Some (w, [])
    | Some x =>
        match report_view w x now with
        | None => None
        | Some evs =>
            match nth_error (w_vis w) x with
            | None => None
            | Some vi =>
                match nth_error (u_views (w_u w)) (vi_view vi) with
                | None => None
                | Some v =>
                    match v_measure v with
                    | None => None
                    | Some me =>
                        Some (MkWS (w_u w)
                                (upd (w_vis w) x (fun i => MkVI (vi_view i) false (vi_agg i) [] (vi_desc i) (vi_start i)))
                                (mdel bytes_eqb (w_views w) (v_name v))
                                (match mget bytes_eqb (w_meas w) (me_name me) with
                                 | Some l => mset bytes_eqb (w_meas w) (me_name me) (filter (fun y => negb (y =? x)) l)
                                 | None => w_meas w
                                 end)
                                (w_subs w) (w_exps w) (w_res w), evs)
                    end
                end
            end
        end
    end.

  (** stats/view/worker_commands.go:90-109 [unregisterFromViewReq.handleCommand]. *)
  Fixpoint unregister_all (w : wst) (names : list bytes) (now : time) : option (wst * list event) :=
    match names with
    | [] => Some (w, [])
    | n :: r =>
        match unregister_one w n now with
        | None => None
        | Some (w1, evs) =>
            match unregister_all w1 r now with
            | None => None
            | Some (w2, evs') => Some (w2, evs ++ evs')
            end
        end
    end.

  (** stats/view/worker_commands.go:123-146 [retrieveDataReq.handleCommand].
      Outer [None]: panic; inner [None]: error. *)
  Definition handle_retrieve (w : wst) (name : bytes)
    : option (option (list (list (key * bytes) * agg_data f64_num))) :=
    match mget bytes_eqb (w_views w) name with
    | None => Some None
    | Some x =>
        match nth_error (w_vis w) x with
        | None => None
        | Some vi =>
            if negb (vi_sub vi) then Some None
            else match collected_rows w vi with
                 | None => None
                 | Some rows => Some (Some rows)
                 end
        end
    end.

  (** stats/view/view.go:156-162 [viewInternal.addSample]. *)
  Definition vi_add (w : wst) (tm : option tmap) (s : sample f64_num) (x : nat) : option wst :=
    match nth_error (w_vis w) x with
    | None => None
    | Some vi =>
        if negb (vi_sub vi) then Some w
        else
          match nth_error (u_views (w_u w)) (vi_view vi), nth_error (u_aggs (w_u w)) (vi_agg vi) with
          | Some v, Some a =>
              match encode_with_keys tm (v_keys v) with
              | None => None
              | Some sig =>
                  let c := vc_add (MkVC a (v_keys v) (vi_sigs vi)) sig s in
                  Some (MkWS (w_u w)
                         (upd (w_vis w) x (fun i => MkVI (vi_view i) (vi_sub i) (vi_agg i) (vc_sigs c) (vi_desc i) (vi_start i)))
                         (w_views w) (w_meas w) (w_subs w) (w_exps w) (w_res w))
              end
          | _, _ => None
          end
    end.

  (** stats/view/worker_commands.go:165-167: the views of one measurement. *)
  Fixpoint vi_add_all (w : wst) (tm : option tmap) (s : sample f64_num) (xs : list nat) : option wst :=
    match xs with
    | [] => Some w
    | x :: r => match vi_add w tm s x with None => None | Some w' => vi_add_all w' tm s r end
    end.

  (** stats/view/worker_commands.go:157-169 [recordReq.handleCommand]. *)
  Fixpoint record_all (w : wst) (tm : option tmap) (ms : list measurement) (att : attachments)
                      (t : time) : option wst :=
    match ms with
    | [] => Some w
    | None :: r => record_all w tm r att t
    | Some (me, v) :: r =>
        let ref := get_measure_ref w (me_name me) in
        let w0 := MkWS (w_u w) (w_vis w) (w_views w) (mset bytes_eqb (w_meas w) (me_name me) ref)
                       (w_subs w) (w_exps w) (w_res w) in
        match vi_add_all w0 tm (@MkSample f64_num v att t) (ord o _ ref) with
        | None => None
        | Some w' => record_all w' tm r att t
        end
    end.

  (** stats/view/worker.go:380-386 [reportUsage]. *)
  Fixpoint report_all (w : wst) (vs : list (bytes * nat)) (now : time) : option (list event) :=
    match vs with
    | [] => Some []
    | (_, x) :: r =>
        match report_view w x now, report_all w r now with
        | Some evs, Some evs' => Some (evs ++ evs')
        | _, _ => None
        end
    end.

  (** stats/view/worker.go:388-394 [toMetric]. *)
  Definition to_metric (w : wst) (x : nat) (now : time) : option (option metric) :=
    match nth_error (w_vis w) x with
    | None => None
    | Some vi =>
        if negb (vi_sub vi) then Some None
        else match collected_rows w vi with
             | None => None
             | Some rows => view_to_metric (vi_desc vi) rows (w_res w) now
             end
    end.

  (** stats/view/worker.go:398-410 [Read]. *)
  Fixpoint read_all (w : wst) (vs : list (bytes * nat)) (now : time) : option (list metric) :=
    match vs with
    | [] => Some []
    | (_, x) :: r =>
        match to_metric w x now, read_all w r now with
        | Some (Some m), Some ms => Some (m :: ms)
        | Some None, Some ms => Some ms
        | _, _ => None
        end
    end.

  (** One command. [None] is a panic of the worker goroutine. stats/view/worker.go:287-304
      [start] for the commands and the timer; the lines of each are beside it. *)
  Definition handle (w : wst) (c : cmd) : option (resp * list event * wst) :=
    match c with
    | CmdFind n =>
        (* worker_commands.go:43-50 *)
        match mget bytes_eqb (w_views w) n with
        | None => Some (RFind None, [], w)
        | Some x => match nth_error (w_vis w) x with
                    | Some vi => Some (RFind (Some (vi_view vi)), [], w)
                    | None => None
                    end
        end
    | CmdRegister ps now =>
        match handle_register w ps now with
        | Some (r, w') => Some (r, [], w')
        | None => None
        end
    | CmdUnregister ns now =>
        match unregister_all w ns now with
        | Some (w', evs) => Some (RNone, evs, w')
        | None => None
        end
    | CmdRetrieve n =>
        match handle_retrieve w n with
        | Some r => Some (RRows r, [], w)
        | None => None
        end
    | CmdRecord tm ms att t =>
        match record_all w tm ms att t with
        | Some w' => Some (RNone, [], w')
        | None => None
        end
    | CmdSetPeriod d => Some (RNone, [], w)
        (* worker_commands.go:178-186: replaces the ticker; no effect on data *)
    | CmdTick now =>
        match report_all w (ord o _ (w_views w)) now with
        | Some evs => Some (RNone, evs, w)
        | None => None
        end
    | CmdRead now =>
        match read_all w (ord o _ (w_views w)) now with
        | Some ms => Some (RMetrics ms, [], w)
        | None => None
        end
    | CmdAddExporter e =>
        (* worker.go:412-417 *)
        Some (RNone, [], MkWS (w_u w) (w_vis w) (w_views w) (w_meas w) (w_subs w)
                              (if existsb (Nat.eqb e) (w_exps w) then w_exps w else w_exps w ++ [e]) (w_res w))
    | CmdDelExporter e =>
        (* worker.go:419-424 *)
        Some (RNone, [], MkWS (w_u w) (w_vis w) (w_views w) (w_meas w) (w_subs w)
                              (filter (fun e' => negb (e' =? e)) (w_exps w)) (w_res w))
    | CmdSetResource r =>
        (* worker.go:283-285 *)
        Some (RNone, [], MkWS (w_u w) (w_vis w) (w_views w) (w_meas w) (w_subs w) (w_exps w) (Some r))
    end.
End Worker.

(** stats/view/worker.go:261-273 [NewMeter], given the user's views and
    aggregations. *)
Definition new_meter (u : uworld) : wst := MkWS u [] [] [] [] [] None.

(** A history of the worker: commands handled one after the other, each with its own map
    iteration order, and what was returned and exported. An execution: no code of its own
    (stats/view/worker.go:287-304). *)
Inductive wrun (u : uworld) : list cmd -> wst -> Prop :=
| wrun_nil : wrun u [] (new_meter u)
| wrun_snoc h w o c r evs w' :
    wrun u h w -> handle o w c = Some (r, evs, w') -> wrun u (h ++ [c]) w'.

(** stats/view/worker.go:167-178 [Unregister]: the names are read by the caller. *)
Definition api_unregister (u : uworld) (ps : list nat) (now : time) : cmd :=
  CmdUnregister (flat_map (fun p => match nth_error (u_views u) p with
                                    | Some v => [v_name v]
                                    | None => []
                                    end) ps) now.
