(** Model of stats/view/worker.go and worker_commands.go in small steps: a call of Read on
    the reader's goroutine takes its steps between those of the worker, as far as the
    mutex w.mu lets it.  Definitions only.

    In WorkerModel.v each handler and each Read is one transition; here a step is what
    happens between two operations that another goroutine can see: taking and releasing
    w.mu, the atomic accesses to viewInternal.subscribed, loading and storing the
    collector's map and w.r, exporting one view under w.exportersMu.  The worker's
    own accesses to its maps outside the mutex (worker_commands.go:92, worker.go:369) need
    no step of their own, because only the worker writes to them.  The loads and stores of
    the collector's map and of w.r are data races in Go (a finding); here they are
    sequentially consistent.

    The first loop of Register (worker_commands.go:59-64) is one step: canonicalising a
    registered view again changes nothing, and nobody else looks at the others.

    Where the code takes the time more than once during one command, the model uses the
    time of the command, as in WorkerModel.v. *)

From Coq Require Import List Arith ZArith Bool.
From Verif Require Import Base GoMap GoSort Float64 TagModel AggModel CollectorModel ViewModel WorkerModel.
Import ListNotations.
Open Scope nat_scope.

(** ** Steps of the worker *)

(** worker.go:329-350 [tryRegisterView]: the state and the viewInternal to subscribe, none
    for a conflict.  [None]: panic. *)
Definition try_register (w : wst) (p : nat) (now : time) : option (wst * option nat) :=
  match nth_error (u_views (w_u w)) p with
  | None => None
  | Some v =>
      match view_to_metric_descriptor (w_u w) v, v_agg v, v_measure v with
      | Some d, Some ap, Some me =>
          match mget bytes_eqb (w_views w) (v_name v) with
          | Some x =>
              match nth_error (w_vis w) x with
              | None => None
              | Some xi => if same (w_u w) (vi_view xi) p then Some (w, Some x) else Some (w, None)
              end
          | None =>
              let x := length (w_vis w) in
              Some (MkWS (w_u w) (w_vis w ++ [MkVI p false ap [] d now])
                         (mset bytes_eqb (w_views w) (v_name v) x)
                         (mset bytes_eqb (w_meas w) (me_name me) (get_measure_ref w (me_name me) ++ [x]))
                         (w_subs w) (w_exps w) (w_res w), Some x)
          end
      | _, _, _ => None
      end
  end.

(** A change of one viewInternal (stats/view/view.go:119-124). *)
Definition set_vi (w : wst) (x : nat) (f : vint -> vint) : wst :=
  MkWS (w_u w) (upd (w_vis w) x f) (w_views w) (w_meas w) (w_subs w) (w_exps w) (w_res w).

(** worker_commands.go:72-73, stats/record.go:26-30 and view.go:134-136 for view [p], which
    has viewInternal [x].  [None]: panic (nil dereference for a foreign measure). *)
Definition subscribe (w : wst) (p x : nat) : option wst :=
  match nth_error (u_views (w_u w)) p with
  | None => None
  | Some v =>
      match v_measure v with
      | None => None
      | Some me =>
          match me_kind me with
          | MOther => None
          | _ => Some (MkWS (w_u w)
                        (upd (w_vis w) x (fun i => MkVI (vi_view i) true (vi_agg i) (vi_sigs i) (vi_desc i) (vi_start i)))
                        (w_views w) (w_meas w) (me_name me :: w_subs w) (w_exps w) (w_res w))
          end
      end
  end.

(** view.go:138-140. *)
Definition unsubscribe (w : wst) (x : nat) : wst :=
  set_vi w x (fun i => MkVI (vi_view i) false (vi_agg i) (vi_sigs i) (vi_desc i) (vi_start i)).

(** view.go:148-150, collector.go:55-57. *)
Definition clear_rows (w : wst) (x : nat) : wst :=
  set_vi w x (fun i => MkVI (vi_view i) (vi_sub i) (vi_agg i) [] (vi_desc i) (vi_start i)).

(** worker.go:352-360 [unregisterView].  [None]: panic. *)
Definition unregister_view (w : wst) (x : nat) : option wst :=
  match nth_error (w_vis w) x with
  | None => None
  | Some vi =>
      match nth_error (u_views (w_u w)) (vi_view vi) with
      | None => None
      | Some v =>
          match v_measure v with
          | None => None
          | Some me =>
              Some (MkWS (w_u w) (w_vis w) (mdel bytes_eqb (w_views w) (v_name v))
                         (match mget bytes_eqb (w_meas w) (me_name me) with
                          | Some l => mset bytes_eqb (w_meas w) (me_name me) (filter (fun y => negb (y =? x)) l)
                          | None => w_meas w
                          end)
                         (w_subs w) (w_exps w) (w_res w))
          end
      end
  end.

(** ** State *)

(** Where the worker goroutine is. (worker.go:287-304, worker_commands.go:58-109.) *)
Inductive pc : Type :=
| PIdle
| PRegister (ps : list nat) (now : time) (todo bad : list nat) (pending : option (nat * nat))
    (* in the second loop of Register [ps]; [pending]: view and viewInternal to subscribe *)
| PUnregister (todo : list bytes) (now : time)
| PReported (n : bytes) (x : nat) (todo : list bytes) (now : time)     (* next: unsubscribe *)
| PUnsubscribed (n : bytes) (x : nat) (todo : list bytes) (now : time) (* next: clearRows *)
| PCleared (n : bytes) (x : nat) (todo : list bytes) (now : time)      (* next: unregisterView *)
| PTick (todo : list (bytes * nat)) (now : time).                      (* in reportUsage, holding w.mu *)

(** What takes effect at one moment. [AExport n now evs]: the data of view [n] given to the
    exporters; [ARemove n]: view [n] stops collecting. (worker.go:287-304, 362-378,
    worker_commands.go:98-106.) *)
Inductive atom : Type :=
| ACmd (c : cmd) (r : resp)
| AExport (n : bytes) (now : time) (evs : list event)
| ARemove (n : bytes).

(** A call of Read that holds w.mu. [rd_from] is a history variable: how much of the log was
    there when it took w.mu. [rd_cur]: the view it has found subscribed.
    (worker.go:398-410.) *)
Record rd : Type := MkRd {
  rd_from : nat;
  rd_now : time;
  rd_cur : option (bytes * nat);
  rd_todo : list (bytes * nat);
  rd_got : list metric }.

(** A call of Read that has returned, with the length of the log when it began and when it
    ended. (worker.go:409.) *)
Record done_read : Type := MkDone {
  dr_from : nat; dr_to : nat; dr_now : time; dr_got : list metric }.

(** [f_log], [f_started] and [f_reads] are history variables: what took effect (true: by the
    worker), the commands the worker has received, the calls of Read that have returned. The
    rest is the worker (worker.go:44-57) and where its goroutine and Read are (287-304,
    398-410). *)
Record fstate : Type := MkF {
  f_w : wst;
  f_pc : pc;
  f_read : option rd;
  f_log : list (bool * atom);
  f_started : list cmd;
  f_reads : list done_read }.

(** ** Steps *)

(** (worker.go:279-281, 287-304, 398-424.) *)
Inductive fop : Type :=
| FStart (o : order) (c : cmd) (* the worker receives [c], or a tick *)
| FWork (o : order)            (* its next step *)
| FDirect (c : cmd)            (* RegisterExporter, UnregisterExporter, SetResource *)
| FLock (o : order) (now : time) (* a call of Read takes w.mu *)
| FRead (o : order)            (* its next step *)
| FUnlock.                     (* it returns *)

(** A step that must wait for w.mu (worker.go:330, 353, 381, 399), a panic, the next state. *)
Inductive outcome : Type := Blocked | Panicked | Next (s : fstate).

(** No code of its own (worker.go:287-304). *)
Definition with_w (s : fstate) (w : wst) (p : pc) (l : list (bool * atom)) : fstate :=
  MkF w p (f_read s) (f_log s ++ l) (f_started s) (f_reads s).

(** Taking w.mu: possible if no Read holds it (the worker itself holds it in [PTick] only).
    (worker.go:330, 353, 381, 399, worker_commands.go:124, 158.) *)
Definition locked (s : fstate) : bool := match f_read s with Some _ => true | None => false end.

(** worker.go:293-296: the first step of a command.  Find, SetReportingPeriod, RetrieveData and
    Record are one step: the first two do not use w.mu, the others hold it all along. *)
Definition start (o : order) (s : fstate) (c : cmd) : outcome :=
  let s := MkF (f_w s) (f_pc s) (f_read s) (f_log s) (f_started s ++ [c]) (f_reads s) in
  let whole := match handle o (f_w s) c with
               | Some (r, _, w) => Next (with_w s w PIdle [(true, ACmd c r)])
               | None => Panicked
               end in
  match c with
  | CmdFind _ | CmdSetPeriod _ => whole
  | CmdRetrieve _ | CmdRecord _ _ _ _ => if locked s then Blocked else whole
  | CmdRegister ps now =>
      match canon_all (w_u (f_w s)) ps with
      | None => Panicked
      | Some (u, Some e) => Next (with_w s (with_u (f_w s) u) PIdle [(true, ACmd c (RRegister (Some (inl e))))])
      | Some (u, None) => Next (with_w s (with_u (f_w s) u) (PRegister ps now ps [] None) [])
      end
  | CmdUnregister ns now => Next (with_w s (f_w s) (PUnregister ns now) [])
  | CmdTick now => if locked s then Blocked else Next (with_w s (f_w s) (PTick (ord o _ (w_views (f_w s))) now) [])
  | _ => Blocked (* not sent to the worker *)
  end.

(** The next step of the command being handled. (worker_commands.go:66-79, 91-108,
    worker.go:329-386.) *)
Definition work (o : order) (s : fstate) : outcome :=
  let w := f_w s in
  match f_pc s with
  | PIdle => Blocked
  | PRegister ps now todo bad (Some (p, x)) =>
      match subscribe w p x with
      | Some w' => Next (with_w s w' (PRegister ps now todo bad None) [])
      | None => Panicked
      end
  | PRegister ps now (p :: todo) bad None =>
      if locked s then Blocked
      else match try_register w p now with
           | None => Panicked
           | Some (w', Some x) => Next (with_w s w' (PRegister ps now todo bad (Some (p, x))) [])
           | Some (w', None) => Next (with_w s w' (PRegister ps now todo (bad ++ [p]) None) [])
           end
  | PRegister ps now [] bad None =>
      Next (with_w s w PIdle [(true, ACmd (CmdRegister ps now) (RRegister (match bad with [] => None | _ => Some (inr bad) end)))])
  | PUnregister [] now => Next (with_w s w PIdle [])
  | PUnregister (n :: todo) now =>
      match mget bytes_eqb (w_views w) n with
      | None => Next (with_w s w (PUnregister todo now) [])
      | Some x => match report_view o w x now with
                  | None => Panicked
                  | Some evs => Next (with_w s w (PReported n x todo now) [(true, AExport n now evs)])
                  end
      end
  | PReported n x todo now => Next (with_w s (unsubscribe w x) (PUnsubscribed n x todo now) [(true, ARemove n)])
  | PUnsubscribed n x todo now => Next (with_w s (clear_rows w x) (PCleared n x todo now) [])
  | PCleared n x todo now =>
      if locked s then Blocked
      else match unregister_view w x with
           | None => Panicked
           | Some w' => Next (with_w s w' (PUnregister todo now) [])
           end
  | PTick [] now => Next (with_w s w PIdle [])
  | PTick ((n, x) :: todo) now =>
      match report_view o w x now with
      | None => Panicked
      | Some evs => Next (with_w s w (PTick todo now) [(true, AExport n now evs)])
      end
  end.

(** worker.go:398-410 [Read], 388-394 [toMetric] and view_to_metric.go:130-147. *)
Definition read_step (o : order) (s : fstate) (r : rd) : outcome :=
  let next r' := Next (MkF (f_w s) (f_pc s) (Some r') (f_log s) (f_started s) (f_reads s)) in
  match rd_cur r with
  | None =>
      match rd_todo r with
      | [] => Blocked
      | (n, x) :: todo =>
          match nth_error (w_vis (f_w s)) x with
          | None => Panicked
          | Some vi => next (MkRd (rd_from r) (rd_now r) (if vi_sub vi then Some (n, x) else None) todo (rd_got r))
          end
      end
  | Some (n, x) =>
      match nth_error (w_vis (f_w s)) x with
      | None => Panicked
      | Some vi =>
          match collected_rows o (f_w s) vi with
          | None => Panicked
          | Some rows =>
              match view_to_metric (vi_desc vi) rows (w_res (f_w s)) (rd_now r) with
              | None => Panicked
              | Some m => next (MkRd (rd_from r) (rd_now r) None (rd_todo r)
                                     (rd_got r ++ match m with Some m => [m] | None => [] end))
              end
          end
      end
  end.

(** One step of any goroutine (worker.go:279-304, 398-424). *)
Definition fstep (s : fstate) (a : fop) : outcome :=
  match a with
  | FStart o c => match f_pc s with PIdle => start o s c | _ => Blocked end
  | FWork o => work o s
  | FDirect c =>
      match c with
      | CmdAddExporter _ | CmdDelExporter _ | CmdSetResource _ =>
          match handle id_order (f_w s) c with
          | Some (r, _, w) => Next (with_w s w (f_pc s) [(false, ACmd c r)])
          | None => Panicked
          end
      | _ => Blocked
      end
  | FLock o now =>
      match f_read s, f_pc s with
      | Some _, _ | _, PTick _ _ => Blocked
      | None, _ =>
          Next (MkF (f_w s) (f_pc s) (Some (MkRd (length (f_log s)) now None (ord o _ (w_views (f_w s))) []))
                    (f_log s) (f_started s) (f_reads s))
      end
  | FRead o => match f_read s with Some r => read_step o s r | None => Blocked end
  | FUnlock =>
      match f_read s with
      | Some (MkRd from now None [] got) =>
          Next (MkF (f_w s) (f_pc s) None (f_log s) (f_started s) (f_reads s ++ [MkDone from (length (f_log s)) now got]))
      | _ => Blocked
      end
  end.

(** worker.go:261-273 [NewMeter]. *)
Definition finit (u : uworld) : fstate := MkF (new_meter u) PIdle None [] [] [].

(** A run; [None] if a step is not possible or panics. No code of its own
    (worker.go:287-304). *)
Fixpoint frun (s : fstate) (l : list fop) : option fstate :=
  match l with
  | [] => Some s
  | a :: r => match fstep s a with Next s' => frun s' r | _ => None end
  end.
