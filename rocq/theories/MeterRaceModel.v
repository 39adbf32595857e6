(** Model of which fields Meters and their workers read and write, and with which mutex held
    (stats/view/worker.go, worker_commands.go, view.go, view_to_metric.go).  Definitions only.

    A thread is a list of operations to come: thread [m] is the worker of meter [m], for [m] less
    than [K]; the others are goroutines of the program.  A goroutine may start any call, of any
    meter, when it is in none; so may, in ExportView, a worker.  A call that sends a command does
    not wait for the answer here, and the channels have no bound: the model has more schedules than
    the program (CallbackModel has the waiting).  Branches that depend on values are arguments of
    the commands, so that every combination is there.
    isSubscribed and subscribe are atomic (view.go:134-146) and are no accesses.  What rows hold,
    once collected, is a copy (collector.go:45-53).  The subscriptions of measures and package
    metricproducer have mutexes of their own and are not modelled here. *)

From Coq Require Import List Arith Bool.
From Verif Require Import Base AggModel.
Import ListNotations.
Open Scope nat_scope.

(** worker.go:52, 55: mu and exportersMu of meter [m] (both only Locked, never RLocked). *)
Inductive mtx : Type := Mu (m : nat) | Emu (m : nat).

(** The shared variables of meter [m]: w.views and w.viewStartTimes (worker.go:46-47), w.measures and
    the views of each (39-45), the rows of view [v] (collector.go:26-33), w.r (53), w.exporters
    (56), w.timer (49).  Those of the program: the fields of View [v] (view.go:35-48), and the
    Buckets of Aggregation [a] (aggregation.go:48). *)
Inductive var : Type :=
| VViews (m : nat) | VMeas (m : nat) | VRows (m v : nat) | VRes (m : nat) | VExp (m : nat) | VTimer (m : nat)
| VView (v : nat) | VAgg (a : nat).

(** The commands (worker_commands.go:29-186).  [KRegister cs vs]: the views canonicalized (fewer
    than given if one fails), then those tried, each with the view found under its name, if any;
    [KUnregister]: views, each with whether it is subscribed; [KRecord]: for each measurement,
    views of its measure. *)
Inductive cmd : Type :=
| KFind | KRegister (cs : list nat) (vs : list (nat * option nat)) | KUnregister (vs : list (nat * bool))
| KRetrieve (v : nat) | KRecord (l : list (list nat)) | KPeriod.

(** One operation.  [Clear m v]: clearRows of a view (worker_commands.go:104); [Canon v]: the part of
    canonicalize that changes a View, only if it is not canonical yet (view.go:85-96; sorting sorted
    keys writes nothing); [Reg], [Unreg]: change w.views (worker.go:345-348, 355-359); [Walk m true]:
    the loop of reportUsage (383-385), [Walk m false]: the one of Read (403-408); [Export]: within
    ExportView; [Send m c]: w.c <- (133, 151, 176, 194, 221, 254). *)
Inductive op : Type :=
| Lock (k : mtx) | Unlock (k : mtx) | Rd (x : var) | Wr (x : var) | Clear (m v : nat) | Canon (v : nat)
| Reg (m v : nat) | Unreg (m v : nat) | Walk (m : nat) (report : bool) | Export | Send (m : nat) (c : cmd).

(** The calls, of meter [m]: those that send a command (Find, Register, Unregister, RetrieveData,
    Record, SetReportingPeriod; worker.go:128-256), Read (398-410), SetResource (279-281),
    RegisterExporter and UnregisterExporter (412-424). *)
Inductive call : Type := CSend (m : nat) (c : cmd) | CRead (m : nat) | CResource (m : nat) | CExporter (m : nat).

(** worker.go:362-378 [reportView], of a subscribed view. *)
Definition report_ops (m v : nat) : list op :=
  [Rd (VView v); Rd (VRows m v); Rd (VViews m); Lock (Emu m); Rd (VExp m); Export; Unlock (Emu m)].

(** worker.go:388-394 [toMetric], view_to_metric.go:130-147, of a subscribed view. *)
Definition metric_ops (m v : nat) : list op := [Rd (VRes m); Rd (VView v); Rd (VRows m v)].

(** What a call does on the caller's goroutine: worker.go:128-256, 279-281, 398-424. *)
Definition ops_of (c : call) : list op :=
  match c with
  | CSend m k => [Send m k]
  | CRead m => [Lock (Mu m); Rd (VViews m); Walk m false; Unlock (Mu m)]
  | CResource m => [Wr (VRes m)]
  | CExporter m => [Lock (Emu m); Wr (VExp m); Unlock (Emu m)]
  end.

(** No code of its own (membership, worker.go:336). *)
Definition mem (v : nat) (l : list nat) : bool := existsb (Nat.eqb v) l.

Section Meters.
  (** The number of meters, and the Aggregation of each View (worker.go:261; view.go:47). *)
  Variable K : nat.
  Variable ag : nat -> nat.

  (** view.go:78-107 [canonicalize]. *)
  Definition canon_ops (v : nat) : list op := [Canon v; Wr (VAgg (ag v))].

  (** worker.go:329-350 [tryRegisterView], view.go:61-70 [same]; [known]: the views canonicalized with it
      and those in w.views. *)
  Definition try_ops (m : nat) (known : list nat) (x : nat * option nat) : list op :=
    [Lock (Mu m); Rd (VView (fst x)); Rd (VViews m)] ++
    match snd x with
    | None => [Wr (VMeas m); Reg m (fst x)]
    | Some y => if mem y known then [Rd (VView y); Rd (VAgg (ag (fst x))); Rd (VAgg (ag y))] else []
    end ++ [Unlock (Mu m)].

  (** worker_commands.go:91-107, worker.go:352-360 [unregisterView]. *)
  Definition unregister_ops (m : nat) (views : list nat) (x : nat * bool) : list op :=
    Rd (VViews m) ::
    (if mem (fst x) views then
       (if snd x then report_ops m (fst x) else []) ++
       [Clear m (fst x); Lock (Mu m); Wr (VMeas m); Unreg m (fst x); Unlock (Mu m)]
     else []).

  (** worker_commands.go:160-168, view.go:156-162 [addSample], worker.go:317-327 [getMeasureRef];
      a new row takes the Buckets of the Aggregation (aggregation_data.go:145-153). *)
  Definition record_ops (m : nat) (views : list nat) (vs : list nat) : list op :=
    [Rd (VMeas m); Wr (VMeas m)] ++
    concat (map (fun v => [Rd (VView v); Rd (VAgg (ag v)); Wr (VRows m v)]) (filter (fun v => mem v views) vs)).

  (** The handlers: worker_commands.go:43-50, 58-80, 90-109, 123-146, 157-169, 178-186. *)
  Definition handler (m : nat) (views : list nat) (c : cmd) : list op :=
    match c with
    | KFind => [Rd (VViews m)]
    | KRegister cs vs =>
        concat (map canon_ops cs) ++ concat (map (try_ops m (cs ++ views)) (filter (fun x => mem (fst x) cs) vs))
    | KUnregister vs => concat (map (unregister_ops m views) vs)
    | KRetrieve v =>
        [Lock (Mu m); Rd (VViews m)] ++ (if mem v views then [Rd (VView v); Rd (VRows m v)] else []) ++ [Unlock (Mu m)]
    | KRecord l => Lock (Mu m) :: concat (map (record_ops m views) l) ++ [Unlock (Mu m)]
    | KPeriod => [Rd (VTimer m); Wr (VTimer m)]
    end.

  (** worker.go:380-386 [reportUsage]. *)
  Definition tick_ops (m : nat) : list op := [Lock (Mu m); Rd (VViews m); Walk m true; Unlock (Mu m)].

  (** The threads, who holds the mutexes, the channel and the views in w.views of each meter, and the
      Views that are canonical.  (worker.go:44-57.) *)
  Record mst : Type := MkM {
    m_ths : list (list op); m_own : mtx -> option nat; m_q : nat -> list cmd; m_views : nat -> list nat; m_canon : nat -> bool }.

  (** What thread [t] still has to do. No code of its own (worker.go:128-424). *)
  Definition ops_at (s : mst) (t : nat) : list op := nth t (m_ths s) [].
  (** No code of its own (worker.go:128-424). *)
  Definition set_ops (s : mst) (t : nat) (l : list op) : mst :=
    MkM (upd (m_ths s) t (fun _ => l)) (m_own s) (m_q s) (m_views s) (m_canon s).
  (** No code of its own (comparison of mutexes, worker.go:52, 55). *)
  Definition mtx_eqb (a b : mtx) : bool :=
    match a, b with Mu x, Mu y | Emu x, Emu y => x =? y | _, _ => false end.
  (** No code of its own (sync.RWMutex, worker.go:52, 55). *)
  Definition set_own (f : mtx -> option nat) (k : mtx) (o : option nat) : mtx -> option nat :=
    fun x => if mtx_eqb x k then o else f x.
  (** No code of its own (the fields of a worker, worker.go:46, 50). *)
  Definition setn {A} (f : nat -> A) (n : nat) (a : A) : nat -> A := fun x => if x =? n then a else f x.

  (** The scheduler: a thread makes a call or goes on, or loops over views [l]; worker [m], in its
      select (worker.go:291-303), takes a command, a tick, or w.quit.  (worker.go:287-304.) *)
  Inductive pick : Type :=
  | PBegin (t : nat) (c : call) | PRun (t : nat) | PWalk (t : nat) (l : list nat)
  | PHandle (m : nat) | PTick (m : nat) | PQuit (m : nat).

  (** A goroutine may make a call if it is in none; a worker only in ExportView (worker.go:375-377). *)
  Definition free (t : nat) (l : list op) : bool :=
    match l with [] => K <=? t | Export :: _ => true | _ => false end.

  (** Worker [m] is in its select (worker.go:291-303). *)
  Definition idle (s : mst) (m : nat) : bool :=
    (m <? K) && (m <? length (m_ths s)) && match ops_at s m with [] => true | _ => false end.

  (** One step; [None] if it is not possible.  A loop may leave out views, those that are not
      subscribed (worker.go:363-365, 389-391).  (worker.go:128-424; worker_commands.go:43-186.) *)
  Definition mstep (s : mst) (p : pick) : option mst :=
    match p with
    | PBegin t c =>
        if (t <? length (m_ths s)) && free t (ops_at s t) then Some (set_ops s t (ops_of c ++ ops_at s t)) else None
    | PRun t =>
        match ops_at s t with
        | [] => None
        | o :: r =>
            let s1 := set_ops s t r in
            match o with
            | Lock k =>
                match m_own s k with
                | None => Some (MkM (m_ths s1) (set_own (m_own s) k (Some t)) (m_q s) (m_views s) (m_canon s))
                | Some _ => None
                end
            | Unlock k => Some (MkM (m_ths s1) (set_own (m_own s) k None) (m_q s) (m_views s) (m_canon s))
            | Rd _ | Wr _ | Clear _ _ | Export => Some s1
            | Canon v => Some (MkM (m_ths s1) (m_own s) (m_q s) (m_views s) (setn (m_canon s) v true))
            | Reg m v => Some (MkM (m_ths s1) (m_own s) (m_q s) (setn (m_views s) m (v :: m_views s m)) (m_canon s))
            | Unreg m v =>
                Some (MkM (m_ths s1) (m_own s) (m_q s) (setn (m_views s) m (filter (fun x => negb (x =? v)) (m_views s m))) (m_canon s))
            | Walk _ _ => None
            | Send m c => Some (MkM (m_ths s1) (m_own s) (setn (m_q s) m (m_q s m ++ [c])) (m_views s) (m_canon s))
            end
        end
    | PWalk t l =>
        match ops_at s t with
        | Walk m b :: r =>
            if forallb (fun v => mem v (m_views s m)) l then
              Some (set_ops s t (concat (map (if b then report_ops m else metric_ops m) l) ++ r))
            else None
        | _ => None
        end
    | PHandle m =>
        match m_q s m with
        | c :: q =>
            if idle s m then
              let s1 := set_ops s m (Rd (VTimer m) :: handler m (m_views s m) c) in
              Some (MkM (m_ths s1) (m_own s) (setn (m_q s) m q) (m_views s) (m_canon s))
            else None
        | [] => None
        end
    | PTick m => if idle s m then Some (set_ops s m (Rd (VTimer m) :: tick_ops m)) else None
    | PQuit m => if idle s m then Some (set_ops s m [Rd (VTimer m)]) else None
    end.

  (** The workers and [n] goroutines (worker.go:261-285). *)
  Definition minit (n : nat) : mst := MkM (repeat [] (K + n)) (fun _ => None) (fun _ => []) (fun _ => []) (fun _ => false).

  (** Runs. No code of its own (worker.go:287-304). *)
  Inductive msteps : mst -> list pick -> mst -> Prop :=
  | msteps_nil s : msteps s [] s
  | msteps_cons s p s1 l s' : mstep s p = Some s1 -> msteps s1 l s' -> msteps s (p :: l) s'.

  (** Runs a schedule. No code of its own (worker.go:287-304). *)
  Fixpoint mexec (s : mst) (l : list pick) : option mst :=
    match l with [] => Some s | p :: r => match mstep s p with Some s1 => mexec s1 r | None => None end end.
End Meters.
