(** Model of how the methods of a Meter synchronise, with exporters that call the meter
    themselves (stats/view/worker.go, worker_commands.go).  Definitions only.

    A thread is a list of operations to come.  Thread 0 is the worker, the others are
    goroutines of the program.  ExportView is a list of calls of the same meter, given by
    the schedule at each export.  Data is not modelled (WorkerModel, MeterStepModel), nor
    calls of another meter; that two calls of Stop can close w.quit twice is in QueueModel. *)

From Coq Require Import List Arith Bool.
From Verif Require Import Base AggModel.
Import ListNotations.
Open Scope nat_scope.

(** worker.go:52, 56: w.mu and w.exportersMu. *)
Inductive mtx : Type := Mu | Emu.

(** The methods of Meter (worker.go:67-112).  [CRegister n]: of n views; [CExporter]:
    RegisterExporter or UnregisterExporter; [CPeriod]: SetReportingPeriod; [CResource]:
    SetResource; [CRead]: Read (worker.go:398-410). *)
Inductive call : Type :=
| CFind | CRegister (n : nat) | CUnregister | CRetrieve | CPeriod | CRecord | CRead | CExporter | CResource | CStop.

(** One synchronising operation: Lock and Unlock, sending a command on w.c, waiting for its
    reply, replying to thread [t], closing w.quit, waiting for w.done; [ORet] marks that a
    call returns.  (worker.go:122-256, 287-315, 361-424.) *)
Inductive op : Type :=
| OLock (m : mtx) | OUnlock (m : mtx) | OSend (c : call) | OWait | OReply (t : nat) | OClose | OWaitDone | ORet (c : call).

(** What a call does on the caller's goroutine: worker.go:128-136, 146-153, 167-178, 188-197,
    214-222, 247-256 (through the channel), 279-281 (SetResource), 306-315 (Stop), 398-410
    (Read), 412-424 (exporters). *)
Definition ops_of (c : call) : list op :=
  match c with
  | CFind | CRegister _ | CUnregister | CRetrieve | CPeriod => [OSend c; OWait; ORet c]
  | CRecord => [OSend c; ORet c]
  | CRead => [OLock Mu; OUnlock Mu; ORet c]
  | CExporter => [OLock Emu; OUnlock Emu; ORet c]
  | CResource => [ORet c]
  | CStop => [OClose; OWaitDone; ORet c]
  end.

(** worker.go:361-378 [reportView]: ExportView of each exporter under w.exportersMu. *)
Definition report_ops (exporters : list (list call)) : list op :=
  [OLock Emu] ++ concat (map (fun calls => concat (map ops_of calls)) exporters) ++ [OUnlock Emu].

(** worker.go:380-386 [reportUsage]: every view, under w.mu. *)
Definition tick_ops (reports : list (list (list call))) : list op :=
  [OLock Mu] ++ concat (map report_ops reports) ++ [OUnlock Mu].

(** worker_commands.go:38-170, the handlers, for a command of thread [t]: Find 38-45, Register
    58-82 (tryRegisterView locks, worker.go:329-331), Unregister 90-108 (unregisterView locks,
    worker.go:352-354), RetrieveData 122-148, Record 158-170, SetReportingPeriod 179-187. *)
Definition handler (reports : list (list (list call))) (t : nat) (c : call) : list op :=
  match c with
  | CFind | CPeriod => [OReply t]
  | CRegister n => concat (repeat [OLock Mu; OUnlock Mu] n) ++ [OReply t]
  | CUnregister => concat (map (fun r => report_ops r ++ [OLock Mu; OUnlock Mu]) reports) ++ [OReply t]
  | CRetrieve => [OLock Mu; OReply t; OUnlock Mu]
  | CRecord => [OLock Mu; OUnlock Mu]
  | _ => []
  end.

(** The threads, who holds the mutexes, w.c, whether w.quit and w.done are closed, whether the
    program panicked, and, as a history, the calls that returned.  (worker.go:42-58.) *)
Record mst : Type := MkM {
  m_ths : list (list op); m_mu : option nat; m_emu : option nat; m_q : list (nat * call);
  m_quit : bool; m_done : bool; m_panic : bool; m_log : list (nat * call) }.

(** No code of its own (sync.Mutex at worker.go:52, 56). *)
Definition owner (s : mst) (m : mtx) : option nat := match m with Mu => m_mu s | Emu => m_emu s end.
(** No code of its own (sync.Mutex at worker.go:52, 56). *)
Definition set_owner (s : mst) (m : mtx) (o : option nat) : mst :=
  match m with
  | Mu => MkM (m_ths s) o (m_emu s) (m_q s) (m_quit s) (m_done s) (m_panic s) (m_log s)
  | Emu => MkM (m_ths s) (m_mu s) o (m_q s) (m_quit s) (m_done s) (m_panic s) (m_log s)
  end.
(** What thread [t] still has to do. No code of its own (worker.go:128-256). *)
Definition ops_at (s : mst) (t : nat) : list op := nth t (m_ths s) [].
(** No code of its own (worker.go:128-256). *)
Definition set_ops (s : mst) (t : nat) (l : list op) : mst :=
  MkM (upd (m_ths s) t (fun _ => l)) (m_mu s) (m_emu s) (m_q s) (m_quit s) (m_done s) (m_panic s) (m_log s).

(** The scheduler: thread [t] goes on; the worker, in its select (worker.go:291-303), takes a
    command, a tick, or sees w.quit closed. *)
Inductive pick : Type :=
| PRun (t : nat) | PHandle (reports : list (list (list call))) | PTick (reports : list (list (list call))) | PQuit.

Section Steps.
  (** worker.go:267: the capacity of w.c, 1024. *)
  Variable cap : nat.

  (** worker.go:287-304: the worker is in its select. *)
  Definition idle (s : mst) : bool := match ops_at s 0 with [] => negb (m_done s) | _ => false end.

  (** worker.go:122-256, 279-315, 361-424, worker_commands.go:38-187: one step; [None] if it is
      not possible. *)
  Definition mstep (s : mst) (p : pick) : option mst :=
    if m_panic s then None else
    match p with
    | PRun t =>
        match ops_at s t with
        | [] => None
        | OLock m :: r => match owner s m with None => Some (set_owner (set_ops s t r) m (Some t)) | Some _ => None end
        | OUnlock m :: r => Some (set_owner (set_ops s t r) m None)
        | OSend c :: r =>
            if m_done s then Some (MkM (m_ths s) (m_mu s) (m_emu s) (m_q s) (m_quit s) (m_done s) true (m_log s))
            else if length (m_q s) <? cap then
              let s1 := set_ops s t r in
              Some (MkM (m_ths s1) (m_mu s) (m_emu s) (m_q s ++ [(t, c)]) (m_quit s) (m_done s) false (m_log s))
            else None
        | OWait :: _ => None
        | OReply t' :: r =>
            match ops_at s t' with
            | OWait :: r' => if t' =? t then None else Some (set_ops (set_ops s t r) t' r')
            | _ => None
            end
        | OClose :: r =>
            let s1 := set_ops s t r in
            Some (MkM (m_ths s1) (m_mu s) (m_emu s) (m_q s) true (m_done s) false (m_log s))
        | OWaitDone :: r => if m_done s then Some (set_ops s t r) else None
        | ORet c :: r =>
            let s1 := set_ops s t r in
            Some (MkM (m_ths s1) (m_mu s) (m_emu s) (m_q s) (m_quit s) (m_done s) false (m_log s ++ [(t, c)]))
        end
    | PHandle reports =>
        match m_q s with
        | (t, c) :: q =>
            if idle s then
              let s1 := set_ops s 0 (handler reports t c) in
              Some (MkM (m_ths s1) (m_mu s) (m_emu s) q (m_quit s) (m_done s) false (m_log s))
            else None
        | [] => None
        end
    | PTick reports => if idle s then Some (set_ops s 0 (tick_ops reports)) else None
    | PQuit =>
        if idle s && m_quit s then Some (MkM (m_ths s) (m_mu s) (m_emu s) (m_q s) true true false (m_log s)) else None
    end.

  (** A meter and goroutines with their calls (worker.go:261-273, 283-285). *)
  Definition minit (progs : list (list call)) : mst :=
    MkM ([] :: map (fun p => concat (map ops_of p)) progs) None None [] false false false [].

  (** Runs. No code of its own (worker.go:287-304). *)
  Inductive msteps : mst -> list pick -> mst -> Prop :=
  | msteps_nil s : msteps s [] s
  | msteps_cons s p s1 l s' : mstep s p = Some s1 -> msteps s1 l s' -> msteps s (p :: l) s'.
End Steps.
