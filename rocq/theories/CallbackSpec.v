(** What it means that a call returns, or never will. *)

From Coq Require Import List Arith Bool.
From Verif Require Import Base CallbackModel.
Import ListNotations.
Open Scope nat_scope.

(** States a meter can get to, whatever the goroutines and the exporters call. *)
Definition reachable (cap : nat) (progs : list (list call)) (s : mst) : Prop := exists l, msteps cap (minit progs) l s.

(** The worker is in ExportView, and the exporter is about to make this call.  (Only the calls
    of exporters and goroutines have returns.) *)
Definition exporter_calls (s : mst) (c : call) : Prop := exists rest, ops_at s 0 = ops_of c ++ rest.

(** Thread [t] will never do anything again, whatever happens. *)
Definition hangs (cap : nat) (s : mst) (t : nat) : Prop := forall l s', msteps cap s l s' -> ops_at s' t = ops_at s t.

(** The calls of thread [t] that have returned. *)
Definition returned (s : mst) (t : nat) : list call := map snd (filter (fun x => fst x =? t) (m_log s)).

(** No call made by the exporter returns any more. *)
Definition never_returns (cap : nat) (s : mst) : Prop := forall l s', msteps cap s l s' -> returned s' 0 = returned s 0.

(** A goroutine waits for the worker: for a reply, for Stop, for the mutex of the exporters, or
    for room in the channel. *)
Definition waits (cap : nat) (s : mst) (t : nat) : Prop :=
  exists r, ops_at s t = OWait :: r \/ ops_at s t = OWaitDone :: r \/ ops_at s t = OLock Emu :: r \/
            (exists c, ops_at s t = OSend c :: r /\ cap <= length (m_q s)).

(** The harm done: no call of the exporter returns any more, the commands of all goroutines
    stay in the channel, and whoever waits for the worker then or later waits forever. *)
Definition paralysed (cap : nat) (s : mst) : Prop :=
  never_returns cap s /\ forall l s', msteps cap s l s' -> forall t, t <> 0 -> waits cap s' t -> hangs cap s' t.

(** Only threads go on: the worker takes nothing new. *)
Definition runs (ts : list nat) : list pick := map PRun ts.

(** Exporters that do no harm: in a report by the timer they make no calls but SetResource,
    in one by Unregister also Read. *)
Definition harmless (p : pick) : Prop :=
  match p with
  | PTick reports => forall r calls c, In r reports -> In calls r -> In c calls -> c = CResource
  | PHandle reports => forall r calls c, In r reports -> In calls r -> In c calls -> c = CResource \/ c = CRead
  | _ => True
  end.

(** Steps other than ticks of the timer, with exporters that do no harm. *)
Definition calm (p : pick) : Prop := harmless p /\ match p with PTick _ => False | _ => True end.
