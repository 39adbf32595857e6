(** What a data race in a meter is. *)

From Coq Require Import List Arith Bool.
From Verif Require Import Base MeterRaceModel.
Import ListNotations.
Open Scope nat_scope.

(** States a program with [K] meters can get to by a schedule; [ag] is the Aggregation of each View. *)
Definition reachable_by (K : nat) (ag : nat -> nat) (l : list pick) (s : mst) : Prop :=
  exists n, msteps K ag (minit K n) l s.

(** The variable an operation reads (false) or writes (true). *)
Definition access (s : mst) (o : op) : option (var * bool) :=
  match o with
  | Rd x => Some (x, false)
  | Wr x => Some (x, true)
  | Clear m v => Some (VRows m v, true)
  | Canon v => Some (VView v, negb (m_canon s v))
  | Reg m _ | Unreg m _ => Some (VViews m, true)
  | Walk m _ => Some (VViews m, false)
  | _ => None
  end.

(** The next thing thread [t] does. *)
Definition next_op (s : mst) (t : nat) : option op := hd_error (ops_at s t).

(** Threads [t] and [u] are both about to access [x]; [t] writes it. *)
Definition race_on (s : mst) (t u : nat) (x : var) : Prop :=
  t <> u /\ exists o o' w, next_op s t = Some o /\ next_op s u = Some o' /\
    access s o = Some (x, true) /\ access s o' = Some (x, w).

(** A data race. *)
Definition race (s : mst) : Prop := exists t u x, race_on s t u x.

(** Nobody calls SetResource of meter [m]. *)
Definition no_resource (m : nat) (l : list pick) : Prop := forall t, ~ In (PBegin t (CResource m)) l.

(** Nobody calls Unregister of meter [m]. *)
Definition no_unregister (m : nat) (l : list pick) : Prop := forall t vs, ~ In (PBegin t (CSend m (KUnregister vs))) l.

(** Nobody calls Read of meter [m]. *)
Definition no_read (m : nat) (l : list pick) : Prop := forall t, ~ In (PBegin t (CRead m)) l.

(** No Aggregation is in Views registered with different meters; [f] is the meter of each. *)
Definition apart (ag : nat -> nat) (l : list pick) : Prop :=
  exists f : nat -> nat, forall t m cs vs v, In (PBegin t (CSend m (KRegister cs vs))) l -> In v cs -> f (ag v) = m.
