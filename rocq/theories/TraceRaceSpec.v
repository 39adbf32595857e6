(** What a data race and a deadlock are. *)

From Coq Require Import List Arith Bool.
From Verif Require Import Base TraceRaceModel.
Import ListNotations.
Open Scope nat_scope.

(** States a program with any number of goroutines can get to. *)
Definition reachable (s : rst) : Prop := exists n l, rsteps (rinit n) l s.

(** The variable an operation reads (false) or writes (true). *)
Definition access (o : op) : option (var * bool) :=
  match o with
  | Rd x => Some (x, false)
  | Wr x => Some (x, true)
  | Walk n => Some (VStore n, false)
  | Add n _ | Del n _ => Some (VStore n, true)
  | _ => None
  end.

(** The next thing goroutine [t] does. *)
Definition next_op (s : rst) (t : nat) : option op := hd_error (ops_at s t).

(** Two goroutines are both about to access the same variable, and one of them writes it. *)
Definition race (s : rst) : Prop :=
  exists t u o o' x w w', t <> u /\ next_op s t = Some o /\ next_op s u = Some o' /\
    access o = Some (x, w) /\ access o' = Some (x, w') /\ (w = true \/ w' = true).

(** Goroutine [t] is in a call. *)
Definition busy (s : rst) (t : nat) : Prop := ops_at s t <> [].

(** A step other than the start of a call. *)
Definition old (p : pick) : Prop := match p with PBegin _ _ => False | _ => True end.

(** Some goroutine that is in a call can go on. *)
Definition goes_on (s : rst) : Prop := exists p s', old p /\ rstep s p = Some s'.

(** Exporters that do not end spans (that record) from within ExportSpan. *)
Fixpoint modest (s : rst) (l : list pick) : Prop :=
  match l with
  | [] => True
  | p :: r =>
      match p with PBegin t (CEnd _ (Some _)) => ops_at s t = [] | _ => True end /\
      match rstep s p with Some s1 => modest s1 r | None => True end
  end.

(** States a program with such exporters can get to. *)
Definition reachable_modest (s : rst) : Prop := exists n l, rsteps (rinit n) l s /\ modest (rinit n) l.

(** Goroutine [t] is stuck for good: whatever happens, it never goes on. *)
Definition hangs (s : rst) (t : nat) : Prop := forall l s', rsteps s l s' -> ops_at s' t = ops_at s t.
