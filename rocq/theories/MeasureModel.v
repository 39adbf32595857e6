(** Model of the registry of measures (stats/measure.go, measure_int64.go,
    measure_float64.go), of the subscription it is told of (stats/record.go:25-31) and of
    the test of the flags by Record, with any number of goroutines.  Definitions only. *)

From Coq Require Import List Arith Bool.
From Verif Require Import Base GoMap TagModel AggModel.
Import ListNotations.
Open Scope nat_scope.

(** stats/measure.go:55-61 [measureDescriptor]. *)
Record mdesc : Type := MkMD { dd_subs : bool; dd_name : bytes; dd_desc : bytes; dd_unit : bytes }.

(** What a goroutine calls: stats.Int64 or stats.Float64 (measure_int64.go:37-40,
    measure_float64.go:37-40: both are registerMeasureHandle); what the view worker calls
    for a view it has registered (record.go:26-30); Record or RecordWithOptions with
    measurements of measures that earlier calls have returned ([None]: the zero
    Measurement). *)
Inductive mcall : Type :=
| MCreate (name desc unit : bytes)
| MSubscribe (name : bytes)
| MRecord (ms : list (option nat)).

(** What it returns: a measure, by the pointer it wraps; nothing; whether the measurements
    go to the recorder. (stats/measure_int64.go:39, measure_float64.go:39,
    record.go:112-115.) *)
Inductive mres : Type := RMeasure (p : nat) | RSubscribed | RSent (b : bool).

(** Where a call is: before mu.Lock; holding mu; before mu.Unlock; before the next load of
    a flag (record.go:105-111, 143-149); returned. *)
Inductive mpc : Type :=
| McStart
| McLocked
| McUnlock (r : mres)
| McLoad (ps : list (option nat))
| McDone (r : mres).

(** stats/measure.go:71-74: mu (its holder), measures; the descriptors ever allocated
    (pointer = index); the calls made. *)
Record mstate : Type := MkMS {
  ms_lock : option nat;
  ms_heap : list mdesc;
  ms_map : list (bytes * nat);
  ms_threads : list (mcall * mpc) }.
(** The start of the program (stats/measure.go:71-74). *)
Definition minit : mstate := MkMS None [] [] [].

(** A goroutine begins a call; goroutine [i] takes its next step (stats/measure.go:76-90,
    record.go:26-30, 93-117). *)
Inductive mact : Type := ACall (c : mcall) | AStep (i : nat).
(** The step was taken; the mutex is held (stats/measure.go:77); nil pointer dereference
    (record.go:107). *)
Inductive mout : Type := MNext (s : mstate) | MBlocked | MPanicked.

(** The pointer that call number [k] has returned. (stats/measure.go:81, 89.) *)
Definition returned_ptr (s : mstate) (k : nat) : option nat :=
  match nth_error (ms_threads s) k with Some (_, McDone (RMeasure p)) => Some p | _ => None end.

(** The pointers inside the measurements; the outer [None]: a measure that does not exist
    yet. (stats/measure.go:95-99, the field desc.) *)
Fixpoint resolve (s : mstate) (ms : list (option nat)) : option (list (option nat)) :=
  match ms with
  | [] => Some []
  | None :: r => option_map (cons None) (resolve s r)
  | Some k :: r =>
      match returned_ptr s k, resolve s r with
      | Some p, Some ps => Some (Some p :: ps)
      | _, _ => None
      end
  end.

(** No code of its own (stats/measure.go:76-90). *)
Definition set_pc (s : mstate) (i : nat) (pc : mpc) : list (mcall * mpc) := upd (ms_threads s) i (fun t => (fst t, pc)).

(** stats/measure.go:76-90 [registerMeasureHandle], inside the lock. *)
Definition register_measure (heap : list mdesc) (m : list (bytes * nat)) (name desc unit : bytes) : list mdesc * list (bytes * nat) * nat :=
  match mget bytes_eqb m name with
  | Some p => (heap, m, p)
  | None => (heap ++ [MkMD false name desc unit], mset bytes_eqb m name (length heap), length heap)
  end.

(** stats/measure.go:63-65 [subscribe]. *)
Definition subscribe_measure (heap : list mdesc) (p : nat) : list mdesc :=
  upd heap p (fun d => MkMD true (dd_name d) (dd_desc d) (dd_unit d)).

(** stats/measure.go:63-69, 76-90, record.go:26-30, 93-117, 131-161: one step. *)
Definition mstep (s : mstate) (a : mact) : mout :=
  match a with
  | ACall (MRecord ms) =>
      match resolve s ms with
      | Some ps => MNext (MkMS (ms_lock s) (ms_heap s) (ms_map s) (ms_threads s ++ [(MRecord ms, McLoad ps)]))
      | None => MBlocked
      end
  | ACall c => MNext (MkMS (ms_lock s) (ms_heap s) (ms_map s) (ms_threads s ++ [(c, McStart)]))
  | AStep i =>
      match nth_error (ms_threads s) i with
      | None => MBlocked
      | Some (_, McStart) =>
          (* mu.Lock *)
          match ms_lock s with
          | None => MNext (MkMS (Some i) (ms_heap s) (ms_map s) (set_pc s i McLocked))
          | Some _ => MBlocked
          end
      | Some (MCreate n d u, McLocked) =>
          let '(heap, m, p) := register_measure (ms_heap s) (ms_map s) n d u in
          MNext (MkMS (ms_lock s) heap m (set_pc s i (McUnlock (RMeasure p))))
      | Some (MSubscribe n, McLocked) =>
          (* record.go:28: a nil pointer for a name without measure *)
          match mget bytes_eqb (ms_map s) n with
          | Some p => MNext (MkMS (ms_lock s) (subscribe_measure (ms_heap s) p) (ms_map s) (set_pc s i (McUnlock RSubscribed)))
          | None => MPanicked
          end
      | Some (_, McUnlock r) => MNext (MkMS None (ms_heap s) (ms_map s) (set_pc s i (McDone r)))
      | Some (_, McLoad ps) =>
          match ps with
          | [] => MNext (MkMS (ms_lock s) (ms_heap s) (ms_map s) (set_pc s i (McDone (RSent false))))
          | None :: _ => MPanicked
          | Some p :: r =>
              (* measure.go:67-69 subscribed *)
              match nth_error (ms_heap s) p with
              | None => MPanicked
              | Some d => MNext (MkMS (ms_lock s) (ms_heap s) (ms_map s)
                                      (set_pc s i (if dd_subs d then McDone (RSent true) else McLoad r)))
              end
          end
      | Some (_, McLocked) | Some (_, McDone _) => MBlocked
      end
  end.

(** An execution: no code of its own (stats/measure.go:76-90). *)
Fixpoint mrun (s : mstate) (acts : list mact) : option mstate :=
  match acts with
  | [] => Some s
  | a :: r => match mstep s a with MNext s' => mrun s' r | _ => None end
  end.

(** Name, Description and Unit of a measure (measure_int64.go:42-55,
    measure_float64.go:42-55). *)
Definition measure_name (s : mstate) (p : nat) : option bytes := option_map dd_name (nth_error (ms_heap s) p).
(** stats/measure_int64.go:47-50, measure_float64.go:47-50. *)
Definition measure_desc (s : mstate) (p : nat) : option bytes := option_map dd_desc (nth_error (ms_heap s) p).
(** stats/measure_int64.go:52-55, measure_float64.go:52-55. *)
Definition measure_unit (s : mstate) (p : nat) : option bytes := option_map dd_unit (nth_error (ms_heap s) p).
