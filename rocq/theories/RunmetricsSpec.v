(** What a user of plugin/runmetrics relies on: which metrics there are, and what each
    shows, in terms of the runtime's own numbers. *)

From Coq Require Import String.
From Coq Require Import List Arith ZArith Bool.
From Verif Require Import Base GoMap Float64 AggModel MetricModel RunmetricsModel.
Import ListNotations.
Open Scope nat_scope.

(** A metric: name, unit, and what it shows. *)
Inductive shown : Type :=
| Gauge (v : rtval -> Z)        (* the current value, negative ones as 0 *)
| Total (v : rtval -> Z)        (* a cumulative: the value, since the metric was made *)
| Share (v : rtval -> f64).     (* a float gauge *)
Record sp_row : Type := MkSR { sp_name : bytes; sp_unit : bytes; sp_shown : shown }.

Definition count_of (f : mfield) (rt : rtval) : Z := int64_of (Z.of_N (rt_mem rt f)).
Definition millis_of (f : mfield) (rt : rtval) : Z := Z.quot (count_of f rt) 1000000.

(** The memory metrics with UseDerivedCumulative. *)
Definition memory_metrics : list sp_row :=
 [MkSR (bs "process/memory_alloc") (bs "By") (Gauge (count_of Alloc));
  MkSR (bs "process/total_memory_alloc") (bs "By") (Total (count_of TotalAlloc));
  MkSR (bs "process/sys_memory_alloc") (bs "By") (Gauge (count_of Sys));
  MkSR (bs "process/memory_lookups") (bs "1") (Total (count_of Lookups));
  MkSR (bs "process/memory_malloc") (bs "1") (Total (count_of Mallocs));
  MkSR (bs "process/memory_frees") (bs "1") (Total (count_of Frees));
  MkSR (bs "process/heap_alloc") (bs "By") (Gauge (count_of HeapAlloc));
  MkSR (bs "process/sys_heap") (bs "By") (Gauge (count_of HeapSys));
  MkSR (bs "process/heap_idle") (bs "By") (Gauge (count_of HeapIdle));
  MkSR (bs "process/heap_inuse") (bs "By") (Gauge (count_of HeapInuse));
  MkSR (bs "process/heap_objects") (bs "1") (Gauge (count_of HeapObjects));
  MkSR (bs "process/heap_release") (bs "By") (Total (count_of HeapReleased));
  MkSR (bs "process/stack_inuse") (bs "By") (Gauge (count_of StackInuse));
  MkSR (bs "process/sys_stack") (bs "By") (Gauge (count_of StackSys));
  MkSR (bs "process/stack_mspan_inuse") (bs "By") (Gauge (count_of MSpanInuse));
  MkSR (bs "process/sys_stack_mspan") (bs "By") (Gauge (count_of MSpanSys));
  MkSR (bs "process/stack_mcache_inuse") (bs "By") (Gauge (count_of MCacheInuse));
  MkSR (bs "process/sys_stack_mcache") (bs "By") (Gauge (count_of MCacheSys));
  MkSR (bs "process/gc_sys") (bs "By") (Gauge (count_of GCSys));
  MkSR (bs "process/other_sys") (bs "By") (Gauge (count_of OtherSys));
  MkSR (bs "process/num_gc") (bs "1") (Total (count_of NumGC));
  MkSR (bs "process/num_forced_gc") (bs "1") (Total (count_of NumForcedGC));
  MkSR (bs "process/next_gc_heap_size") (bs "By") (Gauge (count_of NextGC));
  MkSR (bs "process/last_gc_finished_timestamp") (bs "ms") (Gauge (millis_of LastGC));
  MkSR (bs "process/pause_total") (bs "ms") (Total (millis_of PauseTotalNs));
  MkSR (bs "process/gc_cpu_fraction") (bs "1") (Share rt_fraction)].

(** ... and without: every one a gauge, and (a defect) every one always 0. *)
Definition stuck (r : sp_row) : sp_row :=
  MkSR (sp_name r) (sp_unit r)
       (match sp_shown r with Share _ => Share (fun _ => f_zero) | _ => Gauge (fun _ => 0%Z) end).

Definition cpu_metrics : list sp_row :=
 [MkSR (bs "process/cpu_goroutines") (bs "1") (Gauge rt_goroutines);
  MkSR (bs "process/cpu_cgo_calls") (bs "1") (Gauge rt_cgo)].

Definition expected_rows (o : run_options) : list sp_row :=
  (if ro_memory o then if ro_derived o then memory_metrics else map stuck memory_metrics else [])
  ++ (if ro_cpu o then cpu_metrics else []).

(** [mm] is the metric of row [r]: one series without labels, one point. *)
Definition shows (prefix : bytes) (made : bytes -> time) (rt : rtval) (now : time) (r : sp_row) (mm : mmetric) : Prop :=
  d_name (mm_desc mm) = prefix ++ sp_name r /\
  d_unit (mm_desc mm) = sp_unit r /\
  d_keys (mm_desc mm) = [] /\
  match sp_shown r with
  | Gauge v => d_type (mm_desc mm) = TyGaugeInt64 /\
               mm_series mm = [MkS now [] (now, MPInt (Z.max 0 (v rt)))]
  | Total v => d_type (mm_desc mm) = TyCumulativeInt64 /\
               mm_series mm = [MkS (made (sp_name r)) [] (now, MPInt (v rt))]
  | Share v => d_type (mm_desc mm) = TyGaugeFloat64 /\
               mm_series mm = [MkS now [] (now, MPFloat (if f_ltb (v rt) f_zero then f_zero else v rt))]
  end.

(** The Enable call that made producer [k]: the k-th one. *)
Definition enables (h : list (rwop * rwresp)) : list (run_options * (bytes -> time)) :=
  flat_map (fun e => match fst e with WEnable o now => [(o, now)] | _ => [] end) h.

(** Which runtime producer should be registered: that of the last Enable, unless
    Disable came after it. *)
Definition current (h : list (rwop * rwresp)) : option nat :=
  fst (fold_left (fun a e => match fst e with
                             | WEnable _ _ => (Some (snd a), S (snd a))
                             | WDisable => (None, snd a)
                             | _ => a end) h (None, 0)).

(** Whether another producer is registered: the last add or delete decides. *)
Definition other_in (h : list (rwop * rwresp)) (k : nat) : bool :=
  fold_left (fun a e => match fst e with WOther add k' => if k' =? k then add else a | _ => a end) h false.
