(** Model of plugin/runmetrics/producer.go: the producer of runtime metrics, on the
    model of package metric (MetricModel), and its registration with the global
    producer manager (ReaderModel).  Definitions only.

    Read is modelled as one step: two goroutines reading the same producer at once
    race on its runtime.MemStats (495-496) and are not modelled. *)

From Coq Require Import String.
From Coq Require Import List Arith ZArith Bool.
From Verif Require Import Base GoMap Float64 AggModel ReaderModel MetricModel.
Import ListNotations.
Open Scope nat_scope.

(** metric/metricdata/unit.go:24. *)
Definition unit_dimensionless : bytes := bs "1".
(** metric/metricdata/unit.go:25. *)
Definition unit_bytes : bytes := bs "By".
(** metric/metricdata/unit.go:26. *)
Definition unit_milliseconds : bytes := bs "ms".

(** ** What the runtime reports *)

(** The integer fields of runtime.MemStats the package reads. (producer.go:495-555.) *)
Inductive mfield : Type :=
| Alloc | TotalAlloc | Sys | Lookups | Mallocs | Frees
| HeapAlloc | HeapSys | HeapIdle | HeapInuse | HeapReleased | HeapObjects
| StackInuse | StackSys | MSpanInuse | MSpanSys | MCacheInuse | MCacheSys
| GCSys | OtherSys | NextGC | LastGC | PauseTotalNs | NumGC | NumForcedGC.

(** Oracle: runtime.ReadMemStats, runtime.NumGoroutine, runtime.NumCgoCall at one Read.
    (producer.go:496, 575-576.) *)
Record rtval : Type := MkRT {
  rt_mem : mfield -> N;
  rt_fraction : f64;
  rt_goroutines : Z;
  rt_cgo : Z }.

(** The expressions in the bodies of read. (producer.go:495-555, 574-577.) *)
Inductive mexpr : Type :=
| XField (f : mfield)     (* int64(m.memStats.f) *)
| XMillis (f : mfield)    (* int64(m.memStats.f) / int64(time.Millisecond) *)
| XGoroutines             (* int64(runtime.NumGoroutine()) *)
| XCgo.                   (* runtime.NumCgoCall() *)

(** Their values (producer.go:495-555, 574-577). *)
Definition meval (rt : rtval) (e : mexpr) : Z :=
  match e with
  | XField f => int64_of (Z.of_N (rt_mem rt f))
  | XMillis f => Z.quot (int64_of (Z.of_N (rt_mem rt f))) 1000000
  | XGoroutines => rt_goroutines rt
  | XCgo => rt_cgo rt
  end.

(** ** Creating the metrics *)

(** What kind of metric a create call makes (579-635). *)
Inductive mkind : Type := KInt | KFloat | KCum.

(** One statement [stats.v, err = producer.createK(name, description, unit)]. (As at
    producer.go:355-492.) *)
Record crow : Type := MkCR { c_var : bytes; c_kind : mkind; c_name : bytes; c_desc : bytes; c_unit : bytes }.

(** producer.go:584, 605, 626. *)
Definition kind_type (k : mkind) : bmtype :=
  match k with KInt => GaugeInt64 | KFloat => GaugeFloat64 | KCum => DerivedCumulativeInt64 end.

(** producer.go:580-582, 601-603, 622-624. *)
Definition prefixed (prefix name : bytes) : bytes :=
  if 0 <? length prefix then prefix ++ name else name.

(** producer.go:579-635 [createFloat64GaugeEntry], [createInt64GaugeEntry],
    [createInt64DerivedCumulative]: the pointer to the entry, or the handle of the
    derived cumulative; [None] is an error.  There are no constant labels, so the
    order does not matter.  [now]: the clock, by the name of the metric. *)
Definition create (prefix : bytes) (now : bytes -> time) (s : rst) (c : crow) : option (nat * rst) :=
  match rdo s (RopAdd id_order (kind_type (c_kind c)) (prefixed prefix (c_name c))
                      [WithDescription (c_desc c); WithUnit (c_unit c)] (now (c_name c))) with
  | (RHandle p, s1) =>
      match c_kind c with
      | KCum => Some (p, s1)
      | _ => match rdo s1 (RopGet p []) with
             | (REntry x, s2) => Some (x, s2)
             | _ => None
             end
      end
  | _ => None
  end.

(** The struct of entries: variables and their pointers. (As at producer.go:359-490.) *)
Fixpoint create_all (prefix : bytes) (now : bytes -> time) (s : rst) (cs : list crow)
  : option (list (bytes * nat) * rst) :=
  match cs with
  | [] => Some ([], s)
  | c :: r =>
      match create prefix now s c with
      | None => None
      | Some (x, s1) =>
          match create_all prefix now s1 r with
          | None => None
          | Some (env, s2) => Some ((c_var c, x) :: env, s2)
          end
      end
  end.

(** producer.go:179-318 [newDeprecatedMemStats]. *)
Definition deprecated_rows : list crow :=
 [MkCR (bs "memAlloc") KInt (bs "process/memory_alloc") (bs "Number of bytes currently allocated in use") unit_bytes;
  MkCR (bs "memTotal") KInt (bs "process/total_memory_alloc") (bs "Number of allocations in total") unit_bytes;
  MkCR (bs "memSys") KInt (bs "process/sys_memory_alloc") (bs "Number of bytes given to the process to use in total") unit_bytes;
  MkCR (bs "memLookups") KInt (bs "process/memory_lookups") (bs "Cumulative number of pointer lookups performed by the runtime") unit_dimensionless;
  MkCR (bs "memMalloc") KInt (bs "process/memory_malloc") (bs "Cumulative count of heap objects allocated") unit_dimensionless;
  MkCR (bs "memFrees") KInt (bs "process/memory_frees") (bs "Cumulative count of heap objects freed") unit_dimensionless;
  MkCR (bs "heapAlloc") KInt (bs "process/heap_alloc") (bs "Process heap allocation") unit_bytes;
  MkCR (bs "heapSys") KInt (bs "process/sys_heap") (bs "Bytes of heap memory obtained from the OS") unit_bytes;
  MkCR (bs "heapIdle") KInt (bs "process/heap_idle") (bs "Bytes in idle (unused) spans") unit_bytes;
  MkCR (bs "heapInuse") KInt (bs "process/heap_inuse") (bs "Bytes in in-use spans") unit_bytes;
  MkCR (bs "heapObjects") KInt (bs "process/heap_objects") (bs "The number of objects allocated on the heap") unit_dimensionless;
  MkCR (bs "heapReleased") KInt (bs "process/heap_release") (bs "The cumulative number of objects released from the heap") unit_bytes;
  MkCR (bs "stackInuse") KInt (bs "process/stack_inuse") (bs "Bytes in stack spans") unit_bytes;
  MkCR (bs "stackSys") KInt (bs "process/sys_stack") (bs "The memory used by stack spans and OS thread stacks") unit_bytes;
  MkCR (bs "stackMSpanInuse") KInt (bs "process/stack_mspan_inuse") (bs "Bytes of allocated mspan structures") unit_bytes;
  MkCR (bs "stackMSpanSys") KInt (bs "process/sys_stack_mspan") (bs "Bytes of memory obtained from the OS for mspan structures") unit_bytes;
  MkCR (bs "stackMCacheInuse") KInt (bs "process/stack_mcache_inuse") (bs "Bytes of allocated mcache structures") unit_bytes;
  MkCR (bs "stackMCacheSys") KInt (bs "process/sys_stack_mcache") (bs "Bytes of memory obtained from the OS for mcache structures") unit_bytes;
  MkCR (bs "gcSys") KInt (bs "process/gc_sys") (bs "Bytes of memory in garbage collection metadatas") unit_bytes;
  MkCR (bs "otherSys") KInt (bs "process/other_sys") (bs "Bytes of memory in miscellaneous off-heap runtime allocations") unit_bytes;
  MkCR (bs "numGC") KInt (bs "process/num_gc") (bs "Cumulative count of completed GC cycles") unit_dimensionless;
  MkCR (bs "numForcedGC") KInt (bs "process/num_forced_gc") (bs "Cumulative count of GC cycles forced by the application") unit_dimensionless;
  MkCR (bs "nextGC") KInt (bs "process/next_gc_heap_size") (bs "Target heap size of the next GC cycle in bytes") unit_bytes;
  MkCR (bs "lastGC") KInt (bs "process/last_gc_finished_timestamp") (bs "Time the last garbage collection finished, as milliseconds since 1970 (the UNIX epoch)") unit_milliseconds;
  MkCR (bs "pauseTotalNs") KInt (bs "process/pause_total") (bs "Cumulative milliseconds spent in GC stop-the-world pauses") unit_milliseconds;
  MkCR (bs "gcCPUFraction") KFloat (bs "process/gc_cpu_fraction") (bs "Fraction of this program's available CPU time used by the GC since the program started") unit_dimensionless].

(** producer.go:354-493 [newMemStats]. *)
Definition mem_rows : list crow :=
 [MkCR (bs "memAlloc") KInt (bs "process/memory_alloc") (bs "Number of bytes currently allocated in use") unit_bytes;
  MkCR (bs "memTotal") KCum (bs "process/total_memory_alloc") (bs "Number of allocations in total") unit_bytes;
  MkCR (bs "memSys") KInt (bs "process/sys_memory_alloc") (bs "Number of bytes given to the process to use in total") unit_bytes;
  MkCR (bs "memLookups") KCum (bs "process/memory_lookups") (bs "Cumulative number of pointer lookups performed by the runtime") unit_dimensionless;
  MkCR (bs "memMalloc") KCum (bs "process/memory_malloc") (bs "Cumulative count of heap objects allocated") unit_dimensionless;
  MkCR (bs "memFrees") KCum (bs "process/memory_frees") (bs "Cumulative count of heap objects freed") unit_dimensionless;
  MkCR (bs "heapAlloc") KInt (bs "process/heap_alloc") (bs "Process heap allocation") unit_bytes;
  MkCR (bs "heapSys") KInt (bs "process/sys_heap") (bs "Bytes of heap memory obtained from the OS") unit_bytes;
  MkCR (bs "heapIdle") KInt (bs "process/heap_idle") (bs "Bytes in idle (unused) spans") unit_bytes;
  MkCR (bs "heapInuse") KInt (bs "process/heap_inuse") (bs "Bytes in in-use spans") unit_bytes;
  MkCR (bs "heapObjects") KInt (bs "process/heap_objects") (bs "The number of objects allocated on the heap") unit_dimensionless;
  MkCR (bs "heapReleased") KCum (bs "process/heap_release") (bs "The cumulative number of objects released from the heap") unit_bytes;
  MkCR (bs "stackInuse") KInt (bs "process/stack_inuse") (bs "Bytes in stack spans") unit_bytes;
  MkCR (bs "stackSys") KInt (bs "process/sys_stack") (bs "The memory used by stack spans and OS thread stacks") unit_bytes;
  MkCR (bs "stackMSpanInuse") KInt (bs "process/stack_mspan_inuse") (bs "Bytes of allocated mspan structures") unit_bytes;
  MkCR (bs "stackMSpanSys") KInt (bs "process/sys_stack_mspan") (bs "Bytes of memory obtained from the OS for mspan structures") unit_bytes;
  MkCR (bs "stackMCacheInuse") KInt (bs "process/stack_mcache_inuse") (bs "Bytes of allocated mcache structures") unit_bytes;
  MkCR (bs "stackMCacheSys") KInt (bs "process/sys_stack_mcache") (bs "Bytes of memory obtained from the OS for mcache structures") unit_bytes;
  MkCR (bs "gcSys") KInt (bs "process/gc_sys") (bs "Bytes of memory in garbage collection metadatas") unit_bytes;
  MkCR (bs "otherSys") KInt (bs "process/other_sys") (bs "Bytes of memory in miscellaneous off-heap runtime allocations") unit_bytes;
  MkCR (bs "numGC") KCum (bs "process/num_gc") (bs "Cumulative count of completed GC cycles") unit_dimensionless;
  MkCR (bs "numForcedGC") KCum (bs "process/num_forced_gc") (bs "Cumulative count of GC cycles forced by the application") unit_dimensionless;
  MkCR (bs "nextGC") KInt (bs "process/next_gc_heap_size") (bs "Target heap size of the next GC cycle in bytes") unit_bytes;
  MkCR (bs "lastGC") KInt (bs "process/last_gc_finished_timestamp") (bs "Time the last garbage collection finished, as milliseconds since 1970 (the UNIX epoch)") unit_milliseconds;
  MkCR (bs "pauseTotalNs") KCum (bs "process/pause_total") (bs "Cumulative milliseconds spent in GC stop-the-world pauses") unit_milliseconds;
  MkCR (bs "gcCPUFraction") KFloat (bs "process/gc_cpu_fraction") (bs "Fraction of this program's available CPU time used by the GC since the program started") unit_dimensionless].

(** producer.go:557-572 [newCPUStats]. *)
Definition cpu_rows : list crow :=
 [MkCR (bs "numGoroutines") KInt (bs "process/cpu_goroutines") (bs "Number of goroutines that currently exist") unit_dimensionless;
  MkCR (bs "numCgoCalls") KInt (bs "process/cpu_cgo_calls") (bs "Number of cgo calls made by the current process") unit_dimensionless].

(** ** Reading the runtime *)

(** The statements of the read methods: [v.Set(e)], [v.UpsertEntry(closure)] with the number
    of the closure, [v.Set(m.memStats.GCCPUFraction)]. (producer.go:495-555, 574-577.) *)
Inductive stmt : Type :=
| SSet (v : bytes) (e : mexpr)
| SUpsert (v : bytes) (fn : nat)
| SSetF (v : bytes).

(** producer.go:495-555 [memStats.read]. *)
Definition mem_read : list stmt :=
 [SSet (bs "memAlloc") (XField Alloc);
  SUpsert (bs "memTotal") 0;
  SSet (bs "memSys") (XField Sys);
  SUpsert (bs "memLookups") 1;
  SUpsert (bs "memMalloc") 2;
  SUpsert (bs "memFrees") 3;
  SSet (bs "heapAlloc") (XField HeapAlloc);
  SSet (bs "heapSys") (XField HeapSys);
  SSet (bs "heapIdle") (XField HeapIdle);
  SSet (bs "heapInuse") (XField HeapInuse);
  SUpsert (bs "heapReleased") 4;
  SSet (bs "heapObjects") (XField HeapObjects);
  SSet (bs "stackInuse") (XField StackInuse);
  SSet (bs "stackSys") (XField StackSys);
  SSet (bs "stackMSpanInuse") (XField MSpanInuse);
  SSet (bs "stackMSpanSys") (XField MSpanSys);
  SSet (bs "stackMCacheInuse") (XField MCacheInuse);
  SSet (bs "stackMCacheSys") (XField MCacheSys);
  SSet (bs "gcSys") (XField GCSys);
  SSet (bs "otherSys") (XField OtherSys);
  SUpsert (bs "numGC") 5;
  SUpsert (bs "numForcedGC") 6;
  SSet (bs "nextGC") (XField NextGC);
  SSet (bs "lastGC") (XMillis LastGC);
  SUpsert (bs "pauseTotalNs") 7;
  SSetF (bs "gcCPUFraction")].

(** The closures of memStats.read; they look at m.memStats when the registry calls them,
    which holds what ReadMemStats wrote last. (producer.go:500-553.) *)
Definition mem_closures : list mexpr :=
 [XField TotalAlloc; XField Lookups; XField Mallocs; XField Frees; XField HeapReleased; XField NumGC; XField NumForcedGC; XMillis PauseTotalNs].
(** A closure called by the registry (metric/cumulative.go:135-139). *)
Definition closure_value (rt : rtval) (fn : nat) : Z :=
  match nth_error mem_closures fn with Some e => meval rt e | None => 0%Z end.

(** producer.go:574-577 [cpuStats.read]. *)
Definition cpu_read : list stmt :=
 [SSet (bs "numGoroutines") XGoroutines; SSet (bs "numCgoCalls") XCgo].

(** One statement; a result of Upsert is dropped. [None] is a nil dereference.
    (producer.go:495-555, 574-577.) *)
Definition exec_stmt (rt : rtval) (env : list (bytes * nat)) (s : rst) (st : stmt) : option rst :=
  match st with
  | SSet v e => match mget bytes_eqb env v with
                | Some x => Some (snd (rdo s (RopUpdate x (USetI (meval rt e)))))
                | None => None
                end
  | SUpsert v fn => match mget bytes_eqb env v with
                    | Some p => Some (snd (rdo s (RopUpsert p (Some fn) [])))
                    | None => None
                    end
  | SSetF v => match mget bytes_eqb env v with
               | Some x => Some (snd (rdo s (RopUpdate x (USetF (rt_fraction rt)))))
               | None => None
               end
  end.
(** (producer.go:495-555, 574-577) *)
Fixpoint exec_all (rt : rtval) (env : list (bytes * nat)) (s : rst) (sts : list stmt) : option rst :=
  match sts with
  | [] => Some s
  | st :: r => match exec_stmt rt env s st with Some s' => exec_all rt env s' r | None => None end
  end.

(** ** The producer *)

(** producer.go:28-33 [RunMetricOptions]. *)
Record run_options : Type := MkRO { ro_cpu : bool; ro_memory : bool; ro_derived : bool; ro_prefix : bytes }.

(** producer.go:18-25 [producer]. *)
Record rproducer : Type := MkRP {
  rp_options : run_options;
  rp_reg : rst;
  rp_deprecated : option (list (bytes * nat));
  rp_mem : option (list (bytes * nat));
  rp_cpu : option (list (bytes * nat)) }.

(** producer.go:121-145: the part of Enable before the lock; [None]: it returns an error. *)
Definition make_producer (o : run_options) (now : bytes -> time) : option rproducer :=
  let mem := if ro_memory o then
               if ro_derived o then
                 match create_all (ro_prefix o) now new_registry mem_rows with
                 | Some (env, s) => Some (None, Some env, s)
                 | None => None
                 end
               else
                 match create_all (ro_prefix o) now new_registry deprecated_rows with
                 | Some (env, s) => Some (Some env, None, s)
                 | None => None
                 end
             else Some (None, None, new_registry) in
  match mem with
  | None => None
  | Some (dep, m, s) =>
      if ro_cpu o then
        match create_all (ro_prefix o) now s cpu_rows with
        | Some (env, s') => Some (MkRP o s' dep m (Some env))
        | None => None
        end
      else Some (MkRP o s dep m None)
  end.

(** producer.go:167-177 [Read].  deprecatedMemStats.read (320-352) is never called, so
    it has no model.  [None] is a panic. *)
Definition producer_read (p : rproducer) (rt : rtval) (o : order) (now : time)
  : option (list mmetric * rproducer) :=
  let exec_opt env sts s := match env with Some e => exec_all rt e s sts | None => Some s end in
  match exec_opt (rp_mem p) mem_read (rp_reg p) with
  | None => None
  | Some s1 =>
      match exec_opt (rp_cpu p) cpu_read s1 with
      | None => None
      | Some s2 =>
          match registry_read o (closure_value rt) (fun _ => f_zero) now s2 with
          | Some ms => Some (ms, MkRP (rp_options p) s2 (rp_deprecated p) (rp_mem p) (rp_cpu p))
          | None => None
          end
      end
  end.

(** ** The package and the global manager *)

(** Producers in the manager's set: those of this package by number, and others.
    (producer.go:150-162.) *)
Definition run_id (k : nat) : nat := 2 * k.
(** As above (producer.go:150-162). *)
Definition other_id (k : nat) : nat := 2 * k + 1.

(** The producers made, the enabled one, the manager's set (producer.go:109-113). *)
Record rworld : Type := MkRW {
  rw_prods : list rproducer;
  rw_enabled : option nat;            (* 111-113 enabledProducer *)
  rw_mgr : list (nat * unit) }.       (** the global manager The start of the program (producer.go:109-113). *)
Definition rw_init : rworld := MkRW [] None [].

(** (producer.go:121, 158, 167; metricproducer/manager.go:44-61.) *)
Inductive rwop : Type :=
| WEnable (o : run_options) (now : bytes -> time)
| WDisable
| WOther (add : bool) (k : nat)       (* another producer is added or deleted *)
| WRead (k : nat) (rt : rtval) (o : order) (now : time).   (** Read on producer k What they return (producer.go:121, 167). *)
Inductive rwresp : Type := WOk | WError | WMetrics (ms : list mmetric) | WPanic | WNone.

(** producer.go:121-155 [Enable], 158-164 [Disable]; the lock makes 147-152 and 159-163 one step.
    Before the first Enable the deleted producer is a nil *producer, which the manager
    does not hold. *)
Definition rwstep (w : rworld) (op : rwop) : rwresp * rworld :=
  match op with
  | WEnable o now =>
      match make_producer o now with
      | None => (WError, w)
      | Some p =>
          let k := length (rw_prods w) in
          let m := manager_step (rw_mgr w) (MDelete (option_map run_id (rw_enabled w))) in
          let m := manager_step m (MAdd (Some (run_id k))) in
          (WOk, MkRW (rw_prods w ++ [p]) (Some k) m)
      end
  | WDisable =>
      (WOk, MkRW (rw_prods w) None (manager_step (rw_mgr w) (MDelete (option_map run_id (rw_enabled w)))))
  | WOther add k =>
      (WOk, MkRW (rw_prods w) (rw_enabled w)
                 (manager_step (rw_mgr w) (if add then MAdd (Some (other_id k)) else MDelete (Some (other_id k)))))
  | WRead k rt o now =>
      match nth_error (rw_prods w) k with
      | None => (WNone, w)
      | Some p =>
          match producer_read p rt o now with
          | None => (WPanic, w)
          | Some (ms, p') => (WMetrics ms, MkRW (upd (rw_prods w) k (fun _ => p')) (rw_enabled w) (rw_mgr w))
          end
      end
  end.

(** No code of its own (producer.go:121-177). *)
Inductive rwrun : list (rwop * rwresp) -> rworld -> Prop :=
| rwrun_nil : rwrun [] rw_init
| rwrun_snoc h w op r w' : rwrun h w -> rwstep w op = (r, w') -> rwrun (h ++ [(op, r)]) w'.
