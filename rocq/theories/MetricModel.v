(** Model of package metric (gauges, cumulatives, their registry), used from one
    goroutine: metric/common.go, metric/gauge.go, metric/cumulative.go,
    metric/registry.go.  MetricConcModel has the interleavings.  Definitions only. *)

From Coq Require Import List Arith ZArith Bool.
From Verif Require Import Base GoMap GoSort Float64 TagEncodingModel AggModel.
Import ListNotations.
Open Scope nat_scope.

(** metric/metricdata/label.go:19-22 [LabelKey]. *)
Record lkey : Type := MkLK { lk_key : bytes; lk_desc : bytes }.
(** metric/metricdata/label.go:27-30 [LabelValue]. *)
Record lvalue : Type := MkLV { lv_value : bytes; lv_present : bool }.

(** metric/common.go:42-53 [baseMetricType]. *)
Inductive bmtype : Type :=
| GaugeInt64 | GaugeFloat64 | DerivedGaugeInt64 | DerivedGaugeFloat64
| CumulativeInt64 | CumulativeFloat64 | DerivedCumulativeInt64 | DerivedCumulativeFloat64.

(** The comparison at metric/registry.go:241. *)
Definition bmtype_eqb (a b : bmtype) : bool :=
  match a, b with
  | GaugeInt64, GaugeInt64 | GaugeFloat64, GaugeFloat64
  | DerivedGaugeInt64, DerivedGaugeInt64 | DerivedGaugeFloat64, DerivedGaugeFloat64
  | CumulativeInt64, CumulativeInt64 | CumulativeFloat64, CumulativeFloat64
  | DerivedCumulativeInt64, DerivedCumulativeInt64 | DerivedCumulativeFloat64, DerivedCumulativeFloat64 => true
  | _, _ => false
  end.

(** The entries: metric/gauge.go:35-37 [Float64Entry], 87-89 [Int64GaugeEntry],
    133-135 and 166-168 the derived gauges, metric/cumulative.go:35-37, 86-88 the
    cumulatives, 131-133 and 166-168 the derived ones.  A float is its value rather
    than its bits.  Derived entries hold a user function, here its number. *)
Inductive entry : Type :=
| EGaugeI (v : Z)
| EGaugeF (v : f64)
| ECumI (v : Z)
| ECumF (v : f64)
| EFnI (fn : nat)
| EFnF (fn : nat).

(** metric/metricdata/metric.go:24-30 [Descriptor]. *)
Record mdesc : Type := MkMD {
  d_name : bytes; d_desc : bytes; d_unit : bytes; d_type : metric_type; d_keys : list lkey }.

(** metric/common.go:33-40 [baseMetric]; the sync.Map holds pointers to entries. *)
Record bmetric : Type := MkBM {
  bm_type : bmtype;
  bm_desc : mdesc;
  bm_start : time;
  bm_keys : list lkey;
  bm_const : list lvalue;
  bm_vals : list (bytes * nat) }.

(** metric/registry.go:28-30 [Registry]: names to metrics; metrics and entries live
    on a heap because the program keeps handles to them. *)
Record rst : Type := MkR {
  r_bms : list bmetric;
  r_names : list (bytes * nat);
  r_ents : list entry }.

(** metric/registry.go:82-84 [NewRegistry]. *)
Definition new_registry : rst := MkR [] [] [].

(** metric/registry.go:32-37 [metricOptions]; the constant labels
    are a Go map. *)
Record mopts : Type := MkMO {
  mo_unit : bytes; mo_keys : list lkey; mo_const : list (lkey * lvalue); mo_desc : bytes }.
(** metric/registry.go:39-79 [Options]. *)
Inductive mopt : Type :=
| WithDescription (d : bytes)
| WithUnit (u : bytes)
| WithLabelKeys (ks : list bytes)
| WithLabelKeysAndDescription (ks : list lkey)
| WithConstLabel (m : list (lkey * lvalue)).

(** metric/registry.go:43-79, the five functions returned. *)
Definition apply_mopt (o : mopts) (x : mopt) : mopts :=
  match x with
  | WithDescription d => MkMO (mo_unit o) (mo_keys o) (mo_const o) d
  | WithUnit u => MkMO u (mo_keys o) (mo_const o) (mo_desc o)
  | WithLabelKeys ks => MkMO (mo_unit o) (map (fun k => MkLK k []) ks) (mo_const o) (mo_desc o)
  | WithLabelKeysAndDescription ks => MkMO (mo_unit o) ks (mo_const o) (mo_desc o)
  | WithConstLabel m => MkMO (mo_unit o) (mo_keys o) m (mo_desc o)
  end.

(** metric/registry.go:229-235 [createMetricOption]. *)
Definition create_metric_option (xs : list mopt) : mopts :=
  fold_left apply_mopt xs (MkMO [] [] [] []).

(** metric/registry.go:146-167 [bmTypeToMetricType]. *)
Definition bm_metric_type (t : bmtype) : metric_type :=
  match t with
  | DerivedGaugeFloat64 => TyGaugeFloat64
  | DerivedGaugeInt64 => TyGaugeInt64
  | GaugeFloat64 => TyGaugeFloat64
  | GaugeInt64 => TyGaugeInt64
  | DerivedCumulativeFloat64 => TyCumulativeFloat64
  | DerivedCumulativeInt64 => TyCumulativeInt64
  | CumulativeFloat64 => TyCumulativeFloat64
  | CumulativeInt64 => TyCumulativeInt64
  end.

(** metric/error_const.go:19-23. *)
Inductive merr : Type := ErrExistsWithDiffType | ErrKeyValueMismatch | ErrInvalidParam.

(** metric/registry.go:237-273 [initBaseMetric].  [o] is the order in which the
    constant label map is ranged over; constant keys with the same name and
    different descriptions stay in that order. *)
Definition init_base_metric (o : order) (s : rst) (ty : bmtype) (name : bytes) (xs : list mopt)
                            (now : time) : (nat + merr) * rst :=
  let clash := match mget bytes_eqb (r_names s) name with
               | Some p => match nth_error (r_bms s) p with
                           | Some existing => negb (bmtype_eqb (bm_type existing) ty)
                           | None => false
                           end
               | None => false
               end in
  if clash then (inr ErrExistsWithDiffType, s)
  else
    let opt := create_metric_option xs in
    let consts := isort (fun a b => bytes_ltb (lk_key (fst a)) (lk_key (fst b))) (ord o _ (mo_const opt)) in
    let keys := map fst consts ++ mo_keys opt in
    let bm := MkBM ty (MkMD name (mo_desc opt) (mo_unit opt) (bm_metric_type ty) keys) now keys
                   (map snd consts) [] in
    let p := length (r_bms s) in
    (inl p, MkR (r_bms s ++ [bm]) (mset bytes_eqb (r_names s) name p) (r_ents s)).

(** metric/common.go:98-102, the bytes of one value. *)
Definition lv_bytes (v : lvalue) : bytes :=
  if lv_present v then n2b 1 :: lv_value v else [n2b 0].
(** metric/common.go:95-106 [encodeLabelVals]. *)
Definition encode_label_vals (vs : list lvalue) : bytes :=
  match write_values (MkW [] 0) (map lv_bytes vs) with
  | Some w => w_bytes w
  | None => []   (* never: write_values does not fail *)
  end.

(** metric/common.go:108-120 [decodeLabelVals]: one value per key; [None] is an
    out-of-range panic. *)
Fixpoint decode_label_vals {K} (keys : list K) (r : bytes) : option (list lvalue) :=
  match keys with
  | [] => Some []
  | _ :: ks =>
      match read_value r with
      | None => None
      | Some (None, _) => None
      | Some (Some [], _) => None
      | Some (Some (b :: v), r') =>
          match decode_label_vals ks r' with
          | None => None
          | Some vs => Some ((if (b2n b =? 0)%N then MkLV [] false else MkLV v true) :: vs)
          end
      end
  end.

(** The newEntry argument of entryForValues: gauge.go:52-60, 104-112,
    cumulative.go:52-60, 103-111.  Derived metrics have no GetEntry. *)
Definition new_entry (t : bmtype) : option entry :=
  match t with
  | GaugeInt64 => Some (EGaugeI 0)
  | GaugeFloat64 => Some (EGaugeF f_zero)
  | CumulativeInt64 => Some (ECumI 0)
  | CumulativeFloat64 => Some (ECumF f_zero)
  | _ => None
  end.

(** ... and of upsertEntry: gauge.go:148-155, 181-188, cumulative.go:148-155, 181-188. *)
Definition new_fn_entry (t : bmtype) (fn : nat) : option entry :=
  match t with
  | DerivedGaugeInt64 | DerivedCumulativeInt64 => Some (EFnI fn)
  | DerivedGaugeFloat64 | DerivedCumulativeFloat64 => Some (EFnF fn)
  | _ => None
  end.

(** bm.vals changed (metric/common.go:131, 141-142). *)
Definition set_vals (s : rst) (p : nat) (bm : bmetric) (vals : list (bytes * nat)) (ents : list entry) : rst :=
  MkR (upd (r_bms s) p (fun _ => MkBM (bm_type bm) (bm_desc bm) (bm_start bm) (bm_keys bm) (bm_const bm) vals))
      (r_names s) ents.

(** metric/common.go:122-133 [entryForValues]; [e] is what newEntry returns.
    Returns a pointer to the entry. *)
Definition entry_for_values (s : rst) (p : nat) (bm : bmetric) (vs : list lvalue) (e : entry)
  : (nat + merr) * rst :=
  let lvs := bm_const bm ++ vs in
  if negb (length lvs =? length (bm_keys bm)) then (inr ErrKeyValueMismatch, s)
  else
    let k := encode_label_vals lvs in
    match mget bytes_eqb (bm_vals bm) k with
    | Some x => (inl x, s)
    | None =>
        let x := length (r_ents s) in
        (inl x, set_vals s p bm (mset bytes_eqb (bm_vals bm) k x) (r_ents s ++ [e]))
    end.

(** metric/common.go:135-144 [upsertEntry]. *)
Definition upsert_entry (s : rst) (p : nat) (bm : bmetric) (vs : list lvalue) (e : entry)
  : option merr * rst :=
  let lvs := bm_const bm ++ vs in
  if negb (length lvs =? length (bm_keys bm)) then (Some ErrKeyValueMismatch, s)
  else
    let k := encode_label_vals lvs in
    let x := length (r_ents s) in
    (None, set_vals s p bm (mset bytes_eqb (mdel bytes_eqb (bm_vals bm) k) k x) (r_ents s ++ [e])).

(** Points of gauges and cumulatives. metric/metricdata/point.go:22-46, the value. *)
Inductive mpoint : Type := MPInt (v : Z) | MPFloat (v : f64).

(** metric/gauge.go:39-45, 91-97, 137-139, 170-172, metric/cumulative.go:39-45,
    90-96, 135-139, 170-172: the read methods.  [fi], [ff]: what the user functions
    return. *)
Definition read_entry (fi : nat -> Z) (ff : nat -> f64) (e : entry) : mpoint :=
  match e with
  | EGaugeI v | ECumI v => MPInt (if (v <? 0)%Z then 0%Z else v)
  | EGaugeF v | ECumF v => MPFloat (if f_ltb v f_zero then f_zero else v)
  | EFnI fn => MPInt (fi fn)
  | EFnF fn => MPFloat (ff fn)
  end.

(** metric/metricdata/metric.go:34-46 [Metric], [TimeSeries] with its one point. *)
Record mseries : Type := MkS { ms_start : time; ms_labels : list lvalue; ms_point : time * mpoint }.
(** metric/metricdata/metric.go:34-38 [Metric]; the resource is nil. *)
Record mmetric : Type := MkM { mm_desc : mdesc; mm_series : list mseries }.

(** metric/common.go:59-67 [startTime]. *)
Definition start_of (bm : bmetric) : option time :=
  match bm_type bm with
  | CumulativeInt64 | CumulativeFloat64 | DerivedCumulativeInt64 | DerivedCumulativeFloat64 => Some (bm_start bm)
  | _ => None
  end.

Section Read.
  Variables (o : order) (fi : nat -> Z) (ff : nat -> f64) (now : time).

  (** metric/common.go:79-91, the loop of read; [None] is a panic. *)
  Fixpoint read_vals (s : rst) (bm : bmetric) (vals : list (bytes * nat)) : option (list mseries) :=
    match vals with
    | [] => Some []
    | (k, x) :: r =>
        match decode_label_vals (bm_keys bm) k, nth_error (r_ents s) x, read_vals s bm r with
        | Some lvs, Some e, Some rest =>
            Some (MkS (match start_of bm with Some t => t | None => now end) lvs (now, read_entry fi ff e) :: rest)
        | _, _, _ => None
        end
    end.

  (** metric/common.go:70-93 [read]. *)
  Definition read_metric (s : rst) (bm : bmetric) : option mmetric :=
    match read_vals s bm (ord o _ (bm_vals bm)) with
    | Some ts => Some (MkM (bm_desc bm) ts)
    | None => None
    end.

  (** metric/registry.go:278-282, the loop of Read. *)
  Fixpoint read_names (s : rst) (names : list (bytes * nat)) : option (list mmetric) :=
    match names with
    | [] => Some []
    | (_, p) :: r =>
        match nth_error (r_bms s) p with
        | None => None
        | Some bm =>
            match read_metric s bm, read_names s r with
            | Some m, Some ms => Some (m :: ms)
            | _, _ => None
            end
        end
    end.

  (** metric/registry.go:276-284 [Read]. *)
  Definition registry_read (s : rst) : option (list mmetric) := read_names s (ord o _ (r_names s)).
End Read.

(** Updates of an entry. [USetI], [USetF]: gauge Set; [UAddI], [UAddF]: gauge Add; [UIncI],
    [UIncF]: cumulative Inc. (metric/gauge.go:63-75, 115-122, cumulative.go:64-74, 115-120.) *)
Inductive upd_op : Type :=
| USetI (v : Z) | UAddI (v : Z) | USetF (v : f64) | UAddF (v : f64)
| UIncI (v : Z) | UIncF (v : f64).

(** Go's [v <= 0.0]: false for NaN. Used at metric/cumulative.go:66. *)
Definition f_le_zero (v : f64) : bool := f_ltb v f_zero || f_eqb v f_zero.

(** metric/gauge.go:63-65, 68-75, 115-117, 120-122, metric/cumulative.go:64-74,
    115-120.  An update for another kind of entry does not type-check in Go. *)
Definition apply_update (e : entry) (u : upd_op) : entry :=
  match e, u with
  | EGaugeI _, USetI v => EGaugeI v
  | EGaugeI w, UAddI v => EGaugeI (int64_of (w + v))
  | EGaugeF _, USetF v => EGaugeF v
  | EGaugeF w, UAddF v => EGaugeF (f_add w v)
  | ECumI w, UIncI v => if (v <=? 0)%Z then e else ECumI (int64_of (w + v))
  | ECumF w, UIncF v => if f_le_zero v then e else ECumF (f_add w v)
  | _, _ => e
  end.

(** API calls on a registry, its metrics and their entries. Metrics are named by their
    handle, the number [AddXxx] returned; entries by the pointer GetEntry returned.
    (metric/registry.go:87-227, 276-284, gauge.go:52-188, cumulative.go:52-188.) *)
Inductive rop : Type :=
| RopAdd (o : order) (ty : bmtype) (name : bytes) (xs : list mopt) (now : time)
| RopGet (bm : nat) (vs : list lvalue)
| RopUpsert (bm : nat) (fn : option nat) (vs : list lvalue)
| RopUpdate (e : nat) (u : upd_op)
| RopRead (o : order) (fi : nat -> Z) (ff : nat -> f64) (now : time).

(** What they return (metric/registry.go:237-284, common.go:122-144). *)
Inductive rresp : Type :=
| RHandle (bm : nat)
| REntry (e : nat)
| RDone
| RError (e : merr)
| RMetrics (ms : list mmetric)
| RPanic
| RIllTyped.   (* not a Go program: no such handle, or a method it does not have *)

(** metric/registry.go:87-227, 276-284, gauge.go:52-188, cumulative.go:52-188: one call. *)
Definition rdo (s : rst) (op : rop) : rresp * rst :=
  match op with
  | RopAdd o ty name xs now =>
      match init_base_metric o s ty name xs now with
      | (inl p, s') => (RHandle p, s')
      | (inr e, s') => (RError e, s')
      end
  | RopGet p vs =>
      match nth_error (r_bms s) p with
      | None => (RIllTyped, s)
      | Some bm =>
          match new_entry (bm_type bm) with
          | None => (RIllTyped, s)
          | Some e => match entry_for_values s p bm vs e with
                      | (inl x, s') => (REntry x, s')
                      | (inr er, s') => (RError er, s')
                      end
          end
      end
  | RopUpsert p fn vs =>
      match nth_error (r_bms s) p with
      | None => (RIllTyped, s)
      | Some bm =>
          match fn with
          | None => (RError ErrInvalidParam, s)
          | Some f =>
              match new_fn_entry (bm_type bm) f with
              | None => (RIllTyped, s)
              | Some e => match upsert_entry s p bm vs e with
                          | (None, s') => (RDone, s')
                          | (Some er, s') => (RError er, s')
                          end
              end
          end
      end
  | RopUpdate x u =>
      match nth_error (r_ents s) x with
      | None => (RIllTyped, s)
      | Some _ => (RDone, MkR (r_bms s) (r_names s) (upd (r_ents s) x (fun e => apply_update e u)))
      end
  | RopRead o fi ff now =>
      match registry_read o fi ff now s with
      | Some ms => (RMetrics ms, s)
      | None => (RPanic, s)
      end
  end.

(** Histories of calls with their results. No code of its own (metric/registry.go:237-284). *)
Inductive rrun : list (rop * rresp) -> rst -> Prop :=
| rrun_nil : rrun [] new_registry
| rrun_snoc h s op r s' : rrun h s -> rdo s op = (r, s') -> rrun (h ++ [(op, r)]) s'.
