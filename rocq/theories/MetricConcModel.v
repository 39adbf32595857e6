(** Model of concurrent use of package metric: the atomic cells of entries
    (metric/gauge.go, metric/cumulative.go), and the sync.Map of a metric with the
    steps of GetEntry, UpsertEntry and Read (metric/common.go), and concurrent
    AddXxx (metric/registry.go).  Definitions only.

    Steps are single atomic operations; an execution is a sequence of choices, each
    naming a goroutine. *)

From Coq Require Import List Arith ZArith Bool.
From Coq Require Import Floats.SpecFloat.
From Verif Require Import Base GoMap GoSort Float64 TagEncodingModel AggModel MetricModel.
Import ListNotations.
Open Scope nat_scope.

(** ** Cells *)

(** Calls on entries; [x] is the entry. (metric/gauge.go:39-122, cumulative.go:39-120.) *)
Inductive cop : Type :=
| COUpd (x : nat) (u : upd_op)
| CORead (x : nat).

(** A goroutine: what it has yet to call, the value it has loaded in the loop of
    Float64Entry.Add or Float64CumulativeEntry.Inc, and what its reads returned.
    (metric/gauge.go:68-75, cumulative.go:64-74.) *)
Record cg : Type := MkCG { cg_todo : list cop; cg_loaded : option f64; cg_got : list mpoint }.

(** [c_log] is a history variable: completed calls in the order in which they took effect,
    with the point read. The rest: no code of its own (metric/gauge.go:31-122,
    cumulative.go:31-120). *)
Record cst : Type := MkC {
  c_gs : list cg;
  c_ents : list entry;
  c_log : list (nat * cop * option mpoint) }.

(** Bitwise equality of two floats. Different NaNs are not told apart here; see [CRetry].
    (sync/atomic's CompareAndSwapUint64 at metric/gauge.go:73, cumulative.go:72.) *)
Definition f_same (a b : f64) : bool :=
  match a, b with
  | S754_zero s, S754_zero t => Bool.eqb s t
  | S754_infinity s, S754_infinity t => Bool.eqb s t
  | S754_nan, S754_nan => true
  | S754_finite s m e, S754_finite t n d => Bool.eqb s t && Pos.eqb m n && Z.eqb e d
  | _, _ => false
  end.

(** Calls that load and compare-and-swap: Float64Entry.Add (gauge.go:68-75),
    Float64CumulativeEntry.Inc (cumulative.go:64-74) past its test. *)
Definition uses_cas (e : entry) (u : upd_op) : option f64 :=
  match e, u with
  | EGaugeF w, UAddF _ => Some w
  | ECumF w, UIncF v => if f_le_zero v then None else Some w
  | _, _ => None
  end.

(** The scheduler (metric/gauge.go:68-75). *)
Inductive cchoice : Type :=
| CDo (g : nat)      (* g's next atomic operation *)
| CRetry (g : nat).  (* g's compare-and-swap fails though both values are NaN: their payloads differ *)

(** No code of its own (metric/gauge.go:68-75). *)
Definition set_g (s : cst) (g : nat) (x : cg) (ents : list entry) (l : list (nat * cop * option mpoint)) : cst :=
  MkC (upd (c_gs s) g (fun _ => x)) ents l.

(** Derived entries call no function here (metric/gauge.go:137-142). *)
Definition no_fi (fn : nat) : Z := 0.
(** As above (metric/gauge.go:170-175). *)
Definition no_ff (fn : nat) : f64 := f_zero.

(** One step.  Set is one atomic store (gauge.go:63-65, 115-117), integer Add and
    Inc one atomic add (gauge.go:120-122, cumulative.go:115-120), a read one atomic
    load (the read methods); float Add and Inc load, then compare-and-swap, and
    start again if that fails. *)
Definition cdo (s : cst) (ch : cchoice) : option cst :=
  match ch with
  | CDo g =>
      match nth_error (c_gs s) g with
      | Some (MkCG (op :: rest) ld got) =>
          match op with
          | CORead x =>
              match nth_error (c_ents s) x with
              | Some e => let p := read_entry no_fi no_ff e in
                  Some (set_g s g (MkCG rest None (got ++ [p])) (c_ents s) (c_log s ++ [(g, op, Some p)]))
              | None => None
              end
          | COUpd x u =>
              match nth_error (c_ents s) x with
              | Some e =>
                  match uses_cas e u, ld with
                  | None, _ =>
                      Some (set_g s g (MkCG rest None got) (upd (c_ents s) x (fun e => apply_update e u)) (c_log s ++ [(g, op, None)]))
                  | Some w, None => Some (set_g s g (MkCG (op :: rest) (Some w) got) (c_ents s) (c_log s))
                  | Some w, Some old =>
                      if f_same w old
                      then Some (set_g s g (MkCG rest None got)
                                   (upd (c_ents s) x (fun e => match e, u with
                                      | EGaugeF _, UAddF v => EGaugeF (f_add old v)
                                      | ECumF _, UIncF v => ECumF (f_add old v)
                                      | _, _ => e
                                      end)) (c_log s ++ [(g, op, None)]))
                      else Some (set_g s g (MkCG (op :: rest) None got) (c_ents s) (c_log s))
                  end
              | None => None
              end
          end
      | _ => None
      end
  | CRetry g =>
      match nth_error (c_gs s) g with
      | Some (MkCG (op :: rest) (Some S754_nan) got) =>
          Some (set_g s g (MkCG (op :: rest) None got) (c_ents s) (c_log s))
      | _ => None
      end
  end.

(** No code of its own (metric/gauge.go:31-37). *)
Definition cinit (ents : list entry) (progs : list (list cop)) : cst :=
  MkC (map (fun p => MkCG p None []) progs) ents [].

(** Executions: no code of its own (metric/gauge.go:39-122). *)
Inductive creach (ents : list entry) (progs : list (list cop)) : cst -> Prop :=
| creach_init : creach ents progs (cinit ents progs)
| creach_step s ch s' : creach ents progs s -> cdo s ch = Some s' -> creach ents progs s'.

(** As above (metric/gauge.go:39-122). *)
Fixpoint crun (s : cst) (chs : list cchoice) : option cst :=
  match chs with
  | [] => Some s
  | ch :: r => match cdo s ch with Some s' => crun s' r | None => None end
  end.

(** ** Entries of one metric *)

(** Calls on one metric: GetEntry, UpsertEntry (with what newEntry would return elided:
    entries are named by number), and Read's Range. (metric/common.go:122-144, 79-91.) *)
Inductive mop : Type :=
| MGet (vs : list lvalue)
| MUpsert (vs : list lvalue)
| MRead.

(** Where a goroutine is. [PWrite i]: in append, about to copy label value i behind the
    constants. [PEnc ks]: reading the label values for encoding, [ks] read so far. [PLoad
    k], [PLoadOrStore k]: at the two sync.Map calls of entryForValues. [PDelete k], [PStore
    k]: at those of upsertEntry. [PRange must seen acc]: in Range; [must] are the keys it
    has to visit: present since it started and not deleted; [seen] those visited, [acc]
    their entries. (metric/common.go:79-144.) *)
Inductive mpc : Type :=
| PIdle
| PWrite (i : nat)
| PEnc (got : list lvalue)
| PLoad (k : bytes)
| PLoadOrStore (k : bytes)
| PDelete (k : bytes)
| PStore (k : bytes)
| PRange (must : list bytes) (seen : list bytes) (acc : list (list lvalue * nat)).

(** [mg_buf] is the private array of an append that had to allocate. (metric/common.go:123,
    136.) *)
Record mg : Type := MkMG { mg_todo : list mop; mg_pc : mpc; mg_buf : list lvalue }.

(** What happened, in order: a call returned (with its result), a Read started.
    (metric/common.go:79-144.) *)
Inductive mev : Type :=
| EvGet (g : nat) (vs : list lvalue) (x : nat)
| EvGetErr (g : nat) (vs : list lvalue)
| EvUpsert (g : nat) (vs : list lvalue) (x : nat)
| EvUpsertErr (g : nat) (vs : list lvalue)
| EvReadStart (g : nat)
| EvReadEnd (g : nat) (r : list (list lvalue * nat))
| EvPanic.   (* Read could not decode a key *)

(** [mm_spare]: the array behind bm.constLabelValues past its length: the slots that append
    may use without allocating. [mm_next]: how many entries exist. (metric/common.go:33-40.) *)
Record mst : Type := MkMS {
  mm_gs : list mg;
  mm_spare : list lvalue;
  mm_vals : list (bytes * nat);
  mm_next : nat;
  mm_log : list mev }.

(** The scheduler (metric/common.go:79-144). *)
Inductive mchoice : Type :=
| MDo (g : nat)                 (* the next operation of g *)
| MVisit (g : nat) (k : bytes). (* g, in Range, visits key k *)

Section Metric.
  (** The label keys and constant label values of the metric, see MetricModel. *)
  Variable keys : list lkey.
  Variable consts : list lvalue.

  (** No code of its own (metric/common.go:122-144). *)
  Definition mset_g (s : mst) (g : nat) (x : mg) : mst :=
    MkMS (upd (mm_gs s) g (fun _ => x)) (mm_spare s) (mm_vals s) (mm_next s) (mm_log s).
  (** As above (metric/common.go:122-144). *)
  Definition mlog (s : mst) (e : mev) : mst :=
    MkMS (mm_gs s) (mm_spare s) (mm_vals s) (mm_next s) (mm_log s ++ [e]).

  (** append(bm.constLabelValues, labelVals...) fits into the array behind it: the
      slots are shared by all goroutines (common.go:123, 136). *)
  Definition fits (s : mst) (vs : list lvalue) : bool := length vs <=? length (mm_spare s).

  (** Slot i of the result of append. (metric/common.go:123, 136.) *)
  Definition slot (s : mst) (x : mg) (vs : list lvalue) (i : nat) : lvalue :=
    nth i (if fits s vs then mm_spare s else mg_buf x) (MkLV [] false).

  (** Range may not skip a key unless it was deleted meanwhile. (sync.Map, at
      metric/common.go:79-91, 141.) *)
  Definition forget (k : bytes) (p : mpc) : mpc :=
    match p with
    | PRange must seen acc => PRange (filter (fun k' => negb (bytes_eqb k' k)) must) seen acc
    | _ => p
    end.

  (** The label values of a call (metric/common.go:122, 135). *)
  Definition vs_of (op : mop) : list lvalue := match op with MGet vs | MUpsert vs => vs | MRead => [] end.

  (** metric/common.go:79-93, 95-106, 122-144: one step. *)
  Definition mdo (s : mst) (ch : mchoice) : option mst :=
    match ch with
    | MDo g =>
        match nth_error (mm_gs s) g with
        | None => None
        | Some x =>
            match mg_todo x with
            | [] => None
            | op :: rest =>
                let vs := vs_of op in
                match mg_pc x with
                | PIdle =>
                    match op with
                    | MRead =>
                        Some (mlog (mset_g s g (MkMG (op :: rest) (PRange (mkeys (mm_vals s)) [] []) [])) (EvReadStart g))
                    | _ => Some (mset_g s g (MkMG (op :: rest) (PWrite 0) (repeat (MkLV [] false) (length vs))))
                    end
                | PWrite i =>
                    if i <? length vs then
                      let v := nth i vs (MkLV [] false) in
                      if fits s vs
                      then Some (MkMS (upd (mm_gs s) g (fun _ => MkMG (op :: rest) (PWrite (S i)) (mg_buf x)))
                                      (upd (mm_spare s) i (fun _ => v)) (mm_vals s) (mm_next s) (mm_log s))
                      else Some (mset_g s g (MkMG (op :: rest) (PWrite (S i)) (upd (mg_buf x) i (fun _ => v))))
                    else
                      (* common.go:124-126, 137-139 *)
                      if negb (length consts + length vs =? length keys)
                      then Some (mlog (mset_g s g (MkMG rest PIdle []))
                                      (match op with MGet _ => EvGetErr g vs | _ => EvUpsertErr g vs end))
                      else Some (mset_g s g (MkMG (op :: rest) (PEnc []) (mg_buf x)))
                | PEnc got =>
                    if length got <? length vs
                    then Some (mset_g s g (MkMG (op :: rest) (PEnc (got ++ [slot s x vs (length got)])) (mg_buf x)))
                    else let k := encode_label_vals (consts ++ got) in
                         Some (mset_g s g (MkMG (op :: rest) (match op with MGet _ => PLoad k | _ => PDelete k end) []))
                | PLoad k =>
                    match mget bytes_eqb (mm_vals s) k with
                    | Some e => Some (mlog (mset_g s g (MkMG rest PIdle [])) (EvGet g vs e))
                    | None => Some (mset_g s g (MkMG (op :: rest) (PLoadOrStore k) []))
                    end
                | PLoadOrStore k =>
                    match mget bytes_eqb (mm_vals s) k with
                    | Some e => Some (mlog (mset_g s g (MkMG rest PIdle [])) (EvGet g vs e))
                    | None =>
                        Some (MkMS (upd (mm_gs s) g (fun _ => MkMG rest PIdle [])) (mm_spare s)
                                   (mset bytes_eqb (mm_vals s) k (mm_next s)) (S (mm_next s))
                                   (mm_log s ++ [EvGet g vs (mm_next s)]))
                    end
                | PDelete k =>
                    Some (MkMS (map (fun y => MkMG (mg_todo y) (forget k (mg_pc y)) (mg_buf y))
                                    (upd (mm_gs s) g (fun _ => MkMG (op :: rest) (PStore k) [])))
                               (mm_spare s) (mdel bytes_eqb (mm_vals s) k) (mm_next s) (mm_log s))
                | PStore k =>
                    Some (MkMS (upd (mm_gs s) g (fun _ => MkMG rest PIdle [])) (mm_spare s)
                               (mset bytes_eqb (mm_vals s) k (mm_next s)) (S (mm_next s))
                               (mm_log s ++ [EvUpsert g vs (mm_next s)]))
                | PRange must seen acc =>
                    if forallb (fun k => existsb (bytes_eqb k) seen) must
                    then Some (mlog (mset_g s g (MkMG rest PIdle [])) (EvReadEnd g acc))
                    else None
                end
            end
        end
    | MVisit g k =>
        match nth_error (mm_gs s) g with
        | Some (MkMG todo (PRange must seen acc) buf) =>
            if existsb (bytes_eqb k) seen then None
            else match mget bytes_eqb (mm_vals s) k with
                 | None => None
                 | Some e =>
                     match decode_label_vals keys k with
                     | Some lvs => Some (mset_g s g (MkMG todo (PRange must (seen ++ [k]) (acc ++ [(lvs, e)])) buf))
                     | None => Some (mlog s EvPanic)
                     end
                 end
        | _ => None
        end
    end.

  (** [spare]: the capacity of bm.constLabelValues beyond its length.
      (metric/registry.go:256-262.) *)
  Definition minit (spare : nat) (progs : list (list mop)) : mst :=
    MkMS (map (fun p => MkMG p PIdle []) progs) (repeat (MkLV [] false) spare) [] 0 [].

  (** Executions: no code of its own (metric/common.go:79-144). *)
  Inductive mreach (spare : nat) (progs : list (list mop)) : mst -> Prop :=
  | mreach_init : mreach spare progs (minit spare progs)
  | mreach_step s ch s' : mreach spare progs s -> mdo s ch = Some s' -> mreach spare progs s'.

  (** As above (metric/common.go:79-144). *)
  Fixpoint mrun (s : mst) (chs : list mchoice) : option mst :=
    match chs with
    | [] => Some s
    | ch :: r => match mdo s ch with Some s' => mrun s' r | None => None end
    end.
End Metric.

(** registry.go:256-259: the capacity of a slice grown one element at a time from
    nil, as long as it stays below 256 elements (runtime growslice doubles;
    LabelValue has 24 bytes: the size classes round 1, 2, 4, 8 ... elements to 1, 2,
    4, 8 ... elements). *)
Fixpoint grown_cap (n : nat) (cap : nat) (len : nat) : nat :=
  match n with
  | O => cap
  | S n' => if len <? cap then grown_cap n' cap (S len)
            else grown_cap n' (if cap =? 0 then 1 else 2 * cap) (S len)
  end.

(** ** Concurrent AddXxx *)

(** registry.go:237-273: the check of the type of an existing metric and the store
    are separate operations on a sync.Map. *)
Inductive apc : Type := AStart | AChecked | AAdded | AFailed.
(** The goroutines in AddXxx and the names stored (metric/registry.go:28-30, 237-273). *)
Record arst : Type := MkAR { ar_gs : list (bytes * bmtype * apc); ar_names : list (bytes * bmtype) }.

(** metric/registry.go:238-244 and 271: one step. *)
Definition ado (s : arst) (g : nat) : option arst :=
  match nth_error (ar_gs s) g with
  | Some (n, ty, AStart) =>
      let clash := match mget bytes_eqb (ar_names s) n with Some t => negb (bmtype_eqb t ty) | None => false end in
      Some (MkAR (upd (ar_gs s) g (fun _ => (n, ty, if clash then AFailed else AChecked))) (ar_names s))
  | Some (n, ty, AChecked) =>
      Some (MkAR (upd (ar_gs s) g (fun _ => (n, ty, AAdded))) (mset bytes_eqb (ar_names s) n ty))
  | _ => None
  end.

(** An execution: no code of its own (metric/registry.go:237-273). *)
Fixpoint arun (s : arst) (gs : list nat) : option arst :=
  match gs with
  | [] => Some s
  | g :: r => match ado s g with Some s' => arun s' r | None => None end
  end.
