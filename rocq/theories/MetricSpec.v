(** What a user of package metric relies on, independently of how entries are
    stored: an entry IS a metric and a list of label values. *)

From Coq Require Import List Arith ZArith Bool Permutation Sorted.
From Verif Require Import Base GoMap GoSort Float64 AggModel MetricModel.
Import ListNotations.
Open Scope nat_scope.

(** A label value is a string or absent; the text of an absent value is ignored. *)
Notation labels := (list (option bytes)).
Definition label (v : lvalue) : option bytes := if lv_present v then Some (lv_value v) else None.
Definition show_label (l : option bytes) : lvalue :=
  match l with Some v => MkLV v true | None => MkLV [] false end.

(** At most 254 bytes. *)
Definition short (v : lvalue) : Prop := lv_present v = true -> length (lv_value v) <= 254.

(** A metric as declared. *)
Record ametric : Type := MkAM {
  am_type : bmtype;
  am_name : bytes; am_desc : bytes; am_unit : bytes;
  am_consts : list (lkey * lvalue);   (* constant labels *)
  am_keys : list lkey;                (* label keys of its entries *)
  am_start : time }.

(** The state of an entry: a number, or a user function. *)
Inductive aval : Type := AInt (v : Z) | AFloat (v : f64) | AFn (fn : nat).

(** The world of one registry: declared metrics by handle, the current metric of
    each name, the value of each entry, and which entry a pointer stands for. *)
Record ast : Type := MkA {
  a_metric : nat -> option ametric;
  a_name : bytes -> option nat;
  a_value : nat -> labels -> option aval;
  a_owner : nat -> option (nat * labels) }.

Definition a_init : ast := MkA (fun _ => None) (fun _ => None) (fun _ _ => None) (fun _ => None).

Definition fset {B} (f : nat -> B) (k : nat) (v : B) : nat -> B := fun x => if x =? k then v else f x.
Definition nset {B} (f : bytes -> B) (k : bytes) (v : B) : bytes -> B := fun x => if bytes_eqb x k then v else f x.
Definition labels_eqb : labels -> labels -> bool :=
  list_eqb (fun a b => match a, b with
                       | None, None => true
                       | Some x, Some y => bytes_eqb x y
                       | _, _ => false
                       end).
Definition vset (f : nat -> labels -> option aval) (p : nat) (l : labels) (v : aval)
  : nat -> labels -> option aval :=
  fun p' l' => if (p' =? p) && labels_eqb l' l then Some v else f p' l'.

(** The full label list of an entry: the metric's constants, then its own. *)
Definition full_labels (m : ametric) (vs : list lvalue) : labels :=
  map label (map snd (am_consts m)) ++ map label vs.

Definition is_derived (t : bmtype) : bool :=
  match t with
  | DerivedGaugeInt64 | DerivedGaugeFloat64 | DerivedCumulativeInt64 | DerivedCumulativeFloat64 => true
  | _ => false
  end.
Definition is_cumulative (t : bmtype) : bool :=
  match t with
  | CumulativeInt64 | CumulativeFloat64 | DerivedCumulativeInt64 | DerivedCumulativeFloat64 => true
  | _ => false
  end.
Definition is_int (t : bmtype) : bool :=
  match t with
  | GaugeInt64 | DerivedGaugeInt64 | CumulativeInt64 | DerivedCumulativeInt64 => true
  | _ => false
  end.

(** The exported type. *)
Definition exported_type (t : bmtype) : metric_type :=
  match is_cumulative t, is_int t with
  | true, true => TyCumulativeInt64
  | true, false => TyCumulativeFloat64
  | false, true => TyGaugeInt64
  | false, false => TyGaugeFloat64
  end.

Definition zero_of (t : bmtype) : aval := if is_int t then AInt 0 else AFloat f_zero.

(** The effect of Set, Add and Inc.  Only positive increments count; integers wrap. *)
Definition spec_update (t : bmtype) (v : aval) (u : upd_op) : aval :=
  match t, u, v with
  | GaugeInt64, USetI x, _ => AInt x
  | GaugeInt64, UAddI x, AInt y => AInt (int64_of (y + x))
  | GaugeFloat64, USetF x, _ => AFloat x
  | GaugeFloat64, UAddF x, AFloat y => AFloat (f_add y x)
  | CumulativeInt64, UIncI x, AInt y => if (0 <? x)%Z then AInt (int64_of (y + x)) else v
  | CumulativeFloat64, UIncF x, AFloat y =>
      if f_ltb x f_zero || f_eqb x f_zero then v else AFloat (f_add y x)
  | _, _, _ => v
  end.

(** What Read shows for it: never a negative number, except from user functions. *)
Definition spec_point (t : bmtype) (fi : nat -> Z) (ff : nat -> f64) (v : aval) : mpoint :=
  match v with
  | AInt x => MPInt (Z.max 0 x)
  | AFloat x => MPFloat (if f_ltb x f_zero then f_zero else x)
  | AFn fn => if is_int t then MPInt (fi fn) else MPFloat (ff fn)
  end.

(** The last occurrence of each option counts. *)
Definition mopt_const (xs : list mopt) : list (lkey * lvalue) :=
  fold_left (fun a x => match x with WithConstLabel m => m | _ => a end) xs [].
Definition mopt_keys (xs : list mopt) : list lkey :=
  fold_left (fun a x => match x with
                        | WithLabelKeys ks => map (fun k => MkLK k []) ks
                        | WithLabelKeysAndDescription ks => ks
                        | _ => a end) xs [].
Definition mopt_desc (xs : list mopt) : bytes :=
  fold_left (fun a x => match x with WithDescription d => d | _ => a end) xs [].
Definition mopt_unit (xs : list mopt) : bytes :=
  fold_left (fun a x => match x with WithUnit d => d | _ => a end) xs [].

(** Constant labels are ordered by key; [o] only matters for keys of equal name. *)
Definition sorted_consts (o : order) (xs : list mopt) : list (lkey * lvalue) :=
  isort (fun a b => bytes_ltb (lk_key (fst a)) (lk_key (fst b))) (ord o _ (mopt_const xs)).

(** The effect of a call that returned [r]. *)
Definition a_step (a : ast) (e : rop * rresp) : ast :=
  match e with
  | (RopAdd o ty name xs now, RHandle p) =>
      MkA (fset (a_metric a) p (Some (MkAM ty name (mopt_desc xs) (mopt_unit xs) (sorted_consts o xs) (mopt_keys xs) now)))
          (nset (a_name a) name (Some p)) (a_value a) (a_owner a)
  | (RopGet p vs, REntry x) =>
      match a_metric a p with
      | Some m =>
          let l := full_labels m vs in
          MkA (a_metric a) (a_name a)
              (match a_value a p l with Some _ => a_value a | None => vset (a_value a) p l (zero_of (am_type m)) end)
              (fset (a_owner a) x (Some (p, l)))
      | None => a
      end
  | (RopUpsert p (Some fn) vs, RDone) =>
      match a_metric a p with
      | Some m => MkA (a_metric a) (a_name a) (vset (a_value a) p (full_labels m vs) (AFn fn)) (a_owner a)
      | None => a
      end
  | (RopUpdate x u, RDone) =>
      match a_owner a x with
      | Some (p, l) =>
          match a_metric a p, a_value a p l with
          | Some m, Some v => MkA (a_metric a) (a_name a) (vset (a_value a) p l (spec_update (am_type m) v u)) (a_owner a)
          | _, _ => a
          end
      | None => a
      end
  | _ => a
  end.

Definition spec_of (h : list (rop * rresp)) : ast := fold_left a_step h a_init.

(** A metric as reported by Read: its declaration, and one series per entry. *)
Definition reports (a : ast) (fi : nat -> Z) (ff : nat -> f64) (now : time) (n : bytes) (mm : mmetric) : Prop :=
  exists p m, a_name a n = Some p /\ a_metric a p = Some m /\
    mm_desc mm = MkMD n (am_desc m) (am_unit m) (exported_type (am_type m)) (map fst (am_consts m) ++ am_keys m) /\
    exists ls, NoDup ls /\ (forall l, In l ls <-> a_value a p l <> None) /\
      Forall2 (fun l ts =>
        ms_labels ts = map show_label l /\
        ms_start ts = (if is_cumulative (am_type m) then am_start m else now) /\
        exists v, a_value a p l = Some v /\ ms_point ts = (now, spec_point (am_type m) fi ff v)) ls (mm_series mm).

(** What each call returns. *)
Definition r_answer (a : ast) (op : rop) (r : rresp) : Prop :=
  match op with
  | RopAdd o ty name xs now =>
      (exists p m, a_name a name = Some p /\ a_metric a p = Some m /\ am_type m <> ty /\ r = RError ErrExistsWithDiffType) \/
      ((forall p m, a_name a name = Some p -> a_metric a p = Some m -> am_type m = ty) /\
       exists p, r = RHandle p /\ a_metric a p = None)
  | RopGet p vs =>
      match a_metric a p with
      | None => r = RIllTyped
      | Some m =>
          if is_derived (am_type m) then r = RIllTyped
          else if length vs =? length (am_keys m) then
            exists x, r = REntry x /\
              (forall p' l, a_owner a x = Some (p', l) -> p' = p /\ l = full_labels m vs) /\
              (forall x', a_owner a x' = Some (p, full_labels m vs) -> x' = x)
          else r = RError ErrKeyValueMismatch
      end
  | RopUpsert p fn vs =>
      match a_metric a p with
      | None => r = RIllTyped
      | Some m =>
          match fn with
          | None => r = RError ErrInvalidParam
          | Some _ =>
              if negb (is_derived (am_type m)) then r = RIllTyped
              else if length vs =? length (am_keys m) then r = RDone
              else r = RError ErrKeyValueMismatch
          end
      end
  | RopUpdate x u => a_owner a x <> None -> r = RDone
  | RopRead o fi ff now =>
      exists ns ms, r = RMetrics ms /\ NoDup ns /\ (forall n, In n ns <-> a_name a n <> None) /\
        Forall2 (reports a fi ff now) ns ms
  end.

(** Label values short enough for the encoding. *)
Definition rop_ok (op : rop) : Prop :=
  match op with
  | RopAdd _ _ _ xs _ => Forall (fun kv => short (snd kv)) (mopt_const xs)
  | RopGet _ vs | RopUpsert _ _ vs => Forall short vs
  | _ => True
  end.
