(** What users of gauges and cumulatives rely on under concurrency: calls take
    effect one at a time, in an order that respects each goroutine's own order. *)

From Coq Require Import List Arith ZArith Bool.
From Verif Require Import Base GoMap GoSort Float64 AggModel MetricModel MetricSpec MetricConcModel.
Import ListNotations.
Open Scope nat_scope.

Notation clog := (list (nat * cop * option mpoint)).

(** The entry of kind [t] with value [v]. *)
Definition entry_of (t : bmtype) (v : aval) : option entry :=
  match t, v with
  | GaugeInt64, AInt x => Some (EGaugeI x)
  | GaugeFloat64, AFloat x => Some (EGaugeF x)
  | CumulativeInt64, AInt x => Some (ECumI x)
  | CumulativeFloat64, AFloat x => Some (ECumF x)
  | _, _ => None
  end.

(** The value of an entry of kind [t] after the given calls, one at a time. *)
Definition val_after (t : bmtype) (v : aval) (x : nat) (l : clog) : aval :=
  fold_left (fun v e => match e with
                        | (_, COUpd y u, _) => if y =? x then spec_update t v u else v
                        | _ => v
                        end) l v.

(** The calls of one goroutine. *)
Definition calls_of (g : nat) (l : clog) : list cop :=
  map (fun e => snd (fst e)) (filter (fun e => fst (fst e) =? g) l).
Definition points_of (g : nat) (l : clog) : list mpoint :=
  flat_map (fun e => match e with (g', CORead _, Some p) => if g' =? g then [p] else [] | _ => [] end) l.

Definition all_done (s : cst) : Prop := forall g x, nth_error (c_gs s) g = Some x -> cg_todo x = [].

(** Programs call existing entries of their own kind only. *)
Definition entries_ok (n : nat) (progs : list (list cop)) : Prop :=
  Forall (Forall (fun op => match op with COUpd x _ | CORead x => x < n end)) progs.

(** The positive integer increments of entry [x] among some calls. *)
Definition incs (x : nat) (l : list cop) : Z :=
  fold_right (fun op a => match op with
                          | COUpd y (UIncI v) => if (y =? x) && (0 <? v)%Z then (v + a)%Z else a
                          | _ => a
                          end) 0%Z l.
(** The increments an Inc of a float cumulative accepts: those not <= 0. *)
Definition fincs (x : nat) (l : list cop) : list f64 :=
  flat_map (fun op => match op with
                      | COUpd y (UIncF v) => if (y =? x) && negb (f_ltb v f_zero || f_eqb v f_zero) then [v] else []
                      | _ => []
                      end) l.

Definition log_calls (l : clog) : list cop := map (fun e => snd (fst e)) l.

(** Executions. *)
Inductive csteps : cst -> list cchoice -> cst -> Prop :=
| csteps_nil s : csteps s [] s
| csteps_cons s ch s' chs s'' : cdo s ch = Some s' -> csteps s' chs s'' -> csteps s (ch :: chs) s''.

Definition is_retry (ch : cchoice) : bool := match ch with CRetry _ => true | _ => false end.

(** ** GetEntry *)

(** No call appends into the shared array: it has no room, or nothing to add. *)
Definition no_sharing (spare : nat) (progs : list (list mop)) : Prop :=
  Forall (Forall (fun op => vs_of op = [] \/ spare < length (vs_of op))) progs.

(** Label values short enough for the encoding. *)
Definition mshort (consts : list lvalue) (progs : list (list mop)) : Prop :=
  Forall short consts /\ Forall (Forall (fun op => Forall short (vs_of op))) progs.

Definition no_upsert (progs : list (list mop)) : Prop :=
  Forall (Forall (fun op => match op with MUpsert _ => False | _ => True end)) progs.
