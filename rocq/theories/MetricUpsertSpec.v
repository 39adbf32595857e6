(** Entries that UpsertEntry replaces, next to those GetEntry makes: which one a metric has. *)

From Coq Require Import List Arith Bool.
From Verif Require Import Base MetricModel MetricSpec MetricConcModel.
Import ListNotations.
Open Scope nat_scope.

(** The same label values. *)
Definition labels_dec : forall a b : list (option bytes), {a = b} + {a <> b}.
Proof. intros a b. decide equality. decide equality. apply list_eq_dec. intros x y. apply Byte.byte_eq_dec. Defined.
Definition same_labels (a b : list lvalue) : bool := if labels_dec (map label a) (map label b) then true else false.

(** The entry with label values [vs] after the calls that have returned so far: the one that the last GetEntry or
    UpsertEntry with these returned. *)
Definition current (vs : list lvalue) (l : list mev) : option nat :=
  fold_left (fun o e => match e with
                        | EvGet _ vs' x | EvUpsert _ vs' x => if same_labels vs' vs then Some x else o
                        | _ => o
                        end) l None.

(** The calls of UpsertEntry with label values [vs] in programs, and those that have returned. *)
Definition upserts (vs : list lvalue) (ops : list mop) : nat :=
  length (filter (fun op => match op with MUpsert vs' => same_labels vs' vs | _ => false end) ops).
Definition returned (vs : list lvalue) (l : list mev) : nat :=
  length (filter (fun e => match e with EvUpsert _ vs' _ | EvUpsertErr _ vs' => same_labels vs' vs | _ => false end) l).

(** All calls of UpsertEntry with label values [vs] have returned. *)
Definition quiet (progs : list (list mop)) (vs : list lvalue) (l : list mev) : Prop :=
  returned vs l = upserts vs (concat progs).
