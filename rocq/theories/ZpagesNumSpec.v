(** What it means that a text shows a number.  Independent of the number formats of zpages. *)

From Coq Require Import String.
From Coq Require Import List Arith NArith ZArith Bool.
From Verif Require Import Base Text HttpSpec.
Import ListNotations.
Open Scope nat_scope.

(** A decimal with three digits after the point, with a minus sign or without; [k] is what
    it shows, in thousandths. *)
Definition shows3 (s : bytes) (neg : bool) (k : Z) : Prop :=
  exists ds fs n f, s = (if neg then bs "-" else []) ++ ds ++ bs "." ++ fs /\
    decimal (Z.of_N n) ds /\ length fs = 3 /\ dec_value 0 fs = Some f /\
    k = ((if neg then -1 else 1) * (1000 * Z.of_N n + Z.of_N f))%Z.

(** The letters for large units. *)
Definition units : list (Z * bytes) :=
  [(10 ^ 6, bs " M "); (10 ^ 9, bs " G "); (10 ^ 12, bs " T "); (10 ^ 15, bs " P "); (10 ^ 18, bs " E ")]%Z.

(** The count a cell stands for, in thousandths: none if it is blank, the number if it is one,
    or a number of units. *)
Definition reads_count (s : bytes) (v : Z) : Prop :=
  (s = bs " " /\ v = 0%Z) \/
  (exists n, decimal n s /\ v = (1000 * n)%Z) \/
  (exists t k u letter, In (u, letter) units /\ s = t ++ letter /\ shows3 t false k /\ v = (k * u)%Z).

(** The cell of a row under a heading of three columns (last minute, last hour, total); the
    first cell of the row has no such heading. *)
Fixpoint position (g : bytes) (l : list bytes) : option nat :=
  match l with
  | [] => None
  | x :: r => if bytes_eqb x g then Some 0 else option_map S (position g r)
  end.
Definition cell_under (groups : list bytes) (g : bytes) (column : nat) (cells : list bytes) : option bytes :=
  match position g groups with
  | Some i => nth_error cells (1 + 3 * i + column)
  | None => None
  end.
