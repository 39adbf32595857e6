(** What the properties of the registry of measures speak about. *)

From Coq Require Import List Arith Bool.
From Verif Require Import Base MeasureModel.
Import ListNotations.
Open Scope nat_scope.

(** Call number [i] is [c]; it has returned [r]. *)
Definition called (s : mstate) (i : nat) (c : mcall) : Prop := exists pc, nth_error (ms_threads s) i = Some (c, pc).
Definition returned (s : mstate) (i : nat) (c : mcall) (r : mres) : Prop := nth_error (ms_threads s) i = Some (c, McDone r).

(** In a history, call [i] has returned before call [j] is made. *)
Definition precedes (acts : list mact) (i j : nat) : Prop :=
  exists acts1 acts2 s1 c r, acts = acts1 ++ acts2 /\ mrun minit acts1 = Some s1 /\ returned s1 i c r /\ length (ms_threads s1) <= j.

(** [i] comes before [j] in an order. *)
Definition before (l : list nat) (i j : nat) : Prop := exists a b c, l = a ++ i :: b ++ j :: c.

(** The first creation of a measure called [n], in an order of the calls, asks for
    description [d] and unit [u]. *)
Definition first_creation (s : mstate) (l : list nat) (n d u : bytes) : Prop :=
  exists a i b, l = a ++ i :: b /\ called s i (MCreate n d u) /\ forall k d' u', In k a -> ~ called s k (MCreate n d' u').
