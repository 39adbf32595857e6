(** Specification vocabulary for C88. *)

From Coq Require Import String.
From Coq Require Import List NArith Bool.
From Verif Require Import Base ZMuxModel.
Import ListNotations.

(** A plain path element: not empty, without slashes, not "." or "..". *)
Definition plain (s : bytes) : Prop := s <> [] /\ ~ In (n2b 47) s /\ s <> bs "." /\ s <> bs "..".

(** "/a/b/name" for [a; b] and name. *)
Definition under (segs : list bytes) (name : bytes) : bytes :=
  concat (map (fun s => bs "/" ++ s) (segs ++ [name])).

(** The prefix is "/a/b" or "/a/b/" ("/" if there are no elements). *)
Definition abs_prefix (p : bytes) (segs : list bytes) : Prop :=
  Forall plain segs /\
  (p = concat (map (fun s => bs "/" ++ s) segs) ++ bs "/" \/ (segs <> [] /\ p = concat (map (fun s => bs "/" ++ s) segs))).

(** The prefix is "a/b" or "a/b/", or empty: it does not start with a slash. *)
Definition rel_prefix (p : bytes) (segs : list bytes) : Prop :=
  Forall plain segs /\
  match segs with
  | [] => p = []
  | s :: r => p = s ++ concat (map (fun s => bs "/" ++ s) r) \/ p = s ++ concat (map (fun s => bs "/" ++ s) r) ++ bs "/"
  end.

(** The program's own registrations: handlers of its own, on paths of any host. *)
Definition own (m : list (bytes * hdl)) : Prop :=
  forall pat h, In (pat, h) m -> (exists n, h = HUser n) /\ exists rest, pat = bs "/" ++ rest.

(** Handlers of its own, on any patterns. *)
Definition own_any (m : list (bytes * hdl)) : Prop :=
  forall pat h, In (pat, h) m -> exists n, h = HUser n.

(** Where a path leads: its elements one after the other, starting from a directory. An empty
    element and "." stay where they are, ".." goes up (or stays at the root). *)
Fixpoint resolve (els : list bytes) (at_ : list bytes) : list bytes :=
  match els with
  | [] => at_
  | e :: r => resolve r (if bytes_eqb e [] || bytes_eqb e (bs ".") then at_ else if bytes_eqb e (bs "..") then removelast at_ else at_ ++ [e])
  end.

(** The path "/e1/e2/..." of a request, not ending in a slash. *)
Definition path_of (els : list bytes) (q : bytes) : Prop :=
  els <> [] /\ last els [] <> [] /\ Forall (fun e => ~ In (n2b 47) e) els /\ q = concat (map (fun s => bs "/" ++ s) els).
