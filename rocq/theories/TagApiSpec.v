(** Vocabulary for the statements about package tag as a program sees it. *)

From Coq Require Import String.
From Coq Require Import List NArith ZArith Bool Permutation Sorted.
From Verif Require Import Base GoMap GoSort TagModel TagSpec HttpSpec TagApiModel.
Import ListNotations.
Open Scope nat_scope.

(** The tags a pointer to a map, or a context, shows. *)
Definition shows (s : api) (p : mptr) : fmap := as_fun (cell_tags (a_heap s) p).
Definition ctx_shows (s : api) (c : actx) : fmap := shows s (cx_map c).

(** The keys a mutator uses. *)
Definition uses_key (mu : amutator) (k : key) : Prop :=
  match mu with
  | Lib m => mutator_key m = k
  | NilMutator => False
  | Custom body _ => exists t m, In (t, m) body /\ mutator_key m = k
  end.

(** A call is possible: a range over a map visits each of its entries once; the keys given
    satisfy [P]. *)
Definition possible (P : key -> Prop) (s : api) (op : api_op) : Prop :=
  match op with
  | ANew c it ms =>
      Permutation (cell_tags (a_heap s) (cx_map (the_ctx s c))) it /\
      (forall mu k, In mu ms -> uses_key mu k -> P k)
  | AMutate mu _ => forall k, uses_key mu k -> P k
  | ADo c it => Permutation (cell_tags (a_heap s) (cx_map (the_ctx s c))) it
  | _ => True
  end.

(** Programs: any calls in any order. *)
Inductive runs (P : key -> Prop) : api -> list api_op -> api -> Prop :=
| runs_nil s : runs P s [] s
| runs_cons s op ops s' : possible P s op -> runs P (fst (api_step s op)) ops s' -> runs P s (op :: ops) s'.
Definition api_reach (P : key -> Prop) (s : api) : Prop := exists ops, runs P api_init ops s.

(** A user's mutator names the map [p]: through a variable. *)
Definition names (s : api) (mu : amutator) (p : nat) : Prop :=
  match mu with
  | Custom body r => exists i, the_map s i = Some p /\ ((exists m, In (MVar i, m) body) \/ r = RGive (MVar i))
  | _ => False
  end.
(** A call may write to map [p]: Mutate is called on it, or a user's mutator names it. *)
Definition may_write (s : api) (op : api_op) (p : nat) : Prop :=
  match op with
  | AMutate mu m => the_map s m = Some p \/ names s mu p
  | ANew _ _ ms => exists mu, In mu ms /\ names s mu p
  | _ => False
  end.
(** None of the calls may write to [p], along the run. *)
Fixpoint spares (p : nat) (s : api) (ops : list api_op) : Prop :=
  match ops with
  | [] => True
  | op :: r => ~ may_write s op p /\ spares p (fst (api_step s op)) r
  end.

(** Mutators of the package only. *)
Definition only_lib (ms : list amutator) : Prop := forall mu, In mu ms -> exists m, mu = Lib m.
Definition libs (ms : list amutator) : list mutator :=
  flat_map (fun mu => match mu with Lib m => [m] | _ => [] end) ms.
(** New with such mutators, and no direct calls of Mutate. *)
Definition tame (op : api_op) : Prop :=
  match op with ANew _ _ ms => only_lib ms | AMutate _ _ => False | _ => True end.

(** What must not be written to: a nil pointer; and a zero Map, by Insert or Upsert. *)
Definition zero_map (s : api) (p : mptr) : Prop := exists i, p = Some i /\ nth_error (a_heap s) i = Some None.
Definition stores (mu : mutator) : Prop := match mu with Insert _ _ _ | Upsert _ _ _ => True | _ => False end.

(** The text of a map: its entries in the order of their keys. *)
Definition entry_text (kc : key * content) (t : bytes) : Prop :=
  exists n, decimal (c_ttl (snd kc)) n /\
  t = bs "{" ++ fst kc ++ bs " {" ++ c_value (snd kc) ++ bs " {{" ++ n ++ bs "}}}}".
Definition text_of (f : fmap) (t : bytes) : Prop :=
  exists kcs ts, StronglySorted (fun a b => bytes_ltb (fst a) (fst b) = true) kcs /\
    (forall k c, In (k, c) kcs <-> f k = Some c) /\ Forall2 entry_text kcs ts /\
    t = bs "{ " ++ concat ts ++ bs " }".
