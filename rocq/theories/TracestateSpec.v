(** Specification for tracestate, independent of the model's code: the grammar
    of keys and values as documented in tracestate.go:47-56 and W3C, and the
    documented effect of New. *)

From Coq Require Import List NArith.
From Verif Require Import Base TracestateModel.
Import ListNotations.
Open Scope N_scope.

(** Only the type [entry] (a pair of strings) is taken from the model. *)

Definition is_lower (c : byte) : Prop := 97 <= b2n c <= 122.
(** a-z, 0-9, '_', '-', '*', '/' *)
Definition key_char (c : byte) : Prop :=
  is_lower c \/ 48 <= b2n c <= 57 \/ In (b2n c) [95; 45; 42; 47].
(** Non-empty, at most [n] characters, begins with a lower-case letter. *)
Definition key_part (n : nat) (s : bytes) : Prop :=
  exists c r, s = c :: r /\ is_lower c /\ Forall key_char r /\ (length s <= n)%nat.
(** A key is one part of up to 256 characters, or tenant '@' vendor. *)
Definition key_ok (k : bytes) : Prop :=
  key_part 256 k \/
  exists tenant vendor, k = tenant ++ n2b 64 :: vendor /\ key_part 241 tenant /\ key_part 14 vendor.

(** Printable ASCII except ',' (0x2c) and '=' (0x3d). *)
Definition value_char (c : byte) : Prop := 32 <= b2n c <= 126 /\ b2n c <> 44 /\ b2n c <> 61.
(** 1 to 256 such characters, not ending with a space. *)
Definition value_ok (v : bytes) : Prop :=
  (1 <= length v <= 256)%nat /\ Forall value_char v /\
  (forall v' c, v = v' ++ [c] -> b2n c <> 32).

Definition entry_ok (e : entry) : Prop := key_ok (e_key e) /\ value_ok (e_value e).

(** The list a successful New must produce: new entries first, then the parent's
    entries whose key is not among the new ones, in order. *)
Definition overridden (es : list entry) (e : entry) : Prop := In (e_key e) (map e_key es).

Inductive keeps (es : list entry) : list entry -> list entry -> Prop :=
| keeps_nil : keeps es [] []
| keeps_drop e p r : overridden es e -> keeps es p r -> keeps es (e :: p) r
| keeps_keep e p r : ~ overridden es e -> keeps es p r -> keeps es (e :: p) (e :: r).

(** Well-formed tracestate contents. *)
Definition ts_ok (l : list entry) : Prop :=
  Forall entry_ok l /\ NoDup (map e_key l) /\ (length l <= 32)%nat.
