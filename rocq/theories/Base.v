(** Bytes, byte strings and machine integers shared by every model file.

    Nothing in this file models a particular function of opencensus-go; it
    fixes how Go's basic types are represented:
    - [byte]        : Coq.Init.Byte.byte (256 values, so no range hypotheses);
    - [string], [[]byte] : [bytes] = [list byte];
    - [uint64]      : [N] reduced modulo [two64];
    - [int64]/[int] : [Z] wrapped into [-2^63, 2^63) by [int64_of];
    - a Go call that may fail or panic: [res]. *)

From Coq Require Import List NArith ZArith Lia Bool.
From Coq Require Export Init.Byte.
From Coq Require Import Strings.Byte Strings.String.
From Coq Require Import ZifyBool ZifyNat ZifyN.
Import ListNotations.
Open Scope N_scope.

Arguments N.add : simpl never.
Arguments N.sub : simpl never.
Arguments N.mul : simpl never.
Arguments N.div : simpl never.
Arguments N.modulo : simpl never.
Arguments N.pow : simpl never.
Arguments N.ltb : simpl never.
Arguments N.leb : simpl never.
Arguments N.eqb : simpl never.
Arguments Z.add : simpl never.
Arguments Z.sub : simpl never.
Arguments Z.mul : simpl never.
Arguments Z.div : simpl never.
Arguments Z.modulo : simpl never.
Arguments Z.pow : simpl never.
Arguments Z.ltb : simpl never.
Arguments Z.leb : simpl never.
Arguments Z.eqb : simpl never.

Notation byte := Byte.byte.
Notation bytes := (list byte).

(** A byte string written as a Coq string literal. Used for the literals of the code; no
    code of its own. *)
Definition bs (s : string) : bytes := list_byte_of_string s.

(** The value of a byte; Go's byte type, no code of its own. *)
Definition b2n (b : byte) : N := Byte.to_N b.
(** The conversion to byte, modulo 256, e.g. tag/map_codec.go:83-87. *)
Definition n2b (n : N) : byte :=
  match Byte.of_N (n mod 256) with Some b => b | None => x00 end.

(** Go's == on bytes, e.g. trace/propagation/propagation.go:75. *)
Definition byte_eqb (a b : byte) : bool := b2n a =? b2n b.

(** Go's == on arrays and strings, e.g. trace/propagation/propagation.go:58; the equality of
    elements is a parameter. *)
Fixpoint list_eqb {A} (eqb : A -> A -> bool) (x y : list A) : bool :=
  match x, y with
  | [], [] => true
  | a :: x', b :: y' => eqb a b && list_eqb eqb x' y'
  | _, _ => false
  end.

(** Go's == on strings, e.g. trace/tracestate/tracestate.go:68. *)
Definition bytes_eqb : bytes -> bytes -> bool := list_eqb byte_eqb.

(** Result of a Go call: value, error, or run-time panic. E.g. tag/map_codec.go:119-136
    (error), trace/propagation/propagation.go:74-93 (indexing may panic). *)
Inductive res (E A : Type) : Type :=
| Ok (a : A)
| Err (e : E)
| Panic.
Arguments Ok {E A} a.
Arguments Err {E A} e.
Arguments Panic {E A}.

(** The test of err after a call, e.g. tag/map_codec.go:215-218; no code of its own. *)
Definition rbind {E A B} (r : res E A) (f : A -> res E B) : res E B :=
  match r with Ok a => f a | Err e => Err e | Panic => Panic end.

(** Machine integers. Go's int64 and uint64, e.g. tag/map_codec.go:95-99. *)
Definition two63 : N := 2 ^ 63.
(** As above. *)
Definition two64 : N := 2 ^ 64.
(** Go's uint64 arithmetic, e.g. trace/trace.go:591-592. *)
Definition u64 (n : N) : N := n mod two64.

(** Conversion uint64 -> int64 and wrapping of int64 arithmetic. E.g.
    stats/view/aggregation_data.go:51. *)
Definition int64_of (z : Z) : Z :=
  ((z + 2 ^ 63) mod 2 ^ 64 - 2 ^ 63)%Z.

(** Go's [s[a:b]] on a slice whose capacity equals its length. E.g.
    exporter/stackdriver/propagation/http.go:57. *)
Definition slice {A} (l : list A) (a b : nat) : option (list A) :=
  if (a <=? b)%nat && (b <=? List.length l)%nat
  then Some (firstn (b - a) (skipn a l)) else None.

(** ** Facts *)

Lemma b2n_lt b : b2n b < 256.
Proof. unfold b2n. pose proof (Byte.to_N_bounded b). lia. Qed.

Lemma b2n_n2b n : b2n (n2b n) = n mod 256.
Proof.
  unfold b2n, n2b.
  destruct (Byte.of_N (n mod 256)) eqn:E.
  - apply Byte.to_of_N in E. exact E.
  - apply Byte.of_N_None_iff in E.
    pose proof (N.mod_lt n 256 ltac:(lia)). lia.
Qed.

Lemma b2n_n2b_small n : n < 256 -> b2n (n2b n) = n.
Proof. intros. rewrite b2n_n2b. apply N.mod_small; lia. Qed.

Lemma n2b_b2n b : n2b (b2n b) = b.
Proof.
  unfold n2b. rewrite N.mod_small by apply b2n_lt.
  unfold b2n. rewrite Byte.of_to_N. reflexivity.
Qed.

Lemma b2n_inj a b : b2n a = b2n b -> a = b.
Proof. intros H. rewrite <- (n2b_b2n a), <- (n2b_b2n b), H. reflexivity. Qed.

Lemma byte_eqb_spec a b : reflect (a = b) (byte_eqb a b).
Proof.
  unfold byte_eqb. destruct (N.eqb_spec (b2n a) (b2n b)); constructor.
  - now apply b2n_inj.
  - congruence.
Qed.

Lemma byte_eqb_refl a : byte_eqb a a = true.
Proof. unfold byte_eqb. apply N.eqb_refl. Qed.

Lemma list_eqb_spec {A} (eqb : A -> A -> bool)
  (Heqb : forall a b, reflect (a = b) (eqb a b)) :
  forall x y, reflect (x = y) (list_eqb eqb x y).
Proof.
  induction x as [|a x IH]; destruct y as [|b y]; simpl.
  - constructor; reflexivity.
  - constructor; discriminate.
  - constructor; discriminate.
  - destruct (Heqb a b); simpl.
    + destruct (IH y); constructor; congruence.
    + constructor; congruence.
Qed.

Lemma bytes_eqb_spec x y : reflect (x = y) (bytes_eqb x y).
Proof. apply list_eqb_spec. exact byte_eqb_spec. Qed.

Lemma bytes_eqb_refl x : bytes_eqb x x = true.
Proof. destruct (bytes_eqb_spec x x); congruence. Qed.

Lemma bytes_eqb_eq x y : bytes_eqb x y = true <-> x = y.
Proof. destruct (bytes_eqb_spec x y); split; congruence. Qed.

Lemma bytes_eqb_neq x y : bytes_eqb x y = false <-> x <> y.
Proof. destruct (bytes_eqb_spec x y); split; congruence. Qed.

Lemma bytes_eq_dec (x y : bytes) : {x = y} + {x <> y}.
Proof. destruct (bytes_eqb_spec x y); [left|right]; assumption. Qed.

Lemma int64_of_small z : (- 2 ^ 63 <= z < 2 ^ 63)%Z -> int64_of z = z.
Proof.
  intros H. unfold int64_of. rewrite Z.mod_small; lia.
Qed.

Lemma int64_of_range z : (- 2 ^ 63 <= int64_of z < 2 ^ 63)%Z.
Proof.
  unfold int64_of. pose proof (Z.mod_pos_bound (z + 2^63) (2^64) ltac:(lia)).
  lia.
Qed.

Lemma u64_small n : n < two64 -> u64 n = n.
Proof. intros. unfold u64. apply N.mod_small. assumption. Qed.

Lemma skipn_cons_nth {A} (d : A) (l : list A) i :
  (i < List.length l)%nat -> skipn i l = nth i l d :: skipn (S i) l.
Proof.
  revert i; induction l as [|a l IH]; intros i H; simpl in *; [lia|].
  destruct i; simpl; [reflexivity|]. apply IH. lia.
Qed.

Lemma firstn_app_exact {A} (l r : list A) : firstn (List.length l) (l ++ r) = l.
Proof.
  rewrite firstn_app, Nat.sub_diag, firstn_all. simpl. apply app_nil_r.
Qed.

Lemma skipn_app_exact {A} (l r : list A) : skipn (List.length l) (l ++ r) = r.
Proof. rewrite skipn_app, Nat.sub_diag, skipn_all. reflexivity. Qed.

Lemma skipn_skipn {A} (l : list A) a b : skipn a (skipn b l) = skipn (b + a) l.
Proof.
  revert l; induction b as [|b IH]; intros l; simpl; [reflexivity|].
  destruct l; simpl; [now rewrite skipn_nil|]. apply IH.
Qed.
