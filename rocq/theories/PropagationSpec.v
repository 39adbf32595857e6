(** Specification of the wire formats, independent of the parsing code: who is
    accepted, and with which span context.  [hex_of s b] (Text.v) says that [s]
    spells the bytes [b] in hexadecimal, [dec_of s n] that [s] spells [n] in
    decimal. *)

From Coq Require Import String.
From Coq Require Import List NArith.
From Verif Require Import Base Text TracestateModel TracestateSpec TraceTypes.
Import ListNotations.
Open Scope N_scope.

Definition zeros (n : nat) : bytes := repeat (n2b 0) n.

(** *** Binary format (propagation.go:17-47)

    version 0; field 0 = trace ID (16 bytes), mandatory; then optionally field 1 =
    span ID (8 bytes); then optionally field 2 = options (1 byte); then anything. *)
Definition bin_options (rest : bytes) (o : N) : Prop :=
  (exists x tl, rest = n2b 2 :: x :: tl /\ o = b2n x) \/
  ((forall x tl, rest <> n2b 2 :: x :: tl) /\ o = 0).

Definition bin_span (rest sid : bytes) (o : N) : Prop :=
  (exists tl, rest = n2b 1 :: sid ++ tl /\ length sid = 8%nat /\ bin_options tl o) \/
  ((forall s tl, length s = 8%nat -> rest <> n2b 1 :: s ++ tl) /\
   sid = zeros 8 /\ bin_options rest o).

Definition bin_accepts (b : bytes) (sc : span_context) : Prop :=
  exists tid rest,
    b = n2b 0 :: n2b 0 :: tid ++ rest /\ length tid = 16%nat /\
    sc_trace_id sc = tid /\ bin_span rest (sc_span_id sc) (sc_options sc) /\
    sc_tracestate sc = None.

(** The spelling of bytes that receivers of other implementations expect: lower
    case, two digits for each byte. *)
Definition lower_hex (s b : bytes) : Prop :=
  hex_of s b /\ length s = (2 * length b)%nat /\
  Forall (fun c => 48 <= b2n c <= 57 \/ 97 <= b2n c <= 102) s.

(** *** B3: hexadecimal of 1..n bytes, padded on the left with zero bytes. *)
Definition b3_id (n : nat) (s id : bytes) : Prop :=
  exists b, hex_of s b /\ (1 <= length b <= n)%nat /\ id = zeros (n - length b) ++ b.

(** *** traceparent: version "-" trace-id "-" parent-id "-" flags [ "-" ... ] *)
Definition traceparent_ok (tp tid sid : bytes) (o : N) : Prop :=
  exists v t s f ver flags extra,
    tp = v ++ n2b 45 :: t ++ n2b 45 :: s ++ n2b 45 :: f ++ extra /\
    (extra = [] \/ exists more, extra = n2b 45 :: more) /\
    hex_of v [ver] /\ b2n ver <> 255 /\ (b2n ver = 0 -> extra = []) /\
    hex_of t tid /\ length tid = 16%nat /\ tid <> zeros 16 /\
    hex_of s sid /\ length sid = 8%nat /\ sid <> zeros 8 /\
    hex_of f flags /\ hd_error flags = Some (n2b o) /\ o < 256.

(** *** tracestate list: members separated by commas, each surrounded by optional
    spaces and tabs. *)
Definition ows (s : bytes) : Prop := Forall (fun c => b2n c = 9 \/ b2n c = 32) s.
Definition member (e : entry) : bytes := e_key e ++ n2b 61 :: e_value e.
Inductive padded : entry -> bytes -> Prop :=
| padded_intro e l r : ows l -> ows r -> padded e (l ++ member e ++ r).

(** The members joined by commas take at most 512 bytes. *)
Definition tracestate_fits (es : list entry) : Prop :=
  (length (join_byte (n2b 44) (map member es)) <= 512)%nat.

(** *** X-Cloud-Trace-Context: hex "/" decimal [ ";o=" decimal ]; after a ";" that
    is not followed by "o=" anything is ignored. *)
Definition sd_rest (rest : bytes) (sid o : N) : Prop :=
  (dec_of rest sid /\ o = 0) \/
  (exists d tl, rest = d ++ n2b 59 :: tl /\ dec_of d sid /\
     ((exists n d', tl = bs "o=" ++ d' /\ dec_of d' n /\ n < two64 /\ o = n mod 2 ^ 32) \/
      ((forall d', tl <> bs "o=" ++ d') /\ o = 0))).

Definition sd_accepts (h : bytes) (sc : span_context) : Prop :=
  (length h <= 200)%nat /\
  exists t buf rest sid,
    h = t ++ n2b 47 :: rest /\ hex_of t buf /\
    (* first 16 bytes, padded on the right *)
    sc_trace_id sc = firstn 16 (buf ++ zeros 16) /\
    sd_rest rest sid (sc_options sc) /\ sid < two64 /\
    length (sc_span_id sc) = 8%nat /\ be_value (sc_span_id sc) = sid /\
    sc_tracestate sc = None.

(** *** Names of headers: the same up to the case of ASCII letters. *)
Definition fold_case (c : byte) : N :=
  match find (fun p => b2n (fst p) =? b2n c) (combine (bs "ABCDEFGHIJKLMNOPQRSTUVWXYZ") (bs "abcdefghijklmnopqrstuvwxyz")) with
  | Some p => b2n (snd p)
  | None => b2n c
  end.
Definition same_name (a b : bytes) : Prop := map fold_case a = map fold_case b.
