(** What the properties of package resource and of name sanitising speak about. *)

From Coq Require Import String.
From Coq Require Import List Arith NArith Bool.
From Verif Require Import Base GoMap GoSort Text Utf8 ResourceModel.
Import ListNotations.
Open Scope nat_scope.

Definition spaceb : byte := n2b 32.
Definition comma : byte := n2b 44.

Definition contains (s p : bytes) : Prop := exists a b, s = a ++ p ++ b.
(** ASCII white space: tab, line feed, vertical tab, form feed, carriage return, space. *)
Definition is_space (c : byte) : bool := ((9 <=? b2n c) && (b2n c <=? 13) || (b2n c =? 32))%N.
Definition ascii (s : bytes) : Prop := Forall (fun c => (b2n c < 128)%N) s.

(** A key that survives: 1 to 256 ASCII bytes, not starting with white space and without
    an equals sign followed by a double quote. *)
Definition safe_key (k : bytes) : Prop :=
  1 <= length k <= 256 /\ ascii k /\ (forall c r, k = c :: r -> is_space c = false) /\ ~ contains k (bs "=" ++ [dquote]).

(** A value that survives: its quoted form is ASCII, at most 256 bytes between the quotes,
    and the value has no double quote that is followed, after any number of spaces, by a
    comma. *)
Definition safe_value (u : unicode) (v : bytes) : Prop :=
  ascii (quote u v) /\ length (quote u v) <= 258 /\
  forall k, ~ contains v ([dquote] ++ repeat spaceb k ++ [comma]).

(** Printable ASCII without double quote and backslash. *)
Definition plain (s : bytes) : Prop := Forall (fun c => (32 <= b2n c <= 126)%N /\ c <> dquote /\ c <> backslash) s.

(** The label map a resource shows. *)
Definition lookup (h : rheap) (r : option resource) (k : bytes) : option bytes :=
  match r with Some x => mget bytes_eqb (labels_of h (rs_labels x)) k | None => None end.
Definition type_of (r : option resource) : bytes := match r with Some x => rs_type x | None => [] end.

(** The first that is there. *)
Definition or_else {A} (a b : option A) : option A := match a with Some _ => a | None => b end.
Fixpoint first_type (l : list (option resource)) : bytes :=
  match l with
  | [] => []
  | r :: t => match type_of r with [] => first_type t | x => x end
  end.
Fixpoint first_label (h : rheap) (l : list (option resource)) (k : bytes) : option bytes :=
  match l with
  | [] => None
  | r :: t => or_else (lookup h r k) (first_label h t k)
  end.

(** The resource's map, if it has one, is in the heap. *)
Definition in_heap (h : rheap) (r : option resource) : Prop :=
  match r with
  | Some x => match rs_labels x with Some i => i < length h | None => True end
  | None => True
  end.
(** Maps have no duplicate keys. *)
Definition heap_ok (h : rheap) : Prop := Forall (mwf (V := bytes)) h.

(** Letters and digits: for ASCII these, for other runes what Unicode says, but never U+FFFD. *)
Definition ascii_letters : list rune := map b2n (bs "ABCDEFGHIJKLMNOPQRSTUVWXYZabcdefghijklmnopqrstuvwxyz").
Definition ascii_digits : list rune := map b2n (bs "0123456789").
Definition alnum (u : unicode) (r : rune) : bool :=
  if (r <? 128)%N then existsb (N.eqb r) (ascii_letters ++ ascii_digits)
  else negb (r =? 65533)%N && (u_letter u r || u_digit u r).

(** A concatenation of encoded letters, digits and underscores. *)
Inductive word (u : unicode) : bytes -> Prop :=
| word_nil : word u []
| word_cons r s : valid_rune r = true -> alnum u r = true \/ r = 95%N -> word u s -> word u (encode_rune r ++ s).

(** White space as in unicode.IsSpace, in UTF-8; runs of it. *)
Definition white (s : bytes) : Prop :=
  exists r, s = encode_rune r /\
    (In r [9; 10; 11; 12; 13; 32; 133; 160; 5760; 8232; 8233; 8239; 8287; 12288] \/ 8192 <= r <= 8202)%N.
Inductive blank : bytes -> Prop :=
| blank_nil : blank []
| blank_cons w s : white w -> blank s -> blank (w ++ s).
(** [t] is [s] without the white space around it. *)
Definition trimmed (s t : bytes) : Prop :=
  (exists a b, s = a ++ t ++ b /\ blank a /\ blank b) /\
  (forall w r, white w -> t <> w ++ r) /\ (forall w r, white w -> t <> r ++ w).

(** One label as written: white space, key, an equals sign, the value between double
    quotes, white space, a comma; and the value that is meant. *)
Record written : Type := MkWritten { wr_before : bytes; wr_key : bytes; wr_quoted : bytes; wr_after : bytes; wr_value : bytes }.
Definition text_of (w : written) : bytes :=
  wr_before w ++ wr_key w ++ bs "=" ++ [dquote] ++ wr_quoted w ++ [dquote] ++ wr_after w ++ [comma].
(** Tab, line feed, form feed, carriage return and space only. *)
Definition gap (s : bytes) : Prop := Forall (fun c => In (b2n c) [9; 10; 12; 13; 32]%N) s.
Definition well_written (w : written) : Prop :=
  gap (wr_before w) /\ gap (wr_after w) /\
  1 <= length (wr_key w) <= 256 /\ ascii (wr_key w) /\ length (wr_quoted w) <= 256 /\ ascii (wr_quoted w) /\
  unquote ([dquote] ++ wr_quoted w ++ [dquote]) = Some (wr_value w).
(** The last label with this key decides. *)
Definition says (l : list written) (k : bytes) : option bytes :=
  fold_left (fun acc w => if bytes_eqb (wr_key w) k then Some (wr_value w) else acc) l None.
