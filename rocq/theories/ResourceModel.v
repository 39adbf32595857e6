(** Model of package resource (resource/resource.go) and of internal/sanitize.go.
    Definitions only.

    What Unicode says about a rune from 128 on (tables of package unicode) is an
    argument. *)

From Coq Require Import String.
From Coq Require Import List Arith NArith Bool.
From Verif Require Import Base GoMap GoSort Text Utf8.
Import ListNotations.
Open Scope N_scope.

(** unicode.IsLetter, IsDigit, IsPrint for runes from 128 on. U+FFFD is a symbol: printable,
    neither letter nor digit. (internal/sanitize.go:34, 45; strconv.Quote at
    resource/resource.go:55.) *)
Record unicode : Type := MkU { u_letter : rune -> bool; u_digit : rune -> bool; u_print : rune -> bool }.

(** unicode.IsLetter, used at internal/sanitize.go:45. *)
Definition letter (u : unicode) (r : rune) : bool :=
  if r <? 128 then ((65 <=? r) && (r <=? 90)) || ((97 <=? r) && (r <=? 122))
  else negb (r =? rune_error) && u_letter u r.
(** unicode.IsDigit, used at internal/sanitize.go:34, 45. *)
Definition digit (u : unicode) (r : rune) : bool :=
  if r <? 128 then (48 <=? r) && (r <=? 57) else negb (r =? rune_error) && u_digit u r.
(** strconv.IsPrint, used by strconv.Quote at resource/resource.go:55. *)
Definition printable (u : unicode) (r : rune) : bool :=
  if r <? 128 then (32 <=? r) && (r <=? 126) else (r =? rune_error) || u_print u r.

(** ** internal/sanitize.go *)

(** internal/sanitize.go:44-50 [sanitizeRune]. *)
Definition sanitize_rune (u : unicode) (r : rune) : rune := if letter u r || digit u r then r else 95.

(** strings.Map; [fuel]: the length of s. (internal/sanitize.go:33.) *)
Fixpoint map_runes (f : rune -> rune) (fuel : nat) (s : bytes) : bytes :=
  match fuel, s with
  | S n, _ :: _ => let '(r, w) := decode_rune s in encode_rune (f r) ++ map_runes f n (skipn w s)
  | _, _ => []
  end.

(** internal/sanitize.go:22. *)
Definition label_key_size_limit : nat := 100.

(** internal/sanitize.go:26-41 [Sanitize].  unicode.IsDigit(rune(s[0])) is about the
    first byte: runes below 256 are digits only if ASCII digits. *)
Definition sanitize (u : unicode) (s : bytes) : bytes :=
  match s with
  | [] => []
  | _ =>
      let s := if (label_key_size_limit <? length s)%nat then firstn label_key_size_limit s else s in
      let s := map_runes (sanitize_rune u) (length s) s in
      let s := match s with c :: _ => if is_digit c then bs "key_" ++ s else s | [] => s end in
      match s with c :: _ => if b2n c =? 95 then bs "key" ++ s else s | [] => s end
  end.

(** ** strconv.Quote and Unquote *)

(** [n] lower case hex digits of v. (strconv.Quote at resource/resource.go:55.) *)
Fixpoint hex_digits (n : nat) (v : N) : bytes :=
  match n with
  | O => []
  | S k => hex_digits k (v / 16) ++ [hex_digit (v mod 16)]
  end.

(** (strconv.Quote at resource/resource.go:55.) *)
Definition backslash : byte := n2b 92.
(** (strconv.Quote at resource/resource.go:55, labelRegex at 60.) *)
Definition dquote : byte := n2b 34.

(** strconv: appendEscapedRune for double quotes. (Used at resource/resource.go:55.) *)
Definition quote_rune (u : unicode) (r : rune) : bytes :=
  if (r =? 34) || (r =? 92) then [backslash; n2b r]
  else if printable u r then encode_rune r
  else if r =? 7 then backslash :: bs "a"
  else if r =? 8 then backslash :: bs "b"
  else if r =? 12 then backslash :: bs "f"
  else if r =? 10 then backslash :: bs "n"
  else if r =? 13 then backslash :: bs "r"
  else if r =? 9 then backslash :: bs "t"
  else if r =? 11 then backslash :: bs "v"
  else if (r <? 32) || (r =? 127) then backslash :: bs "x" ++ hex_digits 2 r
  else if r <? 65536 then backslash :: bs "u" ++ hex_digits 4 r
  else backslash :: bs "U" ++ hex_digits 8 r.

(** strconv.Quote without the outer quotes; an invalid byte becomes \xNN. (Used at
    resource/resource.go:55.) *)
Fixpoint quote_body (u : unicode) (fuel : nat) (s : bytes) : bytes :=
  match fuel, s with
  | S n, c :: _ =>
      let '(r, w) := decode_rune s in
      (if (w =? 1)%nat && (r =? rune_error) then backslash :: bs "x" ++ hex_digits 2 (b2n c) else quote_rune u r)
      ++ quote_body u n (skipn w s)
  | _, _ => []
  end.
(** strconv.Quote, used at resource/resource.go:55. *)
Definition quote (u : unicode) (s : bytes) : bytes := [dquote] ++ quote_body u (length s) s ++ [dquote].

(** [n] hex digits. (strconv.Unquote at resource/resource.go:81.) *)
Fixpoint read_hex (n : nat) (acc : N) (s : bytes) : option (N * bytes) :=
  match n with
  | O => Some (acc, s)
  | S k => match s with
           | c :: r => match hex_value c with Some v => read_hex k (acc * 16 + v) r | None => None end
           | [] => None
           end
  end.
(** [n] octal digits. (strconv.Unquote at resource/resource.go:81.) *)
Fixpoint read_oct (n : nat) (acc : N) (s : bytes) : option (N * bytes) :=
  match n with
  | O => Some (acc, s)
  | S k => match s with
           | c :: r => if (48 <=? b2n c) && (b2n c <=? 55) then read_oct k (acc * 8 + (b2n c - 48)) r else None
           | [] => None
           end
  end.

(** strconv.UnquoteChar for double quotes and the appending of its result by Unquote: the
    bytes of one character and the rest. (Used at resource/resource.go:81.) *)
Definition unquote_char (s : bytes) : option (bytes * bytes) :=
  match s with
  | [] => None
  | c :: r =>
      if b2n c =? 34 then None
      else if 128 <=? b2n c then let '(x, w) := decode_rune s in Some (encode_rune x, skipn w s)
      else if negb (b2n c =? 92) then Some ([c], r)
      else match r with
           | [] => None
           | e :: t =>
               let one (n : N) := Some ([n2b n], t) in
               if b2n e =? 97 then one 7
               else if b2n e =? 98 then one 8
               else if b2n e =? 102 then one 12
               else if b2n e =? 110 then one 10
               else if b2n e =? 114 then one 13
               else if b2n e =? 116 then one 9
               else if b2n e =? 118 then one 11
               else if b2n e =? 120 then match read_hex 2 0 t with Some (v, t') => Some ([n2b v], t') | None => None end
               else if b2n e =? 117 then
                 match read_hex 4 0 t with Some (v, t') => if valid_rune v then Some (encode_rune v, t') else None | None => None end
               else if b2n e =? 85 then
                 match read_hex 8 0 t with Some (v, t') => if valid_rune v then Some (encode_rune v, t') else None | None => None end
               else if (48 <=? b2n e) && (b2n e <=? 55) then
                 match read_oct 2 (b2n e - 48) t with Some (v, t') => if 255 <? v then None else Some ([n2b v], t') | None => None end
               else if b2n e =? 92 then one 92
               else if b2n e =? 34 then one 34
               else None
           end
  end.

(** strconv.Unquote between the quotes. (Used at resource/resource.go:81.) *)
Fixpoint unquote_body (fuel : nat) (s : bytes) : option bytes :=
  match s with
  | [] => Some []
  | _ => match fuel with
         | O => None
         | S n => match unquote_char s with
                  | Some (b, r) => match unquote_body n r with Some t => Some (b ++ t) | None => None end
                  | None => None
                  end
         end
  end.

(** (strconv.Unquote at resource/resource.go:81.) *)
Definition newline : byte := n2b 10.

(** strconv.Unquote for a string that starts with a double quote. (Its fast path for strings
    without backslash gives the same.) (Used at resource/resource.go:81.) *)
Definition unquote (s : bytes) : option bytes :=
  match s with
  | q :: r =>
      match rev r with
      | q' :: b => if (b2n q =? 34) && (b2n q' =? 34) then
                     let body := rev b in
                     if existsb (byte_eqb newline) body then None else unquote_body (length body) body
                   else None
      | [] => None
      end
  | [] => None
  end.

(** ** resource/resource.go *)

Notation labels := (list (bytes * bytes)).

(** resource/resource.go:55. *)
Definition encode_label (u : unicode) (m : labels) (k : bytes) : bytes :=
  k ++ bs "=" ++ quote u (match mget bytes_eqb m k with Some v => v | None => [] end).
(** resource/resource.go:51-54. *)
Fixpoint join_comma (l : list bytes) : bytes :=
  match l with
  | [] => []
  | [x] => x
  | x :: r => x ++ bs "," ++ join_comma r
  end.
(** resource/resource.go:43-58 [EncodeLabels]; [o]: the order of the map. *)
Definition encode_labels (u : unicode) (o : order) (m : labels) : bytes :=
  join_comma (map (encode_label u m) (isort bytes_ltb (ord o _ (mkeys m)))).

(** White space: regexp's \s is [\t\n\f\r ]. (resource/resource.go:60.) *)
Definition re_space (c : byte) : bool :=
  (b2n c =? 9) || (b2n c =? 10) || (b2n c =? 12) || (b2n c =? 13) || (b2n c =? 32).
(** [[:ascii:]]. The regexp works on runes; a rune from 128 on has only bytes from 128 on.
    (resource/resource.go:60.) *)
Definition is_ascii (c : byte) : bool := b2n c <? 128.

(** The number of leading bytes that satisfy p. (Go's regexp, for resource/resource.go:60.) *)
Fixpoint span_len (p : byte -> bool) (s : bytes) : nat :=
  match s with
  | c :: r => if p c then S (span_len p r) else O
  | [] => O
  end.

(** First result in the order of a list of choices. (Go's regexp, for
    resource/resource.go:60.) *)
Fixpoint first_some {A B} (f : A -> option B) (l : list A) : option B :=
  match l with
  | [] => None
  | x :: r => match f x with Some y => Some y | None => first_some f r end
  end.

(** A prefix of exactly n bytes satisfying p, and the rest. (Go's regexp, for
    resource/resource.go:60.) *)
Definition take_exact (p : byte -> bool) (n : nat) (s : bytes) : option (bytes * bytes) :=
  if (n <=? length s)%nat && forallb p (firstn n s) then Some (firstn n s, skipn n s) else None.

(** The second half of the regexp, from the equals sign: the quoted value and the rest.
    (resource/resource.go:60.) *)
Definition match_value (s : bytes) : option (bytes * bytes) :=
  match s with
  | c1 :: c2 :: r =>
      if (b2n c1 =? 61) && (b2n c2 =? 34) then
        first_some (fun n =>
          match take_exact is_ascii n r with
          | Some (v, c3 :: t) =>
              if b2n c3 =? 34 then
                match skipn (span_len re_space t) t with
                | c4 :: rest => if b2n c4 =? 44 then Some ([c2] ++ v ++ [c3], rest) else None
                | [] => None
                end
              else None
          | _ => None
          end) (seq 0 257)
      else None
  | _ => None
  end.

(** resource/resource.go:60 [labelRegex], with Go's leftmost-first matching: \s* as long
    as possible, then the key and the value as short as possible, in this order of
    preference.  Key, quoted value, rest. *)
Definition match_label (s : bytes) : option (bytes * bytes * bytes) :=
  first_some (fun w =>
    first_some (fun n =>
      match take_exact is_ascii n (skipn w s) with
      | Some (k, t) => match match_value t with Some (v, rest) => Some (k, v, rest) | None => None end
      | None => None
      end) (seq 1 256)) (rev (seq 0 (S (span_len re_space s)))).

(** The UTF-8 encodings of the runes of unicode.IsSpace. (strings.TrimSpace at
    resource/resource.go:69, 96, 98.) *)
Definition space_runes : list bytes :=
  map encode_rune ([9; 10; 11; 12; 13; 32; 133; 160; 5760] ++ map (fun i => 8192 + N.of_nat i) (seq 0 11) ++ [8232; 8233; 8239; 8287; 12288]).

(** A prefix taken off (strings.TrimSpace at resource/resource.go:69). *)
Fixpoint strip_prefix (p s : bytes) : option bytes :=
  match p, s with
  | [], _ => Some s
  | a :: p', b :: s' => if byte_eqb a b then strip_prefix p' s' else None
  | _, _ => None
  end.
(** strings.TrimSpace: encodings of white space at both ends. (Used at
    resource/resource.go:69, 96, 98.) *)
Fixpoint trim_left (sp : list bytes) (fuel : nat) (s : bytes) : bytes :=
  match fuel with
  | O => s
  | S n => match first_some (fun p => strip_prefix p s) sp with Some r => trim_left sp n r | None => s end
  end.
(** strings.TrimSpace, used at resource/resource.go:69, 96, 98. *)
Definition trim_space (s : bytes) : bytes :=
  let a := trim_left space_runes (length s) s in
  rev (trim_left (map (@rev byte) space_runes) (length a) (rev a)).

(** strings.TrimRight(s, ","). (resource/resource.go:69.) *)
Definition trim_commas (s : bytes) : bytes :=
  rev (skipn (span_len (fun c => b2n c =? 44) (rev s)) (rev s)).

(** resource/resource.go:74, 82: the text of the error is not modelled. *)
Inductive dec_err : Type := ErrFormat.

(** resource/resource.go:71-88: the loop.  Each round takes off at least one byte; the
    fuel is the length, running out of it is [Panic].  match[3] does not exist: [Panic]. *)
Fixpoint decode_loop (fuel : nat) (m : labels) (s : bytes) : res dec_err labels :=
  match s with
  | [] => Ok m
  | _ =>
      match fuel with
      | O => Panic
      | S n =>
          match match_label s with
          | None => Err ErrFormat
          | Some (k, v, rest) =>
              match v with
              | [] => Panic
              | _ => match unquote v with
                     | None => Err ErrFormat
                     | Some v' => decode_loop n (mset bytes_eqb m k v') rest
                     end
              end
          end
      end
  end.

(** resource/resource.go:66-90 [DecodeLabels]. *)
Definition decode_labels (s : bytes) : res dec_err labels :=
  let s := trim_commas (trim_space s) ++ bs "," in
  decode_loop (length s) [] s.

(** resource/resource.go:37-40 [Resource]; maps live in a heap, a nil map is [None]. *)
Record resource : Type := MkRes { rs_type : bytes; rs_labels : option nat }.
Notation rheap := (list labels).

(** A map, or the empty one for nil (resource/resource.go:126, 130). *)
Definition labels_of (h : rheap) (a : option nat) : labels :=
  match a with Some i => nth i h [] | None => [] end.

(** resource/resource.go:126-128, 130-132. *)
Definition put_all (l : labels) (m : labels) : labels := fold_left (fun m kv => mset bytes_eqb m (fst kv) (snd kv)) l m.

(** resource/resource.go:112-134 [merge]; a nil *Resource is [None].  Where an argument is
    nil the other one is returned itself. *)
Definition merge (o : order) (h : rheap) (a b : option resource) : rheap * option resource :=
  match a, b with
  | None, _ => (h, b)
  | _, None => (h, a)
  | Some ra, Some rb =>
      let m := put_all (ord o _ (labels_of h (rs_labels ra))) (put_all (ord o _ (labels_of h (rs_labels rb))) []) in
      (h ++ [m], Some (MkRes (match rs_type ra with [] => rs_type rb | t => t end) (Some (length h))))
  end.

(** resource/resource.go:154-164 [detectAll]; what the detectors return is an argument.
    Result: the heap, the resource or the error, and the number of detectors called. *)
Fixpoint detect_all {E} (o : order) (h : rheap) (acc : option resource) (ds : list (E + option resource)) (n : nat)
  : rheap * (E + option resource) * nat :=
  match ds with
  | [] => (h, inr acc, n)
  | inl e :: _ => (h, inl e, S n)
  | inr r :: t => let '(h', acc') := merge o h acc r in detect_all o h' acc' t (S n)
  end.

(** resource/resource.go:94-107 [FromEnv]; the two environment variables are arguments. *)
Definition from_env (ty ls : bytes) : res dec_err (bytes * option labels) :=
  match trim_space ls with
  | [] => Ok (trim_space ty, None)
  | l => match decode_labels l with Ok m => Ok (trim_space ty, Some m) | Err e => Err e | Panic => Panic end
  end.
