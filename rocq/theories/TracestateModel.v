(** Model of /repo/trace/tracestate/tracestate.go.

    Two layers:
    - value level ([ts_*]): entries are immutable lists.  Used by the
      TraceContext propagation model.
    - heap level ([h_*]): entries are Go slices over a heap of arrays, so that
      append aliasing is visible.  This is the faithful model of New / add /
      remove; the value level is proved to be its abstraction. *)

From Coq Require Import List NArith Bool Arith.
From Verif Require Import Base Text.
Import ListNotations.
Open Scope N_scope.

(** tracestate.go:47-56 type Entry. *)
Record entry : Type := MkEntry { e_key : bytes; e_value : bytes }.

(** tracestate.go:24-28 constants. *)
Definition max_pairs : nat := 32.

(** ** Validation (tracestate.go:30-38, 88-91)

    The regular expressions are transcribed as matchers; all character classes
    are ASCII, so a byte of a multi-byte rune never matches. *)

(** [a-z] tracestate.go:31-32. *)
Definition re_lower (c : byte) : bool := (97 <=? b2n c) && (b2n c <=? 122).
(** [_0-9a-z\-\*\/] *)
Definition re_keychar (c : byte) : bool :=
  (b2n c =? 95) || ((48 <=? b2n c) && (b2n c <=? 57)) || re_lower c
  || (b2n c =? 45) || (b2n c =? 42) || (b2n c =? 47).
(** [a-z][_0-9a-z\-\*\/]{0,n} anchored at both ends *)
Definition re_segment (n : nat) (s : bytes) : bool :=
  match s with
  | [] => false
  | c :: r => re_lower c && forallb re_keychar r && Nat.leb (length r) n
  end.
(** '@' is in neither class, so the vendor form splits at the first '@'. tracestate.go:32. *)
Definition at_sign : byte := n2b 64.
(** tracestate.go:32 [keyWithVendorFormat]. *)
Definition re_vendor (s : bytes) : bool :=
  match index_byte at_sign s with
  | Some i => re_segment 240 (firstn i s) && re_segment 13 (skipn (S i) s)
  | None => false
  end.
(** tracestate.go:37 keyValidationRegExp *)
Definition key_valid (k : bytes) : bool := re_segment 255 k || re_vendor k.

(** [\x21-\x2b\x2d-\x3c\x3e-\x7e] tracestate.go:34. *)
Definition re_valchar_ns (c : byte) : bool :=
  ((33 <=? b2n c) && (b2n c <=? 43)) || ((45 <=? b2n c) && (b2n c <=? 60))
  || ((62 <=? b2n c) && (b2n c <=? 126)).
(** [\x20-\x2b\x2d-\x3c\x3e-\x7e] tracestate.go:34. *)
Definition re_valchar (c : byte) : bool := (b2n c =? 32) || re_valchar_ns c.
(** tracestate.go:38 valueValidationRegExp *)
Definition value_valid (v : bytes) : bool :=
  match rev v with
  | [] => false
  | last :: r => re_valchar_ns last && forallb re_valchar r && Nat.leb (length r) 255
  end.

(** tracestate.go:88-91 isValid *)
Definition entry_valid (e : entry) : bool := key_valid (e_key e) && value_valid (e_value e).

(** The three errors of New (tracestate.go:128-145). *)
Inductive ts_error : Type :=
| EInvalid (e : entry)
| EDuplicate (k : bytes)
| ETooMany (adding current : nat).

(** tracestate.go:104-111 areEntriesValid: the first invalid entry. *)
Fixpoint first_invalid (es : list entry) : option entry :=
  match es with
  | [] => None
  | e :: r => if entry_valid e then first_invalid r else Some e
  end.

(** tracestate.go:93-102 containsDuplicateKey; [seen] is the keyMap. *)
Fixpoint find_duplicate (seen : list bytes) (es : list entry) : option bytes :=
  match es with
  | [] => None
  | e :: r =>
      if existsb (bytes_eqb (e_key e)) seen then Some (e_key e)
      else find_duplicate (e_key e :: seen) r
  end.

(** ** Value level *)

(** tracestate.go:66-74 remove: deletes the first entry with that key. *)
Fixpoint ts_remove (k : bytes) (ts : list entry) : list entry :=
  match ts with
  | [] => []
  | e :: r => if bytes_eqb (e_key e) k then r else e :: ts_remove k r
  end.

(** tracestate.go:76-86 add *)
Definition ts_add (ts es : list entry) : res ts_error (list entry) :=
  let ts' := fold_left (fun t e => ts_remove (e_key e) t) es ts in
  if Nat.ltb max_pairs (length ts' + length es)
  then Err (ETooMany (length es) (length ts'))
  else Ok (es ++ ts').

(** tracestate.go:124-147 New; a *Tracestate is an option. *)
Definition ts_new (parent : option (list entry)) (es : list entry)
  : res ts_error (option (list entry)) :=
  match parent, es with
  | None, [] => Ok None
  | _, _ =>
      match first_invalid es with
      | Some e => Err (EInvalid e)
      | None =>
          match find_duplicate [] es with
          | Some k => Err (EDuplicate k)
          | None =>
              let base := match parent with Some p => p | None => [] end in
              match ts_add base es with
              | Ok r => Ok (Some r)
              | Err e => Err e
              | Panic => Panic
              end
          end
      end
  end.

(** tracestate.go:59-64 Entries (nil receiver allowed). *)
Definition ts_entries (ts : option (list entry)) : list entry :=
  match ts with Some l => l | None => [] end.

(** ** Heap level *)

(** A heap of arrays of Entry; an array is named by its position. *)
Notation heap := (list (list entry)).

(** A Go slice header.  The nil slice is any slice of capacity 0. *)
Record slice_h : Type := MkSlice { s_arr : nat; s_off : nat; s_len : nat; s_cap : nat }.

(** The entries of the zero Tracestate (tracestate.go:136), and of New without entries. *)
Definition nil_slice : slice_h := MkSlice 0 0 0 0.

(** No code of its own: an array behind a slice (tracestate.go:43). *)
Definition h_array (h : heap) (a : nat) : list entry := nth a h [].

(** The elements s[0], ..., s[len-1]. What a range over ts.entries sees (tracestate.go:67,
    77). *)
Definition h_read (h : heap) (s : slice_h) : list entry :=
  firstn (s_len s) (skipn (s_off s) (h_array h (s_arr s))).

(** No code of its own: a store into the heap (tracestate.go:69, 84). *)
Fixpoint list_update {A} (l : list A) (i : nat) (f : A -> A) : list A :=
  match l, i with
  | [], _ => []
  | x :: r, O => f x :: r
  | x :: r, S j => x :: list_update r j f
  end.

(** Overwrite cells [off, off+len vs) of an array. What append writes in place
    (tracestate.go:69, 84). *)
Definition write_cells (arr : list entry) (off : nat) (vs : list entry) : list entry :=
  firstn off arr ++ vs ++ skipn (off + length vs) arr.

(** Allocation of a fresh array holding [vs] and [extra] spare cells. tracestate.go:47-56: a
    cell not yet written. *)
Definition zero_entry : entry := MkEntry [] [].
(** What append does when there is no room (tracestate.go:69, 84, 139). *)
Definition h_alloc (h : heap) (vs : list entry) (extra : nat) : heap * slice_h :=
  (h ++ [vs ++ repeat zero_entry extra],
   MkSlice (length h) 0 (length vs) (length vs + extra)).

(** A New call of a program: index of the parent among the results so far (or
    nil) and the literal entries. *)
Notation call := (option nat * list entry)%type.

Section Heap.
(** Spare capacity the runtime adds when append reallocates, as a function of
    the heap size (every allocation happens at a different heap size, so this is
    an arbitrary oracle). *)
Variable spare : nat -> nat.

(** The Go builtin append(s, vs...). *)
Definition h_append (h : heap) (s : slice_h) (vs : list entry) : heap * slice_h :=
  if Nat.leb (s_len s + length vs) (s_cap s)
  then (list_update h (s_arr s) (fun a => write_cells a (s_off s + s_len s) vs),
        MkSlice (s_arr s) (s_off s) (s_len s + length vs) (s_cap s))
  else h_alloc h (h_read h s ++ vs) (spare (length h)).

(** Position of the first entry with key [k]. tracestate.go:67-68. *)
Fixpoint key_index (k : bytes) (es : list entry) : option nat :=
  match es with
  | [] => None
  | e :: r => if bytes_eqb (e_key e) k then Some O
              else match key_index k r with Some i => Some (S i) | None => None end
  end.

(** tracestate.go:66-74 remove:
    ts.entries = append(ts.entries[:index], ts.entries[index+1:]...) *)
Definition h_remove (h : heap) (s : slice_h) (k : bytes) : heap * slice_h :=
  match key_index k (h_read h s) with
  | None => (h, s)
  | Some i =>
      h_append h (MkSlice (s_arr s) (s_off s) i (s_cap s))
               (h_read h (MkSlice (s_arr s) (s_off s + S i) (s_len s - S i) (s_cap s - S i)))
  end.

(** tracestate.go:76-86 add.  The loop ranges over [entries], whose elements are
    read at each iteration from the heap; [n] counts the remaining iterations
    and [i] is the loop index. *)
Fixpoint h_remove_loop (n i : nat) (h : heap) (ts entries : slice_h) : heap * slice_h :=
  match n with
  | O => (h, ts)
  | S m =>
      let e := nth i (h_read h entries) zero_entry in
      let '(h', ts') := h_remove h ts (e_key e) in
      h_remove_loop m (S i) h' ts' entries
  end.

(** tracestate.go:76-86 [add]. *)
Definition h_add (h : heap) (ts entries : slice_h) : heap * res ts_error slice_h :=
  let '(h1, ts1) := h_remove_loop (s_len entries) 0 h ts entries in
  if Nat.ltb max_pairs (s_len ts1 + s_len entries)
  then (h1, Err (ETooMany (s_len entries) (s_len ts1)))
  else let '(h2, r) := h_append h1 entries (h_read h1 ts1) in (h2, Ok r).

(** tracestate.go:124-147 New.  A *Tracestate is identified with the slice header
    it holds: no method assigns the field after New returns. *)
Definition h_new (h : heap) (parent : option slice_h) (entries : slice_h)
  : heap * res ts_error (option slice_h) :=
  match parent, s_len entries with
  | None, O => (h, Ok None)
  | _, _ =>
      match first_invalid (h_read h entries) with
      | Some e => (h, Err (EInvalid e))
      | None =>
          match find_duplicate [] (h_read h entries) with
          | Some k => (h, Err (EDuplicate k))
          | None =>
              let '(h1, ts) :=
                match parent with
                | Some p => match s_len p with
                            | O => (h, nil_slice)
                            | _ => h_append h nil_slice (h_read h p)
                            end
                | None => (h, nil_slice)
                end in
              match h_add h1 ts entries with
              | (h2, Ok r) => (h2, Ok (Some r))
              | (h2, Err e) => (h2, Err e)
              | (h2, Panic) => (h2, Panic)
              end
          end
      end
  end.

(** A call New(parent, e1, ..., en) with literal arguments: the compiler stores
    the arguments in a fresh array of exactly n cells. *)
Definition h_new_literal (h : heap) (parent : option slice_h) (es : list entry)
  : heap * res ts_error (option slice_h) :=
  match es with
  | [] => h_new h parent nil_slice
  | _ => let '(h1, s) := h_alloc h es 0 in h_new h1 parent s
  end.

(** A program that only builds tracestates, each from an earlier one or from nil,
    with literal arguments.  State: heap and the values returned so far (nil for
    a failed call). *)

Definition h_step (st : heap * list (option slice_h)) (c : call) : heap * list (option slice_h) :=
  let '(h, built) := st in
  let parent := match fst c with Some i => nth i built None | None => None end in
  match h_new_literal h parent (snd c) with
  | (h', Ok r) => (h', built ++ [r])
  | (h', _) => (h', built ++ [None])
  end.

(** An execution: no code of its own (tracestate.go:124-147). *)
Definition h_run (cs : list call) : heap * list (option slice_h) :=
  fold_left h_step cs ([], []).

(** ** Reads, the caller's own writes, and calls New(parent, s...) *)

(** s[i] = e by the caller. On the slice of Entries (tracestate.go:59-64) or of New's
    arguments (tracestate.go:124). *)
Definition h_write (h : heap) (s : slice_h) (i : nat) (e : entry) : heap :=
  list_update h (s_arr s) (fun a => write_cells a (s_off s + i) [e]).

End Heap.

(** The same program on values. (tracestate.go:124-147.) *)
Definition v_step (built : list (option (list entry))) (c : call) : list (option (list entry)) :=
  let parent := match fst c with Some i => nth i built None | None => None end in
  match ts_new parent (snd c) with
  | Ok r => built ++ [r]
  | _ => built ++ [None]
  end.

(** An execution: no code of its own (tracestate.go:124-147). *)
Definition v_run (cs : list call) : list (option (list entry)) := fold_left v_step cs [].
