(** Model of package tag: keys, tag maps, mutators, tag.New and the wire codec.
    Definitions only; proofs are in TagProofs.v. *)

From Coq Require Import List NArith ZArith Bool.
From Verif Require Import Base GoMap.
Import ListNotations.
Open Scope N_scope.

(** ** Validation (tag/validate.go) *)

(** tag/validate.go:23. *)
Definition valid_min : N := 32.
(** tag/validate.go:24. *)
Definition valid_max : N := 126.
(** tag/validate.go:20. *)
Definition max_key_length : nat := 255.

(** tag/validate.go:42-49 [isASCII].  Go ranges over runes; a byte >= 0x80
    decodes to a rune >= 0x80 or U+FFFD, so the test is the same byte by byte. *)
Definition is_ascii (s : bytes) : bool :=
  forallb (fun c => negb ((b2n c <? valid_min) || (valid_max <? b2n c))) s.

(** tag/validate.go:32-40 [checkKeyName]. *)
Definition check_key_name (name : bytes) : bool :=
  if (length name =? 0)%nat then false
  else if (max_key_length <? length name)%nat then false
  else is_ascii name.

(** tag/validate.go:51-56 [checkValue]. *)
Definition check_value (v : bytes) : bool :=
  if (max_key_length <? length v)%nat then false else is_ascii v.

(** ** Keys (tag/key.go) *)

(** tag/key.go:19-21 [Key]: a struct holding the name; the zero Key{} is []. *)
Notation key := (list byte).

(** The errors of the package (tag/validate.go:28-29, map_codec.go:121-131, 205, 212). *)
Inductive tag_err : Type :=
| ErrInvalidKeyName      (* tag/validate.go:28 *)
| ErrInvalidValue        (* tag/validate.go:29 *)
| ErrVersion             (* tag/map_codec.go:205 *)
| ErrKeyType             (* tag/map_codec.go:212 *)
| ErrUnexpectedEnd       (* tag/map_codec.go:121,125 *)
| ErrMalformed.          (* tag/map_codec.go:131 *)

(** tag/key.go:25-30 [NewKey]. *)
Definition new_key (name : bytes) : key + tag_err :=
  if check_key_name name then inl name else inr ErrInvalidKeyName.

(** ** Metadata (tag/metadata.go) *)

(** tag/metadata.go:20, 37. *)
Definition ttl_no_propagation : Z := 0%Z.
(** tag/metadata.go:23, 34. *)
Definition ttl_unlimited : Z := (-1)%Z.

(** A Metadata argument: [None] is a nil Metadata, [Some t] is WithTTL(TTL{t}).
    tag/metadata.go:40-52 *)
Notation metadata := (option Z).

(** tag/map.go:158-171 [createMetadatas]. *)
Definition create_metadatas (mds : list metadata) : Z :=
  match mds with
  | [] => ttl_unlimited
  | _ => fold_left (fun metas md => match md with Some t => t | None => metas end)
                   mds 0%Z
  end.

(** ** Tag maps (tag/map.go) *)

(** tag/map.go:31-34 [tagContent]: value and its TTL. *)
Record content : Type := Content { c_value : bytes; c_ttl : Z }.

(** tag/map.go:38-40 [Map]: a Go map from Key to tagContent. *)
Notation tmap := (list (key * content)).

(** A lookup in the map (tag/map.go:47). *)
Definition tget (m : tmap) (k : key) : option content := mget bytes_eqb m k.

(** tag/map.go:43-49 [Value] (the receiver is the map a context holds, or nil). *)
Definition value_of (m : option tmap) (k : key) : bytes * bool :=
  match m with
  | None => ([], false)
  | Some m => match tget m k with Some c => (c_value c, true) | None => ([], false) end
  end.

(** tag/map.go:70-75 [insert] *)
Definition t_insert (m : tmap) (k : key) (v : bytes) (md : Z) : tmap :=
  match tget m k with
  | Some _ => m
  | None => mset bytes_eqb m k (Content v md)
  end.

(** tag/map.go:77-81 [update] *)
Definition t_update (m : tmap) (k : key) (v : bytes) (md : Z) : tmap :=
  match tget m k with
  | Some _ => mset bytes_eqb m k (Content v md)
  | None => m
  end.

(** tag/map.go:83-85 [upsert] *)
Definition t_upsert (m : tmap) (k : key) (v : bytes) (md : Z) : tmap :=
  mset bytes_eqb m k (Content v md).

(** tag/map.go:87-89 [delete] *)
Definition t_delete (m : tmap) (k : key) : tmap := mdel bytes_eqb m k.

(** tag/map.go:91-93 [newMap] *)
Definition new_map : tmap := [].

(** The mutators the package provides: tag/map.go:107-156, 175-182. User-defined
    implementations of the Mutator interface are not modelled. *)
Inductive mutator : Type :=
| Insert (k : key) (v : bytes) (mds : list metadata)
| Update (k : key) (v : bytes) (mds : list metadata)
| Upsert (k : key) (v : bytes) (mds : list metadata)
| Delete (k : key).

(** The function each mutator applies to the map, tag/map.go:109-115 (Insert),
    128-134 (Update), 148-154 (Upsert), 177-180 (Delete). *)
Definition mutate (mu : mutator) (m : tmap) : tmap + tag_err :=
  match mu with
  | Insert k v mds =>
      if check_value v then inl (t_insert m k v (create_metadatas mds))
      else inr ErrInvalidValue
  | Update k v mds =>
      if check_value v then inl (t_update m k v (create_metadatas mds))
      else inr ErrInvalidValue
  | Upsert k v mds =>
      if check_value v then inl (t_upsert m k v (create_metadatas mds))
      else inr ErrInvalidValue
  | Delete k => inl (t_delete m k)
  end.

(** ** Contexts and the heap

    Go tag maps are mutable objects reached by pointer.  The heap is the list of
    all maps ever allocated, a pointer is an index into it, and a context holds
    an optional pointer (tag/context.go:23-43: FromContext / NewContext store a
    [*Map] under a private key; other context values do not matter here). *)
Notation heap := (list tmap).
Notation ptr := nat.
Notation ctx := (option ptr).

(** Maps are changed in place (tag/map.go:74, 79, 84, 88). *)
Fixpoint heap_set (h : heap) (p : ptr) (m : tmap) : heap :=
  match h, p with
  | [], _ => []
  | _ :: h', O => m :: h'
  | m0 :: h', S p' => m0 :: heap_set h' p' m
  end.

(** tag/map.go:47, 71, 78. *)
Definition heap_get (h : heap) (p : ptr) : tmap := nth p h [].

(** tag/map.go:190-199: the loop of [New] that copies the original map into the
    fresh map [p], in the iteration order [it]. *)
Fixpoint copy_loop (it : list (key * content)) (h : heap) (p : ptr)
  : heap * option tag_err :=
  match it with
  | [] => (h, None)
  | (k, v) :: it' =>
      if negb (check_key_name k) then (h, Some ErrInvalidKeyName)
      else if negb (check_value (c_value v)) then (h, Some ErrInvalidValue)
      else copy_loop it'
             (heap_set h p (t_insert (heap_get h p) k (c_value v) (c_ttl v))) p
  end.

(** tag/map.go:202-207: apply the mutators to the fresh map, in place. *)
Fixpoint mutate_loop (ms : list mutator) (h : heap) (p : ptr)
  : heap * option tag_err :=
  match ms with
  | [] => (h, None)
  | mu :: ms' =>
      match mutate mu (heap_get h p) with
      | inl m' => mutate_loop ms' (heap_set h p m') p
      | inr e => (h, Some e)
      end
  end.

(** tag/map.go:187-209 [New].  [it] is the iteration order of the map held by
    [c] (irrelevant when [c] holds no map).  The result is the new heap, the
    returned context and the returned error. *)
Definition tag_new (h : heap) (c : ctx) (it : list (key * content))
                   (ms : list mutator) : heap * ctx * option tag_err :=
  let p := length h in
  let h0 := h ++ [new_map] in
  let (h1, e1) :=
    match c with None => (h0, None) | Some _ => copy_loop it h0 p end in
  match e1 with
  | Some e => (h1, c, Some e)
  | None =>
      let (h2, e2) := mutate_loop ms h1 p in
      match e2 with
      | Some e => (h2, c, Some e)
      | None => (h2, Some p, None)
      end
  end.

(** ** Wire codec (tag/map_codec.go) *)

(** encoding/binary.PutUvarint (Go standard library): base-128 little endian. Used at
    tag/map_codec.go:69, 78. *)
Fixpoint put_uvarint_fuel (fuel : nat) (x : N) : bytes :=
  match fuel with
  | O => []
  | S f => if x <? 128 then [n2b x]
           else n2b (x mod 128 + 128) :: put_uvarint_fuel f (x / 128)
  end.
(** Ten bytes suffice for a uint64 (binary.MaxVarintLen64). Used at tag/map_codec.go:68, 77. *)
Definition max_varint_len : nat := 10.
(** As above (tag/map_codec.go:69, 78). *)
Definition put_uvarint (x : N) : bytes := put_uvarint_fuel max_varint_len x.

(** encoding/binary.Uvarint (Go standard library). [x | b<<s] is written as an addition: the
    bits are disjoint. Returns the value and the number of bytes read: 0 when the buffer is
    too small, negative on overflow. Used at tag/map_codec.go:123. *)
Fixpoint uvarint_loop (buf : bytes) (i : nat) (x s : N) : N * Z :=
  match buf with
  | [] => (0, 0%Z)
  | b :: r =>
      if (i =? max_varint_len)%nat then (0, (- Z.of_nat (S i))%Z)
      else if b2n b <? 128 then
        if (i =? 9)%nat && (1 <? b2n b) then (0, (- Z.of_nat (S i))%Z)
        else (x + b2n b * 2 ^ s, Z.of_nat (S i))
      else uvarint_loop r (S i) (x + (b2n b - 128) * 2 ^ s) (s + 7)
  end.
(** As above (tag/map_codec.go:123). *)
Definition uvarint (buf : bytes) : N * Z := uvarint_loop buf 0 0 0.

(** tag/map_codec.go:36-39 [encoderGRPC]. *)
Record encoder : Type := Encoder { e_buf : bytes; e_widx : nat; e_ridx : nat }.

(** [copy(buf[i:], src)] Used at tag/map_codec.go:70, 79, 149. *)
Definition copy_at (buf : bytes) (i : nat) (src : bytes) : bytes :=
  firstn i buf ++ firstn (length buf - i) src ++ skipn (i + length src) buf.

(** tag/map_codec.go:146-152 [growIfRequired]. *)
Definition grow_if_required (e : encoder) (expected : nat) : encoder :=
  if (Z.of_nat (length (e_buf e)) - Z.of_nat (e_widx e) <? Z.of_nat expected)%Z
  then
    let tmp := repeat x00 (2 * (length (e_buf e) + 1) + expected) in
    Encoder (copy_at tmp 0 (e_buf e)) (e_widx e) (e_ridx e)
  else e.

(** Storing [l] at index [i], panicking when it does not fit. (tag/map_codec.go:69, 85.) *)
Definition store (buf : bytes) (i : nat) (l : bytes) : option bytes :=
  if (i + length l <=? length buf)%nat then Some (copy_at buf i l) else None.

(** tag/map_codec.go:83-87 [writeByte]. *)
Definition write_byte (e : encoder) (v : byte) : option encoder :=
  let e := grow_if_required e 1 in
  match store (e_buf e) (e_widx e) [v] with
  | Some b => Some (Encoder b (S (e_widx e)) (e_ridx e))
  | None => None
  end.

(** tag/map_codec.go:65-81 [writeBytesWithVarintLen] and
    [writeStringWithVarintLen] (the same code on []byte and string). *)
Definition write_with_varint_len (e : encoder) (s : bytes) : option encoder :=
  let len := length s in
  let e := grow_if_required e (max_varint_len + len) in
  let pv := put_uvarint (N.of_nat len) in
  match store (e_buf e) (e_widx e) pv with
  | Some b =>
      let w := (e_widx e + length pv)%nat in
      Some (Encoder (copy_at b w s) (w + len) (e_ridx e))
  | None => None
  end.

(** tag/map_codec.go:158-160 [bytes]. *)
Definition enc_bytes (e : encoder) : bytes := firstn (e_widx e) (e_buf e).

(** tag/map_codec.go:33 tagsVersionID. *)
Definition tags_version : byte := x00.
(** tag/map_codec.go:28. *)
Definition key_type_string : byte := x00.

(** tag/map_codec.go:172-178: the loop of [Encode]. *)
Fixpoint encode_loop (it : list (key * content)) (e : encoder) : option encoder :=
  match it with
  | [] => Some e
  | (k, v) :: it' =>
      if (c_ttl v =? ttl_unlimited)%Z then
        match write_byte e key_type_string with
        | None => None
        | Some e =>
          match write_with_varint_len e k with
          | None => None
          | Some e =>
            match write_with_varint_len e (c_value v) with
            | None => None
            | Some e => encode_loop it' e
            end
          end
        end
      else encode_loop it' e
  end.

(** tag/map_codec.go:164-180 [Encode] of a non-nil map iterated in order [it].
    [None] is a run-time panic. *)
Definition encode (it : list (key * content)) : option bytes :=
  match write_byte (Encoder (repeat x00 (length it)) 0 0) tags_version with
  | None => None
  | Some e =>
      match encode_loop it e with
      | None => None
      | Some e => Some (enc_bytes e)
      end
  end.

(** tag/map_codec.go:119-136 [readBytesWithVarintLen].  [int(length)] and the
    sum are 64-bit signed and wrap; slicing panics when the end is before the
    start. Returns the bytes read and the new read index. *)
Definition read_bytes_with_varint_len (buf : bytes) (ridx : nat)
  : res tag_err (bytes * nat) :=
  if (length buf <=? ridx)%nat then Err ErrUnexpectedEnd
  else
    let (len, n) := uvarint (skipn ridx buf) in
    if (n <=? 0)%Z then Err ErrUnexpectedEnd
    else
      let value_start := (Z.of_nat ridx + n)%Z in
      let value_end := int64_of (value_start + int64_of (Z.of_N len)) in
      if (Z.of_nat (length buf) <? value_end)%Z then Err ErrMalformed
      else if (value_end <? value_start)%Z then Panic
      else Ok (firstn (Z.to_nat (value_end - value_start))
                 (skipn (Z.to_nat value_start) buf), Z.to_nat value_end).

(** Outcome of the decoding loop; [OutOfFuel] is excluded by a theorem.
    (tag/map_codec.go:208-237.) *)
Inductive outcome : Type :=
| Done | Failed (e : tag_err) | Panicked | OutOfFuel.

(** tag/map_codec.go:208-237: the loop of [DecodeEach].  Returns the tags passed
    to the handler, in order, and how the loop ended. *)
Fixpoint decode_loop (fuel : nat) (buf : bytes) (ridx : nat)
                     (acc : list (key * content))
  : list (key * content) * outcome :=
  match fuel with
  | O => (acc, OutOfFuel)
  | S f =>
      if (length buf <=? ridx)%nat then (acc, Done)
      else
        let typ := nth ridx buf x00 in
        if negb (byte_eqb typ key_type_string) then (acc, Failed ErrKeyType)
        else
          match read_bytes_with_varint_len buf (S ridx) with
          | Err e => (acc, Failed e)
          | Panic => (acc, Panicked)
          | Ok (k, r1) =>
              match read_bytes_with_varint_len buf r1 with
              | Err e => (acc, Failed e)
              | Panic => (acc, Panicked)
              | Ok (v, r2) =>
                  match new_key k with
                  | inr e => (acc, Failed e)
                  | inl kk =>
                      if negb (check_value v) then (acc, Failed ErrInvalidValue)
                      else decode_loop f buf r2
                             (acc ++ [(kk, Content v (create_metadatas [Some ttl_unlimited]))])
                  end
              end
          end
  end.

(** tag/map_codec.go:195-239 [DecodeEach]. *)
Definition decode_each (buf : bytes) : list (key * content) * outcome :=
  match buf with
  | [] => ([], Done)
  | version :: _ =>
      if b2n tags_version <? b2n version then ([], Failed ErrVersion)
      else decode_loop (S (length buf)) buf 1 []
  end.

(** tag/map_codec.go:183-191 [Decode]: the handler is [upsert] on a new map. *)
Inductive decode_result : Type :=
| DecOk (m : tmap) | DecErr (e : tag_err) | DecPanic | DecOutOfFuel.

(** tag/map_codec.go:183-191 [Decode]. *)
Definition decode (buf : bytes) : decode_result :=
  let (calls, o) := decode_each buf in
  match o with
  | Done => DecOk (fold_left
      (fun m kv => t_upsert m (fst kv) (c_value (snd kv)) (c_ttl (snd kv)))
      calls new_map)
  | Failed e => DecErr e
  | Panicked => DecPanic
  | OutOfFuel => DecOutOfFuel
  end.

(** ** Histories of contexts *)

(** All maps ever made and all contexts ever returned (tag/context.go:23-43). *)
Record tag_state : Type := TagState { st_heap : heap; st_ctxs : list ctx }.

(** context.Background(): no tag map. (tag/context.go:23-30.) *)
Definition tag_init : tag_state := TagState [] [None].

(** A call of the package (tag/map.go:187-209, map_codec.go:183-191, context.go:37-39). *)
Inductive tag_op : Type :=
| OpNew (i : nat) (it : list (key * content)) (ms : list mutator)
    (* tag.New on the i-th context, the map ranged over in order [it] *)
| OpDecode (i : nat) (b : bytes).
    (* tag.Decode, and NewContext of the i-th context on success *)

(** tag/context.go:23-30 [FromContext]. *)
Definition ctx_map (h : heap) (c : ctx) : option tmap :=
  match c with None => None | Some p => Some (heap_get h p) end.

(** tag/map.go:187-209, map_codec.go:183-191, context.go:37-39: one call. *)
Definition tag_step (s : tag_state) (op : tag_op) : tag_state :=
  match op with
  | OpNew i it ms =>
      let c := nth i (st_ctxs s) None in
      let '(h, c', _) := tag_new (st_heap s) c it ms in
      TagState h (st_ctxs s ++ [c'])
  | OpDecode i b =>
      match decode b with
      | DecOk m => TagState (st_heap s ++ [m])
                     (st_ctxs s ++ [Some (length (st_heap s))])
      | _ => s
      end
  end.
