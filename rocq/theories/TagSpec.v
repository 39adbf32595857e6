(** Specification vocabulary for package tag, independent of the model's
    functions (it uses only the data types of TagModel). *)

From Coq Require Import List NArith ZArith Bool Permutation.
From Verif Require Import Base GoMap TagModel.
Import ListNotations.
Open Scope N_scope.

(** A byte is printable US-ASCII. *)
Definition printable (b : byte) : Prop := 32 <= b2n b <= 126.

(** What a key name and a value must look like. *)
Definition valid_key (k : key) : Prop :=
  (1 <= length k <= 255)%nat /\ Forall printable k.
Definition valid_value (v : bytes) : Prop :=
  (length v <= 255)%nat /\ Forall printable v.

(** Every tag of the map is valid. *)
Definition valid_tags (m : tmap) : Prop :=
  forall k c, In (k, c) m -> valid_key k /\ valid_value (c_value c).

(** A tag map as a partial function. *)
Notation fmap := (key -> option content).
Definition as_fun (m : tmap) : fmap := fun k => tget m k.
Definition fempty : fmap := fun _ => None.
Definition fset (f : fmap) (k : key) (c : content) : fmap :=
  fun k' => if bytes_eq_dec k k' then Some c else f k'.
Definition fdel (f : fmap) (k : key) : fmap :=
  fun k' => if bytes_eq_dec k k' then None else f k'.

(** TTL given by a list of metadata: unlimited when none is given, otherwise the
    last non-nil one, and "no propagation" when all are nil. *)
Fixpoint last_ttl (mds : list metadata) (d : Z) : Z :=
  match mds with
  | [] => d
  | Some t :: r => last_ttl r t
  | None :: r => last_ttl r d
  end.
Definition spec_ttl (mds : list metadata) : Z :=
  match mds with [] => (-1)%Z | _ => last_ttl mds 0%Z end.

(** Documented effect of each mutator. *)
Definition spec_mutate (mu : mutator) (f : fmap) : fmap :=
  match mu with
  | Insert k v mds =>
      match f k with Some _ => f | None => fset f k (Content v (spec_ttl mds)) end
  | Update k v mds =>
      match f k with Some _ => fset f k (Content v (spec_ttl mds)) | None => f end
  | Upsert k v mds => fset f k (Content v (spec_ttl mds))
  | Delete k => fdel f k
  end.

(** A mutator is acceptable when the value it carries is valid. *)
Definition mutator_ok (mu : mutator) : Prop :=
  match mu with
  | Insert _ v _ | Update _ v _ | Upsert _ v _ => valid_value v
  | Delete _ => True
  end.

(** A mutator whose key came out of NewKey. *)
Definition mutator_key (mu : mutator) : key :=
  match mu with Insert k _ _ | Update k _ _ | Upsert k _ _ | Delete k => k end.

(** The tags in a context (none for a context without a tag map). *)
Definition ctx_fun (h : heap) (c : ctx) : fmap :=
  match ctx_map h c with None => fempty | Some m => as_fun m end.

(** [it] is a possible iteration order of the map in context [c]. *)
Definition iterates (h : heap) (c : ctx) (it : list (key * content)) : Prop :=
  match ctx_map h c with None => True | Some m => Permutation m it end.

(** Reachable histories: any sequence of tag.New / tag.Decode on existing
    contexts, with any iteration order, keys satisfying [P]. *)
Inductive tag_reach (P : key -> Prop) : tag_state -> Prop :=
| reach_init : tag_reach P tag_init
| reach_new s i it ms :
    tag_reach P s ->
    iterates (st_heap s) (nth i (st_ctxs s) None) it ->
    (forall mu, In mu ms -> P (mutator_key mu)) ->
    tag_reach P (tag_step s (OpNew i it ms))
| reach_decode s i b :
    tag_reach P s -> tag_reach P (tag_step s (OpDecode i b)).

(** ** The wire format, as a grammar *)

(** A base-128 varint: [uv bs n] says the byte string encodes [n] (leading zero
    groups allowed). *)
Inductive uv : bytes -> N -> Prop :=
| uv_last b : b2n b < 128 -> uv [b] (b2n b)
| uv_more b r n : 128 <= b2n b -> uv r n -> uv (b :: r) (b2n b - 128 + 128 * n).

(** A length prefix: a varint of at most ten bytes with a 64-bit value. *)
Definition len_prefix (l : bytes) (n : N) : Prop :=
  uv l n /\ (length l <= 10)%nat /\ n < 2 ^ 64.

(** A sequence of string tags: 0x00, prefixed key, prefixed value, ... *)
Inductive wire : bytes -> list (bytes * bytes) -> Prop :=
| wire_nil : wire [] []
| wire_tag lk k lv v r ts :
    len_prefix lk (N.of_nat (length k)) ->
    len_prefix lv (N.of_nat (length v)) ->
    wire r ts ->
    wire (x00 :: lk ++ k ++ lv ++ v ++ r) ((k, v) :: ts).

(** The whole message: empty, or version byte 0 followed by tags. *)
Definition message (b : bytes) (ts : list (bytes * bytes)) : Prop :=
  (b = [] /\ ts = []) \/ (exists w, b = x00 :: w /\ wire w ts).

(** The map a list of wire tags stands for: the last occurrence of a key wins. *)
Definition tags_fun (ts : list (bytes * bytes)) : fmap :=
  fold_left (fun f kv => fset f (fst kv) (Content (snd kv) (-1)%Z)) ts fempty.
