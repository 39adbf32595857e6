(** Package tag as a program sees it: contexts and pointers to tag maps that are shared, the
    public Mutator interface with mutators of the user's own, nil and zero maps, Do and
    String.  TagModel covers New and Decode only.  Definitions only. *)

From Coq Require Import String.
From Coq Require Import List NArith ZArith Bool.
From Verif Require Import Base GoMap GoSort TagModel AggModel HttpModel.
Import ListNotations.
Open Scope nat_scope.

(** The Map objects ever made (tag/map.go:38-40): [None] is one whose field m is nil, which a
    program gets with new(tag.Map). A pointer is an index, [None] the nil pointer. *)
Notation cells := (list (option tmap)).
Notation mptr := (option nat).

(** What m.m is for the pointer m, if m is not nil (tag/map.go:47, 71, 190). *)
Definition cell_tags (h : cells) (p : mptr) : tmap :=
  match p with
  | Some i => match nth_error h i with Some (Some m) => m | _ => [] end
  | None => []
  end.

(** Errors: the package's and those a user's mutator returns (tag/map.go:96-98, 203-206). *)
Inductive api_err : Type := TagErr (e : tag_err) | UserErr.

(** How a call of Mutate ends (tag/map.go:96-98): it returns a pointer, or nil and an error,
    or panics. *)
Inductive mres : Type := MRet (p : mptr) | MErr (e : api_err) | MPanic.

(** The Mutate method of the package's mutators on any pointer, tag/map.go:227-229 with
    107-117 (Insert), 126-136 (Update), 146-156 (Upsert), 175-182 (Delete). The value is
    checked first. A nil pointer panics when its field is read (:71, :78, :84, :88); a nil Go
    map panics when it is written (:74, :84) and is otherwise like an empty one. *)
Definition lib_mutate (mu : mutator) (h : cells) (p : mptr) : cells * mres :=
  let bad := match mu with
             | Insert _ v _ | Update _ v _ | Upsert _ v _ => negb (check_value v)
             | Delete _ => false
             end in
  if bad then (h, MErr (TagErr ErrInvalidValue))
  else
    match p with
    | None => (h, MPanic)
    | Some i =>
        match nth_error h i with
        | Some (Some m) =>
            match mutate mu m with
            | inl m' => (upd h i (fun _ => Some m'), MRet p)
            | inr e => (h, MErr (TagErr e))
            end
        | _ =>
            match mu with
            | Insert _ _ _ | Upsert _ _ _ => (h, MPanic)
            | Update _ _ _ | Delete _ => (h, MRet p)
            end
        end
    end.

(** A map a user's mutator can name: the one it is given or one in a variable of the program
    (tag/map.go:96-98). *)
Inductive target : Type := Given | MVar (i : nat).
(** What a user's mutator returns (tag/map.go:96-98). *)
Inductive cret : Type := RGive (t : target) | RNil | RErr.
(** Implementations of Mutator (tag/map.go:96-98): the package's; a nil interface; one of the
    user's own, which calls the package's mutators on maps and drops their results. Simplified:
    it does not call New, Decode or NewContext. *)
Inductive amutator : Type :=
| Lib (mu : mutator)
| NilMutator
| Custom (body : list (target * mutator)) (r : cret).

(** The pointer a name stands for; [vs] are the program's variables (tag/map.go:96-98). *)
Definition resolve (vs : list mptr) (p : mptr) (t : target) : mptr :=
  match t with Given => p | MVar i => nth i vs None end.

(** A user's mutator at work (tag/map.go:203); true: it panicked. *)
Fixpoint run_body (vs : list mptr) (body : list (target * mutator)) (h : cells) (p : mptr) : cells * bool :=
  match body with
  | [] => (h, false)
  | (t, mu) :: b =>
      match lib_mutate mu h (resolve vs p t) with
      | (h', MPanic) => (h', true)
      | (h', _) => run_body vs b h' p
      end
  end.

(** The Mutate method of any Mutator (tag/map.go:96-98, 227-229). *)
Definition api_mutate (vs : list mptr) (mu : amutator) (h : cells) (p : mptr) : cells * mres :=
  match mu with
  | Lib mu => lib_mutate mu h p
  | NilMutator => (h, MPanic)
  | Custom body r =>
      match run_body vs body h p with
      | (h', true) => (h', MPanic)
      | (h', false) =>
          (h', match r with RGive t => MRet (resolve vs p t) | RNil => MRet None | RErr => MErr UserErr end)
      end
  end.

(** tag/map.go:202-207: each mutator gets what the one before returned. *)
Fixpoint api_mutate_loop (vs : list mptr) (ms : list amutator) (h : cells) (p : mptr) : cells * mres :=
  match ms with
  | [] => (h, MRet p)
  | mu :: r =>
      match api_mutate vs mu h p with
      | (h', MRet p') => api_mutate_loop vs r h' p'
      | (h', x) => (h', x)
      end
  end.

(** tag/map.go:190-199: what the loop makes of the new map. (On an error the new map is
    dropped.) *)
Fixpoint api_copy (it : list (key * content)) (m : tmap) : tmap + tag_err :=
  match it with
  | [] => inl m
  | (k, v) :: r =>
      if negb (check_key_name k) then inr ErrInvalidKeyName
      else if negb (check_value (c_value v)) then inr ErrInvalidValue
      else api_copy r (t_insert m k (c_value v) (c_ttl v))
  end.

(** A context: what FromContext gives of it (tag/context.go:23-30; a nil *Map in it is as good
    as none) and its profiler labels (tag/profile_19.go:31). *)
Record actx : Type := MkCx { cx_map : mptr; cx_labels : list (bytes * bytes) }.

(** tag/map.go:187-209 [New]; [it] is the order in which the original map is ranged over. *)
Definition api_new (vs : list mptr) (h : cells) (c : actx) (it : list (key * content)) (ms : list amutator) : cells * mres :=
  match api_copy (match cx_map c with Some _ => it | None => [] end) new_map with
  | inr e => (h, MErr (TagErr e))
  | inl m => api_mutate_loop vs ms (h ++ [Some m]) (Some (length h))
  end.

(** The program's state: the maps, its variables of type context.Context and those of type
    *tag.Map (tag/context.go:23-39). *)
Record api : Type := MkApi { a_heap : cells; a_ctxs : list actx; a_maps : list mptr }.

(** context.Background() and a nil map (tag/context.go:23-30). *)
Definition api_init : api := MkApi [] [MkCx None []] [None].

(** Calls. Contexts and maps are given by the number of the variable. *)
Inductive api_op : Type :=
| AFromContext (c : nat)                                                  (* tag/context.go:23-30 *)
| ANewContext (c m : nat)                                                 (* tag/context.go:37-39 *)
| ANew (c : nat) (it : list (key * content)) (ms : list amutator)         (* tag/map.go:187-209 *)
| AMutate (mu : amutator) (m : nat)                                       (* tag/map.go:96-98 *)
| ADecode (b : bytes)                                                     (* tag/map_codec.go:183-191 *)
| AZeroMap                                                                (* new(tag.Map), tag/map.go:38-40 *)
| ADo (c : nat) (it : list (key * content)).                              (* tag/profile_19.go:25-32 *)

(** How a call ends (tag/map.go:187). *)
Inductive api_out : Type := OOk | OErr (e : api_err) | OPanic.

(** The context variable [c] (tag/map.go:187). *)
Definition the_ctx (s : api) (c : nat) : actx := nth c (a_ctxs s) (MkCx None []).
(** The map variable [m] (tag/map.go:96-98). *)
Definition the_map (s : api) (m : nat) : mptr := nth m (a_maps s) None.

(** runtime/pprof's Do at tag/profile_19.go:31: the labels of the map on top of those the
    context has. *)
Definition add_labels (ls : list (bytes * bytes)) (it : list (key * content)) : list (bytes * bytes) :=
  fold_left (fun l kv => mset bytes_eqb l (fst kv) (c_value (snd kv))) it ls.

(** One call; what it returns goes to a new variable (for Do: the context its function is
    called with). A panicking call returns nothing; what it has changed stays changed. *)
Definition api_step (s : api) (op : api_op) : api * api_out :=
  let h := a_heap s in
  let cs := a_ctxs s in
  let vs := a_maps s in
  match op with
  | AFromContext c => (MkApi h cs (vs ++ [cx_map (the_ctx s c)]), OOk)
  | ANewContext c m => (MkApi h (cs ++ [MkCx (the_map s m) (cx_labels (the_ctx s c))]) vs, OOk)
  | ANew c it ms =>
      match api_new vs h (the_ctx s c) it ms with
      | (h', MRet p) => (MkApi h' (cs ++ [MkCx p (cx_labels (the_ctx s c))]) vs, OOk)
      | (h', MErr e) => (MkApi h' (cs ++ [the_ctx s c]) vs, OErr e)
      | (h', MPanic) => (MkApi h' cs vs, OPanic)
      end
  | AMutate mu m =>
      match api_mutate vs mu h (the_map s m) with
      | (h', MRet p) => (MkApi h' cs (vs ++ [p]), OOk)
      | (h', MErr e) => (MkApi h' cs (vs ++ [None]), OErr e)
      | (h', MPanic) => (MkApi h' cs vs, OPanic)
      end
  | ADecode b =>
      match decode b with
      | DecOk m => (MkApi (h ++ [Some m]) cs (vs ++ [Some (length h)]), OOk)
      | DecErr e => (MkApi h cs (vs ++ [None]), OErr (TagErr e))
      | _ => (s, OPanic)
      end
  | AZeroMap => (MkApi (h ++ [None]) cs (vs ++ [Some (length h)]), OOk)
  | ADo c it =>
      match cx_map (the_ctx s c) with
      | None => (s, OPanic) (* tag/profile_19.go:27 reads m.m of a nil m *)
      | Some p => (MkApi h (cs ++ [MkCx (Some p) (add_labels (cx_labels (the_ctx s c)) it)]) vs, OOk)
      end
  end.

(** tag/map.go:43-49 [Value] on any pointer. *)
Definition api_value (h : cells) (p : mptr) (k : key) : bytes * bool :=
  match p with None => ([], false) | Some _ => value_of (Some (cell_tags h p)) k end.

(** tag/map_codec.go:164-180 [Encode] on any pointer; [None] is a panic, the nil slice is []. *)
Definition api_encode (p : mptr) (it : list (key * content)) : option bytes :=
  match p with None => Some [] | Some _ => encode it end.

(** fmt's percent-v of a tagContent (tag/map.go:64): a struct of the value and a struct of a
    struct of the TTL. *)
Definition content_text (c : content) : bytes :=
  bs "{" ++ c_value c ++ bs " {{" ++ itoa (c_ttl c) ++ bs "}}}".
(** tag/map.go:51-68 [String]; [it] is the order in which the map is ranged over. *)
Definition map_string (p : mptr) (it : list (key * content)) : bytes :=
  match p with
  | None => bs "nil"
  | Some _ =>
      bs "{ " ++
      concat (map (fun k => bs "{" ++ k ++ bs " " ++
                            content_text (match mget bytes_eqb it k with Some c => c | None => Content [] 0%Z end) ++ bs "}")
                  (isort bytes_ltb (map fst it))) ++
      bs " }"
  end.
