(** Model of stats/view/collector.go: the rows of a view.  Definitions only.

    Aggregation data are mutable objects in Go.  The model has an explicit heap:
    objects ([hobj]), and the arrays behind the slices CountPerBucket and
    ExemplarsPerBucket of a DistributionData.  Rows handed to users hold pointers
    into that heap.  The value-level collector ([vcoll]) at the end is what the
    heap-level one refines to (CollectorProofs.v); the worker model uses it. *)

From Coq Require Import List Arith ZArith NArith Bool.
From Verif Require Import Base GoMap GoSort TagModel TagEncodingModel AggModel.
Import ListNotations.

(** ** Row signatures *)

(** stats/view/collector.go:61-77 [encodeWithKeys]; [None] is a panic. *)
Definition encode_with_keys (m : option tmap) (keys : list key) : option bytes :=
  let req_len :=
    fold_left (fun n k => let (s, _) := value_of m k in (n + (length s + 1))%nat) keys O in
  let vb := MkW (repeat (n2b 0) req_len) 0 in
  match write_values vb (map (fun k => fst (value_of m k)) keys) with
  | Some w => Some (w_bytes w)
  | None => None
  end.

(** stats/view/collector.go:84-89: the loop of decodeTags. *)
Fixpoint decode_loop (r : bytes) (keys : list key) : option (list (key * bytes)) :=
  match keys with
  | [] => Some []
  | k :: ks =>
      match read_value r with
      | None => None
      | Some (v, r') =>
          match decode_loop r' ks with
          | None => None
          | Some tags => Some (match v with Some v => (k, v) :: tags | None => tags end)
          end
      end
  end.

(** stats/view/collector.go:81-93 [decodeTags].  sort.Slice orders by key name;
    tags with equal names are equal (same key, same value), so the order is
    determined. *)
Definition decode_tags (buf : bytes) (keys : list key) : option (list (key * bytes)) :=
  option_map (isort (fun a b => bytes_ltb (fst a) (fst b))) (decode_loop buf keys).

(** ** Heap-level collector *)

Section Collector.
  Context (F : num).

  (** An aggregation object. A DistributionData holds its scalar fields (in a [dist] whose
      slices are not used) and references to its two arrays; the bounds slice is never
      written and is kept by value. (stats/view/aggregation_data.go:43-46, 85-88, 131-143,
      284-286). *)
  Inductive hobj : Type :=
  | HPlain (a : agg_data F)
  | HDist (d : dist F) (cpb ex : nat).

  (** Go's heap, as far as aggregation data are in it
      (stats/view/aggregation_data.go:131-143). *)
  Record aheap : Type := MkAH {
    ah_objs : list hobj;
    ah_ints : list (list Z);
    ah_exs : list (list (option (exemplar F))) }.

  (** The heap before anything is recorded (stats/view/aggregation_data.go:131-143). *)
  Definition empty_aheap : aheap := MkAH [] [] [].

  (** A DistributionData with other slices (stats/view/aggregation_data.go:131-143). *)
  Definition with_slices (d : dist F) (cpb : list Z) (ex : list (option (exemplar F))) : dist F :=
    {| d_count := d_count d; d_min := d_min d; d_max := d_max d; d_mean := d_mean d;
       d_ssd := d_ssd d; d_cpb := cpb; d_ex := ex; d_bounds := d_bounds d;
       d_start := d_start d |}.

  (** The value an object currently has. (stats/view/aggregation_data.go:43-46, 85-88,
      131-143, 284-286). *)
  Definition hload (h : aheap) (p : nat) : option (agg_data F) :=
    match nth_error (ah_objs h) p with
    | None => None
    | Some (HPlain a) => Some a
    | Some (HDist d cpb ex) =>
        match nth_error (ah_ints h) cpb, nth_error (ah_exs h) ex with
        | Some c, Some x => Some (DistD (with_slices d c x))
        | _, _ => None
        end
    end.

  (** Overwrite an object in place: scalar fields in the object, slice elements in its
      arrays. (stats/view/aggregation_data.go:50-52, 92-94, 170-208, 292-294). *)
  Definition hstore (h : aheap) (p : nat) (a : agg_data F) : aheap :=
    match nth_error (ah_objs h) p, a with
    | Some (HDist _ cpb ex), DistD d =>
        MkAH (upd (ah_objs h) p (fun _ => HDist (with_slices d [] []) cpb ex))
             (upd (ah_ints h) cpb (fun _ => d_cpb d))
             (upd (ah_exs h) ex (fun _ => d_ex d))
    | Some (HPlain _), a =>
        MkAH (upd (ah_objs h) p (fun _ => HPlain a)) (ah_ints h) (ah_exs h)
    | _, _ => h
    end.

  (** Allocation of a new object. (stats/view/aggregation.go:56-58, 62-64, 108-110, 119-121,
      aggregation_data.go:145-155). *)
  Definition halloc (h : aheap) (a : agg_data F) : aheap * nat :=
    match a with
    | DistD d =>
        (MkAH (ah_objs h ++ [HDist (with_slices d [] []) (length (ah_ints h)) (length (ah_exs h))])
              (ah_ints h ++ [d_cpb d]) (ah_exs h ++ [d_ex d]),
         length (ah_objs h))
    | _ => (MkAH (ah_objs h ++ [HPlain a]) (ah_ints h) (ah_exs h), length (ah_objs h))
    end.

  (** aggregator.addSample(...) through the pointer, in place
      (stats/view/aggregation_data.go:50, 92, 170, 292). *)
  Definition hadd (h : aheap) (p : nat) (s : sample F) : aheap :=
    match hload h p with
    | Some a => hstore h p (add_sample a s)
    | None => h
    end.

  (** The clone methods: stats/view/aggregation_data.go:54-56 (Count), 96-98
      (Sum), 221-226 (Distribution: copies the struct and both slices), 296-298
      (LastValue). *)
  Definition hclone (h : aheap) (p : nat) : option (aheap * nat) :=
    match nth_error (ah_objs h) p with
    | None => None
    | Some (HPlain a) =>
        Some (MkAH (ah_objs h ++ [HPlain a]) (ah_ints h) (ah_exs h), length (ah_objs h))
    | Some (HDist d cpb ex) =>
        match nth_error (ah_ints h) cpb, nth_error (ah_exs h) ex with
        | Some c, Some x =>
            Some (MkAH (ah_objs h ++ [HDist d (length (ah_ints h)) (length (ah_exs h))])
                       (ah_ints h ++ [c]) (ah_exs h ++ [x]),
                  length (ah_objs h))
        | _, _ => None
        end
    end.

  (** stats/view/collector.go:26-33 [collector] of a view with tag keys [hc_keys]. *)
  Record hcoll : Type := MkHC {
    hc_agg : aggregation F; hc_keys : list key; hc_sigs : list (bytes * nat) }.

  (** stats/view/collector.go:35-42 [addSample]. *)
  Definition hc_add (h : aheap) (c : hcoll) (sig : bytes) (s : sample F) : aheap * hcoll :=
    match mget bytes_eqb (hc_sigs c) sig with
    | Some p => (hadd h p s, c)
    | None =>
        let (h1, p) := halloc h (new_data (hc_agg c) (s_time s)) in
        (hadd h1 p s, MkHC (hc_agg c) (hc_keys c) (mset bytes_eqb (hc_sigs c) sig p))
    end.

  (** stats/view/collector.go:45-53 [collectedRows], ranging over the map in the
      order [it]; [None] is a panic.  A row is its tags and a pointer to the
      cloned data. *)
  Fixpoint hc_rows (h : aheap) (keys : list key) (it : list (bytes * nat))
    : option (aheap * list (list (key * bytes) * nat)) :=
    match it with
    | [] => Some (h, [])
    | (sig, p) :: it' =>
        match decode_tags sig keys, hclone h p with
        | Some tags, Some (h1, q) =>
            match hc_rows h1 keys it' with
            | Some (h2, rows) => Some (h2, (tags, q) :: rows)
            | None => None
            end
        | _, _ => None
        end
    end.

  (** stats/view/collector.go:55-57 [clearRows]. *)
  Definition hc_clear (c : hcoll) : hcoll := MkHC (hc_agg c) (hc_keys c) [].

  (** Any number of collectors sharing the heap, and the rows delivered so far.
      (stats/view/view.go:119-124, collector.go:26-33). *)
  Record cworld : Type := MkCW {
    cw_heap : aheap;
    cw_colls : list hcoll;
    cw_out : list (nat * list (list (key * bytes) * nat)) }.

  (** stats/view/view.go:126-132 [newViewInternal]: the collector of a new view. *)
  Definition new_coll (ak : aggregation F * list key) : hcoll := MkHC (fst ak) (snd ak) [].

  (** Collectors with nothing recorded (stats/view/view.go:126-132). *)
  Definition init_cworld (aks : list (aggregation F * list key)) : cworld :=
    MkCW empty_aheap (map new_coll aks) [].

  (** What can happen to collector [i]: a sample recorded with a tag map
      (stats/view/view.go:156-162), rows collected (152-154), rows cleared
      (148-150).  The last case is the user overwriting the exported fields of
      the data of the j-th row of the n-th delivery. *)
  Inductive cop : Type :=
  | CAdd (i : nat) (m : option tmap) (s : sample F)
  | CSnap (i : nat)
  | CClear (i : nat)
  | CUser (n j : nat) (a : agg_data F).

  (** One call of stats/view/collector.go:35-42, 45-53 or 55-57. *)
  Inductive cstep (w : cworld) : cop -> cworld -> Prop :=
  | step_add i c m s sig h' c' :
      nth_error (cw_colls w) i = Some c ->
      encode_with_keys m (hc_keys c) = Some sig ->
      hc_add (cw_heap w) c sig s = (h', c') ->
      cstep w (CAdd i m s) (MkCW h' (upd (cw_colls w) i (fun _ => c')) (cw_out w))
  | step_snap i c it h' rows :
      nth_error (cw_colls w) i = Some c ->
      Permutation.Permutation it (hc_sigs c) ->
      hc_rows (cw_heap w) (hc_keys c) it = Some (h', rows) ->
      cstep w (CSnap i) (MkCW h' (cw_colls w) (cw_out w ++ [(i, rows)]))
  | step_clear i c :
      nth_error (cw_colls w) i = Some c ->
      cstep w (CClear i) (MkCW (cw_heap w) (upd (cw_colls w) i (fun _ => hc_clear c)) (cw_out w))
  | step_user n j a i rows tags p :
      nth_error (cw_out w) n = Some (i, rows) ->
      nth_error rows j = Some (tags, p) ->
      cstep w (CUser n j a) (MkCW (hstore (cw_heap w) p a) (cw_colls w) (cw_out w)).

  (** A history of such calls (stats/view/collector.go:35-57). *)
  Inductive csteps : cworld -> list cop -> cworld -> Prop :=
  | csteps_nil w : csteps w [] w
  | csteps_snoc w ops w1 op w2 :
      csteps w ops w1 -> cstep w1 op w2 -> csteps w (ops ++ [op]) w2.

  (** ** Value-level collector *)

  (** stats/view/collector.go:26-33 on values. *)
  Record vcoll : Type := MkVC {
    vc_agg : aggregation F; vc_keys : list key; vc_sigs : list (bytes * agg_data F) }.

  (** stats/view/collector.go:35-42 on values. *)
  Definition vc_add (c : vcoll) (sig : bytes) (s : sample F) : vcoll :=
    let a := match mget bytes_eqb (vc_sigs c) sig with
             | Some a => a
             | None => new_data (vc_agg c) (s_time s)
             end in
    MkVC (vc_agg c) (vc_keys c) (mset bytes_eqb (vc_sigs c) sig (add_sample a s)).

  (** stats/view/collector.go:45-53 on values, in the order of the list. *)
  Fixpoint vc_rows (keys : list key) (it : list (bytes * agg_data F))
    : option (list (list (key * bytes) * agg_data F)) :=
    match it with
    | [] => Some []
    | (sig, a) :: it' =>
        match decode_tags sig keys, vc_rows keys it' with
        | Some tags, Some rows => Some ((tags, a) :: rows)
        | _, _ => None
        end
    end.

  (** stats/view/collector.go:55-57 on values. *)
  Definition vc_clear (c : vcoll) : vcoll := MkVC (vc_agg c) (vc_keys c) [].
End Collector.

Arguments HPlain {F}.
Arguments HDist {F}.
Arguments MkAH {F}.
Arguments ah_objs {F}.
Arguments ah_ints {F}.
Arguments ah_exs {F}.
Arguments empty_aheap {F}.
Arguments with_slices {F}.
Arguments hload {F}.
Arguments hstore {F}.
Arguments halloc {F}.
Arguments hadd {F}.
Arguments hclone {F}.
Arguments MkHC {F}.
Arguments hc_agg {F}.
Arguments hc_keys {F}.
Arguments hc_sigs {F}.
Arguments hc_add {F}.
Arguments hc_rows {F}.
Arguments hc_clear {F}.
Arguments MkCW {F}.
Arguments cw_heap {F}.
Arguments cw_colls {F}.
Arguments cw_out {F}.
Arguments new_coll {F}.
Arguments init_cworld {F}.
Arguments CAdd {F}.
Arguments CSnap {F}.
Arguments CClear {F}.
Arguments CUser {F}.
Arguments cstep {F}.
Arguments csteps {F}.
Arguments MkVC {F}.
Arguments vc_agg {F}.
Arguments vc_keys {F}.
Arguments vc_sigs {F}.
Arguments vc_add {F}.
Arguments vc_rows {F}.
Arguments vc_clear {F}.
