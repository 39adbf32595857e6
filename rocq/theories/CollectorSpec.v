(** Specification vocabulary for the rows of a view. *)

From Coq Require Import List Arith ZArith Bool Sorted.
From Verif Require Import Base GoMap GoSort TagModel AggModel CollectorModel.
Import ListNotations.
Open Scope nat_scope.

(** Tag maps as the tag package builds them: values of at most 255 bytes (C04). *)
Definition short_values (m : option tmap) : Prop :=
  forall k, length (fst (value_of m k)) <= 255.

(** The tags of a row: the view's keys that have a non-empty value in the map. *)
Definition row_tags (keys : list key) (m : option tmap) : list (key * bytes) :=
  flat_map (fun k => match fst (value_of m k) with [] => [] | v => [(k, v)] end) keys.

(** The two maps give every key of the view the same value (absent = empty). *)
Definition agree (keys : list key) (m1 m2 : option tmap) : Prop :=
  forall k, In k keys -> fst (value_of m1 k) = fst (value_of m2 k).

(** The keys of a registered view are sorted by name (C17). *)
Definition sorted_keys (keys : list key) : Prop := StronglySorted (leb bytes_ltb) keys.

Definition tags_eqb (a b : list (key * bytes)) : bool :=
  list_eqb (fun x y => bytes_eqb (fst x) (fst y) && bytes_eqb (snd x) (snd y)) a b.

Section Spec.
  Context {F : num}.

  (** The samples of collector [i] since it was last cleared. *)
  Fixpoint live_from (i : nat) (acc : list (option tmap * sample F)) (ops : list (cop F))
    : list (option tmap * sample F) :=
    match ops with
    | [] => acc
    | CAdd j m s :: r => live_from i (if j =? i then acc ++ [(m, s)] else acc) r
    | CClear j :: r => live_from i (if j =? i then [] else acc) r
    | _ :: r => live_from i acc r
    end.
  Definition live (i : nat) (ops : list (cop F)) := live_from i [] ops.

  (** The samples whose tag map has the given tags. *)
  Definition with_tags (keys : list key) (tags : list (key * bytes))
                       (ss : list (option tmap * sample F)) : list (option tmap * sample F) :=
    filter (fun ms => tags_eqb (row_tags keys (fst ms)) tags) ss.

  (** The rows are the group-by of the samples: one row per tag combination that
      was seen, holding the aggregate of exactly the samples of that combination,
      in order, started at the time of the first one. *)
  Definition is_group_by (agg : aggregation F) (keys : list key)
                         (ss : list (option tmap * sample F))
                         (rows : list (list (key * bytes) * agg_data F)) : Prop :=
    NoDup (map fst rows) /\
    forall tags data,
      In (tags, data) rows <->
      exists m0 s0 rest,
        with_tags keys tags ss = (m0, s0) :: rest /\
        data = aggregate agg (s_time s0) (map snd ((m0, s0) :: rest)).

  Definition op_short (op : cop F) : Prop :=
    match op with CAdd _ m _ => short_values m | _ => True end.

  (** The user does not overwrite row j of delivery n. *)
  Definition untouched (n j : nat) (ops : list (cop F)) : Prop :=
    forall a, ~ In (CUser n j a) ops.

  (** Delivered rows with the data their pointers show in heap [h]. *)
  Definition rows_show (h : aheap F) (rows : list (list (key * bytes) * nat))
                       (vals : list (list (key * bytes) * agg_data F)) : Prop :=
    Forall2 (fun r v => fst r = fst v /\ hload h (snd r) = Some (snd v)) rows vals.
End Spec.
