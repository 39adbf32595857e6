(** Model of canonicalize (stats/view/view.go) on slices: the tag keys of a View and the
    buckets of an Aggregation are slices of the user's arrays, which several views and
    aggregations may share.  Definitions only.

    ViewModel.v has the same code with one array per slice.  Simplification: users write to
    the arrays only before they make slices of them into views or aggregations. *)

From Coq Require Import List Arith ZArith Bool.
From Verif Require Import Base GoMap GoSort Float64 TagModel AggModel CollectorModel ViewModel.
Import ListNotations.
Open Scope nat_scope.

(** A Go slice: array, offset, length; the capacity is not used (stats/view/view.go:41,
    aggregation.go:48). *)
Record slice : Type := MkSlice { sl_arr : nat; sl_off : nat; sl_len : nat }.

(** What a slice holds; [h]: the arrays.  Used at stats/view/view.go:94-98. *)
Definition sread {A} (h : list (list A)) (s : slice) : list A :=
  firstn (sl_len s) (skipn (sl_off s) (nth (sl_arr s) h [])).

(** Writing all elements of a slice (stats/view/view.go:94-97: sort.Slice and sort.Float64s
    work in place). *)
Definition swrite {A} (h : list (list A)) (s : slice) (l : list A) : list (list A) :=
  upd h (sl_arr s) (fun a => firstn (sl_off s) a ++ l ++ skipn (sl_off s + sl_len s) a).

(** Sorting in place; where equal elements end up cannot be seen for tag keys, and for floats
    only for zeros and NaNs, which are dropped (stats/view/view.go:94-97). *)
Definition ssort {A} (ltb : A -> A -> bool) (h : list (list A)) (s : slice) : list (list A) :=
  swrite h s (isort ltb (sread h s)).

(** A slice expression that does not panic (stats/view/view.go:41, aggregation.go:48). *)
Definition sfits {A} (h : list (list A)) (s : slice) : bool := sl_off s + sl_len s <=? length (nth (sl_arr s) h []).

(** stats/view/view.go:35-48 [View]. *)
Record aview : Type := MkAV {
  av_name : bytes; av_desc : bytes; av_keys : slice; av_measure : option measure; av_agg : option nat }.

(** stats/view/aggregation.go:46-51 [Aggregation]; the bounds in [aa_kind] are not used. *)
Record aagg : Type := MkAA { aa_kind : aggregation f64_num; aa_buckets : slice }.

(** The user's arrays, views and aggregations (stats/view/view.go:35-48,
    aggregation.go:46-51). *)
Record aworld : Type := MkAW {
  aw_keys : list (list key); aw_bounds : list (list f64); aw_aggs : list aagg; aw_views : list aview }.

(** stats/view/view.go:109-116 [dropZeroBounds]: the rest of the slice from the first positive
    bound on; the empty slice at the end of it, instead of a new empty slice, if there is none. *)
Definition drop_slice (s : slice) (sorted : list f64) : slice :=
  let n := length (drop_zero_bounds sorted) in MkSlice (sl_arr s) (sl_off s + (sl_len s - n)) n.

(** stats/view/view.go:78-107 [canonicalize].  [None] is an invalid pointer. *)
Definition al_canonicalize (w : aworld) (p : nat) : option (aworld * option view_err) :=
  match nth_error (aw_views w) p with
  | None => None
  | Some v =>
      match av_measure v with
      | None => Some (w, Some ErrNoMeasure)
      | Some me =>
          match av_agg v with
          | None => Some (w, Some ErrNoAggregation)
          | Some ap =>
              let name := match av_name v with [] => me_name me | n => n end in
              let desc := match av_desc v with [] => me_desc me | d => d end in
              let views := upd (aw_views w) p (fun _ => MkAV name desc (av_keys v) (av_measure v) (av_agg v)) in
              match check_view_name name with
              | Some e => Some (MkAW (aw_keys w) (aw_bounds w) (aw_aggs w) views, Some e)
              | None =>
                  let keys := ssort bytes_ltb (aw_keys w) (av_keys v) in
                  match nth_error (aw_aggs w) ap with
                  | None => None
                  | Some a =>
                      let bounds := ssort f_less (aw_bounds w) (aa_buckets a) in
                      let sorted := sread bounds (aa_buckets a) in
                      if existsb (fun b => f_ltb b f_zero) sorted
                      then Some (MkAW keys bounds (aw_aggs w) views, Some ErrNegativeBounds)
                      else Some (MkAW keys bounds
                                  (upd (aw_aggs w) ap (fun _ => MkAA (aa_kind a) (drop_slice (aa_buckets a) sorted)))
                                  views, None)
                  end
              end
          end
      end
  end.

(** stats/view/worker_commands.go:59-64: canonicalise every view, stop at the first error.  The
    rest of Register does not write to the user's objects. *)
Fixpoint al_register (w : aworld) (ps : list nat) : option (aworld * option view_err) :=
  match ps with
  | [] => Some (w, None)
  | p :: r =>
      match al_canonicalize w p with
      | None => None
      | Some (w', Some e) => Some (w', Some e)
      | Some (w', None) => al_register w' r
      end
  end.

(** What the user does: makes arrays, aggregations (stats/view/aggregation.go:46-51, 103-112
    [Distribution] keeps the slice it is given) and views (view.go:35-48) with slices of them, and
    registers views (worker.go:146-153). *)
Inductive aop : Type :=
| ONewKeys (l : list key)
| ONewBounds (l : list f64)
| ONewAgg (a : aagg)
| ONewView (v : aview)
| ORegister (ps : list nat).

(** One of these; [None] if a pointer or a slice is invalid (stats/view/view.go:35-48,
    aggregation.go:46-51, worker.go:146-153). *)
Definition al_step (w : aworld) (op : aop) : option aworld :=
  match op with
  | ONewKeys l => Some (MkAW (aw_keys w ++ [l]) (aw_bounds w) (aw_aggs w) (aw_views w))
  | ONewBounds l => Some (MkAW (aw_keys w) (aw_bounds w ++ [l]) (aw_aggs w) (aw_views w))
  | ONewAgg a =>
      if sfits (aw_bounds w) (aa_buckets a) &&
         match aa_kind a with AggDist _ => true | _ => sl_len (aa_buckets a) =? 0 end
      then Some (MkAW (aw_keys w) (aw_bounds w) (aw_aggs w ++ [a]) (aw_views w)) else None
  | ONewView v =>
      if sfits (aw_keys w) (av_keys v) && match av_agg v with Some ap => ap <? length (aw_aggs w) | None => true end
      then Some (MkAW (aw_keys w) (aw_bounds w) (aw_aggs w) (aw_views w ++ [v])) else None
  | ORegister ps => match al_register w ps with Some (w', _) => Some w' | None => None end
  end.

(** The start: no objects (stats/view/view.go:35-48, aggregation.go:46-51). *)
Definition al_init : aworld := MkAW [] [] [] [].

(** A history: no code of its own (stats/view/worker_commands.go:58-80). *)
Fixpoint al_run (w : aworld) (ops : list aop) : option aworld :=
  match ops with
  | [] => Some w
  | op :: r => match al_step w op with Some w' => al_run w' r | None => None end
  end.
