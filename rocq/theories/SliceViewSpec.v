(** Specification: slices that do not overlap in part, and what the user sees of a view. *)

From Coq Require Import List Arith ZArith Bool.
From Verif Require Import Base GoMap GoSort Float64 TagModel AggModel CollectorModel ViewModel SliceViewModel.
Import ListNotations.
Open Scope nat_scope.

(** Two slices have no element in common. *)
Definition apart (s t : slice) : Prop :=
  sl_arr s <> sl_arr t \/ sl_off s + sl_len s <= sl_off t \/ sl_off t + sl_len t <= sl_off s.
(** They have none in common, or all. *)
Definition whole_or_apart (s t : slice) : Prop := s = t \/ apart s t.

(** The slices the user made views and aggregations with. *)
Definition key_slices (ops : list aop) : list slice := flat_map (fun op => match op with ONewView v => [av_keys v] | _ => [] end) ops.
Definition bound_slices (ops : list aop) : list slice := flat_map (fun op => match op with ONewAgg a => [aa_buckets a] | _ => [] end) ops.
Definition sharing_whole (ops : list aop) : Prop :=
  (forall s t, In s (key_slices ops) -> In t (key_slices ops) -> whole_or_apart s t) /\
  (forall s t, In s (bound_slices ops) -> In t (bound_slices ops) -> whole_or_apart s t).

(** The tag keys of view [p], and the bounds of its aggregation. *)
Definition shown_keys (w : aworld) (p : nat) : option (list key) :=
  option_map (fun v => sread (aw_keys w) (av_keys v)) (nth_error (aw_views w) p).
Definition shown_bounds (w : aworld) (p : nat) : option (list f64) :=
  match nth_error (aw_views w) p with
  | Some v => match av_agg v with
              | Some ap => option_map (fun a => sread (aw_bounds w) (aa_buckets a)) (nth_error (aw_aggs w) ap)
              | None => None
              end
  | None => None
  end.
(** All of the view. *)
Definition shown (w : aworld) (p : nat) : option (bytes * bytes * option measure * option nat) * option (list key) * option (list f64) :=
  (option_map (fun v => (av_name v, av_desc v, av_measure v, av_agg v)) (nth_error (aw_views w) p), shown_keys w p, shown_bounds w p).

(** No two views, and no two aggregations, share anything. *)
Definition sharing_nothing (ops : list aop) : Prop :=
  ForallOrdPairs apart (key_slices ops) /\ ForallOrdPairs apart (bound_slices ops).

(** The same objects, each with its own keys and bounds. *)
Definition own_view (w : aworld) (v : aview) : view := MkView (av_name v) (av_desc v) (sread (aw_keys w) (av_keys v)) (av_measure v) (av_agg v).
Definition own_agg (w : aworld) (a : aagg) : aggregation f64_num :=
  match aa_kind a with AggDist _ => AggDist (F := f64_num) (sread (aw_bounds w) (aa_buckets a)) | k => k end.
Definition unshared (w : aworld) : uworld := MkU (map (own_view w) (aw_views w)) (map (own_agg w) (aw_aggs w)).
