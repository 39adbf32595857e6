(** What SpanData should show: what was passed to the setters, at the time of the call.  The
    span as a machine of values is that of TraceModel, which C27-C40 are about. *)

From Coq Require Import List Arith ZArith Bool.
From Verif Require Import Base GoMap AggModel TraceModel SpanAliasModel.
Import ListNotations.
Open Scope nat_scope.

(** The contents of a map of the program, now; nil has none. *)
Definition now_in (s : hst) (p : option nat) : content :=
  match p with Some q => match nth_error (hs_maps s) q with Some km => snd km | None => [] end | None => [] end.
Definition slice_now (s : hst) (a : option nat) : content :=
  match a with Some i => nth i (hs_arrs s) [] | None => [] end.

(** The call of the span that a step is, with its arguments as they are now. *)
Definition called (s : hst) (op : hop) : option supd :=
  match op with
  | OPlain u => Some u
  | OAttrs a => Some (USetAttrs (slice_now s (Some a)))
  | OAnnotate now a msg => Some (UAnnotate now (slice_now s a) msg)
  | OLink tr sp ty p => Some (ULink (MkLnk tr sp ty (now_in s p)))
  | _ => None
  end.

(** A run, with the span of values beside it ([r]) and the SpanData as they should be. *)
Inductive run (cfg : config) (d : sdata) : list hop -> hst -> recording -> list sdata -> Prop :=
| run_start : run cfg d [] (h_start cfg d)
    (MkRec d (new_lrumap (cf_attrs cfg)) (new_equeue (cf_annots cfg)) (new_equeue (cf_msgs cfg)) (new_equeue (cf_links cfg))) []
| run_call h s r l op u s' r' : run cfg d h s r l -> hstep s op = Some s' -> called s op = Some u -> rec_update r u = Some r' -> run cfg d (h ++ [op]) s' r' l
| run_child h s r l s' : run cfg d h s r l -> hstep s OChild = Some s' -> run cfg d (h ++ [OChild]) s' (rec_add_child r) l
| run_snap h s r l o fin s' sd r' : run cfg d h s r l -> hstep s (OSnap o fin) = Some s' -> make_span_data o r = (sd, r') ->
    run cfg d (h ++ [OSnap o fin]) s' r' (l ++ [match fin with Some t => with_end sd t | None => sd end])
| run_other h s r l op s' : run cfg d h s r l -> hstep s op = Some s' ->
    match op with ONewArr _ | OSetArr _ _ | ONewMap _ | OSetMap _ _ | OEditAttrs _ _ | OEditAnn _ _ _ | OEditLink _ _ _ => True | _ => False end ->
    run cfg d (h ++ [op]) s' r l.

(** A SpanData of a new span. *)
Definition fresh (d : sdata) : Prop := sd_attrs d = [] /\ sd_annots d = [] /\ sd_links d = [].

(** The receivers of SpanData leave the maps of annotations, or of links, alone. *)
Definition no_ann_edits (h : list hop) : Prop := forall x i m, ~ In (OEditAnn x i m) h.
Definition no_link_edits (h : list hop) : Prop := forall x i m, ~ In (OEditLink x i m) h.
(** The program does not write to a map after it has passed it to AddLink. *)
Definition links_kept (h : list hop) : Prop :=
  forall h1 p m h2, h = h1 ++ OSetMap p m :: h2 -> forall tr sp ty, ~ In (OLink tr sp ty (Some p)) h1.

(** Someone writes to the Attributes of the SpanData number x. *)
Definition attrs_edited (h : list hop) (x : nat) : Prop := exists m, In (OEditAttrs x m) h.
(** A SpanData without what hangs on maps. *)
Definition strip (d : sdata) : sdata :=
  MkSD (sd_context d) (sd_parent d) (sd_kind d) (sd_name d) (sd_start d) (sd_end d) [] [] (sd_msgs d) (sd_status d) [] (sd_remote d)
       (sd_dropped_attrs d) (sd_dropped_annots d) (sd_dropped_msgs d) (sd_dropped_links d) (sd_children d).
