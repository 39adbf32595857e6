(** Model of what a span keeps of the maps and slices it is given, and of what the SpanData
    it hands out share (trace/trace.go).  Definitions only.

    One recording span; maps and slices are objects in a heap.  The slices and the integer
    fields of a SpanData are its own (trace/trace.go:359-381 make new arrays), so here they
    are values.  Not here: a program that passes a map it got from a SpanData to AddLink;
    calls that overlap with writes to their arguments (data races of the program). *)

From Coq Require Import List Arith ZArith Bool.
From Verif Require Import Base GoMap Float64 AggModel TraceModel.
Import ListNotations.
Open Scope nat_scope.

(** The contents of a map of attributes or of a slice of them (trace/basetypes.go:45-80). *)
Notation content := (list (bytes * attr)).

(** Who made a map: the program, printStringInternal (trace/trace.go:426) or
    lruAttributesToAttributeMap (384). *)
Inductive maker : Type := ByProgram | ByAnnotate | BySnapshot.

(** trace/basetypes.go:39-43 [Annotation], 94-100 [Link], the maps by reference, [None]: nil. *)
Record hann : Type := MkHA { ha_time : time; ha_msg : bytes; ha_map : option nat }.
(** trace/basetypes.go:94-100 [Link]. *)
Record hlink : Type := MkHL { hl_trace : bytes; hl_span : bytes; hl_type : Z; hl_map : option nat }.

(** trace/trace.go:40-68 [span], as far as it records; [h_data]: the fields without maps. *)
Record hrec : Type := MkH {
  h_data : sdata; h_attrs : lrumap; h_annots : equeue hann; h_msgs : equeue msgevent; h_links : equeue hlink }.

(** A SpanData (trace/export.go:74-98); [x_data]: the fields without maps. *)
Record hsd : Type := MkX { x_data : sdata; x_attrs : option nat; x_annots : list hann; x_links : list hlink }.

(** The slices of the program, the maps with their makers, the span, and the SpanData handed
    out so far. No code of its own (trace/trace.go:40-68). *)
Record hst : Type := MkHS {
  hs_arrs : list content; hs_maps : list (maker * content); hs_rec : hrec; hs_snaps : list hsd }.

(** What can happen.  The program makes a slice or a map, writes to one it made (any writes are
    one change of its contents), calls the span: a setter without attributes; AddAttributes,
    Annotate, AddLink; StartSpan of a child.  A SpanData is made, with an end time for End.  An
    exporter, or whoever has the SpanData number x, writes to its Attributes, to those of its
    annotation i, or to those of its link i.  (trace/trace.go:282-303, 340-357, 401-509.) *)
Inductive hop : Type :=
| ONewArr (l : content) | OSetArr (a : nat) (l : content) | ONewMap (m : content) | OSetMap (p : nat) (m : content)
| OPlain (u : supd) | OAttrs (a : nat) | OAnnotate (now : time) (a : option nat) (msg : bytes)
| OLink (tr sp : bytes) (ty : Z) (p : option nat) | OChild
| OSnap (o : order) (fin : option time)
| OEditAttrs (x : nat) (m : content) | OEditAnn (x i : nat) (m : content) | OEditLink (x i : nat) (m : content).

(** No code of its own: a write to a map (trace/basetypes.go:42, 99). *)
Definition put (maps : list (maker * content)) (p : nat) (m : content) : list (maker * content) :=
  upd maps p (fun km => (fst km, m)).
(** No code of its own: writes through a reference, [None] (a panic, or nothing there) otherwise
    (trace/basetypes.go:42, 99). *)
Definition edit (s : hst) (r : option nat) (m : content) : option hst :=
  match r with Some p => Some (MkHS (hs_arrs s) (put (hs_maps s) p m) (hs_rec s) (hs_snaps s)) | None => None end.
(** No code of its own: the span goes on (trace/trace.go:40-68). *)
Definition with_rec (s : hst) (maps : list (maker * content)) (r : hrec) : hst := MkHS (hs_arrs s) maps r (hs_snaps s).
(** The slice passed; nil has no elements. (trace/trace.go:395, 422.) *)
Definition arr_of (s : hst) (a : option nat) : option content := match a with None => Some [] | Some a => nth_error (hs_arrs s) a end.

(** trace/trace.go:422-438 [printStringInternal]: a new map if there are attributes. *)
Definition h_annotate (s : hst) (now : time) (l : content) (msg : bytes) : option hst :=
  let r := hs_rec s in
  let '(maps, p) := match l with
                    | [] => (hs_maps s, None)
                    | _ => (hs_maps s ++ [(ByAnnotate, fold_left (fun m kv => mset bytes_eqb m (fst kv) (snd kv)) l [])], Some (length (hs_maps s)))
                    end in
  match eq_add (h_annots r) (MkHA now msg p) with
  | Some q => Some (with_rec s maps (MkH (h_data r) (h_attrs r) q (h_msgs r) (h_links r)))
  | None => None
  end.

(** trace/trace.go:502-509 [AddLink]: the link as it is given. *)
Definition h_link (s : hst) (l : hlink) : option hst :=
  let r := hs_rec s in
  match eq_add (h_links r) l with
  | Some q => Some (with_rec s (hs_maps s) (MkH (h_data r) (h_attrs r) (h_annots r) (h_msgs r) q))
  | None => None
  end.

(** trace/trace.go:307-329 [makeSpanData], 359-393; 291-292 with the end time. *)
Definition h_snap (s : hst) (o : order) (fin : option time) : hst :=
  let r := hs_rec s in
  let d := h_data r in
  let '(maps, attrs, dattrs, lm) :=
    match lm_cache (h_attrs r) with
    | [] => (hs_maps s, None, sd_dropped_attrs d, h_attrs r)
    | _ => let '(m, lm) := lm_to_map (h_attrs r) (ord o _ (mkeys (lm_keys (h_attrs r)))) [] in
           (hs_maps s ++ [(BySnapshot, m)], Some (length (hs_maps s)), lm_dropped (h_attrs r), lm)
    end in
  let n {A} (q : equeue A) (k : nat) := match eq_items q with [] => k | _ => eq_dropped q end in
  let msgs := match eq_items (h_msgs r) with [] => sd_msgs d | l => l end in
  let x := MkX (MkSD (sd_context d) (sd_parent d) (sd_kind d) (sd_name d) (sd_start d) (match fin with Some t => t | None => sd_end d end) [] [] msgs
                     (sd_status d) [] (sd_remote d) dattrs (n (h_annots r) (sd_dropped_annots d)) (n (h_msgs r) (sd_dropped_msgs d))
                     (n (h_links r) (sd_dropped_links d)) (sd_children d))
               attrs (eq_items (h_annots r)) (eq_items (h_links r)) in
  MkHS (hs_arrs s) maps (MkH d lm (h_annots r) (h_msgs r) (h_links r)) (hs_snaps s ++ [x]).

(** Setters without attributes: SetName and SetStatus assign a field, the message events go to
    their queue (trace/trace.go:340-357, 463-499). *)
Definition h_plain (r : hrec) (u : supd) : option hrec :=
  let d := h_data r in
  match u with
  | USetName n =>
      Some (MkH (MkSD (sd_context d) (sd_parent d) (sd_kind d) n (sd_start d) (sd_end d) (sd_attrs d) (sd_annots d) (sd_msgs d) (sd_status d) (sd_links d)
        (sd_remote d) (sd_dropped_attrs d) (sd_dropped_annots d) (sd_dropped_msgs d) (sd_dropped_links d) (sd_children d)) (h_attrs r) (h_annots r) (h_msgs r) (h_links r))
  | USetStatus c m =>
      Some (MkH (MkSD (sd_context d) (sd_parent d) (sd_kind d) (sd_name d) (sd_start d) (sd_end d) (sd_attrs d) (sd_annots d) (sd_msgs d) (c, m) (sd_links d)
        (sd_remote d) (sd_dropped_attrs d) (sd_dropped_annots d) (sd_dropped_msgs d) (sd_dropped_links d) (sd_children d)) (h_attrs r) (h_annots r) (h_msgs r) (h_links r))
  | UMsg now sent id un co =>
      match eq_add (h_msgs r) (MkME now sent id un co) with
      | Some q => Some (MkH d (h_attrs r) (h_annots r) q (h_links r))
      | None => None
      end
  | _ => None
  end.

(** trace/trace.go:401-408 [addChild]. *)
Definition h_child (r : hrec) : hrec :=
  let d := h_data r in
  MkH (MkSD (sd_context d) (sd_parent d) (sd_kind d) (sd_name d) (sd_start d) (sd_end d) (sd_attrs d) (sd_annots d) (sd_msgs d) (sd_status d) (sd_links d)
    (sd_remote d) (sd_dropped_attrs d) (sd_dropped_annots d) (sd_dropped_msgs d) (sd_dropped_links d) (S (sd_children d))) (h_attrs r) (h_annots r) (h_msgs r) (h_links r).

(** One step; [None] if it cannot happen or panics (trace/trace.go:282-509). *)
Definition hstep (s : hst) (op : hop) : option hst :=
  let r := hs_rec s in
  match op with
  | ONewArr l => Some (MkHS (hs_arrs s ++ [l]) (hs_maps s) r (hs_snaps s))
  | OSetArr a l => if a <? length (hs_arrs s) then Some (MkHS (upd (hs_arrs s) a (fun _ => l)) (hs_maps s) r (hs_snaps s)) else None
  | ONewMap m => Some (MkHS (hs_arrs s) (hs_maps s ++ [(ByProgram, m)]) r (hs_snaps s))
  | OSetMap p m => match nth_error (hs_maps s) p with Some (ByProgram, _) => edit s (Some p) m | _ => None end
  | OPlain u => match h_plain r u with Some r' => Some (with_rec s (hs_maps s) r') | None => None end
  | OAttrs a =>
      match nth_error (hs_arrs s) a with
      | Some l => Some (with_rec s (hs_maps s) (MkH (h_data r) (fold_left (fun m kv => lm_add m (fst kv) (snd kv)) l (h_attrs r)) (h_annots r) (h_msgs r) (h_links r)))
      | None => None
      end
  | OAnnotate now a msg => match arr_of s a with Some l => h_annotate s now l msg | None => None end
  | OLink tr sp ty p =>
      match p with
      | None => h_link s (MkHL tr sp ty None)
      | Some q => match nth_error (hs_maps s) q with Some (ByProgram, _) => h_link s (MkHL tr sp ty p) | _ => None end
      end
  | OChild => Some (with_rec s (hs_maps s) (h_child r))
  | OSnap o fin => Some (h_snap s o fin)
  | OEditAttrs x m => match nth_error (hs_snaps s) x with Some d => edit s (x_attrs d) m | None => None end
  | OEditAnn x i m =>
      match nth_error (hs_snaps s) x with
      | Some d => match nth_error (x_annots d) i with Some a => edit s (ha_map a) m | None => None end
      | None => None
      end
  | OEditLink x i m =>
      match nth_error (hs_snaps s) x with
      | Some d => match nth_error (x_links d) i with Some l => edit s (hl_map l) m | None => None end
      | None => None
      end
  end.

(** What is read through references. No code of its own (trace/export.go:74-98). *)
Definition deref (maps : list (maker * content)) (r : option nat) : option content :=
  match r with Some p => option_map snd (nth_error maps p) | None => None end.
(** The Attributes, Annotations and Links of a SpanData, as its reader sees them now. No code of
    its own (trace/export.go:74-98). *)
Definition see_attrs (s : hst) (x : hsd) : content := match deref (hs_maps s) (x_attrs x) with Some m => m | None => [] end.
(** No code of its own (trace/export.go:86). *)
Definition see_annots (s : hst) (x : hsd) : list annotation :=
  map (fun a => MkAn (ha_time a) (ha_msg a) (deref (hs_maps s) (ha_map a))) (x_annots x).
(** No code of its own (trace/export.go:89). *)
Definition see_links (s : hst) (x : hsd) : list link :=
  map (fun l => MkLnk (hl_trace l) (hl_span l) (hl_type l) (match deref (hs_maps s) (hl_map l) with Some m => m | None => [] end)) (x_links x).

(** trace/trace.go:245-263: a new recording span (see [start_recording] in TraceModel). *)
Definition h_start (cfg : config) (d : sdata) : hst :=
  MkHS [] [] (MkH d (new_lrumap (cf_attrs cfg)) (new_equeue (cf_annots cfg)) (new_equeue (cf_msgs cfg)) (new_equeue (cf_links cfg))) [].
