(** What a user of package trace relies on, in terms of the history of calls.

    A history is a list of steps with what they returned (TracerModel); everything here
    is computed from the history alone. *)

From Coq Require Import List Arith NArith ZArith Bool.
From Verif Require Import Base GoMap TraceTypes TraceModel SpanStoreModel SpanStoreSpec TracerModel.
Import ListNotations.
Open Scope nat_scope.

Notation hist := (list (top * list sdata)).

(** ** Configuration *)

Definition configs (h : hist) : list config_arg :=
  flat_map (fun x => match fst x with TApplyConfig a => [a] | _ => [] end) h.

Definition given {A} (l : list (option A)) : list A := flat_map (fun x => match x with Some a => [a] | None => [] end) l.

(** The last non-nil sampler and generator, the last positive limit. *)
Definition sampler_after (h : hist) : sampler := last (given (map ca_sampler (configs h))) (probability_sampler f_1em4).
Definition gen_after (h : hist) : nat := last (given (map ca_gen (configs h))) 0.
Definition limit_after (f : config_arg -> Z) (default : Z) (h : hist) : Z :=
  last (filter (fun n => 0 <? n)%Z (map f (configs h))) default.

(** ** Exporters *)

(** Whether [e] is registered: the last call about it was a registration. *)
Definition registered (h : hist) (e : nat) : bool :=
  last (flat_map (fun x => match fst x with
                           | TRegister e' => if e' =? e then [true] else []
                           | TUnregister e' => if e' =? e then [false] else []
                           | _ => []
                           end) h) false.

(** ** Spans *)

(** The arguments of the call that made a span, with the identifiers it drew and the
    time. *)
Record creation : Type := MkC {
  c_par : pref; c_remote : bool; c_name : bytes; c_opts : list sopt; c_tid : bytes; c_sid : bytes; c_now : time }.

Definition creates (h : hist) : list creation :=
  flat_map (fun x => match fst x with
                     | TCreate p r n xs t s now => [MkC p r n xs t s now]
                     | _ => []
                     end) h.

(** Span [i], the i-th made, was made by [c] after the history [h1]. *)
Definition created (h : hist) (i : nat) (h1 : hist) (c : creation) : Prop :=
  exists out h2, h = h1 ++ (TCreate (c_par c) (c_remote c) (c_name c) (c_opts c) (c_tid c) (c_sid c) (c_now c), out) :: h2 /\
    length (creates h1) = i.

(** The context of the parent given to that call. *)
Definition parent_of (w : world) (p : pref) : option span_context :=
  match p with
  | PNone => Some zero_sc
  | PCtx sc => Some sc
  | PSpan j => option_map s_context (nth_error (w_spans w) j)
  end.

(** The options: the last of each sort counts. *)
Definition opt_sampler (xs : list sopt) : option sampler :=
  last (flat_map (fun x => match x with WithSampler s => [s] | _ => [] end) xs) None.
Definition opt_kind (xs : list sopt) : Z :=
  last (flat_map (fun x => match x with WithSpanKind k => [k] | _ => [] end) xs) 0%Z.

(** Who decides on sampling: the sampler of the call; else, for a span without parent
    or with a remote one, the default sampler in force; else the parent. *)
Definition decision (h1 : hist) (c : creation) (parent : span_context) (trace_id : bytes) : bool :=
  let p := MkSP parent trace_id (c_sid c) (c_name c) (c_remote c) in
  match opt_sampler (c_opts c) with
  | Some s => s p
  | None => if is_zero_sc parent || c_remote c then sampler_after h1 p else is_sampled parent
  end.

(** The context of a new span. *)
Record context_ok (h1 : hist) (c : creation) (parent sc : span_context) : Prop := {
  co_trace : sc_trace_id sc = if is_zero_sc parent then c_tid c else sc_trace_id parent;
  co_span : sc_span_id sc = c_sid c;
  co_tracestate : sc_tracestate sc = sc_tracestate parent;
  co_sampled : is_sampled sc = decision h1 c parent (sc_trace_id sc);
  co_bits : forall b, (0 < b < 32)%N -> N.testbit (sc_options sc) b = N.testbit (sc_options parent) b;
  co_range : (sc_options parent < 2 ^ 32 -> sc_options sc < 2 ^ 32)%N }.

(** ** What is recorded on a span *)

Definition upds (h : hist) (i : nat) : list supd :=
  flat_map (fun x => match fst x with
                     | TUpdate (RSpan j) u => if j =? i then [u] else []
                     | _ => []
                     end) h.

Definition names (us : list supd) : list bytes := flat_map (fun u => match u with USetName n => [n] | _ => [] end) us.
Definition statuses (us : list supd) : list (Z * bytes) :=
  flat_map (fun u => match u with USetStatus c m => [(c, m)] | _ => [] end) us.
Definition sets (us : list supd) : list (bytes * attr) := flat_map (fun u => match u with USetAttrs l => l | _ => [] end) us.
Definition annots (us : list supd) : list (time * list (bytes * attr) * bytes) :=
  flat_map (fun u => match u with UAnnotate t l m => [(t, l, m)] | _ => [] end) us.
Definition msgs (us : list supd) : list msgevent :=
  flat_map (fun u => match u with UMsg t s i un co => [MkME t s i un co] | _ => [] end) us.
Definition links (us : list supd) : list link := flat_map (fun u => match u with ULink l => [l] | _ => [] end) us.

(** The last value set for a key. *)
Definition last_val (k : bytes) (l : list (bytes * attr)) : option attr :=
  last (flat_map (fun kv => if bytes_eqb (fst kv) k then [Some (snd kv)] else []) l) None.

(** The keys set, most recently set first. *)
Definition recent (l : list (bytes * attr)) : list bytes :=
  fold_left (fun acc kv => fst kv :: filter (fun k => negb (bytes_eqb k (fst kv))) acc) l [].

(** How many settings pushed out another key, if the [n] most recent keys are kept. *)
Definition evictions (n : nat) (l : list (bytes * attr)) : nat :=
  length (filter (fun i => match nth_error l i with
                           | Some (k, _) =>
                               negb (existsb (bytes_eqb k) (firstn n (recent (firstn i l)))) && (n <=? length (recent (firstn i l)))
                           | None => false
                           end) (seq 0 (length l))).

Definition annot_ok (x : time * list (bytes * attr) * bytes) (a : annotation) : Prop :=
  let '(t, l, m) := x in
  an_time a = t /\ an_msg a = m /\
  match an_attrs a with
  | None => l = []
  | Some mp => l <> [] /\ mwf mp /\ forall k, mget bytes_eqb mp k = last_val k l
  end.

(** ** The data of a span *)

(** [sd] is what was recorded by the updates [us] and [kids] children on the span made
    by [c] after [h1] with context [sc], ended at [e]. *)
Record sd_ok (h1 : hist) (c : creation) (parent sc : span_context) (us : list supd) (kids : nat) (e : time) (sd : sdata) : Prop := {
  sk_context : sd_context sd = sc;
  sk_parent : sd_parent sd = if is_zero_sc parent then zero_span_id else sc_span_id parent;
  sk_kind : sd_kind sd = opt_kind (c_opts c);
  sk_name : sd_name sd = last (names us) (c_name c);
  sk_start : sd_start sd = c_now c;
  sk_end : sd_end sd = e;
  sk_status : sd_status sd = last (statuses us) (0%Z, []);
  sk_remote : sd_remote sd = c_remote c;
  sk_children : sd_children sd = kids;
  sk_annots : Forall2 annot_ok (lastn (Z.to_nat (limit_after ca_annots 32 h1)) (annots us)) (sd_annots sd);
  sk_dropped_annots : sd_dropped_annots sd = length (annots us) - Z.to_nat (limit_after ca_annots 32 h1);
  sk_msgs : sd_msgs sd = lastn (Z.to_nat (limit_after ca_msgs 128 h1)) (msgs us);
  sk_dropped_msgs : sd_dropped_msgs sd = length (msgs us) - Z.to_nat (limit_after ca_msgs 128 h1);
  sk_links : sd_links sd = lastn (Z.to_nat (limit_after ca_links 32 h1)) (links us);
  sk_dropped_links : sd_dropped_links sd = length (links us) - Z.to_nat (limit_after ca_links 32 h1);
  sk_attrs_wf : mwf (sd_attrs sd);
  sk_attrs : forall k v, mget bytes_eqb (sd_attrs sd) k = Some v -> last_val k (sets us) = Some v;
  sk_attrs_count : length (sd_attrs sd) = min (Z.to_nat (limit_after ca_attrs 32 h1)) (length (recent (sets us)));
  sk_attrs_fit : length (recent (sets us)) <= Z.to_nat (limit_after ca_attrs 32 h1) -> sd_dropped_attrs sd = 0 }.

(** The attributes are exactly the [n] most recently set ones. *)
Definition attrs_exact (n : nat) (us : list supd) (sd : sdata) : Prop :=
  (forall k v, mget bytes_eqb (sd_attrs sd) k = Some v <-> In k (firstn n (recent (sets us))) /\ last_val k (sets us) = Some v) /\
  sd_dropped_attrs sd = evictions n (sets us).

(** ** Steps of the life of a span *)

Definition did (p : top -> bool) (h : hist) : list top := filter p (map fst h).
Definition is_add (i : nat) (op : top) : bool := match op with TStoreAdd j => j =? i | _ => false end.
Definition is_end (i : nat) (op : top) : bool := match op with TEnd (RSpan j) => j =? i | _ => false end.
Definition is_snap (i : nat) (op : top) : bool := match op with TSnap j _ _ => j =? i | _ => false end.
Definition is_fin (i : nat) (op : top) : bool := match op with TFinished j => j =? i | _ => false end.
Definition is_child (i : nat) (op : top) : bool := match op with TAddChild j => j =? i | _ => false end.
Definition is_report (name : bytes) (op : top) : bool := match op with TReportActive _ n => bytes_eqb n name | _ => false end.

(** What came after [h1]. *)
Definition since (h1 h : hist) : hist := skipn (length h1) h.

(** StartSpan calls that used span [i] as local parent: begun, and completed. *)
Definition kids_begun (h : hist) (i : nat) : nat := length (did (is_child i) h).
Definition is_local_create (i : nat) (op : top) : bool :=
  match op with TCreate (PSpan j) false _ _ _ _ _ => j =? i | _ => false end.
Definition kids_made (h : hist) (i : nat) : nat := length (did (is_local_create i) h).

(** The first End on span [i] came after [ha]. *)
Definition first_end (h : hist) (i : nat) (ha : hist) : Prop :=
  did (is_end i) ha = [] /\ exists out hb, h = ha ++ (TEnd (RSpan i), out) :: hb.

(** The data of span [i] was completed after [ha], at time [now]. *)
Definition completed (h : hist) (i : nat) (ha : hist) (now : time) : Prop :=
  exists o out hb, h = ha ++ (TSnap i o now, out) :: hb.

(** ** Span store *)

(** What happened to the store of a name, given the spans made. *)
Definition name_is (cs : list creation) (i : nat) (name : bytes) : bool :=
  match nth_error cs i with Some c => bytes_eqb (c_name c) name | None => false end.
(** The size a bucket gets: at most 100000, and not negative. *)
Definition size_given (n : Z) : nat := Z.to_nat (if (n <? 0)%Z then 0 else if (100000 <? n)%Z then 100000 else n)%Z.
Definition events_of (cs : list creation) (name : bytes) (h : hist) : list sev :=
  flat_map (fun x => match x with
                     | (TFinished i, [sd]) => if name_is cs i name then [SFin sd] else []
                     | (TConfigureBucket n suc err, _) => if bytes_eqb n name then [SSize (size_given suc) (size_given err)] else []
                     | _ => []
                     end) h.
Definition events (name : bytes) (h : hist) : list sev := events_of (creates h) name h.

(** Span [i] has been started under [name] and has not finished. *)
Definition active (h : hist) (name : bytes) (i : nat) : Prop :=
  name_is (creates h) i name = true /\ did (is_add i) h <> [] /\ did (is_fin i) h = [].
