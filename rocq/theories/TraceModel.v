(** Model of package trace: samplers, configuration, the bounded queues and the LRU
    map of a span, spans and their data.  trace/sampling.go, trace/config.go,
    trace/evictedqueue.go, trace/lrumap.go, trace/basetypes.go, trace/export.go,
    trace/trace.go.  Definitions only.  The tracer as a whole is in TracerModel. *)

From Coq Require Import List NArith ZArith Bool.
From Coq Require Import Floats.SpecFloat.
From Verif Require Import Base GoMap Float64 TraceTypes.
Import ListNotations.
Open Scope nat_scope.

(** ** Samplers *)

(** trace/sampling.go:27-33 [SamplingParameters]. *)
Record sparams : Type := MkSP {
  sp_parent : span_context;
  sp_trace_id : bytes;
  sp_span_id : bytes;
  sp_name : bytes;
  sp_remote : bool }.

(** trace/sampling.go:24 [Sampler]; 36-38 [SamplingDecision] is its one field. *)
Notation sampler := (sparams -> bool).

(** trace/sampling.go:64-68 [AlwaysSample]. *)
Definition always_sample : sampler := fun _ => true.
(** trace/sampling.go:71-75 [NeverSample]. *)
Definition never_sample : sampler := fun _ => false.

(** encoding/binary BigEndian.Uint64. Used at trace/sampling.go:55. *)
Fixpoint be_value (b : bytes) : N :=
  match b with
  | [] => 0%N
  | x :: r => (b2n x * 256 ^ N.of_nat (length r) + be_value r)%N
  end.

(** Conversion float64 -> uint64 of a number in range: truncation. (Out of range the result
    is implementation-defined; see the caller.) (trace/sampling.go:50.) *)
Definition f_to_uint64 (x : f64) : N :=
  match x with
  | S754_finite false m e => Z.to_N (if (0 <=? e)%Z then Zpos m * 2 ^ e else Zpos m / 2 ^ (- e))%Z
  | _ => 0%N
  end.

(** The constants 1 and 1<<63 as float64. (trace/sampling.go:46, 50.) *)
Definition f_one : f64 := S754_finite false 4503599627370496 (-52).
(** As above (trace/sampling.go:50). *)
Definition f_two63 : f64 := S754_finite false 4503599627370496 11.

(** Go's >= on floats: false for NaN. Used at trace/sampling.go:44-46. *)
Definition f_geb (x y : f64) : bool := f_ltb y x || f_eqb x y.

(** trace/sampling.go:43-58 [ProbabilitySampler].  The conversion is only reached
    for 0 <= fraction < 1, so that fraction*(1<<63) < 1<<63. *)
Definition probability_sampler (fraction : f64) : sampler :=
  let clamped := if negb (f_geb fraction f_zero) then f_zero else fraction in
  if f_geb fraction f_zero && f_geb fraction f_one then always_sample
  else
    let upper := f_to_uint64 (f_mul clamped f_two63) in
    fun p =>
      if is_sampled (sp_parent p) then true
      else (be_value (firstn 8 (sp_trace_id p)) / 2 <? upper)%N.

(** ** Configuration *)

(** trace/config.go:24-42 [Config].  An ID generator is known by a number; its
    results are inputs of the model. *)
Record config : Type := MkCfg {
  cf_sampler : sampler;
  cf_gen : nat;
  cf_annots : Z;
  cf_msgs : Z;
  cf_attrs : Z;
  cf_links : Z }.

(** The argument of ApplyConfig: nil sampler and generator are [None].
    (trace/config.go:63-86.) *)
Record config_arg : Type := MkCA {
  ca_sampler : option sampler;
  ca_gen : option nat;
  ca_annots : Z;
  ca_msgs : Z;
  ca_attrs : Z;
  ca_links : Z }.

(** trace/sampling.go:21: 1e-4. *)
Definition f_1em4 : f64 := S754_finite false 7378697629483821 (-66).

(** trace/trace.go:526-535 init, trace/config.go:46-58. *)
Definition default_config : config := MkCfg (probability_sampler f_1em4) 0 32 128 32 32.

(** The four tests at trace/config.go:73-84. *)
Definition pos_or (new old : Z) : Z := if (0 <? new)%Z then new else old.

(** trace/config.go:63-86 [ApplyConfig]. *)
Definition apply_config (c : config) (a : config_arg) : config :=
  MkCfg (match ca_sampler a with Some s => s | None => cf_sampler c end)
        (match ca_gen a with Some g => g | None => cf_gen c end)
        (pos_or (ca_annots a) (cf_annots c))
        (pos_or (ca_msgs a) (cf_msgs c))
        (pos_or (ca_attrs a) (cf_attrs c))
        (pos_or (ca_links a) (cf_links c)).

(** ** Bounded queues *)

(** trace/evictedqueue.go:17-21 [evictedQueue].  The dropped count does not wrap. *)
Record equeue (A : Type) : Type := MkEQ { eq_items : list A; eq_cap : Z; eq_dropped : nat }.
Arguments MkEQ {A}. Arguments eq_items {A}. Arguments eq_cap {A}. Arguments eq_dropped {A}.

(** trace/evictedqueue.go:23-30 [newEvictedQueue]. *)
Definition new_equeue {A} (cap : Z) : equeue A := MkEQ [] cap 0.

(** trace/evictedqueue.go:32-38 [add]; [None]: slicing an empty queue panics. *)
Definition eq_add {A} (q : equeue A) (v : A) : option (equeue A) :=
  if (Z.of_nat (length (eq_items q)) =? eq_cap q)%Z then
    match eq_items q with
    | [] => None
    | _ :: r => Some (MkEQ (r ++ [v]) (eq_cap q) (S (eq_dropped q)))
    end
  else Some (MkEQ (eq_items q ++ [v]) (eq_cap q) (eq_dropped q)).

(** ** LRU map *)

(** Attribute values: trace/basetypes.go:62-80. *)
Inductive attr : Type := AvBool (b : bool) | AvInt (n : Z) | AvFloat (x : f64) | AvStr (s : bytes).

(** trace/lrumap.go:23-27 [lruMap].  [lm_keys] is the set cacheKeys; [lm_cache] the
    list of groupcache/lru, most recently used first; [lm_max] its MaxEntries. *)
Record lrumap : Type := MkLM {
  lm_keys : list (bytes * bool);
  lm_cache : list (bytes * attr);
  lm_max : Z;
  lm_dropped : nat }.

(** trace/lrumap.go:29-40 [newLruMap]. *)
Definition new_lrumap (size : Z) : lrumap := MkLM [] [] size 0.

(** groupcache/lru Cache.Add (not part of the repository): an existing key moves to
    the front and gets the new value; a new key is put in front, and the last one is
    evicted if there are more than MaxEntries (0: no limit).  OnEvicted is
    trace/lrumap.go:35-38.  [lm_add] is trace/lrumap.go:54-57. *)
Definition lm_add (m : lrumap) (k : bytes) (v : attr) : lrumap :=
  let keys := mset bytes_eqb (lm_keys m) k true in
  match mget bytes_eqb (lm_cache m) k with
  | Some _ => MkLM keys ((k, v) :: mdel bytes_eqb (lm_cache m) k) (lm_max m) (lm_dropped m)
  | None =>
      let cache := (k, v) :: lm_cache m in
      if negb (lm_max m =? 0)%Z && (lm_max m <? Z.of_nat (length cache))%Z then
        match rev cache with
        | [] => MkLM keys cache (lm_max m) (lm_dropped m)
        | (old, _) :: r => MkLM (mdel bytes_eqb keys old) (rev r) (lm_max m) (S (lm_dropped m))
        end
      else MkLM keys cache (lm_max m) (lm_dropped m)
  end.

(** groupcache/lru Cache.Get, trace/lrumap.go:59-61 [get]: moves the key to the front. *)
Definition lm_get (m : lrumap) (k : bytes) : option attr * lrumap :=
  match mget bytes_eqb (lm_cache m) k with
  | Some v => (Some v, MkLM (lm_keys m) ((k, v) :: mdel bytes_eqb (lm_cache m) k) (lm_max m) (lm_dropped m))
  | None => (None, m)
  end.

(** trace/trace.go:383-393 [lruAttributesToAttributeMap]; [ks] is the order in which
    keys() ranges over cacheKeys. *)
Fixpoint lm_to_map (m : lrumap) (ks : list bytes) (acc : list (bytes * attr)) : list (bytes * attr) * lrumap :=
  match ks with
  | [] => (acc, m)
  | k :: r =>
      match lm_get m k with
      | (Some v, m') => lm_to_map m' r (mset bytes_eqb acc k v)
      | (None, m') => lm_to_map m' r acc
      end
  end.

(** ** Span data *)

(** time.Time as nanoseconds since 1970; the zero Time is 0001-01-01. *)
Notation time := Z.
(** The EndTime of a span that has not ended (trace/export.go:74-98). *)
Definition zero_time : time := (-62135596800000000000)%Z.

(** time.Time.Sub: saturates. Used at trace/spanstore.go:169, 285. *)
Definition time_sub (a b : time) : Z := Z.max (- 2 ^ 63) (Z.min (2 ^ 63 - 1) (a - b)).

(** trace/basetypes.go:39-43 [Annotation]; the attributes are a map or nil. *)
Record annotation : Type := MkAn { an_time : time; an_msg : bytes; an_attrs : option (list (bytes * attr)) }.

(** trace/basetypes.go:113-119 [MessageEvent]; [me_sent]: the event type. *)
Record msgevent : Type := MkME { me_time : time; me_sent : bool; me_id : Z; me_uncompressed : Z; me_compressed : Z }.

(** trace/basetypes.go:94-100 [Link].  The attribute map is a value here: in Go the
    caller keeps a reference to it. *)
Record link : Type := MkLnk { ln_trace : bytes; ln_span : bytes; ln_type : Z; ln_attrs : list (bytes * attr) }.

(** trace/export.go:74-98 [SpanData]; the status is its code and message. *)
Record sdata : Type := MkSD {
  sd_context : span_context;
  sd_parent : bytes;
  sd_kind : Z;
  sd_name : bytes;
  sd_start : time;
  sd_end : time;
  sd_attrs : list (bytes * attr);
  sd_annots : list annotation;
  sd_msgs : list msgevent;
  sd_status : Z * bytes;
  sd_links : list link;
  sd_remote : bool;
  sd_dropped_attrs : nat;
  sd_dropped_annots : nat;
  sd_dropped_msgs : nat;
  sd_dropped_links : nat;
  sd_children : nat }.

(** What a recording span collects: data, lruAttributes, annotations, messageEvents
    and links of trace/trace.go:40-68; they are set together, or none of them. *)
Record recording : Type := MkRec {
  r_data : sdata;
  r_attrs : lrumap;
  r_annots : equeue annotation;
  r_msgs : equeue msgevent;
  r_links : equeue link }.

(** ** Updates of a recording span *)

(** The setters of trace/trace.go.  [USetAttrs]: AddAttributes; [UAnnotate]: Annotate
    and Annotatef, with the formatted message and the clock; [UMsg]: the two
    AddMessage...Event methods. *)
Inductive supd : Type :=
| USetName (n : bytes)
| USetStatus (code : Z) (msg : bytes)
| USetAttrs (l : list (bytes * attr))
| UAnnotate (now : time) (l : list (bytes * attr)) (msg : bytes)
| UMsg (now : time) (sent : bool) (id uncompressed compressed : Z)
| ULink (l : link).

(** No code of its own (trace/trace.go:345, 355, 406). *)
Definition set_data (r : recording) (d : sdata) : recording :=
  MkRec d (r_attrs r) (r_annots r) (r_msgs r) (r_links r).

(** trace/trace.go:424-430: the attribute map of an annotation, nil for none. *)
Definition annot_attrs (l : list (bytes * attr)) : option (list (bytes * attr)) :=
  match l with
  | [] => None
  | _ => Some (fold_left (fun m kv => mset bytes_eqb m (fst kv) (snd kv)) l [])
  end.

(** trace/trace.go:340-347, 350-357, 395-399 and 413-420, 422-455, 463-499, 502-509.
    [None] is a panic. *)
Definition rec_update (r : recording) (u : supd) : option recording :=
  let d := r_data r in
  match u with
  | USetName n =>
      Some (set_data r (MkSD (sd_context d) (sd_parent d) (sd_kind d) n (sd_start d) (sd_end d) (sd_attrs d) (sd_annots d)
        (sd_msgs d) (sd_status d) (sd_links d) (sd_remote d) (sd_dropped_attrs d) (sd_dropped_annots d) (sd_dropped_msgs d)
        (sd_dropped_links d) (sd_children d)))
  | USetStatus c m =>
      Some (set_data r (MkSD (sd_context d) (sd_parent d) (sd_kind d) (sd_name d) (sd_start d) (sd_end d) (sd_attrs d) (sd_annots d)
        (sd_msgs d) (c, m) (sd_links d) (sd_remote d) (sd_dropped_attrs d) (sd_dropped_annots d) (sd_dropped_msgs d)
        (sd_dropped_links d) (sd_children d)))
  | USetAttrs l =>
      Some (MkRec d (fold_left (fun m kv => lm_add m (fst kv) (snd kv)) l (r_attrs r)) (r_annots r) (r_msgs r) (r_links r))
  | UAnnotate now l msg =>
      match eq_add (r_annots r) (MkAn now msg (annot_attrs l)) with
      | Some q => Some (MkRec d (r_attrs r) q (r_msgs r) (r_links r))
      | None => None
      end
  | UMsg now sent id un co =>
      match eq_add (r_msgs r) (MkME now sent id un co) with
      | Some q => Some (MkRec d (r_attrs r) (r_annots r) q (r_links r))
      | None => None
      end
  | ULink l =>
      match eq_add (r_links r) l with
      | Some q => Some (MkRec d (r_attrs r) (r_annots r) (r_msgs r) q)
      | None => None
      end
  end.

(** trace/trace.go:401-408 [addChild], called by StartSpan. *)
Definition rec_add_child (r : recording) : recording :=
  let d := r_data r in
  set_data r (MkSD (sd_context d) (sd_parent d) (sd_kind d) (sd_name d) (sd_start d) (sd_end d) (sd_attrs d) (sd_annots d)
    (sd_msgs d) (sd_status d) (sd_links d) (sd_remote d) (sd_dropped_attrs d) (sd_dropped_annots d) (sd_dropped_msgs d)
    (sd_dropped_links d) (S (sd_children d))).

(** trace/trace.go:307-329 [makeSpanData]; [o] is the order of keys().  Reading the
    attributes reorders the LRU list. *)
Definition make_span_data (o : order) (r : recording) : sdata * recording :=
  let d := r_data r in
  let '(attrs, dattrs, lm) :=
    match lm_cache (r_attrs r) with
    | [] => (sd_attrs d, sd_dropped_attrs d, r_attrs r)
    | _ => let '(m, lm) := lm_to_map (r_attrs r) (ord o _ (mkeys (lm_keys (r_attrs r)))) [] in
           (m, lm_dropped (r_attrs r), lm)
    end in
  let q {A} (q : equeue A) (l : list A) (n : nat) := match eq_items q with [] => (l, n) | l' => (l', eq_dropped q) end in
  let '(an, dan) := q (r_annots r) (sd_annots d) (sd_dropped_annots d) in
  let '(me, dme) := q (r_msgs r) (sd_msgs d) (sd_dropped_msgs d) in
  let '(ln, dln) := q (r_links r) (sd_links d) (sd_dropped_links d) in
  (MkSD (sd_context d) (sd_parent d) (sd_kind d) (sd_name d) (sd_start d) (sd_end d) attrs an me (sd_status d) ln (sd_remote d)
        dattrs dan dme dln (sd_children d),
   MkRec d lm (r_annots r) (r_msgs r) (r_links r)).

(** trace/trace.go:292. *)
Definition with_end (d : sdata) (t : time) : sdata :=
  MkSD (sd_context d) (sd_parent d) (sd_kind d) (sd_name d) (sd_start d) t (sd_attrs d) (sd_annots d) (sd_msgs d) (sd_status d)
       (sd_links d) (sd_remote d) (sd_dropped_attrs d) (sd_dropped_annots d) (sd_dropped_msgs d) (sd_dropped_links d) (sd_children d).

(** ** Starting a span *)

(** trace/trace.go:134-148 [StartOptions]; a sampler may be nil. *)
Record sopts : Type := MkSO { so_sampler : option sampler; so_kind : Z }.
(** trace/trace.go:150-166 [StartOption]. *)
Inductive sopt : Type := WithSampler (s : option sampler) | WithSpanKind (k : Z).
(** trace/trace.go:154-166, the functions returned. *)
Definition apply_sopt (o : sopts) (x : sopt) : sopts :=
  match x with
  | WithSampler s => MkSO s (so_kind o)
  | WithSpanKind k => MkSO (so_sampler o) k
  end.
(** trace/trace.go:182-184, 201-204. *)
Definition start_options (xs : list sopt) : sopts := fold_left apply_sopt xs (MkSO None 0).

(** trace/trace.go:89-95 [setIsSampled] on a uint32. *)
Definition set_is_sampled (sc : span_context) (b : bool) : span_context :=
  MkSC (sc_trace_id sc) (sc_span_id sc)
       (if b then N.lor (sc_options sc) 1 else N.land (sc_options sc) (2 ^ 32 - 2)) (sc_tracestate sc).

(** trace/trace.go:212-243 [startSpanInternal] up to the span store.  [tid], [sid]:
    what the ID generator returns; [enabled]: internal.LocalSpanStoreEnabled. *)
Definition start_context (cfg : config) (has_parent : bool) (parent : span_context) (remote : bool) (name : bytes)
                         (o : sopts) (tid sid : bytes) : span_context :=
  let sc := MkSC (if has_parent then sc_trace_id parent else tid) sid (sc_options parent) (sc_tracestate parent) in
  if negb has_parent || remote || match so_sampler o with Some _ => true | None => false end then
    let s := match so_sampler o with Some s => s | None => cf_sampler cfg end in
    set_is_sampled sc (s (MkSP parent (sc_trace_id sc) (sc_span_id sc) name remote))
  else sc.

(** trace/trace.go:245-263, of startSpanInternal. *)
Definition start_recording (cfg : config) (has_parent : bool) (parent : span_context) (remote : bool) (name : bytes)
                           (o : sopts) (now : time) (sc : span_context) : recording :=
  MkRec (MkSD sc (if has_parent then sc_span_id parent else zero_span_id) (so_kind o) name now zero_time [] [] [] (0%Z, []) []
              remote 0 0 0 0 0)
        (new_lrumap (cf_attrs cfg)) (new_equeue (cf_annots cfg)) (new_equeue (cf_msgs cfg)) (new_equeue (cf_links cfg)).
