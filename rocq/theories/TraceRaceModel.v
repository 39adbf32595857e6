(** Model of how the functions of package trace synchronise: which mutexes they lock, and which
    shared variables they read and write in between (trace/trace.go, spanstore.go, config.go,
    export.go).  Definitions only.

    A goroutine is a list of operations to come.  Any number of goroutines run; each may start
    any call when it is in none, and within ExportSpan.  Which branch a call takes is an
    argument of the call, so that the model has every combination of branches (more than the
    program has).  Values are not modelled here (SpanModel, SpanStoreModel, SpanAliasModel).
    config and exporters are atomic.Values whose contents are not changed after they are stored
    (config.go:66, 85; export.go:47-54, 62-69), and SpanData are not changed after makeSpanData
    and End (trace.go:291-292); they and new span stores (spanstore.go:197-207) are not shared
    variables here.  Samplers and IDGenerators of the program make no calls. *)

From Coq Require Import List Arith Bool.
From Verif Require Import Base AggModel.
Import ListNotations.
Open Scope nat_scope.

(** The sync.Onces: initOnce of the default IDGenerator (trace.go:554) and endOnce of span [s]
    (trace.go:65). *)
Inductive onc : Type := OInit | OEnd (s : nat).

(** The mutexes: exporterMu (export.go:37), configWriteMu (config.go:44), the one of the default
    IDGenerator (trace.go:538), ssmu (spanstore.go:30, an RWMutex), mu of the span store of a
    name (spanstore.go:189), mu of a span (trace.go:47), and the one inside a sync.Once. *)
Inductive lk : Type := LExp | LCfg | LGen | LStores | LStore (n : nat) | LSpan (s : nat) | LOnce (o : onc).

(** The shared variables: spanStores (spanstore.go:31), what the span store of a name holds
    (190-193), the pointers and the SpanContext of a span, set when it is created (trace.go:46,
    48-64), what its data, attributes and queues hold, its executionTracerTaskEnd (trace.go:67),
    the fields of the default IDGenerator (trace.go:548-552), and the state of its rand.Rand. *)
Inductive var : Type := VStores | VStore (n : nat) | VFix (s : nat) | VSpan (s : nat) | VTask (s : nat) | VGen | VRand.

(** What endOnce.Do runs (trace.go:287-302): whether the span has a store, and whether it is
    exported. *)
Inductive endv : Type := MkEnd (store : option nat) (export : bool).

(** One operation: Lock, Unlock, RLock, RUnlock; [Want] is the first half of Lock of an RWMutex,
    from which on new readers wait; a read, a write; [Once o v]: Do; [Check o v]: its second
    look at done, with the mutex held; [Done]: sets done; [Walk n]: the loop over the active
    spans of a store (spanstore.go:51-55); [Add], [Del]: change the active spans (278, 292);
    [Export]: within ExportSpan; [Ret s]: StartSpan returns span [s]. *)
Inductive op : Type :=
| Acq (k : lk) | Rel (k : lk) | RAcq (k : lk) | RRel (k : lk) | Want (k : lk)
| Rd (x : var) | Wr (x : var)
| Once (o : onc) (v : endv) | Check (o : onc) (v : endv) | Done (o : onc)
| Walk (n : nat) | Add (n s : nat) | Del (n s : nat) | Export | Ret (s : nat).

(** How a store is found: under the read lock, under the write lock, or not (spanstore.go:223-239,
    244-261). *)
Inductive path : Type := Found | Late | New.

(** What becomes of a new span: not recorded, recorded, or also put in the store of its name
    (trace.go:242-271). *)
Inductive kept : Type := KNone | KRec | KStore (n : nat) (p : path).

(** The calls.  [CStart]: StartSpan, with a parent in the context that records or not, and
    StartSpanWithRemoteParent (no parent); [gen]: the IDGenerator is the default one; [root]:
    it makes a TraceID.  [CMutate]: SetName, SetStatus, AddAttributes, Annotate, Annotatef,
    AddMessageSendEvent, AddMessageReceiveEvent, AddLink; [CString]; [CContext]: SpanContext,
    IsRecordingEvents.  [CConfig]: ApplyConfig; [CExporter]: RegisterExporter,
    UnregisterExporter.  The others are those of the z-pages (spanstore.go:43-181): [CActive]:
    ReportActiveSpans; [CSample]: ReportSpansByError, ReportSpansByLatency; [CMethods]:
    ReportSpansPerMethod; [CResize]: ConfigureBucketSizes. *)
Inductive call : Type :=
| CStart (parent : option (nat * bool)) (gen root : bool) (k : kept)
| CMutate (s : nat) (rec : bool) | CString (s : nat) (rec : bool) | CContext (s : nat)
| CEnd (s : nat) (v : option endv)
| CConfig | CExporter
| CActive (n : nat) (found : bool) | CSample (n : nat) (found : bool) | CMethods (ns : list nat)
| CResize (l : list (nat * path)).

(** A section of code with mutex [k] held. No code of its own (trace.go:344-346). *)
Definition locked (k : lk) (l : list op) : list op := Acq k :: l ++ [Rel k].

(** trace.go:307-329 [makeSpanData]. *)
Definition snapshot_ops (s : nat) : list op := locked (LSpan s) [Rd (VFix s); Wr (VSpan s)].

(** trace.go:340-509: the methods of a span that change it, and addChild (401-408): they look at
    s.data (IsRecordingEvents, trace.go:73-78), then lock the mutex of the span. *)
Definition mutate_ops (s : nat) (rec : bool) : list op :=
  Rd (VFix s) :: (if rec then locked (LSpan s) [Rd (VFix s); Wr (VSpan s)] else []).

(** trace.go:511-522 [String]. *)
Definition string_ops (s : nat) (rec : bool) : list op :=
  Rd (VFix s) :: (if rec then locked (LSpan s) [Rd (VFix s); Rd (VSpan s)] else []).

(** spanstore.go:212-218 [spanStoreForName]. *)
Definition find_ops : list op := [RAcq LStores; Rd VStores; RRel LStores].

(** spanstore.go:223-239 [spanStoreForNameCreateIfNew]. *)
Definition create_ops (p : path) : list op :=
  find_ops ++
  match p with
  | Found => []
  | Late => Want LStores :: locked LStores [Rd VStores]
  | New => Want LStores :: locked LStores [Rd VStores; Wr VStores]
  end.

(** spanstore.go:263-273 [resize]. *)
Definition resize_ops (n : nat) : list op := locked (LStore n) [Wr (VStore n)].

(** spanstore.go:244-261 [spanStoreSetSize]. *)
Definition setsize_ops (n : nat) (p : path) : list op :=
  find_ops ++
  match p with
  | Found => resize_ops n
  | Late => Want LStores :: locked LStores (Rd VStores :: resize_ops n)
  | New => Want LStores :: locked LStores [Rd VStores; Wr VStores]
  end.

(** trace.go:559-595: init, NewTraceID and NewSpanID of the default IDGenerator, as called at 217-225. *)
Definition gen_ops (gen root : bool) : list op :=
  if gen then
    Once OInit (MkEnd None false) ::
    (if root then locked LGen [Rd VGen; Wr VRand] else []) ++ [Rd VGen]
  else [].

(** trace.go:242-273: the rest of startSpanInternal, for span [s]. *)
Definition keep_ops (s : nat) (k : kept) : list op :=
  match k with
  | KNone => []
  | KRec => [Wr (VFix s); Wr (VSpan s)]
  | KStore n p => [Wr (VFix s); Wr (VSpan s)] ++ create_ops p ++ Wr (VFix s) :: locked (LStore n) [Add n s]
  end.

(** trace.go:173-191 [StartSpan], 200-210 [StartSpanWithRemoteParent], 212-274
    [startSpanInternal], for the new span [s]. *)
Definition start_ops (s : nat) (parent : option (nat * bool)) (gen root : bool) (k : kept) : list op :=
  match parent with Some (p, rec) => mutate_ops p rec ++ [Rd (VFix p)] | None => [] end ++
  Wr (VFix s) :: gen_ops gen root ++ Wr (VFix s) :: keep_ops s k ++ [Wr (VTask s); Ret s].

(** trace.go:287-302, spanstore.go:284-308 [finished]; for the IDGenerator, trace.go:560-570. *)
Definition once_body (o : onc) (v : endv) : list op :=
  match o, v with
  | OInit, _ => [Wr VGen]
  | OEnd s, MkEnd store export =>
      Rd (VFix s) ::
      (if match store with Some _ => true | None => export end then
         snapshot_ops s ++
         match store with Some n => locked (LStore n) [Del n s] | None => [] end ++
         (if export then [Export] else [])
       else [])
  end.

(** trace.go:277-303 [End]; [None]: the span does not record. *)
Definition end_ops (s : nat) (v : option endv) : list op :=
  [Rd (VTask s); Rd (VFix s)] ++ match v with Some b => [Once (OEnd s) b] | None => [] end.

(** All calls; [s] is the new span, if it is StartSpan.  (config.go:63-86; export.go:45-71;
    spanstore.go:43-181; trace.go:73-78, 332-337.) *)
Definition ops_of (s : nat) (c : call) : list op :=
  match c with
  | CStart parent gen root k => start_ops s parent gen root k
  | CMutate s' rec => mutate_ops s' rec
  | CString s' rec => string_ops s' rec
  | CContext s' => [Rd (VFix s')]
  | CEnd s' v => end_ops s' v
  | CConfig => locked LCfg []
  | CExporter => locked LExp []
  | CActive n found => find_ops ++ (if found then locked (LStore n) [Rd (VStore n); Walk n] else [])
  | CSample n found => find_ops ++ (if found then locked (LStore n) [Rd (VStore n)] else [])
  | CMethods ns =>
      RAcq LStores :: Rd VStores :: concat (map (fun n => locked (LStore n) [Rd (VStore n)]) ns) ++ [RRel LStores]
  | CResize l => concat (map (fun x => setsize_ops (fst x) (snd x)) l)
  end.

(** The spans a call is made on, or has as a parent. No code of its own (trace.go:173-522). *)
Definition spans_of (c : call) : list nat :=
  match c with
  | CStart (Some (p, _)) _ _ _ => [p]
  | CMutate s _ | CString s _ | CContext s | CEnd s _ => [s]
  | _ => []
  end.

(** No code of its own (comparison of sync.Onces, trace.go:65, 554). *)
Definition onc_eqb (a b : onc) : bool :=
  match a, b with OInit, OInit => true | OEnd x, OEnd y => x =? y | _, _ => false end.

(** No code of its own (comparison of mutexes, spanstore.go:30, 189). *)
Definition lk_eqb (a b : lk) : bool :=
  match a, b with
  | LExp, LExp | LCfg, LCfg | LGen, LGen | LStores, LStores => true
  | LStore x, LStore y | LSpan x, LSpan y => x =? y
  | LOnce x, LOnce y => onc_eqb x y
  | _, _ => false
  end.

(** The goroutines, who has locked, read-locked and announced to lock each mutex, which Onces are
    done, the active spans of each store, the spans that StartSpan has returned, and the number
    of spans so far.  (spanstore.go:29-32, 189-190; trace.go:40-68.) *)
Record rst : Type := MkR {
  r_ths : list (list op); r_w : lk -> option nat; r_r : lk -> list nat; r_p : lk -> list nat;
  r_done : onc -> bool; r_active : nat -> list nat; r_pub : nat -> bool; r_next : nat }.

(** What goroutine [t] still has to do. No code of its own (trace.go:173-522). *)
Definition ops_at (s : rst) (t : nat) : list op := nth t (r_ths s) [].
(** No code of its own (trace.go:173-522). *)
Definition set_ops (s : rst) (t : nat) (l : list op) : rst :=
  MkR (upd (r_ths s) t (fun _ => l)) (r_w s) (r_r s) (r_p s) (r_done s) (r_active s) (r_pub s) (r_next s).
(** No code of its own (sync.Mutex, spanstore.go:30, 189). *)
Definition setk {A} (f : lk -> A) (k : lk) (a : A) : lk -> A := fun x => if lk_eqb x k then a else f x.
(** No code of its own (maps, spanstore.go:31, 190). *)
Definition setn {A} (f : nat -> A) (n : nat) (a : A) : nat -> A := fun x => if x =? n then a else f x.
(** Takes one [t] out of a list. No code of its own (spanstore.go:226, 292). *)
Fixpoint drop1 (t : nat) (l : list nat) : list nat :=
  match l with [] => [] | x :: r => if x =? t then r else x :: drop1 t r end.
(** Whether one list is the other in another order: Go loops over a map in any order
    (spanstore.go:51). *)
Fixpoint permb (l m : list nat) : bool :=
  match l with
  | [] => match m with [] => true | _ => false end
  | x :: r => existsb (Nat.eqb x) m && permb r (drop1 x m)
  end.

(** The scheduler: goroutine [t] makes a call, goes on, or starts to loop over the active spans
    in order [l].  No code of its own (trace.go:173-522; spanstore.go:51). *)
Inductive pick : Type := PBegin (t : nat) (c : call) | PRun (t : nat) | PWalk (t : nat) (l : list nat).

(** The operation goroutine [t] has come to, and those after it: what it does (Go memory model,
    package sync: RLock waits for writers that hold the mutex or wait for it). [None] if it is not
    possible.  (trace.go:173-522; spanstore.go:43-308.) *)
Definition run_op (s : rst) (t : nat) (o : op) (r : list op) : option rst :=
  let s1 := set_ops s t r in
  match o with
  | Acq k =>
      match r_w s k, r_r s k with
      | None, [] => Some (MkR (r_ths s1) (setk (r_w s) k (Some t)) (r_r s) (setk (r_p s) k (drop1 t (r_p s k)))
                            (r_done s) (r_active s) (r_pub s) (r_next s))
      | _, _ => None
      end
  | Rel k => Some (MkR (r_ths s1) (setk (r_w s) k None) (r_r s) (r_p s) (r_done s) (r_active s) (r_pub s) (r_next s))
  | RAcq k =>
      match r_w s k, r_p s k with
      | None, [] => Some (MkR (r_ths s1) (r_w s) (setk (r_r s) k (t :: r_r s k)) (r_p s) (r_done s) (r_active s) (r_pub s) (r_next s))
      | _, _ => None
      end
  | RRel k => Some (MkR (r_ths s1) (r_w s) (setk (r_r s) k (drop1 t (r_r s k))) (r_p s) (r_done s) (r_active s) (r_pub s) (r_next s))
  | Want k => Some (MkR (r_ths s1) (r_w s) (r_r s) (setk (r_p s) k (t :: r_p s k)) (r_done s) (r_active s) (r_pub s) (r_next s))
  | Rd _ | Wr _ | Export => Some s1
  | Once o v => Some (if r_done s o then s1 else set_ops s t (locked (LOnce o) [Check o v] ++ r))
  | Check o v => Some (if r_done s o then s1 else set_ops s t (once_body o v ++ Done o :: r))
  | Done o =>
      Some (MkR (r_ths s1) (r_w s) (r_r s) (r_p s) (fun x => if onc_eqb x o then true else r_done s x)
              (r_active s) (r_pub s) (r_next s))
  | Walk _ => None
  | Add n x =>
      Some (MkR (r_ths s1) (r_w s) (r_r s) (r_p s) (r_done s) (setn (r_active s) n (x :: r_active s n)) (r_pub s) (r_next s))
  | Del n x =>
      Some (MkR (r_ths s1) (r_w s) (r_r s) (r_p s) (r_done s) (setn (r_active s) n (drop1 x (r_active s n))) (r_pub s) (r_next s))
  | Ret x =>
      Some (MkR (r_ths s1) (r_w s) (r_r s) (r_p s) (r_done s) (r_active s) (setn (r_pub s) x true) (r_next s))
  end.

(** A goroutine may make a call if it is in none, or in ExportSpan. (trace.go:296-300.) *)
Definition free (l : list op) : bool := match l with [] => true | Export :: _ => true | _ => false end.

(** One step of the program; [None] if it is not possible.  Calls are made on spans that StartSpan
    has returned.  (trace.go:173-522; spanstore.go:43-308.) *)
Definition rstep (s : rst) (p : pick) : option rst :=
  match p with
  | PBegin t c =>
      if (t <? length (r_ths s)) && free (ops_at s t) && forallb (r_pub s) (spans_of c) then
        let s1 := set_ops s t (ops_of (r_next s) c ++ ops_at s t) in
        Some (MkR (r_ths s1) (r_w s) (r_r s) (r_p s) (r_done s) (r_active s) (r_pub s) (S (r_next s)))
      else None
  | PRun t => match ops_at s t with [] => None | o :: r => run_op s t o r end
  | PWalk t l =>
      match ops_at s t with
      | Walk n :: r => if permb l (r_active s n) then Some (set_ops s t (concat (map snapshot_ops l) ++ r)) else None
      | _ => None
      end
  end.

(** [n] goroutines in no call (trace.go:526-535, spanstore.go:29-32). *)
Definition rinit (n : nat) : rst :=
  MkR (repeat [] n) (fun _ => None) (fun _ => []) (fun _ => []) (fun _ => false) (fun _ => []) (fun _ => false) 0.

(** Runs. No code of its own (trace.go:173-522). *)
Inductive rsteps : rst -> list pick -> rst -> Prop :=
| rsteps_nil s : rsteps s [] s
| rsteps_cons s p s1 l s' : rstep s p = Some s1 -> rsteps s1 l s' -> rsteps s (p :: l) s'.

(** Runs a schedule. No code of its own (trace.go:173-522). *)
Fixpoint rexec (s : rst) (l : list pick) : option rst :=
  match l with [] => Some s | p :: r => match rstep s p with Some s1 => rexec s1 r | None => None end end.
