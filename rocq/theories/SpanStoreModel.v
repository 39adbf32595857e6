(** Model of the local span store: trace/spanbucket.go and trace/spanstore.go.
    Definitions only.  Spans are known by number; which store belongs to a name is
    in TracerModel. *)

From Coq Require Import List ZArith Bool.
From Verif Require Import Base GoMap TraceTypes TraceModel.
Import ListNotations.
Open Scope nat_scope.

(** trace/spanbucket.go:22. *)
Definition sample_period : Z := 1000000000%Z.

(** trace/spanbucket.go:26-35 [defaultLatencies], in nanoseconds. *)
Definition default_latencies : list Z :=
  [10000; 100000; 1000000; 10000000; 100000000; 1000000000; 10000000000; 60000000000]%Z.

(** trace/spanbucket.go:38-43 [bucket]. *)
Record bucket : Type := MkB {
  b_next : time;
  b_buf : list (option sdata);
  b_idx : nat;
  b_over : bool }.

(** trace/spanbucket.go:45-49 [makeBucket]. *)
Definition make_bucket (n : nat) : bucket := MkB zero_time (repeat None n) 0 false.

(** a[i] = x; [None] is an out-of-range panic. (trace/spanbucket.go:60.) *)
Definition set_at {A} (l : list A) (i : nat) (x : A) : option (list A) :=
  if i <? length l then Some (firstn i l ++ x :: skipn (S i) l) else None.

(** trace/spanbucket.go:52-66 [add]. *)
Definition b_add (b : bucket) (s : sdata) : option bucket :=
  if (sd_end s <? b_next b)%Z then Some b
  else if length (b_buf b) =? 0 then Some b
  else match set_at (b_buf b) (b_idx b) (Some s) with
       | None => None
       | Some buf =>
           let next := (sd_end s + sample_period)%Z in
           if S (b_idx b) =? length buf then Some (MkB next buf 0 true)
           else Some (MkB next buf (S (b_idx b)) (b_over b))
       end.

(** trace/spanbucket.go:69-74 [size]. *)
Definition b_size (b : bucket) : nat := if b_over b then length (b_buf b) else b_idx b.

(** trace/spanbucket.go:77-85 [span]; the outer [None] is a panic. *)
Definition b_span (b : bucket) (i : nat) : option (option sdata) :=
  if negb (b_over b) then nth_error (b_buf b) i
  else if i <? length (b_buf b) - b_idx b then nth_error (b_buf b) (b_idx b + i)
  else if b_idx b + i <? length (b_buf b) then None   (* negative index *)
  else nth_error (b_buf b) (b_idx b + i - length (b_buf b)).

(** A loop filling a slice with results that may panic. (trace/spanbucket.go:92-94, 100-102.) *)
Fixpoint all_some {A} (l : list (option A)) : option (list A) :=
  match l with
  | [] => Some []
  | None :: _ => None
  | Some x :: r => match all_some r with Some r' => Some (x :: r') | None => None end
  end.

(** trace/spanbucket.go:88-106 [resize]. *)
Definition b_resize (b : bucket) (n : nat) : option bucket :=
  let cur := b_size b in
  if cur <? n then
    match all_some (map (b_span b) (seq 0 cur)) with
    | Some l => Some (MkB (b_next b) (l ++ repeat None (n - cur)) cur false)
    | None => None
    end
  else
    match all_some (map (fun i => b_span b (i + cur - n)) (seq 0 n)) with
    | Some l => Some (MkB (b_next b) l 0 true)
    | None => None
    end.

(** trace/spanbucket.go:110-113: the loop. *)
Fixpoint latency_from (ls : list Z) (latency : Z) : nat :=
  match ls with
  | [] => 0
  | l :: r => if (l <=? latency)%Z then S (latency_from r latency) else 0
  end.
(** trace/spanbucket.go:109-115 [latencyBucket]. *)
Definition latency_bucket (latency : Z) : nat := latency_from default_latencies latency.

(** trace/spanbucket.go:122-130 [latencyBucketBounds]. *)
Definition latency_bounds (i : nat) : Z * Z :=
  if i =? 0 then (0%Z, nth i default_latencies 0%Z)
  else if i =? length default_latencies then (nth (i - 1) default_latencies 0%Z, (2 ^ 63 - 1)%Z)
  else (nth (i - 1) default_latencies 0%Z, nth i default_latencies 0%Z).

(** trace/spanstore.go:188-194 [spanStore]. *)
Record store : Type := MkSt {
  st_active : list (nat * unit);
  st_errors : list (Z * bucket);
  st_latency : list bucket;
  st_maxerr : nat }.

(** trace/spanstore.go:197-207 [newSpanStore]. *)
Definition new_store (lat err : nat) : store :=
  MkSt [] [] (repeat (make_bucket lat) (S (length default_latencies))) err.

(** trace/spanstore.go:26. *)
Definition default_bucket_size : nat := 10.
(** trace/spanstore.go:25. *)
Definition max_bucket_size : Z := 100000%Z.

(** trace/spanstore.go:276-280 [add]. *)
Definition st_add (s : store) (i : nat) : store :=
  MkSt (mset Nat.eqb (st_active s) i tt) (st_errors s) (st_latency s) (st_maxerr s).

(** trace/spanstore.go:284-308 [finished]; [None] is a panic. *)
Definition st_finished (s : store) (i : nat) (sd : sdata) : option store :=
  let d := time_sub (sd_end sd) (sd_start sd) in
  let latency := if (d <? 0)%Z then 0%Z else d in
  let code := fst (sd_status sd) in
  let active := mdel Nat.eqb (st_active s) i in
  if (code =? 0)%Z then
    match nth_error (st_latency s) (latency_bucket latency) with
    | None => None
    | Some b =>
        match b_add b sd with
        | None => None
        | Some b' =>
            match set_at (st_latency s) (latency_bucket latency) b' with
            | None => None
            | Some l => Some (MkSt active (st_errors s) l (st_maxerr s))
            end
        end
    end
  else
    let b := match mget Z.eqb (st_errors s) code with Some b => b | None => make_bucket (st_maxerr s) end in
    match b_add b sd with
    | None => None
    | Some b' => Some (MkSt active (mset Z.eqb (st_errors s) code b') (st_latency s) (st_maxerr s))
    end.

(** trace/spanstore.go:263-273 [resize]. *)
Definition st_resize (s : store) (lat err : nat) : option store :=
  match all_some (map (fun b => b_resize b lat) (st_latency s)),
        all_some (map (fun kb => match b_resize (snd kb) err with Some b => Some (fst kb, b) | None => None end) (st_errors s)) with
  | Some l, Some e => Some (MkSt (st_active s) e l err)
  | _, _ => None
  end.

(** The loops of the reports over a buffer: up to the first nil. (trace/spanstore.go:72-77,
    81-86, 164-167.) *)
Fixpoint until_nil (l : list (option sdata)) : list sdata :=
  match l with
  | Some x :: r => x :: until_nil r
  | _ => []
  end.

(** trace/spanstore.go:62-90 [ReportSpansByError]; [o]: the order of the map. *)
Definition st_by_error (o : order) (s : store) (code : Z) : list sdata :=
  if negb (code =? 0)%Z then
    match mget Z.eqb (st_errors s) code with
    | Some b => until_nil (b_buf b)
    | None => []
    end
  else flat_map (fun kb => until_nil (b_buf (snd kb))) (ord o _ (st_errors s)).

(** trace/spanstore.go:168-176: is a span in the range? *)
Definition lat_match (lo hi : Z) (sd : sdata) : bool :=
  if negb (lo =? 0)%Z || negb (hi =? 0)%Z then
    let d := time_sub (sd_end sd) (sd_start sd) in
    if (d <? lo)%Z then false
    else negb (negb (hi =? 0)%Z && (hi <? d)%Z)
  else true.
(** trace/spanstore.go:156-179: the loop over the buckets. *)
Fixpoint by_latency (i total : nat) (bs : list bucket) (lo hi : Z) : list sdata :=
  match bs with
  | [] => []
  | b :: r =>
      let '(mn, mx) := latency_bounds i in
      (if (negb (S i =? total) && (mx <=? lo)%Z) || (negb (hi =? 0)%Z && (hi <? mn)%Z) then []
       else filter (lat_match lo hi) (until_nil (b_buf b)))
      ++ by_latency (S i) total r lo hi
  end.
(** trace/spanstore.go:148-181 [ReportSpansByLatency]. *)
Definition st_by_latency (s : store) (lo hi : Z) : list sdata :=
  by_latency 0 (length (st_latency s)) (st_latency s) lo hi.

(** trace/spanstore.go:115-142 [ReportSpansPerMethod], for one name: number of active
    spans, sizes of the error buckets, bounds and sizes of the latency buckets. *)
Definition st_summary (o : order) (s : store) : nat * list (Z * nat) * list (Z * Z * nat) :=
  (length (st_active s),
   map (fun kb => (fst kb, b_size (snd kb))) (ord o _ (st_errors s)),
   map (fun ib => (fst (latency_bounds (fst ib)), snd (latency_bounds (fst ib)), b_size (snd ib)))
       (combine (seq 0 (length (st_latency s))) (st_latency s))).

(** trace/spanstore.go:94-112: the sizes of a BucketConfiguration. *)
Definition clamp_size (n : Z) : nat := Z.to_nat (Z.min max_bucket_size (Z.max 0 n)).
