(** What users of the span store rely on: a bucket keeps the newest of the spans it
    accepted. *)

From Coq Require Import List Arith ZArith Bool.
From Verif Require Import Base GoMap TraceTypes TraceModel SpanStoreModel.
Import ListNotations.
Open Scope nat_scope.

Definition lastn {A} (n : nat) (l : list A) : list A := skipn (length l - n) l.

(** A bucket: its capacity, its spans (oldest first), and the time before which it
    accepts no span. *)
Record abucket : Type := MkAB { ab_cap : nat; ab_items : list sdata; ab_next : time }.

Definition ab_init (n : nat) : abucket := MkAB n [] zero_time.

(** Offering a span, changing the capacity. *)
Inductive bev : Type := BOffer (sd : sdata) | BResize (n : nat).

Definition accepts (b : abucket) (sd : sdata) : bool := (ab_next b <=? sd_end sd)%Z && negb (ab_cap b =? 0).

Definition ab_step (b : abucket) (e : bev) : abucket :=
  match e with
  | BOffer sd =>
      if accepts b sd then MkAB (ab_cap b) (lastn (ab_cap b) (ab_items b ++ [sd])) (sd_end sd + 1000000000)%Z else b
  | BResize n => MkAB n (lastn n (ab_items b)) (ab_next b)
  end.

Definition ab_run (n : nat) (es : list bev) : abucket := fold_left ab_step es (ab_init n).

(** The model's bucket run on the same events. *)
Definition b_step (b : bucket) (e : bev) : option bucket :=
  match e with BOffer sd => b_add b sd | BResize n => b_resize b n end.
Fixpoint b_run (b : bucket) (es : list bev) : option bucket :=
  match es with
  | [] => Some b
  | e :: r => match b_step b e with Some b' => b_run b' r | None => None end
  end.

(** What a bucket holds, through its own accessors. *)
Definition b_contents (b : bucket) : option (list (option sdata)) := all_some (map (b_span b) (seq 0 (b_size b))).

(** The spans accepted during some events, in order. *)
Fixpoint accepted (b : abucket) (es : list bev) : list sdata :=
  match es with
  | [] => []
  | e :: r => (match e with BOffer sd => if accepts b sd then [sd] else [] | _ => [] end) ++ accepted (ab_step b e) r
  end.

(** ** The store of one span name *)

(** What happens to a store: a span finishes, the sizes of the buckets change. *)
Inductive sev : Type := SFin (sd : sdata) | SSize (latency errors : nat).

Definition latency (sd : sdata) : Z := time_sub (sd_end sd) (sd_start sd).

(** The bucket of a successful span: by the number of limits 10us, 100us, 1ms, 10ms,
    100ms, 1s, 10s, 1min its latency reaches. *)
Definition lat_class (sd : sdata) : nat :=
  length (filter (fun b => (b <=? latency sd)%Z)
    [10000; 100000; 1000000; 10000000; 100000000; 1000000000; 10000000000; 60000000000]%Z).

Definition code_of (sd : sdata) : Z := fst (sd_status sd).

(** The events each bucket sees. *)
Definition lat_events (j : nat) (es : list sev) : list bev :=
  flat_map (fun e => match e with
                     | SFin sd => if (code_of sd =? 0)%Z && (lat_class sd =? j) then [BOffer sd] else []
                     | SSize l _ => [BResize l]
                     end) es.
Definition err_events (code : Z) (es : list sev) : list bev :=
  flat_map (fun e => match e with
                     | SFin sd => if (code_of sd =? code)%Z then [BOffer sd] else []
                     | SSize _ m => [BResize m]
                     end) es.

(** What is stored: buckets start with size 10. *)
Definition stored_lat (j : nat) (es : list sev) : list sdata := ab_items (ab_run 10 (lat_events j es)).
Definition stored_ok (es : list sev) : list sdata := flat_map (fun j => stored_lat j es) (seq 0 9).
Definition stored_err (code : Z) (es : list sev) : list sdata := ab_items (ab_run 10 (err_events code es)).

(** The spans a latency query asks for; a maximum of 0 is no maximum. *)
Definition lat_wanted (lo hi : Z) (sd : sdata) : bool :=
  ((lo =? 0)%Z && (hi =? 0)%Z) || ((lo <=? latency sd)%Z && ((hi =? 0)%Z || (latency sd <=? hi)%Z)).

(** Running the model's store. *)
Definition s_step (s : store) (i : nat) (e : sev) : option store :=
  match e with SFin sd => st_finished s i sd | SSize l m => st_resize s l m end.
