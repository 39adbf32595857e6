(** Model of the default ID generator: trace/trace.go:537-595.  Definitions only. *)

From Coq Require Import List NArith Bool.
From Verif Require Import Base TraceTypes.
Import ListNotations.
Open Scope nat_scope.

(** encoding/binary LittleEndian.PutUint64 (into [n] bytes). Used at trace/trace.go:580,
    591-592. *)
Fixpoint le_bytes (n : nat) (v : N) : bytes :=
  match n with
  | O => []
  | S k => n2b (v mod 256)%N :: le_bytes k (v / 256)%N
  end.

(** trace/trace.go:537-555 [defaultIDGenerator] after init (trace.go:559-571): the span
    counter and its increment; the values read from crypto/rand are arguments. *)
Record idgen : Type := MkGen { g_next : N; g_inc : N; g_add : N * N }.

(** trace/trace.go:559-571 [init], once. *)
Definition gen_init (next inc : N) (add : N * N) : idgen := MkGen next (N.lor inc 1) add.

(** trace/trace.go:577: atomic.AddUint64. *)
Definition gen_add (g : idgen) : N * idgen :=
  let id := ((g_next g + g_inc g) mod 2 ^ 64)%N in
  (id, MkGen id (g_inc g) (g_add g)).

(** trace/trace.go:574-582 [NewSpanID], one iteration of its loop: a call that draws
    zero goes round again. *)
Definition gen_step (g : idgen) : option bytes * idgen :=
  let '(id, g') := gen_add g in
  (if (id =? 0)%N then None else Some (le_bytes 8 id), g').

(** Goroutines in NewSpanID, in the order in which their additions happen: what each one got
    (None: it goes on). (trace/trace.go:574-582.) *)
Fixpoint gen_run (g : idgen) (ts : list nat) : list (nat * option bytes) * idgen :=
  match ts with
  | [] => ([], g)
  | t :: r =>
      let '(x, g1) := gen_step g in
      let '(l, g2) := gen_run g1 r in
      ((t, x) :: l, g2)
  end.

(** trace/trace.go:586-595 [NewTraceID]; [r0], [r1]: what traceIDRand returns. *)
Definition new_trace_id (g : idgen) (r0 r1 : N) : bytes :=
  le_bytes 8 ((r0 + fst (g_add g)) mod 2 ^ 64)%N ++ le_bytes 8 ((r1 + snd (g_add g)) mod 2 ^ 64)%N.
