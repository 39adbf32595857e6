(** Vocabulary for the properties of plugin/ochttp.  A run of the plugin is known by the
    calls it makes (HttpModel.call); everything here is computed from them, or from what
    the user of a response body or a handler did. *)

From Coq Require Import String.
From Coq Require Import List Arith NArith ZArith Bool.
From Verif Require Import Base GoMap Text Float64 TagModel TagSpec AggModel ViewModel WorkerModel TraceTypes TraceModel HttpModel.
Import ListNotations.
Open Scope nat_scope.

(** ** Calls *)

(** The stats recorded: by Record, and by RecordWithTags. *)
Definition counts (cs : list call) : list (ctx * list measurement) :=
  flat_map (fun k => match k with KRecord c ms => [(c, ms)] | _ => [] end) cs.
Definition records (cs : list call) : list (ctx * list mutator * list measurement) :=
  flat_map (fun k => match k with KRecordTags c mu ms => [(c, mu, ms)] | _ => [] end) cs.

(** Measurements as names of measures and values. *)
Definition named (ms : list measurement) : list (bytes * f64) :=
  flat_map (fun m => match m with Some (me, v) => [(me_name me, v)] | None => [] end) ms.

(** What was done with the span the plugin started: [None] is End. *)
Definition on_span (cs : list call) : list (option supd) :=
  flat_map (fun k => match k with KSet SOwn u => [Some u] | KEnd SOwn => [None] | _ => [] end) cs.
Definition started (cs : list call) : list (option span_context * bytes * list sopt) :=
  flat_map (fun k => match k with KStart p n xs => [(p, n, xs)] | _ => [] end) cs.

(** The updates before the first End; [None] if End is not called. *)
Fixpoint before_end (l : list (option supd)) : option (list supd) :=
  match l with
  | [] => None
  | None :: _ => Some []
  | Some u :: r => option_map (cons u) (before_end r)
  end.

(** Milliseconds, as float64, between two times in nanoseconds. *)
Definition ms_between (t0 t1 : time) : f64 := f_div (f_of_Z (t1 - t0)) (f_of_Z 1000000).
Definition clock_ok (t0 t1 : time) : Prop := (- 2 ^ 63 <= t1 - t0 < 2 ^ 63)%Z.

(** An integer written in decimal, without needless zeros. *)
Definition decimal (z : Z) (s : bytes) : Prop :=
  exists ds n, dec_value 0 ds = Some n /\ ds <> [] /\ (length ds = 1 \/ (10 ^ N.of_nat (length ds - 1) <= n)%N) /\
    ((0 <= z /\ s = ds /\ z = Z.of_N n) \/ (z < 0 /\ s = n2b 45 :: ds /\ z = - Z.of_N n))%Z.

(** ** Using a response body *)

Definition bytes_of (op : bop) : Z :=
  match op with
  | BRead (ROk n) _ | BRead (REof n) _ | BRead (RErr n _) _ => n
  | BClose _ => 0
  end.
(** The call that completes the request: a Read that reports io.EOF, or Close. *)
Definition completes (op : bop) : bool :=
  match op with BRead (REof _) _ | BClose _ => true | _ => false end.
Definition time_of (op : bop) : time := match op with BRead _ now | BClose now => now end.

(** The bytes read until the request completes (the completing Read counts), and when
    that is. *)
Fixpoint bytes_until (ops : list bop) : Z :=
  match ops with
  | [] => 0%Z
  | op :: r => if completes op then bytes_of op else (bytes_of op + bytes_until r)%Z
  end.
Fixpoint completed_at (ops : list bop) : option time :=
  match ops with
  | [] => None
  | op :: r => if completes op then Some (time_of op) else completed_at r
  end.
(** The messages of the read errors before completion. *)
Fixpoint errors_until (ops : list bop) : list bytes :=
  match ops with
  | [] => []
  | op :: r => if completes op then [] else match op with BRead (RErr _ m) _ => m :: errors_until r | _ => errors_until r end
  end.

(** Byte counts are non-negative and sum to less than 2^63. *)
Definition sizes_ok (ops : list bop) : Prop :=
  (forall op, In op ops -> 0 <= bytes_of op)%Z /\ (fold_right Z.add 0 (map bytes_of ops) < 2 ^ 63)%Z.

(** ** Handlers *)

(** The operations a handler performs, in order, up to a panic: those of routed handlers
    inside included, [HSetRoute] standing for the end of a routed handler too. *)
Fixpoint flat_hop (op : hop) : list hop :=
  match op with
  | HRouted r body => (fix go (l : list hop) := match l with [] => [] | o :: l => flat_hop o ++ go l end) body ++ [HSetRoute r]
  | _ => [op]
  end.
Definition flat_hops (ops : list hop) : list hop := flat_map flat_hop ops.
Fixpoint until_panic (ops : list hop) : list hop :=
  match ops with
  | [] => []
  | HPanic :: _ => []
  | op :: r => op :: until_panic r
  end.
Definition performed (ops : list hop) : list hop := until_panic (flat_hops ops).
Definition panics (ops : list hop) : bool := existsb (fun op => match op with HPanic => true | _ => false end) (flat_hops ops).

Definition written (ops : list hop) : list (Z * time) := flat_map (fun op => match op with HWrite n t => [(n, t)] | _ => [] end) ops.
Definition bytes_written (ops : list hop) : Z := fold_right Z.add 0%Z (map fst (written ops)).
Definition headers_written (ops : list hop) : list Z := flat_map (fun op => match op with HHeader s => [s] | _ => [] end) ops.
Definition routes (ops : list hop) : list bytes := flat_map (fun op => match op with HSetRoute r => [r] | _ => [] end) ops.

(** The status: of the last WriteHeader, or 200. *)
Definition status_of (ops : list hop) : Z :=
  let s := last (headers_written ops) 0%Z in if (s =? 0)%Z then 200%Z else s.

(** What the client of the server sees (net/http): the first final status written, or 200
    when bytes are written before one; informational ones (1xx) do not count. *)
Fixpoint status_sent (ops : list hop) : Z :=
  match ops with
  | [] => 200%Z
  | HHeader s :: r => if (100 <=? s)%Z && (s <? 200)%Z then status_sent r else s
  | HWrite _ _ :: _ | HReadFrom _ :: _ => 200%Z
  | _ :: r => status_sent r
  end.
Definition bytes_sent (ops : list hop) : Z :=
  fold_right Z.add 0%Z (map (fun op => match op with HWrite n _ | HReadFrom n => n | _ => 0%Z end) ops).

(** The propagation format of a transport or handler: the one given, otherwise B3. *)
Definition chosen_format (given : option hformat) : hformat := match given with Some f => f | None => FB3 end.
