(** Vocabulary for the properties of plugin/ocgrpc.  A schedule is a list of calls of
    HandleRPC (with their events) and of steps of these calls. *)

From Coq Require Import String.
From Coq Require Import List Arith NArith ZArith Bool.
From Verif Require Import Base GoMap Text Float64 TagModel TagSpec AggModel ViewModel WorkerModel RecordModel
  TraceTypes TraceModel HttpModel HttpSpec GrpcModel.
Import ListNotations.
Open Scope nat_scope.

(** The events of a schedule, in the order in which HandleRPC is called. *)
Definition events (l : list gact) : list gevent := flat_map (fun a => match a with GCall ev => [ev] | GStep _ => [] end) l.

(** The payloads among the events, and their sizes. *)
Definition sent_sizes (evs : list gevent) : list Z := flat_map (fun ev => match ev with GOut n _ _ => [n] | _ => [] end) evs.
Definition received_sizes (evs : list gevent) : list Z := flat_map (fun ev => match ev with GIn n _ _ => [n] | _ => [] end) evs.
Definition total (l : list Z) : Z := fold_right Z.add 0%Z l.

(** Sizes are not negative, and sums and numbers fit into 63 bits. *)
Definition payloads_ok (evs : list gevent) : Prop :=
  Forall (fun n => 0 <= n)%Z (sent_sizes evs) /\ Forall (fun n => 0 <= n)%Z (received_sizes evs) /\
  (total (sent_sizes evs) < 2 ^ 63)%Z /\ (total (received_sizes evs) < 2 ^ 63)%Z /\
  (Z.of_nat (length (sent_sizes evs)) < 2 ^ 63)%Z /\ (Z.of_nat (length (received_sizes evs)) < 2 ^ 63)%Z.

(** The calls of HandleRPC that have returned; all have. *)
Definition returned (s : grpc_state) : list gevent :=
  flat_map (fun t => match gt_todo t with [] => [gt_event t] | _ => [] end) (g_threads s).
Definition idle (s : grpc_state) : Prop := forall t, In t (g_threads s) -> gt_todo t = [].

(** What was done with the span, and what was recorded. *)
Definition span_calls (cs : list gcall) : list (option supd) :=
  flat_map (fun k => match k with GCSpan u => [u] | GCRecord _ _ => [] end) cs.
Definition recorded_calls (cs : list gcall) : list (ctx * list ropt) :=
  flat_map (fun k => match k with GCRecord c xs => [(c, xs)] | GCSpan _ => [] end) cs.

(** The parts of a call of RecordWithOptions that gives each option at most once. *)
Definition tags_given (xs : list ropt) : list mutator := flat_map (fun x => match x with WithTags m => m | _ => [] end) xs.
Definition measurements_given (xs : list ropt) : list measurement :=
  flat_map (fun x => match x with WithMeasurements m => m | _ => [] end) xs.
Definition attachments_given (xs : list ropt) : attachments :=
  flat_map (fun x => match x with WithAttachments m => m | _ => [] end) xs.

(** How often a measure is recorded. *)
Definition times_recorded (name : bytes) (cs : list gcall) : nat :=
  length (filter (fun n => bytes_eqb (fst n) name)
    (flat_map (fun r => named (measurements_given (snd r))) (recorded_calls cs))).

(** The code of a status, a uint32, as the int32 that a span has. *)
Definition span_code (c : N) : Z :=
  let c := Z.of_N (c mod 2 ^ 32) in if (c <? 2147483648)%Z then c else (c - 4294967296)%Z.

(** What one event is to do to the span. *)
Definition span_ops (ev : gevent) : list (option supd) :=
  match ev with
  | GBegin client failfast => [Some (USetAttrs [(bs "Client", AvBool client); (bs "FailFast", AvBool failfast)])]
  | GOut n w t => [Some (UMsg t true 0 n w)]
  | GIn n w t => [Some (UMsg t false 0 n w)]
  | GEnd _ NoError _ => [None]
  | GEnd _ (StatusError c m) _ => [Some (USetStatus (span_code c) m); None]
  | GEnd _ (OtherError m) _ => [Some (USetStatus 13 m); None]
  | GOther => []
  end.

(** Names of status codes: the canonical ones. *)
Definition status_names : list bytes :=
  [bs "OK"; bs "CANCELLED"; bs "UNKNOWN"; bs "INVALID_ARGUMENT"; bs "DEADLINE_EXCEEDED"; bs "NOT_FOUND"; bs "ALREADY_EXISTS";
   bs "PERMISSION_DENIED"; bs "RESOURCE_EXHAUSTED"; bs "FAILED_PRECONDITION"; bs "ABORTED"; bs "OUT_OF_RANGE"; bs "UNIMPLEMENTED";
   bs "INTERNAL"; bs "UNAVAILABLE"; bs "DATA_LOSS"; bs "UNAUTHENTICATED"].

(** The status of an RPC as its tag shows it. *)
Definition status_shown (e : rpc_err) (s : bytes) : Prop :=
  match e with
  | NoError => s = bs "OK"
  | StatusError c _ =>
      match nth_error status_names (N.to_nat c) with
      | Some n => s = n
      | None => exists d, s = bs "CODE_" ++ d /\ decimal (Z.of_N c) d
      end
  | OtherError _ => s = []
  end.

(** A method name without its leading slashes: [full] is a run of slashes before [m],
    which does not start with one. *)
Definition without_slashes (full m : bytes) : Prop :=
  exists n, full = repeat slash n ++ m /\ forall b r, m = b :: r -> b <> slash.
