(** What an annotation made by a hook of httptrace says. *)

From Coq Require Import String.
From Coq Require Import List ZArith Bool.
From Verif Require Import Base GoMap Text TraceTypes TraceModel ClientTraceModel.
Import ListNotations.

(** The name of the hook. *)
Definition hook_name (h : hook) : bytes :=
  match h with
  | GetConn _ => bs "GetConn" | GotConn _ _ _ => bs "GotConn" | PutIdleConn _ => bs "PutIdleConn"
  | GotFirstResponseByte => bs "GotFirstResponseByte" | Got100Continue => bs "Got100Continue"
  | DNSStart _ => bs "DNSStart" | DNSDone _ _ => bs "DNSDone" | ConnectStart _ _ => bs "ConnectStart" | ConnectDone _ _ _ => bs "ConnectDone"
  | TLSHandshakeStart => bs "TLSHandshakeStart" | TLSHandshakeDone _ => bs "TLSHandshakeDone"
  | WroteHeaders => bs "WroteHeaders" | Wait100Continue => bs "Wait100Continue" | WroteRequest _ => bs "WroteRequest"
  end.

(** Its error, if it has one. *)
Definition hook_error (h : hook) : option bytes :=
  match h with
  | PutIdleConn e | DNSDone _ e | ConnectDone _ _ e | TLSHandshakeDone e | WroteRequest e => e
  | _ => None
  end.

(** The first part of the names of its attributes. *)
Definition hook_prefix (h : hook) : bytes :=
  match h with
  | GetConn _ => bs "httptrace.get_connection" | GotConn _ _ _ => bs "httptrace.got_connection" | PutIdleConn _ => bs "httptrace.put_idle_connection"
  | DNSStart _ => bs "httptrace.dns_start" | DNSDone _ _ => bs "httptrace.dns_done"
  | ConnectStart _ _ => bs "httptrace.connect_start" | ConnectDone _ _ _ => bs "httptrace.connect_done"
  | TLSHandshakeDone _ => bs "httptrace.tls_handshake_done" | WroteRequest _ => bs "httptrace.wrote_request"
  | _ => []
  end.

(** The address list: the texts with " , " between them. *)
Definition listed (l : list bytes) (t : bytes) : Prop :=
  match l with [] => t = [] | x :: r => t = x ++ concat (map (fun y => bs " , " ++ y) r) end.

(** The arguments shown, other than the error, by what follows the prefix. *)
Definition hook_arg (h : hook) (field : bytes) (a : attr) : Prop :=
  match h with
  | GetConn hp => field = bs ".host_port" /\ a = AvStr hp
  | GotConn reused idle t =>
      (field = bs ".reused" /\ a = AvBool reused) \/ (field = bs ".was_idle" /\ a = AvBool idle) \/ (idle = true /\ field = bs ".idle_time" /\ a = AvStr t)
  | DNSStart host => field = bs ".host" /\ a = AvStr host
  | DNSDone addrs _ => field = bs ".addrs" /\ exists t, listed addrs t /\ a = AvStr t
  | ConnectStart network addr | ConnectDone network addr _ => (field = bs ".network" /\ a = AvStr network) \/ (field = bs ".addr" /\ a = AvStr addr)
  | _ => False
  end.

(** [a] is the annotation for hook [h], called at time [t]. *)
Definition annotates (x : Z * hook) (a : annotation) : Prop :=
  an_time a = fst x /\ an_msg a = hook_name (snd x) /\
  let m := match an_attrs a with Some m => m | None => [] end in
  forall k v, mget bytes_eqb m k = Some v <->
    (exists field, k = hook_prefix (snd x) ++ field /\ hook_arg (snd x) field v) \/
    (exists msg, hook_error (snd x) = Some msg /\ k = hook_prefix (snd x) ++ bs ".error" /\ v = AvStr msg).
