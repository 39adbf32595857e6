(** Model of plugin/ochttp/span_annotating_client_trace.go.  Definitions only.

    The texts of durations, addresses and errors are what their String and Error methods
    return; nil errors are [None]. *)

From Coq Require Import String.
From Coq Require Import List ZArith Bool.
From Verif Require Import Base Text TraceTypes TraceModel.
Import ListNotations.

(** The hooks of httptrace.ClientTrace that NewSpanAnnotatingClientTrace sets
    (span_annotating_client_trace.go:42-61), with their arguments as far as they are used. *)
Inductive hook : Type :=
| GetConn (host_port : bytes)
| GotConn (reused was_idle : bool) (idle_time : bytes)
| PutIdleConn (err : option bytes)
| GotFirstResponseByte
| Got100Continue
| DNSStart (host : bytes)
| DNSDone (addrs : list bytes) (err : option bytes)
| ConnectStart (network addr : bytes)
| ConnectDone (network addr : bytes) (err : option bytes)
| TLSHandshakeStart
| TLSHandshakeDone (err : option bytes)
| WroteHeaders
| Wait100Continue
| WroteRequest (err : option bytes).

(** Package strings, Join(a, sep). Used at span_annotating_client_trace.go:112. *)
Fixpoint join (sep : bytes) (l : list bytes) : bytes :=
  match l with
  | [] => []
  | [x] => x
  | x :: r => x ++ sep ++ join sep r
  end.

(** The attribute for an error that is not nil: span_annotating_client_trace.go:84-87,
    114-117, 134-137, 147-150, 164-167. *)
Definition err_attr (k : bytes) (err : option bytes) : list (bytes * attr) :=
  match err with Some m => [(k, AvStr m)] | None => [] end.

(** span_annotating_client_trace.go:62-169: each hook's call of Annotate on the span. *)
Definition annotate (h : hook) (now : Z) : supd :=
  match h with
  | GetConn hp => UAnnotate now [(bs "httptrace.get_connection.host_port", AvStr hp)] (bs "GetConn")
  | GotConn reused idle t =>
      UAnnotate now ([(bs "httptrace.got_connection.reused", AvBool reused); (bs "httptrace.got_connection.was_idle", AvBool idle)] ++
                     if idle then [(bs "httptrace.got_connection.idle_time", AvStr t)] else []) (bs "GotConn")
  | PutIdleConn err => UAnnotate now (err_attr (bs "httptrace.put_idle_connection.error") err) (bs "PutIdleConn")
  | GotFirstResponseByte => UAnnotate now [] (bs "GotFirstResponseByte")
  | Got100Continue => UAnnotate now [] (bs "Got100Continue")
  | DNSStart host => UAnnotate now [(bs "httptrace.dns_start.host", AvStr host)] (bs "DNSStart")
  | DNSDone addrs err =>
      UAnnotate now ([(bs "httptrace.dns_done.addrs", AvStr (join (bs " , ") addrs))] ++ err_attr (bs "httptrace.dns_done.error") err) (bs "DNSDone")
  | ConnectStart network addr =>
      UAnnotate now [(bs "httptrace.connect_start.network", AvStr network); (bs "httptrace.connect_start.addr", AvStr addr)] (bs "ConnectStart")
  | ConnectDone network addr err =>
      UAnnotate now ([(bs "httptrace.connect_done.network", AvStr network); (bs "httptrace.connect_done.addr", AvStr addr)] ++
                     err_attr (bs "httptrace.connect_done.error") err) (bs "ConnectDone")
  | TLSHandshakeStart => UAnnotate now [] (bs "TLSHandshakeStart")
  | TLSHandshakeDone err => UAnnotate now (err_attr (bs "httptrace.tls_handshake_done.error") err) (bs "TLSHandshakeDone")
  | WroteHeaders => UAnnotate now [] (bs "WroteHeaders")
  | Wait100Continue => UAnnotate now [] (bs "Wait100Continue")
  | WroteRequest err => UAnnotate now (err_attr (bs "httptrace.wrote_request.error") err) (bs "WroteRequest")
  end.
