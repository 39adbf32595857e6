(** Model of metric/metricexport/reader.go (Reader, IntervalReader) and of
    metric/metricproducer/manager.go.  Definitions only.

    The interval reader is a machine whose steps are taken by any number of calling
    goroutines, by the export loops and by the ticker; an execution is a sequence of
    choices.  Channels are unbuffered: a send and a receive are one step of two
    goroutines.  The fields ir.quit, ir.done and ir.timer are read where the code reads
    them, also by the loops, which hold no lock.  Calls on a nil *IntervalReader are not
    modelled (Start returns an error, Stop returns, Flush panics). *)

From Coq Require Import String.
From Coq Require Import List Arith ZArith Bool.
From Verif Require Import Base GoMap AggModel.
Import ListNotations.
Open Scope nat_scope.

(** ** The interval reader *)

(** Calls. RStart iv: Start with the field ReportingInterval = iv (nanoseconds).
    (reader.go:119, 159, 176.) *)
Inductive rop : Type := RStart (iv : Z) | RStop | RFlush.

(** reader.go:39. *)
Definition default_interval : Z := 60000000000.
(** reader.go:40. *)
Definition minimum_interval : Z := 1000000000.

(** reader.go:31-32. *)
Inductive start_err : Type := ErrTooLow | ErrAlreadyStarted.

(** Who exports: the loop or a Flush. (reader.go:148, 185.) *)
Inductive rsrc : Type := SrcLoop | SrcFlush.

(** What happened, for stating properties. RvStarted iv p: Start made a ticker of period p
    and the loop (its interval was iv). RvStartErr iv e: Start is about to return e.
    RvStopped: Stop has done all its work, only the deferred unlock is left. RvSkip: Flush
    found the reader running. RvBegin, RvEnd: ReadAndExport was entered, has returned.
    RvTick: the ticker fired. No code of its own (reader.go:119-200). *)
Inductive rev_ : Type :=
| RvStarted (iv p : Z) | RvStartErr (iv : Z) (e : start_err) | RvStopped | RvSkip
| RvBegin (x : rsrc) | RvEnd (x : rsrc) | RvTick.

(** Where a caller is. RIdle: before ir.mu.Lock() of the next call. RLocked: the lock is
    held, nothing read yet. RSend q: Stop is sending on q (168). RRecv: Stop is before
    <-ir.done (169). RRecv2 d: receiving from d. RClose1, RClose2: before close(ir.quit),
    close(ir.done) (170, 171). RExport: Flush is in ReadAndExport (185). RRet: everything is
    done but the deferred unlock. (reader.go:119-186.) *)
Inductive rpc : Type :=
| RIdle | RLocked | RSend (q : nat) | RRecv | RRecv2 (d : nat) | RClose1 | RClose2 | RExport | RRet.

(** Where a loop is (144-155).
    LTop: before the select statement.   LSelect t q: waiting on the ticker t and channel q.
    LExport: in ReadAndExport.   LQuit: received from quit, before ir.timer.Stop().
    LDone: before ir.done <- true.   LSend d: sending on d.   LExit: returned.
    LReStop: the exporter has called Stop on this reader and waits for the lock.
    LReSend q: that Stop is sending on q. *)
Inductive lpc : Type :=
| LTop | LSelect (t : option nat) (q : option nat) | LExport | LQuit | LDone | LSend (d : nat) | LExit
| LReStop | LReSend (q : nat).

(** A goroutine and its calls (reader.go:119-186). *)
Record caller : Type := MkCaller { c_todo : list rop; c_pc : rpc }.
(** A ticker: running, and whether a tick waits in its channel (capacity 1). (reader.go:69,
    136.) *)
Record ticker : Type := MkTicker { t_on : bool; t_pending : bool }.

(** Who exports at the moment (reader.go:148, 185). *)
Inductive holder : Type := HCaller (i : nat) | HLoop (j : nat).

(** The fields of IntervalReader (reader.go:62-73) and the goroutines that use it. *)
Record rst : Type := MkR {
  r_callers : list caller;
  r_loops : list lpc;
  r_tickers : list ticker;
  r_closed : list bool;          (* channels: closed? *)
  r_quit : option nat;           (* ir.quit *)
  r_done : option nat;           (* ir.done *)
  r_timer : option nat;          (* ir.timer *)
  r_mu : option holder;
  r_panic : bool;
  r_hist : list rev_ }.

(** reader.go:100-113. *)
Definition r_init (progs : list (list rop)) : rst :=
  MkR (map (fun p => MkCaller p RIdle) progs) [] [] [] None None None None false [].

(** Updates of one field each: no code of their own (reader.go:62-73). *)
Definition set_callers (s : rst) x := MkR x (r_loops s) (r_tickers s) (r_closed s) (r_quit s) (r_done s) (r_timer s) (r_mu s) (r_panic s) (r_hist s).
(** (reader.go:62-73) *)
Definition set_loops (s : rst) x := MkR (r_callers s) x (r_tickers s) (r_closed s) (r_quit s) (r_done s) (r_timer s) (r_mu s) (r_panic s) (r_hist s).
(** (reader.go:62-73) *)
Definition set_tickers (s : rst) x := MkR (r_callers s) (r_loops s) x (r_closed s) (r_quit s) (r_done s) (r_timer s) (r_mu s) (r_panic s) (r_hist s).
(** (reader.go:62-73) *)
Definition set_closed (s : rst) x := MkR (r_callers s) (r_loops s) (r_tickers s) x (r_quit s) (r_done s) (r_timer s) (r_mu s) (r_panic s) (r_hist s).
(** (reader.go:62-73) *)
Definition set_quit (s : rst) x := MkR (r_callers s) (r_loops s) (r_tickers s) (r_closed s) x (r_done s) (r_timer s) (r_mu s) (r_panic s) (r_hist s).
(** (reader.go:62-73) *)
Definition set_done (s : rst) x := MkR (r_callers s) (r_loops s) (r_tickers s) (r_closed s) (r_quit s) x (r_timer s) (r_mu s) (r_panic s) (r_hist s).
(** (reader.go:62-73) *)
Definition set_timer (s : rst) x := MkR (r_callers s) (r_loops s) (r_tickers s) (r_closed s) (r_quit s) (r_done s) x (r_mu s) (r_panic s) (r_hist s).
(** (reader.go:62-73) *)
Definition set_mu (s : rst) x := MkR (r_callers s) (r_loops s) (r_tickers s) (r_closed s) (r_quit s) (r_done s) (r_timer s) x (r_panic s) (r_hist s).
(** (reader.go:62-73) *)
Definition set_panic (s : rst) := MkR (r_callers s) (r_loops s) (r_tickers s) (r_closed s) (r_quit s) (r_done s) (r_timer s) (r_mu s) true (r_hist s).
(** (reader.go:62-73) *)
Definition log (s : rst) e := MkR (r_callers s) (r_loops s) (r_tickers s) (r_closed s) (r_quit s) (r_done s) (r_timer s) (r_mu s) (r_panic s) (r_hist s ++ e).

(** (reader.go:119-186) *)
Definition put_caller (s : rst) (i : nat) (c : caller) : rst := set_callers s (upd (r_callers s) i (fun _ => c)).
(** (reader.go:144-155) *)
Definition put_loop (s : rst) (j : nat) (l : lpc) : rst := set_loops s (upd (r_loops s) j (fun _ => l)).

(** Channel [c] is closed (reader.go:170-171). *)
Definition closed (s : rst) (c : nat) : bool := nth c (r_closed s) false.

(** close(c): panics on nil and on a closed channel. (reader.go:170-171.) *)
Definition close_chan (s : rst) (c : option nat) : rst :=
  match c with
  | Some n => if closed s n then set_panic s else set_closed s (upd (r_closed s) n (fun _ => true))
  | None => set_panic s
  end.

(** A choice. RDo i: caller i takes its next step. RLoop j: loop j does. RQuit i j: caller
    i's send on quit meets loop j. RDone i j: loop j's send on done meets caller i. RTake j:
    loop j's select receives a tick. RTickOf t: ticker t fires. (reader.go:119-186.) *)
Inductive rchoice : Type := RDo (i : nat) | RLoop (j : nat) | RQuit (i j : nat) | RDone (i j : nat) | RTake (j : nat) | RTickOf (t : nat).

(** reader.go:119-142 after the lock: the interval check, then the started check. *)
Definition start_body (s : rst) (iv : Z) : rst :=
  let p := if (iv =? 0)%Z then default_interval else iv in
  if negb (iv =? 0)%Z && (iv <? minimum_interval)%Z then log s [RvStartErr iv ErrTooLow]
  else match r_quit s with
       | Some _ => log s [RvStartErr iv ErrAlreadyStarted]
       | None =>
           let n := length (r_closed s) in
           let s := set_timer s (Some (length (r_tickers s))) in
           let s := set_tickers s (r_tickers s ++ [MkTicker true false]) in
           let s := set_quit s (Some n) in
           let s := set_done s (Some (S n)) in
           let s := set_closed s (r_closed s ++ [false; false]) in
           let s := set_loops s (r_loops s ++ [LTop]) in
           log s [RvStarted iv p]
       end.

(** One step; None if the choice is not possible. [ex]: the exporter calls Stop on this
    reader. reader.go:119-186. *)
Definition rstep (ex : bool) (s : rst) (c : rchoice) : option rst :=
  if r_panic s then None else
  match c with
  | RDo i =>
      match nth_error (r_callers s) i with
      | Some (MkCaller (op :: rest) pc) =>
          let go s pc' := Some (put_caller s i (MkCaller (op :: rest) pc')) in
          match pc with
          (* 123, 163, 177 *)
          | RIdle => match r_mu s with None => go (set_mu s (Some (HCaller i))) RLocked | Some _ => None end
          | RLocked =>
              match op with
              | RStart iv => go (start_body s iv) RRet
              (* 165-168 *)
              | RStop => match r_quit s with None => go (log s [RvStopped]) RRet | Some q => go s (RSend q) end
              (* 181-185 *)
              | RFlush => match r_quit s with Some _ => go (log s [RvSkip]) RRet | None => go (log s [RvBegin SrcFlush]) RExport end
              end
          (* a send on a closed channel panics; otherwise it needs a partner (RQuit) *)
          | RSend q => if closed s q then Some (set_panic s) else None
          | RRecv => match r_done s with Some d => go s (RRecv2 d) | None => None end
          | RRecv2 d => if closed s d then go s RClose1 else None
          | RClose1 => go (close_chan s (r_quit s)) RClose2
          (* 171-172 *)
          | RClose2 => go (log (set_quit (close_chan s (r_done s)) None) [RvStopped]) RRet
          | RExport => go (log s [RvEnd SrcFlush]) RRet
          | RRet => Some (put_caller (set_mu s None) i (MkCaller rest RIdle))
          end
      | _ => None
      end
  | RLoop j =>
      match nth_error (r_loops s) j with
      | Some LTop => Some (put_loop s j (LSelect (r_timer s) (r_quit s)))
      (* a closed channel is ready to receive *)
      | Some (LSelect _ (Some q)) => if closed s q then Some (put_loop s j LQuit) else None
      | Some (LSelect _ None) => None
      | Some LExport => if ex then Some (put_loop s j LReStop) else Some (put_loop (log s [RvEnd SrcLoop]) j LTop)
      | Some LQuit =>
          match r_timer s with
          | Some t => Some (put_loop (set_tickers s (upd (r_tickers s) t (fun x => MkTicker false (t_pending x)))) j LDone)
          | None => Some (set_panic s)
          end
      | Some LDone => match r_done s with Some d => Some (put_loop s j (LSend d)) | None => None end
      | Some (LSend d) => if closed s d then Some (set_panic s) else None
      | Some LExit => None
      | Some LReStop =>
          match r_mu s with
          | None => match r_quit s with
                    | Some q => Some (put_loop (set_mu s (Some (HLoop j))) j (LReSend q))
                    | None => Some (put_loop (log s [RvEnd SrcLoop]) j LTop)
                    end
          | Some _ => None
          end
      | Some (LReSend q) => if closed s q then Some (set_panic s) else None
      | None => None
      end
  | RQuit i j =>
      match nth_error (r_callers s) i, nth_error (r_loops s) j with
      | Some (MkCaller todo (RSend q)), Some (LSelect _ (Some q')) =>
          if (q =? q') && negb (closed s q) then Some (put_loop (put_caller s i (MkCaller todo RRecv)) j LQuit) else None
      | _, _ => None
      end
  | RDone i j =>
      match nth_error (r_callers s) i, nth_error (r_loops s) j with
      | Some (MkCaller todo (RRecv2 d)), Some (LSend d') =>
          if (d =? d') && negb (closed s d) then Some (put_loop (put_caller s i (MkCaller todo RClose1)) j LExit) else None
      | _, _ => None
      end
  | RTake j =>
      match nth_error (r_loops s) j with
      | Some (LSelect (Some t) _) =>
          match nth_error (r_tickers s) t with
          | Some (MkTicker on true) => Some (put_loop (log (set_tickers s (upd (r_tickers s) t (fun _ => MkTicker on false))) [RvBegin SrcLoop]) j LExport)
          | _ => None
          end
      | _ => None
      end
  | RTickOf t =>
      match nth_error (r_tickers s) t with
      | Some (MkTicker true _) => Some (log (set_tickers s (upd (r_tickers s) t (fun _ => MkTicker true true))) [RvTick])
      | _ => None
      end
  end.

(** An execution: no code of its own (reader.go:119-186). *)
Fixpoint rrun (ex : bool) (s : rst) (cs : list rchoice) : option rst :=
  match cs with
  | [] => Some s
  | c :: r => match rstep ex s c with Some s' => rrun ex s' r | None => None end
  end.

(** ** metric/metricproducer/manager.go *)

(** Producers are known by numbers; None is the nil interface. Every method holds pm.mu from
    the first to the last access, so a concurrent execution is a sequence of whole calls. A
    producer whose type is not hashable is not modelled. (metricproducer/manager.go:44-61.) *)
Inductive mop : Type := MAdd (p : option nat) | MDelete (p : option nat).

(** manager.go:44-61 [AddProducer], [DeleteProducer]. *)
Definition manager_step (m : list (nat * unit)) (op : mop) : list (nat * unit) :=
  match op with
  | MAdd (Some p) => mset Nat.eqb m p tt
  | MDelete (Some p) => mdel Nat.eqb m p
  | MAdd None | MDelete None => m
  end.
(** (metricproducer/manager.go:44-61) *)
Definition manager_run (ops : list mop) : list (nat * unit) := fold_left manager_step ops [].
(** manager.go:68-78 [GetAll]; [o]: the order of the map. *)
Definition get_all (o : order) (m : list (nat * unit)) : list nat := map fst (ord o _ m).

(** ** Reader *)

(** reader.go:41. *)
Definition default_span_name : bytes := bs "ExportMetrics".
(** reader.go:79-83, 86-96 [NewReader] with options WithSpanName(n) for n in the list. *)
Definition reader_span_name (opts : list bytes) : bytes :=
  match fold_left (fun _ n => n) opts [] with [] => default_span_name | n => n end.

(** What ReadAndExport does to the world outside, in order. (reader.go:190-200.) *)
Inductive rx_call (M : Type) : Type :=
| XStartSpan (name : bytes) | XRead (p : nat) | XExport (data : list M) | XEndSpan.
Arguments XStartSpan {M}. Arguments XRead {M}. Arguments XExport {M}. Arguments XEndSpan {M}.

(** reader.go:194-197, the loop of ReadAndExport: [read p] is what producer p returns; the exporter's
    error is dropped. *)
Fixpoint read_loop {M} (read : nat -> list M) (ps : list nat) (data : list M) : list (rx_call M) * list M :=
  match ps with
  | [] => ([], data)
  | p :: r => let '(cs, d) := read_loop read r (data ++ read p) in (XRead p :: cs, d)
  end.
(** reader.go:190-200 [ReadAndExport]. *)
Definition read_and_export {M} (name : bytes) (ps : list nat) (read : nat -> list M) : list (rx_call M) :=
  let '(cs, data) := read_loop read ps [] in
  XStartSpan name :: cs ++ [XExport data; XEndSpan].
