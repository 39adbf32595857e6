(** Model of the concurrent side of a Meter (stats/view/worker.go): goroutines
    calling the API, the bounded command channel, the worker goroutine, the reply
    channels, Stop.  Definitions only.

    An execution is a sequence of choices, each naming the goroutine (or the
    worker) that takes the next step; [qdo] is the effect of a choice, [None] if it
    is not possible.  Steps are atomic at the points where the Go code
    synchronises: sending on w.c, receiving from w.c (and handling the command,
    which only the worker does), the rendezvous on an unbuffered reply channel. *)

From Coq Require Import List Arith ZArith Bool.
From Verif Require Import Base GoMap Float64 TagModel AggModel ViewModel WorkerModel.
Import ListNotations.
Open Scope nat_scope.

(** What goroutines call.  [GCmd]: a call that goes through the channel: Find,
    Register, Unregister, RetrieveData, SetReportingPeriod (worker.go:122-256,
    which wait for the reply) and Record (208-222, which does not).  [GDirect]: a
    call that takes effect on the caller's goroutine: Read, RegisterExporter,
    UnregisterExporter, SetResource.  [GStop]: Stop (306-315), whose check that
    w.quit is still open, close of w.quit and wait for w.done are separate steps:
    [GStop], [GStopClose], [GStopWait]. *)
Inductive gop : Type :=
| GCmd (c : cmd)
| GDirect (c : cmd)
| GStop
| GStopClose
| GStopWait.

(** Record does not wait for a reply. (stats/view/worker.go:221, against 134, 152, 177, 195,
    255.) *)
Definition is_sync (c : cmd) : bool := match c with CmdRecord _ _ _ _ => false | _ => true end.

(** A goroutine: what it has yet to call, whether it waits for a reply, and the replies it
    has received. No code of its own (stats/view/worker.go:128-256). *)
Record gst : Type := MkG { g_todo : list gop; g_wait : bool; g_got : list resp }.

(** The worker goroutine (worker.go:287-304): in its select, blocked on sending a
    reply, or returned. *)
Inductive phase : Type := WIdle | WReply (g : nat) (r : resp) | WStopped.

(** Who caused a handled command. No code of its own (stats/view/worker.go:287-304). *)
Inductive src : Type := SrcQ (g : nat) | SrcDirect (g : nat) | SrcTick.

Notation logent := (src * cmd * resp * list event)%type.

(** [q_log] is a history variable: the commands in the order in which they took effect, with
    what they returned and exported. The rest: the channel and the worker
    (stats/view/worker.go:44-57). *)
Record qst : Type := MkQ {
  q_gs : list gst;
  q_chan : list (nat * cmd);
  q_phase : phase;
  q_w : wst;
  q_log : list logent;
  q_quit : bool;
  q_panic : bool }.

(** The scheduler (stats/view/worker.go:291-303). *)
Inductive choice : Type :=
| ChSend (g : nat)               (* g sends its next command *)
| ChHandle (o : order)           (* the worker receives and handles a command *)
| ChReply                        (* the worker and a caller meet on a reply channel *)
| ChTick (o : order) (now : time) (* the worker receives from the timer *)
| ChDirect (o : order) (g : nat) (* g performs a direct call *)
| ChStop (g : nat)               (* g, in Stop, looks whether w.quit is closed *)
| ChClose (g : nat)              (* g, in Stop, closes w.quit *)
| ChQuit                         (* the worker receives from w.quit, closes w.c and w.done *)
| ChStopped (g : nat).           (* g receives from w.done *)

(** No code of its own (stats/view/worker.go:128-256). *)
Definition with_g (s : qst) (g : nat) (x : gst) : list gst := upd (q_gs s) g (fun _ => x).

Section Step.
  (** worker.go:267: the capacity of w.c (1024). *)
  Variable cap : nat.

  (** stats/view/worker.go:128-256, 279-281, 287-315, 398-424: one step. *)
  Definition qdo (s : qst) (ch : choice) : option qst :=
    if q_panic s then None else
    match ch with
    | ChSend g =>
        match nth_error (q_gs s) g with
        | Some (MkG (GCmd c :: rest) false got) =>
            match q_phase s with
            | WStopped => (* send on a closed channel *)
                Some (MkQ (q_gs s) (q_chan s) (q_phase s) (q_w s) (q_log s) (q_quit s) true)
            | _ =>
                if length (q_chan s) <? cap then
                  Some (MkQ (with_g s g (MkG rest (is_sync c) got)) (q_chan s ++ [(g, c)])
                            (q_phase s) (q_w s) (q_log s) (q_quit s) false)
                else None
            end
        | _ => None
        end
    | ChHandle o =>
        match q_phase s, q_chan s with
        | WIdle, (g, c) :: rest =>
            match handle o (q_w s) c with
            | Some (r, evs, w') =>
                Some (MkQ (q_gs s) rest (if is_sync c then WReply g r else WIdle) w'
                          (q_log s ++ [(SrcQ g, c, r, evs)]) (q_quit s) false)
            | None => Some (MkQ (q_gs s) rest WIdle (q_w s) (q_log s) (q_quit s) true)
            end
        | _, _ => None
        end
    | ChReply =>
        match q_phase s with
        | WReply g r =>
            match nth_error (q_gs s) g with
            | Some (MkG todo true got) =>
                Some (MkQ (with_g s g (MkG todo false (got ++ [r]))) (q_chan s) WIdle (q_w s)
                          (q_log s) (q_quit s) false)
            | _ => None
            end
        | _ => None
        end
    | ChTick o now =>
        match q_phase s with
        | WIdle =>
            match handle o (q_w s) (CmdTick now) with
            | Some (r, evs, w') =>
                Some (MkQ (q_gs s) (q_chan s) WIdle w' (q_log s ++ [(SrcTick, CmdTick now, r, evs)]) (q_quit s) false)
            | None => Some (MkQ (q_gs s) (q_chan s) WIdle (q_w s) (q_log s) (q_quit s) true)
            end
        | _ => None
        end
    | ChDirect o g =>
        match nth_error (q_gs s) g with
        | Some (MkG (GDirect c :: rest) false got) =>
            match handle o (q_w s) c with
            | Some (r, evs, w') =>
                Some (MkQ (with_g s g (MkG rest false got)) (q_chan s) (q_phase s) w'
                          (q_log s ++ [(SrcDirect g, c, r, evs)]) (q_quit s) false)
            | None => Some (MkQ (q_gs s) (q_chan s) (q_phase s) (q_w s) (q_log s) (q_quit s) true)
            end
        | _ => None
        end
    | ChStop g =>
        match nth_error (q_gs s) g with
        | Some (MkG (GStop :: rest) false got) =>
            Some (MkQ (with_g s g (MkG ((if q_quit s then GStopWait else GStopClose) :: rest) false got))
                      (q_chan s) (q_phase s) (q_w s) (q_log s) (q_quit s) false)
        | _ => None
        end
    | ChClose g =>
        match nth_error (q_gs s) g with
        | Some (MkG (GStopClose :: rest) false got) =>
            if q_quit s then (* close of a closed channel *)
              Some (MkQ (q_gs s) (q_chan s) (q_phase s) (q_w s) (q_log s) true true)
            else
              Some (MkQ (with_g s g (MkG (GStopWait :: rest) false got)) (q_chan s) (q_phase s) (q_w s)
                        (q_log s) true false)
        | _ => None
        end
    | ChQuit =>
        match q_phase s, q_quit s with
        | WIdle, true => Some (MkQ (q_gs s) (q_chan s) WStopped (q_w s) (q_log s) true false)
        | _, _ => None
        end
    | ChStopped g =>
        match nth_error (q_gs s) g, q_phase s with
        | Some (MkG (GStopWait :: rest) false got), WStopped =>
            Some (MkQ (with_g s g (MkG rest false got)) (q_chan s) WStopped (q_w s) (q_log s) (q_quit s) false)
        | _, _ => None
        end
    end.

  (** The start: each goroutine with its program, an empty channel, a new meter.
      stats/view/worker.go:261-273. *)
  Definition qinit (u : uworld) (progs : list (list gop)) : qst :=
    MkQ (map (fun p => MkG p false []) progs) [] WIdle (new_meter u) [] false false.

  (** Reachable states. No code of its own (stats/view/worker.go:287-304). *)
  Inductive qreach (u : uworld) (progs : list (list gop)) : qst -> Prop :=
  | qreach_init : qreach u progs (qinit u progs)
  | qreach_step s ch s' : qreach u progs s -> qdo s ch = Some s' -> qreach u progs s'.

  (** An executable run. No code of its own (stats/view/worker.go:287-304). *)
  Fixpoint qrun (s : qst) (chs : list choice) : option qst :=
    match chs with
    | [] => Some s
    | ch :: r => match qdo s ch with Some s' => qrun s' r | None => None end
    end.
End Step.
