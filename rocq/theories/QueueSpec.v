(** Vocabulary for statements about concurrent use of a meter: who called what, in
    which order calls took effect, and what they returned. *)

From Coq Require Import List Arith Bool.
From Verif Require Import Base GoMap Float64 TagModel AggModel ViewModel WorkerModel WorkerSpec QueueModel.
Import ListNotations.
Open Scope nat_scope.

(** The calls of a program that go through the meter's queue, in program order. *)
Definition queued (p : list gop) : list cmd :=
  flat_map (fun op => match op with GCmd c => [c] | _ => [] end) p.

(** The effects, in the order in which they happened, of the queued calls: (caller, command). *)
Definition log_queued (l : list logent) : list (nat * cmd) :=
  flat_map (fun e => match e with (SrcQ g, c, _, _) => [(g, c)] | _ => [] end) l.

(** Those of one caller. *)
Definition by_caller (g : nat) (l : list (nat * cmd)) : list cmd :=
  flat_map (fun e => if fst e =? g then [snd e] else []) l.

Definition log_cmds (l : list logent) : list cmd := map (fun e => snd (fst (fst e))) l.

(** What the waiting calls of one caller returned, in order. *)
Definition returned (g : nat) (l : list logent) : list resp :=
  flat_map (fun e => match e with
                     | (SrcQ g', c, r, _) => if (g' =? g) && is_sync c then [r] else []
                     | _ => []
                     end) l.

(** The reply the worker is about to give to [g]. *)
Definition replying (g : nat) (ph : phase) : list resp :=
  match ph with WReply g' r => if g' =? g then [r] else [] | _ => [] end.

(** Programs that only use valid commands ([cmd_ok], see WorkerSpec), and do not
    start in the middle of Stop. *)
Definition prog_ok (u : uworld) (p : list gop) : Prop :=
  Forall (fun op => match op with
                    | GCmd c | GDirect c => cmd_ok u c
                    | GStop => True
                    | GStopClose | GStopWait => False
                    end) p.
Definition no_stop (p : list gop) : Prop :=
  Forall (fun op => match op with GCmd _ | GDirect _ => True | _ => False end) p.

(** Everything has been called and has returned. *)
Definition all_returned (s : qst) : Prop :=
  forall g x, nth_error (q_gs s) g = Some x -> g_todo x = [] /\ g_wait x = false.

(** A choice of a goroutine or of the worker, other than the periodic timer. *)
Definition is_tick (ch : choice) : bool := match ch with ChTick _ _ => true | _ => false end.

(** Executions from a state. *)
Inductive qsteps (cap : nat) : qst -> list choice -> qst -> Prop :=
| qsteps_nil s : qsteps cap s [] s
| qsteps_cons s ch s' chs s'' :
    qdo cap s ch = Some s' -> qsteps cap s' chs s'' -> qsteps cap s (ch :: chs) s''.
