(** A process in which code records measurements and views collect them: packages tag,
    stats and stats/view put together.  Definitions only.

    One action is one call of the API.  A call of stats.RecordWithOptions and the handling
    of what it delivers by the default worker are one action, at the time at which the
    worker handles it: QueueModel.v has the queue between them, and C15 says that the
    worker handles deliveries in the order in which they entered the queue. *)

From Coq Require Import List Arith ZArith Bool.
From Verif Require Import Base GoMap Float64 TagModel AggModel ViewModel WorkerModel RecordModel.
Import ListNotations.
Open Scope nat_scope.

(** The tag maps and contexts of the program, and the default worker
    (stats/view/worker.go:32-37). *)
Record proc : Type := MkProc { pc_tags : tag_state; pc_worker : wst }.
(** stats/view/worker.go:32-37. *)
Definition proc_init (u : uworld) : proc := MkProc tag_init (new_meter u).

(** stats/record.go:131-161 [RecordWithOptions] with context [c], then
    stats/view/worker.go:208-222 and worker_commands.go:157-169.  [it]: the order in which
    tag.New ranges over the map of [c]; [o]: that of the worker.  Record and
    RecordWithTags are the cases without and with tags (record.go:93-126).  [None]: a
    panic.  A delivery to a recorder of the user's own is not followed further. *)
Definition do_record (p : proc) (c : ctx) (it : list (key * content)) (xs : list ropt) (o : order) (now : time) : option proc :=
  match api_record_opts true (w_subs (pc_worker p)) (st_heap (pc_tags p)) c it xs with
  | (_, RecPanic) => None
  | (h, RecRet _ None) => Some (MkProc (TagState h (st_ctxs (pc_tags p))) (pc_worker p))
  | (h, RecRet _ (Some sn)) =>
      let tags := TagState h (st_ctxs (pc_tags p)) in
      if sn_recorder sn =? default_recorder then
        match handle o (pc_worker p) (sent_cmd sn now) with
        | Some (_, _, w) => Some (MkProc tags w)
        | None => None
        end
      else Some (MkProc tags (pc_worker p))
  end.

(** A command for the worker other than a recording, a use of package tag, a recording.
    (tag/map_codec.go:183-191, tag/map.go:187-209, stats/record.go:93-161,
    stats/view/worker.go:122-256.) *)
Inductive pact : Type :=
| PCmd (o : order) (c : cmd)
| PTag (op : tag_op)
| PRecord (c : ctx) (it : list (key * content)) (xs : list ropt) (o : order) (now : time).

(** One call: stats/record.go:131-161, stats/view/worker.go:287-304. *)
Definition proc_step (p : proc) (a : pact) : option proc :=
  match a with
  | PCmd o c =>
      match handle o (pc_worker p) c with
      | Some (_, _, w) => Some (MkProc (pc_tags p) w)
      | None => None
      end
  | PTag op => Some (MkProc (tag_step (pc_tags p) op) (pc_worker p))
  | PRecord c it xs o now => do_record p c it xs o now
  end.

(** An execution: no code of its own (stats/view/worker.go:287-304). *)
Fixpoint proc_run (p : proc) (l : list pact) : option proc :=
  match l with
  | [] => Some p
  | a :: r => match proc_step p a with Some p' => proc_run p' r | None => None end
  end.
