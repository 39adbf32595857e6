(** Model of what Record keeps of its arguments: the slice of measurements and the map of
    attachments go to the worker by reference, and the worker reads them later, while the
    program runs on (stats/record.go, stats/view/worker.go, worker_commands.go,
    aggregation_data.go).  Definitions only.

    Simplifications: every measurement's measure has views; the views' data are not here but
    only what the worker reads for them.  The capacity of the channel is not here
    (QueueModel.v): a call is where its send takes effect. *)

From Coq Require Import List Arith ZArith Bool.
From Verif Require Import Base GoMap Float64 TagModel AggModel ViewModel WorkerModel SliceViewModel.
Import ListNotations.
Open Scope nat_scope.

(** stats/view/worker_commands.go:150-155 [recordReq]; [rq_att]: the map, [None] if nil. *)
Record rreq : Type := MkReq {
  rq_tags : option tmap; rq_ms : slice; rq_att : option nat; rq_t : time }.

(** What the worker has read for a measurement of a call (stats/view/worker_commands.go:166;
    [sa_call] numbers the calls).  An exemplar of it keeps the map
    (aggregation_data.go:214-218). *)
Record rsample : Type := MkSample {
  sa_call : nat; sa_tags : option tmap; sa_m : measurement; sa_att : option nat; sa_t : time }.

(** The arrays of measurements, those of them the program has no reference to, the maps of
    attachments, the number of calls so far, the channel, the request being handled and
    the index reached in its slice, and what has been read (stats/view/worker.go:44-57,
    worker_commands.go:150-169). *)
Record rstate : Type := MkR {
  rs_arrs : list (list measurement); rs_hidden : list nat; rs_maps : list attachments; rs_calls : nat;
  rs_queue : list (nat * rreq); rs_cur : option (nat * rreq * nat); rs_log : list rsample }.

(** The start: NewMeter (stats/view/worker.go:261-273). *)
Definition ra_init : rstate := MkR [] [] [] 0 [] None [].

(** What can happen next. *)
Inductive rop : Type :=
| RNewArr (ms : list measurement)                              (* the program makes a slice *)
| RSetElem (a i : nat) (m : measurement)                       (* and writes to it *)
| RNewMap (m : attachments)                                    (* it makes attachments *)
| RSetMap (p : nat) (m : attachments)                          (* and writes to them *)
| RRecord (tags : option tmap) (s : slice) (att : option nat) (t : time)                (* Record(ctx, ms...) *)
| RRecordArgs (tags : option tmap) (ms : list measurement) (att : option nat) (t : time) (* Record(ctx, m1, m2) *)
| RTake                                                        (* the worker receives *)
| RNext.                                                       (* it handles the next measurement *)

(** stats/view/worker.go:214-222 [recordMeasurement]. *)
Definition ra_send (s : rstate) (arrs : list (list measurement)) (hidden : list nat) (q : rreq) : rstate :=
  MkR arrs hidden (rs_maps s) (S (rs_calls s)) (rs_queue s ++ [(rs_calls s, q)]) (rs_cur s) (rs_log s).

(** One step; [None] if it cannot happen.  The calls: stats/record.go:93-161 (a subscribed
    measure), worker.go:214-222; with single arguments Go makes an array for them that the
    program has no reference to.  The worker: worker.go:293-294, worker_commands.go:157-169;
    range reads element after element. *)
Definition ra_step (s : rstate) (o : rop) : option rstate :=
  match o with
  | RNewArr ms => Some (MkR (rs_arrs s ++ [ms]) (rs_hidden s) (rs_maps s) (rs_calls s) (rs_queue s) (rs_cur s) (rs_log s))
  | RSetElem a i m =>
      if existsb (Nat.eqb a) (rs_hidden s) then None
      else match nth_error (rs_arrs s) a with
           | Some l =>
               if i <? length l
               then Some (MkR (upd (rs_arrs s) a (fun l => upd l i (fun _ => m))) (rs_hidden s) (rs_maps s) (rs_calls s)
                              (rs_queue s) (rs_cur s) (rs_log s))
               else None
           | None => None
           end
  | RNewMap m => Some (MkR (rs_arrs s) (rs_hidden s) (rs_maps s ++ [m]) (rs_calls s) (rs_queue s) (rs_cur s) (rs_log s))
  | RSetMap p m =>
      if p <? length (rs_maps s)
      then Some (MkR (rs_arrs s) (rs_hidden s) (upd (rs_maps s) p (fun _ => m)) (rs_calls s) (rs_queue s) (rs_cur s) (rs_log s))
      else None
  | RRecord tags sl att t =>
      if sfits (rs_arrs s) sl && negb (existsb (Nat.eqb (sl_arr sl)) (rs_hidden s)) &&
         match att with Some p => p <? length (rs_maps s) | None => true end
      then Some (ra_send s (rs_arrs s) (rs_hidden s) (MkReq tags sl att t)) else None
  | RRecordArgs tags ms att t =>
      if match att with Some p => p <? length (rs_maps s) | None => true end
      then let a := length (rs_arrs s) in
           Some (ra_send s (rs_arrs s ++ [ms]) (a :: rs_hidden s) (MkReq tags (MkSlice a 0 (length ms)) att t))
      else None
  | RTake =>
      match rs_cur s, rs_queue s with
      | None, (c, q) :: r => Some (MkR (rs_arrs s) (rs_hidden s) (rs_maps s) (rs_calls s) r (Some (c, q, 0)) (rs_log s))
      | _, _ => None
      end
  | RNext =>
      match rs_cur s with
      | Some (c, q, i) =>
          match nth_error (sread (rs_arrs s) (rq_ms q)) i with
          | Some m => Some (MkR (rs_arrs s) (rs_hidden s) (rs_maps s) (rs_calls s) (rs_queue s) (Some (c, q, S i))
                                (rs_log s ++ [MkSample c (rq_tags q) m (rq_att q) (rq_t q)]))
          | None => Some (MkR (rs_arrs s) (rs_hidden s) (rs_maps s) (rs_calls s) (rs_queue s) None (rs_log s))
          end
      | None => None
      end
  end.

(** A history: no code of its own (stats/view/worker.go:287-296). *)
Fixpoint ra_run (s : rstate) (ops : list rop) : option rstate :=
  match ops with
  | [] => Some s
  | o :: r => match ra_step s o with Some s' => ra_run s' r | None => None end
  end.
