(** Model of stats/record.go and of the subscription flag of stats/measure.go.
    Definitions only. *)

From Coq Require Import List Arith ZArith Bool.
From Verif Require Import Base GoMap Float64 TagModel AggModel ViewModel WorkerModel.
Import ListNotations.
Open Scope nat_scope.

(** What a recorder is handed (stats/record.go:36-40, view/worker.go:199-222):
    recorder, tag map, measurements, attachments. *)
Record sent : Type := MkSent {
  sn_recorder : nat; sn_tags : option tmap; sn_ms : list measurement; sn_att : attachments }.

(** The recorder of the default worker. stats/view/worker.go:35-36. *)
Definition default_recorder : nat := 0.

(** stats/measure.go:63-69 [subscribe]/[subscribed], stats/record.go:105-111 and
    143-149: is any measurement's measure subscribed?  [None] is the nil
    dereference for a zero Measurement, reached only if no earlier measurement
    is subscribed. *)
Fixpoint any_subscribed (subs : list bytes) (ms : list measurement) : option bool :=
  match ms with
  | [] => Some false
  | None :: _ => None
  | Some (me, _) :: r =>
      if existsb (bytes_eqb (me_name me)) subs then Some true else any_subscribed subs r
  end.

(** Result of a call: the error it returns and what it sends. (stats/record.go:93-161.) *)
Inductive rec_out : Type :=
| RecPanic
| RecRet (err : option tag_err) (snt : option sent).

(** stats/record.go:93-117 [Record].  [linked]: package view is in the program, so
    that the recorder is set. *)
Definition api_record (linked : bool) (subs : list bytes) (h : heap) (c : ctx)
                      (ms : list measurement) : rec_out :=
  match ms with
  | [] => RecRet None None
  | _ =>
      if negb linked then RecRet None None
      else match any_subscribed subs ms with
           | None => RecPanic
           | Some false => RecRet None None
           | Some true => RecRet None (Some (MkSent default_recorder (ctx_map h c) ms []))
           end
  end.

(** stats/record.go:42-47 [recordOptions]. *)
Record ropts : Type := MkRopts {
  ro_att : attachments; ro_mut : list mutator; ro_ms : list measurement; ro_rec : option nat }.
(** stats/record.go:50-79 [Options]. *)
Inductive ropt : Type :=
| WithAttachments (a : attachments)
| WithTags (ms : list mutator)
| WithMeasurements (ms : list measurement)
| WithRecorder (r : option nat).

(** stats/record.go:50-76, the functions returned. *)
Definition apply_opt (o : ropts) (x : ropt) : ropts :=
  match x with
  | WithAttachments a => MkRopts a (ro_mut o) (ro_ms o) (ro_rec o)
  | WithTags m => MkRopts (ro_att o) m (ro_ms o) (ro_rec o)
  | WithMeasurements m => MkRopts (ro_att o) (ro_mut o) m (ro_rec o)
  | WithRecorder r => MkRopts (ro_att o) (ro_mut o) (ro_ms o) r
  end.

(** stats/record.go:81-87 [createRecordOption]. *)
Definition create_record_option (xs : list ropt) : ropts :=
  fold_left apply_opt xs (MkRopts [] [] [] None).

(** stats/record.go:131-161 [RecordWithOptions].  [it] is the order in which
    tag.New ranges over the context's map.  Returns the heap too, because tag.New
    allocates a map. *)
Definition api_record_opts (linked : bool) (subs : list bytes) (h : heap) (c : ctx)
                           (it : list (key * content)) (xs : list ropt) : heap * rec_out :=
  let o := create_record_option xs in
  match ro_ms o with
  | [] => (h, RecRet None None)
  | _ =>
      match (match ro_rec o with
             | Some r => Some r
             | None => if linked then Some default_recorder else None
             end) with
      | None => (h, RecRet None None)
      | Some r =>
          match any_subscribed subs (ro_ms o) with
          | None => (h, RecPanic)
          | Some false => (h, RecRet None None)
          | Some true =>
              match ro_mut o with
              | [] => (h, RecRet None (Some (MkSent r (ctx_map h c) (ro_ms o) (ro_att o))))
              | _ =>
                  match tag_new h c it (ro_mut o) with
                  | (h', c', Some e) => (h', RecRet (Some e) None)
                  | (h', c', None) => (h', RecRet None (Some (MkSent r (ctx_map h' c') (ro_ms o) (ro_att o))))
                  end
              end
          end
      end
  end.

(** stats/record.go:124-126 [RecordWithTags]. *)
Definition api_record_tags (linked : bool) (subs : list bytes) (h : heap) (c : ctx)
                           (it : list (key * content)) (mu : list mutator) (ms : list measurement) : heap * rec_out :=
  api_record_opts linked subs h c it [WithTags mu; WithMeasurements ms].

(** stats/view/worker.go:214-222 [recordMeasurement]: what the default worker
    enqueues. *)
Definition sent_cmd (s : sent) (now : time) : cmd := CmdRecord (sn_tags s) (sn_ms s) (sn_att s) now.
