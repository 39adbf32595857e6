(** Vocabulary for the properties of a process that records and views. *)

From Coq Require Import List Arith NArith ZArith Bool.
From Verif Require Import Base GoMap Float64 TagModel TagSpec AggModel CollectorSpec ViewModel WorkerModel WorkerSpec
  RecordModel ProcessModel.
Import ListNotations.
Open Scope nat_scope.

(** What the program may do in state [p]: any command with arguments as in C14, tags with
    keys made by NewKey, recordings of measurements made by the M methods, with a context
    it has. *)
Definition pact_ok (u : uworld) (p : proc) (a : pact) : Prop :=
  match a with
  | PCmd _ (CmdRecord _ _ _ _) => False
  | PCmd _ c => cmd_ok u c
  | PTag (OpNew i it ms) =>
      iterates (st_heap (pc_tags p)) (nth i (st_ctxs (pc_tags p)) None) it /\ forall mu, In mu ms -> valid_key (mutator_key mu)
  | PTag (OpDecode _ _) => True
  | PRecord c it xs _ _ =>
      In c (None :: st_ctxs (pc_tags p)) /\ iterates (st_heap (pc_tags p)) c it /\
      (forall ms, In (WithMeasurements ms) xs -> ~ In None ms) /\
      (forall mus mu, In (WithTags mus) xs -> In mu mus -> valid_key (mutator_key mu))
  end.

Fixpoint pacts_ok (u : uworld) (p : proc) (l : list pact) : Prop :=
  match l with
  | [] => True
  | a :: r => pact_ok u p a /\ match proc_step p a with Some p' => pacts_ok u p' r | None => True end
  end.

(** The options of a recording: the last of each kind counts. *)
Definition last_given {A} (f : ropt -> option A) (xs : list ropt) : option A :=
  fold_left (fun a x => match f x with Some v => Some v | None => a end) xs None.
Definition given_ms (xs : list ropt) : list measurement :=
  match last_given (fun x => match x with WithMeasurements m => Some m | _ => None end) xs with Some m => m | None => [] end.
Definition given_tags (xs : list ropt) : list mutator :=
  match last_given (fun x => match x with WithTags m => Some m | _ => None end) xs with Some m => m | None => [] end.
Definition given_att (xs : list ropt) : attachments :=
  match last_given (fun x => match x with WithAttachments m => Some m | _ => None end) xs with Some m => m | None => [] end.
(** The recorder of the user's own, if any. *)
Definition given_rec (xs : list ropt) : option nat :=
  match last_given (fun x => match x with WithRecorder m => Some m | _ => None end) xs with Some m => m | None => None end.

(** Is the value a legal tag value? *)
Definition legal (v : bytes) : bool := (length v <=? 255) && forallb (fun b => (32 <=? b2n b)%N && (b2n b <=? 126)%N) v.
Definition legal_mutator (mu : mutator) : bool :=
  match mu with Insert _ v _ | Update _ v _ | Upsert _ v _ => legal v | Delete _ => true end.

(** The tags of a row for a set of tags: the view's keys with a value that is not empty. *)
Definition tags_shown (keys : list key) (f : fmap) : list (key * bytes) :=
  flat_map (fun k => match f k with Some c => match c_value c with [] => [] | v => [(k, v)] end | None => [] end) keys.

(** The samples of measure [m] that a recording is to add to a view with the given keys:
    its measurements of that measure, with the tags of the context after the mutators; none
    if a mutator has an illegal value, or if the recording goes elsewhere. *)
Definition samples_of (hp : heap) (keys : list key) (m : bytes) (c : ctx) (xs : list ropt) (now : time)
  : list (list (key * bytes) * sample f64_num) :=
  match given_rec xs with
  | Some (S _) => []
  | _ =>
      if forallb legal_mutator (given_tags xs) then
        let tags := tags_shown keys (fold_left (fun f mu => spec_mutate mu f) (given_tags xs) (ctx_fun hp c)) in
        flat_map (fun x => match x with
                           | Some (me, v) => if bytes_eqb (me_name me) m then [(tags, @MkSample f64_num v (given_att xs) now)] else []
                           | None => []
                           end) (given_ms xs)
      else []
  end.

(** All samples of a list of actions. *)
Definition all_samples (hp : heap) (keys : list key) (m : bytes) (l : list pact) : list (list (key * bytes) * sample f64_num) :=
  flat_map (fun a => match a with PRecord c _ xs _ now => samples_of hp keys m c xs now | _ => [] end) l.

(** [rows] are the samples grouped by their tags: one row for every combination of tags
    seen, with the aggregate of its samples in order, begun at the time of the first. *)
Definition grouped (agg : aggregation f64_num) (ss : list (list (key * bytes) * sample f64_num))
                   (rows : list (list (key * bytes) * agg_data f64_num)) : Prop :=
  NoDup (map fst rows) /\
  forall tags data, In (tags, data) rows <->
    exists s0 rest, map snd (filter (fun x => tags_eqb (fst x) tags) ss) = s0 :: rest /\
                    data = aggregate agg (s_time s0) (s0 :: rest).

Definition unregisters_name (n : bytes) (a : pact) : Prop :=
  match a with PCmd _ (CmdUnregister ns _) => In n ns | _ => False end.
