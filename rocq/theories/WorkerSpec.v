(** Specification of a Meter: what each call returns and exports, as a function
    of the history of calls.  It does not mention the worker's data structures:
    the state is, per name, the registered view, the time it was registered and
    the list of measurements it has received since. *)

From Coq Require Import List Arith ZArith NArith Bool Permutation.
From Verif Require Import Base GoSort Float64 TagModel AggModel CollectorModel CollectorSpec
  ViewModel WorkerModel.
Import ListNotations.
Open Scope nat_scope.

(** ** The view a definition stands for *)

(** Name, measure name, aggregation object, sorted keys, aggregation with sorted
    positive bounds. *)
Record sview : Type := MkSV {
  sv_name : bytes; sv_desc : bytes; sv_keys : list key; sv_measure : measure;
  sv_aggp : nat; sv_agg : aggregation f64_num }.

Definition or_else (a b : bytes) : bytes := match a with [] => b | _ => a end.

Definition printable (c : byte) : bool := (32 <=? b2n c)%N && (b2n c <=? 126)%N.

(** The positive bounds, in increasing order; [None] if a bound is negative. *)
Definition spec_agg (a : aggregation f64_num) : option (aggregation f64_num) :=
  match a with
  | AggDist bounds =>
      if existsb (fun b => f_ltb b f_zero) bounds then None
      else Some (AggDist (F := f64_num) (isort f_less (filter (fun b => f_ltb f_zero b) bounds)))
  | _ => Some a
  end.

(** [None]: the view cannot be registered (no measure, no aggregation, bad name,
    negative bound). *)
Definition spec_view (u : uworld) (p : nat) : option sview :=
  match nth_error (u_views u) p with
  | None => None
  | Some v =>
      match v_measure v, v_agg v with
      | Some me, Some ap =>
          let name := or_else (v_name v) (me_name me) in
          if (length name <=? 255) && forallb printable name then
            match nth_error (u_aggs u) ap with
            | None => None
            | Some a =>
                match spec_agg a with
                | None => None
                | Some a' => Some (MkSV name (or_else (v_desc v) (me_desc me))
                                        (isort bytes_ltb (v_keys v)) me ap a')
                end
            end
          else None
      | _, _ => None
      end
  end.

Definition valid_view (u : uworld) (p : nat) : bool :=
  match spec_view u p with Some _ => true | None => false end.

(** "The same view": the same object, or the same aggregation object on the same
    measure. *)
Definition same_view (u : uworld) (p q : nat) : bool :=
  (p =? q) ||
  match spec_view u p, spec_view u q with
  | Some a, Some b => (sv_aggp a =? sv_aggp b) && bytes_eqb (me_name (sv_measure a)) (me_name (sv_measure b))
  | _, _ => false
  end.

(** ** State *)

Record entry : Type := MkEntry {
  en_view : nat; en_start : time; en_samples : list (option tmap * sample f64_num) }.

Notation sstate := (bytes -> option entry).

Definition s_set (st : sstate) (n : bytes) (e : option entry) : sstate :=
  fun n' => if bytes_eqb n n' then e else st n'.

(** Register of one valid view: nothing changes if the name is taken. *)
Definition s_register (u : uworld) (now : time) (st : sstate) (p : nat) : sstate :=
  match spec_view u p with
  | None => st
  | Some sv => match st (sv_name sv) with
               | Some _ => st
               | None => s_set st (sv_name sv) (Some (MkEntry p now []))
               end
  end.

(** The measurements of a Record call that belong to the measure [name]. *)
Definition samples_for (name : bytes) (tm : option tmap) (ms : list measurement)
                       (att : attachments) (t : time) : list (option tmap * sample f64_num) :=
  flat_map (fun m => match m with
                     | Some (me, v) => if bytes_eqb (me_name me) name
                                       then [(tm, @MkSample f64_num v att t)] else []
                     | None => []
                     end) ms.

Definition s_step (u : uworld) (st : sstate) (c : cmd) : sstate :=
  match c with
  | CmdRegister ps now =>
      if forallb (valid_view u) ps then fold_left (s_register u now) ps st else st
  | CmdUnregister ns _ => fun n => if existsb (bytes_eqb n) ns then None else st n
  | CmdRecord tm ms att t =>
      fun n => match st n with
               | None => None
               | Some e =>
                   match spec_view u (en_view e) with
                   | None => Some e
                   | Some sv => Some (MkEntry (en_view e) (en_start e)
                                        (en_samples e ++ samples_for (me_name (sv_measure sv)) tm ms att t))
                   end
               end
  | _ => st
  end.

Definition s_state (u : uworld) (h : list cmd) : sstate := fold_left (s_step u) h (fun _ => None).

(** The exporters after a history. *)
Definition exporters (h : list cmd) : list nat :=
  fold_left (fun es c => match c with
                         | CmdAddExporter e => if existsb (Nat.eqb e) es then es else es ++ [e]
                         | CmdDelExporter e => filter (fun e' => negb (e' =? e)) es
                         | _ => es
                         end) h [].

(** The resource of the last SetResource. *)
Definition resource_of (h : list cmd) : option nat :=
  fold_left (fun r c => match c with CmdSetResource r' => Some r' | _ => r end) h None.

(** ** Answers *)

(** The views of a Register call that are refused: their name is taken (before the
    call or by an earlier view of the call) by a view that is not the same. *)
Fixpoint conflicts (u : uworld) (now : time) (st : sstate) (ps : list nat) : list nat :=
  match ps with
  | [] => []
  | p :: r =>
      match spec_view u p with
      | None => conflicts u now st r
      | Some sv =>
          match st (sv_name sv) with
          | Some e => if same_view u (en_view e) p then conflicts u now st r
                      else p :: conflicts u now st r
          | None => conflicts u now (s_register u now st p) r
          end
      end
  end.

(** [rows] is the data of the entry. *)
Definition rows_of (u : uworld) (e : entry) (rows : list (list (key * bytes) * agg_data f64_num)) : Prop :=
  exists sv, spec_view u (en_view e) = Some sv /\
             is_group_by (sv_agg sv) (sv_keys sv) (en_samples e) rows.

(** The export of one entry: every exporter gets the same data, once. *)
Definition block_of (u : uworld) (exps : list nat) (now : time) (e : entry) (evs : list event) : Prop :=
  exists rows, rows_of u e rows /\
    Permutation evs (map (fun x => (x, MkData (en_view e) (en_start e) now rows)) exps).

Fixpoint unregister_exports (u : uworld) (exps : list nat) (now : time) (st : sstate)
                            (ns : list bytes) (evs : list event) : Prop :=
  match ns with
  | [] => evs = []
  | n :: r =>
      match st n with
      | None => unregister_exports u exps now st r evs
      | Some e => exists b evs', evs = b ++ evs' /\ block_of u exps now e b /\
                    unregister_exports u exps now (s_set st n None) r evs'
      end
  end.

(** [ns] lists the registered names, each once. *)
Definition lists_names (st : sstate) (ns : list bytes) : Prop :=
  NoDup ns /\ forall n, In n ns <-> st n <> None.

Definition tick_exports (u : uworld) (exps : list nat) (now : time) (st : sstate) (evs : list event) : Prop :=
  exists ns blocks, lists_names st ns /\ evs = concat blocks /\
    Forall2 (fun n b => exists e, st n = Some e /\ block_of u exps now e b) ns blocks.

(** The metric of an entry that has rows. *)
Definition descriptor_of (sv : sview) (d : descriptor) : Prop :=
  md_name d = sv_name sv /\ md_desc d = sv_desc sv /\ md_keys d = sv_keys sv /\
  md_unit d = convert_unit (sv_measure sv) (sv_agg sv) /\
  get_type (sv_measure sv) (sv_agg sv) = Some (md_type d).

(** One time series for a row: a label value per label key, present exactly when
    the row has that tag. *)
Definition series_of (d : descriptor) (now : time) (row : list (key * bytes) * agg_data f64_num)
                     (ts : time_series) : Prop :=
  length (ts_labels ts) = length (md_keys d) /\
  (forall i k l, nth_error (md_keys d) i = Some k -> nth_error (ts_labels ts) i = Some l ->
     forall v, l = Some v <-> In (k, v) (fst row)) /\
  (exists pv, to_point (snd row) (md_type d) = Some pv /\ ts_points ts = [(now, pv)]) /\
  ts_start ts = match snd row with CountD t _ | SumD t _ => Some t | DistD d => Some (d_start d) | LastD _ => None end.

Definition metric_of (u : uworld) (res : option nat) (now : time) (e : entry) (m : metric) : Prop :=
  exists sv rows, spec_view u (en_view e) = Some sv /\ rows_of u e rows /\
    descriptor_of sv (mt_desc m) /\ mt_resource m = res /\
    Forall2 (series_of (mt_desc m) now) rows (mt_series m).

(** Reading yields one metric per registered view that has data. *)
Definition read_metrics (u : uworld) (res : option nat) (now : time) (st : sstate) (ms : list metric) : Prop :=
  exists ns, NoDup ns /\
    (forall n, In n ns <-> exists e, st n = Some e /\ en_samples e <> []) /\
    Forall2 (fun n m => exists e, st n = Some e /\ metric_of u res now e m) ns ms.

(** What a command returns and exports in the state reached by history [h]. *)
Definition answer (u : uworld) (h : list cmd) (c : cmd) (r : resp) (evs : list event) : Prop :=
  let st := s_state u h in
  match c with
  | CmdFind n => evs = [] /\ r = RFind (option_map en_view (st n))
  | CmdRegister ps now =>
      evs = [] /\
      if forallb (valid_view u) ps then
        r = RRegister (match conflicts u now st ps with [] => None | l => Some (inr l) end)
      else exists e, r = RRegister (Some (inl e))
  | CmdUnregister ns now => r = RNone /\ unregister_exports u (exporters h) now st ns evs
  | CmdRetrieve n =>
      evs = [] /\
      match st n with
      | None => r = RRows None
      | Some e => exists rows, r = RRows (Some rows) /\ rows_of u e rows
      end
  | CmdTick now => r = RNone /\ tick_exports u (exporters h) now st evs
  | CmdRead now => evs = [] /\ exists ms, r = RMetrics ms /\ read_metrics u (resource_of h) now st ms
  | _ => evs = [] /\ r = RNone
  end.

(** ** Admissible users *)

(** The user's objects: aggregation pointers are valid, bounds are float64 values,
    measures come from stats.Int64 or stats.Float64. *)
Definition u_ok (u : uworld) : Prop :=
  (forall p v ap, nth_error (u_views u) p = Some v -> v_agg v = Some ap -> ap < length (u_aggs u)) /\
  (forall ap bounds, nth_error (u_aggs u) ap = Some (AggDist bounds) -> Forall f_valid bounds) /\
  (forall p v me, nth_error (u_views u) p = Some v -> v_measure v = Some me -> me_kind me <> MOther).

Definition cmd_ok (u : uworld) (c : cmd) : Prop :=
  match c with
  | CmdRegister ps _ => Forall (fun p => p < length (u_views u)) ps
  | CmdRecord tm _ _ _ => short_values tm
  | _ => True
  end.
