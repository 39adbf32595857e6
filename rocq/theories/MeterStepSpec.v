(** What the small steps of a Meter amount to. *)

From Coq Require Import List Arith ZArith Bool.
From Verif Require Import Base Float64 TagModel AggModel ViewModel WorkerModel WorkerSpec MeterStepModel.
Import ListNotations.
Open Scope nat_scope.

(** The commands that have the effects of a log, one after the other. *)
Definition atom_cmds (l : list atom) : list cmd :=
  flat_map (fun a => match a with
                     | ACmd c _ => [c]
                     | AExport _ _ _ => []
                     | ARemove n => [CmdUnregister [n] 0%Z]
                     end) l.
Definition log_cmds (l : list (bool * atom)) : list cmd := atom_cmds (map snd l).

(** An effect is right after history [h]: a command answers as specified in WorkerSpec.v, an export gives the
    view's data to every exporter there is. *)
Definition atom_ok (u : uworld) (h : list cmd) (a : atom) : Prop :=
  match a with
  | ACmd c r => answer u h c r []
  | AExport n now evs => exists e, s_state u h n = Some e /\ block_of u (exporters h) now e evs
  | ARemove n => s_state u h n <> None
  end.

(** The effects of Unregister: every view that is registered is exported, then removed. *)
Fixpoint unregister_atoms (u : uworld) (h : list cmd) (ns : list bytes) (now : time) (l : list atom) : Prop :=
  match ns with
  | [] => l = []
  | n :: r =>
      match s_state u h n with
      | None => unregister_atoms u h r now l
      | Some _ => exists evs l', l = AExport n now evs :: ARemove n :: l' /\
                    unregister_atoms u (h ++ [CmdUnregister [n] 0%Z]) r now l'
      end
  end.

(** The effects of a command the worker receives after history [h]; a tick exports every view once. *)
Definition command_atoms (u : uworld) (h : list cmd) (c : cmd) (l : list atom) : Prop :=
  match c with
  | CmdUnregister ns now => unregister_atoms u h ns now l
  | CmdTick now => exists ns, lists_names (s_state u h) ns /\ Forall2 (fun n a => exists evs, a = AExport n now evs) ns l
  | _ => exists r, l = [ACmd c r]
  end.

(** The effects of the commands [cs], one after the other. *)
Inductive worker_atoms (u : uworld) : list cmd -> list atom -> Prop :=
| wa_nil : worker_atoms u [] []
| wa_snoc cs l c l' : worker_atoms u cs l -> command_atoms u (atom_cmds l) c l' -> worker_atoms u (cs ++ [c]) (l ++ l').

Definition sets_resource (x : bool * atom) : bool := match snd x with ACmd (CmdSetResource _) _ => true | _ => false end.

(** Between two positions of a log. *)
Definition between {A} (i j : nat) (l : list A) : list A := firstn (j - i) (skipn i l).

Definition fop_ok (u : uworld) (a : fop) : Prop := match a with FStart _ c => cmd_ok u c | _ => True end.
