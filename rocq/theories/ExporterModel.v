(** Model of concurrent RegisterExporter, UnregisterExporter (trace/export.go:36-71) and
    of the walk over the exporters in Span.End (trace/trace.go:288-301).  Definitions
    only.

    Maps are objects in a heap, so that sharing and in-place changes would be seen.  An
    execution is a sequence of choices, each naming a goroutine.  Exporters are known by
    numbers; [hash e] says whether e's dynamic type can be a map key. *)

From Coq Require Import List Arith Bool.
From Verif Require Import Base AggModel.
Import ListNotations.
Open Scope nat_scope.

(** What a goroutine calls (trace/export.go:45, 60, trace/trace.go:288). *)
Inductive xop : Type :=
| XReg (e : nat)      (* RegisterExporter *)
| XUnreg (e : nat)    (* UnregisterExporter *)
| XEnd.               (* the part of End that gives the span to the exporters *)

(** Where a goroutine is.
    XCalled: entered, before exporterMu.Lock() or, in End, before exporters.Load().
    XLocked: exporterMu.Lock() has returned (export.go:46, 61).
    XCopy n old done: new map n made, old map loaded, the keys [done] copied (47-52, 62-67).
    XMade n: past new[e] = struct{}{} or delete(new, e) (53, 68).
    XStored: past exporters.Store(new) (54, 69).
    XPanicked: new[e] or delete panicked, exporterMu still locked.
    XIter a vis: in End, ranging over the loaded map, the exporters [vis] called. *)
Inductive xpc : Type :=
| XIdle | XCalled | XLocked
| XCopy (n : nat) (old : option nat) (done : list nat)
| XMade (n : nat)
| XStored
| XPanicked
| XIter (a : option nat) (vis : list nat).

(** A goroutine: the calls it has still to make, and where it is (trace/export.go:45-71). *)
Record xg : Type := MkXG { xg_todo : list xop; xg_pc : xpc }.

(** History of what the goroutines did; only for stating properties. *)
Inductive xev : Type :=
| EvBegin (g : nat) (op : xop)
| EvStore (g : nat) (op : xop)
| EvLoad (g : nat)
| EvDone (g : nat) (vis : list nat).

(** [x_pub]: the atomic.Value, None before the first Store. The heap of maps, exporterMu
    (its holder) and exporters (trace/export.go:36-39). *)
Record xst : Type := MkX {
  x_gs : list xg;
  x_heap : list (list nat);
  x_pub : option nat;
  x_mu : option nat;
  x_hist : list xev }.

(** The start of the program (trace/export.go:36-39). *)
Definition x_init (progs : list (list xop)) : xst := MkX (map (fun p => MkXG p XIdle) progs) [] None None [].

(** XDo g: g's next step. XKey g k: g's range statement comes to the key k.
    (trace/export.go:49, 64, trace/trace.go:297.) *)
Inductive xchoice : Type := XDo (g : nat) | XKey (g k : nat).

(** The keys of a map; a nil map (no Store yet) has none. (trace/export.go:34, 48, 63.) *)
Definition keys_at (h : list (list nat)) (a : option nat) : list nat :=
  match a with Some n => nth n h [] | None => [] end.

(** Whether a map has a key (trace/export.go:34). *)
Definition mem (e : nat) (l : list nat) : bool := existsb (Nat.eqb e) l.
(** trace/export.go:53: new[e] = struct{}{}. *)
Definition put_key (e : nat) (l : list nat) : list nat := if mem e l then l else l ++ [e].
(** trace/export.go:68: delete(new, e). *)
Definition del_key (e : nat) (l : list nat) : list nat := filter (fun x => negb (x =? e)) l.

(** Goroutine [g] goes on (no code of its own; trace/export.go:45-71). *)
Definition xset (s : xst) (g : nat) (x : xg) : list xg := upd (x_gs s) g (fun _ => x).

(** One step; None if the choice is not possible. (trace/export.go:45-71,
    trace/trace.go:288-301.) *)
Definition xstep (hash : nat -> bool) (s : xst) (c : xchoice) : option xst :=
  match c with
  | XDo g =>
      match nth_error (x_gs s) g with
      | Some (MkXG (op :: rest) pc) =>
          let go pc' heap pub mu ev := Some (MkX (xset s g (MkXG (op :: rest) pc')) heap pub mu (x_hist s ++ ev)) in
          let fin heap pub mu ev := Some (MkX (xset s g (MkXG rest XIdle)) heap pub mu (x_hist s ++ ev)) in
          match pc, op with
          | XIdle, _ => go XCalled (x_heap s) (x_pub s) (x_mu s) [EvBegin g op]
          (* trace/trace.go:288 *)
          | XCalled, XEnd => go (XIter (x_pub s) []) (x_heap s) (x_pub s) (x_mu s) [EvLoad g]
          (* trace/export.go:46, 61 *)
          | XCalled, _ =>
              match x_mu s with
              | None => go XLocked (x_heap s) (x_pub s) (Some g) []
              | Some _ => None
              end
          (* trace/export.go:47-48, 62-63 *)
          | XLocked, _ => go (XCopy (length (x_heap s)) (x_pub s) []) (x_heap s ++ [[]]) (x_pub s) (x_mu s) []
          (* trace/export.go:53, 68: all keys copied *)
          | XCopy n old done, XReg e =>
              if forallb (fun k => mem k done) (keys_at (x_heap s) old) then
                if hash e then go (XMade n) (upd (x_heap s) n (put_key e)) (x_pub s) (x_mu s) []
                else go XPanicked (x_heap s) (x_pub s) (x_mu s) []
              else None
          | XCopy n old done, XUnreg e =>
              if forallb (fun k => mem k done) (keys_at (x_heap s) old) then
                if hash e then go (XMade n) (upd (x_heap s) n (del_key e)) (x_pub s) (x_mu s) []
                else go XPanicked (x_heap s) (x_pub s) (x_mu s) []
              else None
          (* trace/export.go:54, 69 *)
          | XMade n, _ => go XStored (x_heap s) (Some n) (x_mu s) [EvStore g op]
          (* trace/export.go:55, 70 *)
          | XStored, _ => fin (x_heap s) (x_pub s) None [EvDone g []]
          (* trace/trace.go:296-300: the range statement ends *)
          | XIter a vis, _ =>
              if forallb (fun k => mem k vis) (keys_at (x_heap s) a) then fin (x_heap s) (x_pub s) (x_mu s) [EvDone g vis]
              else None
          | _, _ => None
          end
      | _ => None
      end
  | XKey g k =>
      match nth_error (x_gs s) g with
      | Some (MkXG todo (XCopy n old done)) =>
          (* trace/export.go:49-51, 64-66 *)
          if mem k (keys_at (x_heap s) old) && negb (mem k done) then
            Some (MkX (xset s g (MkXG todo (XCopy n old (done ++ [k])))) (upd (x_heap s) n (put_key k)) (x_pub s) (x_mu s) (x_hist s))
          else None
      | Some (MkXG todo (XIter a vis)) =>
          (* trace/trace.go:297-299: e.ExportSpan *)
          if mem k (keys_at (x_heap s) a) && negb (mem k vis) then
            Some (MkX (xset s g (MkXG todo (XIter a (vis ++ [k])))) (x_heap s) (x_pub s) (x_mu s) (x_hist s))
          else None
      | _ => None
      end
  end.

(** An execution (no code of its own; trace/export.go:45-71, trace/trace.go:288-301). *)
Fixpoint xrun (hash : nat -> bool) (s : xst) (cs : list xchoice) : option xst :=
  match cs with
  | [] => Some s
  | c :: r => match xstep hash s c with Some s' => xrun hash s' r | None => None end
  end.
