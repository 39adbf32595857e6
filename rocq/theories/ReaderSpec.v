(** What a history of an interval reader may look like: a small machine over what happens.

    It knows whether the reader runs, who exports, and whether a tick waits. *)

From Coq Require Import List ZArith Bool.
From Verif Require Import Base ReaderModel.
Import ListNotations.

Record rspec : Type := MkRS { rs_running : bool; rs_exporting : option rsrc; rs_tick : bool }.

Definition interval_ok (iv : Z) : bool := (iv =? 0)%Z || (1000000000 <=? iv)%Z.

Definition rspec_step (x : rspec) (e : rev_) : option rspec :=
  match e with
  (* Start succeeds only on a stopped reader with a good interval; the period is the
     interval, or 60 s where it is 0. *)
  | RvStarted iv p =>
      if negb (rs_running x) && interval_ok iv && (p =? if (iv =? 0) then 60000000000 else iv)%Z
      then match rs_exporting x with None => Some (MkRS true None false) | Some _ => None end
      else None
  (* Start fails only for a bad interval or on a running reader. *)
  | RvStartErr iv ErrTooLow => if negb (interval_ok iv) then Some x else None
  | RvStartErr iv ErrAlreadyStarted => if interval_ok iv && rs_running x then Some x else None
  (* When Stop returns no export is going on. *)
  | RvStopped => match rs_exporting x with None => Some (MkRS false None false) | Some _ => None end
  (* Flush does nothing on a running reader. *)
  | RvSkip => if rs_running x then Some x else None
  (* Flush exports on a stopped reader only, the loop on a running one only, once for a
     tick, and never while another export is going on. *)
  | RvBegin SrcFlush => if negb (rs_running x) then match rs_exporting x with None => Some (MkRS false (Some SrcFlush) (rs_tick x)) | Some _ => None end else None
  | RvBegin SrcLoop => if rs_running x && rs_tick x then match rs_exporting x with None => Some (MkRS true (Some SrcLoop) false) | Some _ => None end else None
  | RvEnd SrcFlush => match rs_exporting x with Some SrcFlush => Some (MkRS (rs_running x) None (rs_tick x)) | _ => None end
  | RvEnd SrcLoop => match rs_exporting x with Some SrcLoop => Some (MkRS (rs_running x) None (rs_tick x)) | _ => None end
  (* The ticker fires on a running reader only. *)
  | RvTick => if rs_running x then Some (MkRS true (rs_exporting x) true) else None
  end.

Fixpoint rspec_run (x : rspec) (h : list rev_) : option rspec :=
  match h with
  | [] => Some x
  | e :: r => match rspec_step x e with Some y => rspec_run y r | None => None end
  end.
Definition rspec_init : rspec := MkRS false None false.
