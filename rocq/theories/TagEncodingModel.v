(** Model of internal/tagencoding/tagencoding.go, the byte encoding of value lists
    used for the rows of views (stats/view/collector.go) and the entries of gauges
    and cumulatives (metric/common.go).  Definitions only. *)

From Coq Require Import List Arith NArith Bool.
From Verif Require Import Base.
Import ListNotations.

(** internal/tagencoding/tagencoding.go:21-25 [Values], writing side: buffer and
    write index. *)
Record wbuf : Type := MkW { w_buf : bytes; w_idx : nat }.

(** Go's [copy(buf[i:], v)]; writes past the end are cut off. (Used at
    internal/tagencoding/tagencoding.go:50.) *)
Fixpoint write_at (buf : bytes) (i : nat) (v : bytes) {struct buf} : bytes :=
  match buf, i with
  | [], _ => []
  | b :: r, S j => b :: write_at r j v
  | b :: r, O => match v with
                 | [] => b :: r
                 | x :: v' => x :: write_at r O v'
                 end
  end.

(** internal/tagencoding/tagencoding.go:27-33 [growIfRequired]. *)
Definition grow_if_required (w : wbuf) (expected : nat) : wbuf :=
  if (length (w_buf w) - w_idx w <? expected)%nat then
    MkW (write_at (repeat (n2b 0) (2 * (length (w_buf w) + 1) + expected)) 0 (w_buf w)) (w_idx w)
  else w.

(** internal/tagencoding/tagencoding.go:36-52 [WriteValue].  [None]: the index
    expression of line 41 panics (never happens, see the proofs). *)
Definition write_value (w0 : wbuf) (v : bytes) : option wbuf :=
  let len := N.to_nat (N.land (N.of_nat (length v)) 255) in
  let w := grow_if_required w0 (1 + len) in
  if (w_idx w <? length (w_buf w))%nat then
    let w := MkW (write_at (w_buf w) (w_idx w) [n2b (N.of_nat len)]) (w_idx w + 1) in
    if (len =? 0)%nat then Some w
    else Some (MkW (write_at (w_buf w) (w_idx w) (firstn len v)) (w_idx w + len))
  else None.

(** internal/tagencoding/tagencoding.go:73-75 [Bytes]. *)
Definition w_bytes (w : wbuf) : bytes := firstn (w_idx w) (w_buf w).

(** WriteValue of one value after the other (internal/tagencoding/tagencoding.go:36-52;
    metric/common.go:97-104, stats/view/collector.go:72-75). *)
Fixpoint write_values (w : wbuf) (vs : list bytes) : option wbuf :=
  match vs with
  | [] => Some w
  | v :: r => match write_value w v with Some w' => write_values w' r | None => None end
  end.

(** internal/tagencoding/tagencoding.go:55-70 [ReadValue].  The reader is the part
    of the buffer from the read index on; [None] is an out-of-range panic; the
    value [None] inside is Go's nil. *)
Definition read_value (r : bytes) : option (option bytes * bytes) :=
  match r with
  | [] => None
  | c :: r =>
      let len := N.to_nat (b2n c) in
      if (len =? 0)%nat then Some (None, r)
      else if (len <=? length r)%nat then Some (Some (firstn len r), skipn len r)
      else None
  end.
