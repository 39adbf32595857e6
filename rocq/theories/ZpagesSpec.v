(** Specification vocabulary for the zPages. *)

From Coq Require Import String.
From Coq Require Import List Arith NArith ZArith Bool Permutation Sorted.
From Coq Require Import Floats.SpecFloat.
From Verif Require Import Base GoMap GoSort Float64 TagModel AggModel TraceTypes TraceModel SpanStoreSpec TracerModel TracerSpec HttpSpec GrpcModel ZpagesModel.
Import ListNotations.
Open Scope nat_scope.

(** ** tracez *)

(** What the user sees as the range of latency column [j], in nanoseconds: from 0, 10us,
    100us, 1ms, 10ms, 100ms, 1s, 10s, 1min up to the next one. *)
Definition column_from (j : nat) : Z := nth j [0; 10000; 100000; 1000000; 10000000; 100000000; 1000000000; 10000000000; 60000000000]%Z 0%Z.

(** The column a span of latency [d] belongs to. *)
Definition in_column (j : nat) (d : Z) : bool :=
  (column_from j <=? d)%Z && (if j =? 8 then true else (d <? column_from (S j))%Z).

(** What its link lists: both ends included, 100s instead of 1min, no spans of negative
    latency. *)
Definition link_listed (j : nat) (sd : sdata) : bool :=
  (nth j [0; 10000; 100000; 1000000; 10000000; 100000000; 1000000000; 10000000000; 100000000000] 0 <=? latency sd)%Z &&
  (nth j [latency sd <=? 10000; latency sd <=? 100000; latency sd <=? 1000000; latency sd <=? 10000000; latency sd <=? 100000000;
          latency sd <=? 1000000000; latency sd <=? 10000000000; latency sd <=? 100000000000; true] false)%Z.

(** Latencies on which the two agree. *)
Definition plain_latency (d : Z) : Prop :=
  (0 <= d)%Z /\ ~ (60000000000 <= d <= 100000000000)%Z /\
  ~ In d [10000; 100000; 1000000; 10000000; 100000000; 1000000000; 10000000000]%Z.

(** Names that have a row: spans were started under it, or its sizes were configured. *)
Definition has_row (h : hist) (name : bytes) : Prop :=
  (exists i, name_is (creates h) i name = true /\ did (is_add i) h <> []) \/
  exists a b, In (TConfigureBucket name a b) (map fst h).

(** The canonical status codes, as rpc/code.proto of Google APIs names them; any other
    number is shown as such. *)
Definition code_shown (c : Z) (s : bytes) : Prop :=
  match c with
  | 0%Z => s = bs "OK" | 1%Z => s = bs "CANCELLED" | 2%Z => s = bs "UNKNOWN" | 3%Z => s = bs "INVALID_ARGUMENT"
  | 4%Z => s = bs "DEADLINE_EXCEEDED" | 5%Z => s = bs "NOT_FOUND" | 6%Z => s = bs "ALREADY_EXISTS"
  | 7%Z => s = bs "PERMISSION_DENIED" | 8%Z => s = bs "RESOURCE_EXHAUSTED" | 9%Z => s = bs "FAILED_PRECONDITION"
  | 10%Z => s = bs "ABORTED" | 11%Z => s = bs "OUT_OF_RANGE" | 12%Z => s = bs "UNIMPLEMENTED" | 13%Z => s = bs "INTERNAL"
  | 14%Z => s = bs "UNAVAILABLE" | 15%Z => s = bs "DATA_LOSS" | 16%Z => s = bs "UNAUTHENTICATED"
  | _ => exists d, decimal c d /\ s = bs "error code " ++ d
  end.

(** ** The rows of a span *)

(** Reading the elapsed column: blanks, an optional minus sign, seconds, then either a
    point and six digits, or an s.  Gives microseconds. *)
Definition digitb (b : byte) : bool := (48 <=? b2n b)%N && (b2n b <=? 57)%N.
Fixpoint after_blanks (s : bytes) : bytes :=
  match s with
  | b :: r => if (b2n b =? 32)%N then after_blanks r else s
  | [] => []
  end.
Fixpoint span_digits (acc : Z) (s : bytes) : Z * bytes :=
  match s with
  | b :: r => if digitb b then span_digits (10 * acc + (Z.of_N (b2n b) - 48))%Z r else (acc, s)
  | [] => (acc, [])
  end.
Definition read_unsigned (s : bytes) : option Z :=
  let '(sec, s) := span_digits 0 s in
  match s with
  | c :: r =>
      if (b2n c =? 46)%N then
        let '(f, r') := span_digits 0 r in
        if (length r =? 6) && (length r' =? 0) then Some (1000000 * sec + f)%Z else None
      else if (b2n c =? 115)%N && (length r =? 0) then Some (1000000 * sec)%Z
      else None
  | [] => None
  end.
Definition read_elapsed (s : bytes) : option Z :=
  match after_blanks s with
  | c :: r => if (b2n c =? 45)%N then option_map Z.opp (read_unsigned r) else read_unsigned (c :: r)
  | [] => None
  end.

(** The events of a span with their times. *)
Definition event_of_annotation (a : annotation) (l : list (bytes * attr)) : time * row_msg := (an_time a, MAnnot (an_msg a) l).
Definition event_of_message (m : msgevent) : time * row_msg := (me_time m, MMessage (me_sent m) (me_uncompressed m) (me_compressed m)).

(** The same attributes, sorted by key. *)
Definition sorted_of (l l' : list (bytes * attr)) : Prop :=
  Permutation l' l /\ StronglySorted (fun a b => bytes_ltb (fst b) (fst a) = false) l'.

(** ** rpcz *)

(** What a view exported: when (seconds since the start), which view, its rows. *)
Notation export := (f64 * option (bool * rpc_view) * list data_row)%type.

Definition view_eqb (a b : rpc_view) : bool :=
  match a, b with
  | VCompleted, VCompleted | VSentBytes, VSentBytes | VSentMessages, VSentMessages
  | VReceivedBytes, VReceivedBytes | VReceivedMessages, VReceivedMessages | VLatency, VLatency => true
  | _, _ => false
  end.

(** The rows of a method. *)
Definition rows_of (m : bytes) (rows : list data_row) : list data_row :=
  filter (fun row => bytes_eqb (row_method (fst row)) m) rows.

(** The last export of a view that had rows of the method: time and rows. *)
Definition latest (received : bool) (v : rpc_view) (m : bytes) (h : list export) : option (f64 * list data_row) :=
  fold_left (fun acc e =>
    match e with
    | (age, Some (r, v'), rows) =>
        if Bool.eqb r received && view_eqb v' v && negb (length (rows_of m rows) =? 0) then Some (age, rows_of m rows) else acc
    | (_, None, _) => acc
    end) h None.

(** Some view of this direction has exported a row of the method. *)
Definition seen (received : bool) (m : bytes) (h : list export) : Prop :=
  exists age v rows, In (age, Some (received, v), rows) h /\ rows_of m rows <> [].

(** Total and number of values in a row. *)
Definition row_total (row : data_row) : f64 :=
  match snd row with
  | CountD _ v => f_of_Z v
  | DistD d => f_mul (d_mean d) (f_of_Z (d_count d))
  | SumD _ v => v
  | LastD _ => f_zero
  end.
Definition row_calls (row : data_row) : f64 :=
  match snd row with
  | CountD _ v => f_of_Z v
  | DistD d => f_of_Z (d_count d)
  | SumD _ v => v
  | LastD _ => f_zero
  end.

(** Failed calls: the values of the rows whose status is not OK. *)
Definition failed (received : bool) (rows : list data_row) : list N :=
  flat_map (fun row =>
    flat_map (fun kv => if bytes_eqb (fst kv) (if received then key_grpc_server_status else key_grpc_client_status) &&
                           negb (bytes_eqb (snd kv) (bs "OK")) then [f_to_uint64 (row_calls row)] else []) (fst row)) rows.
(** Milliseconds as a time.Duration, in nanoseconds; none for what is not a number. *)
Definition nanoseconds (ms : f64) : Z :=
  if is_nan ms then 0%Z else match ms with S754_infinity _ => 0%Z | _ => f_to_int (f_mul (f_of_Z 1000000) ms) end.
Definition total (l : list N) : N := fold_right N.add 0%N l.

(** The state of the page after some exports. *)
Definition exports_to (h : list export) : snapshots := fold_left (fun s e => export_view s (fst (fst e)) (snd (fst e)) (snd e)) h [].

(** What a row of the page says about a method. *)
Definition from_last {A} (d : A) (f : f64 -> data_row -> A) (x : option (f64 * list data_row)) : A :=
  match x with
  | Some (age, rows) => match rev rows with row :: _ => f age row | [] => d end
  | None => d
  end.
Record shows (m : bytes) (received : bool) (h : list export) (s : snapshot) : Prop := {
  sh_method : sn_method s = m;
  sh_received : sn_received s = received;
  sh_out : sn_out s = from_last f_zero (fun age row => f_div (row_total row) age) (latest received VSentBytes m h);
  sh_in : sn_in s = if received then f_zero
                    else from_last f_zero (fun age row => f_div (row_total row) age) (latest false VReceivedBytes m h);
  sh_count : sn_count s = from_last 0%N (fun _ row => f_to_uint64 (row_calls row))
                            (latest received (if received then VReceivedMessages else VSentMessages) m h);
  sh_rate : sn_rate s = from_last f_zero (fun age row => f_div (row_calls row) age)
                            (latest received (if received then VReceivedMessages else VSentMessages) m h);
  sh_latency : sn_latency s = from_last 0%Z (fun _ row => nanoseconds (f_div (row_total row) (row_calls row))) (latest received VLatency m h);
  sh_errors : sn_errors s = match latest received VCompleted m h with
                            | Some (_, rows) => (total (failed received rows) mod 2 ^ 64)%N
                            | None => 0%N
                            end }.
