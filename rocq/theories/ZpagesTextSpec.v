(** Specification vocabulary for the texts of zpages. *)

From Coq Require Import String.
From Coq Require Import List Arith NArith ZArith Bool.
From Coq Require Import Floats.SpecFloat.
From Verif Require Import Base Text Float64 TraceTypes HttpSpec ZpagesModel.
Import ListNotations.
Open Scope nat_scope.

(** Reading a table: every line ends with a line feed, tabs separate the cells. *)
Definition table_of (s : bytes) : list (list bytes) := map (split_byte (n2b 9)) (removelast (split_byte (n2b 10) s)).

(** Texts that fit in a cell. *)
Definition clean (s : bytes) : Prop := ~ In (n2b 9) s /\ ~ In (n2b 10) s.

(** A count in a cell: a point for none. *)
Definition cell_says (s : bytes) (n : nat) : Prop := (n = 0 /\ s = bs ".") \/ (0 < n /\ decimal (Z.of_nat n) s).

(** The lower case hex form of an identifier. *)
Definition id_shown (id s : bytes) : Prop := hex_of s id /\ Forall lower_hex s.

(** The identity of a span: trace, span and, if there is one, parent. *)
Definition identity (sc : span_context) (parent s : bytes) : Prop :=
  exists a b, id_shown (sc_trace_id sc) a /\ id_shown (sc_span_id sc) b /\
    ((parent = zero_span_id /\ s = bs "trace_id: " ++ a ++ bs " span_id: " ++ b) \/
     (parent <> zero_span_id /\ exists c, id_shown parent c /\ s = bs "trace_id: " ++ a ++ bs " span_id: " ++ b ++ bs " parent_span_id: " ++ c)).

(** The same as HTML, the trace in blue if it is sampled, else in black. *)
Definition identity_html (sc : span_context) (parent s : bytes) : Prop :=
  exists a b tail, id_shown (sc_trace_id sc) a /\ id_shown (sc_span_id sc) b /\
    ((parent = zero_span_id /\ tail = []) \/ (parent <> zero_span_id /\ exists c, id_shown parent c /\ tail = bs " parent_span_id: " ++ c)) /\
    s = bs "trace_id: <b style=" ++ [n2b 34] ++ bs "color:" ++ (if N.odd (sc_options sc) then bs "blue" else bs "black") ++ [n2b 34] ++ bs ">" ++
        a ++ bs "</b> span_id: " ++ b ++ tail.

(** The heading over column [j] of a table with two lines of headings: the last group
    begun there or further left, and the cell of the second line. *)
Definition group_at (h : list bytes) (j : nat) : bytes :=
  fold_left (fun acc c => match c with [] => acc | _ => c end) (firstn (S j) h) [].
Definition heading (t : list (list bytes)) (j : nat) : bytes * bytes := (group_at (nth 0 t []) j, nth j (nth 1 t []) []).

(** A number in a query: digits with an optional sign, the nearest int if it is out of
    range. *)
Definition reads_number (s : bytes) (z : Z) : Prop :=
  exists ds n, ds <> [] /\ dec_value 0 ds = Some n /\
    ((s = ds \/ s = bs "+" ++ ds) /\ z = Z.of_N n \/ s = bs "-" ++ ds /\ z = (- Z.of_N n)%Z).

(** A line of the rpcz text: the method, and for each of six numbers the values for the last
    minute and the last hour, which are always zero, and the total: calls, mean latency,
    calls per second, KiB received and KiB sent per second, errors. *)
Definition rpcz_line (dur : Z -> bytes) (fix2 : f64 -> bytes) (s : snapshot) (cells : list bytes) : Prop :=
  exists count errors zero zerof, decimal (Z.of_N (sn_count s)) count /\ decimal (Z.of_N (sn_errors s)) errors /\
    zero = bs "0" /\ zerof = fix2 f_zero /\
    cells = [sn_method s; zero; zero; count; dur 0%Z; dur 0%Z; dur (sn_latency s); zerof; zerof; fix2 (sn_rate s);
             zerof; zerof; fix2 (f_div (sn_in s) (f_of_Z 1024)); zerof; zerof; fix2 (f_div (sn_out s) (f_of_Z 1024)); zero; zero; errors].

(** [v] is the first value of the parameter [k] of a request. *)
Definition first_value (form : list (bytes * bytes)) (k v : bytes) : Prop :=
  exists pre post, form = pre ++ (k, v) :: post /\ forall x, In x pre -> fst x <> k.
