(** Model of the texts of zpages: what is written to the tabwriter of the text pages, the
    identity of a span on the HTML page, and the request of a link.  Definitions only.
    [dur]: Duration's String method; [fix2]: fmt's %.2f; [when_text]: the first column.
    text/tabwriter and html/template are not modelled. *)

From Coq Require Import String.
From Coq Require Import List Arith NArith ZArith Bool.
From Coq Require Import Floats.SpecFloat.
From Verif Require Import Base GoMap GoSort Text Float64 TraceTypes TraceModel TracerModel HttpModel ZpagesModel.
Import ListNotations.
Open Scope nat_scope.

(** The tab written at zpages/tracez.go:147, 155, 158, 162, 377, 379. *)
Definition tab : byte := n2b 9.
(** The line feed written at zpages/tracez.go:151, 168, 387. *)
Definition newline : byte := n2b 10.

(** trace/basetypes.go:30-32 [TraceID.String]: %02x of the array. *)
Definition trace_id_string (id : bytes) : bytes := hex_encode id.
(** trace/basetypes.go:34-36 [SpanID.String]. *)
Definition span_id_string (id : bytes) : bytes := hex_encode id.

(** zpages/tracez.go:381-386: what follows the text of a row. *)
Definition id_text (sp : option (span_context * bytes)) : bytes :=
  match sp with
  | None => []
  | Some (sc, parent) =>
      if is_zero_sc sc then []
      else bs "trace_id: " ++ trace_id_string (sc_trace_id sc) ++ bs " span_id: " ++ span_id_string (sc_span_id sc) ++
           (if bytes_eqb parent zero_span_id then [] else bs " parent_span_id: " ++ span_id_string parent)
  end.

(** The double quotes of zpages/templates.go:118, 120. *)
Definition quote_mark : byte := n2b 34.
(** zpages/templates.go:108-121 [traceIDFormatter]. *)
Definition id_html (sp : option (span_context * bytes)) : bytes :=
  match sp with
  | None => []
  | Some (sc, parent) =>
      if is_zero_sc sc then []
      else
        let col := if is_sampled sc then bs "blue" else bs "black" in
        let head := bs "trace_id: <b style=" ++ [quote_mark] ++ bs "color:" ++ col ++ [quote_mark] ++ bs ">" ++
                    trace_id_string (sc_trace_id sc) ++ bs "</b> span_id: " ++ span_id_string (sc_span_id sc) in
        if bytes_eqb parent zero_span_id then head else head ++ bs " parent_span_id: " ++ span_id_string parent
  end.

(** zpages/tracez.go:375-388: one row. *)
Definition text_line (when_text : when -> bytes) (r : trace_row) : bytes :=
  when_text (tr_when r) ++ [tab] ++ tr_elapsed r ++ [tab] ++ tr_text r ++ id_text (tr_span r) ++ [newline].
(** zpages/tracez.go:372-390 [writeTextTraces]. *)
Definition text_traces (when_text : when -> bytes) (rows : list trace_row) : bytes :=
  bs "When" ++ [tab] ++ bs "Elapsed(s)" ++ [tab] ++ bs "Type" ++ [newline] ++ concat (map (text_line when_text) rows).

(** zpages/tracez.go:153-159 [put]. *)
Definition put_count (x : nat) : bytes :=
  if x =? 0 then bs "." ++ [tab] else itoa (Z.of_nat x) ++ [tab].
(** zpages/tracez.go:160-169. *)
Definition summary_line (r : page_row) : bytes :=
  pr_name r ++ [tab] ++ put_count (pr_active r) ++ concat (map put_count (pr_latency r)) ++ put_count (pr_errors r) ++ [newline].
(** zpages/tracez.go:416-428: the header. *)
Definition summary_heads (dur : Z -> bytes) (o : order) (w : world) : list bytes :=
  match summary_header o w with
  | [] => []
  | l => [bs "Name"; bs "Active"] ++ map (fun d => if (d =? 100000000000)%Z then bs ">100s" else bs ">" ++ dur d) l ++ [bs "Errors"]
  end.
(** zpages/tracez.go:135-171 [WriteTextTracezSummary]. *)
Definition text_summary (dur : Z -> bytes) (o : order) (w : world) : bytes :=
  bs "Locally sampled spans summary" ++ [newline; newline] ++
  match summary_rows o w with
  | [] => []
  | rows => join_byte tab (summary_heads dur o w) ++ [newline] ++ concat (map summary_line rows)
  end.

(** strconv.ParseUint's loop, base 10 and 64 bits: the largest value as soon as there is an
    overflow. (strconv.Atoi at zpages/tracez.go:89-90.) *)
Fixpoint parse_digits (acc : N) (s : bytes) : option (N * bool) :=
  match s with
  | [] => Some (acc, false)
  | c :: r =>
      if is_digit c then
        let n := (10 * acc + (b2n c - 48))%N in
        if (two64 <=? n)%N then Some ((two64 - 1)%N, true) else parse_digits n r
      else None
  end.
(** strconv.Atoi, the error dropped: out of range gives the nearest int, anything else that
    is not a number 0. (zpages/tracez.go:89-90.) *)
Definition atoi (s : bytes) : Z :=
  let '(neg, ds) := match s with
                    | c :: r => if (b2n c =? 45)%N then (true, r) else if (b2n c =? 43)%N then (false, r) else (false, s)
                    | [] => (false, [])
                    end in
  match ds with
  | [] => 0%Z
  | _ => match parse_digits 0 ds with
         | None => 0%Z
         | Some (n, _) =>
             if neg then Z.max (- 2 ^ 63) (- Z.of_N n) else Z.min (2 ^ 63 - 1) (Z.of_N n)
         end
  end.

(** url.Values' Get: the first value or the empty string. (zpages/tracez.go:88-90.) *)
Fixpoint form_get (form : list (bytes * bytes)) (k : bytes) : bytes :=
  match form with
  | [] => []
  | (k', v) :: r => if bytes_eqb k' k then v else form_get r k
  end.
(** zpages/tracez.go:85-92 [tracezHandler], 118-125 [WriteHTMLTracezSpans]: the list asked
    for below the summary, if any. *)
Definition tracez_request (o : order) (form : list (bytes * bytes)) : option top :=
  let name := form_get form (bs "zspanname") in
  if bytes_eqb name [] then None
  else trace_spans o name (atoi (form_get form (bs "ztype"))) (atoi (form_get form (bs "zsubtype"))).
(** zpages/internal/templates/summary.html:26, 32, 38: the parameters of the links. *)
Definition link_form (name : bytes) (type : nat) (sub : option nat) : list (bytes * bytes) :=
  [(bs "zspanname", name); (bs "ztype", itoa (Z.of_nat type))] ++
  match sub with Some j => [(bs "zsubtype", itoa (Z.of_nat j))] | None => [] end.

(** zpages/rpcz.go:33. *)
Definition bytes_per_kb : f64 := f_of_Z 1024.
(** zpages/rpcz.go:114-133: a row.  The fields for the last minute and hour are never set. *)
Definition rpcz_cells (dur : Z -> bytes) (fix2 : f64 -> bytes) (s : snapshot) : list bytes :=
  [sn_method s;
   itoa 0; itoa 0; itoa (Z.of_N (sn_count s));
   dur 0%Z; dur 0%Z; dur (sn_latency s);
   fix2 f_zero; fix2 f_zero; fix2 (sn_rate s);
   fix2 (f_div f_zero bytes_per_kb); fix2 (f_div f_zero bytes_per_kb); fix2 (f_div (sn_in s) bytes_per_kb);
   fix2 (f_div f_zero bytes_per_kb); fix2 (f_div f_zero bytes_per_kb); fix2 (f_div (sn_out s) bytes_per_kb);
   itoa 0; itoa 0; itoa (Z.of_N (sn_errors s))].
(** zpages/rpcz.go:111, without the line feed. *)
Definition rpcz_head1 : list bytes :=
  [bs "Method"; bs "Count"; []; []; bs "AvgLat"; []; []; bs "MaxLat"; []; []; bs "Rate"; []; [];
   bs "In (MiB/s)"; []; []; bs "Out (MiB/s)"; []; []; bs "Errors"; []; []].
(** zpages/rpcz.go:112, without the line feed. *)
Definition rpcz_head2 : list bytes :=
  [[]; bs "Min"; bs "Hr"; bs "Tot"; bs "Min"; bs "Hr"; bs "Tot"; bs "Min"; bs "Hr"; bs "Tot"; bs "Min"; bs "Hr"; bs "Tot";
   bs "Min"; bs "Hr"; bs "Tot"; bs "Min"; bs "Hr"; bs "Tot"; bs "Min"; bs "Hr"; bs "Tot"].
(** zpages/rpcz.go:110-135: one group. *)
Definition rpcz_table (dur : Z -> bytes) (fix2 : f64 -> bytes) (l : list snapshot) : bytes :=
  concat (map (fun cells => join_byte tab cells ++ [newline]) (rpcz_head1 :: rpcz_head2 :: map (rpcz_cells dur fix2) l)).
(** zpages/rpcz.go:98-137 [WriteTextRpczPage]. *)
Definition text_rpcz (dur : Z -> bytes) (fix2 : f64 -> bytes) (o : order) (snaps : snapshots) : bytes :=
  let '(sent, received) := stats_page o snaps in
  bs "Sent:" ++ [newline] ++ rpcz_table dur fix2 sent ++ [newline] ++ bs "Received:" ++ [newline] ++ rpcz_table dur fix2 received.
