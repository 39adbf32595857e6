(** Model of the four span-context wire formats:
    - /repo/trace/propagation/propagation.go (binary);
    - /repo/plugin/ochttp/propagation/b3/b3.go;
    - /repo/plugin/ochttp/propagation/tracecontext/propagation.go;
    - /repo/exporter/stackdriver/propagation/http.go. *)

From Coq Require Import String.
From Coq Require Import List NArith Bool Arith.
From Verif Require Import Base GoMap Text TracestateModel TraceTypes.
Import ListNotations.
Open Scope N_scope.

(** ** Go slices with bounds checks *)

(** b[i] (Go's indexing, as at trace/propagation/propagation.go:75, 79.) *)
Definition idx {A} (b : list A) (i : nat) : res unit A :=
  match nth_error b i with Some x => Ok x | None => Panic end.
(** b[i:j] (Go's slicing, as at trace/propagation/propagation.go:80.) *)
Definition sub (b : bytes) (i j : nat) : res unit bytes :=
  if Nat.leb i j && Nat.leb j (length b) then Ok (firstn (j - i) (skipn i b)) else Panic.
(** b[i:] (As at trace/propagation/propagation.go:78.) *)
Definition sub_from (b : bytes) (i : nat) : res unit bytes := sub b i (length b).
(** copy(dst[start:], src) for an array [dst] (As at trace/propagation/propagation.go:62,
    plugin/ochttp/propagation/b3/b3.go:78, 81.) *)
Definition copy_at (dst : bytes) (start : nat) (src : bytes) : bytes :=
  firstn start dst ++ firstn (length dst - start) src
    ++ skipn (start + Nat.min (length dst - start) (length src)) dst.
(** copy(dst[:], src) (As at trace/propagation/propagation.go:80.) *)
Definition copy_into (dst src : bytes) : bytes := copy_at dst 0 src.

(** ** Binary format *)

(** trace/propagation/propagation.go:57-68 Binary; nil is []. *)
Definition binary (sc : span_context) : bytes :=
  if is_zero_sc sc then []
  else
    let b := repeat x00 29 in
    let b := copy_at b 2 (firstn 16 (sc_trace_id sc)) in
    let b := copy_at b 18 [n2b 1] in
    let b := copy_at b 19 (firstn 8 (sc_span_id sc)) in
    let b := copy_at b 27 [n2b 2] in
    copy_at b 28 [n2b (sc_options sc)].

(** trace/propagation/propagation.go:74-93 FromBinary; [None] is ok == false. *)
Definition from_binary (b : bytes) : res unit (option span_context) :=
  match length b with
  | O => Ok None
  | _ =>
    rbind (idx b 0) (fun v =>
    if negb (b2n v =? 0) then Ok None else
    rbind (sub_from b 1) (fun b =>
    if Nat.leb 17 (length b) then
      rbind (idx b 0) (fun f =>
      if b2n f =? 0 then
        rbind (sub b 1 17) (fun t =>
        rbind (sub_from b 17) (fun b =>
        let tid := copy_into zero_trace_id t in
        rbind (if Nat.leb 9 (length b) then
                 rbind (idx b 0) (fun f =>
                 if b2n f =? 1 then
                   rbind (sub b 1 9) (fun s =>
                   rbind (sub_from b 9) (fun b =>
                   Ok (copy_into zero_span_id s, b)))
                 else Ok (zero_span_id, b))
               else Ok (zero_span_id, b)) (fun '(sid, b) =>
        rbind (if Nat.leb 2 (length b) then
                 rbind (idx b 0) (fun f =>
                 if b2n f =? 2 then rbind (idx b 1) (fun o => Ok (b2n o)) else Ok 0)
               else Ok 0) (fun o =>
        Ok (Some (MkSC tid sid o None))))))
      else Ok None)
    else Ok None))
  end.

(** ** HTTP headers *)

(** net/textproto's upper case, for the header names at b3.go:30-32,
    tracecontext/propagation.go:36-37, http.go:33. *)
Definition up (c : byte) : byte := if (97 <=? b2n c) && (b2n c <=? 122) then n2b (b2n c - 32) else c.
(** As above, lower case (b3.go:30-32). *)
Definition low (c : byte) : byte := if (65 <=? b2n c) && (b2n c <=? 90) then n2b (b2n c + 32) else c.
(** The hyphen in header names (b3.go:30-32). *)
Definition dash : byte := n2b 45.

(** textproto.CanonicalMIMEHeaderKey, for names made of token characters (all names used
    here are constants of that kind). (Header.Get and Set at b3.go:49-57, 113-122;
    tracecontext/propagation.go:121.) *)
Fixpoint canon_from (upper : bool) (s : bytes) : bytes :=
  match s with
  | [] => []
  | c :: r => (if upper then up c else low c) :: canon_from (byte_eqb c dash) r
  end.
(** As above (tracecontext/propagation.go:121). *)
Definition canon (s : bytes) : bytes := canon_from true s.

(** net/http.Header: map[string][]string. *)
Notation header := (list (bytes * list bytes)).
(** req.Header at a name (tracecontext/propagation.go:121). *)
Definition hdr_values (h : header) (name : bytes) : list bytes :=
  match mget bytes_eqb h (canon name) with Some v => v | None => [] end.
(** Header.Get: the first value or "". (b3.go:49-57, http.go:44.) *)
Definition hdr_get (h : header) (name : bytes) : bytes :=
  match hdr_values h name with v :: _ => v | [] => [] end.
(** Header.Set (b3.go:113-122, tracecontext/propagation.go:198-200, http.go:93.) *)
Definition hdr_set (h : header) (name v : bytes) : header := mset bytes_eqb h (canon name) [v].

(** ** B3 *)

(** b3.go:30 *)
Definition b3_trace_id_header := bs "X-B3-TraceId".
(** b3.go:31. *)
Definition b3_span_id_header := bs "X-B3-SpanId".
(** b3.go:32. *)
Definition b3_sampled_header := bs "X-B3-Sampled".

(** b3.go:66-85 ParseTraceID *)
Definition b3_parse_trace_id (tid : bytes) : option bytes :=
  match tid with
  | [] => None
  | _ =>
    match hex_decode tid with
    | None => None
    | Some b =>
        if Nat.ltb 16 (length b) then None
        else if Nat.leb (length b) 8
             then Some (copy_at zero_trace_id (8 + (8 - length b)) b)
             else Some (copy_at zero_trace_id (16 - length b) b)
    end
  end.

(** b3.go:88-99 ParseSpanID *)
Definition b3_parse_span_id (sid : bytes) : option bytes :=
  match sid with
  | [] => None
  | _ =>
    match hex_decode sid with
    | None => None
    | Some b =>
        if Nat.ltb 8 (length b) then None
        else Some (copy_at zero_span_id (8 - length b) b)
    end
  end.

(** b3.go:102-109 ParseSampled (the boolean is ignored by the caller). *)
Definition b3_parse_sampled (s : bytes) : N * bool :=
  if bytes_eqb s (bs "true") || bytes_eqb s (bs "1") then (1, true) else (0, false).

(** b3.go:48-63 SpanContextFromRequest *)
Definition b3_from_request (h : header) : option span_context :=
  match b3_parse_trace_id (hdr_get h b3_trace_id_header) with
  | None => None
  | Some tid =>
      match b3_parse_span_id (hdr_get h b3_span_id_header) with
      | None => None
      | Some sid =>
          Some (MkSC tid sid (fst (b3_parse_sampled (hdr_get h b3_sampled_header))) None)
      end
  end.

(** b3.go:112-123 SpanContextToRequest *)
Definition b3_to_request (sc : span_context) (h : header) : header :=
  let h := hdr_set h b3_trace_id_header (hex_encode (sc_trace_id sc)) in
  let h := hdr_set h b3_span_id_header (hex_encode (sc_span_id sc)) in
  hdr_set h b3_sampled_header (if is_sampled sc then bs "1" else bs "0").

(** ** W3C TraceContext *)

(** tracecontext/propagation.go:36 *)
Definition traceparent_header := bs "traceparent".
(** tracecontext/propagation.go:37. *)
Definition tracestate_header := bs "tracestate".
(** tracecontext/propagation.go:35. *)
Definition max_tracestate_len : nat := 512.
(** tracecontext/propagation.go:34. *)
Definition max_version : N := 254.

(** tracecontext/propagation.go:143, 175. *)
Definition comma : byte := n2b 44.
(** tracecontext/propagation.go:155, 173. *)
Definition equals : byte := n2b 61.

(** tracecontext/propagation.go:38, the class of tab and space. *)
Definition is_ows (c : byte) : bool := (b2n c =? 9) || (b2n c =? 32).
(** tracecontext/propagation.go:38. *)
Fixpoint drop_ows (s : bytes) : bytes :=
  match s with
  | c :: r => if is_ows c then drop_ows r else s
  | [] => []
  end.

(** tracecontext/propagation.go:38 the regexp ^[\x09\x20]*(.*[^\x20\x09])[\x09\x20]*$:
    its first group.  '.' does not match a newline, [^\x20\x09] does. *)
Definition trim_ows (s : bytes) : option bytes :=
  match drop_ows (rev (drop_ows s)) with
  | [] => None
  | last :: front =>
      if existsb (fun c => b2n c =? 10) front then None else Some (rev (last :: front))
  end.

(** tracecontext/propagation.go:142-160: the loop over the pairs; [len] is
    hdrLenWithoutOWS, [entries] the entries so far. *)
Fixpoint parse_pairs (pairs : list bytes) (len : nat) (entries : list entry) : option (list entry) :=
  match pairs with
  | [] => Some entries
  | pr :: rest =>
      match trim_ows pr with
      | None => None
      | Some p =>
          let len := (len + length p)%nat in
          if Nat.ltb max_tracestate_len len then None
          else match split_byte equals p with
               | [k; v] => parse_pairs rest len (entries ++ [MkEntry k v])
               | _ => None
               end
      end
  end.

(** tracecontext/propagation.go:137-167 tracestateFromHeader *)
Definition tracestate_from_header (ts : bytes) : option (list entry) :=
  match ts with
  | [] => None
  | _ =>
      let pairs := split_byte comma ts in
      match parse_pairs pairs (length pairs - 1) [] with
      | None => None
      | Some entries =>
          match ts_new None entries with Ok r => r | _ => None end
      end
  end.

(** tracecontext/propagation.go:173 *)
Definition pair_of (e : entry) : bytes := join_byte equals [e_key e; e_value e].
(** tracecontext/propagation.go:169-182 tracestateToHeader. *)
Definition tracestate_to_header (sc : span_context) : bytes :=
  match sc_tracestate sc with
  | None => []
  | Some entries =>
      let h := join_byte comma (map pair_of entries) in
      match h with
      | [] => []
      | _ => if Nat.leb (length h) max_tracestate_len then h else []
      end
  end.

(** tracecontext/propagation.go:56-112 SpanContextFromHeaders *)
Definition tc_from_headers (tp ts : bytes) : res unit (option span_context) :=
  match tp with
  | [] => Ok None
  | _ =>
    let sections := split_byte dash tp in
    if Nat.ltb (length sections) 4 then Ok None else
    rbind (idx sections 0) (fun s0 =>
    if negb (Nat.eqb (length s0) 2) then Ok None else
    match hex_decode s0 with
    | None => Ok None
    | Some ver =>
      rbind (idx ver 0) (fun v =>
      let version := b2n v in
      if max_version <? version then Ok None else
      if (version =? 0) && negb (Nat.eqb (length sections) 4) then Ok None else
      rbind (idx sections 1) (fun s1 =>
      if negb (Nat.eqb (length s1) 32) then Ok None else
      match hex_decode s1 with
      | None => Ok None
      | Some t =>
        let tid := copy_into zero_trace_id t in
        rbind (idx sections 2) (fun s2 =>
        if negb (Nat.eqb (length s2) 16) then Ok None else
        match hex_decode s2 with
        | None => Ok None
        | Some s =>
          let sid := copy_into zero_span_id s in
          rbind (idx sections 3) (fun s3 =>
          match hex_decode s3 with
          | None => Ok None
          | Some opts =>
            if Nat.ltb (length opts) 1 then Ok None else
            rbind (idx opts 0) (fun o =>
            if bytes_eqb tid zero_trace_id || bytes_eqb sid zero_span_id then Ok None
            else Ok (Some (MkSC tid sid (b2n o) (tracestate_from_header ts))))
          end)
        end)
      end))
    end)
  end.

(** tracecontext/propagation.go:120-130 getRequestHeader, whose ok result the
    callers ignore. *)
Definition tc_get_header (h : header) (name : bytes) : bytes :=
  match hdr_values h name with
  | [] => []
  | [v] => v
  | vs => join_byte comma vs
  end.

(** tracecontext/propagation.go:49-53 SpanContextFromRequest *)
Definition tc_from_request (h : header) : res unit (option span_context) :=
  tc_from_headers (tc_get_header h traceparent_header) (tc_get_header h tracestate_header).

(** tracecontext/propagation.go:185-193 SpanContextToHeaders: "%x-%x-%x-%x" *)
Definition tc_to_headers (sc : span_context) : bytes * bytes :=
  (hex_encode [n2b 0] ++ dash :: hex_encode (sc_trace_id sc) ++ dash ::
   hex_encode (sc_span_id sc) ++ dash :: hex_encode [n2b (sc_options sc)],
   tracestate_to_header sc).

(** tracecontext/propagation.go:196-202 SpanContextToRequest *)
Definition tc_to_request (sc : span_context) (h : header) : header :=
  let '(tp, ts) := tc_to_headers sc in
  let h := hdr_set h traceparent_header tp in
  match ts with [] => h | _ => hdr_set h tracestate_header ts end.

(** ** Stackdriver *)

(** exporter/stackdriver/propagation/http.go:33. *)
Definition sd_header := bs "X-Cloud-Trace-Context".
(** http.go:32. *)
Definition sd_max_size : nat := 200.
(** http.go:53. *)
Definition slash : byte := n2b 47.
(** http.go:67. *)
Definition semicolon : byte := n2b 59.

(** http.go:48-86, of SpanContextFromRequest, for header value [h]. *)
Definition sd_parse (h : bytes) : option span_context :=
  if Nat.eqb (length h) 0 || Nat.ltb sd_max_size (length h) then None else
  match index_byte slash h with
  | None => None
  | Some i =>
    let tid := firstn i h in
    let h := skipn (S i) h in
    match hex_decode tid with
    | None => None
    | Some buf =>
      let trace_id := copy_into zero_trace_id buf in
      let '(spanstr, h) := match index_byte semicolon h with
                           | Some j => (firstn j h, skipn (S j) h)
                           | None => (h, h)
                           end in
      match parse_uint64 spanstr with
      | None => None
      | Some sid =>
        let span_id := be_bytes 8 sid in
        if negb (has_prefix h (bs "o=")) then Some (MkSC trace_id span_id 0 None)
        else match parse_uint64 (skipn 2 h) with
             | None => None
             (* trace.TraceOptions(o): conversion to uint32 *)
             | Some o => Some (MkSC trace_id span_id (o mod 2 ^ 32) None)
             end
      end
    end
  end.

(** http.go:43-87 SpanContextFromRequest, with the header read at line 44. *)
Definition sd_from_request (h : header) : option span_context := sd_parse (hdr_get h sd_header).

(** http.go:91-92, of SpanContextToRequest: "%s/%d;o=%d" *)
Definition sd_format (sc : span_context) : bytes :=
  hex_encode (sc_trace_id sc) ++ slash :: format_dec (be_value (sc_span_id sc))
    ++ semicolon :: bs "o=" ++ format_dec (sc_options sc).

(** http.go:90-94 SpanContextToRequest. *)
Definition sd_to_request (sc : span_context) (h : header) : header := hdr_set h sd_header (sd_format sc).
