(** Model of the number formats of zpages/templates.go and of the cells of the HTML rpcz
    page.  Definitions only.  Not modelled: html/template. *)

From Coq Require Import String.
From Coq Require Import List Arith NArith ZArith Bool.
From Coq Require Import Floats.SpecFloat.
From Verif Require Import Base Text Float64 HttpModel ZpagesModel.
Import ListNotations.
Open Scope nat_scope.

(** a / b for 0 < b, rounded to the nearest integer, in the middle to the even one.
    (strconv's decimal rounding: fmt's %.3f at zpages/templates.go:85, 95, 101, 105.) *)
Definition round_even (a b : Z) : Z :=
  let q := (a / b)%Z in
  let r := (a mod b)%Z in
  if (2 * r <? b)%Z then q
  else if (b <? 2 * r)%Z then (q + 1)%Z
  else if Z.even q then q else (q + 1)%Z.

(** The digits of %.3f: the value m * 2^e of a finite float64 in thousandths, rounded.
    strconv computes with the exact decimal expansion. (zpages/templates.go:85, 95, 101,
    105.) *)
Definition thousandths (m : positive) (e : Z) : Z :=
  if (0 <=? e)%Z then (1000 * Zpos m * 2 ^ e)%Z else round_even (1000 * Zpos m) (2 ^ (- e)).

(** A number of thousandths in decimal. (fmt's %.3f at zpages/templates.go:85, 95, 101,
    105.) *)
Definition fixed_text (neg : bool) (k : Z) : bytes :=
  (if neg then bs "-" else []) ++ itoa (k / 1000) ++ bs "." ++ pad zero_digit 3 (itoa (k mod 1000)).

(** fmt's %.3f (zpages/templates.go:85, 95, 101, 105). *)
Definition fix3 (x : f64) : bytes :=
  match x with
  | S754_nan => bs "NaN"
  | S754_infinity neg => bs (if neg then "-Inf" else "+Inf")
  | S754_zero neg => fixed_text neg 0
  | S754_finite neg m e => fixed_text neg (thousandths m e)
  end.

(** zpages/templates.go:60-88 [countFormatter].  The argument is a uint64. *)
Definition count_text (n : N) : bytes :=
  if (n =? 0)%N then bs " "
  else if (10 ^ 18 <=? n)%N then fix3 (f_div (f_of_Z (Z.of_N n)) (f_of_Z (10 ^ 18))) ++ bs " E "
  else if (10 ^ 15 <=? n)%N then fix3 (f_div (f_of_Z (Z.of_N n)) (f_of_Z (10 ^ 15))) ++ bs " P "
  else if (10 ^ 12 <=? n)%N then fix3 (f_div (f_of_Z (Z.of_N n)) (f_of_Z (10 ^ 12))) ++ bs " T "
  else if (10 ^ 9 <=? n)%N then fix3 (f_div (f_of_Z (Z.of_N n)) (f_of_Z (10 ^ 9))) ++ bs " G "
  else if (10 ^ 6 <=? n)%N then fix3 (f_div (f_of_Z (Z.of_N n)) (f_of_Z (10 ^ 6))) ++ bs " M "
  else itoa (Z.of_N n).

(** The float64 constant 1e-6: 4722366482869645 * 2^-72. (zpages/templates.go:95.) *)
Definition f_1e_6 : f64 := S754_finite false 4722366482869645 (-72).

(** zpages/templates.go:90-98 [msFormatter].  The argument is a duration in nanoseconds. *)
Definition ms_text (d : Z) : bytes :=
  if (d =? 0)%Z then bs "0"
  else if (d <? 10000000)%Z then fix3 (f_mul (f_of_Z d) f_1e_6)
  else itoa (d / 1000000).

(** zpages/templates.go:100-102 [rateFormatter]. *)
Definition rate_text (r : f64) : bytes := fix3 r.

(** zpages/templates.go:104-106 [dataRateFormatter]. *)
Definition data_rate_text (b : f64) : bytes := fix3 (f_div b (f_of_Z 1000000)).

(** zpages/internal/templates/rpcz.html:29-48: the cells of a row, without the empty ones
    between the groups.  The fields for the last minute and hour are never set. *)
Definition html_cells (s : snapshot) : list bytes :=
  [sn_method s;
   count_text 0; count_text 0; count_text (sn_count s);
   ms_text 0; ms_text 0; ms_text (sn_latency s);
   rate_text f_zero; rate_text f_zero; rate_text (sn_rate s);
   data_rate_text f_zero; data_rate_text f_zero; data_rate_text (sn_in s);
   data_rate_text f_zero; data_rate_text f_zero; data_rate_text (sn_out s);
   count_text 0; count_text 0; count_text (sn_errors s)].

(** zpages/internal/templates/rpcz.html:6-12: the headings of the groups, each over three
    columns, after the column of the methods. *)
Definition html_groups : list bytes :=
  [bs "Count"; bs "Avg latency (ms)"; bs "Rate (rpc/s)"; bs "Input (kb/s)"; bs "Output (kb/s)"; bs "Errors"].
