(** Text helpers of the Go standard library used by the modelled code:
    encoding/hex, strconv (decimal), strings.Split / Join / Index, big-endian
    integers.  Definitions and their basic laws. *)

From Coq Require Import List NArith ZArith Bool Lia.
From Coq Require Import ZifyBool ZifyNat ZifyN.
From Verif Require Import Base.
Import ListNotations.
Open Scope N_scope.

(** ** encoding/hex *)

(** A step of [hex_encode]. *)
Definition hex_digit (n : N) : byte := n2b (if n <? 10 then 48 + n else 87 + n).

(** hex.EncodeToString, and fmt's %x of a []byte: lower case, two digits.
    plugin/ochttp/propagation/b3/b3.go:113-114, tracecontext/propagation.go:186. *)
Fixpoint hex_encode (b : bytes) : bytes :=
  match b with
  | [] => []
  | x :: r => hex_digit (b2n x / 16) :: hex_digit (b2n x mod 16) :: hex_encode r
  end.

(** hex.fromHexChar: 0-9, a-f, A-F. A step of [hex_decode]. *)
Definition hex_value (c : byte) : option N :=
  let n := b2n c in
  if (48 <=? n) && (n <=? 57) then Some (n - 48)
  else if (97 <=? n) && (n <=? 102) then Some (n - 87)
  else if (65 <=? n) && (n <=? 70) then Some (n - 55)
  else None.

(** hex.DecodeString; [None] is an error (odd length or an invalid digit).
    plugin/ochttp/propagation/b3/b3.go:70, 92, tracecontext/propagation.go:68-99. *)
Fixpoint hex_decode (s : bytes) : option bytes :=
  match s with
  | [] => Some []
  | [_] => None
  | a :: b :: r =>
      match hex_value a, hex_value b, hex_decode r with
      | Some x, Some y, Some l => Some (n2b (16 * x + y) :: l)
      | _, _, _ => None
      end
  end.

(** ** Decimal *)

(** A step of [dec_value]. *)
Definition is_digit (c : byte) : bool := (48 <=? b2n c) && (b2n c <=? 57).

(** strconv.FormatUint(n, 10) / fmt's %d of a non-negative integer. The fuel is the number
    of binary digits, which bounds the number of decimal digits. A step of [format_dec]. *)
Fixpoint dec_digits (fuel : nat) (n : N) (acc : bytes) : bytes :=
  match fuel with
  | O => acc
  | S f =>
      let acc := n2b (48 + n mod 10) :: acc in
      if n <? 10 then acc else dec_digits f (n / 10) acc
  end.
(** exporter/stackdriver/propagation/http.go:92, plugin/ochttp/client_stats.go:119. *)
Definition format_dec (n : N) : bytes := dec_digits (S (N.to_nat (N.log2 n))) n [].

(** The value of a string of decimal digits; [None] on a non-digit. A step of
    [parse_uint64]. *)
Fixpoint dec_value (acc : N) (s : bytes) : option N :=
  match s with
  | [] => Some acc
  | c :: r => if is_digit c then dec_value (acc * 10 + (b2n c - 48)) r else None
  end.

(** strconv.ParseUint(s, 10, 64): [None] is a syntax or range error.
    exporter/stackdriver/propagation/http.go:71, 81. *)
Definition parse_uint64 (s : bytes) : option N :=
  match s with
  | [] => None
  | _ => match dec_value 0 s with
         | Some n => if n <? two64 then Some n else None
         | None => None
         end
  end.

(** ** strings *)

(** strings.Index(s, c) for a one-byte separator.
    exporter/stackdriver/propagation/http.go:53, 67. *)
Fixpoint index_byte (c : byte) (s : bytes) : option nat :=
  match s with
  | [] => None
  | x :: r => if byte_eqb x c then Some O
              else match index_byte c r with Some i => Some (S i) | None => None end
  end.

(** strings.Split(s, c) for a one-byte separator: never empty.
    plugin/ochttp/propagation/tracecontext/propagation.go:60, 143, 155. *)
Fixpoint split_byte (c : byte) (s : bytes) : list bytes :=
  match s with
  | [] => [[]]
  | x :: r =>
      if byte_eqb x c then [] :: split_byte c r
      else match split_byte c r with
           | [] => [[x]]
           | h :: t => (x :: h) :: t
           end
  end.

(** strings.Join(l, sep) for a one-byte separator.
    plugin/ochttp/propagation/tracecontext/propagation.go:128, 173-175. *)
Fixpoint join_byte (c : byte) (l : list bytes) : bytes :=
  match l with
  | [] => []
  | [x] => x
  | x :: r => x ++ c :: join_byte c r
  end.

(** strings.HasPrefix exporter/stackdriver/propagation/http.go:78. *)
Fixpoint has_prefix (s p : bytes) {struct p} : bool :=
  match p, s with
  | [], _ => true
  | a :: p', b :: s' => byte_eqb a b && has_prefix s' p'
  | _ :: _, [] => false
  end.

(** ** Big-endian integers *)

(** binary.BigEndian.Uint64 (for any length). exporter/stackdriver/propagation/http.go:91,
    trace/sampling.go:55. *)
Definition be_value (b : bytes) : N := fold_left (fun a x => a * 256 + b2n x) b 0.

(** binary.BigEndian.PutUint64 into [n] bytes. exporter/stackdriver/propagation/http.go:75. *)
Fixpoint be_bytes (n : nat) (x : N) : bytes :=
  match n with
  | O => []
  | S m => be_bytes m (x / 256) ++ [n2b x]
  end.

(** ** Laws *)

Lemma hex_digit_value n : n < 16 -> hex_value (hex_digit n) = Some n.
Proof.
  intros H. unfold hex_value, hex_digit.
  destruct (N.ltb_spec n 10).
  - rewrite b2n_n2b_small by lia.
    destruct (N.leb_spec 48 (48 + n)); [|lia].
    destruct (N.leb_spec (48 + n) 57); [|lia]. simpl. f_equal. lia.
  - rewrite b2n_n2b_small by lia.
    destruct (N.leb_spec 48 (87 + n)); [|lia].
    destruct (N.leb_spec (87 + n) 57); [lia|]. simpl.
    destruct (N.leb_spec 97 (87 + n)); [|lia].
    destruct (N.leb_spec (87 + n) 102); [|lia]. simpl. f_equal. lia.
Qed.

Lemma hex_decode_encode b : hex_decode (hex_encode b) = Some b.
Proof.
  induction b as [|x b IH]; [reflexivity|].
  cbn [hex_encode hex_decode].
  pose proof (b2n_lt x).
  rewrite hex_digit_value by (apply N.div_lt_upper_bound; lia).
  rewrite hex_digit_value by (apply N.mod_lt; lia).
  rewrite IH. f_equal. f_equal.
  rewrite <- N.div_mod by lia. apply n2b_b2n.
Qed.

Lemma hex_encode_length b : length (hex_encode b) = (2 * length b)%nat.
Proof. induction b; simpl; lia. Qed.

Lemma hex_encode_app a b : hex_encode (a ++ b) = hex_encode a ++ hex_encode b.
Proof. induction a; simpl; congruence. Qed.

Lemma hex_encode_inj a b : hex_encode a = hex_encode b -> a = b.
Proof.
  intros H. assert (Some a = Some b) by now rewrite <- !hex_decode_encode, H.
  congruence.
Qed.

(** Every byte written by [hex_encode] is one of 0-9a-f. No code of its own: used in
    statements. *)
Definition lower_hex (c : byte) : Prop := 48 <= b2n c <= 57 \/ 97 <= b2n c <= 102.

Lemma hex_encode_lower b : Forall lower_hex (hex_encode b).
Proof.
  assert (Hd : forall n, n < 16 -> lower_hex (hex_digit n)).
  { intros n Hn. unfold lower_hex, hex_digit.
    destruct (N.ltb_spec n 10); rewrite b2n_n2b_small; lia. }
  induction b as [|x b IH]; simpl; constructor.
  - apply Hd. pose proof (b2n_lt x). apply N.div_lt_upper_bound; lia.
  - constructor; [|exact IH]. apply Hd. apply N.mod_lt. lia.
Qed.

Lemma hex_decode_length_aux : forall n s b,
  (length s <= n)%nat -> hex_decode s = Some b -> length s = (2 * length b)%nat.
Proof.
  induction n as [|n IH]; intros s b Hn H.
  - destruct s; [injection H as <-; reflexivity|simpl in Hn; lia].
  - destruct s as [|a [|a' r]]; [injection H as <-; reflexivity|discriminate|].
    cbn [hex_decode] in H.
    destruct (hex_value a); [|discriminate].
    destruct (hex_value a'); [|discriminate].
    destruct (hex_decode r) eqn:E; [|discriminate].
    injection H as <-. simpl. apply IH in E; simpl in *; lia.
Qed.

Lemma hex_decode_length s b : hex_decode s = Some b -> length s = (2 * length b)%nat.
Proof. apply (hex_decode_length_aux (length s)). lia. Qed.

(** *** Decimal *)

Lemma dec_value_app a : forall acc b,
  dec_value acc (a ++ b) =
  match dec_value acc a with Some n => dec_value n b | None => None end.
Proof.
  induction a as [|c a IH]; intros acc b; simpl; [reflexivity|].
  destruct (is_digit c); auto.
Qed.

Lemma is_digit_dec n : n < 10 -> is_digit (n2b (48 + n)) = true /\ b2n (n2b (48 + n)) - 48 = n.
Proof.
  intros H. unfold is_digit. rewrite b2n_n2b_small by lia. split; lia.
Qed.

Lemma dec_digits_spec : forall fuel n acc,
  n < 2 ^ N.of_nat fuel -> fuel <> O ->
  exists d, dec_digits fuel n acc = d ++ acc /\ d <> [] /\
    Forall (fun c => is_digit c = true) d /\
    forall a, dec_value a d = Some (a * 10 ^ N.of_nat (length d) + n).
Proof.
  induction fuel as [|f IH]; intros n acc Hn Hf; [congruence|].
  cbn [dec_digits].
  destruct (is_digit_dec (n mod 10) ltac:(apply N.mod_lt; lia)) as [Hd1 Hd2].
  destruct (N.ltb_spec n 10).
  - exists [n2b (48 + n mod 10)]. split; [reflexivity|]. split; [discriminate|].
    split; [now repeat constructor|].
    intros a. cbn [dec_value]. rewrite Hd1, Hd2. simpl length.
    f_equal. rewrite N.mod_small by lia. change (10 ^ N.of_nat 1) with 10. lia.
  - assert (Hf' : f <> O).
    { intros ->. change (2 ^ N.of_nat 1) with 2 in Hn. lia. }
    assert (Hn' : n / 10 < 2 ^ N.of_nat f).
    { apply N.div_lt_upper_bound; [lia|].
      replace (N.of_nat (S f)) with (1 + N.of_nat f) in Hn by lia.
      rewrite N.pow_add_r in Hn. change (2^1) with 2 in Hn. lia. }
    destruct (IH (n / 10) (n2b (48 + n mod 10) :: acc) Hn' Hf') as (d & E & Hne & HF & Hv).
    exists (d ++ [n2b (48 + n mod 10)]). split.
    { rewrite E, <- app_assoc. reflexivity. }
    split; [destruct d; discriminate|]. split.
    { apply Forall_app. split; [exact HF|now repeat constructor]. }
    intros a. rewrite dec_value_app, Hv. cbn [dec_value]. rewrite Hd1, Hd2.
    f_equal. rewrite app_length. simpl length.
    replace (N.of_nat (length d + 1)) with (N.of_nat (length d) + 1) by lia.
    rewrite N.pow_add_r. change (10^1) with 10.
    pose proof (N.div_mod n 10 ltac:(lia)). nia.
Qed.

Lemma format_dec_spec n :
  exists d, format_dec n = d /\ d <> [] /\
    Forall (fun c => is_digit c = true) d /\ dec_value 0 d = Some n.
Proof.
  unfold format_dec.
  destruct (dec_digits_spec (S (N.to_nat (N.log2 n))) n []) as (d & E & Hne & HF & Hv).
  - replace (N.of_nat (S (N.to_nat (N.log2 n)))) with (N.succ (N.log2 n)) by lia.
    destruct n; [reflexivity|]. apply N.log2_spec. lia.
  - discriminate.
  - exists d. rewrite E, app_nil_r. split; [reflexivity|]. split; [exact Hne|].
    split; [exact HF|]. now rewrite Hv.
Qed.

Lemma parse_format_dec n : n < two64 -> parse_uint64 (format_dec n) = Some n.
Proof.
  intros H. destruct (format_dec_spec n) as (d & E & Hne & HF & Hv).
  rewrite E. unfold parse_uint64. destruct d; [congruence|].
  rewrite Hv. destruct (N.ltb_spec n two64); [reflexivity|lia].
Qed.

Lemma format_dec_digits n : Forall (fun c => is_digit c = true) (format_dec n).
Proof. destruct (format_dec_spec n) as (d & E & Hne & HF & Hv). now rewrite E. Qed.

Lemma format_dec_nonempty n : format_dec n <> [].
Proof. destruct (format_dec_spec n) as (d & E & Hne & HF & Hv). now rewrite E. Qed.

Lemma dec_digits_length : forall fuel n acc k,
  n < 10 ^ N.of_nat k -> (0 < k)%nat ->
  (length (dec_digits fuel n acc) <= k + length acc)%nat.
Proof.
  induction fuel as [|f IH]; intros n acc k Hn Hk; cbn [dec_digits]; [lia|].
  destruct (N.ltb_spec n 10); simpl length; [lia|].
  destruct k as [|[|k]]; [lia| |].
  - change (10 ^ N.of_nat 1) with 10 in Hn. lia.
  - specialize (IH (n / 10) (n2b (48 + n mod 10) :: acc) (S k)). simpl length in IH.
    assert (n / 10 < 10 ^ N.of_nat (S k)).
    { apply N.div_lt_upper_bound; [lia|].
      replace (N.of_nat (S (S k))) with (1 + N.of_nat (S k)) in Hn by lia.
      rewrite N.pow_add_r in Hn. change (10^1) with 10 in Hn. lia. }
    specialize (IH H0 ltac:(lia)). lia.
Qed.

Lemma format_dec_length n k :
  n < 10 ^ N.of_nat k -> (0 < k)%nat -> (length (format_dec n) <= k)%nat.
Proof.
  intros. unfold format_dec. etransitivity; [apply dec_digits_length; eassumption|].
  simpl. lia.
Qed.

Lemma format_dec_inj a b : format_dec a = format_dec b -> a = b.
Proof.
  intros H.
  destruct (format_dec_spec a) as (d & E & _ & _ & Hv).
  destruct (format_dec_spec b) as (d' & E' & _ & _ & Hv').
  rewrite E, E' in H. subst d'. congruence.
Qed.

(** *** Index, split, join *)

Lemma index_byte_app c a b :
  ~ In c a -> index_byte c (a ++ c :: b) = Some (length a).
Proof.
  induction a as [|x a IH]; simpl; intros H.
  - now rewrite byte_eqb_refl.
  - destruct (byte_eqb_spec x c); [exfalso; auto|]. rewrite IH; auto.
Qed.

Lemma index_byte_none c a : ~ In c a -> index_byte c a = None.
Proof.
  induction a as [|x a IH]; simpl; intros H; [reflexivity|].
  destruct (byte_eqb_spec x c); [exfalso; auto|]. rewrite IH; auto.
Qed.

Lemma index_byte_some c s i :
  index_byte c s = Some i ->
  exists a b, s = a ++ c :: b /\ length a = i /\ ~ In c a.
Proof.
  revert i. induction s as [|x s IH]; simpl; intros i H; [discriminate|].
  destruct (byte_eqb_spec x c).
  - injection H as <-. exists [], s. subst. simpl. auto.
  - destruct (index_byte c s) as [j|]; [|discriminate]. injection H as <-.
    destruct (IH j eq_refl) as (a & b & -> & Hl & Hni).
    exists (x :: a), b. simpl. split; [reflexivity|]. split; [lia|].
    intros [->|Hin]; auto.
Qed.

Lemma index_byte_none_inv c s : index_byte c s = None -> ~ In c s.
Proof.
  induction s as [|x s IH]; simpl; intros H; [auto|].
  destruct (byte_eqb_spec x c); [discriminate|].
  destruct (index_byte c s); [discriminate|]. intros [->|Hin]; auto.
  now apply IH.
Qed.

Lemma split_byte_nonempty c s : split_byte c s <> [].
Proof.
  induction s as [|x s IH]; simpl; [discriminate|].
  destruct (byte_eqb x c); [discriminate|]. destruct (split_byte c s); discriminate.
Qed.

Lemma split_byte_none c s : ~ In c s -> split_byte c s = [s].
Proof.
  induction s as [|x s IH]; simpl; intros H; [reflexivity|].
  destruct (byte_eqb_spec x c); [exfalso; auto|]. rewrite IH by auto. reflexivity.
Qed.

Lemma split_byte_app c a b :
  ~ In c a -> split_byte c (a ++ c :: b) = a :: split_byte c b.
Proof.
  induction a as [|x a IH]; simpl; intros H.
  - now rewrite byte_eqb_refl.
  - destruct (byte_eqb_spec x c); [exfalso; auto|]. rewrite IH by auto. reflexivity.
Qed.

Lemma split_join c l :
  l <> [] -> Forall (fun s => ~ In c s) l -> split_byte c (join_byte c l) = l.
Proof.
  induction l as [|x l IH]; intros Hne HF; [congruence|].
  inversion HF as [|? ? Hx HF']; subst.
  destruct l as [|y l]; simpl.
  - now apply split_byte_none.
  - rewrite split_byte_app by assumption. f_equal. now apply IH.
Qed.

Lemma join_split c s : join_byte c (split_byte c s) = s.
Proof.
  induction s as [|x s IH]; [reflexivity|]. simpl.
  destruct (byte_eqb_spec x c).
  - subst. destruct (split_byte c s) as [|h t] eqn:E.
    + now apply split_byte_nonempty in E.
    + rewrite <- IH. reflexivity.
  - destruct (split_byte c s) as [|h t] eqn:E.
    + now apply split_byte_nonempty in E.
    + rewrite <- IH. destruct t; reflexivity.
Qed.

Lemma split_byte_parts c s : Forall (fun p => ~ In c p) (split_byte c s).
Proof.
  induction s as [|x s IH]; simpl.
  - constructor; auto.
  - destruct (byte_eqb_spec x c).
    + constructor; auto.
    + destruct (split_byte c s) as [|h t].
      * constructor; [|constructor]. simpl. intros [->|[]]; auto.
      * inversion IH; subst. constructor; auto.
        simpl. intros [->|Hin]; auto.
Qed.

Lemma has_prefix_spec s p : has_prefix s p = true <-> exists r, s = p ++ r.
Proof.
  revert s; induction p as [|a p IH]; intros s; simpl.
  - split; [intros _; now exists s|destruct s; reflexivity].
  - destruct s as [|b s].
    + split; [discriminate|]. intros [r H]; discriminate.
    + rewrite andb_true_iff, IH. destruct (byte_eqb_spec a b).
      * subst. split.
        -- intros [_ [r ->]]. eauto.
        -- intros [r [= ->]]. eauto.
      * split; [intros [? _]; discriminate|]. intros [r [= -> ->]]. congruence.
Qed.

(** *** Big endian *)

Lemma be_value_app a b : be_value (a ++ b) =
  be_value a * 256 ^ N.of_nat (length b) + be_value b.
Proof.
  unfold be_value. rewrite fold_left_app.
  generalize (fold_left (fun a0 x => a0 * 256 + b2n x) a 0). clear a.
  assert (H : forall b acc, fold_left (fun a x => a * 256 + b2n x) b acc
    = acc * 256 ^ N.of_nat (length b) + fold_left (fun a x => a * 256 + b2n x) b 0).
  { clear. induction b as [|x b IH]; intros acc; cbn [fold_left length].
    - change (256 ^ N.of_nat 0) with 1. lia.
    - rewrite IH. rewrite (IH (0 * 256 + b2n x)).
      replace (N.of_nat (S (length b))) with (1 + N.of_nat (length b)) by lia.
      rewrite N.pow_add_r. change (256^1) with 256. lia. }
  intros n. apply H.
Qed.

Lemma be_value_snoc a x : be_value (a ++ [x]) = be_value a * 256 + b2n x.
Proof.
  rewrite be_value_app. change (256 ^ N.of_nat (length [x])) with 256.
  unfold be_value at 2. cbn [fold_left]. lia.
Qed.

Lemma be_value_lt b : be_value b < 256 ^ N.of_nat (length b).
Proof.
  induction b as [|x b IH] using rev_ind.
  - reflexivity.
  - rewrite be_value_snoc, app_length. simpl length.
    replace (N.of_nat (length b + 1)) with (N.of_nat (length b) + 1) by lia.
    rewrite N.pow_add_r. change (256^1) with 256. pose proof (b2n_lt x). nia.
Qed.

Lemma be_bytes_length n x : length (be_bytes n x) = n.
Proof.
  revert x; induction n as [|n IH]; intros x; simpl; [reflexivity|].
  rewrite app_length, IH. simpl. lia.
Qed.

Lemma be_value_bytes n : forall x, be_value (be_bytes n x) = x mod 256 ^ N.of_nat n.
Proof.
  induction n as [|n IH]; intros x; cbn [be_bytes].
  - change (256 ^ N.of_nat 0) with 1. now rewrite N.mod_1_r.
  - rewrite be_value_snoc, IH, b2n_n2b.
    replace (N.of_nat (S n)) with (1 + N.of_nat n) by lia.
    rewrite N.pow_add_r. change (256 ^ 1) with 256.
    rewrite N.mod_mul_r by (try (apply N.pow_nonzero); lia). lia.
Qed.

Lemma be_bytes_value b : be_bytes (length b) (be_value b) = b.
Proof.
  induction b as [|x b IH] using rev_ind; [reflexivity|].
  rewrite app_length. simpl length. rewrite Nat.add_1_r. cbn [be_bytes].
  rewrite be_value_snoc. pose proof (b2n_lt x).
  rewrite (N.add_comm _ (b2n x)), N.div_add by lia.
  rewrite N.div_small by lia. rewrite N.add_0_l, IH.
  f_equal. f_equal. apply b2n_inj. rewrite b2n_n2b.
  rewrite N.mod_add by lia. apply N.mod_small. lia.
Qed.

Lemma be_value_inj a b : length a = length b -> be_value a = be_value b -> a = b.
Proof.
  intros Hl Hv. rewrite <- (be_bytes_value a), <- (be_bytes_value b), Hl, Hv. reflexivity.
Qed.

(** ** Grammar of hexadecimal and decimal strings, for specifications *)

(** No code of its own: used in statements. *)
Definition hex_digit_of (c : byte) (n : N) : Prop :=
  (b2n c = 48 + n /\ n <= 9) \/ (b2n c = 87 + n /\ 10 <= n <= 15) \/ (b2n c = 55 + n /\ 10 <= n <= 15).

(** [hex_of s b]: [s] is a spelling of the bytes [b], two digits each. No code of its own:
    used in statements. *)
Inductive hex_of : bytes -> bytes -> Prop :=
| hex_of_nil : hex_of [] []
| hex_of_cons c1 c2 n1 n2 s b :
    hex_digit_of c1 n1 -> hex_digit_of c2 n2 -> hex_of s b ->
    hex_of (c1 :: c2 :: s) (n2b (16 * n1 + n2) :: b).

Lemma hex_value_iff c n : hex_value c = Some n <-> hex_digit_of c n.
Proof.
  unfold hex_value, hex_digit_of. split.
  - destruct ((48 <=? b2n c) && (b2n c <=? 57))%bool eqn:E1; [intros [= <-]; lia|].
    destruct ((97 <=? b2n c) && (b2n c <=? 102))%bool eqn:E2; [intros [= <-]; lia|].
    destruct ((65 <=? b2n c) && (b2n c <=? 70))%bool eqn:E3; [intros [= <-]; lia|discriminate].
  - intros H.
    destruct ((48 <=? b2n c) && (b2n c <=? 57))%bool eqn:E1; [f_equal; lia|].
    destruct ((97 <=? b2n c) && (b2n c <=? 102))%bool eqn:E2; [f_equal; lia|].
    destruct ((65 <=? b2n c) && (b2n c <=? 70))%bool eqn:E3; [f_equal; lia|lia].
Qed.

Lemma hex_decode_iff s b : hex_decode s = Some b <-> hex_of s b.
Proof.
  split.
  - assert (G : forall n s b, (length s <= n)%nat -> hex_decode s = Some b -> hex_of s b).
    { clear. induction n as [|n IH]; intros s b Hn H.
      - destruct s; [injection H as <-; constructor|simpl in Hn; lia].
      - destruct s as [|a [|a' r]]; [injection H as <-; constructor|discriminate|].
        cbn [hex_decode] in H.
        destruct (hex_value a) as [x|] eqn:Ea; [|discriminate].
        destruct (hex_value a') as [y|] eqn:Eb; [|discriminate].
        destruct (hex_decode r) as [l|] eqn:E; [|discriminate].
        injection H as <-. constructor; try (now apply hex_value_iff).
        apply IH; auto. simpl in Hn. lia. }
    apply (G (length s)). lia.
  - induction 1; [reflexivity|]. cbn [hex_decode].
    apply hex_value_iff in H. apply hex_value_iff in H0. now rewrite H, H0, IHhex_of.
Qed.

Lemma hex_of_encode b : hex_of (hex_encode b) b.
Proof. apply hex_decode_iff, hex_decode_encode. Qed.

Lemma hex_of_length s b : hex_of s b -> length s = (2 * length b)%nat.
Proof. induction 1; simpl; lia. Qed.

Lemma hex_of_fun s b b' : hex_of s b -> hex_of s b' -> b = b'.
Proof. rewrite <- !hex_decode_iff. congruence. Qed.

(** A hexadecimal string has no byte outside 0-9A-Za-z. *)
Lemma hex_of_not_in s b c : hex_of s b -> b2n c < 48 \/ 57 < b2n c < 65 -> ~ In c s.
Proof.
  induction 1 as [|c1 c2 n1 n2 s b H1 H2 H IH]; intros Hc; simpl; [tauto|].
  unfold hex_digit_of in *. intros [E|[E|E]]; subst; [lia|lia|now apply IH].
Qed.

(** [dec_of s n]: [s] is a non-empty string of decimal digits with value [n]. No code of its
    own: used in statements. *)
Definition dec_of (s : bytes) (n : N) : Prop :=
  s <> [] /\ Forall (fun c => 48 <= b2n c <= 57) s /\
  n = fold_left (fun a c => 10 * a + (b2n c - 48)) s 0.

Lemma dec_value_iff s : forall acc n,
  dec_value acc s = Some n <->
  Forall (fun c => 48 <= b2n c <= 57) s /\ n = fold_left (fun a c => 10 * a + (b2n c - 48)) s acc.
Proof.
  induction s as [|c s IH]; intros acc n; cbn [dec_value fold_left].
  - split; [intros [= <-]; auto|intros [_ ->]; reflexivity].
  - unfold is_digit. destruct ((48 <=? b2n c) && (b2n c <=? 57))%bool eqn:E.
    + rewrite IH, N.mul_comm. split.
      * intros [H1 H2]. split; [constructor; auto; lia|exact H2].
      * intros [H1 H2]. inversion H1; subst. auto.
    + split; [discriminate|]. intros [H _]. inversion H; subst. lia.
Qed.

Lemma parse_uint64_iff s n : parse_uint64 s = Some n <-> dec_of s n /\ n < two64.
Proof.
  unfold parse_uint64, dec_of. destruct s as [|c s].
  - split; [discriminate|]. intros [[H _] _]. congruence.
  - destruct (dec_value 0 (c :: s)) as [m|] eqn:E.
    + apply dec_value_iff in E. destruct E as [E1 E2].
      destruct (N.ltb_spec m two64); split.
      * intros [= <-]. split; [split; [discriminate|auto]|assumption].
      * intros [(_ & _ & ->) _]. congruence.
      * discriminate.
      * intros [(_ & _ & ->) Hl]. lia.
    + split; [discriminate|]. intros [(_ & H1 & H2) _].
      assert (E' : dec_value 0 (c :: s) = Some n) by (apply dec_value_iff; auto). congruence.
Qed.
