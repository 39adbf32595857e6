(** Proofs about ResourceModel: quoting, the label regexp, trimming. *)

From Coq Require Import String.
From Coq Require Import List Arith NArith ZArith Bool Lia ZifyBool ZifyNat ZifyN Permutation.
From Verif Require Import Base GoMap GoSort Text Utf8 ResourceModel ResourceSpec.
Import ListNotations.
Open Scope nat_scope.

(** ** Quoting *)

Lemma hex_digit_lt n : (n < 16)%N -> (b2n (hex_digit n) = if n <? 10 then 48 + n else 87 + n)%N.
Proof. intros H. unfold hex_digit. apply b2n_n2b_small. destruct (n <? 10)%N eqn:E; lia. Qed.

Lemma hex_digits_spec n : forall v acc s, (v < 16 ^ N.of_nat n)%N -> read_hex n acc (hex_digits n v ++ s) = Some (acc * 16 ^ N.of_nat n + v, s)%N.
Proof.
  induction n as [|n IH]; intros v acc s Hv.
  - cbn in Hv |- *. f_equal. f_equal. lia.
  - rewrite Nat2N.inj_succ, N.pow_succ_r' in Hv |- *.
    assert (Hgen : forall m w a t, (w < 16 ^ N.of_nat m)%N -> forall d, (d < 16)%N -> read_hex (S m) a (hex_digits m w ++ hex_digit d :: t) = read_hex 1 (a * 16 ^ N.of_nat m + w)%N (hex_digit d :: t)).
    { clear. induction m as [|m IHm]; intros w a t Hw d Hd.
      - cbn in Hw. cbn [hex_digits app N.of_nat]. f_equal. rewrite N.pow_0_r. lia.
      - rewrite Nat2N.inj_succ, N.pow_succ_r' in Hw |- *. cbn [hex_digits]. rewrite <- app_assoc. cbn [app].
        assert (Hq : (w / 16 < 16 ^ N.of_nat m)%N) by (apply N.div_lt_upper_bound; lia).
        assert (Hm : (w mod 16 < 16)%N) by (apply N.mod_lt; lia).
        change (read_hex (S (S m)) a (hex_digits m (w / 16) ++ hex_digit (w mod 16) :: hex_digit d :: t) = read_hex 1 (a * (16 * 16 ^ N.of_nat m) + w)%N (hex_digit d :: t)).
        assert (Hone : forall k aa l, read_hex (k + 1) aa l = match read_hex k aa l with Some (x, r) => read_hex 1 x r | None => None end).
        { clear. induction k as [|k IHk]; intros aa l; [cbn [Nat.add read_hex]; reflexivity |]. cbn [Nat.add read_hex]. destruct l as [|c l]; [reflexivity |].
          destruct (hex_value c); [apply IHk | reflexivity]. }
        replace (S (S m)) with (S m + 1) by lia. rewrite Hone. rewrite IHm by assumption. cbn [read_hex]. rewrite !hex_digit_value by assumption.
        do 3 f_equal. pose proof (N.div_mod w 16 ltac:(lia)). lia. }
    cbn [hex_digits]. rewrite <- app_assoc. cbn [app]. assert (Hm : (v mod 16 < 16)%N) by (apply N.mod_lt; lia).
    rewrite Hgen; [| apply N.div_lt_upper_bound; lia | exact Hm]. cbn [read_hex]. rewrite hex_digit_value by exact Hm.
    do 2 f_equal. pose proof (N.div_mod v 16 ltac:(lia)). lia.
Qed.

Lemma uq_x t : unquote_char (backslash :: bs "x" ++ t) = match read_hex 2 0 t with Some (v, t') => Some ([n2b v], t') | None => None end.
Proof. reflexivity. Qed.
Lemma uq_u t : unquote_char (backslash :: bs "u" ++ t) =
  match read_hex 4 0 t with Some (v, t') => if valid_rune v then Some (encode_rune v, t') else None | None => None end.
Proof. reflexivity. Qed.
Lemma uq_U t : unquote_char (backslash :: bs "U" ++ t) =
  match read_hex 8 0 t with Some (v, t') => if valid_rune v then Some (encode_rune v, t') else None | None => None end.
Proof. reflexivity. Qed.

Lemma encode_ascii r : (r < 128)%N -> encode_rune r = [n2b r].
Proof. intros H. unfold encode_rune. replace (valid_rune r) with true by (unfold valid_rune; lia). replace (r <? 128)%N with true by lia. reflexivity. Qed.

Lemma encode_head r : (128 <= r)%N -> valid_rune r = true -> exists c l, encode_rune r = c :: l /\ (194 <= b2n c)%N.
Proof.
  intros H V. unfold encode_rune. rewrite V. unfold valid_rune in V. replace (r <? 128)%N with false by lia.
  destruct (r <? 2048)%N eqn:E; [eexists; eexists; split; [reflexivity |]; rewrite b2n_n2b_small; euc |].
  destruct (r <? 65536)%N eqn:E2; (eexists; eexists; split; [reflexivity |]; rewrite b2n_n2b_small; euc).
Qed.

Lemma encode_bytes_high r : (128 <= r)%N -> valid_rune r = true -> forall c, In c (encode_rune r) -> (128 <= b2n c)%N.
Proof.
  intros H V c. unfold encode_rune. rewrite V. unfold valid_rune in V. replace (r <? 128)%N with false by lia.
  assert (M : forall x, (x mod 64 < 64)%N) by (intros; apply N.mod_lt; lia).
  destruct (r <? 2048)%N eqn:E; [| destruct (r <? 65536)%N eqn:E2]; cbn [In]; intros Hc; repeat (destruct Hc as [<- | Hc]); try contradiction;
    rewrite b2n_n2b_small; euc.
Qed.

Lemma unquote_quote_rune u r t : valid_rune r = true -> unquote_char (quote_rune u r ++ t) = Some (encode_rune r, t).
Proof.
  intros V. unfold quote_rune.
  destruct ((r =? 34) || (r =? 92))%N eqn:E1.
  { assert (r = 34%N \/ r = 92%N) as [-> | ->] by lia; reflexivity. }
  destruct (printable u r) eqn:Ep.
  { destruct (N.lt_ge_cases r 128) as [Hlt | Hge].
    - rewrite encode_ascii by exact Hlt. cbn [app]. unfold unquote_char. rewrite b2n_n2b_small by lia.
      replace (r =? 34)%N with false by lia. replace (128 <=? r)%N with false by lia. replace (r =? 92)%N with false by lia. reflexivity.
    - destruct (encode_head r Hge V) as (c & l & El & Hc). pose proof (decode_encode r t V) as D. rewrite El in D |- *. cbn [app] in *. unfold unquote_char.
      replace (b2n c =? 34)%N with false by lia. replace (128 <=? b2n c)%N with true by lia. rewrite D.
      rewrite El. cbn [length]. change (c :: l ++ t) with ((c :: l) ++ t). rewrite (skipn_app (S (length l)) (c :: l) t). cbn [length].
      rewrite Nat.sub_diag. rewrite skipn_all2 by (cbn; lia). reflexivity. }
  destruct (N.eqb_spec r 7); [subst; reflexivity |]. destruct (N.eqb_spec r 8); [subst; reflexivity |].
  destruct (N.eqb_spec r 12); [subst; reflexivity |]. destruct (N.eqb_spec r 10); [subst; reflexivity |].
  destruct (N.eqb_spec r 13); [subst; reflexivity |]. destruct (N.eqb_spec r 9); [subst; reflexivity |].
  destruct (N.eqb_spec r 11); [subst; reflexivity |].
  destruct ((r <? 32) || (r =? 127))%N eqn:Ex.
  { rewrite <- app_comm_cons, <- app_assoc, uq_x. rewrite (hex_digits_spec 2 r 0 t) by (change (16 ^ N.of_nat 2)%N with 256%N; lia).
    rewrite encode_ascii by lia. do 3 f_equal. }
  destruct (r <? 65536)%N eqn:E6.
  { rewrite <- app_comm_cons, <- app_assoc, uq_u. rewrite (hex_digits_spec 4 r 0 t) by (change (16 ^ N.of_nat 4)%N with 65536%N; lia).
    change (0 * 16 ^ N.of_nat 4 + r)%N with r. rewrite V. reflexivity. }
  rewrite <- app_comm_cons, <- app_assoc, uq_U. unfold valid_rune in V.
  rewrite (hex_digits_spec 8 r 0 t) by (change (16 ^ N.of_nat 8)%N with 4294967296%N; lia).
  change (0 * 16 ^ N.of_nat 8 + r)%N with r. unfold valid_rune. rewrite V. reflexivity.
Qed.

Lemma quote_rune_nonempty u r : valid_rune r = true -> quote_rune u r <> [].
Proof.
  intros V H. pose proof (unquote_quote_rune u r [] V) as E. rewrite H in E. discriminate.
Qed.

(** The pieces of a quoted string. *)
Lemma quote_body_cons u n c s : length (c :: s) <= S n ->
  exists w piece, 1 <= w /\ w <= length (c :: s) /\ quote_body u (S n) (c :: s) = piece ++ quote_body u n (skipn w (c :: s)) /\
    piece <> [] /\ (forall t, unquote_char (piece ++ t) = Some (firstn w (c :: s), t)) /\
    ((exists r, decodes (c :: s) r w /\ piece = quote_rune u r) \/
     (w = 1 /\ (128 <= b2n c)%N /\ piece = backslash :: bs "x" ++ hex_digits 2 (b2n c))).
Proof.
  intros Hl. cbn [quote_body]. destruct (decode_rune (c :: s)) as [r w] eqn:D. destruct (decode_width _ _ _ D) as (W1 & W2 & _).
  specialize (W2 ltac:(discriminate)).
  destruct ((w =? 1) && (r =? rune_error)%N) eqn:E.
  - assert (w = 1) by lia. subst w. assert (r = rune_error) by lia. subst r.
    assert (Hc : (128 <= b2n c)%N).
    { destruct (N.lt_ge_cases (b2n c) 128) as [Hlt |]; [| assumption]. exfalso. unfold decode_rune in D. cbn zeta in D.
      replace (b2n c <? 128)%N with true in D by lia. injection D as D. unfold rune_error in D. lia. }
    eexists 1, _. split; [lia |]. split; [exact W1 |]. split; [reflexivity |]. split; [discriminate |]. split.
    + intros t. rewrite <- app_comm_cons, <- app_assoc, uq_x. pose proof (b2n_lt c).
      rewrite (hex_digits_spec 2 (b2n c) 0 t) by (change (16 ^ N.of_nat 2)%N with 256%N; lia).
      change (0 * 16 ^ N.of_nat 2 + b2n c)%N with (b2n c). rewrite n2b_b2n. reflexivity.
    + right. auto.
  - assert (Hd : decodes (c :: s) r w).
    { split; [exact D |]. split; [discriminate |]. intros Hr Hw. subst. rewrite Nat.eqb_refl, N.eqb_refl in E. discriminate. }
    destruct (encode_decode _ _ _ Hd) as [Ee V].
    exists w, (quote_rune u r). split; [lia |]. split; [exact W1 |]. split; [reflexivity |]. split; [apply quote_rune_nonempty; exact V |]. split.
    + intros t. rewrite unquote_quote_rune by exact V. rewrite Ee. reflexivity.
    + left. exists r. auto.
Qed.

Lemma unquote_body_quote u : forall n s f, length s <= n -> length (quote_body u n s) <= f -> unquote_body f (quote_body u n s) = Some s.
Proof.
  induction n as [|n IH]; intros s f Hl Hf.
  - destruct s; [| cbn in Hl; lia]. destruct f; reflexivity.
  - destruct s as [|c s]; [destruct f; reflexivity |].
    destruct (quote_body_cons u n c s Hl) as (w & piece & W1 & W2 & E & Hp & Hu & _). rewrite E in Hf |- *.
    rewrite app_length in Hf. assert (length piece <> 0) by (destruct piece; [congruence | cbn; lia]).
    destruct (piece ++ quote_body u n (skipn w (c :: s))) as [|x y] eqn:Ep; [destruct piece; [congruence | discriminate] |]. rewrite <- Ep. clear Ep.
    destruct f as [|f]; [lia |].
    assert (Hs : unquote_body (S f) (piece ++ quote_body u n (skipn w (c :: s))) =
      match unquote_char (piece ++ quote_body u n (skipn w (c :: s))) with
      | Some (b, r) => match unquote_body f r with Some t => Some (b ++ t) | None => None end | None => None end).
    { destruct piece; [congruence | reflexivity]. }
    rewrite Hs, Hu, IH; [rewrite firstn_skipn; reflexivity | rewrite skipn_length; lia | lia].
Qed.

Lemma hex_digits_lower n : forall v, Forall lower_hex (hex_digits n v).
Proof.
  induction n as [|n IH]; intros v; cbn [hex_digits]; [constructor |]. apply Forall_app. split; [apply IH |]. constructor; [| constructor].
  unfold lower_hex. pose proof (N.mod_lt v 16 ltac:(lia)). rewrite hex_digit_lt by lia. destruct (v mod 16 <? 10)%N eqn:E; lia.
Qed.

Lemma bs_x : bs "x" = [n2b 120]. Proof. reflexivity. Qed.
Lemma bs_u : bs "u" = [n2b 117]. Proof. reflexivity. Qed.
Lemma bs_U : bs "U" = [n2b 85]. Proof. reflexivity. Qed.

(** The shapes of a quoted rune. *)
Lemma quote_rune_cases u r : valid_rune r = true ->
  (quote_rune u r = [backslash; n2b r] /\ (r = 34 \/ r = 92)%N) \/
  (quote_rune u r = [n2b r] /\ (32 <= r <= 126)%N /\ r <> 34%N /\ r <> 92%N) \/
  (quote_rune u r = encode_rune r /\ (128 <= r)%N) \/
  (exists e hx, quote_rune u r = backslash :: e :: hx /\ (93 <= b2n e <= 126 \/ b2n e = 85)%N /\ Forall lower_hex hx /\ ~ (32 <= r <= 126)%N).
Proof.
  intros V. unfold quote_rune. destruct ((r =? 34) || (r =? 92))%N eqn:E1; [left; split; [reflexivity | lia] |].
  destruct (printable u r) eqn:Ep.
  { destruct (N.lt_ge_cases r 128) as [Hlt | Hge].
    - right. left. unfold printable in Ep. replace (r <? 128)%N with true in Ep by lia. rewrite encode_ascii by exact Hlt. split; [reflexivity | lia].
    - right. right. left. auto. }
  right. right. right.
  assert (Hr : ~ (32 <= r <= 126)%N) by (intros H; unfold printable in Ep; replace (r <? 128)%N with true in Ep by lia; lia).
  assert (Hx : forall n, (93 <= n <= 126)%N -> exists e hx, backslash :: [n2b n] = backslash :: e :: hx /\ (93 <= b2n e <= 126 \/ b2n e = 85)%N /\ Forall lower_hex hx /\ ~ (32 <= r <= 126)%N).
  { intros n Hn. exists (n2b n), []. split; [reflexivity |]. rewrite b2n_n2b_small by lia. auto. }
  destruct (r =? 7)%N; [apply (Hx 97%N); lia |]. destruct (r =? 8)%N; [apply (Hx 98%N); lia |].
  destruct (r =? 12)%N; [apply (Hx 102%N); lia |]. destruct (r =? 10)%N; [apply (Hx 110%N); lia |].
  destruct (r =? 13)%N; [apply (Hx 114%N); lia |]. destruct (r =? 9)%N; [apply (Hx 116%N); lia |].
  destruct (r =? 11)%N; [apply (Hx 118%N); lia |].
  destruct ((r <? 32) || (r =? 127))%N; [| destruct (r <? 65536)%N].
  - rewrite bs_x. eexists; eexists. split; [reflexivity |]. rewrite b2n_n2b_small by lia. split; [lia |]. split; [apply hex_digits_lower | exact Hr].
  - rewrite bs_u. eexists; eexists. split; [reflexivity |]. rewrite b2n_n2b_small by lia. split; [lia |]. split; [apply hex_digits_lower | exact Hr].
  - rewrite bs_U. eexists; eexists. split; [reflexivity |]. rewrite b2n_n2b_small by lia. split; [lia |]. split; [apply hex_digits_lower | exact Hr].
Qed.

Lemma decodes_ascii c s r w : decodes (c :: s) r w -> (r < 128)%N -> r = b2n c /\ w = 1.
Proof.
  intros D Hr. destruct (encode_decode _ _ _ D) as [E V]. rewrite encode_ascii in E by exact Hr.
  destruct D as (D & _). destruct (decode_width _ _ _ D) as (W1 & W2 & _). specialize (W2 ltac:(discriminate)).
  destruct w as [|w]; [congruence |]. cbn [firstn] in E. injection E as E1 E2. split.
  - rewrite <- E1, b2n_n2b_small by lia. reflexivity.
  - destruct w as [|w]; [reflexivity |]. cbn [length] in W1. destruct s as [|d s]; [cbn in W1; lia |]. discriminate.
Qed.

Lemma lower_hex_bounds c : lower_hex c -> (48 <= b2n c <= 102)%N /\ b2n c <> 92%N.
Proof. unfold lower_hex. lia. Qed.

(** What a piece can contain. *)
Lemma piece_facts u c s w piece :
  ((exists r, decodes (c :: s) r w /\ piece = quote_rune u r) \/
   (w = 1 /\ (128 <= b2n c)%N /\ piece = backslash :: bs "x" ++ hex_digits 2 (b2n c))) ->
  (forall x, In x piece -> (32 <= b2n x)%N) /\
  (forall p1 p2, piece = p1 ++ dquote :: p2 -> c = dquote /\ w = 1 /\ p2 = [] /\ piece = [backslash; dquote]) /\
  (forall x p, piece = x :: p -> b2n x <> 92%N -> (b2n x < 128)%N -> x = c /\ w = 1 /\ p = []).
Proof.
  assert (Hb : b2n backslash = 92%N) by reflexivity. assert (Hq : b2n dquote = 34%N) by reflexivity.
  assert (Hsplit : forall l p1 p2, l = p1 ++ dquote :: p2 -> In dquote l).
  { intros l p1 p2 ->. apply in_app_iff. right. left. reflexivity. }
  intros [(r & D & ->) | (-> & Hc & ->)].
  - destruct (encode_decode _ _ _ D) as [Ee V].
    destruct (quote_rune_cases u r V) as [[E H] | [[E H] | [[E H] | (e & hx & E & He & Hh & Hr)]]]; rewrite E.
    + destruct (decodes_ascii _ _ _ _ D ltac:(lia)) as [Hrc ->]. split; [| split].
      * intros x [<- | [<- | []]]; [lia |]. rewrite b2n_n2b_small by lia. lia.
      * intros p1 p2 Ep. destruct p1 as [|a p1]; [injection Ep as Ep _; apply (f_equal b2n) in Ep; lia |].
        destruct p1 as [|b p1]; [| injection Ep as _ _ Ep; destruct p1; discriminate].
        injection Ep as _ Ep <-. assert (r = 34%N). { apply (f_equal b2n) in Ep. rewrite b2n_n2b_small in Ep by lia. lia. }
        subst r. split; [apply b2n_inj; lia |]. split; [reflexivity |]. split; [reflexivity | rewrite Ep; reflexivity].
      * intros x p Ep Hx. injection Ep as <- _. congruence.
    + destruct (decodes_ascii _ _ _ _ D ltac:(lia)) as [Hrc ->]. split; [| split].
      * intros x [<- | []]. rewrite b2n_n2b_small by lia. lia.
      * intros p1 p2 Ep. apply Hsplit in Ep. destruct Ep as [Ep | []]. apply (f_equal b2n) in Ep. rewrite b2n_n2b_small in Ep by lia. lia.
      * intros x p Ep Hx _. injection Ep as <- <-. split; [apply b2n_inj; rewrite b2n_n2b_small by lia; lia | auto].
    + pose proof (encode_bytes_high r H V) as Hh. split; [| split].
      * intros x Hx. apply Hh in Hx. lia.
      * intros p1 p2 Ep. apply Hsplit in Ep. apply Hh in Ep. lia.
      * intros x p Ep Hx Hlt. assert (In x (encode_rune r)) by (rewrite Ep; left; reflexivity). apply Hh in H0. lia.
    + rewrite Forall_forall in Hh. split; [| split].
      * intros x [<- | [<- | Hx]]; [lia | lia |]. apply Hh, lower_hex_bounds in Hx. lia.
      * intros p1 p2 Ep. apply Hsplit in Ep. destruct Ep as [Ep | [Ep | Ep]]; [apply (f_equal b2n) in Ep; lia | apply (f_equal b2n) in Ep; lia |].
        apply Hh, lower_hex_bounds in Ep. lia.
      * intros x p Ep Hx. injection Ep as <- _. congruence.
  - rewrite bs_x. pose proof (hex_digits_lower 2 (b2n c)) as Hh. rewrite Forall_forall in Hh. split; [| split].
    + intros x [<- | [<- | Hx]]; [lia | rewrite b2n_n2b_small; lia |]. apply Hh, lower_hex_bounds in Hx. lia.
    + intros p1 p2 Ep. apply Hsplit in Ep. destruct Ep as [Ep | [Ep | Ep]]; [apply (f_equal b2n) in Ep; lia | apply (f_equal b2n) in Ep; rewrite b2n_n2b_small in Ep; lia |].
      apply Hh, lower_hex_bounds in Ep. lia.
    + intros x p Ep Hx. injection Ep as <- _. congruence.
Qed.

Lemma quote_body_high u : forall n s, length s <= n -> forall x, In x (quote_body u n s) -> (32 <= b2n x)%N.
Proof.
  induction n as [|n IH]; intros s Hl x Hx; [destruct s; contradiction |]. destruct s as [|c s]; [contradiction |].
  destruct (quote_body_cons u n c s Hl) as (w & piece & W1 & W2 & E & _ & _ & Hc). rewrite E in Hx. apply in_app_iff in Hx.
  destruct (piece_facts u c s w piece Hc) as (F1 & _). destruct Hx as [Hx | Hx]; [apply F1; exact Hx |].
  apply (IH (skipn w (c :: s))); [rewrite skipn_length; lia | exact Hx].
Qed.

Lemma quote_body_fuel u : forall n s, length s <= n -> quote_body u n s = quote_body u (length s) s.
Proof.
  intros n s. assert (H : forall k n s, length s <= k -> k <= n -> quote_body u n s = quote_body u k s).
  { clear n s. induction k as [|k IH]; intros n s Hl Hk; [destruct s; [destruct n; reflexivity | cbn in Hl; lia] |].
    destruct n as [|n]; [lia |]. destruct s as [|c s]; [reflexivity |]. cbn [quote_body].
    destruct (decode_rune (c :: s)) as [r w] eqn:D. destruct (decode_width _ _ _ D) as (_ & W2 & _). specialize (W2 ltac:(discriminate)).
    f_equal. apply IH; [rewrite skipn_length; cbn [length] in *; lia | lia]. }
  intros Hl. apply H; lia.
Qed.

Theorem unquote_quote u s : unquote (quote u s) = Some s.
Proof.
  unfold quote. cbn [app]. unfold unquote. rewrite rev_app_distr. cbn [rev app]. rewrite rev_involutive.
  change ((b2n dquote =? 34)%N) with true. cbn [andb].
  destruct (existsb (byte_eqb newline) _) eqn:E.
  - exfalso. apply existsb_exists in E. destruct E as (x & Hx & Ex). apply quote_body_high in Hx; [| lia].
    destruct (byte_eqb_spec newline x); [subst x | discriminate]. change (b2n newline) with 10%N in Hx. lia.
  - apply unquote_body_quote; lia.
Qed.

Notation qb u s := (quote_body u (length s) s).

(** A quote in the quoted body comes from a quote in the string. *)
Lemma quote_body_dquote u : forall n s, length s <= n -> forall q1 q2, qb u s = q1 ++ dquote :: q2 ->
  exists v1 v2, s = v1 ++ dquote :: v2 /\ q2 = qb u v2.
Proof.
  induction n as [|n IH]; intros s Hl q1 q2 Eq.
  - destruct s; [| cbn in Hl; lia]. cbn in Eq. destruct q1; discriminate.
  - destruct s as [|c s]; [cbn in Eq; destruct q1; discriminate |].
    destruct (quote_body_cons u (length s) c s ltac:(cbn [length]; lia)) as (w & piece & W1 & W2 & E & Hp & Hu & Hc).
    cbn [length] in Eq. rewrite E in Eq. destruct (piece_facts u c s w piece Hc) as (_ & F2 & _).
    rewrite (quote_body_fuel u (length s) (skipn w (c :: s))) in Eq by (rewrite skipn_length; cbn [length] in *; lia).
    (* where the quote is *)
    assert (Hcase : (exists p2, piece = q1 ++ dquote :: p2 /\ q2 = p2 ++ qb u (skipn w (c :: s))) \/ (exists r1, q1 = piece ++ r1 /\ qb u (skipn w (c :: s)) = r1 ++ dquote :: q2)).
    { clear - Eq. remember (qb u (skipn w (c :: s))) as z. clear Heqz. revert q1 Eq. induction piece as [|a piece IH]; intros q1 Eq; cbn [app] in Eq.
      - right. exists q1. auto.
      - destruct q1 as [|b q1]; cbn [app] in Eq; injection Eq as -> Eq.
        + left. exists piece. split; [reflexivity | symmetry; exact Eq].
        + destruct (IH q1 Eq) as [(p2 & E1 & E2) | (r1 & E1 & E2)]; [left; exists p2; rewrite E1; auto | right; exists r1; rewrite E1; auto]. }
    destruct Hcase as [(p2 & E1 & E2) | (r1 & E1 & E2)].
    + destruct (F2 _ _ E1) as (-> & -> & -> & _). exists [], s. split; [reflexivity |]. exact E2.
    + destruct (IH (skipn w (c :: s)) ltac:(rewrite skipn_length; cbn [length] in *; lia) _ _ E2) as (v1 & v2 & Ev & Eq2).
      exists (firstn w (c :: s) ++ v1), v2. split; [| exact Eq2]. rewrite <- app_assoc, <- Ev. symmetry. apply firstn_skipn.
Qed.

Lemma skip_space_comma u : forall n s x t, length s <= n -> skipn (span_len re_space (qb u s)) (qb u s) = x :: t -> x = comma ->
  exists k v, s = repeat spaceb k ++ comma :: v.
Proof.
  induction n as [|n IH]; intros s x t Hl E Hx; [destruct s; [discriminate E | cbn in Hl; lia] |].
  destruct s as [|c s]; [discriminate E |].
  destruct (quote_body_cons u (length s) c s ltac:(cbn [length]; lia)) as (w & piece & W1 & W2 & Eq & Hp & Hu & Hc).
  cbn [length] in E. rewrite Eq in E. destruct (piece_facts u c s w piece Hc) as (F1 & _ & F3).
  rewrite (quote_body_fuel u (length s) (skipn w (c :: s))) in E by (rewrite skipn_length; cbn [length] in *; lia).
  destruct piece as [|y piece]; [congruence |]. cbn [app span_len] in E. pose proof (F1 y (or_introl eq_refl)) as Hy.
  destruct (re_space y) eqn:Es.
  - assert (Ey : b2n y = 32%N) by (unfold re_space in Es; lia).
    destruct (F3 y piece eq_refl ltac:(lia) ltac:(lia)) as (-> & -> & ->). cbn [skipn app] in E.
    destruct (IH s x t ltac:(cbn [length] in Hl; lia) E Hx) as (k & v & ->). exists (S k), v. cbn [repeat app]. f_equal. apply b2n_inj. rewrite Ey. reflexivity.
  - cbn [skipn] in E. injection E as -> _. subst x.
    destruct (F3 comma piece eq_refl) as (<- & -> & ->); [discriminate | reflexivity |]. exists 0, s. reflexivity.
Qed.

(** * Decoding *)

Lemma first_some_seq {B} (f : nat -> option B) y : forall n a i, a <= i -> i < a + n ->
  f i = Some y -> (forall j, a <= j < i -> f j = None) -> first_some f (seq a n) = Some y.
Proof.
  induction n as [|n IH]; intros a i H1 H2 Hi Hj; [lia |]. cbn [seq first_some].
  destruct (Nat.eq_dec a i) as [-> | Hne]; [rewrite Hi; reflexivity |]. rewrite Hj by lia. apply (IH (S a) i); [lia | lia | exact Hi |]. intros j Hj'. apply Hj. lia.
Qed.

Lemma first_some_some {A B} (f : A -> option B) l y : first_some f l = Some y -> exists x, In x l /\ f x = Some y.
Proof.
  induction l as [|a l IH]; cbn [first_some]; [discriminate |]. destruct (f a) eqn:E.
  - intros [= <-]. exists a. split; [left; reflexivity | exact E].
  - intros H. destruct (IH H) as (x & Hx & Ex). exists x. split; [right; exact Hx | exact Ex].
Qed.

Lemma take_exact_some p n s a b : take_exact p n s = Some (a, b) -> s = a ++ b /\ length a = n /\ forallb p a = true.
Proof.
  unfold take_exact. destruct ((n <=? length s)%nat && forallb p (firstn n s)) eqn:E; [| discriminate]. intros [= <- <-].
  apply andb_prop in E. destruct E as [E1 E2]. apply Nat.leb_le in E1. rewrite firstn_skipn, firstn_length. split; [reflexivity |]. split; [lia | exact E2].
Qed.

Lemma match_value_shorter s v rest : match_value s = Some (v, rest) -> length rest < length s /\ v <> [].
Proof.
  unfold match_value. destruct s as [|c1 [|c2 r]]; [discriminate | discriminate |].
  destruct ((b2n c1 =? 61) && (b2n c2 =? 34))%N; [| discriminate]. intros H. apply first_some_some in H. destruct H as (n & _ & H).
  destruct (take_exact is_ascii n r) as [[a [|c3 t]] |] eqn:E; try discriminate. destruct (b2n c3 =? 34)%N; [| discriminate].
  destruct (skipn (span_len re_space t) t) as [|c4 rest'] eqn:Es; [discriminate |]. destruct (b2n c4 =? 44)%N; [| discriminate].
  injection H as <- <-. apply take_exact_some in E. destruct E as (-> & _ & _). apply (f_equal (@length byte)) in Es. rewrite skipn_length in Es.
  cbn [length] in *. rewrite app_length. cbn [length]. split; [lia | discriminate].
Qed.

Lemma match_label_shorter s k v rest : match_label s = Some (k, v, rest) -> length rest < length s /\ v <> [].
Proof.
  unfold match_label. intros H. apply first_some_some in H. destruct H as (w & _ & H). apply first_some_some in H. destruct H as (n & _ & H).
  destruct (take_exact is_ascii n (skipn w s)) as [[k' t] |] eqn:E; [| discriminate].
  destruct (match_value t) as [[v' rest'] |] eqn:Em; [| discriminate]. injection H as <- <- <-.
  apply match_value_shorter in Em. apply take_exact_some in E. destruct E as (E & _ & _). apply (f_equal (@length byte)) in E.
  rewrite skipn_length, app_length in E. split; [lia | tauto].
Qed.

Lemma decode_loop_no_panic : forall n m s, length s <= n -> decode_loop n m s <> Panic.
Proof.
  induction n as [|n IH]; intros m s Hl; destruct s as [|c s]; try discriminate; [cbn in Hl; lia |].
  cbn [decode_loop]. destruct (match_label (c :: s)) as [[[k v] rest] |] eqn:E; [| discriminate].
  destruct (match_label_shorter _ _ _ _ E) as [Hs Hv]. destruct v as [|x v]; [congruence |]. destruct (unquote (x :: v)); [| discriminate].
  apply IH. cbn [length] in *. lia.
Qed.

(** The spaces-then-comma test after a quote inside the body. *)
Lemma span_len_app p a b : span_len p (a ++ b) = if forallb p a then length a + span_len p b else span_len p a.
Proof.
  induction a as [|c a IH]; cbn [app span_len forallb length]; [reflexivity |]. destruct (p c); cbn [andb]; [| reflexivity].
  rewrite IH. destruct (forallb p a); reflexivity.
Qed.

Lemma span_len_le p a : span_len p a <= length a.
Proof. induction a as [|c a IH]; cbn [span_len length]; [lia |]. destruct (p c); lia. Qed.

Lemma span_len_stop p a : forallb p a = false -> exists c r, skipn (span_len p a) a = c :: r.
Proof.
  induction a as [|c a IH]; cbn [forallb span_len]; [discriminate |]. destruct (p c); cbn [andb skipn]; [exact IH |]. intros _. eauto.
Qed.

Lemma match_value_ok q t rest :
  Forall (fun c => (b2n c < 128)%N) q -> length q <= 256 ->
  (forall q1 q2 r, q = q1 ++ dquote :: q2 -> skipn (span_len re_space q2) q2 <> comma :: r) ->
  skipn (span_len re_space t) t = comma :: rest ->
  match_value (bs "=" ++ dquote :: q ++ dquote :: t) = Some ([dquote] ++ q ++ [dquote], rest).
Proof.
  intros Ha Hl Hq Ht. cbn [bs list_byte_of_string app]. unfold match_value. change (((b2n _ =? 61) && (b2n dquote =? 34))%N) with true. cbv iota.
  apply (first_some_seq _ _ 257 0 (length q)); [lia | lia | |].
  - unfold take_exact. rewrite firstn_app_exact, skipn_app_exact. replace (length q <=? length (q ++ dquote :: t))%nat with true by (rewrite app_length; cbn [length]; symmetry; apply Nat.leb_le; lia).
    replace (forallb is_ascii q) with true. 2:{ symmetry. apply forallb_forall. intros x Hx. rewrite Forall_forall in Ha. apply Ha in Hx. unfold is_ascii. lia. }
    cbn [andb]. change (b2n dquote =? 34)%N with true. cbv iota. rewrite Ht. reflexivity.
  - intros j Hj. destruct (take_exact is_ascii j (q ++ dquote :: t)) as [[a [|c3 r]] |] eqn:E; [reflexivity | | reflexivity].
    apply take_exact_some in E. destruct E as (E & Hla & _). destruct (b2n c3 =? 34)%N eqn:Ec; [| reflexivity].
    assert (c3 = dquote) by (apply b2n_inj; change (b2n dquote) with 34%N; lia). subst c3.
    (* a ++ dquote :: r with length a < length q *)
    assert (exists q2, q = a ++ dquote :: q2 /\ r = q2 ++ dquote :: t) as (q2 & Eq & ->).
    { clear - E Hla Hj. subst j. revert q E Hj. induction a as [|x a IH]; intros q E Hj; destruct q as [|y q]; cbn [length] in Hj; try lia.
      - cbn [app] in E. injection E as -> E. exists q. auto.
      - cbn [app] in E. injection E as -> E. destruct (IH q E ltac:(lia)) as (q2 & -> & ->). exists q2. auto. }
    destruct (forallb re_space q2) eqn:Ef.
    + rewrite span_len_app, Ef. cbn [span_len]. change (re_space dquote) with false. cbv iota. rewrite Nat.add_0_r, skipn_app_exact. reflexivity.
    + rewrite span_len_app, Ef. destruct (span_len_stop _ _ Ef) as (c & r & Es). rewrite skipn_app, Es. cbn [app].
      destruct (b2n c =? 44)%N eqn:Ecc; [| reflexivity]. exfalso. apply (Hq a q2 r Eq). rewrite Es. f_equal. apply b2n_inj. change (b2n comma) with 44%N. lia.
Qed.

Lemma match_label_ok k v t rest :
  1 <= length k <= 256 -> Forall (fun c => (b2n c < 128)%N) k -> (forall c r, k = c :: r -> is_space c = false) ->
  ~ contains k (bs "=" ++ [dquote]) ->
  (forall c r, t = c :: r -> (b2n c = 61)%N) ->
  match_value t = Some (v, rest) -> match_label (k ++ t) = Some (k, v, rest).
Proof.
  intros Hl Ha Hsp Hc Ht Hv. unfold match_label.
  assert (E0 : span_len re_space (k ++ t) = 0).
  { destruct k as [|c k]; [cbn in Hl; lia |]. cbn [app span_len]. specialize (Hsp c k eq_refl). unfold is_space in Hsp. unfold re_space.
    replace ((b2n c =? 9) || (b2n c =? 10) || (b2n c =? 12) || (b2n c =? 13) || (b2n c =? 32))%N with false by lia. reflexivity. }
  rewrite E0. change (rev (seq 0 1)) with [0]. cbn [first_some skipn].
  rewrite (first_some_seq _ (k, v, rest) 256 1 (length k)); [reflexivity | lia | lia | |].
  - unfold take_exact. rewrite firstn_app_exact, skipn_app_exact. replace (length k <=? length (k ++ t))%nat with true by (rewrite app_length; symmetry; apply Nat.leb_le; lia).
    replace (forallb is_ascii k) with true. 2:{ symmetry. apply forallb_forall. intros x Hx. rewrite Forall_forall in Ha. apply Ha in Hx. unfold is_ascii. lia. }
    cbn [andb]. rewrite Hv. reflexivity.
  - intros j Hj. destruct (take_exact is_ascii j (k ++ t)) as [[a r] |] eqn:E; [| reflexivity].
    apply take_exact_some in E. destruct E as (E & Hla & _).
    assert (exists k2, k = a ++ k2 /\ k2 <> [] /\ r = k2 ++ t) as (k2 & Ek & Hk2 & ->).
    { clear - E Hla Hj. destruct Hj as [_ Hj]. subst j. revert k E Hj. induction a as [|x a IH]; intros k E Hj.
      - exists k. cbn [app] in *. split; [reflexivity |]. split; [destruct k; [cbn in Hj; lia | discriminate] | symmetry; exact E].
      - destruct k as [|y k]; [cbn in Hj; lia |]. cbn [app length] in *. injection E as -> E. destruct (IH k E ltac:(lia)) as (k2 & -> & H & ->). exists k2. auto. }
    replace (match_value (k2 ++ t)) with (@None (bytes * bytes)); [reflexivity |]. symmetry.
    destruct k2 as [|c1 k2]; [congruence |]. cbn [app]. unfold match_value. destruct k2 as [|c2 k2]; cbn [app].
    + destruct t as [|c2 t]; [reflexivity |]. rewrite (Ht c2 t eq_refl). rewrite andb_false_r. reflexivity.
    + destruct ((b2n c1 =? 61) && (b2n c2 =? 34))%N eqn:Ec; [| reflexivity]. exfalso. apply Hc. exists a, k2. rewrite Ek. f_equal.
      replace c1 with (n2b 61) by (apply b2n_inj; rewrite b2n_n2b_small by lia; lia). replace c2 with dquote by (apply b2n_inj; change (b2n dquote) with 34%N; lia). reflexivity.
Qed.
