(** UTF-8 as in Go's unicode/utf8, with its basic laws.  Runes are numbers. *)

From Coq Require Import List NArith ZArith Bool Lia ZifyBool ZifyNat ZifyN.
From Verif Require Import Base.
Import ListNotations.
Open Scope N_scope.

Notation rune := N.
(** utf8.RuneError: what the range over a string gives for invalid bytes
    (internal/sanitize.go:33, strings.Map). *)
Definition rune_error : rune := 65533.

(** A continuation byte, 0x80-0xBF. A step of [decode_rune]. *)
Definition is_cont (n : N) : bool := (128 <=? n) && (n <=? 191).

(** utf8.DecodeRuneInString: the rune and its width; (RuneError, 1) for an invalid encoding,
    (RuneError, 0) for the empty string. A step of strings.Map (internal/sanitize.go:33) and
    of strconv.Quote (resource/resource.go:55). *)
Definition decode_rune (s : bytes) : rune * nat :=
  match s with
  | [] => (rune_error, 0%nat)
  | c0 :: r =>
      let b0 := b2n c0 in
      if b0 <? 128 then (b0, 1%nat)
      else if b0 <? 194 then (rune_error, 1%nat)
      else if b0 <? 224 then
        match r with
        | c1 :: _ => if is_cont (b2n c1) then ((b0 - 192) * 64 + (b2n c1 - 128), 2%nat) else (rune_error, 1%nat)
        | _ => (rune_error, 1%nat)
        end
      else if b0 <? 240 then
        match r with
        | c1 :: c2 :: _ =>
            let lo := if b0 =? 224 then 160 else 128 in
            let hi := if b0 =? 237 then 159 else 191 in
            if (lo <=? b2n c1) && (b2n c1 <=? hi) && is_cont (b2n c2)
            then ((b0 - 224) * 4096 + (b2n c1 - 128) * 64 + (b2n c2 - 128), 3%nat)
            else (rune_error, 1%nat)
        | _ => (rune_error, 1%nat)
        end
      else if b0 <? 245 then
        match r with
        | c1 :: c2 :: c3 :: _ =>
            let lo := if b0 =? 240 then 144 else 128 in
            let hi := if b0 =? 244 then 143 else 191 in
            if (lo <=? b2n c1) && (b2n c1 <=? hi) && is_cont (b2n c2) && is_cont (b2n c3)
            then ((b0 - 240) * 262144 + (b2n c1 - 128) * 4096 + (b2n c2 - 128) * 64 + (b2n c3 - 128), 4%nat)
            else (rune_error, 1%nat)
        | _ => (rune_error, 1%nat)
        end
      else (rune_error, 1%nat)
  end.

(** utf8.ValidRune. A step of [encode_rune]. *)
Definition valid_rune (r : rune) : bool := (r <? 55296) || ((57343 <? r) && (r <=? 1114111)).

(** utf8.AppendRune. A step of strings.Map (internal/sanitize.go:33) and of strconv.Unquote
    (resource/resource.go:81). *)
Definition encode_rune (r0 : rune) : bytes :=
  let r := if valid_rune r0 then r0 else rune_error in
  if r <? 128 then [n2b r]
  else if r <? 2048 then [n2b (192 + r / 64); n2b (128 + r mod 64)]
  else if r <? 65536 then [n2b (224 + r / 4096); n2b (128 + r / 64 mod 64); n2b (128 + r mod 64)]
  else [n2b (240 + r / 262144); n2b (128 + r / 4096 mod 64); n2b (128 + r / 64 mod 64); n2b (128 + r mod 64)].

(** ** Laws *)

(** Successful decodings. No code of its own: used in lemmas. *)
Definition decodes (s : bytes) (r : rune) (w : nat) : Prop := decode_rune s = (r, w) /\ s <> [] /\ (r = rune_error -> w <> 1%nat).

Lemma decode_width s r w : decode_rune s = (r, w) -> (w <= length s)%nat /\ (s <> [] -> w <> 0%nat) /\ (w <= 4)%nat.
Proof.
  unfold decode_rune. destruct s as [|c0 s]; [intros [= <- <-]; cbn; repeat split; try lia; congruence |].
  cbn zeta. destruct (b2n c0 <? 128); [intros [= <- <-]; cbn; repeat split; lia |].
  destruct (b2n c0 <? 194); [intros [= <- <-]; cbn; repeat split; lia |].
  destruct (b2n c0 <? 224).
  { destruct s as [|c1 s]; [intros [= <- <-]; cbn; repeat split; lia |]. destruct (is_cont _); intros [= <- <-]; cbn; repeat split; lia. }
  destruct (b2n c0 <? 240).
  { destruct s as [|c1 [|c2 s]]; try (intros [= <- <-]; cbn; repeat split; lia). destruct (_ && _); intros [= <- <-]; cbn; repeat split; lia. }
  destruct (b2n c0 <? 245).
  { destruct s as [|c1 [|c2 [|c3 s]]]; try (intros [= <- <-]; cbn; repeat split; lia). destruct (_ && _); intros [= <- <-]; cbn; repeat split; lia. }
  intros [= <- <-]; cbn; repeat split; lia.
Qed.

Lemma n2b_eq n c : n = b2n c -> n2b n = c.
Proof. intros ->. apply n2b_b2n. Qed.

Ltac euc := Z.to_euclidean_division_equations; lia.

(** Encoding gives back the bytes; the rune is a valid one. *)
Lemma encode_decode s r w : decodes s r w -> encode_rune r = firstn w s /\ valid_rune r = true.
Proof.
  intros (E & Hne & Hr). unfold decode_rune in E. destruct s as [|c0 s]; [contradiction |]. cbn zeta in E.
  pose proof (b2n_lt c0) as B0.
  destruct (b2n c0 <? 128) eqn:H0.
  { injection E as <- <-. assert (V : valid_rune (b2n c0) = true) by (unfold valid_rune; lia). split; [| exact V].
    unfold encode_rune. rewrite V, H0. cbn [firstn]. rewrite n2b_b2n. reflexivity. }
  destruct (b2n c0 <? 194) eqn:H1; [injection E as <- <-; exfalso; apply Hr; reflexivity |].
  destruct (b2n c0 <? 224) eqn:H2.
  { destruct s as [|c1 s]; [injection E as <- <-; exfalso; apply Hr; reflexivity |]. pose proof (b2n_lt c1) as B1.
    destruct (is_cont (b2n c1)) eqn:C1; [| injection E as <- <-; exfalso; apply Hr; reflexivity].
    injection E as E <-. unfold is_cont in C1.
    assert (V : valid_rune r = true) by (unfold valid_rune; lia). split; [| exact V]. unfold encode_rune. rewrite V.
    replace (r <? 128) with false by lia. replace (r <? 2048) with true by lia. cbn [firstn].
    f_equal; [apply n2b_eq; euc |]. f_equal. apply n2b_eq. euc. }
  destruct (b2n c0 <? 240) eqn:H3.
  { destruct s as [|c1 [|c2 s]]; try (injection E as <- <-; exfalso; apply Hr; reflexivity).
    pose proof (b2n_lt c1) as B1. pose proof (b2n_lt c2) as B2.
    destruct (_ && _) eqn:C in E; [| injection E as <- <-; exfalso; apply Hr; reflexivity]. injection E as E <-. unfold is_cont in C.
    assert (K : 128 <= b2n c1 <= 191 /\ 128 <= b2n c2 <= 191 /\ (b2n c0 = 224 -> 160 <= b2n c1) /\ (b2n c0 = 237 -> b2n c1 <= 159)).
    { destruct (N.eqb_spec (b2n c0) 224), (N.eqb_spec (b2n c0) 237); lia. }
    clear C. assert (V : valid_rune r = true) by (unfold valid_rune; lia). split; [| exact V]. unfold encode_rune. rewrite V.
    replace (r <? 128) with false by lia. replace (r <? 2048) with false by lia. replace (r <? 65536) with true by lia. cbn [firstn].
    f_equal; [apply n2b_eq; euc |]. f_equal; [apply n2b_eq; euc |]. f_equal. apply n2b_eq. euc. }
  destruct (b2n c0 <? 245) eqn:H4; [| injection E as <- <-; exfalso; apply Hr; reflexivity].
  destruct s as [|c1 [|c2 [|c3 s]]]; try (injection E as <- <-; exfalso; apply Hr; reflexivity).
  pose proof (b2n_lt c1) as B1. pose proof (b2n_lt c2) as B2. pose proof (b2n_lt c3) as B3.
  destruct (_ && _) eqn:C in E; [| injection E as <- <-; exfalso; apply Hr; reflexivity]. injection E as E <-. unfold is_cont in C.
  assert (K : 128 <= b2n c1 <= 191 /\ 128 <= b2n c2 <= 191 /\ 128 <= b2n c3 <= 191 /\ (b2n c0 = 240 -> 144 <= b2n c1) /\ (b2n c0 = 244 -> b2n c1 <= 143)).
  { destruct (N.eqb_spec (b2n c0) 240), (N.eqb_spec (b2n c0) 244); lia. }
  clear C. assert (V : valid_rune r = true) by (unfold valid_rune; lia). split; [| exact V]. unfold encode_rune. rewrite V.
  replace (r <? 128) with false by lia. replace (r <? 2048) with false by lia. replace (r <? 65536) with false by lia. cbn [firstn].
  f_equal; [apply n2b_eq; euc |]. f_equal; [apply n2b_eq; euc |]. f_equal; [apply n2b_eq; euc |]. f_equal. apply n2b_eq. euc.
Qed.

(** Decoding an encoded valid rune. *)
Lemma decode_encode r s : valid_rune r = true -> decode_rune (encode_rune r ++ s) = (r, length (encode_rune r)).
Proof.
  intros V. unfold encode_rune. rewrite V. unfold valid_rune in V.
  destruct (r <? 128) eqn:H0.
  { cbn [app decode_rune length]. cbn zeta. rewrite b2n_n2b_small by lia. rewrite H0. reflexivity. }
  destruct (r <? 2048) eqn:H1.
  { cbn [app decode_rune length]. cbn zeta. rewrite !b2n_n2b_small by euc.
    replace (192 + r / 64 <? 128) with false by euc. replace (192 + r / 64 <? 194) with false by euc. replace (192 + r / 64 <? 224) with true by euc.
    replace (is_cont (128 + r mod 64)) with true by (unfold is_cont; euc). f_equal. euc. }
  destruct (r <? 65536) eqn:H2.
  { cbn [app decode_rune length]. cbn zeta. rewrite !b2n_n2b_small by euc.
    replace (224 + r / 4096 <? 128) with false by euc. replace (224 + r / 4096 <? 194) with false by euc. replace (224 + r / 4096 <? 224) with false by euc.
    replace (224 + r / 4096 <? 240) with true by euc.
    assert (C : ((if 224 + r / 4096 =? 224 then 160 else 128) <=? 128 + r / 64 mod 64) && (128 + r / 64 mod 64 <=? (if 224 + r / 4096 =? 237 then 159 else 191)) &&
      is_cont (128 + r mod 64) = true).
    { unfold is_cont. destruct (N.eqb_spec (224 + r / 4096) 224), (N.eqb_spec (224 + r / 4096) 237); euc. }
    rewrite C. f_equal. euc. }
  cbn [app decode_rune length]. cbn zeta. rewrite !b2n_n2b_small by euc.
  replace (240 + r / 262144 <? 128) with false by euc. replace (240 + r / 262144 <? 194) with false by euc. replace (240 + r / 262144 <? 224) with false by euc.
  replace (240 + r / 262144 <? 240) with false by euc. replace (240 + r / 262144 <? 245) with true by euc.
  assert (C : ((if 240 + r / 262144 =? 240 then 144 else 128) <=? 128 + r / 4096 mod 64) && (128 + r / 4096 mod 64 <=? (if 240 + r / 262144 =? 244 then 143 else 191)) &&
      is_cont (128 + r / 64 mod 64) && is_cont (128 + r mod 64) = true).
  { unfold is_cont. destruct (N.eqb_spec (240 + r / 262144) 240), (N.eqb_spec (240 + r / 262144) 244); euc. }
  rewrite C. f_equal. euc.
Qed.
