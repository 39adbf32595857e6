(** Facts about the value encoding. *)

From Coq Require Import List Arith NArith Bool Lia ZifyBool ZifyNat ZifyN.
From Verif Require Import Base TagEncodingModel.
Import ListNotations.
Open Scope nat_scope.

(** What one value looks like in the encoding. *)
Definition cell_len (v : bytes) : nat := N.to_nat (N.land (N.of_nat (length v)) 255).
Definition enc_cell (v : bytes) : bytes := n2b (N.of_nat (cell_len v)) :: firstn (cell_len v) v.

Lemma cell_len_mod v : cell_len v = length v mod 256.
Proof.
  unfold cell_len. change 255%N with (N.ones 8). rewrite N.land_ones.
  change (2 ^ 8)%N with 256%N. rewrite N2Nat.inj_mod by lia. rewrite Nat2N.id. reflexivity.
Qed.

Lemma cell_len_lt v : cell_len v < 256.
Proof. rewrite cell_len_mod. apply Nat.mod_upper_bound. lia. Qed.

Lemma cell_len_le v : cell_len v <= length v.
Proof. rewrite cell_len_mod. apply Nat.mod_le. lia. Qed.

Lemma cell_len_small v : length v <= 255 -> cell_len v = length v.
Proof. intros H. rewrite cell_len_mod. apply Nat.mod_small. lia. Qed.

Lemma enc_cell_small v : length v <= 255 -> enc_cell v = n2b (N.of_nat (length v)) :: v.
Proof. intros H. unfold enc_cell. rewrite cell_len_small by exact H. now rewrite firstn_all. Qed.

Lemma write_at_length buf : forall i v, length (write_at buf i v) = length buf.
Proof.
  induction buf as [|b r IH]; intros [|i] v; simpl; auto. destruct v; simpl; auto.
Qed.

Lemma write_at_firstn buf : forall i v,
  i + length v <= length buf ->
  firstn (i + length v) (write_at buf i v) = firstn i buf ++ v.
Proof.
  induction buf as [|b r IH]; intros i v H.
  - simpl in H. destruct i; [|lia]. destruct v; [reflexivity|simpl in H; lia].
  - destruct i as [|i].
    + destruct v as [|x v]; [reflexivity|]. simpl in *. f_equal.
      apply (IH 0 v). simpl; lia.
    + simpl in *. f_equal. apply IH. lia.
Qed.

Lemma write_at_0 buf v : length v <= length buf ->
  firstn (length v) (write_at buf 0 v) = v.
Proof. intros H. exact (write_at_firstn buf 0 v H). Qed.

Lemma grow_spec w n :
  w_idx w <= length (w_buf w) ->
  let w' := grow_if_required w n in
  w_idx w' = w_idx w /\ w_bytes w' = w_bytes w /\ w_idx w + n <= length (w_buf w').
Proof.
  intros H. cbv zeta. unfold grow_if_required.
  destruct (Nat.ltb_spec (length (w_buf w) - w_idx w) n) as [Hlt|Hge].
  - cbn [w_idx w_buf]. split; [reflexivity|]. split.
    + unfold w_bytes. cbn [w_idx w_buf].
      set (n' := 2 * (length (w_buf w) + 1) + n).
      pose proof (write_at_0 (repeat (n2b 0) n') (w_buf w)) as E.
      rewrite repeat_length in E. specialize (E ltac:(lia)).
      rewrite <- E at 2. rewrite firstn_firstn. f_equal. lia.
    + rewrite write_at_length, repeat_length. lia.
  - split; [reflexivity|]. split; [reflexivity|lia].
Qed.

Lemma write_value_spec w v :
  w_idx w <= length (w_buf w) ->
  exists w', write_value w v = Some w' /\ w_idx w' <= length (w_buf w') /\
             w_bytes w' = w_bytes w ++ enc_cell v.
Proof.
  intros H. unfold write_value. fold (cell_len v). pose proof (cell_len_le v) as Hl.
  destruct (grow_spec w (1 + cell_len v) H) as (E1 & E2 & E3). cbv zeta in E1, E2, E3.
  set (g := grow_if_required w (1 + cell_len v)) in *.
  destruct (Nat.ltb_spec (w_idx g) (length (w_buf g))) as [_|]; [|lia].
  cbv zeta. cbn [w_idx w_buf].
  set (b1 := write_at (w_buf g) (w_idx g) [n2b (N.of_nat (cell_len v))]).
  assert (L1 : length b1 = length (w_buf g)) by apply write_at_length.
  assert (F1 : firstn (w_idx g + 1) b1 = w_bytes w ++ [n2b (N.of_nat (cell_len v))]).
  { rewrite <- E2. unfold w_bytes.
    apply (write_at_firstn (w_buf g) (w_idx g) [n2b (N.of_nat (cell_len v))]). simpl. lia. }
  destruct (Nat.eqb_spec (cell_len v) 0) as [E0|E0].
  - eexists. split; [reflexivity|]. cbn [w_idx w_buf]. split; [lia|].
    unfold w_bytes at 1. cbn [w_idx w_buf]. rewrite F1. unfold enc_cell. rewrite E0. reflexivity.
  - eexists. split; [reflexivity|]. cbn [w_idx w_buf]. split; [rewrite write_at_length; lia|].
    unfold w_bytes at 1. cbn [w_idx w_buf].
    assert (Lf : length (firstn (cell_len v) v) = cell_len v) by (rewrite firstn_length; lia).
    rewrite <- Lf at 1. rewrite write_at_firstn by lia. rewrite F1, <- app_assoc. reflexivity.
Qed.

Lemma write_values_spec vs : forall w,
  w_idx w <= length (w_buf w) ->
  exists w', write_values w vs = Some w' /\ w_bytes w' = w_bytes w ++ concat (map enc_cell vs).
Proof.
  induction vs as [|v vs IH]; intros w H; cbn [write_values map concat].
  - exists w. split; [reflexivity|now rewrite app_nil_r].
  - destruct (write_value_spec w v H) as (w1 & -> & H1 & E1).
    destruct (IH w1 H1) as (w2 & -> & E2). exists w2. split; [reflexivity|].
    rewrite E2, E1, <- app_assoc. reflexivity.
Qed.

Lemma write_values_nil vs n :
  exists w', write_values (MkW (repeat (n2b 0) n) 0) vs = Some w' /\
             w_bytes w' = concat (map enc_cell vs).
Proof.
  destruct (write_values_spec vs (MkW (repeat (n2b 0) n) 0)) as (w' & E & B);
    [simpl; lia|]. exists w'. split; [exact E|exact B].
Qed.

Lemma read_cell v r :
  read_value (enc_cell v ++ r) =
  Some (if cell_len v =? 0 then None else Some (firstn (cell_len v) v), r).
Proof.
  unfold enc_cell, read_value. cbn [app]. pose proof (cell_len_lt v). pose proof (cell_len_le v).
  rewrite b2n_n2b_small by lia. rewrite Nat2N.id.
  destruct (Nat.eqb_spec (cell_len v) 0) as [E|E].
  - rewrite E. reflexivity.
  - assert (Lf : length (firstn (cell_len v) v) = cell_len v) by (rewrite firstn_length; lia).
    rewrite app_length, Lf. destruct (Nat.leb_spec (cell_len v) (cell_len v + length r)); [|lia].
    f_equal. f_equal.
    + f_equal. rewrite <- Lf at 1. apply firstn_app_exact.
    + rewrite <- Lf at 1. apply skipn_app_exact.
Qed.

(** The encoding determines the values when they have at most 255 bytes. *)
Lemma enc_inj vs : forall us,
  length vs = length us ->
  Forall (fun v => length v <= 255) vs -> Forall (fun v => length v <= 255) us ->
  concat (map enc_cell vs) = concat (map enc_cell us) -> vs = us.
Proof.
  induction vs as [|v vs IH]; intros [|u us] HL Hv Hu H; try discriminate; [reflexivity|].
  inversion Hv; inversion Hu; subst. cbn [map concat] in H.
  pose proof (read_cell v (concat (map enc_cell vs))) as R1.
  rewrite H, read_cell in R1. apply (f_equal (option_map snd)) in R1 as R2. simpl in R2.
  rewrite !cell_len_small in R1 by assumption. rewrite !firstn_all in R1.
  injection R2 as R2. f_equal.
  - destruct (Nat.eqb_spec (length u) 0) as [Eu|Eu], (Nat.eqb_spec (length v) 0) as [Ev|Ev];
      try discriminate; [|congruence].
    destruct u, v; simpl in *; try lia; reflexivity.
  - apply IH; auto.
Qed.
