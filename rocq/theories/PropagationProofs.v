(** Lemmas about the wire formats. *)

From Coq Require Import String.
From Coq Require Import List NArith Bool Arith Lia.
From Coq Require Import ZifyBool ZifyNat ZifyN.
From Verif Require Import Base GoMap Text TracestateModel TracestateSpec TracestateProofs
  TraceTypes PropagationModel PropagationSpec.
Import ListNotations.
Open Scope N_scope.

Lemma n2b_inj_small a b : a < 256 -> b < 256 -> n2b a = n2b b -> a = b.
Proof. intros Ha Hb H. apply (f_equal b2n) in H. rewrite !b2n_n2b_small in H by lia. exact H. Qed.

Lemma b2n_eq c n : n < 256 -> (b2n c = n <-> c = n2b n).
Proof.
  intros Hn. split.
  - intros <-. now rewrite n2b_b2n.
  - intros ->. now apply b2n_n2b_small.
Qed.

Lemma zeros_x00 n : zeros n = repeat x00 n.
Proof. reflexivity. Qed.

Lemma copy_at_length dst k src : (k <= length dst)%nat -> length (copy_at dst k src) = length dst.
Proof.
  intros H. unfold copy_at. rewrite !app_length, !firstn_length, skipn_length. lia.
Qed.

Lemma copy_into_exact dst src : length src = length dst -> copy_into dst src = src.
Proof.
  intros H. unfold copy_into, copy_at. cbn [firstn app]. rewrite Nat.sub_0_r, Nat.add_0_l.
  rewrite Nat.min_l by lia. rewrite skipn_all. rewrite <- H, firstn_all. apply app_nil_r.
Qed.

Lemma copy_at_end dst k src :
  (k + length src = length dst)%nat -> copy_at dst k src = firstn k dst ++ src.
Proof.
  intros H. unfold copy_at. replace (length dst - k)%nat with (length src) by lia.
  rewrite firstn_all, Nat.min_id, H, skipn_all. now rewrite app_nil_r.
Qed.

Lemma firstn_repeat {A} (x : A) k n : (k <= n)%nat -> firstn k (repeat x n) = repeat x k.
Proof.
  revert n; induction k as [|k IH]; intros n H; [reflexivity|].
  destruct n; [lia|]. simpl. rewrite IH by lia. reflexivity.
Qed.

Lemma length_list {A} (l : list A) n :
  length l = S n -> exists x l', l = x :: l' /\ length l' = n.
Proof. destruct l; simpl; intros H; [discriminate|]. eauto. Qed.

Ltac explode l H :=
  repeat (apply length_list in H;
          let x := fresh "x" in let l' := fresh "l" in
          destruct H as (x & l' & -> & H); rename l' into l);
  apply length_zero_iff_nil in H; subst l.

Lemma is_zero_sc_iff sc : is_zero_sc sc = true <-> sc = zero_sc.
Proof.
  unfold is_zero_sc. destruct sc as [t s o ts]. cbn [sc_trace_id sc_span_id sc_options sc_tracestate].
  rewrite !andb_true_iff. split.
  - intros [[[H1 H2] H3] H4].
    destruct (bytes_eqb_spec t zero_trace_id); [|discriminate].
    destruct (bytes_eqb_spec s zero_span_id); [|discriminate].
    apply N.eqb_eq in H3. destruct ts; [discriminate|]. subst. reflexivity.
  - intros [= -> -> -> ->]. rewrite !bytes_eqb_refl. auto.
Qed.

(** *** Binary *)

Lemma binary_bytes sc :
  sc_wf sc -> sc <> zero_sc ->
  binary sc = n2b 0 :: n2b 0 :: sc_trace_id sc ++ n2b 1 :: sc_span_id sc
              ++ [n2b 2; n2b (sc_options sc)].
Proof.
  intros (Ht & Hs & _) Hz. unfold binary.
  destruct (is_zero_sc sc) eqn:E; [apply is_zero_sc_iff in E; contradiction|].
  destruct sc as [t s o ts]. cbn [sc_trace_id sc_span_id sc_options sc_tracestate] in *.
  clear Hz E. cbv zeta.
  explode t Ht. explode s Hs. reflexivity.
Qed.

Lemma idx_ok {A} (b : list A) i x : nth_error b i = Some x -> idx b i = Ok x.
Proof. unfold idx. now intros ->. Qed.

Lemma sub_ok b i j :
  (i <= j <= length b)%nat -> sub b i j = Ok (firstn (j - i) (skipn i b)).
Proof.
  intros H. unfold sub. destruct (Nat.leb_spec i j); [|lia].
  destruct (Nat.leb_spec j (length b)); [reflexivity|lia].
Qed.

Lemma sub_from_ok b i : (i <= length b)%nat -> sub_from b i = Ok (skipn i b).
Proof.
  intros H. unfold sub_from. rewrite sub_ok by lia. f_equal.
  apply firstn_all2. rewrite skipn_length. lia.
Qed.

Definition fb_options (b : bytes) : N :=
  match b with f :: o :: _ => if b2n f =? 2 then b2n o else 0 | _ => 0 end.
Definition fb_span (b : bytes) : bytes * N :=
  match b with
  | f :: r => if (b2n f =? 1) && Nat.leb 8 (length r)
              then (firstn 8 r, fb_options (skipn 8 r)) else (zero_span_id, fb_options b)
  | [] => (zero_span_id, 0)
  end.
Definition fb (b : bytes) : option span_context :=
  match b with
  | v :: f :: r => if (b2n v =? 0) && (b2n f =? 0) && Nat.leb 16 (length r)
                   then let '(s, o) := fb_span (skipn 16 r) in
                        Some (MkSC (firstn 16 r) s o None)
                   else None
  | _ => None
  end.

Lemma from_binary_fb b : from_binary b = Ok (fb b).
Proof.
  unfold from_binary. destruct b as [|v b]; [reflexivity|]. cbn [length idx nth_error rbind].
  unfold idx at 1. cbn [nth_error rbind].
  destruct (b2n v =? 0) eqn:Ev; cbn [negb].
  2:{ unfold fb. destruct b; [reflexivity|]. now rewrite Ev. }
  rewrite sub_from_ok by (simpl; lia). cbn [skipn rbind].
  destruct b as [|f r]; [reflexivity|]. unfold fb. rewrite Ev. cbn [andb].
  change (length (f :: r)) with (S (length r)).
  change (Nat.leb 17 (S (length r))) with (Nat.leb 16 (length r)).
  unfold idx at 1. cbn [nth_error rbind].
  destruct (Nat.leb_spec 16 (length r)) as [Hl|Hl].
  2:{ rewrite andb_false_r. reflexivity. }
  destruct (b2n f =? 0) eqn:Ef; [|reflexivity]. cbn [andb].
  rewrite sub_ok by (simpl; lia). rewrite sub_from_ok by (simpl; lia).
  change (17 - 1)%nat with 16%nat.
  replace (skipn 1 (f :: r)) with r by reflexivity.
  replace (skipn 17 (f :: r)) with (skipn 16 r) by reflexivity.
  cbn [rbind].
  rewrite copy_into_exact
    by (rewrite firstn_length; change (length zero_trace_id) with 16%nat; lia).
  generalize (firstn 16 r) as tid. intros tid.
  generalize (skipn 16 r) as q. clear. intros q.
  assert (Ho : forall q, (if Nat.leb 2 (length q)
    then rbind (idx q 0) (fun f => if b2n f =? 2 then rbind (idx q 1) (fun o => Ok (b2n o)) else Ok 0)
    else Ok 0) = (Ok (fb_options q) : res unit N)).
  { clear. intros [|f [|o q]]; try reflexivity. cbn [length Nat.leb].
    unfold idx. cbn [nth_error rbind fb_options]. destruct (b2n f =? 2); reflexivity. }
  destruct q as [|f q]; [reflexivity|].
  unfold fb_span. change (length (f :: q)) with (S (length q)).
  destruct (Nat.leb_spec 8 (length q)) as [Hl|Hl].
  - destruct (Nat.leb_spec 9 (S (length q))); [|lia].
    unfold idx at 1. cbn [nth_error rbind].
    destruct (b2n f =? 1) eqn:Ef; cbn [andb].
    + rewrite sub_ok by (simpl; lia). rewrite sub_from_ok by (simpl; lia).
      change (9 - 1)%nat with 8%nat.
      replace (skipn 1 (f :: q)) with q by reflexivity.
      replace (skipn 9 (f :: q)) with (skipn 8 q) by reflexivity.
      cbn [rbind]. rewrite copy_into_exact
        by (rewrite firstn_length; change (length zero_span_id) with 8%nat; lia).
      rewrite Ho. reflexivity.
    + cbn [rbind]. rewrite Ho. reflexivity.
  - destruct (Nat.leb_spec 9 (S (length q))); [lia|].
    rewrite andb_false_r. cbn [rbind]. rewrite Ho. reflexivity.
Qed.

Lemma fb_options_iff b o : fb_options b = o <-> bin_options b o.
Proof.
  unfold bin_options. split.
  - intros <-. destruct b as [|f [|x tl]]; simpl.
    + right. split; [discriminate|reflexivity].
    + right. split; [discriminate|reflexivity].
    + destruct (N.eqb_spec (b2n f) 2) as [E|E].
      * left. exists x, tl. apply b2n_eq in E; [|lia]. now subst.
      * right. split; [|reflexivity]. intros y t [= -> _]. apply E. now apply b2n_n2b_small.
  - intros [(x & tl & -> & ->)|[Hn ->]].
    + reflexivity.
    + destruct b as [|f [|x tl]]; try reflexivity. simpl.
      destruct (N.eqb_spec (b2n f) 2) as [E|E]; [|reflexivity].
      apply b2n_eq in E; [|lia]. subst. exfalso. eapply Hn. reflexivity.
Qed.

Lemma fb_span_iff b s o : fb_span b = (s, o) <-> bin_span b s o.
Proof.
  unfold bin_span, fb_span. split.
  - destruct b as [|f r].
    { intros H; apply pair_equal_spec in H; destruct H as [<- <-]. right. split; [discriminate|]. split; [reflexivity|].
      apply fb_options_iff. reflexivity. }
    destruct (N.eqb_spec (b2n f) 1) as [E|E]; cbn [andb].
    + destruct (Nat.leb_spec 8 (length r)) as [Hl|Hl].
      * intros H; apply pair_equal_spec in H; destruct H as [<- <-]. left. exists (skipn 8 r). apply b2n_eq in E; [|lia]. subst f.
        rewrite firstn_skipn, firstn_length. split; [reflexivity|]. split; [lia|].
        now apply fb_options_iff.
      * intros H; apply pair_equal_spec in H; destruct H as [<- <-]. right. split.
        -- intros s tl Hs [= _ ->]. rewrite app_length in Hl. lia.
        -- split; [reflexivity|]. now apply fb_options_iff.
    + intros H; apply pair_equal_spec in H; destruct H as [<- <-]. right. split.
      * intros s tl Hs [= -> _]. apply E. now apply b2n_n2b_small.
      * split; [reflexivity|]. now apply fb_options_iff.
  - intros [(tl & -> & Hs & Ho)|(Hn & -> & Ho)].
    + rewrite b2n_n2b_small by lia. rewrite app_length.
      destruct (Nat.leb_spec 8 (length s + length tl)); [|lia]. cbn [andb N.eqb].
      change (1 =? 1) with true. cbn [andb].
      replace 8%nat with (length s) by exact Hs.
      rewrite firstn_app_exact, skipn_app_exact. f_equal. now apply fb_options_iff.
    + apply fb_options_iff in Ho. destruct b as [|f r]; [now f_equal|].
      destruct (N.eqb_spec (b2n f) 1) as [E|E]; cbn [andb]; [|now f_equal].
      destruct (Nat.leb_spec 8 (length r)) as [Hl|Hl]; [|now f_equal].
      apply b2n_eq in E; [|lia]. subst f. exfalso. apply (Hn (firstn 8 r) (skipn 8 r)).
      * rewrite firstn_length. lia.
      * now rewrite firstn_skipn.
Qed.

Lemma from_binary_iff b sc : from_binary b = Ok (Some sc) <-> bin_accepts b sc.
Proof.
  rewrite from_binary_fb. unfold bin_accepts, fb. split.
  - destruct b as [|v [|f r]]; try discriminate.
    destruct (N.eqb_spec (b2n v) 0) as [Ev|Ev]; [|discriminate].
    destruct (N.eqb_spec (b2n f) 0) as [Ef|Ef]; [|discriminate]. cbn [andb].
    destruct (Nat.leb_spec 16 (length r)) as [Hl|Hl]; [|discriminate].
    destruct (fb_span (skipn 16 r)) as [s o] eqn:E. intros [= <-].
    apply fb_span_iff in E. apply b2n_eq in Ev; [|lia]. apply b2n_eq in Ef; [|lia]. subst.
    exists (firstn 16 r), (skipn 16 r). cbn [sc_trace_id sc_span_id sc_options sc_tracestate].
    rewrite firstn_skipn, firstn_length. repeat split; auto. lia.
  - intros (tid & rest & -> & Ht & E1 & E2 & E3). rewrite !b2n_n2b_small by lia.
    change (0 =? 0) with true. rewrite app_length.
    destruct (Nat.leb_spec 16 (length tid + length rest)); [|lia]. cbn [andb].
    replace 16%nat with (length tid) by exact Ht.
    rewrite firstn_app_exact, skipn_app_exact. apply fb_span_iff in E2. rewrite E2.
    destruct sc; simpl in *. subst. reflexivity.
Qed.

(** *** Headers *)

Lemma hdr_values_set_same h n v : hdr_values (hdr_set h n v) n = [v].
Proof. unfold hdr_values, hdr_set. rewrite (mget_mset_same _ bytes_eqb_spec). reflexivity. Qed.

Lemma hdr_values_set_other h n n' v :
  bytes_eqb (canon n) (canon n') = false ->
  hdr_values (hdr_set h n v) n' = hdr_values h n'.
Proof.
  intros H. unfold hdr_values, hdr_set.
  rewrite (mget_mset_other _ bytes_eqb_spec); [reflexivity|].
  intros E. rewrite E, bytes_eqb_refl in H. discriminate.
Qed.

Lemma hdr_get_set_same h n v : hdr_get (hdr_set h n v) n = v.
Proof. unfold hdr_get. now rewrite hdr_values_set_same. Qed.

Lemma hdr_get_set_other h n n' v :
  bytes_eqb (canon n) (canon n') = false -> hdr_get (hdr_set h n v) n' = hdr_get h n'.
Proof. intros H. unfold hdr_get. now rewrite hdr_values_set_other. Qed.

(** *** B3 *)

Lemma some_inj {A} (a b : A) : Some a = Some b -> a = b.
Proof. congruence. Qed.

Lemma copy_pad n b :
  (length b <= n)%nat -> copy_at (repeat x00 n) (n - length b) b = zeros (n - length b) ++ b.
Proof.
  intros H. rewrite copy_at_end by (rewrite repeat_length; lia).
  rewrite firstn_repeat by lia. reflexivity.
Qed.

Lemma b3_parse_trace_id_iff s id : b3_parse_trace_id s = Some id <-> b3_id 16 s id.
Proof.
  unfold b3_parse_trace_id, b3_id. destruct s as [|c s].
  { split; [discriminate|]. intros (b & H & Hl & _). inversion H; subst. simpl in Hl. lia. }
  destruct (hex_decode (c :: s)) as [b|] eqn:E.
  - pose proof (hex_decode_length _ _ E) as Hlen. simpl in Hlen.
    apply hex_decode_iff in E.
    assert (Hb : (1 <= length b)%nat) by lia. split.
    + destruct (Nat.ltb_spec 16 (length b)); [discriminate|].
      destruct (Nat.leb_spec (length b) 8); intros H'; apply some_inj in H'; subst id; exists b;
        (split; [exact E|split; [lia|]]).
      * replace (8 + (8 - length b))%nat with (16 - length b)%nat by lia.
        apply copy_pad. lia.
      * apply copy_pad. lia.
    + intros (b' & H & Hl & ->). rewrite (hex_of_fun _ _ _ H E) in *.
      destruct (Nat.ltb_spec 16 (length b)); [lia|].
      destruct (Nat.leb_spec (length b) 8); f_equal.
      * replace (8 + (8 - length b))%nat with (16 - length b)%nat by lia.
        apply copy_pad. lia.
      * apply copy_pad. lia.
  - split; [discriminate|]. intros (b & H & _). apply hex_decode_iff in H. congruence.
Qed.

Lemma b3_parse_span_id_iff s id : b3_parse_span_id s = Some id <-> b3_id 8 s id.
Proof.
  unfold b3_parse_span_id, b3_id. destruct s as [|c s].
  { split; [discriminate|]. intros (b & H & Hl & _). inversion H; subst. simpl in Hl. lia. }
  destruct (hex_decode (c :: s)) as [b|] eqn:E.
  - pose proof (hex_decode_length _ _ E) as Hlen. simpl in Hlen.
    apply hex_decode_iff in E.
    assert (Hb : (1 <= length b)%nat) by lia. split.
    + destruct (Nat.ltb_spec 8 (length b)); [discriminate|].
      intros H'; apply some_inj in H'; subst id; exists b; (split; [exact E|split; [lia|]]). apply copy_pad. lia.
    + intros (b' & H & Hl & ->). rewrite (hex_of_fun _ _ _ H E) in *.
      destruct (Nat.ltb_spec 8 (length b)); [lia|]. f_equal. apply copy_pad. lia.
  - split; [discriminate|]. intros (b & H & _). apply hex_decode_iff in H. congruence.
Qed.

Lemma b3_id_full n id : length id = n -> (0 < n)%nat -> b3_id n (hex_encode id) id.
Proof.
  intros H Hn. exists id. split; [apply hex_of_encode|]. split; [lia|].
  rewrite H, Nat.sub_diag. reflexivity.
Qed.

(** *** TraceContext *)

Lemma dash_b : b2n dash = 45. Proof. apply b2n_n2b_small. lia. Qed.
Lemma comma_b : b2n comma = 44. Proof. apply b2n_n2b_small. lia. Qed.
Lemma equals_b : b2n equals = 61. Proof. apply b2n_n2b_small. lia. Qed.
Lemma slash_b : b2n slash = 47. Proof. apply b2n_n2b_small. lia. Qed.
Lemma semicolon_b : b2n semicolon = 59. Proof. apply b2n_n2b_small. lia. Qed.

Lemma hex_of_no_dash s b : hex_of s b -> ~ In dash s.
Proof. intros H. eapply hex_of_not_in; eauto. rewrite dash_b. lia. Qed.

Lemma split_extra f extra :
  ~ In dash f -> (extra = [] \/ exists more, extra = dash :: more) ->
  split_byte dash (f ++ extra) = f :: match extra with [] => [] | _ :: m => split_byte dash m end.
Proof.
  intros Hf [->|(m & ->)].
  - rewrite app_nil_r. now apply split_byte_none.
  - now apply split_byte_app.
Qed.

Lemma bytes_eqb_false a b : a <> b -> bytes_eqb a b = false.
Proof. destruct (bytes_eqb_spec a b); congruence. Qed.

Lemma tc_from_headers_complete tp ts tid sid o :
  traceparent_ok tp tid sid o ->
  tc_from_headers tp ts = Ok (Some (MkSC tid sid o (tracestate_from_header ts))).
Proof.
  intros (v & t & s & f & ver & flags & extra & -> & Hx & Hv & Hver & Hv0 & Ht & Htl & Htz
          & Hs & Hsl & Hsz & Hf & Hfl & Ho).
  change (n2b 45) with dash in *.
  unfold tc_from_headers.
  pose proof (hex_of_length _ _ Hv) as Lv. simpl in Lv.
  destruct v as [|v1 v]; [simpl in Lv; lia|].
  set (tp := (v1 :: v) ++ dash :: t ++ dash :: s ++ dash :: f ++ extra).
  assert (Hsplit : split_byte dash tp = (v1 :: v) :: t :: s :: f ::
            match extra with [] => [] | _ :: m => split_byte dash m end).
  { unfold tp. rewrite split_byte_app by (eapply hex_of_no_dash; eauto).
    rewrite split_byte_app by (eapply hex_of_no_dash; eauto).
    rewrite split_byte_app by (eapply hex_of_no_dash; eauto).
    rewrite split_extra; [reflexivity|eapply hex_of_no_dash; eauto|exact Hx]. }
  change ((v1 :: v) ++ dash :: t ++ dash :: s ++ dash :: f ++ extra) with tp.
  destruct tp eqn:Etp; [discriminate|]. rewrite <- Etp in *. clear Etp.
  cbv zeta. rewrite Hsplit. cbn [length].
  destruct (Nat.ltb_spec (S (S (S (S (length match extra with [] => [] | _ :: m => split_byte dash m end))))) 4);
    [lia|].
  unfold idx at 1. cbn [nth_error rbind].
  replace (length (v1 :: v)) with 2%nat by (simpl in Lv |- *; lia). cbn [Nat.eqb negb].
  apply hex_decode_iff in Hv. rewrite Hv.
  unfold idx at 1. cbn [nth_error rbind]. unfold max_version.
  pose proof (b2n_lt ver).
  destruct (N.ltb_spec 254 (b2n ver)); [lia|].
  match goal with |- context [if ?c then Ok None else _] => replace c with false end.
  2:{ destruct (N.eqb_spec (b2n ver) 0) as [E0|E0]; [|reflexivity].
      rewrite (Hv0 E0). reflexivity. }
  unfold idx at 1. cbn [nth_error rbind].
  rewrite (hex_of_length _ _ Ht), Htl. cbn [Nat.mul Nat.add Nat.eqb negb].
  apply hex_decode_iff in Ht. rewrite Ht.
  rewrite copy_into_exact by (rewrite Htl; reflexivity).
  unfold idx at 1. cbn [nth_error rbind].
  rewrite (hex_of_length _ _ Hs), Hsl. cbn [Nat.mul Nat.add Nat.eqb negb].
  apply hex_decode_iff in Hs. rewrite Hs.
  rewrite copy_into_exact by (rewrite Hsl; reflexivity).
  unfold idx at 1. cbn [nth_error rbind].
  apply hex_decode_iff in Hf. rewrite Hf.
  destruct flags as [|fl flags]; [discriminate|]. cbn [length Nat.ltb Nat.leb].
  unfold idx. cbn [nth_error rbind]. injection Hfl as ->.
  change (zeros 16) with zero_trace_id in Htz. change (zeros 8) with zero_span_id in Hsz.
  rewrite (bytes_eqb_false _ _ Htz), (bytes_eqb_false _ _ Hsz). cbn [orb].
  now rewrite b2n_n2b_small.
Qed.

Lemma tc_from_headers_sound tp ts sc :
  tc_from_headers tp ts = Ok (Some sc) ->
  traceparent_ok tp (sc_trace_id sc) (sc_span_id sc) (sc_options sc) /\
  sc_tracestate sc = tracestate_from_header ts.
Proof.
  unfold tc_from_headers. intros H. destruct tp as [|c0 tp0]; [discriminate|].
  remember (c0 :: tp0) as tp eqn:Etp. clear Etp. cbv zeta in H.
  pose proof (join_split dash tp) as Hj.
  pose proof (split_byte_parts dash tp) as Hparts.
  destruct (split_byte dash tp) as [|s0 [|s1 [|s2 [|s3 more]]]] eqn:Es;
    try (simpl in H; discriminate).
  cbn [length] in H.
  match type of H with context [Nat.ltb ?x 4] => destruct (Nat.ltb_spec x 4); [discriminate|] end.
  unfold idx at 1 in H. cbn [nth_error rbind] in H.
  destruct (Nat.eqb_spec (length s0) 2) as [L0|]; [|discriminate]. cbn [negb] in H.
  destruct (hex_decode s0) as [ver|] eqn:E0; [|discriminate].
  pose proof (hex_decode_length _ _ E0) as Lver.
  destruct ver as [|v [|v' ver]]; [simpl in Lver; lia| |simpl in Lver; lia].
  unfold idx at 1 in H. cbn [nth_error rbind] in H. unfold max_version in H.
  destruct (N.ltb_spec 254 (b2n v)) as [|Hv]; [discriminate|].
  match type of H with context [if ?c then Ok None else _] => destruct c eqn:Ec; [discriminate|] end.
  unfold idx at 1 in H. cbn [nth_error rbind] in H.
  destruct (Nat.eqb_spec (length s1) 32) as [L1|]; [|discriminate]. cbn [negb] in H.
  destruct (hex_decode s1) as [t|] eqn:E1; [|discriminate].
  pose proof (hex_decode_length _ _ E1) as Lt.
  rewrite copy_into_exact in H by (simpl; lia).
  unfold idx at 1 in H. cbn [nth_error rbind] in H.
  destruct (Nat.eqb_spec (length s2) 16) as [L2|]; [|discriminate]. cbn [negb] in H.
  destruct (hex_decode s2) as [s|] eqn:E2; [|discriminate].
  pose proof (hex_decode_length _ _ E2) as Ls.
  rewrite copy_into_exact in H by (simpl; lia).
  unfold idx at 1 in H. cbn [nth_error rbind] in H.
  destruct (hex_decode s3) as [opts|] eqn:E3; [|discriminate].
  destruct opts as [|o opts]; [discriminate|]. cbn [length Nat.ltb Nat.leb] in H.
  unfold idx in H. cbn [nth_error rbind] in H.
  destruct (bytes_eqb_spec t zero_trace_id) as [|Zt]; [discriminate|].
  destruct (bytes_eqb_spec s zero_span_id) as [|Zs]; [discriminate|]. cbn [orb] in H.
  injection H as <-. cbn [sc_trace_id sc_span_id sc_options sc_tracestate].
  split; [|reflexivity].
  exists s0, s1, s2, s3, v, (o :: opts),
    (match more with [] => [] | _ => dash :: join_byte dash more end).
  apply hex_decode_iff in E0, E1, E2, E3.
  split.
  { rewrite <- Hj. destruct more as [|m more].
    - rewrite app_nil_r. reflexivity.
    - reflexivity. }
  split; [destruct more; [left; reflexivity|right; eauto]|].
  split; [exact E0|]. pose proof (b2n_lt v). split; [lia|]. split.
  { intros Hz. rewrite Hz in Ec. change (0 =? 0) with true in Ec. cbn [andb] in Ec.
    destruct more; [reflexivity|]. simpl in Ec. discriminate. }
  split; [exact E1|]. split; [lia|]. split; [exact Zt|].
  split; [exact E2|]. split; [lia|]. split; [exact Zs|].
  split; [exact E3|]. split; [simpl; now rewrite n2b_b2n|apply b2n_lt].
Qed.

Lemma tc_from_headers_no_panic tp ts : tc_from_headers tp ts <> Panic.
Proof.
  unfold tc_from_headers. destruct tp as [|c0 tp0]; [discriminate|].
  remember (c0 :: tp0) as tp eqn:Etp. clear Etp. cbv zeta.
  destruct (split_byte dash tp) as [|s0 [|s1 [|s2 [|s3 more]]]]; try discriminate.
  match goal with |- context [Nat.ltb ?x 4] => destruct (Nat.ltb x 4); [discriminate|] end.
  unfold idx at 1. cbn [nth_error rbind].
  destruct (Nat.eqb_spec (length s0) 2) as [L0|]; [|discriminate]. cbn [negb].
  destruct (hex_decode s0) as [ver|] eqn:E0; [|discriminate].
  pose proof (hex_decode_length _ _ E0) as Lver.
  destruct ver as [|v ver]; [simpl in Lver; lia|].
  unfold idx at 1. cbn [nth_error rbind].
  repeat match goal with |- context [if ?c then Ok None else _] => destruct c; [discriminate|] end.
  unfold idx at 1. cbn [nth_error rbind].
  repeat match goal with |- context [if ?c then Ok None else _] => destruct c; [discriminate|] end.
  destruct (hex_decode s1); [|discriminate].
  unfold idx at 1. cbn [nth_error rbind].
  repeat match goal with |- context [if ?c then Ok None else _] => destruct c; [discriminate|] end.
  destruct (hex_decode s2); [|discriminate].
  unfold idx at 1. cbn [nth_error rbind].
  destruct (hex_decode s3) as [[|o opts]|]; try discriminate.
  cbn [length Nat.ltb Nat.leb]. unfold idx. cbn [nth_error rbind].
  match goal with |- context [if ?c then _ else _] => destruct c; discriminate end.
Qed.

(** tracestate header *)

Lemma drop_ows_app l s : ows l -> drop_ows (l ++ s) = drop_ows s.
Proof.
  unfold ows. induction l as [|c l IH]; intros H; [reflexivity|].
  inversion H as [|? ? Hc Hl]; subst. simpl. unfold is_ows.
  destruct (N.eqb_spec (b2n c) 9), (N.eqb_spec (b2n c) 32); simpl; auto. lia.
Qed.

Lemma drop_ows_head c s : b2n c <> 9 -> b2n c <> 32 -> drop_ows (c :: s) = c :: s.
Proof.
  intros H1 H2. simpl. unfold is_ows.
  destruct (N.eqb_spec (b2n c) 9), (N.eqb_spec (b2n c) 32); simpl; congruence.
Qed.

Lemma ows_rev l : ows l -> ows (rev l).
Proof. apply Forall_rev. Qed.

Lemma trim_ows_body l r c m d :
  ows l -> ows r -> b2n c <> 9 -> b2n c <> 32 -> b2n d <> 9 -> b2n d <> 32 ->
  Forall (fun x => b2n x <> 10) (c :: m) ->
  trim_ows (l ++ (c :: m ++ [d]) ++ r) = Some (c :: m ++ [d]).
Proof.
  intros Hl Hr Hc1 Hc2 Hd1 Hd2 Hnl. unfold trim_ows.
  rewrite drop_ows_app by exact Hl. cbn [app]. rewrite drop_ows_head by assumption.
  replace (rev (c :: (m ++ [d]) ++ r)) with (rev r ++ (d :: rev m ++ [c])).
  2:{ replace (c :: (m ++ [d]) ++ r) with ((c :: m) ++ [d] ++ r) by (simpl; now rewrite <- app_assoc).
      rewrite !rev_app_distr. simpl. rewrite <- app_assoc. reflexivity. }
  rewrite drop_ows_app by now apply ows_rev. rewrite drop_ows_head by assumption.
  replace (existsb (fun c0 => b2n c0 =? 10) (rev m ++ [c])) with false.
  2:{ symmetry. apply not_true_is_false. rewrite existsb_exists. intros (x & Hx & Ex).
      apply N.eqb_eq in Ex. rewrite Forall_forall in Hnl. apply (Hnl x); auto.
      apply in_app_iff in Hx. destruct Hx as [Hx|[->|[]]]; [right; now apply in_rev|now left]. }
  f_equal. simpl. rewrite rev_app_distr, rev_involutive. reflexivity.
Qed.

Lemma key_ok_chars k : key_ok k ->
  exists c r, k = c :: r /\ is_lower c /\ Forall (fun c => key_char c \/ c = at_sign) r.
Proof.
  assert (Hw : forall r, Forall key_char r -> Forall (fun c => key_char c \/ c = at_sign) r).
  { intros r H. eapply Forall_impl; [|exact H]. auto. }
  intros [(c & r & -> & Hc & Hr & _)|(t & v & -> & (c & r & -> & Hc & Hr & _) & (c' & r' & -> & Hc' & Hr' & _))].
  - exists c, r. auto.
  - exists c, (r ++ n2b 64 :: c' :: r'). split; [reflexivity|]. split; [exact Hc|].
    apply Forall_app. split; [auto|]. constructor; [right; reflexivity|].
    constructor; [left; left; exact Hc'|auto].
Qed.

Lemma key_char_not c n : key_char c \/ c = at_sign -> In n [61; 44; 10; 32; 9] -> b2n c <> n.
Proof.
  unfold key_char, is_lower. intros H Hn.
  assert (Hat : b2n at_sign = 64) by (apply b2n_n2b_small; lia).
  simpl in Hn. destruct H as [H|H].
  - simpl in H. lia.
  - rewrite H, Hat. lia.
Qed.

Lemma key_no k n : key_ok k -> In n [61; 44; 10] -> Forall (fun c => b2n c <> n) k.
Proof.
  intros H Hn. destruct (key_ok_chars _ H) as (c & r & -> & Hc & Hr).
  constructor.
  - unfold is_lower in Hc. simpl in Hn. lia.
  - eapply Forall_impl; [|exact Hr]. simpl. intros a Ha.
    apply key_char_not; auto. simpl in *. tauto.
Qed.

Lemma value_no v n : value_ok v -> In n [61; 44; 10] -> Forall (fun c => b2n c <> n) v.
Proof.
  intros (_ & H & _) Hn. eapply Forall_impl; [|exact H]. unfold value_char. simpl in Hn.
  intros a (Ha & Hb & Hc). destruct Hn as [<-|[<-|[<-|[]]]]; lia.
Qed.

Lemma Forall_not_in (c : byte) n s : b2n c = n -> Forall (fun x => b2n x <> n) s -> ~ In c s.
Proof. intros <- H Hin. rewrite Forall_forall in H. now apply (H c). Qed.

Lemma member_shape e : entry_ok e ->
  exists c m d, member e = c :: m ++ [d] /\ b2n c <> 9 /\ b2n c <> 32 /\ b2n d <> 9 /\ b2n d <> 32 /\
    Forall (fun x => b2n x <> 10) (c :: m).
Proof.
  intros [Hk Hv]. pose proof (key_no _ 10 Hk ltac:(simpl; tauto)) as K10.
  pose proof (value_no _ 10 Hv ltac:(simpl; tauto)) as V10.
  destruct (key_ok_chars _ Hk) as (c & r & Ek & Hc & _).
  destruct Hv as (Hl & Hvc & Hlast).
  destruct (exists_last (l := e_value e)) as (v' & d & Ev).
  { destruct (e_value e); [simpl in Hl; lia|discriminate]. }
  exists c, (r ++ n2b 61 :: v'), d. unfold member. rewrite Ek, Ev. split.
  { simpl. f_equal. rewrite <- app_assoc. reflexivity. }
  unfold is_lower in Hc. split; [lia|]. split; [lia|].
  rewrite Ev in Hvc, V10. apply Forall_app in Hvc. destruct Hvc as [Hv1 Hv2]. inversion Hv2; subst.
  unfold value_char in *. split; [lia|]. split; [eapply Hlast; eauto|].
  rewrite Ek in K10. inversion K10; subst. constructor; [assumption|].
  apply Forall_app. split; [assumption|]. constructor; [rewrite b2n_n2b_small; lia|].
  apply Forall_app in V10. tauto.
Qed.

Lemma member_pair e : pair_of e = member e.
Proof. reflexivity. Qed.

Lemma split_member e : entry_ok e -> split_byte equals (member e) = [e_key e; e_value e].
Proof.
  intros [Hk Hv]. unfold member. change (n2b 61) with equals.
  rewrite split_byte_app.
  - rewrite split_byte_none; [reflexivity|].
    eapply Forall_not_in; [exact equals_b|]. apply value_no; simpl; tauto.
  - eapply Forall_not_in; [exact equals_b|]. apply key_no; simpl; tauto.
Qed.

Lemma parse_pairs_ok es : forall pairs len acc,
  Forall2 padded es pairs -> Forall entry_ok es ->
  (len + list_sum (map (fun e => length (member e)) es) <= 512)%nat ->
  parse_pairs pairs len acc = Some (acc ++ es).
Proof.
  induction es as [|e es IH]; intros pairs len acc H2 HF Hlen.
  - inversion H2; subst. simpl. now rewrite app_nil_r.
  - inversion H2 as [|? p ? ps Hp Hps]; subst. inversion HF as [|? ? He HF']; subst.
    cbn [map list_sum fold_right] in Hlen. cbn [parse_pairs].
    destruct Hp as [e l r Hl Hr].
    destruct (member_shape e He) as (c & m & d & Em & H1 & H2' & H3 & H4 & H5).
    assert (Ht : trim_ows (l ++ member e ++ r) = Some (member e)).
    { rewrite Em. apply trim_ows_body; assumption. }
    rewrite Ht. cbv zeta.
    match goal with |- context [Nat.ltb ?a ?b] => destruct (Nat.ltb_spec a b) as [Hb|Hb] end.
    { unfold max_tracestate_len in Hb.
      change (fold_right Init.Nat.add 0%nat) with list_sum in Hlen. lia. }
    rewrite split_member by exact He.
    rewrite IH; auto.
    + rewrite <- app_assoc. simpl. now destruct e.
    + change (fold_right Init.Nat.add 0%nat) with list_sum in Hlen. lia.
Qed.

Lemma padded_no_comma e p : entry_ok e -> padded e p -> ~ In comma p.
Proof.
  intros [Hk Hv] Hp. destruct Hp as [e l r Hl Hr].
  eapply Forall_not_in; [exact comma_b|].
  assert (Ho : forall s, ows s -> Forall (fun x => b2n x <> 44) s).
  { intros s Hs. eapply Forall_impl; [|exact Hs]. simpl. intros; lia. }
  apply Forall_app. split; [auto|]. apply Forall_app. split; [|auto].
  unfold member. apply Forall_app. split; [apply key_no; simpl; tauto|].
  constructor; [rewrite b2n_n2b_small; lia|]. apply value_no; simpl; tauto.
Qed.

Lemma join_length c l :
  l <> [] -> length (join_byte c l) = (length l - 1 + list_sum (map (@length byte) l))%nat.
Proof.
  induction l as [|x l IH]; intros H; [congruence|].
  destruct l as [|y l].
  - simpl. lia.
  - change (join_byte c (x :: y :: l)) with (x ++ c :: join_byte c (y :: l)).
    rewrite app_length. cbn [length]. rewrite IH by discriminate.
    cbn [map list_sum fold_right length]. unfold list_sum. simpl. lia.
Qed.

Lemma member_nonempty e : member e <> [].
Proof. unfold member. destruct (e_key e); discriminate. Qed.

Lemma ts_new_valid es : es <> [] -> ts_ok es -> ts_new None es = Ok (Some es).
Proof.
  intros Hne (H1 & H2 & H3). apply ts_new_ok_iff; [constructor|].
  right. split; [auto|]. split; [exact H1|]. split; [exact H2|].
  exists []. split; [constructor|]. rewrite app_nil_r. auto.
Qed.

Lemma tracestate_from_header_ok es pairs :
  es <> [] -> ts_ok es -> Forall2 padded es pairs ->
  (length (join_byte comma (map member es)) <= 512)%nat ->
  tracestate_from_header (join_byte comma pairs) = Some es.
Proof.
  intros Hne Hok H2 Hlen.
  assert (Hpl : length pairs = length es).
  { clear - H2. induction H2; simpl; auto. }
  assert (Hpne : pairs <> []) by (destruct pairs; [destruct es; [congruence|discriminate]|discriminate]).
  assert (Hnc : Forall (fun s => ~ In comma s) pairs).
  { destruct Hok as (HF & _). clear - H2 HF. induction H2; constructor.
    - inversion HF; subst. eapply padded_no_comma; eauto.
    - inversion HF; subst. auto. }
  unfold tracestate_from_header.
  destruct (join_byte comma pairs) as [|c0 j] eqn:Ej.
  - (* impossible: a pair is non-empty *)
    exfalso. destruct pairs as [|p ps]; [congruence|].
    inversion H2 as [|e ? es' ? Hp _]; subst.
    assert (p = []) as ->.
    { destruct ps; simpl in Ej; [exact Ej|]. destruct p; [reflexivity|discriminate]. }
    remember (@nil byte) as p0 eqn:E in Hp. destruct Hp as [e l r Hl Hr].
    apply app_eq_nil in E. destruct E as [_ E]. apply app_eq_nil in E. destruct E as [E _].
    now apply member_nonempty in E.
  - rewrite <- Ej. rewrite split_join by assumption. cbv zeta.
    rewrite join_length in Hlen by (destruct es; [congruence|discriminate]).
    rewrite map_length, map_map in Hlen.
    rewrite (parse_pairs_ok es); auto.
    + cbn [app]. rewrite ts_new_valid by assumption. reflexivity.
    + apply Hok.
    + rewrite Hpl. exact Hlen.
Qed.

Lemma tracestate_from_header_valid ts :
  match tracestate_from_header ts with Some l => ts_ok l | None => True end.
Proof.
  unfold tracestate_from_header. destruct ts; [exact I|]. cbv zeta.
  match goal with |- context [parse_pairs ?a ?b ?c] => destruct (parse_pairs a b c) as [es|] end; [|exact I].
  destruct (ts_new None es) as [[l|]| |] eqn:E; try exact I.
  apply (ts_new_preserves None es (Some l)); auto.
  split; [constructor|]. split; [constructor|simpl; lia].
Qed.

Lemma drop_ows_split s : exists l, s = l ++ drop_ows s /\ ows l.
Proof.
  induction s as [|c s (l & E & Hl)]; [exists []; split; [reflexivity|constructor]|].
  simpl. destruct (is_ows c) eqn:Ec.
  - exists (c :: l). split; [simpl; now f_equal|]. constructor; [|exact Hl].
    unfold is_ows in Ec. lia.
  - exists []. split; [reflexivity|constructor].
Qed.

Lemma trim_ows_sound s p : trim_ows s = Some p -> exists l r, s = l ++ p ++ r /\ ows l /\ ows r.
Proof.
  unfold trim_ows. intros H.
  destruct (drop_ows_split s) as (l & El & Hl).
  destruct (drop_ows_split (rev (drop_ows s))) as (r & Er & Hr).
  destruct (drop_ows (rev (drop_ows s))) as [|last front] eqn:E; [discriminate|].
  destruct (existsb _ front); [discriminate|]. apply some_inj in H. subst p.
  exists l, (rev r). split; [|split; [exact Hl|now apply ows_rev]].
  rewrite El at 1. f_equal. apply (f_equal (@rev byte)) in Er.
  rewrite rev_involutive, rev_app_distr in Er. exact Er.
Qed.

Lemma parse_pairs_sound : forall pairs len acc es,
  parse_pairs pairs len acc = Some es ->
  exists es', es = acc ++ es' /\ Forall2 padded es' pairs /\
    (es' <> [] -> (len + list_sum (map (fun e => length (member e)) es') <= 512)%nat).
Proof.
  induction pairs as [|p pairs IH]; intros len acc es H; cbn [parse_pairs] in H.
  - apply some_inj in H. subst. exists []. rewrite app_nil_r. repeat split; [constructor|congruence].
  - destruct (trim_ows p) as [q|] eqn:Et; [|discriminate]. cbv zeta in H.
    destruct (Nat.ltb_spec max_tracestate_len (len + length q)) as [|Hl]; [discriminate|].
    pose proof (join_split equals q) as Hj.
    destruct (split_byte equals q) as [|k [|v [|x y]]] eqn:Es; try discriminate.
    apply IH in H. destruct H as (es' & -> & HF & Hlen).
    cbn [join_byte] in Hj.
    assert (Hq : q = member (MkEntry k v)) by (unfold member; simpl; now rewrite <- Hj).
    exists (MkEntry k v :: es'). rewrite <- app_assoc. split; [reflexivity|]. split.
    + constructor; [|exact HF]. apply trim_ows_sound in Et. destruct Et as (l & r & -> & Hl' & Hr').
      rewrite Hq. now constructor.
    + intros _. cbn [map]. cbn [list_sum fold_right]. rewrite <- Hq.
      change (fold_right Init.Nat.add 0%nat) with list_sum. unfold max_tracestate_len in Hl.
      destruct es' as [|e0 es']; [simpl; lia|]. specialize (Hlen ltac:(discriminate)). lia.
Qed.

Lemma tracestate_from_header_sound ts es :
  tracestate_from_header ts = Some es ->
  es <> [] /\ ts_ok es /\
  exists pairs, Forall2 padded es pairs /\ ts = join_byte comma pairs /\ tracestate_fits es.
Proof.
  intros H. pose proof (tracestate_from_header_valid ts) as Hv. rewrite H in Hv.
  unfold tracestate_from_header in H. destruct ts as [|c ts]; [discriminate|].
  remember (c :: ts) as t eqn:Et. cbv zeta in H.
  destruct (parse_pairs (split_byte comma t) (length (split_byte comma t) - 1) []) as [es'|] eqn:Ep;
    [|discriminate].
  apply parse_pairs_sound in Ep. destruct Ep as (es0 & -> & HF & Hlen). cbn [app] in *.
  assert (Hl0 : length es0 = length (split_byte comma t)).
  { clear - HF. induction HF; simpl; auto. }
  assert (Hne : es0 <> []).
  { intros ->. simpl in Hl0. pose proof (split_byte_nonempty comma t).
    destruct (split_byte comma t); [congruence|discriminate]. }
  destruct (ts_new None es0) as [o| |] eqn:En; [|discriminate|discriminate].
  apply ts_new_ok_iff in En; [|constructor].
  destruct En as [(_ & He & _)|(_ & _ & _ & kept & Hk & _ & ->)]; [contradiction|].
  inversion Hk; subst kept. rewrite app_nil_r in H. apply some_inj in H. subst es0.
  split; [exact Hne|]. split; [exact Hv|]. exists (split_byte comma t). split; [exact HF|].
  split; [symmetry; apply join_split|]. unfold tracestate_fits. change (n2b 44) with comma.
  rewrite join_length by (destruct es; [congruence|discriminate]).
  rewrite map_length, map_map, Hl0. now apply Hlen.
Qed.

Lemma padded_self es : Forall2 padded es (map member es).
Proof.
  induction es as [|e es IH]; simpl; constructor; auto.
  replace (member e) with ([] ++ member e ++ []) by (simpl; now rewrite app_nil_r).
  constructor; constructor.
Qed.

Lemma tracestate_to_header_cases sc :
  (tracestate_to_header sc <> [] /\ exists es, sc_tracestate sc = Some es /\ es <> [] /\
     tracestate_fits es /\ tracestate_to_header sc = join_byte comma (map member es)) \/
  (tracestate_to_header sc = [] /\
     (ts_entries (sc_tracestate sc) = [] \/ ~ tracestate_fits (ts_entries (sc_tracestate sc)))).
Proof.
  unfold tracestate_to_header. destruct (sc_tracestate sc) as [es|]; [|right; auto].
  replace (map pair_of es) with (map member es) by (apply map_ext; reflexivity).
  cbv zeta. destruct (join_byte comma (map member es)) as [|c j] eqn:E.
  - right. split; [reflexivity|]. left. simpl. destruct es as [|e es]; [reflexivity|].
    exfalso. destruct es as [|e' es]; simpl in E; [now apply member_nonempty in E|].
    destruct (member e) eqn:Em; [now apply member_nonempty in Em|discriminate].
  - rewrite <- E. unfold max_tracestate_len.
    destruct (Nat.leb_spec (length (join_byte comma (map member es))) 512) as [Hl|Hl].
    + left. split; [congruence|]. exists es. split; [reflexivity|]. split.
      { destruct es; [discriminate|discriminate]. }
      split; [exact Hl|reflexivity].
    + right. split; [reflexivity|]. right. unfold tracestate_fits. simpl. fold comma. lia.
Qed.

(** *** Stackdriver *)

Lemma dec_of_no s n c : dec_of s n -> b2n c < 48 \/ 57 < b2n c -> ~ In c s.
Proof.
  intros (_ & H & _) Hc Hin. rewrite Forall_forall in H. specialize (H _ Hin). lia.
Qed.

Lemma copy_into_16 buf : copy_into zero_trace_id buf = firstn 16 (buf ++ zeros 16).
Proof.
  unfold copy_into, copy_at. change (firstn 0 zero_trace_id) with (@nil byte). rewrite app_nil_l.
  change (length zero_trace_id) with 16%nat. rewrite Nat.sub_0_r, Nat.add_0_l.
  rewrite firstn_app. f_equal.
  destruct (le_lt_dec 16 (length buf)).
  - rewrite Nat.min_l by lia. replace (16 - length buf)%nat with 0%nat by lia. reflexivity.
  - rewrite Nat.min_r by lia. unfold zeros, zero_trace_id.
    rewrite firstn_repeat by lia.
    replace (repeat x00 16) with (repeat x00 (length buf) ++ repeat x00 (16 - length buf)).
    + replace (length buf) with (length (repeat x00 (length buf))) at 1 by apply repeat_length.
      apply skipn_app_exact.
    + rewrite <- repeat_app. f_equal. lia.
Qed.

Lemma not_true_false b : b <> true -> b = false.
Proof. destruct b; congruence. Qed.

Lemma sd_parse_iff h sc : sd_parse h = Some sc <-> sd_accepts h sc.
Proof.
  unfold sd_accepts, sd_parse. split.
  - destruct (Nat.eqb_spec (length h) 0) as [|H0]; [discriminate|]. cbn [orb]. unfold sd_max_size.
    destruct (Nat.ltb_spec 200 (length h)) as [|Hl]; [discriminate|].
    destruct (index_byte slash h) as [i|] eqn:Ei; [|discriminate].
    apply index_byte_some in Ei. destruct Ei as (t & rest & -> & <- & Hns).
    rewrite firstn_app_exact, skipn_sep. cbv zeta.
    destruct (hex_decode t) as [buf|] eqn:Et; [|discriminate]. apply hex_decode_iff in Et.
    rewrite copy_into_16. intros H. split; [lia|].
    destruct (index_byte semicolon rest) as [j|] eqn:Ej.
    + apply index_byte_some in Ej. destruct Ej as (d & tl & -> & <- & Hnd).
      rewrite firstn_app_exact, skipn_sep in H.
      destruct (parse_uint64 d) as [sid|] eqn:Ed; [|discriminate].
      apply parse_uint64_iff in Ed. destruct Ed as [Ed Hsid].
      assert (Hbe : length (be_bytes 8 sid) = 8%nat /\ be_value (be_bytes 8 sid) = sid).
      { split; [apply be_bytes_length|]. rewrite be_value_bytes.
        change (256 ^ N.of_nat 8) with two64. now apply N.mod_small. }
      exists t, buf, (d ++ semicolon :: tl), sid.
      destruct (has_prefix tl (bs "o=")) eqn:Ep; cbn [negb] in H.
      * apply has_prefix_spec in Ep. destruct Ep as [d' ->].
        replace (skipn 2 (bs "o=" ++ d')) with d' in H by reflexivity.
        destruct (parse_uint64 d') as [o|] eqn:Eo; [|discriminate].
        apply parse_uint64_iff in Eo. destruct Eo as [Eo Ho]. injection H as <-.
        cbn [sc_trace_id sc_span_id sc_options sc_tracestate].
        split; [reflexivity|]. split; [exact Et|]. split; [reflexivity|]. split.
        { right. exists d, (bs "o=" ++ d'). split; [reflexivity|]. split; [exact Ed|].
          left. exists o, d'. auto. }
        tauto.
      * injection H as <-. cbn [sc_trace_id sc_span_id sc_options sc_tracestate].
        split; [reflexivity|]. split; [exact Et|]. split; [reflexivity|]. split.
        { right. exists d, tl. split; [reflexivity|]. split; [exact Ed|].
          right. split; [|reflexivity]. intros d' ->.
          assert (has_prefix (bs "o=" ++ d') (bs "o=") = true) by (apply has_prefix_spec; eauto).
          congruence. }
        tauto.
    + destruct (parse_uint64 rest) as [sid|] eqn:Ed; [|discriminate].
      apply parse_uint64_iff in Ed. destruct Ed as [Ed Hsid].
      assert (Hbe : length (be_bytes 8 sid) = 8%nat /\ be_value (be_bytes 8 sid) = sid).
      { split; [apply be_bytes_length|]. rewrite be_value_bytes.
        change (256 ^ N.of_nat 8) with two64. now apply N.mod_small. }
      exists t, buf, rest, sid.
      replace (has_prefix rest (bs "o=")) with false in H.
      2:{ symmetry. apply not_true_false. rewrite has_prefix_spec. intros [r ->].
          destruct Ed as (_ & HF & _). inversion HF as [|? ? Hb _]; subst. vm_compute in Hb.
          destruct Hb as [Ha Hb]. apply Hb. reflexivity. }
      cbn [negb] in H. injection H as <-.
      cbn [sc_trace_id sc_span_id sc_options sc_tracestate].
      split; [reflexivity|]. split; [exact Et|]. split; [reflexivity|]. split.
      { left. auto. }
      tauto.
  - intros (Hl & t & buf & rest & sid & -> & Et & Etid & Hrest & Hsid & Hlen & Hbe & Hts).
    change (n2b 47) with slash in *.
    destruct (Nat.eqb_spec (length (t ++ slash :: rest)) 0) as [Hz|_].
    { rewrite app_length in Hz. simpl in Hz. lia. }
    cbn [orb]. unfold sd_max_size.
    destruct (Nat.ltb_spec 200 (length (t ++ slash :: rest))); [lia|].
    rewrite index_byte_app.
    2:{ eapply hex_of_not_in; eauto. rewrite slash_b. lia. }
    rewrite firstn_app_exact, skipn_sep. cbv zeta.
    apply hex_decode_iff in Et. rewrite Et, copy_into_16.
    assert (Hs : be_bytes 8 sid = sc_span_id sc).
    { rewrite <- Hbe. rewrite <- Hlen. apply be_bytes_value. }
    destruct sc as [tid s o ts]. cbn [sc_trace_id sc_span_id sc_options sc_tracestate] in *.
    subst tid ts.
    destruct Hrest as [[Hd ->]|(d & tl & -> & Hd & Ho)].
    + rewrite index_byte_none.
      2:{ eapply dec_of_no; eauto. rewrite semicolon_b. lia. }
      assert (Hp : parse_uint64 rest = Some sid) by (apply parse_uint64_iff; auto).
      rewrite Hp.
      replace (has_prefix rest (bs "o=")) with false.
      2:{ symmetry. apply not_true_false. rewrite has_prefix_spec. intros [r ->].
          destruct Hd as (_ & HF & _). inversion HF as [|? ? Hb _]; subst. vm_compute in Hb.
          destruct Hb as [Ha Hb]. apply Hb. reflexivity. }
      cbn [negb]. now rewrite Hs.
    + change (n2b 59) with semicolon. rewrite index_byte_app.
      2:{ eapply dec_of_no; eauto. rewrite semicolon_b. lia. }
      rewrite firstn_app_exact, skipn_sep.
      assert (Hp : parse_uint64 d = Some sid) by (apply parse_uint64_iff; auto).
      rewrite Hp. destruct Ho as [(n & d' & -> & Hd' & Hn & ->)|[Hno ->]].
      * assert (Hpre : has_prefix (bs "o=" ++ d') (bs "o=") = true) by (apply has_prefix_spec; eauto).
        rewrite Hpre. cbn [negb].
        replace (skipn 2 (bs "o=" ++ d')) with d' by reflexivity.
        assert (Hp' : parse_uint64 d' = Some n) by (apply parse_uint64_iff; auto).
        rewrite Hp', Hs. reflexivity.
      * replace (has_prefix tl (bs "o=")) with false.
        2:{ symmetry. apply not_true_false. rewrite has_prefix_spec. intros [r ->]. now apply (Hno r). }
        cbn [negb]. now rewrite Hs.
Qed.

Lemma format_dec_of n : dec_of (format_dec n) n.
Proof.
  destruct (format_dec_spec n) as (d & E & Hne & HF & Hv). rewrite E.
  apply dec_value_iff in Hv. destruct Hv. split; [exact Hne|]. auto.
Qed.

Lemma sd_format_accepts sc :
  sc_wf sc -> sd_accepts (sd_format sc) (MkSC (sc_trace_id sc) (sc_span_id sc) (sc_options sc) None).
Proof.
  intros (Ht & Hs & Ho). unfold sd_accepts, sd_format.
  cbn [sc_trace_id sc_span_id sc_options sc_tracestate].
  pose proof (be_value_lt (sc_span_id sc)) as Hb. rewrite Hs in Hb.
  change (256 ^ N.of_nat 8) with two64 in Hb.
  split.
  - rewrite !app_length. cbn [length]. rewrite app_length.
    rewrite hex_encode_length, Ht. cbn [length]. rewrite app_length.
    assert (H1 : (length (format_dec (be_value (sc_span_id sc))) <= 20)%nat).
    { apply format_dec_length; [|lia]. unfold two64 in Hb.
      eapply N.lt_trans; [exact Hb|]. reflexivity. }
    assert (H2 : (length (format_dec (sc_options sc)) <= 10)%nat).
    { apply format_dec_length; [|lia]. eapply N.lt_trans; [exact Ho|]. reflexivity. }
    change (length (bs "o=")) with 2%nat. lia.
  - exists (hex_encode (sc_trace_id sc)), (sc_trace_id sc),
      (format_dec (be_value (sc_span_id sc)) ++ semicolon :: bs "o=" ++ format_dec (sc_options sc)),
      (be_value (sc_span_id sc)).
    split; [reflexivity|]. split; [apply hex_of_encode|]. split.
    { replace 16%nat with (length (sc_trace_id sc)) at 1 by exact Ht. now rewrite firstn_app_exact. }
    split.
    { right. exists (format_dec (be_value (sc_span_id sc))), (bs "o=" ++ format_dec (sc_options sc)).
      split; [reflexivity|]. split; [apply format_dec_of|]. left.
      exists (sc_options sc), (format_dec (sc_options sc)). split; [reflexivity|].
      split; [apply format_dec_of|]. split.
      - eapply N.lt_trans; [exact Ho|]. reflexivity.
      - symmetry. now apply N.mod_small. }
    auto.
Qed.
