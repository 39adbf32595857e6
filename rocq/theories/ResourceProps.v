(** C47-C49: resource labels, merging, sanitised names. *)

From Coq Require Import String.
From Coq Require Import List Arith NArith Bool Lia Permutation ZifyBool ZifyNat ZifyN.
From Verif Require Import Base ListLib GoMap GoSort Text Utf8 ResourceModel ResourceSpec ResourceProofs.
Import ListNotations.
Open Scope nat_scope.

(** ** C47 *)

Lemma repeat_app_comma k (v2 : bytes) v1 : ~ contains (v1 ++ [dquote] ++ repeat spaceb k ++ [comma] ++ v2) ([dquote] ++ repeat spaceb k ++ [comma]) -> False.
Proof. intros H. apply H. exists v1, v2. f_equal. cbn [app]. f_equal. rewrite <- app_assoc. reflexivity. Qed.

Lemma label_matches u m k v rest : safe_key k -> safe_value u v -> mget bytes_eqb m k = Some v ->
  match_label (encode_label u m k ++ comma :: rest) = Some (k, quote u v, rest).
Proof.
  intros (Hl & Ha & Hs & Hc) (Va & Vl & Vs) Hm. unfold encode_label. rewrite Hm. rewrite <- app_assoc.
  assert (Eq : quote u v = [dquote] ++ qb u v ++ [dquote]) by reflexivity.
  assert (Hqa : Forall (fun c => (b2n c < 128)%N) (qb u v)).
  { unfold ascii in Va. rewrite Eq in Va. apply Forall_app in Va. destruct Va as [_ Va]. apply Forall_app in Va. tauto. }
  assert (Hql : length (qb u v) <= 256) by (rewrite Eq in Vl; rewrite !app_length in Vl; cbn [length] in Vl; lia).
  apply match_label_ok; auto.
  - intros c r E. cbn [bs list_byte_of_string app] in E. injection E as <- _. reflexivity.
  - rewrite Eq. replace ((bs "=" ++ [dquote] ++ qb u v ++ [dquote]) ++ comma :: rest) with (bs "=" ++ dquote :: qb u v ++ dquote :: (comma :: rest)).
    2:{ rewrite <- !app_assoc. reflexivity. }
    apply match_value_ok; [exact Hqa | exact Hql | | reflexivity].
    intros q1 q2 r E Er. destruct (quote_body_dquote u (length v) v (le_n _) _ _ E) as (v1 & v2 & Ev & ->).
    destruct (skip_space_comma u (length v2) v2 comma r (le_n _) Er eq_refl) as (j & v3 & ->).
    apply (Vs j). exists v1, v3. rewrite Ev. f_equal. cbn [app]. f_equal. rewrite <- app_assoc. reflexivity.
Qed.

Lemma encode_label_nonempty u m k rest : exists c s, encode_label u m k ++ rest = c :: s.
Proof. unfold encode_label. destruct k as [|c k]; eexists; eexists; cbn [app bs list_byte_of_string]; reflexivity. Qed.

Lemma decode_loop_ok u m : (forall k v, mget bytes_eqb m k = Some v -> safe_key k /\ safe_value u v) ->
  forall ks n acc, incl ks (mkeys m) -> length (flat_map (fun k => encode_label u m k ++ [comma]) ks) <= n ->
  exists acc', decode_loop n acc (flat_map (fun k => encode_label u m k ++ [comma]) ks) = Ok acc' /\
    (mwf acc -> mwf acc') /\
    (forall k, mget bytes_eqb acc' k = if existsb (bytes_eqb k) ks then mget bytes_eqb m k else mget bytes_eqb acc k).
Proof.
  intros Hsafe. induction ks as [|k ks IH]; intros n acc Hin Hl.
  - cbn [flat_map]. exists acc. destruct n; cbn [decode_loop existsb]; auto.
  - cbn [flat_map] in *. rewrite <- app_assoc in *. cbn [app] in *.
    assert (Hk : In k (mkeys m)) by (apply Hin; left; reflexivity).
    destruct (mget bytes_eqb m k) as [v |] eqn:Em. 2:{ apply (mget_None bytes_eqb bytes_eqb_spec) in Em. contradiction. }
    destruct (Hsafe k v Em) as [Sk Sv]. pose proof (label_matches u m k v (flat_map (fun k => encode_label u m k ++ [comma]) ks) Sk Sv Em) as M.
    destruct (encode_label_nonempty u m k (comma :: flat_map (fun k => encode_label u m k ++ [comma]) ks)) as (c & s & Es).
    destruct (match_label_shorter _ _ _ _ M) as [Hsh _].
    rewrite Es in *. destruct n as [|n]; [cbn [length] in Hl; lia |]. cbn [decode_loop]. rewrite M.
    assert (Hq : quote u v = dquote :: qb u v ++ [dquote]) by reflexivity. rewrite Hq. cbv iota. rewrite <- Hq. rewrite unquote_quote.
    destruct (IH n (mset bytes_eqb acc k v)) as (acc' & E1 & E2 & E3).
    + intros x Hx. apply Hin. right. exact Hx.
    + lia.
    + exists acc'. split; [exact E1 |]. split.
      * intros W. apply E2. apply (mwf_mset bytes_eqb bytes_eqb_spec). exact W.
      * intros k0. rewrite E3. cbn [existsb]. destruct (existsb (bytes_eqb k0) ks); [rewrite orb_true_r; reflexivity |].
        rewrite orb_false_r, (mget_mset bytes_eqb bytes_eqb_spec). destruct (bytes_eqb_spec k k0) as [<- | Hne].
        -- rewrite bytes_eqb_refl. symmetry. exact Em.
        -- destruct (bytes_eqb_spec k0 k); [congruence | reflexivity].
Qed.

Lemma join_comma_flat l : l <> [] -> join_comma l ++ bs "," = flat_map (fun x => x ++ [comma]) l.
Proof.
  induction l as [|x l IH]; [congruence |]. intros _. destruct l as [|y l]; [cbn; rewrite app_nil_r; reflexivity |].
  change (join_comma (x :: y :: l)) with (x ++ bs "," ++ join_comma (y :: l)). rewrite <- !app_assoc, IH by discriminate.
  change (flat_map (fun z => z ++ [comma]) (x :: y :: l)) with ((x ++ [comma]) ++ flat_map (fun z => z ++ [comma]) (y :: l)). rewrite <- app_assoc. reflexivity.
Qed.

Lemma flat_map_map {A B C} (f : B -> list C) (g : A -> B) l : flat_map f (map g l) = flat_map (fun x => f (g x)) l.
Proof. induction l as [|a l IH]; cbn [map flat_map]; [reflexivity | rewrite IH; reflexivity]. Qed.

Lemma space_runes_head p : In p space_runes -> exists c r, p = c :: r /\ (is_space c = true \/ (128 <= b2n c)%N).
Proof.
  assert (H : forallb (fun p => match p with c :: _ => is_space c || (128 <=? b2n c)%N | [] => false end) space_runes = true) by (vm_compute; reflexivity).
  intros Hp. rewrite forallb_forall in H. apply H in Hp. destruct p as [|c r]; [discriminate |]. exists c, r. split; [reflexivity |]. lia.
Qed.
Lemma space_runes_last p : In p (map (@rev byte) space_runes) -> exists c r, p = c :: r /\ (is_space c = true \/ (128 <= b2n c)%N).
Proof.
  assert (H : forallb (fun p => match p with c :: _ => is_space c || (128 <=? b2n c)%N | [] => false end) (map (@rev byte) space_runes) = true) by (vm_compute; reflexivity).
  intros Hp. rewrite forallb_forall in H. apply H in Hp. destruct p as [|c r]; [discriminate |]. exists c, r. split; [reflexivity |]. lia.
Qed.

Lemma trim_left_noop sp n c s : (forall p, In p sp -> exists d r, p = d :: r /\ (is_space d = true \/ (128 <= b2n d)%N)) ->
  is_space c = false -> (b2n c < 128)%N -> trim_left sp n (c :: s) = c :: s.
Proof.
  intros Hsp Hc Ha. destruct n as [|n]; [reflexivity |]. cbn [trim_left].
  replace (first_some (fun p => strip_prefix p (c :: s)) sp) with (@None bytes); [reflexivity |]. symmetry.
  destruct (first_some _ sp) eqn:E; [| reflexivity]. exfalso. apply first_some_some in E. destruct E as (p & Hp & E).
  destruct (Hsp p Hp) as (d & r & -> & Hd). cbn [strip_prefix] in E. destruct (byte_eqb_spec d c) as [-> |]; [| discriminate]. destruct Hd; [congruence | lia].
Qed.

Lemma trim_space_noop c s d : is_space c = false -> (b2n c < 128)%N -> is_space d = false -> (b2n d < 128)%N ->
  trim_space (c :: s ++ [d]) = c :: s ++ [d].
Proof.
  intros Hc Hca Hd Hda. unfold trim_space. rewrite trim_left_noop; [| exact space_runes_head | exact Hc | exact Hca].
  rewrite app_comm_cons, rev_app_distr. cbn [rev app]. rewrite trim_left_noop; [| exact space_runes_last | exact Hd | exact Hda].
  change (d :: rev s ++ [c]) with ((d :: rev s) ++ [c]). rewrite rev_app_distr. cbn [rev app]. rewrite rev_involutive. reflexivity.
Qed.

Lemma trim_commas_noop s d : d <> comma -> trim_commas (s ++ [d]) = s ++ [d].
Proof.
  intros Hd. unfold trim_commas. rewrite rev_app_distr. cbn [rev app span_len].
  destruct (b2n d =? 44)%N eqn:E; [exfalso; apply Hd; apply b2n_inj; change (b2n comma) with 44%N; lia |]. cbn [skipn rev]. rewrite rev_involutive. reflexivity.
Qed.

Lemma join_comma_last l x : l <> [] -> (forall y, In y l -> exists z, y = z ++ [x]) -> exists z, join_comma l = z ++ [x].
Proof.
  induction l as [|a l IH]; [congruence |]. intros _ H. destruct l as [|b l].
  - cbn [join_comma]. apply H. left. reflexivity.
  - destruct IH as (z & E); [discriminate | intros y Hy; apply H; right; exact Hy |].
    change (join_comma (a :: b :: l)) with (a ++ bs "," ++ join_comma (b :: l)). rewrite E. exists (a ++ bs "," ++ z). rewrite <- !app_assoc. reflexivity.
Qed.

(** What EncodeLabels writes is read back by DecodeLabels as the same map, for every
    non-empty map of safe keys and values and whatever the iteration order. *)
Theorem C47_roundtrip (u : unicode) (o : order) (m : labels) :
  mwf m -> m <> [] ->
  (forall k v, mget bytes_eqb m k = Some v -> safe_key k /\ safe_value u v) ->
  exists m', decode_labels (encode_labels u o m) = Ok m' /\ mwf m' /\ forall k, mget bytes_eqb m' k = mget bytes_eqb m k.
Proof.
  intros W Hne Hsafe. set (ks := isort bytes_ltb (ord o _ (mkeys m))).
  assert (P : Permutation ks (mkeys m)) by (unfold ks; rewrite isort_perm; apply (ord_perm o)).
  assert (Hks : ks <> []).
  { intros E. rewrite E in P. apply Permutation_nil in P. destruct m; [congruence | discriminate]. }
  assert (Hin : incl ks (mkeys m)) by (intros k Hk; rewrite <- P; exact Hk).
  assert (Hkey : forall k, In k ks -> exists v, mget bytes_eqb m k = Some v /\ safe_key k /\ safe_value u v).
  { intros k Hk. apply Hin in Hk. destruct (mget bytes_eqb m k) as [v |] eqn:E.
    - exists v. split; [reflexivity | exact (Hsafe k v E)].
    - apply (mget_None bytes_eqb bytes_eqb_spec) in E. contradiction. }
  assert (Elast : forall y, In y (map (encode_label u m) ks) -> exists z, y = z ++ [dquote]).
  { intros y Hy. apply in_map_iff in Hy. destruct Hy as (k & <- & Hk). unfold encode_label, quote. eexists. rewrite !app_assoc. reflexivity. }
  destruct (join_comma_last (map (encode_label u m) ks) dquote) as (z & Ez); [destruct ks; [congruence | discriminate] | exact Elast |].
  assert (Efirst : exists c s, join_comma (map (encode_label u m) ks) = c :: s /\ is_space c = false /\ (b2n c < 128)%N).
  { destruct ks as [|k ks']; [congruence |]. destruct (Hkey k (or_introl eq_refl)) as (v & _ & (Hl & Ha & Hs & _) & _).
    destruct k as [|c k]; [cbn in Hl; lia |]. cbn [map]. exists c. unfold encode_label at 1. inversion Ha; subst.
    destruct (map (encode_label u m) ks'); cbn [join_comma app]; eexists; (split; [reflexivity |]); (split; [apply (Hs c k eq_refl) | assumption]). }
  destruct Efirst as (c & s & Ec & Hsp & Hasc).
  unfold decode_labels, encode_labels. fold ks.
  assert (Et : trim_commas (trim_space (join_comma (map (encode_label u m) ks))) = join_comma (map (encode_label u m) ks)).
  { assert (exists s', join_comma (map (encode_label u m) ks) = c :: s' ++ [dquote]) as (s' & Es').
    { rewrite Ez in Ec. destruct z as [|x z].
      - exfalso. destruct ks as [|k ks']; [congruence |]. cbn [map] in Ez. destruct (Hkey k (or_introl eq_refl)) as (v & Em & (Hl & _) & _).
        apply (f_equal (@length byte)) in Ez. assert (length (encode_label u m k) >= 2) by (unfold encode_label, quote; rewrite !app_length; cbn [length bs list_byte_of_string]; lia).
        destruct (map (encode_label u m) ks'); cbn [join_comma] in Ez; rewrite ?app_length in Ez; cbn [length app] in Ez; lia.
      - cbn [app] in Ec. injection Ec as -> Ec. exists z. rewrite Ez. reflexivity. }
    rewrite Es'. rewrite trim_space_noop; [| exact Hsp | exact Hasc | reflexivity | reflexivity]. rewrite app_comm_cons. apply trim_commas_noop. discriminate. }
  rewrite Et, join_comma_flat by (destruct ks; [congruence | discriminate]). rewrite flat_map_map.
  destruct (decode_loop_ok u m Hsafe ks _ [] Hin (le_n _)) as (m' & E1 & E2 & E3).
  exists m'. split; [exact E1 |]. split; [apply E2; constructor |]. intros k. rewrite E3.
  destruct (existsb (bytes_eqb k) ks) eqn:Ee; [reflexivity |]. cbn [mget]. symmetry. apply (mget_None bytes_eqb bytes_eqb_spec).
  intros Hk. rewrite <- P in Hk. assert (existsb (bytes_eqb k) ks = true) by (apply existsb_exists; exists k; split; [exact Hk | apply bytes_eqb_refl]). congruence.
Qed.

Lemma quote_plain u s : plain s -> quote u s = [dquote] ++ s ++ [dquote].
Proof.
  intros H. unfold quote. f_equal. f_equal. induction H as [|c s (Hc & Hq & Hb) Hs IH]; [reflexivity |].
  cbn [length quote_body].
  assert (D : decode_rune (c :: s) = (b2n c, 1)) by (unfold decode_rune; replace (b2n c <? 128)%N with true by lia; reflexivity).
  rewrite D. cbn [skipn]. rewrite IH. unfold quote_rune.
  assert (b2n c <> 34%N) by (intros E; apply Hq; apply b2n_inj; exact E). assert (b2n c <> 92%N) by (intros E; apply Hb; apply b2n_inj; exact E).
  replace ((1 =? 1)%nat && (b2n c =? rune_error)%N) with false by (unfold rune_error; lia).
  replace ((b2n c =? 34) || (b2n c =? 92))%N with false by lia.
  replace (printable u (b2n c)) with true by (unfold printable; replace (b2n c <? 128)%N with true by lia; lia).
  rewrite encode_ascii by lia. rewrite n2b_b2n. reflexivity.
Qed.

(** In particular: keys and values of printable ASCII without quotes and backslashes, the
    keys not starting with a space. *)
Theorem C47_plain_roundtrip (u : unicode) (o : order) (m : labels) :
  mwf m -> m <> [] ->
  (forall k v, mget bytes_eqb m k = Some v ->
     1 <= length k <= 256 /\ plain k /\ (forall r, k <> spaceb :: r) /\ length v <= 256 /\ plain v) ->
  exists m', decode_labels (encode_labels u o m) = Ok m' /\ mwf m' /\ forall k, mget bytes_eqb m' k = mget bytes_eqb m k.
Proof.
  intros W Hne H. apply C47_roundtrip; [exact W | exact Hne |]. intros k v E. destruct (H k v E) as (H1 & H2 & H3 & H4 & H5). split.
  - split; [exact H1 |]. split; [| split].
    + unfold ascii. eapply Forall_impl; [| exact H2]. cbv beta. intros c (Hc & _). lia.
    + intros c r ->. inversion H2 as [| ? ? (Hc & _) _]; subst. unfold is_space. destruct (N.eq_dec (b2n c) 32) as [E32 |]; [| lia].
      exfalso. apply (H3 r). f_equal. apply b2n_inj. exact E32.
    + intros (a & b & ->). unfold plain in H2. rewrite Forall_forall in H2. destruct (H2 dquote) as (_ & Hq & _); [| congruence].
      apply in_app_iff. right. cbn. auto.
  - split; [| split].
    + unfold ascii. rewrite quote_plain by exact H5. apply Forall_app. split; [constructor; [reflexivity | constructor] |]. apply Forall_app. split; [| constructor; [reflexivity | constructor]].
      eapply Forall_impl; [| exact H5]. cbv beta. intros c (Hc & _). lia.
    + rewrite quote_plain by exact H5. rewrite !app_length. cbn [length]. lia.
    + intros j (a & b & ->). unfold plain in H5. rewrite Forall_forall in H5. destruct (H5 dquote) as (_ & Hq & _); [| congruence].
      apply in_app_iff. right. left. reflexivity.
Qed.

(** strconv.Unquote reads back what strconv.Quote writes, for every byte string. *)
Theorem C47_quote_roundtrip (u : unicode) (s : bytes) : unquote (quote u s) = Some s.
Proof. apply unquote_quote. Qed.

(** DecodeLabels never panics and always ends, whatever the input. *)
Theorem C47_no_panic (s : bytes) : decode_labels s <> Panic.
Proof. apply decode_loop_no_panic. lia. Qed.

(** *** What does not survive *)
Definition no_unicode : unicode := MkU (fun _ => false) (fun _ => false) (fun _ => false).
Definition print_unicode : unicode := MkU (fun _ => false) (fun _ => false) (fun _ => true).

(** DecodeLabels(EncodeLabels({})) is an error. *)
Theorem C47_empty_refuted u o : decode_labels (encode_labels u o []) = Err ErrFormat.
Proof.
  unfold encode_labels. cbn [mkeys map]. pose proof (ord_perm o _ (@nil bytes)) as P. apply Permutation_sym, Permutation_nil in P.
  change (map fst (@nil (bytes * bytes))) with (@nil bytes). rewrite P. vm_compute. reflexivity.
Qed.

(** A value with a quote and a comma. *)
Theorem C47_quote_comma_refuted : exists m : labels, mwf m /\
  encode_labels no_unicode id_order m = bs "k=" ++ [dquote] ++ bs "a\" ++ [dquote] ++ bs ",b" ++ [dquote] /\
  decode_labels (encode_labels no_unicode id_order m) = Err ErrFormat.
Proof.
  exists [(bs "k", bs "a" ++ [dquote] ++ bs ",b")]. split; [repeat constructor; intros [] |]. split; vm_compute; reflexivity.
Qed.

(** A label inside a key. *)
Theorem C47_injection_refuted : exists m m' : labels, mwf m /\ length m = 1 /\
  decode_labels (encode_labels no_unicode id_order m) = Ok m' /\
  mget bytes_eqb m' (bs "a") = Some (bs "b") /\ mget bytes_eqb m (bs "a") = None /\ length m' = 2.
Proof.
  exists [(bs "a=" ++ [dquote] ++ bs "b" ++ [dquote] ++ bs ",c", bs "d")], [(bs "a", bs "b"); (bs "c", bs "d")].
  split; [repeat constructor; intros [] |]. split; [reflexivity |]. split; [vm_compute; reflexivity |]. repeat split.
Qed.

(** A key that starts with white space loses it; a printable rune that is not ASCII and a
    value of more than 256 bytes cannot be read back. *)
Theorem C47_other_refuted :
  decode_labels (encode_labels no_unicode id_order [(bs " k", bs "v")]) = Ok [(bs "k", bs "v")] /\
  decode_labels (encode_labels print_unicode id_order [(bs "k", encode_rune 233)]) = Err ErrFormat /\
  decode_labels (encode_labels no_unicode id_order [(bs "k", repeat (n2b 97) 257)]) = Err ErrFormat /\
  decode_labels (encode_labels no_unicode id_order [([], bs "v")]) = Err ErrFormat.
Proof. split; [| split; [| split]]; vm_compute; reflexivity. Qed.

Definition c47_map : labels := [(bs "host", bs "a " ++ [dquote] ++ bs "b" ++ [dquote] ++ bs "\c"); (bs "app/x=y", bs "1,2")].

(** A map with quotes, spaces, commas, an equals sign and a backslash meets the hypotheses. *)
Example C47_example : mwf c47_map /\ (forall k v, mget bytes_eqb c47_map k = Some v -> safe_key k /\ safe_value no_unicode v) /\
  decode_labels (encode_labels no_unicode id_order c47_map) = Ok [(bs "app/x=y", bs "1,2"); (bs "host", bs "a " ++ [dquote] ++ bs "b" ++ [dquote] ++ bs "\c")].
Proof.
  assert (Hc : forall s p, (forall n, firstn (length p) (skipn n s) <> p) -> ~ contains s p).
  { intros s p H (a & b & ->). apply (H (length a)). rewrite skipn_app_exact. apply firstn_app_exact. }
  split; [repeat constructor; cbn; intuition discriminate |]. split; [| vm_compute; reflexivity].
  intros k v E. apply (mget_In bytes_eqb bytes_eqb_spec) in E. destruct E as [E | [E | []]]; injection E as <- <-; split.
  - split; [cbn; lia |]. split; [repeat constructor |]. split; [intros c r [= <- <-]; reflexivity |].
    apply Hc. intros n. do 5 (destruct n as [|n]; [discriminate |]). discriminate.
  - split; [repeat constructor |]. split; [apply Nat.leb_le; vm_compute; reflexivity |].
    intros j (a & b & E). assert (H : In comma (a ++ ([dquote] ++ repeat spaceb j ++ [comma]) ++ b)) by (rewrite !in_app_iff; cbn [In]; auto 10).
    rewrite <- E in H. revert H. cbn. intuition discriminate.
  - split; [cbn; lia |]. split; [repeat constructor |]. split; [intros c r [= <- <-]; reflexivity |].
    apply Hc. intros n. do 8 (destruct n as [|n]; [discriminate |]). discriminate.
  - split; [repeat constructor |]. split; [apply Nat.leb_le; vm_compute; reflexivity |].
    intros j (a & b & E). assert (H : In dquote (a ++ ([dquote] ++ repeat spaceb j ++ [comma]) ++ b)) by (apply in_app_iff; right; left; reflexivity).
    rewrite <- E in H. revert H. cbn. intuition discriminate.
Qed.

(** ** C48 *)

Lemma mget_put_all l : mwf l -> forall m k, mget bytes_eqb (put_all l m) k = or_else (mget bytes_eqb l k) (mget bytes_eqb m k).
Proof.
  unfold put_all, mwf. induction l as [|[k0 v0] l IH]; intros W m k; [reflexivity |]. cbn [fold_left fst snd mget]. inversion W as [|? ? Hn W']; subst.
  rewrite IH by exact W'. rewrite (mget_mset bytes_eqb bytes_eqb_spec). destruct (bytes_eqb_spec k0 k) as [<- |]; [| reflexivity].
  replace (mget bytes_eqb l k0) with (@None bytes); [reflexivity |]. symmetry. apply (mget_None bytes_eqb bytes_eqb_spec). exact Hn.
Qed.

Lemma mwf_put_all l : forall m : labels, mwf m -> mwf (put_all l m).
Proof.
  unfold put_all. induction l as [|[k0 v0] l IH]; intros m W; [exact W |]. cbn [fold_left fst snd]. apply IH. apply (mwf_mset bytes_eqb bytes_eqb_spec). exact W.
Qed.

Lemma labels_of_wf h a : heap_ok h -> mwf (labels_of h a).
Proof.
  intros H. destruct a as [i |]; cbn [labels_of]; [| constructor]. destruct (nth_in_or_default i h []) as [Hin | ->]; [| constructor].
  unfold heap_ok in H. rewrite Forall_forall in H. apply H. exact Hin.
Qed.

Lemma ord_mget (o : order) (l : labels) k : mwf l -> mget bytes_eqb (ord o _ l) k = mget bytes_eqb l k.
Proof. intros W. symmetry. apply (mget_perm bytes_eqb bytes_eqb_spec); [exact W | apply Permutation_sym, (ord_perm o)]. Qed.
Lemma ord_mwf (o : order) (l : labels) : mwf l -> mwf (ord o _ l).
Proof. intros W. apply (mwf_perm l); [exact W | apply Permutation_sym, (ord_perm o)]. Qed.

(** Merging: the first non-empty type; every label of the first resource, and those of the
    second the first does not have.  The maps that existed before are unchanged. *)
Theorem C48_merge (o : order) (h : rheap) (a b : option resource) :
  heap_ok h -> in_heap h a -> in_heap h b ->
  let '(h', r) := merge o h a b in
  type_of r = match type_of a with [] => type_of b | t => t end /\
  (forall k, lookup h' r k = or_else (lookup h a k) (lookup h b k)) /\
  (r = None <-> a = None /\ b = None) /\
  (exists added, h' = h ++ added) /\ heap_ok h' /\ in_heap h' r.
Proof.
  intros Hh Ha Hb. unfold merge. destruct a as [ra |], b as [rb |].
  - split; [cbn [type_of]; destruct (rs_type ra); reflexivity |]. split; [| split; [split; [discriminate | intros [? ?]; discriminate] |]].
    + intros k. cbn [lookup rs_labels labels_of]. rewrite app_nth2, Nat.sub_diag by lia. cbn [nth].
      rewrite mget_put_all by (apply ord_mwf, labels_of_wf, Hh). rewrite mget_put_all by (apply ord_mwf, labels_of_wf, Hh).
      rewrite !ord_mget by (apply labels_of_wf, Hh). cbn [mget]. unfold or_else. destruct (mget bytes_eqb (labels_of h (rs_labels ra)) k); [reflexivity |].
      destruct (mget bytes_eqb (labels_of h (rs_labels rb)) k); reflexivity.
    + split; [eexists; reflexivity |]. split; [| cbn [in_heap rs_labels]; rewrite app_length; cbn [length]; lia].
      apply Forall_app. split; [exact Hh |]. constructor; [| constructor]. apply mwf_put_all, mwf_put_all. constructor.
  - split; [cbn [type_of]; destruct (rs_type ra); reflexivity |]. split; [intros k; cbn [lookup]; unfold or_else; destruct (mget _ _ _); reflexivity |].
    split; [split; [discriminate | intros [? ?]; discriminate] |]. split; [exists []; symmetry; apply app_nil_r | auto].
  - split; [reflexivity |]. split; [reflexivity |]. split; [split; [discriminate | intros [? ?]; discriminate] |]. split; [exists []; symmetry; apply app_nil_r | auto].
  - split; [reflexivity |]. split; [reflexivity |]. split; [tauto |]. split; [exists []; symmetry; apply app_nil_r | auto].
Qed.

Lemma lookup_app h t r k : in_heap h r -> lookup (h ++ t) r k = lookup h r k.
Proof. destruct r as [x |]; [| reflexivity]. cbn [in_heap lookup]. destruct (rs_labels x) as [i |]; [| reflexivity]. intros Hi. cbn [labels_of]. rewrite app_nth1 by exact Hi. reflexivity. Qed.
Lemma in_heap_app h t r : in_heap h r -> in_heap (h ++ t) r.
Proof. destruct r as [x |]; [| auto]. cbn [in_heap]. destruct (rs_labels x) as [i |]; [| auto]. rewrite app_length. lia. Qed.

(** What a resource showed before a merge it shows after it. *)
Theorem C48_inputs_unmodified (o : order) (h : rheap) (a b r : option resource) k :
  heap_ok h -> in_heap h a -> in_heap h b -> in_heap h r ->
  lookup (fst (merge o h a b)) r k = lookup h r k.
Proof.
  intros Hh Ha Hb Hr. pose proof (C48_merge o h a b Hh Ha Hb) as H. destruct (merge o h a b) as [h' x]. destruct H as (_ & _ & _ & (t & ->) & _). apply lookup_app. exact Hr.
Qed.

(** (a + b) + c and a + (b + c) show the same. *)
Theorem C48_associative (o1 o2 o3 o4 : order) (h : rheap) (a b c : option resource) :
  heap_ok h -> in_heap h a -> in_heap h b -> in_heap h c ->
  let '(h1, ab) := merge o1 h a b in
  let '(h2, l) := merge o2 h1 ab c in
  let '(h3, bc) := merge o3 h b c in
  let '(h4, r) := merge o4 h3 a bc in
  type_of l = type_of r /\ (l = None <-> r = None) /\ forall k, lookup h2 l k = lookup h4 r k.
Proof.
  intros Hh Ha Hb Hc.
  pose proof (C48_merge o1 h a b Hh Ha Hb) as H1. destruct (merge o1 h a b) as [h1 ab]. destruct H1 as (T1 & L1 & N1 & (t1 & E1) & K1 & I1).
  pose proof (C48_merge o2 h1 ab c K1 I1) as H2. destruct (merge o2 h1 ab c) as [h2 l]. destruct H2 as (T2 & L2 & N2 & _); [rewrite E1; apply in_heap_app; exact Hc |].
  pose proof (C48_merge o3 h b c Hh Hb Hc) as H3. destruct (merge o3 h b c) as [h3 bc]. destruct H3 as (T3 & L3 & N3 & (t3 & E3) & K3 & I3).
  pose proof (C48_merge o4 h3 a bc K3) as H4. destruct (merge o4 h3 a bc) as [h4 r]. destruct H4 as (T4 & L4 & N4 & _); [rewrite E3; apply in_heap_app; exact Ha | exact I3 |].
  split; [| split].
  - rewrite T2, T1, T4, T3. destruct (type_of a); [destruct (type_of b); reflexivity | reflexivity].
  - rewrite N2, N1, N4, N3. tauto.
  - intros k. rewrite L2, L1, L4, L3, E1, E3. rewrite !lookup_app by assumption. unfold or_else. destruct (lookup h a k); [reflexivity |]. destruct (lookup h b k); reflexivity.
Qed.

Lemma detect_all_ok {E} o : forall rs h acc n, heap_ok h -> in_heap h acc -> Forall (in_heap h) rs ->
  exists h' r, @detect_all E o h acc (map inr rs) n = (h', inr r, n + length rs) /\
    type_of r = first_type (acc :: rs) /\ (forall k, lookup h' r k = first_label h (acc :: rs) k) /\ exists t, h' = h ++ t.
Proof.
  induction rs as [|x rs IH]; intros h acc n Hh Ha Hrs.
  - exists h, acc. cbn [map detect_all length first_type first_label]. rewrite Nat.add_0_r. split; [reflexivity |]. split; [destruct (type_of acc); reflexivity |].
    split; [intros k; unfold or_else; destruct (lookup h acc k); reflexivity |]. exists []. symmetry. apply app_nil_r.
  - inversion Hrs as [|? ? Hx Hrs']; subst. cbn [map detect_all length]. pose proof (C48_merge o h acc x Hh Ha Hx) as M.
    destruct (merge o h acc x) as [h1 acc1]. destruct M as (T1 & L1 & _ & (t1 & E1) & K1 & I1).
    destruct (IH h1 acc1 (S n) K1 I1) as (h' & r & E2 & T2 & L2 & (t2 & Et2)).
    { rewrite Forall_forall in *. intros y Hy. rewrite E1. apply in_heap_app. apply Hrs'. exact Hy. }
    exists h', r. split; [rewrite E2; f_equal; lia |]. split; [| split].
    + rewrite T2. cbn [first_type]. rewrite T1. destruct (type_of acc); reflexivity.
    + intros k. rewrite L2. cbn [first_label]. rewrite L1. unfold or_else. destruct (lookup h acc k); [reflexivity |]. destruct (lookup h x k); [reflexivity |].
      clear - E1 Hrs'. induction Hrs' as [|y rs Hy _ IH]; [reflexivity |]. cbn [first_label]. rewrite IH, E1, lookup_app by exact Hy. reflexivity.
    + exists (t1 ++ t2). rewrite Et2, E1, app_assoc. reflexivity.
Qed.

(** MultiDetector: if no detector fails, the first non-empty type and the first value of
    every label, in the order of the detectors; no map of a detector is changed. *)
Theorem C48_detect (E : Type) (o : order) (h : rheap) (rs : list (option resource)) :
  heap_ok h -> Forall (in_heap h) rs ->
  exists h' r, @detect_all E o h None (map inr rs) 0 = (h', inr r, length rs) /\
    type_of r = first_type rs /\ (forall k, lookup h' r k = first_label h rs k) /\
    forall x k, in_heap h x -> lookup h' x k = lookup h x k.
Proof.
  intros Hh Hrs. destruct (@detect_all_ok E o rs h None 0 Hh I Hrs) as (h' & r & E1 & T & L & (t & ->)). exists (h ++ t), r.
  split; [exact E1 |]. split; [exact T |]. split; [exact L |]. intros x k Hx. apply lookup_app. exact Hx.
Qed.

(** If one fails, the first error is returned and the detectors after it are not called. *)
Theorem C48_detect_error (E : Type) (o : order) (h : rheap) (rs : list (option resource)) (e : E) (after : list (E + option resource)) :
  exists h', detect_all o h None (map inr rs ++ inl e :: after) 0 = (h', inl e, S (length rs)).
Proof.
  enough (H : forall rs h acc n, exists h', detect_all o h acc (map inr rs ++ inl e :: after) n = (h', inl e, S (n + length rs))) by (apply (H rs h None 0)).
  clear. induction rs as [|x rs IH]; intros h acc n; cbn [map app detect_all length].
  - exists h. rewrite Nat.add_0_r. reflexivity.
  - destruct (merge o h acc x) as [h1 a1]. destruct (IH h1 a1 (S n)) as (h' & ->). exists h'. f_equal. lia.
Qed.

Example C48_example :
  let h := [[(bs "a", bs "1"); (bs "b", bs "2")]; [(bs "b", bs "3"); (bs "c", bs "4")]] in
  let rs := [Some (MkRes [] (Some 0)); None; Some (MkRes (bs "t") (Some 1)); Some (MkRes (bs "w") None)] in
  heap_ok h /\ Forall (in_heap h) rs /\ first_type rs = bs "t" /\ first_label h rs (bs "b") = Some (bs "2") /\ first_label h rs (bs "c") = Some (bs "4").
Proof.
  cbv zeta. split; [repeat constructor; cbn; intuition discriminate |]. split; [repeat constructor |]. split; [reflexivity |]. split; reflexivity.
Qed.

(** ** C49 *)

Lemma alnum_model u r : letter u r || digit u r = alnum u r.
Proof.
  unfold letter, digit, alnum. destruct (r <? 128)%N eqn:E.
  - assert (H : forallb (fun r => Bool.eqb (((65 <=? r) && (r <=? 90) || (97 <=? r) && (r <=? 122)) || ((48 <=? r) && (r <=? 57)))%N
        (existsb (N.eqb r) (ascii_letters ++ ascii_digits))) (map N.of_nat (seq 0 128)) = true) by (vm_compute; reflexivity).
    rewrite forallb_forall in H. apply Bool.eqb_prop, H. apply in_map_iff. exists (N.to_nat r). split; [lia|]. apply in_seq. lia.
  - change rune_error with 65533%N. destruct (r =? 65533)%N, (u_letter u r), (u_digit u r); reflexivity.
Qed.

Lemma ascii_letter r : In r ascii_letters <-> ((65 <= r <= 90) \/ (97 <= r <= 122))%N.
Proof.
  split.
  - assert (H : forallb (fun r => ((65 <=? r) && (r <=? 90) || (97 <=? r) && (r <=? 122))%N) ascii_letters = true) by (vm_compute; reflexivity).
    rewrite forallb_forall in H. intros Hr. apply H in Hr. lia.
  - intros Hr. assert (H : forallb (fun r => negb ((65 <=? r) && (r <=? 90) || (97 <=? r) && (r <=? 122))%N || existsb (N.eqb r) ascii_letters) (map N.of_nat (seq 0 128)) = true)
      by (vm_compute; reflexivity).
    rewrite forallb_forall in H. specialize (H r).
    assert (Hs : In r (map N.of_nat (seq 0 128))) by (apply in_map_iff; exists (N.to_nat r); split; [lia|apply in_seq; lia]). specialize (H Hs). clear Hs.
    destruct ((65 <=? r) && (r <=? 90) || (97 <=? r) && (r <=? 122))%N eqn:E in H; [|lia]. cbn [negb orb] in H. clear E.
    apply existsb_exists in H. destruct H as (x & Hx & E). apply N.eqb_eq in E. now subst x.
Qed.

Lemma sanitize_rune_valid u s r w : decode_rune s = (r, w) -> s <> [] ->
  let r' := sanitize_rune u r in
  valid_rune r' = true /\ (alnum u r' = true \/ r' = 95%N) /\ length (encode_rune r') <= w.
Proof.
  intros D Hs. cbv zeta. unfold sanitize_rune. destruct (decode_width _ _ _ D) as (W1 & W2 & _). specialize (W2 Hs).
  destruct (letter u r || digit u r) eqn:E.
  - assert (Hd : decodes s r w).
    { split; [exact D |]. split; [exact Hs |]. intros -> Hw1.
      unfold letter, digit in E. cbn in E. discriminate. }
    destruct (encode_decode _ _ _ Hd) as [Ee V]. split; [exact V |]. split; [left; now rewrite <- alnum_model |]. rewrite Ee, firstn_length. lia.
  - split; [reflexivity |]. split; [auto |]. change (length (encode_rune 95)) with 1. lia.
Qed.

Lemma encode_nonempty r : encode_rune r <> [].
Proof. unfold encode_rune. destruct (valid_rune r); [| discriminate]. destruct (r <? 128)%N; [discriminate |]. destruct (r <? 2048)%N; [discriminate |]. destruct (r <? 65536)%N; discriminate. Qed.

Lemma map_runes_spec u : forall n s, length s <= n ->
  word u (map_runes (sanitize_rune u) n s) /\ length (map_runes (sanitize_rune u) n s) <= length s /\ (s <> [] -> map_runes (sanitize_rune u) n s <> []).
Proof.
  induction n as [|n IH]; intros s Hl; destruct s as [|c s]; cbn [map_runes]; try (split; [constructor |]; split; [cbn; lia | congruence]); [cbn in Hl; lia |].
  destruct (decode_rune (c :: s)) as [r w] eqn:D. destruct (decode_width _ _ _ D) as (W1 & W2 & _). specialize (W2 ltac:(discriminate)).
  destruct (sanitize_rune_valid u (c :: s) r w D ltac:(discriminate)) as (V & L & Hw). cbv zeta in *.
  destruct (IH (skipn w (c :: s))) as (I1 & I2 & _); [rewrite skipn_length; cbn [length] in *; lia |].
  split; [| split].
  - constructor; assumption.
  - rewrite app_length. rewrite skipn_length in I2. lia.
  - intros _ E. apply app_eq_nil in E. destruct E as [E _]. exact (encode_nonempty _ E).
Qed.

Lemma word_key u s : word u s -> word u (bs "key" ++ s) /\ word u (bs "key_" ++ s).
Proof.
  intros H.
  assert (L : forall r t, (97 <= r <= 122)%N -> word u t -> word u (n2b r :: t)).
  { intros r t Hr Ht. change (n2b r :: t) with ([n2b r] ++ t). rewrite <- encode_ascii by lia. constructor; [unfold valid_rune; lia | | exact Ht].
    left. rewrite <- alnum_model. unfold letter, digit. replace (r <? 128)%N with true by lia. lia. }
  split.
  - apply (L 107%N), (L 101%N), (L 121%N), H; lia.
  - apply (L 107%N), (L 101%N), (L 121%N); [lia | lia | lia |]. change (word u (encode_rune 95 ++ s)). constructor; [reflexivity | auto | exact H].
Qed.

Lemma sanitize_shape u s : s <> [] ->
  exists t, word u t /\ t <> [] /\ length t <= 100 /\ length t <= length s /\
    t = map_runes (sanitize_rune u) (length (firstn 100 s)) (firstn 100 s) /\
    sanitize u s = match t with c :: _ => if is_digit c then bs "key_" ++ t else if (b2n c =? 95)%N then bs "key" ++ t else t | [] => t end.
Proof.
  intros Hs. destruct s as [|c s]; [congruence |]. unfold sanitize. unfold label_key_size_limit.
  set (s1 := if 100 <? length (c :: s) then firstn 100 (c :: s) else c :: s).
  assert (E1 : s1 = firstn 100 (c :: s)).
  { unfold s1. destruct (100 <? length (c :: s)) eqn:E; [reflexivity |]. rewrite firstn_all2 by lia. reflexivity. }
  rewrite E1. destruct (map_runes_spec u (length (firstn 100 (c :: s))) (firstn 100 (c :: s)) (le_n _)) as (M1 & M2 & M3).
  exists (map_runes (sanitize_rune u) (length (firstn 100 (c :: s))) (firstn 100 (c :: s))).
  split; [exact M1 |]. split; [apply M3; discriminate |]. rewrite firstn_length in M2 at 2. split; [lia |]. split; [lia |]. split; [reflexivity |].
  destruct (map_runes (sanitize_rune u) (length (firstn 100 (c :: s))) (firstn 100 (c :: s))) as [|d t]; [reflexivity |].
  destruct (is_digit d); [reflexivity |]. destruct (b2n d =? 95)%N; reflexivity.
Qed.

(** At most four bytes longer than the first 100 bytes of the name. *)
Theorem C49_length (u : unicode) (s : bytes) : length (sanitize u s) <= 4 + length (firstn 100 s).
Proof.
  destruct (list_eq_dec Byte.byte_eq_dec s []) as [-> | Hs]; [cbn; lia |]. destruct (sanitize_shape u s Hs) as (t & _ & _ & L1 & L2 & _ & ->).
  rewrite firstn_length. destruct t as [|c t]; [cbn; lia |]. destruct (is_digit c); [rewrite app_length; change (length (bs "key_")) with 4; lia |].
  destruct (b2n c =? 95)%N; [rewrite app_length; change (length (bs "key")) with 3; lia | lia].
Qed.

(** Only letters, digits and underscores. *)
Theorem C49_alphabet (u : unicode) (s : bytes) : word u (sanitize u s).
Proof.
  destruct (list_eq_dec Byte.byte_eq_dec s []) as [-> | Hs]; [constructor |]. destruct (sanitize_shape u s Hs) as (t & W & _ & _ & _ & _ & ->).
  destruct t as [|c t]; [exact W |]. destruct (word_key u _ W). destruct (is_digit c); [assumption |]. destruct (b2n c =? 95)%N; assumption.
Qed.

(** The result starts neither with an ASCII digit nor with an underscore, and is empty
    only for the empty name. *)
Theorem C49_first (u : unicode) (s : bytes) : s <> [] ->
  exists c t, sanitize u s = c :: t /\ ~ (48 <= b2n c <= 57)%N /\ b2n c <> 95%N.
Proof.
  intros Hs. destruct (sanitize_shape u s Hs) as (t & _ & Hn & _ & _ & _ & ->). destruct t as [|c t]; [congruence |].
  destruct (is_digit c) eqn:E; [| destruct (b2n c =? 95)%N eqn:E2].
  - exists (n2b 107). eexists. split; [reflexivity |]. rewrite b2n_n2b_small; lia.
  - exists (n2b 107). eexists. split; [reflexivity |]. rewrite b2n_n2b_small; lia.
  - exists c, t. split; [reflexivity |]. unfold is_digit in E. lia.
Qed.

Lemma map_runes_cons f n r s : valid_rune r = true -> length (encode_rune r ++ s) <= n ->
  exists n', length s <= n' /\ map_runes f n (encode_rune r ++ s) = encode_rune (f r) ++ map_runes f n' s.
Proof.
  intros V Hl. pose proof (encode_nonempty r) as Hne. pose proof (decode_encode r s V) as D.
  destruct n as [|n]; [rewrite app_length in Hl; destruct (encode_rune r); [congruence | cbn in Hl; lia] |].
  exists n. rewrite app_length in Hl. split; [destruct (encode_rune r); [congruence | cbn [length] in Hl; lia] |].
  cbn [map_runes]. rewrite D. rewrite skipn_app_exact. destruct (encode_rune r ++ s) eqn:E; [apply app_eq_nil in E; tauto | reflexivity].
Qed.

Lemma map_runes_list f : forall rs n, Forall (fun r => valid_rune r = true) rs -> length (flat_map encode_rune rs) <= n ->
  map_runes f n (flat_map encode_rune rs) = flat_map (fun r => encode_rune (f r)) rs.
Proof.
  induction rs as [|r rs IH]; intros n V Hl; cbn [flat_map]; [destruct n; reflexivity |]. inversion V; subst. cbn [flat_map] in Hl.
  destruct (map_runes_cons f n r (flat_map encode_rune rs)) as (n' & Hn' & ->); [assumption | exact Hl |]. rewrite IH by assumption. reflexivity.
Qed.

(** Rune by rune: a name of at most 100 bytes whose first rune is an ASCII letter keeps its
    letters and digits, and everything else becomes an underscore. *)
Theorem C49_runes (u : unicode) (r0 : rune) (rs : list rune) :
  Forall (fun r => valid_rune r = true) (r0 :: rs) -> In r0 ascii_letters ->
  length (flat_map encode_rune (r0 :: rs)) <= 100 ->
  sanitize u (flat_map encode_rune (r0 :: rs)) =
    flat_map (fun r => encode_rune (if alnum u r then r else 95%N)) (r0 :: rs).
Proof.
  intros V Hlet Hl. apply ascii_letter in Hlet. assert (H0 : (r0 < 128)%N) by lia.
  assert (L : letter u r0 = true) by (unfold letter; replace (r0 <? 128)%N with true by lia; lia).
  rewrite (flat_map_ext (fun r => encode_rune (if alnum u r then r else 95%N)) (fun r => encode_rune (sanitize_rune u r))) by (intros r; unfold sanitize_rune; now rewrite alnum_model).
  set (s := flat_map encode_rune (r0 :: rs)) in *.
  assert (Hs : s <> []) by (unfold s; cbn [flat_map]; intros E; apply app_eq_nil in E; exact (encode_nonempty r0 (proj1 E))).
  destruct (sanitize_shape u s Hs) as (t & _ & _ & _ & _ & Et & ->). rewrite firstn_all2 in Et by exact Hl.
  unfold s in Et. rewrite map_runes_list in Et by (auto; lia). cbn [flat_map] in *. replace (sanitize_rune u r0) with r0 in * by (unfold sanitize_rune; now rewrite L).
  rewrite encode_ascii in Et by exact H0. rewrite encode_ascii by exact H0. cbn [app] in *. rewrite Et. unfold letter in L. replace (r0 <? 128)%N with true in L by lia.
  unfold is_digit. rewrite b2n_n2b_small by lia. replace ((48 <=? r0) && (r0 <=? 57))%N with false by lia. replace (r0 =? 95)%N with false by lia. reflexivity.
Qed.

Lemma word_fix u : forall s, word u s -> forall n, length s <= n -> map_runes (sanitize_rune u) n s = s.
Proof.
  induction 1 as [|r s V L W IH]; intros n Hl; [destruct n; reflexivity |].
  destruct (map_runes_cons (sanitize_rune u) n r s V Hl) as (n' & Hn' & ->). rewrite IH by exact Hn'. f_equal. f_equal. unfold sanitize_rune.
  rewrite alnum_model. destruct L as [-> | ->]; [reflexivity |]. destruct (alnum u 95); reflexivity.
Qed.

(** A name of at most 100 bytes that is fine already is not changed. *)
Theorem C49_unchanged (u : unicode) (c : byte) (t : bytes) :
  word u (c :: t) -> length (c :: t) <= 100 -> ~ (48 <= b2n c <= 57)%N -> b2n c <> 95%N -> sanitize u (c :: t) = c :: t.
Proof.
  intros W Hl Hd Hu. destruct (sanitize_shape u (c :: t) ltac:(discriminate)) as (x & _ & _ & _ & _ & Ex & ->).
  rewrite firstn_all2 in Ex by exact Hl. rewrite word_fix in Ex by (auto; lia). subst x. unfold is_digit.
  replace ((48 <=? b2n c) && (b2n c <=? 57))%N with false by lia. replace (b2n c =? 95)%N with false by lia. reflexivity.
Qed.

(** Sanitising a sanitised name of at most 100 bytes changes nothing. *)
Theorem C49_idempotent (u : unicode) (s : bytes) : length (sanitize u s) <= 100 -> sanitize u (sanitize u s) = sanitize u s.
Proof.
  intros Hl. destruct (list_eq_dec Byte.byte_eq_dec s []) as [-> | Hs]; [reflexivity |]. pose proof (C49_alphabet u s) as W.
  destruct (C49_first u s Hs) as (c & t & E & H1 & H2). rewrite E in *. apply C49_unchanged; assumption.
Qed.

(** Longer results are cut again. *)
Theorem C49_idempotent_refuted : let s := repeat (n2b 49) 100 in
  length (sanitize no_unicode s) = 104 /\ length (sanitize no_unicode (sanitize no_unicode s)) = 100.
Proof. cbv zeta. split; vm_compute; reflexivity. Qed.

(** A digit that is not ASCII (here U+0660, ARABIC-INDIC DIGIT ZERO) at the start is kept
    without prefix. *)
Theorem C49_digit_first_refuted : exists u, u_digit u 1632 = true /\ sanitize u (encode_rune 1632) = encode_rune 1632.
Proof. exists (MkU (fun _ => false) (fun r => (r =? 1632)%N) (fun _ => true)). split; vm_compute; reflexivity. Qed.

Example C49_example : sanitize no_unicode (bs "1a/b c") = bs "key_1a_b_c" /\ sanitize no_unicode (bs "/x") = bs "key_x" /\
  sanitize no_unicode (bs "name") = bs "name" /\ sanitize no_unicode (bs "a" ++ encode_rune 233 ++ [n2b 255]) = bs "a__".
Proof. split; [| split; [| split]]; vm_compute; reflexivity. Qed.

Print Assumptions C47_roundtrip.
Print Assumptions C47_plain_roundtrip.
Print Assumptions C47_quote_roundtrip.
Print Assumptions C47_no_panic.
Print Assumptions C48_merge.
Print Assumptions C48_associative.
Print Assumptions C48_detect.
Print Assumptions C48_detect_error.
Print Assumptions C49_length.
Print Assumptions C49_alphabet.
Print Assumptions C49_first.
Print Assumptions C49_runes.
Print Assumptions C49_idempotent.
