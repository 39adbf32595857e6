(** Lemmas about the tracestate model. *)

From Coq Require Import List NArith Bool Arith Lia.
From Coq Require Import ZifyBool ZifyNat ZifyN.
From Verif Require Import Base Text TracestateModel TracestateSpec.
Import ListNotations.
Open Scope N_scope.

(** ** Validation *)

Lemma re_lower_iff c : re_lower c = true <-> is_lower c.
Proof. unfold re_lower, is_lower. lia. Qed.

Lemma re_keychar_iff c : re_keychar c = true <-> key_char c.
Proof. unfold re_keychar, key_char, re_lower, is_lower. simpl. lia. Qed.

Lemma forallb_iff {A} (f : A -> bool) (P : A -> Prop) l :
  (forall x, f x = true <-> P x) -> forallb f l = true <-> Forall P l.
Proof.
  intros H. rewrite forallb_forall, Forall_forall. split; intros G x Hx; apply H; auto.
Qed.

Lemma re_segment_iff n s : re_segment n s = true <-> key_part (S n) s.
Proof.
  unfold re_segment, key_part. destruct s as [|c r].
  - split; [discriminate|]. intros (c & r & H & _). discriminate.
  - rewrite !andb_true_iff, re_lower_iff, (forallb_iff _ key_char) by apply re_keychar_iff.
    rewrite Nat.leb_le. split.
    + intros [[H1 H2] H3]. exists c, r. simpl. split; [reflexivity|]. split; [exact H1|]. split; [exact H2|lia].
    + intros (c' & r' & [= <- <-] & H1 & H2 & H3). simpl in H3. split; [split|]; auto. lia.
Qed.

Lemma at_not_keychar : ~ key_char at_sign /\ ~ is_lower at_sign.
Proof.
  unfold key_char, is_lower, at_sign. rewrite b2n_n2b_small by lia. simpl. lia.
Qed.

Lemma key_part_no_at n s : key_part n s -> ~ In at_sign s.
Proof.
  destruct at_not_keychar as [H1 H2].
  intros (c & r & -> & Hc & Hr & _) [E|Hin].
  - rewrite <- E in H2. auto.
  - rewrite Forall_forall in Hr. apply Hr in Hin. auto.
Qed.

Lemma skipn_sep {A} (a : list A) c b : skipn (S (length a)) (a ++ c :: b) = b.
Proof. induction a; simpl; auto. Qed.

Lemma re_vendor_iff s : re_vendor s = true <->
  exists t v, s = t ++ at_sign :: v /\ key_part 241 t /\ key_part 14 v.
Proof.
  unfold re_vendor. split.
  - destruct (index_byte at_sign s) as [i|] eqn:E; [|discriminate].
    rewrite andb_true_iff, !re_segment_iff. intros [H1 H2].
    apply index_byte_some in E. destruct E as (a & b & -> & <- & _).
    rewrite firstn_app_exact in H1.
    rewrite skipn_sep in H2. exists a, b. auto.
  - intros (t & v & -> & Ht & Hv).
    rewrite index_byte_app by (eapply key_part_no_at; eauto).
    rewrite andb_true_iff, !re_segment_iff.
    rewrite firstn_app_exact, skipn_sep. auto.
Qed.

Lemma key_valid_iff k : key_valid k = true <-> key_ok k.
Proof.
  unfold key_valid, key_ok. rewrite orb_true_iff, re_segment_iff, re_vendor_iff.
  reflexivity.
Qed.

Lemma re_valchar_iff c : re_valchar c = true <-> value_char c.
Proof. unfold re_valchar, re_valchar_ns, value_char. lia. Qed.

Lemma re_valchar_ns_iff c : re_valchar_ns c = true <-> value_char c /\ b2n c <> 32.
Proof. unfold re_valchar_ns, value_char. lia. Qed.

Lemma value_valid_iff v : value_valid v = true <-> value_ok v.
Proof.
  unfold value_valid, value_ok. destruct (rev v) as [|l r] eqn:E.
  - apply (f_equal (@rev _)) in E. rewrite rev_involutive in E. subst v. simpl.
    split; [discriminate|lia].
  - apply (f_equal (@rev _)) in E. rewrite rev_involutive in E. cbn [rev] in E. subst v.
    rewrite !andb_true_iff, re_valchar_ns_iff, (forallb_iff _ value_char) by apply re_valchar_iff.
    rewrite Nat.leb_le, app_length, rev_length. simpl length.
    rewrite Forall_app. split.
    + intros [[[H1 H2] H3] H4]. split; [lia|]. split.
      * split; [now apply Forall_rev|]. now constructor.
      * intros v' c Hv. apply app_inj_tail in Hv. destruct Hv as [_ <-]. auto.
    + intros [H1 [[H2 H3] H4]]. inversion H3; subst.
      apply Forall_rev in H2. rewrite rev_involutive in H2.
      split; [split; [split|]|]; auto; try lia.
      eapply H4. reflexivity.
Qed.

Lemma entry_valid_iff e : entry_valid e = true <-> entry_ok e.
Proof.
  unfold entry_valid, entry_ok. now rewrite andb_true_iff, key_valid_iff, value_valid_iff.
Qed.

Lemma first_invalid_none es : first_invalid es = None <-> Forall entry_ok es.
Proof.
  induction es as [|e es IH]; simpl.
  - split; constructor.
  - destruct (entry_valid e) eqn:E.
    + apply entry_valid_iff in E. rewrite IH. split; intros H; [now constructor|now inversion H].
    + split; [discriminate|]. intros H. inversion H; subst.
      apply entry_valid_iff in H2. congruence.
Qed.

Lemma existsb_bytes k l : existsb (bytes_eqb k) l = true <-> In k l.
Proof.
  rewrite existsb_exists. split.
  - intros (x & Hin & H). destruct (bytes_eqb_spec k x); [congruence|discriminate].
  - intros H. exists k. split; auto. apply bytes_eqb_refl.
Qed.

Lemma find_duplicate_none es : forall seen,
  find_duplicate seen es = None <->
  NoDup (map e_key es) /\ (forall k, In k (map e_key es) -> ~ In k seen).
Proof.
  induction es as [|e es IH]; intros seen; simpl.
  - split; [|reflexivity]. intros _. split; [constructor|]. tauto.
  - destruct (existsb (bytes_eqb (e_key e)) seen) eqn:E.
    + apply existsb_bytes in E. split; [discriminate|].
      intros [_ H]. exfalso. apply (H (e_key e)); auto.
    + assert (Hn : ~ In (e_key e) seen) by (rewrite <- existsb_bytes; congruence).
      rewrite IH. split.
      * intros [H1 H2]. split.
        -- constructor; auto. intros Hin. apply (H2 _ Hin). now left.
        -- intros k [<-|Hin]; auto. intros Hs. apply (H2 _ Hin). now right.
      * intros [H1 H2]. inversion H1; subst. split; auto.
        intros k Hin [<-|Hs]; auto. apply (H2 k); auto.
Qed.

Lemma find_duplicate_nil es : find_duplicate [] es = None <-> NoDup (map e_key es).
Proof. rewrite find_duplicate_none. split; [tauto|]. intros H. split; auto. Qed.

(** ** Removal *)

Definition drop_keys (es p : list entry) : list entry :=
  filter (fun e => negb (existsb (bytes_eqb (e_key e)) (map e_key es))) p.

Lemma ts_remove_not_in k p : ~ In k (map e_key p) -> ts_remove k p = p.
Proof.
  induction p as [|e p IH]; simpl; intros H; [reflexivity|].
  destruct (bytes_eqb_spec (e_key e) k); [exfalso; auto|]. rewrite IH; auto.
Qed.

Lemma ts_remove_filter k p :
  NoDup (map e_key p) ->
  ts_remove k p = filter (fun e => negb (bytes_eqb (e_key e) k)) p.
Proof.
  induction p as [|e p IH]; simpl; intros H; [reflexivity|].
  inversion H; subst. destruct (bytes_eqb_spec (e_key e) k) as [Ek|Hne]; simpl.
  - subst k. rewrite <- IH by assumption. now rewrite ts_remove_not_in.
  - now rewrite IH.
Qed.

Lemma NoDup_filter_keys f p : NoDup (map e_key p) -> NoDup (map e_key (filter f p)).
Proof.
  induction p as [|e p IH]; simpl; intros H; [constructor|].
  inversion H; subst. destruct (f e); simpl; auto.
  constructor; auto. intros Hin. apply H2. apply in_map_iff in Hin.
  destruct Hin as (x & <- & Hx). apply filter_In in Hx. apply in_map. tauto.
Qed.

Lemma filter_filter {A} (f g : A -> bool) l :
  filter f (filter g l) = filter (fun x => g x && f x) l.
Proof.
  induction l as [|x l IH]; simpl; [reflexivity|].
  destruct (g x); simpl; [destruct (f x)|]; now rewrite IH.
Qed.

Lemma bytes_eqb_sym a b : bytes_eqb a b = bytes_eqb b a.
Proof. destruct (bytes_eqb_spec a b), (bytes_eqb_spec b a); congruence. Qed.

Lemma ts_remove_fold es : forall p,
  NoDup (map e_key p) ->
  fold_left (fun t e => ts_remove (e_key e) t) es p = drop_keys es p.
Proof.
  induction es as [|e es IH]; intros p H; simpl.
  - unfold drop_keys. simpl. clear H.
    induction p as [|x p IHp]; [reflexivity|]. cbn. f_equal. exact IHp.
  - rewrite ts_remove_filter by assumption.
    rewrite IH by now apply NoDup_filter_keys.
    unfold drop_keys. rewrite filter_filter. apply filter_ext. intros x. simpl.
    destruct (bytes_eqb (e_key x) (e_key e)); reflexivity.
Qed.

Lemma keeps_drop_keys es p : keeps es p (drop_keys es p).
Proof.
  unfold drop_keys. induction p as [|e p IH]; simpl; [constructor|].
  destruct (existsb (bytes_eqb (e_key e)) (map e_key es)) eqn:E; simpl.
  - apply existsb_bytes in E. now apply keeps_drop.
  - apply keeps_keep; auto. unfold overridden. rewrite <- existsb_bytes. congruence.
Qed.

Lemma keeps_fun es p r r' : keeps es p r -> keeps es p r' -> r = r'.
Proof.
  intros H; revert r'. induction H; intros r' H'; inversion H'; subst; auto; try tauto.
  f_equal; auto.
Qed.

Lemma keeps_sub es p r : keeps es p r -> forall x, In x r -> In x p /\ ~ overridden es x.
Proof.
  induction 1; simpl; [tauto| |].
  - intros x Hx. apply IHkeeps in Hx. tauto.
  - intros x [->|Hx]; auto. apply IHkeeps in Hx. tauto.
Qed.

Lemma keeps_nodup es p r : keeps es p r -> NoDup (map e_key p) -> NoDup (map e_key r).
Proof.
  induction 1; simpl; intros Hn; inversion Hn; subst; auto.
  constructor; auto. rewrite in_map_iff. intros (x & Ex & Hx).
  apply H3. rewrite <- Ex. apply in_map. eapply keeps_sub; eauto.
Qed.

Lemma merged_nodup es p r :
  keeps es p r -> NoDup (map e_key p) -> NoDup (map e_key es) -> NoDup (map e_key (es ++ r)).
Proof.
  intros Hk Hp He. rewrite map_app. pose proof (keeps_nodup _ _ _ Hk Hp) as Hr.
  pose proof (keeps_sub _ _ _ Hk) as Hs. unfold overridden in Hs.
  revert He Hs. generalize (map e_key es) as ks. clear Hk.
  induction ks as [|k ks IH]; simpl; intros He Hs; auto.
  inversion He; subst. constructor.
  - rewrite in_app_iff. intros [Hin|Hin]; auto.
    apply in_map_iff in Hin. destruct Hin as (x & <- & Hx).
    destruct (Hs x Hx) as [_ Hno]. apply Hno. now left.
  - apply IH; auto. intros x Hx. destruct (Hs x Hx). split; auto.
Qed.

(** ** Value-level New *)

Definition base_of (parent : option (list entry)) : list entry := ts_entries parent.

Lemma ts_new_unfold parent es :
  (parent <> None \/ es <> []) ->
  ts_new parent es =
    match first_invalid es with
    | Some e => Err (EInvalid e)
    | None =>
        match find_duplicate [] es with
        | Some k => Err (EDuplicate k)
        | None => match ts_add (base_of parent) es with
                  | Ok r => Ok (Some r) | Err e => Err e | Panic => Panic end
        end
    end.
Proof.
  intros H. unfold ts_new, base_of, ts_entries. destruct parent, es; try reflexivity.
  destruct H; congruence.
Qed.

Lemma ts_new_ok_iff parent es r :
  NoDup (map e_key (ts_entries parent)) ->
  (ts_new parent es = Ok r <->
   (parent = None /\ es = [] /\ r = None) \/
   ((parent <> None \/ es <> []) /\
    Forall entry_ok es /\ NoDup (map e_key es) /\
    exists kept, keeps es (ts_entries parent) kept /\
      (length (es ++ kept) <= 32)%nat /\ r = Some (es ++ kept))).
Proof.
  intros Hp.
  assert (Hdec : (parent = None /\ es = []) \/ (parent <> None \/ es <> [])).
  { destruct parent; [right; left; discriminate|].
    destruct es; [left; auto|right; right; discriminate]. }
  destruct Hdec as [[-> ->]|Hne].
  - simpl. split.
    + intros [= <-]. left. auto.
    + intros [[_ [_ ->]]|[[H|H] _]]; congruence.
  - rewrite ts_new_unfold by assumption. unfold base_of, ts_add.
    rewrite ts_remove_fold by assumption.
    destruct (first_invalid es) as [e|] eqn:E1.
    { split; [discriminate|]. intros [[-> [-> _]]|(_ & HF & _)].
      - destruct Hne; congruence.
      - apply first_invalid_none in HF. congruence. }
    apply first_invalid_none in E1.
    destruct (find_duplicate [] es) as [k|] eqn:E2.
    { split; [discriminate|]. intros [[-> [-> _]]|(_ & _ & HN & _)].
      - destruct Hne; congruence.
      - apply find_duplicate_nil in HN. congruence. }
    apply find_duplicate_nil in E2.
    pose proof (keeps_drop_keys es (ts_entries parent)) as Hk.
    destruct (Nat.ltb_spec max_pairs (length (drop_keys es (ts_entries parent)) + length es)) as [Hl|Hl];
      unfold max_pairs in Hl.
    + split; [discriminate|]. intros [[-> [-> _]]|(_ & _ & _ & kept & Hk' & Hlen & _)].
      * destruct Hne; congruence.
      * rewrite (keeps_fun _ _ _ _ Hk' Hk) in Hlen. rewrite app_length in Hlen. lia.
    + split.
      * intros [= <-]. right. split; [exact Hne|]. split; [exact E1|]. split; [exact E2|].
        exists (drop_keys es (ts_entries parent)). rewrite app_length. repeat split; auto. lia.
      * intros [[-> [-> _]]|(_ & _ & _ & kept & Hk' & Hlen & ->)].
        -- destruct Hne; congruence.
        -- now rewrite (keeps_fun _ _ _ _ Hk' Hk).
Qed.

Lemma ts_new_preserves parent es r :
  ts_ok (ts_entries parent) -> ts_new parent es = Ok r -> ts_ok (ts_entries r).
Proof.
  intros (HF & HN & HL) H. apply ts_new_ok_iff in H; [|exact HN].
  destruct H as [(_ & _ & ->)|(_ & HFe & HNe & kept & Hk & Hl & ->)].
  - simpl. split; [constructor|split; [constructor|simpl; lia]].
  - simpl. split; [|split].
    + apply Forall_app. split; auto. rewrite Forall_forall in *. intros x Hx.
      apply HF. eapply keeps_sub; eauto.
    + now apply merged_nodup with (p := ts_entries parent).
    + exact Hl.
Qed.

Lemma ts_new_no_panic parent es : ts_new parent es <> Panic.
Proof.
  unfold ts_new. destruct parent, es; try discriminate;
  repeat (match goal with |- context [match ?x with _ => _ end] => destruct x eqn:?E end;
          try discriminate);
  unfold ts_add in *;
  repeat match goal with H : (if ?c then _ else _) = Panic |- _ => destruct c; discriminate end.
Qed.

(** ** Heap level *)

Definition valid (h : heap) (s : slice_h) : Prop :=
  (s_len s <= s_cap s)%nat /\ (s_off s + s_cap s <= length (h_array h (s_arr s)))%nat.

Lemma h_read_length h s : valid h s -> length (h_read h s) = s_len s.
Proof.
  intros [H1 H2]. unfold h_read. rewrite firstn_length, skipn_length. lia.
Qed.

Lemma list_update_length {A} (l : list A) i f : length (list_update l i f) = length l.
Proof. revert i; induction l as [|x l IH]; intros [|i]; simpl; auto. Qed.

Lemma h_array_update h a f b :
  h_array (list_update h a f) b =
  if (Nat.eqb a b && Nat.ltb a (length h))%bool then f (h_array h a) else h_array h b.
Proof.
  unfold h_array. revert a b. induction h as [|x h IH]; intros a b.
  - simpl. rewrite andb_false_r. destruct a; reflexivity.
  - destruct a as [|a], b as [|b]; simpl; try reflexivity.
    rewrite IH. destruct (Nat.eqb a b); simpl; [|reflexivity].
    replace (Nat.ltb (S a) (S (length h))) with (Nat.ltb a (length h)) by reflexivity.
    reflexivity.
Qed.

Lemma write_cells_length arr off vs :
  (off + length vs <= length arr)%nat -> length (write_cells arr off vs) = length arr.
Proof.
  intros H. unfold write_cells. rewrite !app_length, firstn_length, skipn_length. lia.
Qed.

Lemma write_cells_nil arr off : write_cells arr off [] = arr.
Proof. unfold write_cells. simpl. rewrite Nat.add_0_r. apply firstn_skipn. Qed.

Lemma nth_error_skipn {A} (l : list A) n i : nth_error (skipn n l) i = nth_error l (n + i).
Proof.
  revert l; induction n as [|n IH]; intros l; simpl; [reflexivity|].
  destruct l; simpl; [now destruct i|apply IH].
Qed.

Lemma nth_error_firstn {A} (l : list A) n i :
  nth_error (firstn n l) i = if Nat.ltb i n then nth_error l i else None.
Proof.
  revert l i; induction n as [|n IH]; intros l i; simpl.
  - destruct i; reflexivity.
  - destruct l as [|x l]; simpl.
    + destruct (Nat.ltb i (S n)); destruct i; reflexivity.
    + destruct i; simpl; [reflexivity|]. rewrite IH. reflexivity.
Qed.

Lemma write_cells_nth arr off vs i :
  (off + length vs <= length arr)%nat ->
  nth_error (write_cells arr off vs) i =
  if (Nat.leb off i && Nat.ltb i (off + length vs))%bool
  then nth_error vs (i - off) else nth_error arr i.
Proof.
  intros H. unfold write_cells.
  destruct (Nat.leb_spec off i) as [H1|H1]; simpl.
  - rewrite nth_error_app2 by (rewrite firstn_length; lia).
    rewrite firstn_length, Nat.min_l by lia.
    destruct (Nat.ltb_spec i (off + length vs)).
    + apply nth_error_app1. lia.
    + rewrite nth_error_app2 by lia. rewrite nth_error_skipn. f_equal. lia.
  - rewrite nth_error_app1 by (rewrite firstn_length; lia).
    rewrite nth_error_firstn. destruct (Nat.ltb_spec i off); [reflexivity|lia].
Qed.

(** Reading back a slice whose next cells were overwritten. *)
Lemma read_after_write arr off len vs :
  (off + len + length vs <= length arr)%nat ->
  firstn (len + length vs) (skipn off (write_cells arr (off + len) vs))
  = firstn len (skipn off arr) ++ vs.
Proof.
  intros H. unfold write_cells.
  rewrite skipn_app, firstn_length, Nat.min_l by lia.
  replace (off - (off + len))%nat with 0%nat by lia. cbn [skipn].
  rewrite skipn_firstn_comm. replace (off + len - off)%nat with len by lia.
  rewrite app_assoc.
  replace (len + length vs)%nat with (length (firstn len (skipn off arr) ++ vs))
    by (rewrite app_length, firstn_length, skipn_length; lia).
  apply firstn_app_exact.
Qed.

(** The effect of append on a valid slice. *)
Lemma h_append_spec spare h s vs h' s' :
  valid h s -> h_append spare h s vs = (h', s') ->
  valid h' s' /\ h_read h' s' = h_read h s ++ vs /\ (length h <= length h')%nat /\
  (forall a, (a < length h)%nat -> a <> s_arr s -> h_array h' a = h_array h a) /\
  (forall a, (a < length h)%nat -> length (h_array h' a) = length (h_array h a)) /\
  (forall i, (s_arr s < length h)%nat ->
     ~ (s_off s + s_len s <= i < s_off s + s_cap s)%nat ->
     nth_error (h_array h' (s_arr s)) i = nth_error (h_array h (s_arr s)) i) /\
  ((s_len s + length vs <= s_cap s)%nat -> s_arr s' = s_arr s /\ length h' = length h) /\
  ((s_cap s < s_len s + length vs)%nat ->
     s_arr s' = length h /\ (forall a, (a < length h)%nat -> h_array h' a = h_array h a)).
Proof.
  intros [Hv1 Hv2] H. unfold h_append in H.
  destruct (Nat.leb_spec (s_len s + length vs) (s_cap s)) as [Hle|Hle].
  - injection H as <- <-. cbn [s_arr s_off s_len s_cap].
    rewrite list_update_length.
    assert (Harr : h_array (list_update h (s_arr s)
        (fun a => write_cells a (s_off s + s_len s) vs)) (s_arr s)
        = write_cells (h_array h (s_arr s)) (s_off s + s_len s) vs).
    { rewrite h_array_update, Nat.eqb_refl. simpl.
      destruct (Nat.ltb_spec (s_arr s) (length h)); [reflexivity|].
      unfold h_array in *. rewrite nth_overflow in * by lia. simpl in Hv2.
      destruct vs; [now rewrite write_cells_nil|simpl in *; lia]. }
    split; [split|split; [|split; [lia|split; [|split; [|split; [|split]]]]]];
      cbn [s_arr s_off s_len s_cap].
    + lia.
    + rewrite Harr, write_cells_length by lia. lia.
    + unfold h_read. cbn [s_arr s_off s_len s_cap]. rewrite Harr.
      apply read_after_write. lia.
    + intros a _ Ha. rewrite h_array_update. destruct (Nat.eqb_spec (s_arr s) a); [congruence|reflexivity].
    + intros a _. rewrite h_array_update.
      destruct (Nat.eqb_spec (s_arr s) a); simpl; [|reflexivity]. subst a.
      destruct (Nat.ltb (s_arr s) (length h)); [|reflexivity].
      apply write_cells_length. lia.
    + intros i _ Hi. rewrite Harr, write_cells_nth by lia.
      destruct (Nat.leb_spec (s_off s + s_len s) i); simpl; [|reflexivity].
      destruct (Nat.ltb_spec i (s_off s + s_len s + length vs)); [lia|reflexivity].
    + auto.
    + intros; lia.
  - unfold h_alloc in H. injection H as <- <-. cbn [s_arr s_off s_len s_cap].
    assert (Hn : h_array (h ++ [(h_read h s ++ vs) ++ repeat zero_entry (spare (length h))]) (length h)
                 = (h_read h s ++ vs) ++ repeat zero_entry (spare (length h))).
    { unfold h_array. rewrite app_nth2 by lia. now rewrite Nat.sub_diag. }
    assert (Ho : forall a, (a < length h)%nat ->
       h_array (h ++ [(h_read h s ++ vs) ++ repeat zero_entry (spare (length h))]) a = h_array h a).
    { intros a Ha. unfold h_array. now rewrite app_nth1. }
    split; [split|split; [|split; [|split; [|split; [|split; [|split]]]]]];
      cbn [s_arr s_off s_len s_cap].
    + lia.
    + rewrite Hn. rewrite (app_length (h_read h s ++ vs)), repeat_length. lia.
    + unfold h_read at 1. cbn [s_arr s_off s_len s_cap]. rewrite Hn. cbn [skipn].
      now rewrite firstn_app_exact.
    + rewrite app_length. lia.
    + auto.
    + intros a Ha. now rewrite Ho.
    + intros i Ha _. now rewrite Ho.
    + lia.
    + auto.
Qed.

Lemma key_index_some k es i :
  key_index k es = Some i ->
  (i < length es)%nat /\ ts_remove k es = firstn i es ++ skipn (S i) es.
Proof.
  revert i. induction es as [|e es IH]; simpl; intros i H; [discriminate|].
  destruct (bytes_eqb (e_key e) k).
  - injection H as <-. simpl. split; [lia|reflexivity].
  - destruct (key_index k es) as [j|]; [|discriminate]. injection H as <-.
    destruct (IH j eq_refl) as [H1 H2]. split; [lia|]. simpl. now rewrite H2.
Qed.

Lemma key_index_none k es : key_index k es = None -> ts_remove k es = es.
Proof.
  induction es as [|e es IH]; simpl; intros H; [reflexivity|].
  destruct (bytes_eqb (e_key e) k); [discriminate|].
  destruct (key_index k es); [discriminate|]. now rewrite IH.
Qed.

Lemma h_remove_spec spare h s k h' s' :
  valid h s -> h_remove spare h s k = (h', s') ->
  valid h' s' /\ s_arr s' = s_arr s /\ length h' = length h /\
  h_read h' s' = ts_remove k (h_read h s) /\
  (forall a, (a < length h)%nat -> a <> s_arr s -> h_array h' a = h_array h a).
Proof.
  intros Hv H. unfold h_remove in H.
  destruct (key_index k (h_read h s)) as [i|] eqn:E.
  - apply key_index_some in E. destruct E as [Hi Hrm].
    rewrite (h_read_length h s Hv) in Hi. destruct Hv as [Hv1 Hv2].
    set (s1 := MkSlice (s_arr s) (s_off s) i (s_cap s)) in *.
    set (s2 := MkSlice (s_arr s) (s_off s + S i) (s_len s - S i) (s_cap s - S i)) in *.
    assert (V1 : valid h s1) by (split; simpl; lia).
    assert (V2 : valid h s2) by (split; simpl; lia).
    pose proof (h_append_spec spare h s1 (h_read h s2) h' s' V1 H)
      as (Hv' & Hr & Hl & Ha & _ & _ & Hin & _).
    rewrite (h_read_length h s2 V2) in Hin. simpl in Hin.
    destruct (Hin ltac:(lia)) as [Harr Hlen].
    split; [exact Hv'|]. split; [exact Harr|]. split; [exact Hlen|]. split; [|exact Ha].
    rewrite Hr, Hrm. unfold h_read. cbn [s_arr s_off s_len s_cap s1 s2].
    rewrite firstn_firstn, Nat.min_l by lia. f_equal.
    rewrite skipn_firstn_comm, skipn_skipn. f_equal.
  - injection H as <- <-. apply key_index_none in E. rewrite E. auto.
Qed.

Lemma h_read_arr h h' s :
  h_array h' (s_arr s) = h_array h (s_arr s) -> h_read h' s = h_read h s.
Proof. intros H. unfold h_read. now rewrite H. Qed.

Lemma skipn_nth_cons {A} (l : list A) i d :
  (i < length l)%nat -> skipn i l = nth i l d :: skipn (S i) l.
Proof.
  revert i; induction l as [|x l IH]; intros [|i] H; simpl in *; try lia; auto.
  apply IH. lia.
Qed.

Lemma h_remove_loop_spec spare : forall n i h ts entries h' ts',
  valid h ts -> valid h entries ->
  (i + n = s_len entries)%nat ->
  s_arr ts <> s_arr entries ->
  h_remove_loop spare n i h ts entries = (h', ts') ->
  valid h' ts' /\ s_arr ts' = s_arr ts /\ length h' = length h /\
  h_read h' ts' = fold_left (fun t e => ts_remove (e_key e) t) (skipn i (h_read h entries)) (h_read h ts) /\
  (forall a, (a < length h)%nat -> a <> s_arr ts -> h_array h' a = h_array h a).
Proof.
  induction n as [|n IH]; intros i h ts entries h' ts' Vt Ve Hi Hne H; simpl in H.
  - injection H as <- <-. rewrite skipn_all2 by (rewrite h_read_length; auto; lia). simpl. auto.
  - set (e := nth i (h_read h entries) zero_entry) in *.
    destruct (h_remove spare h ts (e_key e)) as [h1 ts1] eqn:E.
    apply h_remove_spec in E; [|exact Vt].
    destruct E as (V1 & A1 & L1 & R1 & F1).
    assert (Hsame : h_array h1 (s_arr entries) = h_array h (s_arr entries)).
    { destruct (le_lt_dec (length h) (s_arr entries)).
      - unfold h_array. rewrite !nth_overflow; auto; lia.
      - apply F1; auto. }
    assert (V1e : valid h1 entries).
    { destruct Ve. split; [assumption|]. now rewrite Hsame. }
    apply IH in H; auto; try lia; try congruence.
    destruct H as (V2 & A2 & L2 & R2 & F2).
    split; [exact V2|]. split; [congruence|]. split; [lia|]. split.
    + rewrite R2, R1, (h_read_arr h h1 entries) by exact Hsame.
      rewrite (skipn_nth_cons (h_read h entries) i zero_entry)
        by (rewrite h_read_length; auto; lia).
      reflexivity.
    + intros a Ha Hna. rewrite F2 by (try lia; congruence). apply F1; auto.
Qed.

Lemma fold_remove_nil es : fold_left (fun t e => ts_remove (e_key e) t) es [] = [].
Proof. induction es; simpl; auto. Qed.

Lemma h_remove_loop_nil spare : forall n i h entries,
  h_remove_loop spare n i h nil_slice entries = (h, nil_slice).
Proof. induction n; intros; simpl; auto. Qed.

(** [W a i] is the set of cells New may write: the spare capacity of [entries]. *)
Definition spare_cell (entries : slice_h) (a i : nat) : Prop :=
  a = s_arr entries /\ (s_off entries + s_len entries <= i < s_off entries + s_cap entries)%nat.

Definition same_but (W : nat -> nat -> Prop) (h h' : heap) : Prop :=
  (length h <= length h')%nat /\
  forall a, (a < length h)%nat ->
    length (h_array h' a) = length (h_array h a) /\
    forall i, ~ W a i -> nth_error (h_array h' a) i = nth_error (h_array h a) i.

Lemma same_but_refl W h : same_but W h h.
Proof. split; auto. Qed.

Lemma same_but_trans W h1 h2 h3 : same_but W h1 h2 -> same_but W h2 h3 -> same_but W h1 h3.
Proof.
  intros [L1 F1] [L2 F2]. split; [lia|]. intros a Ha.
  destruct (F1 a Ha) as [E1 G1]. destruct (F2 a ltac:(lia)) as [E2 G2].
  split; [congruence|]. intros i Hi. rewrite G2, G1 by assumption. reflexivity.
Qed.

Lemma same_but_arrays W h h' :
  (length h <= length h')%nat ->
  (forall a, (a < length h)%nat -> h_array h' a = h_array h a) -> same_but W h h'.
Proof. intros L H. split; auto. intros a Ha. rewrite H by auto. auto. Qed.

Lemma nth_error_ext_eq {A} (l l' : list A) :
  (forall i, nth_error l i = nth_error l' i) -> l = l'.
Proof.
  revert l'; induction l as [|x l IH]; intros [|y l'] H; auto.
  - specialize (H 0%nat). discriminate.
  - specialize (H 0%nat). discriminate.
  - pose proof (H 0%nat) as H0. injection H0 as ->. f_equal. apply IH.
    intros i. exact (H (S i)).
Qed.

Lemma h_read_same W h h' s :
  same_but W h h' -> valid h s ->
  (forall i, (s_off s <= i < s_off s + s_len s)%nat -> ~ W (s_arr s) i) ->
  h_read h' s = h_read h s.
Proof.
  intros [L F] [V1 V2] Hd.
  destruct (le_lt_dec (length h) (s_arr s)) as [Hge|Hlt].
  - unfold h_array in V2. rewrite nth_overflow in V2 by lia. simpl in V2.
    unfold h_read. replace (s_len s) with 0%nat by lia. reflexivity.
  - destruct (F _ Hlt) as [El G]. unfold h_read.
    apply nth_error_ext_eq. intros i. rewrite !nth_error_firstn, !nth_error_skipn.
    destruct (Nat.ltb_spec i (s_len s)); [|reflexivity]. apply G. apply Hd. lia.
Qed.

Lemma valid_same W h h' s :
  same_but W h h' -> valid h s -> valid h' s.
Proof.
  intros [L F] [V1 V2]. split; [exact V1|].
  destruct (le_lt_dec (length h) (s_arr s)) as [Hge|Hlt].
  - unfold h_array in V2. rewrite nth_overflow in V2 by lia. simpl in V2. lia.
  - destruct (F _ Hlt) as [El _]. lia.
Qed.

Lemma valid_nil h : valid h nil_slice.
Proof. split; simpl; lia. Qed.

(** Abstraction of results. *)
Definition read_res (h : heap) (r : res ts_error (option slice_h)) : res ts_error (option (list entry)) :=
  match r with
  | Ok (Some s) => Ok (Some (h_read h s))
  | Ok None => Ok None
  | Err e => Err e
  | Panic => Panic
  end.

Lemma h_add_spec spare h ts entries h' r :
  valid h ts -> valid h entries ->
  (ts = nil_slice \/ s_arr ts <> s_arr entries) ->
  h_add spare h ts entries = (h', r) ->
  (match r with
   | Ok s => valid h' s /\ ts_add (h_read h ts) (h_read h entries) = Ok (h_read h' s) /\
             (s_arr s = s_arr entries \/ (length h <= s_arr s)%nat)
   | Err e => ts_add (h_read h ts) (h_read h entries) = Err e
   | Panic => False
   end) /\
  same_but (fun a i => a = s_arr ts /\ s_cap ts <> 0%nat \/ spare_cell entries a i) h h'.
Proof.
  intros Vt Ve Hne H. unfold h_add in H.
  destruct (h_remove_loop spare (s_len entries) 0 h ts entries) as [h1 ts1] eqn:E.
  assert (P : valid h1 ts1 /\ length h1 = length h /\
     h_read h1 ts1 = fold_left (fun t e => ts_remove (e_key e) t) (h_read h entries) (h_read h ts) /\
     h_array h1 (s_arr entries) = h_array h (s_arr entries) /\
     same_but (fun a i => a = s_arr ts /\ s_cap ts <> 0%nat \/ spare_cell entries a i) h h1).
  { destruct Hne as [->|Hne].
    - rewrite h_remove_loop_nil in E. injection E as <- <-.
      split; [exact Vt|]. split; [reflexivity|]. split.
      + change (h_read h nil_slice) with (@nil entry). now rewrite fold_remove_nil.
      + split; [reflexivity|apply same_but_refl].
    - pose proof E as E0. apply h_remove_loop_spec in E; auto.
      destruct E as (V1 & A1 & L1 & R1 & F1).
      assert (Hsame : h_array h1 (s_arr entries) = h_array h (s_arr entries)).
      { destruct (le_lt_dec (length h) (s_arr entries)).
        - unfold h_array. rewrite !nth_overflow; auto; lia.
        - apply F1; auto. }
      split; [exact V1|]. split; [exact L1|]. split; [exact R1|]. split; [exact Hsame|].
      destruct (Nat.eq_dec (s_cap ts) 0) as [Hc|Hc].
      + assert (Hl0 : s_len ts = 0%nat) by (destruct Vt; lia).
        assert (Hr0 : h_read h ts = []) by (unfold h_read; now rewrite Hl0).
        assert (h1 = h) as ->.
        { clear - E0 Hr0.
          revert E0. generalize (s_len entries) as n, 0%nat as i.
          induction n as [|n IH]; intros i E0; simpl in E0; [congruence|].
          unfold h_remove in E0. rewrite Hr0 in E0. simpl in E0. eapply IH; eauto. }
        apply same_but_refl.
      + split; [lia|]. intros a Ha. destruct (Nat.eq_dec a (s_arr ts)) as [->|Hn].
        * split; [|intros i Hi; exfalso; apply Hi; left; auto].
          (* lengths preserved: in-place appends keep array lengths *)
          clear - E0 Vt Ha Ve Hne.
          revert E0 Vt Ha Ve Hne.
          generalize (s_len entries) as n, 0%nat as i. intros n.
          revert h ts. induction n as [|n IH]; intros h ts i E0 Vt Ha Ve Hne; simpl in E0; [congruence|].
          set (e := nth i (h_read h entries) zero_entry) in *.
          destruct (h_remove spare h ts (e_key e)) as [h2 ts2] eqn:E2.
          pose proof E2 as E2'. apply h_remove_spec in E2'; [|exact Vt].
          destruct E2' as (V2 & A2 & L2 & R2 & F2).
          assert (Hsame : h_array h2 (s_arr entries) = h_array h (s_arr entries)).
          { destruct (le_lt_dec (length h) (s_arr entries)).
            - unfold h_array. rewrite !nth_overflow; auto; lia.
            - apply F2; auto. }
          apply IH in E0; auto; try congruence.
          -- rewrite A2 in E0. rewrite E0.
             unfold h_remove in E2. destruct (key_index (e_key e) (h_read h ts)) as [j|] eqn:Ek.
             ++ apply key_index_some in Ek. rewrite h_read_length in Ek by exact Vt.
                destruct Vt as [Vt1 Vt2].
                apply h_append_spec in E2; [|split; simpl; lia].
                destruct E2 as (_ & _ & _ & _ & Hlen & _). apply Hlen. exact Ha.
             ++ congruence.
          -- destruct Ve. split; [assumption|]. now rewrite Hsame.
        * rewrite F1 by auto. auto. }
  destruct P as (V1 & L1 & R1 & Hsame & S1).
  assert (Ve1 : valid h1 entries) by (eapply valid_same; eauto).
  assert (Re : h_read h1 entries = h_read h entries) by (apply h_read_arr; exact Hsame).
  pose proof (h_read_length _ _ V1) as Ll. pose proof (h_read_length _ _ Ve) as Le.
  destruct (Nat.ltb_spec max_pairs (s_len ts1 + s_len entries)) as [Hm|Hm].
  - injection H as <- <-. split; [|exact S1]. unfold ts_add. rewrite <- R1, Ll, Le.
    destruct (Nat.ltb_spec max_pairs (s_len ts1 + s_len entries)); [reflexivity|lia].
  - destruct (h_append spare h1 entries (h_read h1 ts1)) as [h2 s] eqn:Ea.
    injection H as <- <-. apply h_append_spec in Ea; [|exact Ve1].
    destruct Ea as (V2 & R2 & L2 & F2 & G2 & C2 & In2 & Out2).
    split.
    + split; [exact V2|]. split.
      * unfold ts_add. rewrite <- R1, Ll, Le.
        destruct (Nat.ltb_spec max_pairs (s_len ts1 + s_len entries)); [lia|].
        now rewrite R2, Re.
      * destruct (le_lt_dec (s_len entries + length (h_read h1 ts1)) (s_cap entries)).
        -- left. now apply In2.
        -- right. destruct (Out2 ltac:(lia)) as [-> _]. lia.
    + eapply same_but_trans; [exact S1|].
      split; [lia|]. intros a Ha. split; [apply G2; lia|]. intros i Hi.
      destruct (Nat.eq_dec a (s_arr entries)) as [->|Hn].
      * apply C2; [lia|]. intros Hc. apply Hi. right. split; auto.
      * rewrite F2 by auto. reflexivity.
Qed.

(** Main heap-level result: New computes the value-level New and writes nothing
    but the spare capacity of the slice passed for its variadic parameter. *)
Lemma h_new_spec spare h parent entries h' r :
  (forall p, parent = Some p -> valid h p) ->
  valid h entries ->
  (s_arr entries < length h \/ s_cap entries = 0)%nat ->
  h_new spare h parent entries = (h', r) ->
  read_res h' r = ts_new (option_map (h_read h) parent) (h_read h entries) /\
  same_but (spare_cell entries) h h' /\
  (forall s, r = Ok (Some s) ->
     valid h' s /\ (s_arr s < length h' \/ s_cap s = 0)%nat).
Proof.
  intros Vp Ve Hae H. unfold h_new in H.
  assert (Hcase : (parent = None /\ s_len entries = 0%nat) \/ (parent <> None \/ h_read h entries <> [])).
  { destruct parent; [right; left; discriminate|]. destruct (s_len entries) eqn:El; [left; auto|].
    right; right. intros Hr. pose proof (h_read_length _ _ Ve). rewrite Hr in *. simpl in *. lia. }
  destruct Hcase as [[-> El]|Hne].
  { rewrite El in H. injection H as <- <-. simpl.
    pose proof (h_read_length _ _ Ve) as HL. rewrite El in HL.
    destruct (h_read h entries); [|discriminate].
    split; [reflexivity|]. split; [apply same_but_refl|]. discriminate. }
  rewrite ts_new_unfold.
  2:{ destruct parent; simpl; [left; discriminate|]. destruct Hne; [congruence|auto]. }
  assert (H' : match first_invalid (h_read h entries) with
      | Some e => (h, Err (EInvalid e))
      | None =>
          match find_duplicate [] (h_read h entries) with
          | Some k => (h, Err (EDuplicate k))
          | None =>
              let '(h1, ts) :=
                match parent with
                | Some p => match s_len p with
                            | O => (h, nil_slice)
                            | _ => h_append spare h nil_slice (h_read h p)
                            end
                | None => (h, nil_slice)
                end in
              match h_add spare h1 ts entries with
              | (h2, Ok r) => (h2, Ok (Some r))
              | (h2, Err e) => (h2, Err e)
              | (h2, Panic) => (h2, Panic)
              end
          end
      end = (h', r)).
  { destruct parent; [exact H|]. destruct (s_len entries) eqn:El; [|exact H].
    destruct Hne as [?|Hne]; [congruence|]. exfalso. apply Hne.
    pose proof (h_read_length _ _ Ve). destruct (h_read h entries); auto. simpl in *; lia. }
  clear H. rename H' into H.
  destruct (first_invalid (h_read h entries)) as [e|].
  { injection H as <- <-. split; [reflexivity|]. split; [apply same_but_refl|discriminate]. }
  destruct (find_duplicate [] (h_read h entries)) as [k|].
  { injection H as <- <-. split; [reflexivity|]. split; [apply same_but_refl|discriminate]. }
  destruct (match parent with
            | Some p => match s_len p with
                        | O => (h, nil_slice)
                        | _ => h_append spare h nil_slice (h_read h p)
                        end
            | None => (h, nil_slice)
            end) as [h1 ts] eqn:Ep.
  assert (P : valid h1 ts /\ (ts = nil_slice /\ h1 = h \/ s_arr ts = length h) /\
              (length h <= length h1)%nat /\
              (forall a, (a < length h)%nat -> h_array h1 a = h_array h a) /\
              h_read h1 ts = base_of (option_map (h_read h) parent)).
  { destruct parent as [p|]; simpl.
    - specialize (Vp p eq_refl).
      destruct (s_len p) as [|n] eqn:El.
      + injection Ep as <- <-. split; [apply valid_nil|]. split; [auto|]. split; [lia|].
        split; [auto|]. unfold base_of. simpl.
        pose proof (h_read_length _ _ Vp) as HL. rewrite El in HL.
        destruct (h_read h p); [reflexivity|discriminate].
      + apply h_append_spec in Ep; [|apply valid_nil].
        destruct Ep as (V & R & L & _ & _ & _ & _ & Out).
        assert (Hlen : (s_cap nil_slice < s_len nil_slice + length (h_read h p))%nat).
        { rewrite h_read_length by exact Vp. simpl. lia. }
        destruct (Out Hlen) as [Ha Hf].
        split; [exact V|]. split; [right; exact Ha|]. split; [exact L|]. split; [exact Hf|].
        rewrite R. reflexivity.
    - injection Ep as <- <-. split; [apply valid_nil|]. split; [auto|]. split; [lia|].
      split; [auto|]. reflexivity. }
  destruct P as (V1 & Hts & L1 & F1 & R1).
  assert (S1 : same_but (spare_cell entries) h h1) by (apply same_but_arrays; auto).
  assert (Ve1 : valid h1 entries) by (eapply valid_same; eauto).
  assert (Re1 : h_read h1 entries = h_read h entries).
  { eapply h_read_same; [exact S1|exact Ve|]. intros i Hi [_ Hc]. lia. }
  destruct (h_add spare h1 ts entries) as [h2 ra] eqn:Ea.
  assert (Hts' : ts = nil_slice \/ s_arr ts <> s_arr entries \/ s_cap entries = 0%nat).
  { destruct Hts as [[? _]|Ha]; auto. right. destruct Hae; [left; lia|auto]. }
  assert (Hdisj : ts = nil_slice \/ s_arr ts <> s_arr entries \/ s_cap entries = 0%nat) by exact Hts'.
  (* A capacity-0 entries slice reads as [] wherever it points. *)
  assert (Padd : (match ra with
     | Ok s => valid h2 s /\ ts_add (h_read h1 ts) (h_read h1 entries) = Ok (h_read h2 s) /\
               (s_arr s < length h2 \/ s_cap s = 0)%nat
     | Err e => ts_add (h_read h1 ts) (h_read h1 entries) = Err e
     | Panic => False end) /\
     same_but (fun a i => a = s_arr ts /\ s_cap ts <> 0%nat \/ spare_cell entries a i) h1 h2).
  { destruct Hdisj as [Hd|[Hd|Hd]].
    3:{ (* entries is empty: no removal, append allocates or is empty *)
        assert (El : s_len entries = 0%nat) by (destruct Ve; lia).
        unfold h_add in Ea. rewrite El in Ea. cbn [h_remove_loop] in Ea.
        pose proof (h_read_length _ _ V1) as Ll.
        assert (Rn : h_read h1 entries = []) by (unfold h_read; now rewrite El).
        rewrite Rn. unfold ts_add. cbn [fold_left length]. rewrite Ll.
        destruct (Nat.ltb_spec max_pairs (s_len ts + 0)) as [Hm|Hm].
        - injection Ea as <- <-. split; [reflexivity|apply same_but_refl].
        - destruct (h_append spare h1 entries (h_read h1 ts)) as [h3 s3] eqn:E3.
          injection Ea as <- <-. pose proof E3 as E3'.
          apply h_append_spec in E3; [|exact Ve1].
          destruct E3 as (V3 & R3 & L3 & F3 & G3 & C3 & In3 & Out3).
          split.
          + split; [exact V3|]. split; [now rewrite R3, Rn|].
            destruct (le_lt_dec (s_len entries + length (h_read h1 ts)) (s_cap entries)) as [Hc|Hc].
            * right. unfold h_append in E3'. destruct (Nat.leb_spec (s_len entries + length (h_read h1 ts)) (s_cap entries)); [|lia].
              injection E3' as _ <-. simpl. lia.
            * left. destruct (Out3 Hc) as [Ha3 _].
              unfold h_append in E3'. destruct (Nat.leb_spec (s_len entries + length (h_read h1 ts)) (s_cap entries)); [lia|].
              unfold h_alloc in E3'. injection E3' as <- _. rewrite app_length. simpl. lia.
          + split; [lia|]. intros a Ha. split; [apply G3; lia|]. intros i Hi.
            destruct (Nat.eq_dec a (s_arr entries)) as [->|Hn].
            * apply C3; [lia|]. lia.
            * rewrite F3 by auto. reflexivity. }
    all: assert (Hor : ts = nil_slice \/ s_arr ts <> s_arr entries) by auto;
      pose proof (h_add_spec spare h1 ts entries h2 ra V1 Ve1 Hor Ea) as [Pa Pb];
      split; [|exact Pb];
      destruct ra as [s|e|]; auto;
      destruct Pa as (Pa1 & Pa2 & Pa3); split; [exact Pa1|]; split; [exact Pa2|].
    all: destruct (Nat.eq_dec (s_cap s) 0) as [Hc|Hc]; [right; exact Hc|left].
    all: destruct (le_lt_dec (length h2) (s_arr s)) as [Hge|Hlt]; [|exact Hlt];
         destruct Pa1 as [_ Pv]; unfold h_array in Pv; rewrite nth_overflow in Pv by lia; simpl in Pv; lia. }
  destruct Padd as [Pa Pb].
  assert (S2 : same_but (spare_cell entries) h h2).
  { destruct Pb as [Lb Fb]. split; [lia|]. intros a Ha.
    destruct (Fb a ltac:(lia)) as [Hl Hi]. rewrite F1 in Hl by exact Ha.
    split; [exact Hl|]. intros i Hw. rewrite Hi.
    - now rewrite F1.
    - intros [[-> Hc]|Hs]; auto. destruct Hts as [[-> _]|Hts].
      + apply Hc. reflexivity.
      + lia. }
  rewrite <- R1, <- Re1.
  destruct ra as [s|e|]; [| |tauto]; injection H as <- <-.
  - destruct Pa as (Pa1 & Pa2 & Pa3). rewrite Pa2. simpl. split; [reflexivity|].
    split; [exact S2|]. intros s' [= <-]. auto.
  - rewrite Pa. simpl. split; [reflexivity|]. split; [exact S2|]. discriminate.
Qed.

(** ** Histories of literal calls *)

Lemma h_new_literal_spec spare h parent es h' r :
  (forall p, parent = Some p -> valid h p) ->
  h_new_literal spare h parent es = (h', r) ->
  read_res h' r = ts_new (option_map (h_read h) parent) es /\
  (length h <= length h')%nat /\
  (forall a, (a < length h)%nat -> h_array h' a = h_array h a) /\
  (forall s, r = Ok (Some s) -> valid h' s /\ (s_arr s < length h' \/ s_cap s = 0)%nat).
Proof.
  intros Vp H. unfold h_new_literal in H.
  assert (Hframe : forall h1 h2 s, s_len s = s_cap s -> same_but (spare_cell s) h1 h2 ->
     forall a, (a < length h1)%nat -> h_array h2 a = h_array h1 a).
  { intros h1 h2 s Hc [_ HS] a Ha. destruct (HS a Ha) as [_ Hn].
    apply nth_error_ext_eq. intros i. apply Hn. intros [_ Hr]. lia. }
  destruct es as [|e es].
  - apply h_new_spec in H; auto using valid_nil.
    destruct H as (R & S & V). split; [exact R|]. split; [apply S|]. split; [|exact V].
    eapply Hframe; [|exact S]. reflexivity.
  - unfold h_alloc in H.
    set (s := MkSlice (length h) 0 (length (e :: es)) (length (e :: es) + 0)) in *.
    set (h1 := h ++ [(e :: es) ++ repeat zero_entry 0]) in *.
    assert (Hn : h_array h1 (length h) = e :: es).
    { unfold h_array, h1. rewrite app_nth2 by lia. rewrite Nat.sub_diag. simpl.
      now rewrite app_nil_r. }
    assert (Ho : forall a, (a < length h)%nat -> h_array h1 a = h_array h a).
    { intros a Ha. unfold h_array, h1. now rewrite app_nth1. }
    assert (Hl1 : length h1 = S (length h)) by (unfold h1; rewrite app_length; simpl; lia).
    assert (Vs : valid h1 s).
    { split; unfold s; cbn [s_arr s_off s_len s_cap]; [lia|]. rewrite Hn. simpl. lia. }
    assert (Rs : h_read h1 s = e :: es).
    { unfold h_read, s. cbn [s_arr s_off s_len s_cap]. rewrite Hn. cbn [skipn]. apply firstn_all. }
    assert (SB : same_but (fun _ _ => False) h h1) by (apply same_but_arrays; [lia|exact Ho]).
    apply h_new_spec in H.
    + destruct H as (R & S & V). rewrite Rs in R.
      split.
      * rewrite R. f_equal. destruct parent as [p|]; [|reflexivity]. simpl. f_equal.
        eapply h_read_same; [exact SB|auto|auto].
      * destruct S as [SL SR]. split; [lia|]. split; [|exact V].
        intros a Ha. rewrite <- Ho by exact Ha.
        eapply Hframe with (s := s); [unfold s; simpl; lia| |lia]. split; assumption.
    + intros p Hp. eapply valid_same; [exact SB|auto].
    + exact Vs.
    + left. unfold s. simpl. lia.
Qed.

Definition built_ok (h : heap) (o : option slice_h) : Prop :=
  match o with
  | Some s => valid h s /\ (s_arr s < length h \/ s_cap s = 0)%nat
  | None => True
  end.

Lemma h_run_spec spare cs : forall h built,
  Forall (built_ok h) built ->
  let st := fold_left (h_step spare) cs (h, built) in
  map (option_map (h_read (fst st))) (snd st)
    = fold_left v_step cs (map (option_map (h_read h)) built) /\
  Forall (built_ok (fst st)) (snd st) /\
  (exists more, snd st = built ++ more) /\
  (forall o, In o built -> option_map (h_read (fst st)) o = option_map (h_read h) o).
Proof.
  induction cs as [|[pi es] cs IH]; intros h built Hb.
  - simpl. split; [reflexivity|]. split; [exact Hb|]. split; [exists []; now rewrite app_nil_r|auto].
  - cbn [fold_left].
    set (parent := match pi with Some i => nth i built None | None => None end).
    assert (Hpar : built_ok h parent).
    { unfold parent. destruct pi as [i|]; [|exact I].
      destruct (nth_in_or_default i built None) as [Hin|Hd]; [|now rewrite Hd].
      rewrite Forall_forall in Hb. now apply Hb. }
    destruct (h_new_literal spare h parent es) as [h1 r] eqn:E.
    assert (Hst : h_step spare (h, built) (pi, es) =
       (h1, built ++ [match r with Ok o => o | _ => None end])).
    { unfold h_step. cbn [fst snd]. fold parent. rewrite E. destruct r; reflexivity. }
    rewrite Hst.
    apply h_new_literal_spec in E.
    2:{ intros p Hp. rewrite Hp in Hpar. apply Hpar. }
    destruct E as (R & L & F & V).
    assert (Hkeep : forall o, built_ok h o -> option_map (h_read h1) o = option_map (h_read h) o /\ built_ok h1 o).
    { intros [s|] Ho; [|split; exact Ho || reflexivity]. destruct Ho as [Vs Hs].
      assert (SB : same_but (fun _ _ => False) h h1) by (apply same_but_arrays; auto).
      split.
      - simpl. f_equal. eapply h_read_same; eauto.
      - split; [eapply valid_same; eauto|]. destruct Hs; [left; lia|right; auto]. }
    set (o1 := match r with Ok o => o | _ => None end).
    assert (Ho1 : built_ok h1 o1).
    { unfold o1. destruct r as [[s|]| |]; try exact I. now apply V. }
    assert (Hb1 : Forall (built_ok h1) (built ++ [o1])).
    { apply Forall_app. split; [|now repeat constructor].
      rewrite Forall_forall in *. intros o Ho. now apply Hkeep, Hb. }
    assert (Hmap : map (option_map (h_read h1)) (built ++ [o1]) =
                   v_step (map (option_map (h_read h)) built) (pi, es)).
    { rewrite map_app. cbn [map].
      assert (Hm : map (option_map (h_read h1)) built = map (option_map (h_read h)) built).
      { apply map_ext_in. intros o Ho. rewrite Forall_forall in Hb. now apply Hkeep, Hb. }
      rewrite Hm. unfold v_step. cbn [fst snd].
      replace (match pi with
               | Some i => nth i (map (option_map (h_read h)) built) None
               | None => None end) with (option_map (h_read h) parent).
      2:{ unfold parent. destruct pi as [i|]; [|reflexivity].
          change (@None (list entry)) with (option_map (h_read h) None).
          now rewrite map_nth. }
      rewrite <- R. unfold o1. destruct r as [[s|]| |]; reflexivity. }
    destruct (IH h1 (built ++ [o1]) Hb1) as (IH1 & IH2 & (more & IH3) & IH4).
    split; [|split; [exact IH2|split]].
    + rewrite IH1, Hmap. reflexivity.
    + exists (o1 :: more). rewrite IH3, <- app_assoc. reflexivity.
    + intros o Ho. rewrite IH4 by (apply in_app_iff; auto).
      rewrite Forall_forall in Hb. now apply Hkeep, Hb.
Qed.
