(** Proofs about the data a span records: bounded queues, the LRU map, updates. *)

From Coq Require Import List Arith NArith ZArith Bool Lia Permutation ZifyBool ZifyNat ZifyN.
From Verif Require Import Base GoMap TraceTypes TraceModel SpanStoreModel SpanStoreSpec SpanStoreProofs TracerModel TracerSpec.
Import ListNotations.
Open Scope nat_scope.

(** ** Bounded queues *)

Definition qrel {A} (n : nat) (l : list A) (q : equeue A) : Prop :=
  0 < n /\ eq_items q = lastn n l /\ eq_cap q = Z.of_nat n /\ eq_dropped q = length l - n.

Lemma qrel_new {A} n : (0 < n)%Z -> @qrel A (Z.to_nat n) [] (new_equeue n).
Proof. intros H. unfold qrel, new_equeue, lastn. cbn. repeat split; lia. Qed.

Lemma skipn_snoc {A} k (l : list A) x : k <= length l -> skipn k (l ++ [x]) = skipn k l ++ [x].
Proof. intros H. rewrite skipn_app. replace (k - length l) with 0 by lia. reflexivity. Qed.

Lemma qrel_add {A} n l (q : equeue A) x : qrel n l q -> exists q', eq_add q x = Some q' /\ qrel n (l ++ [x]) q'.
Proof.
  intros (Hn & Hi & Hc & Hd). unfold eq_add.
  assert (Hlen : length (eq_items q) = min n (length l)) by (rewrite Hi; apply lastn_length).
  rewrite Hc.
  destruct (Z.of_nat (length (eq_items q)) =? Z.of_nat n)%Z eqn:E.
  - destruct (eq_items q) as [|y r] eqn:Eq; [simpl in *; lia |].
    eexists; split; [reflexivity |]. unfold qrel. cbn [eq_items eq_cap eq_dropped].
    rewrite app_length. cbn [length] in *. split; [exact Hn |]. split; [| split; [reflexivity | lia]].
    unfold lastn. rewrite app_length. cbn [length].
    replace (length l + 1 - n) with (S (length l - n)) by lia.
    rewrite skipn_snoc by lia. f_equal.
    unfold lastn in Hi. replace (S (length l - n)) with (length l - n + 1) by lia.
    rewrite <- (skipn_skipn l 1 (length l - n)), <- Hi. reflexivity.
  - eexists; split; [reflexivity |]. unfold qrel. cbn [eq_items eq_cap eq_dropped].
    rewrite app_length. cbn [length]. split; [exact Hn |]. split; [| split; [reflexivity | lia]].
    rewrite Hi. rewrite !lastn_all; [reflexivity | rewrite app_length; cbn [length]; lia | lia].
Qed.

Lemma qrel_empty {A} n l (q : equeue A) : qrel n l q -> eq_items q = [] -> l = [].
Proof.
  intros (Hn & Hi & Hc & Hd) He. rewrite He in Hi.
  assert (H : length (lastn n l) = 0) by (rewrite <- Hi; reflexivity). rewrite lastn_length in H.
  apply length_zero_iff_nil. lia.
Qed.

Lemma lastn_map {A B} (f : A -> B) n l : lastn n (map f l) = map f (lastn n l).
Proof. unfold lastn. rewrite map_length. apply skipn_map. Qed.

(** ** Last values and recency *)

Lemma last_snoc {A} (l : list A) x d : last (l ++ [x]) d = x.
Proof. apply last_last. Qed.

Lemma last_val_snoc k l k' v : last_val k (l ++ [(k', v)]) = if bytes_eqb k' k then Some v else last_val k l.
Proof.
  unfold last_val. rewrite flat_map_app. cbn [flat_map fst snd]. rewrite app_nil_r.
  destruct (bytes_eqb k' k); [apply last_snoc | rewrite app_nil_r; reflexivity].
Qed.

Notation without k := (filter (fun x => negb (bytes_eqb x k))).

Lemma recent_snoc l k v : recent (l ++ [(k, v)]) = k :: without k (recent l).
Proof. unfold recent. rewrite fold_left_app. reflexivity. Qed.

Lemma without_in k x l : In x (without k l) <-> In x l /\ x <> k.
Proof.
  rewrite filter_In. destruct (bytes_eqb_spec x k); simpl; intuition congruence.
Qed.

Lemma without_id k l : ~ In k l -> without k l = l.
Proof.
  induction l as [|x r IH]; simpl; intros H; [reflexivity |].
  destruct (bytes_eqb_spec x k) as [-> | Hne]; [exfalso; apply H; auto |].
  simpl. f_equal. apply IH. tauto.
Qed.

Lemma NoDup_filter' {A} (p : A -> bool) l : NoDup l -> NoDup (filter p l).
Proof. apply NoDup_filter. Qed.

Lemma recent_NoDup l : NoDup (recent l).
Proof.
  induction l as [|[k v] l IH] using rev_ind; [constructor |].
  rewrite recent_snoc. constructor; [rewrite without_in; tauto | apply NoDup_filter; exact IH].
Qed.

Lemma without_length k l : NoDup l -> In k l -> S (length (without k l)) = length l.
Proof.
  induction l as [|x r IH]; intros Hnd Hin; [destruct Hin |].
  inversion Hnd as [|? ? Hni Hnd']; subst. simpl.
  destruct (bytes_eqb_spec x k) as [-> | Hne]; simpl.
  - rewrite without_id by auto. reflexivity.
  - destruct Hin as [-> | Hin]; [congruence |]. rewrite IH; auto.
Qed.

Lemma last_val_recent k l : last_val k l <> None <-> In k (recent l).
Proof.
  induction l as [|[k' v] l IH] using rev_ind; [split; [intros H; exfalso; apply H; reflexivity | intros []] |].
  rewrite last_val_snoc, recent_snoc. simpl. rewrite without_in.
  destruct (bytes_eqb_spec k' k) as [-> | Hne]; [split; [auto | congruence] |].
  rewrite IH. intuition congruence.
Qed.

Lemma firstn_without k n l : NoDup l -> In k (firstn n l) -> without k (firstn n l) = firstn (n - 1) (without k l).
Proof.
  revert l. induction n as [|n IH]; intros l Hnd Hin; [destruct Hin |].
  destruct l as [|x r]; [destruct Hin |]. cbn [firstn] in *.
  inversion Hnd as [|? ? Hni Hnd']; subst. cbn [filter].
  destruct (bytes_eqb_spec x k) as [-> | Hne]; cbn [negb].
  - rewrite (without_id k r) by auto. rewrite without_id.
    + f_equal. lia.
    + intros H. apply Hni. rewrite <- (firstn_skipn n r). apply in_or_app. auto.
  - destruct Hin as [-> | Hin]; [congruence |]. rewrite (IH r Hnd' Hin).
    destruct n as [|n]; [destruct Hin |]. replace (S n - 1) with n by lia. replace (S (S n) - 1) with (S n) by lia. reflexivity.
Qed.

Lemma firstn_without_out k n l : ~ In k (firstn (S n) l) -> firstn n (without k l) = firstn n l.
Proof.
  revert l. induction n as [|n IH]; intros l H; [reflexivity |].
  destruct l as [|x r]; [reflexivity |]. cbn [filter].
  cbn [firstn] in H. destruct (bytes_eqb_spec x k) as [-> | Hne]; [exfalso; apply H; left; reflexivity |].
  cbn [negb firstn]. f_equal. apply IH. intros H'. apply H. right. exact H'.
Qed.

(** ** The LRU map *)

Notation beq := bytes_eqb (only parsing).
Notation bspec := bytes_eqb_spec (only parsing).

Record lru_gen (n : nat) (l : list (bytes * attr)) (m : lrumap) : Prop := {
  lg_pos : 0 < n;
  lg_max : lm_max m = Z.of_nat n;
  lg_wf : mwf (lm_cache m);
  lg_keys_wf : mwf (lm_keys m);
  lg_keys : forall k, In k (mkeys (lm_keys m)) <-> In k (mkeys (lm_cache m));
  lg_vals : forall k v, mget beq (lm_cache m) k = Some v -> last_val k l = Some v;
  lg_count : length (lm_cache m) = min n (length (recent l));
  lg_fit : length (recent l) <= n -> lm_dropped m = 0 /\ forall k, In k (recent l) -> In k (mkeys (lm_cache m)) }.

Definition lru_exact (n : nat) (l : list (bytes * attr)) (m : lrumap) : Prop :=
  mkeys (lm_cache m) = firstn n (recent l) /\ lm_dropped m = evictions n l.

Lemma lru_gen_new n : (0 < n)%Z -> lru_gen (Z.to_nat n) [] (new_lrumap n).
Proof.
  intros H. constructor; cbn; try lia; try constructor; try tauto; try discriminate.
Qed.

Lemma lru_exact_new n : lru_exact (Z.to_nat n) [] (new_lrumap n).
Proof. split; cbn; [rewrite firstn_nil; reflexivity | reflexivity]. Qed.

Lemma mkeys_mdel (m : list (bytes * attr)) k : mkeys (mdel beq m k) = without k (mkeys m).
Proof.
  unfold mkeys, mdel. induction m as [|[k' v] r IH]; [reflexivity |]. simpl.
  destruct (bytes_eqb k' k); simpl; [auto | f_equal; auto].
Qed.

Lemma mkeys_mdel_bool (m : list (bytes * bool)) k : mkeys (mdel beq m k) = without k (mkeys m).
Proof.
  unfold mkeys, mdel. induction m as [|[k' v] r IH]; [reflexivity |]. simpl.
  destruct (bytes_eqb k' k); simpl; [auto | f_equal; auto].
Qed.

Lemma mset_keys_in (m : list (bytes * bool)) k k' : In k' (mkeys (mset beq m k true)) <-> k' = k \/ In k' (mkeys m).
Proof.
  destruct (mget beq (mset beq m k true) k') as [v|] eqn:E.
  - split; intros _; [| eapply mget_Some_key; [exact bytes_eqb_spec | exact E]].
    rewrite (mget_mset beq bspec) in E. destruct (bytes_eqb_spec k k') as [-> | Hne]; [auto |].
    right. eapply mget_Some_key; [exact bytes_eqb_spec | exact E].
  - pose proof E as E'. apply (mget_None beq bspec) in E'. split; [contradiction |]. intros H. exfalso.
    rewrite (mget_mset beq bspec) in E. destruct (bytes_eqb_spec k k') as [-> | Hne]; [discriminate |].
    apply (mget_None beq bspec) in E. destruct H; [congruence | contradiction].
Qed.

Lemma evictions_snoc n l k v :
  evictions n (l ++ [(k, v)]) =
  evictions n l + (if negb (existsb (bytes_eqb k) (firstn n (recent l))) && (n <=? length (recent l)) then 1 else 0).
Proof.
  unfold evictions. rewrite app_length. cbn [length]. rewrite Nat.add_1_r, seq_S, filter_app, app_length. cbn [Nat.add].
  f_equal.
  - f_equal. apply filter_ext_in. intros i Hi. apply in_seq in Hi.
    rewrite nth_error_app1 by lia. rewrite firstn_app. replace (i - length l) with 0 by lia. cbn [firstn]. rewrite app_nil_r. reflexivity.
  - cbn [filter]. rewrite nth_error_app2, Nat.sub_diag by lia. cbn [nth_error].
    rewrite firstn_app, firstn_all, Nat.sub_diag. cbn [firstn]. rewrite app_nil_r.
    destruct (negb _ && _); reflexivity.
Qed.

Lemma existsb_bytes k l : existsb (bytes_eqb k) l = true <-> In k l.
Proof.
  rewrite existsb_exists. split.
  - intros (x & Hx & He). apply bytes_eqb_eq in He. congruence.
  - intros H. exists k. split; [exact H | apply bytes_eqb_refl].
Qed.

Lemma mget_in_keys (m : list (bytes * attr)) k : (exists v, mget beq m k = Some v) <-> In k (mkeys m).
Proof.
  destruct (mget beq m k) as [v|] eqn:E.
  - split; [intros _; eapply mget_Some_key; [exact bytes_eqb_spec | exact E] | eauto].
  - apply (mget_None beq bspec) in E. split; [intros (v & Hv); discriminate | contradiction].
Qed.

Lemma mget_cons (m : list (bytes * attr)) k v k' : mget beq ((k, v) :: m) k' = if bytes_eqb k k' then Some v else mget beq m k'.
Proof. reflexivity. Qed.

Lemma rev_cons_eq {A} (l : list A) x y r : rev (x :: l) = y :: r -> l <> [] -> exists l0, l = l0 ++ [y] /\ rev r = x :: l0.
Proof.
  intros H Hne. destruct (exists_last Hne) as (l0 & z & ->).
  simpl in H. rewrite rev_app_distr in H. simpl in H. injection H as -> <-.
  exists l0. split; [reflexivity |]. rewrite rev_app_distr, rev_involutive. reflexivity.
Qed.

Lemma mwf_app_l (a b : list (bytes * attr)) : mwf (a ++ b) -> mwf a.
Proof.
  unfold mwf, mkeys. rewrite map_app. induction (map fst a) as [|x r IH]; intros H; [constructor |].
  inversion H as [|? ? Hni Hnd]; subst. constructor; [intros Hx; apply Hni; apply in_or_app; auto | auto].
Qed.

Lemma lru_add n l m k v : lru_gen n l m ->
  lru_gen n (l ++ [(k, v)]) (lm_add m k v) /\ (lru_exact n l m -> lru_exact n (l ++ [(k, v)]) (lm_add m k v)).
Proof.
  intros H. unfold lm_add.
  pose proof (recent_NoDup l) as Hnd.
  destruct (mget beq (lm_cache m) k) as [v0|] eqn:E.
  - assert (Hk : In k (mkeys (lm_cache m))) by (eapply mget_Some_key; [exact bytes_eqb_spec | exact E]).
    assert (Hrec : In k (recent l)).
    { apply last_val_recent. rewrite (lg_vals n l m H k v0 E). congruence. }
    pose proof (without_length k (recent l) Hnd Hrec) as Hlr.
    pose proof (without_length k _ (lg_wf n l m H) Hk) as Hlc.
    rewrite <- mkeys_mdel in Hlc. unfold mkeys in Hlc. rewrite !map_length in Hlc.
    pose proof (lg_count n l m H) as Hct.
    split.
    + constructor; cbn [lm_max lm_cache lm_keys lm_dropped].
      * apply H.
      * apply H.
      * unfold mwf. simpl. rewrite mkeys_mdel. constructor; [rewrite without_in; tauto | apply NoDup_filter; apply H].
      * apply (mwf_mset beq bspec). apply H.
      * intros k'. rewrite mset_keys_in. cbn [mkeys map fst]. fold (mkeys (mdel beq (lm_cache m) k)).
        rewrite mkeys_mdel. cbn [In]. rewrite without_in, (lg_keys n l m H).
        destruct (bytes_eqb_spec k' k) as [-> | Hne]; intuition congruence.
      * intros k' v'. rewrite mget_cons, (mget_mdel beq bspec), last_val_snoc.
        destruct (bytes_eqb k k'); [auto |]. apply H.
      * cbn [length]. rewrite recent_snoc. cbn [length]. lia.
      * rewrite recent_snoc. cbn [length]. intros Hle. destruct (lg_fit n l m H ltac:(lia)) as [H1 H2].
        split; [exact H1 |]. intros k' Hk'. cbn [mkeys map fst]. fold (mkeys (mdel beq (lm_cache m) k)).
        rewrite mkeys_mdel. destruct Hk' as [<- | Hk']; [left; reflexivity |]. right.
        apply without_in in Hk'. apply without_in. split; [apply H2 |]; tauto.
    + intros [Hx1 Hx2]. split; cbn [lm_cache lm_dropped].
      * cbn [mkeys map fst]. fold (mkeys (mdel beq (lm_cache m) k)).
        rewrite mkeys_mdel, recent_snoc, Hx1.
        rewrite firstn_without by (auto; rewrite <- Hx1; auto).
        pose proof (lg_pos n l m H) as Hp. destruct n as [|n]; [lia |]. replace (S n - 1) with n by lia. reflexivity.
      * rewrite Hx2, evictions_snoc.
        replace (existsb (bytes_eqb k) (firstn n (recent l))) with true; [simpl; lia |].
        symmetry. apply existsb_bytes. rewrite <- Hx1. exact Hk.
  - assert (Hk : ~ In k (mkeys (lm_cache m))) by (apply (mget_None beq bspec); exact E).
    pose proof (lg_count n l m H) as Hct. pose proof (lg_pos n l m H) as Hp.
    rewrite (lg_max n l m H). cbn [length].
    assert (Hrl : length (recent l) < n -> ~ In k (recent l)).
    { intros Hlt Hin. apply Hk. apply (lg_fit n l m H); [lia | exact Hin]. }
    destruct (negb (Z.of_nat n =? 0)%Z && (Z.of_nat n <? Z.of_nat (S (length (lm_cache m))))%Z) eqn:Ec.
    + assert (Hfull : length (lm_cache m) = n) by lia.
      assert (Hne : lm_cache m <> []) by (intros He; rewrite He in Hfull; simpl in Hfull; lia).
      destruct (rev ((k, v) :: lm_cache m)) as [|[old vo] r] eqn:Er.
      { apply (f_equal (@length _)) in Er. rewrite rev_length in Er. discriminate. }
      destruct (rev_cons_eq _ _ _ _ Er Hne) as (c0 & Hc0 & Hrr). rewrite Hrr.
      assert (Hkeys : mkeys (lm_cache m) = mkeys c0 ++ [old]) by (rewrite Hc0; unfold mkeys; rewrite map_app; reflexivity).
      assert (Hnd0 : NoDup (mkeys c0 ++ [old])) by (rewrite <- Hkeys; apply H).
      assert (Hold : ~ In old (mkeys c0)).
      { apply NoDup_remove_2 in Hnd0. rewrite app_nil_r in Hnd0. exact Hnd0. }
      assert (Hlen0 : S (length c0) = n) by (rewrite Hc0, app_length in Hfull; simpl in Hfull; lia).
      assert (Hkold : k <> old) by (intros ->; apply Hk; rewrite Hkeys; apply in_or_app; simpl; auto).
      assert (Hrn : n <= length (without k (recent l)) + 1).
      { destruct (in_dec bytes_eq_dec k (recent l)) as [Hin | Hin].
        - pose proof (without_length k _ Hnd Hin). lia.
        - rewrite without_id by auto. lia. }
      split.
      * constructor; cbn [lm_max lm_cache lm_keys lm_dropped].
        -- exact Hp.
        -- reflexivity.
        -- unfold mwf. cbn [mkeys map fst]. fold (mkeys c0). constructor.
           ++ intros Hin. apply Hk. rewrite Hkeys. apply in_or_app. auto.
           ++ apply (mwf_app_l c0 [(old, vo)]). rewrite <- Hc0. apply H.
        -- apply (mwf_mdel beq). apply (mwf_mset beq bspec). apply H.
        -- intros k'. rewrite mkeys_mdel_bool, without_in, mset_keys_in, (lg_keys n l m H), Hkeys, in_app_iff.
           cbn [mkeys map fst In]. fold (mkeys c0).
           destruct (bytes_eqb_spec k' old) as [-> | Hne']; intuition congruence.
        -- intros k' v'. rewrite mget_cons, last_val_snoc. destruct (bytes_eqb k k') eqn:Ekk; [auto |].
           intros Hg. apply (lg_vals n l m H). rewrite Hc0.
           clear - Hg. induction c0 as [|[a b] c0 IH]; simpl in *; [discriminate |]. destruct (bytes_eqb a k'); auto.
        -- cbn [length]. rewrite recent_snoc. cbn [length]. lia.
        -- rewrite recent_snoc. cbn [length]. intros Hle.
           destruct (in_dec bytes_eq_dec k (recent l)) as [Hin | Hin].
           ++ exfalso. pose proof (without_length k _ Hnd Hin) as Hw. apply Hk.
              apply (lg_fit n l m H); [lia | exact Hin].
           ++ exfalso. rewrite without_id in Hle by auto. lia.
      * intros [Hx1 Hx2]. split; cbn [lm_cache lm_dropped].
        -- cbn [mkeys map fst]. fold (mkeys c0). rewrite recent_snoc.
           destruct n as [|n0]; [lia |]. cbn [firstn]. f_equal.
           rewrite firstn_without_out by (rewrite <- Hx1; exact Hk).
           assert (Hf : firstn n0 (firstn (S n0) (recent l)) = firstn n0 (recent l)).
           { rewrite firstn_firstn. f_equal. lia. }
           rewrite <- Hf, <- Hx1, Hkeys. rewrite firstn_app.
           assert (Hlk : length (mkeys c0) = n0) by (unfold mkeys; rewrite map_length; lia).
           rewrite <- Hlk, firstn_all, Nat.sub_diag. simpl. rewrite app_nil_r. reflexivity.
        -- rewrite Hx2, evictions_snoc.
           replace (existsb (bytes_eqb k) (firstn n (recent l))) with false.
           ++ replace (n <=? length (recent l)) with true by lia. simpl. lia.
           ++ symmetry. apply not_true_is_false. rewrite existsb_bytes, <- Hx1. exact Hk.
    + assert (Hlt : length (lm_cache m) < n) by lia.
      specialize (Hrl ltac:(lia)). pose proof (without_id k (recent l) Hrl) as Hw.
      split.
      * constructor; cbn [lm_max lm_cache lm_keys lm_dropped].
        -- exact Hp.
        -- auto.
        -- unfold mwf. cbn [mkeys map fst]. constructor; [exact Hk | apply H].
        -- apply (mwf_mset beq bspec). apply H.
        -- intros k'. rewrite mset_keys_in, (lg_keys n l m H). cbn [mkeys map fst In]. fold (mkeys (lm_cache m)). intuition congruence.
        -- intros k' v'. rewrite mget_cons, last_val_snoc. destruct (bytes_eqb k k'); [auto | apply H].
        -- cbn [length]. rewrite recent_snoc, Hw. cbn [length]. lia.
        -- rewrite recent_snoc, Hw. cbn [length]. intros Hle. destruct (lg_fit n l m H ltac:(lia)) as [H1 H2].
           split; [exact H1 |]. intros k' [<- | Hk']; [left; reflexivity | right; apply H2; exact Hk'].
      * intros [Hx1 Hx2]. split; cbn [lm_cache lm_dropped].
        -- cbn [mkeys map fst]. fold (mkeys (lm_cache m)). rewrite recent_snoc, Hw, Hx1.
           rewrite !firstn_all2; [reflexivity | cbn [length]; lia | lia].
        -- rewrite Hx2, evictions_snoc.
           replace (n <=? length (recent l)) with false by lia. rewrite andb_false_r. lia.
Qed.

Lemma lru_adds n l0 : forall l m, lru_gen n l m ->
  lru_gen n (l ++ l0) (fold_left (fun m kv => lm_add m (fst kv) (snd kv)) l0 m) /\
  (lru_exact n l m -> lru_exact n (l ++ l0) (fold_left (fun m kv => lm_add m (fst kv) (snd kv)) l0 m)).
Proof.
  induction l0 as [|[k v] l0 IH]; intros l m H; simpl.
  - rewrite app_nil_r. auto.
  - destruct (lru_add n l m k v H) as [H1 H2]. destruct (IH (l ++ [(k, v)]) _ H1) as [H3 H4].
    rewrite <- app_assoc in H3, H4. simpl in H3, H4. auto.
Qed.

(** Reading permutes the list. *)
Definition lru_perm (m m' : lrumap) : Prop :=
  lm_keys m' = lm_keys m /\ lm_max m' = lm_max m /\ lm_dropped m' = lm_dropped m /\ Permutation (lm_cache m) (lm_cache m').

Lemma lru_perm_refl m : lru_perm m m.
Proof. repeat split; auto. Qed.

Lemma lru_perm_trans m1 m2 m3 : lru_perm m1 m2 -> lru_perm m2 m3 -> lru_perm m1 m3.
Proof.
  intros (A1 & A2 & A3 & A4) (B1 & B2 & B3 & B4). unfold lru_perm. rewrite B1, B2, B3.
  repeat split; auto. eapply Permutation_trans; eauto.
Qed.

Lemma mdel_perm (c : list (bytes * attr)) k v : mwf c -> mget beq c k = Some v -> Permutation c ((k, v) :: mdel beq c k).
Proof.
  intros Hwf Hg. apply (meq_perm beq bspec).
  - exact Hwf.
  - unfold mwf. cbn [mkeys map fst]. fold (mkeys (mdel beq c k)). rewrite mkeys_mdel.
    constructor; [rewrite without_in; tauto | apply NoDup_filter; exact Hwf].
  - intros k'. rewrite mget_cons, (mget_mdel beq bspec). destruct (bytes_eqb_spec k k'); congruence.
Qed.

Lemma lm_get_perm m k : mwf (lm_cache m) ->
  fst (lm_get m k) = mget beq (lm_cache m) k /\ lru_perm m (snd (lm_get m k)).
Proof.
  intros Hwf. unfold lm_get. destruct (mget beq (lm_cache m) k) as [v|] eqn:E; simpl.
  - split; [reflexivity |]. repeat split; simpl; auto. apply mdel_perm; auto.
  - split; [reflexivity | apply lru_perm_refl].
Qed.

Lemma lm_to_map_spec ks : forall m acc, mwf (lm_cache m) -> mwf acc ->
  let r := lm_to_map m ks acc in
  lru_perm m (snd r) /\ mwf (fst r) /\
  forall k, mget beq (fst r) k = if existsb (bytes_eqb k) ks then
                                   match mget beq (lm_cache m) k with Some v => Some v | None => mget beq acc k end
                                 else mget beq acc k.
Proof.
  induction ks as [|k ks IH]; intros m acc Hm Hacc; cbn [lm_to_map].
  - split; [apply lru_perm_refl |]. split; [exact Hacc |]. intros k. reflexivity.
  - destruct (lm_get_perm m k Hm) as [H1 H2]. destruct (lm_get m k) as [ov m'] eqn:E. cbn [fst snd] in H1, H2.
    assert (Hm' : mwf (lm_cache m')) by (eapply mwf_perm; [exact Hm | apply H2]).
    destruct ov as [v|].
    + destruct (IH m' (mset beq acc k v) Hm' (mwf_mset beq bspec acc k v Hacc)) as (P1 & P2 & P3).
      split; [eapply lru_perm_trans; eauto |]. split; [exact P2 |].
      intros k0. rewrite P3. cbn [existsb].
      rewrite <- (mget_perm beq bspec (lm_cache m) (lm_cache m') k0 Hm (proj2 (proj2 (proj2 H2)))).
      rewrite (mget_mset beq bspec).
      destruct (bytes_eqb_spec k0 k) as [-> | Hne].
      * rewrite bytes_eqb_refl, <- H1. destruct (existsb _ ks); reflexivity.
      * destruct (bytes_eqb_spec k k0); [congruence |]. reflexivity.
    + destruct (IH m' acc Hm' Hacc) as (P1 & P2 & P3).
      split; [eapply lru_perm_trans; eauto |]. split; [exact P2 |].
      intros k0. rewrite P3. cbn [existsb].
      rewrite <- (mget_perm beq bspec (lm_cache m) (lm_cache m') k0 Hm (proj2 (proj2 (proj2 H2)))).
      destruct (bytes_eqb_spec k0 k) as [-> | Hne]; [| reflexivity].
      rewrite <- H1. destruct (existsb _ ks); reflexivity.
Qed.

Lemma lru_gen_perm n l m m' : lru_gen n l m -> lru_perm m m' -> lru_gen n l m'.
Proof.
  intros H (P1 & P2 & P3 & P4).
  assert (Hk : forall k, In k (mkeys (lm_cache m)) <-> In k (mkeys (lm_cache m'))).
  { intros k. unfold mkeys. split; apply Permutation_in; apply Permutation_map; [exact P4 | symmetry; exact P4]. }
  constructor; rewrite ?P1, ?P2, ?P3.
  - apply H.
  - apply H.
  - eapply mwf_perm; [apply H | exact P4].
  - apply H.
  - intros k. rewrite (lg_keys n l m H). apply Hk.
  - intros k v. rewrite <- (mget_perm beq bspec _ _ k (lg_wf n l m H) P4). apply H.
  - rewrite <- (Permutation_length P4). apply H.
  - intros Hle. destruct (lg_fit n l m H Hle) as [H1 H2]. split; [exact H1 |]. intros k Hk'. apply Hk. auto.
Qed.

(** ** Recordings *)

Definition annot_of (x : time * list (bytes * attr) * bytes) : annotation :=
  let '(t, l, m) := x in MkAn t m (annot_attrs l).

Lemma fold_mset_last l : forall m, mwf m ->
  mwf (fold_left (fun m kv => mset beq m (fst kv) (snd kv)) l m) /\
  forall k, mget beq (fold_left (fun m kv => mset beq m (fst kv) (snd kv)) l m) k =
            match last_val k l with Some v => Some v | None => mget beq m k end.
Proof.
  induction l as [|[k0 v0] l IH] using rev_ind; intros m Hm; [simpl; auto |].
  destruct (IH m Hm) as [H1 H2]. rewrite fold_left_app. cbn [fold_left fst snd].
  split; [apply (mwf_mset beq bspec); exact H1 |].
  intros k. rewrite (mget_mset beq bspec), last_val_snoc. destruct (bytes_eqb k0 k); [reflexivity | apply H2].
Qed.

Lemma annot_of_ok x : annot_ok x (annot_of x).
Proof.
  destruct x as [[t l] m]. simpl. split; [reflexivity |]. split; [reflexivity |].
  unfold annot_attrs. destruct l as [|kv l]; [reflexivity |].
  destruct (fold_mset_last (kv :: l) [] (@mwf_nil _ _)) as [H1 H2].
  split; [discriminate |]. split; [exact H1 |]. intros k. rewrite H2. destruct (last_val k (kv :: l)); reflexivity.
Qed.

Record rec_ok (h1 : hist) (c : creation) (parent sc : span_context) (us : list supd) (kids : nat) (r : recording) : Prop := {
  ro_context : sd_context (r_data r) = sc;
  ro_parent : sd_parent (r_data r) = if is_zero_sc parent then zero_span_id else sc_span_id parent;
  ro_kind : sd_kind (r_data r) = opt_kind (c_opts c);
  ro_name : sd_name (r_data r) = last (names us) (c_name c);
  ro_start : sd_start (r_data r) = c_now c;
  ro_end : sd_end (r_data r) = zero_time;
  ro_status : sd_status (r_data r) = last (statuses us) (0%Z, []);
  ro_remote : sd_remote (r_data r) = c_remote c;
  ro_children : sd_children (r_data r) = kids;
  ro_empty : sd_attrs (r_data r) = [] /\ sd_annots (r_data r) = [] /\ sd_msgs (r_data r) = [] /\ sd_links (r_data r) = [] /\
             sd_dropped_attrs (r_data r) = 0 /\ sd_dropped_annots (r_data r) = 0 /\ sd_dropped_msgs (r_data r) = 0 /\
             sd_dropped_links (r_data r) = 0;
  ro_annots : qrel (Z.to_nat (limit_after ca_annots 32 h1)) (map annot_of (annots us)) (r_annots r);
  ro_msgs : qrel (Z.to_nat (limit_after ca_msgs 128 h1)) (msgs us) (r_msgs r);
  ro_links : qrel (Z.to_nat (limit_after ca_links 32 h1)) (links us) (r_links r);
  ro_attrs : lru_gen (Z.to_nat (limit_after ca_attrs 32 h1)) (sets us) (r_attrs r) }.

Notation rec_exact h1 us r := (lru_exact (Z.to_nat (limit_after ca_attrs 32 h1)) (sets us) (r_attrs r)).

Lemma names_app a b : names (a ++ b) = names a ++ names b.
Proof. apply flat_map_app. Qed.
Lemma statuses_app a b : statuses (a ++ b) = statuses a ++ statuses b.
Proof. apply flat_map_app. Qed.
Lemma sets_app a b : sets (a ++ b) = sets a ++ sets b.
Proof. apply flat_map_app. Qed.
Lemma annots_app a b : annots (a ++ b) = annots a ++ annots b.
Proof. apply flat_map_app. Qed.
Lemma msgs_app a b : msgs (a ++ b) = msgs a ++ msgs b.
Proof. apply flat_map_app. Qed.
Lemma links_app a b : links (a ++ b) = links a ++ links b.
Proof. apply flat_map_app. Qed.

Lemma rec_ok_upd h1 c parent sc us kids r u : rec_ok h1 c parent sc us kids r ->
  exists r', rec_update r u = Some r' /\ rec_ok h1 c parent sc (us ++ [u]) kids r' /\
    (rec_exact h1 us r -> rec_exact h1 (us ++ [u]) r').
Proof.
  intros H. destruct u as [n | co m | l | now l m | now snt id un co | l]; cbn [rec_update].
  - eexists; split; [reflexivity |]. rewrite sets_app, app_nil_r. split; [| auto].
    destruct H. constructor; rewrite ?names_app, ?statuses_app, ?sets_app, ?annots_app, ?msgs_app, ?links_app;
      cbn [names statuses sets annots msgs links flat_map]; rewrite ?app_nil_r; auto.
    cbn [set_data r_data sd_name]. rewrite last_last. reflexivity.
  - eexists; split; [reflexivity |]. rewrite sets_app, app_nil_r. split; [| auto].
    destruct H. constructor; rewrite ?names_app, ?statuses_app, ?sets_app, ?annots_app, ?msgs_app, ?links_app;
      cbn [names statuses sets annots msgs links flat_map]; rewrite ?app_nil_r; auto.
    cbn [set_data r_data sd_status]. rewrite last_last. reflexivity.
  - eexists; split; [reflexivity |]. rewrite sets_app. cbn [sets flat_map]. rewrite app_nil_r. cbn [r_attrs].
    destruct (lru_adds _ l _ _ (ro_attrs _ _ _ _ _ _ _ H)) as [H1 H2]. split; [| exact H2].
    destruct H. constructor; rewrite ?names_app, ?statuses_app, ?sets_app, ?annots_app, ?msgs_app, ?links_app;
      cbn [names statuses sets annots msgs links flat_map]; rewrite ?app_nil_r; auto.
  - destruct (qrel_add _ _ _ (MkAn now m (annot_attrs l)) (ro_annots _ _ _ _ _ _ _ H)) as (q & Hq & Hr). rewrite Hq.
    eexists; split; [reflexivity |]. rewrite sets_app, app_nil_r. split; [| auto].
    destruct H. constructor; rewrite ?names_app, ?statuses_app, ?sets_app, ?annots_app, ?msgs_app, ?links_app;
      cbn [names statuses sets annots msgs links flat_map]; rewrite ?app_nil_r; auto.
    rewrite map_app. exact Hr.
  - destruct (qrel_add _ _ _ (MkME now snt id un co) (ro_msgs _ _ _ _ _ _ _ H)) as (q & Hq & Hr). rewrite Hq.
    eexists; split; [reflexivity |]. rewrite sets_app, app_nil_r. split; [| auto].
    destruct H. constructor; rewrite ?names_app, ?statuses_app, ?sets_app, ?annots_app, ?msgs_app, ?links_app;
      cbn [names statuses sets annots msgs links flat_map]; rewrite ?app_nil_r; auto.
  - destruct (qrel_add _ _ _ l (ro_links _ _ _ _ _ _ _ H)) as (q & Hq & Hr). rewrite Hq.
    eexists; split; [reflexivity |]. rewrite sets_app, app_nil_r. split; [| auto].
    destruct H. constructor; rewrite ?names_app, ?statuses_app, ?sets_app, ?annots_app, ?msgs_app, ?links_app;
      cbn [names statuses sets annots msgs links flat_map]; rewrite ?app_nil_r; auto.
Qed.

Lemma rec_ok_child h1 c parent sc us kids r : rec_ok h1 c parent sc us kids r ->
  rec_ok h1 c parent sc us (S kids) (rec_add_child r).
Proof.
  intros H. destruct H. constructor; auto. cbn. auto.
Qed.

Lemma Forall2_map_r {A B} (R : A -> B -> Prop) f l : (forall x, R x (f x)) -> Forall2 R l (map f l).
Proof. intros H. induction l; constructor; auto. Qed.

Lemma qcase {A} n (l : list A) q (d : list A) (k : nat) : qrel n l q -> d = [] -> k = 0 ->
  match eq_items q with [] => (d, k) | x :: r => (x :: r, eq_dropped q) end = (lastn n l, length l - n).
Proof.
  intros Hq -> ->. destruct (eq_items q) as [|x r] eqn:E.
  - rewrite (qrel_empty n l q Hq E). reflexivity.
  - destruct Hq as (_ & H1 & _ & H2). rewrite <- E, H1, H2. reflexivity.
Qed.

Lemma make_attrs o n l m (d : list (bytes * attr)) k : lru_gen n l m -> d = [] -> k = 0 ->
  exists mp dr m', match lm_cache m with
       | [] => (d, k, m)
       | _ => let '(mp, lm) := lm_to_map m (ord o _ (mkeys (lm_keys m))) [] in (mp, lm_dropped m, lm)
       end = (mp, dr, m') /\
    lru_perm m m' /\ mwf mp /\ (forall k, mget beq mp k = mget beq (lm_cache m) k) /\ dr = lm_dropped m.
Proof.
  intros H -> ->. destruct (lm_cache m) as [|x r] eqn:E.
  - exists [], 0, m. split; [reflexivity |]. split; [apply lru_perm_refl |]. split; [apply mwf_nil |].
    split; [reflexivity |]. pose proof (lg_count n l m H) as Hc. rewrite E in Hc. simpl in Hc.
    pose proof (lg_pos n l m H). symmetry. apply (lg_fit n l m H). lia.
  - rewrite <- E. destruct (lm_to_map_spec (ord o _ (mkeys (lm_keys m))) m [] (lg_wf n l m H) (@mwf_nil _ _)) as (P1 & P2 & P3).
    destruct (lm_to_map m _ []) as [mp m']. cbn [fst snd] in *.
    exists mp, (lm_dropped m), m'. split; [reflexivity |]. split; [exact P1 |]. split; [exact P2 |].
    split; [| reflexivity]. intros k. rewrite P3.
    destruct (existsb (bytes_eqb k) (ord o _ (mkeys (lm_keys m)))) eqn:Eo.
    + destruct (mget beq (lm_cache m) k); reflexivity.
    + destruct (mget beq (lm_cache m) k) as [v|] eqn:Ev; [| reflexivity]. exfalso.
      assert (Hin : In k (mkeys (lm_cache m))) by (apply mget_in_keys; eauto).
      apply (lg_keys n l m H) in Hin. apply (Permutation_in _ (Permutation_sym (ord_perm o _ _))) in Hin.
      apply existsb_bytes in Hin. congruence.
Qed.

Lemma rec_ok_snap h1 c parent sc us kids r o sd r' : rec_ok h1 c parent sc us kids r ->
  make_span_data o r = (sd, r') ->
  sd_ok h1 c parent sc us kids zero_time sd /\ rec_ok h1 c parent sc us kids r' /\
  (rec_exact h1 us r -> attrs_exact (Z.to_nat (limit_after ca_attrs 32 h1)) us sd).
Proof.
  intros H. unfold make_span_data.
  destruct (ro_empty _ _ _ _ _ _ _ H) as (E1 & E2 & E3 & E4 & E5 & E6 & E7 & E8).
  destruct (make_attrs o _ _ _ _ _ (ro_attrs _ _ _ _ _ _ _ H) E1 E5) as (mp & dr & m' & Hm & Hp & Hwf & Hg & Hd).
  rewrite Hm.
  pose proof (qcase _ _ _ _ _ (ro_annots _ _ _ _ _ _ _ H) E2 E6) as Qa.
  pose proof (qcase _ _ _ _ _ (ro_msgs _ _ _ _ _ _ _ H) E3 E7) as Qm.
  pose proof (qcase _ _ _ _ _ (ro_links _ _ _ _ _ _ _ H) E4 E8) as Ql.
  rewrite Qa, Qm, Ql. intros Heq. apply pair_equal_spec in Heq. destruct Heq as [<- <-].
  pose proof (ro_attrs _ _ _ _ _ _ _ H) as Hl.
  split; [| split].
  - destruct H. constructor; cbn [sd_context sd_parent sd_kind sd_name sd_start sd_end sd_attrs sd_annots sd_msgs sd_status sd_links
      sd_remote sd_dropped_attrs sd_dropped_annots sd_dropped_msgs sd_dropped_links sd_children]; auto.
    + rewrite lastn_map. apply Forall2_map_r. apply annot_of_ok.
    + rewrite map_length. reflexivity.
    + intros k v. rewrite Hg. apply Hl.
    + rewrite <- (lg_count _ _ _ Hl).
      assert (Hpm : Permutation mp (lm_cache (r_attrs r))).
      { apply (meq_perm beq bspec); [exact Hwf | apply Hl | exact Hg]. }
      apply Permutation_length. exact Hpm.
    + intros Hle. rewrite Hd. apply (lg_fit _ _ _ Hl Hle).
  - destruct H. constructor; cbn [r_data r_attrs r_annots r_msgs r_links]; auto.
    eapply lru_gen_perm; eauto.
  - intros [Hx1 Hx2]. split; cbn [sd_attrs sd_dropped_attrs].
    + intros k v. rewrite Hg. split.
      * intros Hk. split; [| apply Hl; exact Hk]. rewrite <- Hx1. apply mget_in_keys. eauto.
      * intros [Hin Hv]. rewrite <- Hx1 in Hin. apply mget_in_keys in Hin. destruct Hin as (v' & Hv').
        pose proof (lg_vals _ _ _ Hl k v' Hv'). congruence.
    + congruence.
Qed.

Lemma sd_ok_end h1 c parent sc us kids sd e : sd_ok h1 c parent sc us kids zero_time sd -> sd_ok h1 c parent sc us kids e (with_end sd e).
Proof. intros H. destruct H. constructor; auto. Qed.

(** ** Starting *)

Record cfg_ok (h : hist) (c : config) : Prop := {
  cg_sampler : cf_sampler c = sampler_after h;
  cg_gen : cf_gen c = gen_after h;
  cg_annots : cf_annots c = limit_after ca_annots 32 h;
  cg_msgs : cf_msgs c = limit_after ca_msgs 128 h;
  cg_attrs : cf_attrs c = limit_after ca_attrs 32 h;
  cg_links : cf_links c = limit_after ca_links 32 h }.

Lemma limit_pos f d h : (0 < d)%Z -> (0 < limit_after f d h)%Z.
Proof.
  intros Hd. unfold limit_after. set (l := map f (configs h)).
  assert (H : forall x, In x (filter (fun n => 0 <? n)%Z l) -> (0 < x)%Z).
  { intros x Hx. apply filter_In in Hx. lia. }
  revert H. generalize (filter (fun n => 0 <? n)%Z l). intros l'. induction l' as [|x r IH]; intros H; [exact Hd |].
  destruct r as [|y r]; [apply H; left; reflexivity |]. apply IH. intros z Hz. apply H. right. exact Hz.
Qed.

Lemma start_options_ok xs : so_sampler (start_options xs) = opt_sampler xs /\ so_kind (start_options xs) = opt_kind xs.
Proof.
  unfold start_options, opt_sampler, opt_kind. induction xs as [|x xs [IH1 IH2]] using rev_ind; [split; reflexivity |].
  rewrite fold_left_app, !flat_map_app. cbn [fold_left flat_map].
  destruct x as [s | k]; cbn [apply_sopt so_sampler so_kind]; rewrite ?app_nil_r, ?last_last; auto.
Qed.

Lemma rec_ok_start h1 cfg p rm nm xs tid sid now parent sc :
  cfg_ok h1 cfg ->
  rec_ok h1 (MkC p rm nm xs tid sid now) parent sc [] 0
         (start_recording cfg (negb (is_zero_sc parent)) parent rm nm (start_options xs) now sc) /\
  rec_exact h1 (@nil supd) (start_recording cfg (negb (is_zero_sc parent)) parent rm nm (start_options xs) now sc).
Proof.
  intros Hc. unfold start_recording. rewrite (cg_annots _ _ Hc), (cg_msgs _ _ Hc), (cg_attrs _ _ Hc), (cg_links _ _ Hc).
  split.
  - constructor; cbn [r_data sd_context sd_parent sd_kind sd_name sd_start sd_end sd_attrs sd_annots sd_msgs sd_status sd_links
      sd_remote sd_dropped_attrs sd_dropped_annots sd_dropped_msgs sd_dropped_links sd_children c_opts c_name c_now c_remote
      r_annots r_msgs r_links r_attrs]; auto.
    + destruct (is_zero_sc parent); reflexivity.
    + apply start_options_ok.
    + repeat split.
    + apply (qrel_new (limit_after ca_annots 32 h1)). apply limit_pos. lia.
    + apply (qrel_new (limit_after ca_msgs 128 h1)). apply limit_pos. lia.
    + apply (qrel_new (limit_after ca_links 32 h1)). apply limit_pos. lia.
    + apply (lru_gen_new (limit_after ca_attrs 32 h1)). apply limit_pos. lia.
  - apply (lru_exact_new (limit_after ca_attrs 32 h1)).
Qed.

(** The context of a new span. *)
Lemma testbit_mask x b : (0 < b < 32)%N -> N.testbit (N.land x (2 ^ 32 - 2)) b = N.testbit x b.
Proof.
  intros Hb. rewrite N.land_spec. change (2 ^ 32 - 2)%N with (N.ones 31 * 2 ^ 1)%N.
  rewrite N.mul_pow2_bits_high by lia. rewrite N.ones_spec_low by lia. apply andb_true_r.
Qed.

Lemma testbit_lor1 x b : (0 < b)%N -> N.testbit (N.lor x 1) b = N.testbit x b.
Proof.
  intros Hb. rewrite N.lor_spec. change 1%N with (2 ^ 0)%N. rewrite N.pow2_bits_false by lia. apply orb_false_r.
Qed.

Lemma odd_lor1 x : N.odd (N.lor x 1) = true.
Proof. rewrite <- N.bit0_odd, N.lor_spec. apply orb_true_r. Qed.
Lemma odd_mask x : N.odd (N.land x (2 ^ 32 - 2)) = false.
Proof. rewrite <- N.bit0_odd, N.land_spec. apply andb_false_r. Qed.

Lemma range_lor1 x : (x < 2 ^ 32 -> N.lor x 1 < 2 ^ 32)%N.
Proof.
  intros H. destruct (N.eq_dec (N.lor x 1) 0) as [E | E]; [rewrite E; reflexivity |].
  apply N.log2_lt_pow2; [lia |]. rewrite N.log2_lor. change (N.log2 1) with 0%N. rewrite N.max_0_r.
  destruct (N.eq_dec x 0) as [-> | Hx]; [reflexivity |]. apply N.log2_lt_pow2; lia.
Qed.
Lemma range_mask x : (N.land x (2 ^ 32 - 2) < 2 ^ 32)%N.
Proof.
  assert (H : (N.land x (2 ^ 32 - 2) <= 2 ^ 32 - 2)%N).
  { rewrite N.land_comm. 
    assert (Hs : N.ldiff (N.land (2 ^ 32 - 2) x) (2 ^ 32 - 2) = 0%N).
    { apply N.bits_inj. intros b. rewrite N.ldiff_spec, N.land_spec, N.bits_0. destruct (N.testbit (2 ^ 32 - 2) b), (N.testbit x b); reflexivity. }
    apply N.ldiff_le. exact Hs. }
  eapply N.le_lt_trans; [exact H | reflexivity].
Qed.

Lemma set_is_sampled_ok sc b :
  sc_trace_id (set_is_sampled sc b) = sc_trace_id sc /\ sc_span_id (set_is_sampled sc b) = sc_span_id sc /\
  sc_tracestate (set_is_sampled sc b) = sc_tracestate sc /\ is_sampled (set_is_sampled sc b) = b /\
  (forall n, (0 < n < 32)%N -> N.testbit (sc_options (set_is_sampled sc b)) n = N.testbit (sc_options sc) n) /\
  (sc_options sc < 2 ^ 32 -> sc_options (set_is_sampled sc b) < 2 ^ 32)%N.
Proof.
  unfold set_is_sampled, is_sampled. cbn [sc_trace_id sc_span_id sc_tracestate sc_options].
  split; [reflexivity |]. split; [reflexivity |]. split; [reflexivity |]. destruct b.
  - split; [apply odd_lor1 |]. split; [intros n Hn; apply testbit_lor1; lia | apply range_lor1].
  - split; [apply odd_mask |]. split; [intros n Hn; apply testbit_mask; exact Hn | intros _; apply range_mask].
Qed.

Lemma start_context_ok h1 cfg p rm nm xs tid sid now parent :
  cfg_ok h1 cfg ->
  context_ok h1 (MkC p rm nm xs tid sid now) parent
    (start_context cfg (negb (is_zero_sc parent)) parent rm nm (start_options xs) tid sid).
Proof.
  intros Hc. unfold start_context. destruct (start_options_ok xs) as [Hs _]. rewrite Hs. rewrite negb_involutive.
  set (sc0 := MkSC _ sid (sc_options parent) (sc_tracestate parent)).
  assert (Ht : sc_trace_id sc0 = if is_zero_sc parent then tid else sc_trace_id parent).
  { unfold sc0. cbn. destruct (is_zero_sc parent); reflexivity. }
  destruct (is_zero_sc parent || rm || match opt_sampler xs with Some _ => true | None => false end) eqn:E.
  - set (dec := match opt_sampler xs with Some s => s | None => cf_sampler cfg end _).
    destruct (set_is_sampled_ok sc0 dec) as (H1 & H2 & H3 & H4 & H5 & H6).
    constructor; cbn [c_tid c_sid]; auto.
    rewrite H4. unfold dec, decision. cbn [c_opts c_remote c_sid c_name]. rewrite ?H1.
    destruct (opt_sampler xs) as [s|]; [reflexivity |]. rewrite orb_false_r in E. rewrite E, (cg_sampler _ _ Hc). reflexivity.
  - constructor; cbn [c_tid c_sid]; auto.
    unfold decision. cbn [c_opts c_remote]. destruct (opt_sampler xs) as [s|]; [rewrite orb_true_r in E; discriminate |].
    rewrite orb_false_r in E. rewrite E. reflexivity.
Qed.
