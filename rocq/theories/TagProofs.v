(** Proofs about package tag. *)

From Coq Require Import List NArith ZArith Bool Permutation Lia.
From Coq Require Import ZifyBool ZifyNat ZifyN.
From Verif Require Import Base GoMap TagModel TagSpec.
Import ListNotations.
Open Scope N_scope.

Ltac Zify.zify_post_hook ::= Z.div_mod_to_equations.

(** ** Validation *)

Lemma is_ascii_spec s : is_ascii s = true <-> Forall printable s.
Proof.
  unfold is_ascii. rewrite forallb_forall, Forall_forall.
  unfold printable, valid_min, valid_max.
  split; intros H x Hx; specialize (H x Hx); lia.
Qed.

Lemma check_key_name_spec k : check_key_name k = true <-> valid_key k.
Proof.
  unfold check_key_name, valid_key, max_key_length. rewrite <- is_ascii_spec.
  destruct (Nat.eqb_spec (length k) 0); [split; [discriminate|intros; lia]|].
  destruct (Nat.ltb_spec 255 (length k)); [split; [discriminate|intros; lia]|].
  intuition lia.
Qed.

Lemma check_value_spec v : check_value v = true <-> valid_value v.
Proof.
  unfold check_value, valid_value, max_key_length. rewrite <- is_ascii_spec.
  destruct (Nat.ltb_spec 255 (length v)); [split; [discriminate|intros; lia]|].
  intuition lia.
Qed.

Lemma check_key_name_false k : check_key_name k = false <-> ~ valid_key k.
Proof.
  rewrite <- check_key_name_spec. destruct (check_key_name k); split; congruence.
Qed.

Lemma check_value_false k : check_value k = false <-> ~ valid_value k.
Proof.
  rewrite <- check_value_spec. destruct (check_value k); split; congruence.
Qed.

(** ** Map operations *)

Lemma tget_mset m k k' c :
  tget (mset bytes_eqb m k c) k' = if bytes_eq_dec k k' then Some c else tget m k'.
Proof.
  unfold tget. rewrite mget_mset by apply bytes_eqb_spec.
  destruct (bytes_eqb_spec k k'), (bytes_eq_dec k k'); congruence.
Qed.

Lemma create_metadatas_spec mds : create_metadatas mds = spec_ttl mds.
Proof.
  unfold create_metadatas, spec_ttl. destruct mds as [|md mds]; [reflexivity|].
  generalize (md :: mds) 0%Z. clear. intros l.
  induction l as [|[t|] l IH]; intros d; simpl; auto.
Qed.

Lemma mutate_spec mu m m' :
  mutate mu m = inl m' -> forall k, tget m' k = spec_mutate mu (as_fun m) k.
Proof.
  destruct mu; simpl.
  - destruct (check_value v); [|discriminate]. intros [= <-] k'.
    unfold t_insert. rewrite create_metadatas_spec. unfold as_fun.
    destruct (tget m k) eqn:E; [reflexivity|].
    rewrite tget_mset. reflexivity.
  - destruct (check_value v); [|discriminate]. intros [= <-] k'.
    unfold t_update. rewrite create_metadatas_spec. unfold as_fun.
    destruct (tget m k) eqn:E; [|reflexivity].
    rewrite tget_mset. reflexivity.
  - destruct (check_value v); [|discriminate]. intros [= <-] k'.
    unfold t_upsert. rewrite create_metadatas_spec. rewrite tget_mset. reflexivity.
  - intros [= <-] k'. unfold t_delete, tget, fdel, as_fun, tget.
    rewrite mget_mdel by apply bytes_eqb_spec.
    destruct (bytes_eqb_spec k k'), (bytes_eq_dec k k'); congruence.
Qed.

Lemma mutate_ok_iff mu m : (exists m', mutate mu m = inl m') <-> mutator_ok mu.
Proof.
  destruct mu; simpl; try rewrite <- check_value_spec;
    try (destruct (check_value v); split;
         [auto | eauto | intros [? ?]; discriminate | discriminate]).
  split; eauto.
Qed.

Lemma mutate_wf mu m m' : mutate mu m = inl m' -> mwf m -> mwf m'.
Proof.
  destruct mu; simpl.
  - destruct (check_value v); [|discriminate]. intros [= <-] H.
    unfold t_insert. destruct (tget m k); auto.
    apply mwf_mset; auto. apply bytes_eqb_spec.
  - destruct (check_value v); [|discriminate]. intros [= <-] H.
    unfold t_update. destruct (tget m k); auto.
    apply mwf_mset; auto. apply bytes_eqb_spec.
  - destruct (check_value v); [|discriminate]. intros [= <-] H.
    apply mwf_mset; auto. apply bytes_eqb_spec.
  - intros [= <-] H. apply mwf_mdel; auto.
Qed.

Lemma valid_tags_mset m k c :
  valid_tags m -> valid_key k -> valid_value (c_value c) ->
  valid_tags (mset bytes_eqb m k c).
Proof.
  intros Hm Hk Hv k' c' Hin.
  apply In_mset in Hin; [|apply bytes_eqb_spec].
  destruct Hin as [[-> ->]|Hin]; auto.
Qed.

Lemma mutate_valid mu m m' :
  mutate mu m = inl m' -> valid_key (mutator_key mu) -> valid_tags m -> valid_tags m'.
Proof.
  intros Hm Hk Hv.
  assert (Hok : mutator_ok mu) by (apply (mutate_ok_iff mu m); eauto).
  destruct mu; simpl in *.
  - destruct (check_value v); [|discriminate]. injection Hm as <-.
    unfold t_insert. destruct (tget m k); auto. now apply valid_tags_mset.
  - destruct (check_value v); [|discriminate]. injection Hm as <-.
    unfold t_update. destruct (tget m k); auto. now apply valid_tags_mset.
  - destruct (check_value v); [|discriminate]. injection Hm as <-.
    now apply valid_tags_mset.
  - injection Hm as <-. intros k' c' Hin. apply filter_In in Hin. apply Hv, Hin.
Qed.

(** ** Heap *)

Lemma heap_set_length h p m : length (heap_set h p m) = length h.
Proof.
  revert p; induction h as [|m0 h IH]; intros [|p]; simpl; auto.
Qed.

Lemma heap_get_set_same h p m :
  (p < length h)%nat -> heap_get (heap_set h p m) p = m.
Proof.
  unfold heap_get. revert p; induction h as [|m0 h IH]; intros [|p]; simpl; try lia; auto.
  intros. apply IH. lia.
Qed.

Lemma heap_get_set_other h p q m :
  p <> q -> heap_get (heap_set h p m) q = heap_get h q.
Proof.
  unfold heap_get. revert p q; induction h as [|m0 h IH]; intros [|p] [|q] H; simpl; auto; try congruence.
Qed.

Lemma heap_get_app_l h m p : (p < length h)%nat -> heap_get (h ++ [m]) p = heap_get h p.
Proof. intros. unfold heap_get. now rewrite app_nth1. Qed.

Lemma heap_get_app_r h m : heap_get (h ++ [m]) (length h) = m.
Proof. unfold heap_get. rewrite app_nth2, Nat.sub_diag by lia. reflexivity. Qed.

(** [copy_loop] and [mutate_loop] touch only the cell [p]. *)
Lemma copy_loop_frame it : forall h p h' e,
  copy_loop it h p = (h', e) ->
  length h' = length h /\ forall q, q <> p -> heap_get h' q = heap_get h q.
Proof.
  induction it as [|[k v] it IH]; simpl; intros h p h' e.
  - intros [= <- <-]. auto.
  - destruct (negb (check_key_name k)); [intros [= <- <-]; auto|].
    destruct (negb (check_value (c_value v))); [intros [= <- <-]; auto|].
    intros H. apply IH in H. destruct H as [Hl Hf]. split.
    + now rewrite Hl, heap_set_length.
    + intros q Hq. rewrite Hf by auto. apply heap_get_set_other. auto.
Qed.

Lemma mutate_loop_frame ms : forall h p h' e,
  mutate_loop ms h p = (h', e) ->
  length h' = length h /\ forall q, q <> p -> heap_get h' q = heap_get h q.
Proof.
  induction ms as [|mu ms IH]; simpl; intros h p h' e.
  - intros [= <- <-]. auto.
  - destruct (mutate mu (heap_get h p)) as [m'|e0].
    + intros H. apply IH in H. destruct H as [Hl Hf]. split.
      * now rewrite Hl, heap_set_length.
      * intros q Hq. rewrite Hf by auto. apply heap_get_set_other. auto.
    + intros [= <- <-]. auto.
Qed.

Lemma tag_new_frame h c it ms h' c' e :
  tag_new h c it ms = (h', c', e) ->
  length h' = S (length h) /\
  forall q, (q < length h)%nat -> heap_get h' q = heap_get h q.
Proof.
  unfold tag_new.
  destruct (match c with None => (h ++ [new_map], None)
                       | Some _ => copy_loop it (h ++ [new_map]) (length h) end)
    as [h1 e1] eqn:E1.
  assert (H1 : length h1 = S (length h) /\
               forall q, (q < length h)%nat -> heap_get h1 q = heap_get h q).
  { destruct c as [p|].
    - apply copy_loop_frame in E1. rewrite app_length in E1. simpl in E1.
      destruct E1 as [Hl Hf]. split; [lia|].
      intros q Hq. rewrite Hf by lia. now apply heap_get_app_l.
    - injection E1 as <- <-. rewrite app_length. simpl. split; [lia|].
      intros. now apply heap_get_app_l. }
  destruct e1 as [e1|].
  - intros [= <- <- <-]. exact H1.
  - destruct (mutate_loop ms h1 (length h)) as [h2 e2] eqn:E2.
    apply mutate_loop_frame in E2. destruct E2 as [Hl Hf].
    assert (H2 : length h2 = S (length h) /\
                 forall q, (q < length h)%nat -> heap_get h2 q = heap_get h q).
    { split; [lia|]. intros q Hq. rewrite Hf by lia. now apply H1. }
    destruct e2; intros [= <- <- <-]; exact H2.
Qed.

Lemma t_insert_fresh m k c :
  tget m k = None ->
  t_insert m k (c_value c) (c_ttl c) = m ++ [(k, c)].
Proof.
  intros H. unfold t_insert. rewrite H. clear - H. unfold tget in H.
  induction m as [|[k0 c0] m IH]; simpl in *.
  - destruct c; reflexivity.
  - destruct (bytes_eqb k0 k); [discriminate|]. simpl. f_equal. auto.
Qed.

(** Copying a well-formed, valid list into the cell appends it. *)
Lemma copy_loop_ok it : forall h p,
  (p < length h)%nat ->
  valid_tags it ->
  NoDup (mkeys (heap_get h p ++ it)) ->
  exists h', copy_loop it h p = (h', None) /\
             heap_get h' p = heap_get h p ++ it /\ length h' = length h.
Proof.
  induction it as [|[k v] it IH]; simpl; intros h p Hp Hv Hnd.
  - exists h. rewrite app_nil_r. auto.
  - destruct (Hv k v (or_introl eq_refl)) as [Hk Hval].
    apply check_key_name_spec in Hk. apply check_value_spec in Hval.
    rewrite Hk, Hval. simpl.
    assert (Hnone : tget (heap_get h p) k = None).
    { unfold tget. apply mget_None; [apply bytes_eqb_spec|].
      unfold mkeys in *. rewrite map_app in Hnd. simpl in Hnd.
      apply NoDup_remove_2 in Hnd. intros Hin. apply Hnd.
      apply in_or_app. now left. }
    rewrite t_insert_fresh by assumption.
    destruct (IH (heap_set h p (heap_get h p ++ [(k, v)])) p) as [h' [H1 [H2 H3]]].
    + now rewrite heap_set_length.
    + intros k' c' Hin. apply Hv. now right.
    + rewrite heap_get_set_same by assumption. rewrite <- app_assoc. exact Hnd.
    + exists h'. split; [exact H1|]. rewrite H2, heap_get_set_same by assumption.
      rewrite <- app_assoc. split; [reflexivity|].
      now rewrite H3, heap_set_length.
Qed.

Lemma copy_loop_err it : forall h p,
  (exists k c, In (k, c) it /\ ~ (valid_key k /\ valid_value (c_value c))) ->
  exists h' e, copy_loop it h p = (h', Some e).
Proof.
  induction it as [|[k v] it IH]; simpl; intros h p (k0 & c0 & Hin & Hbad); [tauto|].
  destruct (check_key_name k) eqn:Hk; simpl; [|eauto].
  destruct (check_value (c_value v)) eqn:Hv; simpl; [|eauto].
  destruct Hin as [[= <- <-]|Hin].
  - exfalso. apply Hbad. now rewrite <- check_key_name_spec, <- check_value_spec.
  - apply IH. eauto.
Qed.

Lemma spec_mutate_ext mu f g :
  (forall k, f k = g k) -> forall k, spec_mutate mu f k = spec_mutate mu g k.
Proof.
  intros H k'. destruct mu; simpl.
  - rewrite H. destruct (g k); [apply H|]. unfold fset. destruct (bytes_eq_dec k k'); auto.
  - rewrite H. destruct (g k); [|apply H]. unfold fset. destruct (bytes_eq_dec k k'); auto.
  - unfold fset. destruct (bytes_eq_dec k k'); auto.
  - unfold fdel. destruct (bytes_eq_dec k k'); auto.
Qed.

Lemma spec_fold_ext ms : forall f g,
  (forall k, f k = g k) ->
  forall k, fold_left (fun a mu => spec_mutate mu a) ms f k =
            fold_left (fun a mu => spec_mutate mu a) ms g k.
Proof.
  induction ms as [|mu ms IH]; simpl; intros f g H; auto.
  apply IH. now apply spec_mutate_ext.
Qed.

Lemma mutate_loop_ok ms : forall h p,
  (p < length h)%nat ->
  (forall mu, In mu ms -> mutator_ok mu) ->
  exists h', mutate_loop ms h p = (h', None) /\
    (forall k, tget (heap_get h' p) k =
       fold_left (fun f mu => spec_mutate mu f) ms (as_fun (heap_get h p)) k).
Proof.
  induction ms as [|mu ms IH]; simpl; intros h p Hp Hok.
  - exists h. auto.
  - destruct (proj2 (mutate_ok_iff mu (heap_get h p)) (Hok mu (or_introl eq_refl))) as [m' Hm].
    rewrite Hm.
    destruct (IH (heap_set h p m') p) as [h' [H1 H2]].
    + now rewrite heap_set_length.
    + intros mu0 Hin. apply Hok. now right.
    + exists h'. split; [exact H1|]. intros k. rewrite H2.
      apply spec_fold_ext. intros k0. unfold as_fun.
      rewrite heap_get_set_same by assumption. now apply mutate_spec.
Qed.

Lemma mutate_loop_err ms : forall h p,
  (exists mu, In mu ms /\ ~ mutator_ok mu) ->
  exists h' e, mutate_loop ms h p = (h', Some e).
Proof.
  induction ms as [|mu ms IH]; simpl; intros h p (mu0 & Hin & Hbad); [tauto|].
  destruct (mutate mu (heap_get h p)) as [m'|e] eqn:E; [|eauto].
  destruct Hin as [<-|Hin].
  - exfalso. apply Hbad. apply (mutate_ok_iff mu (heap_get h p)). eauto.
  - apply IH. eauto.
Qed.

Lemma mutate_loop_inv (P : tmap -> Prop) (Q : mutator -> Prop) ms : forall h p h' e,
  (forall mu m m', Q mu -> mutate mu m = inl m' -> P m -> P m') ->
  (forall mu, In mu ms -> Q mu) ->
  (p < length h)%nat ->
  P (heap_get h p) ->
  mutate_loop ms h p = (h', e) -> P (heap_get h' p).
Proof.
  induction ms as [|mu ms IH]; simpl; intros h p h' e HP HQ Hp H0 H.
  - injection H as <- <-. exact H0.
  - destruct (mutate mu (heap_get h p)) as [m'|e0] eqn:E.
    + eapply IH; [exact HP| | | |exact H].
      * intros; apply HQ; auto.
      * now rewrite heap_set_length.
      * rewrite heap_get_set_same by assumption. eapply HP; eauto.
    + injection H as <- <-. exact H0.
Qed.

Lemma copy_loop_inv (P : tmap -> Prop) it : forall h p h' e,
  (forall m k c, valid_key k -> valid_value (c_value c) -> P m ->
     P (t_insert m k (c_value c) (c_ttl c))) ->
  (p < length h)%nat ->
  P (heap_get h p) ->
  copy_loop it h p = (h', e) -> P (heap_get h' p).
Proof.
  induction it as [|[k v] it IH]; simpl; intros h p h' e HP Hp H0 H.
  - injection H as <- <-. exact H0.
  - destruct (check_key_name k) eqn:Hk; simpl in H; [|injection H as <- <-; exact H0].
    destruct (check_value (c_value v)) eqn:Hv; simpl in H; [|injection H as <- <-; exact H0].
    eapply IH; [exact HP| | |exact H].
    + now rewrite heap_set_length.
    + rewrite heap_get_set_same by assumption. apply HP; auto.
      * now apply check_key_name_spec.
      * now apply check_value_spec.
Qed.

(** The fresh cell after tag.New. *)
Lemma tag_new_inv (P : tmap -> Prop) (Q : mutator -> Prop) h c it ms h' c' e :
  (forall m k c, valid_key k -> valid_value (c_value c) -> P m ->
     P (t_insert m k (c_value c) (c_ttl c))) ->
  (forall mu m m', Q mu -> mutate mu m = inl m' -> P m -> P m') ->
  (forall mu, In mu ms -> Q mu) ->
  P [] ->
  tag_new h c it ms = (h', c', e) -> P (heap_get h' (length h)).
Proof.
  intros HP1 HP2 HQ H0 H. unfold tag_new in H.
  destruct (match c with None => (h ++ [new_map], None)
                       | Some _ => copy_loop it (h ++ [new_map]) (length h) end)
    as [h1 e1] eqn:E1.
  assert (Hlen : length h1 = S (length h)).
  { destruct c.
    - apply copy_loop_frame in E1. rewrite app_length in E1. simpl in E1. lia.
    - injection E1 as <- <-. rewrite app_length. simpl. lia. }
  assert (H1 : P (heap_get h1 (length h))).
  { destruct c.
    - eapply copy_loop_inv; [exact HP1| | |exact E1].
      + rewrite app_length. simpl. lia.
      + rewrite heap_get_app_r. exact H0.
    - injection E1 as <- <-. rewrite heap_get_app_r. exact H0. }
  destruct e1 as [e1|].
  - injection H as <- <- <-. exact H1.
  - destruct (mutate_loop ms h1 (length h)) as [h2 e2] eqn:E2.
    assert (H2 : P (heap_get h2 (length h))).
    { eapply mutate_loop_inv; [exact HP2|exact HQ| |exact H1|exact E2]. lia. }
    destruct e2; injection H as <- <- <-; exact H2.
Qed.

(** Success and content of tag.New. *)
Lemma tag_new_ok h c it ms :
  (forall p, c = Some p -> (p < length h)%nat /\ mwf (heap_get h p)) ->
  iterates h c it ->
  (forall m, ctx_map h c = Some m -> valid_tags m) ->
  (forall mu, In mu ms -> mutator_ok mu) ->
  exists h', tag_new h c it ms = (h', Some (length h), None) /\
    forall k, ctx_fun h' (Some (length h)) k =
      fold_left (fun f mu => spec_mutate mu f) ms (ctx_fun h c) k.
Proof.
  intros Hc Hit Hv Hms. unfold tag_new. cbv zeta.
  assert (H1 : exists h1,
    match c with None => (h ++ [new_map], None)
               | Some _ => copy_loop it (h ++ [new_map]) (length h) end = (h1, None)
    /\ length h1 = S (length h)
    /\ forall k, tget (heap_get h1 (length h)) k = ctx_fun h c k).
  { destruct c as [p|].
    - destruct (Hc p eq_refl) as [Hp Hwf]. unfold iterates in Hit. simpl in Hit.
      destruct (copy_loop_ok it (h ++ [new_map]) (length h)) as [h1 [E1 [E2 E3]]].
      + rewrite app_length; simpl; lia.
      + intros k c0 Hin. apply (Hv (heap_get h p) eq_refl).
        eapply Permutation_in; [apply Permutation_sym; exact Hit|exact Hin].
      + rewrite heap_get_app_r. simpl. eapply mwf_perm; eauto.
      + exists h1. split; [exact E1|]. split.
        * rewrite E3, app_length. simpl. lia.
        * intros k. rewrite E2, heap_get_app_r. simpl.
          unfold ctx_fun, as_fun, tget. simpl. symmetry.
          apply mget_perm; auto. apply bytes_eqb_spec.
    - exists (h ++ [new_map]). split; [reflexivity|]. split.
      + rewrite app_length; simpl; lia.
      + intros k. rewrite heap_get_app_r. reflexivity. }
  destruct H1 as [h1 [E1 [Hl Hg]]].
  lazymatch goal with |- exists _, (let (_, _) := ?t in _) = _ /\ _ =>
    replace t with (h1, @None tag_err) by (symmetry; exact E1) end.
  cbv beta iota.
  destruct (mutate_loop_ok ms h1 (length h)) as [h2 [E2 F2]]; [lia|exact Hms|].
  rewrite E2. exists h2. split; [reflexivity|].
  intros k. unfold ctx_fun at 1. simpl. unfold as_fun at 1. rewrite F2.
  apply spec_fold_ext. exact Hg.
Qed.

Lemma tag_new_fail h c it ms :
  iterates h c it ->
  (exists m, ctx_map h c = Some m /\ ~ valid_tags m) \/
  (exists mu, In mu ms /\ ~ mutator_ok mu) ->
  exists h' e, tag_new h c it ms = (h', c, Some e).
Proof.
  intros Hit Hbad. unfold tag_new.
  destruct (match c with None => (h ++ [new_map], None)
                       | Some _ => copy_loop it (h ++ [new_map]) (length h) end)
    as [h1 [e1|]] eqn:E1; [eauto|].
  destruct Hbad as [(m & Hm & Hnv)|Hmu].
  - exfalso. destruct c as [p|]; simpl in Hm; [|discriminate].
    injection Hm as <-. unfold iterates in Hit. simpl in Hit.
    apply Hnv. intros k c0 Hin.
    destruct (check_key_name k && check_value (c_value c0)) eqn:Hb.
    + apply andb_true_iff in Hb. rewrite <- check_key_name_spec, <- check_value_spec. exact Hb.
    + exfalso. destruct (copy_loop_err it (h ++ [new_map]) (length h)) as [h' [e' He]].
      * exists k, c0. split; [eapply Permutation_in; eauto|].
        rewrite <- check_key_name_spec, <- check_value_spec.
        apply andb_false_iff in Hb. intros [A B]. destruct Hb; congruence.
      * congruence.
  - destruct (mutate_loop_err ms h1 (length h) Hmu) as [h2 [e2 He]].
    rewrite He. eauto.
Qed.

(** ** Varints *)

Lemma put_uvarint_fuel_spec : forall fuel x, (x < 2 ^ (7 * N.of_nat fuel))%N ->
  fuel <> O ->
  uv (put_uvarint_fuel fuel x) x /\ (length (put_uvarint_fuel fuel x) <= fuel)%nat
  /\ (1 <= length (put_uvarint_fuel fuel x))%nat.
Proof.
  induction fuel as [|f IH]; intros x Hx Hne; [congruence|].
  simpl. destruct (N.ltb_spec x 128).
  - simpl. split; [|lia].
    rewrite <- (b2n_n2b_small x) at 2 by lia. constructor.
    rewrite b2n_n2b_small; lia.
  - assert (Hf : f <> O) by (intros ->; change (2 ^ (7 * N.of_nat 1)) with 128 in Hx; lia).
    assert (Hd : x / 128 < 2 ^ (7 * N.of_nat f)).
    { apply N.div_lt_upper_bound; [lia|].
      replace 128 with (2^7) by reflexivity. rewrite <- N.pow_add_r.
      replace (7 + 7 * N.of_nat f) with (7 * N.of_nat (S f)) by lia. exact Hx. }
    destruct (IH _ Hd Hf) as [A [B C]]. simpl. split; [|lia].
    pose proof (N.mod_lt x 128 ltac:(lia)).
    set (b := n2b (x mod 128 + 128)).
    assert (Hb : b2n b = x mod 128 + 128) by (apply b2n_n2b_small; lia).
    assert (Hx' : x = b2n b - 128 + 128 * (x / 128)).
    { rewrite Hb. pose proof (N.div_mod x 128 ltac:(lia)). lia. }
    rewrite Hx' at 2.
    constructor; [rewrite Hb; lia|exact A].
Qed.

Lemma put_uvarint_prefix n : n < 2 ^ 64 -> len_prefix (put_uvarint n) n.
Proof.
  intros H. unfold put_uvarint, max_varint_len.
  destruct (put_uvarint_fuel_spec 10 n) as [A [B _]]; [|lia|].
  - eapply N.lt_trans; [exact H|]. reflexivity.
  - split; [exact A|]. split; [exact B|exact H].
Qed.

Lemma put_uvarint_length n : n < 2 ^ 64 ->
  (1 <= length (put_uvarint n) <= 10)%nat.
Proof.
  intros H. unfold put_uvarint, max_varint_len.
  destruct (put_uvarint_fuel_spec 10 n) as [A [B C]]; [|lia|lia].
  eapply N.lt_trans; [exact H|]. reflexivity.
Qed.

Lemma uv_length l n : uv l n -> (1 <= length l)%nat.
Proof. destruct 1; simpl; lia. Qed.

Lemma uvarint_loop_uv : forall l n, uv l n -> forall r i x s,
  (i + length l <= 10)%nat ->
  ((i + length l = 10)%nat -> n < 2 ^ (64 - 7 * N.of_nat i)) ->
  uvarint_loop (l ++ r) i x s = (x + n * 2 ^ s, Z.of_nat (i + length l)).
Proof.
  induction 1 as [b Hb|b l n Hb Hl IH]; intros r i x s Hi Hfit; simpl.
  - simpl in Hi. destruct (Nat.eqb_spec i max_varint_len) as [E|E];
      [unfold max_varint_len in E; lia|].
    destruct (N.ltb_spec (b2n b) 128); [|lia].
    destruct (Nat.eqb_spec i 9) as [E9|E9]; simpl.
    + subst i. simpl in Hfit. specialize (Hfit eq_refl).
      change (2 ^ (64 - 7 * 9)) with 2 in Hfit.
      destruct (N.ltb_spec 1 (b2n b)); [lia|]. simpl. f_equal.
    + f_equal. lia.
  - simpl in Hi. pose proof (uv_length _ _ Hl).
    destruct (Nat.eqb_spec i max_varint_len) as [E|E];
      [unfold max_varint_len in E; lia|].
    destruct (N.ltb_spec (b2n b) 128); [lia|].
    rewrite IH; [|lia|].
    + f_equal; [|lia]. rewrite N.pow_add_r. change (2^7) with 128. lia.
    + intros Hlen. simpl in Hfit. specialize (Hfit ltac:(lia)).
      replace (64 - 7 * N.of_nat i) with (7 + (64 - 7 * N.of_nat (S i))) in Hfit by lia.
      rewrite N.pow_add_r in Hfit. change (2^7) with 128 in Hfit.
      nia.
Qed.

Lemma uvarint_prefix l n r : len_prefix l n ->
  uvarint (l ++ r) = (n, Z.of_nat (length l)).
Proof.
  intros (Hu & Hl & Hn). unfold uvarint.
  rewrite (uvarint_loop_uv l n Hu); simpl.
  - f_equal. change (2^0) with 1. lia.
  - lia.
  - intros _. change (64 - 7 * 0) with 64. exact Hn.
Qed.

(** Converse: a positive count means the buffer starts with a length prefix. *)
Lemma uvarint_loop_inv : forall buf i x s n c,
  uvarint_loop buf i x s = (n, c) -> (0 < c)%Z -> (i <= 10)%nat ->
  exists l r v, buf = l ++ r /\ uv l v /\ c = Z.of_nat (i + length l) /\
    n = x + v * 2 ^ s /\ (i + length l <= 10)%nat /\
    v < 2 ^ (64 - 7 * N.of_nat i).
Proof.
  induction buf as [|b buf IH]; simpl; intros i x s n c H Hc Hi.
  - injection H as <- <-. lia.
  - destruct (Nat.eqb_spec i max_varint_len) as [E|E]; unfold max_varint_len in *.
    { injection H as <- <-. lia. }
    destruct (N.ltb_spec (b2n b) 128).
    + destruct (Nat.eqb_spec i 9) as [E9|E9]; simpl in H.
      * destruct (N.ltb_spec 1 (b2n b)).
        { injection H as <- <-. lia. }
        injection H as <- <-. exists [b], buf, (b2n b). simpl.
        split; [reflexivity|]. split; [now constructor|].
        split; [lia|]. split; [lia|]. split; [lia|].
        subst i. change (2 ^ (64 - 7 * N.of_nat 9)) with 2. lia.
      * injection H as <- <-. exists [b], buf, (b2n b). simpl.
        split; [reflexivity|]. split; [now constructor|].
        split; [lia|]. split; [lia|]. split; [lia|].
        eapply N.lt_le_trans with (2 ^ 7).
        { change (2^7) with 128. lia. }
        apply N.pow_le_mono_r; lia.
    + apply IH in H; [|lia|lia].
      destruct H as (l & r & v & -> & Hu & Hcc & Hn & Hlen & Hv).
      exists (b :: l), r, (b2n b - 128 + 128 * v). simpl.
      split; [reflexivity|]. split; [now constructor|].
      split; [lia|]. split.
      { rewrite Hn, N.pow_add_r. change (2^7) with 128. lia. }
      split; [lia|].
      assert (Hi9 : (i < 9)%nat).
      { pose proof (uv_length _ _ Hu). lia. }
      replace (64 - 7 * N.of_nat i) with (7 + (64 - 7 * N.of_nat (S i))) by lia.
      rewrite N.pow_add_r. change (2^7) with 128.
      pose proof (b2n_lt b). nia.
Qed.

Lemma uvarint_inv buf n c :
  uvarint buf = (n, c) -> (0 < c)%Z ->
  exists l r, buf = l ++ r /\ len_prefix l n /\ c = Z.of_nat (length l).
Proof.
  intros H Hc. apply uvarint_loop_inv in H; [|exact Hc|lia].
  destruct H as (l & r & v & -> & Hu & Hcc & Hn & Hlen & Hv).
  exists l, r. split; [reflexivity|]. simpl in *.
  change (2^0) with 1 in Hn. replace n with v by lia.
  split; [|exact Hcc]. split; [exact Hu|]. split; [lia|].
  change (64 - 7 * 0) with 64 in Hv. exact Hv.
Qed.

(** ** Encoder *)

(** The bytes written so far form a prefix of the buffer. *)
Definition enc_ok (e : encoder) (w : bytes) : Prop :=
  e_widx e = length w /\ exists r, e_buf e = w ++ r.

Lemma copy_at_prefix w r s :
  (length s <= length r)%nat ->
  copy_at (w ++ r) (length w) s = w ++ s ++ skipn (length s) r.
Proof.
  intros H. unfold copy_at. rewrite firstn_app_exact. f_equal.
  rewrite app_length.
  replace (length w + length r - length w)%nat with (length r) by lia.
  rewrite (firstn_all2 s) by lia. f_equal.
  rewrite <- skipn_skipn, skipn_app_exact. reflexivity.
Qed.

Lemma grow_ok e w n : enc_ok e w ->
  enc_ok (grow_if_required e n) w /\
  exists r, e_buf (grow_if_required e n) = w ++ r /\ (n <= length r)%nat.
Proof.
  intros [Hw [r Hb]]. unfold grow_if_required.
  destruct (Z.ltb_spec (Z.of_nat (length (e_buf e)) - Z.of_nat (e_widx e)) (Z.of_nat n)).
  - rewrite Hb, Hw. simpl.
    set (tmp := repeat x00 _).
    assert (Ht : length tmp = (2 * (length (w ++ r) + 1) + n)%nat) by apply repeat_length.
    assert (Hc : copy_at tmp 0 (w ++ r) = w ++ (r ++ skipn (length (w ++ r)) tmp)).
    { unfold copy_at. simpl. rewrite firstn_all2 by lia. now rewrite <- app_assoc. }
    rewrite Hc. split.
    + split; [reflexivity|]. simpl. eauto.
    + eexists. split; [reflexivity|]. rewrite !app_length, skipn_length, Ht, app_length. lia.
  - split; [split; eauto|]. exists r. split; [exact Hb|].
    rewrite Hb, app_length, Hw in H. lia.
Qed.

Lemma write_byte_ok e w v : enc_ok e w ->
  exists e', write_byte e v = Some e' /\ enc_ok e' (w ++ [v]).
Proof.
  intros H. destruct (grow_ok e w 1 H) as [[Hw _] [r [Hb Hr]]].
  unfold write_byte. set (e1 := grow_if_required e 1) in *.
  unfold store. rewrite Hb, Hw, app_length. simpl length at 2.
  destruct (Nat.leb_spec (length w + 1) (length w + length r)); [|lia].
  rewrite copy_at_prefix by (simpl; lia).
  eexists. split; [reflexivity|]. split; simpl.
  - rewrite app_length. simpl. lia.
  - exists (skipn 1 r). rewrite <- app_assoc. reflexivity.
Qed.

Lemma write_with_varint_len_ok e w s :
  N.of_nat (length s) < 2 ^ 64 -> enc_ok e w ->
  exists e', write_with_varint_len e s = Some e' /\
    enc_ok e' (w ++ put_uvarint (N.of_nat (length s)) ++ s).
Proof.
  intros Hs H.
  destruct (grow_ok e w (max_varint_len + length s) H) as [[Hw _] [r [Hb Hr]]].
  unfold write_with_varint_len.
  set (e1 := grow_if_required e _) in *.
  set (pv := put_uvarint (N.of_nat (length s))).
  pose proof (put_uvarint_length _ Hs) as Hpv. fold pv in Hpv.
  unfold max_varint_len in Hr.
  unfold store. rewrite Hb, Hw, app_length.
  destruct (Nat.leb_spec (length w + length pv) (length w + length r)); [|lia].
  rewrite copy_at_prefix by lia.
  rewrite app_assoc.
  rewrite <- (app_length w pv).
  rewrite copy_at_prefix by (rewrite skipn_length; lia).
  eexists. split; [reflexivity|]. split; simpl.
  - rewrite !app_length. lia.
  - rewrite app_assoc. rewrite app_assoc. eauto.
Qed.

(** What one tag contributes to the wire. *)
Definition wire_tag_bytes (k v : bytes) : bytes :=
  x00 :: put_uvarint (N.of_nat (length k)) ++ k
      ++ put_uvarint (N.of_nat (length v)) ++ v.

Definition exported (it : list (key * content)) : list (bytes * bytes) :=
  map (fun kc => (fst kc, c_value (snd kc)))
      (filter (fun kc => (c_ttl (snd kc) =? ttl_unlimited)%Z) it).

Lemma encode_loop_ok it : forall e w,
  (forall k c, In (k, c) it ->
     N.of_nat (length k) < 2 ^ 64 /\ N.of_nat (length (c_value c)) < 2 ^ 64) ->
  enc_ok e w ->
  exists e', encode_loop it e = Some e' /\
    enc_ok e' (w ++ concat (map (fun kv => wire_tag_bytes (fst kv) (snd kv)) (exported it))).
Proof.
  unfold exported.
  induction it as [|[k c] it IH]; intros e w Hlen Hok; simpl.
  - exists e. rewrite app_nil_r. auto.
  - destruct (Hlen k c (or_introl eq_refl)) as [Hk Hv].
    assert (Hlen' : forall k c, In (k, c) it ->
      N.of_nat (length k) < 2 ^ 64 /\ N.of_nat (length (c_value c)) < 2 ^ 64)
      by (intros; apply Hlen; now right).
    destruct (c_ttl c =? ttl_unlimited)%Z.
    + destruct (write_byte_ok e w key_type_string Hok) as [e1 [-> Ho1]].
      destruct (write_with_varint_len_ok e1 _ k Hk Ho1) as [e2 [-> Ho2]].
      destruct (write_with_varint_len_ok e2 _ (c_value c) Hv Ho2) as [e3 [-> Ho3]].
      destruct (IH e3 _ Hlen' Ho3) as [e4 [H4 Ho4]].
      exists e4. split; [exact H4|]. simpl.
      assert (Heq : (((w ++ [key_type_string]) ++ put_uvarint (N.of_nat (length k)) ++ k)
         ++ put_uvarint (N.of_nat (length (c_value c))) ++ c_value c)
         = w ++ wire_tag_bytes k (c_value c)).
      { unfold wire_tag_bytes, key_type_string.
        rewrite <- !app_assoc. reflexivity. }
      rewrite Heq, <- app_assoc in Ho4.
      exact Ho4.
    + apply IH; auto.
Qed.

Lemma encode_ok it :
  (forall k c, In (k, c) it ->
     N.of_nat (length k) < 2 ^ 64 /\ N.of_nat (length (c_value c)) < 2 ^ 64) ->
  encode it = Some (x00 ::
    concat (map (fun kv => wire_tag_bytes (fst kv) (snd kv)) (exported it))).
Proof.
  intros Hlen. unfold encode.
  assert (H0 : enc_ok (Encoder (repeat x00 (length it)) 0 0) []).
  { split; [reflexivity|]. simpl. eauto. }
  destruct (write_byte_ok _ _ tags_version H0) as [e1 [-> Ho1]].
  destruct (encode_loop_ok it e1 _ Hlen Ho1) as [e2 [-> [Hw [r Hr]]]].
  f_equal. unfold enc_bytes. rewrite Hr, Hw, firstn_app_exact. reflexivity.
Qed.

Lemma wire_exported ts :
  (forall k v, In (k, v) ts ->
     N.of_nat (length k) < 2 ^ 64 /\ N.of_nat (length v) < 2 ^ 64) ->
  wire (concat (map (fun kv => wire_tag_bytes (fst kv) (snd kv)) ts)) ts.
Proof.
  induction ts as [|[k v] ts IH]; intros H; simpl; [constructor|].
  destruct (H k v (or_introl eq_refl)) as [Hk Hv].
  unfold wire_tag_bytes. simpl. rewrite <- !app_assoc.
  constructor; try now apply put_uvarint_prefix.
  apply IH. intros; apply H; now right.
Qed.

(** ** Decoder *)

Lemma read_ok pre l k r :
  len_prefix l (N.of_nat (length k)) ->
  N.of_nat (length (pre ++ l ++ k ++ r)) < 2 ^ 63 ->
  read_bytes_with_varint_len (pre ++ l ++ k ++ r) (length pre)
  = Ok (k, (length pre + length l + length k)%nat).
Proof.
  intros Hl Hsz. unfold read_bytes_with_varint_len.
  assert (H1 : (1 <= length l)%nat) by (apply (uv_length _ _ (proj1 Hl))).
  rewrite !app_length in Hsz |- *.
  destruct (Nat.leb_spec (length pre + (length l + (length k + length r))) (length pre)); [lia|].
  rewrite skipn_app_exact, (uvarint_prefix _ _ _ Hl).
  destruct (Z.leb_spec (Z.of_nat (length l)) 0); [lia|].
  rewrite (int64_of_small (Z.of_N _)) by lia.
  rewrite int64_of_small by lia.
  destruct (Z.ltb_spec (Z.of_nat (length pre + (length l + (length k + length r))))
    (Z.of_nat (length pre) + Z.of_nat (length l) + Z.of_N (N.of_nat (length k)))); [lia|].
  destruct (Z.ltb_spec (Z.of_nat (length pre) + Z.of_nat (length l) + Z.of_N (N.of_nat (length k)))
     (Z.of_nat (length pre) + Z.of_nat (length l))); [lia|].
  f_equal. f_equal; [|lia].
  replace (Z.to_nat (Z.of_nat (length pre) + Z.of_nat (length l)))
    with (length (pre ++ l)) by (rewrite app_length; lia).
  replace (pre ++ l ++ k ++ r) with ((pre ++ l) ++ k ++ r) by now rewrite <- app_assoc.
  rewrite skipn_app_exact.
  replace (Z.to_nat _) with (length k) by lia.
  apply firstn_app_exact.
Qed.

Lemma read_inv buf ridx k r1 :
  N.of_nat (length buf) < 2 ^ 63 ->
  read_bytes_with_varint_len buf ridx = Ok (k, r1) ->
  exists pre l r, buf = pre ++ l ++ k ++ r /\ length pre = ridx /\
    len_prefix l (N.of_nat (length k)) /\ r1 = (ridx + length l + length k)%nat.
Proof.
  intros Hsz. unfold read_bytes_with_varint_len.
  destruct (Nat.leb_spec (length buf) ridx) as [|Hr]; [discriminate|].
  destruct (uvarint (skipn ridx buf)) as [n c] eqn:Hu.
  destruct (Z.leb_spec c 0) as [|Hc]; [discriminate|].
  destruct (uvarint_inv _ _ _ Hu Hc) as (l & r & Hsk & Hl & ->).
  assert (Hlen : (ridx + length l <= length buf)%nat).
  { assert (length (skipn ridx buf) = length (l ++ r)) by now rewrite Hsk.
    rewrite skipn_length, app_length in H. lia. }
  destruct (Z.ltb_spec (Z.of_nat (length buf))
     (int64_of (Z.of_nat ridx + Z.of_nat (length l) + int64_of (Z.of_N n)))) as [|Hle];
    [discriminate|].
  destruct (Z.ltb_spec (int64_of (Z.of_nat ridx + Z.of_nat (length l) + int64_of (Z.of_N n)))
     (Z.of_nat ridx + Z.of_nat (length l))) as [|Hge]; [discriminate|].
  intros [= <- <-].
  assert (Hn : n < 2 ^ 64) by apply Hl.
  assert (Hve : int64_of (Z.of_nat ridx + Z.of_nat (length l) + int64_of (Z.of_N n))
     = (Z.of_nat ridx + Z.of_nat (length l) + Z.of_N n)%Z).
  { clear - Hsz Hlen Hle Hge Hn. unfold int64_of in *. lia. }
  rewrite Hve in *.
  replace (Z.to_nat (Z.of_nat ridx + Z.of_nat (length l) + Z.of_N n
             - (Z.of_nat ridx + Z.of_nat (length l)))) with (N.to_nat n) by lia.
  replace (Z.to_nat (Z.of_nat ridx + Z.of_nat (length l))) with (ridx + length l)%nat by lia.
  assert (Hr' : skipn (ridx + length l) buf = r).
  { rewrite <- skipn_skipn, Hsk. apply skipn_app_exact. }
  rewrite Hr'.
  assert (Hrl : (N.to_nat n <= length r)%nat).
  { assert (length (skipn ridx buf) = length (l ++ r)) by now rewrite Hsk.
    rewrite skipn_length, app_length in H. lia. }
  assert (Hfl : length (firstn (N.to_nat n) r) = N.to_nat n) by (rewrite firstn_length; lia).
  exists (firstn ridx buf), l, (skipn (N.to_nat n) r).
  rewrite firstn_skipn, <- Hsk, firstn_skipn. split; [reflexivity|].
  split; [rewrite firstn_length; lia|].
  rewrite Hfl. rewrite N2Nat.id. split; [exact Hl|]. lia.
Qed.

Lemma decode_loop_ok : forall w ts, wire w ts -> forall pre fuel acc,
  (forall k v, In (k, v) ts -> valid_key k /\ valid_value v) ->
  N.of_nat (length (pre ++ w)) < 2 ^ 63 ->
  (length w < fuel)%nat ->
  decode_loop fuel (pre ++ w) (length pre) acc =
  (acc ++ map (fun kv => (fst kv, Content (snd kv) (-1)%Z)) ts, Done).
Proof.
  induction 1 as [|lk k lv v r ts Hlk Hlv Hw IH]; intros pre fuel acc Hval Hsz Hf.
  - destruct fuel as [|f]; [simpl in Hf; lia|]. simpl.
    rewrite app_nil_r. rewrite Nat.leb_refl. simpl. now rewrite app_nil_r.
  - destruct fuel as [|f]; [simpl in Hf; lia|].
    cbn [decode_loop].
    rewrite app_length in *. simpl length in *. rewrite !app_length in *.
    destruct (Nat.leb_spec (length pre + S (length lk + (length k + (length lv + (length v + length r)))))
      (length pre)); [lia|].
    rewrite app_nth2, Nat.sub_diag by lia. cbn [nth].
    replace (byte_eqb x00 key_type_string) with true by reflexivity. cbn [negb].
    destruct (Hval k v (or_introl eq_refl)) as [Hk Hv].
    assert (E1 : pre ++ x00 :: lk ++ k ++ lv ++ v ++ r
      = (pre ++ [x00]) ++ lk ++ k ++ (lv ++ v ++ r)) by (rewrite <- app_assoc; reflexivity).
    replace (S (length pre)) with (length (pre ++ [x00])) by (rewrite app_length; simpl; lia).
    rewrite E1 at 1. rewrite read_ok; [|exact Hlk|].
    2: { rewrite !app_length. simpl. lia. }
    assert (E2 : pre ++ x00 :: lk ++ k ++ lv ++ v ++ r
      = (pre ++ x00 :: lk ++ k) ++ lv ++ v ++ r).
    { rewrite <- !app_assoc. simpl. rewrite <- !app_assoc. reflexivity. }
    replace (length (pre ++ [x00]) + length lk + length k)%nat
      with (length (pre ++ x00 :: lk ++ k))
      by (rewrite !app_length; simpl; rewrite app_length; lia).
    rewrite E2 at 1. rewrite read_ok; [|exact Hlv|].
    2: { rewrite !app_length. simpl. rewrite app_length. lia. }
    unfold new_key. rewrite (proj2 (check_key_name_spec k) Hk).
    rewrite (proj2 (check_value_spec v) Hv). cbn [negb].
    assert (E3 : pre ++ x00 :: lk ++ k ++ lv ++ v ++ r
      = (pre ++ x00 :: lk ++ k ++ lv ++ v) ++ r).
    { rewrite <- !app_assoc. simpl. rewrite <- !app_assoc. reflexivity. }
    replace (length (pre ++ x00 :: lk ++ k) + length lv + length v)%nat
      with (length (pre ++ x00 :: lk ++ k ++ lv ++ v))
      by (rewrite !app_length; simpl; rewrite !app_length; lia).
    rewrite E3. rewrite IH.
    + rewrite <- app_assoc. reflexivity.
    + intros; apply Hval; now right.
    + rewrite <- E3. rewrite !app_length. simpl. rewrite !app_length. lia.
    + lia.
Qed.

Lemma decode_loop_inv : forall fuel buf ridx acc calls,
  N.of_nat (length buf) < 2 ^ 63 ->
  decode_loop fuel buf ridx acc = (calls, Done) ->
  (ridx <= length buf)%nat ->
  exists ts, wire (skipn ridx buf) ts /\
    (forall k v, In (k, v) ts -> valid_key k /\ valid_value v) /\
    calls = acc ++ map (fun kv => (fst kv, Content (snd kv) (-1)%Z)) ts.
Proof.
  induction fuel as [|f IH]; intros buf ridx acc calls Hsz H Hr; [discriminate|].
  cbn [decode_loop] in H.
  destruct (Nat.leb_spec (length buf) ridx) as [Hge|Hlt].
  { injection H as <-. exists []. rewrite skipn_all2 by lia.
    split; [constructor|]. split; [intros ? ? []|]. now rewrite app_nil_r. }
  destruct (byte_eqb_spec (nth ridx buf x00) key_type_string) as [Ht|]; [|discriminate].
  cbn [negb] in H.
  destruct (read_bytes_with_varint_len buf (S ridx)) as [[k r1]| |] eqn:E1; try discriminate.
  destruct (read_bytes_with_varint_len buf r1) as [[v r2]| |] eqn:E2; try discriminate.
  unfold new_key in H.
  destruct (check_key_name k) eqn:Hk; [|discriminate].
  destruct (check_value v) eqn:Hv; [|discriminate]. cbn [negb] in H.
  apply read_inv in E1; [|exact Hsz]. apply read_inv in E2; [|exact Hsz].
  destruct E1 as (pre1 & lk & q1 & B1 & L1 & P1 & R1).
  destruct E2 as (pre2 & lv & q2 & B2 & L2 & P2 & R2).
  assert (Hr2 : (r2 <= length buf)%nat).
  { rewrite B2, !app_length. lia. }
  destruct (IH _ _ _ _ Hsz H Hr2) as (ts & Hw & Hval & Hc).
  exists ((k, v) :: ts). split; [|split].
  - rewrite (skipn_cons_nth x00) by exact Hlt. rewrite Ht.
    assert (S1 : skipn (S ridx) buf = lk ++ k ++ q1).
    { rewrite B1, <- L1. apply skipn_app_exact. }
    assert (S2 : skipn r1 buf = lv ++ v ++ q2).
    { rewrite B2, <- L2. apply skipn_app_exact. }
    assert (S3 : skipn r2 buf = q2).
    { rewrite R2. rewrite <- Nat.add_assoc, <- skipn_skipn, S2.
      rewrite app_assoc, <- app_length. apply skipn_app_exact. }
    assert (S4 : q1 = lv ++ v ++ q2).
    { rewrite <- S2, R1. rewrite <- Nat.add_assoc, <- skipn_skipn, S1.
      rewrite app_assoc, <- app_length. symmetry. apply skipn_app_exact. }
    rewrite S1, S4. unfold key_type_string. constructor; auto. now rewrite <- S3.
  - intros k' v' [[= <- <-]|Hin]; [|auto].
    split; [now apply check_key_name_spec|now apply check_value_spec].
  - rewrite Hc, <- app_assoc. reflexivity.
Qed.

(** The loop always makes progress, so the fuel is never exhausted. *)
Lemma read_progress buf ridx k r1 :
  read_bytes_with_varint_len buf ridx = Ok (k, r1) ->
  (ridx < r1)%nat.
Proof.
  unfold read_bytes_with_varint_len.
  destruct (Nat.leb_spec (length buf) ridx) as [|Hr]; [discriminate|].
  destruct (uvarint (skipn ridx buf)) as [n c] eqn:Hu.
  destruct (Z.leb_spec c 0) as [|Hc]; [discriminate|].
  match goal with |- context [(?a <? ?b)%Z] => destruct (Z.ltb_spec a b); [discriminate|] end.
  match goal with |- context [(?a <? ?b)%Z] => destruct (Z.ltb_spec a b); [discriminate|] end.
  intros [= <- <-]. lia.
Qed.

Lemma decode_loop_fuel : forall fuel buf ridx acc,
  (length buf < fuel + ridx)%nat -> (fuel <> 0)%nat ->
  snd (decode_loop fuel buf ridx acc) <> OutOfFuel.
Proof.
  induction fuel as [|f IH]; intros buf ridx acc H Hf; [congruence|].
  cbn [decode_loop].
  destruct (Nat.leb_spec (length buf) ridx) as [Hge|Hlt]; [discriminate|].
  destruct (negb (byte_eqb (nth ridx buf x00) key_type_string)); [discriminate|].
  destruct (read_bytes_with_varint_len buf (S ridx)) as [[k r1]| |] eqn:E1; try discriminate.
  destruct (read_bytes_with_varint_len buf r1) as [[v r2]| |] eqn:E2; try discriminate.
  destruct (new_key k); [|discriminate].
  destruct (negb (check_value v)); [discriminate|].
  apply read_progress in E1. apply read_progress in E2.
  apply IH; lia.
Qed.

Lemma read_no_panic buf ridx :
  N.of_nat (length buf) < 2 ^ 63 ->
  (forall i l r n, skipn i buf = l ++ r -> len_prefix l n ->
     (i < length buf)%nat ->
     N.of_nat i + N.of_nat (length l) + n < 2 ^ 63) ->
  read_bytes_with_varint_len buf ridx <> Panic.
Proof.
  intros Hsz Hg. unfold read_bytes_with_varint_len.
  destruct (Nat.leb_spec (length buf) ridx) as [|Hr]; [discriminate|].
  destruct (uvarint (skipn ridx buf)) as [n c] eqn:Hu.
  destruct (Z.leb_spec c 0) as [|Hc]; [discriminate|].
  destruct (uvarint_inv _ _ _ Hu Hc) as (l & r & Hsk & Hl & ->).
  specialize (Hg _ _ _ _ Hsk Hl Hr).
  rewrite (int64_of_small (Z.of_N n)) by lia.
  rewrite int64_of_small by lia.
  match goal with |- context [(?a <? ?b)%Z] => destruct (Z.ltb_spec a b); [discriminate|] end.
  match goal with |- context [(?a <? ?b)%Z] => destruct (Z.ltb_spec a b); [lia|] end.
  discriminate.
Qed.

Lemma decode_loop_no_panic : forall fuel buf ridx acc,
  N.of_nat (length buf) < 2 ^ 63 ->
  (forall i l r n, skipn i buf = l ++ r -> len_prefix l n ->
     (i < length buf)%nat ->
     N.of_nat i + N.of_nat (length l) + n < 2 ^ 63) ->
  snd (decode_loop fuel buf ridx acc) <> Panicked.
Proof.
  induction fuel as [|f IH]; intros buf ridx acc Hsz Hg; [discriminate|].
  cbn [decode_loop].
  destruct (Nat.leb_spec (length buf) ridx) as [Hge|Hlt]; [discriminate|].
  destruct (negb (byte_eqb (nth ridx buf x00) key_type_string)); [discriminate|].
  pose proof (read_no_panic buf (S ridx) Hsz Hg) as N1.
  destruct (read_bytes_with_varint_len buf (S ridx)) as [[k r1]| |] eqn:E1; try discriminate; try congruence.
  pose proof (read_no_panic buf r1 Hsz Hg) as N2.
  destruct (read_bytes_with_varint_len buf r1) as [[v r2]| |] eqn:E2; try discriminate; try congruence.
  destruct (new_key k); [|discriminate].
  destruct (negb (check_value v)); [discriminate|].
  apply IH; auto.
Qed.

(** ** Decode *)

Lemma upserts_fun ts : forall m f,
  (forall k, tget m k = f k) ->
  forall k, tget (fold_left
      (fun m kv => t_upsert m (fst kv) (c_value (snd kv)) (c_ttl (snd kv)))
      (map (fun kv => (fst kv, Content (snd kv) (-1)%Z)) ts) m) k
  = fold_left (fun f kv => fset f (fst kv) (Content (snd kv) (-1)%Z)) ts f k.
Proof.
  induction ts as [|[k v] ts IH]; simpl; intros m f H; auto.
  apply IH. intros k'. unfold t_upsert. rewrite tget_mset. unfold fset.
  destruct (bytes_eq_dec k k'); auto.
Qed.

Lemma upserts_inv (P : tmap -> Prop) calls : forall m,
  (forall m k c, In (k, c) calls -> P m -> P (mset bytes_eqb m k c)) ->
  P m ->
  P (fold_left
      (fun m kv => t_upsert m (fst kv) (c_value (snd kv)) (c_ttl (snd kv)))
      calls m).
Proof.
  induction calls as [|[k c] calls IH]; simpl; intros m HP H; auto.
  apply IH; [intros; apply HP; auto|].
  unfold t_upsert. destruct c as [v t]. simpl. apply HP; auto.
Qed.

Lemma decode_accept b ts :
  N.of_nat (length b) < 2 ^ 63 ->
  message b ts -> (forall k v, In (k, v) ts -> valid_key k /\ valid_value v) ->
  exists m, decode b = DecOk m /\ forall k, tget m k = tags_fun ts k.
Proof.
  intros Hsz [[-> ->]|(w & -> & Hw)] Hval.
  - exists []. split; reflexivity.
  - unfold decode. cbn [decode_each].
    replace (b2n tags_version <? b2n x00) with false by reflexivity.
    change (x00 :: w) with ([x00] ++ w).
    rewrite (decode_loop_ok w ts Hw [x00]); auto; try (simpl; lia).
    eexists. split; [reflexivity|]. intros k. unfold tags_fun. simpl.
    apply upserts_fun. reflexivity.
Qed.

Lemma decode_inv b m :
  N.of_nat (length b) < 2 ^ 63 ->
  decode b = DecOk m ->
  exists ts, message b ts /\
    (forall k v, In (k, v) ts -> valid_key k /\ valid_value v) /\
    (forall k, tget m k = tags_fun ts k) /\ mwf m /\ valid_tags m.
Proof.
  intros Hsz H. unfold decode in H.
  destruct b as [|version w].
  - injection H as <-. exists []. split; [now left|].
    split; [intros ? ? []|]. split; [reflexivity|]. split; [constructor|].
    intros ? ? [].
  - cbn [decode_each] in H.
    destruct (N.ltb_spec (b2n tags_version) (b2n version)) as [|Hver]; [discriminate|].
    assert (version = x00).
    { apply b2n_inj. change (b2n tags_version) with 0 in Hver.
      change (b2n x00) with 0. lia. }
    subst version.
    destruct (decode_loop (S (length (x00 :: w))) (x00 :: w) 1 []) as [calls o] eqn:E.
    destruct o; try discriminate. injection H as <-.
    apply decode_loop_inv in E; [|exact Hsz|simpl; lia].
    destruct E as (ts & Hw & Hval & ->). simpl skipn in Hw.
    exists ts. split; [right; eauto|]. split; [exact Hval|]. simpl app.
    split; [|split].
    + intros k. apply upserts_fun. reflexivity.
    + apply (upserts_inv (fun m => mwf m)); [|constructor].
      intros. apply mwf_mset; auto. apply bytes_eqb_spec.
    + apply (upserts_inv valid_tags); [|intros ? ? []]. intros m k c Hin Hm.
      apply in_map_iff in Hin. destruct Hin as ((k0 & v0) & [= <- <-] & Hin).
      destruct (Hval _ _ Hin). apply valid_tags_mset; auto.
Qed.

Lemma decode_no_fuel b : decode b <> DecOutOfFuel.
Proof.
  unfold decode. destruct b as [|version w]; [discriminate|].
  cbn [decode_each].
  destruct (b2n tags_version <? b2n version); [discriminate|].
  pose proof (decode_loop_fuel (S (length (version :: w))) (version :: w) 1 []
     ltac:(lia) ltac:(lia)) as H.
  destruct (decode_loop _ _ _ _) as [calls o]. simpl in H.
  destruct o; congruence.
Qed.

(** ** Round trip *)

Lemma tags_fun_app ts1 ts2 k :
  tags_fun (ts1 ++ ts2) k =
  fold_left (fun f kv => fset f (fst kv) (Content (snd kv) (-1)%Z)) ts2 (tags_fun ts1) k.
Proof. unfold tags_fun. now rewrite fold_left_app. Qed.

Lemma fold_fset_notin ts : forall f k,
  ~ In k (map fst ts) ->
  fold_left (fun f kv => fset f (fst kv) (Content (snd kv) (-1)%Z)) ts f k = f k.
Proof.
  induction ts as [|[k0 v0] ts IH]; simpl; intros f k H; auto.
  rewrite IH by tauto. unfold fset. destruct (bytes_eq_dec k0 k); [|reflexivity].
  subst. exfalso. tauto.
Qed.

Lemma fold_fset_in ts : forall f k v,
  NoDup (map fst ts) -> In (k, v) ts ->
  fold_left (fun f kv => fset f (fst kv) (Content (snd kv) (-1)%Z)) ts f k
  = Some (Content v (-1)%Z).
Proof.
  induction ts as [|[k0 v0] ts IH]; simpl; intros f k v Hnd Hin; [tauto|].
  inversion Hnd as [|? ? Hni Hnd']; subst.
  destruct Hin as [[= -> ->]|Hin].
  - rewrite fold_fset_notin by exact Hni. unfold fset.
    destruct (bytes_eq_dec k k); congruence.
  - now apply IH.
Qed.

Lemma exported_nodup it : NoDup (map fst it) -> NoDup (map fst (exported it)).
Proof.
  unfold exported. induction it as [|[k c] it IH]; simpl; intros H; [constructor|].
  inversion H as [|? ? Hni Hnd]; subst.
  destruct (c_ttl c =? ttl_unlimited)%Z; simpl; auto.
  constructor; auto. intros Hin. apply Hni.
  rewrite map_map in Hin. apply in_map_iff in Hin.
  destruct Hin as ((k' & c') & Hk & Hin). simpl in Hk. subst k'.
  apply filter_In in Hin. change k with (fst (k, c')). apply in_map. apply Hin.
Qed.

Lemma exported_in it k v :
  In (k, v) (exported it) <-> exists c, In (k, c) it /\ c_ttl c = (-1)%Z /\ c_value c = v.
Proof.
  unfold exported. rewrite in_map_iff. split.
  - intros ((k' & c) & [= <- <-] & Hin). apply filter_In in Hin. simpl in Hin.
    exists c. unfold ttl_unlimited in Hin. intuition lia.
  - intros (c & Hin & Ht & <-). exists (k, c). split; [reflexivity|].
    apply filter_In. simpl. unfold ttl_unlimited. split; auto. lia.
Qed.

Lemma wire_tag_bytes_length k v :
  valid_key k -> valid_value v ->
  (length (wire_tag_bytes k v) <= 531)%nat.
Proof.
  intros [Hk _] [Hv _]. unfold wire_tag_bytes. simpl. rewrite !app_length.
  pose proof (put_uvarint_length (N.of_nat (length k)) ltac:(lia)).
  pose proof (put_uvarint_length (N.of_nat (length v)) ltac:(lia)). lia.
Qed.

Lemma roundtrip m it :
  mwf m -> valid_tags m -> Permutation m it ->
  N.of_nat (length m) < 2 ^ 50 ->
  exists b m', encode it = Some b /\ decode b = DecOk m' /\
    forall k, tget m' k =
      match tget m k with
      | Some c => if (c_ttl c =? -1)%Z then Some c else None
      | None => None
      end.
Proof.
  intros Hwf Hval HP Hsz.
  assert (Hit : forall k c, In (k, c) it -> valid_key k /\ valid_value (c_value c)).
  { intros k c Hin. apply Hval. eapply Permutation_in; [apply Permutation_sym; exact HP|exact Hin]. }
  assert (Hwf' : mwf it) by (eapply mwf_perm; eauto).
  set (b := x00 :: concat (map (fun kv => wire_tag_bytes (fst kv) (snd kv)) (exported it))).
  assert (He : encode it = Some b).
  { apply encode_ok. intros k c Hin. destruct (Hit k c Hin) as [[Hk _] [Hv _]]. lia. }
  assert (Hval' : forall k v, In (k, v) (exported it) -> valid_key k /\ valid_value v).
  { intros k v Hin. apply exported_in in Hin. destruct Hin as (c & Hin & _ & <-). auto. }
  assert (Hm : message b (exported it)).
  { right. eexists. split; [reflexivity|]. apply wire_exported.
    intros k v Hin. destruct (Hval' k v Hin) as [[Hk _] [Hv _]]. lia. }
  assert (Hb : N.of_nat (length b) < 2 ^ 63).
  { assert (Hlen : forall ts, (forall k v, In (k, v) ts -> valid_key k /\ valid_value v) ->
      (length (concat (map (fun kv => wire_tag_bytes (fst kv) (snd kv)) ts)) <= 531 * length ts)%nat).
    { induction ts as [|[k v] ts IH]; intros H; cbn [map concat length]; [lia|].
      rewrite app_length. cbn [fst snd].
      destruct (H k v (or_introl eq_refl)) as [A B].
      pose proof (wire_tag_bytes_length k v A B).
      specialize (IH (fun k v Hin => H k v (or_intror Hin))). lia. }
    specialize (Hlen _ Hval').
    assert (Hel : (length (exported it) <= length it)%nat).
    { unfold exported. rewrite map_length. clear.
      induction it as [|x it IH]; simpl; [lia|]. destruct (_ =? _)%Z; simpl; lia. }
    apply Permutation_length in HP. unfold b. simpl length. lia. }
  destruct (decode_accept b (exported it) Hb Hm Hval') as (m' & Hd & Hf).
  exists b, m'. split; [exact He|]. split; [exact Hd|].
  intros k. rewrite Hf. unfold tags_fun.
  assert (Hg : tget m k = tget it k).
  { unfold tget. apply mget_perm; auto. apply bytes_eqb_spec. }
  rewrite Hg.
  destruct (tget it k) as [c|] eqn:Hc.
  - apply mget_In in Hc; [|apply bytes_eqb_spec].
    destruct (Z.eqb_spec (c_ttl c) (-1)) as [Ht|Ht].
    + erewrite fold_fset_in with (v := c_value c).
      * destruct c; simpl in *. now subst.
      * now apply exported_nodup.
      * apply exported_in. eauto.
    + rewrite fold_fset_notin; [reflexivity|].
      intros Hin. apply in_map_iff in Hin. destruct Hin as ((k' & v') & Hk & Hin).
      simpl in Hk. subst k'. apply exported_in in Hin.
      destruct Hin as (c' & Hin & Ht' & _).
      assert (c' = c).
      { apply (In_mget bytes_eqb bytes_eqb_spec) in Hin; auto.
        apply (In_mget bytes_eqb bytes_eqb_spec) in Hc; auto. congruence. }
      congruence.
  - rewrite fold_fset_notin; [reflexivity|].
    intros Hin. apply in_map_iff in Hin. destruct Hin as ((k' & v') & Hk & Hin).
    simpl in Hk. subst k'. apply exported_in in Hin.
    destruct Hin as (c' & Hin & _).
    apply (In_mget bytes_eqb bytes_eqb_spec) in Hin; auto.
    unfold tget in Hc. congruence.
Qed.

(** ** Invariant of all histories *)

Definition wf_state (s : tag_state) : Prop :=
  (forall p, (p < length (st_heap s))%nat -> mwf (heap_get (st_heap s) p)) /\
  (forall c p, In c (st_ctxs s) -> c = Some p -> (p < length (st_heap s))%nat).

Definition small_op (op : tag_op) : Prop :=
  match op with OpNew _ _ _ => True | OpDecode _ b => N.of_nat (length b) < 2 ^ 63 end.

Lemma decode_wf b m : decode b = DecOk m -> mwf m.
Proof.
  unfold decode. destruct (decode_each b) as [calls o]. destruct o; try discriminate.
  intros [= <-]. apply (upserts_inv (fun m => mwf m)); [|constructor].
  intros. apply mwf_mset; auto. apply bytes_eqb_spec.
Qed.

Lemma decode_loop_valid : forall fuel buf ridx acc calls o,
  decode_loop fuel buf ridx acc = (calls, o) -> valid_tags acc -> valid_tags calls.
Proof.
  induction fuel as [|f IH]; intros buf ridx acc calls o H Ha; cbn [decode_loop] in H.
  - injection H as <- <-. exact Ha.
  - destruct (Nat.leb (length buf) ridx); [injection H as <- <-; exact Ha|].
    destruct (negb (byte_eqb (nth ridx buf x00) key_type_string)); [injection H as <- <-; exact Ha|].
    destruct (read_bytes_with_varint_len buf (S ridx)) as [[k r1]| |]; try (injection H as <- <-; exact Ha).
    destruct (read_bytes_with_varint_len buf r1) as [[v r2]| |]; try (injection H as <- <-; exact Ha).
    unfold new_key in H. destruct (check_key_name k) eqn:Hk; [|injection H as <- <-; exact Ha].
    destruct (check_value v) eqn:Hv; simpl in H; [|injection H as <- <-; exact Ha].
    eapply IH; [exact H|]. intros k' c' Hin. apply in_app_or in Hin.
    destruct Hin as [Hin|[[= <- <-]|[]]]; [auto|].
    split; [now apply check_key_name_spec|now apply check_value_spec].
Qed.

Lemma decode_valid b m : decode b = DecOk m -> valid_tags m.
Proof.
  unfold decode. destruct (decode_each b) as [calls o] eqn:E. destruct o; try discriminate.
  intros [= <-].
  assert (Hc : valid_tags calls).
  { unfold decode_each in E. destruct b as [|version w].
    - injection E as <-. intros ? ? [].
    - destruct (b2n tags_version <? b2n version); [discriminate|].
      eapply decode_loop_valid; [exact E|]. intros ? ? []. }
  apply (upserts_inv valid_tags); [|intros ? ? []].
  intros m k c Hin Hm. destruct (Hc k c Hin). now apply valid_tags_mset.
Qed.

Lemma nth_In_or_default {A} (l : list A) i d : In (nth i l d) l \/ nth i l d = d.
Proof.
  revert i; induction l as [|a l IH]; intros [|i]; simpl; auto.
  destruct (IH i); auto.
Qed.

Lemma step_ext s op :
  (length (st_heap s) <= length (st_heap (tag_step s op)))%nat /\
  forall p, (p < length (st_heap s))%nat ->
    heap_get (st_heap (tag_step s op)) p = heap_get (st_heap s) p.
Proof.
  destruct op as [i it ms|i b]; simpl.
  - destruct (tag_new _ _ it ms) as [[h' c'] e] eqn:E. simpl.
    apply tag_new_frame in E. destruct E as [Hl Hf]. split; [lia|auto].
  - destruct (decode b); simpl; auto.
    rewrite app_length. simpl. split; [lia|].
    intros. now apply heap_get_app_l.
Qed.

Lemma tag_new_ctx h c it ms h' c' e :
  tag_new h c it ms = (h', c', e) ->
  (c' = Some (length h) /\ e = None) \/ (c' = c /\ e <> None).
Proof.
  unfold tag_new.
  destruct (match c with None => (h ++ [new_map], None)
                       | Some _ => copy_loop it (h ++ [new_map]) (length h) end) as [h1 e1].
  destruct e1; [intros [= <- <- <-]; right; split; congruence|].
  destruct (mutate_loop ms h1 (length h)) as [h2 e2].
  destruct e2; intros [= <- <- <-]; [right; split; congruence|left; auto].
Qed.

Lemma reach_wf P s : tag_reach P s -> wf_state s.
Proof.
  induction 1 as [|s i it ms Hs IH Hit Hk|s i b Hs IH].
  - split; simpl; [intros; lia|]. intros c p [<-|[]] ?; discriminate.
  - destruct IH as [IH1 IH2]. simpl.
    set (c := nth i (st_ctxs s) None) in *.
    destruct (tag_new (st_heap s) c it ms) as [[h' c'] e] eqn:E.
    pose proof (tag_new_frame _ _ _ _ _ _ _ E) as [Hl Hf].
    split; simpl.
    + intros p Hp. destruct (Nat.eq_dec p (length (st_heap s))) as [->|Hne].
      * eapply (tag_new_inv (fun m => mwf m) (fun _ => True)); [| |auto| |exact E].
        -- intros m k c0 _ _ Hm. unfold t_insert. destruct (tget m k); auto.
           apply mwf_mset; auto. apply bytes_eqb_spec.
        -- intros mu m m' _ Hm Hw. eapply mutate_wf; eauto.
        -- constructor.
      * rewrite Hf by lia. apply IH1. lia.
    + intros c0 p Hin ->. apply in_app_or in Hin.
      destruct Hin as [Hin|[Hin|[]]].
      * specialize (IH2 _ p Hin eq_refl). lia.
      * apply tag_new_ctx in E. destruct E as [[-> _]|[-> _]].
        -- injection Hin as <-. lia.
        -- destruct (nth_In_or_default (st_ctxs s) i None) as [Hn|Hn]; fold c in Hn.
           ++ rewrite Hin in Hn. specialize (IH2 _ p Hn eq_refl). lia.
           ++ congruence.
  - destruct IH as [IH1 IH2]. simpl. destruct (decode b) as [m| | |] eqn:E; try (split; assumption).
    split; simpl.
    + intros p Hp. rewrite app_length in Hp. simpl in Hp.
      destruct (Nat.eq_dec p (length (st_heap s))) as [->|Hne].
      * rewrite heap_get_app_r. eapply decode_wf; eauto.
      * rewrite heap_get_app_l by lia. apply IH1. lia.
    + intros c0 p Hin ->. rewrite app_length. simpl.
      apply in_app_or in Hin. destruct Hin as [Hin|[Hin|[]]].
      * specialize (IH2 _ p Hin eq_refl). lia.
      * injection Hin as <-. lia.
Qed.

Lemma reach_valid s : tag_reach valid_key s ->
  forall p, (p < length (st_heap s))%nat -> valid_tags (heap_get (st_heap s) p).
Proof.
  induction 1 as [|s i it ms Hs IH Hit Hk|s i b Hs IH].
  - simpl. intros; lia.
  - simpl. set (c := nth i (st_ctxs s) None) in *.
    destruct (tag_new (st_heap s) c it ms) as [[h' c'] e] eqn:E.
    pose proof (tag_new_frame _ _ _ _ _ _ _ E) as [Hl Hf]. simpl.
    intros p Hp. destruct (Nat.eq_dec p (length (st_heap s))) as [->|Hne].
    + eapply (tag_new_inv valid_tags (fun mu => valid_key (mutator_key mu))); [| |exact Hk| |exact E].
      * intros m k c0 Hk0 Hv0 Hm. unfold t_insert. destruct (tget m k); auto.
        now apply valid_tags_mset.
      * intros mu m m' Hmk Hm Hw. eapply mutate_valid; eauto.
      * intros ? ? [].
    + rewrite Hf by lia. apply IH. lia.
  - simpl. destruct (decode b) as [m| | |] eqn:E; auto. simpl.
    intros p Hp. rewrite app_length in Hp. simpl in Hp.
    destruct (Nat.eq_dec p (length (st_heap s))) as [->|Hne].
    + rewrite heap_get_app_r. eapply decode_valid; eauto.
    + rewrite heap_get_app_l by lia. apply IH. lia.
Qed.

(** A length prefix that overflows the signed end position panics. *)
Lemma read_panic pre l n r :
  len_prefix l n ->
  N.of_nat (length (pre ++ l ++ r)) < 2 ^ 63 ->
  2 ^ 63 <= N.of_nat (length pre) + N.of_nat (length l) + n ->
  read_bytes_with_varint_len (pre ++ l ++ r) (length pre) = Panic.
Proof.
  intros Hl Hsz Hbig. unfold read_bytes_with_varint_len.
  assert (H1 : (1 <= length l)%nat) by (apply (uv_length _ _ (proj1 Hl))).
  assert (Hn : n < 2 ^ 64) by apply Hl.
  rewrite !app_length in Hsz |- *.
  destruct (Nat.leb_spec (length pre + (length l + length r)) (length pre)); [lia|].
  rewrite skipn_app_exact, (uvarint_prefix _ _ _ Hl).
  destruct (Z.leb_spec (Z.of_nat (length l)) 0); [lia|].
  set (ve := int64_of _).
  assert (Hve : (ve = Z.of_nat (length pre) + Z.of_nat (length l) + Z.of_N n - 2 ^ 64)%Z).
  { subst ve. clear - Hsz Hbig Hn. unfold int64_of. lia. }
  destruct (Z.ltb_spec (Z.of_nat (length pre + (length l + length r))) ve); [lia|].
  destruct (Z.ltb_spec ve (Z.of_nat (length pre) + Z.of_nat (length l))); [reflexivity|lia].
Qed.

Lemma decode_loop_prefix_panic : forall w ts, wire w ts -> forall pre fuel acc l n r,
  (forall k v, In (k, v) ts -> valid_key k /\ valid_value v) ->
  len_prefix l n ->
  N.of_nat (length (pre ++ w ++ x00 :: l ++ r)) < 2 ^ 63 ->
  2 ^ 63 <= N.of_nat (S (length (pre ++ w))) + N.of_nat (length l) + n ->
  (length w + 1 < fuel)%nat ->
  snd (decode_loop fuel (pre ++ w ++ x00 :: l ++ r) (length pre) acc) = Panicked.
Proof.
  induction 1 as [|lk k lv v q ts Hlk Hlv Hw IH];
    intros pre fuel acc l n r Hval Hl Hsz Hbig Hf.
  - destruct fuel as [|f]; [simpl in Hf; lia|].
    simpl app in *. rewrite app_nil_r in Hbig.
    cbn [decode_loop].
    destruct (Nat.leb_spec (length (pre ++ x00 :: l ++ r)) (length pre)) as [Hle|].
    { rewrite app_length in Hle. simpl in Hle. lia. }
    rewrite app_nth2, Nat.sub_diag by lia. cbn [nth].
    replace (byte_eqb x00 key_type_string) with true by reflexivity. cbn [negb].
    replace (pre ++ x00 :: l ++ r) with ((pre ++ [x00]) ++ l ++ r) in * by now rewrite <- app_assoc.
    replace (S (length pre)) with (length (pre ++ [x00])) in * by (rewrite app_length; simpl; lia).
    rewrite (read_panic _ _ n); auto.
  - destruct fuel as [|f]; [simpl in Hf; lia|].
    set (tail := x00 :: l ++ r) in *.
    assert (E0 : (x00 :: lk ++ k ++ lv ++ v ++ q) ++ tail
      = x00 :: lk ++ k ++ lv ++ v ++ (q ++ tail)).
    { simpl. rewrite <- !app_assoc. reflexivity. }
    rewrite E0 in *.
    cbn [decode_loop].
    destruct (Nat.leb_spec (length (pre ++ x00 :: lk ++ k ++ lv ++ v ++ q ++ tail)) (length pre)) as [Hle|].
    { rewrite app_length in Hle. simpl in Hle. lia. }
    rewrite app_nth2, Nat.sub_diag by lia. cbn [nth].
    replace (byte_eqb x00 key_type_string) with true by reflexivity. cbn [negb].
    destruct (Hval k v (or_introl eq_refl)) as [Hk Hv].
    assert (E1 : pre ++ x00 :: lk ++ k ++ lv ++ v ++ q ++ tail
      = (pre ++ [x00]) ++ lk ++ k ++ (lv ++ v ++ q ++ tail)) by (rewrite <- app_assoc; reflexivity).
    replace (S (length pre)) with (length (pre ++ [x00])) by (rewrite app_length; simpl; lia).
    rewrite E1 at 1. rewrite read_ok; [|exact Hlk|rewrite <- E1; exact Hsz].
    assert (E2 : pre ++ x00 :: lk ++ k ++ lv ++ v ++ q ++ tail
      = (pre ++ x00 :: lk ++ k) ++ lv ++ v ++ (q ++ tail)).
    { rewrite <- !app_assoc. simpl. rewrite <- !app_assoc. reflexivity. }
    replace (length (pre ++ [x00]) + length lk + length k)%nat
      with (length (pre ++ x00 :: lk ++ k))
      by (rewrite !app_length; simpl; rewrite app_length; lia).
    rewrite E2 at 1. rewrite read_ok; [|exact Hlv|rewrite <- E2; exact Hsz].
    unfold new_key. rewrite (proj2 (check_key_name_spec k) Hk).
    rewrite (proj2 (check_value_spec v) Hv). cbn [negb].
    assert (E3 : pre ++ x00 :: lk ++ k ++ lv ++ v ++ q ++ tail
      = (pre ++ x00 :: lk ++ k ++ lv ++ v) ++ q ++ tail).
    { rewrite <- !app_assoc. simpl. rewrite <- !app_assoc. reflexivity. }
    replace (length (pre ++ x00 :: lk ++ k) + length lv + length v)%nat
      with (length (pre ++ x00 :: lk ++ k ++ lv ++ v))
      by (rewrite !app_length; simpl; rewrite !app_length; lia).
    rewrite E3 in *. eapply IH; eauto.
    + intros; apply Hval; now right.
    + revert Hbig. rewrite !app_length. simpl. rewrite !app_length. lia.
    + revert Hf. simpl. rewrite !app_length. lia.
Qed.

Lemma decode_prefix_panic w ts l n r :
  wire w ts -> (forall k v, In (k, v) ts -> valid_key k /\ valid_value v) ->
  len_prefix l n ->
  N.of_nat (length (x00 :: w ++ x00 :: l ++ r)) < 2 ^ 63 ->
  2 ^ 63 <= N.of_nat (length w) + 2 + N.of_nat (length l) + n ->
  decode (x00 :: w ++ x00 :: l ++ r) = DecPanic.
Proof.
  intros Hw Hval Hl Hsz Hbig. unfold decode. cbn [decode_each].
  replace (b2n tags_version <? b2n x00) with false by reflexivity.
  pose proof (decode_loop_prefix_panic w ts Hw [x00]
     (S (length (x00 :: w ++ x00 :: l ++ r))) [] l n r Hval Hl Hsz) as H.
  simpl app in H. change (length [x00]) with 1%nat in H.
  destruct (decode_loop _ _ _ _) as [calls o]. simpl in H.
  rewrite H; [reflexivity| |].
  - simpl length. lia.
  - simpl. rewrite app_length. simpl. lia.
Qed.
