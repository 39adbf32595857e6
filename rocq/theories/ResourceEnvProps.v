(** C71: the resource read from the environment. *)

From Coq Require Import String.
From Coq Require Import List Arith NArith Bool Lia Permutation ZifyBool ZifyNat ZifyN.
From Verif Require Import Base ListLib GoMap GoSort Text Utf8 ResourceModel ResourceSpec ResourceProofs ResourceProps.
Import ListNotations.
Open Scope nat_scope.

(** ** Trimming *)

Lemma white_spec w : white w <-> In w space_runes.
Proof.
  unfold white, space_runes. rewrite in_map_iff. split.
  - intros (r & -> & H). exists r. split; [reflexivity|]. rewrite !in_app_iff, in_map_iff.
    destruct H as [H | H].
    + cbn [In] in H |- *. intuition.
    + right. left. exists (N.to_nat (r - 8192)). rewrite in_seq. lia.
  - intros (r & <- & H). exists r. split; [reflexivity|]. rewrite !in_app_iff, in_map_iff in H. destruct H as [H | [(i & <- & Hi) | H]].
    + left. cbn [In] in H |- *. intuition.
    + right. apply in_seq in Hi. lia.
    + left. cbn [In] in H |- *. intuition.
Qed.

Lemma strip_spec p : forall s r, strip_prefix p s = Some r <-> s = p ++ r.
Proof.
  induction p as [|a p IH]; intros s r; cbn [strip_prefix app].
  - split; [intros [= ->]; reflexivity | intros ->; reflexivity].
  - destruct s as [|b s]; [split; discriminate|]. destruct (byte_eqb_spec a b) as [-> | Hn].
    + rewrite IH. split; [intros ->; reflexivity | intros [= ->]; reflexivity].
    + split; [discriminate | intros [= -> _]; contradiction].
Qed.

(** No element is a proper prefix of another, none is empty. *)
Definition prefix_free (sp : list bytes) : Prop :=
  (forall p, In p sp -> p <> []) /\ forall p q r, In p sp -> In q sp -> q = p ++ r -> r = [].
Definition prefix_freeb (sp : list bytes) : bool :=
  forallb (fun p => match p with [] => false | _ => true end) sp &&
  forallb (fun p => forallb (fun q => match strip_prefix p q with Some (_ :: _) => false | _ => true end) sp) sp.
Lemma prefix_freeb_ok sp : prefix_freeb sp = true -> prefix_free sp.
Proof.
  unfold prefix_freeb. rewrite andb_true_iff, !forallb_forall. intros [H1 H2]. split.
  - intros p Hp ->. specialize (H1 [] Hp). discriminate.
  - intros p q r Hp Hq E. specialize (H2 p Hp). rewrite forallb_forall in H2. specialize (H2 q Hq).
    rewrite (proj2 (strip_spec p q r) E) in H2. destruct r; [reflexivity | discriminate].
Qed.
Lemma space_prefix_free : prefix_free space_runes /\ prefix_free (map (@rev byte) space_runes).
Proof. split; apply prefix_freeb_ok; vm_compute; reflexivity. Qed.

Lemma prefix_cmp {A} (p q : list A) : forall s t, p ++ s = q ++ t -> (exists r, q = p ++ r) \/ (exists r, p = q ++ r).
Proof.
  revert q. induction p as [|a p IH]; intros q s t H; [left; exists q; reflexivity|].
  destruct q as [|b q]; [right; eexists; reflexivity|]. cbn [app] in H. injection H as -> H.
  destruct (IH q s t H) as [(r & ->) | (r & ->)]; [left | right]; exists r; reflexivity.
Qed.

Inductive run (sp : list bytes) : bytes -> Prop :=
| run_nil : run sp []
| run_cons p s : In p sp -> run sp s -> run sp (p ++ s).

(** What [trim_left] takes off, and that it takes off exactly the run in front of something
    that does not start with one. *)
Lemma trim_left_splits sp : (forall p, In p sp -> p <> []) -> forall n s, length s <= n ->
  exists a, s = a ++ trim_left sp n s /\ run sp a /\ forall p r, In p sp -> trim_left sp n s <> p ++ r.
Proof.
  intros Hne. induction n as [|n IH]; intros s Hl.
  - destruct s; [|cbn in Hl; lia]. exists []. split; [reflexivity|]. split; [constructor|]. cbn [trim_left]. intros p r Hp E.
    specialize (Hne p Hp). destruct p; [congruence | discriminate].
  - cbn [trim_left]. destruct (first_some _ sp) as [r|] eqn:E.
    + apply first_some_some in E. destruct E as (p & Hp & E). apply strip_spec in E. subst s.
      rewrite app_length in Hl. specialize (Hne p Hp). destruct p as [|c p]; [congruence|]. cbn [length] in Hl.
      destruct (IH r) as (a & Ea & Hr & Hn); [lia|]. exists ((c :: p) ++ a). split; [rewrite <- app_assoc; f_equal; exact Ea|].
      split; [constructor; assumption | exact Hn].
    + exists []. split; [reflexivity|]. split; [constructor|]. intros p r Hp Es.
      assert (X : forall l, first_some (fun p => strip_prefix p s) l = None -> forall q, In q l -> strip_prefix q s = None).
      { induction l as [|x l IHl]; cbn [first_some]; [intros _ ? []|]. destruct (strip_prefix x s) eqn:Ex; [discriminate|].
        intros H q [-> | Hq]; [exact Ex | exact (IHl H q Hq)]. }
      specialize (X sp E p Hp). rewrite (proj2 (strip_spec p s r) Es) in X. discriminate.
Qed.

Lemma run_unique sp : prefix_free sp -> forall a, run sp a -> forall b s t, run sp b -> a ++ s = b ++ t ->
  (forall p r, In p sp -> s <> p ++ r) -> (forall p r, In p sp -> t <> p ++ r) -> s = t.
Proof.
  intros [Hne Hpf] a Ha. induction Ha as [|p a Hp Ha IH]; intros b s t Hb E Hs Ht.
  - destruct Hb as [|q b Hq Hb]; [exact E|]. exfalso. rewrite <- app_assoc in E. exact (Hs q _ Hq E).
  - destruct Hb as [|q b Hq Hb].
    + exfalso. rewrite <- app_assoc in E. cbn [app] in E. exact (Ht p _ Hp (eq_sym E)).
    + rewrite <- !app_assoc in E. assert (p = q).
      { destruct (prefix_cmp p q _ _ E) as [(r & Er) | (r & Er)].
        - rewrite (Hpf p q r Hp Hq Er), app_nil_r in Er. congruence.
        - rewrite (Hpf q p r Hq Hp Er), app_nil_r in Er. congruence. }
      subst q. apply app_inv_head in E. exact (IH b s t Hb E Hs Ht).
Qed.

Lemma run_app sp a b : run sp a -> run sp b -> run sp (a ++ b).
Proof. intros Ha Hb. induction Ha as [|p a Hp Ha IH]; [exact Hb|]. rewrite <- app_assoc. constructor; assumption. Qed.
Lemma run_rev sp a : run sp a -> run (map (@rev byte) sp) (rev a).
Proof.
  induction 1 as [|p a Hp Ha IH]; [constructor|]. rewrite rev_app_distr. apply run_app; [exact IH|].
  rewrite <- (app_nil_r (rev p)). constructor; [apply in_map; exact Hp | constructor].
Qed.
Lemma run_rev' sp a : run (map (@rev byte) sp) a -> run sp (rev a).
Proof.
  intros H. apply run_rev in H. rewrite map_map in H. rewrite (map_ext _ (fun x => x)), map_id in H; [exact H|]. intros x. apply rev_involutive.
Qed.
Lemma blank_spec s : blank s <-> run space_runes s.
Proof. split; induction 1; try constructor; try assumption; apply white_spec; assumption. Qed.

Lemma in_rev_map p : In p space_runes <-> In (rev p) (map (@rev byte) space_runes).
Proof.
  split; [apply in_map|]. intros H. apply in_map_iff in H. destruct H as (q & E & Hq).
  apply (f_equal (@rev byte)) in E. rewrite !rev_involutive in E. now subst.
Qed.

Lemma trim_space_trimmed s : trimmed s (trim_space s).
Proof.
  destruct space_prefix_free as [[Hne1 _] [Hne2 _]]. unfold trim_space.
  destruct (trim_left_splits space_runes Hne1 (length s) s (le_n _)) as (a & Ea & Ha & Hna).
  set (x := trim_left space_runes (length s) s) in *.
  destruct (trim_left_splits _ Hne2 (length x) (rev x)) as (b & Eb & Hb & Hnb); [rewrite rev_length; apply le_n|].
  set (y := trim_left (map (@rev byte) space_runes) (length x) (rev x)) in *.
  assert (Ex : x = rev y ++ rev b) by (apply (f_equal (@rev byte)) in Eb; rewrite rev_involutive, rev_app_distr in Eb; exact Eb).
  split; [|split].
  - exists a, (rev b). split; [rewrite <- Ex; exact Ea|]. rewrite !blank_spec. split; [exact Ha | apply run_rev'; exact Hb].
  - intros w r Hw E. apply white_spec in Hw. apply (Hna w (r ++ rev b) Hw). rewrite Ex, E. now rewrite <- app_assoc.
  - intros w r Hw E. apply white_spec, in_rev_map in Hw. apply (Hnb (rev w) (rev r) Hw). rewrite <- rev_app_distr, <- E. now rewrite rev_involutive.
Qed.

(** A byte inside an encoding starts no encoding. *)
Lemma inner_not_first t c q p r : In (t ++ c :: q) space_runes -> t <> [] -> In (p :: r) space_runes -> c <> p.
Proof.
  assert (H : forallb (fun w => forallb (fun c => forallb (fun v => match v with p :: _ => negb (byte_eqb c p) | [] => true end) space_runes) (tl w)) space_runes = true)
    by (vm_compute; reflexivity).
  intros H1 Ht H2 ->. rewrite forallb_forall in H. specialize (H _ H1). rewrite forallb_forall in H.
  destruct t as [|x t]; [congruence|]. specialize (H p). rewrite forallb_forall in H.
  specialize (H (in_or_app t (p :: q) p (or_intror (or_introl eq_refl))) _ H2). cbn beta iota in H. now rewrite byte_eqb_refl in H.
Qed.

Lemma trimmed_front t b : (forall w r, white w -> t <> w ++ r) -> t <> [] -> run space_runes b -> forall p r, In p space_runes -> t ++ b <> p ++ r.
Proof.
  intros Ht Hn Hb p r Hp Eq. destruct (prefix_cmp t p b r Eq) as [(q & Eq') | (q & Eq')].
  - subst p. rewrite <- app_assoc in Eq. apply app_inv_head in Eq. subst b. destruct q as [|c q].
    + apply (Ht t []); [apply white_spec; now rewrite app_nil_r in Hp | now rewrite app_nil_r].
    + remember ((c :: q) ++ r) as l eqn:El. destruct Hb as [|w b Hw Hb]; [discriminate|].
      destruct w as [|x w]; [exact (proj1 (proj1 space_prefix_free) [] Hw eq_refl)|]. cbn [app] in El. injection El as -> _.
      exact (inner_not_first t c q c w Hp Hn Hw eq_refl).
  - apply (Ht p q); [apply white_spec; exact Hp | exact Eq'].
Qed.

Lemma nil_front p r : In p space_runes -> @nil byte <> p ++ r.
Proof. intros Hp E. apply (proj1 (proj1 space_prefix_free) p Hp). destruct p; [reflexivity | discriminate]. Qed.

(** A string has only one trimmed form. *)
Lemma trimmed_unique s t1 t2 : trimmed s t1 -> trimmed s t2 -> t1 = t2.
Proof.
  destruct space_prefix_free as [F1 F2]. intros ((a1 & b1 & E1 & A1 & B1) & S1 & T1) ((a2 & b2 & E2 & A2 & B2) & S2 & T2).
  apply blank_spec in A1, A2, B1, B2. subst s.
  assert (Hone : forall a b a' t' b', run space_runes a -> run space_runes b -> run space_runes a' -> run space_runes b' ->
            (forall w r, white w -> t' <> w ++ r) -> a ++ b = a' ++ t' ++ b' -> t' = []).
  { intros a b a' t' b' Ha Hb Ha' Hb' Ht E. destruct t' as [|x t']; [reflexivity|]. exfalso.
    assert (X : [] = (x :: t') ++ b').
    { apply (run_unique _ F1 (a ++ b) (run_app _ _ _ Ha Hb) a'); [exact Ha' | now rewrite app_nil_r | intros p r; apply nil_front|].
      apply trimmed_front; [exact Ht | discriminate | exact Hb']. }
    discriminate. }
  destruct t1 as [|x1 t1]; [symmetry; exact (Hone a1 b1 a2 t2 b2 A1 B1 A2 B2 S2 E2)|].
  destruct t2 as [|x2 t2]; [exact (Hone a2 b2 a1 _ b1 A2 B2 A1 B1 S1 (eq_sym E2))|].
  assert (E : (x1 :: t1) ++ b1 = (x2 :: t2) ++ b2).
  { apply (run_unique _ F1 a1 A1 a2); [exact A2 | exact E2 | |]; apply trimmed_front; try assumption; discriminate. }
  clear E2. remember (x1 :: t1) as u1. remember (x2 :: t2) as u2.
  assert (Hr : forall u, (forall w r, white w -> u <> r ++ w) -> forall p r, In p (map (@rev byte) space_runes) -> rev u <> p ++ r).
  { intros u Hu p r Hp Eu. apply in_map_iff in Hp. destruct Hp as (w & <- & Hw). apply (Hu w (rev r)); [apply white_spec; exact Hw|].
    apply (f_equal (@rev byte)) in Eu. rewrite rev_involutive, rev_app_distr, rev_involutive in Eu. exact Eu. }
  assert (X : rev u1 = rev u2).
  { apply (run_unique _ F2 (rev b1) (run_rev _ _ B1) (rev b2)); [apply run_rev; exact B2 | | apply Hr; exact T1 | apply Hr; exact T2].
    rewrite <- !rev_app_distr. now rewrite E. }
  apply (f_equal (@rev byte)) in X. now rewrite !rev_involutive in X.
Qed.

Lemma trim_space_spec s t : trimmed s t -> trim_space s = t.
Proof. intros H. eapply trimmed_unique; [apply trim_space_trimmed | exact H]. Qed.

(** ** C71 *)

(** The type is the variable without the white space around it; without labels (nothing or
    white space only) there is no label map; otherwise the labels are those DecodeLabels
    reads, and its error is the result. *)
Theorem C71_from_env (ty ls ty' ls' : bytes) :
  trimmed ty ty' -> trimmed ls ls' ->
  (ls' = [] -> from_env ty ls = Ok (ty', None)) /\
  (ls' <> [] -> forall m, decode_labels ls' = Ok m -> from_env ty ls = Ok (ty', Some m)) /\
  (ls' <> [] -> forall e, decode_labels ls' = Err e -> from_env ty ls = Err e) /\
  from_env ty ls <> Panic.
Proof.
  intros Ht Hl. apply trim_space_spec in Ht, Hl. unfold from_env. rewrite Ht, Hl.
  split; [intros ->; reflexivity|]. split; [|split].
  - intros Hn m E. destruct ls'; [congruence|]. now rewrite E.
  - intros Hn e E. destruct ls'; [congruence|]. now rewrite E.
  - pose proof (C47_no_panic ls') as Hp. destruct ls'; [discriminate|]. destruct (decode_labels _); congruence.
Qed.

(** Every string has one trimmed form, so [C71_from_env] is about all variables. *)
Theorem C71_trimmed (s : bytes) : exists t, trimmed s t /\ forall t', trimmed s t' -> t' = t.
Proof. exists (trim_space s). split; [apply trim_space_trimmed|]. intros t' H. symmetry. apply trim_space_spec. exact H. Qed.

Lemma white_first w : white w -> exists c r, w = c :: r /\ (is_space c = true \/ (128 <= b2n c)%N).
Proof. intros H. apply space_runes_head. apply white_spec. exact H. Qed.
Lemma white_last w : white w -> exists c r, w = r ++ [c] /\ (is_space c = true \/ (128 <= b2n c)%N).
Proof.
  intros H. apply white_spec, in_rev_map in H. destruct (space_runes_last _ H) as (c & r & E & Hc). exists c, (rev r).
  split; [|exact Hc]. apply (f_equal (@rev byte)) in E. rewrite rev_involutive in E. exact E.
Qed.

(** A resource written with EncodeLabels into the variable, with white space around it or
    not, is read back: the type and the same labels. *)
Theorem C71_roundtrip (u : unicode) (o : order) (m : labels) (ty ty' a b : bytes) :
  mwf m -> m <> [] ->
  (forall k v, mget bytes_eqb m k = Some v -> safe_key k /\ safe_value u v) ->
  trimmed ty ty' -> blank a -> blank b ->
  exists m', from_env ty (a ++ encode_labels u o m ++ b) = Ok (ty', Some m') /\ mwf m' /\ forall k, mget bytes_eqb m' k = mget bytes_eqb m k.
Proof.
  intros W Hne Hsafe Ht Ha Hb. destruct (C47_roundtrip u o m W Hne Hsafe) as (m' & E & W' & Hm). exists m'. split; [|split; assumption].
  assert (Hshape : (exists c s, encode_labels u o m = c :: s /\ is_space c = false /\ (b2n c < 128)%N) /\ exists z, encode_labels u o m = z ++ [dquote]).
  { unfold encode_labels. set (ks := isort bytes_ltb (ord o _ (mkeys m))).
    assert (P : Permutation ks (mkeys m)) by (unfold ks; rewrite isort_perm; apply (ord_perm o)).
    destruct ks as [|k ks'] eqn:Eks; [apply Permutation_nil in P; destruct m; [congruence | discriminate]|]. split.
    - assert (Hk : In k (mkeys m)) by (rewrite <- P; left; reflexivity). destruct (mget bytes_eqb m k) as [v|] eqn:Ev; [|apply (mget_None bytes_eqb bytes_eqb_spec) in Ev; contradiction].
      destruct (Hsafe k v Ev) as [(Hl & Hasc & Hs & _) _]. destruct k as [|c k]; [cbn in Hl; lia|]. inversion Hasc; subst.
      cbn [map]. exists c. unfold encode_label at 1. destruct (map (encode_label u m) ks'); cbn [join_comma app]; eexists; (split; [reflexivity|]); (split; [apply (Hs c k eq_refl) | assumption]).
    - apply join_comma_last; [discriminate|]. intros y Hy. apply in_map_iff in Hy. destruct Hy as (k' & <- & _). unfold encode_label, quote. eexists. rewrite !app_assoc. reflexivity. }
  destruct Hshape as [(c & s & Ec & Hc & Hc') (z & Ez)].
  destruct (C71_from_env ty (a ++ encode_labels u o m ++ b) ty' (encode_labels u o m) Ht) as (_ & H & _).
  - split; [exists a, b; auto|]. split.
    + intros w r Hw Ew. destruct (white_first w Hw) as (d & q & -> & Hd). rewrite Ec in Ew. cbn [app] in Ew. injection Ew as -> _. destruct Hd; [congruence | lia].
    + intros w r Hw Ew. destruct (white_last w Hw) as (d & q & -> & Hd). rewrite Ez, app_assoc in Ew. apply app_inj_tail in Ew. destruct Ew as [_ <-].
      destruct Hd as [Hd | Hd]; vm_compute in Hd; [discriminate | now apply Hd].
  - apply H; [rewrite Ec; discriminate | exact E].
Qed.

(** A type in no-break and ordinary spaces, labels after a line feed. *)
Example C71_example :
  trimmed (n2b 194 :: n2b 160 :: bs "k8s.io/pod  ") (bs "k8s.io/pod") /\
  from_env (n2b 194 :: n2b 160 :: bs "k8s.io/pod  ") ([n2b 10] ++ encode_labels no_unicode id_order c47_map ++ bs " ") = Ok (bs "k8s.io/pod", Some (rev c47_map)) /\
  from_env (bs "x") (bs "  ") = Ok (bs "x", None) /\ from_env (bs "x") (bs "k") = Err ErrFormat.
Proof.
  split; [|split; [|split]]; [|vm_compute; reflexivity..].
  replace (bs "k8s.io/pod") with (trim_space (n2b 194 :: n2b 160 :: bs "k8s.io/pod  ")) by (vm_compute; reflexivity). apply trim_space_trimmed.
Qed.

Print Assumptions C71_from_env.
Print Assumptions C71_trimmed.
Print Assumptions C71_roundtrip.
