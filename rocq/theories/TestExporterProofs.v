(** Proofs about the test exporter. *)

From Coq Require Import String.
From Coq Require Import List Arith NArith ZArith Bool Permutation Sorted Lia.
From Verif Require Import Base GoMap GoSort Text Float64 TagModel AggModel ViewModel WorkerModel ReaderModel ProcessModel
  TestExporterModel TestExporterSpec.
Import ListNotations.
Open Scope nat_scope.

Definition text (s : list (bytes * bytes)) : bytes := flat_map (fun x => fst x ++ snd x) s.

Lemma present_combine keys : forall values,
  flat_map (fun kv : bytes * option bytes => match snd kv with Some v => [(fst kv, v)] | None => [] end) (combine keys values) = labels_present keys values.
Proof.
  induction keys as [|k keys IH]; intros [|[v|] values]; try reflexivity; cbn [combine flat_map labels_present fst snd app]; now rewrite IH.
Qed.

Lemma by_key_trans a b c : by_key a b -> by_key b c -> by_key a c.
Proof. unfold by_key. intros H1 H2. exact (bytes_leb_trans (fst a) (fst b) (fst c) H1 H2). Qed.

(** A map has one order by key. *)
Lemma sorted_unique l : forall l', NoDup (map fst l) -> StronglySorted by_key l -> StronglySorted by_key l' -> Permutation l l' -> l = l'.
Proof.
  induction l as [|x l IH]; intros l' N H H' P.
  - apply Permutation_nil in P. now subst.
  - destruct l' as [|y l']; [symmetry in P; now apply Permutation_nil_cons in P|].
    inversion H as [|? ? Hl Hx]; inversion H' as [|? ? Hl' Hy]; inversion N as [|? ? Nx Nl]; subst.
    rewrite Forall_forall in Hx, Hy.
    assert (E : x = y).
    { assert (Ix : In x (y :: l')) by (eapply Permutation_in; [exact P|now left]).
      assert (Iy : In y (x :: l)) by (eapply Permutation_in; [symmetry; exact P|now left]).
      destruct Ix as [->|Ix]; [reflexivity|]. destruct Iy as [->|Iy]; [reflexivity|]. exfalso. apply Nx.
      rewrite (bytes_ltb_antisym (fst x) (fst y)); [now apply in_map|exact (Hy _ Ix)|exact (Hx _ Iy)]. }
    subst y. f_equal. apply IH; auto. now apply Permutation_cons_inv in P.
Qed.

Section Sort.
  Variable sort : list (bytes * bytes) -> list (bytes * bytes).
  Hypothesis Hsort : sorts_by_key sort.

  Lemma sort_map l l' : NoDup (map fst l) -> Permutation l l' -> sort l = sort l'.
  Proof.
    intros N P. destruct (Hsort l) as [P1 S1], (Hsort l') as [P2 S2]. apply sorted_unique; try assumption.
    - eapply Permutation_NoDup; [apply Permutation_map; symmetry; exact P1|exact N].
    - rewrite P1, P2. exact P.
  Qed.

  Lemma sort_writes l : writes l (text (sort l)).
  Proof. destruct (Hsort l) as [P S]. exists (sort l). auto. Qed.

  Definition sig_of (x : descriptor * time_series) : bytes :=
    label_signature (md_name (fst x)) (sort (labels_present (md_keys (fst x)) (ts_labels (snd x)))).
  Definition last_of (x : descriptor * time_series) : time * point_value f64_num := List.last (ts_points (snd x)) (0%Z, PInt 0).
  Definition put (e : test_exporter) (x : descriptor * time_series) : test_exporter := mset bytes_eqb e (sig_of x) (last_of x).

  Lemma nth_last {A} (l : list A) d : l <> [] -> nth_error l (List.length l - 1) = Some (List.last l d).
  Proof.
    intros H. destruct (exists_last H) as (l' & a & ->). rewrite app_length, last_last. cbn [List.length].
    replace (List.length l' + 1 - 1) with (List.length l') by lia. rewrite nth_error_app2, Nat.sub_diag; [reflexivity|lia].
  Qed.

  Lemma export_series_spec d ts : forall e,
    (Forall well_formed (map (fun t => (d, t)) ts) -> export_series sort e d ts = Some (fold_left put (map (fun t => (d, t)) ts) e)) /\
    (~ Forall well_formed (map (fun t => (d, t)) ts) -> export_series sort e d ts = None).
  Proof.
    induction ts as [|t ts IH]; intros e; cbn [map export_series fold_left].
    - split; [reflexivity|]. intros H. exfalso. apply H. constructor.
    - unfold label_objects_to_key_value. rewrite present_combine.
      destruct (Nat.eqb_spec (List.length (md_keys d)) (List.length (ts_labels t))) as [El|El].
      + destruct (ts_points t) as [|q qs] eqn:Eq.
        * split; [|reflexivity]. intros H. inversion H as [|? ? [_ Hp] _]; subst. cbn [snd] in Hp. now rewrite Eq in Hp.
        * rewrite <- Eq. assert (Hne : ts_points t <> []) by (rewrite Eq; discriminate). rewrite (nth_last _ (0%Z, PInt 0) Hne).
          destruct (IH (put e (d, t))) as [I1 I2]. split; intros H.
          -- inversion H; subst. now apply I1.
          -- apply I2. intros HF. apply H. constructor; [split; assumption|exact HF].
      + split; [|reflexivity]. intros H. inversion H as [|? ? [Hl _] _]; subst. contradiction.
  Qed.

  Lemma export_metrics_spec data : forall e,
    (Forall well_formed (series_in data) -> export_metrics sort e data = Some (fold_left put (series_in data) e)) /\
    (~ Forall well_formed (series_in data) -> export_metrics sort e data = None).
  Proof.
    induction data as [|m data IH]; intros e; cbn [export_metrics].
    - split; [reflexivity|]. intros H. exfalso. apply H. constructor.
    - change (series_in (m :: data)) with (map (fun t => (mt_desc m, t)) (mt_series m) ++ series_in data).
      rewrite Forall_app, fold_left_app. destruct (export_series_spec (mt_desc m) (mt_series m) e) as [S1 S2].
      split.
      + intros [H1 H2]. rewrite (S1 H1). now apply IH.
      + intros H. destruct (export_series sort e (mt_desc m) (mt_series m)) as [e1|] eqn:E1; [|reflexivity].
        apply IH. intros H2. apply H. split; [|exact H2]. clear - S2. 
        assert (D : forall x, {well_formed x} + {~ well_formed x}).
        { intros [d t]. unfold well_formed. cbn. destruct (Nat.eq_dec (List.length (md_keys d)) (List.length (ts_labels t))); [|right; tauto].
          destruct (ts_points t); [right; tauto|left; split; [assumption|discriminate]]. }
        destruct (Forall_dec _ D (map (fun t => (mt_desc m, t)) (mt_series m))) as [H|H]; [exact H|discriminate (S2 H)].
  Qed.

  Lemma export_all_spec ds : forall e,
    (Forall well_formed (series_in (concat ds)) -> export_all sort e ds = Some (fold_left put (series_in (concat ds)) e)) /\
    (~ Forall well_formed (series_in (concat ds)) -> export_all sort e ds = None).
  Proof.
    induction ds as [|d ds IH]; intros e; cbn [export_all concat].
    - split; [reflexivity|]. intros H. exfalso. apply H. constructor.
    - assert (Ea : series_in (d ++ concat ds) = series_in d ++ series_in (concat ds)) by apply flat_map_app.
      rewrite Ea, Forall_app, fold_left_app. destruct (export_metrics_spec d e) as [S1 S2]. split.
      + intros [H1 H2]. rewrite (S1 H1). now apply IH.
      + intros H. destruct (Forall_dec well_formed) with (l := series_in d) as [H1|H1].
        * intros [d' t]. unfold well_formed. cbn. destruct (Nat.eq_dec (List.length (md_keys d')) (List.length (ts_labels t))); [|right; tauto].
          destruct (ts_points t); [right; tauto|left; split; [assumption|discriminate]].
        * rewrite (S1 H1). apply IH. tauto.
        * now rewrite (S2 H1).
  Qed.

  (** ** What is found under a signature *)

  Lemma find_put h : forall e s,
    (exists h1 x h2, h = h1 ++ x :: h2 /\ sig_of x = s /\ (forall y, In y h2 -> sig_of y <> s) /\
                     mget bytes_eqb (fold_left put h e) s = Some (last_of x)) \/
    ((forall y, In y h -> sig_of y <> s) /\ mget bytes_eqb (fold_left put h e) s = mget bytes_eqb e s).
  Proof.
    induction h as [|x h IH]; intros e s; [right; split; [intros y []|reflexivity]|]. cbn [fold_left].
    destruct (IH (put e x) s) as [(h1 & y & h2 & -> & Hs & Ha & E)|[Ha E]].
    - left. exists (x :: h1), y, h2. auto.
    - destruct (bytes_eqb_spec (sig_of x) s) as [Hs|Hs].
      + left. exists [], x, h. split; [reflexivity|]. split; [exact Hs|]. split; [exact Ha|]. rewrite E. unfold put. rewrite Hs.
        apply (mget_mset_same bytes_eqb bytes_eqb_spec).
      + right. split; [intros y [<-|Hy]; [exact Hs|now apply Ha]|]. rewrite E. unfold put.
        apply (mget_mset_other bytes_eqb bytes_eqb_spec). exact Hs.
  Qed.

  Lemma brace_bs : bs "{" = [brace].
  Proof. reflexivity. Qed.

  Lemma name_split n : forall n' t t', no_brace n -> no_brace n' -> n ++ brace :: t = n' ++ brace :: t' -> n = n' /\ t = t'.
  Proof.
    unfold no_brace. induction n as [|b n IH]; intros [|b' n'] t t' H H' E; cbn [app] in E.
    - injection E as ->. auto.
    - injection E as <- _. exfalso. apply H'. now left.
    - injection E as -> _. exfalso. apply H. now left.
    - injection E as -> E. destruct (IH n' t t') as [-> ->]; auto; intros Hin; [apply H|apply H']; now right.
  Qed.

  Lemma signature_inj n n' s s' : no_brace n -> no_brace n' -> label_signature n s = label_signature n' s' -> n = n' /\ text s = text s'.
  Proof.
    unfold label_signature. rewrite brace_bs. cbn [app]. intros H H' E. destruct (name_split _ _ _ _ H H' E) as [-> E2].
    split; [reflexivity|]. apply app_inv_tail in E2. exact E2.
  Qed.

  Lemma perm_dec (l l' : list (bytes * bytes)) : NoDup (map fst l') -> {Permutation l l'} + {~ Permutation l l'}.
  Proof.
    intros N. assert (D : forall a b : bytes * bytes, {a = b} + {a <> b}).
    { intros [a1 a2] [b1 b2]. destruct (bytes_eqb_spec a1 b1) as [->|], (bytes_eqb_spec a2 b2) as [->|]; [left; reflexivity|right; congruence..]. }
    destruct (list_eq_dec D (sort l) (sort l')) as [E|E].
    - left. destruct (Hsort l) as [P _], (Hsort l') as [P' _]. rewrite <- P, E. exact P'.
    - right. intros P. apply E. symmetry. apply sort_map; [exact N|now symmetry].
  Qed.

  Lemma sig_iff h n l x : NoDup (map fst l) -> separable h n l -> In x h ->
    (sig_of x = label_signature n (sort l) <-> is_series n l x).
  Proof.
    intros N [Hn Hsep] Hx. destruct (Hsep x Hx) as [Hb Hc]. split.
    - intros E. destruct (signature_inj _ _ _ _ Hb Hn E) as [En Et]. split; [exact En|].
      destruct (perm_dec (labels_present (md_keys (fst x)) (ts_labels (snd x))) l N) as [P|P]; [exact P|].
      exfalso. apply (Hc En). split; [|exact P]. exists (text (sort l)). split; [|apply sort_writes]. rewrite <- Et. apply sort_writes.
    - intros [En P]. unfold sig_of. rewrite En. f_equal. symmetry. apply sort_map; [exact N|now symmetry].
  Qed.

  Lemma last_points x : well_formed x -> exists ps, ts_points (snd x) = ps ++ [last_of x].
  Proof. intros [_ H]. exists (removelast (ts_points (snd x))). apply app_removelast_last. exact H. Qed.

  Lemma find_latest h n l : NoDup (map fst l) -> separable h n l -> Forall well_formed h ->
    latest h n l (get_point sort (fold_left put h []) n l).
  Proof.
    intros N Hsep HW. unfold get_point, label_map_to_key_value.
    destruct (find_put h [] (label_signature n (sort l))) as [(h1 & x & h2 & -> & Hs & Ha & E)|[Ha E]]; rewrite E.
    - assert (Hx : In x (h1 ++ x :: h2)) by (apply in_or_app; right; now left).
      exists h1, x, h2. split; [reflexivity|]. split; [now apply (sig_iff _ n l x N Hsep Hx)|]. split.
      + apply last_points. rewrite Forall_forall in HW. now apply HW.
      + intros y Hy Hs'. apply (Ha y Hy). apply (sig_iff (h1 ++ x :: h2) n l y N Hsep); [|exact Hs'].
        apply in_or_app. right. now right.
    - cbn [mget latest]. intros y Hy Hs. apply (Ha y Hy). now apply (sig_iff h n l y N Hsep).
  Qed.
End Sort.
