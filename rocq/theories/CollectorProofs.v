(** Proofs about the rows of a view. *)

From Coq Require Import List Arith ZArith NArith Bool Lia Sorted Permutation ZifyBool ZifyNat.
From Verif Require Import Base ListLib GoMap GoSort TagModel TagEncodingModel TagEncodingProofs
  AggModel AggSpec AggProofs CollectorModel CollectorSpec.
Import ListNotations.
Open Scope nat_scope.

(** ** Signatures *)

Definition key_values (keys : list key) (m : option tmap) : list bytes :=
  map (fun k => fst (value_of m k)) keys.

Lemma encode_some m keys :
  encode_with_keys m keys = Some (concat (map enc_cell (key_values keys m))).
Proof.
  unfold encode_with_keys. cbv zeta.
  match goal with |- context [repeat _ ?n] => destruct (write_values_nil (key_values keys m) n) as (w & E & B) end.
  unfold key_values in *. rewrite E, B. reflexivity.
Qed.

Definition sig_of (keys : list key) (m : option tmap) : bytes :=
  concat (map enc_cell (key_values keys m)).

Lemma key_values_short keys m :
  short_values m -> Forall (fun v => length v <= 255) (key_values keys m).
Proof.
  intros H. unfold key_values. apply Forall_forall. intros v Hv. apply in_map_iff in Hv.
  destruct Hv as (k & <- & _). apply H.
Qed.

Lemma sig_of_inj keys m1 m2 :
  short_values m1 -> short_values m2 ->
  (sig_of keys m1 = sig_of keys m2 <-> agree keys m1 m2).
Proof.
  intros H1 H2. unfold sig_of. split.
  - intros E. apply enc_inj in E; [|unfold key_values; now rewrite !map_length|now apply key_values_short..].
    unfold key_values in E. intros k Hk.
    induction keys as [|k0 keys IH]; [contradiction|]. simpl in E. injection E as E0 E.
    destruct Hk as [->|Hk]; auto.
  - intros A. do 2 f_equal. unfold key_values. apply map_ext_in. exact A.
Qed.

Lemma decode_loop_enc keys m :
  short_values m -> decode_loop (sig_of keys m) keys = Some (row_tags keys m).
Proof.
  intros H. unfold sig_of, key_values, row_tags.
  induction keys as [|k keys IH]; [reflexivity|].
  cbn [map concat decode_loop flat_map]. rewrite read_cell.
  rewrite cell_len_small by apply H. rewrite firstn_all. rewrite IH.
  destruct (fst (value_of m k)) as [|b v]; reflexivity.
Qed.

Lemma row_tags_sorted keys m :
  sorted_keys keys -> isort (fun a b => bytes_ltb (fst a) (fst b)) (row_tags keys m) = row_tags keys m.
Proof.
  intros H. apply isort_id. unfold row_tags.
  induction H as [|k keys HS IH Hall]; [constructor|]. cbn [flat_map].
  destruct (fst (value_of m k)) as [|b v]; [exact IH|]. cbn [app]. constructor; [exact IH|].
  apply Forall_forall. intros [k' v'] Hin. apply in_flat_map in Hin.
  destruct Hin as (k'' & Hk'' & Hin). rewrite Forall_forall in Hall. specialize (Hall _ Hk'').
  destruct (fst (value_of m k'')) as [|b0 v0]; [contradiction|]. destruct Hin as [[= <- <-]|[]].
  exact Hall.
Qed.

Lemma decode_enc keys m :
  short_values m ->
  decode_tags (sig_of keys m) keys =
  Some (isort (fun a b => bytes_ltb (fst a) (fst b)) (row_tags keys m)).
Proof. intros H. unfold decode_tags. now rewrite decode_loop_enc. Qed.

Lemma decode_enc_sorted keys m :
  short_values m -> sorted_keys keys -> decode_tags (sig_of keys m) keys = Some (row_tags keys m).
Proof. intros H HS. rewrite decode_enc by exact H. now rewrite row_tags_sorted. Qed.

Lemma row_tags_In keys m k v :
  In (k, v) (row_tags keys m) <-> In k keys /\ v <> [] /\ fst (value_of m k) = v.
Proof.
  unfold row_tags. rewrite in_flat_map. split.
  - intros (k' & Hk & Hin). destruct (fst (value_of m k')) as [|b v0] eqn:E; [contradiction|].
    destruct Hin as [[= <- <-]|[]]. repeat split; [exact Hk|discriminate|exact E].
  - intros (Hk & Hne & E). exists k. split; [exact Hk|]. rewrite E.
    destruct v; [congruence|now left].
Qed.

Lemma row_tags_agree keys m1 m2 : row_tags keys m1 = row_tags keys m2 <-> agree keys m1 m2.
Proof.
  split.
  - intros E k Hk.
    destruct (fst (value_of m1 k)) as [|b v] eqn:E1.
    + destruct (fst (value_of m2 k)) as [|b2 v2] eqn:E2; [reflexivity|].
      assert (In (k, b2 :: v2) (row_tags keys m2)) as Hin by (apply row_tags_In; repeat split; auto; discriminate).
      rewrite <- E in Hin. apply row_tags_In in Hin. destruct Hin as (_ & _ & Hin). congruence.
    + assert (In (k, b :: v) (row_tags keys m1)) as Hin by (apply row_tags_In; repeat split; auto; discriminate).
      rewrite E in Hin. apply row_tags_In in Hin. destruct Hin as (_ & _ & Hin). congruence.
  - intros A. unfold row_tags. induction keys as [|k keys IH]; [reflexivity|]. cbn [flat_map].
    rewrite IH by (intros k' Hk'; apply A; now right). now rewrite (A k) by now left.
Qed.

Lemma tags_eqb_spec a b : reflect (a = b) (tags_eqb a b).
Proof.
  apply list_eqb_spec. intros [k v] [k' v']. simpl.
  destruct (bytes_eqb_spec k k'), (bytes_eqb_spec v v'); simpl; constructor; congruence.
Qed.

(** ** Heap *)

Section Heap.
  Context {F : num}.
  Implicit Types (h : aheap F) (s : sample F).

  Definition hwf h : Prop :=
    forall p d c x, nth_error (ah_objs h) p = Some (HDist d c x) ->
      c < length (ah_ints h) /\ x < length (ah_exs h).

  Definition hsep h : Prop :=
    forall p q d c x d' c' x', p <> q ->
      nth_error (ah_objs h) p = Some (HDist d c x) ->
      nth_error (ah_objs h) q = Some (HDist d' c' x') -> c <> c' /\ x <> x'.

  Lemma hload_live h p : hwf h -> p < length (ah_objs h) -> exists a, hload h p = Some a.
  Proof.
    intros W Hp. unfold hload. destruct (nth_error (ah_objs h) p) as [o|] eqn:E.
    2:{ apply nth_error_None in E. lia. }
    destruct o as [a|d c x]; [eauto|]. destruct (W _ _ _ _ E) as [Hc Hx].
    destruct (nth_error (ah_ints h) c) eqn:E1; [|apply nth_error_None in E1; lia].
    destruct (nth_error (ah_exs h) x) eqn:E2; [|apply nth_error_None in E2; lia]. eauto.
  Qed.

  Lemma hload_lt h p a : hload h p = Some a -> p < length (ah_objs h).
  Proof.
    unfold hload. destruct (nth_error (ah_objs h) p) eqn:E; [|discriminate]. intros _.
    apply nth_error_Some. congruence.
  Qed.

  Lemma hstore_len h p a : length (ah_objs (hstore h p a)) = length (ah_objs h).
  Proof.
    unfold hstore. destruct (nth_error (ah_objs h) p) as [[a0|d c x]|]; destruct a;
      cbn [ah_objs]; rewrite ?upd_length; reflexivity.
  Qed.

  (** Shape of an object: which arrays it refers to. *)
  Definition shape (o : hobj F) : option (nat * nat) :=
    match o with HPlain _ => None | HDist _ c x => Some (c, x) end.

  Lemma hstore_shape h p a q :
    option_map shape (nth_error (ah_objs (hstore h p a)) q) =
    option_map shape (nth_error (ah_objs h) q).
  Proof.
    unfold hstore. destruct (nth_error (ah_objs h) p) as [[a0|d c x]|] eqn:E; destruct a;
      cbn [ah_objs]; try reflexivity; rewrite nth_error_upd;
      destruct (Nat.eqb_spec p q); try reflexivity; subst q; rewrite E; reflexivity.
  Qed.

  Lemma hstore_sizes h p a :
    length (ah_ints (hstore h p a)) = length (ah_ints h) /\
    length (ah_exs (hstore h p a)) = length (ah_exs h).
  Proof.
    unfold hstore. destruct (nth_error (ah_objs h) p) as [[a0|d c x]|]; destruct a;
      cbn [ah_ints ah_exs]; rewrite ?upd_length; split; reflexivity.
  Qed.

  Lemma shape_HDist (l : list (hobj F)) p d c x :
    nth_error l p = Some (HDist d c x) -> option_map shape (nth_error l p) = Some (Some (c, x)).
  Proof. intros ->. reflexivity. Qed.

  Lemma shape_inv (l : list (hobj F)) p c x :
    option_map shape (nth_error l p) = Some (Some (c, x)) -> exists d, nth_error l p = Some (HDist d c x).
  Proof.
    destruct (nth_error l p) as [[a|d c' x']|]; simpl; try discriminate.
    intros [= -> ->]. eauto.
  Qed.

  Lemma hstore_wf h p a : hwf h -> hwf (hstore h p a).
  Proof.
    intros W q d c x E. apply shape_HDist in E. rewrite hstore_shape in E. apply shape_inv in E.
    destruct E as [d' E]. destruct (hstore_sizes h p a) as [-> ->]. eapply W; eassumption.
  Qed.

  Lemma hstore_sep h p a : hsep h -> hsep (hstore h p a).
  Proof.
    intros S q1 q2 d c x d' c' x' Hne E1 E2.
    apply shape_HDist in E1, E2. rewrite hstore_shape in E1, E2.
    apply shape_inv in E1, E2. destruct E1 as [? E1], E2 as [? E2]. eapply S; eassumption.
  Qed.

  Lemma hload_store_other h p q a : hsep h -> p <> q -> hload (hstore h p a) q = hload h q.
  Proof.
    intros S Hne. unfold hstore.
    destruct (nth_error (ah_objs h) p) as [[a0|d c x]|] eqn:Ep.
    - unfold hload. cbn [ah_objs ah_ints ah_exs]. rewrite nth_error_upd.
      destruct (Nat.eqb_spec p q); [contradiction|]. reflexivity.
    - destruct a; try reflexivity. unfold hload. cbn [ah_objs ah_ints ah_exs].
      rewrite nth_error_upd. destruct (Nat.eqb_spec p q); [contradiction|].
      destruct (nth_error (ah_objs h) q) as [[a1|d1 c1 x1]|] eqn:Eq; try reflexivity.
      destruct (S _ _ _ _ _ _ _ _ Hne Ep Eq) as [Hc Hx].
      rewrite !nth_error_upd. destruct (Nat.eqb_spec c c1); [contradiction|].
      destruct (Nat.eqb_spec x x1); [contradiction|]. reflexivity.
    - destruct a; reflexivity.
  Qed.

  Lemma with_slices_id (d : dist F) : with_slices (with_slices d [] []) (d_cpb d) (d_ex d) = d.
  Proof. destruct d; reflexivity. Qed.

  Lemma hadd_same h p s a :
    hload h p = Some a -> hload (hadd h p s) p = Some (add_sample a s).
  Proof.
    intros E. unfold hadd. rewrite E. unfold hload in E.
    destruct (nth_error (ah_objs h) p) as [[a0|d c x]|] eqn:Ep; [| |discriminate].
    - injection E as ->. unfold hstore. rewrite Ep. unfold hload. cbn [ah_objs].
      rewrite nth_error_upd, Nat.eqb_refl, Ep. simpl. destruct (add_sample a s); reflexivity.
    - destruct (nth_error (ah_ints h) c) eqn:E1; [|discriminate].
      destruct (nth_error (ah_exs h) x) eqn:E2; [|discriminate]. injection E as <-.
      cbn [add_sample]. unfold hstore. rewrite Ep. unfold hload. cbn [ah_objs ah_ints ah_exs].
      rewrite nth_error_upd, Nat.eqb_refl, Ep. cbn [option_map].
      rewrite !nth_error_upd, !Nat.eqb_refl, E1, E2. cbn [option_map].
      now rewrite with_slices_id.
  Qed.

  Lemma hadd_other h p q s : hsep h -> p <> q -> hload (hadd h p s) q = hload h q.
  Proof. intros S Hne. unfold hadd. destruct (hload h p); [|reflexivity]. now apply hload_store_other. Qed.

  Lemma hadd_wf h p s : hwf h -> hwf (hadd h p s).
  Proof. unfold hadd. destruct (hload h p); auto using hstore_wf. Qed.
  Lemma hadd_sep h p s : hsep h -> hsep (hadd h p s).
  Proof. unfold hadd. destruct (hload h p); auto using hstore_sep. Qed.
  Lemma hadd_len h p s : length (ah_objs (hadd h p s)) = length (ah_objs h).
  Proof. unfold hadd. destruct (hload h p); auto using hstore_len. Qed.

  (** Allocation of fresh objects (halloc and hclone). *)
  Lemma nth_error_snoc {A} (l : list A) x n :
    nth_error (l ++ [x]) n = if n =? length l then Some x else nth_error l n.
  Proof.
    destruct (Nat.eqb_spec n (length l)) as [->|Hne].
    - rewrite nth_error_app2, Nat.sub_diag by lia. reflexivity.
    - destruct (Nat.lt_ge_cases n (length l)).
      + now rewrite nth_error_app1.
      + rewrite (proj2 (nth_error_None _ _)) by (rewrite app_length; simpl; lia).
        symmetry. apply nth_error_None. lia.
  Qed.

  Definition extends h h' p a : Prop :=
    p = length (ah_objs h) /\ length (ah_objs h') = S (length (ah_objs h)) /\
    hwf h' /\ hsep h' /\ hload h' p = Some a /\
    forall q, q < length (ah_objs h) -> hload h' q = hload h q.

  Lemma extend_dist h d c x a :
    hwf h -> hsep h -> a = DistD (with_slices d c x) ->
    extends h (MkAH (ah_objs h ++ [HDist d (length (ah_ints h)) (length (ah_exs h))])
                    (ah_ints h ++ [c]) (ah_exs h ++ [x])) (length (ah_objs h)) a.
  Proof.
    intros W S ->. unfold extends. cbn [ah_objs ah_ints ah_exs].
    split; [reflexivity|]. split; [rewrite app_length; simpl; lia|].
    split; [|split; [|split]].
    - intros p d' c' x'. cbn [ah_objs ah_ints ah_exs]. rewrite nth_error_snoc, !app_length. simpl.
      destruct (Nat.eqb_spec p (length (ah_objs h))); [intros [= <- <- <-]; lia|].
      intros E. apply W in E. lia.
    - intros p q d1 c1 x1 d2 c2 x2 Hne E1 E2.
      cbn [ah_objs] in *. rewrite nth_error_snoc in E1, E2.
      destruct (Nat.eqb_spec p (length (ah_objs h))), (Nat.eqb_spec q (length (ah_objs h))).
      + lia.
      + injection E1 as <- <- <-. apply W in E2. lia.
      + injection E2 as <- <- <-. apply W in E1. lia.
      + exact (S _ _ _ _ _ _ _ _ Hne E1 E2).
    - unfold hload. cbn [ah_objs ah_ints ah_exs]. rewrite nth_error_snoc, Nat.eqb_refl.
      cbn match. rewrite !nth_error_snoc, !Nat.eqb_refl. reflexivity.
    - intros q Hq. unfold hload. cbn [ah_objs ah_ints ah_exs]. rewrite nth_error_snoc.
      destruct (Nat.eqb_spec q (length (ah_objs h))); [lia|].
      destruct (nth_error (ah_objs h) q) as [[a1|d1 c1 x1]|] eqn:Eq; try reflexivity.
      apply W in Eq. rewrite !nth_error_snoc.
      destruct (Nat.eqb_spec c1 (length (ah_ints h))); [lia|].
      destruct (Nat.eqb_spec x1 (length (ah_exs h))); [lia|]. reflexivity.
  Qed.

  Lemma extend_plain h a :
    hwf h -> hsep h ->
    extends h (MkAH (ah_objs h ++ [HPlain a]) (ah_ints h) (ah_exs h)) (length (ah_objs h)) a.
  Proof.
    intros W S. unfold extends. cbn [ah_objs ah_ints ah_exs].
    split; [reflexivity|]. split; [rewrite app_length; simpl; lia|].
    split; [|split; [|split]].
    - intros p d' c' x' H. cbn [ah_objs ah_ints ah_exs] in *. rewrite nth_error_snoc in H.
      destruct (Nat.eqb_spec p (length (ah_objs h))); [discriminate|]. now apply W in H.
    - intros p q d1 c1 x1 d2 c2 x2 Hne E1 E2.
      cbn [ah_objs] in *. rewrite nth_error_snoc in E1, E2.
      destruct (Nat.eqb_spec p (length (ah_objs h))); [discriminate|].
      destruct (Nat.eqb_spec q (length (ah_objs h))); [discriminate|].
      exact (S _ _ _ _ _ _ _ _ Hne E1 E2).
    - unfold hload. cbn [ah_objs]. now rewrite nth_error_snoc, Nat.eqb_refl.
    - intros q Hq. unfold hload. cbn [ah_objs ah_ints ah_exs]. rewrite nth_error_snoc.
      destruct (Nat.eqb_spec q (length (ah_objs h))); [lia|]. reflexivity.
  Qed.

  Lemma halloc_spec h a : hwf h -> hsep h ->
    extends h (fst (halloc h a)) (snd (halloc h a)) a.
  Proof.
    intros W S. destruct a as [t v|t v|d|v]; cbn [halloc fst snd];
      try (apply extend_plain; assumption).
    apply extend_dist; auto. now rewrite with_slices_id.
  Qed.

  Lemma hclone_spec h p a : hwf h -> hsep h -> hload h p = Some a ->
    exists h' q, hclone h p = Some (h', q) /\ extends h h' q a.
  Proof.
    intros W S E. unfold hload in E. unfold hclone.
    destruct (nth_error (ah_objs h) p) as [[a0|d c x]|]; [| |discriminate].
    - injection E as ->. do 2 eexists. split; [reflexivity|]. now apply extend_plain.
    - destruct (nth_error (ah_ints h) c) eqn:E1; [|discriminate].
      destruct (nth_error (ah_exs h) x) eqn:E2; [|discriminate]. injection E as <-.
      do 2 eexists. split; [reflexivity|]. now apply extend_dist.
  Qed.

  (** Collecting rows: fresh copies, nothing old changes. *)
  Lemma hc_rows_spec keys it : forall h,
    hwf h -> hsep h ->
    (forall sig p, In (sig, p) it -> p < length (ah_objs h) /\ exists tags, decode_tags sig keys = Some tags) ->
    exists h' rows,
      hc_rows h keys it = Some (h', rows) /\ hwf h' /\ hsep h' /\
      length (ah_objs h') = length (ah_objs h) + length it /\
      (forall q, q < length (ah_objs h) -> hload h' q = hload h q) /\
      Forall2 (fun e r => decode_tags (fst e) keys = Some (fst r) /\ hload h' (snd r) = hload h (snd e)) it rows /\
      map snd rows = seq (length (ah_objs h)) (length it).
  Proof.
    induction it as [|[sig p] it IH]; intros h W S H.
    - exists h, []. cbn [hc_rows]. split; [reflexivity|]. split; [exact W|]. split; [exact S|].
      split; [simpl; lia|]. split; [auto|]. split; [constructor|reflexivity].
    - cbn [hc_rows]. destruct (H sig p (or_introl eq_refl)) as (Hp & tags & Et). rewrite Et.
      destruct (hload_live h p W Hp) as [a Ea].
      destruct (hclone_spec h p a W S Ea) as (h1 & q & -> & (Eq & L1 & W1 & S1 & Ha & Hold)).
      destruct (IH h1 W1 S1) as (h2 & rows & E2 & W2 & S2 & L2 & Hold2 & HF & HS).
      { intros sig' p' Hin. destruct (H sig' p' (or_intror Hin)) as (? & ?). split; [lia|assumption]. }
      rewrite E2. exists h2, ((tags, q) :: rows). split; [reflexivity|].
      split; [assumption|]. split; [assumption|]. split; [simpl; lia|].
      split; [intros q' Hq'; rewrite Hold2 by lia; now apply Hold|]. split.
      + constructor.
        * cbn [fst snd]. split; [exact Et|]. rewrite Hold2 by lia. congruence.
        * assert (HB : forall e, In e it -> snd e < length (ah_objs h)).
          { intros [sig' p'] Hin. now destruct (H sig' p' (or_intror Hin)). }
          clear - HF Hold HB.
          induction HF as [|e r it rows [H1 H2] HF IH]; constructor.
          -- split; [exact H1|]. rewrite H2. apply Hold. apply HB. now left.
          -- apply IH. intros e' He'. apply HB. now right.
      + cbn [map seq length]. rewrite HS, L1, Eq. reflexivity.
  Qed.
End Heap.

(** ** Histories *)

Section World.
  Context {F : num}.
  Implicit Types (w : cworld F) (ops : list (cop F)).

  Lemma live_from_app i ops1 : forall ops2 acc,
    live_from i acc (ops1 ++ ops2) = live_from (F := F) i (live_from i acc ops1) ops2.
  Proof.
    induction ops1 as [|[j m s|j|j|n j a] ops1 IH]; intros ops2 acc; simpl; auto.
  Qed.

  Lemma live_snoc i ops op :
    live i (ops ++ [op]) =
    match op with
    | CAdd j m s => if j =? i then live i ops ++ [(m, s)] else live i ops
    | CClear j => if j =? i then [] else live i ops
    | _ => live i ops
    end.
  Proof. unfold live. rewrite live_from_app. destruct op; reflexivity. Qed.

  Lemma live_short i ops : Forall op_short ops -> Forall (fun ms => short_values (fst ms)) (live (F := F) i ops).
  Proof.
    induction ops as [|op ops IH] using rev_ind; intros H; [constructor|].
    apply Forall_app in H. destruct H as [H Hop]. inversion Hop; subst.
    rewrite live_snoc. destruct op as [j m s|j|j|n j a]; auto.
    - destruct (j =? i); auto. apply Forall_app. split; auto.
    - destruct (j =? i); auto.
  Qed.

  Definition group keys sig (ss : list (option tmap * sample F)) :=
    filter (fun ms => bytes_eqb (sig_of keys (fst ms)) sig) ss.

  Definition gdata (agg : aggregation F) (g : list (option tmap * sample F)) : option (agg_data F) :=
    match g with
    | [] => None
    | (m0, s0) :: _ => Some (aggregate agg (s_time s0) (map snd g))
    end.

  Lemma gdata_snoc agg g m s :
    gdata agg (g ++ [(m, s)]) =
    Some (add_sample (match gdata agg g with Some a => a | None => new_data agg (s_time s) end) s).
  Proof.
    destruct g as [|[m0 s0] g]; cbn [app gdata]; [reflexivity|].
    f_equal. unfold aggregate. rewrite app_comm_cons, map_app, fold_left_app. reflexivity.
  Qed.

  (** Where a pointer may be held: by collector i under a signature, or by row j
      of delivery n. *)
  Inductive place : Type := InColl (i : nat) (sig : bytes) | InOut (n j : nat).

  Definition held w (pl : place) (p : nat) : Prop :=
    match pl with
    | InColl i sig => exists c, nth_error (cw_colls w) i = Some c /\ mget bytes_eqb (hc_sigs c) sig = Some p
    | InOut n j => exists i rows tags, nth_error (cw_out w) n = Some (i, rows) /\ nth_error rows j = Some (tags, p)
    end.

  Record winv (aks : list (aggregation F * list key)) ops w : Prop := {
    wi_wf : hwf (cw_heap w);
    wi_sep : hsep (cw_heap w);
    wi_len : length (cw_colls w) = length aks;
    wi_conf : forall i c, nth_error (cw_colls w) i = Some c ->
              nth_error aks i = Some (hc_agg c, hc_keys c) /\ mwf (hc_sigs c);
    wi_live : forall pl p, held w pl p -> p < length (ah_objs (cw_heap w));
    wi_inj : forall pl pl' p, held w pl p -> held w pl' p -> pl = pl';
    wi_data : forall i c sig, nth_error (cw_colls w) i = Some c ->
              gdata (hc_agg c) (group (hc_keys c) sig (live i ops)) =
              match mget bytes_eqb (hc_sigs c) sig with
              | Some p => hload (cw_heap w) p
              | None => None
              end }.

  Lemma winv_init aks : winv aks [] (init_cworld aks).
  Proof.
    unfold init_cworld. constructor; cbn [cw_heap cw_colls cw_out].
    - intros p d c x E. destruct p; discriminate.
    - intros p q d c x d' c' x' _ E. destruct p; discriminate.
    - apply map_length.
    - intros i c E. rewrite nth_error_map in E. destruct (nth_error aks i) as [[a k]|]; [|discriminate].
      injection E as <-. split; [reflexivity|]. constructor.
    - intros [i sig|n j] p H; cbn [held cw_colls cw_out] in H.
      + destruct H as (c & E & H). rewrite nth_error_map in E.
        destruct (nth_error aks i) as [[a k]|]; [|discriminate]. injection E as <-. discriminate.
      + destruct H as (i & rows & tags & E & _). destruct n; discriminate.
    - intros [i sig|n j] pl' p H; cbn [held cw_colls cw_out] in H.
      + destruct H as (c & E & H). rewrite nth_error_map in E.
        destruct (nth_error aks i) as [[a k]|]; [|discriminate]. injection E as <-. discriminate.
      + destruct H as (i & rows & tags & E & _). destruct n; discriminate.
    - intros i c sig E. rewrite nth_error_map in E.
      destruct (nth_error aks i) as [[a k]|]; [|discriminate]. injection E as <-. reflexivity.
  Qed.

  Lemma upd_const_nth {A} (l : list A) i x j :
    i < length l ->
    nth_error (upd l i (fun _ => x)) j = if i =? j then Some x else nth_error l j.
  Proof.
    intros H. rewrite nth_error_upd. destruct (Nat.eqb_spec i j) as [->|]; [|reflexivity].
    destruct (nth_error l j) eqn:E; [reflexivity|]. apply nth_error_None in E. lia.
  Qed.

  Lemma winv_step aks ops w op w' :
    winv aks ops w -> cstep w op w' -> winv aks (ops ++ [op]) w'.
  Proof.
    intros I Hs. destruct Hs as [i c m s sig h' c' Ei Es Ha|i c it h' rows Ei Hp Hr|i c Ei|n j a i rows tags p En Ej].
    - (* a sample *)
      rewrite encode_some in Es. injection Es as <-.
      fold (sig_of (hc_keys c) m) in *. set (sig := sig_of (hc_keys c) m) in *.
      destruct (wi_conf _ _ _ I _ _ Ei) as [Hc Hwf0].
      assert (Hil : i < length (cw_colls w)) by (apply nth_error_Some; congruence).
      unfold hc_add in Ha. destruct (mget bytes_eqb (hc_sigs c) sig) as [p|] eqn:Eg.
      + injection Ha as <- <-.
        assert (Hheld : held w (InColl i sig) p) by (exists c; auto).
        pose proof (wi_live _ _ _ I _ _ Hheld) as Hlt.
        destruct (hload_live _ _ (wi_wf _ _ _ I) Hlt) as [a Ea].
        assert (Hh : forall pl q, held (MkCW (hadd (cw_heap w) p s) (upd (cw_colls w) i (fun _ => c)) (cw_out w)) pl q <-> held w pl q).
        { intros [i' sig'|n' j'] q; cbn [held cw_colls cw_out]; [|tauto].
          rewrite upd_const_nth by exact Hil. destruct (Nat.eqb_spec i i') as [->|]; [|tauto].
          rewrite Ei. tauto. }
        constructor; cbn [cw_heap cw_colls cw_out].
        * apply hadd_wf, (wi_wf _ _ _ I).
        * apply hadd_sep, (wi_sep _ _ _ I).
        * rewrite upd_length. apply (wi_len _ _ _ I).
        * intros i' c0 E. rewrite upd_const_nth in E by exact Hil.
          destruct (Nat.eqb_spec i i') as [->|]; [|eapply (wi_conf _ _ _ I); eassumption].
          injection E as <-. auto.
        * intros pl q H. apply Hh in H. rewrite hadd_len. eapply (wi_live _ _ _ I); eassumption.
        * intros pl pl' q H H'. apply Hh in H, H'. eapply (wi_inj _ _ _ I); eassumption.
        * intros i' c0 sig' E. rewrite upd_const_nth in E by exact Hil. rewrite live_snoc.
          destruct (Nat.eqb_spec i i') as [->|Hne].
          -- injection E as <-. unfold group. rewrite filter_app. cbn [filter fst].
             fold (group (hc_keys c) sig' (live i' ops)). fold sig.
             destruct (bytes_eqb_spec sig sig') as [<-|Hsig].
             ++ rewrite gdata_snoc, (wi_data _ _ _ I _ _ _ Ei), Eg, Ea. symmetry. now apply hadd_same.
             ++ rewrite app_nil_r, (wi_data _ _ _ I _ _ _ Ei).
                destruct (mget bytes_eqb (hc_sigs c) sig') as [q|] eqn:Eq; [|reflexivity].
                symmetry. apply hadd_other; [apply (wi_sep _ _ _ I)|]. intros <-.
                assert (held w (InColl i' sig') p) as Hq by (exists c; auto).
                pose proof (wi_inj _ _ _ I _ _ _ Hheld Hq) as X. congruence.
          -- rewrite (wi_data _ _ _ I _ _ _ E).
             destruct (mget bytes_eqb (hc_sigs c0) sig') as [q|] eqn:Eq; [|reflexivity].
             symmetry. apply hadd_other; [apply (wi_sep _ _ _ I)|]. intros <-.
             assert (held w (InColl i' sig') p) as Hq by (exists c0; auto).
             pose proof (wi_inj _ _ _ I _ _ _ Hheld Hq) as X. congruence.
      + (* new row *)
        pose proof (halloc_spec (cw_heap w) (new_data (hc_agg c) (s_time s)) (wi_wf _ _ _ I) (wi_sep _ _ _ I)) as X.
        destruct (halloc (cw_heap w) (new_data (hc_agg c) (s_time s))) as [h1 p]. cbn [fst snd] in X.
        destruct X as (Ep & L1 & W1 & S1 & Hp & Hold). injection Ha as <- <-.
        set (c1 := MkHC (hc_agg c) (hc_keys c) (mset bytes_eqb (hc_sigs c) sig p)).
        assert (Hh : forall pl q,
          held (MkCW (hadd h1 p s) (upd (cw_colls w) i (fun _ => c1)) (cw_out w)) pl q ->
          (pl = InColl i sig /\ q = p) \/ (held w pl q /\ pl <> InColl i sig)).
        { intros [i' sig'|n' j'] q; cbn [held cw_colls cw_out].
          - intros (c0 & E & G). rewrite upd_const_nth in E by exact Hil.
            destruct (Nat.eqb_spec i i') as [->|Hne].
            + injection E as <-. cbn [c1 hc_sigs] in G.
              rewrite (mget_mset _ bytes_eqb_spec) in G. destruct (bytes_eqb_spec sig sig') as [<-|Hsig].
              * injection G as <-. now left.
              * right. split; [exists c; auto|congruence].
            + right. split; [exists c0; auto|congruence].
          - intros H. right. split; [exact H|discriminate]. }
        assert (Hfresh : forall pl q, held w pl q -> q <> p).
        { intros pl q H. apply (wi_live _ _ _ I) in H. lia. }
        constructor; cbn [cw_heap cw_colls cw_out].
        * now apply hadd_wf.
        * now apply hadd_sep.
        * rewrite upd_length. apply (wi_len _ _ _ I).
        * intros i' c0 E. rewrite upd_const_nth in E by exact Hil.
          destruct (Nat.eqb_spec i i') as [->|]; [|eapply (wi_conf _ _ _ I); eassumption].
          injection E as <-. split; [exact Hc|]. apply (mwf_mset _ bytes_eqb_spec). exact Hwf0.
        * intros pl q H. apply Hh in H. rewrite hadd_len. destruct H as [[_ ->]|[H _]]; [lia|].
          apply (wi_live _ _ _ I) in H. lia.
        * intros pl pl' q H H'. apply Hh in H, H'.
          destruct H as [[-> ->]|[H Hn]], H' as [[-> E']|[H' Hn']]; try reflexivity.
          -- exfalso. now apply Hfresh in H'.
          -- exfalso. subst q. now apply Hfresh in H.
          -- eapply (wi_inj _ _ _ I); eassumption.
        * intros i' c0 sig' E. rewrite upd_const_nth in E by exact Hil. rewrite live_snoc.
          destruct (Nat.eqb_spec i i') as [->|Hne].
          -- injection E as <-. unfold group. cbn [c1 hc_sigs hc_keys hc_agg]. rewrite filter_app. cbn [filter fst].
             fold (group (hc_keys c) sig' (live i' ops)). fold sig.
             rewrite (mget_mset _ bytes_eqb_spec).
             destruct (bytes_eqb_spec sig sig') as [<-|Hsig].
             ++ rewrite gdata_snoc, (wi_data _ _ _ I _ _ _ Ei), Eg. symmetry. now apply hadd_same.
             ++ rewrite app_nil_r, (wi_data _ _ _ I _ _ _ Ei).
                destruct (mget bytes_eqb (hc_sigs c) sig') as [q|] eqn:Eq; [|reflexivity].
                assert (held w (InColl i' sig') q) as Hq by (exists c; auto).
                rewrite hadd_other; [|exact S1|now apply Hfresh in Hq; congruence].
                symmetry. apply Hold. eapply (wi_live _ _ _ I); eassumption.
          -- rewrite (wi_data _ _ _ I _ _ _ E).
             destruct (mget bytes_eqb (hc_sigs c0) sig') as [q|] eqn:Eq; [|reflexivity].
             assert (held w (InColl i' sig') q) as Hq by (exists c0; auto).
             rewrite hadd_other; [|exact S1|now apply Hfresh in Hq; congruence].
             symmetry. apply Hold. eapply (wi_live _ _ _ I); eassumption.
    - (* rows collected *)
      destruct (wi_conf _ _ _ I _ _ Ei) as [Hc Hwf0].
      assert (Hit : forall sig p, In (sig, p) it -> mget bytes_eqb (hc_sigs c) sig = Some p).
      { intros sig p Hin. apply (In_mget _ bytes_eqb_spec); [exact Hwf0|].
        eapply Permutation_in; eassumption. }
      assert (X : exists h2 rows2, hc_rows (cw_heap w) (hc_keys c) it = Some (h2, rows2) /\ hwf h2 /\ hsep h2 /\
        length (ah_objs h2) = length (ah_objs (cw_heap w)) + length it /\
        (forall q, q < length (ah_objs (cw_heap w)) -> hload h2 q = hload (cw_heap w) q) /\
        map snd rows2 = seq (length (ah_objs (cw_heap w))) (length it)).
      { clear - Hr Hit Ei I.
        assert (Hd : forall sig p, In (sig, p) it -> p < length (ah_objs (cw_heap w)) /\ exists tags, decode_tags sig (hc_keys c) = Some tags).
        { assert (D : forall it (h : aheap F), hc_rows h (hc_keys c) it <> None ->
            forall sig p, In (sig, p) it -> exists tags, decode_tags sig (hc_keys c) = Some tags).
          { clear. induction it as [|[sig0 p0] it IH]; intros h H sig p Hin; [contradiction|].
            cbn [hc_rows] in H. destruct (decode_tags sig0 (hc_keys c)) as [tags|] eqn:E; [|congruence].
            destruct Hin as [[= <- <-]|Hin]; [eauto|].
            destruct (hclone h p0) as [[h1 q]|]; [|congruence].
            destruct (hc_rows h1 (hc_keys c) it) as [[h2 rows]|] eqn:E2; [|congruence].
            eapply (IH h1); [congruence|exact Hin]. }
          intros sig p Hin. split.
          - eapply (wi_live _ _ _ I (InColl i sig)). exists c. auto.
          - eapply D; [|exact Hin]. rewrite Hr. discriminate. }
        destruct (hc_rows_spec (hc_keys c) it (cw_heap w) (wi_wf _ _ _ I) (wi_sep _ _ _ I) Hd)
          as (h2 & rows2 & E & W & S & L & O & _ & Q).
        exists h2, rows2. auto 10. }
      destruct X as (h2 & rows2 & E2 & W2 & S2 & L2 & O2 & Q2). rewrite E2 in Hr. injection Hr as -> ->.
      assert (Hh : forall pl q, held (MkCW h' (cw_colls w) (cw_out w ++ [(i, rows)])) pl q ->
        held w pl q \/ exists j, pl = InOut (length (cw_out w)) j /\ q = length (ah_objs (cw_heap w)) + j /\ j < length it).
      { intros [i' sig'|n' j'] q; cbn [held cw_colls cw_out]; [now left|].
        intros (i' & rows' & tags' & E & Ej). rewrite nth_error_snoc in E.
        destruct (Nat.eqb_spec n' (length (cw_out w))) as [->|Hne].
        - injection E as <- <-. right. exists j'. split; [reflexivity|].
          assert (Ej2 : nth_error (map snd rows) j' = Some q) by (rewrite nth_error_map, Ej; reflexivity).
          rewrite Q2 in Ej2.
          assert (Hj : j' < length it).
          { rewrite <- (seq_length (length it) (length (ah_objs (cw_heap w)))). apply nth_error_Some. congruence. }
          split; [|exact Hj].
          rewrite (nth_error_nth' _ 0) in Ej2 by (rewrite seq_length; exact Hj).
          rewrite seq_nth in Ej2 by exact Hj. congruence.
        - left. exists i', rows', tags'. auto. }
      constructor; cbn [cw_heap cw_colls cw_out]; auto.
      + apply (wi_len _ _ _ I).
      + apply (wi_conf _ _ _ I).
      + intros pl q H. apply Hh in H. destruct H as [H|(j & _ & -> & Hj)]; [|lia].
        apply (wi_live _ _ _ I) in H. lia.
      + intros pl pl' q H H'. apply Hh in H, H'.
        destruct H as [H|(j & -> & Hq & Hj)], H' as [H'|(j2 & -> & Hq' & Hj')].
        * eapply (wi_inj _ _ _ I); eassumption.
        * apply (wi_live _ _ _ I) in H. lia.
        * apply (wi_live _ _ _ I) in H'. lia.
        * f_equal. lia.
      + intros i' c0 sig E. rewrite live_snoc. rewrite (wi_data _ _ _ I _ _ _ E).
        destruct (mget bytes_eqb (hc_sigs c0) sig) as [q|] eqn:Eq; [|reflexivity].
        symmetry. apply O2. eapply (wi_live _ _ _ I (InColl i' sig)). exists c0. auto.
    - (* clear *)
      assert (Hil : i < length (cw_colls w)) by (apply nth_error_Some; congruence).
      assert (Hh : forall pl q, held (MkCW (cw_heap w) (upd (cw_colls w) i (fun _ => hc_clear c)) (cw_out w)) pl q -> held w pl q).
      { intros [i' sig'|n' j'] q; cbn [held cw_colls cw_out]; [|tauto].
        intros (c0 & E & G). rewrite upd_const_nth in E by exact Hil.
        destruct (Nat.eqb_spec i i'); [injection E as <-; discriminate|exists c0; auto]. }
      constructor; cbn [cw_heap cw_colls cw_out].
      + apply (wi_wf _ _ _ I).
      + apply (wi_sep _ _ _ I).
      + rewrite upd_length. apply (wi_len _ _ _ I).
      + intros i' c0 E. rewrite upd_const_nth in E by exact Hil.
        destruct (Nat.eqb_spec i i') as [->|]; [|eapply (wi_conf _ _ _ I); eassumption].
        injection E as <-. destruct (wi_conf _ _ _ I _ _ Ei) as [Hc _]. split; [exact Hc|constructor].
      + intros pl q H. eapply (wi_live _ _ _ I); eauto.
      + intros pl pl' q H H'. eapply (wi_inj _ _ _ I); eauto.
      + intros i' c0 sig E. rewrite upd_const_nth in E by exact Hil. rewrite live_snoc.
        destruct (Nat.eqb_spec i i') as [->|Hne]; [injection E as <-; reflexivity|].
        eapply (wi_data _ _ _ I); eassumption.
    - (* the user writes to a delivered row *)
      assert (Hheld : held w (InOut n j) p) by (exists i, rows, tags; auto).
      constructor; cbn [cw_heap cw_colls cw_out].
      + apply hstore_wf, (wi_wf _ _ _ I).
      + apply hstore_sep, (wi_sep _ _ _ I).
      + apply (wi_len _ _ _ I).
      + apply (wi_conf _ _ _ I).
      + intros pl q H. rewrite hstore_len. eapply (wi_live _ _ _ I pl). destruct pl; exact H.
      + intros pl pl' q H H'. eapply (wi_inj _ _ _ I pl pl' q); [destruct pl|destruct pl']; assumption.
      + intros i' c0 sig E. rewrite live_snoc. rewrite (wi_data _ _ _ I _ _ _ E).
        destruct (mget bytes_eqb (hc_sigs c0) sig) as [q|] eqn:Eq; [|reflexivity].
        symmetry. apply hload_store_other; [apply (wi_sep _ _ _ I)|]. intros <-.
        assert (held w (InColl i' sig) p) as Hq by (exists c0; auto).
        pose proof (wi_inj _ _ _ I _ _ _ Hheld Hq) as X. discriminate.
  Qed.

  Lemma winv_steps aks ops w : csteps (init_cworld aks) ops w -> winv aks ops w.
  Proof.
    intros H. remember (init_cworld aks) as w0 eqn:E. induction H as [w|w ops w1 op w2 H IH Hs]; subst.
    - apply winv_init.
    - eapply winv_step; [now apply IH|exact Hs].
  Qed.

  (** ** Consequences *)

  Lemma csteps_app w0 ops1 w1 : csteps w0 ops1 w1 -> forall ops2 w2,
    csteps w1 ops2 w2 -> csteps (F := F) w0 (ops1 ++ ops2) w2.
  Proof.
    intros H1 ops2 w2 H2. induction H2 as [w|w ops w1' op w2 H IH Hs]; [now rewrite app_nil_r|].
    rewrite app_assoc. eapply csteps_snoc; [now apply IH|exact Hs].
  Qed.

  Lemma group_In keys sig (ss : list (option tmap * sample F)) m s g :
    group keys sig ss = (m, s) :: g -> In (m, s) ss /\ sig = sig_of keys m.
  Proof.
    intros E. assert (In (m, s) (group keys sig ss)) as H by (rewrite E; now left).
    apply filter_In in H. destruct H as [H1 H2]. split; [exact H1|]. cbn [fst] in H2.
    now destruct (bytes_eqb_spec (sig_of keys m) sig).
  Qed.

  Lemma group_nonempty keys m s (ss : list (option tmap * sample F)) :
    In (m, s) ss -> group keys (sig_of keys m) ss <> [].
  Proof.
    intros H E. assert (In (m, s) (group keys (sig_of keys m) ss)) as X.
    { apply filter_In. split; [exact H|]. cbn [fst]. now destruct (bytes_eqb_spec (sig_of keys m) (sig_of keys m)). }
    rewrite E in X. contradiction.
  Qed.

  Lemma group_with_tags keys m (ss : list (option tmap * sample F)) :
    short_values m -> Forall (fun ms => short_values (fst ms)) ss ->
    group keys (sig_of keys m) ss = with_tags keys (row_tags keys m) ss.
  Proof.
    intros Hm Hs. unfold group, with_tags. apply filter_ext_in. intros [m' s'] Hin.
    rewrite Forall_forall in Hs. specialize (Hs _ Hin). cbn [fst] in *.
    destruct (bytes_eqb_spec (sig_of keys m') (sig_of keys m)) as [E|E],
             (tags_eqb_spec (row_tags keys m') (row_tags keys m)) as [E'|E']; try reflexivity; exfalso.
    - apply E', row_tags_agree, sig_of_inj; auto.
    - apply E, sig_of_inj; auto. now apply row_tags_agree.
  Qed.

  Lemma sig_present aks ops w i c sig p :
    winv aks ops w -> nth_error (cw_colls w) i = Some c -> mget bytes_eqb (hc_sigs c) sig = Some p ->
    exists m s g a, group (hc_keys c) sig (live i ops) = (m, s) :: g /\ sig = sig_of (hc_keys c) m /\
      In (m, s) (live i ops) /\
      hload (cw_heap w) p = Some a /\ a = aggregate (hc_agg c) (s_time s) (map snd ((m, s) :: g)).
  Proof.
    intros I Ei Eg. pose proof (wi_data _ _ _ I _ _ sig Ei) as D. rewrite Eg in D.
    destruct (hload_live (cw_heap w) p (wi_wf _ _ _ I)) as [a Ea].
    { eapply (wi_live _ _ _ I (InColl i sig)). exists c. auto. }
    rewrite Ea in D. destruct (group (hc_keys c) sig (live i ops)) as [|[m s] g] eqn:G; [discriminate|].
    destruct (group_In _ _ _ _ _ _ G) as [Hin Hsig].
    exists m, s, g, a. cbn [gdata] in D. repeat split; auto. congruence.
  Qed.

  Lemma decodable aks ops w i c :
    winv aks ops w -> Forall op_short ops -> nth_error (cw_colls w) i = Some c ->
    sorted_keys (hc_keys c) ->
    forall sig p, mget bytes_eqb (hc_sigs c) sig = Some p ->
    p < length (ah_objs (cw_heap w)) /\
      exists m s, In (m, s) (live i ops) /\ sig = sig_of (hc_keys c) m /\ short_values m /\
      decode_tags sig (hc_keys c) = Some (row_tags (hc_keys c) m).
  Proof.
    intros I Hsh Ei HS sig p Eg.
    destruct (sig_present _ _ _ _ _ _ _ I Ei Eg) as (m & s & g & a & G & Hsig & Hin & Ea & _).
    split; [eapply hload_lt; eassumption|]. exists m, s.
    pose proof (live_short i ops Hsh) as HL. rewrite Forall_forall in HL. specialize (HL _ Hin).
    repeat split; auto. rewrite Hsig. now apply decode_enc_sorted.
  Qed.

  Lemma rows_group_by aks ops w i c it h' rows :
    winv aks ops w -> Forall op_short ops -> nth_error (cw_colls w) i = Some c ->
    sorted_keys (hc_keys c) -> Permutation it (hc_sigs c) ->
    hc_rows (cw_heap w) (hc_keys c) it = Some (h', rows) ->
    exists vals, rows_show h' rows vals /\ is_group_by (hc_agg c) (hc_keys c) (live i ops) vals.
  Proof.
    intros I Hsh Ei HS Hp Hr.
    destruct (wi_conf _ _ _ I _ _ Ei) as [_ Hwf0].
    assert (Hit : forall sig p, In (sig, p) it <-> mget bytes_eqb (hc_sigs c) sig = Some p).
    { intros sig p. split; intros H.
      - apply (In_mget _ bytes_eqb_spec); [exact Hwf0|]. eapply Permutation_in; eassumption.
      - apply (mget_In _ bytes_eqb_spec) in H. eapply Permutation_in; [symmetry|]; eassumption. }
    pose proof (decodable _ _ _ _ _ I Hsh Ei HS) as Hdec.
    destruct (hc_rows_spec (hc_keys c) it (cw_heap w) (wi_wf _ _ _ I) (wi_sep _ _ _ I))
      as (h2 & rows2 & E & W2 & S2 & L2 & O2 & HF & Q2).
    { intros sig p Hin. apply Hit in Hin. destruct (Hdec _ _ Hin) as (Hl & m & s & _ & _ & _ & Hd).
      split; [exact Hl|eauto]. }
    rewrite Hr in E. injection E as <- <-.
    pose proof (live_short i ops Hsh) as HL. rewrite Forall_forall in HL.
    set (val := fun e : bytes * nat =>
      match decode_tags (fst e) (hc_keys c), hload (cw_heap w) (snd e) with
      | Some t, Some a => [(t, a)] | _, _ => [] end).
    exists (flat_map val it). split.
    - unfold rows_show.
      assert (Hall : forall sig p, In (sig, p) it -> exists a, hload (cw_heap w) p = Some a).
      { intros sig p Hin. apply Hit in Hin. destruct (sig_present _ _ _ _ _ _ _ I Ei Hin) as (? & ? & ? & a & _ & _ & _ & Ha & _). eauto. }
      clear - HF Hall. induction HF as [|[sig p] [t q] it rows [H1 H2] HF IH]; [constructor|].
      cbn [flat_map fst snd] in *. destruct (Hall sig p (or_introl eq_refl)) as [a Ha].
      unfold val at 1. cbn [fst snd]. rewrite H1, Ha. cbn [app]. constructor.
      + cbn [fst snd]. split; [reflexivity|congruence].
      + apply IH. intros sig' p' Hin. eapply Hall. right. exact Hin.
    - assert (Hval : forall tags data, In (tags, data) (flat_map val it) <->
        exists sig p, mget bytes_eqb (hc_sigs c) sig = Some p /\
      decode_tags sig (hc_keys c) = Some tags /\ hload (cw_heap w) p = Some data).
      { intros tags data. rewrite in_flat_map. split.
        - intros ([sig p] & Hin & Hv). exists sig, p. apply Hit in Hin. split; [exact Hin|].
          unfold val in Hv. cbn [fst snd] in Hv.
          destruct (decode_tags sig (hc_keys c)); [|contradiction].
          destruct (hload (cw_heap w) p); [|contradiction]. destruct Hv as [[= -> ->]|[]]. auto.
        - intros (sig & p & Hg & Hd & Hl). exists (sig, p). split; [now apply Hit|].
          unfold val. cbn [fst snd]. rewrite Hd, Hl. now left. }
      split.
      + assert (ND : NoDup (map fst it)).
        { eapply Permutation_NoDup; [apply Permutation_map; symmetry; exact Hp|]. exact Hwf0. }
        assert (Hdec' : forall sig p, In (sig, p) it -> exists m, short_values m /\
      sig = sig_of (hc_keys c) m /\ decode_tags sig (hc_keys c) = Some (row_tags (hc_keys c) m)).
        { intros sig p Hin. apply Hit in Hin. destruct (Hdec _ _ Hin) as (_ & m & s & _ & H1 & H2 & H3). eauto. }
        clear - ND Hdec'. induction it as [|[sig p] it IH]; [constructor|].
        cbn [flat_map map] in *. inversion ND as [|? ? Hn ND']; subst.
        assert (NoDup (map fst (flat_map val it))) as X.
        { apply IH; [exact ND'|]. intros sig' p' Hin. eapply Hdec'. right. exact Hin. }
        destruct (Hdec' sig p (or_introl eq_refl)) as (m & Hm & Hsig & Hd).
        unfold val at 1. cbn [fst snd] in *. rewrite Hd. destruct (hload (cw_heap w) p) as [a|]; [|exact X].
        cbn [app map fst]. constructor; [|exact X]. intros Hin.
        apply in_map_iff in Hin. destruct Hin as ([t a'] & Et & Hin). cbn [fst] in Et. subst t.
        apply in_flat_map in Hin. destruct Hin as ([sig' p'] & Hin & Hv).
        destruct (Hdec' sig' p' (or_intror Hin)) as (m' & Hm' & Hsig' & Hd').
        unfold val in Hv. cbn [fst snd] in Hv. rewrite Hd' in Hv.
        destruct (hload (cw_heap w) p'); [|contradiction]. destruct Hv as [[= Et _]|[]].
        apply Hn. apply in_map_iff. exists (sig', p'). split; [|exact Hin]. cbn [fst].
        rewrite Hsig, Hsig'. apply sig_of_inj; auto. now apply row_tags_agree.
      + intros tags data. rewrite Hval. split.
        * intros (sig & p & Hg & Hd & Hl).
          destruct (sig_present _ _ _ _ _ _ _ I Ei Hg) as (m & s & g & a & G & Hsig & Hin & Ea & Hagg).
          pose proof (HL _ Hin) as Hm. cbn [fst] in Hm.
          rewrite Hsig, decode_enc_sorted in Hd by assumption. injection Hd as <-.
          exists m, s, g. split; [|congruence].
          rewrite <- group_with_tags; [now rewrite <- Hsig|exact Hm|now apply live_short].
        * intros (m & s & g & Hw & ->).
          assert (In (m, s) (live i ops) /\ row_tags (hc_keys c) m = tags) as [Hin Ht].
          { assert (In (m, s) (with_tags (hc_keys c) tags (live i ops))) as X by (rewrite Hw; now left).
            apply filter_In in X. destruct X as [X1 X2]. split; [exact X1|]. cbn [fst] in X2.
            now destruct (tags_eqb_spec (row_tags (hc_keys c) m) tags). }
          pose proof (HL _ Hin) as Hm. cbn [fst] in Hm. subst tags.
          rewrite <- group_with_tags in Hw; [|exact Hm|now apply live_short].
          pose proof (wi_data _ _ _ I _ _ (sig_of (hc_keys c) m) Ei) as D. rewrite Hw in D. cbn [gdata] in D.
          destruct (mget bytes_eqb (hc_sigs c) (sig_of (hc_keys c) m)) as [p|] eqn:Eg; [|discriminate].
          exists (sig_of (hc_keys c) m), p. split; [exact Eg|]. split; [now apply decode_enc_sorted|].
          now rewrite <- D.
  Qed.

  (** Delivered rows keep their place and, unless the user writes to them, their data. *)
  Lemma out_stays w op w' n i rows :
    cstep (F := F) w op w' -> nth_error (cw_out w) n = Some (i, rows) -> nth_error (cw_out w') n = Some (i, rows).
  Proof.
    intros Hs En. destruct Hs; cbn [cw_out]; auto.
    rewrite nth_error_app1; [exact En|]. apply nth_error_Some. congruence.
  Qed.

  Lemma row_step aks ops w op w' n i rows j tags p :
    winv aks ops w -> cstep w op w' ->
    nth_error (cw_out w) n = Some (i, rows) -> nth_error rows j = Some (tags, p) ->
    (forall a, op <> CUser n j a) ->
    hload (cw_heap w') p = hload (cw_heap w) p.
  Proof.
    intros I Hs En Ej Hu.
    assert (Hheld : held w (InOut n j) p) by (exists i, rows, tags; auto).
    pose proof (wi_live _ _ _ I _ _ Hheld) as Hlt.
    destruct Hs as [i' c m s sig h' c' Ei Es Ha|i' c it h' rows' Ei Hp Hr|i' c Ei|n' j' a i' rows' tags' p' En' Ej'];
      cbn [cw_heap].
    - unfold hc_add in Ha. destruct (mget bytes_eqb (hc_sigs c) sig) as [q|] eqn:Eg.
      + injection Ha as <- <-. apply hadd_other; [apply (wi_sep _ _ _ I)|]. intros ->.
        assert (held w (InColl i' sig) p) as Hq by (exists c; auto).
        pose proof (wi_inj _ _ _ I _ _ _ Hheld Hq). discriminate.
      + pose proof (halloc_spec (cw_heap w) (new_data (hc_agg c) (s_time s)) (wi_wf _ _ _ I) (wi_sep _ _ _ I)) as X.
        destruct (halloc (cw_heap w) (new_data (hc_agg c) (s_time s))) as [h1 q]. cbn [fst snd] in X.
        destruct X as (Ep & L1 & W1 & S1 & Hq & Hold). injection Ha as <- <-.
        rewrite hadd_other; [now apply Hold|exact S1|lia].
    - destruct (wi_conf _ _ _ I _ _ Ei) as [_ Hwf0].
      assert (Hb : forall sig q, In (sig, q) it -> q < length (ah_objs (cw_heap w))).
      { intros sig q Hin. eapply (wi_live _ _ _ I (InColl i' sig)). exists c. split; [exact Ei|].
        apply (In_mget _ bytes_eqb_spec); [exact Hwf0|]. eapply Permutation_in; eassumption. }
      clear - Hr Hlt Hb I.
      assert (X : forall it h h' rows', hwf h -> hsep h -> hc_rows h (hc_keys c) it = Some (h', rows') ->
        (forall sig q, In (sig, q) it -> q < length (ah_objs h)) -> p < length (ah_objs h) ->
        hload h' p = hload (F := F) h p).
      { clear. induction it as [|[sig q] it IH]; intros h h' rows' W S Hr Hb Hlt; cbn [hc_rows] in Hr.
        - now injection Hr as <- <-.
        - destruct (decode_tags sig (hc_keys c)); [|discriminate].
          destruct (hload_live h q W (Hb sig q (or_introl eq_refl))) as [a Ea].
          destruct (hclone_spec h q a W S Ea) as (h1 & q1 & E1 & (Eq & L1 & W1 & S1 & Ha & Hold)).
          rewrite E1 in Hr. destruct (hc_rows h1 (hc_keys c) it) as [[h2 rows2]|] eqn:E2; [|discriminate].
          injection Hr as <- <-. rewrite (IH _ _ _ W1 S1 E2); [now apply Hold| |lia].
          intros sig' q' Hin. pose proof (Hb sig' q' (or_intror Hin)). lia. }
      eapply X; try eassumption; [apply (wi_wf _ _ _ I)|apply (wi_sep _ _ _ I)].
    - reflexivity.
    - apply hload_store_other; [apply (wi_sep _ _ _ I)|]. intros ->.
      assert (held w (InOut n' j') p) as Hq by (exists i', rows', tags'; auto).
      pose proof (wi_inj _ _ _ I _ _ _ Hheld Hq) as E. injection E as <- <-. now apply (Hu a).
  Qed.

  Lemma row_steps aks ops1 w1 ops2 w2 n i rows j tags p :
    csteps (init_cworld aks) ops1 w1 -> csteps w1 ops2 w2 ->
    nth_error (cw_out w1) n = Some (i, rows) -> nth_error rows j = Some (tags, p) ->
    untouched n j ops2 ->
    nth_error (cw_out w2) n = Some (i, rows) /\ hload (cw_heap w2) p = hload (cw_heap w1) p.
  Proof.
    intros H1 H2. induction H2 as [w|w ops w1' op w2 H IH Hs]; intros En Ej Hu; [auto|].
    destruct (IH H1 En Ej) as [En' El].
    { intros a Hin. apply (Hu a), in_or_app. now left. }
    split; [eapply out_stays; eassumption|]. rewrite <- El.
    eapply row_step; [|exact Hs|exact En'|exact Ej|].
    - apply winv_steps. eapply csteps_app; eassumption.
    - intros a ->. apply (Hu a), in_or_app. right. now left.
  Qed.

  Lemma rows_show_stable aks ops1 w1 ops2 w2 n i rows vals :
    csteps (init_cworld aks) ops1 w1 -> csteps w1 ops2 w2 ->
    nth_error (cw_out w1) n = Some (i, rows) -> rows_show (cw_heap w1) rows vals ->
    (forall j, untouched n j ops2) ->
    nth_error (cw_out w2) n = Some (i, rows) /\ rows_show (cw_heap w2) rows vals.
  Proof.
    intros H1 H2 En Hr Hu. split.
    - clear Hr. induction H2 as [w|w ops w1' op w2 H IH Hs]; [exact En|].
      eapply out_stays; [exact Hs|]. apply IH; [assumption|assumption|].
      intros j a Hin. apply (Hu j a), in_or_app. now left.
    - assert (X : forall j r, nth_error rows j = Some r -> hload (cw_heap w2) (snd r) = hload (cw_heap w1) (snd r)).
      { intros j [tags p] Ej. eapply row_steps; try eassumption. apply Hu. }
      unfold rows_show in *. clear - Hr X. induction Hr as [|r v rows vals [A B] Hr IH]; constructor.
      + split; [exact A|]. rewrite (X 0 r eq_refl). exact B.
      + apply IH. intros j r' Ej. apply (X (S j)). exact Ej.
  Qed.

  Lemma csteps_conf aks ops w i c :
    csteps (init_cworld aks) ops w -> nth_error (cw_colls w) i = Some c ->
    nth_error aks i = Some (hc_agg c, hc_keys c).
  Proof. intros H E. now apply (wi_conf _ _ _ (winv_steps _ _ _ H)) in E. Qed.

  Lemma coll_exists aks ops w i agg keys :
    csteps (init_cworld aks) ops w -> nth_error aks i = Some (agg, keys) ->
    exists c, nth_error (cw_colls w) i = Some c /\ hc_agg c = agg /\ hc_keys c = keys.
  Proof.
    intros H E. pose proof (winv_steps _ _ _ H) as I.
    destruct (nth_error (cw_colls w) i) as [c|] eqn:Ec.
    - exists c. split; [reflexivity|]. apply (wi_conf _ _ _ I) in Ec. destruct Ec as [Ec _].
      rewrite E in Ec. injection Ec as -> ->. auto.
    - apply nth_error_None in Ec. rewrite (wi_len _ _ _ I) in Ec.
      assert (i < length aks) by (apply nth_error_Some; congruence). lia.
  Qed.
End World.
