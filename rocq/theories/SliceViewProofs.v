(** Proofs about canonicalize on shared slices. *)

From Coq Require Import List Arith ZArith Bool Lia Sorted Permutation ZifyBool ZifyNat.
From Verif Require Import Base ListLib GoMap GoSort Float64 TagModel AggModel AggProofs CollectorModel CollectorSpec CollectorProofs
  ViewModel WorkerModel WorkerSpec ViewProofs SliceViewModel SliceViewSpec.
Import ListNotations.
Open Scope nat_scope.

(** ** Slices *)

Section Slices.
  Context {A : Type}.
  Implicit Types (h : list (list A)) (s t : slice).

  Definition fits h s : Prop := sl_off s + sl_len s <= length (nth (sl_arr s) h []).

  Lemma sread_length h s : fits h s -> length (sread h s) = sl_len s.
  Proof. intros H. unfold fits, sread in *. rewrite firstn_length, skipn_length. lia. Qed.

  Lemma nth_upd h i f j : nth j (upd h i f) [] = if (i =? j) && (i <? length h) then f (nth j h []) else nth j h [].
  Proof.
    destruct (nth_error h j) as [a|] eqn:E.
    - assert (Hj : j < length h) by (apply nth_error_Some; congruence).
      rewrite (nth_error_nth h j [] E). apply nth_error_nth. rewrite nth_error_upd, E.
      destruct (Nat.eqb_spec i j) as [->|]; [|reflexivity]. destruct (Nat.ltb_spec j (length h)); [reflexivity|lia].
    - apply nth_error_None in E. rewrite !nth_overflow by (rewrite ?upd_length; exact E).
      destruct (Nat.eqb_spec i j) as [->|]; [|reflexivity]. destruct (Nat.ltb_spec j (length h)); [lia|reflexivity].
  Qed.

  Lemma upd_out h i f : length h <= i -> upd h i f = h.
  Proof. revert i. induction h as [|x h IH]; intros [|i] H; cbn in *; try reflexivity; [lia|]. f_equal. apply IH. lia. Qed.

  Lemma fits_len0 h s : fits h s -> length h <= sl_arr s -> sl_off s = 0 /\ sl_len s = 0.
  Proof. intros H L. unfold fits in H. rewrite nth_overflow in H by exact L. cbn in H. lia. Qed.

  Lemma read_same h s l : fits h s -> length l = sl_len s -> sread (swrite h s l) s = l.
  Proof.
    intros H L. unfold sread, swrite. rewrite nth_upd, Nat.eqb_refl. cbn [andb].
    destruct (Nat.ltb_spec (sl_arr s) (length h)) as [Hi|Hi].
    - unfold fits in H. rewrite skipn_app, skipn_all2 by (rewrite firstn_length; lia). rewrite firstn_length, Nat.min_l by lia.
      rewrite Nat.sub_diag. cbn [skipn app]. rewrite firstn_app, L, Nat.sub_diag, firstn_O, app_nil_r. rewrite <- L. apply firstn_all.
    - destruct (fits_len0 _ _ H Hi) as [H1 H2]. rewrite H2 in *. destruct l; [reflexivity|discriminate L].
  Qed.

  Lemma read_apart h s t l : fits h s -> length l = sl_len s -> apart s t -> sread (swrite h s l) t = sread h t.
  Proof.
    intros H L Ha. unfold sread, swrite. rewrite nth_upd. destruct (Nat.eqb_spec (sl_arr s) (sl_arr t)) as [E|E]; [|reflexivity].
    destruct (Nat.ltb_spec (sl_arr s) (length h)) as [Hi|Hi]; [|reflexivity]. cbn [andb]. unfold fits in H. rewrite <- E.
    set (a := nth (sl_arr s) h []) in *. destruct Ha as [Ha|[Ha|Ha]]; [congruence| |].
    - rewrite skipn_app, skipn_all2 by (rewrite firstn_length; lia). rewrite firstn_length, Nat.min_l by lia. cbn [app].
      rewrite skipn_app, skipn_all2 by lia. cbn [app]. rewrite skipn_skipn. do 2 f_equal. lia.
    - rewrite !firstn_skipn_comm. f_equal. rewrite firstn_app, firstn_firstn, firstn_length.
      replace (Nat.min (sl_off t + sl_len t) (sl_off s)) with (sl_off t + sl_len t) by lia.
      replace (sl_off t + sl_len t - _) with 0 by lia. rewrite firstn_O, app_nil_r. reflexivity.
  Qed.

  Lemma write_id h s : fits h s -> swrite h s (sread h s) = h.
  Proof.
    intros H. unfold swrite, sread. destruct (le_lt_dec (length h) (sl_arr s)) as [L|L]; [now apply upd_out|].
    apply upd_id. intros a Ea. rewrite (nth_error_nth h (sl_arr s) [] Ea).
    replace (skipn (sl_off s + sl_len s) a) with (skipn (sl_len s) (skipn (sl_off s) a)) by (rewrite skipn_skipn; f_equal; lia).
    rewrite firstn_skipn. apply firstn_skipn.
  Qed.

  Lemma fits_write h s t l : fits h s -> length l = sl_len s -> fits h t -> fits (swrite h s l) t.
  Proof.
    intros H L Ht. unfold fits, swrite in *. rewrite nth_upd. destruct (_ && _) eqn:E; [|exact Ht].
    apply andb_prop in E. destruct E as [E _]. apply Nat.eqb_eq in E. rewrite <- E in *.
    rewrite !app_length, firstn_length, skipn_length. lia.
  Qed.

  Lemma fits_new h l s : fits h s -> fits (h ++ [l]) s.
  Proof.
    unfold fits. destruct (le_lt_dec (length h) (sl_arr s)) as [L|L].
    - rewrite nth_overflow by exact L. cbn. lia.
    - now rewrite app_nth1.
  Qed.

  Lemma read_new h l s : fits h s -> sread (h ++ [l]) s = sread h s.
  Proof.
    unfold fits, sread. destruct (le_lt_dec (length h) (sl_arr s)) as [L|L].
    - rewrite (nth_overflow h) by exact L. cbn [length]. intros H. replace (sl_len s) with 0 by lia. reflexivity.
    - now rewrite app_nth1.
  Qed.

  Definition suffix (k : nat) s : slice := MkSlice (sl_arr s) (sl_off s + k) (sl_len s - k).

  Lemma read_suffix h s k : sread h (suffix k s) = skipn k (sread h s).
  Proof. unfold sread, suffix. cbn. rewrite skipn_firstn_comm, skipn_skipn. do 2 f_equal; lia. Qed.

  Lemma suffix_0 s : suffix 0 s = s.
  Proof. destruct s. unfold suffix. cbn. now rewrite Nat.add_0_r, Nat.sub_0_r. Qed.

  Lemma apart_sym s t : apart s t -> apart t s.
  Proof. intros [H|[H|H]]; [left; congruence|right; right; exact H|right; left; exact H]. Qed.

  Lemma apart_suffix k s t : k <= sl_len s -> apart s t -> apart (suffix k s) t.
  Proof. unfold apart, suffix. cbn. intros Hk [H|[H|H]]; [now left|right; left; lia|right; right; lia]. Qed.

  Lemma fits_suffix h k s : k <= sl_len s -> fits h s -> fits h (suffix k s).
  Proof. unfold fits, suffix. cbn. lia. Qed.

  Context (ltb : A -> A -> bool).
  Lemma isort_len (l : list A) : length (isort ltb l) = length l.
  Proof. apply Permutation_length, isort_perm. Qed.

  Lemma sort_same h s : fits h s -> sread (ssort ltb h s) s = isort ltb (sread h s).
  Proof. intros H. apply read_same; [exact H|]. now rewrite isort_len, sread_length. Qed.

  Lemma sort_apart h s t : fits h s -> apart s t -> sread (ssort ltb h s) t = sread h t.
  Proof. intros H. apply read_apart; [exact H|]. now rewrite isort_len, sread_length. Qed.

  Lemma sort_fits h s t : fits h s -> fits h t -> fits (ssort ltb h s) t.
  Proof. intros H. apply fits_write; [exact H|]. now rewrite isort_len, sread_length. Qed.

  Lemma sort_sorted h s : fits h s -> StronglySorted (leb ltb) (sread h s) -> ssort ltb h s = h.
  Proof. intros H S. unfold ssort. rewrite isort_id by exact S. now apply write_id. Qed.
End Slices.

Lemma sfits_fits {A} (h : list (list A)) s : sfits h s = true -> fits h s.
Proof. apply Nat.leb_le. Qed.

Lemma SS_skipn {A} (R : A -> A -> Prop) k : forall l, StronglySorted R l -> StronglySorted R (skipn k l).
Proof. induction k as [|k IH]; intros [|x l] H; try exact H. cbn. apply IH. now inversion H. Qed.

(** ** Bounds *)

Definition pos (b : f64) : bool := f_ltb f_zero b.

Lemma drop_split l : l = firstn (length l - length (drop_zero_bounds l)) l ++ drop_zero_bounds l /\
  Forall (fun b => pos b = false) (firstn (length l - length (drop_zero_bounds l)) l) /\ length (drop_zero_bounds l) <= length l.
Proof.
  induction l as [|b l (IH1 & IH2 & IH3)]; [repeat split; constructor|]. cbn [drop_zero_bounds]. unfold pos. destruct (f_ltb f_zero b) eqn:E.
  - rewrite Nat.sub_diag. repeat split; [constructor|lia].
  - cbn [length]. rewrite Nat.sub_succ_l by exact IH3. cbn [firstn app]. repeat split.
    + f_equal. exact IH1.
    + constructor; [exact E|exact IH2].
    + lia.
Qed.

Lemma drop_skipn l : drop_zero_bounds l = skipn (length l - length (drop_zero_bounds l)) l.
Proof.
  destruct (drop_split l) as (H1 & _ & _). apply (app_inv_head (firstn (length l - length (drop_zero_bounds l)) l)).
  rewrite firstn_skipn. symmetry. exact H1.
Qed.

Lemma drop_all_pos l : Forall (fun b => pos b = true) l -> drop_zero_bounds l = l.
Proof. intros [|b r H _]; [reflexivity|]. cbn. unfold pos in H. now rewrite H. Qed.

(** The slice [c] of an aggregation made with slice [o] when it has been canonicalised. *)
Definition canon (h : list (list f64)) (o c : slice) : Prop :=
  exists k, k <= sl_len o /\ c = suffix k o /\ StronglySorted (leb f_less) (sread h o) /\
    Forall (fun b => pos b = false) (firstn k (sread h o)) /\ Forall (fun b => pos b = true) (skipn k (sread h o)).
Definition agg_ok (h : list (list f64)) (o c : slice) : Prop := c = o \/ canon h o c.

Lemma agg_ok_suffix h o c : agg_ok h o c -> exists k, k <= sl_len o /\ c = suffix k o.
Proof. intros [->|(k & Hk & -> & _)]; [exists 0; rewrite suffix_0; split; [lia|reflexivity]|now exists k]. Qed.

Lemma agg_ok_fits h o c : fits h o -> agg_ok h o c -> fits h c.
Proof. intros F H. destruct (agg_ok_suffix _ _ _ H) as (k & Hk & ->). now apply fits_suffix. Qed.

(** Sorting the slice of another aggregation leaves a canonical one alone. *)
Lemma sort_canon h o c oj cj : fits h oj -> agg_ok h oj cj -> whole_or_apart oj o -> canon h o c ->
  sread (ssort f_less h cj) o = sread h o.
Proof.
  intros F Hj Hw Hc. destruct (agg_ok_suffix _ _ _ Hj) as (k & Hk & Ej). pose proof (agg_ok_fits _ _ _ F Hj) as Fj.
  destruct Hw as [<-|Hw].
  - rewrite sort_sorted; [reflexivity|exact Fj|]. rewrite Ej, read_suffix. apply SS_skipn. destruct Hc as (? & ? & ? & ? & ?). assumption.
  - apply sort_apart; [exact Fj|]. rewrite Ej. now apply apart_suffix.
Qed.

Lemma canon_read h h' o c : sread h' o = sread h o -> canon h o c -> canon h' o c.
Proof. intros E (k & H1 & H2 & H3 & H4 & H5). exists k. rewrite E. auto. Qed.

Lemma canon_content h o c : canon h o c -> sread h c = filter pos (sread h o) /\ StronglySorted (leb f_less) (sread h c) /\ Forall (fun b => pos b = true) (sread h c).
Proof.
  intros (k & Hk & -> & S & N & P). rewrite read_suffix. split; [|split; [now apply SS_skipn|exact P]].
  rewrite <- (firstn_skipn k (sread h o)) at 2. rewrite filter_app.
  assert (E1 : filter pos (firstn k (sread h o)) = []) by (clear -N; induction N as [|x l H _ IH]; [reflexivity|]; cbn; now rewrite H).
  assert (E2 : filter pos (skipn k (sread h o)) = skipn k (sread h o)) by (clear -P; induction P as [|x l H _ IH]; [reflexivity|]; cbn; rewrite H; now f_equal).
  now rewrite E1, E2.
Qed.

Lemma isort_fsorted l : StronglySorted (leb f_less) (isort f_less l).
Proof. apply isort_sorted; [apply f_less_trans|apply f_less_asym]. Qed.

(** Canonicalising an aggregation: afterwards it is canonical. *)
Lemma canon_after h o c : fits h o -> agg_ok h o c ->
  let h' := ssort f_less h c in canon h' o (drop_slice c (sread h' c)).
Proof.
  intros F Ha h'. pose proof (agg_ok_fits _ _ _ F Ha) as Fc. destruct Ha as [->|Hc].
  - assert (ER : sread h' o = isort f_less (sread h o)) by (apply sort_same; exact F).
    assert (EL : length (sread h' o) = sl_len o) by (apply sread_length; apply sort_fits; exact F).
    pose proof (isort_fsorted (sread h o)) as S. rewrite <- ER in S.
    destruct (drop_split (sread h' o)) as (H1 & H2 & H3). pose proof (drop_skipn (sread h' o)) as H4. rewrite EL in *.
    exists (sl_len o - length (drop_zero_bounds (sread h' o))). split; [lia|]. split; [|split; [exact S|split; [exact H2|]]].
    + unfold drop_slice, suffix. f_equal. lia.
    + rewrite <- H4, drop_zero_sorted by exact S. apply Forall_forall. intros b Hb. now apply filter_In in Hb.
  - destruct (canon_content _ _ _ Hc) as (_ & S & P). assert (E : h' = h) by (apply sort_sorted; [exact Fc|exact S]). rewrite E.
    unfold drop_slice. rewrite drop_all_pos by exact P. rewrite sread_length by exact Fc.
    replace (MkSlice _ _ _) with c; [exact Hc|]. destruct c. cbn. f_equal. lia.
Qed.

(** ** The invariant *)

Record AInv (ks bs : list slice) (w : aworld) : Prop := {
  ai_views : map av_keys (aw_views w) = ks;
  ai_kin : Forall (fits (aw_keys w)) ks;
  ai_bin : Forall (fits (aw_bounds w)) bs;
  ai_len : length bs = length (aw_aggs w);
  ai_aggs : forall i o a, nth_error bs i = Some o -> nth_error (aw_aggs w) i = Some a -> agg_ok (aw_bounds w) o (aa_buckets a);
  ai_ptr : forall p v ap, nth_error (aw_views w) p = Some v -> av_agg v = Some ap -> ap < length (aw_aggs w);
  ai_nil : forall i a, nth_error (aw_aggs w) i = Some a -> sread (aw_bounds w) (aa_buckets a) = [] \/ exists b, aa_kind a = AggDist b }.

Definition clean (ks bs : list slice) : Prop :=
  (forall s t, In s ks -> In t ks -> whole_or_apart s t) /\ (forall s t, In s bs -> In t bs -> whole_or_apart s t).

(** The view is registered: canonical. *)
Definition settled (bs : list slice) (w : aworld) (p : nat) : Prop :=
  exists v me ap o a, nth_error (aw_views w) p = Some v /\ av_measure v = Some me /\ av_agg v = Some ap /\
    or_else (av_name v) (me_name me) = av_name v /\ or_else (av_desc v) (me_desc me) = av_desc v /\
    StronglySorted (leb bytes_ltb) (sread (aw_keys w) (av_keys v)) /\
    nth_error bs ap = Some o /\ nth_error (aw_aggs w) ap = Some a /\ canon (aw_bounds w) o (aa_buckets a).

Lemma in_nth {A} (l : list A) i x : nth_error l i = Some x -> In x l.
Proof. apply nth_error_In. Qed.

Lemma whole_sym s t : whole_or_apart s t -> whole_or_apart t s.
Proof. intros [->|H]; [now left|right; now apply apart_sym]. Qed.

Lemma sort_keys_at (h : list (list key)) s t : fits h s -> whole_or_apart s t ->
  sread (ssort bytes_ltb h s) t = sread h t \/ sread (ssort bytes_ltb h s) t = isort bytes_ltb (sread h t).
Proof. intros F [<-|H]; [right; now apply sort_same|left; now apply sort_apart]. Qed.

Lemma keys_leb_sorted l : StronglySorted (leb bytes_ltb) (isort bytes_ltb l).
Proof. apply isort_sorted; [apply bytes_leb_trans|]. intros a b. apply bytes_ltb_asym. Qed.

Lemma or_else_match (a b : bytes) : match a with [] => b | _ => a end = or_else a b.
Proof. reflexivity. Qed.


(** Sorting the slice of one aggregation: the others hold the same values. *)
Lemma bounds_other h o c oj cj : fits h o -> fits h oj -> agg_ok h o c -> agg_ok h oj cj -> whole_or_apart oj o ->
  let h' := ssort f_less h cj in agg_ok h' o c /\ Permutation (sread h c) (sread h' c) /\ (canon h o c -> canon h' o c /\ sread h' c = sread h c).
Proof.
  intros F Fj H Hj W h'. assert (Hcan : canon h o c -> canon h' o c /\ sread h' c = sread h c).
  { intros Hc. pose proof (sort_canon _ _ _ _ _ Fj Hj W Hc) as E. split; [exact (canon_read _ _ _ _ E Hc)|].
    destruct Hc as (k & Hk & -> & _). rewrite !read_suffix. f_equal. exact E. }
  destruct H as [->|Hc].
  - split; [now left|]. split; [|exact Hcan]. destruct W as [->|W].
    + destruct Hj as [->|Hj]; [unfold h'; rewrite sort_same by exact F; symmetry; apply isort_perm|].
      unfold h'. rewrite sort_sorted; [reflexivity|apply (agg_ok_fits _ _ _ F); now right|]. now destruct (canon_content _ _ _ Hj) as (_ & S & _).
    + destruct (agg_ok_suffix _ _ _ Hj) as (k & Hk & E). pose proof (agg_ok_fits _ _ _ Fj Hj). unfold h'.
      rewrite sort_apart; [reflexivity|assumption|]. rewrite E. now apply apart_suffix.
  - destruct (Hcan Hc) as [H1 H2]. split; [now right|]. split; [now rewrite H2|exact Hcan].
Qed.

Lemma filter_pos_drop l : filter pos (drop_zero_bounds l) = filter pos l.
Proof. induction l as [|b l IH]; [reflexivity|]. cbn. unfold pos in *. destruct (f_ltb f_zero b) eqn:E; [cbn; now rewrite E|exact IH]. Qed.

Lemma filter_perm {A} (f : A -> bool) l l' : Permutation l l' -> Permutation (filter f l) (filter f l').
Proof.
  induction 1 as [|x l l' H IH|x y l|l1 l2 l3 H1 IH1 H2 IH2]; cbn; [constructor| | |now transitivity (filter f l2)].
  - destruct (f x); [now constructor|exact IH].
  - destruct (f x), (f y); try reflexivity. apply perm_swap.
Qed.

Lemma map_upd_keep {A B} (f : A -> B) (l : list A) g h : (forall x, nth_error l g = Some x -> f (h x) = f x) -> map f (upd l g h) = map f l.
Proof.
  revert g. induction l as [|x l IH]; intros [|g] H; cbn [upd map]; try reflexivity.
  - now rewrite (H x eq_refl).
  - f_equal. apply IH. intros y Hy. now apply H.
Qed.

Definition new_view (v : aview) (me : measure) : aview :=
  MkAV (or_else (av_name v) (me_name me)) (or_else (av_desc v) (me_desc me)) (av_keys v) (av_measure v) (av_agg v).

(** What holds between the worlds before and after. *)
Record step_ok (ks bs : list slice) (w w' : aworld) : Prop := {
  so_inv : AInv ks bs w';
  so_len : length (aw_views w') = length (aw_views w);
  so_set : forall q, settled bs w q -> settled bs w' q /\ shown w' q = shown w q;
  so_keys : forall q k', shown_keys w' q = Some k' -> exists k, shown_keys w q = Some k /\ Permutation k k';
  so_bounds : forall q b', shown_bounds w' q = Some b' -> exists b, shown_bounds w q = Some b /\ Permutation (filter pos b) (filter pos b') }.

Lemma step_ok_refl ks bs w : AInv ks bs w -> step_ok ks bs w w.
Proof. intros I. split; auto; intros q x H; exists x; auto. Qed.

Lemma step_ok_trans ks bs w1 w2 w3 : step_ok ks bs w1 w2 -> step_ok ks bs w2 w3 -> step_ok ks bs w1 w3.
Proof.
  intros H1 H2. split.
  - apply H2.
  - rewrite (so_len _ _ _ _ H2). apply H1.
  - intros q S. destruct (so_set _ _ _ _ H1 q S) as [S2 E2]. destruct (so_set _ _ _ _ H2 q S2) as [S3 E3]. split; [exact S3|congruence].
  - intros q k E. destruct (so_keys _ _ _ _ H2 q k E) as (k2 & E2 & P2). destruct (so_keys _ _ _ _ H1 q k2 E2) as (k1 & E1 & P1).
    exists k1. split; [exact E1|]. now transitivity k2.
  - intros q k E. destruct (so_bounds _ _ _ _ H2 q k E) as (k2 & E2 & P2). destruct (so_bounds _ _ _ _ H1 q k2 E2) as (k1 & E1 & P1).
    exists k1. split; [exact E1|]. now transitivity (filter pos k2).
Qed.

(** The views array when one view gets its defaults. *)
Lemma views_defaults vs p v me q : nth_error vs p = Some v -> av_measure v = Some me ->
  forall x', nth_error (upd vs p (fun _ => new_view v me)) q = Some x' ->
  exists x, nth_error vs q = Some x /\ av_keys x' = av_keys x /\ av_measure x' = av_measure x /\ av_agg x' = av_agg x /\ (q <> p -> x' = x) /\ (q = p -> x = v /\ x' = new_view v me).
Proof.
  intros Ev Em x' E. rewrite nth_error_upd in E. destruct (Nat.eqb_spec p q) as [<-|N].
  - rewrite Ev in E. injection E as <-. exists v. rewrite Ev. repeat split; try reflexivity; intros H; congruence.
  - exists x'. repeat split; auto; congruence.
Qed.

Lemma AInv_views ks bs w p v me h1 h2 as' : AInv ks bs w -> nth_error (aw_views w) p = Some v -> av_measure v = Some me ->
  AInv ks bs (MkAW h1 h2 as' (aw_views w)) -> AInv ks bs (MkAW h1 h2 as' (upd (aw_views w) p (fun _ => new_view v me))).
Proof.
  intros I Ev Em [J1 J2 J3 J4 J5 J6 J7]. split; cbn in *; auto.
  - rewrite map_upd_keep; [exact J1|]. intros x Ex. rewrite Ev in Ex. injection Ex as <-. reflexivity.
  - intros q x ap Ex Ea. destruct (views_defaults _ _ _ _ q Ev Em _ Ex) as (y & Ey & _ & _ & E & _). rewrite E in Ea. exact (J6 _ _ _ Ey Ea).
Qed.

Lemma settled_view bs w p v me q : settled bs w q -> nth_error (aw_views w) p = Some v -> av_measure v = Some me ->
  nth_error (upd (aw_views w) p (fun _ => new_view v me)) q = nth_error (aw_views w) q.
Proof.
  intros (x & me' & ap & o & a & Ex & Em & Ea & En & Ed & _) Ev Emv. rewrite nth_error_upd. destruct (Nat.eqb_spec p q) as [->|N]; [|reflexivity].
  rewrite Ev. cbn. f_equal. rewrite Ev in Ex. injection Ex as <-. rewrite Em in Emv. injection Emv as <-.
  unfold new_view. rewrite En, Ed. destruct v; reflexivity.
Qed.

Lemma step_defaults ks bs w p v me : AInv ks bs w -> nth_error (aw_views w) p = Some v -> av_measure v = Some me ->
  step_ok ks bs w (MkAW (aw_keys w) (aw_bounds w) (aw_aggs w) (upd (aw_views w) p (fun _ => new_view v me))).
Proof.
  intros I Ev Em. split; cbn.
  - apply AInv_views; auto. destruct w; exact I.
  - apply upd_length.
  - intros q S. pose proof (settled_view _ _ _ _ _ _ S Ev Em) as E. destruct S as (x & me' & ap & o & a & Ex & R).
    split.
    + exists x, me', ap, o, a. cbn. rewrite E. auto.
    + unfold shown, shown_keys, shown_bounds. cbn. rewrite E. reflexivity.
  - intros q k' H. unfold shown_keys in *. cbn in H. destruct (nth_error (upd _ _ _) q) as [x'|] eqn:E; [|discriminate H]. injection H as <-.
    destruct (views_defaults _ _ _ _ q Ev Em _ E) as (x & Ex & Ek & _). rewrite Ex. cbn. rewrite Ek. eauto.
  - intros q k' H. unfold shown_bounds in *. cbn in H. destruct (nth_error (upd _ _ _) q) as [x'|] eqn:E; [|discriminate H].
    destruct (views_defaults _ _ _ _ q Ev Em _ E) as (x & Ex & _ & _ & Ea & _). rewrite Ex. rewrite Ea in H. exists k'. split; [exact H|reflexivity].
Qed.

Lemma key_slice_in ks bs w p v : AInv ks bs w -> nth_error (aw_views w) p = Some v -> In (av_keys v) ks.
Proof. intros I E. rewrite <- (ai_views _ _ _ I). apply in_map. now apply nth_error_In in E. Qed.

Lemma key_fits ks bs w p v : AInv ks bs w -> nth_error (aw_views w) p = Some v -> fits (aw_keys w) (av_keys v).
Proof. intros I E. pose proof (ai_kin _ _ _ I) as F. rewrite Forall_forall in F. apply F. exact (key_slice_in _ _ _ _ _ I E). Qed.

Lemma step_keys ks bs w p v : AInv ks bs w -> clean ks bs -> nth_error (aw_views w) p = Some v ->
  step_ok ks bs w (MkAW (ssort bytes_ltb (aw_keys w) (av_keys v)) (aw_bounds w) (aw_aggs w) (aw_views w)).
Proof.
  intros I [Ck Cb] Ev. pose proof (key_fits _ _ _ _ _ I Ev) as Fv. pose proof (key_slice_in _ _ _ _ _ I Ev) as Iv. split; cbn.
  - destruct I as [J1 J2 J3 J4 J5 J6 J7]. split; cbn; auto. eapply Forall_impl; [|exact J2]. intros s. now apply sort_fits.
  - reflexivity.
  - intros q S. destruct S as (x & me' & ap & o & a & Ex & Em & Ea & En & Ed & S & R).
    assert (E : sread (ssort bytes_ltb (aw_keys w) (av_keys v)) (av_keys x) = sread (aw_keys w) (av_keys x)).
    { destruct (sort_keys_at (aw_keys w) (av_keys v) (av_keys x) Fv (Ck _ _ Iv (key_slice_in _ _ _ _ _ I Ex))) as [E|E]; [exact E|].
      rewrite E. now apply isort_id. }
    split.
    + exists x, me', ap, o, a. cbn. rewrite E. auto 12.
    + unfold shown, shown_keys, shown_bounds. cbn. rewrite Ex. cbn. rewrite E. reflexivity.
  - intros q k' H. unfold shown_keys in *. cbn in H. destruct (nth_error (aw_views w) q) as [x|] eqn:Ex; [|discriminate H]. injection H as <-.
    cbn. eexists. split; [reflexivity|].
    destruct (sort_keys_at (aw_keys w) (av_keys v) (av_keys x) Fv (Ck _ _ Iv (key_slice_in _ _ _ _ _ I Ex))) as [E|E]; rewrite E; [reflexivity|].
    symmetry. apply isort_perm.
  - intros q b H. exists b. split; [exact H|reflexivity].
Qed.

Lemma orig_of ks bs w i a : AInv ks bs w -> nth_error (aw_aggs w) i = Some a -> exists o, nth_error bs i = Some o /\ fits (aw_bounds w) o /\ agg_ok (aw_bounds w) o (aa_buckets a).
Proof.
  intros I E. destruct (nth_error bs i) as [o|] eqn:Eo.
  - exists o. split; [reflexivity|]. split; [|exact (ai_aggs _ _ _ I _ _ _ Eo E)].
    pose proof (ai_bin _ _ _ I) as F. rewrite Forall_forall in F. apply F. now apply nth_error_In in Eo.
  - exfalso. apply nth_error_None in Eo. rewrite (ai_len _ _ _ I) in Eo. assert (i < length (aw_aggs w)) by (apply nth_error_Some; congruence). lia.
Qed.

Lemma perm_nil_r {A} (l : list A) : Permutation [] l -> l = [].
Proof. apply Permutation_nil. Qed.

Lemma step_bounds ks bs w j a : AInv ks bs w -> clean ks bs -> nth_error (aw_aggs w) j = Some a ->
  step_ok ks bs w (MkAW (aw_keys w) (ssort f_less (aw_bounds w) (aa_buckets a)) (aw_aggs w) (aw_views w)).
Proof.
  intros I [Ck Cb] Ea. destruct (orig_of _ _ _ _ _ I Ea) as (oj & Eoj & Foj & Hoj). pose proof (agg_ok_fits _ _ _ Foj Hoj) as Fj.
  assert (Hall : forall i x, nth_error (aw_aggs w) i = Some x -> exists o, nth_error bs i = Some o /\
     let h' := ssort f_less (aw_bounds w) (aa_buckets a) in
     agg_ok h' o (aa_buckets x) /\ Permutation (sread (aw_bounds w) (aa_buckets x)) (sread h' (aa_buckets x)) /\
     (canon (aw_bounds w) o (aa_buckets x) -> canon h' o (aa_buckets x) /\ sread h' (aa_buckets x) = sread (aw_bounds w) (aa_buckets x))).
  { intros i x Ex. destruct (orig_of _ _ _ _ _ I Ex) as (o & Eo & Fo & Ho). exists o. split; [exact Eo|].
    apply (bounds_other (aw_bounds w) o (aa_buckets x) oj (aa_buckets a)); auto. apply Cb; eapply nth_error_In; eassumption. }
  split; cbn.
  - destruct I as [J1 J2 J3 J4 J5 J6 J7]. split; cbn; auto.
    + eapply Forall_impl; [|exact J3]. intros s. now apply sort_fits.
    + intros i o x Eo Ex. destruct (Hall i x Ex) as (o' & Eo' & H & _). congruence.
    + intros i x Ex. destruct (Hall i x Ex) as (o' & Eo' & _ & P & _). destruct (J7 i x Ex) as [E|E]; [left|now right].
      rewrite E in P. now apply Permutation_nil in P.
  - reflexivity.
  - intros q S. destruct S as (x & me' & ap & o & b & Ex & Em & Eap & En & Ed & S & Eo & Eb & Hc).
    destruct (Hall ap b Eb) as (o' & Eo' & _ & _ & H). rewrite Eo in Eo'. injection Eo' as <-. destruct (H Hc) as [Hc' E].
    split.
    + exists x, me', ap, o, b. cbn. auto 12.
    + unfold shown, shown_keys, shown_bounds. cbn. rewrite Ex, Eap, Eb. cbn. rewrite E. reflexivity.
  - intros q k H. exists k. split; [exact H|reflexivity].
  - intros q b' H. unfold shown_bounds in *. cbn in H. destruct (nth_error (aw_views w) q) as [x|]; [|discriminate H].
    destruct (av_agg x) as [ap|]; [|discriminate H]. destruct (nth_error (aw_aggs w) ap) as [y|] eqn:Ey; [|discriminate H].
    cbn in *. injection H as <-. eexists. split; [reflexivity|]. destruct (Hall ap y Ey) as (_ & _ & _ & P & _). now apply filter_perm.
Qed.

Lemma step_drop ks bs w j a : AInv ks bs w -> clean ks bs -> nth_error (aw_aggs w) j = Some a ->
  (forall o, nth_error bs j = Some o -> canon (aw_bounds w) o (drop_slice (aa_buckets a) (sread (aw_bounds w) (aa_buckets a)))) ->
  step_ok ks bs w (MkAW (aw_keys w) (aw_bounds w)
    (upd (aw_aggs w) j (fun _ => MkAA (aa_kind a) (drop_slice (aa_buckets a) (sread (aw_bounds w) (aa_buckets a))))) (aw_views w)).
Proof.
  intros I [Ck Cb] Ea Hcan. destruct (orig_of _ _ _ _ _ I Ea) as (oj & Eoj & Foj & Hoj). pose proof (agg_ok_fits _ _ _ Foj Hoj) as Fj.
  specialize (Hcan _ Eoj). set (d := drop_slice _ _) in *.
  assert (Hd : sread (aw_bounds w) d = drop_zero_bounds (sread (aw_bounds w) (aa_buckets a))).
  { rewrite (drop_skipn (sread (aw_bounds w) (aa_buckets a))), <- read_suffix. f_equal. unfold d, drop_slice, suffix.
    pose proof (sread_length _ _ Fj) as L. destruct (drop_split (sread (aw_bounds w) (aa_buckets a))) as (_ & _ & H). f_equal; lia. }
  clearbody d.
  assert (Hnth : forall i x', nth_error (upd (aw_aggs w) j (fun _ => MkAA (aa_kind a) d)) i = Some x' ->
     i = j /\ x' = MkAA (aa_kind a) d \/ i <> j /\ nth_error (aw_aggs w) i = Some x').
  { intros i x' E. rewrite nth_error_upd in E. destruct (Nat.eqb_spec j i) as [<-|N]; [|right; auto]. rewrite Ea in E. injection E as <-. now left. }
  split; cbn.
  - destruct I as [J1 J2 J3 J4 J5 J6 J7]. split; cbn; auto.
    + now rewrite upd_length.
    + intros i o x Eo Ex. destruct (Hnth _ _ Ex) as [[-> ->]|[N Ex']]; [right; cbn; congruence|]. exact (J5 _ _ _ Eo Ex').
    + intros p v ap. rewrite upd_length. apply J6.
    + intros i x Ex. destruct (Hnth _ _ Ex) as [[-> ->]|[N Ex']]; [|exact (J7 _ _ Ex')]. cbn [aa_buckets aa_kind]. rewrite Hd.
      destruct (J7 _ _ Ea) as [E|E]; [left; now rewrite E|now right].
  - reflexivity.
  - intros q S. destruct S as (x & me' & ap & o & b & Ex & Em & Eap & En & Ed & S & Eo & Eb & Hc).
    destruct (Nat.eq_dec ap j) as [->|N].
    + rewrite Ea in Eb. injection Eb as <-. rewrite Eoj in Eo. injection Eo as <-.
      split.
      * exists x, me', j, oj, (MkAA (aa_kind a) d). cbn. rewrite nth_error_upd, Nat.eqb_refl, Ea. auto 12.
      * unfold shown, shown_keys, shown_bounds. cbn. rewrite Ex, Eap, nth_error_upd, Nat.eqb_refl, Ea. cbn [option_map aa_buckets]. rewrite Hd, drop_all_pos; [reflexivity|].
        now destruct (canon_content _ _ _ Hc) as (_ & _ & P).
    + split.
      * exists x, me', ap, o, b. cbn. rewrite nth_error_upd. destruct (Nat.eqb_spec j ap); [congruence|]. auto 12.
      * unfold shown, shown_keys, shown_bounds. cbn. rewrite Ex, Eap, nth_error_upd. destruct (Nat.eqb_spec j ap); [congruence|]. reflexivity.
  - intros q k H. exists k. split; [exact H|reflexivity].
  - intros q b' H. unfold shown_bounds in *. cbn in H. destruct (nth_error (aw_views w) q) as [x|]; [|discriminate H].
    destruct (av_agg x) as [ap|]; [|discriminate H]. destruct (nth_error (upd _ _ _) ap) as [y|] eqn:Ey; [|discriminate H].
    cbn in *. injection H as <-. destruct (Hnth _ _ Ey) as [[-> ->]|[N Ey']].
    + rewrite Ea. cbn [option_map aa_buckets]. eexists. split; [reflexivity|]. rewrite Hd, filter_pos_drop. reflexivity.
    + rewrite Ey'. cbn. eexists. split; reflexivity.
Qed.

(** One canonicalize. *)
Lemma canon_step ks bs w p : AInv ks bs w -> clean ks bs -> p < length (aw_views w) ->
  exists w' e, al_canonicalize w p = Some (w', e) /\ step_ok ks bs w w' /\ (e = None -> settled bs w' p).
Proof.
  intros I C Hp. unfold al_canonicalize. destruct (nth_error (aw_views w) p) as [v|] eqn:Ev; [|exfalso; apply nth_error_None in Ev; lia].
  destruct (av_measure v) as [me|] eqn:Em; [|exists w, (Some ErrNoMeasure); split; [reflexivity|split; [now apply step_ok_refl|discriminate]]].
  destruct (av_agg v) as [ap|] eqn:Eap; [|exists w, (Some ErrNoAggregation); split; [reflexivity|split; [now apply step_ok_refl|discriminate]]].
  cbv zeta. assert (Eo : forall a b : bytes, match a with [] => b | x :: l => x :: l end = or_else a b) by (intros [|x l] b; reflexivity).
  rewrite !Eo. clear Eo. rewrite <- Em, <- Eap.
  fold (new_view v me). pose proof (step_defaults _ _ _ _ _ _ I Ev Em) as S1.
  destruct (check_view_name _) as [e|]; [exists (MkAW (aw_keys w) (aw_bounds w) (aw_aggs w) (upd (aw_views w) p (fun _ => new_view v me))), (Some e); split; [reflexivity|split; [exact S1|discriminate]]|].
  destruct (nth_error (aw_aggs w) ap) as [a|] eqn:Ea; [|exfalso; apply nth_error_None in Ea; pose proof (ai_ptr _ _ _ I _ _ _ Ev Eap); lia].
  set (w1 := MkAW (aw_keys w) (aw_bounds w) (aw_aggs w) (upd (aw_views w) p (fun _ => new_view v me))) in *.
  assert (Ev1 : nth_error (aw_views w1) p = Some (new_view v me)) by (cbn; rewrite nth_error_upd, Nat.eqb_refl, Ev; reflexivity).
  pose proof (step_keys _ _ _ _ _ (so_inv _ _ _ _ S1) C Ev1) as S2. cbn [new_view av_keys] in S2.
  set (w2 := MkAW _ _ _ _) in S2. pose proof (step_bounds ks bs w2 ap a (so_inv _ _ _ _ S2) C Ea) as S3. cbn [aw_keys aw_bounds aw_aggs aw_views w1 w2] in S3.
  pose proof (step_ok_trans _ _ _ _ _ S1 (step_ok_trans _ _ _ _ _ S2 S3)) as S123.
  destruct (existsb _ _); [eexists _, (Some ErrNegativeBounds); split; [reflexivity|]; split; [exact S123|discriminate]|].
  eexists _, None. split; [reflexivity|]. destruct (orig_of _ _ _ _ _ I Ea) as (oj & Eoj & Foj & Hoj).
  assert (Hcan : canon (ssort f_less (aw_bounds w) (aa_buckets a)) oj (drop_slice (aa_buckets a) (sread (ssort f_less (aw_bounds w) (aa_buckets a)) (aa_buckets a))))
    by now apply canon_after.
  set (w3 := MkAW (ssort bytes_ltb (aw_keys w) (av_keys v)) (ssort f_less (aw_bounds w) (aa_buckets a)) (aw_aggs w) (upd (aw_views w) p (fun _ => new_view v me))) in *.
  assert (Ea3 : nth_error (aw_aggs w3) ap = Some a) by exact Ea.
  assert (S4 : step_ok ks bs w3 _) by (apply (step_drop ks bs w3 ap a (so_inv _ _ _ _ S3) C Ea3); intros o Eo; cbn; congruence).
  split; [exact (step_ok_trans _ _ _ _ _ S123 S4)|]. intros _.
  exists (new_view v me), me, ap, oj, (MkAA (aa_kind a) (drop_slice (aa_buckets a) (sread (ssort f_less (aw_bounds w) (aa_buckets a)) (aa_buckets a)))).
  cbn. rewrite !nth_error_upd, !Nat.eqb_refl, Ev, Ea. repeat split; auto.
  - apply or_else_idem.
  - apply or_else_idem.
  - rewrite sort_same by exact (key_fits _ _ _ _ _ I Ev). apply keys_leb_sorted.
Qed.
