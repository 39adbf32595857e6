(** Proofs about view definitions and their conversion to metrics. *)

From Coq Require Import List Arith ZArith NArith Bool Lia Sorted Permutation ZifyBool ZifyNat ZifyN.
From Coq Require Import Floats.SpecFloat.
From Verif Require Import Base ListLib GoMap GoSort Float64 TagModel AggModel AggSpec AggProofs
  CollectorModel CollectorSpec CollectorProofs ViewModel WorkerModel WorkerSpec.
Import ListNotations.
Open Scope nat_scope.

(** ** The order of sort.Float64s *)

Ltac fcmp :=
  unfold SFltb, SFcompare in *;
  repeat match goal with
  | H : context [Pos.compare_cont Eq ?a ?b] |- _ => change (Pos.compare_cont Eq a b) with (Pos.compare a b) in H
  | |- context [Pos.compare_cont Eq ?a ?b] => change (Pos.compare_cont Eq a b) with (Pos.compare a b)
  end;
  repeat match goal with
  | H : context [Z.compare ?a ?b] |- _ => destruct (Z.compare_spec a b); subst
  | |- context [Z.compare ?a ?b] => destruct (Z.compare_spec a b); subst
  | H : context [Pos.compare ?a ?b] |- _ => destruct (Pos.compare_spec a b); subst
  | |- context [Pos.compare ?a ?b] => destruct (Pos.compare_spec a b); subst
  end;
  cbn in *; try congruence; try lia.

Lemma f_less_trans a b c : leb f_less a b -> leb f_less b c -> leb f_less a c.
Proof.
  unfold leb, f_less, f_ltb, is_nan.
  destruct a as [[]|[]| |[] m1 e1], b as [[]|[]| |[] m2 e2], c as [[]|[]| |[] m3 e3]; cbn; intros; try congruence; fcmp.
Qed.

Lemma f_less_asym a b : f_less a b = true -> leb f_less a b.
Proof.
  unfold leb, f_less, f_ltb, is_nan.
  destruct a as [[]|[]| |[] m1 e1], b as [[]|[]| |[] m2 e2]; cbn; intros; try congruence; fcmp.
Qed.

Lemma f_less_pos a b : leb f_less a b -> f_ltb f_zero a = true -> f_ltb f_zero b = true.
Proof.
  unfold leb, f_less, f_ltb, is_nan, f_zero.
  destruct a as [[]|[]| |[] m1 e1], b as [[]|[]| |[] m2 e2]; cbn; intros; try congruence; fcmp.
Qed.

Lemma filter_insert {A} (ltb : A -> A -> bool) (p : A -> bool) x l :
  (forall a b c, leb ltb a b -> leb ltb b c -> leb ltb a c) ->
  StronglySorted (leb ltb) l ->
  filter p (insert ltb x l) = if p x then insert ltb x (filter p l) else filter p l.
Proof.
  intros T. induction l as [|y r IH]; intros HS; [simpl; destruct (p x); reflexivity|].
  inversion HS as [|? ? Hr Hall]; subst. cbn [insert filter]. destruct (ltb y x) eqn:E.
  - cbn [filter]. rewrite IH by exact Hr. destruct (p x), (p y); cbn [insert]; rewrite ?E; reflexivity.
  - cbn [filter]. destruct (p x) eqn:Px; [|reflexivity]. destruct (p y) eqn:Py.
    + cbn [insert]. rewrite E. reflexivity.
    + symmetry. apply insert_le_all. apply Forall_forall. intros z Hz. apply filter_In in Hz.
      rewrite Forall_forall in Hall. eapply T; [exact E|]. apply Hall. tauto.
Qed.

Lemma filter_isort {A} (ltb : A -> A -> bool) (p : A -> bool) l :
  (forall a b c, leb ltb a b -> leb ltb b c -> leb ltb a c) ->
  (forall a b, ltb a b = true -> leb ltb a b) ->
  filter p (isort ltb l) = isort ltb (filter p l).
Proof.
  intros T As. induction l as [|x l IH]; [reflexivity|]. cbn [isort].
  rewrite filter_insert by (auto; apply isort_sorted; auto).
  cbn [filter]. rewrite IH. destruct (p x); reflexivity.
Qed.

Lemma drop_zero_sorted l :
  StronglySorted (leb f_less) l -> drop_zero_bounds l = filter (fun b => f_ltb f_zero b) l.
Proof.
  induction l as [|b l IH]; intros H; [reflexivity|]. inversion H as [|? ? Hl Hall]; subst.
  cbn [drop_zero_bounds filter]. destruct (f_ltb f_zero b) eqn:E; [|now apply IH]. f_equal.
  symmetry. rewrite (filter_ext_in _ (fun _ => true)).
  - clear. induction l as [|x l IHl]; [reflexivity|]. simpl. now rewrite IHl.
  - intros x Hx. rewrite Forall_forall in Hall. eapply f_less_pos; [apply Hall; exact Hx|exact E].
Qed.

Lemma drop_zero_isort l :
  drop_zero_bounds (isort f_less l) = isort f_less (filter (fun b => f_ltb f_zero b) l).
Proof.
  rewrite drop_zero_sorted by (apply isort_sorted; [apply f_less_trans|apply f_less_asym]).
  apply filter_isort; [apply f_less_trans|apply f_less_asym].
Qed.

Lemma isort_idem {A} (ltb : A -> A -> bool) l :
  (forall a b c, leb ltb a b -> leb ltb b c -> leb ltb a c) ->
  (forall a b, ltb a b = true -> leb ltb a b) ->
  isort ltb (isort ltb l) = isort ltb l.
Proof. intros T As. apply isort_id. now apply isort_sorted. Qed.

Lemma existsb_perm {A} (p : A -> bool) l l' : Permutation l l' -> existsb p l = existsb p l'.
Proof.
  intros H. apply eq_true_iff_eq. rewrite !existsb_exists.
  split; intros (x & Hx & Px); exists x; split; auto; eapply Permutation_in; try eassumption. now symmetry.
Qed.

Lemma keys_sort_idem keys : isort bytes_ltb (isort bytes_ltb keys) = isort bytes_ltb keys.
Proof. apply isort_idem; [apply bytes_leb_trans|]. intros a b. apply bytes_ltb_asym. Qed.

Lemma keys_sorted keys : sorted_keys (isort bytes_ltb keys).
Proof. apply isort_sorted; [apply bytes_leb_trans|]. intros a b. apply bytes_ltb_asym. Qed.

(** ** Canonical views *)

Lemma or_else_idem a b : or_else (or_else a b) b = or_else a b.
Proof. destruct a; [now destruct b|reflexivity]. Qed.

(** The specification of a view's aggregation as a two-step process. *)
Lemma spec_agg_eq a :
  spec_agg a =
  if existsb (fun b => f_ltb b f_zero) (isort f_less (agg_buckets a)) then None
  else Some (set_buckets a (drop_zero_bounds (isort f_less (agg_buckets a)))).
Proof.
  destruct a as [| |bounds|]; try reflexivity. cbn [spec_agg agg_buckets set_buckets].
  rewrite (existsb_perm _ _ _ (isort_perm f_less bounds)).
  destruct (existsb (fun b => f_ltb b f_zero) bounds); [reflexivity|]. now rewrite drop_zero_isort.
Qed.

Lemma spec_agg_sorted a b : b = isort f_less (agg_buckets a) -> spec_agg (set_buckets a b) = spec_agg a.
Proof.
  intros ->. rewrite !spec_agg_eq. destruct a as [| |bounds|]; try reflexivity.
  cbn [agg_buckets set_buckets]. rewrite isort_idem; [reflexivity|apply f_less_trans|apply f_less_asym].
Qed.

Lemma spec_agg_idem a a' : spec_agg a = Some a' -> spec_agg a' = Some a'.
Proof.
  destruct a as [| |bounds|]; cbn [spec_agg]; try (intros [= <-]; reflexivity).
  destruct (existsb (fun b => f_ltb b f_zero) bounds) eqn:E; [discriminate|]. intros [= <-]. cbn [spec_agg].
  set (P := fun b => f_ltb f_zero b).
  assert (Permutation (isort f_less (filter P bounds)) (filter P bounds)) as Hp by apply isort_perm.
  rewrite (existsb_perm _ _ _ Hp).
  assert (E2 : existsb (fun b => f_ltb b f_zero) (filter P bounds) = false).
  { destruct (existsb (fun b => f_ltb b f_zero) (filter P bounds)) eqn:E2; [|reflexivity].
    apply existsb_exists in E2. destruct E2 as (x & Hx & Px). apply filter_In in Hx.
    assert (existsb (fun b => f_ltb b f_zero) bounds = true) by (apply existsb_exists; exists x; tauto).
    congruence. }
  rewrite E2. do 2 f_equal. rewrite <- filter_isort by (apply f_less_trans || apply f_less_asym).
  rewrite isort_idem by (apply f_less_trans || apply f_less_asym).
  rewrite filter_isort by (apply f_less_trans || apply f_less_asym). f_equal.
  clear. induction bounds as [|b bounds IH]; [reflexivity|]. cbn [filter].
  destruct (P b) eqn:E; [|exact IH]. cbn [filter]. rewrite E, IH. reflexivity.
Qed.

(** Two worlds describe the same views. *)
Definition ueq (u u' : uworld) : Prop :=
  length (u_views u') = length (u_views u) /\ length (u_aggs u') = length (u_aggs u) /\
  (forall p, spec_view u' p = spec_view u p) /\
  (forall p v', nth_error (u_views u') p = Some v' ->
     exists v, nth_error (u_views u) p = Some v /\ v_measure v' = v_measure v /\ v_agg v' = v_agg v).

Lemma ueq_refl u : ueq u u.
Proof. repeat split; eauto. Qed.

Lemma ueq_trans u1 u2 u3 : ueq u1 u2 -> ueq u2 u3 -> ueq u1 u3.
Proof.
  intros (A1 & B1 & C1 & D1) (A2 & B2 & C2 & D2). split; [congruence|]. split; [congruence|].
  split; [intros p; now rewrite C2|].
  intros p v' E. apply D2 in E. destruct E as (v & E & -> & ->). now apply D1 in E.
Qed.

(** The view object [p] is in canonical form. *)
Definition canonical (u : uworld) (p : nat) (sv : sview) : Prop :=
  spec_view u p = Some sv /\
  nth_error (u_views u) p =
    Some (MkView (sv_name sv) (sv_desc sv) (sv_keys sv) (Some (sv_measure sv)) (Some (sv_aggp sv))) /\
  nth_error (u_aggs u) (sv_aggp sv) = Some (sv_agg sv).

Lemma spec_view_sorted_keys u p sv : spec_view u p = Some sv -> sorted_keys (sv_keys sv).
Proof.
  unfold spec_view. destruct (nth_error (u_views u) p) as [v|]; [|discriminate].
  destruct (v_measure v); [|discriminate]. destruct (v_agg v); [|discriminate].
  cbv zeta. match goal with |- context [if ?b then _ else _] => destruct b end; [|discriminate]. destruct (nth_error (u_aggs u) n); [|discriminate].
  destruct (spec_agg a); [|discriminate]. intros [= <-]. apply keys_sorted.
Qed.

Lemma check_name_spec n :
  (check_view_name n = None <-> (length n <=? 255) && forallb printable n = true).
Proof.
  unfold check_view_name. change (is_printable n) with (forallb printable n).
  destruct (Nat.ltb_spec 255 (length n)), (Nat.leb_spec (length n) 255); try lia; simpl; [split; discriminate|].
  destruct (forallb printable n); simpl; split; congruence.
Qed.

(** Writing view [p] and aggregation [ap] with content that means the same. *)
Lemma ueq_write u p v v' ap fa :
  nth_error (u_views u) p = Some v ->
  v_measure v' = v_measure v -> v_agg v' = v_agg v ->
  (forall me, v_measure v = Some me ->
     or_else (v_name v') (me_name me) = or_else (v_name v) (me_name me) /\
     or_else (v_desc v') (me_desc me) = or_else (v_desc v) (me_desc me)) ->
  isort bytes_ltb (v_keys v') = isort bytes_ltb (v_keys v) ->
  (forall a, nth_error (u_aggs u) ap = Some a -> spec_agg (fa a) = spec_agg a) ->
  ueq u (MkU (upd (u_views u) p (fun _ => v')) (upd (u_aggs u) ap fa)).
Proof.
  intros Ev Hm Ha Hn Hk Hs. unfold ueq. cbn [u_views u_aggs]. rewrite !upd_length.
  split; [reflexivity|]. split; [reflexivity|]. split.
  - intros q. unfold spec_view. cbn [u_views u_aggs]. rewrite nth_error_upd.
    assert (HA : forall bp, match nth_error (upd (u_aggs u) ap fa) bp with Some a => spec_agg a | None => None end =
                 match nth_error (u_aggs u) bp with Some a => spec_agg a | None => None end).
    { intros bp. rewrite nth_error_upd. destruct (Nat.eqb_spec ap bp) as [->|]; [|reflexivity].
      destruct (nth_error (u_aggs u) bp) eqn:E; [|reflexivity]. cbn [option_map]. now apply Hs. }
    assert (HB : forall bp (k : aggregation f64_num -> option sview),
      match nth_error (upd (u_aggs u) ap fa) bp with None => None | Some a => match spec_agg a with None => None | Some a' => k a' end end =
      match nth_error (u_aggs u) bp with None => None | Some a => match spec_agg a with None => None | Some a' => k a' end end).
    { intros bp k. specialize (HA bp).
      destruct (nth_error (upd (u_aggs u) ap fa) bp), (nth_error (u_aggs u) bp); rewrite ?HA; try reflexivity.
      - now rewrite <- HA. }
    destruct (Nat.eqb_spec p q) as [->|].
    + rewrite Ev. cbn [option_map]. rewrite Hm, Ha.
      destruct (v_measure v) as [me|] eqn:Em; [|reflexivity]. destruct (v_agg v) as [bp|]; [|reflexivity].
      destruct (Hn me eq_refl) as [-> ->]. cbv zeta. rewrite Hk. match goal with |- context [if ?b then _ else _] => destruct b end; [|reflexivity]. apply HB.
    + destruct (nth_error (u_views u) q) as [w|]; [|reflexivity].
      destruct (v_measure w) as [me|]; [|reflexivity]. destruct (v_agg w) as [bp|]; [|reflexivity].
      cbv zeta. match goal with |- context [if ?b then _ else _] => destruct b end; [|reflexivity]. apply HB.
  - intros q w E. rewrite nth_error_upd in E. destruct (Nat.eqb_spec p q) as [->|].
    + rewrite Ev in E. injection E as <-. exists v. auto.
    + exists w. auto.
Qed.

Lemma upd_id {A} (l : list A) i (f : A -> A) :
  (forall x, nth_error l i = Some x -> f x = x) -> upd l i f = l.
Proof.
  intros H. apply nth_error_ext_eq. intros j. rewrite nth_error_upd.
  destruct (Nat.eqb_spec i j) as [->|]; [|reflexivity].
  destruct (nth_error l j) as [x|] eqn:E; [|reflexivity]. simpl. now rewrite (H x eq_refl).
Qed.

Lemma canonicalize_spec u p :
  p < length (u_views u) ->
  (forall p v ap, nth_error (u_views u) p = Some v -> v_agg v = Some ap -> ap < length (u_aggs u)) ->
  exists u' e, canonicalize u p = Some (u', e) /\ ueq u u' /\
    (forall q sv, canonical u q sv -> canonical u' q sv) /\
    match spec_view u p with
    | Some sv => e = None /\ canonical u' p sv
    | None => exists er, e = Some er
    end.
Proof.
  intros Hp Hap. unfold canonicalize.
  destruct (nth_error (u_views u) p) as [v|] eqn:Ev.
  2:{ apply nth_error_None in Ev. lia. }
  assert (Hspec : spec_view u p = spec_view u p) by reflexivity.
  unfold spec_view at 2 in Hspec. rewrite Ev in Hspec.
  destruct (v_measure v) as [me|] eqn:Em.
  2:{ exists u, (Some ErrNoMeasure). rewrite Hspec. split; [reflexivity|]. split; [apply ueq_refl|]. eauto. }
  destruct (v_agg v) as [ap|] eqn:Ea.
  2:{ exists u, (Some ErrNoAggregation). rewrite Hspec. split; [reflexivity|]. split; [apply ueq_refl|]. eauto. }
  cbv zeta in *.
  replace (match v_name v with [] => me_name me | n => n end) with (or_else (v_name v) (me_name me))
    by (destruct (v_name v); reflexivity).
  replace (match v_desc v with [] => me_desc me | d => d end) with (or_else (v_desc v) (me_desc me))
    by (destruct (v_desc v); reflexivity).
  set (name := or_else (v_name v) (me_name me)) in *.
  set (desc := or_else (v_desc v) (me_desc me)) in *.
  (* a canonical view q that we rewrite keeps its content *)
  assert (Hcan : forall q sv, canonical u q sv -> forall v' ap' fa,
      (q = p -> v' = v) -> (forall a, spec_agg a = Some a -> nth_error (u_aggs u) ap' = Some a -> fa a = a) ->
      ueq u (MkU (upd (u_views u) p (fun _ => v')) (upd (u_aggs u) ap' fa)) ->
      canonical (MkU (upd (u_views u) p (fun _ => v')) (upd (u_aggs u) ap' fa)) q sv).
  { intros q sv (C1 & C2 & C3) v' ap' fa Hv' Hfa (_ & _ & U & _). unfold canonical. rewrite U.
    split; [exact C1|]. cbn [u_views u_aggs]. rewrite !nth_error_upd, C2, C3. cbn [option_map]. split.
    - destruct (Nat.eqb_spec p q) as [<-|]; [|reflexivity]. rewrite Hv' by reflexivity. congruence.
    - destruct (Nat.eqb_spec ap' (sv_aggp sv)) as [->|]; [|reflexivity]. f_equal. apply Hfa; [|exact C3].
      clear - C1 C3. unfold spec_view in C1. destruct (nth_error (u_views u) q) as [w|]; [|discriminate].
      destruct (v_measure w); [|discriminate]. destruct (v_agg w); [|discriminate]. cbv zeta in C1.
      match type of C1 with context [if ?b then _ else _] => destruct b end; [|discriminate]. destruct (nth_error (u_aggs u) n) as [a|] eqn:En; [|discriminate].
      destruct (spec_agg a) as [a'|] eqn:Es; [|discriminate]. injection C1 as <-. cbn [sv_agg] in *.
      eapply spec_agg_idem; eassumption. }
  assert (Hfix : forall sv, canonical u p sv -> MkView name desc (isort bytes_ltb (v_keys v)) (Some me) (Some ap) = v /\
                 MkView name desc (v_keys v) (Some me) (Some ap) = v).
  { intros sv (C1 & C2 & C3). rewrite Ev in C2. injection C2 as ->.
    cbn [v_name v_desc v_keys v_measure v_agg] in *. injection Em as <-. injection Ea as <-.
    unfold spec_view in C1. rewrite Ev in C1. cbn [v_name v_desc v_keys v_measure v_agg] in C1. cbv zeta in C1.
    match type of C1 with context [if ?b then _ else _] => destruct b end; [|discriminate]. destruct (nth_error (u_aggs u) (sv_aggp sv)); [|discriminate].
    destruct (spec_agg a); [|discriminate]. injection C1 as C1. subst name desc.
    assert (sv_name sv = or_else (sv_name sv) (me_name (sv_measure sv))) as N1 by (rewrite <- C1 at 1; reflexivity).
    assert (sv_desc sv = or_else (sv_desc sv) (me_desc (sv_measure sv))) as N2 by (rewrite <- C1 at 1; reflexivity).
    assert (sv_keys sv = isort bytes_ltb (sv_keys sv)) as N3 by (rewrite <- C1 at 1; reflexivity).
    rewrite <- N1, <- N2, <- N3. auto. }
  pose proof (check_name_spec name) as Hname.
  destruct (check_view_name name) as [er|] eqn:Ecv.
  - (* bad name *)
    destruct ((length name <=? 255) && forallb printable name) eqn:Eok; [destruct Hname as [_ Hname]; now discriminate Hname|].
    rewrite Hspec.
    set (v1 := MkView name desc (v_keys v) (Some me) (Some ap)).
    assert (U : ueq u (MkU (upd (u_views u) p (fun _ => v1)) (u_aggs u))).
    { pose proof (ueq_write u p v v1 0 (fun a => a) Ev) as X. rewrite (upd_id (u_aggs u)) in X by auto.
      apply X; subst v1; cbn [v_name v_desc v_keys v_measure v_agg]; auto.
      intros me' E. rewrite Em in E. injection E as <-. subst name desc. now rewrite !or_else_idem. }
    exists (MkU (upd (u_views u) p (fun _ => v1)) (u_aggs u)), (Some er). split; [reflexivity|]. split; [exact U|].
    split; [|eauto].
    intros q sv C. pose proof (Hcan q sv C v1 0 (fun a => a)) as X. rewrite (upd_id (u_aggs u)) in X by auto.
    apply X; auto. intros ->. now destruct (Hfix sv C).
  - destruct ((length name <=? 255) && forallb printable name) eqn:Eok; [|destruct Hname as [Hname _]; now discriminate Hname].
    destruct (nth_error (u_aggs u) ap) as [a|] eqn:Eap.
    2:{ apply nth_error_None in Eap. specialize (Hap p v ap Ev Ea). lia. }
    rewrite spec_agg_eq in Hspec.
    set (v2 := MkView name desc (isort bytes_ltb (v_keys v)) (Some me) (Some ap)) in *.
    set (sorted := isort f_less (agg_buckets a)) in *.
    assert (U0 : forall fa, (forall a', nth_error (u_aggs u) ap = Some a' -> spec_agg (fa a') = spec_agg a') ->
       ueq u (MkU (upd (u_views u) p (fun _ => v2)) (upd (u_aggs u) ap fa))).
    { intros fa Hfa. apply (ueq_write u p v v2 ap fa Ev); subst v2; cbn [v_name v_desc v_keys v_measure v_agg]; auto.
      - intros me' E. rewrite Em in E. injection E as <-. subst name desc. now rewrite !or_else_idem.
      - apply keys_sort_idem. }
    destruct (existsb (fun b => f_ltb b f_zero) sorted) eqn:Eneg.
    + assert (U := U0 (fun a => set_buckets a sorted)).
      eexists. exists (Some ErrNegativeBounds). split; [reflexivity|]. rewrite Hspec.
      assert (U' : ueq u (MkU (upd (u_views u) p (fun _ => v2)) (upd (u_aggs u) ap (fun a => set_buckets a sorted)))).
      { apply U. intros a' E. rewrite Eap in E. injection E as <-. now apply spec_agg_sorted. }
      split; [exact U'|]. split; [|eauto].
      intros q sv C. apply Hcan; auto.
      * intros ->. now destruct (Hfix sv C).
      * intros a' Hs E. rewrite Eap in E. injection E as <-. rewrite spec_agg_eq in Hs. fold sorted in Hs.
        rewrite Eneg in Hs. discriminate.
    + assert (U' : ueq u (MkU (upd (u_views u) p (fun _ => v2)) (upd (u_aggs u) ap (fun a => set_buckets a (drop_zero_bounds sorted))))).
      { apply U0. intros a' E. rewrite Eap in E. injection E as <-.
        assert (X : spec_agg a = Some (set_buckets a (drop_zero_bounds sorted))).
        { rewrite spec_agg_eq. fold sorted. now rewrite Eneg. }
        rewrite X. now apply spec_agg_idem with a. }
      eexists. exists None. split; [reflexivity|]. rewrite Hspec. split; [exact U'|]. split.
      * intros q sv C. apply Hcan; auto.
        -- intros ->. now destruct (Hfix sv C).
        -- intros a' Hs E. rewrite Eap in E. injection E as <-. rewrite spec_agg_eq in Hs. fold sorted in Hs.
           rewrite Eneg in Hs. congruence.
      * split; [reflexivity|]. unfold canonical. cbn [sv_name sv_desc sv_keys sv_measure sv_aggp sv_agg u_views u_aggs].
        destruct U' as (_ & _ & U' & _). rewrite U'. split; [exact Hspec|].
        rewrite !nth_error_upd, !Nat.eqb_refl, Ev, Eap. split; reflexivity.
Qed.

(** ** Rows of a value-level collector *)

Section Rows.
  Context {F : num}.

  Definition sigs_ok (agg : aggregation F) (keys : list key) (ss : list (option tmap * sample F))
                     (sigs : list (bytes * agg_data F)) : Prop :=
    mwf sigs /\ forall sig, gdata agg (group keys sig ss) = mget bytes_eqb sigs sig.

  Lemma sigs_ok_nil agg keys : sigs_ok agg keys [] [].
  Proof. split; [constructor|reflexivity]. Qed.

  Lemma vc_add_ok agg keys ss sigs m s sig :
    sigs_ok agg keys ss sigs -> encode_with_keys m keys = Some sig ->
    sigs_ok agg keys (ss ++ [(m, s)]) (vc_sigs (vc_add (MkVC agg keys sigs) sig s)).
  Proof.
    intros [W D] E. rewrite encode_some in E. injection E as <-. fold (sig_of keys m). split.
    - cbn [vc_add vc_sigs]. apply (mwf_mset _ bytes_eqb_spec). exact W.
    - intros sig'. cbn [vc_add vc_sigs vc_agg]. rewrite (mget_mset _ bytes_eqb_spec).
      unfold group. rewrite filter_app. cbn [filter fst].
      fold (group keys sig' ss).
      destruct (bytes_eqb_spec (sig_of keys m) sig') as [<-|Hne].
      + rewrite gdata_snoc, D. destruct (mget bytes_eqb sigs (sig_of keys m)); reflexivity.
      + rewrite app_nil_r. apply D.
  Qed.

  Lemma vc_rows_In keys it : forall rows,
    vc_rows (F := F) keys it = Some rows ->
    forall tags data, In (tags, data) rows <->
      exists sig, In (sig, data) it /\ decode_tags sig keys = Some tags.
  Proof.
    induction it as [|[sig a] it IH]; intros rows E tags data; cbn [vc_rows] in E.
    - injection E as <-. split; [contradiction|]. intros (sig & [] & _).
    - destruct (decode_tags sig keys) as [t|] eqn:Ed; [|discriminate].
      destruct (vc_rows keys it) as [rows0|]; [|discriminate]. injection E as <-.
      specialize (IH _ eq_refl tags data). split.
      + intros [[= <- <-]|H]; [exists sig; split; [now left|exact Ed]|].
        apply IH in H. destruct H as (sig' & H1 & H2). exists sig'. split; [now right|exact H2].
      + intros (sig' & [[= <- <-]|H1] & H2); [left; congruence|]. right. apply IH. eauto.
  Qed.

  Lemma vc_rows_total keys it :
    (forall sig a, In (sig, a) it -> decode_tags sig keys <> None) ->
    exists rows, vc_rows (F := F) keys it = Some rows /\
      map (fun e => decode_tags (fst e) keys) it = map (fun r => Some (fst r)) rows.
  Proof.
    induction it as [|[sig a] it IH]; intros H; cbn [vc_rows]; [now exists []|].
    destruct IH as (rows & -> & Em). { intros sig' a' Hin. apply (H sig' a'). now right. }
    destruct (decode_tags sig keys) as [t|] eqn:E; [|now apply (H sig a (or_introl eq_refl)) in E].
    exists ((t, a) :: rows). split; [reflexivity|]. cbn [map fst]. now rewrite E, Em.
  Qed.

  Lemma NoDup_map_inj {A B} (f : A -> B) l :
    (forall x y, In x l -> In y l -> f x = f y -> x = y) -> NoDup l -> NoDup (map f l).
  Proof.
    induction l as [|x l IH]; intros Hf H; [constructor|]. inversion H; subst. cbn [map]. constructor.
    - intros Hin. apply in_map_iff in Hin. destruct Hin as (y & E & Hy).
      assert (y = x) by (apply Hf; [now right|now left|exact E]). now subst.
    - apply IH; [|assumption]. intros a b Ha Hb. apply Hf; now right.
  Qed.

  Lemma sig_seen agg keys ss sigs sig a :
    sigs_ok agg keys ss sigs -> mget bytes_eqb sigs sig = Some a ->
    exists m s g, group keys sig ss = (m, s) :: g /\ sig = sig_of keys m /\ In (m, s) ss /\
                  a = aggregate agg (s_time s) (map snd ((m, s) :: g)).
  Proof.
    intros [W D] E. specialize (D sig). rewrite E in D.
    destruct (group keys sig ss) as [|[m s] g] eqn:G; [discriminate|].
    destruct (group_In _ _ _ _ _ _ G) as [Hin Hsig]. cbn [gdata] in D. injection D as D.
    exists m, s, g. auto.
  Qed.

  Lemma vc_group_by agg keys ss sigs it :
    sigs_ok agg keys ss sigs -> Forall (fun ms => short_values (fst ms)) ss ->
    sorted_keys keys -> Permutation it sigs ->
    exists rows, vc_rows keys it = Some rows /\ is_group_by agg keys ss rows /\
                 (rows = [] <-> ss = []).
  Proof.
    intros Hok Hsh HS Hp. pose proof Hok as [W D].
    assert (Hit : forall sig a, In (sig, a) it <-> mget bytes_eqb sigs sig = Some a).
    { intros sig a. split; intros H.
      - apply (In_mget _ bytes_eqb_spec); [exact W|]. eapply Permutation_in; eassumption.
      - apply (mget_In _ bytes_eqb_spec) in H. eapply Permutation_in; [symmetry|]; eassumption. }
    pose proof Hsh as Hsh'. rewrite Forall_forall in Hsh.
    assert (Hdec : forall sig a, In (sig, a) it -> exists m, short_values m /\ sig = sig_of keys m /\
              decode_tags sig keys = Some (row_tags keys m)).
    { intros sig a Hin. apply Hit in Hin. destruct (sig_seen _ _ _ _ _ _ Hok Hin) as (m & s & g & _ & -> & Hin' & _).
      specialize (Hsh _ Hin'). exists m. split; [exact Hsh|]. split; [reflexivity|]. now apply decode_enc_sorted. }
    destruct (vc_rows_total keys it) as (rows & Er & Em).
    { intros sig a Hin. destruct (Hdec sig a Hin) as (m & _ & _ & ->). discriminate. }
    exists rows. split; [exact Er|]. pose proof (vc_rows_In _ _ _ Er) as HI. split; [split|].
    - apply (NoDup_map_inv Some). rewrite map_map, <- Em, <- (map_map fst (fun s => decode_tags s keys)).
      apply NoDup_map_inj.
      + intros s1 s2 H1 H2 E. apply in_map_iff in H1, H2. destruct H1 as ([s1' a1] & <- & H1), H2 as ([s2' a2] & <- & H2).
        cbn [fst] in *. destruct (Hdec _ _ H1) as (m1 & S1 & -> & E1), (Hdec _ _ H2) as (m2 & S2 & -> & E2).
        rewrite E1, E2 in E. injection E as E. apply sig_of_inj; auto. now apply row_tags_agree.
      + eapply Permutation_NoDup; [apply Permutation_map; symmetry; exact Hp|]. exact W.
    - intros tags data. rewrite HI. split.
      + intros (sig & Hin & Hd). destruct (Hdec _ _ Hin) as (m & S & Hsig & Hd').
        rewrite Hd' in Hd. injection Hd as <-. apply Hit in Hin.
        destruct (sig_seen _ _ _ _ _ _ Hok Hin) as (m' & s & g & G & Hsig' & Hin' & Hagg).
        exists m', s, g. split; [|exact Hagg]. rewrite <- group_with_tags by assumption. now rewrite <- Hsig.
      + intros (m & s & g & Hw & ->).
        assert (In (m, s) ss /\ row_tags keys m = tags) as [Hin Ht].
        { assert (In (m, s) (with_tags keys tags ss)) as X by (rewrite Hw; now left).
          apply filter_In in X. destruct X as [X1 X2]. split; [exact X1|]. cbn [fst] in X2.
          now destruct (tags_eqb_spec (row_tags keys m) tags). }
        subst tags. specialize (Hsh _ Hin). cbn [fst] in Hsh.
        rewrite <- group_with_tags in Hw by assumption.
        exists (sig_of keys m). split; [|now apply decode_enc_sorted]. apply Hit.
        rewrite <- D, Hw. reflexivity.
    - split.
      + intros ->. destruct ss as [|[m s] ss]; [reflexivity|]. exfalso.
        destruct (group keys (sig_of keys m) ((m, s) :: ss)) as [|[m0 s0] g] eqn:G.
        { eapply (group_nonempty keys m s ((m, s) :: ss)); [now left|exact G]. }
        assert (X : mget bytes_eqb sigs (sig_of keys m) <> None) by (rewrite <- D, G; discriminate).
        destruct (mget bytes_eqb sigs (sig_of keys m)) as [a|] eqn:Eg; [|congruence].
        apply Hit in Eg. destruct (Hdec _ _ Eg) as (m1 & _ & _ & Hd).
        destruct (proj2 (HI (row_tags keys m1) a)). exists (sig_of keys m). auto.
      + intros ->. destruct rows as [|[t a] rows]; [reflexivity|]. exfalso.
        destruct (proj1 (HI t a) (or_introl eq_refl)) as (sig & Hin & _). apply Hit in Hin.
        destruct (sig_seen _ _ _ _ _ _ Hok Hin) as (m & s & g & G & _). discriminate.
  Qed.
End Rows.

(** ** Metrics *)

Lemma tag_map_get tags : forall acc k,
  mget bytes_eqb (fold_left (fun m t => mset bytes_eqb m (fst t) (snd t)) tags acc) k =
  match last_such (fun t : key * bytes => bytes_eqb (fst t) k) tags with
  | Some t => Some (snd t)
  | None => mget bytes_eqb acc k
  end.
Proof.
  induction tags as [|[k' v'] tags IH]; intros acc k; [reflexivity|]. cbn [fold_left last_such fst snd].
  rewrite IH. destruct (last_such _ tags); [reflexivity|].
  rewrite (mget_mset _ bytes_eqb_spec). destruct (bytes_eqb_spec k' k); reflexivity.
Qed.

Lemma last_such_In {A} (p : A -> bool) l x : last_such p l = Some x -> In x l /\ p x = true.
Proof.
  induction l as [|y l IH]; [discriminate|]. cbn [last_such]. destruct (last_such p l) as [z|].
  - intros [= ->]. destruct IH; auto. split; [now right|assumption].
  - destruct (p y) eqn:E; [|discriminate]. intros [= ->]. split; [now left|exact E].
Qed.

Lemma last_such_None {A} (p : A -> bool) l : last_such p l = None -> forall x, In x l -> p x = false.
Proof.
  induction l as [|y l IH]; [contradiction|]. cbn [last_such]. destruct (last_such p l) as [z|]; [discriminate|].
  destruct (p y) eqn:E; [discriminate|]. intros _ x [<-|Hx]; auto.
Qed.

(** Rows never have two values for one key. *)
Definition functional (tags : list (key * bytes)) : Prop :=
  forall k v v', In (k, v) tags -> In (k, v') tags -> v = v'.

Lemma row_tags_functional keys m : functional (row_tags keys m).
Proof. intros k v v' H H'. apply row_tags_In in H, H'. destruct H as (_ & _ & <-), H' as (_ & _ & <-). reflexivity. Qed.

Lemma to_label_values_spec tags keys :
  functional tags ->
  length (to_label_values tags keys) = length keys /\
  forall i k l, nth_error keys i = Some k -> nth_error (to_label_values tags keys) i = Some l ->
    forall v, l = Some v <-> In (k, v) tags.
Proof.
  intros Hf. unfold to_label_values. split; [apply map_length|].
  intros i k l Ek El v. rewrite nth_error_map, Ek in El. cbn [option_map] in El. injection El as <-.
  rewrite tag_map_get. destruct (last_such _ tags) as [[k' v']|] eqn:E.
  - apply last_such_In in E. destruct E as [Hin E]. cbn [fst snd] in *.
    destruct (bytes_eqb_spec k' k) as [->|]; [|discriminate]. split.
    + intros [= ->]. exact Hin.
    + intros H. f_equal. eapply Hf; eassumption.
  - cbn [mget]. split; [discriminate|]. intros H. apply (last_such_None _ _ E) in H. cbn [fst] in H.
    now destruct (bytes_eqb_spec k k).
Qed.

Lemma aggregate_kind (agg : aggregation f64_num) me ty t ss :
  get_type me agg = Some ty -> to_point (aggregate agg t ss) ty <> None.
Proof.
  intros Hty. unfold aggregate.
  assert (X : forall a : agg_data f64_num, (match agg, a with
                         | AggCount, CountD _ _ | AggSum, SumD _ _ | AggDist _, DistD _ | AggLast, LastD _ => True
                         | _, _ => False end) -> to_point a ty <> None).
  { intros a Ha. unfold get_type in Hty.
    destruct agg, (me_kind me), a; try contradiction; try discriminate; injection Hty as <-; discriminate. }
  apply X.
  assert (Y : forall ss (a : agg_data f64_num), (match agg, a with
                         | AggCount, CountD _ _ | AggSum, SumD _ _ | AggDist _, DistD _ | AggLast, LastD _ => True
                         | _, _ => False end) ->
              match agg, fold_left add_sample ss a with
                         | AggCount, CountD _ _ | AggSum, SumD _ _ | AggDist _, DistD _ | AggLast, LastD _ => True
                         | _, _ => False end).
  { clear. induction ss as [|s ss IH]; intros a Ha; [exact Ha|]. cbn [fold_left]. apply IH.
    destruct agg, a; exact Ha. }
  apply Y. destruct agg; exact I.
Qed.

Lemma map_opt_spec {A B} (f : A -> option B) (R : A -> B -> Prop) l :
  (forall x, In x l -> exists y, f x = Some y /\ R x y) ->
  exists l', map_opt f l = Some l' /\ Forall2 R l l'.
Proof.
  induction l as [|x l IH]; intros H; cbn [map_opt]; [exists []; split; constructor|].
  destruct (H x (or_introl eq_refl)) as (y & -> & Hy).
  destruct IH as (l' & -> & HF); [intros z Hz; apply H; now right|].
  exists (y :: l'). split; [reflexivity|]. now constructor.
Qed.

Lemma view_to_metric_spec sv d ss rows res now :
  descriptor_of sv d ->
  is_group_by (sv_agg sv) (sv_keys sv) ss rows ->
  match rows with
  | [] => view_to_metric d rows res now = Some None
  | _ => exists ts, view_to_metric d rows res now = Some (Some (MkMetric d res ts)) /\
                    Forall2 (series_of d now) rows ts
  end.
Proof.
  intros (D1 & D2 & D3 & D4 & D5) [_ HG]. destruct rows as [|row rows]; [reflexivity|].
  destruct (map_opt_spec (fun row => row_to_timeseries d row now) (series_of d now) (row :: rows)) as (ts & E & HF).
  { intros [tags data] Hin. apply HG in Hin. destruct Hin as (m & s & g & Hw & ->).
    unfold row_to_timeseries. cbn [fst snd].
    pose proof (aggregate_kind (sv_agg sv) (sv_measure sv) (md_type d) (s_time s) (map snd ((m, s) :: g)) D5) as Hk.
    destruct (to_point _ (md_type d)) as [pv|] eqn:Ep; [|congruence].
    eexists. split; [reflexivity|]. unfold series_of. cbn [fst snd ts_labels ts_points ts_start].
    assert (Ht : row_tags (sv_keys sv) m = tags).
    { assert (In (m, s) (with_tags (sv_keys sv) tags ss)) as X by (rewrite Hw; now left).
      apply filter_In in X. destruct X as [_ X2]. cbn [fst] in X2.
      now destruct (tags_eqb_spec (row_tags (sv_keys sv) m) tags). }
    destruct (to_label_values_spec tags (md_keys d)) as [L1 L2].
    { rewrite <- Ht. apply row_tags_functional. }
    split; [exact L1|]. split; [exact L2|]. split; [|reflexivity]. exists pv. auto. }
  unfold view_to_metric. rewrite E. eauto.
Qed.

Lemma canonical_descriptor u p sv v :
  canonical u p sv -> me_kind (sv_measure sv) <> MOther ->
  nth_error (u_views u) p = Some v ->
  exists d, view_to_metric_descriptor u v = Some d /\ descriptor_of sv d.
Proof.
  intros (C1 & C2 & C3) Hk Ev. rewrite C2 in Ev. injection Ev as <-.
  unfold view_to_metric_descriptor. cbn [v_measure v_agg v_name v_desc v_keys]. rewrite C3.
  destruct (get_type (sv_measure sv) (sv_agg sv)) as [ty|] eqn:E.
  - eexists. split; [reflexivity|]. repeat split; auto.
  - exfalso. unfold get_type in E. destruct (sv_agg sv), (me_kind (sv_measure sv)); congruence.
Qed.
