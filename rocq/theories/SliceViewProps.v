(** C77: registering views leaves the views registered before as they are. *)

From Coq Require Import String.
From Coq Require Import List Arith ZArith Bool Lia Sorted Permutation ZifyBool ZifyNat.
From Verif Require Import Base ListLib GoMap GoSort Float64 TagModel AggModel AggProofs CollectorModel CollectorSpec CollectorProofs
  ViewModel WorkerModel WorkerSpec ViewProofs SliceViewModel SliceViewSpec SliceViewProofs.
Import ListNotations.
Open Scope nat_scope.

Lemma register_step ks bs ps : forall w, AInv ks bs w -> clean ks bs -> Forall (fun p => p < length (aw_views w)) ps ->
  exists w' e, al_register w ps = Some (w', e) /\ step_ok ks bs w w' /\ (e = None -> forall p, In p ps -> settled bs w' p).
Proof.
  induction ps as [|p r IH]; intros w I C H.
  - exists w, None. split; [reflexivity|]. split; [now apply step_ok_refl|]. intros _ p [].
  - inversion H as [|? ? Hp Hr]; subst. destruct (canon_step ks bs w p I C Hp) as (w1 & e1 & E1 & S1 & Hset). cbn [al_register]. rewrite E1.
    destruct e1 as [e1|]; [exists w1, (Some e1); split; [reflexivity|]; split; [exact S1|discriminate]|].
    destruct (IH w1 (so_inv _ _ _ _ S1) C) as (w2 & e2 & E2 & S2 & H2); [now rewrite (so_len _ _ _ _ S1)|].
    exists w2, e2. split; [exact E2|]. split; [exact (step_ok_trans _ _ _ _ _ S1 S2)|]. intros He q [<-|Hq]; [|now apply H2].
    now apply (so_set _ _ _ _ S2), Hset.
Qed.

Lemma register_some w w' ps : al_register w ps = Some w' -> forall ks bs, AInv ks bs w -> clean ks bs ->
  step_ok ks bs w (fst w') /\ (snd w' = None -> forall p, In p ps -> settled bs (fst w') p).
Proof.
  revert w w'. induction ps as [|p r IH]; intros w w' E ks bs I C; cbn [al_register] in E.
  - injection E as <-. split; [now apply step_ok_refl|]. intros _ p [].
  - destruct (al_canonicalize w p) as [[w1 e1]|] eqn:E1; [|discriminate E].
    assert (Hp : p < length (aw_views w)).
    { apply nth_error_Some. unfold al_canonicalize in E1. destruct (nth_error (aw_views w) p); [discriminate|discriminate E1]. }
    destruct (canon_step ks bs w p I C Hp) as (w1' & e1' & E1' & S1 & Hset). rewrite E1 in E1'. injection E1' as <- <-.
    destruct e1 as [e1|]; [injection E as <-; cbn; split; [exact S1|discriminate]|].
    destruct (IH w1 w' E ks bs (so_inv _ _ _ _ S1) C) as [S2 H2].
    split; [exact (step_ok_trans _ _ _ _ _ S1 S2)|]. intros He q [<-|Hq]; [|now apply H2].
    now apply (so_set _ _ _ _ S2), Hset.
Qed.

Lemma clean_app ks bs ks' bs' : clean (ks ++ ks') (bs ++ bs') -> clean ks bs.
Proof. intros [H1 H2]. split; intros s t Hs Ht; [apply H1|apply H2]; apply in_or_app; now left. Qed.

Lemma step_new ks bs w op w' : AInv ks bs w -> clean (ks ++ key_slices [op]) (bs ++ bound_slices [op]) -> al_step w op = Some w' ->
  AInv (ks ++ key_slices [op]) (bs ++ bound_slices [op]) w' /\
  forall q, settled bs w q -> settled (bs ++ bound_slices [op]) w' q /\ shown w' q = shown w q.
Proof.
  intros I C E. pose proof (clean_app _ _ _ _ C) as C0.
  destruct op as [l|l|a|v|ps]; cbn [al_step] in E; cbn [key_slices bound_slices flat_map app] in *; rewrite ?app_nil_r in *.
  - injection E as <-. destruct I as [J1 J2 J3 J4 J5 J6 J7]. split.
    + split; cbn; auto. eapply Forall_impl; [|exact J2]. intros s. apply fits_new.
    + intros q S. destruct S as (x & me & ap & o & b & Ex & Em & Ea & En & Ed & S & R).
      assert (Er : sread (aw_keys w ++ [l]) (av_keys x) = sread (aw_keys w) (av_keys x)).
      { apply read_new. rewrite Forall_forall in J2. apply J2. rewrite <- J1. apply in_map. now apply nth_error_In in Ex. }
      split; [exists x, me, ap, o, b; cbn; rewrite Er; auto 12|]. unfold shown, shown_keys, shown_bounds. cbn. rewrite Ex. cbn. now rewrite Er.
  - injection E as <-. pose proof I as I0. destruct I as [J1 J2 J3 J4 J5 J6 J7].
    assert (Hr : forall i x, nth_error (aw_aggs w) i = Some x -> sread (aw_bounds w ++ [l]) (aa_buckets x) = sread (aw_bounds w) (aa_buckets x)).
    { intros i x Ex. destruct (orig_of _ _ _ _ _ I0 Ex) as (o & _ & F & A). apply read_new. exact (agg_ok_fits _ _ _ F A). }
    assert (Hc : forall o c, In o bs -> canon (aw_bounds w) o c -> canon (aw_bounds w ++ [l]) o c).
    { intros o c Ho. apply canon_read. apply read_new. rewrite Forall_forall in J3. now apply J3. }
    split.
    + split; cbn; auto.
      * eapply Forall_impl; [|exact J3]. intros s. apply fits_new.
      * intros i o x Eo Ex. destruct (J5 _ _ _ Eo Ex) as [H|H]; [now left|right]. apply Hc; [now apply nth_error_In in Eo|exact H].
      * intros i x Ex. rewrite (Hr _ _ Ex). exact (J7 _ _ Ex).
    + intros q S. destruct S as (x & me & ap & o & b & Ex & Em & Ea & En & Ed & S & Eo & Eb & H).
      split; [exists x, me, ap, o, b; cbn; repeat split; auto; apply Hc; [now apply nth_error_In in Eo|exact H]|].
      unfold shown, shown_keys, shown_bounds. cbn. rewrite Ex, Ea, Eb. cbn. now rewrite (Hr _ _ Eb).
  - destruct (_ && _) eqn:Hf; [|discriminate E]. injection E as <-. apply andb_prop in Hf. destruct Hf as [Hf Hk].
    destruct I as [J1 J2 J3 J4 J5 J6 J7]. assert (Hlt : forall i x, nth_error (aw_aggs w) i = Some x -> i < length (aw_aggs w)) by (intros; apply nth_error_Some; congruence).
    split.
    + split; cbn; auto.
      * apply Forall_app. split; [exact J3|]. constructor; [now apply sfits_fits|constructor].
      * rewrite !app_length. cbn. now rewrite J4.
      * intros i o x Eo Ex. destruct (le_lt_dec (length bs) i) as [L|L].
        -- rewrite nth_error_app2 in Eo by exact L. rewrite nth_error_app2 in Ex by lia. rewrite J4 in Eo.
           destruct (i - length (aw_aggs w)) as [|[|]]; cbn in Eo, Ex; try discriminate Eo. injection Eo as <-. injection Ex as <-. now left.
        -- rewrite nth_error_app1 in Eo by exact L. rewrite nth_error_app1 in Ex by lia. exact (J5 _ _ _ Eo Ex).
      * intros p v ap Ev Ea. rewrite app_length. specialize (J6 _ _ _ Ev Ea). lia.
      * intros i x Ex. destruct (le_lt_dec (length (aw_aggs w)) i) as [L|L].
        -- rewrite nth_error_app2 in Ex by lia. destruct (i - length (aw_aggs w)) as [|[|]]; cbn in Ex; try discriminate Ex. injection Ex as <-.
           destruct (aa_kind a) eqn:Ek; try (left; unfold sread; apply Nat.eqb_eq in Hk; now rewrite Hk). right. eauto.
        -- rewrite nth_error_app1 in Ex by lia. exact (J7 _ _ Ex).
    + intros q S. destruct S as (x & me & ap & o & b & Ex & Em & Ea & En & Ed & S & Eo & Eb & H).
      assert (Hb : ap < length bs) by (apply nth_error_Some; congruence). pose proof (Hlt _ _ Eb) as Hb'.
      split; [exists x, me, ap, o, b; cbn; rewrite !nth_error_app1 by assumption; auto 12|].
      unfold shown, shown_keys, shown_bounds. cbn. rewrite Ex, Ea, nth_error_app1 by assumption. reflexivity.
  - destruct (_ && _) eqn:Hf; [|discriminate E]. injection E as <-. apply andb_prop in Hf. destruct Hf as [Hf Hk].
    destruct I as [J1 J2 J3 J4 J5 J6 J7]. split.
    + split; cbn; auto.
      * rewrite map_app, J1. reflexivity.
      * apply Forall_app. split; [exact J2|]. constructor; [now apply sfits_fits|constructor].
      * intros p x ap Ex Ea. destruct (le_lt_dec (length (aw_views w)) p) as [L|L].
        -- rewrite nth_error_app2 in Ex by lia. destruct (p - length (aw_views w)) as [|[|]]; cbn in Ex; try discriminate Ex. injection Ex as <-.
           rewrite Ea in Hk. now apply Nat.ltb_lt.
        -- rewrite nth_error_app1 in Ex by lia. exact (J6 _ _ _ Ex Ea).
    + intros q S. destruct S as (x & me & ap & o & b & Ex & R). assert (Hq : q < length (aw_views w)) by (apply nth_error_Some; congruence).
      split; [exists x, me, ap, o, b; cbn; rewrite nth_error_app1 by assumption; auto|].
      unfold shown, shown_keys, shown_bounds. cbn. rewrite !nth_error_app1 by assumption. reflexivity.
  - destruct (al_register w ps) as [[w1 e]|] eqn:Er; [|discriminate E]. injection E as <-.
    destruct (register_some _ _ _ Er ks bs I C) as [S _]. split; [apply S|]. apply S.
Qed.

Lemma key_slices_app a b : key_slices (a ++ b) = key_slices a ++ key_slices b.
Proof. apply flat_map_app. Qed.
Lemma bound_slices_app a b : bound_slices (a ++ b) = bound_slices a ++ bound_slices b.
Proof. apply flat_map_app. Qed.

Lemma run_inv ops : forall ks bs w w', AInv ks bs w -> clean (ks ++ key_slices ops) (bs ++ bound_slices ops) -> al_run w ops = Some w' ->
  AInv (ks ++ key_slices ops) (bs ++ bound_slices ops) w' /\
  forall q, settled bs w q -> settled (bs ++ bound_slices ops) w' q /\ shown w' q = shown w q.
Proof.
  induction ops as [|op r IH]; intros ks bs w w' I C E; cbn [al_run] in E.
  - injection E as <-. cbn. rewrite !app_nil_r. auto.
  - destruct (al_step w op) as [w1|] eqn:E1; [|discriminate E].
    change (op :: r) with ([op] ++ r) in *. rewrite key_slices_app, bound_slices_app, !app_assoc in *.
    destruct (step_new ks bs w op w1 I (clean_app _ _ _ _ C) E1) as [I1 H1].
    destruct (IH _ _ w1 w' I1 C E) as [I2 H2]. split; [exact I2|]. intros q S. destruct (H1 q S) as [S1 X1]. destruct (H2 q S1) as [S2 X2].
    split; [exact S2|congruence].
Qed.

Lemma AInv_init : AInv [] [] al_init.
Proof.
  split; cbn; auto.
  - intros [|i] o a Eo; discriminate Eo.
  - intros [|p] v ap Ev; discriminate Ev.
  - intros [|i] a Ea; discriminate Ea.
Qed.

(** The user makes arrays, aggregations and views, and registers views, in any order; any
    two of the slices they use have nothing in common, or are the same one.  Then a view of a
    Register call that found nothing wrong has
    - its tag keys in increasing order, the bounds of its aggregation positive and in
      increasing order: those it had before the call;
    - and keeps all of that, whatever is made and registered later. *)
Theorem C77_registered_views_keep ops1 ps ops2 w1 w2 w3 p :
  sharing_whole (ops1 ++ ORegister ps :: ops2) ->
  al_run al_init ops1 = Some w1 -> al_register w1 ps = Some (w2, None) -> In p ps -> al_run w2 ops2 = Some w3 ->
  shown w3 p = shown w2 p /\
  exists k1 k2 b1 b2, shown_keys w1 p = Some k1 /\ shown_keys w2 p = Some k2 /\ shown_bounds w1 p = Some b1 /\ shown_bounds w2 p = Some b2 /\
    Permutation k1 k2 /\ StronglySorted (fun a b => bytes_ltb b a = false) k2 /\
    Permutation (filter (fun b => f_ltb f_zero b) b1) b2 /\
    StronglySorted (fun a b => f_ltb b a = false) b2 /\ Forall (fun b => f_ltb f_zero b = true) b2.
Proof.
  intros C E1 E2 Hp E3. assert (C' : clean ([] ++ key_slices ops1) ([] ++ bound_slices ops1)).
  { unfold sharing_whole in C. rewrite key_slices_app, bound_slices_app in C. exact (clean_app _ _ _ _ C). }
  destruct (run_inv ops1 [] [] al_init w1 AInv_init C' E1) as [I1 _]. cbn [app] in I1, C'.
  destruct (register_some _ _ _ E2 _ _ I1 C') as [S2 Hset]. specialize (Hset eq_refl p Hp). cbn [fst snd] in *.
  assert (C2 : clean (key_slices ops1 ++ key_slices ops2) (bound_slices ops1 ++ bound_slices ops2)).
  { unfold sharing_whole in C. rewrite key_slices_app, bound_slices_app in C. exact C. }
  destruct (run_inv ops2 _ _ w2 w3 (so_inv _ _ _ _ S2) C2 E3) as [I3 H3]. split; [now apply H3|].
  destruct Hset as (v & me & ap & o & a & Ev & Em & Ea & _ & _ & S & Eo & Eag & Hc).
  assert (Ek2 : shown_keys w2 p = Some (sread (aw_keys w2) (av_keys v))) by (unfold shown_keys; now rewrite Ev).
  assert (Eb2 : shown_bounds w2 p = Some (sread (aw_bounds w2) (aa_buckets a))) by (unfold shown_bounds; now rewrite Ev, Ea, Eag).
  destruct (so_keys _ _ _ _ S2 _ _ Ek2) as (k1 & Ek1 & P1). destruct (so_bounds _ _ _ _ S2 _ _ Eb2) as (b1 & Eb1 & P2).
  destruct (canon_content _ _ _ Hc) as (_ & Sb & Pb).
  exists k1, (sread (aw_keys w2) (av_keys v)), b1, (sread (aw_bounds w2) (aa_buckets a)). repeat split; auto.
  - unfold pos in P2. etransitivity; [exact P2|]. clear -Pb. induction Pb as [|x l H _ IH]; [reflexivity|]. cbn. unfold pos in H. rewrite H. now constructor.
  - clear -Sb. induction Sb as [|x l _ IH H]; constructor; [exact IH|]. eapply Forall_impl; [|exact H]. intros y Hy. unfold leb, f_less in Hy.
    now apply orb_false_elim in Hy.
Qed.

(** Without that a registered view can change: the first view has the keys b and c, the second
    is made with the whole array they are in.  Registering the second gives the first the
    keys a and b. *)
Definition key_a := bs "a". Definition key_b := bs "b". Definition key_c := bs "c".
Definition a_measure : measure := MkMeasure (bs "m") [] (bs "1") MInt64.
Definition overlap_ops : list aop :=
  [ONewKeys [key_b; key_c; key_a]; ONewAgg (MkAA (AggCount (F := f64_num)) (MkSlice 0 0 0));
   ONewView (MkAV (bs "v1") [] (MkSlice 0 0 2) (Some a_measure) (Some 0));
   ONewView (MkAV (bs "v2") [] (MkSlice 0 0 3) (Some a_measure) (Some 0))].

Theorem C77_overlap_refuted :
  exists w1 w2 w3, al_run al_init overlap_ops = Some w1 /\ al_register w1 [0] = Some (w2, None) /\ al_register w2 [1] = Some (w3, None) /\
    shown_keys w2 0 = Some [key_b; key_c] /\ shown_keys w3 0 = Some [key_a; key_b].
Proof. do 3 eexists. split; [vm_compute; reflexivity|]. split; [vm_compute; reflexivity|]. split; [vm_compute; reflexivity|]. split; vm_compute; reflexivity. Qed.

(** A row collected before, for b = x and c = y, then shows the tags a = x and b = y. *)
Theorem C77_overlap_rows_refuted : exists sig,
  encode_with_keys (Some [(key_b, Content (bs "x") (-1)); (key_c, Content (bs "y") (-1))]) [key_b; key_c] = Some sig /\
  decode_tags sig [key_b; key_c] = Some [(key_b, bs "x"); (key_c, bs "y")] /\
  decode_tags sig [key_a; key_b] = Some [(key_a, bs "x"); (key_b, bs "y")].
Proof. eexists. split; [vm_compute; reflexivity|]. split; vm_compute; reflexivity. Qed.

(** Two aggregations over one slice of bounds 0, 5, 1, one of them in two views, and two views
    with the same keys: all registered, in two calls. *)
Example C77_example :
  let ops := [ONewKeys [key_b; key_a]; ONewBounds [f_of_Z 0; f_of_Z 5; f_of_Z 1];
     ONewAgg (MkAA (AggDist (F := f64_num) []) (MkSlice 0 0 3)); ONewAgg (MkAA (AggDist (F := f64_num) []) (MkSlice 0 0 3));
     ONewView (MkAV (bs "v1") [] (MkSlice 0 0 2) (Some a_measure) (Some 0));
     ONewView (MkAV (bs "v2") [] (MkSlice 0 0 2) (Some a_measure) (Some 1));
     ONewView (MkAV (bs "v3") [] (MkSlice 0 0 0) (Some a_measure) (Some 0))] in
  sharing_whole (ops ++ ORegister [0] :: [ORegister [1; 2]]) /\
  exists w1 w2 w3, al_run al_init ops = Some w1 /\ al_register w1 [0] = Some (w2, None) /\ al_run w2 [ORegister [1; 2]] = Some w3 /\
    shown_keys w3 0 = Some [key_a; key_b] /\ shown_bounds w3 0 = Some [f_of_Z 1; f_of_Z 5] /\ shown_bounds w3 1 = Some [f_of_Z 1; f_of_Z 5].
Proof.
  split.
  - split; cbn; intros s t Hs Ht; repeat destruct Hs as [<-|Hs]; repeat destruct Ht as [<-|Ht]; try contradiction; (now left) || (right; right; cbn; lia).
  - do 3 eexists. split; [vm_compute; reflexivity|]. split; [vm_compute; reflexivity|]. split; [vm_compute; reflexivity|]. split; [|split]; vm_compute; reflexivity.
Qed.

(** ** Views that share nothing *)

Lemma apart_pairs l : ForallOrdPairs apart l -> forall i j s t, nth_error l i = Some s -> nth_error l j = Some t -> i <> j -> apart s t.
Proof.
  induction 1 as [|x l H _ IH]; intros i j s t Ei Ej N; [destruct i; discriminate Ei|]. rewrite Forall_forall in H.
  destruct i as [|i], j as [|j]; cbn in Ei, Ej.
  - congruence.
  - injection Ei as <-. apply H. now apply nth_error_In in Ej.
  - injection Ej as <-. apply apart_sym, H. now apply nth_error_In in Ei.
  - apply (IH i j); auto.
Qed.

Lemma pairs_whole l : ForallOrdPairs apart l -> forall s t, In s l -> In t l -> whole_or_apart s t.
Proof.
  intros H s t Hs Ht. destruct (In_nth_error _ _ Hs) as (i & Ei). destruct (In_nth_error _ _ Ht) as (j & Ej).
  destruct (Nat.eq_dec i j) as [<-|N]; [left; congruence|right; exact (apart_pairs l H i j s t Ei Ej N)].
Qed.

Lemma map_upd_ext {A B} (g g' : A -> B) (f : A -> A) (F : B -> B) l : forall p,
  (forall q x, nth_error l q = Some x -> q <> p -> g' x = g x) -> (forall x, nth_error l p = Some x -> g' (f x) = F (g x)) ->
  map g' (upd l p f) = upd (map g l) p F.
Proof.
  induction l as [|x l IH]; intros [|p] H1 H2; cbn [upd map]; try reflexivity.
  - rewrite (H2 x eq_refl). f_equal. apply map_ext_in. intros y Hy. destruct (In_nth_error _ _ Hy) as (q & Eq). now apply (H1 (S q)).
  - rewrite (H1 0 x eq_refl) by discriminate. f_equal. apply IH.
    + intros q y Eq N. apply (H1 (S q)); [exact Eq|congruence].
    + intros y Ey. now apply H2.
Qed.

(** If no two views and no two aggregations share anything, registering does to them what it
    does to views that have their own keys and bounds: the rest of the model (ViewModel.v) is
    about those. *)
Theorem C77_unshared ops w p : sharing_nothing ops -> al_run al_init ops = Some w ->
  canonicalize (unshared w) p = option_map (fun r => (unshared (fst r), snd r)) (al_canonicalize w p).
Proof.
  intros [Nk Nb] E. assert (C : clean (key_slices ops) (bound_slices ops)) by (split; now apply pairs_whole).
  destruct (run_inv ops [] [] al_init w AInv_init C E) as [I _]. cbn [app] in I. set (ks := key_slices ops) in *. set (bs := bound_slices ops) in *.
  unfold canonicalize, al_canonicalize, unshared at 1. cbn [u_views]. rewrite nth_error_map.
  destruct (nth_error (aw_views w) p) as [v|] eqn:Ev; [|reflexivity]. cbn [option_map own_view v_measure v_agg v_name v_desc v_keys].
  destruct (av_measure v) as [me|] eqn:Em; [|reflexivity]. destruct (av_agg v) as [ap|] eqn:Eap; [|reflexivity]. cbv zeta.
  set (name := match av_name v with [] => me_name me | _ => _ end). set (desc := match av_desc v with [] => me_desc me | _ => _ end).
  pose proof (key_fits _ _ _ _ _ I Ev) as Fv.
  assert (Hk : forall q x, nth_error (aw_views w) q = Some x -> q <> p -> apart (av_keys v) (av_keys x)).
  { intros q x Ex N. apply (apart_pairs ks Nk p q); [| |congruence]; rewrite <- (ai_views _ _ _ I), nth_error_map; [now rewrite Ev|now rewrite Ex]. }
  destruct (check_view_name name) as [e|].
  { cbn [option_map fst snd]. do 2 f_equal. unfold unshared. cbn [u_views u_aggs aw_views aw_aggs]. f_equal. symmetry. apply map_upd_ext.
    - reflexivity.
    - reflexivity. }
  cbn [unshared u_aggs]. rewrite nth_error_map. destruct (nth_error (aw_aggs w) ap) as [a|] eqn:Ea; [|reflexivity]. cbn [option_map].
  destruct (orig_of _ _ _ _ _ I Ea) as (o & Eo & Fo & Ho). pose proof (agg_ok_fits _ _ _ Fo Ho) as Fa.
  assert (Hb : agg_buckets (own_agg w a) = sread (aw_bounds w) (aa_buckets a)).
  { unfold own_agg. destruct (aa_kind a) eqn:Ek; try reflexivity; destruct (ai_nil _ _ _ I _ _ Ea) as [H|[b H]]; rewrite ?H; try reflexivity; rewrite Ek in H; discriminate H. }
  rewrite Hb, (sort_same f_less _ _ Fa).
  set (w1 := fun aggs => MkAW (ssort bytes_ltb (aw_keys w) (av_keys v)) (ssort f_less (aw_bounds w) (aa_buckets a)) aggs
                (upd (aw_views w) p (fun _ => MkAV name desc (av_keys v) (Some me) (Some ap)))).
  assert (Hviews : forall aggs, map (own_view (w1 aggs)) (aw_views (w1 aggs)) =
     upd (map (own_view w) (aw_views w)) p (fun _ => MkView name desc (isort bytes_ltb (sread (aw_keys w) (av_keys v))) (Some me) (Some ap))).
  { intros aggs. cbn [w1 aw_views]. apply map_upd_ext.
    - intros q x Ex N. unfold own_view. cbn [w1 aw_keys]. f_equal. apply sort_apart; [exact Fv|exact (Hk q x Ex N)].
    - intros x _. unfold own_view. cbn [w1 aw_keys av_name av_desc av_keys av_measure av_agg]. f_equal. now apply sort_same. }
  assert (Hother : forall q x, nth_error (aw_aggs w) q = Some x -> q <> ap ->
     sread (ssort f_less (aw_bounds w) (aa_buckets a)) (aa_buckets x) = sread (aw_bounds w) (aa_buckets x)).
  { intros q x Ex N. destruct (orig_of _ _ _ _ _ I Ex) as (o' & Eo' & Fo' & Ho'). apply sort_apart; [exact Fa|].
    destruct (agg_ok_suffix _ _ _ Ho) as (k & Hkk & ->). apply apart_suffix; [exact Hkk|].
    destruct (agg_ok_suffix _ _ _ Ho') as (k' & Hkk' & ->). apply apart_sym, apart_suffix; [exact Hkk'|].
    apply (apart_pairs bs Nb q ap); auto. }
  destruct (existsb _ _); cbn [option_map fst snd]; do 2 f_equal.
  - change (MkU (upd (map (own_view w) (aw_views w)) p (fun _ => MkView name desc (isort bytes_ltb (sread (aw_keys w) (av_keys v))) (Some me) (Some ap)))
       (upd (map (own_agg w) (aw_aggs w)) ap (fun a0 => set_buckets a0 (isort f_less (sread (aw_bounds w) (aa_buckets a))))) = unshared (w1 (aw_aggs w))).
    unfold unshared. rewrite Hviews. f_equal. symmetry. cbn [w1 aw_aggs]. transitivity (map (own_agg (w1 (aw_aggs w))) (upd (aw_aggs w) ap (fun x => x))); [now rewrite upd_id|]. apply map_upd_ext.
    + intros q x Ex N. unfold own_agg. cbn [w1 aw_bounds]. now rewrite (Hother q x Ex N).
    + intros x Ex. rewrite Ea in Ex. injection Ex as <-. unfold own_agg. cbn [w1 aw_bounds]. destruct (aa_kind a); try reflexivity. cbn [set_buckets]. f_equal. now apply sort_same.
  - set (d := drop_slice _ _).
    change (MkU (upd (map (own_view w) (aw_views w)) p (fun _ => MkView name desc (isort bytes_ltb (sread (aw_keys w) (av_keys v))) (Some me) (Some ap)))
       (upd (map (own_agg w) (aw_aggs w)) ap (fun a0 => set_buckets a0 (drop_zero_bounds (isort f_less (sread (aw_bounds w) (aa_buckets a))))))
       = unshared (w1 (upd (aw_aggs w) ap (fun _ => MkAA (aa_kind a) d)))).
    unfold unshared. rewrite Hviews. f_equal. symmetry. cbn [w1 aw_aggs]. apply map_upd_ext.
    + intros q x Ex N. unfold own_agg. cbn [w1 aw_bounds]. now rewrite (Hother q x Ex N).
    + intros x Ex. rewrite Ea in Ex. injection Ex as <-. unfold own_agg. cbn [w1 aw_bounds aa_kind aa_buckets]. destruct (aa_kind a); try reflexivity. cbn [set_buckets]. f_equal.
      rewrite (drop_skipn (isort _ _)), <- (sort_same f_less _ _ Fa), <- read_suffix. f_equal. unfold d, drop_slice, suffix.
      rewrite (sort_same f_less _ _ Fa). pose proof (sread_length _ _ Fa) as L. rewrite <- (isort_len f_less) in L. destruct (drop_split (isort f_less (sread (aw_bounds w) (aa_buckets a)))) as (_ & _ & H). f_equal; lia.
Qed.

Example C77_unshared_example :
  let ops := [ONewKeys [key_b; key_c; key_a]; ONewAgg (MkAA (AggCount (F := f64_num)) (MkSlice 0 0 0));
   ONewView (MkAV (bs "v1") [] (MkSlice 0 0 1) (Some a_measure) (Some 0));
   ONewView (MkAV (bs "v2") [] (MkSlice 0 1 2) (Some a_measure) (Some 0))] in
  sharing_nothing ops /\ exists w, al_run al_init ops = Some w.
Proof.
  split; [|eexists; reflexivity]. split; cbn.
  - constructor; [constructor; [right; left; cbn; lia|constructor]|]. constructor; [constructor|constructor].
  - constructor; constructor.
Qed.

Print Assumptions C77_registered_views_keep.
Print Assumptions C77_overlap_refuted.
Print Assumptions C77_overlap_rows_refuted.
Print Assumptions C77_unshared.
