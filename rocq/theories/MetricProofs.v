From Coq Require Import List Arith NArith ZArith Bool Permutation Lia ZifyBool ZifyNat ZifyN.
From Verif Require Import Base ListLib GoMap GoSort Float64 TagEncodingModel TagEncodingProofs AggModel AggProofs
     MetricModel MetricSpec.
Import ListNotations.
Open Scope nat_scope.

(** ** Encoding of label lists *)

Definition lb (l : option bytes) : bytes := match l with Some v => n2b 1 :: v | None => [n2b 0] end.
Definition enc (l : labels) : bytes := concat (map enc_cell (map lb l)).
Definition short_l (l : option bytes) : Prop := match l with Some v => length v <= 254 | None => True end.

Lemma lv_bytes_lb v : lv_bytes v = lb (label v).
Proof. unfold lv_bytes, lb, label. destruct (lv_present v); reflexivity. Qed.

Lemma encode_enc vs : encode_label_vals vs = enc (map label vs).
Proof.
  unfold encode_label_vals, enc. destruct (write_values_nil (map lv_bytes vs) 0) as (w & E & B).
  cbn [repeat] in E. rewrite E, B. f_equal. f_equal. rewrite map_map. apply map_ext. apply lv_bytes_lb.
Qed.

Lemma short_label v : short v -> short_l (label v).
Proof. unfold short, short_l, label. destruct (lv_present v); auto. Qed.

Lemma lb_short l : short_l l -> length (lb l) <= 255.
Proof. destruct l; cbn; lia. Qed.

Lemma n2b_0_1 : n2b 0 <> n2b 1.
Proof. intros H. assert (X : b2n (n2b 0) = b2n (n2b 1)) by now rewrite H. vm_compute in X. discriminate X. Qed.

Lemma lb_inj a b : lb a = lb b -> a = b.
Proof.
  destruct a as [a|], b as [b|]; cbn [lb]; intros H; try reflexivity.
  - injection H as H. now subst.
  - exfalso. apply n2b_0_1. congruence.
  - exfalso. apply n2b_0_1. congruence.
Qed.

Lemma enc_labels_inj l1 l2 : length l1 = length l2 -> Forall short_l l1 -> Forall short_l l2 ->
  enc l1 = enc l2 -> l1 = l2.
Proof.
  intros HL H1 H2 E. assert (X : map lb l1 = map lb l2).
  { apply enc_inj; [now rewrite !map_length| | |exact E].
    - rewrite Forall_map. eapply Forall_impl; [|exact H1]. intros; now apply lb_short.
    - rewrite Forall_map. eapply Forall_impl; [|exact H2]. intros; now apply lb_short. }
  clear - X. revert l2 X. induction l1 as [|a l1 IH]; intros [|b l2] X; try discriminate; [reflexivity|].
  cbn [map] in X. injection X as X1 X2. f_equal; [now apply lb_inj|now apply IH].
Qed.

Lemma b2n_0 : b2n (n2b 0) = 0%N.
Proof. reflexivity. Qed.
Lemma b2n_1 : b2n (n2b 1) = 1%N.
Proof. reflexivity. Qed.

Lemma decode_enc {K} (keys : list K) l : length keys = length l -> Forall short_l l ->
  decode_label_vals keys (enc l) = Some (map show_label l).
Proof.
  revert l. induction keys as [|k keys IH]; intros [|x l] HL H; try discriminate; [reflexivity|].
  inversion H as [|? ? Hx Hl]; subst. unfold enc. cbn [map concat decode_label_vals].
  rewrite read_cell. pose proof (lb_short x Hx) as Hs. rewrite (cell_len_small _ Hs). rewrite firstn_all.
  destruct (length (lb x) =? 0) eqn:E; [apply Nat.eqb_eq in E; destruct x; discriminate|].
  fold (enc l). rewrite (IH l); [|now injection HL|exact Hl].
  destruct x as [v|]; cbn [lb show_label].
  - rewrite b2n_1. reflexivity.
  - rewrite b2n_0. reflexivity.
Qed.

(** ** Functional maps of the specification *)

Lemma labels_eqb_spec a b : reflect (a = b) (labels_eqb a b).
Proof.
  apply list_eqb_spec. intros [x|] [y|]; try (constructor; congruence).
  destruct (bytes_eqb_spec x y); constructor; congruence.
Qed.

Lemma fset_same {B} (f : nat -> B) k v : fset f k v k = v.
Proof. unfold fset. now rewrite Nat.eqb_refl. Qed.
Lemma fset_other {B} (f : nat -> B) k v x : x <> k -> fset f k v x = f x.
Proof. unfold fset. intros H. apply Nat.eqb_neq in H. now rewrite H. Qed.
Lemma nset_same {B} (f : bytes -> B) k v : nset f k v k = v.
Proof. unfold nset. now rewrite bytes_eqb_refl. Qed.
Lemma nset_other {B} (f : bytes -> B) k v x : x <> k -> nset f k v x = f x.
Proof. unfold nset. intros H. apply bytes_eqb_neq in H. now rewrite H. Qed.
Lemma vset_same f p l v : vset f p l v p l = Some v.
Proof. unfold vset. rewrite Nat.eqb_refl. destruct (labels_eqb_spec l l); [reflexivity|congruence]. Qed.
Lemma vset_cases f p l v p' l' :
  (p' = p /\ l' = l /\ vset f p l v p' l' = Some v) \/ ((p' <> p \/ l' <> l) /\ vset f p l v p' l' = f p' l').
Proof.
  unfold vset. destruct (Nat.eqb_spec p' p), (labels_eqb_spec l' l); cbn [andb]; auto.
Qed.

(** ** The invariant *)

Definition rep (t : bmtype) (e : entry) (v : aval) : Prop :=
  match t, e, v with
  | GaugeInt64, EGaugeI x, AInt y => x = y
  | GaugeFloat64, EGaugeF x, AFloat y => x = y
  | CumulativeInt64, ECumI x, AInt y => x = y
  | CumulativeFloat64, ECumF x, AFloat y => x = y
  | DerivedGaugeInt64, EFnI x, AFn y => x = y
  | DerivedCumulativeInt64, EFnI x, AFn y => x = y
  | DerivedGaugeFloat64, EFnF x, AFn y => x = y
  | DerivedCumulativeFloat64, EFnF x, AFn y => x = y
  | _, _, _ => False
  end.

Definition okl (m : ametric) (l : labels) : Prop :=
  length l = length (am_consts m) + length (am_keys m) /\ Forall short_l l.

Record bm_inv (a : ast) (ents : list entry) (p : nat) (bm : bmetric) (m : ametric) : Prop := {
  bi_type : bm_type bm = am_type m;
  bi_desc : bm_desc bm = MkMD (am_name m) (am_desc m) (am_unit m) (exported_type (am_type m)) (map fst (am_consts m) ++ am_keys m);
  bi_start : bm_start bm = am_start m;
  bi_keys : bm_keys bm = map fst (am_consts m) ++ am_keys m;
  bi_const : bm_const bm = map snd (am_consts m);
  bi_short : Forall (fun kv => short (snd kv)) (am_consts m);
  bi_wf : mwf (bm_vals bm);
  bi_in : forall k x, In (k, x) (bm_vals bm) ->
    exists l e v, k = enc l /\ okl m l /\ nth_error ents x = Some e /\ a_value a p l = Some v /\
      rep (am_type m) e v /\ (is_derived (am_type m) = false -> a_owner a x = Some (p, l));
  bi_val : forall l v, a_value a p l = Some v -> okl m l /\ exists x, mget bytes_eqb (bm_vals bm) (enc l) = Some x
}.

Record RI (a : ast) (s : rst) : Prop := {
  ri_bm : forall p bm, nth_error (r_bms s) p = Some bm -> exists m, a_metric a p = Some m /\ bm_inv a (r_ents s) p bm m;
  ri_none : forall p, nth_error (r_bms s) p = None -> a_metric a p = None /\ forall l, a_value a p l = None;
  ri_owner : forall x p l, a_owner a x = Some (p, l) ->
    exists bm, nth_error (r_bms s) p = Some bm /\ is_derived (bm_type bm) = false /\ mget bytes_eqb (bm_vals bm) (enc l) = Some x
      /\ exists m, a_metric a p = Some m /\ okl m l;
  ri_nwf : mwf (r_names s);
  ri_name : forall n, mget bytes_eqb (r_names s) n = a_name a n;
  ri_named : forall n p, a_name a n = Some p -> exists m, a_metric a p = Some m /\ am_name m = n
}.

Lemma RI_init : RI a_init new_registry.
Proof.
  split; cbn.
  - intros [|p] bm H; discriminate.
  - auto.
  - discriminate.
  - constructor.
  - reflexivity.
  - discriminate.
Qed.

Lemma create_mopts xs : create_metric_option xs = MkMO (mopt_unit xs) (mopt_keys xs) (mopt_const xs) (mopt_desc xs).
Proof.
  unfold create_metric_option, mopt_unit, mopt_keys, mopt_const, mopt_desc.
  assert (X : forall xs u k c d,
    fold_left apply_mopt xs (MkMO u k c d) =
    MkMO (fold_left (fun a x => match x with WithUnit d => d | _ => a end) xs u)
         (fold_left (fun a x => match x with
                        | WithLabelKeys ks => map (fun k => MkLK k []) ks
                        | WithLabelKeysAndDescription ks => ks
                        | _ => a end) xs k)
         (fold_left (fun a x => match x with WithConstLabel m => m | _ => a end) xs c)
         (fold_left (fun a x => match x with WithDescription d => d | _ => a end) xs d)); [|apply X].
  clear xs. induction xs as [|x xs IH]; intros; [reflexivity|].
  cbn [fold_left]. destruct x; cbn [apply_mopt mo_unit mo_keys mo_const mo_desc]; apply IH.
Qed.

Lemma bmtype_eqb_spec a b : reflect (a = b) (bmtype_eqb a b).
Proof. destruct a, b; constructor; congruence. Qed.

Lemma exported_type_ok t : bm_metric_type t = exported_type t.
Proof. destruct t; reflexivity. Qed.

Lemma full_labels_okl m vs : length vs = length (am_keys m) -> Forall (fun kv => short (snd kv)) (am_consts m) -> Forall short vs ->
  okl m (full_labels m vs).
Proof.
  intros HL H1 H2. unfold okl, full_labels. split; [rewrite app_length, !map_length; lia|].
  apply Forall_app. split.
  - rewrite map_map, Forall_map. eapply Forall_impl; [|exact H1]. intros kv; apply short_label.
  - rewrite Forall_map. eapply Forall_impl; [|exact H2]. intros v; apply short_label.
Qed.

Lemma okl_enc_inj m l1 l2 : okl m l1 -> okl m l2 -> enc l1 = enc l2 -> l1 = l2.
Proof. intros [A1 B1] [A2 B2]. apply enc_labels_inj; congruence. Qed.

Lemma nth_error_app_l {A} (l r : list A) i x : nth_error l i = Some x -> nth_error (l ++ r) i = Some x.
Proof. intros H. rewrite nth_error_app1; [exact H|]. apply nth_error_Some. congruence. Qed.

(** *** Add *)
Lemma RI_add a s o ty name xs now :
  RI a s -> Forall (fun kv => short (snd kv)) (mopt_const xs) ->
  let keys := map fst (sorted_consts o xs) ++ mopt_keys xs in
  RI (a_step a (RopAdd o ty name xs now, RHandle (length (r_bms s))))
     (MkR (r_bms s ++ [MkBM ty (MkMD name (mopt_desc xs) (mopt_unit xs) (bm_metric_type ty) keys) now keys
                            (map snd (sorted_consts o xs)) []])
          (mset bytes_eqb (r_names s) name (length (r_bms s))) (r_ents s)).
Proof.
  intros I Hs keys. set (P := length (r_bms s)).
  assert (HP : nth_error (r_bms s) P = None) by (apply nth_error_None; unfold P; lia).
  destruct (ri_none a s I P HP) as [HM HV].
  cbn [a_step]. split; cbn [r_bms r_names r_ents a_metric a_name a_value a_owner].
  - intros p bm H. destruct (Nat.eq_dec p P) as [->|Hne].
    + rewrite nth_error_app2 in H by (unfold P; lia). replace (P - length (r_bms s)) with 0 in H by (unfold P; lia).
      injection H as <-. eexists. split; [apply fset_same|].
      split; cbn; try reflexivity.
      * now rewrite exported_type_ok.
      * unfold sorted_consts. rewrite isort_perm, ord_perm. exact Hs.
      * constructor.
      * intros k x [].
      * intros l v X. rewrite HV in X. discriminate.
    + assert (H' : nth_error (r_bms s) p = Some bm).
      { destruct (Nat.lt_ge_cases p P) as [X|X]; [rewrite nth_error_app1 in H; auto|].
        rewrite nth_error_app2 in H by exact X. destruct (p - length (r_bms s)) eqn:E; [unfold P in *; lia|].
        destruct n; discriminate H. }
      destruct (ri_bm a s I _ _ H') as (m & Em & B). exists m. rewrite fset_other by exact Hne. split; [exact Em|].
      destruct B. split; assumption.
  - intros p H. assert (p <> P /\ nth_error (r_bms s) p = None) as [Hne H'].
    { apply nth_error_None in H. rewrite app_length in H. cbn in H. split; [unfold P; lia|]. apply nth_error_None. lia. }
    rewrite fset_other by exact Hne. apply (ri_none a s I p H').
  - intros x p l H. destruct (ri_owner a s I _ _ _ H) as (bm & Eb & Hd & Hm & m & Em & Hl).
    exists bm. split; [apply nth_error_app_l; exact Eb|]. split; [exact Hd|]. split; [exact Hm|].
    exists m. split; [|exact Hl]. rewrite fset_other; [exact Em|]. intros ->. congruence.
  - apply mwf_mset; [apply bytes_eqb_spec|apply I].
  - intros n. rewrite (mget_mset _ bytes_eqb_spec). unfold nset.
    destruct (bytes_eqb_spec name n) as [->|Hn]; [now rewrite bytes_eqb_refl|].
    assert (bytes_eqb n name = false) as -> by (apply bytes_eqb_neq; congruence). apply I.
  - intros n p. unfold nset. destruct (bytes_eqb_spec n name) as [->|Hn].
    + intros [= <-]. eexists. split; [apply fset_same|reflexivity].
    + intros H. destruct (ri_named a s I _ _ H) as (m & Em & Hm). exists m. split; [|exact Hm].
      rewrite fset_other; [exact Em|]. intros ->. congruence.
Qed.

Lemma add_spec a s o ty name xs now :
  RI a s -> Forall (fun kv => short (snd kv)) (mopt_const xs) ->
  let '(r, s') := rdo s (RopAdd o ty name xs now) in
  r_answer a (RopAdd o ty name xs now) r /\ RI (a_step a (RopAdd o ty name xs now, r)) s'.
Proof.
  intros I Hs.
  assert (OK : (forall p m, a_name a name = Some p -> a_metric a p = Some m -> am_type m = ty) ->
    r_answer a (RopAdd o ty name xs now) (RHandle (length (r_bms s)))).
  { intros H. right. split; [exact H|]. eexists. split; [reflexivity|]. apply (ri_none a s I). apply nth_error_None. lia. }
  pose proof (RI_add a s o ty name xs now I Hs) as R.
  cbn [rdo]. unfold init_base_metric. rewrite (ri_name a s I), create_mopts. cbn [mo_const mo_keys mo_desc mo_unit].
  fold (sorted_consts o xs).
  destruct (a_name a name) as [p0|] eqn:En.
  - destruct (ri_named a s I _ _ En) as (m0 & Em & Hn).
    destruct (nth_error (r_bms s) p0) as [bm0|] eqn:Eb.
    2:{ apply (ri_none a s I) in Eb. destruct Eb. congruence. }
    destruct (ri_bm a s I _ _ Eb) as (m1 & Em1 & B). assert (m1 = m0) by congruence. subst m1.
    rewrite (bi_type _ _ _ _ _ B).
    destruct (bmtype_eqb_spec (am_type m0) ty) as [Et|Et]; cbn [negb].
    + split; [|exact R]. apply OK. intros p m [= <-] Em'. congruence.
    + split; [|exact I]. left. exists p0, m0. auto.
  - split; [|exact R]. apply OK. discriminate.
Qed.

(** *** GetEntry *)

(** The invariant sees the specification state pointwise. *)
Lemma RI_ext a a' s :
  (forall p, a_metric a' p = a_metric a p) -> (forall n, a_name a' n = a_name a n) ->
  (forall p l, a_value a' p l = a_value a p l) -> (forall x, a_owner a' x = a_owner a x) ->
  RI a s -> RI a' s.
Proof.
  intros H1 H2 H3 H4 I. split.
  - intros p bm E. destruct (ri_bm a s I _ _ E) as (m & Em & B). exists m. rewrite H1. split; [exact Em|].
    destruct B as [b1 b2 b3 b4 b5 b6 b7 b8 b9]. split; auto.
    + intros k x Hin. destruct (b8 k x Hin) as (l & e & v & ?). exists l, e, v. rewrite H3, H4. assumption.
    + intros l v. rewrite H3. apply b9.
  - intros p E. rewrite H1. destruct (ri_none a s I p E) as [X Y]. split; [exact X|]. intros l. now rewrite H3.
  - intros x p l. rewrite H4. intros E. destruct (ri_owner a s I _ _ _ E) as (bm & ? & ? & ? & m & ? & ?).
    exists bm. repeat (split; [assumption|]). exists m. rewrite H1. auto.
  - apply I.
  - intros n. rewrite H2. apply I.
  - intros n p. rewrite H2. intros E. destruct (ri_named a s I _ _ E) as (m & ? & ?). exists m. rewrite H1. auto.
Qed.

Lemma key_length m bm vs : bm_const bm = map snd (am_consts m) -> bm_keys bm = map fst (am_consts m) ++ am_keys m ->
  negb (length (bm_const bm ++ vs) =? length (bm_keys bm)) = negb (length vs =? length (am_keys m)).
Proof.
  intros -> ->. rewrite !app_length, !map_length. f_equal.
  destruct (Nat.eqb_spec (length vs) (length (am_keys m))) as [E|E].
  - apply Nat.eqb_eq. lia.
  - apply Nat.eqb_neq. lia.
Qed.

Lemma mget_vals_value a ents p bm m l x : bm_inv a ents p bm m -> okl m l ->
  mget bytes_eqb (bm_vals bm) (enc l) = Some x ->
  exists e v, nth_error ents x = Some e /\ a_value a p l = Some v /\ rep (am_type m) e v /\
    (is_derived (am_type m) = false -> a_owner a x = Some (p, l)).
Proof.
  intros B Hl E. apply (mget_In _ bytes_eqb_spec) in E. destruct (bi_in _ _ _ _ _ B _ _ E) as (l' & e & v & E1 & Hl' & H).
  assert (l' = l) by (eapply okl_enc_inj; [exact Hl'|exact Hl|congruence]). subst l'. exists e, v. exact H.
Qed.

Lemma new_entry_rep t e : new_entry t = Some e -> is_derived t = false /\ rep t e (zero_of t).
Proof. destruct t; intros [= <-]; split; reflexivity. Qed.

Lemma new_entry_derived t : new_entry t = None <-> is_derived t = true.
Proof. destruct t; split; try reflexivity; try discriminate. Qed.

Lemma nth_error_new {A} (l : list A) x : nth_error (l ++ [x]) (length l) = Some x.
Proof. rewrite nth_error_app2, Nat.sub_diag by lia. reflexivity. Qed.

Lemma In_mset_wf {V} (vals : list (bytes * V)) k v k' v' : mwf vals -> In (k', v') (mset bytes_eqb vals k v) ->
  (k' = k /\ v' = v) \/ (k' <> k /\ In (k', v') vals).
Proof.
  intros W H. apply (In_mget _ bytes_eqb_spec) in H; [|apply mwf_mset; [apply bytes_eqb_spec|exact W]].
  rewrite (mget_mset _ bytes_eqb_spec) in H. destruct (bytes_eqb_spec k k') as [->|Hk]; [left; split; congruence|].
  right. split; [congruence|]. now apply (mget_In _ bytes_eqb_spec).
Qed.

(** Storing a new entry for the labels [l] of metric [p]: used by GetEntry and
    UpsertEntry. *)
Lemma RI_store a s p bm m l e v vals0 own :
  RI a s -> nth_error (r_bms s) p = Some bm -> a_metric a p = Some m -> okl m l ->
  rep (am_type m) e v ->
  mwf vals0 -> (forall k, mget bytes_eqb vals0 k = if bytes_eqb (enc l) k then None else mget bytes_eqb (bm_vals bm) k) ->
  (is_derived (am_type m) = false -> a_value a p l = None /\ forall x, own x = fset (a_owner a) (length (r_ents s)) (Some (p, l)) x) ->
  (is_derived (am_type m) = true -> own = a_owner a) ->
  RI (MkA (a_metric a) (a_name a) (vset (a_value a) p l v) own)
     (set_vals s p bm (mset bytes_eqb vals0 (enc l) (length (r_ents s))) (r_ents s ++ [e])).
Proof.
  intros I Eb Em Hl Hrep Hwf0 Hv0 Hown1 Hown2.
  set (X := length (r_ents s)) in *.
  assert (Hfresh : forall p' bm' k, nth_error (r_bms s) p' = Some bm' -> ~ In (k, X) (bm_vals bm')).
  { intros p' bm' k E Hin. destruct (ri_bm a s I _ _ E) as (m' & _ & B').
    destruct (bi_in _ _ _ _ _ B' _ _ Hin) as (l' & e' & v' & _ & _ & N & _).
    assert (X < length (r_ents s)) by (apply nth_error_Some; congruence). unfold X in *. lia. }
  assert (HownX : a_owner a X = None).
  { destruct (a_owner a X) as [[p' l']|] eqn:E; [|reflexivity]. exfalso.
    destruct (ri_owner a s I _ _ _ E) as (bm' & E' & _ & Hm & _). apply (mget_In _ bytes_eqb_spec) in Hm.
    eapply Hfresh; [exact E'|exact Hm]. }
  assert (Hown : forall x, x <> X -> own x = a_owner a x).
  { intros x Hx. destruct (is_derived (am_type m)) eqn:Ed.
    - now rewrite Hown2.
    - destruct (Hown1 eq_refl) as [_ H]. rewrite H. now apply fset_other. }
  assert (Hents : forall x e', nth_error (r_ents s) x = Some e' -> nth_error (r_ents s ++ [e]) x = Some e').
  { intros. now apply nth_error_app_l. }
  destruct (ri_bm a s I _ _ Eb) as (m' & Em' & B). assert (m' = m) by congruence. subst m'.
  unfold set_vals. split; cbn [r_bms r_names r_ents a_metric a_name a_value a_owner].
  - intros p' bm' E. rewrite nth_error_upd in E. destruct (Nat.eqb_spec p p') as [<-|Hp].
    + rewrite Eb in E. cbn in E. injection E as <-. exists m. split; [exact Em|].
      destruct B as [b1 b2 b3 b4 b5 b6 b7 b8 b9]. split; cbn; auto.
      * apply mwf_mset; [apply bytes_eqb_spec|exact Hwf0].
      * intros k x Hin. apply In_mset_wf in Hin; [|exact Hwf0].
        destruct Hin as [[-> ->]|[Hk Hin]].
        -- exists l, e, v. split; [reflexivity|]. split; [exact Hl|]. split; [apply nth_error_new|].
           rewrite vset_same. split; [reflexivity|]. split; [exact Hrep|]. intros Hd.
           destruct (Hown1 Hd) as [_ H]. rewrite H. apply fset_same.
        -- assert (Hin' : In (k, x) (bm_vals bm)).
           { apply (In_mget _ bytes_eqb_spec) in Hin; [|exact Hwf0]. rewrite Hv0 in Hin.
             destruct (bytes_eqb (enc l) k); [discriminate|]. now apply (mget_In _ bytes_eqb_spec). }
           destruct (b8 k x Hin') as (l' & e' & v' & -> & Hl' & He' & Hv' & Hr' & Ho').
           exists l', e', v'. split; [reflexivity|]. split; [exact Hl'|]. split; [now apply Hents|].
           assert (l' <> l) by (intros ->; apply Hk; reflexivity).
           destruct (vset_cases (a_value a) p l v p l') as [(_ & X1 & _)|(_ & ->)]; [congruence|].
           split; [exact Hv'|]. split; [exact Hr'|]. intros Hd. rewrite Hown; [now apply Ho'|].
           intros ->. eapply Hfresh; [exact Eb|exact Hin'].
      * intros l' v' E. destruct (vset_cases (a_value a) p l v p l') as [(_ & -> & _)|(Hne & E')].
        -- split; [exact Hl|]. rewrite (mget_mset _ bytes_eqb_spec), bytes_eqb_refl. eauto.
        -- rewrite E' in E. destruct (b9 l' v' E) as [Hl' [x Hx]]. split; [exact Hl'|].
           rewrite (mget_mset _ bytes_eqb_spec). destruct (bytes_eqb_spec (enc l) (enc l')) as [Y|Y]; [eauto|].
           rewrite Hv0. destruct (bytes_eqb_spec (enc l) (enc l')); [congruence|eauto].
    + destruct (ri_bm a s I _ _ E) as (m' & E1 & B'). exists m'. split; [exact E1|].
      destruct B' as [b1 b2 b3 b4 b5 b6 b7 b8 b9]. split; auto.
      * intros k x Hin. destruct (b8 k x Hin) as (l' & e' & v' & -> & Hl' & He' & Hv' & Hr' & Ho').
        exists l', e', v'. split; [reflexivity|]. split; [exact Hl'|]. split; [now apply Hents|].
        destruct (vset_cases (a_value a) p l v p' l') as [(X1 & _)|(_ & E2)]; [congruence|]. cbn [a_value a_owner]. rewrite E2.
        split; [exact Hv'|]. split; [exact Hr'|]. intros Hd. rewrite Hown; [now apply Ho'|].
        intros ->. eapply Hfresh; [exact E|exact Hin].
      * intros l' v'. cbn [a_value]. destruct (vset_cases (a_value a) p l v p' l') as [(X1 & _)|(_ & ->)]; [congruence|]. apply b9.
  - intros q E. rewrite nth_error_upd in E. destruct (Nat.eqb_spec p q) as [Hp|Hp]; [subst q; rewrite Eb in E; discriminate|].
    destruct (ri_none a s I _ E) as [E1 E2]. split; [exact E1|]. intros l'.
    destruct (vset_cases (a_value a) p l v q l') as [(X1 & _)|(_ & ->)]; [congruence|]. apply E2.
  - intros x p' l' E. destruct (Nat.eq_dec x X) as [->|Hx].
    + destruct (is_derived (am_type m)) eqn:Ed.
      * rewrite Hown2 in E by reflexivity. congruence.
      * destruct (Hown1 eq_refl) as [_ H]. rewrite H, fset_same in E. injection E as <- <-.
        eexists. rewrite nth_error_upd, Nat.eqb_refl, Eb. split; [reflexivity|]. cbn.
        split; [now rewrite (bi_type _ _ _ _ _ B)|]. split; [apply (mget_mset_same _ bytes_eqb_spec)|]. exists m. auto.
    + rewrite (Hown x Hx) in E. destruct (ri_owner a s I _ _ _ E) as (bm' & E1 & Hd & Hm & m' & E2 & Hl').
      destruct (Nat.eq_dec p' p) as [->|Hp].
      * assert (bm' = bm) by congruence. subst bm'. assert (m' = m) by congruence. subst m'.
        eexists. rewrite nth_error_upd, Nat.eqb_refl, Eb. split; [reflexivity|]. cbn. split; [exact Hd|].
        split; [|exists m; auto]. rewrite (mget_mset _ bytes_eqb_spec).
        destruct (bytes_eqb_spec (enc l) (enc l')) as [Y|Y].
        -- exfalso. rewrite (bi_type _ _ _ _ _ B) in Hd. destruct (Hown1 Hd) as [Hn _].
           assert (l' = l) by (eapply okl_enc_inj; [exact Hl'|exact Hl|congruence]). subst l'.
           destruct (mget_vals_value _ _ _ _ _ _ _ B Hl Hm) as (e' & v' & _ & E3 & _). congruence.
        -- rewrite Hv0. destruct (bytes_eqb_spec (enc l) (enc l')); [congruence|exact Hm].
      * exists bm'. rewrite nth_error_upd. destruct (Nat.eqb_spec p p'); [congruence|]. split; [exact E1|].
        split; [exact Hd|]. split; [exact Hm|]. exists m'. auto.
  - apply I.
  - apply I.
  - apply I.
Qed.

Lemma get_spec a s p vs :
  RI a s -> Forall short vs ->
  let '(r, s') := rdo s (RopGet p vs) in
  r_answer a (RopGet p vs) r /\ RI (a_step a (RopGet p vs, r)) s'.
Proof.
  intros I Hs. cbn [rdo r_answer]. destruct (nth_error (r_bms s) p) as [bm|] eqn:Eb.
  2:{ destruct (ri_none a s I p Eb) as [-> _]. split; [reflexivity|]. exact I. }
  destruct (ri_bm a s I _ _ Eb) as (m & Em & B). rewrite Em, (bi_type _ _ _ _ _ B).
  destruct (new_entry (am_type m)) as [e|] eqn:Ee.
  2:{ apply new_entry_derived in Ee. rewrite Ee. split; [reflexivity|exact I]. }
  destruct (new_entry_rep _ _ Ee) as [Hd Hrep]. rewrite Hd.
  unfold entry_for_values. rewrite (key_length m bm vs) by apply B.
  destruct (Nat.eqb_spec (length vs) (length (am_keys m))) as [HL|HL]; cbn [negb].
  2:{ split; [reflexivity|exact I]. }
  assert (Hl : okl m (full_labels m vs)) by (apply full_labels_okl; auto; apply B).
  assert (Henc : encode_label_vals (bm_const bm ++ vs) = enc (full_labels m vs)).
  { rewrite encode_enc, (bi_const _ _ _ _ _ B), map_app. reflexivity. }
  rewrite Henc. set (l := full_labels m vs) in *.
  destruct (mget bytes_eqb (bm_vals bm) (enc l)) as [x|] eqn:Ex.
  - destruct (mget_vals_value _ _ _ _ _ _ _ B Hl Ex) as (e' & v & En & Ev & Hr & Ho). specialize (Ho Hd).
    split.
    + exists x. split; [reflexivity|]. split.
      * intros p' l' E. rewrite Ho in E. injection E as <- <-. auto.
      * intros x' E. destruct (ri_owner a s I _ _ _ E) as (bm' & E1 & _ & Hm & _). congruence.
    + cbn [a_step]. rewrite Em. fold l. rewrite Ev. eapply RI_ext; [..|exact I]; try reflexivity.
      intros y. cbn [a_owner]. destruct (Nat.eq_dec y x) as [->|Hy]; [now rewrite fset_same|now rewrite fset_other].
  - assert (Hnv : a_value a p l = None).
    { destruct (a_value a p l) as [v|] eqn:E; [|reflexivity]. exfalso.
      destruct (bi_val _ _ _ _ _ B _ _ E) as [_ [x Hx]]. congruence. }
    split.
    + eexists. split; [reflexivity|]. split.
      * intros p' l' E. exfalso. destruct (ri_owner a s I _ _ _ E) as (bm' & E1 & _ & Hm & _).
        destruct (ri_bm a s I _ _ E1) as (m' & E2 & B'). apply (mget_In _ bytes_eqb_spec) in Hm.
        destruct (bi_in _ _ _ _ _ B' _ _ Hm) as (l2 & e2 & v2 & _ & _ & N & _).
        assert (length (r_ents s) < length (r_ents s)) by (apply nth_error_Some; congruence). lia.
      * intros x' E. exfalso. destruct (ri_owner a s I _ _ _ E) as (bm' & E1 & _ & Hm & _). congruence.
    + cbn [a_step]. rewrite Em. fold l. rewrite Hnv.
      apply (RI_store a s p bm m l e (zero_of (am_type m)) (bm_vals bm)); auto; [apply B| |congruence].
      intros k. destruct (bytes_eqb_spec (enc l) k) as [<-|]; [exact Ex|reflexivity].
Qed.

(** *** UpsertEntry *)
Lemma new_fn_entry_rep t fn e : new_fn_entry t fn = Some e -> is_derived t = true /\ rep t e (AFn fn).
Proof. destruct t; intros [= <-]; split; reflexivity. Qed.
Lemma new_fn_entry_none t fn : new_fn_entry t fn = None -> is_derived t = false.
Proof. destruct t; intros; reflexivity || discriminate. Qed.

Lemma upsert_spec a s p fn vs :
  RI a s -> Forall short vs ->
  let '(r, s') := rdo s (RopUpsert p fn vs) in
  r_answer a (RopUpsert p fn vs) r /\ RI (a_step a (RopUpsert p fn vs, r)) s'.
Proof.
  intros I Hs. cbn [rdo r_answer]. destruct (nth_error (r_bms s) p) as [bm|] eqn:Eb.
  2:{ destruct (ri_none a s I p Eb) as [-> _]. split; [reflexivity|]. destruct fn; exact I. }
  destruct (ri_bm a s I _ _ Eb) as (m & Em & B). rewrite Em, (bi_type _ _ _ _ _ B).
  destruct fn as [fn|]; [|split; [reflexivity|exact I]].
  destruct (new_fn_entry (am_type m) fn) as [e|] eqn:Ee.
  2:{ apply new_fn_entry_none in Ee. rewrite Ee. split; [reflexivity|exact I]. }
  destruct (new_fn_entry_rep _ _ _ Ee) as [Hd Hrep]. rewrite Hd. cbn [negb].
  unfold upsert_entry. rewrite (key_length m bm vs) by apply B.
  destruct (Nat.eqb_spec (length vs) (length (am_keys m))) as [HL|HL]; cbn [negb].
  2:{ split; [reflexivity|exact I]. }
  split; [reflexivity|].
  assert (Hl : okl m (full_labels m vs)) by (apply full_labels_okl; auto; apply B).
  assert (Henc : encode_label_vals (bm_const bm ++ vs) = enc (full_labels m vs)).
  { rewrite encode_enc, (bi_const _ _ _ _ _ B), map_app. reflexivity. }
  rewrite Henc. cbn [a_step]. rewrite Em.
  apply (RI_store a s p bm m _ e (AFn fn)); auto.
  - apply mwf_mdel; apply B.
  - intros k. apply (mget_mdel _ bytes_eqb_spec).
  - congruence.
Qed.

(** *** Updates *)
Lemma update_rep t e v u : is_derived t = false -> rep t e v -> rep t (apply_update e u) (spec_update t v u).
Proof.
  destruct t, e, v; cbn [rep is_derived]; intros Hd H; try contradiction; try discriminate; subst;
    destruct u; cbn [apply_update spec_update rep]; try reflexivity.
  - match goal with |- context [(?x <=? 0)%Z] => destruct (Z.leb_spec x 0), (Z.ltb_spec 0 x) end; try lia; cbn [rep]; reflexivity.
  - unfold f_le_zero. match goal with |- context [f_ltb ?x f_zero || f_eqb ?x f_zero] => destruct (f_ltb x f_zero || f_eqb x f_zero) end;
      cbn [rep]; reflexivity.
Qed.

Lemma rep_derived t e v : rep t e v -> is_derived t = true -> forall u, apply_update e u = e.
Proof. destruct t, e, v; cbn; intros H Hd u; try contradiction; try discriminate; destruct u; reflexivity. Qed.

Lemma rep_kind t e v t' v' : rep t e v -> rep t' e v' -> is_derived t = is_derived t'.
Proof. destruct t, e, v; cbn; intros H; try contradiction; destruct t', v'; cbn; intros; try contradiction; reflexivity. Qed.

Lemma update_spec a s x u :
  RI a s ->
  let '(r, s') := rdo s (RopUpdate x u) in
  r_answer a (RopUpdate x u) r /\ RI (a_step a (RopUpdate x u, r)) s'.
Proof.
  intros I. cbn [rdo r_answer].
  assert (Hex : forall p l, a_owner a x = Some (p, l) -> exists bm m e v,
    nth_error (r_bms s) p = Some bm /\ a_metric a p = Some m /\ bm_inv a (r_ents s) p bm m /\ okl m l /\ is_derived (am_type m) = false /\
    mget bytes_eqb (bm_vals bm) (enc l) = Some x /\
    nth_error (r_ents s) x = Some e /\ a_value a p l = Some v /\ rep (am_type m) e v).
  { intros p l E. destruct (ri_owner a s I _ _ _ E) as (bm & Eb & Hd & Hm & m & Em & Hl).
    destruct (ri_bm a s I _ _ Eb) as (m' & Em' & B). assert (m' = m) by congruence. subst m'.
    destruct (mget_vals_value _ _ _ _ _ _ _ B Hl Hm) as (e & v & He & Hv & Hr & _).
    rewrite (bi_type _ _ _ _ _ B) in Hd. exists bm, m, e, v. split; [exact Eb|]. split; [exact Em|]. split; [exact B|]. split; [exact Hl|]. split; [exact Hd|]. auto. }
  destruct (nth_error (r_ents s) x) as [e|] eqn:Ee.
  2:{ split; [|exact I]. intros H. destruct (a_owner a x) as [[p l]|] eqn:E; [|congruence].
      destruct (Hex p l eq_refl) as (? & ? & ? & ? & _ & _ & _ & _ & _ & _ & X & _). discriminate X. }
  split; [reflexivity|]. cbn [a_step].
  assert (HU : forall y, y <> x -> nth_error (upd (r_ents s) x (fun e => apply_update e u)) y = nth_error (r_ents s) y).
  { intros y Hy. rewrite nth_error_upd. destruct (Nat.eqb_spec x y); [congruence|reflexivity]. }
  assert (HX : nth_error (upd (r_ents s) x (fun e => apply_update e u)) x = Some (apply_update e u)).
  { rewrite nth_error_upd, Nat.eqb_refl, Ee. reflexivity. }
  destruct (a_owner a x) as [[p l]|] eqn:Eo.
  - destruct (Hex p l eq_refl) as (bm & m & e' & v & Eb & Em & B & Hl & Hd & Hm & Ee' & Ev & Hr).
    assert (e' = e) by congruence. subst e'. clear Hex Ee'. rewrite Em, Ev.
    split; cbn [r_bms r_names r_ents a_metric a_name a_owner].
    + intros p' bm' E. destruct (ri_bm a s I _ _ E) as (m' & Em' & B'). exists m'. split; [exact Em'|].
      destruct B' as [b1 b2 b3 b4 b5 b6 b7 b8 b9]. split; auto.
      * intros k x' Hin. destruct (b8 k x' Hin) as (l' & e' & v' & -> & Hl' & He' & Hv' & Hr' & Ho').
        destruct (Nat.eq_dec x' x) as [->|Hx].
        -- assert (e' = e) by congruence. subst e'.
           assert (Hd' : is_derived (am_type m') = false) by (rewrite <- (rep_kind _ _ _ _ _ Hr Hr'); exact Hd).
           specialize (Ho' Hd'). rewrite Eo in Ho'. injection Ho' as <- <-.
           assert (m' = m) by congruence. subst m'. assert (v' = v) by congruence. subst v'.
           exists l, (apply_update e u), (spec_update (am_type m) v u). cbn [a_value a_owner]. rewrite vset_same.
           split; [reflexivity|]. split; [exact Hl|]. split; [exact HX|]. split; [reflexivity|].
           split; [now apply update_rep|]. intros _. exact Eo.
        -- exists l', e', v'. split; [reflexivity|]. split; [exact Hl'|]. rewrite (HU _ Hx). split; [exact He'|].
           cbn [a_value a_owner].
           destruct (vset_cases (a_value a) p l (spec_update (am_type m) v u) p' l') as [(-> & -> & _)|(_ & E2)].
           ++ exfalso. apply Hx. assert (bm' = bm) by congruence. subst bm'.
              apply (In_mget _ bytes_eqb_spec) in Hin; [congruence|exact b7].
           ++ rewrite E2. auto.
      * intros l' v'. cbn [a_value].
        destruct (vset_cases (a_value a) p l (spec_update (am_type m) v u) p' l') as [(-> & -> & _)|(_ & E2)].
        -- intros _. assert (bm' = bm) by congruence. subst bm'. assert (m' = m) by congruence. subst m'.
           split; [exact Hl|]. eauto.
        -- rewrite E2. apply b9.
    + intros q E. destruct (ri_none a s I _ E) as [E1 E2]. split; [exact E1|]. intros l'. cbn [a_value].
      destruct (vset_cases (a_value a) p l (spec_update (am_type m) v u) q l') as [(-> & _)|(_ & E3)]; [congruence|].
      rewrite E3. apply E2.
    + apply I.
    + apply I.
    + apply I.
    + apply I.
  - split; cbn [r_bms r_names r_ents]; [|apply I|apply I|apply I|apply I|apply I].
    intros p' bm' E. destruct (ri_bm a s I _ _ E) as (m' & Em' & B'). exists m'. split; [exact Em'|].
    destruct B' as [b1 b2 b3 b4 b5 b6 b7 b8 b9]. split; auto.
    intros k x' Hin. destruct (b8 k x' Hin) as (l' & e' & v' & -> & Hl' & He' & Hv' & Hr' & Ho').
    destruct (Nat.eq_dec x' x) as [->|Hx].
    + assert (e' = e) by congruence. subst e'.
      destruct (is_derived (am_type m')) eqn:Hd'; [|specialize (Ho' eq_refl); congruence].
      exists l', e, v'. rewrite HX, (rep_derived _ _ _ Hr' Hd'). auto 12.
    + exists l', e', v'. rewrite (HU _ Hx). auto 12.
Qed.

(** *** Read *)
Lemma rep_read t e v fi ff : rep t e v -> read_entry fi ff e = spec_point t fi ff v.
Proof.
  destruct t, e, v; cbn [rep]; intros H; try contradiction; subst; cbn [read_entry spec_point is_int]; try reflexivity;
    f_equal; match goal with |- context [(?v <? 0)%Z] => destruct (Z.ltb_spec v 0); lia end.
Qed.

Lemma read_vals_spec a s fi ff now p bm m vals :
  bm_inv a (r_ents s) p bm m -> (forall kx, In kx vals -> In kx (bm_vals bm)) ->
  exists ls ts, read_vals fi ff now s bm vals = Some ts /\ map enc ls = map fst vals /\ Forall (okl m) ls /\
    Forall2 (fun l ts =>
        ms_labels ts = map show_label l /\
        ms_start ts = (if is_cumulative (am_type m) then am_start m else now) /\
        exists v, a_value a p l = Some v /\ ms_point ts = (now, spec_point (am_type m) fi ff v)) ls ts.
Proof.
  intros B. induction vals as [|[k x] vals IH]; intros Hin.
  - exists [], []. cbn. auto.
  - destruct (bi_in _ _ _ _ _ B k x (Hin _ (or_introl eq_refl))) as (l & e & v & -> & Hl & He & Hv & Hr & _).
    destruct IH as (ls & ts & E1 & E2 & E3 & E4); [intros; apply Hin; now right|].
    exists (l :: ls). eexists. cbn [read_vals]. rewrite (bi_keys _ _ _ _ _ B), decode_enc, He, E1.
    2:{ rewrite app_length, map_length. symmetry. apply Hl. }
    2:{ apply Hl. }
    split; [reflexivity|]. split; [cbn [map fst]; now rewrite E2|]. split; [constructor; assumption|].
    constructor; [|exact E4]. cbn [ms_labels ms_start ms_point]. split; [reflexivity|]. split.
    + unfold start_of. rewrite (bi_type _ _ _ _ _ B), (bi_start _ _ _ _ _ B).
      destruct (am_type m); reflexivity.
    + exists v. split; [exact Hv|]. f_equal. now apply rep_read.
Qed.

Lemma Forall2_In_l {A B} (R : A -> B -> Prop) l l' x : Forall2 R l l' -> In x l -> exists y, In y l' /\ R x y.
Proof. induction 1; intros []; [subst; eexists; split; [now left|assumption]|]. destruct IHForall2 as (z & ? & ?); [assumption|]. exists z. split; [now right|assumption]. Qed.

Lemma read_metric_spec a s o fi ff now n p m bm :
  bm_inv a (r_ents s) p bm m -> a_name a n = Some p -> a_metric a p = Some m -> am_name m = n ->
  exists mm, read_metric o fi ff now s bm = Some mm /\ reports a fi ff now n mm.
Proof.
  intros B En Em Hn. unfold read_metric.
  assert (P : Permutation (ord o _ (bm_vals bm)) (bm_vals bm)) by apply ord_perm.
  destruct (read_vals_spec a s fi ff now p bm m (ord o _ (bm_vals bm)) B) as (ls & ts & E1 & E2 & E3 & E4).
  { intros kx. now rewrite P. }
  rewrite E1. eexists. split; [reflexivity|]. exists p, m. split; [exact En|]. split; [exact Em|].
  cbn [mm_desc mm_series]. split; [rewrite (bi_desc _ _ _ _ _ B); now rewrite Hn|].
  exists ls. split; [|split; [|exact E4]].
  - apply (NoDup_map_inv enc). rewrite E2. rewrite P. apply (bi_wf _ _ _ _ _ B).
  - intros l. split.
    + intros Hin. apply (Forall2_In_l _ _ _ _ E4) in Hin. destruct Hin as (t & _ & _ & _ & v & E5 & _). congruence.
    + intros Hv. destruct (a_value a p l) as [v|] eqn:Ev; [|congruence].
      destruct (bi_val _ _ _ _ _ B _ _ Ev) as [Hl [x Hx]].
      assert (Hk : In (enc l) (map enc ls)).
      { rewrite E2, P. apply (mget_Some_key _ bytes_eqb_spec) in Hx. exact Hx. }
      apply in_map_iff in Hk. destruct Hk as (l' & El & Hin). rewrite Forall_forall in E3.
      assert (l' = l) by (eapply okl_enc_inj; [apply E3; exact Hin|exact Hl|exact El]). now subst.
Qed.

Lemma read_names_spec a s o fi ff now names :
  RI a s -> (forall np, In np names -> In np (r_names s)) ->
  exists ms, read_names o fi ff now s names = Some ms /\ Forall2 (reports a fi ff now) (map fst names) ms.
Proof.
  intros I. induction names as [|[n p] names IH]; intros Hin.
  - exists []. split; [reflexivity|constructor].
  - assert (En : a_name a n = Some p).
    { rewrite <- (ri_name a s I). apply (In_mget _ bytes_eqb_spec); [apply I|]. apply Hin. now left. }
    destruct (ri_named a s I _ _ En) as (m & Em & Hn).
    destruct (nth_error (r_bms s) p) as [bm|] eqn:Eb.
    2:{ destruct (ri_none a s I _ Eb). congruence. }
    destruct (ri_bm a s I _ _ Eb) as (m' & Em' & B). assert (m' = m) by congruence. subst m'.
    destruct (read_metric_spec a s o fi ff now n p m bm B En Em Hn) as (mm & E1 & E2).
    destruct IH as (ms & E3 & E4); [intros; apply Hin; now right|].
    exists (mm :: ms). cbn [read_names]. rewrite Eb, E1, E3. split; [reflexivity|]. constructor; assumption.
Qed.

Lemma read_spec a s o fi ff now :
  RI a s ->
  let '(r, s') := rdo s (RopRead o fi ff now) in
  r_answer a (RopRead o fi ff now) r /\ RI (a_step a (RopRead o fi ff now, r)) s'.
Proof.
  intros I. cbn [rdo]. unfold registry_read.
  assert (P : Permutation (ord o _ (r_names s)) (r_names s)) by apply ord_perm.
  destruct (read_names_spec a s o fi ff now (ord o _ (r_names s)) I) as (ms & E1 & E2).
  { intros np. now rewrite P. }
  rewrite E1. split; [|exact I]. cbn [r_answer]. exists (map fst (ord o _ (r_names s))), ms.
  split; [reflexivity|]. split; [rewrite P; apply I|]. split; [|exact E2].
  intros n. rewrite P, <- (ri_name a s I). fold (mkeys (r_names s)). split.
  - intros H E. apply (mget_None _ bytes_eqb_spec) in E. contradiction.
  - intros H. destruct (mget bytes_eqb (r_names s) n) eqn:E; [|congruence].
    now apply (mget_Some_key _ bytes_eqb_spec) in E.
Qed.

(** ** Refinement *)
Theorem rdo_spec a s op r s' : RI a s -> rop_ok op -> rdo s op = (r, s') -> r_answer a op r /\ RI (a_step a (op, r)) s'.
Proof.
  intros I Hok E. destruct op as [o ty name xs now|p vs|p fn vs|x u|o fi ff now].
  - pose proof (add_spec a s o ty name xs now I Hok) as H. now rewrite E in H.
  - pose proof (get_spec a s p vs I Hok) as H. now rewrite E in H.
  - pose proof (upsert_spec a s p fn vs I Hok) as H. now rewrite E in H.
  - pose proof (update_spec a s x u I) as H. now rewrite E in H.
  - pose proof (read_spec a s o fi ff now I) as H. now rewrite E in H.
Qed.

Theorem rrun_RI h s : rrun h s -> Forall (fun e => rop_ok (fst e)) h -> RI (spec_of h) s.
Proof.
  induction 1 as [|h s op r s' H IH E]; intros Hok; [apply RI_init|].
  apply Forall_app in Hok. destruct Hok as [H1 H2]. inversion H2; subst.
  unfold spec_of. rewrite fold_left_app. cbn [fold_left]. now apply (rdo_spec (spec_of h) s op r s' (IH H1)).
Qed.

(** Every answer in a history is the one specified by the calls before it. *)
Theorem rrun_answers h s : rrun h s -> Forall (fun e => rop_ok (fst e)) h ->
  forall h1 op r h2, h = h1 ++ (op, r) :: h2 -> r_answer (spec_of h1) op r.
Proof.
  induction 1 as [|h s op r s' H IH E]; intros Hok h1 op' r' h2 Eh; [destruct h1; discriminate|].
  apply Forall_app in Hok. destruct Hok as [H1 H2]. inversion H2; subst.
  destruct h2 as [|y0 h2'] using rev_ind; [|clear IHh2'].
  - apply app_inj_tail in Eh. destruct Eh as [-> [= -> ->]].
    eapply (rdo_spec (spec_of h1) s); [now apply rrun_RI|assumption|exact E].
  - rewrite app_comm_cons, app_assoc in Eh. apply app_inj_tail in Eh. destruct Eh as [-> _].
    eapply IH; [exact H1|reflexivity].
Qed.
