(** C23 with UpsertEntry: what a Read of a metric shows while entries are replaced. *)

From Coq Require Import String.
From Coq Require Import List Arith ZArith Bool Lia Permutation ZifyBool.
From Verif Require Import Base ListLib GoMap GoSort TagEncodingModel AggModel AggProofs MetricModel MetricSpec
  MetricConcModel MetricConcSpec MetricProofs MetricConcProofs MetricConcProps MetricUpsertSpec.
Import ListNotations.
Open Scope nat_scope.

Lemma same_labels_true a b : same_labels a b = true <-> map label a = map label b.
Proof. unfold same_labels. destruct (labels_dec (map label a) (map label b)); split; congruence. Qed.
Lemma same_labels_refl a : same_labels a a = true.
Proof. apply same_labels_true; reflexivity. Qed.
Lemma same_labels_r a b c : map label b = map label c -> same_labels a b = same_labels a c.
Proof. intros E. unfold same_labels. rewrite E. reflexivity. Qed.

Definition put (vs : list lvalue) (o : option nat) (e : mev) : option nat :=
  match e with EvGet _ vs' x | EvUpsert _ vs' x => if same_labels vs' vs then Some x else o | _ => o end.
Lemma current_app vs l e : current vs (l ++ [e]) = put vs (current vs l) e.
Proof. unfold current. rewrite fold_left_app. reflexivity. Qed.
Lemma current_eq vs vs' l : map label vs = map label vs' -> current vs l = current vs' l.
Proof.
  intros E. induction l as [|e l IH] using rev_ind; [reflexivity|]. rewrite !current_app, IH.
  unfold put. destruct e; try reflexivity; rewrite (same_labels_r _ _ _ E); reflexivity.
Qed.
Lemma returned_app vs l l' : returned vs (l ++ l') = returned vs l + returned vs l'.
Proof. unfold returned. rewrite filter_app, app_length. reflexivity. Qed.
Lemma returned_eq vs vs' l : map label vs = map label vs' -> returned vs l = returned vs' l.
Proof.
  intros E. unfold returned. f_equal. apply filter_ext. intros []; try reflexivity; apply same_labels_r, E.
Qed.
Lemma upserts_app vs l l' : upserts vs (l ++ l') = upserts vs l + upserts vs l'.
Proof. unfold upserts. rewrite filter_app, app_length. reflexivity. Qed.
Lemma current_in vs l x : current vs l = Some x -> exists g vs', (In (EvGet g vs' x) l \/ In (EvUpsert g vs' x) l) /\ map label vs' = map label vs.
Proof.
  induction l as [|e l IH] using rev_ind; [discriminate|]. rewrite current_app.
  assert (current vs l = Some x -> exists g vs', (In (EvGet g vs' x) (l ++ [e]) \/ In (EvUpsert g vs' x) (l ++ [e])) /\ map label vs' = map label vs) as K.
  { intros H. destruct (IH H) as (g & vs' & [A|A] & B); exists g, vs'; rewrite !in_app_iff; tauto. }
  destruct e; cbn [put]; auto.
  - destruct (same_labels vs0 vs) eqn:E; [|auto]. intros [= <-]. exists g, vs0. apply same_labels_true in E. rewrite !in_app_iff. cbn. tauto.
  - destruct (same_labels vs0 vs) eqn:E; [|auto]. intros [= <-]. exists g, vs0. apply same_labels_true in E. rewrite !in_app_iff. cbn. tauto.
Qed.

Section Upsert.
  Variables (keys : list lkey) (consts : list lvalue) (spare : nat) (progs : list (list mop)).
  Hypothesis Hshare : no_sharing spare progs.
  Hypothesis Hshort : mshort consts progs.
  Notation mkey vs := (encode_label_vals (consts ++ vs)).
  Notation arity := (arity keys consts).
  Notation kshow := (kshow consts).
  Notation MI0 := (MI0 keys consts spare progs).
  Notation total vs := (upserts vs (concat progs)).

  (** *** The map and the log *)
  Record core (vals : list (bytes * nat)) (log : list mev) (U : list lvalue -> nat) : Prop := {
    c_cnt : forall vs, total vs = U vs + returned vs log;
    c_known : forall g vs x, In (EvGet g vs x) log \/ In (EvUpsert g vs x) log -> arity vs /\ Forall short vs;
    c_cur : forall k x, mget bytes_eqb vals k = Some x ->
      exists vs, k = mkey vs /\ arity vs /\ Forall short vs /\ current vs log = Some x;
    c_keep : forall vs x, current vs log = Some x -> quiet progs vs log -> mget bytes_eqb vals (mkey vs) = Some x;
    c_stay : forall l1 l2 vs x, log = l1 ++ l2 -> quiet progs vs l1 -> current vs l1 = Some x -> current vs log = Some x
  }.

  Inductive kind (vals : list (bytes * nat)) (U : list lvalue -> nat) : list (bytes * nat) -> list mev -> Prop :=
  | K_in : kind vals U vals []
  | K_ev e : (forall vs o, put vs o e = o) -> (forall g vs, e = EvUpsertErr g vs -> ~ arity vs) -> kind vals U vals [e]
  | K_get g vs x : arity vs -> Forall short vs -> mget bytes_eqb vals (mkey vs) = Some x -> kind vals U vals [EvGet g vs x]
  | K_new g vs x : arity vs -> Forall short vs -> mget bytes_eqb vals (mkey vs) = None ->
      kind vals U (mset bytes_eqb vals (mkey vs) x) [EvGet g vs x]
  | K_up g vs x : arity vs -> Forall short vs -> kind vals U (mset bytes_eqb vals (mkey vs) x) [EvUpsert g vs x]
  | K_del vs : arity vs -> Forall short vs -> 0 < U vs -> kind vals U (mdel bytes_eqb vals (mkey vs)) [].

  Lemma arity_eq vs vs' : map label vs = map label vs' -> arity vs -> arity vs'.
  Proof. unfold MetricConcProofs.arity. intros E A. apply (f_equal (@length _)) in E. rewrite !map_length in E. lia. Qed.

  Lemma short_eq vs vs' : map label vs = map label vs' -> Forall short vs -> Forall short vs'.
  Proof.
    revert vs'. induction vs as [|v vs IH]; intros [|v' vs'] E S; try discriminate; [constructor|].
    inversion S; subst. cbn in E. injection E as E1 E2. constructor; [|now apply IH].
    unfold short, label in *. destruct (lv_present v), (lv_present v'); try discriminate; auto.
    injection E1 as <-. auto.
  Qed.

  Lemma core_step vals log U vals' l U' :
    core vals log U -> kind vals U vals' l -> (forall vs, U vs = U' vs + returned vs l) -> core vals' (log ++ l) U'.
  Proof.
    intros C K HU. destruct C as [Ccnt Cknown Ccur Ckeep Cstay].
    assert (Cnt : forall vs, total vs = U' vs + returned vs (log ++ l)).
    { intros vs. rewrite returned_app, Ccnt, HU. lia. }
    assert (Known : forall (g : nat) vs x, current vs log = Some x -> quiet progs vs log -> arity vs /\ Forall short vs).
    { intros g vs x Hc _. destruct (current_in _ _ _ Hc) as (g' & vs' & Hin & E). destruct (Cknown _ _ _ Hin) as [A S].
      split; [eapply arity_eq|eapply short_eq]; eassumption. }
    assert (Q0 : forall vs, quiet progs vs log -> U vs = 0) by (unfold quiet; intros vs Hq; specialize (Ccnt vs); lia).
    assert (Q1 : forall l1 l2 vs, log = l1 ++ l2 -> quiet progs vs l1 -> quiet progs vs log).
    { unfold quiet. intros l1 l2 vs E Hq. specialize (Ccnt vs). rewrite E, returned_app in *. lia. }
    inversion K as [E1 E2|e Hput Herr E1 E2|g vs x A S G E1 E2|g vs x A S G E1 E2|g vs x A S E1 E2|vs A S P E1 E2]; subst; clear K.
    - rewrite app_nil_r in *. split; auto.
    - assert (Cur : forall vs, current vs (log ++ [e]) = current vs log) by (intros vs; rewrite current_app; apply Hput).
      assert (Qt : forall vs x, current vs log = Some x -> quiet progs vs (log ++ [e]) -> quiet progs vs log).
      { unfold quiet. intros vs x Hc Hq. rewrite returned_app in Hq. destruct (current_in _ _ _ Hc) as (g' & vs' & Hin & E).
        destruct (Cknown _ _ _ Hin) as [A _].
        assert (returned vs [e] = 0); [|lia]. unfold returned. cbn [filter]. destruct e; try reflexivity.
        - exfalso. specialize (Hput vs0 None). cbn [put] in Hput. rewrite same_labels_refl in Hput. discriminate.
        - destruct (same_labels vs0 vs) eqn:E0; [|reflexivity]. exfalso. apply same_labels_true in E0. eapply Herr; [reflexivity|].
          eapply arity_eq; [|exact A]. congruence. }
      split; auto.
      + intros g vs x Hin. apply (Cknown g vs x). rewrite !in_app_iff in Hin. cbn in Hin. destruct Hin as [[H|[H|[]]]|[H|[H|[]]]]; try tauto; subst e;
          specialize (Hput vs None); cbn [put] in Hput; rewrite same_labels_refl in Hput; discriminate.
      + intros k x G. destruct (Ccur k x G) as (vs & B1 & B2 & B3 & B4). exists vs. rewrite Cur. auto.
      + intros vs x Hc Hq. rewrite Cur in Hc. apply Ckeep; eauto.
      + intros l1 l2 vs x E Hq Hc. destruct l2 as [|z l2 _] using rev_ind; [rewrite app_nil_r in E; subst l1; exact Hc|].
        rewrite app_assoc in E. apply app_inj_tail in E. destruct E as [E _]. rewrite Cur. eapply Cstay; eassumption.
    - assert (Cl : current vs log = Some x).
      { destruct (Ccur _ _ G) as (vs' & B1 & B2 & B3 & B4). rewrite (current_eq vs vs'); [exact B4|]. eapply mkey_inj; eassumption. }
      assert (Cur : forall vs', current vs' (log ++ [EvGet g vs x]) = current vs' log).
      { intros vs'. rewrite current_app. cbn [put]. destruct (same_labels vs vs') eqn:E; [|reflexivity]. apply same_labels_true in E.
        rewrite <- (current_eq _ _ _ E). symmetry; exact Cl. }
      split; auto.
      + intros g' vs' x' Hin. rewrite !in_app_iff in Hin. cbn in Hin. destruct Hin as [[H|[H|[]]]|[H|[H|[]]]]; eauto; try discriminate H. injection H as <- <- <-. auto.
      + intros k x' G'. destruct (Ccur k x' G') as (vs' & B1 & B2 & B3 & B4). exists vs'. rewrite Cur. auto.
      + intros vs' x' Hc Hq. rewrite Cur in Hc. apply Ckeep; [exact Hc|]. unfold quiet in *. rewrite returned_app in Hq. cbn in Hq. lia.
      + intros l1 l2 vs' x' E Hq Hc. destruct l2 as [|z l2 _] using rev_ind; [rewrite app_nil_r in E; subst l1; exact Hc|].
        rewrite app_assoc in E. apply app_inj_tail in E. destruct E as [E _]. rewrite Cur. eapply Cstay; eassumption.
    - assert (Cur : forall vs', map label vs <> map label vs' -> current vs' (log ++ [EvGet g vs x]) = current vs' log).
      { intros vs' D. rewrite current_app. cbn [put]. destruct (same_labels vs vs') eqn:E; [|reflexivity]. apply same_labels_true in E. contradiction. }
      assert (Cnew : forall vs', map label vs = map label vs' -> current vs' (log ++ [EvGet g vs x]) = Some x).
      { intros vs' E. rewrite current_app. cbn [put]. apply same_labels_true in E. rewrite E. reflexivity. }
      assert (Qt : forall vs', quiet progs vs' (log ++ [EvGet g vs x]) -> quiet progs vs' log).
      { unfold quiet. intros vs' Hq. rewrite returned_app in Hq. cbn in Hq. lia. }
      split; auto.
      + intros g' vs' x' Hin. rewrite !in_app_iff in Hin. cbn in Hin. destruct Hin as [[H|[H|[]]]|[H|[H|[]]]]; eauto; try discriminate H. injection H as <- <- <-. auto.
      + intros k x'. rewrite (mget_mset _ bytes_eqb_spec). destruct (bytes_eqb_spec (mkey vs) k) as [<-|D].
        * intros [= <-]. exists vs. auto.
        * intros G'. destruct (Ccur k x' G') as (vs' & B1 & B2 & B3 & B4). exists vs'. rewrite Cur; auto.
          intros E. apply D. rewrite B1. apply mkey_eq, E.
      + intros vs' x' Hc Hq. rewrite (mget_mset _ bytes_eqb_spec). destruct (labels_dec (map label vs) (map label vs')) as [E|D].
        * rewrite (Cnew _ E) in Hc. rewrite (mkey_eq consts _ _ E). destruct (bytes_eqb_spec (mkey vs') (mkey vs')); congruence.
        * rewrite (Cur _ D) in Hc. apply Qt in Hq. destruct (Known g vs' x' Hc Hq) as [A' S'].
          destruct (bytes_eqb_spec (mkey vs) (mkey vs')) as [E|_]; [|now apply Ckeep]. exfalso. apply D. eapply mkey_inj; eassumption.
      + intros l1 l2 vs' x' E Hq Hc. destruct l2 as [|z l2 _] using rev_ind; [rewrite app_nil_r in E; subst l1; exact Hc|].
        rewrite app_assoc in E. apply app_inj_tail in E. destruct E as [E _].
        pose proof (Cstay _ _ _ _ E Hq Hc) as Hc'. destruct (labels_dec (map label vs) (map label vs')) as [El|D]; [|rewrite (Cur _ D); exact Hc'].
        exfalso. pose proof (Ckeep _ _ Hc' (Q1 _ _ _ E Hq)) as G'. rewrite <- (mkey_eq consts _ _ El) in G'. congruence.
    - assert (Cur : forall vs', map label vs <> map label vs' -> current vs' (log ++ [EvUpsert g vs x]) = current vs' log).
      { intros vs' D. rewrite current_app. cbn [put]. destruct (same_labels vs vs') eqn:E; [|reflexivity]. apply same_labels_true in E. contradiction. }
      assert (Cnew : forall vs', map label vs = map label vs' -> current vs' (log ++ [EvUpsert g vs x]) = Some x).
      { intros vs' E. rewrite current_app. cbn [put]. apply same_labels_true in E. rewrite E. reflexivity. }
      assert (Qt : forall vs', map label vs <> map label vs' -> quiet progs vs' (log ++ [EvUpsert g vs x]) -> quiet progs vs' log).
      { unfold quiet. intros vs' D Hq. rewrite returned_app in Hq. unfold returned at 2 in Hq. cbn [filter] in Hq.
        destruct (same_labels vs vs') eqn:E; [apply same_labels_true in E; contradiction|]. cbn in Hq. lia. }
      assert (Pos : forall vs', map label vs = map label vs' -> 0 < U vs').
      { intros vs' E. rewrite HU. unfold returned. cbn [filter]. apply same_labels_true in E. rewrite E. cbn. lia. }
      split; auto.
      + intros g' vs' x' Hin. rewrite !in_app_iff in Hin. cbn in Hin. destruct Hin as [[H|[H|[]]]|[H|[H|[]]]]; eauto; try discriminate H. injection H as <- <- <-. auto.
      + intros k x'. rewrite (mget_mset _ bytes_eqb_spec). destruct (bytes_eqb_spec (mkey vs) k) as [<-|D].
        * intros [= <-]. exists vs. auto.
        * intros G'. destruct (Ccur k x' G') as (vs' & B1 & B2 & B3 & B4). exists vs'. rewrite Cur; auto.
          intros E. apply D. rewrite B1. apply mkey_eq, E.
      + intros vs' x' Hc Hq. rewrite (mget_mset _ bytes_eqb_spec). destruct (labels_dec (map label vs) (map label vs')) as [E|D].
        * rewrite (Cnew _ E) in Hc. rewrite (mkey_eq consts _ _ E). destruct (bytes_eqb_spec (mkey vs') (mkey vs')); congruence.
        * rewrite (Cur _ D) in Hc. apply (Qt _ D) in Hq. destruct (Known g vs' x' Hc Hq) as [A' S'].
          destruct (bytes_eqb_spec (mkey vs) (mkey vs')) as [E|_]; [|now apply Ckeep]. exfalso. apply D. eapply mkey_inj; eassumption.
      + intros l1 l2 vs' x' E Hq Hc. destruct l2 as [|z l2 _] using rev_ind; [rewrite app_nil_r in E; subst l1; exact Hc|].
        rewrite app_assoc in E. apply app_inj_tail in E. destruct E as [E _].
        pose proof (Cstay _ _ _ _ E Hq Hc) as Hc'. destruct (labels_dec (map label vs) (map label vs')) as [El|D]; [|rewrite (Cur _ D); exact Hc'].
        exfalso. specialize (Pos _ El). rewrite (Q0 vs' (Q1 _ _ _ E Hq)) in Pos. lia.
    - rewrite app_nil_r in *. split; auto.
      + intros k x. rewrite (mget_mdel _ bytes_eqb_spec). destruct (bytes_eqb_spec (mkey vs) k); [discriminate|]. apply Ccur.
      + intros vs' x Hc Hq. rewrite (mget_mdel _ bytes_eqb_spec). destruct (bytes_eqb_spec (mkey vs) (mkey vs')) as [E|_]; [|now apply Ckeep].
        exfalso. destruct (Known 0 vs' x Hc Hq) as [A' S']. assert (El : map label vs = map label vs') by (eapply mkey_inj; eassumption).
        specialize (Ccnt vs). specialize (Ccnt). unfold quiet in Hq. rewrite <- (returned_eq _ _ _ El) in Hq.
        assert (total vs' = total vs); [|lia]. unfold upserts. f_equal. apply filter_ext. intros []; try reflexivity. apply same_labels_r. symmetry; exact El.
  Qed.

  (** *** Reads *)
  Definition rng (g : nat) (must seen : list bytes) (acc : list (list lvalue * nat)) (log : list mev) : Prop :=
    exists l1 l2, log = l1 ++ EvReadStart g :: l2 /\ ~ In (EvReadStart g) l2 /\
      (forall vs x, current vs l1 = Some x -> quiet progs vs l1 -> In (mkey vs) must) /\
      NoDup seen /\
      Forall2 (fun k le => exists vs l2a l2b, k = mkey vs /\ arity vs /\ Forall short vs /\ fst le = kshow vs /\
                             l2 = l2a ++ l2b /\ current vs (l1 ++ l2a) = Some (snd le)) seen acc.

  Definition read_ok (l1 l2 : list mev) (r : list (list lvalue * nat)) : Prop :=
    NoDup (map fst r) /\
    (forall vs x, current vs l1 = Some x -> quiet progs vs l1 -> In (kshow vs, x) r) /\
    (forall lvs x, In (lvs, x) r -> exists vs l2a l2b, l2 = l2a ++ l2b /\ lvs = kshow vs /\ current vs (l1 ++ l2a) = Some x).

  Definition stays (log : list mev) : Prop :=
    forall l1 l2 l3 vs x, log = l1 ++ l2 ++ l3 -> quiet progs vs l1 -> current vs l1 = Some x -> current vs (l1 ++ l2) = Some x.

  Definition todo (gs : list mg) (vs : list lvalue) : nat := upserts vs (concat (map mg_todo gs)).

  Record MU (s : mst) : Prop := {
    mu_0 : MI0 s;
    mu_core : core (mm_vals s) (mm_log s) (todo (mm_gs s));
    mu_stay : stays (mm_log s);
    mu_range : forall g x must seen acc, nth_error (mm_gs s) g = Some x -> mg_pc x = PRange must seen acc -> rng g must seen acc (mm_log s);
    mu_reads : forall g l1 l2 r l3, mm_log s = l1 ++ EvReadStart g :: l2 ++ EvReadEnd g r :: l3 -> ~ In (EvReadStart g) l2 -> read_ok l1 l2 r
  }.

  Lemma current_start vs l1 g l2 : current vs (l1 ++ EvReadStart g :: l2) = current vs (l1 ++ l2).
  Proof. unfold current. rewrite !fold_left_app. reflexivity. Qed.

  Lemma kshow_inj vs vs' : kshow vs = kshow vs' -> map label vs = map label vs'.
  Proof.
    unfold MetricConcProofs.kshow. intros E. apply (app_inv_head (map label consts)). rewrite <- !map_app. revert E.
    generalize (map label (consts ++ vs)), (map label (consts ++ vs')).
    induction l as [|a l IH]; intros [|b l'] E; try discriminate; [reflexivity|]. cbn in E. injection E as E1 E2. f_equal; [|now apply IH].
    destruct a, b; cbn in E1; congruence.
  Qed.

  Lemma rng_read g must seen r log l1 l2 :
    stays log -> (forall g vs x, In (EvGet g vs x) log \/ In (EvUpsert g vs x) log -> arity vs /\ Forall short vs) ->
    rng g must seen r log -> (forall k, In k must -> In k seen) ->
    log = l1 ++ EvReadStart g :: l2 -> ~ In (EvReadStart g) l2 -> read_ok l1 l2 r.
  Proof.
    intros St Kn (l1' & l2' & H1 & H2 & H3 & H4 & H5) Hall E Hn.
    assert (Eq : l1 ++ EvReadStart g :: l2 = l1' ++ EvReadStart g :: l2') by congruence.
    apply split_last in Eq; [|exact Hn|exact H2]. destruct Eq as [<- <-]. clear H2. split; [|split].
    - clear - H4 H5. induction H5 as [|k le ks les HH F IH]; [constructor|]. inversion H4 as [|? ? Hni Hnd]; subst. cbn [map].
      constructor; [|now apply IH]. intros Hin. apply Hni. apply in_map_iff in Hin. destruct Hin as (le' & E & Hin).
      destruct HH as (vs & _ & _ & -> & _ & _ & E1 & _).
      assert (X : exists vs', In (mkey vs') ks /\ fst le' = kshow vs').
      { clear - F Hin. induction F as [|k le ks les HH F IH]; [destruct Hin|]. destruct Hin as [<-|Hin].
        - destruct HH as (vs & _ & _ & -> & _ & _ & E & _). exists vs. split; [now left|exact E].
        - destruct (IH Hin) as (vs' & A & B). exists vs'. split; [now right|exact B]. }
      destruct X as (vs' & Hk & E'). rewrite E1, E' in E. apply kshow_inj in E. rewrite <- (mkey_eq consts _ _ E). exact Hk.
    - intros vs x Hc Hq. pose proof (Hall _ (H3 vs x Hc Hq)) as Hs.
      destruct (current_in _ _ _ Hc) as (g' & vs0 & Hin & E0).
      assert (In (EvGet g' vs0 x) log \/ In (EvUpsert g' vs0 x) log) as Hin' by (rewrite H1, !in_app_iff; tauto).
      destruct (Kn _ _ _ Hin') as [A0 S0]. pose proof (arity_eq _ _ E0 A0) as A. pose proof (short_eq _ _ E0 S0) as S.
      assert (forall l2a l2b, l2 = l2a ++ l2b -> current vs (l1 ++ l2a) = Some x) as Hst.
      { intros l2a l2b ->. rewrite <- (current_start _ _ g). apply (St l1 (EvReadStart g :: l2a) l2b); [|exact Hq|exact Hc]. exact H1. }
      clear - H5 Hs A S Hst Hshort. induction H5 as [|k le ks les HH F IH]; [destruct Hs|]. destruct Hs as [->|Hs].
      + left. destruct HH as (vs' & l2a & l2b & Ek & A' & S' & E & El & Ec).
        assert (Ev : map label vs = map label vs') by (eapply mkey_inj; eassumption).
        rewrite <- (current_eq _ _ _ Ev), (Hst _ _ El) in Ec. destruct le as [lvs y]; cbn in *. injection Ec as <-. f_equal.
        rewrite E. unfold MetricConcProofs.kshow. rewrite !(map_app label), Ev. reflexivity.
      + right. now apply IH.
    - intros lvs x Hin. clear - H5 Hin. induction H5 as [|k le ks les HH F IH]; [destruct Hin|]. destruct Hin as [->|Hin]; [|now apply IH].
      destruct HH as (vs & l2a & l2b & _ & _ & _ & E & El & Ec). exists vs, l2a, l2b. auto.
  Qed.

  Lemma MU_step s gs' spare' vals' next' l :
    MU s -> MI0 (MkMS gs' spare' vals' next' (mm_log s ++ l)) ->
    kind (mm_vals s) (todo (mm_gs s)) vals' l -> (forall vs, todo (mm_gs s) vs = todo gs' vs + returned vs l) ->
    (forall g' x' must seen acc, nth_error gs' g' = Some x' -> mg_pc x' = PRange must seen acc -> rng g' must seen acc (mm_log s ++ l)) ->
    (forall g' r, l = [EvReadEnd g' r] -> exists must seen, rng g' must seen r (mm_log s) /\ forall k, In k must -> In k seen) ->
    MU (MkMS gs' spare' vals' next' (mm_log s ++ l)).
  Proof.
    intros M M0' Hk HU Hr He. pose proof (core_step _ _ _ _ _ _ (mu_core s M) Hk HU) as C'.
    assert (Hl : l = [] \/ exists e, l = [e]) by (inversion Hk; eauto).
    split; cbn [mm_gs mm_vals mm_log].
    - exact M0'.
    - exact C'.
    - destruct Hl as [->|[e ->]]; [rewrite app_nil_r; apply M|]. intros l1 l2 l3 vs x E Hq Hc.
      destruct l3 as [|z l3 _] using rev_ind.
      + rewrite app_nil_r in E. rewrite <- E. eapply (c_stay _ _ _ C'); eassumption.
      + rewrite !app_assoc in E. apply app_inj_tail in E. destruct E as [E _]. rewrite <- app_assoc in E. eapply (mu_stay s M); eassumption.
    - exact Hr.
    - intros g l1 l2 r l3 E Hn. destruct Hl as [->|[e ->]]; [rewrite app_nil_r in E; eapply (mu_reads s M); eassumption|].
      destruct l3 as [|z l3 _] using rev_ind.
      + rewrite app_comm_cons, app_assoc in E. apply app_inj_tail in E. destruct E as [E ->].
        destruct (He g r eq_refl) as (must & seen & R & Hall).
        eapply rng_read; [apply (mu_stay s M)|apply (c_known _ _ _ (mu_core s M))|exact R|exact Hall|exact E|exact Hn].
      + replace (l1 ++ EvReadStart g :: l2 ++ EvReadEnd g r :: l3 ++ [z])
          with ((l1 ++ EvReadStart g :: l2 ++ EvReadEnd g r :: l3) ++ [z]) in E
          by (rewrite <- !app_assoc; cbn; rewrite <- !app_assoc; reflexivity).
        apply app_inj_tail in E. destruct E as [E _]. eapply (mu_reads s M); eassumption.
  Qed.

  Lemma rng_more g must seen acc log l : rng g must seen acc log -> ~ In (EvReadStart g) l -> rng g must seen acc (log ++ l).
  Proof.
    intros (l1 & l2 & H1 & H2 & H3 & H4 & H5) N. exists l1, (l2 ++ l). rewrite H1, <- app_assoc. split; [reflexivity|]. split; [|split; [exact H3|split; [exact H4|]]].
    - rewrite in_app_iff. tauto.
    - clear - H5. induction H5 as [|k le ks les HH F IH]; constructor; [|exact IH].
      destruct HH as (vs & l2a & l2b & A & B & C & D & -> & E). exists vs, l2a, (l2b ++ l). rewrite <- app_assoc. auto 10.
  Qed.

  Lemma todo_upd gs g x y vs : nth_error gs g = Some x -> todo (upd gs g (fun _ => y)) vs + upserts vs (mg_todo x) = todo gs vs + upserts vs (mg_todo y).
  Proof.
    unfold todo. revert g. induction gs as [|a gs IH]; intros [|g] E; try discriminate; cbn [upd map concat nth_error] in *; rewrite !upserts_app.
    - injection E as ->. lia.
    - specialize (IH g E). lia.
  Qed.

  (** A step of one goroutine. *)
  Lemma MU_one s g x y vals next l :
    MU s -> nth_error (mm_gs s) g = Some x ->
    MI0 (MkMS (upd (mm_gs s) g (fun _ => y)) (mm_spare s) vals next (mm_log s ++ l)) ->
    kind (mm_vals s) (todo (mm_gs s)) vals l ->
    (forall vs, upserts vs (mg_todo x) = upserts vs (mg_todo y) + returned vs l) ->
    (forall must seen acc, mg_pc y = PRange must seen acc -> rng g must seen acc (mm_log s ++ l)) ->
    (forall g', In (EvReadStart g') l -> g' = g) ->
    (forall g' r, l = [EvReadEnd g' r] -> g' = g /\ exists must seen, mg_pc x = PRange must seen r /\ forall k, In k must -> In k seen) ->
    MU (MkMS (upd (mm_gs s) g (fun _ => y)) (mm_spare s) vals next (mm_log s ++ l)).
  Proof.
    intros M Eg M0' Hk HU Hy Hst He. apply MU_step; auto.
    - intros vs. pose proof (todo_upd _ _ _ y vs Eg). specialize (HU vs). lia.
    - intros g' x' must seen acc E1 E2. rewrite nth_error_upd in E1. destruct (Nat.eqb_spec g g') as [<-|D].
      + rewrite Eg in E1. injection E1 as <-. auto.
      + apply rng_more; [eapply (mu_range s M); eassumption|]. intros Hin. apply Hst in Hin. congruence.
    - intros g' r E. destruct (He g' r E) as (-> & must & seen & E1 & E2). exists must, seen. split; [|exact E2]. eapply (mu_range s M); eassumption.
  Qed.

  Lemma mdo_MU s ch s' : MU s -> mdo keys consts s ch = Some s' -> MU s'.
  Proof.
    intros M E. pose proof (mu_0 s M) as M0. pose proof (mdo_MI0 keys consts spare progs Hshare Hshort s ch s' M0 E) as M0'.
    destruct ch as [g|g k]; cbn [mdo] in E.
    - destruct (nth_error (mm_gs s) g) as [x|] eqn:Eg; [|discriminate E].
      destruct (mg_todo x) as [|op rest] eqn:Et; [discriminate E|].
      pose proof (m0_pc _ _ _ _ s M0 g x op rest Eg Et) as Hpc. pose proof (op_short keys consts spare progs Hshort s g x op rest M0 Eg Et) as Hs.
      pose proof (op_fits keys consts spare progs Hshare s g x op rest M0 Eg Et) as Hf.
      assert (Inner : forall y, mg_todo y = op :: rest -> (forall must seen acc, mg_pc y <> PRange must seen acc) -> s' = mset_g s g y -> MU s').
      { intros y Hy1 Hy ->. unfold mset_g in *. rewrite (log_nil s) in M0' |- *.
        apply (MU_one s g x); auto.
        - constructor.
        - intros vs. rewrite Et, Hy1. cbn. lia.
        - intros must seen acc X. now apply Hy in X.
        - intros g' [].
        - discriminate. }
      destruct (mg_pc x) as [|i|got|k|k|k|k|must seen acc] eqn:Epc; cbn [pc_ok] in Hpc.
      + destruct op as [vs|vs|].
        * injection E as E. symmetry in E. eapply Inner; [| |exact E]; [reflexivity|discriminate].
        * injection E as E. symmetry in E. eapply Inner; [| |exact E]; [reflexivity|discriminate].
        * injection E as <-. unfold mlog, mset_g in *. cbn [mm_gs mm_spare mm_vals mm_next mm_log] in *.
          apply (MU_one s g x); auto.
          -- constructor; [reflexivity|discriminate].
          -- intros vs. rewrite Et. cbn. lia.
          -- intros must seen acc [= <- <- <-]. exists (mm_log s), []. split; [reflexivity|]. split; [intros []|].
             split; [|split; [constructor|constructor]]. intros vs e Hc Hq. pose proof (c_keep _ _ _ (mu_core s M) _ _ Hc Hq) as G.
             now apply (mget_Some_key _ bytes_eqb_spec) in G.
          -- intros g' [X|[]]. congruence.
          -- discriminate.
      + destruct Hpc as (Hop & Hi & Hl & Hb). destruct (Nat.ltb_spec i (length (vs_of op))) as [Hlt|Hge].
        * destruct (fits s (vs_of op)) eqn:F; [rewrite (Hf eq_refl) in Hlt; cbn in Hlt; lia|].
          injection E as E. symmetry in E. eapply Inner; [| |exact E]; [reflexivity|discriminate].
        * destruct (negb _) eqn:En; injection E as E; symmetry in E.
          -- subst s'. unfold mlog, mset_g in *. cbn [mm_gs mm_spare mm_vals mm_next mm_log] in *.
             apply (MU_one s g x); auto.
             ++ constructor; [intros; destruct op; reflexivity|]. intros g' vs X. destruct op; [discriminate X| |congruence].
                injection X as <- <-. cbn [vs_of] in En. unfold MetricConcProofs.arity. intros A. rewrite A, Nat.eqb_refl in En. discriminate.
             ++ intros vs. rewrite Et. unfold upserts, returned. destruct op as [w|w|]; [cbn; lia| |congruence].
                cbn [mg_todo vs_of filter]. destruct (same_labels w vs); cbn [length]; lia.
             ++ cbn. discriminate.
             ++ intros g' [X|[]]. destruct op; discriminate.
             ++ intros g' r X. destruct op; discriminate.
          -- eapply Inner; [| |exact E]; [reflexivity|discriminate].
      + destruct (Nat.ltb_spec (length got) (length (vs_of op))) as [Hlt|Hge].
        * injection E as E. symmetry in E. eapply Inner; [| |exact E]; [reflexivity|discriminate].
        * injection E as E. symmetry in E. eapply Inner; [| |exact E]; [reflexivity|destruct op; discriminate].
      + destruct Hpc as ((vs & ->) & Ha & ->). destruct (mget bytes_eqb (mm_vals s) _) as [e|] eqn:Ek; injection E as E; symmetry in E.
        * subst s'. unfold mlog, mset_g in *. cbn [mm_gs mm_spare mm_vals mm_next mm_log vs_of] in *. apply (MU_one s g x); auto.
          -- now constructor.
          -- intros vs'. rewrite Et. cbn. lia.
          -- cbn. discriminate.
          -- intros g' [X|[]]; discriminate.
          -- discriminate.
        * eapply Inner; [| |exact E]; [reflexivity|discriminate].
      + destruct Hpc as ((vs & ->) & Ha & ->). destruct (mget bytes_eqb (mm_vals s) _) as [e|] eqn:Ek; injection E as E; symmetry in E.
        * subst s'. unfold mlog, mset_g in *. cbn [mm_gs mm_spare mm_vals mm_next mm_log vs_of] in *. apply (MU_one s g x); auto.
          -- now constructor.
          -- intros vs'. rewrite Et. cbn. lia.
          -- cbn. discriminate.
          -- intros g' [X|[]]; discriminate.
          -- discriminate.
        * subst s'. cbn [vs_of] in *. apply (MU_one s g x); auto.
          -- now constructor.
          -- intros vs'. rewrite Et. cbn. lia.
          -- cbn. discriminate.
          -- intros g' [X|[]]; discriminate.
          -- discriminate.
      + destruct Hpc as ((vs & ->) & Ha & ->). injection E as <-. cbn [vs_of] in *. rewrite (log_nil s) in M0' |- *.
        set (y := MkMG (MUpsert vs :: rest) (PStore (mkey vs)) []) in *.
        assert (Pos : 0 < todo (mm_gs s) vs).
        { pose proof (todo_upd _ _ _ (MkMG rest PIdle []) vs Eg) as H. rewrite Et in H. cbn [mg_todo] in H.
          assert (upserts vs (MUpsert vs :: rest) = S (upserts vs rest)) by (unfold upserts; cbn [filter]; rewrite same_labels_refl; reflexivity). lia. }
        apply MU_step; auto.
        * now constructor.
        * intros vs'. pose proof (todo_upd _ _ _ y vs' Eg) as H. rewrite Et in H. cbn [y mg_todo] in H.
          assert (todo (map (fun z => MkMG (mg_todo z) (forget (mkey vs) (mg_pc z)) (mg_buf z)) (upd (mm_gs s) g (fun _ => y))) vs'
                  = todo (upd (mm_gs s) g (fun _ => y)) vs') as ->.
          { unfold todo. rewrite map_map. reflexivity. }
          cbn. lia.
        * intros g' x' must seen acc E1 E2. rewrite nth_error_map in E1. destruct (nth_error (upd _ _ _) g') as [z|] eqn:Ez; [|discriminate E1].
          injection E1 as <-. cbn [mg_pc] in E2. rewrite nth_error_upd in Ez. destruct (Nat.eqb_spec g g') as [<-|D].
          -- rewrite Eg in Ez. injection Ez as <-. discriminate E2.
          -- destruct (mg_pc z) eqn:Epz; try discriminate E2. cbn [forget] in E2. injection E2 as <- <- <-. rewrite app_nil_r.
             destruct (mu_range s M g' z _ _ _ Ez Epz) as (l1 & l2 & H1 & H2 & H3 & H4 & H5).
             exists l1, l2. split; [exact H1|]. split; [exact H2|]. split; [|auto].
             intros vs' e Hc Hq. apply filter_In. split; [eapply H3; eassumption|].
             destruct (bytes_eqb_spec (mkey vs') (mkey vs)) as [Ek|_]; [|reflexivity]. exfalso.
             destruct (current_in _ _ _ Hc) as (g0 & vs0 & Hin & E0).
             assert (In (EvGet g0 vs0 e) (mm_log s) \/ In (EvUpsert g0 vs0 e) (mm_log s)) as Hin' by (rewrite H1, !in_app_iff; tauto).
             destruct (c_known _ _ _ (mu_core s M) _ _ _ Hin') as [A0 S0].
             assert (El : map label vs' = map label vs).
             { pose proof (arity_eq _ _ E0 A0) as A'. pose proof (short_eq _ _ E0 S0) as S'. exact (mkey_inj keys consts progs Hshort _ _ A' Ha S' Hs Ek). }
             pose proof (c_cnt _ _ _ (mu_core s M) vs') as Hcnt. unfold quiet in Hq. rewrite H1, returned_app in Hcnt.
             assert (todo (mm_gs s) vs' = todo (mm_gs s) vs); [|lia].
             unfold todo, upserts. f_equal. apply filter_ext. intros []; try reflexivity. apply same_labels_r, El.
        * discriminate.
      + destruct Hpc as ((vs & ->) & Ha & ->). injection E as <-. cbn [vs_of] in *. apply (MU_one s g x); auto.
        * now constructor.
        * intros vs'. rewrite Et. unfold upserts, returned. cbn [mg_todo filter]. destruct (same_labels vs vs'); cbn [length]; lia.
        * cbn. discriminate.
        * intros g' [X|[]]; discriminate.
        * discriminate.
      + subst op. destruct (forallb _ must) eqn:Eall; [|discriminate E]. injection E as <-.
        unfold mlog, mset_g in *. cbn [mm_gs mm_spare mm_vals mm_next mm_log] in *. apply (MU_one s g x); auto.
        * constructor; [reflexivity|discriminate].
        * intros vs'. rewrite Et. cbn. lia.
        * cbn. discriminate.
        * intros g' [X|[]]; discriminate.
        * intros g' r [= <- <-]. split; [reflexivity|]. exists must, seen. split; [exact Epc|].
          rewrite forallb_forall in Eall. intros k Hk. specialize (Eall k Hk). apply existsb_exists in Eall.
          destruct Eall as (k' & Hk' & Eq). apply (reflect_iff _ _ (bytes_eqb_spec k k')) in Eq. now subst.
    - destruct (nth_error (mm_gs s) g) as [[td [|i|got|k0|k0|k0|k0|must seen acc] buf]|] eqn:Eg; try discriminate E.
      destruct (existsb (bytes_eqb k) seen) eqn:Es; [discriminate E|]. destruct (mget bytes_eqb (mm_vals s) k) as [e|] eqn:Ek; [|discriminate E].
      destruct (c_cur _ _ _ (mu_core s M) _ _ Ek) as (vs & -> & A & S & Hc). rewrite (mkey_decode keys consts progs Hshort vs A S) in E.
      injection E as <-. unfold mset_g in *. rewrite (log_nil s) in M0' |- *.
      apply (MU_one s g _ _ _ _ _ M Eg M0'); auto.
      + constructor.
      + intros must' seen' acc' [= <- <- <-]. destruct (mu_range s M g _ must seen acc Eg eq_refl) as (l1 & l2 & H1 & H2 & H3 & H4 & H5).
        exists l1, l2. rewrite app_nil_r. split; [exact H1|]. split; [exact H2|]. split; [exact H3|]. split.
        * apply NoDup_snoc; [exact H4|]. intros Hin. assert (existsb (bytes_eqb (mkey vs)) seen = true); [|congruence].
          apply existsb_exists. exists (mkey vs). split; [exact Hin|apply bytes_eqb_refl].
        * apply Forall2_app; [exact H5|]. constructor; [|constructor]. exists vs, l2, []. rewrite app_nil_r.
          rewrite H1, current_start in Hc. auto 10.
      + intros g' [].
      + discriminate.
  Qed.

  Lemma minit_MU : MU (minit spare progs).
  Proof.
    split; cbn.
    - apply minit_MI0.
    - split; cbn; try discriminate.
      + intros vs. unfold todo. rewrite map_map. cbn. rewrite map_id. lia.
      + intros g vs x [[]|[]].
      + intros l1 l2 vs x E _ Hc. destruct l1; [discriminate Hc|discriminate E].
    - intros l1 l2 l3 vs x E _ Hc. destruct l1; [discriminate Hc|discriminate E].
    - intros g x must seen acc E1 E2. rewrite nth_error_map in E1. destruct (nth_error progs g); [|discriminate]. injection E1 as <-. discriminate.
    - intros g l1 l2 r l3 E. destruct l1; discriminate.
  Qed.

  Lemma mreach_MU s : mreach keys consts spare progs s -> MU s.
  Proof. induction 1; [apply minit_MU|]. eapply mdo_MU; eassumption. Qed.
End Upsert.

(** ** C23 *)

(** Also while UpsertEntry replaces entries: a Read reports no label values twice; it reports what an entry was at some moment
    during the Read; and it reports the entry with label values [vs] if there was one when it started and all calls of
    UpsertEntry with these had returned. *)
Theorem C23_read_upserts keys consts spare progs s g l1 l2 r l3 :
  no_sharing spare progs -> mshort consts progs -> mreach keys consts spare progs s ->
  mm_log s = l1 ++ EvReadStart g :: l2 ++ EvReadEnd g r :: l3 -> ~ In (EvReadStart g) l2 ->
  NoDup (map fst r) /\
  (forall vs x, current vs l1 = Some x -> quiet progs vs l1 -> In (shown consts vs, x) r) /\
  (forall lvs x, In (lvs, x) r ->
     exists vs l2a l2b, l2 = l2a ++ l2b /\ lvs = shown consts vs /\ current vs (l1 ++ l2a) = Some x).
Proof.
  intros A B R H1 H2. pose proof (mreach_MU keys consts spare progs A B s R) as M.
  exact (mu_reads _ _ _ _ _ M g l1 l2 r l3 H1 H2).
Qed.

(** One goroutine upserts, another reads: the first Read reports the entry that is replaced while it runs. *)
Definition ex_uprogs : list (list mop) := [[MUpsert [lvs "a"]; MUpsert [lvs "b"]; MUpsert [lvs "a"]]; [MRead; MRead]].
Definition ex_ukey (s : String.string) : bytes := encode_label_vals [lvs s].
Definition ex_usched : list mchoice :=
  repeat (MDo 0) 14 ++ [MDo 1; MVisit 1 (ex_ukey "a")] ++ repeat (MDo 0) 7 ++ [MVisit 1 (ex_ukey "b"); MDo 1] ++
  [MDo 1; MVisit 1 (ex_ukey "b"); MVisit 1 (ex_ukey "a"); MDo 1].

Example C23_demo_upserts :
  exists s, mreach [key1 "k"] [] 0 ex_uprogs s /\
    mm_log s = [EvUpsert 0 [lvs "a"] 0; EvUpsert 0 [lvs "b"] 1; EvReadStart 1; EvUpsert 0 [lvs "a"] 2; EvReadEnd 1 [([lvs "a"], 0); ([lvs "b"], 1)];
                EvReadStart 1; EvReadEnd 1 [([lvs "b"], 1); ([lvs "a"], 2)]] /\
    no_sharing 0 ex_uprogs /\ mshort [] ex_uprogs /\
    quiet ex_uprogs [lvs "b"] [EvUpsert 0 [lvs "a"] 0; EvUpsert 0 [lvs "b"] 1] /\
    ~ quiet ex_uprogs [lvs "a"] [EvUpsert 0 [lvs "a"] 0; EvUpsert 0 [lvs "b"] 1].
Proof.
  destruct (mrun [key1 "k"] [] (minit 0 ex_uprogs) ex_usched) as [s|] eqn:E; [|vm_compute in E; discriminate E].
  exists s. split; [eapply mrun_reach; [apply mreach_init|exact E]|]. vm_compute in E. injection E as <-. split; [reflexivity|].
  split; [repeat constructor; right; cbn; lia|]. split; [split; repeat constructor; intros _; cbn; lia|]. split; [vm_compute; reflexivity|].
  vm_compute. discriminate.
Qed.

Print Assumptions C23_read_upserts.
