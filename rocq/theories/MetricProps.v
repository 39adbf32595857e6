(** Gauges and cumulatives: C19, C20, C24, C25.  A history lists the calls made on
    one registry with what they returned. *)

From Coq Require Import String.
From Coq Require Import List Arith NArith ZArith Bool Permutation Sorted Lia ZifyBool ZifyNat ZifyN.
From Verif Require Import Base ListLib GoMap GoSort Float64 TagEncodingModel TagEncodingProofs AggModel AggProofs
     MetricModel MetricSpec MetricProofs.
Import ListNotations.
Open Scope nat_scope.

Notation call := (rop * rresp)%type.
Definition ok_history (h : list call) : Prop := Forall (fun e => rop_ok (fst e)) h.

(** The declaration of a metric, as the program wrote it. *)
Definition declared (h : list call) (p : nat) (o : order) (ty : bmtype) (name : bytes) (xs : list mopt) (t : time) : Prop :=
  In (RopAdd o ty name xs t, RHandle p) h.

(** *** What the specification state remembers *)

Lemma spec_of_snoc h e : spec_of (h ++ [e]) = a_step (spec_of h) e.
Proof. unfold spec_of. now rewrite fold_left_app. Qed.

Lemma rrun_snoc_inv h op r s' : rrun (h ++ [(op, r)]) s' -> exists s, rrun h s /\ rdo s op = (r, s').
Proof.
  intros H. remember (h ++ [(op, r)]) as hh eqn:Eh. destruct H as [|h0 s0 op0 r0 s0' H0 E0]; [destruct h; discriminate|].
  apply app_inj_tail in Eh. destruct Eh as [-> [= -> ->]]. eauto.
Qed.

Lemma rrun_app h1 h2 s : rrun (h1 ++ h2) s -> exists s1, rrun h1 s1.
Proof.
  revert s. induction h2 as [|[op r] h2 IH] using rev_ind; intros s H.
  - rewrite app_nil_r in H. eauto.
  - rewrite app_assoc in H. apply rrun_snoc_inv in H. destruct H as (s0 & H & _). eauto.
Qed.

Lemma ok_app h1 h2 : ok_history (h1 ++ h2) -> ok_history h1 /\ ok_history h2.
Proof. unfold ok_history. apply Forall_app. Qed.

(** Induction over histories with the answer of each call. *)
Lemma history_ind (P : list call -> ast -> Prop) :
  P [] a_init ->
  (forall h s a op r, rrun h s -> ok_history h -> RI a s -> a = spec_of h -> P h a -> rop_ok op -> r_answer a op r ->
     P (h ++ [(op, r)]) (a_step a (op, r))) ->
  forall h s, rrun h s -> ok_history h -> P h (spec_of h).
Proof.
  intros H0 HS h s H. induction H as [|h s op r s' H IH E]; intros Hok; [exact H0|].
  apply ok_app in Hok. destruct Hok as [H1 H2]. inversion H2; subst. rewrite spec_of_snoc.
  pose proof (rrun_RI h s H H1) as I. eapply HS; eauto. now apply (rdo_spec (spec_of h) s op r s').
Qed.

Lemma metric_declared h s : rrun h s -> ok_history h ->
  (forall o ty name xs t p, declared h p o ty name xs t ->
     a_metric (spec_of h) p = Some (MkAM ty name (mopt_desc xs) (mopt_unit xs) (sorted_consts o xs) (mopt_keys xs) t)) /\
  (forall p m, a_metric (spec_of h) p = Some m -> exists o ty name xs t, declared h p o ty name xs t).
Proof.
  revert h s. apply (history_ind (fun h a =>
    (forall o ty name xs t p, declared h p o ty name xs t ->
     a_metric a p = Some (MkAM ty name (mopt_desc xs) (mopt_unit xs) (sorted_consts o xs) (mopt_keys xs) t)) /\
    (forall p m, a_metric a p = Some m -> exists o ty name xs t, declared h p o ty name xs t))).
  - split; [intros ? ? ? ? ? ? []|discriminate].
  - intros h s a op r H Hok I -> [P1 P2] Hop Ha.
    assert (Same : (forall o ty name xs t p, (op, r) <> (RopAdd o ty name xs t, RHandle p)) ->
                   a_metric (a_step (spec_of h) (op, r)) = a_metric (spec_of h)).
    { intros N. destruct op, r; cbn [a_step]; try reflexivity; try (exfalso; eapply N; reflexivity);
        repeat match goal with |- context [match ?x with _ => _ end] => destruct x; try reflexivity end. }
    assert (Dec : (exists o ty name xs t p, (op, r) = (RopAdd o ty name xs t, RHandle p)) \/
                  (forall o ty name xs t p, (op, r) <> (RopAdd o ty name xs t, RHandle p))).
    { destruct op, r; try (right; intros; discriminate). left. repeat eexists. }
    destruct Dec as [(o & ty & name & xs & t & p & E)|N].
    + injection E as -> ->. cbn [r_answer] in Ha. destruct Ha as [(? & ? & _ & _ & _ & E)|(_ & p' & E & Hp)]; [discriminate E|].
      injection E as <-. cbn [a_step a_metric]. split.
      * intros o' ty' name' xs' t' q Hin. apply in_app_iff in Hin. destruct Hin as [Hin|[E|[]]].
        -- pose proof (P1 _ _ _ _ _ _ Hin) as X. rewrite fset_other; [exact X|]. intros ->. congruence.
        -- injection E as -> -> -> -> -> ->. apply fset_same.
      * intros q m E. destruct (Nat.eq_dec q p) as [->|Hq].
        -- exists o, ty, name, xs, t. apply in_app_iff. right. now left.
        -- rewrite fset_other in E by exact Hq. destruct (P2 _ _ E) as (o' & ty' & n' & xs' & t' & X).
           exists o', ty', n', xs', t'. apply in_app_iff. now left.
    + rewrite (Same N). split.
      * intros o ty name xs t p Hin. apply in_app_iff in Hin. destruct Hin as [Hin|[E|[]]]; [now apply P1|]. exfalso. eapply N. exact E.
      * intros q m E. destruct (P2 _ _ E) as (o' & ty' & n' & xs' & t' & X). exists o', ty', n', xs', t'. apply in_app_iff. now left.
Qed.

Lemma declared_fun h s p o ty name xs t o' ty' name' xs' t' : rrun h s -> ok_history h ->
  declared h p o ty name xs t -> declared h p o' ty' name' xs' t' ->
  ty = ty' /\ name = name' /\ sorted_consts o xs = sorted_consts o' xs' /\ mopt_keys xs = mopt_keys xs'.
Proof.
  intros H Hok D1 D2. destruct (metric_declared h s H Hok) as [P _].
  apply P in D1. apply P in D2. rewrite D1 in D2. injection D2 as -> -> _ _ -> -> _. auto.
Qed.

(** The current metric of a name is the last one successfully added under it. *)
Lemma name_declared h s : rrun h s -> ok_history h ->
  (forall o ty name xs t p, declared h p o ty name xs t -> exists q, a_name (spec_of h) name = Some q) /\
  (forall o ty name xs t p q m, declared h p o ty name xs t -> a_name (spec_of h) name = Some q ->
     a_metric (spec_of h) q = Some m -> am_type m = ty).
Proof.
  intros H Hok. revert h s H Hok. apply (history_ind (fun h a =>
    (forall o ty name xs t p, declared h p o ty name xs t -> exists q, a_name a name = Some q) /\
    (forall o ty name xs t p q m, declared h p o ty name xs t -> a_name a name = Some q ->
       a_metric a q = Some m -> am_type m = ty))).
  - split; [intros ? ? ? ? ? ? []|intros ? ? ? ? ? ? ? ? []].
  - intros h s a op r H Hok I -> [P1 P2] Hop Ha.
    assert (Same : (forall o ty name xs t p, (op, r) <> (RopAdd o ty name xs t, RHandle p)) ->
                   a_metric (a_step (spec_of h) (op, r)) = a_metric (spec_of h) /\ a_name (a_step (spec_of h) (op, r)) = a_name (spec_of h)).
    { intros N. destruct op, r; cbn [a_step]; try (split; reflexivity); try (exfalso; eapply N; reflexivity);
        repeat match goal with |- context [match ?x with _ => _ end] => destruct x; try (split; reflexivity) end. }
    assert (Dec : (exists o ty name xs t p, (op, r) = (RopAdd o ty name xs t, RHandle p)) \/
                  (forall o ty name xs t p, (op, r) <> (RopAdd o ty name xs t, RHandle p))).
    { destruct op, r; try (right; intros; discriminate). left. repeat eexists. }
    destruct Dec as [(o & ty & name & xs & t & p & E)|N].
    + injection E as -> ->. cbn [r_answer] in Ha. destruct Ha as [(? & ? & _ & _ & _ & E)|(Hty & p' & E & Hp)]; [discriminate E|].
      injection E as <-. cbn [a_step a_metric a_name]. split.
      * intros o' ty' name' xs' t' q Hin. unfold nset. destruct (bytes_eqb_spec name' name); [eauto|].
        apply in_app_iff in Hin. destruct Hin as [Hin|[E|[]]]; [eapply P1; exact Hin|]. congruence.
      * intros o' ty' name' xs' t' q q' m Hin. unfold nset. destruct (bytes_eqb_spec name' name) as [->|Hn].
        -- intros [= <-]. rewrite fset_same. intros [= <-]. cbn [am_type].
           apply in_app_iff in Hin. destruct Hin as [Hin|[E|[]]]; [|congruence].
           destruct (P1 _ _ _ _ _ _ Hin) as [q2 E2].
           destruct (ri_named _ _ I _ _ E2) as (m2 & Em2 & _). rewrite <- (Hty _ _ E2 Em2).
           eapply P2; [exact Hin|exact E2|exact Em2].
        -- intros E2. apply in_app_iff in Hin. destruct Hin as [Hin|[E|[]]]; [|congruence].
           destruct (ri_named _ _ I _ _ E2) as (m2 & Em2 & _).
           rewrite fset_other; [|intros ->; congruence]. intros Em. eapply P2; [exact Hin|exact E2|exact Em].
    + destruct (Same N) as [-> ->]. split.
      * intros o ty name xs t p Hin. apply in_app_iff in Hin. destruct Hin as [Hin|[E|[]]]; [eapply P1; exact Hin|]. exfalso. eapply N. exact E.
      * intros o ty name xs t p q m Hin. apply in_app_iff in Hin. destruct Hin as [Hin|[E|[]]]; [eapply P2; exact Hin|].
        exfalso. eapply N. exact E.
Qed.

(** Each pointer stands for the metric and labels GetEntry was given. *)
Lemma owner_got h s : rrun h s -> ok_history h ->
  forall p vs x, In (RopGet p vs, REntry x) h ->
  exists m, a_metric (spec_of h) p = Some m /\ a_owner (spec_of h) x = Some (p, full_labels m vs) /\ length vs = length (am_keys m).
Proof.
  revert h s. apply (history_ind (fun h a => forall p vs x, In (RopGet p vs, REntry x) h ->
    exists m, a_metric a p = Some m /\ a_owner a x = Some (p, full_labels m vs) /\ length vs = length (am_keys m))).
  - intros ? ? ? [].
  - intros h s a op r H Hok I -> P Hop Ha p vs x Hin. apply in_app_iff in Hin. destruct Hin as [Hin|[E|[]]].
    + destruct (P p vs x Hin) as (m & Em & Eo & HL). exists m.
      destruct op as [o1 ty1 n1 xs1 t1|bm vs0|bm [fn|] vs0|e u|o1 fi1 ff1 now1], r; cbn [a_step a_metric a_owner]; auto.
      * cbn [r_answer] in Ha. destruct Ha as [(? & ? & _ & _ & _ & E)|(Hty & p' & E & Hp)]; [discriminate E|].
        injection E as <-. split; [|auto]. rewrite fset_other; [exact Em|]. intros ->. congruence.
      * cbn [r_answer] in Ha. destruct (a_metric (spec_of h) bm) as [m'|] eqn:Em'; [|auto].
        destruct (is_derived (am_type m')); [discriminate Ha|]. destruct (length vs0 =? length (am_keys m')); [|discriminate Ha].
        destruct Ha as (x' & [= <-] & A1 & A2). split; [exact Em|]. split; [|exact HL]. cbn [a_owner].
        match goal with |- context [fset _ ?e _ x] => destruct (Nat.eq_dec x e) as [->|Hx] end; [|now rewrite fset_other]. rewrite fset_same.
        destruct (A1 _ _ Eo) as [-> ->]. reflexivity.
      * destruct (a_metric (spec_of h) bm); auto.
      * destruct (a_owner (spec_of h) e) as [[p' l']|]; [|auto].
        destruct (a_metric (spec_of h) p'); [|auto]. destruct (a_value (spec_of h) p' l'); auto.
    + injection E as -> ->. cbn [r_answer] in Ha. cbn [a_step]. destruct (a_metric (spec_of h) p) as [m|] eqn:Em; [|discriminate Ha].
      exists m. cbn [a_metric a_owner]. rewrite fset_same. split; [exact Em|]. split; [reflexivity|].
      destruct (is_derived (am_type m)); [discriminate Ha|].
      destruct (Nat.eqb_spec (length vs) (length (am_keys m))); [assumption|discriminate Ha].
Qed.

(** ** C19: label values identify entries

    Two GetEntry calls return the same entry iff they are on the same metric with
    the same label values (an absent value equals an absent value, whatever its
    text). *)
Theorem C19_same_entry_iff h s p1 vs1 x1 p2 vs2 x2 :
  rrun h s -> ok_history h ->
  In (RopGet p1 vs1, REntry x1) h -> In (RopGet p2 vs2, REntry x2) h ->
  (x1 = x2 <-> p1 = p2 /\ map label vs1 = map label vs2).
Proof.
  intros H Hok H1 H2.
  destruct (owner_got h s H Hok _ _ _ H1) as (m1 & Em1 & Eo1 & L1).
  destruct (owner_got h s H Hok _ _ _ H2) as (m2 & Em2 & Eo2 & L2).
  pose proof (rrun_RI h s H Hok) as I. split.
  - intros <-. rewrite Eo1 in Eo2. injection Eo2 as <- El. split; [reflexivity|].
    assert (m1 = m2) by congruence. subst m2. unfold full_labels in El. now apply app_inv_head in El.
  - intros [<- El]. assert (m1 = m2) by congruence. subst m2.
    destruct (ri_owner _ _ I _ _ _ Eo1) as (bm1 & Eb1 & _ & G1 & _).
    destruct (ri_owner _ _ I _ _ _ Eo2) as (bm2 & Eb2 & _ & G2 & _).
    assert (bm1 = bm2) by congruence. subst bm2. unfold full_labels in *. rewrite El in G1. congruence.
Qed.

(** ** C20, C24, C25: what Read reports

    For every name that was successfully added, and only those, one metric, with
    the declaration of the last one added under that name and one series per entry;
    the labels of an entry are the constants, then its own; see [reports]. *)
Theorem C20_read h s o fi ff now r :
  rrun (h ++ [(RopRead o fi ff now, r)]) s -> ok_history h ->
  exists ns ms, r = RMetrics ms /\ NoDup ns /\
    (forall n, In n ns <-> exists p o ty xs t, declared h p o ty n xs t) /\
    Forall2 (reports (spec_of h) fi ff now) ns ms.
Proof.
  intros H Hok. apply rrun_snoc_inv in H. destruct H as (s0 & H & E).
  pose proof (rrun_RI h s0 H Hok) as I.
  destruct (rdo_spec _ _ (RopRead o fi ff now) _ _ I Logic.I E) as [(ns & ms & -> & ND & Hn & F) _].
  exists ns, ms. split; [reflexivity|]. split; [exact ND|]. split; [|exact F].
  intros n. rewrite Hn. split.
  - intros X. destruct (a_name (spec_of h) n) as [p|] eqn:En; [|congruence].
    destruct (ri_named _ _ I _ _ En) as (m & Em & Hm).
    destruct (metric_declared h s0 H Hok) as [P1 P2]. destruct (P2 _ _ Em) as (o' & ty & n' & xs & t & D).
    pose proof (P1 _ _ _ _ _ _ D) as Em'. rewrite Em in Em'. injection Em' as Em'. subst m. cbn in Hm. subst n'.
    exists p, o', ty, xs, t. exact D.
  - intros (p & o' & ty & xs & t & D). destruct (name_declared h s0 H Hok) as [P _].
    destruct (P _ _ _ _ _ _ D) as [q ->]. discriminate.
Qed.

(** Which entries a metric has: those GetEntry or UpsertEntry was successfully
    called for.  So, with [C20_read]: every series of a metric carries the constant
    labels followed by the label values of such a call, and each such call has
    exactly one series. *)
Definition created (h : list call) (p : nat) (vs : list lvalue) : Prop :=
  (exists x, In (RopGet p vs, REntry x) h) \/ (exists fn, In (RopUpsert p (Some fn) vs, RDone) h).

Theorem C20_entries h s p o ty name xs t l :
  rrun h s -> ok_history h -> declared h p o ty name xs t ->
  (a_value (spec_of h) p l <> None <->
   exists vs, created h p vs /\ l = map label (map snd (sorted_consts o xs)) ++ map label vs).
Proof.
  intros H Hok D.
  assert (X : forall m, a_metric (spec_of h) p = Some m ->
     (a_value (spec_of h) p l <> None <-> exists vs, created h p vs /\ l = full_labels m vs)).
  { clear D. revert h s H Hok. apply (history_ind (fun h a => forall m, a_metric a p = Some m ->
     (a_value a p l <> None <-> exists vs, created h p vs /\ l = full_labels m vs))).
    - discriminate.
    - intros h s a op r H Hok I -> P Hop Ha m.
      assert (Keep : forall e m, a_metric (spec_of h) p = Some m ->
                a_value (spec_of h) p l <> None -> exists vs, created (h ++ [e]) p vs /\ l = full_labels m vs).
      { intros e m0 Em X. apply (P _ Em) in X. destruct X as (vs & C & ->). exists vs. split; [|reflexivity].
        destruct C as [[x C]|[fn C]]; [left; exists x|right; exists fn]; apply in_app_iff; now left. }
      assert (Cr : forall vs, created (h ++ [(op, r)]) p vs -> created h p vs \/
                 (exists x, op = RopGet p vs /\ r = REntry x) \/ (exists fn, op = RopUpsert p (Some fn) vs /\ r = RDone)).
      { intros vs [[x C]|[fn C]]; apply in_app_iff in C; destruct C as [C|[C|[]]].
        - left; left; eauto.
        - injection C as -> ->. right; left; eauto.
        - left; right; eauto.
        - injection C as -> ->. right; right; eauto. }
      assert (Noop : a_metric (a_step (spec_of h) (op, r)) p = a_metric (spec_of h) p ->
                (forall l, a_value (a_step (spec_of h) (op, r)) p l <> None <-> a_value (spec_of h) p l <> None) ->
                (forall vs, created (h ++ [(op, r)]) p vs -> created h p vs) ->
                a_metric (a_step (spec_of h) (op, r)) p = Some m ->
                (a_value (a_step (spec_of h) (op, r)) p l <> None <-> exists vs, created (h ++ [(op, r)]) p vs /\ l = full_labels m vs)).
      { intros E1 E2 E3 Em. rewrite E1 in Em. rewrite E2. split; [now apply Keep|].
        intros (vs & C & ->). apply (P _ Em). eauto. }
      destruct op as [o1 ty1 n1 xs1 t1|p1 vs1|p1 fn1 vs1|x1 u1|o1 fi1 ff1 now1].
      + (* Add *)
        destruct r; try (apply Noop; [reflexivity|reflexivity|intros vs C; destruct (Cr vs C) as [?|[(? & ? & _)|(? & ? & _)]]; [assumption|discriminate|discriminate]]).
        cbn [r_answer] in Ha. destruct Ha as [(? & ? & _ & _ & _ & E)|(_ & p' & E & Hp)]; [discriminate E|]. injection E as <-.
        destruct (Nat.eq_dec p bm) as [<-|Hpb].
        * intros _. cbn [a_step a_value].
          assert (HN : forall l, a_value (spec_of h) p l = None).
          { destruct (nth_error (r_bms s) p) eqn:Eb; [destruct (ri_bm _ _ I _ _ Eb) as (? & ? & _); congruence|].
            apply (ri_none _ _ I _ Eb). }
          rewrite HN. split; [congruence|]. intros (vs & C & _). exfalso.
          destruct (Cr vs C) as [C'|[(? & ? & _)|(? & ? & _)]]; [|discriminate|discriminate].
          destruct C' as [[x C']|[fn C']].
          -- destruct (owner_got h s H Hok _ _ _ C') as (m' & Em' & _). congruence.
          -- (* an upsert on a metric not yet declared *)
             apply in_split in C'. destruct C' as (h1 & h2 & ->).
             pose proof (rrun_answers _ _ H Hok h1 _ _ h2 eq_refl) as A. cbn [r_answer] in A.
             destruct (rrun_app h1 _ _ H) as (s1 & H1). apply ok_app in Hok as Hok'. destruct Hok' as [Hok1 _].
             destruct (a_metric (spec_of h1) p) as [m1|] eqn:Em1; [|discriminate A].
             destruct (metric_declared h1 s1 H1 Hok1) as [_ P2]. destruct (P2 _ _ Em1) as (? & ? & ? & ? & ? & D1).
             destruct (metric_declared _ s H Hok) as [P1 _].
             assert (D2 : declared (h1 ++ (RopUpsert p (Some fn) vs, RDone) :: h2) p x x0 x1 x2 x3) by (apply in_app_iff; now left).
             apply P1 in D2. congruence.
        * apply Noop; [cbn [a_step a_metric]; now rewrite fset_other|reflexivity|].
          intros vs C. destruct (Cr vs C) as [?|[(? & ? & _)|(? & ? & _)]]; [assumption|discriminate|discriminate].
      + (* Get *)
        destruct r; try (apply Noop; [reflexivity|reflexivity|intros vs C; destruct (Cr vs C) as [?|[(? & ? & ?)|(? & ? & ?)]]; [assumption|discriminate|discriminate]]).
        cbn [r_answer] in Ha. destruct (a_metric (spec_of h) p1) as [m1|] eqn:Em1; [|discriminate Ha].
        assert (V1 : forall l, a_value (a_step (spec_of h) (RopGet p1 vs1, REntry e)) p l <> None <->
                     (p = p1 /\ l = full_labels m1 vs1) \/ a_value (spec_of h) p l <> None).
        { intros l0. cbn [a_step]. rewrite Em1. cbn [a_value].
          destruct (a_value (spec_of h) p1 (full_labels m1 vs1)) eqn:Ev.
          - split; [auto|]. intros [[-> ->]|X]; [congruence|exact X].
          - destruct (vset_cases (a_value (spec_of h)) p1 (full_labels m1 vs1) (zero_of (am_type m1)) p l0) as [(-> & -> & ->)|(N & ->)].
            + split; [auto|discriminate].
            + split; [auto|]. intros [[-> ->]|X]; [destruct N; congruence|exact X]. }
        intros Em. assert (Em0 : a_metric (spec_of h) p = Some m) by (revert Em; cbn [a_step]; rewrite Em1; trivial).
        rewrite V1. split.
        * intros [[-> ->]|X]; [|now apply Keep]. assert (m1 = m) by congruence. subst m1.
          exists vs1. split; [|reflexivity]. left. exists e. apply in_app_iff. right. now left.
        * intros (vs & C & ->). destruct (Cr vs C) as [C'|[(x & E & _)|(? & E & _)]]; [|injection E as -> ->|discriminate E].
          -- right. apply (P _ Em0). eauto.
          -- left. split; [reflexivity|]. congruence.
      + (* Upsert *)
        destruct fn1 as [fn1|]; [|apply Noop; [reflexivity|reflexivity|intros vs C; destruct (Cr vs C) as [?|[(? & ? & _)|(? & ? & _)]]; [assumption|discriminate|discriminate]]].
        destruct r; try (apply Noop; [reflexivity|reflexivity|intros vs C; destruct (Cr vs C) as [?|[(? & ? & ?)|(? & ? & ?)]]; [assumption|discriminate|discriminate]]).
        cbn [r_answer] in Ha. destruct (a_metric (spec_of h) p1) as [m1|] eqn:Em1; [|discriminate Ha].
        assert (V1 : forall l, a_value (a_step (spec_of h) (RopUpsert p1 (Some fn1) vs1, RDone)) p l <> None <->
                     (p = p1 /\ l = full_labels m1 vs1) \/ a_value (spec_of h) p l <> None).
        { intros l0. cbn [a_step]. rewrite Em1. cbn [a_value].
          destruct (vset_cases (a_value (spec_of h)) p1 (full_labels m1 vs1) (AFn fn1) p l0) as [(-> & -> & ->)|(N & ->)].
          - split; [auto|discriminate].
          - split; [auto|]. intros [[-> ->]|X]; [destruct N; congruence|exact X]. }
        intros Em. assert (Em0 : a_metric (spec_of h) p = Some m) by (revert Em; cbn [a_step]; rewrite Em1; trivial).
        rewrite V1. split.
        * intros [[-> ->]|X]; [|now apply Keep]. assert (m1 = m) by congruence. subst m1.
          exists vs1. split; [|reflexivity]. right. exists fn1. apply in_app_iff. right. now left.
        * intros (vs & C & ->). destruct (Cr vs C) as [C'|[(x & E & _)|(? & E & _)]]; [|discriminate E|injection E as -> _ ->].
          -- right. apply (P _ Em0). eauto.
          -- left. split; [reflexivity|]. congruence.
      + (* Update *)
        apply Noop.
        * destruct r; cbn [a_step]; try reflexivity. destruct (a_owner (spec_of h) x1) as [[p' l']|]; [|reflexivity].
          destruct (a_metric (spec_of h) p'), (a_value (spec_of h) p' l'); reflexivity.
        * intros l0. destruct r; cbn [a_step]; try reflexivity. destruct (a_owner (spec_of h) x1) as [[p' l']|]; [|reflexivity].
          destruct (a_metric (spec_of h) p') as [m'|]; [|reflexivity]. destruct (a_value (spec_of h) p' l') as [v'|] eqn:Ev; [|reflexivity].
          cbn [a_value]. destruct (vset_cases (a_value (spec_of h)) p' l' (spec_update (am_type m') v' u1) p l0) as [(-> & -> & ->)|(_ & ->)]; [|reflexivity].
          rewrite Ev. split; discriminate.
        * intros vs C. destruct (Cr vs C) as [?|[(? & ? & _)|(? & ? & _)]]; [assumption|discriminate|discriminate].
      + apply Noop; [destruct r; reflexivity|destruct r; reflexivity|].
        intros vs C. destruct (Cr vs C) as [?|[(? & ? & _)|(? & ? & _)]]; [assumption|discriminate|discriminate]. }
  destruct (metric_declared h s H Hok) as [P _]. rewrite (X _ (P _ _ _ _ _ _ D)). reflexivity.
Qed.

(** Constant labels are the declared ones, in order of key. *)
Theorem C20_constant_labels o xs :
  Permutation (sorted_consts o xs) (mopt_const xs) /\
  StronglySorted (fun a b => bytes_ltb (lk_key (fst b)) (lk_key (fst a)) = false) (sorted_consts o xs).
Proof.
  unfold sorted_consts. split.
  - rewrite isort_perm. apply ord_perm.
  - apply isort_sorted.
    + intros a b c. apply bytes_leb_trans.
    + intros a b. apply bytes_ltb_asym.
Qed.

(** ** C24: types *)

(** Adding fails exactly when the name is in use with another type, and then
    nothing changes; otherwise it yields a new metric. *)
Theorem C24_add h s o ty name xs t :
  rrun h s -> ok_history h -> rop_ok (RopAdd o ty name xs t) ->
  ((exists p o' ty' xs' t', declared h p o' ty' name xs' t' /\ ty' <> ty) ->
   rdo s (RopAdd o ty name xs t) = (RError ErrExistsWithDiffType, s)) /\
  ((forall p o' ty' xs' t', declared h p o' ty' name xs' t' -> ty' = ty) ->
   exists p s', rdo s (RopAdd o ty name xs t) = (RHandle p, s') /\ forall o' ty' n' xs' t', ~ declared h p o' ty' n' xs' t').
Proof.
  intros H Hok Hop. pose proof (rrun_RI h s H Hok) as I.
  destruct (name_declared h s H Hok) as [N1 N2]. destruct (metric_declared h s H Hok) as [P1 P2].
  destruct (rdo s (RopAdd o ty name xs t)) as [r s'] eqn:E.
  destruct (rdo_spec _ _ _ _ _ I Hop E) as [A _]. cbn [r_answer] in A. split.
  - intros (p & o' & ty' & xs' & t' & D & Hne). destruct (N1 _ _ _ _ _ _ D) as [q Eq].
    destruct (ri_named _ _ I _ _ Eq) as (m & Em & _). pose proof (N2 _ _ _ _ _ _ _ _ D Eq Em) as Ht.
    destruct A as [(p0 & m0 & _ & _ & _ & ->)|(A & _)]; [|exfalso; apply Hne; rewrite <- Ht; eapply A; [exact Eq|exact Em]].
    cbn [rdo] in E. unfold init_base_metric in E.
    match type of E with context [if ?b then (inr _, s) else _] => destruct b end; [|discriminate E].
    congruence.
  - intros Hall. destruct A as [(p0 & m0 & E1 & E2 & Hne & _)|(_ & p & -> & Hp)].
    + exfalso. destruct (P2 _ _ E2) as (o' & ty' & n' & xs' & t' & D). destruct (ri_named _ _ I _ _ E1) as (m1 & E3 & E4).
      assert (m1 = m0) by congruence. subst m1. pose proof (P1 _ _ _ _ _ _ D) as E5. rewrite E2 in E5. injection E5 as ->.
      cbn in E4, Hne. subst n'. apply Hne. eapply Hall. exact D.
    + exists p, s'. split; [reflexivity|]. intros o' ty' n' xs' t' D. apply P1 in D. congruence.
Qed.

(** A registry never holds metrics of two types under one name. *)
Theorem C24_one_type h s p1 o1 ty1 name xs1 t1 p2 o2 ty2 xs2 t2 :
  rrun h s -> ok_history h -> declared h p1 o1 ty1 name xs1 t1 -> declared h p2 o2 ty2 name xs2 t2 -> ty1 = ty2.
Proof.
  intros H Hok D1 D2. destruct (name_declared h s H Hok) as [N1 N2]. pose proof (rrun_RI h s H Hok) as I.
  destruct (N1 _ _ _ _ _ _ D1) as [q Eq]. destruct (ri_named _ _ I _ _ Eq) as (m & Em & _).
  rewrite <- (N2 _ _ _ _ _ _ _ _ D1 Eq Em). apply (N2 _ _ _ _ _ _ _ _ D2 Eq Em).
Qed.

(** Read returns one metric per name; its type is the declared one. *)
Theorem C24_read_types h s o fi ff now ms :
  rrun (h ++ [(RopRead o fi ff now, RMetrics ms)]) s -> ok_history h ->
  NoDup (map (fun m => d_name (mm_desc m)) ms) /\
  (forall n, In n (map (fun m => d_name (mm_desc m)) ms) <-> exists p o ty xs t, declared h p o ty n xs t) /\
  (forall m p o ty xs t, In m ms -> declared h p o ty (d_name (mm_desc m)) xs t -> d_type (mm_desc m) = exported_type ty).
Proof.
  intros H Hok. destruct (C20_read h s o fi ff now _ H Hok) as (ns & ms' & [= <-] & ND & Hn & F).
  apply rrun_snoc_inv in H. destruct H as (s0 & H & _).
  assert (E : map (fun m => d_name (mm_desc m)) ms = ns).
  { clear - F. induction F as [|n m ns ms R F IH]; [reflexivity|]. cbn [map]. rewrite IH. f_equal.
    destruct R as (p & am & _ & _ & -> & _). reflexivity. }
  rewrite E. split; [exact ND|]. split; [exact Hn|].
  intros m p o' ty xs t Hin D.
  assert (R : exists n, In n ns /\ reports (spec_of h) fi ff now n m).
  { clear - F Hin. induction F as [|n m' ns ms R F IH]; [destruct Hin|]. destruct Hin as [->|Hin].
    - exists n. split; [now left|exact R].
    - destruct (IH Hin) as (n' & ? & ?). exists n'. split; [now right|assumption]. }
  destruct R as (n & _ & q & am & E1 & E2 & E3 & _). rewrite E3 in D |- *. cbn [d_name d_type] in *.
  destruct (name_declared h s0 H Hok) as [_ N2]. now rewrite (N2 _ _ _ _ _ _ _ _ D E1 E2).
Qed.

(** ** C25: arity *)

(** The wrong number of label values is an error and changes nothing; the right
    number is not. *)
Theorem C25_arity h s p o ty name xs t vs :
  rrun h s -> ok_history h -> declared h p o ty name xs t -> Forall short vs ->
  (is_derived ty = false ->
    if length vs =? length (mopt_keys xs)
    then exists x s', rdo s (RopGet p vs) = (REntry x, s')
    else rdo s (RopGet p vs) = (RError ErrKeyValueMismatch, s)) /\
  (is_derived ty = true -> forall fn,
    if length vs =? length (mopt_keys xs)
    then exists s', rdo s (RopUpsert p (Some fn) vs) = (RDone, s')
    else rdo s (RopUpsert p (Some fn) vs) = (RError ErrKeyValueMismatch, s)).
Proof.
  intros H Hok D Hs. pose proof (rrun_RI h s H Hok) as I.
  destruct (metric_declared h s H Hok) as [P1 _]. apply P1 in D. split.
  - intros Hd. destruct (rdo s (RopGet p vs)) as [r s'] eqn:E.
    destruct (rdo_spec _ _ (RopGet p vs) _ _ I Hs E) as [A _]. cbn [r_answer] in A. rewrite D in A. cbn [am_type am_keys] in A. rewrite Hd in A.
    destruct (length vs =? length (mopt_keys xs)).
    + destruct A as (x & -> & _). eauto.
    + subst r. f_equal. cbn [rdo] in E. unfold entry_for_values in E.
      destruct (nth_error (r_bms s) p) as [bm|]; [|discriminate E]. destruct (new_entry (bm_type bm)); [|discriminate E].
      destruct (negb _); [congruence|]. destruct (mget _ _ _); discriminate E.
  - intros Hd fn. destruct (rdo s (RopUpsert p (Some fn) vs)) as [r s'] eqn:E.
    destruct (rdo_spec _ _ (RopUpsert p (Some fn) vs) _ _ I Hs E) as [A _]. cbn [r_answer] in A. rewrite D in A. cbn [am_type am_keys] in A. rewrite Hd in A.
    cbn [negb] in A. destruct (length vs =? length (mopt_keys xs)).
    + subst r. eauto.
    + subst r. f_equal. cbn [rdo] in E. unfold upsert_entry in E.
      destruct (nth_error (r_bms s) p) as [bm|]; [|discriminate E]. destruct (new_fn_entry (bm_type bm) fn); [|discriminate E].
      destruct (negb _); [congruence|]. discriminate E.
Qed.

(** Every reported series has one label value per label key. *)
Theorem C25_series_arity h s o fi ff now ms :
  rrun (h ++ [(RopRead o fi ff now, RMetrics ms)]) s -> ok_history h ->
  Forall (fun m => Forall (fun ts => length (ms_labels ts) = length (d_keys (mm_desc m))) (mm_series m)) ms.
Proof.
  intros H Hok. destruct (C20_read h s o fi ff now _ H Hok) as (ns & ms' & [= <-] & ND & Hn & F).
  apply rrun_snoc_inv in H. destruct H as (s0 & H & _). pose proof (rrun_RI h s0 H Hok) as I. clear - F I.
  induction F as [|n m ns ms R F IH]; [constructor|]. constructor; [|exact IH].
  destruct R as (p & am & E1 & E2 & -> & ls & _ & Hin & F2). cbn [d_keys].
  assert (B : forall l, In l ls -> length l = length (am_consts am) + length (am_keys am)).
  { intros l Hl. apply Hin in Hl. destruct (a_value (spec_of h) p l) eqn:Ev; [|congruence].
    destruct (nth_error (r_bms s0) p) eqn:Eb; [|destruct (ri_none _ _ I _ Eb); congruence].
    destruct (ri_bm _ _ I _ _ Eb) as (m' & E3 & B). assert (m' = am) by congruence. subst m'.
    apply (bi_val _ _ _ _ _ B _ _ Ev). }
  clear - F2 B. induction F2 as [|l ts ls tss R F2 IH]; [constructor|]. constructor.
  - destruct R as (-> & _). rewrite map_length, app_length, map_length. apply B. now left.
  - apply IH. intros. apply B. now right.
Qed.

(** ** Examples *)

Fixpoint rexec (s : rst) (ops : list rop) : list call * rst :=
  match ops with
  | [] => ([], s)
  | op :: r => let '(a, s1) := rdo s op in let '(h, s2) := rexec s1 r in ((op, a) :: h, s2)
  end.

Lemma rexec_run_gen ops h0 s0 h s : rrun h0 s0 -> rexec s0 ops = (h, s) -> rrun (h0 ++ h) s.
Proof.
  revert h0 s0 h s. induction ops as [|op ops IH]; intros h0 s0 h s H0 E; cbn [rexec] in E.
  - injection E as <- <-. now rewrite app_nil_r.
  - destruct (rdo s0 op) as [a s1] eqn:E1. destruct (rexec s1 ops) as [h1 s2] eqn:E2. injection E as <- <-.
    replace (h0 ++ (op, a) :: h1) with ((h0 ++ [(op, a)]) ++ h1) by now rewrite <- app_assoc.
    apply (IH (h0 ++ [(op, a)]) s1); [|exact E2]. now apply (rrun_snoc h0 s0).
Qed.
Lemma rexec_run ops : rrun (fst (rexec new_registry ops)) (snd (rexec new_registry ops)).
Proof. apply (rexec_run_gen ops [] new_registry); [constructor|]. destruct (rexec new_registry ops); reflexivity. Qed.

Definition lv (s : bytes) : lvalue := MkLV s true.
Definition no_lv : lvalue := MkLV [] false.

(** Two gauges and a cumulative, with a constant label; the third Add clashes. *)
Definition ex_ops : list rop :=
  [ RopAdd id_order GaugeInt64 (bs "g") [WithLabelKeys [bs "a"; bs "b"]; WithConstLabel [(MkLK (bs "z") [], lv (bs "1")); (MkLK (bs "c") [], lv (bs "2"))]] 5%Z;
    RopAdd id_order CumulativeInt64 (bs "c") [WithLabelKeys [bs "a"]] 6%Z;
    RopAdd id_order CumulativeInt64 (bs "g") [] 7%Z;
    RopGet 0 [lv (bs "x"); no_lv];
    RopGet 0 [lv []; lv (bs "x")];
    RopGet 0 [lv (bs "x"); MkLV (bs "ignored") false];
    RopGet 0 [lv (bs "x")];
    RopGet 1 [lv (bs "x")];
    RopUpdate 0 (UAddI 7); RopUpdate 0 (UAddI (-2)); RopUpdate 1 (USetI (-3)); RopUpdate 2 (UIncI 4); RopUpdate 2 (UIncI (-4));
    RopRead id_order (fun _ => 0%Z) (fun _ => f_zero) 100%Z ].

Example ex_ok : ok_history (fst (rexec new_registry ex_ops)).
Proof.
  vm_compute. repeat (apply Forall_cons; [cbn; try exact I; repeat (apply Forall_cons; [intros _; cbn; lia|]); try apply Forall_nil|]);
    try apply Forall_nil; repeat constructor; unfold short; cbn; intros; lia || discriminate.
Qed.

Example ex_answers :
  map (fun e => match snd e with RHandle p => (0, p) | REntry x => (1, x) | RDone => (2, 0) | RError _ => (3, 0)
                | RMetrics ms => (4, length ms) | RPanic => (5, 0) | RIllTyped => (6, 0) end)
      (fst (rexec new_registry ex_ops))
  = [(0, 0); (0, 1); (3, 0); (1, 0); (1, 1); (1, 0); (3, 0); (1, 2); (2, 0); (2, 0); (2, 0); (2, 0); (2, 0); (4, 2)].
Proof. vm_compute. reflexivity. Qed.

Definition int_points (r : rresp) : list (list (list (bytes * bool) * (time * Z))) :=
  match r with
  | RMetrics ms => map (fun m => map (fun ts => (map (fun l => (lv_value l, lv_present l)) (ms_labels ts),
      (ms_start ts, match snd (ms_point ts) with MPInt v => v | MPFloat _ => (-1)%Z end))) (mm_series m)) ms
  | _ => []
  end.
Example ex_read :
  int_points (snd (nth 13 (fst (rexec new_registry ex_ops)) (RopGet 0 [], RPanic)))
  = [ [ ([(bs "2", true); (bs "1", true); (bs "x", true); ([], false)], (100%Z, 5%Z));
        ([(bs "2", true); (bs "1", true); ([], true); (bs "x", true)], (100%Z, 0%Z)) ];
      [ ([(bs "x", true)], (6%Z, 4%Z)) ] ].
Proof. vm_compute. reflexivity. Qed.

(** ** Without the bound on the length of label values the claims are false *)

Definition long_a : bytes := repeat (n2b 97) 255.
Definition long_b : bytes := repeat (n2b 98) 255.

(** Two different label values of 255 bytes share an entry. *)
Theorem C19_long_values_refuted :
  exists h s p v1 v2 x, rrun h s /\ lv_value v1 <> lv_value v2 /\ lv_present v1 = true /\ lv_present v2 = true /\
    In (RopGet p [v1], REntry x) h /\ In (RopGet p [v2], REntry x) h.
Proof.
  pose (ops := [RopAdd id_order GaugeInt64 (bs "g") [WithLabelKeys [bs "a"]] 5%Z; RopGet 0 [lv long_a]; RopGet 0 [lv long_b]]).
  exists (fst (rexec new_registry ops)), (snd (rexec new_registry ops)), 0, (lv long_a), (lv long_b), 0.
  split; [apply rexec_run|]. split; [intros E; vm_compute in E; discriminate E|]. split; [reflexivity|]. split; [reflexivity|].
  split.
  - right. left. vm_compute. reflexivity.
  - right. right. left. vm_compute. reflexivity.
Qed.

(** Read panics once an entry has a label value of 255 bytes. *)
Theorem C20_long_value_read_panics_refuted :
  exists h s o fi ff now, rrun (h ++ [(RopRead o fi ff now, RPanic)]) s.
Proof.
  pose (ops := [RopAdd id_order GaugeInt64 (bs "g") [WithLabelKeys [bs "a"]] 5%Z; RopGet 0 [lv long_a]]).
  exists (fst (rexec new_registry ops)), (snd (rexec new_registry ops)), id_order, (fun _ => 0%Z), (fun _ => f_zero), 9%Z.
  eapply rrun_snoc; [apply rexec_run|]. vm_compute. reflexivity.
Qed.

(** Adding a second metric of the same name and type succeeds, and the entries of
    the first one are no longer reported: "updates through an entry of a registered
    metric appear in Read" is false. *)
Theorem C24_readd_hides_entries_refuted :
  exists h s x p o fi ff now ms,
    rrun (h ++ [(RopRead o fi ff now, RMetrics ms)]) s /\ ok_history h /\
    In (RopGet p [], REntry x) h /\ In (RopUpdate x (USetI 7), RDone) h /\
    map mm_series ms = [[]].
Proof.
  pose (ops := [RopAdd id_order GaugeInt64 (bs "g") [] 5%Z; RopGet 0 []; RopUpdate 0 (USetI 7); RopAdd id_order GaugeInt64 (bs "g") [] 6%Z]).
  exists (fst (rexec new_registry ops)), (snd (rexec new_registry ops)), 0, 0, id_order, (fun _ => 0%Z), (fun _ => f_zero), 9%Z.
  eexists. split; [eapply rrun_snoc; [apply rexec_run|]; vm_compute; reflexivity|].
  split; [repeat constructor|]. split; [right; left; reflexivity|]. split; [right; right; left; reflexivity|]. reflexivity.
Qed.

Print Assumptions C19_same_entry_iff.
Print Assumptions C20_read.
Print Assumptions C20_entries.
Print Assumptions C20_constant_labels.
Print Assumptions C24_add.
Print Assumptions C24_one_type.
Print Assumptions C24_read_types.
Print Assumptions C25_arity.
Print Assumptions C25_series_arity.
Print Assumptions C19_long_values_refuted.
Print Assumptions C20_long_value_read_panics_refuted.
Print Assumptions C24_readd_hides_entries_refuted.
