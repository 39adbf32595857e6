(** The worker refines its specification. *)

From Coq Require Import List Arith ZArith NArith Bool Lia Sorted Permutation ZifyBool ZifyNat ZifyN.
From Verif Require Import Base ListLib GoMap GoSort Float64 TagModel AggModel AggSpec AggProofs
  CollectorModel CollectorSpec CollectorProofs ViewModel WorkerModel WorkerSpec ViewProofs.
Import ListNotations.
Open Scope nat_scope.

Section Inv.
  Variable u0 : uworld.
  Hypothesis U0 : u_ok u0.

  Lemma nth_error_snoc {A} (l : list A) a i :
    nth_error (l ++ [a]) i = if i =? length l then Some a else nth_error l i.
  Proof.
    destruct (Nat.eqb_spec i (length l)) as [->|].
    - rewrite nth_error_app2, Nat.sub_diag by lia. reflexivity.
    - destruct (Nat.lt_ge_cases i (length l)); [now apply nth_error_app1|].
      rewrite (proj2 (nth_error_None l i)) by lia. apply nth_error_None. rewrite app_length. simpl. lia.
  Qed.

  Lemma list_eq_nil_dec {A} (l : list A) : {l = []} + {l <> []}.
  Proof. destruct l; [now left|right; discriminate]. Qed.

  (** ** Invariant *)

  Record vi_ok (u : uworld) (vi : vint) (sv : sview) (n : bytes) (e : entry) : Prop := {
    eo_view : vi_view vi = en_view e;
    eo_start : vi_start vi = en_start e;
    eo_sub : vi_sub vi = true;
    eo_can : canonical u (en_view e) sv;
    eo_name : sv_name sv = n;
    eo_agg : vi_agg vi = sv_aggp sv;
    eo_sigs : sigs_ok (sv_agg sv) (sv_keys sv) (en_samples e) (vi_sigs vi);
    eo_short : Forall (fun ms => short_values (fst ms)) (en_samples e);
    eo_desc : descriptor_of sv (vi_desc vi) }.

  Definition entry_ok (w : wst) (n : bytes) (x : nat) (e : entry) : Prop :=
    exists vi sv, nth_error (w_vis w) x = Some vi /\ vi_ok (w_u w) vi sv n e.

  Record WI (st : sstate) (w : wst) : Prop := {
    wk_u : ueq u0 (w_u w);
    wk_wf : mwf (w_views w);
    wk_wfm : mwf (w_meas w);
    wk_reg : forall n, match mget bytes_eqb (w_views w) n with
                       | None => st n = None
                       | Some x => exists e, st n = Some e /\ entry_ok w n x e
                       end;
    wk_meas : forall m x, In x (get_measure_ref w m) <->
                exists n e sv, mget bytes_eqb (w_views w) n = Some x /\ st n = Some e /\
                               spec_view u0 (en_view e) = Some sv /\ me_name (sv_measure sv) = m;
    wk_nodup : forall m, NoDup (get_measure_ref w m) }.

  Lemma WI_ext st st' w : (forall n, st n = st' n) -> WI st w -> WI st' w.
  Proof.
    intros H [A B B' C D E]. constructor; auto.
    - intros n. specialize (C n). rewrite <- H. exact C.
    - intros m x. rewrite D. split; intros (n & e & sv & H1 & H2 & H3 & H4); exists n, e, sv;
        (split; [exact H1|split; [congruence|auto]]).
  Qed.

  Lemma WI_init : WI (fun _ => None) (new_meter u0).
  Proof.
    constructor.
    - apply ueq_refl.
    - constructor.
    - constructor.
    - reflexivity.
    - intros m x. split; [intros []|]. intros (n & e & sv & H & _). discriminate.
    - intros m. constructor.
  Qed.

  Lemma reg_entry st w n x :
    WI st w -> mget bytes_eqb (w_views w) n = Some x ->
    exists e vi sv, st n = Some e /\ nth_error (w_vis w) x = Some vi /\ vi_ok (w_u w) vi sv n e /\
                    spec_view u0 (en_view e) = Some sv.
  Proof.
    intros I E. pose proof (wk_reg _ _ I n) as H. rewrite E in H.
    destruct H as (e & He & vi & sv & Hn & Hv). exists e, vi, sv.
    split; [exact He|]. split; [exact Hn|]. split; [exact Hv|].
    destruct (wk_u _ _ I) as (_ & _ & U & _). rewrite <- U. apply (eo_can _ _ _ _ _ Hv).
  Qed.

  Lemma reg_inj st w n n' x :
    WI st w -> mget bytes_eqb (w_views w) n = Some x -> mget bytes_eqb (w_views w) n' = Some x -> n = n'.
  Proof.
    intros I E E'. destruct (reg_entry _ _ _ _ I E) as (e & vi & sv & He & Hn & Hv & Hs).
    destruct (reg_entry _ _ _ _ I E') as (e' & vi' & sv' & He' & Hn' & Hv' & Hs').
    assert (vi' = vi) by congruence. subst vi'.
    assert (en_view e = en_view e') as Ee by (rewrite <- (eo_view _ _ _ _ _ Hv); apply (eo_view _ _ _ _ _ Hv')).
    rewrite Ee in Hs. assert (sv' = sv) by congruence. subst sv'.
    rewrite <- (eo_name _ _ _ _ _ Hv). apply (eo_name _ _ _ _ _ Hv').
  Qed.

  Lemma st_none st w n : WI st w -> (st n = None <-> mget bytes_eqb (w_views w) n = None).
  Proof.
    intros I. pose proof (wk_reg _ _ I n) as H. destruct (mget bytes_eqb (w_views w) n); split; intros; try congruence.
    destruct H as (e & He & _). congruence.
  Qed.

  (** ** Canonicalisation *)

  Lemma vi_ok_u u u' vi sv n e :
    (forall q sv, canonical u q sv -> canonical u' q sv) -> vi_ok u vi sv n e -> vi_ok u' vi sv n e.
  Proof. intros H []. constructor; auto. Qed.

  Lemma WI_u st w u' :
    WI st w -> ueq (w_u w) u' -> (forall q sv, canonical (w_u w) q sv -> canonical u' q sv) ->
    WI st (with_u w u').
  Proof.
    intros [A B B' C D E] Hu Hc. constructor; cbn [with_u w_u w_views w_meas w_vis]; auto.
    - eapply ueq_trans; eassumption.
    - intros n. specialize (C n). destruct (mget bytes_eqb (w_views w) n) as [x|]; [|exact C].
      destruct C as (e & He & vi & sv & Hn & Hv). exists e. split; [exact He|]. exists vi, sv.
      split; [exact Hn|]. cbn [w_u]. eapply vi_ok_u; eassumption.
  Qed.

  Lemma ueq_aggptr u : ueq u0 u ->
    forall p v ap, nth_error (u_views u) p = Some v -> v_agg v = Some ap -> ap < length (u_aggs u).
  Proof.
    intros (A & B & C & D) p v ap E Ea. destruct (D p v E) as (v0 & E0 & _ & Ev). rewrite B.
    destruct U0 as [H _]. eapply H; [exact E0|]. congruence.
  Qed.

  Lemma canon_all_spec ps : forall u,
    ueq u0 u -> Forall (fun p => p < length (u_views u0)) ps ->
    exists u' e, canon_all u ps = Some (u', e) /\ ueq u u' /\
      (forall q sv, canonical u q sv -> canonical u' q sv) /\
      if forallb (valid_view u0) ps then
        e = None /\ forall p, In p ps -> exists sv, canonical u' p sv
      else exists er, e = Some er.
  Proof.
    induction ps as [|p ps IH]; intros u Hu Hps.
    - exists u, None. cbn. split; [reflexivity|]. split; [apply ueq_refl|]. split; [auto|]. split; [reflexivity|]. contradiction.
    - inversion Hps as [|? ? Hp Hps']; subst.
      assert (L : length (u_views u) = length (u_views u0)) by apply Hu.
      assert (Sp : spec_view u p = spec_view u0 p) by apply Hu.
      destruct (canonicalize_spec u p) as (u1 & e1 & E1 & Hu1 & Hc1 & Hm); [lia|now apply ueq_aggptr|].
      cbn [canon_all forallb]. rewrite E1. unfold valid_view at 1. rewrite Sp in Hm.
      destruct (spec_view u0 p) as [sv|] eqn:Es.
      + destruct Hm as [-> Hcp].
        destruct (IH u1) as (u2 & e2 & E2 & Hu2 & Hc2 & Hm2); [eapply ueq_trans; eassumption|exact Hps'|].
        exists u2, e2. split; [exact E2|]. split; [eapply ueq_trans; eassumption|]. split; [auto|].
        cbn [andb]. destruct (forallb (valid_view u0) ps); [|exact Hm2].
        destruct Hm2 as [-> Hall]. split; [reflexivity|]. intros q [<-|Hq]; [|now apply Hall].
        exists sv. auto.
      + destruct Hm as [er ->]. exists u1, (Some er). split; [reflexivity|]. split; [exact Hu1|].
        split; [exact Hc1|]. cbn [andb]. eauto.
  Qed.

  (** ** Registration *)

  Lemma sv_kind u p sv : ueq u0 u -> canonical u p sv -> me_kind (sv_measure sv) <> MOther.
  Proof.
    intros Hu (C1 & C2 & C3). destruct Hu as (_ & _ & _ & D). apply D in C2.
    destruct C2 as (v & E & Em & _). cbn [v_measure] in Em. destruct U0 as (_ & _ & H).
    eapply H; [exact E|]. now rewrite <- Em.
  Qed.

  Lemma same_spec u p q sv sv' :
    ueq u0 u -> canonical u p sv -> canonical u q sv' -> same u p q = same_view u0 p q.
  Proof.
    intros (_ & _ & Hu & _) (C1 & C2 & _) (C1' & C2' & _). unfold same, same_view.
    rewrite <- !Hu, C1, C1', C2, C2'. reflexivity.
  Qed.

  Lemma ref_mset w m l m' views' vis' subs' :
    get_measure_ref (MkWS (w_u w) vis' views' (mset bytes_eqb (w_meas w) m l) subs' (w_exps w) (w_res w)) m' =
    if bytes_eqb m m' then l else get_measure_ref w m'.
  Proof.
    unfold get_measure_ref. cbn [w_meas]. rewrite (mget_mset _ bytes_eqb_spec).
    destruct (bytes_eqb m m'); reflexivity.
  Qed.

  Lemma s_set_same st n e : s_set st n e n = e.
  Proof. unfold s_set. now destruct (bytes_eqb_spec n n). Qed.
  Lemma s_set_other st n e n' : n <> n' -> s_set st n e n' = st n'.
  Proof. intros H. unfold s_set. now destruct (bytes_eqb_spec n n'). Qed.

  Lemma register_one_spec st w p now sv :
    WI st w -> canonical (w_u w) p sv ->
    exists w' ok, register_one w p now = Some (w', ok) /\
      WI (s_register u0 now st p) w' /\ w_u w' = w_u w /\ w_exps w' = w_exps w /\ w_res w' = w_res w /\
      ok = match st (sv_name sv) with Some e => same_view u0 (en_view e) p | None => true end.
  Proof.
    intros I Hc. pose proof (sv_kind _ _ _ (wk_u _ _ I) Hc) as Hk.
    assert (Es : spec_view u0 p = Some sv).
    { destruct (wk_u _ _ I) as (_ & _ & U & _). rewrite <- U. apply Hc. }
    pose proof Hc as (C1 & C2 & C3).
    destruct (canonical_descriptor (w_u w) p sv _ Hc Hk C2) as (d & Ed & Hd).
    unfold register_one. rewrite C2. cbn [v_measure v_agg v_name v_desc v_keys] in *. rewrite Ed.
    unfold s_register. rewrite Es.
    assert (Hmatch : forall (A : Type) (a b : A), match me_kind (sv_measure sv) with MOther => a | _ => b end = b).
    { intros A a b. destruct (me_kind (sv_measure sv)); congruence. }
    rewrite Hmatch. clear Hmatch.
    destruct (mget bytes_eqb (w_views w) (sv_name sv)) as [x|] eqn:Ex.
    - destruct (reg_entry _ _ _ _ I Ex) as (e & vi & sv' & He & Hn & Hv & Hs). rewrite Hn, He.
      rewrite (eo_view _ _ _ _ _ Hv).
      rewrite (same_spec _ _ _ sv' sv (wk_u _ _ I) (eo_can _ _ _ _ _ Hv) Hc).
      destruct (same_view u0 (en_view e) p) eqn:Esame.
      + eexists. exists true. split; [reflexivity|]. split; [|cbn; auto].
        rewrite (upd_id (w_vis w)).
        2:{ intros vi' E. assert (vi' = vi) by congruence. subst vi'. destruct vi; cbn in *.
            pose proof (eo_sub _ _ _ _ _ Hv) as Hsub. cbn in Hsub. now rewrite Hsub. }
        destruct I as [A B B' C D E]. constructor; auto.
      + eexists. exists false. split; [reflexivity|]. auto.
    - assert (Hst : st (sv_name sv) = None) by (now apply (st_none _ _ _ I)). rewrite Hst.
      eexists. exists true. split; [reflexivity|]. split; [|cbn; auto].
      set (x := length (w_vis w)). set (vi := MkVI p true (sv_aggp sv) [] d now).
      assert (Hlt : forall n x', mget bytes_eqb (w_views w) n = Some x' -> x' < x).
      { intros n x' E. destruct (reg_entry _ _ _ _ I E) as (? & ? & ? & _ & Hn & _).
        apply nth_error_Some. unfold x. congruence. }
      constructor.
      + apply (wk_u _ _ I).
      + apply (mwf_mset _ bytes_eqb_spec), (wk_wf _ _ I).
      + apply (mwf_mset _ bytes_eqb_spec), (wk_wfm _ _ I).
      + intros n. cbn [w_views w_vis]. rewrite (mget_mset _ bytes_eqb_spec).
        destruct (bytes_eqb_spec (sv_name sv) n) as [<-|Hne].
        * eexists. rewrite s_set_same. split; [reflexivity|]. exists vi, sv. cbn [w_vis w_u].
          rewrite nth_error_snoc. fold x. rewrite Nat.eqb_refl. split; [reflexivity|].
          constructor; cbn [vi en_view en_start en_samples vi_view vi_sub vi_agg vi_sigs vi_desc vi_start]; auto.
          apply sigs_ok_nil.
        * rewrite s_set_other by exact Hne. pose proof (wk_reg _ _ I n) as H.
          destruct (mget bytes_eqb (w_views w) n) as [x'|] eqn:E'; [|exact H].
          destruct H as (e & He & vi' & sv' & Hn & Hv). exists e. split; [exact He|]. exists vi', sv'.
          cbn [w_vis w_u]. split; [|exact Hv]. rewrite nth_error_snoc.
          destruct (Nat.eqb_spec x' (length (w_vis w))); [|exact Hn]. apply Hlt in E'. unfold x in E'. lia.
      + intros m x'. rewrite ref_mset. cbn [w_views].
        assert (Hold : In x' (get_measure_ref w m) -> exists n e sv0,
           mget bytes_eqb (mset bytes_eqb (w_views w) (sv_name sv) x) n = Some x' /\
           s_set st (sv_name sv) (Some (MkEntry p now [])) n = Some e /\
           spec_view u0 (en_view e) = Some sv0 /\ me_name (sv_measure sv0) = m).
        { intros H. apply (wk_meas _ _ I) in H. destruct H as (n & e & sv0 & H1 & H2 & H3 & H4).
          exists n, e, sv0. assert (sv_name sv <> n) by congruence.
          rewrite (mget_mset_other _ bytes_eqb_spec) by assumption. rewrite s_set_other by assumption. auto. }
        split.
        * destruct (bytes_eqb_spec (me_name (sv_measure sv)) m) as [<-|Hm].
          -- intros H. apply in_app_or in H. destruct H as [H|[<-|[]]]; [now apply Hold|].
             exists (sv_name sv), (MkEntry p now []), sv. rewrite (mget_mset_same _ bytes_eqb_spec), s_set_same. auto.
          -- exact Hold.
        * intros (n & e & sv0 & H1 & H2 & H3 & H4). rewrite (mget_mset _ bytes_eqb_spec) in H1.
          destruct (bytes_eqb_spec (sv_name sv) n) as [<-|Hne].
          -- injection H1 as <-. rewrite s_set_same in H2. injection H2 as <-. cbn [en_view] in H3.
             rewrite Es in H3. injection H3 as <-. rewrite H4. destruct (bytes_eqb_spec m m); [|congruence].
             apply in_or_app. right. now left.
          -- rewrite s_set_other in H2 by exact Hne.
             assert (X : In x' (get_measure_ref w m)) by (apply (wk_meas _ _ I); exists n, e, sv0; auto).
             destruct (bytes_eqb_spec (me_name (sv_measure sv)) m) as [<-|]; [apply in_or_app; now left|exact X].
      + intros m. rewrite ref_mset. destruct (bytes_eqb (me_name (sv_measure sv)) m); [|apply (wk_nodup _ _ I)].
        apply NoDup_snoc; [apply (wk_nodup _ _ I)|]. intros H. apply (wk_meas _ _ I) in H.
        destruct H as (n & e & sv0 & H1 & _). apply Hlt in H1. lia.
  Qed.

  Lemma register_all_spec ps : forall st w now,
    WI st w -> (forall p, In p ps -> exists sv, canonical (w_u w) p sv) ->
    exists w', register_all w ps now = Some (w', conflicts u0 now st ps) /\
      WI (fold_left (s_register u0 now) ps st) w' /\ w_exps w' = w_exps w /\ w_res w' = w_res w.
  Proof.
    induction ps as [|p ps IH]; intros st w now I Hc; cbn [register_all conflicts fold_left]; [eauto 6|].
    destruct (Hc p (or_introl eq_refl)) as [sv Hsv].
    destruct (register_one_spec st w p now sv I Hsv) as (w1 & ok & -> & I1 & Eu & Ee & Er & Hok).
    destruct (IH (s_register u0 now st p) w1 now I1) as (w2 & -> & I2 & Ee2 & Er2).
    { intros q Hq. rewrite Eu. apply Hc. now right. }
    exists w2. split; [|split; [exact I2|split; congruence]]. do 2 f_equal.
    assert (Es : spec_view u0 p = Some sv).
    { destruct (wk_u _ _ I) as (_ & _ & U & _). rewrite <- U. apply Hsv. }
    unfold s_register in *. rewrite Es in *.
    destruct (st (sv_name sv)) as [e|]; subst ok; [|reflexivity].
    destruct (same_view u0 (en_view e) p); reflexivity.
  Qed.

  (** ** Reporting *)

  Lemma collected_ok o w vi sv n e :
    vi_ok (w_u w) vi sv n e ->
    exists rows, collected_rows o w vi = Some rows /\
      is_group_by (sv_agg sv) (sv_keys sv) (en_samples e) rows /\ (rows = [] <-> en_samples e = []).
  Proof.
    intros [V1 V2 V3 (C1 & C2 & C3) V5 V6 V7 V8 V9]. unfold collected_rows. rewrite V1, C2. cbn [v_keys].
    eapply vc_group_by; [exact V7|exact V8|eapply spec_view_sorted_keys; eassumption|apply ord_perm].
  Qed.

  Lemma report_ok o st w n x e now :
    WI st w -> mget bytes_eqb (w_views w) n = Some x -> st n = Some e ->
    exists evs, report_view o w x now = Some evs /\ block_of u0 (w_exps w) now e evs.
  Proof.
    intros I E Est. destruct (reg_entry _ _ _ _ I E) as (e' & vi & sv & He & Hn & Hv & Hs).
    rewrite Est in He. injection He as <-. unfold report_view. rewrite Hn, (eo_sub _ _ _ _ _ Hv). cbn [negb].
    destruct (collected_ok o w vi sv n e Hv) as (rows & -> & HG & _). eexists. split; [reflexivity|].
    exists rows. split; [exists sv; auto|].
    rewrite (eo_view _ _ _ _ _ Hv), (eo_start _ _ _ _ _ Hv). apply Permutation_map, ord_perm.
  Qed.

  (** ** Unregistration *)

  Lemma mwf_upd_none {A} (m : list (bytes * A)) n : mget bytes_eqb (mdel bytes_eqb m n) n = None.
  Proof. rewrite (mget_mdel _ bytes_eqb_spec). now destruct (bytes_eqb_spec n n). Qed.

  Lemma unregister_one_spec o st w n now :
    WI st w ->
    exists w' evs, unregister_one o w n now = Some (w', evs) /\
      WI (s_set st n None) w' /\ w_exps w' = w_exps w /\ w_res w' = w_res w /\
      match st n with None => evs = [] | Some e => block_of u0 (w_exps w) now e evs end.
  Proof.
    intros I. unfold unregister_one. destruct (mget bytes_eqb (w_views w) n) as [x|] eqn:Ex.
    2:{ assert (Hst : st n = None) by now apply (st_none _ _ _ I). exists w, [].
        rewrite Hst. split; [reflexivity|]. split; [|auto].
        eapply WI_ext; [|exact I]. intros n'. unfold s_set. destruct (bytes_eqb_spec n n'); congruence. }
    destruct (reg_entry _ _ _ _ I Ex) as (e & vi & sv & He & Hn & Hv & Hs).
    destruct (report_ok o st w n x e now I Ex He) as (evs & -> & Hb). rewrite Hn.
    pose proof (eo_can _ _ _ _ _ Hv) as (C1 & C2 & C3). rewrite (eo_view _ _ _ _ _ Hv), C2. cbn [v_measure v_name].
    eexists. exists evs. split; [reflexivity|]. rewrite He. split; [|cbn; auto].
    rewrite (eo_name _ _ _ _ _ Hv).
    set (me := me_name (sv_measure sv)).
    assert (Href : forall m vis' views', get_measure_ref (MkWS (w_u w) vis' views'
       match mget bytes_eqb (w_meas w) me with
       | Some l => mset bytes_eqb (w_meas w) me (filter (fun y => negb (y =? x)) l)
       | None => w_meas w
       end (w_subs w) (w_exps w) (w_res w)) m =
       if bytes_eqb me m then filter (fun y => negb (y =? x)) (get_measure_ref w m) else get_measure_ref w m).
    { intros m vis' views'. unfold get_measure_ref. cbn [w_meas].
      destruct (bytes_eqb_spec me m) as [<-|Hne].
      - destruct (mget bytes_eqb (w_meas w) me) eqn:Em; [now rewrite (mget_mset_same _ bytes_eqb_spec)|].
        now rewrite Em.
      - destruct (mget bytes_eqb (w_meas w) me) eqn:Em; [now rewrite (mget_mset_other _ bytes_eqb_spec)|reflexivity]. }
    constructor.
    - apply (wk_u _ _ I).
    - cbn [w_views]. apply mwf_mdel, (wk_wf _ _ I).
    - cbn [w_meas]. destruct (mget bytes_eqb (w_meas w) me); [apply (mwf_mset _ bytes_eqb_spec)|]; apply (wk_wfm _ _ I).
    - intros n'. cbn [w_views]. rewrite (mget_mdel _ bytes_eqb_spec).
      destruct (bytes_eqb_spec n n') as [<-|Hne]; [apply s_set_same|]. rewrite s_set_other by exact Hne.
      pose proof (wk_reg _ _ I n') as H. destruct (mget bytes_eqb (w_views w) n') as [x'|] eqn:E'; [|exact H].
      destruct H as (e' & He' & vi' & sv' & Hn' & Hv'). exists e'. split; [exact He'|]. exists vi', sv'.
      cbn [w_vis w_u]. split; [|exact Hv']. rewrite nth_error_upd. destruct (Nat.eqb_spec x x') as [<-|]; [|exact Hn'].
      exfalso. apply Hne. eapply reg_inj; eassumption.
    - intros m x'. rewrite Href. cbn [w_views].
      assert (HX : (exists n' e' sv', mget bytes_eqb (mdel bytes_eqb (w_views w) n) n' = Some x' /\
           s_set st n None n' = Some e' /\ spec_view u0 (en_view e') = Some sv' /\ me_name (sv_measure sv') = m) <->
           In x' (get_measure_ref w m) /\ x' <> x).
      { rewrite (wk_meas _ _ I). split.
        - intros (n' & e' & sv' & H1 & H2 & H3 & H4). rewrite (mget_mdel _ bytes_eqb_spec) in H1.
          destruct (bytes_eqb_spec n n') as [<-|Hne]; [discriminate|]. rewrite s_set_other in H2 by exact Hne.
          split; [exists n', e', sv'; auto|]. intros ->. apply Hne. eapply reg_inj; eassumption.
        - intros ((n' & e' & sv' & H1 & H2 & H3 & H4) & Hx). assert (n <> n') as Hne by congruence.
          exists n', e', sv'. rewrite (mget_mdel _ bytes_eqb_spec), s_set_other by exact Hne.
          destruct (bytes_eqb_spec n n'); [contradiction|]. auto. }
      rewrite HX. destruct (bytes_eqb_spec me m) as [<-|Hm].
      + rewrite filter_In. destruct (Nat.eqb_spec x' x); simpl; intuition congruence.
      + split; [|tauto]. intros H. split; [exact H|]. intros ->. apply (wk_meas _ _ I) in H.
        destruct H as (n' & e' & sv' & H1 & H2 & H3 & H4).
        assert (n' = n) by (eapply reg_inj; eassumption). subst n'. rewrite He in H2. injection H2 as <-.
        rewrite Hs in H3. injection H3 as <-. now apply Hm.
    - intros m. rewrite Href. destruct (bytes_eqb me m); [apply NoDup_filter|]; apply (wk_nodup _ _ I).
  Qed.

  Lemma unregister_all_spec o ns : forall st w now,
    WI st w ->
    exists w' evs, unregister_all o w ns now = Some (w', evs) /\
      WI (fun n => if existsb (bytes_eqb n) ns then None else st n) w' /\
      w_exps w' = w_exps w /\ w_res w' = w_res w /\
      unregister_exports u0 (w_exps w) now st ns evs.
  Proof.
    induction ns as [|n ns IH]; intros st w now I; cbn [unregister_all unregister_exports existsb].
    - exists w, []. split; [reflexivity|]. split; [exact I|auto].
    - destruct (unregister_one_spec o st w n now I) as (w1 & evs1 & -> & I1 & Ee & Er & Hb).
      destruct (IH _ _ now I1) as (w2 & evs2 & -> & I2 & Ee2 & Er2 & Hx).
      exists w2, (evs1 ++ evs2). split; [reflexivity|]. split; [|split; [congruence|split; [congruence|]]].
      + eapply WI_ext; [|exact I2]. intros n'. cbv beta. unfold s_set.
        destruct (bytes_eqb_spec n n') as [<-|Hne].
        * destruct (bytes_eqb_spec n n); [|congruence]. cbn [orb]. now destruct (existsb _ ns).
        * destruct (bytes_eqb_spec n' n); [congruence|]. reflexivity.
      + rewrite Ee in Hx. destruct (st n) as [e|] eqn:En.
        * exists evs1, evs2. auto.
        * subst evs1. cbn [app]. clear - Hx En.
          assert (G : forall ns st st' evs, (forall n, st n = st' n) ->
                      unregister_exports u0 (w_exps w) now st ns evs -> unregister_exports u0 (w_exps w) now st' ns evs).
          { clear. induction ns as [|n ns IH]; intros st st' evs H; cbn [unregister_exports]; [auto|].
            rewrite <- H. destruct (st n) as [e|].
            - intros (b & evs' & H1 & H2 & H3). exists b, evs'. split; [exact H1|]. split; [exact H2|].
              eapply IH; [|exact H3]. intros n'. unfold s_set. destruct (bytes_eqb n n'); auto.
            - apply IH. exact H. }
          eapply G; [|exact Hx]. intros n'. unfold s_set. destruct (bytes_eqb_spec n n'); congruence.
  Qed.

  (** ** Recording *)

  Definition add_entry (tm : option tmap) (s : sample f64_num) (e : entry) : entry :=
    MkEntry (en_view e) (en_start e) (en_samples e ++ [(tm, s)]).

  Lemma vi_add_spec st w tm s n x e :
    WI st w -> short_values tm -> mget bytes_eqb (w_views w) n = Some x -> st n = Some e ->
    exists w', vi_add w tm s x = Some w' /\ WI (s_set st n (Some (add_entry tm s e))) w' /\
      w_views w' = w_views w /\ w_meas w' = w_meas w /\ w_exps w' = w_exps w /\ w_res w' = w_res w.
  Proof.
    intros I Hsh Ex Est. destruct (reg_entry _ _ _ _ I Ex) as (e' & vi & sv & He & Hn & Hv & Hs).
    rewrite Est in He. injection He as <-. unfold vi_add.
    rewrite Hn, (eo_sub _ _ _ _ _ Hv). cbn [negb]. pose proof (eo_can _ _ _ _ _ Hv) as (C1 & C2 & C3).
    rewrite (eo_view _ _ _ _ _ Hv), (eo_agg _ _ _ _ _ Hv), C2, C3. cbn [v_keys].
    rewrite encode_some. eexists. split; [reflexivity|]. split; [|cbn; auto].
    constructor; cbn [w_u w_views w_meas w_vis].
    - apply (wk_u _ _ I).
    - apply (wk_wf _ _ I).
    - apply (wk_wfm _ _ I).
    - intros n'. pose proof (wk_reg _ _ I n') as H.
      destruct (mget bytes_eqb (w_views w) n') as [x'|] eqn:E'.
      + destruct (bytes_eqb_spec n n') as [<-|Hne].
        * assert (x' = x) by congruence. subst x'. exists (add_entry tm s e). split; [apply s_set_same|].
          eexists. exists sv. cbn [w_vis w_u]. rewrite nth_error_upd, Nat.eqb_refl, Hn. split; [reflexivity|].
          destruct Hv as [V1 V2 V3 V4 V5 V6 V7 V8 V9].
          constructor; cbn [add_entry en_view en_start en_samples vi_view vi_sub vi_agg vi_sigs vi_desc vi_start]; auto.
          -- apply vc_add_ok; [exact V7|]. apply encode_some.
          -- apply Forall_app. split; [exact V8|]. constructor; [exact Hsh|constructor].
        * rewrite s_set_other by exact Hne. destruct H as (e' & He' & vi' & sv' & Hn' & Hv'). exists e'.
          split; [exact He'|]. exists vi', sv'. cbn [w_vis w_u]. split; [|exact Hv'].
          rewrite nth_error_upd. destruct (Nat.eqb_spec x x') as [<-|]; [|exact Hn'].
          exfalso. apply Hne. eapply reg_inj; eassumption.
      + destruct (bytes_eqb_spec n n') as [<-|Hne]; [congruence|]. now rewrite s_set_other.
    - intros m x'. change (In x' (get_measure_ref w m) <-> exists n' e' sv', mget bytes_eqb (w_views w) n' = Some x' /\
        s_set st n (Some (add_entry tm s e)) n' = Some e' /\ spec_view u0 (en_view e') = Some sv' /\ me_name (sv_measure sv') = m).
      rewrite (wk_meas _ _ I). split; intros (n' & e' & sv' & H1 & H2 & H3 & H4).
      + destruct (bytes_eqb_spec n n') as [<-|Hne].
        * exists n, (add_entry tm s e), sv. rewrite s_set_same. rewrite Est in H2. injection H2 as <-.
          rewrite Hs in H3. injection H3 as <-. auto.
        * exists n', e', sv'. rewrite s_set_other by exact Hne. auto.
      + destruct (bytes_eqb_spec n n') as [<-|Hne].
        * exists n, e, sv. rewrite s_set_same in H2. injection H2 as <-. cbn [add_entry en_view] in H3.
          rewrite Hs in H3. injection H3 as <-. auto.
        * exists n', e', sv'. rewrite s_set_other in H2 by exact Hne. auto.
    - intros m. apply (wk_nodup _ _ I).
  Qed.

  Lemma vi_add_all_spec tm s xs : forall st w,
    WI st w -> short_values tm -> NoDup xs ->
    (forall x, In x xs -> exists n, mget bytes_eqb (w_views w) n = Some x) ->
    exists w', vi_add_all w tm s xs = Some w' /\
      WI (fun n => match mget bytes_eqb (w_views w) n, st n with
                   | Some x, Some e => if existsb (Nat.eqb x) xs then Some (add_entry tm s e) else Some e
                   | _, r => r
                   end) w' /\
      w_views w' = w_views w /\ w_meas w' = w_meas w /\ w_exps w' = w_exps w /\ w_res w' = w_res w.
  Proof.
    induction xs as [|x xs IH]; intros st w I Hsh Hnd Hx; cbn [vi_add_all existsb].
    - exists w. split; [reflexivity|]. split; [|auto]. eapply WI_ext; [|exact I].
      intros n. cbv beta. destruct (mget bytes_eqb (w_views w) n), (st n); reflexivity.
    - inversion Hnd as [|? ? Hni Hnd']; subst. destruct (Hx x (or_introl eq_refl)) as [n En].
      destruct (reg_entry _ _ _ _ I En) as (e & _ & _ & He & _).
      destruct (vi_add_spec st w tm s n x e I Hsh En He) as (w1 & -> & I1 & V1 & M1 & X1 & R1).
      destruct (IH _ w1 I1 Hsh Hnd') as (w2 & -> & I2 & V2 & M2 & X2 & R2).
      { intros x' Hin. rewrite V1. apply Hx. now right. }
      exists w2. split; [reflexivity|]. split; [|repeat split; congruence].
      eapply WI_ext; [|exact I2]. intros n'. cbv beta. rewrite V1.
      destruct (bytes_eqb_spec n n') as [<-|Hne].
      + rewrite En, s_set_same, He, Nat.eqb_refl. cbn [orb].
        assert (existsb (Nat.eqb x) xs = false) as ->; [|reflexivity].
        destruct (existsb (Nat.eqb x) xs) eqn:Eb; [|reflexivity]. apply existsb_exists in Eb.
        destruct Eb as (y & Hy & Ey). apply Nat.eqb_eq in Ey. subst y. contradiction.
      + rewrite s_set_other by exact Hne. destruct (mget bytes_eqb (w_views w) n') as [x'|] eqn:E'; [|reflexivity].
        destruct (st n') as [e'|]; [|reflexivity]. destruct (Nat.eqb_spec x' x) as [->|]; [|reflexivity].
        exfalso. apply Hne. exact (reg_inj st w n n' x I En E').
  Qed.

  (** The specification's state after one measurement. *)
  Definition rec_state (tm : option tmap) (ms : list measurement) att t (st : sstate) : sstate :=
    s_step u0 st (CmdRecord tm ms att t).

  Lemma record_all_spec o tm att t ms : forall st w,
    WI st w -> short_values tm ->
    exists w', record_all o w tm ms att t = Some w' /\ WI (rec_state tm ms att t st) w' /\
      w_exps w' = w_exps w /\ w_res w' = w_res w.
  Proof.
    induction ms as [|[[me v]|] ms IH]; intros st w I Hsh; cbn [record_all].
    - exists w. split; [reflexivity|]. split; [|auto]. eapply WI_ext; [|exact I].
      intros n. unfold rec_state. cbn [s_step]. destruct (st n) as [[ev es el]|] eqn:E; [|reflexivity].
      cbn [en_view en_start en_samples]. destruct (spec_view u0 ev); [|reflexivity].
      cbn [samples_for flat_map]. now rewrite app_nil_r.
    - set (ref := get_measure_ref w (me_name me)).
      set (w0 := MkWS (w_u w) (w_vis w) (w_views w) (mset bytes_eqb (w_meas w) (me_name me) ref)
                      (w_subs w) (w_exps w) (w_res w)).
      assert (Href : forall m, get_measure_ref w0 m = get_measure_ref w m).
      { intros m. unfold w0. rewrite ref_mset. destruct (bytes_eqb_spec (me_name me) m) as [<-|]; reflexivity. }
      assert (I0 : WI st w0).
      { destruct I as [A B B' C D E]. constructor; auto.
        - apply (mwf_mset _ bytes_eqb_spec). exact B'.
        - intros m x. rewrite Href. apply D.
        - intros m. rewrite Href. apply E. }
      set (s := @MkSample f64_num v att t).
      destruct (vi_add_all_spec tm s (ord o _ ref) st w0 I0 Hsh) as (w1 & E1 & I1 & V1 & M1 & X1 & R1).
      { eapply Permutation_NoDup; [symmetry; apply ord_perm|]. apply (wk_nodup _ _ I). }
      { intros x Hin. eapply Permutation_in in Hin; [|apply ord_perm]. apply (wk_meas _ _ I) in Hin.
        destruct Hin as (n & _ & _ & H & _). exists n. exact H. }
      rewrite E1. destruct (IH _ w1 I1 Hsh) as (w2 & E2 & I2 & X2 & R2).
      exists w2. split; [exact E2|]. split; [|split; [rewrite X2, X1|rewrite R2, R1]; reflexivity].
      eapply WI_ext; [|exact I2]. intros n. unfold rec_state. cbn [s_step]. change (w_views w0) with (w_views w).
      destruct (mget bytes_eqb (w_views w) n) as [x|] eqn:Ex.
      2:{ assert (Hst : st n = None) by now apply (st_none _ _ _ I). now rewrite Hst. }
      destruct (reg_entry _ _ _ _ I Ex) as (e & vi & sv & He & Hn & Hv & Hs). rewrite He.
      assert (Hex : existsb (Nat.eqb x) (ord o nat ref) = bytes_eqb (me_name me) (me_name (sv_measure sv))).
      { rewrite (existsb_perm _ _ _ (ord_perm o _ ref)). apply eq_true_iff_eq. rewrite existsb_exists. split.
        - intros (y & Hy & Ey). apply Nat.eqb_eq in Ey. subst y. apply (wk_meas _ _ I) in Hy.
          destruct Hy as (n' & e' & sv' & H1 & H2 & H3 & H4).
          assert (n' = n) by (exact (reg_inj st w n' n x I H1 Ex)). subst n'. rewrite He in H2. injection H2 as <-.
          rewrite Hs in H3. injection H3 as <-. rewrite H4. now destruct (bytes_eqb_spec (me_name me) (me_name me)).
        - intros Hm. destruct (bytes_eqb_spec (me_name me) (me_name (sv_measure sv))) as [Em|]; [|discriminate].
          exists x. split; [|apply Nat.eqb_refl]. apply (wk_meas _ _ I). exists n, e, sv. auto. }
      rewrite Hex. unfold samples_for. cbn [flat_map].
      destruct (bytes_eqb (me_name me) (me_name (sv_measure sv))) eqn:Em;
        cbn [add_entry en_view en_start en_samples]; rewrite Hs; cbn [app]; rewrite ?Em.
      + cbn [app]. now rewrite <- app_assoc.
      + reflexivity.
    - destruct (IH st w I Hsh) as (w2 & E2 & I2 & X2 & R2). exists w2. auto.
  Qed.

  (** ** Reports and reads over all views *)

  Lemma names_perm o st w : WI st w ->
    lists_names st (map fst (ord o _ (w_views w))) /\
    forall n x, In (n, x) (ord o _ (w_views w)) -> mget bytes_eqb (w_views w) n = Some x.
  Proof.
    intros I. pose proof (ord_perm o _ (w_views w)) as Hp. split; [split|].
    - eapply Permutation_NoDup; [apply Permutation_map; symmetry; exact Hp|]. apply (wk_wf _ _ I).
    - intros n. rewrite (st_none _ _ _ I).
      assert (HI : In n (map fst (ord o _ (w_views w))) <-> In n (mkeys (w_views w))).
      { split; apply Permutation_in; [|symmetry]; now apply Permutation_map. }
      rewrite HI. pose proof (mget_None _ bytes_eqb_spec (w_views w) n) as HN.
      destruct (mget bytes_eqb (w_views w) n) as [x|] eqn:E.
      + split; [discriminate|]. intros _. eapply (mget_Some_key _ bytes_eqb_spec); eassumption.
      + split; [|congruence]. intros H. exfalso. now apply HN in H.
    - intros n x Hin. apply (In_mget _ bytes_eqb_spec); [apply (wk_wf _ _ I)|]. eapply Permutation_in; eassumption.
  Qed.

  Lemma report_all_spec o st w now vs :
    WI st w -> (forall n x, In (n, x) vs -> mget bytes_eqb (w_views w) n = Some x) ->
    exists blocks, report_all o w vs now = Some (concat blocks) /\
      Forall2 (fun n b => exists e, st n = Some e /\ block_of u0 (w_exps w) now e b) (map fst vs) blocks.
  Proof.
    intros I. induction vs as [|[n x] vs IH]; intros H; cbn [report_all map]; [exists []; split; constructor|].
    pose proof (H n x (or_introl eq_refl)) as Ex. destruct (reg_entry _ _ _ _ I Ex) as (e & _ & _ & He & _).
    destruct (report_ok o st w n x e now I Ex He) as (evs & -> & Hb).
    destruct IH as (blocks & -> & HF); [intros n' x' Hin; apply H; now right|].
    exists (evs :: blocks). split; [reflexivity|]. constructor; [exists e; auto|exact HF].
  Qed.

  Lemma read_all_spec o st w now vs :
    WI st w -> (forall n x, In (n, x) vs -> mget bytes_eqb (w_views w) n = Some x) ->
    exists ms, read_all o w vs now = Some ms /\
      Forall2 (fun n m => exists e, st n = Some e /\ metric_of u0 (w_res w) now e m)
        (filter (fun n => match st n with Some e => match en_samples e with [] => false | _ => true end | None => false end) (map fst vs)) ms.
  Proof.
    intros I. induction vs as [|[n x] vs IH]; intros H; cbn [read_all map filter fst]; [exists []; split; constructor|].
    pose proof (H n x (or_introl eq_refl)) as Ex. destruct (reg_entry _ _ _ _ I Ex) as (e & vi & sv & He & Hn & Hv & Hs).
    destruct IH as (ms & -> & HF); [intros n' x' Hin; apply H; now right|].
    unfold to_metric. rewrite Hn, (eo_sub _ _ _ _ _ Hv). cbn [negb].
    destruct (collected_ok o w vi sv n e Hv) as (rows & -> & HG & Hnil).
    pose proof (view_to_metric_spec sv (vi_desc vi) (en_samples e) rows (w_res w) now (eo_desc _ _ _ _ _ Hv) HG) as Hm.
    rewrite He. destruct rows as [|row rows].
    - rewrite (proj1 Hnil eq_refl). rewrite Hm. exists ms. auto.
    - assert (en_samples e <> []) as Hne by (intros E; apply Hnil in E; discriminate).
      destruct Hm as (ts & -> & HT). exists (MkMetric (vi_desc vi) (w_res w) ts :: ms). split; [reflexivity|].
      destruct (en_samples e) eqn:Ee; [congruence|]. constructor; [|exact HF].
      exists e. split; [exact He|]. exists sv, (row :: rows). split; [exact Hs|]. split; [exists sv; rewrite Ee; auto|].
      cbn [mt_desc mt_resource mt_series]. split; [apply (eo_desc _ _ _ _ _ Hv)|]. auto.
  Qed.

  (** ** One command *)

  Definition WIh (h : list cmd) (w : wst) : Prop :=
    WI (s_state u0 h) w /\ w_exps w = exporters h /\ w_res w = resource_of h.

  Lemma s_state_snoc h c : s_state u0 (h ++ [c]) = s_step u0 (s_state u0 h) c.
  Proof. unfold s_state. now rewrite fold_left_app. Qed.

  Lemma handle_spec o h w c :
    WIh h w -> cmd_ok u0 c ->
    exists r evs w', handle o w c = Some (r, evs, w') /\ answer u0 h c r evs /\ WIh (h ++ [c]) w'.
  Proof.
    intros (I & Ee & Er) Hok.
    assert (Hexp : forall c', exporters (h ++ [c']) = match c' with
              | CmdAddExporter e => if existsb (Nat.eqb e) (exporters h) then exporters h else exporters h ++ [e]
              | CmdDelExporter e => filter (fun e' => negb (e' =? e)) (exporters h)
              | _ => exporters h end) by (intros c'; unfold exporters; now rewrite fold_left_app).
    assert (Hres : forall c', resource_of (h ++ [c']) = match c' with CmdSetResource r => Some r | _ => resource_of h end)
      by (intros c'; unfold resource_of; now rewrite fold_left_app).
    destruct c as [n|ps now|ns now|n|tm ms att t|d|now|now|e|e|r]; cbn [handle answer cmd_ok] in *.
    - destruct (mget bytes_eqb (w_views w) n) as [x|] eqn:Ex.
      + destruct (reg_entry _ _ _ _ I Ex) as (e & vi & sv & He & Hn & Hv & Hs). rewrite Hn.
        do 3 eexists. split; [reflexivity|]. rewrite He, (eo_view _ _ _ _ _ Hv). split; [auto|].
        unfold WIh. rewrite s_state_snoc, Hexp, Hres. auto.
      + assert (Hst : s_state u0 h n = None) by now apply (st_none _ _ _ I). rewrite Hst.
        do 3 eexists. split; [reflexivity|]. split; [auto|]. unfold WIh. rewrite s_state_snoc, Hexp, Hres. auto.
    - unfold handle_register.
      destruct (canon_all_spec ps (w_u w) (wk_u _ _ I) Hok) as (u' & e & -> & Hu & Hc & Hm).
      pose proof (WI_u _ _ u' I Hu Hc) as I1.
      unfold WIh. rewrite s_state_snoc, Hexp, Hres. cbn [s_step].
      destruct (forallb (valid_view u0) ps).
      + destruct Hm as [-> Hall]. destruct (register_all_spec ps _ (with_u w u') now I1 Hall) as (w' & -> & I2 & E2 & R2).
        cbn [with_u w_exps w_res] in *.
        destruct (conflicts u0 now (s_state u0 h) ps) as [|p l] eqn:Ec.
        * do 3 eexists. split; [reflexivity|]. split; [auto|]. split; [exact I2|split; congruence].
        * do 3 eexists. split; [reflexivity|]. split; [auto|]. split; [exact I2|split; congruence].
      + destruct Hm as [er ->]. do 3 eexists. split; [reflexivity|]. split; [eauto|]. cbn [with_u w_exps w_res]. auto.
    - destruct (unregister_all_spec o ns _ w now I) as (w' & evs & -> & I' & E' & R' & Hx).
      do 3 eexists. split; [reflexivity|]. rewrite <- Ee. split; [auto|].
      unfold WIh. rewrite s_state_snoc, Hexp, Hres. cbn [s_step]. split; [exact I'|split; congruence].
    - unfold handle_retrieve. unfold WIh. rewrite s_state_snoc, Hexp, Hres. cbn [s_step].
      destruct (mget bytes_eqb (w_views w) n) as [x|] eqn:Ex.
      + destruct (reg_entry _ _ _ _ I Ex) as (e & vi & sv & He & Hn & Hv & Hs).
        rewrite Hn, (eo_sub _ _ _ _ _ Hv). cbn [negb].
        destruct (collected_ok o w vi sv n e Hv) as (rows & -> & HG & _).
        do 3 eexists. split; [reflexivity|]. rewrite He. split; [|auto].
        split; [reflexivity|]. exists rows. split; [reflexivity|]. exists sv. auto.
      + assert (Hst : s_state u0 h n = None) by now apply (st_none _ _ _ I). rewrite Hst.
        do 3 eexists. split; [reflexivity|]. auto.
    - destruct (record_all_spec o tm att t ms _ w I Hok) as (w' & -> & I' & E' & R').
      do 3 eexists. split; [reflexivity|]. split; [auto|].
      unfold WIh. rewrite s_state_snoc, Hexp, Hres. split; [exact I'|split; congruence].
    - do 3 eexists. split; [reflexivity|]. split; [auto|]. unfold WIh. rewrite s_state_snoc, Hexp, Hres. auto.
    - destruct (names_perm o _ w I) as [HN HI].
      destruct (report_all_spec o _ w now _ I HI) as (blocks & -> & HF).
      do 3 eexists. split; [reflexivity|]. split.
      + split; [reflexivity|]. rewrite <- Ee. exists (map fst (ord o _ (w_views w))), blocks. auto.
      + unfold WIh. rewrite s_state_snoc, Hexp, Hres. auto.
    - destruct (names_perm o _ w I) as [[HN1 HN2] HI].
      destruct (read_all_spec o _ w now _ I HI) as (ms & -> & HF).
      do 3 eexists. split; [reflexivity|]. split.
      + split; [reflexivity|]. exists ms. split; [reflexivity|]. rewrite <- Er. eexists. split; [|split; [|exact HF]].
        * now apply NoDup_filter.
        * intros n. rewrite filter_In, HN2. destruct (s_state u0 h n) as [e|].
          -- split.
             ++ intros [_ H]. exists e. split; [reflexivity|]. intros E. now rewrite E in H.
             ++ intros (e' & [= <-] & H). split; [discriminate|]. now destruct (en_samples e).
          -- split; [intros [H _]; congruence|]. intros (e' & H & _). discriminate.
      + unfold WIh. rewrite s_state_snoc, Hexp, Hres. auto.
    - do 3 eexists. split; [reflexivity|]. split; [auto|]. unfold WIh. rewrite s_state_snoc, Hexp, Hres.
      cbn [w_exps w_res s_step]. rewrite Ee. split; [|auto]. destruct I; constructor; auto.
    - do 3 eexists. split; [reflexivity|]. split; [auto|]. unfold WIh. rewrite s_state_snoc, Hexp, Hres.
      cbn [w_exps w_res s_step]. rewrite Ee. split; [|auto]. destruct I; constructor; auto.
    - do 3 eexists. split; [reflexivity|]. split; [auto|]. unfold WIh. rewrite s_state_snoc, Hexp, Hres.
      cbn [w_exps w_res s_step]. split; [|auto]. destruct I; constructor; auto.
  Qed.

  Lemma wrun_WI h w : Forall (cmd_ok u0) h -> wrun u0 h w -> WIh h w.
  Proof.
    intros Hok H. induction H as [|h w o c r evs w' H IH Hh].
    - split; [apply WI_init|]. auto.
    - apply Forall_app in Hok. destruct Hok as [Hok Hc]. inversion Hc; subst.
      destruct (handle_spec o h w c (IH Hok)) as (r' & evs' & w'' & E & _ & I'); [assumption|].
      rewrite Hh in E. injection E as <- <- <-. exact I'.
  Qed.

  (** ** Subscriptions *)

  Definition viewed (st : sstate) (m : bytes) : Prop :=
    exists n e sv, st n = Some e /\ spec_view u0 (en_view e) = Some sv /\ me_name (sv_measure sv) = m.

  Lemma viewed_register now st p m : viewed st m -> viewed (s_register u0 now st p) m.
  Proof.
    intros (n & e & sv & H1 & H2 & H3). exists n, e, sv. split; [|auto]. unfold s_register.
    destruct (spec_view u0 p) as [sv'|]; [|exact H1]. destruct (st (sv_name sv')) eqn:E; [exact H1|].
    rewrite s_set_other; [exact H1|]. congruence.
  Qed.

  Lemma viewed_fold now ps : forall st m, viewed st m -> viewed (fold_left (s_register u0 now) ps st) m.
  Proof. induction ps as [|p ps IH]; intros st m H; [exact H|]. cbn [fold_left]. apply IH. now apply viewed_register. Qed.

  Lemma register_one_subs st w p now sv w' ok :
    WI st w -> canonical (w_u w) p sv -> register_one w p now = Some (w', ok) ->
    (forall m, viewed st m -> In m (w_subs w)) ->
    forall m, In m (w_subs w') <-> In m (w_subs w) \/ viewed (s_register u0 now st p) m.
  Proof.
    intros I Hc E Hsub m. pose proof (sv_kind _ _ _ (wk_u _ _ I) Hc) as Hk.
    assert (Es : spec_view u0 p = Some sv).
    { destruct (wk_u _ _ I) as (_ & _ & U & _). rewrite <- U. apply Hc. }
    pose proof Hc as (C1 & C2 & C3).
    destruct (canonical_descriptor (w_u w) p sv _ Hc Hk C2) as (d & Ed & Hd).
    unfold register_one in E. rewrite C2 in E. cbn [v_measure v_agg v_name v_desc v_keys] in *. rewrite Ed in E.
    assert (Hmatch : forall (A : Type) (a b : A), match me_kind (sv_measure sv) with MOther => a | _ => b end = b).
    { intros A a b. destruct (me_kind (sv_measure sv)); congruence. }
    rewrite Hmatch in E. clear Hmatch. unfold s_register. rewrite Es.
    destruct (mget bytes_eqb (w_views w) (sv_name sv)) as [x|] eqn:Ex.
    - destruct (reg_entry _ _ _ _ I Ex) as (e & vi & sv' & He & Hn & Hv & Hs). rewrite Hn in E. rewrite He.
      rewrite (eo_view _ _ _ _ _ Hv) in E.
      rewrite (same_spec _ _ _ sv' sv (wk_u _ _ I) (eo_can _ _ _ _ _ Hv) Hc) in E.
      destruct (same_view u0 (en_view e) p) eqn:Esame.
      + injection E as <- <-. cbn [w_subs In]. split; [|intros [H|H]; [auto|right; auto]].
        intros [<-|H]; [right|now left]. exists (sv_name sv), e, sv'. split; [exact He|]. split; [exact Hs|].
        unfold same_view in Esame. rewrite Hs, Es in Esame. apply orb_true_iff in Esame.
        destruct Esame as [Esame|Esame].
        * apply Nat.eqb_eq in Esame. rewrite Esame in Hs. congruence.
        * apply andb_true_iff in Esame. destruct Esame as [_ Em].
          now destruct (bytes_eqb_spec (me_name (sv_measure sv')) (me_name (sv_measure sv))).
      + injection E as <- <-. split; [auto|]. intros [H|H]; auto.
    - assert (Hst : st (sv_name sv) = None) by (now apply (st_none _ _ _ I)). rewrite Hst.
      injection E as <- <-. cbn [w_subs In]. split.
      + intros [<-|H]; [right|now left]. exists (sv_name sv), (MkEntry p now []), sv. rewrite s_set_same. auto.
      + intros [H|(n & e & sv' & H1 & H2 & H3)]; [auto|].
        destruct (bytes_eqb_spec (sv_name sv) n) as [<-|Hne].
        * rewrite s_set_same in H1. injection H1 as <-. cbn [en_view] in H2. left. congruence.
        * rewrite s_set_other in H1 by exact Hne. right. apply Hsub. exists n, e, sv'. auto.
  Qed.

  Lemma register_all_subs ps : forall st w now w' bad,
    WI st w -> (forall p, In p ps -> exists sv, canonical (w_u w) p sv) ->
    register_all w ps now = Some (w', bad) ->
    (forall m, viewed st m -> In m (w_subs w)) ->
    forall m, In m (w_subs w') <-> In m (w_subs w) \/ viewed (fold_left (s_register u0 now) ps st) m.
  Proof.
    induction ps as [|p ps IH]; intros st w now w' bad I Hc E Hsub m; cbn [register_all fold_left] in *.
    - injection E as <- <-. split; [auto|]. intros [H|H]; auto.
    - destruct (Hc p (or_introl eq_refl)) as [sv Hsv].
      destruct (register_one_spec st w p now sv I Hsv) as (w1 & ok & E1 & I1 & Eu & _).
      rewrite E1 in E. destruct (register_all w1 ps now) as [[w2 bad2]|] eqn:E2; [|discriminate].
      injection E as <- _. pose proof (register_one_subs st w p now sv w1 ok I Hsv E1 Hsub) as H1.
      assert (Hsub1 : forall m, viewed (s_register u0 now st p) m -> In m (w_subs w1)).
      { intros m' Hm. apply H1. now right. }
      rewrite (IH _ w1 now w2 bad2 I1) with (m := m); [|intros q Hq; rewrite Eu; apply Hc; now right|exact E2|exact Hsub1].
      rewrite H1. split; [|tauto]. intros [[H|H]|H]; [now left|right; now apply viewed_fold|now right].
  Qed.

  Lemma vi_add_subs w tm s x w' : vi_add w tm s x = Some w' -> w_subs w' = w_subs w.
  Proof.
    unfold vi_add. destruct (nth_error (w_vis w) x) as [vi|]; [|discriminate].
    destruct (negb (vi_sub vi)); [intros [= <-]; reflexivity|].
    destruct (nth_error (u_views (w_u w)) (vi_view vi)); [|discriminate].
    destruct (nth_error (u_aggs (w_u w)) (vi_agg vi)); [|discriminate].
    destruct (encode_with_keys tm (v_keys v)); [|discriminate]. intros [= <-]. reflexivity.
  Qed.

  Lemma vi_add_all_subs tm s xs : forall w w', vi_add_all w tm s xs = Some w' -> w_subs w' = w_subs w.
  Proof.
    induction xs as [|x xs IH]; intros w w' E; cbn [vi_add_all] in E; [injection E as <-; reflexivity|].
    destruct (vi_add w tm s x) as [w1|] eqn:E1; [|discriminate]. apply IH in E. apply vi_add_subs in E1. congruence.
  Qed.

  Lemma record_all_subs o tm att t ms : forall w w', record_all o w tm ms att t = Some w' -> w_subs w' = w_subs w.
  Proof.
    induction ms as [|[[me v]|] ms IH]; intros w w' E; cbn [record_all] in E.
    - injection E as <-. reflexivity.
    - match type of E with match ?x with _ => _ end = _ => destruct x as [w1|] eqn:E1; [|discriminate] end.
      apply IH in E. apply vi_add_all_subs in E1. cbn [w_subs] in E1. congruence.
    - now apply IH in E.
  Qed.

  Lemma unregister_all_subs o ns : forall w now w' evs, unregister_all o w ns now = Some (w', evs) -> w_subs w' = w_subs w.
  Proof.
    induction ns as [|n ns IH]; intros w now w' evs E; cbn [unregister_all] in E; [injection E as <- _; reflexivity|].
    destruct (unregister_one o w n now) as [[w1 e1]|] eqn:E1; [|discriminate].
    destruct (unregister_all o w1 ns now) as [[w2 e2]|] eqn:E2; [|discriminate]. injection E as <- _.
    apply IH in E2. rewrite E2. unfold unregister_one in E1.
    destruct (mget bytes_eqb (w_views w) n); [|injection E1 as <- _; reflexivity].
    destruct (report_view o w n0 now); [|discriminate]. destruct (nth_error (w_vis w) n0); [|discriminate].
    destruct (nth_error (u_views (w_u w)) (vi_view v)); [|discriminate]. destruct (v_measure v0); [|discriminate].
    injection E1 as <- _. reflexivity.
  Qed.

  (** Some view of measure [m] was registered at some point of the history. *)
  Definition ever_viewed (h : list cmd) (m : bytes) : Prop :=
    exists h1 h2 n e sv, h = h1 ++ h2 /\ s_state u0 h1 n = Some e /\
      spec_view u0 (en_view e) = Some sv /\ me_name (sv_measure sv) = m.

  Lemma ever_viewed_snoc h c m :
    ever_viewed (h ++ [c]) m <-> ever_viewed h m \/ viewed (s_state u0 (h ++ [c])) m.
  Proof.
    split.
    - intros (h1 & h2 & n & e & sv & E & H). destruct (list_eq_nil_dec h2) as [->|Hne].
      + right. rewrite app_nil_r in E. subst h1. exists n, e, sv. exact H.
      + left. destruct (exists_last Hne) as (h2' & c' & ->). rewrite app_assoc in E.
        apply app_inj_tail in E. destruct E as [-> _]. exists h1, h2', n, e, sv. auto.
    - intros [(h1 & h2 & n & e & sv & -> & H)|(n & e & sv & H)].
      + exists h1, (h2 ++ [c]), n, e, sv. rewrite app_assoc. auto.
      + exists (h ++ [c]), [], n, e, sv. rewrite app_nil_r. auto.
  Qed.

  Lemma wrun_subs h w : Forall (cmd_ok u0) h -> wrun u0 h w -> forall m, In m (w_subs w) <-> ever_viewed h m.
  Proof.
    intros Hok H. induction H as [|h w o c r evs w' H IH Hh]; intros m.
    - split; [intros []|]. intros (h1 & h2 & n & e & sv & E & H1 & _). symmetry in E. apply app_eq_nil in E.
      destruct E as [-> _]. discriminate.
    - apply Forall_app in Hok. destruct Hok as [Hok Hc]. inversion Hc as [|? ? Hc1 _]; subst.
      specialize (IH Hok). rewrite ever_viewed_snoc, <- IH.
      pose proof (wrun_WI h w Hok H) as (I & _ & _).
      assert (Hsub : forall m, viewed (s_state u0 h) m -> In m (w_subs w)).
      { intros m' (n & e & sv & Hv). apply IH. exists h, [], n, e, sv. rewrite app_nil_r. auto. }
      assert (Hkeep : w_subs w' = w_subs w -> (forall m, viewed (s_step u0 (s_state u0 h) c) m -> viewed (s_state u0 h) m) ->
                In m (w_subs w') <-> In m (w_subs w) \/ viewed (s_state u0 (h ++ [c])) m).
      { intros -> Hv. rewrite s_state_snoc. split; [auto|]. intros [Hm|Hm]; [exact Hm|]. auto. }
      destruct c as [n|ps now|ns now|n|tm ms att t|d|now|now|e|e|r0]; cbn [handle cmd_ok] in *.
      + apply Hkeep; [|auto]. destruct (mget bytes_eqb (w_views w) n); [destruct (nth_error (w_vis w) n0); [|discriminate]|];
          injection Hh as _ _ <-; reflexivity.
      + clear Hkeep. rewrite s_state_snoc. cbn [s_step]. unfold handle_register in Hh.
        destruct (canon_all_spec ps (w_u w) (wk_u _ _ I) Hc1) as (u' & e & Ec & Hu & Hcc & Hm). rewrite Ec in Hh.
        pose proof (WI_u _ _ u' I Hu Hcc) as I1. destruct (forallb (valid_view u0) ps).
        * destruct Hm as [-> Hall]. destruct (register_all (with_u w u') ps now) as [[w1 bad]|] eqn:Er; [|discriminate].
          assert (w' = w1) by (destruct bad; injection Hh as _ _ <-; reflexivity). subst w1.
          rewrite (register_all_subs ps _ (with_u w u') now w' bad I1 Hall Er); [reflexivity|exact Hsub].
        * destruct Hm as [er ->]. injection Hh as _ _ <-. cbn [with_u w_subs]. split; [auto|]. intros [Hm|Hm]; auto.
      + apply Hkeep.
        * destruct (unregister_all o w ns now) as [[w1 e1]|] eqn:E; [|discriminate]. injection Hh as _ _ <-.
          eapply unregister_all_subs; exact E.
        * intros m' (n & e & sv & H1 & H2). cbn [s_step] in H1. exists n, e, sv. split; [|exact H2].
          destruct (existsb (bytes_eqb n) ns); [discriminate|exact H1].
      + apply Hkeep; [|auto]. destruct (handle_retrieve o w n); [|discriminate]. injection Hh as _ _ <-. reflexivity.
      + apply Hkeep.
        * destruct (record_all o w tm ms att t) as [w1|] eqn:E; [|discriminate]. injection Hh as _ _ <-.
          eapply record_all_subs; exact E.
        * intros m' (n & e & sv & H1 & H2 & H3). cbn [s_step] in H1. destruct (s_state u0 h n) as [e0|] eqn:E0; [|discriminate].
          exists n, e0. destruct (spec_view u0 (en_view e0)) as [sv0|] eqn:E1.
          -- injection H1 as <-. cbn [en_view] in H2. exists sv. rewrite E1 in H2. auto.
          -- injection H1 as <-. congruence.
      + injection Hh as _ _ <-. apply Hkeep; auto.
      + apply Hkeep; [|auto]. destruct (report_all o w (ord o _ (w_views w)) now); [|discriminate]. injection Hh as _ _ <-. reflexivity.
      + apply Hkeep; [|auto]. destruct (read_all o w (ord o _ (w_views w)) now); [|discriminate]. injection Hh as _ _ <-. reflexivity.
      + injection Hh as _ _ <-. apply Hkeep; auto.
      + injection Hh as _ _ <-. apply Hkeep; auto.
      + injection Hh as _ _ <-. apply Hkeep; auto.
  Qed.

  (** ** Facts about the abstract state *)

  Lemma s_state_name h : forall n e, s_state u0 h n = Some e ->
    exists sv, spec_view u0 (en_view e) = Some sv /\ sv_name sv = n.
  Proof.
    induction h as [|c h IH] using rev_ind; [discriminate|]. rewrite s_state_snoc.
    destruct c as [n0|ps now|ns now|n0|tm ms att t|d|now|now|e0|e0|r0]; cbn [s_step]; try exact IH.
    - destruct (forallb (valid_view u0) ps); [|exact IH]. revert IH. generalize (s_state u0 h) as st.
      induction ps as [|p ps IHp]; intros st IH; [exact IH|]. cbn [fold_left]. apply IHp.
      intros n e. unfold s_register. destruct (spec_view u0 p) as [sv|] eqn:E; [|apply IH].
      destruct (st (sv_name sv)) eqn:E1; [apply IH|]. unfold s_set.
      destruct (bytes_eqb_spec (sv_name sv) n) as [<-|]; [|apply IH]. intros [= <-]. cbn [en_view]. exists sv. auto.
    - intros n e. destruct (existsb (bytes_eqb n) ns); [discriminate|apply IH].
    - intros n e. destruct (s_state u0 h n) as [e1|] eqn:E; [|discriminate]. destruct (IH n e1 E) as (sv & H1 & H2).
      rewrite H1. intros [= <-]. cbn [en_view]. exists sv. auto.
  Qed.

  Lemma fold_register_keeps now ps : forall st n e, st n = Some e -> fold_left (s_register u0 now) ps st n = Some e.
  Proof.
    induction ps as [|p ps IH]; intros st n e H; [exact H|]. cbn [fold_left]. apply IH. unfold s_register.
    destruct (spec_view u0 p) as [sv|]; [|exact H]. destruct (st (sv_name sv)) eqn:E; [exact H|].
    rewrite s_set_other; [exact H|congruence].
  Qed.
End Inv.

Lemma Forall2_in_r {A B} (R : A -> B -> Prop) l l' y : Forall2 R l l' -> In y l' -> exists x, In x l /\ R x y.
Proof.
  induction 1 as [|a b l l' H HF IH]; [contradiction|]. intros [<-|Hy]; [exists a; split; [now left|exact H]|].
  destruct (IH Hy) as (x & Hx & Hr). exists x. split; [now right|exact Hr].
Qed.

Lemma Forall2_in_l {A B} (R : A -> B -> Prop) l l' x : Forall2 R l l' -> In x l -> exists y, In y l' /\ R x y.
Proof.
  induction 1 as [|a b l l' H HF IH]; [contradiction|]. intros [<-|Hx]; [exists b; split; [now left|exact H]|].
  destruct (IH Hx) as (y & Hy & Hr). exists y. split; [now right|exact Hr].
Qed.
