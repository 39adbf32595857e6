(** C87: successive looks at a registered view never go back. *)

From Coq Require Import String.
From Coq Require Import List Arith ZArith NArith Bool Lia Sorted Permutation ZifyBool ZifyNat ZifyN.
From Verif Require Import Base ListLib GoMap Float64 FloatAdd TagModel AggModel AggSpec AggProofs CollectorModel CollectorSpec
  ViewModel WorkerModel WorkerSpec ViewProofs WorkerProofs WorkerProps MonotoneSpec MonotoneProofs.
Import ListNotations.
Open Scope Z_scope.

(** The entry of a name at two moments. *)
Lemma two_entries u h cs n e :
  modest_history (h ++ cs) -> s_state u h n = Some e -> stays_registered n cs ->
  exists e', s_state u (h ++ cs) n = Some e' /\ en_view e' = en_view e /\ en_start e' = en_start e /\
    forall sv rows rows', spec_view u (en_view e) = Some sv -> rows_of u e rows -> rows_of u e' rows' ->
      forall tags d, In (tags, d) rows ->
        exists d', In (tags, d') rows' /\ grown (never_negative (me_name (sv_measure sv)) cs) d d' /\
          (exists t ss ss', d = aggregate (sv_agg sv) t ss /\ d' = aggregate (sv_agg sv) t (ss ++ ss')
             /\ Forall f_valid (values (ss ++ ss'))).
Proof.
  intros [HV HL] En HS. destruct (state_grows u h cs n e En HS) as (extra & En' & _ & IV).
  destruct (state_samples u (h ++ cs) n _ En') as [SL SV]. cbn [en_view en_samples] in SL, SV.
  eexists. split; [exact En'|]. cbn [en_view en_start]. split; [reflexivity|]. split; [reflexivity|].
  intros sv rows rows' Es (sv1 & Es1 & G1) (sv2 & Es2 & G2) tags d Hin. cbn [en_view en_samples] in Es1, G1, Es2, G2.
  rewrite Es in Es1, Es2. injection Es1 as <-. injection Es2 as <-.
  assert (FV : Forall f_valid (map (fun x => s_value (snd x)) (en_samples e ++ extra))).
  { apply Forall_map, Forall_forall. intros [m s] Hx. rewrite Forall_forall in HV. exact (HV _ (SV sv Es m s Hx)). }
  destruct (rows_grow (never_negative (me_name (sv_measure sv)) cs) (sv_agg sv) (sv_keys sv) (en_samples e) extra rows rows' G1 G2) with (tags := tags) (d := d)
    as (d' & Hd' & Gd); auto; [lia|intros U m s Hx; apply U; eapply IV; eassumption|].
  exists d'. split; [exact Hd'|]. split; [exact Gd|].
  destruct G1 as [_ G1], G2 as [_ G2]. apply G1 in Hin. apply G2 in Hd'.
  destruct Hin as (m0 & s0 & rest & Hw & ->), Hd' as (m1 & s1 & rest1 & Hw1 & ->).
  unfold with_tags in Hw, Hw1. assert (Q := Hw1). rewrite filter_app, Hw in Q. cbn [app] in Q. injection Q as <- <- Q.
  exists (s_time s0), (map snd ((m0, s0) :: rest)), (map snd (with_tags (sv_keys sv) tags extra)).
  split; [reflexivity|]. rewrite <- map_app. unfold with_tags. cbn [app]. rewrite Q. split; [reflexivity|].
  unfold values. rewrite map_map. apply Forall_map. rewrite <- Hw1. rewrite Forall_map in FV. rewrite Forall_forall in *.
  intros x Hx. apply FV. rewrite filter_In in Hx. tauto.
Qed.

(** RetrieveData: every row is still there, and has not gone back. *)
Theorem C87_rows u h cs w w' o o' n p sv rows :
  u_ok u -> Forall (cmd_ok u) (h ++ cs) -> modest_history (h ++ cs) ->
  wrun u h w -> wrun u (h ++ cs) w' -> stays_registered n cs ->
  finds o w n (Some p) -> spec_view u p = Some sv -> retrieves o w n (Some rows) ->
  finds o' w' n (Some p) /\
  exists rows', retrieves o' w' n (Some rows') /\
    forall tags d, In (tags, d) rows ->
      exists d', In (tags, d') rows' /\ grown (never_negative (me_name (sv_measure sv)) cs) d d'.
Proof.
  intros U Hok M H H' HS Hf Es Hr.
  assert (Hok1 : Forall (cmd_ok u) h) by (apply Forall_app in Hok; tauto).
  apply (finds_iff u h w o n _ U Hok1 H) in Hf. destruct (s_state u h n) as [e|] eqn:En; [|discriminate]. injection Hf as ->.
  destruct (two_entries u h cs n e M En HS) as (e' & En' & Ev & Est & G).
  split; [apply (finds_iff u _ w' o' n _ U Hok H'); rewrite En'; cbn; congruence|].
  destruct (retrieves_some u h w o n e U Hok1 H En) as (rows1 & R1 & O1).
  unfold retrieves in Hr, R1. rewrite R1 in Hr. injection Hr as ->.
  destruct (retrieves_some u _ w' o' n e' U Hok H' En') as (rows' & R2 & O2).
  exists rows'. split; [exact R2|]. intros tags d Hin.
  destruct (G sv rows rows' Es O1 O2 tags d Hin) as (d' & Hd' & Gd & _). eauto.
Qed.

(** The two series of one row at two moments. *)
Lemma series_grow (up : Prop) sv d now now' tags a a' s s' :
  descriptor_of sv d -> grown up a a' ->
  (exists t ss ss', a = aggregate (sv_agg sv) t ss /\ a' = aggregate (sv_agg sv) t (ss ++ ss') /\ Forall f_valid (values (ss ++ ss'))) ->
  series_of d now (tags, a) s -> series_of d now' (tags, a') s' ->
  ts_labels s' = ts_labels s /\ ts_start s' = ts_start s /\
  exists pv pv', ts_points s = [(now, pv)] /\ ts_points s' = [(now', pv')] /\ point_grown up (sv_agg sv) pv pv'.
Proof.
  intros D G (t & ss & ss' & Ea & Ea' & FV) (L & B & (pv & P & Q) & S) (L' & B' & (pv' & P' & Q') & S'). cbn [fst snd] in *.
  split; [|split].
  - apply nth_error_ext_eq. intros i.
    destruct (nth_error (ts_labels s) i) as [l|] eqn:E; destruct (nth_error (ts_labels s') i) as [l'|] eqn:E'.
    + assert (exists k, nth_error (md_keys d) i = Some k) as [k K].
      { destruct (nth_error (md_keys d) i) as [k|] eqn:K; [eauto|]. apply nth_error_None in K.
        assert (i < length (ts_labels s))%nat by (apply nth_error_Some; congruence). lia. }
      pose proof (B i k l K E) as X. pose proof (B' i k l' K E') as X'.
      destruct l as [v|], l' as [v'|]; try reflexivity.
      * f_equal. apply X'. apply X. reflexivity.
      * f_equal. apply X'. apply X. reflexivity.
      * exfalso. assert (None = Some v') by (apply X, X'; reflexivity). discriminate.
    + apply nth_error_None in E'. assert (i < length (ts_labels s))%nat by (apply nth_error_Some; congruence). lia.
    + apply nth_error_None in E. assert (i < length (ts_labels s'))%nat by (apply nth_error_Some; congruence). lia.
    + reflexivity.
  - rewrite S, S'. destruct a, a'; cbn [grown] in G; try contradiction; try reflexivity; destruct G as [-> _]; reflexivity.
  - exists pv, pv'. split; [exact Q|]. split; [exact Q'|].
    destruct (sv_agg sv) as [| |bounds|].
    + rewrite run_count in Ea, Ea'. subst a a'. destruct (md_type d); try discriminate P. injection P as <-. injection P' as <-.
      cbn [point_grown]. cbn [grown] in G. tauto.
    + rewrite run_sum in Ea, Ea'. subst a a'.
      assert (V : f_valid (fold_left f_add (values ss) f_zero) /\ f_valid (fold_left f_add (values (ss ++ ss')) f_zero)).
      { unfold values in FV. rewrite map_app in FV. assert (FV' := FV). rewrite <- map_app in FV. apply Forall_app in FV'.
        split; apply fold_add_valid; try exact f_zero_valid; [tauto|exact FV]. }
      cbn [grown] in G. destruct G as [_ G].
      destruct (md_type d); try discriminate P; injection P as <-; injection P' as <-; cbn [point_grown].
      * intros X. exact (f_to_int_mono _ _ (proj1 V) (proj2 V) (G X)).
      * exact G.
    + rewrite run_dist in Ea, Ea'. subst a a'. destruct (md_type d); try discriminate P. injection P as <-. injection P' as <-.
      cbn [point_grown]. cbn [grown] in G. destruct G as (_ & G1 & G2 & G3 & _). split; [exact G1|]. split; [exact G2|].
      destruct (drun_shape f64_num bounds t ss) as (_ & _ & _ & L1 & X1), (drun_shape f64_num bounds t (ss ++ ss')) as (_ & _ & _ & L2 & X2).
      cbv zeta in *. revert G3 L1 X1 L2 X2.
      generalize (d_cpb (drun f64_num bounds t ss)) (d_ex (drun f64_num bounds t ss)) (d_cpb (drun f64_num bounds t (ss ++ ss'))) (d_ex (drun f64_num bounds t (ss ++ ss'))).
      generalize (Datatypes.S (length bounds)). clear.
      intros k l x l' x' F. revert k x x'. induction F as [|c c' l l' H F IH]; intros k x x' L1 X1 L2 X2; [constructor|].
      destruct x as [|e x]; [cbn in *; lia|]. destruct x' as [|e' x']; [cbn in *; lia|]. cbn [combine]. constructor; [exact H|].
      cbn [length] in *. apply (IH (pred k)); lia.
    + assert (Z : exists v v', a = LastD v /\ a' = LastD v').
      { assert (G0 : forall l : list (sample f64_num), exists v, aggregate AggLast t l = LastD v).
        { intros l. destruct l as [|s0 l _] using rev_ind; [exists f_zero; reflexivity|]. exists (s_value s0). apply run_last. }
        destruct (G0 ss) as [v E], (G0 (ss ++ ss')) as [v' E']. exists v, v'. split; congruence. }
      destruct Z as (v & v' & -> & ->). destruct (md_type d); try discriminate P; injection P as <-; injection P' as <-; exact I.
Qed.

(** Read: every metric of a view that stays registered is in the next Read, with
    the same descriptor; every time series is there, with the same labels and the
    same start, and its point has not gone back. *)
Theorem C87_read u h cs w w' o o' now now' ms ms' :
  u_ok u -> Forall (cmd_ok u) (h ++ cs) -> modest_history (h ++ cs) ->
  wrun u h w -> wrun u (h ++ cs) w' ->
  handle o w (CmdRead now) = Some (RMetrics ms, [], w) ->
  handle o' w' (CmdRead now') = Some (RMetrics ms', [], w') ->
  forall m, In m ms -> stays_registered (md_name (mt_desc m)) cs ->
    exists m' p sv, In m' ms' /\ mt_desc m' = mt_desc m /\
      finds o w (md_name (mt_desc m)) (Some p) /\ spec_view u p = Some sv /\
      forall s, In s (mt_series m) ->
        exists s', In s' (mt_series m') /\ ts_labels s' = ts_labels s /\ ts_start s' = ts_start s /\
          exists pv pv', ts_points s = [(now, pv)] /\ ts_points s' = [(now', pv')] /\
            point_grown (never_negative (me_name (sv_measure sv)) cs) (sv_agg sv) pv pv'.
Proof.
  intros U Hok M H H' R R' m Hm HS.
  assert (Hok1 : Forall (cmd_ok u) h) by (apply Forall_app in Hok; tauto).
  destruct (answers u h w o (CmdRead now) _ _ _ U Hok1 I H R) as ((_ & ms1 & E1 & ns & N & Hns & HF) & _). injection E1 as <-.
  destruct (answers u _ w' o' (CmdRead now') _ _ _ U Hok I H' R') as ((_ & ms2 & E2 & ns' & N' & Hns' & HF') & _). injection E2 as <-.
  destruct (Forall2_in_r _ _ _ _ HF Hm) as (n & Hn & e & En & sv & rows & Es & Ro & D & Rs & HSe).
  destruct (s_state_name u h n e En) as (sv1 & Es1 & En1). rewrite Es in Es1. injection Es1 as <-.
  assert (Nm : md_name (mt_desc m) = n) by (destruct D as [D _]; congruence). rewrite Nm in *.
  destruct (two_entries u h cs n e M En HS) as (e' & En' & Ev & Est & G).
  assert (Hn' : In n ns').
  { apply Hns'. exists e'. split; [exact En'|]. apply Hns in Hn. destruct Hn as (e0 & En0 & Ne). rewrite En in En0. injection En0 as <-.
    destruct (state_grows u h cs n e En HS) as (extra & En2 & _). rewrite En' in En2. injection En2 as ->. cbn [en_samples].
    destruct (en_samples e); [congruence|discriminate]. }
  destruct (Forall2_in_l _ _ _ _ HF' Hn') as (m' & Hm' & e0 & En0 & sv' & rows' & Es' & Ro' & D' & Rs' & HSe').
  rewrite En' in En0. injection En0 as <-. rewrite Ev, Es in Es'. injection Es' as <-.
  assert (Dd : mt_desc m' = mt_desc m).
  { destruct D as (A1 & A2 & A3 & A4 & A5), D' as (B1 & B2 & B3 & B4 & B5).
    destruct (mt_desc m), (mt_desc m'). cbn in *. congruence. }
  exists m', (en_view e), sv. split; [exact Hm'|]. split; [exact Dd|].
  split; [apply (finds_iff u h w o n _ U Hok1 H); now rewrite En|]. split; [exact Es|].
  intros s Hs. destruct (Forall2_in_r _ _ _ _ HSe Hs) as ([tags d] & Hrow & Hser).
  destruct (G sv rows rows' Es Ro Ro' tags d Hrow) as (d' & Hd' & Gd & X).
  destruct (Forall2_in_l _ _ _ _ HSe' Hd') as (s' & Hs' & Hser').
  exists s'. split; [exact Hs'|]. rewrite Dd in Hser'. exact (series_grow _ sv (mt_desc m) now now' tags d d' s s' D Gd X Hser Hser').
Qed.

(** Periodic export: whatever a view delivered at one tick, each exporter of a
    later tick gets for the same view, with the same start time, and no row has
    gone back. *)
Theorem C87_export u h cs w w' o o' now now' evs evs' w1 w2 :
  u_ok u -> Forall (cmd_ok u) (h ++ cs) -> modest_history (h ++ cs) ->
  wrun u h w -> wrun u (h ++ cs) w' ->
  handle o w (CmdTick now) = Some (RNone, evs, w1) ->
  handle o' w' (CmdTick now') = Some (RNone, evs', w2) ->
  forall x D, In (x, D) evs ->
    exists sv, spec_view u (vd_view D) = Some sv /\
    (stays_registered (sv_name sv) cs ->
     forall y, In y (exporters (h ++ cs)) ->
      exists D', In (y, D') evs' /\ vd_view D' = vd_view D /\ vd_start D' = vd_start D /\
        vd_end D = now /\ vd_end D' = now' /\
        forall tags d, In (tags, d) (vd_rows D) ->
          exists d', In (tags, d') (vd_rows D') /\ grown (never_negative (me_name (sv_measure sv)) cs) d d').
Proof.
  intros U Hok M H H' R R' x D Hx.
  assert (Hok1 : Forall (cmd_ok u) h) by (apply Forall_app in Hok; tauto).
  destruct (answers u h w o (CmdTick now) _ _ _ U Hok1 I H R) as ((_ & ns & blocks & [N Hns] & -> & HF) & _).
  destruct (answers u _ w' o' (CmdTick now') _ _ _ U Hok I H' R') as ((_ & ns' & blocks' & [N' Hns'] & -> & HF') & _).
  apply in_concat in Hx. destruct Hx as (b & Hb & Hx).
  destruct (Forall2_in_r _ _ _ _ HF Hb) as (n & Hn & e & En & rows & Ro & Pm).
  apply (Permutation_in _ Pm) in Hx. apply in_map_iff in Hx. destruct Hx as (x0 & [= -> <-] & _). cbn [vd_view vd_start vd_end vd_rows].
  destruct (s_state_name u h n e En) as (sv & Es & Nm). exists sv. split; [exact Es|]. intros HS y Hy. rewrite Nm in HS.
  destruct (two_entries u h cs n e M En HS) as (e' & En' & Ev & Est & G).
  assert (Hn' : In n ns') by (apply Hns'; congruence).
  destruct (Forall2_in_l _ _ _ _ HF' Hn') as (b' & Hb' & e0 & En0 & rows' & Ro' & Pm').
  rewrite En' in En0. injection En0 as <-.
  exists (MkData (en_view e') (en_start e') now' rows'). split.
  { apply in_concat. exists b'. split; [exact Hb'|]. eapply Permutation_in; [apply Permutation_sym; exact Pm'|].
    apply in_map_iff. exists y. auto. }
  cbn [vd_view vd_start vd_end vd_rows]. split; [exact Ev|]. split; [exact Est|]. split; [reflexivity|]. split; [reflexivity|].
  intros tags d Hin. destruct (G sv rows rows' Es Ro Ro' tags d Hin) as (d' & Hd' & Gd & _). eauto.
Qed.

(** After an Unregister at time [t] every row starts no earlier than [t], provided
    the measurements handled afterwards were also taken afterwards. *)
Theorem C87_restart u h ns t cs w o n rows tags d s :
  u_ok u -> Forall (cmd_ok u) (h ++ [CmdUnregister ns t] ++ cs) -> wrun u (h ++ [CmdUnregister ns t] ++ cs) w ->
  In n ns ->
  (forall tm ms att t', In (CmdRecord tm ms att t') cs -> t <= t') ->
  retrieves o w n (Some rows) -> In (tags, d) rows -> started d = Some s -> t <= s.
Proof.
  intros U Hok H Hn HT Hr Hin Hs.
  destruct (s_state u (h ++ [CmdUnregister ns t] ++ cs) n) as [e|] eqn:En.
  2:{ pose proof (retrieves_none u _ w o n U Hok H En) as X. unfold retrieves in *. congruence. }
  destruct (retrieves_some u _ w o n e U Hok H En) as (rows1 & R1 & sv & Es & [_ G]).
  unfold retrieves in *. rewrite R1 in Hr. injection Hr as ->.
  apply G in Hin. destruct Hin as (m0 & s0 & rest & Hw & ->).
  assert (E0 : s_state u (h ++ [CmdUnregister ns t]) n = None).
  { rewrite s_state_snoc. cbn [s_step]. replace (existsb (bytes_eqb n) ns) with true; [reflexivity|].
    symmetry. apply existsb_exists. exists n. split; [exact Hn|]. destruct (bytes_eqb_spec n n); congruence. }
  rewrite app_assoc in En.
  assert (T : t <= s_time s0).
  { apply (state_fresh_times u (h ++ [CmdUnregister ns t]) cs n e t E0 HT En m0).
    assert (In (m0, s0) (with_tags (sv_keys sv) tags (en_samples e))) by (rewrite Hw; now left).
    unfold with_tags in *. rewrite filter_In in *. tauto. }
  destruct (sv_agg sv) as [| |bounds|].
  - rewrite run_count in Hs. injection Hs as <-. exact T.
  - rewrite run_sum in Hs. injection Hs as <-. exact T.
  - rewrite run_dist in Hs. cbn [started] in Hs.
    destruct (drun_shape f64_num bounds (s_time s0) (map snd ((m0, s0) :: rest))) as (_ & Z & _). cbv zeta in Z.
    rewrite Z in Hs. injection Hs as <-. exact T.
  - exfalso. assert (G0 : forall l : list (sample f64_num), exists v, aggregate AggLast (s_time s0) l = LastD v).
    { intros l. destruct l as [|s1 l _] using rev_ind; [exists f_zero; reflexivity|]. exists (s_value s1). apply run_last. }
    destruct (G0 (map snd ((m0, s0) :: rest))) as [v E]. rewrite E in Hs. discriminate.
Qed.

(** ** Concrete cases *)

Definition m_bal : measure := MkMeasure (bs "balance") (bs "Balance") (bs "1") MInt64.

(** View 0 sums balances per x, view 1 is a distribution of latencies. *)
Definition mono_u : uworld := MkU
  [ MkView (bs "total") (bs "") [kx] (Some m_bal) (Some 0%nat);
    MkView (bs "lat") (bs "") [] (Some m_lat) (Some 1%nat) ]
  [ AggSum; AggDist [f_of_Z 5; f_of_Z 2] ].

Lemma mono_u_ok : u_ok mono_u.
Proof.
  split; [|split].
  - intros p v ap. do 2 (destruct p as [|p]; [intros [= <-] [= <-]; cbn; lia|]). intros E; cbn in E; destruct p; discriminate.
  - intros ap bounds. destruct ap as [|ap]; [discriminate|]. destruct ap as [|ap]; [intros [= <-]; repeat constructor|]. intros E; cbn in E; destruct ap; discriminate.
  - intros p v me. do 2 (destruct p as [|p]; [intros [= <-] [= <-]; discriminate|]). intros E; cbn in E; destruct p; discriminate.
Qed.

Definition mono_h : list cmd :=
  [CmdRegister [0%nat; 1%nat] 100; CmdAddExporter 9;
   CmdRecord (tmx (bs "a")) [Some (m_bal, f_of_Z 5); Some (m_lat, f_of_Z 3)] [] 110].
Definition mono_cs : list cmd :=
  [CmdTick 120; CmdRecord (tmx (bs "a")) [Some (m_bal, f_of_Z 2); Some (m_lat, f_of_Z 7)] [] 130;
   CmdRecord (tmx (bs "b")) [Some (m_bal, f_of_Z 1)] [] 140].
(** A balance goes down. *)
Definition mono_down : list cmd := [CmdRecord (tmx (bs "a")) [Some (m_bal, f_of_Z (-2))] [] 130].

Lemma mono_ok : Forall (cmd_ok mono_u) (mono_h ++ mono_cs ++ mono_down).
Proof.
  unfold mono_h, mono_cs, mono_down. cbn [app].
  repeat (apply Forall_cons; [first [apply tmx_short; cbn; lia | exact I | cbn; repeat constructor; lia]|]). constructor.
Qed.

(** What Read shows after the commands: for each series its start, its number of
    labels and its point as integers (the count for distributions, int64(v) for
    floats). *)
Definition reads (cs : list cmd) (now : time) : list (bytes * list (option time * Z)) :=
  match run_fn (new_meter mono_u) cs with
  | Some w =>
      match handle id_order w (CmdRead now) with
      | Some (RMetrics ms, _, _) =>
          map (fun m => (md_name (mt_desc m),
                 flat_map (fun s => map (fun p => (ts_start s,
                   match snd p with PInt v => v | PFloat v => f_to_int v | PDist n _ _ _ _ => n end)) (ts_points s)) (mt_series m))) ms
      | _ => []
      end
  | None => []
  end.

Lemma mono_runs cs : (exists k, run_fn (new_meter mono_u) cs = Some k) -> exists w, wrun mono_u cs w.
Proof. intros [w E]. exists w. change cs with ([] ++ cs). eapply run_fn_ok; [constructor|exact E]. Qed.

(** The hypotheses of C87_rows, C87_read and C87_export hold of a history with two
    views, and the points do grow. *)
Example C87_example :
  u_ok mono_u /\ Forall (cmd_ok mono_u) (mono_h ++ mono_cs) /\ modest_history (mono_h ++ mono_cs) /\
  (exists w, wrun mono_u mono_h w) /\ (exists w, wrun mono_u (mono_h ++ mono_cs) w) /\
  stays_registered (bs "total") mono_cs /\ never_negative (bs "balance") mono_cs /\
  reads mono_h 120 = [(bs "total", [(Some 110, 5)]); (bs "lat", [(Some 110, 1)])] /\
  reads (mono_h ++ mono_cs) 150 = [(bs "total", [(Some 110, 7); (Some 140, 1)]); (bs "lat", [(Some 110, 2)])].
Proof.
  split; [apply mono_u_ok|].
  assert (A := mono_ok). rewrite app_assoc in A. apply Forall_app in A. split; [apply A|].
  split; [split; [repeat constructor|vm_compute; reflexivity]|].
  assert (R : forall cs, (if run_fn (new_meter mono_u) cs then true else false) = true -> exists w, wrun mono_u cs w).
  { intros cs E. apply mono_runs. destruct (run_fn (new_meter mono_u) cs); [eauto|discriminate]. }
  split; [apply R; vm_compute; reflexivity|]. split; [apply R; vm_compute; reflexivity|].
  split; [intros ns t H; cbn in H; intuition discriminate|].
  split; [|split; vm_compute; reflexivity].
  intros v H. cbn in H. destruct H as [H|[H|[H|[]]]]; try discriminate; injection H as <-; (split; [split; [vm_compute; discriminate|vm_compute; reflexivity]|reflexivity]).
Qed.

(** Without the hypothesis on the values it is false: the metric of a sum is of a
    cumulative type, but a negative measurement makes it go back. *)
Theorem C87_sum_refuted :
  u_ok mono_u /\ Forall (cmd_ok mono_u) (mono_h ++ mono_down) /\ modest_history (mono_h ++ mono_down) /\
  stays_registered (bs "total") mono_down /\
  (exists sv d, spec_view mono_u 0%nat = Some sv /\ descriptor_of sv d /\ md_type d = TyCumulativeInt64) /\
  reads mono_h 120 = [(bs "total", [(Some 110, 5)]); (bs "lat", [(Some 110, 1)])] /\
  reads (mono_h ++ mono_down) 150 = [(bs "total", [(Some 110, 3)]); (bs "lat", [(Some 110, 1)])].
Proof.
  split; [apply mono_u_ok|]. assert (A := mono_ok). apply Forall_app in A. destruct A as [A1 A2]. apply Forall_app in A2.
  split; [apply Forall_app; tauto|]. split; [split; [repeat constructor|vm_compute; reflexivity]|].
  split; [intros ns t H; cbn in H; intuition discriminate|]. split.
  - eexists. eexists (MkDesc _ _ _ TyCumulativeInt64 _). split; [reflexivity|]. split; [|reflexivity].
    split; [reflexivity|]. split; [reflexivity|]. split; [reflexivity|]. split; reflexivity.
  - split; vm_compute; reflexivity.
Qed.

(** C87_restart: after Unregister and Register the sum starts again, later. *)
Definition mono_again (t : time) : list cmd :=
  [CmdRegister [0%nat] 150; CmdRecord (tmx (bs "a")) [Some (m_bal, f_of_Z 4)] [] t].

Example C87_restart_example :
  Forall (cmd_ok mono_u) (mono_h ++ [CmdUnregister [bs "total"] 145] ++ mono_again 160) /\
  (exists w, wrun mono_u (mono_h ++ [CmdUnregister [bs "total"] 145] ++ mono_again 160) w) /\
  (forall tm ms att t, In (CmdRecord tm ms att t) (mono_again 160) -> 145 <= t) /\
  reads (mono_h ++ [CmdUnregister [bs "total"] 145] ++ mono_again 160) 170 = [(bs "lat", [(Some 110, 1)]); (bs "total", [(Some 160, 4)])].
Proof.
  split.
  { unfold mono_h, mono_again. cbn [app].
    repeat (apply Forall_cons; [first [apply tmx_short; cbn; lia | exact I | cbn; repeat constructor; lia]|]). constructor. }
  split.
  { apply mono_runs.
    assert (E : (if run_fn (new_meter mono_u) (mono_h ++ [CmdUnregister [bs "total"] 145] ++ mono_again 160) then true else false) = true) by (vm_compute; reflexivity).
    destruct (run_fn (new_meter mono_u) _); [eauto|discriminate]. }
  split; [|vm_compute; reflexivity].
  intros tm ms att t H. cbn in H. destruct H as [H|[H|[]]]; [discriminate|]. injection H as _ _ _ <-. lia.
Qed.

(** A Record call takes its time before its measurements reach the meter.  One that
    is overtaken by an Unregister and a Register gives the new series a start
    before the end of the old one: the two intervals overlap. *)
Theorem C87_restart_refuted :
  reads mono_h 140 = [(bs "total", [(Some 110, 5)]); (bs "lat", [(Some 110, 1)])] /\
  reads (mono_h ++ [CmdUnregister [bs "total"] 145] ++ mono_again 130) 170 = [(bs "lat", [(Some 110, 1)]); (bs "total", [(Some 130, 4)])].
Proof. split; vm_compute; reflexivity. Qed.

Print Assumptions C87_rows.
Print Assumptions C87_read.
Print Assumptions C87_export.
Print Assumptions C87_restart.
Print Assumptions C87_sum_refuted.
Print Assumptions C87_restart_refuted.
