(** Property theorems for views and meters (C13, C14, C17, C18). *)

From Coq Require Import String.
From Coq Require Import List Arith ZArith NArith Bool Lia Sorted Permutation ZifyBool ZifyNat ZifyN.
From Verif Require Import Base ListLib GoMap GoSort Float64 TagModel AggModel AggSpec AggProofs
  CollectorModel CollectorSpec CollectorProofs ViewModel WorkerModel WorkerSpec ViewProofs WorkerProofs.
Import ListNotations.
Open Scope nat_scope.

(** What Find and RetrieveData return. *)
Definition finds (o : order) (w : wst) (n : bytes) (p : option nat) : Prop :=
  handle o w (CmdFind n) = Some (RFind p, [], w).
Definition retrieves (o : order) (w : wst) (n : bytes)
                     (rows : option (list (list (key * bytes) * agg_data f64_num))) : Prop :=
  handle o w (CmdRetrieve n) = Some (RRows rows, [], w).

(** ** Every call, in every history *)

(** No command panics, and each returns and exports what the specification says
    for the history before it, whatever the map iteration orders. *)
Theorem C14_meter_answers u h w o c :
  u_ok u -> Forall (cmd_ok u) (h ++ [c]) -> wrun u h w ->
  exists r evs w', handle o w c = Some (r, evs, w') /\ answer u h c r evs.
Proof.
  intros U Hok H. apply Forall_app in Hok. destruct Hok as [Hok Hc]. inversion Hc; subst.
  destruct (handle_spec u U o h w c) as (r & evs & w' & E & Ha & _); eauto using wrun_WI.
Qed.

Lemma answers u h w o c r evs w' :
  u_ok u -> Forall (cmd_ok u) h -> cmd_ok u c -> wrun u h w ->
  handle o w c = Some (r, evs, w') -> answer u h c r evs /\ wrun u (h ++ [c]) w' /\ Forall (cmd_ok u) (h ++ [c]).
Proof.
  intros U Hok Hc H E. assert (Hok' : Forall (cmd_ok u) (h ++ [c])) by (apply Forall_app; auto).
  split; [|split; [eapply wrun_snoc; eassumption|exact Hok']].
  destruct (C14_meter_answers u h w o c U Hok' H) as (r' & evs' & w'' & E' & Ha). congruence.
Qed.

Lemma finds_iff u h w o n p :
  u_ok u -> Forall (cmd_ok u) h -> wrun u h w ->
  (finds o w n p <-> p = option_map en_view (s_state u h n)).
Proof.
  intros U Hok H. unfold finds.
  destruct (C14_meter_answers u h w o (CmdFind n) U) as (r & evs & w' & E & -> & ->);
    [apply Forall_app; repeat constructor; exact Hok|exact H|].
  assert (w' = w).
  { cbn [handle] in E. destruct (mget bytes_eqb (w_views w) n); [destruct (nth_error (w_vis w) n0); [|discriminate]|];
      injection E as _ <-; reflexivity. }
  subst w'. rewrite E. split; [intros [= <-]; reflexivity|intros ->; reflexivity].
Qed.

Lemma retrieves_some u h w o n e :
  u_ok u -> Forall (cmd_ok u) h -> wrun u h w -> s_state u h n = Some e ->
  exists rows, retrieves o w n (Some rows) /\ rows_of u e rows.
Proof.
  intros U Hok H En. unfold retrieves.
  destruct (C14_meter_answers u h w o (CmdRetrieve n) U) as (r & evs & w' & E & -> & Ha);
    [apply Forall_app; repeat constructor; exact Hok|exact H|].
  rewrite En in Ha. destruct Ha as (rows & -> & Hr). exists rows. split; [|exact Hr].
  assert (w' = w); [|now subst w'].
  cbn [handle] in E. destruct (handle_retrieve o w n); [|discriminate]. injection E as _ <-. reflexivity.
Qed.

Lemma retrieves_none u h w o n :
  u_ok u -> Forall (cmd_ok u) h -> wrun u h w -> s_state u h n = None -> retrieves o w n None.
Proof.
  intros U Hok H En. unfold retrieves.
  destruct (C14_meter_answers u h w o (CmdRetrieve n) U) as (r & evs & w' & E & -> & Ha);
    [apply Forall_app; repeat constructor; exact Hok|exact H|].
  rewrite En in Ha. subst r.
  assert (w' = w); [|now subst w'].
  cbn [handle] in E. destruct (handle_retrieve o w n); [|discriminate]. injection E as _ <-. reflexivity.
Qed.

(** ** C13 *)

(** Register of one view: invalid definition, free name, name of the same view,
    name of another view. *)
Theorem C13_register_one u h w o p now :
  u_ok u -> Forall (cmd_ok u) h -> wrun u h w -> p < length (u_views u) ->
  exists r w', handle o w (CmdRegister [p] now) = Some (RRegister r, [], w') /\
    match spec_view u p with
    | None => (exists e, r = Some (inl e)) /\ forall o n q, finds o w n q <-> finds o w' n q
    | Some sv =>
        (finds o w (sv_name sv) None /\ r = None /\
         finds o w' (sv_name sv) (Some p) /\ retrieves o w' (sv_name sv) (Some []))
        \/ exists q, finds o w (sv_name sv) (Some q) /\ finds o w' (sv_name sv) (Some q) /\
                     r = if same_view u q p then None else Some (inr [p])
    end.
Proof.
  intros U Hok H Hp.
  destruct (C14_meter_answers u h w o (CmdRegister [p] now) U) as (r & evs & w' & E & -> & Ha);
    [apply Forall_app; repeat constructor; auto|exact H|].
  assert (Hc : cmd_ok u (CmdRegister [p] now)) by (cbn; auto).
  destruct (answers u h w o _ _ _ _ U Hok Hc H E) as (_ & H' & Hok').
  assert (Ast : s_state u (h ++ [CmdRegister [p] now]) =
                if forallb (valid_view u) [p] then s_register u now (s_state u h) p else s_state u h).
  { rewrite s_state_snoc. reflexivity. }
  cbn [forallb] in Ast, Ha. rewrite andb_true_r in Ast, Ha. unfold valid_view in Ast, Ha.
  destruct (spec_view u p) as [sv|] eqn:Es.
  - eexists. exists w'. split; [rewrite Ha in E; exact E|]. unfold s_register in Ast. cbn [conflicts].
    rewrite Es in *. destruct (s_state u h (sv_name sv)) as [e|] eqn:En.
    + right. exists (en_view e).
      rewrite (finds_iff u h w o _ _ U Hok H), (finds_iff u _ w' o _ _ U Hok' H'), Ast, En.
      split; [reflexivity|]. split; [reflexivity|]. destruct (same_view u (en_view e) p); reflexivity.
    + left.
      assert (Hs : s_state u (h ++ [CmdRegister [p] now]) (sv_name sv) = Some (MkEntry p now [])).
      { rewrite Ast. apply s_set_same. }
      rewrite (finds_iff u h w o _ _ U Hok H), (finds_iff u _ w' o _ _ U Hok' H'), Hs, En.
      split; [reflexivity|]. split; [reflexivity|]. split; [reflexivity|].
      destruct (retrieves_some u _ w' o (sv_name sv) _ U Hok' H' Hs) as (rows & Hr & sv' & _ & HG).
      assert (rows = []) as ->; [|exact Hr].
      destruct rows as [|[tags data] rows]; [reflexivity|]. destruct HG as [_ HG].
      destruct (proj1 (HG tags data) (or_introl eq_refl)) as (m0 & s0 & rest & Hw & _). discriminate.
  - destruct Ha as [er ->]. exists (Some (inl er)), w'. split; [exact E|]. split; [eauto|].
    intros o' n q. rewrite (finds_iff u h w o' _ _ U Hok H), (finds_iff u _ w' o' _ _ U Hok' H'), Ast. reflexivity.
Qed.

Lemma group_by_perm {F : num} (agg : aggregation F) keys ss rows rows' :
  is_group_by agg keys ss rows -> is_group_by agg keys ss rows' -> Permutation rows rows'.
Proof.
  intros [N1 H1] [N2 H2]. apply NoDup_Permutation; [eapply NoDup_map_inv; exact N1|eapply NoDup_map_inv; exact N2|].
  intros [tags data]. now rewrite H1, H2.
Qed.

(** Whatever a Register call returns, views that were registered stay registered
    and keep their data. *)
Theorem C13_register_keeps u h w o ps now r evs w' o1 o2 n p :
  u_ok u -> Forall (cmd_ok u) h -> wrun u h w -> Forall (fun p => p < length (u_views u)) ps ->
  handle o w (CmdRegister ps now) = Some (r, evs, w') ->
  finds o1 w n (Some p) ->
  finds o2 w' n (Some p) /\
  exists rows rows', retrieves o1 w n (Some rows) /\ retrieves o2 w' n (Some rows') /\ Permutation rows rows'.
Proof.
  intros U Hok H Hps E Hf. destruct (answers u h w o (CmdRegister ps now) _ _ _ U Hok Hps H E) as (_ & H' & Hok').
  apply (finds_iff u h w o1 n _ U Hok H) in Hf. destruct (s_state u h n) as [e|] eqn:En; [|discriminate].
  injection Hf as ->.
  assert (En' : s_state u (h ++ [CmdRegister ps now]) n = Some e).
  { rewrite s_state_snoc. cbn [s_step]. destruct (forallb (valid_view u) ps); [|exact En]. now apply fold_register_keeps. }
  split.
  - apply (finds_iff u _ w' o2 n _ U Hok' H'). now rewrite En'.
  - destruct (retrieves_some u h w o1 n e U Hok H En) as (rows & R1 & sv & S1 & G1).
    destruct (retrieves_some u _ w' o2 n e U Hok' H' En') as (rows' & R2 & sv' & S2 & G2).
    exists rows, rows'. split; [exact R1|]. split; [exact R2|]. rewrite S1 in S2. injection S2 as <-.
    eapply group_by_perm; eassumption.
Qed.

(** A Register call with an invalid view is an error and registers nothing. *)
Theorem C13_invalid_registers_nothing u h w o ps now r evs w' :
  u_ok u -> Forall (cmd_ok u) h -> wrun u h w -> Forall (fun p => p < length (u_views u)) ps ->
  (exists p, In p ps /\ spec_view u p = None) ->
  handle o w (CmdRegister ps now) = Some (r, evs, w') ->
  (exists e, r = RRegister (Some (inl e))) /\ forall o1 o2 n q, finds o1 w n q <-> finds o2 w' n q.
Proof.
  intros U Hok H Hps (p & Hp & Hs) E. destruct (answers u h w o (CmdRegister ps now) _ _ _ U Hok Hps H E) as ((_ & Ha) & H' & Hok').
  assert (Hv : forallb (valid_view u) ps = false).
  { apply not_true_iff_false. rewrite forallb_forall. intros Hall. specialize (Hall p Hp). unfold valid_view in Hall.
    rewrite Hs in Hall. discriminate. }
  rewrite Hv in Ha. split; [exact Ha|]. intros o1 o2 n q.
  rewrite (finds_iff u h w o1 n q U Hok H), (finds_iff u _ w' o2 n q U Hok' H'), s_state_snoc.
  cbn [s_step]. rewrite Hv. reflexivity.
Qed.

(** Register fails exactly when a definition is invalid or a name is taken by a
    view that is not the same; each refused view is reported. *)
Theorem C13_register_error_iff u h w o ps now r evs w' :
  u_ok u -> Forall (cmd_ok u) h -> wrun u h w -> Forall (fun p => p < length (u_views u)) ps ->
  handle o w (CmdRegister ps now) = Some (RRegister r, evs, w') ->
  (r <> None <->
   (exists p, In p ps /\ spec_view u p = None) \/
   (exists ps1 p ps2 sv q, ps = ps1 ++ p :: ps2 /\ spec_view u p = Some sv /\
      finds o w' (sv_name sv) (Some q) /\ same_view u q p = false)).
Proof.
  intros U Hok H Hps E. destruct (answers u h w o (CmdRegister ps now) _ _ _ U Hok Hps H E) as ((_ & Ha) & H' & Hok').
  assert (Ast : s_state u (h ++ [CmdRegister ps now]) =
                if forallb (valid_view u) ps then fold_left (s_register u now) ps (s_state u h) else s_state u h).
  { rewrite s_state_snoc. reflexivity. }
  destruct (forallb (valid_view u) ps) eqn:Hv.
  - injection Ha as ->.
    assert (G : forall st, conflicts u now st ps <> [] <-> exists ps1 p ps2 sv e, ps = ps1 ++ p :: ps2 /\
              spec_view u p = Some sv /\ fold_left (s_register u now) ps st (sv_name sv) = Some e /\
              same_view u (en_view e) p = false).
    { clear - Hv. induction ps as [|p ps IH]; intros st.
      - split; [cbn [conflicts]; congruence|]. intros (ps1 & p & ps2 & sv & e & E & _). now destruct ps1.
      - cbn [forallb] in Hv. apply andb_true_iff in Hv. destruct Hv as [Hp Hv]. specialize (IH Hv).
        cbn [conflicts fold_left]. unfold valid_view in Hp. destruct (spec_view u p) as [sv|] eqn:Es; [|discriminate].
        assert (Hself : same_view u p p = true) by (unfold same_view; now rewrite Nat.eqb_refl).
        assert (Hcons : forall st', (exists ps1 p0 ps2 sv0 e, ps = ps1 ++ p0 :: ps2 /\ spec_view u p0 = Some sv0 /\
              fold_left (s_register u now) ps st' (sv_name sv0) = Some e /\ same_view u (en_view e) p0 = false) ->
              exists ps1 p0 ps2 sv0 e, p :: ps = ps1 ++ p0 :: ps2 /\ spec_view u p0 = Some sv0 /\
              fold_left (s_register u now) ps st' (sv_name sv0) = Some e /\ same_view u (en_view e) p0 = false).
        { intros st' (ps1 & p0 & ps2 & sv0 & e & -> & H). exists (p :: ps1), p0, ps2, sv0, e. auto. }
        destruct (st (sv_name sv)) as [e|] eqn:En.
        + assert (Es1 : s_register u now st p = st) by (unfold s_register; now rewrite Es, En). rewrite Es1.
          destruct (same_view u (en_view e) p) eqn:Esame.
          * rewrite IH. split; [apply Hcons|]. intros (ps1 & p0 & ps2 & sv0 & e0 & E & S0 & F0 & N0).
            destruct ps1 as [|p1 ps1]; cbn [app] in E; injection E as <- E.
            -- rewrite Es in S0. injection S0 as <-.
               rewrite (fold_register_keeps u now ps st _ e En) in F0. injection F0 as <-. congruence.
            -- exists ps1, p0, ps2, sv0, e0. auto.
          * split; [intros _|discriminate]. exists [], p, ps, sv, e. split; [reflexivity|]. split; [exact Es|].
            split; [now apply fold_register_keeps|exact Esame].
        + assert (Es1 : s_register u now st p = s_set st (sv_name sv) (Some (MkEntry p now []))).
          { unfold s_register. now rewrite Es, En. }
          rewrite Es1, IH. split; [apply Hcons|]. intros (ps1 & p0 & ps2 & sv0 & e0 & E & S0 & F0 & N0).
          destruct ps1 as [|p1 ps1]; cbn [app] in E; injection E as <- E.
          -- rewrite Es in S0. injection S0 as <-.
             rewrite (fold_register_keeps u now ps _ _ (MkEntry p now []) (s_set_same _ _ _)) in F0.
             injection F0 as <-. cbn [en_view] in N0. congruence.
          -- exists ps1, p0, ps2, sv0, e0. auto. }
    assert (X : match conflicts u now (s_state u h) ps with [] => None | l => Some (@inr view_err _ l) end <> None <->
                conflicts u now (s_state u h) ps <> []).
    { destruct (conflicts u now (s_state u h) ps); split; congruence. }
    rewrite X, G. split.
    + intros (ps1 & p & ps2 & sv & e & H1 & H2 & H3 & H4). right. exists ps1, p, ps2, sv, (en_view e).
      split; [exact H1|]. split; [exact H2|]. split; [|exact H4].
      apply (finds_iff u _ w' o _ _ U Hok' H'). rewrite Ast. now rewrite H3.
    + intros [(p & Hp & Hs)|(ps1 & p & ps2 & sv & q & H1 & H2 & H3 & H4)].
      * rewrite forallb_forall in Hv. specialize (Hv p Hp). unfold valid_view in Hv. rewrite Hs in Hv. discriminate.
      * apply (finds_iff u _ w' o _ _ U Hok' H') in H3. rewrite Ast in H3.
        destruct (fold_left (s_register u now) ps (s_state u h) (sv_name sv)) as [e|] eqn:Ee; [|discriminate].
        injection H3 as ->. exists ps1, p, ps2, sv, e. auto.
  - destruct Ha as [er [= ->]]. split; [intros _; left|discriminate].
    apply not_true_iff_false in Hv. rewrite forallb_forall in Hv.
    destruct (existsb (fun p => negb (valid_view u p)) ps) eqn:Ex.
    + apply existsb_exists in Ex. destruct Ex as (p & Hp & Hn). exists p. split; [exact Hp|].
      unfold valid_view in Hn. destruct (spec_view u p); [discriminate|reflexivity].
    + exfalso. apply Hv. intros p Hp. destruct (valid_view u p) eqn:E1; [reflexivity|].
      assert (existsb (fun p => negb (valid_view u p)) ps = true) by (apply existsb_exists; exists p; rewrite E1; auto).
      congruence.
Qed.

(** At most one view per name: the metrics of one Read have distinct names. *)
Theorem C13_unique_names u h w o now ms evs w' :
  u_ok u -> Forall (cmd_ok u) h -> wrun u h w ->
  handle o w (CmdRead now) = Some (RMetrics ms, evs, w') ->
  NoDup (map (fun m => md_name (mt_desc m)) ms).
Proof.
  intros U Hok H E. destruct (answers u h w o (CmdRead now) _ _ _ U Hok I H E) as ((_ & ms' & [= <-] & ns & N & _ & HF) & _).
  enough (map (fun m => md_name (mt_desc m)) ms = ns) by congruence. clear N E.
  induction HF as [|n m ns ms (e & En & sv & rows & Es & _ & (D & _) & _) HF IH]; [reflexivity|]. cbn [map].
  destruct (s_state_name u h n e En) as (sv' & Es' & En'). f_equal; [congruence|exact IH].
Qed.

(** ** C14 *)

(** The measurements of measure [m] that a history records. *)
Definition recorded (m : bytes) (h : list cmd) : list (option tmap * sample f64_num) :=
  flat_map (fun c => match c with
                     | CmdRecord tm ms att t =>
                         flat_map (fun x => match x with
                                            | Some (me, v) => if bytes_eqb (me_name me) m
                                                              then [(tm, @MkSample f64_num v att t)] else []
                                            | None => []
                                            end) ms
                     | _ => []
                     end) h.

Definition unregisters (n : bytes) (c : cmd) : Prop :=
  match c with CmdUnregister ns _ => In n ns | _ => False end.

(** A view that was registered when its name was free, and whose name has not been
    unregistered since, holds exactly the group-by of the measurements of its
    measure recorded since, in order. *)
Theorem C14_retrieve_since_registration u h1 w1 o1 ps1 p ps2 now sv h2 w o :
  u_ok u -> Forall (cmd_ok u) (h1 ++ CmdRegister (ps1 ++ p :: ps2) now :: h2) ->
  wrun u h1 w1 -> wrun u (h1 ++ CmdRegister (ps1 ++ p :: ps2) now :: h2) w ->
  (forall q, In q (ps1 ++ p :: ps2) -> spec_view u q <> None) ->
  spec_view u p = Some sv ->
  (forall q sv', In q ps1 -> spec_view u q = Some sv' -> sv_name sv' <> sv_name sv) ->
  finds o1 w1 (sv_name sv) None ->
  (forall c, In c h2 -> ~ unregisters (sv_name sv) c) ->
  finds o w (sv_name sv) (Some p) /\
  exists rows, retrieves o w (sv_name sv) (Some rows) /\
    is_group_by (sv_agg sv) (sv_keys sv) (recorded (me_name (sv_measure sv)) h2) rows.
Proof.
  intros U Hok H1 H Hval Es Hfirst Hfree Hun.
  assert (Hok1 : Forall (cmd_ok u) h1) by (apply Forall_app in Hok; tauto).
  apply (finds_iff u h1 w1 o1 _ _ U Hok1 H1) in Hfree.
  assert (Hst : s_state u h1 (sv_name sv) = None) by (destruct (s_state u h1 (sv_name sv)); [discriminate|reflexivity]).
  assert (Hv : forallb (valid_view u) (ps1 ++ p :: ps2) = true).
  { apply forallb_forall. intros q Hq. specialize (Hval q Hq). unfold valid_view. destruct (spec_view u q); congruence. }
  assert (G : s_state u (h1 ++ CmdRegister (ps1 ++ p :: ps2) now :: h2) (sv_name sv) =
              Some (MkEntry p now (recorded (me_name (sv_measure sv)) h2))).
  { unfold s_state. rewrite fold_left_app. cbn [fold_left s_step]. rewrite Hv.
    fold (s_state u h1). rewrite fold_left_app. cbn [fold_left].
    set (st1 := fold_left (s_register u now) ps1 (s_state u h1)).
    assert (N1 : st1 (sv_name sv) = None).
    { unfold st1. revert Hst. generalize (s_state u h1). clear - Hfirst. induction ps1 as [|q ps1 IH]; intros st Hst; [exact Hst|].
      cbn [fold_left]. apply IH; [intros q' sv' Hq; apply Hfirst; now right|]. unfold s_register.
      destruct (spec_view u q) as [sv'|] eqn:E; [|exact Hst]. destruct (st (sv_name sv')); [exact Hst|].
      rewrite s_set_other; [exact Hst|]. apply (Hfirst q); [now left|exact E]. }
    assert (N2 : fold_left (s_register u now) ps2 (s_register u now st1 p) (sv_name sv) = Some (MkEntry p now [])).
    { apply fold_register_keeps. unfold s_register. rewrite Es, N1. apply s_set_same. }
    revert N2. generalize (fold_left (s_register u now) ps2 (s_register u now st1 p)) as st.
    assert (K : forall h2 st l, (forall c, In c h2 -> ~ unregisters (sv_name sv) c) -> st (sv_name sv) = Some (MkEntry p now l) ->
              fold_left (s_step u) h2 st (sv_name sv) = Some (MkEntry p now (l ++ recorded (me_name (sv_measure sv)) h2))).
    { clear - Es. induction h2 as [|c h2 IH]; intros st l Hun E; cbn [fold_left recorded flat_map]; [now rewrite app_nil_r|].
      assert (Hun' : forall c, In c h2 -> ~ unregisters (sv_name sv) c) by (intros c' Hc; apply Hun; now right).
      pose proof (Hun c (or_introl eq_refl)) as Hc.
      destruct c as [n|ps t0|ns t0|n|tm ms att t|d|t0|t0|x|x|r0]; cbn [s_step]; cbn [app];
        try (apply IH; [exact Hun'|exact E]).
      - destruct (forallb (valid_view u) ps); apply IH; try exact Hun'; [now apply fold_register_keeps|exact E].
      - apply IH; [exact Hun'|]. destruct (existsb (bytes_eqb (sv_name sv)) ns) eqn:Ex; [|exact E].
        apply existsb_exists in Ex. destruct Ex as (n & Hn & En).
        destruct (bytes_eqb_spec (sv_name sv) n) as [<-|]; [contradiction|discriminate].
      - rewrite (IH _ (l ++ samples_for (me_name (sv_measure sv)) tm ms att t) Hun').
        + rewrite <- app_assoc. reflexivity.
        + rewrite E. cbn [en_view]. rewrite Es. reflexivity. }
    intros st E. apply (K h2 st [] Hun E). }
  split.
  - apply (finds_iff u _ w o _ _ U Hok H). now rewrite G.
  - destruct (retrieves_some u _ w o _ _ U Hok H G) as (rows & R & sv' & S' & HG). cbn [en_view en_samples] in *.
    exists rows. split; [exact R|]. rewrite Es in S'. now injection S' as <-.
Qed.

(** Unregister: the data is gone and RetrieveData fails; other views keep theirs. *)
Theorem C14_unregister u h w o ns now r evs w' o1 o2 :
  u_ok u -> Forall (cmd_ok u) h -> wrun u h w ->
  handle o w (CmdUnregister ns now) = Some (r, evs, w') ->
  (forall n, In n ns -> finds o2 w' n None /\ retrieves o2 w' n None) /\
  (forall n p, ~ In n ns -> finds o1 w n (Some p) ->
     finds o2 w' n (Some p) /\
     exists rows rows', retrieves o1 w n (Some rows) /\ retrieves o2 w' n (Some rows') /\ Permutation rows rows').
Proof.
  intros U Hok H E. destruct (answers u h w o (CmdUnregister ns now) _ _ _ U Hok I H E) as (_ & H' & Hok'). split.
  - intros n Hn. assert (En : s_state u (h ++ [CmdUnregister ns now]) n = None).
    { rewrite s_state_snoc. cbn [s_step].
      assert (existsb (bytes_eqb n) ns = true) as ->; [|reflexivity].
      apply existsb_exists. exists n. split; [exact Hn|]. now destruct (bytes_eqb_spec n n). }
    split; [apply (finds_iff u _ w' o2 n _ U Hok' H'); now rewrite En|].
    eapply retrieves_none; eassumption.
  - intros n p Hn Hf. apply (finds_iff u h w o1 n _ U Hok H) in Hf.
    destruct (s_state u h n) as [e|] eqn:En; [|discriminate]. injection Hf as ->.
    assert (En' : s_state u (h ++ [CmdUnregister ns now]) n = Some e).
    { rewrite s_state_snoc. cbn [s_step]. destruct (existsb (bytes_eqb n) ns) eqn:Ex; [|exact En].
      apply existsb_exists in Ex. destruct Ex as (n' & Hin & E'). destruct (bytes_eqb_spec n n') as [<-|]; [contradiction|discriminate]. }
    split; [apply (finds_iff u _ w' o2 n _ U Hok' H'); now rewrite En'|].
    destruct (retrieves_some u h w o1 n e U Hok H En) as (rows & R1 & sv & S1 & G1).
    destruct (retrieves_some u _ w' o2 n e U Hok' H' En') as (rows' & R2 & sv' & S2 & G2).
    exists rows, rows'. split; [exact R1|]. split; [exact R2|]. rewrite S1 in S2. injection S2 as <-.
    eapply group_by_perm; eassumption.
Qed.

(** ** C17 *)

Lemma positive_sorted_good bounds :
  Forall f_valid bounds -> good_bounds (isort f_less (filter (fun b => f_ltb f_zero b) bounds)) /\
  Forall (fun b => f_ltb f_zero b = true) (isort f_less (filter (fun b => f_ltb f_zero b) bounds)).
Proof.
  intros Hv. set (l := isort f_less (filter (fun b => f_ltb f_zero b) bounds)).
  assert (Hin : forall b, In b l -> f_valid b /\ f_ltb f_zero b = true).
  { intros b Hb. unfold l in Hb. eapply Permutation_in in Hb; [|apply isort_perm]. apply filter_In in Hb.
    destruct Hb as [Hb Hp]. rewrite Forall_forall in Hv. auto. }
  assert (Hnn : forall b, In b l -> is_nan b = false).
  { intros b Hb. destruct (Hin b Hb) as [V P]. destruct b; try reflexivity; discriminate. }
  assert (HS : StronglySorted (leb f_less) l) by (apply isort_sorted; [apply f_less_trans|apply f_less_asym]).
  split; [split|].
  - apply Forall_forall. intros b Hb. split; [apply Hin|apply Hnn]; exact Hb.
  - revert Hin Hnn HS. generalize l. clear. induction l as [|x l IH]; intros Hin Hnn HS; [constructor|].
    inversion HS as [|? ? HS' Hall]; subst. constructor.
    + apply IH; [intros b Hb; apply Hin; now right|intros b Hb; apply Hnn; now right|exact HS'].
    + rewrite Forall_forall in *. intros y Hy. specialize (Hall y Hy). unfold leb, f_less in Hall.
      apply orb_false_iff in Hall. destruct Hall as [Hall _].
      apply (f_ltb_false y x); auto; try (apply Hin || apply Hnn); auto using in_eq, in_cons.
  - apply Forall_forall. intros b Hb. apply Hin. exact Hb.
Qed.

(** A view that canonicalises without error is in canonical form afterwards. *)
Theorem C17_canonical_form u p v u' :
  nth_error (u_views u) p = Some v ->
  (forall p v ap, nth_error (u_views u) p = Some v -> v_agg v = Some ap -> ap < length (u_aggs u)) ->
  (forall ap bounds, nth_error (u_aggs u) ap = Some (AggDist bounds) -> Forall f_valid bounds) ->
  canonicalize u p = Some (u', None) ->
  exists v' me ap a a',
    nth_error (u_views u') p = Some v' /\ v_measure v = Some me /\ v_agg v = Some ap /\
    v_measure v' = Some me /\ v_agg v' = Some ap /\
    (* name and description *)
    v_name v' = (match v_name v with [] => me_name me | n => n end) /\
    v_desc v' = (match v_desc v with [] => me_desc me | n => n end) /\
    length (v_name v') <= 255 /\ Forall (fun c => (32 <= b2n c <= 126)%N) (v_name v') /\
    (* keys *)
    Permutation (v_keys v) (v_keys v') /\ StronglySorted (fun a b => bytes_ltb b a = false) (v_keys v') /\
    (* aggregation *)
    nth_error (u_aggs u) ap = Some a /\ nth_error (u_aggs u') ap = Some a' /\
    match a with
    | AggDist bounds =>
        (forall b, In b bounds -> f_ltb b f_zero = false) /\
        exists bounds', a' = AggDist bounds' /\ good_bounds bounds' /\
          Permutation bounds' (filter (fun b => f_ltb f_zero b) bounds)
    | _ => a' = a
    end /\
    canonicalize u' p = Some (u', None).
Proof.
  intros Ev Hap Hb E.
  assert (Hp : p < length (u_views u)) by (apply nth_error_Some; congruence).
  destruct (canonicalize_spec u p Hp Hap) as (u1 & e1 & E1 & Hu & Hc & Hm).
  rewrite E in E1. injection E1 as <- <-.
  destruct (spec_view u p) as [sv|] eqn:Es; [|destruct Hm as [er Hm]; discriminate].
  destruct Hm as [_ (C1 & C2 & C3)]. pose proof Es as Es'.
  unfold spec_view in Es. rewrite Ev in Es.
  destruct (v_measure v) as [me|] eqn:Eme; [|discriminate]. destruct (v_agg v) as [ap|] eqn:Eap; [|discriminate].
  cbv zeta in Es. destruct ((length (or_else (v_name v) (me_name me)) <=? 255) && forallb printable (or_else (v_name v) (me_name me))) eqn:Ename; [|discriminate].
  destruct (nth_error (u_aggs u) ap) as [a|] eqn:Ea; [|discriminate]. destruct (spec_agg a) as [a'|] eqn:Ea'; [|discriminate].
  injection Es as <-. cbn [sv_name sv_desc sv_keys sv_measure sv_aggp sv_agg] in *.
  apply andb_true_iff in Ename. destruct Ename as [En1 En2].
  eexists. exists me, ap, a, a'. split; [exact C2|]. cbn [v_measure v_agg v_name v_desc v_keys].
  split; [reflexivity|]. split; [reflexivity|]. split; [reflexivity|]. split; [reflexivity|].
  split; [unfold or_else; now destruct (v_name v)|]. split; [unfold or_else; now destruct (v_desc v)|].
  split; [lia|]. split.
  { apply Forall_forall. intros c Hin. rewrite forallb_forall in En2. specialize (En2 c Hin). unfold printable in En2. lia. }
  split; [symmetry; apply isort_perm|]. split; [apply (keys_sorted (v_keys v))|].
  split; [exact Ea|]. split; [exact C3|]. split.
  { destruct a as [| |bounds|]; cbn [spec_agg] in Ea'; try (injection Ea' as <-; reflexivity).
    destruct (existsb (fun b => f_ltb b f_zero) bounds) eqn:Ex; [discriminate|]. injection Ea' as <-. split.
    - intros b Hin. destruct (f_ltb b f_zero) eqn:Eb; [|reflexivity].
      assert (existsb (fun b => f_ltb b f_zero) bounds = true) by (apply existsb_exists; exists b; auto). congruence.
    - eexists. split; [reflexivity|]. split; [|apply isort_perm]. apply positive_sorted_good. eapply Hb. exact Ea. }
  (* idempotence *)
  unfold canonicalize. rewrite C2. cbn [v_measure v_agg v_name v_desc v_keys].
  assert (Hn : forall (n d : bytes), match or_else n d with [] => d | b :: l => b :: l end = or_else n d)
    by (intros [|? ?] [|? ?]; reflexivity).
  assert (Hck : check_view_name (or_else (v_name v) (me_name me)) = None).
  { apply check_name_spec. now rewrite En1, En2. }
  rewrite !Hn.
  rewrite Hck, C3, keys_sort_idem.
  pose proof (spec_agg_idem _ _ Ea') as Ei. rewrite spec_agg_eq in Ei.
  match type of Ei with context [if ?b then _ else _] => destruct b; [discriminate|] end.
  injection Ei as Ei. do 2 f_equal. destruct u' as [vs as']. cbn [u_views u_aggs] in *. f_equal.
  - apply upd_id. intros x Ex. rewrite C2 in Ex. now injection Ex as <-.
  - apply upd_id. intros x Ex. rewrite C3 in Ex. injection Ex as <-. exact Ei.
Qed.

(** Canonicalisation fails exactly for the documented reasons. *)
Theorem C17_rejected_iff u p v :
  nth_error (u_views u) p = Some v ->
  (forall p v ap, nth_error (u_views u) p = Some v -> v_agg v = Some ap -> ap < length (u_aggs u)) ->
  exists u' e, canonicalize u p = Some (u', e) /\
  (e <> None <->
   v_measure v = None \/ v_agg v = None \/
   (exists me, v_measure v = Some me /\
      let name := match v_name v with [] => me_name me | n => n end in
      (255 < length name \/ exists c, In c name /\ ~ (32 <= b2n c <= 126)%N)) \/
   (exists ap bounds b, v_agg v = Some ap /\ nth_error (u_aggs u) ap = Some (AggDist bounds) /\
      In b bounds /\ f_ltb b f_zero = true)).
Proof.
  intros Ev Hap.
  assert (Hp : p < length (u_views u)) by (apply nth_error_Some; congruence).
  destruct (canonicalize_spec u p Hp Hap) as (u1 & e1 & E1 & _ & _ & Hm). exists u1, e1. split; [exact E1|].
  unfold spec_view in Hm. rewrite Ev in Hm. cbv zeta in *.
  destruct (v_measure v) as [me|] eqn:Eme.
  2:{ destruct Hm as [er ->]. split; [auto|discriminate]. }
  destruct (v_agg v) as [ap|] eqn:Eap.
  2:{ destruct Hm as [er ->]. split; [auto|discriminate]. }
  assert (Hor : match v_name v with [] => me_name me | b :: l => b :: l end = or_else (v_name v) (me_name me))
    by (destruct (v_name v); reflexivity).
  set (name := or_else (v_name v) (me_name me)) in *.
  destruct (nth_error (u_aggs u) ap) as [a|] eqn:Ea.
  2:{ exfalso. apply nth_error_None in Ea. specialize (Hap p v ap Ev Eap). lia. }
  assert (Hname : (length name <=? 255) && forallb printable name = false <->
                  255 < length name \/ exists c, In c name /\ ~ (32 <= b2n c <= 126)%N).
  { rewrite andb_false_iff. split; (intros [H|H]; [left; lia|right]).
    - destruct (existsb (fun c => negb (printable c)) name) eqn:Ex.
      + apply existsb_exists in Ex. destruct Ex as (c & Hc & Hn). exists c. split; [exact Hc|]. unfold printable in Hn. lia.
      + exfalso. apply not_true_iff_false in H. apply H. apply forallb_forall. intros c Hc.
        destruct (printable c) eqn:E; [reflexivity|].
        assert (existsb (fun c => negb (printable c)) name = true) by (apply existsb_exists; exists c; rewrite E; auto). congruence.
    - destruct H as (c & Hc & Hn). apply not_true_iff_false. rewrite forallb_forall. intros Hall. specialize (Hall c Hc).
      unfold printable in Hall. lia. }
  destruct ((length name <=? 255) && forallb printable name) eqn:En.
  - assert (Hagg : spec_agg a = None <-> exists bounds b, a = AggDist bounds /\ In b bounds /\ f_ltb b f_zero = true).
    { destruct a as [| |bounds|]; cbn [spec_agg]; try (split; [discriminate|intros (bo & b & H & _); discriminate]).
      destruct (existsb (fun b => f_ltb b f_zero) bounds) eqn:Ex; split; try congruence.
      - intros _. apply existsb_exists in Ex. destruct Ex as (b & Hb1 & Hb2). exists bounds, b. auto.
      - intros (bo & b & [= <-] & Hin & Hlt).
        assert (existsb (fun b => f_ltb b f_zero) bounds = true) by (apply existsb_exists; exists b; auto). congruence. }
    destruct (spec_agg a) as [a'|].
    + destruct Hm as [-> _]. split; [congruence|].
      intros [H|[H|[(me' & [= <-] & H)|(ap' & bounds & b & [= <-] & Eb & H)]]]; try discriminate.
      * exfalso. rewrite Hor in H. apply Hname in H. discriminate.
      * rewrite Ea in Eb. injection Eb as ->. assert (Some a' = None) by (apply Hagg; exists bounds, b; auto). discriminate.
    + destruct Hm as [er ->]. split; [intros _|discriminate]. right. right. right.
      destruct (proj1 Hagg eq_refl) as (bounds & b & -> & H). exists ap, bounds, b. rewrite Ea. auto.
  - destruct Hm as [er ->]. split; [intros _|discriminate]. right. right. left. exists me. split; [reflexivity|].
    rewrite Hor. apply Hname. reflexivity.
Qed.

(** ** C18 *)

(** Read: one metric per registered view that has data; its descriptor is that of
    the view, and it has exactly one time series per row, label values aligned
    with the label keys. *)
Theorem C18_read u h w o now :
  u_ok u -> Forall (cmd_ok u) h -> wrun u h w ->
  exists ms, handle o w (CmdRead now) = Some (RMetrics ms, [], w) /\
    (* every metric is that of a registered view with data *)
    (forall m, In m ms -> exists p sv rows,
        finds o w (md_name (mt_desc m)) (Some p) /\ spec_view u p = Some sv /\ rows <> [] /\
        (exists rows', retrieves o w (md_name (mt_desc m)) (Some rows') /\ Permutation rows' rows) /\
        descriptor_of sv (mt_desc m) /\ mt_resource m = resource_of h /\
        Forall2 (series_of (mt_desc m) now) rows (mt_series m)) /\
    (* and every registered view with data has one *)
    (forall n p rows, finds o w n (Some p) -> retrieves o w n (Some rows) -> rows <> [] ->
        exists m, In m ms /\ md_name (mt_desc m) = n).
Proof.
  intros U Hok H.
  destruct (C14_meter_answers u h w o (CmdRead now) U) as (r & evs & w' & E & -> & ms & -> & ns & N & Hns & HF);
    [apply Forall_app; repeat constructor; exact Hok|exact H|].
  assert (w' = w).
  { cbn [handle] in E. destruct (read_all o w (ord o _ (w_views w)) now); [|discriminate]. injection E as _ <-. reflexivity. }
  subst w'. exists ms. split; [exact E|].
  assert (Hname : forall n m e, s_state u h n = Some e -> metric_of u (resource_of h) now e m -> md_name (mt_desc m) = n).
  { intros n m e En (sv & rows & Es & _ & (D & _) & _). destruct (s_state_name u h n e En) as (sv' & Es' & En'). congruence. }
  split.
  - intros m Hm. destruct (Forall2_in_r _ _ _ _ HF Hm) as (n & Hn & e & En & Hme).
    pose proof (Hname n m e En Hme) as Hnm. destruct Hme as (sv & rows & Es & Hr & D & R & HS).
    exists (en_view e), sv, rows. rewrite Hnm. split; [apply (finds_iff u h w o n _ U Hok H); now rewrite En|].
    split; [exact Es|]. destruct Hr as (sv' & Es' & HG). rewrite Es in Es'. injection Es' as <-.
    split; [|split; [|auto]].
    + intros ->. apply Hns in Hn. destruct Hn as (e' & En' & Hne). rewrite En in En'. injection En' as <-.
      destruct (en_samples e) as [|[m0 s0] ss]; [congruence|]. destruct HG as [_ HG].
      apply (HG (row_tags (sv_keys sv) m0) (aggregate (sv_agg sv) (s_time s0)
               (map snd ((m0, s0) :: with_tags (sv_keys sv) (row_tags (sv_keys sv) m0) ss)))).
      exists m0, s0, (with_tags (sv_keys sv) (row_tags (sv_keys sv) m0) ss). split; [|reflexivity].
      unfold with_tags. cbn [filter fst].
      assert (tags_eqb (row_tags (sv_keys sv) m0) (row_tags (sv_keys sv) m0) = true) as ->; [|reflexivity].
      unfold tags_eqb. generalize (row_tags (sv_keys sv) m0). clear. induction l as [|[k v] l IH]; [reflexivity|].
      cbn [list_eqb fst snd]. rewrite IH. destruct (bytes_eqb_spec k k), (bytes_eqb_spec v v); try congruence; reflexivity.
    + destruct (retrieves_some u h w o n e U Hok H En) as (rows' & R1 & sv' & S1 & G1). exists rows'.
      split; [exact R1|]. rewrite Es in S1. injection S1 as <-. eapply group_by_perm; eassumption.
  - intros n p rows Hf Hr Hne. apply (finds_iff u h w o n _ U Hok H) in Hf.
    destruct (s_state u h n) as [e|] eqn:En; [|discriminate]. injection Hf as ->.
    assert (Hn : In n ns).
    { apply Hns. exists e. split; [exact En|]. intros Hs.
      destruct (retrieves_some u h w o n e U Hok H En) as (rows' & R1 & sv' & S1 & G1).
      unfold retrieves in *. rewrite R1 in Hr. injection Hr as ->. apply Hne.
      destruct rows as [|[tags data] rows]; [reflexivity|]. rewrite Hs in G1. destruct G1 as [_ G1].
      destruct (proj1 (G1 tags data) (or_introl eq_refl)) as (m0 & s0 & rest & Hw & _). discriminate. }
    destruct (Forall2_in_l _ _ _ _ HF Hn) as (m & Hm & e' & En' & Hme). exists m. split; [exact Hm|].
    eapply Hname; eassumption.
Qed.

(** The type and unit of a view's metric: count is an int64 cumulative counted in
    "1"; sums and last values follow the measure; distributions stay
    distributions. *)
Theorem C18_type_table sv d :
  descriptor_of sv d -> me_kind (sv_measure sv) <> MOther ->
  md_type d =
    match sv_agg sv, me_kind (sv_measure sv) with
    | AggCount, _ => TyCumulativeInt64
    | AggSum, MInt64 => TyCumulativeInt64
    | AggSum, _ => TyCumulativeFloat64
    | AggDist _, _ => TyCumulativeDistribution
    | AggLast, MInt64 => TyGaugeInt64
    | AggLast, _ => TyGaugeFloat64
    end /\
  md_unit d = match sv_agg sv with
              | AggCount => bs "1"
              | _ => if bytes_eqb (me_unit (sv_measure sv)) (bs "ms") then bs "ms"
                     else if bytes_eqb (me_unit (sv_measure sv)) (bs "By") then bs "By" else bs "1"
              end.
Proof.
  intros (_ & _ & _ & Hu & Ht) Hk. split.
  - unfold get_type in Ht. destruct (sv_agg sv), (me_kind (sv_measure sv)); congruence.
  - rewrite Hu. unfold convert_unit, get_unit.
    destruct (sv_agg sv); try reflexivity;
      destruct (bytes_eqb_spec (me_unit (sv_measure sv)) (bs "1")) as [->|]; try reflexivity;
      now destruct (bytes_eqb_spec (bs "1") (bs "ms")).
Qed.

(** ** Examples and refutations *)

Fixpoint run_fn (w : wst) (cs : list cmd) : option wst :=
  match cs with
  | [] => Some w
  | c :: r => match handle id_order w c with Some (_, _, w') => run_fn w' r | None => None end
  end.

Lemma run_fn_ok u cs : forall h w w', wrun u h w -> run_fn w cs = Some w' -> wrun u (h ++ cs) w'.
Proof.
  induction cs as [|c cs IH]; intros h w w' H E; cbn [run_fn] in E.
  - injection E as <-. now rewrite app_nil_r.
  - destruct (handle id_order w c) as [[[r evs] w1]|] eqn:E1; [|discriminate].
    change (c :: cs) with ([c] ++ cs). rewrite app_assoc. eapply IH; [|exact E]. eapply wrun_snoc; eassumption.
Qed.

Definition m_lat : measure := MkMeasure (bs "latency") (bs "Latency") (bs "ms") MFloat64.
Definition m_cnt : measure := MkMeasure (bs "requests") (bs "Requests") (bs "1") MInt64.
Definition kx : key := bs "x".
Definition ky : key := bs "y".

(** Views: 0 and 1 share name, measure and aggregation but not keys; 2 has the
    definition of 0 with a second, equal distribution; 3 is invalid; 4 counts. *)
Definition ex_u : uworld := MkU
  [ MkView (bs "v") (bs "") [ky; kx] (Some m_lat) (Some 0);
    MkView (bs "v") (bs "") [kx] (Some m_lat) (Some 0);
    MkView (bs "v") (bs "") [ky; kx] (Some m_lat) (Some 1);
    MkView (bs "w") (bs "") [] None (Some 2);
    MkView (bs "") (bs "") [kx] (Some m_cnt) (Some 2) ]
  [ AggDist [f_of_Z 5; f_zero; f_of_Z 2]; AggDist [f_of_Z 5; f_zero; f_of_Z 2]; AggCount ].

Lemma ex_u_ok : u_ok ex_u.
Proof.
  split; [|split].
  - intros p v ap. do 5 (destruct p as [|p]; [intros [= <-] [= <-]; cbn; lia|]). intros E; cbn in E; destruct p; discriminate.
  - intros ap bounds. do 3 (destruct ap as [|ap]; [intros [= <-]; repeat constructor|]); try discriminate.
    intros E; cbn in E; destruct ap; discriminate.
  - intros p v me. do 5 (destruct p as [|p]; [intros [= <-] [= <-]; discriminate|]). intros E; cbn in E; destruct p; discriminate.
Qed.

Definition tmx (v : bytes) : option tmap := Some [(kx, Content v (-1))].
Definition ex_h : list cmd :=
  [CmdRegister [0; 4] 100%Z;
   CmdRecord (tmx (bs "a")) [Some (m_lat, f_of_Z 3); Some (m_cnt, f_of_Z 1)] [] 110%Z;
   CmdRecord (tmx (bs "b")) [Some (m_lat, f_of_Z 7); None] [] 120%Z;
   CmdRegister [2] 130%Z; CmdAddExporter 9; CmdTick 140%Z; CmdSetResource 3].

Lemma tmx_short v : length v <= 255 -> short_values (tmx v).
Proof. intros H k. unfold tmx, value_of, tget. cbn [mget]. destruct (bytes_eqb kx k); cbn [fst c_value length]; [exact H|lia]. Qed.

Lemma ex_h_ok : Forall (cmd_ok ex_u) ex_h.
Proof.
  unfold ex_h.
  repeat (apply Forall_cons; [first [apply tmx_short; cbn; lia | exact I | cbn; repeat constructor; lia]|]).
  apply Forall_nil.
Qed.

Example C13_C14_example :
  u_ok ex_u /\ Forall (cmd_ok ex_u) ex_h /\ exists w, wrun ex_u ex_h w /\
    (* the second definition of "v" was refused, the first one kept its two rows *)
    finds id_order w (bs "v") (Some 0) /\
    (exists rows, retrieves id_order w (bs "v") (Some rows) /\ length rows = 2) /\
    (* the name of view 4 is its measure's *)
    finds id_order w (bs "requests") (Some 4) /\
    spec_view ex_u 3 = None.
Proof.
  split; [apply ex_u_ok|]. split; [apply ex_h_ok|].
  destruct (run_fn (new_meter ex_u) ex_h) as [w|] eqn:E; [|vm_compute in E; discriminate].
  assert (H : wrun ex_u ex_h w) by (change ex_h with ([] ++ ex_h); eapply run_fn_ok; [constructor|exact E]).
  exists w. split; [exact H|].
  rewrite !(finds_iff ex_u ex_h w id_order _ _ ex_u_ok ex_h_ok H).
  split; [vm_compute; reflexivity|]. split; [|split; [vm_compute; reflexivity|reflexivity]].
  unfold retrieves. cbn [handle].
  assert (X : match run_fn (new_meter ex_u) ex_h with
              | Some w => match handle_retrieve id_order w (bs "v") with Some (Some rows) => length rows | _ => 0 end
              | None => 0 end = 2) by (vm_compute; reflexivity).
  rewrite E in X. destruct (handle_retrieve id_order w (bs "v")) as [[rows|]|]; [|discriminate X|discriminate X].
  exists rows. split; [reflexivity|exact X].
Qed.

Definition ret_of (cs : list cmd) (c : cmd) : option resp :=
  match run_fn (new_meter ex_u) cs with
  | Some w => match handle id_order w c with Some (r, _, _) => Some r | None => None end
  | None => None
  end.

(** "Registering a different view under a taken name is an error" is false when
    the two views differ only in their tag keys: Register returns nil, and the
    rows of the second view never show. *)
Theorem C13_different_keys_refuted :
  u_ok ex_u /\
  (exists sv0 sv1, spec_view ex_u 0 = Some sv0 /\ spec_view ex_u 1 = Some sv1 /\
     sv_name sv0 = sv_name sv1 /\ sv_keys sv0 <> sv_keys sv1) /\
  ret_of [CmdRegister [0] 100%Z] (CmdRegister [1] 101%Z) = Some (RRegister None) /\
  ret_of [CmdRegister [0] 100%Z; CmdRegister [1] 101%Z] (CmdFind (bs "v")) = Some (RFind (Some 0)).
Proof.
  split; [apply ex_u_ok|]. split.
  - do 2 eexists. split; [reflexivity|]. split; [reflexivity|]. split; [reflexivity|]. vm_compute. discriminate.
  - split; vm_compute; reflexivity.
Qed.

(** "Registering the identical view again succeeds" is false when identical means
    equal definitions: two equal distributions made by two calls of
    view.Distribution conflict. *)
Theorem C13_equal_definition_refuted :
  u_ok ex_u /\
  (exists sv0 sv2, spec_view ex_u 0 = Some sv0 /\ spec_view ex_u 2 = Some sv2 /\
     sv_name sv0 = sv_name sv2 /\ sv_keys sv0 = sv_keys sv2 /\ sv_measure sv0 = sv_measure sv2 /\
     sv_agg sv0 = sv_agg sv2) /\
  ret_of [CmdRegister [0] 100%Z] (CmdRegister [2] 101%Z) = Some (RRegister (Some (inr [2]))).
Proof.
  split; [apply ex_u_ok|]. split.
  - do 2 eexists. split; [reflexivity|]. split; [reflexivity|]. repeat split; vm_compute; reflexivity.
  - vm_compute; reflexivity.
Qed.

(** Unregister of a view that is not registered removes the registered view of
    the same name. *)
Theorem C13_unregister_by_name_refuted :
  u_ok ex_u /\ same_view ex_u 0 2 = false /\
  ret_of [CmdRegister [0] 100%Z] (CmdFind (bs "v")) = Some (RFind (Some 0)) /\
  ret_of [CmdRegister [0] 100%Z; api_unregister ex_u [2] 101%Z] (CmdFind (bs "v")) = Some (RFind None).
Proof. split; [apply ex_u_ok|]. repeat split; vm_compute; reflexivity. Qed.

Example C17_example :
  match canonicalize ex_u 0 with
  | Some (u', None) =>
      nth_error (u_views u') 0 = Some (MkView (bs "v") (bs "Latency") [kx; ky] (Some m_lat) (Some 0)) /\
      option_map agg_buckets (nth_error (u_aggs u') 0) = Some [f_of_Z 2; f_of_Z 5]
  | _ => False
  end.
Proof. vm_compute. split; reflexivity. Qed.

Print Assumptions C14_meter_answers.
Print Assumptions C13_register_one.
Print Assumptions C13_register_keeps.
Print Assumptions C13_invalid_registers_nothing.
Print Assumptions C13_register_error_iff.
Print Assumptions C13_unique_names.
Print Assumptions C14_retrieve_since_registration.
Print Assumptions C14_unregister.
Print Assumptions C17_canonical_form.
Print Assumptions C17_rejected_iff.
Print Assumptions C18_read.
Print Assumptions C18_type_table.
Print Assumptions C13_different_keys_refuted.
Print Assumptions C13_equal_definition_refuted.
Print Assumptions C13_unregister_by_name_refuted.
