(** Property theorems for stats.Record and its variants (C16). *)

From Coq Require Import String.
From Coq Require Import List Arith ZArith Bool Lia Permutation.
From Verif Require Import Base GoMap Float64 TagModel TagSpec TagProofs TagProps AggModel ViewModel WorkerModel WorkerSpec
  ViewProofs WorkerProofs RecordModel.
From Verif Require WorkerProps.
Import ListNotations.
Open Scope nat_scope.

(** A measurement of a measure some view of which has ever been registered. *)
Definition has_view (u : uworld) (h : list cmd) (m : measurement) : Prop :=
  exists me v, m = Some (me, v) /\
    exists h1 h2 n e sv, h = h1 ++ h2 /\ s_state u h1 n = Some e /\
      spec_view u (en_view e) = Some sv /\ me_name (sv_measure sv) = me_name me.

Lemma any_subscribed_spec u h w ms :
  u_ok u -> Forall (cmd_ok u) h -> wrun u h w -> ~ In None ms ->
  exists b, any_subscribed (w_subs w) ms = Some b /\ (b = true <-> exists m, In m ms /\ has_view u h m).
Proof.
  intros U Hok H. induction ms as [|[[me v]|] ms IH]; intros Hz.
  - exists false. split; [reflexivity|]. split; [discriminate|]. intros (m & [] & _).
  - cbn [any_subscribed]. destruct (existsb (bytes_eqb (me_name me)) (w_subs w)) eqn:E.
    + exists true. split; [reflexivity|]. split; [intros _|reflexivity]. exists (Some (me, v)). split; [now left|].
      apply existsb_exists in E. destruct E as (m & Hm & Em).
      destruct (bytes_eqb_spec (me_name me) m) as [<-|]; [|discriminate].
      apply (wrun_subs u U h w Hok H) in Hm. exists me, v. split; [reflexivity|exact Hm].
    + destruct IH as (b & E1 & Hb); [intros Hin; apply Hz; now right|]. exists b. split; [exact E1|]. rewrite Hb. split.
      * intros (m & Hm & Hv). exists m. split; [now right|exact Hv].
      * intros (m & [<-|Hm] & Hv); [|exists m; auto]. exfalso.
        destruct Hv as (me' & v' & [= <- <-] & Hv). apply (wrun_subs u U h w Hok H) in Hv.
        assert (existsb (bytes_eqb (me_name me)) (w_subs w) = true); [|congruence].
        apply existsb_exists. exists (me_name me). split; [exact Hv|]. now destruct (bytes_eqb_spec (me_name me) (me_name me)).
  - exfalso. apply Hz. now left.
Qed.

(** Record delivers all its measurements, with the context's tags, as soon as one
    of them has ever had a view; otherwise it delivers nothing. *)
Theorem C16_record u h w hp c ms :
  u_ok u -> Forall (cmd_ok u) h -> wrun u h w -> ~ In None ms ->
  ((exists m, In m ms /\ has_view u h m) ->
     api_record true (w_subs w) hp c ms = RecRet None (Some (MkSent default_recorder (ctx_map hp c) ms []))) /\
  (~ (exists m, In m ms /\ has_view u h m) ->
     api_record true (w_subs w) hp c ms = RecRet None None).
Proof.
  intros U Hok H Hz. destruct (any_subscribed_spec u h w ms U Hok H Hz) as (b & E & Hb). unfold api_record.
  destruct ms as [|m ms]; [split; [intros (m & [] & _)|reflexivity]|]. cbn [negb]. rewrite E.
  destruct b; split; intros Hv; try reflexivity.
  - exfalso. apply Hv. now apply Hb.
  - apply Hb in Hv. discriminate.
Qed.

(** The last occurrence of each option counts. *)
Definition opt_ms (xs : list ropt) : list measurement :=
  fold_left (fun a x => match x with WithMeasurements m => m | _ => a end) xs [].
Definition opt_mut (xs : list ropt) : list mutator :=
  fold_left (fun a x => match x with WithTags m => m | _ => a end) xs [].
Definition opt_att (xs : list ropt) : attachments :=
  fold_left (fun a x => match x with WithAttachments m => m | _ => a end) xs [].
Definition opt_rec (xs : list ropt) : nat :=
  match fold_left (fun a x => match x with WithRecorder m => m | _ => a end) xs None with
  | Some r => r
  | None => default_recorder
  end.

Lemma create_opts xs : exists r,
  create_record_option xs = MkRopts (opt_att xs) (opt_mut xs) (opt_ms xs) r /\
  opt_rec xs = match r with Some r => r | None => default_recorder end.
Proof.
  unfold create_record_option, opt_att, opt_mut, opt_ms, opt_rec.
  eexists. split; [|reflexivity].
  generalize (@nil (bytes * bytes)), (@nil mutator), (@nil measurement), (@None nat).
  induction xs as [|x xs IH]; intros l0 l1 l2 o; [reflexivity|]. cbn [fold_left].
  destruct x; cbn [apply_opt ro_att ro_mut ro_ms ro_rec]; apply IH.
Qed.

(** RecordWithOptions.  Without a measurement that has ever had a view: nil, nothing
    delivered.  Otherwise the mutators are applied to the context's tags; an
    invalid mutator is returned as an error and nothing is delivered; else all
    measurements are delivered to the chosen recorder with the mutated tags. *)
Theorem C16_record_with_options u h w s i it xs hp' out :
  u_ok u -> Forall (cmd_ok u) h -> wrun u h w -> ~ In None (opt_ms xs) ->
  tag_reach valid_key s ->
  let c := nth i (st_ctxs s) None in
  iterates (st_heap s) c it ->
  api_record_opts true (w_subs w) (st_heap s) c it xs = (hp', out) ->
  (~ (exists m, In m (opt_ms xs) /\ has_view u h m) -> hp' = st_heap s /\ out = RecRet None None) /\
  ((exists m, In m (opt_ms xs) /\ has_view u h m) ->
     ((exists mu, In mu (opt_mut xs) /\ ~ mutator_ok mu) -> exists e, out = RecRet (Some e) None) /\
     ((forall mu, In mu (opt_mut xs) -> mutator_ok mu) ->
        exists tm, out = RecRet None (Some (MkSent (opt_rec xs) tm (opt_ms xs) (opt_att xs))) /\
          forall k, (match tm with Some m => as_fun m | None => fempty end) k =
            fold_left (fun f mu => spec_mutate mu f) (opt_mut xs) (ctx_fun (st_heap s) c) k)).
Proof.
  intros U Hok H Hz Hr c Hit. unfold api_record_opts.
  destruct (create_opts xs) as (r & -> & Hrec). cbn [ro_ms ro_rec ro_mut ro_att].
  destruct (any_subscribed_spec u h w (opt_ms xs) U Hok H Hz) as (b & E & Hb). rewrite E.
  destruct (opt_ms xs) as [|m0 ms0] eqn:Ems.
  { intros [= <- <-]. split; [auto|]. intros (m & [] & _). }
  rewrite <- Ems in *. clear m0 ms0 Ems.
  assert (Hrr : match r with Some r0 => Some r0 | None => Some default_recorder end = Some (opt_rec xs)).
  { rewrite Hrec. destruct r; reflexivity. }
  rewrite Hrr. destruct b.
  2:{ intros [= <- <-]. split; [auto|]. intros Hv. apply Hb in Hv. discriminate. }
  intros Heq. split; [intros Hv; exfalso; apply Hv; now apply Hb|]. intros _.
  destruct (opt_mut xs) as [|mu0 mus] eqn:Emu.
  - injection Heq as <- <-. split; [intros (mu & [] & _)|]. intros _. eexists. split; [reflexivity|].
    intros k. reflexivity.
  - rewrite <- Emu in *. clear mu0 mus Emu.
    destruct (tag_new (st_heap s) c it (opt_mut xs)) as [[h' c'] e] eqn:En.
    destruct (C03_new s i it (opt_mut xs) h' c' e Hr Hit En) as [Hgood Hbad]. split.
    + intros Hx. destruct (Hbad Hx) as [He _]. destruct e as [er|]; [|congruence]. injection Heq as <- <-. eauto.
    + intros Hx. destruct (Hgood Hx) as [-> Hf]. injection Heq as <- <-. eexists. split; [reflexivity|].
      intros k. rewrite <- Hf. reflexivity.
Qed.

(** RecordWithTags: the same, always to the default recorder and without
    attachments. *)
Theorem C16_record_with_tags u h w s i it mus ms hp' out :
  u_ok u -> Forall (cmd_ok u) h -> wrun u h w -> ~ In None ms ->
  tag_reach valid_key s ->
  let c := nth i (st_ctxs s) None in
  iterates (st_heap s) c it ->
  api_record_tags true (w_subs w) (st_heap s) c it mus ms = (hp', out) ->
  (~ (exists m, In m ms /\ has_view u h m) -> hp' = st_heap s /\ out = RecRet None None) /\
  ((exists m, In m ms /\ has_view u h m) ->
     ((exists mu, In mu mus /\ ~ mutator_ok mu) -> exists e, out = RecRet (Some e) None) /\
     ((forall mu, In mu mus -> mutator_ok mu) ->
        exists tm, out = RecRet None (Some (MkSent default_recorder tm ms [])) /\
          forall k, (match tm with Some m => as_fun m | None => fempty end) k =
            fold_left (fun f mu => spec_mutate mu f) mus (ctx_fun (st_heap s) c) k)).
Proof. apply (C16_record_with_options u h w s i it [WithTags mus; WithMeasurements ms]). Qed.

(** What is delivered to the default recorder is what views then aggregate: handling
    the delivery adds, for each measure, its measurements in order, with the delivered
    tags and attachments and the time of the call ([recorded] feeds C14). *)
Theorem C16_delivered sn now h m :
  WorkerProps.recorded m (h ++ [sent_cmd sn now]) =
  WorkerProps.recorded m h ++
  flat_map (fun x => match x with
                     | Some (me, v) => if bytes_eqb (me_name me) m
                                       then [(sn_tags sn, @MkSample f64_num v (sn_att sn) now)] else []
                     | None => []
                     end) (sn_ms sn).
Proof. unfold WorkerProps.recorded. rewrite flat_map_app. cbn. now rewrite app_nil_r. Qed.

(** Dropping the measurements is not observable: had the worker been given the
    command, every later state would be the same. *)
Theorem C16_drop_unobservable u h w hp c ms tm att now h2 n :
  u_ok u -> Forall (cmd_ok u) h -> wrun u h w -> ~ In None ms ->
  api_record true (w_subs w) hp c ms = RecRet None None ->
  s_state u (h ++ CmdRecord tm ms att now :: h2) n = s_state u (h ++ h2) n.
Proof.
  intros U Hok H Hz E.
  assert (Hnv : forall m, In m ms -> ~ has_view u h m).
  { intros m Hm Hv. destruct (C16_record u h w hp c ms U Hok H Hz) as [Hs _].
    rewrite Hs in E by (exists m; auto). discriminate. }
  assert (Hst : forall n, s_step u (s_state u h) (CmdRecord tm ms att now) n = s_state u h n).
  { intros n'. cbn [s_step]. destruct (s_state u h n') as [[ev es el]|] eqn:En; [|reflexivity]. cbn [en_view en_start en_samples].
    destruct (spec_view u ev) as [sv|] eqn:Es; [|reflexivity].
    assert (samples_for (me_name (sv_measure sv)) tm ms att now = []) as ->; [|now rewrite app_nil_r].
    clear E Hz. induction ms as [|m ms IH]; [reflexivity|]. unfold samples_for in *. cbn [flat_map].
    rewrite IH by (intros m' Hm'; apply Hnv; now right). destruct m as [[me v]|]; [|reflexivity].
    destruct (bytes_eqb_spec (me_name me) (me_name (sv_measure sv))) as [Em|]; [|reflexivity]. exfalso.
    apply (Hnv (Some (me, v)) (or_introl eq_refl)). exists me, v. split; [reflexivity|].
    exists h, [], n', (MkEntry ev es el), sv. rewrite app_nil_r. auto. }
  assert (Hext : forall h2 st st', (forall n, st n = st' n) -> forall n, fold_left (s_step u) h2 st n = fold_left (s_step u) h2 st' n).
  { clear. induction h2 as [|c h2 IH]; intros st st' Heq n; [apply Heq|]. cbn [fold_left]. apply IH. clear n. intros n.
    destruct c; cbn [s_step]; try apply Heq.
    - destruct (forallb (valid_view u) views); [|apply Heq]. revert st st' Heq. induction views as [|p ps IHp]; intros st st' Heq; [apply Heq|].
      cbn [fold_left]. apply IHp. intros n'. unfold s_register. destruct (spec_view u p) as [sv|]; [|apply Heq].
      rewrite <- Heq. destruct (st (sv_name sv)); [apply Heq|]. unfold s_set. destruct (bytes_eqb (sv_name sv) n'); [reflexivity|apply Heq].
    - destruct (existsb (bytes_eqb n) names); [reflexivity|apply Heq].
    - now rewrite <- Heq. }
  unfold s_state at 1. rewrite fold_left_app. cbn [fold_left]. fold (s_state u h).
  unfold s_state at 2. rewrite fold_left_app. fold (s_state u h). apply Hext. exact Hst.
Qed.

(** A zero Measurement makes Record and RecordWithOptions panic if no earlier measurement
    is of a measure with a view. *)
Theorem C16_zero_measurement u h w hp c pre post :
  u_ok u -> Forall (cmd_ok u) h -> wrun u h w -> ~ In None pre -> ~ (exists m, In m pre /\ has_view u h m) ->
  api_record true (w_subs w) hp c (pre ++ None :: post) = RecPanic /\
  forall it xs, opt_ms xs = pre ++ None :: post -> snd (api_record_opts true (w_subs w) hp c it xs) = RecPanic.
Proof.
  intros U Hok H Hz Hv. destruct (any_subscribed_spec u h w pre U Hok H Hz) as (b & E & Hb).
  assert (E' : any_subscribed (w_subs w) (pre ++ None :: post) = None).
  { assert (b = false) as -> by (destruct b; [exfalso; apply Hv, Hb; reflexivity|reflexivity]). clear - E. induction pre as [|[[me v]|] pre IH]; [reflexivity| |discriminate E].
    cbn [any_subscribed app] in *. destruct (existsb _ _); [discriminate E|]. exact (IH E). }
  assert (N : exists a l, pre ++ None :: post = a :: l) by (destruct pre; eexists _, _; reflexivity). destruct N as (a & l & N). split.
  - unfold api_record. rewrite N in *. cbn [negb]. rewrite E'. reflexivity.
  - intros it xs Hx. unfold api_record_opts. destruct (create_opts xs) as (r & -> & _). cbn [ro_ms ro_rec]. rewrite Hx, N in *. rewrite E'. destruct r; reflexivity.
Qed.
(** It does so in a program without views: *)
Theorem C16_zero_measurement_refuted :
  exists ms, api_record true [] [] None ms = RecPanic.
Proof. exists [None]. reflexivity. Qed.

(** Without package view in the program, nothing is delivered, unless RecordWithOptions
    names a recorder. *)
Theorem C16_unlinked subs hp c ms :
  api_record false subs hp c ms = RecRet None None /\
  forall it xs, (forall r, ~ In (WithRecorder (Some r)) xs) -> api_record_opts false subs hp c it xs = (hp, RecRet None None).
Proof.
  split; [destruct ms; reflexivity|]. intros it xs Hx. unfold api_record_opts.
  assert (R : ro_rec (create_record_option xs) = None).
  { unfold create_record_option. enough (G : forall o, ro_rec o = None -> ro_rec (fold_left apply_opt xs o) = None) by (apply G; reflexivity).
    induction xs as [|x xs IH]; intros o Ho; [exact Ho|]. cbn [fold_left]. apply IH; [intros r Hr; apply (Hx r); right; exact Hr|].
    destruct x as [a|m|m|[r|]]; cbn [apply_opt ro_rec]; try exact Ho; [|reflexivity]. exfalso. apply (Hx r). left. reflexivity. }
  rewrite R. destruct (ro_ms (create_record_option xs)); reflexivity.
Qed.

Example C16_example :
  exists w, wrun WorkerProps.ex_u WorkerProps.ex_h w /\
    has_view WorkerProps.ex_u WorkerProps.ex_h (Some (WorkerProps.m_lat, f_of_Z 1)) /\
    ~ has_view WorkerProps.ex_u [] (Some (WorkerProps.m_lat, f_of_Z 1)).
Proof.
  destruct (WorkerProps.C13_C14_example) as (_ & _ & w & H & _). exists w. split; [exact H|]. split.
  - exists WorkerProps.m_lat, (f_of_Z 1). split; [reflexivity|].
    exists [CmdRegister [0; 4] 100%Z], (tl WorkerProps.ex_h), (bs "v"), (MkEntry 0 100%Z []).
    eexists. split; [reflexivity|]. split; [reflexivity|]. split; reflexivity.
  - intros (me & v & _ & h1 & h2 & n & e & sv & E & Hs & _). symmetry in E. apply app_eq_nil in E. destruct E as [-> _]. discriminate.
Qed.

Print Assumptions C16_record.
Print Assumptions C16_record_with_options.
Print Assumptions C16_record_with_tags.
Print Assumptions C16_delivered.
Print Assumptions C16_drop_unobservable.
Print Assumptions C16_zero_measurement.
Print Assumptions C16_zero_measurement_refuted.
Print Assumptions C16_unlinked.
