(** What a view shows of what a program records: packages tag, stats and stats/view
    together. *)

From Coq Require Import String.
From Coq Require Import List Arith NArith ZArith Bool Lia Permutation.
From Verif Require Import Base ListLib GoMap Float64 TagModel TagSpec TagProofs TagProps AggModel AggProps CollectorModel CollectorSpec
  CollectorProofs ViewModel WorkerModel WorkerSpec ViewProofs WorkerProofs RecordModel RecordProps ProcessModel ProcessSpec ProcessProofs.
From Verif Require Import WorkerProps.
Import ListNotations.
Open Scope nat_scope.

(** No call of the program panics. *)
Theorem C69_no_panic u acts : u_ok u -> pacts_ok u (proc_init u) acts -> exists p, proc_run (proc_init u) acts = Some p.
Proof.
  intros U. generalize (pinv_init u). generalize (proc_init u). generalize (@nil cmd).
  induction acts as [|a acts IH]; intros h p HI Hok; [eexists; reflexivity|]. cbn [pacts_ok proc_run] in *. destruct Hok as [Ha Hok].
  destruct (step_total u h p a U HI Ha) as (p1 & E). rewrite E in *.
  destruct (step_inv u h p a p1 U HI Ha E) as (hs & I1 & _). eapply IH; eauto.
Qed.

Lemma pacts_app u l1 : forall l2 p p1, pacts_ok u p (l1 ++ l2) -> proc_run p l1 = Some p1 -> pacts_ok u p l1 /\ pacts_ok u p1 l2.
Proof.
  induction l1 as [|a l1 IH]; intros l2 p p1 H E; [injection E as <-; split; [exact I|exact H]|].
  cbn [app pacts_ok proc_run] in *. destruct H as [Ha H]. destruct (proc_step p a) as [p2|]; [|discriminate].
  destruct (IH l2 p2 p1 H E) as [H1 H2]. tauto.
Qed.

Lemma proc_run_app l1 : forall l2 p, proc_run p (l1 ++ l2) = match proc_run p l1 with Some p1 => proc_run p1 l2 | None => None end.
Proof.
  induction l1 as [|a l1 IH]; intros l2 p; [reflexivity|]. cbn [app proc_run]. destruct (proc_step p a); [apply IH|reflexivity].
Qed.

(** The tags of a context never change, so it does not matter when they are looked at. *)
Theorem C69_tags_stable u acts p acts' p' c :
  u_ok u -> pacts_ok u (proc_init u) (acts ++ acts') ->
  proc_run (proc_init u) acts = Some p -> proc_run p acts' = Some p' ->
  In c (st_ctxs (pc_tags p)) ->
  In c (st_ctxs (pc_tags p')) /\ ctx_fun (st_heap (pc_tags p')) c = ctx_fun (st_heap (pc_tags p)) c.
Proof.
  intros U Hok E E' Hc. destruct (pacts_app _ _ _ _ _ Hok E) as [Hok1 Hok2].
  destruct (run_inv u acts [] (proc_init u) p U (pinv_init u) Hok1 E) as (h & I1 & _).
  destruct (run_inv u acts' _ p p' U I1 Hok2 E') as (h2 & I2 & X & C & _).
  split; [apply C; exact Hc|]. apply extends_ctx; [apply (pi_tags _ _ _ I1)|now right|exact X].
Qed.

Lemma registered_viewed u h ps1 v ps2 now sv :
  (forall q, In q (ps1 ++ v :: ps2) -> spec_view u q <> None) -> spec_view u v = Some sv ->
  (forall q sv', In q ps1 -> spec_view u q = Some sv' -> sv_name sv' <> sv_name sv) ->
  s_state u h (sv_name sv) = None ->
  viewed u (h ++ [CmdRegister (ps1 ++ v :: ps2) now]) (me_name (sv_measure sv)).
Proof.
  intros Hval Es Hfirst Hst. exists (h ++ [CmdRegister (ps1 ++ v :: ps2) now]), [], (sv_name sv), (MkEntry v now []), sv.
  split; [now rewrite app_nil_r|]. split; [|split; [exact Es|reflexivity]].
  rewrite s_state_snoc. cbn [s_step].
  assert (Hv : forallb (valid_view u) (ps1 ++ v :: ps2) = true).
  { apply forallb_forall. intros q Hq. specialize (Hval q Hq). unfold valid_view. destruct (spec_view u q); congruence. }
  rewrite Hv, fold_left_app. cbn [fold_left]. apply fold_register_keeps.
  assert (N1 : fold_left (s_register u now) ps1 (s_state u h) (sv_name sv) = None).
  { revert Hst. generalize (s_state u h). clear - Hfirst. induction ps1 as [|q ps1 IH]; intros st Hst; [exact Hst|].
    cbn [fold_left]. apply IH; [intros q' sv' Hq; apply Hfirst; now right|]. unfold s_register.
    destruct (spec_view u q) as [sv'|] eqn:E; [|exact Hst]. destruct (st (sv_name sv')); [exact Hst|].
    rewrite s_set_other; [exact Hst|]. apply (Hfirst q); [now left|exact E]. }
  revert N1. generalize (fold_left (s_register u now) ps1 (s_state u h)). intros st N1. unfold s_register. rewrite Es, N1. apply s_set_same.
Qed.

(** From its registration on, under a name that is free, until it is unregistered, a view
    shows the recordings of its measure, all of them and nothing else, grouped by their
    tags. *)
Theorem C69_rows u acts1 p1 o1 o0 ps1 v ps2 now sv acts2 p o :
  u_ok u ->
  pacts_ok u (proc_init u) (acts1 ++ PCmd o0 (CmdRegister (ps1 ++ v :: ps2) now) :: acts2) ->
  proc_run (proc_init u) acts1 = Some p1 ->
  proc_run p1 (PCmd o0 (CmdRegister (ps1 ++ v :: ps2) now) :: acts2) = Some p ->
  (forall q, In q (ps1 ++ v :: ps2) -> spec_view u q <> None) ->
  spec_view u v = Some sv ->
  (forall q sv', In q ps1 -> spec_view u q = Some sv' -> sv_name sv' <> sv_name sv) ->
  finds o1 (pc_worker p1) (sv_name sv) None ->
  (forall a, In a acts2 -> ~ unregisters_name (sv_name sv) a) ->
  finds o (pc_worker p) (sv_name sv) (Some v) /\
  exists rows, retrieves o (pc_worker p) (sv_name sv) (Some rows) /\
    grouped (sv_agg sv) (all_samples (st_heap (pc_tags p)) (sv_keys sv) (me_name (sv_measure sv)) acts2) rows.
Proof.
  intros U Hok E1 E2 Hval Es Hfirst Hfree Hun. destruct (pacts_app _ _ _ _ _ Hok E1) as [Hok1 Hok2].
  destruct (run_inv u acts1 [] (proc_init u) p1 U (pinv_init u) Hok1 E1) as (h1 & I1 & _). cbn [app] in I1.
  cbn [pacts_ok proc_run] in Hok2, E2. destruct Hok2 as [Ha Hok2].
  destruct (proc_step p1 (PCmd o0 (CmdRegister (ps1 ++ v :: ps2) now))) as [p2|] eqn:Es2; [|discriminate].
  destruct (step_inv u h1 p1 _ p2 U I1 Ha Es2) as (hs & I2 & _ & _ & _ & Hhs & _).
  rewrite (Hhs _ _ eq_refl) in I2. clear Hhs.
  destruct (run_inv u acts2 _ p2 p U I2 Hok2 E2) as (h2 & I3 & _ & _ & Hin & Hsam).
  assert (Hst : s_state u h1 (sv_name sv) = None).
  { apply (finds_iff u h1 (pc_worker p1) o1 _ _ U (pi_ok _ _ _ I1) (pi_run _ _ _ I1)) in Hfree.
    destruct (s_state u h1 (sv_name sv)); [discriminate|reflexivity]. }
  rewrite <- app_assoc in I3. cbn [app] in I3.
  destruct (C14_retrieve_since_registration u h1 (pc_worker p1) o1 ps1 v ps2 now sv h2 (pc_worker p) o
              U (pi_ok _ _ _ I3) (pi_run _ _ _ I1) (pi_run _ _ _ I3) Hval Es Hfirst Hfree) as (F & rows & R & G).
  { intros c Hc Hu. destruct (Hin c Hc) as [Hr|(o' & Hp)]; [destruct c; contradiction|].
    exact (Hun _ Hp Hu). }
  split; [exact F|]. exists rows. split; [exact R|]. apply grouped_of in G.
  rewrite <- (Hsam (sv_keys sv) (me_name (sv_measure sv))); [exact G|].
  apply (registered_viewed u h1 ps1 v ps2 now sv Hval Es Hfirst Hst).
Qed.

(** For a count, the number of recordings; a combination of tags never seen has no row. *)
Definition with_row_tags (tags : list (key * bytes)) (ss : list (list (key * bytes) * sample f64_num)) : nat :=
  length (filter (fun x => tags_eqb (fst x) tags) ss).

Theorem C69_count ss rows tags :
  (Z.of_nat (length ss) < 2 ^ 63)%Z -> grouped (@AggCount f64_num) ss rows ->
  (with_row_tags tags ss = 0 -> ~ In tags (map fst rows)) /\
  (with_row_tags tags ss <> 0 -> exists t, In (tags, CountD t (Z.of_nat (with_row_tags tags ss))) rows) /\
  (forall d, In (tags, d) rows -> exists t, d = CountD t (Z.of_nat (with_row_tags tags ss))).
Proof.
  intros Hlen [N H]. unfold with_row_tags.
  assert (Hc : forall s0 rest, map snd (filter (fun x => tags_eqb (fst x) tags) ss) = s0 :: rest ->
    aggregate (@AggCount f64_num) (s_time s0) (s0 :: rest) =
    CountD (s_time s0) (Z.of_nat (List.length (filter (fun x => tags_eqb (fst x) tags) ss)))).
  { intros s0 rest E. assert (L : List.length (s0 :: rest) = List.length (filter (fun x => tags_eqb (fst x) tags) ss)) by (rewrite <- E; apply map_length).
    rewrite C07_count; rewrite L; [reflexivity|].
    pose proof (filter_length_le (fun x : list (key * bytes) * sample f64_num => tags_eqb (fst x) tags) ss). lia. }
  split; [|split].
  - intros E0 Hin. apply in_map_iff in Hin. destruct Hin as ([t d] & E & Hin). cbn in E. subst t.
    apply H in Hin. destruct Hin as (s0 & rest & E & _). apply (f_equal (@List.length _)) in E. rewrite map_length in E. cbn in E. lia.
  - intros E0. destruct (map snd (filter (fun x => tags_eqb (fst x) tags) ss)) as [|s0 rest] eqn:E.
    + exfalso. apply E0. rewrite <- (map_length snd), E. reflexivity.
    + exists (s_time s0). apply H. exists s0, rest. rewrite (Hc s0 rest eq_refl). auto.
  - intros d Hin. apply H in Hin. destruct Hin as (s0 & rest & E & ->). exists (s_time s0). now apply Hc.
Qed.

(** ** Example *)

(** A program with two contexts, a recording before the registration, three after it, one
    of them with an illegal tag value, one with its own recorder. *)
Definition ex_acts1 : list pact :=
  [PTag (OpNew 0 [] [Insert kx (bs "a") []]);
   PRecord (Some 0) [(kx, Content (bs "a") ttl_unlimited)] [WithMeasurements [Some (m_cnt, f_of_Z 1)]] id_order 90%Z].
Definition ex_acts2 : list pact :=
  [PRecord (Some 0) [(kx, Content (bs "a") ttl_unlimited)] [WithMeasurements [Some (m_cnt, f_of_Z 1); Some (m_lat, f_of_Z 2)]] id_order 101%Z;
   PRecord None [] [WithTags [Upsert kx (bs "b") []]; WithMeasurements [Some (m_cnt, f_of_Z 1)]] id_order 102%Z;
   PRecord (Some 0) [(kx, Content (bs "a") ttl_unlimited)] [WithTags [Upsert kx [n2b 7] []]; WithMeasurements [Some (m_cnt, f_of_Z 1)]] id_order 103%Z;
   PRecord None [] [WithRecorder (Some 5); WithMeasurements [Some (m_cnt, f_of_Z 1)]] id_order 104%Z;
   PRecord (Some 0) [(kx, Content (bs "a") ttl_unlimited)] [WithMeasurements [Some (m_cnt, f_of_Z 1)]] id_order 105%Z].

Definition ex_reg : pact := PCmd id_order (CmdRegister [4] 100%Z).

Definition row_view (x : list (key * bytes) * agg_data f64_num) : list (key * bytes) * option Z :=
  (fst x, match snd x with CountD _ n => Some n | _ => None end).

Definition ex_shown : option (list (list (key * bytes) * option Z)) :=
  match proc_run (proc_init ex_u) (ex_acts1 ++ ex_reg :: ex_acts2) with
  | Some p => match handle_retrieve id_order (pc_worker p) (bs "requests") with Some (Some rows) => Some (map row_view rows) | _ => None end
  | None => None
  end.


(** A test for [pacts_ok]. *)
Definition content_eqb (a b : content) : bool := bytes_eqb (c_value a) (c_value b) && (c_ttl a =? c_ttl b)%Z.
Fixpoint tmap_eqb (a b : list (key * content)) : bool :=
  match a, b with
  | [], [] => true
  | (k, c) :: a, (k', c') :: b => bytes_eqb k k' && content_eqb c c' && tmap_eqb a b
  | _, _ => false
  end.
Definition iterates_b (h : heap) (c : ctx) (it : list (key * content)) : bool :=
  match ctx_map h c with None => true | Some m => tmap_eqb m it end.
Definition ctx_eqb (a b : ctx) : bool :=
  match a, b with Some x, Some y => x =? y | None, None => true | _, _ => false end.
Definition pact_okb (u : uworld) (p : proc) (a : pact) : bool :=
  match a with
  | PCmd _ (CmdRegister ps _) => forallb (fun q => q <? length (u_views u)) ps
  | PCmd _ _ => false
  | PTag (OpNew i it ms) =>
      iterates_b (st_heap (pc_tags p)) (nth i (st_ctxs (pc_tags p)) None) it && forallb (fun mu => check_key_name (mutator_key mu)) ms
  | PTag (OpDecode _ _) => true
  | PRecord c it xs _ _ =>
      existsb (ctx_eqb c) (None :: st_ctxs (pc_tags p)) && iterates_b (st_heap (pc_tags p)) c it &&
      forallb (fun x => match x with
                        | WithMeasurements ms => forallb (fun m => match m with Some _ => true | None => false end) ms
                        | WithTags mus => forallb (fun mu => check_key_name (mutator_key mu)) mus
                        | _ => true end) xs
  end.
Fixpoint pacts_okb (u : uworld) (p : proc) (l : list pact) : bool :=
  match l with
  | [] => true
  | a :: r => pact_okb u p a && match proc_step p a with Some p' => pacts_okb u p' r | None => true end
  end.

Lemma tmap_eqb_eq a : forall b, tmap_eqb a b = true -> a = b.
Proof.
  induction a as [|[k [v t]] a IH]; intros [|[k' [v' t']] b] H; try discriminate; [reflexivity|].
  cbn [tmap_eqb] in H. unfold content_eqb in H. cbn [c_value c_ttl] in H. rewrite !andb_true_iff in H. destruct H as [[Hk [Hv Ht]] H].
  destruct (bytes_eqb_spec k k') as [->|]; [|discriminate]. destruct (bytes_eqb_spec v v') as [->|]; [|discriminate].
  apply Z.eqb_eq in Ht. rewrite Ht, (IH b H). reflexivity.
Qed.

Lemma iterates_b_ok h c it : iterates_b h c it = true -> iterates h c it.
Proof.
  unfold iterates_b, iterates. destruct (ctx_map h c) as [m|]; [|trivial]. intros H. rewrite (tmap_eqb_eq _ _ H). apply Permutation_refl.
Qed.

Lemma pact_okb_ok u p a : pact_okb u p a = true -> pact_ok u p a.
Proof.
  destruct a as [o c|[i it ms|i b]|c it xs o now]; cbn [pact_okb pact_ok].
  - destruct c; try discriminate. cbn [cmd_ok]. rewrite forallb_forall, Forall_forall. intros H q Hq. apply Nat.ltb_lt. auto.
  - rewrite andb_true_iff, forallb_forall. intros [H1 H2]. split; [now apply iterates_b_ok|]. intros mu Hm. apply check_key_name_spec. auto.
  - trivial.
  - rewrite !andb_true_iff, forallb_forall. intros [[H1 H2] H3]. split; [|split; [now apply iterates_b_ok|split]].
    + apply existsb_exists in H1. destruct H1 as (x & Hx & E). enough (c = x) by (subst; exact Hx).
      destruct c, x; cbn in E; try discriminate; [|reflexivity]. apply Nat.eqb_eq in E. congruence.
    + intros ms Hin HN. specialize (H3 _ Hin). cbn in H3. rewrite forallb_forall in H3. discriminate (H3 _ HN).
    + intros mus mu Hin Hm. specialize (H3 _ Hin). cbn in H3. rewrite forallb_forall in H3. apply check_key_name_spec. auto.
Qed.

Lemma pacts_okb_ok u l : forall p, pacts_okb u p l = true -> pacts_ok u p l.
Proof.
  induction l as [|a l IH]; intros p H; [exact I|]. cbn [pacts_okb pacts_ok] in *. apply andb_true_iff in H. destruct H as [H1 H2].
  split; [now apply pact_okb_ok|]. destruct (proc_step p a); [now apply IH|exact I].
Qed.

Example C69_example :
  u_ok ex_u /\ pacts_ok ex_u (proc_init ex_u) (ex_acts1 ++ ex_reg :: ex_acts2) /\
  (exists sv, spec_view ex_u 4 = Some sv /\ sv_name sv = bs "requests" /\ sv_agg sv = @AggCount f64_num) /\
  (exists p1, proc_run (proc_init ex_u) ex_acts1 = Some p1 /\ finds id_order (pc_worker p1) (bs "requests") None) /\
  (forall a, In a ex_acts2 -> ~ unregisters_name (bs "requests") a) /\
  ex_shown = Some [([(kx, bs "a")], Some 2%Z); ([(kx, bs "b")], Some 1%Z)].
Proof.
  split; [apply ex_u_ok|]. split; [apply pacts_okb_ok; vm_compute; reflexivity|]. split; [|split; [|split]].
  - eexists. split; [reflexivity|]. split; reflexivity.
  - assert (X : match proc_run (proc_init ex_u) ex_acts1 with
                | Some p1 => match handle id_order (pc_worker p1) (CmdFind (bs "requests")) with Some (RFind None, [], _) => true | _ => false end
                | None => false end = true) by (vm_compute; reflexivity).
    destruct (proc_run (proc_init ex_u) ex_acts1) as [p1|]; [|discriminate]. exists p1. split; [reflexivity|].
    unfold finds. cbn [handle] in *.
    destruct (mget bytes_eqb (w_views (pc_worker p1)) (bs "requests")) as [x|]; [destruct (nth_error (w_vis (pc_worker p1)) x); discriminate X|reflexivity].
  - intros a Hin. unfold ex_acts2 in Hin. cbn [In] in Hin. decompose [or] Hin; subst; try tauto; intros [].
  - vm_compute. reflexivity.
Qed.

Print Assumptions C69_no_panic.
Print Assumptions C69_tags_stable.
Print Assumptions C69_rows.
Print Assumptions C69_count.
