(** Property theorems for the rpcz page: C67. *)

From Coq Require Import String.
From Coq Require Import List Arith NArith ZArith Bool Lia Permutation Sorted.
From Coq Require Import ZifyBool ZifyNat ZifyN.
From Coq Require Import Floats.SpecFloat.
From Verif Require Import Base GoMap GoSort Float64 FloatInt TagModel AggModel TraceTypes TraceModel GrpcModel ZpagesModel ZpagesSpec ZpagesProofs.
Import ListNotations.
Open Scope nat_scope.

(** ** C67: the rpcz page *)

(** The page has one row for every method and direction that some view exported, sorted
    by method, and it says what the last export of each view with data of the method
    said. *)
Theorem C67_page h o (received : bool) :
  let page := if received then snd (stats_page o (exports_to h)) else fst (stats_page o (exports_to h)) in
  StronglySorted (fun a b => bytes_ltb a b = true) (map sn_method page) /\
  (forall m, In m (map sn_method page) <-> seen received m h) /\
  (forall s, In s page -> shows (sn_method s) received h s).
Proof.
  cbv zeta.
  assert (Hpage : (if received then snd (stats_page o (exports_to h)) else fst (stats_page o (exports_to h))) = stats_group o (exports_to h) received)
    by (destruct received; reflexivity). rewrite Hpage. clear Hpage.
  pose proof (rpcz_wf h) as Hwf.
  assert (Hin : forall s, In s (stats_group o (exports_to h) received) <-> exists m, mget mkey_eqb (exports_to h) (m, received) = Some s).
  { intros s. unfold stats_group. split.
    - intros Hs. apply (Permutation_in _ (isort_perm _ _)) in Hs. apply in_map_iff in Hs. destruct Hs as ([[m r] s'] & <- & Hs). cbn [snd].
      apply filter_In in Hs. destruct Hs as [Hs Hr]. cbn [fst snd] in Hr. apply eqb_prop in Hr. subst r.
      apply (Permutation_in _ (ord_perm o _ _)) in Hs. exists m. apply (In_mget mkey_eqb mkey_eqb_spec); assumption.
    - intros (m & Hm). apply (Permutation_in _ (Permutation_sym (isort_perm _ _))). apply in_map_iff. exists ((m, received), s). split; [reflexivity|].
      apply filter_In. cbn [fst snd]. rewrite eqb_reflx. split; [|reflexivity]. apply (Permutation_in _ (Permutation_sym (ord_perm o _ _))).
      apply (mget_In mkey_eqb mkey_eqb_spec). exact Hm. }
  assert (Hshow : forall m s, mget mkey_eqb (exports_to h) (m, received) = Some s -> shows m received h s).
  { intros m s Hm. pose proof (rpcz_shows h m received) as Hs. unfold the_row in Hs. rewrite Hm in Hs. exact Hs. }
  split; [|split].
  - unfold stats_group. apply by_name_strict.
    set (l := filter _ (ord o _ (exports_to h))).
    assert (Hl : forall x, In x l -> sn_method (snd x) = fst (fst x) /\ snd (fst x) = received).
    { intros [[m r] s] Hx. apply filter_In in Hx. destruct Hx as [Hx Hr]. cbn [fst snd] in *. apply eqb_prop in Hr. subst r. split; [|reflexivity].
      apply (Permutation_in _ (ord_perm o _ _)) in Hx. apply (In_mget mkey_eqb mkey_eqb_spec) in Hx; [|exact Hwf]. apply (sh_method _ _ _ _ (Hshow _ _ Hx)). }
    assert (Hn : NoDup (map fst l)).
    { assert (Hn0 : NoDup (map fst (ord o _ (exports_to h)))) by (eapply Permutation_NoDup; [|exact Hwf]; apply Permutation_map; symmetry; apply ord_perm).
      subst l. revert Hn0. clear. generalize (ord o _ (exports_to h)). induction l as [|x l IH]; intros Hn; [constructor|]. inversion Hn as [|? ? Hni Hn']; subst.
      cbn [filter]. destruct (Bool.eqb _ _); [|auto]. cbn [map]. constructor; [|auto]. intros Hx. apply Hni. apply in_map_iff in Hx. destruct Hx as (y & <- & Hy).
      apply filter_In in Hy. apply in_map. apply Hy. }
    rewrite map_map. clear - Hl Hn. induction l as [|x l IH]; [constructor|]. cbn [map] in *. inversion Hn as [|? ? Hni Hn']; subst. constructor.
    + intros Hx. apply Hni. apply in_map_iff in Hx. destruct Hx as (y & E & Hy). destruct (Hl x (or_introl eq_refl)) as [A1 A2]. destruct (Hl y (or_intror Hy)) as [B1 B2].
      apply in_map_iff. exists y. split; [|exact Hy]. destruct x as [[mx rx] sx], y as [[my ry] sy]. cbn [fst snd] in *. congruence.
    + apply IH; [|exact Hn']. intros y Hy. apply Hl. now right.
  - intros m. rewrite <- (rpcz_seen h m received). split.
    + intros Hm. apply in_map_iff in Hm. destruct Hm as (s & <- & Hs). apply Hin in Hs. destruct Hs as (m & Hm). rewrite (sh_method _ _ _ _ (Hshow _ _ Hm)). congruence.
    + intros Hm. destruct (mget mkey_eqb (exports_to h) (m, received)) as [s|] eqn:E; [|contradiction]. apply in_map_iff. exists s.
      split; [apply (sh_method _ _ _ _ (Hshow _ _ E))|]. apply Hin. eauto.
  - intros s Hs. apply Hin in Hs. destruct Hs as (m & Hm). rewrite (sh_method _ _ _ _ (Hshow _ _ Hm)). apply Hshow. exact Hm.
Qed.

(** The row of a method comes from the first tag with a method key. *)
Theorem C67_method l1 k v l2 : (k = key_grpc_client_method \/ k = key_grpc_server_method) ->
  (forall k' v', In (k', v') l1 -> k' <> key_grpc_client_method /\ k' <> key_grpc_server_method) ->
  row_method (l1 ++ (k, v) :: l2) = v.
Proof.
  intros Hk Hl. induction l1 as [|[k' v'] l1 IH]; cbn [app row_method].
  - destruct Hk as [-> | ->]; rewrite bytes_eqb_refl, ?orb_true_r; reflexivity.
  - destruct (Hl k' v' (or_introl eq_refl)) as [H1 H2]. destruct (bytes_eqb_spec k' key_grpc_client_method); [contradiction|].
    destruct (bytes_eqb_spec k' key_grpc_server_method); [contradiction|]. cbn [orb]. apply IH. intros k1 v1 Hin. apply (Hl k1 v1). now right.
Qed.

(** Exports about other methods, of the other direction or of other views leave the row
    as it is. *)
Theorem C67_isolated h e m received :
  (match e with (_, Some (r, _), rows) => r <> received \/ rows_of m rows = [] | _ => True end) ->
  mget mkey_eqb (exports_to (h ++ [e])) (m, received) = mget mkey_eqb (exports_to h) (m, received).
Proof.
  intros He. rewrite exports_snoc. destruct e as [[age [[r v]|]] rows]; cbn [fst snd export_view]; [|reflexivity].
  rewrite export_rows_get. destruct (Bool.eqb_spec received r) as [<-|Hr]; [|reflexivity]. destruct He as [He|He]; [congruence|]. rewrite He. reflexivity.
Qed.

(** The number of calls is exact up to 2^53. *)
Theorem C67_count h o (received : bool) s age rows tags d : 
  In s (if received then snd (stats_page o (exports_to h)) else fst (stats_page o (exports_to h))) ->
  latest received (if received then VReceivedMessages else VSentMessages) (sn_method s) h = Some (age, rows ++ [(tags, DistD d)]) ->
  (0 <= d_count d <= 2 ^ 53)%Z ->
  Z.of_N (sn_count s) = d_count d.
Proof.
  intros Hs Hl Hd. destruct (C67_page h o received) as (_ & _ & Hp). cbv zeta in Hp. rewrite (sh_count _ _ _ _ (Hp s Hs)), Hl.
  unfold from_last. rewrite rev_app_distr. cbn [rev app row_calls snd]. rewrite uint64_of_Z by exact Hd. lia.
Qed.

(** The number of errors is the number of completed calls with a status other than OK. *)
Definition status_row (received : bool) (m : bytes) (x : bytes * Z * Z) : data_row :=
  ([(if received then key_grpc_server_method else key_grpc_client_method, m);
    (if received then key_grpc_server_status else key_grpc_client_status, fst (fst x))], CountD (snd x) (snd (fst x))).
Lemma failed_cons r x l : failed r (x :: l) = failed r [x] ++ failed r l.
Proof. unfold failed. cbn [flat_map]. rewrite app_nil_r. reflexivity. Qed.
Theorem C67_errors h o (received : bool) s age (xs : list (bytes * Z * Z)) :
  In s (if received then snd (stats_page o (exports_to h)) else fst (stats_page o (exports_to h))) ->
  latest received VCompleted (sn_method s) h = Some (age, map (status_row received (sn_method s)) xs) ->
  (forall x, In x xs -> 0 <= snd (fst x) <= 2 ^ 53)%Z ->
  Z.of_N (sn_errors s) = (fold_right Z.add 0 (map (fun x => snd (fst x)) (filter (fun x => negb (bytes_eqb (fst (fst x)) (bs "OK"))) xs)) mod 2 ^ 64)%Z.
Proof.
  intros Hs Hl Hx. destruct (C67_page h o received) as (_ & _ & Hp). cbv zeta in Hp. rewrite (sh_errors _ _ _ _ (Hp s Hs)), Hl. clear Hl Hp.
  rewrite N2Z.inj_mod. change (Z.of_N (2 ^ 64)) with (2 ^ 64)%Z. f_equal.
  induction xs as [|[[st n] t] xs IH]; [reflexivity|]. cbn [map]. rewrite failed_cons.
  rewrite total_app, N2Z.inj_add, IH by (intros x Hin; apply Hx; now right). clear IH.
  assert (Hn : (0 <= n <= 2 ^ 53)%Z) by (apply (Hx (st, n, t)); now left). clear Hx.
  assert (Hf : failed received [status_row received (sn_method s) (st, n, t)] = if negb (bytes_eqb st (bs "OK")) then [Z.to_N n] else []).
  { unfold failed, status_row. cbn [flat_map fst snd row_calls]. rewrite uint64_of_Z by exact Hn.
    destruct received; cbn [flat_map app]; rewrite bytes_eqb_refl.
    - replace (bytes_eqb key_grpc_server_method key_grpc_server_status) with false by reflexivity. cbn [andb app]. rewrite !app_nil_r. reflexivity.
    - replace (bytes_eqb key_grpc_client_method key_grpc_client_status) with false by reflexivity. cbn [andb app]. rewrite !app_nil_r. reflexivity. }
  rewrite Hf. cbn [filter fst]. destruct (negb (bytes_eqb st (bs "OK"))); cbn [map fold_right total fst snd]; lia.
Qed.

(** Finding: the input rate of a server is never filled in; the export of the bytes a
    server received changes nothing that is shown. *)
Theorem C67_server_input_refuted :
  exists age d, let h := [(age, Some (true, VReceivedBytes), [([(key_grpc_server_method, bs "m")], DistD d)])] in
    d_count d = 1%Z /\ map sn_method (snd (stats_page id_order (exports_to h))) = [bs "m"] /\ map sn_in (snd (stats_page id_order (exports_to h))) = [f_zero] /\
    row_total ([(key_grpc_server_method, bs "m")], DistD d) = f_of_Z 1000.
Proof.
  exists (f_of_Z 1). exists (MkDist (F := f64_num) 1 (f_of_Z 1000) (f_of_Z 1000) (f_of_Z 1000) f_zero [] [] [] 0). cbv zeta. vm_compute. auto 10.
Qed.
Theorem C67_server_input_never h o s : In s (snd (stats_page o (exports_to h))) -> sn_in s = f_zero.
Proof. intros Hs. destruct (C67_page h o true) as (_ & _ & Hp). apply (sh_in _ _ _ _ (Hp s Hs)). Qed.

(** Two methods in both directions: 7 calls sent with 2 failed; the later export of the
    failures of method a replaces the earlier one, and leaves b alone. *)
Definition rz_dist (n : Z) (mean : f64) : agg_data f64_num := DistD (MkDist (F := f64_num) n mean mean mean f_zero [] [] [] 0).
Definition rz_h : list export :=
  [(f_of_Z 10, Some (false, VSentMessages), [([(key_grpc_client_method, bs "b")], rz_dist 3 (f_of_Z 2)); ([(key_grpc_client_method, bs "a")], rz_dist 7 (f_of_Z 1))]);
   (f_of_Z 10, Some (false, VCompleted), [status_row false (bs "a") (bs "OK", 5%Z, 0%Z); status_row false (bs "a") (bs "NOT_FOUND", 1%Z, 0%Z);
                                          status_row false (bs "b") (bs "INTERNAL", 3%Z, 0%Z)]);
   (f_of_Z 20, Some (true, VReceivedMessages), [([(key_grpc_server_method, bs "a")], rz_dist 40 (f_of_Z 1))]);
   (f_of_Z 20, None, [status_row false (bs "a") (bs "INTERNAL", 9%Z, 0%Z)]);
   (f_of_Z 20, Some (false, VSentBytes), [([(key_grpc_client_method, bs "a")], rz_dist 4 (f_of_Z 10))]);
   (f_of_Z 20, Some (false, VCompleted), [status_row false (bs "a") (bs "NOT_FOUND", 1%Z, 0%Z); status_row false (bs "a") (bs "INTERNAL", 1%Z, 0%Z)])].
Example C67_nonvacuous :
  map (fun s => (sn_method s, sn_count s, sn_errors s)) (fst (stats_page id_order (exports_to rz_h))) = [(bs "a", 7%N, 2%N); (bs "b", 3%N, 3%N)] /\
  map sn_out (fst (stats_page id_order (exports_to rz_h))) = [f_of_Z 2; f_zero] /\
  map (fun s => (sn_method s, sn_count s, sn_errors s)) (snd (stats_page id_order (exports_to rz_h))) = [(bs "a", 40%N, 0%N)].
Proof. vm_compute. auto. Qed.
Example C67_nonvacuous_latest :
  latest false VCompleted (bs "a") rz_h = Some (f_of_Z 20, map (status_row false (bs "a")) [(bs "NOT_FOUND", 1%Z, 0%Z); (bs "INTERNAL", 1%Z, 0%Z)]) /\
  exists tags d, latest false VSentMessages (bs "a") rz_h = Some (f_of_Z 10, [] ++ [(tags, DistD d)]) /\ d_count d = 7%Z.
Proof. split; [reflexivity|]. do 2 eexists. split; reflexivity. Qed.

Print Assumptions C67_page.
Print Assumptions C67_method.
Print Assumptions C67_isolated.
Print Assumptions C67_count.
Print Assumptions C67_errors.
Print Assumptions C67_server_input_never.
Print Assumptions C67_server_input_refuted.
