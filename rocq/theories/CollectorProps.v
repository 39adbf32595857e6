(** C05, C06, C12: the rows of a view.

    [csteps (init_cworld aks) ops w]: [w] is reached from freshly created
    collectors, one per (aggregation, tag keys) of [aks], by the operations
    [ops]. *)

From Coq Require Import String.
From Coq Require Import List Arith ZArith Bool Lia Sorted Permutation.
From Coq Require Import Floats.SpecFloat.
From Verif Require Import Base GoMap GoSort TagModel TagEncodingModel Float64 AggModel
  CollectorModel CollectorSpec CollectorProofs.
Import ListNotations.
Open Scope nat_scope.

(** ** C05 *)

(** Same signature (= same row) iff the maps agree on the view's keys; encoding
    never panics. *)
Theorem C05_same_row_iff (keys : list key) (m1 m2 : option tmap) :
  short_values m1 -> short_values m2 ->
  exists sig1 sig2,
    encode_with_keys m1 keys = Some sig1 /\ encode_with_keys m2 keys = Some sig2 /\
    (sig1 = sig2 <-> agree keys m1 m2).
Proof.
  intros H1 H2. exists (sig_of keys m1), (sig_of keys m2).
  split; [apply encode_some|]. split; [apply encode_some|]. now apply sig_of_inj.
Qed.

(** The tags reported for the row of a map. *)
Theorem C05_row_tags (keys : list key) (m : option tmap) sig :
  short_values m -> sorted_keys keys ->
  encode_with_keys m keys = Some sig ->
  decode_tags sig keys = Some (row_tags keys m) /\
  (forall k v, In (k, v) (row_tags keys m) <->
               In k keys /\ v <> [] /\ value_of m k = (v, true)).
Proof.
  intros H HS E. rewrite encode_some in E. injection E as <-. split.
  - now apply decode_enc_sorted.
  - intros k v. rewrite row_tags_In. split; intros (A & B & C); repeat split; auto.
    + unfold value_of in *. destruct m as [m|]; [|simpl in C; congruence].
      destruct (tget m k) as [tc|]; simpl in *; congruence.
    + now rewrite C.
Qed.

(** A value of 256 bytes (which tag.New refuses, C04) would be taken for an empty one. *)
Theorem C05_long_values_refuted :
  exists k m1 m2, fst (value_of m1 k) <> fst (value_of m2 k) /\
    encode_with_keys m1 [k] = encode_with_keys m2 [k].
Proof.
  exists (bs "k"), (Some [(bs "k", Content (repeat (n2b 97) 256) (-1))]), None.
  split; [discriminate|]. vm_compute. reflexivity.
Qed.

Definition kA := bs "a".
Definition kB := bs "b".
Definition kC := bs "c".
Definition tagmap (l : list (bytes * bytes)) : option tmap :=
  Some (map (fun kv => (fst kv, Content (snd kv) (-1))) l).
Definition ex_m1 := tagmap [(kC, bs "3"); (kA, bs "1")].
Definition ex_m2 := tagmap [(kA, bs "1"); (kB, [])].
Definition ex_m3 := tagmap [(kB, bs "1")].

Lemma short_tagmap l : Forall (fun kv => length (snd kv) <= 255) l -> short_values (tagmap l).
Proof.
  intros H k. unfold value_of, tagmap, tget. induction H as [|[k' v'] l Hv H IH]; [simpl; lia|].
  cbn [map mget fst snd]. destruct (bytes_eqb k' k); [exact Hv|exact IH].
Qed.

Example C05_example :
  short_values ex_m1 /\ short_values ex_m2 /\ sorted_keys [kA; kB] /\
  encode_with_keys ex_m1 [kA; kB] = encode_with_keys ex_m2 [kA; kB] /\
  encode_with_keys ex_m1 [kA; kB] <> encode_with_keys ex_m3 [kA; kB] /\
  row_tags [kA; kB] ex_m1 = [(kA, bs "1")].
Proof.
  split; [|split; [|split; [|split; [|split]]]].
  - apply short_tagmap. repeat constructor; vm_compute; lia.
  - apply short_tagmap. repeat constructor; vm_compute; lia.
  - repeat constructor.
  - reflexivity.
  - discriminate.
  - reflexivity.
Qed.

(** ** C06 *)

(** Whenever rows of collector [i] are collected, they are the group-by of the
    samples recorded since the last clear. *)
Theorem C06_group_by (F : num) aks (ops : list (cop F)) w i w' agg keys :
  csteps (init_cworld aks) ops w -> Forall op_short ops ->
  nth_error aks i = Some (agg, keys) -> sorted_keys keys ->
  cstep w (CSnap i) w' ->
  exists rows vals,
    cw_out w' = cw_out w ++ [(i, rows)] /\
    rows_show (cw_heap w') rows vals /\
    is_group_by agg keys (live i ops) vals.
Proof.
  intros H Hsh Ek HS Hs. inversion Hs as [|i' c it h' rows Ei Hp Hr| |]; subst. cbn [cw_out cw_heap].
  pose proof (csteps_conf _ _ _ _ _ H Ei) as Ec. rewrite Ek in Ec. injection Ec as -> ->.
  destruct (rows_group_by _ _ _ _ _ _ _ _ (winv_steps _ _ _ H) Hsh Ei HS Hp Hr) as (vals & A & B).
  exists rows, vals. auto.
Qed.

(** Neither recording nor collecting ever panics, whatever the map iteration
    order. *)
Theorem C06_no_panic (F : num) aks (ops : list (cop F)) w i agg keys :
  csteps (init_cworld aks) ops w -> Forall op_short ops ->
  nth_error aks i = Some (agg, keys) -> sorted_keys keys ->
  (forall m s, exists w', cstep w (CAdd i m s) w') /\
  (forall c it, nth_error (cw_colls w) i = Some c -> Permutation it (hc_sigs c) ->
     exists h' rows, hc_rows (cw_heap w) keys it = Some (h', rows)).
Proof.
  intros H Hsh Ek HS. destruct (coll_exists _ _ _ _ _ _ H Ek) as (c & Ei & <- & <-). split.
  - intros m s. destruct (hc_add (cw_heap w) c (sig_of (hc_keys c) m) s) as [h' c'] eqn:E.
    eexists. eapply step_add; [exact Ei|apply encode_some|exact E].
  - intros c0 it E0 Hp. rewrite Ei in E0. injection E0 as <-.
    pose proof (winv_steps _ _ _ H) as I.
    destruct (hc_rows_spec (hc_keys c) it (cw_heap w) (wi_wf _ _ _ I) (wi_sep _ _ _ I))
      as (h2 & rows2 & E & _); [|eauto].
    intros sig p Hin.
    assert (G : mget bytes_eqb (hc_sigs c) sig = Some p).
    { apply (In_mget _ bytes_eqb_spec); [apply (wi_conf _ _ _ I _ _ Ei)|]. eapply Permutation_in; eassumption. }
    destruct (decodable _ _ _ _ _ I Hsh Ei HS _ _ G) as (Hl & m & s & _ & _ & _ & Hd).
    split; [exact Hl|eauto].
Qed.

(** ** C12 *)

(** The rows of a delivery keep showing the same data over any later history in
    which the user does not write to them. *)
Theorem C12_snapshot_isolated (F : num) aks (ops1 ops2 : list (cop F)) w1 w2 n i rows vals :
  csteps (init_cworld aks) ops1 w1 -> csteps w1 ops2 w2 ->
  nth_error (cw_out w1) n = Some (i, rows) -> rows_show (cw_heap w1) rows vals ->
  (forall j, untouched n j ops2) ->
  nth_error (cw_out w2) n = Some (i, rows) /\ rows_show (cw_heap w2) rows vals.
Proof. apply rows_show_stable. Qed.

(** Even if the user overwrites one row of a delivery, the other rows keep their data. *)
Theorem C12_row_isolated (F : num) aks (ops1 ops2 : list (cop F)) w1 w2 n i rows j tags p a :
  csteps (init_cworld aks) ops1 w1 -> csteps w1 ops2 w2 ->
  nth_error (cw_out w1) n = Some (i, rows) -> nth_error rows j = Some (tags, p) ->
  hload (cw_heap w1) p = Some a ->
  untouched n j ops2 ->
  nth_error (cw_out w2) n = Some (i, rows) /\ hload (cw_heap w2) p = Some a.
Proof. intros H1 H2 En Ej Ea Hu. rewrite <- Ea. eapply row_steps; eassumption. Qed.

(** Nothing a user does to delivered rows shows in later deliveries: [live]
    ignores user writes, so the group-by of C06 is that of the same history
    without them. *)
Theorem C12_user_writes_invisible (F : num) aks (ops : list (cop F)) w i w' agg keys :
  csteps (init_cworld aks) ops w -> Forall op_short ops ->
  nth_error aks i = Some (agg, keys) -> sorted_keys keys ->
  cstep w (CSnap i) w' ->
  exists rows vals,
    cw_out w' = cw_out w ++ [(i, rows)] /\ rows_show (cw_heap w') rows vals /\
    is_group_by agg keys
      (live i (filter (fun op => match op with CUser _ _ _ => false | _ => true end) ops)) vals.
Proof.
  intros H Hsh Ek HS Hs. destruct (C06_group_by _ _ _ _ _ _ _ _ H Hsh Ek HS Hs) as (rows & vals & A & B & C).
  exists rows, vals. split; [exact A|]. split; [exact B|].
  assert (L : forall acc, live_from i acc (filter (fun op => match op with CUser _ _ _ => false | _ => true end) ops)
              = live_from (F := F) i acc ops).
  { clear. induction ops as [|[j m s|j|j|n j a] ops IH]; intros acc; cbn [filter live_from]; auto. }
  unfold live. rewrite L. exact C.
Qed.

(** A history with two views, several tag combinations, snapshots, a user write
    and a clear. *)
Definition ex_aks : list (aggregation f64_num * list key) :=
  [(AggDist [f_of_Z 1; f_of_Z 2], [kA; kB]); (AggCount, [])].
Definition smp1 (v t : Z) : sample f64_num := @MkSample f64_num (f_of_Z v) [] t.
Definition ex_ops : list (cop f64_num) :=
  [CAdd 0 ex_m1 (smp1 1 10); CAdd 0 ex_m3 (smp1 5 11); CAdd 1 ex_m1 (smp1 1 10);
   CSnap 0; CUser 0 0 (CountD 0 0%Z); CAdd 0 ex_m2 (smp1 2 12); CClear 1].

(** An executable version of the steps (maps ranged over in list order). *)
Definition cstep_fn {F} (w : cworld F) (op : cop F) : option (cworld F) :=
  match op with
  | CAdd i m s =>
      match nth_error (cw_colls w) i with
      | None => None
      | Some c =>
          match encode_with_keys m (hc_keys c) with
          | None => None
          | Some sig => let (h', c') := hc_add (cw_heap w) c sig s in
                        Some (MkCW h' (upd (cw_colls w) i (fun _ => c')) (cw_out w))
          end
      end
  | CSnap i =>
      match nth_error (cw_colls w) i with
      | None => None
      | Some c =>
          match hc_rows (cw_heap w) (hc_keys c) (hc_sigs c) with
          | None => None
          | Some (h', rows) => Some (MkCW h' (cw_colls w) (cw_out w ++ [(i, rows)]))
          end
      end
  | CClear i =>
      match nth_error (cw_colls w) i with
      | None => None
      | Some c => Some (MkCW (cw_heap w) (upd (cw_colls w) i (fun _ => hc_clear c)) (cw_out w))
      end
  | CUser n j a =>
      match nth_error (cw_out w) n with
      | None => None
      | Some (i, rows) =>
          match nth_error rows j with
          | None => None
          | Some (tags, p) => Some (MkCW (hstore (cw_heap w) p a) (cw_colls w) (cw_out w))
          end
      end
  end.

Lemma cstep_fn_ok {F} (w : cworld F) op w' : cstep_fn w op = Some w' -> cstep w op w'.
Proof.
  destruct op as [i m s|i|i|n j a]; cbn [cstep_fn].
  - destruct (nth_error (cw_colls w) i) as [c|] eqn:E; [|discriminate].
    destruct (encode_with_keys m (hc_keys c)) as [sig|] eqn:E1; [|discriminate].
    destruct (hc_add (cw_heap w) c sig s) as [h' c'] eqn:E2. intros [= <-]. eapply step_add; eassumption.
  - destruct (nth_error (cw_colls w) i) as [c|] eqn:E; [|discriminate].
    destruct (hc_rows (cw_heap w) (hc_keys c) (hc_sigs c)) as [[h' rows]|] eqn:E1; [|discriminate].
    intros [= <-]. eapply step_snap; [eassumption|apply Permutation_refl|eassumption].
  - destruct (nth_error (cw_colls w) i) as [c|] eqn:E; [|discriminate].
    intros [= <-]. eapply step_clear; eassumption.
  - destruct (nth_error (cw_out w) n) as [[i rows]|] eqn:E; [|discriminate].
    destruct (nth_error rows j) as [[tags p]|] eqn:E1; [|discriminate].
    intros [= <-]. eapply step_user; eassumption.
Qed.

Fixpoint crun {F} (w : cworld F) (ops : list (cop F)) : option (cworld F) :=
  match ops with
  | [] => Some w
  | op :: r => match cstep_fn w op with Some w' => crun w' r | None => None end
  end.

Lemma crun_ok {F} (ops : list (cop F)) : forall w0 ops0 w w',
  csteps w0 ops0 w -> crun w ops = Some w' -> csteps w0 (ops0 ++ ops) w'.
Proof.
  induction ops as [|op ops IH]; intros w0 ops0 w w' H E; cbn [crun] in E.
  - injection E as <-. now rewrite app_nil_r.
  - destruct (cstep_fn w op) as [w1|] eqn:E1; [|discriminate].
    change (op :: ops) with ([op] ++ ops). rewrite app_assoc.
    eapply IH; [|exact E]. eapply csteps_snoc; [exact H|]. now apply cstep_fn_ok.
Qed.

Definition ex_last_rows : option nat :=
  match crun (init_cworld ex_aks) ex_ops with
  | Some w => match cstep_fn w (CSnap 0) with
              | Some w' => Some (length (snd (last (cw_out w') (0, []))))
              | None => None
              end
  | None => None
  end.

Example C06_example :
  Forall op_short ex_ops /\ sorted_keys [kA; kB] /\
  (exists w w', csteps (init_cworld ex_aks) ex_ops w /\ cstep w (CSnap 0) w' /\
     length (snd (last (cw_out w') (0, []))) = 2) /\
  map (fun ms => s_time (snd ms)) (live 0 ex_ops) = [10; 11; 12]%Z /\
  map (fun ms => s_time (snd ms)) (with_tags [kA; kB] [(kA, bs "1")] (live 0 ex_ops)) = [10; 12]%Z /\
  live 1 ex_ops = [].
Proof.
  split; [|split; [|split; [|split; [|split]]]].
  - unfold ex_ops. repeat (apply Forall_cons; [cbn [op_short]; try exact I|]); try apply Forall_nil;
      (apply short_tagmap; repeat constructor; vm_compute; lia).
  - repeat constructor.
  - assert (X : ex_last_rows = Some 2) by (vm_compute; reflexivity). unfold ex_last_rows in X.
    destruct (crun (init_cworld ex_aks) ex_ops) as [w|] eqn:E; [|discriminate].
    destruct (cstep_fn w (CSnap 0)) as [w'|] eqn:E'; [|discriminate].
    exists w, w'. split; [|split].
    + change ex_ops with ([] ++ ex_ops). eapply crun_ok; [apply csteps_nil|exact E].
    + now apply cstep_fn_ok.
    + now injection X.
  - reflexivity.
  - reflexivity.
  - reflexivity.
Qed.

Print Assumptions C05_same_row_iff.
Print Assumptions C05_row_tags.
Print Assumptions C05_long_values_refuted.
Print Assumptions C06_group_by.
Print Assumptions C06_no_panic.
Print Assumptions C12_snapshot_isolated.
Print Assumptions C12_row_isolated.
Print Assumptions C12_user_writes_invisible.
