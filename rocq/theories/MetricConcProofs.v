From Coq Require Import List Arith NArith ZArith Bool Permutation Lia ZifyBool ZifyNat ZifyN.
From Coq Require Import Floats.SpecFloat.
From Verif Require Import Base ListLib GoMap GoSort Float64 TagEncodingModel TagEncodingProofs AggModel AggProofs
     MetricModel MetricSpec MetricProofs MetricConcModel MetricConcSpec.
Import ListNotations.
Open Scope nat_scope.

(** ** Cells *)

Lemma Forall2_length {A B} (R : A -> B -> Prop) l l' : Forall2 R l l' -> length l = length l'.
Proof. induction 1; cbn; congruence. Qed.

Lemma f_same_eq a b : f_same a b = true -> a = b.
Proof.
  destruct a, b; cbn; try discriminate; intros H; try reflexivity.
  - apply eqb_prop in H. now subst.
  - apply eqb_prop in H. now subst.
  - rewrite !andb_true_iff in H. destruct H as [[H1 H2] H3]. apply eqb_prop in H1. apply Pos.eqb_eq in H2. apply Z.eqb_eq in H3. now subst.
Qed.

Lemma entry_of_rep t v e : entry_of t v = Some e -> rep t e v /\ is_derived t = false.
Proof. destruct t, v; intros [= <-]; split; reflexivity. Qed.
Lemma rep_entry_of t v e : rep t e v -> is_derived t = false -> entry_of t v = Some e.
Proof. destruct t, e, v; cbn; intros H Hd; try contradiction; try discriminate; now subst. Qed.

Lemma update_entry_of t v e u : entry_of t v = Some e -> entry_of t (spec_update t v u) = Some (apply_update e u).
Proof. intros H. apply entry_of_rep in H. destruct H as [H Hd]. apply rep_entry_of; [now apply update_rep|exact Hd]. Qed.

Lemma val_after_app t v x l e : val_after t v x (l ++ [e]) =
  match e with (_, COUpd y u, _) => if y =? x then spec_update t (val_after t v x l) u else val_after t v x l | _ => val_after t v x l end.
Proof. unfold val_after. now rewrite fold_left_app. Qed.

Lemma calls_of_app g l1 l2 : calls_of g (l1 ++ l2) = calls_of g l1 ++ calls_of g l2.
Proof. unfold calls_of. now rewrite filter_app, map_app. Qed.
Lemma points_of_app g l1 l2 : points_of g (l1 ++ l2) = points_of g l1 ++ points_of g l2.
Proof. unfold points_of. now rewrite flat_map_app. Qed.

Record CI (cells : list (bmtype * aval)) (progs : list (list cop)) (s : cst) : Prop := {
  ci_len : length (c_gs s) = length progs;
  ci_ents : forall x t v, nth_error cells x = Some (t, v) ->
    exists e, nth_error (c_ents s) x = Some e /\ entry_of t (val_after t v x (c_log s)) = Some e;
  ci_none : forall x, nth_error cells x = None -> nth_error (c_ents s) x = None;
  ci_reads : forall l1 g x p l2, c_log s = l1 ++ (g, CORead x, Some p) :: l2 ->
    exists t v, nth_error cells x = Some (t, v) /\ p = spec_point t no_fi no_ff (val_after t v x l1);
  ci_form : forall e, In e (c_log s) -> match e with (_, CORead _, Some _) | (_, COUpd _ _, None) => True | _ => False end;
  ci_calls : forall g x p, nth_error (c_gs s) g = Some x -> nth_error progs g = Some p ->
    p = calls_of g (c_log s) ++ cg_todo x /\ cg_got x = points_of g (c_log s)
}.

Lemma cinit_CI cells progs ents : Forall2 (fun c e => entry_of (fst c) (snd c) = Some e) cells ents -> CI cells progs (cinit ents progs).
Proof.
  intros F. split; cbn.
  - now rewrite map_length.
  - intros x t v E. revert x E. induction F as [|c e cells ents H F IH]; intros [|x] E; try discriminate.
    + injection E as ->. exists e. split; [reflexivity|exact H].
    + apply IH. exact E.
  - intros x E. apply nth_error_None in E. apply nth_error_None. rewrite <- (Forall2_length _ _ _ F). exact E.
  - intros l1 g x p l2 E. destruct l1; discriminate.
  - intros e [].
  - intros g x p E1 E2. rewrite nth_error_map, E2 in E1. injection E1 as <-. auto.
Qed.

(** Completing a call. *)
Lemma CI_complete cells progs s g op rest ld got got' ents' pt :
  CI cells progs s -> nth_error (c_gs s) g = Some (MkCG (op :: rest) ld got) ->
  (forall x t v e, nth_error cells x = Some (t, v) -> nth_error (c_ents s) x = Some e ->
     exists e', nth_error ents' x = Some e' /\
       (match op with COUpd y u => if y =? x then e' = apply_update e u else e' = e | _ => e' = e end)) ->
  (forall x, nth_error (c_ents s) x = None -> nth_error ents' x = None) ->
  (match op with
   | CORead x => exists e, nth_error (c_ents s) x = Some e /\ pt = Some (read_entry no_fi no_ff e) /\ got' = got ++ [read_entry no_fi no_ff e]
   | COUpd _ _ => pt = None /\ got' = got
   end) ->
  CI cells progs (set_g s g (MkCG rest None got') ents' (c_log s ++ [(g, op, pt)])).
Proof.
  intros C Eg He Hn Hpt. unfold set_g. split; cbn [c_gs c_ents c_log].
  - rewrite upd_length. apply C.
  - intros x t v E. destruct (ci_ents _ _ _ C x t v E) as (e & E1 & E2).
    destruct (He x t v e E E1) as (e' & E3 & E4). exists e'. split; [exact E3|]. rewrite val_after_app.
    destruct op as [y u|y]; [|now subst e'].
    destruct (y =? x); subst e'; [|exact E2]. now apply update_entry_of.
  - intros x E. apply Hn. now apply C.
  - intros l1 g' x p l2 E. destruct l2 as [|y0 l2] using rev_ind; [|clear IHl2].
    + apply app_inj_tail in E. destruct E as [<- E]. injection E as -> -> ->.
      destruct Hpt as (e & E1 & E2 & _). injection E2 as ->.
      destruct (nth_error cells x) as [[t v]|] eqn:Ec; [|rewrite (ci_none _ _ _ C _ Ec) in E1; discriminate].
      exists t, v. split; [reflexivity|]. destruct (ci_ents _ _ _ C x t v Ec) as (e1 & E3 & E4).
      assert (e1 = e) by congruence. subst e1. apply entry_of_rep in E4. apply rep_read. apply E4.
    + rewrite app_comm_cons, app_assoc in E. apply app_inj_tail in E. destruct E as [E _]. eapply (ci_reads _ _ _ C). exact E.
  - intros e Hin. apply in_app_iff in Hin. destruct Hin as [Hin|[<-|[]]]; [now apply (ci_form _ _ _ C)|].
    destruct op; [destruct Hpt as [-> _]; exact I|destruct Hpt as (? & _ & -> & _); exact I].
  - intros g' x p E1 E2. rewrite nth_error_upd in E1. destruct (Nat.eqb_spec g g') as [<-|Hg].
    + rewrite Eg in E1. injection E1 as <-. destruct (ci_calls _ _ _ C g _ p Eg E2) as [H1 H2]. cbn [cg_todo cg_got] in *.
      rewrite calls_of_app, points_of_app. unfold calls_of at 2, points_of at 2. cbn [filter fst]. rewrite Nat.eqb_refl. cbn [map snd fst app flat_map].
      split; [rewrite H1, <- app_assoc; reflexivity|]. destruct op as [y u|y].
      * destruct Hpt as [-> ->]. rewrite app_nil_r. exact H2.
      * destruct Hpt as (e & _ & -> & ->). rewrite Nat.eqb_refl. cbn [app]. congruence.
    + destruct (ci_calls _ _ _ C g' _ p E1 E2) as [H1 H2]. rewrite calls_of_app, points_of_app.
      assert (X : calls_of g' [(g, op, pt)] = []).
      { unfold calls_of. cbn [filter fst]. destruct (Nat.eqb_spec g g'); [contradiction|reflexivity]. }
      assert (Y : points_of g' [(g, op, pt)] = []).
      { unfold points_of. cbn [flat_map]. destruct op, pt; try reflexivity. destruct (Nat.eqb_spec g g'); [contradiction|reflexivity]. }
      rewrite X, Y, !app_nil_r. auto.
Qed.

(** Steps inside a call. *)
Lemma CI_inner cells progs s g op rest ld ld' got :
  CI cells progs s -> nth_error (c_gs s) g = Some (MkCG (op :: rest) ld got) ->
  CI cells progs (set_g s g (MkCG (op :: rest) ld' got) (c_ents s) (c_log s)).
Proof.
  intros C Eg. unfold set_g. split; cbn [c_gs c_ents c_log]; try apply C.
  - rewrite upd_length. apply C.
  - intros g' x p E1 E2. rewrite nth_error_upd in E1. destruct (Nat.eqb_spec g g') as [<-|Hg].
    + rewrite Eg in E1. injection E1 as <-. apply (ci_calls _ _ _ C g _ p Eg E2).
    + now apply (ci_calls _ _ _ C).
Qed.

Lemma cdo_CI cells progs s ch s' : CI cells progs s -> cdo s ch = Some s' -> CI cells progs s'.
Proof.
  intros C E. destruct ch as [g|g]; cbn [cdo] in E;
    destruct (nth_error (c_gs s) g) as [[[|op rest] ld got]|] eqn:Eg; try discriminate E.
  - destruct op as [x u|x].
    + destruct (nth_error (c_ents s) x) as [e|] eqn:Ex; [|discriminate E].
      assert (Upd : forall f, (f e = apply_update e u) ->
                 forall x0 t v e0, nth_error cells x0 = Some (t, v) -> nth_error (c_ents s) x0 = Some e0 ->
                 exists e', nth_error (upd (c_ents s) x f) x0 = Some e' /\ (if x =? x0 then e' = apply_update e0 u else e' = e0)).
      { intros f Hf x0 t v e0 _ E0. rewrite nth_error_upd. destruct (Nat.eqb_spec x x0) as [<-|Hx].
        - rewrite E0. assert (e0 = e) by congruence. subst e0. eexists. split; [reflexivity|exact Hf].
        - eauto. }
      assert (UpdN : forall f x0, nth_error (c_ents s) x0 = None -> nth_error (upd (c_ents s) x f) x0 = None).
      { intros f x0 E0. rewrite nth_error_upd, E0. destruct (x =? x0); reflexivity. }
      destruct (uses_cas e u) as [w|] eqn:Eu.
      * destruct ld as [old|].
        -- destruct (f_same w old) eqn:Ef; injection E as <-.
           ++ apply f_same_eq in Ef. subst old. apply (CI_complete cells progs s g _ rest (Some w) got); auto.
              apply Upd. destruct e, u; cbn [uses_cas] in Eu; try discriminate Eu.
              ** injection Eu as ->. reflexivity.
              ** destruct (f_le_zero v0) eqn:El; [discriminate Eu|]. injection Eu as ->. cbn [apply_update]. rewrite El. reflexivity.
           ++ eapply CI_inner; eassumption.
        -- injection E as <-. eapply CI_inner; eassumption.
      * injection E as <-. apply (CI_complete cells progs s g _ rest ld got); auto. apply Upd. reflexivity.
    + destruct (nth_error (c_ents s) x) as [e|] eqn:Ex; [|discriminate E]. injection E as <-.
      apply (CI_complete cells progs s g _ rest ld got); auto.
      * intros x0 t v e0 _ E0. eauto.
      * exists e. auto.
  - destruct ld as [[| | |]|]; try discriminate E. injection E as <-. eapply CI_inner; eassumption.
Qed.

Lemma creach_CI cells progs ents s : Forall2 (fun c e => entry_of (fst c) (snd c) = Some e) cells ents ->
  creach ents progs s -> CI cells progs s.
Proof. intros F. induction 1; [now apply cinit_CI|]. eapply cdo_CI; eassumption. Qed.

(** *** Termination *)

Definition cphase (ents : list entry) (x : cg) : nat :=
  match cg_loaded x with
  | None => 2
  | Some old =>
      match cg_todo x with
      | COUpd y u :: _ =>
          match nth_error ents y with
          | Some e => match uses_cas e u with Some w => if f_same w old then 1 else 3 | None => 1 end
          | None => 1
          end
      | _ => 1
      end
  end.

Definition cweight (K : nat) (ents : list entry) (x : cg) : nat := K * length (cg_todo x) + cphase ents x.
Definition cmeasure (K : nat) (s : cst) : nat := list_sum (map (cweight K (c_ents s)) (c_gs s)).

Lemma cphase_bounds ents x : 1 <= cphase ents x <= 3.
Proof.
  unfold cphase. destruct (cg_loaded x) as [old|]; [|lia]. destruct (cg_todo x) as [|[y u|y] r]; try lia.
  destruct (nth_error ents y) as [e|]; [|lia]. destruct (uses_cas e u) as [w|]; [|lia]. destruct (f_same w old); lia.
Qed.

Lemma sum_upd {A} (f : A -> nat) l g x y : nth_error l g = Some x ->
  list_sum (map f (upd l g (fun _ => y))) + f x = list_sum (map f l) + f y.
Proof.
  revert g. induction l as [|a l IH]; intros [|g] E; try discriminate; cbn in *.
  - injection E as ->. lia.
  - specialize (IH g E). unfold list_sum in *. lia.
Qed.

Lemma sum_le {A} (f h : A -> nat) c l : (forall x, f x <= h x + c) -> list_sum (map f l) <= list_sum (map h l) + c * length l.
Proof. intros H. induction l as [|a l IH]; cbn; [lia|]. specialize (H a). unfold list_sum in *. lia. Qed.

Lemma cmeasure_complete K s g op rest ld got got' ents' l :
  nth_error (c_gs s) g = Some (MkCG (op :: rest) ld got) -> 2 * length (c_gs s) + 2 <= K ->
  cmeasure K (set_g s g (MkCG rest None got') ents' l) < cmeasure K s.
Proof.
  intros Eg HK. unfold cmeasure, set_g. cbn [c_gs c_ents].
  pose proof (sum_upd (cweight K ents') (c_gs s) g _ (MkCG rest None got') Eg) as H.
  pose proof (sum_le (cweight K ents') (cweight K (c_ents s)) 2 (c_gs s)) as L.
  assert (X : forall x, cweight K ents' x <= cweight K (c_ents s) x + 2).
  { intros x. unfold cweight. pose proof (cphase_bounds ents' x). pose proof (cphase_bounds (c_ents s) x). lia. }
  specialize (L X).
  assert (B : cweight K ents' (MkCG rest None got') = K * length rest + 2) by reflexivity.
  assert (A : cweight K ents' (MkCG (op :: rest) ld got) >= K * S (length rest) + 1).
  { unfold cweight. cbn [cg_todo length]. pose proof (cphase_bounds ents' (MkCG (op :: rest) ld got)). lia. }
  rewrite B in H. rewrite Nat.mul_succ_r in A. lia.
Qed.

Lemma cmeasure_inner K s g x y l : nth_error (c_gs s) g = Some x -> cweight K (c_ents s) y < cweight K (c_ents s) x ->
  cmeasure K (MkC (upd (c_gs s) g (fun _ => y)) (c_ents s) l) < cmeasure K s.
Proof. intros Eg H. unfold cmeasure. cbn [c_gs c_ents]. pose proof (sum_upd (cweight K (c_ents s)) (c_gs s) g _ y Eg). lia. Qed.

Lemma cdo_measure K s ch s' : 2 * length (c_gs s) + 2 <= K -> is_retry ch = false -> cdo s ch = Some s' ->
  cmeasure K s' < cmeasure K s /\ length (c_gs s') = length (c_gs s).
Proof.
  intros HK Hr E. destruct ch as [g|g]; [|discriminate Hr]. cbn [cdo] in E.
  destruct (nth_error (c_gs s) g) as [[[|op rest] ld got]|] eqn:Eg; try discriminate E.
  destruct op as [x u|x].
  - destruct (nth_error (c_ents s) x) as [e|] eqn:Ex; [|discriminate E].
    destruct (uses_cas e u) as [w|] eqn:Eu.
    + destruct ld as [old|].
      * destruct (f_same w old) eqn:Ef; injection E as <-.
        -- split; [eapply cmeasure_complete; eassumption|apply upd_length].
        -- split; [|apply upd_length]. eapply cmeasure_inner; [exact Eg|]. unfold cweight, cphase. cbn [cg_todo cg_loaded].
           rewrite Ex, Eu, Ef. lia.
      * injection E as <-. split; [|apply upd_length]. eapply cmeasure_inner; [exact Eg|]. unfold cweight, cphase. cbn [cg_todo cg_loaded].
        rewrite Ex, Eu. assert (f_same w w = true) as ->; [|lia].
        destruct w; cbn; try reflexivity; try apply eqb_reflx. rewrite eqb_reflx, Pos.eqb_refl, Z.eqb_refl. reflexivity.
    + injection E as <-. split; [eapply cmeasure_complete; eassumption|apply upd_length].
  - destruct (nth_error (c_ents s) x) as [e|] eqn:Ex; [|discriminate E]. injection E as <-.
    split; [eapply cmeasure_complete; eassumption|apply upd_length].
Qed.

Lemma csteps_bound K s chs s' : 2 * length (c_gs s) + 2 <= K -> Forall (fun ch => is_retry ch = false) chs -> csteps s chs s' ->
  length chs + cmeasure K s' <= cmeasure K s.
Proof.
  intros HK F H. induction H as [|s ch s1 chs s2 E H IH]; [cbn; lia|].
  inversion F; subst. destruct (cdo_measure K s ch s1 HK ltac:(assumption) E) as [M L]. rewrite <- L in HK.
  specialize (IH HK ltac:(assumption)). cbn [length]. lia.
Qed.

Lemma cmeasure_init K ents progs : cmeasure K (cinit ents progs) = K * length (concat progs) + 2 * length progs.
Proof.
  unfold cmeasure, cinit. cbn [c_gs c_ents]. rewrite map_map. induction progs as [|p progs IH]; [cbn; lia|].
  cbn [map list_sum fold_right concat length]. rewrite app_length. unfold list_sum in IH. cbn [cweight cphase cg_todo cg_loaded] in *.
  unfold cweight in *. cbn [cg_todo cphase cg_loaded] in *. lia.
Qed.

(** ** GetEntry *)

Section Metric.
  Variables (keys : list lkey) (consts : list lvalue) (spare : nat) (progs : list (list mop)).
  Hypothesis Hshare : no_sharing spare progs.
  Hypothesis Hshort : mshort consts progs.

  Notation mkey vs := (encode_label_vals (consts ++ vs)).
  Definition arity (vs : list lvalue) : Prop := length consts + length vs = length keys.
  Definition kshow (vs : list lvalue) : list lvalue := map show_label (map label (consts ++ vs)).

  Lemma mkey_inj vs1 vs2 : arity vs1 -> arity vs2 -> Forall short vs1 -> Forall short vs2 ->
    mkey vs1 = mkey vs2 -> map label vs1 = map label vs2.
  Proof.
    unfold arity. intros A1 A2 S1 S2 E. rewrite !encode_enc in E. destruct Hshort as [Hc _].
    assert (SC : forall vs, Forall short vs -> Forall short_l (map label (consts ++ vs))).
    { intros vs S. rewrite Forall_map. apply Forall_app. split; eapply Forall_impl; try eassumption; intros; now apply short_label. }
    apply enc_labels_inj in E; [|rewrite !map_length, !app_length; lia|now apply SC|now apply SC].
    rewrite !map_app in E. now apply app_inv_head in E.
  Qed.
  Lemma mkey_eq vs1 vs2 : map label vs1 = map label vs2 -> mkey vs1 = mkey vs2.
  Proof. intros E. rewrite !encode_enc, !map_app. congruence. Qed.
  Lemma mkey_decode vs : arity vs -> Forall short vs -> decode_label_vals keys (mkey vs) = Some (kshow vs).
  Proof.
    unfold arity, kshow. intros A S. rewrite encode_enc. apply decode_enc; [rewrite map_length, app_length; lia|].
    rewrite Forall_map. apply Forall_app. destruct Hshort as [Hc _].
    split; eapply Forall_impl; try eassumption; intros; now apply short_label.
  Qed.

  (** Where a goroutine is within its call. *)
  Definition pc_ok (op : mop) (p : mpc) (buf : list lvalue) : Prop :=
    match p with
    | PIdle => True
    | PWrite i => op <> MRead /\ i <= length (vs_of op) /\ length buf = length (vs_of op) /\ firstn i buf = firstn i (vs_of op)
    | PEnc got => op <> MRead /\ buf = vs_of op /\ arity (vs_of op) /\ exists r, vs_of op = got ++ r
    | PLoad k | PLoadOrStore k => (exists vs, op = MGet vs) /\ arity (vs_of op) /\ k = mkey (vs_of op)
    | PDelete k | PStore k => (exists vs, op = MUpsert vs) /\ arity (vs_of op) /\ k = mkey (vs_of op)
    | PRange must seen acc => op = MRead
    end.

  Record MI0 (s : mst) : Prop := {
    m0_len : length (mm_gs s) = length progs;
    m0_spare : length (mm_spare s) = spare;
    m0_todo : forall g x p, nth_error (mm_gs s) g = Some x -> nth_error progs g = Some p -> exists d, p = d ++ mg_todo x;
    m0_pc : forall g x op rest, nth_error (mm_gs s) g = Some x -> mg_todo x = op :: rest -> pc_ok op (mg_pc x) (mg_buf x);
    m0_done : forall g x, nth_error (mm_gs s) g = Some x -> mg_todo x = [] -> mg_pc x = PIdle;
    m0_wf : mwf (mm_vals s);
    m0_vals : forall k e, mget bytes_eqb (mm_vals s) k = Some e ->
      e < mm_next s /\ exists vs, k = mkey vs /\ arity vs /\ Forall short vs;
    m0_inj : forall k1 k2 e, mget bytes_eqb (mm_vals s) k1 = Some e -> mget bytes_eqb (mm_vals s) k2 = Some e -> k1 = k2;
    m0_panic : ~ In EvPanic (mm_log s)
  }.

  Lemma minit_MI0 : MI0 (minit spare progs).
  Proof.
    split; cbn.
    - apply map_length.
    - apply repeat_length.
    - intros g x p E1 E2. rewrite nth_error_map, E2 in E1. injection E1 as <-. exists []. reflexivity.
    - intros g x op rest E1 E2. rewrite nth_error_map in E1. destruct (nth_error progs g); [|discriminate]. injection E1 as <-. exact I.
    - intros g x E1 E2. rewrite nth_error_map in E1. destruct (nth_error progs g); [|discriminate]. injection E1 as <-. reflexivity.
    - constructor.
    - discriminate.
    - discriminate.
    - intros [].
  Qed.

  Lemma op_in s g x op rest : MI0 s -> nth_error (mm_gs s) g = Some x -> mg_todo x = op :: rest ->
    exists p, nth_error progs g = Some p /\ In op p.
  Proof.
    intros M E1 E2. destruct (nth_error progs g) as [p|] eqn:Ep.
    - destruct (m0_todo s M g x p E1 Ep) as [d ->]. exists (d ++ mg_todo x). split; [reflexivity|]. rewrite E2. apply in_app_iff. right. now left.
    - exfalso. apply nth_error_None in Ep. rewrite <- (m0_len s M) in Ep. apply nth_error_None in Ep. congruence.
  Qed.
  Lemma op_short s g x op rest : MI0 s -> nth_error (mm_gs s) g = Some x -> mg_todo x = op :: rest -> Forall short (vs_of op).
  Proof.
    intros M E1 E2. destruct (op_in s g x op rest M E1 E2) as (p & Ep & Hin). destruct Hshort as [_ H].
    rewrite Forall_forall in H. apply nth_error_In in Ep. specialize (H _ Ep). rewrite Forall_forall in H. now apply H.
  Qed.
  Lemma op_fits s g x op rest : MI0 s -> nth_error (mm_gs s) g = Some x -> mg_todo x = op :: rest -> fits s (vs_of op) = true -> vs_of op = [].
  Proof.
    intros M E1 E2 F. destruct (op_in s g x op rest M E1 E2) as (p & Ep & Hin). pose proof Hshare as H. unfold no_sharing in H.
    rewrite Forall_forall in H. apply nth_error_In in Ep. specialize (H _ Ep). rewrite Forall_forall in H.
    destruct (H _ Hin) as [X|X]; [exact X|]. unfold fits in F. rewrite (m0_spare s M) in F. apply Nat.leb_le in F. lia.
  Qed.

  (** A step of one goroutine that keeps the map, or adds a fresh entry. *)
  Lemma MI0_upd s g x y vals next l :
    MI0 s -> nth_error (mm_gs s) g = Some x ->
    (exists d, mg_todo x = d ++ mg_todo y) ->
    (forall op rest, mg_todo y = op :: rest -> pc_ok op (mg_pc y) (mg_buf y)) ->
    (mg_todo y = [] -> mg_pc y = PIdle) ->
    (vals = mm_vals s /\ next = mm_next s \/
     exists k vs, k = mkey vs /\ arity vs /\ Forall short vs /\ next = S (mm_next s) /\ vals = mset bytes_eqb (mm_vals s) k (mm_next s)) ->
    ~ In EvPanic l ->
    MI0 (MkMS (upd (mm_gs s) g (fun _ => y)) (mm_spare s) vals next (mm_log s ++ l)).
  Proof.
    intros M Eg [d Hd] Hpc Hdone Hv Hl. split; cbn [mm_gs mm_spare mm_vals mm_next mm_log].
    - rewrite upd_length. apply M.
    - apply M.
    - intros g' x' p E1 E2. rewrite nth_error_upd in E1. destruct (Nat.eqb_spec g g') as [<-|Hg].
      + rewrite Eg in E1. injection E1 as <-. destruct (m0_todo s M g x p Eg E2) as [d' ->]. exists (d' ++ d). rewrite Hd, app_assoc. reflexivity.
      + eapply (m0_todo s M); eassumption.
    - intros g' x' op rest E1 E2. rewrite nth_error_upd in E1. destruct (Nat.eqb_spec g g') as [<-|Hg].
      + rewrite Eg in E1. injection E1 as <-. eapply Hpc. exact E2.
      + eapply (m0_pc s M); eassumption.
    - intros g' x' E1 E2. rewrite nth_error_upd in E1. destruct (Nat.eqb_spec g g') as [<-|Hg].
      + rewrite Eg in E1. injection E1 as <-. now apply Hdone.
      + eapply (m0_done s M); eassumption.
    - destruct Hv as [[-> ->]|(k & vs & _ & _ & _ & -> & ->)]; [apply M|]. apply mwf_mset; [apply bytes_eqb_spec|apply M].
    - destruct Hv as [[-> ->]|(k & vs & -> & A & S & -> & ->)]; [apply M|]. intros k' e. rewrite (mget_mset _ bytes_eqb_spec).
      destruct (bytes_eqb_spec (mkey vs) k') as [<-|Hk].
      + intros [= <-]. split; [lia|eauto].
      + intros E. destruct (m0_vals s M k' e E) as [H1 H2]. split; [lia|exact H2].
    - destruct Hv as [[-> ->]|(k & vs & -> & A & S & -> & ->)]; [apply M|]. intros k1 k2 e. rewrite !(mget_mset _ bytes_eqb_spec).
      destruct (bytes_eqb_spec (mkey vs) k1) as [<-|H1], (bytes_eqb_spec (mkey vs) k2) as [<-|H2]; try reflexivity.
      + intros [= <-] E. destruct (m0_vals s M _ _ E). lia.
      + intros E [= <-]. destruct (m0_vals s M _ _ E). lia.
      + apply M.
    - intros H. apply in_app_iff in H. destruct H as [H|H]; [now apply (m0_panic s M)|contradiction].
  Qed.

  Lemma log_nil s : mm_log s = mm_log s ++ [].
  Proof. now rewrite app_nil_r. Qed.

  Lemma firstn_upd {A} (l : list A) i v : i < length l -> firstn (S i) (upd l i (fun _ => v)) = firstn i l ++ [v].
  Proof. revert i. induction l as [|a l IH]; intros [|i] H; cbn in H; try lia; [reflexivity|]. cbn. f_equal. apply IH. lia. Qed.
  Lemma firstn_S_nth {A} (l : list A) i d : i < length l -> firstn (S i) l = firstn i l ++ [nth i l d].
  Proof. revert i. induction l as [|a l IH]; intros [|i] H; cbn in H; try lia; [reflexivity|]. cbn. f_equal. apply IH. lia. Qed.

  Lemma mdo_MI0 s ch s' : MI0 s -> mdo keys consts s ch = Some s' -> MI0 s'.
  Proof.
    intros M E. destruct ch as [g|g k]; cbn [mdo] in E.
    - destruct (nth_error (mm_gs s) g) as [x|] eqn:Eg; [|discriminate E].
      destruct (mg_todo x) as [|op rest] eqn:Et; [discriminate E|].
      pose proof (m0_pc s M g x op rest Eg Et) as Hpc. pose proof (op_short s g x op rest M Eg Et) as Hs.
      pose proof (op_fits s g x op rest M Eg Et) as Hf.
      assert (Same : exists d, mg_todo x = d ++ op :: rest) by (exists []; exact Et).
      assert (Next : exists d, mg_todo x = d ++ rest) by (exists [op]; exact Et).
      assert (Fin : forall e, e <> EvPanic -> MI0 (mlog (mset_g s g (MkMG rest PIdle [])) e)).
      { intros e He. apply (MI0_upd s g x); auto; cbn; auto. intros [X|[]]; congruence. }
      assert (Inner : forall pc buf, pc_ok op pc buf -> MI0 (mset_g s g (MkMG (op :: rest) pc buf))).
      { intros pc buf H. unfold mset_g. rewrite (log_nil s). apply (MI0_upd s g x); auto; cbn; auto.
        - intros op' rest' [= <- <-]. exact H.
        - discriminate. }
      destruct (mg_pc x) as [|i|got|k|k|k|k|must seen acc] eqn:Epc; cbn [pc_ok] in Hpc.
      + destruct op as [vs|vs|].
        * injection E as <-. apply Inner. cbn. rewrite repeat_length. split; [discriminate|]. split; [lia|auto].
        * injection E as <-. apply Inner. cbn. rewrite repeat_length. split; [discriminate|]. split; [lia|auto].
        * injection E as <-. unfold mlog, mset_g. cbn [mm_gs mm_spare mm_vals mm_next mm_log].
          apply (MI0_upd s g x); auto; cbn; auto.
          -- intros op' rest' [= <- <-]. reflexivity.
          -- discriminate.
          -- intros [X|[]]; congruence.
      + destruct Hpc as (Hop & Hi & Hl & Hb). destruct (Nat.ltb_spec i (length (vs_of op))) as [Hlt|Hge].
        * destruct (fits s (vs_of op)) eqn:F; [rewrite (Hf eq_refl) in Hlt; cbn in Hlt; lia|].
          injection E as <-. apply Inner. cbn [pc_ok]. split; [exact Hop|]. split; [lia|]. split; [now rewrite upd_length|].
          rewrite firstn_upd by lia. rewrite Hb. symmetry. apply firstn_S_nth. exact Hlt.
        * destruct (negb _) eqn:En; injection E as <-.
          -- apply Fin. destruct op; discriminate.
          -- apply Inner. cbn [pc_ok]. assert (i = length (vs_of op)) by lia. subst i. rewrite <- Hl in Hb at 1. rewrite !firstn_all in Hb.
             split; [exact Hop|]. split; [exact Hb|]. split; [unfold arity; lia|]. exists (vs_of op). reflexivity.
      + destruct Hpc as (Hop & Hb & Ha & r & Hr). destruct (Nat.ltb_spec (length got) (length (vs_of op))) as [Hlt|Hge].
        * injection E as <-. apply Inner. cbn [pc_ok]. split; [exact Hop|]. split; [exact Hb|]. split; [exact Ha|].
          unfold slot. destruct (fits s (vs_of op)) eqn:F; [rewrite (Hf eq_refl) in Hlt; cbn in Hlt; lia|]. rewrite Hb, Hr.
          destruct r as [|v r]; [rewrite Hr, app_nil_r in Hlt; lia|]. exists r. rewrite app_nth2, Nat.sub_diag by lia. cbn. now rewrite <- app_assoc.
        * injection E as <-. apply Inner. assert (r = []) by (destruct r; [reflexivity|]; rewrite Hr, app_length in Hge; cbn in Hge; lia). subst r.
          rewrite app_nil_r in Hr. rewrite <- Hr. destruct op as [vs|vs|]; cbn; [| |congruence]; (split; [eauto|auto]).
      + destruct Hpc as ((vs & ->) & Ha & ->). destruct (mget bytes_eqb (mm_vals s) _) as [e|] eqn:Ek; injection E as <-.
        * apply Fin. discriminate.
        * apply Inner. cbn. eauto.
      + destruct Hpc as ((vs & ->) & Ha & ->). destruct (mget bytes_eqb (mm_vals s) _) as [e|] eqn:Ek; injection E as <-.
        * apply Fin. discriminate.
        * apply (MI0_upd s g x); auto; cbn; auto.
          -- right. exists (mkey vs), vs. auto.
          -- intros [X|[]]; congruence.
      + destruct Hpc as ((vs & ->) & Ha & ->). injection E as <-.
        assert (M1 : MI0 (mset_g s g (MkMG (MUpsert vs :: rest) (PStore (mkey vs)) []))).
        { apply Inner. cbn. eauto. }
        destruct M1 as [a1 a2 a3 a4 a5 a6 a7 a8 a9]. cbn in *. split; cbn [mm_gs mm_spare mm_vals mm_next mm_log].
        * rewrite map_length. exact a1.
        * exact a2.
        * intros g' x' p E1 E2. rewrite nth_error_map in E1. destruct (nth_error (upd _ _ _) g') as [y|] eqn:Ey; [|discriminate E1].
          injection E1 as <-. cbn. eapply a3; eassumption.
        * intros g' x' op' rest' E1 E2. rewrite nth_error_map in E1. destruct (nth_error (upd _ _ _) g') as [y|] eqn:Ey; [|discriminate E1].
          injection E1 as <-. cbn in *. pose proof (a4 g' y op' rest' Ey E2) as P. destruct (mg_pc y); cbn; exact P.
        * intros g' x' E1 E2. rewrite nth_error_map in E1. destruct (nth_error (upd _ _ _) g') as [y|] eqn:Ey; [|discriminate E1].
          injection E1 as <-. cbn in *. rewrite (a5 g' y Ey E2). reflexivity.
        * apply mwf_mdel. exact a6.
        * intros k e. rewrite (mget_mdel _ bytes_eqb_spec). destruct (bytes_eqb _ k); [discriminate|]. apply a7.
        * intros k1 k2 e. rewrite !(mget_mdel _ bytes_eqb_spec). destruct (bytes_eqb _ k1), (bytes_eqb _ k2); try discriminate. apply a8.
        * exact a9.
      + destruct Hpc as ((vs & ->) & Ha & ->). injection E as <-. apply (MI0_upd s g x); auto; cbn; auto.
        * right. exists (mkey vs), vs. auto.
        * intros [X|[]]; congruence.
      + subst op. destruct (forallb _ must); [|discriminate E]. injection E as <-. apply Fin. discriminate.
    - destruct (nth_error (mm_gs s) g) as [[todo [|i|got|k0|k0|k0|k0|must seen acc] buf]|] eqn:Eg; try discriminate E.
      destruct (existsb (bytes_eqb k) seen); [discriminate E|]. destruct (mget bytes_eqb (mm_vals s) k) as [e|] eqn:Ek; [|discriminate E].
      destruct (m0_vals s M k e Ek) as (_ & vs & -> & Ha & Hs). rewrite (mkey_decode vs Ha Hs) in E. injection E as <-.
      unfold mset_g. rewrite (log_nil s). apply (MI0_upd s g (MkMG todo (PRange must seen acc) buf)); auto; cbn.
      + exists []. reflexivity.
      + intros op rest ->. apply (m0_pc s M g _ op rest Eg eq_refl).
      + intros ->. pose proof (m0_done s M g _ Eg eq_refl) as X. discriminate X.
  Qed.

  Lemma mreach_MI0 s : mreach keys consts spare progs s -> MI0 s.
  Proof. induction 1; [apply minit_MI0|]. eapply mdo_MI0; eassumption. Qed.

  (** *** Without UpsertEntry *)
  Hypothesis Hget : no_upsert progs.

  Definition ev_known (s : mst) (l : list mev) : Prop :=
    forall g vs x, In (EvGet g vs x) l -> arity vs /\ Forall short vs /\ mget bytes_eqb (mm_vals s) (mkey vs) = Some x.

  (** What a Read that started after [l1] and returned during [l2] may report. *)
  Definition read_ok (l1 l2 : list mev) (r : list (list lvalue * nat)) : Prop :=
    NoDup (map fst r) /\
    (forall g vs x, In (EvGet g vs x) l1 -> In (kshow vs, x) r) /\
    (forall lvs x, In (lvs, x) r -> exists g vs, In (EvGet g vs x) (l1 ++ l2) /\ lvs = kshow vs).

  Record MI (s : mst) : Prop := {
    mi_0 : MI0 s;
    mi_known : ev_known s (mm_log s);
    mi_vals : forall k x, mget bytes_eqb (mm_vals s) k = Some x -> exists g vs, In (EvGet g vs x) (mm_log s) /\ k = mkey vs;
    mi_range : forall g x must seen acc, nth_error (mm_gs s) g = Some x -> mg_pc x = PRange must seen acc ->
      exists l1 l2, mm_log s = l1 ++ EvReadStart g :: l2 /\ ~ In (EvReadStart g) l2 /\
        (forall g' vs e, In (EvGet g' vs e) l1 -> In (mkey vs) must) /\
        NoDup seen /\
        Forall2 (fun k le => decode_label_vals keys k = Some (fst le) /\ mget bytes_eqb (mm_vals s) k = Some (snd le)) seen acc;
    mi_reads : forall g l1 l2 r l3, mm_log s = l1 ++ EvReadStart g :: l2 ++ EvReadEnd g r :: l3 -> ~ In (EvReadStart g) l2 -> read_ok l1 l2 r;
    mi_noup : forall g vs x, ~ In (EvUpsert g vs x) (mm_log s)
  }.

  Lemma minit_MI : MI (minit spare progs).
  Proof.
    split; cbn.
    - apply minit_MI0.
    - intros g vs x [].
    - discriminate.
    - intros g x must seen acc E1 E2. rewrite nth_error_map in E1. destruct (nth_error progs g); [|discriminate]. injection E1 as <-. discriminate.
    - intros g l1 l2 r l3 E. destruct l1; discriminate.
    - intros g vs x [].
  Qed.

  Lemma split_last {A} (a : A) l1 l2 l1' l2' : l1 ++ a :: l2 = l1' ++ a :: l2' -> ~ In a l2 -> ~ In a l2' -> l1 = l1' /\ l2 = l2'.
  Proof.
    revert l1'. induction l1 as [|b l1 IH]; intros [|b' l1'] E N1 N2; cbn in E.
    - injection E as ->. auto.
    - injection E as <- E. exfalso. apply N1. rewrite E. apply in_app_iff. right. now left.
    - injection E as -> E. exfalso. apply N2. rewrite <- E. apply in_app_iff. right. now left.
    - injection E as -> E. destruct (IH l1' E N1 N2) as [-> ->]. auto.
  Qed.

  (** Steps that return nothing and keep the map. *)
  Definition ranges_ok (s : mst) (g : nat) (y : mg) (l : list mev) : Prop :=
    forall must seen acc, mg_pc y = PRange must seen acc ->
      exists l1 l2, mm_log s ++ l = l1 ++ EvReadStart g :: l2 /\ ~ In (EvReadStart g) l2 /\
        (forall g' vs e, In (EvGet g' vs e) l1 -> In (mkey vs) must) /\
        NoDup seen /\
        Forall2 (fun k le => decode_label_vals keys k = Some (fst le) /\ mget bytes_eqb (mm_vals s) k = Some (snd le)) seen acc.

  Lemma MI_step s g x y vals next l :
    MI s -> nth_error (mm_gs s) g = Some x ->
    MI0 (MkMS (upd (mm_gs s) g (fun _ => y)) (mm_spare s) vals next (mm_log s ++ l)) ->
    ranges_ok s g y l ->
    (forall k e, mget bytes_eqb (mm_vals s) k = Some e -> mget bytes_eqb vals k = Some e) ->
    (forall k e, mget bytes_eqb vals k = Some e -> mget bytes_eqb (mm_vals s) k = Some e \/ exists g vs, In (EvGet g vs e) l /\ k = mkey vs) ->
    (forall g vs e, In (EvGet g vs e) l -> arity vs /\ Forall short vs /\ mget bytes_eqb vals (mkey vs) = Some e) ->
    (l = [] \/ exists e, l = [e] /\ (forall g vs e', e <> EvUpsert g vs e') /\
       (forall g', e = EvReadStart g' -> g' = g) /\
       forall g' r, e = EvReadEnd g' r -> g' = g /\
         exists must seen, mg_pc x = PRange must seen r /\ forall k, In k must -> In k seen) ->
    MI (MkMS (upd (mm_gs s) g (fun _ => y)) (mm_spare s) vals next (mm_log s ++ l)).
  Proof.
    intros M Eg M0' Hr Hkeep Hnew Hev Hl. pose proof (mi_0 s M) as M0. split; cbn [mm_gs mm_spare mm_vals mm_next mm_log].
    - exact M0'.
    - intros g' vs e Hin. cbn [mm_vals]. apply in_app_iff in Hin. destruct Hin as [Hin|Hin]; [|now apply (Hev g')].
      destruct (mi_known s M _ _ _ Hin) as (A & S & E). auto.
    - intros k e E. destruct (Hnew k e E) as [E'|(g' & vs & Hin & ->)].
      + destruct (mi_vals s M _ _ E') as (g' & vs & Hin & ->). exists g', vs. split; [apply in_app_iff; now left|reflexivity].
      + exists g', vs. split; [apply in_app_iff; now right|reflexivity].
    - intros g' x' must seen acc E1 E2. rewrite nth_error_upd in E1.
      assert (Up : forall seen acc,
        Forall2 (fun k le => decode_label_vals keys k = Some (fst le) /\ mget bytes_eqb (mm_vals s) k = Some (snd le)) seen acc ->
        Forall2 (fun k le => decode_label_vals keys k = Some (fst le) /\ mget bytes_eqb vals k = Some (snd le)) seen acc).
      { induction 1 as [|k le ks les [H1 H2] F IH]; constructor; auto. }
      destruct (Nat.eqb_spec g g') as [<-|Hg].
      + rewrite Eg in E1. injection E1 as <-. destruct (Hr _ _ _ E2) as (l1 & l2 & H1 & H2 & H3 & H4 & H5).
        exists l1, l2. auto 10.
      + destruct (mi_range s M g' x' must seen acc E1 E2) as (l1 & l2 & H1 & H2 & H3 & H4 & H5).
        exists l1, (l2 ++ l). rewrite H1, <- app_assoc. split; [reflexivity|]. split; [|auto].
        intros Hin. apply in_app_iff in Hin. destruct Hin as [Hin|Hin]; [contradiction|].
        destruct Hl as [->|(e & -> & _ & Hs & _)]; [destruct Hin|]. destruct Hin as [->|[]]. specialize (Hs _ eq_refl). congruence.
    - intros g' l1 l2 r l3 E Hn. destruct Hl as [->|(e & -> & _ & _ & He)].
      + rewrite app_nil_r in E. eapply (mi_reads s M); eassumption.
      + destruct l3 as [|z l3 _] using rev_ind.
        * rewrite app_comm_cons, app_assoc in E. apply app_inj_tail in E. destruct E as [E ->].
          destruct (He g' r eq_refl) as (-> & must & seen & Epc & Hall).
          destruct (mi_range s M g x must seen r Eg Epc) as (l1' & l2' & H1 & H2 & H3 & H4 & H5).
          assert (Eq : l1 ++ EvReadStart g :: l2 = l1' ++ EvReadStart g :: l2') by congruence.
          apply split_last in Eq; [|exact Hn|exact H2]. destruct Eq as [<- <-].
          split; [|split].
          -- clear - H4 H5 M M0 Hshort. assert (Ek : forall k le, decode_label_vals keys k = Some (fst le) /\ mget bytes_eqb (mm_vals s) k = Some (snd le) ->
               exists vs, k = mkey vs /\ arity vs /\ Forall short vs /\ fst le = kshow vs).
             { intros k le [D G]. destruct (m0_vals s M0 _ _ G) as (_ & vs & -> & A & S). exists vs. rewrite (mkey_decode vs A S) in D. injection D as <-. auto. }
             induction H5 as [|k le ks les HH F IH]; [constructor|]. inversion H4 as [|? ? Hni Hnd]; subst. cbn [map]. constructor; [|now apply IH].
             intros Hin. apply Hni. apply in_map_iff in Hin. destruct Hin as (le' & E & Hin).
             destruct (Ek _ _ HH) as (vs & -> & A & S & E1).
             assert (X : exists k', In k' ks /\ decode_label_vals keys k' = Some (fst le') /\ mget bytes_eqb (mm_vals s) k' = Some (snd le')).
             { clear - F Hin. induction F; [destruct Hin|]. destruct Hin as [<-|Hin]; [eexists; split; [now left|eassumption]|].
               destruct (IHF Hin) as (k' & ? & ?). exists k'. split; [now right|assumption]. }
             destruct X as (k' & Hk' & HH'). destruct (Ek _ _ HH') as (vs' & -> & A' & S' & E1').
             assert (map label (consts ++ vs) = map label (consts ++ vs')).
             { unfold kshow in *. rewrite E1, E1' in E. revert E. generalize (map label (consts ++ vs)), (map label (consts ++ vs')). clear.
               induction l as [|a l IH]; intros [|b l'] E; try discriminate; [reflexivity|]. cbn in E. injection E as E1 E2. f_equal; [|now apply IH].
               destruct a, b; cbn in E1; congruence. }
             assert (mkey vs = mkey vs') as -> by (rewrite !encode_enc; congruence). exact Hk'.
          -- intros g' vs e Hin. pose proof (Hall _ (H3 _ _ _ Hin)) as Hs.
             destruct (mi_known s M g' vs e) as (A & S & G); [rewrite H1; apply in_app_iff; now left|].
             clear - H5 Hs A S G Hshort. induction H5 as [|k le ks les [D1 D2] F IH]; [destruct Hs|]. destruct Hs as [->|Hs].
             ++ left. rewrite (mkey_decode vs A S) in D1. destruct le as [lvs e']. cbn in *. congruence.
             ++ right. now apply IH.
          -- intros lvs e Hin.
             assert (X : exists k, decode_label_vals keys k = Some lvs /\ mget bytes_eqb (mm_vals s) k = Some e).
             { clear - H5 Hin. induction H5 as [|k le ks les HH F IH]; [destruct Hin|]. destruct Hin as [->|Hin]; [eauto|]. now apply IH. }
             destruct X as (k & D & G). destruct (mi_vals s M _ _ G) as (g' & vs & Hin' & ->).
             destruct (mi_known s M _ _ _ Hin') as (A & S & _). rewrite (mkey_decode vs A S) in D. injection D as <-.
             exists g', vs. split; [|reflexivity]. rewrite H1 in Hin'. apply in_app_iff in Hin'. apply in_app_iff.
             destruct Hin' as [?|[X|?]]; [now left|discriminate X|now right].
        * replace (l1 ++ EvReadStart g' :: l2 ++ EvReadEnd g' r :: l3 ++ [z])
            with ((l1 ++ EvReadStart g' :: l2 ++ EvReadEnd g' r :: l3) ++ [z]) in E
            by (rewrite <- !app_assoc; cbn; rewrite <- !app_assoc; reflexivity).
          apply app_inj_tail in E. destruct E as [E _]. eapply (mi_reads s M); eassumption.
    - intros g' vs e Hin. apply in_app_iff in Hin. destruct Hin as [Hin|Hin]; [now apply (mi_noup s M) in Hin|].
      destruct Hl as [->|(e' & -> & N & _)]; [destruct Hin|]. destruct Hin as [X|[]]. now apply (N g' vs e).
  Qed.

  Lemma mdo_MI s ch s' : MI s -> mdo keys consts s ch = Some s' -> MI s'.
  Proof.
    intros M E. pose proof (mi_0 s M) as M0. pose proof (mdo_MI0 s ch s' M0 E) as M0'.
    destruct ch as [g|g k]; cbn [mdo] in E.
    - destruct (nth_error (mm_gs s) g) as [x|] eqn:Eg; [|discriminate E].
      destruct (mg_todo x) as [|op rest] eqn:Et; [discriminate E|].
      pose proof (m0_pc s M0 g x op rest Eg Et) as Hpc. pose proof (op_short s g x op rest M0 Eg Et) as Hs.
      pose proof (op_fits s g x op rest M0 Eg Et) as Hf.
      assert (Hnu : match op with MUpsert _ => False | _ => True end).
      { destruct (op_in s g x op rest M0 Eg Et) as (p & Ep & Hin). pose proof Hget as H. unfold no_upsert in H. rewrite Forall_forall in H.
        apply nth_error_In in Ep. specialize (H _ Ep). rewrite Forall_forall in H. now apply H. }
      assert (Idle : forall l todo, ranges_ok s g (MkMG todo PIdle []) l) by (intros l todo must seen acc X; discriminate X).
      assert (Fin : forall e, (forall g vs e', e <> EvGet g vs e') -> (forall g vs e', e <> EvUpsert g vs e') ->
                (forall g', e <> EvReadStart g') ->
                (forall g' r, e = EvReadEnd g' r -> g' = g /\ exists must seen, mg_pc x = PRange must seen r /\ forall k, In k must -> In k seen) ->
                s' = mlog (mset_g s g (MkMG rest PIdle [])) e -> MI s').
      { intros e N1 N2 N3 N4 ->. unfold mlog, mset_g in *. cbn [mm_gs mm_spare mm_vals mm_next mm_log] in *.
        apply (MI_step s g x); auto.
        - intros g' vs e' [X|[]]. now apply N1 in X.
        - right. exists e. split; [reflexivity|]. split; [exact N2|]. split; [|exact N4]. intros g' X. now apply N3 in X. }
      assert (Inner : forall y, (forall must seen acc, mg_pc y <> PRange must seen acc) -> s' = mset_g s g y -> MI s').
      { intros y Hy ->. unfold mset_g in *. rewrite (log_nil s) in M0' |- *.
        apply (MI_step s g x); auto; [|intros ? ? ? []]. intros must seen acc X. now apply Hy in X. }
      destruct (mg_pc x) as [|i|got|k|k|k|k|must seen acc] eqn:Epc; cbn [pc_ok] in Hpc.
      + destruct op as [vs|vs|]; [| |].
        * injection E as E. symmetry in E. eapply Inner; [|exact E]. discriminate.
        * contradiction.
        * injection E as <-. unfold mlog, mset_g in *. cbn [mm_gs mm_spare mm_vals mm_next mm_log] in *.
          apply (MI_step s g x); auto.
          -- intros must seen acc [= <- <- <-]. exists (mm_log s), []. split; [reflexivity|]. split; [intros []|].
             split; [|split; [constructor|constructor]]. intros g' vs e Hin. destruct (mi_known s M _ _ _ Hin) as (_ & _ & G).
             now apply (mget_Some_key _ bytes_eqb_spec) in G.
          -- intros g' vs e [X|[]]. discriminate X.
          -- right. eexists. split; [reflexivity|]. split; [discriminate|]. split; [congruence|discriminate].
      + destruct Hpc as (Hop & Hi & Hl & Hb). destruct (Nat.ltb_spec i (length (vs_of op))) as [Hlt|Hge].
        * destruct (fits s (vs_of op)) eqn:F; [rewrite (Hf eq_refl) in Hlt; cbn in Hlt; lia|].
          injection E as E. symmetry in E. eapply Inner; [|exact E]. discriminate.
        * destruct (negb _) eqn:En; injection E as E; symmetry in E.
          -- eapply Fin; [..|exact E]; destruct op; discriminate.
          -- eapply Inner; [|exact E]. discriminate.
      + destruct (Nat.ltb_spec (length got) (length (vs_of op))) as [Hlt|Hge].
        * injection E as E. symmetry in E. eapply Inner; [|exact E]. discriminate.
        * injection E as E. symmetry in E. eapply Inner; [|exact E]. destruct op; discriminate.
      + destruct Hpc as ((vs & ->) & Ha & ->). destruct (mget bytes_eqb (mm_vals s) _) as [e|] eqn:Ek; injection E as E; symmetry in E.
        * subst s'. unfold mlog, mset_g in *. cbn [mm_gs mm_spare mm_vals mm_next mm_log] in *. apply (MI_step s g x); auto.
          -- intros g' vs' e' [X|[]]. injection X as <- <- <-. auto.
          -- right. eexists. split; [reflexivity|]. split; [discriminate|]. split; [discriminate|discriminate].
        * eapply Inner; [|exact E]. discriminate.
      + destruct Hpc as ((vs & ->) & Ha & ->). destruct (mget bytes_eqb (mm_vals s) _) as [e|] eqn:Ek; injection E as E; symmetry in E.
        * subst s'. unfold mlog, mset_g in *. cbn [mm_gs mm_spare mm_vals mm_next mm_log] in *. apply (MI_step s g x); auto.
          -- intros g' vs' e' [X|[]]. injection X as <- <- <-. auto.
          -- right. eexists. split; [reflexivity|]. split; [discriminate|]. split; [discriminate|discriminate].
        * subst s'. cbn [vs_of] in *. apply (MI_step s g x); auto.
          -- intros k e G. rewrite (mget_mset _ bytes_eqb_spec). destruct (bytes_eqb_spec (mkey vs) k) as [<-|]; [congruence|exact G].
          -- intros k e. rewrite (mget_mset _ bytes_eqb_spec). destruct (bytes_eqb_spec (mkey vs) k) as [<-|]; [|auto].
             intros [= <-]. right. exists g, vs. split; [now left|reflexivity].
          -- intros g' vs' e' [X|[]]. injection X as <- <- <-. split; [exact Ha|]. split; [exact Hs|]. apply (mget_mset_same _ bytes_eqb_spec).
          -- right. eexists. split; [reflexivity|]. split; [discriminate|]. split; [discriminate|discriminate].
      + destruct Hpc as ((vs & ->) & _). contradiction.
      + destruct Hpc as ((vs & ->) & _). contradiction.
      + subst op. destruct (forallb _ must) eqn:Eall; [|discriminate E]. injection E as E. symmetry in E.
        eapply Fin; [..|exact E]; try discriminate. intros g' r [= <- <-]. split; [reflexivity|]. exists must, seen. split; [reflexivity|].
        rewrite forallb_forall in Eall. intros k Hk. specialize (Eall k Hk). apply existsb_exists in Eall.
        destruct Eall as (k' & Hk' & Eq). apply (reflect_iff _ _ (bytes_eqb_spec k k')) in Eq. now subst.
    - destruct (nth_error (mm_gs s) g) as [[todo [|i|got|k0|k0|k0|k0|must seen acc] buf]|] eqn:Eg; try discriminate E.
      destruct (existsb (bytes_eqb k) seen) eqn:Es; [discriminate E|]. destruct (mget bytes_eqb (mm_vals s) k) as [e|] eqn:Ek; [|discriminate E].
      destruct (decode_label_vals keys k) as [lvs|] eqn:Ed.
      2:{ injection E as <-. exfalso. apply (m0_panic _ M0'). cbn. apply in_app_iff. right. now left. }
      injection E as <-. unfold mset_g in *. rewrite (log_nil s) in M0' |- *.
      apply (MI_step s g _ _ _ _ _ M Eg M0'); auto; [|intros ? ? ? []].
      intros must' seen' acc' [= <- <- <-]. destruct (mi_range s M g _ must seen acc Eg eq_refl) as (l1 & l2 & H1 & H2 & H3 & H4 & H5).
      exists l1, l2. rewrite app_nil_r. split; [exact H1|]. split; [exact H2|]. split; [exact H3|]. split.
      + apply NoDup_snoc; [exact H4|]. intros Hin. assert (existsb (bytes_eqb k) seen = true); [|congruence].
        apply existsb_exists. exists k. split; [exact Hin|apply bytes_eqb_refl].
      + apply Forall2_app; [exact H5|]. constructor; [|constructor]. auto.
  Qed.

  Lemma mreach_MI s : mreach keys consts spare progs s -> MI s.
  Proof. induction 1; [apply minit_MI|]. eapply mdo_MI; eassumption. Qed.
End Metric.
