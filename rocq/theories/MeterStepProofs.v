(** The small steps of a Meter. *)

From Coq Require Import List Arith ZArith NArith Bool Lia Permutation.
From Verif Require Import Base ListLib GoMap GoSort Float64 TagModel AggModel AggSpec AggProofs CollectorModel CollectorSpec CollectorProofs ViewModel ViewProofs
  WorkerModel WorkerSpec WorkerProofs MeterStepModel MeterStepSpec.
Import ListNotations.
Open Scope nat_scope.

Lemma upd_upd {A} (l : list A) x f g : upd (upd l x f) x g = upd l x (fun a => g (f a)).
Proof. revert x. induction l as [|a l IH]; intros [|x]; cbn; try reflexivity. now rewrite IH. Qed.

Lemma upd_snoc {A} (l : list A) a f : upd (l ++ [a]) (length l) f = l ++ [f a].
Proof. induction l as [|b l IH]; cbn; [reflexivity|]. now rewrite IH. Qed.

Lemma atom_cmds_app l1 l2 : atom_cmds (l1 ++ l2) = atom_cmds l1 ++ atom_cmds l2.
Proof. apply flat_map_app. Qed.
Lemma log_cmds_app l1 l2 : log_cmds (l1 ++ l2) = log_cmds l1 ++ log_cmds l2.
Proof. unfold log_cmds. now rewrite map_app, atom_cmds_app. Qed.

Lemma Forall2_imp {A B} (R R' : A -> B -> Prop) l l' : (forall x y, R x y -> R' x y) -> Forall2 R l l' -> Forall2 R' l l'.
Proof. intros H. induction 1; constructor; auto. Qed.

Section Inv.
  Variable u0 : uworld.
  Hypothesis U0 : u_ok u0.

  Notation WI := (WI u0).
  Notation s_state := (s_state u0).

  Lemma WI_er st w ex r : WI st w -> WI st (MkWS (w_u w) (w_vis w) (w_views w) (w_meas w) (w_subs w) ex r).
  Proof. intros []. constructor; auto. Qed.
  Lemma WI_subs st w sb : WI st w -> WI st (MkWS (w_u w) (w_vis w) (w_views w) (w_meas w) sb (w_exps w) (w_res w)).
  Proof. intros []. constructor; auto. Qed.

  Lemma state_app h c : s_state (h ++ [c]) = s_step u0 (s_state h) c.
  Proof. unfold WorkerSpec.s_state. now rewrite fold_left_app. Qed.
  Lemma exporters_app h c : exporters (h ++ [c]) = match c with
              | CmdAddExporter e => if existsb (Nat.eqb e) (exporters h) then exporters h else exporters h ++ [e]
              | CmdDelExporter e => filter (fun e' => negb (e' =? e)) (exporters h)
              | _ => exporters h end.
  Proof. unfold exporters. now rewrite fold_left_app. Qed.
  Lemma resource_app h c : resource_of (h ++ [c]) = match c with CmdSetResource r => Some r | _ => resource_of h end.
  Proof. unfold resource_of. now rewrite fold_left_app. Qed.

  (** ** The steps of Register and Unregister *)

  Lemma try_register_spec st w p now sv :
    WI st w -> canonical (w_u w) p sv ->
    exists w1 r, try_register w p now = Some (w1, r) /\
      match r with
      | None => w1 = w /\ exists e, st (sv_name sv) = Some e /\ same_view u0 (en_view e) p = false
      | Some x =>
          exists w2 vi, subscribe w1 p x = Some w2 /\ register_one w p now = Some (w2, true) /\
            w_u w1 = w_u w /\ w_exps w1 = w_exps w /\ w_res w1 = w_res w /\
            nth_error (w_vis w1) x = Some vi /\ (vi_sub vi = true \/ vi_sigs vi = [])
      end.
  Proof.
    intros I Hc. pose proof (sv_kind u0 U0 _ _ _ (wk_u _ _ _ I) Hc) as Hk.
    assert (Es : spec_view u0 p = Some sv).
    { destruct (wk_u _ _ _ I) as (_ & _ & U & _). rewrite <- U. apply Hc. }
    pose proof Hc as (C1 & C2 & C3).
    destruct (canonical_descriptor (w_u w) p sv _ Hc Hk C2) as (d & Ed & Hd).
    unfold try_register, register_one, subscribe. rewrite C2. cbn [v_measure v_agg v_name v_desc v_keys] in *. rewrite Ed.
    assert (Hmatch : forall (A : Type) (a b : A), match me_kind (sv_measure sv) with MOther => a | _ => b end = b).
    { intros A a b. destruct (me_kind (sv_measure sv)); congruence. }
    destruct (mget bytes_eqb (w_views w) (sv_name sv)) as [x|] eqn:Ex.
    - destruct (reg_entry u0 _ _ _ _ I Ex) as (e & vi & sv' & He & Hn & Hv & Hs). rewrite Hn, (eo_view _ _ _ _ _ Hv).
      rewrite (same_spec u0 _ _ _ sv' sv (wk_u _ _ _ I) (eo_can _ _ _ _ _ Hv) Hc).
      destruct (same_view u0 (en_view e) p) eqn:Esame.
      + exists w, (Some x). split; [reflexivity|]. eexists. exists vi. rewrite C2. cbn [v_measure]. rewrite !Hmatch.
        split; [reflexivity|]. split; [reflexivity|]. repeat (split; [reflexivity|]). split; [exact Hn|]. left. apply (eo_sub _ _ _ _ _ Hv).
      + exists w, None. split; [reflexivity|]. split; [reflexivity|]. exists e. auto.
    - eexists. exists (Some (length (w_vis w))). split; [reflexivity|]. cbn [w_u w_vis w_exps w_res]. rewrite C2. cbn [v_measure]. rewrite !Hmatch.
      eexists. exists (MkVI p false (sv_aggp sv) [] d now). split; [reflexivity|]. cbn [w_views w_meas w_subs].
      rewrite upd_snoc. cbn [vi_view vi_agg vi_sigs vi_desc vi_start].
      split; [reflexivity|]. repeat (split; [reflexivity|]). split; [|now right].
      rewrite nth_error_app2, Nat.sub_diag by lia. reflexivity.
  Qed.

  Lemma subscribe_view w p x w' : subscribe w p x = Some w' ->
    w_views w' = w_views w /\ w_u w' = w_u w /\ w_exps w' = w_exps w /\ w_res w' = w_res w /\
    w_vis w' = upd (w_vis w) x (fun i => MkVI (vi_view i) true (vi_agg i) (vi_sigs i) (vi_desc i) (vi_start i)).
  Proof.
    unfold subscribe. destruct (nth_error (u_views (w_u w)) p) as [v|]; [|discriminate].
    destruct (v_measure v) as [me|]; [|discriminate]. destruct (me_kind me); try discriminate; intros [= <-]; auto 6.
  Qed.

  Lemma subscribe_er w p x w' ex r : subscribe w p x = Some w' ->
    subscribe (MkWS (w_u w) (w_vis w) (w_views w) (w_meas w) (w_subs w) ex r) p x =
    Some (MkWS (w_u w') (w_vis w') (w_views w') (w_meas w') (w_subs w') ex r).
  Proof.
    unfold subscribe. cbn [w_u]. destruct (nth_error (u_views (w_u w)) p) as [v|]; [|discriminate].
    destruct (v_measure v) as [me|]; [|discriminate]. destruct (me_kind me); try discriminate; intros [= <-]; reflexivity.
  Qed.

  Lemma unregister_steps st w n x :
    WI st w -> mget bytes_eqb (w_views w) n = Some x ->
    exists w', unregister_view (clear_rows (unsubscribe w x) x) x = Some w' /\
      WI (s_set st n None) w' /\ w_exps w' = w_exps w /\ w_res w' = w_res w.
  Proof.
    intros I Ex. destruct (reg_entry u0 _ _ _ _ I Ex) as (e & vi & sv & He & Hn & Hv & Hs).
    destruct (unregister_one_spec u0 id_order st w n 0%Z I) as (w' & evs & E & I' & E1 & E2 & _).
    exists w'. split; [|auto].
    unfold unregister_one in E. rewrite Ex in E. destruct (report_view id_order w x 0%Z) as [evs'|]; [|discriminate]. rewrite Hn in E.
    pose proof (eo_can _ _ _ _ _ Hv) as (C1 & C2 & C3). rewrite (eo_view _ _ _ _ _ Hv), C2 in E. cbn [v_measure v_name] in E.
    injection E as <- _.
    unfold unregister_view, clear_rows, unsubscribe, set_vi. cbn [w_vis w_u w_views w_meas w_subs w_exps w_res].
    rewrite upd_upd, nth_error_upd, Nat.eqb_refl, Hn. cbn [option_map vi_view]. rewrite (eo_view _ _ _ _ _ Hv), C2. cbn [v_measure v_name].
    reflexivity.
  Qed.

  (** ** Invariant *)

  Definition visible (st : sstate) (n : bytes) : Prop := exists e, st n = Some e /\ en_samples e <> [].
  Definition direct (x : bool * atom) : Prop :=
    fst x = false /\ match snd x with ACmd (CmdAddExporter _) _ | ACmd (CmdDelExporter _) _ | ACmd (CmdSetResource _) _ => True | _ => False end.

  (** [w1] is the state of the worker without the half of an operation that is under way,
      and [st1] what it stands for. *)
  Definition base (s : fstate) (st1 : sstate) (w1 : wst) : Prop :=
    let h := log_cmds (f_log s) in
    WI st1 w1 /\ w_views w1 = w_views (f_w s) /\ w_u w1 = w_u (f_w s) /\
    w_exps (f_w s) = exporters h /\ w_res (f_w s) = resource_of h /\
    match f_pc s with
    | PIdle | PUnregister _ _ | PTick _ _ => w1 = f_w s /\ st1 = s_state h
    | PReported n x _ _ => w1 = f_w s /\ st1 = s_state h /\ mget bytes_eqb (w_views w1) n = Some x
    | PUnsubscribed n x _ _ =>
        f_w s = unsubscribe w1 x /\ mget bytes_eqb (w_views w1) n = Some x /\
        exists l1 l2, f_log s = l1 ++ (true, ARemove n) :: l2 /\ Forall direct l2 /\ st1 = s_state (log_cmds l1)
    | PCleared n x _ _ =>
        f_w s = clear_rows (unsubscribe w1 x) x /\ mget bytes_eqb (w_views w1) n = Some x /\
        exists l1 l2, f_log s = l1 ++ (true, ARemove n) :: l2 /\ Forall direct l2 /\ st1 = s_state (log_cmds l1)
    | PRegister ps now todo bad pending =>
        (exists done, ps = done ++ todo /\ st1 = fold_left (s_register u0 now) done (s_state h)) /\
        forallb (valid_view u0) ps = true /\ conflicts u0 now (s_state h) ps = bad ++ conflicts u0 now st1 todo /\
        (forall p, In p todo -> exists sv, canonical (w_u w1) p sv) /\
        match pending with
        | None => w1 = f_w s
        | Some (p, x) => subscribe (f_w s) p x = Some w1 /\
                         exists vi, nth_error (w_vis (f_w s)) x = Some vi /\ (vi_sub vi = true \/ vi_sigs vi = [])
        end
    end.

  Definition gone (s : fstate) (n : bytes) : Prop :=
    match f_pc s with PUnsubscribed n' _ _ _ | PCleared n' _ _ _ => n = n' | _ => False end.
  Definition gone_since (s : fstate) (from : nat) (n : bytes) : Prop :=
    gone s n -> forall l1 l2, f_log s = l1 ++ (true, ARemove n) :: l2 -> Forall direct l2 -> from <= length l1.

  Definition cur_list (r : rd) : list (bytes * nat) := match rd_cur r with Some x => [x] | None => [] end.

  Definition reading (s : fstate) (st1 : sstate) : Prop :=
    match f_read s with
    | None => True
    | Some r =>
        (match f_pc s with PTick _ _ => False | _ => True end) /\
        rd_from r <= length (f_log s) /\
        exists visited incl,
          Permutation (visited ++ cur_list r ++ rd_todo r) (w_views (f_w s)) /\
          NoDup incl /\
          Forall2 (fun n m => exists e res, st1 n = Some e /\ metric_of u0 res (rd_now r) e m /\
                     (existsb sets_resource (skipn (rd_from r) (f_log s)) = false -> res = w_res (f_w s))) incl (rd_got r) /\
          (forall n, In n incl -> In n (map fst visited) /\ visible st1 n /\ gone_since s (rd_from r) n) /\
          (forall n x, In (n, x) visited -> visible st1 n -> In n incl \/ gone s n) /\
          (forall n x, rd_cur r = Some (n, x) -> gone_since s (rd_from r) n)
    end.

  Definition read_ok (log : list (bool * atom)) (d : done_read) : Prop :=
    dr_from d <= dr_to d <= length log /\
    (existsb sets_resource (between (dr_from d) (dr_to d) log) = false ->
     exists l1 l2, log = l1 ++ l2 /\ dr_from d <= length l1 <= dr_to d /\
       answer u0 (log_cmds l1) (CmdRead (dr_now d)) (RMetrics (dr_got d)) []).

  Definition log_ok (log : list (bool * atom)) : Prop :=
    forall l1 b a l2, log = l1 ++ (b, a) :: l2 -> atom_ok u0 (log_cmds l1) a.

  Definition watoms (log : list (bool * atom)) : list atom := map snd (filter fst log).

  Definition working (s : fstate) : Prop :=
    let wl := watoms (f_log s) in
    match f_pc s with
    | PIdle => worker_atoms u0 (f_started s) wl
    | PRegister ps now _ _ _ => exists cs, f_started s = cs ++ [CmdRegister ps now] /\ worker_atoms u0 cs wl
    | PUnregister todo now | PUnsubscribed _ _ todo now | PCleared _ _ todo now =>
        exists cs ns l l', f_started s = cs ++ [CmdUnregister ns now] /\ wl = l ++ l' /\ worker_atoms u0 cs l /\
          forall k, unregister_atoms u0 (atom_cmds wl) todo now k -> unregister_atoms u0 (atom_cmds l) ns now (l' ++ k)
    | PReported n _ todo now =>
        exists cs ns l l', f_started s = cs ++ [CmdUnregister ns now] /\ wl = l ++ l' /\ worker_atoms u0 cs l /\
          forall k, unregister_atoms u0 (atom_cmds wl ++ [CmdUnregister [n] 0%Z]) todo now k ->
                    unregister_atoms u0 (atom_cmds l) ns now (l' ++ ARemove n :: k)
    | PTick todo now =>
        exists cs l l' ns, f_started s = cs ++ [CmdTick now] /\ wl = l ++ l' /\ worker_atoms u0 cs l /\
          lists_names (s_state (atom_cmds l)) (ns ++ map fst todo) /\ Forall2 (fun n a => exists evs, a = AExport n now evs) ns l' /\
          s_state (atom_cmds l) = s_state (log_cmds (f_log s)) /\
          (forall n x, In (n, x) todo -> mget bytes_eqb (w_views (f_w s)) n = Some x)
    end.

  Record INV (s : fstate) : Prop := {
    iv_base : exists st1 w1, base s st1 w1 /\ reading s st1;
    iv_reads : Forall (read_ok (f_log s)) (f_reads s);
    iv_log : log_ok (f_log s);
    iv_direct : Forall (fun x => fst x = false -> direct x) (f_log s);
    iv_working : working s }.

  (** *** The log *)

  Lemma log_ok_app log x : log_ok log -> atom_ok u0 (log_cmds log) (snd x) -> log_ok (log ++ [x]).
  Proof.
    intros H Hx l1 b a l2 E. destruct l2 as [|y l2] using rev_ind.
    - apply app_inj_tail in E. destruct E as [<- ->]. exact Hx.
    - rewrite app_comm_cons, app_assoc in E. apply app_inj_tail in E. destruct E as [-> _]. eapply H. reflexivity.
  Qed.

  Lemma read_ok_app log l d : read_ok log d -> read_ok (log ++ l) d.
  Proof.
    intros [H1 H2]. split; [rewrite app_length; lia|].
    assert (E : between (dr_from d) (dr_to d) (log ++ l) = between (dr_from d) (dr_to d) log).
    { unfold between. rewrite skipn_app, firstn_app, skipn_length.
      replace (dr_to d - dr_from d - (length log - dr_from d)) with 0 by lia. now rewrite firstn_O, app_nil_r. }
    rewrite E. intros Hn. destruct (H2 Hn) as (l1 & l2 & -> & Hl & Ha). exists l1, (l2 ++ l). rewrite app_assoc. auto.
  Qed.

  Lemma reads_app s l : Forall (read_ok (f_log s)) (f_reads s) -> Forall (read_ok (f_log s ++ l)) (f_reads s).
  Proof. intros H. eapply Forall_impl; [|exact H]. intros d. apply read_ok_app. Qed.

  Lemma direct_state h x : direct x -> s_state (h ++ log_cmds [x]) = s_state h.
  Proof.
    destruct x as [b a]. intros [_ H]. cbn in H. destruct a as [c r| |]; try contradiction. unfold log_cmds. cbn [map snd atom_cmds flat_map app].
    rewrite state_app. destruct c; try contradiction; reflexivity.
  Qed.

  Lemma watoms_app l1 l2 : watoms (l1 ++ l2) = watoms l1 ++ watoms l2.
  Proof. unfold watoms. now rewrite filter_app, map_app. Qed.

  (** What the worker did determines the state. *)
  Lemma watoms_state log : Forall (fun x => fst x = false -> direct x) log -> s_state (atom_cmds (watoms log)) = s_state (log_cmds log).
  Proof.
    induction log as [|x log IH] using rev_ind; intros H; [reflexivity|].
    apply Forall_app in H. destruct H as [H Hx]. inversion Hx as [|? ? Hx' _]; subst. specialize (IH H).
    rewrite watoms_app, log_cmds_app. destruct x as [[|] a].
    - unfold watoms at 2. cbn [filter fst map snd]. rewrite atom_cmds_app. unfold log_cmds at 2. cbn [map snd].
      unfold WorkerSpec.s_state in *. rewrite !fold_left_app. now rewrite IH.
    - unfold watoms at 2. cbn [filter fst map]. rewrite app_nil_r, direct_state by (now apply Hx'). exact IH.
  Qed.

  (** *** Registering adds nothing visible *)

  Lemma register_visible now ps : forall st n,
    (forall e, st n = Some e -> fold_left (s_register u0 now) ps st n = Some e) /\
    (st n = None -> ~ visible (fold_left (s_register u0 now) ps st) n).
  Proof.
    assert (X : forall ps st n, (forall e, st n = Some e -> fold_left (s_register u0 now) ps st n = Some e) /\
              (~ visible st n -> ~ visible (fold_left (s_register u0 now) ps st) n)).
    { intros qs. induction qs as [|p qs IH]; intros st n; [split; auto|]. cbn [fold_left].
      destruct (IH (s_register u0 now st p) n) as [I1 I2]. split.
      - intros e He. apply I1. unfold s_register. destruct (spec_view u0 p) as [sv|]; [|exact He].
        destruct (st (sv_name sv)) as [e'|] eqn:E'; [exact He|]. unfold s_set. destruct (bytes_eqb_spec (sv_name sv) n); [congruence|exact He].
      - intros Hv. apply I2. unfold s_register. destruct (spec_view u0 p) as [sv|]; [|exact Hv].
        destruct (st (sv_name sv)) as [e'|] eqn:E'; [exact Hv|]. unfold visible, s_set. destruct (bytes_eqb_spec (sv_name sv) n) as [<-|]; [|exact Hv].
        intros (e & [= <-] & Hne). now apply Hne. }
    intros st n. destruct (X ps st n) as [X1 X2]. split; [exact X1|]. intros Hn. apply X2. intros (e & He & _). congruence.
  Qed.

  (** *** What a Read sees *)

  Lemma visit s st1 w1 n x : base s st1 w1 -> mget bytes_eqb (w_views (f_w s)) n = Some x ->
    exists e vi1 sv vi, st1 n = Some e /\ nth_error (w_vis w1) x = Some vi1 /\ vi_ok (w_u w1) vi1 sv n e /\
      spec_view u0 (en_view e) = Some sv /\ nth_error (w_vis (f_w s)) x = Some vi /\
      vi_view vi = vi_view vi1 /\ vi_agg vi = vi_agg vi1 /\ vi_desc vi = vi_desc vi1 /\
      (vi_sigs vi = vi_sigs vi1 \/ (vi_sigs vi = [] /\ gone s n)) /\
      (vi_sub vi = false -> gone s n \/ vi_sigs vi1 = []) /\ (gone s n -> vi_sub vi = false).
  Proof.
    intros (I & Ev & Eu & _ & _ & Hm) Ex. rewrite <- Ev in Ex.
    destruct (reg_entry u0 _ _ _ _ I Ex) as (e & vi1 & sv & He & Hn & Hv & Hs).
    assert (Same : w1 = f_w s -> ~ gone s n -> exists vi, nth_error (w_vis (f_w s)) x = Some vi /\
      vi_view vi = vi_view vi1 /\ vi_agg vi = vi_agg vi1 /\ vi_desc vi = vi_desc vi1 /\
      (vi_sigs vi = vi_sigs vi1 \/ (vi_sigs vi = [] /\ gone s n)) /\
      (vi_sub vi = false -> gone s n \/ vi_sigs vi1 = []) /\ (gone s n -> vi_sub vi = false)).
    { intros <- Hg. exists vi1. repeat (split; [auto; fail|]). split; [|tauto]. intros H. rewrite (eo_sub _ _ _ _ _ Hv) in H. discriminate. }
    exists e, vi1, sv. enough (exists vi, nth_error (w_vis (f_w s)) x = Some vi /\
      vi_view vi = vi_view vi1 /\ vi_agg vi = vi_agg vi1 /\ vi_desc vi = vi_desc vi1 /\
      (vi_sigs vi = vi_sigs vi1 \/ (vi_sigs vi = [] /\ gone s n)) /\
      (vi_sub vi = false -> gone s n \/ vi_sigs vi1 = []) /\ (gone s n -> vi_sub vi = false)) as (vi & A & B).
    { exists vi. repeat (split; [assumption|]). exact B. }
    unfold gone in *. destruct (f_pc s) as [|ps now todo bad [[p y]|]|todo now|n' y todo now|n' y todo now|n' y todo now|todo now].
    - apply Same; [apply Hm|tauto].
    - clear Same. destruct Hm as (_ & _ & _ & _ & Hsb & vi & Hvi & Hor). apply subscribe_view in Hsb.
      destruct Hsb as (_ & _ & _ & _ & Evis). rewrite Evis, nth_error_upd in Hn. destruct (Nat.eqb_spec y x) as [->|Hne].
      + rewrite Hvi in Hn. cbn [option_map] in Hn. injection Hn as <-. exists vi. cbn [vi_view vi_agg vi_desc vi_sigs vi_sub].
        repeat (split; [auto; fail|]). split; [|tauto]. intros Hf. right. destruct Hor; congruence.
      + exists vi1. repeat (split; [auto; fail|]). split; [|tauto]. intros H. rewrite (eo_sub _ _ _ _ _ Hv) in H. discriminate.
    - apply Same; [apply Hm|tauto].
    - apply Same; [apply Hm|tauto].
    - apply Same; [apply Hm|tauto].
    - clear Same. destruct Hm as (E & Ey & _). rewrite E. cbn [unsubscribe set_vi w_vis]. rewrite nth_error_upd, Hn.
      destruct (Nat.eqb_spec y x) as [->|Hne].
      + pose proof (reg_inj u0 _ _ _ _ _ I Ex Ey) as <-. eexists. split; [reflexivity|]. cbn [vi_view vi_agg vi_desc vi_sigs vi_sub]. auto 10.
      + exists vi1. assert (n <> n') by congruence. repeat (split; [auto; fail|]). split; [|tauto].
        intros H'. rewrite (eo_sub _ _ _ _ _ Hv) in H'. discriminate.
    - clear Same. destruct Hm as (E & Ey & _). rewrite E. cbn [clear_rows unsubscribe set_vi w_vis]. rewrite upd_upd, nth_error_upd, Hn.
      destruct (Nat.eqb_spec y x) as [->|Hne].
      + pose proof (reg_inj u0 _ _ _ _ _ I Ex Ey) as <-. eexists. split; [reflexivity|]. cbn [vi_view vi_agg vi_desc vi_sigs vi_sub]. auto 10.
      + exists vi1. assert (n <> n') by congruence. repeat (split; [auto; fail|]). split; [|tauto].
        intros H'. rewrite (eo_sub _ _ _ _ _ Hv) in H'. discriminate.
    - apply Same; [apply Hm|tauto].
  Qed.

  Lemma invisible u vi sv n e : vi_ok u vi sv n e -> vi_sigs vi = [] -> en_samples e = [].
  Proof.
    intros V E. destruct (collected_ok id_order (MkWS u [] [] [] [] [] None) vi sv n e V) as (rows & Er & _ & Hn). apply Hn.
    unfold collected_rows in Er. destruct (nth_error _ _) in Er; [|discriminate]. rewrite E in Er. unfold id_order in Er. cbn in Er. congruence.
  Qed.

  Lemma rows_same o w w1 vi vi1 : w_u w = w_u w1 -> vi_view vi = vi_view vi1 -> vi_sigs vi = vi_sigs vi1 ->
    collected_rows o w vi = collected_rows o w1 vi1.
  Proof. intros A B C. unfold collected_rows. now rewrite A, B, C. Qed.

  Lemma rows_nil o w vi : vi_sigs vi = [] -> vi_view vi < length (u_views (w_u w)) -> collected_rows o w vi = Some [].
  Proof.
    intros E H. unfold collected_rows. destruct (nth_error _ _) eqn:X; [|apply nth_error_None in X; lia]. rewrite E.
    assert (Hp := ord_perm o _ (@nil (bytes * agg_data f64_num))). apply Permutation_sym, Permutation_nil in Hp. rewrite Hp. reflexivity.
  Qed.

  (** Reading the rows of a view gives its metric or, once it has been cleared, nothing. *)
  Lemma visit_rows o s st1 w1 n x now : base s st1 w1 -> mget bytes_eqb (w_views (f_w s)) n = Some x ->
    exists e vi rows m, st1 n = Some e /\ nth_error (w_vis (f_w s)) x = Some vi /\ collected_rows o (f_w s) vi = Some rows /\
      view_to_metric (vi_desc vi) rows (w_res (f_w s)) now = Some m /\
      match m with
      | Some m => en_samples e <> [] /\ metric_of u0 (w_res (f_w s)) now e m
      | None => en_samples e = [] \/ gone s n
      end.
  Proof.
    intros B Ex. destruct (visit s st1 w1 n x B Ex) as (e & vi1 & sv & vi & He & Hn1 & Hv & Hs & Hn & E1 & E2 & E3 & E4 & _).
    assert (Eu : w_u (f_w s) = w_u w1) by (symmetry; apply B).
    destruct E4 as [E4|[E4 Hg]].
    - destruct (collected_ok o w1 vi1 sv n e Hv) as (rows & Er & HG & Hnil).
      pose proof (view_to_metric_spec sv (vi_desc vi1) (en_samples e) rows (w_res (f_w s)) now (eo_desc _ _ _ _ _ Hv) HG) as Hm.
      exists e, vi, rows. rewrite E3, (rows_same o _ w1 vi vi1 Eu E1 E4). destruct rows as [|row rows].
      + exists None. repeat (split; [assumption|]). left. now apply Hnil.
      + destruct Hm as (ts & Em & HT). eexists. repeat (split; [eassumption|]). split; [intros E; apply Hnil in E; discriminate|].
        exists sv, (row :: rows). split; [exact Hs|]. split; [exists sv; auto|]. cbn [mt_desc mt_resource mt_series].
        split; [apply (eo_desc _ _ _ _ _ Hv)|]. auto.
    - exists e, vi, [], None. split; [exact He|]. split; [exact Hn|]. split; [|split; [reflexivity|now right]].
      apply rows_nil; [exact E4|]. rewrite E1, (eo_view _ _ _ _ _ Hv), Eu. destruct (eo_can _ _ _ _ _ Hv) as (_ & C2 & _).
      apply nth_error_Some. congruence.
  Qed.

  Lemma reading_mono s s' st1 l :
    reading s st1 -> f_read s' = f_read s -> w_views (f_w s') = w_views (f_w s) -> f_log s' = f_log s ++ l ->
    (match f_pc s' with PTick _ _ => f_read s' = None | _ => True end) ->
    (forall n, gone s n -> gone s' n) ->
    (forall from n, from <= length (f_log s) -> gone_since s from n -> gone_since s' from n) ->
    (existsb sets_resource l = false -> w_res (f_w s') = w_res (f_w s)) ->
    reading s' st1.
  Proof.
    unfold reading. intros H Er Ev El Hp Hg Hs Hr. rewrite Er in Hp |- *. destruct (f_read s) as [r|]; [|exact I].
    destruct H as (_ & Hl & visited & incl & H1 & H2 & H3 & H4 & H5 & H6).
    split; [destruct (f_pc s'); congruence|]. split; [rewrite El, app_length; lia|].
    exists visited, incl. rewrite Ev. split; [exact H1|]. split; [exact H2|]. split; [|split; [|split]].
    - eapply Forall2_imp; [|exact H3]. intros n m (e & res & A & B & C). exists e, res. split; [exact A|]. split; [exact B|].
      rewrite El, skipn_app, existsb_app. intros D. apply orb_false_iff in D. destruct D as [D1 D2].
      replace (rd_from r - length (f_log s)) with 0 in D2 by lia. cbn [skipn] in D2. rewrite (C D1). symmetry. now apply Hr.
    - intros n Hn. destruct (H4 n Hn) as (A & B & C). auto.
    - intros n x Hn Hv. destruct (H5 n x Hn Hv); auto.
    - intros n x Hn. apply Hs; [exact Hl|]. eapply H6. exact Hn.
  Qed.

  Lemma views_in s st1 w1 n x : base s st1 w1 -> In (n, x) (w_views (f_w s)) -> mget bytes_eqb (w_views (f_w s)) n = Some x.
  Proof.
    intros (I & Ev & _) Hin. rewrite <- Ev in *. apply (In_mget _ bytes_eqb_spec); [apply (wk_wf _ _ _ I)|exact Hin].
  Qed.

  Lemma read_keep o s st1 w1 r : base s st1 w1 -> reading s st1 -> f_read s = Some r ->
    match read_step o s r with
    | Blocked => rd_cur r = None /\ rd_todo r = []
    | Panicked => False
    | Next s' => reading s' st1 /\ f_w s' = f_w s /\ f_pc s' = f_pc s /\ f_log s' = f_log s /\ f_started s' = f_started s /\ f_reads s' = f_reads s
    end.
  Proof.
    intros B H Er. unfold reading in H. rewrite Er in H. destruct H as (Hp & Hl & visited & incl & H1 & H2 & H3 & H4 & H5 & H6).
    unfold read_step. destruct r as [from now cur todo got]. cbn [rd_from rd_now rd_cur rd_todo rd_got cur_list] in *.
    destruct cur as [[n x]|].
    - assert (Ex : mget bytes_eqb (w_views (f_w s)) n = Some x).
      { eapply views_in; [exact B|]. eapply Permutation_in; [exact H1|]. apply in_or_app. right. now left. }
      destruct (visit_rows o s st1 w1 n x now B Ex) as (e & vi & rows & m & He & Hn & Ec & Em & Hm). rewrite Hn, Ec, Em.
      assert (Hnew : ~ In n incl).
      { intros Hi. apply H4 in Hi. destruct Hi as [Hi _]. apply in_map_iff in Hi. destruct Hi as ([n' x'] & <- & Hi). cbn [fst] in *.
        assert (Hnd : NoDup (map fst (visited ++ [(n', x)] ++ todo))).
        { eapply Permutation_NoDup; [apply Permutation_sym, Permutation_map; exact H1|]. destruct B as (I & Ev & _). rewrite <- Ev. apply (wk_wf _ _ _ I). }
        rewrite map_app in Hnd. cbn [map app fst] in Hnd. apply NoDup_remove_2 in Hnd. apply Hnd. apply in_or_app. left.
        apply in_map_iff. exists (n', x'). auto. }
      split; [|auto 10]. unfold reading. cbn [f_read f_pc f_log f_w rd_from rd_now rd_cur rd_todo rd_got cur_list].
      split; [exact Hp|]. split; [exact Hl|]. exists (visited ++ [(n, x)]), (incl ++ match m with Some _ => [n] | None => [] end).
      split; [rewrite <- app_assoc; exact H1|]. destruct m as [m|]; rewrite ?app_nil_r.
      + destruct Hm as [Hne Hm]. split; [|split; [|split; [|split]]].
        * now apply NoDup_snoc.
        * apply Forall2_app; [exact H3|]. constructor; [|constructor]. exists e, (w_res (f_w s)). auto.
        * intros n' Hi. rewrite map_app. apply in_app_or in Hi. destruct Hi as [Hi|[<-|[]]].
          -- destruct (H4 n' Hi) as (A & A' & A''). split; [apply in_or_app; now left|]. split; [exact A'|exact A''].
          -- split; [apply in_or_app; right; now left|]. split; [exists e; auto|]. exact (H6 n x eq_refl).
        * intros n' x' Hi Hv. apply in_app_or in Hi. destruct Hi as [Hi|[[= <- <-]|[]]].
          -- destruct (H5 n' x' Hi Hv); [left; apply in_or_app; now left|now right].
          -- left. apply in_or_app. right. now left.
        * discriminate.
      + split; [exact H2|]. split; [exact H3|]. split; [|split].
        * intros n' Hi. destruct (H4 n' Hi) as (A & A' & A''). rewrite map_app. split; [apply in_or_app; now left|]. split; [exact A'|exact A''].
        * intros n' x' Hi Hv. apply in_app_or in Hi. destruct Hi as [Hi|[[= <- <-]|[]]]; [exact (H5 n' x' Hi Hv)|].
          destruct Hm as [Hm|Hm]; [|now right]. destruct Hv as (e' & He' & Hne). congruence.
        * discriminate.
    - destruct todo as [|[n x] todo]; [auto|].
      assert (Ex : mget bytes_eqb (w_views (f_w s)) n = Some x).
      { eapply views_in; [exact B|]. eapply Permutation_in; [exact H1|]. apply in_or_app. right. now left. }
      destruct (visit s st1 w1 n x B Ex) as (e & vi1 & sv & vi & He & Hn1 & Hv & Hs & Hn & _ & _ & _ & _ & E5 & E6). rewrite Hn.
      split; [|auto 10]. unfold reading. cbn [f_read f_pc f_log f_w rd_from rd_now rd_cur rd_todo rd_got cur_list].
      split; [exact Hp|]. split; [exact Hl|]. destruct (vi_sub vi) eqn:Esub.
      + exists visited, incl. split; [exact H1|]. split; [exact H2|]. split; [exact H3|]. split; [exact H4|]. split; [exact H5|].
        intros n' x' [= <- <-] Hg. apply E6 in Hg. discriminate.
      + exists (visited ++ [(n, x)]), incl. split; [rewrite <- app_assoc; exact H1|]. split; [exact H2|]. split; [exact H3|]. split; [|split].
        * intros n' Hi. destruct (H4 n' Hi) as (A & A'). rewrite map_app. split; [apply in_or_app; now left|exact A'].
        * intros n' x' Hi Hvis. apply in_app_or in Hi. destruct Hi as [Hi|[[= <- <-]|[]]]; [exact (H5 n' x' Hi Hvis)|].
          right. destruct (E5 eq_refl) as [Hg|Hsig]; [exact Hg|]. exfalso. destruct Hvis as (e' & He' & Hne).
          pose proof (invisible _ _ _ _ _ Hv Hsig). congruence.
        * discriminate.
  Qed.

  Lemma resource_none l h : existsb sets_resource l = false -> resource_of (h ++ log_cmds l) = resource_of h.
  Proof.
    induction l as [|x l IH] using rev_ind; [unfold log_cmds; cbn; now rewrite app_nil_r|].
    rewrite existsb_app. intros H. apply orb_false_iff in H. destruct H as [H Hx]. cbn in Hx. rewrite orb_false_r in Hx.
    rewrite log_cmds_app, app_assoc. destruct x as [b a]. unfold sets_resource in Hx. cbn [snd] in Hx.
    unfold log_cmds at 2. cbn [map snd atom_cmds flat_map]. rewrite app_nil_r.
    destruct a as [c r|n now evs|n]; rewrite ?app_nil_r, ?resource_app; try (now apply IH). destruct c; try (now apply IH). discriminate.
  Qed.

  Lemma direct_states l h : Forall direct l -> s_state (h ++ log_cmds l) = s_state h.
  Proof.
    induction l as [|x l IH] using rev_ind; intros H; [unfold log_cmds; cbn; now rewrite app_nil_r|].
    apply Forall_app in H. destruct H as [H Hx]. inversion Hx; subst. rewrite log_cmds_app, app_assoc, direct_state by assumption. now apply IH.
  Qed.

  Lemma skipn_le_app {A} i (l1 l2 : list A) : i <= length l1 -> skipn i (l1 ++ l2) = skipn i l1 ++ l2.
  Proof. intros H. rewrite skipn_app. now replace (i - length l1) with 0 by lia. Qed.

  (** A Read that is over. *)
  Lemma read_done s st1 w1 from now got :
    base s st1 w1 -> reading s st1 -> f_read s = Some (MkRd from now None [] got) ->
    read_ok (f_log s) (MkDone from (length (f_log s)) now got).
  Proof.
    intros B H Er. unfold reading in H. rewrite Er in H.
    cbn [rd_from rd_now rd_cur rd_todo rd_got cur_list app] in H. destruct H as (Hp & Hl & visited & incl & H1 & H2 & H3 & H4 & H5 & _).
    rewrite app_nil_r in H1. split; [cbn; lia|]. cbn [dr_from dr_to dr_now dr_got]. unfold between.
    rewrite firstn_all2 by (rewrite skipn_length; lia). intros Hres.
    assert (Hin : forall n, visible st1 n -> exists x, In (n, x) visited).
    { intros n (e & He & _). destruct B as (I & Ev & _). pose proof (wk_reg _ _ _ I n) as Hn.
      destruct (mget bytes_eqb (w_views w1) n) as [x|] eqn:Ex; [|congruence]. exists x.
      eapply Permutation_in; [apply Permutation_sym; exact H1|]. rewrite <- Ev. now apply (mget_In _ bytes_eqb_spec). }
    assert (HF : Forall2 (fun n m => exists e, st1 n = Some e /\ metric_of u0 (resource_of (log_cmds (f_log s))) now e m) incl got).
    { eapply Forall2_imp; [|exact H3]. intros n m (e & res & A & A' & C). exists e. split; [exact A|].
      specialize (C Hres). destruct B as (_ & _ & _ & _ & R & _). rewrite <- R. now subst res. }
    (* the whole log, if what is registered agrees *)
    assert (Whole : (forall n, In n incl <-> visible (s_state (log_cmds (f_log s))) n) ->
                    (forall n e, In n incl -> st1 n = Some e -> s_state (log_cmds (f_log s)) n = Some e) ->
      exists l1 l2, f_log s = l1 ++ l2 /\ from <= length l1 <= length (f_log s) /\
        answer u0 (log_cmds l1) (CmdRead now) (RMetrics got) []).
    { intros W1 W2. exists (f_log s), []. rewrite app_nil_r. split; [reflexivity|]. split; [lia|]. cbn [answer]. split; [reflexivity|].
      exists got. split; [reflexivity|]. exists incl. split; [exact H2|]. split; [exact W1|].
      clear - HF W2. revert W2. induction HF as [|n m ns ms (e & A & A') HF IH]; intros W2; [constructor|]. constructor.
      - exists e. split; [|exact A']. apply W2; [now left|exact A].
      - apply IH. intros n' e' Hi. apply W2. now right. }
    assert (Simple : ~ (exists n, gone s n) -> st1 = s_state (log_cmds (f_log s)) ->
      exists l1 l2, f_log s = l1 ++ l2 /\ from <= length l1 <= length (f_log s) /\
        answer u0 (log_cmds l1) (CmdRead now) (RMetrics got) []).
    { intros Hg Est. apply Whole; [|rewrite <- Est; auto]. rewrite <- Est. intros n. split; [intros Hi; now apply H4|].
      intros Hv. destruct (Hin n Hv) as [x Hx]. destruct (H5 n x Hx Hv) as [|G]; [assumption|]. exfalso. eauto. }
    assert (Gone : forall n, gone s n -> (forall n', gone s n' -> n' = n) ->
      (exists l1 l2, f_log s = l1 ++ (true, ARemove n) :: l2 /\ Forall direct l2 /\ st1 = s_state (log_cmds l1)) ->
      exists l1 l2, f_log s = l1 ++ l2 /\ from <= length l1 <= length (f_log s) /\
        answer u0 (log_cmds l1) (CmdRead now) (RMetrics got) []).
    { intros n Hg Hu (l1 & l2 & El & Hd & Est). destruct (in_dec bytes_eq_dec n incl) as [Hi|Hi].
      - destruct (H4 n Hi) as (_ & _ & Hsince). specialize (Hsince Hg l1 l2 El Hd).
        exists l1, ((true, ARemove n) :: l2). split; [exact El|]. split; [rewrite El, app_length; lia|].
        cbn [answer]. split; [reflexivity|]. exists got. split; [reflexivity|]. rewrite <- Est.
        assert (Er1 : resource_of (log_cmds (f_log s)) = resource_of (log_cmds l1)).
        { rewrite El, log_cmds_app. apply resource_none. rewrite El in Hres. rewrite skipn_le_app in Hres by exact Hsince.
          rewrite existsb_app in Hres. apply orb_false_iff in Hres. apply Hres. }
        rewrite <- Er1. exists incl. split; [exact H2|]. split; [|exact HF]. intros n'. split; [intros H'; now apply H4|].
        intros Hv. destruct (Hin n' Hv) as [x Hx]. destruct (H5 n' x Hx Hv) as [|G]; [assumption|]. apply Hu in G. now subst n'.
      - assert (Eg : forall n', s_state (log_cmds (f_log s)) n' = if bytes_eqb n' n then None else st1 n').
        { intros n'. rewrite El. replace ((true, ARemove n) :: l2) with ([(true, ARemove n)] ++ l2) by reflexivity.
          rewrite log_cmds_app, log_cmds_app, app_assoc, direct_states by exact Hd.
          unfold log_cmds at 2. cbn [map snd atom_cmds flat_map app]. rewrite state_app. cbn [s_step existsb].
          rewrite orb_false_r. rewrite Est. reflexivity. }
        apply Whole.
        + intros n'. unfold visible at 1. rewrite Eg. destruct (bytes_eqb_spec n' n) as [->|Hne].
          * split; [contradiction|]. intros (e & E & _). discriminate.
          * split; [intros H'; now apply H4|]. intros Hv. destruct (Hin n' Hv) as [x Hx].
            destruct (H5 n' x Hx Hv) as [|G]; [assumption|]. apply Hu in G. contradiction.
        + intros n' e Hi' He. rewrite Eg. destruct (bytes_eqb_spec n' n) as [->|Hne]; [contradiction|exact He]. }
    unfold gone in *. destruct B as (I & Ev & Eu & Ee & Eres & Hm).
    destruct (f_pc s) as [|ps pn todo bad pending|todo pn|n' y todo pn|n' y todo pn|n' y todo pn|todo pn].
    - apply Simple; [now intros [n []]|apply Hm].
    - destruct Hm as ((dn & _ & Est) & _). apply Whole.
      + intros n. destruct (register_visible pn dn (s_state (log_cmds (f_log s))) n) as [R1 R2]. rewrite <- Est in R1, R2. split.
        * intros Hi. destruct (H4 n Hi) as (_ & Hv & _). destruct (s_state (log_cmds (f_log s)) n) as [e|] eqn:E; [|now apply R2 in Hv].
          destruct Hv as (e' & He' & Hne). exists e. split; [exact E|]. rewrite (R1 e eq_refl) in He'. now injection He' as <-.
        * intros (e & E & Hne). assert (Hv : visible st1 n) by (exists e; auto). destruct (Hin n Hv) as [x Hx].
          destruct (H5 n x Hx Hv) as [|[]]; assumption.
      + intros n e Hi He. destruct (register_visible pn dn (s_state (log_cmds (f_log s))) n) as [R1 R2]. rewrite <- Est in R1, R2.
        destruct (s_state (log_cmds (f_log s)) n) as [e'|] eqn:E; [rewrite <- (R1 e' eq_refl); congruence|].
        exfalso. apply R2; [reflexivity|]. now apply H4.
    - apply Simple; [now intros [n []]|apply Hm].
    - apply Simple; [now intros [n []]|apply Hm].
    - apply (Gone n'); [reflexivity|auto|]. destruct Hm as (_ & _ & Hm). exact Hm.
    - apply (Gone n'); [reflexivity|auto|]. destruct Hm as (_ & _ & Hm). exact Hm.
    - contradiction.
  Qed.

  (** ** Every step keeps the invariant *)

  Definition next_of (s : fstate) (w : wst) (p : pc) (l : list (bool * atom)) (st : list cmd) : fstate :=
    MkF w p (f_read s) (f_log s ++ l) st (f_reads s).

  Lemma INV_next s w' p' l st st1 w1 :
    INV s -> base (next_of s w' p' l st) st1 w1 -> reading (next_of s w' p' l st) st1 ->
    match l with
    | [] => True
    | [x] => atom_ok u0 (log_cmds (f_log s)) (snd x) /\ (fst x = false -> direct x)
    | _ => False
    end ->
    working (next_of s w' p' l st) -> INV (next_of s w' p' l st).
  Proof.
    intros I B R Hl W. constructor; [eauto| | | |exact W]; unfold next_of; cbn [f_log f_reads].
    - now apply reads_app, iv_reads.
    - destruct l as [|x [|]]; [rewrite app_nil_r; apply (iv_log _ I)| |contradiction]. apply log_ok_app; [apply (iv_log _ I)|apply Hl].
    - apply Forall_app. split; [apply (iv_direct _ I)|]. destruct l as [|x [|]]; [constructor| |contradiction].
      constructor; [apply Hl|constructor].
  Qed.

  Lemma reading_none s st1 : f_read s = None -> reading s st1.
  Proof. intros H. unfold reading. now rewrite H. Qed.

  Lemma log_cmds_one b a : log_cmds [(b, a)] = atom_cmds [a].
  Proof. reflexivity. Qed.

  Lemma direct_keep s c w' ex r :
    INV s -> direct (false, ACmd c RNone) ->
    w' = MkWS (w_u (f_w s)) (w_vis (f_w s)) (w_views (f_w s)) (w_meas (f_w s)) (w_subs (f_w s)) ex r ->
    ex = exporters (log_cmds (f_log s) ++ [c]) -> r = resource_of (log_cmds (f_log s) ++ [c]) ->
    (sets_resource (false, ACmd c RNone) = false -> r = w_res (f_w s)) ->
    answer u0 (log_cmds (f_log s)) c RNone [] ->
    INV (with_w s w' (f_pc s) [(false, ACmd c RNone)]).
  Proof.
    intros I D Ew Eex Er Hr Ha. destruct (iv_base _ I) as (st1 & w1 & B & R).
    set (x := (false, ACmd c RNone)) in *. change (with_w s w' (f_pc s) [x]) with (next_of s w' (f_pc s) [x] (f_started s)).
    assert (Elog : log_cmds (f_log s ++ [x]) = log_cmds (f_log s) ++ [c]) by (now rewrite log_cmds_app).
    assert (Est : s_state (log_cmds (f_log s ++ [x])) = s_state (log_cmds (f_log s))).
    { rewrite log_cmds_app. now apply direct_state. }
    apply INV_next with (st1 := st1) (w1 := MkWS (w_u w1) (w_vis w1) (w_views w1) (w_meas w1) (w_subs w1) ex r); [exact I| | | |].
    - destruct B as (W & Ev & Eu & Ee & Eres & Hm). unfold base, next_of. cbn [f_w f_log f_pc]. rewrite Est, Elog, Ew.
      cbn [w_views w_u w_exps w_res w_vis].
      split; [now apply WI_er|]. split; [exact Ev|]. split; [exact Eu|]. split; [exact Eex|]. split; [exact Er|].
      destruct (f_pc s) as [|ps pn todo bad [[p y]|]|todo pn|n' y todo pn|n' y todo pn|n' y todo pn|todo pn].
      + destruct Hm as [-> ->]. auto.
      + destruct Hm as (H1 & H2 & H3 & H4 & H5 & H6). repeat (split; [assumption|]). split; [|exact H6]. now apply subscribe_er.
      + destruct Hm as (H1 & H2 & H3 & H4 & ->). repeat (split; [assumption|]). reflexivity.
      + destruct Hm as [-> ->]. auto.
      + destruct Hm as (-> & -> & H). auto.
      + destruct Hm as (E & H & l1 & l2 & El & Hd & Es). split; [rewrite E; reflexivity|]. split; [exact H|].
        exists l1, (l2 ++ [x]). split; [rewrite El, <- app_assoc; reflexivity|]. split; [|exact Es]. apply Forall_app. auto.
      + destruct Hm as (E & H & l1 & l2 & El & Hd & Es). split; [rewrite E; reflexivity|]. split; [exact H|].
        exists l1, (l2 ++ [x]). split; [rewrite El, <- app_assoc; reflexivity|]. split; [|exact Es]. apply Forall_app. auto.
      + destruct Hm as [-> ->]. auto.
    - apply reading_mono with (s := s) (l := [x]); [exact R|reflexivity|now rewrite Ew|reflexivity| | | |].
      + cbn [next_of f_pc f_read]. unfold reading in R. destruct (f_pc s); auto. destruct (f_read s); [|reflexivity]. now destruct R.
      + intros n Hn. exact Hn.
      + intros from n Hf Hs Hg l1 l2 El Hd. cbn [next_of f_log] in El. destruct l2 as [|y l2] using rev_ind.
        * apply app_inj_tail in El. destruct El as [_ El]. discriminate.
        * rewrite app_comm_cons, app_assoc in El. apply app_inj_tail in El. destruct El as [El _].
          apply Forall_app in Hd. eapply Hs; [exact Hg|exact El|apply Hd].
      + cbn [existsb]. rewrite orb_false_r. intros H. rewrite Ew. cbn [next_of f_w w_res]. now apply Hr.
    - split; [exact Ha|auto].
    - pose proof (iv_working _ I) as W. unfold working, next_of in *. cbn [f_pc f_log f_started f_w] in *.
      assert (Ea : watoms (f_log s ++ [x]) = watoms (f_log s)) by (rewrite watoms_app; apply app_nil_r). rewrite Ea, Est, Ew. exact W.
  Qed.

  Lemma not_gone_since s from n : ~ gone s n -> gone_since s from n.
  Proof. intros H G. contradiction. Qed.

  Lemma idle_WIh s st1 w1 : base s st1 w1 -> f_pc s = PIdle -> w1 = f_w s /\ st1 = s_state (log_cmds (f_log s)) /\ WIh u0 (log_cmds (f_log s)) (f_w s).
  Proof.
    intros (W & _ & _ & Ee & Er & Hm) E. rewrite E in Hm. destruct Hm as [-> ->]. split; [reflexivity|]. split; [reflexivity|]. split; [exact W|auto].
  Qed.

  Lemma start_keep o s c : INV s -> f_pc s = PIdle -> cmd_ok u0 c ->
    match start o s c with Blocked => True | Panicked => False | Next s' => INV s' end.
  Proof.
    intros I Ep Hok. destruct (iv_base _ I) as (st1 & w1 & B & R). destruct (idle_WIh _ _ _ B Ep) as (-> & Est & W).
    pose proof (iv_working _ I) as Wk. unfold working in Wk. rewrite Ep in Wk.
    pose proof (watoms_state _ (iv_direct _ I)) as Ews.
    set (h := log_cmds (f_log s)) in *.
    assert (Whole : (forall r evs, answer u0 h c r evs -> evs = []) -> (forall l r, command_atoms u0 l c [ACmd c r]) ->
       (f_read s = None \/ (forall r evs w', handle o (f_w s) c = Some (r, evs, w') -> w' = f_w s) /\ s_step u0 (s_state h) c = s_state h) ->
       match (match handle o (f_w s) c with
               | Some (r, _, w) => Next (MkF w PIdle (f_read s) (f_log s ++ [(true, ACmd c r)]) (f_started s ++ [c]) (f_reads s))
               | None => Panicked
               end) with Blocked => True | Panicked => False | Next s' => INV s' end).
    { intros Hev Hca Hrd. destruct (handle_spec u0 U0 o h (f_w s) c W Hok) as (r & evs & w' & E & Ha & W'). rewrite E.
      change (MkF w' PIdle (f_read s) (f_log s ++ [(true, ACmd c r)]) (f_started s ++ [c]) (f_reads s))
        with (next_of s w' PIdle [(true, ACmd c r)] (f_started s ++ [c])).
      assert (El : log_cmds (f_log s ++ [(true, ACmd c r)]) = h ++ [c]) by (now rewrite log_cmds_app).
      destruct W' as (W1 & W2 & W3).
      apply INV_next with (st1 := s_state (h ++ [c])) (w1 := w'); [exact I| | | |].
      - unfold base. cbn [next_of f_log f_w f_pc]. rewrite El. auto 10.
      - destruct Hrd as [Hrd|[Hrd Hst]]; [now apply reading_none|]. apply Hrd in E. subst w'.
        apply reading_mono with (s := s) (l := [(true, ACmd c r)]); try reflexivity.
        + rewrite state_app, Hst, <- Est. exact R.
        + intros n Hn. unfold gone in Hn. rewrite Ep in Hn. contradiction.
        + intros from n _ _. now apply not_gone_since.
      - split; [|discriminate]. cbn [snd atom_ok]. rewrite (Hev _ _ Ha) in Ha. exact Ha.
      - unfold working. cbn [next_of f_pc f_log f_started]. rewrite watoms_app. cbn. apply wa_snoc; [exact Wk|apply Hca]. }
    unfold start. cbn [f_w f_pc f_read f_log f_started f_reads]. unfold with_w. cbn [f_w f_pc f_read f_log f_started f_reads].
    destruct c as [n|ps now|ns now|n|tm ms att t|d|now|now|e|e|r]; unfold locked; cbn [f_read].
    - apply Whole.
      + intros r evs H. apply H.
      + intros l r. now exists r.
      + right. split; [|reflexivity]. cbn [handle]. intros r evs w'. destruct (mget _ _ _) as [x|]; [|congruence].
        destruct (nth_error _ _); congruence.
    - (* Register *)
      destruct W as (W & Ee & Er). destruct (canon_all_spec u0 U0 ps (w_u (f_w s)) (wk_u _ _ _ W) Hok) as (u' & e & Ec & Hu & Hc & Hm).
      rewrite Ec. pose proof (WI_u u0 _ _ u' W Hu Hc) as W1.
      assert (Rd : forall p' l st, (match p' with PRegister _ _ _ _ _ | PIdle => True | _ => False end) -> existsb sets_resource l = false ->
                reading (next_of s (with_u (f_w s) u') p' l st) st1).
      { intros p' l st Hp Hl. apply reading_mono with (s := s) (l := l); try reflexivity.
        - exact R.
        - destruct p'; cbn; auto; contradiction.
        - intros n Hn. unfold gone in Hn. rewrite Ep in Hn. contradiction.
        - intros from n _ _. apply not_gone_since. unfold gone. cbn [next_of f_pc]. destruct p'; auto. }
      destruct (forallb (valid_view u0) ps) eqn:Ev.
      + destruct Hm as [-> Hall].
        change (INV (next_of s (with_u (f_w s) u') (PRegister ps now ps [] None) [] (f_started s ++ [CmdRegister ps now]))).
        apply INV_next with (st1 := st1) (w1 := with_u (f_w s) u'); [exact I| |now apply Rd|exact Logic.I|].
        * unfold base. cbn [next_of f_log f_w f_pc]. rewrite app_nil_r. fold h. rewrite Est. cbn [with_u w_exps w_res w_views w_u].
          repeat (split; [assumption || reflexivity|]). split; [exists []; auto|]. auto.
        * unfold working. cbn [next_of f_pc f_log f_started]. rewrite app_nil_r. exists (f_started s). auto.
      + destruct Hm as [er ->].
        change (INV (next_of s (with_u (f_w s) u') PIdle [(true, ACmd (CmdRegister ps now) (RRegister (Some (inl er))))] (f_started s ++ [CmdRegister ps now]))).
        assert (El : log_cmds (f_log s ++ [(true, ACmd (CmdRegister ps now) (RRegister (Some (inl er))))]) = h ++ [CmdRegister ps now]) by (now rewrite log_cmds_app).
        apply INV_next with (st1 := st1) (w1 := with_u (f_w s) u'); [exact I| |now apply Rd| |].
        * unfold base. cbn [next_of f_log f_w f_pc]. rewrite El, exporters_app, resource_app, state_app, Est. cbn [s_step]. rewrite Ev.
          cbn [with_u w_exps w_res w_views w_u]. auto 10.
        * split; [|discriminate]. cbn [snd atom_ok answer]. split; [reflexivity|]. rewrite Ev. eauto.
        * unfold working. cbn [next_of f_pc f_log f_started]. rewrite watoms_app. cbn. apply wa_snoc; [exact Wk|]. cbn. eauto.
    - (* Unregister *)
      change (INV (next_of s (f_w s) (PUnregister ns now) [] (f_started s ++ [CmdUnregister ns now]))).
      apply INV_next with (st1 := st1) (w1 := f_w s); [exact I| | |exact Logic.I|].
      + destruct W as (W & Ee & Er). unfold base. cbn [next_of f_log f_w f_pc]. rewrite app_nil_r. fold h. rewrite Est. auto 10.
      + apply reading_mono with (s := s) (l := []); try reflexivity.
        * exact R.
        * intros n Hn. unfold gone in Hn. rewrite Ep in Hn. contradiction.
        * intros from n _ _. now apply not_gone_since.
      + unfold working. cbn [next_of f_pc f_log f_started]. rewrite app_nil_r. exists (f_started s), ns, (watoms (f_log s)), [].
        rewrite app_nil_r. cbn [app]. auto.
    - destruct (f_read s) eqn:Erd; [exact Logic.I|]. apply Whole.
      + intros r evs H. apply H.
      + intros l r. now exists r.
      + now left.
    - destruct (f_read s) eqn:Erd; [exact Logic.I|]. apply Whole.
      + intros r evs H. apply H.
      + intros l r. now exists r.
      + now left.
    - apply Whole.
      + intros r evs H. apply H.
      + intros l r. now exists r.
      + right. split; [|reflexivity]. cbn [handle]. congruence.
    - (* Tick *)
      destruct (f_read s) eqn:Erd; [exact Logic.I|]. destruct W as (W & Ee & Er).
      change (INV (next_of (MkF (f_w s) (f_pc s) None (f_log s) (f_started s) (f_reads s)) (f_w s) (PTick (ord o _ (w_views (f_w s))) now) [] (f_started s ++ [CmdTick now]))).
      assert (Es : s = MkF (f_w s) (f_pc s) None (f_log s) (f_started s) (f_reads s)) by (rewrite <- Erd; now destruct s).
      rewrite <- Es.
      apply INV_next with (st1 := st1) (w1 := f_w s); [exact I| |now apply reading_none|exact Logic.I|].
      + unfold base. cbn [next_of f_log f_w f_pc]. rewrite app_nil_r. fold h. rewrite Est. auto 10.
      + unfold working. cbn [next_of f_pc f_log f_started f_w]. rewrite app_nil_r.
        destruct (names_perm u0 o _ _ W) as [HN HI]. exists (f_started s), (watoms (f_log s)), [], [].
        rewrite app_nil_r. cbn [app]. repeat (split; [auto; fail|]). split; [rewrite Ews; exact HN|]. auto.
    - exact Logic.I.
    - exact Logic.I.
    - exact Logic.I.
    - exact Logic.I.
  Qed.

  Lemma work_keep o s : INV s ->
    match work o s with
    | Blocked => f_pc s = PIdle \/ f_read s <> None
    | Panicked => False
    | Next s' => INV s'
    end.
  Proof.
    intros I. destruct (iv_base _ I) as (st1 & w1 & B & R). pose proof (iv_working _ I) as Wk. pose proof (watoms_state _ (iv_direct _ I)) as Ews.
    pose proof B as (W & Ev & Eu & Ee & Er & Hm). unfold work, locked. unfold working in Wk.
    assert (Rd : (forall n, ~ gone s n) -> forall w' p' l st, w_views w' = w_views (f_w s) -> w_res w' = w_res (f_w s) ->
                (match p' with PRegister _ _ _ _ _ | PIdle | PUnregister _ _ | PReported _ _ _ _ => True | PTick _ _ => f_read s = None | _ => False end) ->
                reading (next_of s w' p' l st) st1).
    { intros Hg w' p' l st Hv Hr Hp. apply reading_mono with (s := s) (l := l); try reflexivity; auto.
      - cbn. destruct p'; auto.
      - intros n Hn. now apply Hg in Hn.
      - intros from n _ _. apply not_gone_since. unfold gone. cbn [next_of f_pc]. destruct p'; auto. }
    unfold gone in Rd.
    destruct (f_pc s) as [|ps now todo bad pending|todo now|n x todo now|n x todo now|n x todo now|todo now] eqn:Ep.
    - now left.
    - destruct pending as [[p x]|].
      + destruct Hm as (H1 & H2 & H3 & H4 & Hsb & _). rewrite Hsb. pose proof (subscribe_view _ _ _ _ Hsb) as (S1 & S2 & S3 & S4 & _).
        enough (INV (next_of s w1 (PRegister ps now todo bad None) [] (f_started s))) by (destruct todo; assumption).
        apply INV_next with (st1 := st1) (w1 := w1); [exact I| |apply Rd; auto|exact Logic.I|].
        * unfold base. cbn [next_of f_log f_w f_pc]. rewrite app_nil_r, S3, S4. auto 15.
        * unfold working. cbn [next_of f_pc f_log f_started]. rewrite app_nil_r. exact Wk.
      + destruct todo as [|p todo].
        * destruct Hm as ((dn & Eps & Est) & H2 & H3 & H4 & ->). cbn [conflicts] in H3. rewrite app_nil_r in H3, Eps. subst dn.
          set (r := RRegister (match bad with [] => None | _ => Some (inr bad) end)).
          change (INV (next_of s (f_w s) PIdle [(true, ACmd (CmdRegister ps now) r)] (f_started s))).
          assert (El : log_cmds (f_log s ++ [(true, ACmd (CmdRegister ps now) r)]) = log_cmds (f_log s) ++ [CmdRegister ps now]) by (now rewrite log_cmds_app).
          apply INV_next with (st1 := st1) (w1 := f_w s); [exact I| |apply Rd; auto| |].
          -- unfold base. cbn [next_of f_log f_w f_pc]. rewrite El, exporters_app, resource_app, state_app. cbn [s_step]. rewrite H2.
             repeat (split; [assumption || reflexivity|]). exact Est.
          -- split; [|discriminate]. cbn [snd atom_ok answer]. split; [reflexivity|]. rewrite H2, H3. unfold r. now destruct bad.
          -- unfold working. cbn [next_of f_pc f_log f_started]. rewrite watoms_app. cbn. destruct Wk as (cs & -> & Wk).
             apply wa_snoc; [exact Wk|]. cbn. eauto.
        * destruct (f_read s) as [rd'|] eqn:Erd; [now right|]. destruct Hm as ((dn & Eps & Est) & H2 & H3 & H4 & ->).
          destruct (H4 p (or_introl eq_refl)) as [sv Hsv].
          destruct (try_register_spec st1 (f_w s) p now sv W Hsv) as (w2 & r & Et & Hr). rewrite Et.
          assert (Es : spec_view u0 p = Some sv).
          { destruct (wk_u _ _ _ W) as (_ & _ & U & _). rewrite <- U. apply Hsv. }
          destruct (register_one_spec u0 U0 st1 (f_w s) p now sv W Hsv) as (w3 & ok & Er1 & W3 & Eu3 & Ee3 & Er3 & Hok3).
          assert (Hpc : forall w' st pend b', (b' ++ conflicts u0 now (s_register u0 now st1 p) todo = bad ++ conflicts u0 now st1 (p :: todo)) ->
                    w_u w' = w_u (f_w s) -> w_exps w' = w_exps (f_w s) -> w_res w' = w_res (f_w s) -> w_views w3 = w_views w' ->
                    (match pend with None => w3 = w' | Some (p', x') => subscribe w' p' x' = Some w3 /\
                         exists vi, nth_error (w_vis w') x' = Some vi /\ (vi_sub vi = true \/ vi_sigs vi = []) end) ->
                    st = f_started s -> INV (next_of s w' (PRegister ps now todo b' pend) [] st)).
          { intros w' st pend b' Hcf Ewu Ewe Ewr Ewv Hpend ->.
            apply INV_next with (st1 := s_register u0 now st1 p) (w1 := w3); [exact I| |now apply reading_none|exact Logic.I|].
            - unfold base. cbn [next_of f_log f_w f_pc]. rewrite app_nil_r. split; [exact W3|]. split; [exact Ewv|]. split; [congruence|].
              split; [congruence|]. split; [congruence|]. split.
              { exists (dn ++ [p]). rewrite <- app_assoc. split; [exact Eps|]. rewrite fold_left_app, <- Est. reflexivity. }
              split; [exact H2|]. split; [congruence|]. split; [|exact Hpend]. rewrite Eu3. intros q Hq. apply H4. now right.
            - unfold working. cbn [next_of f_pc f_log f_started]. rewrite app_nil_r. exact Wk. }
          assert (Hcf : conflicts u0 now st1 (p :: todo) = (if ok then [] else [p]) ++ conflicts u0 now (s_register u0 now st1 p) todo).
          { cbn [conflicts]. rewrite Es. rewrite Hok3. unfold s_register. rewrite Es. destruct (st1 (sv_name sv)) as [e|]; [|reflexivity].
            destruct (same_view u0 (en_view e) p); reflexivity. }
          unfold with_w. rewrite Erd. destruct r as [x|].
          -- destruct Hr as (w4 & vi & Hsb & Er4 & R1 & R2 & R3 & R4 & R5). rewrite Er4 in Er1. injection Er1 as -> <-.
             replace (MkF _ _ _ _ _ _) with (next_of s w2 (PRegister ps now todo bad (Some (p, x))) [] (f_started s)) by (unfold next_of; now rewrite Erd).
             pose proof (subscribe_view _ _ _ _ Hsb) as (S1 & _). apply Hpc; auto; [now rewrite Hcf|]. eauto.
          -- destruct Hr as [-> (e & He & Hsame)]. rewrite He, Hsame in Hok3. subst ok.
             replace (MkF _ _ _ _ _ _) with (next_of s (f_w s) (PRegister ps now todo (bad ++ [p]) None) [] (f_started s)) by (unfold next_of; now rewrite Erd).
             assert (Est3 : s_register u0 now st1 p = st1) by (unfold s_register; now rewrite Es, He).
             assert (w3 = f_w s) as ->.
             { unfold try_register in Et. unfold register_one in Er1. destruct (nth_error (u_views (w_u (f_w s))) p) as [v|]; [|discriminate].
               destruct (view_to_metric_descriptor (w_u (f_w s)) v); [|discriminate]. destruct (v_agg v); [|discriminate]. destruct (v_measure v) as [me|]; [|discriminate].
               destruct (mget bytes_eqb (w_views (f_w s)) (v_name v)) as [y|]; [|discriminate].
               destruct (nth_error (w_vis (f_w s)) y) as [yi|]; [|discriminate].
               destruct (same (w_u (f_w s)) (vi_view yi) p); [discriminate|]. destruct (me_kind me); try discriminate; now injection Er1 as <-. }
             apply Hpc; auto. rewrite Hcf. cbn [app]. now rewrite <- app_assoc.
    - destruct Hm as [-> Est]. destruct Wk as (cs & ns & l & l' & E1 & E2 & E3 & E4). destruct todo as [|n todo].
      + change (INV (next_of s (f_w s) PIdle [] (f_started s))).
        apply INV_next with (st1 := st1) (w1 := f_w s); [exact I| |apply Rd; auto|exact Logic.I|].
        * unfold base. cbn [next_of f_log f_w f_pc]. rewrite app_nil_r. auto 10.
        * unfold working. cbn [next_of f_pc f_log f_started]. rewrite app_nil_r, E1, E2. apply wa_snoc; [exact E3|].
          cbn [command_atoms]. rewrite <- (app_nil_r l'). now apply E4.
      + destruct (mget bytes_eqb (w_views (f_w s)) n) as [x|] eqn:Ex.
        * destruct (reg_entry u0 _ _ _ _ W Ex) as (e & _ & _ & He & _).
          destruct (report_ok u0 o st1 (f_w s) n x e now W Ex He) as (evs & -> & Hb).
          change (INV (next_of s (f_w s) (PReported n x todo now) [(true, AExport n now evs)] (f_started s))).
          assert (El : log_cmds (f_log s ++ [(true, AExport n now evs)]) = log_cmds (f_log s)) by (rewrite log_cmds_app; apply app_nil_r).
          apply INV_next with (st1 := st1) (w1 := f_w s); [exact I| |apply Rd; auto| |].
          -- unfold base. cbn [next_of f_log f_w f_pc]. rewrite El. auto 10.
          -- split; [|discriminate]. cbn [snd atom_ok]. exists e. rewrite <- Est, <- Ee. auto.
          -- unfold working. cbn [next_of f_pc f_log f_started]. exists cs, ns, l, (l' ++ [AExport n now evs]).
             rewrite watoms_app. cbn [watoms filter fst map snd]. split; [exact E1|]. split; [rewrite E2; now rewrite app_assoc|]. split; [exact E3|].
             intros k Hk. rewrite atom_cmds_app in Hk. cbn [atom_cmds flat_map] in Hk. rewrite app_nil_r in Hk.
             rewrite <- app_assoc. apply E4. cbn [unregister_atoms]. rewrite Ews, <- Est, He. exists evs, k. auto.
        * assert (Hst : st1 n = None) by (now apply (st_none u0 _ _ _ W)).
          change (INV (next_of s (f_w s) (PUnregister todo now) [] (f_started s))).
          apply INV_next with (st1 := st1) (w1 := f_w s); [exact I| |apply Rd; auto|exact Logic.I|].
          -- unfold base. cbn [next_of f_log f_w f_pc]. rewrite app_nil_r. auto 10.
          -- unfold working. cbn [next_of f_pc f_log f_started]. rewrite app_nil_r. exists cs, ns, l, l'. repeat (split; [assumption|]).
             intros k Hk. apply E4. cbn [unregister_atoms]. rewrite Ews, <- Est, Hst. exact Hk.
    - destruct Hm as (-> & Est & Ex). destruct Wk as (cs & ns & l & l' & E1 & E2 & E3 & E4).
      change (INV (next_of s (unsubscribe (f_w s) x) (PUnsubscribed n x todo now) [(true, ARemove n)] (f_started s))).
      assert (El : log_cmds (f_log s ++ [(true, ARemove n)]) = log_cmds (f_log s) ++ [CmdUnregister [n] 0%Z]) by (now rewrite log_cmds_app).
      apply INV_next with (st1 := st1) (w1 := f_w s); [exact I| | | |].
      + unfold base. cbn [next_of f_log f_w f_pc]. rewrite El, exporters_app, resource_app. cbn [unsubscribe set_vi w_views w_u w_exps w_res].
        repeat (split; [assumption || reflexivity|]). exists (f_log s), []. auto.
      + apply reading_mono with (s := s) (l := [(true, ARemove n)]); try reflexivity.
        * exact R.
        * intros n' Hn. unfold gone in Hn. rewrite Ep in Hn. contradiction.
        * intros from n' Hf _ Hg l1 l2 E Hd. cbn [next_of f_log] in E. unfold gone in Hg. cbn [next_of f_pc] in Hg. subst n'.
          destruct l2 as [|y l2] using rev_ind; [apply app_inj_tail in E; destruct E as [<- _]; exact Hf|].
          rewrite app_comm_cons, app_assoc in E. apply app_inj_tail in E. destruct E as [_ <-].
          apply Forall_app in Hd. destruct Hd as [_ Hd]. inversion Hd as [|? ? [Hd' _] _]. discriminate.
      + split; [|discriminate]. cbn [snd atom_ok]. rewrite <- Est. destruct (reg_entry u0 _ _ _ _ W Ex) as (e & _ & _ & He & _). congruence.
      + unfold working. cbn [next_of f_pc f_log f_started]. exists cs, ns, l, (l' ++ [ARemove n]). rewrite watoms_app. cbn [watoms filter fst map snd].
        split; [exact E1|]. split; [rewrite E2; now rewrite app_assoc|]. split; [exact E3|].
        intros k Hk. rewrite atom_cmds_app in Hk. rewrite <- app_assoc. apply E4. exact Hk.
    - destruct Hm as (E & Ex & Hl).
      change (INV (next_of s (clear_rows (f_w s) x) (PCleared n x todo now) [] (f_started s))).
      apply INV_next with (st1 := st1) (w1 := w1); [exact I| | |exact Logic.I|].
      + unfold base. cbn [next_of f_log f_w f_pc]. rewrite app_nil_r. cbn [clear_rows set_vi w_views w_u w_exps w_res].
        repeat (split; [assumption|]). split; [now rewrite <- E|]. auto.
      + apply reading_mono with (s := s) (l := []); try reflexivity.
        * exact R.
        * intros n' Hn. unfold gone in *. rewrite Ep in Hn. exact Hn.
        * intros from n' Hf Hs Hg l1 l2 El Hd. cbn [next_of f_log] in El. rewrite app_nil_r in El.
          eapply Hs; [|exact El|exact Hd]. unfold gone in *. rewrite Ep. exact Hg.
      + unfold working. cbn [next_of f_pc f_log f_started]. rewrite app_nil_r. exact Wk.
    - destruct (f_read s) as [rd'|] eqn:Erd; [now right|]. destruct Hm as (E & Ex & l1 & l2 & El & Hd & Est).
      destruct (unregister_steps st1 w1 n x W Ex) as (w' & Hw & W' & We & Wr). rewrite <- E in Hw. rewrite Hw.
      unfold with_w. rewrite Erd.
      replace (MkF _ _ _ _ _ _) with (next_of s w' (PUnregister todo now) [] (f_started s)) by (unfold next_of; now rewrite Erd).
      apply INV_next with (st1 := s_state (log_cmds (f_log s))) (w1 := w'); [exact I| |now apply reading_none|exact Logic.I|].
      + unfold base. cbn [next_of f_log f_w f_pc]. rewrite app_nil_r.
        assert (X1 : w_exps w1 = w_exps (f_w s)) by (rewrite E; reflexivity). assert (X2 : w_res w1 = w_res (f_w s)) by (rewrite E; reflexivity).
        split; [|repeat (split; [congruence|]); auto].
        eapply WI_ext; [|exact W']. intros n'. rewrite El. replace ((true, ARemove n) :: l2) with ([(true, ARemove n)] ++ l2) by reflexivity.
        rewrite log_cmds_app, log_cmds_app, app_assoc, direct_states by exact Hd. unfold log_cmds at 2. cbn [map snd atom_cmds flat_map app].
        rewrite state_app. cbn [s_step existsb]. rewrite orb_false_r, Est. unfold s_set.
        destruct (bytes_eqb_spec n n'), (bytes_eqb_spec n' n); congruence.
      + unfold working. cbn [next_of f_pc f_log f_started]. rewrite app_nil_r. exact Wk.
    - destruct Hm as [-> Est]. destruct Wk as (cs & l & l' & ns & E1 & E2 & E3 & E4 & E5 & E6 & E7).
      assert (Erd : f_read s = None). { unfold reading in R. rewrite Ep in R. destruct (f_read s); [now destruct R|reflexivity]. }
      destruct todo as [|[n x] todo].
      + change (INV (next_of s (f_w s) PIdle [] (f_started s))).
        apply INV_next with (st1 := st1) (w1 := f_w s); [exact I| |apply Rd; auto|exact Logic.I|].
        * unfold base. cbn [next_of f_log f_w f_pc]. rewrite app_nil_r. auto 10.
        * unfold working. cbn [next_of f_pc f_log f_started]. rewrite app_nil_r, E1, E2. apply wa_snoc; [exact E3|].
          cbn [command_atoms]. exists ns. cbn [map] in E4. rewrite app_nil_r in E4. auto.
      + pose proof (E7 n x (or_introl eq_refl)) as Ex. destruct (reg_entry u0 _ _ _ _ W Ex) as (e & _ & _ & He & _).
        destruct (report_ok u0 o st1 (f_w s) n x e now W Ex He) as (evs & -> & Hb).
        change (INV (next_of s (f_w s) (PTick todo now) [(true, AExport n now evs)] (f_started s))).
        assert (El : log_cmds (f_log s ++ [(true, AExport n now evs)]) = log_cmds (f_log s)) by (rewrite log_cmds_app; apply app_nil_r).
        apply INV_next with (st1 := st1) (w1 := f_w s); [exact I| |apply Rd; auto| |].
        * unfold base. cbn [next_of f_log f_w f_pc]. rewrite El. auto 10.
        * split; [|discriminate]. cbn [snd atom_ok]. exists e. rewrite <- Est, <- Ee. auto.
        * unfold working. cbn [next_of f_pc f_log f_started f_w]. exists cs, l, (l' ++ [AExport n now evs]), (ns ++ [n]).
          rewrite watoms_app, El. cbn [watoms filter fst map snd]. split; [exact E1|]. split; [rewrite E2; now rewrite app_assoc|]. split; [exact E3|].
          split; [rewrite <- app_assoc; exact E4|]. split; [apply Forall2_app; [exact E5|constructor; [eauto|constructor]]|].
          split; [exact E6|]. intros n' x' Hi. apply E7. now right.
  Qed.

  Lemma fstep_keep s a : INV s -> fop_ok u0 a ->
    match fstep s a with Blocked => True | Panicked => False | Next s' => INV s' end.
  Proof.
    intros I Hok. destruct a as [o c|o|c|o now|o|]; cbn [fstep fop_ok] in *.
    - destruct (f_pc s) eqn:Ep; auto. now apply start_keep.
    - pose proof (work_keep o s I) as H. destruct (work o s); auto.
    - destruct (iv_base _ I) as (st1 & w1 & (_ & _ & _ & Ee & Er & _) & _).
      destruct c as [n|ps now|ns now|n|tm ms att t|d|now|now|e|e|r]; auto; cbn [handle];
        (eapply direct_keep; [exact I|split; [reflexivity|exact Logic.I]|reflexivity| | | |split; reflexivity]);
        rewrite ?exporters_app, ?resource_app; cbn; try congruence; try now rewrite Ee. 
    - destruct (f_read s) eqn:Erd; [exact Logic.I|].
      enough (X : (match f_pc s with PTick _ _ => False | _ => True end) ->
        INV (MkF (f_w s) (f_pc s) (Some (MkRd (length (f_log s)) now None (ord o _ (w_views (f_w s))) [])) (f_log s) (f_started s) (f_reads s))).
      { destruct (f_pc s); auto. }
      intros Hp. destruct (iv_base _ I) as (st1 & w1 & B & _). constructor; try apply I.
      exists st1, w1. split; [exact B|]. unfold reading. cbn [f_read f_pc f_log f_w rd_from rd_now rd_cur rd_todo rd_got cur_list app].
      split; [exact Hp|]. split; [lia|]. exists [], []. cbn [app map]. split; [apply ord_perm|]. split; [constructor|]. split; [constructor|].
      split; [intros n []|]. split; [intros n x []|discriminate].
    - destruct (f_read s) as [r|] eqn:Erd; [|exact Logic.I]. destruct (iv_base _ I) as (st1 & w1 & B & R).
      pose proof (read_keep o s st1 w1 r B R Erd) as H. destruct (read_step o s r) as [| |s']; auto.
      destruct H as (R' & E1 & E2 & E3 & E4 & E5). constructor.
      + exists st1, w1. split; [|exact R']. unfold base in *. now rewrite E1, E2, E3.
      + rewrite E3, E5. apply I.
      + rewrite E3. apply I.
      + rewrite E3. apply I.
      + pose proof (iv_working _ I) as W. unfold working in *. now rewrite E1, E2, E3, E4.
    - destruct (f_read s) as [[from now cur todo got]|] eqn:Erd; [|exact Logic.I]. destruct cur; [exact Logic.I|]. destruct todo; [|exact Logic.I].
      destruct (iv_base _ I) as (st1 & w1 & B & R). constructor; try apply I.
      + exists st1, w1. split; [exact B|]. now apply reading_none.
      + cbn [f_log f_reads]. apply Forall_app. split; [apply I|]. constructor; [|constructor]. eapply read_done; eassumption.
  Qed.

  Lemma INV_init : INV (finit u0).
  Proof.
    constructor.
    - exists (fun _ => None), (new_meter u0). split; [|now apply reading_none]. unfold base. cbn.
      split; [apply WI_init|]. auto 10.
    - constructor.
    - intros l1 b a l2 E. destruct l1; discriminate.
    - constructor.
    - constructor.
  Qed.

  Lemma frun_INV l : forall s s', INV s -> Forall (fop_ok u0) l -> frun s l = Some s' -> INV s'.
  Proof.
    induction l as [|a l IH]; intros s s' I Hl E; cbn [frun] in E; [congruence|]. inversion Hl as [|? ? Ha Hl']; subst.
    pose proof (fstep_keep s a I Ha) as H. destruct (fstep s a) as [| |s1]; try discriminate. now apply (IH s1).
  Qed.
End Inv.
