(** C78: what is recorded is what was passed to Record. *)

From Coq Require Import String.
From Coq Require Import List Arith ZArith Bool Lia Sorted ZifyBool ZifyNat.
From Verif Require Import Base ListLib GoMap Float64 TagModel AggModel AggProofs ViewModel WorkerModel SliceViewModel SliceViewSpec SliceViewProofs RecordAliasModel.
Import ListNotations.
Open Scope nat_scope.

(** ** Specification *)

(** A call of Record: what it was given, at that moment. *)
Record rcall : Type := MkCall { rc_tags : option tmap; rc_ms : list measurement; rc_att : attachments; rc_t : time }.

Definition att_now (s : rstate) (att : option nat) : attachments := match att with Some p => nth p (rs_maps s) [] | None => [] end.
Definition call_of (s : rstate) (o : rop) : option rcall :=
  match o with
  | RRecord tags sl att t => Some (MkCall tags (sread (rs_arrs s) sl) (att_now s att) t)
  | RRecordArgs tags ms att t => Some (MkCall tags ms (att_now s att) t)
  | _ => None
  end.
Definition is_call (o : rop) : bool := match o with RRecord _ _ _ _ | RRecordArgs _ _ _ _ => true | _ => false end.

(** The program writes to an element of the slice it passed to the call [o]. *)
Definition overwrites (o w : rop) : Prop :=
  match o, w with
  | RRecord _ sl _ _, RSetElem a i _ => a = sl_arr sl /\ sl_off sl <= i < sl_off sl + sl_len sl
  | _, _ => False
  end.
(** It writes to the attachments. *)
Definition rewrites (o w : rop) : Prop :=
  match o, w with
  | RRecord _ _ (Some p) _, RSetMap p' _ | RRecordArgs _ _ (Some p) _, RSetMap p' _ => p = p'
  | _, _ => False
  end.

(** What the worker has read for call number [c], with the attachments as an exemplar would
    show them now. *)
Definition seen (s : rstate) (c : nat) : list rsample := filter (fun e => sa_call e =? c) (rs_log s).
Definition sample_of (cl : rcall) (m : measurement) : option tmap * measurement * time := (rc_tags cl, m, rc_t cl).
Definition read_as (e : rsample) : option tmap * measurement * time := (sa_tags e, sa_m e, sa_t e).
Definition idle (s : rstate) : Prop := rs_queue s = [] /\ rs_cur s = None.

(** ** Proofs *)

Definition pending (s : rstate) : list (nat * rreq * nat) :=
  (match rs_cur s with Some x => [x] | None => [] end) ++ map (fun x => (x, 0)) (rs_queue s).

Definition ids (s : rstate) : list nat := map (fun x => fst (fst x)) (pending s).
Arguments ids : simpl never.
Arguments seen : simpl never.

(** The calls are handled one after the other, in the order they were made. *)
Record RI (s : rstate) : Prop := {
  ri_sorted : StronglySorted lt (ids s);
  ri_ids : Forall (fun c => c < rs_calls s) (ids s);
  ri_log : Forall (fun e => sa_call e < rs_calls s) (rs_log s);
  ri_queue : Forall (fun x => Forall (fun e => sa_call e < fst x) (rs_log s)) (rs_queue s);
  ri_cur : match rs_cur s with Some (c, _, _) => Forall (fun e => sa_call e <= c) (rs_log s) | None => True end;
  ri_order : StronglySorted le (map sa_call (rs_log s)) }.

Lemma SS_app {A} (R : A -> A -> Prop) l x : StronglySorted R l -> Forall (fun y => R y x) l -> StronglySorted R (l ++ [x]).
Proof.
  induction 1 as [|y l H IH Hy]; intros F; cbn; [repeat constructor|]. inversion F; subst. constructor; [now apply IH|].
  apply Forall_app. split; [exact Hy|]. now constructor.
Qed.

Lemma ids_eq s : ids s = (match rs_cur s with Some (c, _, _) => [c] | None => [] end) ++ map fst (rs_queue s).
Proof.
  unfold ids, pending. rewrite map_app, map_map. cbn. f_equal. now destruct (rs_cur s) as [[[c q] i]|].
Qed.

Lemma RI_init : RI ra_init.
Proof. split; cbn; constructor. Qed.

Lemma RI_send s arrs hid q : RI s -> RI (ra_send s arrs hid q).
Proof.
  intros [H1 H2 H3 H4 H5 H6]. rewrite ids_eq in *. split; rewrite ?ids_eq; cbn; auto.
  - rewrite map_app, app_assoc. apply SS_app; [exact H1|exact H2].
  - rewrite map_app, app_assoc. apply Forall_app. split; [eapply Forall_impl; [|exact H2]; cbn; lia|]. repeat constructor.
  - eapply Forall_impl; [|exact H3]. cbn. lia.
  - apply Forall_app. split; [exact H4|]. constructor; [exact H3|constructor].
Qed.

Lemma RI_step s o s' : RI s -> ra_step s o = Some s' -> RI s'.
Proof.
  intros I E. destruct o; cbn [ra_step] in E.
  - injection E as <-. destruct I. split; auto.
  - destruct (existsb _ _); [discriminate E|]. destruct (nth_error _ _) as [l|]; [|discriminate E]. destruct (_ <? _); [|discriminate E].
    injection E as <-. destruct I. split; auto.
  - injection E as <-. destruct I. split; auto.
  - destruct (_ <? _); [|discriminate E]. injection E as <-. destruct I. split; auto.
  - destruct (_ && _); [|discriminate E]. injection E as <-. now apply RI_send.
  - destruct (match att with Some p => _ | None => _ end); [|discriminate E]. injection E as <-. now apply RI_send.
  - destruct (rs_cur s) as [x|] eqn:Ec; [discriminate E|]. destruct (rs_queue s) as [|[c q] r] eqn:Eq; [discriminate E|]. injection E as <-.
    destruct I as [H1 H2 H3 H4 H5 H6]. rewrite ids_eq, Ec, Eq in *. inversion H4; subst. split; rewrite ?ids_eq; cbn in *; auto.
    eapply Forall_impl; [|eassumption]. cbn. lia.
  - destruct (rs_cur s) as [[[c q] i]|] eqn:Ec; [|discriminate E]. destruct (nth_error _ _) as [m|].
    + injection E as <-. destruct I as [H1 H2 H3 H4 H5 H6]. rewrite ids_eq, Ec in *. cbn in H1, H2, H5. inversion H1 as [|? ? Hq Hlt]; subst. inversion H2; subst.
      split; rewrite ?ids_eq; cbn; auto.
      * apply Forall_app. split; [exact H3|]. constructor; [assumption|constructor].
      * rewrite Forall_forall in *. intros x Hx. apply Forall_app. split; [now apply H4|]. constructor; [|constructor]. cbn. apply Hlt. now apply in_map.
      * apply Forall_app. split; [exact H5|]. repeat constructor.
      * rewrite map_app. apply SS_app; [exact H6|]. apply Forall_map. exact H5.
    + injection E as <-. destruct I as [H1 H2 H3 H4 H5 H6]. rewrite ids_eq, Ec in *. cbn in H1, H2, H5. inversion H1; subst. inversion H2; subst.
      split; rewrite ?ids_eq; cbn; auto.
Qed.

Lemma RI_run ops : forall s s', RI s -> ra_run s ops = Some s' -> RI s'.
Proof.
  induction ops as [|o r IH]; intros s s' I E; cbn in E; [now injection E as <-|].
  destruct (ra_step s o) as [s1|] eqn:E1; [|discriminate E]. exact (IH _ _ (RI_step _ _ _ I E1) E).
Qed.

Lemma calls_step s o s' : ra_step s o = Some s' -> rs_calls s' = rs_calls s + (if is_call o then 1 else 0).
Proof.
  intros E. destruct o; cbn [ra_step] in E; cbn [is_call].
  - injection E as <-. cbn. lia.
  - destruct (existsb _ _); [discriminate E|]. destruct (nth_error _ _); [|discriminate E]. destruct (_ <? _); [|discriminate E]. injection E as <-. cbn. lia.
  - injection E as <-. cbn. lia.
  - destruct (_ <? _); [|discriminate E]. injection E as <-. cbn. lia.
  - destruct (_ && _); [|discriminate E]. injection E as <-. cbn. lia.
  - destruct (match att with Some p => _ | None => _ end); [|discriminate E]. injection E as <-. cbn. lia.
  - destruct (rs_cur s); [discriminate E|]. destruct (rs_queue s) as [|[c q] r]; [discriminate E|]. injection E as <-. cbn. lia.
  - destruct (rs_cur s) as [[[c q] i]|]; [|discriminate E]. destruct (nth_error _ _); injection E as <-; cbn; lia.
Qed.

Lemma calls_run ops : forall s s', ra_run s ops = Some s' -> rs_calls s' = rs_calls s + List.length (filter is_call ops).
Proof.
  induction ops as [|o r IH]; intros s s' E; cbn in E; [injection E as <-; cbn; lia|].
  destruct (ra_step s o) as [s1|] eqn:E1; [|discriminate E]. rewrite (IH _ _ E), (calls_step _ _ _ E1). cbn [filter]. destruct (is_call o); cbn; lia.
Qed.

Lemma window_upd {A} (f : A -> A) : forall (l : list A) off len i, ~ off <= i < off + len -> firstn len (skipn off (upd l i f)) = firstn len (skipn off l).
Proof.
  induction l as [|x l IH]; intros off len i H; [reflexivity|]. destruct off as [|off], i as [|i]; cbn [upd skipn].
  - destruct len as [|len]; [reflexivity|lia].
  - destruct len as [|len]; [reflexivity|]. cbn [firstn]. f_equal. apply (IH 0 len i). lia.
  - reflexivity.
  - apply IH. lia.
Qed.

Lemma sread_set (h : list (list measurement)) a i m sl : ~ (a = sl_arr sl /\ sl_off sl <= i < sl_off sl + sl_len sl) ->
  sread (upd h a (fun l => upd l i (fun _ => m))) sl = sread h sl.
Proof.
  intros H. unfold sread. rewrite nth_upd. destruct (Nat.eqb_spec a (sl_arr sl)) as [E|E]; [|reflexivity]. destruct (_ <? _); [|reflexivity]. cbn [andb].
  apply window_upd. intros K. apply H. auto.
Qed.

Lemma fits_set (h : list (list measurement)) a i m sl : fits h sl -> fits (upd h a (fun l => upd l i (fun _ => m))) sl.
Proof. unfold fits. rewrite nth_upd. destruct (_ && _); [|auto]. now rewrite upd_length. Qed.

(** How far call [c] is. *)
Record TI (o : rop) (c : nat) (q : rreq) (ms : list measurement) (s : rstate) : Prop := {
  ti_slice : match o with RRecord _ sl _ _ => rq_ms q = sl | _ => In (sl_arr (rq_ms q)) (rs_hidden s) end;
  ti_hid : forall a, In a (rs_hidden s) -> a < List.length (rs_arrs s);
  ti_fits : fits (rs_arrs s) (rq_ms q);
  ti_len : sl_len (rq_ms q) = List.length ms;
  ti_k : exists k, k <= List.length ms /\ seen s c = map (fun m => MkSample c (rq_tags q) m (rq_att q) (rq_t q)) (firstn k ms) /\
     (k < List.length ms -> sread (rs_arrs s) (rq_ms q) = ms) /\
     (k = 0 /\ In (c, q) (rs_queue s) \/ rs_cur s = Some (c, q, k) \/ k = List.length ms /\ ~ In c (ids s)) }.

Lemma seen_length o c q ms s : TI o c q ms s -> forall k, seen s c = map (fun m => MkSample c (rq_tags q) m (rq_att q) (rq_t q)) (firstn k ms) -> k <= List.length ms ->
  List.length (seen s c) = k.
Proof. intros _ k -> H. rewrite map_length, firstn_length. lia. Qed.

Lemma firstn_S_nth {A} (l : list A) k x : nth_error l k = Some x -> firstn (S k) l = firstn k l ++ [x].
Proof. revert k. induction l as [|y l IH]; intros [|k] E; cbn in E |- *; try discriminate E; [now injection E as ->|]. f_equal. now apply IH. Qed.

Lemma seen_log s s' c l : rs_log s' = rs_log s ++ l -> seen s' c = seen s c ++ filter (fun e => sa_call e =? c) l.
Proof. intros E. unfold seen. now rewrite E, filter_app. Qed.

Lemma TI_frame o c q ms s s' : TI o c q ms s -> rs_hidden s' = rs_hidden s -> rs_queue s' = rs_queue s -> rs_cur s' = rs_cur s -> rs_log s' = rs_log s ->
  List.length (rs_arrs s') >= List.length (rs_arrs s) -> fits (rs_arrs s') (rq_ms q) ->
  (sread (rs_arrs s') (rq_ms q) = sread (rs_arrs s) (rq_ms q) \/ List.length (seen s c) = List.length ms) -> TI o c q ms s'.
Proof.
  intros [T1 T2 T3 T4 (k & K1 & K2 & K3 & K4)] E1 E2 E3 E4 L F H. split; rewrite ?E1; auto.
  - intros a Ha. specialize (T2 a Ha). lia.
  - exists k. assert (Es : seen s' c = seen s c) by (unfold seen; now rewrite E4). rewrite Es.
    assert (Ei : ids s' = ids s) by (rewrite !ids_eq, E2, E3; reflexivity). rewrite Ei, E2, E3. repeat split; auto.
    intros Hk. destruct H as [H|H]; [rewrite H; auto|]. rewrite K2, map_length, firstn_length in H. lia.
Qed.

Lemma ids_send s arrs hid q : ids (ra_send s arrs hid q) = ids s ++ [rs_calls s].
Proof. rewrite !ids_eq. cbn [ra_send rs_cur rs_queue]. rewrite map_app, app_assoc. reflexivity. Qed.

Lemma TI_send o c q ms s arrs hid q' : TI o c q ms s -> c < rs_calls s -> (forall a, In a hid -> a < List.length arrs) -> incl (rs_hidden s) hid ->
  fits arrs (rq_ms q) -> sread arrs (rq_ms q) = sread (rs_arrs s) (rq_ms q) -> TI o c q ms (ra_send s arrs hid q').
Proof.
  intros [T1 T2 T3 T4 (k & K1 & K2 & K3 & K4)] Hc Hh Hi F H. split; cbn; auto.
  - destruct o; auto.
  - exists k. repeat split; auto; [intros Hk; rewrite H; auto|]. destruct K4 as [[K4 K5]|[K4|[K4 K5]]].
    + left. split; [exact K4|]. apply in_or_app. now left.
    + right. now left.
    + right. right. split; [exact K4|]. fold (ra_send s arrs hid q'). rewrite ids_send. intros K. apply in_app_or in K.
      destruct K as [K|[K|[]]]; [exact (K5 K)|lia].
Qed.

Lemma TI_step o c q ms s w s' : RI s -> c < rs_calls s -> TI o c q ms s -> ra_step s w = Some s' ->
  (overwrites o w -> List.length (seen s c) = List.length ms) -> TI o c q ms s'.
Proof.
  intros I Hc T E Hw. pose proof T as [T1 T2 T3 T4 (k & K1 & K2 & K3 & K4)]. destruct w as [l|a i m|m|p m|tags sl att t|tags l att t| |]; cbn [ra_step] in E.
  - injection E as <-. apply (TI_frame _ _ _ _ s); auto; cbn.
    + rewrite app_length. lia.
    + now apply fits_new.
    + left. now apply read_new.
  - destruct (existsb _ _) eqn:Eh; [discriminate E|]. destruct (nth_error _ _) as [l|] eqn:El; [|discriminate E]. destruct (_ <? _); [|discriminate E].
    injection E as <-. apply (TI_frame _ _ _ _ s); auto; cbn.
    + rewrite upd_length. lia.
    + now apply fits_set.
    + assert (Hn : sl_arr (rq_ms q) = a -> match o with RRecord _ _ _ _ => True | _ => False end).
      { intros Ea. assert (Hh : ~ In a (rs_hidden s)). { intros Hin. assert (X : existsb (Nat.eqb a) (rs_hidden s) = true) by (apply existsb_exists; exists a; split; [exact Hin|apply Nat.eqb_refl]). rewrite X in Eh. discriminate Eh. }
        destruct o; auto; apply Hh; rewrite <- Ea; exact T1. }
      destruct (Nat.eq_dec a (sl_arr (rq_ms q))) as [Ea|Ea]; [|left; apply sread_set; tauto].
      destruct (le_lt_dec (sl_off (rq_ms q)) i) as [L1|L1]; [|left; apply sread_set; lia].
      destruct (le_lt_dec (sl_off (rq_ms q) + sl_len (rq_ms q)) i) as [L2|L2]; [left; apply sread_set; lia|].
      right. apply Hw. specialize (Hn (eq_sym Ea)). destruct o; try contradiction. cbn. rewrite T1 in *. auto.
  - injection E as <-. apply (TI_frame _ _ _ _ s); auto.
  - destruct (_ <? _); [|discriminate E]. injection E as <-. apply (TI_frame _ _ _ _ s); auto.
  - destruct (_ && _); [|discriminate E]. injection E as <-. apply TI_send; auto. apply incl_refl.
  - destruct (match att with Some p => _ | None => _ end); [|discriminate E]. injection E as <-. apply TI_send; auto.
    + intros a. rewrite app_length. cbn. intros [<-|Ha]; [lia|]. specialize (T2 a Ha). lia.
    + apply incl_tl, incl_refl.
    + now apply fits_new.
    + now apply read_new.
  - destruct (rs_cur s) as [x|] eqn:Ec; [discriminate E|]. destruct (rs_queue s) as [|[c' q'] r] eqn:Eq; [discriminate E|]. injection E as <-.
    split; cbn; auto. exists k. repeat split; auto. destruct K4 as [[K4 K5]|[K4|[K4 K5]]].
    + destruct K5 as [K5|K5]; [injection K5 as -> ->; subst k; auto|left; auto].
    + discriminate K4.
    + right. right. split; [exact K4|]. rewrite ids_eq in *. rewrite Ec, Eq in K5. exact K5.
  - destruct (rs_cur s) as [[[c' q'] i]|] eqn:Ec; [|discriminate E]. destruct (nth_error (sread (rs_arrs s) (rq_ms q')) i) as [m|] eqn:En; injection E as <-.
    + destruct (Nat.eq_dec c' c) as [->|Nc].
      * assert (Hq : (k = i /\ q' = q)).
        { destruct K4 as [[_ K5]|[K4|[K4 K5]]].
          - exfalso. pose proof (ri_sorted _ I) as S. rewrite ids_eq, Ec in S. inversion S as [|? ? _ F]; subst. rewrite Forall_forall in F.
            specialize (F c (in_map fst _ _ K5)). lia.
          - injection K4 as -> ->. auto.
          - exfalso. apply K5. rewrite ids_eq, Ec. now left. }
        destruct Hq as [-> ->]. assert (Hi : i < List.length ms).
        { assert (i < List.length (sread (rs_arrs s) (rq_ms q))) by (apply nth_error_Some; congruence). rewrite sread_length in H by exact T3. lia. }
        split; cbn; auto. exists (S i). rewrite (K3 Hi) in En. split; [lia|]. split; [|split; [auto|right; now left]].
        erewrite seen_log by reflexivity. cbn [filter sa_call]. rewrite Nat.eqb_refl, (firstn_S_nth _ _ _ En), map_app, K2. reflexivity.
      * split; cbn; auto. exists k. split; [exact K1|]. split; [|split; [auto|]].
        -- erewrite seen_log by reflexivity. cbn [filter sa_call]. destruct (Nat.eqb_spec c' c); [congruence|]. now rewrite app_nil_r.
        -- destruct K4 as [K4|[K4|[K4 K5]]]; [now left|congruence|right; right]. split; [exact K4|]. rewrite ids_eq in *. rewrite Ec in K5. exact K5.
    + split; cbn; auto. exists k. split; [exact K1|]. split; [exact K2|]. split; [auto|]. destruct K4 as [K4|[K4|[K4 K5]]]; [now left| |].
      * injection K4 as -> -> ->. right. right. split.
        -- apply nth_error_None in En. rewrite sread_length in En by exact T3. lia.
        -- rewrite ids_eq. cbn. pose proof (ri_sorted _ I) as S. rewrite ids_eq, Ec in S. inversion S as [|? ? _ F]; subst. rewrite Forall_forall in F.
           intros K. specialize (F c K). lia.
      * right. right. split; [exact K4|]. rewrite ids_eq in *. rewrite Ec in K5. cbn in *. tauto.
Qed.

Lemma TI_run o c q ms ops : forall s s', RI s -> c < rs_calls s -> TI o c q ms s -> ra_run s ops = Some s' ->
  (forall a w b, ops = a ++ w :: b -> overwrites o w -> exists sa, ra_run s a = Some sa /\ List.length (seen sa c) = List.length ms) -> TI o c q ms s'.
Proof.
  induction ops as [|w r IH]; intros s s' I Hc T E H; cbn in E; [now injection E as <-|].
  destruct (ra_step s w) as [s1|] eqn:E1; [|discriminate E]. apply (IH s1); auto.
  - exact (RI_step _ _ _ I E1).
  - rewrite (calls_step _ _ _ E1). lia.
  - apply (TI_step _ _ _ _ s w); auto. intros Ho. destruct (H [] w r eq_refl Ho) as (sa & Ea & L). injection Ea as <-. exact L.
  - intros a w' b -> Ho. destruct (H (w :: a) w' b eq_refl Ho) as (sa & Ea & L). cbn in Ea. rewrite E1 in Ea. eauto.
Qed.

Lemma hid_step s o s' : (forall a, In a (rs_hidden s) -> a < List.length (rs_arrs s)) -> ra_step s o = Some s' ->
  forall a, In a (rs_hidden s') -> a < List.length (rs_arrs s').
Proof.
  intros H E. destruct o; cbn [ra_step] in E.
  - injection E as <-. cbn. intros a Ha. rewrite app_length. specialize (H a Ha). lia.
  - destruct (existsb _ _); [discriminate E|]. destruct (nth_error _ _); [|discriminate E]. destruct (_ <? _); [|discriminate E]. injection E as <-. cbn. intros b Hb. rewrite upd_length. now apply H.
  - injection E as <-. exact H.
  - destruct (_ <? _); [|discriminate E]. injection E as <-. exact H.
  - destruct (_ && _); [|discriminate E]. injection E as <-. exact H.
  - destruct (match att with Some p => _ | None => _ end); [|discriminate E]. injection E as <-. cbn. intros a. rewrite app_length. cbn. intros [<-|Ha]; [lia|]. specialize (H a Ha). lia.
  - destruct (rs_cur s); [discriminate E|]. destruct (rs_queue s) as [|[c q] r]; [discriminate E|]. injection E as <-. exact H.
  - destruct (rs_cur s) as [[[c q] i]|]; [|discriminate E]. destruct (nth_error _ _); injection E as <-; exact H.
Qed.

Lemma hid_run ops : forall s s', (forall a, In a (rs_hidden s) -> a < List.length (rs_arrs s)) -> ra_run s ops = Some s' ->
  forall a, In a (rs_hidden s') -> a < List.length (rs_arrs s').
Proof.
  induction ops as [|o r IH]; intros s s' H E; cbn in E; [now injection E as <-|].
  destruct (ra_step s o) as [s1|] eqn:E1; [|discriminate E]. exact (IH _ _ (hid_step _ _ _ H E1) E).
Qed.

Lemma RI_fresh s : RI s -> ~ In (rs_calls s) (ids s) /\ seen s (rs_calls s) = [].
Proof.
  intros I. split.
  - intros K. pose proof (ri_ids _ I) as F. rewrite Forall_forall in F. specialize (F _ K). lia.
  - unfold seen. pose proof (ri_log _ I) as F. clear -F. induction F as [|e l H _ IH]; [reflexivity|]. cbn. destruct (Nat.eqb_spec (sa_call e) (rs_calls s)); [lia|exact IH].
Qed.

Lemma TI_call s o s' cl : RI s -> (forall a, In a (rs_hidden s) -> a < List.length (rs_arrs s)) -> ra_step s o = Some s' -> call_of s o = Some cl ->
  exists q, rq_tags q = rc_tags cl /\ rq_t q = rc_t cl /\ (match o with RRecord _ _ att _ | RRecordArgs _ _ att _ => rq_att q = att | _ => False end) /\
    TI o (rs_calls s) q (rc_ms cl) s'.
Proof.
  intros I Hh E Ec. destruct (RI_fresh s I) as [Hf Hs]. destruct o; cbn [ra_step] in E; cbn [call_of] in Ec; try discriminate Ec; injection Ec as <-; cbn.
  - destruct (_ && _) eqn:Eb; [|discriminate E]. injection E as <-. apply andb_prop in Eb. destruct Eb as [Eb _]. apply andb_prop in Eb. destruct Eb as [Eb _].
    apply sfits_fits in Eb. exists (MkReq tags s0 att t). cbn. repeat split; cbn; auto.
    + symmetry. now apply sread_length.
    + exists 0. cbn. split; [lia|]. split; [exact Hs|]. split; [reflexivity|]. left. split; [reflexivity|]. apply in_or_app. right. now left.
  - destruct (match att with Some p => _ | None => _ end); [|discriminate E]. injection E as <-.
    exists (MkReq tags (MkSlice (List.length (rs_arrs s)) 0 (List.length ms)) att t). cbn.
    assert (En : nth (List.length (rs_arrs s)) (rs_arrs s ++ [ms]) [] = ms) by (rewrite app_nth2, Nat.sub_diag by lia; reflexivity).
    repeat split; cbn; auto.
    + intros a. rewrite app_length. cbn. intros [<-|Ha]; [lia|]. specialize (Hh a Ha). lia.
    + unfold fits. cbn. rewrite En. lia.
    + exists 0. cbn. split; [lia|]. split; [exact Hs|]. split; [|left; split; [reflexivity|]; apply in_or_app; right; now left].
      intros _. unfold sread. cbn. rewrite En. apply firstn_all.
Qed.

(** ** Theorems *)

(** A call of Record, in any history, and anything that happens after it.  If the program
    does not write to the slice it passed before the worker has read all of it, the worker
    reads for this call the measurements passed, as they were at the call and in their order,
    with the tags and the time of the call; all of them once it is idle. *)
Theorem C78_as_called ops1 o cl ops2 s1 s2 s3 :
  ra_run ra_init ops1 = Some s1 -> call_of s1 o = Some cl -> ra_step s1 o = Some s2 -> ra_run s2 ops2 = Some s3 ->
  let c := List.length (filter is_call ops1) in
  (forall a w b, ops2 = a ++ w :: b -> overwrites o w ->
     exists sa, ra_run s2 a = Some sa /\ List.length (seen sa c) = List.length (rc_ms cl)) ->
  (exists k, map read_as (seen s3 c) = firstn k (map (sample_of cl) (rc_ms cl))) /\
  (idle s3 -> map read_as (seen s3 c) = map (sample_of cl) (rc_ms cl)).
Proof.
  intros E1 Ec Es E2 c H. pose proof (RI_run _ _ _ RI_init E1) as I1. pose proof (calls_run _ _ _ E1) as Hc. cbn in Hc. fold c in Hc.
  assert (Hh : forall a, In a (rs_hidden s1) -> a < List.length (rs_arrs s1)) by (apply (hid_run _ _ _ (fun a (K : In a (rs_hidden ra_init)) => match K with end) E1)).
  destruct (TI_call _ _ _ _ I1 Hh Es Ec) as (q & Q1 & Q2 & _ & T). rewrite Hc in T.
  assert (Hcall : is_call o = true) by (destruct o; try discriminate Ec; reflexivity).
  pose proof (TI_run o c q (rc_ms cl) ops2 s2 s3 (RI_step _ _ _ I1 Es) ltac:(rewrite (calls_step _ _ _ Es), Hcall; lia) T E2 H) as [_ _ _ _ (k & K1 & K2 & _ & K4)].
  assert (Er : map read_as (seen s3 c) = firstn k (map (sample_of cl) (rc_ms cl))).
  { rewrite K2, map_map, firstn_map. apply map_ext. intros m. unfold read_as, sample_of. cbn. now rewrite Q1, Q2. }
  split; [now exists k|]. intros [I4 I5]. rewrite Er. destruct K4 as [[_ K4]|[K4|[K4 _]]]; [rewrite I4 in K4; destruct K4|congruence|].
  rewrite K4, <- (map_length (sample_of cl)). apply firstn_all.
Qed.

(** The arguments of a call with single measurements cannot be written to. *)
Corollary C78_single_arguments ops1 tags ms att t ops2 s1 s2 s3 :
  ra_run ra_init ops1 = Some s1 -> ra_step s1 (RRecordArgs tags ms att t) = Some s2 -> ra_run s2 ops2 = Some s3 -> idle s3 ->
  map read_as (seen s3 (List.length (filter is_call ops1))) = map (fun m => (tags, m, t)) ms.
Proof.
  intros E1 Es E2 Hi. destruct (C78_as_called ops1 (RRecordArgs tags ms att t) (MkCall tags ms (att_now s1 att) t) ops2 s1 s2 s3 E1 eq_refl Es E2) as [_ H].
  - intros a w b _ [].
  - rewrite (H Hi). reflexivity.
Qed.

(** The calls are handled in the order they were made. *)
Theorem C78_in_order ops s : ra_run ra_init ops = Some s -> StronglySorted le (map sa_call (rs_log s)).
Proof. intros E. apply (ri_order _ (RI_run _ _ _ RI_init E)). Qed.

Lemma map_step s o s' p : ra_step s o = Some s' -> p < List.length (rs_maps s) -> (forall m, o <> RSetMap p m) ->
  p < List.length (rs_maps s') /\ nth p (rs_maps s') [] = nth p (rs_maps s) [].
Proof.
  intros E Hp H. destruct o; cbn [ra_step] in E.
  - injection E as <-. auto.
  - destruct (existsb _ _); [discriminate E|]. destruct (nth_error _ _); [|discriminate E]. destruct (_ <? _); [|discriminate E]. injection E as <-. auto.
  - injection E as <-. cbn. rewrite app_length, app_nth1 by exact Hp. split; [lia|reflexivity].
  - destruct (_ <? _); [|discriminate E]. injection E as <-. cbn. rewrite upd_length. split; [exact Hp|]. rewrite nth_upd.
    destruct (Nat.eqb_spec p0 p) as [->|]; [exfalso; exact (H m eq_refl)|reflexivity].
  - destruct (_ && _); [|discriminate E]. injection E as <-. auto.
  - destruct (match att with Some p => _ | None => _ end); [|discriminate E]. injection E as <-. auto.
  - destruct (rs_cur s); [discriminate E|]. destruct (rs_queue s) as [|[c q] r]; [discriminate E|]. injection E as <-. auto.
  - destruct (rs_cur s) as [[[c q] i]|]; [|discriminate E]. destruct (nth_error _ _); injection E as <-; auto.
Qed.

Lemma map_run p ops : forall s s', ra_run s ops = Some s' -> p < List.length (rs_maps s) -> (forall m, ~ In (RSetMap p m) ops) ->
  nth p (rs_maps s') [] = nth p (rs_maps s) [].
Proof.
  induction ops as [|o r IH]; intros s s' E Hp H; cbn in E; [now injection E as <-|].
  destruct (ra_step s o) as [s1|] eqn:E1; [|discriminate E]. destruct (map_step _ _ _ p E1 Hp) as [H1 H2]; [intros m ->; apply (H m); now left|].
  rewrite (IH _ _ E H1), H2; [reflexivity|]. intros m K. apply (H m). now right.
Qed.

(** If the program never writes to the attachments again, an exemplar of the call shows them
    as they were at the call, ever after. *)
Theorem C78_attachments ops1 o cl ops2 s1 s2 s3 :
  ra_run ra_init ops1 = Some s1 -> call_of s1 o = Some cl -> ra_step s1 o = Some s2 -> ra_run s2 ops2 = Some s3 ->
  let c := List.length (filter is_call ops1) in
  (forall a w b, ops2 = a ++ w :: b -> overwrites o w ->
     exists sa, ra_run s2 a = Some sa /\ List.length (seen sa c) = List.length (rc_ms cl)) ->
  (forall w, In w ops2 -> ~ rewrites o w) ->
  Forall (fun e => att_now s3 (sa_att e) = rc_att cl) (seen s3 c).
Proof.
  intros E1 Ec Es E2 c H Hr. pose proof (RI_run _ _ _ RI_init E1) as I1. pose proof (calls_run _ _ _ E1) as Hc. cbn in Hc. fold c in Hc.
  assert (Hh : forall a, In a (rs_hidden s1) -> a < List.length (rs_arrs s1)) by (apply (hid_run _ _ _ (fun a (K : In a (rs_hidden ra_init)) => match K with end) E1)).
  destruct (TI_call _ _ _ _ I1 Hh Es Ec) as (q & Q1 & Q2 & Q3 & T). rewrite Hc in T.
  assert (Hcall : is_call o = true) by (destruct o; try discriminate Ec; reflexivity).
  pose proof (TI_run o c q (rc_ms cl) ops2 s2 s3 (RI_step _ _ _ I1 Es) ltac:(rewrite (calls_step _ _ _ Es), Hcall; lia) T E2 H) as [_ _ _ _ (k & K1 & K2 & _ & K4)].
  assert (Ha : att_now s3 (rq_att q) = rc_att cl).
  { destruct o as [| | | |tags sl att t|tags l att t| |]; try contradiction; cbn in Ec; injection Ec as <-; cbn; rewrite Q3; destruct att as [p|]; try reflexivity; cbn [ra_step] in Es; cbn [att_now rc_att].
    - destruct (_ && _) eqn:Eb; [|discriminate Es]. injection Es as <-. apply andb_prop in Eb. destruct Eb as [_ Hp]. apply Nat.ltb_lt in Hp.
      rewrite (map_run p ops2 _ _ E2 Hp); [reflexivity|]. intros m K. exact (Hr _ K eq_refl).
    - destruct (_ <? _) eqn:Eb; [|discriminate Es]. injection Es as <-. apply Nat.ltb_lt in Eb.
      rewrite (map_run p ops2 _ _ E2 Eb); [reflexivity|]. intros m K. exact (Hr _ K eq_refl). }
  rewrite K2. apply Forall_forall. intros e He. apply in_map_iff in He. destruct He as (m & <- & _). exact Ha.
Qed.

(** ** Witnesses *)

Definition a_meas (z : Z) : measurement := Some (MkMeasure (bs "m") [] (bs "1") MFloat64, f_of_Z z).
Definition at0 : time := 0%Z.

(** A program that uses one slice for two calls, the second before the worker has handled the
    first: 7 is recorded twice, 5 not at all. *)
Theorem C78_reused_slice_refuted :
  exists s, ra_run ra_init [RNewArr [a_meas 5]; RRecord None (MkSlice 0 0 1) None at0; RSetElem 0 0 (a_meas 7);
                            RRecord None (MkSlice 0 0 1) None at0; RTake; RNext; RNext; RTake; RNext; RNext] = Some s /\
    idle s /\ map sa_m (rs_log s) = [a_meas 7; a_meas 7].
Proof. eexists. split; [vm_compute; reflexivity|]. split; [split; reflexivity|vm_compute; reflexivity]. Qed.

(** A program that changes the attachments after the worker has handled the call: the
    exemplar changes. *)
Theorem C78_rewritten_attachments_refuted :
  exists s s', ra_run ra_init [RNewMap [(bs "k", bs "v")]; RRecordArgs None [a_meas 5] (Some 0) at0; RTake; RNext; RNext] = Some s /\
    ra_step s (RSetMap 0 [(bs "k", bs "w")]) = Some s' /\
    map (fun e => att_now s (sa_att e)) (rs_log s) = [[(bs "k", bs "v")]] /\
    map (fun e => att_now s' (sa_att e)) (rs_log s') = [[(bs "k", bs "w")]].
Proof. do 2 eexists. split; [vm_compute; reflexivity|]. split; [vm_compute; reflexivity|]. split; vm_compute; reflexivity. Qed.

(** The slice used again once the worker is done with it. *)
Example C78_example :
  exists s1 s2 s3,
    ra_run ra_init [RNewArr [a_meas 5; a_meas 6]; RNewMap [(bs "k", bs "v")]] = Some s1 /\
    call_of s1 (RRecord None (MkSlice 0 0 2) (Some 0) at0) = Some (MkCall None [a_meas 5; a_meas 6] [(bs "k", bs "v")] at0) /\
    ra_step s1 (RRecord None (MkSlice 0 0 2) (Some 0) at0) = Some s2 /\
    ra_run s2 [RTake; RNext; RNext; RSetElem 0 0 (a_meas 7); RNext; RRecord None (MkSlice 0 0 1) None at0; RTake; RNext; RNext] = Some s3 /\ idle s3 /\
    map sa_m (seen s3 0) = [a_meas 5; a_meas 6] /\ map sa_m (seen s3 1) = [a_meas 7] /\
    exists sa, ra_run s2 [RTake; RNext; RNext] = Some sa /\ List.length (seen sa 0) = 2.
Proof.
  do 3 eexists. split; [vm_compute; reflexivity|]. split; [vm_compute; reflexivity|]. split; [vm_compute; reflexivity|]. split; [vm_compute; reflexivity|].
  split; [split; reflexivity|]. split; [vm_compute; reflexivity|]. split; [vm_compute; reflexivity|]. eexists. split; vm_compute; reflexivity.
Qed.

Print Assumptions C78_as_called.
Print Assumptions C78_single_arguments.
Print Assumptions C78_in_order.
Print Assumptions C78_attachments.
Print Assumptions C78_reused_slice_refuted.
Print Assumptions C78_rewritten_attachments_refuted.
