(** Proofs about the runtime metrics producer. *)

From Coq Require Import String.
From Coq Require Import List Arith ZArith Bool Permutation Lia.
From Verif Require Import Base GoMap Float64 AggModel AggProofs ReaderModel ReaderProofs MetricModel RunmetricsModel RunmetricsSpec.
Import ListNotations.
Open Scope nat_scope.

(** One metric of the registry: its row, when it was made, its only entry. *)
Record slot : Type := MkSl { sl_row : crow; sl_made : time; sl_val : option (nat * entry) }.

Definition bm_of (prefix : bytes) (a : slot) : bmetric :=
  MkBM (kind_type (c_kind (sl_row a)))
       (MkMD (prefixed prefix (c_name (sl_row a))) (c_desc (sl_row a)) (c_unit (sl_row a))
             (bm_metric_type (kind_type (c_kind (sl_row a)))) [])
       (sl_made a) [] []
       (match sl_val a with Some (x, _) => [([], x)] | None => [] end).

Definition sl_name (prefix : bytes) (a : slot) : bytes := prefixed prefix (c_name (sl_row a)).

(** The entry has the type of the metric. *)
Definition typed (a : slot) : Prop :=
  match c_kind (sl_row a), sl_val a with
  | KInt, Some (_, EGaugeI _) => True
  | KFloat, Some (_, EGaugeF _) => True
  | KCum, None | KCum, Some (_, EFnI _) => True
  | _, _ => False
  end.

Record slots_ok (prefix : bytes) (sl : list slot) (s : rst) : Prop := MkOk {
  ok_bms : r_bms s = map (bm_of prefix) sl;
  ok_names : r_names s = combine (map (sl_name prefix) sl) (seq 0 (length sl));
  ok_typed : Forall typed sl;
  ok_ent : forall i a x e, nth_error sl i = Some a -> sl_val a = Some (x, e) -> nth_error (r_ents s) x = Some e;
  ok_inj : forall i j a b x e f, nth_error sl i = Some a -> nth_error sl j = Some b ->
             sl_val a = Some (x, e) -> sl_val b = Some (x, f) -> i = j }.

Lemma mset_fresh {V} (m : list (bytes * V)) k v : ~ In k (map fst m) -> mset bytes_eqb m k v = m ++ [(k, v)].
Proof.
  induction m as [| [k' v'] m IH]; intros H; [reflexivity |]. cbn [mset app].
  destruct (bytes_eqb_spec k' k) as [-> | N]; [exfalso; apply H; left; reflexivity |].
  rewrite IH; [reflexivity |]. intros F. apply H. right. exact F.
Qed.
Lemma combine_snoc {A} (l : list A) a n : combine (l ++ [a]) (seq n (S (length l))) = combine l (seq n (length l)) ++ [(a, n + length l)].
Proof.
  revert n. induction l as [| b l IH]; intros n; cbn [app length seq combine].
  - rewrite Nat.add_0_r. reflexivity.
  - change (S n :: seq (S (S n)) (length l)) with (seq (S n) (S (length l))). rewrite IH. cbn [app].
    replace (S n + length l) with (n + S (length l)) by lia. reflexivity.
Qed.
Lemma map_fst_combine {A B} (l : list A) (m : list B) : length l = length m -> map fst (combine l m) = l.
Proof. revert m. induction l as [| a l IH]; intros [| b m] E; cbn in *; try reflexivity; try discriminate. rewrite IH; [reflexivity | lia]. Qed.

Lemma nth_error_snoc {A} (l : list A) a i : nth_error (l ++ [a]) i = if i =? length l then Some a else nth_error l i.
Proof.
  destruct (Nat.eqb_spec i (length l)) as [-> | N].
  - rewrite nth_error_app2 by lia. rewrite Nat.sub_diag. reflexivity.
  - destruct (Nat.lt_ge_cases i (length l)) as [L | L].
    + apply nth_error_app1. exact L.
    + rewrite nth_error_app2 by lia. replace (nth_error l i) with (@None A) by (symmetry; apply nth_error_None; exact L).
      destruct (i - length l) as [| m] eqn:E; [lia |]. destruct m; reflexivity.
Qed.

(** The slot a create statement makes. *)
Definition zero_entry (k : mkind) : option entry :=
  match k with KInt => Some (EGaugeI 0) | KFloat => Some (EGaugeF f_zero) | KCum => None end.

Lemma add_snoc prefix (now : bytes -> time) s sl c : slots_ok prefix sl s -> ~ In (prefixed prefix (c_name c)) (map (sl_name prefix) sl) ->
  rdo s (RopAdd id_order (kind_type (c_kind c)) (prefixed prefix (c_name c)) [WithDescription (c_desc c); WithUnit (c_unit c)] (now (c_name c)))
  = (RHandle (length sl), MkR (r_bms s ++ [bm_of prefix (MkSl c (now (c_name c)) None)])
       (r_names s ++ [(prefixed prefix (c_name c), length sl)]) (r_ents s)).
Proof.
  intros O F. cbn [rdo]. unfold init_base_metric.
  assert (Nm : ~ In (prefixed prefix (c_name c)) (map fst (r_names s))).
  { rewrite (ok_names _ _ _ O), map_fst_combine; [exact F |]. rewrite map_length, seq_length. reflexivity. }
  rewrite (proj2 (mget_None bytes_eqb bytes_eqb_spec (r_names s) (prefixed prefix (c_name c))) Nm).
  rewrite (mset_fresh _ _ _ Nm). rewrite (ok_bms _ _ _ O), map_length. destruct c as [v k n d u]; destruct k; reflexivity.
Qed.

Lemma create_spec prefix (now : bytes -> time) s sl c :
  slots_ok prefix sl s -> ~ In (prefixed prefix (c_name c)) (map (sl_name prefix) sl) ->
  exists x s' a, create prefix now s c = Some (x, s') /\ slots_ok prefix (sl ++ [a]) s' /\
    sl_row a = c /\ sl_made a = now (c_name c) /\
    match zero_entry (c_kind c) with None => x = length sl /\ sl_val a = None | Some e => sl_val a = Some (x, e) end.
Proof.
  intros O F. unfold create. rewrite (add_snoc _ _ _ _ _ O F).
  set (bm := bm_of prefix (MkSl c (now (c_name c)) None)).
  assert (Lb : length (r_bms s) = length sl) by (rewrite (ok_bms _ _ _ O); apply map_length).
  assert (Nm : r_names s ++ [(prefixed prefix (c_name c), length sl)] =
               combine (map (sl_name prefix) sl ++ [prefixed prefix (c_name c)]) (seq 0 (S (length sl)))).
  { rewrite (ok_names _ _ _ O). pose proof (combine_snoc (map (sl_name prefix) sl) (prefixed prefix (c_name c)) 0) as E.
    rewrite map_length in E. rewrite E. reflexivity. }
  destruct (c_kind c) as [| |] eqn:K.
  3: { exists (length sl), (MkR (r_bms s ++ [bm]) (r_names s ++ [(prefixed prefix (c_name c), length sl)]) (r_ents s)), (MkSl c (now (c_name c)) None).
       split; [reflexivity |]. split; [| cbn; auto]. constructor; cbn [r_bms r_names r_ents].
       - rewrite map_app, (ok_bms _ _ _ O). reflexivity.
       - rewrite map_app, app_length, Nat.add_1_r. exact Nm.
       - apply Forall_app. split; [exact (ok_typed _ _ _ O) |]. repeat constructor. red. cbn. rewrite K. exact I.
       - intros i a x e E V. rewrite nth_error_snoc in E. destruct (i =? length sl); [injection E as <-; discriminate |]. eapply ok_ent; eassumption.
       - intros i j a b x e f E1 E2 V1 V2. rewrite nth_error_snoc in E1, E2.
         destruct (i =? length sl); [injection E1 as <-; discriminate |]. destruct (j =? length sl); [injection E2 as <-; discriminate |].
         eapply ok_inj; eassumption. }
  all: cbn [rdo r_bms]; rewrite <- Lb, nth_error_snoc, Nat.eqb_refl;
    unfold bm; cbn [bm_of bm_type sl_row c_kind]; rewrite K; cbn [kind_type new_entry];
    unfold entry_for_values; cbn [bm_of bm_const bm_keys app length Nat.eqb negb];
    change (encode_label_vals []) with (@nil Byte.byte); cbn [bm_vals sl_val mget r_ents].
  - set (x := length (r_ents s)).
    exists x. eexists. exists (MkSl c (now (c_name c)) (Some (x, EGaugeI 0))).
    split; [reflexivity |]. split; [| cbn; auto]. constructor; unfold set_vals; cbn [r_bms r_names r_ents].
    + rewrite upd_last, map_app, (ok_bms _ _ _ O). unfold bm_of. cbn. rewrite K. reflexivity.
    + rewrite map_app, app_length, Nat.add_1_r, Lb. exact Nm.
    + apply Forall_app. split; [exact (ok_typed _ _ _ O) |]. repeat constructor. red. cbn. rewrite K. exact I.
    + intros i a y e E V. rewrite nth_error_snoc in E. destruct (i =? length sl).
      * injection E as <-. cbn in V. injection V as <- <-. unfold x. rewrite nth_error_snoc, Nat.eqb_refl. reflexivity.
      * pose proof (ok_ent _ _ _ O _ _ _ _ E V) as G. rewrite nth_error_app1; [exact G |]. apply nth_error_Some. congruence.
    + assert (Lt : forall i a y e, nth_error sl i = Some a -> sl_val a = Some (y, e) -> y < x).
      { intros i a y e E V. apply nth_error_Some. rewrite (ok_ent _ _ _ O _ _ _ _ E V). discriminate. }
      intros i j a b y e f E1 E2 V1 V2. rewrite nth_error_snoc in E1, E2.
      destruct (Nat.eqb_spec i (length sl)) as [-> | N1]; destruct (Nat.eqb_spec j (length sl)) as [-> | N2]; [reflexivity | | | eapply ok_inj; eassumption].
      * injection E1 as <-. cbn in V1. injection V1 as <- <-. specialize (Lt _ _ _ _ E2 V2). lia.
      * injection E2 as <-. cbn in V2. injection V2 as <- <-. specialize (Lt _ _ _ _ E1 V1). lia.
  - set (x := length (r_ents s)).
    exists x. eexists. exists (MkSl c (now (c_name c)) (Some (x, EGaugeF f_zero))).
    split; [reflexivity |]. split; [| cbn; auto]. constructor; unfold set_vals; cbn [r_bms r_names r_ents].
    + rewrite upd_last, map_app, (ok_bms _ _ _ O). unfold bm_of. cbn. rewrite K. reflexivity.
    + rewrite map_app, app_length, Nat.add_1_r, Lb. exact Nm.
    + apply Forall_app. split; [exact (ok_typed _ _ _ O) |]. repeat constructor. red. cbn. rewrite K. exact I.
    + intros i a y e E V. rewrite nth_error_snoc in E. destruct (i =? length sl).
      * injection E as <-. cbn in V. injection V as <- <-. unfold x. rewrite nth_error_snoc, Nat.eqb_refl. reflexivity.
      * pose proof (ok_ent _ _ _ O _ _ _ _ E V) as G. rewrite nth_error_app1; [exact G |]. apply nth_error_Some. congruence.
    + assert (Lt : forall i a y e, nth_error sl i = Some a -> sl_val a = Some (y, e) -> y < x).
      { intros i a y e E V. apply nth_error_Some. rewrite (ok_ent _ _ _ O _ _ _ _ E V). discriminate. }
      intros i j a b y e f E1 E2 V1 V2. rewrite nth_error_snoc in E1, E2.
      destruct (Nat.eqb_spec i (length sl)) as [-> | N1]; destruct (Nat.eqb_spec j (length sl)) as [-> | N2]; [reflexivity | | | eapply ok_inj; eassumption].
      * injection E1 as <-. cbn in V1. injection V1 as <- <-. specialize (Lt _ _ _ _ E2 V2). lia.
      * injection E2 as <-. cbn in V2. injection V2 as <- <-. specialize (Lt _ _ _ _ E1 V1). lia.
Qed.

(** The struct whose variables point to slots lo, lo+1, ... *)
Definition env_at (env : list (bytes * nat)) (sl : list slot) (lo : nat) : Prop :=
  forall j v x, nth_error env j = Some (v, x) ->
    exists a, nth_error sl (lo + j) = Some a /\ c_var (sl_row a) = v /\
      match c_kind (sl_row a) with KCum => x = lo + j | _ => exists e, sl_val a = Some (x, e) end.

Definition fresh_slot (now : bytes -> time) (c : crow) (a : slot) : Prop :=
  sl_row a = c /\ sl_made a = now (c_name c) /\
  option_map snd (sl_val a) = zero_entry (c_kind c).

Lemma create_all_spec prefix (now : bytes -> time) cs : forall s sl,
  slots_ok prefix sl s ->
  NoDup (map (sl_name prefix) sl ++ map (fun c => prefixed prefix (c_name c)) cs) ->
  exists env s' sl', create_all prefix now s cs = Some (env, s') /\ slots_ok prefix (sl ++ sl') s' /\
    Forall2 (fresh_slot now) cs sl' /\ map fst env = map c_var cs /\ env_at env (sl ++ sl') (length sl).
Proof.
  induction cs as [| c cs IH]; intros s sl O N; cbn [create_all].
  - exists [], s, []. rewrite app_nil_r. repeat (split; [try reflexivity; try assumption; constructor |]).
    intros [|] v x E; discriminate.
  - cbn [map] in N.
    assert (F : ~ In (prefixed prefix (c_name c)) (map (sl_name prefix) sl)).
    { intros H. apply NoDup_remove_2 in N. apply N, in_or_app. left. exact H. }
    destruct (create_spec prefix now s sl c O F) as (x & s1 & a & E & O1 & R & M & Z). rewrite E.
    destruct (IH s1 (sl ++ [a]) O1) as (env & s2 & sl' & E2 & O2 & F2 & K & A).
    { rewrite map_app. cbn [map]. rewrite <- app_assoc. cbn [app]. unfold sl_name at 2. rewrite R. exact N. }
    rewrite E2. exists ((c_var c, x) :: env), s2, (a :: sl'). split; [reflexivity |].
    rewrite <- app_assoc in O2, A. cbn [app] in O2, A. split; [exact O2 |]. split; [| split; [cbn [map fst]; f_equal; exact K |]].
    + constructor; [| exact F2]. split; [exact R |]. split; [exact M |]. destruct (zero_entry (c_kind c)) as [e |]; [rewrite Z; reflexivity |]. destruct Z as [_ ->]. reflexivity.
    + intros [| j] v y G; cbn [nth_error] in G.
      * injection G as <- <-. exists a. rewrite Nat.add_0_r, nth_error_app2, Nat.sub_diag by lia. split; [reflexivity |].
        rewrite R. split; [reflexivity |]. destruct (c_kind c); cbn [zero_entry] in Z; [eauto | eauto | exact (proj1 Z)].
      * destruct (A j v y G) as (b & B1 & B2 & B3). rewrite app_length, Nat.add_1_r in B1, B3.
        replace (length sl + S j) with (S (length sl) + j) by lia. eauto.
Qed.

(** ** Executing the statements *)

Definition svar (st : stmt) : bytes := match st with SSet v _ => v | SUpsert v _ => v | SSetF v => v end.
Definition skind (st : stmt) : mkind := match st with SSet _ _ => KInt | SUpsert _ _ => KCum | SSetF _ => KFloat end.
Definition sresult (rt : rtval) (st : stmt) : entry :=
  match st with SSet _ e => EGaugeI (meval rt e) | SUpsert _ fn => EFnI fn | SSetF _ => EGaugeF (rt_fraction rt) end.

Lemma map_upd {A B} (f : A -> B) (l : list A) i (g : A -> A) (h : B -> B) a : nth_error l i = Some a -> f (g a) = h (f a) ->
  map f (upd l i g) = upd (map f l) i h.
Proof.
  revert i. induction l as [| b l IH]; intros [| i] E H; cbn in *; try discriminate.
  - injection E as ->. rewrite H. reflexivity.
  - rewrite (IH i E H). reflexivity.
Qed.
Lemma map_upd_same {A B} (f : A -> B) (l : list A) i (g : A -> A) a : nth_error l i = Some a -> f (g a) = f a -> map f (upd l i g) = map f l.
Proof.
  revert i. induction l as [| b l IH]; intros [| i] E H; cbn in *; try discriminate.
  - injection E as ->. rewrite H. reflexivity.
  - rewrite (IH i E H). reflexivity.
Qed.
Lemma Forall_upd {A} (P : A -> Prop) (l : list A) i g : Forall P l -> (forall a, nth_error l i = Some a -> P (g a)) -> Forall P (upd l i g).
Proof.
  intros F. revert i. induction F as [| b l Hb F IH]; intros [| i] H; cbn; try constructor; auto.
Qed.

(** What an update of slot [i] keeps. *)
Definition put (sl : list slot) (i : nat) (x : nat) (e : entry) : list slot :=
  upd sl i (fun a => MkSl (sl_row a) (sl_made a) (Some (x, e))).

Lemma nth_put sl i x e j : nth_error (put sl i x e) j =
  if i =? j then option_map (fun a => MkSl (sl_row a) (sl_made a) (Some (x, e))) (nth_error sl j) else nth_error sl j.
Proof. apply nth_error_upd. Qed.

Lemma put_env env sl lo i x e a :
  nth_error sl i = Some a -> (c_kind (sl_row a) <> KCum -> exists e', sl_val a = Some (x, e')) ->
  env_at env sl lo -> env_at env (put sl i x e) lo.
Proof.
  intros E H A j v y G. destruct (A j v y G) as (b & B1 & B2 & B3). rewrite nth_put. rewrite B1.
  destruct (Nat.eqb_spec i (lo + j)) as [-> | N]; [| eauto].
  assert (a = b) by congruence. subst b. eexists. split; [reflexivity |]. cbn [sl_row sl_val]. split; [exact B2 |].
  destruct (c_kind (sl_row a)); [| | exact B3].
  all: destruct (H ltac:(discriminate)) as (e' & V); destruct B3 as (e'' & V'); rewrite V in V'; injection V' as -> ->; eauto.
Qed.

Lemma exec_spec rt prefix env sl lo s st j x :
  slots_ok prefix sl s -> env_at env sl lo -> NoDup (map fst env) -> nth_error env j = Some (svar st, x) ->
  (forall a, nth_error sl (lo + j) = Some a -> c_kind (sl_row a) = skind st) ->
  exists s' y, exec_stmt rt env s st = Some s' /\ slots_ok prefix (put sl (lo + j) y (sresult rt st)) s' /\
    (forall env' lo', env_at env' sl lo' -> env_at env' (put sl (lo + j) y (sresult rt st)) lo').
Proof.
  intros O A N G Kd. destruct (A _ _ _ G) as (a & Ea & Va & Xa). specialize (Kd _ Ea).
  assert (Mg : mget bytes_eqb env (svar st) = Some x).
  { apply (In_mget bytes_eqb bytes_eqb_spec); [exact N |]. eapply nth_error_In. exact G. }
  assert (Common : forall y e ents,
    (forall i b z f, nth_error sl i = Some b -> i <> lo + j -> sl_val b = Some (z, f) -> nth_error ents z = Some f /\ z <> y) ->
    nth_error ents y = Some e ->
    (forall b, sl_row b = sl_row a -> sl_val b = Some (y, e) -> typed b) ->
    forall bms, bms = map (bm_of prefix) (put sl (lo + j) y e) ->
    slots_ok prefix (put sl (lo + j) y e) (MkR bms (r_names s) ents)).
  { intros y e ents H1 H2 H3 bms Hb. constructor; cbn [r_bms r_names r_ents].
    - exact Hb.
    - rewrite (ok_names _ _ _ O). unfold put. rewrite upd_length. f_equal. symmetry. eapply map_upd_same; [exact Ea | reflexivity].
    - apply Forall_upd; [exact (ok_typed _ _ _ O) |]. intros b E. rewrite Ea in E. injection E as <-. apply H3; reflexivity.
    - intros i b z f E V. rewrite nth_put in E. destruct (Nat.eqb_spec (lo + j) i) as [<- | Ni].
      + rewrite Ea in E. cbn in E. injection E as <-. cbn in V. injection V as <- <-. exact H2.
      + destruct (H1 i b z f E ltac:(congruence) V) as [Q _]. exact Q.
    - intros i k b c z f g E1 E2 V1 V2. rewrite nth_put in E1, E2.
      destruct (Nat.eqb_spec (lo + j) i) as [<- | Ni]; destruct (Nat.eqb_spec (lo + j) k) as [<- | Nk]; [reflexivity | | | eapply ok_inj; eassumption].
      + rewrite Ea in E1. cbn in E1. injection E1 as <-. cbn in V1. injection V1 as <- <-. destruct (H1 _ _ _ _ E2 ltac:(congruence) V2) as [_ Q]. congruence.
      + rewrite Ea in E2. cbn in E2. injection E2 as <-. cbn in V2. injection V2 as <- <-. destruct (H1 _ _ _ _ E1 ltac:(congruence) V1) as [_ Q]. congruence. }
  assert (Upd : forall u e e0, sl_val a = Some (x, e0) -> apply_update e0 u = e -> c_kind (sl_row a) <> KCum ->
    (forall b, sl_row b = sl_row a -> sl_val b = Some (x, e) -> typed b) ->
    exists s', snd (rdo s (RopUpdate x u)) = s' /\ slots_ok prefix (put sl (lo + j) x e) s' /\
      (forall env' lo', env_at env' sl lo' -> env_at env' (put sl (lo + j) x e) lo')).
  { intros u e e0 V Ap Nk Ty. eexists. split; [reflexivity |]. split.
    - cbn [rdo]. rewrite (ok_ent _ _ _ O _ _ _ _ Ea V). cbn [snd]. apply Common.
      + intros i b z f E Ni Vb. assert (z <> x) by (intros ->; apply Ni; eapply ok_inj; eassumption).
        split; [| assumption]. rewrite nth_error_upd. destruct (Nat.eqb_spec x z); [congruence |]. eapply ok_ent; eassumption.
      + rewrite nth_error_upd, Nat.eqb_refl, (ok_ent _ _ _ O _ _ _ _ Ea V). cbn. rewrite Ap. reflexivity.
      + exact Ty.
      + rewrite (ok_bms _ _ _ O). symmetry. eapply map_upd_same; [exact Ea |]. unfold bm_of. cbn. rewrite V. reflexivity.
    - intros env' lo' A'. eapply put_env; [exact Ea | | exact A']. intros _. eauto. }
  pose proof (proj1 (Forall_forall _ _) (ok_typed _ _ _ O) a (nth_error_In _ _ Ea)) as Ta. unfold typed in Ta.
  destruct st as [v e | v fn | v]; cbn [exec_stmt svar skind sresult] in *; rewrite Mg; rewrite Kd in Xa, Ta.
  - destruct Xa as (e0 & V). rewrite V in Ta. destruct e0; try contradiction.
    destruct (Upd (USetI (meval rt e)) (EGaugeI (meval rt e)) _ V eq_refl) as (s' & <- & Q1 & Q2).
    + rewrite Kd. discriminate.
    + intros b R W. unfold typed. rewrite R, Kd, W. exact I.
    + eauto.
  - subst x. exists (snd (rdo s (RopUpsert (lo + j) (Some fn) []))), (length (r_ents s)). split; [reflexivity |]. split.
    + cbn [rdo]. rewrite (ok_bms _ _ _ O), nth_error_map, Ea. cbn [option_map].
      cbn [bm_of bm_type]. rewrite Kd. cbn [kind_type new_fn_entry].
      unfold upsert_entry. cbn [bm_of bm_const bm_keys app length Nat.eqb negb]. change (encode_label_vals []) with (@nil Byte.byte). cbn [snd].
      assert (Mv : mset bytes_eqb (mdel bytes_eqb (bm_vals (bm_of prefix a)) []) [] (length (r_ents s)) = [([], length (r_ents s))]).
      { unfold bm_of. cbn [bm_vals]. destruct (sl_val a) as [[y f] |]; reflexivity. }
      rewrite Mv. unfold set_vals. apply Common.
      * intros i b z f E _ Vb. pose proof (ok_ent _ _ _ O _ _ _ _ E Vb) as Q. assert (z < length (r_ents s)) by (apply nth_error_Some; congruence).
        split; [rewrite nth_error_app1 by assumption; exact Q | lia].
      * rewrite nth_error_snoc, Nat.eqb_refl. reflexivity.
      * intros b R W. unfold typed. rewrite R, Kd, W. exact I.
      * rewrite (ok_bms _ _ _ O). unfold put. symmetry. eapply map_upd; [exact Ea |]. unfold bm_of. cbn. rewrite Kd. reflexivity.
    + intros env' lo' A'. eapply put_env; [exact Ea | | exact A']. intros H. rewrite Kd in H. contradiction.
  - destruct Xa as (e0 & V). rewrite V in Ta. destruct e0; try contradiction.
    destruct (Upd (USetF (rt_fraction rt)) (EGaugeF (rt_fraction rt)) _ V eq_refl) as (s' & <- & Q1 & Q2).
    + rewrite Kd. discriminate.
    + intros b R W. unfold typed. rewrite R, Kd, W. exact I.
    + eauto.
Qed.

(** The same metrics, possibly with other values. *)
Definition same_slot (a b : slot) : Prop := sl_row a = sl_row b /\ sl_made a = sl_made b.

Lemma Forall2_upd {A} (R : A -> A -> Prop) (l : list A) i g : (forall a, R a a) -> (forall a, R a (g a)) -> Forall2 R l (upd l i g).
Proof. intros H1 H2. revert i. induction l as [| a l IH]; intros [| i]; cbn; constructor; auto. clear - H1. induction l; constructor; auto. Qed.
Lemma Forall2_trans {A} (R : A -> A -> Prop) : (forall a b c, R a b -> R b c -> R a c) -> forall l m n, Forall2 R l m -> Forall2 R m n -> Forall2 R l n.
Proof. intros T l m n F. revert n. induction F; intros n G; inversion G; subst; constructor; eauto. Qed.
Lemma Forall2_nth {A B} (R : A -> B -> Prop) l m : Forall2 R l m -> forall i a, nth_error l i = Some a -> exists b, nth_error m i = Some b /\ R a b.
Proof. induction 1; intros [| i] c E; cbn in *; try discriminate; eauto. injection E as <-. eauto. Qed.

Lemma exec_all_spec rt prefix env lo sts : forall sl s,
  slots_ok prefix sl s -> env_at env sl lo -> NoDup (map fst env) -> NoDup (map svar sts) ->
  (forall st, In st sts -> exists j x a, nth_error env j = Some (svar st, x) /\ nth_error sl (lo + j) = Some a /\ c_kind (sl_row a) = skind st) ->
  exists s' sl', exec_all rt env s sts = Some s' /\ slots_ok prefix sl' s' /\ Forall2 same_slot sl sl' /\
    (forall env' lo', env_at env' sl lo' -> env_at env' sl' lo') /\
    (forall i a, nth_error sl i = Some a -> (forall j st x, In st sts -> nth_error env j = Some (svar st, x) -> i <> lo + j) -> nth_error sl' i = Some a) /\
    (forall j st x, In st sts -> nth_error env j = Some (svar st, x) ->
       exists a y, nth_error sl' (lo + j) = Some a /\ sl_val a = Some (y, sresult rt st)).
Proof.
  induction sts as [| st sts IH]; intros sl s O A N Ns Ty; cbn [exec_all].
  - exists s, sl. split; [reflexivity |]. split; [exact O |]. split; [| split; [auto | split; [auto | intros ? ? ? []]]].
    clear. induction sl; constructor; auto. split; reflexivity.
  - destruct (Ty st (or_introl eq_refl)) as (j & x & a & G & Ea & Ka).
    destruct (exec_spec rt prefix env sl lo s st j x O A N G) as (s1 & y & E & O1 & A1); [intros b Eb; rewrite Ea in Eb; injection Eb as <-; exact Ka |].
    rewrite E. set (sl1 := put sl (lo + j) y (sresult rt st)) in *.
    inversion Ns as [| q r Hq Hr]; subst.
    destruct (IH sl1 s1 O1 (A1 _ _ A) N Hr) as (s2 & sl2 & E2 & O2 & S2 & A2 & Keep & Val).
    { intros st' I'. destruct (Ty st' (or_intror I')) as (j' & x' & a' & G' & Ea' & Ka'). exists j', x'. unfold sl1. rewrite nth_put, Ea'.
      destruct (lo + j =? lo + j'); eexists; (split; [exact G' | split; [reflexivity | exact Ka']]). }
    rewrite E2. exists s2, sl2. split; [reflexivity |]. split; [exact O2 |]. split; [| split; [| split]].
    + apply (Forall2_trans same_slot) with sl1; [intros u v w [? ?] [? ?]; split; congruence | | exact S2].
      apply Forall2_upd; intros; split; reflexivity.
    + auto.
    + intros i b Eb Hn. apply Keep.
      * unfold sl1. rewrite nth_put. destruct (Nat.eqb_spec (lo + j) i) as [<- | _]; [| exact Eb]. exfalso. exact (Hn j st x (or_introl eq_refl) G eq_refl).
      * intros j' st' x' I'. apply Hn. right. exact I'.
    + intros j' st' x' [<- | I'] G'; [| eapply Val; eassumption].
      assert (j' = j).
      { assert (E1 : nth_error (map fst env) j = Some (svar st)) by (rewrite nth_error_map, G; reflexivity).
        assert (E3 : nth_error (map fst env) j' = Some (svar st)) by (rewrite nth_error_map, G'; reflexivity).
        apply (proj1 (NoDup_nth_error (map fst env)) N); [| congruence]. apply nth_error_Some. congruence. }
      subst j'. exists (MkSl (sl_row a) (sl_made a) (Some (y, sresult rt st))), y. split; [| reflexivity].
      apply Keep.
      * unfold sl1. rewrite nth_put, Nat.eqb_refl, Ea. reflexivity.
      * intros j' st' x'' I' G'' Eq. assert (j' = j) by lia. subst j'. rewrite G in G''. injection G'' as Ev _. apply Hq. rewrite Ev. apply in_map. exact I'.
Qed.

(** ** Reading the registry *)

Definition report (prefix : bytes) (fi : nat -> Z) (ff : nat -> f64) (now : time) (a : slot) : mmetric :=
  MkM (bm_desc (bm_of prefix a))
      (match sl_val a with
       | Some (_, e) => [MkS (match c_kind (sl_row a) with KCum => sl_made a | _ => now end) [] (now, read_entry fi ff e)]
       | None => []
       end).

Lemma read_slot o fi ff now prefix sl s i a : slots_ok prefix sl s -> nth_error sl i = Some a ->
  read_metric o fi ff now s (bm_of prefix a) = Some (report prefix fi ff now a).
Proof.
  intros O E. unfold read_metric. unfold report. destruct (sl_val a) as [[x e] |] eqn:V.
  - assert (Vl : bm_vals (bm_of prefix a) = [([], x)]) by (unfold bm_of; cbn; rewrite V; reflexivity).
    rewrite Vl. rewrite (Permutation_length_1_inv (Permutation_sym (ord_perm o _ [([], x)]))).
    cbn [read_vals]. unfold bm_of at 1. cbn [bm_keys decode_label_vals]. rewrite (ok_ent _ _ _ O _ _ _ _ E V).
    f_equal. f_equal. f_equal. f_equal. unfold start_of. cbn [bm_of bm_type bm_start]. destruct (c_kind (sl_row a)); reflexivity.
  - assert (Vl : bm_vals (bm_of prefix a) = []) by (unfold bm_of; cbn; rewrite V; reflexivity).
    rewrite Vl. rewrite (Permutation_nil (Permutation_sym (ord_perm o _ []))). reflexivity.
Qed.

Lemma read_names_map o fi ff now prefix sl s names : slots_ok prefix sl s ->
  (forall n p, In (n, p) names -> p < length sl) ->
  exists ms, read_names o fi ff now s names = Some ms /\
    Forall2 (fun np m => exists a, nth_error sl (snd np) = Some a /\ m = report prefix fi ff now a) names ms.
Proof.
  intros O. induction names as [| [n p] names IH]; intros H; cbn [read_names].
  - exists []. split; [reflexivity | constructor].
  - destruct (nth_error sl p) as [a |] eqn:E; [| apply nth_error_None in E; specialize (H n p (or_introl eq_refl)); lia].
    rewrite (ok_bms _ _ _ O), nth_error_map, E. cbn [option_map]. rewrite (read_slot _ _ _ _ _ _ _ _ _ O E).
    destruct IH as (ms & -> & F); [intros; eapply H; right; eassumption |]. eexists. split; [reflexivity |]. constructor; [| exact F]. eauto.
Qed.

Lemma snd_combine {A} (l : list A) n : map snd (combine l (seq n (length l))) = seq n (length l).
Proof. revert n. induction l as [| a l IH]; intros n; cbn; [reflexivity |]. rewrite IH. reflexivity. Qed.

Lemma nth_error_same {A} (l m : list A) : (forall i, nth_error l i = nth_error m i) -> l = m.
Proof.
  revert m. induction l as [| a l IH]; intros [| b m] H; [reflexivity | discriminate (H 0) | discriminate (H 0) |].
  pose proof (H 0) as E. injection E as ->. f_equal. apply IH. intros i. exact (H (S i)).
Qed.

Lemma registry_read_map o fi ff now prefix sl s : slots_ok prefix sl s ->
  exists ms, registry_read o fi ff now s = Some ms /\ Permutation ms (map (report prefix fi ff now) sl).
Proof.
  intros O. unfold registry_read.
  pose proof (ord_perm o _ (r_names s)) as P. set (names := ord o (bytes * nat) (r_names s)) in *.
  assert (Ps : Permutation (map snd names) (seq 0 (length sl))).
  { rewrite P, (ok_names _ _ _ O). rewrite <- (map_length (sl_name prefix) sl), snd_combine. reflexivity. }
  destruct (read_names_map o fi ff now prefix sl s names O) as (ms & E & F).
  { intros n p I. assert (I' : In p (map snd names)) by (apply in_map_iff; exists (n, p); auto). rewrite Ps in I'. apply in_seq in I'. lia. }
  exists ms. split; [exact E |].
  set (f := fun p => match nth_error sl p with Some a => report prefix fi ff now a | None => MkM (MkMD [] [] [] TyGaugeInt64 []) [] end).
  assert (Em : ms = map f (map snd names)).
  { clear - F. induction F as [| [n p] m names ms (a & Ea & ->) F IH]; [reflexivity |]. cbn [map snd]. rewrite <- IH. unfold f. cbn in Ea. rewrite Ea. reflexivity. }
  rewrite Em, Ps. assert (Es : map f (seq 0 (length sl)) = map (report prefix fi ff now) sl); [| rewrite Es; reflexivity].
  clear - f. subst f. apply nth_error_same. intros i. rewrite !nth_error_map. destruct (Nat.lt_ge_cases i (length sl)) as [L | L].
  - rewrite (nth_error_nth' _ 0) by (rewrite seq_length; exact L). rewrite seq_nth by exact L. cbn.
    destruct (nth_error sl i) as [a |] eqn:E; [reflexivity |]. apply nth_error_None in E. lia.
  - rewrite (proj2 (nth_error_None sl i) L). rewrite (proj2 (nth_error_None (seq 0 (length sl)) i)) by (rewrite seq_length; exact L). reflexivity.
Qed.
