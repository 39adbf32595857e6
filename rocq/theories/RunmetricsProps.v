(** Theorems about plugin/runmetrics. *)

From Coq Require Import String.
From Coq Require Import List Arith ZArith Bool Permutation Lia.
From Verif Require Import Base GoMap Float64 AggModel AggProofs ReaderModel ReaderProofs MetricModel RunmetricsModel RunmetricsSpec RunmetricsProofs.
Import ListNotations.
Open Scope nat_scope.

Lemma prefixed_app (prefix n : bytes) : prefixed prefix n = prefix ++ n.
Proof. destruct prefix; reflexivity. Qed.

Fixpoint distinct (l : list bytes) : bool :=
  match l with [] => true | a :: r => negb (existsb (bytes_eqb a) r) && distinct r end.
Lemma distinct_NoDup l : distinct l = true -> NoDup l.
Proof.
  induction l as [| a l IH]; cbn [distinct]; intros H; [constructor |]. apply andb_true_iff in H. destruct H as [H1 H2].
  constructor; [| auto]. intros I. apply negb_true_iff in H1.
  assert (E : existsb (bytes_eqb a) l = true) by (apply existsb_exists; exists a; split; [exact I | apply bytes_eqb_refl]). congruence.
Qed.

Lemma NoDup_prefixed (prefix : bytes) (l : list bytes) : NoDup l -> NoDup (map (fun n => prefix ++ n) l).
Proof.
  induction 1 as [| a l H N IH]; cbn; [constructor |]. constructor; [| exact IH].
  intros I. apply in_map_iff in I. destruct I as (b & E & I). apply app_inv_head in E. congruence.
Qed.

Lemma NoDup_app_left {A} (l m : list A) : NoDup (l ++ m) -> NoDup l.
Proof.
  induction l as [| a l IH]; intros H; [constructor |]. inversion H; subst. constructor; [| auto].
  intros I. apply H2, in_or_app. left. exact I.
Qed.

(** The rows Enable creates. *)
Definition mem_part (o : run_options) : list crow :=
  if ro_memory o then if ro_derived o then mem_rows else deprecated_rows else [].
Definition cpu_part (o : run_options) : list crow := if ro_cpu o then cpu_rows else [].

Lemma rows_distinct o prefix : NoDup (map (fun c => prefixed prefix (c_name c)) (mem_part o ++ cpu_part o)).
Proof.
  rewrite (map_ext (fun c => prefixed prefix (c_name c)) (fun c => prefix ++ c_name c)) by (intros; apply prefixed_app).
  rewrite <- (map_map c_name (fun n => prefix ++ n)). apply NoDup_prefixed, distinct_NoDup.
  destruct o as [[] [] [] p]; vm_compute; reflexivity.
Qed.

Definition made_slot (now : bytes -> time) (c : crow) (a : slot) : Prop := sl_row a = c /\ sl_made a = now (c_name c).
Definition zero_slot (a : slot) : Prop := option_map snd (sl_val a) = zero_entry (c_kind (sl_row a)).

(** What stays true of a producer made by Enable. *)
Definition pinv (o : run_options) (now : bytes -> time) (p : rproducer) : Prop :=
  exists m c, slots_ok (ro_prefix o) (m ++ c) (rp_reg p) /\
    Forall2 (made_slot now) (mem_part o) m /\ Forall2 (made_slot now) (cpu_part o) c /\
    (if ro_memory o && ro_derived o
     then exists env, rp_mem p = Some env /\ map fst env = map c_var mem_rows /\ env_at env (m ++ c) 0
     else rp_mem p = None /\ Forall zero_slot m) /\
    (if ro_cpu o
     then exists env, rp_cpu p = Some env /\ map fst env = map c_var cpu_rows /\ env_at env (m ++ c) (length m)
     else rp_cpu p = None).

Lemma env_at_app env sl sl' lo : env_at env sl lo -> env_at env (sl ++ sl') lo.
Proof.
  intros A j v x E. destruct (A j v x E) as (a & E1 & E2). exists a. split; [| exact E2]. rewrite nth_error_app1; [exact E1 |]. apply nth_error_Some. congruence.
Qed.

Lemma fresh_made (now : bytes -> time) cs sl : Forall2 (fresh_slot now) cs sl -> Forall2 (made_slot now) cs sl /\ Forall zero_slot sl.
Proof.
  induction 1 as [| c a cs sl (R & M & Z) F [IH1 IH2]]; split; constructor; auto.
  - split; assumption.
  - unfold zero_slot. rewrite R. exact Z.
Qed.

Lemma empty_ok prefix : slots_ok prefix [] new_registry.
Proof. constructor; try reflexivity; try constructor; intros [|]; discriminate. Qed.

Lemma make_producer_spec o now : exists p, make_producer o now = Some p /\ pinv o now p.
Proof.
  set (prefix := ro_prefix o).
  assert (N : NoDup (map (sl_name prefix) [] ++ map (fun c => prefixed prefix (c_name c)) (mem_part o))).
  { cbn. pose proof (rows_distinct o prefix) as N. rewrite map_app in N. exact (NoDup_app_left _ _ N). }
  destruct (create_all_spec prefix now (mem_part o) new_registry [] (empty_ok prefix) N) as (env & s & m & E & O & F & K & A).
  cbn [app length] in O, A. destruct (fresh_made now _ _ F) as [Fm Zm].
  assert (Sn : map (sl_name prefix) m = map (fun c => prefixed prefix (c_name c)) (mem_part o)).
  { clear - Fm. induction Fm as [| c a cs sl [R _] F IH]; [reflexivity |]. cbn. unfold sl_name at 1. rewrite R, IH. reflexivity. }
  assert (N2 : NoDup (map (sl_name prefix) m ++ map (fun c => prefixed prefix (c_name c)) (cpu_part o))).
  { rewrite Sn, <- map_app. apply rows_distinct. }
  destruct (create_all_spec prefix now (cpu_part o) s m O N2) as (env2 & s2 & c & E2 & O2 & F2 & K2 & A2).
  destruct (fresh_made now _ _ F2) as [Fc Zc].
  assert (Hm : exists dep, make_producer o now =
    match (if ro_cpu o then match create_all prefix now s cpu_rows with Some (e, s') => Some (Some e, s') | None => None end else Some (None, s)) with
    | Some (e, s') => Some (MkRP o s' dep (if ro_memory o && ro_derived o then Some env else None) e)
    | None => None
    end).
  { unfold make_producer, mem_part in *. fold prefix. destruct (ro_memory o); [destruct (ro_derived o) |]; cbn [andb].
    - rewrite E. exists None. destruct (ro_cpu o); [destruct (create_all prefix now s cpu_rows) as [[? ?] |]; reflexivity | reflexivity].
    - rewrite E. exists (Some env). destruct (ro_cpu o); [destruct (create_all prefix now s cpu_rows) as [[? ?] |]; reflexivity | reflexivity].
    - cbn in E. injection E as <- <-. exists None. destruct (ro_cpu o); [destruct (create_all prefix now new_registry cpu_rows) as [[? ?] |]; reflexivity | reflexivity]. }
  destruct Hm as (dep & ->).
  assert (Hc : (if ro_cpu o then match create_all prefix now s cpu_rows with Some (e, s') => Some (Some e, s') | None => None end else Some (None, s))
               = Some (if ro_cpu o then Some env2 else None, s2)).
  { unfold cpu_part in E2. destruct (ro_cpu o); [rewrite E2; reflexivity |]. cbn in E2. injection E2 as <- <-. reflexivity. }
  rewrite Hc. eexists. split; [reflexivity |]. exists m, c. cbn [rp_reg rp_mem rp_cpu].
  split; [exact O2 |]. split; [exact Fm |]. split; [exact Fc |]. split.
  - destruct (ro_memory o && ro_derived o) eqn:D; [| split; [reflexivity | exact Zm]].
    exists env. split; [reflexivity |]. split; [| apply env_at_app; exact A].
    apply andb_true_iff in D. destruct D as [D1 D2]. rewrite K. unfold mem_part. rewrite D1, D2. reflexivity.
  - unfold cpu_part in K2. destruct (ro_cpu o); [| reflexivity]. exists env2. auto.
Qed.

(** ** One Read *)

Definition matches (rt : rtval) (k : mkind) (e : entry) (w : shown) : Prop :=
  match w, k, e with
  | Gauge v, KInt, EGaugeI z => z = v rt
  | Total v, KCum, EFnI fn => closure_value rt fn = v rt
  | Share v, KFloat, EGaugeF z => z = v rt
  | _, _, _ => False
  end.

(** The row is a row of the specification, and [find] gives the statement that sets it. *)
Definition row_ok (rt : rtval) (sts : list stmt) (c : crow) (r : sp_row) : Prop :=
  c_name c = sp_name r /\ c_unit c = sp_unit r /\
  exists st, find (fun st => bytes_eqb (svar st) (c_var c)) sts = Some st /\ matches rt (c_kind c) (sresult rt st) (sp_shown r).

Ltac rows := repeat (constructor; [split; [reflexivity | split; [reflexivity | eexists; split; [vm_compute; reflexivity | reflexivity]]] |]); constructor.
Lemma mem_rows_ok rt : Forall2 (row_ok rt mem_read) mem_rows memory_metrics.
Proof. unfold mem_rows, memory_metrics. rows. Qed.
Lemma cpu_rows_ok rt : Forall2 (row_ok rt cpu_read) cpu_rows cpu_metrics.
Proof. unfold cpu_rows, cpu_metrics. rows. Qed.

Definition zero_ok (rt : rtval) (c : crow) (r : sp_row) : Prop :=
  c_name c = sp_name r /\ c_unit c = sp_unit r /\
  exists e, zero_entry (c_kind c) = Some e /\ matches rt (c_kind c) e (sp_shown r).
Lemma deprecated_rows_ok rt : Forall2 (zero_ok rt) deprecated_rows (map stuck memory_metrics).
Proof.
  unfold deprecated_rows, memory_metrics. cbn [map stuck sp_name sp_unit sp_shown].
  repeat (constructor; [split; [reflexivity | split; [reflexivity | eexists; split; reflexivity]] |]); constructor.
Qed.

Lemma matches_shows prefix (made : bytes -> time) rt now a r x e :
  sl_made a = made (c_name (sl_row a)) -> sl_val a = Some (x, e) ->
  c_name (sl_row a) = sp_name r -> c_unit (sl_row a) = sp_unit r -> matches rt (c_kind (sl_row a)) e (sp_shown r) ->
  shows prefix made rt now r (report prefix (closure_value rt) (fun _ => f_zero) now a).
Proof.
  intros M V Nm U W. unfold shows, report. rewrite V. cbn [mm_desc mm_series bm_of bm_desc d_name d_unit d_keys d_type].
  split; [rewrite prefixed_app, Nm; reflexivity |]. split; [exact U |]. split; [reflexivity |].
  unfold matches in W. destruct (sp_shown r) as [v | v | v], (c_kind (sl_row a)), e; try contradiction; cbn [kind_type bm_metric_type read_entry].
  - subst. split; [reflexivity |]. do 3 f_equal. rewrite Z.max_comm. unfold Z.max. destruct (Z.ltb_spec (v rt) 0) as [L | L]; destruct (Z.compare_spec (v rt) 0) as [C | C | C]; try reflexivity; lia.
  - rewrite W, M, Nm. split; reflexivity.
  - subst. split; reflexivity.
Qed.

Lemma Forall2_of_nth {A B} (R : A -> B -> Prop) : forall l m, length l = length m ->
  (forall i a b, nth_error l i = Some a -> nth_error m i = Some b -> R a b) -> Forall2 R l m.
Proof.
  induction l as [| a l IH]; intros [| b m] L H; try discriminate; constructor.
  - exact (H 0 a b eq_refl eq_refl).
  - apply IH; [cbn in L; lia |]. intros i. exact (H (S i)).
Qed.
Lemma Forall2_len {A B} (R : A -> B -> Prop) l m : Forall2 R l m -> length l = length m.
Proof. induction 1; cbn; congruence. Qed.

(** The statements of read find their variables, with the right types. *)
Definition covered (cs : list crow) (sts : list stmt) : bool :=
  forallb (fun st => existsb (fun c => bytes_eqb (c_var c) (svar st) &&
     match c_kind c, skind st with KInt, KInt | KFloat, KFloat | KCum, KCum => true | _, _ => false end) cs) sts.

Lemma covered_spec cs sts (env : list (bytes * nat)) sl lo (now : bytes -> time) a0 b0 :
  covered cs sts = true -> map fst env = map c_var cs -> sl = a0 ++ b0 -> 
  (forall i c, nth_error cs i = Some c -> exists a, nth_error sl (lo + i) = Some a /\ made_slot now c a) ->
  forall st, In st sts -> exists j x a, nth_error env j = Some (svar st, x) /\ nth_error sl (lo + j) = Some a /\ c_kind (sl_row a) = skind st.
Proof.
  intros C K _ H st I. unfold covered in C. rewrite forallb_forall in C. specialize (C st I). apply existsb_exists in C.
  destruct C as (c & Ic & Q). apply andb_true_iff in Q. destruct Q as [Q1 Q2]. destruct (bytes_eqb_spec (c_var c) (svar st)) as [Ev |]; [| discriminate].
  apply In_nth_error in Ic. destruct Ic as (i & Ei). destruct (H i c Ei) as (a & Ea & R & _).
  assert (G : nth_error (map fst env) i = Some (svar st)) by (rewrite K, nth_error_map, Ei; cbn; congruence).
  rewrite nth_error_map in G. destruct (nth_error env i) as [[v x] |] eqn:Ex; [| discriminate]. cbn in G. injection G as ->.
  exists i, x, a. split; [exact Ex |]. split; [exact Ea |]. rewrite R. destruct (c_kind c), (skind st); try discriminate; reflexivity.
Qed.

(** What one of the two read methods does to the slots [mid] that belong to it. *)
Lemma read_part rt prefix (now : bytes -> time) env cs sts pre mid post s :
  slots_ok prefix (pre ++ mid ++ post) s -> Forall2 (made_slot now) cs mid ->
  map fst env = map c_var cs -> env_at env (pre ++ mid ++ post) (length pre) ->
  distinct (map c_var cs) = true -> distinct (map svar sts) = true -> covered cs sts = true ->
  exists s' mid', exec_all rt env s sts = Some s' /\ slots_ok prefix (pre ++ mid' ++ post) s' /\
    Forall2 (made_slot now) cs mid' /\
    (forall env' lo', env_at env' (pre ++ mid ++ post) lo' -> env_at env' (pre ++ mid' ++ post) lo') /\
    Forall2 (fun c a => forall st, find (fun st => bytes_eqb (svar st) (c_var c)) sts = Some st ->
                          exists y, sl_val a = Some (y, sresult rt st)) cs mid'.
Proof.
  intros O F K A D1 D2 C. pose proof (Forall2_len _ _ _ F) as Lm.
  assert (Le : length env = length mid) by (rewrite <- Lm, <- (map_length c_var), <- K, map_length; reflexivity).
  assert (At : forall i c, nth_error cs i = Some c -> exists a, nth_error (pre ++ mid ++ post) (length pre + i) = Some a /\ made_slot now c a).
  { intros i c E. destruct (Forall2_nth _ _ _ F i c E) as (a & Ea & Ma). exists a. split; [| exact Ma].
    rewrite nth_error_app2 by lia. replace (length pre + i - length pre) with i by lia. rewrite nth_error_app1; [exact Ea |]. apply nth_error_Some. congruence. }
  destruct (exec_all_spec rt prefix env (length pre) sts (pre ++ mid ++ post) s O A) as (s' & sl' & E & O' & S & A' & Keep & Val).
  { rewrite K. apply distinct_NoDup. exact D1. }
  { apply distinct_NoDup. exact D2. }
  { exact (covered_spec cs sts env _ (length pre) now pre (mid ++ post) C K eq_refl At). }
  assert (Ls : length sl' = length (pre ++ mid ++ post)) by (symmetry; exact (Forall2_len _ _ _ S)).
  rewrite !app_length in Ls.
  assert (Split : sl' = pre ++ firstn (length mid) (skipn (length pre) sl') ++ post).
  { apply nth_error_same. intros i. destruct (Nat.lt_ge_cases i (length pre)) as [L1 | L1].
    - rewrite nth_error_app1 by exact L1. destruct (nth_error pre i) as [a |] eqn:Ea; [| apply nth_error_None in Ea; lia].
      apply Keep; [rewrite nth_error_app1 by exact L1; exact Ea |]. intros. lia.
    - rewrite nth_error_app2 by exact L1. destruct (Nat.lt_ge_cases i (length pre + length mid)) as [L2 | L2].
      + rewrite nth_error_app1 by (rewrite firstn_length, skipn_length; lia).
        assert (G : forall (l : list slot) n k, k < n -> nth_error (firstn n l) k = nth_error l k).
        { clear. induction l as [| b l IH]; intros [| n] [| k] H; try lia; cbn; try reflexivity. apply IH. lia. }
        rewrite G by lia. assert (G2 : forall (l : list slot) n k, nth_error (skipn n l) k = nth_error l (n + k)).
        { clear. induction l as [| b l IH]; intros [| n] k; cbn; try reflexivity; [destruct k; reflexivity |]. apply IH. }
        rewrite G2. f_equal. lia.
      + rewrite nth_error_app2 by (rewrite firstn_length, skipn_length; lia).
        rewrite firstn_length, skipn_length. replace (Nat.min (length mid) (length sl' - length pre)) with (length mid) by lia.
        destruct (nth_error post (i - length pre - length mid)) as [a |] eqn:Ea.
        * apply Keep.
          -- rewrite nth_error_app2 by exact L1. rewrite nth_error_app2 by lia. exact Ea.
          -- intros j st x _ G. assert (j < length env) by (apply nth_error_Some; congruence). lia.
        * apply nth_error_None in Ea. apply nth_error_None. lia. }
  set (mid' := firstn (length mid) (skipn (length pre) sl')) in *.
  assert (Lm' : length mid' = length mid) by (unfold mid'; rewrite firstn_length, skipn_length; lia).
  clearbody mid'. subst sl'. exists s', mid'. split; [exact E |]. split; [exact O' |].
  assert (At' : forall i a, nth_error mid' i = Some a -> nth_error (pre ++ mid' ++ post) (length pre + i) = Some a).
  { intros i a Ea. rewrite nth_error_app2 by lia. replace (length pre + i - length pre) with i by lia. rewrite nth_error_app1; [exact Ea |]. apply nth_error_Some. congruence. }
  split; [| split; [exact A' |]].
  - apply Forall2_of_nth; [lia |]. intros i c a Ec Ea. destruct (At i c Ec) as (b & Eb & Rb & Mb).
    destruct (Forall2_nth _ _ _ S _ _ Eb) as (a' & Ea' & Sa1 & Sa2). rewrite (At' _ _ Ea) in Ea'. injection Ea' as <-. split; congruence.
  - apply Forall2_of_nth; [lia |]. intros i c a Ec Ea st Fs. apply find_some in Fs. destruct Fs as [Is Q].
    destruct (bytes_eqb_spec (svar st) (c_var c)) as [Ev |]; [| discriminate].
    assert (G : nth_error (map fst env) i = Some (svar st)) by (rewrite K, nth_error_map, Ec; cbn; congruence).
    rewrite nth_error_map in G. destruct (nth_error env i) as [[v x] |] eqn:Ex; [| discriminate]. cbn in G. injection G as ->.
    destruct (Val i st x Is Ex) as (b & y & Eb & Vb). rewrite (At' _ _ Ea) in Eb. injection Eb as <-. eauto.
Qed.

Lemma part_shows rt prefix (made : bytes -> time) now sts cs rs mid :
  Forall2 (row_ok rt sts) cs rs -> Forall2 (made_slot made) cs mid ->
  Forall2 (fun c a => forall st, find (fun st => bytes_eqb (svar st) (c_var c)) sts = Some st -> exists y, sl_val a = Some (y, sresult rt st)) cs mid ->
  Forall2 (shows prefix made rt now) rs (map (report prefix (closure_value rt) (fun _ => f_zero) now) mid).
Proof.
  intros R. revert mid. induction R as [| c r cs rs (N & U & st & Fs & W) R IH]; intros mid M V; inversion M as [| c' a cs' mid' [Rm Mm] M']; subst; [constructor |].
  inversion V as [| ? ? ? ? V0 V']; subst. destruct (V0 st Fs) as (y & Va). constructor; [| auto].
  eapply matches_shows; eauto.
Qed.

Lemma zero_shows rt prefix (made : bytes -> time) now cs rs mid :
  Forall2 (zero_ok rt) cs rs -> Forall2 (made_slot made) cs mid -> Forall zero_slot mid ->
  Forall2 (shows prefix made rt now) rs (map (report prefix (closure_value rt) (fun _ => f_zero) now) mid).
Proof.
  intros R. revert mid. induction R as [| c r cs rs (N & U & e & Ze & W) R IH]; intros mid M V; inversion M as [| c' a cs' mid' [Rm Mm] M']; subst; [constructor |].
  inversion V as [| ? ? V0 V']; subst. unfold zero_slot in V0. rewrite Ze in V0. destruct (sl_val a) as [[y e'] |] eqn:Va; [| discriminate].
  cbn in V0. injection V0 as ->. constructor; [| auto]. eapply matches_shows; eauto.
Qed.

Lemma mem_vars_distinct : distinct (map c_var mem_rows) = true. Proof. vm_compute. reflexivity. Qed.
Lemma mem_read_distinct : distinct (map svar mem_read) = true. Proof. vm_compute. reflexivity. Qed.
Lemma mem_covered : covered mem_rows mem_read = true. Proof. vm_compute. reflexivity. Qed.
Lemma cpu_vars_distinct : distinct (map c_var cpu_rows) = true. Proof. vm_compute. reflexivity. Qed.
Lemma cpu_read_distinct : distinct (map svar cpu_read) = true. Proof. vm_compute. reflexivity. Qed.
Lemma cpu_covered : covered cpu_rows cpu_read = true. Proof. vm_compute. reflexivity. Qed.

Opaque mem_rows cpu_rows deprecated_rows mem_read cpu_read memory_metrics cpu_metrics.

Lemma producer_read_spec o (made : bytes -> time) p rt od now :
  pinv o made p ->
  exists ms p' ms', producer_read p rt od now = Some (ms, p') /\ pinv o made p' /\
    Permutation ms ms' /\ Forall2 (shows (ro_prefix o) made rt now) (expected_rows o) ms'.
Proof.
  intros (m & c & O & Fm & Fc & Hm & Hc). set (prefix := ro_prefix o) in *.
  assert (S1 : exists s1 m', match rp_mem p with Some e => exec_all rt e (rp_reg p) mem_read | None => Some (rp_reg p) end = Some s1 /\
    slots_ok prefix (m' ++ c) s1 /\ length m' = length m /\ Forall2 (made_slot made) (mem_part o) m' /\
    (forall env' lo', env_at env' (m ++ c) lo' -> env_at env' (m' ++ c) lo') /\
    (if ro_memory o && ro_derived o then True else Forall zero_slot m') /\
    Forall2 (shows prefix made rt now) (if ro_memory o then if ro_derived o then memory_metrics else map stuck memory_metrics else [])
      (map (report prefix (closure_value rt) (fun _ => f_zero) now) m')).
  { unfold mem_part in *. destruct (ro_memory o); [destruct (ro_derived o) |]; cbn [andb] in *.
    - destruct Hm as (env & Em & K & A). rewrite Em.
      destruct (read_part rt prefix made env mem_rows mem_read [] m c (rp_reg p) O Fm K A mem_vars_distinct mem_read_distinct mem_covered) as (s1 & m' & E & O1 & F1 & A1 & V1).
      exists s1, m'. split; [exact E |]. split; [exact O1 |]. split; [rewrite <- (Forall2_len _ _ _ F1), <- (Forall2_len _ _ _ Fm); reflexivity |].
      split; [exact F1 |]. split; [exact A1 |]. split; [exact I |]. eapply part_shows; [apply mem_rows_ok | exact F1 | exact V1].
    - destruct Hm as [Em Z]. rewrite Em. exists (rp_reg p), m. repeat (split; [auto |]). eapply zero_shows; [apply deprecated_rows_ok | exact Fm | exact Z].
    - destruct Hm as [Em Z]. rewrite Em. exists (rp_reg p), m. repeat (split; [auto |]). inversion Fm; subst. constructor. }
  destruct S1 as (s1 & m' & E1 & O1 & L1 & F1 & A1 & Z1 & W1).
  assert (S2 : exists s2 c', match rp_cpu p with Some e => exec_all rt e s1 cpu_read | None => Some s1 end = Some s2 /\
    slots_ok prefix (m' ++ c') s2 /\ Forall2 (made_slot made) (cpu_part o) c' /\
    (forall env' lo', env_at env' (m' ++ c) lo' -> env_at env' (m' ++ c') lo') /\
    Forall2 (shows prefix made rt now) (if ro_cpu o then cpu_metrics else []) (map (report prefix (closure_value rt) (fun _ => f_zero) now) c')).
  { unfold cpu_part in *. destruct (ro_cpu o).
    - destruct Hc as (env & Em & K & A). rewrite Em. apply A1 in A. rewrite <- L1 in A.
      destruct (read_part rt prefix made env cpu_rows cpu_read m' c [] s1) with (5 := cpu_vars_distinct) (6 := cpu_read_distinct) (7 := cpu_covered)
        as (s2 & c' & E & O2 & F2 & A2 & V2); [rewrite app_nil_r; exact O1 | exact Fc | exact K | rewrite app_nil_r; exact A |].
      rewrite (app_nil_r c') in O2, A2. rewrite (app_nil_r c) in A2. exists s2, c'. split; [exact E |]. split; [exact O2 |]. split; [exact F2 |]. split; [exact A2 |]. eapply part_shows; [apply cpu_rows_ok | exact F2 | exact V2].
    - rewrite Hc. exists s1, c. repeat (split; [auto |]). inversion Fc; subst. constructor. }
  destruct S2 as (s2 & c' & E2 & O2 & F2 & A2 & W2).
  destruct (registry_read_map od (closure_value rt) (fun _ => f_zero) now prefix (m' ++ c') s2 O2) as (ms & E3 & P).
  exists ms. eexists. exists (map (report prefix (closure_value rt) (fun _ => f_zero) now) (m' ++ c')).
  split; [unfold producer_read; rewrite E1, E2, E3; reflexivity |]. split; [| split; [exact P | rewrite map_app; apply Forall2_app; assumption]].
  exists m', c'. cbn [rp_reg rp_mem rp_cpu]. split; [exact O2 |]. split; [exact F1 |]. split; [exact F2 |]. split.
  - destruct (ro_memory o && ro_derived o); [| split; [exact (proj1 Hm) | exact Z1]]. destruct Hm as (env & Em & K & A). exists env. auto.
  - destruct (ro_cpu o); [| exact Hc]. destruct Hc as (env & Em & K & A). exists env. rewrite L1. auto.
Qed.

(** ** Histories *)

Definition winv (h : list (rwop * rwresp)) (w : rworld) : Prop :=
  Forall2 (fun e p => pinv (fst e) (snd e) p) (enables h) (rw_prods w) /\
  fold_left (fun a e => match fst e with
                        | WEnable _ _ => (Some (snd a), S (snd a))
                        | WDisable => (None, snd a)
                        | _ => a end) h (None, 0) = (rw_enabled w, length (rw_prods w)) /\
  (forall k, rw_enabled w = Some k -> k < length (rw_prods w)) /\
  mwf (rw_mgr w) /\
  (forall k, mget Nat.eqb (rw_mgr w) (run_id k) = if match rw_enabled w with Some j => j =? k | None => false end then Some tt else None) /\
  (forall k, mget Nat.eqb (rw_mgr w) (other_id k) = if other_in h k then Some tt else None).

Lemma run_eq j k : (run_id j =? run_id k) = (j =? k).
Proof. unfold run_id. destruct (Nat.eqb_spec j k) as [-> | N]; [apply Nat.eqb_refl |]. apply Nat.eqb_neq. lia. Qed.
Lemma other_eq j k : (other_id j =? other_id k) = (j =? k).
Proof. unfold other_id. destruct (Nat.eqb_spec j k) as [-> | N]; [apply Nat.eqb_refl |]. apply Nat.eqb_neq. lia. Qed.
Lemma run_other j k : (run_id j =? other_id k) = false.
Proof. unfold run_id, other_id. apply Nat.eqb_neq. lia. Qed.
Lemma other_run j k : (other_id j =? run_id k) = false.
Proof. unfold run_id, other_id. apply Nat.eqb_neq. lia. Qed.

Lemma mget_step m op q : mget Nat.eqb (manager_step m op) q =
  match op with
  | MAdd (Some p) => if p =? q then Some tt else mget Nat.eqb m q
  | MDelete (Some p) => if p =? q then None else mget Nat.eqb m q
  | _ => mget Nat.eqb m q
  end.
Proof.
  destruct op as [[p |] | [p |]]; cbn [manager_step]; try reflexivity.
  - apply (mget_mset Nat.eqb Nat.eqb_spec).
  - apply (mget_mdel Nat.eqb Nat.eqb_spec).
Qed.
Lemma mwf_step m op : mwf m -> mwf (manager_step m op).
Proof. destruct op as [[p |] | [p |]]; cbn [manager_step]; intros W; try exact W; [apply (mwf_mset Nat.eqb Nat.eqb_spec) | apply (mwf_mdel Nat.eqb)]; exact W. Qed.

Lemma enables_snoc h e : enables (h ++ [e]) = enables h ++ match fst e with WEnable o now => [(o, now)] | _ => [] end.
Proof. unfold enables. rewrite flat_map_app. cbn. rewrite app_nil_r. reflexivity. Qed.
Lemma other_in_snoc h e k : other_in (h ++ [e]) k = match fst e with WOther add k' => if k' =? k then add else other_in h k | _ => other_in h k end.
Proof. unfold other_in. rewrite fold_left_app. reflexivity. Qed.

Lemma Forall2_upd_r {A B} (R : A -> B -> Prop) l m k b : Forall2 R l m -> (forall a, nth_error l k = Some a -> R a b) -> Forall2 R l (upd m k (fun _ => b)).
Proof. intros F. revert k. induction F as [| a c l m H F IH]; intros [| k] Q; cbn; constructor; auto. Qed.

Lemma winv_step h w op r w' : winv h w -> rwstep w op = (r, w') -> winv (h ++ [(op, r)]) w'.
Proof.
  intros (P & Cu & Lt & W & R & Ot) E. unfold winv. rewrite fold_left_app, Cu, enables_snoc. cbn [fold_left fst snd].
  destruct op as [o now | | add q | k rt od now]; cbn [rwstep] in E.
  - destruct (make_producer_spec o now) as (p & Ep & Ip). rewrite Ep in E. apply pair_equal_spec in E; destruct E as [<- <-]. cbn [rw_prods rw_enabled rw_mgr].
    split; [apply Forall2_app; [exact P | repeat constructor; exact Ip] |]. rewrite app_length, Nat.add_1_r.
    split; [reflexivity |]. split; [intros k Ek; injection Ek as <-; lia |].
    split; [apply (mwf_step _ (MAdd _)), mwf_step; exact W |]. split.
    + intros k. rewrite mget_step, run_eq. destruct (Nat.eqb_spec (length (rw_prods w)) k) as [Ek | Nk]; [reflexivity |].
      rewrite mget_step. destruct (rw_enabled w) as [j |] eqn:Ej; cbn [option_map].
      * rewrite run_eq. destruct (Nat.eqb_spec j k) as [-> | Nj]; [reflexivity |]. rewrite R. destruct (Nat.eqb_spec j k); [contradiction | reflexivity].
      * apply R.
    + intros k. rewrite mget_step, run_other, mget_step, other_in_snoc. cbn [fst]. destruct (rw_enabled w); cbn [option_map]; [rewrite run_other |]; apply Ot.
  - apply pair_equal_spec in E; destruct E as [<- <-]. cbn [rw_prods rw_enabled rw_mgr]. rewrite app_nil_r. split; [exact P |]. split; [reflexivity |]. split; [discriminate |].
    split; [apply (mwf_step _ (MDelete _)); exact W |]. split.
    + intros k. rewrite mget_step. destruct (rw_enabled w) as [j |] eqn:Ej; cbn [option_map].
      * rewrite run_eq. destruct (Nat.eqb_spec j k) as [-> | Nj]; [reflexivity |]. rewrite R. destruct (Nat.eqb_spec j k); [contradiction | reflexivity].
      * apply R.
    + intros k. rewrite mget_step, other_in_snoc. cbn [fst]. destruct (rw_enabled w); cbn [option_map]; [rewrite run_other |]; apply Ot.
  - apply pair_equal_spec in E; destruct E as [<- <-]. cbn [rw_prods rw_enabled rw_mgr]. rewrite app_nil_r. split; [exact P |]. split; [reflexivity |]. split; [exact Lt |].
    split; [apply mwf_step; exact W |]. split.
    + intros k. rewrite mget_step. destruct add; rewrite other_run; apply R.
    + intros k. rewrite mget_step, other_in_snoc. cbn [fst]. destruct add; rewrite other_eq; destruct (q =? k); try reflexivity; apply Ot.
  - assert (Keep : winv (h ++ [(WRead k rt od now, r)]) w).
    { unfold winv. rewrite fold_left_app, Cu, enables_snoc. cbn [fold_left fst snd]. rewrite app_nil_r. split; [exact P |]. split; [reflexivity |]. split; [exact Lt |].
      split; [exact W |]. split; [exact R |]. intros q. rewrite other_in_snoc. apply Ot. }
    destruct Keep as (P' & Cu' & Lt' & W' & R' & Ot'). rewrite fold_left_app, Cu, enables_snoc in *. cbn [fold_left fst snd] in *.
    destruct (nth_error (rw_prods w) k) as [p |] eqn:Ep; [| injection E as <- <-; auto 8].
    destruct (producer_read p rt od now) as [[ms p'] |] eqn:Er; [| injection E as <- <-; auto 8].
    apply pair_equal_spec in E; destruct E as [<- <-]. cbn [rw_prods rw_enabled rw_mgr]. rewrite upd_length. split; [| auto 8].
    apply Forall2_upd_r; [exact P' |]. intros [o made] Ee. cbn [fst snd].
    rewrite app_nil_r in Ee. destruct (Forall2_nth _ _ _ P k _ Ee) as (p0 & Ep0 & Ip). rewrite Ep in Ep0. injection Ep0 as <-.
    destruct (producer_read_spec _ _ p rt od now Ip) as (ms0 & p1 & ms1 & E1 & I1 & _). rewrite Er in E1. injection E1 as <- <-. exact I1.
Qed.

Lemma winv_run h w : rwrun h w -> winv h w.
Proof.
  induction 1 as [| h w op r w' H IH E]; [| eapply winv_step; eassumption].
  split; [constructor |]. split; [reflexivity |]. split; [discriminate |]. split; [constructor |]. split; reflexivity.
Qed.

Lemma rwrun_snoc_inv h op r w : rwrun (h ++ [(op, r)]) w -> exists w0, rwrun h w0 /\ rwstep w0 op = (r, w).
Proof.
  intros H. inversion H as [E | h' w0 op' r' w' H' E Eh]; [destruct h; discriminate |].
  apply app_inj_tail in Eh. destruct Eh as [-> Q]. injection Q as -> ->. eauto.
Qed.

(** Enable never fails, whatever the options and whatever came before. *)
Theorem C68_enable_never_fails h o made r w : rwrun (h ++ [(WEnable o made, r)]) w -> r = WOk.
Proof.
  intros H. apply rwrun_snoc_inv in H. destruct H as (w0 & _ & E). cbn [rwstep] in E.
  destruct (make_producer_spec o made) as (p & Ep & _). rewrite Ep in E. injection E as <- _. reflexivity.
Qed.

(** Every Read of every producer ever enabled, after any calls, reports exactly the
    metrics its options select, in some order, each with the runtime's value at this
    very Read. *)
Theorem C61_read h k rt od now r w o made :
  rwrun (h ++ [(WRead k rt od now, r)]) w -> nth_error (enables h) k = Some (o, made) ->
  exists ms ms', r = WMetrics ms /\ Permutation ms ms' /\
    Forall2 (shows (ro_prefix o) made rt now) (expected_rows o) ms'.
Proof.
  intros H En. apply rwrun_snoc_inv in H. destruct H as (w0 & H & E). apply winv_run in H. destruct H as (P & _).
  destruct (Forall2_nth _ _ _ P k _ En) as (p & Ep & Ip). cbn [fst snd] in Ip. cbn [rwstep] in E. rewrite Ep in E.
  destruct (producer_read_spec _ _ p rt od now Ip) as (ms & p' & ms' & E1 & _ & Pm & F). rewrite E1 in E. injection E as <- _. eauto.
Qed.

(** Names are distinct. *)
Theorem C61_names_distinct o : NoDup (map sp_name (expected_rows o)).
Proof. apply distinct_NoDup. destruct o as [[] [] [] p]; vm_compute; reflexivity. Qed.

(** At any time the manager holds, of this package, exactly the producer of the last
    Enable that no Disable followed, and other producers are left alone. *)
Theorem C68_one_producer h w (od : order) : rwrun h w ->
  NoDup (get_all od (rw_mgr w)) /\
  forall id, In id (get_all od (rw_mgr w)) <->
    (exists k, current h = Some k /\ id = run_id k) \/ (exists k, other_in h k = true /\ id = other_id k).
Proof.
  intros H. apply winv_run in H. destruct H as (_ & Cu & _ & W & R & Ot). unfold get_all. split.
  - apply (Permutation_NoDup (l := map fst (rw_mgr w))); [| exact W]. apply Permutation_map, Permutation_sym, (ord_perm od).
  - intros id. rewrite (Permutation_in' (eq_refl id) (Permutation_map fst (ord_perm od _ (rw_mgr w)))).
    assert (Q : In id (map fst (rw_mgr w)) <-> mget Nat.eqb (rw_mgr w) id <> None).
    { split; intros G.
      - intros E. apply (mget_None Nat.eqb Nat.eqb_spec) in E. contradiction.
      - destruct (mget Nat.eqb (rw_mgr w) id) as [u |] eqn:E; [exact (mget_Some_key Nat.eqb Nat.eqb_spec _ _ _ E) | congruence]. }
    rewrite Q. clear Q. unfold current. rewrite Cu. cbn [fst]. split.
    + destruct (Nat.Even_Odd_dec id) as [[k ->] | [k ->]]; intros G.
      * left. exists k. change (2 * k) with (run_id k) in *. rewrite R in G. destruct (rw_enabled w) as [j |]; [| congruence].
        destruct (Nat.eqb_spec j k) as [-> | N]; [auto | congruence].
      * right. exists k. change (2 * k + 1) with (other_id k) in *. rewrite Ot in G. destruct (other_in h k); [auto | congruence].
    + intros [(k & Ek & ->) | (k & Ek & ->)].
      * rewrite R, Ek, Nat.eqb_refl. discriminate.
      * rewrite Ot, Ek. discriminate.
Qed.

(** ... and that producer is one Enable made, with the options of that call. *)
Theorem C68_current_enabled h w k : rwrun h w -> current h = Some k -> exists o made, nth_error (enables h) k = Some (o, made).
Proof.
  intros H C. apply winv_run in H. destruct H as (P & Cu & Lt & _). unfold current in C. rewrite Cu in C. cbn in C.
  apply Lt in C. rewrite <- (Forall2_len _ _ _ P) in C. destruct (nth_error (enables h) k) as [[o made] |] eqn:E; [eauto | apply nth_error_None in E; lia].
Qed.

(** Defect: with the default options the memory metrics never show anything but 0,
    whatever the runtime says and however often they are read (Read never calls
    deprecatedMemStats.read). *)
Theorem C61_default_memory_refuted h k rt od now ms w o made :
  rwrun (h ++ [(WRead k rt od now, WMetrics ms)]) w -> nth_error (enables h) k = Some (o, made) ->
  ro_memory o = true -> ro_derived o = false ->
  forall r, In r memory_metrics ->
    (exists mm, In mm ms /\ d_name (mm_desc mm) = ro_prefix o ++ sp_name r) /\
    forall mm, In mm ms -> d_name (mm_desc mm) = ro_prefix o ++ sp_name r ->
      exists v, mm_series mm = [MkS now [] (now, v)] /\ (v = MPInt 0 \/ v = MPFloat f_zero).
Proof.
  intros H En M D r Ir. destruct (C61_read h k rt od now _ w o made H En) as (ms0 & ms' & E & P & F). injection E as <-.
  unfold expected_rows in F. rewrite M, D in F. apply Forall2_app_inv_l in F. destruct F as (m1 & m2 & F1 & F2 & ->).
  assert (Z : forall s mm, In s (map stuck memory_metrics) -> shows (ro_prefix o) made rt now s mm -> exists v, mm_series mm = [MkS now [] (now, v)] /\ (v = MPInt 0 \/ v = MPFloat f_zero)).
  { intros s mm Is (_ & _ & _ & Q). apply in_map_iff in Is. destruct Is as (s0 & <- & _). unfold stuck in Q. cbn [sp_shown] in Q.
    destruct (sp_shown s0); cbn in Q; destruct Q as [_ Q]; eexists; (split; [exact Q |]); auto. }
  split.
  - assert (Is : In (stuck r) (map stuck memory_metrics)) by (apply in_map; exact Ir). apply In_nth_error in Is. destruct Is as (i & Ei).
    destruct (Forall2_nth _ _ _ F1 i _ Ei) as (mm & Em & (Nm & _)). exists mm. split; [| exact Nm].
    apply (Permutation_in _ (Permutation_sym P)), in_or_app. left. eapply nth_error_In. exact Em.
  - intros mm Im Nm. apply (Permutation_in _ P) in Im. apply in_app_or in Im.
    assert (Back : forall rs l, Forall2 (shows (ro_prefix o) made rt now) rs l -> In mm l -> exists s, In s rs /\ shows (ro_prefix o) made rt now s mm).
    { clear. induction 1 as [| a b rs l S F IH]; intros I; [destruct I |]. destruct I as [-> | I]; [exists a; split; [left; reflexivity | exact S] |].
      destruct (IH I) as (s & Is & Ss). exists s. split; [right; exact Is | exact Ss]. }
    destruct Im as [Im | Im].
    + destruct (Back _ _ F1 Im) as (s & Is & Ss). exact (Z s mm Is Ss).
    + destruct (Back _ _ F2 Im) as (s & Is & (Ns & _)). exfalso. rewrite Nm in Ns. apply app_inv_head in Ns.
      destruct (ro_cpu o); [| destruct Is].
      assert (Dj : forallb (fun r => forallb (fun s => negb (bytes_eqb (sp_name r) (sp_name s))) cpu_metrics) memory_metrics = true) by (vm_compute; reflexivity).
      rewrite forallb_forall in Dj. specialize (Dj r Ir). rewrite forallb_forall in Dj. specialize (Dj s Is). rewrite Ns, bytes_eqb_refl in Dj. discriminate.
Qed.

(** Any sequence of calls can be made. *)
Lemma rwrun_total ops : exists h w, rwrun h w /\ map fst h = ops.
Proof.
  induction ops as [| op ops (h & w & H & E)] using rev_ind.
  - exists [], rw_init. split; [constructor | reflexivity].
  - exists (h ++ [(op, fst (rwstep w op))]), (snd (rwstep w op)). split.
    + econstructor; [exact H |]. destruct (rwstep w op); reflexivity.
    + rewrite map_app, E. reflexivity.
Qed.

Definition ex_rt (released : N) : rtval := MkRT (fun f => match f with HeapReleased => released | Alloc => 5 | PauseTotalNs => 2999999 | _ => 0 end%N) f_zero 12 (-1).
Definition ex_on : run_options := MkRO true true true (bs "my_").
Definition ex_default : run_options := MkRO true true false [].

(** Defect: process/heap_release is declared cumulative, but shows the bytes currently
    returned to the system, which go down when the heap takes them back. *)
Theorem C61_release_refuted : exists h ms1 ms2 w mm1 mm2,
  rwrun (h ++ [(WRead 0 (ex_rt 7) id_order 10%Z, WMetrics ms1)] ++ [(WRead 0 (ex_rt 3) id_order 20%Z, WMetrics ms2)]) w /\
  In mm1 ms1 /\ In mm2 ms2 /\
  d_name (mm_desc mm1) = bs "my_process/heap_release" /\ d_name (mm_desc mm2) = bs "my_process/heap_release" /\
  d_type (mm_desc mm1) = TyCumulativeInt64 /\ d_type (mm_desc mm2) = TyCumulativeInt64 /\
  mm_series mm1 = [MkS 1%Z [] (10%Z, MPInt 7)] /\ mm_series mm2 = [MkS 1%Z [] (20%Z, MPInt 3)].
Proof.
  destruct (rwrun_total [WEnable ex_on (fun _ => 1%Z)]) as (h & w0 & H0 & Eh).
  assert (En : nth_error (enables h) 0 = Some (ex_on, fun _ => 1%Z)).
  { destruct h as [| [op r] [| ? ?]]; try discriminate. cbn in Eh. injection Eh as ->. reflexivity. }
  assert (St : forall rt now h w, rwrun h w -> nth_error (enables h) 0 = Some (ex_on, fun _ => 1%Z) ->
    exists ms w' mm, rwrun (h ++ [(WRead 0 rt id_order now, WMetrics ms)]) w' /\ In mm ms /\
      shows (bs "my_") (fun _ => 1%Z) rt now (MkSR (bs "process/heap_release") (bs "By") (Total (count_of HeapReleased))) mm).
  { intros rt now h1 w1 H1 E1. destruct (rwstep w1 (WRead 0 rt id_order now)) as [r w'] eqn:Er.
    pose proof (rwrun_snoc _ _ _ _ _ H1 Er) as H2. destruct (C61_read _ _ _ _ _ _ _ _ _ H2 E1) as (ms & ms' & -> & P & F).
    destruct (Forall2_nth _ _ _ F 11 (MkSR (bs "process/heap_release") (bs "By") (Total (count_of HeapReleased))) eq_refl) as (mm & Em & S).
    exists ms, w', mm. split; [exact H2 |]. split; [| exact S]. apply (Permutation_in _ (Permutation_sym P)). eapply nth_error_In. exact Em. }
  destruct (St (ex_rt 7) 10%Z h w0 H0 En) as (ms1 & w1 & mm1 & H1 & I1 & (N1 & _ & _ & T1 & S1)).
  destruct (St (ex_rt 3) 20%Z _ w1 H1) as (ms2 & w2 & mm2 & H2 & I2 & (N2 & _ & _ & T2 & S2)).
  { rewrite enables_snoc. cbn [fst]. rewrite app_nil_r. exact En. }
  exists h, ms1, ms2, w2, mm1, mm2. rewrite app_assoc. auto 12.
Qed.

(** The hypotheses are met: any calls can be made, and here is what they mean. *)
Example C61_nonvacuous : exists h w,
  rwrun h w /\
  map fst h = [WEnable ex_on (fun _ => 1%Z); WOther true 3; WRead 0 (ex_rt 7) id_order 10%Z; WEnable ex_default (fun _ => 2%Z)] /\
  nth_error (enables h) 0 = Some (ex_on, fun _ => 1%Z) /\ nth_error (enables h) 1 = Some (ex_default, fun _ => 2%Z) /\
  current h = Some 1 /\ other_in h 3 = true /\ other_in h 4 = false.
Proof.
  destruct (rwrun_total [WEnable ex_on (fun _ => 1%Z); WOther true 3; WRead 0 (ex_rt 7) id_order 10%Z; WEnable ex_default (fun _ => 2%Z)]) as (h & w & H & E).
  exists h, w. split; [exact H |]. split; [exact E |].
  destruct h as [| [o1 r1] [| [o2 r2] [| [o3 r3] [| [o4 r4] [|]]]]]; try discriminate. cbn [map fst] in E. injection E as -> -> -> ->. auto 8.
Qed.
Example C61_values : map (fun r => (sp_name r, match sp_shown r with Gauge v => Z.max 0 (v (ex_rt 7)) | Total v => v (ex_rt 7) | Share _ => 0%Z end))
    (filter (fun r => existsb (bytes_eqb (sp_name r)) [bs "process/memory_alloc"; bs "process/heap_release"; bs "process/pause_total"; bs "process/cpu_cgo_calls"]) (expected_rows ex_on))
  = [(bs "process/memory_alloc", 5%Z); (bs "process/heap_release", 7%Z); (bs "process/pause_total", 2%Z); (bs "process/cpu_cgo_calls", 0%Z)].
Proof. reflexivity. Qed.

Print Assumptions C68_enable_never_fails.
Print Assumptions C61_read.
Print Assumptions C61_names_distinct.
Print Assumptions C68_one_producer.
Print Assumptions C68_current_enabled.
Print Assumptions C61_default_memory_refuted.
Print Assumptions C61_release_refuted.
