(** C21, C22, C23: metric entries under concurrency. *)

From Coq Require Import String.
From Coq Require Import List Arith ZArith Bool Lia Permutation ZifyBool.
From Coq Require Import Floats.SpecFloat.
From Verif Require Import Base ListLib GoMap GoSort Float64 FloatAdd TagEncodingModel AggModel AggProofs MetricModel MetricSpec
  MetricConcModel MetricConcSpec MetricProofs MetricConcProofs.
Import ListNotations.
Open Scope nat_scope.

(** [cells]: the kinds and values of the entries at the start. *)
Definition starts (cells : list (bmtype * aval)) (ents : list entry) : Prop :=
  Forall2 (fun c e => entry_of (fst c) (snd c) = Some e) cells ents.

(** ** C22 *)

(** In every execution, the calls that have taken effect can be put in one order
    (that of [c_log]) such that
    - every entry's value is that of executing them one at a time in this order;
    - every read returned the value after those before it;
    - the calls of every goroutine appear in its program order, each exactly once,
      followed by those it has still to make, and it got exactly these results. *)
Theorem C22_linearizable cells ents progs s :
  starts cells ents -> creach ents progs s ->
  (forall x t v, nth_error cells x = Some (t, v) ->
     exists e, nth_error (c_ents s) x = Some e /\ entry_of t (val_after t v x (c_log s)) = Some e) /\
  (forall before g x p after, c_log s = before ++ (g, CORead x, Some p) :: after ->
     exists t v, nth_error cells x = Some (t, v) /\ p = spec_point t no_fi no_ff (val_after t v x before)) /\
  (forall g x p, nth_error (c_gs s) g = Some x -> nth_error progs g = Some p ->
     p = calls_of g (c_log s) ++ cg_todo x /\ cg_got x = points_of g (c_log s)).
Proof.
  intros F R. pose proof (creach_CI _ _ _ _ F R) as C. split; [apply C|]. split; [apply C|]. apply C.
Qed.

Lemma done_dec gs : Forall (fun x => cg_todo x = []) gs \/ Exists (fun x => cg_todo x <> []) gs.
Proof.
  induction gs as [|x gs [IH|IH]]; [left; constructor| |right; now right].
  destruct (cg_todo x) eqn:E; [left; now constructor|]. right. left. congruence.
Qed.

(** A goroutine can always go on until every call has returned ... *)
Theorem C22_no_deadlock ents progs s :
  creach ents progs s -> entries_ok (length ents) progs ->
  all_done s \/ exists ch s', is_retry ch = false /\ cdo s ch = Some s'.
Proof.
  intros R OK.
  assert (I : length (c_ents s) = length ents /\ Forall (fun x => Forall (fun op => match op with COUpd x _ | CORead x => x < length ents end) (cg_todo x)) (c_gs s)).
  { clear - R OK. induction R as [|s ch s' R IH E].
    - cbn. split; [reflexivity|]. rewrite Forall_map. exact OK.
    - destruct IH as [L F]. assert (U : forall g x y, nth_error (c_gs s) g = Some x -> (exists d, cg_todo x = d ++ cg_todo y) ->
        Forall (fun x => Forall (fun op => match op with COUpd x _ | CORead x => x < length ents end) (cg_todo x))
          (upd (c_gs s) g (fun _ => y))).
      { intros g x y Eg [d Hd]. rewrite Forall_forall in F |- *. intros z Hz. apply In_nth_error in Hz. destruct Hz as [i Hi].
        rewrite nth_error_upd in Hi. destruct (Nat.eqb_spec g i) as [Hgi|Hgi]; [subst i|].
        - rewrite Eg in Hi. injection Hi as <-. apply nth_error_In in Eg. specialize (F _ Eg). rewrite Hd in F. now apply Forall_app in F.
        - apply nth_error_In in Hi. now apply F. }
      destruct ch as [g|g]; cbn [cdo] in E; destruct (nth_error (c_gs s) g) as [[[|op rest] ld got]|] eqn:Eg; try discriminate E.
      + assert (U1 : forall y, cg_todo y = rest \/ cg_todo y = op :: rest ->
          Forall (fun x => Forall (fun op => match op with COUpd x _ | CORead x => x < length ents end) (cg_todo x)) (upd (c_gs s) g (fun _ => y))).
        { intros y [H|H]; eapply U; try exact Eg; rewrite H; [exists [op]|exists []]; reflexivity. }
        destruct op as [x u|x]; destruct (nth_error (c_ents s) x) as [e|]; try discriminate E.
        * destruct (uses_cas e u) as [w|]; [destruct ld as [old|]; [destruct (f_same w old)|]|]; injection E as <-; unfold set_g; cbn [c_ents];
            (split; [rewrite ?upd_length; exact L|]); apply U1; cbn; auto.
        * injection E as <-. unfold set_g. cbn [c_ents]. split; [exact L|]. apply U1; cbn; auto.
      + destruct ld as [[]|]; try discriminate E. injection E as <-. split; [exact L|]. eapply U; [exact Eg|]. exists []. reflexivity. }
  destruct I as [L F].
  destruct (done_dec (c_gs s)) as [H|H].
  - left. intros g x E. rewrite Forall_forall in H. apply H. now apply nth_error_In in E.
  - right. apply Exists_exists in H. destruct H as (x & Hin & Hx). rewrite Forall_forall in F. specialize (F x Hin).
    apply In_nth_error in Hin. destruct Hin as [g Hg]. destruct x as [[|op rest] ld got]; [cbn in Hx; congruence|].
    exists (CDo g). cbn [cdo]. rewrite Hg. cbn in F. inversion F as [|? ? Hop _]; subst.
    destruct op as [x u|x]; (destruct (nth_error (c_ents s) x) as [e|] eqn:Ee; [|apply nth_error_None in Ee; lia]).
    + destruct (uses_cas e u) as [w|]; [destruct ld as [old|]; [destruct (f_same w old)|]|]; eexists; split; reflexivity.
    + eexists; split; reflexivity.
Qed.

(** ... and will, whatever the schedule: with n goroutines making m calls together,
    every execution ends within (2n+2)m + 2n steps (not counting a compare-and-swap
    that fails because two NaNs have different bits). *)
Theorem C22_terminates ents progs chs s :
  csteps (cinit ents progs) chs s -> Forall (fun ch => is_retry ch = false) chs ->
  length chs <= (2 * length progs + 2) * length (concat progs) + 2 * length progs.
Proof.
  intros H F. assert (L : 2 * length (c_gs (cinit ents progs)) + 2 <= 2 * length progs + 2) by (unfold cinit; cbn [c_gs]; rewrite map_length; lia).
  pose proof (csteps_bound (2 * length progs + 2) _ _ _ L F H) as B.
  rewrite cmeasure_init in B. lia.
Qed.

(** ** C21 *)

Lemma creach_log_g ents progs s : creach ents progs s ->
  length (c_gs s) = length progs /\ Forall (fun e => fst (fst e) < length progs) (c_log s).
Proof.
  induction 1 as [|s ch s' R [L IH] E]; [cbn; rewrite map_length; auto|].
  destruct ch as [g|g]; cbn [cdo] in E; destruct (nth_error (c_gs s) g) as [[[|op rest] ld got]|] eqn:Eg; try discriminate E.
  - assert (Hg : g < length progs) by (rewrite <- L; apply nth_error_Some; congruence).
    destruct op as [x u|x]; destruct (nth_error (c_ents s) x) as [e|]; try discriminate E.
    + destruct (uses_cas e u) as [w|]; [destruct ld as [old|]; [destruct (f_same w old)|]|]; injection E as <-; unfold set_g; cbn [c_gs c_log];
        rewrite upd_length; split; auto; apply Forall_app; split; auto; constructor; auto.
    + injection E as <-. unfold set_g. cbn [c_gs c_log]. rewrite upd_length; split; auto; apply Forall_app; split; auto; constructor; auto.
  - destruct ld as [[]|]; try discriminate E. injection E as <-. unfold set_g. cbn [c_gs c_log]. rewrite upd_length. auto.
Qed.

Lemma calls_of_cons g e l : calls_of g (e :: l) = if fst (fst e) =? g then snd (fst e) :: calls_of g l else calls_of g l.
Proof. unfold calls_of. cbn. destruct (fst (fst e) =? g); reflexivity. Qed.

Lemma perm_add {A} (f h : nat -> list A) a g l : NoDup l -> In g l -> f g = a :: h g -> (forall i, i <> g -> f i = h i) ->
  Permutation (concat (map f l)) (a :: concat (map h l)).
Proof.
  intros N. induction N as [|i l Hi N IH]; intros Hg Ea Eo; [destruct Hg|]. cbn. destruct Hg as [->|Hg].
  - rewrite Ea. cbn. apply perm_skip. apply Permutation_app_head.
    replace (map f l) with (map h l); [reflexivity|]. apply map_ext_in. intros j Hj. symmetry. apply Eo. intros ->. contradiction.
  - rewrite (Eo i) by (intros ->; contradiction). rewrite (IH Hg Ea Eo). symmetry. apply Permutation_middle.
Qed.

Lemma log_perm n l : Forall (fun e : nat * cop * option mpoint => fst (fst e) < n) l ->
  Permutation (log_calls l) (concat (map (fun g => calls_of g l) (seq 0 n))).
Proof.
  induction 1 as [|e l H F IH]; cbn [log_calls map].
  - replace (concat _) with (@nil cop); [reflexivity|]. generalize 0. induction n as [|n IH]; intros i; cbn; auto.
  - symmetry. rewrite (perm_add _ (fun g => calls_of g l) (snd (fst e)) (fst (fst e))).
    + apply perm_skip. symmetry. exact IH.
    + apply seq_NoDup.
    + apply in_seq. lia.
    + rewrite calls_of_cons, Nat.eqb_refl. reflexivity.
    + intros i Hi. rewrite calls_of_cons. destruct (Nat.eqb_spec (fst (fst e)) i); [congruence|reflexivity].
Qed.

Lemma map_nth_seq {A} (l : list A) f : (forall g p, nth_error l g = Some p -> f g = p) -> map f (seq 0 (length l)) = l.
Proof.
  intros H. apply nth_error_ext_eq. intros i. rewrite nth_error_map. destruct (nth_error l i) as [p|] eqn:E.
  - assert (i < length l) by (apply nth_error_Some; congruence).
    assert (X : nth_error (seq 0 (length l)) i = Some i).
    { rewrite (nth_error_nth' _ 0) by now rewrite seq_length. rewrite seq_nth by assumption. reflexivity. }
    rewrite X. cbn. now rewrite (H i p E).
  - apply nth_error_None in E. replace (nth_error (seq 0 (length l)) i) with (@None nat); [reflexivity|]. symmetry. apply nth_error_None. now rewrite seq_length.
Qed.

(** No call is lost and none happens twice: when all goroutines are done, the calls
    that took effect are exactly those of all the programs. *)
Theorem C21_every_call_once cells ents progs s :
  starts cells ents -> creach ents progs s -> all_done s -> Permutation (log_calls (c_log s)) (concat progs).
Proof.
  intros F R D. pose proof (creach_CI _ _ _ _ F R) as C. destruct (creach_log_g _ _ _ R) as [L G].
  rewrite (log_perm _ _ G). rewrite (map_nth_seq progs); [reflexivity|]. intros g p E.
  destruct (nth_error (c_gs s) g) as [x|] eqn:Eg.
  - destruct (ci_calls _ _ _ C g x p Eg E) as [H _]. rewrite (D g x Eg), app_nil_r in H. auto.
  - apply nth_error_None in Eg. assert (g < length progs) by (apply nth_error_Some; congruence). lia.
Qed.

Definition inc1 (x : nat) (op : cop) : Z :=
  match op with COUpd y (UIncI v) => if (y =? x) && (0 <? v)%Z then v else 0%Z | _ => 0%Z end.
Lemma inc1_nonneg x op : (0 <= inc1 x op)%Z.
Proof. destruct op as [y []|y]; cbn; try lia. destruct ((y =? x) && (0 <? v)%Z) eqn:E; lia. Qed.
Lemma incs_cons x op l : incs x (op :: l) = (inc1 x op + incs x l)%Z.
Proof. unfold incs, inc1. cbn [fold_right]. destruct op as [y []|y]; try reflexivity. destruct ((y =? x) && (0 <? v)%Z); reflexivity. Qed.
Lemma incs_nonneg x l : (0 <= incs x l)%Z.
Proof. induction l as [|op l IH]; [reflexivity|]. rewrite incs_cons. pose proof (inc1_nonneg x op). lia. Qed.
Lemma incs_app x l1 l2 : incs x (l1 ++ l2) = (incs x l1 + incs x l2)%Z.
Proof. induction l1 as [|op l IH]; [reflexivity|]. rewrite <- app_comm_cons, !incs_cons, IH. lia. Qed.
Lemma incs_perm x l1 l2 : Permutation l1 l2 -> incs x l1 = incs x l2.
Proof. induction 1 as [|op l l' H IH|op op' l|]; rewrite ?incs_cons; try congruence; lia. Qed.

Lemma log_le x cells ents progs s : starts cells ents -> creach ents progs s ->
  (incs x (log_calls (c_log s)) <= incs x (concat progs))%Z.
Proof.
  intros F R.
  pose proof (creach_CI _ _ _ _ F R) as C. destruct (creach_log_g _ _ _ R) as [L G].
    rewrite (incs_perm _ _ _ (log_perm _ _ G)).
    assert (P : forall g p, nth_error progs g = Some p -> exists d, p = calls_of g (c_log s) ++ d).
    { intros g p Ep. destruct (nth_error (c_gs s) g) as [y|] eqn:Eg.
      - destruct (ci_calls _ _ _ C g y p Eg Ep) as [H _]. eauto.
      - apply nth_error_None in Eg. assert (g < length progs) by (apply nth_error_Some; congruence). lia. }
    clear - P. set (f := fun g => calls_of g (c_log s)). change (forall g p, nth_error progs g = Some p -> exists d, p = f g ++ d) in P. clearbody f. revert P.
    assert (Q : forall k, (forall g p, nth_error progs g = Some p -> exists d, p = f (k + g) ++ d) ->
      (incs x (concat (map f (seq k (length progs)))) <= incs x (concat progs))%Z); [|intros P; apply (Q 0), P].
    induction progs as [|p progs IH]; intros k P; [cbn; lia|]. cbn [length seq map concat]. rewrite !incs_app.
    destruct (P 0 p eq_refl) as [d ->]. rewrite Nat.add_0_r, incs_app. pose proof (incs_nonneg x d).
    assert (incs x (concat (map f (seq (S k) (length progs)))) <= incs x (concat progs))%Z; [|lia].
    apply IH. intros g q Eq. destruct (P (S g) q Eq) as [d' ->]. exists d'. do 2 f_equal. lia.
Qed.

Lemma val_cumI v0 x l : (0 <= v0)%Z -> (v0 + incs x (log_calls l) < 2 ^ 63)%Z ->
  val_after CumulativeInt64 (AInt v0) x l = AInt (v0 + incs x (log_calls l)).
Proof.
  unfold val_after, log_calls. revert v0. induction l as [|[[g op] o] l IH]; intros v0 H0 H; cbn [fold_left map fst snd] in *.
  - f_equal. cbn. lia.
  - rewrite incs_cons in *. pose proof (incs_nonneg x (map (fun e => snd (fst e)) l)) as HN. pose proof (inc1_nonneg x op) as H1.
    assert (V : match op with COUpd y u => if y =? x then spec_update CumulativeInt64 (AInt v0) u else AInt v0 | CORead _ => AInt v0 end
                = AInt (v0 + inc1 x op)).
    { destruct op as [y u|y]; [|cbn; f_equal; lia]. destruct (y =? x) eqn:Ey.
      - destruct u; cbn [inc1] in *; rewrite ?Ey in *; cbn [spec_update andb] in *; try (f_equal; lia).
        destruct (0 <? v)%Z; [rewrite int64_of_small by lia; reflexivity|f_equal; lia].
      - destruct u; cbn [inc1]; rewrite ?Ey; cbn [andb]; f_equal; lia. }
    destruct op as [y u|y]; rewrite V; (rewrite IH; [f_equal; lia|lia|lia]).
Qed.

(** The value of an integer cumulative is its value at the start plus the positive
    increments that have taken effect, as long as the sum fits into an int64 ... *)
Theorem C21_int_value cells ents progs s x v0 :
  starts cells ents -> creach ents progs s -> nth_error cells x = Some (CumulativeInt64, AInt v0) ->
  (0 <= v0)%Z -> (v0 + incs x (concat progs) < 2 ^ 63)%Z ->
  nth_error (c_ents s) x = Some (ECumI (v0 + incs x (log_calls (c_log s)))) /\
  (all_done s -> nth_error (c_ents s) x = Some (ECumI (v0 + incs x (concat progs)))).
Proof.
  intros F R E H0 HB.
  pose proof (log_le x _ _ _ _ F R) as LE.
  destruct (C22_linearizable _ _ _ _ F R) as (V & _). destruct (V x _ _ E) as (e & Ee & Hv).
  rewrite val_cumI in Hv by lia. injection Hv as <-. split; [exact Ee|]. intros D.
  rewrite <- (incs_perm x _ _ (C21_every_call_once _ _ _ _ F R D)). exact Ee.
Qed.

(** ... and one read after another never shows less. *)
Theorem C21_int_never_decreases cells ents progs s x v0 l1 g1 p1 l2 g2 p2 l3 :
  starts cells ents -> creach ents progs s -> nth_error cells x = Some (CumulativeInt64, AInt v0) ->
  (0 <= v0)%Z -> (v0 + incs x (concat progs) < 2 ^ 63)%Z ->
  c_log s = l1 ++ (g1, CORead x, Some p1) :: l2 ++ (g2, CORead x, Some p2) :: l3 ->
  exists a b, p1 = MPInt a /\ p2 = MPInt b /\ (a <= b)%Z.
Proof.
  intros F R E H0 HB HL.
  pose proof (log_le x _ _ _ _ F R) as LE.
  destruct (C22_linearizable _ _ _ _ F R) as (_ & RD & _).
  destruct (RD _ _ _ _ _ HL) as (t1 & w1 & E1 & P1). rewrite E in E1. injection E1 as <- <-.
  rewrite app_comm_cons, app_assoc in HL. destruct (RD _ _ _ _ _ HL) as (t2 & w2 & E2 & P2). rewrite E in E2. injection E2 as <- <-.
  rewrite HL in LE. unfold log_calls in LE. rewrite !map_app in LE. cbn [map fst snd] in LE. rewrite ?incs_app, ?incs_cons, ?incs_app in LE.
  assert (Ea : incs x (log_calls (l1 ++ (g1, CORead x, Some p1) :: l2)) = (incs x (log_calls l1) + incs x (log_calls l2))%Z).
  { unfold log_calls. rewrite map_app. cbn [map fst snd]. rewrite incs_app, incs_cons. cbn [inc1]. lia. }
  cbn [inc1] in LE. fold (log_calls l1) (log_calls l2) (log_calls l3) in LE.
  pose proof (incs_nonneg x (log_calls l1)). pose proof (incs_nonneg x (log_calls l2)). pose proof (incs_nonneg x (log_calls l3)).
  rewrite val_cumI in P1 by lia. rewrite (val_cumI v0 x (l1 ++ (g1, CORead x, Some p1) :: l2)) in P2 by (rewrite ?Ea; lia). rewrite Ea in P2. cbn [spec_point] in P1, P2.
  exists (v0 + incs x (log_calls l1))%Z, (v0 + (incs x (log_calls l1) + incs x (log_calls l2)))%Z.
  rewrite P1, P2. split; [f_equal; lia|]. split; [f_equal; lia|lia].
Qed.

(** The value of a float cumulative is the float sum of the increments that have
    taken effect, in that order, and every accepted increment of the programs is
    among them once all are done. *)
Lemma val_cumF v0 x l : val_after CumulativeFloat64 (AFloat v0) x l = AFloat (fold_left f_add (fincs x (log_calls l)) v0).
Proof.
  unfold val_after, log_calls. revert v0. induction l as [|[[g op] o] l IH]; intros v0; cbn [fold_left map fst snd]; [reflexivity|].
  destruct op as [y u|y]; [|apply IH]. unfold fincs. cbn [flat_map]. fold (fincs x (map (fun e => snd (fst e)) l)).
  destruct (y =? x).
  - destruct u; cbn [spec_update andb app]; try apply IH. destruct (f_ltb v f_zero || f_eqb v f_zero); cbn [negb app fold_left]; apply IH.
  - destruct u; cbn [andb app]; apply IH.
Qed.

Lemma fincs_perm x l1 l2 : Permutation l1 l2 -> Permutation (fincs x l1) (fincs x l2).
Proof. intros H. unfold fincs. now apply Permutation_flat_map. Qed.

Theorem C21_float_value cells ents progs s x v0 :
  starts cells ents -> creach ents progs s -> nth_error cells x = Some (CumulativeFloat64, AFloat v0) ->
  nth_error (c_ents s) x = Some (ECumF (fold_left f_add (fincs x (log_calls (c_log s))) v0)) /\
  (all_done s -> Permutation (fincs x (log_calls (c_log s))) (fincs x (concat progs))).
Proof.
  intros F R E. destruct (C22_linearizable _ _ _ _ F R) as (V & _). destruct (V x _ _ E) as (e & Ee & Hv).
  rewrite val_cumF in Hv. injection Hv as <-. split; [exact Ee|]. intros D. apply fincs_perm. eapply C21_every_call_once; eassumption.
Qed.

(** Increments that are numbers. *)
Definition num_incs (progs : list (list cop)) : Prop :=
  Forall (Forall (fun op => match op with COUpd _ (UIncF v) => f_valid v /\ is_nan v = false | _ => True end)) progs.

Lemma accepted_pos v : f_valid v -> is_nan v = false -> negb (f_ltb v f_zero || f_eqb v f_zero) = true -> f_ltb f_zero v = true.
Proof. intros _ N. destruct v as [[]|[]| |[] m e]; cbn; try discriminate; auto. Qed.

Lemma fold_grows : forall incs v0, Forall (fun v => f_valid v /\ f_ltb f_zero v = true) incs ->
  f_valid v0 -> is_nan v0 = false -> f_ltb v0 f_zero = false ->
  let r := fold_left f_add incs v0 in
  f_valid r /\ is_nan r = false /\ f_ltb r f_zero = false /\ f_ltb r v0 = false.
Proof.
  induction incs as [|v incs IH]; intros v0 F V N P; cbn [fold_left].
  - split; [exact V|]. split; [exact N|]. split; [exact P|]. destruct (f_ltb v0 v0) eqn:E; [|reflexivity].
    apply f_ltb_num in E; auto. lia.
  - inversion F as [|? ? [Hv Hp] F']; subst. destruct (f_add_pos v0 v V Hv N P Hp) as (N1 & L1 & P1).
    pose proof (f_add_valid v0 v V Hv) as V1. destruct (IH (f_add v0 v) F' V1 N1 P1) as (V2 & N2 & P2 & L2).
    split; [exact V2|]. split; [exact N2|]. split; [exact P2|].
    destruct (f_ltb (fold_left f_add incs (f_add v0 v)) v0) eqn:E; [|reflexivity]. exfalso.
    apply f_ltb_num in E; auto. destruct E as (_ & _ & E).
    assert (A : ~ (f_num (f_add v0 v) < f_num v0)%Z).
    { intros X. assert (f_ltb (f_add v0 v) v0 = true) by (apply f_ltb_num; auto). congruence. }
    assert (B : ~ (f_num (fold_left f_add incs (f_add v0 v)) < f_num (f_add v0 v))%Z).
    { intros X. assert (f_ltb (fold_left f_add incs (f_add v0 v)) (f_add v0 v) = true) by (apply f_ltb_num; auto). congruence. }
    lia.
Qed.

(** One read after another never shows less; increments must be numbers, and
    rounding and overflow to +Inf are included. *)
Theorem C21_float_never_decreases cells ents progs s x v0 l1 g1 p1 l2 g2 p2 l3 :
  starts cells ents -> creach ents progs s -> nth_error cells x = Some (CumulativeFloat64, AFloat v0) ->
  f_valid v0 -> is_nan v0 = false -> f_ltb v0 f_zero = false -> num_incs progs ->
  c_log s = l1 ++ (g1, CORead x, Some p1) :: l2 ++ (g2, CORead x, Some p2) :: l3 ->
  exists a b, p1 = MPFloat a /\ p2 = MPFloat b /\ is_nan a = false /\ is_nan b = false /\ f_ltb b a = false.
Proof.
  intros F R E V N P Hn HL. pose proof (creach_CI _ _ _ _ F R) as C.
  assert (A : Forall (fun op => match op with COUpd _ (UIncF v) => f_valid v /\ is_nan v = false | _ => True end) (log_calls (c_log s))).
  { destruct (creach_log_g _ _ _ R) as [L G]. rewrite Forall_forall in G |- *. intros op Hin. unfold log_calls in Hin. apply in_map_iff in Hin.
    destruct Hin as (e & <- & Hin). specialize (G e Hin). rewrite <- L in G. apply nth_error_Some in G.
    destruct (nth_error (c_gs s) (fst (fst e))) as [y|] eqn:Eg; [|congruence].
    destruct (nth_error progs (fst (fst e))) as [p|] eqn:Ep.
    2:{ apply nth_error_None in Ep. assert (fst (fst e) < length (c_gs s)) by (apply nth_error_Some; congruence). lia. }
    destruct (ci_calls _ _ _ C _ _ _ Eg Ep) as [Hp _]. unfold num_incs in Hn. rewrite Forall_forall in Hn. specialize (Hn p (nth_error_In _ _ Ep)).
    rewrite Forall_forall in Hn. apply Hn. rewrite Hp. apply in_app_iff. left. unfold calls_of. apply in_map_iff. exists e. split; [reflexivity|].
    apply filter_In. split; [exact Hin|apply Nat.eqb_refl]. }
  assert (Q : forall l, Forall (fun op => match op with COUpd _ (UIncF v) => f_valid v /\ is_nan v = false | _ => True end) l ->
    Forall (fun v => f_valid v /\ f_ltb f_zero v = true) (fincs x l)).
  { intros l Hl. apply Forall_forall. intros v Hv. unfold fincs in Hv. apply in_flat_map in Hv. destruct Hv as (op & Hin & Hv).
    rewrite Forall_forall in Hl. specialize (Hl op Hin). destruct op as [y []|y]; cbn in Hv; try contradiction.
    destruct ((y =? x) && negb (f_ltb v1 f_zero || f_eqb v1 f_zero)) eqn:Eb; [|contradiction]. destruct Hv as [<-|[]]. apply andb_prop in Eb.
    destruct Hl. split; [assumption|]. now apply accepted_pos. }
  destruct (C22_linearizable _ _ _ _ F R) as (_ & RD & _).
  destruct (RD _ _ _ _ _ HL) as (t1 & w1 & E1 & P1). rewrite E in E1. injection E1 as <- <-.
  rewrite HL in A. rewrite app_comm_cons, app_assoc in HL. destruct (RD _ _ _ _ _ HL) as (t2 & w2 & E2 & P2). rewrite E in E2. injection E2 as <- <-.
  rewrite val_cumF in P1, P2. unfold log_calls in *. rewrite !map_app in *. cbn [map fst snd] in *. rewrite map_app in A.
  apply Forall_app in A. destruct A as [A1 A]. inversion A as [|? ? _ A']; subst. apply Forall_app in A'. destruct A' as [A2 _].
  assert (Ef : fincs x (map (fun e => snd (fst e)) l1 ++ CORead x :: map (fun e => snd (fst e)) l2)
               = fincs x (map (fun e => snd (fst e)) l1) ++ fincs x (map (fun e => snd (fst e)) l2)).
  { unfold fincs. rewrite flat_map_app. reflexivity. }
  rewrite Ef, fold_left_app in *. set (a := fold_left f_add (fincs x (map _ l1)) v0) in *.
  destruct (fold_grows _ v0 (Q _ A1) V N P) as (Va & Na & Pa & _). fold a in Va, Na, Pa.
  destruct (fold_grows _ a (Q _ A2) Va Na Pa) as (Vb & Nb & Pb & Lb).
  cbn [spec_point]. rewrite Pa, Pb. eexists _, _. split; [reflexivity|]. split; [reflexivity|]. auto.
Qed.

(** *** Concrete executions *)

Lemma crun_reach ents progs s chs s' : creach ents progs s -> crun s chs = Some s' -> creach ents progs s'.
Proof.
  revert s. induction chs as [|ch chs IH]; intros s R E; cbn in E; [now injection E as <-|].
  destruct (cdo s ch) as [s1|] eqn:E1; [|discriminate E]. eapply IH; [|exact E]. eapply creach_step; eassumption.
Qed.

Definition one : f64 := S754_finite false 4503599627370496 (-52).

(** Two goroutines: both load the same float; the loser of the race retries, and both
    increments count. *)
Definition ex_cells : list (bmtype * aval) := [(CumulativeFloat64, AFloat f_zero); (CumulativeInt64, AInt 5); (GaugeInt64, AInt 0)].
Definition ex_ents : list entry := [ECumF f_zero; ECumI 5; EGaugeI 0].
Definition ex_progs : list (list cop) :=
  [[COUpd 0 (UIncF one); COUpd 1 (UIncI 3); CORead 0; COUpd 2 (UAddI (-4)); CORead 2];
   [COUpd 0 (UIncF one); COUpd 1 (UIncI (-9)); CORead 1; CORead 0]].
Definition ex_sched : list cchoice :=
  [CDo 0; CDo 1; CDo 0; CDo 0; CDo 0; CDo 1; CDo 1; CDo 1; CDo 1; CDo 1; CDo 1; CDo 0; CDo 0].
Example ex_starts : starts ex_cells ex_ents.
Proof. repeat constructor. Qed.
Example ex_conc :
  exists s, creach ex_ents ex_progs s /\ all_done s /\
    c_ents s = [ECumF (f_add one one); ECumI 8; EGaugeI (-4)] /\
    map cg_got (c_gs s) = [[MPFloat one; MPInt 0]; [MPInt 8; MPFloat (f_add one one)]].
Proof.
  destruct (crun (cinit ex_ents ex_progs) ex_sched) as [s|] eqn:E; [|vm_compute in E; discriminate E].
  exists s. split; [eapply crun_reach; [apply creach_init|exact E]|]. vm_compute in E. injection E as <-.
  split; [|split; vm_compute; reflexivity].
  intros g x H. destruct g as [|[|g]]; cbn in H; try (injection H as <-; reflexivity). destruct g; discriminate H.
Qed.
Example ex_num_incs : num_incs ex_progs.
Proof. repeat constructor. Qed.
Example ex_bound : (5 + incs 1 (concat ex_progs) < 2 ^ 63)%Z.
Proof. reflexivity. Qed.
Example ex_entries_ok : entries_ok 3 ex_progs.
Proof. repeat constructor. Qed.

(** *** Limits *)

(** Past 2^63 an integer cumulative wraps, and a read shows less than an earlier one:
    Inc(2^63-1), Read, Inc(1), Read gives 2^63-1 and then 0. *)
Theorem C21_int_overflow_refuted :
  exists ents progs s g, creach ents progs s /\ ents = [ECumI 0] /\
    progs = [[COUpd 0 (UIncI (2 ^ 63 - 1)); CORead 0; COUpd 0 (UIncI 1); CORead 0]] /\
    nth_error (c_gs s) 0 = Some g /\ cg_got g = [MPInt (2 ^ 63 - 1); MPInt 0].
Proof.
  pose (p := [[COUpd 0 (UIncI (2 ^ 63 - 1)); CORead 0; COUpd 0 (UIncI 1); CORead 0]]).
  destruct (crun (cinit [ECumI 0] p) [CDo 0; CDo 0; CDo 0; CDo 0]) as [s|] eqn:E; [|vm_compute in E; discriminate E].
  exists [ECumI 0], p, s. eexists. split; [eapply crun_reach; [apply creach_init|exact E]|]. vm_compute in E. injection E as <-.
  split; [reflexivity|]. split; [reflexivity|]. split; [reflexivity|]. reflexivity.
Qed.

(** A NaN passes Inc's test and destroys the value: Inc(NaN) then Inc(1) leaves NaN,
    so the value is not the sum of the positive increments. *)
Theorem C21_float_nan_refuted :
  exists s g, creach [ECumF f_zero] [[COUpd 0 (UIncF S754_nan); COUpd 0 (UIncF one); CORead 0]] s /\ all_done s /\
    nth_error (c_gs s) 0 = Some g /\ cg_got g = [MPFloat S754_nan].
Proof.
  destruct (crun (cinit [ECumF f_zero] [[COUpd 0 (UIncF S754_nan); COUpd 0 (UIncF one); CORead 0]]) [CDo 0; CDo 0; CDo 0; CDo 0; CDo 0]) as [s|] eqn:E;
    [|vm_compute in E; discriminate E].
  exists s. eexists. split; [eapply crun_reach; [apply creach_init|exact E]|]. vm_compute in E. injection E as <-.
  split; [|split; reflexivity]. intros g x H. destruct g as [|[|g]]; cbn in H; try discriminate H. now injection H as <-.
Qed.

(** ** C23 *)

(** The labels under which Read reports an entry. *)
Definition shown (consts vs : list lvalue) : list lvalue := map show_label (map label (consts ++ vs)).

(** GetEntry calls by any goroutines return the same entry exactly if their label
    values are equal. *)
Theorem C23_same_entry_iff keys consts spare progs s g1 vs1 x1 g2 vs2 x2 :
  no_sharing spare progs -> mshort consts progs -> no_upsert progs -> mreach keys consts spare progs s ->
  In (EvGet g1 vs1 x1) (mm_log s) -> In (EvGet g2 vs2 x2) (mm_log s) ->
  (x1 = x2 <-> map label vs1 = map label vs2).
Proof.
  intros A B C R H1 H2. pose proof (mreach_MI keys consts spare progs A B C s R) as M.
  destruct (mi_known _ _ _ _ _ M _ _ _ H1) as (A1 & S1 & G1). destruct (mi_known _ _ _ _ _ M _ _ _ H2) as (A2 & S2 & G2).
  split.
  - intros <-. pose proof (m0_inj _ _ _ _ _ (mi_0 _ _ _ _ _ M) _ _ _ G1 G2) as K. eapply mkey_inj; eassumption.
  - intros E. rewrite (mkey_eq consts vs1 vs2 E) in G1. congruence.
Qed.

(** A Read reports, under its label values, every entry returned by a GetEntry that
    finished before the Read started, no entry twice, and only entries returned by a
    GetEntry that finished before the Read did. *)
Theorem C23_read keys consts spare progs s g l1 l2 r l3 :
  no_sharing spare progs -> mshort consts progs -> no_upsert progs -> mreach keys consts spare progs s ->
  mm_log s = l1 ++ EvReadStart g :: l2 ++ EvReadEnd g r :: l3 -> ~ In (EvReadStart g) l2 ->
  NoDup (map fst r) /\
  (forall g' vs x, In (EvGet g' vs x) l1 -> In (shown consts vs, x) r) /\
  (forall lvs x, In (lvs, x) r -> exists g' vs, In (EvGet g' vs x) (l1 ++ l2) /\ lvs = shown consts vs).
Proof.
  intros A B C R H1 H2. pose proof (mreach_MI keys consts spare progs A B C s R) as M.
  exact (mi_reads _ _ _ _ _ M g l1 l2 r l3 H1 H2).
Qed.

(** Read never fails to decode an entry's labels, also with concurrent upserts. *)
Theorem C23_no_panic keys consts spare progs s :
  no_sharing spare progs -> mshort consts progs -> mreach keys consts spare progs s -> ~ In EvPanic (mm_log s).
Proof. intros A B R. apply (m0_panic _ _ _ _ _ (mreach_MI0 keys consts spare progs A B s R)). Qed.

Lemma mrun_reach keys consts spare progs s chs s' :
  mreach keys consts spare progs s -> mrun keys consts s chs = Some s' -> mreach keys consts spare progs s'.
Proof.
  revert s. induction chs as [|ch chs IH]; intros s R E; cbn in E; [now injection E as <-|].
  destruct (mdo keys consts s ch) as [s1|] eqn:E1; [|discriminate E]. eapply IH; [|exact E]. eapply mreach_step; eassumption.
Qed.

Definition lvs (s : String.string) : lvalue := MkLV (bs s) true.
Definition key1 (s : String.string) : lkey := MkLK (bs s) [].

(** Two goroutines race to create an entry: both miss it in Load, one stores it, the
    other gets the stored one; a Read that starts afterwards reports it. *)
Definition ex_mprogs : list (list mop) := [[MGet [lvs "a"]; MRead]; [MGet [lvs "a"]]; [MGet [lvs "b"]; MGet [lvs "x"; lvs "y"]]].
Definition ex_msched : list mchoice :=
  repeat (MDo 0) 5 ++ repeat (MDo 1) 5 ++ [MDo 0; MDo 1; MDo 0; MDo 1] ++ [MDo 0] ++
  [MVisit 0 (encode_label_vals [lvs "c"; lvs "a"]); MDo 0] ++ repeat (MDo 2) 11.
Example ex_mhyps : no_sharing (grown_cap 1 0 0 - 1) ex_mprogs /\ mshort [lvs "c"] ex_mprogs.
Proof. split; [repeat constructor; right; vm_compute; repeat constructor|]. split; repeat constructor; intros _; cbn; lia. Qed.
Example ex_mrun :
  exists s, mreach [key1 "k"; key1 "l"] [lvs "c"] (grown_cap 1 0 0 - 1) ex_mprogs s /\
    mm_log s = [EvGet 0 [lvs "a"] 0; EvGet 1 [lvs "a"] 0; EvReadStart 0; EvReadEnd 0 [([lvs "c"; lvs "a"], 0)];
                EvGet 2 [lvs "b"] 1; EvGetErr 2 [lvs "x"; lvs "y"]].
Proof.
  destruct (mrun [key1 "k"; key1 "l"] [lvs "c"] (minit (grown_cap 1 0 0 - 1) ex_mprogs) ex_msched) as [s|] eqn:E; [|vm_compute in E; discriminate E].
  exists s. split; [eapply mrun_reach; [apply mreach_init|exact E]|]. vm_compute in E. injection E as <-. reflexivity.
Qed.

(** *** Limits *)

(** With three constant labels append leaves a spare slot that all calls share: two
    concurrent GetEntry calls with different label values can return one entry. *)
Theorem C23_shared_append_refuted :
  exists keys consts spare progs s v1 v2 x,
    spare = grown_cap (length consts) 0 0 - length consts /\ mshort consts progs /\ no_upsert progs /\
    mreach keys consts spare progs s /\ map label v1 <> map label v2 /\
    In (EvGet 0 v1 x) (mm_log s) /\ In (EvGet 1 v2 x) (mm_log s).
Proof.
  pose (keys := [key1 "p"; key1 "q"; key1 "r"; key1 "k"]). pose (consts := [lvs "1"; lvs "2"; lvs "3"]).
  pose (progs := [[MGet [lvs "a"]]; [MGet [lvs "b"]]]).
  destruct (mrun keys consts (minit 1 progs) ([MDo 0; MDo 0; MDo 0; MDo 1; MDo 1] ++ repeat (MDo 0) 4 ++ repeat (MDo 1) 4)) as [s|] eqn:E;
    [|vm_compute in E; discriminate E].
  exists keys, consts, 1, progs, s, [lvs "a"], [lvs "b"], 0.
  split; [reflexivity|]. split; [split; repeat constructor; intros _; cbn; lia|]. split; [repeat constructor|].
  split; [eapply mrun_reach; [apply mreach_init|exact E]|]. split; [discriminate|]. vm_compute in E. injection E as <-.
  split; [left; reflexivity|right; left; reflexivity].
Qed.

(** UpsertEntry deletes, then stores: a Read in between does not report an entry that
    was there before and is there afterwards. *)
Theorem C23_upsert_window_refuted :
  exists keys progs s, mshort [] progs /\ mreach keys [] 0 progs s /\
    mm_log s = [EvUpsert 0 [lvs "a"] 0; EvReadStart 1; EvReadEnd 1 []; EvUpsert 0 [lvs "a"] 1].
Proof.
  pose (progs := [[MUpsert [lvs "a"]; MUpsert [lvs "a"]]; [MRead]]).
  destruct (mrun [key1 "k"] [] (minit 0 progs) (repeat (MDo 0) 13 ++ [MDo 1; MDo 1; MDo 0])) as [s|] eqn:E; [|vm_compute in E; discriminate E].
  exists [key1 "k"], progs, s. split; [split; repeat constructor; intros _; cbn; lia|].
  split; [eapply mrun_reach; [apply mreach_init|exact E]|]. vm_compute in E. injection E as <-. reflexivity.
Qed.

(** Two concurrent AddXxx of one name with different types can both succeed. *)
Theorem C24_concurrent_add_refuted :
  exists n t1 t2 s, t1 <> t2 /\ arun (MkAR [(n, t1, AStart); (n, t2, AStart)] []) [0; 1; 0; 1] = Some s /\
    ar_gs s = [(n, t1, AAdded); (n, t2, AAdded)].
Proof. exists (bs "m"), GaugeInt64, CumulativeFloat64. eexists. split; [discriminate|]. split; vm_compute; reflexivity. Qed.

Print Assumptions C21_every_call_once.
Print Assumptions C21_int_value.
Print Assumptions C21_int_never_decreases.
Print Assumptions C21_float_value.
Print Assumptions C21_float_never_decreases.
Print Assumptions C21_int_overflow_refuted.
Print Assumptions C21_float_nan_refuted.
Print Assumptions C22_linearizable.
Print Assumptions C22_no_deadlock.
Print Assumptions C22_terminates.
Print Assumptions C23_same_entry_iff.
Print Assumptions C23_read.
Print Assumptions C23_no_panic.
Print Assumptions C23_shared_append_refuted.
Print Assumptions C23_upsert_window_refuted.
Print Assumptions C24_concurrent_add_refuted.
