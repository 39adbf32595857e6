(** C36: exporter registration under concurrency. *)

From Coq Require Import List Arith Bool Lia ZifyBool.
From Verif Require Import Base AggModel AggProofs ExporterModel.
Import ListNotations.
Open Scope nat_scope.

(** ** Specification *)

(** The goroutine of an event. *)
Definition ev_g (v : xev) : nat := match v with EvBegin g _ | EvStore g _ | EvLoad g | EvDone g _ => g end.

(** The effect of a call on the set of exporters, when calls happen one after the other. *)
Definition seq_op (op : xop) (set : nat -> bool) : nat -> bool :=
  match op with
  | XReg e => fun x => (x =? e) || set x
  | XUnreg e => fun x => negb (x =? e) && set x
  | XEnd => set
  end.

(** The set after the calls that have taken effect, in that order. *)
Definition after_ev (set : nat -> bool) (v : xev) : nat -> bool := match v with EvStore _ op => seq_op op set | _ => set end.
Definition reg_after (h : list xev) : nat -> bool := fold_left after_ev h (fun _ => false).

(** The events of one call: it begins, takes effect at one moment, and returns. *)
Definition effect (g : nat) (op : xop) : xev := match op with XEnd => EvLoad g | _ => EvStore g op end.
Definition call_events (g : nat) (c : xop * list nat) : list xev := [EvBegin g (fst c); effect g (fst c); EvDone g (snd c)].

(** ** Proofs *)

Definition holds (pc : xpc) : bool :=
  match pc with XLocked | XCopy _ _ _ | XMade _ | XStored | XPanicked => true | _ => false end.

Definition no_ev (g : nat) (h : list xev) : Prop := forall v, In v h -> ev_g v <> g.

(** The map a goroutine is building. *)
Definition building (pc : xpc) : option nat := match pc with XCopy n _ _ | XMade n => Some n | _ => None end.

Definition is_mod (todo : list xop) : Prop := exists op rest, todo = op :: rest /\ op <> XEnd.

Definition pcinv (s : xst) (g : nat) (x : xg) : Prop :=
  match xg_pc x with
  | XIdle => True
  | XCalled => xg_todo x <> []
  | XLocked => is_mod (xg_todo x)
  | XCopy n old done => is_mod (xg_todo x) /\ n < length (x_heap s) /\ old = x_pub s /\ x_pub s <> Some n /\
      nth n (x_heap s) [] = done /\ NoDup done /\ incl done (keys_at (x_heap s) old)
  | XMade n => n < length (x_heap s) /\ x_pub s <> Some n /\ NoDup (nth n (x_heap s) []) /\
      exists op rest, xg_todo x = op :: rest /\ op <> XEnd /\
        forall e, In e (nth n (x_heap s) []) <-> seq_op op (reg_after (x_hist s)) e = true
  | XStored => exists op rest h1 h2, xg_todo x = op :: rest /\ op <> XEnd /\ x_hist s = h1 ++ EvStore g op :: h2 /\ no_ev g h2
  | XPanicked => xg_todo x <> []
  | XIter a vis => (exists rest, xg_todo x = XEnd :: rest) /\
      (forall n, a = Some n -> n < length (x_heap s)) /\ NoDup vis /\ incl vis (keys_at (x_heap s) a) /\
      exists h1 h2, x_hist s = h1 ++ EvLoad g :: h2 /\ no_ev g h2 /\ forall e, In e (keys_at (x_heap s) a) <-> reg_after h1 e = true
  end.

Definition partial (g : nat) (x : xg) : list xev :=
  match xg_todo x with
  | [] => []
  | op :: _ =>
      match xg_pc x with
      | XIdle => []
      | XCalled | XLocked | XCopy _ _ _ | XMade _ | XPanicked => [EvBegin g op]
      | XStored | XIter _ _ => [EvBegin g op; effect g op]
      end
  end.

Definition done_ok (h : list xev) : Prop :=
  forall ha g vis hb, h = ha ++ EvDone g vis :: hb ->
    exists h1 v h2, ha = h1 ++ v :: h2 /\ no_ev g h2 /\
      ((exists op, v = EvStore g op /\ op <> XEnd) \/
       v = EvLoad g /\ NoDup vis /\ forall e, In e vis <-> reg_after h1 e = true).

Record XI (progs : list (list xop)) (s : xst) : Prop := {
  xi_len : length (x_gs s) = length progs;
  xi_mu : forall g x, nth_error (x_gs s) g = Some x -> (holds (xg_pc x) = true <-> x_mu s = Some g);
  xi_mu_lt : forall g, x_mu s = Some g -> g < length (x_gs s);
  xi_pub : (forall n, x_pub s = Some n -> n < length (x_heap s)) /\ NoDup (keys_at (x_heap s) (x_pub s)) /\
    forall e, In e (keys_at (x_heap s) (x_pub s)) <-> reg_after (x_hist s) e = true;
  xi_pc : forall g x, nth_error (x_gs s) g = Some x -> pcinv s g x;
  xi_fresh : forall g x n g' x' a vis, nth_error (x_gs s) g = Some x -> building (xg_pc x) = Some n ->
    nth_error (x_gs s) g' = Some x' -> xg_pc x' = XIter (Some a) vis -> a <> n;
  xi_calls : forall g x p, nth_error (x_gs s) g = Some x -> nth_error progs g = Some p ->
    exists dones, p = map fst dones ++ xg_todo x /\
      filter (fun v => ev_g v =? g) (x_hist s) = flat_map (call_events g) dones ++ partial g x;
  xi_done : done_ok (x_hist s) }.

Lemma mem_In k l : mem k l = true <-> In k l.
Proof.
  unfold mem. rewrite existsb_exists. split.
  - intros (x & Hx & E). apply Nat.eqb_eq in E. subst. exact Hx.
  - intros H. exists k. split; [exact H | apply Nat.eqb_refl].
Qed.

Lemma put_key_In k l x : In x (put_key k l) <-> x = k \/ In x l.
Proof.
  unfold put_key. destruct (mem k l) eqn:E.
  - apply mem_In in E. split; [auto |]. intros [-> | H]; assumption.
  - rewrite in_app_iff. cbn [In]. intuition.
Qed.

Lemma put_key_new k l : ~ In k l -> put_key k l = l ++ [k].
Proof. intros H. unfold put_key. destruct (mem k l) eqn:E; [| reflexivity]. apply mem_In in E. contradiction. Qed.

Lemma NoDup_snoc {A} (l : list A) x : NoDup l -> ~ In x l -> NoDup (l ++ [x]).
Proof. intros H Hni. apply NoDup_rev in H. rewrite <- (rev_involutive (l ++ [x])), rev_app_distr. apply NoDup_rev. cbn. constructor; [rewrite <- in_rev; exact Hni | exact H]. Qed.

Lemma put_key_NoDup k l : NoDup l -> NoDup (put_key k l).
Proof.
  intros H. unfold put_key. destruct (mem k l) eqn:E; [exact H |]. apply NoDup_snoc; [exact H |].
  intros Hin. apply mem_In in Hin. congruence.
Qed.

Lemma del_key_In k l x : In x (del_key k l) <-> x <> k /\ In x l.
Proof. unfold del_key. rewrite filter_In. destruct (Nat.eqb_spec x k); cbn; intuition; discriminate. Qed.

Lemma nth_upd {A} (l : list A) n f m d : n < length l -> nth m (upd l n f) d = if n =? m then f (nth n l d) else nth m l d.
Proof.
  intros Hn. destruct (nth_error (upd l n f) m) as [y|] eqn:E.
  - rewrite (nth_error_nth _ _ d E). rewrite nth_error_upd in E. destruct (Nat.eqb_spec n m) as [-> | Hne].
    + destruct (nth_error l m) as [z|] eqn:Ez; [| discriminate]. cbn in E. injection E as <-. now rewrite (nth_error_nth _ _ d Ez).
    + now rewrite (nth_error_nth _ _ d E).
  - apply nth_error_None in E. rewrite upd_length in E. rewrite (nth_overflow (upd l n f)) by (rewrite upd_length; exact E).
    destruct (Nat.eqb_spec n m) as [-> | Hne]; [lia |]. now rewrite nth_overflow.
Qed.

Lemma keys_upd h n f a : n < length h -> a <> Some n -> keys_at (upd h n f) a = keys_at h a.
Proof.
  intros Hn Ha. destruct a as [m|]; [| reflexivity]. cbn [keys_at]. rewrite nth_upd by exact Hn.
  destruct (Nat.eqb_spec n m); [congruence | reflexivity].
Qed.

Lemma keys_alloc h a : (forall n, a = Some n -> n < length h) -> keys_at (h ++ [[]]) a = keys_at h a.
Proof. intros H. destruct a as [m|]; [| reflexivity]. cbn [keys_at]. apply app_nth1. apply H. reflexivity. Qed.

Lemma reg_after_app h h' : reg_after (h ++ h') = fold_left after_ev h' (reg_after h).
Proof. apply fold_left_app. Qed.

Lemma no_ev_snoc g h v : no_ev g h -> ev_g v <> g -> no_ev g (h ++ [v]).
Proof. intros H Hv w Hw. apply in_app_iff in Hw. destruct Hw as [Hw | [<- | []]]; [apply H; exact Hw | exact Hv]. Qed.

Lemma done_ok_snoc h v : done_ok h -> (forall g vis, v <> EvDone g vis) -> done_ok (h ++ [v]).
Proof.
  intros H Hv ha g vis hb E. destruct hb as [|w hb _] using rev_ind.
  - apply app_inj_tail in E. destruct E as [_ E]. exfalso. eapply Hv. exact E.
  - rewrite app_comm_cons, app_assoc in E. apply app_inj_tail in E. destruct E as [E _]. eapply H. exact E.
Qed.

Lemma xset_nth s g x g' : nth_error (xset s g x) g' = if g =? g' then option_map (fun _ => x) (nth_error (x_gs s) g') else nth_error (x_gs s) g'.
Proof. apply nth_error_upd. Qed.

Lemma XI_init progs : XI progs (x_init progs).
Proof.
  constructor; cbn [x_init x_gs x_heap x_pub x_mu x_hist].
  - apply map_length.
  - intros g x E. rewrite nth_error_map in E. destruct (nth_error progs g); [| discriminate]. injection E as <-. cbn. split; discriminate.
  - discriminate.
  - split; [discriminate |]. split; [constructor |]. cbn. intuition discriminate.
  - intros g x E. rewrite nth_error_map in E. destruct (nth_error progs g); [| discriminate]. injection E as <-. exact I.
  - intros g x n g' x' a vis E Hb. rewrite nth_error_map in E. destruct (nth_error progs g); [| discriminate]. injection E as <-. discriminate.
  - intros g x p E Ep. rewrite nth_error_map, Ep in E. injection E as <-. exists []. split; [reflexivity |]. cbn. destruct p; reflexivity.
  - intros ha g vis hb E. destruct ha; discriminate.
Qed.

Lemma XI_build progs s g x x' heap' pub' mu' ev :
  XI progs s -> nth_error (x_gs s) g = Some x ->
  let s' := MkX (xset s g x') heap' pub' mu' (x_hist s ++ ev) in
  (holds (xg_pc x') = true <-> mu' = Some g) ->
  (mu' = x_mu s \/ x_mu s = None /\ mu' = Some g \/ x_mu s = Some g /\ mu' = None) ->
  ((forall n, pub' = Some n -> n < length heap') /\ NoDup (keys_at heap' pub') /\
    forall e, In e (keys_at heap' pub') <-> reg_after (x_hist s ++ ev) e = true) ->
  pcinv s' g x' -> (forall g' y, g' <> g -> nth_error (x_gs s) g' = Some y -> pcinv s' g' y) ->
  (forall n g' y a vis, building (xg_pc x') = Some n -> g' <> g -> nth_error (x_gs s) g' = Some y -> xg_pc y = XIter (Some a) vis -> a <> n) ->
  (forall n g' y a vis, xg_pc x' = XIter (Some a) vis -> g' <> g -> nth_error (x_gs s) g' = Some y -> building (xg_pc y) = Some n -> a <> n) ->
  (xg_todo x' = xg_todo x /\ partial g x' = partial g x ++ ev \/
   exists op vis, xg_todo x = op :: xg_todo x' /\ partial g x ++ ev = call_events g (op, vis) /\ partial g x' = []) ->
  done_ok (x_hist s ++ ev) -> (forall v, In v ev -> ev_g v = g) ->
  XI progs s'.
Proof.
  intros I Eg s' Hm Hmc Hpub Hpc Hoth Hf1 Hf2 Hcalls Hdone Hev.
  assert (Hlt : g < length (x_gs s)) by (apply nth_error_Some; congruence).
  assert (Hnth : forall g' y, nth_error (xset s g x') g' = Some y -> g' = g /\ y = x' \/ g' <> g /\ nth_error (x_gs s) g' = Some y).
  { intros g' y E. rewrite xset_nth in E. destruct (Nat.eqb_spec g g') as [<- | Hne].
    - rewrite Eg in E. injection E as <-. left. auto.
    - right. auto. }
  constructor; cbn [x_gs x_heap x_pub x_mu x_hist s'].
  - unfold xset. rewrite upd_length. apply (xi_len _ _ I).
  - intros g' y E. apply Hnth in E. destruct E as [[-> ->] | [Hne E]]; [exact Hm |].
    rewrite (xi_mu _ _ I _ _ E). destruct Hmc as [-> | [[E1 E2] | [E1 E2]]]; [tauto | |]; rewrite E1, E2; split; intros K; try discriminate; congruence.
  - intros g' E. unfold xset. rewrite upd_length. destruct Hmc as [Em | [[E1 E2] | [E1 E2]]].
    + apply (xi_mu_lt _ _ I). congruence.
    + congruence.
    + congruence.
  - exact Hpub.
  - intros g' y E. apply Hnth in E. destruct E as [[-> ->] | [Hne E]]; [exact Hpc | apply Hoth; assumption].
  - intros g1 x1 n g2 x2 a vis E1 B E2 P. apply Hnth in E1, E2. destruct E1 as [[-> ->] | [N1 E1]], E2 as [[-> ->] | [N2 E2]].
    + rewrite P in B. discriminate.
    + eapply Hf1; eassumption.
    + eapply Hf2; eassumption.
    + exact (xi_fresh _ _ I g1 x1 n g2 x2 a vis E1 B E2 P).
  - intros g' y p E Ep. apply Hnth in E. rewrite filter_app. destruct E as [[-> ->] | [Hne E]].
    + destruct (xi_calls _ _ I _ _ _ Eg Ep) as (dones & E1 & E2).
      assert (Hall : filter (fun v => ev_g v =? g) ev = ev).
      { clear - Hev. induction ev as [|v ev IH]; cbn [filter]; [reflexivity |]. rewrite (Hev v) by (left; reflexivity). rewrite Nat.eqb_refl.
        f_equal. apply IH. intros w Hw. apply Hev. right. exact Hw. }
      rewrite Hall, E2. destruct Hcalls as [[T P] | (op & vis & T & P & P')].
      * exists dones. rewrite T, P, app_assoc. split; [exact E1 | reflexivity].
      * exists (dones ++ [(op, vis)]). rewrite map_app, flat_map_app. cbn [map flat_map fst]. rewrite P', !app_nil_r, <- !app_assoc, P.
        split; [rewrite E1, T; reflexivity | reflexivity].
    + destruct (xi_calls _ _ I _ _ _ E Ep) as (dones & E1 & E2). exists dones. split; [exact E1 |].
      assert (Hnone : filter (fun v => ev_g v =? g') ev = []).
      { clear - Hev Hne. induction ev as [|v ev IH]; cbn [filter]; [reflexivity |]. rewrite (Hev v) by (left; reflexivity).
        destruct (Nat.eqb_spec g g'); [congruence |]. apply IH. intros w Hw. apply Hev. right. exact Hw. }
      rewrite Hnone, app_nil_r. exact E2.
  - exact Hdone.
Qed.

(** Steps that leave the maps and the published one alone. *)
Lemma other_same s gs' mu' g ev g' y :
  (forall v, In v ev -> ev_g v = g) -> (forall v op, In v ev -> v <> EvStore g op) -> g' <> g ->
  pcinv s g' y -> pcinv (MkX gs' (x_heap s) (x_pub s) mu' (x_hist s ++ ev)) g' y.
Proof.
  intros Hev Hns Hne H. unfold pcinv in *. cbn [x_heap x_pub x_hist] in *.
  assert (Hr : reg_after (x_hist s ++ ev) = reg_after (x_hist s)).
  { rewrite reg_after_app. generalize (reg_after (x_hist s)). clear - Hev Hns. induction ev as [|v ev IH]; intros r; cbn [fold_left]; [reflexivity |].
    rewrite IH; [| intros w Hw; apply Hev; right; exact Hw | intros w op Hw; apply Hns; right; exact Hw].
    destruct v as [?|h op| |]; try reflexivity. exfalso. pose proof (Hev (EvStore h op) (or_introl eq_refl)) as E. cbn in E. subst h.
    eapply Hns; [left; reflexivity | reflexivity]. }
  assert (Hno : forall h2, no_ev g' h2 -> no_ev g' (h2 ++ ev)).
  { intros h2 Hh v Hv. apply in_app_iff in Hv. destruct Hv as [Hv | Hv]; [apply Hh; exact Hv | rewrite (Hev v Hv); congruence]. }
  destruct (xg_pc y); try exact H.
  - rewrite Hr. exact H.
  - destruct H as (op & rest & h1 & h2 & T & No & E & Hn). exists op, rest, h1, (h2 ++ ev). repeat split; auto.
    rewrite E, <- app_assoc. reflexivity.
  - destruct H as (T & Ha & Hv & Hi & h1 & h2 & E & Hn & Hk). repeat (split; [assumption |]). exists h1, (h2 ++ ev). repeat split; auto; try apply Hk.
    rewrite E, <- app_assoc. reflexivity.
Qed.

(** Steps of the holder of the mutex: other goroutines are outside. *)
Lemma other_holder s gs' heap' pub' mu' g ev g' y :
  (forall v, In v ev -> ev_g v = g) -> g' <> g -> holds (xg_pc y) = false -> length (x_heap s) <= length heap' ->
  (forall a vis, xg_pc y = XIter a vis -> keys_at heap' a = keys_at (x_heap s) a) ->
  pcinv s g' y -> pcinv (MkX gs' heap' pub' mu' (x_hist s ++ ev)) g' y.
Proof.
  intros Hev Hne Hh Hlen Hk H. unfold pcinv in *. cbn [x_heap x_pub x_hist] in *.
  destruct (xg_pc y) as [| | |n old done|n| | |a vis] eqn:P; try discriminate Hh; try exact H.
  destruct H as (T & Ha & Hv & Hi & h1 & h2 & E & Hn & Hkk). rewrite (Hk a vis eq_refl). split; [exact T |].
  split; [intros n En; specialize (Ha n En); lia |]. split; [exact Hv |]. split; [exact Hi |].
  exists h1, (h2 ++ ev). split; [rewrite E, <- app_assoc; reflexivity |]. split; [| exact Hkk].
  intros v Hvv. apply in_app_iff in Hvv. destruct Hvv as [Hvv | Hvv]; [apply Hn; exact Hvv | rewrite (Hev v Hvv); congruence].
Qed.

Lemma mutual progs s g x g' y : XI progs s -> nth_error (x_gs s) g = Some x -> holds (xg_pc x) = true ->
  g' <> g -> nth_error (x_gs s) g' = Some y -> holds (xg_pc y) = false.
Proof.
  intros I E H Hne E'. apply (xi_mu _ _ I _ _ E) in H. destruct (holds (xg_pc y)) eqn:H'; [| reflexivity].
  apply (xi_mu _ _ I _ _ E') in H'. congruence.
Qed.

Lemma reg_same h ev : (forall v g op, In v ev -> v <> EvStore g op) -> reg_after (h ++ ev) = reg_after h.
Proof.
  intros H. rewrite reg_after_app. generalize (reg_after h). induction ev as [|v ev IH]; intros r; cbn [fold_left]; [reflexivity |].
  rewrite IH by (intros w g op Hw; apply H; right; exact Hw). destruct v; try reflexivity. exfalso. eapply H; [left; reflexivity | reflexivity].
Qed.

(** A step that only moves a goroutine and adds events. *)
Lemma XI_move progs s g x x' mu' ev :
  XI progs s -> nth_error (x_gs s) g = Some x ->
  (holds (xg_pc x') = true <-> mu' = Some g) ->
  (mu' = x_mu s \/ x_mu s = None /\ mu' = Some g \/ x_mu s = Some g /\ mu' = None) ->
  (forall v, In v ev -> ev_g v = g) -> (forall v h op, In v ev -> v <> EvStore h op) ->
  let s' := MkX (xset s g x') (x_heap s) (x_pub s) mu' (x_hist s ++ ev) in
  pcinv s' g x' ->
  (forall n, building (xg_pc x') = Some n -> building (xg_pc x) = Some n) ->
  (forall n g' y a vis, xg_pc x' = XIter (Some a) vis -> g' <> g -> nth_error (x_gs s) g' = Some y -> building (xg_pc y) = Some n -> a <> n) ->
  (xg_todo x' = xg_todo x /\ partial g x' = partial g x ++ ev \/
   exists op vis, xg_todo x = op :: xg_todo x' /\ partial g x ++ ev = call_events g (op, vis) /\ partial g x' = []) ->
  done_ok (x_hist s ++ ev) -> XI progs s'.
Proof.
  intros I Eg Hm Hmc Hev Hns s' Hpc Hb Hf Hc Hd. apply (XI_build progs s g x x'); auto.
  - destruct (xi_pub _ _ I) as (A & B & C). split; [exact A |]. split; [exact B |]. intros e. rewrite reg_same by exact Hns. apply C.
  - intros g' y Hne E. apply (other_same s _ _ g); auto. apply (xi_pc _ _ I _ _ E).
  - intros n g' y a vis B Hne E P. apply Hb in B. eapply (xi_fresh _ _ I); [exact Eg | exact B | exact E | exact P].
Qed.

Lemma in1 {A} (v w : A) : In v [w] -> v = w.
Proof. intros [H | []]. auto. Qed.

Ltac routine I Eg :=
  try exact I; try exact Eg;
  first [ solve [auto] | solve [intros; discriminate] | solve [cbn; split; discriminate] | solve [cbn; tauto] | solve [intros ? []]
        | solve [intros ? ? [? | []]; subst; reflexivity] | solve [intros ? [? | []]; subst; reflexivity]
        | solve [intros ? ? ? [? | []]; subst; discriminate]
        | solve [left; split; [reflexivity | rewrite ?app_nil_r; reflexivity]]
        | solve [left; split; [reflexivity | rewrite ?app_nil_r; match goal with |- context [partial _ (MkXG ?t _)] => destruct t; reflexivity end]]
        | solve [rewrite app_nil_r; apply (xi_done _ _ I)] | solve [apply done_ok_snoc; [apply (xi_done _ _ I) | discriminate]]
        | idtac ].
Ltac routine2 I E :=
  first [ solve [auto] | solve [intros ? []] | solve [intros ? [? | []]; subst; reflexivity] | solve [rewrite ?app_length, ?upd_length; lia]
        | solve [apply (xi_pc _ _ I _ _ E)] | idtac ].

Lemma XI_step hash progs s c s' : XI progs s -> xstep hash s c = Some s' -> XI progs s'.
Proof.
  intros I H. destruct c as [g | g k]; cbn [xstep] in H.
  - destruct (nth_error (x_gs s) g) as [[todo pc]|] eqn:Eg; [| discriminate]. destruct todo as [|op rest]; [discriminate |].
    pose proof (xi_mu _ _ I _ _ Eg) as Hmu. pose proof (xi_pc _ _ I _ _ Eg) as Hpc. cbn [xg_pc] in Hmu.
    destruct pc as [| | |n old done|n| | |a vis].
    + (* XIdle *) injection H as <-. eapply XI_move; routine I Eg.
    + (* XCalled *)
      destruct op as [e|e|].
      * destruct (x_mu s) eqn:Em; [discriminate |]. injection H as <-. eapply XI_move; routine I Eg.
        -- cbn. exists (XReg e), rest. split; [reflexivity | discriminate].
      * destruct (x_mu s) eqn:Em; [discriminate |]. injection H as <-. eapply XI_move; routine I Eg.
        -- cbn. exists (XUnreg e), rest. split; [reflexivity | discriminate].
      * injection H as <-. destruct (xi_pub _ _ I) as (A & B & C). eapply XI_move; routine I Eg.
        -- unfold pcinv. cbn [xg_pc xg_todo x_heap x_pub x_hist]. split; [exists rest; reflexivity |]. split; [exact A |]. split; [constructor |].
           split; [intros ? [] |]. exists (x_hist s), []. split; [reflexivity |]. split; [intros v [] | exact C].
        -- intros n g' y a vis P Hne E Hb. cbn in P. injection P as P <-. pose proof (xi_pc _ _ I _ _ E) as Hy. unfold pcinv in Hy.
           intros ->. destruct (xg_pc y); try discriminate Hb; cbn in Hb; injection Hb as ->.
           ++ destruct Hy as (_ & _ & _ & K & _). congruence.
           ++ destruct Hy as (_ & K & _). congruence.
    + (* XLocked *)
      assert (Hmod : is_mod (op :: rest)) by exact Hpc. destruct (xi_pub _ _ I) as (A & B & C).
      assert (H' : Some (MkX (xset s g (MkXG (op :: rest) (XCopy (length (x_heap s)) (x_pub s) []))) (x_heap s ++ [[]]) (x_pub s) (x_mu s) (x_hist s ++ [])) = Some s')
        by (destruct op; exact H). clear H. injection H' as <-.
      eapply XI_build; routine I Eg.
      * rewrite keys_alloc by exact A. rewrite app_nil_r. split; [intros n En; rewrite app_length; specialize (A n En); lia |]. split; assumption.
      * unfold pcinv. cbn [xg_pc xg_todo x_heap x_pub x_hist]. split; [exact Hmod |]. split; [rewrite app_length; cbn; lia |]. split; [reflexivity |].
        split; [intros E; specialize (A _ E); lia |]. split; [rewrite app_nth2, Nat.sub_diag by lia; reflexivity |]. split; [constructor | intros ? []].
      * intros g' y Hne E. eapply other_holder; try exact Hne; routine2 I E.
        -- eapply mutual; [exact I | exact Eg | reflexivity | exact Hne | exact E].
        -- intros a vis P. pose proof (xi_pc _ _ I _ _ E) as Hy. unfold pcinv in Hy. rewrite P in Hy. apply keys_alloc. apply Hy.
      * intros n g' y a vis Hb Hne E P. cbn in Hb. injection Hb as <-. pose proof (xi_pc _ _ I _ _ E) as Hy. unfold pcinv in Hy. rewrite P in Hy.
        destruct Hy as (_ & Hy & _). specialize (Hy a eq_refl). lia.
    + (* XCopy *)
      destruct Hpc as (Hmod & Hn & Eold & Hpn & Enth & Hnd & Hincl). cbn [xg_pc xg_todo] in *. subst old.
      destruct (xi_pub _ _ I) as (A & B & C).
      assert (Hall : forallb (fun k => mem k done) (keys_at (x_heap s) (x_pub s)) = true -> forall e, In e done <-> reg_after (x_hist s) e = true).
      { intros F e. rewrite forallb_forall in F. rewrite <- C. split; [apply Hincl |]. intros Hin. apply mem_In. apply F. exact Hin. }
      assert (Hdo : forall f, (forall e, In e (f done) <-> seq_op op (reg_after (x_hist s)) e = true) -> NoDup (f done) -> op <> XEnd ->
        XI progs (MkX (xset s g (MkXG (op :: rest) (XMade n))) (upd (x_heap s) n f) (x_pub s) (x_mu s) (x_hist s ++ []))).
      { intros f Hf Hfn Hne. eapply XI_build; routine I Eg.
        - rewrite keys_upd by auto. rewrite upd_length, app_nil_r. auto.
        - unfold pcinv. cbn [xg_pc xg_todo x_heap x_pub x_hist]. rewrite upd_length, app_nil_r. split; [exact Hn |]. split; [exact Hpn |].
          rewrite nth_upd by exact Hn. rewrite Nat.eqb_refl, Enth. split; [exact Hfn |]. exists op, rest. repeat split; auto; apply Hf.
        - intros g' y Hne' E. eapply other_holder; try exact Hne'; routine2 I E.
          + eapply mutual; [exact I | exact Eg | reflexivity | exact Hne' | exact E].
          + intros a vis P. apply keys_upd; [exact Hn |]. destruct a as [a|]; [| discriminate]. intros K. injection K as ->.
            exact (xi_fresh _ _ I _ _ n _ _ _ _ Eg eq_refl E P eq_refl).
        - intros m g' y a vis Hb Hne' E P. cbn in Hb. injection Hb as <-. exact (xi_fresh _ _ I _ _ n _ _ _ _ Eg eq_refl E P). }
      assert (Hpanic : XI progs (MkX (xset s g (MkXG (op :: rest) XPanicked)) (x_heap s) (x_pub s) (x_mu s) (x_hist s ++ []))).
      { eapply XI_move; routine I Eg. }
      destruct op as [e|e|]; [| | discriminate].
      * destruct (forallb _ _) eqn:F in H; [| discriminate]. specialize (Hall F). destruct (hash e); injection H as <-; [| exact Hpanic].
        apply Hdo; [| apply put_key_NoDup; exact Hnd | discriminate].
        intros x. rewrite put_key_In, Hall. cbn [seq_op]. rewrite orb_true_iff, Nat.eqb_eq. tauto.
      * destruct (forallb _ _) eqn:F in H; [| discriminate]. specialize (Hall F). destruct (hash e); injection H as <-; [| exact Hpanic].
        apply Hdo; [| apply NoDup_filter; exact Hnd | discriminate].
        intros x. rewrite del_key_In, Hall. cbn [seq_op]. rewrite andb_true_iff, negb_true_iff, Nat.eqb_neq. tauto.
    + (* XMade *)
      destruct Hpc as (Hn & Hpn & Hnd & op' & rest' & T & Hne & Hset). cbn [xg_pc xg_todo] in *. injection T as <- <-.
      assert (H' : Some (MkX (xset s g (MkXG (op :: rest) XStored)) (x_heap s) (Some n) (x_mu s) (x_hist s ++ [EvStore g op])) = Some s')
        by (destruct op; exact H). clear H. injection H' as <-.
      eapply XI_build; routine I Eg.
      * cbn [keys_at]. split; [intros m Em; injection Em as <-; exact Hn |]. split; [exact Hnd |].
        intros e. rewrite reg_after_app. cbn [fold_left after_ev]. apply Hset.
      * unfold pcinv. cbn [xg_pc xg_todo x_heap x_pub x_hist]. exists op, rest, (x_hist s), []. repeat split; auto. intros v [].
      * intros g' y Hne' E. eapply other_holder; try exact Hne'; routine2 I E.
        -- eapply mutual; [exact I | exact Eg | reflexivity | exact Hne' | exact E].
      * left. split; [reflexivity |]. destruct op; try reflexivity. congruence.
    + (* XStored *)
      destruct Hpc as (op' & rest' & h1 & h2 & T & Hne & E & Hno). cbn [xg_pc xg_todo] in *. injection T as <- <-.
      assert (H' : Some (MkX (xset s g (MkXG rest XIdle)) (x_heap s) (x_pub s) None (x_hist s ++ [EvDone g []])) = Some s')
        by (destruct op; exact H). clear H. injection H' as <-.
      eapply XI_move; routine I Eg.
      * right. exists op, []. split; [reflexivity |]. split; [| destruct rest; reflexivity]. destruct op; try reflexivity; congruence.
      * intros ha g0 vis hb E'. destruct hb as [|w hb _] using rev_ind.
        -- apply app_inj_tail in E'. destruct E' as [<- E']. injection E' as <- <-. exists h1, (EvStore g op), h2. repeat split; auto.
           left. exists op. auto.
        -- rewrite app_comm_cons, app_assoc in E'. apply app_inj_tail in E'. destruct E' as [E' _]. eapply (xi_done _ _ I). exact E'.
    + (* XPanicked *) destruct op; discriminate.
    + (* XIter *)
      destruct Hpc as ((rest' & T) & Ha & Hnd & Hincl & h1 & h2 & E & Hno & Hset). cbn [xg_pc xg_todo] in *. injection T as -> <-.
      destruct (forallb _ _) eqn:F in H; [| discriminate]. injection H as <-.
      eapply XI_move; routine I Eg.
      * right. exists XEnd, vis. split; [reflexivity |]. split; [reflexivity |]. destruct rest; reflexivity.
      * intros ha g0 vis0 hb E'. destruct hb as [|w hb _] using rev_ind.
        -- apply app_inj_tail in E'. destruct E' as [<- E']. injection E' as <- <-. exists h1, (EvLoad g), h2. repeat split; auto.
           right. split; [reflexivity |]. split; [exact Hnd |]. intros e. rewrite <- Hset. split; [apply Hincl |].
           intros Hin. rewrite forallb_forall in F. apply mem_In. apply F. exact Hin.
        -- rewrite app_comm_cons, app_assoc in E'. apply app_inj_tail in E'. destruct E' as [E' _]. eapply (xi_done _ _ I). exact E'.
  - destruct (nth_error (x_gs s) g) as [[todo pc]|] eqn:Eg; [| discriminate].
    pose proof (xi_mu _ _ I _ _ Eg) as Hmu. pose proof (xi_pc _ _ I _ _ Eg) as Hpc. cbn [xg_pc] in Hmu.
    destruct pc as [| | |n old done|n| | |a vis]; try discriminate.
    + destruct (mem k (keys_at (x_heap s) old)) eqn:Em; [| discriminate]. destruct (mem k done) eqn:Ed; [discriminate |].
      injection H as <-. apply mem_In in Em. assert (Hni : ~ In k done) by (intros K; apply mem_In in K; congruence).
      destruct Hpc as (Hmod & Hn & Eold & Hpn & Enth & Hnd & Hincl). cbn [xg_pc xg_todo] in *. subst old.
      destruct (xi_pub _ _ I) as (A & B & C).
      rewrite <- (app_nil_r (x_hist s)). eapply XI_build; routine I Eg.
      * rewrite keys_upd by auto. rewrite upd_length, app_nil_r. auto.
      * unfold pcinv. cbn [xg_pc xg_todo x_heap x_pub x_hist]. rewrite upd_length. split; [exact Hmod |]. split; [exact Hn |]. split; [reflexivity |].
        split; [exact Hpn |]. split; [rewrite nth_upd, Nat.eqb_refl, Enth by exact Hn; apply put_key_new; exact Hni |].
        split; [apply NoDup_snoc; assumption |]. rewrite keys_upd by auto. intros x Hx. apply in_app_iff in Hx. destruct Hx as [Hx | [<- | []]]; auto.
      * intros g' y Hne' E. eapply other_holder; try exact Hne'; routine2 I E.
        -- eapply mutual; [exact I | exact Eg | reflexivity | exact Hne' | exact E].
        -- intros a vis P. apply keys_upd; [exact Hn |]. destruct a as [a|]; [| discriminate]. intros K. injection K as ->.
            exact (xi_fresh _ _ I _ _ n _ _ _ _ Eg eq_refl E P eq_refl).
      * intros m g' y a vis Hb Hne' E P. cbn in Hb. injection Hb as <-. exact (xi_fresh _ _ I _ _ n _ _ _ _ Eg eq_refl E P).
    + destruct (mem k (keys_at (x_heap s) a)) eqn:Em; [| discriminate]. destruct (mem k vis) eqn:Ed; [discriminate |].
      injection H as <-. apply mem_In in Em. assert (Hni : ~ In k vis) by (intros K; apply mem_In in K; congruence).
      destruct Hpc as ((rest' & T) & Ha & Hnd & Hincl & h1 & h2 & E & Hno & Hset). cbn [xg_pc xg_todo] in *. subst todo.
      rewrite <- (app_nil_r (x_hist s)). eapply XI_move; routine I Eg.
      * unfold pcinv. cbn [xg_pc xg_todo x_heap x_pub x_hist]. rewrite app_nil_r. split; [exists rest'; reflexivity |]. split; [exact Ha |].
        split; [apply NoDup_snoc; assumption |]. split; [intros x Hx; apply in_app_iff in Hx; destruct Hx as [Hx | [<- | []]]; auto |].
        exists h1, h2. auto.
      * intros n g' y b vis' P Hne E' Hb. cbn in P. injection P as -> <-. exact (xi_fresh _ _ I _ _ n _ _ _ _ E' Hb Eg eq_refl).
Qed.

(** *** Theorems *)

(** States reached by goroutines running the programs [progs] under some schedule. *)
Definition xreach (hash : nat -> bool) (progs : list (list xop)) (s : xst) : Prop :=
  exists cs, xrun hash (x_init progs) cs = Some s.

Lemma XI_reach hash progs s : xreach hash progs s -> XI progs s.
Proof.
  intros (cs & H). revert H. generalize (XI_init progs). generalize (x_init progs). induction cs as [|c cs IH]; intros s0 I H; cbn [xrun] in H.
  - injection H as <-. exact I.
  - destruct (xstep hash s0 c) as [s1|] eqn:E; [| discriminate]. eapply IH; [eapply XI_step; eassumption | exact H].
Qed.

(** At every moment the published set is the one the calls give that have taken effect,
    one after the other; none is registered twice. *)
Theorem C36_published hash progs s : xreach hash progs s ->
  NoDup (keys_at (x_heap s) (x_pub s)) /\ forall e, In e (keys_at (x_heap s) (x_pub s)) <-> reg_after (x_hist s) e = true.
Proof. intros H. apply XI_reach in H. apply (xi_pub _ _ H). Qed.

(** Every call of every goroutine takes effect exactly once, between its begin and its
    return; the calls of a goroutine in program order.  [partial]: what the call now
    running has done. *)
Theorem C36_atomic hash progs s g p : xreach hash progs s -> nth_error progs g = Some p ->
  exists dones x, nth_error (x_gs s) g = Some x /\ p = map fst dones ++ xg_todo x /\
    exists tail, filter (fun v => ev_g v =? g) (x_hist s) = flat_map (call_events g) dones ++ tail /\
      (tail = [] \/ exists op rest, xg_todo x = op :: rest /\ (tail = [EvBegin g op] \/ tail = [EvBegin g op; effect g op])).
Proof.
  intros H Ep. apply XI_reach in H.
  assert (Hlt : g < length (x_gs s)) by (rewrite (xi_len _ _ H); apply nth_error_Some; congruence).
  destruct (nth_error (x_gs s) g) as [x|] eqn:Eg; [| apply nth_error_None in Eg; lia].
  destruct (xi_calls _ _ H _ _ _ Eg Ep) as (dones & E1 & E2). exists dones, x. split; [reflexivity |]. split; [exact E1 |].
  exists (partial g x). split; [exact E2 |]. unfold partial. destruct (xg_todo x) as [|op rest]; [left; reflexivity |].
  destruct (xg_pc x); auto; right; exists op, rest; auto.
Qed.

(** A span that ended was given, once each, to exactly the exporters registered at one
    moment during the call. *)
Theorem C36_snapshot hash progs s ha g vis hb : xreach hash progs s -> x_hist s = ha ++ EvDone g vis :: hb ->
  exists h1 v h2, ha = h1 ++ v :: h2 /\ (forall w, In w h2 -> ev_g w <> g) /\
    ((exists op, v = EvStore g op /\ op <> XEnd) \/
     v = EvLoad g /\ NoDup vis /\ forall e, In e vis <-> reg_after h1 e = true).
Proof. intros H. apply XI_reach in H. apply (xi_done _ _ H). Qed.

Lemma not_panicked hash progs s g x : (forall e, hash e = true) -> xreach hash progs s -> nth_error (x_gs s) g = Some x -> xg_pc x <> XPanicked.
Proof.
  intros Hh (cs & H).
  assert (Hall : forall cs s0, (forall g x, nth_error (x_gs s0) g = Some x -> xg_pc x <> XPanicked) -> xrun hash s0 cs = Some s ->
    forall g x, nth_error (x_gs s) g = Some x -> xg_pc x <> XPanicked).
  { clear - Hh. induction cs as [|c cs IH]; intros s0 H0 H; cbn [xrun] in H; [injection H as <-; exact H0 |].
    destruct (xstep hash s0 c) as [s1|] eqn:E; [| discriminate]. eapply IH; [| exact H]. clear IH H.
    assert (Hset : forall g y, xg_pc y <> XPanicked -> forall g' x, nth_error (xset s0 g y) g' = Some x -> xg_pc x <> XPanicked).
    { intros g y Hy g' x Ex. rewrite xset_nth in Ex. destruct (g =? g').
      - destruct (nth_error (x_gs s0) g'); [| discriminate]. injection Ex as <-. exact Hy.
      - eapply H0. exact Ex. }
    destruct c as [g|g k]; cbn [xstep] in E; destruct (nth_error (x_gs s0) g) as [[todo pc]|]; try discriminate.
    - destruct todo as [|op rest]; [discriminate |].
      destruct pc; destruct op; try discriminate; try (destruct (x_mu s0); try discriminate); try (destruct (forallb _ _); try discriminate);
        try rewrite Hh in E; injection E as <-; cbn [x_gs]; apply Hset; discriminate.
    - destruct pc; try discriminate; destruct (_ && _); try discriminate; injection E as <-; cbn [x_gs]; apply Hset; discriminate. }
  apply (Hall cs (x_init progs)); [| exact H].
  intros g0 x0 E. cbn in E. rewrite nth_error_map in E. destruct (nth_error progs g0); [| discriminate]. injection E as <-. discriminate.
Qed.

Lemma forallb_false_ex {A} (p : A -> bool) l : forallb p l = false -> exists x, In x l /\ p x = false.
Proof.
  induction l as [|y l IH]; cbn; [discriminate |]. destruct (p y) eqn:E; cbn.
  - intros H. destruct (IH H) as (x & Hx & Hp). exists x. auto.
  - intros _. exists y. auto.
Qed.

(** While a call is outstanding, some goroutine can go on (exporters can be map keys). *)
Theorem C36_no_deadlock hash progs s g x : (forall e, hash e = true) -> xreach hash progs s ->
  nth_error (x_gs s) g = Some x -> xg_todo x <> [] -> exists c s', xstep hash s c = Some s'.
Proof.
  intros Hh H Eg Ht. pose proof (XI_reach _ _ _ H) as I.
  assert (Hstep : forall h y, nth_error (x_gs s) h = Some y -> xg_todo y <> [] -> (xg_pc y = XCalled -> x_mu s = None) -> exists c s', xstep hash s c = Some s').
  { intros h y Eh Hy Hc. pose proof (not_panicked hash progs s h y Hh H Eh) as Hp. pose proof (xi_pc _ _ I _ _ Eh) as Hpc.
    destruct y as [[|op rest] pc]; [contradiction |]. unfold pcinv in Hpc. cbn [xg_pc xg_todo] in *.
    destruct pc as [| | |n old done|n| | |a vis].
    - exists (XDo h). cbn [xstep]. rewrite Eh. destruct op; eexists; reflexivity.
    - exists (XDo h). cbn [xstep]. rewrite Eh, (Hc eq_refl). destruct op; eexists; reflexivity.
    - exists (XDo h). cbn [xstep]. rewrite Eh. destruct op; eexists; reflexivity.
    - destruct (forallb (fun k => mem k done) (keys_at (x_heap s) old)) eqn:F.
      + exists (XDo h). cbn [xstep]. rewrite Eh, F. destruct Hpc as ((op' & r' & T & Hne) & _). injection T as <- <-.
        destruct op; try (rewrite Hh; eexists; reflexivity). congruence.
      + apply forallb_false_ex in F. destruct F as (k & Hk & Hm). exists (XKey h k). cbn [xstep]. rewrite Eh. apply mem_In in Hk. rewrite Hk, Hm. eexists. reflexivity.
    - exists (XDo h). cbn [xstep]. rewrite Eh. destruct op; eexists; reflexivity.
    - exists (XDo h). cbn [xstep]. rewrite Eh. destruct op; eexists; reflexivity.
    - congruence.
    - destruct (forallb (fun k => mem k vis) (keys_at (x_heap s) a)) eqn:F.
      + exists (XDo h). cbn [xstep]. rewrite Eh, F. destruct op; eexists; reflexivity.
      + apply forallb_false_ex in F. destruct F as (k & Hk & Hm). exists (XKey h k). cbn [xstep]. rewrite Eh. apply mem_In in Hk. rewrite Hk, Hm. eexists. reflexivity. }
  destruct (x_mu s) as [h|] eqn:Em; [| apply (Hstep g x); auto].
  pose proof (xi_mu_lt _ _ I h Em) as Hlt. destruct (nth_error (x_gs s) h) as [y|] eqn:Eh; [| apply nth_error_None in Eh; lia].
  pose proof (proj2 (xi_mu _ _ I _ _ Eh) Em) as Hy. apply (Hstep h y Eh).
  - pose proof (xi_pc _ _ I _ _ Eh) as Hpc. unfold pcinv in Hpc. destruct (xg_pc y); try discriminate Hy.
    + destruct Hpc as (op & r & -> & _). discriminate.
    + destruct Hpc as ((op & r & -> & _) & _). discriminate.
    + destruct Hpc as (_ & _ & _ & op & r & -> & _). discriminate.
    + destruct Hpc as (op & r & h1 & h2 & -> & _). discriminate.
    + exact Hpc.
  - intros E. rewrite E in Hy. discriminate.
Qed.

(** Finding: an exporter whose type cannot be a map key makes RegisterExporter panic with
    the mutex locked; every later registration hangs. *)
Theorem C36_unhashable_refuted : exists hash s,
  xreach hash [[XReg 0]; [XReg 1]] s /\
  nth_error (x_gs s) 1 = Some (MkXG [XReg 1] XCalled) /\ forall cs s', xrun hash s cs = Some s' -> s' = s.
Proof.
  exists (fun e => negb (e =? 0)).
  destruct (xrun (fun e => negb (e =? 0)) (x_init [[XReg 0]; [XReg 1]]) [XDo 0; XDo 0; XDo 0; XDo 1; XDo 0]) as [s|] eqn:E; [| discriminate E].
  exists s. split; [eexists; exact E |]. vm_compute in E. injection E as <-. split; [reflexivity |].
  intros [|c cs] s' H; cbn [xrun] in H; [injection H as <-; reflexivity |].
  destruct c as [g|g k]; destruct g as [|[|[|g]]]; discriminate H.
Qed.

(** Two goroutines register and unregister while a third ends spans. *)
Example C36_example :
  exists s, xreach (fun _ => true) [[XReg 7]; [XReg 8; XUnreg 7]; [XEnd; XEnd]] s /\
    x_hist s = [EvBegin 0 (XReg 7); EvBegin 1 (XReg 8); EvStore 1 (XReg 8); EvBegin 2 XEnd; EvLoad 2; EvDone 1 []; EvStore 0 (XReg 7); EvDone 2 [8];
                EvDone 0 []; EvBegin 2 XEnd; EvBegin 1 (XUnreg 7); EvLoad 2; EvStore 1 (XUnreg 7); EvDone 2 [7; 8]; EvDone 1 []].
Proof.
  eexists. split.
  - exists [XDo 0; XDo 1; XDo 1; XDo 1; XDo 1; XDo 1; XDo 2; XDo 2; XDo 1; XDo 0; XDo 0; XKey 0 8; XDo 0; XDo 0; XKey 2 8; XDo 2;
            XDo 0; XDo 2; XDo 1; XDo 1; XDo 2; XDo 1; XKey 1 7; XKey 1 8; XDo 1; XDo 1; XKey 2 7; XKey 2 8; XDo 2; XDo 1].
    vm_compute. reflexivity.
  - reflexivity.
Qed.

Print Assumptions C36_published.
Print Assumptions C36_atomic.
Print Assumptions C36_snapshot.
Print Assumptions C36_no_deadlock.
Print Assumptions C36_unhashable_refuted.
