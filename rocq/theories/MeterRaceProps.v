(** Which calls of Meters race with each other, and that no others do (C85). *)

From Coq Require Import List Arith Bool Lia.
From Coq Require Import ZifyBool ZifyNat.
From Verif Require Import Base AggModel AggProofs MeterRaceModel MeterRaceSpec.
Import ListNotations.
Open Scope nat_scope.

(** ** Helpers *)

Lemma mtx_eqb_eq : forall a b, mtx_eqb a b = true <-> a = b.
Proof.
  intros [x|x] [y|y]; simpl; split; intros H; try discriminate.
  - apply Nat.eqb_eq in H; subst; reflexivity.
  - injection H as ->; apply Nat.eqb_refl.
  - apply Nat.eqb_eq in H; subst; reflexivity.
  - injection H as ->; apply Nat.eqb_refl.
Qed.
Lemma mtx_dec : forall a b : mtx, {a = b} + {a <> b}.
Proof. decide equality; apply Nat.eq_dec. Qed.
Lemma set_own_same : forall f k o, set_own f k o k = o.
Proof. intros; unfold set_own. assert (mtx_eqb k k = true) as -> by (apply mtx_eqb_eq; reflexivity). reflexivity. Qed.
Lemma set_own_other : forall f k o k', k' <> k -> set_own f k o k' = f k'.
Proof.
  intros f k o k' H; unfold set_own. destruct (mtx_eqb k' k) eqn:E; [|reflexivity].
  apply mtx_eqb_eq in E; congruence.
Qed.
Lemma setn_same : forall A (f : nat -> A) k a, setn f k a k = a.
Proof. intros; unfold setn; rewrite Nat.eqb_refl; reflexivity. Qed.
Lemma setn_other : forall A (f : nat -> A) k a k', k' <> k -> setn f k a k' = f k'.
Proof. intros A f k a k' H; unfold setn. destruct (Nat.eqb_spec k' k); [congruence|reflexivity]. Qed.

Lemma mem_in : forall v l, mem v l = true -> In v l.
Proof. intros v l H. apply existsb_exists in H. destruct H as [x [A B]]. apply Nat.eqb_eq in B; subst; exact A. Qed.

Lemma nth_upd : forall (l : list (list op)) t x u,
  nth u (upd l t (fun _ => x)) [] = if (u =? t) && (t <? length l) then x else nth u l [].
Proof.
  induction l as [|a l IH]; intros t x u; destruct t, u; simpl; try reflexivity.
  - rewrite andb_false_r; reflexivity.
  - rewrite IH. destruct (u =? t) eqn:E; simpl; [|reflexivity].
    change (S t <? S (length l)) with (t <? length l). reflexivity.
Qed.

Lemma ops_length : forall s t o l, ops_at s t = o :: l -> t < length (m_ths s).
Proof.
  intros s t o l H. destruct (Nat.lt_ge_cases t (length (m_ths s))) as [A|A]; [exact A|].
  unfold ops_at in H. rewrite nth_overflow in H by exact A. discriminate.
Qed.

Lemma set_ops_same : forall s t l, t < length (m_ths s) -> ops_at (set_ops s t l) t = l.
Proof.
  intros s t l H. unfold ops_at, set_ops; simpl. rewrite nth_upd, Nat.eqb_refl.
  apply Nat.ltb_lt in H; rewrite H. reflexivity.
Qed.
Lemma set_ops_other : forall s t l u, u <> t -> ops_at (set_ops s t l) u = ops_at s u.
Proof.
  intros s t l u H. unfold ops_at, set_ops; simpl. rewrite nth_upd.
  destruct (Nat.eqb_spec u t); [congruence|reflexivity].
Qed.

Fixpoint rm (k : mtx) (l : list mtx) : list mtx :=
  match l with [] => [] | x :: r => if mtx_eqb x k then r else x :: rm k r end.

Lemma rm_head : forall k l, rm k (k :: l) = l.
Proof. intros; simpl. assert (mtx_eqb k k = true) as -> by (apply mtx_eqb_eq; reflexivity). reflexivity. Qed.

Lemma rm_in : forall k l, NoDup l -> NoDup (rm k l) /\ forall x, In x (rm k l) <-> In x l /\ x <> k.
Proof.
  intros k; induction l as [|y l IH]; simpl; intros H; [split; [constructor|intros; tauto]|].
  inversion H; subst. destruct (IH H3) as [A B]. destruct (mtx_eqb y k) eqn:E.
  - apply mtx_eqb_eq in E; subst y. split; [assumption|]. intros x; split.
    + intros C; split; [right; exact C|]. intros ->; contradiction.
    + intros [[C|C] N]; [congruence|exact C].
  - assert (y <> k) as N by (intros ->; assert (mtx_eqb k k = true) by (apply mtx_eqb_eq; reflexivity); congruence).
    split.
    + constructor; [|exact A]. intros C; apply B in C; tauto.
    + intros x; simpl; rewrite B. split; [intros [->|[C D]]; tauto|tauto].
Qed.

(** ** The discipline *)

Section Meters.
Variable K : nat.
Variable ag : nat -> nat.

Section Fine.
Variable t : nat.

Definition rd_ok (cn : nat -> Prop) (ws : list mtx) (x : var) : Prop :=
  match x with
  | VViews m | VRows m _ => t = m \/ In (Mu m) ws
  | VMeas m | VTimer m => t = m
  | VRes m => In (Mu m) ws
  | VExp m => In (Emu m) ws
  | VView v => cn v
  | VAgg _ => t < K
  end.
Definition wr_ok (ws : list mtx) (x : var) : Prop :=
  match x with
  | VViews m | VRows m _ => t = m /\ In (Mu m) ws
  | VMeas m | VTimer m => t = m
  | VRes _ => True
  | VExp m => In (Emu m) ws
  | VView v => False
  | VAgg _ => t < K
  end.

Fixpoint fine (cn : nat -> Prop) (ws : list mtx) (l : list op) : Prop :=
  match l with
  | [] => ws = []
  | Lock k :: r => fine cn (k :: ws) r
  | Unlock k :: r => In k ws /\ fine cn (rm k ws) r
  | Rd x :: r => rd_ok cn ws x /\ fine cn ws r
  | Wr x :: r => wr_ok ws x /\ fine cn ws r
  | Clear m v :: r => t = m /\ fine cn ws r
  | Canon v :: r => t < K /\ fine (fun x => x = v \/ cn x) ws r
  | Reg m v :: r => t = m /\ In (Mu m) ws /\ cn v /\ fine cn ws r
  | Unreg m v :: r => t = m /\ In (Mu m) ws /\ fine cn ws r
  | Walk m b :: r => In (Mu m) ws /\ fine cn ws r
  | Export :: r | Send _ _ :: r => fine cn ws r
  end.

Lemma fine_mono : forall l (cn cn' : nat -> Prop) ws, (forall x, cn x -> cn' x) -> fine cn ws l -> fine cn' ws l.
Proof.
  induction l as [|o l IH]; intros cn cn' ws H; [simpl; tauto|].
  destruct o; cbn [fine]; intros F.
  - eapply IH; eassumption.
  - destruct F; split; [assumption|eapply IH; eassumption].
  - destruct F as [A B]; split; [destruct x; simpl in *; auto|eapply IH; eassumption].
  - destruct F; split; [assumption|eapply IH; eassumption].
  - destruct F; split; [assumption|eapply IH; eassumption].
  - destruct F as [A B]; split; [assumption|]. eapply IH; [|exact B]. intros x [E|C]; [left; exact E|right; apply H, C].
  - destruct F as [A [B [C D]]]; repeat split; try assumption; [apply H, C|eapply IH; eassumption].
  - destruct F as [A [B C]]; repeat split; try assumption; eapply IH; eassumption.
  - destruct F as [A B]; split; [assumption|eapply IH; eassumption].
  - eapply IH; eassumption.
  - eapply IH; eassumption.
Qed.
End Fine.

(** ** The calls keep to it *)

Section Calls.
Variable t : nat.

Lemma call_fine : forall c cn ws rest, fine t cn ws rest -> fine t cn ws (ops_of c ++ rest).
Proof.
  intros [m k|m|m|m] cn ws rest F; cbn [ops_of app fine]; try exact F.
  - split; [right; left; reflexivity|]. split; [left; reflexivity|]. rewrite rm_head. split; [left; reflexivity|exact F].
  - split; [exact I|exact F].
  - split; [left; reflexivity|]. rewrite rm_head. split; [left; reflexivity|exact F].
Qed.

Lemma report_fine : forall (cn : nat -> Prop) ws m v rest, cn v -> (t = m \/ In (Mu m) ws) -> fine t cn ws rest ->
  fine t cn ws (report_ops m v ++ rest).
Proof.
  intros cn ws m v rest C M F. unfold report_ops; cbn [app fine rd_ok]. rewrite rm_head.
  repeat split; try assumption; left; reflexivity.
Qed.

Lemma metric_fine : forall (cn : nat -> Prop) ws m v rest, cn v -> In (Mu m) ws -> fine t cn ws rest ->
  fine t cn ws (metric_ops m v ++ rest).
Proof. intros cn ws m v rest C M F. cbn [metric_ops app fine rd_ok]. repeat split; try assumption. right; exact M. Qed.

Lemma walk_fine : forall (cn : nat -> Prop) ws m (b : bool) l rest, (forall v, In v l -> cn v) -> In (Mu m) ws -> fine t cn ws rest ->
  fine t cn ws (concat (map (if b then report_ops m else metric_ops m) l) ++ rest).
Proof.
  intros cn ws m b l rest C M F. induction l as [|v l IH]; [exact F|].
  cbn [map concat]. rewrite <- app_assoc.
  assert (fine t cn ws (concat (map (if b then report_ops m else metric_ops m) l) ++ rest)) as G
    by (apply IH; intros; apply C; right; assumption).
  destruct b; [apply report_fine|apply metric_fine]; auto; apply C; left; reflexivity.
Qed.
End Calls.

Section Handlers.
Variable m : nat.
Hypothesis mK : m < K.

Lemma canon_fine : forall cs (cn : nat -> Prop) ws rest, fine m (fun v => In v cs \/ cn v) ws rest ->
  fine m cn ws (concat (map (canon_ops ag) cs) ++ rest).
Proof.
  induction cs as [|c cs IH]; intros cn ws rest F.
  - cbn [map concat app]. eapply fine_mono; [|exact F]. intros x [[]|H]; exact H.
  - cbn [map concat]. rewrite <- app_assoc. cbn [canon_ops app fine wr_ok]. split; [exact mK|]. split; [exact mK|].
    apply IH. eapply fine_mono; [|exact F]. intros x [[->|H]|H]; tauto.
Qed.

Lemma try_fine : forall (cn : nat -> Prop) ws known x rest, cn (fst x) -> (forall v, In v known -> cn v) -> fine m cn ws rest ->
  fine m cn ws (try_ops ag m known x ++ rest).
Proof.
  intros cn ws known [v [y|]] rest C H F; unfold try_ops; cbn [fst snd] in *; rewrite <- !app_assoc; cbn [app fine rd_ok].
  - split; [exact C|]. split; [left; reflexivity|].
    destruct (mem y known) eqn:E; cbn [app fine rd_ok]; rewrite rm_head.
    + apply mem_in in E. repeat split; auto. left; reflexivity.
    + split; [left; reflexivity|exact F].
  - cbn [wr_ok]. rewrite rm_head. repeat split; auto; left; reflexivity.
Qed.

Lemma unregister_fine : forall (cn : nat -> Prop) ws views x rest, (forall v, In v views -> cn v) -> fine m cn ws rest ->
  fine m cn ws (unregister_ops m views x ++ rest).
Proof.
  intros cn ws views [v b] rest H F. unfold unregister_ops; cbn [fst snd app fine rd_ok].
  split; [left; reflexivity|]. destruct (mem v views) eqn:E; [|exact F]. apply mem_in in E.
  assert (fine m cn ws ([Clear m v; Lock (Mu m); Wr (VMeas m); Unreg m v; Unlock (Mu m)] ++ rest)) as G.
  { cbn [app fine wr_ok]. rewrite rm_head. repeat split; auto; left; reflexivity. }
  rewrite <- app_assoc. destruct b; [|exact G]. apply report_fine; auto.
Qed.

Lemma record_fine : forall (cn : nat -> Prop) ws views vs rest, (forall v, In v views -> cn v) -> In (Mu m) ws -> fine m cn ws rest ->
  fine m cn ws (record_ops ag m views vs ++ rest).
Proof.
  intros cn ws views vs rest H M F. unfold record_ops. cbn [app fine rd_ok wr_ok]. split; [reflexivity|]. split; [reflexivity|].
  induction vs as [|v vs IH]; [exact F|]. cbn [filter]. destruct (mem v views) eqn:E; [|exact IH].
  apply mem_in in E. cbn [map concat app fine rd_ok wr_ok]. repeat split; auto.
Qed.

Lemma handler_fine : forall (cn : nat -> Prop) views c, (forall v, In v views -> cn v) -> fine m cn [] (handler ag m views c).
Proof.
  intros cn views c H. destruct c as [|cs vs|vs|v|l|]; cbn [handler].
  - cbn [fine rd_ok]. split; [left; reflexivity|reflexivity].
  - apply canon_fine. rewrite <- (app_nil_r (concat _)).
    induction vs as [|x vs IH]; [reflexivity|]. cbn [filter]. destruct (mem (fst x) cs) eqn:E; [|exact IH].
    cbn [map concat]. rewrite <- app_assoc. apply mem_in in E. apply try_fine; [left; exact E| |exact IH].
    intros v I. apply in_app_or in I. destruct I; auto.
  - rewrite <- (app_nil_r (concat _)). induction vs as [|x vs IH]; [reflexivity|].
    cbn [map concat]. rewrite <- app_assoc. apply unregister_fine; [exact H|exact IH].
  - cbn [app fine rd_ok]. split; [left; reflexivity|]. destruct (mem v views) eqn:E; cbn [app fine rd_ok]; rewrite rm_head.
    + apply mem_in in E. repeat split; auto; left; reflexivity.
    + split; [left; reflexivity|reflexivity].
  - cbn [fine]. induction l as [|x l IH].
    + cbn [map concat app fine]. rewrite rm_head. split; [left; reflexivity|reflexivity].
    + cbn [map concat]. rewrite <- app_assoc. apply record_fine; [exact H|left; reflexivity|exact IH].
  - cbn [fine rd_ok wr_ok]. repeat split; reflexivity.
Qed.
End Handlers.

(** ** The invariant *)

Definition cnp (s : mst) (v : nat) : Prop := m_canon s v = true.

Definition inv (s : mst) (W : nat -> list mtx) : Prop :=
  (forall t, fine t (cnp s) (W t) (ops_at s t)) /\
  (forall t, NoDup (W t)) /\
  (forall t k, In k (W t) <-> m_own s k = Some t) /\
  (forall m v, In v (m_views s m) -> cnp s v).

Definition setw (W : nat -> list mtx) (t : nat) (l : list mtx) : nat -> list mtx := setn W t l.

(** A step of thread [t] to operations [l]. *)
Lemma inv_keep : forall s W t l own q views canon,
  inv s W -> t < length (m_ths s) ->
  (forall v, cnp s v -> canon v = true) ->
  (forall m v, In v (views m) -> canon v = true) ->
  forall w, NoDup w ->
  (forall u k, In k (setn W t w u) <-> own k = Some u) ->
  fine t (fun v => canon v = true) w l ->
  inv (MkM (m_ths (set_ops s t l)) own q views canon) (setn W t w).
Proof.
  intros s W t l own q views canon [F [N [O V]]] L C V' w Nw Ow Fw. repeat split.
  - intros u. change (ops_at (MkM (m_ths (set_ops s t l)) own q views canon) u) with (ops_at (set_ops s t l) u).
    destruct (Nat.eq_dec u t) as [->|D].
    + rewrite setn_same, set_ops_same by exact L. exact Fw.
    + rewrite setn_other, set_ops_other by exact D. eapply fine_mono; [|apply F]. exact C.
  - intros u. destruct (Nat.eq_dec u t) as [->|D]; [rewrite setn_same; exact Nw|rewrite setn_other by exact D; apply N].
  - apply Ow.
  - apply Ow.
  - exact V'.
Qed.

Lemma own_keep : forall s W t, inv s W -> forall u k, In k (setn W t (W t) u) <-> m_own s k = Some u.
Proof.
  intros s W t [F [N [O V]]] u k. destruct (Nat.eq_dec u t) as [->|D]; [rewrite setn_same|rewrite setn_other by exact D]; apply O.
Qed.

Lemma inv_same : forall s W t l q views canon,
  inv s W -> t < length (m_ths s) ->
  (forall v, cnp s v -> canon v = true) ->
  (forall m v, In v (views m) -> canon v = true) ->
  fine t (fun v => canon v = true) (W t) l ->
  exists W', inv (MkM (m_ths (set_ops s t l)) (m_own s) q views canon) W'.
Proof.
  intros s W t l q views canon I L C V F. exists (setn W t (W t)). eapply inv_keep; eauto; [apply I|apply own_keep, I].
Qed.

Lemma inv_step : forall s W p s', inv s W -> mstep K ag s p = Some s' -> exists W', inv s' W'.
Proof.
  intros s W p s' I H. pose proof I as [F [N [O V]]].
  assert (forall v, cnp s v -> m_canon s v = true) as C0 by (intros; assumption).
  destruct p as [t c|t|t l|m|m|m]; cbn [mstep] in H.
  - destruct ((t <? length (m_ths s)) && free K t (ops_at s t)) eqn:E; [|discriminate]. injection H as <-.
    apply andb_true_iff in E; destruct E as [E _]; apply Nat.ltb_lt in E.
    apply (inv_same s W t _ (m_q s) (m_views s) (m_canon s) I E C0 V). apply call_fine, F.
  - destruct (ops_at s t) as [|o r] eqn:E; [discriminate|]. pose proof (ops_length _ _ _ _ E) as L.
    pose proof (F t) as Ft. rewrite E in Ft.
    destruct o; cbn [fine] in Ft.
    + destruct (m_own s k) eqn:Ek; [discriminate|]. injection H as <-.
      exists (setn W t (k :: W t)). apply inv_keep; auto.
      * constructor; [|apply N]. intros A; apply O in A; congruence.
      * intros u k'. destruct (mtx_dec k' k) as [->|D].
        -- rewrite set_own_same. destruct (Nat.eq_dec u t) as [->|Du].
           ++ rewrite setn_same. split; [reflexivity|left; reflexivity].
           ++ rewrite setn_other by exact Du. rewrite O, Ek. split; congruence.
        -- rewrite set_own_other by exact D. rewrite <- O. destruct (Nat.eq_dec u t) as [->|Du].
           ++ rewrite setn_same. simpl. split; [intros [A|A]; [congruence|exact A]|tauto].
           ++ rewrite setn_other by exact Du. reflexivity.
    + injection H as <-. destruct Ft as [A Ft]. destruct (rm_in k (W t) (N t)) as [Nr Ir].
      exists (setn W t (rm k (W t))). apply inv_keep; auto.
      intros u k'. destruct (mtx_dec k' k) as [->|D].
      * rewrite set_own_same. destruct (Nat.eq_dec u t) as [->|Du].
        -- rewrite setn_same, Ir. split; [tauto|discriminate].
        -- rewrite setn_other by exact Du. apply O in A. rewrite O. split; [congruence|discriminate].
      * rewrite set_own_other by exact D. rewrite <- O. destruct (Nat.eq_dec u t) as [->|Du].
        -- rewrite setn_same, Ir. tauto.
        -- rewrite setn_other by exact Du. reflexivity.
    + injection H as <-. apply (inv_same s W t r (m_q s) (m_views s) (m_canon s)); auto; apply Ft.
    + injection H as <-. apply (inv_same s W t r (m_q s) (m_views s) (m_canon s)); auto; apply Ft.
    + injection H as <-. apply (inv_same s W t r (m_q s) (m_views s) (m_canon s)); auto; apply Ft.
    + injection H as <-. assert (forall x, x = v \/ cnp s x -> setn (m_canon s) v true x = true) as Cv.
      { intros x D. destruct (Nat.eq_dec x v) as [->|Dv]; [apply setn_same|].
        rewrite setn_other by exact Dv. destruct D; [contradiction|assumption]. }
      apply inv_same with (W := W); auto.
      * intros m x D. apply Cv; right; eapply V, D.
      * eapply fine_mono; [|apply Ft]. exact Cv.
    + injection H as <-. destruct Ft as [A [B [C D]]]. apply inv_same with (W := W); auto.
      intros m' x G. destruct (Nat.eq_dec m' m) as [->|Dm].
      * rewrite setn_same in G. destruct G as [<-|G]; [exact C|eapply V, G].
      * rewrite setn_other in G by exact Dm. eapply V, G.
    + injection H as <-. destruct Ft as [A [B C]]. apply inv_same with (W := W); auto.
      intros m' x G. destruct (Nat.eq_dec m' m) as [->|Dm].
      * rewrite setn_same in G. apply filter_In in G. eapply V, G.
      * rewrite setn_other in G by exact Dm. eapply V, G.
    + discriminate.
    + injection H as <-. apply (inv_same s W t r (m_q s) (m_views s) (m_canon s)); auto.
    + injection H as <-. apply inv_same with (W := W); auto.
  - destruct (ops_at s t) as [|[] r] eqn:E; try discriminate.
    destruct (forallb _ l) eqn:El; [|discriminate]. injection H as <-.
    pose proof (ops_length _ _ _ _ E) as L. pose proof (F t) as Ft. rewrite E in Ft. cbn [fine] in Ft.
    apply (inv_same s W t _ (m_q s) (m_views s) (m_canon s)); auto.
    apply walk_fine; [|apply Ft|apply Ft]. intros v Hv. rewrite forallb_forall in El.
    apply (V m). apply mem_in. apply El, Hv.
  - destruct (m_q s m) as [|c q] eqn:Eq; [discriminate|]. destruct (idle K s m) eqn:Ei; [|discriminate].
    injection H as <-. unfold idle in Ei. apply andb_true_iff in Ei. destruct Ei as [Ei E3].
    apply andb_true_iff in Ei. destruct Ei as [E1 E2]. apply Nat.ltb_lt in E1, E2.
    pose proof (F m) as Fm. destruct (ops_at s m); [|discriminate]. cbn [fine] in Fm.
    apply inv_same with (W := W); auto. rewrite Fm. split; [reflexivity|]. apply handler_fine; [exact E1|]. apply V.
  - destruct (idle K s m) eqn:Ei; [|discriminate].
    injection H as <-. unfold idle in Ei. apply andb_true_iff in Ei. destruct Ei as [Ei E3].
    apply andb_true_iff in Ei. destruct Ei as [E1 E2]. apply Nat.ltb_lt in E1, E2.
    pose proof (F m) as Fm. destruct (ops_at s m); [|discriminate]. cbn [fine] in Fm.
    apply (inv_same s W m _ (m_q s) (m_views s) (m_canon s)); auto. rewrite Fm. unfold tick_ops. cbn [fine rd_ok]. rewrite rm_head.
    repeat split; auto; left; reflexivity.
  - destruct (idle K s m) eqn:Ei; [|discriminate].
    injection H as <-. unfold idle in Ei. apply andb_true_iff in Ei. destruct Ei as [Ei E3].
    apply andb_true_iff in Ei. destruct Ei as [E1 E2]. apply Nat.ltb_lt in E1, E2.
    pose proof (F m) as Fm. destruct (ops_at s m); [|discriminate]. cbn [fine] in Fm.
    apply (inv_same s W m _ (m_q s) (m_views s) (m_canon s)); auto. rewrite Fm. cbn [fine rd_ok]. split; reflexivity.
Qed.

Lemma ops_init : forall n t, ops_at (minit K n) t = [].
Proof.
  intros n t. unfold ops_at, minit; simpl. generalize (K + n). intros k. revert t.
  induction k as [|k IH]; intros [|t]; simpl; try reflexivity. apply IH.
Qed.

Lemma inv_init : forall n, inv (minit K n) (fun _ => []).
Proof.
  intros n. repeat split.
  - intros t. rewrite ops_init. reflexivity.
  - intros t; constructor.
  - intros [].
  - discriminate.
  - intros m v [].
Qed.

Lemma inv_steps : forall s l s', msteps K ag s l s' -> forall W, inv s W -> exists W', inv s' W'.
Proof.
  intros s l s' H; induction H as [s|s p s1 l s' H1 H2 IH]; intros W I; [exists W; exact I|].
  destruct (inv_step _ _ _ _ I H1) as [W1 I1]. eapply IH, I1.
Qed.

Lemma inv_reach : forall l s, reachable_by K ag l s -> exists W, inv s W.
Proof. intros l s [n H]. eapply inv_steps; [exact H|apply inv_init]. Qed.

(** ** What a schedule without some calls never does *)

Section Clean.
Variable ok : nat -> op -> Prop.
Variable okc : nat -> cmd -> Prop.
Variable okv : nat -> nat -> Prop.
Hypothesis H_send : forall t m c, ok t (Send m c) -> okc m c.
Hypothesis H_reg : forall t m v, ok t (Reg m v) -> okv m v.
Hypothesis H_walk : forall t m b v o, okv m v -> ok t (Walk m b) -> In o ((if b then report_ops m else metric_ops m) v) -> ok t o.
Hypothesis H_cmd : forall m views c o, okc m c -> (forall v, In v views -> okv m v) -> In o (handler ag m views c) -> ok m o.
Hypothesis H_tick : forall m o, In o (Rd (VTimer m) :: tick_ops m) -> ok m o.

Definition clean (s : mst) : Prop :=
  (forall t o, In o (ops_at s t) -> ok t o) /\ (forall m c, In c (m_q s m) -> okc m c) /\ (forall m v, In v (m_views s m) -> okv m v).

Lemma clean_step : forall s p s', clean s -> mstep K ag s p = Some s' ->
  (forall t c, p = PBegin t c -> forall o, In o (ops_of c) -> ok t o) -> clean s'.
Proof.
  intros s p s' [A [B V]] H P.
  assert (forall t l own q views canon, t < length (m_ths s) -> (forall o, In o l -> ok t o) ->
    (forall m c, In c (q m) -> okc m c) -> (forall m v, In v (views m) -> okv m v) ->
    clean (MkM (m_ths (set_ops s t l)) own q views canon)) as G.
  { intros t l own q views canon L X Y Z. split; [|split; [exact Y|exact Z]]. intros u o I.
    change (In o (ops_at (set_ops s t l) u)) in I.
    destruct (Nat.eq_dec u t) as [->|D]; [rewrite set_ops_same in I by exact L; apply X, I|].
    rewrite set_ops_other in I by exact D. apply A, I. }
  destruct p as [t c|t|t l|m|m|m]; cbn [mstep] in H.
  - destruct ((t <? length (m_ths s)) && free K t (ops_at s t)) eqn:E; [|discriminate]. injection H as <-.
    apply andb_true_iff in E; destruct E as [E _]; apply Nat.ltb_lt in E.
    apply G; auto. intros o I. apply in_app_or in I. destruct I as [I|I]; [eapply P; [reflexivity|exact I]|apply A, I].
  - destruct (ops_at s t) as [|o r] eqn:E; [discriminate|]. pose proof (ops_length _ _ _ _ E) as L.
    assert (forall x, In x r -> ok t x) as R by (intros x I; apply A; rewrite E; right; exact I).
    assert (ok t o) as O by (apply A; rewrite E; left; reflexivity).
    destruct o; try discriminate; try (injection H as <-; apply G; assumption).
    + destruct (m_own s k); [discriminate|]. injection H as <-. apply G; assumption.
    + injection H as <-. apply G; auto. intros m' x I. destruct (Nat.eq_dec m' m) as [->|D].
      * rewrite setn_same in I. destruct I as [<-|I]; [eapply H_reg, O|apply V, I].
      * rewrite setn_other in I by exact D. apply V, I.
    + injection H as <-. apply G; auto. intros m' x I. destruct (Nat.eq_dec m' m) as [->|D].
      * rewrite setn_same in I. apply filter_In in I. apply V, I.
      * rewrite setn_other in I by exact D. apply V, I.
    + injection H as <-. apply G; auto. intros m' x I. destruct (Nat.eq_dec m' m) as [->|D].
      * rewrite setn_same in I. apply in_app_or in I. destruct I as [I|[<-|[]]]; [apply B, I|eapply H_send, O].
      * rewrite setn_other in I by exact D. apply B, I.
  - destruct (ops_at s t) as [|[] r] eqn:E; try discriminate.
    destruct (forallb _ l) eqn:El; [|discriminate]. injection H as <-.
    pose proof (ops_length _ _ _ _ E) as L. apply G; auto. intros o I. apply in_app_or in I. destruct I as [I|I].
    + apply in_concat in I. destruct I as [x [I1 I2]]. apply in_map_iff in I1. destruct I1 as [v [<- I1]].
      rewrite forallb_forall in El. apply El, mem_in in I1.
      eapply H_walk; [apply V, I1| |exact I2]. apply A; rewrite E; left; reflexivity.
    + apply A; rewrite E; right; exact I.
  - destruct (m_q s m) as [|c q] eqn:Eq; [discriminate|]. destruct (idle K s m) eqn:Ei; [|discriminate].
    injection H as <-. unfold idle in Ei. apply andb_true_iff in Ei. destruct Ei as [Ei E3].
    apply andb_true_iff in Ei. destruct Ei as [E1 E2]. apply Nat.ltb_lt in E1, E2. apply G; auto.
    + intros o [<-|I]; [apply H_tick; left; reflexivity|]. eapply H_cmd; [|apply V|exact I]. apply B. rewrite Eq; left; reflexivity.
    + intros m' x I. destruct (Nat.eq_dec m' m) as [->|D].
      * rewrite setn_same in I. apply B. rewrite Eq; right; exact I.
      * rewrite setn_other in I by exact D. apply B, I.
  - destruct (idle K s m) eqn:Ei; [|discriminate].
    injection H as <-. unfold idle in Ei. apply andb_true_iff in Ei. destruct Ei as [Ei E3].
    apply andb_true_iff in Ei. destruct Ei as [E1 E2]. apply Nat.ltb_lt in E1, E2. apply G; auto.
  - destruct (idle K s m) eqn:Ei; [|discriminate].
    injection H as <-. unfold idle in Ei. apply andb_true_iff in Ei. destruct Ei as [Ei E3].
    apply andb_true_iff in Ei. destruct Ei as [E1 E2]. apply Nat.ltb_lt in E1, E2. apply G; auto.
    intros o [<-|[]]. apply H_tick. left; reflexivity.
Qed.

Lemma clean_steps : forall s l s', msteps K ag s l s' -> clean s ->
  (forall t c, In (PBegin t c) l -> forall o, In o (ops_of c) -> ok t o) -> clean s'.
Proof.
  intros s l s' H; induction H as [s|s p s1 l s' H1 H2 IH]; intros C P; [exact C|].
  apply IH; [|intros; eapply P; [right; eassumption|assumption]].
  eapply clean_step; [exact C|exact H1|]. intros t c -> o I. eapply P; [left; reflexivity|exact I].
Qed.

Lemma clean_reach : forall l s, reachable_by K ag l s ->
  (forall t c, In (PBegin t c) l -> forall o, In o (ops_of c) -> ok t o) -> clean s.
Proof.
  intros l s [n H] P. eapply clean_steps; [exact H| |exact P]. repeat split.
  - intros t o I. rewrite ops_init in I. destruct I.
  - intros m c [].
  - intros m v [].
Qed.
End Clean.

(** ** C85 *)

(** The only races there are: SetResource with Read or SetResource; Unregister, of the worker, with
    Read of that meter; the workers of two meters that register the same View at the same time, or
    use the same Aggregation. *)
Theorem C85_races : forall l s t u x, reachable_by K ag l s -> race_on s t u x ->
  (exists m, x = VRes m /\ next_op s t = Some (Wr (VRes m))) \/
  (exists m v, x = VRows m v /\ t = m /\ next_op s t = Some (Clear m v) /\ next_op s u = Some (Rd (VRows m v)) /\ m_own s (Mu m) = Some u) \/
  (exists v, x = VView v /\ t < K /\ u < K /\ next_op s t = Some (Canon v) /\ next_op s u = Some (Canon v)) \/
  (exists a, x = VAgg a /\ t < K /\ u < K /\ next_op s t = Some (Wr (VAgg a))).
Proof.
  intros l s t u x R [D [o [o' [w [Ht [Hu [At Au]]]]]]]. destruct (inv_reach _ _ R) as [W [F [N [O V]]]].
  pose proof (F t) as Ft. pose proof (F u) as Fu. unfold next_op in *.
  destruct (ops_at s t) as [|o1 r]; [discriminate|]. destruct (ops_at s u) as [|o2 r']; [discriminate|].
  cbn [hd_error] in *. injection Ht as ->. injection Hu as ->.
  assert (forall k, In k (W t) -> In k (W u) -> False) as X by (intros k I J; apply O in I; apply O in J; congruence).
  destruct o; try discriminate; cbn [access] in At; injection At as <-; try intros Ew0; cbn [fine] in Ft.
  - (* Wr *)
    rename x0 into x. destruct Ft as [Ft _]. destruct x; cbn [wr_ok] in Ft.
    + exfalso. destruct Ft as [-> I]. destruct o'; try discriminate; cbn [access] in Au; injection Au as E; try intros Ew; subst; cbn [fine rd_ok wr_ok] in Fu;
        try discriminate E; try (injection E as ->); destruct Fu as [Fu Fr]; try (destruct Fu as [Fu|Fu]); try tauto; try congruence; eauto;
        destruct Fu; congruence.
    + exfalso. subst m. destruct o'; try discriminate; cbn [access] in Au; injection Au as E; try intros Ew; try discriminate E; subst; cbn [fine rd_ok wr_ok] in Fu; destruct Fu; congruence.
    + exfalso. destruct Ft as [-> I]. destruct o'; try discriminate; cbn [access] in Au; injection Au as E; try intros Ew; try discriminate E; subst; cbn [fine rd_ok wr_ok] in Fu; destruct Fu as [Fu Fr].
      * destruct Fu as [Fu|Fu]; [congruence|eapply X; eassumption].
      * destruct Fu; congruence.
      * congruence.
    + left. exists m. split; reflexivity.
    + exfalso. destruct o'; try discriminate; cbn [access] in Au; injection Au as E; try intros Ew; try discriminate E; subst; cbn [fine rd_ok wr_ok] in Fu; destruct Fu; eapply X; eassumption.
    + exfalso. subst m. destruct o'; try discriminate; cbn [access] in Au; injection Au as E; try intros Ew; try discriminate E; subst; cbn [fine rd_ok wr_ok] in Fu; destruct Fu; congruence.
    + contradiction.
    + right; right; right. exists a. split; [reflexivity|]. split; [exact Ft|]. split; [|reflexivity].
      destruct o'; try discriminate; cbn [access] in Au; injection Au as E; try intros Ew; try discriminate E; subst; cbn [fine rd_ok wr_ok] in Fu; apply Fu.
  - (* Clear *)
    destruct Ft as [-> _]. right; left. exists m, v. split; [reflexivity|]. split; [reflexivity|]. split; [reflexivity|].
    destruct o'; try discriminate; cbn [access] in Au; injection Au as E; try intros Ew; try discriminate E; subst; cbn [fine rd_ok wr_ok] in Fu; destruct Fu as [Fu Fr].
    + destruct Fu as [Fu|Fu]; [congruence|]. split; [reflexivity|]. apply O, Fu.
    + destruct Fu; congruence.
    + congruence.
  - (* Canon *)
    destruct Ft as [Ft _]. right; right; left. exists v. split; [reflexivity|]. split; [exact Ft|].
    destruct o'; try discriminate; cbn [access] in Au; injection Au as E; try intros Ew; try discriminate E; subst; cbn [fine rd_ok wr_ok] in Fu; destruct Fu as [Fu Fr].
    + unfold cnp in Fu. match goal with H : negb (m_canon _ _) = true |- _ => rewrite Fu in H; discriminate H end.
    + contradiction.
    + split; [exact Fu|]. split; reflexivity.
  - exfalso. destruct Ft as [-> [I _]]. destruct o'; try discriminate; cbn [access] in Au; injection Au as E; try intros Ew; try discriminate E; subst; cbn [fine rd_ok wr_ok] in Fu.
    + destruct Fu as [[Fu|Fu] _]; [congruence|eapply X; eassumption].
    + destruct Fu as [[Fu _] _]; congruence.
    + destruct Fu as [Fu _]; congruence.
    + destruct Fu as [Fu _]; congruence.
    + destruct Fu as [Fu _]. subst. eapply X; eassumption.
  - exfalso. destruct Ft as [-> [I _]]. destruct o'; try discriminate; cbn [access] in Au; injection Au as E; try intros Ew; try discriminate E; subst; cbn [fine rd_ok wr_ok] in Fu.
    + destruct Fu as [[Fu|Fu] _]; [congruence|eapply X; eassumption].
    + destruct Fu as [[Fu _] _]; congruence.
    + destruct Fu as [Fu _]; congruence.
    + destruct Fu as [Fu _]; congruence.
    + destruct Fu as [Fu _]. subst. eapply X; eassumption.
Qed.

(** ** When there are none *)

Definition of_reg (c : cmd) (v : nat) : Prop := match c with KRegister cs _ => In v cs | _ => False end.

Lemma handler_ops : forall m views c o, In o (handler ag m views c) ->
  match o with
  | Clear m' _ => m' = m /\ exists vs, c = KUnregister vs
  | Rd (VRows m' _) => m' = m
  | Wr (VRes _) | Walk _ _ | Send _ _ => False
  | Canon v => of_reg c v
  | Reg m' v => m' = m /\ of_reg c v
  | Rd (VAgg a) | Wr (VAgg a) => exists v, a = ag v /\ (In v views \/ of_reg c v)
  | _ => True
  end.
Proof.
  intros m views c o I. destruct c as [|cs vs|vs|v|l|]; cbn [handler of_reg] in *.
  - destruct I as [<-|[]]; exact Logic.I.
  - apply in_app_or in I. destruct I as [I|I].
    + apply in_concat in I. destruct I as [x [I1 I2]]. apply in_map_iff in I1. destruct I1 as [v [<- I1]].
      destruct I2 as [<-|[<-|[]]]; [exact I1|]. exists v. split; [reflexivity|right; exact I1].
    + apply in_concat in I. destruct I as [x [I1 I2]]. apply in_map_iff in I1. destruct I1 as [[v y] [<- I1]].
      apply filter_In in I1. destruct I1 as [_ I1]. apply mem_in in I1. cbn [fst] in I1.
      unfold try_ops in I2; cbn [fst snd] in I2. rewrite !in_app_iff in I2. destruct I2 as [I2|[I2|[<-|[]]]]; [|destruct y as [y|]|exact Logic.I].
      * destruct I2 as [<-|[<-|[<-|[]]]]; exact Logic.I.
      * destruct (mem y (cs ++ views)) eqn:E; [|destruct I2]. apply mem_in, in_app_or in E.
        destruct I2 as [<-|[<-|[<-|[]]]]; [exact Logic.I| |].
        -- exists v. split; [reflexivity|right; exact I1].
        -- exists y. split; [reflexivity|tauto].
      * destruct I2 as [<-|[<-|[]]]; [exact Logic.I|]. split; [reflexivity|exact I1].
  - apply in_concat in I. destruct I as [x [I1 I2]]. apply in_map_iff in I1. destruct I1 as [[v b] [<- I1]].
    unfold unregister_ops in I2; cbn [fst snd] in I2. destruct I2 as [<-|I2]; [exact Logic.I|].
    destruct (mem v views); [|destruct I2]. apply in_app_or in I2. destruct I2 as [I2|I2].
    + destruct b; [|destruct I2].
      destruct I2 as [<-|[<-|[<-|[<-|[<-|[<-|[<-|[]]]]]]]]; try exact Logic.I; reflexivity.
    + destruct I2 as [<-|[<-|[<-|[<-|[<-|[]]]]]]; try exact Logic.I. split; [reflexivity|eexists; reflexivity].
  - apply in_app_or in I. destruct I as [[<-|[<-|[]]]|I]; try exact Logic.I.
    apply in_app_or in I. destruct I as [I|[<-|[]]]; [|exact Logic.I].
    destruct (mem v views); [|destruct I]. destruct I as [<-|[<-|[]]]; [exact Logic.I|reflexivity].
  - destruct I as [<-|I]; [exact Logic.I|]. apply in_app_or in I. destruct I as [I|[<-|[]]]; [|exact Logic.I].
    apply in_concat in I. destruct I as [x [I1 I2]]. apply in_map_iff in I1. destruct I1 as [vs [<- I1]].
    unfold record_ops in I2. apply in_app_or in I2. destruct I2 as [[<-|[<-|[]]]|I2]; try exact Logic.I.
    apply in_concat in I2. destruct I2 as [x [I3 I2]]. apply in_map_iff in I3. destruct I3 as [v [<- I3]].
    apply filter_In in I3. destruct I3 as [_ I3]. apply mem_in in I3.
    destruct I2 as [<-|[<-|[<-|[]]]]; try exact Logic.I. exists v. split; [reflexivity|left; exact I3].
  - destruct I as [<-|[<-|[]]]; exact Logic.I.
Qed.

Lemma walk_ops : forall m (b : bool) v o, In o ((if b then report_ops m else metric_ops m) v) ->
  match o with
  | Rd (VRows m' _) => m' = m
  | Rd (VAgg _) | Wr _ | Clear _ _ | Canon _ | Reg _ _ | Unreg _ _ | Walk _ _ | Send _ _ => False
  | _ => True
  end.
Proof.
  intros m [|] v o I; cbn in I.
  - destruct I as [<-|[<-|[<-|[<-|[<-|[<-|[<-|[]]]]]]]]; try exact Logic.I; reflexivity.
  - destruct I as [<-|[<-|[<-|[]]]]; try exact Logic.I; reflexivity.
Qed.

Lemma next_in : forall s t o, next_op s t = Some o -> In o (ops_at s t).
Proof. unfold next_op; intros s t o H. destruct (ops_at s t); [discriminate|]. injection H as ->; left; reflexivity. Qed.

Lemma no_resource_clean : forall l s m, reachable_by K ag l s -> no_resource m l -> forall t, ~ In (Wr (VRes m)) (ops_at s t).
Proof.
  intros l s m R N t I.
  assert (clean (fun _ o => o <> Wr (VRes m)) (fun _ _ => True) (fun _ _ => True) s) as C.
  { eapply clean_reach; [| | | | |exact R|]; auto.
    - intros t' m' b v o _ _ J ->. apply walk_ops in J. exact J.
    - intros m' views c o _ _ J ->. apply handler_ops in J. exact J.
    - intros m' o [<-|J]; [discriminate|]. cbn in J. destruct J as [<-|[<-|[<-|[<-|[]]]]]; discriminate.
    - intros t' c J o K1 ->. destruct c; cbn in K1; repeat (destruct K1 as [K1|K1]; try discriminate); try contradiction.
      injection K1 as ->. exact (N _ J). }
  destruct C as [C _]. exact (C t _ I eq_refl).
Qed.

Lemma no_unregister_clean : forall l s m, reachable_by K ag l s -> no_unregister m l -> forall t v, ~ In (Clear m v) (ops_at s t).
Proof.
  intros l s m R N t v I.
  assert (clean (fun _ o => (forall v, o <> Clear m v) /\ forall vs, o <> Send m (KUnregister vs))
                (fun m' c => m' = m -> forall vs, c <> KUnregister vs) (fun _ _ => True) s) as C.
  { eapply clean_reach; [| | | | |exact R|]; auto.
    - intros t' m' c [_ J] -> vs ->. exact (J vs eq_refl).
    - intros t' m' b v' o _ _ J. apply walk_ops in J. split; intros w ->; exact J.
    - intros m' views c o P _ J. apply handler_ops in J. split; intros w ->; [|exact J].
      destruct J as [E [vs Ec]]. exact (P (eq_sym E) vs Ec).
    - intros m' o [<-|J]; [split; discriminate|]. cbn in J. destruct J as [<-|[<-|[<-|[<-|[]]]]]; split; discriminate.
    - intros t' c J o K1. destruct c; cbn in K1; repeat (destruct K1 as [<-|K1]; try (split; discriminate)); try contradiction.
      split; [discriminate|]. intros vs E. injection E as -> ->. exact (N _ _ J). }
  destruct C as [C _]. destruct (C t _ I) as [D _]. exact (D v eq_refl).
Qed.

Lemma no_read_clean : forall l s m, reachable_by K ag l s -> no_read m l -> forall t v, t <> m -> ~ In (Rd (VRows m v)) (ops_at s t).
Proof.
  intros l s m R N t v D I.
  assert (clean (fun t o => t <> m -> (forall v, o <> Rd (VRows m v)) /\ forall b, o <> Walk m b)
                (fun _ _ => True) (fun _ _ => True) s) as C.
  { eapply clean_reach; [| | | | |exact R|]; auto.
    - intros t' m' b v' o _ P J Dt. apply walk_ops in J. split; intros w ->; [|exact J]. subst m'.
      destruct (P Dt) as [_ Q]. exact (Q b eq_refl).
    - intros m' views c o _ _ J Dm. apply handler_ops in J. split; intros w ->; [|exact J]. congruence.
    - intros m' o [<-|J] Dm; [split; discriminate|]. cbn in J. destruct J as [<-|[<-|[<-|[<-|[]]]]]; split; intros w E; try discriminate E.
      injection E as E _. congruence.
    - intros t' c J o K1 Dt. destruct c; cbn in K1; repeat (destruct K1 as [<-|K1]; try (split; discriminate)); try contradiction.
      split; [discriminate|]. intros b E. injection E as -> _. exact (N _ J). }
  destruct C as [C _]. destruct (C t _ I D) as [E _]. exact (E v eq_refl).
Qed.

Lemma apart_clean : forall l s f, reachable_by K ag l s ->
  (forall t m cs vs v, In (PBegin t (CSend m (KRegister cs vs))) l -> In v cs -> f (ag v) = m) ->
  forall t o, In o (ops_at s t) ->
  match o with Rd (VAgg a) | Wr (VAgg a) => f a = t | Canon v => f (ag v) = t | _ => True end.
Proof.
  intros l s f R N t o I.
  assert (clean (fun t o => match o with
                            | Rd (VAgg a) | Wr (VAgg a) => f a = t
                            | Canon v => f (ag v) = t
                            | Reg m v => f (ag v) = m
                            | Send m c => forall v, of_reg c v -> f (ag v) = m
                            | _ => True end)
                (fun m c => forall v, of_reg c v -> f (ag v) = m) (fun m v => f (ag v) = m) s) as C.
  { eapply clean_reach; [| | | | |exact R|]; auto.
    - intros t' m' b v' o' P _ J. apply walk_ops in J. destruct o' as [| |x|x| | | | | | |]; try contradiction; try exact Logic.I.
      destruct x; try exact Logic.I. contradiction.
    - intros m' views c o' P Q J. apply handler_ops in J. destruct o' as [| |x|x| | | | | | |]; try contradiction; try exact Logic.I.
      + destruct x; try exact Logic.I. destruct J as [v [-> [J|J]]]; auto.
      + destruct x; try exact Logic.I. destruct J as [v [-> [J|J]]]; auto.
      + apply P, J.
      + destruct J as [-> J]. apply P, J.
    - intros m' o' [<-|J]; [exact Logic.I|]. cbn in J. destruct J as [<-|[<-|[<-|[<-|[]]]]]; exact Logic.I.
    - intros t' c J o' K1. destruct c; cbn in K1; repeat (destruct K1 as [<-|K1]; try exact Logic.I); try contradiction.
      intros v Hv. destruct c; cbn [of_reg] in Hv; try contradiction. eapply N; eassumption. }
  destruct C as [C _]. specialize (C t o I). destruct o as [| |x|x| | | | | | |]; auto.
Qed.

(** Without SetResource, without Unregister or without Read of each meter, and if meters share no
    Aggregations, nothing races. *)
Theorem C85_race_free : forall l s,
  (forall m, no_resource m l) -> (forall m, no_unregister m l \/ no_read m l) -> apart ag l ->
  reachable_by K ag l s -> ~ race s.
Proof.
  intros l s N1 N2 [f N3] R [t [u [x H]]]. pose proof (proj1 H) as D.
  destruct (C85_races _ _ _ _ _ R H) as [[m [-> A]]|[[m [v [-> [-> [A [B _]]]]]]|[[v [-> [_ [_ [A B]]]]]|[a [-> [_ [_ A]]]]]]].
  - eapply no_resource_clean; [exact R|apply N1|apply next_in, A].
  - destruct (N2 m) as [N|N].
    + eapply no_unregister_clean; [exact R|exact N|apply next_in, A].
    + eapply no_read_clean; [exact R|exact N| |apply next_in, B]. congruence.
  - apply next_in in A, B. apply (apart_clean _ _ f R N3) in A, B. congruence.
  - destruct H as [_ [o [o' [w [E1 [E2 [E3 E4]]]]]]]. rewrite A in E1. injection E1 as <-.
    apply next_in in A, E2. apply (apart_clean _ _ f R N3) in A, E2.
    destruct o'; try discriminate; cbn [access] in E4; injection E4 as E4; try discriminate E4; subst x; congruence.
Qed.
End Meters.

(** Programs with one meter are [apart]. *)
Theorem C85_one_meter : forall ag l m0, (forall t m c, In (PBegin t (CSend m c)) l -> m = m0) -> apart ag l.
Proof. intros ag l m0 H. exists (fun _ => m0). intros t m cs vs v I _. symmetry. eapply H, I. Qed.

Lemma exec_steps : forall K ag l s s', mexec K ag s l = Some s' -> msteps K ag s l s'.
Proof.
  intros K ag; induction l as [|p l IH]; simpl; intros s s' H; [injection H as <-; constructor|].
  destruct (mstep K ag s p) as [s1|] eqn:E; [|discriminate]. econstructor; [exact E|apply IH, H].
Qed.

(** View 0 is registered with meter 0; goroutine 1 asks to unregister it, then the worker is about to clear the rows that
    goroutine 2, in Read, is about to read. *)
Definition unregister_sched : list pick :=
  [PBegin 1 (CSend 0 (KRegister [0] [(0, None)])); PRun 1; PHandle 0] ++ repeat (PRun 0) 9 ++
  [PBegin 1 (CSend 0 (KUnregister [(0, true)])); PRun 1; PHandle 0] ++ repeat (PRun 0) 9 ++
  [PBegin 2 (CRead 0); PRun 2; PRun 2; PWalk 2 [0]; PRun 2; PRun 2].
(** Goroutine 2 calls SetResource while goroutine 1 is in Read. *)
Definition resource_sched : list pick :=
  [PBegin 1 (CSend 0 (KRegister [0] [(0, None)])); PRun 1; PHandle 0] ++ repeat (PRun 0) 9 ++
  [PBegin 1 (CRead 0); PRun 1; PRun 1; PWalk 1 [0]; PBegin 2 (CResource 0)].
(** Goroutines 2 and 3 register view 0 with meter 0 and view 1 with meter 1; both use Count(). *)
Definition meters_sched : list pick :=
  [PBegin 2 (CSend 0 (KRegister [0] [(0, None)])); PRun 2; PBegin 3 (CSend 1 (KRegister [1] [(1, None)])); PRun 3;
   PHandle 0; PHandle 1; PRun 0; PRun 0; PRun 1; PRun 1].
(** The same View is registered with both. *)
Definition views_sched : list pick :=
  [PBegin 2 (CSend 0 (KRegister [0] [(0, None)])); PRun 2; PBegin 3 (CSend 1 (KRegister [0] [(0, None)])); PRun 3;
   PHandle 0; PHandle 1; PRun 0; PRun 1].

(** Unregister races with Read: with one meter and without SetResource. *)
Theorem C85_unregister_refuted : exists l s, reachable_by 1 (fun v => v) l s /\
  (forall m, no_resource m l) /\ apart (fun v => v) l /\ race_on s 0 2 (VRows 0 0).
Proof.
  exists unregister_sched.
  destruct (mexec 1 (fun v => v) (minit 1 2) unregister_sched) as [s|] eqn:E; [|vm_compute in E; discriminate].
  exists s. split; [exists 2; apply exec_steps; exact E|].
  assert (option_map (fun s => (next_op s 0, next_op s 2)) (mexec 1 (fun v => v) (minit 1 2) unregister_sched)
          = Some (Some (Clear 0 0), Some (Rd (VRows 0 0)))) as H by (vm_compute; reflexivity).
  rewrite E in H; cbn [option_map] in H. injection H as H1 H2. split; [|split].
  - intros m t I. cbn in I. repeat (destruct I as [I|I]; [discriminate I|]). exact I.
  - apply (C85_one_meter _ _ 0). intros t m c I. cbn in I.
    repeat (destruct I as [I|I]; [try discriminate I; injection I as <- <- <-; reflexivity|]). destruct I.
  - split; [discriminate|]. exists (Clear 0 0), (Rd (VRows 0 0)), false. repeat split; assumption.
Qed.

(** SetResource races with Read. *)
Theorem C85_resource_refuted : exists l s, reachable_by 1 (fun v => v) l s /\
  (forall m, no_unregister m l) /\ apart (fun v => v) l /\ race_on s 2 1 (VRes 0).
Proof.
  exists resource_sched.
  destruct (mexec 1 (fun v => v) (minit 1 2) resource_sched) as [s|] eqn:E; [|vm_compute in E; discriminate].
  exists s. split; [exists 2; apply exec_steps; exact E|].
  assert (option_map (fun s => (next_op s 2, next_op s 1)) (mexec 1 (fun v => v) (minit 1 2) resource_sched)
          = Some (Some (Wr (VRes 0)), Some (Rd (VRes 0)))) as H by (vm_compute; reflexivity).
  rewrite E in H; cbn [option_map] in H. injection H as H1 H2. split; [|split].
  - intros m t vs I. cbn in I. repeat (destruct I as [I|I]; [discriminate I|]). exact I.
  - apply (C85_one_meter _ _ 0). intros t m c I. cbn in I.
    repeat (destruct I as [I|I]; [try discriminate I; injection I as <- <- <-; reflexivity|]). destruct I.
  - split; [discriminate|]. exists (Wr (VRes 0)), (Rd (VRes 0)), false. repeat split; assumption.
Qed.

(** Two meters that register different Views race if these use the same Aggregation: Count() and
    Sum() return the same one each time. *)
Theorem C85_meters_refuted : exists l s, reachable_by 2 (fun _ => 0) l s /\
  (forall m, no_resource m l) /\ (forall m, no_unregister m l) /\ (forall m, no_read m l) /\
  race_on s 0 1 (VAgg 0).
Proof.
  exists meters_sched.
  destruct (mexec 2 (fun _ => 0) (minit 2 2) meters_sched) as [s|] eqn:E; [|vm_compute in E; discriminate].
  exists s. split; [exists 2; apply exec_steps; exact E|].
  assert (option_map (fun s => (next_op s 0, next_op s 1)) (mexec 2 (fun _ => 0) (minit 2 2) meters_sched)
          = Some (Some (Wr (VAgg 0)), Some (Wr (VAgg 0)))) as H by (vm_compute; reflexivity).
  rewrite E in H; cbn [option_map] in H. injection H as H1 H2. split; [|split; [|split]].
  - intros m t I. cbn in I. repeat (destruct I as [I|I]; [discriminate I|]). exact I.
  - intros m t vs I. cbn in I. repeat (destruct I as [I|I]; [discriminate I|]). exact I.
  - intros m t I. cbn in I. repeat (destruct I as [I|I]; [discriminate I|]). exact I.
  - split; [discriminate|]. exists (Wr (VAgg 0)), (Wr (VAgg 0)), true. repeat split; assumption.
Qed.

(** So they do if they register the same View, not registered before. *)
Theorem C85_views_refuted : exists l s, reachable_by 2 (fun v => v) l s /\
  (forall m, no_resource m l) /\ (forall m, no_unregister m l) /\ (forall m, no_read m l) /\
  race_on s 0 1 (VView 0).
Proof.
  exists views_sched.
  destruct (mexec 2 (fun v => v) (minit 2 2) views_sched) as [s|] eqn:E; [|vm_compute in E; discriminate].
  exists s. split; [exists 2; apply exec_steps; exact E|].
  assert (option_map (fun s => (next_op s 0, next_op s 1, m_canon s 0)) (mexec 2 (fun v => v) (minit 2 2) views_sched)
          = Some (Some (Canon 0), Some (Canon 0), false)) as H by (vm_compute; reflexivity).
  rewrite E in H; cbn [option_map] in H. injection H as H1 H2 H3. split; [|split; [|split]].
  - intros m t I. cbn in I. repeat (destruct I as [I|I]; [discriminate I|]). exact I.
  - intros m t vs I. cbn in I. repeat (destruct I as [I|I]; [discriminate I|]). exact I.
  - intros m t I. cbn in I. repeat (destruct I as [I|I]; [discriminate I|]). exact I.
  - split; [discriminate|]. exists (Canon 0), (Canon 0), true. repeat split; try assumption; cbn [access]; rewrite H3; reflexivity.
Qed.

(** ** Examples *)

(** With two meters, register, record, read and report; the worker of meter 0 writes rows while goroutine 3
    waits for the mutex in Read. *)
Definition busy_sched : list pick :=
  [PBegin 2 (CSend 0 (KRegister [0] [(0, None)])); PRun 2; PBegin 3 (CSend 1 (KRegister [1] [(1, None)])); PRun 3;
   PHandle 0; PHandle 1; PBegin 4 (CExporter 0)] ++ repeat (PRun 0) 9 ++ repeat (PRun 1) 9 ++
  [PBegin 2 (CSend 0 (KRecord [[0]])); PRun 2; PHandle 0; PRun 4; PRun 0; PRun 0; PRun 0; PRun 0; PRun 0; PRun 0; PBegin 3 (CRead 0)].

Example C85_demo_busy :
  option_map (fun s => (next_op s 0, next_op s 3, next_op s 4, m_own s (Mu 0), m_own s (Emu 0), m_views s 0, m_views s 1))
             (mexec 2 (fun v => v) (minit 2 3) busy_sched)
  = Some (Some (Wr (VRows 0 0)), Some (Lock (Mu 0)), Some (Wr (VExp 0)), Some 0, Some 4, [0], [1]).
Proof. vm_compute. reflexivity. Qed.

Example C85_demo_reachable : exists s, reachable_by 2 (fun v => v) busy_sched s /\
  (forall m, no_resource m busy_sched) /\ (forall m, no_unregister m busy_sched \/ no_read m busy_sched) /\ apart (fun v => v) busy_sched.
Proof.
  destruct (mexec 2 (fun v => v) (minit 2 3) busy_sched) as [s|] eqn:E; [|vm_compute in E; discriminate].
  exists s. split; [exists 3; apply exec_steps; exact E|]. split; [|split].
  - intros m t I. cbn in I. repeat (destruct I as [I|I]; [discriminate I|]). exact I.
  - intros m; left. intros t vs I. cbn in I. repeat (destruct I as [I|I]; [discriminate I|]). exact I.
  - exists (fun v => v). intros t m cs vs v I J. cbn in I.
    repeat (destruct I as [I|I]; [try discriminate I; injection I as <- <- <- <-; destruct J as [<-|[]]; reflexivity|]). destruct I.
Qed.

Print Assumptions C85_races.
Print Assumptions C85_race_free.
Print Assumptions C85_one_meter.
Print Assumptions C85_unregister_refuted.
Print Assumptions C85_resource_refuted.
Print Assumptions C85_meters_refuted.
Print Assumptions C85_views_refuted.
