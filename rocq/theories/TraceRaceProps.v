(** Package trace has no data races and no deadlocks (C84). *)

From Coq Require Import List Arith Bool Lia.
From Coq Require Import ZifyBool ZifyNat.
From Verif Require Import Base AggModel AggProofs TraceRaceModel TraceRaceSpec.
Import ListNotations.
Open Scope nat_scope.

(** ** Helpers *)

Lemma onc_eqb_eq : forall a b, onc_eqb a b = true <-> a = b.
Proof.
  intros [|x] [|y]; simpl; split; intros H; try discriminate; try reflexivity.
  - apply Nat.eqb_eq in H; subst; reflexivity.
  - injection H as ->; apply Nat.eqb_refl.
Qed.

Lemma lk_eqb_eq : forall a b, lk_eqb a b = true <-> a = b.
Proof.
  intros a b; destruct a, b; simpl; split; intros H; try discriminate; try reflexivity.
  - apply Nat.eqb_eq in H; subst; reflexivity.
  - injection H as ->; apply Nat.eqb_refl.
  - apply Nat.eqb_eq in H; subst; reflexivity.
  - injection H as ->; apply Nat.eqb_refl.
  - apply onc_eqb_eq in H; subst; reflexivity.
  - injection H as ->; apply onc_eqb_eq; reflexivity.
Qed.

Lemma lk_dec : forall a b : lk, {a = b} + {a <> b}.
Proof.
  intros a b; destruct (lk_eqb a b) eqn:E; [left; apply lk_eqb_eq; exact E|].
  right; intros ->. assert (lk_eqb b b = true) by (apply lk_eqb_eq; reflexivity). congruence.
Qed.

Lemma setk_same : forall A (f : lk -> A) k a, setk f k a k = a.
Proof. intros; unfold setk. assert (lk_eqb k k = true) as -> by (apply lk_eqb_eq; reflexivity). reflexivity. Qed.
Lemma setk_other : forall A (f : lk -> A) k a k', k' <> k -> setk f k a k' = f k'.
Proof.
  intros A f k a k' H; unfold setk. destruct (lk_eqb k' k) eqn:E; [|reflexivity].
  apply lk_eqb_eq in E; congruence.
Qed.
Lemma setn_same : forall A (f : nat -> A) k a, setn f k a k = a.
Proof. intros; unfold setn; rewrite Nat.eqb_refl; reflexivity. Qed.
Lemma setn_other : forall A (f : nat -> A) k a k', k' <> k -> setn f k a k' = f k'.
Proof. intros A f k a k' H; unfold setn. destruct (Nat.eqb_spec k' k); [congruence|reflexivity]. Qed.

Lemma drop1_in : forall t l x, In x (drop1 t l) -> In x l.
Proof.
  intros t; induction l as [|y l IH]; simpl; intros x H; [exact H|].
  destruct (Nat.eqb_spec y t); [right; exact H|]. destruct H as [->|H]; [left; reflexivity|right; apply IH, H].
Qed.
Lemma drop1_other : forall t l x, x <> t -> In x l -> In x (drop1 t l).
Proof.
  intros t; induction l as [|y l IH]; simpl; intros x N H; [exact H|].
  destruct H as [->|H].
  - destruct (Nat.eqb_spec x t); [congruence|left; reflexivity].
  - destruct (Nat.eqb_spec y t); [exact H|right; apply IH; assumption].
Qed.
Lemma drop1_nodup : forall t l, NoDup l -> NoDup (drop1 t l) /\ ~ In t (drop1 t l).
Proof.
  intros t; induction l as [|y l IH]; simpl; intros H; [split; [constructor|tauto]|].
  inversion H; subst. destruct (Nat.eqb_spec y t) as [->|N]; [split; assumption|].
  destruct (IH H3) as [A B]. split.
  - constructor; [|exact A]. intros C; apply H2; eapply drop1_in; exact C.
  - intros [C|C]; [congruence|tauto].
Qed.
Lemma drop1_length : forall t l, In t l -> length l = S (length (drop1 t l)).
Proof.
  intros t; induction l as [|y l IH]; simpl; intros H; [tauto|].
  destruct (Nat.eqb_spec y t) as [E|N]; [reflexivity|].
  destruct H as [H|H]; [congruence|]. simpl; rewrite <- IH by exact H; reflexivity.
Qed.

Lemma permb_spec : forall l m, permb l m = true -> length l = length m /\ forall x, In x l -> In x m.
Proof.
  induction l as [|a l IH]; simpl; intros m H.
  - destruct m; [split; [reflexivity|intros; tauto]|discriminate].
  - apply andb_true_iff in H; destruct H as [H1 H2].
    apply existsb_exists in H1. destruct H1 as [b [H1 E]]. apply Nat.eqb_eq in E; subst b.
    destruct (IH _ H2) as [A B]. split.
    + rewrite A. symmetry; apply drop1_length; exact H1.
    + intros x [<-|C]; [exact H1|]. eapply drop1_in, B, C.
Qed.
Lemma permb_refl : forall l, permb l l = true.
Proof. induction l as [|a l IH]; simpl; [reflexivity|]. rewrite Nat.eqb_refl; simpl. exact IH. Qed.

(** ** The discipline *)

Fixpoint rm (k : lk) (l : list lk) : list lk :=
  match l with [] => [] | x :: r => if lk_eqb x k then r else x :: rm k r end.

Lemma rm_in : forall k l, NoDup l -> NoDup (rm k l) /\ forall x, In x (rm k l) <-> In x l /\ x <> k.
Proof.
  intros k; induction l as [|y l IH]; simpl; intros H; [split; [constructor|intros; tauto]|].
  inversion H; subst. destruct (IH H3) as [A B]. destruct (lk_eqb y k) eqn:E.
  - apply lk_eqb_eq in E; subst y. split; [assumption|]. intros x; split.
    + intros C; split; [right; exact C|]. intros ->; contradiction.
    + intros [[C|C] N]; [congruence|exact C].
  - assert (y <> k) as N by (intros ->; assert (lk_eqb k k = true) by (apply lk_eqb_eq; reflexivity); congruence).
    split.
    + constructor; [|exact A]. intros C; apply B in C; tauto.
    + intros x; simpl; rewrite B. split; [intros [->|[C D]]; tauto|tauto].
Qed.

Definition rank (k : lk) : nat :=
  match k with
  | LOnce (OEnd _) => 0
  | LOnce OInit | LExp | LCfg | LGen => 1
  | LStores => 2
  | LStore _ => 3
  | LSpan _ => 4
  end.

Definition ends (ws : list lk) : Prop := forall k, In k ws -> exists s, k = LOnce (OEnd s).

Section Discipline.
Variable strict : bool.

Definition above (ws rs : list lk) (n : nat) : Prop :=
  strict = true -> forall k, In k ws \/ In k rs -> rank k < n.

Section Fine.
Variables sn pb : nat -> Prop.

Definition rd_ok (own : option (nat * bool)) (ini : option bool) (ws rs : list lk) (x : var) : Prop :=
  match x with
  | VStores => In LStores ws \/ In LStores rs
  | VStore n => In (LStore n) ws
  | VFix s => sn s \/ exists b, own = Some (s, b)
  | VSpan s => In (LSpan s) ws /\ sn s
  | VTask s => pb s
  | VGen => ini = Some true
  | VRand => In LGen ws
  end.

Definition wr_ok (own : option (nat * bool)) (ini : option bool) (ws : list lk) (x : var) : Prop :=
  match x with
  | VStores => In LStores ws
  | VStore n => In (LStore n) ws
  | VFix s => own = Some (s, false)
  | VSpan s => own = Some (s, false) \/ (In (LSpan s) ws /\ sn s)
  | VTask s => exists b, own = Some (s, b)
  | VGen => ini = Some false
  | VRand => In LGen ws
  end.

Definition ini_of (o : onc) (ini : option bool) : option bool := match o with OInit => Some true | _ => ini end.

Fixpoint fine (own : option (nat * bool)) (ini : option bool) (ws rs : list lk) (l : list op) : Prop :=
  match l with
  | [] => own = None /\ ws = [] /\ rs = []
  | Acq k :: r => above ws rs (rank k) /\ fine own ini (k :: ws) rs r
  | Rel k :: r => In k ws /\ (ini = Some false -> k <> LOnce OInit) /\ fine own ini (rm k ws) rs r
  | RAcq k :: r => above ws rs (rank k) /\ ~ In k rs /\ fine own ini ws (k :: rs) r
  | RRel k :: r => In k rs /\ fine own ini ws (rm k rs) r
  | Want k :: r => (exists r', r = Acq k :: r') /\ fine own ini ws rs r
  | Rd x :: r => rd_ok own ini ws rs x /\ fine own ini ws rs r
  | Wr x :: r => wr_ok own ini ws x /\ fine own ini ws rs r
  | Once o v :: r =>
      above ws rs (rank (LOnce o)) /\
      match o with OEnd s => pb s /\ own = None /\ rs = [] /\ ends ws | OInit => True end /\
      fine own (ini_of o ini) ws rs r
  | Check o v :: r =>
      In (LOnce o) ws /\
      match o with OEnd s => pb s /\ own = None /\ rs = [] /\ ends ws | OInit => True end /\
      fine own (ini_of o ini) ws rs r
  | Done o :: r => In (LOnce o) ws /\ fine own (ini_of o ini) ws rs r
  | Walk n :: r => In (LStore n) ws /\ above ws rs 4 /\ fine own ini ws rs r
  | Add n s :: r => In (LStore n) ws /\ own = Some (s, false) /\ fine (Some (s, true)) ini ws rs r
  | Del n s :: r => In (LStore n) ws /\ pb s /\ fine own ini ws rs r
  | Export :: r => own = None /\ rs = [] /\ ends ws /\ fine own ini ws rs r
  | Ret s :: r => (exists b, own = Some (s, b)) /\ fine None ini ws rs r
  end.
End Fine.

Definition ile (a b : option bool) : Prop := a = b \/ (a = None /\ b = Some true).

Lemma fine_mono : forall (sn pb sn' pb' : nat -> Prop), (forall x, sn x -> sn' x) -> (forall x, pb x -> pb' x) ->
  forall l own ini ini' ws rs, ile ini ini' -> fine sn pb own ini ws rs l -> fine sn' pb' own ini' ws rs l.
Proof.
  intros sn pb sn' pb' Hs Hp; induction l as [|o l IH]; intros own ini ini' ws rs Hi; simpl; [tauto|].
  assert (forall a, ile (ini_of a ini) (ini_of a ini')) as Hi'
    by (intros [|a]; simpl; [left; reflexivity|exact Hi]).
  destruct o; intros H.
  - destruct H; split; [assumption|eauto].
  - destruct H as [A [B C]]; split; [assumption|]. split; [|eauto]. intros E. destruct Hi as [->|[-> ->]]; [auto|discriminate].
  - destruct H as [A [B C]]; repeat split; eauto.
  - destruct H; split; [assumption|eauto].
  - destruct H; split; [assumption|eauto].
  - destruct H as [A B]; split; [|eauto].
    destruct x; simpl in *; try tauto; [destruct A; [left; auto|tauto]|destruct A; auto|auto|].
    destruct Hi as [<-|[-> ->]]; [exact A|discriminate].
  - destruct H as [A B]; split; [|eauto]. destruct x; simpl in *; try tauto; [destruct A as [A|[A D]]; auto|].
    destruct Hi as [<-|[-> ->]]; [exact A|discriminate].
  - destruct H as [A [B C]]; split; [assumption|]. split; [destruct o; [tauto|]; destruct B; auto|eauto].
  - destruct H as [A [B C]]; split; [assumption|]. split; [destruct o; [tauto|]; destruct B; auto|eauto].
  - destruct H; split; [assumption|eauto].
  - destruct H as [A [B C]]; repeat split; eauto.
  - destruct H as [A [B C]]; repeat split; eauto.
  - destruct H as [A [B C]]; repeat split; eauto.
  - destruct H as [A [B [C D]]]; repeat split; eauto.
  - destruct H; split; [assumption|eauto].
Qed.

(** ** The calls keep to it *)

Section Calls.
Variables sn pb : nat -> Prop.
Hypothesis pbsn : forall x, pb x -> sn x.
Notation fn := (fine sn pb).

Lemma rm_head : forall k l, rm k (k :: l) = l.
Proof. intros; simpl. assert (lk_eqb k k = true) as -> by (apply lk_eqb_eq; reflexivity). reflexivity. Qed.

Lemma fine_locked : forall own ini ws rs k body rest,
  above ws rs (rank k) ->
  (fine sn pb own ini (k :: ws) rs (body ++ Rel k :: rest)) ->
  fine sn pb own ini ws rs (locked k body ++ rest).
Proof.
  intros own ini ws rs k body rest A B. unfold locked. cbn [app fine]. rewrite <- app_assoc. split; assumption.
Qed.

Lemma fine_rel : forall own ini ws rs k rest, k <> LOnce OInit -> fn own ini ws rs rest -> fn own ini (k :: ws) rs (Rel k :: rest).
Proof. intros. cbn [fine]. rewrite rm_head. split; [left; reflexivity|]. split; [intros _|]; assumption. Qed.

Lemma snapshot_fine : forall own ini ws rs s rest, sn s -> above ws rs 4 -> fn own ini ws rs rest ->
  fn own ini ws rs (snapshot_ops s ++ rest).
Proof.
  intros. apply fine_locked; [assumption|]. cbn [app fine rd_ok wr_ok].
  split; [left; assumption|]. split; [right; split; [left; reflexivity|assumption]|]. apply fine_rel; [discriminate|assumption].
Qed.

Lemma mutate_fine : forall own ini ws rs s rec rest, sn s -> above ws rs 4 -> fn own ini ws rs rest ->
  fn own ini ws rs (mutate_ops s rec ++ rest).
Proof.
  intros own ini ws rs s rec rest S A F. unfold mutate_ops. cbn [app fine rd_ok]. split; [left; assumption|].
  destruct rec; [|exact F]. apply (snapshot_fine own ini ws rs s rest S A F).
Qed.

Lemma string_fine : forall own ini ws rs s rec rest, sn s -> above ws rs 4 -> fn own ini ws rs rest ->
  fn own ini ws rs (string_ops s rec ++ rest).
Proof.
  intros own ini ws rs s rec rest S A F. unfold string_ops. cbn [app fine rd_ok]. split; [left; assumption|].
  destruct rec; [|exact F]. apply fine_locked; [assumption|]. cbn [app fine rd_ok].
  split; [left; assumption|]. split; [split; [left; reflexivity|assumption]|]. apply fine_rel; [discriminate|assumption].
Qed.

Lemma find_fine : forall own ini ws rest, above ws [] 2 -> fn own ini ws [] rest -> fn own ini ws [] (find_ops ++ rest).
Proof.
  intros own ini ws rest A F. unfold find_ops. cbn [app fine rd_ok]. split; [exact A|].
  split; [intros []|]. split; [right; left; reflexivity|]. split; [left; reflexivity|].
  rewrite rm_head. exact F.
Qed.

Lemma create_fine : forall own ini ws p rest, above ws [] 2 -> fn own ini ws [] rest -> fn own ini ws [] (create_ops p ++ rest).
Proof.
  intros own ini ws p rest A F. unfold create_ops. rewrite <- app_assoc. apply find_fine; [exact A|].
  destruct p; [exact F| |].
  - cbn [app]. split; [unfold locked; cbn [app]; eexists; reflexivity|].
    apply fine_locked; [exact A|]. cbn [app fine rd_ok]. split; [left; left; reflexivity|]. apply fine_rel; [discriminate|exact F].
  - cbn [app]. split; [unfold locked; cbn [app]; eexists; reflexivity|].
    apply fine_locked; [exact A|]. cbn [app fine rd_ok wr_ok]. split; [left; left; reflexivity|].
    split; [left; reflexivity|]. apply fine_rel; [discriminate|exact F].
Qed.

Lemma above_le : forall ws rs n m, above ws rs n -> n <= m -> above ws rs m.
Proof. intros ws rs n m A L S k I. specialize (A S k I). lia. Qed.
Lemma above_cons : forall ws rs n k, above ws rs n -> rank k < n -> above (k :: ws) rs n.
Proof. intros ws rs n k A L S k' [[<-|I]|I]; [exact L| |]; apply (A S); tauto. Qed.
Lemma above_rcons : forall ws rs n k, above ws rs n -> rank k < n -> above ws (k :: rs) n.
Proof. intros ws rs n k A L S k' [I|[<-|I]]; [|exact L|]; apply (A S); tauto. Qed.
Lemma above_ends : forall ws n, ends ws -> 0 < n -> above ws [] n.
Proof. intros ws n E L S k [I|[]]. destruct (E k I) as [s ->]. exact L. Qed.

Lemma setsize_fine : forall own ini ws n p rest, above ws [] 2 -> fn own ini ws [] rest ->
  fn own ini ws [] (setsize_ops n p ++ rest).
Proof.
  intros own ini ws n p rest A F. unfold setsize_ops. rewrite <- app_assoc. apply find_fine; [exact A|].
  destruct p.
  - apply fine_locked; [eapply above_le; [exact A|simpl; lia]|]. cbn [app fine wr_ok].
    split; [left; reflexivity|]. apply fine_rel; [discriminate|exact F].
  - cbn [app]. split; [unfold locked; cbn [app]; eexists; reflexivity|].
    apply fine_locked; [exact A|]. cbn [app fine rd_ok]. split; [left; left; reflexivity|].
    apply fine_locked; [apply above_cons; [eapply above_le; [exact A|simpl; lia]|simpl; lia]|].
    cbn [app fine wr_ok]. split; [left; reflexivity|]. rewrite !rm_head.
    split; [left; reflexivity|]. split; [discriminate|]. split; [left; reflexivity|]. split; [discriminate|exact F].
  - cbn [app]. split; [unfold locked; cbn [app]; eexists; reflexivity|].
    apply fine_locked; [exact A|]. cbn [app fine rd_ok wr_ok]. split; [left; left; reflexivity|].
    split; [left; reflexivity|]. apply fine_rel; [discriminate|exact F].
Qed.

Lemma gen_fine : forall own ini ws gen root rest, above ws [] 1 -> ini <> Some false ->
  (forall i, ile ini i -> fn own i ws [] rest) -> fn own ini ws [] (gen_ops gen root ++ rest).
Proof.
  intros own ini ws gen root rest A NF F. unfold gen_ops. destruct gen; [|apply F; left; reflexivity].
  assert (ile ini (Some true)) as Le by (destruct ini as [[|]|]; [left; reflexivity|congruence|right; split; reflexivity]).
  cbn [app fine]. split; [exact A|]. split; [exact I|]. cbn [ini_of]. rewrite <- app_assoc.
  destruct root.
  - apply fine_locked; [exact A|]. cbn [app fine rd_ok wr_ok]. split; [reflexivity|]. split; [left; reflexivity|].
    rewrite rm_head. split; [left; reflexivity|]. split; [discriminate|]. split; [reflexivity|apply F, Le].
  - cbn [app fine rd_ok]. split; [reflexivity|apply F, Le].
Qed.

Lemma keep_fine : forall s ini ws k rest, above ws [] 1 -> (forall b, fn (Some (s, b)) ini ws [] rest) ->
  fn (Some (s, false)) ini ws [] (keep_ops s k ++ rest).
Proof.
  intros s ini ws k rest A F. destruct k as [| |n p]; unfold keep_ops; [apply F| |].
  - cbn [app fine wr_ok]. split; [reflexivity|]. split; [left; reflexivity|]. apply F.
  - cbn [app fine wr_ok]. split; [reflexivity|]. split; [left; reflexivity|].
    rewrite <- app_assoc. apply create_fine; [eapply above_le; [exact A|lia]|].
    cbn [app fine wr_ok]. split; [reflexivity|].
    apply fine_locked; [eapply above_le; [exact A|simpl; lia]|]. cbn [app fine].
    split; [left; reflexivity|]. split; [reflexivity|]. apply fine_rel; [discriminate|apply F].
Qed.

Lemma start_fine : forall s parent gen root k ini ws rest, above ws [] 1 -> ini <> Some false ->
  (match parent with Some (p, _) => pb p | None => True end) ->
  (forall i, ile ini i -> fn None i ws [] rest) ->
  fn (Some (s, false)) ini ws [] (start_ops s parent gen root k ++ rest).
Proof.
  intros s parent gen root k ini ws rest A NF P F. unfold start_ops. rewrite <- app_assoc.
  assert (fn (Some (s, false)) ini ws []
            ((Wr (VFix s) :: gen_ops gen root ++ Wr (VFix s) :: keep_ops s k ++ [Wr (VTask s); Ret s]) ++ rest)) as G.
  { cbn [app fine wr_ok]. split; [reflexivity|]. rewrite <- app_assoc. apply gen_fine; [exact A|exact NF|]. intros i Hi.
    cbn [app fine wr_ok]. split; [reflexivity|]. rewrite <- app_assoc. apply keep_fine; [exact A|]. intros b.
    cbn [app fine wr_ok]. split; [eexists; reflexivity|]. split; [eexists; reflexivity|apply F; exact Hi]. }
  destruct parent as [[p rec]|]; [|exact G].
  rewrite <- app_assoc. apply mutate_fine; [apply pbsn, P|eapply above_le; [exact A|lia]|].
  cbn [app fine rd_ok]. split; [left; apply pbsn, P|exact G].
Qed.

Lemma body_fine : forall o v ini ws own rest, In (LOnce o) ws ->
  match o with OEnd s => pb s /\ own = None /\ ends ws | OInit => True end ->
  forall rs, match o with OEnd s => rs = [] | OInit => True end ->
  fn own (ini_of o ini) ws rs rest ->
  fn own (match o with OInit => Some false | _ => ini end) ws rs (once_body o v ++ Done o :: rest).
Proof.
  intros o v ini ws own rest I C rs R F0. destruct o as [|s]; cbn [once_body].
  - cbn [app fine wr_ok]. split; [reflexivity|]. split; [exact I|exact F0].
  - destruct C as [P [-> E]]. subst rs. destruct v as [store export].
    assert (fn None ini ws [] (Done (OEnd s) :: rest)) as F by (split; [exact I|exact F0]). clear F0.
    set (rest' := Done (OEnd s) :: rest) in *. clearbody rest'. clear rest. rename rest' into rest.
    cbn [app fine rd_ok]. split; [left; apply pbsn, P|].
    assert (fn None ini ws [] ((if export then [Export] else []) ++ rest)) as F1.
    { destruct export; [|exact F]. cbn [app fine]. tauto. }
    assert (fn None ini ws [] ((match store with Some n => locked (LStore n) [Del n s] | None => [] end ++ (if export then [Export] else [])) ++ rest)) as F2.
    { destruct store as [n|]; [|exact F1]. rewrite <- app_assoc.
      apply fine_locked; [apply above_ends; [exact E|simpl; lia]|]. cbn [app fine].
      split; [left; reflexivity|]. split; [exact P|]. apply fine_rel; [discriminate|exact F1]. }
    destruct (match store with Some _ => true | None => export end); [|exact F].
    rewrite <- app_assoc. apply snapshot_fine; [apply pbsn, P|apply above_ends; [exact E|lia]|]. exact F2.
Qed.

(** A call started in no call or in ExportSpan. *)
Lemma call_fine : forall s c ini ws rest, ini <> Some false -> ends ws -> (forall x, In x (spans_of c) -> pb x) ->
  (strict = true -> match c with CEnd _ (Some _) => ws = [] | _ => True end) ->
  fn None ini ws [] rest ->
  fn (match c with CStart _ _ _ _ => Some (s, false) | _ => None end) ini ws [] (ops_of s c ++ rest).
Proof.
  intros s c ini ws rest NF E P M F. pose proof (above_ends ws 1 E ltac:(lia)) as A1.
  assert (above ws [] 2) as A2 by (eapply above_le; [exact A1|lia]).
  assert (above ws [] 3) as A3 by (eapply above_le; [exact A1|lia]).
  assert (above ws [] 4) as A4 by (eapply above_le; [exact A1|lia]).
  destruct c as [parent gen root k|x rec|x rec|x|x v| | |n f|n f|ns|l]; cbn [ops_of].
  - apply start_fine; [exact A1|exact NF| |intros i Hi; exact (fine_mono sn pb sn pb (fun _ h => h) (fun _ h => h) rest None ini i ws [] Hi F)]. destruct parent as [[p r]|]; [|exact I]. apply P; left; reflexivity.
  - apply mutate_fine; [apply pbsn, P; left; reflexivity|exact A4|apply F].
  - apply string_fine; [apply pbsn, P; left; reflexivity|exact A4|apply F].
  - cbn [app fine rd_ok]. split; [left; apply pbsn, P; left; reflexivity|apply F].
  - assert (pb x) as Px by (apply P; left; reflexivity). unfold end_ops. rewrite <- app_assoc.
    cbn [app fine rd_ok]. split; [exact Px|]. split; [left; apply pbsn, Px|].
    destruct v as [b|]; [|apply F]. cbn [app fine]. split; [|split; [tauto|apply F]].
    intros S y [Y|[]]. rewrite (M S) in Y. destruct Y.
  - apply fine_locked; [exact A1|]. apply fine_rel; [discriminate|apply F].
  - apply fine_locked; [exact A1|]. apply fine_rel; [discriminate|apply F].
  - rewrite <- app_assoc. apply find_fine; [exact A2|]. destruct f; [|apply F].
    apply fine_locked; [exact A3|]. cbn [app fine rd_ok]. split; [left; reflexivity|].
    split; [left; reflexivity|]. split; [apply above_cons; [exact A4|simpl; lia]|]. apply fine_rel; [discriminate|apply F].
  - rewrite <- app_assoc. apply find_fine; [exact A2|]. destruct f; [|apply F].
    apply fine_locked; [exact A3|]. cbn [app fine rd_ok]. split; [left; reflexivity|]. apply fine_rel; [discriminate|apply F].
  - cbn [app fine rd_ok]. split; [exact A2|]. split; [intros []|]. split; [right; left; reflexivity|].
    rewrite <- app_assoc. induction ns as [|n ns IH].
    + cbn [map concat app fine]. split; [left; reflexivity|]. rewrite rm_head. apply F.
    + cbn [map concat]. rewrite <- app_assoc.
      apply fine_locked; [apply above_rcons; [exact A3|simpl; lia]|]. cbn [app fine rd_ok].
      split; [left; reflexivity|]. apply fine_rel; [discriminate|]. apply IH. intros x [].
  - induction l as [|[n p] l IH]; [apply F|]. cbn [map concat fst snd]. rewrite <- app_assoc.
    apply setsize_fine; [exact A2|]. apply IH. intros x [].
Qed.

Lemma walk_fine : forall own ini ws rs l rest, (forall x, In x l -> sn x) -> above ws rs 4 -> fn own ini ws rs rest ->
  fn own ini ws rs (concat (map snapshot_ops l) ++ rest).
Proof.
  intros own ini ws rs l rest H A F. induction l as [|x l IH]; [exact F|].
  cbn [map concat]. rewrite <- app_assoc. apply snapshot_fine; [apply H; left; reflexivity|exact A|].
  apply IH. intros y Y; apply H; right; exact Y.
Qed.
End Calls.

(** ** The invariant *)

Definition seen (s : rst) (x : nat) : Prop := r_pub s x = true \/ exists n, In x (r_active s n).
Definition pubd (s : rst) (x : nat) : Prop := r_pub s x = true.

Record TI (s : rst) (t : nat) (own : option (nat * bool)) (ini : option bool) (ws rs : list lk) : Prop := MkTI {
  ti_fine : fine (seen s) (pubd s) own ini ws rs (ops_at s t);
  ti_ws : NoDup ws; ti_rs : NoDup rs;
  ti_w : forall k, In k ws <-> r_w s k = Some t;
  ti_r : forall k, In k rs <-> In t (r_r s k);
  ti_done : ini = Some true -> r_done s OInit = true;
  ti_not : ini = Some false -> r_done s OInit = false /\ In (LOnce OInit) ws;
  ti_own : forall x b, own = Some (x, b) -> x < r_next s /\ r_pub s x = false /\ (b = false -> forall n, ~ In x (r_active s n)) }.

Record GI (s : rst) : Prop := MkGI {
  gi_wr : forall k t, r_w s k = Some t -> r_r s k = [];
  gi_nd : forall k, NoDup (r_r s k);
  gi_act : forall n, NoDup (r_active s n) /\ forall x, In x (r_active s n) -> x < r_next s;
  gi_pub : forall x, r_pub s x = true -> x < r_next s;
  gi_p : forall k t, In t (r_p s k) -> exists r, ops_at s t = Acq k :: r;
  gi_pn : forall k, NoDup (r_p s k) }.

Definition INV (s : rst) : Prop :=
  GI s /\ exists (OW : nat -> option (nat * bool)) (IN : nat -> option bool) (WS RS : nat -> list lk),
    (forall t, TI s t (OW t) (IN t) (WS t) (RS t)) /\
    (forall t u x b b', OW t = Some (x, b) -> OW u = Some (x, b') -> t = u).

Lemma ops_set s t l u : ops_at (set_ops s t l) u = if (u =? t) && (t <? length (r_ths s)) then l else ops_at s u.
Proof.
  unfold ops_at, set_ops; cbn [r_ths].
  assert (N : forall (l : list (list op)) i, nth i l [] = match nth_error l i with Some x => x | None => [] end).
  { clear. induction l as [|x l IH]; intros [|i]; cbn; auto. }
  rewrite !N, nth_error_upd. rewrite (Nat.eqb_sym u t). destruct (Nat.eqb_spec t u) as [<-|]; [|reflexivity].
  cbn [andb]. destruct (Nat.ltb_spec t (length (r_ths s))) as [L|L].
  - destruct (nth_error (r_ths s) t) eqn:E; [reflexivity|]. apply nth_error_None in E; lia.
  - destruct (nth_error (r_ths s) t) eqn:E; [|reflexivity].
    assert (nth_error (r_ths s) t <> None) as C by congruence. apply nth_error_Some in C; lia.
Qed.

Lemma ops_lt s t o r : ops_at s t = o :: r -> t < length (r_ths s).
Proof.
  unfold ops_at; intros H. destruct (Nat.lt_ge_cases t (length (r_ths s))) as [L|L]; [exact L|].
  rewrite nth_overflow in H by exact L. discriminate H.
Qed.

(** Thread [t] has made a step from [s] to [s']. *)
Lemma inv_step : forall s s' t OW IN WS RS own' ini' ws' rs',
  GI s' ->
  (forall u, TI s u (OW u) (IN u) (WS u) (RS u)) ->
  (forall u v x b b', OW u = Some (x, b) -> OW v = Some (x, b') -> u = v) ->
  (forall u, u <> t -> ops_at s' u = ops_at s u) ->
  (forall x, seen s x -> seen s' x) -> (forall x, pubd s x -> pubd s' x) ->
  (r_done s OInit = true -> r_done s' OInit = true) ->
  (forall u, u <> t -> IN u = Some false -> r_done s' OInit = false) -> r_next s <= r_next s' ->
  (forall u k, u <> t -> (r_w s' k = Some u <-> r_w s k = Some u)) ->
  (forall u k, u <> t -> (In u (r_r s' k) <-> In u (r_r s k))) ->
  (forall u x b, u <> t -> OW u = Some (x, b) -> r_pub s' x = false /\ (b = false -> forall n, ~ In x (r_active s' n))) ->
  TI s' t own' ini' ws' rs' ->
  (forall x b u b', own' = Some (x, b) -> u <> t -> OW u = Some (x, b') -> False) ->
  INV s'.
Proof.
  intros s s' t OW IN WS RS own' ini' ws' rs' G T X O S P D DN N W R Q T' Y. split; [exact G|].
  exists (fun u => if u =? t then own' else OW u), (fun u => if u =? t then ini' else IN u),
    (fun u => if u =? t then ws' else WS u), (fun u => if u =? t then rs' else RS u).
  split.
  - intros u. destruct (Nat.eqb_spec u t) as [->|NE]; [exact T'|]. specialize (T u). destruct T. split; auto.
    + rewrite O by exact NE. eapply fine_mono; [exact S|exact P|left; reflexivity|exact ti_fine0].
    + intros k. rewrite W by exact NE. auto.
    + intros k. rewrite R by exact NE. auto.
    + intros h. split; [exact (DN u NE h)|apply ti_not0, h].
    + intros x b E. destruct (ti_own0 x b E) as [A [B C]]. destruct (Q u x b NE E). split; [lia|auto].
  - intros u v x b b'. destruct (Nat.eqb_spec u t) as [->|NU]; destruct (Nat.eqb_spec v t) as [->|NV]; intros A B; auto.
    + exfalso; eapply Y; eauto.
    + exfalso; eapply Y; eauto.
    + eapply X; eauto.
Qed.

(** Only the operations of [t] have changed. *)
Lemma inv_ops : forall s t OW IN WS RS l ini',
  GI s -> (forall u, TI s u (OW u) (IN u) (WS u) (RS u)) ->
  (forall u v x b b', OW u = Some (x, b) -> OW v = Some (x, b') -> u = v) ->
  t < length (r_ths s) ->
  (forall k, ~ In t (r_p s k)) ->
  fine (seen s) (pubd s) (OW t) ini' (WS t) (RS t) l ->
  (ini' = Some true -> r_done s OInit = true) ->
  (ini' = Some false -> r_done s OInit = false /\ In (LOnce OInit) (WS t)) ->
  INV (set_ops s t l).
Proof.
  intros s t OW IN WS RS l ini' G T X L NP F D WG.
  assert (E : forall u, ops_at (set_ops s t l) u = if u =? t then l else ops_at s u).
  { intros u; rewrite ops_set. apply Nat.ltb_lt in L. rewrite L, andb_true_r. reflexivity. }
  eapply (inv_step s _ t OW IN WS RS (OW t) ini' (WS t) (RS t)); auto.
  - destruct G. split; auto.
    + intros k u H. cbn [set_ops r_p] in H. rewrite E. destruct (Nat.eqb_spec u t) as [->|]; [|auto].
      exfalso; exact (NP _ H).
  - intros u NE. rewrite E. destruct (Nat.eqb_spec u t); [contradiction|reflexivity].
  - intros u NE h. destruct (T u). apply ti_not0, h.
  - intros u k NE; reflexivity.
  - intros u k NE; reflexivity.
  - intros u x b NE Q. destruct (T u). destruct (ti_own0 x b Q) as [A [B C]]. split; auto.
  - destruct (T t). split; auto. rewrite E, Nat.eqb_refl. exact F.
  - intros x b u b' A NE B. apply NE. eapply X; eauto.
Qed.

Lemma pubd_seen : forall s x, pubd s x -> seen s x.
Proof. intros s x H; left; exact H. Qed.

Lemma not_pend : forall s t o r, GI s -> ops_at s t = o :: r -> (forall k, o <> Acq k) -> forall k, ~ In t (r_p s k).
Proof. intros s t o r G E N k H. destruct (gi_p s G k t H) as [r' E']. rewrite E in E'. injection E' as E1 _. exact (N k E1). Qed.

Lemma not_pend_nil : forall s t, GI s -> ops_at s t = [] -> forall k, ~ In t (r_p s k).
Proof. intros s t G E k H. destruct (gi_p s G k t H) as [r' E']. rewrite E in E'. discriminate E'. Qed.

Lemma ops_at_ths : forall s s' t l, t < length (r_ths s) -> r_ths s' = upd (r_ths s) t (fun _ => l) ->
  forall u, ops_at s' u = if u =? t then l else ops_at s u.
Proof.
  intros s s' t l L E u. pose proof (ops_set s t l u) as H. apply Nat.ltb_lt in L. rewrite L, andb_true_r in H.
  unfold ops_at in *. rewrite E. exact H.
Qed.


Lemma inv_begin : forall s t c s', INV s -> rstep s (PBegin t c) = Some s' ->
  (strict = true -> match c with CEnd _ (Some _) => ops_at s t = [] | _ => True end) -> INV s'.
Proof.
  intros s t c s' [G [OW [IN [WS [RS [T X]]]]]] H M. cbn [rstep] in H.
  destruct (_ && _ && _) eqn:E; [|discriminate H]. injection H as <-.
  apply andb_true_iff in E; destruct E as [E Pb]. apply andb_true_iff in E; destruct E as [L Fr].
  apply Nat.ltb_lt in L. rewrite forallb_forall in Pb.
  set (s' := MkR _ _ _ _ _ _ _ _).
  assert (EO : forall u, ops_at s' u = if u =? t then ops_of (r_next s) c ++ ops_at s t else ops_at s u)
    by (apply ops_at_ths; [exact L|reflexivity]).
  destruct (T t) as [Fi NW NR Hw Hr Hd Hn Ho].
  assert (A : OW t = None /\ RS t = [] /\ ends (WS t)).
  { destruct (ops_at s t) as [|[]]; try discriminate Fr; cbn [fine] in Fi; [|tauto].
    destruct Fi as [A [B C]]. rewrite B. repeat split; try assumption. intros k []. }
  destruct A as [A1 [A2 A3]].
  assert (A4 : IN t <> Some false).
  { intros h. destruct (Hn h) as [_ I]. destruct (A3 _ I) as [x C]; discriminate C. }
  assert (PubLt := gi_pub s G). assert (ActLt := gi_act s G).
  eapply (inv_step s s' t OW IN WS RS (match c with CStart _ _ _ _ => Some (r_next s, false) | _ => None end) (IN t) (WS t) (RS t)); auto.
  - split; cbn [s' r_w r_r r_p r_active r_pub r_next]; try apply G.
    + intros n. destruct (ActLt n) as [B1 B2]. split; [exact B1|]. intros x Hx. specialize (B2 x Hx); lia.
    + intros x Hx. specialize (PubLt x Hx); lia.
    + intros k u Hu. rewrite EO. destruct (Nat.eqb_spec u t) as [->|]; [|apply G, Hu].
      exfalso. destruct (ops_at s t) as [|o r] eqn:Q; [exact (not_pend_nil s t G Q k Hu)|].
      refine (not_pend s t o r G Q _ k Hu). destruct o; try discriminate Fr. discriminate.
  - intros u NE. rewrite EO. destruct (Nat.eqb_spec u t); [contradiction|reflexivity].
  - intros u NE h. destruct (T u). apply ti_not0, h.
  - cbn [s' r_next]; lia.
  - intros u k NE; reflexivity.
  - intros u k NE; reflexivity.
  - intros u x b NE Q. destruct (T u). destruct (ti_own0 x b Q) as [B1 [B2 B3]]. split; auto.
  - split; auto.
    + rewrite EO, Nat.eqb_refl, A2. apply call_fine; auto.
      * intros x Hx; apply pubd_seen; exact Hx.
      * intros S. specialize (M S). destruct c as [| | | |x [v|]| | | | | |]; auto.
        rewrite M in Fi. cbn [fine] in Fi. tauto.
      * rewrite <- A2, <- A1. exact Fi.
    + intros x b Q. destruct c; try discriminate Q. injection Q as <- <-. cbn [s' r_next r_pub r_active].
      split; [lia|]. split; [|intros _ n Hn']; [|destruct (ActLt n) as [_ B2]; specialize (B2 _ Hn'); lia].
      destruct (r_pub s (r_next s)) eqn:Q2; [|reflexivity]. specialize (PubLt _ Q2); lia.
  - intros x b u b' Q NE Q2. destruct c; try discriminate Q. injection Q as <- <-.
    destruct (T u). destruct (ti_own0 _ _ Q2) as [B1 _]. lia.
Qed.

Lemma inv_walk : forall s t l s', INV s -> rstep s (PWalk t l) = Some s' -> INV s'.
Proof.
  intros s t l s' [G [OW [IN [WS [RS [T X]]]]]] H. cbn [rstep] in H.
  destruct (ops_at s t) as [|[] r] eqn:E; try discriminate H.
  destruct (permb _ _) eqn:P; [|discriminate H]. injection H as <-.
  destruct (permb_spec _ _ P) as [_ P2]. destruct (T t) as [Fi NW NR Hw Hr Hd Hn Ho]. rewrite E in Fi.
  cbn [fine] in Fi. destruct Fi as [F1 [F2 F3]].
  eapply (inv_ops s t OW IN WS RS _ (IN t)); auto.
  - eapply ops_lt; exact E.
  - eapply not_pend; [exact G|exact E|discriminate].
  - apply walk_fine; auto. intros x Hx. right. exists n. apply P2, Hx.
Qed.

Lemma inv_run : forall s t s', INV s -> rstep s (PRun t) = Some s' -> INV s'.
Proof.
  intros s t s' [G [OW [IN [WS [RS [T X]]]]]] H. cbn [rstep] in H.
  destruct (ops_at s t) as [|o r] eqn:E; [discriminate H|].
  pose proof (ops_lt _ _ _ _ E) as L.
  destruct (T t) as [Fi NW NR Hw Hr Hd Hn Ho]. rewrite E in Fi.
  assert (NP : (forall k, o <> Acq k) -> forall k, ~ In t (r_p s k)) by (intros N; eapply not_pend; [exact G|exact E|exact N]).
  assert (OWN : forall u x b, u <> t -> OW u = Some (x, b) -> r_pub s x = false /\ (b = false -> forall n, ~ In x (r_active s n))).
  { intros u x b NE Q. destruct (T u). destruct (ti_own0 x b Q) as [B1 [B2 B3]]. split; auto. }
  assert (NOT : forall u, u <> t -> IN u = Some false -> r_done s OInit = false).
  { intros u NE h. destruct (T u). apply ti_not0, h. }
  assert (EXC : forall x b u b', OW t = Some (x, b) -> u <> t -> OW u = Some (x, b') -> False).
  { intros x b u b' A NE B. apply NE. eapply X; eauto. }
  pose proof (gi_wr s G) as Gwr. pose proof (gi_nd s G) as Gnd. pose proof (gi_act s G) as Gact.
  pose proof (gi_pub s G) as Gpub. pose proof (gi_p s G) as Gp.
  destruct o; cbn [run_op] in H; cbn [fine] in Fi.
  - (* Acq *)
    destruct Fi as [F1 F2]. destruct (r_w s k) as [w|] eqn:Ew; [discriminate H|].
    destruct (r_r s k) as [|q] eqn:Er; [|discriminate H]. injection H as <-.
    set (s' := MkR _ _ _ _ _ _ _ _).
    assert (EO : forall u, ops_at s' u = if u =? t then r else ops_at s u) by (apply ops_at_ths; [exact L|reflexivity]).
    eapply (inv_step s s' t OW IN WS RS (OW t) (IN t) (k :: WS t) (RS t)); auto.
    + split; cbn [s' r_w r_r r_p r_active r_pub r_next]; auto.
      * intros k' u Hu. destruct (lk_dec k' k) as [->|NK]; [exact Er|]. rewrite setk_other in Hu by exact NK. eauto.
      * intros k' u Hu. rewrite EO. destruct (lk_dec k' k) as [->|NK].
        -- rewrite setk_same in Hu. destruct (Nat.eqb_spec u t) as [->|]; [|apply Gp; eapply drop1_in; exact Hu].
           exfalso. exact (proj2 (drop1_nodup t (r_p s k) (gi_pn s G k)) Hu).
        -- rewrite setk_other in Hu by exact NK. destruct (Nat.eqb_spec u t) as [->|]; [|apply Gp, Hu].
           destruct (Gp k' t Hu) as [r' Q]. rewrite E in Q. congruence.
      * intros k'. destruct (lk_dec k' k) as [->|NK]; [rewrite setk_same; apply drop1_nodup, (gi_pn s G)|].
        rewrite setk_other by exact NK. apply (gi_pn s G).
    + intros u NE. rewrite EO. destruct (Nat.eqb_spec u t); [contradiction|reflexivity].
    + intros u k' NE. cbn [s' r_w]. destruct (lk_dec k' k) as [->|NK].
      * rewrite setk_same, Ew. split; [congruence|discriminate].
      * rewrite setk_other by exact NK. reflexivity.
    + intros u k' NE; reflexivity.
    + split; auto.
      * rewrite EO, Nat.eqb_refl. exact F2.
      * constructor; [|exact NW]. rewrite Hw, Ew. discriminate.
      * intros k'. cbn [s' r_w In]. destruct (lk_dec k' k) as [->|NK].
        -- rewrite setk_same. tauto.
        -- rewrite setk_other by exact NK. rewrite Hw. split; [intros [C|C]; [congruence|exact C]|tauto].
      * intros h. destruct (Hn h). split; [assumption|right; assumption].
  - (* Rel *)
    destruct Fi as [F1 [F2 F3]]. injection H as <-. set (s' := MkR _ _ _ _ _ _ _ _).
    assert (EO : forall u, ops_at s' u = if u =? t then r else ops_at s u) by (apply ops_at_ths; [exact L|reflexivity]).
    assert (Ew : r_w s k = Some t) by (apply Hw; exact F1).
    destruct (rm_in k (WS t) NW) as [R1 R2].
    eapply (inv_step s s' t OW IN WS RS (OW t) (IN t) (rm k (WS t)) (RS t)); auto.
    + split; cbn [s' r_w r_r r_p r_active r_pub r_next]; auto; try apply G.
      * intros k' u Hu. destruct (lk_dec k' k) as [->|NK]; [rewrite setk_same in Hu; discriminate Hu|].
        rewrite setk_other in Hu by exact NK. eauto.
      * intros k' u Hu. rewrite EO. destruct (Nat.eqb_spec u t) as [->|]; [|apply Gp, Hu].
        exfalso; eapply NP; [discriminate|exact Hu].
    + intros u NE. rewrite EO. destruct (Nat.eqb_spec u t); [contradiction|reflexivity].
    + intros u k' NE. cbn [s' r_w]. destruct (lk_dec k' k) as [->|NK].
      * rewrite setk_same, Ew. split; [discriminate|congruence].
      * rewrite setk_other by exact NK. reflexivity.
    + intros u k' NE; reflexivity.
    + split; auto.
      * rewrite EO, Nat.eqb_refl. exact F3.
      * intros k'. cbn [s' r_w]. rewrite R2. destruct (lk_dec k' k) as [->|NK].
        -- rewrite setk_same. split; [tauto|discriminate].
        -- rewrite setk_other by exact NK. rewrite Hw. tauto.
      * intros h. destruct (Hn h) as [B1 B2]. split; [assumption|]. apply R2. split; [exact B2|].
        intros C; exact (F2 h (eq_sym C)).
  - (* RAcq *)
    destruct Fi as [F1 [F2 F3]]. destruct (r_w s k) as [w|] eqn:Ew; [discriminate H|].
    destruct (r_p s k) as [|q] eqn:Ep; [|discriminate H]. injection H as <-. set (s' := MkR _ _ _ _ _ _ _ _).
    assert (EO : forall u, ops_at s' u = if u =? t then r else ops_at s u) by (apply ops_at_ths; [exact L|reflexivity]).
    eapply (inv_step s s' t OW IN WS RS (OW t) (IN t) (WS t) (k :: RS t)); auto.
    + split; cbn [s' r_w r_r r_p r_active r_pub r_next]; auto; try apply G.
      * intros k' u Hu. destruct (lk_dec k' k) as [->|NK]; [congruence|]. rewrite setk_other by exact NK. eauto.
      * intros k'. destruct (lk_dec k' k) as [->|NK]; [rewrite setk_same|rewrite setk_other by exact NK; auto].
        constructor; [|apply Gnd]. rewrite <- Hr. exact F2.
      * intros k' u Hu. rewrite EO. destruct (Nat.eqb_spec u t) as [->|]; [|apply Gp, Hu].
        exfalso; eapply NP; [discriminate|exact Hu].
    + intros u NE. rewrite EO. destruct (Nat.eqb_spec u t); [contradiction|reflexivity].
    + intros u k' NE; reflexivity.
    + intros u k' NE. cbn [s' r_r]. destruct (lk_dec k' k) as [->|NK].
      * rewrite setk_same. cbn [In]. split; [intros [C|C]; [congruence|exact C]|tauto].
      * rewrite setk_other by exact NK. reflexivity.
    + split; auto.
      * rewrite EO, Nat.eqb_refl. exact F3.
      * constructor; assumption.
      * intros k'. cbn [s' r_r In]. destruct (lk_dec k' k) as [->|NK].
        -- rewrite setk_same. cbn [In]. tauto.
        -- rewrite setk_other by exact NK. rewrite Hr. split; [intros [C|C]; [congruence|exact C]|tauto].
  - (* RRel *)
    destruct Fi as [F1 F3]. injection H as <-. set (s' := MkR _ _ _ _ _ _ _ _).
    assert (EO : forall u, ops_at s' u = if u =? t then r else ops_at s u) by (apply ops_at_ths; [exact L|reflexivity]).
    destruct (rm_in k (RS t) NR) as [R1 R2]. destruct (drop1_nodup t (r_r s k) (Gnd k)) as [D1 D2].
    eapply (inv_step s s' t OW IN WS RS (OW t) (IN t) (WS t) (rm k (RS t))); auto.
    + split; cbn [s' r_w r_r r_p r_active r_pub r_next]; auto; try apply G.
      * intros k' u Hu. destruct (lk_dec k' k) as [->|NK]; [|rewrite setk_other by exact NK; eauto].
        rewrite setk_same, (Gwr _ _ Hu). reflexivity.
      * intros k'. destruct (lk_dec k' k) as [->|NK]; [rewrite setk_same; exact D1|rewrite setk_other by exact NK; auto].
      * intros k' u Hu. rewrite EO. destruct (Nat.eqb_spec u t) as [->|]; [|apply Gp, Hu].
        exfalso; eapply NP; [discriminate|exact Hu].
    + intros u NE. rewrite EO. destruct (Nat.eqb_spec u t); [contradiction|reflexivity].
    + intros u k' NE; reflexivity.
    + intros u k' NE. cbn [s' r_r]. destruct (lk_dec k' k) as [->|NK].
      * rewrite setk_same. split; [apply drop1_in|apply drop1_other; exact NE].
      * rewrite setk_other by exact NK. reflexivity.
    + split; auto.
      * rewrite EO, Nat.eqb_refl. exact F3.
      * intros k'. cbn [s' r_r]. rewrite R2. destruct (lk_dec k' k) as [->|NK].
        -- rewrite setk_same. tauto.
        -- rewrite setk_other by exact NK. rewrite Hr. tauto.
  - (* Want *)
    destruct Fi as [[r' F1] F3]. injection H as <-. set (s' := MkR _ _ _ _ _ _ _ _).
    assert (EO : forall u, ops_at s' u = if u =? t then r else ops_at s u) by (apply ops_at_ths; [exact L|reflexivity]).
    eapply (inv_step s s' t OW IN WS RS (OW t) (IN t) (WS t) (RS t)); auto.
    + split; cbn [s' r_w r_r r_p r_active r_pub r_next]; auto; try apply G.
      * intros k' u Hu. rewrite EO. destruct (lk_dec k' k) as [->|NK].
        -- rewrite setk_same in Hu. destruct (Nat.eqb_spec u t) as [->|NE]; [exists r'; exact F1|].
           apply Gp. destruct Hu as [C|C]; [congruence|exact C].
        -- rewrite setk_other in Hu by exact NK. destruct (Nat.eqb_spec u t) as [->|]; [|apply Gp, Hu].
           exfalso; eapply NP; [discriminate|exact Hu].
      * intros k'. destruct (lk_dec k' k) as [->|NK]; [rewrite setk_same|rewrite setk_other by exact NK; apply G].
        constructor; [|apply G]. apply NP. discriminate.
    + intros u NE. rewrite EO. destruct (Nat.eqb_spec u t); [contradiction|reflexivity].
    + intros u k' NE; reflexivity.
    + intros u k' NE; reflexivity.
    + split; auto. rewrite EO, Nat.eqb_refl. exact F3.
  - (* Rd *)
    injection H as <-. destruct Fi. eapply (inv_ops s t OW IN WS RS _ (IN t)); auto. apply NP; discriminate.
  - (* Wr *)
    injection H as <-. destruct Fi. eapply (inv_ops s t OW IN WS RS _ (IN t)); auto. apply NP; discriminate.
  - (* Once *)
    destruct Fi as [F1 [F2 F3]]. destruct (r_done s o) eqn:D; injection H as <-.
    + eapply (inv_ops s t OW IN WS RS _ (ini_of o (IN t))); auto; [apply NP; discriminate|destruct o; cbn [ini_of]; auto|].
      destruct o; cbn [ini_of]; [discriminate|auto].
    + eapply (inv_ops s t OW IN WS RS _ (IN t)); auto; [apply NP; discriminate|].
      cbn [fine]. split; [exact F1|]. split; [left; reflexivity|].
      split.
      * destruct o; [exact I|]. destruct F2 as [B1 [B2 [B3 B4]]]. repeat split; try assumption.
        intros k [<-|C]; [eexists; reflexivity|apply B4, C].
      * rewrite rm_head. split; [left; reflexivity|]. split; [|exact F3]. destruct o; cbn [ini_of]; [discriminate|].
        intros _; discriminate.
  - (* Check *)
    destruct Fi as [F1 [F2 F3]]. destruct (r_done s o) eqn:D; injection H as <-.
    + eapply (inv_ops s t OW IN WS RS _ (ini_of o (IN t))); auto; [apply NP; discriminate|destruct o; cbn [ini_of]; auto|].
      destruct o; cbn [ini_of]; [discriminate|auto].
    + eapply (inv_ops s t OW IN WS RS _ (match o with OInit => Some false | _ => IN t end)); auto; [apply NP; discriminate| | |].
      * apply body_fine; auto; [intros x; apply pubd_seen| |]; destruct o; tauto.
      * destruct o; [discriminate|auto].
      * destruct o; [auto|auto].
  - (* Done *)
    destruct Fi as [F1 F3]. injection H as <-. set (s' := MkR _ _ _ _ _ _ _ _).
    assert (EO : forall u, ops_at s' u = if u =? t then r else ops_at s u) by (apply ops_at_ths; [exact L|reflexivity]).
    eapply (inv_step s s' t OW IN WS RS (OW t) (ini_of o (IN t)) (WS t) (RS t)); auto.
    + split; cbn [s' r_w r_r r_p r_active r_pub r_next]; auto; try apply G.
      intros k' u Hu. rewrite EO. destruct (Nat.eqb_spec u t) as [->|]; [|apply Gp, Hu].
      exfalso; eapply NP; [discriminate|exact Hu].
    + intros u NE. rewrite EO. destruct (Nat.eqb_spec u t); [contradiction|reflexivity].
    + cbn [s' r_done]. intros ->. destruct (onc_eqb OInit o); reflexivity.
    + intros u NE h. cbn [s' r_done]. destruct o; [|apply (NOT u NE h)].
      exfalso. destruct (T u) as [_ _ _ Hw' _ _ Hn' _]. destruct (Hn' h) as [_ B]. apply Hw' in B. apply Hw in F1. congruence.
    + intros u k' NE; reflexivity.
    + intros u k' NE; reflexivity.
    + split; auto.
      * rewrite EO, Nat.eqb_refl. exact F3.
      * destruct o; cbn [ini_of s' r_done onc_eqb]; [reflexivity|auto].
      * destruct o; cbn [ini_of s' r_done onc_eqb]; [discriminate|auto].
  - (* Walk *) discriminate H.
  - (* Add *)
    destruct Fi as [F1 [F2 F3]]. injection H as <-. set (s' := MkR _ _ _ _ _ _ _ _).
    assert (EO : forall u, ops_at s' u = if u =? t then r else ops_at s u) by (apply ops_at_ths; [exact L|reflexivity]).
    destruct (Ho _ _ F2) as [O1 [O2 O3]]. specialize (O3 eq_refl).
    eapply (inv_step s s' t OW IN WS RS (Some (s0, true)) (IN t) (WS t) (RS t)); auto.
    + split; cbn [s' r_w r_r r_p r_active r_pub r_next]; auto; try apply G.
      * intros m. destruct (Nat.eq_dec m n) as [->|NE].
        -- rewrite setn_same. destruct (Gact n) as [B1 B2]. split; [constructor; [apply O3|exact B1]|].
           intros x [<-|Hx]; [exact O1|apply B2, Hx].
        -- rewrite setn_other by exact NE. apply Gact.
      * intros k' u Hu. rewrite EO. destruct (Nat.eqb_spec u t) as [->|]; [|apply Gp, Hu].
        exfalso; eapply NP; [discriminate|exact Hu].
    + intros u NE. rewrite EO. destruct (Nat.eqb_spec u t); [contradiction|reflexivity].
    + intros x [Hx|[m Hm]]; [left; exact Hx|]. right. exists m. cbn [s' r_active].
      destruct (Nat.eq_dec m n) as [->|NE]; [rewrite setn_same; right; exact Hm|rewrite setn_other by exact NE; exact Hm].
    + intros u k' NE; reflexivity.
    + intros u k' NE; reflexivity.
    + intros u x b NE Q. destruct (OWN u x b NE Q) as [B1 B2]. split; [exact B1|]. intros Eb m. cbn [s' r_active].
      destruct (Nat.eq_dec m n) as [->|Nm]; [|rewrite setn_other by exact Nm; auto].
      rewrite setn_same. intros [<-|C]; [|exact (B2 Eb n C)]. exact (EXC _ _ _ _ F2 NE Q).
    + split; auto.
      * rewrite EO, Nat.eqb_refl. eapply fine_mono; [| |left; reflexivity|exact F3]; [|intros x Hx; exact Hx].
        intros x [Hx|[m Hm]]; [left; exact Hx|]. right. exists m. cbn [s' r_active].
        destruct (Nat.eq_dec m n) as [->|NE]; [rewrite setn_same; right; exact Hm|rewrite setn_other by exact NE; exact Hm].
      * intros x b Q. injection Q as <- <-. repeat split; auto. discriminate.
    + intros x b u b' Q NE Q2. injection Q as <- <-. exact (EXC _ _ _ _ F2 NE Q2).
  - (* Del *)
    destruct Fi as [F1 [F2 F3]]. injection H as <-. set (s' := MkR _ _ _ _ _ _ _ _).
    assert (EO : forall u, ops_at s' u = if u =? t then r else ops_at s u) by (apply ops_at_ths; [exact L|reflexivity]).
    assert (SN : forall x, seen s x -> seen s' x).
    { intros x [Hx|[m Hm]]; [left; exact Hx|]. destruct (Nat.eq_dec x s0) as [->|Nx]; [left; exact F2|].
      right. exists m. cbn [s' r_active]. destruct (Nat.eq_dec m n) as [->|NE]; [|rewrite setn_other by exact NE; exact Hm].
      rewrite setn_same. apply drop1_other; assumption. }
    assert (SB : forall m x, In x (r_active s' m) -> In x (r_active s m)).
    { intros m x. cbn [s' r_active]. destruct (Nat.eq_dec m n) as [->|NE]; [rewrite setn_same; apply drop1_in|rewrite setn_other by exact NE; auto]. }
    eapply (inv_step s s' t OW IN WS RS (OW t) (IN t) (WS t) (RS t)); auto.
    + split; cbn [s' r_w r_r r_p r_pub r_next]; auto; try apply G.
      * intros m. split; [|intros x Hx; apply (Gact m), SB, Hx].
        cbn [s' r_active]. destruct (Nat.eq_dec m n) as [->|NE]; [rewrite setn_same; apply drop1_nodup, Gact|rewrite setn_other by exact NE; apply Gact].
      * intros k' u Hu. rewrite EO. destruct (Nat.eqb_spec u t) as [->|]; [|apply Gp, Hu].
        exfalso; eapply NP; [discriminate|exact Hu].
    + intros u NE. rewrite EO. destruct (Nat.eqb_spec u t); [contradiction|reflexivity].
    + intros u k' NE; reflexivity.
    + intros u k' NE; reflexivity.
    + intros u x b NE Q. destruct (OWN u x b NE Q) as [B1 B2]. split; [exact B1|]. intros Eb m C. exact (B2 Eb m (SB m x C)).
    + split; auto.
      * rewrite EO, Nat.eqb_refl. eapply fine_mono; [exact SN| |left; reflexivity|exact F3]. intros x Hx; exact Hx.
      * intros x b Q. destruct (Ho x b Q) as [B1 [B2 B3]]. repeat split; auto. intros Eb m C. exact (B3 Eb m (SB m x C)).
  - (* Export *)
    injection H as <-. destruct Fi as [F1 [F2 [F3 F4]]].
    eapply (inv_ops s t OW IN WS RS _ (IN t)); auto. apply NP; discriminate.
  - (* Ret *)
    destruct Fi as [[b F2] F3]. injection H as <-. set (s' := MkR _ _ _ _ _ _ _ _).
    assert (EO : forall u, ops_at s' u = if u =? t then r else ops_at s u) by (apply ops_at_ths; [exact L|reflexivity]).
    destruct (Ho _ _ F2) as [O1 [O2 O3]].
    assert (PB : forall x, pubd s x -> pubd s' x).
    { intros x Hx. unfold pubd. cbn [s' r_pub]. destruct (Nat.eq_dec x s0) as [->|NE]; [rewrite setn_same; reflexivity|rewrite setn_other by exact NE; exact Hx]. }
    assert (SN : forall x, seen s x -> seen s' x).
    { intros x [Hx|Hx]; [left; apply PB, Hx|right; exact Hx]. }
    eapply (inv_step s s' t OW IN WS RS None (IN t) (WS t) (RS t)); auto.
    + split; cbn [s' r_w r_r r_p r_active r_pub r_next]; auto; try apply G.
      * intros x Hx. destruct (Nat.eq_dec x s0) as [->|NE]; [exact O1|rewrite setn_other in Hx by exact NE; apply Gpub, Hx].
      * intros k' u Hu. rewrite EO. destruct (Nat.eqb_spec u t) as [->|]; [|apply Gp, Hu].
        exfalso; eapply NP; [discriminate|exact Hu].
    + intros u NE. rewrite EO. destruct (Nat.eqb_spec u t); [contradiction|reflexivity].
    + intros u k' NE; reflexivity.
    + intros u k' NE; reflexivity.
    + intros u x b' NE Q. destruct (OWN u x b' NE Q) as [B1 B2]. split; [|exact B2]. cbn [s' r_pub].
      rewrite setn_other; [exact B1|]. intros ->. exact (EXC _ _ _ _ F2 NE Q).
    + split; auto.
      * rewrite EO, Nat.eqb_refl. eapply fine_mono; [exact SN|exact PB|left; reflexivity|exact F3].
      * discriminate.
    + discriminate.
Qed.

Lemma inv_rstep : forall s p s', INV s -> rstep s p = Some s' ->
  (strict = true -> match p with PBegin t (CEnd _ (Some _)) => ops_at s t = [] | _ => True end) -> INV s'.
Proof.
  intros s [t c|t|t l] s' I H M; [eapply inv_begin; eauto|eapply inv_run; eauto|eapply inv_walk; eauto].
Qed.

Lemma inv_init : forall n, INV (rinit n).
Proof.
  intros n. assert (O : forall t, ops_at (rinit n) t = []).
  { intros t. unfold ops_at, rinit; cbn [r_ths]. destruct (nth_in_or_default t (repeat [] n) (@nil op)) as [H|H]; [|exact H].
    apply repeat_spec in H. exact H. }
  split.
  - split; cbn [rinit r_w r_r r_p r_active r_pub]; try discriminate.
    + intros; constructor.
    + intros m; split; [constructor|intros x []].
    + intros k t [].
    + intros; constructor.
  - exists (fun _ => None), (fun _ => None), (fun _ => []), (fun _ => []). split; [|discriminate].
    intros t. split; cbn [rinit r_w r_r]; try discriminate.
    + rewrite O. repeat split.
    + constructor.
    + constructor.
    + intros k; split; [intros []|discriminate].
    + intros k; split; intros [].
Qed.
End Discipline.

Lemma inv_steps : forall s l s', rsteps s l s' -> INV false s -> INV false s'.
Proof.
  intros s l s' H; induction H; intros I; [exact I|]. apply IHrsteps. eapply inv_rstep; [exact I|exact H|discriminate].
Qed.

Lemma inv_steps_modest : forall s l s', rsteps s l s' -> modest s l -> INV true s -> INV true s'.
Proof.
  intros s l s' H; induction H; intros M I; [exact I|]. cbn [modest] in M. destruct M as [M1 M2]. rewrite H in M2.
  apply IHrsteps; [exact M2|]. eapply inv_rstep; [exact I|exact H|]. intros _.
  destruct p as [t c| |]; exact M1.
Qed.

Lemma inv_reachable : forall s, reachable s -> INV false s.
Proof. intros s [n [l H]]. eapply inv_steps; [exact H|apply inv_init]. Qed.

Lemma inv_reachable_modest : forall s, reachable_modest s -> INV true s.
Proof. intros s [n [l [H M]]]. eapply inv_steps_modest; [exact H|exact M|apply inv_init]. Qed.

(** ** No data races *)

Lemma inv_race : forall strict s, INV strict s -> ~ race s.
Proof.
  intros strict s [G [OW [IN [WS [RS [T X]]]]]] [t [u [o [o' [x [w [w' [NE [Ht [Hu [At [Au W]]]]]]]]]]]].
  assert (K : forall k a b, In k (WS a) -> In k (WS b) -> a = b).
  { intros k a b A B. destruct (T a) as [_ _ _ Ha _ _ _ _]. destruct (T b) as [_ _ _ Hb _ _ _ _].
    apply Ha in A. apply Hb in B. congruence. }
  assert (K2 : forall k a b, In k (WS a) -> ~ In k (RS b)).
  { intros k a b A B. destruct (T a) as [_ _ _ Ha _ _ _ _]. destruct (T b) as [_ _ _ _ Hb _ _ _].
    apply Ha in A. apply Hb in B. rewrite (gi_wr s G _ _ A) in B. destruct B. }
  (* wlog: t writes *)
  assert (D : forall t u o o' x w', t <> u -> next_op s t = Some o -> next_op s u = Some o' ->
    access o = Some (x, true) -> access o' = Some (x, w') -> False).
  { clear t u o o' x w w' NE Ht Hu At Au W. intros t u o o' x w' NE Ht Hu At Au.
    destruct (T t) as [Ft _ _ _ _ Dt Nt Ot]. destruct (T u) as [Fu _ _ _ _ Du Nu Ou].
    unfold next_op in Ht, Hu. destruct (ops_at s t) as [|o1 r]; [discriminate Ht|]. injection Ht as ->.
    destruct (ops_at s u) as [|o2 r']; [discriminate Hu|]. injection Hu as ->.
    assert (A : wr_ok (seen s) (OW t) (IN t) (WS t) x).
    { destruct o; try discriminate At; injection At as <-; cbn [fine] in Ft; cbn [wr_ok]; tauto. }
    assert (B : rd_ok (seen s) (pubd s) (OW u) (IN u) (WS u) (RS u) x \/ wr_ok (seen s) (OW u) (IN u) (WS u) x).
    { destruct o'; try discriminate Au; injection Au as <- <-; cbn [fine] in Fu; cbn [wr_ok rd_ok]; tauto. }
    assert (F : forall y b, OW t = Some (y, b) -> ~ pubd s y).
    { intros y b Q C. destruct (Ot y b Q) as [_ [C2 _]]. unfold pubd in C. congruence. }
    assert (F0 : forall y, OW t = Some (y, false) -> ~ seen s y).
    { intros y Q [C|[n C]]; [exact (F _ _ Q C)|]. destruct (Ot y _ Q) as [_ [_ C2]]. exact (C2 eq_refl n C). }
    assert (F1 : forall y, OW u = Some (y, false) -> ~ seen s y).
    { intros y Q [C|[n C]]; [|destruct (Ou y _ Q) as [_ [_ C2]]; exact (C2 eq_refl n C)].
      destruct (Ou y _ Q) as [_ [C2 _]]. congruence. }
    destruct x; cbn [wr_ok rd_ok] in A, B.
    - destruct B as [[B|B]|B]; [apply NE; eapply K; eauto|exact (K2 _ _ _ A B)|apply NE; eapply K; eauto].
    - destruct B as [B|B]; apply NE; eapply K; eauto.
    - destruct B as [[B|[b B]]|B]; [exact (F0 _ A B)|apply NE; eapply X; eauto|apply NE; eapply X; eauto].
    - destruct A as [A|[A A']].
      + destruct B as [[B B']|[B|[B B']]]; [exact (F0 _ A B')|apply NE; eapply X; eauto|exact (F0 _ A B')].
      + destruct B as [[B B']|[B|[B B']]]; [apply NE; eapply K; eauto|exact (F1 _ B A')|apply NE; eapply K; eauto].
    - destruct A as [b A]. destruct B as [B|[b' B]]; [exact (F _ _ A B)|apply NE; eapply X; eauto].
    - destruct (Nt A) as [A1 A2]. destruct B as [B|B].
      + specialize (Du B). congruence.
      + destruct (Nu B) as [B1 B2]. apply NE; eapply K; eauto.
    - destruct B as [B|B]; apply NE; eapply K; eauto. }
  destruct W as [->| ->]; [exact (D t u o o' x w' NE Ht Hu At Au)|].
  refine (D u t o' o x w _ Hu Ht Au At). congruence.
Qed.

(** C84: whatever a program's goroutines call, and whatever its exporters call from ExportSpan, no
    two of them ever access the same variable of package trace at the same time, one of them
    writing it. *)
Theorem C84_race_free : forall s, reachable s -> ~ race s.
Proof. intros s H. eapply inv_race. apply inv_reachable, H. Qed.

(** ** No deadlocks *)

Definition wants (o : op) : option lk := match o with Acq k | RAcq k => Some k | _ => None end.

Lemma blocked_wants : forall s t o r, ops_at s t = o :: r -> ~ goes_on s ->
  exists k, wants o = Some k /\
    ((exists v, r_w s k = Some v \/ In v (r_r s k)) \/ (o = RAcq k /\ exists v, In v (r_p s k))).
Proof.
  intros s t o r E B.
  assert (N : run_op s t o r = None).
  { destruct (run_op s t o r) as [s'|] eqn:Q; [|reflexivity]. exfalso. apply B. exists (PRun t), s'.
    split; [exact I|]. cbn [rstep]. rewrite E. exact Q. }
  destruct o; cbn [run_op] in N; try discriminate N.
  - exists k. split; [reflexivity|]. left. destruct (r_w s k) as [v|]; [exists v; left; reflexivity|].
    destruct (r_r s k) as [|v l]; [discriminate N|]. exists v. right. left. reflexivity.
  - exists k. split; [reflexivity|]. destruct (r_w s k) as [v|]; [left; exists v; left; reflexivity|].
    right. split; [reflexivity|]. destruct (r_p s k) as [|v l]; [discriminate N|]. exists v. left. reflexivity.
  - exfalso. apply B. exists (PWalk t (r_active s n)). eexists. split; [exact I|]. cbn [rstep]. rewrite E, permb_refl. reflexivity.
Qed.

Lemma inv_progress : forall s t, INV true s -> busy s t -> goes_on s.
Proof.
  intros s t [G [OW [IN [WS [RS [T X]]]]]] Bt.
  assert (Dec : goes_on s \/ ~ goes_on s).
  { (* decided on the finite list of threads *)
    assert (Q : forall n, (exists u, u < n /\ exists p s', (p = PRun u \/ exists l, p = PWalk u l) /\ rstep s p = Some s') \/
                          (forall u p s', u < n -> (p = PRun u \/ exists l, p = PWalk u l) -> rstep s p <> Some s')).
    { induction n as [|n IH]; [right; intros; lia|]. destruct IH as [[u [L H]]|IH]; [left; exists u; split; [lia|exact H]|].
      destruct (rstep s (PRun n)) as [s'|] eqn:E1; [left; exists n; split; [lia|]; exists (PRun n), s'; auto|].
      destruct (ops_at s n) as [|o r] eqn:Eo.
      { right. intros u p s' L Hp C. destruct (Nat.eq_dec u n) as [->|NE]; [|eapply IH; [|exact Hp|exact C]; lia].
        destruct Hp as [->|[l ->]]; cbn [rstep] in C; rewrite Eo in C; discriminate C. }
      destruct o; try (right; intros u p s' L Hp C; destruct (Nat.eq_dec u n) as [->|NE]; [|eapply IH; [|exact Hp|exact C]; lia];
        destruct Hp as [->|[l ->]]; [congruence|cbn [rstep] in C; rewrite Eo in C; discriminate C]).
      left. exists n. split; [lia|]. exists (PWalk n (r_active s n0)). eexists. split; [right; eexists; reflexivity|].
      cbn [rstep]. rewrite Eo, permb_refl. reflexivity. }
    destruct (Q (length (r_ths s))) as [[u [L [p [s' [Hp H]]]]]|H].
    - left. exists p, s'. split; [|exact H]. destruct Hp as [->|[l ->]]; exact I.
    - right. intros [p [s' [Op Hs]]]. destruct p as [a c|a|a l]; [destruct Op| |].
      + assert (a < length (r_ths s)) as L.
        { cbn [rstep] in Hs. destruct (ops_at s a) eqn:E; [discriminate Hs|]. eapply ops_lt; exact E. }
        eapply H; [exact L|left; reflexivity|exact Hs].
      + assert (a < length (r_ths s)) as L.
        { cbn [rstep] in Hs. destruct (ops_at s a) eqn:E; [discriminate Hs|]. eapply ops_lt; exact E. }
        eapply H; [exact L|right; eexists; reflexivity|exact Hs]. }
  destruct Dec as [D|B]; [exact D|]. exfalso.
  assert (M : forall n u o r k, 5 - rank k <= n -> ops_at s u = o :: r -> wants o = Some k -> False).
  { induction n as [|n IH]; intros u o r k Ln E Wk; [destruct k as [| | | | | |[|]]; cbn [rank] in Ln; lia|].
    assert (Holder : forall v, r_w s k = Some v \/ In v (r_r s k) -> False).
    { intros v Hv. destruct (T v) as [Fv _ _ Wv Rv _ _ _].
      assert (Hk : In k (WS v) \/ In k (RS v)) by (destruct Hv as [Hv|Hv]; [left; apply Wv, Hv|right; apply Rv, Hv]).
      destruct (ops_at s v) as [|o' r'] eqn:Ev.
      { destruct Fv as [_ [C1 C2]]. rewrite C1, C2 in Hk. destruct Hk as [[]|[]]. }
      destruct (blocked_wants s v o' r' Ev B) as [k' [Wk' _]].
      eapply (IH v o' r' k'); [|exact Ev|exact Wk'].
      assert (rank k < rank k').
      { destruct o'; try discriminate Wk'; injection Wk' as ->; cbn [fine] in Fv; destruct Fv as [C _]; exact (C eq_refl k Hk). }
      lia. }
    destruct (blocked_wants s u o r E B) as [k1 [Wk1 C]]. rewrite Wk in Wk1. injection Wk1 as <-.
    destruct C as [[v Hv]|[_ [v Hv]]]; [exact (Holder v Hv)|].
    destruct (gi_p s G k v Hv) as [r' Ev]. destruct (blocked_wants s v _ _ Ev B) as [k2 [Wk2 C]].
    injection Wk2 as <-. destruct C as [[v' Hv']|[C _]]; [exact (Holder v' Hv')|discriminate C]. }
  unfold busy in Bt. destruct (ops_at s t) as [|o r] eqn:E; [apply Bt; reflexivity|].
  destruct (blocked_wants s t o r E B) as [k [Wk _]]. exact (M 5 t o r k ltac:(lia) E Wk).
Qed.

(** C84: as long as exporters do not end spans from within ExportSpan, no deadlock: whenever some
    goroutine is in a call, some goroutine can go on with its own. *)
Theorem C84_deadlock_free : forall s t, reachable_modest s -> busy s t -> goes_on s.
Proof. intros s t H B. eapply inv_progress; [apply inv_reachable_modest, H|exact B]. Qed.

(** ** Calls do not take forever *)

Definition cost (n : nat) (o : op) : nat :=
  match o with Once _ _ => 14 | Check _ _ => 11 | Walk _ => 1 + 4 * n | _ => 1 end.
Definition costs (n : nat) (l : list op) : nat := list_sum (map (cost n) l).
Definition work (s : rst) : nat := list_sum (map (costs (r_next s)) (r_ths s)).

Lemma costs_app : forall n l m, costs n (l ++ m) = costs n l + costs n m.
Proof. intros; unfold costs; rewrite map_app, list_sum_app; reflexivity. Qed.

Lemma work_upd : forall (f : list op -> nat) t l ths, t < length ths ->
  list_sum (map f (upd ths t (fun _ => l))) + f (nth t ths []) = list_sum (map f ths) + f l.
Proof.
  intros f t l ths; revert t. induction ths as [|x ths IH]; intros [|t] L; cbn [length] in L; try lia;
    unfold list_sum in *; cbn [upd map fold_right nth]; [lia|].
  specialize (IH t ltac:(lia)). lia.
Qed.

Lemma body_cost : forall n o v, costs n (once_body o v) <= 9.
Proof.
  intros n [|s] v; [cbv; lia|]. destruct v as [[m|] [|]]; cbn; lia.
Qed.

Lemma walk_cost : forall n l, costs n (concat (map snapshot_ops l)) = 4 * length l.
Proof.
  intros n; induction l as [|x l IH]; [reflexivity|]. cbn [map concat length]. rewrite costs_app, IH.
  change (costs n (snapshot_ops x)) with 4. lia.
Qed.

Lemma active_le : forall s n, GI s -> length (r_active s n) <= r_next s.
Proof.
  intros s n G. destruct (gi_act s G n) as [A B]. rewrite <- (seq_length (r_next s) 0).
  apply NoDup_incl_length; [exact A|]. intros x Hx. apply in_seq. specialize (B x Hx). lia.
Qed.

Lemma work_step : forall strict s p s', INV strict s -> old p -> rstep s p = Some s' -> work s' < work s /\ r_next s' = r_next s.
Proof.
  intros strict s p s' I O H. destruct I as [G _].
  assert (U : forall t l s', t < length (r_ths s) -> r_ths s' = upd (r_ths s) t (fun _ => l) -> r_next s' = r_next s ->
    costs (r_next s) l < costs (r_next s) (ops_at s t) -> work s' < work s /\ r_next s' = r_next s).
  { intros t l s1 L E N C. split; [|exact N]. unfold work. rewrite E, N.
    pose proof (work_upd (costs (r_next s)) t l (r_ths s) L) as W. unfold ops_at in C. lia. }
  destruct p as [t c|t|t l]; [destruct O| |]; cbn [rstep] in H.
  - destruct (ops_at s t) as [|o r] eqn:E; [discriminate H|]. pose proof (ops_lt _ _ _ _ E) as L.
    assert (C : forall m, costs m r < costs m (o :: r)).
    { intros m. unfold costs, list_sum; cbn [map fold_right]. destruct o; cbn [cost]; lia. }
    destruct o; cbn [run_op] in H.
    + destruct (r_w s k); [discriminate H|]. destruct (r_r s k); [|discriminate H]. injection H as <-.
      apply (U t r); [exact L|reflexivity|reflexivity|rewrite E; apply C].
    + injection H as <-. apply (U t r); [exact L|reflexivity|reflexivity|rewrite E; apply C].
    + destruct (r_w s k); [discriminate H|]. destruct (r_p s k); [|discriminate H]. injection H as <-.
      apply (U t r); [exact L|reflexivity|reflexivity|rewrite E; apply C].
    + injection H as <-. apply (U t r); [exact L|reflexivity|reflexivity|rewrite E; apply C].
    + injection H as <-. apply (U t r); [exact L|reflexivity|reflexivity|rewrite E; apply C].
    + injection H as <-. apply (U t r); [exact L|reflexivity|reflexivity|rewrite E; apply C].
    + injection H as <-. apply (U t r); [exact L|reflexivity|reflexivity|rewrite E; apply C].
    + destruct (r_done s o); injection H as <-; [apply (U t r); [exact L|reflexivity|reflexivity|rewrite E; apply C]|].
      eapply U; [exact L|reflexivity|reflexivity|]. rewrite E. unfold costs, list_sum; cbn [map fold_right cost]. lia.
    + destruct (r_done s o); injection H as <-; [apply (U t r); [exact L|reflexivity|reflexivity|rewrite E; apply C]|].
      eapply U; [exact L|reflexivity|reflexivity|]. rewrite E, costs_app.
      pose proof (body_cost (r_next s) o v) as Bc. unfold costs, list_sum in *; cbn [map fold_right cost]. lia.
    + injection H as <-. apply (U t r); [exact L|reflexivity|reflexivity|rewrite E; apply C].
    + discriminate H.
    + injection H as <-. apply (U t r); [exact L|reflexivity|reflexivity|rewrite E; apply C].
    + injection H as <-. apply (U t r); [exact L|reflexivity|reflexivity|rewrite E; apply C].
    + injection H as <-. apply (U t r); [exact L|reflexivity|reflexivity|rewrite E; apply C].
    + injection H as <-. apply (U t r); [exact L|reflexivity|reflexivity|rewrite E; apply C].
  - destruct (ops_at s t) as [|o r] eqn:E; [discriminate H|]. pose proof (ops_lt _ _ _ _ E) as L.
    destruct o; try discriminate H. destruct (permb _ _) eqn:P; [|discriminate H]. injection H as <-.
    destruct (permb_spec _ _ P) as [P1 _]. pose proof (active_le s n G) as Al.
    eapply U; [exact L|reflexivity|reflexivity|]. rewrite E, costs_app, walk_cost.
    unfold costs, list_sum; cbn [map fold_right cost]. lia.
Qed.

(** C84: calls take boundedly many steps: from any state, without new calls, however the scheduler
    chooses, the goroutines can go on only a bounded number of steps (and by C84_deadlock_free
    they stop only when every call has returned). *)
Theorem C84_bounded : forall s, reachable s ->
  exists N, forall l s', rsteps s l s' -> Forall old l -> length l <= N.
Proof.
  intros s R. exists (work s). apply inv_reachable in R. intros l s' H. revert R.
  induction H as [s|s p s1 l s' H1 H2 IH]; intros R F; [cbn; lia|].
  inversion F as [|? ? Fp Fl]; subst. destruct (work_step false s p s1 R Fp H1) as [W _].
  specialize (IH (inv_rstep false s p s1 R H1 ltac:(discriminate)) Fl). cbn [length]. lia.
Qed.

(** C84: so all calls return: from any state, without new calls, the goroutines can go on until
    none is in a call. *)
Theorem C84_returns : forall s, reachable_modest s ->
  exists l s', rsteps s l s' /\ Forall old l /\ forall t, ~ busy s' t.
Proof.
  intros s R. apply inv_reachable_modest in R. remember (work s) as n eqn:En.
  revert s R En. induction n as [n IH] using lt_wf_ind; intros s R En.
  assert (D : (exists t, busy s t) \/ forall t, ~ busy s t).
  { assert (Q : forall m, (exists t, busy s t) \/ forall t, t < m -> ~ busy s t).
    { induction m as [|m IHm]; [right; intros; lia|]. destruct IHm as [H|H]; [left; exact H|].
      destruct (ops_at s m) as [|o r] eqn:E.
      - right. intros t L. destruct (Nat.eq_dec t m) as [->|NE]; [intros B; exact (B E)|apply H; lia].
      - left. exists m. unfold busy. rewrite E. discriminate. }
    destruct (Q (length (r_ths s))) as [H|H]; [left; exact H|]. right. intros t B. apply (H t); [|exact B].
    unfold busy in B. destruct (ops_at s t) eqn:E; [destruct (B eq_refl)|]. eapply ops_lt; exact E. }
  destruct D as [[t B]|D]; [|exists [], s; repeat split; [constructor|constructor|exact D]].
  destruct (inv_progress s t R B) as [p [s1 [O H]]].
  destruct (work_step true s p s1 R O H) as [W _]. rewrite <- En in W.
  assert (R1 : INV true s1) by (eapply inv_rstep; [exact R|exact H|intros _; destruct p as [a c| |]; [destruct O|exact I|exact I]]).
  destruct (IH (work s1) W s1 R1 eq_refl) as [l [s' [H1 [H2 H3]]]].
  exists (p :: l), s'. split; [econstructor; eassumption|]. split; [constructor; assumption|exact H3].
Qed.

(** ** Exporters that end spans *)

Lemma hang_self : forall s t k r, INV false s -> ops_at s t = Acq k :: r -> r_w s k = Some t -> hangs s t.
Proof.
  intros s t k r I E W l s' H. revert I E W. induction H as [s|s p s1 l s' H1 H2 IH]; intros I E W; [reflexivity|].
  assert (ops_at s1 t = ops_at s t /\ r_w s1 k = Some t) as [A B].
  { pose proof I as [G [OW [IN [WS [RS [T X]]]]]]. destruct p as [u c|u|u m]; cbn [rstep] in H1.
    - destruct (_ && _ && _) eqn:C; [|discriminate H1]. injection H1 as <-.
      apply andb_true_iff in C; destruct C as [C _]. apply andb_true_iff in C; destruct C as [L C]. apply Nat.ltb_lt in L.
      split; [|exact W]. erewrite ops_at_ths; [|exact L|reflexivity].
      destruct (Nat.eqb_spec t u) as [->|]; [|reflexivity]. rewrite E in C. discriminate C.
    - destruct (ops_at s u) as [|o q] eqn:Eu; [discriminate H1|]. pose proof (ops_lt _ _ _ _ Eu) as L.
      destruct (Nat.eq_dec u t) as [->|NE].
      { rewrite E in Eu. injection Eu as <- <-. cbn [run_op] in H1. rewrite W in H1. discriminate H1. }
      assert (O : forall x y, r_ths x = upd (r_ths s) u (fun _ => y) -> ops_at x t = ops_at s t).
      { intros x y Q. rewrite (ops_at_ths s x u y L Q). destruct (Nat.eqb_spec t u); [congruence|reflexivity]. }
      destruct o; cbn [run_op] in H1.
      + destruct (r_w s k0) eqn:Wk; [discriminate H1|]. destruct (r_r s k0); [|discriminate H1]. injection H1 as <-.
        split; [eapply O; reflexivity|]. cbn [r_w]. rewrite setk_other; [exact W|]. intros ->. congruence.
      + injection H1 as <-. split; [eapply O; reflexivity|]. cbn [r_w]. rewrite setk_other; [exact W|]. intros ->.
        destruct (T u) as [Fu _ _ Wu _ _ _ _]. rewrite Eu in Fu. cbn [fine] in Fu. destruct Fu as [Fu _]. apply Wu in Fu. congruence.
      + destruct (r_w s k0); [discriminate H1|]. destruct (r_p s k0); [|discriminate H1]. injection H1 as <-. split; [eapply O; reflexivity|exact W].
      + injection H1 as <-. split; [eapply O; reflexivity|exact W].
      + injection H1 as <-. split; [eapply O; reflexivity|exact W].
      + injection H1 as <-. split; [eapply O; reflexivity|exact W].
      + injection H1 as <-. split; [eapply O; reflexivity|exact W].
      + destruct (r_done s o); injection H1 as <-; (split; [eapply O; reflexivity|exact W]).
      + destruct (r_done s o); injection H1 as <-; (split; [eapply O; reflexivity|exact W]).
      + injection H1 as <-. split; [eapply O; reflexivity|exact W].
      + discriminate H1.
      + injection H1 as <-. split; [eapply O; reflexivity|exact W].
      + injection H1 as <-. split; [eapply O; reflexivity|exact W].
      + injection H1 as <-. split; [eapply O; reflexivity|exact W].
      + injection H1 as <-. split; [eapply O; reflexivity|exact W].
    - destruct (ops_at s u) as [|o q] eqn:Eu; [discriminate H1|]. pose proof (ops_lt _ _ _ _ Eu) as L.
      destruct o; try discriminate H1. destruct (permb _ _); [|discriminate H1]. injection H1 as <-.
      split; [|exact W]. erewrite ops_at_ths; [|exact L|reflexivity].
      destruct (Nat.eqb_spec t u) as [->|]; [congruence|reflexivity]. }
  rewrite <- A. apply IH; [eapply inv_rstep; [exact I|exact H1|discriminate]|rewrite A; exact E|exact B].
Qed.

Lemma rexec_steps : forall l s s', rexec s l = Some s' -> rsteps s l s'.
Proof.
  induction l as [|p l IH]; intros s s' H; cbn [rexec] in H; [injection H as <-; constructor|].
  destruct (rstep s p) as [s1|] eqn:E; [|discriminate H]. econstructor; [exact E|apply IH, H].
Qed.

(** A span is started, ended, and the exporter it is exported to ends it again. *)
Definition export_sched : list pick :=
  [PBegin 0 (CStart None false false KRec)] ++ repeat (PRun 0) 6 ++
  [PBegin 0 (CEnd 0 (Some (MkEnd None true)))] ++ repeat (PRun 0) 10 ++
  [PBegin 0 (CEnd 0 (Some (MkEnd None true)))] ++ repeat (PRun 0) 3.

(** That exporters may call anything is false: an exporter that ends the very span it is given
    (it has kept the Span somewhere) never returns from ExportSpan, and the End of the program
    never returns either.  trace.go:287-302: ExportSpan runs within endOnce.Do. *)
Theorem C84_exporter_refuted : exists s, reachable s /\ busy s 0 /\ hangs s 0 /\
  exists l1 s1 l2, export_sched = l1 ++ PBegin 0 (CEnd 0 (Some (MkEnd None true))) :: l2 /\
    rexec (rinit 1) l1 = Some s1 /\ next_op s1 0 = Some Export /\
    rexec s1 (PBegin 0 (CEnd 0 (Some (MkEnd None true))) :: l2) = Some s.
Proof.
  destruct (rexec (rinit 1) export_sched) as [s|] eqn:E; [|vm_compute in E; discriminate E].
  assert (R : reachable s) by (exists 1, export_sched; apply rexec_steps, E).
  exists s. split; [exact R|].
  assert (O : ops_at s 0 = [Acq (LOnce (OEnd 0)); Check (OEnd 0) (MkEnd None true); Rel (LOnce (OEnd 0)); Export;
                            Done (OEnd 0); Rel (LOnce (OEnd 0))] /\ r_w s (LOnce (OEnd 0)) = Some 0).
  { assert (Q : option_map (fun s => (ops_at s 0, r_w s (LOnce (OEnd 0)))) (rexec (rinit 1) export_sched) =
                Some ([Acq (LOnce (OEnd 0)); Check (OEnd 0) (MkEnd None true); Rel (LOnce (OEnd 0)); Export;
                       Done (OEnd 0); Rel (LOnce (OEnd 0))], Some 0)) by (vm_compute; reflexivity).
    rewrite E in Q. cbn [option_map] in Q. injection Q as Q1 Q2. split; assumption. }
  destruct O as [O W]. split; [unfold busy; rewrite O; discriminate|].
  split; [eapply hang_self; [apply inv_reachable, R|exact O|exact W]|].
  set (l1 := firstn 18 export_sched).
  destruct (rexec (rinit 1) l1) as [s1|] eqn:E1; [|vm_compute in E1; discriminate E1].
  exists l1, s1, (repeat (PRun 0) 3). split; [reflexivity|]. split; [exact E1|]. split.
  - assert (Q : option_map (fun s => next_op s 0) (rexec (rinit 1) l1) = Some (Some Export)) by (vm_compute; reflexivity).
    rewrite E1 in Q. cbn [option_map] in Q. injection Q as Q. exact Q.
  - assert (A : forall a b z, rexec z (a ++ b) = match rexec z a with Some y => rexec y b | None => None end).
    { clear. induction a as [|p a IH]; intros b z; [reflexivity|]. cbn [app rexec]. destruct (rstep z p); [apply IH|reflexivity]. }
    assert (Q : export_sched = l1 ++ PBegin 0 (CEnd 0 (Some (MkEnd None true))) :: repeat (PRun 0) 3) by reflexivity.
    rewrite Q, A, E1 in E. exact E.
Qed.

Print Assumptions C84_race_free.
Print Assumptions C84_deadlock_free.
Print Assumptions C84_bounded.
Print Assumptions C84_returns.
Print Assumptions C84_exporter_refuted.

(** ** Examples *)

(** Three goroutines: one starts span 0, with a store made for its name; then one changes the span,
    one lists the active spans, one ends it, with an exporter that starts a span of its own. *)
Definition demo : list pick :=
  [PBegin 0 (CStart None true true (KStore 7 New))] ++ repeat (PRun 0) 29 ++
  [PBegin 0 (CMutate 0 true); PBegin 1 (CActive 7 true); PBegin 2 (CEnd 0 (Some (MkEnd (Some 7) true)))] ++
  repeat (PRun 1) 5 ++ [PWalk 1 [0]] ++ repeat (PRun 1) 2 ++ repeat (PRun 2) 6 ++ [PRun 0].

Example C84_demo_contention :
  option_map (fun s => (map (next_op s) [0; 1; 2], r_w s (LSpan 0), r_w s (LStore 7), r_w s (LOnce (OEnd 0)), r_active s 7))
    (rexec (rinit 3) demo) =
  Some ([Some (Acq (LSpan 0)); Some (Wr (VSpan 0)); Some (Acq (LSpan 0))], Some 1, Some 1, Some 2, [0]).
Proof. vm_compute; reflexivity. Qed.

Example C84_demo_reachable : exists s, reachable_modest s /\ busy s 0 /\ busy s 1 /\ busy s 2.
Proof.
  destruct (rexec (rinit 3) demo) as [s|] eqn:E; [|vm_compute in E; discriminate E].
  assert (Q : option_map (fun s => map (next_op s) [0; 1; 2]) (rexec (rinit 3) demo) =
    Some [Some (Acq (LSpan 0)); Some (Wr (VSpan 0)); Some (Acq (LSpan 0))]) by (vm_compute; reflexivity).
  rewrite E in Q. cbn [option_map map] in Q. injection Q as Q0 Q1 Q2. exists s. split.
  - exists 3, demo. split; [apply rexec_steps, E|]. unfold demo. vm_compute. repeat split.
  - unfold next_op, busy in *. repeat split; intros C; rewrite C in *; discriminate.
Qed.

(** Two accesses at the same time that are no race: two goroutines read the SpanContext. *)
Example C84_demo_reads :
  option_map (fun s => map (next_op s) [0; 1]) (rexec (rinit 2)
    ([PBegin 0 (CStart None false false KNone)] ++ repeat (PRun 0) 4 ++ [PBegin 0 (CContext 0); PBegin 1 (CContext 0)])) =
  Some [Some (Rd (VFix 0)); Some (Rd (VFix 0))].
Proof. vm_compute; reflexivity. Qed.

(** The demo goes on, with the exporter starting a span in ExportSpan, until all have returned. *)
Example C84_demo_returns :
  option_map (fun s => (map (ops_at s) [0; 1; 2], r_active s 7, r_active s 8, r_next s))
    (rexec (rinit 3) (demo ++ repeat (PRun 1) 3 ++ repeat (PRun 0) 4 ++ repeat (PRun 2) 7 ++
      [PBegin 2 (CStart (Some (0, true)) true false (KStore 8 Found))] ++ repeat (PRun 2) 24)) =
  Some ([[]; []; []], [], [4], 5).
Proof. vm_compute; reflexivity. Qed.
