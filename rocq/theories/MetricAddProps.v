(** Concurrent AddXxx calls on one registry (C24): what they can do, for any number of
    goroutines and every schedule.  Both succeeding with different types is possible only
    for calls that overlap (MetricConcProps.v, C24_concurrent_add_refuted). *)

From Coq Require Import String.
From Coq Require Import List Arith ZArith Bool Lia.
From Verif Require Import Base ListLib GoMap AggModel AggProofs MetricModel MetricProofs MetricConcModel MetricConcProofs.
Import ListNotations.
Open Scope nat_scope.

(** The calls of AddXxx, one goroutine each, given name and type, on an empty registry. *)
Definition adders (calls : list (bytes * bmtype)) : arst := MkAR (map (fun c => (c, AStart)) calls) [].

(** The call of goroutine [g]: has returned the metric, or the error. *)
Definition add_ok (s : arst) (g : nat) (n : bytes) (ty : bmtype) : Prop := nth_error (ar_gs s) g = Some (n, ty, AAdded).
Definition add_error (s : arst) (g : nat) (n : bytes) (ty : bmtype) : Prop := nth_error (ar_gs s) g = Some (n, ty, AFailed).
Definition not_begun (s : arst) (g : nat) (n : bytes) (ty : bmtype) : Prop := nth_error (ar_gs s) g = Some (n, ty, AStart).

Record AI (calls : list (bytes * bmtype)) (s : arst) : Prop := {
  ai_calls : map fst (ar_gs s) = calls;
  ai_names : forall n ty, mget bytes_eqb (ar_names s) n = Some ty -> exists g, add_ok s g n ty;
  ai_stored : forall g n ty, add_ok s g n ty -> exists ty', mget bytes_eqb (ar_names s) n = Some ty';
  ai_failed : forall g n ty, add_error s g n ty -> exists g' ty', add_ok s g' n ty' /\ ty' <> ty }.

Lemma map_upd_same {A B} (f : A -> B) (l : list A) g h : (forall x, nth_error l g = Some x -> f (h x) = f x) -> map f (upd l g h) = map f l.
Proof.
  revert g. induction l as [|x l IH]; intros [|g] H; cbn [upd map]; try reflexivity.
  - now rewrite (H x eq_refl).
  - f_equal. apply IH. intros y Hy. now apply H.
Qed.

Lemma AI_step calls s g s' : AI calls s -> ado s g = Some s' -> AI calls s'.
Proof.
  intros I Hd. unfold ado in Hd. destruct (nth_error (ar_gs s) g) as [[[n ty] pc]|] eqn:Eg; [|discriminate Hd].
  assert (Hup : forall pc' g' x, nth_error (upd (ar_gs s) g (fun _ => (n, ty, pc'))) g' = Some x ->
     g' = g /\ x = (n, ty, pc') \/ nth_error (ar_gs s) g' = Some x).
  { intros pc' g' x Hx. rewrite nth_error_upd in Hx. destruct (Nat.eqb_spec g g') as [<-|Hne]; [|now right].
    rewrite Eg in Hx. cbn in Hx. injection Hx as <-. now left. }
  assert (Hkeep : forall pc' g' x, pc <> AAdded -> nth_error (ar_gs s) g' = Some (x, AAdded) ->
     nth_error (upd (ar_gs s) g (fun _ => (n, ty, pc'))) g' = Some (x, AAdded)).
  { intros pc' g' x Hpc Hx. rewrite nth_error_upd. destruct (Nat.eqb_spec g g') as [<-|Hne]; [|exact Hx]. congruence. }
  assert (Hcalls : forall pc', map fst (upd (ar_gs s) g (fun _ => (n, ty, pc'))) = calls).
  { intros pc'. rewrite map_upd_same; [apply I|]. intros x Hx. rewrite Eg in Hx. injection Hx as <-. reflexivity. }
  destruct pc; try discriminate Hd; injection Hd as <-.
  - set (clash := match mget bytes_eqb (ar_names s) n with Some t => negb (bmtype_eqb t ty) | None => false end).
    split; cbn [ar_gs ar_names]; unfold add_ok, add_error in *; cbn [ar_gs ar_names].
    + apply Hcalls.
    + intros n' ty' H. destruct (ai_names _ _ I _ _ H) as (g' & Hg'). exists g'. apply Hkeep; [discriminate|exact Hg'].
    + intros g' n' ty' H. apply Hup in H. destruct H as [[_ H]|H]; [destruct clash; discriminate H|]. apply (ai_stored _ _ I _ _ _ H).
    + intros g' n' ty' H. apply Hup in H. destruct H as [[_ H]|H].
      * destruct clash eqn:Ec; [|discriminate H]. injection H as -> ->. subst clash.
        destruct (mget bytes_eqb (ar_names s) n) as [t|] eqn:En; [|discriminate Ec].
        destruct (ai_names _ _ I _ _ En) as (g2 & Hg2). exists g2, t. split; [apply Hkeep; [discriminate|exact Hg2]|].
        destruct (bmtype_eqb_spec t ty) as [E|E]; [discriminate Ec|exact E].
      * destruct (ai_failed _ _ I _ _ _ H) as (g2 & t & Hg2 & Ht). exists g2, t. split; [apply Hkeep; [discriminate|exact Hg2]|exact Ht].
  - split; cbn [ar_gs ar_names]; unfold add_ok, add_error in *; cbn [ar_gs ar_names].
    + apply Hcalls.
    + intros n' ty' H. rewrite (mget_mset bytes_eqb bytes_eqb_spec) in H. destruct (bytes_eqb_spec n n') as [<-|Hne].
      * injection H as <-. exists g. rewrite nth_error_upd, Nat.eqb_refl, Eg. reflexivity.
      * destruct (ai_names _ _ I _ _ H) as (g' & Hg'). exists g'. apply Hkeep; [discriminate|exact Hg'].
    + intros g' n' ty' H. rewrite (mget_mset bytes_eqb bytes_eqb_spec). destruct (bytes_eqb_spec n n') as [<-|Hne]; [eauto|].
      apply Hup in H. destruct H as [[_ H]|H]; [congruence|]. apply (ai_stored _ _ I _ _ _ H).
    + intros g' n' ty' H. apply Hup in H. destruct H as [[_ H]|H]; [discriminate H|].
      destruct (ai_failed _ _ I _ _ _ H) as (g2 & t & Hg2 & Ht). exists g2, t. split; [apply Hkeep; [discriminate|exact Hg2]|exact Ht].
Qed.

Lemma AI_init calls : AI calls (adders calls).
Proof.
  split; unfold adders, add_ok, add_error; cbn [ar_gs ar_names].
  - rewrite map_map. apply map_id.
  - intros n ty H. discriminate H.
  - intros g n ty H. rewrite nth_error_map in H. destruct (nth_error calls g); discriminate H.
  - intros g n ty H. rewrite nth_error_map in H. destruct (nth_error calls g); discriminate H.
Qed.

Lemma AI_run calls sched : forall s0 s, AI calls s0 -> arun s0 sched = Some s -> AI calls s.
Proof.
  induction sched as [|g r IH]; intros s0 s I H; cbn [arun] in H.
  - injection H as <-. exact I.
  - destruct (ado s0 g) as [s1|] eqn:E; [|discriminate H]. exact (IH _ _ (AI_step _ _ _ _ I E) H).
Qed.

(** In every schedule: the registry holds, for each name some call was successful with, the
    type of a successful call; a call gets the error only if one with another type was
    successful. *)
Theorem C24_concurrent_add calls sched s : arun (adders calls) sched = Some s ->
  (forall n, (exists ty, mget bytes_eqb (ar_names s) n = Some ty) <-> exists g ty, add_ok s g n ty) /\
  (forall n ty, mget bytes_eqb (ar_names s) n = Some ty -> exists g, add_ok s g n ty) /\
  (forall g n ty, add_ok s g n ty -> nth_error calls g = Some (n, ty)) /\
  (forall g n ty, add_error s g n ty -> nth_error calls g = Some (n, ty) /\ exists g' ty', add_ok s g' n ty' /\ ty' <> ty).
Proof.
  intros H. pose proof (AI_run _ _ _ _ (AI_init calls) H) as I.
  assert (Hc : forall g n ty pc, nth_error (ar_gs s) g = Some (n, ty, pc) -> nth_error calls g = Some (n, ty)).
  { intros g n ty pc E. rewrite <- (ai_calls _ _ I), nth_error_map, E. reflexivity. }
  split; [|split; [apply (ai_names _ _ I)|split]].
  - intros n. split.
    + intros (ty & E). destruct (ai_names _ _ I _ _ E) as (g & Hg). eauto.
    + intros (g & ty & E). apply (ai_stored _ _ I _ _ _ E).
  - intros g n ty E. apply (Hc _ _ _ _ E).
  - intros g n ty E. split; [apply (Hc _ _ _ _ E)|]. apply (ai_failed _ _ I _ _ _ E).
Qed.

(** A call that begins after others have returned: it gets the error if calls of the name
    were successful, all with other types; it does not, and goes on to be successful
    whatever the others do meanwhile, if all successful ones had its type. *)
Theorem C24_add_after calls sched s g s' n ty : arun (adders calls) sched = Some s ->
  not_begun s g n ty -> ado s g = Some s' ->
  ((exists g' ty', add_ok s g' n ty') -> (forall g' ty', add_ok s g' n ty' -> ty' <> ty) -> add_error s' g n ty) /\
  ((forall g' ty', add_ok s g' n ty' -> ty' = ty) ->
     ~ add_error s' g n ty /\ forall s1 s2, nth_error (ar_gs s1) g = nth_error (ar_gs s') g -> ado s1 g = Some s2 -> add_ok s2 g n ty).
Proof.
  intros H Hn Hd. pose proof (AI_run _ _ _ _ (AI_init calls) H) as I. unfold not_begun in Hn. unfold ado in Hd. rewrite Hn in Hd.
  injection Hd as <-. unfold add_error. cbn [ar_gs].
  assert (Hg : forall y, nth_error (upd (ar_gs s) g (fun _ => y)) g = Some y).
  { intros y. rewrite nth_error_upd, Nat.eqb_refl, Hn. reflexivity. }
  rewrite Hg. split.
  - intros (g' & ty' & Ho) Hall. destruct (ai_stored _ _ I _ _ _ Ho) as (t & Et). rewrite Et.
    destruct (ai_names _ _ I _ _ Et) as (g2 & Hg2). destruct (bmtype_eqb_spec t ty) as [E|E]; [exfalso; exact (Hall _ _ Hg2 E)|]. reflexivity.
  - intros Hall. destruct (mget bytes_eqb (ar_names s) n) as [t|] eqn:Et.
    + destruct (ai_names _ _ I _ _ Et) as (g2 & Hg2). rewrite (Hall _ _ Hg2). destruct (bmtype_eqb_spec ty ty) as [_|E]; [|congruence].
      cbn [negb]. split; [discriminate|]. intros s1 s2 E1 E2. unfold ado in E2. rewrite E1 in E2. injection E2 as <-.
      unfold add_ok. cbn [ar_gs]. rewrite nth_error_upd, Nat.eqb_refl, E1. reflexivity.
    + split; [discriminate|]. intros s1 s2 E1 E2. unfold ado in E2. rewrite E1 in E2. injection E2 as <-.
      unfold add_ok. cbn [ar_gs]. rewrite nth_error_upd, Nat.eqb_refl, E1. reflexivity.
Qed.

(** Three calls for m: an int64 gauge; then, when it is done, a float64 one and another int64 one
    at the same time. *)
Example C24_concurrent_example :
  let m := bs "m" in
  exists s, arun (adders [(m, GaugeInt64); (m, GaugeFloat64); (m, GaugeInt64)]) [0; 0; 1; 2; 2] = Some s /\
    add_ok s 0 m GaugeInt64 /\ add_error s 1 m GaugeFloat64 /\ add_ok s 2 m GaugeInt64.
Proof. eexists. split; [vm_compute; reflexivity|]. repeat split. Qed.

Print Assumptions C24_concurrent_add.
Print Assumptions C24_add_after.
