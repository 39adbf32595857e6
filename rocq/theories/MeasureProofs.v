(** Proofs about the registry of measures. *)

From Coq Require Import List Arith Bool Lia ZifyBool ZifyNat.
From Verif Require Import Base GoMap TagModel AggModel AggProofs MeasureModel MeasureSpec.
Import ListNotations.
Open Scope nat_scope.

Notation thr s i := (nth_error (ms_threads s) i).

Lemma set_pc_nth s i pc j : nth_error (set_pc s i pc) j = if i =? j then option_map (fun t => (fst t, pc)) (thr s j) else thr s j.
Proof. unfold set_pc. apply nth_error_upd. Qed.
Lemma set_pc_length s i pc : length (set_pc s i pc) = length (ms_threads s).
Proof. apply upd_length. Qed.

(** The calls that have gone through the lock. *)
Definition section_of (s : mstate) (a : mact) : list nat :=
  match a with AStep i => match thr s i with Some (_, McLocked) => [i] | _ => [] end | _ => [] end.
Fixpoint sections (s : mstate) (acts : list mact) : list nat :=
  match acts with
  | [] => []
  | a :: r => match mstep s a with MNext s' => section_of s a ++ sections s' r | _ => [] end
  end.

Lemma mrun_app acts1 : forall acts2 s, mrun s (acts1 ++ acts2) = match mrun s acts1 with Some s1 => mrun s1 acts2 | None => None end.
Proof. induction acts1 as [|a r IH]; intros acts2 s; [reflexivity|]. cbn [app mrun]. destruct (mstep s a); [apply IH|reflexivity|reflexivity]. Qed.
Lemma sections_app acts1 : forall acts2 s s1, mrun s acts1 = Some s1 -> sections s (acts1 ++ acts2) = sections s acts1 ++ sections s1 acts2.
Proof.
  induction acts1 as [|a r IH]; intros acts2 s s1 H; cbn [app mrun sections] in *; [now injection H as ->|].
  destruct (mstep s a); [|discriminate|discriminate]. rewrite <- app_assoc. f_equal. now apply IH.
Qed.

Definition holds (pc : mpc) : Prop := match pc with McLocked | McUnlock _ => True | _ => False end.
Definition past (pc : mpc) : Prop := match pc with McUnlock _ | McDone _ => True | _ => False end.

(** A call is where such a call can be. *)
Definition pc_ok (s : mstate) (c : mcall) (pc : mpc) : Prop :=
  match c with
  | MCreate n _ _ =>
      match pc with
      | McStart | McLocked => True
      | McUnlock r | McDone r => exists p, r = RMeasure p /\ mget bytes_eqb (ms_map s) n = Some p
      | McLoad _ => False
      end
  | MSubscribe n =>
      match pc with
      | McStart | McLocked => True
      | McUnlock r | McDone r => r = RSubscribed
      | McLoad _ => False
      end
  | MRecord ms =>
      match pc with
      | McLoad ps => exists pre, resolve s ms = Some (pre ++ ps)
      | McDone (RSent true) => exists k p d, In (Some k) ms /\ returned_ptr s k = Some p /\ nth_error (ms_heap s) p = Some d /\ dd_subs d = true
      | McDone (RSent false) => True
      | _ => False
      end
  end.

Definition about (c : mcall) (n : bytes) : Prop := c = MSubscribe n \/ exists d u, c = MCreate n d u.

Record minv (lin : list nat) (s : mstate) : Prop := {
  mi_lock : forall i, ms_lock s = Some i <-> exists c pc, thr s i = Some (c, pc) /\ holds pc;
  mi_nodup : NoDup lin;
  mi_lin : forall i, In i lin <-> exists c pc, thr s i = Some (c, pc) /\ past pc /\ forall ms, c <> MRecord ms;
  mi_wf : mwf (ms_map s);
  mi_map : forall n p, mget bytes_eqb (ms_map s) n = Some p <-> exists d, nth_error (ms_heap s) p = Some d /\ dd_name d = n;
  mi_first : forall p d, nth_error (ms_heap s) p = Some d -> first_creation s lin (dd_name d) (dd_desc d) (dd_unit d);
  mi_none : forall i n c, In i lin -> called s i c -> about c n -> mget bytes_eqb (ms_map s) n <> None;
  mi_subs : forall p d, nth_error (ms_heap s) p = Some d -> (dd_subs d = true <-> exists i, In i lin /\ called s i (MSubscribe (dd_name d)));
  mi_pc : forall i c pc, thr s i = Some (c, pc) -> pc_ok s c pc }.

Lemma called_set s s' i pc j c : ms_threads s' = set_pc s i pc -> (called s' j c <-> called s j c).
Proof.
  intros E. unfold called. rewrite E. setoid_rewrite set_pc_nth. destruct (i =? j); [|reflexivity].
  destruct (thr s j) as [[c' pc']|]; cbn [option_map fst]; split; intros (q & H); try discriminate; injection H as -> ->; eauto.
Qed.

Lemma called_back s lk h m i pc j c : called (MkMS lk h m (set_pc s i pc)) j c -> called s j c.
Proof. now apply (called_set s (MkMS lk h m (set_pc s i pc)) i pc). Qed.

(** What grows: the heap of descriptors, up to the flags; the returned calls. *)
Definition grows (s s' : mstate) : Prop :=
  (forall p d, nth_error (ms_heap s) p = Some d -> exists d', nth_error (ms_heap s') p = Some d' /\
     dd_name d' = dd_name d /\ dd_desc d' = dd_desc d /\ dd_unit d' = dd_unit d /\ (dd_subs d = true -> dd_subs d' = true)) /\
  (forall n p, mget bytes_eqb (ms_map s) n = Some p -> mget bytes_eqb (ms_map s') n = Some p) /\
  (forall i c r, returned s i c r -> returned s' i c r) /\
  (forall i c, called s i c -> called s' i c) /\
  length (ms_threads s) <= length (ms_threads s').

Lemma grows_refl s : grows s s.
Proof. repeat split; eauto 10. Qed.
Lemma grows_trans a b c : grows a b -> grows b c -> grows a c.
Proof.
  intros (H1 & H2 & H3 & H4 & H5) (K1 & K2 & K3 & K4 & K5). repeat split; eauto; try lia.
  intros p d Hd. destruct (H1 p d Hd) as (d' & E & A & B & C & D). destruct (K1 p d' E) as (d2 & E2 & A2 & B2 & C2 & D2).
  exists d2. split; [exact E2|]. repeat split; try congruence. auto.
Qed.

Lemma grows_step s a s' : mstep s a = MNext s' -> grows s s'.
Proof.
  intros H.
  assert (Hset : forall i pc t, thr s i = Some t -> (forall r, snd t <> McDone r) -> ms_threads s' = set_pc s i pc ->
            (forall j c r, returned s j c r -> returned s' j c r) /\ (forall j c, called s j c -> called s' j c) /\ length (ms_threads s) <= length (ms_threads s')).
  { intros i pc t Ht Hp E. split; [|split].
    - intros j c r Hr. unfold returned in *. rewrite E, set_pc_nth. destruct (Nat.eqb_spec i j) as [<-|]; [|exact Hr]. rewrite Ht in Hr. injection Hr as ->. now contradiction (Hp r).
    - intros j c Hc. now apply (called_set _ _ _ _ _ _ E).
    - rewrite E, set_pc_length. lia. }
  assert (Happ : forall t, ms_threads s' = ms_threads s ++ [t] ->
            (forall j c r, returned s j c r -> returned s' j c r) /\ (forall j c, called s j c -> called s' j c) /\ length (ms_threads s) <= length (ms_threads s')).
  { intros t E. unfold returned, called. rewrite E. split; [|split].
    - intros j c r Hr. rewrite nth_error_app1; [exact Hr|]. apply nth_error_Some. congruence.
    - intros j c (pc & Hc). exists pc. rewrite nth_error_app1; [exact Hc|]. apply nth_error_Some. congruence.
    - rewrite app_length. lia. }
  assert (Hheap : ms_heap s' = ms_heap s -> forall p d, nth_error (ms_heap s) p = Some d -> exists d', nth_error (ms_heap s') p = Some d' /\
     dd_name d' = dd_name d /\ dd_desc d' = dd_desc d /\ dd_unit d' = dd_unit d /\ (dd_subs d = true -> dd_subs d' = true)).
  { intros -> p d Hd. eauto 10. }
  unfold grows. destruct a as [[n d u|n|ms]|i]; cbn [mstep] in H.
  - injection H as <-. split; [now apply Hheap|]. split; [auto|]. eapply Happ. reflexivity.
  - injection H as <-. split; [now apply Hheap|]. split; [auto|]. eapply Happ. reflexivity.
  - destruct (resolve s ms); [|discriminate]. injection H as <-. split; [now apply Hheap|]. split; [auto|]. eapply Happ. reflexivity.
  - destruct (thr s i) as [[c pc]|] eqn:Et; [|discriminate H]. destruct pc as [| |r|ps|r].
    + destruct (ms_lock s); [destruct c; discriminate H|]. assert (E : s' = MkMS (Some i) (ms_heap s) (ms_map s) (set_pc s i McLocked)) by (destruct c; congruence). clear H. subst s'.
      split; [now apply Hheap|]. split; [auto|]. eapply Hset; [exact Et|intros ?; cbn; discriminate|reflexivity].
    + destruct c as [n d u|n|ms]; [| |discriminate H].
      * unfold register_measure in H. destruct (mget bytes_eqb (ms_map s) n) as [p|] eqn:Em; injection H as <-; cbn [ms_heap ms_map] in *.
        -- split; [now apply Hheap|]. split; [auto|]. eapply Hset; [exact Et|intros ?; cbn; discriminate|reflexivity].
        -- split; [|split; [|eapply Hset; [exact Et|intros ?; cbn; discriminate|reflexivity]]].
           ++ intros p d0 Hd. exists d0. rewrite nth_error_app1; [auto|]. apply nth_error_Some. congruence.
           ++ intros n' p Hp. rewrite (mget_mset _ bytes_eqb_spec). destruct (bytes_eqb_spec n n') as [->|]; [congruence|exact Hp].
      * destruct (mget bytes_eqb (ms_map s) n) as [p|] eqn:Em; [|discriminate]. injection H as <-. cbn [ms_heap ms_map].
        split; [|split; [auto|eapply Hset; [exact Et|intros ?; cbn; discriminate|reflexivity]]].
        intros q d Hd. unfold subscribe_measure. rewrite nth_error_upd, Hd. cbn [option_map].
        destruct (p =? q); eexists; (split; [reflexivity|]); cbn; auto 10.
    + assert (E : s' = MkMS None (ms_heap s) (ms_map s) (set_pc s i (McDone r))) by (destruct c; congruence). clear H. subst s'.
      split; [now apply Hheap|]. split; [auto|]. eapply Hset; [exact Et|intros ?; cbn; discriminate|reflexivity].
    + assert (E : exists pc, s' = MkMS (ms_lock s) (ms_heap s) (ms_map s) (set_pc s i pc)).
      { destruct ps as [|[p|] ps]; [|destruct (nth_error (ms_heap s) p) as [d|]; [|destruct c; discriminate]|destruct c; discriminate]; destruct c; injection H as <-; eauto. }
      destruct E as (pc & ->). split; [now apply Hheap|]. split; [auto|]. eapply Hset; [exact Et|intros ?; cbn; discriminate|reflexivity].
    + destruct c; discriminate.
Qed.

Lemma grows_run acts : forall s s', mrun s acts = Some s' -> grows s s'.
Proof.
  induction acts as [|a r IH]; intros s s' H; cbn [mrun] in H; [injection H as ->; apply grows_refl|].
  destruct (mstep s a) as [s1| |] eqn:E; [|discriminate|discriminate]. eapply grows_trans; [eapply grows_step; exact E|apply IH, H].
Qed.

(** Measurements keep what they point to. *)
Lemma returned_ptr_grows s s' k p : grows s s' -> returned_ptr s k = Some p -> returned_ptr s' k = Some p.
Proof.
  intros (_ & _ & G & _) H. unfold returned_ptr in *. destruct (thr s k) as [[c pc]|] eqn:E; [|discriminate].
  destruct pc as [| | | |r]; try discriminate. destruct r; try discriminate. injection H as ->. now rewrite (G k c (RMeasure p) E).
Qed.
Lemma resolve_grows s s' ms : forall ps, grows s s' -> resolve s ms = Some ps -> resolve s' ms = Some ps.
Proof.
  induction ms as [|[k|] r IH]; intros ps G H; cbn [resolve] in *; [exact H| |].
  - destruct (returned_ptr s k) as [p|] eqn:E; [|discriminate]. rewrite (returned_ptr_grows _ _ _ _ G E).
    destruct (resolve s r) as [qs|]; [|discriminate]. now rewrite (IH qs G eq_refl).
  - destruct (resolve s r) as [qs|]; [|discriminate]. now rewrite (IH qs G eq_refl).
Qed.
Lemma pc_ok_grows s s' c pc : grows s s' -> pc_ok s c pc -> pc_ok s' c pc.
Proof.
  intros G H. destruct c as [n d u|n|ms]; cbn [pc_ok] in *.
  - destruct pc; auto; destruct H as (p & -> & Hm); exists p; split; auto; now apply G.
  - exact H.
  - destruct pc as [| | |ps|r]; auto.
    + destruct H as (pre & H). exists pre. eapply resolve_grows; eauto.
    + destruct r as [| |[]]; auto. destruct H as (k & p & d & A & B & C & D). destruct (proj1 G p d C) as (d' & C' & _ & _ & _ & D').
      exists k, p, d'. split; [exact A|]. split; [eapply returned_ptr_grows; eauto|]. auto.
Qed.

Lemma resolve_in s ms : forall ps o, resolve s ms = Some ps -> In o ps ->
  match o with Some p => exists k, In (Some k) ms /\ returned_ptr s k = Some p | None => In None ms end.
Proof.
  induction ms as [|[k|] r IH]; intros ps o H Hin; cbn [resolve] in H.
  - injection H as <-. destruct Hin.
  - destruct (returned_ptr s k) as [p|] eqn:E; [|discriminate]. destruct (resolve s r) as [qs|]; [|discriminate]. injection H as <-. destruct Hin as [<-|Hin].
    + exists k. split; [now left|exact E].
    + specialize (IH qs o eq_refl Hin). destruct o; [destruct IH as (k' & A & B); exists k'; split; [now right|exact B]|now right].
  - destruct (resolve s r) as [qs|]; [|discriminate]. injection H as <-. destruct Hin as [<-|Hin]; [now left|].
    specialize (IH qs o eq_refl Hin). destruct o; [destruct IH as (k' & A & B); exists k'; split; [now right|exact B]|now right].
Qed.
Lemma resolve_has s ms : forall ps k, resolve s ms = Some ps -> In (Some k) ms -> exists p, returned_ptr s k = Some p /\ In (Some p) ps.
Proof.
  induction ms as [|[k'|] r IH]; intros ps k H Hin; cbn [resolve] in H; [destruct Hin| |].
  - destruct (returned_ptr s k') as [p|] eqn:E; [|discriminate]. destruct (resolve s r) as [qs|]; [|discriminate]. injection H as <-. destruct Hin as [Hin|Hin].
    + injection Hin as ->. exists p. split; [exact E|now left].
    + destruct (IH qs k eq_refl Hin) as (p' & A & B). exists p'. split; [exact A|now right].
  - destruct (resolve s r) as [qs|]; [|discriminate]. injection H as <-. destruct Hin as [Hin|Hin]; [discriminate|].
    destruct (IH qs k eq_refl Hin) as (p' & A & B). exists p'. split; [exact A|now right].
Qed.

Lemma minv_init : minv [] minit.
Proof.
  constructor; cbn.
  - intros i. split; [discriminate|]. intros (c & pc & H & _). destruct i; discriminate.
  - constructor.
  - intros i. split; [intros []|]. intros (c & pc & H & _). destruct i; discriminate.
  - apply mwf_nil.
  - intros n p. split; [discriminate|]. intros (d & H & _). destruct p; discriminate.
  - intros p d H. destruct p; discriminate.
  - intros i n c [].
  - intros p d H. destruct p; discriminate.
  - intros i c pc H. destruct i; discriminate.
Qed.

(** A creation that comes later changes nothing about the first. *)
Lemma first_snoc s s' lin x n d u : (forall i c, called s i c -> called s' i c) -> (forall i c, i < length (ms_threads s) -> called s' i c -> called s i c) ->
  (forall i, In i lin -> i < length (ms_threads s)) -> first_creation s lin n d u -> first_creation s' (lin ++ x) n d u.
Proof.
  intros H1 H2 H3 (a & i & b & E & Hc & Hn). exists a, i, (b ++ x). split; [rewrite E, <- app_assoc; reflexivity|]. split; [auto|].
  intros k d' u' Hk Hc'. apply (Hn k d' u' Hk). apply H2; [|exact Hc']. apply H3. rewrite E. apply in_or_app. now left.
Qed.

Lemma called_app s s' t : ms_threads s' = ms_threads s ++ [t] -> forall i c, i < length (ms_threads s) -> (called s' i c <-> called s i c).
Proof. intros E i c Hi. unfold called. rewrite E, nth_error_app1 by exact Hi. reflexivity. Qed.

(** The steps that touch neither the registry nor the lock, or the lock only. *)
Lemma minv_call lin s c pc s' : minv lin s ->
  s' = MkMS (ms_lock s) (ms_heap s) (ms_map s) (ms_threads s ++ [(c, pc)]) -> pc_ok s c pc -> ~ holds pc -> ~ past pc -> minv lin s'.
Proof.
  intros I -> Hok Hh Hp. set (s' := MkMS _ _ _ _).
  assert (G : grows s s').
  { split; [intros p d Hd; eauto 10|]. split; [auto|]. split; [|split].
    - intros j c0 r Hr. unfold returned, s' in *. cbn [ms_threads]. rewrite nth_error_app1; [exact Hr|]. apply nth_error_Some. congruence.
    - intros j c0 (q & Hc). exists q. unfold s'. cbn [ms_threads]. rewrite nth_error_app1; [exact Hc|]. apply nth_error_Some. congruence.
    - unfold s'. cbn [ms_threads]. rewrite app_length. lia. }
  assert (Hlt : forall i, In i lin -> i < length (ms_threads s)).
  { intros i Hi. apply (mi_lin _ _ I) in Hi. destruct Hi as (c0 & q & E & _). apply nth_error_Some. congruence. }
  pose proof (called_app s s' _ eq_refl) as Hcall.
  assert (Hnew : forall i c0 q, thr s' i = Some (c0, q) -> thr s i = Some (c0, q) \/ (i = length (ms_threads s) /\ c0 = c /\ q = pc)).
  { intros i c0 q E. unfold s' in E. cbn [ms_threads] in E. destruct (Nat.lt_ge_cases i (length (ms_threads s))) as [Hi|Hi].
    - rewrite nth_error_app1 in E by exact Hi. now left.
    - rewrite nth_error_app2 in E by exact Hi. destruct (i - length (ms_threads s)) as [|k] eqn:Ek; cbn in E; [|destruct k; discriminate].
      injection E as <- <-. right. split; [lia|auto]. }
  assert (Hold : forall i c0 q, thr s i = Some (c0, q) -> thr s' i = Some (c0, q)).
  { intros i c0 q E. unfold s'. cbn [ms_threads]. rewrite nth_error_app1; [exact E|]. apply nth_error_Some. congruence. }
  constructor.
  - intros i. change (ms_lock s') with (ms_lock s). rewrite (mi_lock _ _ I i). split; intros (c0 & q & E & Hq).
    + eauto.
    + destruct (Hnew _ _ _ E) as [E'|(_ & _ & ->)]; [eauto|contradiction].
  - apply I.
  - intros i. rewrite (mi_lin _ _ I i). split; intros (c0 & q & E & Hq).
    + eauto.
    + destruct (Hnew _ _ _ E) as [E'|(_ & _ & ->)]; [eauto|]. destruct Hq. contradiction.
  - apply I.
  - apply I.
  - intros p d Hd. apply (mi_first _ _ I) in Hd. rewrite <- (app_nil_r lin). eapply first_snoc; [| |exact Hlt|exact Hd]; [apply G|]. intros i c0 Hi. apply Hcall, Hi.
  - intros i n c0 Hi Hc. apply (mi_none _ _ I i n c0 Hi). apply Hcall; auto.
  - intros p d Hd. change (ms_heap s') with (ms_heap s) in Hd. rewrite (mi_subs _ _ I p d Hd). split; intros (i & Hi & Hc); exists i; (split; [exact Hi|]); apply Hcall; auto.
  - intros i c0 q E. apply (pc_ok_grows s s' _ _ G). destruct (Hnew _ _ _ E) as [E'|(_ & -> & ->)]; [now apply (mi_pc _ _ I i)|exact Hok].
Qed.

Lemma minv_move lin s i c pc pc' lk s' : minv lin s -> thr s i = Some (c, pc) -> grows s s' ->
  s' = MkMS lk (ms_heap s) (ms_map s) (set_pc s i pc') ->
  (forall j, lk = Some j <-> (j = i /\ holds pc') \/ (j <> i /\ ms_lock s = Some j)) ->
  (past pc' <-> past pc) \/ (exists ms, c = MRecord ms) -> pc_ok s c pc' -> minv lin s'.
Proof.
  intros I Ht G -> Hlk Hpast Hok. set (s' := MkMS _ _ _ _).
  pose proof (fun j c0 => called_set s s' i pc' j c0 eq_refl) as Hcall.
  assert (Hth : forall j c0 q, thr s' j = Some (c0, q) <-> (j = i /\ c0 = c /\ q = pc') \/ (j <> i /\ thr s j = Some (c0, q))).
  { intros j c0 q. unfold s'. cbn [ms_threads]. rewrite set_pc_nth. destruct (Nat.eqb_spec i j) as [<-|Hne].
    - rewrite Ht. cbn [option_map fst]. split; [intros E; injection E as <- <-; auto|]. intros [(_ & -> & ->)|(? & _)]; [reflexivity|congruence].
    - split; [intros E; right; split; [congruence|exact E]|]. intros [(-> & _)|(_ & E)]; [congruence|exact E]. }
  constructor.
  - intros j. change (ms_lock s') with lk. rewrite Hlk. split.
    + intros [(-> & Hh)|(Hne & Hl)].
      * exists c, pc'. split; [apply Hth; auto|exact Hh].
      * apply (mi_lock _ _ I) in Hl. destruct Hl as (c0 & q & E & Hh). exists c0, q. split; [apply Hth; auto|exact Hh].
    + intros (c0 & q & E & Hh). apply Hth in E. destruct E as [(-> & -> & ->)|(Hne & E)]; [auto|]. right. split; [exact Hne|]. apply (mi_lock _ _ I). eauto.
  - apply I.
  - intros j. rewrite (mi_lin _ _ I j). split; intros (c0 & q & E & Hp & Hr).
    + destruct (Nat.eq_dec j i) as [->|Hne].
      * rewrite Ht in E. injection E as <- <-. exists c, pc'. split; [apply Hth; auto|]. split; [|exact Hr]. destruct Hpast as [Hpast|(ms & ->)]; [now apply Hpast|now contradiction (Hr ms)].
      * exists c0, q. split; [apply Hth; auto|auto].
    + apply Hth in E. destruct E as [(-> & -> & ->)|(Hne & E)]; [|eauto]. exists c, pc. split; [exact Ht|]. split; [|exact Hr].
      destruct Hpast as [Hpast|(ms & ->)]; [now apply Hpast|now contradiction (Hr ms)].
  - apply I.
  - apply I.
  - intros p d Hd. apply (mi_first _ _ I) in Hd. destruct Hd as (a & k & b & E & Hc & Hn). exists a, k, b. split; [exact E|]. split; [now apply Hcall|].
    intros k' d' u' Hk Hc'. apply (Hn k' d' u' Hk). now apply Hcall.
  - intros j n c0 Hj Hc. apply (mi_none _ _ I j n c0 Hj). now apply Hcall.
  - intros p d Hd. change (ms_heap s') with (ms_heap s) in Hd. rewrite (mi_subs _ _ I p d Hd). split; intros (j & Hj & Hc); exists j; (split; [exact Hj|]); now apply Hcall.
  - intros j c0 q E. apply (pc_ok_grows s s' _ _ G). apply Hth in E. destruct E as [(-> & -> & ->)|(Hne & E)]; [exact Hok|now apply (mi_pc _ _ I j)].
Qed.

Lemma minv_section lin s i c r heap m s' : minv lin s -> thr s i = Some (c, McLocked) -> grows s s' ->
  s' = MkMS (ms_lock s) heap m (set_pc s i (McUnlock r)) -> (forall ms, c <> MRecord ms) -> pc_ok s' c (McUnlock r) ->
  mwf m -> (forall n p, mget bytes_eqb m n = Some p <-> exists d, nth_error heap p = Some d /\ dd_name d = n) ->
  (forall p d, nth_error heap p = Some d -> first_creation s' (lin ++ [i]) (dd_name d) (dd_desc d) (dd_unit d)) ->
  (forall n, about c n -> mget bytes_eqb m n <> None) ->
  (forall p d, nth_error heap p = Some d -> (dd_subs d = true <-> (exists j, In j lin /\ called s j (MSubscribe (dd_name d))) \/ c = MSubscribe (dd_name d))) ->
  minv (lin ++ [i]) s'.
Proof.
  intros I Ht G -> Hr Hok Hwf Hmap Hfirst Hnone Hsubs. set (s' := MkMS _ _ _ _) in *.
  pose proof (fun j c0 => called_set s s' i (McUnlock r) j c0 eq_refl) as Hcall.
  assert (Hth : forall j c0 q, thr s' j = Some (c0, q) <-> (j = i /\ c0 = c /\ q = McUnlock r) \/ (j <> i /\ thr s j = Some (c0, q))).
  { intros j c0 q. unfold s'. cbn [ms_threads]. rewrite set_pc_nth. destruct (Nat.eqb_spec i j) as [<-|Hne].
    - rewrite Ht. cbn [option_map fst]. split; [intros E; injection E as <- <-; auto|]. intros [(_ & -> & ->)|(? & _)]; [reflexivity|congruence].
    - split; [intros E; right; split; [congruence|exact E]|]. intros [(-> & _)|(_ & E)]; [congruence|exact E]. }
  assert (Hci : forall c0, called s i c0 -> c0 = c) by (intros c0 (q & E); congruence).
  assert (Hni : ~ In i lin).
  { intros Hi. apply (mi_lin _ _ I) in Hi. destruct Hi as (c0 & q & E & Hp & _). rewrite Ht in E. injection E as <- <-. exact Hp. }
  constructor.
  - intros j. change (ms_lock s') with (ms_lock s). rewrite (mi_lock _ _ I j). split; intros (c0 & q & E & Hh).
    + destruct (Nat.eq_dec j i) as [->|Hne].
      * exists c, (McUnlock r). split; [apply Hth; auto|exact Logic.I].
      * exists c0, q. split; [apply Hth; auto|exact Hh].
    + apply Hth in E. destruct E as [(-> & -> & ->)|(Hne & E)]; [exists c, McLocked; split; [exact Ht|exact Logic.I]|eauto].
  - apply NoDup_snoc; [apply I|exact Hni].
  - intros j. rewrite in_app_iff, (mi_lin _ _ I j). cbn [In]. split.
    + intros [(c0 & q & E & Hp & Hc)|[<-|[]]].
      * destruct (Nat.eq_dec j i) as [->|Hne]; [rewrite Ht in E; injection E as <- <-; destruct Hp|]. exists c0, q. split; [apply Hth; auto|auto].
      * exists c, (McUnlock r). split; [apply Hth; auto|]. split; [exact Logic.I|exact Hr].
    + intros (c0 & q & E & Hp & Hc). apply Hth in E. destruct E as [(-> & -> & ->)|(Hne & E)]; [auto|]. left. eauto.
  - exact Hwf.
  - exact Hmap.
  - exact Hfirst.
  - intros j n c0 Hj Hc Ha. apply Hcall in Hc. apply in_app_or in Hj. destruct Hj as [Hj|[<-|[]]].
    + pose proof (mi_none _ _ I j n c0 Hj Hc Ha) as Hn. destruct (mget bytes_eqb (ms_map s) n) as [p|] eqn:E; [|congruence].
      apply G in E. change (mget bytes_eqb m n = Some p) in E. intros E0. change (mget bytes_eqb m n = None) in E0. rewrite E in E0. discriminate.
    + apply Hci in Hc. subst c0. exact (Hnone n Ha).
  - intros p d Hd. rewrite (Hsubs p d Hd). split.
    + intros [(j & Hj & Hc)|Hc].
      * exists j. split; [apply in_or_app; auto|now apply Hcall].
      * exists i. split; [apply in_or_app; right; now left|]. apply Hcall. exists McLocked. now rewrite <- Hc.
    + intros (j & Hj & Hc). apply Hcall in Hc. apply in_app_or in Hj. destruct Hj as [Hj|[<-|[]]]; [left; eauto|]. right. now rewrite (Hci _ Hc).
  - intros j c0 q E. apply Hth in E. destruct E as [(-> & -> & ->)|(Hne & E)]; [exact Hok|]. apply (pc_ok_grows s s' _ _ G). now apply (mi_pc _ _ I j).
Qed.

Lemma minv_step lin s a s' : minv lin s -> mstep s a = MNext s' -> minv (lin ++ section_of s a) s'.
Proof.
  intros I H. pose proof (grows_step _ _ _ H) as G. destruct a as [c|i]; cbn [section_of].
  - rewrite app_nil_r. destruct c as [n d u|n|ms]; cbn [mstep] in H.
    + injection H as <-. eapply minv_call; [exact I|reflexivity| | |]; cbn; auto.
    + injection H as <-. eapply minv_call; [exact I|reflexivity| | |]; cbn; auto.
    + destruct (resolve s ms) as [ps|] eqn:E; [|discriminate]. injection H as <-. eapply minv_call; [exact I|reflexivity| | |]; cbn; auto. exists []. exact E.
  - cbn [mstep] in H. destruct (thr s i) as [[c pc]|] eqn:Et; [|discriminate H]. pose proof (mi_pc _ _ I i c pc Et) as Hpc. destruct pc as [| |r|ps|r].
    + rewrite app_nil_r. destruct (ms_lock s) as [j|] eqn:El; [destruct c; discriminate H|].
      assert (E : s' = MkMS (Some i) (ms_heap s) (ms_map s) (set_pc s i McLocked)) by (destruct c; congruence). clear H.
      eapply minv_move; [exact I|exact Et|exact G|exact E| | |].
      * intros j. rewrite El. split; [intros X; injection X as <-; left; split; [reflexivity|exact Logic.I]|]. intros [(-> & _)|(_ & X)]; [reflexivity|discriminate].
      * left. cbn. tauto.
      * destruct c; cbn in *; auto.
    + destruct c as [n d u|n|ms]; [| |discriminate H].
      * unfold register_measure in H. destruct (mget bytes_eqb (ms_map s) n) as [p|] eqn:Em.
        -- injection H as <-.
           eapply minv_section; [exact I|exact Et|exact G|reflexivity|discriminate| |apply I|apply I| | |].
           ++ cbn [pc_ok ms_map]. eauto.
           ++ intros q d0 Hd. apply (mi_first _ _ I) in Hd. eapply first_snoc; [apply G| | |exact Hd].
              ** intros j c0 _ Hc. now apply called_back in Hc.
              ** intros j Hj. apply (mi_lin _ _ I) in Hj. destruct Hj as (c0 & q0 & E & _). apply nth_error_Some. congruence.
           ++ intros n' [E|(d' & u' & E)]; [discriminate|]. injection E as <- <- <-. congruence.
           ++ intros q d0 Hd. rewrite (mi_subs _ _ I q d0 Hd). split; [auto|]. intros [Hx|Hx]; [exact Hx|discriminate].
        -- injection H as <-. cbn [ms_lock] in *.
           assert (Hno : forall q d0, nth_error (ms_heap s) q = Some d0 -> dd_name d0 <> n).
           { intros q d0 Hd En. assert (X : mget bytes_eqb (ms_map s) n = Some q) by (apply (mi_map _ _ I); eauto). congruence. }
           assert (Hnth : forall q d0, nth_error (ms_heap s ++ [MkMD false n d u]) q = Some d0 -> nth_error (ms_heap s) q = Some d0 \/ (q = length (ms_heap s) /\ d0 = MkMD false n d u)).
           { intros q d0 E. destruct (Nat.lt_ge_cases q (length (ms_heap s))) as [Hq|Hq]; [rewrite nth_error_app1 in E by exact Hq; now left|].
             rewrite nth_error_app2 in E by exact Hq. destruct (q - length (ms_heap s)) as [|k] eqn:Ek; cbn in E; [|destruct k; discriminate]. injection E as <-. right. split; [lia|reflexivity]. }
           assert (Hlast : nth_error (ms_heap s ++ [MkMD false n d u]) (length (ms_heap s)) = Some (MkMD false n d u)) by (rewrite nth_error_app2, Nat.sub_diag by lia; reflexivity).
           assert (Hlt : forall j, In j lin -> j < length (ms_threads s)).
           { intros j Hj. apply (mi_lin _ _ I) in Hj. destruct Hj as (c0 & q0 & E & _). apply nth_error_Some. congruence. }
           eapply minv_section; [exact I|exact Et|exact G|reflexivity|discriminate| | | | | |].
           ++ cbn [pc_ok ms_map]. eexists. split; [reflexivity|]. apply (mget_mset_same _ bytes_eqb_spec).
           ++ apply (mwf_mset _ bytes_eqb_spec). apply I.
           ++ intros n' q. rewrite (mget_mset _ bytes_eqb_spec). destruct (bytes_eqb_spec n n') as [<-|Hne].
              ** split; [intros X; injection X as <-; eauto|]. intros (d0 & Hd & En). destruct (Hnth _ _ Hd) as [Hd'|(-> & _)]; [now contradiction (Hno _ _ Hd')|reflexivity].
              ** rewrite (mi_map _ _ I n' q). split; intros (d0 & Hd & En).
                 --- exists d0. rewrite nth_error_app1; [auto|]. apply nth_error_Some. congruence.
                 --- destruct (Hnth _ _ Hd) as [Hd'|(_ & ->)]; [eauto|]. cbn in En. congruence.
           ++ intros q d0 Hd. destruct (Hnth _ _ Hd) as [Hd'|(_ & ->)].
              ** apply (mi_first _ _ I) in Hd'. eapply first_snoc; [apply G| |exact Hlt|exact Hd'].
                 intros j c0 _ Hc. now apply called_back in Hc.
              ** cbn [dd_name dd_desc dd_unit]. exists lin, i, []. split; [reflexivity|]. split; [apply G; exists McLocked; exact Et|].
                 intros k d' u' Hk Hc. apply called_back in Hc. exact (mi_none _ _ I k n _ Hk Hc (or_intror (ex_intro _ d' (ex_intro _ u' eq_refl))) Em).
           ++ intros n' [E|(d' & u' & E)]; [discriminate|]. injection E as <- <- <-. rewrite (mget_mset_same _ bytes_eqb_spec). discriminate.
           ++ intros q d0 Hd. destruct (Hnth _ _ Hd) as [Hd'|(_ & ->)].
              ** rewrite (mi_subs _ _ I q d0 Hd'). split; [auto|]. intros [Hx|Hx]; [exact Hx|discriminate].
              ** cbn [dd_subs dd_name]. split; [discriminate|]. intros [(j & Hj & Hc)|Hx]; [|discriminate]. exfalso.
                 exact (mi_none _ _ I j n _ Hj Hc (or_introl eq_refl) Em).
      * destruct (mget bytes_eqb (ms_map s) n) as [p|] eqn:Em; [|discriminate H]. injection H as <-.
        destruct (proj1 (mi_map _ _ I n p) Em) as (d1 & Hd1 & En1).
        assert (Hnth : forall q d0, nth_error (subscribe_measure (ms_heap s) p) q = Some d0 ->
           exists d', nth_error (ms_heap s) q = Some d' /\ dd_name d0 = dd_name d' /\ dd_desc d0 = dd_desc d' /\ dd_unit d0 = dd_unit d' /\
             (dd_subs d0 = true <-> dd_subs d' = true \/ q = p)).
        { intros q d0 E. unfold subscribe_measure in E. rewrite nth_error_upd in E. destruct (Nat.eqb_spec p q) as [<-|Hne].
          - rewrite Hd1 in E. cbn [option_map] in E. injection E as <-. exists d1. cbn. repeat split; auto.
          - exists d0. repeat split; auto. intros [X|X]; congruence. }
        eapply minv_section; [exact I|exact Et|exact G|reflexivity|discriminate| |apply I| | | |].
        -- reflexivity.
        -- intros n' q. rewrite (mi_map _ _ I n' q). unfold subscribe_measure. rewrite nth_error_upd. destruct (p =? q); [|reflexivity].
           split; intros (d0 & Hd & En).
           ++ rewrite Hd. cbn. eexists. split; [reflexivity|exact En].
           ++ destruct (nth_error (ms_heap s) q) as [d2|]; [|discriminate]. cbn in Hd. injection Hd as <-. exists d2. split; [reflexivity|exact En].
        -- intros q d0 Hd. destruct (Hnth _ _ Hd) as (d' & Hd' & -> & -> & -> & _). apply (mi_first _ _ I) in Hd'. eapply first_snoc; [apply G| | |exact Hd'].
           ++ intros j c0 _ Hc. now apply called_back in Hc.
           ++ intros j Hj. apply (mi_lin _ _ I) in Hj. destruct Hj as (c0 & q0 & E & _). apply nth_error_Some. congruence.
        -- intros n' [E|(d' & u' & E)]; [|discriminate]. injection E as <-. congruence.
        -- intros q d0 Hd. destruct (Hnth _ _ Hd) as (d' & Hd' & En' & _ & _ & Hs). rewrite Hs, En', (mi_subs _ _ I q d' Hd'). split; (intros [X|X]; [now left|right]).
           ++ subst q. rewrite Hd1 in Hd'. injection Hd' as <-. now rewrite En1.
           ++ injection X as X. assert (Hq : mget bytes_eqb (ms_map s) n = Some q) by (apply (mi_map _ _ I); eauto). congruence.
    + rewrite app_nil_r. assert (E : s' = MkMS None (ms_heap s) (ms_map s) (set_pc s i (McDone r))) by (destruct c; congruence). clear H.
      eapply minv_move; [exact I|exact Et|exact G|exact E| | |].
      * intros j. split; [discriminate|]. intros [(_ & X)|(Hne & X)]; [destruct X|].
        assert (Hi : ms_lock s = Some i) by (apply (mi_lock _ _ I); exists c, (McUnlock r); split; [exact Et|exact Logic.I]). congruence.
      * left. cbn. tauto.
      * destruct c; cbn in *; auto. destruct Hpc.
    + rewrite app_nil_r. destruct c as [n d u|n|ms]; [destruct Hpc|destruct Hpc|]. destruct Hpc as (pre & Hpre). destruct ps as [|[p|] ps]; [| |discriminate H].
      * injection H as E. symmetry in E. eapply minv_move; [exact I|exact Et|exact G|exact E| | |].
        -- intros j. cbn. split; [intros X; right; split; [|exact X]|intros [(_ & [])|(_ & X)]; exact X]. intros ->. apply (mi_lock _ _ I) in X.
           destruct X as (c0 & q & E0 & Hh). rewrite Et in E0. injection E0 as <- <-. exact Hh.
        -- right. eauto.
        -- exact Logic.I.
      * destruct (nth_error (ms_heap s) p) as [d|] eqn:Ed; [|discriminate H]. injection H as E. symmetry in E. eapply minv_move; [exact I|exact Et|exact G|exact E| | |].
        -- intros j. assert (Hnh : ~ holds (if dd_subs d then McDone (RSent true) else McLoad ps)) by (destruct (dd_subs d); intros []).
           split; [intros X; right; split; [|exact X]|intros [(_ & X)|(_ & X)]; [contradiction|exact X]]. intros ->. apply (mi_lock _ _ I) in X.
           destruct X as (c0 & q & E0 & Hh). rewrite Et in E0. injection E0 as <- <-. exact Hh.
        -- right. eauto.
        -- destruct (dd_subs d) eqn:Es; cbn [pc_ok].
           ++ destruct (resolve_in _ _ _ (Some p) Hpre) as (k & Hk & Hp); [apply in_or_app; right; now left|]. exists k, p, d. auto.
           ++ exists (pre ++ [Some p]). now rewrite <- app_assoc.
    + destruct c; discriminate H.
Qed.

Lemma minv_run acts : forall lin s s', minv lin s -> mrun s acts = Some s' -> minv (lin ++ sections s acts) s'.
Proof.
  induction acts as [|a r IH]; intros lin s s' I H; cbn [mrun sections] in *; [injection H as <-; now rewrite app_nil_r|].
  destruct (mstep s a) as [s1| |] eqn:E; [|discriminate|discriminate]. rewrite app_assoc. apply IH; [|exact H]. now apply minv_step.
Qed.

Lemma minv_reach acts s : mrun minit acts = Some s -> minv (sections minit acts) s.
Proof. intros H. exact (minv_run acts [] minit s minv_init H). Qed.
