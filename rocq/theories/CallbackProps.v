(** C81: what an exporter may call while it is called. *)

From Coq Require Import List Arith Bool Lia.
From Verif Require Import Base AggModel AggProofs CallbackModel CallbackSpec.
Import ListNotations.
Open Scope nat_scope.

(** ** Threads *)

Lemma ops_set s t l t' : ops_at (set_ops s t l) t' = if (t =? t') && (t' <? length (m_ths s)) then l else ops_at s t'.
Proof.
  unfold ops_at, set_ops. cbn [m_ths].
  assert (N : forall (x : list (list op)) i, nth i x [] = match nth_error x i with Some y => y | None => [] end).
  { induction x as [|y x IH]; intros [|i]; cbn; auto. }
  rewrite !N, nth_error_upd. destruct (Nat.eqb_spec t t') as [->|].
  - destruct (nth_error (m_ths s) t') eqn:E; cbn [option_map].
    + assert (t' < length (m_ths s)) by (apply nth_error_Some; congruence). destruct (Nat.ltb_spec t' (length (m_ths s))); [reflexivity|lia].
    + apply nth_error_None in E. destruct (Nat.ltb_spec t' (length (m_ths s))); [lia|reflexivity].
  - reflexivity.
Qed.

Lemma ops_lt s t x r : ops_at s t = x :: r -> t < length (m_ths s).
Proof. unfold ops_at. intros H. destruct (Nat.lt_ge_cases t (length (m_ths s))) as [|G]; [assumption|]. rewrite nth_overflow in H by lia. discriminate H. Qed.

(** ** The invariant *)

Definition needs_reply (c : call) : bool := match c with CFind | CRegister _ | CUnregister | CRetrieve | CPeriod => true | _ => false end.
Definition isown (o : option nat) (t : nat) : bool := match o with Some x => x =? t | None => false end.

(** The operations of the worker fit the mutexes it holds: [hm] and [he]. *)
Fixpoint chk (hm he : bool) (l : list op) : bool :=
  match l with
  | [] => negb hm && negb he
  | OLock Mu :: r => if hm then he && match r with OUnlock Mu :: r' => chk hm he r' | _ => false end else chk true he r
  | OLock Emu :: r => if he then match r with OUnlock Emu :: r' => chk hm he r' | _ => false end else chk hm true r
  | OUnlock Mu :: r => hm && chk false he r
  | OUnlock Emu :: r => he && chk hm false r
  | OReply _ :: r => negb he && chk hm he r
  | _ :: r => he && chk hm he r
  end.

(** Where a goroutine is in a call. *)
Inductive gpos : Type := GN | GMu | GEmu | GW.
Fixpoint gchk (k : gpos) (l : list op) : bool :=
  match k, l with
  | GN, [] => true
  | GN, OLock Mu :: r => gchk GMu r
  | GN, OLock Emu :: r => gchk GEmu r
  | GMu, OUnlock Mu :: r => gchk GN r
  | GEmu, OUnlock Emu :: r => gchk GN r
  | GN, OSend c :: r => gchk (if needs_reply c then GW else GN) r
  | GW, OWait :: r => gchk GN r
  | GN, OClose :: r | GN, OWaitDone :: r | GN, ORet _ :: r => gchk GN r
  | _, _ => false
  end.

Definition asked (q : list (nat * call)) (t : nat) : nat := length (filter (fun x => (fst x =? t) && needs_reply (snd x)) q).
Definition replies (l : list op) (t : nat) : nat := length (filter (fun x => match x with OReply t' => t' =? t | _ => false end) l).

Definition gok (s : mst) (t : nat) : Prop :=
  exists k, gchk k (ops_at s t) = true /\ isown (m_mu s) t = (match k with GMu => true | _ => false end) /\
    isown (m_emu s) t = (match k with GEmu => true | _ => false end) /\
    asked (m_q s) t + replies (ops_at s 0) t = (match k with GW => 1 | _ => 0 end).

Definition Inv (s : mst) : Prop :=
  chk (isown (m_mu s) 0) (isown (m_emu s) 0) (ops_at s 0) = true /\
  (forall t, t <> 0 -> gok s t) /\
  (m_done s = true -> ops_at s 0 = []) /\ (m_panic s = true -> m_done s = true).

Lemma chk_call hm c r : chk hm true (ops_of c ++ r) = chk hm true r.
Proof. destruct c; cbn; try reflexivity. destruct hm; reflexivity. Qed.
Lemma chk_calls hm calls r : chk hm true (concat (map ops_of calls) ++ r) = chk hm true r.
Proof. induction calls as [|c l IH]; [reflexivity|]. cbn [map concat]. rewrite <- app_assoc, chk_call. exact IH. Qed.
Lemma chk_exporters hm es r : chk hm true (concat (map (fun calls => concat (map ops_of calls)) es) ++ r) = chk hm true r.
Proof. induction es as [|c l IH]; [reflexivity|]. cbn [map concat]. rewrite <- app_assoc, chk_calls. exact IH. Qed.
Lemma chk_report hm es r : chk hm false (report_ops es ++ r) = chk hm false r.
Proof. unfold report_ops. rewrite <- !app_assoc. cbn [app chk]. rewrite chk_exporters. reflexivity. Qed.
Lemma chk_tick reports : chk false false (tick_ops reports) = true.
Proof.
  unfold tick_ops. cbn [app chk]. induction reports as [|r l IH]; [reflexivity|]. cbn [map concat]. rewrite <- app_assoc, chk_report. exact IH.
Qed.
Lemma chk_handler reports t c : chk false false (handler reports t c) = true.
Proof.
  destruct c; cbn [handler]; try reflexivity.
  - induction n as [|n IH]; [reflexivity|]. cbn [repeat concat]. rewrite <- app_assoc. exact IH.
  - induction reports as [|r l IH]; [reflexivity|]. cbn [map concat]. rewrite <- !app_assoc, chk_report. exact IH.
Qed.

Lemma replies_app a b t : replies (a ++ b) t = replies a t + replies b t.
Proof. unfold replies. now rewrite filter_app, app_length. Qed.
Lemma replies_call c t : replies (ops_of c) t = 0.
Proof. destruct c; reflexivity. Qed.
Lemma replies_report es t : replies (report_ops es) t = 0.
Proof.
  unfold report_ops. rewrite !replies_app. change (replies [OLock Emu] t) with 0. change (replies [OUnlock Emu] t) with 0.
  induction es as [|calls l IH]; [reflexivity|]. cbn [map concat]. rewrite replies_app, <- Nat.add_assoc.
  assert (E : replies (concat (map ops_of calls)) t = 0).
  { induction calls as [|c l' IH']; [reflexivity|]. cbn [map concat]. rewrite replies_app, replies_call. exact IH'. }
  rewrite E. exact IH.
Qed.
Lemma replies_tick reports t : replies (tick_ops reports) t = 0.
Proof.
  unfold tick_ops. rewrite !replies_app. change (replies [OLock Mu] t) with 0. change (replies [OUnlock Mu] t) with 0.
  induction reports as [|r l IH]; [reflexivity|]. cbn [map concat]. rewrite replies_app, replies_report. exact IH.
Qed.
Lemma replies_handler reports t c t' : replies (handler reports t c) t' = if (t =? t') && needs_reply c then 1 else 0.
Proof.
  assert (R : replies [OReply t] t' = if t =? t' then 1 else 0) by (unfold replies; cbn; destruct (t =? t'); reflexivity).
  destruct c; cbn [handler needs_reply]; rewrite ?andb_true_r, ?andb_false_r; try reflexivity; try exact R.
  - rewrite replies_app, R. induction n as [|n IH]; [reflexivity|]. cbn [repeat concat]. rewrite replies_app. exact IH.
  - rewrite replies_app, R. induction reports as [|r l IH]; [reflexivity|]. cbn [map concat]. rewrite !replies_app, replies_report. exact IH.
Qed.
Lemma asked_app a b t : asked (a ++ b) t = asked a t + asked b t.
Proof. unfold asked. now rewrite filter_app, app_length. Qed.
Lemma asked_cons t' c q t : asked ((t', c) :: q) t = (if (t' =? t) && needs_reply c then 1 else 0) + asked q t.
Proof. unfold asked. cbn [filter fst snd]. destruct ((t' =? t) && needs_reply c); reflexivity. Qed.

Lemma gchk_calls p : gchk GN (concat (map ops_of p)) = true.
Proof. induction p as [|c l IH]; [reflexivity|]. destruct c; cbn; exact IH. Qed.

Lemma Inv_init progs : Inv (minit progs).
Proof.
  split; [reflexivity|]. split; [|split; discriminate]. intros t Ht. exists GN. split; [|repeat split; reflexivity].
  destruct t as [|t]; [contradiction|]. unfold ops_at, minit. cbn [m_ths nth].
  rewrite <- (gchk_calls (nth t progs [])). f_equal.
  exact (map_nth (fun p => concat (map ops_of p)) progs [] t).
Qed.

(** Another thread's step leaves a goroutine alone. *)
Lemma gok_frame s s' t : gok s t -> ops_at s' t = ops_at s t -> isown (m_mu s') t = isown (m_mu s) t -> isown (m_emu s') t = isown (m_emu s) t ->
  asked (m_q s') t + replies (ops_at s' 0) t = asked (m_q s) t + replies (ops_at s 0) t -> gok s' t.
Proof. intros (k & A & B & C & D) E1 E2 E3 E4. exists k. rewrite E1, E2, E3, E4. auto. Qed.

Lemma isown_eq o t : isown o t = true -> o = Some t.
Proof. destruct o as [x|]; cbn; [|discriminate]. destruct (Nat.eqb_spec x t); [congruence|discriminate]. Qed.
Lemma isown_some t t' : isown (Some t) t' = (t =? t').
Proof. reflexivity. Qed.

Ltac own := repeat match goal with H : isown _ _ = true |- _ => apply isown_eq in H end.

Lemma Inv_worker cap s s' : Inv s -> mstep cap s (PRun 0) = Some s' -> Inv s'.
Proof.
  intros (A & B & C & D) H. unfold mstep in H. destruct (m_panic s) eqn:Ep; [discriminate H|].
  destruct (ops_at s 0) as [|x r] eqn:E; [discriminate H|]. pose proof (ops_lt _ _ _ _ E) as L.
  assert (Nd : m_done s = false). { destruct (m_done s) eqn:X; [|reflexivity]. specialize (C eq_refl). discriminate C. }
  assert (S0 : forall l, ops_at (set_ops s 0 l) 0 = l). { intros l. rewrite ops_set. cbn [Nat.eqb andb]. destruct (Nat.ltb_spec 0 (length (m_ths s))); [reflexivity|lia]. }
  assert (St : forall l t, t <> 0 -> ops_at (set_ops s 0 l) t = ops_at s t). { intros l t Ht. rewrite ops_set. destruct (Nat.eqb_spec 0 t); [lia|reflexivity]. }
  destruct x as [m|m|c| |t'| | |c]; cbn [chk] in A.
  - (* OLock *)
    destruct (owner s m) eqn:O; [discriminate H|]. injection H as <-. destruct m; cbn [owner] in O; cbn [set_owner].
    + rewrite O in A. cbn [isown] in A. split; [|split; [|split]].
      * cbn [m_mu m_emu]. unfold ops_at at 1. cbn [m_ths]. fold (ops_at (set_ops s 0 r) 0). rewrite S0. exact A.
      * intros t Ht. eapply gok_frame; [exact (B t Ht)|exact (St r t Ht)| | |].
        -- cbn [m_mu]. rewrite O, isown_some. cbn [isown]. destruct (Nat.eqb_spec 0 t); [lia|reflexivity].
        -- reflexivity.
        -- cbn [m_q]. change (ops_at (MkM (m_ths (set_ops s 0 r)) (Some 0) (m_emu (set_ops s 0 r)) (m_q (set_ops s 0 r)) (m_quit (set_ops s 0 r)) (m_done (set_ops s 0 r)) (m_panic (set_ops s 0 r)) (m_log (set_ops s 0 r))) 0)
             with (ops_at (set_ops s 0 r) 0). rewrite S0, E. reflexivity.
      * cbn [m_done]. intros X. change (m_done s = true) in X. congruence.
      * cbn [m_panic]. intros X. change (m_panic s = true) in X. congruence.
    + rewrite O in A. cbn [isown] in A. split; [|split; [|split]].
      * cbn [m_mu m_emu]. unfold ops_at at 1. cbn [m_ths]. fold (ops_at (set_ops s 0 r) 0). rewrite S0. exact A.
      * intros t Ht. eapply gok_frame; [exact (B t Ht)|exact (St r t Ht)|reflexivity| |].
        -- cbn [m_emu]. rewrite O, isown_some. cbn [isown]. destruct (Nat.eqb_spec 0 t); [lia|reflexivity].
        -- match goal with |- _ + replies ?x t = _ => change x with (ops_at (set_ops s 0 r) 0) end. rewrite S0, E. reflexivity.
      * intros X. change (m_done s = true) in X. congruence.
      * intros X. change (m_panic s = true) in X. congruence.
  - (* OUnlock *)
    injection H as <-. destruct m; cbn [set_owner]; apply andb_true_iff in A; destruct A as [O A]; own.
    + split; [|split; [|split]].
      * match goal with |- chk _ _ ?x = _ => change x with (ops_at (set_ops s 0 r) 0) end. rewrite S0. exact A.
      * intros t Ht. eapply gok_frame; [exact (B t Ht)|exact (St r t Ht)| |reflexivity|].
        -- cbn [m_mu]. rewrite O, isown_some. cbn [isown]. destruct (Nat.eqb_spec 0 t); [lia|reflexivity].
        -- match goal with |- _ + replies ?x t = _ => change x with (ops_at (set_ops s 0 r) 0) end. rewrite S0, E. reflexivity.
      * intros X. change (m_done s = true) in X. congruence.
      * intros X. change (m_panic s = true) in X. congruence.
    + split; [|split; [|split]].
      * match goal with |- chk _ _ ?x = _ => change x with (ops_at (set_ops s 0 r) 0) end. rewrite S0. exact A.
      * intros t Ht. eapply gok_frame; [exact (B t Ht)|exact (St r t Ht)|reflexivity| |].
        -- cbn [m_emu]. rewrite O, isown_some. cbn [isown]. destruct (Nat.eqb_spec 0 t); [lia|reflexivity].
        -- match goal with |- _ + replies ?x t = _ => change x with (ops_at (set_ops s 0 r) 0) end. rewrite S0, E. reflexivity.
      * intros X. change (m_done s = true) in X. congruence.
      * intros X. change (m_panic s = true) in X. congruence.
  - (* OSend *)
    rewrite Nd in H. destruct (length (m_q s) <? cap); [|discriminate H]. injection H as <-. apply andb_true_iff in A. destruct A as [_ A].
    split; [|split; [|split]].
    + match goal with |- chk _ _ ?x = _ => change x with (ops_at (set_ops s 0 r) 0) end. rewrite S0. exact A.
    + intros t Ht. eapply gok_frame; [exact (B t Ht)|exact (St r t Ht)|reflexivity|reflexivity|].
      match goal with |- _ + replies ?x t = _ => change x with (ops_at (set_ops s 0 r) 0) end. rewrite S0, E. cbn [m_q]. rewrite asked_app, asked_cons.
      destruct (Nat.eqb_spec 0 t); [lia|]. cbn [andb]. change (asked [] t) with 0. change (replies (OSend c :: r) t) with (replies r t). lia.
    + intros X. cbn [m_done] in X. congruence.
    + discriminate.
  - discriminate H.
  - (* OReply *)
    destruct (ops_at s t') as [|y r'] eqn:E'; [discriminate H|]. destruct y; try discriminate H.
    destruct (Nat.eqb_spec t' 0) as [->|Ht']; [discriminate H|]. injection H as <-. apply andb_true_iff in A. destruct A as [_ A].
    pose proof (ops_lt _ _ _ _ E') as L'.
    assert (O0 : ops_at (set_ops (set_ops s 0 r) t' r') 0 = r).
    { rewrite ops_set. destruct (Nat.eqb_spec t' 0); [contradiction|]. apply S0. }
    assert (Ot : forall t, t <> 0 -> ops_at (set_ops (set_ops s 0 r) t' r') t = if t' =? t then r' else ops_at s t).
    { intros t Ht. rewrite ops_set. cbn [set_ops m_ths]. rewrite upd_length. destruct (Nat.eqb_spec t' t) as [->|]; cbn [andb].
      - destruct (Nat.ltb_spec t (length (m_ths s))); [reflexivity|lia].
      - apply St, Ht. }
    split; [|split; [|split]].
    + rewrite O0. exact A.
    + intros t Ht. destruct (Nat.eqb_spec t' t) as [->|Hn].
      * destruct (B t Ht) as (k & K1 & K2 & K3 & K4). rewrite E' in K1. destruct k; try discriminate K1. cbn [gchk] in K1.
        exists GN. rewrite (Ot t Ht), Nat.eqb_refl, O0. split; [exact K1|]. split; [exact K2|]. split; [exact K3|].
        rewrite E in K4. unfold replies in K4 at 1. cbn [filter] in K4. rewrite Nat.eqb_refl in K4. cbn [length] in K4. change (m_q (set_ops (set_ops s 0 r) t r')) with (m_q s). unfold replies. lia.
      * eapply gok_frame; [exact (B t Ht)| |reflexivity|reflexivity|].
        -- rewrite (Ot t Ht). destruct (Nat.eqb_spec t' t); [contradiction|reflexivity].
        -- rewrite O0, E. change (m_q (set_ops (set_ops s 0 r) t' r')) with (m_q s). unfold replies. cbn [filter]. destruct (Nat.eqb_spec t' t); [contradiction|reflexivity].
    + intros X. change (m_done s = true) in X. congruence.
    + intros X. change (m_panic s = true) in X. congruence.
  - (* OClose *)
    injection H as <-. apply andb_true_iff in A. destruct A as [_ A]. split; [|split; [|split]].
    + match goal with |- chk _ _ ?x = _ => change x with (ops_at (set_ops s 0 r) 0) end. rewrite S0. exact A.
    + intros t Ht. eapply gok_frame; [exact (B t Ht)|exact (St r t Ht)|reflexivity|reflexivity|].
      match goal with |- _ + replies ?x t = _ => change x with (ops_at (set_ops s 0 r) 0) end. rewrite S0, E. reflexivity.
    + intros X. cbn [m_done] in X. congruence.
    + discriminate.
  - rewrite Nd in H. discriminate H.
  - (* ORet *)
    injection H as <-. apply andb_true_iff in A. destruct A as [_ A]. split; [|split; [|split]].
    + match goal with |- chk _ _ ?x = _ => change x with (ops_at (set_ops s 0 r) 0) end. rewrite S0. exact A.
    + intros t Ht. eapply gok_frame; [exact (B t Ht)|exact (St r t Ht)|reflexivity|reflexivity|].
      match goal with |- _ + replies ?x t = _ => change x with (ops_at (set_ops s 0 r) 0) end. rewrite S0, E. reflexivity.
    + intros X. cbn [m_done] in X. congruence.
    + discriminate.
Qed.

Lemma Inv_goroutine cap s u s' : u <> 0 -> Inv s -> mstep cap s (PRun u) = Some s' -> Inv s'.
Proof.
  intros Hu (A & B & C & D) H. unfold mstep in H. destruct (m_panic s) eqn:Ep; [discriminate H|].
  destruct (ops_at s u) as [|x r] eqn:E; [discriminate H|]. pose proof (ops_lt _ _ _ _ E) as L.
  assert (S0 : forall l, ops_at (set_ops s u l) 0 = ops_at s 0). { intros l. rewrite ops_set. destruct (Nat.eqb_spec u 0); [contradiction|reflexivity]. }
  assert (Su : forall l, ops_at (set_ops s u l) u = l). { intros l. rewrite ops_set, Nat.eqb_refl. destruct (Nat.ltb_spec u (length (m_ths s))); [reflexivity|lia]. }
  assert (St : forall l t, t <> u -> ops_at (set_ops s u l) t = ops_at s t). { intros l t Ht. rewrite ops_set. destruct (Nat.eqb_spec u t); [congruence|reflexivity]. }
  destruct (B u Hu) as (k & K1 & K2 & K3 & K4). rewrite E in K1.
  assert (Fr : forall mu emu q lg qt dn,
    isown mu 0 = isown (m_mu s) 0 -> isown emu 0 = isown (m_emu s) 0 ->
    (forall t, t <> u -> isown mu t = isown (m_mu s) t) -> (forall t, t <> u -> isown emu t = isown (m_emu s) t) ->
    (forall t, t <> u -> asked q t = asked (m_q s) t) -> dn = m_done s ->
    (exists k', gchk k' r = true /\ isown mu u = (match k' with GMu => true | _ => false end) /\ isown emu u = (match k' with GEmu => true | _ => false end) /\
       asked q u + replies (ops_at s 0) u = (match k' with GW => 1 | _ => 0 end)) ->
    Inv (MkM (m_ths (set_ops s u r)) mu emu q qt dn false lg)).
  { intros mu emu q lg qt dn E1 E2 E3 E4 E5 E6 (k' & G). set (s1 := MkM _ _ _ _ _ _ _ _).
    assert (O : forall t, ops_at s1 t = ops_at (set_ops s u r) t) by reflexivity. split; [|split; [|split]].
    - rewrite O, S0. cbn [m_mu m_emu s1]. rewrite E1, E2. exact A.
    - intros t Ht. destruct (Nat.eq_dec t u) as [->|Hn].
      + exists k'. rewrite !O, Su, S0. exact G.
      + eapply gok_frame; [exact (B t Ht)|rewrite O; apply St, Hn|exact (E3 t Hn)|exact (E4 t Hn)|]. rewrite O, S0. cbn [m_q s1]. rewrite E5 by exact Hn. reflexivity.
    - cbn [m_done s1]. rewrite E6, O, S0. exact C.
    - discriminate. }
  assert (Ne : forall t, t <> u -> isown (Some u) t = false). { intros t Ht. cbn. destruct (Nat.eqb_spec u t); [congruence|reflexivity]. }
  destruct x as [m|m|c| |t'| | |c].
  - (* OLock *)
    destruct (owner s m) eqn:O; [discriminate H|]. injection H as <-. destruct k; try (destruct m; discriminate K1).
    destruct m; cbn [owner] in O; cbn [set_owner]; change (m_panic (set_ops s u r)) with (m_panic s); rewrite Ep; apply Fr; try reflexivity;
      rewrite ?O; cbn [isown]; try (intros t Ht; exact (Ne t Ht));
      try (apply Nat.eqb_neq; congruence).
    + exists GMu. rewrite Nat.eqb_refl. repeat split; assumption.
    + exists GEmu. rewrite Nat.eqb_refl. repeat split; assumption.
  - (* OUnlock *)
    injection H as <-. destruct m; destruct k; try discriminate K1; cbn [gchk] in K1; own; cbn [set_owner]; change (m_panic (set_ops s u r)) with (m_panic s);
      rewrite Ep; apply Fr; try reflexivity; rewrite ?K2, ?K3; cbn [isown]; try (intros t Ht; symmetry; exact (Ne t Ht));
      try (symmetry; apply Nat.eqb_neq; congruence).
    + exists GN. repeat split; assumption.
    + exists GN. repeat split; assumption.
  - (* OSend *)
    destruct (m_done s) eqn:Dn.
    { injection H as <-. split; [exact A|]. split; [intros t Ht; exact (B t Ht)|]. split; [exact C|reflexivity]. }
    destruct (length (m_q s) <? cap); [|discriminate H]. injection H as <-. destruct k; try discriminate K1. cbn [gchk] in K1.
    apply Fr; try reflexivity; try (symmetry; exact Dn).
    + intros t Ht. rewrite asked_app, asked_cons. destruct (Nat.eqb_spec u t); [congruence|]. cbn [andb]. change (asked [] t) with 0. lia.
    + exists (if needs_reply c then GW else GN). split; [exact K1|]. rewrite asked_app, asked_cons, Nat.eqb_refl. cbn [andb]. change (asked [] u) with 0.
      destruct (needs_reply c); repeat split; try assumption; lia.
  - discriminate H.
  - destruct k; discriminate K1.
  - (* OClose *)
    injection H as <-. destruct k; try discriminate K1. cbn [gchk] in K1. apply Fr; try reflexivity. exists GN. repeat split; assumption.
  - (* OWaitDone *)
    destruct (m_done s) eqn:Dn; [|discriminate H]. injection H as <-. destruct k; try discriminate K1. cbn [gchk] in K1.
    unfold set_ops. rewrite Ep. apply (Fr (m_mu s) (m_emu s) (m_q s) (m_log s) (m_quit s) (m_done s)); try reflexivity; try exact Dn. exists GN. repeat split; assumption.
  - (* ORet *)
    injection H as <-. destruct k; try discriminate K1. cbn [gchk] in K1. apply Fr; try reflexivity. exists GN. repeat split; assumption.
Qed.

Lemma Inv_idle s new q qt : Inv s -> ops_at s 0 = [] -> m_done s = false -> 0 < length (m_ths s) -> chk false false new = true ->
  (forall t, t <> 0 -> asked q t + replies new t = asked (m_q s) t) ->
  Inv (MkM (m_ths (set_ops s 0 new)) (m_mu s) (m_emu s) q qt false false (m_log s)).
Proof.
  intros (A & B & C & D) E Nd L Hc Hq. set (s1 := MkM _ _ _ _ _ _ _ _).
  assert (O : forall t, ops_at s1 t = if 0 =? t then new else ops_at s t).
  { intros t. change (ops_at s1 t) with (ops_at (set_ops s 0 new) t). rewrite ops_set. destruct (Nat.eqb_spec 0 t) as [<-|]; [|reflexivity]. cbn [andb].
    destruct (Nat.ltb_spec 0 (length (m_ths s))); [reflexivity|lia]. }
  rewrite E in A. cbn [chk] in A. apply andb_true_iff in A. destruct A as [A1 A2]. apply negb_true_iff in A1, A2.
  split; [|split; [|split]].
  - rewrite O. cbn [m_mu m_emu s1 Nat.eqb]. rewrite A1, A2. exact Hc.
  - intros t Ht. eapply gok_frame; [exact (B t Ht)|rewrite O; destruct (Nat.eqb_spec 0 t); [congruence|reflexivity]|reflexivity|reflexivity|].
    rewrite O, E. cbn [Nat.eqb m_q s1]. change (replies [] t) with 0. rewrite (Hq t Ht). lia.
  - discriminate.
  - discriminate.
Qed.

Definition alive (s : mst) : Prop := 0 < length (m_ths s).

Lemma Inv_step cap s p s' : Inv s -> alive s -> mstep cap s p = Some s' -> Inv s' /\ alive s'.
Proof.
  intros I L H. split.
  - destruct p as [t|rs|rs|].
    + destruct (Nat.eq_dec t 0) as [->|Ht]; [eapply Inv_worker; eauto|eapply Inv_goroutine; eauto].
    + unfold mstep in H. destruct (m_panic s); [discriminate H|]. destruct (m_q s) as [|[t c] q] eqn:Q; [discriminate H|].
      destruct (idle s) eqn:Id; [|discriminate H]. injection H as <-. unfold idle in Id. destruct (ops_at s 0) eqn:E; [|discriminate Id]. apply negb_true_iff in Id.
      rewrite Id. apply Inv_idle; try assumption; [apply chk_handler|]. intros u Hu. rewrite Q, asked_cons, replies_handler. lia.
    + unfold mstep in H. destruct (m_panic s) eqn:Ep; [discriminate H|]. destruct (idle s) eqn:Id; [|discriminate H]. injection H as <-.
      unfold idle in Id. destruct (ops_at s 0) eqn:E; [|discriminate Id]. apply negb_true_iff in Id. unfold set_ops. rewrite Ep, Id.
      apply (Inv_idle s (tick_ops rs) (m_q s) (m_quit s)); try assumption; [apply chk_tick|]. intros u Hu. rewrite replies_tick. lia.
    + unfold mstep in H. destruct (m_panic s) eqn:Ep; [discriminate H|]. destruct (idle s && m_quit s) eqn:Id; [|discriminate H]. injection H as <-.
      apply andb_true_iff in Id. destruct Id as [Id _]. unfold idle in Id. destruct (ops_at s 0) eqn:E; [|discriminate Id].
      destruct I as (A & B & C & D). split; [exact A|]. split; [intros t Ht; exact (B t Ht)|]. split; [intros _; exact E|discriminate].
  - unfold alive in *. unfold mstep in H. destruct (m_panic s); [discriminate H|]. destruct p as [t|rs|rs|].
    + destruct (ops_at s t) as [|[m|m|c| |t'| | |c] r]; try discriminate H.
      * destruct (owner s m); [discriminate H|]. injection H as <-. destruct m; cbn; rewrite ?upd_length; exact L.
      * injection H as <-. destruct m; cbn; rewrite ?upd_length; exact L.
      * destruct (m_done s); [injection H as <-; exact L|]. destruct (_ <? _); [|discriminate H]. injection H as <-. cbn; rewrite ?upd_length; exact L.
      * destruct (ops_at s t') as [|[]]; try discriminate H. destruct (t' =? t); [discriminate H|]. injection H as <-. cbn; rewrite ?upd_length; exact L.
      * injection H as <-. cbn; rewrite ?upd_length; exact L.
      * destruct (m_done s); [|discriminate H]. injection H as <-. cbn; rewrite ?upd_length; exact L.
      * injection H as <-. cbn; rewrite ?upd_length; exact L.
    + destruct (m_q s) as [|[t c] q]; [discriminate H|]. destruct (idle s); [|discriminate H]. injection H as <-. cbn; rewrite ?upd_length; exact L.
    + destruct (idle s); [|discriminate H]. injection H as <-. cbn; rewrite ?upd_length; exact L.
    + destruct (_ && _); [|discriminate H]. injection H as <-. exact L.
Qed.

Lemma Inv_steps cap s l s' : msteps cap s l s' -> Inv s -> alive s -> Inv s' /\ alive s'.
Proof. induction 1 as [|s p s1 l s' H _ IH]; [auto|]. intros I L. destruct (Inv_step cap s p s1 I L H). auto. Qed.

Lemma reachable_Inv cap progs s : reachable cap progs s -> Inv s /\ alive s.
Proof. intros (l & H). eapply Inv_steps; [exact H|apply Inv_init|unfold alive; cbn; lia]. Qed.

(** ** Calls that never return *)

(** The worker is stuck for good. *)
Definition stuck (cap : nat) (s : mst) : Prop :=
  (exists r, ops_at s 0 = OWait :: r) \/ (exists r, ops_at s 0 = OWaitDone :: r) \/
  (exists m r, ops_at s 0 = OLock m :: r /\ owner s m = Some 0) \/ (exists c r, ops_at s 0 = OSend c :: r /\ cap <= length (m_q s)).
(** Or is about to be. *)
Definition doomed (cap : nat) (s : mst) : Prop :=
  stuck cap s \/ (exists c r, ops_at s 0 = OSend c :: OWait :: r) \/ (exists r, ops_at s 0 = OClose :: OWaitDone :: r).

Lemma doomed_front cap s : Inv s -> doomed cap s -> m_emu s = Some 0 /\ m_done s = false /\ ops_at s 0 <> [].
Proof.
  intros (A & _ & C & _) H.
  assert (N : ops_at s 0 <> []) by (destruct H as [[(r & E)|[(r & E)|[(m & r & E & _)|(c & r & E & _)]]]|[(c & r & E)|(r & E)]]; rewrite E; discriminate).
  split; [|split; [|exact N]].
  - apply isown_eq. destruct H as [[(r & E)|[(r & E)|[(m & r & E & O)|(c & r & E & _)]]]|[(c & r & E)|(r & E)]]; rewrite E in A; cbn [chk] in A;
      try (apply andb_true_iff in A; destruct A as [A _]; exact A).
    destruct m; cbn [owner] in O.
    + assert (isown (m_mu s) 0 = true) as W by (rewrite O; reflexivity). rewrite W in A. apply andb_true_iff in A. destruct A as [A _]. exact A.
    + rewrite O. reflexivity.
  - destruct (m_done s); [|reflexivity]. exfalso. apply N. exact (C eq_refl).
Qed.

Lemma returned_app s s' t u c : m_log s' = m_log s ++ [(u, c)] -> returned s' t = returned s t ++ (if u =? t then [c] else []).
Proof. intros E. unfold returned. rewrite E, filter_app, map_app. cbn [filter fst]. destruct (u =? t); reflexivity. Qed.

(** One step of a goroutine: its own operations, the channel, the mutexes and the history. *)
Lemma goroutine_step cap s u s' : u <> 0 -> Inv s -> m_done s = false -> mstep cap s (PRun u) = Some s' ->
  exists x r, ops_at s u = x :: r /\ ops_at s' u = r /\ (forall t, t <> u -> ops_at s' t = ops_at s t) /\ m_done s' = false /\
    (forall m, owner s m = Some 0 -> owner s' m = Some 0) /\
    (m_q s' = m_q s \/ exists c, x = OSend c /\ length (m_q s) < cap /\ m_q s' = m_q s ++ [(u, c)]) /\
    x <> OWait /\ x <> OWaitDone /\ (forall m, x = OLock m -> owner s m = None) /\ (forall c, x = OSend c -> length (m_q s) < cap) /\
    (forall t, t <> u -> returned s' t = returned s t).
Proof.
  intros Hu (A & B & C & D) Nd H. unfold mstep in H. destruct (m_panic s) eqn:Ep; [discriminate H|].
  destruct (ops_at s u) as [|x r] eqn:E; [discriminate H|]. pose proof (ops_lt _ _ _ _ E) as L.
  assert (Su : forall l, ops_at (set_ops s u l) u = l). { intros l. rewrite ops_set, Nat.eqb_refl. destruct (Nat.ltb_spec u (length (m_ths s))); [reflexivity|lia]. }
  assert (St : forall l t, t <> u -> ops_at (set_ops s u l) t = ops_at s t). { intros l t Ht. rewrite ops_set. destruct (Nat.eqb_spec u t); [congruence|reflexivity]. }
  destruct (B u Hu) as (k & K1 & K2 & K3 & K4). rewrite E in K1. exists x, r. split; [reflexivity|].
  destruct x as [m|m|c| |t'| | |c].
  - destruct (owner s m) eqn:O; [discriminate H|]. injection H as <-. split; [destruct m; exact (Su r)|]. split; [destruct m; exact (St r)|]. split; [destruct m; exact Nd|].
    split. { intros m' O'. destruct m, m'; cbn [owner] in *; try congruence; exact O'. }
    split; [left; destruct m; reflexivity|]. split; [discriminate|]. split; [discriminate|]. split; [intros m' [= ->]; exact O|]. split; [discriminate|]. destruct m; reflexivity.
  - injection H as <-. split; [destruct m; exact (Su r)|]. split; [destruct m; exact (St r)|]. split; [destruct m; exact Nd|].
    split. { intros m' O'. destruct m, k; try discriminate K1; own; destruct m'; cbn [owner set_owner m_mu m_emu] in *; try congruence; exact O'. }
    split; [left; destruct m; reflexivity|]. split; [discriminate|]. split; [discriminate|]. split; [discriminate|]. split; [discriminate|]. destruct m; reflexivity.
  - rewrite Nd in H. destruct (Nat.ltb_spec (length (m_q s)) cap) as [Lt|]; [|discriminate H]. injection H as <-.
    split; [exact (Su r)|]. split; [exact (St r)|]. split; [reflexivity|]. split; [intros []; auto|]. split; [right; exists c; auto|].
    split; [discriminate|]. split; [discriminate|]. split; [discriminate|]. split; [intros _ _; exact Lt|]. reflexivity.
  - discriminate H.
  - destruct k; discriminate K1.
  - injection H as <-. split; [exact (Su r)|]. split; [exact (St r)|]. split; [exact Nd|]. split; [intros []; auto|]. split; [left; reflexivity|].
    split; [discriminate|]. split; [discriminate|]. split; [discriminate|]. split; [discriminate|]. reflexivity.
  - rewrite Nd in H. discriminate H.
  - injection H as <-. split; [exact (Su r)|]. split; [exact (St r)|]. split; [exact Nd|]. split; [intros []; auto|]. split; [left; reflexivity|].
    split; [discriminate|]. split; [discriminate|]. split; [discriminate|]. split; [discriminate|].
    intros t Ht. rewrite (returned_app s _ t u c) by reflexivity. destruct (Nat.eqb_spec u t); [congruence|apply app_nil_r].
Qed.

(** What can still happen to a meter whose worker is doomed. *)
Lemma doomed_step cap s p s' : Inv s -> doomed cap s -> mstep cap s p = Some s' ->
  doomed cap s' /\ returned s' 0 = returned s 0 /\ (stuck cap s -> stuck cap s' /\ ops_at s' 0 = ops_at s 0) /\
  (exists more, m_q s' = m_q s ++ more) /\ (forall t, t <> 0 -> waits cap s t -> ops_at s' t = ops_at s t).
Proof.
  intros I W H. destruct (doomed_front cap s I W) as (Em & Nd & Nw).
  assert (Busy : idle s = false) by (unfold idle; destruct (ops_at s 0); [contradiction|reflexivity]).
  destruct p as [u|rs|rs|].
  2-4: unfold mstep in H; destruct (m_panic s); try discriminate H; rewrite ?Busy in H; try (destruct (m_q s) as [|[]]; discriminate H); discriminate H.
  destruct (Nat.eq_dec u 0) as [->|Hu].
  - unfold mstep in H. destruct (m_panic s) eqn:Ep; [discriminate H|].
    destruct W as [[(r & E)|[(r & E)|[(m & r & E & O)|(c & r & E & F)]]]|[(c & r & E)|(r & E)]]; rewrite E in H.
    + discriminate H.
    + rewrite Nd in H. discriminate H.
    + rewrite O in H. discriminate H.
    + rewrite Nd in H. destruct (Nat.ltb_spec (length (m_q s)) cap); [lia|discriminate H].
    + rewrite Nd in H. destruct (Nat.ltb_spec (length (m_q s)) cap) as [Lt|]; [|discriminate H]. injection H as <-. pose proof (ops_lt _ _ _ _ E) as L.
      assert (O0 : ops_at (set_ops s 0 (OWait :: r)) 0 = OWait :: r). { rewrite ops_set. cbn [Nat.eqb andb]. destruct (Nat.ltb_spec 0 (length (m_ths s))); [reflexivity|lia]. }
      split; [left; left; exists r; exact O0|]. split; [reflexivity|]. split.
      { intros [(r' & E')|[(r' & E')|[(m & r' & E' & O)|(c' & r' & E' & F)]]]; try congruence. lia. }
      split; [eexists; reflexivity|]. intros t Ht _. change (ops_at (set_ops s 0 (OWait :: r)) t = ops_at s t). rewrite ops_set. destruct (Nat.eqb_spec 0 t); [congruence|reflexivity].
    + injection H as <-. pose proof (ops_lt _ _ _ _ E) as L.
      assert (O0 : ops_at (set_ops s 0 (OWaitDone :: r)) 0 = OWaitDone :: r). { rewrite ops_set. cbn [Nat.eqb andb]. destruct (Nat.ltb_spec 0 (length (m_ths s))); [reflexivity|lia]. }
      split; [left; right; left; exists r; exact O0|]. split; [reflexivity|]. split.
      { intros [(r' & E')|[(r' & E')|[(m & r' & E' & O)|(c' & r' & E' & F)]]]; congruence. }
      split; [exists []; cbn [m_q]; rewrite app_nil_r; reflexivity|]. intros t Ht _. change (ops_at (set_ops s 0 (OWaitDone :: r)) t = ops_at s t). rewrite ops_set. destruct (Nat.eqb_spec 0 t); [congruence|reflexivity].
  - destruct (goroutine_step cap s u s' Hu I Nd H) as (x & r & E & E' & Ot & Nd' & Ow & Q & X1 & X2 & X3 & X4 & R).
    assert (O0 : ops_at s' 0 = ops_at s 0) by (apply Ot; congruence).
    assert (Qm : exists more, m_q s' = m_q s ++ more). { destruct Q as [->|(c & _ & _ & ->)]; [exists []; now rewrite app_nil_r|eexists; reflexivity]. }
    assert (St : stuck cap s -> stuck cap s' /\ ops_at s' 0 = ops_at s 0).
    { intros S. split; [|exact O0]. destruct S as [(r' & F)|[(r' & F)|[(m & r' & F & O)|(c' & r' & F & Fu)]]].
      - left. exists r'. congruence.
      - right. left. exists r'. congruence.
      - right. right. left. exists m, r'. split; [congruence|]. apply Ow, O.
      - right. right. right. exists c', r'. split; [congruence|]. destruct Qm as (more & ->). rewrite app_length. lia. }
    split. { destruct W as [S|[(c & r' & F)|(r' & F)]]; [left; apply St, S|right; left; exists c, r'; congruence|right; right; exists r'; congruence]. }
    split; [apply R; congruence|]. split; [exact St|]. split; [exact Qm|].
    intros t Ht (r' & Wt). destruct (Nat.eq_dec t u) as [->|Hn]; [|apply Ot, Hn]. exfalso.
    destruct Wt as [F|[F|[F|(c & F & Fu)]]]; rewrite F in E; injection E as <- <-; try congruence.
    + specialize (X3 Emu eq_refl). cbn [owner] in X3. congruence.
    + specialize (X4 c eq_refl). lia.
Qed.

Lemma waits_stays cap s s' t : waits cap s t -> ops_at s' t = ops_at s t -> (exists more, m_q s' = m_q s ++ more) -> waits cap s' t.
Proof.
  intros (r & W) E (more & Q). exists r. rewrite E, Q, app_length. destruct W as [W|[W|[W|(c & W & F)]]]; [tauto|tauto|tauto|]. right. right. right. exists c. split; [exact W|lia].
Qed.

Lemma doomed_run cap s l s' : msteps cap s l s' -> Inv s -> alive s -> doomed cap s ->
  Inv s' /\ alive s' /\ doomed cap s' /\ returned s' 0 = returned s 0 /\ (stuck cap s -> ops_at s' 0 = ops_at s 0) /\ (forall t, t <> 0 -> waits cap s t -> ops_at s' t = ops_at s t).
Proof.
  induction 1 as [s|s p s1 l s' H _ IH]; intros I L W.
  - repeat split; auto; apply I.
  - destruct (doomed_step cap s p s1 I W H) as (W1 & R1 & S1 & Q1 & T1). destruct (Inv_step cap s p s1 I L H) as [I1 L1].
    destruct (IH I1 L1 W1) as (I2 & L2 & W2 & R2 & S2 & T2). split; [exact I2|]. split; [exact L2|]. split; [exact W2|]. split; [congruence|]. split.
    + intros S. destruct (S1 S) as [Sa Sb]. rewrite (S2 Sa). exact Sb.
    + intros t Ht Wt. rewrite T2; [apply T1; assumption|exact Ht|]. eapply waits_stays; [exact Wt|apply T1; assumption|exact Q1].
Qed.

Lemma doomed_paralysed cap s : Inv s -> alive s -> doomed cap s -> paralysed cap s.
Proof.
  intros I L W. split.
  - intros l s' H. destruct (doomed_run cap s l s' H I L W) as (_ & _ & _ & R & _). exact R.
  - intros l s' H t Ht Wt l2 s2 H2. destruct (doomed_run cap s l s' H I L W) as (I1 & L1 & W1 & _).
    destruct (doomed_run cap s' l2 s2 H2 I1 L1 W1) as (_ & _ & _ & _ & _ & T). apply T; assumption.
Qed.

(** An exporter must not call the methods that need the worker or the mutex of the exporters. *)
Theorem C81_hang cap progs s c : reachable cap progs s -> exporter_calls s c ->
  In c [CFind; CUnregister; CRetrieve; CPeriod; CExporter; CStop] \/ (exists n, c = CRegister n) -> paralysed cap s.
Proof.
  intros Re (rest & E) Hc. destruct (reachable_Inv cap progs s Re) as [I L]. apply doomed_paralysed; try assumption.
  assert (K : (exists r, ops_of c = OSend c :: OWait :: r) \/ c = CExporter \/ c = CStop).
  { destruct Hc as [Hc|(n & ->)]; [|left; eexists; reflexivity]. cbn in Hc.
    destruct Hc as [<-|[<-|[<-|[<-|[<-|[<-|[]]]]]]]; try (left; eexists; reflexivity); tauto. }
  destruct K as [(r & K)|[->| ->]].
  - right. left. exists c, (r ++ rest). rewrite E, K. reflexivity.
  - left. right. right. left. exists Emu, ([OUnlock Emu; ORet CExporter] ++ rest). split; [exact E|].
    destruct I as (A & _). rewrite E in A. cbn [ops_of app chk] in A. cbn [owner].
    destruct (isown (m_emu s) 0) eqn:O; [apply isown_eq, O|]. exfalso. cbn in A. discriminate A.
  - right. right. exists ([ORet CStop] ++ rest). exact E.
Qed.

(** Record returns as long as there is room in the channel, and not otherwise. *)
Theorem C81_record cap progs s : reachable cap progs s -> exporter_calls s CRecord ->
  (length (m_q s) < cap -> exists s', msteps cap s [PRun 0; PRun 0] s' /\ returned s' 0 = returned s 0 ++ [CRecord]) /\
  (length (m_q s) = cap -> paralysed cap s /\ hangs cap s 0).
Proof.
  intros Re (rest & E). destruct (reachable_Inv cap progs s Re) as [I L]. pose proof I as (A & B & C & D). cbn [ops_of app] in E.
  assert (Nd : m_done s = false). { destruct (m_done s); [|reflexivity]. rewrite (C eq_refl) in E. discriminate E. }
  assert (Np : m_panic s = false). { destruct (m_panic s); [|reflexivity]. rewrite (D eq_refl) in Nd. discriminate Nd. }
  split.
  - intros Lt. set (s1 := MkM (m_ths (set_ops s 0 (ORet CRecord :: rest))) (m_mu s) (m_emu s) (m_q s ++ [(0, CRecord)]) (m_quit s) (m_done s) false (m_log s)).
    assert (H1 : mstep cap s (PRun 0) = Some s1).
    { unfold mstep. rewrite Np, E, Nd. destruct (Nat.ltb_spec (length (m_q s)) cap); [|lia]. unfold s1. rewrite Nd. reflexivity. }
    assert (O1 : ops_at s1 0 = ORet CRecord :: rest).
    { change (ops_at s1 0) with (ops_at (set_ops s 0 (ORet CRecord :: rest)) 0). rewrite ops_set. cbn [Nat.eqb andb]. unfold alive in L. destruct (Nat.ltb_spec 0 (length (m_ths s))); [reflexivity|lia]. }
    eexists. split; [econstructor; [exact H1|econstructor; [|constructor]]|].
    + unfold mstep. change (m_panic s1) with false. cbv iota. rewrite O1. reflexivity.
    + rewrite (returned_app s1 _ 0 0 CRecord) by reflexivity. reflexivity.
  - intros F. assert (S : stuck cap s) by (right; right; right; exists CRecord, (ORet CRecord :: rest); split; [exact E|lia]).
    assert (W : doomed cap s) by (left; exact S). split; [apply doomed_paralysed; assumption|].
    intros l s' H. destruct (doomed_run cap s l s' H I L W) as (_ & _ & _ & _ & S' & _). exact (S' S).
Qed.

(** SetResource always returns. *)
Theorem C81_resource cap progs s : reachable cap progs s -> exporter_calls s CResource ->
  exists s', msteps cap s [PRun 0] s' /\ returned s' 0 = returned s 0 ++ [CResource].
Proof.
  intros Re (rest & E). destruct (reachable_Inv cap progs s Re) as [(A & B & C & D) L]. cbn [ops_of app] in E.
  assert (Nd : m_done s = false). { destruct (m_done s); [|reflexivity]. rewrite (C eq_refl) in E. discriminate E. }
  assert (Np : m_panic s = false). { destruct (m_panic s); [|reflexivity]. rewrite (D eq_refl) in Nd. discriminate Nd. }
  eexists. split; [econstructor; [|constructor]|].
  - unfold mstep. rewrite Np, E. reflexivity.
  - rewrite (returned_app s _ 0 0 CResource) by reflexivity. reflexivity.
Qed.

(** ** Read *)

(** A step of a goroutine leaves the worker's own place alone, whatever the state. *)
Lemma goroutine_worker cap s u s' : u <> 0 -> Inv s -> mstep cap s (PRun u) = Some s' -> ops_at s' 0 = ops_at s 0 /\ isown (m_mu s') 0 = isown (m_mu s) 0.
Proof.
  intros Hu I H. destruct (m_done s) eqn:Nd.
  - destruct I as (A & B & C & D). specialize (C Nd). unfold mstep in H. destruct (m_panic s) eqn:Ep; [discriminate H|].
    destruct (ops_at s u) as [|x r] eqn:E; [discriminate H|].
    assert (St : forall l, ops_at (set_ops s u l) 0 = ops_at s 0). { intros l. rewrite ops_set. destruct (Nat.eqb_spec u 0); [congruence|reflexivity]. }
    destruct (B u Hu) as (k & K1 & K2 & K3 & K4). rewrite E in K1.
    assert (Nu : (u =? 0) = false) by (destruct (Nat.eqb_spec u 0); [congruence|reflexivity]).
    destruct x as [m|m|c| |t'| | |c].
    + destruct (owner s m) eqn:O; [discriminate H|]. injection H as <-. destruct m; cbn [owner] in O; (split; [exact (St r)|]); cbn [set_owner set_ops m_mu]; [|reflexivity].
      rewrite O. cbn [isown]. exact Nu.
    + injection H as <-. destruct m, k; try discriminate K1; (split; [exact (St r)|]); cbn [set_owner set_ops m_mu]; [|reflexivity]. own. rewrite K2. cbn [isown]. symmetry. exact Nu.
    + try rewrite Nd in H. injection H as <-. split; reflexivity.
    + discriminate H.
    + destruct k; discriminate K1.
    + injection H as <-. split; [exact (St r)|reflexivity].
    + try rewrite Nd in H. injection H as <-. split; [exact (St r)|reflexivity].
    + injection H as <-. split; [exact (St r)|reflexivity].
  - destruct (goroutine_step cap s u s' Hu I Nd H) as (x & r & E & E' & Ot & Nd' & Ow & Q & X1 & X2 & X3 & X4 & R).
    split; [apply Ot; congruence|]. destruct (isown (m_mu s) 0) eqn:O.
    + apply isown_eq in O. specialize (Ow Mu O). cbn [owner] in Ow. rewrite Ow. reflexivity.
    + destruct I as (A & B & C & D). destruct (B u Hu) as (k & K1 & K2 & K3 & K4). rewrite E in K1. unfold mstep in H. destruct (m_panic s); [discriminate H|]. rewrite E in H.
      assert (Nu : (u =? 0) = false) by (destruct (Nat.eqb_spec u 0); [congruence|reflexivity]).
      destruct x as [m|m|c| |t'| | |c]; try (injection H as <-; exact O); try congruence.
      * destruct (owner s m); [discriminate H|]. injection H as <-. destruct m; [exact Nu|exact O].
      * injection H as <-. destruct m; [reflexivity|exact O].
      * rewrite Nd in H. destruct (_ <? _); [|discriminate H]. injection H as <-. exact O.
      * destruct k; discriminate K1.
Qed.

(** One step of the worker in a report: it does its next operation. *)
Lemma worker_step cap s s' : Inv s -> mstep cap s (PRun 0) = Some s' ->
  exists x r, ops_at s 0 = x :: r /\ ops_at s' 0 = r /\
    (m_mu s' = match x with OLock Mu => Some 0 | OUnlock Mu => None | _ => m_mu s end) /\ (x = OLock Mu -> m_mu s = None).
Proof.
  intros I H. pose proof I as (A & B & C & D). unfold mstep in H. destruct (m_panic s) eqn:Ep; [discriminate H|].
  destruct (ops_at s 0) as [|x r] eqn:E; [discriminate H|]. pose proof (ops_lt _ _ _ _ E) as L.
  assert (Nd : m_done s = false). { destruct (m_done s) eqn:X; [|reflexivity]. specialize (C eq_refl). discriminate C. }
  assert (S0 : forall l, ops_at (set_ops s 0 l) 0 = l). { intros l. rewrite ops_set. cbn [Nat.eqb andb]. destruct (Nat.ltb_spec 0 (length (m_ths s))); [reflexivity|lia]. }
  exists x, r. split; [reflexivity|]. destruct x as [m|m|c| |t'| | |c].
  - destruct (owner s m) eqn:O; [discriminate H|]. injection H as <-. destruct m; (split; [exact (S0 r)|]); (split; [reflexivity|]); [intros _; exact O|discriminate].
  - injection H as <-. destruct m; (split; [exact (S0 r)|]); (split; [reflexivity|discriminate]).
  - rewrite Nd in H. destruct (_ <? _); [|discriminate H]. injection H as <-. split; [exact (S0 r)|]. split; [reflexivity|discriminate].
  - discriminate H.
  - destruct (ops_at s t') as [|[] r'] eqn:E'; try discriminate H. destruct (Nat.eqb_spec t' 0) as [->|Nt]; [discriminate H|]. injection H as <-.
    split; [|split; [reflexivity|discriminate]]. rewrite ops_set. destruct (Nat.eqb_spec t' 0); [congruence|]. exact (S0 r).
  - injection H as <-. split; [exact (S0 r)|]. split; [reflexivity|discriminate].
  - rewrite Nd in H. discriminate H.
  - injection H as <-. split; [exact (S0 r)|]. split; [reflexivity|discriminate].
Qed.

(** What is left of a report by the timer: w.mu is released at the very end only, apart from
    calls of Read. *)
Fixpoint bare (l : list op) : bool :=
  match l with
  | [] => false
  | OUnlock Mu :: r => match r with [] => true | _ => false end
  | OLock Mu :: OUnlock Mu :: r => bare r
  | OLock Mu :: _ => false
  | _ :: r => bare r
  end.
Lemma bare_call c r : bare (ops_of c ++ r) = bare r.
Proof. destruct c; reflexivity. Qed.
Lemma bare_calls calls r : bare (concat (map ops_of calls) ++ r) = bare r.
Proof. induction calls as [|c l IH]; [reflexivity|]. cbn [map concat]. rewrite <- app_assoc, bare_call. exact IH. Qed.
Lemma bare_report es r : bare (report_ops es ++ r) = bare r.
Proof.
  unfold report_ops. rewrite <- !app_assoc. cbn [app]. change (bare (OLock Emu :: ?l)) with (bare l).
  induction es as [|c l IH]; [reflexivity|]. cbn [map concat]. rewrite <- app_assoc, bare_calls. exact IH.
Qed.
Lemma bare_reports reports : bare (concat (map report_ops reports) ++ [OUnlock Mu]) = true.
Proof. induction reports as [|r l IH]; [reflexivity|]. cbn [map concat]. rewrite <- app_assoc, bare_report. exact IH. Qed.

Definition ticking (reports : list (list (list call))) (s : mst) : Prop :=
  ops_at s 0 = [] \/ ops_at s 0 = tick_ops reports \/ (m_mu s = Some 0 /\ bare (ops_at s 0) = true).

Lemma ticking_step cap rs s u s' : Inv s -> ticking rs s -> mstep cap s (PRun u) = Some s' -> ticking rs s'.
Proof.
  intros I T H. destruct (Nat.eq_dec u 0) as [->|Hu].
  - destruct (worker_step cap s s' I H) as (x & r & E & E' & M & N). destruct T as [T|[T|[T1 T2]]].
    + congruence.
    + right. right. rewrite T in E. unfold tick_ops in E. injection E as <- <-. split; [exact M|]. rewrite E'. apply bare_reports.
    + rewrite E in T2. destruct x as [[]|[]|c| |t'| | |c].
      1: specialize (N eq_refl); congruence.
      2: { left. cbn [bare] in T2. destruct r; [exact E'|discriminate T2]. }
      all: right; right; split; [congruence|]; rewrite E'; exact T2.
  - destruct (goroutine_worker cap s u s' Hu I H) as [W M]. unfold ticking. rewrite W. destruct T as [T|[T|[T1 T2]]]; [tauto|tauto|].
    right. right. split; [|exact T2]. apply isown_eq. rewrite M, T1. reflexivity.
Qed.

Lemma ticking_run cap rs ts s s' : Inv s -> alive s -> ticking rs s -> msteps cap s (runs ts) s' -> ticking rs s'.
Proof.
  revert s. induction ts as [|u ts IH]; intros s I L T H; inversion H as [|? ? sx ? ? Hs Hr]; subst; [exact T|].
  destruct (Inv_step cap s _ _ I L Hs) as [I' L']. exact (IH sx I' L' (ticking_step cap rs s u sx I T Hs) Hr).
Qed.

(** In a report by the timer, Read never returns either. *)
Theorem C81_read_tick cap progs s1 reports s2 ts s : reachable cap progs s1 -> mstep cap s1 (PTick reports) = Some s2 -> msteps cap s2 (runs ts) s ->
  exporter_calls s CRead -> paralysed cap s /\ hangs cap s 0.
Proof.
  intros Re Ht Hr (rest & E). destruct (reachable_Inv cap progs s1 Re) as [I1 L1]. destruct (Inv_step cap _ _ _ I1 L1 Ht) as [I2 L2].
  destruct (Inv_steps cap _ _ _ Hr I2 L2) as [I L].
  assert (T2 : ticking reports s2).
  { right. left. unfold mstep in Ht. destruct (m_panic s1); [discriminate Ht|]. destruct (idle s1); [|discriminate Ht]. injection Ht as <-.
    rewrite ops_set. cbn [Nat.eqb andb]. unfold alive in L1. destruct (Nat.ltb_spec 0 (length (m_ths s1))); [reflexivity|lia]. }
  assert (S : stuck cap s).
  { right. right. left. exists Mu, ([OUnlock Mu; ORet CRead] ++ rest). split; [exact E|]. cbn [owner].
    destruct (ticking_run cap reports ts s2 s I2 L2 T2 Hr) as [T|[T|[T _]]]; [rewrite T in E; discriminate E| |exact T].
    exfalso. rewrite T in E. unfold tick_ops in E. destruct reports; cbn in E; discriminate E. }
  assert (W : doomed cap s) by (left; exact S). split; [apply doomed_paralysed; assumption|].
  intros l s' H. destruct (doomed_run cap s l s' H I L W) as (_ & _ & _ & _ & S' & _). exact (S' S).
Qed.

(** The handlers hold w.mu for nothing that returns. *)
Fixpoint pairs (hm : bool) (l : list op) : bool :=
  match l with
  | [] => negb hm
  | OLock Mu :: r => negb hm && pairs true r
  | OUnlock Mu :: r => hm && pairs false r
  | _ :: r => pairs hm r
  end.
Lemma pairs_call c r : pairs false (ops_of c ++ r) = pairs false r.
Proof. destruct c; reflexivity. Qed.
Lemma pairs_calls calls r : pairs false (concat (map ops_of calls) ++ r) = pairs false r.
Proof. induction calls as [|c l IH]; [reflexivity|]. cbn [map concat]. rewrite <- app_assoc, pairs_call. exact IH. Qed.
Lemma pairs_report es r : pairs false (report_ops es ++ r) = pairs false r.
Proof.
  unfold report_ops. rewrite <- !app_assoc. cbn [app]. change (pairs false (OLock Emu :: ?l)) with (pairs false l).
  induction es as [|c l IH]; [reflexivity|]. cbn [map concat]. rewrite <- app_assoc, pairs_calls. exact IH.
Qed.
Lemma pairs_handler reports t c : pairs false (handler reports t c) = true.
Proof.
  destruct c; cbn [handler]; try reflexivity.
  - induction n as [|n IH]; [reflexivity|]. cbn [repeat concat]. rewrite <- app_assoc. exact IH.
  - induction reports as [|r l IH]; [reflexivity|]. cbn [map concat]. rewrite <- !app_assoc, pairs_report. exact IH.
Qed.

Lemma pairs_step cap s u s' : Inv s -> pairs (isown (m_mu s) 0) (ops_at s 0) = true -> mstep cap s (PRun u) = Some s' -> pairs (isown (m_mu s') 0) (ops_at s' 0) = true.
Proof.
  intros I T H. destruct (Nat.eq_dec u 0) as [->|Hu].
  - destruct (worker_step cap s s' I H) as (x & r & E & E' & M & N). rewrite M, E'. rewrite E in T.
    destruct x as [[]|[]|c| |t'| | |c]; try exact T; cbn [pairs isown Nat.eqb] in *; apply andb_true_iff in T; destruct T as [_ T]; exact T.
  - destruct (goroutine_worker cap s u s' Hu I H) as [W M]. rewrite W, M. exact T.
Qed.
Lemma pairs_run cap ts s s' : Inv s -> alive s -> pairs (isown (m_mu s) 0) (ops_at s 0) = true -> msteps cap s (runs ts) s' -> pairs (isown (m_mu s') 0) (ops_at s' 0) = true.
Proof.
  revert s. induction ts as [|u ts IH]; intros s I L T H; inversion H as [|? ? sx ? ? Hs Hr]; subst; [exact T|].
  destruct (Inv_step cap s _ _ I L Hs) as [I' L']. exact (IH sx I' L' (pairs_step cap s u sx I T Hs) Hr).
Qed.

Lemma holder_unlocks cap s t m : Inv s -> m_panic s = false -> t <> 0 -> owner s m = Some t ->
  exists s', mstep cap s (PRun t) = Some s' /\ owner s' m = None /\ ops_at s' 0 = ops_at s 0 /\ returned s' 0 = returned s 0 /\ m_panic s' = false.
Proof.
  intros (A & B & C & D) Np Ht O. destruct (B t Ht) as (k & K1 & K2 & K3 & _).
  assert (E : exists r, ops_at s t = OUnlock m :: r).
  { destruct m; cbn [owner] in O; rewrite O in *; cbn [isown] in *; rewrite Nat.eqb_refl in *; destruct k; try discriminate;
      destruct (ops_at s t) as [|[[]|[]|c| |t'| | |c] r]; try discriminate K1; eexists; reflexivity. }
  destruct E as (r & E). eexists. split; [unfold mstep; rewrite Np, E; reflexivity|].
  assert (St : ops_at (set_ops s t r) 0 = ops_at s 0) by (rewrite ops_set; destruct (Nat.eqb_spec t 0); [congruence|reflexivity]).
  destruct m; (split; [reflexivity|]); (split; [exact St|]); (split; [reflexivity|exact Np]).
Qed.

(** In the report that Unregister makes, Read can return. *)
Theorem C81_read_unregister cap progs s1 reports s2 ts s : reachable cap progs s1 -> mstep cap s1 (PHandle reports) = Some s2 -> msteps cap s2 (runs ts) s ->
  exporter_calls s CRead -> exists ts' s', msteps cap s (runs ts') s' /\ returned s' 0 = returned s 0 ++ [CRead].
Proof.
  intros Re Ht Hr (rest & E). destruct (reachable_Inv cap progs s1 Re) as [I1 L1]. destruct (Inv_step cap _ _ _ I1 L1 Ht) as [I2 L2].
  destruct (Inv_steps cap _ _ _ Hr I2 L2) as [I L].
  assert (T2 : pairs (isown (m_mu s2) 0) (ops_at s2 0) = true).
  { unfold mstep in Ht. destruct (m_panic s1); [discriminate Ht|]. destruct (m_q s1) as [|[t c] q]; [discriminate Ht|]. destruct (idle s1) eqn:Id; [|discriminate Ht]. injection Ht as <-.
    unfold idle in Id. destruct (ops_at s1 0) eqn:E1; [|discriminate Id]. destruct I1 as (A & _). rewrite E1 in A. cbn [chk] in A. apply andb_true_iff in A. destruct A as [A _]. apply negb_true_iff in A.
    cbn [m_mu]. rewrite A. change (pairs false (ops_at (set_ops s1 0 (handler reports t c)) 0) = true).
    rewrite ops_set. cbn [Nat.eqb andb]. unfold alive in L1. destruct (Nat.ltb_spec 0 (length (m_ths s1))); [apply pairs_handler|lia]. }
  pose proof (pairs_run cap ts s2 s I2 L2 T2 Hr) as T. rewrite E in T. cbn [ops_of app pairs] in T. apply andb_true_iff in T. destruct T as [T _]. apply negb_true_iff in T.
  assert (Nd : m_done s = false). { destruct I as (_ & _ & C & _). destruct (m_done s); [|reflexivity]. rewrite (C eq_refl) in E. discriminate E. }
  assert (Np : m_panic s = false). { destruct I as (_ & _ & _ & D). destruct (m_panic s); [|reflexivity]. rewrite (D eq_refl) in Nd. discriminate Nd. }
  assert (Free : forall z, alive z -> m_panic z = false -> m_mu z = None -> ops_at z 0 = ops_of CRead ++ rest -> exists s', msteps cap z (runs [0; 0; 0]) s' /\ returned s' 0 = returned z 0 ++ [CRead]).
  { intros z Lz Pz Mz Ez. unfold alive in Lz.
    assert (U : forall y l, length (m_ths y) = length (m_ths z) -> ops_at (set_ops y 0 l) 0 = l).
    { intros y l Ly. rewrite ops_set. cbn [Nat.eqb andb]. destruct (Nat.ltb_spec 0 (length (m_ths y))); [reflexivity|lia]. }
    set (z1 := set_owner (set_ops z 0 ([OUnlock Mu; ORet CRead] ++ rest)) Mu (Some 0)).
    set (z2 := set_owner (set_ops z1 0 ([ORet CRead] ++ rest)) Mu None).
    assert (S1 : mstep cap z (PRun 0) = Some z1) by (unfold mstep; rewrite Pz, Ez; cbn [ops_of app owner]; rewrite Mz; reflexivity).
    assert (O1 : ops_at z1 0 = [OUnlock Mu; ORet CRead] ++ rest) by (apply (U z); reflexivity).
    assert (S2 : mstep cap z1 (PRun 0) = Some z2) by (unfold mstep; change (m_panic z1) with (m_panic z); rewrite Pz, O1; reflexivity).
    assert (O2 : ops_at z2 0 = [ORet CRead] ++ rest) by (apply (U z1); unfold z1; cbn; apply upd_length).
    eexists. split; [econstructor; [exact S1|econstructor; [exact S2|econstructor; [|constructor]]]|].
    - unfold mstep. change (m_panic z2) with (m_panic z). rewrite Pz, O2. reflexivity.
    - rewrite (returned_app z _ 0 0 CRead); reflexivity. }
  destruct (m_mu s) as [t|] eqn:M.
  - assert (t <> 0) as Nt. { intros ->. discriminate T. }
    destruct (holder_unlocks cap s t Mu I Np Nt M) as (s0 & H0 & Z1 & Z2 & Z3 & Z4). destruct (Inv_step cap s _ s0 I L H0) as [_ L0].
    destruct (Free s0 L0 Z4 Z1) as (s' & F1 & F2); [congruence|]. exists [t; 0; 0; 0], s'. split; [econstructor; [exact H0|exact F1]|congruence].
  - destruct (Free s L Np M E) as (s' & F1 & F2). exists [0; 0; 0], s'. auto.
Qed.

(** ** Recording from an exporter can hang the program *)

Definition filled (k j : nat) : mst := MkM [[]; concat (map ops_of (repeat CRecord j))] None None (repeat (1, CRecord) k) false false false (repeat (1, CRecord) k).

Lemma filled_step cap k j : k < cap -> msteps cap (filled k (S j)) [PRun 1; PRun 1] (filled (S k) j).
Proof.
  intros L. econstructor; [|econstructor; [|constructor]].
  - unfold mstep. cbn [filled m_panic]. unfold ops_at. cbn [filled m_ths nth repeat map concat ops_of app m_done m_q]. rewrite repeat_length. destruct (Nat.ltb_spec k cap); [|lia]. reflexivity.
  - unfold mstep, ops_at. cbn [m_panic m_ths set_ops upd nth]. cbn. f_equal. unfold filled.
    assert (R : repeat (1, CRecord) k ++ [(1, CRecord)] = repeat (1, CRecord) (S k)) by (rewrite <- repeat_cons; reflexivity).
    rewrite R. reflexivity.
Qed.

Lemma msteps_app cap s l s1 l' s2 : msteps cap s l s1 -> msteps cap s1 l' s2 -> msteps cap s (l ++ l') s2.
Proof. induction 1; [auto|]. intros. econstructor; eauto. Qed.

Lemma filled_run cap n : forall k j, k + n <= cap -> exists l, msteps cap (filled k (n + j)) l (filled (k + n) j).
Proof.
  induction n as [|n IH]; intros k j L; [exists []; rewrite Nat.add_0_r; constructor|].
  destruct (IH (S k) j) as (l & H); [lia|]. exists ([PRun 1; PRun 1] ++ l). eapply msteps_app; [apply filled_step; lia|].
  replace (k + S n) with (S k + n) by lia. exact H.
Qed.

(** A program that only records, and an exporter that only records: the timer can find the
    channel full, and then both hang forever. *)
Theorem C81_record_refuted cap : exists s, reachable cap [repeat CRecord (S cap)] s /\ exporter_calls s CRecord /\
  paralysed cap s /\ hangs cap s 0 /\ hangs cap s 1 /\ length (returned s 1) = cap.
Proof.
  destruct (filled_run cap cap 0 1 (Nat.le_refl _)) as (l & H). rewrite Nat.add_1_r in H. cbn [Nat.add] in H.
  set (s := MkM [[OSend CRecord; ORet CRecord; OUnlock Emu; OUnlock Mu]; [OSend CRecord; ORet CRecord]] (Some 0) (Some 0) (repeat (1, CRecord) cap) false false false (repeat (1, CRecord) cap)).
  assert (Re : reachable cap [repeat CRecord (S cap)] s).
  { exists (l ++ [PTick [[[CRecord]]]; PRun 0; PRun 0]). eapply msteps_app; [exact H|]. repeat (econstructor; [reflexivity|]). constructor. }
  assert (Ex : exporter_calls s CRecord) by (exists [OUnlock Emu; OUnlock Mu]; reflexivity).
  destruct (C81_record cap _ s Re Ex) as [_ F]. destruct F as [P W]; [apply repeat_length|].
  exists s. split; [exact Re|]. split; [exact Ex|]. split; [exact P|]. split; [exact W|]. split.
  - apply (proj2 P [] s (msteps_nil cap s)); [discriminate|]. exists [ORet CRecord]. right. right. right. exists CRecord. split; [reflexivity|]. cbn [m_q s]. rewrite repeat_length. lia.
  - unfold returned. cbn [m_log s]. clear. induction cap as [|n IH]; [reflexivity|]. cbn. f_equal. exact IH.
Qed.

(** ** Exporters that do no harm *)

Fixpoint pchk (hm he : bool) (l : list op) : bool :=
  match l with
  | [] => negb hm && negb he
  | OLock Mu :: r => negb hm && pchk true he r
  | OLock Emu :: r => negb he && pchk hm true r
  | OUnlock Mu :: r => hm && pchk false he r
  | OUnlock Emu :: r => he && pchk hm false r
  | OReply _ :: r | ORet _ :: r => pchk hm he r
  | _ => false
  end.
Definition nostop (l : list op) : bool := forallb (fun x => match x with OClose | OWaitDone => false | _ => true end) l.
Definition rets (l : list op) : list call := flat_map (fun x => match x with ORet c => [c] | _ => [] end) l.

Definition Pol (progs : list (list call)) (s : mst) : Prop :=
  pchk (isown (m_mu s) 0) (isown (m_emu s) 0) (ops_at s 0) = true /\
  m_done s = false /\ m_quit s = false /\ m_panic s = false /\
  asked (m_q s) 0 + replies (ops_at s 0) 0 = 0 /\
  (forall t, t <> 0 -> nostop (ops_at s t) = true) /\
  (forall t, returned s (S t) ++ rets (ops_at s (S t)) = nth t progs []).

Lemma rets_app a b : rets (a ++ b) = rets a ++ rets b.
Proof. apply flat_map_app. Qed.
Lemma rets_calls p : rets (concat (map ops_of p)) = p.
Proof. induction p as [|c l IH]; [reflexivity|]. cbn [map concat]. rewrite rets_app, IH. destruct c; reflexivity. Qed.
Lemma nostop_calls p : ~ In CStop p -> nostop (concat (map ops_of p)) = true.
Proof.
  induction p as [|c l IH]; intros N; [reflexivity|]. cbn [map concat]. unfold nostop in *. rewrite forallb_app, IH by (intros X; apply N; right; exact X).
  destruct c; try reflexivity. exfalso. apply N. left. reflexivity.
Qed.

Lemma Pol_init progs : (forall p, In p progs -> ~ In CStop p) -> Pol progs (minit progs).
Proof.
  intros N. assert (O : forall t, ops_at (minit progs) (S t) = concat (map ops_of (nth t progs []))).
  { intros t. unfold ops_at, minit. cbn [m_ths nth]. exact (map_nth (fun p => concat (map ops_of p)) progs [] t). }
  split; [reflexivity|]. split; [reflexivity|]. split; [reflexivity|]. split; [reflexivity|]. split; [reflexivity|]. split.
  - intros [|t] Ht; [contradiction|]. rewrite O. apply nostop_calls. destruct (Nat.lt_ge_cases t (length progs)) as [L|L].
    + apply N, nth_In, L.
    + rewrite nth_overflow by exact L. intros [].
  - intros t. rewrite O, rets_calls. reflexivity.
Qed.

Lemma pchk_resource hm he calls r : (forall c, In c calls -> c = CResource) -> pchk hm he (concat (map ops_of calls) ++ r) = pchk hm he r.
Proof.
  induction calls as [|c l IH]; intros H; [reflexivity|]. cbn [map concat]. rewrite (H c (or_introl eq_refl)). rewrite <- app_assoc. cbn [ops_of app pchk].
  apply IH. intros x Hx. apply H. right. exact Hx.
Qed.
Lemma pchk_read he calls r : (forall c, In c calls -> c = CResource \/ c = CRead) -> pchk false he (concat (map ops_of calls) ++ r) = pchk false he r.
Proof.
  induction calls as [|c l IH]; intros H; [reflexivity|]. cbn [map concat]. rewrite <- app_assoc.
  assert (E : pchk false he (concat (map ops_of l) ++ r) = pchk false he r) by (apply IH; intros x Hx; apply H; right; exact Hx).
  destruct (H c (or_introl eq_refl)) as [-> | ->]; cbn [ops_of app pchk negb andb]; exact E.
Qed.
Lemma pchk_tick rs : harmless (PTick rs) -> pchk false false (tick_ops rs) = true.
Proof.
  intros H. unfold tick_ops. cbn [app pchk negb andb]. induction rs as [|r l IH]; [reflexivity|]. cbn [map concat]. unfold report_ops at 1. rewrite <- !app_assoc. cbn [app pchk negb andb].
  etransitivity; [|apply IH; intros r' calls c Hr; apply H; right; exact Hr].
  assert (E : forall es tl, (forall calls c, In calls es -> In c calls -> c = CResource) -> pchk true true (concat (map (fun calls => concat (map ops_of calls)) es) ++ tl) = pchk true true tl).
  { induction es as [|e es IHe]; intros tl He; [reflexivity|]. cbn [map concat]. rewrite <- app_assoc, pchk_resource by (intros c; apply He; left; reflexivity).
    apply IHe. intros calls c Hc. apply He. right. exact Hc. }
  rewrite E by (intros calls c; apply H; left; reflexivity). reflexivity.
Qed.
Lemma pchk_handler rs t c : harmless (PHandle rs) -> pchk false false (handler rs t c) = true.
Proof.
  intros H. destruct c; cbn [handler]; try reflexivity.
  - induction n as [|n IH]; [reflexivity|]. cbn [repeat concat]. rewrite <- app_assoc. exact IH.
  - induction rs as [|r l IH]; [reflexivity|]. cbn [map concat]. unfold report_ops at 1. rewrite <- !app_assoc. cbn [app pchk negb andb].
    etransitivity; [|apply IH; intros r' calls c Hr; apply H; right; exact Hr].
    assert (E : forall es tl, (forall calls c, In calls es -> In c calls -> c = CResource \/ c = CRead) -> pchk false true (concat (map (fun calls => concat (map ops_of calls)) es) ++ tl) = pchk false true tl).
    { induction es as [|e es IHe]; intros tl He; [reflexivity|]. cbn [map concat]. rewrite <- app_assoc, pchk_read by (intros c; apply He; left; reflexivity).
      apply IHe. intros calls c Hc. apply He. right. exact Hc. }
    rewrite E by (intros calls c; apply H; left; reflexivity). reflexivity.
Qed.

Lemma asked_le q x t : asked q t = 0 -> x <> t -> forall c, asked (q ++ [(x, c)]) t = 0.
Proof. intros H N c. rewrite asked_app, H, asked_cons. destruct (Nat.eqb_spec x t); [congruence|reflexivity]. Qed.

Lemma Pol_frame progs s s' : Pol progs s -> m_done s' = false -> m_quit s' = false -> m_panic s' = false ->
  pchk (isown (m_mu s') 0) (isown (m_emu s') 0) (ops_at s' 0) = true -> asked (m_q s') 0 + replies (ops_at s' 0) 0 = 0 ->
  (forall t, t <> 0 -> (returned s' t = returned s t /\ ops_at s' t = ops_at s t) \/
     exists x, ops_at s t = x :: ops_at s' t /\ returned s' t = returned s t ++ rets [x]) -> Pol progs s'.
Proof.
  intros (P & Nd & Nq & Np & Z & N & R) H1 H2 H3 H4 H5 H6. do 5 (split; [assumption|]). split.
  - intros t Ht. specialize (N t Ht). destruct (H6 t Ht) as [(_ & ->)|(x & E & _)]; [exact N|]. rewrite E in N. unfold nostop in *. cbn [forallb] in N. apply andb_true_iff in N. apply N.
  - intros t. rewrite <- (R t). destruct (H6 (S t)) as [(-> & ->)|(x & E & ->)]; [discriminate|reflexivity|]. rewrite E. change (x :: ops_at s' (S t)) with ([x] ++ ops_at s' (S t)). rewrite rets_app. symmetry. apply app_assoc.
Qed.

Lemma Pol_step cap progs s p s' : Inv s -> alive s -> Pol progs s -> harmless p -> mstep cap s p = Some s' -> Pol progs s'.
Proof.
  intros I L Po Hp H. pose proof I as (A & B & C & D). pose proof Po as (P & Nd & Nq & Np & Z & N & R). unfold mstep in H. rewrite Np in H.
  assert (S0 : forall l, ops_at (set_ops s 0 l) 0 = l). { intros l. rewrite ops_set. cbn [Nat.eqb andb]. unfold alive in L. destruct (Nat.ltb_spec 0 (length (m_ths s))); [reflexivity|lia]. }
  assert (St : forall l u t, u <> t -> ops_at (set_ops s u l) t = ops_at s t). { intros l u t Ht. rewrite ops_set. destruct (Nat.eqb_spec u t); [congruence|reflexivity]. }
  destruct p as [u|rs|rs|].
  - destruct (ops_at s u) as [|x r] eqn:E; [discriminate H|]. pose proof (ops_lt _ _ _ _ E) as Lu.
    assert (Su : forall l, ops_at (set_ops s u l) u = l). { intros l. rewrite ops_set, Nat.eqb_refl. destruct (Nat.ltb_spec u (length (m_ths s))); [reflexivity|lia]. }
    destruct (Nat.eq_dec u 0) as [->|Hu].
    + rewrite E in P, Z.
      assert (Fr : forall t, t <> 0 -> ops_at (set_ops s 0 r) t = ops_at s t) by (intros t Ht; apply St; congruence).
      destruct x as [m|m|c| |t'| | |c]; cbn [pchk] in P; try discriminate P.
      * destruct (owner s m) eqn:O; [discriminate H|]. injection H as <-.
        apply (Pol_frame progs s); [exact Po|destruct m; assumption|destruct m; assumption|destruct m; assumption| | |].
        -- destruct m; cbn [owner] in O; rewrite O in P; cbn [isown negb andb] in P; (etransitivity; [|exact P]); (etransitivity; [|apply (f_equal (fun l => pchk _ _ l)); exact (S0 r)]); [reflexivity|]; reflexivity.
        -- destruct m; (etransitivity; [apply (f_equal (fun l => asked (m_q s) 0 + replies l 0)); exact (S0 r)|exact Z]).
        -- intros t Ht. left. split; [destruct m; reflexivity|]. destruct m; exact (Fr t Ht).
      * injection H as <-.
        apply (Pol_frame progs s); [exact Po|destruct m; assumption|destruct m; assumption|destruct m; assumption| | |].
        -- destruct m; apply andb_true_iff in P; destruct P as [P1 P]; (etransitivity; [|exact P]); (etransitivity; [|apply (f_equal (fun l => pchk _ _ l)); exact (S0 r)]); reflexivity.
        -- destruct m; (etransitivity; [apply (f_equal (fun l => asked (m_q s) 0 + replies l 0)); exact (S0 r)|exact Z]).
        -- intros t Ht. left. split; [destruct m; reflexivity|]. destruct m; exact (Fr t Ht).
      * destruct (ops_at s t') as [|[] r'] eqn:E'; try discriminate H. destruct (Nat.eqb_spec t' 0) as [->|Nt]; [discriminate H|]. injection H as <-.
        set (s1 := set_ops s 0 r) in *. assert (Lt : t' < length (m_ths s1)) by (unfold s1, set_ops; cbn [m_ths]; rewrite upd_length; exact (ops_lt _ _ _ _ E')).
        assert (O0 : ops_at (set_ops s1 t' r') 0 = r). { rewrite ops_set. destruct (Nat.eqb_spec t' 0); [congruence|]. exact (S0 r). }
        apply (Pol_frame progs s); [exact Po|exact Nd|exact Nq|exact Np| | |].
        -- rewrite O0. exact P.
        -- rewrite O0. cbn [set_ops m_q s1]. unfold replies in Z. cbn [filter] in Z. destruct (Nat.eqb_spec t' 0); [congruence|]. exact Z.
        -- intros t Ht. destruct (Nat.eq_dec t' t) as [<-|Hn].
           ++ right. exists OWait. split; [|cbn; rewrite app_nil_r; reflexivity]. rewrite E'. f_equal. rewrite ops_set, Nat.eqb_refl. destruct (Nat.ltb_spec t' (length (m_ths s1))); [reflexivity|lia].
           ++ left. split; [reflexivity|]. rewrite ops_set. destruct (Nat.eqb_spec t' t); [congruence|]. exact (Fr t Ht).
      * injection H as <-. apply (Pol_frame progs s); [exact Po|exact Nd|exact Nq|reflexivity| | |].
        -- etransitivity; [|exact P]. apply (f_equal (fun l => pchk (isown (m_mu s) 0) (isown (m_emu s) 0) l)). exact (S0 r).
        -- etransitivity; [apply (f_equal (fun l => asked (m_q s) 0 + replies l 0)); exact (S0 r)|exact Z].
        -- intros t Ht. left. split; [|exact (Fr t Ht)]. rewrite (returned_app s _ t 0 c) by reflexivity. destruct (Nat.eqb_spec 0 t); [congruence|apply app_nil_r].
    + assert (O0 : ops_at (set_ops s u r) 0 = ops_at s 0) by (apply St, Hu).
      assert (Fr : rets [x] = [] -> forall t, t <> 0 -> (returned s t = returned s t /\ ops_at (set_ops s u r) t = ops_at s t) \/ exists y, ops_at s t = y :: ops_at (set_ops s u r) t /\ returned s t = returned s t ++ rets [y]).
      { intros Hx t Ht. destruct (Nat.eq_dec u t) as [<-|Hn]; [|left; split; [reflexivity|apply St, Hn]]. right. exists x. rewrite Su, Hx, app_nil_r. auto. }
      destruct (B u Hu) as (k & K1 & K2 & K3 & K4). rewrite E in K1. pose proof (N u Hu) as Nu. rewrite E in Nu.
      assert (U0 : (u =? 0) = false) by (destruct (Nat.eqb_spec u 0); [congruence|reflexivity]).
      destruct x as [m|m|c| |t'| | |c]; try discriminate H; try discriminate Nu.
      * destruct (owner s m) eqn:O; [discriminate H|]. injection H as <-.
        apply (Pol_frame progs s); [exact Po|destruct m; assumption|destruct m; assumption|destruct m; assumption| | |].
        -- destruct m; cbn [owner] in O; rewrite O in P; cbn [isown] in P; cbn [set_owner m_mu m_emu set_ops isown]; rewrite U0; (etransitivity; [|exact P]); apply f_equal; exact O0.
        -- destruct m; (etransitivity; [apply (f_equal (fun l => asked (m_q s) 0 + replies l 0)); exact O0|exact Z]).
        -- intros t Ht. destruct m; exact (Fr eq_refl t Ht).
      * injection H as <-.
        apply (Pol_frame progs s); [exact Po|destruct m; assumption|destruct m; assumption|destruct m; assumption| | |].
        -- destruct m, k; try discriminate K1; own; [rewrite K2 in P|rewrite K3 in P]; cbn [isown] in P; rewrite U0 in P; (etransitivity; [|exact P]); cbn [set_owner m_mu m_emu set_ops isown]; apply f_equal; exact O0.
        -- destruct m; (etransitivity; [apply (f_equal (fun l => asked (m_q s) 0 + replies l 0)); exact O0|exact Z]).
        -- intros t Ht. destruct m; exact (Fr eq_refl t Ht).
      * rewrite Nd in H. destruct (_ <? _); [|discriminate H]. injection H as <-.
        apply (Pol_frame progs s); [exact Po|reflexivity|exact Nq|reflexivity| | |].
        -- etransitivity; [|exact P]. apply f_equal. exact O0.
        -- etransitivity; [apply (f_equal (fun l => asked (m_q s ++ [(u, c)]) 0 + replies l 0)); exact O0|]. apply Nat.eq_add_0 in Z. destruct Z as [Z1 Z2]. rewrite (asked_le _ u 0 Z1 Hu c). exact Z2.
        -- exact (Fr eq_refl).
      * destruct k; discriminate K1.
      * injection H as <-. apply (Pol_frame progs s); [exact Po|exact Nd|exact Nq|reflexivity| | |].
        -- etransitivity; [|exact P]. apply f_equal. exact O0.
        -- etransitivity; [apply (f_equal (fun l => asked (m_q s) 0 + replies l 0)); exact O0|exact Z].
        -- intros t Ht. rewrite (returned_app s _ t u c) by reflexivity. destruct (Nat.eqb_spec u t) as [<-|Hn].
           ++ right. exists (ORet c). split; [rewrite E; f_equal; symmetry; exact (Su r)|reflexivity].
           ++ left. split; [apply app_nil_r|exact (St r u t Hn)].
  - destruct (m_q s) as [|[t c] q] eqn:Q; [discriminate H|]. destruct (idle s) eqn:Id; [|discriminate H]. injection H as <-.
    unfold idle in Id. destruct (ops_at s 0) eqn:E; [|discriminate Id]. cbn [pchk] in P. apply andb_true_iff in P. destruct P as [P1 P2]. apply negb_true_iff in P1. apply negb_true_iff in P2.
    apply (Pol_frame progs s); [exact Po|exact Nd|exact Nq|reflexivity| | |].
    + cbn [m_mu m_emu]. rewrite P1, P2. etransitivity; [|exact (pchk_handler rs t c Hp)]. apply f_equal. exact (S0 _).
    + etransitivity; [apply (f_equal (fun l => asked q 0 + replies l 0)); exact (S0 _)|]. rewrite replies_handler. rewrite asked_cons in Z. change (replies [] 0) with 0 in Z. lia.
    + intros u Hu. left. split; [reflexivity|]. apply (St _ 0 u). congruence.
  - destruct (idle s) eqn:Id; [|discriminate H]. injection H as <-.
    unfold idle in Id. destruct (ops_at s 0) eqn:E; [|discriminate Id]. cbn [pchk] in P. apply andb_true_iff in P. destruct P as [P1 P2]. apply negb_true_iff in P1. apply negb_true_iff in P2.
    apply (Pol_frame progs s); [exact Po|exact Nd|exact Nq|exact Np| | |].
    + cbn [m_mu m_emu set_ops]. rewrite P1, P2. etransitivity; [|exact (pchk_tick rs Hp)]. apply f_equal. exact (S0 _).
    + etransitivity; [apply (f_equal (fun l => asked (m_q s) 0 + replies l 0)); exact (S0 _)|]. rewrite replies_tick. change (replies [] 0) with 0 in Z. lia.
    + intros u Hu. left. split; [reflexivity|]. apply (St _ 0 u). congruence.
  - rewrite Nq, andb_false_r in H. discriminate H.
Qed.

Lemma Pol_steps cap progs s l s' : msteps cap s l s' -> Inv s -> alive s -> Pol progs s -> Forall harmless l -> Inv s' /\ alive s' /\ Pol progs s'.
Proof.
  induction 1 as [|s p s1 l s' H _ IH]; [auto|]. intros I L Po F. apply Forall_cons_iff in F. destruct F as [F1 F2].
  destruct (Inv_step cap s p s1 I L H) as [I1 L1]. exact (IH I1 L1 (Pol_step cap progs s p s1 I L Po F1 H) F2).
Qed.

Lemma calm_run t : calm (PRun t).
Proof. split; exact Logic.I. Qed.

(** Some step other than a tick is possible, or everybody is done. *)
Lemma progress cap progs s : 0 < cap -> Inv s -> Pol progs s -> (exists p s', calm p /\ mstep cap s p = Some s') \/ (forall t, ops_at s t = []).
Proof.
  intros Hc I (P & Nd & Nq & Np & Z & N & R). pose proof I as (A & B & C & D).
  assert (Hold : forall m t, t <> 0 -> owner s m = Some t -> exists p s', calm p /\ mstep cap s p = Some s').
  { intros m t Ht O. destruct (holder_unlocks cap s t m I Np Ht O) as (s' & H & _). exists (PRun t), s'. split; [apply calm_run|exact H]. }
  destruct (ops_at s 0) as [|x r] eqn:E0.
  - destruct (m_q s) as [|[t c] q] eqn:Q.
    2: { left. eexists (PHandle []), _. split; [split; [intros r calls c' []|exact Logic.I]|]. unfold mstep, idle. rewrite Np, Q, E0, Nd. reflexivity. }
    cbn [pchk] in P. apply andb_true_iff in P. destruct P as [P1 P2].
    destruct (m_mu s) as [t|] eqn:M. { left. apply (Hold Mu t); [intros ->; discriminate P1|exact M]. }
    destruct (m_emu s) as [t|] eqn:M'. { left. apply (Hold Emu t); [intros ->; discriminate P2|exact M']. }
    destruct (existsb (fun l => match l with [] => false | _ => true end) (m_ths s)) eqn:X.
    + left. apply existsb_exists in X. destruct X as (l & In & Nl). apply (In_nth _ _ []) in In. destruct In as (t & Lt & El). fold (ops_at s t) in El.
      destruct l as [|x r]; [discriminate Nl|]. assert (t <> 0) as Ht by congruence.
      destruct (B t Ht) as (k & K1 & K2 & K3 & K4). rewrite El in K1. specialize (N t Ht). rewrite El in N.
      assert (Go : exists s', mstep cap s (PRun t) = Some s').
      { unfold mstep. rewrite Np, El. destruct x as [m|m|c| |t'| | |c]; try discriminate N; try (eexists; reflexivity).
        - destruct m; cbn [owner]; rewrite ?M, ?M'; eexists; reflexivity.
        - rewrite Nd, Q. cbn [length]. apply Nat.ltb_lt in Hc. rewrite Hc. eexists. reflexivity.
        - exfalso. destruct k; try discriminate K1. rewrite Q, E0 in K4. discriminate K4.
        - destruct k; discriminate K1. }
      destruct Go as (s' & Go). exists (PRun t), s'. split; [apply calm_run|exact Go].
    + right. intros t. destruct (ops_at s t) as [|x r] eqn:E; [reflexivity|]. exfalso. rewrite <- not_true_iff_false in X. apply X. apply existsb_exists.
      exists (ops_at s t). split; [apply nth_In; exact (ops_lt _ _ _ _ E)|rewrite E; reflexivity].
  - left. destruct x as [m|m|c| |t'| | |c]; cbn [pchk] in P; try discriminate P.
    + destruct (owner s m) as [t|] eqn:O.
      * apply (Hold m t); [|exact O]. intros ->. destruct m; cbn [owner] in O; rewrite O in P; discriminate P.
      * eexists (PRun 0), _. split; [apply calm_run|]. unfold mstep. rewrite Np, E0, O. reflexivity.
    + eexists (PRun 0), _. split; [apply calm_run|]. unfold mstep. rewrite Np, E0. reflexivity.
    + assert (Nt : t' <> 0). { intros ->. unfold replies in Z. cbn [filter] in Z. cbn in Z. lia. }
      destruct (B t' Nt) as (k & K1 & _ & _ & K4). rewrite E0 in K4. unfold replies in K4. cbn [filter] in K4. rewrite Nat.eqb_refl in K4. cbn [length] in K4.
      destruct k; try lia. destruct (ops_at s t') as [|[]] eqn:E'; try discriminate K1.
      eexists (PRun 0), _. split; [apply calm_run|]. unfold mstep. rewrite Np, E0, E'. destruct (Nat.eqb_spec t' 0); [congruence|]. reflexivity.
    + eexists (PRun 0), _. split; [apply calm_run|]. unfold mstep. rewrite Np, E0. reflexivity.
Qed.

Lemma Pol_returned progs s t : Pol progs s -> ops_at s (S t) = [] -> returned s (S t) = nth t progs [].
Proof. intros (_ & _ & _ & _ & _ & _ & R) E. rewrite <- (R t), E. cbn. symmetry. apply app_nil_r. Qed.

(** With exporters that do no harm, and nobody stopping the meter, there is no deadlock: as
    long as some call has not returned, something can happen without the timer. *)
Theorem C81_no_deadlock cap progs l s : 0 < cap -> (forall p, In p progs -> ~ In CStop p) ->
  msteps cap (minit progs) l s -> Forall harmless l ->
  (forall p s', calm p -> mstep cap s p <> Some s') -> forall t, returned s (S t) = nth t progs [].
Proof.
  intros Hc Hp H F Stop t. destruct (Pol_steps cap progs _ l s H (Inv_init progs)) as (I & L & Po); [unfold alive; cbn; lia|apply Pol_init, Hp|exact F|].
  apply Pol_returned; [exact Po|]. destruct (progress cap progs s Hc I Po) as [(p & s' & P1 & P2)|E]; [exfalso; exact (Stop p s' P1 P2)|apply E].
Qed.

(** *** Without ticks, every run ends *)

Definition sends (l : list op) : nat := length (filter (fun x => match x with OSend _ => true | _ => false end) l).
Definition tot (f : list op -> nat) (ths : list (list op)) : nat := list_sum (map f ths).
Definition big (s : mst) : nat := 2 * tot sends (m_ths s) + length (m_q s) + (if m_done s then 0 else 1) + (if m_panic s then 0 else 1).

Lemma tot_upd f t l : forall ths, t < length ths -> tot f (upd ths t (fun _ => l)) + f (nth t ths []) = tot f ths + f l.
Proof.
  unfold tot. revert t. intros t ths. revert t. induction ths as [|x ths IH]; intros [|t] L; cbn [length] in L; try lia; cbn [upd map list_sum fold_right nth].
  - unfold list_sum. lia.
  - specialize (IH t ltac:(lia)). unfold list_sum in *. cbn [fold_right]. lia.
Qed.
Lemma sends_app a b : sends (a ++ b) = sends a + sends b.
Proof. unfold sends. now rewrite filter_app, app_length. Qed.

Lemma sends_handler rs t c : harmless (PHandle rs) -> sends (handler rs t c) = 0.
Proof.
  intros H. destruct c; cbn [handler]; try reflexivity.
  - induction n as [|n IH]; [reflexivity|]. cbn [repeat concat]. rewrite <- app_assoc. exact IH.
  - induction rs as [|r l IH]; [reflexivity|]. cbn [map concat]. rewrite <- app_assoc. rewrite sends_app. rewrite IH by (intros r' calls c Hr; apply H; right; exact Hr).
    rewrite sends_app. change (sends [OLock Mu; OUnlock Mu]) with 0. unfold report_ops. rewrite !sends_app. change (sends [OLock Emu]) with 0. change (sends [OUnlock Emu]) with 0.
    assert (E : forall es, (forall calls c, In calls es -> In c calls -> c = CResource \/ c = CRead) -> sends (concat (map (fun calls => concat (map ops_of calls)) es)) = 0).
    { induction es as [|e es IHe]; intros He; [reflexivity|]. cbn [map concat]. rewrite sends_app, IHe by (intros calls c Hc; apply He; right; exact Hc).
      assert (E' : forall c, In c e -> c = CResource \/ c = CRead) by (intros c; apply He; left; reflexivity). clear -E'.
      induction e as [|c e IH]; [reflexivity|]. cbn [map concat]. rewrite sends_app. destruct (E' c (or_introl eq_refl)) as [-> | ->]; apply IH; intros x Hx; apply E'; right; exact Hx. }
    rewrite E by (intros calls c; apply H; left; reflexivity). reflexivity.
Qed.

Lemma set_ops_ths s t l : m_ths (set_ops s t l) = upd (m_ths s) t (fun _ => l).
Proof. reflexivity. Qed.

Lemma calm_decreases cap s p s' : calm p -> mstep cap s p = Some s' ->
  big s' < big s \/ (big s' = big s /\ tot (@length op) (m_ths s') < tot (@length op) (m_ths s)).
Proof.
  intros [Hh Ht] H. unfold mstep in H. destruct (m_panic s) eqn:Ep; [discriminate H|]. destruct p as [t|rs|rs|].
  - destruct (ops_at s t) as [|x r] eqn:E; [discriminate H|]. pose proof (ops_lt _ _ _ _ E) as L.
    assert (Ts := tot_upd sends t r (m_ths s) L). assert (Tl := tot_upd (@length op) t r (m_ths s) L). fold (ops_at s t) in Ts, Tl. rewrite E in Ts, Tl. cbn [length] in Tl.
    destruct x as [m|m|c| |t'| | |c].
    + right. destruct (owner s m); [discriminate H|]. injection H as <-. unfold big. change (sends (OLock m :: r)) with (sends r) in Ts. destruct m; cbn [set_owner set_ops m_ths m_q m_done m_panic]; lia.
    + right. injection H as <-. unfold big. change (sends (OUnlock m :: r)) with (sends r) in Ts. destruct m; cbn [set_owner set_ops m_ths m_q m_done m_panic]; lia.
    + left. change (sends (OSend c :: r)) with (S (sends r)) in Ts. destruct (m_done s) eqn:Nd.
      * injection H as <-. unfold big. cbn [m_ths m_q m_done m_panic]. rewrite Nd, Ep. lia.
      * destruct (_ <? _); [|discriminate H]. injection H as <-. unfold big. cbn [set_ops m_ths m_q m_done m_panic]. rewrite app_length, Nd, Ep. cbn [length]. lia.
    + discriminate H.
    + right. destruct (ops_at s t') as [|[] r'] eqn:E'; try discriminate H. destruct (Nat.eqb_spec t' t) as [->|Nt]; [discriminate H|]. injection H as <-.
      change (sends (OReply t' :: r)) with (sends r) in Ts.
      set (th := upd (m_ths s) t (fun _ => r)) in *. assert (L' : t' < length th) by (unfold th; rewrite upd_length; exact (ops_lt _ _ _ _ E')).
      assert (Ts' := tot_upd sends t' r' th L'). assert (Tl' := tot_upd (@length op) t' r' th L').
      assert (En : nth t' th [] = OWait :: r'). { unfold th. change (ops_at (set_ops s t r) t' = OWait :: r'). rewrite ops_set. destruct (Nat.eqb_spec t t'); [congruence|exact E']. }
      rewrite En in Ts', Tl'. change (sends (OWait :: r')) with (sends r') in Ts'. cbn [length] in Tl'. unfold big. cbn [set_ops m_ths m_q m_done m_panic]. fold th. rewrite Ep. lia.
    + right. injection H as <-. unfold big. change (sends (OClose :: r)) with (sends r) in Ts. cbn [set_ops m_ths m_q m_done m_panic]. rewrite Ep. lia.
    + right. destruct (m_done s) eqn:Nd; [|discriminate H]. injection H as <-. unfold big. change (sends (OWaitDone :: r)) with (sends r) in Ts. cbn [set_ops m_ths m_q m_done m_panic]. lia.
    + right. injection H as <-. unfold big. change (sends (ORet c :: r)) with (sends r) in Ts. cbn [set_ops m_ths m_q m_done m_panic]. rewrite Ep. lia.
  - left. destruct (m_q s) as [|[t c] q] eqn:Q; [discriminate H|]. destruct (idle s) eqn:Id; [|discriminate H]. injection H as <-.
    unfold big. cbn [set_ops m_ths m_q m_done m_panic]. rewrite Q, Ep. cbn [length].
    destruct (Nat.lt_ge_cases 0 (length (m_ths s))) as [L|L].
    + assert (Ts := tot_upd sends 0 (handler rs t c) (m_ths s) L). rewrite sends_handler in Ts by exact Hh. lia.
    + destruct (m_ths s); [cbn; lia|cbn in L; lia].
  - contradiction.
  - left. destruct (idle s) eqn:Id; [|discriminate H]. destruct (m_quit s); [|discriminate H]. cbn [andb] in H. injection H as <-.
    unfold big. cbn [m_ths m_q m_done m_panic]. rewrite Ep. unfold idle in Id. destruct (ops_at s 0); [|discriminate Id]. apply negb_true_iff in Id. rewrite Id. lia.
Qed.

(** Between two ticks only finitely many steps are possible, from any state at all: nothing
    goes round in circles. *)
Theorem C81_terminates cap s : Acc (fun s' s => exists p, calm p /\ mstep cap s p = Some s') s.
Proof.
  remember (big s) as n eqn:En. revert s En. induction n as [n IHn] using (well_founded_induction lt_wf). intros s ->.
  remember (tot (@length op) (m_ths s)) as k eqn:Ek. revert s Ek IHn. induction k as [k IHk] using (well_founded_induction lt_wf). intros s -> IHn.
  constructor. intros s' (p & Hp & H). destruct (calm_decreases cap s p s' Hp H) as [B|[B T]].
  - exact (IHn _ B s' eq_refl).
  - refine (IHk _ T s' eq_refl _). intros y Hy z Hz. apply (IHn y); [lia|exact Hz].
Qed.

(** So whatever has happened, all calls of all goroutines can return without the timer, and do
    if the scheduler goes on for long enough. *)
Theorem C81_all_return cap progs l s : 0 < cap -> (forall p, In p progs -> ~ In CStop p) ->
  msteps cap (minit progs) l s -> Forall harmless l ->
  exists l' s', msteps cap s l' s' /\ Forall calm l' /\ forall t, returned s' (S t) = nth t progs [].
Proof.
  intros Hc Hp H F. destruct (Pol_steps cap progs _ l s H (Inv_init progs)) as (I & L & Po); [unfold alive; cbn; lia|apply Pol_init, Hp|exact F|].
  clear l H F. pose proof (C81_terminates cap s) as Ac. induction Ac as [s _ IH].
  destruct (progress cap progs s Hc I Po) as [(p & s1 & P1 & P2)|E].
  - destruct (Inv_step cap s p s1 I L P2) as [I1 L1]. destruct (IH s1 (ex_intro _ p (conj P1 P2)) I1 L1) as (l & s' & H1 & H2 & H3).
    { exact (Pol_step cap progs s p s1 I L Po (proj1 P1) P2). }
    exists (p :: l), s'. split; [econstructor; eauto|]. split; [constructor; assumption|exact H3].
  - exists [], s. split; [constructor|]. split; [constructor|]. intros t. apply Pol_returned; [exact Po|apply E].
Qed.

(** ** Examples *)

Fixpoint exec (cap : nat) (s : mst) (l : list pick) : option mst :=
  match l with [] => Some s | p :: r => match mstep cap s p with Some s1 => exec cap s1 r | None => None end end.
Lemma exec_msteps cap l : forall s s', exec cap s l = Some s' -> msteps cap s l s'.
Proof.
  induction l as [|p l IH]; cbn [exec]; intros s s' H; [injection H as <-; constructor|].
  destruct (mstep cap s p) as [s1|] eqn:E; [|discriminate H]. econstructor; [exact E|apply IH, H].
Qed.

(** The timer finds an exporter that calls Find, while a goroutine waits for RetrieveData. *)
Example C81_hang_example : exists s, reachable 4 [[CRegister 1; CRetrieve]] s /\ exporter_calls s CFind /\ waits 4 s 1 /\ returned s 1 = [CRegister 1].
Proof.
  exists (MkM [ops_of CFind ++ [OUnlock Emu; OUnlock Mu]; [OWait; ORet CRetrieve]] (Some 0) (Some 0) [(1, CRetrieve)] false false false [(1, CRegister 1)]).
  split; [|split; [|split]].
  - exists [PRun 1; PHandle []; PRun 0; PRun 0; PRun 0; PRun 1; PTick [[[CFind]]]; PRun 0; PRun 0; PRun 1]. apply exec_msteps. vm_compute. reflexivity.
  - eexists. reflexivity.
  - eexists. left. reflexivity.
  - reflexivity.
Qed.
(** Room in the channel. *)
Example C81_record_example : exists s, reachable 4 [[CRecord]] s /\ exporter_calls s CRecord /\ length (m_q s) < 4.
Proof.
  exists (MkM [ops_of CRecord ++ [OUnlock Emu; OUnlock Mu]; [ORet CRecord]] (Some 0) (Some 0) [(1, CRecord)] false false false [(0, CResource)]).
  split; [|split].
  - exists [PRun 1; PTick [[[CResource]; [CRecord]]]; PRun 0; PRun 0; PRun 0]. apply exec_msteps. vm_compute. reflexivity.
  - eexists. reflexivity.
  - cbn [m_q length]. lia.
Qed.
Example C81_resource_example : exists s, reachable 4 [[CUnregister]] s /\ exporter_calls s CResource.
Proof.
  exists (MkM [ops_of CResource ++ [OUnlock Emu; OLock Mu; OUnlock Mu; OReply 1]; [OWait; ORet CUnregister]] None (Some 0) [] false false false []).
  split; [|eexists; reflexivity]. exists [PRun 1; PHandle [[[CResource]]]; PRun 0]. apply exec_msteps. vm_compute. reflexivity.
Qed.
(** Another goroutine is in Read when the timer ticks. *)
Example C81_read_tick_example : exists s1 s2 s, reachable 4 [[CRead]] s1 /\ mstep 4 s1 (PTick [[[CRead]]]) = Some s2 /\ msteps 4 s2 (runs [1; 0; 0]) s /\ exporter_calls s CRead.
Proof.
  set (s1 := MkM [[]; [OUnlock Mu; ORet CRead]] (Some 1) None [] false false false []).
  set (s2 := MkM [tick_ops [[[CRead]]]; [OUnlock Mu; ORet CRead]] (Some 1) None [] false false false []).
  exists s1, s2, (MkM [ops_of CRead ++ [OUnlock Emu; OUnlock Mu]; [ORet CRead]] (Some 0) (Some 0) [] false false false []).
  split; [exists [PRun 1]; apply exec_msteps; vm_compute; reflexivity|]. split; [vm_compute; reflexivity|]. split; [apply exec_msteps; vm_compute; reflexivity|eexists; reflexivity].
Qed.
(** The goroutine holds the mutex when the exporter calls Read. *)
Example C81_read_unregister_example : exists s1 s2 s, reachable 4 [[CUnregister]; [CRead]] s1 /\ mstep 4 s1 (PHandle [[[CRead]]]) = Some s2 /\ msteps 4 s2 (runs [0; 2]) s /\
  exporter_calls s CRead /\ m_mu s = Some 2.
Proof.
  set (s1 := MkM [[]; [OWait; ORet CUnregister]; ops_of CRead] None None [(1, CUnregister)] false false false []).
  set (s2 := MkM [handler [[[CRead]]] 1 CUnregister; [OWait; ORet CUnregister]; ops_of CRead] None None [] false false false []).
  exists s1, s2, (MkM [ops_of CRead ++ [OUnlock Emu; OLock Mu; OUnlock Mu; OReply 1]; [OWait; ORet CUnregister]; [OUnlock Mu; ORet CRead]] (Some 2) (Some 0) [] false false false []).
  split; [exists [PRun 1]; apply exec_msteps; vm_compute; reflexivity|]. split; [vm_compute; reflexivity|]. split; [apply exec_msteps; vm_compute; reflexivity|].
  split; [eexists; reflexivity|reflexivity].
Qed.
(** A run in the middle of everything, with a tick and an Unregister that report. *)
Example C81_all_return_example : exists l s, msteps 4 (minit [[CRegister 1; CRecord; CUnregister]; [CExporter; CRead]]) l s /\ Forall harmless l /\
  (forall p, In p [[CRegister 1; CRecord; CUnregister]; [CExporter; CRead]] -> ~ In CStop p) /\ returned s 1 = [CRegister 1; CRecord] /\ returned s 2 = [CExporter].
Proof.
  exists [PRun 1; PHandle []; PRun 0; PRun 0; PRun 0; PRun 1; PRun 1; PRun 1; PRun 2; PRun 2; PRun 2; PTick [[[CResource]]]; PRun 0; PRun 0; PRun 0; PRun 0; PRun 0;
          PHandle []; PRun 0; PRun 0; PRun 1; PHandle [[[CResource; CRead]]]; PRun 2].
  exists (MkM [handler [[[CResource; CRead]]] 1 CUnregister; [OWait; ORet CUnregister]; [OUnlock Mu; ORet CRead]] (Some 2) None [] false false false
            [(1, CRegister 1); (1, CRecord); (2, CExporter); (0, CResource)]).
  split; [apply exec_msteps; vm_compute; reflexivity|]. split; [|split; [|split; reflexivity]].
  - repeat (apply Forall_cons; [|]); try apply Forall_nil; try exact Logic.I; intros r calls c Hr Hc Hi.
    + destruct Hr.
    + destruct Hr as [<-|[]]. destruct Hc as [<-|[]]. destruct Hi as [<-|[]]. reflexivity.
    + destruct Hr.
    + destruct Hr as [<-|[]]. destruct Hc as [<-|[]]. destruct Hi as [<-|[<-|[]]]; auto.
  - intros p [<-|[<-|[]]] Hi; repeat (destruct Hi as [Hi|Hi]; [discriminate Hi|]); destruct Hi.
Qed.

Print Assumptions C81_hang.
Print Assumptions C81_record.
Print Assumptions C81_resource.
Print Assumptions C81_read_tick.
Print Assumptions C81_read_unregister.
Print Assumptions C81_record_refuted.
Print Assumptions C81_no_deadlock.
Print Assumptions C81_terminates.
Print Assumptions C81_all_return.
