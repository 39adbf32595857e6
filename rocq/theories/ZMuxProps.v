(** C88: where the z-pages are served. *)

From Coq Require Import String.
From Coq Require Import List NArith Bool Arith Lia.
From Verif Require Import Base ListLib Text ZMuxModel ZMuxSpec.
Import ListNotations.
Open Scope nat_scope.

(** ** path.Clean *)

Lemma bytes_eqb_eq a b : bytes_eqb a b = true <-> a = b.
Proof. destruct (bytes_eqb_spec a b); split; congruence. Qed.
Lemma bytes_eqb_neq a b : a <> b -> bytes_eqb a b = false.
Proof. destruct (bytes_eqb_spec a b); congruence. Qed.
Lemma bytes_eqb_same a : bytes_eqb a a = true.
Proof. now apply bytes_eqb_eq. Qed.

Lemma clean_seg_plain r out s : plain s -> clean_seg r out s = s :: out.
Proof. intros (A & _ & B & C). unfold clean_seg. rewrite !bytes_eqb_neq by assumption. reflexivity. Qed.
Lemma clean_seg_empty r out : clean_seg r out [] = out.
Proof. reflexivity. Qed.

Lemma fold_skip r l out : fold_left (clean_seg r) ([] :: l) out = fold_left (clean_seg r) l out.
Proof. reflexivity. Qed.

Lemma fold_plain r segs : Forall plain segs -> forall out, fold_left (clean_seg r) segs out = rev segs ++ out.
Proof.
  induction segs as [|s segs IH]; intros H out; [reflexivity|]. inversion H; subst. cbn [fold_left rev].
  rewrite clean_seg_plain, IH by assumption. rewrite <- app_assoc. reflexivity.
Qed.

Definition slashed (segs : list bytes) : bytes := concat (map (fun s => bs "/" ++ s) segs).

Lemma slashed_app a b : slashed (a ++ b) = slashed a ++ slashed b.
Proof. unfold slashed. now rewrite map_app, concat_app. Qed.
Lemma slashed_cons s r : slashed (s :: r) = slash :: s ++ slashed r.
Proof. reflexivity. Qed.
Lemma slashed_one s : slashed [s] = slash :: s.
Proof. unfold slashed. cbn [map concat]. now rewrite app_nil_r. Qed.

(** Splitting "x/a/b". *)
Lemma split_slashed segs : Forall plain segs -> forall x, ~ In slash x -> split_byte slash (x ++ slashed segs) = x :: segs.
Proof.
  induction segs as [|s segs IH]; intros H x Hx.
  - unfold slashed. cbn [map concat]. rewrite app_nil_r. now apply split_byte_none.
  - inversion H as [|? ? P H']; subst. rewrite slashed_cons, split_byte_app by exact Hx. f_equal. apply IH; [exact H'|]. apply P.
Qed.

Lemma split_slashed_end segs x : Forall plain segs -> ~ In slash x -> split_byte slash (x ++ slashed segs ++ [slash]) = x :: segs ++ [[]].
Proof.
  intros H. revert x. induction segs as [|s segs IH]; intros x Hx.
  - unfold slashed. cbn [map concat app]. rewrite split_byte_app by exact Hx. reflexivity.
  - inversion H as [|? ? P H']; subst. rewrite slashed_cons. cbn [app]. rewrite split_byte_app by exact Hx. f_equal.
    rewrite <- app_assoc. rewrite IH; [reflexivity|exact H'|apply P].
Qed.

Lemma join_slashed segs : slash :: join_byte slash segs = match segs with [] => [slash] | _ => slashed segs end.
Proof.
  induction segs as [|s segs IH]; [reflexivity|]. destruct segs as [|s' segs]; [cbn [join_byte]; rewrite slashed_cons; unfold slashed; cbn; now rewrite app_nil_r|].
  change (join_byte slash (s :: s' :: segs)) with (s ++ slash :: join_byte slash (s' :: segs)). rewrite IH. reflexivity.
Qed.

Lemma join_rel s segs : join_byte slash (s :: segs) = s ++ slashed segs.
Proof.
  pose proof (join_slashed (s :: segs)) as H. cbv iota in H. rewrite slashed_cons in H. injection H as H. exact H.
Qed.

Lemma clean_rooted rest : clean (slash :: rest) =
  slash :: join_byte slash (rev (fold_left (clean_seg true) (split_byte slash (slash :: rest)) [])).
Proof. unfold clean. now rewrite byte_eqb_refl. Qed.

Lemma clean_slashed segs : segs <> [] -> Forall plain segs -> clean (slashed segs) = slashed segs.
Proof.
  intros Hn H. destruct segs as [|s segs]; [congruence|]. rewrite slashed_cons, clean_rooted.
  change (slash :: s ++ slashed segs) with ([] ++ slashed (s :: segs)).
  rewrite split_slashed by (auto; intros []). rewrite fold_skip, fold_plain, app_nil_r, rev_involutive by exact H.
  rewrite join_slashed. reflexivity.
Qed.

(** "/a/b" or "/a/b/" joined with a name, with or without a slash at its end. *)
Lemma join_abs p segs name : abs_prefix p segs -> plain name ->
  path_join p name = under segs name /\ path_join p (name ++ [slash]) = under segs name.
Proof.
  intros (H & Hp) Pn. fold (slashed segs) in Hp. change (under segs name) with (slashed (segs ++ [name])).
  assert (PS : Forall plain (segs ++ [name])) by (apply Forall_app; auto).
  assert (E1 : forall q, clean (slashed segs ++ slash :: q) = clean (slashed segs ++ slash :: slash :: q)).
  { intros q. destruct segs as [|s r]; [cbn [slashed map concat app]|rewrite slashed_cons; cbn [app]].
    - rewrite !clean_rooted. change (slash :: slash :: q) with ([] ++ slash :: slash :: q). rewrite (split_byte_app slash []) by (intros []).
      cbn [fold_left]. rewrite clean_seg_empty. reflexivity.
    - rewrite !clean_rooted. change (slash :: (s ++ slashed r) ++ ?t) with ([] ++ slash :: (s ++ slashed r) ++ t).
      rewrite !(split_byte_app slash []) by (intros []). cbn [fold_left]. do 3 f_equal.
      assert (G : forall l x, Forall plain l -> ~ In slash x -> forall t, split_byte slash ((x ++ slashed l) ++ slash :: t) = x :: l ++ split_byte slash t).
      { clear. induction l as [|s l IH]; intros x H Hx t.
        - replace (x ++ slashed []) with x by (unfold slashed; cbn [map concat]; now rewrite app_nil_r). now apply split_byte_app.
        - inversion H as [|? ? P H']; subst. rewrite slashed_cons, <- app_assoc. cbn [app]. rewrite split_byte_app by exact Hx.
          f_equal. apply IH; [exact H'|apply P]. }
      inversion H as [|? ? P H']; subst. rewrite !G by (auto; apply P).
      change (slash :: q) with ([] ++ slash :: q). rewrite (split_byte_app slash [] q) by (intros []).
      cbn [fold_left]. rewrite !fold_left_app. cbn [fold_left]. rewrite clean_seg_empty. reflexivity. }
  assert (E2 : clean (slashed segs ++ slash :: name) = slashed (segs ++ [name])).
  { replace (slashed segs ++ slash :: name) with (slashed (segs ++ [name])).
    - apply clean_slashed; [destruct segs; discriminate|exact PS].
    - rewrite slashed_app. rewrite slashed_one. reflexivity. }
  assert (E3 : clean (slashed segs ++ slash :: name ++ [slash]) = slashed (segs ++ [name])).
  { replace (slashed segs ++ slash :: name ++ [slash]) with (slashed (segs ++ [name]) ++ [slash]).
    2:{ rewrite slashed_app. rewrite slashed_one, <- app_assoc. reflexivity. }
    assert (exists c, slashed (segs ++ [name]) ++ [slash] = slash :: c) as [c Ec].
    { destruct segs as [|s r]; [exists (name ++ [slash]); unfold slashed; cbn; now rewrite app_nil_r|eexists; cbn [app]; rewrite slashed_cons; reflexivity]. }
    rewrite Ec, clean_rooted, <- Ec.
    change (slashed (segs ++ [name]) ++ [slash]) with ([] ++ slashed (segs ++ [name]) ++ [slash]).
    rewrite split_slashed_end by (auto; intros []). rewrite fold_skip, fold_left_app, (fold_plain _ _ PS).
    rewrite fold_skip. cbn [fold_left]. rewrite app_nil_r, rev_involutive, join_slashed. destruct segs; reflexivity. }
  assert (NE : exists c t, p = c :: t) by (destruct Hp as [->|[Hn ->]]; destruct segs; try congruence; eexists; eexists; reflexivity).
  assert (J : forall q, path_join p (name ++ q) = clean (p ++ slash :: name ++ q)).
  { intros q. destruct NE as (c & t & ->). destruct name as [|n0 nt]; [destruct Pn; congruence|]. reflexivity. }
  pose proof (J []) as J0. rewrite !app_nil_r in J0. rewrite J0, (J [slash]). clear NE J J0.
  destruct Hp as [->|[Hn ->]].
  - rewrite <- !app_assoc. change (bs "/" ++ slash :: ?x) with (slash :: slash :: x).
    rewrite <- !E1. split; [exact E2|exact E3].
  - split; [exact E2|exact E3].
Qed.

(** "a/b" or "a/b/" joined with a name. *)
Lemma join_rel_prefix p segs name : rel_prefix p segs -> plain name ->
  path_join p name = join_byte slash (segs ++ [name]) /\ path_join p (name ++ [slash]) = join_byte slash (segs ++ [name]).
Proof.
  intros (H & Hp) Pn.
  assert (NS : forall c t, plain (c :: t) -> byte_eqb c slash = false).
  { intros c t (_ & A & _). destruct (byte_eqb_spec c slash) as [->|]; [exfalso; apply A; now left|reflexivity]. }
  assert (CL : forall s r tail, plain s -> Forall plain r -> (tail = [] \/ tail = [slash]) -> clean (s ++ slashed r ++ tail) = s ++ slashed r).
  { intros s r tail Ps Pr Ht. destruct s as [|c t]; [destruct Ps; congruence|]. cbn [app]. unfold clean. rewrite (NS c t Ps).
    assert (Sp : fold_left (clean_seg false) (split_byte slash (c :: t ++ slashed r ++ tail)) [] = rev ((c :: t) :: r)).
    { destruct Ht as [-> | ->].
      - rewrite app_nil_r. change (c :: t ++ slashed r) with ((c :: t) ++ slashed r). rewrite split_slashed by (auto; apply Ps).
        rewrite fold_plain, app_nil_r by (constructor; auto). reflexivity.
      - change (c :: t ++ slashed r ++ [slash]) with ((c :: t) ++ slashed r ++ [slash]). rewrite split_slashed_end by (auto; apply Ps).
        change ((c :: t) :: r ++ [[]]) with (((c :: t) :: r) ++ [[]]). rewrite fold_left_app, (fold_plain _ ((c :: t) :: r)) by (constructor; auto).
        rewrite fold_skip, app_nil_r. reflexivity. }
    rewrite Sp, rev_involutive. cbv iota. rewrite join_rel. reflexivity. }
  assert (CL2 : forall s r tail, plain s -> Forall plain r -> (tail = name \/ tail = name ++ [slash]) ->
            clean ((s ++ slashed r ++ [slash]) ++ slash :: tail) = s ++ slashed (r ++ [name])).
  { intros s r tail Ps Pr Ht. destruct s as [|c t]; [destruct Ps; congruence|]. cbn [app]. unfold clean. rewrite (NS c t Ps).
    assert (G : forall l x, Forall plain l -> ~ In slash x -> forall t, split_byte slash ((x ++ slashed l) ++ slash :: t) = x :: l ++ split_byte slash t).
    { clear. induction l as [|s l IH]; intros x H Hx t.
      - replace (x ++ slashed []) with x by (unfold slashed; cbn [map concat]; now rewrite app_nil_r). now apply split_byte_app.
      - inversion H as [|? ? P H']; subst. rewrite slashed_cons, <- app_assoc. cbn [app]. rewrite split_byte_app by exact Hx.
        f_equal. apply IH; [exact H'|apply P]. }
    replace (c :: (t ++ slashed r ++ [slash]) ++ slash :: tail) with (((c :: t) ++ slashed r) ++ slash :: slash :: tail)
      by (cbn [app]; rewrite <- !app_assoc; reflexivity).
    rewrite G by (auto; apply Ps). change (slash :: tail) with ([] ++ slash :: tail). rewrite split_byte_app by (intros []).
    assert (Sp : split_byte slash tail = [name] \/ split_byte slash tail = [name; []]).
    { destruct Ht as [-> | ->]; [left; apply split_byte_none, Pn|right; rewrite split_byte_app by apply Pn; reflexivity]. }
    assert (F : fold_left (clean_seg false) ((c :: t) :: r ++ [] :: split_byte slash tail) [] = rev ((c :: t) :: r ++ [name])).
    { change ((c :: t) :: r ++ [] :: split_byte slash tail) with (((c :: t) :: r) ++ [] :: split_byte slash tail).
      rewrite fold_left_app, (fold_plain _ ((c :: t) :: r)) by (constructor; auto). rewrite fold_skip, app_nil_r.
      destruct Sp as [-> | ->]; cbn [fold_left]; rewrite ?clean_seg_empty; rewrite clean_seg_plain by exact Pn;
        change ((c :: t) :: r ++ [name]) with (((c :: t) :: r) ++ [name]); rewrite rev_app_distr; reflexivity. }
    rewrite F, rev_involutive. cbv iota. rewrite join_rel. reflexivity. }
  destruct segs as [|s r].
  - subst p. cbn [app join_byte]. destruct name as [|n0 nt] eqn:En; [destruct Pn; congruence|]. rewrite <- En in *.
    assert (path_join [] name = clean name /\ path_join [] (name ++ [slash]) = clean (name ++ [slash])) as [-> ->] by (rewrite En; split; reflexivity).
    pose proof (CL name [] [] Pn (Forall_nil _) (or_introl eq_refl)) as A.
    pose proof (CL name [] [slash] Pn (Forall_nil _) (or_intror eq_refl)) as B.
    unfold slashed in A, B. cbn [map concat app] in A, B. rewrite !app_nil_r in A. rewrite app_nil_r in B. split; assumption.
  - fold (slashed r) in Hp. inversion H as [|? ? Ps Pr]; subst. cbn [app]. rewrite join_rel.
    assert (J : forall q, path_join p (name ++ q) = clean (p ++ slash :: name ++ q)).
    { intros q. destruct name as [|n0 nt]; [destruct Pn; congruence|]. destruct s as [|c t]; [destruct Ps; congruence|].
      destruct Hp as [->| ->]; reflexivity. }
    pose proof (J []) as J0. rewrite app_nil_r in J0. rewrite J0, (J [slash]).
    destruct Hp as [->| ->].
    + assert (Pr' : Forall plain (r ++ [name])) by (apply Forall_app; auto).
      assert (Q : forall tail, (s ++ slashed r) ++ slash :: name ++ tail = s ++ slashed (r ++ [name]) ++ tail).
      { intros tail. rewrite slashed_app. rewrite slashed_one, <- !app_assoc. reflexivity. }
      pose proof (Q []) as Q0. rewrite !app_nil_r in Q0. rewrite Q0, Q. split.
      * pose proof (CL s (r ++ [name]) [] Ps Pr' (or_introl eq_refl)) as A. rewrite app_nil_r in A. exact A.
      * exact (CL s (r ++ [name]) [slash] Ps Pr' (or_intror eq_refl)).
    + change (bs "/") with [slash]. split; apply CL2; auto.
Qed.

(** ** Paths of requests *)

Lemma plain_last s : plain s -> ends_slash s = false.
Proof.
  intros (A & B & _). unfold ends_slash. destruct (rev s) as [|c l] eqn:E; [reflexivity|].
  destruct (byte_eqb_spec c slash) as [-> |]; [|reflexivity]. exfalso. apply B, in_rev. rewrite E. now left.
Qed.

Lemma ends_slash_app a b : b <> [] -> ends_slash (a ++ b) = ends_slash b.
Proof.
  intros H. unfold ends_slash. rewrite rev_app_distr. destruct (rev b) as [|c l] eqn:E; [|reflexivity].
  exfalso. apply H. rewrite <- (rev_involutive b), E. reflexivity.
Qed.

Lemma slashed_last segs name : plain name -> ends_slash (slashed (segs ++ [name])) = false.
Proof.
  intros P. rewrite slashed_app, slashed_one. change (slash :: name) with ([slash] ++ name). rewrite app_assoc.
  rewrite ends_slash_app by apply P. now apply plain_last.
Qed.

Lemma slashed_not_root segs name : plain name -> slashed (segs ++ [name]) <> [slash].
Proof. intros P E. pose proof (slashed_last segs name P) as H. rewrite E in H. discriminate H. Qed.

Lemma snoc_case {A} (l : list A) : l = [] \/ exists l' x, l = l' ++ [x].
Proof.
  destruct l as [|a l]; [now left|]. destruct (@exists_last _ (a :: l)) as (l' & x & E); [discriminate|]. right. now exists l', x.
Qed.

(** A tidy path is its own clean path. *)
Lemma clean_path_tidy q qs : abs_prefix q qs -> clean_path q = q.
Proof.
  intros (H & Hq). fold (slashed qs) in Hq. destruct (snoc_case qs) as [-> | (qs' & s & ->)].
  - destruct Hq as [-> | [C _]]; [reflexivity|congruence].
  - assert (Ps : plain s) by (apply Forall_app in H; destruct H as [_ H]; now inversion H).
    assert (NE : exists t, slashed (qs' ++ [s]) = slash :: t) by (destruct qs'; eexists; reflexivity). destruct NE as [t Et].
    assert (N0 : qs' ++ [s] <> []) by (destruct qs'; discriminate).
    destruct Hq as [-> | [_ ->]].
    + change (bs "/") with [slash]. rewrite Et. cbn [app]. unfold clean_path. rewrite byte_eqb_refl.
      change (slash :: t ++ [slash]) with ((slash :: t) ++ [slash]). rewrite <- Et. rewrite ends_slash_app by discriminate.
      assert (C : clean (slashed (qs' ++ [s]) ++ [slash]) = slashed (qs' ++ [s])).
      { rewrite Et. cbn [app]. rewrite clean_rooted. change (slash :: t ++ [slash]) with ((slash :: t) ++ [slash]). rewrite <- Et.
        change (slashed (qs' ++ [s]) ++ [slash]) with ([] ++ slashed (qs' ++ [s]) ++ [slash]).
        rewrite split_slashed_end by (auto; intros []). rewrite fold_skip, fold_left_app, (fold_plain _ _ H), fold_skip.
        cbn [fold_left]. rewrite app_nil_r, rev_involutive, join_slashed. destruct qs'; reflexivity. }
      cbv zeta. rewrite C. rewrite (bytes_eqb_neq _ [slash]) by (now apply slashed_not_root). reflexivity.
    + rewrite Et. unfold clean_path. rewrite byte_eqb_refl. cbv zeta. rewrite <- Et.
      rewrite clean_slashed, slashed_last by assumption. reflexivity.
Qed.

(** ** The mux *)

Lemma mux_get_app m m' p : mux_get (m ++ m') p = match mux_get m p with Some h => Some h | None => mux_get m' p end.
Proof. induction m as [|[q h] m IH]; [reflexivity|]. cbn [app mux_get]. destruct (bytes_eqb q p); [reflexivity|exact IH]. Qed.

Lemma mux_get_in m p h : mux_get m p = Some h -> In (p, h) m.
Proof.
  induction m as [|[q k] m IH]; cbn [mux_get]; [discriminate|]. destruct (bytes_eqb_spec q p); [intros [= ->]; subst; now left|intros H; right; auto].
Qed.

Lemma longest_app m es path : Forall (fun e => ends_slash (fst e) = false) es -> longest (m ++ es) path = longest m path.
Proof.
  intros H. unfold longest. rewrite fold_left_app. induction H as [|e es E _ IH]; [reflexivity|]. cbn [fold_left]. rewrite E. cbn [andb]. exact IH.
Qed.

(** What [Handle] adds. *)
Lemma zp_handle_ok m p m' : zp_handle m p = (m', true) ->
  m' = m ++ [(path_join p (bs "rpcz"), HRpcz); (path_join p (bs "tracez"), HTracez); (path_join p (bs "public/"), HFiles)] /\
  mux_get m (path_join p (bs "rpcz")) = None /\ mux_get m (path_join p (bs "tracez")) = None /\ mux_get m (path_join p (bs "public/")) = None.
Proof.
  unfold zp_handle, mux_add.
  generalize (path_join p (bs "rpcz")) (path_join p (bs "tracez")) (path_join p (bs "public/")). intros a b c.
  destruct a as [|a0 a']; [discriminate|]. set (a := a0 :: a'). destruct (mux_get m a) eqn:Ea; [discriminate|].
  destruct b as [|b0 b']; [discriminate|]. set (b := b0 :: b'). rewrite mux_get_app. destruct (mux_get m b) eqn:Eb; [discriminate|].
  destruct (mux_get [(a, HRpcz)] b); [discriminate|].
  destruct c as [|c0 c']; [discriminate|]. set (c := c0 :: c'). rewrite !mux_get_app. destruct (mux_get m c) eqn:Ec; [discriminate|].
  destruct (mux_get [(a, HRpcz)] c); [discriminate|]. destruct (mux_get [(b, HTracez)] c); [discriminate|].
  intros [= <-]. rewrite <- !app_assoc. repeat split.
Qed.

Lemma plain_rpcz : plain (bs "rpcz").
Proof. repeat split; try discriminate. vm_compute. intuition discriminate. Qed.
Lemma plain_tracez : plain (bs "tracez").
Proof. repeat split; try discriminate. vm_compute. intuition discriminate. Qed.
Lemma plain_public : plain (bs "public").
Proof. repeat split; try discriminate. vm_compute. intuition discriminate. Qed.

Lemma under_slashed segs name : under segs name = slashed (segs ++ [name]).
Proof. reflexivity. Qed.

Lemma under_inj segs a b : under segs a = under segs b -> a = b.
Proof. rewrite !under_slashed, !slashed_app, !slashed_one. intros H. apply app_inv_head in H. now injection H. Qed.

Lemma under_starts segs name : exists t, under segs name = slash :: t.
Proof. rewrite under_slashed. destruct segs; eexists; reflexivity. Qed.

(** The patterns for a prefix that starts with a slash. *)
Lemma abs_patterns p segs : abs_prefix p segs ->
  path_join p (bs "rpcz") = under segs (bs "rpcz") /\ path_join p (bs "tracez") = under segs (bs "tracez") /\
  path_join p (bs "public/") = under segs (bs "public").
Proof.
  intros H. repeat split; [apply (join_abs p segs _ H plain_rpcz)|apply (join_abs p segs _ H plain_tracez)|].
  exact (proj2 (join_abs p segs _ H plain_public)).
Qed.

Lemma slash_first host q : ~ In slash host -> forall t u, host ++ q = slash :: t -> q = slash :: u -> host = [].
Proof. intros H t u E _. destruct host as [|c h]; [reflexivity|]. injection E as -> _. exfalso. apply H. now left. Qed.

Definition z_new (segs : list bytes) : list (bytes * hdl) :=
  [(under segs (bs "rpcz"), HRpcz); (under segs (bs "tracez"), HTracez); (under segs (bs "public"), HFiles)].

Lemma abs_handle m p segs m' : abs_prefix p segs -> zp_handle m p = (m', true) ->
  m' = m ++ z_new segs /\ mux_get m (under segs (bs "rpcz")) = None /\ mux_get m (under segs (bs "tracez")) = None /\ mux_get m (under segs (bs "public")) = None.
Proof.
  intros H E. apply zp_handle_ok in E. destruct (abs_patterns p segs H) as (A & B & C). rewrite A, B, C in E. exact E.
Qed.

Lemma new_no_slash segs : Forall (fun e => ends_slash (fst e) = false) (z_new segs).
Proof. repeat constructor; cbn [fst]; apply slashed_last; auto using plain_rpcz, plain_tracez, plain_public. Qed.

Lemma own_no_hosts m : own m -> has_hosts m = false.
Proof.
  intros H. unfold has_hosts. induction m as [|[pat h] m IH]; [reflexivity|]. cbn [existsb fst].
  destruct (H pat h (or_introl eq_refl)) as (_ & rest & ->). change (bs "/" ++ rest) with (slash :: rest). cbv iota. rewrite byte_eqb_refl. cbn [negb orb].
  apply IH. intros p' h' Hi. apply H. now right.
Qed.

Lemma has_hosts_app m m' : has_hosts (m ++ m') = has_hosts m || has_hosts m'.
Proof. unfold has_hosts. apply existsb_app. Qed.

Lemma new_no_hosts segs : has_hosts (z_new segs) = false.
Proof.
  unfold has_hosts, z_new. cbn [existsb fst]. destruct (under_starts segs (bs "rpcz")) as [? ->], (under_starts segs (bs "tracez")) as [? ->], (under_starts segs (bs "public")) as [? ->].
  rewrite byte_eqb_refl. reflexivity.
Qed.

Lemma new_get segs q : mux_get (z_new segs) q <> None -> q = under segs (bs "rpcz") \/ q = under segs (bs "tracez") \/ q = under segs (bs "public").
Proof.
  unfold z_new. cbn [mux_get]. destruct (bytes_eqb_spec (under segs (bs "rpcz")) q) as [-> |]; [auto|].
  destruct (bytes_eqb_spec (under segs (bs "tracez")) q) as [-> |]; [auto|].
  destruct (bytes_eqb_spec (under segs (bs "public")) q) as [-> |]; [auto|]. congruence.
Qed.

(** ** C88: the pages are where the prefix says, on every host. *)
Theorem C88_pages m p segs m' host :
  abs_prefix p segs -> own m -> zp_handle m p = (m', true) ->
  serve m' host (under segs (bs "tracez")) = Served HTracez /\ serve m' host (under segs (bs "rpcz")) = Served HRpcz.
Proof.
  intros HP HO HH. destruct (abs_handle _ _ _ _ HP HH) as (-> & A & B & _).
  assert (NH : has_hosts (m ++ z_new segs) = false) by now rewrite has_hosts_app, own_no_hosts, new_no_hosts by exact HO.
  assert (G : forall name h, plain name -> mux_get (m ++ z_new segs) (under segs name) = Some h -> serve (m ++ z_new segs) host (under segs name) = Served h).
  { intros name h Pn Hg. unfold serve.
    assert (C : clean_path (under segs name) = under segs name).
    { apply (clean_path_tidy _ (segs ++ [name])). split; [apply Forall_app; split; [apply HP|auto]|]. right. split; [destruct segs; discriminate|reflexivity]. }
    cbv zeta. rewrite C. unfold should_redirect, mux_handler, mux_match. cbv zeta. rewrite Hg, NH. cbn [orb]. rewrite bytes_eqb_same. reflexivity. }
  split; apply G; auto using plain_rpcz, plain_tracez; rewrite mux_get_app, ?A, ?B; unfold z_new; cbn [mux_get].
  - rewrite bytes_eqb_neq, bytes_eqb_same; [reflexivity|]. intros E. apply under_inj in E. discriminate E.
  - rewrite bytes_eqb_same. reflexivity.
Qed.
Print Assumptions C88_pages.

(** ** C88: nothing else changes. *)
Lemma others_clean m p segs m' host q :
  abs_prefix p segs -> own m -> ~ In (n2b 47) host -> zp_handle m p = (m', true) ->
  (forall name, In name [bs "rpcz"; bs "tracez"; bs "public"] -> clean_path q <> under segs name) ->
  serve m' host q = serve m host q.
Proof.
  intros HP HO Hh HH HQ. destruct (abs_handle _ _ _ _ HP HH) as (-> & _).
  assert (NH : has_hosts (m ++ z_new segs) = false) by now rewrite has_hosts_app, own_no_hosts, new_no_hosts by exact HO.
  assert (G : forall x, (forall name, In name [bs "rpcz"; bs "tracez"; bs "public"] -> x <> under segs name) -> mux_get (m ++ z_new segs) x = mux_get m x).
  { intros x Hx. rewrite mux_get_app. destruct (mux_get m x); [reflexivity|]. destruct (mux_get (z_new segs) x) eqn:E; [exfalso|reflexivity].
    destruct (new_get segs x) as [-> | [-> | ->]]; [congruence|eapply (Hx (bs "rpcz"))|eapply (Hx (bs "tracez"))|eapply (Hx (bs "public"))]; cbn; auto. }
  assert (GH : forall x, (forall name, In name [bs "rpcz"; bs "tracez"; bs "public"] -> x <> under segs name) -> mux_get (m ++ z_new segs) (host ++ x) = mux_get m (host ++ x)).
  { intros x Hx. apply G. intros name Hn E. destruct host as [|c h]; [now apply (Hx name Hn)|]. destruct (under_starts segs name) as [t Et]. rewrite Et in E.
    injection E as -> _. apply Hh. now left. }
  assert (SL : forall x name, In name [bs "rpcz"; bs "tracez"; bs "public"] -> x ++ [slash] <> under segs name).
  { intros x name Hn E. assert (Pn : plain name) by (destruct Hn as [<-|[<-|[<-|[]]]]; auto using plain_rpcz, plain_tracez, plain_public).
    pose proof (slashed_last segs name Pn) as L. rewrite <- under_slashed, <- E, ends_slash_app in L by discriminate. discriminate L. }
  unfold serve. cbv zeta. unfold should_redirect. cbv zeta.
  rewrite (G (clean_path q) HQ), (GH (clean_path q) HQ), (G (clean_path q ++ [slash])), (GH (clean_path q ++ [slash])) by (intros; apply SL; assumption).
  destruct (bytes_eqb_spec (clean_path q) q) as [E|]; cbn [negb]; [|reflexivity]. rewrite E in HQ.
  unfold mux_handler. rewrite NH, (own_no_hosts _ HO). unfold mux_match. rewrite (G q HQ), longest_app by apply new_no_slash. reflexivity.
Qed.

Theorem C88_others m p segs m' host q qs :
  abs_prefix p segs -> own m -> ~ In (n2b 47) host -> zp_handle m p = (m', true) ->
  abs_prefix q qs -> q <> under segs (bs "rpcz") -> q <> under segs (bs "tracez") -> q <> under segs (bs "public") ->
  serve m' host q = serve m host q.
Proof.
  intros HP HO Hh HH HQ A B C. apply (others_clean m p segs m' host q HP HO Hh HH). rewrite (clean_path_tidy q qs HQ).
  intros name [<-|[<-|[<-|[]]]]; assumption.
Qed.
Print Assumptions C88_others.

(** ** C88: when Handle panics. *)
Theorem C88_panics m p segs :
  abs_prefix p segs ->
  (snd (zp_handle m p) = false <->
   exists name h, In name [bs "rpcz"; bs "tracez"; bs "public"] /\ In (under segs name, h) m).
Proof.
  intros HP. destruct (abs_patterns p segs HP) as (A & B & C).
  assert (D1 : under segs (bs "rpcz") <> under segs (bs "tracez")) by (intros E; apply under_inj in E; discriminate E).
  assert (D2 : under segs (bs "rpcz") <> under segs (bs "public")) by (intros E; apply under_inj in E; discriminate E).
  assert (D3 : under segs (bs "tracez") <> under segs (bs "public")) by (intros E; apply under_inj in E; discriminate E).
  assert (IN : forall x, (exists h, In (x, h) m) <-> mux_get m x <> None).
  { intros x. split.
    - intros [h Hi]. induction m as [|[q k] r IH]; [destruct Hi|]. cbn [mux_get]. destruct (bytes_eqb_spec q x); [discriminate|].
      destruct Hi as [[= -> ->]|Hi]; [congruence|auto].
    - intros Hn. destruct (mux_get m x) as [h|] eqn:E; [exists h; now apply mux_get_in|congruence]. }
  assert (E : snd (zp_handle m p) = false <-> mux_get m (under segs (bs "rpcz")) <> None \/ mux_get m (under segs (bs "tracez")) <> None \/ mux_get m (under segs (bs "public")) <> None).
  { unfold zp_handle. rewrite A, B, C. unfold mux_add.
    destruct (under_starts segs (bs "rpcz")) as [a Ea], (under_starts segs (bs "tracez")) as [b Eb], (under_starts segs (bs "public")) as [c Ec].
    rewrite Ea, Eb, Ec in *. 
    destruct (mux_get m (slash :: a)) eqn:E1; [split; [left; discriminate|reflexivity]|].
    rewrite mux_get_app. destruct (mux_get m (slash :: b)) eqn:E2; [split; [right; left; discriminate|reflexivity]|].
    cbn [mux_get]. rewrite (bytes_eqb_neq (slash :: a) (slash :: b)) by assumption.
    rewrite !mux_get_app. destruct (mux_get m (slash :: c)) eqn:E3; [split; [right; right; discriminate|reflexivity]|].
    cbn [mux_get]. rewrite !bytes_eqb_neq by assumption. cbn [snd]. split; [discriminate|intuition congruence]. }
  rewrite E, <- !IN. split.
  - intros [[h H]|[[h H]|[h H]]]; [exists (bs "rpcz"), h|exists (bs "tracez"), h|exists (bs "public"), h]; (split; [cbn; auto|exact H]).
  - intros (name & h & [<-|[<-|[<-|[]]]] & Hi); eauto.
Qed.
Print Assumptions C88_panics.

(** Handle twice for the same place, with or without the slash at the end, panics. *)
Theorem C88_twice m p p' segs m' :
  abs_prefix p segs -> abs_prefix p' segs -> zp_handle m p = (m', true) -> snd (zp_handle m' p') = false.
Proof.
  intros H H' HH. apply (C88_panics m' p' segs H'). destruct (abs_handle _ _ _ _ H HH) as (-> & _).
  exists (bs "rpcz"), HRpcz. split; [now left|]. apply in_or_app. right. now left.
Qed.
Print Assumptions C88_twice.

(** ** C88: a prefix without a slash at its start. *)

Lemma rel_patterns p segs : rel_prefix p segs ->
  path_join p (bs "rpcz") = join_byte slash (segs ++ [bs "rpcz"]) /\ path_join p (bs "tracez") = join_byte slash (segs ++ [bs "tracez"]) /\
  path_join p (bs "public/") = join_byte slash (segs ++ [bs "public"]).
Proof.
  intros H. repeat split; [apply (join_rel_prefix p segs _ H plain_rpcz)|apply (join_rel_prefix p segs _ H plain_tracez)|].
  exact (proj2 (join_rel_prefix p segs _ H plain_public)).
Qed.

Lemma longest_in m path e : longest m path = Some e -> In e m /\ ends_slash (fst e) = true.
Proof.
  unfold longest. assert (G : forall l b, fold_left (fun best e =>
    if ends_slash (fst e) && has_prefix path (fst e) then
      match best with Some b => if length (fst b) <? length (fst e) then Some e else best | None => Some e end
    else best) l b = Some e -> b = Some e \/ (In e l /\ ends_slash (fst e) = true)).
  { induction l as [|x l IH]; cbn [fold_left]; intros b H; [now left|]. apply IH in H. destruct H as [H|[H1 H2]]; [|right; split; [now right|exact H2]].
    destruct (ends_slash (fst x) && has_prefix path (fst x)) eqn:E; [|now left].
    apply andb_prop in E. destruct E as [E _].
    assert (X : b = Some e \/ x = e) by (destruct b as [b'|]; [destruct (length (fst b') <? length (fst x))|]; [right; congruence|now left|right; congruence]).
    destruct X as [X| ->]; [now left|]. right. split; [now left|exact E]. }
  intros H. apply G in H. destruct H as [H|H]; [discriminate|exact H].
Qed.

Lemma clean_starts q : clean_path q = q -> exists t, q = slash :: t.
Proof.
  unfold clean_path. destruct q as [|c q]; [discriminate|]. cbv zeta. destruct (byte_eqb_spec c slash) as [-> |]; [eauto|].
  rewrite clean_rooted. destruct (_ && _); cbn [app]; intros [= E _]; congruence.
Qed.

Lemma first_slash a b x y : ~ In slash a -> ~ In slash b -> a ++ slash :: x = b ++ slash :: y -> a = b /\ x = y.
Proof.
  revert b. induction a as [|c a IH]; intros [|d b] Ha Hb E.
  - injection E as ->. auto.
  - injection E as <- _. exfalso. apply Hb. now left.
  - injection E as -> _. exfalso. apply Ha. now left.
  - injection E as -> E. destruct (IH b) as [-> ->]; auto; [intros X; apply Ha; now right|intros X; apply Hb; now right].
Qed.

(** The first element of such a prefix is taken for the name of a host: the page is served for
    that host only, without the element in its path; with an empty prefix it is never served. *)
Theorem C88_relative m p segs m' host q :
  rel_prefix p segs -> own m -> ~ In (n2b 47) host -> zp_handle m p = (m', true) ->
  (serve m' host q = Served HTracez <-> exists r, segs = host :: r /\ q = under r (bs "tracez")).
Proof.
  intros HP HO Hh HH. apply zp_handle_ok in HH. destruct (rel_patterns p segs HP) as (A & B & C). rewrite A, B, C in HH.
  destruct HH as (-> & _ & Fr & _). set (new := [_; _; _]).
  assert (NT : forall x, mux_get (m ++ new) x = Some HTracez -> x = join_byte slash (segs ++ [bs "tracez"])).
  { intros x Hx. apply mux_get_in in Hx. apply in_app_or in Hx. destruct Hx as [Hx|Hx].
    - apply HO in Hx. destruct Hx as [[n Hn] _]. discriminate Hn.
    - destruct Hx as [Hx|[Hx|[Hx|[]]]]; [discriminate Hx|now injection Hx|discriminate Hx]. }
  assert (LN : forall x e, longest (m ++ new) x = Some e -> snd e <> HTracez).
  { intros x e Hx. rewrite longest_app in Hx.
    - apply longest_in in Hx. destruct e as [pat h], Hx as [Hi _]. apply HO in Hi. destruct Hi as [[n ->] _]. discriminate.
    - assert (K : forall name, plain name -> ends_slash (join_byte slash (segs ++ [name])) = false).
      { intros name Pn. destruct segs as [|s r]; [cbn; now apply plain_last|]. cbn [app]. rewrite join_rel, ends_slash_app; [now apply slashed_last|].
        destruct r; discriminate. }
      repeat constructor; cbn [fst]; apply K; auto using plain_rpcz, plain_tracez, plain_public. }
  assert (MT : forall x, mux_match (m ++ new) x = Some HTracez -> x = join_byte slash (segs ++ [bs "tracez"])).
  { intros x. unfold mux_match. destruct (mux_get (m ++ new) x) eqn:E; [intros [= ->]; now apply NT|].
    destruct (longest (m ++ new) x) as [e|] eqn:L; [|discriminate]. cbn [option_map]. intros [= X]. exfalso. now apply (LN x e L). }
  assert (JS : forall s r name, join_byte slash ((s :: r) ++ [name]) = s ++ under r name) by (intros; cbn [app]; now rewrite join_rel).
  split.
  - unfold serve. cbv zeta. destruct (should_redirect _ _ _); [discriminate|]. destruct (bytes_eqb_spec (clean_path q) q) as [Eq|]; cbn [negb]; [|discriminate].
    destruct (clean_starts q Eq) as [t Et]. 
    assert (NQ : q <> join_byte slash (segs ++ [bs "tracez"])).
    { intros X. destruct segs as [|s r]; [rewrite Et in X; discriminate X|]. rewrite JS, Et in X. destruct HP as [HP _]. inversion HP as [|? ? Ps _]; subst.
      destruct s as [|c s]; [destruct Ps; congruence|]. injection X as <- _. destruct Ps as (_ & Ps & _). apply Ps. now left. }
    unfold mux_handler. intros X.
    assert (Y : host ++ q = join_byte slash (segs ++ [bs "tracez"])).
    { destruct (has_hosts (m ++ new)).
      - destruct (mux_match (m ++ new) (host ++ q)) as [h|] eqn:E; [injection X as ->; now apply MT|].
        destruct (mux_match (m ++ new) q) as [h|] eqn:E2; [|discriminate]. injection X as ->. exfalso. now apply NQ, MT.
      - destruct (mux_match (m ++ new) q) as [h|] eqn:E2; [|discriminate]. injection X as ->. exfalso. now apply NQ, MT. }
    destruct segs as [|s r].
    + exfalso. cbn [app join_byte] in Y. assert (In slash (bs "tracez")) by (rewrite <- Y, Et; apply in_or_app; right; now left).
      destruct plain_tracez as (_ & Z & _). exact (Z H).
    + rewrite JS in Y. destruct (under_starts r (bs "tracez")) as [u Eu]. rewrite Eu, Et in Y.
      destruct HP as [HP _]. inversion HP as [|? ? Ps _]; subst.
      apply first_slash in Y; [|exact Hh|apply Ps]. destruct Y as [-> ->]. exists r. split; [reflexivity|now symmetry].
  - intros (r & -> & ->). destruct HP as [HP _]. inversion HP as [|? ? Ps Pr]; subst.
    assert (C0 : clean_path (under r (bs "tracez")) = under r (bs "tracez")).
    { apply (clean_path_tidy _ (r ++ [bs "tracez"])). split; [apply Forall_app; split; [exact Pr|constructor; auto using plain_tracez]|]. right. split; [destruct r; discriminate|reflexivity]. }
    assert (Hg : mux_get (m ++ new) (host ++ under r (bs "tracez")) = Some HTracez).
    { rewrite JS in Fr. rewrite mux_get_app, Fr. unfold new. rewrite !JS. cbn [mux_get]. rewrite bytes_eqb_neq, bytes_eqb_same; [reflexivity|].
      intros E. apply app_inv_head in E. apply under_inj in E. discriminate E. }
    assert (HHs : has_hosts (m ++ new) = true).
    { rewrite has_hosts_app. apply orb_true_iff. right. unfold new. rewrite !JS. unfold has_hosts. cbn [existsb fst].
      destruct host as [|c h]; [destruct Ps; congruence|]. cbn [app]. destruct (byte_eqb_spec c slash) as [-> |]; [exfalso; apply Hh; now left|reflexivity]. }
    unfold serve. cbv zeta. rewrite C0. unfold should_redirect. cbv zeta. rewrite Hg, orb_true_r, bytes_eqb_same. cbn [negb].
    unfold mux_handler. rewrite HHs. unfold mux_match. rewrite Hg. reflexivity.
Qed.
Print Assumptions C88_relative.

(** ** C88: the embedded stylesheet is never served. *)

Lemma split_mid c a b : split_byte c (a ++ c :: b) = split_byte c a ++ split_byte c b.
Proof.
  induction a as [|x a IH]; [cbn [app split_byte]; rewrite byte_eqb_refl; reflexivity|]. cbn [app split_byte]. rewrite IH.
  destruct (byte_eqb x c); [reflexivity|]. destruct (split_byte c a) as [|s r] eqn:E; [exfalso; now apply (split_byte_nonempty c a)|]. reflexivity.
Qed.

Lemma join_snoc c l x : exists a, join_byte c (l ++ [x]) = a ++ x.
Proof.
  induction l as [|s l [a IH]]; [exists []; reflexivity|]. destruct l as [|s' l].
  - exists (s ++ [c]). cbn. now rewrite <- app_assoc.
  - exists (s ++ c :: a). change (join_byte c ((s :: s' :: l) ++ [x])) with (s ++ c :: join_byte c ((s' :: l) ++ [x])). rewrite IH, <- app_assoc. reflexivity.
Qed.

Lemma public_pattern p : exists a, path_join p (bs "public/") = a ++ bs "public".
Proof.
  assert (F : forall r out, exists o, rev (fold_left (clean_seg r) (split_byte slash (bs "public/")) out) = o ++ [bs "public"]).
  { intros r out. change (split_byte slash (bs "public/")) with [bs "public"; []]. cbn [fold_left]. rewrite clean_seg_empty, clean_seg_plain by exact plain_public.
    cbn [rev]. eexists. reflexivity. }
  destruct p as [|c p]; [exists []; vm_compute; reflexivity|]. change (path_join (c :: p) (bs "public/")) with (clean ((c :: p) ++ slash :: bs "public/")).
  unfold clean. cbn [app]. change (c :: p ++ slash :: bs "public/") with ((c :: p) ++ slash :: bs "public/"). rewrite split_mid, fold_left_app.
  destruct (F (byte_eqb c slash) (fold_left (clean_seg (byte_eqb c slash)) (split_byte slash (c :: p)) [])) as [o Eo]. rewrite Eo.
  destruct (join_snoc slash o (bs "public")) as [a Ea]. cbv zeta. rewrite Ea.
  destruct (byte_eqb c slash); [exists (slash :: a); reflexivity|]. destruct o as [|o0 o]; exists a; reflexivity.
Qed.

Definition last_byte (s : bytes) : option byte := hd_error (rev s).

Lemma last_byte_app a b : b <> [] -> last_byte (a ++ b) = last_byte b.
Proof.
  intros H. unfold last_byte. rewrite rev_app_distr. destruct (rev b) as [|c l] eqn:E; [|reflexivity]. exfalso. apply H. rewrite <- (rev_involutive b), E. reflexivity.
Qed.

(** Whatever the prefix and the host, no request that reaches the file server gets a file. *)
Theorem C88_stylesheet m p m' host q name :
  own_any m -> zp_handle m p = (m', true) -> serve m' host q = Served HFiles -> file_server q <> FContent name.
Proof.
  intros HO HH. apply zp_handle_ok in HH. destruct HH as (-> & _). set (new := [_; _; _]). destruct (public_pattern p) as [a Ea].
  assert (ES : forall x, ends_slash x = match last_byte x with Some c => byte_eqb c slash | None => false end).
  { intros x. unfold ends_slash, last_byte. destruct (rev x); reflexivity. }
  assert (LB : last_byte (path_join p (bs "public/")) = Some (n2b 99)) by (rewrite Ea, last_byte_app by discriminate; reflexivity).
  assert (MT : forall x, mux_match (m ++ new) x = Some HFiles -> x = path_join p (bs "public/")).
  { intros x. unfold mux_match. destruct (mux_get (m ++ new) x) eqn:E.
    - intros [= ->]. apply mux_get_in, in_app_or in E. destruct E as [E|[E|[E|[E|[]]]]]; try discriminate E; [apply HO in E; destruct E as [n E]; discriminate E|now injection E].
    - destruct (longest (m ++ new) x) as [[pat h]|] eqn:L; [|discriminate]. cbn [option_map snd]. intros [= ->]. apply longest_in in L. cbn [fst] in L.
      destruct L as [L1 L2]. apply in_app_or in L1. destruct L1 as [E1|[E1|[E1|[E1|[]]]]]; try discriminate E1; [apply HO in E1; destruct E1 as [n E1]; discriminate E1|].
      injection E1 as <-. rewrite ES, LB in L2. discriminate L2. }
  unfold serve. cbv zeta. destruct (should_redirect _ _ _); [discriminate|]. destruct (bytes_eqb_spec (clean_path q) q) as [Eq|]; cbn [negb]; [|discriminate].
  destruct (clean_starts q Eq) as [t Et]. intros X.
  assert (Y : last_byte q = Some (n2b 99)).
  { assert (Z : host ++ q = path_join p (bs "public/") \/ q = path_join p (bs "public/")).
    { unfold mux_handler in X. destruct (has_hosts (m ++ new)).
      - destruct (mux_match (m ++ new) (host ++ q)) as [h|] eqn:E; [injection X as ->; left; now apply MT|].
        destruct (mux_match (m ++ new) q) as [h|] eqn:E2; [|discriminate]. injection X as ->. right. now apply MT.
      - destruct (mux_match (m ++ new) q) as [h|] eqn:E2; [|discriminate]. injection X as ->. right. now apply MT. }
    destruct Z as [Z|Z]; rewrite <- Z in LB; [rewrite last_byte_app in LB by (rewrite Et; discriminate)|]; exact LB. }
  assert (NS : ends_slash q = false) by (rewrite ES, Y; reflexivity).
  assert (CQ : clean q = q).
  { unfold clean_path in Eq. rewrite Et in Eq. rewrite byte_eqb_refl in Eq. cbv zeta in Eq. rewrite <- Et in Eq. rewrite NS in Eq. exact Eq. }
  assert (N : clean (match q with c :: _ => if byte_eqb c slash then q else slash :: q | [] => [slash] end) = q).
  { rewrite Et at 1. cbv iota. rewrite byte_eqb_refl. exact CQ. }
  unfold file_server. rewrite N. cbv zeta.
  unfold esc_open. rewrite CQ. destruct (find _ esc_data) as [[n d]|] eqn:E; [|discriminate]. cbn [snd].
  apply find_some in E. cbn [fst] in E. destruct E as [Ei En]. apply bytes_eqb_eq in En. subst n.
  rewrite NS. destruct d; [discriminate|]. exfalso.
  destruct Ei as [Ei|[Ei|[Ei|[Ei|[Ei|[Ei|[Ei|[Ei|[Ei|[]]]]]]]]]]; injection Ei as Ei; try discriminate; rewrite <- Ei in Y; vm_compute in Y; discriminate Y.
Qed.
Print Assumptions C88_stylesheet.

(** The pages refer to "public/opencensus.css" beside them; it is not found. *)
Theorem C88_stylesheet_missing p segs m' host :
  abs_prefix p segs -> zp_handle [] p = (m', true) -> ~ In (n2b 47) host ->
  serve m' host (under (segs ++ [bs "public"]) (bs "opencensus.css")) = NotFound.
Proof.
  intros HP HH Hh. rewrite (C88_others [] p segs m' host _ ((segs ++ [bs "public"]) ++ [bs "opencensus.css"])); auto.
  - unfold serve. cbv zeta. cbn [mux_get].
    assert (PC : plain (bs "opencensus.css")) by (repeat split; try discriminate; vm_compute; intuition discriminate).
    assert (AP : abs_prefix (under (segs ++ [bs "public"]) (bs "opencensus.css")) ((segs ++ [bs "public"]) ++ [bs "opencensus.css"])).
    { split; [rewrite !Forall_app; repeat split; auto using plain_public; apply HP|]. right. split; [destruct segs; discriminate|reflexivity]. }
    rewrite (clean_path_tidy _ _ AP), bytes_eqb_same. reflexivity.
  - intros pat h [].
  - split; [rewrite !Forall_app; repeat split; auto using plain_public; [apply HP|]; repeat constructor; try discriminate; vm_compute; intuition discriminate|]. right. split; [destruct segs; discriminate|reflexivity].
  - rewrite !under_slashed, <- app_assoc, !(slashed_app segs). intros E. apply app_inv_head in E. discriminate E.
  - rewrite !under_slashed, <- app_assoc, !(slashed_app segs). intros E. apply app_inv_head in E. discriminate E.
  - rewrite !under_slashed, <- app_assoc, !(slashed_app segs). intros E. apply app_inv_head in E. discriminate E.
Qed.
Print Assumptions C88_stylesheet_missing.

(** ** C88: importing the package is enough to turn the span store and the views on. *)
Theorem C88_enabled ops :
  z_enabled (z_run ops) = true /\ z_views (z_run ops) = 1 /\ z_exports (z_run ops) = 1.
Proof.
  unfold z_run. assert (H : z_once z_import = true /\ z_enabled z_import = true /\ z_views z_import = 1 /\ z_exports z_import = 1) by (vm_compute; auto).
  revert H. generalize z_import. induction ops as [|op ops IH]; intros w (A & B & C & D); [auto|]. cbn [fold_left]. apply IH.
  destruct op as [|i pat n|i pre]; cbn [z_step].
  - cbn. auto.
  - destruct (nth_error _ _); [|auto]. destruct (mux_add _ _ _); cbn; auto.
  - unfold z_enable. rewrite A. cbv zeta. destruct (nth_error _ _); cbn; auto.
Qed.
Print Assumptions C88_enabled.

(** The deprecated Handler keeps serving the pages at the root, whatever the program does,
    unless the program adds handlers to the mux behind it (it is an http.Handler). *)
Theorem C88_handler ops host :
  (forall op, In op ops -> match op with ZUser i _ _ => i <> 0 | ZHandle i _ => i <> Some 0 | ZNew => True end) ->
  exists m, nth_error (z_muxes (z_run ops)) 0 = Some m /\
  serve m host (bs "/tracez") = Served HTracez /\ serve m host (bs "/rpcz") = Served HRpcz.
Proof.
  intros H. assert (E : nth_error (z_muxes (z_run ops)) 0 = Some (z_new [])).
  { unfold z_run. assert (H0 : nth_error (z_muxes z_import) 0 = Some (z_new []) /\ z_once z_import = true) by (vm_compute; auto).
    revert H0. generalize z_import. induction ops as [|op ops IH]; intros w (A & O); [exact A|]. cbn [fold_left]. apply IH; [intros o Ho; apply H; now right|].
    specialize (H op (or_introl eq_refl)). destruct w as [on en vi ex ms]. cbn [z_muxes z_once] in A, O. subst on. destruct ms as [|m0 ms]; [discriminate|].
    destruct op as [|i pat n|i pre]; cbn [z_step z_enable z_once z_muxes].
    - cbn. auto.
    - destruct i as [|i]; [congruence|]. cbn [nth_error]. destruct (nth_error ms i); [|auto]. destruct (mux_add _ _ _); cbn; auto.
    - destruct i as [[|i]|]; [congruence| |]; cbv zeta; cbn [nth_error]; [destruct (nth_error ms i)|destruct ms as [|m1 ms]]; cbn; auto. }
  exists (z_new []). split; [exact E|]. change (z_new []) with (fst (zp_handle [] [slash])).
  apply (C88_pages [] [slash] [] (fst (zp_handle [] [slash])) host); [split; [constructor|left; reflexivity]|intros pat h []|reflexivity].
Qed.
Print Assumptions C88_handler.

Lemma set_nth_get {A} (l : list A) i x j : nth_error (set_nth i x l) j =
  if j =? i then match nth_error l i with Some _ => Some x | None => None end else nth_error l j.
Proof.
  revert i j. induction l as [|y l IH]; intros i j.
  - cbn [set_nth]. destruct (j =? i); destruct i, j; reflexivity.
  - destruct i as [|i], j as [|j]; try reflexivity. cbn [set_nth nth_error]. rewrite IH. reflexivity.
Qed.

(** Handle without a mux adds the pages to http.DefaultServeMux, Handle with one to that; the
    others stay as they are. *)
Theorem C88_target ops i p segs m host :
  let k := match i with Some k => k | None => 1 end in
  nth_error (z_muxes (z_run ops)) k = Some m -> abs_prefix p segs -> own m ->
  (forall name h, In name [bs "rpcz"; bs "tracez"; bs "public"] -> ~ In (under segs name, h) m) ->
  (exists m', nth_error (z_muxes (z_run (ops ++ [ZHandle i p]))) k = Some m' /\
     serve m' host (under segs (bs "tracez")) = Served HTracez /\ serve m' host (under segs (bs "rpcz")) = Served HRpcz) /\
  (forall j, j <> k -> nth_error (z_muxes (z_run (ops ++ [ZHandle i p]))) j = nth_error (z_muxes (z_run ops)) j).
Proof.
  intros k Hm HP HO Fr. unfold z_run. rewrite fold_left_app. fold (z_run ops). cbn [fold_left z_step].
  assert (E : z_muxes (z_enable (z_run ops)) = z_muxes (z_run ops)) by (unfold z_enable; destruct (z_once (z_run ops)); reflexivity).
  cbv zeta. rewrite E. fold k. rewrite Hm. cbn [z_muxes].
  destruct (zp_handle m p) as [m' b] eqn:EH. cbn [fst].
  assert (b = true) as ->.
  { destruct b; [reflexivity|]. exfalso. assert (X : snd (zp_handle m p) = false) by now rewrite EH. apply (C88_panics m p segs HP) in X.
    destruct X as (name & h & Hn & Hi). now apply (Fr name h Hn). }
  split.
  - exists m'. rewrite set_nth_get, Nat.eqb_refl, Hm. split; [reflexivity|]. exact (C88_pages m p segs m' host HP HO EH).
  - intros j Hj. rewrite set_nth_get. apply Nat.eqb_neq in Hj. now rewrite Hj.
Qed.
Print Assumptions C88_target.

(** ** Examples *)

(** Prefixes that meet the hypotheses. *)
Example C88_example_prefix : abs_prefix (bs "/debug/") [bs "debug"] /\ abs_prefix (bs "/debug") [bs "debug"] /\ rel_prefix (bs "debug") [bs "debug"].
Proof.
  assert (P : plain (bs "debug")) by (repeat split; try discriminate; vm_compute; intuition discriminate).
  split; [|split]; (split; [auto|]); [left; reflexivity|right; split; [discriminate|reflexivity]|left; reflexivity].
Qed.

(** A mux with a handler of the program for everything. *)
Definition ex_mux : list (bytes * hdl) := [(bs "/", HUser 1)].

Example C88_example_own : own ex_mux /\ own_any ex_mux /\ snd (zp_handle ex_mux (bs "/debug")) = true.
Proof.
  split; [|split; [|vm_compute; reflexivity]].
  - intros pat h [[= <- <-]|[]]. split; [exists 1; reflexivity|exists []; reflexivity].
  - intros pat h [[= <- <-]|[]]. exists 1; reflexivity.
Qed.

Example C88_example_pages :
  let m := fst (zp_handle ex_mux (bs "/debug")) in
  (serve m (bs "localhost") (bs "/debug/tracez"), serve m (bs "localhost") (bs "/debug/tracez/"), serve m (bs "localhost") (bs "//debug/tracez"),
   serve m (bs "localhost") (bs "/tracez"), serve m (bs "localhost") (bs "/debug/public/opencensus.css")) =
  (Served HTracez, Served (HUser 1), Moved (bs "/debug/tracez"), Served (HUser 1), Served (HUser 1)).
Proof. vm_compute. reflexivity. Qed.

(** With the prefix "debug" the page is not at /debug/tracez, and requests to a host named debug
    see it at /tracez. *)
Theorem C88_relative_refuted :
  let m := fst (zp_handle [] (bs "debug")) in
  (serve m (bs "localhost") (bs "/debug/tracez"), serve m (bs "debug") (bs "/tracez"), snd (zp_handle [] (bs "debug"))) = (NotFound, Served HTracez, true).
Proof. vm_compute. reflexivity. Qed.

(** A request that reaches the file server: a redirection at the root, nothing elsewhere. *)
Example C88_example_files :
  (serve (fst (zp_handle [] (bs "/"))) (bs "localhost") (bs "/public"), file_server (bs "/public"), file_server (bs "/debug/public"),
   file_server (bs "/public/opencensus.css")) =
  (Served HFiles, FRedirect, FNotFound, FContent (bs "/public/opencensus.css")).
Proof. vm_compute. reflexivity. Qed.

(** A second Handle with the same mux panics. *)
Example C88_example_twice : snd (zp_handle (fst (zp_handle ex_mux (bs "/debug"))) (bs "/debug/")) = false.
Proof. vm_compute. reflexivity. Qed.

(** The pages of the deprecated Handler and of http.DefaultServeMux. *)
Example C88_example_run :
  let w := z_run [ZHandle None (bs "/debug"); ZNew; ZUser 2 (bs "/") 5; ZHandle (Some 2) (bs "/z")] in
  map (fun m => (serve m (bs "h") (bs "/tracez"), serve m (bs "h") (bs "/debug/tracez"), serve m (bs "h") (bs "/z/tracez"))) (z_muxes w) =
  [(Served HTracez, NotFound, NotFound); (NotFound, Served HTracez, NotFound); (Served (HUser 5), Served (HUser 5), Served HTracez)].
Proof. vm_compute. reflexivity. Qed.
