(** Property theorems for the registry of measures: C76.

    [mrun minit acts = Some s]: calls and steps of any number of goroutines, in any
    interleaving, lead to [s]. *)

From Coq Require Import String.
From Coq Require Import List Arith NArith Bool Lia ZifyBool ZifyNat.
From Verif Require Import Base GoMap TagModel AggModel ViewModel WorkerModel RecordModel AggProofs MeasureModel MeasureSpec MeasureProofs.
Import ListNotations.
Open Scope nat_scope.

(** Creating measures and subscribing to them is linearizable: there is an order of the
    calls, compatible with which returned before which was made, such that a measure has
    the name it was asked for, and the description and the unit that the first creation of
    that name asked for. *)
Theorem C76_linearizable acts s : mrun minit acts = Some s ->
  exists l, NoDup l /\
    (forall i c r, returned s i c r -> (forall ms, c <> MRecord ms) -> In i l) /\
    (forall i j, In i l -> In j l -> precedes acts i j -> before l i j) /\
    (forall i n d u r, returned s i (MCreate n d u) r ->
       exists p d0 u0, r = RMeasure p /\ first_creation s l n d0 u0 /\
         measure_name s p = Some n /\ measure_desc s p = Some d0 /\ measure_unit s p = Some u0) /\
    (forall i n r, returned s i (MSubscribe n) r -> exists k d u, before l k i /\ called s k (MCreate n d u)).
Proof.
  intros H. pose proof (minv_reach _ _ H) as I. set (lin := sections minit acts) in *. exists lin.
  assert (Hprec : forall acts1 acts2 s1, acts = acts1 ++ acts2 -> mrun minit acts1 = Some s1 ->
     exists l2, lin = sections minit acts1 ++ l2 /\ forall i, In i (sections minit acts1) -> i < length (ms_threads s1)).
  { intros acts1 acts2 s1 -> H1. exists (sections s1 acts2). split; [apply sections_app, H1|]. intros i Hi.
    apply (mi_lin _ _ (minv_reach _ _ H1)) in Hi. destruct Hi as (c & pc & E & _). apply nth_error_Some. congruence. }
  split; [apply I|]. split; [|split; [|split]].
  - intros i c r Hr Hc. apply (mi_lin _ _ I). exists c, (McDone r). split; [exact Hr|]. split; [exact Logic.I|exact Hc].
  - intros i j Hi Hj (acts1 & acts2 & s1 & c & r & E & H1 & Hr & Hl). destruct (Hprec _ _ _ E H1) as (l2 & El & Hlt).
    assert (Hi1 : In i (sections minit acts1)).
    { apply (mi_lin _ _ (minv_reach _ _ H1)). exists c, (McDone r). split; [exact Hr|]. split; [exact Logic.I|]. intros ms ->.
      apply (mi_lin _ _ I) in Hi. destruct Hi as (c' & pc' & E' & _ & Hn). rewrite E, mrun_app, H1 in H.
      pose proof (proj1 (proj2 (proj2 (grows_run _ _ _ H))) _ _ _ Hr) as Hr'. unfold returned in Hr'. rewrite E' in Hr'. injection Hr' as -> _. now apply (Hn ms). }
    assert (Hj2 : In j l2).
    { rewrite El in Hj. apply in_app_or in Hj. destruct Hj as [Hj|Hj]; [|exact Hj]. apply Hlt in Hj. lia. }
    apply in_split in Hi1. destruct Hi1 as (a & b & Ea). apply in_split in Hj2. destruct Hj2 as (b2 & c2 & Eb).
    exists a, (b ++ b2), c2. rewrite El, Ea, Eb, <- !app_assoc. reflexivity.
  - intros i n d u r Hr. pose proof (mi_pc _ _ I _ _ _ Hr) as Hp. cbn [pc_ok] in Hp. destruct Hp as (p & -> & Hm).
    apply (mi_map _ _ I) in Hm. destruct Hm as (dd & Hd & Hn). exists p, (dd_desc dd), (dd_unit dd). split; [reflexivity|].
    pose proof (mi_first _ _ I p dd Hd) as Hf. rewrite Hn in Hf. split; [exact Hf|]. unfold measure_name, measure_desc, measure_unit. rewrite Hd. cbn. now rewrite Hn.
  - intros i n r Hr. (* the step of [i] inside the lock found the name *)
    assert (Hgen : forall acts0 s0, mrun minit acts0 = Some s0 -> forall j, In j (sections minit acts0) -> called s0 j (MSubscribe n) ->
       exists k d u, before (sections minit acts0) k j /\ called s0 k (MCreate n d u)).
    { induction acts0 as [|a acts0 IH] using rev_ind; intros s0 H0 j Hj Hc; [destruct Hj|].
      rewrite mrun_app in H0. destruct (mrun minit acts0) as [s1|] eqn:E1; [|discriminate]. cbn [mrun] in H0.
      destruct (mstep s1 a) as [s2| |] eqn:E2; try discriminate. injection H0 as <-.
      rewrite (sections_app _ _ _ _ E1) in *. cbn [sections] in *. rewrite E2, app_nil_r in *. pose proof (minv_reach _ _ E1) as I1. pose proof (grows_step _ _ _ E2) as G.
      apply in_app_or in Hj. destruct Hj as [Hj|Hj].
      - assert (Hc1 : called s1 j (MSubscribe n)).
        { pose proof Hj as Hj'. apply (mi_lin _ _ I1) in Hj'. destruct Hj' as (c1 & q1 & E & _). destruct (proj1 (proj2 (proj2 (proj2 G))) j c1 (ex_intro _ q1 E)) as (q2 & E').
          destruct Hc as (q3 & E3). rewrite E' in E3. injection E3 as -> _. now exists q1. }
        destruct (IH s1 eq_refl j Hj Hc1) as (k & d & u & (x & y & z & Hb) & Hk). exists k, d, u. split; [|now apply G].
        exists x, y, (z ++ section_of s1 a). rewrite Hb, <- !app_assoc. cbn [app]. now rewrite <- app_assoc.
      - destruct a as [c|i0]; [destruct Hj|]. cbn [section_of] in Hj. destruct (thr s1 i0) as [[c1 pc1]|] eqn:Et; [|destruct Hj]. destruct pc1; try destruct Hj as []; try contradiction.
        subst i0. destruct (proj1 (proj2 (proj2 (proj2 G))) j c1 (ex_intro _ _ Et)) as (q2 & E'). destruct Hc as (q3 & E3). rewrite E' in E3. injection E3 as -> _.
        cbn [mstep] in E2. rewrite Et in E2. destruct (mget bytes_eqb (ms_map s1) n) as [p|] eqn:Em; [|discriminate E2].
        apply (mi_map _ _ I1) in Em. destruct Em as (dd & Hd & Hn). destruct (mi_first _ _ I1 p dd Hd) as (x & k & y & El & Hk & _). rewrite Hn in Hk.
        exists k, (dd_desc dd), (dd_unit dd). split; [|now apply G]. exists x, y, []. rewrite El, <- app_assoc. cbn [section_of app]. now rewrite Et. }
    apply (Hgen acts s H i); [|exists (McDone r); exact Hr]. apply (mi_lin _ _ I). exists (MSubscribe n), (McDone r). split; [exact Hr|]. split; [exact Logic.I|discriminate].
Qed.

(** Two measures are one and the same exactly if they have the same name. *)
Theorem C76_identity acts s i i' n n' d d' u u' p p' : mrun minit acts = Some s ->
  returned s i (MCreate n d u) (RMeasure p) -> returned s i' (MCreate n' d' u') (RMeasure p') -> (p = p' <-> n = n').
Proof.
  intros H Hr Hr'. pose proof (minv_reach _ _ H) as I. apply (mi_pc _ _ I) in Hr, Hr'. cbn [pc_ok] in *.
  destruct Hr as (q & E & Hm). injection E as <-. destruct Hr' as (q & E & Hm'). injection E as <-. split; [|intros <-; congruence].
  intros <-. apply (mi_map _ _ I) in Hm, Hm'. destruct Hm as (dd & Hd & Hn). destruct Hm' as (dd' & Hd' & Hn'). congruence.
Qed.

(** Name, description and unit of a measure never change. *)
Theorem C76_stable s acts s' p : mrun s acts = Some s' -> measure_name s p <> None ->
  measure_name s' p = measure_name s p /\ measure_desc s' p = measure_desc s p /\ measure_unit s' p = measure_unit s p.
Proof.
  intros H Hp. unfold measure_name, measure_desc, measure_unit in *. destruct (nth_error (ms_heap s) p) as [d|] eqn:E; [|contradiction].
  destruct (proj1 (grows_run _ _ _ H) p d E) as (d' & -> & A & B & C & _). cbn. now rewrite A, B, C.
Qed.

(** Record hands its measurements over if a view over one of the measures, by whichever
    creation of its name, had been registered before; and only if one has been. *)
Lemma record_called acts s i ms k : mrun minit acts = Some s -> called s i (MRecord ms) -> In (Some k) ms ->
  exists n d u p dd, returned s k (MCreate n d u) (RMeasure p) /\ nth_error (ms_heap s) p = Some dd /\ dd_name dd = n.
Proof.
  revert s. induction acts as [|a acts IH] using rev_ind; intros s H Hc Hk.
  - injection H as <-. destruct Hc as (pc & E). destruct i; discriminate.
  - rewrite mrun_app in H. destruct (mrun minit acts) as [s1|] eqn:E1; [|discriminate]. cbn [mrun] in H. destruct (mstep s1 a) as [s2| |] eqn:E2; try discriminate. injection H as <-.
    pose proof (grows_step _ _ _ E2) as G. pose proof (minv_reach _ _ E1) as I1.
    assert (Hold : called s1 i (MRecord ms) \/ a = ACall (MRecord ms)).
    { destruct Hc as (pc & E). destruct a as [c|j].
      - destruct c as [n d u|n|ms']; cbn [mstep] in E2.
        + injection E2 as <-. cbn [ms_threads] in E. destruct (Nat.lt_ge_cases i (length (ms_threads s1))) as [Hi|Hi].
          * rewrite nth_error_app1 in E by exact Hi. left. now exists pc.
          * rewrite nth_error_app2 in E by exact Hi. destruct (i - length (ms_threads s1)) as [|z]; cbn in E; [discriminate|destruct z; discriminate].
        + injection E2 as <-. cbn [ms_threads] in E. destruct (Nat.lt_ge_cases i (length (ms_threads s1))) as [Hi|Hi].
          * rewrite nth_error_app1 in E by exact Hi. left. now exists pc.
          * rewrite nth_error_app2 in E by exact Hi. destruct (i - length (ms_threads s1)) as [|z]; cbn in E; [discriminate|destruct z; discriminate].
        + destruct (resolve s1 ms'); [|discriminate]. injection E2 as <-. cbn [ms_threads] in E. destruct (Nat.lt_ge_cases i (length (ms_threads s1))) as [Hi|Hi].
          * rewrite nth_error_app1 in E by exact Hi. left. now exists pc.
          * rewrite nth_error_app2 in E by exact Hi. destruct (i - length (ms_threads s1)) as [|z]; cbn in E; [injection E as -> _; now right|destruct z; discriminate].
      - left. assert (Hl : i < length (ms_threads s1)).
        { assert (Hs : i < length (ms_threads s2)) by (apply nth_error_Some; congruence).
          enough (length (ms_threads s2) = length (ms_threads s1)) by lia. cbn [mstep] in E2. destruct (thr s1 j) as [[c q]|]; [|discriminate].
          destruct q as [| |r|ps|r]; destruct c; try discriminate;
            repeat match type of E2 with context [match ?x with _ => _ end] => destruct x; try discriminate end;
            injection E2 as <-; cbn [ms_threads]; apply set_pc_length. }
        destruct (thr s1 i) as [[c q]|] eqn:E0; [|apply nth_error_None in E0; lia]. destruct (proj1 (proj2 (proj2 (proj2 G))) i c (ex_intro _ q E0)) as (q' & E'). rewrite E in E'. injection E' as -> _. now exists q. }
    destruct Hold as [Ho| ->].
    + destruct (IH s1 eq_refl Ho Hk) as (n & d & u & p & dd & A & B & C). destruct (proj1 G p dd B) as (dd' & B' & C' & _). exists n, d, u, p, dd'. split; [now apply G|]. split; [exact B'|congruence].
    + cbn [mstep] in E2. destruct (resolve s1 ms) as [ps|] eqn:Er; [|discriminate]. destruct (resolve_has _ _ _ _ Er Hk) as (p & Hp & _).
      unfold returned_ptr in Hp. destruct (thr s1 k) as [[c q]|] eqn:Ek; [|discriminate]. destruct q as [| | | |r]; try discriminate. destruct r as [p'| |]; try discriminate. injection Hp as ->.
      pose proof (mi_pc _ _ I1 _ _ _ Ek) as Hpc. destruct c as [n d u|n|ms']; cbn [pc_ok] in Hpc; [|discriminate|contradiction]. destruct Hpc as (p' & E & Hm). injection E as <-.
      apply (mi_map _ _ I1) in Hm. destruct Hm as (dd & Hd & Hn). destruct (proj1 G p dd Hd) as (dd' & Hd' & Hn' & _). exists n, d, u, p, dd'.
      split; [now apply G|]. split; [exact Hd'|congruence].
Qed.

Theorem C76_record_only_if acts s i ms : mrun minit acts = Some s -> returned s i (MRecord ms) (RSent true) ->
  exists k n d u r j, In (Some k) ms /\ returned s k (MCreate n d u) r /\ called s j (MSubscribe n).
Proof.
  intros H Hr. pose proof (minv_reach _ _ H) as I. pose proof (mi_pc _ _ I _ _ _ Hr) as Hp. cbn [pc_ok] in Hp. destruct Hp as (k & p & dd & Hk & Hp & Hd & Hs).
  destruct (record_called _ _ i ms _ H (ex_intro (fun q => thr s i = Some (MRecord ms, q)) (McDone (RSent true)) Hr) Hk) as (n & d & u & p' & dd' & A & B & C).
  assert (p' = p) by (unfold returned_ptr in Hp; unfold returned in A; rewrite A in Hp; congruence). subst p'. rewrite Hd in B. injection B as <-.
  apply (mi_subs _ _ I p dd Hd) in Hs. destruct Hs as (j & _ & Hc). rewrite C in Hc. exists k, n, d, u, (RMeasure p), j. auto.
Qed.

(** A record that has begun over a subscribed measure. *)
Definition will_send (s : mstate) (i : nat) : Prop :=
  exists c pc, thr s i = Some (c, pc) /\
    match pc with
    | McLoad ps => exists p d, In (Some p) ps /\ nth_error (ms_heap s) p = Some d /\ dd_subs d = true
    | McDone r => r = RSent true
    | _ => False
    end.

Lemma will_send_step s a s' i : mstep s a = MNext s' -> will_send s i -> will_send s' i.
Proof.
  intros E (c & pc & Et & Hp). pose proof (grows_step _ _ _ E) as G.
  assert (Hkeep : thr s' i = Some (c, pc) -> will_send s' i).
  { intros E'. exists c, pc. split; [exact E'|]. destruct pc as [| | |ps|r]; auto. destruct Hp as (p & d & A & B & C).
    destruct (proj1 G p d B) as (d' & B' & _ & _ & _ & C'). exists p, d'. auto. }
  assert (Happ : forall t, ms_threads s' = ms_threads s ++ [t] -> thr s' i = Some (c, pc)).
  { intros t ->. rewrite nth_error_app1; [exact Et|]. apply nth_error_Some. congruence. }
  assert (Hset : forall j q, j <> i -> ms_threads s' = set_pc s j q -> thr s' i = Some (c, pc)).
  { intros j q Hj ->. rewrite set_pc_nth. destruct (Nat.eqb_spec j i); [contradiction|exact Et]. }
  destruct a as [[n d u|n|ms]|j]; cbn [mstep] in E.
  - injection E as <-. apply Hkeep. eapply Happ. reflexivity.
  - injection E as <-. apply Hkeep. eapply Happ. reflexivity.
  - destruct (resolve s ms); [|discriminate]. injection E as <-. apply Hkeep. eapply Happ. reflexivity.
  - destruct (Nat.eq_dec j i) as [->|Hne].
    + rewrite Et in E. destruct pc as [| |r|ps|r]; try contradiction; [|destruct c; discriminate E]. destruct Hp as (p & d & A & B & C).
      destruct ps as [|[q|] ps]; [destruct A| |destruct c; discriminate E].
      destruct (nth_error (ms_heap s) q) as [dq|] eqn:Eq; [|destruct c; discriminate E].
      assert (E' : s' = MkMS (ms_lock s) (ms_heap s) (ms_map s) (set_pc s i (if dd_subs dq then McDone (RSent true) else McLoad ps))) by (destruct c; congruence).
      clear E. subst s'. exists c, (if dd_subs dq then McDone (RSent true) else McLoad ps). split; [cbn [ms_threads]; rewrite set_pc_nth, Nat.eqb_refl, Et; reflexivity|].
      destruct (dd_subs dq) eqn:Es; [reflexivity|]. destruct A as [A|A]; [injection A as ->; congruence|]. exists p, d. auto.
    + destruct (thr s j) as [[c' q]|] eqn:Ej; [|discriminate E]. apply Hkeep.
      destruct q as [| |r|ps|r]; destruct c'; try discriminate E;
        repeat match type of E with context [match ?x with _ => _ end] => destruct x; try discriminate E end;
        injection E as <-; (eapply Hset; [exact Hne|reflexivity]).
Qed.

Theorem C76_record_if acts s i ms b j k n d u : mrun minit acts = Some s -> returned s i (MRecord ms) (RSent b) ->
  In (Some k) ms -> called s k (MCreate n d u) -> called s j (MSubscribe n) -> precedes acts j i -> b = true.
Proof.
  intros H Hr Hk Hc Hj (acts1 & acts2 & s1 & c & r & E & H1 & Hr1 & Hl). subst acts. rewrite mrun_app, H1 in H.
  assert (Hw : forall acts2 s2 s, mrun s2 acts2 = Some s -> will_send s2 i -> will_send s i).
  { clear. induction acts2 as [|a acts2 IH]; intros s2 s H Hw; cbn [mrun] in H; [now injection H as <-|]. destruct (mstep s2 a) as [s3| |] eqn:E; try discriminate.
    eapply IH; [exact H|]. eapply will_send_step; eauto. }
  enough (Hs : will_send s i).
  { destruct Hs as (c' & pc & E & Hp). unfold returned in Hr. rewrite E in Hr. injection Hr as -> ->. congruence. }
  pose proof (proj1 (proj2 (proj2 (grows_run _ _ _ H))) _ _ _ Hr1) as Hr1'.
  assert (Hcj : c = MSubscribe n) by (destruct Hj as (q & Ej); unfold returned in Hr1'; congruence). subst c.
  (* the call of [i] is made somewhere in the rest of the history *)
  clear Hr1' Hj. revert s1 acts1 H1 Hr1 Hl H. induction acts2 as [|a acts2 IH]; intros s1 acts1 H1 Hr1 Hl H.
  - cbn in H. injection H as <-. unfold returned in Hr. assert (i < length (ms_threads s1)) by (apply nth_error_Some; congruence). lia.
  - cbn [mrun] in H. destruct (mstep s1 a) as [s2| |] eqn:E2; try discriminate.
    assert (H2 : mrun minit (acts1 ++ [a]) = Some s2) by (rewrite mrun_app, H1; cbn [mrun]; now rewrite E2).
    pose proof (grows_step _ _ _ E2) as G. destruct (Nat.le_gt_cases (length (ms_threads s2)) i) as [Hle|Hgt].
    + exact (IH s2 (acts1 ++ [a]) H2 (proj1 (proj2 (proj2 G)) _ _ _ Hr1) Hle H).
    + eapply Hw; [exact H|]. clear IH.
      assert (Hms : exists ps, a = ACall (MRecord ms) /\ resolve s1 ms = Some ps /\ i = length (ms_threads s1) /\ thr s2 i = Some (MRecord ms, McLoad ps) /\ ms_heap s2 = ms_heap s1).
      { pose proof (proj1 (proj2 (proj2 (proj2 (grows_run _ _ _ H))))) as Gc.
        assert (Hthis : forall c0 q, thr s2 i = Some (c0, q) -> c0 = MRecord ms).
        { intros c0 q E0. destruct (Gc i c0 (ex_intro _ q E0)) as (q' & E'). unfold returned in Hr. congruence. }
        destruct a as [[n0 d0 u0|n0|ms0]|i0]; cbn [mstep] in E2.
        - injection E2 as <-. cbn [ms_threads] in *. rewrite app_length in Hgt. cbn in Hgt. assert (i = length (ms_threads s1)) as -> by lia.
          specialize (Hthis (MCreate n0 d0 u0) McStart). rewrite nth_error_app2, Nat.sub_diag in Hthis by lia. specialize (Hthis eq_refl). discriminate.
        - injection E2 as <-. cbn [ms_threads] in *. rewrite app_length in Hgt. cbn in Hgt. assert (i = length (ms_threads s1)) as -> by lia.
          specialize (Hthis (MSubscribe n0) McStart). rewrite nth_error_app2, Nat.sub_diag in Hthis by lia. specialize (Hthis eq_refl). discriminate.
        - destruct (resolve s1 ms0) as [ps|] eqn:Er; [|discriminate]. injection E2 as <-. cbn [ms_threads ms_heap] in *. rewrite app_length in Hgt. cbn in Hgt. assert (i = length (ms_threads s1)) as -> by lia.
          specialize (Hthis (MRecord ms0) (McLoad ps)). rewrite nth_error_app2, Nat.sub_diag in Hthis by lia. specialize (Hthis eq_refl). injection Hthis as ->.
          exists ps. rewrite nth_error_app2, Nat.sub_diag by lia. auto.
        - exfalso. enough (length (ms_threads s2) = length (ms_threads s1)) by lia. destruct (thr s1 i0) as [[c q]|]; [|discriminate E2].
          destruct q as [| |r0|ps|r0]; destruct c; try discriminate E2;
            repeat match type of E2 with context [match ?x with _ => _ end] => destruct x; try discriminate E2 end;
            injection E2 as <-; cbn [ms_threads]; apply set_pc_length. }
      destruct Hms as (ps & _ & Er & Ei & Et & Eh). exists (MRecord ms), (McLoad ps). split; [exact Et|]. rewrite Eh.
      destruct (resolve_has _ _ _ _ Er Hk) as (p & Hp & Hin). exists p. pose proof (minv_reach _ _ H1) as I1.
      unfold returned_ptr in Hp. destruct (thr s1 k) as [[ck qk]|] eqn:Ek; [|discriminate]. destruct qk as [| | | |rk]; try discriminate. destruct rk as [p'| |]; try discriminate. injection Hp as ->.
      assert (Hck : ck = MCreate n d u).
      { destruct (proj1 (proj2 (proj2 (proj2 G))) k ck (ex_intro _ _ Ek)) as (q2 & E3). destruct (proj1 (proj2 (proj2 (proj2 (grows_run _ _ _ H)))) k ck (ex_intro _ q2 E3)) as (q3 & E4).
        destruct Hc as (q4 & E5). congruence. }
      subst ck. pose proof (mi_pc _ _ I1 _ _ _ Ek) as Hpc. cbn [pc_ok] in Hpc. destruct Hpc as (p' & Ep & Hm). injection Ep as <-.
      apply (mi_map _ _ I1) in Hm. destruct Hm as (dd & Hd & Hn). exists dd. split; [exact Hin|]. split; [exact Hd|]. apply (mi_subs _ _ I1 p dd Hd). exists j.
      split; [|exists (McDone r); rewrite Hn; exact Hr1]. apply (mi_lin _ _ I1). exists (MSubscribe n), (McDone r). split; [exact Hr1|]. split; [exact Logic.I|discriminate].
Qed.

(** The flags, seen from outside, are a set of names: this is what the model of Record
    (RecordModel.v) and of the worker (WorkerModel.v) have instead of the registry. *)
Theorem C76_by_name acts s ms xs subs b : mrun minit acts = Some s ->
  Forall2 (fun o x => match o, x with
                      | Some k, Some (me, _) => exists d u r, returned s k (MCreate (me_name me) d u) r
                      | None, None => True
                      | _, _ => False
                      end) ms xs ->
  (forall n, In n subs <-> exists p d, nth_error (ms_heap s) p = Some d /\ dd_name d = n /\ dd_subs d = true) ->
  any_subscribed subs xs = Some b ->
  exists k s', mrun s (ACall (MRecord ms) :: repeat (AStep (length (ms_threads s))) k) = Some s' /\
    returned s' (length (ms_threads s)) (MRecord ms) (RSent b).
Proof.
  intros H Hf Hsubs Hb. pose proof (minv_reach _ _ H) as I.
  assert (Hps : exists ps, resolve s ms = Some ps /\
    Forall2 (fun o x => match o, x with
                        | Some p, Some (me, _) => exists d, nth_error (ms_heap s) p = Some d /\ dd_name d = me_name me
                        | None, None => True
                        | _, _ => False
                        end) ps xs).
  { clear Hb. induction Hf as [|o x ms xs Ho Hf IH]; [exists []; split; [reflexivity|constructor]|]. destruct IH as (ps & Er & Hps).
    destruct o as [k|], x as [[me v]|]; try contradiction.
    - destruct Ho as (d & u & r & Hr). pose proof (mi_pc _ _ I _ _ _ Hr) as Hpc. cbn [pc_ok] in Hpc. destruct Hpc as (p & -> & Hm).
      apply (mi_map _ _ I) in Hm. exists (Some p :: ps). cbn [resolve]. unfold returned_ptr. unfold returned in Hr. rewrite Hr, Er. split; [reflexivity|]. now constructor.
    - exists (None :: ps). cbn [resolve]. rewrite Er. split; [reflexivity|]. now constructor. }
  destruct Hps as (ps & Er & Hps). set (i := length (ms_threads s)).
  enough (Hgen : forall s1, ms_heap s1 = ms_heap s -> thr s1 i = Some (MRecord ms, McLoad ps) ->
            exists k s', mrun s1 (repeat (AStep i) k) = Some s' /\ returned s' i (MRecord ms) (RSent b)).
  { destruct (Hgen (MkMS (ms_lock s) (ms_heap s) (ms_map s) (ms_threads s ++ [(MRecord ms, McLoad ps)]))) as (k & s' & Hrun & Hr); [reflexivity| |].
    - cbn [ms_threads]. unfold i. now rewrite nth_error_app2, Nat.sub_diag by lia.
    - exists k, s'. split; [|exact Hr]. cbn [mrun mstep]. rewrite Er. exact Hrun. }
  clear Er Hf. revert b Hb. induction Hps as [|o x ps xs Ho Hps IH]; intros b Hb s1 Hh Ht; cbn [any_subscribed] in Hb.
  - injection Hb as <-. eexists 1, _. cbn [repeat mrun mstep]. rewrite Ht. split; [reflexivity|]. unfold returned. cbn [ms_threads]. now rewrite set_pc_nth, Nat.eqb_refl, Ht.
  - destruct o as [p|], x as [[me v]|]; try contradiction; [|discriminate]. destruct Ho as (d & Hd & Hn).
    assert (Hflag : existsb (bytes_eqb (me_name me)) subs = dd_subs d).
    { destruct (dd_subs d) eqn:Es.
      - apply existsb_exists. exists (me_name me). split; [apply Hsubs; exists p, d; auto|]. now destruct (bytes_eqb_spec (me_name me) (me_name me)).
      - destruct (existsb (bytes_eqb (me_name me)) subs) eqn:Ex; [|reflexivity]. exfalso. apply existsb_exists in Ex. destruct Ex as (n & Hin & E).
        destruct (bytes_eqb_spec (me_name me) n) as [<-|]; [|discriminate]. apply Hsubs in Hin. destruct Hin as (q & dq & Hq & Hnq & Hsq).
        assert (A : mget bytes_eqb (ms_map s) (me_name me) = Some p) by (apply (mi_map _ _ I); eauto).
        assert (B : mget bytes_eqb (ms_map s) (me_name me) = Some q) by (apply (mi_map _ _ I); eauto). congruence. }
    rewrite Hflag in Hb. set (s2 := MkMS (ms_lock s1) (ms_heap s1) (ms_map s1) (set_pc s1 i (if dd_subs d then McDone (RSent true) else McLoad ps))).
    assert (Hstep : mstep s1 (AStep i) = MNext s2) by (cbn [mstep]; rewrite Ht, Hh, Hd; now rewrite <- Hh).
    assert (Ht2 : thr s2 i = Some (MRecord ms, if dd_subs d then McDone (RSent true) else McLoad ps)) by (unfold s2; cbn [ms_threads]; now rewrite set_pc_nth, Nat.eqb_refl, Ht).
    destruct (dd_subs d).
    + injection Hb as <-. exists 1, s2. cbn [repeat mrun]. rewrite Hstep. split; [reflexivity|exact Ht2].
    + destruct (IH b Hb s2 Hh Ht2) as (k & s' & Hr & Hd'). exists (S k), s'. cbn [repeat mrun]. now rewrite Hstep.
Qed.

(** Nothing panics, except a subscription to a name of which no measure has been returned,
    and the recording of a zero Measurement. *)
Theorem C76_no_panic acts s a : mrun minit acts = Some s -> mstep s a = MPanicked ->
  exists i, a = AStep i /\
    ((exists n, called s i (MSubscribe n) /\ forall k d u r, ~ returned s k (MCreate n d u) r) \/
     (exists ms, called s i (MRecord ms) /\ In None ms)).
Proof.
  intros H E. pose proof (minv_reach _ _ H) as I. destruct a as [[n d u|n|ms]|i]; cbn [mstep] in E; try discriminate E; [destruct (resolve s ms); discriminate E|].
  exists i. split; [reflexivity|]. destruct (thr s i) as [[c pc]|] eqn:Et; [|discriminate E]. pose proof (mi_pc _ _ I _ _ _ Et) as Hpc. destruct pc as [| |r|ps|r].
  - destruct c, (ms_lock s); discriminate E.
  - destruct c as [n d u|n|ms]; [destruct (register_measure _ _ _ _ _) as [[? ?] ?]; discriminate E| |discriminate E]. destruct (mget bytes_eqb (ms_map s) n) as [p|] eqn:Em; [discriminate E|].
    left. exists n. split; [eexists; exact Et|]. intros k d u r Hr. apply (mi_pc _ _ I) in Hr. cbn [pc_ok] in Hr. destruct Hr as (p & _ & Hm). congruence.
  - destruct c; discriminate E.
  - destruct c as [n d u|n|ms]; [destruct Hpc|destruct Hpc|]. destruct Hpc as (pre & Hpre). right. exists ms. split; [eexists; exact Et|].
    destruct ps as [|[p|] ps]; [discriminate E| |].
    + exfalso. destruct (resolve_in _ _ _ (Some p) Hpre) as (k & Hk & Hp); [apply in_or_app; right; now left|].
      destruct (record_called _ _ _ _ _ H (ex_intro _ _ Et) Hk) as (n & d & u & p' & dd & A & B & _). unfold returned_ptr in Hp. unfold returned in A. rewrite A in Hp. injection Hp as ->.
      rewrite B in E. discriminate E.
    + apply (resolve_in _ _ _ None Hpre). apply in_or_app. right. now left.
  - destruct c; discriminate E.
Qed.

(** A view over a Measure that package stats has not created makes it panic (in the worker's
    goroutine, so that the program ends). *)
Theorem C76_foreign_refuted : exists acts s, mrun minit acts = Some s /\ mstep s (AStep 2) = MPanicked /\
  called s 2 (MSubscribe (bs "mine")) /\ returned s 1 (MRecord [Some 0]) (RSent false).
Proof.
  exists [ACall (MCreate (bs "other") [] (bs "1")); AStep 0; AStep 0; AStep 0; ACall (MRecord [Some 0]); ACall (MSubscribe (bs "mine")); AStep 1; AStep 2; AStep 1].
  eexists. split; [vm_compute; reflexivity|]. split; [vm_compute; reflexivity|]. split; [eexists; vm_compute; reflexivity|vm_compute; reflexivity].
Qed.

(** Only one call is inside the lock, and no call waits for ever: if one has not returned,
    some call can go on. *)
Theorem C76_progress acts s : mrun minit acts = Some s ->
  (forall i j c c' r r', (thr s i = Some (c, McLocked) \/ thr s i = Some (c, McUnlock r)) ->
                         (thr s j = Some (c', McLocked) \/ thr s j = Some (c', McUnlock r')) -> i = j) /\
  ((exists i c, called s i c /\ forall r, ~ returned s i c r) -> exists j, mstep s (AStep j) <> MBlocked).
Proof.
  intros H. pose proof (minv_reach _ _ H) as I. split.
  - intros i j c c' r r' Hi Hj.
    assert (A : ms_lock s = Some i) by (apply (mi_lock _ _ I); destruct Hi as [Hi|Hi]; (eexists _, _; split; [exact Hi|exact Logic.I])).
    assert (B : ms_lock s = Some j) by (apply (mi_lock _ _ I); destruct Hj as [Hj|Hj]; (eexists _, _; split; [exact Hj|exact Logic.I])). congruence.
  - intros (i & c & (pc & Et) & Hn).
    assert (Hlock : forall j, ms_lock s = Some j -> exists j, mstep s (AStep j) <> MBlocked).
    { intros j Hl. apply (mi_lock _ _ I) in Hl. destruct Hl as (c' & q & Ej & Hh). exists j. cbn [mstep]. rewrite Ej. pose proof (mi_pc _ _ I _ _ _ Ej) as Hpc.
      destruct q as [| |r|ps|r]; try contradiction.
      - destruct c' as [n d u|n|ms]; [destruct (register_measure _ _ _ _ _) as [[? ?] ?]; discriminate|destruct (mget _ _ _); discriminate|contradiction].
      - destruct c'; discriminate. }
    destruct pc as [| |r|ps|r].
    + destruct (ms_lock s) as [j|] eqn:El; [now apply (Hlock j)|]. exists i. cbn [mstep]. rewrite Et, El. destruct c; discriminate.
    + apply (Hlock i). apply (mi_lock _ _ I). exists c, McLocked. split; [exact Et|exact Logic.I].
    + apply (Hlock i). apply (mi_lock _ _ I). exists c, (McUnlock r). split; [exact Et|exact Logic.I].
    + exists i. cbn [mstep]. rewrite Et. destruct ps as [|[p|] ps]; [|destruct (nth_error (ms_heap s) p)|]; destruct c; discriminate.
    + exfalso. apply (Hn r). exact Et.
Qed.

(** Two goroutines create a measure of one name at the same time; a view over the one is
    registered; a measurement of the other is sent. *)
Definition ex_macts : list mact :=
  [ACall (MCreate (bs "latency") (bs "first") (bs "ms")); ACall (MCreate (bs "latency") (bs "second") (bs "s")); ACall (MCreate (bs "size") (bs "third") (bs "By"));
   AStep 1; AStep 1; AStep 1; AStep 0; AStep 0; AStep 0; AStep 2; AStep 2; AStep 2; ACall (MRecord [Some 2; Some 1]); AStep 3; AStep 3; AStep 3;
   ACall (MSubscribe (bs "latency")); AStep 4; AStep 4; AStep 4; ACall (MRecord [Some 2; Some 0]); AStep 5; AStep 5].
Example C76_example : exists s, mrun minit ex_macts = Some s /\
  returned s 0 (MCreate (bs "latency") (bs "first") (bs "ms")) (RMeasure 0) /\ measure_desc s 0 = Some (bs "second") /\ measure_unit s 0 = Some (bs "s") /\
  returned s 2 (MCreate (bs "size") (bs "third") (bs "By")) (RMeasure 1) /\
  returned s 3 (MRecord [Some 2; Some 1]) (RSent false) /\ returned s 5 (MRecord [Some 2; Some 0]) (RSent true) /\
  called s 4 (MSubscribe (bs "latency")) /\ precedes ex_macts 4 5 /\ precedes ex_macts 1 4.
Proof.
  eexists. split; [vm_compute; reflexivity|]. do 6 (split; [vm_compute; reflexivity|]). split; [eexists; vm_compute; reflexivity|]. split.
  - exists (firstn 20 ex_macts), (skipn 20 ex_macts). eexists _, _, _. split; [reflexivity|]. split; [vm_compute; reflexivity|]. split; [vm_compute; reflexivity|]. cbn. lia.
  - exists (firstn 12 ex_macts), (skipn 12 ex_macts). eexists _, _, _. split; [reflexivity|]. split; [vm_compute; reflexivity|]. split; [vm_compute; reflexivity|]. cbn. lia.
Qed.

Print Assumptions C76_linearizable.
Print Assumptions C76_identity.
Print Assumptions C76_stable.
Print Assumptions C76_record_only_if.
Print Assumptions C76_record_if.
Print Assumptions C76_by_name.
Print Assumptions C76_no_panic.
Print Assumptions C76_foreign_refuted.
Print Assumptions C76_progress.
