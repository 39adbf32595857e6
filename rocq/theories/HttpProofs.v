(** Lemmas about HttpModel, for HttpProps. *)

From Coq Require Import String.
From Coq Require Import List Arith NArith ZArith Bool Lia.
From Coq Require Import ZifyBool ZifyNat ZifyN.
From Verif Require Import Base GoMap Text Float64 TagModel TagSpec TagProofs AggModel AggProofs ViewModel WorkerModel TraceTypes
  PropagationModel PropagationProofs TraceModel HttpModel HttpSpec.
Import ListNotations.
Open Scope nat_scope.

Lemma counts_app a b : counts (a ++ b) = counts a ++ counts b.
Proof. apply flat_map_app. Qed.
Lemma records_app a b : records (a ++ b) = records a ++ records b.
Proof. apply flat_map_app. Qed.
Lemma on_span_app a b : on_span (a ++ b) = on_span a ++ on_span b.
Proof. apply flat_map_app. Qed.
Lemma started_app a b : started (a ++ b) = started a ++ started b.
Proof. apply flat_map_app. Qed.
Lemma named_app a b : named (a ++ b) = named a ++ named b.
Proof. apply flat_map_app. Qed.

Lemma before_end_app a b : before_end (a ++ b) =
  match before_end a with
  | Some us => Some us
  | None => option_map (app (flat_map (fun x => match x with Some u => [u] | None => [] end) a)) (before_end b)
  end.
Proof.
  induction a as [|[u|] a IH]; cbn.
  - destruct (before_end b); reflexivity.
  - rewrite IH. destruct (before_end a); [reflexivity|]. destruct (before_end b); reflexivity.
  - reflexivity.
Qed.

(** ** Decimal *)

Lemma format_dec_canonical n : length (format_dec n) = 1 \/ (10 ^ N.of_nat (length (format_dec n) - 1) <= n)%N.
Proof.
  pose proof (format_dec_nonempty n) as Hne. destruct (format_dec n) as [|c d] eqn:E; [contradiction|].
  destruct d as [|c' d]; [now left|]. right.
  destruct (N.leb_spec (10 ^ N.of_nat (length (c :: c' :: d) - 1)) n) as [H|H]; [exact H|].
  apply format_dec_length in H; [|cbn; lia]. rewrite E in H. cbn [length] in H. lia.
Qed.

Lemma itoa_decimal z : decimal z (itoa z).
Proof.
  unfold decimal, itoa. destruct (Z.ltb_spec z 0) as [H|H].
  - destruct (format_dec_spec (Z.to_N (- z))) as (d & E & Hne & HF & Hv). pose proof (format_dec_canonical (Z.to_N (- z))) as Hc. rewrite E in *.
    exists d, (Z.to_N (- z)). split; [exact Hv|]. split; [exact Hne|]. split; [exact Hc|]. right. split; [lia|]. split; [reflexivity|]. lia.
  - destruct (format_dec_spec (Z.to_N z)) as (d & E & Hne & HF & Hv). pose proof (format_dec_canonical (Z.to_N z)) as Hc. rewrite E in *.
    exists d, (Z.to_N z). split; [exact Hv|]. split; [exact Hne|]. split; [exact Hc|]. left. split; [lia|]. split; [reflexivity|]. lia.
Qed.

Lemma time_sub_ok t0 t1 : clock_ok t0 t1 -> time_sub t1 t0 = (t1 - t0)%Z.
Proof. unfold clock_ok, time_sub. lia. Qed.

(** ** Bodies *)

Lemma int64_of_mod a b : int64_of (int64_of a + b) = int64_of (a + b).
Proof.
  unfold int64_of. f_equal.
  replace ((a + 2 ^ 63) mod 2 ^ 64 - 2 ^ 63 + b + 2 ^ 63)%Z with ((a + 2 ^ 63) mod 2 ^ 64 + b)%Z by lia.
  rewrite Zplus_mod_idemp_l. f_equal. lia.
Qed.

Definition tk_with (t : tracker) (resp : Z) (d : bool) : tracker :=
  MkTk (tk_ctx t) resp (tk_clen t) (tk_req t) (tk_start t) (tk_status t) d.

(** Once it is done a tracker records nothing more. *)
Lemma use_body_done ops : forall t, tk_done t = true -> records (snd (use_body t ops)) = [].
Proof.
  induction ops as [|op ops IH]; intros t Hd; [reflexivity|]. cbn [use_body].
  assert (H : exists t1 c1, do_micros t (steps_of op) = (t1, c1) /\ tk_done t1 = true /\ records c1 = []).
  { destruct op as [[n|n|n msg] now | now]; cbn; unfold tk_end; cbn; rewrite ?Hd; eexists _, _; (split; [reflexivity|]); cbn; auto. }
  destruct H as (t1 & c1 & -> & Hd1 & Hc1). specialize (IH t1 Hd1). destruct (use_body t1 ops) as [t2 c2]. cbn [snd] in *.
  rewrite records_app, Hc1. exact IH.
Qed.

Lemma use_body_records ops : forall t, tk_done t = false -> (- 2 ^ 63 <= tk_resp t < 2 ^ 63)%Z ->
  records (snd (use_body t ops)) =
  match completed_at ops with
  | None => []
  | Some now => records [tk_record (tk_with t (int64_of (tk_resp t + bytes_until ops)) false) now]
  end.
Proof.
  induction ops as [|op ops IH]; intros t Hd Hr.
  - reflexivity.
  - assert (Hs : int64_of (tk_resp t) = tk_resp t) by (apply int64_of_small; lia).
    destruct op as [[n|n|n msg] now | now]; cbn [use_body steps_of do_micros do_micro completed_at bytes_until completes time_of bytes_of].
    + specialize (IH (tk_add t n) Hd (int64_of_range _)).
      destruct (use_body (tk_add t n) ops) as [t2 c2]. cbn [snd app] in *. rewrite IH. cbn [tk_add tk_resp].
      destruct (completed_at ops); [|reflexivity]. rewrite int64_of_mod, Z.add_assoc. reflexivity.
    + unfold tk_end. cbn [tk_add tk_done]. rewrite Hd.
      pose proof (use_body_done ops (tk_set_done (tk_add t n)) eq_refl) as E.
      unfold tk_add in *. rewrite Hd in *. cbn [tk_ctx tk_resp tk_clen tk_req tk_start tk_status tk_done] in *.
      destruct (use_body (tk_set_done _) ops) as [t2 c2]. cbn [snd app] in *.
      cbn [records flat_map app]. change (flat_map _ c2) with (records c2). rewrite E. reflexivity.
    + specialize (IH (tk_add t n) Hd (int64_of_range _)).
      destruct (use_body (tk_add t n) ops) as [t2 c2]. cbn [snd app] in *.
      change (KSet SOwn (USetStatus 2 msg) :: c2) with ([KSet SOwn (USetStatus 2 msg)] ++ c2). rewrite records_app, IH. cbn [tk_add tk_resp].
      destruct (completed_at ops); [|reflexivity]. rewrite int64_of_mod, Z.add_assoc. reflexivity.
    + unfold tk_end. rewrite Hd.
      pose proof (use_body_done ops (tk_set_done t) eq_refl) as E.
      destruct (use_body (tk_set_done t) ops) as [t2 c2]. cbn [snd app] in *.
      change (tk_record t now :: KEnd SOwn :: c2) with ([tk_record t now; KEnd SOwn] ++ c2).
      rewrite records_app, E, app_nil_r. rewrite Z.add_0_r, Hs. unfold tk_with. destruct t; cbn in *. subst. reflexivity.
Qed.

(** What is done with the span while the body is used. *)
Lemma use_body_span ops : forall t,
  before_end (on_span (snd (use_body t ops))) =
  match completed_at ops with
  | None => None
  | Some _ => Some (map (fun m => USetStatus 2 m) (errors_until ops))
  end.
Proof.
  induction ops as [|op ops IH]; intros t; [reflexivity|].
  destruct op as [[n|n|n msg] now | now]; cbn [use_body steps_of do_micros do_micro completed_at errors_until completes time_of].
  - specialize (IH (tk_add t n)). destruct (use_body (tk_add t n) ops) as [t2 c2]. exact IH.
  - destruct (tk_end (tk_add t n) now) as [t1 c1]. destruct (use_body t1 ops) as [t2 c2]. reflexivity.
  - specialize (IH (tk_add t n)). destruct (use_body (tk_add t n) ops) as [t2 c2]. cbn [snd app] in *.
    change (KSet SOwn (USetStatus 2 msg) :: c2) with ([KSet SOwn (USetStatus 2 msg)] ++ c2). rewrite on_span_app.
    cbn [on_span flat_map app before_end]. fold (on_span c2). rewrite IH. destruct (completed_at ops); reflexivity.
  - unfold tk_end. destruct (tk_done t).
    + destruct (use_body t ops) as [t2 c2]. reflexivity.
    + destruct (use_body (tk_set_done t) ops) as [t2 c2]. reflexivity.
Qed.

Lemma use_body_counts ops : forall t, counts (snd (use_body t ops)) = [] /\ started (snd (use_body t ops)) = [].
Proof.
  induction ops as [|op ops IH]; intros t; [auto|]. cbn [use_body].
  destruct (do_micros t (steps_of op)) as [t1 c1] eqn:E. specialize (IH t1). destruct (use_body t1 ops) as [t2 c2]. cbn [snd] in *.
  rewrite counts_app, started_app. destruct IH as [-> ->].
  enough (counts c1 = [] /\ started c1 = []) as [-> ->] by auto.
  destruct op as [[n|n|n msg] now | now]; cbn in E; unfold tk_end in E; cbn in E;
    try (destruct (tk_done t)); injection E as <- <-; auto.
Qed.

(** ** Interleaved use *)

Definition has_add (m : micro) : bool := match m with MAdd _ => true | _ => false end.
Definition has_fin (m : micro) : bool := match m with MFinish _ => true | _ => false end.
Definition has_end (m : micro) : bool := match m with MSpanEnd => true | _ => false end.

(** The bytes of the calls that have been counted. *)
Definition counted (l : list (bop * list micro)) : Z :=
  fold_right (fun x s => (if existsb has_add (snd x) then 0 else bytes_of (fst x)) + s)%Z 0%Z l.

Lemma counted_app a b : counted (a ++ b) = (counted a + counted b)%Z.
Proof.
  induction a as [|x a IH]; [reflexivity|].
  change (counted ((x :: a) ++ b)) with ((if existsb has_add (snd x) then 0 else bytes_of (fst x)) + counted (a ++ b))%Z.
  change (counted (x :: a)) with ((if existsb has_add (snd x) then 0 else bytes_of (fst x)) + counted a)%Z.
  rewrite IH. lia.
Qed.

Lemma upd_split {A} (l : list A) i f x : nth_error l i = Some x -> exists a b, l = a ++ x :: b /\ length a = i /\ upd l i f = a ++ f x :: b.
Proof.
  revert i. induction l as [|y l IH]; intros [|i] H; cbn in H; try discriminate.
  - injection H as <-. exists [], l. auto.
  - destruct (IH i H) as (a & b & -> & <- & E). exists (y :: a), b. cbn. rewrite E. auto.
Qed.

Definition is_suffix {A} (a b : list A) : Prop := exists c, b = c ++ a.

(** The invariant of a run: what was counted, and what the calls still to do imply. *)
Record body_inv (t0 : tracker) (b : body) : Prop := {
  bi_suffix : forall op ms, In (op, ms) (bd_threads b) -> is_suffix ms (steps_of op);
  bi_tracker : bd_tracker b = tk_with t0 (int64_of (counted (bd_threads b))) (tk_done (bd_tracker b));
  bi_done : tk_done (bd_tracker b) = true <->
            exists op ms, In (op, ms) (bd_threads b) /\ completes op = true /\ existsb has_fin ms = false;
  bi_records : tk_done (bd_tracker b) = false -> records (bd_calls b) = [];
  bi_end : In (KEnd SOwn) (bd_calls b) <->
           exists op ms, In (op, ms) (bd_threads b) /\ completes op = true /\ existsb has_end ms = false }.

Lemma suffix_cons {A} (x : A) a b : is_suffix (x :: a) b -> is_suffix a b.
Proof. intros [c ->]. exists (c ++ [x]). now rewrite <- app_assoc. Qed.

Lemma suffix_cases op ms : is_suffix ms (steps_of op) ->
  match op with
  | BRead (ROk n) _ => ms = [MAdd n] \/ ms = []
  | BRead (REof n) now => ms = [MSpanEnd; MAdd n; MFinish now] \/ ms = [MAdd n; MFinish now] \/ ms = [MFinish now] \/ ms = []
  | BRead (RErr n msg) _ => ms = [MStatus 2 msg; MAdd n] \/ ms = [MAdd n] \/ ms = []
  | BClose now => ms = [MFinish now; MSpanEnd] \/ ms = [MSpanEnd] \/ ms = []
  end.
Proof.
  intros [c E]. destruct op as [[n|n|n msg] now | now]; cbn [steps_of] in E;
    repeat (destruct c as [|? c]; cbn [app] in E; [subst ms; auto|]; injection E as <- E); destruct c; try discriminate; cbn in E; subst; auto.
Qed.

Lemma body_inv_step t0 b e b' : body_inv t0 b -> body_step b e = Some b' -> body_inv t0 b'.
Proof.
  intros [Is It Id Ir Ie] H. destruct e as [op | i]; cbn [body_step] in H.
  - injection H as <-. constructor; cbn [bd_tracker bd_calls bd_threads].
    + intros op' ms Hin. apply in_app_or in Hin. destruct Hin as [Hin | [[= <- <-] | []]]; [auto|]. exists []. reflexivity.
    + rewrite counted_app. replace (counted [(op, steps_of op)]) with 0%Z; [now rewrite Z.add_0_r|].
      destruct op as [[n|n|n msg] now | now]; reflexivity.
    + rewrite Id. split; intros (op' & ms & Hin & Hc & Hf); exists op', ms.
      * split; [apply in_or_app; now left | auto].
      * apply in_app_or in Hin. destruct Hin as [Hin | [[= <- <-] | []]]; [auto|]. exfalso.
        destruct op as [[n|n|n msg] now | now]; cbn in Hc, Hf; discriminate.
    + exact Ir.
    + rewrite Ie. split; intros (op' & ms & Hin & Hc & Hf); exists op', ms.
      * split; [apply in_or_app; now left | auto].
      * apply in_app_or in Hin. destruct Hin as [Hin | [[= <- <-] | []]]; [auto|]. exfalso.
        destruct op as [[n|n|n msg] now | now]; cbn in Hc, Hf; discriminate.
  - destruct (nth_error (bd_threads b) i) as [[op [|m ms]]|] eqn:En; try discriminate.
    destruct (do_micro (bd_tracker b) m) as [t cs] eqn:Em. injection H as <-.
    destruct (upd_split (bd_threads b) i (fun _ => (op, ms)) _ En) as (l1 & l2 & El & Hl & Eu). rewrite Eu. rewrite El in *. clear Eu El En.
    assert (Hsuf : is_suffix (m :: ms) (steps_of op)) by (apply Is, in_or_app; right; now left).
    assert (Hother : forall P : bop -> list micro -> Prop,
       (exists o x, In (o, x) (l1 ++ (op, ms) :: l2) /\ P o x) <-> (exists o x, In (o, x) (l1 ++ l2) /\ P o x) \/ P op ms).
    { intros P. split.
      - intros (o & x & Hin & HP). apply in_app_or in Hin. destruct Hin as [Hin | [[= <- <-] | Hin]]; [left | now right | left];
          exists o, x; (split; [apply in_or_app; auto | exact HP]).
      - intros [(o & x & Hin & HP) | HP]; [exists o, x | exists op, ms]; (split; [|exact HP]); apply in_or_app.
        + apply in_app_or in Hin. destruct Hin; [now left | right; now right].
        + right. now left. }
    assert (Hother' : forall P : bop -> list micro -> Prop,
       (exists o x, In (o, x) (l1 ++ (op, m :: ms) :: l2) /\ P o x) <-> (exists o x, In (o, x) (l1 ++ l2) /\ P o x) \/ P op (m :: ms)).
    { intros P. split.
      - intros (o & x & Hin & HP). apply in_app_or in Hin. destruct Hin as [Hin | [[= <- <-] | Hin]]; [left | now right | left];
          exists o, x; (split; [apply in_or_app; auto | exact HP]).
      - intros [(o & x & Hin & HP) | HP]; [exists o, x | exists op, (m :: ms)]; (split; [|exact HP]); apply in_or_app.
        + apply in_app_or in Hin. destruct Hin; [now left | right; now right].
        + right. now left. }
    rewrite (Hother' (fun o x => completes o = true /\ existsb has_fin x = false)) in Id.
    rewrite (Hother' (fun o x => completes o = true /\ existsb has_end x = false)) in Ie.
    pose proof (suffix_cases _ _ Hsuf) as Hcs. clear Hother'.
    assert (Hcnt : forall x, counted (l1 ++ (op, x) :: l2) = (counted l1 + (if existsb has_add x then 0 else bytes_of op) + counted l2)%Z).
    { intros x. rewrite counted_app.
      change (counted ((op, x) :: l2)) with ((if existsb has_add x then 0 else bytes_of op) + counted l2)%Z. lia. }
    rewrite Hcnt in It.
    constructor; cbn [bd_tracker bd_calls bd_threads].
    + intros op' ms' Hin. apply in_app_or in Hin. destruct Hin as [Hin | [[= <- <-] | Hin]].
      * apply Is, in_or_app. auto.
      * eapply suffix_cons, Hsuf.
      * apply Is, in_or_app. right. now right.
    + rewrite Hcnt. destruct m as [c msg | | n | now]; cbn [do_micro] in Em.
      * injection Em as <- <-. cbn [existsb has_add orb] in It. exact It.
      * injection Em as <- <-. cbn [existsb has_add orb] in It. exact It.
      * injection Em as <- <-. cbn [existsb has_add orb] in It. unfold tk_add. rewrite It. unfold tk_with. cbn [tk_ctx tk_resp tk_clen tk_req tk_start tk_status tk_done].
        rewrite int64_of_mod. f_equal. f_equal.
        destruct op as [[k|k|k msg] nw | nw]; cbn [bytes_of]; decompose [or] Hcs; try discriminate;
          match goal with E : _ :: _ = _ :: _ |- _ => injection E; intros; subst end; cbn [existsb has_add orb]; lia.
      * unfold tk_end in Em. cbn [existsb has_add orb] in It. destruct (tk_done (bd_tracker b)) eqn:Ed; injection Em as <- <-.
        -- rewrite Ed. exact It.
        -- unfold tk_set_done. rewrite It. reflexivity.
    + rewrite (Hother (fun o x => completes o = true /\ existsb has_fin x = false)).
      destruct m as [c msg | | n | now]; cbn [do_micro] in Em.
      * injection Em as <- <-. exact Id.
      * injection Em as <- <-. exact Id.
      * injection Em as <- <-. exact Id.
      * assert (Hdone : completes op = true /\ existsb has_fin ms = false).
        { destruct op as [[k|k|k msg] nw | nw]; decompose [or] Hcs; try discriminate;
            match goal with E : _ :: _ = _ :: _ |- _ => injection E; intros; subst end; split; reflexivity. }
        unfold tk_end in Em. destruct (tk_done (bd_tracker b)) eqn:Ed; injection Em as <- <-; cbn [tk_set_done tk_done]; rewrite ?Ed; split; auto.
    + intros Hd. rewrite records_app. destruct m as [c msg | | n | now]; cbn [do_micro] in Em.
      * injection Em as <- <-. rewrite Ir by exact Hd. reflexivity.
      * injection Em as <- <-. rewrite Ir by exact Hd. reflexivity.
      * injection Em as <- <-. rewrite Ir by exact Hd. reflexivity.
      * unfold tk_end in Em. destruct (tk_done (bd_tracker b)) eqn:Ed; injection Em as <- <-.
        -- rewrite Ed in Hd. discriminate.
        -- discriminate Hd.
    + rewrite (Hother (fun o x => completes o = true /\ existsb has_end x = false)). rewrite in_app_iff, Ie.
      destruct m as [c msg | | n | now]; cbn [do_micro] in Em.
      * injection Em as <- <-. cbn [existsb has_end orb]. split; [intros [Hx | [Hx | []]]; [exact Hx | discriminate] | auto].
      * injection Em as <- <-. split; [intros _; right | intros _; right; now left].
        destruct op as [[k|k|k msg] nw | nw]; decompose [or] Hcs; try discriminate;
            match goal with E : _ :: _ = _ :: _ |- _ => injection E; intros; subst end; split; reflexivity.
      * injection Em as <- <-. cbn [existsb has_end orb]. split; [intros [Hx | []]; exact Hx | auto].
      * cbn [existsb has_end orb].
        assert (Hno : ~ In (KEnd SOwn) cs).
        { unfold tk_end in Em. destruct (tk_done (bd_tracker b)); injection Em as <- <-; [intros [] | intros [X | []]; discriminate]. }
        tauto.
Qed.

Lemma body_inv_init t0 : tk_resp t0 = 0%Z -> tk_done t0 = false -> body_inv t0 (MkBody t0 [] []).
Proof.
  intros H1 H2. constructor; cbn [bd_tracker bd_calls bd_threads].
  - intros op ms [].
  - destruct t0; cbn in *; subst. reflexivity.
  - rewrite H2. split; [discriminate|]. intros (op & ms & [] & _).
  - reflexivity.
  - split; [intros [] | intros (op & ms & [] & _)].
Qed.

Lemma body_run_app es1 : forall b es2, body_run b (es1 ++ es2) =
  match body_run b es1 with Some b' => body_run b' es2 | None => None end.
Proof. induction es1 as [|e es1 IH]; intros b es2; [reflexivity|]. cbn. destruct (body_step b e); auto. Qed.

Lemma body_inv_run t0 es : forall b b', body_inv t0 b -> body_run b es = Some b' -> body_inv t0 b'.
Proof.
  induction es as [|e es IH]; intros b b' Hi H; cbn in H; [now injection H as <-|].
  destruct (body_step b e) as [b1|] eqn:E; [|discriminate]. eapply IH; [|exact H]. eapply body_inv_step; eauto.
Qed.

(** The one moment at which the completion is recorded. *)
Lemma body_record t0 es : forall b b', body_inv t0 b -> tk_done (bd_tracker b) = false -> body_run b es = Some b' ->
  (tk_done (bd_tracker b') = false /\ records (bd_calls b') = []) \/
  (exists es1 i es2 bm now, es = es1 ++ EvStep i :: es2 /\ body_run b es1 = Some bm /\
     tk_done (bd_tracker bm) = false /\
     (exists op ms, nth_error (bd_threads bm) i = Some (op, MFinish now :: ms)) /\
     tk_done (bd_tracker b') = true /\
     records (bd_calls b') = records [tk_record (tk_with t0 (int64_of (counted (bd_threads bm))) false) now]).
Proof.
  assert (Hkeep : forall es b b', tk_done (bd_tracker b) = true -> body_run b es = Some b' ->
            tk_done (bd_tracker b') = true /\ records (bd_calls b') = records (bd_calls b)).
  { intros es0. induction es0 as [|e es0 IH]; intros b b' Hd H; cbn in H; [injection H as <-; auto|].
    destruct (body_step b e) as [b1|] eqn:E; [|discriminate].
    assert (tk_done (bd_tracker b1) = true /\ records (bd_calls b1) = records (bd_calls b)) as [H1 H2].
    { destruct e as [op|i]; cbn [body_step] in E; [injection E as <-; auto|].
      destruct (nth_error (bd_threads b) i) as [[op [|m ms]]|]; try discriminate.
      destruct (do_micro (bd_tracker b) m) as [t cs] eqn:Em. injection E as <-. cbn [bd_tracker bd_calls]. rewrite records_app.
      destruct m as [c msg | | n | now]; cbn [do_micro] in Em; unfold tk_end in Em; rewrite ?Hd in Em; injection Em as <- <-; cbn; rewrite ?app_nil_r; auto. }
    destruct (IH b1 b' H1 H) as [H3 H4]. split; [exact H3 | congruence]. }
  induction es as [|e es IH]; intros b b' Hi Hd H; cbn in H.
  - injection H as <-. left. split; [exact Hd|]. now apply (bi_records _ _ Hi).
  - destruct (body_step b e) as [b1|] eqn:E; [|discriminate]. pose proof (body_inv_step _ _ _ _ Hi E) as Hi1.
    destruct (tk_done (bd_tracker b1)) eqn:Ed.
    + right. destruct (Hkeep es b1 b' Ed H) as [Hd' Hr].
      destruct e as [op|i]; cbn [body_step] in E; [injection E as <-; cbn in Ed; congruence|].
      destruct (nth_error (bd_threads b) i) as [[op [|m ms]]|] eqn:En; try discriminate.
      destruct (do_micro (bd_tracker b) m) as [t cs] eqn:Em. injection E as <-. cbn [bd_tracker bd_calls] in *.
      destruct m as [c msg | | n | now]; cbn [do_micro] in Em; try (injection Em as <- <-; cbn in Ed; congruence).
      exists [], i, es, b, now. split; [reflexivity|]. split; [reflexivity|]. split; [exact Hd|]. split; [eauto|]. split; [exact Hd'|].
      rewrite Hr, records_app, (bi_records _ _ Hi Hd). unfold tk_end in Em. rewrite Hd in Em. injection Em as <- <-.
      rewrite (bi_tracker _ _ Hi) at 1. rewrite Hd. reflexivity.
    + destruct (IH b1 b' Hi1 Ed H) as [Hx | (es1 & i & es2 & bm & now & -> & H1 & H2)]; [now left|]. right.
      exists (e :: es1), i, es2, bm, now. split; [reflexivity|]. cbn. rewrite E. auto.
Qed.

(** ** Server *)

Section HopInd.
  Variable P : hop -> Prop.
  Hypothesis Hh : forall s, P (HHeader s).
  Hypothesis Hw : forall n t, P (HWrite n t).
  Hypothesis Hf : forall n, P (HReadFrom n).
  Hypothesis Hs : forall r, P (HSetRoute r).
  Hypothesis Hr : forall r body, Forall P body -> P (HRouted r body).
  Hypothesis Hp : P HPanic.
  Fixpoint hop_ind2 (op : hop) : P op :=
    match op with
    | HHeader s => Hh s
    | HWrite n t => Hw n t
    | HReadFrom n => Hf n
    | HSetRoute r => Hs r
    | HRouted r body => Hr r body ((fix go (l : list hop) : Forall P l := match l with [] => Forall_nil P | o :: l => Forall_cons o (hop_ind2 o) (go l) end) body)
    | HPanic => Hp
    end.
End HopInd.

Lemma run_hops_app s a : forall w b, run_hops s w (a ++ b) =
  let '(w1, c1, p) := run_hops s w a in
  if p then (w1, c1, true) else let '(w2, c2, p2) := run_hops s w1 b in (w2, c1 ++ c2, p2).
Proof.
  induction a as [|op a IH]; intros w b; cbn [run_hops app].
  - destruct (run_hops s w b) as [[w2 c2] p2]. reflexivity.
  - destruct (run_hop s w op) as [[w1 c1] p1]. destruct p1; [reflexivity|]. rewrite IH.
    destruct (run_hops s w1 a) as [[w2 c2] p2]. destruct p2; [reflexivity|].
    destruct (run_hops s w2 b) as [[w3 c3] p3]. now rewrite app_assoc.
Qed.

Lemma run_hop_routed s w r body : run_hop s w (HRouted r body) = run_hops s w (body ++ [HSetRoute r]).
Proof.
  rewrite run_hops_app. cbn [run_hop].
  match goal with |- context [?f w body] => lazymatch f with run_hops s => fail | _ => assert (E : forall l w, f w l = run_hops s w l) end end.
  { induction l as [|o l IH]; intros w0; cbn; [reflexivity|]. destruct (run_hop s w0 o) as [[w1 c1] p1]. destruct p1; [reflexivity|].
    rewrite IH. reflexivity. }
  rewrite E. destruct (run_hops s w body) as [[w1 c1] p1]. destruct p1; [reflexivity|]. cbn. now rewrite app_nil_r.
Qed.

Lemma flat_routed r body : flat_hop (HRouted r body) = flat_hops body ++ [HSetRoute r].
Proof. cbn [flat_hop]. apply (f_equal (fun x => x ++ [HSetRoute r])). induction body as [|o l IH]; [reflexivity|]. cbn [flat_hops flat_map]. fold (flat_hops l). now f_equal. Qed.

Lemma run_flat s : forall op w, run_hops s w (flat_hop op) = run_hop s w op.
Proof.
  induction op as [st | n t | n | r | r body IH |] using hop_ind2; intros w; try (cbn; reflexivity).
  rewrite run_hop_routed, flat_routed. rewrite !run_hops_app.
  assert (E : run_hops s w (flat_hops body) = run_hops s w body).
  { clear r. revert w. induction body as [|o l IHl]; intros w; [reflexivity|]. inversion IH as [|? ? Ho Hl]; subst.
    change (flat_hops (o :: l)) with (flat_hop o ++ flat_hops l). rewrite run_hops_app, Ho. cbn [run_hops].
    destruct (run_hop s w o) as [[w1 c1] p1]. destruct p1; [reflexivity|]. rewrite IHl by exact Hl. reflexivity. }
  rewrite E. reflexivity.
Qed.

Lemma run_hops_flat s ops : forall w, run_hops s w (flat_hops ops) = run_hops s w ops.
Proof.
  induction ops as [|o l IH]; intros w; [reflexivity|].
  change (flat_hops (o :: l)) with (flat_hop o ++ flat_hops l). rewrite run_hops_app, run_flat. cbn [run_hops].
  destruct (run_hop s w o) as [[w1 c1] p1]. destruct p1; [reflexivity|]. rewrite IH. reflexivity.
Qed.

Definition simple (op : hop) : bool := match op with HRouted _ _ => false | _ => true end.

Lemma flat_simple : forall op o, In o (flat_hop op) -> simple o = true.
Proof.
  induction op as [st | n t | n | r | r body IH |] using hop_ind2; intros o Hin; try (destruct Hin as [<- | []]; reflexivity).
  rewrite flat_routed in Hin. apply in_app_or in Hin. destruct Hin as [Hin | [<- | []]]; [|reflexivity].
  unfold flat_hops in Hin. apply in_flat_map in Hin. destruct Hin as (x & Hx & Hin). rewrite Forall_forall in IH. eapply IH; eauto.
Qed.
Lemma flats_simple ops o : In o (flat_hops ops) -> simple o = true.
Proof. intros Hin. apply in_flat_map in Hin. destruct Hin as (x & _ & Hin). eapply flat_simple; eauto. Qed.

(** The effect of a handler, from the operations it performs. *)
Lemma run_simple s : forall ops w, (forall o, In o ops -> simple o = true) -> (- 2 ^ 63 <= sw_resp w < 2 ^ 63)%Z ->
  run_hops s w ops =
  (MkSW (int64_of (sw_resp w + bytes_written (until_panic ops))) (last (headers_written (until_panic ops)) (sw_status w))
        (sw_tags w ++ map (fun r => Upsert key_server_route r []) (routes (until_panic ops))),
   map (fun x => KSet s (UMsg (snd x) true 0 (fst x) (-1))) (written (until_panic ops)),
   existsb (fun op => match op with HPanic => true | _ => false end) ops).
Proof.
  induction ops as [|op ops IH]; intros w Hsim Hr.
  - cbn. rewrite app_nil_r, Z.add_0_r, int64_of_small by exact Hr. destruct w; reflexivity.
  - assert (Hs' : forall o, In o ops -> simple o = true) by (intros o Ho; apply Hsim; now right).
    assert (Hw : int64_of (sw_resp w + 0) = sw_resp w) by (rewrite Z.add_0_r; apply int64_of_small, Hr).
    destruct op as [st | n t | n | r | r body |]; cbn [run_hops run_hop until_panic existsb].
    + rewrite IH by assumption. cbn [sw_resp sw_status sw_tags]. change (headers_written (HHeader st :: until_panic ops)) with ([st] ++ headers_written (until_panic ops)).
      cbn [orb]. f_equal. f_equal. f_equal. clear. cbn [app]. generalize (headers_written (until_panic ops)) as l.
      induction l as [|a l IHl]; [reflexivity|]. cbn [last]. destruct l; [reflexivity|]. cbn [last] in *. exact IHl.
    + rewrite IH; [|exact Hs'|cbn; apply int64_of_range]. cbn [sw_resp sw_status sw_tags].
      rewrite int64_of_mod. cbn [app orb]. change (written (HWrite n t :: until_panic ops)) with ((n, t) :: written (until_panic ops)).
      change (bytes_written (HWrite n t :: until_panic ops)) with (n + bytes_written (until_panic ops))%Z. rewrite Z.add_assoc. reflexivity.
    + rewrite IH by assumption. reflexivity.
    + rewrite IH by assumption. cbn [sw_resp sw_status sw_tags]. rewrite <- app_assoc. reflexivity.
    + exfalso. specialize (Hsim (HRouted r body) (or_introl eq_refl)). discriminate.
    + cbn. rewrite app_nil_r. change (bytes_written []) with 0%Z. rewrite Hw. destruct w; reflexivity.
Qed.

Lemma run_hops_spec s ops : run_hops s (MkSW 0 0 []) ops =
  (MkSW (int64_of (bytes_written (performed ops))) (last (headers_written (performed ops)) 0%Z)
        (map (fun r => Upsert key_server_route r []) (routes (performed ops))),
   map (fun x => KSet s (UMsg (snd x) true 0 (fst x) (-1))) (written (performed ops)),
   panics ops).
Proof.
  rewrite <- run_hops_flat. rewrite run_simple; [reflexivity | apply flats_simple | cbn; lia].
Qed.

(** The formats never fail with an error or a panic. *)
Lemma fmt_from_ok f h : exists x, fmt_from f h = Ok x.
Proof.
  destruct f; cbn [fmt_from]; eauto. unfold tc_from_request.
  generalize (tc_get_header h traceparent_header) as tp, (tc_get_header h tracestate_header) as ts. intros tp ts.
  pose proof (tc_from_headers_no_panic tp ts) as Hn.
  destruct (tc_from_headers tp ts) as [x | e |] eqn:E; [eauto | | contradiction]. exfalso. revert E. clear.
  assert (Hb : forall A (r : res unit A) (k : A -> res unit (option span_context)),
            (forall a, k a <> Err e) -> r <> Err e -> rbind r k <> Err e).
  { intros A [a | e' |] k Hk Hr; cbn; [apply Hk | congruence | discriminate]. }
  assert (Hi : forall A (l : list A) i, idx l i <> Err e) by (intros; unfold idx; destruct (nth_error _ _); discriminate).
  unfold tc_from_headers. destruct tp; [discriminate|]. cbv zeta.
  destruct (Nat.ltb _ _); [discriminate|]. apply Hb; [intros s0 | apply Hi].
  destruct (negb _); [discriminate|]. destruct (hex_decode s0); [|discriminate]. apply Hb; [intros v | apply Hi].
  destruct (N.ltb _ _); [discriminate|]. destruct (_ && _); [discriminate|]. apply Hb; [intros s1 | apply Hi].
  destruct (negb _); [discriminate|]. destruct (hex_decode s1); [|discriminate]. apply Hb; [intros s2 | apply Hi].
  destruct (negb _); [discriminate|]. destruct (hex_decode s2); [|discriminate]. apply Hb; [intros s3 | apply Hi].
  destruct (hex_decode s3); [|discriminate]. destruct (Nat.ltb _ _); [discriminate|]. apply Hb; [intros o | apply Hi].
  destruct (_ || _); discriminate.
Qed.
