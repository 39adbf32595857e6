(** C86: package tag as a program sees it. *)

From Coq Require Import String.
From Coq Require Import List Arith NArith ZArith Bool Permutation Sorted Lia.
From Verif Require Import Base GoMap GoSort TagModel TagSpec TagProofs AggModel AggProofs HttpModel HttpProofs TagApiModel TagApiSpec.
Import ListNotations.
Open Scope nat_scope.

(** ** Frames *)

Definition same_at (h h' : cells) (j : nat) : Prop := nth_error h' j = nth_error h j.

Lemma lib_frame mu h p h' r : lib_mutate mu h p = (h', r) ->
  length h' = length h /\ (forall j, p <> Some j -> same_at h h' j) /\ (forall p', r = MRet p' -> p' = p).
Proof.
  unfold lib_mutate, same_at. intros H.
  destruct (match mu with Insert _ v _ | Update _ v _ | Upsert _ v _ => negb (check_value v) | Delete _ => false end).
  { injection H as <- <-. repeat split; intros; try reflexivity; discriminate. }
  destruct p as [i|].
  2:{ injection H as <- <-. repeat split; intros; try reflexivity; discriminate. }
  destruct (nth_error h i) as [[m|]|] eqn:E.
  - destruct (mutate mu m) as [m'|e].
    + injection H as <- <-. split; [apply upd_length|]. split.
      * intros j Hj. rewrite nth_error_upd. destruct (Nat.eqb_spec i j); [congruence|reflexivity].
      * intros p' [= <-]. reflexivity.
    + injection H as <- <-. repeat split; intros; try reflexivity; discriminate.
  - destruct mu; injection H as <- <-; repeat split; intros; try reflexivity; try discriminate; congruence.
  - destruct mu; injection H as <- <-; repeat split; intros; try reflexivity; try discriminate; congruence.
Qed.

Lemma body_frame vs body : forall h p h' b, run_body vs body h p = (h', b) ->
  length h' = length h /\
  (forall j, p <> Some j -> (forall i m, In (MVar i, m) body -> nth i vs None <> Some j) -> same_at h h' j).
Proof.
  induction body as [|[t mu] body IH]; cbn [run_body]; intros h p h' b H.
  - injection H as <- <-. split; intros; reflexivity.
  - destruct (lib_mutate mu h (resolve vs p t)) as [h1 r] eqn:E. apply lib_frame in E. destruct E as (L & F & _).
    assert (R : forall j, p <> Some j -> (forall i m, In (MVar i, m) ((t, mu) :: body) -> nth i vs None <> Some j) -> same_at h h1 j).
    { intros j Hp Hv. apply F. destruct t as [|i]; cbn [resolve]; [exact Hp|]. apply (Hv i mu). left; reflexivity. }
    assert (G : run_body vs body h1 p = (h', b) \/ h' = h1).
    { destruct r; [left; exact H|left; exact H|right; congruence]. }
    destruct G as [G| ->].
    + apply IH in G. destruct G as [L' F']. split; [congruence|]. intros j Hp Hv. unfold same_at in *.
      rewrite (F' j Hp) by (intros i m Hi; apply (Hv i m); right; exact Hi). apply R; assumption.
    + split; [exact L|exact R].
Qed.

(** [names] without the state. *)
Definition names_v (vs : list mptr) (mu : amutator) (j : nat) : Prop :=
  match mu with
  | Custom body r => exists i, nth i vs None = Some j /\ ((exists m, In (MVar i, m) body) \/ r = RGive (MVar i))
  | _ => False
  end.

Lemma mutate_frame vs mu h p h' r : api_mutate vs mu h p = (h', r) ->
  length h' = length h /\ (forall j, p <> Some j -> ~ names_v vs mu j -> same_at h h' j) /\
  (forall j, r = MRet (Some j) -> p = Some j \/ names_v vs mu j).
Proof.
  destruct mu as [mu| |body rt]; cbn [api_mutate]; intros H.
  - apply lib_frame in H. destruct H as (L & F & R). split; [exact L|]. split; [intros j Hp _; auto|].
    intros j Hj. left. symmetry. exact (R _ Hj).
  - injection H as <- <-. split; [reflexivity|]. split; [intros; reflexivity|discriminate].
  - destruct (run_body vs body h p) as [h1 b] eqn:E. apply body_frame in E. destruct E as [L F].
    assert (R : forall j, p <> Some j -> ~ names_v vs (Custom body rt) j -> same_at h h1 j).
    { intros j Hp Hn. apply F; [exact Hp|]. intros i m Hi Hv. apply Hn. exists i. split; [exact Hv|]. left. exists m. exact Hi. }
    destruct b.
    + injection H as <- <-. split; [exact L|]. split; [exact R|discriminate].
    + injection H as <- <-. split; [exact L|]. split; [exact R|].
      intros j Hj. destruct rt as [[|i]| |]; cbn [resolve] in Hj; try discriminate Hj; injection Hj as Hj.
      * left; exact Hj.
      * right. exists i. split; [exact Hj|]. right; reflexivity.
Qed.

Lemma loop_frame vs ms : forall h p h' r, api_mutate_loop vs ms h p = (h', r) ->
  length h' = length h /\ (forall j, p <> Some j -> (forall mu, In mu ms -> ~ names_v vs mu j) -> same_at h h' j) /\
  (forall j, r = MRet (Some j) -> p = Some j \/ exists mu, In mu ms /\ names_v vs mu j).
Proof.
  induction ms as [|mu ms IH]; cbn [api_mutate_loop]; intros h p h' r H.
  - injection H as <- <-. split; [reflexivity|]. split; [intros; reflexivity|]. intros j [= ->]. left; reflexivity.
  - destruct (api_mutate vs mu h p) as [h1 r1] eqn:E. apply mutate_frame in E. destruct E as (L & F & R).
    destruct r1 as [p1|e|].
    + apply IH in H. destruct H as (L' & F' & R'). split; [congruence|]. split.
      * intros j Hp Hn. unfold same_at in *. rewrite F'.
        -- apply F; [exact Hp|]. apply Hn. left; reflexivity.
        -- intros E. subst p1. destruct (R j eq_refl) as [E|E]; [exact (Hp E)|]. exact (Hn mu (or_introl eq_refl) E).
        -- intros mu' Hi. apply Hn. right; exact Hi.
      * intros j Hj. destruct (R' j Hj) as [-> |(mu' & A & B)].
        -- destruct (R j eq_refl) as [E|E]; [left; exact E|]. right. exists mu. split; [left; reflexivity|exact E].
        -- right. exists mu'. split; [right; exact A|exact B].
    + injection H as <- <-. split; [exact L|]. split; [intros j Hp Hn; apply F; [exact Hp|apply Hn; left; reflexivity]|discriminate].
    + injection H as <- <-. split; [exact L|]. split; [intros j Hp Hn; apply F; [exact Hp|apply Hn; left; reflexivity]|discriminate].
Qed.

Lemma new_frame vs h c it ms h' r : api_new vs h c it ms = (h', r) ->
  length h <= length h' /\ (forall j, j < length h -> (forall mu, In mu ms -> ~ names_v vs mu j) -> same_at h h' j) /\
  (forall j, r = MRet (Some j) -> j = length h /\ j < length h' \/ exists mu, In mu ms /\ names_v vs mu j).
Proof.
  unfold api_new. intros H. destruct (api_copy _ _) as [m|e].
  - apply loop_frame in H. destruct H as (L & F & R). rewrite app_length in L. cbn in L. split; [lia|]. split.
    + intros j Hj Hn. unfold same_at in *. rewrite F; [apply nth_error_app1; exact Hj|intros [= E]; lia|exact Hn].
    + intros j Hj. destruct (R j Hj) as [[= <-]|E]; [left; lia|right; exact E].
  - injection H as <- <-. split; [lia|]. split; [intros; reflexivity|discriminate].
Qed.

(** ** The invariant *)

Definition in_heap (h : cells) (p : mptr) : Prop := forall i, p = Some i -> i < length h.
Definition ok_tags (P : key -> Prop) (m : tmap) : Prop :=
  mwf m /\ forall k c, In (k, c) m -> (P k \/ valid_key k) /\ valid_value (c_value c).
Definition ok_heap (P : key -> Prop) (h : cells) : Prop := forall i m, nth_error h i = Some (Some m) -> ok_tags P m.
Definition ok (P : key -> Prop) (s : api) : Prop :=
  ok_heap P (a_heap s) /\ (forall c, In c (a_ctxs s) -> in_heap (a_heap s) (cx_map c)) /\ (forall p, In p (a_maps s) -> in_heap (a_heap s) p).

Lemma ok_mset (P : key -> Prop) m k c : ok_tags P m -> P k \/ valid_key k -> valid_value (c_value c) -> ok_tags P (mset bytes_eqb m k c).
Proof.
  intros [W H] Hk Hv. split; [apply mwf_mset; [apply bytes_eqb_spec|exact W]|].
  intros k' c' Hin. apply In_mset in Hin; [|apply bytes_eqb_spec]. destruct Hin as [[-> ->]|Hin]; auto.
Qed.
Lemma ok_mutate (P : key -> Prop) mu m m' : mutate mu m = inl m' -> P (mutator_key mu) -> ok_tags P m -> ok_tags P m'.
Proof.
  intros Hm Hk H. assert (Hok : mutator_ok mu) by (apply (mutate_ok_iff mu m); eauto).
  destruct mu; cbn [mutate mutator_ok mutator_key] in *.
  - destruct (check_value v); [|discriminate]. injection Hm as <-. unfold t_insert. destruct (tget m k); [exact H|]. apply ok_mset; auto.
  - destruct (check_value v); [|discriminate]. injection Hm as <-. unfold t_update. destruct (tget m k); [|exact H]. apply ok_mset; auto.
  - destruct (check_value v); [|discriminate]. injection Hm as <-. apply ok_mset; auto.
  - injection Hm as <-. destruct H as [W H]. split; [apply mwf_mdel; exact W|]. intros k' c' Hin. apply filter_In in Hin. apply H, Hin.
Qed.
Lemma ok_lib (P : key -> Prop) mu h p h' r : lib_mutate mu h p = (h', r) -> P (mutator_key mu) -> ok_heap P h -> ok_heap P h'.
Proof.
  unfold lib_mutate. intros H Hk Ho.
  destruct (match mu with Insert _ v _ | Update _ v _ | Upsert _ v _ => negb (check_value v) | Delete _ => false end); [injection H as <- <-; exact Ho|].
  destruct p as [i|]; [|injection H as <- <-; exact Ho].
  destruct (nth_error h i) as [[m|]|] eqn:E.
  - destruct (mutate mu m) as [m'|e] eqn:M; injection H as <- <-; [|exact Ho].
    intros j m2. rewrite nth_error_upd. destruct (Nat.eqb_spec i j) as [<-|]; [|apply Ho]. rewrite E. intros [= <-].
    eapply ok_mutate; eauto.
  - destruct mu; injection H as <- <-; exact Ho.
  - destruct mu; injection H as <- <-; exact Ho.
Qed.
Lemma ok_body (P : key -> Prop) vs body : forall h p h' b, run_body vs body h p = (h', b) -> (forall t m, In (t, m) body -> P (mutator_key m)) -> ok_heap P h -> ok_heap P h'.
Proof.
  induction body as [|[t mu] body IH]; cbn [run_body]; intros h p h' b H HP Ho; [injection H as <- <-; exact Ho|].
  destruct (lib_mutate mu h (resolve vs p t)) as [h1 r] eqn:E. apply (ok_lib P) in E; [|apply (HP t); left; reflexivity|exact Ho].
  destruct r; [eapply IH; [exact H|intros t' m' Hi; apply (HP t'); right; exact Hi|exact E]|eapply IH; [exact H|intros t' m' Hi; apply (HP t'); right; exact Hi|exact E]|].
  injection H as <- _. exact E.
Qed.
Lemma ok_api_mutate (P : key -> Prop) vs mu h p h' r : api_mutate vs mu h p = (h', r) -> (forall k, uses_key mu k -> P k) -> ok_heap P h -> ok_heap P h'.
Proof.
  destruct mu as [mu| |body rt]; cbn [api_mutate]; intros H HP Ho.
  - eapply ok_lib; [exact H| |exact Ho]. apply HP. reflexivity.
  - injection H as <- _. exact Ho.
  - destruct (run_body vs body h p) as [h1 b] eqn:E. apply (ok_body P) in E; [|intros t m Hi; apply HP; exists t, m; auto|exact Ho].
    destruct b; injection H as <- _; exact E.
Qed.
Lemma ok_loop (P : key -> Prop) vs ms : forall h p h' r, api_mutate_loop vs ms h p = (h', r) -> (forall mu k, In mu ms -> uses_key mu k -> P k) -> ok_heap P h -> ok_heap P h'.
Proof.
  induction ms as [|mu ms IH]; cbn [api_mutate_loop]; intros h p h' r H HP Ho; [injection H as <- _; exact Ho|].
  destruct (api_mutate vs mu h p) as [h1 r1] eqn:E. apply (ok_api_mutate P) in E; [|intros k; apply HP; left; reflexivity|exact Ho].
  destruct r1; [|injection H as <- _; exact E|injection H as <- _; exact E].
  eapply IH; [exact H|intros mu' k Hi; apply HP; right; exact Hi|exact E].
Qed.
Lemma ok_copy (P : key -> Prop) it : forall m m', api_copy it m = inl m' -> ok_tags P m -> ok_tags P m'.
Proof.
  induction it as [|[k v] it IH]; cbn [api_copy]; intros m m' H Ho; [congruence|].
  destruct (check_key_name k) eqn:Ek; cbn [negb] in H; [|discriminate].
  destruct (check_value (c_value v)) eqn:Ev; cbn [negb] in H; [|discriminate].
  eapply IH; [exact H|]. unfold t_insert. destruct (tget m k); [exact Ho|]. apply ok_mset; [exact Ho| |].
  - right. apply check_key_name_spec. exact Ek.
  - cbn. apply check_value_spec. exact Ev.
Qed.
Lemma ok_snoc (P : key -> Prop) h m : ok_heap P h -> (forall m', m = Some m' -> ok_tags P m') -> ok_heap P (h ++ [m]).
Proof.
  intros Ho Hm i m' E. destruct (Nat.lt_ge_cases i (length h)) as [L|L].
  - rewrite nth_error_app1 in E by exact L. exact (Ho i m' E).
  - rewrite nth_error_app2 in E by exact L. destruct (i - length h) as [|[|]]; cbn in E; try discriminate E. apply Hm. congruence.
Qed.
Lemma ok_new (P : key -> Prop) vs h c it ms h' r : api_new vs h c it ms = (h', r) -> (forall mu k, In mu ms -> uses_key mu k -> P k) -> ok_heap P h -> ok_heap P h'.
Proof.
  unfold api_new. intros H HP Ho. destruct (api_copy _ _) as [m|e] eqn:E; [|injection H as <- _; exact Ho].
  eapply ok_loop; [exact H|exact HP|]. apply ok_snoc; [exact Ho|]. intros m' [= <-]. eapply ok_copy; [exact E|]. split; [constructor|intros ? ? []].
Qed.

Lemma ok_nth_map (P : key -> Prop) s i : ok P s -> in_heap (a_heap s) (the_map s i).
Proof.
  intros (_ & _ & H). unfold the_map. destruct (nth_in_or_default i (a_maps s) None) as [G|G]; [exact (H _ G)|rewrite G; discriminate].
Qed.
Lemma ok_nth_ctx (P : key -> Prop) s i : ok P s -> in_heap (a_heap s) (cx_map (the_ctx s i)).
Proof.
  intros (_ & H & _). unfold the_ctx. destruct (nth_in_or_default i (a_ctxs s) (MkCx None [])) as [G|G]; [exact (H _ G)|rewrite G; discriminate].
Qed.
Lemma in_heap_le h h' p : length h <= length h' -> in_heap h p -> in_heap h' p.
Proof. intros L H i E. specialize (H i E). lia. Qed.
Lemma names_in (P : key -> Prop) s mu j : ok P s -> names s mu j -> j < length (a_heap s).
Proof. intros H N. destruct mu as [| |body r]; try contradiction. destruct N as (i & E & _). exact (ok_nth_map P s i H j E). Qed.

Lemma ok_build (P : key -> Prop) h cs vs : ok_heap P h -> (forall c, In c cs -> in_heap h (cx_map c)) -> (forall p, In p vs -> in_heap h p) -> ok P (MkApi h cs vs).
Proof. intros H1 H2 H3. split; [exact H1|]. split; [exact H2|exact H3]. Qed.
Lemma all_snoc {A} (Q : A -> Prop) l x : (forall a, In a l -> Q a) -> Q x -> forall a, In a (l ++ [x]) -> Q a.
Proof. intros H Hx a Hi. apply in_app_or in Hi. destruct Hi as [Hi|[<-|[]]]; auto. Qed.

Lemma ok_step (P : key -> Prop) s op : ok P s -> possible P s op -> ok P (fst (api_step s op)).
Proof.
  intros Ho Hp. pose proof Ho as (Hh & Hc & Hm).
  assert (Lc : forall h' : cells, length (a_heap s) <= length h' -> forall c, In c (a_ctxs s) -> in_heap h' (cx_map c)) by (intros h' L c Hi; eapply in_heap_le; [exact L|exact (Hc c Hi)]).
  assert (Lm : forall h' : cells, length (a_heap s) <= length h' -> forall p, In p (a_maps s) -> in_heap h' p) by (intros h' L c Hi; eapply in_heap_le; [exact L|exact (Hm c Hi)]).
  destruct op as [c|c m|c it ms|mu m|b| |c it]; cbn [api_step possible] in *.
  - apply ok_build; [exact Hh|exact Hc|]. apply all_snoc; [exact Hm|]. apply (ok_nth_ctx P s c Ho).
  - apply ok_build; [exact Hh| |exact Hm]. apply all_snoc; [exact Hc|]. cbn. apply (ok_nth_map P s m Ho).
  - destruct Hp as [_ Hk]. destruct (api_new (a_maps s) (a_heap s) (the_ctx s c) it ms) as [h' r] eqn:E.
    pose proof (ok_new P _ _ _ _ _ _ _ E Hk Hh) as Hh'. apply new_frame in E. destruct E as (L & _ & R).
    destruct r as [p|e|]; cbn [fst].
    + apply ok_build; [exact Hh'| |auto]. apply all_snoc; [auto|]. cbn. intros j ->. destruct (R j eq_refl) as [[_ G]|(mu & Hi & Hn)]; [exact G|].
      pose proof (names_in P s mu j Ho Hn). lia.
    + apply ok_build; [exact Hh'| |auto]. apply all_snoc; [auto|]. eapply in_heap_le; [exact L|apply (ok_nth_ctx P s c Ho)].
    + apply ok_build; auto.
  - destruct (api_mutate (a_maps s) mu (a_heap s) (the_map s m)) as [h' r] eqn:E.
    pose proof (ok_api_mutate P _ _ _ _ _ _ E Hp Hh) as Hh'. apply mutate_frame in E. destruct E as (L & _ & R). assert (L' : length (a_heap s) <= length h') by lia.
    destruct r as [p|e|]; cbn [fst].
    + apply ok_build; [exact Hh'|auto|]. apply all_snoc; [auto|]. intros j ->. rewrite L. destruct (R j eq_refl) as [G|G].
      * exact (ok_nth_map P s m Ho j G).
      * exact (names_in P s mu j Ho G).
    + apply ok_build; [exact Hh'|auto|]. apply all_snoc; [auto|]. discriminate.
    + apply ok_build; auto.
  - destruct (decode b) as [m|e| |] eqn:E; cbn [fst]; try exact Ho.
    + assert (L : length (a_heap s) < length (a_heap s ++ [Some m])) by (rewrite app_length; cbn; lia).
      apply ok_build; [|apply Lc; lia|].
      * apply ok_snoc; [exact Hh|]. intros m' [= <-]. split; [exact (decode_wf _ _ E)|]. intros k c Hi. destruct (decode_valid _ _ E k c Hi). auto.
      * apply all_snoc; [apply Lm; lia|]. intros i [= <-]. exact L.
    + apply ok_build; [exact Hh|exact Hc|]. apply all_snoc; [exact Hm|discriminate].
  - assert (L : length (a_heap s) < length (a_heap s ++ [None])) by (rewrite app_length; cbn; lia).
    apply ok_build; [|apply Lc; lia|].
    + apply ok_snoc; [exact Hh|discriminate].
    + apply all_snoc; [apply Lm; lia|]. intros i [= <-]. exact L.
  - destruct (cx_map (the_ctx s c)) as [p|] eqn:E; cbn [fst]; [|exact Ho].
    apply ok_build; [exact Hh| |exact Hm]. apply all_snoc; [exact Hc|]. cbn. rewrite <- E. apply (ok_nth_ctx P s c Ho).
Qed.
Lemma ok_runs (P : key -> Prop) s ops s' : runs P s ops s' -> ok P s -> ok P s'.
Proof. induction 1 as [|s op ops s' Hp _ IH]; intros Ho; [exact Ho|]. apply IH, ok_step; assumption. Qed.
Lemma ok_reach (P : key -> Prop) s : api_reach P s -> ok P s.
Proof.
  intros [ops H]. eapply ok_runs; [exact H|]. apply ok_build; [intros [|i]; discriminate| |].
  - intros c [<-|[]]. discriminate.
  - intros p [<-|[]]. discriminate.
Qed.

(** ** C86 *)

Lemma step_frame (P : key -> Prop) s op j : ok P s -> j < length (a_heap s) -> ~ may_write s op j ->
  same_at (a_heap s) (a_heap (fst (api_step s op))) j /\ length (a_heap s) <= length (a_heap (fst (api_step s op))).
Proof.
  intros Ho Hj Hw. destruct op as [c|c m|c it ms|mu m|b| |c it]; cbn [api_step may_write] in *.
  - split; [reflexivity|cbn; lia].
  - split; [reflexivity|cbn; lia].
  - destruct (api_new (a_maps s) (a_heap s) (the_ctx s c) it ms) as [h' r] eqn:E. apply new_frame in E. destruct E as (L & F & _).
    assert (G : same_at (a_heap s) h' j /\ length (a_heap s) <= length h').
    { split; [|exact L]. apply F; [exact Hj|]. intros mu Hi Hn. apply Hw. exists mu. split; [exact Hi|exact Hn]. }
    destruct r; exact G.
  - destruct (api_mutate (a_maps s) mu (a_heap s) (the_map s m)) as [h' r] eqn:E. apply mutate_frame in E. destruct E as (L & F & _).
    assert (G : same_at (a_heap s) h' j /\ length (a_heap s) <= length h').
    { split; [|lia]. apply F; [intros G; apply Hw; left; exact G|intros G; apply Hw; right; exact G]. }
    destruct r; exact G.
  - destruct (decode b); cbn [fst a_heap]; try (split; [reflexivity|lia]). split; [unfold same_at; apply nth_error_app1; exact Hj|rewrite app_length; lia].
  - cbn [fst a_heap]. split; [unfold same_at; apply nth_error_app1; exact Hj|rewrite app_length; lia].
  - destruct (cx_map (the_ctx s c)); split; try reflexivity; cbn; lia.
Qed.

Lemma runs_frame (P : key -> Prop) s ops s' j : runs P s ops s' -> ok P s -> j < length (a_heap s) -> spares j s ops -> same_at (a_heap s) (a_heap s') j.
Proof.
  induction 1 as [|s op ops s' Hp Hr IH]; cbn [spares]; intros Ho Hj Hs; [reflexivity|]. destruct Hs as [Hw Hs].
  destruct (step_frame P s op j Ho Hj Hw) as [F L]. unfold same_at in *. rewrite <- F. apply IH; [apply ok_step; assumption|lia|exact Hs].
Qed.

(** What a context shows never changes, whatever the program does, unless it calls Mutate on
    the very map of the context or has a mutator of its own that names it. *)
Theorem C86_isolation (P : key -> Prop) s c ops s' : api_reach P s -> In c (a_ctxs s) -> runs P s ops s' ->
  (forall p, cx_map c = Some p -> spares p s ops) -> forall k, ctx_shows s' c k = ctx_shows s c k.
Proof.
  intros Hr Hc Hrun Hs k. apply ok_reach in Hr. unfold ctx_shows, shows, as_fun, cell_tags. destruct (cx_map c) as [p|] eqn:E; [|reflexivity].
  pose proof (proj1 (proj2 Hr) c Hc p E) as L. rewrite (runs_frame P s ops s' p Hrun Hr L (Hs p eq_refl)). reflexivity.
Qed.

Lemma tame_spares p : forall ops s, (forall op, In op ops -> tame op) -> spares p s ops.
Proof.
  induction ops as [|op ops IH]; cbn [spares]; intros s H; [exact I|]. split.
  - specialize (H op (or_introl eq_refl)). destruct op; cbn [tame may_write] in *; try tauto.
    intros (mu & Hi & Hn). destruct (H mu Hi) as [m ->]. exact Hn.
  - apply IH. intros op' Hi. apply H. right; exact Hi.
Qed.

(** In particular for programs that use only New, with the package's mutators, and the other
    functions: no context ever changes, also if maps go from one context to another. *)
Theorem C86_tame (P : key -> Prop) s c ops s' : api_reach P s -> In c (a_ctxs s) -> runs P s ops s' -> (forall op, In op ops -> tame op) ->
  forall k, ctx_shows s' c k = ctx_shows s c k.
Proof. intros Hr Hc Hrun Ht. eapply C86_isolation; eauto. intros p _. apply tame_spares. exact Ht. Qed.

(** All tags in all maps a program can get hold of have legal values, and keys that are legal
    or that the program itself made otherwise. *)
Theorem C86_valid (P : key -> Prop) s p k c : api_reach P s -> shows s p k = Some c -> (P k \/ valid_key k) /\ valid_value (c_value c).
Proof.
  intros Hr E. apply ok_reach in Hr. destruct Hr as (Hh & _). unfold shows, as_fun, cell_tags, tget in E. destruct p as [i|]; [|discriminate].
  destruct (nth_error (a_heap s) i) as [[m|]|] eqn:N; try discriminate. apply (Hh i m N). apply mget_In in E; [exact E|apply bytes_eqb_spec].
Qed.

(** *** Mutate *)

Lemma bad_iff mu : match mu with Insert _ v _ | Update _ v _ | Upsert _ v _ => negb (check_value v) | Delete _ => false end = false <-> mutator_ok mu.
Proof. destruct mu; cbn; try (rewrite negb_false_iff; apply check_value_spec). tauto. Qed.

(** Mutate of a package's mutator: an error if the value is not legal, and then nothing
    changes; a panic for a nil pointer, and for a zero Map if there is something to store;
    otherwise the map itself is changed and returned. *)
Theorem C86_mutate (P : key -> Prop) s mu m s' out : api_reach P s -> api_step s (AMutate (Lib mu) m) = (s', out) ->
  (~ mutator_ok mu -> out = OErr (TagErr ErrInvalidValue) /\ a_heap s' = a_heap s) /\
  (mutator_ok mu -> (out = OPanic <-> the_map s m = None \/ zero_map s (the_map s m) /\ stores mu)) /\
  (mutator_ok mu -> out <> OPanic -> out = OOk /\ the_map s' (length (a_maps s)) = the_map s m /\
     forall k, shows s' (the_map s m) k = spec_mutate mu (shows s (the_map s m)) k).
Proof.
  intros Hr H. apply ok_reach in Hr. pose proof (ok_nth_map P s m Hr) as Hin. cbn [api_step api_mutate] in H. unfold lib_mutate in H.
  pose proof (bad_iff mu) as B. set (bad := match mu with Insert _ v _ | Update _ v _ | Upsert _ v _ => negb (check_value v) | Delete _ => false end) in *. clearbody bad.
  destruct bad.
  { assert (N : ~ mutator_ok mu) by (intros X; apply B in X; discriminate X). injection H as <- <-.
    split; [intros _; split; reflexivity|]. split; intros X; contradiction. }
  assert (Y : mutator_ok mu) by (apply B; reflexivity). split; [intros X; contradiction|].
  assert (LAST : forall h' p, the_map (MkApi h' (a_ctxs s) (a_maps s ++ [p])) (length (a_maps s)) = p).
  { intros h' p. unfold the_map. cbn [a_maps]. rewrite app_nth2 by lia. rewrite Nat.sub_diag. reflexivity. }
  destruct (the_map s m) as [i|] eqn:E.
  2:{ injection H as <- <-. split; intros _; [tauto|]. intros X; congruence. }
  specialize (Hin i eq_refl). destruct (nth_error (a_heap s) i) as [[mm|]|] eqn:N.
  - destruct (proj2 (mutate_ok_iff mu mm) Y) as [m' M]. rewrite M in H. injection H as <- <-. split.
    + intros _. split; [discriminate|]. intros [X|[(i' & [= <-] & Z) _]]; [discriminate X|congruence].
    + intros _ _. split; [reflexivity|]. split; [apply LAST|].
      intros k. unfold shows, as_fun, cell_tags. cbn [a_heap]. rewrite nth_error_upd, Nat.eqb_refl, N. cbn [option_map].
      rewrite (mutate_spec mu mm m' M). unfold as_fun. reflexivity.
  - assert (Z : zero_map s (Some i)) by (exists i; split; [reflexivity|exact N]).
    destruct mu; cbn [stores] in *; injection H as <- <-.
    + split; intros _; [tauto|congruence].
    + split; intros _; [split; [discriminate|intros [X|[_ X]]; [discriminate X|contradiction]]|]. intros _. split; [reflexivity|]. split; [apply LAST|].
      intros k'. unfold shows, cell_tags. cbn [a_heap]. rewrite N. reflexivity.
    + split; intros _; [tauto|congruence].
    + split; intros _; [split; [discriminate|intros [X|[_ X]]; [discriminate X|contradiction]]|]. intros _. split; [reflexivity|]. split; [apply LAST|].
      intros k'. unfold shows, cell_tags. cbn [a_heap]. rewrite N. cbn. unfold fdel. destruct (bytes_eq_dec k k'); reflexivity.
  - apply nth_error_None in N. lia.
Qed.

(** So a call of Mutate on the map of a context changes the tags of this context and of all
    that share the map. *)
Theorem C86_mutate_refuted : exists P s s' c1 c2 k, api_reach P s /\ In c1 (a_ctxs s) /\ In c2 (a_ctxs s) /\ c1 <> c2 /\
  (exists op, possible P s op /\ api_step s op = (s', OOk)) /\
  ctx_shows s c1 k = None /\ ctx_shows s' c1 k <> None /\ ctx_shows s' c2 k <> None.
Proof.
  set (k := bs "k"). set (k2 := bs "user").
  set (o1 := ANew 0 [] [Lib (Insert k (bs "v") [])]). set (it := [(k, Content (bs "v") (-1)%Z)]).
  set (o2 := AFromContext 1). set (o3 := ADo 1 it). set (o4 := AMutate (Lib (Insert k2 (bs "mallory") [])) 1).
  set (s := fst (api_step (fst (api_step (fst (api_step api_init o1)) o2)) o3)).
  exists (fun _ => True), s, (fst (api_step s o4)), (MkCx (Some 0) []), (MkCx (Some 0) [(k, bs "v")]), k2.
  split. { exists [o1; o2; o3]. econstructor; [split; [reflexivity|auto]|]. econstructor; [exact I|]. econstructor; [|constructor]. cbn. apply Permutation_refl. }
  split; [right; left; reflexivity|]. split; [right; right; left; reflexivity|]. split; [discriminate|].
  split. { exists o4. split; [intros ? _; exact I|reflexivity]. }
  split; [reflexivity|]. split; discriminate.
Qed.

(** A mutator of the user's own that returns the map of another context makes New change
    that context. *)
Theorem C86_custom_refuted : exists P s s' c k, api_reach P s /\ In c (a_ctxs s) /\
  (exists ms, possible P s (ANew 0 [] ms) /\ api_step s (ANew 0 [] ms) = (s', OOk) /\ (forall mu body r, In mu ms -> mu = Custom body r -> body = [])) /\
  ctx_shows s c k = None /\ ctx_shows s' c k <> None.
Proof.
  set (k2 := bs "user"). set (o1 := ANew 0 [] [Lib (Insert (bs "k") (bs "v") [])]). set (o2 := AFromContext 1).
  set (s := fst (api_step (fst (api_step api_init o1)) o2)). set (ms := [Custom [] (RGive (MVar 1)); Lib (Upsert k2 (bs "x") [])]).
  exists (fun _ => True), s, (fst (api_step s (ANew 0 [] ms))), (MkCx (Some 0) []), k2.
  split. { exists [o1; o2]. econstructor; [split; [reflexivity|auto]|]. econstructor; [exact I|constructor]. }
  split; [right; left; reflexivity|]. split.
  { exists ms. split; [split; [reflexivity|auto]|]. split; [reflexivity|]. intros mu body r [<-|[<-|[]]] E; [congruence|discriminate E]. }
  split; [reflexivity|discriminate].
Qed.

(** *** New *)

Lemma copy_all it : forall m, (forall k c, In (k, c) it -> valid_key k /\ valid_value (c_value c)) -> NoDup (map fst it) ->
  (forall k, In k (map fst it) -> tget m k = None) ->
  exists m', api_copy it m = inl m' /\ forall k, tget m' k = match mget bytes_eqb it k with Some c => Some c | None => tget m k end.
Proof.
  induction it as [|[k v] it IH]; cbn [api_copy map mget]; intros m Hv Hd Hf; [exists m; split; reflexivity|].
  destruct (Hv k v (or_introl eq_refl)) as [V1 V2]. apply check_key_name_spec in V1. apply check_value_spec in V2. rewrite V1, V2. cbn [negb].
  inversion Hd as [|? ? Hn Hd']; subst.
  destruct (IH (t_insert m k (c_value v) (c_ttl v))) as (m' & E & G).
  - intros k' c' Hi. apply Hv. right; exact Hi.
  - exact Hd'.
  - intros k' Hi. unfold t_insert. rewrite Hf by (left; reflexivity). rewrite tget_mset.
    destruct (bytes_eq_dec k k') as [<-|]; [contradiction|]. apply Hf. right; exact Hi.
  - exists m'. split; [exact E|]. intros k'. rewrite G. unfold t_insert. rewrite (Hf k) by (left; reflexivity). rewrite tget_mset.
    destruct (bytes_eqb_spec k k') as [<-|NE].
    + replace (mget bytes_eqb it k) with (@None content) by (symmetry; apply (proj2 (mget_None bytes_eqb bytes_eqb_spec it k)); exact Hn).
      destruct (bytes_eq_dec k k); [|congruence]. destruct v; reflexivity.
    + destruct (mget bytes_eqb it k'); [reflexivity|]. destruct (bytes_eq_dec k k'); [congruence|reflexivity].
Qed.

Lemma loop_libs vs ms : forall h i m, only_lib ms -> nth_error h i = Some (Some m) ->
  ((forall mu, In mu (libs ms) -> mutator_ok mu) -> exists h' m', api_mutate_loop vs ms h (Some i) = (h', MRet (Some i)) /\ nth_error h' i = Some (Some m') /\
     forall k, tget m' k = fold_left (fun f mu => spec_mutate mu f) (libs ms) (as_fun m) k) /\
  ((exists mu, In mu (libs ms) /\ ~ mutator_ok mu) -> exists h', api_mutate_loop vs ms h (Some i) = (h', MErr (TagErr ErrInvalidValue))).
Proof.
  induction ms as [|a ms IH]; intros h i m Hl N.
  - split; [intros _; exists h, m; split; [reflexivity|split; [exact N|intros k; reflexivity]]|intros (mu & [] & _)].
  - destruct (Hl a (or_introl eq_refl)) as [mu ->]. assert (Hl' : only_lib ms) by (intros x Hx; apply Hl; right; exact Hx).
    cbn [api_mutate_loop api_mutate libs flat_map app]. fold (libs ms). unfold lib_mutate.
    pose proof (bad_iff mu) as B. set (bad := match mu with Insert _ v _ | Update _ v _ | Upsert _ v _ => negb (check_value v) | Delete _ => false end) in *. clearbody bad.
    destruct bad.
    + assert (NO : ~ mutator_ok mu) by (intros X; apply B in X; discriminate X). split.
      * intros H. exfalso. apply NO, H. left; reflexivity.
      * intros _. exists h. reflexivity.
    + assert (Y : mutator_ok mu) by (apply B; reflexivity). rewrite N.
      destruct (proj2 (mutate_ok_iff mu m) Y) as [m1 M]. rewrite M.
      destruct (IH (upd h i (fun _ => Some m1)) i m1 Hl') as [I1 I2].
      { rewrite nth_error_upd, Nat.eqb_refl, N. reflexivity. }
      split.
      * intros H. destruct I1 as (h' & m' & E1 & E2 & E3); [intros x Hx; apply H; right; exact Hx|]. exists h', m'. split; [exact E1|]. split; [exact E2|].
        intros k. rewrite E3. cbn [fold_left]. apply spec_fold_ext. intros k'. unfold as_fun at 1. apply (mutate_spec mu m m1 M).
      * intros (x & [<-|Hx] & Hb); [contradiction|]. apply I2. exists x. split; assumption.
Qed.

(** New with the package's mutators never panics and does what the mutators say, whatever
    else the program does with contexts and maps: also if the context holds a nil or zero map
    or one it shares with others; the new context has a map of its own. *)
Theorem C86_new s c it ms s' out : api_reach valid_key s -> possible valid_key s (ANew c it ms) -> only_lib ms ->
  api_step s (ANew c it ms) = (s', out) ->
  ((forall mu, In mu (libs ms) -> mutator_ok mu) ->
     out = OOk /\ (exists p, cx_map (the_ctx s' (length (a_ctxs s))) = Some p /\ forall c', In c' (a_ctxs s) -> cx_map c' <> Some p) /\
     forall k, ctx_shows s' (the_ctx s' (length (a_ctxs s))) k = fold_left (fun f mu => spec_mutate mu f) (libs ms) (ctx_shows s (the_ctx s c)) k) /\
  ((exists mu, In mu (libs ms) /\ ~ mutator_ok mu) -> out = OErr (TagErr ErrInvalidValue) /\ the_ctx s' (length (a_ctxs s)) = the_ctx s c).
Proof.
  intros Hr [Hit _] Hl H. apply ok_reach in Hr. pose proof Hr as (Hh & Hc & _).
  assert (LAST : forall h' x, the_ctx (MkApi h' (a_ctxs s ++ [x]) (a_maps s)) (length (a_ctxs s)) = x).
  { intros h' x. unfold the_ctx. cbn [a_ctxs]. rewrite app_nth2 by lia. rewrite Nat.sub_diag. reflexivity. }
  set (cx := the_ctx s c) in *. set (T := cell_tags (a_heap s) (cx_map cx)) in *.
  assert (OT : ok_tags valid_key T).
  { unfold T, cell_tags. destruct (cx_map cx) as [i|]; [|split; [constructor|intros ? ? []]].
    destruct (nth_error (a_heap s) i) as [[m|]|] eqn:N; [exact (Hh i m N)| |]; (split; [constructor|intros ? ? []]). }
  assert (CP : exists m, api_copy (match cx_map cx with Some _ => it | None => [] end) new_map = inl m /\ forall k, tget m k = as_fun T k).
  { set (it' := match cx_map cx with Some _ => it | None => [] end).
    assert (PT : Permutation T it') by (unfold it'; destruct (cx_map cx) eqn:E; [exact Hit|]; unfold T, cell_tags; rewrite ?E; apply Permutation_refl).
    destruct (copy_all it' new_map) as (m & E & G).
    - intros k v Hi. destruct (proj2 OT k v) as [[A|A] B]; [eapply Permutation_in; [symmetry; exact PT|exact Hi]| |]; split; assumption.
    - exact (mwf_perm _ _ (proj1 OT) PT).
    - reflexivity.
    - exists m. split; [exact E|]. intros k. rewrite G. unfold as_fun, tget.
      rewrite <- (mget_perm bytes_eqb bytes_eqb_spec T it' k (proj1 OT) PT). destruct (mget bytes_eqb T k); reflexivity. }
  destruct CP as (m & E & G). cbn [api_step] in H. unfold api_new in H. fold cx in H. rewrite E in H.
  destruct (loop_libs (a_maps s) ms (a_heap s ++ [Some m]) (length (a_heap s)) m Hl) as [I1 I2].
  { rewrite nth_error_app2, Nat.sub_diag by lia. reflexivity. }
  split.
  - intros Hok. destruct (I1 Hok) as (h' & m' & E1 & E2 & E3). rewrite E1 in H. injection H as <- <-. split; [reflexivity|]. rewrite LAST. cbn [cx_map]. split.
    + exists (length (a_heap s)). split; [reflexivity|]. intros c' Hi Ec. pose proof (Hc c' Hi _ Ec). lia.
    + intros k. unfold ctx_shows, shows, cell_tags, as_fun. cbn [cx_map a_heap]. rewrite E2, E3. apply spec_fold_ext. exact G.
  - intros Hbad. destruct (I2 Hbad) as (h' & E1). rewrite E1 in H. injection H as <- <-. split; [reflexivity|]. apply LAST.
Qed.

(** A mutator of the program that returns an error makes New fail: it never returns a new
    context, whatever the other mutators do. The context it returns along with the error is
    the given one. *)
Lemma loop_custom_error vs body ms : In (Custom body RErr) ms -> forall h p h' x, api_mutate_loop vs ms h p = (h', x) -> forall q, x <> MRet q.
Proof.
  induction ms as [|mu ms IH]; intros Hi h p h' x H q; [destruct Hi|]. cbn [api_mutate_loop] in H. destruct Hi as [->|Hi].
  - cbn [api_mutate] in H. destruct (run_body vs body h p) as [h1 []]; injection H as <- <-; discriminate.
  - destruct (api_mutate vs mu h p) as [h1 [p1|e|]] eqn:E; try (injection H as <- <-; discriminate). eapply IH; eassumption.
Qed.

Theorem C86_custom_error s c it ms body s' out :
  In (Custom body RErr) ms -> api_step s (ANew c it ms) = (s', out) ->
  out <> OOk /\ (forall e, out = OErr e -> the_ctx s' (length (a_ctxs s)) = the_ctx s c) /\
  forall i, i < length (a_ctxs s) -> the_ctx s' i = the_ctx s i.
Proof.
  intros Hi H. cbn [api_step] in H.
  assert (N : forall h' x, api_new (a_maps s) (a_heap s) (the_ctx s c) it ms = (h', x) -> forall q, x <> MRet q).
  { intros h' x E q. unfold api_new in E. destruct (api_copy _ _) as [m|e]; [eapply loop_custom_error; eassumption|]. injection E as <- <-. discriminate. }
  destruct (api_new (a_maps s) (a_heap s) (the_ctx s c) it ms) as [h' [q|e|]]; [exfalso; eapply N; reflexivity| |]; injection H as <- <-.
  - split; [discriminate|]. unfold the_ctx. cbn [a_ctxs]. split.
    + intros _ _. rewrite app_nth2 by lia. rewrite Nat.sub_diag. reflexivity.
    + intros i Hl. rewrite app_nth1 by lia. reflexivity.
  - split; [discriminate|]. split; [discriminate|]. reflexivity.
Qed.

(** Called directly, it returns that error and a nil map, unless it panics. *)
Theorem C86_mutate_error s body m s' out :
  api_step s (AMutate (Custom body RErr) m) = (s', out) ->
  (out = OErr UserErr /\ a_maps s' = a_maps s ++ [None]) \/ out = OPanic.
Proof.
  intros H. cbn [api_step api_mutate] in H. destruct (run_body (a_maps s) body (a_heap s) (the_map s m)) as [h' []]; injection H as <- <-; auto.
Qed.

Example C86_custom_error_example :
  let s := fst (api_step api_init (ANew 0 [] [Lib (Insert (bs "k") (bs "v") [])])) in
  snd (api_step s (ANew 1 [] [Lib (Delete (bs "k")); Custom [] RErr])) = OErr UserErr.
Proof. vm_compute. reflexivity. Qed.

(** *** Do *)

Lemma add_labels_get it : forall ls k, NoDup (map fst it) ->
  mget bytes_eqb (add_labels ls it) k = match mget bytes_eqb it k with Some c => Some (c_value c) | None => mget bytes_eqb ls k end.
Proof.
  unfold add_labels. induction it as [|[k' c] it IH]; cbn [fold_left map mget fst snd]; intros ls k Hd; [reflexivity|].
  inversion Hd as [|? ? Hn Hd']; subst. rewrite IH by exact Hd'. rewrite (mget_mset bytes_eqb bytes_eqb_spec).
  destruct (bytes_eqb_spec k' k) as [<-|NE]; [|reflexivity].
  replace (mget bytes_eqb it k') with (@None content) by (symmetry; apply (proj2 (mget_None bytes_eqb bytes_eqb_spec it k')); exact Hn). reflexivity.
Qed.

(** Do calls its function with the same tags; each of them is a profiler label there, and
    labels of other names stay as they were. It panics just when the context has no map. *)
Theorem C86_do (P : key -> Prop) s c it s' out : api_reach P s -> possible P s (ADo c it) -> api_step s (ADo c it) = (s', out) ->
  (out = OPanic <-> cx_map (the_ctx s c) = None) /\
  (out <> OPanic -> out = OOk /\
     (forall k, ctx_shows s' (the_ctx s' (length (a_ctxs s))) k = ctx_shows s (the_ctx s c) k) /\
     forall k, mget bytes_eqb (cx_labels (the_ctx s' (length (a_ctxs s)))) k =
       match ctx_shows s (the_ctx s c) k with Some t => Some (c_value t) | None => mget bytes_eqb (cx_labels (the_ctx s c)) k end).
Proof.
  intros Hr Hit H. apply ok_reach in Hr. pose proof Hr as (Hh & _). cbn [api_step possible] in *.
  destruct (cx_map (the_ctx s c)) as [p|] eqn:E; injection H as <- <-.
  - split; [split; discriminate|]. intros _. split; [reflexivity|].
    assert (LAST : forall x, the_ctx (MkApi (a_heap s) (a_ctxs s ++ [x]) (a_maps s)) (length (a_ctxs s)) = x).
    { intros x. unfold the_ctx. cbn [a_ctxs]. rewrite app_nth2 by lia. rewrite Nat.sub_diag. reflexivity. }
    rewrite LAST. cbn [cx_labels]. split.
    + intros k. unfold ctx_shows. rewrite E. reflexivity.
    + intros k. assert (W : mwf (cell_tags (a_heap s) (Some p))).
      { unfold cell_tags. destruct (nth_error (a_heap s) p) as [[m|]|] eqn:N; [exact (proj1 (Hh p m N))|constructor|constructor]. }
      rewrite add_labels_get by exact (mwf_perm _ _ W Hit). unfold ctx_shows, shows, as_fun, tget. rewrite E.
      rewrite (mget_perm bytes_eqb bytes_eqb_spec _ it k W Hit). reflexivity.
  - split; [tauto|congruence].
Qed.

(** On a context without tags, e.g. context.Background(), Do panics. *)
Theorem C86_do_refuted : api_step api_init (ADo 0 []) = (api_init, OPanic) /\ (forall k, ctx_shows api_init (the_ctx api_init 0) k = None).
Proof. split; reflexivity. Qed.

(** A tag deleted from the context is still a label in a nested Do. *)
Theorem C86_labels_refuted : exists s s' c k v, api_reach valid_key s /\ api_step s (ADo c []) = (s', OOk) /\ possible valid_key s (ADo c []) /\
  ctx_shows s' (the_ctx s' (length (a_ctxs s))) k = None /\ mget bytes_eqb (cx_labels (the_ctx s' (length (a_ctxs s)))) k = Some v.
Proof.
  set (k := bs "k"). set (it := [(k, Content (bs "v") (-1)%Z)]).
  set (o1 := ANew 0 [] [Lib (Insert k (bs "v") [])]). set (o2 := ADo 1 it). set (o3 := ANew 2 it [Lib (Delete k)]).
  set (s := fst (api_step (fst (api_step (fst (api_step api_init o1)) o2)) o3)).
  assert (K : valid_key k) by (apply check_key_name_spec; reflexivity).
  exists s, (fst (api_step s (ADo 3 []))), 3, k, (bs "v").
  split. { exists [o1; o2; o3]. econstructor; [split; [reflexivity|]|].
    - intros mu k' [<-|[]] <-. exact K.
    - econstructor; [apply Permutation_refl|]. econstructor; [split; [apply Permutation_refl|]|constructor]. intros mu k' [<-|[]] <-. exact K. }
  split; [reflexivity|]. split; [apply Permutation_refl|]. split; reflexivity.
Qed.

(** *** Value, Encode and String *)

(** Value tells exactly the tags, for every pointer. *)
Theorem C86_value s p k : api_value (a_heap s) p k = match shows s p k with Some c => (c_value c, true) | None => ([], false) end.
Proof. destruct p as [i|]; reflexivity. Qed.

(** Encode never panics, and a nil map is encoded as nothing. *)
Theorem C86_encode s p it : api_reach valid_key s -> Permutation (cell_tags (a_heap s) p) it ->
  (p = None -> api_encode p it = Some []) /\ exists b, api_encode p it = Some b.
Proof.
  intros Hr Hp. apply ok_reach in Hr. destruct Hr as (Hh & _). destruct p as [i|]; [|split; [reflexivity|exists []; reflexivity]].
  split; [discriminate|]. cbn [api_encode]. eexists. apply encode_ok. intros k c Hi. apply (Permutation_in _ (Permutation_sym Hp)) in Hi. cbn [cell_tags] in Hi.
  destruct (nth_error (a_heap s) i) as [[m|]|] eqn:N; try destruct Hi. destruct (proj2 (Hh i m N) k c Hi) as [[[K _]|[K _]] [V _]]; lia.
Qed.

Lemma sorted_strict l : NoDup l -> StronglySorted (leb bytes_ltb) l -> StronglySorted (fun a b => bytes_ltb a b = true) l.
Proof.
  induction l as [|x l IH]; intros Hd H; constructor; inversion Hd; inversion H; subst.
  - apply IH; assumption.
  - apply Forall_forall. intros y Hy. rewrite Forall_forall in H7. specialize (H7 y Hy). unfold leb in H7.
    destruct (bytes_ltb x y) eqn:E; [reflexivity|]. assert (x = y) by (apply bytes_ltb_antisym; assumption). congruence.
Qed.

(** The text lists the tags in the order of their keys, in whatever order the map is ranged
    over. *)
Theorem C86_string (P : key -> Prop) s p it : api_reach P s -> Permutation (cell_tags (a_heap s) p) it ->
  match p with None => map_string p it = bs "nil" | Some _ => text_of (shows s p) (map_string p it) end.
Proof.
  intros Hr Hp. destruct p as [i|]; [|reflexivity]. apply ok_reach in Hr. destruct Hr as (Hh & _).
  set (T := cell_tags (a_heap s) (Some i)) in *.
  assert (W : mwf T). { unfold T, cell_tags. destruct (nth_error (a_heap s) i) as [[m|]|] eqn:N; [exact (proj1 (Hh i m N))|constructor|constructor]. }
  assert (W' : mwf it) by exact (mwf_perm _ _ W Hp).
  set (ks := isort bytes_ltb (map fst it)).
  assert (PK : Permutation ks (map fst it)) by apply isort_perm.
  assert (ST : StronglySorted (fun a b => bytes_ltb a b = true) ks).
  { apply sorted_strict; [eapply Permutation_NoDup; [symmetry; exact PK|exact W']|]. apply isort_sorted; [exact bytes_leb_trans|exact bytes_ltb_asym]. }
  set (g := fun k => match mget bytes_eqb it k with Some c => c | None => Content [] 0%Z end).
  exists (map (fun k => (k, g k)) ks), (map (fun k => bs "{" ++ k ++ bs " " ++ content_text (g k) ++ bs "}") ks).
  split; [|split; [|split]].
  - clear - ST. induction ST as [|k ks _ IH F]; cbn [map]; constructor; [exact IH|]. apply Forall_forall. intros x Hx. apply in_map_iff in Hx.
    destruct Hx as (k' & <- & Hk). rewrite Forall_forall in F. exact (F k' Hk).
  - intros k c. unfold shows, as_fun, tget. fold T. rewrite (mget_perm bytes_eqb bytes_eqb_spec T it k W Hp). rewrite in_map_iff. split.
    + intros (k' & [= <- <-] & Hk). apply (Permutation_in _ PK) in Hk. unfold g. destruct (mget bytes_eqb it k') eqn:M; [reflexivity|].
      apply (proj1 (mget_None bytes_eqb bytes_eqb_spec it k')) in M. contradiction.
    + intros M. exists k. split; [unfold g; rewrite M; reflexivity|]. apply (Permutation_in _ (Permutation_sym PK)). exact (mget_Some_key bytes_eqb bytes_eqb_spec it k c M).
  - clear. induction ks as [|k ks IH]; cbn [map]; constructor; [|exact IH]. eexists. split; [apply itoa_decimal|]. cbn [fst snd]. unfold content_text.
    rewrite <- !app_assoc. reflexivity.
  - reflexivity.
Qed.

(** A program with a shared map, a mutator of its own and labels. *)
Definition demo_ops : list api_op :=
  [ANew 0 [] [Lib (Insert (bs "k") (bs "v") []); Lib (Upsert (bs "a") (bs "w") [Some 0%Z])];
   AFromContext 1; ANewContext 0 1; AZeroMap; ANewContext 1 2;
   ADo 2 [(bs "k", Content (bs "v") (-1)%Z); (bs "a", Content (bs "w") 0%Z)];
   ANew 3 [] [Custom [(Given, Insert (bs "z") (bs "1") []); (MVar 2, Delete (bs "k"))] (RGive Given); Lib (Update (bs "z") (bs "2") [])]].
Example C86_demo : exists s, runs valid_key api_init demo_ops s /\
  map (fun c => (cx_map c, cell_tags (a_heap s) (cx_map c), cx_labels c)) (a_ctxs s) =
    [(None, [], []);
     (Some 0, [(bs "k", Content (bs "v") (-1)%Z); (bs "a", Content (bs "w") 0%Z)], []);
     (Some 0, [(bs "k", Content (bs "v") (-1)%Z); (bs "a", Content (bs "w") 0%Z)], []);
     (Some 1, [], []);
     (Some 0, [(bs "k", Content (bs "v") (-1)%Z); (bs "a", Content (bs "w") 0%Z)], [(bs "k", bs "v"); (bs "a", bs "w")]);
     (Some 2, [(bs "z", Content (bs "2") (-1)%Z)], [])] /\
  map_string (Some 0) (cell_tags (a_heap s) (Some 0)) = bs "{ {a {w {{0}}}}{k {v {{-1}}}} }".
Proof.
  assert (K : forall k, In k [bs "k"; bs "a"; bs "z"] -> valid_key k) by (intros k [<-|[<-|[<-|[]]]]; apply check_key_name_spec; reflexivity).
  eexists. split.
  - unfold demo_ops. econstructor; [split; [apply Permutation_refl|]|].
    { intros mu k [<-|[<-|[]]] <-; apply K; cbn; auto. }
    econstructor; [exact I|]. econstructor; [exact I|]. econstructor; [exact I|]. econstructor; [exact I|].
    econstructor; [apply Permutation_refl|]. econstructor; [split; [apply Permutation_refl|]|constructor].
    intros mu k [<-|[<-|[]]]; [|intros <-; apply K; cbn; auto]. intros (t & m & Hi & <-). destruct Hi as [[= <- <-]|[[= <- <-]|[]]]; apply K; cbn; auto.
  - split; vm_compute; reflexivity.
Qed.

Print Assumptions C86_isolation.
Print Assumptions C86_tame.
Print Assumptions C86_valid.
Print Assumptions C86_mutate.
Print Assumptions C86_mutate_refuted.
Print Assumptions C86_custom_refuted.
Print Assumptions C86_new.
Print Assumptions C86_do.
Print Assumptions C86_do_refuted.
Print Assumptions C86_labels_refuted.
Print Assumptions C86_value.
Print Assumptions C86_encode.
Print Assumptions C86_string.
Print Assumptions C86_custom_error.
Print Assumptions C86_mutate_error.
