(** Properties C45 (tracestate construction) and C46 (memory isolation). *)

From Coq Require Import String.
From Coq Require Import List NArith Bool Arith Lia.
From Verif Require Import Base Text TracestateModel TracestateSpec TracestateProofs.
Import ListNotations.
Open Scope N_scope.

(** ** C45 *)

(** New succeeds exactly when the new entries are valid, have distinct keys, and
    the merged list has at most 32 entries; the result is the new entries in
    order followed by the parent's entries that are not overridden.  [parent] and
    the result are pointers: [None] is nil. *)
Theorem C45_new parent es r :
  NoDup (map e_key (ts_entries parent)) ->
  (ts_new parent es = Ok r <->
   (parent = None /\ es = [] /\ r = None) \/
   ((parent <> None \/ es <> []) /\
    Forall entry_ok es /\ NoDup (map e_key es) /\
    exists kept, keeps es (ts_entries parent) kept /\
      (length (es ++ kept) <= 32)%nat /\ r = Some (es ++ kept))).
Proof. apply ts_new_ok_iff. Qed.

(** Which error is reported. *)
Theorem C45_errors parent es e :
  NoDup (map e_key (ts_entries parent)) ->
  ts_new parent es = Err e ->
  match e with
  | EInvalid x => In x es /\ ~ entry_ok x
  | EDuplicate k => ~ NoDup (map e_key es) /\ In k (map e_key es)
  | ETooMany n m => n = length es /\ (n + m > 32)%nat /\
                    exists kept, keeps es (ts_entries parent) kept /\ m = length kept
  end.
Proof.
  intros Hp H.
  assert (Hne : parent <> None \/ es <> []).
  { destruct parent; [left; discriminate|]. destruct es; [discriminate|right; discriminate]. }
  rewrite ts_new_unfold in H by exact Hne.
  destruct (first_invalid es) as [x|] eqn:E1.
  - injection H as <-. clear - E1. induction es as [|y es IH]; simpl in *; [discriminate|].
    destruct (entry_valid y) eqn:Ey; [destruct (IH E1); auto|].
    injection E1 as ->. split; auto. intros Ho. apply entry_valid_iff in Ho. congruence.
  - destruct (find_duplicate [] es) as [k|] eqn:E2.
    + injection H as <-. split.
      * intros Hn. apply find_duplicate_nil in Hn. congruence.
      * clear - E2. revert E2. generalize (@nil bytes) as seen.
        induction es as [|y es IH]; simpl; intros seen E; [discriminate|].
        destruct (existsb (bytes_eqb (e_key y)) seen); [left; congruence|].
        right. eapply IH; eauto.
    + unfold ts_add in H. rewrite ts_remove_fold in H by exact Hp.
      destruct (Nat.ltb_spec max_pairs (length (drop_keys es (base_of parent)) + length es)) as [Hl|Hl];
        [|discriminate].
      injection H as <-. unfold max_pairs in Hl. split; [reflexivity|]. split; [lia|].
      exists (drop_keys es (base_of parent)). split; [apply keeps_drop_keys|reflexivity].
Qed.

(** Every tracestate a program can build has valid entries, distinct keys and at
    most 32 members. *)
Theorem C45_reachable_ok cs : Forall (fun o => ts_ok (ts_entries o)) (v_run cs).
Proof.
  unfold v_run.
  assert (H : forall cs built, Forall (fun o => ts_ok (ts_entries o)) built ->
     Forall (fun o => ts_ok (ts_entries o)) (fold_left v_step cs built)).
  { clear cs. induction cs as [|[pi es] cs IH]; intros built Hb; simpl; [exact Hb|].
    apply IH. unfold v_step. cbn [fst snd].
    set (parent := match pi with Some i => nth i built None | None => None end).
    assert (Hn : ts_ok (ts_entries None)).
    { split; [constructor|]. split; [constructor|simpl; lia]. }
    assert (Hpar : ts_ok (ts_entries parent)).
    { unfold parent. destruct pi as [i|]; [|exact Hn].
      destruct (nth_in_or_default i built None) as [Hin|Hd]; [|now rewrite Hd].
      rewrite Forall_forall in Hb. now apply Hb. }
    destruct (ts_new parent es) as [o| |] eqn:E;
      (apply Forall_app; split; [exact Hb|]; constructor; [|constructor]); auto.
    eapply ts_new_preserves; eauto. }
  apply H. constructor.
Qed.

(** The code, which works on Go slices in a shared heap, computes exactly that
    result for every heap, every runtime growth policy and every pair of slices,
    and writes no cell outside the spare capacity of the slice passed as
    [entries...]. *)
Theorem C45_heap spare h parent entries h' r :
  (forall p, parent = Some p -> valid h p) -> valid h entries ->
  (s_arr entries < length h \/ s_cap entries = 0)%nat ->
  h_new spare h parent entries = (h', r) ->
  read_res h' r = ts_new (option_map (h_read h) parent) (h_read h entries) /\
  (forall a i, (a < length h)%nat ->
     ~ (a = s_arr entries /\
        (s_off entries + s_len entries <= i < s_off entries + s_cap entries)%nat) ->
     nth_error (h_array h' a) i = nth_error (h_array h a) i).
Proof.
  intros Vp Ve Ha H. apply h_new_spec in H; auto. destruct H as (R & [_ S] & _).
  split; [exact R|]. intros a i Hlt Hn. apply S; auto.
Qed.

(** The parent is unchanged if its cells are not spare cells of [entries...]; in
    particular whenever that slice has no spare capacity, as for literal
    arguments. *)
Theorem C45_parent_unchanged spare h p entries h' r :
  valid h p -> valid h entries ->
  (s_arr entries < length h \/ s_cap entries = 0)%nat ->
  (s_len entries = s_cap entries \/ s_arr p <> s_arr entries) ->
  h_new spare h (Some p) entries = (h', r) ->
  h_read h' p = h_read h p.
Proof.
  intros Vp Ve Ha Hd H. apply h_new_spec in H; auto; [|intros ? [= <-]; exact Vp].
  destruct H as (_ & S & _). eapply h_read_same; eauto.
  intros i Hi [Ea Hc]. destruct Hd; [lia|congruence].
Qed.

(** ** C46 *)

(** In a program that builds tracestates by any sequence of New calls with
    literal arguments, the tracestates built so far never change, whatever is
    built later from them, and they are what the value-level New gives. *)
Theorem C46_isolation spare cs cs' i s :
  nth_error (snd (h_run spare cs)) i = Some (Some s) ->
  nth_error (snd (h_run spare (cs ++ cs'))) i = Some (Some s) /\
  h_read (fst (h_run spare (cs ++ cs'))) s = h_read (fst (h_run spare cs)) s.
Proof.
  unfold h_run. intros H. rewrite fold_left_app.
  assert (Hok := h_run_spec spare cs [] [] ltac:(constructor)).
  cbv zeta in Hok. destruct Hok as (_ & Hok & _ & _).
  destruct (fold_left (h_step spare) cs ([], [])) as [h1 b1] eqn:E1. cbn [fst snd] in *.
  pose proof (h_run_spec spare cs' h1 b1 Hok) as P. cbv zeta in P.
  destruct P as (_ & _ & (more & Hm) & Hsame).
  split.
  - rewrite Hm. rewrite nth_error_app1; [exact H|]. apply nth_error_Some. congruence.
  - apply nth_error_In in H. specialize (Hsame _ H). simpl in Hsame. congruence.
Qed.

Theorem C46_values spare cs :
  map (option_map (h_read (fst (h_run spare cs)))) (snd (h_run spare cs)) = v_run cs.
Proof.
  pose proof (h_run_spec spare cs [] [] ltac:(constructor)) as P. cbv zeta in P.
  destruct P as (P & _). exact P.
Qed.

(** ** Concrete cases *)

Definition ent (k v : string) : entry := MkEntry (bs k) (bs v).

Example C45_example :
  ts_new (Some [ent "foo" "1"; ent "bar" "2"]) [ent "bar" "9"; ent "t@v" "x y"]
  = Ok (Some [ent "bar" "9"; ent "t@v" "x y"; ent "foo" "1"]).
Proof. vm_compute. reflexivity. Qed.

Example C45_hyp_met : NoDup (map e_key (ts_entries (Some [ent "foo" "1"; ent "bar" "2"]))).
Proof.
  simpl. constructor; [|constructor; [|constructor]]; simpl; [|tauto].
  intros [H|[]]. discriminate.
Qed.

Example C45_rejects :
  ts_new None [ent "Foo" "1"] = Err (EInvalid (ent "Foo" "1")) /\
  ts_new None [ent "a" "1"; ent "a" "2"] = Err (EDuplicate (bs "a")) /\
  ts_new None [ent "a" "1 "] = Err (EInvalid (ent "a" "1 ")).
Proof. vm_compute. auto. Qed.

Example C46_example :
  let cs := [(None, [ent "a" "1"; ent "b" "2"]); (Some 0%nat, [ent "b" "3"]);
             (Some 1%nat, [ent "a" "4"])] in
  let st := h_run (fun _ => 5%nat) cs in
  map (option_map (h_read (fst st))) (snd st)
  = [Some [ent "a" "1"; ent "b" "2"]; Some [ent "b" "3"; ent "a" "1"];
     Some [ent "a" "4"; ent "b" "3"]].
Proof. vm_compute. reflexivity. Qed.

(** Finding: when the caller passes a slice with spare capacity, the tracestate
    is stored in the caller's array.  A second New with the same slice then
    rewrites the first tracestate. *)
Theorem C46_shared_slice_refuted :
  exists h p1 p2 entries h1 t1 h2 t2,
    valid h p1 /\ valid h p2 /\ valid h entries /\
    h_new (fun _ => 0%nat) h (Some p1) entries = (h1, Ok (Some t1)) /\
    h_new (fun _ => 0%nat) h1 (Some p2) entries = (h2, Ok (Some t2)) /\
    h_read h2 t1 <> h_read h1 t1.
Proof.
  exists [[ent "p" "1"]; [ent "q" "2"]; [ent "n" "0"; zero_entry; zero_entry]].
  exists (MkSlice 0 0 1 1), (MkSlice 1 0 1 1), (MkSlice 2 0 1 3).
  eexists _, _, _, _.
  split; [split; simpl; lia|]. split; [split; simpl; lia|]. split; [split; simpl; lia|].
  split; [vm_compute; reflexivity|]. split; [vm_compute; reflexivity|].
  vm_compute. discriminate.
Qed.

(** Finding: even without spare capacity, writing to the slice after New changes
    the tracestate when nothing was kept from the parent. *)
Theorem C46_caller_write_refuted :
  exists h entries h1 t,
    valid h entries /\ s_len entries = s_cap entries /\
    h_new (fun _ => 0%nat) h None entries = (h1, Ok (Some t)) /\
    h_read (h_write h1 entries 1 (ent "Bad Key" "")) t <> h_read h1 t /\
    ~ ts_ok (h_read (h_write h1 entries 1 (ent "Bad Key" "")) t).
Proof.
  exists [[ent "x" "9"; ent "n" "0"; ent "m" "1"]], (MkSlice 0 1 2 2). eexists _, _.
  split; [split; simpl; lia|]. split; [reflexivity|].
  split; [vm_compute; reflexivity|]. split; [vm_compute; discriminate|].
  intros [H _]. vm_compute in H. inversion H as [|? ? _ H']; subst. inversion H' as [|? ? [_ Hv] _]; subst.
  destruct Hv as [Hl _]. simpl in Hl. lia.
Qed.

Print Assumptions C45_new.
Print Assumptions C45_errors.
Print Assumptions C45_reachable_ok.
Print Assumptions C45_heap.
Print Assumptions C45_parent_unchanged.
Print Assumptions C46_isolation.
Print Assumptions C46_values.
Print Assumptions C46_shared_slice_refuted.
Print Assumptions C46_caller_write_refuted.
