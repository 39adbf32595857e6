(** Property theorems for package tag (C01-C04). *)

From Coq Require Import String.
From Coq Require Import List NArith ZArith Bool Permutation Lia.
From Verif Require Import Base GoMap TagModel TagSpec TagProofs.
Import ListNotations.
Open Scope N_scope.

(** ** C01: wire round trip *)

(** For every context reachable with keys made by NewKey, and every iteration
    order [it] of its map, Encode succeeds, what it writes is a well-formed
    message listing exactly the tags with unlimited TTL, and decoding it gives
    back exactly those tags.  (The map is assumed to have fewer than 2^50 tags,
    so that the encoding fits in a Go slice.) *)
Theorem C01_roundtrip : forall s p it,
  tag_reach valid_key s ->
  In (Some p) (st_ctxs s) ->
  Permutation (heap_get (st_heap s) p) it ->
  N.of_nat (length it) < 2 ^ 50 ->
  exists b m', encode it = Some b /\ decode b = DecOk m' /\
    forall k, as_fun m' k =
      match ctx_fun (st_heap s) (Some p) k with
      | Some c => if Z.eq_dec (c_ttl c) (-1) then Some c else None
      | None => None
      end.
Proof.
  intros s p it Hr Hin HP Hsz.
  destruct (reach_wf _ _ Hr) as [Hw Hc]. specialize (Hc _ p Hin eq_refl).
  destruct (roundtrip _ it (Hw p Hc) (reach_valid s Hr p Hc) HP) as (b & m' & He & Hd & Hf).
  - rewrite (Permutation_length HP). exact Hsz.
  - exists b, m'. split; [exact He|]. split; [exact Hd|].
    intros k. unfold as_fun, ctx_fun. simpl. rewrite Hf.
    unfold as_fun. destruct (tget (heap_get (st_heap s) p) k) as [c|]; [|reflexivity].
    destruct (Z.eqb_spec (c_ttl c) (-1)), (Z.eq_dec (c_ttl c) (-1)); congruence.
Qed.
Print Assumptions C01_roundtrip.

(** What reaches the wire: a well-formed message whose tags are exactly the tags
    with unlimited TTL. *)
Theorem C01_only_unlimited_on_wire : forall s p it,
  tag_reach valid_key s ->
  In (Some p) (st_ctxs s) ->
  Permutation (heap_get (st_heap s) p) it ->
  exists b ts, encode it = Some b /\ message b ts /\
    forall k v, In (k, v) ts <-> ctx_fun (st_heap s) (Some p) k = Some (Content v (-1)%Z).
Proof.
  intros s p it Hr Hin HP.
  destruct (reach_wf _ _ Hr) as [Hw Hc]. specialize (Hc _ p Hin eq_refl).
  pose proof (Hw p Hc) as Hwf. pose proof (reach_valid s Hr p Hc) as Hval.
  assert (Hit : forall k c, In (k, c) it -> valid_key k /\ valid_value (c_value c)).
  { intros k c Hi. apply Hval. eapply Permutation_in; [apply Permutation_sym; exact HP|exact Hi]. }
  eexists. exists (exported it). split; [|split].
  - apply encode_ok. intros k c Hi. destruct (Hit k c Hi) as [[Hk _] [Hv _]]. lia.
  - right. eexists. split; [reflexivity|]. apply wire_exported.
    intros k v Hi. apply exported_in in Hi. destruct Hi as (c & Hi & _ & <-).
    destruct (Hit k c Hi) as [[Hk _] [Hv _]]. lia.
  - intros k v. rewrite exported_in. unfold ctx_fun. simpl. unfold as_fun, tget. split.
    + intros (c & Hi & Ht & Hv). destruct c as [v0 t]. simpl in *. subst.
      apply In_mget; auto; [apply bytes_eqb_spec|].
      eapply Permutation_in; [apply Permutation_sym; exact HP|exact Hi].
    + intros H. apply mget_In in H; [|apply bytes_eqb_spec].
      exists (Content v (-1)%Z). split; [|auto]. eapply Permutation_in; eauto.
Qed.
Print Assumptions C01_only_unlimited_on_wire.

(** A context with one propagating and one local tag. *)
Definition ex_state : tag_state :=
  tag_step tag_init (OpNew 0 []
    [Insert (bs "frontend") (bs "mobile-ios") [];
     Insert (bs "tenant") (bs "42") [Some ttl_no_propagation]]).

Example C01_nonvacuous :
  tag_reach valid_key ex_state /\ In (Some 0%nat) (st_ctxs ex_state) /\
  Permutation (heap_get (st_heap ex_state) 0)
    [(bs "tenant", Content (bs "42") 0%Z);
     (bs "frontend", Content (bs "mobile-ios") (-1)%Z)].
Proof.
  split; [|split].
  - apply reach_new; [constructor|exact I|].
    intros mu [<-|[<-|[]]]; apply check_key_name_spec; reflexivity.
  - simpl. auto.
  - vm_compute. apply perm_swap.
Qed.

Example C01_bytes :
  encode [(bs "tenant", Content (bs "42") 0%Z);
          (bs "frontend", Content (bs "mobile-ios") (-1)%Z)]
  = Some (x00 :: x00 :: x08 :: bs "frontend" ++ x0a :: bs "mobile-ios").
Proof. vm_compute. reflexivity. Qed.

(** ** C02: decoding untrusted bytes *)

(** Decode accepts exactly the messages of the grammar whose tags are all valid,
    and then yields the map they describe.  (Go slices are shorter than 2^63.) *)
Theorem C02_accepts_iff : forall b,
  N.of_nat (length b) < 2 ^ 63 ->
  (exists m, decode b = DecOk m) <->
  (exists ts, message b ts /\ forall k v, In (k, v) ts -> valid_key k /\ valid_value v).
Proof.
  intros b Hsz. split.
  - intros [m Hm]. destruct (decode_inv b m Hsz Hm) as (ts & H1 & H2 & _). eauto.
  - intros (ts & H1 & H2). destruct (decode_accept b ts Hsz H1 H2) as (m & Hm & _). eauto.
Qed.
Print Assumptions C02_accepts_iff.

Theorem C02_result : forall b ts m,
  N.of_nat (length b) < 2 ^ 63 ->
  message b ts -> (forall k v, In (k, v) ts -> valid_key k /\ valid_value v) ->
  decode b = DecOk m ->
  valid_tags m /\ forall k, as_fun m k = tags_fun ts k.
Proof.
  intros b ts m Hsz Hm Hv Hd. split; [eapply decode_valid; eauto|].
  destruct (decode_accept b ts Hsz Hm Hv) as (m' & Hd' & Hf).
  rewrite Hd in Hd'. injection Hd' as <-. exact Hf.
Qed.
Print Assumptions C02_result.

(** Decoding always terminates (the model's fuel is never exhausted). *)
Theorem C02_terminates : forall b, decode b <> DecOutOfFuel.
Proof. exact decode_no_fuel. Qed.
Print Assumptions C02_terminates.

(** No panic as long as no length prefix anywhere in the input reaches 2^63 when
    added to its position. *)
Theorem C02_no_panic : forall b,
  N.of_nat (length b) < 2 ^ 63 ->
  (forall i l r n, skipn i b = l ++ r -> len_prefix l n -> (i < length b)%nat ->
     N.of_nat i + N.of_nat (length l) + n < 2 ^ 63) ->
  decode b <> DecPanic.
Proof.
  intros b Hsz Hg. unfold decode. destruct b as [|version w]; [discriminate|].
  cbn [decode_each].
  destruct (b2n tags_version <? b2n version); [discriminate|].
  pose proof (decode_loop_no_panic (S (length (version :: w))) (version :: w) 1 [] Hsz Hg) as H.
  destruct (decode_loop _ _ _ _) as [calls o]. simpl in H.
  destruct o; congruence.
Qed.
Print Assumptions C02_no_panic.

(** The full statement "Decode never panics" is false: after any valid prefix, a
    length prefix of 2^63 or more panics. *)
Theorem C02_panics : forall w ts l n r,
  wire w ts -> (forall k v, In (k, v) ts -> valid_key k /\ valid_value v) ->
  len_prefix l n -> 2 ^ 63 <= n ->
  N.of_nat (length (x00 :: w ++ x00 :: l ++ r)) < 2 ^ 63 ->
  decode (x00 :: w ++ x00 :: l ++ r) = DecPanic.
Proof.
  intros. eapply decode_prefix_panic; eauto. lia.
Qed.
Print Assumptions C02_panics.

Theorem C02_never_panics_refuted : exists b, decode b = DecPanic.
Proof.
  exists (x00 :: x00 :: put_uvarint (2 ^ 63)). vm_compute. reflexivity.
Qed.
Print Assumptions C02_never_panics_refuted.

(** A version byte other than 0 is an error. *)
Theorem C02_version : forall v w, v <> x00 -> decode (v :: w) = DecErr ErrVersion.
Proof.
  intros v w H. unfold decode. cbn [decode_each].
  destruct (N.ltb_spec (b2n tags_version) (b2n v)) as [|Hge]; [reflexivity|].
  exfalso. apply H. apply b2n_inj. change (b2n tags_version) with 0 in Hge.
  change (b2n x00) with 0. lia.
Qed.
Print Assumptions C02_version.

Example C02_nonvacuous :
  wire (x00 :: put_uvarint 1 ++ bs "k" ++ put_uvarint 2 ++ bs "v1") [(bs "k", bs "v1")]
  /\ (exists m, decode (x00 :: x00 :: put_uvarint 1 ++ bs "k" ++ put_uvarint 2 ++ bs "v1") = DecOk m
        /\ as_fun m (bs "k") = Some (Content (bs "v1") (-1)%Z)).
Proof.
  split.
  - rewrite <- (app_nil_r (bs "v1")).
    apply (wire_tag (put_uvarint 1) (bs "k") (put_uvarint 2) (bs "v1") [] []).
    + now apply put_uvarint_prefix.
    + now apply put_uvarint_prefix.
    + constructor.
  - eexists. split; vm_compute; reflexivity.
Qed.

(** The guard of C02_no_panic is met by an input that decodes to a tag. *)
Example C02_no_panic_nonvacuous :
  forall i l r n,
    skipn i (x00 :: x00 :: x01 :: bs "k" ++ [x00]) = l ++ r ->
    len_prefix l n -> (i < length (x00 :: x00 :: x01 :: bs "k" ++ [x00]))%nat ->
    N.of_nat i + N.of_nat (length l) + n < 2 ^ 63.
Proof.
  intros i l r n Hs (Hu & Hl & Hn) Hi. simpl in Hi.
  assert (Hb : n < 128).
  { destruct Hu as [b Hb|b l n Hb Hu]; [exact Hb|].
    exfalso. do 5 (destruct i as [|i]; [simpl in Hs; injection Hs as <- _; vm_compute in Hb; congruence|]).
    lia. }
  lia.
Qed.

(** ** C03: tag.New *)

(** In every reachable state, for every context and iteration order: if all
    mutators carry valid values, New succeeds and the new context's tags are the
    old ones with the mutators applied left to right; otherwise New returns the
    original context and an error. *)
Theorem C03_new : forall s i it ms h' c' e,
  tag_reach valid_key s ->
  let c := nth i (st_ctxs s) None in
  iterates (st_heap s) c it ->
  tag_new (st_heap s) c it ms = (h', c', e) ->
  ((forall mu, In mu ms -> mutator_ok mu) ->
     e = None /\
     forall k, ctx_fun h' c' k =
       fold_left (fun f mu => spec_mutate mu f) ms (ctx_fun (st_heap s) c) k) /\
  ((exists mu, In mu ms /\ ~ mutator_ok mu) -> e <> None /\ c' = c).
Proof.
  intros s i it ms h' c' e Hr c Hit Hn.
  destruct (reach_wf _ _ Hr) as [Hw Hc].
  assert (Hcp : forall p, c = Some p -> (p < length (st_heap s))%nat).
  { intros p Hp. destruct (nth_In_or_default (st_ctxs s) i None) as [H|H].
    - fold c in H. eapply Hc; eauto.
    - fold c in H. congruence. }
  split.
  - intros Hok.
    destruct (tag_new_ok (st_heap s) c it ms) as (h1 & E1 & F1); auto.
    + intros m Hm. destruct c as [p|] eqn:Ec; [|discriminate]. injection Hm as <-.
      apply reach_valid; auto.
    + rewrite Hn in E1. injection E1 as -> -> ->. auto.
  - intros Hbad.
    destruct (tag_new_fail (st_heap s) c it ms Hit (or_intror Hbad)) as (h1 & e1 & E1).
    rewrite Hn in E1. injection E1 as -> -> ->. split; [discriminate|reflexivity].
Qed.
Print Assumptions C03_new.

(** The two TTLs that package tag offers: a tag set with TTLNoPropagation stays in the
    process, one set with TTLUnlimitedPropagation, or without metadata, is encoded. *)
Theorem C01_ttl_constants : forall s i it k v mds p it',
  tag_reach valid_key s -> iterates (st_heap s) (nth i (st_ctxs s) None) it -> valid_key k -> valid_value v ->
  let s' := tag_step s (OpNew i it [Upsert k v mds]) in
  nth (length (st_ctxs s)) (st_ctxs s') None = Some p -> Permutation (heap_get (st_heap s') p) it' ->
  exists b ts, encode it' = Some b /\ message b ts /\
    (mds = [Some ttl_no_propagation] -> forall v', ~ In (k, v') ts) /\
    (mds = [Some ttl_unlimited] \/ mds = [] -> In (k, v) ts).
Proof.
  intros s i it k v mds p it' Hr Hit Hk Hv s' Hp HP.
  assert (Hr' : tag_reach valid_key s') by (apply reach_new; [exact Hr|exact Hit|intros mu [<-|[]]; exact Hk]).
  assert (Hin : In (Some p) (st_ctxs s')).
  { rewrite <- Hp. apply nth_In. unfold s'. cbn [tag_step]. destruct (tag_new _ _ _ _) as [[h c] e]. cbn [st_ctxs]. rewrite app_length. cbn. lia. }
  destruct (C01_only_unlimited_on_wire s' p it' Hr' Hin HP) as (b & ts & E & M & H). exists b, ts. split; [exact E|]. split; [exact M|].
  assert (Hf : ctx_fun (st_heap s') (Some p) k = Some (Content v (spec_ttl mds))).
  { unfold s' in *. cbn [tag_step] in *. destruct (tag_new (st_heap s) (nth i (st_ctxs s) None) it [Upsert k v mds]) as [[h c] e] eqn:En. cbn [st_heap st_ctxs] in *.
    rewrite app_nth2, Nat.sub_diag in Hp by lia. cbn [nth] in Hp. subst c.
    destruct (proj1 (C03_new _ _ _ _ _ _ _ Hr Hit En)) as (_ & F); [intros mu [<-|[]]; exact Hv|].
    rewrite F. cbn [fold_left spec_mutate]. unfold fset. destruct (bytes_eq_dec k k); congruence. }
  split.
  - intros -> v' Hi. apply H in Hi. rewrite Hf in Hi. injection Hi as _ Hz. cbn in Hz. discriminate.
  - intros Hm. apply H. rewrite Hf. destruct Hm as [-> | ->]; reflexivity.
Qed.
Print Assumptions C01_ttl_constants.

(** No tag map reachable from any existing context ever changes, whatever
    further operations are performed on whichever contexts. *)
Theorem C03_isolation : forall P s ops c k,
  tag_reach P s -> In c (st_ctxs s) ->
  ctx_fun (st_heap (fold_left tag_step ops s)) c k = ctx_fun (st_heap s) c k.
Proof.
  intros P s ops c k Hr Hin. destruct (reach_wf _ _ Hr) as [_ Hc].
  destruct c as [p|]; [|reflexivity].
  specialize (Hc _ p Hin eq_refl). unfold ctx_fun. simpl. clear Hr Hin.
  f_equal. revert s Hc. induction ops as [|op ops IH]; simpl; intros s Hc; [reflexivity|].
  destruct (step_ext s op) as [Hl Hf]. rewrite IH by lia. now apply Hf.
Qed.
Print Assumptions C03_isolation.

Example C03_nonvacuous :
  let s2 := tag_step ex_state
    (OpNew 1 (heap_get (st_heap ex_state) 0)
       [Update (bs "frontend") (bs "web") []; Delete (bs "tenant");
        Insert (bs "frontend") (bs "ignored") []; Update (bs "absent") (bs "x") []]) in
  tag_reach valid_key s2 /\
  ctx_fun (st_heap s2) (nth 2 (st_ctxs s2) None) (bs "frontend") = Some (Content (bs "web") (-1)%Z) /\
  ctx_fun (st_heap s2) (nth 2 (st_ctxs s2) None) (bs "tenant") = None /\
  ctx_fun (st_heap s2) (nth 1 (st_ctxs s2) None) (bs "tenant") = Some (Content (bs "42") 0%Z).
Proof.
  cbv zeta. split; [|vm_compute; auto].
  apply reach_new.
  - apply C01_nonvacuous.
  - change (Permutation (heap_get (st_heap ex_state) 0) (heap_get (st_heap ex_state) 0)).
    apply Permutation_refl.
  - intros mu [<-|[<-|[<-|[<-|[]]]]]; apply check_key_name_spec; reflexivity.
Qed.

Example C03_error_nonvacuous :
  tag_new [] None [] [Insert (bs "a") (bs "1") []; Upsert (bs "b") [x07] []]
  = ([[(bs "a", Content (bs "1") (-1)%Z)]], None, Some ErrInvalidValue).
Proof. vm_compute. reflexivity. Qed.

(** ** C04: validity invariant *)

Theorem C04_valid : forall s p k c,
  tag_reach valid_key s -> In (Some p) (st_ctxs s) ->
  ctx_fun (st_heap s) (Some p) k = Some c ->
  valid_key k /\ valid_value (c_value c).
Proof.
  intros s p k c Hr Hin Hk.
  destruct (reach_wf _ _ Hr) as [_ Hc]. specialize (Hc _ p Hin eq_refl).
  apply (reach_valid s Hr p Hc). apply mget_In in Hk; [exact Hk|apply bytes_eqb_spec].
Qed.
Print Assumptions C04_valid.

(** The keys NewKey hands out are exactly the valid ones. *)
Theorem C04_new_key : forall name,
  (valid_key name -> new_key name = inl name) /\
  (~ valid_key name -> new_key name = inr ErrInvalidKeyName).
Proof.
  intros name. unfold new_key. split; intros H.
  - now rewrite (proj2 (check_key_name_spec name) H).
  - now rewrite (proj2 (check_key_name_false name) H).
Qed.
Print Assumptions C04_new_key.

(** Without the restriction to keys made by NewKey the invariant is false: the
    zero Key{} can be inserted, after which tag.New on the resulting context
    fails even without mutators, and the encoded map cannot be decoded. *)
Theorem C04_zero_key_refuted :
  exists s p,
    tag_reach (fun _ => True) s /\ In (Some p) (st_ctxs s) /\
    ctx_fun (st_heap s) (Some p) [] = Some (Content (bs "v") (-1)%Z) /\
    (forall it, iterates (st_heap s) (Some p) it ->
       exists h e, tag_new (st_heap s) (Some p) it [] = (h, Some p, Some e)) /\
    (exists b, encode (heap_get (st_heap s) p) = Some b /\
       decode b = DecErr ErrInvalidKeyName).
Proof.
  exists (tag_step tag_init (OpNew 0 [] [Insert [] (bs "v") []])), 0%nat.
  split; [|split; [|split; [|split]]].
  - apply reach_new; [constructor|exact I|auto].
  - simpl. auto.
  - reflexivity.
  - intros it Hit. eapply tag_new_fail; [exact Hit|]. left. eexists.
    split; [reflexivity|]. intros Hv.
    destruct (Hv [] (Content (bs "v") (-1)%Z)) as [[Hk _] _]; [now left|]. simpl in Hk. lia.
  - eexists. split; [vm_compute; reflexivity|vm_compute; reflexivity].
Qed.
Print Assumptions C04_zero_key_refuted.

Example C04_nonvacuous :
  tag_reach valid_key ex_state /\
  ctx_fun (st_heap ex_state) (Some 0%nat) (bs "frontend") = Some (Content (bs "mobile-ios") (-1)%Z).
Proof. split; [apply C01_nonvacuous|reflexivity]. Qed.
