(** C47: what DecodeLabels accepts, and what it makes of it. *)

From Coq Require Import String.
From Coq Require Import List Arith NArith Bool Lia ZifyBool ZifyNat ZifyN.
From Verif Require Import Base ListLib GoMap GoSort Text Utf8 ResourceModel ResourceSpec ResourceProofs ResourceProps ResourceEnvProps.
Import ListNotations.
Open Scope nat_scope.

Lemma re_space_gap s : forallb re_space s = true -> gap s.
Proof. intros H. apply Forall_forall. intros c Hc. rewrite forallb_forall in H. specialize (H c Hc). unfold re_space in H. cbn [In]. lia. Qed.

Lemma is_ascii_ascii s : forallb is_ascii s = true -> ascii s.
Proof. intros H. apply Forall_forall. intros c Hc. rewrite forallb_forall in H. specialize (H c Hc). unfold is_ascii in H. lia. Qed.

Lemma firstn_span p s : forallb p (firstn (span_len p s) s) = true.
Proof. induction s as [|c s IH]; [reflexivity|]. cbn [span_len]. destruct (p c) eqn:E; [|reflexivity]. cbn [firstn forallb]. now rewrite E, IH. Qed.

Lemma forallb_firstn_le {A} (p : A -> bool) a b (s : list A) : a <= b -> forallb p (firstn b s) = true -> forallb p (firstn a s) = true.
Proof.
  intros Hab H. rewrite forallb_forall in *. intros x Hx. apply H. replace a with (Nat.min a b) in Hx by lia. rewrite <- firstn_firstn in Hx.
  rewrite <- (firstn_skipn a (firstn b s)). apply in_or_app. now left.
Qed.

Lemma match_value_form s v rest : match_value s = Some (v, rest) ->
  exists q a, s = bs "=" ++ [dquote] ++ q ++ [dquote] ++ a ++ [comma] ++ rest /\ v = [dquote] ++ q ++ [dquote] /\ length q <= 256 /\ ascii q /\ gap a.
Proof.
  unfold match_value. destruct s as [|c1 [|c2 r]]; [discriminate | discriminate |].
  destruct ((b2n c1 =? 61) && (b2n c2 =? 34))%N eqn:E12; [| discriminate]. intros H. apply first_some_some in H. destruct H as (n & Hn & H).
  destruct (take_exact is_ascii n r) as [[q [|c3 t]] |] eqn:E; try discriminate. destruct (b2n c3 =? 34)%N eqn:E3; [| discriminate].
  destruct (skipn (span_len re_space t) t) as [|c4 rest'] eqn:Es; [discriminate |]. destruct (b2n c4 =? 44)%N eqn:E4; [| discriminate].
  injection H as <- <-. apply take_exact_some in E. destruct E as (-> & Hl & Ha). apply in_seq in Hn.
  assert (c1 = n2b 61) as -> by (rewrite <- (n2b_b2n c1); f_equal; lia).
  assert (c2 = dquote) as -> by (rewrite <- (n2b_b2n c2); unfold dquote; f_equal; lia).
  assert (c3 = dquote) as -> by (rewrite <- (n2b_b2n c3); unfold dquote; f_equal; lia).
  assert (c4 = comma) as -> by (rewrite <- (n2b_b2n c4); unfold comma; f_equal; lia).
  exists q, (firstn (span_len re_space t) t). split; [|split; [reflexivity|split; [lia|split; [now apply is_ascii_ascii|apply re_space_gap, firstn_span]]]].
  rewrite <- (firstn_skipn (span_len re_space t) t) at 1. rewrite Es. reflexivity.
Qed.

Lemma match_label_form s k v rest : match_label s = Some (k, v, rest) ->
  exists b q a, s = (b ++ k ++ bs "=" ++ [dquote] ++ q ++ [dquote] ++ a ++ [comma]) ++ rest /\ v = [dquote] ++ q ++ [dquote] /\
    gap b /\ gap a /\ 1 <= length k <= 256 /\ ascii k /\ length q <= 256 /\ ascii q.
Proof.
  unfold match_label. intros H. apply first_some_some in H. destruct H as (w & Hw & H). apply first_some_some in H. destruct H as (n & Hn & H).
  destruct (take_exact is_ascii n (skipn w s)) as [[k' t] |] eqn:E; [| discriminate].
  destruct (match_value t) as [[v' rest'] |] eqn:Em; [| discriminate]. injection H as <- <- <-.
  apply in_rev in Hw. apply in_seq in Hw. apply in_seq in Hn.
  destruct (match_value_form _ _ _ Em) as (q & a & Et & Ev & Hq & Aq & Ga). apply take_exact_some in E. destruct E as (E & Hl & Ha).
  exists (firstn w s), q, a. split; [|repeat split; auto; try lia].
  - rewrite <- (firstn_skipn w s) at 1. rewrite E, Et. now rewrite <- !app_assoc.
  - apply re_space_gap. eapply forallb_firstn_le; [|apply firstn_span]. lia.
  - now apply is_ascii_ascii.
Qed.

Lemma decode_loop_form : forall n m s m', mwf m -> decode_loop n m s = Ok m' ->
  exists items, s = concat (map text_of items) /\ Forall well_written items /\
    forall k, mget bytes_eqb m' k = fold_left (fun acc w => if bytes_eqb (wr_key w) k then Some (wr_value w) else acc) items (mget bytes_eqb m k).
Proof.
  induction n as [|n IH]; intros m s m' Hw; destruct s as [|c s]; cbn [decode_loop]; try discriminate.
  1,2: intros [= <-]; exists []; repeat split; constructor.
  destruct (match_label (c :: s)) as [[[k v] rest] |] eqn:E; [| discriminate].
  destruct (match_label_form _ _ _ _ E) as (b & q & a & Es & Ev & Gb & Ga & Lk & Ak & Lq & Aq).
  destruct v as [|x v]; [discriminate|]. destruct (unquote (x :: v)) as [v'|] eqn:Eu; [|discriminate].
  intros H. apply IH in H; [|now apply (mwf_mset bytes_eqb bytes_eqb_spec)]. destruct H as (items & Er & Hi & Hm).
  exists (MkWritten b k q a v' :: items). split; [|split].
  - cbn [map concat]. rewrite <- Er, Es. reflexivity.
  - constructor; [|exact Hi]. unfold well_written. cbn [wr_before wr_key wr_quoted wr_after wr_value]. rewrite <- Ev. auto 10.
  - intros k0. rewrite Hm. cbn [fold_left wr_key wr_value]. f_equal. rewrite (mget_mset bytes_eqb bytes_eqb_spec).
    destruct (bytes_eqb_spec k k0), (bytes_eqb_spec k0 k); congruence.
Qed.

(** Whatever DecodeLabels accepts is, but for the white space around it and commas at its
    end, a list of labels of the documented form; and the map is what is written there:
    for every key the value of the last label with this key, and nothing else. *)
Theorem C47_accepted s t m : trimmed s t -> decode_labels s = Ok m ->
  exists body n items, t = body ++ repeat comma n /\ body ++ [comma] = concat (map text_of items) /\
    Forall well_written items /\ items <> [] /\ forall k, mget bytes_eqb m k = says items k.
Proof.
  intros Ht. unfold decode_labels. rewrite (trim_space_spec _ _ Ht). clear Ht. intros H. apply decode_loop_form in H; [|constructor].
  destruct H as (items & E & Hi & Hm). exists (trim_commas t), (span_len (fun c => b2n c =? 44)%N (rev t)), items.
  split; [|split; [exact E|split; [exact Hi|split; [|exact Hm]]]].
  - unfold trim_commas. rewrite <- (rev_involutive t) at 1. rewrite <- (firstn_skipn (span_len (fun c => b2n c =? 44)%N (rev t)) (rev t)) at 1.
    rewrite rev_app_distr. f_equal. pose proof (firstn_span (fun c => b2n c =? 44)%N (rev t)) as F.
    pose proof (span_len_le (fun c => b2n c =? 44)%N (rev t)) as L. 
    remember (span_len (fun c => b2n c =? 44)%N (rev t)) as n eqn:En. clear En. remember (rev t) as l eqn:El. clear El. assert (Hf : firstn n l = repeat comma n).
    { assert (Hg : forall r, forallb (fun c => b2n c =? 44)%N r = true -> r = repeat comma (length r)).
      { induction r as [|c r IH]; intros G; [reflexivity|]. cbn [forallb] in G. cbn [length repeat].
        apply andb_prop in G. destruct G as [F1 F2]. f_equal; [|now apply IH]. rewrite <- (n2b_b2n c). unfold comma. f_equal. lia. }
      rewrite (Hg _ F), firstn_length_le by exact L. reflexivity. }
    rewrite Hf. clear. induction n as [|n IH]; [reflexivity|]. cbn [repeat rev]. rewrite IH. symmetry. apply repeat_cons.
  - intros ->. cbn [map concat] in E. destruct (trim_commas t); discriminate E.
Qed.

Example C47_accepted_nonvacuous :
  let dq := [dquote] in
  let s := bs " a=" ++ dq ++ bs "x" ++ dq ++ bs " ,b/c=" ++ dq ++ bs "y" ++ dq ++ bs ",a=" ++ dq ++ bs "z" ++ dq ++ bs ",, " in
  exists m, decode_labels s = Ok m /\ mget bytes_eqb m (bs "a") = Some (bs "z") /\ mget bytes_eqb m (bs "b/c") = Some (bs "y") /\ length m = 2.
Proof. cbv zeta. eexists. split; [vm_compute; reflexivity|]. vm_compute. auto. Qed.

Print Assumptions C47_accepted.
