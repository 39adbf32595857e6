(** Property theorems for the span-annotating client trace (C74). *)

From Coq Require Import String.
From Coq Require Import List Arith NArith ZArith Bool Lia.
From Verif Require Import Base GoMap Text TraceTypes SpanStoreSpec TraceModel TracerModel TracerSpec TracerProofs TracerProps HttpTraceProps
  ClientTraceModel ClientTraceSpec.
Import ListNotations.
Open Scope nat_scope.

Definition is_annotation (u : supd) : bool := match u with UAnnotate _ _ _ => true | _ => false end.

Lemma annots_filter (l : list supd) : annots l = annots (filter is_annotation l).
Proof.
  unfold annots. induction l as [|u l IH]; [reflexivity|]. destruct u; cbn [flat_map filter is_annotation]; rewrite ?IH; reflexivity.
Qed.

Lemma join_listed l : listed l (join (bs " , ") l).
Proof.
  destruct l as [|x r]; [reflexivity|]. unfold listed. revert x. induction r as [|y r IH]; intros x; [cbn [join map concat]; now rewrite app_nil_r|].
  change (join (bs " , ") (x :: y :: r)) with (x ++ bs " , " ++ join (bs " , ") (y :: r)). rewrite IH. cbn [map concat]. now rewrite !app_assoc.
Qed.

Lemma listed_fun l t t' : listed l t -> listed l t' -> t = t'.
Proof. destruct l; cbn; congruence. Qed.

Lemma last_val_nil k : last_val k [] = None.
Proof. reflexivity. Qed.

(** Distinct keys: the last value of a key is its only one. *)
Lemma last_val_iff k v l : NoDup (map fst l) -> (last_val k l = Some v <-> In (k, v) l).
Proof.
  unfold last_val. induction l as [|[k' v'] l IH]; intros N; [split; [discriminate|intros []]|]. cbn [map fst] in N. inversion N as [|? ? Hn N']; subst.
  cbn [flat_map fst snd]. destruct (bytes_eqb_spec k' k) as [->|Hne].
  - assert (E : flat_map (fun kv : bytes * attr => if bytes_eqb (fst kv) k then [Some (snd kv)] else []) l = []).
    { clear - Hn. induction l as [|[a b] l IH]; [reflexivity|]. cbn [flat_map fst snd]. cbn [map fst] in Hn.
      destruct (bytes_eqb_spec a k) as [->|]; [exfalso; apply Hn; now left|]. apply IH. intros H. apply Hn. now right. }
    rewrite E. cbn [app last]. split.
    + intros [= ->]. now left.
    + intros [[= ->]|Hin]; [reflexivity|]. exfalso. apply Hn. apply in_map_iff. exists (k, v). auto.
  - cbn [app]. rewrite (IH N'). split; [now right|]. intros [[= -> _]|Hin]; [contradiction|exact Hin].
Qed.

Lemma app_inj_l (p a b : bytes) : p ++ a = p ++ b -> a = b.
Proof. apply app_inv_head. Qed.

Ltac pick := match goal with |- ?P \/ ?Q => first [left; reflexivity | right; pick] end.

Ltac field_is f := solve [left; exists f; split; [reflexivity|]; first
  [ split; [reflexivity|reflexivity] | split; [reflexivity|]; eexists; split; [apply join_listed|reflexivity]
  | left; split; reflexivity | right; left; split; reflexivity | right; split; reflexivity | right; right; split; [reflexivity|split; reflexivity] ]].

Lemma hook_annot t h l m a : annotate h t = UAnnotate t l m -> annot_ok (t, l, m) a -> annotates (t, h) a.
Proof.
  intros E H. unfold annotates. cbn [fst snd]. cbv zeta.
  assert (Hm : NoDup (map fst l) ->
            an_time a = t /\ an_msg a = m /\ forall k v, mget bytes_eqb (match an_attrs a with Some m => m | None => [] end) k = Some v <-> In (k, v) l).
  { intros N. destruct H as (E1 & E2 & E3). cbn [fst snd] in *. split; [exact E1|]. split; [exact E2|]. intros k v. destruct (an_attrs a) as [mp|].
    - destruct E3 as (_ & _ & E3). rewrite E3. now apply last_val_iff.
    - rewrite E3. cbn. split; [discriminate|intros []]. }
  clear H.
  assert (X : m = hook_name h /\ NoDup (map fst l) /\
            (forall k v, In (k, v) l <-> (exists field, k = hook_prefix h ++ field /\ hook_arg h field v) \/
                             (exists msg, hook_error h = Some msg /\ k = hook_prefix h ++ bs ".error" /\ v = AvStr msg))).
  2:{ destruct X as (X1 & X2 & X3). destruct (Hm X2) as (A1 & A2 & A3). split; [exact A1|]. split; [congruence|].
      intros k v. rewrite A3. apply X3. }
  clear Hm.
  destruct h as [hp|reused idle tm|err| | |host|addrs err|net addr|net addr err| |err| | |err]; cbn [annotate] in E;
    [| |destruct err as [e|]| | | |destruct err as [e|]| |destruct err as [e|]| |destruct err as [e|]| | |destruct err as [e|]];
    try (destruct idle); cbn [app err_attr] in E; injection E as <- <-;
    (split; [reflexivity|]); (split; [repeat (constructor; [cbn [map fst In]; intros Hc; decompose [or] Hc; try discriminate; try contradiction|]); constructor|]);
    intros k v; cbn [In hook_arg hook_error]; (split;
    [ intros Hin; decompose [or] Hin; try contradiction; match goal with E : (_, _) = (_, _) |- _ => apply pair_equal_spec in E; destruct E as [<- <-] end
    | intros [(field & -> & Ha)|(msg & Em & -> & ->)]; [decompose [and or] Ha; try contradiction; try discriminate; subst|try discriminate Em; try (injection Em as <-); pick ] ]).
  all: try match goal with H : ex _ |- _ => destruct H as (t0 & Hl & ->); rewrite (listed_fun _ _ _ Hl (join_listed addrs)); pick end.
  all: try pick.
  all: first
    [ field_is (bs ".host_port") | field_is (bs ".reused") | field_is (bs ".was_idle") | field_is (bs ".idle_time") | field_is (bs ".host")
    | field_is (bs ".addrs") | field_is (bs ".network") | field_is (bs ".addr")
    | right; eexists; split; [reflexivity|split; reflexivity] ].
Qed.

(** ** C74 *)

(** An annotation of the span: made by a hook, or by another call of Annotate. *)
Definition made (x : (Z * hook) + (Z * list (bytes * attr) * bytes)) : supd :=
  match x with inl (t, h) => annotate h t | inr (t, l, m) => UAnnotate t l m end.

Definition shows (x : (Z * hook) + (Z * list (bytes * attr) * bytes)) (a : annotation) : Prop :=
  match x with inl x => annotates x a | inr y => annot_ok y a end.

(** Whatever else is done with the span, the exported annotations are those of the newest
    calls, each call of a hook being one of them, which shows its name, its time, its
    arguments and its error; and the number of older ones is counted. *)
Theorem C74_exported en h w e i sd h1 c hs calls :
  trun en h w -> In (e, i, sd) (w_exports w) -> created h i h1 c -> completed h i hs (sd_end sd) ->
  filter is_annotation (upds hs i) = map made calls ->
  let limit := Z.to_nat (limit_after ca_annots 32 h1) in
  Forall2 shows (lastn limit calls) (sd_annots sd) /\ sd_dropped_annots sd = List.length calls - limit.
Proof.
  intros H Hin Hc Hd Hf. cbv zeta.
  destruct (C30_only_registered _ _ _ _ _ _ H Hin) as (_ & _ & _ & Hone & _).
  destruct (C31_newest_kept _ _ _ _ _ _ H Hin) as (h1' & c' & hs' & B & D & _ & _ & _ & F & G & _).
  destruct (created_fun _ _ _ _ _ _ Hc B) as [-> ->]. pose proof (completed_fun _ _ _ _ _ _ Hone Hd D) as ->.
  rewrite annots_filter, Hf in F, G.
  set (raw := fun x : (Z * hook) + (Z * list (bytes * attr) * bytes) => match made x with UAnnotate t l m => (t, l, m) | _ => (0%Z, [], []) end).
  assert (E : annots (map made calls) = map raw calls).
  { clear. unfold annots. induction calls as [|x l IH]; [reflexivity|]. cbn [map flat_map]. rewrite IH. unfold raw at 1 3.
    destruct x as [[t h]|[[t k] m]]; [destruct h|]; reflexivity. }
  rewrite E in F, G. rewrite map_length in G. split; [|exact G]. clear - F.
  unfold lastn in *. rewrite map_length, skipn_map in F. revert F. match goal with |- context [skipn ?n calls] => generalize (skipn n calls) (sd_annots sd) end.
  induction l as [|x l IH]; intros an F; inversion F as [|? b ? l' Ha Hl]; subst; constructor; [|now apply IH].
  unfold raw in Ha. destruct x as [[t h]|[[t k] m]]; [|exact Ha]. cbn [shows]. destruct (annotate h t) as [| | | | |] eqn:Ea; 
    try (exfalso; destruct h; discriminate Ea). cbn [made] in Ha. rewrite Ea in Ha.
  match type of Ea with _ = UAnnotate ?t' _ _ => assert (t' = t) as -> by (destruct h; cbn in Ea; congruence) end.
  eapply hook_annot; eassumption.
Qed.

(** A span with a limit of two annotations gets three calls of hooks and one more of
    Annotate: the first two are dropped. *)
Definition ex_calls : list ((Z * hook) + (Z * list (bytes * attr) * bytes)) :=
  [inl (1%Z, GetConn (bs "a:80")); inr (2%Z, [], bs "note"); inl (3%Z, DNSDone [bs "1.2.3.4"; bs "::1"] (Some (bs "late"))); inl (4%Z, WroteRequest None)].

Definition ct_sc : span_context := MkSC (bs "0123456789abcdef") (bs "01234567") 1 None.

Definition ex_ct_ops : list top :=
  [TRegister 7; TApplyConfig (MkCA None None 2 0 0 0); TCreate PNone false (bs "/a") [WithSampler (Some always_sample)] (sc_trace_id ct_sc) (sc_span_id ct_sc) 0] ++
  map (TUpdate (RSpan 0)) (map made ex_calls) ++ [TEnd (RSpan 0); TSnap 0 id_order 5; TFinished 0; TExport 0 7; TEndDone 0].

Example C74_nonvacuous : exists h w sd h1 c hs,
  trun false h w /\ In (7, 0, sd) (w_exports w) /\ created h 0 h1 c /\ completed h 0 hs (sd_end sd) /\
  filter is_annotation (upds hs 0) = map made ex_calls /\ limit_after ca_annots 32 h1 = 2%Z /\
  map an_msg (sd_annots sd) = [bs "DNSDone"; bs "WroteRequest"] /\ sd_dropped_annots sd = 2.
Proof.
  destruct (texec (init_world false) ex_ct_ops) as [[h w]|] eqn:E.
  2:{ exfalso. apply (f_equal (fun x => match x with Some _ => true | None => false end)) in E. vm_compute in E. discriminate. }
  pose proof (texec_fst _ _ _ _ E) as Hf.
  assert (Hexp : map (fun x => (fst x, sd_end (snd x), map an_msg (sd_annots (snd x)), sd_dropped_annots (snd x))) (w_exports w) =
                 [(7, 0, 5%Z, [bs "DNSDone"; bs "WroteRequest"], 2)]).
  { apply (f_equal (fun x => match x with
      Some (_, w) => map (fun x => (fst x, sd_end (snd x), map an_msg (sd_annots (snd x)), sd_dropped_annots (snd x))) (w_exports w) | None => [] end)) in E.
    rewrite <- E. vm_compute. reflexivity. }
  assert (Ht : trun false h w) by apply (trun_exec false _ [] _ h w (trun_nil false) E). clear E.
  destruct (w_exports w) as [|[[e j] sd] l] eqn:Ew; [discriminate|]. cbn [map fst snd] in Hexp. injection Hexp as -> -> Hend Han Hdr Hl.
  exists h, w, sd.
  unfold ex_ct_ops in Hf. cbn [app] in Hf.
  change (map (TUpdate (RSpan 0)) (map made ex_calls)) with
    [TUpdate (RSpan 0) (annotate (GetConn (bs "a:80")) 1); TUpdate (RSpan 0) (UAnnotate 2 [] (bs "note"));
     TUpdate (RSpan 0) (annotate (DNSDone [bs "1.2.3.4"; bs "::1"] (Some (bs "late"))) 3); TUpdate (RSpan 0) (annotate (WroteRequest None) 4)] in Hf.
  cbn [app] in Hf.
  destruct h as [|[o1 u1] h]; [discriminate|]. cbn [map fst] in Hf. apply list_cons in Hf. destruct Hf as [-> Hf].
  destruct h as [|[o2 u2] h]; [discriminate|]. cbn [map fst] in Hf. apply list_cons in Hf. destruct Hf as [-> Hf].
  destruct h as [|[o3 u3] h]; [discriminate|]. cbn [map fst] in Hf. apply list_cons in Hf. destruct Hf as [-> Hf].
  destruct h as [|[o4 u4] h]; [discriminate|]. cbn [map fst] in Hf. apply list_cons in Hf. destruct Hf as [-> Hf].
  destruct h as [|[o5 u5] h]; [discriminate|]. cbn [map fst] in Hf. apply list_cons in Hf. destruct Hf as [-> Hf].
  destruct h as [|[o6 u6] h]; [discriminate|]. cbn [map fst] in Hf. apply list_cons in Hf. destruct Hf as [-> Hf].
  destruct h as [|[o7 u7] h]; [discriminate|]. cbn [map fst] in Hf. apply list_cons in Hf. destruct Hf as [-> Hf].
  destruct h as [|[o8 u8] h]; [discriminate|]. cbn [map fst] in Hf. apply list_cons in Hf. destruct Hf as [-> Hf].
  destruct h as [|[o9 u9] h]; [discriminate|]. cbn [map fst] in Hf. apply list_cons in Hf. destruct Hf as [-> Hf]. clear Hf.
  match goal with |- context [trun false (?a :: ?b :: ?c :: ?d :: ?e :: ?f :: ?g :: ?k :: ?m :: h) w] =>
    exists [a; b], (MkC PNone false (bs "/a") [WithSampler (Some always_sample)] (sc_trace_id ct_sc) (sc_span_id ct_sc) 0),
      [a; b; c; d; e; f; g; k] end.
  split; [exact Ht|]. split; [rewrite Ew; left; reflexivity|].
  split; [eexists _, _; split; reflexivity|].
  split; [rewrite Hend; eexists _, _, _; reflexivity|].
  split; [reflexivity|]. split; [reflexivity|]. split; [exact Han|exact Hdr].
Qed.

Print Assumptions C74_exported.
