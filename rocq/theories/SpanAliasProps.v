(** C82: what a SpanData shows is what was attached to the span when it was attached. *)

From Coq Require Import String.
From Coq Require Import List Arith ZArith Bool Lia.
From Verif Require Import Base GoMap Float64 AggModel AggProofs TraceTypes TraceModel SpanAliasModel SpanAliasSpec.
Import ListNotations.
Open Scope nat_scope.

Definition linked (h : list hop) (p : nat) : Prop := exists tr sp ty, In (OLink tr sp ty (Some p)) h.
Definition tame (h : list hop) : Prop := no_link_edits h /\ links_kept h.

Definition ref_ok (maps : list (maker * content)) (k : maker) (P : Prop) (r : option nat) (m : content) : Prop :=
  match r with None => m = [] | Some p => exists m', nth_error maps p = Some (k, m') /\ (P -> m' = m) end.
Definition ann_ok (h : list hop) (maps : list (maker * content)) (a : hann) (b : annotation) : Prop :=
  ha_time a = an_time b /\ ha_msg a = an_msg b /\
  match an_attrs b with
  | None => ha_map a = None
  | Some m => ha_map a <> None /\ ref_ok maps ByAnnotate (no_ann_edits h) (ha_map a) m
  end.
Definition link_ok (h : list hop) (maps : list (maker * content)) (a : hlink) (b : link) : Prop :=
  hl_trace a = ln_trace b /\ hl_span a = ln_span b /\ hl_type a = ln_type b /\
  ref_ok maps ByProgram (tame h) (hl_map a) (ln_attrs b) /\
  (forall p, hl_map a = Some p -> linked h p).
Definition snap_ok (h : list hop) (maps : list (maker * content)) (x : nat) (X : hsd) (D : sdata) : Prop :=
  x_data X = strip D /\ ref_ok maps BySnapshot (~ attrs_edited h x) (x_attrs X) (sd_attrs D) /\
  Forall2 (ann_ok h maps) (x_annots X) (sd_annots D) /\ Forall2 (link_ok h maps) (x_links X) (sd_links D).
Definition eqrel {A B} (R : A -> B -> Prop) (q : equeue A) (q' : equeue B) : Prop :=
  Forall2 R (eq_items q) (eq_items q') /\ eq_cap q = eq_cap q' /\ eq_dropped q = eq_dropped q'.

Definition inv (h : list hop) (s : hst) (r : recording) (l : list sdata) : Prop :=
  h_data (hs_rec s) = r_data r /\ fresh (r_data r) /\ h_attrs (hs_rec s) = r_attrs r /\ h_msgs (hs_rec s) = r_msgs r /\
  eqrel (ann_ok h (hs_maps s)) (h_annots (hs_rec s)) (r_annots r) /\
  eqrel (link_ok h (hs_maps s)) (h_links (hs_rec s)) (r_links r) /\
  List.length (hs_snaps s) = List.length l /\
  (forall x X D, nth_error (hs_snaps s) x = Some X -> nth_error l x = Some D -> snap_ok h (hs_maps s) x X D) /\
  (forall x y X Y p, nth_error (hs_snaps s) x = Some X -> nth_error (hs_snaps s) y = Some Y ->
     x_attrs X = Some p -> x_attrs Y = Some p -> x = y).

(** What a step leaves of the maps. *)
Definition kept (h : list hop) (op : hop) (snaps : list hsd) (maps maps' : list (maker * content)) : Prop :=
  forall k p m, nth_error maps p = Some (k, m) -> exists m', nth_error maps' p = Some (k, m') /\
    match k with
    | ByAnnotate => no_ann_edits (h ++ [op]) -> m' = m
    | ByProgram => tame (h ++ [op]) -> linked h p -> m' = m
    | BySnapshot => forall x X, nth_error snaps x = Some X -> x_attrs X = Some p -> ~ attrs_edited (h ++ [op]) x -> m' = m
    end.

Lemma kept_app h op snaps maps e : kept h op snaps maps (maps ++ e).
Proof.
  intros k p m E. exists m. split.
  - rewrite nth_error_app1; [exact E | apply nth_error_Some; congruence].
  - destruct k; auto.
Qed.
Lemma kept_refl h op snaps maps : kept h op snaps maps maps.
Proof. intros k p m E. exists m. split; [exact E | destruct k; auto]. Qed.

Lemma put_nth maps p q m k0 m0 : nth_error maps q = Some (k0, m0) ->
  nth_error (put maps p m) q = Some (k0, if q =? p then m else m0).
Proof.
  intros E. unfold put. rewrite nth_error_upd, E, (Nat.eqb_sym p q). cbn. destruct (q =? p); reflexivity.
Qed.

Lemma no_ann_weaken h op : no_ann_edits (h ++ [op]) -> no_ann_edits h.
Proof. intros H x i m I. apply (H x i m), in_or_app; left; exact I. Qed.
Lemma tame_weaken h op : tame (h ++ [op]) -> tame h.
Proof.
  intros [H K]. split.
  - intros x i m I. apply (H x i m), in_or_app; left; exact I.
  - intros h1 p m h2 E. apply (K h1 p m (h2 ++ [op])). rewrite E, <- app_assoc. reflexivity.
Qed.
Lemma edited_weaken h op x : ~ attrs_edited (h ++ [op]) x -> ~ attrs_edited h x.
Proof. intros H [m I]. apply H. exists m. apply in_or_app; left; exact I. Qed.
Lemma linked_more h op p : linked h p -> linked (h ++ [op]) p.
Proof. intros (a & b & c & I). exists a, b, c. apply in_or_app; left; exact I. Qed.

Lemma ann_mono h op snaps maps maps' a b : kept h op snaps maps maps' -> ann_ok h maps a b -> ann_ok (h ++ [op]) maps' a b.
Proof.
  intros K (T & M & R). split; [exact T | split; [exact M |]]. destruct (an_attrs b) as [m|]; [| exact R].
  destruct R as [N R]. split; [exact N |]. unfold ref_ok in *. destruct (ha_map a) as [p|]; [| exact R].
  destruct R as (m1 & E & C). destruct (K _ _ _ E) as (m2 & E2 & C2). exists m2. split; [exact E2 |].
  intros Q. rewrite (C2 Q). apply C. exact (no_ann_weaken _ _ Q).
Qed.
Lemma link_mono h op snaps maps maps' a b : kept h op snaps maps maps' -> link_ok h maps a b -> link_ok (h ++ [op]) maps' a b.
Proof.
  intros K (T & M & Y & R & L). split; [exact T | split; [exact M | split; [exact Y | split]]].
  - unfold ref_ok in *. destruct (hl_map a) as [p|]; [| exact R].
    destruct R as (m1 & E & C). destruct (K _ _ _ E) as (m2 & E2 & C2). exists m2. split; [exact E2 |].
    intros Q. rewrite (C2 Q (L p eq_refl)). apply C. exact (tame_weaken _ _ Q).
  - intros p E. apply linked_more, L, E.
Qed.
Lemma Forall2_mono {A B} (R R' : A -> B -> Prop) l l' : (forall a b, R a b -> R' a b) -> Forall2 R l l' -> Forall2 R' l l'.
Proof. intros H F. induction F; constructor; auto. Qed.
Lemma eqrel_mono {A B} (R R' : A -> B -> Prop) q q' : (forall a b, R a b -> R' a b) -> eqrel R q q' -> eqrel R' q q'.
Proof. intros H (F & C & D). split; [exact (Forall2_mono _ _ _ _ H F) | split; assumption]. Qed.

Lemma Forall2_len {A B} (R : A -> B -> Prop) l l' : Forall2 R l l' -> List.length l = List.length l'.
Proof. intros F. induction F; cbn; congruence. Qed.

Lemma eqrel_add {A B} (R : A -> B -> Prop) q q' a b : eqrel R q q' -> R a b ->
  match eq_add q a, eq_add q' b with Some p, Some p' => eqrel R p p' | None, None => True | _, _ => False end.
Proof.
  intros (F & C & D) H. unfold eq_add. rewrite <- C, <- (Forall2_len _ _ _ F). destruct (_ =? _)%Z.
  - destruct F as [| x y l l' X F]; [exact I |]. split; [| split; cbn; congruence]. cbn.
    apply Forall2_app; [exact F | constructor; [exact H | constructor]].
  - split; [| split; cbn; congruence]. cbn. apply Forall2_app; [exact F | constructor; [exact H | constructor]].
Qed.

(** The parts of [inv] that a step without a new snapshot leaves. *)
Lemma inv_snaps h op s s' l maps : kept h op (hs_snaps s) (hs_maps s) maps -> hs_snaps s' = hs_snaps s -> hs_maps s' = maps ->
  (forall x X D, nth_error (hs_snaps s) x = Some X -> nth_error l x = Some D -> snap_ok h (hs_maps s) x X D) ->
  forall x X D, nth_error (hs_snaps s') x = Some X -> nth_error l x = Some D -> snap_ok (h ++ [op]) (hs_maps s') x X D.
Proof.
  intros K ES EM H x X D EX ED. rewrite ES in EX. rewrite EM. destruct (H x X D EX ED) as (SA & SB & SC & SD).
  split; [exact SA | split; [| split]].
  - unfold ref_ok in *. destruct (x_attrs X) as [p|] eqn:EP; [| exact SB].
    destruct SB as (m1 & E & C). destruct (K _ _ _ E) as (m2 & E2 & C2). exists m2. split; [exact E2 |].
    intros Q. rewrite (C2 x X EX EP Q). apply C. exact (edited_weaken _ _ _ Q).
  - exact (Forall2_mono _ _ _ _ (fun v w => ann_mono h op _ _ _ v w K) SC).
  - exact (Forall2_mono _ _ _ _ (fun v w => link_mono h op _ _ _ v w K) SD).
Qed.

(** A step that only touches maps. *)
Lemma inv_maps h op s s' r l : inv h s r l -> hs_rec s' = hs_rec s -> hs_snaps s' = hs_snaps s ->
  kept h op (hs_snaps s) (hs_maps s) (hs_maps s') -> inv (h ++ [op]) s' r l.
Proof.
  intros (ID & IF & IA & IM & IAN & ILN & IL & IS & IU) ER ES K. unfold inv. rewrite ER.
  split; [exact ID | split; [exact IF | split; [exact IA | split; [exact IM |]]]].
  split; [exact (eqrel_mono _ _ _ _ (fun v w => ann_mono h op _ _ _ v w K) IAN) |].
  split; [exact (eqrel_mono _ _ _ _ (fun v w => link_mono h op _ _ _ v w K) ILN) |].
  split; [rewrite ES; exact IL |].
  split; [exact (inv_snaps h op s s' l _ K ES eq_refl IS) |]. rewrite ES. exact IU.
Qed.

(** A step of the span alone. *)
Lemma inv_rec h op s s' r l r' : inv h s r l -> hs_snaps s' = hs_snaps s ->
  kept h op (hs_snaps s) (hs_maps s) (hs_maps s') ->
  h_data (hs_rec s') = r_data r' -> fresh (r_data r') -> h_attrs (hs_rec s') = r_attrs r' -> h_msgs (hs_rec s') = r_msgs r' ->
  eqrel (ann_ok (h ++ [op]) (hs_maps s')) (h_annots (hs_rec s')) (r_annots r') ->
  eqrel (link_ok (h ++ [op]) (hs_maps s')) (h_links (hs_rec s')) (r_links r') ->
  inv (h ++ [op]) s' r' l.
Proof.
  intros (ID & IF & IA & IM & IAN & ILN & IL & IS & IU) ES K H1 H2 H3 H4 H5 H6. unfold inv.
  do 6 (split; [assumption |]).
  split; [rewrite ES; exact IL |].
  split; [exact (inv_snaps h op s s' l _ K ES eq_refl IS) |]. rewrite ES. exact IU.
Qed.

Lemma arr_slice s a l : arr_of s a = Some l -> slice_now s a = l.
Proof. unfold arr_of, slice_now. destruct a as [a|]; [| congruence]. intros E. exact (nth_error_nth _ _ _ E). Qed.

Lemma annot_ref h op s now l msg maps p :
  (maps, p) = match l with
              | [] => (hs_maps s, None)
              | _ => (hs_maps s ++ [(ByAnnotate, fold_left (fun m kv => mset bytes_eqb m (fst kv) (snd kv)) l [])], Some (List.length (hs_maps s)))
              end ->
  kept h op (hs_snaps s) (hs_maps s) maps /\ ann_ok (h ++ [op]) maps (MkHA now msg p) (MkAn now msg (annot_attrs l)).
Proof.
  intros E. destruct l as [|kv l].
  - injection E as -> ->. split; [apply kept_refl |]. split; [reflexivity | split; [reflexivity | reflexivity]].
  - injection E as -> ->. split; [apply kept_app |]. split; [reflexivity | split; [reflexivity |]].
    unfold annot_attrs. cbn [an_attrs ha_map]. split; [discriminate |]. cbn [ref_ok].
    eexists. split; [rewrite nth_error_app2, Nat.sub_diag by apply Nat.le_refl; reflexivity | reflexivity].
Qed.

Lemma inv_call h s r l op u s' : inv h s r l -> hstep s op = Some s' -> called s op = Some u ->
  exists r', rec_update r u = Some r' /\ inv (h ++ [op]) s' r' l.
Proof.
  intros I E C. pose proof I as (ID & IF & IA & IM & IAN & ILN & IL & IS & IU).
  destruct op; cbn [called] in C; try discriminate C; injection C as <-; cbn [hstep] in E.
  - (* setters *)
    assert (K := kept_refl h (OPlain u0) (hs_snaps s) (hs_maps s)).
    assert (KA := eqrel_mono _ _ _ _ (fun v w => ann_mono h (OPlain u0) _ _ _ v w K) IAN).
    assert (KL := eqrel_mono _ _ _ _ (fun v w => link_mono h (OPlain u0) _ _ _ v w K) ILN).
    destruct u0; cbn [h_plain] in E; try discriminate E.
    + injection E as <-. eexists. split; [reflexivity |].
      apply (inv_rec h _ s _ r l _ I); try assumption; try reflexivity; cbn; rewrite ID; reflexivity.
    + injection E as <-. eexists. split; [reflexivity |].
      apply (inv_rec h _ s _ r l _ I); try assumption; try reflexivity; cbn; rewrite ID; reflexivity.
    + cbn [rec_update]. rewrite <- IM. destruct (eq_add (h_msgs (hs_rec s)) _) as [q|]; [| discriminate E].
      injection E as <-. eexists. split; [reflexivity |].
      apply (inv_rec h _ s _ r l _ I); try assumption; reflexivity.
  - (* AddAttributes *)
    destruct (nth_error (hs_arrs s) a) as [ll|] eqn:EA; [| discriminate E]. injection E as <-.
    unfold slice_now. rewrite (nth_error_nth _ _ [] EA).
    assert (K := kept_refl h (OAttrs a) (hs_snaps s) (hs_maps s)).
    eexists. split; [reflexivity |].
    apply (inv_rec h _ s _ r l _ I); try assumption; try reflexivity.
    + cbn. rewrite IA. reflexivity.
    + exact (eqrel_mono _ _ _ _ (fun v w => ann_mono h _ _ _ _ v w K) IAN).
    + exact (eqrel_mono _ _ _ _ (fun v w => link_mono h _ _ _ _ v w K) ILN).
  - (* Annotate *)
    destruct (arr_of s a) as [ll|] eqn:EA; [| discriminate E]. rewrite (arr_slice _ _ _ EA).
    unfold h_annotate in E.
    destruct (match ll with [] => _ | _ => _ end) as [maps p] eqn:EM. symmetry in EM.
    destruct (annot_ref h (OAnnotate now a msg) s now ll msg maps p EM) as [K OK].
    assert (KA := eqrel_mono _ _ _ _ (fun v w => ann_mono h (OAnnotate now a msg) _ _ _ v w K) IAN).
    assert (KL := eqrel_mono _ _ _ _ (fun v w => link_mono h (OAnnotate now a msg) _ _ _ v w K) ILN).
    assert (Q := eqrel_add _ _ _ _ _ KA OK). cbn [rec_update].
    destruct (eq_add (h_annots (hs_rec s)) _) as [q|]; [| discriminate E]. injection E as <-.
    destruct (eq_add (r_annots r) _) as [q'|]; [| destruct Q].
    eexists. split; [reflexivity |].
    apply (inv_rec h _ s _ r l _ I); try assumption; reflexivity.
  - (* AddLink *)
    assert (K := kept_refl h (OLink tr sp ty p) (hs_snaps s) (hs_maps s)).
    assert (KA := eqrel_mono _ _ _ _ (fun v w => ann_mono h (OLink tr sp ty p) _ _ _ v w K) IAN).
    assert (KL := eqrel_mono _ _ _ _ (fun v w => link_mono h (OLink tr sp ty p) _ _ _ v w K) ILN).
    assert (X : h_link s (MkHL tr sp ty p) = Some s' /\ link_ok (h ++ [OLink tr sp ty p]) (hs_maps s) (MkHL tr sp ty p) (MkLnk tr sp ty (now_in s p))).
    { destruct p as [q|].
      - destruct (nth_error (hs_maps s) q) as [[[] m]|] eqn:EQ; try discriminate E. split; [exact E |].
        do 3 (split; [reflexivity |]). split.
        + cbn. exists m. split; [exact EQ |]. rewrite EQ. reflexivity.
        + intros p EP. injection EP as <-. exists tr, sp, ty. apply in_or_app. right. left. reflexivity.
      - split; [exact E |]. do 3 (split; [reflexivity |]). split; [reflexivity | intros p EP; discriminate EP]. }
    clear E. destruct X as [E OK]. unfold h_link in E.
    assert (Q := eqrel_add _ _ _ _ _ KL OK). cbn [rec_update].
    destruct (eq_add (h_links (hs_rec s)) _) as [q|]; [| discriminate E]. injection E as <-.
    destruct (eq_add (r_links r) _) as [q'|]; [| destruct Q].
    eexists. split; [reflexivity |].
    apply (inv_rec h _ s _ r l _ I); try assumption; reflexivity.
Qed.

Lemma inv_child h s r l s' : inv h s r l -> hstep s OChild = Some s' -> inv (h ++ [OChild]) s' (rec_add_child r) l.
Proof.
  intros I E. pose proof I as (ID & IF & IA & IM & IAN & ILN & IL & IS & IU). injection E as <-.
  assert (K := kept_refl h OChild (hs_snaps s) (hs_maps s)).
  apply (inv_rec h _ s _ r l _ I); try assumption; try reflexivity.
  - cbn. rewrite ID. reflexivity.
  - exact (eqrel_mono _ _ _ _ (fun v w => ann_mono h _ _ _ _ v w K) IAN).
  - exact (eqrel_mono _ _ _ _ (fun v w => link_mono h _ _ _ _ v w K) ILN).
Qed.

Lemma nth_error_snoc {A} (l : list A) a x y : nth_error (l ++ [a]) x = Some y ->
  (nth_error l x = Some y /\ x < List.length l) \/ (x = List.length l /\ y = a).
Proof.
  intros E. destruct (Nat.lt_ge_cases x (List.length l)) as [L | L].
  - left. rewrite nth_error_app1 in E by exact L. split; assumption.
  - right. rewrite nth_error_app2 in E by exact L. destruct (x - List.length l) eqn:X; cbn in E.
    + injection E as <-. split; [apply Nat.le_antisymm; [apply Nat.sub_0_le; exact X | exact L] | reflexivity].
    + destruct n; discriminate E.
Qed.

Definition fin_of (sd : sdata) (fin : option time) : sdata := match fin with Some t => with_end sd t | None => sd end.

Lemma inv_snap h s r l o fin s' sd r' : inv h s r l -> hstep s (OSnap o fin) = Some s' -> make_span_data o r = (sd, r') ->
  inv (h ++ [OSnap o fin]) s' r' (l ++ [fin_of sd fin]).
Proof.
  intros I E M. pose proof I as (ID & IF & IA & IM & IAN & ILN & IL & IS & IU). cbn [hstep] in E. injection E as <-.
  set (op := OSnap o fin) in *.
  (* what the snapshot is *)
  assert (X : exists maps lm X, h_snap s o fin = MkHS (hs_arrs s) maps (MkH (h_data (hs_rec s)) lm (h_annots (hs_rec s)) (h_msgs (hs_rec s)) (h_links (hs_rec s))) (hs_snaps s ++ [X]) /\
    kept h op (hs_snaps s) (hs_maps s) maps /\ r' = MkRec (r_data r) lm (r_annots r) (r_msgs r) (r_links r) /\
    x_data X = strip (fin_of sd fin) /\ ref_ok maps BySnapshot (~ attrs_edited (h ++ [op]) (List.length (hs_snaps s))) (x_attrs X) (sd_attrs sd) /\
    (forall p, x_attrs X = Some p -> p = List.length (hs_maps s)) /\
    x_annots X = eq_items (h_annots (hs_rec s)) /\ x_links X = eq_items (h_links (hs_rec s)) /\
    sd_annots sd = eq_items (r_annots r) /\ sd_links sd = eq_items (r_links r)).
  { destruct IF as (F1 & F2 & F3). destruct IAN as (A1 & A2 & A3). destruct ILN as (L1 & L2 & L3).
    unfold h_snap, make_span_data in *. rewrite IA. rewrite F1, F2, F3 in M.
    assert (QA : (match eq_items (r_annots r) with [] => ([], sd_dropped_annots (r_data r)) | l' => (l', eq_dropped (r_annots r)) end)
                 = (eq_items (r_annots r), match eq_items (h_annots (hs_rec s)) with [] => sd_dropped_annots (h_data (hs_rec s)) | _ => eq_dropped (h_annots (hs_rec s)) end)).
    { rewrite ID, A3. destruct A1; reflexivity. }
    assert (QL : (match eq_items (r_links r) with [] => ([], sd_dropped_links (r_data r)) | l' => (l', eq_dropped (r_links r)) end)
                 = (eq_items (r_links r), match eq_items (h_links (hs_rec s)) with [] => sd_dropped_links (h_data (hs_rec s)) | _ => eq_dropped (h_links (hs_rec s)) end)).
    { rewrite ID, L3. destruct L1; reflexivity. }
    assert (QM : (match eq_items (r_msgs r) with [] => (sd_msgs (r_data r), sd_dropped_msgs (r_data r)) | l' => (l', eq_dropped (r_msgs r)) end)
                 = (match eq_items (h_msgs (hs_rec s)) with [] => sd_msgs (h_data (hs_rec s)) | l => l end,
                    match eq_items (h_msgs (hs_rec s)) with [] => sd_dropped_msgs (h_data (hs_rec s)) | _ => eq_dropped (h_msgs (hs_rec s)) end)).
    { rewrite ID, IM. destruct (eq_items (r_msgs r)); reflexivity. }
    rewrite QA, QL, QM in M. clear QA QL QM.
    destruct (lm_cache (r_attrs r)) as [| c cs] eqn:EC.
    - injection M as <- <-. eexists _, _, _. split; [reflexivity |]. cbn.
      split; [apply kept_refl |]. split; [reflexivity |].
      split; [destruct fin; rewrite ID; reflexivity |]. split; [reflexivity |].
      split; [intros p EP; discriminate EP |]. repeat split; reflexivity.
    - destruct (lm_to_map (r_attrs r) _ []) as [m lm] eqn:EL. injection M as <- <-. eexists _, _, _. split; [reflexivity |]. cbn.
      split; [apply kept_app |]. split; [reflexivity |].
      split; [destruct fin; rewrite ID; reflexivity |].
      split; [exists m; split; [rewrite nth_error_app2, Nat.sub_diag by apply Nat.le_refl; reflexivity | reflexivity] |].
      split; [intros p EP; injection EP as <-; reflexivity |]. repeat split; reflexivity. }
  destruct X as (maps & lm & X & -> & K & -> & XD & XA & XU & XN & XL & SN & SL).
  assert (KA := eqrel_mono _ _ _ _ (fun v w => ann_mono h op _ _ _ v w K) IAN).
  assert (KL := eqrel_mono _ _ _ _ (fun v w => link_mono h op _ _ _ v w K) ILN).
  unfold inv. cbn [hs_rec hs_maps hs_snaps h_data h_attrs h_msgs h_annots h_links r_data r_attrs r_msgs r_annots r_links].
  split; [exact ID | split; [exact IF | split; [reflexivity | split; [exact IM | split; [exact KA | split; [exact KL |]]]]]].
  split; [rewrite !app_length, IL; reflexivity |]. split.
  - intros x Y D EY ED. apply nth_error_snoc in EY. destruct EY as [[EY LY] | [-> ->]].
    + rewrite nth_error_app1 in ED by (rewrite <- IL; exact LY).
      exact (inv_snaps h op s (MkHS (hs_arrs s) maps (hs_rec s) (hs_snaps s)) l maps K eq_refl eq_refl IS x Y D EY ED).
    + rewrite IL, nth_error_app2, Nat.sub_diag in ED by apply Nat.le_refl. injection ED as <-.
      split; [exact XD |]. split; [destruct fin; exact XA |]. rewrite XN, XL.
      destruct KA as [KA _], KL as [KL _].
      split; [destruct fin; cbn; rewrite SN; exact KA | destruct fin; cbn; rewrite SL; exact KL].
  - intros x y Y Z p EY EZ PY PZ. apply nth_error_snoc in EY, EZ.
    assert (old : forall x Y, nth_error (hs_snaps s) x = Some Y -> x < List.length (hs_snaps s) -> x_attrs Y = Some p -> p < List.length (hs_maps s)).
    { intros x0 Y0 E0 L0 P0. rewrite IL in L0. destruct (nth_error l x0) as [D0|] eqn:ED; [| apply nth_error_None in ED; lia].
      destruct (IS _ _ _ E0 ED) as (_ & R & _). unfold ref_ok in R. rewrite P0 in R. destruct R as (m' & R & _).
      apply nth_error_Some. congruence. }
    destruct EY as [[EY LY] | [-> ->]], EZ as [[EZ LZ] | [-> ->]].
    + exact (IU x y Y Z p EY EZ PY PZ).
    + assert (O := old _ _ EY LY PY). rewrite (XU _ PZ) in O. exact (False_ind _ (Nat.lt_irrefl _ O)).
    + assert (O := old _ _ EZ LZ PZ). rewrite (XU _ PY) in O. exact (False_ind _ (Nat.lt_irrefl _ O)).
    + reflexivity.
Qed.

Lemma Forall2_nth {A B} (R : A -> B -> Prop) l l' i a : Forall2 R l l' -> nth_error l i = Some a -> exists b, nth_error l' i = Some b /\ R a b.
Proof.
  intros F. revert i. induction F as [| x y l l' X F IH]; intros i E; [destruct i; discriminate E |].
  destruct i as [| i]; [injection E as <-; exists y; split; [reflexivity | exact X] | exact (IH i E)].
Qed.

Lemma inv_other h s r l op s' : inv h s r l -> hstep s op = Some s' ->
  match op with ONewArr _ | OSetArr _ _ | ONewMap _ | OSetMap _ _ | OEditAttrs _ _ | OEditAnn _ _ _ | OEditLink _ _ _ => True | _ => False end ->
  inv (h ++ [op]) s' r l.
Proof.
  intros I E T. pose proof I as (ID & IF & IA & IM & IAN & ILN & IL & IS & IU).
  assert (data : forall x X, nth_error (hs_snaps s) x = Some X -> exists D, nth_error l x = Some D).
  { intros x X EX. destruct (nth_error l x) as [D|] eqn:ED; [exists D; reflexivity |].
    apply nth_error_None in ED. rewrite <- IL in ED. apply nth_error_None in ED. congruence. }
  destruct op; try destruct T; cbn [hstep] in E.
  - injection E as <-. apply (inv_maps h _ s _ r l I); try reflexivity. apply kept_refl.
  - destruct (a <? _); [| discriminate E]. injection E as <-. apply (inv_maps h _ s _ r l I); try reflexivity. apply kept_refl.
  - injection E as <-. apply (inv_maps h _ s _ r l I); try reflexivity. apply kept_app.
  - destruct (nth_error (hs_maps s) p) as [[[] m0]|] eqn:EP; try discriminate E. injection E as <-.
    apply (inv_maps h _ s _ r l I); try reflexivity. intros k q mq EQ. eexists. split; [apply (put_nth _ _ _ _ _ _ EQ) |].
    destruct (Nat.eqb_spec q p) as [-> | N]; [| destruct k; auto].
    rewrite EP in EQ. injection EQ as <- <-. intros [_ LK] (tr & sp & ty & IN).
    exact (False_ind _ (LK h p m [] eq_refl tr sp ty IN)).
  - destruct (nth_error (hs_snaps s) x) as [X|] eqn:EX; [| discriminate E].
    destruct (x_attrs X) as [p|] eqn:EP; [| discriminate E]. injection E as <-.
    destruct (data x X EX) as [D ED]. destruct (IS x X D EX ED) as (_ & R & _). rewrite EP in R. destruct R as (m0 & R & _).
    apply (inv_maps h _ s _ r l I); try reflexivity. intros k q mq EQ. eexists. split; [apply (put_nth _ _ _ _ _ _ EQ) |].
    destruct (Nat.eqb_spec q p) as [-> | N]; [| destruct k; auto].
    rewrite R in EQ. injection EQ as <- <-. intros y Y EY PY NE.
    rewrite (IU x y X Y p EX EY EP PY) in *.
    exfalso. apply NE. exists m. apply in_or_app. right. left. reflexivity.
  - destruct (nth_error (hs_snaps s) x) as [X|] eqn:EX; [| discriminate E].
    destruct (nth_error (x_annots X) i) as [a|] eqn:EA; [| discriminate E].
    destruct (ha_map a) as [p|] eqn:EP; [| discriminate E]. injection E as <-.
    destruct (data x X EX) as [D ED]. destruct (IS x X D EX ED) as (_ & _ & R & _).
    destruct (Forall2_nth _ _ _ _ _ R EA) as (b & _ & _ & _ & Q). destruct (an_attrs b) as [mb|]; [| congruence].
    destruct Q as [_ Q]. rewrite EP in Q. destruct Q as (m0 & Q & _).
    apply (inv_maps h _ s _ r l I); try reflexivity. intros k q mq EQ. eexists. split; [apply (put_nth _ _ _ _ _ _ EQ) |].
    destruct (Nat.eqb_spec q p) as [-> | N]; [| destruct k; auto].
    rewrite Q in EQ. injection EQ as <- <-. intros NE. exfalso. apply (NE x i m), in_or_app. right. left. reflexivity.
  - destruct (nth_error (hs_snaps s) x) as [X|] eqn:EX; [| discriminate E].
    destruct (nth_error (x_links X) i) as [a|] eqn:EA; [| discriminate E].
    destruct (hl_map a) as [p|] eqn:EP; [| discriminate E]. injection E as <-.
    destruct (data x X EX) as [D ED]. destruct (IS x X D EX ED) as (_ & _ & _ & R).
    destruct (Forall2_nth _ _ _ _ _ R EA) as (b & _ & _ & _ & _ & Q & _).
    rewrite EP in Q. destruct Q as (m0 & Q & _).
    apply (inv_maps h _ s _ r l I); try reflexivity. intros k q mq EQ. eexists. split; [apply (put_nth _ _ _ _ _ _ EQ) |].
    destruct (Nat.eqb_spec q p) as [-> | N]; [| destruct k; auto].
    rewrite Q in EQ. injection EQ as <- <-. intros [NE _]. exfalso. apply (NE x i m), in_or_app. right. left. reflexivity.
Qed.

Lemma run_inv cfg d h s r l : fresh d -> run cfg d h s r l -> inv h s r l.
Proof.
  intros F R. induction R.
  - do 4 (split; [try exact F; reflexivity |]).
    split; [split; [constructor | split; reflexivity] |]. split; [split; [constructor | split; reflexivity] |].
    split; [reflexivity |]. split.
    + intros x X D E. destruct x; discriminate E.
    + intros x y X Y p E. destruct x; discriminate E.
  - destruct (inv_call h s r l op u s' IHR H H0) as (r'' & E & I). rewrite E in H1. injection H1 as <-. exact I.
  - exact (inv_child h s r l s' IHR H).
  - exact (inv_snap h s r l o fin s' sd r' IHR H H0).
  - exact (inv_other h s r l op s' IHR H H0).
Qed.

(** Every step of the program with objects is a step of the span of values. *)
Theorem C82_total : forall cfg d h s r l op s', fresh d -> run cfg d h s r l -> hstep s op = Some s' ->
  exists r' l', run cfg d (h ++ [op]) s' r' l' /\ List.length (hs_snaps s') = List.length l'.
Proof.
  intros cfg d h s r l op s' F R E.
  assert (X : exists r' l', run cfg d (h ++ [op]) s' r' l').
  { destruct (called s op) as [u|] eqn:C.
    - destruct (inv_call h s r l op u s' (run_inv _ _ _ _ _ _ F R) E C) as (r' & U & _).
      exists r', l. exact (run_call cfg d h s r l op u s' r' R E C U).
    - destruct op; try discriminate C;
        try (eexists _, _; exact (run_other cfg d h s r l _ s' R E Logic.I)).
      + eexists _, _. exact (run_child cfg d h s r l s' R E).
      + destruct (make_span_data o r) as [sd r'] eqn:M. eexists _, _. exact (run_snap cfg d h s r l o fin s' sd r' R E M). }
  destruct X as (r' & l' & X). exists r', l'. split; [exact X |].
  destruct (run_inv _ _ _ _ _ _ F X) as (_ & _ & _ & _ & _ & _ & L & _). exact L.
Qed.

(** The attributes of a SpanData: what was attached to the span before it was made, whatever is
    done later by the program, by the span, or with other SpanData. *)
Theorem C82_attributes : forall cfg d h s r l x X D, fresh d -> run cfg d h s r l ->
  nth_error (hs_snaps s) x = Some X -> nth_error l x = Some D -> ~ attrs_edited h x ->
  see_attrs s X = sd_attrs D.
Proof.
  intros cfg d h s r l x X D F R EX ED N.
  destruct (run_inv _ _ _ _ _ _ F R) as (_ & _ & _ & _ & _ & _ & _ & IS & _).
  destruct (IS x X D EX ED) as (_ & Q & _). unfold see_attrs, deref. unfold ref_ok in Q.
  destruct (x_attrs X) as [p|]; [| symmetry; exact Q]. destruct Q as (m & E & C). rewrite E. exact (C N).
Qed.

Lemma map_Forall2 {A B C} (f : A -> C) (g : B -> C) l l' : Forall2 (fun a b => f a = g b) l l' -> map f l = map g l'.
Proof. intros F. induction F; cbn; congruence. Qed.

(** Annotations: whatever the program writes to the slices it passed. *)
Theorem C82_annotations : forall cfg d h s r l x X D, fresh d -> run cfg d h s r l ->
  nth_error (hs_snaps s) x = Some X -> nth_error l x = Some D -> no_ann_edits h ->
  see_annots s X = sd_annots D.
Proof.
  intros cfg d h s r l x X D F R EX ED N.
  destruct (run_inv _ _ _ _ _ _ F R) as (_ & _ & _ & _ & _ & _ & _ & IS & _).
  destruct (IS x X D EX ED) as (_ & _ & Q & _). unfold see_annots. rewrite <- (map_id (sd_annots D)). apply map_Forall2.
  revert Q. apply Forall2_mono. intros a [t mg at'] (T & M & Q). cbn in T, M. rewrite T, M. cbn [an_attrs] in Q.
  destruct at' as [m|]; [| rewrite Q; reflexivity]. destruct Q as [NN Q]. destruct (ha_map a) as [p|]; [| congruence].
  destruct Q as (m' & E & C). unfold deref. rewrite E. cbn. rewrite (C N). reflexivity.
Qed.

(** Links: as long as the program leaves alone the maps it passed. *)
Theorem C82_links : forall cfg d h s r l x X D, fresh d -> run cfg d h s r l ->
  nth_error (hs_snaps s) x = Some X -> nth_error l x = Some D -> no_link_edits h -> links_kept h ->
  see_links s X = sd_links D.
Proof.
  intros cfg d h s r l x X D F R EX ED N K.
  destruct (run_inv _ _ _ _ _ _ F R) as (_ & _ & _ & _ & _ & _ & _ & IS & _).
  destruct (IS x X D EX ED) as (_ & _ & _ & Q). unfold see_links. rewrite <- (map_id (sd_links D)). apply map_Forall2.
  revert Q. apply Forall2_mono. intros a [t sp ty at'] (T & S & Y & Q & _). cbn in T, S, Y. rewrite T, S, Y. cbn [ln_attrs] in Q.
  unfold deref. unfold ref_ok in Q. destruct (hl_map a) as [p|]; [| rewrite Q; reflexivity].
  destruct Q as (m' & E & C). rewrite E. cbn. rewrite (C (conj N K)). reflexivity.
Qed.

(** All that is not a map: always. *)
Theorem C82_rest : forall cfg d h s r l x X D, fresh d -> run cfg d h s r l ->
  nth_error (hs_snaps s) x = Some X -> nth_error l x = Some D ->
  x_data X = strip D /\
  map (fun a => (an_time a, an_msg a)) (see_annots s X) = map (fun a => (an_time a, an_msg a)) (sd_annots D) /\
  map (fun k => (ln_trace k, ln_span k, ln_type k)) (see_links s X) = map (fun k => (ln_trace k, ln_span k, ln_type k)) (sd_links D).
Proof.
  intros cfg d h s r l x X D F R EX ED.
  destruct (run_inv _ _ _ _ _ _ F R) as (_ & _ & _ & _ & _ & _ & _ & IS & _).
  destruct (IS x X D EX ED) as (S & _ & A & K). split; [exact S |]. unfold see_annots, see_links. rewrite !map_map. cbn.
  split; apply map_Forall2.
  - revert A. apply Forall2_mono. intros a b (T & M & _). rewrite T, M. reflexivity.
  - revert K. apply Forall2_mono. intros a b (T & M & Y & _). rewrite T, M, Y. reflexivity.
Qed.
Print Assumptions C82_total. Print Assumptions C82_attributes. Print Assumptions C82_annotations.
Print Assumptions C82_links. Print Assumptions C82_rest.

(** The spans that StartSpan makes start like this. *)
Theorem C82_start : forall cfg has_parent parent remote name o now sc,
  exists d, fresh d /\ start_recording cfg has_parent parent remote name o now sc =
    MkRec d (new_lrumap (cf_attrs cfg)) (new_equeue (cf_annots cfg)) (new_equeue (cf_msgs cfg)) (new_equeue (cf_links cfg)).
Proof. intros. eexists. split; [| reflexivity]. repeat split; reflexivity. Qed.

(** Where nobody writes to maps once they are passed or handed out, a SpanData, read at any
    later time, is what the span of values exports. *)
Theorem C82_exported : forall cfg d h s r l x X D, fresh d -> run cfg d h s r l ->
  nth_error (hs_snaps s) x = Some X -> nth_error l x = Some D ->
  ~ attrs_edited h x -> no_ann_edits h -> no_link_edits h -> links_kept h ->
  MkSD (sd_context (x_data X)) (sd_parent (x_data X)) (sd_kind (x_data X)) (sd_name (x_data X)) (sd_start (x_data X)) (sd_end (x_data X))
       (see_attrs s X) (see_annots s X) (sd_msgs (x_data X)) (sd_status (x_data X)) (see_links s X) (sd_remote (x_data X))
       (sd_dropped_attrs (x_data X)) (sd_dropped_annots (x_data X)) (sd_dropped_msgs (x_data X)) (sd_dropped_links (x_data X)) (sd_children (x_data X)) = D.
Proof.
  intros cfg d h s r l x X D F R EX ED NA NN NL K.
  rewrite (C82_attributes cfg d h s r l x X D F R EX ED NA), (C82_annotations cfg d h s r l x X D F R EX ED NN),
    (C82_links cfg d h s r l x X D F R EX ED NL K).
  destruct (C82_rest cfg d h s r l x X D F R EX ED) as [S _]. rewrite S. destruct D; reflexivity.
Qed.
Print Assumptions C82_start. Print Assumptions C82_exported.

(** ** Runs, computed *)

Definition exec1 (c : hst * recording * list sdata) (op : hop) : option (hst * recording * list sdata) :=
  let '(s, r, l) := c in
  match hstep s op with
  | None => None
  | Some s' =>
      match called s op with
      | Some u => match rec_update r u with Some r' => Some (s', r', l) | None => None end
      | None =>
          match op with
          | OChild => Some (s', rec_add_child r, l)
          | OSnap o fin => let '(sd, r') := make_span_data o r in Some (s', r', l ++ [match fin with Some t => with_end sd t | None => sd end])
          | _ => Some (s', r, l)
          end
      end
  end.
Fixpoint exec (c : hst * recording * list sdata) (ops : list hop) : option (hst * recording * list sdata) :=
  match ops with [] => Some c | op :: ops => match exec1 c op with Some c' => exec c' ops | None => None end end.

Lemma exec1_run cfg d h s r l op s' r' l' : run cfg d h s r l -> exec1 (s, r, l) op = Some (s', r', l') -> run cfg d (h ++ [op]) s' r' l'.
Proof.
  intros R E. cbn [exec1] in E. destruct (hstep s op) as [t|] eqn:ES; [| discriminate E].
  destruct (called s op) as [u|] eqn:EC.
  - destruct (rec_update r u) as [q|] eqn:EU; [| discriminate E]. injection E as <- <- <-. exact (run_call cfg d h s r l op u t q R ES EC EU).
  - destruct op; try discriminate EC; try (injection E as <- <- <-; exact (run_other cfg d h s r l _ t R ES Logic.I)).
    + injection E as <- <- <-. exact (run_child cfg d h s r l t R ES).
    + destruct (make_span_data o r) as [sd q] eqn:EM. injection E as <- <- <-. exact (run_snap cfg d h s r l o fin t sd q R ES EM).
Qed.
Lemma exec_run cfg d ops : forall h s r l s' r' l', run cfg d h s r l -> exec (s, r, l) ops = Some (s', r', l') -> run cfg d (h ++ ops) s' r' l'.
Proof.
  induction ops as [| op ops IH]; intros h s r l s' r' l' R E.
  - injection E as <- <- <-. rewrite app_nil_r. exact R.
  - cbn [exec] in E. destruct (exec1 (s, r, l) op) as [[[t q] k]|] eqn:E1; [| discriminate E].
    change (op :: ops) with ([op] ++ ops). rewrite app_assoc. exact (IH _ _ _ _ _ _ _ (exec1_run _ _ _ _ _ _ _ _ _ _ R E1) E).
Qed.

Definition ex_cfg : config := MkCfg (fun _ => true) 0 32 128 32 32.
Definition ex_d : sdata := MkSD (MkSC (bs "0123456789abcdef") (bs "01234567") 1 None) zero_span_id 0 (bs "op") 10 zero_time [] [] [] (0%Z, []) [] false 0 0 0 0 0.
Definition ex_init : hst * recording * list sdata :=
  (h_start ex_cfg ex_d, MkRec ex_d (new_lrumap 32) (new_equeue 32) (new_equeue 128) (new_equeue 32), []).
Definition kv (k : string) (n : Z) : bytes * attr := (bs k, AvInt n).
Lemma ex_run ops s r l : exec ex_init ops = Some (s, r, l) -> run ex_cfg ex_d ops s r l.
Proof. intros E. exact (exec_run ex_cfg ex_d ops [] _ _ _ _ _ _ (run_start ex_cfg ex_d) E). Qed.
Lemma ex_fresh : fresh ex_d.
Proof. repeat split; reflexivity. Qed.

(** What readers of the SpanData see, and what they should see. *)
Definition shown (c : hst * recording * list sdata) : list (content * list (option content) * list content) :=
  let '(s, _, _) := c in map (fun x => (see_attrs s x, map an_attrs (see_annots s x), map ln_attrs (see_links s x))) (hs_snaps s).
Definition should (c : hst * recording * list sdata) : list (content * list (option content) * list content) :=
  let '(_, _, l) := c in map (fun x => (sd_attrs x, map an_attrs (sd_annots x), map ln_attrs (sd_links x))) l.

(** A program that reuses the slice it passed to AddAttributes and Annotate, and whose exporter
    adds a label to the Attributes of one of two SpanData. *)
Definition ex_ops : list hop :=
  [ONewArr [kv "a" 1]; OAttrs 0; OAnnotate 11 (Some 0) (bs "first"); OSetArr 0 [kv "b" 2]; OAttrs 0; OAnnotate 12 (Some 0) (bs "second");
   OAnnotate 13 None (bs "third"); ONewMap [kv "l" 3]; OLink (bs "t") (bs "s") 1 (Some 2); OPlain (UMsg 14 true 1 2 3); OChild;
   OSnap id_order None; OSetArr 0 [kv "c" 9]; OEditAttrs 0 [kv "x" 0]; OAttrs 0; OSnap id_order (Some 20%Z); OEditAttrs 1 [kv "y" 0]].
Example C82_nonvacuous : exists s r l, run ex_cfg ex_d ex_ops s r l /\ fresh ex_d /\ no_ann_edits ex_ops /\ no_link_edits ex_ops /\ links_kept ex_ops /\
  option_map should (exec ex_init ex_ops) =
    Some [([kv "a" 1; kv "b" 2], [Some [kv "a" 1]; Some [kv "b" 2]; None], [[kv "l" 3]]);
          ([kv "a" 1; kv "b" 2; kv "c" 9], [Some [kv "a" 1]; Some [kv "b" 2]; None], [[kv "l" 3]])].
Proof.
  destruct (exec ex_init ex_ops) as [[[s r] l]|] eqn:E; [| vm_compute in E; discriminate E].
  exists s, r, l. split; [exact (ex_run _ _ _ _ E) |]. split; [exact ex_fresh |].
  split; [intros x i m I; cbn in I; intuition discriminate |]. split; [intros x i m I; cbn in I; intuition discriminate |].
  split.
  - intros h1 p m h2 EQ. exfalso.
    assert (I : In (OSetMap p m) ex_ops) by (rewrite EQ; apply in_or_app; right; left; reflexivity).
    cbn in I. intuition discriminate.
  - rewrite <- E. vm_compute. reflexivity.
Qed.

(** A link shows what its map holds when the link is read: a program that fills the map anew
    for its next link changes the first. *)
Definition reuse_ops : list hop :=
  [ONewMap [kv "n" 1]; OLink (bs "t") (bs "s") 1 (Some 0); OSetMap 0 [kv "n" 2]; OLink (bs "t") (bs "u") 1 (Some 0); OSnap id_order (Some 20%Z)].
Theorem C82_link_refuted : ~ (forall cfg d h s r l x X D, fresh d -> run cfg d h s r l ->
  nth_error (hs_snaps s) x = Some X -> nth_error l x = Some D -> no_link_edits h -> see_links s X = sd_links D).
Proof.
  intros H. destruct (exec ex_init reuse_ops) as [[[s r] l]|] eqn:E; [| vm_compute in E; discriminate E].
  assert (R := ex_run _ _ _ _ E).
  assert (N : no_link_edits reuse_ops) by (intros x i m I; cbn in I; intuition discriminate).
  assert (A : option_map shown (exec ex_init reuse_ops) = Some [([], [], [[kv "n" 2]; [kv "n" 2]])]) by (vm_compute; reflexivity).
  assert (B : option_map should (exec ex_init reuse_ops) = Some [([], [], [[kv "n" 1]; [kv "n" 2]])]) by (vm_compute; reflexivity).
  rewrite E in A, B. cbn in A, B.
  destruct (hs_snaps s) as [| X ss] eqn:ES; [discriminate A |]. destruct l as [| D l]; [discriminate B |].
  assert (Q := H _ _ _ _ _ _ 0 X D ex_fresh R (f_equal (fun l => nth_error l 0) ES) eq_refl N).
  cbn in A, B. rewrite Q in A. assert (C : [[kv "n" 2]; [kv "n" 2]] = [[kv "n" 1]; [kv "n" 2]]) by congruence. discriminate C.
Qed.

(** The SpanData of one span share the attributes of its annotations: a receiver that edits
    those of one of them edits those of all, also of SpanData made later. *)
Definition share_ops : list hop :=
  [ONewArr [kv "n" 1]; OAnnotate 11 (Some 0) (bs "a"); OSnap id_order None; OEditAnn 0 0 [kv "n" 7]; OSnap id_order (Some 20%Z)].
Theorem C82_shared_refuted : ~ (forall cfg d h s r l x X D, fresh d -> run cfg d h s r l ->
  nth_error (hs_snaps s) x = Some X -> nth_error l x = Some D -> (forall i m, ~ In (OEditAnn x i m) h) -> see_annots s X = sd_annots D).
Proof.
  intros H. destruct (exec ex_init share_ops) as [[[s r] l]|] eqn:E; [| vm_compute in E; discriminate E].
  assert (R := ex_run _ _ _ _ E).
  assert (N : forall i m, ~ In (OEditAnn 1 i m) share_ops) by (intros i m I; cbn in I; intuition discriminate).
  assert (A : option_map shown (exec ex_init share_ops) = Some [([], [Some [kv "n" 7]], []); ([], [Some [kv "n" 7]], [])]) by (vm_compute; reflexivity).
  assert (B : option_map should (exec ex_init share_ops) = Some [([], [Some [kv "n" 1]], []); ([], [Some [kv "n" 1]], [])]) by (vm_compute; reflexivity).
  rewrite E in A, B. cbn in A, B.
  destruct (hs_snaps s) as [| X [| Y ss]] eqn:ES; [discriminate A | discriminate A |]. destruct l as [| D [| D' l]]; [discriminate B | discriminate B |].
  assert (Q := H _ _ _ _ _ _ 1 Y D' ex_fresh R (f_equal (fun l => nth_error l 1) ES) eq_refl N).
  cbn in A, B. rewrite Q in A. assert (C : [Some [kv "n" 7]] = [Some [kv "n" 1]]) by congruence. discriminate C.
Qed.
Print Assumptions C82_link_refuted. Print Assumptions C82_shared_refuted.
