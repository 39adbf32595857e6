(** C88, continued: untidy paths, directories without their slash, the program's own
    registrations, and the files the pages are made of. *)

From Coq Require Import String.
From Coq Require Import List NArith Bool Arith Lia.
From Verif Require Import Base Text ZMuxModel ZMuxSpec ZMuxProps.
Import ListNotations.
Open Scope nat_scope.

Lemma split_any els : Forall (fun e => ~ In slash e) els -> forall x, ~ In slash x -> split_byte slash (x ++ slashed els) = x :: els.
Proof.
  induction els as [|s els IH]; intros H x Hx.
  - unfold slashed. cbn [map concat]. rewrite app_nil_r. now apply split_byte_none.
  - inversion H as [|? ? P H']; subst. rewrite slashed_cons, split_byte_app by exact Hx. f_equal. now apply IH.
Qed.

Lemma fold_resolve els : forall out, ~ In (bs "..") out -> rev (fold_left (clean_seg true) els out) = resolve els (rev out).
Proof.
  induction els as [|e els IH]; intros out Ho; [reflexivity|]. cbn [fold_left resolve]. unfold clean_seg at 2.
  destruct (bytes_eqb e [] || bytes_eqb e (bs ".")); [now apply IH|]. destruct (bytes_eqb_spec e (bs "..")) as [-> |Ne].
  - destruct out as [|top r]; [now rewrite (IH []) by exact Ho|].
    rewrite bytes_eqb_neq by (intros ->; apply Ho; now left). rewrite IH by (intros X; apply Ho; now right).
    cbn [rev]. now rewrite removelast_last.
  - rewrite IH by (intros [X|X]; [congruence|auto]). reflexivity.
Qed.

Lemma path_clean els q segs : path_of els q -> resolve els [] = segs -> segs <> [] -> Forall plain segs -> clean_path q = slashed segs.
Proof.
  intros (N & L & H & ->) R N' P. fold (slashed els). destruct els as [|e els]; [congruence|].
  assert (ES : ends_slash (slashed (e :: els)) = false).
  { destruct (@exists_last _ (e :: els)) as (l & x & E); [discriminate|]. rewrite E in *. rewrite last_last in L. apply Forall_app in H. destruct H as [_ H]. inversion H as [|? ? Hx _]; subst.
    rewrite slashed_app, slashed_one. change (slash :: x) with ([slash] ++ x). rewrite app_assoc, ends_slash_app by exact L.
    unfold ends_slash. destruct (rev x) as [|c r] eqn:Er; [reflexivity|]. destruct (byte_eqb_spec c slash) as [-> |]; [|reflexivity].
    exfalso. apply Hx, in_rev. rewrite Er. now left. }
  rewrite slashed_cons in *. unfold clean_path. rewrite byte_eqb_refl. cbv zeta. rewrite ES. cbn [andb]. rewrite clean_rooted.
  change (slash :: e ++ slashed els) with ([] ++ slashed (e :: els)). rewrite split_any by (auto; intros []). rewrite fold_skip, fold_resolve by intros [].
  cbn [rev]. rewrite R, join_slashed. destruct segs; [congruence|reflexivity].
Qed.

(** ** Untidy paths: a request whose path leads to a page is redirected there. *)
Theorem C88_untidy m p segs m' host els q name :
  abs_prefix p segs -> own m -> zp_handle m p = (m', true) -> In name [bs "rpcz"; bs "tracez"] ->
  path_of els q -> resolve els [] = segs ++ [name] -> q <> under segs name ->
  serve m' host q = Moved (under segs name).
Proof.
  intros HP HO HH HN HQ HR NE. destruct (abs_handle _ _ _ _ HP HH) as (-> & A & B & _).
  assert (Pn : plain name) by (destruct HN as [<-|[<-|[]]]; [exact plain_rpcz|exact plain_tracez]).
  assert (C : clean_path q = under segs name).
  { rewrite under_slashed. apply (path_clean els); auto; [destruct segs; discriminate|]. apply Forall_app. split; [apply HP|auto]. }
  unfold serve. rewrite C. cbv zeta.
  assert (K : mux_get (m ++ z_new segs) (under segs name) <> None).
  { rewrite mux_get_app. destruct (mux_get m (under segs name)); [discriminate|]. unfold z_new. cbn [mux_get].
    destruct HN as [<-|[<-|[]]]; rewrite ?bytes_eqb_same; [discriminate|]. destruct (bytes_eqb _ _); discriminate. }
  unfold should_redirect. destruct (mux_get (m ++ z_new segs) (under segs name)); [|congruence]. cbn [orb].
  rewrite bytes_eqb_neq by congruence. reflexivity.
Qed.
Print Assumptions C88_untidy.

(** A directory of the program (pattern "/a/b/") asked for without its slash: redirected. *)
Theorem C88_slash m host els q ds h :
  own m -> ~ In (n2b 47) host -> Forall plain ds -> ds <> [] -> path_of els q -> resolve els [] = ds ->
  let d := concat (map (fun s => bs "/" ++ s) ds) in
  In (d ++ bs "/", h) m -> (forall h', ~ In (d, h') m) ->
  serve m host q = Moved (d ++ bs "/").
Proof.
  intros HO Hh HD N HQ HR d Hi Hn. assert (C : clean_path q = d) by (apply (path_clean els q ds HQ HR N HD)).
  unfold serve. rewrite C. cbv zeta.
  assert (G0 : mux_get m d = None). { destruct (mux_get m d) eqn:E; [|reflexivity]. apply mux_get_in in E. destruct (Hn _ E). }
  assert (G1 : mux_get m (d ++ [slash]) <> None).
  { revert Hi. change (bs "/") with [slash]. clear. induction m as [|[k v] m IH]; [intros []|]. cbn [mux_get]. intros [E|E]; [injection E as -> ->; rewrite bytes_eqb_same; discriminate|].
    destruct (bytes_eqb k (d ++ [slash])); [discriminate|auto]. }
  assert (G2 : mux_get m (host ++ d) = None).
  { destruct (mux_get m (host ++ d)) eqn:E; [|reflexivity]. apply mux_get_in in E. destruct host as [|c host]; [destruct (Hn _ E)|].
    destruct (HO _ _ E) as (_ & rest & X). injection X as -> _. exfalso. apply Hh. now left. }
  assert (ES : ends_slash d = false).
  { destruct (@exists_last _ ds N) as (l & x & E). change d with (slashed ds). rewrite E. apply slashed_last. rewrite E in HD. apply Forall_app in HD. destruct HD as [_ HD]. now inversion HD. }
  unfold should_redirect. rewrite G0, G2, ES. cbn [orb negb]. destruct (mux_get m (d ++ [slash])); [|congruence]. reflexivity.
Qed.
Print Assumptions C88_slash.

(** ** The program's own registrations take effect, on the mux they are made on. *)
Theorem C88_own ops k pat ps n m host :
  nth_error (z_muxes (z_run ops)) k = Some m -> Forall plain ps -> ps <> [] -> pat = concat (map (fun s => bs "/" ++ s) ps) ->
  (forall other h, In (other, h) m -> exists rest, other = bs "/" ++ rest) -> (forall h, ~ In (pat, h) m) ->
  (exists m', nth_error (z_muxes (z_run (ops ++ [ZUser k pat n]))) k = Some m' /\ serve m' host pat = Served (HUser n)) /\
  (forall j, j <> k -> nth_error (z_muxes (z_run (ops ++ [ZUser k pat n]))) j = nth_error (z_muxes (z_run ops)) j).
Proof.
  intros Hm HP N E HO Fr.
  assert (NH : has_hosts m = false).
  { clear - HO. unfold has_hosts. induction m as [|[o h] m IH]; [reflexivity|]. cbn [existsb fst]. destruct (HO o h (or_introl eq_refl)) as [rest ->].
    change (bs "/" ++ rest) with (slash :: rest). cbv iota. rewrite byte_eqb_refl. cbn [negb orb]. apply IH. intros o' h' Hi. apply (HO o' h'). now right. }
  unfold z_run. rewrite fold_left_app. fold (z_run ops). cbn [fold_left z_step]. rewrite Hm.
  assert (G0 : mux_get m pat = None). { destruct (mux_get m pat) eqn:X; [|reflexivity]. apply mux_get_in in X. destruct (Fr _ X). }
  assert (S0 : exists t, pat = slash :: t). { rewrite E. destruct ps as [|s ps]; [congruence|]. eexists. reflexivity. }
  assert (A : mux_add m pat (HUser n) = Some (m ++ [(pat, HUser n)])). { destruct S0 as [t ->]. unfold mux_add. rewrite G0. reflexivity. }
  rewrite A. cbn [z_muxes]. split.
  - exists (m ++ [(pat, HUser n)]). split; [rewrite set_nth_get, Nat.eqb_refl, Hm; reflexivity|].
    assert (C : clean_path pat = pat). { apply (clean_path_tidy pat ps). split; [exact HP|]. right. split; assumption. }
    assert (G : mux_get (m ++ [(pat, HUser n)]) pat = Some (HUser n)) by (rewrite mux_get_app, G0; cbn [mux_get]; now rewrite bytes_eqb_same).
    assert (H : has_hosts (m ++ [(pat, HUser n)]) = false). { rewrite has_hosts_app, NH. destruct S0 as [t ->]. cbn [has_hosts existsb fst]. rewrite byte_eqb_refl. reflexivity. }
    unfold serve. rewrite C. cbv zeta. unfold should_redirect. rewrite G. cbn [orb]. rewrite bytes_eqb_same. cbn [negb].
    unfold mux_handler. rewrite H. unfold mux_match. rewrite G. reflexivity.
  - intros j Hj. rewrite set_nth_get. apply Nat.eqb_neq in Hj. rewrite Hj. reflexivity.
Qed.
Print Assumptions C88_own.

(** ** Prefixes with empty elements, dots and double dots. *)

Lemma resolve_app a b at_ : resolve (a ++ b) at_ = resolve b (resolve a at_).
Proof. revert at_. induction a as [|e a IH]; intros at_; [reflexivity|]. cbn [app resolve]. apply IH. Qed.

Lemma resolve_plain els : Forall (fun e => ~ In slash e) els -> forall at_, Forall plain at_ -> Forall plain (resolve els at_).
Proof.
  induction els as [|e els IH]; intros H at_ Ha; [exact Ha|]. inversion H as [|? ? He H']; subst. cbn [resolve]. apply IH; [exact H'|].
  destruct (bytes_eqb_spec e []) as [-> |N1]; [exact Ha|]. destruct (bytes_eqb_spec e (bs ".")) as [-> |N2]; [exact Ha|]. cbn [orb].
  destruct (bytes_eqb_spec e (bs "..")) as [-> |N3].
  - apply Forall_forall. intros x Hx. rewrite Forall_forall in Ha. apply Ha. clear - Hx. induction at_ as [|y l IH]; [exact Hx|]. destruct l; [destruct Hx|]. destruct Hx as [Hx|Hx]; [now left|right; auto].
  - apply Forall_app. split; [exact Ha|]. repeat constructor; assumption.
Qed.

Lemma join_dotted els name : els <> [] -> Forall (fun e => ~ In slash e) els -> plain name ->
  path_join (slashed els) name = under (resolve els []) name /\ path_join (slashed els) (name ++ [slash]) = under (resolve els []) name.
Proof.
  intros N H Pn. destruct els as [|e els]; [congruence|].
  assert (NS : Forall (fun x => ~ In slash x) ((e :: els) ++ [name])) by (apply Forall_app; split; [exact H|repeat constructor; apply Pn]).
  assert (NS2 : Forall (fun x => ~ In slash x) ((e :: els) ++ [name; []])) by (apply Forall_app; split; [exact H|repeat constructor; [apply Pn|intros []]]).
  assert (RN : forall at_, resolve [name] at_ = at_ ++ [name]).
  { intros at_. destruct Pn as (A & _ & B & C). cbn [resolve]. rewrite !bytes_eqb_neq by assumption. reflexivity. }
  assert (CL : forall l, l <> [] -> Forall (fun x => ~ In slash x) l -> clean (slashed l) = slash :: join_byte slash (resolve l [])).
  { intros l Nl Hl. destruct l as [|x l]; [congruence|]. rewrite slashed_cons, clean_rooted. change (slash :: x ++ slashed l) with ([] ++ slashed (x :: l)).
    rewrite split_any by (auto; intros []). rewrite fold_skip, fold_resolve by intros []. reflexivity. }
  assert (JU : slash :: join_byte slash (resolve (e :: els) [] ++ [name]) = under (resolve (e :: els) []) name).
  { rewrite join_slashed, under_slashed. destruct (resolve (e :: els) [] ++ [name]) eqn:E; [destruct (resolve (e :: els) []); discriminate|reflexivity]. }
  assert (PJ : forall b, b <> [] -> path_join (slashed (e :: els)) b = clean (slashed (e :: els) ++ slash :: b)).
  { intros b Nb. rewrite slashed_cons. destruct b; [congruence|reflexivity]. }
  split; rewrite PJ.
  - replace (slashed (e :: els) ++ slash :: name) with (slashed ((e :: els) ++ [name])) by now rewrite slashed_app, slashed_one.
    rewrite CL by (try exact NS; discriminate). rewrite resolve_app, RN. exact JU.
  - apply Pn.
  - replace (slashed (e :: els) ++ slash :: name ++ [slash]) with (slashed ((e :: els) ++ [name; []])).
    2:{ rewrite slashed_app. f_equal. }
    rewrite CL by (try exact NS2; discriminate). rewrite resolve_app. change (resolve [name; []] (resolve (e :: els) [])) with (resolve [name] (resolve (e :: els) [])). rewrite RN. exact JU.
  - destruct name; discriminate.
Qed.

(** A prefix works like the tidy one it leads to: "/a/./b/..//c" like "/a/c". *)
Theorem C88_dotted m els p :
  els <> [] -> Forall (fun e => ~ In (n2b 47) e) els -> p = concat (map (fun s => bs "/" ++ s) els) ->
  let tidy := concat (map (fun s => bs "/" ++ s) (resolve els [])) ++ bs "/" in
  abs_prefix tidy (resolve els []) /\ zp_handle m p = zp_handle m tidy.
Proof.
  intros N H -> tidy. assert (A : abs_prefix tidy (resolve els [])) by (split; [apply resolve_plain; [exact H|constructor]|left; reflexivity]).
  split; [exact A|]. destruct (abs_patterns _ _ A) as (R & T & F). unfold zp_handle. rewrite R, T, F.
  change (concat (map (fun s => bs "/" ++ s) els)) with (slashed els).
  rewrite (proj1 (join_dotted els _ N H plain_rpcz)), (proj1 (join_dotted els _ N H plain_tracez)).
  change (bs "public/") with (bs "public" ++ [slash]). rewrite (proj2 (join_dotted els _ N H plain_public)). reflexivity.
Qed.
Print Assumptions C88_dotted.

Example C88_dotted_case : resolve [bs "a"; bs "."; bs "b"; bs ".."; bs ""; bs "c"] [] = [bs "a"; bs "c"].
Proof. vm_compute. reflexivity. Qed.

(** The embedded files have every template the pages are made of, so that importing the
    package does not panic; each is a file and not a directory. *)
Theorem C88_templates : parse_templates = true /\
  forall name, In name [bs "header"; bs "summary"; bs "rpcz"; bs "traces"; bs "footer"] ->
    esc_open (bs "/templates/" ++ name ++ bs ".html") = Some false.
Proof. split; [vm_compute; reflexivity|]. intros name [<-|[<-|[<-|[<-|[<-|[]]]]]]; vm_compute; reflexivity. Qed.
Print Assumptions C88_templates.

(** "/debug//./x/../tracez" leads to "/debug/tracez"; "/app" of a program with "/app/" is
    redirected. *)
Example C88_untidy_case : path_of [bs "debug"; bs ""; bs "."; bs "x"; bs ".."; bs "tracez"] (bs "/debug//./x/../tracez") /\
  resolve [bs "debug"; bs ""; bs "."; bs "x"; bs ".."; bs "tracez"] [] = [bs "debug"; bs "tracez"] /\
  serve (fst (zp_handle [] (bs "/debug"))) (bs "h") (bs "/debug//./x/../tracez") = Moved (bs "/debug/tracez") /\
  serve [(bs "/app/", HUser 0)] (bs "h") (bs "/app") = Moved (bs "/app/").
Proof.
  split; [|vm_compute; auto]. split; [discriminate|]. split; [discriminate|]. split; [|reflexivity].
  repeat constructor; vm_compute; intuition discriminate.
Qed.

Example C88_own_case : exists m', nth_error (z_muxes (z_run ([ZNew] ++ [ZUser 2 (bs "/app") 7]))) 2 = Some m' /\ serve m' (bs "h") (bs "/app") = Served (HUser 7).
Proof. eexists. split; vm_compute; reflexivity. Qed.
