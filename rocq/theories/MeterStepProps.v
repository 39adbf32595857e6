(** Property theorems for the small steps of a Meter (C75). *)

From Coq Require Import String.
From Coq Require Import List Arith ZArith NArith Bool Lia Permutation.
From Verif Require Import Base ListLib GoMap GoSort Float64 TagModel AggModel AggSpec CollectorModel CollectorSpec ViewModel WorkerModel WorkerSpec
  ViewProofs WorkerProofs WorkerProps MeterStepModel MeterStepSpec MeterStepProofs.
Import ListNotations.
Open Scope nat_scope.

(** A Read that runs while the worker registers, unregisters and exports: if SetResource is
    not called meanwhile, it returns what a Read at one moment between its first and its
    last step returns. *)
Theorem C75_read u l s d :
  u_ok u -> Forall (fop_ok u) l -> frun (finit u) l = Some s -> In d (f_reads s) ->
  dr_from d <= dr_to d <= List.length (f_log s) /\
  (existsb sets_resource (between (dr_from d) (dr_to d) (f_log s)) = false ->
   exists l1 l2, f_log s = l1 ++ l2 /\ dr_from d <= List.length l1 <= dr_to d /\
     answer u (log_cmds l1) (CmdRead (dr_now d)) (RMetrics (dr_got d)) []).
Proof.
  intros U Hl E Hd. pose proof (frun_INV u U l _ _ (INV_init u) Hl E) as I.
  exact (proj1 (Forall_forall _ _) (iv_reads _ _ I) d Hd).
Qed.

(** What takes effect is right after what took effect before. *)
Theorem C75_effects u l s l1 b a l2 :
  u_ok u -> Forall (fop_ok u) l -> frun (finit u) l = Some s -> f_log s = l1 ++ (b, a) :: l2 -> atom_ok u (log_cmds l1) a.
Proof. intros U Hl E El. pose proof (frun_INV u U l _ _ (INV_init u) Hl E) as I. exact (iv_log _ _ I l1 b a l2 El). Qed.

(** When the worker has finished a command, the effects it has had are those of the commands it
    has received, in order. *)
Theorem C75_commands u l s :
  u_ok u -> Forall (fop_ok u) l -> frun (finit u) l = Some s -> f_pc s = PIdle ->
  worker_atoms u (f_started s) (map snd (filter fst (f_log s))).
Proof.
  intros U Hl E Ep. pose proof (frun_INV u U l _ _ (INV_init u) Hl E) as I. pose proof (iv_working _ _ I) as W. unfold working in W.
  now rewrite Ep in W.
Qed.

(** No step panics; the worker waits only for a Read that is under way, and that Read can
    always go on. *)
Theorem C75_progress u l s :
  u_ok u -> Forall (fop_ok u) l -> frun (finit u) l = Some s ->
  (forall a, fop_ok u a -> fstep s a <> Panicked) /\
  (f_pc s <> PIdle -> f_read s = None -> forall o, exists s', fstep s (FWork o) = Next s') /\
  (f_read s <> None -> (forall o, exists s', fstep s (FRead o) = Next s') \/ exists s', fstep s FUnlock = Next s').
Proof.
  intros U Hl E. pose proof (frun_INV u U l _ _ (INV_init u) Hl E) as I. split; [|split].
  - intros a Ha Ef. pose proof (fstep_keep u U s a I Ha) as H. now rewrite Ef in H.
  - intros Hp Hr o. pose proof (work_keep u U o s I) as H. cbn [fstep]. destruct (work o s) as [| |s']; [|contradiction|eauto].
    destruct H as [H|H]; contradiction.
  - destruct (iv_base _ _ I) as (st1 & w1 & B & R). destruct (f_read s) as [r|] eqn:Er; [|congruence]. intros _. cbn [fstep]. rewrite Er.
    destruct r as [from now cur todo got].
    assert (H : forall o, match read_step o s (MkRd from now cur todo got) with Blocked => cur = None /\ todo = [] | Panicked => False | Next _ => True end).
    { intros o. pose proof (read_keep u o s st1 w1 _ B R Er) as H. destruct (read_step o s _); auto. }
    destruct cur as [c|]; [|destruct todo as [|t todo]].
    + left. intros o. specialize (H o). destruct (read_step o s _) as [| |s']; [destruct H; discriminate|contradiction|eauto].
    + right. eauto.
    + left. intros o. specialize (H o). destruct (read_step o s _) as [| |s']; [destruct H; discriminate|contradiction|eauto].
Qed.

(** ** Examples *)

Definition fw (n : nat) : list fop := repeat (FWork id_order) n.
Definition fr (n : nat) : list fop := repeat (FRead id_order) n.

(** Both views registered and with data. *)
Definition ex_two : list fop :=
  FStart id_order (CmdRegister [0; 4] 100%Z) :: fw 5 ++
  [FStart id_order (CmdRecord (tmx (bs "a")) [Some (m_lat, f_of_Z 3); Some (m_cnt, f_of_Z 1)] [] 110%Z)].

Lemma fw_ok n : Forall (fop_ok ex_u) (fw n).
Proof. apply Forall_forall. intros a H. apply repeat_spec in H. subst a. exact I. Qed.
Lemma fr_ok n : Forall (fop_ok ex_u) (fr n).
Proof. apply Forall_forall. intros a H. apply repeat_spec in H. subst a. exact I. Qed.
Lemma ex_two_ok : Forall (fop_ok ex_u) ex_two.
Proof.
  unfold ex_two. apply Forall_cons; [cbn; repeat constructor; lia|]. apply Forall_app. split; [apply fw_ok|].
  apply Forall_cons; [apply tmx_short; cbn; lia|constructor].
Qed.

(** What can be compared of a state: the names and resources of the metrics of each Read. *)
Definition shown (l : list fop) : option (list (nat * nat * list (bytes * option nat)) * nat) :=
  match frun (finit ex_u) l with
  | Some s => Some (map (fun d => (dr_from d, dr_to d, map (fun m => (md_name (mt_desc m), mt_resource m)) (dr_got d))) (f_reads s),
                    List.length (f_log s))
  | None => None
  end.

(** Unregister of both views during a Read: the Read has looked at the first view before, and
    finds the second one subscribed but cleared. *)
Definition ex_between : list fop :=
  ex_two ++ [FStart id_order (CmdUnregister [bs "v"; bs "requests"] 120%Z)] ++ fw 2 ++ [FLock id_order 130%Z] ++
  fr 1 ++ fw 1 ++ fr 2 ++ [FUnlock] ++ fw 1 ++ fw 5 ++ [FLock id_order 140%Z; FUnlock].
Definition ex_before : list fop :=
  ex_two ++ [FLock id_order 130%Z; FStart id_order (CmdUnregister [bs "v"; bs "requests"] 120%Z)] ++ fr 2 ++ fw 3 ++ fr 2 ++ [FUnlock].

Example C75_example :
  u_ok ex_u /\ Forall (fop_ok ex_u) ex_between /\ Forall (fop_ok ex_u) ex_before /\
  (* the first Read does not show "v", whose removal is under way; the second one shows nothing *)
  shown ex_between = Some ([(4, 4, [(bs "requests", None)]); (6, 6, [])], 6) /\
  (* this Read shows "v", although its removal comes before the end of the Read *)
  shown ex_before = Some ([(2, 4, [(bs "v", None); (bs "requests", None)])], 4).
Proof.
  split; [apply ex_u_ok|]. split; [|split].
  - unfold ex_between. repeat (apply Forall_app; split); try apply ex_two_ok; try apply fw_ok; try apply fr_ok; repeat constructor.
  - unfold ex_before. repeat (apply Forall_app; split); try apply ex_two_ok; try apply fw_ok; try apply fr_ok; repeat constructor.
  - split; vm_compute; reflexivity.
Qed.

(** "A Read returns what it would return at one moment" is false if SetResource is called
    meanwhile: the metrics of one Read have different resources. *)
Definition ex_resource : list fop :=
  ex_two ++ [FDirect (CmdSetResource 3); FLock id_order 130%Z] ++ fr 2 ++ [FDirect (CmdSetResource 4)] ++ fr 2 ++ [FUnlock].

Lemma two_resources l i j k : shown l = Some ([(i, j, [(bs "v", Some 3); (bs "requests", Some 4)])], k) ->
  exists s d, frun (finit ex_u) l = Some s /\ In d (f_reads s) /\
    forall h, ~ answer ex_u h (CmdRead (dr_now d)) (RMetrics (dr_got d)) [].
Proof.
  unfold shown. generalize (bs "v") (bs "requests"). intros bv br. destruct (frun (finit ex_u) l) as [s|]; [|discriminate]. intros X. injection X as X _.
  exists s. destruct (f_reads s) as [|d [|d' r]]; [discriminate| |discriminate]. injection X as _ _ X.
  exists d. split; [reflexivity|]. split; [now left|]. intros h Ha. cbn [answer] in Ha.
  destruct Ha as (_ & ms & Em & ns & _ & _ & HF). injection Em as <-.
  destruct (dr_got d) as [|m1 [|m2 [|]]]; try discriminate. injection X as _ R1 _ R2.
  inversion HF as [|? ? ? ? (e1 & _ & (? & ? & _ & _ & _ & Q1 & _)) HF']; subst.
  inversion HF' as [|? ? ? ? (e2 & _ & (? & ? & _ & _ & _ & Q2 & _)) _]; subst. congruence.
Qed.

Theorem C75_resource_refuted :
  u_ok ex_u /\ Forall (fop_ok ex_u) ex_resource /\
  exists s d, frun (finit ex_u) ex_resource = Some s /\ In d (f_reads s) /\
    forall h, ~ answer ex_u h (CmdRead (dr_now d)) (RMetrics (dr_got d)) [].
Proof.
  split; [apply ex_u_ok|]. split.
  { unfold ex_resource. repeat (apply Forall_app; split); try apply ex_two_ok; try apply fr_ok; repeat constructor. }
  apply (two_resources ex_resource 3 4 4). vm_compute. reflexivity.
Qed.

Print Assumptions C75_read.
Print Assumptions C75_effects.
Print Assumptions C75_commands.
Print Assumptions C75_progress.
Print Assumptions C75_resource_refuted.
