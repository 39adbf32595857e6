(** Go's string order and the sort package.

    sort.Slice, sort.Strings and sort.Float64s return some ordered permutation of
    their argument.  [isort] is a stable insertion sort; where the code's result
    could depend on the order of equivalent elements this is said at the use. *)

From Coq Require Import List NArith Bool Permutation Sorted Lia ZifyBool ZifyN.
From Verif Require Import Base.
Import ListNotations.

(** Go's [<] on strings: bytewise lexicographic. E.g. stats/view/view.go:95. *)
Fixpoint bytes_ltb (a b : bytes) : bool :=
  match a, b with
  | _, [] => false
  | [], _ :: _ => true
  | x :: a', y :: b' =>
      if (b2n x <? b2n y)%N then true
      else if (b2n y <? b2n x)%N then false
      else bytes_ltb a' b'
  end.

Section Sort.
  Context {A : Type}.
  Variable ltb : A -> A -> bool.

  (** A step of [isort]. *)
  Fixpoint insert (x : A) (l : list A) : list A :=
    match l with
    | [] => [x]
    | y :: r => if ltb y x then y :: insert x r else x :: y :: r
    end.

  (** E.g. stats/view/view.go:94-97, zpages/tracez.go:438-440; the code of package sort is
      not modelled. *)
  Fixpoint isort (l : list A) : list A :=
    match l with
    | [] => []
    | x :: r => insert x (isort r)
    end.

  Lemma insert_perm x l : Permutation (insert x l) (x :: l).
  Proof.
    induction l as [|y r IH]; simpl; [reflexivity|]. destruct (ltb y x); [|reflexivity].
    rewrite IH. apply perm_swap.
  Qed.

  Lemma isort_perm l : Permutation (isort l) l.
  Proof.
    induction l as [|x r IH]; simpl; [reflexivity|]. rewrite insert_perm. now constructor.
  Qed.

  Definition leb (a b : A) : Prop := ltb b a = false.

  Hypothesis leb_trans : forall a b c, leb a b -> leb b c -> leb a c.
  Hypothesis ltb_leb : forall a b, ltb a b = true -> leb a b.

  Lemma insert_sorted x l : StronglySorted leb l -> StronglySorted leb (insert x l).
  Proof.
    induction l as [|y r IH]; intros H; simpl; [repeat constructor|].
    inversion H as [|? ? Hr Hall]; subst. destruct (ltb y x) eqn:E.
    - constructor; [now apply IH|]. rewrite insert_perm. constructor; [now apply ltb_leb|exact Hall].
    - constructor; [exact H|]. constructor; [exact E|].
      eapply Forall_impl; [|exact Hall]. intros z Hz. now apply leb_trans with y.
  Qed.

  Lemma isort_sorted l : StronglySorted leb (isort l).
  Proof. induction l as [|x r IH]; simpl; [constructor|]. now apply insert_sorted. Qed.

  Lemma insert_le_all x l : Forall (leb x) l -> insert x l = x :: l.
  Proof.
    destruct l as [|y r]; intros H; simpl; [reflexivity|]. inversion H; subst.
    unfold leb in *. now rewrite H2.
  Qed.

  Lemma isort_id l : StronglySorted leb l -> isort l = l.
  Proof.
    induction l as [|x r IH]; intros H; simpl; [reflexivity|]. inversion H; subst.
    rewrite IH by assumption. now apply insert_le_all.
  Qed.

  Hypothesis leb_antisym : forall a b, leb a b -> leb b a -> a = b.

  Lemma sorted_perm_unique l : forall l',
    StronglySorted leb l -> StronglySorted leb l' -> Permutation l l' -> l = l'.
  Proof.
    induction l as [|x l IH]; intros l' H H' P.
    - apply Permutation_nil in P. now subst.
    - destruct l' as [|y l']; [symmetry in P; now apply Permutation_nil_cons in P|].
      inversion H as [|? ? Hl Hx]; inversion H' as [|? ? Hl' Hy]; subst.
      rewrite Forall_forall in Hx, Hy.
      assert (E : x = y).
      { assert (Ix : In x (y :: l')) by (eapply Permutation_in; [exact P|now left]).
        assert (Iy : In y (x :: l)) by (eapply Permutation_in; [symmetry; exact P|now left]).
        destruct Ix as [->|Ix]; [reflexivity|]. destruct Iy as [->|Iy]; [reflexivity|].
        apply leb_antisym; auto. }
      subst y. f_equal. apply IH; auto. now apply Permutation_cons_inv in P.
  Qed.
End Sort.

Lemma bytes_ltb_irrefl a : bytes_ltb a a = false.
Proof. induction a as [|x a IH]; simpl; [reflexivity|]. rewrite N.ltb_irrefl. exact IH. Qed.

Lemma bytes_ltb_trans a : forall b c,
  bytes_ltb a b = true -> bytes_ltb b c = true -> bytes_ltb a c = true.
Proof.
  induction a as [|x a IH]; intros [|y b] [|z c] H1 H2; simpl in *; try discriminate; try reflexivity.
  destruct (N.ltb_spec (b2n x) (b2n y)), (N.ltb_spec (b2n y) (b2n x)); try lia; try discriminate;
  destruct (N.ltb_spec (b2n y) (b2n z)), (N.ltb_spec (b2n z) (b2n y)); try lia; try discriminate;
  destruct (N.ltb_spec (b2n x) (b2n z)), (N.ltb_spec (b2n z) (b2n x)); try lia; try reflexivity.
  eapply IH; eassumption.
Qed.

Lemma bytes_ltb_antisym a : forall b, bytes_ltb a b = false -> bytes_ltb b a = false -> a = b.
Proof.
  induction a as [|x a IH]; intros [|y b] H1 H2; simpl in *; try discriminate; [reflexivity|].
  destruct (N.ltb_spec (b2n x) (b2n y)), (N.ltb_spec (b2n y) (b2n x)); try discriminate; try lia.
  f_equal; [apply b2n_inj; lia|now apply IH].
Qed.

Lemma bytes_ltb_asym a b : bytes_ltb a b = true -> bytes_ltb b a = false.
Proof.
  intros H. destruct (bytes_ltb b a) eqn:E; [|reflexivity].
  pose proof (bytes_ltb_trans _ _ _ H E) as C. now rewrite bytes_ltb_irrefl in C.
Qed.

Lemma bytes_leb_trans a b c :
  leb bytes_ltb a b -> leb bytes_ltb b c -> leb bytes_ltb a c.
Proof.
  unfold leb. intros H1 H2. destruct (bytes_ltb c a) eqn:E; [|reflexivity].
  destruct (bytes_ltb a b) eqn:E1.
  - now rewrite (bytes_ltb_trans _ _ _ E E1) in H2.
  - pose proof (bytes_ltb_antisym _ _ E1 H1). subst. congruence.
Qed.
