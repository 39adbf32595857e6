(** Go maps.

    A Go map is represented by an association list without duplicate keys.
    The order of the list is not observable: theorems about code that ranges
    over a map quantify over every permutation of the list (the Go runtime
    picks an arbitrary order for each [range] statement). *)

From Coq Require Import List Bool Permutation Lia.
Import ListNotations.

(** The order in which a [range] statement visits a map: any permutation. E.g.
    stats/view/worker.go:383. *)
Record order : Type := MkOrder {
  ord : forall A : Type, list A -> list A;
  ord_perm : forall A (l : list A), Permutation (ord A l) l }.

(** The order of the representation: used in examples only, no code of its own. *)
Definition id_order : order := MkOrder (fun _ l => l) (fun A l => Permutation_refl l).

Section GoMap.
  Context {K V : Type}.
  Variable keqb : K -> K -> bool.

  (** [v, ok := m[k]] E.g. tag/map.go:47. *)
  Fixpoint mget (m : list (K * V)) (k : K) : option V :=
    match m with
    | [] => None
    | (k', v) :: m' => if keqb k' k then Some v else mget m' k
    end.

  (** [m[k] = v] E.g. tag/map.go:84. *)
  Fixpoint mset (m : list (K * V)) (k : K) (v : V) : list (K * V) :=
    match m with
    | [] => [(k, v)]
    | (k', v') :: m' =>
        if keqb k' k then (k', v) :: m' else (k', v') :: mset m' k v
    end.

  (** [delete(m, k)] E.g. tag/map.go:88. *)
  Definition mdel (m : list (K * V)) (k : K) : list (K * V) :=
    filter (fun kv => negb (keqb (fst kv) k)) m.

  (** The keys a range statement visits, e.g. tag/map.go:56. *)
  Definition mkeys (m : list (K * V)) : list K := map fst m.

  (** A well-formed map has no duplicate keys. No code of its own: Go's maps are so. *)
  Definition mwf (m : list (K * V)) : Prop := NoDup (mkeys m).

  (** Two maps hold the same bindings. No code of its own: used in statements. *)
  Definition meq (m1 m2 : list (K * V)) : Prop := forall k, mget m1 k = mget m2 k.

  Hypothesis keqb_spec : forall a b, reflect (a = b) (keqb a b).

  Lemma keqb_refl k : keqb k k = true.
  Proof. destruct (keqb_spec k k); congruence. Qed.

  Lemma mget_mset_same m k v : mget (mset m k v) k = Some v.
  Proof.
    induction m as [|[k' v'] m IH]; simpl.
    - now rewrite keqb_refl.
    - destruct (keqb k' k) eqn:E; simpl; rewrite E; auto.
  Qed.

  Lemma mget_mset_other m k k' v : k <> k' -> mget (mset m k v) k' = mget m k'.
  Proof.
    intros Hne. induction m as [|[k0 v0] m IH]; simpl.
    - destruct (keqb_spec k k'); congruence.
    - destruct (keqb_spec k0 k); simpl.
      + subst. destruct (keqb_spec k k'); congruence.
      + destruct (keqb k0 k'); auto.
  Qed.

  Lemma mget_mset m k k' v :
    mget (mset m k v) k' = if keqb k k' then Some v else mget m k'.
  Proof.
    destruct (keqb_spec k k').
    - subst. apply mget_mset_same.
    - now apply mget_mset_other.
  Qed.

  Lemma mget_mdel m k k' :
    mget (mdel m k) k' = if keqb k k' then None else mget m k'.
  Proof.
    induction m as [|[k0 v0] m IH]; simpl.
    - destruct (keqb k k'); reflexivity.
    - destruct (keqb_spec k0 k); simpl.
      + subst k0. rewrite IH. destruct (keqb k k'); reflexivity.
      + destruct (keqb_spec k0 k'); [|exact IH].
        subst. destruct (keqb_spec k k'); congruence.
  Qed.

  Lemma mget_In m k v : mget m k = Some v -> In (k, v) m.
  Proof.
    induction m as [|[k' v'] m IH]; simpl; [discriminate|].
    destruct (keqb_spec k' k).
    - intros [= ->]. subst. now left.
    - intros H. right. auto.
  Qed.

  Lemma In_mget m k v : mwf m -> In (k, v) m -> mget m k = Some v.
  Proof.
    unfold mwf, mkeys. induction m as [|[k' v'] m IH]; simpl; [tauto|].
    intros Hnd Hin. inversion Hnd as [|? ? Hni Hnd']; subst.
    destruct Hin as [[= -> ->]|Hin].
    - now rewrite keqb_refl.
    - destruct (keqb_spec k' k).
      + subst. exfalso. apply Hni. change k with (fst (k, v)). now apply in_map.
      + auto.
  Qed.

  Lemma mget_None m k : mget m k = None <-> ~ In k (mkeys m).
  Proof.
    unfold mkeys. induction m as [|[k' v'] m IH]; simpl.
    - tauto.
    - destruct (keqb_spec k' k).
      + subst. split; [discriminate|]. intros H; exfalso; apply H; now left.
      + rewrite IH. intuition.
  Qed.

  Lemma mget_Some_key m k v : mget m k = Some v -> In k (mkeys m).
  Proof.
    intros H. apply mget_In in H. unfold mkeys.
    change k with (fst (k, v)). now apply in_map.
  Qed.

  Lemma mget_perm m1 m2 k :
    mwf m1 -> Permutation m1 m2 -> mget m1 k = mget m2 k.
  Proof.
    intros Hwf HP.
    assert (Hwf2 : mwf m2).
    { unfold mwf, mkeys in *. eapply Permutation_NoDup; [|exact Hwf].
      now apply Permutation_map. }
    destruct (mget m1 k) eqn:E.
    - symmetry. apply In_mget; auto. eapply Permutation_in; [exact HP|].
      now apply mget_In.
    - symmetry. apply mget_None. apply mget_None in E. intros Hin. apply E.
      unfold mkeys in *. eapply Permutation_in; [|exact Hin].
      apply Permutation_map. now apply Permutation_sym.
  Qed.

  Lemma mwf_perm m1 m2 : mwf m1 -> Permutation m1 m2 -> mwf m2.
  Proof.
    unfold mwf, mkeys. intros H HP. eapply Permutation_NoDup; [|exact H].
    now apply Permutation_map.
  Qed.

  Lemma mkeys_mset m k v :
    mkeys (mset m k v) =
    match mget m k with Some _ => mkeys m | None => mkeys m ++ [k] end.
  Proof.
    induction m as [|[k' v'] m IH]; simpl; [reflexivity|].
    destruct (keqb_spec k' k); simpl; [subst; reflexivity|].
    rewrite IH. destruct (mget m k); reflexivity.
  Qed.

  Lemma NoDup_snoc {A} (l : list A) a : NoDup l -> ~ In a l -> NoDup (l ++ [a]).
  Proof.
    intros Hnd Hni. eapply Permutation_NoDup.
    - apply Permutation_cons_append.
    - now constructor.
  Qed.

  Lemma mwf_mset m k v : mwf m -> mwf (mset m k v).
  Proof.
    unfold mwf. intros H. rewrite mkeys_mset.
    destruct (mget m k) eqn:E; [assumption|].
    apply mget_None in E. now apply NoDup_snoc.
  Qed.

  Lemma mwf_mdel m k : mwf m -> mwf (mdel m k).
  Proof.
    unfold mwf, mkeys, mdel. induction m as [|[k' v'] m IH]; simpl; [auto|].
    intros Hnd. inversion Hnd as [|? ? Hni Hnd']; subst.
    destruct (keqb k' k); simpl; auto.
    constructor; auto.
    intros Hin. apply Hni. apply in_map_iff in Hin.
    destruct Hin as [[a b] [Ha Hin]]. simpl in Ha. subst a.
    apply filter_In in Hin. destruct Hin as [Hin _].
    change k' with (fst (k', b)). now apply in_map.
  Qed.

  Lemma mwf_nil : mwf [].
  Proof. constructor. Qed.

  Lemma In_mset m k v k' v' :
    In (k', v') (mset m k v) -> (k' = k /\ v' = v) \/ In (k', v') m.
  Proof.
    induction m as [|[k0 v0] m IH]; simpl.
    - intros [[= <- <-]|[]]. now left.
    - destruct (keqb_spec k0 k); simpl.
      + intros [[= <- <-]|H]; subst; auto.
      + intros [H|H]; [auto|]. destruct (IH H); auto.
  Qed.

  Lemma mset_length_le m k v : (length m <= length (mset m k v) <= S (length m))%nat.
  Proof.
    induction m as [|[k0 v0] m IH]; simpl; [lia|].
    destruct (keqb k0 k); simpl; lia.
  Qed.

  Lemma meq_perm m1 m2 : mwf m1 -> mwf m2 -> meq m1 m2 -> Permutation m1 m2.
  Proof.
    intros H1 H2 Heq.
    apply NoDup_Permutation.
    - now apply NoDup_map_inv in H1.
    - now apply NoDup_map_inv in H2.
    - intros [k v]; split; intros Hin.
      + apply In_mget in Hin; auto. rewrite Heq in Hin. now apply mget_In.
      + apply In_mget in Hin; auto. rewrite <- Heq in Hin. now apply mget_In.
  Qed.
End GoMap.

Arguments mkeys {K V} m.
Arguments mwf {K V} m.
