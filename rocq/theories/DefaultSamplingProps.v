(** What an unconfigured program samples (C28, C29): one trace in ten thousand. *)

From Coq Require Import String.
From Coq Require Import List Arith NArith ZArith Bool Lia ZifyBool ZifyNat ZifyN.
From Verif Require Import Base GoMap Float64 TraceTypes TraceModel SpanStoreModel TracerModel TracerSpec TracerProps SamplerProps.
Import ListNotations.
Open Scope nat_scope.

(** No call of ApplyConfig has given a sampler. *)
Definition never_configured (h : hist) : Prop := forall a, In a (configs h) -> ca_sampler a = None.

Lemma given_none {A B} (f : A -> option B) l : (forall a, In a l -> f a = None) -> given (map f l) = [].
Proof.
  induction l as [|x r IH]; intros H; [reflexivity|]. unfold given in *. cbn [map flat_map].
  rewrite (H x (or_introl eq_refl)). apply IH. intros a Ha. apply H. now right.
Qed.

Lemma threshold_default : threshold f_1em4 = 922337203685477%Z.
Proof. vm_compute. reflexivity. Qed.

(** The leading 63 bits of a trace ID, as a number. *)
Definition leading63 (tid : bytes) : Z := Z.of_N (fold_left (fun a x => a * 256 + b2n x)%N (firstn 8 tid) 0%N) / 2.

Lemma fold_be l : forall a, fold_left (fun a x => a * 256 + b2n x)%N l a = (a * 256 ^ N.of_nat (length l) + TraceModel.be_value l)%N.
Proof.
  induction l as [|x r IH]; intros a; cbn [fold_left length TraceModel.be_value]; [cbn; lia|].
  rewrite IH, Nat2N.inj_succ, N.pow_succ_r'. lia.
Qed.

Lemma leading63_prefix tid : leading63 tid = Z.of_N (prefix63 tid).
Proof.
  unfold leading63, prefix63. rewrite fold_be, N.mul_0_l, N.add_0_l. rewrite N2Z.inj_div. reflexivity.
Qed.

(** A span without a parent, or with a remote one, made without a sampler of its own: it is
    sampled exactly if the remote parent is, or the leading 63 bits of its trace ID are among
    the first ten-thousandth of the 2^63 possible ones, rounded down. *)
Theorem C28_unconfigured en h w i h1 c : trun en h w -> created h i h1 c -> opt_sampler (c_opts c) = None ->
  (c_par c = PNone \/ c_remote c = true) -> never_configured h1 ->
  exists s parent, span_at w i = Some s /\ parent_of w (c_par c) = Some parent /\
    (length (sc_trace_id (s_context s)) = 16 ->
     (is_sampled (s_context s) = true <->
      is_sampled parent = true \/ (10000 * (leading63 (sc_trace_id (s_context s)) + 1) <= 2 ^ 63)%Z)).
Proof.
  intros H Hc Ho Hp Hn. destruct (C28_default_sampler _ _ _ _ _ _ H Hc Ho Hp) as (s & parent & A & B & E).
  exists s, parent. split; [exact A|]. split; [exact B|]. intros Hl. rewrite E. unfold sampler_after.
  rewrite (given_none _ _ Hn). cbn [last]. rewrite C29_decision by (reflexivity || exact Hl). cbn [sp_parent sp_trace_id].
  rewrite threshold_default, leading63_prefix. assert (0 <= Z.of_N (prefix63 (sc_trace_id (s_context s))))%Z by lia.
  change (2 ^ 63)%Z with 9223372036854775808%Z. intuition lia.
Qed.

(** Two spans without parent, with trace IDs on either side of the bound. *)
Definition ex_tid (b : byte) : bytes := [x00; x06; x8d; xb8; xba; xc7; x10; b] ++ repeat x01 8.
Definition ex_ops : list top :=
  [TCreate PNone false (bs "in") [] (ex_tid xc9) (repeat x01 8) 5%Z; TCreate PNone false (bs "out") [] (ex_tid xca) (repeat x02 8) 6%Z].
Example C28_unconfigured_example :
  option_map (fun hw => map (fun s => (is_sampled (s_context s), leading63 (sc_trace_id (s_context s)))) (w_spans (snd hw)))
    (texec (init_world false) ex_ops) = Some [(true, 922337203685476%Z); (false, 922337203685477%Z)].
Proof. vm_compute. reflexivity. Qed.

Print Assumptions C28_unconfigured.
