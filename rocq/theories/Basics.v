(** * Lemmas about ballots, quorums, clocks, sequence numbers *)
From Coq Require Import List Arith Bool Lia.
Import ListNotations.
From Verif Require Import Types Config.

(** ** Ballots *)

(** Lexicographic order on (n, priority, pid), as a specification. *)
Definition bal_lt (a b : ballot) : Prop :=
  b_n a < b_n b \/
  (b_n a = b_n b /\ (b_prio a < b_prio b \/ (b_prio a = b_prio b /\ b_pid a < b_pid b))).

Definition bal_same (a b : ballot) : Prop :=
  b_n a = b_n b /\ b_prio a = b_prio b /\ b_pid a = b_pid b.

Lemma bcmp_spec a b :
  match bcmp a b with Lt => bal_lt a b | Eq => bal_same a b | Gt => bal_lt b a end.
Proof.
  unfold bcmp, bal_lt, bal_same.
  destruct (Nat.compare_spec (b_n a) (b_n b)); try lia.
  destruct (Nat.compare_spec (b_prio a) (b_prio b)); try lia.
  destruct (Nat.compare_spec (b_pid a) (b_pid b)); lia.
Qed.

Lemma blt_spec a b : blt a b = true <-> bal_lt a b.
Proof.
  unfold blt. pose proof (bcmp_spec a b) as H. destruct (bcmp a b); split; intros; try easy;
  unfold bal_lt, bal_same in *; lia.
Qed.

Lemma ble_spec a b : ble a b = true <-> bal_lt a b \/ bal_same a b.
Proof.
  unfold ble. pose proof (bcmp_spec a b) as H. destruct (bcmp a b); split; intros; try easy; try tauto;
  unfold bal_lt, bal_same in *; lia.
Qed.

Lemma bgt_blt a b : bgt a b = blt b a.
Proof.
  unfold bgt, blt. pose proof (bcmp_spec a b) as H; pose proof (bcmp_spec b a) as H'.
  destruct (bcmp a b), (bcmp b a); try reflexivity; unfold bal_lt, bal_same in *; lia.
Qed.

Lemma beq_spec a b : beq a b = true <-> a = b.
Proof.
  unfold beq. rewrite !andb_true_iff, !Nat.eqb_eq. destruct a, b; cbn; split.
  - intros [[[-> ->] ->] ->]; reflexivity.
  - intros H; inversion H; auto.
Qed.

Lemma beq_refl a : beq a a = true.
Proof. apply beq_spec; reflexivity. Qed.

(** ** Quorums *)

(** The quorum object of the server [p]: sequence_paxos/mod.rs 56-57,
    ballot_leader_election.rs 107-108. *)
Definition quorum_of (cc : cluster_config) (p : node_id) : quorum :=
  quorum_with (cc_flex cc) (length (peers_of cc p) + 1).

Lemma filter_neq_length (l : list nat) p :
  In p l -> length (nodup Nat.eq_dec l) <= length (filter (fun x => negb (x =? p)) l) + 1.
Proof.
  intros Hin.
  assert (Hi : incl (nodup Nat.eq_dec l) (p :: filter (fun x => negb (x =? p)) l)).
  { intros x Hx. apply nodup_In in Hx. destruct (Nat.eq_dec x p) as [->|Hne]; [left; reflexivity|].
    right. apply filter_In. split; [exact Hx|]. apply negb_true_iff, Nat.eqb_neq, Hne. }
  apply NoDup_incl_length in Hi; [|apply NoDup_nodup]. cbn in Hi. lia.
Qed.

Lemma filter_length_le {A} (f : A -> bool) l : length (filter f l) <= length l.
Proof. induction l; cbn; [lia|]. destruct (f a); cbn; lia. Qed.

(** Two duplicate-free lists inside a third that are together longer than it
    have a common element. *)
Lemma pigeonhole (A B U : list nat) :
  NoDup A -> NoDup B -> incl A U -> incl B U ->
  length (nodup Nat.eq_dec U) < length A + length B -> exists x, In x A /\ In x B.
Proof.
  intros HA HB IA IB Hlen.
  destruct (existsb (fun x => existsb (Nat.eqb x) B) A) eqn:Hex.
  - apply existsb_exists in Hex. destruct Hex as [x [Hx Hy]]. apply existsb_exists in Hy.
    destruct Hy as [y [Hy Heq]]. apply Nat.eqb_eq in Heq. subst y. exists x; auto.
  - exfalso.
    assert (HAB : NoDup (A ++ B)).
    { clear IA IB Hlen. induction A as [|a A IH]; cbn; [exact HB|].
      cbn in Hex. apply orb_false_iff in Hex. destruct Hex as [Ha Hex].
      inversion HA; subst. constructor; [|apply IH; auto].
      rewrite in_app_iff. intros [?|Hin]; [auto|].
      assert (existsb (Nat.eqb a) B = true) by (apply existsb_exists; exists a; rewrite Nat.eqb_refl; auto).
      congruence. }
    assert (incl (A ++ B) (nodup Nat.eq_dec U)).
    { intros x Hx. apply nodup_In. apply in_app_iff in Hx. destruct Hx; auto. }
    apply NoDup_incl_length in H; auto. rewrite app_length in H. lia.
Qed.

Lemma quorum_overlap cc p p' A B :
  cluster_validate cc = true ->
  In p (cc_nodes cc) -> In p' (cc_nodes cc) ->
  NoDup A -> NoDup B -> incl A (cc_nodes cc) -> incl B (cc_nodes cc) ->
  is_prepare_quorum (quorum_of cc p) (length A) = true ->
  is_accept_quorum (quorum_of cc p') (length B) = true ->
  exists x, In x A /\ In x B.
Proof.
  intros Hv Hp Hp' HA HB IA IB Hq Hq'.
  apply (pigeonhole A B (cc_nodes cc)); auto.
  unfold quorum_of, quorum_with, cluster_validate in *.
  pose proof (filter_neq_length _ _ Hp) as H1. pose proof (filter_neq_length _ _ Hp') as H2.
  fold (peers_of cc p) in H1. fold (peers_of cc p') in H2.
  assert (Hnd : length (nodup Nat.eq_dec (cc_nodes cc)) <= length (cc_nodes cc)).
  { apply NoDup_incl_length; [apply NoDup_nodup|]. intros x Hx. apply nodup_In in Hx. exact Hx. }
  destruct (cc_flex cc) as [f|]; cbn [is_prepare_quorum is_accept_quorum fq_read fq_write] in *.
  - apply andb_true_iff in Hv. destruct Hv as [_ Hv].
    rewrite !andb_true_iff in Hv. destruct Hv as [[[Hv _] _] _].
    apply Nat.ltb_lt in Hv. apply Nat.leb_le in Hq. apply Nat.leb_le in Hq'. lia.
  - apply Nat.leb_le in Hq. apply Nat.leb_le in Hq'.
    set (n := length (nodup Nat.eq_dec (cc_nodes cc))) in *.
    pose proof (Nat.div_mod (length (peers_of cc p) + 1) 2 ltac:(lia)).
    pose proof (Nat.mod_upper_bound (length (peers_of cc p) + 1) 2 ltac:(lia)).
    pose proof (Nat.div_mod (length (peers_of cc p') + 1) 2 ltac:(lia)).
    pose proof (Nat.mod_upper_bound (length (peers_of cc p') + 1) 2 ltac:(lia)).
    lia.
Qed.

(** ** Clocks *)

(** [n] ticks of a clock; the result lists whether each of them fired. *)
Fixpoint ticks (c : lclock) (n : nat) : list bool :=
  match n with
  | 0 => []
  | S n => let '(c', f) := clock_tick c in f :: ticks c' n
  end.

Lemma ticks_spec k : 0 < k -> forall n c i, lc_timeout c = k -> lc_time c < k ->
  i < n -> nth i (ticks c n) false = ((lc_time c + i + 1) mod k =? 0).
Proof.
  intros Hk n. induction n as [|n IH]; intros c i Ht Hl Hi; [lia|].
  cbn [ticks]. unfold clock_tick. rewrite Ht.
  destruct (Nat.eqb_spec (lc_time c + 1) k) as [He|He].
  - destruct i as [|i]; cbn [nth].
    + symmetry. apply Nat.eqb_eq. replace (lc_time c + 0 + 1) with (1 * k) by lia. apply Nat.mod_mul; lia.
    + rewrite IH; cbn; try lia.
      replace (lc_time c + S i + 1) with (i + 1 + 1 * k) by lia.
      rewrite Nat.mod_add by lia. reflexivity.
  - destruct i as [|i]; cbn [nth].
    + symmetry. apply Nat.eqb_neq. rewrite Nat.mod_small by lia. lia.
    + rewrite IH; cbn; try lia. f_equal. f_equal. lia.
Qed.

Lemma ticks_zero n : forall c i, lc_timeout c = 0 -> nth i (ticks c n) false = false.
Proof.
  induction n as [|n IH]; intros c i Ht; cbn [ticks]; [destruct i; reflexivity|].
  unfold clock_tick. rewrite Ht. destruct (Nat.eqb_spec (lc_time c + 1) 0); [lia|].
  destruct i; cbn [nth]; [reflexivity|]. apply IH. reflexivity.
Qed.
