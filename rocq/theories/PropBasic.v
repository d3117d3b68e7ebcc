(** * C14, C15, C20: quorums, ballots, clocks *)
From Coq Require Import List Arith Bool Lia.
Import ListNotations.
From Verif Require Import Types Config Basics.

(** C14.  Two sets of distinct nodes, one accepted by the prepare quorum test of
    a server, the other by the accept quorum test of any server, meet. *)
Theorem C14_read_write_quorums_meet :
  forall cc, cluster_validate cc = true ->
  forall p p', In p (cc_nodes cc) -> In p' (cc_nodes cc) ->
  forall A B : list node_id, NoDup A -> NoDup B -> incl A (cc_nodes cc) -> incl B (cc_nodes cc) ->
  is_prepare_quorum (quorum_with (cc_flex cc) (length (peers_of cc p) + 1)) (length A) = true ->
  is_accept_quorum (quorum_with (cc_flex cc) (length (peers_of cc p') + 1)) (length B) = true ->
  exists x, In x A /\ In x B.
Proof. intros cc Hv p p' Hp Hp' A B; intros. eapply (quorum_overlap cc p p'); eauto. Qed.
Print Assumptions C14_read_write_quorums_meet.

(** Under majority quorums (no flexible quorum) two accept quorums also meet. *)
Theorem C14_majority_write_quorums_meet :
  forall cc, cluster_validate cc = true -> cc_flex cc = None ->
  forall p p', In p (cc_nodes cc) -> In p' (cc_nodes cc) ->
  forall A B : list node_id, NoDup A -> NoDup B -> incl A (cc_nodes cc) -> incl B (cc_nodes cc) ->
  is_accept_quorum (quorum_with (cc_flex cc) (length (peers_of cc p) + 1)) (length A) = true ->
  is_accept_quorum (quorum_with (cc_flex cc) (length (peers_of cc p') + 1)) (length B) = true ->
  exists x, In x A /\ In x B.
Proof.
  intros cc Hv Hf p p' Hp Hp' A B HA HB IA IB Hq Hq'.
  eapply (quorum_overlap cc p p'); eauto. unfold quorum_of. rewrite Hf in *. exact Hq.
Qed.
Print Assumptions C14_majority_write_quorums_meet.

(** Non-vacuity: five nodes with sparse ids and flexible quorums of 4 and 2. *)
Example C14_case :
  let cc := mkCC 7 [3; 9; 4; 12; 20] (Some (mkFlex 4 2)) in
  cluster_validate cc = true /\
  is_prepare_quorum (quorum_with (cc_flex cc) (length (peers_of cc 9) + 1)) (length [3; 9; 4; 12]) = true /\
  is_accept_quorum (quorum_with (cc_flex cc) (length (peers_of cc 4) + 1)) (length [12; 20]) = true.
Proof. vm_compute. auto. Qed.

(** C15.  The comparison is the lexicographic order of (n, priority, pid). *)
Theorem C15_ballot_order_lexicographic :
  forall a b,
    (bcmp a b = Lt <-> (b_n a < b_n b \/ (b_n a = b_n b /\ (b_prio a < b_prio b \/
                          (b_prio a = b_prio b /\ b_pid a < b_pid b))))) /\
    (bcmp a b = Eq <-> (b_n a = b_n b /\ b_prio a = b_prio b /\ b_pid a = b_pid b)) /\
    (bcmp a b = Gt <-> bcmp b a = Lt).
Proof.
  intros a b. pose proof (bcmp_spec a b) as H. pose proof (bcmp_spec b a) as H'.
  unfold bal_lt, bal_same in *.
  destruct (bcmp a b), (bcmp b a); repeat split; intros; try discriminate; try reflexivity; try lia.
Qed.
Print Assumptions C15_ballot_order_lexicographic.

(** Total order: transitive, and any two ballots are comparable. *)
Theorem C15_ballot_order_total :
  (forall a b c, ble a b = true -> ble b c = true -> ble a c = true) /\
  (forall a b, ble a b = true \/ ble b a = true) /\
  (forall a b, blt a b = true <-> (ble a b = true /\ ble b a = false)).
Proof.
  assert (Hs := ble_spec). assert (Hl := blt_spec).
  repeat split; intros.
  - apply Hs. apply Hs in H, H0. unfold bal_lt, bal_same in *. lia.
  - rewrite !Hs. unfold bal_lt, bal_same. lia.
  - apply Hs. apply Hl in H. auto.
  - destruct (ble b a) eqn:Hb; [|reflexivity]. apply Hs in Hb. apply Hl in H.
    unfold bal_lt, bal_same in *. lia.
  - destruct H as [H1 H2]. apply Hl. apply Hs in H1. destruct H1; [assumption|].
    assert (ble b a = true) by (apply Hs; unfold bal_lt, bal_same in *; lia). congruence.
Qed.
Print Assumptions C15_ballot_order_total.

(** Within one configuration, comparing equal is being equal. *)
Theorem C15_ballot_eq_same_config :
  forall a b, b_cfg a = b_cfg b -> (bcmp a b = Eq <-> beq a b = true) /\ (beq a b = true <-> a = b).
Proof.
  intros a b Hc. split; [|apply beq_spec].
  pose proof (bcmp_spec a b) as H. unfold bal_lt, bal_same in H. rewrite beq_spec.
  destruct a, b; cbn in *. split; intros He.
  - rewrite He in H. destruct H as [-> [-> ->]]. subst. reflexivity.
  - inversion He; subst. unfold bcmp; cbn. rewrite !Nat.compare_refl. reflexivity.
Qed.
Print Assumptions C15_ballot_eq_same_config.

(** Across configurations the two notions disagree. *)
Theorem C15_ballot_eq_other_config :
  exists a b, bcmp a b = Eq /\ beq a b = false.
Proof. exists (mkB 1 3 0 2), (mkB 2 3 0 2). vm_compute. auto. Qed.
Print Assumptions C15_ballot_eq_other_config.

(** C20.  A clock with timeout k > 0 fires at the ticks k, 2k, 3k, ... *)
Theorem C20_clock_fires_every_k_ticks :
  forall k n i, 0 < k -> i < n -> nth i (ticks (clock_with k) n) false = true <-> exists m, i + 1 = m * k.
Proof.
  intros k n i Hk Hi. rewrite (ticks_spec k Hk) by (cbn; lia). cbn. rewrite Nat.eqb_eq.
  split.
  - intros H. apply Nat.mod_divides in H; [|lia]. destruct H as [c Hc]. exists c. lia.
  - intros [m Hm]. rewrite Hm. apply Nat.mod_mul. lia.
Qed.
Print Assumptions C20_clock_fires_every_k_ticks.

(** With timeout 0 it never fires, and validation accepts 0 for the batch timer. *)
Theorem C20_zero_timeout_never_fires :
  (forall n i, nth i (ticks (clock_with 0) n) false = false) /\
  (exists cc sc, config_validate cc sc = true /\ sc_flush sc = 0).
Proof.
  split; [intros; apply ticks_zero; reflexivity|].
  exists (mkCC 1 [1; 2; 3] None), (mkSC 1 5 5 10 4 0 0). vm_compute. auto.
Qed.
Print Assumptions C20_zero_timeout_never_fires.

Example C20_case : ticks (clock_with 3) 7 = [false; false; true; false; false; true; false].
Proof. reflexivity. Qed.
