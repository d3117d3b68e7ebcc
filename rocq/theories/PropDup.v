(** * C61: agreement when links also duplicate messages

    The theorems C01, C05 and C07 for runs in which any message other than AcceptSync may be
    copied any number of times, to any place of the queue of its link (Dup.v); and a run
    with one copied AcceptSync in which two servers decide different entries.  Missing, hence
    the names [_partial]: AcceptSync, for which the claim is false. *)
From Coq Require Import List Arith Bool Lia.
Import ListNotations.
From Verif Require Import Types Config MemStore Internal LeaderState SeqPaxos Ble Omni System Basics Ghost GhostOps Inv
  Op SysInv Spec Reads Agree Scen Refute PropAgreement Dup.

Section WithEntry.
Context {E : EntryT}.

(** C61, agreement (as C01). *)
Theorem C61_agreement_with_copies_partial :
  forall cc scs, good_config cc scs ->
  forall l, all_dsteps copies_ok cc (init_sys cc scs) l ->
  forall s1 s2, dmoment cc scs l s1 -> dmoment cc scs l s2 ->
  forall p q i e1 e2, server_reports s1 p i (LDecided e1) -> server_reports s2 q i (LDecided e2) -> e1 = e2.
Proof.
  intros cc scs (Hv & H0 & _) l Hh s1 s2 M1 M2.
  assert (Main : forall l1 l2 s1 s2, all_dsteps copies_ok cc (init_sys cc scs) (l1 ++ l2) -> dreaches cc scs l1 s1 -> dreaches cc scs (l1 ++ l2) s2 ->
    forall p q i e1 e2, server_reports s1 p i (LDecided e1) -> server_reports s2 q i (LDecided e2) -> e1 = e2).
  { clear - Hv H0. intros l1 l2 s1 s2 Hh R1 R2 p q i e1 e2 (o1 & N1 & P1) (o2 & N2 & P2).
    destruct (dtwo_moments cc Hv H0 scs l1 l2 s1 s2 Hh R1 R2) as (G1 & G2 & r1 & r2 & S1 & S2 & L & E1 & E2).
    rewrite <- E1 in N1. rewrite <- E2 in N2.
    destruct (reports_decided cc Hv H0 G1 p o1 i e1 (y_G _ _ _ S1) (node_inv _ _ _ _ _ S1 N1) P1) as (_ & _ & F1).
    destruct (reports_decided cc Hv H0 G2 q o2 i e2 (y_G _ _ _ S2) (node_inv _ _ _ _ _ S2 N2) P2) as (_ & _ & F2).
    pose proof (fixed_agree cc Hv H0 G2 i _ _ (y_G _ _ _ S2) (fixed_gle cc _ _ _ _ L F1) F2). congruence. }
  destruct (dmoments_ordered _ _ _ _ _ _ Hh M1 M2) as (l1 & l2 & Hh' & [[R1 R2]|[R1 R2]]); intros p q i e1 e2 A B.
  - eapply Main; eauto.
  - symmetry. eapply Main; eauto.
Qed.

(** C61, stability (as C05). *)
Theorem C61_decided_stable_with_copies_partial :
  forall cc scs, good_config cc scs ->
  forall l1 l2, all_dsteps copies_ok cc (init_sys cc scs) (l1 ++ l2) ->
  forall s1 s2, dreaches cc scs l1 s1 -> dreaches cc scs (l1 ++ l2) s2 ->
  forall p i e o2, server_reports s1 p i (LDecided e) -> nodes s2 p = Some o2 ->
  (read o2 i = RSome (LDecided e) \/ read o2 i = RSome (LUndecided e) \/
   (i < get_compacted_idx o2 /\
    (read o2 i = RSome (LTrimmed (get_compacted_idx o2)) \/
     exists sn, read o2 i = RSome (LSnapshotted (get_compacted_idx o2) sn)))) /\
  (forall e', reports o2 i (LDecided e') \/ reports o2 i (LUndecided e') -> e' = e).
Proof.
  intros cc scs (Hv & H0 & _) l1 l2 Hh s1 s2 R1 R2 p i e o2 (o1 & N1 & P1) N2.
  destruct (dtwo_moments cc Hv H0 scs l1 l2 s1 s2 Hh R1 R2) as (G1 & G2 & r1 & r2 & S1 & S2 & L & E1 & E2).
  rewrite <- E1 in N1. rewrite <- E2 in N2.
  pose proof (node_inv _ _ _ _ _ S1 N1) as I1. pose proof (node_inv _ _ _ _ _ S2 N2) as I2.
  destruct (decided_later cc Hv H0 G1 G2 p o1 o2 i e (y_G _ _ _ S1) (y_G _ _ _ S2) L I1 I2 P1) as [Hd Hl]. split.
  - destruct Hd as [Ht|Hs].
    + right. right. assert (Hc : get_compacted_idx o2 = ms_trim (i_st (s_is (o_sp o2)))).
      { unfold get_compacted_idx, i_comp. rewrite (co_comp _ _ (n_coh _ _ _ _ I2)). apply (st_comp _ _ _ _ (n_st _ _ _ _ I2)). }
      split; [lia|]. rewrite (read_compacted cc G2 p o2 i I2 Ht). destruct (ms_snap (i_st (s_is (o_sp o2)))) as [sn|]; eauto.
    + rewrite (read_stored cc G2 p o2 i e (y_G _ _ _ S2) I2 Hs). destruct (i <? get_decided_idx o2); auto.
  - intros e' He'. assert (Hs : stored (i_st (s_is (o_sp o2))) i e').
    { destruct He' as [H|H]; destruct (reports_stored _ _ _ H e') as [X _]; auto; [left|right]; reflexivity. }
    destruct (stored_at cc G2 p _ i e' (y_G _ _ _ S2) (n_st _ _ _ _ I2) Hs) as (l & Hgl & Hx). rewrite (Hl l Hgl) in Hx. congruence.
Qed.

(** C61, reconfiguration (as C07). *)
Theorem C61_reconfiguration_agreement_with_copies_partial :
  forall cc scs, good_config cc scs ->
  forall l, all_dsteps copies_ok cc (init_sys cc scs) l ->
  forall s1 s2, dmoment cc scs l s1 -> dmoment cc scs l s2 ->
  forall p q o1 o2 ss1 ss2, nodes s1 p = Some o1 -> nodes s2 q = Some o2 ->
    is_reconfigured o1 = Some ss1 -> is_reconfigured o2 = Some ss2 -> ss1 = ss2.
Proof.
  intros cc scs (Hv & H0 & _) l Hh s1 s2 M1 M2.
  assert (Main : forall l1 l2 s1 s2, all_dsteps copies_ok cc (init_sys cc scs) (l1 ++ l2) -> dreaches cc scs l1 s1 -> dreaches cc scs (l1 ++ l2) s2 ->
    forall p q o1 o2 ss1 ss2, nodes s1 p = Some o1 -> nodes s2 q = Some o2 ->
    is_reconfigured o1 = Some ss1 -> is_reconfigured o2 = Some ss2 -> ss1 = ss2).
  { clear - Hv H0. intros l1 l2 s1 s2 Hh R1 R2 p q o1 o2 ss1 ss2 N1 N2 P1 P2.
    destruct (dtwo_moments cc Hv H0 scs l1 l2 s1 s2 Hh R1 R2) as (G1 & G2 & r1 & r2 & S1 & S2 & L & E1 & E2).
    rewrite <- E1 in N1. rewrite <- E2 in N2.
    destruct (reconf_stop cc Hv H0 G1 p o1 ss1 (y_G _ _ _ S1) (node_inv _ _ _ _ _ S1 N1) P1) as (b1 & m1 & k1 & C1 & M1 & K1 & A1).
    destruct (reconf_stop cc Hv H0 G2 q o2 ss2 (y_G _ _ _ S2) (node_inv _ _ _ _ _ S2 N2) P2) as (b2 & m2 & k2 & C2 & M2 & K2 & A2).
    destruct (le_M _ _ L _ _ M1) as (m1' & M1' & Ll). apply (lle_at _ _ _ _ Ll) in A1.
    eapply (stops_agree cc Hv H0 G2 b1 b2); eauto using chosen_gle. apply (y_G _ _ _ S2). }
  destruct (dmoments_ordered _ _ _ _ _ _ Hh M1 M2) as (l1 & l2 & Hh' & [[R1 R2]|[R1 R2]]); intros p q o1 o2 ss1 ss2 N1 N2 A B.
  - eapply Main; eauto.
  - symmetry. eapply Main; eauto.
Qed.

(** ** Schedules with copies, for the examples *)
Inductive dcmd := C (l : list cmd) | CopyAll | D (d : daction).

(** Every message other than AcceptSync that is on a link between two of [l] is doubled. *)
Definition copy_all (s : sys) (l : list nat) : list daction :=
  flat_map (fun ab => flat_map (fun k => match nth_error (net s (fst ab) (snd ab)) k with
      | Some m => match sync_ballot m with None => [DCopy (fst ab) (snd ab) k k] | Some _ => [] end
      | None => [] end) (rev (seq 0 (length (net s (fst ab) (snd ab)))))) (pairs l).

Fixpoint dacts_of (cc : cluster_config) (s : sys) (l : list dcmd) : list daction :=
  match l with
  | [] => []
  | c :: r =>
      let a := match c with C x => map DAct (acts_of cc s x) | CopyAll => copy_all s (cc_nodes cc) | D d => [d] end in
      match drun cc s a with Some s' => a ++ dacts_of cc s' r | None => a end
  end.

Definition copiesb (s : sys) (d : daction) : bool :=
  match d with
  | DAct a => fifob a && drainedb s a
  | DCopy src dst k _ => match nth_error (net s src dst) k with
      | Some m => match sync_ballot m with Some _ => false | None => true end | None => true end
  end.
Fixpoint copies_run (cc : cluster_config) (s : sys) (l : list daction) : bool :=
  match l with
  | [] => true
  | d :: r => copiesb s d && match exec_daction cc s d with Some s' => copies_run cc s' r | None => true end
  end.
Lemma fifob_syncs s a : fifob a = true -> syncs_in_order s a.
Proof.
  unfold fifob, syncs_in_order. destruct (action_event a) as [[p [c|src k]]|]; auto. intros H. apply Nat.eqb_eq in H. subst. intros j m1 m2 n Hj. lia.
Qed.
Lemma copies_run_ok cc l : forall s, copies_run cc s l = true -> all_dsteps copies_ok cc s l.
Proof.
  induction l as [|d l IH]; cbn; intros s H; auto. apply andb_true_iff in H. destruct H as [H1 H2]. split.
  - destruct d as [a|src dst k i]; cbn in *.
    + apply andb_true_iff in H1. destruct H1. split; [apply fifob_syncs|apply drainedb_ok]; auto.
    + intros m Hm. rewrite Hm in H1. destruct (sync_ballot m); [discriminate|reflexivity].
  - destruct (exec_daction cc s d); auto.
Qed.

(** H1 and H2 for the actions, and any message may be copied. *)
Definition any_copies (s : sys) (d : daction) : Prop := match d with DAct a => h1h2 s a | DCopy _ _ _ _ => True end.

(** H1 and H2 for a concrete run. *)
Definition syncsb (s : sys) (a : action) : bool :=
  match action_event a with
  | Some (p, EDeliver src k) =>
      match nth_error (net s src p) k with
      | Some m => match sync_ballot m with
          | Some _ => forallb (fun m' => match sync_ballot m' with Some _ => false | None => true end) (firstn k (net s src p))
          | None => true end
      | None => true
      end
  | _ => true
  end.
Lemma syncsb_ok s a : syncsb s a = true -> syncs_in_order s a.
Proof.
  unfold syncsb, syncs_in_order. destruct (action_event a) as [[p [c|src k]]|]; auto.
  intros H j m1 m2 n Hj H1 H2 S1 S2. rewrite H2, S2 in H. rewrite forallb_forall in H.
  assert (Hi : In m1 (firstn k (net s src p))).
  { destruct (nth_error_split _ _ H1) as (a1 & a2 & Ha & Hl). rewrite Ha, firstn_app. apply in_app_iff. right.
    destruct (k - length a1) eqn:Hk; [lia|]. left. reflexivity. }
  specialize (H m1 Hi). rewrite S1 in H. discriminate.
Qed.
Fixpoint any_run (cc : cluster_config) (s : sys) (l : list daction) : bool :=
  match l with
  | [] => true
  | d :: r => match d with DAct a => syncsb s a && drainedb s a | DCopy _ _ _ _ => true end &&
      match exec_daction cc s d with Some s' => any_run cc s' r | None => true end
  end.
Lemma any_run_ok cc l : forall s, any_run cc s l = true -> all_dsteps any_copies cc s l.
Proof.
  induction l as [|d l IH]; cbn [any_run all_dsteps]; intros s H; auto. apply andb_true_iff in H. destruct H as [H1 H2]. split.
  - destruct d as [a|src dst k i]; cbn; auto. apply andb_true_iff in H1. destruct H1. split; [apply syncsb_ok|apply drainedb_ok]; auto.
  - destruct (exec_daction cc s d); auto.
Qed.
End WithEntry.

(** ** An AcceptSync that arrives twice

    All of H1 and H2 hold for the actions, and the one AcceptSync of the first round arrives
    twice: the second time after the follower has reconnected. *)
Definition sch_c61 : list dcmd :=
  [ C [ Settle [1;2;3] 2; Call 1 CTryLeader; Fetch [1]; Deliver 1 2; Lose 1 3; Fetch [2];
        Deliver 2 1; Fetch [1] ];               (* AcceptSync (empty log) on the link from 1 to 2 *)
    D (DCopy 1 2 0 1);
    C [ DeliverN 1 2 1;                         (* taken, the copy stays *)
        append 1 11; Fetch [1]; Do (ADo 2 (EDeliver 1 1)); Fetch [2]; Deliver 2 1;  (* 1 decides 11 *)
        Call 2 (CReconnected 1); Fetch [2]; Deliver 2 1; Fetch [1];
        Do (ADo 2 (EDeliver 1 1)); Do (ADo 2 (EDeliver 1 1));  (* 2 in the prepare phase, same ballot *)
        DeliverN 1 2 1;                         (* the copy: the log of 2 is empty again *)
        Lose 1 2; Lose 1 3; Lose 2 1; Lose 3 1;
        Call 3 CTryLeader; Call 3 CTryLeader; Fetch [2;3]; Lose 2 1; Lose 3 1;
        Deliver 3 2; Fetch [2]; Deliver 2 3; Fetch [3]; Deliver 3 2;  (* 3 leads with 2 *)
        append 3 99; Fetch [3]; Deliver 3 2; Fetch [2]; Deliver 2 3 ] ].
Definition acts_c61 := Eval vm_compute in dacts_of cc3 ini sch_c61.

Lemma c61_witness :
  exists s, dreaches cc3 scs acts_c61 s /\
    server_reports s 1 0 (LDecided (11 : @T plain_entry)) /\
    server_reports s 3 0 (LDecided (99 : @T plain_entry)).
Proof.
  unfold dreaches. apply run_ex with (f := fun s => on s 1 (fun o => shows o 0 11) && on s 3 (fun o => shows o 0 99)).
  - vm_compute. reflexivity.
  - intros s H. apply andb_true_iff in H. destruct H. split; apply shows_ok; assumption.
Qed.

Lemma c61_steps : all_dsteps any_copies cc3 ini acts_c61.
Proof. apply any_run_ok. vm_compute. reflexivity. Qed.

(** C61 is false when AcceptSync messages are copied too. *)
Theorem C61_copied_sync_refuted :
  exists cc scs (l : list (@daction plain_entry)) s p q i e1 e2,
    good_config cc scs /\ all_dsteps any_copies cc (init_sys cc scs) l /\
    (exists l1 l2 src dst k j, l = map DAct l1 ++ DCopy src dst k j :: map DAct l2) /\
    dreaches cc scs l s /\
    server_reports s p i (LDecided e1) /\ server_reports s q i (LDecided e2) /\ e1 <> e2.
Proof.
  destruct c61_witness as (s & Hs & H1 & H2). exists cc3, scs, acts_c61, s, 1, 3, 0, 11, 99.
  split; [exact good3|]. split; [exact c61_steps|]. split.
  - assert (H : exists a b, acts_c61 = map DAct a ++ DCopy 1 2 0 1 :: map DAct b).
    { pose (un := fun d : @daction plain_entry => match d with DAct a => a | DCopy _ _ _ _ => AFetch 0 end).
      exists (map un (firstn 25 acts_c61)), (map un (skipn 26 acts_c61)). vm_compute. reflexivity. }
    destruct H as (a & b & H). exists a, b, 1, 2, 0, 1. exact H.
  - split; [exact Hs|]. split; [exact H1|]. split; [exact H2|discriminate].
Qed.

(** ** A case

    Every message other than AcceptSync arrives twice.  (Each copy of a Promise makes the
    leader start the follower anew, so the entries are decided by way of AcceptSync.) *)
Definition sch_c61_case : list (@dcmd plain_entry) :=
  let round := [ C [Fetch [1;2;3]]; CopyAll; C [Deliver 1 2; Deliver 1 3; Deliver 2 1; Deliver 2 3; Deliver 3 1; Deliver 3 2] ] in
  round ++ round ++ [ C [Call 1 CTryLeader] ] ++ round ++ round ++ round ++
  [ C [append 1 11] ] ++ round ++ [ C [append 2 12] ] ++ concat (repeat round 14).
Definition acts_c61_case := Eval vm_compute in dacts_of cc3 ini sch_c61_case.
Definition sys_c61_case := match drun cc3 ini acts_c61_case with Some s => s | None => ini end.
Definition copied (l : list (@daction plain_entry)) : nat :=
  length (filter (fun d => match d with DCopy _ _ _ _ => true | DAct _ => false end) l).
Lemma c61_case_steps : all_dsteps copies_ok cc3 ini acts_c61_case.
Proof. apply copies_run_ok. vm_compute. reflexivity. Qed.
Lemma c61_case_reach : dreaches cc3 scs acts_c61_case sys_c61_case.
Proof. vm_compute. reflexivity. Qed.
Example C61_case :
  good_config cc3 scs /\ all_dsteps copies_ok cc3 (init_sys cc3 scs) acts_c61_case /\
  dmoment cc3 scs acts_c61_case sys_c61_case /\ copied acts_c61_case = 50 /\
  server_reports sys_c61_case 1 0 (LDecided (11 : @T plain_entry)) /\ server_reports sys_c61_case 3 0 (LDecided (11 : @T plain_entry)) /\
  server_reports sys_c61_case 2 1 (LDecided (12 : @T plain_entry)).
Proof.
  split; [exact good3|]. split; [exact c61_case_steps|].
  split; [exists acts_c61_case, []; split; [symmetry; apply app_nil_r|exact c61_case_reach]|].
  split; [vm_compute; reflexivity|]. split; [|split]; apply shows_ok; vm_compute; reflexivity.
Qed.

Print Assumptions C61_agreement_with_copies_partial.
Print Assumptions C61_decided_stable_with_copies_partial.
Print Assumptions C61_reconfiguration_agreement_with_copies_partial.
Print Assumptions C61_copied_sync_refuted.
