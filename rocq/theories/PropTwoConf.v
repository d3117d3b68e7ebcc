(** * C63: messages of another configuration

    A cluster is reconfigured, and messages of the old configuration reach the new instances
    (or the other way round).  The new cluster can then decide different entries, and it can
    decide entries and stop signs that nobody proposed to it.  Agreement holds in both clusters
    if the messages that get across satisfy [may_cross] (TwoConf.v).  Missing, hence the names
    [_partial]: all messages, for which the claim is false. *)
From Coq Require Import List Arith Bool Lia.
Import ListNotations.
From Verif Require Import Types Config MemStore Internal LeaderState SeqPaxos Ble Omni System Basics Ghost GhostOps Inv
  Op SysInv Spec Reads Agree Scen Refute PropAgreement TwoConf.
From Verif Require PropDup.

Section WithEntry.
Context {E : EntryT}.

(** Two states of one cluster, one after the other. *)
Lemma later_agree cc G1 G2 s1 s2 : cluster_validate cc = true -> ~ In 0 (cc_nodes cc) -> SysInv cc G1 s1 -> SysInv cc G2 s2 -> gle G1 G2 ->
  forall p q i e1 e2, server_reports s1 p i (LDecided e1) -> server_reports s2 q i (LDecided e2) -> e1 = e2.
Proof.
  intros Hv H0 S1 S2 L p q i e1 e2 (o1 & N1 & P1) (o2 & N2 & P2).
  destruct (reports_decided cc Hv H0 G1 p o1 i e1 (y_G _ _ _ S1) (node_inv _ _ _ _ _ S1 N1) P1) as (_ & _ & F1).
  destruct (reports_decided cc Hv H0 G2 q o2 i e2 (y_G _ _ _ S2) (node_inv _ _ _ _ _ S2 N2) P2) as (_ & _ & F2).
  pose proof (fixed_agree cc Hv H0 G2 i _ _ (y_G _ _ _ S2) (fixed_gle cc _ _ _ _ L F1) F2). congruence.
Qed.

(** C63, agreement in both clusters (as C01). *)
Theorem C63_agreement_partial :
  forall c1 c2 sc1 sc2, good_config c1 sc1 -> good_config c2 sc2 -> cc_id c1 <> cc_id c2 ->
  forall l, all_xsteps crosses_ok c1 c2 (init_duo c1 c2 sc1 sc2) l ->
  forall d1 d2, xmoment c1 c2 sc1 sc2 l d1 -> xmoment c1 c2 sc1 sc2 l d2 ->
  forall p q i e1 e2,
    (server_reports (d_old d1) p i (LDecided e1) -> server_reports (d_old d2) q i (LDecided e2) -> e1 = e2) /\
    (server_reports (d_new d1) p i (LDecided e1) -> server_reports (d_new d2) q i (LDecided e2) -> e1 = e2).
Proof.
  intros c1 c2 sc1 sc2 (Hv1 & Hz1 & _) (Hv2 & Hz2 & _) Hid l Hh d1 d2 M1 M2 p q i e1 e2.
  destruct (xmoments_ordered _ _ _ _ _ _ _ _ Hh M1 M2) as (l1 & l2 & Hh' & [[R1 R2]|[R1 R2]]);
    destruct (xtwo_moments c1 c2 Hv1 Hz1 Hv2 Hz2 Hid sc1 sc2 l1 l2 _ _ Hh' R1 R2) as [(A1 & A2 & SA1 & SA2 & LA) (B1 & B2 & SB1 & SB2 & LB)].
  - split; intros X Y; [exact (later_agree c1 A1 A2 _ _ Hv1 Hz1 SA1 SA2 LA _ _ _ _ _ X Y)|exact (later_agree c2 B1 B2 _ _ Hv2 Hz2 SB1 SB2 LB _ _ _ _ _ X Y)].
  - split; intros X Y; symmetry; [exact (later_agree c1 A1 A2 _ _ Hv1 Hz1 SA1 SA2 LA _ _ _ _ _ Y X)|exact (later_agree c2 B1 B2 _ _ Hv2 Hz2 SB1 SB2 LB _ _ _ _ _ Y X)].
Qed.

(** C63, reconfiguration (as C07): the servers of each cluster agree on its stop sign. *)
Lemma later_stop cc G1 G2 s1 s2 : cluster_validate cc = true -> ~ In 0 (cc_nodes cc) -> SysInv cc G1 s1 -> SysInv cc G2 s2 -> gle G1 G2 ->
  forall p q o1 o2 ss1 ss2, nodes s1 p = Some o1 -> nodes s2 q = Some o2 -> is_reconfigured o1 = Some ss1 -> is_reconfigured o2 = Some ss2 -> ss1 = ss2.
Proof.
  intros Hv H0 S1 S2 L p q o1 o2 ss1 ss2 N1 N2 P1 P2.
  destruct (reconf_stop cc Hv H0 G1 p o1 ss1 (y_G _ _ _ S1) (node_inv _ _ _ _ _ S1 N1) P1) as (b1 & m1 & k1 & C1 & M1 & K1 & A1).
  destruct (reconf_stop cc Hv H0 G2 q o2 ss2 (y_G _ _ _ S2) (node_inv _ _ _ _ _ S2 N2) P2) as (b2 & m2 & k2 & C2 & M2 & K2 & A2).
  destruct (le_M _ _ L _ _ M1) as (m1' & M1' & Ll). apply (lle_at _ _ _ _ Ll) in A1.
  eapply (stops_agree cc Hv H0 G2 b1 b2); eauto using chosen_gle. apply (y_G _ _ _ S2).
Qed.
Theorem C63_reconfiguration_agreement_partial :
  forall c1 c2 sc1 sc2, good_config c1 sc1 -> good_config c2 sc2 -> cc_id c1 <> cc_id c2 ->
  forall l, all_xsteps crosses_ok c1 c2 (init_duo c1 c2 sc1 sc2) l ->
  forall d1 d2, xmoment c1 c2 sc1 sc2 l d1 -> xmoment c1 c2 sc1 sc2 l d2 ->
  forall p q o1 o2 ss1 ss2, is_reconfigured o1 = Some ss1 -> is_reconfigured o2 = Some ss2 ->
    (nodes (d_old d1) p = Some o1 -> nodes (d_old d2) q = Some o2 -> ss1 = ss2) /\
    (nodes (d_new d1) p = Some o1 -> nodes (d_new d2) q = Some o2 -> ss1 = ss2).
Proof.
  intros c1 c2 sc1 sc2 (Hv1 & Hz1 & _) (Hv2 & Hz2 & _) Hid l Hh d1 d2 M1 M2 p q o1 o2 ss1 ss2 I1 I2.
  destruct (xmoments_ordered _ _ _ _ _ _ _ _ Hh M1 M2) as (l1 & l2 & Hh' & [[R1 R2]|[R1 R2]]);
    destruct (xtwo_moments c1 c2 Hv1 Hz1 Hv2 Hz2 Hid sc1 sc2 l1 l2 _ _ Hh' R1 R2) as [(A1 & A2 & SA1 & SA2 & LA) (B1 & B2 & SB1 & SB2 & LB)].
  - split; intros X Y; [exact (later_stop c1 A1 A2 _ _ Hv1 Hz1 SA1 SA2 LA _ _ _ _ _ _ X Y I1 I2)|exact (later_stop c2 B1 B2 _ _ Hv2 Hz2 SB1 SB2 LB _ _ _ _ _ _ X Y I1 I2)].
  - split; intros X Y; symmetry; [exact (later_stop c1 A1 A2 _ _ Hv1 Hz1 SA1 SA2 LA _ _ _ _ _ _ Y X I2 I1)|exact (later_stop c2 B1 B2 _ _ Hv2 Hz2 SB1 SB2 LB _ _ _ _ _ _ Y X I2 I1)].
Qed.

(** ** The refutations *)

(** Every server of the old cluster shows the decided stop sign that starts the configuration [c2]. *)
Definition all_reconfigured (c1 c2 : cluster_config) (s : sys) : Prop :=
  forall p, In p (cc_nodes c1) -> exists o meta, nodes s p = Some o /\ is_reconfigured o = Some (mkSS c2 meta).

(** A proposal call. *)
Definition proposes (a : action) : bool :=
  match action_event a with Some (_, ECall (CAppend _)) | Some (_, ECall (CReconfigure _ _)) => true | _ => false end.
End WithEntry.

Section Plain.
Local Existing Instance plain.
Definition cn3 := mkCC 2 [1; 2; 3] None.
Definition ini_n := init_sys cn3 scs.
Lemma goodn3 : good_config cn3 scs.
Proof.
  split; [reflexivity|]. split; [cbn; lia|].
  intros p Hp. cbn in Hp. destruct Hp as [<-|[<-|[<-|[]]]]; vm_compute; auto.
Qed.

(** The old cluster.  Server 1 leads and decides 7 with 2; then 3 joins, but the AcceptSync for it
    is late.  Server 2 takes over, and all three decide the stop sign. *)
Definition sch_c63o : list cmd :=
  [ Settle [1;2;3] 2; Call 1 CTryLeader; Fetch [1]; Deliver 1 2; Fetch [2]; Deliver 2 1; Fetch [1]; Deliver 1 2;
    append 1 7; Fetch [1]; Deliver 1 2; Fetch [2]; Deliver 2 1;
    DeliverN 1 3 1; Fetch [3]; Deliver 3 1; Fetch [1]; Deliver 1 2;  (* AcceptSync on the link from 1 to 3 *)
    Call 2 CTryLeader; Call 2 CTryLeader; Fetch [2]; Deliver 2 1; Deliver 2 3; Fetch [1;3]; Deliver 1 2; Deliver 3 2;
    Fetch [2]; Deliver 2 1; Deliver 2 3;
    Call 2 (CReconfigure cn3 None); Fetch [2]; Deliver 2 1; Deliver 2 3; Fetch [1;3]; Deliver 1 2; Deliver 3 2;
    Fetch [2]; Deliver 2 1; Deliver 2 3 ].
Definition acts_c63o := Eval vm_compute in acts_of cc3 ini sch_c63o.
Definition sys_c63o := match run cc3 ini acts_c63o with Some s => s | None => ini end.
(** The new cluster.  Server 1 leads, decides 9 with 2, and has the promise of 3. *)
Definition sch_c63n : list cmd :=
  [ Settle [1;2;3] 2; Call 1 CTryLeader; Fetch [1]; Deliver 1 2; Deliver 1 3; Fetch [2]; Deliver 2 1; Fetch [1]; Deliver 1 2;
    append 1 9; Fetch [1]; Deliver 1 2; Fetch [2]; Deliver 2 1 ].
Definition acts_c63n := Eval vm_compute in acts_of cn3 ini_n sch_c63n.
Definition end_of (l : list xaction) : duo :=
  match xrun cc3 cn3 (init_duo cc3 cn3 scs scs) l with Some d => d | None => init_duo cc3 cn3 scs scs end.
Definition steps_c63 : list xaction := map XOld acts_c63o ++ map XNew acts_c63n ++ [XToNew 1 3 0 None].
Definition duo_c63 := end_of steps_c63.

Lemma reconfb_ok s l c : forallb (fun p => on s p (fun o => match is_reconfigured o with Some (mkSS (mkCC i ns None) None) => (i =? cc_id c) && (length ns =? length (cc_nodes c)) && forallb (fun ab => fst ab =? snd ab) (combine ns (cc_nodes c)) | _ => false end)) l = true ->
  cc_flex c = None -> forall p, In p l -> exists o meta, nodes s p = Some o /\ is_reconfigured o = Some (mkSS c meta).
Proof.
  intros H Hf p Hp. rewrite forallb_forall in H. specialize (H p Hp). unfold on in H. destruct (nodes s p) as [o|]; [|discriminate]. exists o, None. split; [reflexivity|].
  destruct (is_reconfigured o) as [[[i ns [f|]] [mt|]]|]; try discriminate. rewrite !andb_true_iff, !Nat.eqb_eq in H. destruct H as [[H1 H2] H3].
  assert (ns = cc_nodes c).
  { destruct c as [ci cns cf]. cbn in *. clear - H2 H3. revert cns H2 H3. induction ns as [|n ns IH]; intros [|c cns] H2 H3; try discriminate; auto. cbn in *. apply andb_true_iff in H3. destruct H3 as [H3 H4]. apply Nat.eqb_eq in H3. f_equal; auto. }
  destruct c as [ci cns cf]. cbn in *. subst. reflexivity.
Qed.
Lemma c63o_reconf : all_reconfigured cc3 cn3 sys_c63o.
Proof. intros p Hp. apply (reconfb_ok sys_c63o (cc_nodes cc3) cn3); [vm_compute; reflexivity|reflexivity|exact Hp]. Qed.
Lemma c63o_reach : reaches cc3 scs acts_c63o sys_c63o.
Proof. vm_compute. reflexivity. Qed.
Lemma h1h2_run cc l : forall s : sys, forallb fifob l = true -> drained_run cc s l = true -> all_steps h1h2 cc s l.
Proof.
  induction l as [|a l IH]; cbn; intros s H1 H2; auto. apply andb_true_iff in H1, H2. destruct H1 as [H1 H1'], H2 as [H2 H2'].
  split; [split; [apply PropDup.fifob_syncs|apply drainedb_ok]; auto|]. destruct (exec_action cc s a); auto.
Qed.

(** C63 is false: links deliver in order, all old servers show the decided stop sign before anything
    happens in the new cluster, and one late message makes two new servers show different entries. *)
Theorem C63_late_message_refuted :
  exists c1 c2 scs l1 l2 src dst s1 d p q i e1 e2,
    good_config c1 scs /\ good_config c2 scs /\ cc_id c1 < cc_id c2 /\
    all_steps h1h2 c1 (init_sys c1 scs) l1 /\ Forall fifo l1 /\ reaches c1 scs l1 s1 /\ all_reconfigured c1 c2 s1 /\
    all_steps h1h2 c2 (init_sys c2 scs) l2 /\ Forall fifo l2 /\
    xreaches c1 c2 scs scs (map XOld l1 ++ map XNew l2 ++ [XToNew src dst 0 None]) d /\
    server_reports (d_new d) p i (LDecided e1) /\ server_reports (d_new d) q i (LDecided e2) /\ e1 <> e2.
Proof.
  exists cc3, cn3, scs, acts_c63o, acts_c63n, 1, 3, sys_c63o, duo_c63, 1, 3, 0, 9, 7.
  split; [exact good3|]. split; [exact goodn3|]. split; [cbn; lia|].
  split; [apply h1h2_run; vm_compute; reflexivity|]. split; [apply fifob_ok; vm_compute; reflexivity|]. split; [exact c63o_reach|]. split; [exact c63o_reconf|].
  split; [apply h1h2_run; vm_compute; reflexivity|]. split; [apply fifob_ok; vm_compute; reflexivity|].
  split; [vm_compute; reflexivity|]. split; [apply shows_ok; vm_compute; reflexivity|]. split; [apply shows_ok; vm_compute; reflexivity|discriminate].
Qed.

(** ** Proposals

    Server 2 gives an entry and a reconfiguration to the old cluster; both are forwarded to server 1
    and are late.  They reach the new instance of server 1. *)
Definition sch_c63p : list cmd :=
  [ Settle [1;2;3] 2; Call 1 CTryLeader; Settle [1;2;3] 4; append 2 8; Call 2 (CReconfigure cn3 None); Fetch [2];
    Call 1 (CReconfigure cn3 None); Fetch [1]; Deliver 1 2; Deliver 1 3; Fetch [3]; Deliver 3 1; Fetch [1]; Deliver 1 2; Deliver 1 3 ].
Definition acts_c63p := Eval vm_compute in acts_of cc3 ini sch_c63p.
Definition sys_c63p := match run cc3 ini acts_c63p with Some s => s | None => ini end.
Definition sch_c63q : list cmd := [ Settle [1;2;3] 2; Call 1 CTryLeader; Settle [1;2;3] 4 ].
Definition acts_c63q := Eval vm_compute in acts_of cn3 ini_n sch_c63q.
Definition steps_c63q := map XOld acts_c63p ++ map XNew acts_c63q ++ [XToNew 2 1 0 None; XToNew 2 1 0 None].
Definition acts_c63r := Eval vm_compute in acts_of cn3 (d_new (end_of steps_c63q)) [ Settle [1;2;3] 4 ].
Definition steps_c63p := steps_c63q ++ map XNew acts_c63r.
Definition duo_c63p := end_of steps_c63p.

(** C63 is false also for proposals: no server of the new cluster was asked to append or to
    reconfigure, and yet it decides an entry and a stop sign (here for its own configuration), so that
    it takes no proposal any more. *)
Theorem C63_only_own_proposals_refuted :
  exists c1 c2 scs l1 l2 l3 s1 d e,
    good_config c1 scs /\ good_config c2 scs /\ cc_id c1 < cc_id c2 /\
    all_steps h1h2 c1 (init_sys c1 scs) l1 /\ Forall fifo l1 /\ reaches c1 scs l1 s1 /\ all_reconfigured c1 c2 s1 /\
    Forall fifo l2 /\ Forall fifo l3 /\ existsb proposes (l2 ++ l3) = false /\
    xreaches c1 c2 scs scs (map XOld l1 ++ map XNew l2 ++ [XToNew 2 1 0 None; XToNew 2 1 0 None] ++ map XNew l3) d /\
    (forall p, In p (cc_nodes c2) -> server_reports (d_new d) p 0 (LDecided e)) /\
    all_reconfigured c2 c2 (d_new d).
Proof.
  exists cc3, cn3, scs, acts_c63p, acts_c63q, acts_c63r, sys_c63p, duo_c63p, 8.
  split; [exact good3|]. split; [exact goodn3|]. split; [cbn; lia|].
  split; [apply h1h2_run; vm_compute; reflexivity|]. split; [apply fifob_ok; vm_compute; reflexivity|]. split; [vm_compute; reflexivity|].
  split. { intros p Hp. apply (reconfb_ok sys_c63p (cc_nodes cc3) cn3); [vm_compute; reflexivity|reflexivity|exact Hp]. }
  split; [apply fifob_ok; vm_compute; reflexivity|]. split; [apply fifob_ok; vm_compute; reflexivity|]. split; [vm_compute; reflexivity|].
  split; [vm_compute; reflexivity|]. split.
  - intros p Hp. destruct Hp as [<-|[<-|[<-|[]]]]; apply shows_ok; vm_compute; reflexivity.
  - intros p Hp. apply (reconfb_ok (d_new duo_c63p) (cc_nodes cn3) cn3); [vm_compute; reflexivity|reflexivity|exact Hp].
Qed.

(** ** A case for the theorems

    After the same old run, the new leader has a ballot with number 2 before the late AcceptSync
    arrives at server 3, which answers it with NotAccepted; this answer goes to the old instance of 1. *)
Definition may_crossb (o : omni) (m : message) : bool :=
  match m with
  | MsgSP m =>
      match pm_msg m with
      | MPrepare n _ _ _ => blt n (get_promise o)
      | MAcceptSync n _ _ _ | MAcceptDecide n _ _ _ | MAcceptStopSign n _ _ | MDecide n _ _ =>
          let b := get_promise o in negb ((b_n n =? b_n b) && (b_prio n =? b_prio b) && (b_pid n =? b_pid b))
      | MCompaction (CmpTrim _) => false
      | _ => true
      end
  | MsgBLE _ => true
  end.
Lemma may_crossb_ok o m : may_crossb o m = true -> may_cross o m.
Proof.
  assert (X : forall n, negb ((b_n n =? b_n (get_promise o)) && (b_prio n =? b_prio (get_promise o)) && (b_pid n =? b_pid (get_promise o))) = true -> ~ same_rank n (get_promise o)).
  { intros n H (A1 & A2 & A3). rewrite A1, A2, A3, !Nat.eqb_refl in H. discriminate. }
  unfold may_crossb, may_cross. destruct m as [m|m]; auto. destruct (pm_msg m); auto; try (match goal with c : compaction |- _ => destruct c; [discriminate|auto] end); intros H; apply X; exact H.
Qed.
Definition crossesb (d : duo) (x : xaction) : bool :=
  match x with
  | XOld a => fifob a && drainedb (d_old d) a
  | XNew a => fifob a && drainedb (d_new d) a
  | XToNew src dst k _ => match nth_error (net (d_old d) src dst) k, nodes (d_new d) dst with Some m, Some o => may_crossb o m | _, _ => true end
  | XToOld src dst k _ => match nth_error (net (d_new d) src dst) k, nodes (d_old d) dst with Some m, Some o => may_crossb o m | _, _ => true end
  end.
Fixpoint crosses_run (c1 c2 : cluster_config) (d : duo) (l : list xaction) : bool :=
  match l with
  | [] => true
  | x :: r => crossesb d x && match exec_x c1 c2 d x with Some d' => crosses_run c1 c2 d' r | None => true end
  end.
Lemma crosses_run_ok c1 c2 l : forall d, crosses_run c1 c2 d l = true -> all_xsteps crosses_ok c1 c2 d l.
Proof.
  induction l as [|x l IH]; intros d H; [exact I|]. cbn [crosses_run all_xsteps] in *. apply andb_true_iff in H. destruct H as [H1 H2]. split.
  - destruct x as [a|a|src dst k i|src dst k i]; cbn [crossesb crosses_ok] in *.
    + apply andb_true_iff in H1. destruct H1. split; [apply PropDup.fifob_syncs|apply drainedb_ok]; auto.
    + apply andb_true_iff in H1. destruct H1. split; [apply PropDup.fifob_syncs|apply drainedb_ok]; auto.
    + intros m o Hm Ho. rewrite Hm, Ho in H1. apply may_crossb_ok. exact H1.
    + intros m o Hm Ho. rewrite Hm, Ho in H1. apply may_crossb_ok. exact H1.
  - destruct (exec_x c1 c2 d x); auto.
Qed.

Definition sch_c63s : list cmd := [ Settle [1;2;3] 2; Call 1 CTryLeader; Call 1 CTryLeader; Settle [1;2;3] 4 ].
Definition acts_c63s := Eval vm_compute in acts_of cn3 ini_n sch_c63s.
Definition steps_c63s := map XOld acts_c63o ++ map XNew acts_c63s ++ [XToNew 1 3 0 None].
Definition acts_c63t := Eval vm_compute in acts_of cn3 (d_new (end_of steps_c63s)) [ Fetch [3] ].
Definition steps_c63t := steps_c63s ++ map XNew acts_c63t.
Definition steps_c63u := steps_c63t ++ [XToOld 3 1 0 None].
Definition acts_c63v := Eval vm_compute in acts_of cn3 (d_new (end_of steps_c63u)) [ append 1 9; Settle [1;2;3] 4 ].
Definition steps_c63v := steps_c63u ++ map XNew acts_c63v.
Definition duo_c63v := end_of steps_c63v.
Lemma c63_case_reach : xreaches cc3 cn3 scs scs steps_c63v duo_c63v.
Proof. vm_compute. reflexivity. Qed.
Example C63_case :
  good_config cc3 scs /\ good_config cn3 scs /\ cc_id cc3 <> cc_id cn3 /\
  all_xsteps crosses_ok cc3 cn3 (init_duo cc3 cn3 scs scs) steps_c63v /\ xmoment cc3 cn3 scs scs steps_c63v duo_c63v /\
  server_reports (d_old duo_c63v) 1 0 (LDecided (7 : @T plain_entry)) /\ all_reconfigured cc3 cn3 (d_old duo_c63v) /\
  (forall p, In p [1; 2; 3] -> server_reports (d_new duo_c63v) p 0 (LDecided (9 : @T plain_entry))).
Proof.
  split; [exact good3|]. split; [exact goodn3|]. split; [cbn; lia|].
  split; [apply crosses_run_ok; vm_compute; reflexivity|].
  split; [exists steps_c63v, []; split; [symmetry; apply app_nil_r|exact c63_case_reach]|].
  split; [apply shows_ok; vm_compute; reflexivity|]. split.
  - intros p Hp. apply (reconfb_ok (d_old duo_c63v) (cc_nodes cc3) cn3); [vm_compute; reflexivity|reflexivity|exact Hp].
  - intros p Hp. destruct Hp as [<-|[<-|[<-|[]]]]; apply shows_ok; vm_compute; reflexivity.
Qed.
End Plain.

Print Assumptions C63_agreement_partial.
Print Assumptions C63_reconfiguration_agreement_partial.
Print Assumptions C63_late_message_refuted.
Print Assumptions C63_only_own_proposals_refuted.
