(** * Claims that do not hold of the code

    Each theorem exhibits one execution of the cluster model, given by an explicit
    list of actions of Refute.v, in which the English claim of properties.jsonl is
    violated.  The configurations are accepted by [validate] at every server. *)
From Coq Require Import List Arith Bool Lia.
Import ListNotations.
From Verif Require Import Types Config MemStore Internal LeaderState SeqPaxos Ble Omni System Scen Spec Refute.

(** C02: with FIFO links but outgoing messages fetched at arbitrary times, two
    servers show different decided entries at the same index. *)
Theorem C02_agreement_any_fetch_times_refuted :
  exists (E : EntryT) cc scs acts s p q i e e',
    good_config cc scs /\ Forall fifo acts /\ reaches cc scs acts s /\
    server_reports s p i (LDecided e) /\ server_reports s q i (LDecided e') /\ e <> e'.
Proof.
  destruct c02_witness as [s [Hr [H1 H2]]].
  exists plain, cc3, scs, acts_c02, s, 1, 2, 1, 12, 13.
  split; [apply good3|]. split; [exact c02_fifo|].
  repeat (split; [assumption|]). discriminate.
Qed.
Print Assumptions C02_agreement_any_fetch_times_refuted.

(** C03: with links that reorder, although outgoing messages are drained as H2 asks. *)
Theorem C03_agreement_reordering_refuted :
  exists (E : EntryT) cc scs acts s p q i e e',
    good_config cc scs /\ all_steps drained cc (init_sys cc scs) acts /\ reaches cc scs acts s /\
    server_reports s p i (LDecided e) /\ server_reports s q i (LDecided e') /\ e <> e'.
Proof.
  destruct c03_witness as [s [Hr [H1 H2]]].
  exists plain, cc3, scs, acts_c03, s, 1, 3, 0, 11, 99.
  split; [apply good3|]. split; [exact c03_drained|].
  repeat (split; [assumption|]). discriminate.
Qed.
Print Assumptions C03_agreement_reordering_refuted.

(** C06: handling one message makes the decided index of a running server smaller. *)
Theorem C06_decided_monotone_refuted :
  exists (E : EntryT) cc scs acts s src s' p o o',
    good_config cc scs /\ Forall fifo acts /\ all_steps drained cc (init_sys cc scs) acts /\
    reaches cc scs acts s /\ exec_action cc s (ADo p (EDeliver src 0)) = Some s' /\
    nodes s p = Some o /\ nodes s' p = Some o' /\ get_decided_idx o' < get_decided_idx o.
Proof.
  destruct c06_witness as [s [s' [o [o' [Hr [He [Hn [Hn' [Hd Hd']]]]]]]]]. destruct c06_steps as [Hf Hdr].
  exists plain, cc3, scs, acts_c06, s, 3, s', 1, o, o'.
  split; [apply good3|]. repeat (split; [assumption|]). rewrite Hd, Hd'. lia.
Qed.
Print Assumptions C06_decided_monotone_refuted.

(** C08: [is_reconfigured] goes back from [Some] to [None] at a server that never crashed. *)
Theorem C08_is_reconfigured_stable_refuted :
  exists (E : EntryT) cc scs acts acts' s s' p o o' ss,
    good_config cc scs /\ Forall fifo (acts ++ acts') /\
    all_steps drained cc (init_sys cc scs) (acts ++ acts') /\
    reaches cc scs acts s /\ run cc s acts' = Some s' /\
    nodes s p = Some o /\ nodes s' p = Some o' /\
    is_reconfigured o = Some ss /\ is_reconfigured o' = None /\
    (forall p ev j sc, ~ In (ACrash p ev j sc) (acts ++ acts')).
Proof.
  destruct c08_witness as [s [s' [o [o' [ss [Hr [Hr' [Hn [Hn' [H1 H2]]]]]]]]]]. destruct c08_steps as [Hf Hdr].
  exists plain, cc3, scs, acts_c08, acts_c08', s, s', 2, o, o', ss.
  split; [apply good3|]. repeat (split; [assumption|]).
  intros p ev j sc Hin.
  assert (Hb : forallb (fun a => match a with ACrash _ _ _ _ => false | _ => true end) (acts_c08 ++ acts_c08') = true)
    by (vm_compute; reflexivity).
  rewrite forallb_forall in Hb. specialize (Hb _ Hin). discriminate.
Qed.
Print Assumptions C08_is_reconfigured_stable_refuted.

(** C22: an empty range panics. *)
Theorem C22_empty_range_refuted :
  exists (E : EntryT) cc scs acts s p o k,
    good_config cc scs /\ reaches cc scs acts s /\ nodes s p = Some o /\
    read_entries o (Included k) (Excluded k) = RPanic.
Proof.
  destruct c22_witness as [s [o [Hr [Hn H]]]].
  exists plain, cc3, scs, acts_c08, s, 1, o, 1. split; [apply good3|]. auto.
Qed.
Print Assumptions C22_empty_range_refuted.

(** C24: every server of the cluster has decided up to index 2, and the leader refuses
    to trim 2. *)
Theorem C24_trim_sparse_pids_refuted :
  exists (E : EntryT) cc scs acts s p o idx,
    good_config cc scs /\ reaches cc scs acts s /\ nodes s p = Some o /\
    get_current_leader o = Some (p, true) /\
    (forall q, In q (cc_nodes cc) -> exists oq, nodes s q = Some oq /\ get_decided_idx oq = idx) /\
    exists o', exec o (CTrim (Some idx)) = Ok (o', RCompact (Some (NotAllDecided 0))).
Proof.
  destruct c24_witness as [s [o1 [o2 [o4 [Hr [H1 [H2 [H4 [D1 [D2 [D4 [Hl He]]]]]]]]]]]].
  exists plain, cc_sparse, scs, acts_c24, s, 1, o1, 2.
  split; [apply good_sparse|]. repeat (split; [assumption|]). split.
  - intros q Hq. cbn [In cc_nodes cc_sparse] in Hq. destruct Hq as [<-|[<-|[<-|[]]]]; eauto.
  - destruct (exec o1 (CTrim (Some 2))) as [[o' r]|]; [|destruct He]. subst. eauto.
Qed.
Print Assumptions C24_trim_sparse_pids_refuted.

(** C25: the only compaction of the run is one successful trim; later a server panics
    while handling a protocol message. *)
Theorem C25_trim_then_panic_refuted :
  exists (E : EntryT) cc scs acts s p src,
    good_config cc scs /\ Forall fifo acts /\ all_steps drained cc (init_sys cc scs) acts /\
    reaches cc scs acts s /\
    filter is_compaction acts = [ADo 1 (ECall (CTrim (Some 2)))] /\
    exists o m rest pan, nodes s p = Some o /\ net s src p = m :: rest /\ exec o (CHandle m) = Panic pan.
Proof.
  destruct c25_witness as [s [Hr Hp]]. destruct c25_steps as [Hf Hd].
  exists plain, cc3, scs, acts_c25, s, 1, 3.
  split; [apply good3|]. repeat (split; [assumption|]). split; [exact c25_only_trim|].
  apply panics_deliver. exact Hp.
Qed.
Print Assumptions C25_trim_then_panic_refuted.

Lemma list_entry_law : @snapshot_law lsnap.
Proof. split; [cbn; eauto|]. cbn. intros a b sa sb Ha Hb. injection Ha as <-. injection Hb as <-. reflexivity. Qed.

(** C27: server q shows the decided entries 0, 1, 2; server p shows a snapshot up to
    index 3 that does not represent them, although the snapshot type satisfies the law
    that merging the snapshots of two lists gives the snapshot of their concatenation. *)
Theorem C27_snapshot_sync_refuted :
  exists (E : EntryT) cc scs acts s p q o o' es k sn,
    snapshot_law /\
    good_config cc scs /\ Forall fifo acts /\ all_steps drained cc (init_sys cc scs) acts /\
    reaches cc scs acts s /\ nodes s q = Some o' /\ nodes s p = Some o /\
    read_decided_suffix o' 0 = RSome (map LDecided es) /\ length es = k /\
    read o 0 = RSome (LSnapshotted k sn) /\ s_create es <> Some sn.
Proof.
  destruct c27_witness as [s [o2 [o3 [Hr [H2 [H3 [Ha Hb]]]]]]]. destruct c27_steps as [Hf Hd].
  exists lsnap, cc3, scs, acts_c27, s, 3, 2, o3, o2, [11; 12; 13], 3, [12; 13].
  split; [exact list_entry_law|]. split; [apply good3|]. repeat (split; [assumption|]).
  split; [reflexivity|]. split; [assumption|]. cbn. discriminate.
Qed.
Print Assumptions C27_snapshot_sync_refuted.

(** C28: the same with one local snapshot followed by one trim at the leader. *)
Theorem C28_trim_after_snapshot_refuted :
  exists (E : EntryT) cc scs acts s p q o o' es k sn,
    snapshot_law /\
    good_config cc scs /\ Forall fifo acts /\ all_steps drained cc (init_sys cc scs) acts /\
    reaches cc scs acts s /\ nodes s q = Some o' /\ nodes s p = Some o /\
    read_decided_suffix o' 0 = RSome (map LDecided es) /\ length es = k /\
    read o 0 = RSome (LSnapshotted k sn) /\ s_create es <> Some sn.
Proof.
  destruct c28_witness as [s [o2 [o3 [Hr [H2 [H3 [Ha Hb]]]]]]]. destruct c28_steps as [Hf Hd].
  exists lsnap, cc3, scs, acts_c28, s, 1, 2, o2, o3, [11; 12], 2, [11].
  split; [exact list_entry_law|]. split; [apply good3|]. repeat (split; [assumption|]).
  split; [reflexivity|]. split; [assumption|]. cbn. discriminate.
Qed.
Print Assumptions C28_trim_after_snapshot_refuted.

(** C29: restarting a server from its own storage changes what it reports. *)
Theorem C29_restart_changes_report_refuted :
  exists (E : EntryT) cc scs acts s p o o' ss,
    good_config cc scs /\ Forall fifo acts /\ all_steps drained cc (init_sys cc scs) acts /\
    reaches cc scs acts s /\ nodes s p = Some o /\
    build cc (scs p) (i_st (s_is (o_sp o))) = BOk o' /\
    is_reconfigured o = None /\ is_reconfigured o' = Some ss /\
    i_acc (s_is (o_sp o)) <> i_acc (s_is (o_sp o')).
Proof.
  destruct c29_witness as [s [o [o' [Hr [Hn [Hb [H1 [H2 H3]]]]]]]]. destruct c08_steps as [Hf Hd].
  exists plain, cc3, scs, (acts_c08 ++ acts_c08'), s, 2, o, o', (mkSS cc_next None).
  split; [apply good3|]. auto 10.
Qed.
Print Assumptions C29_restart_changes_report_refuted.

(** C39: server 2 has a stop sign to propose, follows leader 1 in the accept phase, and
    all messages have been delivered; nobody has the stop sign in its log. *)
Theorem C39_buffered_stopsign_refuted :
  exists (E : EntryT) cc scs acts s p l o ss,
    good_config cc scs /\ Forall fifo acts /\ all_steps drained cc (init_sys cc scs) acts /\
    reaches cc scs acts s /\ nodes s p = Some o /\ p <> l /\
    get_current_leader o = Some (l, true) /\ s_bss (o_sp o) = Some ss /\ s_out (o_sp o) = [] /\
    (forall a b, In a (cc_nodes cc) -> In b (cc_nodes cc) -> a <> b -> net s a b = []) /\
    (forall q oq, In q (cc_nodes cc) -> nodes s q = Some oq -> i_ss (s_is (o_sp oq)) = None).
Proof.
  destruct c39_witness as [s [o2 [Hr [Hq [Hn [Hl [Hb [Ho Hs]]]]]]]]. destruct c39_steps as [Hf Hd].
  exists plain, cc3, scs, acts_c39, s, 2, 1, o2, (mkSS cc_next None).
  split; [apply good3|]. split; [exact Hf|]. split; [exact Hd|]. split; [exact Hr|]. split; [exact Hn|].
  split; [discriminate|]. split; [exact Hl|]. split; [exact Hb|]. split; [exact Ho|]. split; [|exact Hs].
  intros a b Ha Hb' Hab. unfold quiet in Hq. rewrite forallb_forall in Hq.
  assert (Hin : In (a, b) (pairs [1; 2; 3])).
  { cbn [In cc_nodes cc3] in Ha, Hb'. vm_compute. intuition; subst; intuition; congruence. }
  specialize (Hq _ Hin). cbv beta iota in Hq. destruct (net s a b); [reflexivity|discriminate].
Qed.
Print Assumptions C39_buffered_stopsign_refuted.

(** C40: the leader l has decided the stop sign, p follows it and has accepted the stop
    sign; two resend timeouts later with every message delivered p still does not report
    it as decided.  ([c40_resent] shows the Decide being sent.) *)
Theorem C40_resent_decide_refuted :
  exists (E : EntryT) cc scs acts acts' s s' l p ol op ol' op' ss,
    good_config cc scs /\ Forall fifo (acts ++ acts') /\ reaches cc scs acts s /\
    run cc s acts' = Some s' /\
    nodes s l = Some ol /\ nodes s p = Some op /\ nodes s' l = Some ol' /\ nodes s' p = Some op' /\
    is_reconfigured ol = Some ss /\ i_ss (s_is (o_sp op)) = Some ss /\
    get_current_leader op = Some (l, true) /\
    2 <= length (filter (fun a => match a with ADo q (ECall CTick) => q =? l | _ => false end) acts') /\
    is_reconfigured ol' = Some ss /\ is_reconfigured op' = None.
Proof.
  destruct c40_witness as [s [s' [o1 [o2 [o1' [o2' [ss H]]]]]]].
  destruct H as [Hr [Hr' [H1 [H2 [Ha [Hb [Hc [Hd [Hq [H1' [H2' [He Hf]]]]]]]]]]]].
  exists plain, cc3, scs, (acts_c08 ++ acts_c08'), acts_c40, s, s', 1, 2, o1, o2, o1', o2', ss.
  split; [apply good3|]. split; [rewrite <- app_assoc; exact c40_fifo|].
  repeat (split; [assumption|]). split; [|auto]. vm_compute. lia.
Qed.
Print Assumptions C40_resent_decide_refuted.

(** C41 (second half): the compacted index is larger than the decided index. *)
Theorem C41_compacted_le_decided_refuted :
  exists (E : EntryT) cc scs acts s p o,
    good_config cc scs /\ Forall fifo acts /\ all_steps drained cc (init_sys cc scs) acts /\
    reaches cc scs acts s /\ nodes s p = Some o /\ get_decided_idx o < get_compacted_idx o.
Proof.
  destruct c41_witness as [s [o [Hr [Hn [Hd Hc]]]]]. destruct c41_steps as [Hf Hdr].
  exists lsnap, cc3, scs, acts_c41, s, 1, o.
  split; [apply good3|]. repeat (split; [assumption|]). rewrite Hd, Hc. lia.
Qed.
Print Assumptions C41_compacted_le_decided_refuted.

(** C37 (second half): a validated configuration that cannot be built. *)
Theorem C37_validated_builds_refuted :
  exists (E : EntryT) cc sc,
    cluster_validate cc = true /\ config_validate cc sc = true /\ build cc sc ms_default = BPanic.
Proof.
  exists plain, (mkCC 1 [1; 1] None), (mkSC 1 50 1 10 1 20 0). vm_compute. auto.
Qed.
Print Assumptions C37_validated_builds_refuted.
