(** * C59: where panics can happen with snapshots *)
From Coq Require Import List Arith Bool Lia.
Import ListNotations.
From Verif Require Import Types Config MemStore Internal LeaderState SeqPaxos Ble Omni System Basics Scen Spec Refute PropAgreement Local Frame PropLocal PropNoPanic.
From Verif Require SnapPanic.

Section WithEntry.
Context {E : EntryT}.

(** The functions of the entry type for snapshots always return. *)
Definition snapshots_work : Prop := (forall es, s_create es <> None) /\ (forall a b, s_merge a b <> None).

(** Entries up to [d], a stop sign possibly being the last of them, end below index [k]. *)
Definition ends_below (d k : nat) (ss : option stopsign) : Prop := d < k \/ (d = k /\ 0 < k /\ ss <> None).
Definition carries_snapshot (sy : option log_sync) : Prop := exists x, sy = Some x /\ sy_snap x <> None.

(** Answering [m] needs a part of the log that server [o] no longer has.  A Prepare: if it names
    an index below the own compacted index, or, for entry types with snapshots, if the own decided
    entries end below the own compacted index.  An AcceptSync: if it starts below the own compacted
    index, or is a difference to decided entries that end below it.  For a Promise it
    depends on the other promises: the own log is compacted, or will be because one of the
    promises so far brings a snapshot. *)
Definition out_of_reach (o : omni) (m : pmsg) : Prop :=
  let k := get_compacted_idx o in
  let ss := ms_ss (storage o) in
  match m with
  | MPrepare _ d _ a => (use_snapshots = false /\ (d < k \/ a < k)) \/ (use_snapshots = true /\ ends_below (get_decided_idx o) k ss)
  | MPromise p => 0 < k \/ carries_snapshot (l_maxsync (s_ls (o_sp o))) \/ carries_snapshot (pr_sync p)
  | MAcceptSync _ _ d sy => sy_idx sy < k \/ (exists x, sy_snap sy = Some (Delta x)) /\ ends_below d k ss
  | _ => False
  end.

(** C59, partial: that snapshots never lead to a panic is refuted below.  What holds in every
    schedule, with any calls of trim, snapshot and reconfigure: only the handling of a Prepare, a
    Promise or an AcceptSync panics, and only under the conditions above. *)
Theorem C59_panics_only_out_of_reach_partial :
  snapshots_work ->
  forall cc scs l s, good_config cc scs -> moment cc scs l s ->
  forall p o ev c, nodes s p = Some o -> event_call s p ev = Some c ->
  (exists o' r, exec o c = Ok (o', r)) \/
  (exists from to m, c = CHandle (MsgSP (mkPM from to m)) /\ out_of_reach o m).
Proof.
  intros [Hcr Hmg] cc scs l s Hg Hm p o ev c Ho Hc.
  pose proof (SnapPanic.quiet_moment Hcr Hmg cc scs l s Hg Hm) as HQ.
  destruct (SnapPanic.qs_node _ _ HQ _ _ Ho) as [Hp Hq]. destruct (SnapPanic.quiet_exec Hcr Hmg cc p o c Hp Hq) as [X _]; [eapply SnapPanic.event_quiet; eauto|].
  pose proof (lc_is _ _ _ _ (SnapPanic.qt_loc _ _ _ Hq)) as HI.
  assert (Hss : i_ss (s_is (o_sp o)) = ms_ss (storage o)). { change (i_ss (s_is (rest o)) = ms_ss (i_st (s_is (rest o)))). unfold i_ss. apply (h_ss _ (il_coh _ _ _ HI)). }
  destruct (exec o c) as [[o' r]|]; [left; eauto|]. right. destruct c as [e| | | | | | | |[m|m]]; try contradiction. destruct m as [from to m]. exists from, to, m. split; [reflexivity|].
  unfold out_of_reach, ends_below. cbn zeta. rewrite <- Hss. destruct m; exact X.
Qed.

(** The application's own calls and ticks return, at every server and moment. *)
Corollary C59_calls_no_panic :
  snapshots_work ->
  forall cc scs l s, good_config cc scs -> moment cc scs l s ->
  forall p o c, nodes s p = Some o -> event_call s p (ECall c) = Some c -> exists o' r, exec o c = Ok (o', r).
Proof.
  intros Hw cc scs l s Hg Hm p o c Ho Hc. destruct (C59_panics_only_out_of_reach_partial Hw cc scs l s Hg Hm p o (ECall c) c Ho Hc) as [X|(from & to & m & -> & _)]; auto. discriminate.
Qed.

(** A server that has compacted nothing returns from every message that is not a Promise. *)
Corollary C59_uncompacted_servers_partial :
  snapshots_work ->
  forall cc scs l s, good_config cc scs -> moment cc scs l s ->
  forall p o ev c, nodes s p = Some o -> event_call s p ev = Some c -> get_compacted_idx o = 0 ->
  (forall from to pr, c = CHandle (MsgSP (mkPM from to (MPromise pr))) -> ~ carries_snapshot (l_maxsync (s_ls (o_sp o))) /\ ~ carries_snapshot (pr_sync pr)) ->
  exists o' r, exec o c = Ok (o', r).
Proof.
  intros Hw cc scs l s Hg Hm p o ev c Ho Hc Hk Hp. destruct (C59_panics_only_out_of_reach_partial Hw cc scs l s Hg Hm p o ev c Ho Hc) as [X|(from & to & m & -> & X)]; auto.
  unfold out_of_reach, ends_below in X. cbn zeta in X. rewrite Hk in X. destruct m; try contradiction; try lia. destruct (Hp _ _ _ eq_refl). destruct X as [X|[X|X]]; [lia|contradiction|contradiction].
Qed.

(** Nor does reading panic, whatever has been compacted, as long as there is no stop sign. *)
Theorem C59_reads_no_panic :
  snapshots_work ->
  forall cc scs l s, good_config cc scs -> moment cc scs l s ->
  forall p o, nodes s p = Some o -> ms_ss (storage o) = None ->
  (forall lo hi, read_entries o lo hi <> RPanic) /\ (forall i, read o i <> RPanic) /\ (forall from, read_decided_suffix o from <> RPanic).
Proof.
  intros [Hcr Hmg] cc scs l s Hg Hm p o Ho Hss.
  pose proof (SnapPanic.quiet_moment Hcr Hmg cc scs l s Hg Hm) as HQ.
  destruct (SnapPanic.qs_node _ _ HQ _ _ Ho) as [_ Hq]. pose proof (lc_is _ _ _ _ (SnapPanic.qt_loc _ _ _ Hq)) as HI.
  assert (Hno : i_ss (s_is (o_sp o)) = None). { change (i_ss (s_is (rest o)) = None). unfold i_ss. rewrite (h_ss _ (il_coh _ _ _ HI)). exact Hss. }
  assert (Htr : ms_trim (i_st (s_is (o_sp o))) = i_comp (s_is (o_sp o))).
  { change (ms_trim (i_st (s_is (rest o))) = i_comp (s_is (rest o))). unfold i_comp. rewrite (h_comp _ (il_coh _ _ _ HI)). symmetry. apply (il_st _ _ _ HI). }
  assert (Hread : forall from to, i_comp (s_is (o_sp o)) <= from -> i_comp (s_is (o_sp o)) <= to -> create_read_log_entries (s_is (o_sp o)) from to <> None).
  { intros from to H1 H2. unfold create_read_log_entries, ms_get_entries. rewrite Htr. unfold sub_chk. destruct (Nat.leb_spec (i_comp (s_is (o_sp o))) from); [|lia]. destruct (Nat.leb_spec (i_comp (s_is (o_sp o))) to); [|lia]. discriminate. }
  assert (Hall : forall lo hi, i_read (s_is (o_sp o)) lo hi <> None).
  { intros lo hi. unfold i_read. cbn zeta. set (from := match lo with Included i => i | Excluded e => e + 1 | Unbounded => 0 end). set (to := match hi with Included i => i + 1 | Excluded e => e | Unbounded => _ end).
    destruct (Nat.eqb_spec to 0) as [|Hto]; [discriminate|]. unfold get_entry_type. rewrite Hno.
    destruct (Nat.ltb_spec (to - 1) (i_comp (s_is (o_sp o)))) as [|H1]; [discriminate|].
    assert (X : i_comp (s_is (o_sp o)) <= to) by lia.
    destruct (to - 1 + 1 <? i_acc (s_is (o_sp o))); [|destruct (to - 1 + 1 =? i_acc (s_is (o_sp o))); [|discriminate]];
      (destruct (Nat.ltb_spec from (i_comp (s_is (o_sp o)))) as [|H2];
       [pose proof (Hread (i_comp (s_is (o_sp o))) to (le_n _) X) as Y; destruct (create_read_log_entries _ _ _); [discriminate|contradiction]|
        pose proof (Hread from to H2 X) as Y; destruct (from + 1 <? i_acc (s_is (o_sp o))); [|destruct (from + 1 =? i_acc (s_is (o_sp o))); [|discriminate]]; (destruct (create_read_log_entries _ _ _); [discriminate|contradiction])]). }
  split; [|split].
  - intros lo hi. unfold read_entries. specialize (Hall lo hi). destruct (i_read _ lo hi) as [[|]|]; cbn; congruence || discriminate.
  - intros i. unfold read. specialize (Hall (Included i) (Excluded (i + 1))). destruct (i_read _ _ _) as [[v|]|]; [destruct (rev v)| |]; congruence || discriminate.
  - intros from. unfold read_decided_suffix, i_read_decided_suffix. destruct (_ <? _); [|discriminate]. specialize (Hall (Included from) (Excluded (i_dec (s_is (o_sp o))))). destruct (i_read _ _ _) as [[|]|]; cbn; congruence || discriminate.
Qed.
End WithEntry.
Print Assumptions C59_panics_only_out_of_reach_partial.
Print Assumptions C59_calls_no_panic.
Print Assumptions C59_uncompacted_servers_partial.
Print Assumptions C59_reads_no_panic.

(** ** The claim in full is false *)
Section Snap.
Local Existing Instance lsnap.

Lemma lsnap_works : @snapshots_work lsnap.
Proof. split; intros; cbn; discriminate. Qed.
Definition no_compactionb (c : @call lsnap) : bool := match c with CTrim _ | CSnapshot _ _ | CReconfigure _ _ => false | _ => true end.
Definition no_trimb (c : @call lsnap) : bool := match c with CTrim _ | CReconfigure _ _ => false | _ => true end.
Lemma calls_lsnap (P : @call lsnap -> Prop) (t : @call lsnap -> bool) l : (forall c, t c = true -> P c) ->
  forallb (fun a => match action_event a with Some (_, ECall c) => t c | _ => true end) l = true -> only_calls P l.
Proof. intros Ht H a p c Ha He. rewrite forallb_forall in H. specialize (H a Ha). rewrite He in H. auto. Qed.

Lemma no_compaction_ok l : forallb (fun a => match action_event a with Some (_, ECall c) => no_compactionb c | _ => true end) l = true -> only_calls (fun c => ~ compaction_call c /\ ~ reconfiguration_call c) l.
Proof. apply calls_lsnap. intros []; cbn; intros; try discriminate; tauto. Qed.
Lemma no_trim_ok l : forallb (fun a => match action_event a with Some (_, ECall c) => no_trimb c | _ => true end) l = true -> only_calls (fun c => (forall i, c <> CTrim i) /\ ~ reconfiguration_call c) l.
Proof. apply calls_lsnap. intros []; cbn; intros; try discriminate; split; auto; discriminate. Qed.

(** Five servers.  Server 1 leads and decides an entry that 2 and 3 have accepted.  Server 5 asks for
    promises.  Server 1 answers with a snapshot of its decided entry, and then restarts, so that
    server 5 forgets its promise and its decided index, but not its snapshot.  With the promises of
    servers 3 and 4, which know of no decided entry, server 5 has compacted one entry and decided
    none, and cannot synchronise server 4. *)
Definition cc5 := mkCC 1 [1; 2; 3; 4; 5] None.
Definition scs5 (p : nat) := mkSC p 50 1 10 1 20 0.
Definition ini5 := init_sys cc5 scs5.
Lemma good5 : good_config cc5 scs5.
Proof.
  split; [reflexivity|]. split; [cbn; lia|]. intros p Hp. cbn in Hp. destruct Hp as [<-|[<-|[<-|[<-|[<-|[]]]]]]; vm_compute; auto.
Qed.
Definition sch_takeover : list cmd :=
  [ Call 1 CTryLeader; Fetch [1]; Deliver 1 2; Deliver 1 3; Lose 1 4; Lose 1 5; Fetch [2; 3]; Deliver 2 1; Deliver 3 1; Fetch [1]; Deliver 1 2; Deliver 1 3; Fetch [2; 3]; Deliver 2 1; Deliver 3 1;
    append' 1 11; Fetch [1]; Deliver 1 2; Deliver 1 3; Fetch [2; 3]; Deliver 2 1; Deliver 3 1; Fetch [1]; Lose 1 2; Lose 1 3; Lose 1 4; Lose 1 5;
    Call 5 CTryLeader; Call 5 CTryLeader; Fetch [5]; Deliver 5 1; Fetch [1]; Deliver 1 5;
    Do (ACrash 1 (ECall CTick) 0 (scs5 1)); Fetch [1]; Deliver 1 5; Deliver 5 3; Fetch [3; 5]; Deliver 3 5; Fetch [5]; Deliver 5 4; Fetch [4]; Fetch [5]; DeliverN 4 5 1; Fetch [5] ].
Definition acts_takeover := Eval vm_compute in acts_of cc5 ini5 sch_takeover.
(** Three servers, with one call of snapshot: the server of C41 whose compacted index is above its
    decided index cannot answer the Prepare of server 2. *)
Definition sch_after : list cmd := sch_c41 ++ [ Fetch [3]; Lose 3 2; Call 2 CTryLeader; Call 2 CTryLeader; Fetch [2]; Fetch [1] ].
Definition acts_after := Eval vm_compute in acts_of cc3 ini' sch_after.

Lemma panics_spec s p ev : panics s p ev = true -> exists o c tr, nodes s p = Some o /\ event_call s p ev = Some c /\ exec o c = Panic tr.
Proof.
  unfold panics. destruct (nodes s p) as [o|]; [|discriminate]. destruct (event_call s p ev) as [c|]; [|discriminate]. destruct (exec o c) as [|tr] eqn:He; [discriminate|]. eauto 6.
Qed.
Lemma takeover_witness : exists s, run cc5 ini5 acts_takeover = Some s /\ panics s 5 (EDeliver 4 0) = true.
Proof.
  assert (H : match run cc5 ini5 acts_takeover with Some s => panics s 5 (EDeliver 4 0) | None => false end = true) by (vm_compute; reflexivity).
  destruct (run cc5 ini5 acts_takeover) as [s|]; [eauto|discriminate].
Qed.
Lemma after_witness : exists s, run cc3 ini' acts_after = Some s /\ panics s 1 (EDeliver 2 0) = true.
Proof.
  assert (H : match run cc3 ini' acts_after with Some s => panics s 1 (EDeliver 2 0) | None => false end = true) by (vm_compute; reflexivity).
  destruct (run cc3 ini' acts_after) as [s|]; [eauto|discriminate].
Qed.
End Snap.

(** C59 refuted: with an entry type that has snapshots, a server panics though nobody has called
    trim, snapshot or reconfigure, links are FIFO and restarted servers read nothing old. *)
Theorem C59_snapshots_no_panic_refuted :
  exists (E : EntryT) cc scs acts s p o src c tr,
    snapshots_work /\ good_config cc scs /\ Forall fifo acts /\ all_steps drained cc (init_sys cc scs) acts /\
    only_calls (fun c => ~ compaction_call c /\ ~ reconfiguration_call c) acts /\
    reaches cc scs acts s /\ nodes s p = Some o /\ event_call s p (EDeliver src 0) = Some c /\ exec o c = Panic tr.
Proof.
  destruct takeover_witness as (s & Hr & Hp). apply panics_spec in Hp. destruct Hp as (o & c & tr & H1 & H2 & H3).
  exists lsnap, cc5, scs5, acts_takeover, s, 5, o, 4, c, tr. split; [exact lsnap_works|]. split; [exact good5|]. split; [apply fifob_ok; vm_compute; reflexivity|].
  split; [apply drained_run_ok; vm_compute; reflexivity|]. split; [apply no_compaction_ok; vm_compute; reflexivity|]. split; [exact Hr|]. split; [exact H1|]. split; [exact H2|exact H3].
Qed.
Print Assumptions C59_snapshots_no_panic_refuted.

(** The same with three servers and without a crash, after a call of snapshot at one server. *)
Theorem C59_after_a_snapshot_refuted :
  exists (E : EntryT) cc scs acts s p o src c tr,
    snapshots_work /\ good_config cc scs /\ length (cc_nodes cc) = 3 /\ Forall fifo acts /\ all_steps drained cc (init_sys cc scs) acts /\
    only_calls (fun c => (forall i, c <> CTrim i) /\ ~ reconfiguration_call c) acts /\
    (forall q ev j sc, ~ In (ACrash q ev j sc) acts) /\
    reaches cc scs acts s /\ nodes s p = Some o /\ event_call s p (EDeliver src 0) = Some c /\ exec o c = Panic tr.
Proof.
  destruct after_witness as (s & Hr & Hp). apply panics_spec in Hp. destruct Hp as (o & c & tr & H1 & H2 & H3).
  exists lsnap, cc3, scs, acts_after, s, 1, o, 2, c, tr. split; [exact lsnap_works|]. split; [exact good3|]. split; [reflexivity|]. split; [apply fifob_ok; vm_compute; reflexivity|].
  split; [apply drained_run_ok; vm_compute; reflexivity|]. split; [apply no_trim_ok; vm_compute; reflexivity|].
  split; [|split; [exact Hr|]; split; [exact H1|]; split; [exact H2|exact H3]]. assert (X : forallb (fun a => match a with ACrash _ _ _ _ => false | _ => true end) acts_after = true) by (vm_compute; reflexivity).
  intros q ev j sc Hin. rewrite forallb_forall in X. specialize (X _ Hin). discriminate.
Qed.
Print Assumptions C59_after_a_snapshot_refuted.

(** ** Case *)
Section Case.
Local Existing Instance lsnap.
(** In the run of the second refutation server 1 has compacted one entry and decided none.  It
    panics at the Prepare of server 2, which is out of its reach, while the same Prepare is handled by
    server 3, and a snapshot or a read at server 1 returns. *)
Definition sys_after := match run cc3 ini' acts_after with Some s => s | None => ini' end.
Example C59_case :
  @snapshots_work lsnap /\ good_config cc3 scs /\ reaches cc3 scs acts_after sys_after /\
  map (fun p => obs sys_after p (fun o => (get_compacted_idx o, get_decided_idx o, ms_ss (storage o)))) [1; 2; 3] = [Some (1, 0, None); Some (0, 0, None); Some (0, 0, None)] /\
  map (fun p => match net sys_after 2 p with MsgSP m :: _ => (match pm_msg m with MPrepare _ d _ a => Some (d, a) | _ => None end, panics sys_after p (EDeliver 2 0)) | _ => (None, false) end) [1; 3] = [(Some (0, 1), true); (Some (0, 1), false)] /\
  panics sys_after 1 (ECall (CSnapshot None true)) = false /\ event_call sys_after 1 (ECall (CSnapshot None true)) <> None /\
  obs sys_after 1 (fun o => read o 0) <> None.
Proof.
  split; [exact lsnap_works|]. split; [exact good3|]. split; [unfold reaches, sys_after; destruct after_witness as (s & Hs & _); fold ini'; rewrite Hs; reflexivity|].
  repeat split; vm_compute; try reflexivity; discriminate.
Qed.
End Case.
