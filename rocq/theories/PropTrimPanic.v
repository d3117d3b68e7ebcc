(** * C25: where panics can happen when trim is the only compaction *)
From Coq Require Import List Arith Bool Lia.
Import ListNotations.
From Verif Require Import Types Config MemStore Internal LeaderState SeqPaxos Ble Omni System Basics Scen Spec Refute PropAgreement Local Frame PropLocal PropNoPanic.
From Verif Require TrimPanic.

Section WithEntry.
Context {E : EntryT}.

Definition snapshot_call (c : call) : Prop := match c with CSnapshot _ _ => True | _ => False end.

(** The message asks a server that has compacted its log up to [k] for entries below [k]: a
    Prepare names a smaller decided or accepted index, an AcceptSync starts at a smaller index.
    For a Promise it depends on the promises that came before. *)
Definition reaches_below (k : nat) (m : pmsg) : Prop :=
  match m with
  | MPrepare _ d _ a => d < k \/ a < k
  | MPromise _ => 0 < k
  | MAcceptSync _ _ _ sy => sy_idx sy < k
  | _ => False
  end.

(** C25, partial: the claim that no panic follows a trim is refuted
    (C25_trim_then_panic_refuted).  What holds in every schedule without snapshots: a call of the
    application never panics, and a message panics only if it is a Prepare, a Promise or an
    AcceptSync that reaches below the index up to which the receiver has compacted its own log. *)
Theorem C25_panics_only_across_a_trim_partial :
  use_snapshots = false ->
  forall cc scs l s, good_config cc scs -> only_calls (fun c => ~ snapshot_call c) l -> moment cc scs l s ->
  forall p o ev c, nodes s p = Some o -> event_call s p ev = Some c -> (forall c0, ev = ECall c0 -> ~ snapshot_call c0) ->
  (exists o' r, exec o c = Ok (o', r)) \/
  (exists from to m, c = CHandle (MsgSP (mkPM from to m)) /\ reaches_below (get_compacted_idx o) m).
Proof.
  intros Hus cc scs l s Hg Hl Hm p o ev c Ho Hc Hev.
  assert (HQ : TrimPanic.QS cc s).
  { apply (TrimPanic.quiet_moment Hus cc scs l); auto. apply Forall_forall. intros a Ha. unfold TrimPanic.quiet_action. destruct (action_event a) as [[q [c0|]]|] eqn:He; auto.
    pose proof (Hl a q c0 Ha He) as Hn. destruct c0; cbn in Hn; auto. }
  destruct (TrimPanic.qs_node _ _ HQ _ _ Ho) as [Hp Hq]. destruct (TrimPanic.quiet_exec Hus cc p o c Hp Hq) as [X _].
  { eapply TrimPanic.event_quiet; eauto. intros a Ha. unfold TrimPanic.quiet_action. rewrite Ha. destruct ev as [c0|]; [|exact I]. specialize (Hev c0 eq_refl). destruct c0; cbn in Hev; auto. }
  destruct (exec o c) as [[o' r]|]; [left; eauto|]. right. destruct c as [e| | | | | | | |[m|m]]; try contradiction. destruct m as [from to m]. exists from, to, m. split; [reflexivity|].
  destruct m; exact X.
Qed.

(** A server that has not compacted its log does not panic, whatever the others have trimmed. *)
Corollary C25_untrimmed_servers_do_not_panic_partial :
  use_snapshots = false ->
  forall cc scs l s, good_config cc scs -> only_calls (fun c => ~ snapshot_call c) l -> moment cc scs l s ->
  forall p o ev c, nodes s p = Some o -> event_call s p ev = Some c -> (forall c0, ev = ECall c0 -> ~ snapshot_call c0) ->
  get_compacted_idx o = 0 -> exists o' r, exec o c = Ok (o', r).
Proof.
  intros Hus cc scs l s Hg Hl Hm p o ev c Ho Hc Hev Hk. destruct (C25_panics_only_across_a_trim_partial Hus cc scs l s Hg Hl Hm p o ev c Ho Hc Hev) as [X|(from & to & m & -> & X)]; auto.
  rewrite Hk in X. destruct m; cbn in X; lia.
Qed.

(** Reading does not panic after trims either, as long as there is no stop sign. *)
Theorem C25_reads_no_panic_partial :
  use_snapshots = false ->
  forall cc scs l s, good_config cc scs -> only_calls (fun c => ~ snapshot_call c) l -> moment cc scs l s ->
  forall p o, nodes s p = Some o -> ms_ss (storage o) = None ->
  (forall lo hi, read_entries o lo hi <> RPanic) /\ (forall i, read o i <> RPanic) /\ (forall from, read_decided_suffix o from <> RPanic).
Proof.
  intros Hus cc scs l s Hg Hl Hm p o Ho Hss.
  assert (HQ : TrimPanic.QS cc s).
  { apply (TrimPanic.quiet_moment Hus cc scs l); auto. apply Forall_forall. intros a Ha. unfold TrimPanic.quiet_action. destruct (action_event a) as [[q [c0|]]|] eqn:He; auto.
    pose proof (Hl a q c0 Ha He) as Hn. destruct c0; cbn in Hn; auto. }
  destruct (TrimPanic.qs_node _ _ HQ _ _ Ho) as [_ Hq]. pose proof (lc_is _ _ _ _ (TrimPanic.qt_loc _ _ _ Hq)) as HI.
  assert (Hno : i_ss (s_is (o_sp o)) = None). { change (i_ss (s_is (rest o)) = None). unfold i_ss. rewrite (h_ss _ (il_coh _ _ _ HI)). exact Hss. }
  assert (Htr : ms_trim (i_st (s_is (o_sp o))) = i_comp (s_is (o_sp o))).
  { change (ms_trim (i_st (s_is (rest o))) = i_comp (s_is (rest o))). unfold i_comp. rewrite (h_comp _ (il_coh _ _ _ HI)). symmetry. apply (il_st _ _ _ HI). }
  assert (Hread : forall from to, i_comp (s_is (o_sp o)) <= from -> i_comp (s_is (o_sp o)) <= to -> create_read_log_entries (s_is (o_sp o)) from to <> None).
  { intros from to H1 H2. unfold create_read_log_entries, ms_get_entries. rewrite Htr. unfold sub_chk. destruct (Nat.leb_spec (i_comp (s_is (o_sp o))) from); [|lia]. destruct (Nat.leb_spec (i_comp (s_is (o_sp o))) to); [|lia]. discriminate. }
  assert (Hall : forall lo hi, i_read (s_is (o_sp o)) lo hi <> None).
  { intros lo hi. unfold i_read. cbn zeta. set (from := match lo with Included i => i | Excluded e => e + 1 | Unbounded => 0 end). set (to := match hi with Included i => i + 1 | Excluded e => e | Unbounded => _ end).
    destruct (Nat.eqb_spec to 0) as [|Hto]; [discriminate|]. unfold get_entry_type. rewrite Hno.
    destruct (Nat.ltb_spec (to - 1) (i_comp (s_is (o_sp o)))) as [|H1]; [discriminate|].
    assert (X : i_comp (s_is (o_sp o)) <= to) by lia.
    destruct (to - 1 + 1 <? i_acc (s_is (o_sp o))); [|destruct (to - 1 + 1 =? i_acc (s_is (o_sp o))); [|discriminate]];
      (destruct (Nat.ltb_spec from (i_comp (s_is (o_sp o)))) as [|H2];
       [pose proof (Hread (i_comp (s_is (o_sp o))) to (le_n _) X) as Y; destruct (create_read_log_entries _ _ _); [discriminate|contradiction]|
        pose proof (Hread from to H2 X) as Y; destruct (from + 1 <? i_acc (s_is (o_sp o))); [|destruct (from + 1 =? i_acc (s_is (o_sp o))); [|discriminate]]; (destruct (create_read_log_entries _ _ _); [discriminate|contradiction])]). }
  split; [|split].
  - intros lo hi. unfold read_entries. specialize (Hall lo hi). destruct (i_read _ lo hi) as [[|]|]; cbn; congruence || discriminate.
  - intros i. unfold read. specialize (Hall (Included i) (Excluded (i + 1))). destruct (i_read _ _ _) as [[v|]|]; [destruct (rev v)| |]; congruence || discriminate.
  - intros from. unfold read_decided_suffix, i_read_decided_suffix. destruct (_ <? _); [|discriminate]. specialize (Hall (Included from) (Excluded (i_dec (s_is (o_sp o))))). destruct (i_read _ _ _) as [[|]|]; cbn; congruence || discriminate.
Qed.
End WithEntry.
Print Assumptions C25_panics_only_across_a_trim_partial.
Print Assumptions C25_untrimmed_servers_do_not_panic_partial.
Print Assumptions C25_reads_no_panic_partial.

(** ** Cases *)
Section Case.
Local Existing Instance plain.

Definition no_snapshotb (c : @call plain) : bool := match c with CSnapshot _ _ => false | _ => true end.
Lemma no_snapshot_ok l : forallb (fun a => match action_event a with Some (_, ECall c) => no_snapshotb c | _ => true end) l = true -> only_calls (fun c => ~ snapshot_call c) l.
Proof. apply (calls_ok _ no_snapshotb). intros []; cbn; intros; try discriminate; tauto. Qed.
(** The run of PropAgreement.v with a trim up to index 2 at all three servers, and the run of the
    refutation: server 1 has compacted up to 2 and panics at the next message from server 3,
    a Promise. *)
Definition sys_c25 := match run cc3 ini acts_c25 with Some s => s | None => ini end.
Example C25_case :
  @use_snapshots plain = false /\ good_config cc3 scs /\
  only_calls (fun c => ~ snapshot_call c) ((acts_case1 ++ acts_case2) ++ acts_case3) /\ moment cc3 scs ((acts_case1 ++ acts_case2) ++ acts_case3) sys_case3 /\
  map (fun p => obs sys_case3 p get_compacted_idx) [1; 2; 3] = [Some 2; Some 2; Some 2] /\
  only_calls (fun c => ~ snapshot_call c) acts_c25 /\ reaches cc3 scs acts_c25 sys_c25 /\
  obs sys_c25 1 get_compacted_idx = Some 2 /\
  match obs sys_c25 1 (fun o => match net sys_c25 3 1 with MsgSP m :: _ => (match pm_msg m with MPromise p => Some (pr_dec p) | _ => None end, match exec o (CHandle (MsgSP m)) with Panic _ => true | _ => false end) | _ => (None, false) end) with
  | Some (Some d, true) => True | _ => False end.
Proof.
  split; [reflexivity|]. split; [exact good3|]. split; [apply no_snapshot_ok; vm_compute; reflexivity|]. split; [exact moment_case3|]. split; [vm_compute; reflexivity|].
  split; [apply no_snapshot_ok; vm_compute; reflexivity|]. split; [apply is_some_eta; vm_compute; reflexivity|]. split; vm_compute; [reflexivity|exact I].
Qed.
End Case.
