(** * C44: no panics without compaction *)
From Coq Require Import List Arith Bool Lia.
Import ListNotations.
From Verif Require Import Types Config MemStore Internal LeaderState SeqPaxos Ble Omni System Basics Scen Spec Refute PropAgreement Local Frame PropLocal NoPanic.

Section WithEntry.
Context {E : EntryT}.

Definition compaction_call (c : call) : Prop := match c with CTrim _ | CSnapshot _ _ => True | _ => False end.
Definition reconfiguration_call (c : call) : Prop := match c with CReconfigure _ _ => True | _ => False end.
(** The application makes only calls that satisfy [P]. *)
Definition only_calls (P : call -> Prop) (l : list action) : Prop :=
  forall a p c, In a l -> action_event a = Some (p, ECall c) -> P c.
(** The stop sign [ss] was given to [reconfigure] at some server. *)
Definition reconfigure_called (l : list action) (ss : stopsign) : Prop :=
  exists a p, In a l /\ action_event a = Some (p, ECall (CReconfigure (ss_cfg ss) (ss_meta ss))).

Lemma quiet_of (SP : stopsign -> Prop) l : only_calls (fun c => ~ compaction_call c /\ forall c0 m, c = CReconfigure c0 m -> SP (mkSS c0 m)) l -> Forall (quiet_action SP) l.
Proof.
  intros H. apply Forall_forall. intros a Ha. unfold quiet_action. destruct (action_event a) as [[p ev]|] eqn:He; [|exact I]. destruct ev as [c|]; [|exact I].
  destruct (H a p c Ha He) as [H1 H2]. destruct c; cbn in H1; auto.
Qed.

(** C44.  With any delivery order, losses, crashes and restarts: as long as nobody calls trim or
    snapshot, every call and every message handled by a server returns. *)
Theorem C44_no_panic :
  use_snapshots = false ->
  forall cc scs l s, good_config cc scs -> only_calls (fun c => ~ compaction_call c) l -> moment cc scs l s ->
  forall p o ev c, nodes s p = Some o -> event_call s p ev = Some c -> (forall c0, ev = ECall c0 -> ~ compaction_call c0) ->
  exists o' r, exec o c = Ok (o', r).
Proof.
  intros Hus cc scs l s Hg Hl Hm p o ev c Ho Hc Hev.
  assert (HQ : QS (fun _ => True) cc s).
  { apply (quiet_moment Hus _ cc scs l); auto. apply quiet_of. intros a q c0 Ha He. split; [eapply Hl; eauto|auto]. }
  destruct (qs_node _ _ _ HQ _ _ Ho) as [Hp Hq]. destruct (quiet_exec Hus _ cc p o c Hp Hq) as (o' & r & Hx & _); eauto.
  eapply event_quiet; eauto. intros a Ha. unfold quiet_action. rewrite Ha. destruct ev as [c0|]; [|exact I]. specialize (Hev c0 eq_refl). destruct c0; cbn in Hev; auto.
Qed.

(** If nobody calls reconfigure either, reading never panics, whatever the range. *)
Theorem C44_reads_no_panic :
  use_snapshots = false ->
  forall cc scs l s, good_config cc scs -> only_calls (fun c => ~ compaction_call c /\ ~ reconfiguration_call c) l -> moment cc scs l s ->
  forall p o, nodes s p = Some o ->
  (forall lo hi, read_entries o lo hi <> RPanic) /\ (forall i, read o i <> RPanic) /\ (forall from, read_decided_suffix o from <> RPanic).
Proof.
  intros Hus cc scs l s Hg Hl Hm p o Ho.
  assert (HQ : QS (fun _ => False) cc s).
  { apply (quiet_moment Hus _ cc scs l); auto. apply quiet_of. intros a q c0 Ha He. destruct (Hl a q c0 Ha He) as [H1 H2]. split; auto. intros c1 m ->. apply H2. exact I. }
  destruct (qs_node _ _ _ HQ _ _ Ho) as [_ Hq]. pose proof (cm_is _ _ _ (qt_cm _ _ _ _ Hq)) as [C1 C2 _].
  assert (Hno : i_ss (s_is (o_sp o)) = None). { change (i_ss (s_is (rest o))) with (i_ss (s_is (o_sp o))) in C2. destruct (i_ss (s_is (o_sp o))); [contradiction|auto]. }
  assert (Htr : ms_trim (i_st (s_is (o_sp o))) = 0) by apply C1.
  assert (Hread : forall from to, create_read_log_entries (s_is (o_sp o)) from to <> None).
  { intros from to. unfold create_read_log_entries, ms_get_entries. rewrite Htr. unfold sub_chk. cbn [Nat.leb]. discriminate. }
  assert (Hall : forall lo hi, i_read (s_is (o_sp o)) lo hi <> None).
  { intros lo hi. unfold i_read. cbn zeta. destruct (_ =? 0); [discriminate|]. unfold get_entry_type. rewrite Hno.
    repeat match goal with
    | |- context [if ?b then _ else _] => destruct b
    | |- context [match create_read_log_entries ?a ?b ?c with _ => _ end] => let H := fresh in pose proof (Hread b c) as H; destruct (create_read_log_entries a b c); [|contradiction]
    end; discriminate. }
  split; [|split].
  - intros lo hi. unfold read_entries. specialize (Hall lo hi). destruct (i_read _ lo hi) as [[|]|]; cbn; congruence || discriminate.
  - intros i. unfold read. specialize (Hall (Included i) (Excluded (i + 1))). destruct (i_read _ _ _) as [[v|]|]; [destruct (rev v)| |]; congruence || discriminate.
  - intros from. unfold read_decided_suffix, i_read_decided_suffix. destruct (_ <? _); [|discriminate]. specialize (Hall (Included from) (Excluded (i_dec (s_is (o_sp o))))). destruct (i_read _ _ _) as [[|]|]; cbn; congruence || discriminate.
Qed.

(** The stop signs of the logs were given to reconfigure. *)
Theorem C44_stop_sign_was_proposed_partial :
  use_snapshots = false ->
  forall cc scs l s, good_config cc scs -> only_calls (fun c => ~ compaction_call c) l -> reaches cc scs l s ->
  forall p o ss, nodes s p = Some o -> ms_ss (storage o) = Some ss -> reconfigure_called l ss.
Proof.
  intros Hus cc scs l s Hg Hl Hm p o ss Ho Hss.
  assert (HQ : QS (reconfigure_called l) cc s).
  { eapply (quiet_moment Hus _ cc scs l); eauto; [|exists l, []; split; [symmetry; apply app_nil_r|exact Hm]].
    apply Forall_forall. intros a Ha. unfold quiet_action. destruct (action_event a) as [[q [c|]]|] eqn:He; auto. pose proof (Hl a q c Ha He) as Hn. destruct c; cbn in Hn; auto. exists a, q. auto. }
  destruct (qs_node _ _ _ HQ _ _ Ho) as [_ Hq]. pose proof (cm_is _ _ _ (qt_cm _ _ _ _ Hq)) as [[_ C1] _ _]. change (i_st (s_is (rest o))) with (storage o) in C1. rewrite Hss in C1. exact C1.
Qed.
End WithEntry.
Print Assumptions C44_no_panic.
Print Assumptions C44_reads_no_panic.
Print Assumptions C44_stop_sign_was_proposed_partial.

(** ** The run of PropAgreement.v as a case: elections, appends, a crash, a lost leader *)
Section Case.
Local Existing Instance plain.

Lemma calls_ok (P : @call plain -> Prop) (t : @call plain -> bool) l : (forall c, t c = true -> P c) ->
  forallb (fun a => match action_event a with Some (_, ECall c) => t c | _ => true end) l = true -> only_calls P l.
Proof. intros Ht H a p c Ha He. rewrite forallb_forall in H. specialize (H a Ha). rewrite He in H. auto. Qed.
Definition calmb (c : @call plain) : bool := match c with CTrim _ | CSnapshot _ _ | CReconfigure _ _ => false | _ => true end.
Lemma moment_self cc0 scs0 l (s : @sys plain) : reaches cc0 scs0 l s -> moment cc0 scs0 l s.
Proof. intros H. exists l, []. split; [symmetry; apply app_nil_r|exact H]. Qed.
Lemma some_ex {B} (o : option B) : (match o with Some _ => true | None => false end) = true -> exists x, o = Some x.
Proof. destruct o; [eauto|discriminate]. Qed.
Example C44_case :
  @use_snapshots plain = false /\ good_config cc3 scs /\
  only_calls (fun c => ~ compaction_call c /\ ~ reconfiguration_call c) (acts_case1 ++ acts_case2) /\
  moment cc3 scs (acts_case1 ++ acts_case2) sys_case2 /\
  (exists o, nodes sys_case2 3 = Some o) /\
  obs sys_case2 3 (fun o => (get_decided_idx o, read_entries o (Included 3) (Excluded 1))) = Some (4, RSome []).
Proof.
  split; [reflexivity|]. split; [exact good3|]. split.
  { apply (calls_ok _ calmb); [|vm_compute; reflexivity]. intros []; cbn; intros; try discriminate; tauto. }
  split; [apply moment_self; exact case_reach2|]. split; [apply some_ex; vm_compute; reflexivity|vm_compute; reflexivity].
Qed.
End Case.
