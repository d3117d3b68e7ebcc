(** * What a restart leaves unchanged

    The part of C29 about what the application reads. *)
From Coq Require Import List Arith Bool Lia.
Import ListNotations.
From Verif Require Import Types Config MemStore Internal LeaderState SeqPaxos Ble Omni System Spec Basics Scen Refute
  PropRefuted PropAgreement Reads Local PropLocal PropRead.

Section WithEntry.
Context {E : EntryT}.

(** All that the reads look at. *)
Lemma reads_ext (o o' : omni) :
  ms_log (storage o') = ms_log (storage o) -> ms_trim (storage o') = ms_trim (storage o) -> ms_snap (storage o') = ms_snap (storage o) ->
  i_dec (s_is (o_sp o')) = i_dec (s_is (o_sp o)) -> i_acc (s_is (o_sp o')) = i_acc (s_is (o_sp o)) ->
  i_comp (s_is (o_sp o')) = i_comp (s_is (o_sp o)) -> i_ss (s_is (o_sp o')) = i_ss (s_is (o_sp o)) ->
  (forall lo hi, read_entries o' lo hi = read_entries o lo hi) /\ (forall i, read o' i = read o i) /\
  (forall i, read_decided_suffix o' i = read_decided_suffix o i) /\ is_reconfigured o' = is_reconfigured o.
Proof.
  unfold storage, read_entries, read, read_decided_suffix, is_reconfigured, sp_is_reconfigured, i_read_decided_suffix.
  set (s' := s_is (o_sp o')). set (s := s_is (o_sp o)). clearbody s s'. intros H1 H2 H3 H4 H5 H6 H7.
  assert (Hd : stopsign_is_decided (i_ca s') = stopsign_is_decided (i_ca s)).
  { unfold stopsign_is_decided. fold (i_ss s) (i_ss s') (i_dec s) (i_dec s') (i_acc s) (i_acc s'). rewrite H4, H5, H7. reflexivity. }
  assert (Hr : forall lo hi, i_read s' lo hi = i_read s lo hi).
  { intros lo hi. unfold i_read, get_entry_type, create_read_log_entries, create_compacted_entry, ms_get_entries.
    rewrite H1, H2, H3, H4, H5, H6, H7, Hd. reflexivity. }
  split; [intros; rewrite Hr; reflexivity|]. split; [intros; rewrite Hr; reflexivity|].
  split; [intros; rewrite H4, Hr; reflexivity|]. rewrite H7, Hd. reflexivity.
Qed.

(** C29: a restart of a server whose accepted index is the end of its stored log changes nothing
    that the application can read. *)
Theorem C29_restart_keeps_reads_partial :
  forall o, server_state o -> matched o ->
  forall cc sc o', build cc sc (storage o) = BOk o' ->
    (forall lo hi, read_entries o' lo hi = read_entries o lo hi) /\ (forall i, read o' i = read o i) /\
    (forall i, read_decided_suffix o' i = read_decided_suffix o i) /\ is_reconfigured o' = is_reconfigured o.
Proof.
  intros o Ho Hm cc sc o' Hb. destruct (C29_restart_keeps_indexes_partial o cc sc o' Ho Hb) as (_ & X1 & X2 & X3).
  pose proof (C21_matched_after_build cc sc (storage o) o' Hb) as Hm'. unfold matched in *. unfold get_decided_idx, get_compacted_idx in *.
  unfold build in Hb. destruct (config_validate cc sc); [|discriminate]. unfold sp_with in Hb. destruct (peers_of cc (sc_pid sc)); [discriminate|].
  apply reads_ext; auto; try (destruct (ms_prom (storage o)); injection Hb as <-; reflexivity).
  rewrite Hm, Hm'. destruct (ms_prom (storage o)); injection Hb as <-; reflexivity.
Qed.

(** C29 in clusters: true of every server without a stop sign. *)
Theorem C29_restart_keeps_reads_in_clusters_partial :
  forall cc scs, good_config cc scs ->
  forall l, all_steps h1h2 cc (init_sys cc scs) l -> forall s, reaches cc scs l s ->
  forall p o, nodes s p = Some o -> ms_ss (storage o) = None ->
  forall sc o', build cc sc (storage o) = BOk o' ->
    (forall lo hi, read_entries o' lo hi = read_entries o lo hi) /\ (forall i, read o' i = read o i) /\
    (forall i, read_decided_suffix o' i = read_decided_suffix o i) /\ is_reconfigured o' = is_reconfigured o.
Proof.
  intros cc scs Hg l Hh s R p o N Hss sc o' Hb. eapply C29_restart_keeps_reads_partial; eauto.
  - eapply cluster_server_state; eauto.
  - apply (C21_matched_in_clusters cc scs Hg l Hh s R p o N Hss).
Qed.
End WithEntry.
Print Assumptions C29_restart_keeps_reads_partial.
Print Assumptions C29_restart_keeps_reads_in_clusters_partial.

(** ** Concrete case: server 3 of the run of PropAgreement.v, with 4 decided entries; and server 1
    after it has trimmed and taken over the stop sign. *)
Section Case.
Local Existing Instance plain.
Example C29_restart_case :
  obs sys_case2 3 (fun o => (ms_ss (storage o), read_entries o (Included 2) (Excluded 4),
    match build cc3 (scs 3) (storage o) with BOk o' => Some (read_entries o' (Included 2) (Excluded 4)) | _ => None end)) =
    Some (None, RSome [LDecided 13; LDecided 14], Some (RSome [LDecided 13; LDecided 14])) /\
  obs sys_case3 1 (fun o => (i_acc (s_is (o_sp o)) =? log_end (storage o), is_reconfigured o,
    match build cc3 (scs 1) (storage o) with BOk o' => Some (is_reconfigured o', read o' 1) | _ => None end)) =
    Some (true, Some (mkSS cc_next None), Some (Some (mkSS cc_next None), RSome (LTrimmed 2))).
Proof. vm_compute. auto. Qed.
End Case.
