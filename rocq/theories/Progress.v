(** * Towards progress: the steps of a takeover, one after the other *)
From Coq Require Import List Arith Bool Lia.
Import ListNotations.
From Verif Require Import Types Config MemStore Internal LeaderState SeqPaxos Ble Omni System Basics Spec Ghost GhostOps Inv Op SysInv Reads Agree PropAgreement Local Frame PropLocal PropCalls PropElect NoPanic PropNoPanic.

Section WithEntry.
Context {E : EntryT}.

(** ** The ballot of the last own prepare phase does not exceed the promise *)

Definition ln (n : ballot) (s : sp) : Prop := l_n (s_ls s) = n.
Definition lnr (n : ballot) (r : res sp) : Prop := match r with Ok s => ln n s | Panic _ => True end.
Definition lnr2 {B} (n : ballot) (r : res (sp * B)) : Prop := match r with Ok (s, _) => ln n s | Panic _ => True end.

Lemma lift_n {B} n s (o : option B) (f : B -> res sp) : (forall b, o = Some b -> lnr n (f b)) -> lnr n (bind (lift s o) f).
Proof. intros Hf. destruct o; cbn; auto. Qed.
Lemma bind_n n (r : res sp) f : lnr n r -> (forall s, ln n s -> lnr n (f s)) -> lnr n (bind r f).
Proof. destruct r; cbn; auto. Qed.
Lemma for_each_n n f l : (forall s p, ln n s -> lnr n (f s p)) -> forall s, ln n s -> lnr n (for_each s l f).
Proof. intros Hf. induction l as [|p l IH]; cbn; intros s H; auto. pose proof (Hf s p H) as X. destruct (f s p); cbn in *; auto. Qed.
Lemma push_all_n n m l : forall s, ln n s -> ln n (push_all s l m).
Proof. unfold push_all. induction l as [|p l IH]; cbn; intros s H; [exact H|]. apply IH; exact H. Qed.
Lemma mod_n n s k f : ln n s -> ln n (mod_accdec s k f).
Proof. intros H. unfold mod_accdec. destruct (nth_error _ _); exact H. Qed.
Lemma opt_n {B} (l : leader_state) (o : option B) (f : B -> leader_state) l' : (forall b, l_n (f b) = l_n l) -> option_map f o = Some l' -> l_n l' = l_n l.
Proof. intros Hf. destruct o; cbn; [|discriminate]. intros X. injection X as <-. auto. Qed.
Lemma setacc_n l p i l' : set_accepted_idx l p i = Some l' -> l_n l' = l_n l.
Proof. apply opt_n. reflexivity. Qed.
Lemma setmeta_n l p i l' : set_latest_accept_meta l p i = Some l' -> l_n l' = l_n l.
Proof. apply opt_n. reflexivity. Qed.
Lemma incr_n l p l' : increment_seq_num_session l p = Some l' -> l_n l' = l_n l.
Proof. unfold increment_seq_num_session. destruct (vget _ _); [|discriminate]. apply opt_n. reflexivity. Qed.
Lemma reset_n l p l' : reset_promise l p = Some l' -> l_n l' = l_n l.
Proof. apply opt_n. reflexivity. Qed.
Lemma lost_n l p l' : lost_promise l p = Some l' -> l_n l' = l_n l.
Proof. apply opt_n. reflexivity. Qed.
Lemma setp_n l p from c l' m : ls_set_promise l p from c = Some (l', m) -> l_n l' = l_n l.
Proof. unfold ls_set_promise. destruct (vset _ _ _); [|discriminate]. intros X. injection X as <- _. cbn. destruct (_ && _); reflexivity. Qed.

Lemma send_ad_to_n n d es s p : ln n s -> lnr n (send_acceptdecide_to d es s p).
Proof.
  intros H. unfold send_acceptdecide_to. apply lift_n. intros [k|] _; [apply mod_n; auto|]. apply lift_n. intros l1 H1. apply lift_n. intros [l2 q] H2.
  apply setmeta_n in H1. apply next_n in H2. cbn. unfold ln in *. cbn. congruence.
Qed.
Lemma send_ad_n n es s : ln n s -> lnr n (send_acceptdecide s es).
Proof. intros H. unfold send_acceptdecide. apply lift_n. intros l _. apply for_each_n; auto. intros. apply send_ad_to_n; auto. Qed.
Lemma meta_n n s (is : istore) r : ln n s ->
  lnr n (match r with Some (acc, es) => ls <- lift (set_is s is) (set_accepted_idx (s_ls s) (s_pid s) acc) ;; send_acceptdecide (set_ls (set_is s is) ls) es
       | None => Ok (set_is s is) end).
Proof. intros H. destruct r as [[acc es]|]; [|exact H]. apply lift_n. intros ls Hl. apply send_ad_n. apply setacc_n in Hl. unfold ln in *. cbn. congruence. Qed.
Lemma accept_entry_n n s e : ln n s -> lnr n (accept_entry_leader s e).
Proof. intros H. unfold accept_entry_leader. destruct (append_entry_with_batching _ _) as [is r]. apply (meta_n n s is r); auto. Qed.
Lemma accept_entries_n n s es : ln n s -> lnr n (accept_entries_leader s es).
Proof. intros H. unfold accept_entries_leader. destruct (append_entries_with_batching _ _) as [is r]. apply (meta_n n s is r); auto. Qed.
Lemma send_ss_n n ss b s to : ln n s -> lnr n (send_accept_stopsign ss b s to).
Proof. intros H. unfold send_accept_stopsign. apply lift_n. intros [l q] Hl. apply resend_n in Hl. cbn. unfold ln in *. cbn. congruence. Qed.
Lemma send_decide_n n d b s to : ln n s -> lnr n (send_decide d b s to).
Proof. intros H. unfold send_decide. apply lift_n. intros [l q] Hl. apply resend_n in Hl. cbn. unfold ln in *. cbn. congruence. Qed.
Lemma accept_ss_n n s ss : ln n s -> lnr n (accept_stopsign_leader s ss).
Proof.
  intros H. unfold accept_stopsign_leader. destruct (i_append_stopsign _ _) as [is r]. apply bind_n.
  - destruct r as [[acc es]|]; [apply send_ad_n|]; exact H.
  - intros s1 H2. apply lift_n. intros ls Hl. apply lift_n. intros l _. apply for_each_n; [|apply setacc_n in Hl; unfold ln in *; cbn; congruence]. intros. apply send_ss_n; auto.
Qed.
Lemma forward_props_n n s es : ln n s -> ln n (forward_proposals s es).
Proof. intros H. unfold forward_proposals. destruct (_ && _); exact H. Qed.
Lemma forward_ss_n n s ss : ln n s -> ln n (forward_stopsign s ss).
Proof. intros H. unfold forward_stopsign. destruct (_ && _); [exact H|]. destruct (s_bss s); exact H. Qed.
Lemma preparereq_n n s b from : ln n s -> lnr n (handle_preparereq s b from).
Proof.
  intros H. unfold handle_preparereq. destruct (_ && _); [|exact H]. apply lift_n. intros l1 H1. apply lift_n. intros l2 H2. apply reset_n in H1. apply setmeta_n in H2.
  cbn. unfold ln in *. cbn. congruence.
Qed.
Lemma fwd_prop_n n s es : ln n s -> lnr n (handle_forwarded_proposal s es).
Proof.
  intros H. unfold handle_forwarded_proposal. destruct (accepted_reconfiguration s); [exact H|].
  destruct (s_role s), (s_phase s); try (apply forward_props_n; auto); try exact H. apply accept_entries_n; auto.
Qed.
Lemma fwd_ss_n n s ss : ln n s -> lnr n (handle_forwarded_stopsign s ss).
Proof.
  intros H. unfold handle_forwarded_stopsign. destruct (accepted_reconfiguration s); [exact H|].
  destruct (s_role s), (s_phase s); try (apply forward_ss_n; auto); try exact H. apply accept_ss_n; auto.
Qed.
Lemma send_accsync_n n s to : ln n s -> lnr n (send_accsync s to).
Proof.
  intros H. unfold send_accsync. apply lift_n. intros m _. apply lift_n. intros fd _. apply lift_n. intros sy _. apply lift_n. intros l1 H1. apply lift_n. intros [l2 q] H2.
  apply incr_n in H1. apply next_n in H2. cbn. unfold ln in *. cbn. congruence.
Qed.
Lemma majority_n n s : ln n s -> lnr n (handle_majority_promises s).
Proof.
  intros H. unfold handle_majority_promises, take_max_promise_sync. cbn zeta. set (s1 := set_ls s _). assert (H1 : ln n s1) by exact H. clearbody s1.
  destruct (sync_log _ _ _ _) as [[is acc]|tr]; [|exact I]. cbn [bind].
  match goal with |- lnr n (let '(_, _) := ?e in _) => assert (Hx : ln n (fst e)); [|destruct e as [s3 acc3]; cbn [fst] in Hx] end.
  { destruct (accepted_reconfiguration (set_is s1 is)); [exact H1|].
    match goal with |- ln n (fst (let '(_, _) := ?e in _)) => assert (Hx : ln n (fst e)); [|destruct e as [s3 acc3]; cbn [fst] in Hx] end.
    { destruct (s_bprops _) as [|e es]; [exact H1|]. destruct (append_entries_without_batching _ _) as [is2 acc2]. exact H1. }
    destruct (s_bss s3) as [ss|]; exact Hx. }
  apply lift_n. intros ls Hl. apply lift_n. intros l _. apply for_each_n; [intros; apply send_accsync_n; auto|]. apply setacc_n in Hl. unfold ln in *. cbn in *. congruence.
Qed.
Lemma promise_prepare_n n s p from : ln n s -> lnr n (handle_promise_prepare s p from).
Proof.
  intros H. unfold handle_promise_prepare. destruct (beq _ _); [|exact H]. apply lift_n. intros [ls m] Hl. apply setp_n in Hl.
  assert (H1 : ln n (set_ls s ls)) by (unfold ln in *; cbn; congruence). destruct m; [apply majority_n; auto|exact H1].
Qed.
Lemma promise_accept_n n s p from : ln n s -> lnr n (handle_promise_accept s p from).
Proof.
  intros H. unfold handle_promise_accept. destruct (beq _ _); [|exact H]. apply lift_n. intros [ls m] Hl. apply setp_n in Hl. apply send_accsync_n. unfold ln in *; cbn; congruence.
Qed.
Lemma accepted_n n s b a from : ln n s -> lnr n (handle_accepted s b a from).
Proof.
  intros H. unfold handle_accepted. destruct (_ && _); [|exact H]. apply lift_n. intros ls Hl. apply setacc_n in Hl. assert (H1 : ln n (set_ls s ls)) by (unfold ln in *; cbn; congruence).
  destruct (_ && _); [|exact H1]. apply lift_n. intros l _. apply for_each_n; [|exact H1]. intros s1 p H2. unfold handle_accepted_to. apply lift_n. intros [k|] _; [apply mod_n; auto|apply send_decide_n; auto].
Qed.
Lemma notaccepted_n n s b from : ln n s -> lnr n (handle_notaccepted s b from).
Proof. intros H. unfold handle_notaccepted. destruct (_ && _); [|exact H]. apply lift_n. intros ls Hl. apply lost_n in Hl. cbn. unfold ln in *. cbn. congruence. Qed.
Lemma reconnected_n n s p : ln n s -> ln n (reconnected s p).
Proof. intros H. unfold reconnected. destruct (p =? s_pid s); auto. destruct (p =? sp_leader s); exact H. Qed.
Lemma prepare_n n s b d na a from : ln n s -> lnr n (handle_prepare s b d na a from).
Proof. intros H. unfold handle_prepare. destruct (_ || _); [|exact H]. cbn zeta. match goal with |- lnr n (bind ?e ?f) => destruct e as [sy|tr] end; [|exact I]. exact H. Qed.
Lemma check_valid_n n s b : ln n s -> ln n (fst (check_valid_ballot s b)).
Proof. intros H. unfold check_valid_ballot. destruct (bcmp _ _); cbn [fst]; try exact H. apply reconnected_n; auto. Qed.
Lemma seqnum_n n s q from : ln n s -> ln n (fst (handle_sequence_num s q from)).
Proof. intros H. unfold handle_sequence_num. destruct (check_msg_status _ _); cbn [fst]; try exact H. apply reconnected_n; auto. Qed.
Lemma reply_n n s b a : ln n s -> lnr n (reply_accepted s b a).
Proof. intros H. unfold reply_accepted. apply lift_n. intros [k|] _; [apply mod_n; auto|exact H]. Qed.
Lemma acceptsync_n n s b q d sy from : ln n s -> lnr n (handle_acceptsync s b q d sy from).
Proof.
  intros H. unfold handle_acceptsync. pose proof (check_valid_n n s b H) as H1. destruct (check_valid_ballot s b) as [s1 v]. cbn [fst] in H1. destruct (_ && _); [|exact H1].
  destruct (sync_log _ _ _ _) as [[is acc]|tr]; [|exact I]. cbn [bind]. destruct (i_ss _); [exact H1|]. unfold forward_buffered_proposals. destruct (s_bprops _); [exact H1|]. unfold forward_proposals. destruct (_ && _); exact H1.
Qed.
Lemma update_decided_n n s d : ln n s -> ln n (fst (update_decided s d)).
Proof. intros H. unfold update_decided. destruct (d <=? _); auto. destruct (_ <? d); [destruct (flush_batch _)|]; exact H. Qed.
Lemma acceptdecide_n n s b q d es : ln n s -> lnr n (handle_acceptdecide s b q d es).
Proof.
  intros H. unfold handle_acceptdecide. pose proof (check_valid_n n s b H) as H1. destruct (check_valid_ballot s b) as [s1 v]. cbn [fst] in H1. destruct (_ && _); [|exact H1].
  pose proof (seqnum_n n s1 q (b_pid b) H1) as H2. destruct (handle_sequence_num s1 q (b_pid b)) as [s2 st]. cbn [fst] in H2. destruct st; [|exact H2|exact H2].
  destruct (append_entries_and_get_accepted_idx _ _) as [is r1].
  pose proof (update_decided_n n (set_is s2 is) d H2) as H4. destruct (update_decided _ _) as [s4 r2]. cbn [fst] in H4.
  destruct (match r2 with Some _ => r2 | None => r1 end); [apply reply_n; auto|exact H4].
Qed.
Lemma accept_ss_f_n n s b q ss : ln n s -> lnr n (handle_accept_stopsign s b q ss).
Proof.
  intros H. unfold handle_accept_stopsign. pose proof (check_valid_n n s b H) as H1. destruct (check_valid_ballot s b) as [s1 v]. cbn [fst] in H1. destruct (_ && _); [|exact H1].
  pose proof (seqnum_n n s1 q (b_pid b) H1) as H2. destruct (handle_sequence_num s1 q (b_pid b)) as [s2 st]. cbn [fst] in H2. destruct st; [|exact H2|exact H2].
  cbn zeta. destruct (i_set_stopsign _ _) as [[is acc]|tr]; [|exact I]. cbn [bind]. apply reply_n. exact H2.
Qed.
Lemma decide_n n s b q d : ln n s -> lnr n (handle_decide s b q d).
Proof.
  intros H. unfold handle_decide. pose proof (check_valid_n n s b H) as H1. destruct (check_valid_ballot s b) as [s1 v]. cbn [fst] in H1. destruct (_ && _); [|exact H1].
  pose proof (seqnum_n n s1 q (b_pid b) H1) as H2. destruct (handle_sequence_num s1 q (b_pid b)) as [s2 st]. cbn [fst] in H2. destruct st; [|exact H2|exact H2].
  pose proof (update_decided_n n _ d H2) as H4. destruct (update_decided _ _) as [s4 r2]. cbn [fst] in H4. destruct r2; [apply reply_n; auto|exact H4].
Qed.
Lemma trim_n n s i : ln n s -> lnr2 n (sp_trim s i).
Proof.
  intros H. unfold sp_trim. destruct (s_role s); [exact H|]. destruct (get_min_all_accepted_idx _) as [mn|]; cbn [lift bind]; [|exact I].
  assert (Main : forall k, lnr2 n ('(is, r) <- try_trim (s_is s) k ;;
        let s := set_is s is in
        match r with
        | None => Ok (push_all s (s_peers s) (MCompaction (CmpTrim k)), None)
        | Some e => Ok (s, Some e)
        end)).
  { intros k. destruct (try_trim _ _) as [[is r]|tr]; [|exact I]. cbn [bind]. destruct r; [exact H|]. apply push_all_n. exact H. }
  cbn zeta. destruct i as [i|]; [|apply Main]. destruct (i <=? mn); [apply Main|exact H].
Qed.
Lemma snapshot_n n s i l : ln n s -> lnr2 n (sp_snapshot s i l).
Proof. intros H. unfold sp_snapshot. destruct (try_snapshot _ _) as [[is r]|tr]; [|exact I]. cbn [bind]. destruct r; [exact H|]. destruct l; [exact H|]. apply push_all_n. exact H. Qed.
Lemma compaction_n n s c : ln n s -> lnr n (handle_compaction s c).
Proof.
  intros H. unfold handle_compaction. destruct c as [i|i].
  - destruct (try_trim _ _) as [[is r]|tr]; [|exact I]. exact H.
  - pose proof (snapshot_n n s i true H) as X. destruct (sp_snapshot s i true) as [[s1 r]|tr]; exact X.
Qed.
Lemma sp_handle_n n s m : ln n s -> lnr n (sp_handle s m).
Proof.
  intros H. unfold sp_handle. destruct (pm_msg m) as [b|b d na a|p|b q d sy|b q d es|b a|b|b q d|es|c|b q ss|ss].
  - apply preparereq_n; auto.
  - apply prepare_n; auto.
  - destruct (s_role s) eqn:Hr, (s_phase s); try exact H; [apply promise_prepare_n|apply promise_accept_n]; auto.
  - apply acceptsync_n; auto.
  - apply acceptdecide_n; auto.
  - apply accepted_n; auto.
  - apply notaccepted_n; auto.
  - apply decide_n; auto.
  - apply fwd_prop_n; auto.
  - apply compaction_n; auto.
  - apply accept_ss_f_n; auto.
  - apply fwd_ss_n; auto.
Qed.
Lemma append_n n s e : ln n s -> lnr2 n (sp_append s e).
Proof.
  intros H. unfold sp_append. destruct (accepted_reconfiguration s); [exact H|].
  assert (X : lnr n (propose_entry s e)). { unfold propose_entry. destruct (s_role s), (s_phase s); try (apply forward_props_n; auto); try exact H. apply accept_entry_n; auto. }
  destruct (propose_entry s e); exact X.
Qed.
Lemma reconfigure_n n s c m : ln n s -> lnr2 n (sp_reconfigure s c m).
Proof.
  intros H. unfold sp_reconfigure. destruct (accepted_reconfiguration s); [exact H|]. cbn zeta.
  match goal with |- lnr2 n (bind ?e _) => assert (X : lnr n e); [|destruct e; exact X] end.
  destruct (s_role s), (s_phase s); try (apply forward_ss_n; auto); try exact H. apply accept_ss_n; auto.
Qed.
Definition lead_ok (s s' : sp) : Prop := l_n (s_ls s') = l_n (s_ls s) \/ l_n (s_ls s') = i_prom (s_is s').
Lemma handle_leader_n s n s' : handle_leader s n = Ok s' -> lead_ok s s'.
Proof.
  intros H. apply handle_leader_cases in H. destruct H as [(-> & _)|[(_ & _ & _ & X & _)|(_ & _ & X1 & X2 & _)]]; [left; auto|left; congruence|right; congruence].
Qed.
Lemma exec_n o c o' r : exec o c = Ok (o', r) -> lead_ok (o_sp o) (o_sp o').
Proof.
  unfold exec. change (lead_ok (o_sp o) (o_sp o')) with (lead_ok (o_sp (start_call o)) (o_sp o')). set (o1 := start_call o). clearbody o1.
  destruct c as [e|cc0 meta| |i|i l|q| |q|m]; cbn [exec_call].
  - pose proof (append_n _ (o_sp o1) e eq_refl) as X. destruct (sp_append _ _) as [[s r0]|]; [|discriminate]. intros Y. injection Y as <- _. left. exact X.
  - unfold reconfigure. destruct (cluster_validate cc0); [|intros Y; injection Y as <- _; left; reflexivity]. pose proof (reconfigure_n _ (o_sp o1) cc0 meta eq_refl) as X.
    destruct (sp_reconfigure _ _ _) as [[s r0]|]; [|discriminate]. intros Y. injection Y as <- _. left. exact X.
  - destruct (tick o1) as [o2|] eqn:Ht; [|discriminate]. intros Y. injection Y as <- _. apply tick_parts in Ht. destruct Ht as (s & Hs & K1 & K2 & _). unfold lead_ok. rewrite K1, K2.
    destruct (due _); [|destruct Hs as [_ ->]; left; auto]. destruct (hb_timeout _ _ _) as [b [n|]]; destruct Hs as [_ Hs]; [|subst s; left; auto]. apply handle_leader_n in Hs. exact Hs.
  - pose proof (trim_n _ (o_sp o1) i eq_refl) as X. destruct (sp_trim _ _) as [[s r0]|]; [|discriminate]. intros Y. injection Y as <- _. left. exact X.
  - pose proof (snapshot_n _ (o_sp o1) i l eq_refl) as X. destruct (sp_snapshot _ _ _) as [[s r0]|]; [|discriminate]. intros Y. injection Y as <- _. left. exact X.
  - intros Y. injection Y as <- _. left. apply reconnected_n. reflexivity.
  - unfold try_become_leader. destruct (handle_leader _ _) as [s|] eqn:Hl; [|discriminate]. intros Y. injection Y as <- _. eapply handle_leader_n; eauto.
  - intros Y. injection Y as <- _. left. reflexivity.
  - unfold handle_incoming. destruct m as [m|m]; [|intros Y; injection Y as <- _; left; reflexivity]. pose proof (sp_handle_n _ (o_sp o1) m eq_refl) as X. destruct (sp_handle _ _) as [s|]; [|discriminate].
    intros Y. injection Y as <- _. left. exact X.
Qed.

(** In every state of a server. *)
Lemma lead_ballot_le o : server_state o -> ble (l_n (s_ls (o_sp o))) (get_promise o) = true.
Proof.
  intros (cc & sc & o0 & Hb & Hl).
  assert (B : forall cc sc st o, build cc sc st = BOk o -> ble (l_n (s_ls (o_sp o))) (get_promise o) = true).
  { clear. intros cc sc st o. unfold build. destruct (config_validate cc sc); [|discriminate]. unfold sp_with. destruct (peers_of cc (sc_pid sc)); [discriminate|].
    destruct (ms_prom st) as [b|]; intros X; injection X as <-; cbn; first [reflexivity|apply ble_refl]. }
  assert (H0 := B _ _ _ _ Hb). assert (S0 : server_state o0) by (exists cc, sc, o0; split; auto; constructor). clear Hb.
  assert (Hx : server_state o /\ ble (l_n (s_ls (o_sp o))) (get_promise o) = true); [|apply Hx].
  induction Hl as [|o o1 o2 Hl IH Hs]; [auto|]. destruct (IH H0 S0) as [I1 I2].
  assert (I3 : server_state o2). { destruct I1 as (c1 & s1 & o3 & A1 & A2). exists c1, s1, o3. split; auto. eapply lv_step; eauto. }
  split; [exact I3|]. assert (Hm := C10_promise_never_decreases o1 o2 I1 (lv_step _ _ _ (lv_refl _) Hs)).
  destruct Hs as [o1 c o' r He|o1 buf o' l Ht|o1 c st cc1 sc1 o' Hin Hb].
  - apply exec_n in He. destruct He as [He|He]; rewrite He; [eapply ble_tr; eauto|apply ble_refl].
  - unfold take_outgoing_messages, sp_take_outgoing in Ht. destruct buf; injection Ht as <- _; exact I2.
  - eapply B; eauto.
Qed.
End WithEntry.
