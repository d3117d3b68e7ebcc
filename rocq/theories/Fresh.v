(** * Every ballot in use has a positive number

    A sweep through all handlers: the ballots of leaders and of the Prepares they send.  Together with
    the promises (Prims.v) and the election (Ble.v) this gives C60. *)
From Coq Require Import List Arith Bool Lia.
Import ListNotations.
From Verif Require Import Types Config MemStore Internal LeaderState SeqPaxos Ble Omni System Basics Spec Prims.
From Verif Require Local.

Section WithEntry.
Context {E : EntryT}.
Section Fix.
Context (C : nat).
(** A ballot of configuration [C] that somebody was elected with. *)
Definition okb (b : ballot) : Prop := b_cfg b = C /\ 1 <= b_n b.
Definition okm (m : pmessage) : Prop := match pm_msg m with MPrepare n _ _ _ => okb n | _ => True end.
Definition kb (s : sp) : Prop := (s_role s = Leader -> okb (l_n (s_ls s))) /\ Forall okm (s_out s).
Definition kbr (r : res sp) : Prop := match r with Ok s => kb s | Panic _ => True end.
Definition kbl (s : sp) : Prop := s_role s = Leader /\ kb s.
Definition kblr (r : res sp) : Prop := match r with Ok s => kbl s | Panic _ => True end.

(** ** The leader's vectors keep the ballot *)
Lemma ln_incr l p l' : increment_seq_num_session l p = Some l' -> l_n l' = l_n l.
Proof. unfold increment_seq_num_session. destruct (vget _ _); [|discriminate]. destruct (vset _ _ _); [|discriminate]. intros X. injection X as <-. reflexivity. Qed.
Lemma ln_next l p l' q : next_seq_num l p = Some (l', q) -> l_n l' = l_n l.
Proof. unfold next_seq_num. destruct (vget _ _); [|discriminate]. destruct (vset _ _ _); [|discriminate]. intros X. injection X as <- _. reflexivity. Qed.
Lemma ln_seq l (b : bool) p l' q : (if b then option_map (fun q => (l, q)) (get_seq_num l p) else next_seq_num l p) = Some (l', q) -> l_n l' = l_n l.
Proof. destruct b; [|apply ln_next]. destruct (get_seq_num l p); [|discriminate]. intros X. injection X as <- _. reflexivity. Qed.
Lemma ln_acc l p a l' : set_accepted_idx l p a = Some l' -> l_n l' = l_n l.
Proof. unfold set_accepted_idx. destruct (vset _ _ _); [|discriminate]. intros X. injection X as <-. reflexivity. Qed.
Lemma ln_meta l p a l' : set_latest_accept_meta l p a = Some l' -> l_n l' = l_n l.
Proof. unfold set_latest_accept_meta. destruct (vset _ _ _); [|discriminate]. intros X. injection X as <-. reflexivity. Qed.
Lemma ln_prom l p x l' : option_map (l_set_proms l) (vset (l_proms l) p x) = Some l' -> l_n l' = l_n l.
Proof. destruct (vset _ _ _); [|discriminate]. intros X. injection X as <-. reflexivity. Qed.
Lemma ln_setp l p f c l' m : ls_set_promise l p f c = Some (l', m) -> l_n l' = l_n l.
Proof.
  unfold ls_set_promise. set (l1 := if c && _ then _ else _). assert (H1 : l_n l1 = l_n l) by (unfold l1; destruct (c && _); reflexivity).
  destruct (vset _ _ _); [|discriminate]. intros X. injection X as <- _. exact H1.
Qed.

(** ** Updates *)
Lemma kb_lift {B} s (o : option B) (f : B -> res sp) : (forall x, o = Some x -> kbr (f x)) -> kbr (bind (lift s o) f).
Proof. intros H. destruct o; cbn; auto. Qed.
Lemma kbl_lift {B} s (o : option B) (f : B -> res sp) : (forall x, o = Some x -> kblr (f x)) -> kblr (bind (lift s o) f).
Proof. intros H. destruct o; cbn; auto. Qed.
Lemma kbl_kb r : kblr r -> kbr r.
Proof. destruct r; cbn; auto. intros [_ H]. exact H. Qed.
Lemma kbl_each f l : (forall s p, kbl s -> kblr (f s p)) -> forall s, kbl s -> kblr (for_each s l f).
Proof. intros H. induction l as [|p l IH]; cbn; intros s K; auto. pose proof (H s p K) as X. destruct (f s p); cbn in *; auto. Qed.
Lemma kb_ls s l : l_n l = l_n (s_ls s) -> kb s -> kb (set_ls s l).
Proof. intros He [H1 H2]. split; [cbn; rewrite He; exact H1|exact H2]. Qed.
Lemma kbl_ls s l : l_n l = l_n (s_ls s) -> kbl s -> kbl (set_ls s l).
Proof. intros He [H1 H2]. split; [exact H1|apply kb_ls; auto]. Qed.
Lemma kb_push s p m : match m with MPrepare n _ _ _ => okb n | _ => True end -> kb s -> kb (push s p m).
Proof. intros Hm [H1 H2]. split; [exact H1|]. cbn. rewrite Forall_app. split; [exact H2|]. repeat constructor. exact Hm. Qed.
Lemma kbl_push s p m : match m with MPrepare n _ _ _ => okb n | _ => True end -> kbl s -> kbl (push s p m).
Proof. intros Hm [H1 H2]. split; [exact H1|apply kb_push; auto]. Qed.
Lemma kb_push_all m l : match m with MPrepare n _ _ _ => okb n | _ => True end -> forall s, kb s -> kb (push_all s l m).
Proof. intros Hm. unfold push_all. induction l as [|p l IH]; cbn; intros s H; auto. apply IH, kb_push; auto. Qed.
Lemma kb_mod s k f : (forall m, match m with MPrepare n _ _ _ => okb n | _ => True end -> match f m with MPrepare n _ _ _ => okb n | _ => True end) -> kb s -> kb (mod_accdec s k f).
Proof.
  intros Hf [H1 H2]. unfold mod_accdec. destruct (nth_error (s_out s) k) as [m|] eqn:Hn; [|split; auto]. split; [exact H1|]. cbn. rewrite Forall_forall in *. intros x Hx.
  apply In_nth_error in Hx. destruct Hx as [j Hj]. rewrite Local.upd_nth in Hj by (apply nth_error_Some; congruence).
  destruct (j =? k); [injection Hj as <-; unfold okm; cbn; apply Hf; apply (H2 m); eapply nth_error_In; eauto|apply H2; eapply nth_error_In; eauto].
Qed.
Lemma mod_role s k f : s_role (mod_accdec s k f) = s_role s.
Proof. unfold mod_accdec. destruct (nth_error _ _); reflexivity. Qed.
Lemma kbl_mod s k f : (forall m, match m with MPrepare n _ _ _ => okb n | _ => True end -> match f m with MPrepare n _ _ _ => okb n | _ => True end) -> kbl s -> kbl (mod_accdec s k f).
Proof. intros Hf [H1 H2]. split; [rewrite mod_role; exact H1|apply kb_mod; auto]. Qed.
Lemma f_ext es d m : match m with MPrepare n _ _ _ => okb n | _ => True end -> match extend_accdec es d m with MPrepare n _ _ _ => okb n | _ => True end.
Proof. destruct m; auto. Qed.
Lemma f_red d m : match m with MPrepare n _ _ _ => okb n | _ => True end -> match redecide_accdec d m with MPrepare n _ _ _ => okb n | _ => True end.
Proof. destruct m; auto. Qed.
Lemma f_rea d m : match m with MPrepare n _ _ _ => okb n | _ => True end -> match reaccept d m with MPrepare n _ _ _ => okb n | _ => True end.
Proof. destruct m; auto. Qed.

(** ** Leader *)
Lemma send_prepare_k s p : kbl s -> kbl (send_prepare s p).
Proof. intros [H1 H2]. apply kbl_push; [apply H2; exact H1|split; auto]. Qed.
Lemma send_prepares_k l : forall s, kbl s -> kbl (fold_left send_prepare l s).
Proof. induction l as [|p l IH]; cbn; intros s H; auto. apply IH, send_prepare_k, H. Qed.
Lemma send_ad_k s es : kbl s -> kblr (send_acceptdecide s es).
Proof.
  intros H. unfold send_acceptdecide. apply kbl_lift. intros l _. apply kbl_each; auto. intros s1 p H1. unfold send_acceptdecide_to. apply kbl_lift. intros [k|] _; [apply kbl_mod; [apply f_ext|exact H1]|].
  apply kbl_lift. intros l1 E1. apply kbl_lift. intros [l2 q] E2. apply kbl_push; [exact I|]. apply kbl_ls; [|exact H1]. rewrite (ln_next _ _ _ _ E2). eapply ln_meta; eauto.
Qed.
Lemma meta_k s is r : kbl s -> kblr (match r with Some (acc, es) => ls <- lift (set_is s is) (set_accepted_idx (s_ls s) (s_pid s) acc) ;; send_acceptdecide (set_ls (set_is s is) ls) es | None => Ok (set_is s is) end).
Proof. intros H. destruct r as [[acc es]|]; [|exact H]. apply kbl_lift. intros l El. apply send_ad_k, kbl_ls; [eapply ln_acc; eauto|exact H]. Qed.
Lemma accept_entry_k s e : kbl s -> kblr (accept_entry_leader s e).
Proof. intros H. unfold accept_entry_leader. destruct (append_entry_with_batching _ _) as [is r]. apply (meta_k s is r H). Qed.
Lemma accept_entries_k s es : kbl s -> kblr (accept_entries_leader s es).
Proof. intros H. unfold accept_entries_leader. destruct (append_entries_with_batching _ _) as [is r]. apply (meta_k s is r H). Qed.
Lemma flush_leader_k s : kbl s -> kblr (flush_batch_leader s).
Proof. intros H. unfold flush_batch_leader. destruct (flush_batch_and_get_entries _) as [is r]. apply (meta_k s is r H). Qed.
Lemma send_ss_k ss b s p : kbl s -> kblr (send_accept_stopsign ss b s p).
Proof. intros H. unfold send_accept_stopsign. apply kbl_lift. intros [l q] El. apply kbl_push; [exact I|]. apply kbl_ls; [eapply ln_seq; eauto|exact H]. Qed.
Lemma send_decide_k d b s p : kbl s -> kblr (send_decide d b s p).
Proof. intros H. unfold send_decide. apply kbl_lift. intros [l q] El. apply kbl_push; [exact I|]. apply kbl_ls; [eapply ln_seq; eauto|exact H]. Qed.
Lemma accept_ss_k s ss : kbl s -> kblr (accept_stopsign_leader s ss).
Proof.
  intros H. unfold accept_stopsign_leader. destruct (i_append_stopsign _ _) as [is r].
  match goal with |- kblr (bind ?e _) => assert (X : kblr e); [|destruct e as [s1|]; [|exact I]] end.
  { destruct r as [[a es]|]; [apply send_ad_k; exact H|exact H]. }
  cbn [bind]. apply kbl_lift. intros l El. apply kbl_lift. intros ps _. apply kbl_each; [intros; apply send_ss_k; auto|]. apply kbl_ls; [eapply ln_acc; eauto|exact X].
Qed.
Lemma accsync_k s p : kbl s -> kblr (send_accsync s p).
Proof.
  intros H. unfold send_accsync. apply kbl_lift; intros ? _. apply kbl_lift; intros ? _. apply kbl_lift; intros ? _. apply kbl_lift; intros l1 E1. apply kbl_lift. intros [l q] E2. apply kbl_push; [exact I|].
  apply kbl_ls; [|exact H]. rewrite (ln_next _ _ _ _ E2). eapply ln_incr; eauto.
Qed.
Lemma majority_k s : kbl s -> kblr (handle_majority_promises s).
Proof.
  intros H. unfold handle_majority_promises, take_max_promise_sync. destruct (sync_log _ _ _ _) as [[is acc]|]; [|exact I]. cbn [bind].
  match goal with |- kblr (let '(_, _) := ?e in _) => assert (X : kbl (fst e)); [|destruct e as [s1 acc1]; cbn [fst] in X] end.
  { set (s2 := set_is _ is). assert (H2 : kbl s2) by exact H. destruct (accepted_reconfiguration s2); [exact H2|].
    match goal with |- kbl (fst (let '(_, _) := ?e in _)) => assert (X : kbl (fst e)); [|destruct e as [s3 acc3]; cbn [fst] in X] end.
    { destruct (s_bprops s2); [exact H2|]. cbn. exact H2. }
    destruct (s_bss s3); exact X. }
  apply kbl_lift. intros l El. apply kbl_lift. intros ps _. apply kbl_each; [intros; apply accsync_k; auto|]. apply kbl_ls; [exact (ln_acc _ _ _ _ El)|]. destruct X as [X1 [X2 X3]]. split; [reflexivity|]. split; [intros _; exact (X2 X1)|exact X3].
Qed.
Lemma accepted_k s n a from : kb s -> kbr (handle_accepted s n a from).
Proof.
  intros H. unfold handle_accepted. destruct (beq n _ && _) eqn:Hg; [|exact H]. assert (Hl : kbl s). { split; [|exact H]. apply andb_true_iff in Hg. destruct Hg as [_ Hg]. apply andb_true_iff in Hg. destruct Hg as [Hg _]. destruct (s_role s); [discriminate|reflexivity]. }
  clear Hg. apply kbl_kb, kbl_lift. intros l El. cbn zeta. assert (H1 : kbl (set_ls s l)) by (apply kbl_ls; [eapply ln_acc; eauto|exact Hl]). destruct (_ && _); [|exact H1]. apply kbl_lift. intros ps _. apply kbl_each; [|exact H1].
  intros s1 p K. unfold handle_accepted_to. apply kbl_lift. intros [k|] _; [apply kbl_mod; [apply f_red|exact K]|apply send_decide_k, K].
Qed.
Lemma handle_leader_k s n : okb n -> kb s -> kbr (handle_leader s n).
Proof.
  intros Hn H. unfold handle_leader. destruct (_ || _); [exact H|]. destruct (_ =? _); [|destruct H as [_ H]; split; [discriminate|exact H]]. apply kb_lift. intros [l m] El. apply kb_push_all; [exact Hn|].
  split; [|apply H]. intros _. cbn. rewrite (ln_setp _ _ _ _ _ _ El). exact Hn.
Qed.
Lemma resend_leader_k s : kbl s -> kblr (resend_messages_leader s).
Proof.
  intros H. unfold resend_messages_leader. destruct (s_phase s); try exact H; [apply kbl_lift; intros ps _; apply send_prepares_k, H|].
  match goal with |- kblr (bind ?e _) => assert (X : kblr e); [|destruct e as [s1|]; [|exact I]] end.
  { destruct (i_ss _); [|exact H]. apply kbl_lift. intros ps _. apply kbl_each; [|exact H]. intros s1 p H1. unfold resend_ss_to. destruct (stopsign_is_decided _); [apply send_decide_k, H1|]. apply kbl_lift. intros a _. destruct (_ =? _); [exact H1|apply send_ss_k, H1]. }
  cbn [bind]. apply kbl_lift. intros ps _. apply send_prepares_k, X.
Qed.

(** ** Follower *)
Lemma kb_follower s ph : kb s -> kb (set_state s Follower ph).
Proof. intros [_ H]. split; [discriminate|exact H]. Qed.
Lemma reconnected_k s p : kb s -> kb (reconnected s p).
Proof. intros H. unfold reconnected. destruct (_ =? s_pid s); [exact H|]. apply kb_push; [exact I|]. destruct (_ =? _); [apply kb_follower|]; exact H. Qed.
Lemma valid_k s n : kb s -> kb (fst (check_valid_ballot s n)).
Proof. intros H. unfold check_valid_ballot. destruct (bcmp _ _); [exact H|apply reconnected_k, H|apply kb_push; [exact I|exact H]]. Qed.
Lemma seq_k s q from : kb s -> kb (fst (handle_sequence_num s q from)).
Proof. intros H. unfold handle_sequence_num. destruct (check_msg_status _ _); [exact H|apply reconnected_k, H|exact H]. Qed.
Lemma reply_k s n a : kb s -> kbr (reply_accepted s n a).
Proof. intros H. unfold reply_accepted. apply kb_lift. intros [k|] _; [apply kb_mod; [apply f_rea|exact H]|apply kb_push; [exact I|exact H]]. Qed.
Lemma forward_k s es : kb s -> kb (forward_proposals s es).
Proof. intros H. unfold forward_proposals. destruct (_ && _); [apply kb_push; [exact I|]|]; exact H. Qed.
Lemma forward_ss_k s ss : kb s -> kb (forward_stopsign s ss).
Proof. intros H. unfold forward_stopsign. destruct (_ && _); [apply kb_push; [exact I|exact H]|]. destruct (s_bss s); exact H. Qed.
Lemma update_decided_k s d : kb s -> kb (fst (update_decided s d)).
Proof. intros H. unfold update_decided. destruct (_ <=? _); [exact H|]. destruct (_ <? _); [|exact H]. destruct (flush_batch _); exact H. Qed.
Lemma handle_k s m : kb s -> kbr (sp_handle s m).
Proof.
  intros H. unfold sp_handle. assert (L : s_role s = Leader -> kbl s) by (intros X; split; auto).
  destruct (pm_msg m) as [n|n d na ac|pr|n q d sy|n q d es|n a|n|n q d|es|cp|n q ss|ss] eqn:Hm.
  - unfold handle_preparereq. destruct (s_role s) eqn:Hr; [exact H|]. cbn [role_eqb andb]. destruct (ble _ _); [|exact H]. apply kb_lift. intros l El. apply kb_lift. intros l2 E2. apply send_prepare_k.
    apply kbl_ls; [|auto]. rewrite (ln_meta _ _ _ _ E2). exact (ln_prom _ _ _ _ El).
  - unfold handle_prepare. cbn zeta. destruct (_ || _); [|exact H]. match goal with |- kbr (bind ?e _) => destruct e; [|exact I] end. cbn [bind]. apply kb_push; [exact I|]. destruct H as [_ H]. split; [discriminate|exact H].
  - destruct (s_role s) eqn:Hr; [exact H|]. destruct (s_phase s); try exact H.
    + unfold handle_promise_prepare. destruct (beq _ _); [|exact H]. apply kb_lift. intros [ls mj] El. assert (X : kbl (set_ls s ls)) by (apply kbl_ls; [eapply ln_setp; eauto|auto]). destruct mj; [apply kbl_kb, majority_k, X|apply X].
    + unfold handle_promise_accept. destruct (beq _ _); [|exact H]. apply kb_lift. intros [ls mj] El. apply kbl_kb, accsync_k, kbl_ls; [eapply ln_setp; eauto|auto].
  - unfold handle_acceptsync. pose proof (valid_k s n H) as X. destruct (check_valid_ballot s n) as [s1 v]. cbn [fst] in X. destruct (_ && _); [|exact X]. destruct (sync_log _ _ _ _) as [[is acc]|]; [|exact I]. cbn [bind].
    apply kb_push; [exact I|]. match goal with |- kb (set_lam (set_cseq (set_state ?a _ _) _) _) => assert (Y : kb a); [|exact (kb_follower a PhAccept Y)] end.
    destruct (i_ss _); [exact X|]. unfold forward_buffered_proposals. destruct (s_bprops _); [exact X|]. apply forward_k; exact X.
  - unfold handle_acceptdecide. pose proof (valid_k s n H) as X. destruct (check_valid_ballot s n) as [s1 v]. cbn [fst] in X. destruct (_ && _); [|exact X].
    pose proof (seq_k s1 q (b_pid n) X) as Y. destruct (handle_sequence_num _ _ _) as [s2 st]. cbn [fst] in Y. destruct st; try exact Y. destruct (append_entries_and_get_accepted_idx _ _) as [is r1].
    pose proof (update_decided_k (set_is s2 is) d Y) as Z. destruct (update_decided _ _) as [s3 r2]. cbn [fst] in Z. destruct (match r2 with Some _ => r2 | None => r1 end); [apply reply_k|]; exact Z.
  - apply accepted_k; exact H.
  - unfold handle_notaccepted. destruct (_ && _); [|exact H]. apply kb_lift. intros l El. apply kb_ls; [exact (ln_prom _ _ _ _ El)|exact H].
  - unfold handle_decide. pose proof (valid_k s n H) as X. destruct (check_valid_ballot s n) as [s1 v]. cbn [fst] in X. destruct (_ && _); [|exact X].
    pose proof (seq_k s1 q (b_pid n) X) as Y. destruct (handle_sequence_num _ _ _) as [s2 st]. cbn [fst] in Y. destruct st; try exact Y.
    pose proof (update_decided_k s2 d Y) as Z. destruct (update_decided _ _) as [s3 r2]. cbn [fst] in Z. destruct r2; [apply reply_k|]; exact Z.
  - unfold handle_forwarded_proposal. destruct (accepted_reconfiguration s); [exact H|]. destruct (s_role s) eqn:Hr, (s_phase s); try (apply forward_k; exact H); [exact H|apply kbl_kb, accept_entries_k; auto].
  - unfold handle_compaction, sp_snapshot. destruct cp as [i|i].
    + destruct (try_trim _ _) as [[is r]|]; exact I || exact H.
    + destruct (try_snapshot _ _) as [[is r]|]; [|exact I]. destruct r; exact H.
  - unfold handle_accept_stopsign. pose proof (valid_k s n H) as X. destruct (check_valid_ballot s n) as [s1 v]. cbn [fst] in X. destruct (_ && _); [|exact X].
    pose proof (seq_k s1 q (b_pid n) X) as Y. destruct (handle_sequence_num _ _ _) as [s2 st]. cbn [fst] in Y. destruct st; try exact Y. destruct (i_set_stopsign _ _) as [[is acc]|]; [|exact I]. cbn [bind]. apply reply_k. exact Y.
  - unfold handle_forwarded_stopsign. destruct (accepted_reconfiguration s); [exact H|]. destruct (s_role s) eqn:Hr, (s_phase s); try (apply forward_ss_k; exact H); [exact H|apply kbl_kb, accept_ss_k; auto].
Qed.
Lemma resend_k s : kb s -> kbr (resend_message_timeout s).
Proof.
  intros H. unfold resend_message_timeout. destruct (s_role s) eqn:Hr; [|apply kbl_kb, resend_leader_k; split; auto].
  unfold resend_messages_follower, send_preparereq_to_all_peers. destruct (s_phase s); try exact H; [|apply kb_push_all; [exact I|exact H]]. destruct (s_cprom s); [apply kb_push; [exact I|exact H]|apply kb_push_all; [exact I|apply kb_follower, H]].
Qed.
Lemma flush_k s : kb s -> kbr (flush_batch_timeout s).
Proof.
  intros H. unfold flush_batch_timeout. destruct (s_role s) eqn:Hr, (s_phase s); try exact H; [|apply kbl_kb, flush_leader_k; split; auto].
  unfold flush_batch_follower. destruct (flush_batch _) as [is a]. destruct (_ <? _); [apply reply_k; exact H|exact H].
Qed.

(** ** Calls *)
Definition kbo {B} (r : res (omni * B)) : Prop := match r with Ok (o, _) => kb (o_sp o) | Panic _ => True end.
(** The ballot with which the call makes the server leader. *)
Definition call_ok (o : omni) (c : call) : Prop :=
  match c with
  | CTick => forall n, snd (hb_timeout (o_ble o) (role_of o) (get_promise o)) = Some n -> okb n
  | CTryLeader => okb (set_n (e_ballot (o_ble o)) (b_n (get_promise o) + 1))
  | _ => True
  end.
Lemma exec_k o c : kb (o_sp (start_call o)) -> call_ok o c -> kbo (exec o c).
Proof.
  intros H Hc. unfold exec. assert (L : s_role (o_sp (start_call o)) = Leader -> kbl (o_sp (start_call o))) by (intros X; split; auto).
  destruct c as [e|cc0 meta| |i|i l|q| |q|m]; cbn [exec_call].
  - unfold sp_append. destruct (accepted_reconfiguration _); [exact H|]. assert (X : kbr (propose_entry (o_sp (start_call o)) e)).
    { unfold propose_entry. destruct (s_role (o_sp (start_call o))) eqn:Hr, (s_phase (o_sp (start_call o))); try (apply forward_k; exact H); [exact H|apply kbl_kb, accept_entry_k; auto]. }
    destruct (propose_entry _ _); exact X.
  - unfold reconfigure. destruct (cluster_validate cc0); [|exact H]. unfold sp_reconfigure. destruct (accepted_reconfiguration _); [exact H|]. cbn zeta.
    match goal with |- context [bind (match s_role _ with _ => _ end) _] => idtac | _ => idtac end.
    match goal with |- context [bind (A := sp) ?e _] => assert (X : kbr e); [|destruct e; exact X] end.
    destruct (s_role (o_sp (start_call o))) eqn:Hr, (s_phase (o_sp (start_call o))); try (apply forward_ss_k; exact H); [exact H|apply kbl_kb, accept_ss_k; auto].
  - unfold tick. destruct (clock_tick (o_eclk (start_call o))) as [ec f1].
    match goal with |- context [bind (A := omni) (bind (A := omni) ?e _) _] => assert (X : match e with Ok o1 => kb (o_sp o1) | Panic _ => True end); [|destruct e as [o1|]; [|exact I]] end.
    { destruct f1; [|exact H]. unfold election_timeout. unfold call_ok in Hc.
      match goal with |- context [hb_timeout ?a ?b ?c] => change (hb_timeout a b c) with (hb_timeout (o_ble o) (role_of o) (get_promise o)) end.
      destruct (hb_timeout (o_ble o) (role_of o) (get_promise o)) as [b [n|]]; [|exact H]. pose proof (handle_leader_k _ n (Hc n eq_refl) H) as X.
      match goal with |- context [handle_leader ?a ?b] => change (handle_leader a b) with (handle_leader (o_sp (start_call o)) n) end. destruct (handle_leader _ _); exact X. }
    cbn [bind]. destruct (clock_tick (o_rclk o1)) as [rc f2].
    match goal with |- context [bind (A := omni) (bind (A := omni) ?e _) _] => assert (X2 : match e with Ok o1 => kb (o_sp o1) | Panic _ => True end); [|destruct e as [o2|]; [|exact I]] end.
    { destruct f2; [|exact X]. cbn [o_sp]. pose proof (resend_k _ X) as Y. destruct (resend_message_timeout _); exact Y. }
    cbn [bind]. destruct (clock_tick (o_fclk o2)) as [fc f3]. destruct f3; [|exact X2]. cbn [o_sp]. pose proof (flush_k _ X2) as Y. destruct (flush_batch_timeout _); exact Y.
  - unfold sp_trim. destruct (s_role (o_sp (start_call o))); [exact H|]. destruct (get_min_all_accepted_idx _) as [mn|]; [|exact I]. cbn [lift bind].
    assert (X : forall k, kbo (B := option compaction_err) (match ('(is, r) <- try_trim (s_is (o_sp (start_call o))) k ;; match r with None => Ok (push_all (set_is (o_sp (start_call o)) is) (s_peers (set_is (o_sp (start_call o)) is)) (MCompaction (CmpTrim k)), None) | Some e => Ok (set_is (o_sp (start_call o)) is, Some e) end) with Ok (s, r) => Ok (set_sp (start_call o) s, r) | Panic tr => Panic tr end)).
    { intros k. destruct (try_trim _ _) as [[is r]|]; [|exact I]. cbn [bind]. destruct r; [exact H|]. apply kb_push_all; [exact I|exact H]. }
    destruct i as [i|]; [destruct (i <=? mn); [specialize (X i)|exact H]|specialize (X mn)];
    (match goal with |- kbo (bind ?e _) => match type of X with context [match ?e0 with _ => _ end] => idtac end end; destruct (try_trim _ _) as [[is r]|]; [|exact I]; destruct r; exact X).
  - unfold sp_snapshot. destruct (try_snapshot _ _) as [[is r]|]; [|exact I]. cbn [bind]. destruct r; [exact H|]. destruct l; [exact H|]. apply kb_push_all; [exact I|exact H].
  - cbn. apply reconnected_k, H.
  - unfold try_become_leader. pose proof (handle_leader_k _ _ Hc H) as X. match goal with |- context [handle_leader ?a ?b] => change (handle_leader a b) with (handle_leader (o_sp (start_call o)) (set_n (e_ballot (o_ble o)) (b_n (get_promise o) + 1))) end. destruct (handle_leader _ _); exact X.
  - exact H.
  - unfold handle_incoming. destruct m as [m|m]; [|exact H]. pose proof (handle_k _ m H) as X. destruct (sp_handle _ _); exact X.
Qed.
End Fix.
End WithEntry.
