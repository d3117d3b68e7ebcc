(** * What never changes in a server: its id, peers, quorum and vector sizes

    No assumption about the messages: this holds for every call that returns. *)
From Coq Require Import List Arith Bool Lia.
Import ListNotations.
From Verif Require Import Types Config MemStore Internal LeaderState SeqPaxos Ble Omni System Basics Spec Local.

Section WithEntry.
Context {E : EntryT}.

Lemma upd_len {B} (l : list B) : forall i x, length (upd l i x) = length l.
Proof. induction l as [|y l IH]; intros [|i] x; cbn; auto. Qed.
Lemma vset_len {B} (l l' : list B) p x : vset l p x = Some l' -> length l' = length l.
Proof. intros H. destruct (vset_inv _ _ _ _ H) as (i & _ & _ & ->). apply upd_len. Qed.
Lemma vset_some {B} (l : list B) p x : 1 <= p <= length l -> exists l', vset l p x = Some l'.
Proof.
  intros H. unfold vset, pid_to_idx, sub_chk. destruct (Nat.leb_spec 1 p); [|lia]. destruct (Nat.ltb_spec (p - 1) (length l)); [eauto|lia].
Qed.
Lemma vget_some {B} (l : list B) p : 1 <= p <= length l -> exists x, vget l p = Some x.
Proof.
  intros H. unfold vget, pid_to_idx, sub_chk. destruct (Nat.leb_spec 1 p); [|lia]. destruct (nth_error l (p - 1)) eqn:Hn; eauto. apply nth_error_None in Hn. lia.
Qed.
Lemma vget_nth {B} (l : list B) p x : vget l p = Some x -> 1 <= p <= length l /\ nth_error l (p - 1) = Some x.
Proof.
  unfold vget, pid_to_idx, sub_chk. destruct (Nat.leb_spec 1 p); [|discriminate]. intros H1. split; auto. assert (p - 1 < length l) by (apply nth_error_Some; congruence). lia.
Qed.

Section Fix.
Context (P : nat) (ps : list nat) (M : nat) (Q : quorum).

Record LV (l : leader_state) : Prop := {
  lv_max : l_maxpid l = M;
  lv_q : l_quorum l = Q;
  lv_proms : length (l_proms l) = M;
  lv_seqs : length (l_seqs l) = M;
  lv_accs : length (l_accs l) = M;
  lv_accmeta : length (l_accmeta l) = M;
  lv_meta : forall i m, nth_error (l_proms l) i = Some (Promised m) -> pmt_pid m = i + 1
}.
Record FR (s : sp) : Prop := {
  fr_pid : s_pid s = P;
  fr_peers : s_peers s = ps;
  fr_ls : LV (s_ls s);
  fr_ldr : s_role s = Leader -> b_pid (l_n (s_ls s)) = P
}.

Lemma lv_with n : LV (ls_with n M Q).
Proof.
  constructor; cbn; auto using repeat_length. intros i m H. apply nth_error_In, repeat_spec in H. discriminate.
Qed.
Lemma lv_setp l p from c l' m : LV l -> ls_set_promise l p from c = Some (l', m) -> LV l' /\ l_n l' = l_n l.
Proof.
  intros H. unfold ls_set_promise. set (k := mkMeta _ _ _ _). set (l1 := if c && _ then _ else _).
  assert (H1 : LV l1 /\ l_n l1 = l_n l) by (unfold l1; destruct (c && _); auto; destruct H; split; auto; constructor; auto).
  destruct (vset (l_proms l1) from (Promised k)) as [v|] eqn:Hv; [|discriminate]. intros X. injection X as <- _.
  destruct H1 as [[] H2]. split; [|exact H2]. pose proof (vset_len _ _ _ _ Hv). destruct (vset_inv _ _ _ _ Hv) as (i & -> & Hi & ->).
  constructor; cbn; auto; [lia|]. intros j m'. rewrite upd_nth; auto. destruct (Nat.eqb_spec j i) as [->|]; auto. intros Y. injection Y as <-. reflexivity.
Qed.
Lemma lv_next l p l' q : LV l -> next_seq_num l p = Some (l', q) -> LV l' /\ l_n l' = l_n l.
Proof.
  unfold next_seq_num. destruct (vget _ _); [|discriminate]. destruct (vset _ _ _) eqn:Hv; cbn; [|discriminate]. intros [] X. injection X as <- <-.
  apply vset_len in Hv. split; auto. constructor; cbn; auto; lia.
Qed.
Lemma lv_incr l p l' : LV l -> increment_seq_num_session l p = Some l' -> LV l' /\ l_n l' = l_n l.
Proof.
  unfold increment_seq_num_session. destruct (vget _ _); [|discriminate]. destruct (vset _ _ _) eqn:Hv; cbn; [|discriminate]. intros [] X. injection X as <-.
  apply vset_len in Hv. split; auto. constructor; cbn; auto; lia.
Qed.
Lemma lv_setacc l p i l' : LV l -> set_accepted_idx l p i = Some l' -> LV l' /\ l_n l' = l_n l.
Proof.
  unfold set_accepted_idx. destruct (vset _ _ _) eqn:Hv; cbn; [|discriminate]. intros [] X. injection X as <-. apply vset_len in Hv. split; auto. constructor; cbn; auto; lia.
Qed.
Lemma lv_setmeta l p i l' : LV l -> set_latest_accept_meta l p i = Some l' -> LV l' /\ l_n l' = l_n l.
Proof.
  unfold set_latest_accept_meta. destruct (vset _ _ _) eqn:Hv; cbn; [|discriminate]. intros [] X. injection X as <-. apply vset_len in Hv. split; auto. constructor; cbn; auto; lia.
Qed.
Lemma lv_upd_prom l p x l' : LV l -> is_promised x = false -> option_map (l_set_proms l) (vset (l_proms l) p x) = Some l' -> LV l' /\ l_n l' = l_n l.
Proof.
  intros [] Hx. destruct (vset _ _ _) as [v|] eqn:Hv; cbn; [|discriminate]. intros X. injection X as <-. pose proof (vset_len _ _ _ _ Hv).
  destruct (vset_inv _ _ _ _ Hv) as (i & -> & Hi & ->). split; auto. constructor; cbn; auto; [lia|]. intros j m. rewrite upd_nth; auto.
  destruct (j =? i); auto. intros Y. injection Y as ->. discriminate.
Qed.
Lemma lv_take l : LV l -> LV (l_set_max l (l_maxmeta l) None).
Proof. intros []. constructor; auto. Qed.
Lemma lv_reset l : LV l -> LV (reset_latest_accept_meta l).
Proof. intros []. constructor; auto. cbn. rewrite repeat_length. auto. Qed.

Definition fok (r : res sp) : Prop := match r with Ok s => FR s | Panic _ => True end.
Definition fok2 {B} (r : res (sp * B)) : Prop := match r with Ok (s, _) => FR s | Panic _ => True end.
Lemma lift_f {B} s (o : option B) (f : B -> res sp) : (forall b, o = Some b -> fok (f b)) -> fok (bind (lift s o) f).
Proof. intros Hf. destruct o; cbn; auto. Qed.
Lemma bind_f (r : res sp) f : fok r -> (forall s, FR s -> fok (f s)) -> fok (bind r f).
Proof. destruct r; cbn; auto. Qed.
Lemma for_each_f f : (forall s p, FR s -> fok (f s p)) -> forall l s, FR s -> fok (for_each s l f).
Proof. intros Hf. induction l as [|p l IH]; cbn; intros s H; auto. apply bind_f; auto. Qed.

Lemma fr_is s x : FR s -> FR (set_is s x).
Proof. intros []. constructor; auto. Qed.
Lemma fr_follower s p : FR s -> FR (set_state s Follower p).
Proof. intros []. constructor; auto. discriminate. Qed.
Lemma fr_bp s x : FR s -> FR (set_bprops s x).
Proof. intros []. constructor; auto. Qed.
Lemma fr_bss s x : FR s -> FR (set_bss s x).
Proof. intros []. constructor; auto. Qed.
Lemma fr_cseq s x : FR s -> FR (set_cseq s x).
Proof. intros []. constructor; auto. Qed.
Lemma fr_cprom s x : FR s -> FR (set_cprom s x).
Proof. intros []. constructor; auto. Qed.
Lemma fr_lam s x : FR s -> FR (set_lam s x).
Proof. intros []. constructor; auto. Qed.
Lemma fr_out s x : FR s -> FR (set_out s x).
Proof. intros []. constructor; auto. Qed.
Lemma fr_lset s x : FR s -> LV x /\ l_n x = l_n (s_ls s) -> FR (set_ls s x).
Proof. intros [] [H1 H2]. constructor; auto. cbn. rewrite H2. auto. Qed.
Lemma fr_push s to m : FR s -> FR (push s to m).
Proof. apply fr_out. Qed.
Lemma fr_push_all m : forall l s, FR s -> FR (push_all s l m).
Proof. unfold push_all. induction l as [|p l IH]; cbn; intros s H; auto. apply IH, fr_push; auto. Qed.
Lemma fr_mod s idx f : FR s -> FR (mod_accdec s idx f).
Proof. intros H. unfold mod_accdec. destruct (nth_error _ _); auto. apply fr_out; auto. Qed.
Hint Resolve fr_is fr_follower fr_bp fr_bss fr_cseq fr_cprom fr_lam fr_out fr_push fr_push_all fr_mod : fr.

Lemma fr_setacc s p i l' : FR s -> set_accepted_idx (s_ls s) p i = Some l' -> FR (set_ls s l').
Proof. intros H Hl. apply fr_lset; auto. eapply lv_setacc; eauto. apply (fr_ls _ H). Qed.
Lemma send_ad_to_f dec es s p : FR s -> fok (send_acceptdecide_to dec es s p).
Proof.
  intros H. unfold send_acceptdecide_to. apply lift_f. intros [idx|] _; [cbn; auto with fr|]. apply lift_f. intros l1 H1. apply lift_f. intros [l2 q] H2. cbn.
  apply fr_push, fr_lset; auto. destruct (lv_setmeta _ _ _ _ (fr_ls _ H) H1) as [X1 X2]. destruct (lv_next _ _ _ _ X1 H2) as [Y1 Y2]. split; [auto|congruence].
Qed.
Lemma send_ad_f s es : FR s -> fok (send_acceptdecide s es).
Proof. intros H. unfold send_acceptdecide. apply lift_f. intros l _. apply for_each_f; auto. intros. apply send_ad_to_f; auto. Qed.
Lemma meta_f s (is : istore) r : FR s ->
  fok (match r with Some (acc, es) => ls <- lift (set_is s is) (set_accepted_idx (s_ls s) (s_pid s) acc) ;; send_acceptdecide (set_ls (set_is s is) ls) es
       | None => Ok (set_is s is) end).
Proof.
  intros H. destruct r as [[acc es]|]; [|cbn; auto with fr]. apply lift_f. intros ls Hl. apply send_ad_f. apply (fr_setacc (set_is s is) _ _ _ (fr_is s is H) Hl).
Qed.
Lemma accept_entry_f s e : FR s -> fok (accept_entry_leader s e).
Proof. intros H. unfold accept_entry_leader. destruct (append_entry_with_batching _ _) as [is r]. apply (meta_f s is r); auto. Qed.
Lemma accept_entries_f s es : FR s -> fok (accept_entries_leader s es).
Proof. intros H. unfold accept_entries_leader. destruct (append_entries_with_batching _ _) as [is r]. apply (meta_f s is r); auto. Qed.
Lemma flush_leader_f s : FR s -> fok (flush_batch_leader s).
Proof. intros H. unfold flush_batch_leader. destruct (flush_batch_and_get_entries _) as [is r]. apply (meta_f s is r); auto. Qed.
Lemma resend_f s (b : bool) to : FR s -> forall l q, (if b then option_map (fun q => (s_ls s, q)) (get_seq_num (s_ls s) to) else next_seq_num (s_ls s) to) = Some (l, q) -> LV l /\ l_n l = l_n (s_ls s).
Proof.
  intros H l q. destruct b; [|apply lv_next, (fr_ls _ H)]. destruct (get_seq_num _ _); cbn; [|discriminate]. intros X. injection X as <- <-. split; auto. apply (fr_ls _ H).
Qed.
Lemma send_ss_f ss b s to : FR s -> fok (send_accept_stopsign ss b s to).
Proof. intros H. unfold send_accept_stopsign. apply lift_f. intros [l q] Hl. apply resend_f in Hl; auto. cbn. apply fr_push, fr_lset; auto. Qed.
Lemma send_decide_f d b s to : FR s -> fok (send_decide d b s to).
Proof. intros H. unfold send_decide. apply lift_f. intros [l q] Hl. apply resend_f in Hl; auto. cbn. apply fr_push, fr_lset; auto. Qed.
Lemma accept_ss_f s ss : FR s -> fok (accept_stopsign_leader s ss).
Proof.
  intros H. unfold accept_stopsign_leader. destruct (i_append_stopsign _ _) as [is r]. apply bind_f.
  - destruct r as [[acc es]|]; [apply send_ad_f|cbn]; auto with fr.
  - intros s1 H2. apply lift_f. intros ls Hl. apply lift_f. intros l _. apply for_each_f; [|eapply fr_setacc; eauto]. intros. apply send_ss_f; auto.
Qed.
Lemma forward_props_f s es : FR s -> FR (forward_proposals s es).
Proof. intros H. unfold forward_proposals. destruct (_ && _); auto with fr. Qed.
Lemma forward_ss_f s ss : FR s -> FR (forward_stopsign s ss).
Proof. intros H. unfold forward_stopsign. destruct (_ && _); auto with fr. destruct (s_bss s); auto with fr. Qed.
Lemma handle_leader_f s n : FR s -> fok (handle_leader s n).
Proof.
  intros H. unfold handle_leader. destruct (_ || _); [exact H|]. destruct (Nat.eqb_spec (s_pid s) (b_pid n)) as [He|]; [|cbn; auto with fr]. cbn zeta.
  apply lift_f. intros [ls m] Hl. cbn [fok]. apply fr_push_all. cbn [s_ls set_is set_ls] in Hl. destruct H as [H1 H2 H3 H4].
  rewrite (lv_max _ H3), (lv_q _ H3) in Hl. destruct (lv_setp _ _ _ _ _ _ (lv_with n) Hl) as [X1 X2]. constructor; auto. cbn. intros _. rewrite X2. cbn. congruence.
Qed.
Lemma handle_preparereq_f s n from : FR s -> fok (handle_preparereq s n from).
Proof.
  intros H. unfold handle_preparereq. destruct (_ && _); [|exact H]. apply lift_f. intros l1 H1. apply lift_f. intros l2 H2. cbn. apply fr_push, fr_lset; auto.
  destruct (lv_upd_prom _ _ NotPromised _ (fr_ls _ H) eq_refl H1) as [X1 X2]. destruct (lv_setmeta _ _ _ _ X1 H2). split; [auto|congruence].
Qed.
Lemma fwd_prop_f s es : FR s -> fok (handle_forwarded_proposal s es).
Proof.
  intros H. unfold handle_forwarded_proposal. destruct (accepted_reconfiguration s); [exact H|].
  destruct (s_role s), (s_phase s); cbn [fok]; try (apply forward_props_f; auto); auto with fr. apply accept_entries_f; auto.
Qed.
Lemma fwd_ss_f s ss : FR s -> fok (handle_forwarded_stopsign s ss).
Proof.
  intros H. unfold handle_forwarded_stopsign. destruct (accepted_reconfiguration s); [exact H|].
  destruct (s_role s), (s_phase s); cbn [fok]; try (apply forward_ss_f; auto); auto with fr. apply accept_ss_f; auto.
Qed.
Lemma send_accsync_f s to : FR s -> fok (send_accsync s to).
Proof.
  intros H. unfold send_accsync. apply lift_f. intros m _. apply lift_f. intros fd _. apply lift_f. intros sy Hsy.
  apply lift_f. intros l1 H1. apply lift_f. intros [l2 sq] H2. destruct (lv_incr _ _ _ (fr_ls _ H) H1) as [X1 X2]. destruct (lv_next _ _ _ _ X1 H2) as [Y1 Y2].
  cbn. apply fr_push, fr_lset; auto. split; [auto|congruence].
Qed.
Lemma majority_f s : FR s -> s_role s = Leader -> fok (handle_majority_promises s).
Proof.
  intros H Hr. unfold handle_majority_promises, take_max_promise_sync. cbn zeta.
  set (s1 := set_ls s (l_set_max (s_ls s) (l_maxmeta (s_ls s)) None)). assert (H1 : FR s1) by (apply fr_lset; auto; split; auto; apply lv_take, (fr_ls _ H)).
  destruct (sync_log _ _ _ _) as [[is acc]|tr]; [|exact I]. cbn [bind].
  match goal with |- fok (let '(_, _) := ?e in _) => assert (Hx : FR (fst e) /\ s_role (fst e) = Leader); [|destruct e as [s3 acc3]; cbn [fst] in Hx] end.
  { destruct (accepted_reconfiguration (set_is s1 is)); [split; [cbn; auto with fr|exact Hr]|].
    match goal with |- FR (fst (let '(_, _) := ?e in _)) /\ _ => assert (Hx : FR (fst e) /\ s_role (fst e) = Leader); [|destruct e as [s3 acc3]; cbn [fst] in Hx] end.
    { destruct (s_bprops _) as [|e es]; [split; [cbn; auto with fr|exact Hr]|]. destruct (append_entries_without_batching _ _) as [is2 acc2]. split; [cbn; auto with fr|exact Hr]. }
    destruct Hx. destruct (s_bss s3) as [ss|]; auto. cbn [fst]. split; auto with fr. }
  destruct Hx as [Hx Hy].
  assert (H4 : FR (set_state s3 Leader PhAccept)). { destruct Hx. constructor; auto. }
  apply lift_f. intros ls Hl. assert (H5 : FR (set_ls (set_state s3 Leader PhAccept) ls)) by (eapply fr_setacc; eauto).
  apply lift_f. intros l _. apply for_each_f; auto. intros. apply send_accsync_f; auto.
Qed.
Lemma promise_prepare_f s p from : FR s -> s_role s = Leader -> fok (handle_promise_prepare s p from).
Proof.
  intros H Hr. unfold handle_promise_prepare. destruct (beq _ _); [|exact H]. apply lift_f. intros [ls m] Hl.
  assert (H1 : FR (set_ls s ls)) by (apply fr_lset; auto; eapply lv_setp; eauto; apply (fr_ls _ H)). destruct m; [apply majority_f; auto|exact H1].
Qed.
Lemma promise_accept_f s p from : FR s -> fok (handle_promise_accept s p from).
Proof.
  intros H. unfold handle_promise_accept. destruct (beq _ _); [|exact H]. apply lift_f. intros [ls m] Hl.
  apply send_accsync_f, fr_lset; auto. eapply lv_setp; eauto. apply (fr_ls _ H).
Qed.
Lemma handle_accepted_f s n a from : FR s -> fok (handle_accepted s n a from).
Proof.
  intros H. unfold handle_accepted. destruct (_ && _); [|exact H]. apply lift_f. intros ls Hl. assert (H1 : FR (set_ls s ls)) by (eapply fr_setacc; eauto).
  destruct (_ && _); [|exact H1]. apply lift_f. intros l _. apply for_each_f; auto with fr. intros s1 p H2. unfold handle_accepted_to. apply lift_f. intros [idx|] _; [cbn; auto with fr|apply send_decide_f; auto].
Qed.
Lemma notaccepted_f s n from : FR s -> fok (handle_notaccepted s n from).
Proof.
  intros H. unfold handle_notaccepted. destruct (_ && _); [|exact H]. apply lift_f. intros ls Hl. apply fr_lset; auto. eapply lv_upd_prom; [apply (fr_ls _ H)| |exact Hl]. reflexivity.
Qed.
Lemma prepare_all_f l : forall s, FR s -> FR (fold_left send_prepare l s).
Proof. induction l as [|p l IH]; cbn; intros s H; auto. apply IH, fr_push; auto. Qed.
Lemma resend_leader_f s : FR s -> fok (resend_messages_leader s).
Proof.
  intros H. unfold resend_messages_leader. destruct (s_phase s); [| |exact H|exact H].
  - apply lift_f. intros l _. apply prepare_all_f; auto.
  - apply bind_f.
    + destruct (i_ss (s_is s)) as [ss|]; [|exact H]. apply lift_f. intros l _. apply for_each_f; auto. intros s1 p H1. unfold resend_ss_to.
      destruct (stopsign_is_decided _); [apply send_decide_f; auto|]. apply lift_f. intros a _. destruct (a =? _); [exact H1|apply send_ss_f; auto].
    + intros s1 H1. apply lift_f. intros l _. apply prepare_all_f; auto.
Qed.
Lemma reconnected_f s p : FR s -> FR (reconnected s p).
Proof. intros H. unfold reconnected. destruct (p =? s_pid s); auto. apply fr_push. destruct (p =? sp_leader s); auto with fr. Qed.
Lemma handle_prepare_f s n d na a from : FR s -> fok (handle_prepare s n d na a from).
Proof.
  intros H. unfold handle_prepare. destruct (_ || _); [|exact H]. cbn zeta. match goal with |- fok (bind ?e ?f) => destruct e as [sy|tr] end; [|exact I]. cbn [bind fok]. auto 10 with fr.
Qed.
Lemma check_valid_f s b : FR s -> FR (fst (check_valid_ballot s b)).
Proof. intros H. unfold check_valid_ballot. destruct (bcmp _ _); cbn [fst]; auto with fr. apply reconnected_f; auto. Qed.
Lemma seqnum_f s q from : FR s -> FR (fst (handle_sequence_num s q from)).
Proof. intros H. unfold handle_sequence_num. destruct (check_msg_status _ _); cbn [fst]; auto with fr. apply reconnected_f; auto. Qed.
Lemma reply_f s n a : FR s -> fok (reply_accepted s n a).
Proof. intros H. unfold reply_accepted. apply lift_f. intros [idx|] _; cbn; auto with fr. Qed.
Lemma fwd_buffered_f s : FR s -> FR (forward_buffered_proposals s).
Proof. intros H. unfold forward_buffered_proposals. destruct (s_bprops s); [|apply forward_props_f]; auto with fr. Qed.
Lemma acceptsync_f s n q d sy from : FR s -> fok (handle_acceptsync s n q d sy from).
Proof.
  intros H. unfold handle_acceptsync. pose proof (check_valid_f s n H) as H1. destruct (check_valid_ballot s n) as [s1 v]. cbn [fst] in H1. destruct (_ && _); [|exact H1].
  destruct (sync_log _ _ _ _) as [[is acc]|tr]; [|exact I]. cbn [bind fok]. apply fr_push, fr_lam, fr_cseq, fr_follower. destruct (i_ss _); [|apply fwd_buffered_f]; auto with fr.
Qed.
Lemma update_decided_f s d : FR s -> FR (fst (update_decided s d)).
Proof. intros H. unfold update_decided. destruct (d <=? _); auto. destruct (_ <? d); [destruct (flush_batch _)|]; cbn [fst]; auto with fr. Qed.
Lemma acceptdecide_f s n q d es : FR s -> fok (handle_acceptdecide s n q d es).
Proof.
  intros H. unfold handle_acceptdecide. pose proof (check_valid_f s n H) as H1. destruct (check_valid_ballot s n) as [s1 v]. cbn [fst] in H1. destruct (_ && _); [|exact H1].
  pose proof (seqnum_f s1 q (b_pid n) H1) as H2. destruct (handle_sequence_num s1 q (b_pid n)) as [s2 st]. cbn [fst] in H2. destruct st; [|exact H2|exact H2].
  destruct (append_entries_and_get_accepted_idx _ _) as [is r1].
  pose proof (update_decided_f _ d (fr_is s2 is H2)) as H4. destruct (update_decided _ _) as [s4 r2]. cbn [fst] in H4.
  destruct (match r2 with Some _ => r2 | None => r1 end); [apply reply_f; auto|exact H4].
Qed.
Lemma accept_ss_f_f s n q ss : FR s -> fok (handle_accept_stopsign s n q ss).
Proof.
  intros H. unfold handle_accept_stopsign. pose proof (check_valid_f s n H) as H1. destruct (check_valid_ballot s n) as [s1 v]. cbn [fst] in H1. destruct (_ && _); [|exact H1].
  pose proof (seqnum_f s1 q (b_pid n) H1) as H2. destruct (handle_sequence_num s1 q (b_pid n)) as [s2 st]. cbn [fst] in H2. destruct st; [|exact H2|exact H2].
  cbn zeta. destruct (i_set_stopsign _ _) as [[is acc]|tr]; [|exact I]. cbn [bind]. apply reply_f. auto with fr.
Qed.
Lemma decide_f s n q d : FR s -> fok (handle_decide s n q d).
Proof.
  intros H. unfold handle_decide. pose proof (check_valid_f s n H) as H1. destruct (check_valid_ballot s n) as [s1 v]. cbn [fst] in H1. destruct (_ && _); [|exact H1].
  pose proof (seqnum_f s1 q (b_pid n) H1) as H2. destruct (handle_sequence_num s1 q (b_pid n)) as [s2 st]. cbn [fst] in H2. destruct st; [|exact H2|exact H2].
  pose proof (update_decided_f _ d H2) as H4. destruct (update_decided _ _) as [s4 r2]. cbn [fst] in H4. destruct r2; [apply reply_f; auto|exact H4].
Qed.
Lemma resend_follower_f s : FR s -> FR (resend_messages_follower s).
Proof.
  intros H. unfold resend_messages_follower, send_preparereq_to_all_peers. destruct (s_phase s); auto with fr. destruct (s_cprom s) as [p|]; auto with fr.
Qed.
Lemma flush_follower_f s : FR s -> fok (flush_batch_follower s).
Proof. intros H. unfold flush_batch_follower. destruct (flush_batch _) as [is a]. destruct (_ <? a); [apply reply_f|cbn]; auto with fr. Qed.
Lemma trim_f s i : FR s -> fok2 (sp_trim s i).
Proof.
  intros H. unfold sp_trim. destruct (s_role s); [exact H|]. destruct (get_min_all_accepted_idx _) as [mn|]; cbn [lift bind]; [|exact I].
  assert (Main : forall k, fok2 ('(is, r) <- try_trim (s_is s) k ;;
        let s := set_is s is in
        match r with
        | None => Ok (push_all s (s_peers s) (MCompaction (CmpTrim k)), None)
        | Some e => Ok (s, Some e)
        end)).
  { intros k. destruct (try_trim _ _) as [[is r]|tr]; [|exact I]. cbn [bind]. destruct r; cbn [fok2]; auto with fr. }
  cbn zeta. destruct i as [i|]; [|apply Main]. destruct (i <=? mn); [apply Main|exact H].
Qed.
Lemma snapshot_f s i l : FR s -> fok2 (sp_snapshot s i l).
Proof. intros H. unfold sp_snapshot. destruct (try_snapshot _ _) as [[is r]|tr]; [|exact I]. cbn [bind]. destruct r; cbn [fok2]; auto with fr. destruct l; auto with fr. Qed.
Lemma compaction_f s c : FR s -> fok (handle_compaction s c).
Proof.
  intros H. unfold handle_compaction. destruct c as [i|i].
  - destruct (try_trim _ _) as [[is r]|tr]; [|exact I]. cbn. auto with fr.
  - pose proof (snapshot_f s i true H) as X. destruct (sp_snapshot s i true) as [[s1 r]|tr]; exact X.
Qed.
Lemma sp_handle_f s m : FR s -> fok (sp_handle s m).
Proof.
  intros H. unfold sp_handle. destruct (pm_msg m) as [n|n d na a|p|n q d sy|n q d es|n a|n|n q d|es|c|n q ss|ss].
  - apply handle_preparereq_f; auto.
  - apply handle_prepare_f; auto.
  - destruct (s_role s) eqn:Hr, (s_phase s); try exact H; [apply promise_prepare_f|apply promise_accept_f]; auto.
  - apply acceptsync_f; auto.
  - apply acceptdecide_f; auto.
  - apply handle_accepted_f; auto.
  - apply notaccepted_f; auto.
  - apply decide_f; auto.
  - apply fwd_prop_f; auto.
  - apply compaction_f; auto.
  - apply accept_ss_f_f; auto.
  - apply fwd_ss_f; auto.
Qed.
Lemma propose_f s e : FR s -> fok (propose_entry s e).
Proof. intros H. unfold propose_entry. destruct (s_role s), (s_phase s); cbn [fok]; try (apply forward_props_f; auto); auto with fr. apply accept_entry_f; auto. Qed.
Lemma append_f s e : FR s -> fok2 (sp_append s e).
Proof.
  intros H. unfold sp_append. destruct (accepted_reconfiguration s); [exact H|]. pose proof (propose_f s e H) as X. destruct (propose_entry s e); exact X.
Qed.
Lemma reconfigure_f s c m : FR s -> fok2 (sp_reconfigure s c m).
Proof.
  intros H. unfold sp_reconfigure. destruct (accepted_reconfiguration s); [exact H|]. cbn zeta.
  match goal with |- fok2 (bind ?e _) => assert (X : fok e); [|destruct e; exact X] end.
  destruct (s_role s), (s_phase s); cbn [fok]; try (apply forward_ss_f; auto); auto with fr. apply accept_ss_f; auto.
Qed.

Definition foko {B} (r : res (omni * B)) : Prop := match r with Ok (o, _) => FR (o_sp o) | Panic _ => True end.
Definition foko1 (r : res omni) : Prop := match r with Ok o => FR (o_sp o) | Panic _ => True end.
Lemma resend_timeout_f s : FR s -> fok (resend_message_timeout s).
Proof. intros H. unfold resend_message_timeout. destruct (s_role s); [apply resend_follower_f; auto|apply resend_leader_f; auto]. Qed.
Lemma flush_timeout_f s : FR s -> fok (flush_batch_timeout s).
Proof. intros H. unfold flush_batch_timeout. destruct (s_role s), (s_phase s); try exact H; [apply flush_follower_f|apply flush_leader_f]; auto. Qed.
Lemma tick_f o : FR (o_sp o) -> foko1 (tick o).
Proof.
  intros H. unfold tick. destruct (clock_tick (o_eclk o)) as [ec f1]. 
  match goal with |- foko1 (bind ?e _) => assert (X : foko1 e); [|destruct e as [o1|tr]; [|exact X]] end.
  { destruct f1; [|exact H]. unfold election_timeout. destruct (hb_timeout _ _ _) as [b [n|]]; [|exact H]. pose proof (handle_leader_f (o_sp o) n H) as X.
    cbn [o_sp]. destruct (handle_leader _ _); exact X. }
  cbn [bind]. cbn in X. destruct (clock_tick (o_rclk o1)) as [rc f2].
  match goal with |- foko1 (bind ?e _) => assert (X2 : foko1 e); [|destruct e as [o2|tr]; [|exact X2]] end.
  { destruct f2; [|exact X]. cbn [o_sp]. pose proof (resend_timeout_f _ X) as Y. destruct (resend_message_timeout (o_sp o1)); exact Y. }
  cbn [bind]. cbn in X2. destruct (clock_tick (o_fclk o2)) as [fc f3]. destruct f3; [|exact X2]. cbn [o_sp].
  pose proof (flush_timeout_f _ X2) as Y. destruct (flush_batch_timeout (o_sp o2)); exact Y.
Qed.
Lemma exec_f o c : FR (o_sp o) -> foko (exec o c).
Proof.
  intros H0. unfold exec. assert (H : FR (o_sp (start_call o))) by (cbn; auto with fr). clear H0. set (o1 := start_call o) in *. clearbody o1. destruct c as [e|cc0 meta| |i|i l|q| |q|m]; cbn [exec_call].
  - pose proof (append_f _ e H) as X. destruct (sp_append _ _) as [[s r]|]; exact X.
  - unfold reconfigure. destruct (cluster_validate cc0); [|exact H]. pose proof (reconfigure_f (o_sp o1) cc0 meta H) as X. destruct (sp_reconfigure _ _ _) as [[s r]|]; exact X.
  - pose proof (tick_f o1 H) as X. destruct (tick o1); exact X.
  - pose proof (trim_f (o_sp o1) i H) as X. destruct (sp_trim _ _) as [[s r]|]; exact X.
  - pose proof (snapshot_f (o_sp o1) i l H) as X. destruct (sp_snapshot _ _ _) as [[s r]|]; exact X.
  - cbn. apply reconnected_f; auto.
  - unfold try_become_leader. pose proof (handle_leader_f (o_sp o1) (set_n (e_ballot (o_ble o1)) (b_n (sp_promise (o_sp o1)) + 1)) H) as X. destruct (handle_leader _ _); exact X.
  - exact H.
  - unfold handle_incoming. destruct m as [m|m]; [|exact H]. pose proof (sp_handle_f (o_sp o1) m H) as X. destruct (sp_handle _ _); exact X.
Qed.
Lemma take_f o buf o' l : FR (o_sp o) -> take_outgoing_messages o buf = (o', l) -> FR (o_sp o').
Proof.
  intros H. unfold take_outgoing_messages, sp_take_outgoing. intros X. destruct H. assert (Hr := lv_reset _ fr_ls0).
  destruct buf; injection X as <- _; constructor; auto.
Qed.
End Fix.

Lemma fold_max_le l : forall a, a <= fold_left Nat.max l a /\ forall x, In x l -> x <= fold_left Nat.max l a.
Proof.
  induction l as [|y l IH]; cbn; intros a; [split; [lia|tauto]|]. destruct (IH (Nat.max a y)) as [H1 H2]. split; [lia|]. intros x [->|Hx]; [lia|auto].
Qed.
(** The constants of a server, fixed when it is built. *)
Definition maxpid (o : omni) : nat := l_maxpid (s_ls (o_sp o)).
Definition Framed (o : omni) : Prop :=
  FR (s_pid (o_sp o)) (s_peers (o_sp o)) (maxpid o) (l_quorum (s_ls (o_sp o))) (o_sp o) /\
  1 <= s_pid (o_sp o) <= maxpid o /\ Forall (fun p => p <= maxpid o /\ p <> s_pid (o_sp o)) (s_peers (o_sp o)).

Lemma build_f cc sc st o : build cc sc st = BOk o -> Framed o.
Proof.
  unfold build. destruct (config_validate cc sc) eqn:Hv; [|discriminate]. unfold sp_with.
  assert (Hp : 1 <= sc_pid sc). { unfold config_validate, server_validate in Hv. rewrite !andb_true_iff, !negb_true_iff, !Nat.eqb_neq in Hv. lia. }
  assert (Hne : forall p, In p (peers_of cc (sc_pid sc)) -> p <> sc_pid sc).
  { intros p Hin. apply filter_In in Hin. destruct Hin as [_ Hin]. apply negb_true_iff, Nat.eqb_neq in Hin. auto. }
  destruct (peers_of cc (sc_pid sc)) as [|p0 pr]; [discriminate|].
  destruct (fold_max_le pr p0) as [F1 F2]. destruct (ms_prom st) as [b|]; intros X; injection X as <-; (split; [|split]); unfold maxpid; cbn;
    try (constructor; cbn; auto; [apply lv_with|discriminate]); try lia; rewrite Forall_forall; intros p [->|Hin]; (split; [|apply Hne; cbn; auto]); try lia; specialize (F2 _ Hin); lia.
Qed.
Lemma framed_exec o c o' r : Framed o -> exec o c = Ok (o', r) ->
  Framed o' /\ s_pid (o_sp o') = s_pid (o_sp o) /\ s_peers (o_sp o') = s_peers (o_sp o) /\ maxpid o' = maxpid o /\ l_quorum (s_ls (o_sp o')) = l_quorum (s_ls (o_sp o)).
Proof.
  intros (H1 & H2 & H3) He. pose proof (exec_f _ _ _ _ o c H1) as X. rewrite He in X. cbn in X. destruct X as [X1 X2 X3 X4].
  assert (E1 : maxpid o' = maxpid o) by apply (lv_max _ _ _ X3). assert (E2 := lv_q _ _ _ X3). split; [|auto].
  unfold Framed. rewrite X1, X2, E1, E2. split; [constructor; auto|auto].
Qed.
Lemma framed_take o buf o' l : Framed o -> take_outgoing_messages o buf = (o', l) -> Framed o'.
Proof.
  intros (H1 & H2 & H3) He. pose proof (take_f _ _ _ _ _ _ _ _ H1 He) as X. destruct X as [X1 X2 X3 X4].
  assert (E1 : maxpid o' = maxpid o) by apply (lv_max _ _ _ X3). assert (E2 := lv_q _ _ _ X3).
  unfold Framed. rewrite X1, X2, E1, E2. split; [constructor; auto|auto].
Qed.
Lemma framed_lives o o' : Framed o -> lives o o' -> Framed o'.
Proof.
  intros H Hl. induction Hl as [|o o1 o2 _ IH Hs]; auto. specialize (IH H). destruct Hs as [o1 c o' r He|o1 buf o' l Ht|o1 c st cc sc o' Hin Hb].
  - apply (framed_exec _ _ _ _ IH He).
  - eapply framed_take; eauto.
  - eapply build_f; eauto.
Qed.
Lemma framed_state o : server_state o -> Framed o.
Proof. intros (cc & sc & o0 & Hb & Hl). eapply framed_lives; eauto. eapply build_f; eauto. Qed.
End WithEntry.
