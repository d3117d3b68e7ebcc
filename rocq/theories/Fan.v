(** * How many messages one call queues for one receiver

    A sweep through all handlers for C77.  [q] is the receiver whose messages are counted. *)
From Coq Require Import List Arith Bool Lia.
Import ListNotations.
From Verif Require Import Types Config MemStore Internal LeaderState SeqPaxos Ble Omni System Basics Spec Prims PropElect.
From Verif Require Local LeadLinks PropAnswer PropSend PropStable Quiet Route.

Section WithEntry.
Context {E : EntryT}.
Section Fix.
Context (q : node_id).
Definition cnt (l : list pmessage) : nat := length (filter (fun m => pm_to m =? q) l).
Definition hit (x : node_id) : nat := if x =? q then 1 else 0.
Definition occ (l : list node_id) : nat := length (filter (fun x => x =? q) l).
(** At most [k] queued messages for [q]. *)
Definition B (k : nat) (s : sp) : Prop := NoDup (s_peers s) /\ cnt (s_out s) <= k.
Definition Br k (r : res sp) : Prop := match r with Ok s => B k s | Panic _ => True end.

(** ** Updates *)
Lemma cnt_app a b : cnt (a ++ b) = cnt a + cnt b. Proof. unfold cnt. rewrite filter_app, app_length. reflexivity. Qed.
Lemma hit_le x : hit x <= 1. Proof. unfold hit. destruct (_ =? _); lia. Qed.
Lemma occ_cons x l : occ (x :: l) = hit x + occ l. Proof. unfold occ, hit. cbn. destruct (x =? q); reflexivity. Qed.
Lemma occ_zero l : ~ In q l -> occ l = 0.
Proof. induction l as [|x l IH]; intros H; [reflexivity|]. rewrite occ_cons, IH; [|intros X; apply H; right; exact X]. unfold hit. destruct (Nat.eqb_spec x q) as [->|]; [destruct H; left; reflexivity|reflexivity]. Qed.
Lemma occ_one l : NoDup l -> occ l <= 1.
Proof. induction 1 as [|x l Hx Hl IH]; [cbn; lia|]. rewrite occ_cons. unfold hit. destruct (Nat.eqb_spec x q) as [->|]; [rewrite (occ_zero l Hx); lia|lia]. Qed.
Lemma b_le k k' s : k <= k' -> B k s -> B k' s. Proof. intros H [H1 H2]. split; [exact H1|lia]. Qed.
Lemma br_le k k' r : k <= k' -> Br k r -> Br k' r. Proof. destruct r; cbn; auto. apply b_le. Qed.
Lemma b_lift {A} k s (o : option A) (f : A -> res sp) : (forall x, o = Some x -> Br k (f x)) -> Br k (bind (lift s o) f).
Proof. intros H. destruct o; cbn; auto. Qed.
Lemma b_push k s x m : B k s -> B (k + hit x) (push s x m).
Proof. intros [H1 H2]. split; [exact H1|]. change (cnt (s_out s ++ [mkPM (s_pid s) x m]) <= k + hit x). rewrite cnt_app. replace (cnt [mkPM (s_pid s) x m]) with (hit x) by (unfold cnt, hit; cbn; destruct (x =? q); reflexivity). lia. Qed.
Lemma push_all_st m l : forall s, s_role (push_all s l m) = s_role s /\ s_phase (push_all s l m) = s_phase s.
Proof. unfold push_all. induction l as [|x l IH]; intros s; [auto|]. exact (IH (push s x m)). Qed.
Lemma b_push1 k s x m : B k s -> B (k + 1) (push s x m).
Proof. intros H. apply (b_le (k + hit x)); [pose proof (hit_le x); lia|apply b_push; exact H]. Qed.
Lemma b_push_all m l : forall k s, B k s -> B (k + occ l) (push_all s l m).
Proof. unfold push_all. induction l as [|x l IH]; intros k s H; [apply (b_le k); [lia|exact H]|]. rewrite occ_cons. cbn [fold_left]. rewrite Nat.add_assoc. apply IH. apply b_push; exact H. Qed.
Lemma b_peers m k s : B k s -> B (k + 1) (push_all s (s_peers s) m).
Proof. intros H. apply (b_le (k + occ (s_peers s))); [pose proof (occ_one _ (proj1 H)); lia|apply b_push_all; exact H]. Qed.
Lemma b_peers2 m k s l : NoDup l -> B k s -> B (k + 1) (push_all s l m).
Proof. intros Hl H. apply (b_le (k + occ l)); [pose proof (occ_one _ Hl); lia|apply b_push_all; exact H]. Qed.
Lemma b_each f l : (forall k s x, B k s -> Br (k + hit x) (f s x)) -> forall k s, B k s -> Br (k + occ l) (for_each s l f).
Proof.
  intros Hf. induction l as [|x l IH]; intros k s H; [apply (b_le k); [lia|exact H]|]. rewrite occ_cons. cbn [for_each]. pose proof (Hf k s x H) as X. destruct (f s x) as [s1|]; [|exact I]. cbn in *. rewrite Nat.add_assoc. apply IH; exact X.
Qed.
Lemma b_each1 f l : (forall k s x, B k s -> Br (k + hit x) (f s x)) -> NoDup l -> forall k s, B k s -> Br (k + 1) (for_each s l f).
Proof. intros Hf Hl k s H. apply (br_le (k + occ l)); [pose proof (occ_one _ Hl); lia|apply b_each; auto]. Qed.
Lemma b_prepares l : forall k s, B k s -> B (k + occ l) (fold_left send_prepare l s).
Proof. induction l as [|x l IH]; intros k s H; [apply (b_le k); [lia|exact H]|]. rewrite occ_cons. cbn [fold_left]. rewrite Nat.add_assoc. apply IH. apply b_push; exact H. Qed.
Lemma b_mod k s j f : B k s -> B k (mod_accdec s j f).
Proof.
  intros [H1 H2]. unfold mod_accdec. destruct (nth_error (s_out s) j) as [m|] eqn:Hn; [|split; auto]. split; [exact H1|]. cbn [s_out set_out].
  match goal with |- cnt (upd _ _ ?y) <= _ => destruct (Quiet.upd_split _ _ _ y Hn) as (A & C & X1 & _ & X2) end. rewrite X2. rewrite X1 in H2. rewrite !cnt_app in *. unfold cnt in *. cbn in *. destruct (pm_to m =? q); exact H2.
Qed.
Lemma b_gpf l ps : get_promised_followers l = Some ps -> NoDup ps. Proof. intros H. apply (LeadLinks.gpf_spec l ps H). Qed.
Lemma b_gpp l : forall qs ps, get_preparable_peers l qs = Some ps -> (forall x, In x ps -> In x qs /\ vget (l_proms l) x = Some NotPromised) /\ (NoDup qs -> NoDup ps).
Proof.
  induction qs as [|x qs IH]; cbn; intros ps H; [injection H as <-; split; [intros ? []|auto]|]. destruct (vget (l_proms l) x) as [[]|] eqn:Hx; destruct (get_preparable_peers l qs) as [t|]; try discriminate; injection H as <-; destruct (IH t eq_refl) as [I1 I2].
  - split; [intros y [<-|Hy]; [auto|]; destruct (I1 y Hy); auto|]. intros Hq. apply NoDup_cons_iff in Hq. destruct Hq as [Hq1 Hq2]. constructor; [|auto]. intros Hy. apply Hq1, I1, Hy.
  - split; [intros y Hy; destruct (I1 y Hy); auto|]. intros Hq. apply NoDup_cons_iff in Hq. apply I2, Hq.
  - split; [intros y Hy; destruct (I1 y Hy); auto|]. intros Hq. apply NoDup_cons_iff in Hq. apply I2, Hq.
Qed.

(** ** Leader *)
Lemma send_ad_b k s es : B k s -> Br (k + 1) (send_acceptdecide s es).
Proof.
  intros H. unfold send_acceptdecide. apply b_lift. intros l Hl. apply b_each1; [|apply (b_gpf _ _ Hl)|exact H]. intros k1 s1 x K. unfold send_acceptdecide_to. apply b_lift. intros [j|] _; [apply (b_le k1); [lia|apply b_mod; exact K]|].
  apply b_lift. intros l1 E1. apply b_lift. intros [l2 sq] E2. apply b_push. exact K.
Qed.
Lemma meta_b k s is r : B k s -> Br (k + 1) (match r with Some (acc, es) => ls <- lift (set_is s is) (set_accepted_idx (s_ls s) (s_pid s) acc) ;; send_acceptdecide (set_ls (set_is s is) ls) es | None => Ok (set_is s is) end).
Proof. intros H. destruct r as [[acc es]|]; [|apply (b_le k); [lia|exact H]]. apply b_lift. intros l El. apply send_ad_b. exact H. Qed.
Lemma accept_entry_b k s e : B k s -> Br (k + 1) (accept_entry_leader s e).
Proof. intros H. unfold accept_entry_leader. destruct (append_entry_with_batching _ _) as [is r]. apply (meta_b k s is r H). Qed.
Lemma accept_entries_b k s es : B k s -> Br (k + 1) (accept_entries_leader s es).
Proof. intros H. unfold accept_entries_leader. destruct (append_entries_with_batching _ _) as [is r]. apply (meta_b k s is r H). Qed.
Lemma flush_leader_b k s : B k s -> Br (k + 1) (flush_batch_leader s).
Proof. intros H. unfold flush_batch_leader. destruct (flush_batch_and_get_entries _) as [is r]. apply (meta_b k s is r H). Qed.
Lemma send_ss_b ss b k s x : B k s -> Br (k + hit x) (send_accept_stopsign ss b s x).
Proof. intros H. unfold send_accept_stopsign. apply b_lift. intros [l sq] El. apply b_push. exact H. Qed.
Lemma send_decide_b d b k s x : B k s -> Br (k + hit x) (send_decide d b s x).
Proof. intros H. unfold send_decide. apply b_lift. intros [l sq] El. apply b_push. exact H. Qed.
Lemma accept_ss_b k s ss : B k s -> Br (k + 2) (accept_stopsign_leader s ss).
Proof.
  intros H. unfold accept_stopsign_leader. destruct (i_append_stopsign _ _) as [is r].
  match goal with |- Br _ (bind ?e _) => assert (X : Br (k + 1) e); [|destruct e as [s1|]; [|exact I]] end.
  { destruct r as [[a es]|]; [apply send_ad_b; exact H|apply (b_le k); [lia|exact H]]. }
  cbn [bind]. apply b_lift. intros l El. apply b_lift. intros ps Hps. replace (k + 2) with (k + 1 + 1) by lia. apply b_each1; [intros; apply send_ss_b; auto|apply (b_gpf _ _ Hps)|exact X].
Qed.
Lemma accsync_b k s x : B k s -> Br (k + hit x) (send_accsync s x).
Proof. intros H. unfold send_accsync. apply b_lift; intros ? _. apply b_lift; intros ? _. apply b_lift; intros ? _. apply b_lift; intros l1 E1. apply b_lift. intros [l sq] E2. apply b_push. exact H. Qed.
Lemma majority_b k s : B k s -> Br (k + 1) (handle_majority_promises s).
Proof.
  intros H. unfold handle_majority_promises, take_max_promise_sync. destruct (sync_log _ _ _ _) as [[is acc]|] eqn:Hs; [|exact I]. cbn [bind].
  match goal with |- Br _ (let '(_, _) := ?e in _) => assert (X : B k (fst e)); [|destruct e as [s1 acc1]; cbn [fst] in X] end.
  { set (s2 := set_is _ is). assert (H2 : B k s2) by exact H. destruct (accepted_reconfiguration s2); [exact H2|].
    match goal with |- B k (fst (let '(_, _) := ?e in _)) => assert (X : B k (fst e)); [|destruct e as [s3 acc3]; cbn [fst] in X] end.
    { destruct (s_bprops s2); [exact H2|]. cbn. exact H2. }
    destruct (s_bss s3); exact X. }
  apply b_lift. intros l El. apply b_lift. intros ps Hps. apply b_each1; [intros; apply accsync_b; auto|apply (b_gpf _ _ Hps)|exact X].
Qed.
Lemma accepted_b k s n a from : B k s -> Br (k + 1) (handle_accepted s n a from).
Proof.
  intros H. assert (H0 : B (k + 1) s) by (apply (b_le k); [lia|exact H]). unfold handle_accepted. destruct (beq n _ && _); [|exact H0]. apply b_lift. intros l El. cbn zeta. destruct (_ && _); [|exact H0]. apply b_lift. intros ps Hps. apply b_each1; [|apply (b_gpf _ _ Hps)|exact H].
  intros k1 s1 x K. unfold handle_accepted_to. apply b_lift. intros [j|] _; [apply (b_le k1); [lia|apply b_mod; exact K]|apply send_decide_b; auto].
Qed.
(** A server that starts an election is in the prepare phase afterwards. *)
Lemma handle_leader_b k s n s' : b_pid n = s_pid s -> B k s -> handle_leader s n = Ok s' -> s' = s \/ B (k + 1) s' /\ s_role s' = Leader /\ s_phase s' = PhPrepare.
Proof.
  intros Hn H He. unfold handle_leader in He. destruct (ble n _ || ble n _); [injection He as <-; left; reflexivity|]. right.
  rewrite Hn, Nat.eqb_refl in He. destruct (ls_set_promise _ _ _ _) as [[l m]|] eqn:El; [|discriminate]. injection He as <-. split; [|match goal with |- context [push_all ?a ?b ?c] => destruct (push_all_st c b a) as [-> ->] end; auto].
  apply b_peers2; [exact (proj1 H)|exact H].
Qed.
(** Stop signs go to servers that have promised, [Prepare] to those that have not. *)
Lemma each_proms f l : (forall s x s', f s x = Ok s' -> l_proms (s_ls s') = l_proms (s_ls s) /\ s_peers s' = s_peers s) -> forall s s', for_each s l f = Ok s' -> l_proms (s_ls s') = l_proms (s_ls s) /\ s_peers s' = s_peers s.
Proof.
  intros Hf. induction l as [|x l IH]; cbn; intros s s' H; [injection H as <-; auto|]. destruct (f s x) as [s1|] eqn:Hx; [|discriminate]. cbn in H. destruct (Hf _ _ _ Hx) as [X1 X2]. destruct (IH _ _ H) as [Y1 Y2]. split; congruence.
Qed.
Lemma resend_ss_b ss d k s x : B k s -> Br (k + hit x) (resend_ss_to ss d s x).
Proof. intros H. unfold resend_ss_to. destruct (stopsign_is_decided _); [apply send_decide_b; exact H|]. apply b_lift. intros a _. destruct (_ =? _); [apply (b_le k); [lia|exact H]|apply send_ss_b; exact H]. Qed.
Lemma resend_ss_proms ss d s x s' : resend_ss_to ss d s x = Ok s' -> l_proms (s_ls s') = l_proms (s_ls s) /\ s_peers s' = s_peers s.
Proof.
  unfold resend_ss_to, send_decide, send_accept_stopsign. destruct (stopsign_is_decided _).
  - intros H. match type of H with bind (lift _ ?e) _ = _ => destruct e as [[l sq]|] eqn:El; [|discriminate] end. apply (PropSend.v_seq (s_ls s) true) in El. injection H as <-. cbn. split; [apply El|reflexivity].
  - destruct (ls_get_accepted_idx _ _); [|discriminate]. cbn [lift bind]. destruct (_ =? _); [intros H; injection H as <-; auto|]. intros H. match type of H with bind (lift _ ?e) _ = _ => destruct e as [[l sq]|] eqn:El; [|discriminate] end. apply (PropSend.v_seq (s_ls s) true) in El. injection H as <-. cbn. split; [apply El|reflexivity].
Qed.
Lemma prepares_st l : forall s, s_role (fold_left send_prepare l s) = s_role s /\ s_phase (fold_left send_prepare l s) = s_phase s.
Proof. induction l as [|x l IH]; intros s; [auto|]. exact (IH (send_prepare s x)). Qed.
Lemma resend_leader_b k s : B k s -> Br (k + 1) (resend_messages_leader s).
Proof.
  intros H. assert (H0 : B (k + 1) s) by (apply (b_le k); [lia|exact H]). unfold resend_messages_leader. destruct (s_phase s); try exact H0.
  { apply b_lift. intros ps Hps. apply (b_le (k + occ ps)); [|apply b_prepares; exact H]. pose proof (occ_one ps (proj2 (b_gpp _ _ _ Hps) (proj1 H))). lia. }
  destruct (i_ss (s_is s)) as [ss|].
  - destruct (get_promised_followers (s_ls s)) as [fs|] eqn:Hfs; [|exact I]. cbn [lift bind]. pose proof (b_each _ fs (resend_ss_b ss (i_dec (s_is s))) k s H) as X. destruct (for_each s fs _) as [s1|] eqn:Hs; [|exact I]. cbn [Br bind] in *. apply each_proms in Hs; [|intros; eapply resend_ss_proms; eauto]. destruct Hs as [S1 S2].
    apply b_lift. intros ps Hps. apply (b_le (k + occ fs + occ ps)); [|apply b_prepares; exact X]. rewrite S2 in Hps. destruct (b_gpp _ _ _ Hps) as [P1 P2]. destruct (LeadLinks.gpf_spec _ _ Hfs) as [F1 F2]. pose proof (occ_one fs F1). pose proof (occ_one ps (P2 (proj1 H))).
    destruct (in_dec Nat.eq_dec q fs) as [Hi|Hi]; [|rewrite (occ_zero fs Hi); lia]. rewrite (occ_zero ps); [lia|]. intros Hj. apply F2 in Hi. destruct Hi as (_ & m & Hi). apply P1 in Hj. rewrite S1 in Hj. destruct Hj as [_ Hj]. congruence.
  - cbn [bind]. apply b_lift. intros ps Hps. apply (b_le (k + occ ps)); [|apply b_prepares; exact H]. pose proof (occ_one ps (proj2 (b_gpp _ _ _ Hps) (proj1 H))). lia.
Qed.

(** ** Follower *)
Lemma reconnected_b k s x : B k s -> B (k + 1) (reconnected s x).
Proof. intros H. unfold reconnected. destruct (_ =? _); [apply (b_le k); [lia|exact H]|]. apply b_push1. destruct (_ =? _); exact H. Qed.
Lemma valid_b k s n : B k s -> check_valid_ballot s n = (s, true) \/ exists s1, check_valid_ballot s n = (s1, false) /\ B (k + 1) s1.
Proof. intros H. unfold check_valid_ballot. destruct (bcmp _ _); [left; reflexivity|right..]; (eexists; split; [reflexivity|]); [apply reconnected_b|apply b_push1]; exact H. Qed.
Lemma seq_b k s x from : B k s -> let '(s1, st) := handle_sequence_num s x from in match st with Expected => B k s1 | _ => B (k + 1) s1 end.
Proof. intros H. unfold handle_sequence_num. destruct (check_msg_status _ _); [exact H|apply reconnected_b; exact H|apply (b_le k); [lia|exact H]]. Qed.
Lemma reply_b k s n a : B k s -> Br (k + 1) (reply_accepted s n a).
Proof. intros H. unfold reply_accepted. apply b_lift. intros [j|] _; [apply (b_le k); [lia|apply b_mod; exact H]|]. refine (b_push1 k _ _ _ _). exact H. Qed.
Lemma forward_b k s es : B k s -> B (k + 1) (forward_proposals s es).
Proof. intros H. unfold forward_proposals. cbn zeta. destruct (_ && _); [apply b_push1; exact H|apply (b_le k); [lia|exact H]]. Qed.
Lemma forward_ss_b k s ss : B k s -> B (k + 1) (forward_stopsign s ss).
Proof. intros H. unfold forward_stopsign. cbn zeta. destruct (_ && _); [apply b_push1; exact H|]. apply (b_le k); [lia|]. destruct (s_bss s); exact H. Qed.
Lemma update_decided_b k s d : B k s -> B k (fst (update_decided s d)).
Proof. intros H. unfold update_decided. destruct (_ <=? _); [exact H|]. destruct (_ <? _); [|exact H]. destruct (flush_batch _) as [is a]. exact H. Qed.
Lemma handle_b k s m : B k s -> Br (k + 2) (sp_handle s m).
Proof.
  intros H. assert (H1 : B (k + 1) s) by (apply (b_le k); [lia|exact H]). assert (H2 : B (k + 2) s) by (apply (b_le k); [lia|exact H]). assert (UP : forall r, Br (k + 1) r -> Br (k + 2) r) by (intros r; apply br_le; lia).
  assert (UB : forall s, B (k + 1) s -> B (k + 2) s) by (intros r; apply b_le; lia).
  unfold sp_handle. destruct (pm_msg m) as [n|n d na ac|pr|n x d sy|n x d es|n a|n|n x d|es|cp|n x ss|ss].
  - unfold handle_preparereq. destruct (_ && _); [|exact H2]. apply b_lift. intros l El. apply b_lift. intros l2 E2. apply UB, b_push1. exact H.
  - unfold handle_prepare. cbn zeta. destruct (_ || _); [|exact H2]. match goal with |- Br _ (bind ?e _) => destruct e; [|exact I] end. cbn [bind]. apply UB, b_push1. exact H.
  - destruct (s_role s); [exact H2|]. destruct (s_phase s); try exact H2.
    + unfold handle_promise_prepare. destruct (beq _ _); [|exact H2]. apply b_lift. intros [ls mj] El. destruct mj; [apply UP, majority_b; exact H|exact H2].
    + unfold handle_promise_accept. destruct (beq _ _); [|exact H2]. apply b_lift. intros [ls mj] El. apply UP. eapply br_le; [|apply accsync_b; exact H]. pose proof (hit_le (pm_from m)). lia.
  - unfold handle_acceptsync. destruct (valid_b k s n H) as [->|(s1 & -> & X)]; [|apply UB; exact X]. cbn [andb]. destruct (_ && _); [|exact H2]. destruct (sync_log _ _ _ _) as [[is acc]|]; [|exact I]. cbn [bind].
    replace (k + 2) with (k + 1 + 1) by lia. refine (b_push1 (k + 1) _ _ _ _).
    match goal with |- B _ (set_lam (set_cseq (set_state ?a _ _) _) _) => assert (Y : B (k + 1) a); [|exact Y] end.
    destruct (i_ss _); [exact H1|]. unfold forward_buffered_proposals. destruct (s_bprops _); [exact H1|]. apply forward_b; exact H.
  - unfold handle_acceptdecide. destruct (valid_b k s n H) as [->|(s1 & -> & X)]; [|apply UB; exact X]. cbn [andb]. match goal with |- Br _ (if ?b then _ else _) => destruct b; [|exact H2] end.
    pose proof (seq_b k s x (b_pid n) H) as Y. destruct (handle_sequence_num _ _ _) as [s2 st]. destruct st; try (apply UB; exact Y). destruct (append_entries_and_get_accepted_idx _ _) as [is r1].
    pose proof (update_decided_b k (set_is s2 is) d Y) as Z. destruct (update_decided _ _) as [s3 r2]. cbn [fst] in Z. destruct (match r2 with Some _ => r2 | None => r1 end); [apply UP, reply_b; exact Z|apply (b_le k); [lia|exact Z]].
  - apply UP, accepted_b; exact H.
  - unfold handle_notaccepted. destruct (_ && _); [|exact H2]. apply b_lift. intros l El. exact H2.
  - unfold handle_decide. destruct (valid_b k s n H) as [->|(s1 & -> & X)]; [|apply UB; exact X]. cbn [andb]. match goal with |- Br _ (if ?b then _ else _) => destruct b; [|exact H2] end.
    pose proof (seq_b k s x (b_pid n) H) as Y. destruct (handle_sequence_num _ _ _) as [s2 st]. destruct st; try (apply UB; exact Y).
    pose proof (update_decided_b k s2 d Y) as Z. destruct (update_decided _ _) as [s3 r2]. cbn [fst] in Z. destruct r2; [apply UP, reply_b; exact Z|apply (b_le k); [lia|exact Z]].
  - unfold handle_forwarded_proposal. destruct (accepted_reconfiguration s); [exact H2|]. destruct (s_role s), (s_phase s); try (apply UB, forward_b; exact H); try exact H2. apply UP, accept_entries_b; exact H.
  - unfold handle_compaction, sp_snapshot. destruct cp as [i|i].
    + destruct (try_trim _ _) as [[is r]|]; [|exact I]. exact H2.
    + destruct (try_snapshot _ _) as [[is r]|]; [|exact I]. destruct r; exact H2.
  - unfold handle_accept_stopsign. destruct (valid_b k s n H) as [->|(s1 & -> & X)]; [|apply UB; exact X]. cbn [andb]. match goal with |- Br _ (if ?b then _ else _) => destruct b; [|exact H2] end.
    pose proof (seq_b k s x (b_pid n) H) as Y. destruct (handle_sequence_num _ _ _) as [s2 st]. destruct st; try (apply UB; exact Y). destruct (i_set_stopsign _ _) as [[is acc]|]; [|exact I]. cbn [bind]. apply UP, reply_b. exact Y.
  - unfold handle_forwarded_stopsign. destruct (accepted_reconfiguration s); [exact H2|]. destruct (s_role s), (s_phase s); try (apply UB, forward_ss_b; exact H); try exact H2. apply accept_ss_b; exact H.
Qed.
Lemma resend_b k s : B k s -> Br (k + 1) (resend_message_timeout s).
Proof.
  intros H. assert (H1 : B (k + 1) s) by (apply (b_le k); [lia|exact H]). unfold resend_message_timeout. destruct (s_role s); [|apply resend_leader_b; exact H].
  unfold resend_messages_follower, send_preparereq_to_all_peers. destruct (s_phase s); try exact H1; [|apply b_peers; exact H].
  destruct (s_cprom s) as [x|]; [apply b_push1; exact H|]. apply b_peers2; [exact (proj1 H)|exact H].
Qed.
Lemma resend_prep s s' : s_role s = Leader -> s_phase s = PhPrepare -> resend_message_timeout s = Ok s' -> s_phase s' = PhPrepare.
Proof.
  intros H1 H2. unfold resend_message_timeout, resend_messages_leader. rewrite H1, H2. destruct (get_preparable_peers _ _) as [ps|]; [|discriminate]. intros H. injection H as <-. rewrite (proj2 (prepares_st ps s)). exact H2.
Qed.
Lemma flush_b k s : B k s -> Br (k + 1) (flush_batch_timeout s).
Proof.
  intros H. assert (H1 : B (k + 1) s) by (apply (b_le k); [lia|exact H]). unfold flush_batch_timeout. destruct (s_role s), (s_phase s); try exact H1; [|apply flush_leader_b; exact H].
  unfold flush_batch_follower. destruct (flush_batch _) as [is a]. destruct (_ <? _); [apply reply_b; exact H|exact H1].
Qed.
Lemma flush_prep s s' : s_phase s = PhPrepare -> flush_batch_timeout s = Ok s' -> s' = s.
Proof. intros H. unfold flush_batch_timeout. rewrite H. destruct (s_role s); intros X; injection X as <-; reflexivity. Qed.

(** ** Calls *)
Lemma exec_b o c o' r : PropAnswer.owned o -> NoDup (s_peers (o_sp o)) -> exec o c = Ok (o', r) -> B (cnt (s_out (o_sp o)) + 2) (o_sp o').
Proof.
  intros Ho HN He. set (k := cnt (s_out (o_sp o))). assert (H : B k (o_sp (start_call o))) by (split; [exact HN|apply le_n]). assert (H1 : B (k + 1) (o_sp (start_call o))) by (apply (b_le k); [lia|exact H]). assert (H2 : B (k + 2) (o_sp (start_call o))) by (apply (b_le k); [lia|exact H]).
  assert (UP : forall r, Br (k + 1) r -> Br (k + 2) r) by (intros x; apply br_le; lia). assert (UB : forall s, B (k + 1) s -> B (k + 2) s) by (intros x; apply b_le; lia).
  unfold exec in He. destruct c as [e|cc0 meta| |i|i l|x| |x|[m|m]]; cbn [exec_call] in He.
  - unfold sp_append in He. destruct (accepted_reconfiguration _); [injection He as <- _; exact H2|]. assert (X : Br (k + 1) (propose_entry (o_sp (start_call o)) e)).
    { unfold propose_entry. destruct (s_role (o_sp (start_call o))), (s_phase (o_sp (start_call o))); try (apply forward_b; exact H); try exact H1. apply accept_entry_b; exact H. }
    destruct (propose_entry _ _); [|discriminate]. injection He as <- _. apply UB. exact X.
  - unfold reconfigure in He. destruct (cluster_validate cc0); [|injection He as <- _; exact H2]. unfold sp_reconfigure in He. destruct (accepted_reconfiguration _); [injection He as <- _; exact H2|]. cbn zeta in He.
    match type of He with context [bind (A := sp) ?e _] => assert (X : Br (k + 2) e); [|destruct e; [injection He as <- _; exact X|discriminate]] end.
    destruct (s_role (o_sp (start_call o))), (s_phase (o_sp (start_call o))); try (apply UB, forward_ss_b; exact H); try exact H2. apply accept_ss_b; exact H.
  - destruct (tick _) as [o1|] eqn:Ht; [|discriminate]. injection He as <- _. apply PropAnswer.tick3 in Ht. destruct Ht as (s1 & s2 & T1 & T2 & T3).
    assert (Y : s1 = o_sp (start_call o) \/ exists n, b_pid n = own_pid o /\ handle_leader (o_sp (start_call o)) n = Ok s1).
    { apply PropAnswer.election_own; [exact Ho|]. change (o_eclk (start_call o)) with (o_eclk o) in T1. destruct (due (o_eclk o)); [|apply T1]. change (hb_timeout (o_ble (start_call o)) (s_role (o_sp (start_call o)), s_phase (o_sp (start_call o))) (sp_promise (o_sp (start_call o)))) with (hb_timeout (o_ble o) (role_of o) (get_promise o)) in T1.
      destruct (hb_timeout _ _ _) as [b [n|]]; apply T1. }
    assert (Z : s1 = o_sp (start_call o) \/ B (k + 1) s1 /\ s_role s1 = Leader /\ s_phase s1 = PhPrepare). { destruct Y as [->|(n & Y1 & Y2)]; [left; reflexivity|]. exact (handle_leader_b k (o_sp (start_call o)) n s1 Y1 H Y2). }
    destruct Z as [->|(Z1 & Z2 & Z3)].
    + assert (X2 : B (k + 1) s2). { destruct (due (o_rclk (start_call o))); [|subst s2; exact H1]. pose proof (resend_b k _ H) as X. rewrite T2 in X. exact X. }
      destruct (due (o_fclk (start_call o))); [|rewrite T3; apply UB; exact X2]. pose proof (flush_b (k + 1) _ X2) as X. rewrite T3 in X. replace (k + 2) with (k + 1 + 1) by lia. exact X.
    + assert (X2 : B (k + 2) s2 /\ s_phase s2 = PhPrepare). { destruct (due (o_rclk (start_call o))); [|subst s2; split; [apply UB; exact Z1|exact Z3]]. pose proof (resend_b (k + 1) _ Z1) as X. rewrite T2 in X. replace (k + 2) with (k + 1 + 1) by lia. split; [exact X|eapply resend_prep; eauto]. }
      destruct X2 as [X2 X3]. destruct (due (o_fclk (start_call o))); [|rewrite T3; exact X2]. rewrite (flush_prep _ _ X3 T3). exact X2.
  - assert (X : match sp_trim (o_sp (start_call o)) i with Ok (s, _) => B (k + 1) s | Panic _ => True end); [|destruct (sp_trim _ _) as [[s x]|]; [|discriminate]; injection He as <- _; apply UB; exact X].
    unfold sp_trim. destruct (s_role (o_sp (start_call o))); [exact H1|]. destruct (get_min_all_accepted_idx _) as [mn|]; [|exact I]. cbn [lift bind].
    destruct i as [i|]; [destruct (i <=? mn); [|exact H1]|]; (destruct (try_trim _ _) as [[is x]|]; [|exact I]; cbn [bind]; destruct x; [exact H1|]; apply b_peers2; [exact (proj1 H)|exact H]).
  - unfold sp_snapshot in He. destruct (try_snapshot _ _) as [[is x]|]; [|discriminate]. cbn [bind] in He. destruct x; [injection He as <- _; exact H2|]. destruct l; injection He as <- _; [exact H2|]. apply UB, b_peers2; [exact (proj1 H)|exact H].
  - injection He as <- _. apply UB, reconnected_b; exact H.
  - unfold try_become_leader in He. cbn zeta in He. destruct (handle_leader _ _) as [s1|] eqn:X; [|discriminate]. injection He as <- _. apply (handle_leader_b k) in X; [destruct X as [->|[X _]]; [exact H2|apply UB; exact X]| |exact H]. cbn. destruct Ho as [_ Ho]. exact Ho.
  - injection He as <- _. exact H2.
  - unfold handle_incoming in He. pose proof (handle_b k (o_sp (start_call o)) m H) as X. destruct (sp_handle _ m) as [s1|]; [|discriminate]. injection He as <- _. exact X.
  - injection He as <- _. exact H2.
Qed.
End Fix.
End WithEntry.
