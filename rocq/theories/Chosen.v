(** What a leader has decided, compared with the acknowledgements that it has recorded: an
    invariant of one server, kept by every function of the sequence paxos part. *)
From Coq Require Import List Arith Lia Bool.
From Verif Require Import Types Basics MemStore Internal LeaderState SeqPaxos Ble Config Omni Spec Frame.
From Verif Require LeadLinks Takeover.
Import ListNotations.

Section WithEntry.
Context {E : EntryT}.

Section Fix.
Context (P : nat) (ps : list nat) (M : nat) (Q : quorum).
Context (HQ1 : is_accept_quorum Q 1 = false).
Notation FR := (FR P ps M Q).

(** Followers whose recorded index is exactly [k] and which form a write quorum together with
    the server itself, whose recorded index is at least [k]. *)
Definition evenly (ls : leader_state) (k : nat) (F : list nat) : Prop :=
  NoDup F /\ ~ In P F /\ (forall q, In q F -> vget (l_accs ls) q = Some k) /\ (exists a, vget (l_accs ls) P = Some a /\ k <= a) /\
  is_accept_quorum (l_quorum ls) (S (length F)) = true.
Definition settled (s : sp) : Prop := forall k F, evenly (s_ls s) k F -> k <= i_dec (s_is s).

Record CA (s : sp) : Prop := {
  ca_own : vget (l_accs (s_ls s)) P = Some (i_acc (s_is s));
  ca_le : i_ss (s_is s) = None -> forall q k, vget (l_accs (s_ls s)) q = Some k -> k <= i_acc (s_is s);
  ca_batch : i_ss (s_is s) <> None -> c_batch (i_ca (s_is s)) = [];
  ca_set : settled s
}.
Definition CP (s : sp) : Prop := (forall q k, vget (l_accs (s_ls s)) q = Some k -> k = 0) /\ c_batch (i_ca (s_is s)) = [].
Definition CH (s : sp) : Prop := FR s /\ (s_role s = Leader -> match s_phase s with PhAccept => CA s | _ => CP s end).
Definition cok (r : res sp) : Prop := match r with Ok s => CH s | Panic _ => True end.
Definition cok2 {B} (r : res (sp * B)) : Prop := match r with Ok (s, _) => CH s | Panic _ => True end.

(** The part of a server that matters. *)
Definition eqv (s s' : sp) : Prop :=
  s_role s' = s_role s /\ s_phase s' = s_phase s /\ l_accs (s_ls s') = l_accs (s_ls s) /\
  i_dec (s_is s) <= i_dec (s_is s') /\ i_acc (s_is s') = i_acc (s_is s) /\ i_ss (s_is s') = i_ss (s_is s) /\ c_batch (i_ca (s_is s')) = c_batch (i_ca (s_is s)).
Lemma eqv_refl (s : sp) : eqv s s. Proof. repeat split; auto. Qed.
Lemma ch_eqv s s' : CH s -> FR s' -> eqv s s' -> CH s'.
Proof.
  intros [F H] F' (A1 & A2 & A3 & A4 & A5 & A6 & A7). split; auto. rewrite A1, A2. intros Hr. specialize (H Hr).
  assert (K : l_quorum (s_ls s') = l_quorum (s_ls s)) by (rewrite (lv_q _ _ _ (fr_ls _ _ _ _ _ F)); apply (lv_q _ _ _ (fr_ls _ _ _ _ _ F'))).
  destruct (s_phase s); try (destruct H as [H1 H2]; split; [rewrite A3|rewrite A7]; auto). destruct H as [B1 B2 B3 B4].
  constructor; rewrite ?A3, ?A5, ?A6, ?A7; auto. intros k L (C1 & C2 & C3 & C4 & C5). rewrite A3 in C3, C4. rewrite K in C5. etransitivity; [|exact A4]. eapply B4. repeat split; eauto.
Qed.
Lemma ch_follower (s' : sp) : FR s' -> s_role s' = Follower -> CH s'.
Proof. intros F H. split; auto. rewrite H. discriminate. Qed.

(** Functions that leave a leader alone in this respect. *)
Definition kp (s s' : sp) : Prop := s_role s' = Follower \/ eqv s s'.
Definition kpr (s : sp) (r : res sp) : Prop := match r with Ok s' => kp s s' | Panic _ => True end.
Definition kpr2 {B} (s : sp) (r : res (sp * B)) : Prop := match r with Ok (s', _) => kp s s' | Panic _ => True end.
Lemma kp_refl s : kp s s. Proof. right. apply eqv_refl. Qed.
Lemma kp_trans s1 s2 s3 : kp s1 s2 -> kp s2 s3 -> kp s1 s3.
Proof.
  intros [H|H] [K|K]; try (left; exact K).
  - left. destruct K as [K _]. congruence.
  - right. destruct H as (A1 & A2 & A3 & A4 & A5 & A6 & A7), K as (B1 & B2 & B3 & B4 & B5 & B6 & B7). repeat split; try congruence. lia.
Qed.
Lemma ch_kp s s' : CH s -> FR s' -> kp s s' -> CH s'.
Proof. intros H F [K|K]; [apply ch_follower; auto|eapply ch_eqv; eauto]. Qed.
Lemma ch_kpr s r : CH s -> fok P ps M Q r -> kpr s r -> cok r.
Proof. destruct r; cbn; auto. intros. eapply ch_kp; eauto. Qed.
Lemma ch_kpr2 {B} s (r : res (sp * B)) : CH s -> fok2 P ps M Q r -> kpr2 s r -> cok2 r.
Proof. destruct r as [[s' x]|]; cbn; auto. intros. eapply ch_kp; eauto. Qed.
Lemma lift_k {B} s s0 (o : option B) (f : B -> res sp) : (forall b, o = Some b -> kpr s (f b)) -> kpr s (bind (lift s0 o) f).
Proof. intros Hf. destruct o; cbn; auto. Qed.
Lemma bind_k s (r : res sp) f : kpr s r -> (forall s', kp s s' -> kpr s (f s')) -> kpr s (bind r f).
Proof. destruct r; cbn; auto. Qed.
Lemma for_each_k f : (forall s p, kpr s (f s p)) -> forall l s s', kp s s' -> kpr s (for_each s' l f).
Proof.
  intros Hf. induction l as [|p l IH]; cbn; intros s s' H; auto. apply bind_k.
  - specialize (Hf s' p). destruct (f s' p); cbn in *; auto. eapply kp_trans; eauto.
  - intros s1 H1. apply IH; auto.
Qed.
Lemma k_ls s l : l_accs l = l_accs (s_ls s) -> kp s (set_ls s l).
Proof. intros H. right. repeat split; auto. Qed.
Lemma k_push s to m : kp s (push s to m). Proof. right. repeat split; auto. Qed.
Lemma k_push_all m : forall l s, kp s (push_all s l m).
Proof. unfold push_all. induction l as [|p l IH]; cbn; intros s; [apply kp_refl|]. eapply kp_trans; [apply k_push|apply IH]. Qed.
Lemma k_mod s idx f : kp s (mod_accdec s idx f).
Proof. unfold mod_accdec. destruct (nth_error _ _); right; repeat split; auto. Qed.
Lemma k_pushed s l to m : l_accs l = l_accs (s_ls s) -> kp s (push (set_ls s l) to m).
Proof. intros H. right. repeat split; auto. Qed.

Lemma a_next l p l' q : next_seq_num l p = Some (l', q) -> l_accs l' = l_accs l.
Proof. unfold next_seq_num. destruct (vget (l_seqs l) p); [|discriminate]. destruct (vset _ _ _); cbn; [|discriminate]. intros X. injection X as <- _. reflexivity. Qed.
Lemma a_setmeta l p i l' : set_latest_accept_meta l p i = Some l' -> l_accs l' = l_accs l.
Proof. unfold set_latest_accept_meta. destruct (vset _ _ _); cbn; [|discriminate]. intros X. injection X as <-. reflexivity. Qed.
Lemma a_incr l p l' : increment_seq_num_session l p = Some l' -> l_accs l' = l_accs l.
Proof. unfold increment_seq_num_session. destruct (vget (l_seqs l) p); [|discriminate]. destruct (vset _ _ _); cbn; [|discriminate]. intros X. injection X as <-. reflexivity. Qed.
Lemma a_setp l p from c l' m : ls_set_promise l p from c = Some (l', m) -> l_accs l' = l_accs l.
Proof.
  unfold ls_set_promise. destruct (c && _); destruct (vset _ _ _); cbn; try discriminate; intros X; injection X as <- _; reflexivity.
Qed.
Lemma a_resend s (b : bool) to : forall l q, (if b then option_map (fun q => (s_ls s, q)) (get_seq_num (s_ls s) to) else next_seq_num (s_ls s) to) = Some (l, q) -> l_accs l = l_accs (s_ls s).
Proof.
  intros l q. destruct b; [|apply a_next]. destruct (get_seq_num _ _); cbn; [|discriminate]. intros X. injection X as <- <-. reflexivity.
Qed.
Lemma send_ad_to_k dec es s p : kpr s (send_acceptdecide_to dec es s p).
Proof.
  unfold send_acceptdecide_to. apply lift_k. intros [idx|] _; [cbn; apply k_mod|]. apply lift_k. intros l1 H1. apply lift_k. intros [l2 q] H2. cbn.
  apply k_pushed. apply a_setmeta in H1. apply a_next in H2. congruence.
Qed.
Lemma send_ad_k s es : kpr s (send_acceptdecide s es).
Proof. unfold send_acceptdecide. apply lift_k. intros l _. apply for_each_k; [|apply kp_refl]. intros. apply send_ad_to_k. Qed.
Lemma send_ss_k ss b s to : kpr s (send_accept_stopsign ss b s to).
Proof. unfold send_accept_stopsign. apply lift_k. intros [l q] Hl. apply a_resend in Hl. cbn. apply k_pushed; auto. Qed.
Lemma send_decide_k d b s to : kpr s (send_decide d b s to).
Proof. unfold send_decide. apply lift_k. intros [l q] Hl. apply a_resend in Hl. cbn. apply k_pushed; auto. Qed.
Lemma send_accsync_k s to : kpr s (send_accsync s to).
Proof.
  unfold send_accsync. apply lift_k. intros m _. apply lift_k. intros fd _. apply lift_k. intros sy Hsy.
  apply lift_k. intros l1 H1. apply lift_k. intros [l2 sq] H2. apply a_incr in H1. apply a_next in H2. cbn. apply k_pushed. congruence.
Qed.
Lemma forward_props_k s es : kp s (forward_proposals s es).
Proof. unfold forward_proposals. destruct (_ && _); right; repeat split; auto. Qed.
Lemma forward_ss_k s ss : kp s (forward_stopsign s ss).
Proof. unfold forward_stopsign. destruct (_ && _); [|destruct (s_bss s)]; right; repeat split; auto. Qed.
Lemma handle_preparereq_k s n from : kpr s (handle_preparereq s n from).
Proof.
  unfold handle_preparereq. destruct (_ && _); [|apply kp_refl]. apply lift_k. intros l1 H1. apply lift_k. intros l2 H2. cbn. apply k_pushed.
  apply a_setmeta in H2. rewrite H2. unfold reset_promise in H1. destruct (vset _ _ _); [|discriminate]. injection H1 as <-. reflexivity.
Qed.
Lemma promise_accept_k s p from : kpr s (handle_promise_accept s p from).
Proof.
  unfold handle_promise_accept. destruct (beq _ _); [|apply kp_refl]. apply lift_k. intros [ls m] Hl. apply a_setp in Hl.
  pose proof (send_accsync_k (set_ls s ls) from) as X. destruct (send_accsync _ _); cbn in *; auto. eapply kp_trans; [apply (k_ls s ls Hl)|exact X].
Qed.
Lemma notaccepted_k s n from : kpr s (handle_notaccepted s n from).
Proof.
  unfold handle_notaccepted. destruct (_ && _); [|apply kp_refl]. apply lift_k. intros ls Hl. cbn. apply k_ls. unfold lost_promise in Hl. destruct (vset _ _ _); [|discriminate]. injection Hl as <-. reflexivity.
Qed.
Lemma prepare_all_k l : forall s, kp s (fold_left send_prepare l s).
Proof. induction l as [|p l IH]; cbn; intros s; [apply kp_refl|]. eapply kp_trans; [apply k_push|apply IH]. Qed.
Lemma resend_leader_k s : kpr s (resend_messages_leader s).
Proof.
  unfold resend_messages_leader. destruct (s_phase s); [| |apply kp_refl|apply kp_refl].
  - apply lift_k. intros l _. apply prepare_all_k; auto.
  - apply bind_k.
    + destruct (i_ss (s_is s)) as [ss|]; [|apply kp_refl]. apply lift_k. intros l _. apply for_each_k; [|apply kp_refl]. intros s1 p. unfold resend_ss_to.
      destruct (stopsign_is_decided _); [apply send_decide_k|]. apply lift_k. intros a _. destruct (a =? _); [apply kp_refl|apply send_ss_k].
    + intros s1 H1. apply lift_k. intros l _. eapply kp_trans; [exact H1|apply prepare_all_k].
Qed.
Lemma reconnected_k s p : kp s (reconnected s p).
Proof.
  unfold reconnected. destruct (p =? s_pid s); [apply kp_refl|]. destruct (p =? sp_leader s); [left; reflexivity|apply k_push].
Qed.
Lemma handle_prepare_k s n d na a from : kpr s (handle_prepare s n d na a from).
Proof.
  unfold handle_prepare. destruct (_ || _); [|apply kp_refl]. cbn zeta. match goal with |- kpr s (bind ?e ?f) => destruct e as [sy|tr] end; [|exact I]. left. reflexivity.
Qed.
Lemma check_valid_k s b : kp s (fst (check_valid_ballot s b)).
Proof. unfold check_valid_ballot. destruct (bcmp _ _); cbn [fst]; [apply kp_refl|apply reconnected_k|apply k_push]. Qed.
Definition fol (r : res sp) : Prop := match r with Ok s => s_role s = Follower | Panic _ => True end.
Lemma fol_k s r : fol r -> kpr s r.
Proof. destruct r; cbn; auto. intros H. left. exact H. Qed.
Lemma seqnum_fol s q from : s_role s = Follower -> s_role (fst (handle_sequence_num s q from)) = Follower.
Proof.
  intros H. unfold handle_sequence_num. destruct (check_msg_status _ _); cbn [fst]; auto. unfold reconnected. destruct (from =? s_pid s); auto. destruct (from =? sp_leader s); cbn; auto.
Qed.
Lemma reply_fol s n a : s_role s = Follower -> fol (reply_accepted s n a).
Proof.
  intros H. unfold reply_accepted. destruct (get_latest_accepted s n) as [[idx|]|]; cbn; auto. unfold mod_accdec. destruct (nth_error _ _); auto.
Qed.
Lemma upd_fol s d : s_role s = Follower -> s_role (fst (update_decided s d)) = Follower.
Proof. intros H. unfold update_decided. destruct (d <=? _); auto. destruct (_ <? d); [destruct (flush_batch _)|]; auto. Qed.
Lemma acceptsync_k s n q d sy from : kpr s (handle_acceptsync s n q d sy from).
Proof.
  unfold handle_acceptsync. pose proof (check_valid_k s n) as H1. destruct (check_valid_ballot s n) as [s1 v]. cbn [fst] in H1. destruct (_ && _); [|exact H1].
  destruct (sync_log _ _ _ _) as [[is acc]|tr]; [|exact I]. left. reflexivity.
Qed.
Lemma acceptdecide_k s n q d es : kpr s (handle_acceptdecide s n q d es).
Proof.
  unfold handle_acceptdecide. pose proof (check_valid_k s n) as H1. destruct (check_valid_ballot s n) as [s1 v]. cbn [fst] in H1. destruct (v && _) eqn:Hv; [|exact H1].
  assert (R : s_role s1 = Follower) by (destruct v, (s_role s1); cbn in Hv; try discriminate; auto).
  pose proof (seqnum_fol s1 q (b_pid n) R) as H2. destruct (handle_sequence_num s1 q (b_pid n)) as [s2 st]. cbn [fst] in H2. apply fol_k. destruct st; auto.
  destruct (append_entries_and_get_accepted_idx _ _) as [is r1].
  pose proof (upd_fol (set_is s2 is) d H2) as H4. destruct (update_decided _ _) as [s4 r2]. cbn [fst] in H4.
  destruct (match r2 with Some _ => r2 | None => r1 end); [apply reply_fol; auto|exact H4].
Qed.
Lemma accept_ss_k s n q ss : kpr s (handle_accept_stopsign s n q ss).
Proof.
  unfold handle_accept_stopsign. pose proof (check_valid_k s n) as H1. destruct (check_valid_ballot s n) as [s1 v]. cbn [fst] in H1. destruct (v && _) eqn:Hv; [|exact H1].
  assert (R : s_role s1 = Follower) by (destruct v, (s_role s1); cbn in Hv; try discriminate; auto).
  pose proof (seqnum_fol s1 q (b_pid n) R) as H2. destruct (handle_sequence_num s1 q (b_pid n)) as [s2 st]. cbn [fst] in H2. apply fol_k. destruct st; auto.
  cbn zeta. destruct (i_set_stopsign _ _) as [[is acc]|tr]; [|exact I]. cbn [bind]. apply reply_fol. auto.
Qed.
(** A leader gets no Decide message with its own ballot. *)
Definition nodecide (s : sp) (n : ballot) : Prop := s_role s = Leader -> bcmp (i_prom (s_is s)) n <> Eq.
Lemma decide_k s n q d : nodecide s n -> kpr s (handle_decide s n q d).
Proof.
  intros N. unfold handle_decide. pose proof (check_valid_k s n) as H1. destruct (check_valid_ballot s n) as [s1 v] eqn:Hc. cbn [fst] in H1. destruct (v && _) eqn:Hv; [|exact H1].
  assert (R : s_role s1 = Follower).
  { unfold check_valid_ballot in Hc. destruct (bcmp _ _) eqn:Hb; injection Hc as <- <-; try discriminate. destruct (s_role s) eqn:Hr; auto. exfalso. apply (N Hr). exact Hb. }
  pose proof (seqnum_fol s1 q (b_pid n) R) as H2. destruct (handle_sequence_num s1 q (b_pid n)) as [s2 st]. cbn [fst] in H2. apply fol_k. destruct st; auto.
  pose proof (upd_fol s2 d H2) as H4. destruct (update_decided _ _) as [s4 r2]. cbn [fst] in H4. destruct r2; [apply reply_fol; auto|exact H4].
Qed.
Lemma resend_follower_k s : s_role s = Follower -> kp s (resend_messages_follower s).
Proof.
  intros H. unfold resend_messages_follower, send_preparereq_to_all_peers. destruct (s_phase s); try apply kp_refl; try apply k_push_all.
  destruct (s_cprom s); [apply k_push|]. eapply kp_trans; [|apply k_push_all]. left. reflexivity.
Qed.
Lemma flush_follower_k s : s_role s = Follower -> kpr s (flush_batch_follower s).
Proof. intros H. unfold flush_batch_follower. destruct (flush_batch _) as [is a]. apply fol_k. destruct (_ <? a); [apply reply_fol|]; auto. Qed.

Definition ieq (a b : istore) : Prop := i_dec b = i_dec a /\ i_acc b = i_acc a /\ i_ss b = i_ss a /\ c_batch (i_ca b) = c_batch (i_ca a).
Lemma trim_i s k is r : try_trim s k = Ok (is, r) -> ieq s is.
Proof.
  unfold try_trim. destruct (dec_without_ss s); [|discriminate]. assert (Main : forall new is (r : option compaction_err), (if i_comp s <? new then
          m <- ilift s (ms_write (i_st s) [OpTrim new; OpSetComp new]) ;;
          let s := put_st s m in Ok (set_ca s (c_set_comp (i_ca s) new), None)
        else Ok (s, None)) = Ok (is, r) -> ieq s is).
  { intros new is' r'. destruct (_ <? new); [|intros X; injection X as <- _; repeat split; auto]. destruct (ms_write _ _); cbn; [|discriminate]. intros X. injection X as <- _. repeat split; auto. }
  cbn zeta. destruct (Nat.compare _ _); eauto. intros X; injection X as <- _; repeat split; auto.
Qed.
Lemma snapshot_i s k is r : try_snapshot s k = Ok (is, r) -> ieq s is.
Proof.
  unfold try_snapshot. destruct (dec_without_ss s) as [ld|]; [|discriminate]. assert (Main : forall new is (r : option compaction_err), (if i_comp s <? new then
          match create_snapshot s new with
          | CPanic => ipanic s
          | CErr e => Ok (s, Some e)
          | COk sn =>
              m <- ilift s (ms_write (i_st s) [OpTrim new; OpSetComp new; OpSetSnapshot (Some sn)]) ;;
              let s := put_st s m in Ok (set_ca s (c_set_comp (i_ca s) new), None)
          end
        else Ok (s, None)) = Ok (is, r) -> ieq s is).
  { intros new is' r'. destruct (_ <? new); [|intros X; injection X as <- _; repeat split; auto]. destruct (create_snapshot s new); [|intros X; injection X as <- _; repeat split; auto|discriminate].
    destruct (ms_write _ _); cbn; [|discriminate]. intros X. injection X as <- _. repeat split; auto. }
  cbn zeta. destruct k as [k|]; [|apply Main]. destruct (Nat.compare _ _); eauto. intros X; injection X as <- _; repeat split; auto.
Qed.
Lemma k_is s is : ieq (s_is s) is -> kp s (set_is s is).
Proof. intros (A & B & C & D). right. repeat split; auto. cbn. lia. Qed.
Lemma trim_k s i : kpr2 s (sp_trim s i).
Proof.
  unfold sp_trim. destruct (s_role s); [apply kp_refl|]. destruct (get_min_all_accepted_idx _) as [mn|]; cbn [lift bind]; [|exact I].
  assert (Main : forall k, kpr2 s ('(is, r) <- try_trim (s_is s) k ;;
        let s := set_is s is in
        match r with
        | None => Ok (push_all s (s_peers s) (MCompaction (CmpTrim k)), None)
        | Some e => Ok (s, Some e)
        end)).
  { intros k. destruct (try_trim _ _) as [[is r]|tr] eqn:Ht; [|exact I]. apply trim_i in Ht. cbn [bind]. destruct r; cbn [kpr2]; [apply k_is; auto|]. eapply kp_trans; [apply k_is; exact Ht|apply k_push_all]. }
  cbn zeta. destruct i as [i|]; [|apply Main]. destruct (i <=? mn); [apply Main|apply kp_refl].
Qed.
Lemma snapshot_k s i l : kpr2 s (sp_snapshot s i l).
Proof.
  unfold sp_snapshot. destruct (try_snapshot _ _) as [[is r]|tr] eqn:Ht; [|exact I]. apply snapshot_i in Ht. cbn [bind]. destruct r; cbn [kpr2]; [apply k_is; auto|].
  destruct l; [apply k_is; auto|]. eapply kp_trans; [apply k_is; exact Ht|apply k_push_all].
Qed.
Lemma compaction_k s c : kpr s (handle_compaction s c).
Proof.
  unfold handle_compaction. destruct c as [i|i].
  - destruct (try_trim _ _) as [[is r]|tr] eqn:Ht; [|exact I]. apply trim_i in Ht. cbn. apply k_is; auto.
  - pose proof (snapshot_k s i true) as X. destruct (sp_snapshot s i true) as [[s1 r]|tr]; exact X.
Qed.

(** ** Where the recorded indexes change *)
Lemma ca_grow s s' : FR s -> FR s' -> CA s -> i_ss (s_is s) = None ->
  (forall q, vget (l_accs (s_ls s')) q = if q =? P then Some (i_acc (s_is s')) else vget (l_accs (s_ls s)) q) ->
  i_acc (s_is s) <= i_acc (s_is s') -> i_dec (s_is s) <= i_dec (s_is s') -> (i_ss (s_is s') <> None -> c_batch (i_ca (s_is s')) = []) -> CA s'.
Proof.
  intros F F' [H1 H2 H3 H4] Hs Hv Ha Hd Hb. constructor; auto.
  - rewrite Hv, Nat.eqb_refl. reflexivity.
  - intros _ q k. rewrite Hv. destruct (q =? P); [intros X; injection X as <-; lia|]. intros X. specialize (H2 Hs q k X). lia.
  - intros k L (C1 & C2 & C3 & C4 & C5). etransitivity; [|exact Hd]. rewrite (lv_q _ _ _ (fr_ls _ _ _ _ _ F')) in C5.
    assert (K : forall q, In q L -> vget (l_accs (s_ls s)) q = Some k).
    { intros q Hq. specialize (C3 q Hq). rewrite Hv in C3. destruct (Nat.eqb_spec q P) as [Z|]; [rewrite Z in Hq; contradiction|exact C3]. }
    destruct L as [|q L]; [cbn [length] in C5; congruence|]. apply (H4 k (q :: L)). repeat split; auto.
    + exists (i_acc (s_is s)). split; auto. apply (H2 Hs q). apply K. left. reflexivity.
    + rewrite (lv_q _ _ _ (fr_ls _ _ _ _ _ F)). exact C5.
Qed.
Lemma ch_acc s : FR s -> s_role s = Leader -> s_phase s = PhAccept -> CA s -> CH s.
Proof. intros F Hr Hp H. split; auto. rewrite Hp. auto. Qed.
Lemma ch_ca s : CH s -> s_role s = Leader -> s_phase s = PhAccept -> CA s.
Proof. intros [_ H] Hr Hp. specialize (H Hr). rewrite Hp in H. exact H. Qed.
Lemma setacc_v l p i l' : set_accepted_idx l p i = Some l' -> forall q, vget (l_accs l') q = if q =? p then Some i else vget (l_accs l) q.
Proof. unfold set_accepted_idx. destruct (vset _ _ _) eqn:Hv; cbn; [|discriminate]. intros X. injection X as <-. intros q. exact (LeadLinks.vget_vset _ _ _ _ _ Hv). Qed.
(** Appending to the log of a leader that has no stop sign. *)
Lemma meta_c s (is : istore) r : CH s -> s_role s = Leader -> s_phase s = PhAccept -> i_ss (s_is s) = None ->
  i_dec is = i_dec (s_is s) -> i_ss is = i_ss (s_is s) -> i_acc (s_is s) <= i_acc is -> match r with Some (acc, _) => acc = i_acc is | None => i_acc is = i_acc (s_is s) end ->
  cok (match r with Some (acc, es) => ls <- lift (set_is s is) (set_accepted_idx (s_ls s) (s_pid s) acc) ;; send_acceptdecide (set_ls (set_is s is) ls) es
       | None => Ok (set_is s is) end).
Proof.
  intros H Hr Hp Hs Hd Hss Ha Hx. pose proof (ch_ca s H Hr Hp) as C. destruct H as [F _]. destruct r as [[acc es]|].
  2: { cbn. apply ch_acc; auto; [apply (fr_is P ps M Q s is F)|]. destruct C as [H1 H2 H3 H4]. constructor; cbn [s_is set_is s_ls]; rewrite ?Hx, ?Hss; auto; [intros X; congruence|].
       intros k L X. cbn. rewrite Hd. apply (H4 k L X). }
  destruct (set_accepted_idx _ _ _) as [ls|] eqn:Hl; [|exact I]. cbn [lift bind].
  pose proof (fr_setacc P ps M Q (set_is s is) _ _ _ (fr_is P ps M Q s is F) Hl) as F1. subst acc.
  assert (C1 : CA (set_ls (set_is s is) ls)).
  { apply (ca_grow s); auto; cbn [s_is set_is set_ls s_ls]; [|lia|congruence]. intros q. rewrite (setacc_v _ _ _ _ Hl q), (fr_pid _ _ _ _ _ F). reflexivity. }
  eapply ch_kpr; [apply ch_acc; [exact F1|exact Hr|exact Hp|exact C1]|apply send_ad_f; auto|apply send_ad_k].
Qed.
Lemma fifb_x (s : istore) r : let '(is, m) := flush_if_full_batch s r in
  i_dec is = i_dec s /\ i_ss is = i_ss s /\ i_acc s <= i_acc is /\ c_batch (i_ca is) = c_batch (i_ca s) /\ match m with Some (acc, _) => acc = i_acc is | None => i_acc is = i_acc s end.
Proof. destruct r as [es|]; cbn; repeat split; auto. unfold i_acc. cbn. lia. Qed.
Lemma full_x (c : cache) : let '(c', r) := take_entries_if_batch_is_full c in c_dec c' = c_dec c /\ c_ss c' = c_ss c /\ c_acc c' = c_acc c.
Proof. unfold take_entries_if_batch_is_full. destruct (_ <=? _); cbn; auto. Qed.
Lemma accept_entry_c s e : CH s -> s_role s = Leader -> s_phase s = PhAccept -> i_ss (s_is s) = None -> cok (accept_entry_leader s e).
Proof.
  intros H Hr Hp Hs. unfold accept_entry_leader, append_entry_with_batching, cache_append_entry. pose proof (full_x (c_set_batch (i_ca (s_is s)) (c_batch (i_ca (s_is s)) ++ [e]))) as X.
  destruct (take_entries_if_batch_is_full _) as [c r]. pose proof (fifb_x (set_ca (s_is s) c) r) as Y. destruct (flush_if_full_batch _ _) as [is m]. destruct X as (X1 & X2 & X3), Y as (Y1 & Y2 & Y3 & Y4 & Y5).
  unfold i_dec, i_ss, i_acc in *. cbn in *. apply (meta_c s is m); auto; unfold i_dec, i_ss, i_acc; try congruence; try lia. destruct m as [[acc es]|]; congruence.
Qed.
Lemma accept_entries_c s es : CH s -> s_role s = Leader -> s_phase s = PhAccept -> i_ss (s_is s) = None -> cok (accept_entries_leader s es).
Proof.
  intros H Hr Hp Hs. unfold accept_entries_leader, append_entries_with_batching, cache_append_entries. pose proof (full_x (c_set_batch (i_ca (s_is s)) (c_batch (i_ca (s_is s)) ++ es))) as X.
  destruct (take_entries_if_batch_is_full _) as [c r]. pose proof (fifb_x (set_ca (s_is s) c) r) as Y. destruct (flush_if_full_batch _ _) as [is m]. destruct X as (X1 & X2 & X3), Y as (Y1 & Y2 & Y3 & Y4 & Y5).
  unfold i_dec, i_ss, i_acc in *. cbn in *. apply (meta_c s is m); auto; unfold i_dec, i_ss, i_acc; try congruence; try lia. destruct m as [[acc es']|]; congruence.
Qed.
Lemma flush_leader_c s : CH s -> s_role s = Leader -> s_phase s = PhAccept -> cok (flush_batch_leader s).
Proof.
  intros H Hr Hp. pose proof (ch_ca s H Hr Hp) as C. unfold flush_batch_leader, flush_batch_and_get_entries. destruct (c_batch (i_ca (s_is s))) as [|e es] eqn:Hb.
  - cbn. eapply ch_kp; [exact H|apply (fr_is P ps M Q); apply H|]. apply k_is. repeat split; auto.
  - assert (Hs : i_ss (s_is s) = None). { destruct (i_ss (s_is s)) eqn:X; auto. assert (Z : c_batch (i_ca (s_is s)) = []) by (apply (ca_batch _ C); congruence). congruence. }
    destruct (take_batched_entries (i_ca (s_is s))) as [c l] eqn:Ht. injection Ht as <- _.
    pose proof (fifb_x (set_ca (s_is s) (c_set_batch (i_ca (s_is s)) [])) (Some l)) as Y. destruct (flush_if_full_batch _ _) as [is m]. destruct Y as (Y1 & Y2 & Y3 & Y4 & Y5).
    unfold i_dec, i_ss, i_acc in *. cbn in *. apply (meta_c s is m); auto.
Qed.
Lemma append_ss_x (s : istore) ss : let '(is, m) := i_append_stopsign s ss in i_dec is = i_dec s /\ i_acc s <= i_acc is /\ c_batch (i_ca is) = [].
Proof.
  unfold i_append_stopsign, cache_append_stopsign. cbn [c_set_ss c_batch]. destruct (c_batch (i_ca s)) as [|e es] eqn:Hb; cbn; unfold i_dec, i_acc; cbn; rewrite ?Hb; repeat split; auto; unfold i_acc; cbn; lia.
Qed.
Lemma accept_ss_c s ss : CH s -> s_role s = Leader -> s_phase s = PhAccept -> i_ss (s_is s) = None -> cok (accept_stopsign_leader s ss).
Proof.
  intros H Hr Hp Hs. pose proof (ch_ca s H Hr Hp) as C. destruct H as [F _]. unfold accept_stopsign_leader. pose proof (append_ss_x (s_is s) ss) as X. destruct (i_append_stopsign _ _) as [is r]. destruct X as (X1 & X2 & X3).
  set (r1 := match r with Some (_, es) => send_acceptdecide (set_is s is) es | None => Ok (set_is s is) end).
  assert (Y : match r1 with Ok s1 => FR s1 /\ eqv (set_is s is) s1 | Panic _ => True end).
  { unfold r1. destruct r as [[acc es]|]; [|split; [apply (fr_is P ps M Q); auto|apply eqv_refl]]. pose proof (send_ad_f P ps M Q (set_is s is) es (fr_is P ps M Q _ _ F)) as A. pose proof (send_ad_k (set_is s is) es) as B.
    destruct (send_acceptdecide _ _) as [s1|] eqn:Hsa; auto. split; [exact A|]. destruct B as [B|B]; auto. exfalso. revert Hsa B. clear - Hr. intros Hsa B.
    assert (Z : forall l s0 s1, s_role s0 = Leader -> for_each s0 l (send_acceptdecide_to (i_dec (s_is (set_is s is))) es) = Ok s1 -> s_role s1 = Leader).
    { induction l as [|p l IH]; cbn; intros s0 s2 R K; [injection K as <-; auto|]. destruct (send_acceptdecide_to _ _ s0 p) as [s3|] eqn:H3; [|discriminate]. cbn in K. eapply IH; [|exact K].
      unfold send_acceptdecide_to in H3. destruct (get_latest_accdec s0 p) as [[i|]|]; cbn in H3; try discriminate; [injection H3 as <-; unfold mod_accdec; destruct (nth_error _ _); auto|].
      destruct (set_latest_accept_meta _ _ _) as [l1|]; cbn in H3; [|discriminate]. destruct (next_seq_num _ _) as [[l2 q]|]; cbn in H3; [|discriminate]. injection H3 as <-. exact R. }
    unfold send_acceptdecide in Hsa. destruct (get_promised_followers _) as [l|]; cbn [lift bind] in Hsa; [|discriminate]. apply Z in Hsa; [congruence|exact Hr]. }
  fold r1. destruct r1 as [s1|]; [|exact I]. destruct Y as [F1 (Q1 & Q2 & Q3 & Q4 & Q5 & Q6 & Q7)]. cbn [bind].
  destruct (set_accepted_idx _ _ _) as [ls|] eqn:Hl; [|exact I]. cbn [lift bind]. pose proof (fr_setacc P ps M Q _ _ _ _ F1 Hl) as F2.
  assert (C1 : CA (set_ls s1 ls)).
  { apply (ca_grow s); auto; cbn [s_is set_is set_ls s_ls] in *; [|lia|lia|intros _; congruence]. intros q. rewrite (setacc_v _ _ _ _ Hl q), (fr_pid _ _ _ _ _ F1), Q3. reflexivity. }
  assert (H2 : CH (set_ls s1 ls)) by (apply ch_acc; auto; cbn in *; congruence).
  destruct (get_promised_followers _) as [l|]; [|exact I]. cbn [lift bind]. eapply ch_kpr; [exact H2|apply for_each_f; auto; intros; apply send_ss_f; auto|apply for_each_k; [intros; apply send_ss_k|apply kp_refl]].
Qed.
Lemma fwd_prop_c s es : CH s -> cok (handle_forwarded_proposal s es).
Proof.
  intros H. unfold handle_forwarded_proposal. destruct (accepted_reconfiguration s) eqn:Ha; [exact H|].
  assert (Hs : i_ss (s_is s) = None) by (unfold accepted_reconfiguration in Ha; destruct (i_ss (s_is s)); [discriminate|reflexivity]).
  assert (K : CH (forward_proposals s es)) by (eapply ch_kp; [exact H|apply forward_props_f; apply H|apply forward_props_k]).
  destruct (s_role s) eqn:Hr, (s_phase s) eqn:Hp; cbn [cok]; auto; [|apply accept_entries_c; auto].
  eapply ch_kp; [exact H|apply fr_bp; apply H|]. right. repeat split; auto.
Qed.
Lemma fwd_ss_c s ss : CH s -> cok (handle_forwarded_stopsign s ss).
Proof.
  intros H. unfold handle_forwarded_stopsign. destruct (accepted_reconfiguration s) eqn:Ha; [exact H|].
  assert (Hs : i_ss (s_is s) = None) by (unfold accepted_reconfiguration in Ha; destruct (i_ss (s_is s)); [discriminate|reflexivity]).
  assert (K : CH (forward_stopsign s ss)) by (eapply ch_kp; [exact H|apply forward_ss_f; apply H|apply forward_ss_k]).
  destruct (s_role s) eqn:Hr, (s_phase s) eqn:Hp; cbn [cok]; auto; [|apply accept_ss_c; auto].
  eapply ch_kp; [exact H|apply fr_bss; apply H|]. right. repeat split; auto.
Qed.
Lemma handle_leader_c s n : CH s -> cok (handle_leader s n).
Proof.
  intros H. pose proof (handle_leader_f P ps M Q s n (proj1 H)) as F. unfold handle_leader in *. destruct (_ || _); [exact H|]. destruct (s_pid s =? b_pid n); [|apply ch_follower; [exact F|reflexivity]]. cbn zeta in *.
  match goal with |- context [ls_set_promise ?a ?b ?c ?d] => destruct (ls_set_promise a b c d) as [[ls m]|] eqn:Hl end; [|exact I]. cbn [lift bind cok fok] in *.
  split; [exact F|]. apply a_setp in Hl. cbn [s_ls set_is set_ls l_accs ls_with] in Hl.
  rewrite Takeover.push_all_f. intros _. cbn [s_role s_phase set_state set_out]. unfold CP. cbn [s_ls s_is set_state set_ls set_out]. rewrite Hl. split; [|reflexivity].
  intros q k. unfold vget. destruct (pid_to_idx q); [|discriminate]. intros X. apply nth_error_In, repeat_spec in X. exact X.
Qed.
Lemma waq_mono q n m : is_accept_quorum q n = true -> n <= m -> is_accept_quorum q m = true.
Proof. unfold is_accept_quorum. destruct q; rewrite !Nat.leb_le; lia. Qed.
Lemma sync_x (s : istore) b d sy is acc : sync_log s b d sy = Ok (is, acc) -> acc = i_acc is /\ c_batch (i_ca is) = c_batch (i_ca s).
Proof.
  unfold sync_log. cbn zeta. destruct sy as [y|].
  2: { destruct (ms_write _ _); cbn [ilift bind]; [|discriminate]. intros X. injection X as <- <-. split; reflexivity. }
  match goal with |- bind ?e _ = _ -> _ => assert (A : match e with Ok (s1, _) => c_batch (i_ca s1) = c_batch (i_ca s) | Panic _ => True end); [|destruct e as [[s1 ops]|]; [|discriminate]] end.
  { destruct (sy_snap y) as [[c|c]|]; try reflexivity. destruct (create_decided_snapshot _); try exact I. destruct (s_merge _ _); [reflexivity|exact I]. }
  cbn [bind]. destruct (sy_ss y); [|destruct (i_ss _)]; (destruct (ms_write _ _); cbn [ilift bind]; [|discriminate]); intros X; injection X as <- <-; auto.
Qed.
Lemma majority_c s : CH s -> s_role s = Leader -> s_phase s = PhPrepare -> cok (handle_majority_promises s).
Proof.
  intros H Hr Hp. assert (C : CP s) by (destruct H as [_ C]; specialize (C Hr); rewrite Hp in C; exact C). destruct H as [F _]. destruct C as [C1 C2].
  unfold handle_majority_promises, take_max_promise_sync. cbn zeta.
  set (s1 := set_ls s (l_set_max (s_ls s) (l_maxmeta (s_ls s)) None)).
  assert (F1 : FR s1) by (apply fr_lset; auto; split; auto; apply lv_take, (fr_ls _ _ _ _ _ F)).
  destruct (sync_log _ _ _ _) as [[is acc]|tr] eqn:Hs; [|exact I]. cbn [bind]. destruct (sync_x _ _ _ _ _ _ Hs) as [X1 X2]. change (c_batch (i_ca (s_is s1))) with (c_batch (i_ca (s_is s))) in X2. rewrite C2 in X2.
  set (K := fun s3 : sp => FR s3 /\ s_role s3 = Leader /\ l_accs (s_ls s3) = l_accs (s_ls s) /\ c_batch (i_ca (s_is s3)) = []).
  assert (K0 : K (set_is s1 is)) by (split; [apply fr_is; auto|auto]).
  match goal with |- cok (let '(_, _) := ?e in _) => assert (Hx : K (fst e) /\ snd e = i_acc (s_is (fst e))); [|destruct e as [s3 acc3]; cbn [fst snd] in Hx] end.
  { destruct (accepted_reconfiguration (set_is s1 is)); [split; [exact K0|exact X1]|].
    match goal with |- K (fst (let '(_, _) := ?e in _)) /\ _ => assert (Hx : K (fst e) /\ snd e = i_acc (s_is (fst e))); [|destruct e as [s3 acc3]; cbn [fst snd] in Hx] end.
    { destruct (s_bprops _) as [|e es]; [split; [exact K0|exact X1]|]. cbn. split; [|reflexivity]. destruct K0 as (A & B & D & G). split; [apply fr_is, fr_bp; exact A|auto]. }
    destruct Hx as [(A & B & D & G) Hx]. destruct (s_bss s3) as [ss|]; [|split; [exact (conj A (conj B (conj D G)))|exact Hx]]. cbn [fst snd]. split; [|reflexivity]. split; [apply fr_is, fr_bss; exact A|]. split; [exact B|]. split; [exact D|].
    pose proof (append_ss_x (s_is (set_bss s3 None)) ss) as Y. destruct (i_append_stopsign _ _). cbn [fst]. apply Y. }
  destruct Hx as [(A & B & D & G) ->].
  assert (F4 : FR (set_state s3 Leader PhAccept)). { destruct A as [A1 A2 A3 A4]. constructor; auto. }
  destruct (set_accepted_idx _ _ _) as [ls|] eqn:Hl; [|exact I]. cbn [lift bind]. pose proof (fr_setacc P ps M Q _ _ _ _ F4 Hl) as F5.
  assert (V : forall q, vget (l_accs ls) q = if q =? P then Some (i_acc (s_is s3)) else vget (l_accs (s_ls s)) q).
  { intros q. rewrite (setacc_v _ _ _ _ Hl q). cbn [s_ls s_pid set_state]. rewrite (fr_pid _ _ _ _ _ A), D. reflexivity. }
  assert (CA (set_ls (set_state s3 Leader PhAccept) ls)).
  { constructor; cbn [s_is s_ls set_state set_ls].
    - rewrite V, Nat.eqb_refl. reflexivity.
    - intros _ q k. rewrite V. destruct (q =? P); intros X; [injection X as <-; lia|]. apply C1 in X. lia.
    - auto.
    - intros k L (Y1 & Y2 & Y3 & Y4 & Y5). destruct L as [|q L]; [rewrite (lv_q _ _ _ (fr_ls _ _ _ _ _ F5)) in Y5; cbn in Y5; congruence|].
      specialize (Y3 q (or_introl eq_refl)). cbn [s_ls set_ls] in Y3. rewrite V in Y3. destruct (Nat.eqb_spec q P) as [Z|]; [exfalso; apply Y2; left; exact Z|]. apply C1 in Y3. lia. }
  assert (H2 : CH (set_ls (set_state s3 Leader PhAccept) ls)) by (apply ch_acc; auto).
  destruct (get_promised_followers _) as [l|]; [|exact I]. cbn [lift bind]. eapply ch_kpr; [exact H2|apply for_each_f; auto; intros; apply send_accsync_f; auto|apply for_each_k; [intros; apply send_accsync_k|apply kp_refl]].
Qed.
Lemma promise_prepare_c s p from : CH s -> s_role s = Leader -> s_phase s = PhPrepare -> cok (handle_promise_prepare s p from).
Proof.
  intros H Hr Hp. unfold handle_promise_prepare. destruct (beq _ _); [|exact H]. destruct (ls_set_promise _ _ _ _) as [[ls m]|] eqn:Hl; [|exact I]. cbn [lift bind].
  assert (H1 : CH (set_ls s ls)). { eapply ch_kp; [exact H| |apply k_ls; eapply a_setp; eauto]. apply fr_lset; [apply H|]. eapply lv_setp; [|exact Hl]. apply (fr_ls _ _ _ _ _ (proj1 H)). }
  destruct m; [apply majority_c; auto|exact H1].
Qed.

(** An acknowledgement that can be on the way to this server. *)
Definition fair (s : sp) (n : ballot) (k : nat) (from : nat) : Prop :=
  from <> P /\ (s_role s = Leader -> s_phase s = PhAccept -> n = l_n (s_ls s) -> i_ss (s_is s) = None -> k <= i_acc (s_is s)).
Lemma handle_accepted_c s n k from : CH s -> fair s n k from -> cok (handle_accepted s n k from).
Proof.
  intros H [Hf Hk]. unfold handle_accepted. destruct (beq n (l_n (s_ls s))) eqn:Hb; [|exact H]. apply beq_spec in Hb. cbn [andb].
  destruct (role_eqb (s_role s) Leader && phase_eqb (s_phase s) PhAccept) eqn:Hrp; [|exact H].
  assert (Hr : s_role s = Leader) by (destruct (s_role s); [discriminate|reflexivity]). assert (Hp : s_phase s = PhAccept) by (rewrite Hr in Hrp; destruct (s_phase s); try discriminate; reflexivity).
  specialize (Hk Hr Hp Hb). pose proof (ch_ca s H Hr Hp) as C. destruct H as [F _]. destruct (set_accepted_idx _ _ _) as [ls|] eqn:Hl; [|exact I]. cbn [lift bind].
  pose proof (fr_setacc P ps M Q _ _ _ _ F Hl) as F1. pose proof (setacc_v _ _ _ _ Hl) as V. destruct C as [C1 C2 C3 C4].
  assert (Main : forall is, i_acc is = i_acc (s_is s) -> i_ss is = i_ss (s_is s) -> c_batch (i_ca is) = c_batch (i_ca (s_is s)) -> i_dec (s_is s) <= i_dec is ->
      (is_chosen ls k = true -> k <= i_dec is) -> CH (set_is (set_ls s ls) is)).
  { intros is A1 A2 A3 A4 A5. apply ch_acc; auto; [apply fr_is; auto|]. constructor; cbn [s_is s_ls set_is set_ls].
    - rewrite V. destruct (Nat.eqb_spec P from) as [Z|]; [congruence|]. rewrite A1. exact C1.
    - rewrite A1, A2. intros Hs q x. rewrite V. destruct (q =? from); [intros X; injection X as <-; auto|apply C2; auto].
    - rewrite A2, A3. exact C3.
    - intros x L (Y1 & Y2 & Y3 & Y4 & Y5). cbn [s_ls set_ls set_is s_is] in *. destruct (in_dec Nat.eq_dec from L) as [Hin|Hin].
      + assert (x = k). { pose proof (Y3 from Hin) as Z. rewrite V, Nat.eqb_refl in Z. injection Z as ->. reflexivity. } subst x. apply A5. unfold is_chosen. eapply waq_mono; [exact Y5|].
        change (S (length L)) with (length (P :: L)). apply Takeover.count_ge; [constructor; auto|]. intros q [<-|Hq].
        * destruct Y4 as (a & Y4 & Y4'). exists a. split; auto. apply Nat.leb_le; auto.
        * exists k. split; [apply Y3; auto|apply Nat.leb_refl].
      + etransitivity; [|exact A4]. apply (C4 x L). repeat split; auto.
        * intros q Hq. specialize (Y3 q Hq). rewrite V in Y3. destruct (Nat.eqb_spec q from) as [Z|]; [rewrite Z in Hq; contradiction|exact Y3].
        * destruct Y4 as (a & Y4 & Y4'). exists a. split; auto. rewrite V in Y4. destruct (Nat.eqb_spec P from) as [Z|]; [congruence|exact Y4].
        * rewrite (lv_q _ _ _ (fr_ls _ _ _ _ _ F)). pose proof (lv_q _ _ _ (fr_ls _ _ _ _ _ F1)) as Z. cbn [s_ls set_ls] in Z. rewrite Z in Y5. exact Y5. }
  cbn [s_is set_ls s_ls]. destruct (Nat.ltb_spec (i_dec (s_is s)) k) as [Hlt|Hlt]; cbn [andb].
  - destruct (is_chosen ls k) eqn:Hc.
    + assert (H2 : CH (set_is (set_ls s ls) (i_set_decided (s_is s) k))) by (apply Main; auto; unfold i_dec in *; cbn; lia).
      destruct (get_promised_followers _) as [l|]; [|exact I]. cbn [lift bind]. eapply ch_kpr; [exact H2| |].
      * apply for_each_f; [|apply H2]. intros s1 p H3. unfold handle_accepted_to. apply lift_f. intros [idx|] _; [cbn; apply fr_mod; auto|apply send_decide_f; auto].
      * apply for_each_k; [|apply kp_refl]. intros s1 p. unfold handle_accepted_to. apply lift_k. intros [idx|] _; [cbn; apply k_mod|apply send_decide_k].
    + cbn [cok]. specialize (Main (s_is s) eq_refl eq_refl eq_refl (le_n _)). assert (Z : set_is (set_ls s ls) (s_is s) = set_ls s ls) by (destruct s; reflexivity). rewrite Z in Main. apply Main. congruence.
  - cbn [cok]. specialize (Main (s_is s) eq_refl eq_refl eq_refl (le_n _)). assert (Z : set_is (set_ls s ls) (s_is s) = set_ls s ls) by (destruct s; reflexivity). rewrite Z in Main. apply Main. auto.
Qed.

(** ** Calls *)
Definition apt (s : sp) (c : call) : Prop :=
  match c with
  | CHandle (MsgSP m) => match pm_msg m with MAccepted n k => fair s n k (pm_from m) | MDecide n _ _ => nodecide s n | _ => True end
  | _ => True
  end.
Lemma sp_handle_c s m : CH s -> apt s (CHandle (MsgSP m)) -> cok (sp_handle s m).
Proof.
  intros H Ha. pose proof (sp_handle_f P ps M Q s m (proj1 H)) as F. cbn [apt] in Ha. unfold sp_handle in *. destruct (pm_msg m) as [n|n d na a|p|n q d sy|n q d es|n a|n|n q d|es|c|n q ss|ss].
  - eapply ch_kpr; eauto. apply handle_preparereq_k.
  - eapply ch_kpr; eauto. apply handle_prepare_k.
  - destruct (s_role s) eqn:Hr, (s_phase s) eqn:Hp; try exact H; [apply promise_prepare_c; auto|]. eapply ch_kpr; eauto. apply promise_accept_k.
  - eapply ch_kpr; eauto. apply acceptsync_k.
  - eapply ch_kpr; eauto. apply acceptdecide_k.
  - apply handle_accepted_c; auto.
  - eapply ch_kpr; eauto. apply notaccepted_k.
  - eapply ch_kpr; eauto. apply decide_k; auto.
  - apply fwd_prop_c; auto.
  - eapply ch_kpr; eauto. apply compaction_k.
  - eapply ch_kpr; eauto. apply accept_ss_k.
  - apply fwd_ss_c; auto.
Qed.
Lemma append_c s e : CH s -> cok2 (sp_append s e).
Proof.
  intros H. unfold sp_append. destruct (accepted_reconfiguration s) eqn:Ha; [exact H|].
  assert (Hs : i_ss (s_is s) = None) by (unfold accepted_reconfiguration in Ha; destruct (i_ss (s_is s)); [discriminate|reflexivity]).
  assert (K : CH (forward_proposals s [e])) by (eapply ch_kp; [exact H|apply forward_props_f; apply H|apply forward_props_k]).
  assert (X : cok (propose_entry s e)). { unfold propose_entry. destruct (s_role s) eqn:Hr, (s_phase s) eqn:Hp; cbn [cok]; auto; [|apply accept_entry_c; auto]. eapply ch_kp; [exact H|apply fr_bp; apply H|]. right. repeat split; auto. }
  destruct (propose_entry s e); exact X.
Qed.
Lemma reconfigure_c s c m : CH s -> cok2 (sp_reconfigure s c m).
Proof.
  intros H. unfold sp_reconfigure. destruct (accepted_reconfiguration s) eqn:Ha; [exact H|]. cbn zeta.
  assert (Hs : i_ss (s_is s) = None) by (unfold accepted_reconfiguration in Ha; destruct (i_ss (s_is s)); [discriminate|reflexivity]).
  match goal with |- cok2 (bind ?e _) => assert (X : cok e); [|destruct e; exact X] end.
  assert (K : forall ss, CH (forward_stopsign s ss)) by (intros ss; eapply ch_kp; [exact H|apply forward_ss_f; apply H|apply forward_ss_k]).
  destruct (s_role s) eqn:Hr, (s_phase s) eqn:Hp; cbn [cok]; auto; [|apply accept_ss_c; auto]. eapply ch_kp; [exact H|apply fr_bss; apply H|]. right. repeat split; auto.
Qed.
Definition coko {B} (r : res (omni * B)) : Prop := match r with Ok (o, _) => CH (o_sp o) | Panic _ => True end.
Definition coko1 (r : res omni) : Prop := match r with Ok o => CH (o_sp o) | Panic _ => True end.
Lemma tick_c o : CH (o_sp o) -> coko1 (tick o).
Proof.
  intros H. unfold tick. destruct (clock_tick (o_eclk o)) as [ec f1]. 
  match goal with |- coko1 (bind ?e _) => assert (X : coko1 e); [|destruct e as [o1|tr]; [|exact X]] end.
  { destruct f1; [|exact H]. unfold election_timeout. destruct (hb_timeout _ _ _) as [b [n|]]; [|exact H]. pose proof (handle_leader_c (o_sp o) n H) as X.
    cbn [o_sp]. destruct (handle_leader _ _); exact X. }
  cbn [bind]. cbn in X. destruct (clock_tick (o_rclk o1)) as [rc f2].
  match goal with |- coko1 (bind ?e _) => assert (X2 : coko1 e); [|destruct e as [o2|tr]; [|exact X2]] end.
  { destruct f2; [|exact X]. cbn [o_sp]. assert (Y : cok (resend_message_timeout (o_sp o1))).
    { eapply ch_kpr; [exact X|apply resend_timeout_f; apply X|]. unfold resend_message_timeout. destruct (s_role (o_sp o1)) eqn:Hr; [apply resend_follower_k; auto|apply resend_leader_k]. }
    destruct (resend_message_timeout (o_sp o1)); exact Y. }
  cbn [bind]. cbn in X2. destruct (clock_tick (o_fclk o2)) as [fc f3]. destruct f3; [|exact X2]. cbn [o_sp].
  assert (Y : cok (flush_batch_timeout (o_sp o2))).
  { pose proof (flush_timeout_f P ps M Q _ (proj1 X2)) as F. unfold flush_batch_timeout in *. destruct (s_role (o_sp o2)) eqn:Hr, (s_phase (o_sp o2)) eqn:Hp; try exact X2; [|apply flush_leader_c; auto].
    eapply ch_kpr; [exact X2|exact F|apply flush_follower_k; auto]. }
  destruct (flush_batch_timeout (o_sp o2)); exact Y.
Qed.
Lemma exec_c o c : CH (o_sp o) -> apt (o_sp o) c -> coko (exec o c).
Proof.
  intros H0 Ha0. unfold exec. assert (H : CH (o_sp (start_call o))). { eapply ch_kp; [exact H0|apply fr_is; apply H0|]. right. repeat split; auto. }
  assert (Ha : apt (o_sp (start_call o)) c). { destruct c as [| | | | | | | |[m|m]]; auto. }
  clear H0 Ha0. set (o1 := start_call o) in *. clearbody o1. destruct c as [e|cc0 meta| |i|i l|q| |q|m]; cbn [exec_call].
  - pose proof (append_c _ e H) as X. destruct (sp_append _ _) as [[s r]|]; exact X.
  - unfold reconfigure. destruct (cluster_validate cc0); [|exact H]. pose proof (reconfigure_c (o_sp o1) cc0 meta H) as X. destruct (sp_reconfigure _ _ _) as [[s r]|]; exact X.
  - pose proof (tick_c o1 H) as X. destruct (tick o1); exact X.
  - pose proof (ch_kpr2 (o_sp o1) _ H (trim_f P ps M Q _ i (proj1 H)) (trim_k (o_sp o1) i)) as X. destruct (sp_trim _ _) as [[s r]|]; exact X.
  - pose proof (ch_kpr2 (o_sp o1) _ H (snapshot_f P ps M Q _ i l (proj1 H)) (snapshot_k (o_sp o1) i l)) as X. destruct (sp_snapshot _ _ _) as [[s r]|]; exact X.
  - cbn. eapply ch_kp; [exact H|apply reconnected_f; apply H|apply reconnected_k].
  - unfold try_become_leader. pose proof (handle_leader_c (o_sp o1) (set_n (e_ballot (o_ble o1)) (b_n (sp_promise (o_sp o1)) + 1)) H) as X. destruct (handle_leader _ _); exact X.
  - exact H.
  - unfold handle_incoming. destruct m as [m|m]; [|exact H]. pose proof (sp_handle_c (o_sp o1) m H Ha) as X. destruct (sp_handle _ _); exact X.
Qed.
Lemma take_c o buf o' l : CH (o_sp o) -> take_outgoing_messages o buf = (o', l) -> CH (o_sp o').
Proof.
  intros H Ht. pose proof (take_f P ps M Q _ _ _ _ (proj1 H) Ht) as F. eapply ch_kp; [exact H|exact F|]. revert Ht. unfold take_outgoing_messages, sp_take_outgoing.
  destruct buf; intros X; injection X as <- _; right; repeat split; auto.
Qed.
End Fix.
End WithEntry.
