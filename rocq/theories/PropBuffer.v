(** * C52: buffered proposals are not lost *)
From Coq Require Import List Arith Bool Lia.
Import ListNotations.
From Verif Require Import Types Config MemStore Internal LeaderState SeqPaxos Ble Omni System Basics Scen Spec Refute PropAgreement Local NoPanic PropNoPanic Takeover.

Section WithEntry.
Context {E : EntryT}.

Section Fix.
Context (bp : list T).

Definition Kb (s : sp) : Prop := exists new, s_bprops s = bp ++ new.
Definition bok (r : res sp) : Prop := match r with Ok s => Kb s | Panic _ => True end.
Definition bok2 {B} (r : res (sp * B)) : Prop := match r with Ok (s, _) => Kb s | Panic _ => True end.
Lemma lift_b {B} s (o : option B) (f : B -> res sp) : (forall b, o = Some b -> bok (f b)) -> bok (bind (lift s o) f).
Proof. intros Hf. destruct o; cbn; auto. Qed.
Lemma bind_b {B} (r : res B) (f : B -> res sp) : (forall b, bok (f b)) -> bok (bind r f).
Proof. destruct r; cbn; auto. Qed.
Lemma for_each_b f l : (forall s p, Kb s -> bok (f s p)) -> forall s, Kb s -> bok (for_each s l f).
Proof. intros Hf. induction l as [|p l IH]; cbn; intros s H; auto. pose proof (Hf s p H) as X. destruct (f s p); cbn in *; auto. Qed.
Lemma push_all_b m l : forall s, Kb s -> Kb (push_all s l m).
Proof. unfold push_all. induction l as [|p l IH]; cbn; intros s H; [exact H|]. apply IH; exact H. Qed.
Lemma mod_b s k f : Kb s -> Kb (mod_accdec s k f).
Proof. intros H. unfold mod_accdec. destruct (nth_error _ _); exact H. Qed.
Lemma reply_b s n a : Kb s -> bok (reply_accepted s n a).
Proof. intros H. unfold reply_accepted. apply lift_b. intros [idx|] _; [apply mod_b; auto|exact H]. Qed.
Lemma reconnected_b s p : Kb s -> Kb (reconnected s p).
Proof. intros H. unfold reconnected. destruct (p =? s_pid s); auto. destruct (p =? sp_leader s); exact H. Qed.
Lemma cvb_b s b : Kb s -> Kb (fst (check_valid_ballot s b)).
Proof. intros H. unfold check_valid_ballot. destruct (bcmp _ _); cbn [fst]; auto. apply reconnected_b; auto. Qed.
Lemma seqnum_b s q from : Kb s -> Kb (fst (handle_sequence_num s q from)).
Proof. intros H. unfold handle_sequence_num. destruct (check_msg_status _ _); cbn [fst]; auto. apply reconnected_b; auto. Qed.
Lemma update_decided_b s d : Kb s -> Kb (fst (update_decided s d)).
Proof. intros H. unfold update_decided. destruct (_ <=? _); auto. destruct (_ <? _); auto. Qed.
Lemma send_prepare_b l : forall s, Kb s -> Kb (fold_left send_prepare l s).
Proof. induction l as [|p l IH]; cbn; intros s H; [exact H|]. apply IH. exact H. Qed.
Lemma send_ad_b es s : Kb s -> bok (send_acceptdecide s es).
Proof.
  intros H. unfold send_acceptdecide. apply lift_b. intros l _. apply for_each_b; auto. intros s1 p H1. unfold send_acceptdecide_to. apply lift_b. intros [k|] _; [apply mod_b; auto|].
  apply lift_b. intros l1 _. apply lift_b. intros [l2 q] _. exact H1.
Qed.
Lemma add_b s es : Kb s -> Kb (set_bprops s (s_bprops s ++ es)).
Proof. intros [new H]. exists (new ++ es). cbn. rewrite H, app_assoc. reflexivity. Qed.
Lemma forward_b s es : Kb s -> Kb (forward_proposals s es).
Proof. intros H. unfold forward_proposals. destruct (_ && _); [exact H|apply add_b, H]. Qed.
Lemma forward_ss_b s ss : Kb s -> Kb (forward_stopsign s ss).
Proof. intros H. unfold forward_stopsign. destruct (_ && _); [exact H|]. destruct (s_bss s); exact H. Qed.
Lemma handle_leader_b s n : Kb s -> bok (handle_leader s n).
Proof.
  intros H. unfold handle_leader. destruct (_ || _); [exact H|]. destruct (_ =? _); [|exact H]. cbn zeta. apply lift_b. intros [ls x] _. apply push_all_b. exact H.
Qed.
Lemma accept_entries_b s es : Kb s -> bok (accept_entries_leader s es).
Proof.
  intros H. unfold accept_entries_leader. destruct (append_entries_with_batching _ _) as [is [[a l]|]]; [|exact H]. apply lift_b. intros ls _. apply send_ad_b. exact H.
Qed.
Lemma accept_entry_b s e : Kb s -> bok (accept_entry_leader s e).
Proof.
  intros H. unfold accept_entry_leader. destruct (append_entry_with_batching _ _) as [is [[a l]|]]; [|exact H]. apply lift_b. intros ls _. apply send_ad_b. exact H.
Qed.
Lemma bindk_b (r : res sp) (f : sp -> res sp) : bok r -> (forall s, Kb s -> bok (f s)) -> bok (bind r f).
Proof. destruct r; cbn; auto. Qed.
Lemma send_ss_b ss b s p : Kb s -> bok (send_accept_stopsign ss b s p).
Proof. intros H. unfold send_accept_stopsign. apply lift_b. intros [ls sq] _. exact H. Qed.
Lemma send_dec_b d b s p : Kb s -> bok (send_decide d b s p).
Proof. intros H. unfold send_decide. apply lift_b. intros [ls sq] _. exact H. Qed.
Lemma accept_ss_b s ss : Kb s -> bok (accept_stopsign_leader s ss).
Proof.
  intros H. unfold accept_stopsign_leader. destruct (i_append_stopsign _ _) as [is r]. cbn zeta. apply bindk_b; [destruct r as [[a l]|]; [apply send_ad_b|]; exact H|].
  intros s1 H1. apply lift_b. intros ls _. apply lift_b. intros ps _. apply for_each_b; [|exact H1]. intros. apply send_ss_b. auto.
Qed.
Lemma send_accsync_b s p : Kb s -> bok (send_accsync s p).
Proof. intros H. unfold send_accsync. cbn zeta. do 4 (apply lift_b; intros ? _). apply lift_b. intros [ls sq] _. exact H. Qed.
Lemma accepted_to_b d s p : Kb s -> bok (handle_accepted_to d s p).
Proof. intros H. unfold handle_accepted_to. apply lift_b. intros [k|] _; [apply mod_b; auto|apply send_dec_b; auto]. Qed.
Lemma resend_leader_b s : Kb s -> bok (resend_messages_leader s).
Proof.
  intros H. unfold resend_messages_leader. destruct (s_phase s); try exact H.
  - apply lift_b. intros ps _. apply send_prepare_b. exact H.
  - apply bindk_b; [|intros s1 H1; apply lift_b; intros ps _; apply send_prepare_b; exact H1]. destruct (i_ss _); [|exact H]. apply lift_b. intros ps _. apply for_each_b; [|exact H].
    intros s1 p H1. unfold resend_ss_to. destruct (stopsign_is_decided _); [apply send_dec_b; auto|]. apply lift_b. intros a _. destruct (_ =? _); [exact H1|apply send_ss_b; auto].
Qed.
Lemma resend_b s : Kb s -> bok (resend_message_timeout s).
Proof.
  intros H. unfold resend_message_timeout. destruct (s_role s); [|apply resend_leader_b; auto]. cbn. unfold resend_messages_follower, send_preparereq_to_all_peers.
  destruct (s_phase s); auto; [destruct (s_cprom s); [exact H|]|]; apply push_all_b; exact H.
Qed.
Lemma flush_b s : Kb s -> bok (flush_batch_timeout s).
Proof.
  intros H. unfold flush_batch_timeout. destruct (s_role s), (s_phase s); try exact H.
  - unfold flush_batch_follower. destruct (flush_batch _) as [is a]. destruct (_ <? _); [apply reply_b|]; exact H.
  - unfold flush_batch_leader. destruct (flush_batch_and_get_entries _) as [is [[a l]|]]; [|exact H]. apply lift_b. intros ls _. apply send_ad_b. exact H.
Qed.
Lemma snapshot_b s i l : Kb s -> bok2 (sp_snapshot s i l).
Proof.
  intros H. unfold sp_snapshot. destruct (try_snapshot _ _) as [[is r]|]; [|exact I]. cbn [bind]. destruct r; [exact H|]. cbn. destruct l; [exact H|]. apply push_all_b. exact H.
Qed.
Lemma trim_b s i : Kb s -> bok2 (sp_trim s i).
Proof.
  intros H. unfold sp_trim. destruct (s_role s); [exact H|]. destruct (get_min_all_accepted_idx _) as [mn|]; [|exact I]. cbn [lift bind].
  assert (X : forall k, bok2 ('(is, r) <- try_trim (s_is s) k ;; match r with None => Ok (push_all (set_is s is) (s_peers (set_is s is)) (MCompaction (CmpTrim k)), None) | Some e => Ok (set_is s is, Some e) end)).
  { intros k. destruct (try_trim _ _) as [[is r]|]; [|exact I]. cbn [bind]. destruct r; [exact H|]. apply push_all_b. exact H. }
  destruct i as [i|]; [|apply X]. destruct (i <=? mn); [apply X|exact H].
Qed.
Lemma append_b s e : Kb s -> bok2 (sp_append s e).
Proof.
  intros H. unfold sp_append. destruct (accepted_reconfiguration s); [exact H|].
  assert (X : bok (propose_entry s e)).
  { unfold propose_entry. destruct (s_role s), (s_phase s); try (apply forward_b; exact H); [apply add_b; exact H|apply accept_entry_b; exact H]. }
  destruct (propose_entry s e); [exact X|exact I].
Qed.
Lemma reconfigure_b s c m : Kb s -> bok2 (sp_reconfigure s c m).
Proof.
  intros H. unfold sp_reconfigure. destruct (accepted_reconfiguration s); [exact H|]. cbn zeta.
  match goal with |- bok2 (bind ?r _) => assert (X : bok r) end.
  { destruct (s_role s), (s_phase s); try (apply forward_ss_b; exact H); [exact H|apply accept_ss_b; exact H]. }
  destruct (match s_role s with Follower => _ | Leader => _ end); [exact X|exact I].
Qed.
End Fix.

(** ** Specification *)

(** What became of the proposals [bp] that were buffered at the server [o] when it is in the state [o'] later: they are still buffered, or
    they are on the way to the leader, or the server is the leader and has them in its log, in each case in the same order. *)
Definition cared_for (bp : list T) (o' : omni) : Prop :=
  (exists new, buffered o' = bp ++ new) \/
  (buffered o' = [] /\
   ((exists to, to <> 0 /\ to <> own_pid o' /\ to = b_pid (get_promise o') /\ In (mkPM (own_pid o') to (MProposalForward bp)) (outgoing o')) \/
    (role_of o' = (Leader, PhAccept) /\ exists pre post, ms_log (storage o') = pre ++ bp ++ post))).

(** ** Proof *)
Definition cfs (bp : list T) (s : sp) : Prop :=
  Kb bp s \/
  (s_bprops s = [] /\
   ((exists to, to <> 0 /\ to <> s_pid s /\ to = sp_leader s /\ In (mkPM (s_pid s) to (MProposalForward bp)) (s_out s)) \/
    (s_role s = Leader /\ s_phase s = PhAccept /\ exists pre post, ms_log (i_st (s_is s)) = pre ++ bp ++ post))).
Definition cok (bp : list T) (r : res sp) : Prop := match r with Ok s => cfs bp s | Panic _ => True end.
Lemma bok_cok bp r : bok bp r -> cok bp r.
Proof. destruct r; cbn; auto. left. auto. Qed.

Lemma accsync_same s p s' : send_accsync s p = Ok s' -> s_is s' = s_is s /\ s_bprops s' = s_bprops s /\ s_role s' = s_role s /\ s_phase s' = s_phase s.
Proof. intros H1. unfold send_accsync in H1. cbn zeta in H1. do 4 (apply lift_bind in H1; destruct H1 as (? & _ & H1)). apply lift_bind in H1. destruct H1 as ([ls sq] & _ & H1). injection H1 as <-. auto. Qed.
Lemma accsyncs_same ps : forall s s', for_each s ps send_accsync = Ok s' -> s_is s' = s_is s /\ s_bprops s' = s_bprops s /\ s_role s' = s_role s /\ s_phase s' = s_phase s.
Proof.
  induction ps as [|p ps IH]; cbn [for_each]; intros s s' H; [injection H as <-; auto|]. apply bind_inv in H. destruct H as (s1 & H1 & H). destruct (IH _ _ H) as (A & B & C & D). rewrite A, B, C, D.
  apply (accsync_same _ _ _ H1).
Qed.
Lemma majority_c s : cok (s_bprops s) (handle_majority_promises s).
Proof.
  destruct (handle_majority_promises s) as [s'|] eqn:H; [|exact I]. cbn. unfold handle_majority_promises, take_max_promise_sync in H. cbn zeta in H. cbn [s_ls set_ls s_is] in H.
  apply bind_inv in H. destruct H as ([is acc] & _ & H). destruct (accepted_reconfiguration _).
  - cbn zeta in H. apply lift_bind in H. destruct H as (ls1 & _ & H). apply lift_bind in H. destruct H as (ps & _ & H). apply accsyncs_same in H. destruct H as (A & B & C & D). left. exists []. rewrite B, app_nil_r. reflexivity.
  - cbn [s_bprops set_is set_ls] in H.
    match type of H with (let '(_, _) := (let '(_, _) := ?e in _) in _) = _ => assert (X : exists s2 a2, e = (s2, a2) /\ ((s_bprops s = [] /\ s_bprops s2 = []) \/ (s_bprops s2 = [] /\ exists pre, ms_log (i_st (s_is s2)) = pre ++ s_bprops s))) end.
    { destruct (s_bprops s) as [|e es] eqn:Eb; [do 2 eexists; split; [reflexivity|]; left; split; [reflexivity|exact Eb]|]. do 2 eexists. split; [reflexivity|]. right. split; [reflexivity|]. cbn. eexists. reflexivity. }
    destruct X as (s2 & a2 & X1 & X2). rewrite X1 in H.
    assert (Y : exists s3 a3, match s_bss s2 with Some ss => (set_is (set_bss s2 None) (fst (i_append_stopsign (s_is (set_bss s2 None)) ss)), i_acc (s_is (set_is (set_bss s2 None) (fst (i_append_stopsign (s_is (set_bss s2 None)) ss))))) | None => (s2, a2) end = (s3, a3)
       /\ s_bprops s3 = s_bprops s2 /\ exists post, ms_log (i_st (s_is s3)) = ms_log (i_st (s_is s2)) ++ post).
    { destruct (s_bss s2) as [ss|]; [|do 2 eexists; split; [reflexivity|]; split; [reflexivity|exists []; rewrite app_nil_r; reflexivity]]. do 2 eexists. split; [reflexivity|]. split; [reflexivity|].
      unfold i_append_stopsign, cache_append_stopsign. cbn. destruct (c_batch _) as [|e es]; cbn; [exists []; rewrite app_nil_r; reflexivity|eexists; reflexivity]. }
    destruct Y as (s3 & a3 & Y1 & Y2 & post & Y3). cbn zeta in H. rewrite Y1 in H. apply lift_bind in H. destruct H as (ls1 & _ & H). apply lift_bind in H. destruct H as (ps & _ & H).
    apply accsyncs_same in H. destruct H as (A & B & C & D). cbn in A, B, C, D. rewrite Y2 in B.
    destruct X2 as [(X2 & X3)|(X2 & pre & X3)].
    + left. exists []. rewrite B, X3, X2. reflexivity.
    + right. split; [congruence|]. right. split; [exact C|]. split; [exact D|]. exists pre, post. rewrite A, Y3, X3, <- app_assoc. reflexivity.
Qed.

Lemma acceptsync_c s n sq d sy from : cok (s_bprops s) (handle_acceptsync s n sq d sy from).
Proof.
  unfold handle_acceptsync. pose proof (cvb_b (s_bprops s) s n) as X. destruct (check_valid_ballot s n) as [s1 v] eqn:Hc. cbn [fst] in X. destruct X as [new Hn]; [exists []; rewrite app_nil_r; reflexivity|].
  destruct (v && _); [|left; exists new; exact Hn]. cbn zeta.
  destruct (sync_log _ _ _ _) as [[is acc]|]; [|exact I]. cbn [bind]. set (s2 := set_is (set_cprom s1 None) is).
  assert (B1 : s_bprops s1 = s_bprops s). { unfold check_valid_ballot in Hc. destruct (bcmp _ _); injection Hc as <- _; [reflexivity| |reflexivity]. unfold reconnected. destruct (_ =? _); [reflexivity|]. destruct (_ =? _); reflexivity. }
  assert (Y : let s3 := match i_ss (s_is s2) with None => forward_buffered_proposals s2 | Some _ => s2 end in
     Kb (s_bprops s) s3 \/ (s_bprops s3 = [] /\ exists to, to <> 0 /\ to <> s_pid s3 /\ to = sp_leader s3 /\ In (mkPM (s_pid s3) to (MProposalForward (s_bprops s))) (s_out s3))).
  { destruct (i_ss (s_is s2)); [left; exists []; rewrite app_nil_r; exact B1|]. unfold forward_buffered_proposals. change (s_bprops s2) with (s_bprops s1). rewrite B1. destruct (s_bprops s) as [|e es]; [left; exists []; reflexivity|].
    unfold forward_proposals. change (sp_leader (set_bprops s2 [])) with (sp_leader s2). change (s_pid (set_bprops s2 [])) with (s_pid s2). destruct (0 <? sp_leader s2) eqn:L1; cbn [andb]; [|left; exists []; cbn; rewrite app_nil_r; reflexivity].
    destruct (s_pid s2 =? sp_leader s2) eqn:L2; cbn [negb]; [left; exists []; cbn; rewrite app_nil_r; reflexivity|]. apply Nat.ltb_lt in L1. apply Nat.eqb_neq in L2.
    right. split; [reflexivity|]. exists (sp_leader s2). split; [lia|]. split; [intros X; apply L2; symmetry; exact X|]. split; [reflexivity|]. cbn. apply in_or_app. right. left. reflexivity. }
  cbn zeta in Y. set (s3 := match i_ss (s_is s2) with None => _ | Some _ => _ end) in *. cbn. destruct Y as [Y|(Y1 & to & T1 & T2 & T3 & T4)].
  - left. exact Y.
  - right. split; [exact Y1|]. left. exists to. split; [exact T1|]. split; [exact T2|]. split; [exact T3|]. cbn. apply in_or_app. left. exact T4.
Qed.

Lemma handle_c s m : cok (s_bprops s) (sp_handle s m).
Proof.
  assert (K0 : Kb (s_bprops s) s) by (exists []; rewrite app_nil_r; reflexivity).
  unfold sp_handle. destruct (pm_msg m) as [n|n d na a|pr|n sq d sy|n sq d es|n a|n|n sq d|es|c|n sq ss|ss].
  - apply bok_cok. unfold handle_preparereq. destruct (_ && _); [|exact K0]. apply lift_b. intros l1 _. apply lift_b. intros l2 _. exact K0.
  - apply bok_cok. unfold handle_prepare. destruct (_ || _); [|exact K0]. cbn zeta. apply bind_b. intros b. exact K0.
  - destruct (s_role s), (s_phase s); try (left; exact K0).
    + unfold handle_promise_prepare. destruct (beq _ _); [|left; exact K0]. destruct (ls_set_promise _ _ _ _) as [[ls maj]|]; [|exact I]. cbn [lift bind]. destruct maj; [|left; exact K0]. apply (majority_c (set_ls s ls)).
    + apply bok_cok. unfold handle_promise_accept. destruct (beq _ _); [|exact K0]. apply lift_b. intros [ls x] _. apply send_accsync_b. exact K0.
  - apply acceptsync_c.
  - apply bok_cok. unfold handle_acceptdecide. pose proof (cvb_b _ s n K0) as X. destruct (check_valid_ballot s n) as [s1 v]. cbn [fst] in X. destruct (v && _); [|exact X].
    pose proof (seqnum_b _ s1 sq (b_pid n) X) as Y. destruct (handle_sequence_num _ _ _) as [s2 []]; cbn [fst] in Y; try exact Y.
    destruct (append_entries_and_get_accepted_idx _ _) as [is r1]. cbn zeta. pose proof (update_decided_b (s_bprops s) (set_is s2 is) d Y) as Z. destruct (update_decided _ _) as [s3 r2]. cbn [fst] in Z.
    destruct (match r2 with Some _ => r2 | None => r1 end); [apply reply_b|]; exact Z.
  - apply bok_cok. unfold handle_accepted. destruct (_ && _); [|exact K0]. apply lift_b. intros l1 _. destruct (_ && _); [|exact K0]. apply lift_b. intros ps _. apply for_each_b; [|exact K0]. intros. apply accepted_to_b. auto.
  - apply bok_cok. unfold handle_notaccepted. destruct (_ && _); [|exact K0]. apply lift_b. intros l1 _. exact K0.
  - apply bok_cok. unfold handle_decide. pose proof (cvb_b _ s n K0) as X. destruct (check_valid_ballot s n) as [s1 v]. cbn [fst] in X. destruct (v && _); [|exact X].
    pose proof (seqnum_b _ s1 sq (b_pid n) X) as Y. destruct (handle_sequence_num _ _ _) as [s2 []]; cbn [fst] in Y; try exact Y.
    pose proof (update_decided_b _ s2 d Y) as Z. destruct (update_decided _ _) as [s3 [r2|]]; cbn [fst] in Z; [apply reply_b|]; exact Z.
  - apply bok_cok. unfold handle_forwarded_proposal. destruct (accepted_reconfiguration s); [exact K0|]. destruct (s_role s), (s_phase s); try (apply forward_b; exact K0); [apply add_b; exact K0|apply accept_entries_b; exact K0].
  - apply bok_cok. unfold handle_compaction. destruct c as [k|i]; [destruct (try_trim _ _) as [[is r]|]; [exact K0|exact I]|]. pose proof (snapshot_b _ s i true K0) as X. destruct (sp_snapshot s i true) as [[s1 r]|]; [exact X|exact I].
  - apply bok_cok. unfold handle_accept_stopsign. pose proof (cvb_b _ s n K0) as X. destruct (check_valid_ballot s n) as [s1 v]. cbn [fst] in X. destruct (v && _); [|exact X].
    pose proof (seqnum_b _ s1 sq (b_pid n) X) as Y. destruct (handle_sequence_num _ _ _) as [s2 []]; cbn [fst] in Y; try exact Y. cbn zeta. apply bind_b. intros [is a]. apply reply_b. exact Y.
  - apply bok_cok. unfold handle_forwarded_stopsign. destruct (accepted_reconfiguration s); [exact K0|]. destruct (s_role s), (s_phase s); try (apply forward_ss_b; exact K0); [exact K0|apply accept_ss_b; exact K0].
Qed.

Lemma election_b bp o : Kb bp (o_sp o) -> match election_timeout o with Ok o' => Kb bp (o_sp o') | Panic _ => True end.
Proof.
  intros H. unfold election_timeout. cbn zeta. destruct (hb_timeout _ _ _) as [b [n|]]; [|exact H]. pose proof (handle_leader_b bp (o_sp o) n H) as X. cbn [o_sp set_ble]. destruct (handle_leader _ n); [exact X|exact I].
Qed.
Lemma tick_b bp o : Kb bp (o_sp o) -> match tick o with Ok o' => Kb bp (o_sp o') | Panic _ => True end.
Proof.
  intros H. unfold tick. destruct (clock_tick (o_eclk o)) as [ec f1]. cbn zeta. set (oa := mkOmni _ _ _ _ _).
  assert (X1 : match (if f1 then election_timeout oa else Ok oa) with Ok o' => Kb bp (o_sp o') | Panic _ => True end) by (destruct f1; [apply election_b|]; exact H).
  destruct (if f1 then election_timeout oa else Ok oa) as [o1|]; [|exact I]. cbn [bind]. destruct (clock_tick (o_rclk o1)) as [rc f2]. cbn [o_sp o_ble o_eclk o_rclk o_fclk].
  assert (X2 : match (if f2 then s <- resend_message_timeout (o_sp o1);; Ok (set_sp (mkOmni (o_sp o1) (o_ble o1) (o_eclk o1) rc (o_fclk o1)) s) else Ok (mkOmni (o_sp o1) (o_ble o1) (o_eclk o1) rc (o_fclk o1))) with Ok o' => Kb bp (o_sp o') | Panic _ => True end).
  { destruct f2; [|exact X1]. pose proof (resend_b _ _ X1) as Y. destruct (resend_message_timeout _); [exact Y|exact I]. }
  match type of X2 with match ?e with _ => _ end => change (match (o0 <- e ;; (let '(fc, fire) := clock_tick (o_fclk o0) in let o0 := mkOmni (o_sp o0) (o_ble o0) (o_eclk o0) (o_rclk o0) fc in if fire then s <- flush_batch_timeout (o_sp o0);; Ok (set_sp o0 s) else Ok o0)) with Ok o' => Kb bp (o_sp o') | Panic _ => True end); destruct e as [o2|]; [|exact I] end.
  cbn [bind]. destruct (clock_tick (o_fclk o2)) as [fc f3]. cbn zeta. destruct f3; [|exact X2]. cbn [o_sp]. pose proof (flush_b _ _ X2) as Y. destruct (flush_batch_timeout _); [exact Y|exact I].
Qed.

(** C52.  No call and no message makes a server lose proposals that it has buffered, in any state of the server. *)
Theorem C52_buffered_proposals_are_kept :
  (forall o c o' r, exec o c = Ok (o', r) -> cared_for (buffered o) o') /\
  (forall o buf o' l, take_outgoing_messages o buf = (o', l) -> buffered o' = buffered o).
Proof.
  split.
  - intros o c o' r He.
    assert (K0 : Kb (buffered o) (o_sp (start_call o))) by (exists []; rewrite app_nil_r; reflexivity).
    assert (G : cfs (buffered o) (o_sp o') -> cared_for (buffered o) o').
    { intros [H|(H1 & [H2|(H2 & H3 & H4)])]; [left; exact H|right; split; [exact H1|left; exact H2]|right; split; [exact H1|right; split; [|exact H4]]]. unfold role_of. rewrite H2, H3. reflexivity. }
    apply G. unfold exec in He. destruct c as [e|c m|  |i|i l|p| |p|m]; cbn [exec_call] in He.
    + pose proof (append_b _ _ e K0) as X. destruct (sp_append _ e) as [[s1 x]|]; [|discriminate]. injection He as <- _. left. exact X.
    + unfold reconfigure in He. destruct (cluster_validate c); [|injection He as <- _; left; exact K0]. pose proof (reconfigure_b _ _ c m K0) as X. destruct (sp_reconfigure _ c m) as [[s1 x]|]; [|discriminate]. injection He as <- _. left. exact X.
    + pose proof (tick_b _ _ K0) as X. destruct (tick _) as [o1|]; [|discriminate]. injection He as <- _. left. exact X.
    + pose proof (trim_b _ _ i K0) as X. destruct (sp_trim _ i) as [[s1 x]|]; [|discriminate]. injection He as <- _. left. exact X.
    + pose proof (snapshot_b _ _ i l K0) as X. destruct (sp_snapshot _ i l) as [[s1 x]|]; [|discriminate]. injection He as <- _. left. exact X.
    + injection He as <- _. left. apply reconnected_b. exact K0.
    + unfold try_become_leader in He. cbn zeta in He. pose proof (handle_leader_b _ _ (set_n (e_ballot (o_ble (start_call o))) (b_n (sp_promise (o_sp (start_call o))) + 1)) K0) as X.
      destruct (handle_leader _ _) as [s1|]; [|discriminate]. injection He as <- _. left. exact X.
    + injection He as <- _. left. exact K0.
    + unfold handle_incoming in He. destruct m as [m|b]; [|injection He as <- _; left; exact K0]. pose proof (handle_c (o_sp (start_call o)) m) as X. destruct (sp_handle _ m) as [s1|]; [|discriminate]. injection He as <- _. exact X.
  - intros o buf o' l H. unfold take_outgoing_messages, sp_take_outgoing in H. destruct buf; injection H as <- _; reflexivity.
Qed.
End WithEntry.
Print Assumptions C52_buffered_proposals_are_kept.

(** ** Cases: proposals at the servers 1 and 2 before there is a leader.  Server 1 has its
    own in the log when the quorum has promised; server 2 has sent its own to server 1 when
    it has handled the AcceptSync. *)
Section Case.
Local Existing Instance plain.
Definition sch_c52a : list cmd := [ Settle [1;2;3] 2; append 1 11; append 2 12; append 2 13; Call 1 CTryLeader; Fetch [1]; Deliver 1 2; Fetch [2] ].
Definition sys_c52a := match run cc3 ini (acts_of cc3 ini sch_c52a) with Some s => s | None => ini end.
Definition sch_c52b : list cmd := [ Deliver 2 1; Fetch [1]; Deliver 1 2 ].
Definition sys_c52b := match run cc3 sys_c52a (acts_of cc3 sys_c52a sch_c52b) with Some s => s | None => ini end.
Definition look (o : omni) := (role_of o, held o, buffered o, forwarded o).
Example C52_case :
  obs sys_c52a 1 look = Some ((Leader, PhPrepare), [], [11], []) /\
  obs sys_c52a 2 look = Some ((Follower, PhPrepare), [], [12; 13], []) /\
  obs sys_c52b 1 look = Some ((Leader, PhAccept), [11], [], []) /\
  obs sys_c52b 2 look = Some ((Follower, PhAccept), [11], [], [mkPM 2 1 (MProposalForward [12; 13])]).
Proof. vm_compute. auto. Qed.
End Case.
