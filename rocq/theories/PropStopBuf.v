(** * C64: where reconfiguration requests and forwarded proposals go *)
From Coq Require Import List Arith Bool Lia.
Import ListNotations.
From Verif Require Import Types Config MemStore Internal LeaderState SeqPaxos Ble Omni System Basics Scen Spec Refute PropAgreement Local NoPanic PropNoPanic Takeover.
From Verif Require PropStopMore.

Section WithEntry.
Context {E : EntryT}.

(** ** Specification *)

(** The stop sign that waits for a leader. *)
Definition waiting_stop (o : omni) : option stopsign := s_bss (o_sp o).

(** The stop sign [ss] goes to exactly one place: the log of the leader, the place for one waiting stop
    sign, or a message to the leader. *)
Definition stop_placed (o : omni) (ss : stopsign) (o' : omni) : Prop :=
  (role_of o = (Leader, PhAccept) /\ ms_ss (storage o') = Some ss /\ held o' = held o /\ waiting_stop o' = waiting_stop o) \/
  (storage o' = storage o /\ outgoing o' = outgoing o /\ waiting_stop o' = Some ss) \/
  (storage o' = storage o /\ waiting_stop o' = waiting_stop o /\
   exists l ph, get_current_leader o = Some (l, ph) /\ l <> own_pid o /\ outgoing o' = outgoing o ++ [mkPM (own_pid o) l (MForwardStopSign ss)]).

(** The entries [es] go to exactly one place: the log or batch of the leader, the buffer, or a message to
    the leader. *)
Definition entries_placed (o : omni) (es : list T) (o' : omni) : Prop :=
  (role_of o = (Leader, PhAccept) /\ held o' = held o ++ es /\ buffered o' = buffered o) \/
  (held o' = held o /\ storage o' = storage o /\ buffered o' = buffered o ++ es /\ outgoing o' = outgoing o) \/
  (held o' = held o /\ storage o' = storage o /\ buffered o' = buffered o /\
   exists l ph, get_current_leader o = Some (l, ph) /\ l <> own_pid o /\ outgoing o' = outgoing o ++ [mkPM (own_pid o) l (MProposalForward es)]).

(** The server has a stop sign in its log. *)
Definition has_stop (o : omni) : Prop := i_ss (s_is (o_sp o)) <> None.

(** ** What sending leaves alone *)
Section Same.
Context (s0 : sp).
Definition Sm (s : sp) : Prop := s_is s = s_is s0 /\ s_bss s = s_bss s0 /\ s_bprops s = s_bprops s0 /\ s_pid s = s_pid s0.
Definition smr (r : res sp) : Prop := match r with Ok s => Sm s | Panic _ => True end.
Lemma sm_lift {B} s (o : option B) (f : B -> res sp) : (forall b, smr (f b)) -> smr (bind (lift s o) f).
Proof. destruct o; cbn; auto. Qed.
Lemma sm_each f l : (forall s p, Sm s -> smr (f s p)) -> forall s, Sm s -> smr (for_each s l f).
Proof. intros Hf. induction l as [|p l IH]; cbn; intros s H; auto. pose proof (Hf s p H) as X. destruct (f s p); cbn in *; auto. Qed.
Lemma sm_mod s k f : Sm s -> Sm (mod_accdec s k f).
Proof. intros H. unfold mod_accdec. destruct (nth_error _ _); exact H. Qed.
Lemma sm_ad es s : Sm s -> smr (send_acceptdecide s es).
Proof.
  intros H. unfold send_acceptdecide. apply sm_lift. intros l. apply sm_each; auto. intros s1 p H1. unfold send_acceptdecide_to. apply sm_lift. intros [k|]; [apply sm_mod; auto|].
  apply sm_lift. intros l1. apply sm_lift. intros [l2 q]. exact H1.
Qed.
Lemma sm_ss ss b s p : Sm s -> smr (send_accept_stopsign ss b s p).
Proof. intros H. unfold send_accept_stopsign. apply sm_lift. intros [ls sq]. exact H. Qed.
End Same.

Lemma accept_ss_same s ss s' : accept_stopsign_leader s ss = Ok s' -> Sm (set_is s (fst (i_append_stopsign (s_is s) ss))) s'.
Proof.
  unfold accept_stopsign_leader. destruct (i_append_stopsign (s_is s) ss) as [is r]. cbn [fst]. set (s1 := set_is s is).
  assert (S1 : Sm s1 s1) by (repeat split). intros H.
  assert (X : smr s1 (match r with Some (_, es) => send_acceptdecide s1 es | None => Ok s1 end)) by (destruct r as [[a es]|]; [apply sm_ad|]; exact S1).
  destruct (match r with Some (_, es) => send_acceptdecide s1 es | None => Ok s1 end) as [s2|]; [|discriminate]. cbn [bind] in H.
  assert (Y : smr s1 (ls <- lift s2 (set_accepted_idx (s_ls s2) (s_pid s2) (i_acc (s_is s2))) ;; ps <- lift (set_ls s2 ls) (get_promised_followers (s_ls (set_ls s2 ls))) ;; for_each (set_ls s2 ls) ps (send_accept_stopsign ss false))).
  { apply sm_lift. intros ls. apply sm_lift. intros ps. apply sm_each; [intros; apply sm_ss; auto|exact X]. }
  unfold smr in Y. cbn zeta in H. rewrite H in Y. exact Y.
Qed.
Lemma append_ss_store (s : istore) ss : let s' := fst (i_append_stopsign s ss) in
  ms_ss (i_st s') = Some ss /\ ms_log (i_st s') ++ c_batch (i_ca s') = ms_log (i_st s) ++ c_batch (i_ca s).
Proof. unfold i_append_stopsign, cache_append_stopsign. cbn. destruct (c_batch (i_ca s)) as [|e es] eqn:X; cbn; rewrite ?X; split; auto. cbn. rewrite ?app_nil_r. reflexivity. Qed.
Lemma accept_entries_same s es s' : accept_entries_leader s es = Ok s' -> Sm (set_is s (fst (append_entries_with_batching (s_is s) es))) s'.
Proof.
  unfold accept_entries_leader. destruct (append_entries_with_batching (s_is s) es) as [is [[a l]|]]; cbn [fst]; [|intros H; injection H as <-; repeat split]. set (s1 := set_is s is). intros H.
  assert (Y : smr s1 (ls <- lift s1 (set_accepted_idx (s_ls s1) (s_pid s1) a) ;; send_acceptdecide (set_ls s1 ls) l)).
  { apply sm_lift. intros ls. apply sm_ad. repeat split. }
  unfold smr in Y. cbn zeta in H. rewrite H in Y. exact Y.
Qed.
Lemma batch_held_all (s : istore) es : let s' := fst (append_entries_with_batching s es) in
  ms_log (i_st s') ++ c_batch (i_ca s') = (ms_log (i_st s) ++ c_batch (i_ca s)) ++ es.
Proof.
  unfold append_entries_with_batching, cache_append_entries, take_entries_if_batch_is_full. cbn. destruct (_ <=? _); cbn; rewrite ?app_nil_r, ?app_assoc; reflexivity.
Qed.

(** ** C64 *)
Lemma forward_leader s ss : (forward_stopsign s ss = push s (sp_leader s) (MForwardStopSign ss) /\ sp_leader s <> 0 /\ sp_leader s <> s_pid s) \/
  (forward_stopsign s ss = match s_bss s with None => set_bss s (Some ss) | Some _ => s end).
Proof.
  unfold forward_stopsign. destruct (Nat.ltb_spec 0 (sp_leader s)); cbn [andb]; [|right; reflexivity]. destruct (Nat.eqb_spec (s_pid s) (sp_leader s)); cbn [negb]; [right; reflexivity|].
  left. split; [reflexivity|]. split; [lia|congruence].
Qed.
Lemma leader_known o l : sp_leader (o_sp o) = l -> l <> 0 -> exists ph, get_current_leader o = Some (l, ph).
Proof. unfold sp_leader, sp_promise, get_current_leader, get_promise. intros <- H. apply Nat.eqb_neq in H. rewrite H. eauto. Qed.
Lemma place_ok o ss s' : accepted_reconfiguration (o_sp (start_call o)) = false ->
  match s_role (o_sp (start_call o)), s_phase (o_sp (start_call o)) with
  | Leader, PhPrepare => Ok (set_bss (o_sp (start_call o)) (Some ss))
  | Leader, PhAccept => accept_stopsign_leader (o_sp (start_call o)) ss
  | _, _ => Ok (forward_stopsign (o_sp (start_call o)) ss)
  end = Ok s' ->
  stop_placed o ss (set_sp (start_call o) s') \/ (waiting_stop o <> None /\ role_of o <> (Leader, PhPrepare) /\ role_of o <> (Leader, PhAccept) /\ same_state o (set_sp (start_call o) s')).
Proof.
  set (s := o_sp (start_call o)). intros Ha H.
  assert (F : forward_stopsign s ss = s' -> s_role (o_sp o) <> Leader \/ (s_phase (o_sp o) <> PhPrepare /\ s_phase (o_sp o) <> PhAccept) ->
     stop_placed o ss (set_sp (start_call o) s') \/ (waiting_stop o <> None /\ role_of o <> (Leader, PhPrepare) /\ role_of o <> (Leader, PhAccept) /\ same_state o (set_sp (start_call o) s'))).
  { intros <- Hr. unfold stop_placed. destruct (forward_leader s ss) as [(X & X1 & X2)|X]; rewrite X.
    - left. right. right. split; [reflexivity|]. split; [reflexivity|]. destruct (leader_known o (sp_leader s) eq_refl X1) as [ph Hph]. exists (sp_leader s), ph. split; [exact Hph|]. split; [exact X2|reflexivity].
    - change (s_bss s) with (waiting_stop o). destruct (waiting_stop o) as [ss0|] eqn:W; [|left; right; left; repeat split; reflexivity]. right.
      split; [discriminate|]. unfold role_of. split; [intros Y; injection Y as Y1 Y2; destruct Hr as [Hr|[Hr Hr']]; congruence|]. split; [intros Y; injection Y as Y1 Y2; destruct Hr as [Hr|[Hr Hr']]; congruence|]. reflexivity. }
  change (s_role s) with (s_role (o_sp o)) in H. change (s_phase s) with (s_phase (o_sp o)) in H.
  destruct (s_role (o_sp o)) eqn:R1; [apply F; [injection H as <-; reflexivity|left; discriminate]|]. destruct (s_phase (o_sp o)) eqn:R2.
  - left. right. left. injection H as <-. split; [reflexivity|split; reflexivity].
  - left. left. split; [unfold role_of; congruence|]. apply accept_ss_same in H. destruct H as (A1 & A2 & _). unfold storage, held, waiting_stop, storage. cbn [o_sp set_sp]. rewrite A1, A2. cbn [s_is set_is s_bss]. destruct (append_ss_store (s_is s) ss) as [B1 B2]. split; [exact B1|]. split; [exact B2|reflexivity].
  - apply F; [injection H as <-; reflexivity|right; split; discriminate].
  - apply F; [injection H as <-; reflexivity|right; split; discriminate].
Qed.

(** [reconfigure] returns an error and changes nothing, or the stop sign goes to one place.  The last case,
    in which it is dropped, is what makes the full claim false. *)
Theorem C64_reconfigure_placed_partial :
  forall o c meta o' r, exec o (CReconfigure c meta) = Ok (o', r) ->
  (r <> RPropose None /\ same_state o o' /\ (has_stop o \/ cluster_validate c = false)) \/
  (r = RPropose None /\ ~ has_stop o /\
   (stop_placed o (mkSS c meta) o' \/ (waiting_stop o <> None /\ role_of o <> (Leader, PhPrepare) /\ role_of o <> (Leader, PhAccept) /\ same_state o o'))).
Proof.
  intros o c meta o' r He. unfold exec in He. cbn [exec_call] in He. unfold reconfigure in He. destruct (cluster_validate c) eqn:V; [|injection He as <- <-; left; split; [discriminate|split; [reflexivity|auto]]].
  unfold sp_reconfigure in He. destruct (accepted_reconfiguration (o_sp (start_call o))) eqn:A.
  - injection He as <- <-. left. split; [discriminate|]. split; [reflexivity|]. left. unfold has_stop. unfold accepted_reconfiguration in A. change (i_ss (s_is (o_sp (start_call o)))) with (i_ss (s_is (o_sp o))) in A. destruct (i_ss _); [discriminate|discriminate A].
  - cbn zeta in He. apply bind_inv in He. destruct He as ([s1 r1] & H1 & H2). apply bind_inv in H1. destruct H1 as (s2 & H1 & H3). injection H3 as <- <-. injection H2 as <- <-.
    right. split; [reflexivity|]. split; [|apply place_ok; auto]. unfold has_stop. unfold accepted_reconfiguration in A. change (i_ss (s_is (o_sp (start_call o)))) with (i_ss (s_is (o_sp o))) in A. destruct (i_ss _); [discriminate|congruence].
Qed.

(** A stop sign forwarded by another server: the same. *)
Theorem C64_forwarded_stop_placed_partial :
  forall o m ss o' r, pm_msg m = MForwardStopSign ss -> exec o (CHandle (MsgSP m)) = Ok (o', r) ->
  (has_stop o /\ same_state o o') \/
  (~ has_stop o /\
   (stop_placed o ss o' \/ (waiting_stop o <> None /\ role_of o <> (Leader, PhPrepare) /\ role_of o <> (Leader, PhAccept) /\ same_state o o'))).
Proof.
  intros o m ss o' r Hm He. unfold exec in He. cbn [exec_call] in He. unfold handle_incoming in He. apply bind_inv in He. destruct He as (o1 & H1 & H2). injection H2 as <- _. apply bind_inv in H1. destruct H1 as (s1 & H1 & H2). injection H2 as <-.
  unfold sp_handle in H1. rewrite Hm in H1. unfold handle_forwarded_stopsign in H1. destruct (accepted_reconfiguration (o_sp (start_call o))) eqn:A.
  - left. injection H1 as <-. split; [|reflexivity]. unfold has_stop. unfold accepted_reconfiguration in A. change (i_ss (s_is (o_sp (start_call o)))) with (i_ss (s_is (o_sp o))) in A. destruct (i_ss _); [discriminate|discriminate A].
  - right. split; [|apply place_ok; auto]. unfold has_stop. unfold accepted_reconfiguration in A. change (i_ss (s_is (o_sp (start_call o)))) with (i_ss (s_is (o_sp o))) in A. destruct (i_ss _); [discriminate|congruence].
Qed.

(** Entries forwarded by another server go to one place, all of them and in order, unless the log has
    a stop sign. *)
Theorem C64_forwarded_entries_placed :
  forall o m es o' r, pm_msg m = MProposalForward es -> exec o (CHandle (MsgSP m)) = Ok (o', r) ->
  (has_stop o /\ same_state o o') \/ (~ has_stop o /\ entries_placed o es o').
Proof.
  intros o m es o' r Hm He. unfold exec in He. cbn [exec_call] in He. unfold handle_incoming in He. apply bind_inv in He. destruct He as (o1 & H1 & H2). injection H2 as <- _. apply bind_inv in H1. destruct H1 as (s1 & H1 & H2). injection H2 as <-.
  unfold sp_handle in H1. rewrite Hm in H1. unfold handle_forwarded_proposal in H1. destruct (accepted_reconfiguration (o_sp (start_call o))) eqn:A.
  - left. injection H1 as <-. split; [|reflexivity]. unfold has_stop. unfold accepted_reconfiguration in A. change (i_ss (s_is (o_sp (start_call o)))) with (i_ss (s_is (o_sp o))) in A. destruct (i_ss _); [discriminate|discriminate A].
  - right. split. { unfold has_stop. unfold accepted_reconfiguration in A. change (i_ss (s_is (o_sp (start_call o)))) with (i_ss (s_is (o_sp o))) in A. destruct (i_ss _); [discriminate|congruence]. }
    set (s := o_sp (start_call o)) in *.
    assert (F : forward_proposals s es = s1 -> entries_placed o es (set_sp (start_call o) s1)).
    { intros <-. unfold forward_proposals. destruct (Nat.ltb_spec 0 (sp_leader s)); cbn [andb]; [|right; left; repeat split; reflexivity]. destruct (Nat.eqb_spec (s_pid s) (sp_leader s)); cbn [negb]; [right; left; repeat split; reflexivity|].
      right. right. split; [reflexivity|]. split; [reflexivity|]. split; [reflexivity|]. destruct (leader_known o (sp_leader s) eq_refl ltac:(lia)) as [ph Hph]. exists (sp_leader s), ph. split; [exact Hph|]. split; [|reflexivity]. unfold own_pid. change (s_pid (o_sp o)) with (s_pid s). congruence. }
    change (s_role s) with (s_role (o_sp o)) in H1. change (s_phase s) with (s_phase (o_sp o)) in H1.
    destruct (s_role (o_sp o)) eqn:R1; [apply F; injection H1 as <-; reflexivity|]. destruct (s_phase (o_sp o)) eqn:R2; try (apply F; injection H1 as <-; reflexivity).
    + injection H1 as <-. right. left. repeat split; reflexivity.
    + left. split; [unfold role_of; congruence|]. apply accept_entries_same in H1. destruct H1 as (A1 & _ & A3 & _). unfold held, storage, buffered. cbn [o_sp set_sp]. rewrite A1, A3. cbn [s_is set_is]. split; [apply (batch_held_all (s_is s) es)|reflexivity].
Qed.

(** ** A waiting stop sign is kept *)
Section Fix.
Context (ss0 : stopsign).
Definition Kb (s : sp) : Prop := s_bss s = Some ss0.
Definition bok (r : res sp) : Prop := match r with Ok s => Kb s | Panic _ => True end.
Definition bok2 {B} (r : res (sp * B)) : Prop := match r with Ok (s, _) => Kb s | Panic _ => True end.
Lemma lift_b {B} s (o : option B) (f : B -> res sp) : (forall b, o = Some b -> bok (f b)) -> bok (bind (lift s o) f).
Proof. intros Hf. destruct o; cbn; auto. Qed.
Lemma bind_b {B} (r : res B) (f : B -> res sp) : (forall b, bok (f b)) -> bok (bind r f).
Proof. destruct r; cbn; auto. Qed.
Lemma for_each_b f l : (forall s p, Kb s -> bok (f s p)) -> forall s, Kb s -> bok (for_each s l f).
Proof. intros Hf. induction l as [|p l IH]; cbn; intros s H; auto. pose proof (Hf s p H) as X. destruct (f s p); cbn in *; auto. Qed.
Lemma push_all_b m l : forall s, Kb s -> Kb (push_all s l m).
Proof. unfold push_all. induction l as [|p l IH]; cbn; intros s H; [exact H|]. apply IH; exact H. Qed.
Lemma mod_b s k f : Kb s -> Kb (mod_accdec s k f).
Proof. intros H. unfold mod_accdec. destruct (nth_error _ _); exact H. Qed.
Lemma reply_b s n a : Kb s -> bok (reply_accepted s n a).
Proof. intros H. unfold reply_accepted. apply lift_b. intros [idx|] _; [apply mod_b; auto|exact H]. Qed.
Lemma reconnected_b s p : Kb s -> Kb (reconnected s p).
Proof. intros H. unfold reconnected. destruct (p =? s_pid s); auto. destruct (p =? sp_leader s); exact H. Qed.
Lemma cvb_b s b : Kb s -> Kb (fst (check_valid_ballot s b)).
Proof. intros H. unfold check_valid_ballot. destruct (bcmp _ _); cbn [fst]; auto. apply reconnected_b; auto. Qed.
Lemma seqnum_b s q from : Kb s -> Kb (fst (handle_sequence_num s q from)).
Proof. intros H. unfold handle_sequence_num. destruct (check_msg_status _ _); cbn [fst]; auto. apply reconnected_b; auto. Qed.
Lemma update_decided_b s d : Kb s -> Kb (fst (update_decided s d)).
Proof. intros H. unfold update_decided. destruct (_ <=? _); auto. destruct (_ <? _); auto. Qed.
Lemma send_prepare_b l : forall s, Kb s -> Kb (fold_left send_prepare l s).
Proof. induction l as [|p l IH]; cbn; intros s H; [exact H|]. apply IH. exact H. Qed.
Lemma send_ad_b es s : Kb s -> bok (send_acceptdecide s es).
Proof.
  intros H. unfold send_acceptdecide. apply lift_b. intros l _. apply for_each_b; auto. intros s1 p H1. unfold send_acceptdecide_to. apply lift_b. intros [k|] _; [apply mod_b; auto|].
  apply lift_b. intros l1 _. apply lift_b. intros [l2 q] _. exact H1.
Qed.
Lemma add_b s es : Kb s -> Kb (set_bprops s (s_bprops s ++ es)).
Proof. intros H. exact H. Qed.
Lemma forward_b s es : Kb s -> Kb (forward_proposals s es).
Proof. intros H. unfold forward_proposals. destruct (_ && _); [exact H|apply add_b, H]. Qed.
Lemma forward_ss_b s ss : Kb s -> Kb (forward_stopsign s ss).
Proof. intros H. unfold forward_stopsign. destruct (_ && _); [exact H|]. unfold Kb in *. rewrite H. exact H. Qed.
Lemma handle_leader_b s n : Kb s -> bok (handle_leader s n).
Proof.
  intros H. unfold handle_leader. destruct (_ || _); [exact H|]. destruct (_ =? _); [|exact H]. cbn zeta. apply lift_b. intros [ls x] _. apply push_all_b. exact H.
Qed.
Lemma accept_entries_b s es : Kb s -> bok (accept_entries_leader s es).
Proof.
  intros H. unfold accept_entries_leader. destruct (append_entries_with_batching _ _) as [is [[a l]|]]; [|exact H]. apply lift_b. intros ls _. apply send_ad_b. exact H.
Qed.
Lemma accept_entry_b s e : Kb s -> bok (accept_entry_leader s e).
Proof.
  intros H. unfold accept_entry_leader. destruct (append_entry_with_batching _ _) as [is [[a l]|]]; [|exact H]. apply lift_b. intros ls _. apply send_ad_b. exact H.
Qed.
Lemma bindk_b (r : res sp) (f : sp -> res sp) : bok r -> (forall s, Kb s -> bok (f s)) -> bok (bind r f).
Proof. destruct r; cbn; auto. Qed.
Lemma send_ss_b ss b s p : Kb s -> bok (send_accept_stopsign ss b s p).
Proof. intros H. unfold send_accept_stopsign. apply lift_b. intros [ls sq] _. exact H. Qed.
Lemma send_dec_b d b s p : Kb s -> bok (send_decide d b s p).
Proof. intros H. unfold send_decide. apply lift_b. intros [ls sq] _. exact H. Qed.
Lemma accept_ss_b s ss : Kb s -> bok (accept_stopsign_leader s ss).
Proof.
  intros H. unfold accept_stopsign_leader. destruct (i_append_stopsign _ _) as [is r]. cbn zeta. apply bindk_b; [destruct r as [[a l]|]; [apply send_ad_b|]; exact H|].
  intros s1 H1. apply lift_b. intros ls _. apply lift_b. intros ps _. apply for_each_b; [|exact H1]. intros. apply send_ss_b. auto.
Qed.
Lemma send_accsync_b s p : Kb s -> bok (send_accsync s p).
Proof. intros H. unfold send_accsync. cbn zeta. do 4 (apply lift_b; intros ? _). apply lift_b. intros [ls sq] _. exact H. Qed.
Lemma accepted_to_b d s p : Kb s -> bok (handle_accepted_to d s p).
Proof. intros H. unfold handle_accepted_to. apply lift_b. intros [k|] _; [apply mod_b; auto|apply send_dec_b; auto]. Qed.
Lemma resend_leader_b s : Kb s -> bok (resend_messages_leader s).
Proof.
  intros H. unfold resend_messages_leader. destruct (s_phase s); try exact H.
  - apply lift_b. intros ps _. apply send_prepare_b. exact H.
  - apply bindk_b; [|intros s1 H1; apply lift_b; intros ps _; apply send_prepare_b; exact H1]. destruct (i_ss _); [|exact H]. apply lift_b. intros ps _. apply for_each_b; [|exact H].
    intros s1 p H1. unfold resend_ss_to. destruct (stopsign_is_decided _); [apply send_dec_b; auto|]. apply lift_b. intros a _. destruct (_ =? _); [exact H1|apply send_ss_b; auto].
Qed.
Lemma resend_b s : Kb s -> bok (resend_message_timeout s).
Proof.
  intros H. unfold resend_message_timeout. destruct (s_role s); [|apply resend_leader_b; auto]. cbn. unfold resend_messages_follower, send_preparereq_to_all_peers.
  destruct (s_phase s); auto; [destruct (s_cprom s); [exact H|]|]; apply push_all_b; exact H.
Qed.
Lemma flush_b s : Kb s -> bok (flush_batch_timeout s).
Proof.
  intros H. unfold flush_batch_timeout. destruct (s_role s), (s_phase s); try exact H.
  - unfold flush_batch_follower. destruct (flush_batch _) as [is a]. destruct (_ <? _); [apply reply_b|]; exact H.
  - unfold flush_batch_leader. destruct (flush_batch_and_get_entries _) as [is [[a l]|]]; [|exact H]. apply lift_b. intros ls _. apply send_ad_b. exact H.
Qed.
Lemma snapshot_b s i l : Kb s -> bok2 (sp_snapshot s i l).
Proof.
  intros H. unfold sp_snapshot. destruct (try_snapshot _ _) as [[is r]|]; [|exact I]. cbn [bind]. destruct r; [exact H|]. cbn. destruct l; [exact H|]. apply push_all_b. exact H.
Qed.
Lemma trim_b s i : Kb s -> bok2 (sp_trim s i).
Proof.
  intros H. unfold sp_trim. destruct (s_role s); [exact H|]. destruct (get_min_all_accepted_idx _) as [mn|]; [|exact I]. cbn [lift bind].
  assert (X : forall k, bok2 ('(is, r) <- try_trim (s_is s) k ;; match r with None => Ok (push_all (set_is s is) (s_peers (set_is s is)) (MCompaction (CmpTrim k)), None) | Some e => Ok (set_is s is, Some e) end)).
  { intros k. destruct (try_trim _ _) as [[is r]|]; [|exact I]. cbn [bind]. destruct r; [exact H|]. apply push_all_b. exact H. }
  destruct i as [i|]; [|apply X]. destruct (i <=? mn); [apply X|exact H].
Qed.
Lemma append_b s e : Kb s -> bok2 (sp_append s e).
Proof.
  intros H. unfold sp_append. destruct (accepted_reconfiguration s); [exact H|].
  assert (X : bok (propose_entry s e)).
  { unfold propose_entry. destruct (s_role s), (s_phase s); try (apply forward_b; exact H); [apply add_b; exact H|apply accept_entry_b; exact H]. }
  destruct (propose_entry s e); [exact X|exact I].
Qed.
End Fix.

Lemma election_b bp o : Kb bp (o_sp o) -> match election_timeout o with Ok o' => Kb bp (o_sp o') | Panic _ => True end.
Proof.
  intros H. unfold election_timeout. cbn zeta. destruct (hb_timeout _ _ _) as [b [n|]]; [|exact H]. pose proof (handle_leader_b bp (o_sp o) n H) as X. cbn [o_sp set_ble]. destruct (handle_leader _ n); [exact X|exact I].
Qed.
Lemma tick_b bp o : Kb bp (o_sp o) -> match tick o with Ok o' => Kb bp (o_sp o') | Panic _ => True end.
Proof.
  intros H. unfold tick. destruct (clock_tick (o_eclk o)) as [ec f1]. cbn zeta. set (oa := mkOmni _ _ _ _ _).
  assert (X1 : match (if f1 then election_timeout oa else Ok oa) with Ok o' => Kb bp (o_sp o') | Panic _ => True end) by (destruct f1; [apply election_b|]; exact H).
  destruct (if f1 then election_timeout oa else Ok oa) as [o1|]; [|exact I]. cbn [bind]. destruct (clock_tick (o_rclk o1)) as [rc f2]. cbn [o_sp o_ble o_eclk o_rclk o_fclk].
  assert (X2 : match (if f2 then s <- resend_message_timeout (o_sp o1);; Ok (set_sp (mkOmni (o_sp o1) (o_ble o1) (o_eclk o1) rc (o_fclk o1)) s) else Ok (mkOmni (o_sp o1) (o_ble o1) (o_eclk o1) rc (o_fclk o1))) with Ok o' => Kb bp (o_sp o') | Panic _ => True end).
  { destruct f2; [|exact X1]. pose proof (resend_b _ _ X1) as Y. destruct (resend_message_timeout _); [exact Y|exact I]. }
  match type of X2 with match ?e with _ => _ end => change (match (o0 <- e ;; (let '(fc, fire) := clock_tick (o_fclk o0) in let o0 := mkOmni (o_sp o0) (o_ble o0) (o_eclk o0) (o_rclk o0) fc in if fire then s <- flush_batch_timeout (o_sp o0);; Ok (set_sp o0 s) else Ok o0)) with Ok o' => Kb bp (o_sp o') | Panic _ => True end); destruct e as [o2|]; [|exact I] end.
  cbn [bind]. destruct (clock_tick (o_fclk o2)) as [fc f3]. cbn zeta. destruct f3; [|exact X2]. cbn [o_sp]. pose proof (flush_b _ _ X2) as Y. destruct (flush_batch_timeout _); [exact Y|exact I].
Qed.


Definition cfs (ss : stopsign) (s : sp) : Prop :=
  Kb ss s \/ (s_bss s = None /\ s_role s = Leader /\ s_phase s = PhAccept /\ ms_ss (i_st (s_is s)) = Some ss).
Definition cok (ss : stopsign) (r : res sp) : Prop := match r with Ok s => cfs ss s | Panic _ => True end.
Lemma bok_cok ss r : bok ss r -> cok ss r.
Proof. destruct r; cbn; auto. left. auto. Qed.
Lemma majority_c ss s : Kb ss s -> cok ss (handle_majority_promises s).
Proof.
  intros Hb. destruct (handle_majority_promises s) as [s'|] eqn:H; [|exact I]. cbn. unfold handle_majority_promises, take_max_promise_sync in H. cbn zeta in H. cbn [s_ls set_ls s_is] in H.
  apply bind_inv in H. destruct H as ([is acc] & _ & H). destruct (accepted_reconfiguration _).
  - cbn zeta in H. apply lift_bind in H. destruct H as (ls1 & _ & H). apply lift_bind in H. destruct H as (ps & _ & H). apply PropStopMore.accsyncs_keep in H. destruct H as (A & B). left. unfold Kb. rewrite B. exact Hb.
  - cbn [s_bprops set_is set_ls] in H.
    match type of H with (let '(_, _) := (let '(_, _) := ?e in _) in _) = _ => assert (X : exists s2 a2, e = (s2, a2) /\ s_bss s2 = Some ss) end.
    { destruct (s_bprops s) as [|e es]; [do 2 eexists; split; [reflexivity|exact Hb]|]. destruct (append_entries_without_batching _ _) as [is1 a1]. do 2 eexists. split; [reflexivity|exact Hb]. }
    destruct X as (s2 & a2 & X1 & X2). rewrite X1, X2 in H. cbn zeta in H. apply lift_bind in H. destruct H as (ls1 & _ & H). apply lift_bind in H. destruct H as (ps & _ & H).
    assert (R : s_role s' = Leader /\ s_phase s' = PhAccept).
    { assert (Y : forall l x y, s_role x = Leader /\ s_phase x = PhAccept -> for_each x l send_accsync = Ok y -> s_role y = Leader /\ s_phase y = PhAccept).
      { induction l as [|q l IH]; cbn [for_each]; intros x y Hx Hy; [injection Hy as <-; exact Hx|]. apply bind_inv in Hy. destruct Hy as (x1 & Y1 & Y2). apply (IH x1); [|exact Y2].
        unfold send_accsync in Y1. cbn zeta in Y1. do 4 (apply lift_bind in Y1; destruct Y1 as (? & _ & Y1)). apply lift_bind in Y1. destruct Y1 as ([ls sq] & _ & Y1). injection Y1 as <-. exact Hx. }
      eapply Y; [|exact H]. split; reflexivity. }
    apply PropStopMore.accsyncs_keep in H. destruct H as [A B]. right. rewrite A, B. split; [reflexivity|]. split; [apply R|]. split; [apply R|]. cbn. apply (append_ss_store (s_is (set_bss s2 None)) ss).
Qed.
Lemma acceptsync_c ss s n sq d sy from : Kb ss s -> bok ss (handle_acceptsync s n sq d sy from).
Proof.
  intros H. unfold handle_acceptsync. pose proof (cvb_b ss s n H) as X. destruct (check_valid_ballot s n) as [s1 v]. cbn [fst] in X. destruct (v && _); [|exact X]. cbn zeta.
  destruct (sync_log _ _ _ _) as [[is acc]|]; [|exact I]. cbn [bind]. unfold bok, Kb. cbn. destruct (i_ss _); [exact X|]. unfold forward_buffered_proposals. cbn [s_bprops set_is set_cprom]. destruct (s_bprops s1); [exact X|].
  unfold forward_proposals. destruct (_ && _); exact X.
Qed.
Lemma handle_c ss s m : Kb ss s -> (forall ss', pm_msg m = MForwardStopSign ss' -> s_role s = Leader -> s_phase s <> PhPrepare) -> cok ss (sp_handle s m).
Proof.
  intros K0 Hno. unfold sp_handle. destruct (pm_msg m) as [n|n d na a|pr|n sq d sy|n sq d es|n a|n|n sq d|es|c|n sq ss1|ss1].
  - apply bok_cok. unfold handle_preparereq. destruct (_ && _); [|exact K0]. apply lift_b. intros l1 _. apply lift_b. intros l2 _. exact K0.
  - apply bok_cok. unfold handle_prepare. destruct (_ || _); [|exact K0]. cbn zeta. apply bind_b. intros b. exact K0.
  - destruct (s_role s), (s_phase s); try (left; exact K0).
    + unfold handle_promise_prepare. destruct (beq _ _); [|left; exact K0]. destruct (ls_set_promise _ _ _ _) as [[ls maj]|]; [|exact I]. cbn [lift bind]. destruct maj; [|left; exact K0]. apply (majority_c ss (set_ls s ls)). exact K0.
    + apply bok_cok. unfold handle_promise_accept. destruct (beq _ _); [|exact K0]. apply lift_b. intros [ls x] _. apply send_accsync_b. exact K0.
  - apply bok_cok, acceptsync_c, K0.
  - apply bok_cok. unfold handle_acceptdecide. pose proof (cvb_b _ s n K0) as X. destruct (check_valid_ballot s n) as [s1 v]. cbn [fst] in X. destruct (v && _); [|exact X].
    pose proof (seqnum_b _ s1 sq (b_pid n) X) as Y. destruct (handle_sequence_num _ _ _) as [s2 []]; cbn [fst] in Y; try exact Y.
    destruct (append_entries_and_get_accepted_idx _ _) as [is r1]. cbn zeta. pose proof (update_decided_b ss (set_is s2 is) d Y) as Z. destruct (update_decided _ _) as [s3 r2]. cbn [fst] in Z.
    destruct (match r2 with Some _ => r2 | None => r1 end); [apply reply_b|]; exact Z.
  - apply bok_cok. unfold handle_accepted. destruct (_ && _); [|exact K0]. apply lift_b. intros l1 _. destruct (_ && _); [|exact K0]. apply lift_b. intros ps _. apply for_each_b; [|exact K0]. intros. apply accepted_to_b. auto.
  - apply bok_cok. unfold handle_notaccepted. destruct (_ && _); [|exact K0]. apply lift_b. intros l1 _. exact K0.
  - apply bok_cok. unfold handle_decide. pose proof (cvb_b _ s n K0) as X. destruct (check_valid_ballot s n) as [s1 v]. cbn [fst] in X. destruct (v && _); [|exact X].
    pose proof (seqnum_b _ s1 sq (b_pid n) X) as Y. destruct (handle_sequence_num _ _ _) as [s2 []]; cbn [fst] in Y; try exact Y.
    pose proof (update_decided_b _ s2 d Y) as Z. destruct (update_decided _ _) as [s3 [r2|]]; cbn [fst] in Z; [apply reply_b|]; exact Z.
  - apply bok_cok. unfold handle_forwarded_proposal. destruct (accepted_reconfiguration s); [exact K0|]. destruct (s_role s), (s_phase s); try (apply forward_b; exact K0); [apply add_b; exact K0|apply accept_entries_b; exact K0].
  - apply bok_cok. unfold handle_compaction. destruct c as [k|i]; [destruct (try_trim _ _) as [[is r]|]; [exact K0|exact I]|]. pose proof (snapshot_b _ s i true K0) as X. destruct (sp_snapshot s i true) as [[s1 r]|]; [exact X|exact I].
  - apply bok_cok. unfold handle_accept_stopsign. pose proof (cvb_b _ s n K0) as X. destruct (check_valid_ballot s n) as [s1 v]. cbn [fst] in X. destruct (v && _); [|exact X].
    pose proof (seqnum_b _ s1 sq (b_pid n) X) as Y. destruct (handle_sequence_num _ _ _) as [s2 []]; cbn [fst] in Y; try exact Y. cbn zeta. apply bind_b. intros [is a]. apply reply_b. exact Y.
  - apply bok_cok. unfold handle_forwarded_stopsign. destruct (accepted_reconfiguration s); [exact K0|]. specialize (Hno ss1 eq_refl).
    destruct (s_role s), (s_phase s); try (apply forward_ss_b; exact K0); [exfalso; apply Hno; reflexivity|apply accept_ss_b; exact K0].
Qed.

(** A waiting stop sign stays until its server, as leader, has put it into the log, or until another
    request replaces it. *)
Theorem C64_waiting_stop_kept_partial :
  (forall o c o' r ss, exec o c = Ok (o', r) -> waiting_stop o = Some ss ->
     waiting_stop o' = Some ss \/
     (waiting_stop o' = None /\ role_of o' = (Leader, PhAccept) /\ ms_ss (storage o') = Some ss) \/
     (role_of o = (Leader, PhPrepare) /\ exists ss', waiting_stop o' = Some ss' /\
        ((exists cf meta, c = CReconfigure cf meta /\ ss' = mkSS cf meta) \/ (exists m, c = CHandle (MsgSP m) /\ pm_msg m = MForwardStopSign ss')))) /\
  (forall o buf o' l, take_outgoing_messages o buf = (o', l) -> waiting_stop o' = waiting_stop o).
Proof.
  split.
  - intros o c o' r ss He Hw.
    assert (K0 : Kb ss (o_sp (start_call o))) by exact Hw.
    unfold exec in He. destruct c as [e|c m|  |i|i l|p| |p|m]; cbn [exec_call] in He.
    + pose proof (append_b _ _ e K0) as X. destruct (sp_append _ e) as [[s1 x]|]; [|discriminate]. injection He as <- _. left. exact X.
    + destruct (C64_reconfigure_placed_partial o c m o' r He) as [(_ & X & _)|(_ & _ & [[(X1 & _ & _ & X2)|[(_ & _ & X)|(_ & X & _)]]|(_ & _ & _ & X)])].
      * left. unfold waiting_stop. change (s_bss (o_sp o')) with (s_bss (o_sp (start_call o'))). unfold same_state in X. rewrite X. exact Hw.
      * left. congruence.
      * destruct (fst (role_of o)) eqn:R1; [|destruct (snd (role_of o)) eqn:R2].
        -- left. unfold reconfigure in He. destruct (cluster_validate c); [|injection He as <- _; exact K0]. unfold sp_reconfigure in He. destruct (accepted_reconfiguration _); [injection He as <- _; exact K0|]. cbn zeta in He.
           change (s_role (o_sp (start_call o))) with (fst (role_of o)) in He. rewrite R1 in He. injection He as <- _. exact (forward_ss_b ss (o_sp (start_call o)) (mkSS c m) K0).
        -- right. right. split; [destruct (role_of o); cbn in *; congruence|]. exists (mkSS c m). split; [exact X|]. left. eauto.
        -- left. unfold reconfigure in He. destruct (cluster_validate c); [|injection He as <- _; exact K0]. unfold sp_reconfigure in He. destruct (accepted_reconfiguration _); [injection He as <- _; exact K0|]. cbn zeta in He.
           change (s_role (o_sp (start_call o))) with (fst (role_of o)) in He. change (s_phase (o_sp (start_call o))) with (snd (role_of o)) in He. rewrite R1, R2 in He. pose proof (accept_ss_b ss _ (mkSS c m) K0) as Y. destruct (accept_stopsign_leader _ _); [|discriminate]. injection He as <- _. exact Y.
        -- left. unfold reconfigure in He. destruct (cluster_validate c); [|injection He as <- _; exact K0]. unfold sp_reconfigure in He. destruct (accepted_reconfiguration _); [injection He as <- _; exact K0|]. cbn zeta in He.
           change (s_role (o_sp (start_call o))) with (fst (role_of o)) in He. change (s_phase (o_sp (start_call o))) with (snd (role_of o)) in He. rewrite R1, R2 in He. injection He as <- _. exact (forward_ss_b ss (o_sp (start_call o)) (mkSS c m) K0).
        -- left. unfold reconfigure in He. destruct (cluster_validate c); [|injection He as <- _; exact K0]. unfold sp_reconfigure in He. destruct (accepted_reconfiguration _); [injection He as <- _; exact K0|]. cbn zeta in He.
           change (s_role (o_sp (start_call o))) with (fst (role_of o)) in He. change (s_phase (o_sp (start_call o))) with (snd (role_of o)) in He. rewrite R1, R2 in He. injection He as <- _. exact (forward_ss_b ss (o_sp (start_call o)) (mkSS c m) K0).
      * left. congruence.
      * left. unfold waiting_stop. change (s_bss (o_sp o')) with (s_bss (o_sp (start_call o'))). unfold same_state in X. rewrite X. exact Hw.
    + pose proof (tick_b _ _ K0) as X. destruct (tick _) as [o1|]; [|discriminate]. injection He as <- _. left. exact X.
    + pose proof (trim_b _ _ i K0) as X. destruct (sp_trim _ i) as [[s1 x]|]; [|discriminate]. injection He as <- _. left. exact X.
    + pose proof (snapshot_b _ _ i l K0) as X. destruct (sp_snapshot _ i l) as [[s1 x]|]; [|discriminate]. injection He as <- _. left. exact X.
    + injection He as <- _. left. exact (reconnected_b ss _ p K0).
    + unfold try_become_leader in He. cbn zeta in He. pose proof (handle_leader_b _ _ (set_n (e_ballot (o_ble (start_call o))) (b_n (sp_promise (o_sp (start_call o))) + 1)) K0) as X.
      destruct (handle_leader _ _) as [s1|]; [|discriminate]. injection He as <- _. left. exact X.
    + injection He as <- _. left. exact K0.
    + unfold handle_incoming in He. destruct m as [m|b]; [|injection He as <- _; left; exact K0].
      assert (D : (exists ss', pm_msg m = MForwardStopSign ss' /\ role_of o = (Leader, PhPrepare)) \/ (forall ss', pm_msg m = MForwardStopSign ss' -> s_role (o_sp o) = Leader -> s_phase (o_sp o) <> PhPrepare)).
      { unfold role_of. destruct (pm_msg m) eqn:Hm; try (right; discriminate). destruct (s_role (o_sp o)), (s_phase (o_sp o)) eqn:R2; try (right; intros; discriminate). left. eauto. }
      destruct D as [(ss' & Hm & Hr)|D].
      * unfold sp_handle in He. rewrite Hm in He. unfold handle_forwarded_stopsign in He. destruct (accepted_reconfiguration _); [injection He as <- _; left; exact K0|].
        change (s_role (o_sp (start_call o))) with (fst (role_of o)) in He. change (s_phase (o_sp (start_call o))) with (snd (role_of o)) in He. rewrite Hr in He. cbn [fst snd bind] in He. injection He as <- _.
        right. right. split; [exact Hr|]. exists ss'. split; [reflexivity|]. right. eauto.
      * pose proof (handle_c ss (o_sp (start_call o)) m K0 D) as X. destruct (sp_handle _ m) as [s1|]; [|discriminate]. injection He as <- _.
        destruct X as [X|(X1 & X2 & X3 & X4)]; [left; exact X|]. right. left. split; [exact X1|]. split; [unfold role_of; cbn; congruence|exact X4].
  - intros o buf o' l H. unfold take_outgoing_messages, sp_take_outgoing in H. destruct buf; injection H as <- _; reflexivity.
Qed.
End WithEntry.

(** ** Requests that get lost *)
Section Plain.
Local Existing Instance plain.
Definition ca4 := mkCC 2 [1; 2; 3; 4] None.
Definition cb4 := mkCC 2 [1; 2; 4] None.
Definition acts_c64 := Eval vm_compute in acts_of cc3 ini [ Call 2 (CReconfigure ca4 None) ].
Definition sys_c64 := match run cc3 ini acts_c64 with Some s => s | None => ini end.

(** False in full: there is no leader yet; the first [reconfigure] waits, the second one returns Ok and has
    no effect at all. *)
Theorem C64_second_request_refuted :
  exists cc scs l s p o c c' o' , good_config cc scs /\ reaches cc scs l s /\ nodes s p = Some o /\
    waiting_stop o = Some (mkSS c None) /\ c' <> c /\ cluster_validate c' = true /\ ~ has_stop o /\
    exec o (CReconfigure c' None) = Ok (o', RPropose None) /\ same_state o o'.
Proof.
  destruct (nodes sys_c64 2) as [o|] eqn:N; [|vm_compute in N; discriminate].
  exists cc3, scs, acts_c64, sys_c64, 2, o, ca4, cb4. vm_compute in N. injection N as <-. eexists.
  split; [exact good3|]. split; [vm_compute; reflexivity|]. split; [vm_compute; reflexivity|]. split; [reflexivity|]. split; [discriminate|]. split; [reflexivity|].
  split; [vm_compute; intros X; apply X; reflexivity|]. split; [vm_compute; reflexivity|]. vm_compute. reflexivity.
Qed.

(** At a server that is collecting promises it is the other way round: the second request replaces the first
    one, which had returned Ok. *)
Definition acts_c64b := Eval vm_compute in acts_of cc3 ini [ Settle [1;2;3] 2; Call 1 CTryLeader; Call 1 (CReconfigure ca4 None) ].
Definition sys_c64b := match run cc3 ini acts_c64b with Some s => s | None => ini end.
Theorem C64_first_request_refuted :
  exists cc scs l s p o c c' o', good_config cc scs /\ reaches cc scs l s /\ nodes s p = Some o /\
    waiting_stop o = Some (mkSS c None) /\ c' <> c /\
    exec o (CReconfigure c' None) = Ok (o', RPropose None) /\ waiting_stop o' = Some (mkSS c' None) /\ ~ has_stop o' /\ outgoing o' = outgoing o.
Proof.
  destruct (nodes sys_c64b 1) as [o|] eqn:N; [|vm_compute in N; discriminate].
  exists cc3, scs, acts_c64b, sys_c64b, 1, o, ca4, cb4. vm_compute in N. injection N as <-. eexists.
  split; [exact good3|]. split; [vm_compute; reflexivity|]. split; [vm_compute; reflexivity|]. split; [reflexivity|]. split; [discriminate|].
  split; [vm_compute; reflexivity|]. split; [reflexivity|]. split; [vm_compute; intros X; apply X; reflexivity|]. vm_compute. reflexivity.
Qed.

(** ** Cases: a stop sign and entries forwarded by server 2, at the leader before and after its promises are complete,
    and a waiting stop sign that the new leader puts into its log. *)
Definition fwd (m : pmsg) : message := MsgSP (mkPM 2 1 m).
Definition at1 (l : list cmd) {A} (f : omni -> A) : option A := match run cc3 ini (acts_of cc3 ini l) with Some s => obs s 1 f | None => None end.
Definition after (m : pmsg) {A} (f : omni -> A) (o : omni) : option A := match exec o (CHandle (fwd m)) with Ok (o', _) => Some (f o') | Panic _ => None end.
Definition cand : list cmd := [ Settle [1;2;3] 2; Call 1 CTryLeader ].
Definition led : list cmd := cand ++ [ Settle [1;2;3] 3 ].
Example C64_case :
  at1 cand role_of = Some (Leader, PhPrepare) /\ at1 led role_of = Some (Leader, PhAccept) /\
  at1 cand (after (MForwardStopSign (mkSS ca4 None)) waiting_stop) = Some (Some (Some (mkSS ca4 None))) /\
  at1 led (after (MForwardStopSign (mkSS ca4 None)) (fun o => ms_ss (storage o))) = Some (Some (Some (mkSS ca4 None))) /\
  at1 cand (after (MProposalForward [5; 6]) buffered) = Some (Some [5; 6]) /\
  at1 led (after (MProposalForward [5; 6]) held) = Some (Some [5; 6]) /\
  at1 (Call 1 (CReconfigure ca4 None) :: cand) waiting_stop = Some (Some (mkSS ca4 None)) /\
  at1 (Call 1 (CReconfigure ca4 None) :: led) (fun o => (waiting_stop o, ms_ss (storage o), role_of o)) = Some (None, Some (mkSS ca4 None), (Leader, PhAccept)).
Proof. vm_compute. split; [reflexivity|]. split; [reflexivity|]. split; [reflexivity|]. split; [reflexivity|]. split; [reflexivity|]. split; [reflexivity|]. split; reflexivity. Qed.
End Plain.

Print Assumptions C64_reconfigure_placed_partial.
Print Assumptions C64_forwarded_stop_placed_partial.
Print Assumptions C64_forwarded_entries_placed.
Print Assumptions C64_waiting_stop_kept_partial.
Print Assumptions C64_second_request_refuted.
Print Assumptions C64_first_request_refuted.
