(** * C17, C18, C19: leader election at one server *)
From Coq Require Import List Arith Bool Lia.
Import ListNotations.
From Verif Require Import Types Config MemStore Internal LeaderState SeqPaxos Ble Omni System Basics Scen Spec Refute PropAgreement Local Frame PropLocal PropCalls.

Section WithEntry.
Context {E : EntryT}.

(** ** What the timeouts after an election leave alone *)

Definition keeps (s0 s : sp) : Prop :=
  i_prom (s_is s) = i_prom (s_is s0) /\ l_n (s_ls s) = l_n (s_ls s0) /\ s_role s = s_role s0 /\ (s_role s0 = Leader -> s_phase s = s_phase s0) /\ s_pid s = s_pid s0.
Definition rkeeps (s0 : sp) (r : res sp) : Prop := match r with Ok s => keeps s0 s | Panic _ => True end.

Lemma keeps_refl s : keeps s s.
Proof. repeat split. Qed.
Lemma keeps_trans a b c : keeps a b -> keeps b c -> keeps a c.
Proof. intros (H1 & H2 & H3 & H4 & H5) (K1 & K2 & K3 & K4 & K5). split; [congruence|]. split; [congruence|]. split; [congruence|]. split; [|congruence]. intros X. rewrite K4, H4; auto; congruence. Qed.
Lemma keeps_push s0 s to m : keeps s0 s -> keeps s0 (push s to m).
Proof. auto. Qed.
Lemma keeps_push_all m l : forall s0 s, keeps s0 s -> keeps s0 (push_all s l m).
Proof. unfold push_all. induction l as [|p l IH]; cbn; intros s0 s H; [exact H|]. apply IH; exact H. Qed.
Lemma keeps_mod s0 s k f : keeps s0 s -> keeps s0 (mod_accdec s k f).
Proof. intros H. unfold mod_accdec. destruct (nth_error _ _); auto. Qed.
Lemma keeps_ls s0 s l : keeps s0 s -> l_n l = l_n (s_ls s) -> keeps s0 (set_ls s l).
Proof. intros (H1 & H2 & H3 & H4 & H5) Hl. repeat split; auto. cbn. congruence. Qed.
Lemma keeps_is s0 s i : keeps s0 s -> i_prom i = i_prom (s_is s) -> keeps s0 (set_is s i).
Proof. intros (H1 & H2 & H3 & H4 & H5) Hl. repeat split; auto. cbn. congruence. Qed.
Lemma lift_k {B} s0 s (o : option B) (f : B -> res sp) : (forall b, o = Some b -> rkeeps s0 (f b)) -> rkeeps s0 (bind (lift s o) f).
Proof. intros Hf. destruct o; cbn; auto. Qed.
Lemma for_each_k f l : (forall s0 s p, keeps s0 s -> rkeeps s0 (f s p)) -> forall s0 s, keeps s0 s -> rkeeps s0 (for_each s l f).
Proof. intros Hf. induction l as [|p l IH]; cbn; intros s0 s H; auto. pose proof (Hf s0 s p H) as X. destruct (f s p); cbn in *; auto. Qed.

Lemma next_n l p l' q : next_seq_num l p = Some (l', q) -> l_n l' = l_n l.
Proof. unfold next_seq_num. destruct (vget _ _); [|discriminate]. destruct (vset _ _ _); cbn; [|discriminate]. intros X. injection X as <- <-. auto. Qed.
Lemma resend_n s (b : bool) to l q : (if b then option_map (fun q => (s_ls s, q)) (get_seq_num (s_ls s) to) else next_seq_num (s_ls s) to) = Some (l, q) -> l_n l = l_n (s_ls s).
Proof. destruct b; [|apply next_n]. destruct (get_seq_num _ _); cbn; [|discriminate]. intros X. injection X as <- <-. auto. Qed.
Lemma send_ad_to_k d es s0 s p : keeps s0 s -> rkeeps s0 (send_acceptdecide_to d es s p).
Proof.
  intros H. unfold send_acceptdecide_to. apply lift_k. intros [k|] _; [apply keeps_mod; auto|]. apply lift_k. intros l1 H1. apply lift_k. intros [l2 q] H2. apply keeps_push, keeps_ls; auto.
  apply next_n in H2. unfold set_latest_accept_meta in H1. destruct (vset _ _ _); cbn in H1; [|discriminate]. injection H1 as <-. exact H2.
Qed.
Lemma send_ad_k es s0 s : keeps s0 s -> rkeeps s0 (send_acceptdecide s es).
Proof. intros H. unfold send_acceptdecide. apply lift_k. intros l _. apply for_each_k; auto. intros. apply send_ad_to_k; auto. Qed.
Lemma send_ss_k ss b s0 s to : keeps s0 s -> rkeeps s0 (send_accept_stopsign ss b s to).
Proof. intros H. unfold send_accept_stopsign. apply lift_k. intros [l q] Hl. apply resend_n in Hl. apply keeps_push, keeps_ls; auto. Qed.
Lemma send_decide_k d b s0 s to : keeps s0 s -> rkeeps s0 (send_decide d b s to).
Proof. intros H. unfold send_decide. apply lift_k. intros [l q] Hl. apply resend_n in Hl. apply keeps_push, keeps_ls; auto. Qed.
Lemma prepare_all_k l : forall s0 s, keeps s0 s -> keeps s0 (fold_left send_prepare l s).
Proof. induction l as [|p l IH]; cbn; intros s0 s H; [exact H|]. apply IH; exact H. Qed.
Lemma resend_k s : rkeeps s (resend_message_timeout s).
Proof.
  unfold resend_message_timeout. destruct (s_role s) eqn:Hr.
  - cbn. unfold resend_messages_follower, send_preparereq_to_all_peers. destruct (s_phase s); try apply keeps_refl.
    + destruct (s_cprom s); [apply keeps_push, keeps_refl|]. apply keeps_push_all. repeat split; auto; cbn; congruence.
    + apply keeps_push_all, keeps_refl.
  - unfold resend_messages_leader. destruct (s_phase s); try apply keeps_refl.
    + apply lift_k. intros l _. apply prepare_all_k, keeps_refl.
    + match goal with |- rkeeps _ (bind ?e _) => assert (X : rkeeps s e); [|destruct e as [s1|]; [|exact I]] end.
      { destruct (i_ss (s_is s)) as [ss|]; [|apply keeps_refl]. apply lift_k. intros l _. apply for_each_k; [|apply keeps_refl]. intros s0 s1 p H1. unfold resend_ss_to.
        destruct (stopsign_is_decided _); [apply send_decide_k; auto|]. apply lift_k. intros a _. destruct (a =? _); [exact H1|apply send_ss_k; auto]. }
      cbn [bind]. apply lift_k. intros l _. apply prepare_all_k. exact X.
Qed.
Lemma flush_k s : rkeeps s (flush_batch_timeout s).
Proof.
  unfold flush_batch_timeout. destruct (s_role s), (s_phase s); try apply keeps_refl.
  - unfold flush_batch_follower. destruct (flush_batch (s_is s)) as [is a] eqn:Hf. assert (H : keeps s (set_is s is)).
    { apply keeps_is; [apply keeps_refl|]. unfold flush_batch, append_entries_without_batching in Hf. cbn in Hf. injection Hf as <- _. reflexivity. }
    destruct (_ <? a); [|exact H]. unfold reply_accepted. apply lift_k. intros [k|] _; [apply keeps_mod; auto|]. exact H.
  - unfold flush_batch_leader. destruct (flush_batch_and_get_entries (s_is s)) as [is r] eqn:Hf. assert (H : keeps s (set_is s is)).
    { apply keeps_is; [apply keeps_refl|]. unfold flush_batch_and_get_entries in Hf. destruct (c_batch (i_ca (s_is s))); cbn in Hf; injection Hf as <- _; reflexivity. }
    destruct r as [[acc es]|]; [|exact H]. apply lift_k. intros l Hl. apply send_ad_k. apply keeps_ls; auto. unfold set_accepted_idx in Hl. destruct (vset _ _ _); cbn in Hl; [|discriminate]. injection Hl as <-. reflexivity.
Qed.

(** ** One tick *)

Definition due (c : lclock) : bool := lc_time c + 1 =? lc_timeout c.
Lemma clock_due c : snd (clock_tick c) = due c.
Proof. unfold clock_tick, due. destruct (_ =? _); reflexivity. Qed.

(** The election part of a tick, and what the other timeouts keep. *)
Lemma tick_parts o o' : tick o = Ok o' ->
  exists s, (if due (o_eclk o) then
               let '(b, r) := hb_timeout (o_ble o) (s_role (o_sp o), s_phase (o_sp o)) (sp_promise (o_sp o)) in
               o_ble o' = b /\ match r with Some n => handle_leader (o_sp o) n = Ok s | None => s = o_sp o end
             else o_ble o' = o_ble o /\ s = o_sp o) /\ keeps s (o_sp o').
Proof.
  unfold tick. pose proof (clock_due (o_eclk o)) as Hd. destruct (clock_tick (o_eclk o)) as [ec f1]. cbn [snd] in Hd. subst f1.
  match goal with |- bind ?e _ = _ -> _ => destruct e as [o1|] eqn:H1; [|discriminate] end. cbn [bind].
  destruct (clock_tick (o_rclk o1)) as [rc f2].
  match goal with |- bind ?e _ = _ -> _ => destruct e as [o2|] eqn:H2; [|discriminate] end. cbn [bind].
  destruct (clock_tick (o_fclk o2)) as [fc f3]. intros H3.
  assert (K2 : keeps (o_sp o1) (o_sp o2) /\ o_ble o2 = o_ble o1).
  { destruct f2; [|injection H2 as <-; split; [apply keeps_refl|reflexivity]]. cbn [o_sp] in H2. pose proof (resend_k (o_sp o1)) as X. destruct (resend_message_timeout (o_sp o1)); [|discriminate]. injection H2 as <-. split; [exact X|reflexivity]. }
  assert (K3 : keeps (o_sp o2) (o_sp o') /\ o_ble o' = o_ble o2).
  { destruct f3; [|injection H3 as <-; split; [apply keeps_refl|reflexivity]]. cbn [o_sp] in H3. pose proof (flush_k (o_sp o2)) as X. destruct (flush_batch_timeout (o_sp o2)); [|discriminate]. injection H3 as <-. split; [exact X|reflexivity]. }
  destruct K2 as [K2 B2], K3 as [K3 B3]. exists (o_sp o1). split; [|eapply keeps_trans; eauto].
  destruct (due (o_eclk o)).
  - unfold election_timeout in H1. cbn [o_sp o_ble] in H1. destruct (hb_timeout _ _ _) as [b [n|]].
    + destruct (handle_leader (o_sp o) n) as [s|] eqn:Hl; [|discriminate]. injection H1 as <-. cbn [o_ble set_sp set_ble o_sp] in *. split; [congruence|reflexivity].
    + injection H1 as <-. cbn in *. split; [congruence|reflexivity].
  - injection H1 as <-. cbn in *. split; [congruence|reflexivity].
Qed.

(** The election component over one call. *)
Lemma exec_ble o c o' r : exec o c = Ok (o', r) ->
  match c with
  | CTick => if due (o_eclk o) then o_ble o' = fst (hb_timeout (o_ble o) (role_of o) (get_promise o)) else o_ble o' = o_ble o
  | CSetPriority p => o_ble o' = ble_set_priority (o_ble o) p
  | CHandle (MsgBLE m) => o_ble o' = ble_handle (o_ble o) m
  | _ => o_ble o' = o_ble o
  end.
Proof.
  unfold exec. destruct c as [e|cc0 meta| |i|i l|q| |q|m]; cbn [exec_call].
  - destruct (sp_append _ _) as [[s x]|]; [|discriminate]. intros X. injection X as <- _. reflexivity.
  - unfold reconfigure. destruct (cluster_validate cc0); [destruct (sp_reconfigure _ _ _) as [[s x]|]; [|discriminate]|]; intros X; injection X as <- _; reflexivity.
  - destruct (tick (start_call o)) as [o1|] eqn:Ht; [|discriminate]. intros X. injection X as <- _. apply tick_parts in Ht. destruct Ht as (s & Hs & _).
    change (o_eclk (start_call o)) with (o_eclk o) in Hs. change (o_ble (start_call o)) with (o_ble o) in Hs. destruct (due (o_eclk o)); [|tauto].
    change (s_role (o_sp (start_call o)), s_phase (o_sp (start_call o))) with (role_of o) in Hs. change (sp_promise (o_sp (start_call o))) with (get_promise o) in Hs.
    destruct (hb_timeout _ _ _) as [b x]. cbn. tauto.
  - destruct (sp_trim _ _) as [[s x]|]; [|discriminate]. intros X. injection X as <- _. reflexivity.
  - destruct (sp_snapshot _ _ _) as [[s x]|]; [|discriminate]. intros X. injection X as <- _. reflexivity.
  - intros X. injection X as <- _. reflexivity.
  - unfold try_become_leader. destruct (handle_leader _ _); [|discriminate]. intros X. injection X as <- _. reflexivity.
  - intros X. injection X as <- _. reflexivity.
  - unfold handle_incoming. destruct m as [m|m].
    + destruct (sp_handle _ _); [|discriminate]. intros X. injection X as <- _. reflexivity.
    + intros X. injection X as <- _. reflexivity.
Qed.

(** ** C17 *)

Lemma max_ballot_spec l v : max_ballot l = Some v -> largest v l.
Proof.
  revert v. induction l as [|x l IH]; cbn; [discriminate|]. intros v. destruct (max_ballot l) as [m|] eqn:Hm.
  - destruct (IH m eq_refl) as [H1 H2]. destruct (bgt x m) eqn:Hg; intros X; injection X as <-; (split; [cbn; auto|]); intros y [->|Hy].
    + apply ble_refl.
    + rewrite bgt_blt in Hg. apply blt_spec in Hg. specialize (H2 y Hy). apply ble_spec in H2. apply ble_spec. unfold bal_lt, bal_same in *. lia.
    + rewrite bgt_blt in Hg. apply ble_spec. assert (~ bal_lt m y) by (intros Z; apply blt_spec in Z; congruence). unfold bal_lt, bal_same in *. lia.
    + auto.
  - destruct l as [|y l]; [|cbn in Hm; destruct (max_ballot l); discriminate]. intros X. injection X as <-. split; [cbn; auto|]. intros y [->|[]]. apply ble_refl.
Qed.
Lemma not_bgt a b : bgt a b = false -> ble a b = true.
Proof. rewrite bgt_blt. intros H. apply ble_spec. assert (~ bal_lt b a) by (intros Z; apply blt_spec in Z; congruence). unfold bal_lt, bal_same in *. lia. Qed.
Lemma bgt_ble a b : bgt a b = true -> ble b a = true.
Proof. rewrite bgt_blt. intros H. apply blt_spec in H. apply ble_spec. auto. Qed.
Lemma update_leader_view b : exists v, largest v (e_leader b :: map hr_ballot (e_replies b)) /\ update_leader b = e_set_leader b v.
Proof.
  unfold update_leader. destruct (max_ballot (map hr_ballot (e_replies b))) as [m|] eqn:Hm.
  - apply max_ballot_spec in Hm. destruct Hm as [H1 H2]. destruct (bgt m (e_leader b)) eqn:Hg.
    + exists m. split; [|reflexivity]. split; [right; auto|]. intros x [<-|Hx]; auto. apply bgt_ble; auto.
    + exists (e_leader b). split; [|destruct b; reflexivity]. split; [left; auto|]. intros x [<-|Hx]; [apply ble_refl|]. apply not_bgt in Hg. eapply ble_tr; eauto.
  - exists (e_leader b). split; [|destruct b; reflexivity]. destruct (map hr_ballot (e_replies b)); [|cbn in Hm; destruct (max_ballot l); discriminate]. split; [left; auto|]. intros x [<-|[]]. apply ble_refl.
Qed.
Lemma takeover_leader b : ble (e_leader b) (e_leader (check_takeover b)) = true.
Proof.
  unfold check_takeover. destruct (negb (e_happy b)); [|apply ble_refl]. destruct (_ && _); [|apply ble_refl]. cbn. apply ble_spec. left. unfold bal_lt. cbn. lia.
Qed.
Lemma hb_leader b st p : ble (e_leader b) (e_leader (fst (hb_timeout b st p))) = true /\ ble p (e_leader (fst (hb_timeout b st p))) = true.
Proof.
  unfold hb_timeout. destruct (update_leader_view b) as (v & Hv & ->). cbn [fst]. set (b1 := update_happiness (e_set_leader b v) st).
  assert (H1 : ble (e_leader b) (e_leader b1) = true) by (apply Hv; left; auto).
  assert (H2 : ble (e_leader b) (e_leader (check_takeover b1)) = true) by (eapply ble_tr; [exact H1|apply takeover_leader]). set (b2 := check_takeover b1) in *.
  change (e_leader (new_hb_round b2)) with (e_leader b2). destruct (bgt p (e_leader b2)) eqn:Hg.
  - apply bgt_ble in Hg. assert (X : forall b, e_leader (e_set_happy (if b_pid p =? e_pid (e_set_leader b p) then e_set_ballot (e_set_leader b p) p else e_set_leader b p) true) = p) by (intros; destruct (_ =? _); reflexivity).
    rewrite X. split; [eapply ble_tr; eauto|apply ble_refl].
  - split; [exact H2|apply not_bgt; auto].
Qed.

(** C17.  Over any call, with any heartbeat. *)
Theorem C17_election_view_never_decreases :
  forall o c o' r, exec o c = Ok (o', r) -> ble (election_view o) (election_view o') = true.
Proof.
  intros o c o' r He. apply exec_ble in He. unfold election_view. destruct c as [e|cc0 meta| |i|i l|q| |q|[m|m]]; try (rewrite He; apply ble_refl).
  - destruct (due _); rewrite He; [apply hb_leader|apply ble_refl].
  - rewrite He. unfold ble_handle. destruct (bm_msg m); [apply ble_refl|]. unfold handle_reply. destruct (_ && _); apply ble_refl.
Qed.

(** What a prepare phase started by this server looks like. *)
Lemma handle_leader_cases s n s' : handle_leader s n = Ok s' ->
  (s' = s /\ (ble n (l_n (s_ls s)) = true \/ ble n (i_prom (s_is s)) = true)) \/
  (s_role s' = Follower /\ s_phase s' = s_phase s /\ s_is s' = s_is s /\ s_ls s' = s_ls s /\ b_pid n <> s_pid s) \/
  (s_role s' = Leader /\ s_phase s' = PhPrepare /\ l_n (s_ls s') = n /\ i_prom (s_is s') = n /\ b_pid n = s_pid s /\ blt (l_n (s_ls s)) n = true /\ blt (i_prom (s_is s)) n = true).
Proof.
  unfold handle_leader. destruct (ble n (l_n (s_ls s))) eqn:H1; [intros X; injection X as <-; auto|]. destruct (ble n (i_prom (s_is s))) eqn:H2; [intros X; injection X as <-; auto|]. cbn [orb].
  destruct (Nat.eqb_spec (s_pid s) (b_pid n)); [|intros X; injection X as <-; right; left; cbn; auto 10]. cbn zeta.
  destruct (ls_set_promise _ _ _ _) as [[ls m]|] eqn:Hl; cbn [lift bind]; [|discriminate]. intros X. injection X as <-. right. right.
  assert (Hn : l_n ls = n).
  { unfold ls_set_promise in Hl. destruct (vset _ _ _); [|discriminate]. injection Hl as <- _. cbn [andb]. destruct (meta_gt _ _); reflexivity. }
  assert (Hp : forall l m s, i_prom (s_is (push_all s l m)) = i_prom (s_is s) /\ s_role (push_all s l m) = s_role s /\ s_phase (push_all s l m) = s_phase s /\ s_ls (push_all s l m) = s_ls s).
  { intros l k. unfold push_all. induction l as [|p l IH]; cbn; intros x; auto. apply (IH (push x p k)). }
  match goal with |- context [push_all ?s ?l ?k] => destruct (Hp l k s) as (P1 & P2 & P3 & P4) end. rewrite P1, P2, P3, P4. cbn. repeat split; auto.
  - rewrite <- bgt_blt. unfold bgt. unfold ble in H1. destruct (bcmp n (l_n (s_ls s))); auto; discriminate.
  - rewrite <- bgt_blt. unfold bgt. unfold ble in H2. destruct (bcmp n (i_prom (s_is s))); auto; discriminate.
Qed.

Theorem C17_after_timeout_view_covers_promise :
  forall o o' r, election_due o -> exec o CTick = Ok (o', r) -> ble (get_promise o') (election_view o') = true.
Proof.
  intros o o' r Hd He. unfold exec in He. cbn [exec_call] in He. destruct (tick (start_call o)) as [o1|] eqn:Ht; [|discriminate]. injection He as <- _.
  apply tick_parts in Ht. destruct Ht as (s & Hs & (K1 & _)). change (o_eclk (start_call o)) with (o_eclk o) in Hs. unfold due, election_due in *. rewrite Hd, Nat.eqb_refl in Hs.
  change (o_ble (start_call o)) with (o_ble o) in Hs. pose proof (hb_leader (o_ble o) (s_role (o_sp (start_call o)), s_phase (o_sp (start_call o))) (sp_promise (o_sp (start_call o)))) as [_ Hp].
  destruct (hb_timeout _ _ _) as [b x] eqn:Hb. cbn [fst] in Hp. destruct Hs as [Hbe Hs]. unfold get_promise, election_view. rewrite Hbe. clear Hbe. rewrite K1. destruct x as [n|].
  - apply handle_leader_cases in Hs. destruct Hs as [(-> & _)|[(_ & _ & X & _)|(_ & _ & _ & X & _)]]; [exact Hp|rewrite X; exact Hp|]. rewrite X.
    unfold hb_timeout in Hb. injection Hb as Hb1 Hb2. rewrite Hb1 in Hb2. destruct (beq (e_leader b) (e_ballot b)) eqn:Hq; [|discriminate]. injection Hb2 as <-. apply beq_spec in Hq. rewrite Hq. apply ble_refl.
  - rewrite Hs. exact Hp.
Qed.

(** ** C18 *)

(** When a tick makes the server start a prepare phase, the ballot is its own and exceeds
    its promise and the ballot of its last prepare phase; it is the ballot of the election. *)
Theorem C18_elected_ballot_is_own_and_new :
  forall o o' r, exec o CTick = Ok (o', r) ->
  role_of o' = (Leader, PhPrepare) -> role_of o <> (Leader, PhPrepare) \/ leader_ballot o' <> leader_ballot o ->
  b_pid (leader_ballot o') = own_pid o /\ blt (get_promise o) (leader_ballot o') = true /\ blt (leader_ballot o) (leader_ballot o') = true /\
  get_promise o' = leader_ballot o' /\ own_ballot o' = leader_ballot o' /\ election_view o' = leader_ballot o'.
Proof.
  intros o o' r He Hro Hch. unfold exec in He. cbn [exec_call] in He. destruct (tick (start_call o)) as [o1|] eqn:Ht; [|discriminate]. injection He as <- _.
  apply tick_parts in Ht. destruct Ht as (s & Hs & K1 & K2 & K3 & K4 & K5). unfold role_of in Hro. injection Hro as Hr1 Hr2. rewrite K3 in Hr1. rewrite (K4 Hr1) in Hr2. unfold leader_ballot, get_promise in *. rewrite K1, K2.
  assert (Hsame : s_role s = Leader -> s_phase s = PhPrepare -> s_role s = s_role (o_sp o) -> s_phase s = s_phase (o_sp o) -> l_n (s_ls s) = l_n (s_ls (o_sp o)) -> False).
  { intros A1 A2 A3 A4 A5. destruct Hch as [Hch|Hch]; apply Hch; [unfold role_of; congruence|congruence]. }
  destruct (due _).
  - destruct (hb_timeout _ _ _) as [b x] eqn:Hb. destruct Hs as [Hb1 Hs]. destruct x as [n|].
    + apply handle_leader_cases in Hs. destruct Hs as [(-> & _)|[(X & _)|(_ & _ & X1 & X2 & X3 & X4 & X5)]]; [exfalso; apply Hsame; auto|congruence|].
      rewrite X1, X2. cbn in X3, X4, X5. unfold own_ballot, election_view. rewrite Hb1. unfold hb_timeout in Hb. injection Hb as H1 H2. rewrite H1 in H2. destruct (beq (e_leader b) (e_ballot b)) eqn:Hq; [|discriminate]. injection H2 as <-. apply beq_spec in Hq.
      repeat split; auto.
    + subst s. exfalso. apply Hsame; auto.
  - destruct Hs as [_ ->]. exfalso. apply Hsame; auto.
Qed.

(** A tick changes the own ballot of the election only to take up a promise with the own id
    (after a restart), or to take over: all replies are unhappy, the server has as many replies as
    a read quorum needs, and, if it regards itself as leader, too few replies follow it. *)
Definition takeover (o o' : omni) (v : ballot) : Prop :=
  largest v (election_view o :: map hr_ballot (replies o)) /\
  Forall (fun r => hr_happy r = false) (replies o) /\
  read_quorum o (length (replies o) + 1) /\
  (v = own_ballot o ->
   let n := length (filter (fun r => ble (hr_leader r) v) (replies o)) + 1 in
   if role_eqb (fst (role_of o)) Leader && phase_eqb (snd (role_of o)) PhAccept then ~ write_quorum o n else ~ read_quorum o n) /\
  own_ballot o' = set_n (own_ballot o) (b_n v + 1).
Theorem C18_takeover_only_if :
  forall o o' r, exec o CTick = Ok (o', r) -> own_ballot o' <> own_ballot o ->
  (exists v, takeover o o' v) \/ (b_pid (get_promise o) = e_pid (o_ble o) /\ own_ballot o' = get_promise o).
Proof.
  intros o o' r He Hn. apply exec_ble in He. destruct (due _); [|exfalso; apply Hn; unfold own_ballot; congruence].
  assert (HO : own_ballot o' = e_ballot (fst (hb_timeout (o_ble o) (role_of o) (get_promise o)))) by (unfold own_ballot; congruence). clear He.
  unfold hb_timeout in HO. cbn [fst] in HO. destruct (update_leader_view (o_ble o)) as (v & Hv & Hu). rewrite Hu in HO. set (b1 := update_happiness (e_set_leader (o_ble o) v) (role_of o)) in *.
  assert (Hto : e_ballot (check_takeover b1) = e_ballot (o_ble o) \/ (takeover o (set_ble o (check_takeover b1)) v)).
  { unfold check_takeover. destruct (e_happy b1) eqn:Hh; cbn [negb]; [left; reflexivity|]. destruct (forallb _ _ && _) eqn:Hc; [|left; reflexivity]. right. apply andb_true_iff in Hc. destruct Hc as [Hc1 Hc2].
    change (e_replies b1) with (replies o) in *. change (e_quorum b1) with (e_quorum (o_ble o)) in Hc2.
    assert (Hall : Forall (fun r => hr_happy r = false) (replies o)). { rewrite forallb_forall in Hc1. rewrite Forall_forall. intros x Hx. specialize (Hc1 x Hx). apply negb_true_iff in Hc1. auto. }
    split; [exact Hv|]. split; [exact Hall|]. split.
    { unfold read_quorum. unfold is_prepare_quorum in Hc2. destruct (e_quorum (o_ble o)); apply Nat.leb_le; auto. }
    split; [|reflexivity]. intros Hvo. unfold b1, update_happiness in Hh. cbn [e_happy e_set_happy e_leader e_set_leader e_ballot e_replies e_quorum] in Hh.
    unfold own_ballot in Hvo. rewrite Hvo in Hh. assert (Hb : beq (e_ballot (o_ble o)) (e_ballot (o_ble o)) = true) by (apply beq_spec; reflexivity). rewrite Hb in Hh. fold (replies o) in Hh.
    rewrite Hvo. cbn zeta. destruct (role_of o) as [rl ph]. cbn [fst snd]. unfold read_quorum, write_quorum.
    destruct rl, ph; cbn [role_eqb phase_eqb andb];
      match type of Hh with (if ?q then _ else _) = _ => destruct q eqn:Hq; [discriminate|] end;
      unfold is_prepare_quorum, is_accept_quorum in Hq; destruct (e_quorum (o_ble o)); apply Nat.leb_gt in Hq; lia. }
  set (b2 := check_takeover b1) in *. change (e_ballot (new_hb_round b2)) with (e_ballot b2) in *. change (e_leader (new_hb_round b2)) with (e_leader b2) in *.
  assert (Hend : own_ballot o' = e_ballot b2 -> exists v, takeover o o' v).
  { intros X. exists v. destruct Hto as [Hto|(T1 & T2 & T3 & T4 & T5)]; [exfalso; apply Hn; rewrite X; exact Hto|].
    split; [exact T1|]. split; [exact T2|]. split; [exact T3|]. split; [exact T4|]. rewrite X. exact T5. }
  destruct (bgt (get_promise o) (e_leader b2)).
  - cbn [e_ballot e_set_happy] in HO. change (e_pid (e_set_leader (new_hb_round b2) (get_promise o))) with (e_pid b2) in HO.
    assert (Hpid : e_pid b2 = e_pid (o_ble o)). { unfold b2, check_takeover. destruct (negb _); [|reflexivity]. destruct (_ && _); reflexivity. }
    rewrite Hpid in HO. destruct (Nat.eqb_spec (b_pid (get_promise o)) (e_pid (o_ble o))) as [Hp|Hp].
    + right. split; auto.
    + left. apply Hend. exact HO.
  - left. apply Hend. exact HO.
Qed.

(** ** C19 *)

Theorem C19_other_replies_are_ignored :
  forall o from to r, hr_round r <> e_round (o_ble o) \/ b_cfg (hr_ballot r) <> e_cfg (o_ble o) ->
  exists o', exec o (CHandle (MsgBLE (mkBM from to (HbReply r)))) = Ok (o', RUnit) /\ same_state o o'.
Proof.
  intros o from to r H. eexists. split; [reflexivity|]. unfold same_state, start_call. cbn. unfold ble_handle, handle_reply. cbn [bm_msg].
  destruct (Nat.eqb_spec (hr_round r) (e_round (o_ble o))); destruct (Nat.eqb_spec (b_cfg (hr_ballot r)) (e_cfg (o_ble o))); try (destruct H; contradiction); reflexivity.
Qed.
Definition round_ok (b : bles) : Prop := Forall (fun r => hr_round r = e_round b /\ b_cfg (hr_ballot r) = e_cfg b) (e_replies b).
Lemma hb_replies b st p : e_replies (fst (hb_timeout b st p)) = [].
Proof. unfold hb_timeout. cbn [fst]. destruct (bgt _ _); [|reflexivity]. destruct (_ =? _); reflexivity. Qed.
Theorem C19_counted_replies_are_of_this_round :
  forall o, server_state o -> Forall (fun r => hr_round r = e_round (o_ble o) /\ b_cfg (hr_ballot r) = e_cfg (o_ble o)) (replies o).
Proof.
  intros o (cc & sc & o0 & Hb & Hl). change (round_ok (o_ble o)).
  assert (B : forall cc sc st o, build cc sc st = BOk o -> round_ok (o_ble o)).
  { clear. intros cc sc st o. unfold build. destruct (config_validate cc sc); [|discriminate]. destruct (sp_with _ _ _ _ _); [|discriminate]. intros X. injection X as <-. cbn [o_ble]. unfold ble_with.
    destruct (ms_prom st) as [b|]; [destruct (negb _)|]; constructor. }
  assert (H0 := B _ _ _ _ Hb). clear Hb. induction Hl as [|o o1 o2 _ IH Hs]; auto. specialize (IH H0). destruct Hs as [o1 c o' r He|o1 buf o' l Ht|o1 c st cc1 sc1 o' Hin Hb].
  - apply exec_ble in He. destruct c as [e|cc1 meta| |i|i l|q| |q|[m|m]]; try (rewrite He; exact IH).
    + destruct (due _); rewrite He; [|exact IH]. unfold round_ok. rewrite hb_replies. constructor.
    + rewrite He. unfold ble_handle. destruct (bm_msg m) as [k|k]; [exact IH|]. unfold handle_reply. destruct (Nat.eqb_spec (hr_round k) (e_round (o_ble o1))); [|exact IH]. destruct (Nat.eqb_spec (b_cfg (hr_ballot k)) (e_cfg (o_ble o1))); [|exact IH].
      unfold round_ok. cbn. rewrite Forall_app. split; [exact IH|]. constructor; auto.
  - unfold take_outgoing_messages in Ht. destruct (sp_take_outgoing _ _). injection Ht as <- _. exact IH.
  - eapply B; eauto.
Qed.
End WithEntry.

(** ** C18: the replies are not counted by sender *)
Section Plain5.
Local Existing Instance plain.

(** Five servers; every tick is an election timeout. *)
Definition cc5 := mkCC 1 [1; 2; 3; 4; 5] None.
Definition scs5 (p : nat) := mkSC p 1 50 10 1 20 0.
Definition ini5 := init_sys cc5 scs5.
Lemma good5 : good_config cc5 scs5.
Proof.
  split; [reflexivity|]. split; [cbn; lia|]. intros p Hp. cbn in Hp. destruct Hp as [<-|[<-|[<-|[<-|[<-|[]]]]]]; vm_compute; auto.
Qed.
(** Server 1 asks, restarts and asks again with the same round number; server 2, which has
    heard of nobody, answers both requests. *)
Definition sch_c18 : list cmd :=
  [ Fetch [1]; Do (ACrash 1 (ECall CTick) 0 (scs5 1)); Fetch [1]; Call 2 CTick; Deliver 1 2; Fetch [2]; Deliver 2 1 ].
Definition acts_c18 := Eval vm_compute in acts_of cc5 ini5 sch_c18.
Definition sys_c18 := match run cc5 ini5 acts_c18 with Some s => s | None => ini5 end.
Lemma c18_reach : reaches cc5 scs5 acts_c18 sys_c18.
Proof. apply is_some_eta. vm_compute. reflexivity. Qed.
Lemma c18_steps : forallb fifob acts_c18 = true /\ drained_run cc5 ini5 acts_c18 = true.
Proof. vm_compute. auto. Qed.

Definition heard_from (o : omni) : list nat := nodup Nat.eq_dec (map (fun r => b_pid (hr_ballot r)) (replies o)).
Definition c18_test (o : omni) : bool :=
  match exec o CTick with
  | Ok (o', _) => negb (beq (own_ballot o') (own_ballot o)) && negb (b_pid (get_promise o) =? own_pid o) && (length (heard_from o) + 1 <? 3) &&
      match e_quorum (o_ble o) with Majority m => m =? 3 | _ => false end && beq (leader_ballot o') (own_ballot o')
  | Panic _ => false
  end.
Lemma c18_test_ok o : c18_test o = true ->
  exists o' r, exec o CTick = Ok (o', r) /\ own_ballot o' <> own_ballot o /\ b_pid (get_promise o) <> own_pid o /\ leader_ballot o' = own_ballot o' /\ ~ read_quorum o (length (heard_from o) + 1).
Proof.
  unfold c18_test. destruct (exec o CTick) as [[o' r]|]; [|discriminate]. intros X. apply andb_true_iff in X. destruct X as [X X5]. apply andb_true_iff in X. destruct X as [X X4].
  apply andb_true_iff in X. destruct X as [X X3]. apply andb_true_iff in X. destruct X as [X1 X2]. exists o', r. split; [reflexivity|]. split.
  { intros Z. rewrite Z in X1. assert (B : beq (own_ballot o) (own_ballot o) = true) by (apply beq_spec; reflexivity). rewrite B in X1. discriminate. }
  split; [apply Nat.eqb_neq, negb_true_iff; exact X2|]. split; [apply beq_spec; exact X5|].
  unfold read_quorum. destruct (e_quorum (o_ble o)); [|discriminate]. apply Nat.eqb_eq in X4. apply Nat.ltb_lt in X3. lia.
Qed.
Lemma c18_witness : exists o, nodes sys_c18 1 = Some o /\ c18_test o = true.
Proof.
  assert (X : match nodes sys_c18 1 with Some o => c18_test o | None => false end = true) by (vm_compute; reflexivity).
  destruct (nodes sys_c18 1) as [o|]; [|discriminate X]. exists o. auto.
Qed.
End Plain5.

(** C18 (the read quorum): a server takes over, and becomes leader in a new prepare phase,
    although it and the servers that answered it are no read quorum.  One peer answered twice. *)
Theorem C18_read_quorum_of_servers_refuted :
  exists (E : EntryT) cc scs acts s p o o' r,
    good_config cc scs /\ Forall fifo acts /\ all_steps drained cc (init_sys cc scs) acts /\ reaches cc scs acts s /\ nodes s p = Some o /\
    exec o CTick = Ok (o', r) /\ own_ballot o' <> own_ballot o /\ b_pid (get_promise o) <> own_pid o /\ leader_ballot o' = own_ballot o' /\
    ~ read_quorum o (length (nodup Nat.eq_dec (map (fun r => b_pid (hr_ballot r)) (replies o))) + 1).
Proof.
  destruct c18_witness as (o & Ho & X). apply c18_test_ok in X. destruct X as (o' & r & X). destruct c18_steps as [S1 S2]. exists plain, cc5, scs5, acts_c18, sys_c18, 1, o, o', r.
  split; [exact good5|]. split; [apply fifob_ok; exact S1|]. split; [apply drained_run_ok; exact S2|]. split; [exact c18_reach|]. split; [exact Ho|]. exact X.
Qed.

(** ** Concrete cases *)
Section Case.
Local Existing Instance plain.

(** Three servers, every tick an election timeout: servers 1 and 2 hear of each other and of
    3; when all are unhappy server 3 takes over. *)
Definition scs1 (p : nat) := mkSC p 1 50 10 1 20 0.
Definition sch_elect : list cmd := [ Call 1 CTick; Call 2 CTick; Call 3 CTick; Settle [1;2;3] 2 ].
Definition ini1 := init_sys cc3 scs1.
Definition acts_elect := Eval vm_compute in acts_of cc3 ini1 sch_elect.
Definition sys_elect := match run cc3 ini1 acts_elect with Some s => s | None => ini1 end.
Lemma elect_reach : reaches cc3 scs1 acts_elect sys_elect.
Proof. apply is_some_eta. vm_compute. reflexivity. Qed.
Definition after_tick {A} (o : omni) (f : omni -> A) : option A := match exec o CTick with Ok (o', _) => Some (f o') | Panic _ => None end.
(** At server 1 the next tick is an election timeout; it has two unhappy replies, has promised
    the ballot of server 3, and takes over with ballot 2. *)
Example C17_C18_case :
  obs sys_elect 1 (fun o => (lc_time (o_eclk o) + 1, lc_timeout (o_eclk o))) = Some (1, 1) /\
  obs sys_elect 1 (fun o => (election_view o, get_promise o, role_of o)) = Some (mkB 1 1 0 1, mkB 1 1 0 3, (Follower, PhPrepare)) /\
  obs sys_elect 1 (fun o => map (fun r => (b_pid (hr_ballot r), hr_happy r)) (replies o)) = Some [(2, false); (3, false)] /\
  obs sys_elect 1 (fun o => after_tick o (fun o => (election_view o, own_ballot o, get_promise o, leader_ballot o, role_of o))) =
    Some (Some (mkB 1 2 0 1, mkB 1 2 0 1, mkB 1 2 0 1, mkB 1 2 0 1, (Leader, PhPrepare))).
Proof. vm_compute. auto. Qed.
(** At server 1 the round is 2: a reply of round 1 is ignored, one of round 2 is counted. *)
Example C19_case :
  obs sys_elect 1 (fun o => e_round (o_ble o)) = Some 2 /\
  obs sys_elect 1 (fun o => map (fun k => match exec o (CHandle (MsgBLE (mkBM 2 1 (HbReply (mkHR k (mkB 1 1 0 2) (mkB 1 1 0 2) true))))) with
      | Ok (o', _) => length (replies o') | Panic _ => 0 end) [1; 2]) = Some [2; 3].
Proof. vm_compute. auto. Qed.
End Case.

Print Assumptions C17_election_view_never_decreases.
Print Assumptions C17_after_timeout_view_covers_promise.
Print Assumptions C18_elected_ballot_is_own_and_new.
Print Assumptions C18_takeover_only_if.
Print Assumptions C18_read_quorum_of_servers_refuted.
Print Assumptions C19_other_replies_are_ignored.
Print Assumptions C19_counted_replies_are_of_this_round.
