(** * C53, C54, C55: a server that is waiting asks, and a server that accepts answers *)
From Coq Require Import List Arith Bool Lia.
Import ListNotations.
From Verif Require Import Types Config MemStore Internal LeaderState SeqPaxos Ble Omni System Basics Scen Spec Refute PropAgreement Local Frame PropLocal PropCalls PropElect Progress PropStable NoPanic PropNoPanic Takeover.
From Verif Require LeadLinks PropSnap.

Section WithEntry.
Context {E : EntryT}.

(** ** Specification *)

(** The next [tick] is a resend timeout. *)
Definition resend_due (o : omni) : Prop := lc_time (o_rclk o) + 1 = lc_timeout (o_rclk o).
(** The other servers of the configuration. *)
Definition peers (o : omni) : list node_id := s_peers (o_sp o).
(** The accepted index. *)
Definition accepted_idx (o : omni) : nat := i_acc (s_is (o_sp o)).
(** What the leader [o] has recorded about the promise of [p]. *)
Definition recorded_promise (o : omni) (p : node_id) (x : prom_state) : Prop := 1 <= p /\ nth_error (l_proms (s_ls (o_sp o))) (p - 1) = Some x.
(** The server [o] has the message [m] to [p] in its queue. *)
Definition queued (o : omni) (p : node_id) (m : pmsg) : Prop := In (mkPM (own_pid o) p m) (outgoing o).
(** The server [o] starts a prepare phase with the ballot [b] in a step to [o']. *)
Definition candidate (o : omni) (b : ballot) (o' : omni) : Prop :=
  role_of o' = (Leader, PhPrepare) /\ leader_ballot o' = b /\ get_promise o' = b /\ promised (storage o') = b /\ b_pid b = own_pid o /\
  blt (get_promise o) b = true /\ ms_log (storage o') = held o /\
  forall p, In p (peers o) -> queued o' p (MPrepare b (get_decided_idx o) (accepted_round (storage o)) (accepted_idx o')).
(** The server [o] has told somebody that it has accepted its log up to the accepted index, in the ballot that it has promised. *)
Definition same_round (a b : ballot) : Prop := b_n a = b_n b /\ b_prio a = b_prio b /\ b_pid a = b_pid b.
Definition acked (o : omni) : Prop := exists b to, same_round b (get_promise o) /\ queued o to (MAccepted b (accepted_idx o)).

(** ** What most of the code leaves alone *)

Definition lamok (s : sp) : Prop := forall x i, s_lam s = Some (x, i) -> exists to k, nth_error (s_out s) i = Some (mkPM (s_pid s) to (MAccepted x k)).
Definition fine_mod (f : pmsg -> pmsg) : Prop := forall m, match m with MAccepted n k => exists k', f m = MAccepted n k' | _ => True end.
Lemma lamok_push s to m : lamok s -> lamok (push s to m).
Proof. intros H x i Hi. destruct (H x i Hi) as (t & k & X). exists t, k. apply nth_app_l. exact X. Qed.
Lemma lamok_push_all m l : forall s, lamok s -> lamok (push_all s l m).
Proof. unfold push_all. induction l as [|p l IH]; cbn; intros s H; [exact H|]. apply IH, lamok_push, H. Qed.
Lemma mod_nth s k f i m : nth_error (s_out s) i = Some m -> exists m', nth_error (s_out (mod_accdec s k f)) i = Some m' /\ pm_from m' = pm_from m /\ pm_to m' = pm_to m /\ (pm_msg m' = pm_msg m \/ pm_msg m' = f (pm_msg m)).
Proof.
  intros H. unfold mod_accdec. destruct (nth_error (s_out s) k) as [x|] eqn:Hk; [|exists m; auto]. cbn. assert (L : k < length (s_out s)) by (apply nth_error_Some; congruence).
  rewrite (Local.upd_nth _ _ _ _ L). destruct (Nat.eqb_spec i k) as [->|]; [|exists m; auto]. assert (x = m) by congruence. subst x. eexists. split; [reflexivity|]. cbn. auto.
Qed.
Lemma mod_rest s k f : mod_accdec s k f = set_out s (s_out (mod_accdec s k f)).
Proof. unfold mod_accdec. destruct (nth_error _ _); destruct s; reflexivity. Qed.
Lemma lamok_mod s k f : fine_mod f -> lamok s -> lamok (mod_accdec s k f).
Proof.
  intros Hf H x i Hi. rewrite mod_rest in Hi. destruct (H x i Hi) as (t & a & X). destruct (mod_nth s k f i _ X) as (m' & Y & Y1 & Y2 & Y3). cbn in Y1, Y2, Y3. exists t.
  specialize (Hf (MAccepted x a)). cbn in Hf. destruct Hf as (a' & Hf). assert (P : s_pid (mod_accdec s k f) = s_pid s) by (rewrite mod_rest; reflexivity).
  destruct m' as [fr tt mm]. cbn in Y1, Y2, Y3. subst fr tt. rewrite P. destruct Y3 as [Y3|Y3]; subst mm; [exists a; exact Y|]. rewrite Hf in Y. exists a'. exact Y.
Qed.
Lemma fine_extend es d : fine_mod (extend_accdec es d).
Proof. intros []; cbn; auto. eexists; reflexivity. Qed.
Lemma fine_redecide d : fine_mod (redecide_accdec d).
Proof. intros []; cbn; auto. eexists; reflexivity. Qed.
Lemma fine_reaccept a : fine_mod (reaccept a).
Proof. intros []; cbn; auto. eexists; reflexivity. Qed.

Section Fix.
Context (s0 : sp).
Definition base (s : sp) : Prop :=
  s_role s = s_role s0 /\ s_phase s = s_phase s0 /\ s_cprom s = s_cprom s0 /\ i_prom (s_is s) = i_prom (s_is s0) /\ s_pid s = s_pid s0 /\ lamok s.
Definition eqa (s : sp) : Prop := s_role s0 = Leader \/ i_acc (s_is s) = i_acc (s_is s0).
Definition Fx (s : sp) : Prop := base s /\ eqa s.
Definition xok (r : res sp) : Prop := match r with Ok s => Fx s | Panic _ => True end.
Definition xok2 {B} (r : res (sp * B)) : Prop := match r with Ok (s, _) => Fx s | Panic _ => True end.
Lemma lift_x {B} s (o : option B) (f : B -> res sp) : (forall b, o = Some b -> xok (f b)) -> xok (bind (lift s o) f).
Proof. intros Hf. destruct o; cbn; auto. Qed.
Lemma bind_x (r : res sp) (f : sp -> res sp) : xok r -> (forall s, Fx s -> xok (f s)) -> xok (bind r f).
Proof. destruct r; cbn; auto. Qed.
Lemma for_each_x f l : (forall s p, Fx s -> xok (f s p)) -> forall s, Fx s -> xok (for_each s l f).
Proof. intros Hf. induction l as [|p l IH]; cbn; intros s H; auto. pose proof (Hf s p H) as X. destruct (f s p); cbn in *; auto. Qed.
Lemma push_x s to m : Fx s -> Fx (push s to m).
Proof. intros ((A & B & C & D & P & L) & G). split; [|exact G]. do 5 (split; [assumption|]). apply lamok_push, L. Qed.
Lemma push_all_x m l : forall s, Fx s -> Fx (push_all s l m).
Proof. unfold push_all. induction l as [|p l IH]; cbn; intros s H; [exact H|]. apply IH, push_x, H. Qed.
Lemma mod_x s k f : fine_mod f -> Fx s -> Fx (mod_accdec s k f).
Proof.
  intros Hf ((A & B & C & D & P & L) & G). pose proof (lamok_mod s k f Hf L) as X. rewrite (mod_rest s k f) in *. split; [|exact G]. do 5 (split; [assumption|]). exact X.
Qed.
Lemma ls_x s l : Fx s -> Fx (set_ls s l).
Proof. auto. Qed.
Lemma is_x s i : i_prom i = i_prom (s_is s) -> s_role s0 = Leader \/ i_acc i = i_acc (s_is s) -> Fx s -> Fx (set_is s i).
Proof. intros Hp Ha ((A & B & C & D & P & L) & G). split; [|destruct Ha as [Ha|Ha]; [left; exact Ha|destruct G as [G|G]; [left; exact G|right; cbn; congruence]]]. split; [exact A|]. split; [exact B|]. split; [exact C|]. split; [cbn; congruence|]. auto. Qed.
Lemma send_prepare_x l : forall s, Fx s -> Fx (fold_left send_prepare l s).
Proof. induction l as [|p l IH]; cbn; intros s H; [exact H|]. apply IH, push_x, H. Qed.
Lemma send_ad_x es s : Fx s -> xok (send_acceptdecide s es).
Proof.
  intros H. unfold send_acceptdecide. apply lift_x. intros l _. apply for_each_x; auto. intros s1 p H1. unfold send_acceptdecide_to. apply lift_x. intros [k|] _; [apply mod_x; [apply fine_extend|exact H1]|].
  apply lift_x. intros l1 _. apply lift_x. intros [l2 q] _. apply push_x, ls_x, H1.
Qed.
Lemma forward_x s es : Fx s -> Fx (forward_proposals s es).
Proof. intros H. unfold forward_proposals. destruct (_ && _); [apply push_x, H|exact H]. Qed.
Lemma forward_ss_x s ss : Fx s -> Fx (forward_stopsign s ss).
Proof. intros H. unfold forward_stopsign. destruct (_ && _); [apply push_x, H|]. destruct (s_bss s); exact H. Qed.
Lemma aeswb_prom i es i' r : append_entries_with_batching i es = (i', r) -> i_prom i' = i_prom i.
Proof. unfold append_entries_with_batching, cache_append_entries, take_entries_if_batch_is_full. destruct (_ <=? _); cbn; intros X; injection X as <- _; reflexivity. Qed.
Lemma aewb_prom i e i' r : append_entry_with_batching i e = (i', r) -> i_prom i' = i_prom i.
Proof. unfold append_entry_with_batching, cache_append_entry, take_entries_if_batch_is_full. destruct (_ <=? _); cbn; intros X; injection X as <- _; reflexivity. Qed.
Lemma ass_prom i ss : i_prom (fst (i_append_stopsign i ss)) = i_prom i.
Proof. unfold i_append_stopsign, cache_append_stopsign. cbn. destruct (c_batch _); reflexivity. Qed.
Lemma fbge_prom i i' r : flush_batch_and_get_entries i = (i', r) -> i_prom i' = i_prom i.
Proof. unfold flush_batch_and_get_entries. destruct (c_batch _); cbn; intros X; injection X as <- _; reflexivity. Qed.
Lemma fb_prom i i' a : flush_batch i = (i', a) -> i_prom i' = i_prom i /\ i_acc i' = a.
Proof. unfold flush_batch. cbn. intros X. injection X as <- <-. auto. Qed.
Lemma accept_entries_x s es : s_role s0 = Leader -> Fx s -> xok (accept_entries_leader s es).
Proof.
  intros Hl H. unfold accept_entries_leader. destruct (append_entries_with_batching _ _) as [is r] eqn:Ea. apply aeswb_prom in Ea. assert (H1 : Fx (set_is s is)) by (apply is_x; auto).
  destruct r as [[a l]|]; [|exact H1]. apply lift_x. intros ls _. apply send_ad_x, ls_x, H1.
Qed.
Lemma accept_entry_x s e : s_role s0 = Leader -> Fx s -> xok (accept_entry_leader s e).
Proof.
  intros Hl H. unfold accept_entry_leader. destruct (append_entry_with_batching _ _) as [is r] eqn:Ea. apply aewb_prom in Ea. assert (H1 : Fx (set_is s is)) by (apply is_x; auto).
  destruct r as [[a l]|]; [|exact H1]. apply lift_x. intros ls _. apply send_ad_x, ls_x, H1.
Qed.
Lemma send_ss_x ss b s p : Fx s -> xok (send_accept_stopsign ss b s p).
Proof. intros H. unfold send_accept_stopsign. apply lift_x. intros [ls sq] _. apply push_x, ls_x, H. Qed.
Lemma send_dec_x d b s p : Fx s -> xok (send_decide d b s p).
Proof. intros H. unfold send_decide. apply lift_x. intros [ls sq] _. apply push_x, ls_x, H. Qed.
Lemma accept_ss_x s ss : s_role s0 = Leader -> Fx s -> xok (accept_stopsign_leader s ss).
Proof.
  intros Hl H. unfold accept_stopsign_leader. pose proof (ass_prom (s_is s) ss) as Ea. destruct (i_append_stopsign _ _) as [is r]. cbn [fst] in Ea. cbn zeta. assert (H1 : Fx (set_is s is)) by (apply is_x; auto).
  apply bind_x; [destruct r as [[a l]|]; [apply send_ad_x|]; exact H1|].
  intros s1 H2. apply lift_x. intros ls _. apply lift_x. intros ps _. apply for_each_x; [|apply ls_x, H2]. intros. apply send_ss_x. auto.
Qed.
Lemma send_accsync_x s p : Fx s -> xok (send_accsync s p).
Proof. intros H. unfold send_accsync. cbn zeta. do 4 (apply lift_x; intros ? _). apply lift_x. intros [ls sq] _. apply push_x, ls_x, H. Qed.
Lemma accepted_to_x d s p : Fx s -> xok (handle_accepted_to d s p).
Proof. intros H. unfold handle_accepted_to. apply lift_x. intros [k|] _; [apply mod_x; [apply fine_redecide|exact H]|apply send_dec_x; auto]. Qed.
Lemma resend_leader_x s : Fx s -> xok (resend_messages_leader s).
Proof.
  intros H. unfold resend_messages_leader. destruct (s_phase s); try exact H.
  - apply lift_x. intros ps _. apply send_prepare_x. exact H.
  - apply bind_x; [|intros s1 H1; apply lift_x; intros ps _; apply send_prepare_x; exact H1]. destruct (i_ss _); [|exact H]. apply lift_x. intros ps _. apply for_each_x; [|exact H].
    intros s9 p H1. unfold resend_ss_to. destruct (stopsign_is_decided _); [apply send_dec_x; auto|]. apply lift_x. intros a _. destruct (_ =? _); [exact H1|apply send_ss_x; auto].
Qed.
Lemma flush_leader_x s : s_role s0 = Leader -> Fx s -> xok (flush_batch_leader s).
Proof.
  intros Hl H. unfold flush_batch_leader. destruct (flush_batch_and_get_entries _) as [is r] eqn:Ea. apply fbge_prom in Ea. assert (H1 : Fx (set_is s is)) by (apply is_x; auto).
  destruct r as [[a l]|]; [|exact H1]. apply lift_x. intros ls _. apply send_ad_x, ls_x, H1.
Qed.
Lemma try_trim_acc i k i' r : try_trim i k = Ok (i', r) -> i_acc i' = i_acc i.
Proof.
  unfold try_trim, ilift, ipanic. destruct (dec_without_ss i) as [ld|]; [|discriminate].
  destruct (Nat.compare k (i_dec i)); [| |intros X; injection X as <- _; auto]; (destruct (i_comp i <? _); [|intros X; injection X as <- _; auto]);
  (match goal with |- context [ms_write ?a ?b] => destruct (ms_write a b) eqn:Hw end; cbn [bind]; [|discriminate]; intros X; injection X as <- _; reflexivity).
Qed.
Lemma try_snapshot_acc i k i' r : try_snapshot i k = Ok (i', r) -> i_acc i' = i_acc i.
Proof.
  unfold try_snapshot, ilift, ipanic. destruct (dec_without_ss i) as [ld|]; [|discriminate].
  assert (Main : forall new, (if i_comp i <? new then
          match create_snapshot i new with
          | CPanic => Panic (i_tr i)
          | CErr e => Ok (i, Some e)
          | COk sn =>
              m <- (match ms_write (i_st i) [OpTrim new; OpSetComp new; OpSetSnapshot (Some sn)] with Some a => Ok a | None => Panic (i_tr i) end) ;;
              let s := put_st i m in Ok (set_ca s (c_set_comp (i_ca s) new), None)
          end else Ok (i, None)) = Ok (i', r) -> i_acc i' = i_acc i).
  { intros new. destruct (i_comp i <? new); [|intros X; injection X as <- _; auto]. destruct (create_snapshot i new); [|intros X; injection X as <- _; auto|discriminate].
    match goal with |- context [ms_write ?a ?b] => destruct (ms_write a b) eqn:Hw end; cbn [bind]; [|discriminate]; intros X; injection X as <- _; reflexivity. }
  cbn zeta. destruct k as [k|]; [|apply Main]. destruct (Nat.compare k (i_dec i)); [apply Main|apply Main|intros X; injection X as <- _; reflexivity].
Qed.
Lemma snapshot_x s i l : Fx s -> xok2 (sp_snapshot s i l).
Proof.
  intros H. unfold sp_snapshot. destruct (try_snapshot _ _) as [[is r]|] eqn:Et; [|exact I]. cbn [bind].
  assert (H1 : Fx (set_is s is)) by (apply is_x; [apply (snap_prom _ _ _ _ Et)|right; apply (try_snapshot_acc _ _ _ _ Et)|exact H]).
  destruct r; [exact H1|]. cbn. destruct l; [exact H1|]. apply push_all_x. exact H1.
Qed.
Lemma trim_x s i : Fx s -> xok2 (sp_trim s i).
Proof.
  intros H. unfold sp_trim. destruct (s_role s); [exact H|]. destruct (get_min_all_accepted_idx _) as [mn|]; [|exact I]. cbn [lift bind].
  assert (X : forall k, xok2 ('(is, r) <- try_trim (s_is s) k ;; match r with None => Ok (push_all (set_is s is) (s_peers (set_is s is)) (MCompaction (CmpTrim k)), None) | Some e => Ok (set_is s is, Some e) end)).
  { intros k. destruct (try_trim _ _) as [[is r]|] eqn:Et; [|exact I]. cbn [bind].
    assert (H1 : Fx (set_is s is)) by (apply is_x; [apply (trim_prom _ _ _ _ Et)|right; apply (try_trim_acc _ _ _ _ Et)|exact H]).
    destruct r; [exact H1|]. apply push_all_x. exact H1. }
  destruct i as [i|]; [|apply X]. destruct (i <=? mn); [apply X|exact H].
Qed.
Lemma append_x s e : Fx s -> xok2 (sp_append s e).
Proof.
  intros H. unfold sp_append. destruct (accepted_reconfiguration s); [exact H|].
  assert (X : xok (propose_entry s e)).
  { unfold propose_entry. destruct (s_role s) eqn:Hr, (s_phase s); try (apply forward_x; exact H); [exact H|apply accept_entry_x; [|exact H]]. destruct H as [(A & _) _]. congruence. }
  destruct (propose_entry s e); [exact X|exact I].
Qed.
Lemma reconfigure_x s c m : Fx s -> xok2 (sp_reconfigure s c m).
Proof.
  intros H. unfold sp_reconfigure. destruct (accepted_reconfiguration s); [exact H|]. cbn zeta.
  match goal with |- xok2 (bind ?r _) => assert (X : xok r) end.
  { destruct (s_role s) eqn:Hr, (s_phase s); try (apply forward_ss_x; exact H); [exact H|apply accept_ss_x; [|exact H]]. destruct H as [(A & _) _]. congruence. }
  destruct (match s_role s with Follower => _ | Leader => _ end); [exact X|exact I].
Qed.

(** ** The answer to the leader *)

Definition ackd (s : sp) : Prop := exists b to, same_round b (i_prom (s_is s)) /\ In (mkPM (s_pid s) to (MAccepted b (i_acc (s_is s)))) (s_out s).
Definition Rx (s : sp) : Prop := base s /\ (eqa s \/ ackd s).
Definition rok (r : res sp) : Prop := match r with Ok s => Rx s | Panic _ => True end.
Lemma fx_rx s : Fx s -> Rx s.
Proof. intros [A B]. split; auto. Qed.
Lemma reply_x s n a : same_round n (i_prom (s_is s)) -> a = i_acc (s_is s) -> base s -> rok (reply_accepted s n a).
Proof.
  intros Hn0 -> (A & B & C & D & P & L). unfold reply_accepted. destruct (get_latest_accepted _ _) as [[k|]|] eqn:Hg; cbn [lift bind]; [| |exact I].
  - unfold get_latest_accepted in Hg. destruct (s_lam s) as [[b j]|] eqn:El; [|discriminate]. destruct (beq b _) eqn:Hb; [|discriminate]. apply beq_spec in Hb. subst b.
    destruct (L _ _ El) as (to & k0 & Hn). rewrite Hn in Hg. cbn in Hg. injection Hg as <-.
    assert (X : mod_accdec s j (reaccept (i_acc (s_is s))) = set_out s (upd (s_out s) j (mkPM (s_pid s) to (MAccepted n (i_acc (s_is s)))))) by (unfold mod_accdec; rewrite Hn; reflexivity).
    pose proof (lamok_mod s j _ (fine_reaccept (i_acc (s_is s))) L) as Y. cbn [rok]. rewrite X in *. split; [do 5 (split; [assumption|]); exact Y|]. right. exists n, to. split; [exact Hn0|]. cbn. apply nth_error_In with j.
    rewrite Local.upd_nth; [rewrite Nat.eqb_refl; reflexivity|]. apply nth_error_Some. congruence.
  - split; [do 5 (split; [assumption|])|].
    + intros x i Hi. cbn in Hi. injection Hi as <- <-. exists (b_pid n), (i_acc (s_is s)). cbn. rewrite nth_error_app2, Nat.sub_diag; [reflexivity|lia].
    + right. exists n, (b_pid n). split; [exact Hn0|]. cbn. apply in_or_app. right. left. reflexivity.
Qed.
Lemma round_refl b : same_round b b.
Proof. repeat split. Qed.
Lemma flush_follower_x s : base s -> eqa s -> rok (flush_batch_follower s).
Proof.
  intros H H0. unfold flush_batch_follower. cbn zeta. destruct (flush_batch _) as [is a] eqn:Ef. destruct (fb_prom _ _ _ Ef) as [F1 F2]. assert (B1 : base (set_is s is)) by (destruct H as (A & B & C & D & P & L); do 3 (split; [assumption|]); split; [cbn; congruence|auto]).
  destruct (_ <? a) eqn:Ha; [apply reply_x; [apply round_refl|symmetry; exact F2|exact B1]|]. split; [exact B1|]. left. destruct H0 as [H0|H0]; [left; exact H0|]. right. cbn. rewrite F2. apply Nat.ltb_ge in Ha.
  unfold flush_batch in Ef. cbn in Ef. injection Ef as _ <-. unfold i_acc in *. cbn in *. lia.
Qed.
Lemma flush_x s : Fx s -> rok (flush_batch_timeout s).
Proof.
  intros H. unfold flush_batch_timeout. destruct (s_role s) eqn:Hr, (s_phase s); try (apply fx_rx; exact H).
  - apply flush_follower_x; apply H.
  - pose proof (flush_leader_x s) as X. assert (Hl : s_role s0 = Leader) by (destruct H as [(A & _) _]; congruence). specialize (X Hl H). destruct (flush_batch_leader s); [apply fx_rx; exact X|exact I].
Qed.
Lemma update_decided_x s d : base s -> let '(s', r) := update_decided s d in base s' /\ match r with Some a => a = i_acc (s_is s') | None => i_acc (s_is s') = i_acc (s_is s) end.
Proof.
  intros (A & B & C & D & P & L). unfold update_decided. destruct (_ <=? _); [repeat split; auto|]. destruct (_ <? _); [|repeat split; auto].
  destruct (flush_batch _) as [is a] eqn:Ef. destruct (fb_prom _ _ _ Ef) as [F1 F2]. split; [|symmetry; exact F2]. do 3 (split; [assumption|]). split; [|auto]. change (i_prom is = i_prom (s_is s0)). congruence.
Qed.

(** ** States after a call *)

(** The state after a call: as before, with an answer if something new was accepted; or one of the states a server moves to. *)
Definition good_wait (s : sp) : Prop := exists p, s_cprom s = Some p /\ pr_n p = i_prom (s_is s).
Definition moved (s : sp) : Prop :=
  lamok s /\ s_pid s = s_pid s0 /\
  ((s_role s = Follower /\ s_phase s = PhRecover) \/ (s_role s = Follower /\ s_phase s = PhPrepare /\ good_wait s) \/
   (s_role s = Leader /\ (s_phase s = PhPrepare \/ s_phase s = PhAccept)) \/ (s_role s = Follower /\ s_phase s = PhAccept /\ ackd s)).
Definition After (s : sp) : Prop := Rx s \/ moved s.
Definition aok (r : res sp) : Prop := match r with Ok s => After s | Panic _ => True end.
Lemma rok_aok r : rok r -> aok r.
Proof. destruct r; cbn; auto. left. auto. Qed.
Lemma xok_aok r : xok r -> aok r.
Proof. destruct r; cbn; auto. left. apply fx_rx. auto. Qed.
Lemma fx_after s : Fx s -> After s.
Proof. left. apply fx_rx. auto. Qed.

Definition recov (s : sp) : Prop := Fx s \/ (lamok s /\ s_pid s = s_pid s0 /\ s_role s = Follower /\ s_phase s = PhRecover).
Lemma recov_after s : recov s -> After s.
Proof. intros [H|(A & B & C & D)]; [apply fx_after; exact H|right; split; [exact A|]; split; [exact B|]; left; auto]. Qed.
Lemma reconnected_x s p : Fx s -> recov (reconnected s p).
Proof.
  intros H. unfold reconnected. destruct (p =? s_pid s); [left; exact H|]. destruct (p =? sp_leader s); [|left; apply push_x; exact H]. right. destruct H as [(A & B & C & D & P & L) _].
  split; [apply lamok_push; exact L|]. split; [exact P|]. split; reflexivity.
Qed.
Lemma cvb_x s n : Fx s -> let '(s', v) := check_valid_ballot s n in recov s' /\ (v = true -> s' = s /\ bcmp (i_prom (s_is s)) n = Eq).
Proof.
  intros H. unfold check_valid_ballot. destruct (bcmp (i_prom (s_is s)) n) eqn:Hb; (split; [|intros X; try discriminate X; auto]).
  - left; exact H.
  - apply reconnected_x; exact H.
  - left; apply push_x; exact H.
Qed.
Lemma seqnum_x s q from : Fx s -> let '(s', st) := handle_sequence_num s q from in recov s' /\ (st = Expected -> s' = set_cseq s q).
Proof.
  intros H. unfold handle_sequence_num. destruct (check_msg_status _ _); (split; [|intros X; try discriminate X; auto]); try (left; exact H). apply reconnected_x; exact H.
Qed.
End Fix.

Lemma majority_a s0 s : lamok s -> s_pid s = s_pid s0 -> aok s0 (handle_majority_promises s).
Proof.
  intros L P. destruct (handle_majority_promises s) as [s'|] eqn:H; [|exact I]. cbn. unfold handle_majority_promises, take_max_promise_sync in H. cbn zeta in H. cbn [s_ls set_ls s_is] in H.
  apply bind_inv in H. destruct H as ([is acc] & _ & H).
  match type of H with (let '(_, _) := ?e in _) = _ => assert (X : lamok (fst e) /\ s_pid (fst e) = s_pid s); [|destruct e as [s1 acc1]] end.
  { destruct (accepted_reconfiguration _); [split; [exact L|reflexivity]|]. cbn [s_bprops set_is set_ls]. destruct (s_bprops s); cbn [s_bss set_is set_ls set_bprops append_entries_without_batching].
    - destruct (s_bss s); (split; [exact L|reflexivity]).
    - cbn. destruct (s_bss s); (split; [exact L|reflexivity]). }
  cbn [fst] in X. destruct X as [X1 X2]. apply lift_bind in H. destruct H as (ls & _ & H). apply lift_bind in H. destruct H as (ps & _ & H).
  set (s2 := set_ls _ _) in H. assert (F : Fx s2 s2) by (split; [repeat split; auto|right; reflexivity]).
  pose proof (for_each_x s2 send_accsync ps (fun s p => send_accsync_x s2 s p) s2 F) as Y. rewrite H in Y. destruct Y as [(A & B & C & D & Q & R) _].
  right. split; [exact R|]. split; [rewrite Q; cbn; congruence|]. right. right. left. split; [exact A|right; exact B].
Qed.
Lemma sync_acc s n d sy s' a : sync_log s n d sy = Ok (s', a) -> a = i_acc s'.
Proof.
  unfold sync_log, ilift, ipanic. destruct sy as [sy|].
  2: { match goal with |- context [ms_write ?a ?b] => destruct (ms_write a b) eqn:Hw end; cbn; [|discriminate]. intros X. injection X as <- <-. reflexivity. }
  destruct (sy_snap sy) as [[c|dl]|]; cbn [bind].
  2: destruct (create_decided_snapshot _); [|discriminate|discriminate]; destruct (s_merge _ _); [|discriminate]; cbn [bind].
  all: unfold i_ss; cbn [i_ca set_ca c_ss c_set_acc]; destruct (sy_ss sy); [|destruct (c_ss _)]; cbn [i_st i_tr set_ca bind];
    (match goal with |- context [ms_write ?a ?b] => destruct (ms_write a b) eqn:Hw end; cbn; [|discriminate]; intros X; injection X as <- <-; reflexivity).
Qed.
Lemma fx_refl s : lamok s -> Fx s s.
Proof. intros H. split; [repeat split; auto|right; reflexivity]. Qed.
Lemma cmp_round a b : bcmp a b = Eq -> same_round b a.
Proof. intros H. pose proof (bcmp_spec a b) as X. rewrite H in X. destruct X as (A & B & C). split; [|split]; auto. Qed.

Lemma acceptsync_a s n sq d sy from : lamok s -> aok s (handle_acceptsync s n sq d sy from).
Proof.
  intros L. unfold handle_acceptsync. pose proof (cvb_x s s n (fx_refl s L)) as X. destruct (check_valid_ballot s n) as [s1 v]. destruct X as [X1 X2]. destruct v; [|apply recov_after; exact X1]. destruct (X2 eq_refl) as [-> X3]. cbn [andb].
  destruct (role_eqb _ _ && _); [|apply recov_after; exact X1]. cbn zeta. destruct (sync_log _ _ _ _) as [[is acc]|] eqn:Es; [|exact I]. cbn [bind].
  pose proof (sync_acc _ _ _ _ _ _ Es) as Ha. destruct (sync_prom _ _ _ _ _ _ Es) as [Hp _]. cbn in Hp. set (s2 := set_is (set_cprom s None) is).
  assert (Y : s_pid (match i_ss (s_is s2) with None => forward_buffered_proposals s2 | Some _ => s2 end) = s_pid s /\ s_is (match i_ss (s_is s2) with None => forward_buffered_proposals s2 | Some _ => s2 end) = is).
  { destruct (i_ss (s_is s2)); [auto|]. unfold forward_buffered_proposals. destruct (s_bprops s2); [auto|]. unfold forward_proposals. destruct (_ && _); auto. }
  destruct Y as [Y1 Y2]. set (s3 := match i_ss (s_is s2) with None => _ | Some _ => _ end) in *. right. split; [|split; [exact Y1|]].
  - intros x i Hi. cbn in Hi. injection Hi as <- <-. exists from, acc. cbn. rewrite nth_error_app2, Nat.sub_diag; [rewrite Y1; reflexivity|lia].
  - right. right. right. split; [reflexivity|]. split; [reflexivity|]. exists n, from. cbn. rewrite Y2. split; [rewrite Hp; apply cmp_round; exact X3|]. rewrite <- Ha. apply in_or_app. right. left. reflexivity.
Qed.
Lemma aegai_ans i es i' r : append_entries_and_get_accepted_idx i es = (i', r) -> i_prom i' = i_prom i /\ match r with Some a => a = i_acc i' | None => i_acc i' = i_acc i end.
Proof. unfold append_entries_and_get_accepted_idx, cache_append_entries, take_entries_if_batch_is_full. destruct (_ <=? _); cbn; intros X; injection X as <- <-; auto. Qed.
Lemma acceptdecide_a s n sq d es : lamok s -> aok s (handle_acceptdecide s n sq d es).
Proof.
  intros L. unfold handle_acceptdecide. pose proof (cvb_x s s n (fx_refl s L)) as X. destruct (check_valid_ballot s n) as [s1 v]. destruct X as [X1 X2]. destruct v; [|apply recov_after; exact X1]. destruct (X2 eq_refl) as [-> X3]. cbn [andb].
  destruct (role_eqb _ _ && _); [|apply recov_after; exact X1]. pose proof (seqnum_x s s sq (b_pid n) (fx_refl s L)) as Y. destruct (handle_sequence_num _ _ _) as [s2 st]. destruct Y as [Y1 Y2].
  destruct st; try (apply recov_after; exact Y1). rewrite (Y2 eq_refl). clear Y1 Y2 s2. destruct (append_entries_and_get_accepted_idx _ _) as [is r1] eqn:Ea. destruct (aegai_ans _ _ _ _ Ea) as [A1 A2]. cbn [s_is set_cseq] in A1, A2. cbn zeta.
  assert (B : base s (set_is (set_cseq s sq) is)) by (repeat split; auto). pose proof (update_decided_x s _ d B) as Z. destruct (update_decided _ _) as [s3 r2]. destruct Z as [Z1 Z2]. apply rok_aok.
  assert (R : same_round n (i_prom (s_is s3))). { destruct Z1 as (_ & _ & _ & Z1 & _). rewrite Z1. apply cmp_round. exact X3. }
  destruct r2 as [a2|]; [apply reply_x; auto|]. cbn [s_is set_is] in Z2. destruct r1 as [a1|].
  - apply reply_x; auto. congruence.
  - split; [exact Z1|]. left. right. congruence.
Qed.
Lemma decide_a s n sq d : lamok s -> aok s (handle_decide s n sq d).
Proof.
  intros L. unfold handle_decide. pose proof (cvb_x s s n (fx_refl s L)) as X. destruct (check_valid_ballot s n) as [s1 v]. destruct X as [X1 X2]. destruct v; [|apply recov_after; exact X1]. destruct (X2 eq_refl) as [-> X3]. cbn [andb].
  destruct (phase_eqb _ _); [|apply recov_after; exact X1]. pose proof (seqnum_x s s sq (b_pid n) (fx_refl s L)) as Y. destruct (handle_sequence_num _ _ _) as [s2 st]. destruct Y as [Y1 Y2].
  destruct st; try (apply recov_after; exact Y1). rewrite (Y2 eq_refl). clear Y1 Y2 s2.
  assert (B : base s (set_cseq s sq)) by (repeat split; auto). pose proof (update_decided_x s _ d B) as Z. destruct (update_decided _ _) as [s3 r2]. destruct Z as [Z1 Z2]. apply rok_aok.
  assert (R : same_round n (i_prom (s_is s3))). { destruct Z1 as (_ & _ & _ & Z1 & _). rewrite Z1. apply cmp_round. exact X3. }
  destruct r2 as [a2|]; [apply reply_x; auto|]. split; [exact Z1|]. left. right. exact Z2.
Qed.
Lemma stopsign_a s n sq ss : lamok s -> aok s (handle_accept_stopsign s n sq ss).
Proof.
  intros L. unfold handle_accept_stopsign. pose proof (cvb_x s s n (fx_refl s L)) as X. destruct (check_valid_ballot s n) as [s1 v]. destruct X as [X1 X2]. destruct v; [|apply recov_after; exact X1]. destruct (X2 eq_refl) as [-> X3]. cbn [andb].
  destruct (role_eqb _ _ && _); [|apply recov_after; exact X1]. pose proof (seqnum_x s s sq (b_pid n) (fx_refl s L)) as Y. destruct (handle_sequence_num _ _ _) as [s2 st]. destruct Y as [Y1 Y2].
  destruct st; try (apply recov_after; exact Y1). rewrite (Y2 eq_refl). clear Y1 Y2 s2. cbn zeta. destruct (i_set_stopsign _ _) as [[is a]|] eqn:Ei; [|exact I]. cbn [bind].
  assert (A : i_prom is = i_prom (s_is s) /\ a = i_acc is). { unfold i_set_stopsign in Ei. cbn [s_is set_is set_cseq flush_batch take_batched_entries append_entries_without_batching fst] in Ei. destruct (c_ss _); cbn in Ei; injection Ei as <- <-; auto. }
  destruct A as [A1 A2]. apply rok_aok, reply_x; [|exact A2|repeat split; auto]. cbn. rewrite A1. apply cmp_round. exact X3.
Qed.
Lemma prepare_a s n d na a from : lamok s -> aok s (handle_prepare s n d na a from).
Proof.
  intros L. unfold handle_prepare. destruct (_ || _); [|apply fx_after, fx_refl, L]. cbn zeta. match goal with |- aok s (bind ?r _) => destruct r as [sy|]; [|exact I] end. cbn [bind]. right.
  split; [|split; [reflexivity|]].
  - apply lamok_push. exact L.
  - right. left. split; [reflexivity|]. split; [reflexivity|]. eexists. split; reflexivity.
Qed.
Lemma handle_leader_a s n : b_pid n = s_pid s -> lamok s -> aok s (handle_leader s n).
Proof.
  intros Hn L. unfold handle_leader. destruct (_ || _); [apply fx_after, fx_refl, L|]. rewrite Hn, Nat.eqb_refl. cbn zeta. destruct (ls_set_promise _ _ _ _) as [[ls x]|]; [|exact I]. cbn [lift bind]. rewrite push_all_f.
  right. split; [|split; [reflexivity|right; right; left; split; [reflexivity|left; reflexivity]]].
  intros b i Hi. cbn in Hi. destruct (L b i Hi) as (to & k & X). exists to, k. cbn. apply nth_app_l. exact X.
Qed.

Lemma handle_a s m : lamok s -> aok s (sp_handle s m).
Proof.
  intros L. pose proof (fx_refl s L) as F.
  unfold sp_handle. destruct (pm_msg m) as [n|n d na a|pr|n sq d sy|n sq d es|n a|n|n sq d|es|c|n sq ss|ss].
  - apply xok_aok. unfold handle_preparereq. destruct (_ && _); [|exact F]. apply lift_x. intros l1 _. apply lift_x. intros l2 _. apply push_x. exact F.
  - apply prepare_a; exact L.
  - destruct (s_role s), (s_phase s); try (apply fx_after; exact F).
    + unfold handle_promise_prepare. destruct (beq _ _); [|apply fx_after; exact F]. destruct (ls_set_promise _ _ _ _) as [[ls maj]|]; [|exact I]. cbn [lift bind]. destruct maj; [|apply fx_after; exact F]. apply majority_a; [exact L|reflexivity].
    + apply xok_aok. unfold handle_promise_accept. destruct (beq _ _); [|exact F]. apply lift_x. intros [ls x] _. apply send_accsync_x. exact F.
  - apply acceptsync_a; exact L.
  - apply acceptdecide_a; exact L.
  - apply xok_aok. unfold handle_accepted. destruct (_ && _); [|exact F]. apply lift_x. intros l1 _. cbn zeta. destruct (_ && _); [|exact F]. apply lift_x. intros ps _. apply for_each_x; [intros; apply accepted_to_x; auto|]. apply is_x; [reflexivity|right; reflexivity|exact F].
  - apply xok_aok. unfold handle_notaccepted. destruct (_ && _); [|exact F]. apply lift_x. intros l1 _. exact F.
  - apply decide_a; exact L.
  - apply xok_aok. unfold handle_forwarded_proposal. destruct (accepted_reconfiguration s); [exact F|]. destruct (s_role s) eqn:Hr, (s_phase s); try (apply forward_x; exact F); [exact F|apply accept_entries_x; auto].
  - apply xok_aok. unfold handle_compaction. destruct c as [k|i].
    + destruct (try_trim _ _) as [[is r]|] eqn:Et; [|exact I]. cbn. apply is_x; [apply (trim_prom _ _ _ _ Et)|right; apply (try_trim_acc _ _ _ _ Et)|exact F].
    + pose proof (snapshot_x s s i true F) as X. destruct (sp_snapshot s i true) as [[s1 r]|]; [exact X|exact I].
  - apply stopsign_a; exact L.
  - apply xok_aok. unfold handle_forwarded_stopsign. destruct (accepted_reconfiguration s); [exact F|]. destruct (s_role s) eqn:Hr, (s_phase s); try (apply forward_ss_x; exact F); [exact F|apply accept_ss_x; auto].
Qed.
Lemma resend_a s : lamok s -> match resend_message_timeout s with Ok s' => recov s s' | Panic _ => True end.
Proof.
  intros L. pose proof (fx_refl s L) as F. unfold resend_message_timeout. destruct (s_role s) eqn:Hr.
  - unfold resend_messages_follower, send_preparereq_to_all_peers. destruct (s_phase s); try (left; exact F).
    + destruct (s_cprom s); [left; apply push_x; exact F|]. right. rewrite push_all_f. split; [|auto]. intros b i Hi. cbn in Hi. destruct (L b i Hi) as (to & k & X). exists to, k. cbn. apply nth_app_l. exact X.
    + left. apply push_all_x. exact F.
  - pose proof (resend_leader_x s s F) as X. destruct (resend_messages_leader s); [left; exact X|exact I].
Qed.

(** The own ballot of the election. *)
Definition owned (o : omni) : Prop := e_pid (o_ble o) = own_pid o /\ b_pid (own_ballot o) = own_pid o.

(** ** One tick *)
Lemma tick3 o o' : tick o = Ok o' -> exists s1 s2,
  (if due (o_eclk o) then
     let '(b, r) := hb_timeout (o_ble o) (s_role (o_sp o), s_phase (o_sp o)) (sp_promise (o_sp o)) in
     o_ble o' = b /\ match r with Some n => handle_leader (o_sp o) n = Ok s1 | None => s1 = o_sp o end
   else o_ble o' = o_ble o /\ s1 = o_sp o) /\
  (if due (o_rclk o) then resend_message_timeout s1 = Ok s2 else s2 = s1) /\
  (if due (o_fclk o) then flush_batch_timeout s2 = Ok (o_sp o') else o_sp o' = s2).
Proof.
  unfold tick. pose proof (clock_due (o_eclk o)) as Hd. destruct (clock_tick (o_eclk o)) as [ec f1]. cbn [snd] in Hd. subst f1. cbn zeta.
  intros H. apply bind_inv in H. destruct H as (o1 & H1 & H).
  assert (C1 : o_rclk o1 = o_rclk o /\ o_fclk o1 = o_fclk o).
  { destruct (due (o_eclk o)); [|injection H1 as <-; auto]. unfold election_timeout in H1. cbn [o_sp o_ble] in H1. destruct (hb_timeout _ _ _) as [b [n|]]; [|injection H1 as <-; auto]. apply bind_inv in H1. destruct H1 as (s & _ & H1). injection H1 as <-. auto. }
  destruct C1 as [C1 C2]. pose proof (clock_due (o_rclk o1)) as Hd. destruct (clock_tick (o_rclk o1)) as [rc f2]. cbn [snd] in Hd. subst f2. cbn [o_sp o_ble o_eclk o_rclk o_fclk] in H.
  apply bind_inv in H. destruct H as (o2 & H2 & H).
  assert (C3 : o_fclk o2 = o_fclk o1 /\ o_ble o2 = o_ble o1). { destruct (due (o_rclk o1)); [|injection H2 as <-; auto]. apply bind_inv in H2. destruct H2 as (s & _ & H2). injection H2 as <-. auto. }
  destruct C3 as [C3 C4]. pose proof (clock_due (o_fclk o2)) as Hd. destruct (clock_tick (o_fclk o2)) as [fc f3]. cbn [snd] in Hd. subst f3. cbn [o_sp o_ble o_eclk o_rclk o_fclk] in H.
  rewrite C1 in H2. rewrite C3, C2 in H. exists (o_sp o1), (o_sp o2).
  assert (C5 : o_ble o' = o_ble o2 /\ (if due (o_fclk o) then flush_batch_timeout (o_sp o2) = Ok (o_sp o') else o_sp o' = o_sp o2)).
  { destruct (due (o_fclk o)); [|injection H as <-; auto]. apply bind_inv in H. destruct H as (s & Hs & H). injection H as <-. auto. }
  destruct C5 as [C5 C6]. split; [|split; [|exact C6]].
  - destruct (due (o_eclk o)).
    + unfold election_timeout in H1. cbn [o_sp o_ble] in H1. destruct (hb_timeout _ _ _) as [b [n|]].
      * apply bind_inv in H1. destruct H1 as (s & Hs & H1). injection H1 as <-. cbn in *. split; [congruence|exact Hs].
      * injection H1 as <-. cbn in *. split; [congruence|reflexivity].
    + injection H1 as <-. cbn in *. split; [congruence|reflexivity].
  - destruct (due (o_rclk o)); [|injection H2 as <-; reflexivity]. apply bind_inv in H2. destruct H2 as (s & Hs & H2). injection H2 as <-. exact Hs.
Qed.

Lemma fx_trans a b c : Fx a b -> Fx b c -> Fx a c.
Proof.
  intros [(A1 & A2 & A3 & A4 & A5 & A6) A] [(B1 & B2 & B3 & B4 & B5 & B6) B]. split; [|destruct A as [A|A]; [left; exact A|destruct B as [B|B]; [left; congruence|right; congruence]]].
  do 5 (split; [congruence|]). exact B6.
Qed.
Lemma hb_owned b st prom : e_pid (fst (hb_timeout b st prom)) = e_pid b /\ (b_pid (e_ballot b) = e_pid b -> b_pid (e_ballot (fst (hb_timeout b st prom))) = e_pid b /\ forall n, snd (hb_timeout b st prom) = Some n -> n = e_ballot (fst (hb_timeout b st prom))).
Proof.
  set (b1 := check_takeover (update_happiness (update_leader b) st)).
  assert (H1 : e_pid b1 = e_pid b /\ (b_pid (e_ballot b) = e_pid b -> b_pid (e_ballot b1) = e_pid b)).
  { unfold b1, check_takeover, update_happiness, update_leader. cbn zeta. destruct (max_ballot _) as [m|]; [destruct (bgt m _)|]; (destruct (negb _); [destruct (_ && _)|]; cbn; auto). }
  destruct H1 as [H1 H2]. unfold hb_timeout. fold b1. destruct (bgt prom _); cbn [fst snd].
  - destruct (Nat.eqb_spec (b_pid prom) (e_pid (e_set_leader (new_hb_round b1) prom))) as [Hp|Hp]; (split; [exact H1|]; intros H; split).
    + cbn in *. congruence.
    + intros n. destruct (beq _ _); [|discriminate]. intros X. injection X as <-. reflexivity.
    + apply (H2 H).
    + intros n. destruct (beq _ _); [|discriminate]. intros X. injection X as <-. reflexivity.
  - split; [exact H1|]. intros H. split; [apply (H2 H)|]. intros n. destruct (beq _ _); [|discriminate]. intros X. injection X as <-. reflexivity.
Qed.
Lemma owned_exec o c o' r : Framed o -> owned o -> exec o c = Ok (o', r) -> owned o'.
Proof.
  intros HF [H1 H2] He. destruct (framed_exec _ _ _ _ HF He) as (_ & Hp & _). apply exec_ble in He. unfold owned, own_pid, own_ballot in *. rewrite Hp.
  destruct c as [e|cc0 meta| |i|i l|q| |q|[m|m]]; try (rewrite He; auto; fail).
  - destruct (due _); [|rewrite He; auto]. rewrite He. destruct (hb_owned (o_ble o) (role_of o) (get_promise o)) as [A B]. rewrite A. split; [exact H1|]. rewrite (proj1 (B (eq_trans H2 (eq_sym H1)))). exact H1.
  - rewrite He. unfold ble_handle, handle_request, handle_reply. destruct (bm_msg m); [auto|]. destruct (_ && _); auto.
Qed.
Lemma owned_build cc sc st o : build cc sc st = BOk o -> owned o.
Proof.
  unfold build. destruct (config_validate cc sc); [|discriminate]. unfold sp_with. destruct (peers_of cc (sc_pid sc)); [discriminate|]. unfold ble_with.
  destruct (ms_prom st) as [b|]; [destruct (negb (beq b bdef))|]; intros X; injection X as <-; split; reflexivity.
Qed.

(** The call of [handle_leader] in a tick. *)
Lemma election_own o s1 : owned o -> (if due (o_eclk o) then
     let '(b, r) := hb_timeout (o_ble o) (role_of o) (get_promise o) in match r with Some n => handle_leader (o_sp (start_call o)) n = Ok s1 | None => s1 = o_sp (start_call o) end
   else s1 = o_sp (start_call o)) -> s1 = o_sp (start_call o) \/ exists n, b_pid n = own_pid o /\ handle_leader (o_sp (start_call o)) n = Ok s1.
Proof.
  intros [H1 H2] H. destruct (due _); [|left; exact H]. destruct (hb_owned (o_ble o) (role_of o) (get_promise o)) as [_ B]. specialize (B (eq_trans H2 (eq_sym H1))). destruct B as [B1 B2].
  destruct (hb_timeout _ _ _) as [b [n|]]; [|left; exact H]. right. exists n. split; [|exact H]. cbn [fst snd] in *. rewrite (B2 n eq_refl), B1. exact H1.
Qed.
Lemma leader_cases s n s' : b_pid n = s_pid s -> lamok s -> handle_leader s n = Ok s' -> s' = s \/ (lamok s' /\ s_pid s' = s_pid s /\ s_role s' = Leader /\ s_phase s' = PhPrepare /\ ble n (l_n (s_ls s)) = false /\ ble n (i_prom (s_is s)) = false).
Proof.
  intros Hn L H. unfold handle_leader in H. destruct (ble n (l_n _) || ble n _) eqn:Hb; [injection H as <-; left; reflexivity|]. apply orb_false_iff in Hb. destruct Hb as [Hb1 Hb2]. rewrite Hn, Nat.eqb_refl in H. cbn zeta in H.
  apply lift_bind in H. destruct H as ([ls x] & _ & H). injection H as <-. right. rewrite push_all_f. split; [|auto]. intros b i Hi. cbn in Hi. destruct (L b i Hi) as (to & k & X). exists to, k. cbn. apply nth_app_l. exact X.
Qed.
Lemma tick_after o o' : owned o -> lamok (o_sp (start_call o)) -> tick (start_call o) = Ok o' -> After (o_sp (start_call o)) (o_sp o').
Proof.
  intros Ho L H. apply tick3 in H. destruct H as (s1 & s2 & H1 & H2 & H3). set (s0 := o_sp (start_call o)) in *.
  change (o_eclk (start_call o)) with (o_eclk o) in H1. change (o_ble (start_call o)) with (o_ble o) in H1. change (s_role s0, s_phase s0) with (role_of o) in H1. change (sp_promise s0) with (get_promise o) in H1.
  assert (E1 : s1 = s0 \/ exists n, b_pid n = own_pid o /\ handle_leader s0 n = Ok s1).
  { apply election_own; [exact Ho|]. destruct (due (o_eclk o)); [|apply H1]. destruct (hb_timeout _ _ _) as [b r]. apply H1. }
  assert (E2 : Fx s0 s1 \/ (lamok s1 /\ s_pid s1 = s_pid s0 /\ s_role s1 = Leader /\ s_phase s1 = PhPrepare)).
  { destruct E1 as [->|(n & E1 & E2)]; [left; apply fx_refl; exact L|]. destruct (leader_cases s0 _ _ E1 L E2) as [->|(A & B & C & D & _)]; [left; apply fx_refl; exact L|right; auto]. }
  assert (L1 : lamok s1) by (destruct E2 as [[(_ & _ & _ & _ & _ & X) _]|(X & _)]; exact X).
  assert (E3 : recov s1 s2). { destruct (due (o_rclk (start_call o))); [|subst s2; left; apply fx_refl; exact L1]. pose proof (resend_a s1 L1) as X. rewrite H2 in X. exact X. }
  assert (Fl : s_phase s2 <> PhAccept -> o_sp o' = s2). { intros N. destruct (due (o_fclk (start_call o))); [|exact H3]. unfold flush_batch_timeout in H3. destruct (s_role s2), (s_phase s2); try congruence. }
  destruct E3 as [E3|(R1 & R2 & R3 & R4)].
  - destruct E2 as [E2|(P1 & P2 & P3 & P4)].
    + assert (F : Fx s0 s2) by (eapply fx_trans; eauto). destruct (due (o_fclk (start_call o))); [|rewrite H3; apply fx_after; exact F]. pose proof (flush_x s0 s2 F) as X. rewrite H3 in X. left. exact X.
    + destruct E3 as [(A1 & A2 & A3 & A4 & A5 & A6) _]. rewrite Fl by congruence. right. split; [exact A6|]. split; [congruence|]. right. right. left. split; [congruence|left; congruence].
  - rewrite Fl by congruence. right. split; [exact R1|]. split; [|left; auto]. rewrite R2. destruct E2 as [[(_ & _ & _ & _ & X & _) _]|(_ & X & _)]; exact X.
Qed.
Lemma exec_after o c o' r : owned o -> lamok (o_sp o) -> exec o c = Ok (o', r) -> After (o_sp (start_call o)) (o_sp o').
Proof.
  intros Ho L He. assert (L0 : lamok (o_sp (start_call o))) by exact L. pose proof (fx_refl _ L0) as F. unfold exec in He. destruct c as [e|c m|  |i|i l|p| |p|m]; cbn [exec_call] in He.
  - pose proof (append_x _ _ e F) as X. destruct (sp_append _ e) as [[s1 x]|]; [|discriminate]. injection He as <- _. apply fx_after. exact X.
  - unfold reconfigure in He. destruct (cluster_validate c); [|injection He as <- _; apply fx_after; exact F]. pose proof (reconfigure_x _ _ c m F) as X. destruct (sp_reconfigure _ c m) as [[s1 x]|]; [|discriminate]. injection He as <- _. apply fx_after. exact X.
  - destruct (tick _) as [o1|] eqn:Ht; [|discriminate]. injection He as <- _. apply tick_after; auto.
  - pose proof (trim_x _ _ i F) as X. destruct (sp_trim _ i) as [[s1 x]|]; [|discriminate]. injection He as <- _. apply fx_after. exact X.
  - pose proof (snapshot_x _ _ i l F) as X. destruct (sp_snapshot _ i l) as [[s1 x]|]; [|discriminate]. injection He as <- _. apply fx_after. exact X.
  - injection He as <- _. apply recov_after, reconnected_x, F.
  - unfold try_become_leader in He. cbn zeta in He. pose proof (handle_leader_a (o_sp (start_call o)) (set_n (e_ballot (o_ble (start_call o))) (b_n (sp_promise (o_sp (start_call o))) + 1)) (proj2 Ho) L0) as X.
    destruct (handle_leader _ _) as [s1|]; [|discriminate]. injection He as <- _. exact X.
  - injection He as <- _. apply fx_after. exact F.
  - unfold handle_incoming in He. destruct m as [m|b]; [|injection He as <- _; apply fx_after; exact F]. pose proof (handle_a (o_sp (start_call o)) m L0) as X. destruct (sp_handle _ m) as [s1|]; [|discriminate]. injection He as <- _. exact X.
Qed.

(** ** In every state of a server *)
Definition Jx (s : sp) : Prop := (s_role s = Follower -> s_phase s = PhPrepare -> good_wait s) /\ (s_role s = Leader -> s_phase s = PhPrepare \/ s_phase s = PhAccept).
Lemma after_lam s0 s : After s0 s -> lamok s.
Proof. intros [[(_ & _ & _ & _ & _ & X) _]|(X & _)]; exact X. Qed.
Lemma after_j s0 s : Jx s0 -> After s0 s -> Jx s.
Proof.
  intros [J1 J2] [[(A & B & C & D & P & L) _]|(L & P & M)].
  - split; rewrite A, B; [|exact J2]. intros X Y. destruct (J1 X Y) as (p & Z1 & Z2). exists p. split; congruence.
  - destruct M as [(M1 & M2)|[(M1 & M2 & M3)|[(M1 & M2)|(M1 & M2 & M3)]]]; split; intros X; rewrite M1 in X; try discriminate; try (rewrite M2; discriminate); auto.
Qed.
Lemma answer_state o : server_state o -> owned o /\ lamok (o_sp o) /\ Jx (o_sp o).
Proof.
  intros (cc & sc & o0 & Hb & Hl).
  assert (B : forall cc sc st o, build cc sc st = BOk o -> owned o /\ lamok (o_sp o) /\ Jx (o_sp o)).
  { intros cc1 sc1 st o1 Hx. split; [eapply owned_build; eauto|]. clear - Hx. unfold build in Hx. destruct (config_validate cc1 sc1); [|discriminate]. unfold sp_with in Hx. destruct (peers_of cc1 (sc_pid sc1)); [discriminate|].
    destruct (ms_prom st); injection Hx as <-; (split; [intros x i Hi; discriminate|split; intros; discriminate]). }
  assert (H0 := B _ _ _ _ Hb). assert (F0 : Framed o0) by (eapply build_f; eauto). clear Hb.
  assert (X : Framed o /\ owned o /\ lamok (o_sp o) /\ Jx (o_sp o)); [|apply X].
  induction Hl as [|o o1 o2 Hl IH Hs]; [auto|]. destruct (IH H0 F0) as (I0 & I1 & I2 & I3). destruct Hs as [o1 c o' r He|o1 buf o' l Ht|o1 c st cc1 sc1 o' Hin Hb].
  - pose proof (exec_after _ _ _ _ I1 I2 He) as X. split; [apply (framed_exec _ _ _ _ I0 He)|]. split; [eapply owned_exec; eauto|]. split; [eapply after_lam; eauto|]. eapply after_j; [|exact X]. exact I3.
  - split; [eapply framed_take; eauto|]. unfold take_outgoing_messages, sp_take_outgoing in Ht. destruct buf; injection Ht as <- _; (split; [exact I1|]; split; [intros x i Hi; discriminate|exact I3]).
  - split; [eapply build_f; eauto|]. eapply B; eauto.
Qed.

(** C55.  A follower does not accept silently: after a call that makes a server a follower in the accept phase, or raises the
    accepted index of one, an answer with the accepted index of the server and the round of its promise is in its queue. *)
Theorem C55_followers_acknowledge_what_they_accept :
  forall o c o' r, server_state o -> exec o c = Ok (o', r) -> role_of o' = (Follower, PhAccept) ->
  (role_of o = (Follower, PhAccept) /\ accepted_idx o' = accepted_idx o /\ get_promise o' = get_promise o) \/ acked o'.
Proof.
  intros o c o' r Hs He Hr. destruct (answer_state o Hs) as (H1 & H2 & H3). pose proof (exec_after _ _ _ _ H1 H2 He) as X. unfold role_of in *. injection Hr as R1 R2.
  assert (K : ackd (o_sp o') -> acked o') by (intros (b & to & K1 & K2); exists b, to; split; [exact K1|exact K2]).
  destruct X as [[(A & B & C & D & P & L) X]|(L & P & M)].
  - destruct X as [[X|X]|X]; [congruence| |right; apply K; exact X]. left. split; [|split; [exact X|exact D]]. change (s_role (o_sp (start_call o))) with (s_role (o_sp o)) in A. change (s_phase (o_sp (start_call o))) with (s_phase (o_sp o)) in B. congruence.
  - right. apply K. destruct M as [(M1 & M2)|[(M1 & M2 & M3)|[(M1 & M2)|(M1 & M2 & M3)]]]; congruence || exact M3.
Qed.

(** ** C53 *)

Lemma leader_log s n s' : handle_leader s n = Ok s' -> ble n (l_n (s_ls s)) = false -> ble n (i_prom (s_is s)) = false -> s_pid s = b_pid n ->
  ms_log (i_st (s_is s')) = ms_log (i_st (s_is s)) ++ c_batch (i_ca (s_is s)) /\ promised (i_st (s_is s')) = n /\ i_dec (s_is s') = i_dec (s_is s) /\ i_around (s_is s') = i_around (s_is s).
Proof.
  intros H H1 H2 H3. unfold handle_leader in H. rewrite H1, H2, H3, Nat.eqb_refl in H. cbn [orb] in H. cbn zeta in H. apply lift_bind in H. destruct H as ([ls b] & _ & X). injection X as <-. rewrite push_all_f. cbn. auto.
Qed.
Lemma coh_state o : server_state o -> coh5 (s_is (o_sp o)).
Proof. intros H. apply own_state in H. pose proof (il_coh _ _ _ (lc_is _ _ _ _ H)) as X. destruct X. constructor; auto. Qed.
Lemma leader_candidate o n s' o' : server_state o -> b_pid n = own_pid o -> handle_leader (o_sp (start_call o)) n = Ok s' -> ble n (leader_ballot o) = false -> ble n (get_promise o) = false ->
  s_is (o_sp o') = s_is s' -> s_role (o_sp o') = s_role s' -> s_phase (o_sp o') = s_phase s' -> l_n (s_ls (o_sp o')) = l_n (s_ls s') -> s_pid (o_sp o') = s_pid s' -> incl (s_out s') (s_out (o_sp o')) ->
  candidate o n o'.
Proof.
  intros Hs Hn Hl H1 H2 E1 E2 E3 E4 E5 E6. set (s := o_sp (start_call o)) in *. destruct (leader_log s n s' Hl H1 H2 (eq_sym Hn)) as (G1 & G2 & G3 & G4). destruct (handle_leader_fwd s n s' Hl H1 H2 (eq_sym Hn)) as (F1 & F2 & F3 & F4 & _ & _ & _ & F8).
  pose proof (coh_state o Hs) as C. assert (P : s_pid s' = own_pid o).
  { unfold handle_leader in Hl. change (l_n (s_ls s)) with (leader_ballot o) in Hl. change (i_prom (s_is s)) with (get_promise o) in Hl. rewrite H1, H2, Hn in Hl. change (own_pid o) with (s_pid s) in Hl. rewrite Nat.eqb_refl in Hl. cbn [orb] in Hl. cbn zeta in Hl. apply lift_bind in Hl. destruct Hl as ([ls b] & _ & X). injection X as <-. rewrite push_all_f. reflexivity. }
  unfold candidate, role_of, leader_ballot, get_promise, storage, get_decided_idx, queued, peers, accepted_idx, outgoing, own_pid. rewrite E1, E2, E3, E4, E5, F1, F2, F3, F4, G1, G2, P.
  split; [reflexivity|]. split; [reflexivity|]. split; [reflexivity|]. split; [reflexivity|]. split; [exact Hn|]. split; [|split; [reflexivity|]].
  - unfold get_promise in H2. unfold blt. unfold ble in H2. pose proof (bcmp_spec n (i_prom (s_is (o_sp o)))) as X. pose proof (bcmp_spec (i_prom (s_is (o_sp o))) n) as Y. destruct (bcmp n _); try discriminate. destruct (bcmp _ n); auto; unfold bal_lt, bal_same in *; lia.
  - intros p Hp. apply E6. rewrite F8. apply in_or_app. right. apply in_map_iff. exists p. split; [|exact Hp]. rewrite G3, G4. change (s_pid s) with (own_pid o). unfold own_pid. f_equal. f_equal. apply (h_around _ C).
Qed.
Lemma leader_no_panic o n : server_state o -> b_pid n = own_pid o -> exists s', handle_leader (o_sp (start_call o)) n = Ok s'.
Proof.
  intros Hs Hn. destruct (state_fr o Hs) as [F Hp]. unfold handle_leader. destruct (_ || _); [eauto|]. destruct (_ =? _); [|eauto]. cbn zeta. unfold ls_set_promise. cbn [s_pid set_is set_ls s_ls start_call set_sp o_sp].
  match goal with |- context [vset ?l ?p ?x] => destruct (vset_some l p x) as [v Hv] end.
  { match goal with |- context [if ?b then _ else _] => destruct b end; cbn; rewrite repeat_length; exact Hp. }
  rewrite Hv. cbn. eauto.
Qed.

(** C53.  A server that is asked to take over does so: it promises its own next ballot and asks all others for their promise. *)
Theorem C53_try_become_leader_starts_a_prepare_phase :
  forall o, server_state o -> exists o' b, exec o CTryLeader = Ok (o', RUnit) /\ b_n b = b_n (get_promise o) + 1 /\ candidate o b o'.
Proof.
  intros o Hs. destruct (answer_state o Hs) as ((H1 & H2) & _). set (b := set_n (own_ballot o) (b_n (get_promise o) + 1)). assert (Hb : b_pid b = own_pid o) by exact H2.
  destruct (leader_no_panic o b Hs Hb) as (s' & Hl). exists (set_sp (start_call o) s'), b. split; [unfold exec, exec_call, try_become_leader; change (set_n (e_ballot (o_ble (start_call o))) (b_n (sp_promise (o_sp (start_call o))) + 1)) with b; rewrite Hl; reflexivity|].
  split; [reflexivity|].
  assert (G : ble b (get_promise o) = false). { unfold ble. pose proof (bcmp_spec b (get_promise o)) as X. destruct (bcmp b _); auto; unfold bal_lt, bal_same, b in X; cbn in X; lia. }
  assert (G2 : ble b (leader_ballot o) = false). { pose proof (lead_ballot_le o Hs) as X. destruct (ble b (leader_ballot o)) eqn:Y; auto. rewrite <- G. symmetry. eapply ble_tr; eauto. }
  apply (leader_candidate o b s'); auto. cbn. apply incl_refl.
Qed.

Lemma tick_three o o' : server_state o -> tick (start_call o) = Ok o' -> exists s1 s2,
  (s1 = o_sp (start_call o) \/ exists n, b_pid n = own_pid o /\ handle_leader (o_sp (start_call o)) n = Ok s1) /\
  (if due (o_rclk o) then resend_message_timeout s1 = Ok s2 else s2 = s1) /\ (if due (o_fclk o) then flush_batch_timeout s2 = Ok (o_sp o') else o_sp o' = s2).
Proof.
  intros Hs H. destruct (answer_state o Hs) as (Ho & _). apply tick3 in H. destruct H as (s1 & s2 & H1 & H2 & H3). exists s1, s2. split; [|split; [exact H2|exact H3]]. apply election_own; [exact Ho|].
  change (o_eclk (start_call o)) with (o_eclk o) in H1. change (o_ble (start_call o)) with (o_ble o) in H1. change (s_role (o_sp (start_call o)), s_phase (o_sp (start_call o))) with (role_of o) in H1. change (sp_promise (o_sp (start_call o))) with (get_promise o) in H1.
  destruct (due (o_eclk o)); [|apply H1]. destruct (hb_timeout _ _ _) as [b r]. apply H1.
Qed.
Lemma send_prepare_f l : forall s, fold_left send_prepare l s = set_out s (s_out s ++ map (fun q => mkPM (s_pid s) q (MPrepare (l_n (s_ls s)) (i_dec (s_is s)) (i_around (s_is s)) (i_acc (s_is s)))) l).
Proof.
  induction l as [|p l IH]; intros s; cbn [fold_left map].
  - rewrite app_nil_r. destruct s; reflexivity.
  - rewrite IH. cbn. rewrite <- app_assoc. reflexivity.
Qed.
(** The same when the election of the server ends a heartbeat round with its own ballot. *)
Theorem C53_elected_server_starts_a_prepare_phase :
  forall o o' r, server_state o -> exec o CTick = Ok (o', r) -> leader_ballot o' <> leader_ballot o -> candidate o (leader_ballot o') o'.
Proof.
  intros o o' r Hs He Hn. unfold exec in He. cbn [exec_call] in He. apply bind_inv in He. destruct He as (o1 & Ht & He). injection He as <- _. destruct (tick_three o o1 Hs Ht) as (s1 & s2 & H1 & H2 & H3).
  assert (K12 : keeps s1 s2). { destruct (due (o_rclk o)); [|subst s2; apply keeps_refl]. pose proof (resend_k s1) as X. rewrite H2 in X. exact X. }
  assert (K23 : keeps s2 (o_sp o1)). { destruct (due (o_fclk o)); [|rewrite H3; apply keeps_refl]. pose proof (flush_k s2) as X. rewrite H3 in X. exact X. }
  destruct H1 as [->|(n & N1 & N2)].
  { exfalso. apply Hn. destruct K12 as (_ & A & _), K23 as (_ & B & _). unfold leader_ballot. rewrite B, A. reflexivity. }
  destruct (answer_state o Hs) as (Ho & L & _). destruct (leader_cases (o_sp (start_call o)) n s1 N1 L N2) as [->|(C1 & C2 & C3 & C4 & C5 & C6)].
  { exfalso. apply Hn. destruct K12 as (_ & A & _), K23 as (_ & B & _). unfold leader_ballot. rewrite B, A. reflexivity. }
  pose proof (handle_leader_fwd _ _ _ N2 C5 C6 (eq_sym N1)) as (F1 & F2 & F3 & _).
  assert (Eo : o_sp o1 = s2). { destruct K12 as (_ & _ & A & B & _). destruct (due (o_fclk o)); [|exact H3]. unfold flush_batch_timeout in H3. rewrite A, (B F1), F1, F2 in H3. injection H3 as <-. reflexivity. }
  assert (S : s_is s2 = s_is s1 /\ incl (s_out s1) (s_out s2)).
  { destruct (due (o_rclk o)); [|subst s2; split; [reflexivity|apply incl_refl]]. unfold resend_message_timeout in H2. rewrite F1 in H2. unfold resend_messages_leader in H2. rewrite F2 in H2. apply lift_bind in H2. destruct H2 as (ps & _ & H2). injection H2 as <-. rewrite send_prepare_f. split; [reflexivity|]. cbn. apply incl_appl, incl_refl. }
  destruct S as [S1 S2]. destruct K12 as (_ & A & B & C & D). assert (L0 : leader_ballot o1 = n) by (unfold leader_ballot; rewrite Eo; congruence). rewrite L0.
  apply (leader_candidate o n s1); auto; rewrite Eo; auto.
Qed.

(** ** C54 *)

Definition lasting (m : pmsg) : Prop := match m with MAcceptDecide _ _ _ _ | MAccepted _ _ => False | _ => True end.
Definition same_else (f : pmsg -> pmsg) : Prop := forall m, lasting m -> f m = m.
Lemma mod_lasting s k f m : same_else f -> lasting (pm_msg m) -> In m (s_out s) -> In m (s_out (mod_accdec s k f)).
Proof.
  intros Hf Hm Hi. apply In_nth_error in Hi. destruct Hi as (i & Hi). destruct (mod_nth s k f i m Hi) as (m' & A & B & C & D). apply nth_error_In with i. rewrite A. f_equal. destruct m as [a b c], m' as [a' b' c']. cbn in *. subst a' b'. rewrite (Hf _ Hm) in D. destruct D; subst; reflexivity.
Qed.
Definition kept_by (s s' : sp) : Prop :=
  (forall m, lasting (pm_msg m) -> In m (s_out s) -> In m (s_out s')) /\ l_proms (s_ls s') = l_proms (s_ls s) /\ i_dec (s_is s') = i_dec (s_is s) /\ i_around (s_is s') = i_around (s_is s) /\ i_acc (s_is s) <= i_acc (s_is s') /\ s_phase s' = s_phase s /\
  s_pid s' = s_pid s /\ s_role s' = s_role s /\ l_n (s_ls s') = l_n (s_ls s) /\ i_prom (s_is s') = i_prom (s_is s).
Lemma kb_refl s : kept_by s s.
Proof. repeat split; auto. Qed.
Lemma kb_mod s0 s k f : same_else f -> kept_by s0 s -> kept_by s0 (mod_accdec s k f).
Proof. intros Hf (A & B). split; [intros m Hm Hi; apply mod_lasting; auto|]. rewrite mod_rest. exact B. Qed.
Lemma kb_push s0 s to m : kept_by s0 s -> kept_by s0 (push s to m).
Proof. intros (A & B). split; [|exact B]. intros x Hx Hi. cbn. apply in_or_app. left. auto. Qed.
Lemma kb_ls s0 s l : l_proms l = l_proms (s_ls s) -> l_n l = l_n (s_ls s) -> kept_by s0 s -> kept_by s0 (set_ls s l).
Proof. intros H1 H2 (A & B & C & D & F & G & H & I & J & K). unfold kept_by. cbn. rewrite H1, H2. repeat (split; [assumption|]). exact K. Qed.
Lemma kb_ad s0 s es s' : kept_by s0 s -> send_acceptdecide s es = Ok s' -> kept_by s0 s'.
Proof.
  intros H He. unfold send_acceptdecide in He. apply lift_bind in He. destruct He as (ps & _ & He). generalize dependent (i_dec (s_is s)). intros d He. revert s H He. induction ps as [|p ps IH]; cbn [for_each]; intros s H He; [injection He as <-; exact H|]. apply bind_inv in He. destruct He as (s1 & H1 & He). eapply IH; [|exact He].
  unfold send_acceptdecide_to in H1. apply lift_bind in H1. destruct H1 as ([k|] & _ & H1); [injection H1 as <-; apply kb_mod; [intros []; cbn; tauto|exact H]|]. apply lift_bind in H1. destruct H1 as (l1 & A1 & H1). apply lift_bind in H1. destruct H1 as ([l2 q] & A2 & H1). injection H1 as <-.
  apply kb_push. unfold set_latest_accept_meta in A1. destruct (vset _ _ _); [|discriminate]. injection A1 as <-. unfold next_seq_num in A2. cbn in A2. destruct (vget _ _); [|discriminate]. destruct (vset _ _ _); [|discriminate]. injection A2 as <- _. apply kb_ls; auto.
Qed.
Lemma flush_kept s s' : flush_batch_timeout s = Ok s' -> kept_by s s'.
Proof.
  unfold flush_batch_timeout. destruct (s_role s), (s_phase s) eqn:Hp; try (intros H; injection H as <-; apply kb_refl).
  - unfold flush_batch_follower. destruct (flush_batch (s_is s)) as [is a] eqn:Ef. assert (K : kept_by s (set_is s is)).
    { unfold flush_batch in Ef. cbn in Ef. injection Ef as <- _. split; [auto|]. split; [reflexivity|]. split; [reflexivity|]. split; [reflexivity|]. split; [|repeat split]. unfold i_acc. cbn. lia. }
    destruct (_ <? a); [|intros H; injection H as <-; exact K]. unfold reply_accepted. intros H. apply lift_bind in H. destruct H as ([k|] & _ & H); injection H as <-; [apply kb_mod; [intros []; cbn; tauto|exact K]|apply kb_push; exact K].
  - unfold flush_batch_leader. destruct (flush_batch_and_get_entries (s_is s)) as [is r] eqn:Ef. assert (K : kept_by s (set_is s is)).
    { unfold flush_batch_and_get_entries in Ef. destruct (c_batch (i_ca (s_is s))); cbn in Ef; injection Ef as <- _; (split; [auto|]; split; [reflexivity|]; split; [reflexivity|]; split; [reflexivity|]; split; [|repeat split]); unfold i_acc; cbn; lia. }
    destruct r as [[a es]|]; [|intros H; injection H as <-; exact K]. intros H. apply lift_bind in H. destruct H as (l & Hl & H). eapply kb_ad; [|exact H]. unfold set_accepted_idx in Hl. destruct (vset _ _ _); [|discriminate]. injection Hl as <-. apply kb_ls; auto.
Qed.
Lemma preparable_in l p : forall qs r, get_preparable_peers l qs = Some r -> In p qs -> vget (l_proms l) p = Some NotPromised -> In p r.
Proof.
  induction qs as [|q qs IH]; cbn; intros r H Hp Hn; [destruct Hp|]. destruct (vget (l_proms l) q) as [x|] eqn:Hq; [|discriminate]. destruct (get_preparable_peers l qs) as [t|]; [|destruct x; discriminate].
  destruct Hp as [->|Hp]; [rewrite Hn in Hq; injection Hq as <-; injection H as <-; left; reflexivity|]. specialize (IH _ eq_refl Hp Hn). destruct x; injection H as <-; auto. right. exact IH.
Qed.
Lemma vget_in {B} (l : list B) p x : 1 <= p -> nth_error l (p - 1) = Some x -> vget l p = Some x.
Proof. intros H H1. unfold vget, pid_to_idx, sub_chk. destruct (Nat.leb_spec 1 p); [exact H1|lia]. Qed.

Definition grows (s s' : sp) : Prop := exists l, s' = set_out s (s_out s ++ l).
Lemma grows_kb s s' : grows s s' -> kept_by s s'.
Proof. intros (l & ->). repeat split; auto. intros m _ H. cbn. apply in_or_app. auto. Qed.
Lemma grows_refl s : grows s s.
Proof. exists []. rewrite app_nil_r. destruct s; reflexivity. Qed.
Lemma grows_tr a b c : grows a b -> grows b c -> grows a c.
Proof. intros (l & ->) (k & ->). exists (l ++ k). cbn. rewrite app_assoc. reflexivity. Qed.
Lemma grows_in a b m : grows a b -> In m (s_out a) -> In m (s_out b).
Proof. intros (l & ->) H. cbn. apply in_or_app. auto. Qed.
Lemma ss_to_g ss d s p s' : resend_ss_to ss d s p = Ok s' -> grows s s' /\
  (if stopsign_is_decided (i_ca (s_is s)) then exists q, In (mkPM (s_pid s) p (MDecide (l_n (s_ls s)) q d)) (s_out s')
   else forall a, vget (l_accs (s_ls s)) p = Some a -> a <> i_acc (s_is s) -> exists q, In (mkPM (s_pid s) p (MAcceptStopSign (l_n (s_ls s)) q ss)) (s_out s')).
Proof.
  unfold resend_ss_to. destruct (stopsign_is_decided _).
  - unfold send_decide, get_seq_num. destruct (vget (l_seqs _) p) as [q|]; cbn; [|discriminate]. intros H. injection H as <-. split; [eexists; destruct s; reflexivity|]. exists q. cbn. apply in_or_app. right. left. reflexivity.
  - unfold ls_get_accepted_idx. destruct (vget (l_accs _) p) as [a|]; cbn; [|discriminate]. destruct (Nat.eqb_spec a (i_acc (s_is s))); [intros H; injection H as <-; split; [apply grows_refl|intros b Hb; injection Hb as <-; contradiction]|].
    unfold send_accept_stopsign, get_seq_num. destruct (vget (l_seqs _) p) as [q|]; cbn; [|discriminate]. intros H. injection H as <-. split; [eexists; destruct s; reflexivity|]. intros _ _ _. exists q. cbn. apply in_or_app. right. left. reflexivity.
Qed.
Lemma ss_all_g ss d ps : forall s s', for_each s ps (resend_ss_to ss d) = Ok s' -> grows s s' /\ forall p, In p ps ->
  (if stopsign_is_decided (i_ca (s_is s)) then exists q, In (mkPM (s_pid s) p (MDecide (l_n (s_ls s)) q d)) (s_out s')
   else forall a, vget (l_accs (s_ls s)) p = Some a -> a <> i_acc (s_is s) -> exists q, In (mkPM (s_pid s) p (MAcceptStopSign (l_n (s_ls s)) q ss)) (s_out s')).
Proof.
  induction ps as [|p ps IH]; cbn [for_each]; intros s s' H; [injection H as <-; split; [apply grows_refl|intros p []]|]. apply bind_inv in H. destruct H as (s1 & H1 & H). apply ss_to_g in H1. destruct H1 as [G1 H1]. specialize (IH _ _ H). destruct IH as [G2 H2]. split; [eapply grows_tr; eauto|].
  intros x [<-|Hx].
  - destruct (stopsign_is_decided (i_ca (s_is s))); [destruct H1 as (q & H1); exists q; eapply grows_in; eauto|]. intros a Ha Hn. destruct (H1 a Ha Hn) as (q & X). exists q. eapply grows_in; eauto.
  - specialize (H2 x Hx). destruct G1 as (l & ->). exact H2.
Qed.
Lemma resend_leader_g s s' : s_role s = Leader -> s_phase s = PhPrepare \/ s_phase s = PhAccept -> resend_message_timeout s = Ok s' -> grows s s' /\
  (forall p, In p (s_peers s) -> vget (l_proms (s_ls s)) p = Some NotPromised -> In (mkPM (s_pid s) p (MPrepare (l_n (s_ls s)) (i_dec (s_is s)) (i_around (s_is s)) (i_acc (s_is s)))) (s_out s')) /\
  (forall ss p m, s_phase s = PhAccept -> i_ss (s_is s) = Some ss -> p <> b_pid (l_n (s_ls s)) -> vget (l_proms (s_ls s)) p = Some (Promised m) ->
     if stopsign_is_decided (i_ca (s_is s)) then exists q, In (mkPM (s_pid s) p (MDecide (l_n (s_ls s)) q (i_dec (s_is s)))) (s_out s')
     else forall a, vget (l_accs (s_ls s)) p = Some a -> a <> i_acc (s_is s) -> exists q, In (mkPM (s_pid s) p (MAcceptStopSign (l_n (s_ls s)) q ss)) (s_out s')).
Proof.
  intros Hr Hp H. unfold resend_message_timeout in H. rewrite Hr in H. unfold resend_messages_leader in H.
  assert (P : forall x ps, get_preparable_peers (s_ls x) (s_peers x) = Some ps -> grows x (fold_left send_prepare ps x) /\ forall p, In p (s_peers x) -> vget (l_proms (s_ls x)) p = Some NotPromised -> In (mkPM (s_pid x) p (MPrepare (l_n (s_ls x)) (i_dec (s_is x)) (i_around (s_is x)) (i_acc (s_is x)))) (s_out (fold_left send_prepare ps x))).
  { intros x ps Hx. rewrite send_prepare_f. split; [eexists; reflexivity|]. intros p Hi Hn. cbn. apply in_or_app. right. apply in_map_iff. exists p. split; [reflexivity|]. eapply preparable_in; eauto. }
  destruct Hp as [Hp|Hp]; rewrite Hp in H.
  - apply lift_bind in H. destruct H as (ps & Hq & H). injection H as <-. destruct (P s ps Hq) as [G1 G2]. split; [exact G1|]. split; [exact G2|]. intros; congruence.
  - apply bind_inv in H. destruct H as (x & Hx & H). apply lift_bind in H. destruct H as (ps & Hq & H). injection H as <-. destruct (P x ps Hq) as [G1 G2].
    destruct (i_ss (s_is s)) as [ss|] eqn:Hss.
    + apply lift_bind in Hx. destruct Hx as (fs & Hf & Hx). apply ss_all_g in Hx. destruct Hx as [G3 G4]. split; [eapply grows_tr; eauto|]. split.
      * destruct G3 as (l & ->). exact G2.
      * intros ss' p m _ Hs Hn Hv. injection Hs as <-. assert (Hin : In p fs) by (destruct (LeadLinks.gpf_spec _ _ Hf) as [_ W]; apply W; split; [exact Hn|eauto]). specialize (G4 p Hin). destruct (stopsign_is_decided (i_ca (s_is s))); [destruct G4 as (q & X); exists q; eapply grows_in; eauto|].
        intros a Ha Hne. destruct (G4 a Ha Hne) as (q & X). exists q. eapply grows_in; eauto.
    + injection Hx as <-. split; [exact G1|]. split; [exact G2|]. intros; discriminate.
Qed.

Lemma resend_follower_g s s' : s_role s = Follower -> (s_phase s = PhPrepare -> good_wait s) -> resend_message_timeout s = Ok s' ->
  (s_phase s' = PhRecover -> forall p, In p (s_peers s) -> In (mkPM (s_pid s') p (MPrepareReq (i_prom (s_is s)))) (s_out s')) /\ i_prom (s_is s') = i_prom (s_is s) /\ s_pid s' = s_pid s /\
  (s_phase s' = PhPrepare -> exists pr, pr_n pr = i_prom (s_is s) /\ In (mkPM (s_pid s') (b_pid (i_prom (s_is s))) (MPromise pr)) (s_out s')).
Proof.
  intros Hr Hw H. unfold resend_message_timeout in H. rewrite Hr in H. unfold resend_messages_follower in H. destruct (s_phase s) eqn:Hp.
  - destruct (Hw eq_refl) as (pr & Q1 & Q2). rewrite Q1 in H. injection H as <-. cbn. split; [congruence|]. do 2 (split; [reflexivity|]). intros _. exists pr. split; [exact Q2|]. apply in_or_app. right. left. rewrite Q2. reflexivity.
  - injection H as <-. repeat split; congruence.
  - injection H as <-. unfold send_preparereq_to_all_peers. rewrite push_all_f. cbn. split; [|repeat split; congruence]. intros _ p Hi. apply in_or_app. right. apply in_map_iff. exists p. auto.
  - injection H as <-. repeat split; congruence.
Qed.
Lemma tick_resend o o' r : server_state o -> resend_due o -> exec o CTick = Ok (o', r) -> exists s1 s2,
  (s1 = o_sp (start_call o) \/ exists n, b_pid n = own_pid o /\ handle_leader (o_sp (start_call o)) n = Ok s1 /\ s_role s1 = Leader /\ s_phase s1 = PhPrepare /\ s_pid s1 = own_pid o /\ s_peers s1 = peers o) /\
  resend_message_timeout s1 = Ok s2 /\ kept_by s2 (o_sp o').
Proof.
  intros Hs Hd He. unfold exec in He. cbn [exec_call] in He. apply bind_inv in He. destruct He as (o1 & Ht & He). injection He as <- _. destruct (tick_three o o1 Hs Ht) as (s1 & s2 & H1 & H2 & H3).
  assert (D : due (o_rclk o) = true) by (apply Nat.eqb_eq, Hd). rewrite D in H2. destruct (answer_state o Hs) as (_ & L & _).
  assert (K : kept_by s2 (o_sp o1)) by (destruct (due (o_fclk o)); [apply flush_kept, H3|rewrite H3; apply kb_refl]).
  destruct H1 as [->|(n & N1 & N2)]; [exists (o_sp (start_call o)), s2; auto|].
  destruct (leader_cases (o_sp (start_call o)) n s1 N1 L N2) as [->|(C1 & C2 & C3 & C4 & C5 & C6)]; [exists (o_sp (start_call o)), s2; auto|]. exists s1, s2. split; [|auto]. right. exists n. do 5 (split; [assumption|]).
  unfold handle_leader in N2. rewrite C5, C6, N1 in N2. change (own_pid o) with (s_pid (o_sp (start_call o))) in N2. rewrite Nat.eqb_refl in N2. cbn [orb] in N2. cbn zeta in N2. apply lift_bind in N2. destruct N2 as ([ls b] & _ & X). injection X as <-. rewrite push_all_f. reflexivity.
Qed.

(** C54.  At its resend timeout a server repeats the request that it is waiting on: *)
Theorem C54_resend_timeout_asks_again :
  forall o o' r, server_state o -> resend_due o -> exec o CTick = Ok (o', r) ->
  (role_of o' = (Follower, PhRecover) -> forall p, In p (peers o) -> queued o' p (MPrepareReq (get_promise o'))) /\
  (role_of o' = (Follower, PhPrepare) -> exists pr, pr_n pr = get_promise o' /\ queued o' (b_pid (get_promise o')) (MPromise pr)) /\
  (fst (role_of o') = Leader -> forall p, In p (peers o) -> recorded_promise o' p NotPromised ->
     exists a, a <= accepted_idx o' /\ queued o' p (MPrepare (leader_ballot o') (get_decided_idx o') (accepted_round (storage o')) a)).
Proof.
  intros o o' r Hs Hd He. assert (Hs' : server_state o') by (eapply PropSnap.state_exec; eauto).
  destruct (tick_resend o o' r Hs Hd He) as (s1 & s2 & H1 & H2 & (Kq & Kp & Kd & Ka & Kc & Kf & Kpid & Kr & Kn & Kpr)). destruct (answer_state o Hs) as (_ & _ & J1 & J2).
  unfold role_of, queued, own_pid, outgoing, recorded_promise, leader_ballot, get_decided_idx, get_promise, accepted_idx. rewrite Kp, Kd, Kf, Kpid, Kr, Kn, Kpr.
  assert (F : s_role s2 = Follower -> s_role (o_sp o) = Follower /\ s1 = o_sp (start_call o)).
  { intros Hf. pose proof (resend_k s1) as X. rewrite H2 in X. destruct X as (_ & _ & X & _). destruct H1 as [->|(n & _ & _ & Y & _)]; [|congruence]. split; [|reflexivity]. cbn in X. congruence. }
  split; [|split].
  - intros Hr. injection Hr as Hr1 Hr2. destruct (F Hr1) as [F1 ->]. intros p Hp. apply Kq; [exact I|]. destruct (resend_follower_g (o_sp (start_call o)) s2 F1 (J1 F1) H2) as (R1 & R2 & _). rewrite R2. apply R1; auto.
  - intros Hr. injection Hr as Hr1 Hr2. destruct (F Hr1) as [F1 ->]. destruct (resend_follower_g (o_sp (start_call o)) s2 F1 (J1 F1) H2) as (_ & R2 & R3 & R1). destruct (R1 Hr2) as (pr & Q1 & Q2). exists pr. rewrite R2. split; [exact Q1|]. apply Kq; [exact I|]. exact Q2.
  - intros Hl p Hp [P1 P2]. assert (R1 : s_role s1 = Leader). { cbn in Hl. pose proof (resend_k s1) as X. rewrite H2 in X. destruct X as (_ & _ & X & _). congruence. }
    assert (R2 : s_phase s1 = PhPrepare \/ s_phase s1 = PhAccept). { destruct H1 as [->|(n & _ & _ & _ & Y & _)]; [apply J2; exact R1|left; exact Y]. }
    assert (R3 : s_peers s1 = s_peers (o_sp o)). { destruct H1 as [->|(n & _ & _ & _ & _ & _ & Y)]; [reflexivity|exact Y]. }
    destruct (resend_leader_g s1 s2 R1 R2 H2) as (G1 & G2 & _). exists (i_acc (s_is s2)). split; [exact Kc|]. apply Kq; [exact I|]. destruct G1 as (l & ->). unfold storage. pose proof (h_around _ (coh_state o' Hs')) as W. change (c_around (i_ca (s_is (o_sp o')))) with (i_around (s_is (o_sp o'))) in W. rewrite <- W, Ka. cbn [s_pid set_out s_ls s_is]. apply G2; [rewrite R3; exact Hp|]. apply vget_in; auto.
Qed.

(** ... and a leader that has appended a stop-sign repeats it, or the decision on it, to the servers that follow it. *)
Theorem C54_resend_timeout_repeats_the_stopsign :
  forall o o' r ss p m, server_state o -> resend_due o -> exec o CTick = Ok (o', r) -> role_of o' = (Leader, PhAccept) -> ms_ss (storage o) = Some ss ->
  p <> own_pid o -> recorded_promise o p (Promised m) ->
  match is_reconfigured o with
  | Some _ => exists q, queued o' p (MDecide (leader_ballot o') q (get_decided_idx o'))
  | None => forall a, nth_error (l_accs (s_ls (o_sp o))) (p - 1) = Some a -> a <> accepted_idx o -> exists q, queued o' p (MAcceptStopSign (leader_ballot o') q ss)
  end.
Proof.
  intros o o' r ss p m Hs Hd He Hr Hss Hp [P1 P2]. destruct (tick_resend o o' r Hs Hd He) as (s1 & s2 & H1 & H2 & (Kq & Kp & Kd & Ka & Kc & Kf & Kpid & Kr & Kn & Kpr)).
  injection Hr as Hr1 Hr2. pose proof (resend_k s1) as X. rewrite H2 in X. destruct X as (_ & _ & X & Y & _). assert (R1 : s_role s1 = Leader) by congruence. specialize (Y R1).
  destruct H1 as [->|(n & _ & _ & _ & Z & _)]; [|congruence]. assert (R2 : s_phase (o_sp o) = PhAccept) by (cbn in Y; congruence). destruct (resend_leader_g _ s2 R1 (or_intror R2) H2) as (G1 & _ & G2).
  pose proof (cache_ss o Hs) as Hc. change (i_ss (s_is (rest o))) with (i_ss (s_is (o_sp o))) in Hc. rewrite Hss in Hc. destruct (state_fr o Hs) as [FRR _]. pose proof (fr_ldr _ _ _ _ _ FRR R1) as Hl. specialize (G2 ss p m R2 Hc). cbn in Hl, G2. rewrite Hl in G2. specialize (G2 Hp (vget_in _ _ _ P1 P2)).
  unfold is_reconfigured, sp_is_reconfigured. rewrite Hc. unfold queued, own_pid, outgoing, leader_ballot, get_decided_idx. rewrite Kn, Kd, Kpid. destruct G1 as (l & ->). cbn [s_pid set_out s_ls s_is] in *.
  destruct (stopsign_is_decided (i_ca (s_is (o_sp o)))).
  - destruct G2 as (q & G2). exists q. apply Kq; [exact I|exact G2].
  - intros a Ha Hne. destruct (G2 a (vget_in _ _ _ P1 Ha) Hne) as (q & G3). exists q. apply Kq; [exact I|exact G3].
Qed.
End WithEntry.
Print Assumptions C53_try_become_leader_starts_a_prepare_phase.
Print Assumptions C53_elected_server_starts_a_prepare_phase.
Print Assumptions C54_resend_timeout_asks_again.
Print Assumptions C54_resend_timeout_repeats_the_stopsign.
Print Assumptions C55_followers_acknowledge_what_they_accept.

(** ** Cases.  Server 1 asks for promises (C53); the message to server 3 and the promise of
    server 2 are lost, and a resend timeout (every tick is one, [scs]) repeats them; server 2
    asks for a Prepare after a crash (C54); it acknowledges the log that it gets (C55); a
    stop-sign and the decision on it are lost and repeated. *)
Section Case.
Local Existing Instance plain.
Definition from (s : sys) (sch : list cmd) : sys := match run cc3 s (acts_of cc3 s sch) with Some s' => s' | None => ini end.
Definition sys_c53 := from ini [ Settle [1;2;3] 2; append 1 11; Call 1 CTryLeader ].
Definition sys_c54a := from sys_c53 [ Fetch [1]; Deliver 1 2; Lose 1 3; Fetch [2]; Lose 2 1; Call 1 CTick; Call 2 CTick ].
Definition sys_c54b := from sys_c54a [ Do (ACrash 2 (ECall CTick) 0 (scs 2)); Fetch [2]; Lose 2 1; Lose 2 3; Call 2 CTick ].
Definition sys_c55 := from sys_c54b [ Fetch [1;2]; Deliver 2 1; Fetch [1]; Deliver 1 2; Fetch [2]; Deliver 2 1; Fetch [1]; Deliver 1 2 ].
Definition sys_c54c := from sys_c55 [ Settle [1;2;3] 5; Call 1 (CReconfigure (mkCC 2 [1;2;3] None) None); Fetch [1]; Lose 1 2; Lose 1 3; Call 1 CTick ].
Definition sys_c54d := from sys_c54c [ Fetch [1]; Deliver 1 2; Fetch [2]; Deliver 2 1; Fetch [1]; Lose 1 2; Lose 1 3; Call 1 CTick ].
Definition b_one := mkB 1 1 0 1.
Definition see (o : omni) := (role_of o, get_promise o, outgoing o, is_reconfigured o).
Definition new_config := mkSS (mkCC 2 [1;2;3] None) None.
Example C53_case :
  obs sys_c53 1 see = Some ((Leader, PhPrepare), b_one, [mkPM 1 2 (MPrepare b_one 0 bdef 0); mkPM 1 3 (MPrepare b_one 0 bdef 0)], None).
Proof. vm_compute. reflexivity. Qed.
Example C54_case :
  obs sys_c54a 1 see = Some ((Leader, PhPrepare), b_one, [mkPM 1 2 (MPrepare b_one 0 bdef 0); mkPM 1 3 (MPrepare b_one 0 bdef 0)], None) /\
  obs sys_c54a 2 see = Some ((Follower, PhPrepare), b_one, [mkPM 2 1 (MPromise (mkProm b_one bdef 0 0 None))], None) /\
  obs sys_c54b 2 see = Some ((Follower, PhRecover), b_one, [mkPM 2 1 (MPrepareReq b_one); mkPM 2 3 (MPrepareReq b_one)], None) /\
  obs sys_c54c 1 see = Some ((Leader, PhAccept), b_one, [mkPM 1 2 (MAcceptStopSign b_one (mkSeq 1 3) new_config); mkPM 1 3 (MAcceptStopSign b_one (mkSeq 1 2) new_config)], None) /\
  obs sys_c54d 1 see = Some ((Leader, PhAccept), b_one, [mkPM 1 2 (MDecide b_one (mkSeq 1 4) 2); mkPM 1 3 (MDecide b_one (mkSeq 1 3) 2)], Some new_config).
Proof. vm_compute. auto. Qed.
Example C55_case :
  obs sys_c55 2 see = Some ((Follower, PhAccept), b_one, [mkPM 2 1 (MAccepted b_one 1)], None) /\ obs sys_c55 2 accepted_idx = Some 1.
Proof. vm_compute. auto. Qed.
End Case.
