(** * Senders and receivers

    A sweep through all handlers for C69: every queued message names the server as its sender and another server of the
    cluster as its receiver, and messages of leaders carry a ballot of their sender. *)
From Coq Require Import List Arith Bool Lia.
Import ListNotations.
From Verif Require Import Types Config MemStore Internal LeaderState SeqPaxos Ble Omni System Basics Spec Prims PropElect.
From Verif Require Local LeadLinks PropAnswer PropSend PropStable Quiet.

Section WithEntry.
Context {E : EntryT}.
Section Fix.
(** The servers [M] of the cluster; messages may go to the larger set [N]. *)
Context (N M : list node_id) (HMN : incl M N) (p : node_id) (Hp : In p M).
Definition okt (q : node_id) : Prop := In q N /\ q <> p.
(** The ballot of a message that only the leader of that ballot sends. *)
Definition lead_b (m : pmsg) : option ballot :=
  match m with MPrepare n _ _ _ | MAcceptSync n _ _ _ | MAcceptDecide n _ _ _ | MDecide n _ _ | MAcceptStopSign n _ _ => Some n | _ => None end.
Definition okm (m : pmessage) : Prop := pm_from m = p /\ okt (pm_to m) /\ forall n, lead_b (pm_msg m) = Some n -> b_pid n = p.
(** What the server gets. *)
Definition okin (m : pmessage) : Prop := In (pm_from m) M /\ pm_from m <> p /\ forall n, lead_b (pm_msg m) = Some n -> b_pid n = pm_from m.
Definition okp (b : ballot) : Prop := b = bdef \/ In (b_pid b) M.
Definition proms (l : leader_state) : Prop := forall q m, vget (l_proms l) q = Some (Promised m) -> In q N.
Definition J (s : sp) : Prop :=
  s_pid s = p /\ (forall q, In q (s_peers s) -> okt q) /\ Forall okm (s_out s) /\ (s_role s = Leader -> b_pid (l_n (s_ls s)) = p) /\ proms (s_ls s) /\
  (forall x, s_cprom s = Some x -> okt (b_pid (pr_n x))) /\ okp (i_prom (s_is s)) /\ (s_role s = Follower -> s_phase s = PhAccept -> okt (b_pid (i_prom (s_is s)))).
Definition Jr (r : res sp) : Prop := match r with Ok s => J s | Panic _ => True end.
Definition Jl (s : sp) : Prop := s_role s = Leader /\ J s.
Definition Jlr (r : res sp) : Prop := match r with Ok s => Jl s | Panic _ => True end.

(** ** Updates *)
Lemma j_lift {B} s (o : option B) (f : B -> res sp) : (forall x, o = Some x -> Jr (f x)) -> Jr (bind (lift s o) f).
Proof. intros H. destruct o; cbn; auto. Qed.
Lemma jl_lift {B} s (o : option B) (f : B -> res sp) : (forall x, o = Some x -> Jlr (f x)) -> Jlr (bind (lift s o) f).
Proof. intros H. destruct o; cbn; auto. Qed.
Lemma jl_j r : Jlr r -> Jr r.
Proof. destruct r; cbn; auto. intros [_ H]. exact H. Qed.
Lemma jl_each f l : (forall s q, In q l -> Jl s -> Jlr (f s q)) -> forall s, Jl s -> Jlr (for_each s l f).
Proof. induction l as [|q l IH]; intros H; cbn; intros s K; auto. pose proof (H s q (or_introl eq_refl) K) as X. destruct (f s q); cbn in *; auto. Qed.
Lemma j_ls s l : l_n l = l_n (s_ls s) -> proms l -> J s -> J (set_ls s l).
Proof. intros He Hq (A1 & A2 & A3 & A4 & A5 & A6). refine (conj A1 (conj A2 (conj A3 (conj _ (conj Hq A6))))). cbn. rewrite He. exact A4. Qed.
Lemma jl_ls s l : l_n l = l_n (s_ls s) /\ l_proms l = l_proms (s_ls s) /\ l_accmeta l = l_accmeta (s_ls s) -> Jl s -> Jl (set_ls s l).
Proof. intros (H1 & H2 & _) [Hl H]. split; [exact Hl|]. apply j_ls; [exact H1| |exact H]. unfold proms. rewrite H2. apply H. Qed.
Lemma jl_ls2 s l : l_n l = l_n (s_ls s) -> l_proms l = l_proms (s_ls s) -> Jl s -> Jl (set_ls s l).
Proof. intros H1 H2 [Hl H]. split; [exact Hl|]. apply j_ls; [exact H1| |exact H]. unfold proms. rewrite H2. apply H. Qed.
Lemma j_is s i : i_prom i = i_prom (s_is s) -> J s -> J (set_is s i).
Proof. intros He H. unfold J in *. cbn. rewrite He. exact H. Qed.
Lemma jl_is s i : i_prom i = i_prom (s_is s) -> Jl s -> Jl (set_is s i).
Proof. intros He [H1 H]. split; [exact H1|apply j_is; auto]. Qed.
Lemma j_push s q m : okt q -> (forall n, lead_b m = Some n -> b_pid n = p) -> J s -> J (push s q m).
Proof.
  intros Hq Hm (A1 & A2 & A3 & A4). split; [exact A1|]. split; [exact A2|]. split; [|exact A4]. cbn. rewrite Forall_app. split; [exact A3|]. constructor; [|constructor]. split; [exact A1|]. split; [exact Hq|exact Hm].
Qed.
Lemma jl_push s q m : okt q -> (forall n, lead_b m = Some n -> b_pid n = p) -> Jl s -> Jl (push s q m).
Proof. intros Hq Hm [H1 H]. split; [exact H1|apply j_push; auto]. Qed.
Lemma j_push_all m l : (forall n, lead_b m = Some n -> b_pid n = p) -> (forall q, In q l -> okt q) -> forall s, J s -> J (push_all s l m).
Proof. intros Hm. unfold push_all. induction l as [|q l IH]; cbn; intros Hl s H; auto. apply IH; auto. apply j_push; auto. Qed.
Definition same_lead (f : pmsg -> pmsg) : Prop := forall m, lead_b (f m) = lead_b m.
Lemma f_ext es d : same_lead (extend_accdec es d). Proof. intros []; reflexivity. Qed.
Lemma f_red d : same_lead (redecide_accdec d). Proof. intros []; reflexivity. Qed.
Lemma f_rea d : same_lead (reaccept d). Proof. intros []; reflexivity. Qed.
Lemma j_mod s k f : same_lead f -> J s -> J (mod_accdec s k f).
Proof.
  intros Hf (A1 & A2 & A3 & A4). unfold mod_accdec. destruct (nth_error (s_out s) k) as [m|] eqn:Hn; [|split; [exact A1|split; [exact A2|split; [exact A3|exact A4]]]].
  split; [exact A1|]. split; [exact A2|]. split; [|exact A4]. cbn. rewrite Forall_forall in *. intros x Hx.
  apply In_nth_error in Hx. destruct Hx as [j Hj]. rewrite Local.upd_nth in Hj by (apply nth_error_Some; congruence).
  destruct (j =? k); [|apply A3; eapply nth_error_In; eauto]. injection Hj as <-. unfold okm. cbn. rewrite Hf. apply (A3 m). eapply nth_error_In; eauto.
Qed.
Lemma mod_role s k f : s_role (mod_accdec s k f) = s_role s.
Proof. unfold mod_accdec. destruct (nth_error _ _); reflexivity. Qed.
Lemma jl_mod s k f : same_lead f -> Jl s -> Jl (mod_accdec s k f).
Proof. intros Hf [H1 H]. split; [rewrite mod_role; exact H1|apply j_mod; auto]. Qed.

(** ** Leader *)
Lemma own s : Jl s -> b_pid (l_n (s_ls s)) = p.
Proof. intros [H1 (_ & _ & _ & H & _)]. auto. Qed.
Lemma pf_okt s l : get_promised_followers (s_ls s) = Some l -> Jl s -> forall q, In q l -> okt q.
Proof.
  intros Hl H q Hq. destruct (LeadLinks.gpf_spec _ _ Hl) as [_ X]. apply X in Hq. rewrite (own s H) in Hq. destruct Hq as [Hq (m & Hm)]. split; [|exact Hq]. destruct H as [_ (_ & _ & _ & _ & H & _)]. exact (H q m Hm).
Qed.
Lemma send_prepare_j s q : okt q -> Jl s -> Jl (send_prepare s q).
Proof. intros Hq H. apply jl_push; [exact Hq| |exact H]. intros n X. injection X as <-. apply own, H. Qed.
Lemma send_prepares_j l : (forall q, In q l -> okt q) -> forall s, Jl s -> Jl (fold_left send_prepare l s).
Proof. induction l as [|q l IH]; cbn; intros Hl s H; auto. apply IH; auto. apply send_prepare_j; auto. Qed.
Lemma send_ad_j s es : Jl s -> Jlr (send_acceptdecide s es).
Proof.
  intros H. unfold send_acceptdecide. apply jl_lift. intros l Hl. apply jl_each; [|exact H]. intros s1 q Hq H1. unfold send_acceptdecide_to. apply jl_lift. intros [k|] _; [apply jl_mod; [apply f_ext|exact H1]|].
  apply jl_lift. intros l1 E1. apply jl_lift. intros [l2 sq] E2. destruct (PropSend.v_next _ _ _ _ E2) as (V1 & V2 & _). unfold set_latest_accept_meta in E1. destruct (vset _ _ _); [|discriminate]. injection E1 as <-. cbn in V1, V2.
  apply jl_push; [eapply pf_okt; eauto| |apply jl_ls2; auto]. intros n X. injection X as <-. rewrite V1. apply own, H1.
Qed.
Lemma meta_j s is r : i_prom is = i_prom (s_is s) -> Jl s -> Jlr (match r with Some (acc, es) => ls <- lift (set_is s is) (set_accepted_idx (s_ls s) (s_pid s) acc) ;; send_acceptdecide (set_ls (set_is s is) ls) es | None => Ok (set_is s is) end).
Proof.
  intros Hi H. destruct r as [[acc es]|]; [|apply jl_is; auto]. apply jl_lift. intros l El. apply send_ad_j, jl_ls; [exact (PropSend.v_acc _ _ _ _ El)|apply jl_is; auto].
Qed.
Lemma accept_entry_j s e : Jl s -> Jlr (accept_entry_leader s e).
Proof. intros H. unfold accept_entry_leader. destruct (append_entry_with_batching _ _) as [is r] eqn:X. apply (meta_j s is r); [eapply PropAnswer.aewb_prom; eauto|exact H]. Qed.
Lemma accept_entries_j s es : Jl s -> Jlr (accept_entries_leader s es).
Proof. intros H. unfold accept_entries_leader. destruct (append_entries_with_batching _ _) as [is r] eqn:X. apply (meta_j s is r); [eapply PropAnswer.aeswb_prom; eauto|exact H]. Qed.
Lemma flush_leader_j s : Jl s -> Jlr (flush_batch_leader s).
Proof. intros H. unfold flush_batch_leader. destruct (flush_batch_and_get_entries _) as [is r] eqn:X. apply (meta_j s is r); [eapply PropAnswer.fbge_prom; eauto|exact H]. Qed.
Lemma send_ss_j ss b s q : okt q -> Jl s -> Jlr (send_accept_stopsign ss b s q).
Proof.
  intros Hq H. unfold send_accept_stopsign. apply jl_lift. intros [l sq] El. apply PropSend.v_seq in El. apply jl_push; [exact Hq| |apply jl_ls; auto]. intros n X. injection X as <-. destruct El as (El & _).
  first [rewrite El; apply own, H|apply own, H].
Qed.
Lemma send_decide_j d b s q : okt q -> Jl s -> Jlr (send_decide d b s q).
Proof.
  intros Hq H. unfold send_decide. apply jl_lift. intros [l sq] El. apply PropSend.v_seq in El. apply jl_push; [exact Hq| |apply jl_ls; auto]. intros n X. injection X as <-. destruct El as (El & _).
  first [rewrite El; apply own, H|apply own, H].
Qed.
Lemma accept_ss_j s ss : Jl s -> Jlr (accept_stopsign_leader s ss).
Proof.
  intros H. unfold accept_stopsign_leader. pose proof (PropAnswer.ass_prom (s_is s) ss) as Hi. destruct (i_append_stopsign _ _) as [is r]. cbn [fst] in Hi.
  match goal with |- Jlr (bind ?e _) => assert (X : Jlr e); [|destruct e as [s1|]; [|exact I]] end.
  { destruct r as [[a es]|]; [apply send_ad_j|]; apply jl_is; auto. }
  cbn [bind]. apply jl_lift. intros l El. apply PropSend.v_acc in El. apply jl_lift. intros ps Hps. assert (Y : Jl (set_ls s1 l)) by (apply jl_ls; auto). apply jl_each; [|exact Y]. intros s2 q Hq H2. apply send_ss_j; [|exact H2]. exact (pf_okt _ _ Hps Y q Hq).
Qed.
Lemma accsync_j s q : okt q -> Jl s -> Jlr (send_accsync s q).
Proof.
  intros Hq H. unfold send_accsync. apply jl_lift; intros ? _. apply jl_lift; intros ? _. apply jl_lift; intros ? _. apply jl_lift; intros l1 E1. apply jl_lift. intros [l sq] E2.
  apply PropSend.v_incr in E1. apply PropSend.v_next in E2. destruct E1 as (A1 & A2 & A3), E2 as (B1 & B2 & B3). apply jl_push; [exact Hq| |apply jl_ls2; [congruence|congruence|exact H]]. intros n X. injection X as <-. apply own, H.
Qed.
Lemma majority_j s : Jl s -> Jlr (handle_majority_promises s).
Proof.
  intros H. unfold handle_majority_promises, take_max_promise_sync. destruct (sync_log _ _ _ _) as [[is acc]|] eqn:Hs; [|exact I]. apply PropStable.sync_prom in Hs. destruct Hs as [Hs _]. cbn [bind].
  match goal with |- Jlr (let '(_, _) := ?e in _) => assert (X : Jl (fst e)); [|destruct e as [s1 acc1]; cbn [fst] in X] end.
  { set (s2 := set_is _ is). assert (H2 : Jl s2). { unfold s2. apply jl_is; [exact Hs|]. exact H. } destruct (accepted_reconfiguration s2); [exact H2|].
    match goal with |- Jl (fst (let '(_, _) := ?e in _)) => assert (X : Jl (fst e)); [|destruct e as [s3 acc3]; cbn [fst] in X] end.
    { destruct (s_bprops s2); [exact H2|]. cbn. exact H2. }
    destruct (s_bss s3); [|exact X]. cbn [fst]. apply jl_is; [apply PropAnswer.ass_prom|exact X]. }
  apply jl_lift. intros l El. apply PropSend.v_acc in El. apply jl_lift. intros ps Hps.
  assert (Y : Jl (set_ls (set_state s1 Leader PhAccept) l)). { apply jl_ls; [exact El|]. destruct X as [X1 (A1 & A2 & A3 & A4 & A5 & A6 & A7 & A8)]. split; [reflexivity|]. split; [exact A1|]. split; [exact A2|]. split; [exact A3|]. split; [intros _; exact (A4 X1)|]. split; [exact A5|]. split; [exact A6|]. split; [exact A7|discriminate]. }
  apply jl_each; [|exact Y]. intros s2 q Hq H2. apply accsync_j; [|exact H2]. exact (pf_okt _ _ Hps Y q Hq).
Qed.
Lemma accepted_j s n a from : J s -> Jr (handle_accepted s n a from).
Proof.
  intros H. unfold handle_accepted. destruct (beq n _ && _) eqn:Hg; [|exact H]. assert (Hl : Jl s). { split; [|exact H]. apply andb_true_iff in Hg. destruct Hg as [_ Hg]. apply andb_true_iff in Hg. destruct Hg as [Hg _]. destruct (s_role s); [discriminate|reflexivity]. }
  clear Hg. apply jl_j, jl_lift. intros l El. apply PropSend.v_acc in El. cbn zeta. assert (H1 : Jl (set_ls s l)) by (apply jl_ls; auto). destruct (_ && _); [|exact H1]. apply jl_lift. intros ps Hps. apply jl_each; [|exact H1].
  intros s1 q Hq K. assert (Ho : okt q) by exact (pf_okt _ _ Hps H1 q Hq). unfold handle_accepted_to. apply jl_lift. intros [k|] _; [apply jl_mod; [apply f_red|exact K]|apply send_decide_j; auto].
Qed.
Lemma setp_j l x f c l' m : In f N -> ls_set_promise l x f c = Some (l', m) -> proms l -> l_n l' = l_n l /\ proms l'.
Proof.
  intros Hf. unfold ls_set_promise. set (l1 := if c && _ then _ else _). assert (H1 : l_n l1 = l_n l /\ l_proms l1 = l_proms l) by (unfold l1; destruct (c && _); auto). destruct H1 as [H1 H2].
  destruct (vset _ _ _) as [v|] eqn:Hv; [|discriminate]. intros X. injection X as <- _. intros K. split; [exact H1|]. intros q y. cbn. rewrite (LeadLinks.vget_vset _ _ _ _ q Hv). destruct (Nat.eqb_spec q f) as [->|]; [auto|]. rewrite H2. apply K.
Qed.
Lemma drop_j l f (x : prom_state) l' : (forall m, x <> Promised m) -> option_map (l_set_proms l) (vset (l_proms l) f x) = Some l' -> proms l -> l_n l' = l_n l /\ proms l'.
Proof.
  intros Hx. destruct (vset _ _ _) as [v|] eqn:Hv; [|discriminate]. intros X. injection X as <-. intros K. split; [reflexivity|]. intros q y. cbn. rewrite (LeadLinks.vget_vset _ _ _ _ q Hv). destruct (_ =? _); [|apply K]. intros Y. injection Y as Y. destruct (Hx _ Y).
Qed.
Lemma handle_leader_j s n : b_pid n = p -> J s -> Jr (handle_leader s n).
Proof.
  intros Hn H. unfold handle_leader. destruct (_ || _); [exact H|]. destruct H as (A1 & A2 & A3 & A4 & A5 & A6 & A7 & A8). rewrite A1, Hn, Nat.eqb_refl. apply j_lift. intros [l m] El. cbn [s_ls set_is set_ls s_pid] in El.
  assert (K : proms (ls_with n (l_maxpid (s_ls s)) (l_quorum (s_ls s)))). { intros q y. cbn. unfold vget. destruct (pid_to_idx q); [|discriminate]. intros X. apply nth_error_In, repeat_spec in X. discriminate. }
  rewrite A1 in El. destruct (setp_j _ _ _ _ _ _ (HMN _ Hp) El K) as [K1 K2]. apply j_push_all; [intros n0 X; injection X as <-; exact Hn|exact A2|].
  split; [exact A1|]. split; [exact A2|]. split; [exact A3|]. split; [intros _; cbn; rewrite K1; exact Hn|]. split; [exact K2|]. split; [exact A6|]. split; [right; cbn; rewrite Hn; exact Hp|discriminate].
Qed.
Lemma preparable_in l ps : forall r, get_preparable_peers l ps = Some r -> forall q, In q r -> In q ps.
Proof.
  induction ps as [|x ps IH]; cbn; intros r H q Hq; [injection H as <-; destruct Hq|]. destruct (vget _ x) as [[]|]; destruct (get_preparable_peers l ps) as [t|]; try discriminate; injection H as <-; try (right; eapply IH; eauto; fail). destruct Hq as [->|Hq]; eauto.
Qed.
Lemma resend_leader_j s : Jl s -> Jlr (resend_messages_leader s).
Proof.
  intros H. assert (PP : forall s l, Jl s -> get_preparable_peers (s_ls s) (s_peers s) = Some l -> forall q, In q l -> okt q). { intros s1 l [_ (_ & X & _)] Hl q Hq. apply X. eapply preparable_in; eauto. }
  unfold resend_messages_leader. destruct (s_phase s); try exact H; [apply jl_lift; intros ps Hps; apply send_prepares_j; eauto|].
  match goal with |- Jlr (bind ?e _) => assert (X : Jlr e); [|destruct e as [s1|]; [|exact I]] end.
  { destruct (i_ss _); [|exact H]. apply jl_lift. intros ps Hps. apply jl_each; [|exact H]. intros s1 q Hq H1. assert (Ho : okt q) by exact (pf_okt _ _ Hps H q Hq). unfold resend_ss_to. destruct (stopsign_is_decided _); [apply send_decide_j; auto|].
    apply jl_lift. intros a _. destruct (_ =? _); [exact H1|apply send_ss_j; auto]. }
  cbn [bind]. apply jl_lift. intros ps Hps. apply send_prepares_j; eauto.
Qed.

(** ** Follower *)
Lemma j_state s ph : ph <> PhAccept -> J s -> J (set_state s Follower ph).
Proof.
  intros Hh (A1 & A2 & A3 & A4 & A5 & A6 & A7 & A8). split; [exact A1|]. split; [exact A2|]. split; [exact A3|]. split; [discriminate|]. split; [exact A5|]. split; [exact A6|]. split; [exact A7|]. cbn. intros _ X. contradiction.
Qed.
Lemma reconnected_j s q : In q N -> J s -> J (reconnected s q).
Proof.
  intros Hq H. unfold reconnected. destruct (Nat.eqb_spec q (s_pid s)) as [X|X]; [exact H|]. apply j_push; [split; [exact Hq|]; destruct H as [H1 _]; rewrite <- H1; exact X|discriminate|]. destruct (_ =? _); [apply j_state; [discriminate|]|]; exact H.
Qed.
Lemma valid_j s n : okt (b_pid n) -> J s -> J (fst (check_valid_ballot s n)).
Proof. intros Hn H. unfold check_valid_ballot. destruct (bcmp _ _); [exact H|apply reconnected_j; [apply Hn|exact H]|apply j_push; [exact Hn|discriminate|exact H]]. Qed.
Lemma seq_j s q from : In from N -> J s -> J (fst (handle_sequence_num s q from)).
Proof. intros Hf H. unfold handle_sequence_num. destruct (check_msg_status _ _); [exact H|apply reconnected_j; auto|exact H]. Qed.
Lemma reply_j s n a : okt (b_pid n) -> J s -> Jr (reply_accepted s n a).
Proof. intros Hn H. unfold reply_accepted. apply j_lift. intros [k|] _; [apply j_mod; [apply f_rea|exact H]|apply j_push; [exact Hn|discriminate|exact H]]. Qed.
Lemma forward_j s es : J s -> J (forward_proposals s es).
Proof.
  intros H. unfold forward_proposals. destruct (_ && _) eqn:X; [|exact H]. apply j_push; [|discriminate|exact H]. apply andb_true_iff in X. destruct X as [X1 X2]. apply Nat.ltb_lt in X1. apply negb_true_iff, Nat.eqb_neq in X2. destruct H as (A1 & _ & _ & _ & _ & _ & A7 & _).
  rewrite A1 in X2. split; [|intros Y; apply X2; auto]. unfold sp_leader, sp_promise in *. destruct A7 as [A7|A7]; [rewrite A7 in X1; cbn in X1; lia|apply HMN, A7].
Qed.
Lemma forward_ss_j s ss : J s -> J (forward_stopsign s ss).
Proof.
  intros H. unfold forward_stopsign. destruct (_ && _) eqn:X; [|destruct (s_bss s); exact H]. apply j_push; [|discriminate|exact H]. apply andb_true_iff in X. destruct X as [X1 X2]. apply Nat.ltb_lt in X1. apply negb_true_iff, Nat.eqb_neq in X2. destruct H as (A1 & _ & _ & _ & _ & _ & A7 & _).
  rewrite A1 in X2. split; [|intros Y; apply X2; auto]. unfold sp_leader, sp_promise in *. destruct A7 as [A7|A7]; [rewrite A7 in X1; cbn in X1; lia|apply HMN, A7].
Qed.
Lemma update_decided_j s d : J s -> J (fst (update_decided s d)).
Proof.
  intros H. unfold update_decided. destruct (_ <=? _); [exact H|]. destruct (_ <? _); [|apply j_is; [reflexivity|exact H]]. destruct (flush_batch _) as [is a] eqn:Hf. apply j_is; [|exact H]. apply PropAnswer.fb_prom in Hf. exact (proj1 Hf).
Qed.
Lemma handle_j s m : okin m -> J s -> Jr (sp_handle s m).
Proof.
  intros (HfM & Hfp & Hb) H. assert (Hf : okt (pm_from m)) by (split; [apply HMN|]; auto). unfold sp_handle. assert (L : s_role s = Leader -> Jl s) by (intros X; split; auto). assert (HP : proms (s_ls s)) by apply H.
  destruct (pm_msg m) as [n|n d na ac|pr|n q d sy|n q d es|n a|n|n q d|es|cp|n q ss|ss] eqn:Hm; cbn [lead_b] in Hb.
  - unfold handle_preparereq. destruct (s_role s) eqn:Hr; [exact H|]. cbn [role_eqb andb]. destruct (ble _ _); [|exact H]. apply j_lift. intros l El. apply j_lift. intros l2 E2. apply drop_j in El; [|discriminate|exact HP].
    unfold set_latest_accept_meta in E2. destruct (vset _ _ _); [|discriminate]. injection E2 as <-. apply send_prepare_j; [exact Hf|]. split; [exact Hr|]. apply j_ls; [apply El|apply El|exact H].
  - specialize (Hb n eq_refl). unfold handle_prepare. cbn zeta. destruct (_ || _); [|exact H]. match goal with |- Jr (bind ?e _) => destruct e; [|exact I] end. cbn [bind]. apply j_push; [exact Hf|discriminate|].
    destruct H as (A1 & A2 & A3 & A4 & A5 & A6 & A7 & A8). split; [exact A1|]. split; [exact A2|]. split; [exact A3|]. split; [discriminate|]. split; [exact A5|]. split; [|split; [|discriminate]].
    + intros x X. injection X as <-. cbn. rewrite Hb. exact Hf.
    + right. cbn. rewrite Hb. exact HfM.
  - destruct (s_role s) eqn:Hr; [exact H|]. destruct (s_phase s); try exact H.
    + unfold handle_promise_prepare. destruct (beq _ _); [|exact H]. apply j_lift. intros [ls mj] El. apply setp_j in El; [|apply Hf|exact HP]. destruct El as [E1 E2]. assert (X : Jl (set_ls s ls)) by (split; [exact Hr|apply j_ls; auto]). destruct mj; [apply jl_j, majority_j, X|apply X].
    + unfold handle_promise_accept. destruct (beq _ _); [|exact H]. apply j_lift. intros [ls mj] El. apply setp_j in El; [|apply Hf|exact HP]. destruct El as [E1 E2]. apply jl_j, accsync_j; [exact Hf|]. split; [exact Hr|apply j_ls; auto].
  - specialize (Hb n eq_refl). rewrite <- Hb in Hf. unfold handle_acceptsync. assert (Hv : snd (check_valid_ballot s n) = true -> b_pid (i_prom (s_is (fst (check_valid_ballot s n)))) = b_pid n).
    { unfold check_valid_ballot. destruct (bcmp _ n) eqn:B; try discriminate. intros _. apply PropAnswer.cmp_round in B. symmetry. apply B. }
    pose proof (valid_j s n Hf H) as X. destruct (check_valid_ballot s n) as [s1 v]. cbn [fst snd] in X, Hv. destruct (v && _) eqn:Hg; [|exact X]. apply andb_true_iff in Hg. specialize (Hv (proj1 Hg)). destruct (sync_log _ _ _ _) as [[is acc]|] eqn:Hs; [|exact I]. apply PropStable.sync_prom in Hs. destruct Hs as [Hs _]. cbn [bind].
    apply j_push; [rewrite <- Hb; exact Hf|discriminate|]. match goal with |- J (set_lam (set_cseq (set_state ?a _ _) _) _) => assert (Y : J a /\ i_prom (s_is a) = i_prom (s_is s1)) end.
    { assert (Z : J (set_is (set_cprom s1 None) is)). { apply j_is; [exact Hs|]. destruct X as (A1 & A2 & A3 & A4 & A5 & A6 & A7 & A8). split; [exact A1|]. split; [exact A2|]. split; [exact A3|]. split; [exact A4|]. split; [exact A5|]. split; [discriminate|]. split; [exact A7|exact A8]. }
      destruct (i_ss _); [split; [exact Z|exact Hs]|]. unfold forward_buffered_proposals. destruct (s_bprops _); [split; [exact Z|exact Hs]|]. split; [apply forward_j; exact Z|]. unfold forward_proposals. match goal with |- context [if ?b then _ else _] => destruct b end; exact Hs. }
    destruct Y as [(A1 & A2 & A3 & A4 & A5 & A6 & A7 & A8) Y2]. split; [exact A1|]. split; [exact A2|]. split; [exact A3|]. split; [discriminate|]. split; [exact A5|]. split; [exact A6|]. split; [exact A7|]. intros _ _. match goal with |- okt (b_pid ?a) => change (okt (b_pid (i_prom (s_is (match i_ss (s_is (set_is (set_cprom s1 None) is)) with Some _ => set_is (set_cprom s1 None) is | None => forward_buffered_proposals (set_is (set_cprom s1 None) is) end))))) end. rewrite Y2, Hv. exact Hf.
  - specialize (Hb n eq_refl). rewrite <- Hb in Hf. unfold handle_acceptdecide. pose proof (valid_j s n Hf H) as X. destruct (check_valid_ballot s n) as [s1 v]. cbn [fst] in X. destruct (_ && _); [|exact X].
    pose proof (seq_j s1 q (b_pid n) (proj1 Hf) X) as Y. destruct (handle_sequence_num _ _ _) as [s2 st]. cbn [fst] in Y. destruct st; try exact Y. destruct (append_entries_and_get_accepted_idx _ _) as [is r1] eqn:Ha. apply PropAnswer.aegai_ans in Ha.
    pose proof (update_decided_j (set_is s2 is) d (j_is s2 is (proj1 Ha) Y)) as Z. destruct (update_decided _ _) as [s3 r2]. cbn [fst] in Z. destruct (match r2 with Some _ => r2 | None => r1 end); [apply reply_j; [exact Hf|]|]; exact Z.
  - apply accepted_j; exact H.
  - unfold handle_notaccepted. destruct (_ && _); [|exact H]. apply j_lift. intros l El. apply drop_j in El; [|discriminate|exact HP]. apply j_ls; [apply El|apply El|exact H].
  - specialize (Hb n eq_refl). rewrite <- Hb in Hf. unfold handle_decide. pose proof (valid_j s n Hf H) as X. destruct (check_valid_ballot s n) as [s1 v]. cbn [fst] in X. destruct (_ && _); [|exact X].
    pose proof (seq_j s1 q (b_pid n) (proj1 Hf) X) as Y. destruct (handle_sequence_num _ _ _) as [s2 st]. cbn [fst] in Y. destruct st; try exact Y.
    pose proof (update_decided_j s2 d Y) as Z. destruct (update_decided _ _) as [s3 r2]. cbn [fst] in Z. destruct r2; [apply reply_j; [exact Hf|]|]; exact Z.
  - unfold handle_forwarded_proposal. destruct (accepted_reconfiguration s); [exact H|]. destruct (s_role s) eqn:Hr, (s_phase s); try (apply forward_j; exact H); [exact H|apply jl_j, accept_entries_j; auto].
  - unfold handle_compaction, sp_snapshot. destruct cp as [i|i].
    + destruct (try_trim _ _) as [[is r]|] eqn:Ht; [|exact I]. apply j_is; [eapply Quiet.trim_pr; eauto|exact H].
    + destruct (try_snapshot _ _) as [[is r]|] eqn:Ht; [|exact I]. apply Quiet.snapshot_pr in Ht. destruct r; apply j_is; auto.
  - specialize (Hb n eq_refl). rewrite <- Hb in Hf. unfold handle_accept_stopsign. pose proof (valid_j s n Hf H) as X. destruct (check_valid_ballot s n) as [s1 v]. cbn [fst] in X. destruct (_ && _); [|exact X].
    pose proof (seq_j s1 q (b_pid n) (proj1 Hf) X) as Y. destruct (handle_sequence_num _ _ _) as [s2 st]. cbn [fst] in Y. destruct st; try exact Y. destruct (i_set_stopsign _ _) as [[is acc]|] eqn:Hs; [|exact I]. cbn [bind]. apply reply_j; [exact Hf|]. apply j_is; [|exact Y].
    unfold i_set_stopsign in Hs. destruct (c_ss _); cbn in Hs; injection Hs as <- _; reflexivity.
  - unfold handle_forwarded_stopsign. destruct (accepted_reconfiguration s); [exact H|]. destruct (s_role s) eqn:Hr, (s_phase s); try (apply forward_ss_j; exact H); [exact H|apply jl_j, accept_ss_j; auto].
Qed.
Lemma resend_j s : J s -> Jr (resend_message_timeout s).
Proof.
  intros H. unfold resend_message_timeout. destruct (s_role s) eqn:Hr; [|apply jl_j, resend_leader_j; split; auto]. assert (PP : forall q, In q (s_peers s) -> okt q) by apply H.
  unfold resend_messages_follower, send_preparereq_to_all_peers. destruct (s_phase s); try exact H; [|apply j_push_all; [discriminate|exact PP|exact H]].
  destruct (s_cprom s) as [x|] eqn:Hx; [apply j_push; [|discriminate|exact H]|apply j_push_all; [discriminate|exact PP|apply j_state; [discriminate|exact H]]]. destruct H as (_ & _ & _ & _ & _ & H & _). auto.
Qed.
Lemma flush_j s : J s -> Jr (flush_batch_timeout s).
Proof.
  intros H. unfold flush_batch_timeout. destruct (s_role s) eqn:Hr, (s_phase s) eqn:Hh; try exact H; [|apply jl_j, flush_leader_j; split; auto].
  unfold flush_batch_follower. destruct (flush_batch _) as [is a] eqn:Hf. apply PropAnswer.fb_prom in Hf. destruct Hf as [Hf _]. destruct (_ <? _); [apply reply_j|]; [|apply j_is; auto|apply j_is; auto]. unfold sp_promise. cbn. rewrite Hf. apply H; auto.
Qed.

(** ** Calls *)
Definition call_in (c : call) : Prop := match c with CReconnected q => In q N | CHandle (MsgSP m) => okin m | _ => True end.
Lemma exec_j o c o' r : PropAnswer.owned o -> J (o_sp o) -> call_in c -> exec o c = Ok (o', r) -> J (o_sp o').
Proof.
  intros Ho H0 Hc He. assert (H : J (o_sp (start_call o))) by exact H0. unfold exec in He. assert (L : s_role (o_sp (start_call o)) = Leader -> Jl (o_sp (start_call o))) by (intros X; split; auto). assert (PP : forall q, In q (s_peers (o_sp o)) -> okt q) by apply H0.
  destruct c as [e|cc0 meta| |i|i l|q| |q|[m|m]]; cbn [exec_call] in He.
  - unfold sp_append in He. destruct (accepted_reconfiguration _); [injection He as <- _; exact H|]. assert (X : Jr (propose_entry (o_sp (start_call o)) e)).
    { unfold propose_entry. destruct (s_role (o_sp (start_call o))) eqn:Hr, (s_phase (o_sp (start_call o))); try (apply forward_j; exact H); [exact H|apply jl_j, accept_entry_j; auto]. }
    destruct (propose_entry _ _); [|discriminate]. injection He as <- _. exact X.
  - unfold reconfigure in He. destruct (cluster_validate cc0); [|injection He as <- _; exact H]. unfold sp_reconfigure in He. destruct (accepted_reconfiguration _); [injection He as <- _; exact H|]. cbn zeta in He.
    match type of He with context [bind (A := sp) ?e _] => assert (X : Jr e); [|destruct e; [injection He as <- _; exact X|discriminate]] end.
    destruct (s_role (o_sp (start_call o))) eqn:Hr, (s_phase (o_sp (start_call o))); try (apply forward_ss_j; exact H); [exact H|apply jl_j, accept_ss_j; auto].
  - destruct (tick _) as [o1|] eqn:Ht; [|discriminate]. injection He as <- _. apply PropAnswer.tick3 in Ht. destruct Ht as (s1 & s2 & H1 & H2 & H3).
    assert (X : J s1). { assert (Y : s1 = o_sp (start_call o) \/ exists n, b_pid n = own_pid o /\ handle_leader (o_sp (start_call o)) n = Ok s1).
      { apply PropAnswer.election_own; [exact Ho|]. change (o_eclk (start_call o)) with (o_eclk o) in H1. destruct (due (o_eclk o)); [|apply H1]. change (hb_timeout (o_ble (start_call o)) (s_role (o_sp (start_call o)), s_phase (o_sp (start_call o))) (sp_promise (o_sp (start_call o)))) with (hb_timeout (o_ble o) (role_of o) (get_promise o)) in H1.
        destruct (hb_timeout _ _ _) as [b [n|]]; apply H1. }
      destruct Y as [->|(n & Y1 & Y2)]; [exact H|]. assert (Z : own_pid o = p) by apply H0. rewrite Z in Y1. pose proof (handle_leader_j _ n Y1 H) as W. rewrite Y2 in W. exact W. }
    assert (X2 : J s2). { destruct (due (o_rclk (start_call o))); [|subst s2; exact X]. pose proof (resend_j _ X) as Y. rewrite H2 in Y. exact Y. }
    destruct (due (o_fclk (start_call o))); [|rewrite H3; exact X2]. pose proof (flush_j _ X2) as Y. rewrite H3 in Y. exact Y.
  - assert (X : match sp_trim (o_sp (start_call o)) i with Ok (s, _) => J s | Panic _ => True end); [|destruct (sp_trim _ _) as [[s x]|]; [|discriminate]; injection He as <- _; exact X].
    unfold sp_trim. destruct (s_role (o_sp (start_call o))); [exact H|]. destruct (get_min_all_accepted_idx _) as [mn|]; [|exact I]. cbn [lift bind].
    destruct i as [i|]; [destruct (i <=? mn); [|exact H]|]; (destruct (try_trim _ _) as [[is x]|] eqn:Ht; [|exact I]; apply Quiet.trim_pr in Ht; cbn [bind]; destruct x; [apply j_is; auto|]; apply j_push_all; [discriminate|exact PP|apply j_is; auto]).
  - unfold sp_snapshot in He. destruct (try_snapshot _ _) as [[is x]|] eqn:Ht; [|discriminate]. apply Quiet.snapshot_pr in Ht. cbn [bind] in He. destruct x; [injection He as <- _; apply j_is; auto|]. destruct l; injection He as <- _; [apply j_is; auto|]. apply j_push_all; [discriminate|exact PP|apply j_is; auto].
  - injection He as <- _. apply reconnected_j; auto.
  - unfold try_become_leader in He. cbn zeta in He. match type of He with context [handle_leader ?a ?b] => assert (X : Jr (handle_leader a b)) end.
    { apply handle_leader_j; [|exact H]. cbn. destruct Ho as [_ Ho]. unfold own_ballot in Ho. cbn in Ho. rewrite Ho. apply H0. }
    destruct (handle_leader _ _) as [s1|]; [|discriminate]. injection He as <- _. exact X.
  - injection He as <- _. exact H.
  - unfold handle_incoming in He. pose proof (handle_j (o_sp (start_call o)) m Hc H) as X. destruct (sp_handle _ m) as [s1|]; [|discriminate]. injection He as <- _. exact X.
  - injection He as <- _. exact H.
Qed.
End Fix.
End WithEntry.
