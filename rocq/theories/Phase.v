(** * Phases of one call

    A sweep through all handlers for C70: which [AcceptSync] messages a call queues, and how the phases and the
    ballot change from the state [s0] before the call. *)
From Coq Require Import List Arith Bool Lia.
Import ListNotations.
From Verif Require Import Types Config MemStore Internal LeaderState SeqPaxos Ble Omni System Basics Spec Prims PropElect.
From Verif Require Local LeadLinks PropAnswer PropSend PropStable Quiet Route.

Section WithEntry.
Context {E : EntryT}.

(** An [AcceptSync] of the ballot [n] is queued. *)
Definition syncs (n : ballot) (l : list pmessage) : Prop := exists m q d sy, In m l /\ pm_msg m = MAcceptSync n q d sy.

Section Fix.
(** The state before the call, and the ballot of the [AcceptSync] that comes with it. *)
Context (s0 : sp) (inc : option ballot).
Definition led (s : sp) : Prop := s_role s = Leader -> l_n (s_ls s) = i_prom (s_is s) /\ (s_phase s = PhPrepare \/ s_phase s = PhAccept).
(** With [w = false] nothing was queued so far. *)
Definition T (w : bool) (s : sp) : Prop :=
  led s /\
  (s_role s = Leader -> s_phase s = PhPrepare -> (s_role s0 = Leader /\ s_phase s0 = PhPrepare /\ l_n (s_ls s0) = l_n (s_ls s)) \/ blt (i_prom (s_is s0)) (l_n (s_ls s)) = true) /\
  (forall n, syncs n (s_out s) -> syncs n (s_out s0) \/ (w = true /\ s_role s = Leader /\ s_phase s = PhAccept /\ l_n (s_ls s) = n)) /\
  (s_role s = Follower -> s_phase s = PhAccept -> (s_role s0 = Follower /\ s_phase s0 = PhAccept /\ i_prom (s_is s0) = i_prom (s_is s)) \/ exists n, inc = Some n /\ bcmp (i_prom (s_is s)) n = Eq) /\
  (w = false -> ble (i_prom (s_is s0)) (i_prom (s_is s)) = true).
Definition Tr w (r : res sp) : Prop := match r with Ok s => T w s | Panic _ => True end.
Definition Tl w (s : sp) : Prop := s_role s = Leader /\ T w s.
Definition Tlr w (r : res sp) : Prop := match r with Ok s => Tl w s | Panic _ => True end.
(** Leaders that may send [AcceptSync]. *)
Definition Ta (s : sp) : Prop := s_phase s = PhAccept /\ Tl true s.
Definition Tar (r : res sp) : Prop := match r with Ok s => Ta s | Panic _ => True end.

(** ** Updates *)
Lemma t_up s : T false s -> T true s.
Proof. intros (A1 & A2 & A3 & A4 & A5). refine (conj A1 (conj A2 (conj _ (conj A4 _)))); [|discriminate]. intros n Hn. destruct (A3 n Hn) as [X|[X _]]; [auto|discriminate]. Qed.
Lemma tr_up r : Tr false r -> Tr true r.
Proof. destruct r; cbn; auto. apply t_up. Qed.
Lemma t_lift {B} w s (o : option B) (f : B -> res sp) : (forall x, o = Some x -> Tr w (f x)) -> Tr w (bind (lift s o) f).
Proof. intros H. destruct o; cbn; auto. Qed.
Lemma tl_lift {B} w s (o : option B) (f : B -> res sp) : (forall x, o = Some x -> Tlr w (f x)) -> Tlr w (bind (lift s o) f).
Proof. intros H. destruct o; cbn; auto. Qed.
Lemma ta_lift {B} s (o : option B) (f : B -> res sp) : (forall x, o = Some x -> Tar (f x)) -> Tar (bind (lift s o) f).
Proof. intros H. destruct o; cbn; auto. Qed.
Lemma tl_t w r : Tlr w r -> Tr w r.
Proof. destruct r; cbn; auto. intros [_ H]. exact H. Qed.
Lemma ta_t r : Tar r -> Tr true r.
Proof. destruct r; cbn; auto. intros (_ & _ & H). exact H. Qed.
Lemma tl_each w f l : (forall s q, Tl w s -> Tlr w (f s q)) -> forall s, Tl w s -> Tlr w (for_each s l f).
Proof. intros H. induction l as [|q l IH]; cbn; intros s K; auto. pose proof (H s q K) as X. destruct (f s q); cbn in *; auto. Qed.
Lemma ta_each f l : (forall s q, Ta s -> Tar (f s q)) -> forall s, Ta s -> Tar (for_each s l f).
Proof. intros H. induction l as [|q l IH]; cbn; intros s K; auto. pose proof (H s q K) as X. destruct (f s q); cbn in *; auto. Qed.
Lemma t_ls w s l : l_n l = l_n (s_ls s) -> T w s -> T w (set_ls s l).
Proof. intros He H. unfold T, led in *. cbn. rewrite He. exact H. Qed.
Lemma tl_ls w s l : l_n l = l_n (s_ls s) -> Tl w s -> Tl w (set_ls s l).
Proof. intros He [H1 H]. split; [exact H1|apply t_ls; auto]. Qed.
Lemma ta_ls s l : l_n l = l_n (s_ls s) -> Ta s -> Ta (set_ls s l).
Proof. intros He [H1 H]. split; [exact H1|apply tl_ls; auto]. Qed.
Lemma t_is w s i : i_prom i = i_prom (s_is s) -> T w s -> T w (set_is s i).
Proof. intros He H. unfold T, led in *. cbn. rewrite He. exact H. Qed.
Lemma tl_is w s i : i_prom i = i_prom (s_is s) -> Tl w s -> Tl w (set_is s i).
Proof. intros He [H1 H]. split; [exact H1|apply t_is; auto]. Qed.
Definition nosync (m : pmsg) : Prop := match m with MAcceptSync _ _ _ _ => False | _ => True end.
Lemma syncs_push s q m n : syncs n (s_out (push s q m)) -> syncs n (s_out s) \/ exists k d sy, m = MAcceptSync n k d sy.
Proof.
  intros (x & k & d & sy & Hx & Hm). cbn in Hx. apply in_app_or in Hx. destruct Hx as [Hx|[<-|[]]]; [left; exists x, k, d, sy; auto|right; exists k, d, sy; exact Hm].
Qed.
Lemma t_push w s q m : nosync m -> T w s -> T w (push s q m).
Proof.
  intros Hm (A1 & A2 & A3 & A4). refine (conj A1 (conj A2 (conj _ A4))). intros n Hn. apply syncs_push in Hn. destruct Hn as [Hn|(k & d & sy & ->)]; [exact (A3 n Hn)|destruct Hm].
Qed.
Lemma tl_push w s q m : nosync m -> Tl w s -> Tl w (push s q m).
Proof. intros Hm [H1 H]. split; [exact H1|apply t_push; auto]. Qed.
Lemma t_push_all w m l : nosync m -> forall s, T w s -> T w (push_all s l m).
Proof. intros Hm. unfold push_all. induction l as [|q l IH]; cbn; intros s H; auto. apply IH; auto. apply t_push; auto. Qed.
Definition keeps (f : pmsg -> pmsg) : Prop := forall m n q d sy, f m = MAcceptSync n q d sy -> m = f m.
Lemma f_ext es d : keeps (extend_accdec es d). Proof. intros m n q d1 sy H. destruct m; try reflexivity; discriminate. Qed.
Lemma f_red d : keeps (redecide_accdec d). Proof. intros m n q d1 sy H. destruct m; try reflexivity; discriminate. Qed.
Lemma f_rea d : keeps (reaccept d). Proof. intros m n q d1 sy H. destruct m; try reflexivity; discriminate. Qed.
Lemma syncs_mod s k f n : keeps f -> syncs n (s_out (mod_accdec s k f)) -> syncs n (s_out s).
Proof.
  intros Hf. unfold mod_accdec. destruct (nth_error (s_out s) k) as [m|] eqn:Hn; [|auto]. intros (x & q & d & sy & Hx & Hm). cbn in Hx. apply In_nth_error in Hx. destruct Hx as [j Hj]. rewrite Local.upd_nth in Hj by (apply nth_error_Some; congruence).
  destruct (j =? k); [|exists x, q, d, sy; split; [eapply nth_error_In; eauto|exact Hm]]. injection Hj as <-. cbn in Hm. exists m, q, d, sy. split; [eapply nth_error_In; eauto|]. rewrite (Hf _ _ _ _ _ Hm). exact Hm.
Qed.
Lemma t_mod w s k f : keeps f -> T w s -> T w (mod_accdec s k f).
Proof.
  intros Hf (A1 & A2 & A3 & A4). assert (X : forall n, syncs n (s_out (mod_accdec s k f)) -> syncs n (s_out s)) by (intros n; apply syncs_mod; exact Hf). unfold mod_accdec in *. destruct (nth_error (s_out s) k) as [m|]; [|exact (conj A1 (conj A2 (conj A3 A4)))].
  refine (conj A1 (conj A2 (conj _ A4))). intros n Hn. exact (A3 n (X n Hn)).
Qed.
Lemma tl_mod w s k f : keeps f -> Tl w s -> Tl w (mod_accdec s k f).
Proof. intros Hf [H1 H]. split; [rewrite Route.mod_role; exact H1|apply t_mod; auto]. Qed.

(** ** Leader *)
Lemma send_prepare_t w s q : Tl w s -> Tl w (send_prepare s q).
Proof. intros H. apply tl_push; [exact I|exact H]. Qed.
Lemma send_prepares_t w l : forall s, Tl w s -> Tl w (fold_left send_prepare l s).
Proof. induction l as [|q l IH]; cbn; intros s H; auto. apply IH; auto. apply send_prepare_t; auto. Qed.
Lemma send_ad_t w s es : Tl w s -> Tlr w (send_acceptdecide s es).
Proof.
  intros H. unfold send_acceptdecide. apply tl_lift. intros l Hl. apply tl_each; [|exact H]. intros s1 q H1. unfold send_acceptdecide_to. apply tl_lift. intros [k|] _; [apply tl_mod; [apply f_ext|exact H1]|].
  apply tl_lift. intros l1 E1. apply tl_lift. intros [l2 sq] E2. destruct (PropSend.v_next _ _ _ _ E2) as (V1 & V2 & _). unfold set_latest_accept_meta in E1. destruct (vset _ _ _); [|discriminate]. injection E1 as <-. cbn in V1.
  apply tl_push; [exact I|]. apply tl_ls; auto.
Qed.
Lemma meta_t w s is r : i_prom is = i_prom (s_is s) -> Tl w s -> Tlr w (match r with Some (acc, es) => ls <- lift (set_is s is) (set_accepted_idx (s_ls s) (s_pid s) acc) ;; send_acceptdecide (set_ls (set_is s is) ls) es | None => Ok (set_is s is) end).
Proof.
  intros Hi H. destruct r as [[acc es]|]; [|apply tl_is; auto]. apply tl_lift. intros l El. apply send_ad_t, tl_ls; [exact (proj1 (PropSend.v_acc _ _ _ _ El))|apply tl_is; auto].
Qed.
Lemma accept_entry_t w s e : Tl w s -> Tlr w (accept_entry_leader s e).
Proof. intros H. unfold accept_entry_leader. destruct (append_entry_with_batching _ _) as [is r] eqn:X. apply (meta_t w s is r); [eapply PropAnswer.aewb_prom; eauto|exact H]. Qed.
Lemma accept_entries_t w s es : Tl w s -> Tlr w (accept_entries_leader s es).
Proof. intros H. unfold accept_entries_leader. destruct (append_entries_with_batching _ _) as [is r] eqn:X. apply (meta_t w s is r); [eapply PropAnswer.aeswb_prom; eauto|exact H]. Qed.
Lemma flush_leader_t w s : Tl w s -> Tlr w (flush_batch_leader s).
Proof. intros H. unfold flush_batch_leader. destruct (flush_batch_and_get_entries _) as [is r] eqn:X. apply (meta_t w s is r); [eapply PropAnswer.fbge_prom; eauto|exact H]. Qed.
Lemma send_ss_t w ss b s q : Tl w s -> Tlr w (send_accept_stopsign ss b s q).
Proof. intros H. unfold send_accept_stopsign. apply tl_lift. intros [l sq] El. apply PropSend.v_seq in El. apply tl_push; [exact I|]. apply tl_ls; [apply El|exact H]. Qed.
Lemma send_decide_t w d b s q : Tl w s -> Tlr w (send_decide d b s q).
Proof. intros H. unfold send_decide. apply tl_lift. intros [l sq] El. apply PropSend.v_seq in El. apply tl_push; [exact I|]. apply tl_ls; [apply El|exact H]. Qed.
Lemma accept_ss_t w s ss : Tl w s -> Tlr w (accept_stopsign_leader s ss).
Proof.
  intros H. unfold accept_stopsign_leader. pose proof (PropAnswer.ass_prom (s_is s) ss) as Hi. destruct (i_append_stopsign _ _) as [is r]. cbn [fst] in Hi.
  match goal with |- Tlr _ (bind ?e _) => assert (X : Tlr w e); [|destruct e as [s1|]; [|exact I]] end.
  { destruct r as [[a es]|]; [apply send_ad_t|]; apply tl_is; auto. }
  cbn [bind]. apply tl_lift. intros l El. apply PropSend.v_acc in El. apply tl_lift. intros ps Hps. apply tl_each; [intros s2 q H2; apply send_ss_t; exact H2|]. apply tl_ls; [apply El|exact X].
Qed.
Lemma accsync_t s q : Ta s -> Tar (send_accsync s q).
Proof.
  intros H. unfold send_accsync. apply ta_lift; intros ? _. apply ta_lift; intros ? _. apply ta_lift; intros ? _. apply ta_lift; intros l1 E1. apply ta_lift. intros [l sq] E2.
  apply PropSend.v_incr in E1. apply PropSend.v_next in E2. destruct E1 as (A1 & A2 & A3), E2 as (B1 & B2 & B3).
  assert (X : Ta (set_ls s l)) by (apply ta_ls; [congruence|exact H]). assert (Hn : l_n l = l_n (s_ls s)) by congruence. destruct X as (X1 & X2 & (C1 & C2 & C3 & C4)). split; [exact X1|]. split; [exact X2|]. refine (conj C1 (conj C2 (conj _ C4))).
  intros n K. apply syncs_push in K. destruct K as [K|(k & d & sy & K)]; [exact (C3 n K)|]. right. injection K as K1 _ _ _. split; [reflexivity|]. split; [exact X2|]. split; [exact X1|]. cbn. congruence.
Qed.
Lemma majority_t s : T false s -> s_role s = Leader -> Tr true (handle_majority_promises s).
Proof.
  intros H0 HL. assert (H : Tl false s) by (split; auto). clear H0. unfold handle_majority_promises, take_max_promise_sync. destruct (sync_log _ _ _ _) as [[is acc]|] eqn:Hs; [|exact I]. apply PropStable.sync_prom in Hs. destruct Hs as [Hs _]. cbn [bind].
  match goal with |- Tr true (let '(_, _) := ?e in _) => assert (X : Tl false (fst e)); [|destruct e as [s1 acc1]; cbn [fst] in X] end.
  { set (s2 := set_is _ is). assert (H2 : Tl false s2). { unfold s2. apply tl_is; [exact Hs|]. exact H. } destruct (accepted_reconfiguration s2); [exact H2|].
    match goal with |- Tl false (fst (let '(_, _) := ?e in _)) => assert (X : Tl false (fst e)); [|destruct e as [s3 acc3]; cbn [fst] in X] end.
    { destruct (s_bprops s2); [exact H2|]. cbn. exact H2. }
    destruct (s_bss s3); [|exact X]. cbn [fst]. apply tl_is; [apply PropAnswer.ass_prom|exact X]. }
  apply ta_t, ta_lift. intros l El. apply PropSend.v_acc in El. apply ta_lift. intros ps Hps.
  apply ta_each; [intros s2 q H2; apply accsync_t; exact H2|]. apply ta_ls; [apply El|]. destruct X as [X1 (A1 & A2 & A3 & A4 & A5)]. split; [reflexivity|]. split; [reflexivity|].
  split; [intros _; split; [apply (A1 X1)|right; reflexivity]|]. split; [intros _ Y; discriminate|]. split; [|split; discriminate]. intros n Hn. destruct (A3 n Hn) as [Y|[Y _]]; [auto|discriminate].
Qed.
Lemma accepted_t w s n a from : T w s -> Tr w (handle_accepted s n a from).
Proof.
  intros H. unfold handle_accepted. destruct (beq n _ && _) eqn:Hg; [|exact H]. assert (Hl : Tl w s). { split; [|exact H]. apply andb_true_iff in Hg. destruct Hg as [_ Hg]. apply andb_true_iff in Hg. destruct Hg as [Hg _]. destruct (s_role s); [discriminate|reflexivity]. }
  clear Hg. apply tl_t, tl_lift. intros l El. apply PropSend.v_acc in El. cbn zeta. assert (H1 : Tl w (set_ls s l)) by (apply tl_ls; [apply El|exact Hl]). destruct (_ && _); [|exact H1]. apply tl_lift. intros ps Hps. apply tl_each; [|exact H1].
  intros s1 q K. unfold handle_accepted_to. apply tl_lift. intros [k|] _; [apply tl_mod; [apply f_red|exact K]|apply send_decide_t; auto].
Qed.
Lemma setp_n l x f c l' m : ls_set_promise l x f c = Some (l', m) -> l_n l' = l_n l.
Proof. unfold ls_set_promise. set (l1 := if c && _ then _ else _). assert (H1 : l_n l1 = l_n l) by (unfold l1; destruct (c && _); auto). destruct (vset _ _ _) as [v|]; [|discriminate]. intros X. injection X as <- _. exact H1. Qed.
Lemma drop_n l f (x : prom_state) l' : option_map (l_set_proms l) (vset (l_proms l) f x) = Some l' -> l_n l' = l_n l.
Proof. destruct (vset _ _ _); [|discriminate]. intros X. injection X as <-. reflexivity. Qed.
Lemma handle_leader_t s n : b_pid n = s_pid s -> T false s -> Tr false (handle_leader s n).
Proof.
  intros Hn H. destruct (handle_leader s n) as [s'|] eqn:He; [|exact I]. cbn [Tr]. unfold handle_leader in He. destruct (ble n _ || ble n _) eqn:Hb; [injection He as <-; exact H|]. apply orb_false_iff in Hb. destruct Hb as [_ Hb].
  destruct H as (A1 & A2 & A3 & A4 & A5). assert (Hp : blt (i_prom (s_is s0)) n = true). { specialize (A5 eq_refl). apply ble_spec in A5. assert (Y : ~ (bal_lt n (i_prom (s_is s)) \/ bal_same n (i_prom (s_is s)))) by (rewrite <- ble_spec; unfold sp_promise in Hb; congruence). apply blt_spec. unfold bal_lt, bal_same in *. lia. }
  rewrite Hn, Nat.eqb_refl in He.
  destruct (ls_set_promise _ _ _ _) as [[l m]|] eqn:El; [|discriminate]. injection He as <-. apply setp_n in El. cbn in El. apply t_push_all; [exact I|].
  split; [intros _; cbn; split; [exact El|left; reflexivity]|]. split; [intros _ _; right; cbn; rewrite El; exact Hp|]. split; [intros k Hk; destruct (A3 k Hk) as [Y|[Y _]]; [auto|discriminate]|]. split; [discriminate|]. intros _. cbn. apply ble_spec. apply blt_spec in Hp. left. exact Hp.
Qed.
Lemma resend_leader_t w s : Tl w s -> Tlr w (resend_messages_leader s).
Proof.
  intros H. unfold resend_messages_leader. destruct (s_phase s); try exact H; [apply tl_lift; intros ps Hps; apply send_prepares_t; exact H|].
  match goal with |- Tlr w (bind ?e _) => assert (X : Tlr w e); [|destruct e as [s1|]; [|exact I]] end.
  { destruct (i_ss _); [|exact H]. apply tl_lift. intros ps Hps. apply tl_each; [|exact H]. intros sa q H1. unfold resend_ss_to. destruct (stopsign_is_decided _); [apply send_decide_t; auto|].
    apply tl_lift. intros a _. destruct (_ =? _); [exact H1|apply send_ss_t; auto]. }
  cbn [bind]. apply tl_lift. intros ps Hps. apply send_prepares_t; exact X.
Qed.

(** ** Follower *)
Lemma t_state s ph : ph <> PhAccept -> T false s -> T false (set_state s Follower ph).
Proof.
  intros Hh (A1 & A2 & A3 & A4 & A5). split; [discriminate|]. split; [discriminate|]. split; [intros n Hn; destruct (A3 n Hn) as [Y|[Y _]]; [auto|discriminate]|]. split; [intros _ X; contradiction|exact A5].
Qed.
Lemma reconnected_t s q : T false s -> T false (reconnected s q).
Proof. intros H. unfold reconnected. destruct (_ =? _); [exact H|]. apply t_push; [exact I|]. destruct (_ =? _); [apply t_state; [discriminate|]|]; exact H. Qed.
Lemma valid_t s n : T false s -> T false (fst (check_valid_ballot s n)).
Proof. intros H. unfold check_valid_ballot. destruct (bcmp _ _); [exact H|apply reconnected_t; exact H|apply t_push; [exact I|exact H]]. Qed.
Lemma seq_t s q from : T false s -> T false (fst (handle_sequence_num s q from)).
Proof. intros H. unfold handle_sequence_num. destruct (check_msg_status _ _); [exact H|apply reconnected_t; auto|exact H]. Qed.
Lemma reply_t w s n a : T w s -> Tr w (reply_accepted s n a).
Proof. intros H. unfold reply_accepted. apply t_lift. intros [k|] _; [apply t_mod; [apply f_rea|exact H]|apply t_push; [exact I|exact H]]. Qed.
Lemma forward_t w s es : T w s -> T w (forward_proposals s es).
Proof. intros H. unfold forward_proposals. destruct (_ && _); [|exact H]. apply t_push; [exact I|exact H]. Qed.
Lemma forward_ss_t w s ss : T w s -> T w (forward_stopsign s ss).
Proof. intros H. unfold forward_stopsign. destruct (_ && _); [|destruct (s_bss s); exact H]. apply t_push; [exact I|exact H]. Qed.
Lemma update_decided_t w s d : T w s -> T w (fst (update_decided s d)).
Proof.
  intros H. unfold update_decided. destruct (_ <=? _); [exact H|]. destruct (_ <? _); [|apply t_is; [reflexivity|exact H]]. destruct (flush_batch _) as [is a] eqn:Hf. apply t_is; [|exact H]. apply PropAnswer.fb_prom in Hf. exact (proj1 Hf).
Qed.
Lemma handle_t s m : (forall n q d sy, pm_msg m = MAcceptSync n q d sy -> inc = Some n) -> T false s -> Tr true (sp_handle s m).
Proof.
  intros Hinc H. unfold sp_handle. assert (L : s_role s = Leader -> Tl false s) by (intros X; split; auto).
  destruct (pm_msg m) as [n|n d na ac|pr|n q d sy|n q d es|n a|n|n q d|es|cp|n q ss|ss] eqn:Hm; match type of Hm with _ = MPromise _ => idtac | _ => apply tr_up end.
  - unfold handle_preparereq. destruct (s_role s) eqn:Hr; [exact H|]. cbn [role_eqb andb]. destruct (ble _ _); [|exact H]. apply t_lift. intros l El. apply t_lift. intros l2 E2. apply drop_n in El.
    unfold set_latest_accept_meta in E2. destruct (vset _ _ _); [|discriminate]. injection E2 as <-. apply send_prepare_t. split; [exact Hr|]. apply t_ls; [exact El|exact H].
  - unfold handle_prepare. cbn zeta. destruct (_ || _) eqn:Hg; [|exact H]. match goal with |- Tr _ (bind ?e _) => destruct e; [|exact I] end. cbn [bind]. apply t_push; [exact I|].
    destruct H as (A1 & A2 & A3 & A4 & A5). split; [discriminate|]. split; [discriminate|]. split; [intros k Hk; destruct (A3 k Hk) as [Y|[Y _]]; [auto|discriminate]|]. split; [discriminate|]. intros _. specialize (A5 eq_refl). cbn.
    assert (Y : ble (i_prom (s_is s)) n = true). { apply orb_true_iff in Hg. apply ble_spec. unfold sp_promise in Hg. destruct Hg as [Hg|Hg]; [left; apply blt_spec; exact Hg|]. apply andb_true_iff in Hg. destruct Hg as [Hg _]. apply beq_spec in Hg. right. rewrite Hg. unfold bal_same. auto. }
    apply ble_spec in A5. apply ble_spec in Y. apply ble_spec. unfold bal_lt, bal_same in *. lia.
  - destruct (s_role s) eqn:Hr; [apply t_up; exact H|]. destruct (s_phase s) eqn:Hh; try (apply t_up; exact H).
    + unfold handle_promise_prepare. destruct (beq _ _); [|apply t_up; exact H]. apply t_lift. intros [ls mj] El. apply setp_n in El. assert (X : T false (set_ls s ls)) by (apply t_ls; auto). destruct mj; [apply majority_t; [exact X|exact Hr]|apply t_up, X].
    + unfold handle_promise_accept. destruct (beq _ _); [|apply t_up; exact H]. apply t_lift. intros [ls mj] El. apply setp_n in El. apply ta_t, accsync_t. split; [exact Hh|]. split; [exact Hr|apply t_ls; [exact El|apply t_up; exact H]].
  - specialize (Hinc n q d sy eq_refl). unfold handle_acceptsync. assert (Hv : snd (check_valid_ballot s n) = true -> fst (check_valid_ballot s n) = s /\ bcmp (i_prom (s_is s)) n = Eq).
    { unfold check_valid_ballot, sp_promise. destruct (bcmp _ n) eqn:B; try discriminate. auto. }
    pose proof (valid_t s n H) as X. destruct (check_valid_ballot s n) as [s1 v]. cbn [fst snd] in X, Hv. destruct (v && _) eqn:Hg; [|exact X]. apply andb_true_iff in Hg. destruct (Hv (proj1 Hg)) as [-> Hv2]. destruct (sync_log _ _ _ _) as [[is acc]|] eqn:Hs; [|exact I]. apply PropStable.sync_prom in Hs. destruct Hs as [Hs _]. cbn [bind].
    apply t_push; [exact I|]. match goal with |- T _ (set_lam (set_cseq (set_state ?a _ _) _) _) => assert (Y : T false a /\ i_prom (s_is a) = i_prom (s_is s)) end.
    { assert (Z : T false (set_is (set_cprom s None) is)) by (apply t_is; [exact Hs|exact X]).
      destruct (i_ss _); [split; [exact Z|exact Hs]|]. unfold forward_buffered_proposals. destruct (s_bprops _); [split; [exact Z|exact Hs]|]. split; [apply forward_t; exact Z|]. unfold forward_proposals. match goal with |- context [if ?b then _ else _] => destruct b end; exact Hs. }
    revert Y. match goal with |- _ -> T _ (set_lam (set_cseq (set_state ?a _ _) _) _) => generalize a end. intros s2 [(A1 & A2 & A3 & A4 & A5) Y2]. split; [discriminate|]. split; [discriminate|]. split; [intros k Hk; destruct (A3 k Hk) as [Y|[Y _]]; [auto|discriminate]|]. split; [|exact A5].
    intros _ _. right. exists n. split; [exact Hinc|]. cbn. rewrite Y2. exact Hv2.
  - unfold handle_acceptdecide. pose proof (valid_t s n H) as X. destruct (check_valid_ballot s n) as [s1 v]. cbn [fst] in X. destruct (_ && _); [|exact X].
    pose proof (seq_t s1 q (b_pid n) X) as Y. destruct (handle_sequence_num _ _ _) as [s2 st]. cbn [fst] in Y. destruct st; try exact Y. destruct (append_entries_and_get_accepted_idx _ _) as [is r1] eqn:Ha. apply PropAnswer.aegai_ans in Ha.
    pose proof (update_decided_t false (set_is s2 is) d (t_is _ s2 is (proj1 Ha) Y)) as Z. destruct (update_decided _ _) as [s3 r2]. cbn [fst] in Z. destruct (match r2 with Some _ => r2 | None => r1 end); [apply reply_t|]; exact Z.
  - apply accepted_t; exact H.
  - unfold handle_notaccepted. destruct (_ && _); [|exact H]. apply t_lift. intros l El. apply drop_n in El. apply t_ls; [exact El|exact H].
  - unfold handle_decide. pose proof (valid_t s n H) as X. destruct (check_valid_ballot s n) as [s1 v]. cbn [fst] in X. destruct (_ && _); [|exact X].
    pose proof (seq_t s1 q (b_pid n) X) as Y. destruct (handle_sequence_num _ _ _) as [s2 st]. cbn [fst] in Y. destruct st; try exact Y.
    pose proof (update_decided_t false s2 d Y) as Z. destruct (update_decided _ _) as [s3 r2]. cbn [fst] in Z. destruct r2; [apply reply_t|]; exact Z.
  - unfold handle_forwarded_proposal. destruct (accepted_reconfiguration s); [exact H|]. destruct (s_role s) eqn:Hr, (s_phase s); try (apply forward_t; exact H); try exact H. apply tl_t, accept_entries_t; auto.
  - unfold handle_compaction, sp_snapshot. destruct cp as [i|i].
    + destruct (try_trim _ _) as [[is r]|] eqn:Ht; [|exact I]. apply t_is; [eapply Quiet.trim_pr; eauto|exact H].
    + destruct (try_snapshot _ _) as [[is r]|] eqn:Ht; [|exact I]. apply Quiet.snapshot_pr in Ht. destruct r; apply t_is; auto.
  - unfold handle_accept_stopsign. pose proof (valid_t s n H) as X. destruct (check_valid_ballot s n) as [s1 v]. cbn [fst] in X. destruct (_ && _); [|exact X].
    pose proof (seq_t s1 q (b_pid n) X) as Y. destruct (handle_sequence_num _ _ _) as [s2 st]. cbn [fst] in Y. destruct st; try exact Y. destruct (i_set_stopsign _ _) as [[is acc]|] eqn:Hs; [|exact I]. cbn [bind]. apply reply_t. apply t_is; [|exact Y].
    unfold i_set_stopsign in Hs. destruct (c_ss _); cbn in Hs; injection Hs as <- _; reflexivity.
  - unfold handle_forwarded_stopsign. destruct (accepted_reconfiguration s); [exact H|]. destruct (s_role s) eqn:Hr, (s_phase s); try (apply forward_ss_t; exact H); try exact H. apply tl_t, accept_ss_t; auto.
Qed.
Lemma resend_t s : T false s -> Tr false (resend_message_timeout s).
Proof.
  intros H. unfold resend_message_timeout. destruct (s_role s) eqn:Hr; [|apply tl_t, resend_leader_t; split; auto].
  unfold resend_messages_follower, send_preparereq_to_all_peers. destruct (s_phase s); try exact H; [|apply t_push_all; [exact I|exact H]].
  destruct (s_cprom s) as [x|] eqn:Hx; [apply t_push; [exact I|exact H]|apply t_push_all; [exact I|apply t_state; [discriminate|exact H]]].
Qed.
Lemma flush_t w s : T w s -> Tr w (flush_batch_timeout s).
Proof.
  intros H. unfold flush_batch_timeout. destruct (s_role s) eqn:Hr, (s_phase s) eqn:Hh; try exact H; [|apply tl_t, flush_leader_t; split; auto].
  unfold flush_batch_follower. destruct (flush_batch _) as [is a] eqn:Hf. apply PropAnswer.fb_prom in Hf. destruct Hf as [Hf _]. destruct (_ <? _); [apply reply_t|]; apply t_is; auto.
Qed.
End Fix.

(** ** Calls *)
Definition sync_in (c : call) : option ballot := match c with CHandle (MsgSP m) => match pm_msg m with MAcceptSync n _ _ _ => Some n | _ => None end | _ => None end.
Lemma t_start s : led s -> forall inc, T s inc false s.
Proof.
  intros H inc. split; [exact H|]. split; [auto|]. split; [auto|]. split; [auto|]. intros _. apply ble_spec. right. unfold bal_same. auto.
Qed.
Lemma exec_t o c o' r : PropAnswer.owned o -> led (o_sp o) -> exec o c = Ok (o', r) -> T (o_sp o) (sync_in c) true (o_sp o').
Proof.
  intros Ho H0 He. assert (H : T (o_sp o) (sync_in c) false (o_sp (start_call o))) by exact (t_start _ H0 _). unfold exec in He. set (s0 := o_sp o) in *. set (inc := sync_in c) in *. assert (L : s_role (o_sp (start_call o)) = Leader -> Tl s0 inc false (o_sp (start_call o))) by (intros X; split; auto).
  destruct c as [e|cc0 meta| |i|i l|q| |q|[m|m]]; cbn [exec_call] in He; match goal with m : pmessage |- _ => idtac | _ => apply t_up end.
  - unfold sp_append in He. destruct (accepted_reconfiguration _); [injection He as <- _; exact H|]. assert (X : Tr s0 inc false (propose_entry (o_sp (start_call o)) e)).
    { unfold propose_entry. destruct (s_role (o_sp (start_call o))) eqn:Hr, (s_phase (o_sp (start_call o))); try (apply forward_t; exact H); try exact H. apply tl_t, accept_entry_t; auto. }
    destruct (propose_entry _ _); [|discriminate]. injection He as <- _. exact X.
  - unfold reconfigure in He. destruct (cluster_validate cc0); [|injection He as <- _; exact H]. unfold sp_reconfigure in He. destruct (accepted_reconfiguration _); [injection He as <- _; exact H|]. cbn zeta in He.
    match type of He with context [bind (A := sp) ?e _] => assert (X : Tr s0 inc false e); [|destruct e; [injection He as <- _; exact X|discriminate]] end.
    destruct (s_role (o_sp (start_call o))) eqn:Hr, (s_phase (o_sp (start_call o))); try (apply forward_ss_t; exact H); try exact H. apply tl_t, accept_ss_t; auto.
  - destruct (tick _) as [o1|] eqn:Ht; [|discriminate]. injection He as <- _. apply PropAnswer.tick3 in Ht. destruct Ht as (s1 & s2 & H1 & H2 & H3).
    assert (X : T s0 inc false s1). { assert (Y : s1 = o_sp (start_call o) \/ exists n, b_pid n = own_pid o /\ handle_leader (o_sp (start_call o)) n = Ok s1).
      { apply PropAnswer.election_own; [exact Ho|]. change (o_eclk (start_call o)) with (o_eclk o) in H1. destruct (due (o_eclk o)); [|apply H1]. change (hb_timeout (o_ble (start_call o)) (s_role (o_sp (start_call o)), s_phase (o_sp (start_call o))) (sp_promise (o_sp (start_call o)))) with (hb_timeout (o_ble o) (role_of o) (get_promise o)) in H1.
        destruct (hb_timeout _ _ _) as [b [n|]]; apply H1. }
      destruct Y as [->|(n & Y1 & Y2)]; [exact H|]. pose proof (handle_leader_t s0 inc (o_sp (start_call o)) n Y1 H) as W. rewrite Y2 in W. exact W. }
    assert (X2 : T s0 inc false s2). { destruct (due (o_rclk (start_call o))); [|subst s2; exact X]. pose proof (resend_t s0 inc _ X) as Y. rewrite H2 in Y. exact Y. }
    destruct (due (o_fclk (start_call o))); [|rewrite H3; exact X2]. pose proof (flush_t s0 inc false _ X2) as Y. rewrite H3 in Y. exact Y.
  - assert (X : match sp_trim (o_sp (start_call o)) i with Ok (s, _) => T s0 inc false s | Panic _ => True end); [|destruct (sp_trim _ _) as [[s x]|]; [|discriminate]; injection He as <- _; exact X].
    unfold sp_trim. destruct (s_role (o_sp (start_call o))); [exact H|]. destruct (get_min_all_accepted_idx _) as [mn|]; [|exact I]. cbn [lift bind].
    destruct i as [i|]; [destruct (i <=? mn); [|exact H]|]; (destruct (try_trim _ _) as [[is x]|] eqn:Ht; [|exact I]; apply Quiet.trim_pr in Ht; cbn [bind]; destruct x; [apply t_is; auto|]; apply t_push_all; [exact I|apply t_is; auto]).
  - unfold sp_snapshot in He. destruct (try_snapshot _ _) as [[is x]|] eqn:Ht; [|discriminate]. apply Quiet.snapshot_pr in Ht. cbn [bind] in He. destruct x; [injection He as <- _; apply t_is; auto|]. destruct l; injection He as <- _; [apply t_is; auto|]. apply t_push_all; [exact I|apply t_is; auto].
  - injection He as <- _. apply reconnected_t; auto.
  - unfold try_become_leader in He. cbn zeta in He. match type of He with context [handle_leader ?a ?b] => assert (X : Tr s0 inc false (handle_leader a b)) end.
    { apply handle_leader_t; [|exact H]. cbn. destruct Ho as [_ Ho]. exact Ho. }
    destruct (handle_leader _ _) as [s1|]; [|discriminate]. injection He as <- _. exact X.
  - injection He as <- _. exact H.
  - unfold handle_incoming in He. pose proof (handle_t s0 inc (o_sp (start_call o)) m) as X. destruct (sp_handle _ m) as [s1|]; [|discriminate]. injection He as <- _. apply X; [|exact H]. unfold inc. cbn. intros n q d sy ->. reflexivity.
  - injection He as <- _. exact H.
Qed.
End WithEntry.
