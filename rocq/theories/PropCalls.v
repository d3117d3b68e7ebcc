(** * C09, C38: proposals at one server; C42: messages of stale leaders *)
From Coq Require Import List Arith Bool Lia.
Import ListNotations.
From Verif Require Import Types Config MemStore Internal LeaderState SeqPaxos Ble Omni System Basics Scen Spec Refute PropAgreement Local Frame PropLocal.

Section WithEntry.
Context {E : EntryT}.

(** The invariants of a server at rest. *)
Lemma state_loc o : server_state o -> Loc (promised (storage o)) any (s_out (o_sp o)) (rest o).
Proof. apply own_state. Qed.
Lemma state_fr o : server_state o -> FR (own_pid o) (s_peers (o_sp o)) (maxpid o) (l_quorum (s_ls (o_sp o))) (rest o) /\ 1 <= own_pid o <= maxpid o.
Proof. intros H. apply framed_state in H. destruct H as (H1 & H2 & _). split; auto. apply fr_is; auto. Qed.
Lemma cache_ss o : server_state o -> i_ss (s_is (rest o)) = ms_ss (storage o).
Proof. intros H. apply own_state in H. apply (h_ss _ (il_coh _ _ _ (lc_is _ _ _ _ H))). Qed.

(** C09.  With a stop sign in the log, both kinds of proposals are refused with the very
    argument, and the server is the same as before. *)
Theorem C09_stopped_server_refuses_entries :
  forall o ss e, server_state o -> ms_ss (storage o) = Some ss ->
  exists o', exec o (CAppend e) = Ok (o', RPropose (Some (PendingReconfigEntry e))) /\ same_state o o' /\ crash_points o (CAppend e) = [storage o].
Proof.
  intros o ss e Ho Hss. exists (start_call o).
  assert (X : exec o (CAppend e) = Ok (start_call o, RPropose (Some (PendingReconfigEntry e)))).
  { unfold exec, exec_call, sp_append, accepted_reconfiguration. change (o_sp (start_call o)) with (rest o). rewrite (cache_ss o Ho), Hss. reflexivity. }
  split; [exact X|]. split; [reflexivity|]. unfold crash_points. rewrite X. reflexivity.
Qed.
Theorem C09_stopped_server_refuses_reconfiguration :
  forall o ss c m, server_state o -> ms_ss (storage o) = Some ss ->
  exists o', exec o (CReconfigure c m) = Ok (o', RPropose (Some (if cluster_validate c then PendingReconfigConfig c m else ConfigErr c m))) /\
    same_state o o' /\ crash_points o (CReconfigure c m) = [storage o].
Proof.
  intros o ss c m Ho Hss. exists (start_call o).
  assert (X : exec o (CReconfigure c m) = Ok (start_call o, RPropose (Some (if cluster_validate c then PendingReconfigConfig c m else ConfigErr c m)))).
  { unfold exec, exec_call, reconfigure. destruct (cluster_validate c); [|reflexivity]. unfold sp_reconfigure, accepted_reconfiguration. change (o_sp (start_call o)) with (rest o). rewrite (cache_ss o Ho), Hss. reflexivity. }
  split; [exact X|]. split; [reflexivity|]. unfold crash_points. rewrite X. reflexivity.
Qed.

(** ** C38 *)

Lemma promised_from_in l : forall i leader p, In p (promised_from l i leader) -> i + 1 <= p <= i + length l /\ p <> leader /\ exists m, nth_error l (p - 1 - i) = Some (Promised m).
Proof.
  induction l as [|x l IH]; cbn; intros i leader p H; [tauto|].
  assert (Hr : In p (promised_from l (i + 1) leader) -> i + 1 <= p <= i + S (length l) /\ p <> leader /\ exists m, nth_error (x :: l) (p - 1 - i) = Some (Promised m)).
  { intros Hp. apply IH in Hp. destruct Hp as (H1 & H2 & m & H3). split; [lia|]. split; auto. exists m. replace (p - 1 - i) with (S (p - 1 - (i + 1))) by lia. exact H3. }
  destruct (is_promised x) eqn:Hx; cbn in H; auto. destruct (Nat.eqb_spec (i + 1) leader); cbn in H; auto. destruct H as [<-|H]; auto.
  split; [lia|]. split; auto. destruct x; try discriminate. exists m. replace (i + 1 - 1 - i) with 0 by lia. reflexivity.
Qed.
Lemma followers_some P M Q l : LV M Q l -> b_pid (l_n l) = P -> P <> 0 -> exists q, get_promised_followers l = Some q /\ forall p, In p q -> 1 <= p <= M /\ p <> P /\ exists m, nth_error (l_proms l) (p - 1) = Some (Promised m).
Proof.
  intros H Hp H0. unfold get_promised_followers. rewrite Hp. destruct (Nat.eqb_spec P 0); [tauto|]. cbn [andb]. eexists. split; [reflexivity|].
  intros p Hin. apply promised_from_in in Hin. rewrite (lv_proms _ _ _ H) in Hin. destruct Hin as (H1 & H2 & m & H3). split; [lia|]. split; auto. exists m. replace (p - 1) with (p - 1 - 0) by lia. auto.
Qed.
Lemma for_each_all (I : sp -> Prop) f l : (forall s p, I s -> In p l -> exists s', f s p = Ok s' /\ I s') -> forall s, I s -> exists s', for_each s l f = Ok s' /\ I s'.
Proof.
  induction l as [|p l IH]; intros Hf s H; cbn; [eauto|]. destruct (Hf s p H (or_introl eq_refl)) as (s1 & -> & H1). cbn. apply IH; auto. intros s2 q H2 Hq. apply Hf; auto. right. auto.
Qed.

Lemma filter_upd {B} (f : B -> bool) l : forall k x y, nth_error l k = Some x -> f x = false -> f y = false -> filter f (upd l k y) = filter f l.
Proof.
  induction l as [|a l IH]; intros [|k] x y H Hx Hy; cbn in *; try discriminate; auto.
  - injection H as ->. rewrite Hx, Hy. reflexivity.
  - rewrite (IH k x y); auto.
Qed.

Section Send.
Context (b0 : ballot) (A : T -> Prop) (q0 : list pmessage) (P : nat) (ps : list nat) (M : nat) (Q : quorum).
(** What the messages to the followers leave alone. *)
Definition Kept (i : istore) (bp : list T) (fw : list pmessage) (r : role) (p : phase) (s : sp) : Prop :=
  Loc b0 A q0 s /\ FR P ps M Q s /\ s_is s = i /\ s_bprops s = bp /\ filter is_forward (s_out s) = fw /\ s_role s = r /\ s_phase s = p.

Lemma send_ad_to_kept i bp fw r ph d es s p : Forall A es -> 1 <= p <= M -> Kept i bp fw r ph s -> exists s', send_acceptdecide_to d es s p = Ok s' /\ Kept i bp fw r ph s'.
Proof.
  intros HA Hp (H1 & H2 & H3 & H4 & H5 & H6 & H7).
  assert (He : exists s', send_acceptdecide_to d es s p = Ok s' /\ s_is s' = i /\ s_bprops s' = bp /\ filter is_forward (s_out s') = fw /\ s_role s' = r /\ s_phase s' = ph).
  { unfold send_acceptdecide_to. pose proof (fr_ls _ _ _ _ _ H2) as HL. destruct (vget_some (l_accmeta (s_ls s)) p) as [x Hx]; [rewrite (lv_accmeta _ _ _ HL); auto|].
    destruct (get_latest_accdec s p) as [[k|]|] eqn:Hg; cbn [lift bind].
    - eexists. split; [reflexivity|]. unfold mod_accdec. unfold get_latest_accdec in Hg. destruct (get_latest_accept_meta _ _) as [[[b j]|]|]; try discriminate. destruct (beq b _); [|discriminate].
      destruct (nth_error (s_out s) j) as [m|] eqn:Hj; [|discriminate]. destruct (pm_msg m) eqn:Hm; try discriminate. injection Hg as <-. rewrite Hj. cbn. repeat split; auto.
      rewrite <- H5. eapply filter_upd; eauto; unfold is_forward; cbn; rewrite Hm; reflexivity.
    - unfold set_latest_accept_meta. destruct (vset_some (l_accmeta (s_ls s)) p (option_map (fun x => (l_n (s_ls s), x)) (Some (length (s_out s))))) as [v Hv]; [rewrite (lv_accmeta _ _ _ HL); auto|].
      rewrite Hv. cbn [option_map lift bind]. unfold next_seq_num. cbn [l_seqs l_set_accmeta].
      destruct (vget_some (l_seqs (s_ls s)) p) as [sq Hsq]; [rewrite (lv_seqs _ _ _ HL); auto|]. rewrite Hsq.
      destruct (vset_some (l_seqs (s_ls s)) p (mkSeq (sq_sess sq) (sq_ctr sq + 1))) as [v2 Hv2]; [rewrite (lv_seqs _ _ _ HL); auto|]. rewrite Hv2. cbn [option_map lift bind].
      eexists. split; [reflexivity|]. cbn. repeat split; auto. rewrite filter_app, H5. cbn. apply app_nil_r.
    - exfalso. apply (latest_accdec_ok _ _ _ _ _ H1 (ex_intro _ x Hx)). exact Hg. }
  destruct He as (s' & He & K). exists s'. split; auto. pose proof (send_ad_to_ok _ _ _ d es s p HA H1) as X1. pose proof (send_ad_to_f _ _ _ _ d es s p H2) as X2. rewrite He in X1, X2. split; [exact X1|]. split; [exact X2|exact K].
Qed.
Lemma send_ad_kept i bp fw ph es s : Forall A es -> P <> 0 -> Kept i bp fw Leader ph s -> exists s', send_acceptdecide s es = Ok s' /\ Kept i bp fw Leader ph s'.
Proof.
  intros HA H0 H. unfold send_acceptdecide. pose proof H as (_ & H2 & _ & _ & _ & H6 & _). destruct (followers_some P M Q (s_ls s)) as (q & Hq & Hin); auto; [apply (fr_ls _ _ _ _ _ H2)|apply (fr_ldr _ _ _ _ _ H2); auto|].
  rewrite Hq. cbn [lift bind]. apply for_each_all; auto. intros s1 p K Hp. apply send_ad_to_kept; auto. apply Hin; auto.
Qed.
End Send.

Lemma batch_held (s : istore) e is r : append_entry_with_batching s e = (is, r) -> ms_log (i_st is) ++ c_batch (i_ca is) = ms_log (i_st s) ++ c_batch (i_ca s) ++ [e].
Proof.
  unfold append_entry_with_batching, cache_append_entry, take_entries_if_batch_is_full. cbn. destruct (_ <=? _); cbn; intros X; injection X as <- <-; cbn; rewrite ?app_nil_r; auto.
Qed.

(** The entry [e] goes to exactly one place, exactly once. *)
Definition proposed (o : omni) (e : T) (o' : omni) : Prop :=
  (held o' = held o ++ [e] /\ buffered o' = buffered o /\ forwarded o' = forwarded o /\ role_of o = (Leader, PhAccept)) \/
  (held o' = held o /\ storage o' = storage o /\ buffered o' = buffered o ++ [e] /\ outgoing o' = outgoing o) \/
  (held o' = held o /\ storage o' = storage o /\ buffered o' = buffered o /\
   exists l ph, get_current_leader o = Some (l, ph) /\ l <> own_pid o /\ outgoing o' = outgoing o ++ [mkPM (own_pid o) l (MProposalForward [e])]).

(** C38, and the second half of C09: without a stop sign [append] returns no error and does
    not panic. *)
Theorem C38_append_reaches_log_or_queue :
  forall o e, server_state o -> ms_ss (storage o) = None ->
  exists o', exec o (CAppend e) = Ok (o', RPropose None) /\ proposed o e o'.
Proof.
  intros o e Ho Hss. unfold exec, exec_call, sp_append, accepted_reconfiguration. change (o_sp (start_call o)) with (rest o). rewrite (cache_ss o Ho), Hss.
  assert (Hf : exists o', ('(s, r) <- (s <- Ok (forward_proposals (rest o) [e]);; Ok (s, None));; Ok (set_sp (start_call o) s, RPropose r)) = Ok (o', RPropose None) /\ proposed o e o').
  { cbn [bind]. eexists. split; [reflexivity|]. right. unfold forward_proposals, sp_leader, sp_promise. change (s_pid (rest o)) with (own_pid o). change (i_prom (s_is (rest o))) with (get_promise o).
    unfold get_current_leader. destruct (Nat.eqb_spec (b_pid (get_promise o)) 0) as [H0|H0].
    - rewrite H0. left. repeat split.
    - destruct (Nat.ltb_spec 0 (b_pid (get_promise o))); [|lia]. destruct (Nat.eqb_spec (own_pid o) (b_pid (get_promise o))) as [H1|H1].
      + left. repeat split.
      + right. repeat split. do 2 eexists. split; [reflexivity|]. split; auto. }
  unfold propose_entry. change (s_role (rest o)) with (fst (role_of o)). change (s_phase (rest o)) with (snd (role_of o)).
  destruct (role_of o) as [[|] [| | |]] eqn:Hro; cbn [fst snd]; try exact Hf; clear Hf.
  - cbn [bind]. eexists. split; [reflexivity|]. right. left. repeat split.
  - unfold accept_entry_leader. destruct (append_entry_with_batching (s_is (rest o)) e) as [is r] eqn:Ha. pose proof (batch_held _ _ _ _ Ha) as Hh.
    pose proof (state_loc o Ho) as HL. destruct (state_fr o Ho) as [HF Hpid].
    pose proof (il_aewb _ _ _ e (lc_is _ _ _ _ HL) I) as X1. pose proof (aewb_meta _ _ _ e (lc_is _ _ _ _ HL) I) as X2. rewrite Ha in X1, X2. cbn [fst snd] in X1, X2.
    assert (HL1 : Loc (promised (storage o)) any (s_out (o_sp o)) (set_is (rest o) is)) by (apply loc_is; auto).
    assert (HF1 := fr_is _ _ _ _ _ is HF).
    assert (Hp : forall s', s_is s' = is -> s_bprops s' = buffered o -> filter is_forward (s_out s') = forwarded o -> proposed o e (set_sp (start_call o) s')).
    { intros s' K1 K2 K3. left. unfold held, storage, buffered, forwarded, outgoing. cbn [o_sp set_sp]. rewrite K1. split; [rewrite Hh, app_assoc; reflexivity|]. split; [exact K2|]. split; [exact K3|auto]. }
    injection Hro as Hr1 Hr2. destruct r as [[acc es]|].
    + unfold set_accepted_idx. cbn [s_ls s_pid set_is]. destruct (vset_some (l_accs (s_ls (rest o))) (s_pid (rest o)) acc) as [v Hv]; [rewrite (lv_accs _ _ _ (fr_ls _ _ _ _ _ HF)); exact Hpid|].
      rewrite Hv. cbn [option_map lift bind]. set (s1 := set_ls (set_is (rest o) is) (l_set_accs (s_ls (rest o)) v)).
      assert (Hs : set_accepted_idx (s_ls (rest o)) (s_pid (rest o)) acc = Some (l_set_accs (s_ls (rest o)) v)) by (unfold set_accepted_idx; rewrite Hv; reflexivity).
      destruct (send_ad_kept (promised (storage o)) any (s_out (o_sp o)) (own_pid o) (s_peers (o_sp o)) (maxpid o) (l_quorum (s_ls (o_sp o))) is (buffered o) (forwarded o) PhAccept es s1) as (s' & He & K).
      * exact X2.
      * lia.
      * split; [eapply loc_setacc; eauto|]. split; [eapply fr_setacc; eauto|]. repeat split; auto.
      * rewrite He. cbn [bind]. eexists. split; [reflexivity|]. destruct K as (_ & _ & K3 & K4 & K5 & _). apply Hp; auto.
    + cbn [bind]. eexists. split; [reflexivity|]. apply Hp; reflexivity.
Qed.
Corollary C09_append_never_fails_without_stopsign :
  forall o e, server_state o -> ms_ss (storage o) = None -> exists o', exec o (CAppend e) = Ok (o', RPropose None).
Proof. intros o e Ho Hs. destruct (C38_append_reaches_log_or_queue o e Ho Hs) as (o' & H & _). eauto. Qed.

(** ** C42 *)

Inductive stale_msg (b : ballot) : pmsg -> Prop :=
| stale_sync n sq d sy : blt n b = true -> stale_msg b (MAcceptSync n sq d sy)
| stale_acc n sq d es : blt n b = true -> stale_msg b (MAcceptDecide n sq d es)
| stale_ss n sq ss : blt n b = true -> stale_msg b (MAcceptStopSign n sq ss)
| stale_dec n sq d : blt n b = true -> stale_msg b (MDecide n sq d).
Definition sender_ballot (m : pmsg) : ballot :=
  match m with MAcceptSync n _ _ _ | MAcceptDecide n _ _ _ | MAcceptStopSign n _ _ | MDecide n _ _ => n | _ => bdef end.

(** The whole effect of such a message is one more outgoing message, which tells the sender
    the promise. *)
Theorem C42_stale_leader_is_answered :
  forall o from to m, stale_msg (get_promise o) m ->
  exists o', exec o (CHandle (MsgSP (mkPM from to m))) = Ok (o', RUnit) /\
    storage o' = storage o /\ role_of o' = role_of o /\ crash_points o (CHandle (MsgSP (mkPM from to m))) = [storage o] /\
    same_state (set_sp o (push (o_sp o) (b_pid (sender_ballot m)) (MNotAccepted (get_promise o)))) o'.
Proof.
  intros o from to m Hm.
  assert (Hc : forall n, blt n (get_promise o) = true -> check_valid_ballot (rest o) n = (push (rest o) (b_pid n) (MNotAccepted (get_promise o)), false)).
  { intros n Hn. unfold check_valid_ballot. change (i_prom (s_is (rest o))) with (get_promise o). assert (X : bcmp (get_promise o) n = Gt); [|rewrite X; reflexivity].
    apply blt_spec in Hn. pose proof (bcmp_spec (get_promise o) n) as Hb. destruct (bcmp (get_promise o) n); auto; unfold bal_lt, bal_same in *; lia. }
  assert (X : exec o (CHandle (MsgSP (mkPM from to m))) = Ok (set_sp (start_call o) (push (rest o) (b_pid (sender_ballot m)) (MNotAccepted (get_promise o))), RUnit)).
  { unfold exec, exec_call, handle_incoming. change (o_sp (start_call o)) with (rest o). unfold sp_handle. cbn [pm_msg pm_from].
    destruct Hm as [n sq d sy H|n sq d es H|n sq ss H|n sq d H]; cbn [sender_ballot];
      [unfold handle_acceptsync|unfold handle_acceptdecide|unfold handle_accept_stopsign|unfold handle_decide]; rewrite (Hc _ H); reflexivity. }
  eexists. split; [exact X|]. split; [reflexivity|]. split; [reflexivity|]. split; [unfold crash_points; rewrite X; reflexivity|reflexivity].
Qed.
Theorem C42_stale_prepare_is_ignored :
  forall o from to n d na a, blt n (get_promise o) = true ->
  exists o', exec o (CHandle (MsgSP (mkPM from to (MPrepare n d na a)))) = Ok (o', RUnit) /\ same_state o o' /\ crash_points o (CHandle (MsgSP (mkPM from to (MPrepare n d na a)))) = [storage o].
Proof.
  intros o from to n d na a H.
  assert (X : exec o (CHandle (MsgSP (mkPM from to (MPrepare n d na a)))) = Ok (start_call o, RUnit)).
  { unfold exec, exec_call, handle_incoming. change (o_sp (start_call o)) with (rest o). unfold sp_handle. cbn [pm_msg pm_from]. unfold handle_prepare. change (i_prom (s_is (rest o))) with (get_promise o).
    assert (X1 : blt (get_promise o) n = false). { destruct (blt (get_promise o) n) eqn:Hx; auto. apply blt_spec in Hx, H. unfold bal_lt in *. lia. }
    assert (X2 : beq (get_promise o) n = false). { destruct (beq (get_promise o) n) eqn:Hx; auto. apply beq_spec in Hx. apply blt_spec in H. rewrite Hx in H. unfold bal_lt in *. lia. }
    rewrite X1, X2. reflexivity. }
  eexists. split; [exact X|]. split; [reflexivity|unfold crash_points; rewrite X; reflexivity].
Qed.
End WithEntry.

Print Assumptions C09_stopped_server_refuses_entries.
Print Assumptions C09_stopped_server_refuses_reconfiguration.
Print Assumptions C38_append_reaches_log_or_queue.
Print Assumptions C09_append_never_fails_without_stopsign.
Print Assumptions C42_stale_leader_is_answered.
Print Assumptions C42_stale_prepare_is_ignored.

(** ** Cases, in the run of PropAgreement.v *)
Section Case.
Local Existing Instance plain.

Definition ret_of (o : omni) (c : call) : option ret := match exec o c with Ok (_, r) => Some r | Panic _ => None end.

(** All servers of the run are server states. *)
Lemma case_server1 p o : nodes sys_case1 p = Some o -> server_state o.
Proof. exact (cluster_server_state _ _ _ _ p o case_reach1). Qed.
Lemma case_server2 p o : nodes sys_case2 p = Some o -> server_state o.
Proof. exact (cluster_server_state _ _ _ _ p o case_reach2). Qed.
Lemma case_server3 p o : nodes sys_case3 p = Some o -> server_state o.
Proof. exact (cluster_server_state _ _ _ _ p o case_reach3). Qed.

Example C09_case :
  obs sys_case3 1 (fun o => (ms_ss (storage o), ret_of o (CAppend (5 : @T plain)), ret_of o (CReconfigure cc3 None))) =
    Some (Some (mkSS cc_next None), Some (RPropose (Some (PendingReconfigEntry (5 : @T plain)))), Some (RPropose (Some (PendingReconfigConfig cc3 None)))) /\
  obs sys_case2 1 (fun o => (ms_ss (storage o), ret_of o (CAppend (5 : @T plain)))) = Some (None, Some (RPropose None)).
Proof. vm_compute. auto. Qed.

(** The three places: log of the leader, message of a follower, buffer of a server that
    knows no leader yet. *)
Definition after_append (o : omni) (e : T) :=
  match exec o (CAppend e) with
  | Ok (o', _) => Some (held o', buffered o', map (fun m => (pm_to m, pm_msg m)) (forwarded o'))
  | Panic _ => None
  end.
Example C38_case :
  obs sys_case2 2 (fun o => after_append o (5 : @T plain)) = Some (Some ([11; 12; 13; 14; 5], [], [])) /\
  obs sys_case2 3 (fun o => after_append o (5 : @T plain)) = Some (Some ([11; 12; 13; 14], [], [(2, MProposalForward [5])])) /\
  obs ini 3 (fun o => after_append o (5 : @T plain)) = Some (Some ([], [5], [])).
Proof. vm_compute. auto. Qed.

(** Server 3 has promised ballot 2; server 1 still leads in ballot 1. *)
Example C42_case :
  obs sys_case2 3 (fun o => match exec o (CHandle (MsgSP (mkPM 1 3 (MAcceptDecide (mkB 1 1 0 1) (mkSeq 1 6) 2 [21 : @T plain])))) with
    | Ok (o', _) => Some (held o', map (fun m => (pm_to m, pm_msg m)) (outgoing o'))
    | Panic _ => None end) = Some (Some ([11; 12; 13; 14], [(1, MNotAccepted (mkB 1 2 0 2))])) /\
  obs sys_case2 3 (fun o => blt (mkB 1 1 0 1) (get_promise o)) = Some true.
Proof. vm_compute. auto. Qed.
End Case.
