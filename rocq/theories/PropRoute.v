(** * C69: senders and receivers of messages *)
From Coq Require Import List Arith Bool Lia.
Import ListNotations.
From Verif Require Import Types Config MemStore Internal LeaderState SeqPaxos Ble Omni System Basics Spec Prims Route.
From Verif Require Import Scen Refute PropAgreement.
From Verif Require PropElect PropStable PropLocal NoPanic SysInv Agree PropAnswer PropCompact PropFresh.

Section WithEntry.
Context {E : EntryT}.

(** ** Specification *)

(** Messages that only a leader sends carry its ballot. *)
Definition leader_message (m : message) (b : ballot) : Prop :=
  match m with
  | MsgSP m => match pm_msg m with MPrepare n _ _ _ | MAcceptSync n _ _ _ | MAcceptDecide n _ _ _ | MDecide n _ _ | MAcceptStopSign n _ _ => n = b | _ => False end
  | MsgBLE _ => False
  end.
(** [m] names [p] as its sender and another id from [ids] as its receiver; if only leaders send such
    messages, then it carries a ballot of [p]. *)
Definition well_addressed (ids : list node_id) (p : node_id) (m : message) : Prop :=
  msg_from m = p /\ In (msg_to m) ids /\ msg_to m <> p /\ forall b, leader_message m b -> b_pid b = p.
(** The messages the server hands over when the user asks for them. *)
Definition handed_over (o : omni) : list message := snd (take_outgoing_messages o []).
(** If the action is a call of [reconnected], then with an id from [ids]. *)
Definition reconnects_to (ids : list node_id) (a : action) : Prop :=
  forall p q, action_event a = Some (p, ECall (CReconnected q)) -> In q ids.

(** ** Proof *)
Section Inv.
Context (cc : cluster_config) (N : list node_id) (HMN : incl (cc_nodes cc) N).
Notation M := (cc_nodes cc).
Definition Eb (p : node_id) (b : bles) : Prop := (forall q, In q (e_peers b) -> okt N p q) /\ forall m, In m (e_out b) -> bm_from m = p /\ okt N p (bm_to m).
Definition rn (p : node_id) (o : omni) : Prop := In p M /\ Eb p (o_ble o) /\ PropFresh.PQ (okp M) (s_is (o_sp o)) /\ J N M p (o_sp o).
Definition sys_r (s : sys) : Prop := (forall p o, nodes s p = Some o -> rn p o) /\ forall p q m, In m (net s p q) -> In p M /\ msg_to m = q /\ well_addressed N p m.
Lemma hb_e p b st prom : e_pid b = p -> Eb p b -> Eb p (fst (hb_timeout b st prom)).
Proof.
  intros Hb [H1 H2]. set (b1 := check_takeover (update_happiness (update_leader b) st)).
  assert (K : e_pid b1 = e_pid b /\ e_peers b1 = e_peers b /\ e_out b1 = e_out b).
  { unfold b1, check_takeover, update_happiness, update_leader. cbn zeta. destruct (max_ballot _) as [m|]; [destruct (bgt m _)|]; (destruct (negb _); [destruct (_ && _)|]; cbn; auto). }
  destruct K as (K1 & K2 & K3). unfold hb_timeout. fold b1. cbn [fst].
  assert (X : Eb p (new_hb_round b1)). { split; cbn; rewrite K2; [exact H1|]. rewrite K1, K3, Hb. intros m Hm. apply in_app_or in Hm. destruct Hm as [Hm|Hm]; [auto|]. apply in_map_iff in Hm. destruct Hm as (q & <- & Hq). split; [reflexivity|apply H1, Hq]. }
  destruct (bgt prom _); [|exact X]. destruct (_ =? _); exact X.
Qed.
Definition callr (p : node_id) (c : call) : Prop := call_in N M p c /\ match c with CHandle (MsgBLE m) => okt N p (bm_from m) | _ => True end.
Notation PRI := (fun n => In (b_pid n) M).
Lemma po_prim x y : PropFresh.PQ (okp M) x -> prim (fun _ _ _ => True) (fun _ => True) True True True True True PRI x y -> PropFresh.PQ (okp M) y.
Proof.
  intros HB H. destruct H as [s c|s es|s ss Hp Hn Hb|s ss s' a Hp He|s n HPR Hn|s e Hd Hc|s n e sy s' a Ha He|s n e sy s' a Hl Hm He|s i s' r Ht He|s i s' r Hs He].
  - exact HB.
  - apply (PropFresh.po_kept _ s); [split; reflexivity|exact HB].
  - apply (PropFresh.po_kept _ s); [|exact HB]. unfold i_append_stopsign, cache_append_stopsign. cbn. rewrite Hb. split; reflexivity.
  - apply (PropFresh.po_kept _ s); [|exact HB]. unfold i_set_stopsign in He. destruct (c_ss (i_ca s)); cbn in He; injection He as <- _; split; reflexivity.
  - split; right; exact HPR.
  - apply (PropFresh.po_kept _ s); [split; reflexivity|exact HB].
  - apply (PropFresh.po_kept _ s); [eapply PropStable.sync_prom; eauto|exact HB].
  - apply (PropFresh.po_kept _ s); [eapply PropStable.sync_prom; eauto|exact HB].
  - apply (PropFresh.po_kept _ s); [eapply PropStable.trim_prom; eauto|exact HB].
  - apply (PropFresh.po_kept _ s); [eapply PropStable.snap_prom; eauto|exact HB].
Qed.
Lemma may_r p o c : PropAnswer.owned o -> rn p o -> callr p c -> may_call (fun _ _ _ => True) (fun _ => True) True True True True True PRI o c.
Proof.
  intros [Ho1 Ho2] (HN & _ & _ & HJ) [Hf _]. assert (Hp : own_pid o = p) by apply HJ. destruct c as [e|cc0 meta| |i|i l|q| |q|[m|m]]; cbn [may_call]; auto.
  - intros n [_ Hn]. destruct (PropAnswer.hb_owned (o_ble o) (role_of o) (get_promise o)) as [K1 K2]. destruct K2 as [K2 K3]; [rewrite Ho1; exact Ho2|]. specialize (K3 n Hn). rewrite K3, K2, Ho1, Hp. exact HN.
  - cbn. unfold own_ballot in Ho2. rewrite Ho2, Hp. exact HN.
  - cbn in Hf. destruct Hf as (Hf1 & _ & Hf2). unfold may_handle. destruct (pm_msg m) as [| | | | | | | | |cp| |]; auto; [|destruct cp; auto]. cbn in Hf2. rewrite (Hf2 _ eq_refl). exact Hf1.
Qed.
Lemma exec_r p o c o' r : PropAnswer.owned o -> rn p o -> callr p c -> exec o c = Ok (o', r) -> rn p o'.
Proof.
  intros Ho HR Hf He. pose proof HR as (HN & HE & HP & HJ). split; [exact HN|]. split; [|split].
  - assert (Hpid : e_pid (o_ble o) = p) by (destruct Ho as [-> _]; apply HJ). apply PropElect.exec_ble in He. destruct c as [e|cc0 meta| |i|i l|q| |q|[m|m]]; try (rewrite He; exact HE).
    + destruct (PropElect.due _); rewrite He; [apply hb_e; auto|exact HE].
    + rewrite He. unfold ble_handle. destruct (bm_msg m) as [k|k]; [|unfold handle_reply; destruct (_ && _); exact HE]. destruct HE as [H1 H2]. split; [exact H1|]. cbn. intros x Hx. apply in_app_or in Hx. destruct Hx as [Hx|[<-|[]]]; [auto|]. split; [exact Hpid|apply Hf].
  - destruct (exec_prims _ (fun _ => True) _ _ _ _ _ _ o c o' r I (may_r p o c Ho HR Hf) I He) as [Hpr _]. exact (prims_inv _ _ _ _ _ _ _ _ _ po_prim _ _ Hpr HP).
  - eapply exec_j; eauto. apply Hf.
Qed.
Lemma crash_r p o c st : PropAnswer.owned o -> rn p o -> callr p c -> In st (crash_points o c) -> okp M (promised st).
Proof.
  intros Ho HR Hf Hin. pose proof HR as (_ & _ & HP & _). destruct (crash_prims _ (fun _ => True) _ _ _ _ _ _ o c st I (may_r p o c Ho HR Hf) I Hin) as [->|(is & Hpr & Hi)]; [apply HP|].
  destruct (prims_tr _ _ _ _ _ _ _ _ (PropFresh.PQ (okp M)) _ _ po_prim Hpr HP eq_refl) as [_ X]. destruct (X st Hi) as (y & [_ Y] & <-). exact Y.
Qed.
Lemma peers_okt p q : In q (peers_of cc p) -> okt N p q.
Proof. unfold peers_of. rewrite filter_In, negb_true_iff, Nat.eqb_neq. intros [H1 H2]. split; [apply HMN, H1|exact H2]. Qed.
Lemma build_r sc st o : okp M (promised st) -> build cc sc st = BOk o -> rn (sc_pid sc) o.
Proof.
  intros Hq. unfold build. destruct (config_validate cc sc) eqn:Hv; [|discriminate]. destruct (sp_with _ _ _ _ _) as [x|] eqn:Hw; [|discriminate]. intros X. injection X as <-.
  assert (HN : In (sc_pid sc) M). { unfold config_validate in Hv. apply andb_true_iff in Hv. destruct Hv as [_ Hv]. apply existsb_exists in Hv. destruct Hv as (y & Hy & Hv). apply Nat.eqb_eq in Hv. subst y. exact Hy. }
  split; [exact HN|]. split; [|].
  - cbn [o_ble]. unfold ble_with. match goal with |- Eb _ (let '(_, _) := ?e in _) => destruct e as [a b] end. split; cbn; [apply peers_okt|]. intros m Hm. apply in_map_iff in Hm. destruct Hm as (q & <- & Hm). split; [reflexivity|apply peers_okt, Hm].
  - cbn [o_sp]. unfold sp_with in Hw. destruct (peers_of cc (sc_pid sc)) as [|p0 pr] eqn:Hpe; [discriminate|]. unfold PropFresh.PQ, promised in *.
    assert (Hpr : forall qu, proms N (ls_with bdef (list_max (p0 :: pr)) qu)) by (intros qu q y; cbn; unfold vget; destruct (pid_to_idx q); [|discriminate]; intros X; apply nth_error_In, repeat_spec in X; discriminate).
    assert (HT : forall q, In q (p0 :: pr) -> okt N (sc_pid sc) q) by (intros q X; apply peers_okt; rewrite Hpe; exact X).
    destruct (ms_prom st) as [v|]; injection Hw as <-; (split; [split; cbn; first [exact Hq|left; reflexivity]|]; split; [reflexivity|]; split; [exact HT|]; split; [|split; [discriminate|]; split; [intros q y; cbn; unfold vget; destruct (pid_to_idx q); [|discriminate]; intros X; apply nth_error_In, repeat_spec in X; discriminate|]; split; [discriminate|]; split; [cbn; first [exact Hq|left; reflexivity]|discriminate]]).
    + cbn [s_out]. apply Forall_forall. intros m Hm. change (In m (map (fun p => mkPM (sc_pid sc) p (MPrepareReq v)) (p0 :: pr))) in Hm. apply in_map_iff in Hm. destruct Hm as (q & <- & Hm). split; [reflexivity|]. split; [apply HT, Hm|discriminate].
    + constructor.
Qed.
Lemma lead_ok m b : leader_message (MsgSP m) b <-> lead_b (pm_msg m) = Some b.
Proof. cbn. destruct (pm_msg m); cbn; (split; [intros X|intros X]); try discriminate; try contradiction; [f_equal; exact X|injection X as X; exact X|f_equal; exact X|injection X as X; exact X|f_equal; exact X|injection X as X; exact X|f_equal; exact X|injection X as X; exact X|f_equal; exact X|injection X as X; exact X]. Qed.
Lemma event_r s p ev c : sys_r s -> (forall q, ev = ECall (CReconnected q) -> In q N) -> event_call s p ev = Some c -> callr p c.
Proof.
  intros [_ HM] Hk He. destruct ev as [c0|src k]; cbn in He.
  - destruct c0; try discriminate; injection He as <-; (split; [|exact I]); try exact I. apply Hk. reflexivity.
  - destruct (nth_error (net s src p) k) as [m|] eqn:Hn; [|discriminate]. injection He as <-. apply nth_error_In, HM in Hn. destruct Hn as (H1 & H2 & H3 & H4 & H5 & H6). rewrite H2 in H5. assert (X : okt N p (msg_from m)) by (rewrite H3; split; [apply HMN|]; auto).
    destruct m as [m|m]; (split; [|first [exact I|exact X]]); [|exact I]. split; [cbn in H3; rewrite H3; exact H1|]. split; [apply X|]. intros n Hl. apply lead_ok in Hl. cbn in H3. rewrite (H6 n Hl). auto.
Qed.
Lemma out_r p o m : rn p o -> In m (handed_over o) -> well_addressed N p m.
Proof.
  intros (_ & [_ HE] & _ & HJ) Hm. unfold handed_over, take_outgoing_messages, sp_take_outgoing in Hm. cbn in Hm. apply in_app_or in Hm. destruct Hm as [Hm|Hm]; apply in_map_iff in Hm; destruct Hm as (x & <- & Hx).
  - destruct HJ as (_ & _ & HJ & _). rewrite Forall_forall in HJ. destruct (HJ x Hx) as (H1 & [H2 H3] & H4). split; [exact H1|]. split; [exact H2|]. split; [exact H3|]. intros b Hb. apply lead_ok in Hb. auto.
  - destruct (HE x Hx) as (H1 & H2 & H3). split; [exact H1|]. split; [exact H2|]. split; [exact H3|]. intros b [].
Qed.
Lemma step_r s a s' : (forall p o, nodes s p = Some o -> PropAnswer.owned o) -> reconnects_to N a -> sys_r s -> exec_action cc s a = Some s' -> sys_r s'.
Proof.
  intros HO Hk HS Ha. pose proof HS as [HN HM]. destruct a as [p ev|p|src dst k|p ev j sc]; cbn in Ha.
  - destruct (nodes s p) as [o|] eqn:Hp; [|discriminate]. destruct (event_call s p ev) as [c|] eqn:Hc; [|discriminate]. destruct (exec o c) as [[o' r]|] eqn:He; [|discriminate]. injection Ha as <-.
    split; [|intros a b m Hm; apply (HM a b); exact (PropStable.event_net_in s p ev a b m Hm)]. intros q oq. cbn. unfold upd1. destruct (Nat.eqb_spec q p) as [->|]; [|apply HN]. intros X. injection X as <-.
    apply (exec_r p o c o' r); auto; [eapply HO; eauto|]. eapply event_r; eauto. intros q ->. apply (Hk p q). reflexivity.
  - destruct (nodes s p) as [o|] eqn:Hp; [|discriminate]. pose proof (HN p o Hp) as HR. destruct (take_outgoing_messages o []) as [o' ml] eqn:Ht. assert (HL : ml = handed_over o) by (unfold handed_over; rewrite Ht; reflexivity). unfold take_outgoing_messages, sp_take_outgoing in Ht. injection Ht as <- _. injection Ha as <-. split.
    + intros q oq. cbn. unfold upd1. destruct (Nat.eqb_spec q p) as [->|]; [|apply HN]. intros X. injection X as <-. destruct HR as (R1 & [R2 R3] & R4 & (A1 & A2 & A3 & A4)). split; [exact R1|]. split; [split; [exact R2|intros m Hm; cbn in Hm; destruct Hm]|]. split; [exact R4|]. split; [exact A1|]. split; [exact A2|]. split; [constructor|exact A4].
    + intros a b m Hm. cbn in Hm. rewrite SysInv.send_all_net in Hm. destruct (Nat.eqb_spec a p) as [->|]; [|auto]. apply in_app_or in Hm. destruct Hm as [Hm|Hm]; [auto|]. apply filter_In in Hm. destruct Hm as [Hm Hb]. apply Nat.eqb_eq in Hb. split; [exact (proj1 HR)|]. split; [exact Hb|]. eapply out_r; eauto.
  - injection Ha as <-. split; [exact HN|]. intros a b m Hm. apply (HM a b). exact (PropStable.event_net_in s dst (EDeliver src k) a b m Hm).
  - destruct (nodes s p) as [o|] eqn:Hp; [|discriminate]. destruct (event_call s p ev) as [c|] eqn:Hc; [|discriminate]. destruct (nth_error (crash_points o c) j) as [st|] eqn:Hj; [|discriminate]. destruct (Nat.eqb_spec (sc_pid sc) p) as [Hs|]; [|discriminate].
    destruct (build cc sc st) as [| |o'] eqn:Hb; try discriminate. injection Ha as <-. split; [|intros a b m Hm; apply (HM a b); exact (PropStable.event_net_in s p ev a b m Hm)].
    intros q oq. cbn. unfold upd1. destruct (Nat.eqb_spec q p) as [->|]; [|apply HN]. intros X. injection X as <-. rewrite <- Hs. apply (build_r sc st); [|exact Hb]. apply (crash_r p o c); [eapply HO; eauto|exact (HN p o Hp)| |eapply nth_error_In; eauto].
    eapply event_r; eauto. intros q ->. apply (Hk p q). reflexivity.
Qed.
Lemma init_r scs : sys_r (init_sys cc scs).
Proof.
  split; [|intros p q m []]. intros p o. cbn. destruct (_ && _) eqn:Hx; [|discriminate]. apply andb_true_iff in Hx. destruct Hx as [_ Hx]. apply Nat.eqb_eq in Hx. destruct (build cc (scs p) ms_default) as [| |o'] eqn:Hb; try discriminate. intros X. injection X as <-.
  apply build_r in Hb; [rewrite Hx in Hb; exact Hb|left; reflexivity].
Qed.
Lemma reach_r scs l : forall s, (forall a, In a l -> reconnects_to N a) -> reaches cc scs l s -> sys_r s.
Proof.
  induction l as [|a l IH] using rev_ind; intros s Hk R.
  - unfold reaches in R. cbn in R. injection R as <-. apply init_r.
  - unfold reaches in R. destruct (Agree.run_app _ _ _ _ _ R) as (s1 & R1 & R2). clear R. rename R2 into R. cbn in R. destruct (exec_action cc s1 a) as [s2|] eqn:Ha; [|discriminate]. injection R as <-.
    eapply step_r; [|apply Hk, in_or_app; right; left; reflexivity|apply IH; [intros b Hb; apply Hk, in_or_app; auto|exact R1]|exact Ha]. intros p o Hp. apply PropAnswer.answer_state. eapply PropLocal.cluster_server_state; [exact R1|exact Hp].
Qed.
End Inv.

(** C69.  In every execution of a cluster, whatever is lost, delayed, repeated by a resend or crashes: every
    message a server hands over and every message on its way is well addressed.  The receivers are servers
    of the configuration and ids that the user has passed to [reconnected]; the senders are servers of the
    configuration, and no server sends a leader message in the name of another one. *)
Theorem C69_messages_are_well_addressed :
  forall cc scs l s ids, reaches cc scs l s -> incl (cc_nodes cc) ids -> (forall a, In a l -> reconnects_to ids a) ->
  (forall p o m, nodes s p = Some o -> In m (handed_over o) -> well_addressed ids p m) /\
  (forall p q m, In m (net s p q) -> In p (cc_nodes cc) /\ msg_to m = q /\ well_addressed ids p m).
Proof. intros cc scs l s ids R Hi Hk. pose proof (reach_r cc ids Hi scs l s Hk R) as [HN HM]. split; [|exact HM]. intros p o m Hp Hm. eapply out_r; eauto. Qed.

(** So if [reconnected] is only called with ids of the configuration, then a network layer that knows the servers
    of the configuration can deliver every message. *)
Theorem C69_receivers_are_in_the_configuration :
  forall cc scs l s, reaches cc scs l s -> (forall a, In a l -> reconnects_to (cc_nodes cc) a) ->
  (forall p o m, nodes s p = Some o -> In m (handed_over o) -> well_addressed (cc_nodes cc) p m) /\
  (forall p q m, In m (net s p q) -> In p (cc_nodes cc) /\ In q (cc_nodes cc) /\ p <> q).
Proof.
  intros cc scs l s R Hk. destruct (C69_messages_are_well_addressed cc scs l s (cc_nodes cc) R (incl_refl _) Hk) as [H1 H2]. split; [exact H1|]. intros p q m Hm. destruct (H2 p q m Hm) as (K1 & K2 & _ & K4 & K5 & _). rewrite K2 in K4, K5. auto.
Qed.

(** ** All ids *)

(** The ids that an execution mentions. *)
Definition mentioned (l : list action) : list node_id :=
  flat_map (fun a => match action_event a with Some (_, ECall (CReconnected q)) => [q] | _ => [] end) l.
Lemma mentioned_ok l a : In a l -> reconnects_to (mentioned l) a.
Proof. intros Ha p q He. unfold mentioned. apply in_flat_map. exists a. split; [exact Ha|]. rewrite He. left. reflexivity. Qed.
(** The invariant holds in every execution. *)
Lemma reach_any cc scs l s : reaches cc scs l s -> sys_r cc (cc_nodes cc ++ mentioned l) s.
Proof.
  intros R. apply (reach_r cc _ (incl_appl _ (incl_refl _)) scs l s); [|exact R]. intros a Ha p q He. apply in_or_app. right. exact (mentioned_ok l a Ha p q He).
Qed.
End WithEntry.

(** ** Cases *)
Section Case.
Local Existing Instance plain.

Definition knownb (a : action) : bool :=
  match action_event a with Some (_, ECall (CReconnected q)) => existsb (Nat.eqb q) (cc_nodes cc3) | _ => true end.
Lemma known_all l : forallb knownb l = true -> forall a, In a l -> reconnects_to (cc_nodes cc3) a.
Proof.
  intros H a Ha p q He. rewrite forallb_forall in H. specialize (H a Ha). unfold knownb in H. rewrite He in H. apply existsb_exists in H. destruct H as (x & Hx & H). apply Nat.eqb_eq in H. subst x. exact Hx.
Qed.

(** After elections, a crash and losses, server 2 leads with a ballot of its own. It accepts an entry, server 1 is
    told that the link to server 3 is back, and servers 2 and 3 get what they miss. *)
Definition sch69 : list cmd := [ append 2 20; Call 1 (CReconnected 3); Fetch [1] ].
Definition acts69 := Eval vm_compute in acts_of cc3 sys_case2 sch69.
Definition sys69 := match run cc3 sys_case2 acts69 with Some s => s | None => ini end.
Lemma reach69 : reaches cc3 scs ((acts_case1 ++ acts_case2) ++ acts69) sys69.
Proof. eapply run_app_ok; [exact case_reach2|]. apply is_some_eta. vm_compute. reflexivity. Qed.
Example C69_case :
  reaches cc3 scs ((acts_case1 ++ acts_case2) ++ acts69) sys69 /\
  (forall a, In a ((acts_case1 ++ acts_case2) ++ acts69) -> reconnects_to (cc_nodes cc3) a) /\
  obs sys69 2 (fun o => (role_of o, leader_ballot o)) = Some ((Leader, PhAccept), mkB 1 2 0 2) /\
  obs sys69 2 handed_over = Some [MsgSP (mkPM 2 3 (MAcceptDecide (mkB 1 2 0 2) (mkSeq 1 5) 4 [20]))] /\
  net sys69 1 3 = [MsgSP (mkPM 1 3 (MPrepareReq (mkB 1 1 0 1)))].
Proof. split; [exact reach69|]. split; [apply known_all; vm_compute; reflexivity|]. split; [vm_compute; reflexivity|]. split; vm_compute; reflexivity. Qed.

(** The condition on [reconnected] is needed: the id is not checked. After [reconnected] with the id 9 the server
    hands over a message to 9, which is not in the configuration. *)
Theorem C69_any_reconnected_id_refuted :
  exists l s o m, reaches cc3 scs l s /\ nodes s 1 = Some o /\ In m (handed_over o) /\ msg_to m = 9 /\ ~ In 9 (cc_nodes cc3).
Proof.
  set (l := acts_case1 ++ [ADo 1 (ECall (CReconnected 9))]).
  assert (H : match run cc3 ini l with Some s => match nodes s 1 with Some o => existsb (fun m => msg_to m =? 9) (handed_over o) | None => false end | None => false end = true) by (vm_compute; reflexivity).
  destruct (run cc3 ini l) as [s|] eqn:R; [|discriminate]. destruct (nodes s 1) as [o|] eqn:Ho; [|discriminate]. apply existsb_exists in H. destruct H as (m & H1 & H2). apply Nat.eqb_eq in H2.
  exists l, s, o, m. split; [exact R|]. split; [exact Ho|]. split; [exact H1|]. split; [exact H2|]. cbn. lia.
Qed.
End Case.

Print Assumptions C69_messages_are_well_addressed.
Print Assumptions C69_receivers_are_in_the_configuration.
Print Assumptions C69_any_reconnected_id_refuted.
