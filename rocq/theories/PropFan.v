(** * C77: one call sends at most two replication messages and one heartbeat message to each server *)
From Coq Require Import List Arith Bool Lia.
Import ListNotations.
From Verif Require Import Types Config MemStore Internal LeaderState SeqPaxos Ble Omni System Basics Spec Prims.
From Verif Require Import Scen Refute PropAgreement.
From Verif Require PropElect PropLocal Agree PropAnswer PropRoute PropLeader Fan.

Section WithEntry.
Context {E : EntryT}.

(** ** Specification *)

(** The replication messages and the heartbeat messages for [q] that wait to be fetched. *)
Definition replication_for (q : node_id) (o : omni) : list pmessage := filter (fun m => pm_to m =? q) (outgoing o).
Definition heartbeats_for (q : node_id) (o : omni) : list ble_message := filter (fun m => bm_to m =? q) (e_out (o_ble o)).

(** ** Proof *)
Definition un (o : omni) : Prop := NoDup (s_peers (o_sp o)) /\ NoDup (e_peers (o_ble o)).
Lemma req_one q p r l : NoDup l -> length (filter (fun m => bm_to m =? q) (map (fun x => mkBM p x (HbRequest r)) l)) <= 1.
Proof.
  intros H. apply Nat.le_trans with (Fan.occ q l); [|apply Fan.occ_one; exact H]. clear H. induction l as [|x l IH]; [cbn; lia|]. rewrite Fan.occ_cons. unfold Fan.hit. cbn [map filter bm_to]. destruct (x =? q); cbn [length]; lia.
Qed.
Lemma prep_one q p v l : NoDup l -> length (filter (fun m => pm_to m =? q) (map (fun x => mkPM p x (MPrepareReq v)) l)) <= 1.
Proof.
  intros H. apply Nat.le_trans with (Fan.occ q l); [|apply Fan.occ_one; exact H]. clear H. induction l as [|x l IH]; [cbn; lia|]. rewrite Fan.occ_cons. unfold Fan.hit. cbn [map filter pm_to]. destruct (x =? q); cbn [length]; lia.
Qed.
Lemma exec_e o c o' r : NoDup (e_peers (o_ble o)) -> exec o c = Ok (o', r) ->
  e_peers (o_ble o') = e_peers (o_ble o) /\ forall q, length (heartbeats_for q o') <= length (heartbeats_for q o) + 1.
Proof.
  intros HN He. apply PropElect.exec_ble in He. unfold heartbeats_for.
  assert (D : o_ble o' = o_ble o -> e_peers (o_ble o') = e_peers (o_ble o) /\ forall q, length (filter (fun m => bm_to m =? q) (e_out (o_ble o'))) <= length (filter (fun m => bm_to m =? q) (e_out (o_ble o))) + 1) by (intros ->; split; [reflexivity|intros; lia]).
  destruct c as [e|cc0 meta| |i|i l|x| |x|[m|m]]; try (apply D; exact He).
  - destruct (PropElect.due _); [|apply D; exact He]. rewrite He. clear D He. generalize (role_of o) as st, (get_promise o) as prom, (o_ble o) as b, HN. intros st prom b Hn. set (b1 := check_takeover (update_happiness (update_leader b) st)).
    assert (K : e_pid b1 = e_pid b /\ e_peers b1 = e_peers b /\ e_out b1 = e_out b).
    { unfold b1, check_takeover, update_happiness, update_leader. cbn zeta. destruct (max_ballot _) as [m|]; [destruct (bgt m _)|]; (destruct (negb _); [destruct (_ && _)|]; cbn; auto). }
    destruct K as (K1 & K2 & K3). unfold hb_timeout. fold b1. cbn [fst].
    assert (X : e_peers (new_hb_round b1) = e_peers b /\ forall q, length (filter (fun m => bm_to m =? q) (e_out (new_hb_round b1))) <= length (filter (fun m => bm_to m =? q) (e_out b)) + 1).
    { split; [exact K2|]. intros q. assert (Y : exists r, e_out (new_hb_round b1) = e_out b1 ++ map (fun x => mkBM (e_pid b1) x (HbRequest r)) (e_peers b1)) by (eexists; reflexivity). destruct Y as [rr ->]. rewrite K3, K2, filter_app, app_length. apply Nat.add_le_mono_l. apply req_one. exact Hn. }
    destruct (bgt prom _); [|exact X]. destruct (_ =? _); exact X.
  - rewrite He. unfold ble_set_priority. cbn. split; [reflexivity|intros; lia].
  - rewrite He. unfold ble_handle. destruct (bm_msg m) as [k|k].
    + split; [reflexivity|]. intros q. assert (Y : exists z, e_out (handle_request (o_ble o) (bm_from m) k) = e_out (o_ble o) ++ [z]) by (eexists; reflexivity). destruct Y as [z Y]. match goal with |- context [filter _ (e_out ?b)] => change (e_out b) with (e_out (handle_request (o_ble o) (bm_from m) k)) end. rewrite Y, filter_app, app_length. apply Nat.add_le_mono_l. cbn. destruct (_ =? _); cbn; lia.
    + unfold handle_reply. destruct (_ && _); (split; [reflexivity|intros; cbn; lia]).
Qed.
Section Inv.
Context (cc : cluster_config) (scs : node_id -> server_config) (Hcc : NoDup (cc_nodes cc)).
Lemma build_u sc st o : build cc sc st = BOk o -> un o.
Proof.
  intros Hb. assert (Hn : NoDup (peers_of cc (sc_pid sc))) by (apply NoDup_filter; exact Hcc). unfold build in Hb. destruct (config_validate cc sc); [|discriminate]. destruct (sp_with _ _ _ _ _) as [x|] eqn:Hw; [|discriminate]. injection Hb as <-. unfold un. cbn [o_sp o_ble].
  unfold sp_with in Hw. destruct (peers_of cc (sc_pid sc)) as [|p0 pr]; [discriminate|]. destruct (ms_prom st) as [v|]; injection Hw as <-; (split; [exact Hn|]); unfold ble_with; cbn; try destruct (negb _); exact Hn.
Qed.
Lemma step_u l s a s' : reaches cc scs l s -> (forall p o, nodes s p = Some o -> un o) -> exec_action cc s a = Some s' -> forall p o, nodes s' p = Some o -> un o.
Proof.
  intros R HB Ha q oq Hq. destruct a as [p ev|p|src dst k|p ev j sc]; cbn in Ha.
  - destruct (nodes s p) as [o|] eqn:Hp; [|discriminate]. destruct (event_call s p ev) as [c|]; [|discriminate]. destruct (exec o c) as [[o' r]|] eqn:He; [|discriminate]. injection Ha as <-. cbn in Hq. unfold upd1 in Hq. destruct (Nat.eqb_spec q p) as [->|]; [|exact (HB q oq Hq)]. injection Hq as <-.
    destruct (HB p o Hp) as [U1 U2]. split; [|rewrite (proj1 (exec_e o c o' r U2 He)); exact U2]. apply (Fan.exec_b 0 o c o' r); [|exact U1|exact He]. apply PropAnswer.answer_state. eapply PropLocal.cluster_server_state; [exact R|exact Hp].
  - destruct (nodes s p) as [o|] eqn:Hp; [|discriminate]. unfold take_outgoing_messages, sp_take_outgoing in Ha. cbn in Ha. injection Ha as <-. cbn in Hq. unfold upd1 in Hq. destruct (Nat.eqb_spec q p) as [->|]; [|exact (HB q oq Hq)]. injection Hq as <-. exact (HB p o Hp).
  - injection Ha as <-. exact (HB q oq Hq).
  - destruct (nodes s p) as [o|] eqn:Hp; [|discriminate]. destruct (event_call s p ev) as [c|]; [|discriminate]. destruct (nth_error (crash_points o c) j) as [st|]; [|discriminate]. destruct (sc_pid sc =? p); [|discriminate].
    destruct (build cc sc st) as [| |o'] eqn:Hb; try discriminate. injection Ha as <-. cbn in Hq. unfold upd1 in Hq. destruct (Nat.eqb_spec q p) as [->|]; [|exact (HB q oq Hq)]. injection Hq as <-. eapply build_u; eauto.
Qed.
Lemma reach_u l : forall s, reaches cc scs l s -> forall p o, nodes s p = Some o -> un o.
Proof.
  induction l as [|a l IH] using rev_ind; intros s R.
  - unfold reaches in R. cbn in R. injection R as <-. intros p o. cbn. destruct (_ && _); [|discriminate]. destruct (build cc (scs p) ms_default) as [| |o'] eqn:Hb; try discriminate. intros X. injection X as <-. eapply build_u; eauto.
  - destruct (Agree.run_app _ _ _ _ _ R) as (s1 & R1 & R2). cbn in R2. destruct (exec_action cc s1 a) as [s2|] eqn:Ha; [|discriminate]. injection R2 as <-. eapply step_u; [exact R1|exact (IH s1 R1)|exact Ha].
Qed.
End Inv.

(** ** Theorems *)
(** Whatever is called and whatever message arrives. *)
Theorem C77_two_messages_per_receiver :
  forall cc scs l s p o c o' r q, NoDup (cc_nodes cc) -> reaches cc scs l s -> nodes s p = Some o -> exec o c = Ok (o', r) ->
  length (replication_for q o') <= length (replication_for q o) + 2 /\ length (heartbeats_for q o') <= length (heartbeats_for q o) + 1.
Proof.
  intros cc scs l s p o c o' r q Hn R Hp He. destruct (reach_u cc scs Hn l s R p o Hp) as [U1 U2]. split; [|apply (exec_e o c o' r U2 He)].
  apply (Fan.exec_b q o c o' r); [|exact U1|exact He]. apply PropAnswer.answer_state. eapply PropLocal.cluster_server_state; [exact R|exact Hp].
Qed.

(** A server that is built, or built again from what it has stored, starts with at most one message of either kind for each server. *)
Theorem C77_start :
  forall cc sc st o q, NoDup (cc_nodes cc) -> build cc sc st = BOk o -> length (replication_for q o) <= 1 /\ length (heartbeats_for q o) <= 1.
Proof.
  intros cc sc st o q Hn Hb. assert (Hp : NoDup (peers_of cc (sc_pid sc))) by (apply NoDup_filter; exact Hn). unfold build in Hb. destruct (config_validate cc sc); [|discriminate]. destruct (sp_with _ _ _ _ _) as [x|] eqn:Hw; [|discriminate]. injection Hb as <-. unfold replication_for, heartbeats_for, outgoing. cbn [o_sp o_ble]. split.
  - unfold sp_with in Hw. destruct (peers_of cc (sc_pid sc)) as [|p0 pr]; [discriminate|]. destruct (ms_prom st) as [v|]; injection Hw as <-; [|exact (Nat.le_0_l 1)]. exact (prep_one q (sc_pid sc) v (p0 :: pr) Hp).
  - assert (Y : e_out (ble_with (cc_id cc) (sc_pid sc) (peers_of cc (sc_pid sc)) (sc_prio sc) (cc_flex cc) (ms_prom st)) = [] \/ exists a r, e_out (ble_with (cc_id cc) (sc_pid sc) (peers_of cc (sc_pid sc)) (sc_prio sc) (cc_flex cc) (ms_prom st)) = map (fun x => mkBM a x (HbRequest r)) (peers_of cc (sc_pid sc))).
    { unfold ble_with. destruct (ms_prom st) as [v|]; [destruct (negb _)|]; first [left; reflexivity|right; do 2 eexists; reflexivity]. }
    destruct Y as [->|(a & rr & ->)]; [cbn; lia|apply req_one; exact Hp].
Qed.

Lemma sum_to (f : message -> node_id) (L : list message) : forall D, NoDup D -> (forall m, In m L -> In (f m) D) ->
  length L = list_sum (map (fun q => length (filter (fun m => f m =? q) L)) D).
Proof.
  induction L as [|m L IH]; intros D HD HL; cbn [length filter].
  - clear. induction D; cbn; auto.
  - rewrite (IH D HD) by (intros x Hx; apply HL; right; exact Hx). assert (Hm : In (f m) D) by (apply HL; left; reflexivity). clear IH HL.
    set (g := fun q => length (filter (fun m => f m =? q) L)).
    assert (Hg : forall q, length (if f m =? q then m :: filter (fun m => f m =? q) L else filter (fun m => f m =? q) L) = (if f m =? q then 1 else 0) + g q) by (intros q; unfold g; destruct (f m =? q); reflexivity).
    rewrite (map_ext _ (fun q => (if f m =? q then 1 else 0) + g q) Hg). clear Hg. clearbody g. revert Hm. generalize (f m) as z. intros z Hm.
    induction HD as [|d D Hd HD IH]; [destruct Hm|]. change (S (g d + list_sum (map g D)) = (if z =? d then 1 else 0) + g d + list_sum (map (fun q => (if z =? q then 1 else 0) + g q) D)). destruct (Nat.eqb_spec z d) as [->|Hne].
    + rewrite (map_ext_in (fun q => (if d =? q then 1 else 0) + g q) g); [lia|]. intros q Hq. destruct (Nat.eqb_spec d q) as [->|]; [contradiction|reflexivity].
    + destruct Hm as [->|Hm]; [congruence|]. specialize (IH Hm). lia.
Qed.
Lemma for_split q o : length (filter (fun m => msg_to m =? q) (PropRoute.handed_over o)) = length (replication_for q o) + length (heartbeats_for q o).
Proof.
  unfold PropRoute.handed_over, take_outgoing_messages, sp_take_outgoing, replication_for, heartbeats_for, outgoing. cbn. rewrite filter_app, app_length. f_equal.
  - induction (s_out (o_sp o)) as [|m L IH]; cbn; [reflexivity|]. destruct (_ =? _); cbn; congruence.
  - induction (e_out (o_ble o)) as [|m L IH]; cbn; [reflexivity|]. destruct (_ =? _); cbn; congruence.
Qed.
Lemma sum_le (f g : node_id -> nat) k D : (forall q, In q D -> f q <= g q + k) -> list_sum (map f D) <= list_sum (map g D) + k * length D.
Proof. induction D as [|d D IH]; intros H; cbn; [lia|]. pose proof (H d (or_introl eq_refl)). specialize (IH (fun q X => H q (or_intror X))). unfold list_sum in IH. lia. Qed.
(** So the number of messages of one call is linear in the number of servers. *)
Theorem C77_messages_linear :
  forall cc scs l s p ev s' o o', NoDup (cc_nodes cc) -> reaches cc scs l s -> exec_action cc s (ADo p ev) = Some s' ->
  (forall a, In a (l ++ [ADo p ev]) -> PropRoute.reconnects_to (cc_nodes cc) a) -> nodes s p = Some o -> nodes s' p = Some o' ->
  length (PropRoute.handed_over o') <= length (PropRoute.handed_over o) + 3 * (length (cc_nodes cc) - 1).
Proof.
  intros cc scs l s p ev s' o o' Hn R Ha Hk Hp Hp'. assert (R' : reaches cc scs (l ++ [ADo p ev]) s') by (eapply PropLeader.reach_snoc; eauto).
  destruct (PropRoute.C69_receivers_are_in_the_configuration cc scs l s R) as [W _]; [intros a X; apply Hk, in_or_app; left; exact X|]. destruct (PropRoute.C69_receivers_are_in_the_configuration cc scs _ s' R' Hk) as [W' _].
  assert (Hin : In p (cc_nodes cc)) by (destruct (PropRoute.reach_any _ _ _ _ R) as [X _]; apply (X p o Hp)).
  set (D := filter (fun x => negb (x =? p)) (cc_nodes cc)). assert (HD : NoDup D) by (apply NoDup_filter; exact Hn).
  assert (DL : length D <= length (cc_nodes cc) - 1). { assert (X : length (p :: D) <= length (cc_nodes cc)); [|cbn in X; lia]. apply NoDup_incl_length; [constructor; [|exact HD]|]; [unfold D; rewrite filter_In, Nat.eqb_refl; intros [_ X]; discriminate|]. intros x [<-|Hx]; [exact Hin|]. apply filter_In in Hx. apply Hx. }
  assert (WD : forall z m, In m (PropRoute.handed_over z) -> PropRoute.well_addressed (cc_nodes cc) p m -> In (msg_to m) D). { intros z m _ (_ & X1 & X2 & _). apply filter_In. split; [exact X1|]. apply negb_true_iff, Nat.eqb_neq. exact X2. }
  rewrite (sum_to msg_to (PropRoute.handed_over o') D HD) by (intros m Hm; eapply WD; [exact Hm|eapply W'; eauto]). rewrite (sum_to msg_to (PropRoute.handed_over o) D HD) by (intros m Hm; eapply WD; [exact Hm|eapply W; eauto]).
  eapply Nat.le_trans; [apply (sum_le _ (fun q => length (filter (fun m => msg_to m =? q) (PropRoute.handed_over o))) 3)|apply Nat.add_le_mono_l; apply Nat.mul_le_mono_l; exact DL].
  intros q _. rewrite !for_split. cbn in Ha. rewrite Hp in Ha. destruct (event_call s p ev) as [c|]; [|discriminate]. destruct (exec o c) as [[o1 r]|] eqn:He; [|discriminate]. injection Ha as <-. cbn in Hp'. unfold upd1 in Hp'. rewrite Nat.eqb_refl in Hp'. injection Hp' as <-.
  destruct (C77_two_messages_per_receiver cc scs l s p o c o1 r q Hn R Hp He) as [X1 X2]. lia.
Qed.
End WithEntry.

(** ** Case *)
Section Case.
Local Existing Instance plain.
(** 3 has a buffered proposal when 1 synchronises it: it accepts and forwards, two messages for 1. *)
Definition sch_fan : list cmd := [ Call 3 (CAppend (5 : @T plain)); Call 1 CTryLeader; Fetch [1]; Deliver 1 3; Fetch [3]; Deliver 3 1; Fetch [1] ].
Definition acts_fan := Eval vm_compute in acts_of cc3 ini sch_fan.
Definition next (s : sys) (l : list action) : sys := match run cc3 s l with Some s' => s' | None => s end.
Definition fan_a := next ini acts_fan.
Definition fan_b := next fan_a [ADo 3 (EDeliver 1 0)].
Lemma next_ok s l : match run cc3 s l with Some _ => true | None => false end = true -> run cc3 s l = Some (next s l).
Proof. unfold next. destruct (run cc3 s l); [reflexivity|discriminate]. Qed.
Lemma next_one s a : match run cc3 s [a] with Some _ => true | None => false end = true -> exec_action cc3 s a = Some (next s [a]).
Proof. unfold next. cbn [run]. destruct (exec_action cc3 s a); [reflexivity|discriminate]. Qed.
Example C77_case :
  NoDup (cc_nodes cc3) /\ reaches cc3 scs acts_fan fan_a /\ exec_action cc3 fan_a (ADo 3 (EDeliver 1 0)) = Some fan_b /\
  (forall a, In a (acts_fan ++ [ADo 3 (EDeliver 1 0)]) -> PropRoute.reconnects_to (cc_nodes cc3) a) /\
  obs fan_a 3 (fun o => length (replication_for 1 o)) = Some 0 /\
  obs fan_b 3 (fun o => map pm_msg (replication_for 1 o)) = Some [MProposalForward [5]; MAccepted (mkB 1 1 0 1) 0].
Proof.
  split; [repeat constructor; cbn; intuition lia|]. split; [apply (next_ok ini acts_fan); vm_compute; reflexivity|]. split; [apply (next_one fan_a (ADo 3 (EDeliver 1 0))); vm_compute; reflexivity|].
  split; [|split; vm_compute; reflexivity]. intros a Ha p q H. unfold acts_fan in Ha. cbn in Ha. repeat (destruct Ha as [<-|Ha]; [discriminate|]). destruct Ha.
Qed.
(** 3 restarted from what it has stored then. *)
Example C77_start_case :
  obs fan_b 3 (fun o => match build cc3 (scs 3) (storage o) with BOk o' => Some (map pm_msg (replication_for 1 o'), length (heartbeats_for 1 o')) | _ => None end) = Some (Some ([MPrepareReq (mkB 1 1 0 1)], 1)).
Proof. vm_compute. reflexivity. Qed.
End Case.

Print Assumptions C77_two_messages_per_receiver.
Print Assumptions C77_start.
Print Assumptions C77_messages_linear.
