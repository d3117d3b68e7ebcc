(** * C76: forwarded proposals do not go round in circles *)
From Coq Require Import List Arith Bool Lia Sorted.
Import ListNotations.
From Verif Require Import Types Config MemStore Internal LeaderState SeqPaxos Ble Omni System Basics Spec Prims.
From Verif Require Import Scen Refute PropAgreement.
From Verif Require PropElect PropStable PropLocal SysInv Agree PropAnswer PropFresh PropRoute PropLeader Phase Hops.

Section WithEntry.
Context {E : EntryT}.

(** ** Specification *)

(** Messages that hand a proposal or a reconfiguration request to somebody else. *)
Definition hands_on (m : pmessage) : bool := match pm_msg m with MProposalForward _ | MForwardStopSign _ => true | _ => false end.
(** Between [s] and [s'] server [p] queues such a message for [q]; then its promise is [b]. *)
Definition hop (s s' : sys) (p q : node_id) (b : ballot) : Prop :=
  exists o o' new m, nodes s p = Some o /\ nodes s' p = Some o' /\ filter hands_on (outgoing o') = filter hands_on (outgoing o) ++ new /\
    In m new /\ pm_to m = q /\ get_promise o' = b.
(** A path of hops, each from the receiver of the one before, at any later time; with the promises of the senders. *)
Inductive path (cc : cluster_config) : sys -> node_id -> list ballot -> sys -> node_id -> Prop :=
| path_one s a s' p q b : exec_action cc s a = Some s' -> hop s s' p q b -> path cc s p [b] s' q
| path_more s a s' p q b l s2 bs s3 r : exec_action cc s a = Some s' -> hop s s' p q b -> run cc s' l = Some s2 -> path cc s2 q bs s3 r -> path cc s p (b :: bs) s3 r.

(** ** Proof *)
Section Inv.
Context (cc : cluster_config) (scs : node_id -> server_config).
(** Whoever owns [b] has promised it or more. *)
Definition own (s : sys) (b : ballot) : Prop := b = bdef \/ exists oq, nodes s (b_pid b) = Some oq /\ ble b (get_promise oq) = true.
Definition sys_o (s : sys) : Prop :=
  (forall p o, nodes s p = Some o -> Phase.led (o_sp o) /\ own s (get_promise o) /\ Hops.low (o_sp o)) /\
  forall x y m n d na ac, In (MsgSP m) (net s x y) -> pm_msg m = MPrepare n d na ac -> own s n.
Section Step.
Context (l : list action) (s s' : sys) (a : action) (R : reaches cc scs l s) (HS : sys_o s) (Ha : exec_action cc s a = Some s').
Lemma own_mono b : own s b -> own s' b.
Proof.
  intros [X|(oq & X1 & X2)]; [left; exact X|]. right. destruct (PropLocal.C10_promise_never_decreases_in_cluster cc scs l [a] s s' (b_pid b) oq R) as (o2 & Y1 & Y2); [cbn; rewrite Ha; reflexivity|exact X1|]. exists o2. split; [exact Y1|]. eapply Hops.ble_trans; eauto.
Qed.
Definition pri (p : node_id) (n : ballot) : Prop := own s n \/ b_pid n = p.
Lemma pri_prim p x y : PropFresh.PQ (pri p) x -> prim (fun _ _ _ => True) (fun _ => True) True True True True True (pri p) x y -> PropFresh.PQ (pri p) y.
Proof.
  intros HB H. destruct H as [z c|z es|z ss Hp Hn Hb|z ss z' k Hp He|z n HPR Hn|z e Hd Hc|z n e sy z' k Hk He|z n e sy z' k Hl Hm He|z i z' r Ht He|z i z' r Hs He].
  - exact HB.
  - apply (PropFresh.po_kept _ z); [split; reflexivity|exact HB].
  - apply (PropFresh.po_kept _ z); [|exact HB]. unfold i_append_stopsign, cache_append_stopsign. cbn. rewrite Hb. split; reflexivity.
  - apply (PropFresh.po_kept _ z); [|exact HB]. unfold i_set_stopsign in He. destruct (c_ss (i_ca z)); cbn in He; injection He as <- _; split; reflexivity.
  - split; exact HPR.
  - apply (PropFresh.po_kept _ z); [split; reflexivity|exact HB].
  - apply (PropFresh.po_kept _ z); [eapply PropStable.sync_prom; eauto|exact HB].
  - apply (PropFresh.po_kept _ z); [eapply PropStable.sync_prom; eauto|exact HB].
  - apply (PropFresh.po_kept _ z); [eapply PropStable.trim_prom; eauto|exact HB].
  - apply (PropFresh.po_kept _ z); [eapply PropStable.snap_prom; eauto|exact HB].
Qed.
Lemma may_o p o ev c : nodes s p = Some o -> event_call s p ev = Some c -> PropAnswer.owned o -> own_pid o = p -> may_call (fun _ _ _ => True) (fun _ => True) True True True True True (pri p) o c.
Proof.
  intros Hp Hc [Ho1 Ho2] Hpid. destruct HS as [_ HM]. destruct c as [e|cc0 meta| |i|i k|q| |q|[m|m]]; cbn [may_call]; auto.
  - intros n [_ Hn]. destruct (PropAnswer.hb_owned (o_ble o) (role_of o) (get_promise o)) as [K1 K2]. destruct K2 as [K2 K3]; [rewrite Ho1; exact Ho2|]. specialize (K3 n Hn). right. rewrite K3, K2, Ho1, Hpid. reflexivity.
  - right. cbn. unfold own_ballot in Ho2. rewrite Ho2, Hpid. reflexivity.
  - unfold may_handle. destruct (pm_msg m) as [|n d na ac| | | | | | | |cp| |] eqn:Hm; auto; [|destruct cp; auto]. destruct ev as [c0|src k]; cbn in Hc; [destruct c0; discriminate|]. destruct (nth_error (net s src p) k) as [x|] eqn:Hx; [|discriminate]. injection Hc as ->. left. eapply HM; [eapply nth_error_In; exact Hx|exact Hm].
Qed.
Lemma start_pq p o : nodes s p = Some o -> PropFresh.PQ (pri p) (s_is (o_sp o)).
Proof.
  intros Hp. destruct HS as [HN _]. destruct (HN p o Hp) as (_ & X & _). pose proof (PropLocal.cluster_server_state _ _ _ _ _ _ R Hp) as Hss. pose proof (PropLocal.C10_promise_is_persisted o Hss) as Y. split; left; [exact X|]. change (own s (promised (storage o))). rewrite <- Y. exact X.
Qed.
Lemma pri_own p o b : nodes s' p = Some o -> ble b (get_promise o) = true -> pri p b -> own s' b.
Proof. intros Ho Hb [X|X]; [apply own_mono; exact X|]. right. rewrite X. exists o. auto. Qed.
Lemma ble_refl b : ble b b = true. Proof. apply ble_spec. right. unfold bal_same. auto. Qed.
Lemma build_low sc st o : build cc sc st = BOk o -> get_promise o = promised st /\ Phase.led (o_sp o) /\ Hops.low (o_sp o) /\ filter hands_on (outgoing o) = [].
Proof.
  intros Hb. destruct (PropLeader.build_led _ _ _ _ Hb) as (B1 & B2 & _). split; [exact B1|]. split; [intros X; congruence|]. unfold build in Hb. destruct (config_validate cc sc); [|discriminate]. destruct (sp_with _ _ _ _ _) as [x|] eqn:Hw; [|discriminate]. injection Hb as <-. unfold outgoing, Hops.low. cbn [o_sp].
  unfold sp_with in Hw. destruct (peers_of cc (sc_pid sc)) as [|p0 pr]; [discriminate|]. destruct (ms_prom st) as [v|]; injection Hw as <-.
  - change (s_out _) with (map (fun p => mkPM (sc_pid sc) p (MPrepareReq v)) (p0 :: pr)). split.
    + intros m n d na ac Hm Hx. apply in_map_iff in Hm. destruct Hm as (y & <- & _). discriminate.
    + induction (p0 :: pr) as [|z zs IH]; cbn; auto.
  - split; [intros m n d na ac []|reflexivity].
Qed.
Lemma step_o : sys_o s'.
Proof.
  pose proof HS as [HN HM]. pose proof (PropRoute.reach_any _ _ _ _ R) as [HJ HJM].
  assert (HO : forall p o, nodes s p = Some o -> PropAnswer.owned o /\ own_pid o = p). { intros p o Hp. split; [apply PropAnswer.answer_state; eapply PropLocal.cluster_server_state; [exact R|exact Hp]|]. destruct (HJ p o Hp) as (_ & _ & _ & X & _). exact X. }
  assert (HB : forall p o, nodes s p = Some o -> Phase.led (o_sp o) /\ own s' (get_promise o) /\ Hops.low (o_sp o)). { intros p o Hp. destruct (HN p o Hp) as (X1 & X2 & X3). split; [exact X1|]. split; [apply own_mono; exact X2|exact X3]. }
  assert (HC : forall x y m n d na ac, In (MsgSP m) (net s' x y) -> pm_msg m = MPrepare n d na ac -> own s' n).
  { intros x y m n d na ac Hm Hx. destruct (PropLeader.net_back _ _ _ _ _ _ _ Ha Hm) as [X|(o & X1 & X2)]; [apply own_mono; eapply HM; eauto|]. apply own_mono. right. destruct (HN x o X1) as (_ & _ & L).
    destruct (PropRoute.out_r cc (cc_nodes cc ++ PropRoute.mentioned l) x o (MsgSP m) (HJ x o X1) X2) as (_ & _ & _ & B). rewrite (B n); [|cbn; rewrite Hx; reflexivity]. exists o. split; [exact X1|].
    apply (L m n d na ac); [|exact Hx]. unfold PropRoute.handed_over, take_outgoing_messages, sp_take_outgoing in X2. cbn in X2. apply in_app_or in X2. destruct X2 as [X2|X2]; apply in_map_iff in X2; destruct X2 as (z & Z1 & Z2); [injection Z1 as <-; exact Z2|discriminate]. }
  assert (PW : forall p o b, nodes s' p = Some o -> ble b (get_promise o) = true -> pri p b -> own s' b) by exact pri_own. assert (MO : forall p o ev c, nodes s p = Some o -> event_call s p ev = Some c -> PropAnswer.owned o -> own_pid o = p -> may_call (fun _ _ _ => True) (fun _ => True) True True True True True (pri p) o c) by exact may_o. assert (SQ : forall p o, nodes s p = Some o -> PropFresh.PQ (pri p) (s_is (o_sp o))) by exact start_pq.
  split; [|exact HC]. clear HC. intros q oq Hq. destruct a as [p ev|p|src dst k|p ev j sc]; cbn in Ha.
  - destruct (nodes s p) as [o|] eqn:Hp; [|discriminate]. destruct (event_call s p ev) as [c|] eqn:Hc; [|discriminate]. destruct (exec o c) as [[o' r]|] eqn:He; [|discriminate]. injection Ha as Ha. rewrite <- Ha in Hq. cbn in Hq. unfold upd1 in Hq. destruct (Nat.eqb_spec q p) as [->|]; [|apply (HB q); exact Hq]. injection Hq as <-.
    destruct (HO p o Hp) as [O1 O2]. destruct (HN p o Hp) as (L1 & _ & L3). destruct (Hops.exec_t o c o' r O1 L1 L3 He) as (T1 & _ & T3 & _). split; [exact T1|]. split; [|exact T3].
    assert (Hp' : nodes s' p = Some o') by (rewrite <- Ha; cbn; unfold upd1; rewrite Nat.eqb_refl; reflexivity). apply (PW p o'); [exact Hp'|apply ble_refl|].
    destruct (exec_prims _ (fun _ => True) _ _ _ _ _ _ o c o' r I (MO p o ev c Hp Hc O1 O2) I He) as [Hpr _]. exact (proj1 (prims_inv _ _ _ _ _ _ _ _ _ (pri_prim p) _ _ Hpr (SQ p o Hp))).
  - destruct (nodes s p) as [o|] eqn:Hp; [|discriminate]. unfold take_outgoing_messages, sp_take_outgoing in Ha. cbn in Ha. injection Ha as Ha. rewrite <- Ha in Hq. cbn in Hq. unfold upd1 in Hq. destruct (Nat.eqb_spec q p) as [->|]; [|apply (HB q); exact Hq]. injection Hq as <-.
    destruct (HB p o Hp) as (X1 & X2 & _). split; [exact X1|]. split; [exact X2|]. intros m n d na ac [].
  - injection Ha as Ha. rewrite <- Ha in Hq. apply (HB q). exact Hq.
  - destruct (nodes s p) as [o|] eqn:Hp; [|discriminate]. destruct (event_call s p ev) as [c|] eqn:Hc; [|discriminate]. destruct (nth_error (crash_points o c) j) as [st|] eqn:Hj; [|discriminate]. destruct (sc_pid sc =? p); [|discriminate].
    destruct (build cc sc st) as [| |o'] eqn:Hb; try discriminate. injection Ha as Ha. pose proof Hq as Hq0. rewrite <- Ha in Hq. cbn in Hq. unfold upd1 in Hq. destruct (Nat.eqb_spec q p) as [->|]; [|apply (HB q); exact Hq]. injection Hq as <-.
    destruct (build_low _ _ _ Hb) as (B1 & B2 & B3 & _). split; [exact B2|]. split; [|exact B3]. apply (PW p o'); [exact Hq0|apply ble_refl|]. rewrite B1. destruct (HO p o Hp) as [O1 O2].
    destruct (crash_prims _ (fun _ => True) _ _ _ _ _ _ o c st I (MO p o ev c Hp Hc O1 O2) I (nth_error_In _ _ Hj)) as [->|(is & Hpr & Hi)]; [apply (SQ p o Hp)|].
    destruct (prims_tr _ _ _ _ _ _ _ _ (PropFresh.PQ (pri p)) _ _ (pri_prim p) Hpr (SQ p o Hp) eq_refl) as [_ X]. destruct (X st Hi) as (y & [_ Y] & <-). exact Y.
Qed.
End Step.
Lemma reach_o l : forall s, reaches cc scs l s -> sys_o s.
Proof.
  induction l as [|a l IH] using rev_ind; intros s R.
  - unfold reaches in R. cbn in R. injection R as <-. split; [|intros x y m n d na ac []]. intros p o. cbn. destruct (_ && _); [|discriminate]. destruct (build cc (scs p) ms_default) as [| |o'] eqn:Hb; try discriminate. intros X. injection X as <-.
    destruct (build_low _ _ _ Hb) as (B1 & B2 & B3 & _). split; [exact B2|]. split; [left; exact B1|exact B3].
  - destruct (Agree.run_app _ _ _ _ _ R) as (s1 & R1 & R2). cbn in R2. destruct (exec_action cc s1 a) as [s2|] eqn:Ha; [|discriminate]. injection R2 as <-. apply (step_o l s1 s2 a); auto.
Qed.
(** Where a hop leads. *)
Lemma hop_to l s a s' p q b : reaches cc scs l s -> exec_action cc s a = Some s' -> hop s s' p q b -> q = b_pid b /\ q <> p /\ exists oq, nodes s' q = Some oq /\ ble b (get_promise oq) = true.
Proof.
  intros R Ha (o & o' & new & m & H1 & H2 & H3 & H4 & H5 & H6). pose proof (reach_o _ _ R) as HS. pose proof (step_o _ _ _ _ R HS Ha) as [HN' _]. destruct (HN' p o' H2) as (_ & HO & _). rewrite H6 in HO.
  assert (K : pm_to m = b_pid (get_promise o') /\ pm_to m <> p /\ pm_to m <> 0).
  { pose proof (PropLocal.cluster_server_state _ _ _ _ _ _ R H1) as Hss. destruct (PropAnswer.answer_state _ Hss) as [Ho _]. destruct HS as [HN _]. destruct (HN p o H1) as (L1 & _ & L3). pose proof (PropLeader.reach_snoc cc scs l s a s' R Ha) as R'. pose proof (PropRoute.reach_any _ _ _ _ R') as [HJ _]. destruct (HJ p o' H2) as (_ & _ & _ & Hpid & _).
    assert (NE : filter hands_on (outgoing o') <> []) by (rewrite H3; destruct new; [destruct H4|]; destruct (filter hands_on (outgoing o)); discriminate).
    destruct (PropLeader.change_back _ _ _ _ _ _ Ha H2) as (o1 & X1 & X2). rewrite H1 in X1. injection X1 as <-. destruct X2 as [->|ev c r He Hc Hx|Hf F1 F2 F3 F4 F5|c sc st Hst Hb].
    - exfalso. assert (Y : length (filter hands_on (outgoing o)) = length (filter hands_on (outgoing o) ++ new)) by congruence. rewrite app_length in Y. destruct new; [destruct H4|cbn in Y; lia].
    - destruct (Hops.exec_t o c o' r Ho L1 L3 Hx) as (_ & _ & _ & nw & N1 & _ & N3). change (filter hands_on (outgoing o') = filter hands_on (outgoing o) ++ nw) in N1. rewrite H3 in N1. apply app_inv_head in N1. subst nw. destruct (N3 m H4) as (M1 & M2 & M3). change (pm_to m = b_pid (get_promise o')) in M1. rewrite Hpid in M2. auto.
    - exfalso. apply NE. unfold outgoing. rewrite F5. reflexivity.
    - exfalso. apply NE. apply (build_low _ _ _ Hb). }
  destruct K as (K1 & K2 & K3). rewrite H6 in K1. assert (Q : q = b_pid b) by congruence. split; [exact Q|]. split; [congruence|]. destruct HO as [->|(oq & O1 & O2)]; [cbn in Q; congruence|]. exists oq. rewrite Q. auto.
Qed.
End Inv.

Lemma run_more cc l1 l2 (s s1 : sys) r : run cc s l1 = Some s1 -> run cc s1 l2 = r -> run cc s (l1 ++ l2) = r.
Proof. revert s. induction l1 as [|a l1 IH]; cbn; intros s H1 H2; [injection H1 as ->; exact H2|]. destruct (exec_action cc s a); [auto|discriminate]. Qed.

(** ** C76 *)

(** A server only forwards to the owner of the ballot it has promised.  If that server forwards later, then it has promised a larger ballot. *)
Theorem C76_forwarding_climbs :
  forall cc scs l s a s' p q b l' s2 a2 s2' r b2, reaches cc scs l s -> exec_action cc s a = Some s' -> hop s s' p q b ->
  run cc s' l' = Some s2 -> exec_action cc s2 a2 = Some s2' -> hop s2 s2' q r b2 ->
  q = b_pid b /\ q <> p /\ r = b_pid b2 /\ r <> q /\ blt b b2 = true.
Proof.
  intros cc scs l s a s' p q b l' s2 a2 s2' r b2 R Ha H Hr Ha2 H2. destruct (hop_to cc scs l s a s' p q b R Ha H) as (A1 & A2 & oq & A3 & A4).
  assert (R1 : reaches cc scs (l ++ [a]) s') by (eapply PropLeader.reach_snoc; eauto). assert (R2 : reaches cc scs ((l ++ [a]) ++ l') s2) by (unfold reaches in *; eapply run_more; eauto).
  destruct (hop_to cc scs _ s2 a2 s2' q r b2 R2 Ha2 H2) as (B1 & B2 & _). split; [exact A1|]. split; [exact A2|]. split; [exact B1|]. split; [exact B2|].
  destruct H2 as (o & o' & _ & _ & H3 & H4 & _ & _ & _ & H5).
  destruct (PropLocal.C10_promise_never_decreases_in_cluster cc scs (l ++ [a]) (l' ++ [a2]) s' s2' q oq R1) as (o2 & Y1 & Y2); [eapply run_more; [exact Hr|]; cbn; rewrite Ha2; reflexivity|exact A3|].
  rewrite H4 in Y1. injection Y1 as <-. rewrite H5 in Y2. pose proof (Hops.ble_trans _ _ _ A4 Y2) as X. apply ble_spec in X. apply blt_spec. destruct X as [X|X]; [exact X|]. exfalso. unfold bal_same in X. lia.
Qed.

(** So along a path of hops, however long it takes and whatever is lost or crashes in between, the promises of the senders increase, a path is no longer than the number
    of ballots promised, and a server that gets back what it forwarded has promised a larger ballot meanwhile. *)
Lemma path_start cc s p bs s' q : path cc s p bs s' q -> exists b bs' a s1 q1, bs = b :: bs' /\ exec_action cc s a = Some s1 /\ hop s s1 p q1 b.
Proof. intros [x a x' y z b H1 H2|x a x' y z b l x2 bs0 x3 r H1 H2 H3 H4]; [exists b, [], a, x', z|exists b, bs0, a, x', z]; auto. Qed.
Lemma path_reach cc scs s p bs s' q : path cc s p bs s' q -> forall l, reaches cc scs l s -> exists l', reaches cc scs (l ++ l') s'.
Proof.
  intros H. induction H as [x a x' y z b H1 H2|x a x' y z b k x2 bs0 x3 r H1 H2 H3 H4 IH]; intros l R.
  - exists [a]. eapply PropLeader.reach_snoc; eauto.
  - destruct (IH ((l ++ [a]) ++ k)) as [l' X]; [unfold reaches in *; eapply run_more; [eapply PropLeader.reach_snoc; eauto|exact H3]|]. exists ([a] ++ k ++ l'). rewrite !app_assoc in *. exact X.
Qed.
Lemma path_last cc scs s p bs s' q : path cc s p bs s' q -> forall l, reaches cc scs l s -> exists b oq, In b bs /\ b_pid b = q /\ nodes s' q = Some oq /\ ble b (get_promise oq) = true.
Proof.
  intros H. induction H as [x a x' y z b H1 H2|x a x' y z b k x2 bs0 x3 r H1 H2 H3 H4 IH]; intros l R.
  - destruct (hop_to cc scs l x a x' y z b R H1 H2) as (A1 & _ & oq & A3 & A4). exists b, oq. cbn. auto.
  - destruct (IH ((l ++ [a]) ++ k)) as (b' & oq & B1 & B2); [unfold reaches in *; eapply run_more; [eapply PropLeader.reach_snoc; eauto|exact H3]|]. exists b', oq. split; [right; exact B1|exact B2].
Qed.
Lemma blt_tr a b c : blt a b = true -> blt b c = true -> blt a c = true.
Proof. rewrite !blt_spec. unfold bal_lt. lia. Qed.
Lemma path_sorted cc scs s p bs s' q : path cc s p bs s' q -> forall l, reaches cc scs l s -> StronglySorted (fun x y => blt x y = true) bs.
Proof.
  intros H. induction H as [x a x' y z b H1 H2|x a x' y z b k x2 bs0 x3 r H1 H2 H3 H4 IH]; intros l R; [repeat constructor|].
  assert (R2 : reaches cc scs ((l ++ [a]) ++ k) x2) by (unfold reaches in *; eapply run_more; [eapply PropLeader.reach_snoc; eauto|exact H3]). specialize (IH _ R2). constructor; [exact IH|].
  destruct (path_start _ _ _ _ _ _ H4) as (b2 & bs' & a2 & s3 & q1 & -> & Ha2 & Hh). destruct (C76_forwarding_climbs cc scs l x a x' y z b k x2 a2 s3 q1 b2 R H1 H2 H3 Ha2 Hh) as (_ & _ & _ & _ & X).
  constructor; [exact X|]. apply StronglySorted_inv in IH. destruct IH as [_ IH]. eapply Forall_impl; [|exact IH]. intros c Hc. eapply blt_tr; eauto.
Qed.
Theorem C76_no_circles :
  forall cc scs l s p bs s' q, reaches cc scs l s -> path cc s p bs s' q ->
  StronglySorted (fun x y => blt x y = true) bs /\
  (forall B, incl bs B -> length bs <= length B) /\
  (q = p -> exists b o', nodes s' p = Some o' /\ hd_error bs = Some b /\ blt b (get_promise o') = true).
Proof.
  intros cc scs l s p bs s' q R H. pose proof (path_sorted cc scs s p bs s' q H l R) as S. split; [exact S|]. split.
  - intros B HB. apply NoDup_incl_length; [|exact HB]. clear - S. induction S as [|x r S IH F]; constructor; auto. intros Hx. rewrite Forall_forall in F. specialize (F x Hx). apply blt_spec in F. unfold bal_lt in F. lia.
  - intros ->. destruct (path_last cc scs s p bs s' p H l R) as (bl & o' & L1 & L2 & L3 & L4). destruct (path_start _ _ _ _ _ _ H) as (b & bs' & a & s1 & q1 & -> & Ha & Hh). destruct (hop_to cc scs l s a s1 p q1 b R Ha Hh) as (A1 & A2 & _).
    exists b, o'. split; [exact L3|]. split; [reflexivity|]. destruct L1 as [<-|L1]; [congruence|]. apply StronglySorted_inv in S. destruct S as [_ S]. rewrite Forall_forall in S. specialize (S bl L1). apply blt_spec in S. apply ble_spec in L4. apply blt_spec. unfold bal_lt, bal_same in *. lia.
Qed.
End WithEntry.

(** ** Case *)
Section Case.
Local Existing Instance plain.

(** 1 was elected by everybody, then 2 by 1 alone.  An entry appended at 3 goes to 1 and from there to 2. *)
Definition sch_hops : list cmd :=
  [ Settle [1;2;3] 2; Call 1 CTryLeader; Settle [1;2;3] 3; Call 2 CTryLeader; Fetch [2]; Lose 2 3; Deliver 2 1; Fetch [1]; Deliver 1 2; Fetch [2]; Deliver 2 1 ].
Definition acts_hops := Eval vm_compute in acts_of cc3 ini sch_hops.
Definition next (s : sys) (l : list action) : sys := match run cc3 s l with Some s' => s' | None => s end.
Definition hops_a := next ini acts_hops.
Definition hops_b := next hops_a [ADo 3 (ECall (CAppend (5 : @T plain)))].
Definition hops_c := next hops_b [AFetch 3].
Definition k_hops := Eval vm_compute in length (net hops_c 3 1) - 1.
Definition hops_d := next hops_c [ADo 1 (EDeliver 3 k_hops)].
Lemma next_ok s l : match run cc3 s l with Some _ => true | None => false end = true -> run cc3 s l = Some (next s l).
Proof. unfold next. destruct (run cc3 s l); [reflexivity|discriminate]. Qed.
Lemma next_one s a : match run cc3 s [a] with Some _ => true | None => false end = true -> exec_action cc3 s a = Some (next s [a]).
Proof. unfold next. cbn [run]. destruct (exec_action cc3 s a); [reflexivity|discriminate]. Qed.
Definition hopb (s s' : sys) (p q : node_id) (b : ballot) : bool :=
  match nodes s p, nodes s' p with
  | Some o, Some o' => match filter hands_on (outgoing o), filter hands_on (outgoing o') with [], m :: _ => (pm_to m =? q) && beq (get_promise o') b | _, _ => false end
  | _, _ => false
  end.
Lemma hop_intro s s' p q b : hopb s s' p q b = true -> hop s s' p q b.
Proof.
  unfold hopb. destruct (nodes s p) as [o|] eqn:H1; [|discriminate]. destruct (nodes s' p) as [o'|] eqn:H2; [|discriminate]. destruct (filter hands_on (outgoing o)) eqn:X1; [|discriminate]. destruct (filter hands_on (outgoing o')) as [|m r] eqn:X2; [discriminate|].
  intros X. apply andb_true_iff in X. destruct X as [X3 X4]. apply Nat.eqb_eq in X3. apply beq_spec in X4. exists o, o', (m :: r), m. rewrite X1, X2. cbn. auto 10.
Qed.
Example C76_case :
  reaches cc3 scs acts_hops hops_a /\ path cc3 hops_a 3 [mkB 1 1 0 1; mkB 1 2 0 2] hops_d 2.
Proof.
  split; [(apply (next_ok ini acts_hops); vm_compute; reflexivity)|].
  assert (A1 : exec_action cc3 hops_a (ADo 3 (ECall (CAppend (5 : @T plain)))) = Some hops_b) by (apply (next_one hops_a (ADo 3 (ECall (CAppend (5 : @T plain))))); vm_compute; reflexivity).
  assert (A2 : run cc3 hops_b [AFetch 3] = Some hops_c) by (apply (next_ok hops_b [AFetch 3]); vm_compute; reflexivity).
  assert (A3 : exec_action cc3 hops_c (ADo 1 (EDeliver 3 k_hops)) = Some hops_d) by (apply (next_one hops_c (ADo 1 (EDeliver 3 k_hops))); vm_compute; reflexivity).
  assert (H1 : hop hops_a hops_b 3 1 (mkB 1 1 0 1)) by (apply hop_intro; vm_compute; reflexivity).
  assert (H2 : hop hops_c hops_d 1 2 (mkB 1 2 0 2)) by (apply hop_intro; vm_compute; reflexivity).
  exact (path_more _ _ _ _ _ _ _ _ _ _ _ _ A1 H1 A2 (path_one _ _ _ _ _ _ _ A3 H2)).
Qed.
End Case.

Print Assumptions C76_forwarding_climbs.
Print Assumptions C76_no_circles.
