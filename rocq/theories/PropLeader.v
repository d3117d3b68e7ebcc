(** * C70: the current leader that a server reports *)
From Coq Require Import List Arith Bool Lia.
Import ListNotations.
From Verif Require Import Types Config MemStore Internal LeaderState SeqPaxos Ble Omni System Basics Spec Prims Phase.
From Verif Require Import Scen Refute PropAgreement.
From Verif Require PropElect PropStable PropLocal NoPanic SysInv Agree PropAnswer PropFresh Route PropRoute.

Section WithEntry.
Context {E : EntryT}.

(** ** Proof *)
Section Inv.
Context (cc : cluster_config) (scs : node_id -> server_config).
Definition evid (s : sys) (n : ballot) : Prop :=
  (exists p o, nodes s p = Some o /\ syncs n (outgoing o)) \/
  (exists a b m q d sy, In (MsgSP m) (net s a b) /\ pm_msg m = MAcceptSync n q d sy) \/
  (exists p o, nodes s p = Some o /\ role_of o = (Follower, PhAccept) /\ get_promise o = n) \/
  (exists p o, nodes s p = Some o /\ role_of o = (Leader, PhAccept) /\ leader_ballot o = n).
Definition knows (n : ballot) (o : omni) : Prop :=
  ble n (get_promise o) = true /\ (fst (role_of o) = Leader -> bal_same (leader_ballot o) n -> snd (role_of o) = PhAccept).
Definition good (l : list action) (s : sys) (n : ballot) : Prop :=
  (exists s1 o, moment cc scs l s1 /\ nodes s1 (b_pid n) = Some o /\ role_of o = (Leader, PhAccept) /\ bal_same (leader_ballot o) n) /\
  (exists o, nodes s (b_pid n) = Some o /\ knows n o).
Definition sys_l (l : list action) (s : sys) : Prop :=
  (forall p o, nodes s p = Some o -> led (o_sp o)) /\ forall n, evid s n -> good l s n.
Lemma good_same l s a b : bal_same a b -> good l s a -> good l s b.
Proof.
  intros Hs. assert (Hp : b_pid a = b_pid b) by apply Hs. unfold good. rewrite Hp. intros [(s1 & o & H1 & H2 & H3 & H4) (o1 & K1 & K2 & K3)]. split; [exists s1, o; split; [exact H1|]; split; [exact H2|]; split; [exact H3|unfold bal_same in *; lia]|].
  exists o1. split; [exact K1|]. split; [apply ble_spec; apply ble_spec in K2; unfold bal_lt, bal_same in *; lia|]. intros L X. apply K3; [exact L|]. unfold bal_same in *. lia.
Qed.
Lemma moment_more l a s : moment cc scs l s -> moment cc scs (l ++ [a]) s.
Proof. intros (l1 & l2 & -> & R). exists l1, (l2 ++ [a]). rewrite app_assoc. auto. Qed.
Lemma build_led sc st o : build cc sc st = BOk o -> get_promise o = promised st /\ s_role (o_sp o) = Follower /\ s_phase (o_sp o) <> PhAccept /\ forall n, ~ syncs n (outgoing o).
Proof.
  unfold build. destruct (config_validate cc sc); [|discriminate]. destruct (sp_with _ _ _ _ _) as [x|] eqn:Hw; [|discriminate]. intros X. injection X as <-. unfold get_promise, outgoing. cbn [o_sp]. unfold sp_with in Hw. destruct (peers_of cc (sc_pid sc)) as [|p0 pr]; [discriminate|].
  unfold promised. destruct (ms_prom st) as [v|]; injection Hw as <-; (split; [reflexivity|]; split; [reflexivity|]; split; [discriminate|]); intros n (m & q & d & sy & Hm & Hx).
  - change (In m (map (fun p => mkPM (sc_pid sc) p (MPrepareReq v)) (p0 :: pr))) in Hm. apply in_map_iff in Hm. destruct Hm as (y & <- & _). discriminate.
  - destruct Hm.
Qed.
(** How a server changes in one action. *)
Inductive change (s : sys) (a : action) (p : node_id) (o o' : omni) : Prop :=
| ch_same : o' = o -> change s a p o o'
| ch_exec ev c r : a = ADo p ev -> event_call s p ev = Some c -> exec o c = Ok (o', r) -> change s a p o o'
| ch_fetch : a = AFetch p -> s_role (o_sp o') = s_role (o_sp o) -> s_phase (o_sp o') = s_phase (o_sp o) -> l_n (s_ls (o_sp o')) = l_n (s_ls (o_sp o)) -> s_is (o_sp o') = s_is (o_sp o) -> s_out (o_sp o') = [] -> change s a p o o'
| ch_crash c sc st : In st (crash_points o c) -> build cc sc st = BOk o' -> change s a p o o'.
Lemma step_change s a s' p : exec_action cc s a = Some s' ->
  (forall o, nodes s p = Some o -> exists o', nodes s' p = Some o' /\ change s a p o o') /\ (nodes s p = None -> nodes s' p = None).
Proof.
  intros Ha. assert (U : forall q x, upd1 (nodes s) q x p = if p =? q then x else nodes s p) by reflexivity. destruct a as [q ev|q|src dst k|q ev j sc]; cbn in Ha.
  - destruct (nodes s q) as [o|] eqn:Hp; [|discriminate]. destruct (event_call s q ev) as [c|] eqn:Hc; [|discriminate]. destruct (exec o c) as [[o' r]|] eqn:He; [|discriminate]. injection Ha as <-. cbn. rewrite U. destruct (Nat.eqb_spec p q) as [->|Hn].
    + rewrite Hp. split; [|discriminate]. intros o1 X. injection X as <-. exists o'. split; [reflexivity|]. eapply ch_exec; eauto.
    + split; [|auto]. intros o1 H1. exists o1. split; [exact H1|apply ch_same; reflexivity].
  - destruct (nodes s q) as [o|] eqn:Hp; [|discriminate]. unfold take_outgoing_messages, sp_take_outgoing in Ha. cbn in Ha. injection Ha as <-. cbn. rewrite U. destruct (Nat.eqb_spec p q) as [->|Hn].
    + rewrite Hp. split; [|discriminate]. intros o1 X. injection X as <-. eexists. split; [reflexivity|]. apply ch_fetch; reflexivity.
    + split; [|auto]. intros o1 H1. exists o1. split; [exact H1|apply ch_same; reflexivity].
  - injection Ha as <-. cbn. split; [|auto]. intros o1 H1. exists o1. split; [exact H1|apply ch_same; reflexivity].
  - destruct (nodes s q) as [o|] eqn:Hp; [|discriminate]. destruct (event_call s q ev) as [c|] eqn:Hc; [|discriminate]. destruct (nth_error (crash_points o c) j) as [st|] eqn:Hj; [|discriminate]. destruct (sc_pid sc =? q); [|discriminate].
    destruct (build cc sc st) as [| |o'] eqn:Hb; try discriminate. injection Ha as <-. cbn. rewrite U. destruct (Nat.eqb_spec p q) as [->|Hn].
    + rewrite Hp. split; [|discriminate]. intros o1 X. injection X as <-. exists o'. split; [reflexivity|]. eapply ch_crash; eauto. eapply nth_error_In; eauto.
    + split; [|auto]. intros o1 H1. exists o1. split; [exact H1|apply ch_same; reflexivity].
Qed.
Lemma change_back s a s' p o' : exec_action cc s a = Some s' -> nodes s' p = Some o' -> exists o, nodes s p = Some o /\ change s a p o o'.
Proof.
  intros Ha Ho. destruct (step_change s a s' p Ha) as [H1 H2]. destruct (nodes s p) as [o|]; [|rewrite H2 in Ho by reflexivity; discriminate]. destruct (H1 o eq_refl) as (o1 & H3 & H4). exists o. split; [reflexivity|congruence].
Qed.
Lemma net_back s a s' x y m : exec_action cc s a = Some s' -> In m (net s' x y) -> In m (net s x y) \/ exists o, nodes s x = Some o /\ In m (PropRoute.handed_over o).
Proof.
  intros Ha Hm. destruct a as [q ev|q|src dst k|q ev j sc]; cbn in Ha.
  - destruct (nodes s q) as [o|]; [|discriminate]. destruct (event_call s q ev) as [c|]; [|discriminate]. destruct (exec o c) as [[o' r]|]; [|discriminate]. injection Ha as <-. left. exact (PropStable.event_net_in s q ev x y m Hm).
  - destruct (nodes s q) as [o|] eqn:Hp; [|discriminate]. unfold take_outgoing_messages, sp_take_outgoing in Ha. cbn in Ha. injection Ha as <-. cbn in Hm. rewrite SysInv.send_all_net in Hm. destruct (Nat.eqb_spec x q) as [->|]; [|auto]. apply in_app_or in Hm. destruct Hm as [Hm|Hm]; [auto|]. apply filter_In in Hm. right. exists o. split; [exact Hp|apply Hm].
  - injection Ha as <-. left. exact (PropStable.event_net_in s dst (EDeliver src k) x y m Hm).
  - destruct (nodes s q) as [o|]; [|discriminate]. destruct (event_call s q ev) as [c|]; [|discriminate]. destruct (nth_error (crash_points o c) j) as [st|]; [|discriminate]. destruct (sc_pid sc =? q); [|discriminate].
    destruct (build cc sc st) as [| |o']; try discriminate. injection Ha as <-. left. exact (PropStable.event_net_in s q ev x y m Hm).
Qed.
Lemma good_step l s a s' n : reaches cc scs l s -> sys_l l s -> exec_action cc s a = Some s' -> good l s n -> good (l ++ [a]) s' n.
Proof.
  intros R [HL _] Ha [(s1 & o & H1 & H2) (o1 & K1 & K2 & K3)]. split; [exists s1, o; split; [apply moment_more; exact H1|exact H2]|].
  pose proof (PropLocal.cluster_server_state _ _ _ _ _ _ R K1) as Hss. destruct (PropAnswer.answer_state _ Hss) as [Hown _].
  destruct (step_change s a s' (b_pid n) Ha) as [X _]. destruct (X o1 K1) as (o' & X1 & X2). exists o'. split; [exact X1|].
  destruct (PropLocal.C10_promise_never_decreases_in_cluster cc scs l [a] s s' (b_pid n) o1 R) as (o2 & Y1 & Y2); [cbn; rewrite Ha; reflexivity|exact K1|]. rewrite X1 in Y1. injection Y1 as <-.
  split; [apply ble_spec; apply ble_spec in K2; apply ble_spec in Y2; unfold bal_lt, bal_same in *; lia|]. intros L B. destruct X2 as [->|ev c r He Hc Hx|Hf F1 F2 F3 F4 F5|c sc st Hst Hb].
  - apply K3; auto.
  - destruct (exec_t o1 c o' r Hown (HL _ _ K1) Hx) as (T1 & T2 & _). destruct (T1 L) as [_ [P|P]]; [|exact P]. exfalso. destruct (T2 L P) as [(Z1 & Z2 & Z3)|Z].
    + unfold leader_ballot in B. rewrite <- Z3 in B. specialize (K3 Z1 B). unfold role_of in K3. cbn in K3. congruence.
    + apply blt_spec in Z. apply ble_spec in K2. unfold get_promise, leader_ballot, sp_promise, bal_lt, bal_same in *. lia.
  - unfold role_of, leader_ballot in *. cbn in *. rewrite F1 in L. rewrite F3 in B. rewrite F2. apply K3; auto.
  - apply build_led in Hb. destruct Hb as (_ & Hb & _). unfold role_of in L. cbn in L. congruence.
Qed.
Lemma reach_snoc l s a s' : reaches cc scs l s -> exec_action cc s a = Some s' -> reaches cc scs (l ++ [a]) s'.
Proof.
  unfold reaches. generalize (init_sys cc scs). induction l as [|b l IH]; cbn; intros x R Ha; [injection R as ->; rewrite Ha; reflexivity|]. destruct (exec_action cc x b); [auto|discriminate].
Qed.
Lemma new_good l s a s' p o' : reaches cc scs l s -> exec_action cc s a = Some s' -> nodes s' p = Some o' -> led (o_sp o') -> role_of o' = (Leader, PhAccept) -> good (l ++ [a]) s' (leader_ballot o').
Proof.
  intros R Ha Ho Hl Hr. assert (R' : reaches cc scs (l ++ [a]) s') by (eapply reach_snoc; eauto).
  pose proof (PropRoute.reach_any _ _ _ _ R') as [HN _]. destruct (HN p o' Ho) as (_ & _ & _ & (_ & _ & _ & HJ & _)). unfold role_of in Hr. injection Hr as Hr1 Hr2. assert (Hp : b_pid (leader_ballot o') = p) by exact (HJ Hr1). unfold good. rewrite Hp. split.
  - exists s', o'. split; [exists (l ++ [a]), []; rewrite app_nil_r; auto|]. split; [exact Ho|]. split; [unfold role_of; congruence|unfold bal_same; auto].
  - exists o'. split; [exact Ho|]. split; [|intros _ _; exact Hr2]. destruct (Hl Hr1) as [X _]. unfold get_promise, leader_ballot, sp_promise. rewrite X. apply ble_spec. right. unfold bal_same. auto.
Qed.
Lemma step_l l s a s' : reaches cc scs l s -> sys_l l s -> exec_action cc s a = Some s' -> sys_l (l ++ [a]) s'.
Proof.
  intros R HS Ha. pose proof HS as [HL HE].
  assert (HL' : forall p o, nodes s' p = Some o -> led (o_sp o)).
  { intros p o' Ho. destruct (change_back _ _ _ _ _ Ha Ho) as (o & H1 & H2). specialize (HL p o H1). pose proof (PropLocal.cluster_server_state _ _ _ _ _ _ R H1) as Hss. destruct (PropAnswer.answer_state _ Hss) as [Hown _]. destruct H2 as [->|ev c r He Hc Hx|Hf F1 F2 F3 F4 F5|c sc st Hst Hb].
    - exact HL.
    - apply (exec_t o c o' r Hown HL Hx).
    - unfold led in *. rewrite F1, F2, F3, F4. exact HL.
    - apply build_led in Hb. destruct Hb as (_ & Hb & _). intros X. congruence. }
  split; [exact HL'|]. assert (G : forall n, evid s n -> good (l ++ [a]) s' n) by (intros n Hn; apply (good_step l s a s' n R HS Ha), HE, Hn).
  intros n [(p & o' & Ho & Hs)|[(x & y & m & q & d & sy & Hm & Hx)|[(p & o' & Ho & Hr & Hn)|(p & o' & Ho & Hr & Hn)]]].
  - destruct (change_back _ _ _ _ _ Ha Ho) as (o & H1 & H2). pose proof (PropLocal.cluster_server_state _ _ _ _ _ _ R H1) as Hss. destruct (PropAnswer.answer_state _ Hss) as [Hown _]. destruct H2 as [->|ev c r He Hc Hx|Hf F1 F2 F3 F4 F5|c sc st Hst Hb].
    + apply G. left. exists p, o. auto.
    + destruct (exec_t o c o' r Hown (HL p o H1) Hx) as (_ & _ & T3 & _). destruct (T3 n Hs) as [X|(_ & X1 & X2 & X3)]; [apply G; left; exists p, o; auto|]. rewrite <- X3. eapply new_good; eauto. unfold role_of. congruence.
    + destruct Hs as (m & q & d & sy & Hm & _). unfold outgoing in Hm. rewrite F5 in Hm. destruct Hm.
    + apply build_led in Hb. destruct Hb as (_ & _ & _ & Hb). destruct (Hb n Hs).
  - destruct (net_back _ _ _ _ _ _ Ha Hm) as [X|(o & X1 & X2)]; [apply G; right; left; exists x, y, m, q, d, sy; auto|]. apply G. left. exists x, o. split; [exact X1|]. exists m, q, d, sy. split; [|exact Hx].
    unfold PropRoute.handed_over, take_outgoing_messages, sp_take_outgoing in X2. cbn in X2. apply in_app_or in X2. destruct X2 as [X2|X2]; apply in_map_iff in X2; destruct X2 as (z & Z1 & Z2); [injection Z1 as <-; exact Z2|discriminate].
  - destruct (change_back _ _ _ _ _ Ha Ho) as (o & H1 & H2). pose proof (PropLocal.cluster_server_state _ _ _ _ _ _ R H1) as Hss. destruct (PropAnswer.answer_state _ Hss) as [Hown _]. unfold role_of in Hr. injection Hr as Hr1 Hr2. destruct H2 as [->|ev c r He Hc Hx|Hf F1 F2 F3 F4 F5|c sc st Hst Hb].
    + apply G. right. right. left. exists p, o. unfold role_of. rewrite Hr1, Hr2. auto.
    + destruct (exec_t o c o' r Hown (HL p o H1) Hx) as (_ & _ & _ & T4 & _). unfold get_promise, sp_promise in Hn. destruct (T4 Hr1 Hr2) as [(X1 & X2 & X3)|(k & X1 & X2)].
      * apply G. right. right. left. exists p, o. unfold role_of. rewrite X1, X2. unfold get_promise, sp_promise. rewrite X3. auto.
      * rewrite Hn in X2. assert (B : bal_same k n) by (pose proof (bcmp_spec n k) as X3; rewrite X2 in X3; unfold bal_same in *; lia). apply (good_same _ _ k n B). apply G. right. left.
        destruct c as [| | | | | | | |[m|m]]; try discriminate. cbn in X1. destruct (pm_msg m) as [| | |k' q d sy| | | | | | | |] eqn:Hm; try discriminate. injection X1 as ->. destruct ev as [c0|src j]; cbn in Hc; [destruct c0; discriminate|].
        destruct (nth_error (net s src p) j) as [x|] eqn:Hx'; [|discriminate]. injection Hc as ->. exists src, p, m, q, d, sy. split; [eapply nth_error_In; eauto|exact Hm].
    + apply G. right. right. left. exists p, o. unfold role_of. rewrite <- F1, <- F2, Hr1, Hr2. split; [exact H1|]. split; [reflexivity|]. unfold get_promise, sp_promise in *. rewrite <- F4. exact Hn.
    + apply build_led in Hb. destruct Hb as (_ & _ & Hb & _). contradiction.
  - subst n. eapply new_good; eauto.
Qed.
Lemma reach_l l : forall s, reaches cc scs l s -> sys_l l s.
Proof.
  induction l as [|a l IH] using rev_ind; intros s R.
  - unfold reaches in R. cbn in R. injection R as <-.
    assert (X : forall p o, nodes (init_sys cc scs) p = Some o -> s_role (o_sp o) = Follower /\ s_phase (o_sp o) <> PhAccept /\ forall n, ~ syncs n (outgoing o)).
    { intros p o. cbn. destruct (_ && _); [|discriminate]. destruct (build cc (scs p) ms_default) as [| |o'] eqn:Hb; try discriminate. intros X. injection X as <-. apply build_led in Hb. apply Hb. }
    split; [intros p o Ho Y; destruct (X p o Ho) as [Z _]; congruence|]. intros n [(p & o & Ho & Hs)|[(x & y & m & q & d & sy & [] & Hx)|[(p & o & Ho & Hr & Hn)|(p & o & Ho & Hr & Hn)]]].
    + destruct (X p o Ho) as (_ & _ & Z). destruct (Z n Hs).
    + destruct (X p o Ho) as (_ & Z & _). unfold role_of in Hr. injection Hr as _ Hr. contradiction.
    + destruct (X p o Ho) as (Z & _ & _). unfold role_of in Hr. injection Hr as Hr _. congruence.
  - destruct (Agree.run_app _ _ _ _ _ R) as (s1 & R1 & R2). cbn in R2. destruct (exec_action cc s1 a) as [s2|] eqn:Ha; [|discriminate]. injection R2 as <-. apply (step_l l s1 a); auto.
Qed.
End Inv.

(** ** C70 *)

(** A server that reports no leader has not promised anything. Otherwise it reports a server of the configuration. *)
Theorem C70_reported_leader_is_a_server :
  forall cc scs l s p o, ~ In 0 (cc_nodes cc) -> reaches cc scs l s -> nodes s p = Some o ->
  match get_current_leader o with
  | None => get_promise o = bdef
  | Some (q, _) => In q (cc_nodes cc)
  end.
Proof.
  intros cc scs l s p o H0 R Ho. pose proof (PropRoute.reach_any _ _ _ _ R) as [HN _]. destruct (HN p o Ho) as (_ & _ & [HP _] & _). unfold get_current_leader. fold (get_promise o) in HP. destruct HP as [HP|HP]; [rewrite HP; reflexivity|].
  destruct (Nat.eqb_spec (b_pid (get_promise o)) 0) as [X|X]; [rewrite X in HP; contradiction|exact HP].
Qed.

(** A server that reports itself, in the accept phase, is the leader of the ballot it has promised. *)
Theorem C70_reporting_itself :
  forall cc scs l s p o, reaches cc scs l s -> nodes s p = Some o -> get_current_leader o = Some (p, true) ->
  role_of o = (Leader, PhAccept) /\ leader_ballot o = get_promise o.
Proof.
  intros cc scs l s p o R Ho Hg. pose proof (PropRoute.reach_any _ _ _ _ R) as [HN _]. destruct (HN p o Ho) as (_ & _ & _ & (_ & _ & _ & _ & _ & _ & _ & J8)). pose proof (reach_l cc scs l s R) as [HL _]. specialize (HL p o Ho).
  unfold get_current_leader in Hg. destruct (_ =? 0); [discriminate|]. injection Hg as H1 H2. unfold role_of. destruct (s_phase (o_sp o)) eqn:Hh; try discriminate. destruct (s_role (o_sp o)) eqn:Hr.
  - destruct (J8 eq_refl eq_refl) as [_ X]. contradiction.
  - split; [reflexivity|]. apply (HL Hr).
Qed.

(** A server that reports [q] in the accept phase: [q] is or was in the accept phase as the leader of the promised ballot.
    If [q] still leads with this ballot then it is still in the accept phase; otherwise it leads with a
    higher ballot or leads no more, as after a restart. *)
Theorem C70_reported_accept_phase_partial :
  forall cc scs l s p o q, reaches cc scs l s -> nodes s p = Some o -> get_current_leader o = Some (q, true) ->
  (exists s1 o1, moment cc scs l s1 /\ nodes s1 q = Some o1 /\ role_of o1 = (Leader, PhAccept) /\ leader_ballot o1 = get_promise o) /\
  (exists oq, nodes s q = Some oq /\ ble (get_promise o) (get_promise oq) = true /\
    (fst (role_of oq) = Leader -> leader_ballot oq = get_promise o -> snd (role_of oq) = PhAccept) /\
    (fst (role_of oq) = Leader -> leader_ballot oq <> get_promise o -> blt (get_promise o) (leader_ballot oq) = true)).
Proof.
  intros cc scs l s p o q R Ho Hg. pose proof (reach_l cc scs l s R) as [HL HE].
  unfold get_current_leader in Hg. destruct (Nat.eqb_spec (b_pid (get_promise o)) 0) as [X0|X0]; [discriminate|]. injection Hg as <- H2. destruct (s_phase (o_sp o)) eqn:Hh; try discriminate. clear H2.
  assert (Ev : evid s (get_promise o)). { right. right. destruct (s_role (o_sp o)) eqn:Hr; [left|right]; exists p, o; unfold role_of; rewrite Hr, Hh; (split; [exact Ho|]; split; [reflexivity|]); [reflexivity|]. apply (HL p o Ho Hr). }
  destruct (PropFresh.C60_ballots_in_use_are_usable cc scs l s p o R Ho) as (_ & Up & _). assert (Hcfg : b_cfg (get_promise o) = cc_id cc). { destruct Up as [Up|Up]; [rewrite Up in X0; cbn in X0; lia|apply Up]. }
  assert (Eq : forall a, b_cfg a = cc_id cc -> bal_same a (get_promise o) -> a = get_promise o). { intros a Ha Hb. apply beq_spec. destruct a as [a1 a2 a3 a4], (get_promise o) as [c1 c2 c3 c4]. unfold bal_same in Hb. cbn in *. unfold beq. cbn. rewrite !andb_true_iff, !Nat.eqb_eq. intuition congruence. }
  destruct (HE _ Ev) as [(s1 & o1 & M & N1 & R1 & B1) (oq & Q1 & Q2 & Q3)]. split.
  - exists s1, o1. split; [exact M|]. split; [exact N1|]. split; [exact R1|]. apply Eq; [|exact B1]. destruct M as (l1 & l2 & _ & M). destruct (PropFresh.C60_ballots_in_use_are_usable cc scs l1 s1 _ o1 M N1) as (_ & _ & U & _). apply U. rewrite R1. reflexivity.
  - exists oq. split; [exact Q1|]. split; [exact Q2|]. split.
    + intros L B. apply Q3; [exact L|]. rewrite B. unfold bal_same. auto.
    + intros L B. destruct (HL _ _ Q1 L) as [X _]. change (leader_ballot oq = get_promise oq) in X. rewrite X in *. apply ble_spec in Q2. apply blt_spec. destruct Q2 as [Q2|Q2]; [exact Q2|]. exfalso. apply B. apply Eq; [|unfold bal_same in *; lia].
      destruct (PropFresh.C60_ballots_in_use_are_usable cc scs l s _ oq R Q1) as (_ & _ & U & _). rewrite <- X. apply U. exact L.
Qed.
End WithEntry.

(** ** Cases *)
Section Case.
Local Existing Instance plain.

(** Server 2 leads in the accept phase and server 3 reports it; server 1 still reports itself, with an older ballot. *)
Example C70_case :
  reaches cc3 scs (acts_case1 ++ acts_case2) sys_case2 /\ ~ In 0 (cc_nodes cc3) /\
  map (fun p => obs sys_case2 p (fun o => (get_current_leader o, role_of o, get_promise o))) [1; 2; 3] =
    [Some (Some (1, true), (Leader, PhAccept), mkB 1 1 0 1); Some (Some (2, true), (Leader, PhAccept), mkB 1 2 0 2); Some (Some (2, true), (Follower, PhAccept), mkB 1 2 0 2)].
Proof. split; [exact case_reach2|]. split; [cbn; lia|]. vm_compute. reflexivity. Qed.

(** omni_paxos.rs 272-274 says that the leader is in the accept phase if the server reports it so. That is not
    true: here server 2 has crashed and restarted, and server 3 still reports it in the accept phase. *)
Theorem C70_leader_is_in_accept_phase_refuted :
  exists l s o oq, reaches cc3 scs l s /\ nodes s 3 = Some o /\ get_current_leader o = Some (2, true) /\ nodes s 2 = Some oq /\ role_of oq = (Follower, PhRecover) /\ fst (role_of o) = Follower.
Proof.
  set (l := (acts_case1 ++ acts_case2) ++ [ACrash 2 (ECall CTick) 0 (scs 2)]).
  assert (H : match run cc3 ini l with Some s => (obs s 3 get_current_leader, obs s 2 role_of, obs s 3 (fun o => fst (role_of o))) | None => (None, None, None) end = (Some (Some (2, true)), Some (Follower, PhRecover), Some Follower)) by (vm_compute; reflexivity).
  destruct (run cc3 ini l) as [s|] eqn:R; [|discriminate]. unfold obs in H. destruct (nodes s 3) as [o|] eqn:Ho; [|discriminate]. destruct (nodes s 2) as [oq|] eqn:Hq; [|discriminate]. injection H as H1 H2 H3 H4.
  exists l, s, o, oq. split; [exact R|]. split; [exact Ho|]. split; [exact H1|]. split; [exact Hq|]. split; [unfold role_of; congruence|exact H4].
Qed.
End Case.
Print Assumptions C70_reported_leader_is_a_server.
Print Assumptions C70_reporting_itself.
Print Assumptions C70_reported_accept_phase_partial.
Print Assumptions C70_leader_is_in_accept_phase_refuted.
