(** * C60: ballots in use, and restarted servers *)
From Coq Require Import List Arith Bool Lia.
Import ListNotations.
From Verif Require Import Types Config MemStore Internal LeaderState SeqPaxos Ble Omni System Basics Spec Prims Fresh.
From Verif Require Import Scen Refute PropAgreement.
From Verif Require PropElect PropStable PropLocal NoPanic.

Section WithEntry.
Context {E : EntryT}.

Section Inv.
Context (cc : cluster_config).
Notation C := (cc_id cc).
Notation okb := (okb C).
(** No promise yet, or a promised ballot in use. *)
Definition okp (b : ballot) : Prop := b = bdef \/ okb b.
Definition okble (b : bles) : Prop :=
  e_cfg b = C /\ b_cfg (e_ballot b) = C /\ okb (e_leader b) /\ forall r, In r (e_replies b) -> b_cfg (hr_ballot r) = C.
(** The promise satisfies [Q], in the cache and in the storage. *)
Definition PQ (Q : ballot -> Prop) (x : istore) : Prop := Q (i_prom x) /\ Q (promised (i_st x)).
Notation PO := (PQ okp).
Definition node_ok (o : omni) : Prop := okble (o_ble o) /\ PO (s_is (o_sp o)) /\ kb C (o_sp o).
Definition msg_ok (m : message) : Prop := match m with MsgSP m => okm C m | MsgBLE _ => True end.
Definition sys_ok (s : sys) : Prop := (forall p o, nodes s p = Some o -> node_ok o) /\ forall p q m, In m (net s p q) -> msg_ok m.

Lemma okb_up a b : okb a -> b_cfg b = C -> bgt b a = true -> okb b.
Proof. intros [H1 H2] H3 H4. split; [exact H3|]. rewrite bgt_blt in H4. apply blt_spec in H4. unfold bal_lt in H4. lia. Qed.
Lemma okp_up a b : okb a -> okp b -> bgt b a = true -> okb b.
Proof. intros H1 [->|H2] H3; [|exact H2]. rewrite bgt_blt in H3. apply blt_spec in H3. destruct H1 as [H1 H4]. unfold bal_lt, bdef in H3. cbn in H3. lia. Qed.
Lemma update_leader_ok b : okble b -> okble (update_leader b).
Proof.
  intros (H1 & H2 & H3 & H4). destruct (PropElect.update_leader_view b) as (v & [Hv1 Hv2] & ->). split; [exact H1|]. split; [exact H2|]. split; [|exact H4]. cbn.
  destruct Hv1 as [<-|Hv1]; [exact H3|]. apply in_map_iff in Hv1. destruct Hv1 as (r & <- & Hr). specialize (H4 r Hr). specialize (Hv2 (e_leader b) (or_introl eq_refl)). apply ble_spec in Hv2. destruct H3 as [H3 H5]. split; [exact H4|]. unfold bal_lt, bal_same in Hv2. lia.
Qed.
Lemma check_takeover_ok b : okble b -> okble (check_takeover b).
Proof.
  intros (H1 & H2 & H3 & H4). unfold check_takeover. destruct (negb (e_happy b)); [|split; auto]. destruct (_ && _); [|split; auto]. split; [exact H1|]. split; [exact H2|]. split; [|exact H4]. split; [exact H2|]. cbn. lia.
Qed.
Lemma hb_ok b st prom : okble b -> okp prom -> okble (fst (hb_timeout b st prom)) /\ forall n, snd (hb_timeout b st prom) = Some n -> okb n.
Proof.
  intros Hb Hp. unfold hb_timeout. cbn [fst snd]. set (b1 := check_takeover _). assert (K : okble b1) by (apply check_takeover_ok; exact (update_leader_ok b Hb)). clearbody b1.
  set (b2 := if bgt prom _ then _ else _). assert (K2 : okble b2).
  { destruct K as (H1 & H2 & H3 & H4). unfold b2. change (e_leader (new_hb_round b1)) with (e_leader b1). destruct (bgt prom (e_leader b1)) eqn:Hg; [|split; [exact H1|]; split; [exact H2|]; split; [exact H3|intros r []]].
    pose proof (okp_up _ _ H3 Hp Hg) as Ho. destruct (_ =? _); (split; [exact H1|]; split; [first [exact H2|apply Ho]|]; split; [exact Ho|intros r []]). }
  clearbody b2. split; [exact K2|]. intros n. destruct (beq _ _) eqn:He; [|discriminate]. apply beq_spec in He. intros X. injection X as <-. rewrite <- He. apply K2.
Qed.

(** ** The promise *)
Definition allowed := prim (fun _ _ _ => True) (fun _ => True) True True True True True okb.
Section Kept.
Context (Q : ballot -> Prop) (HQ : forall b, okb b -> Q b).
Lemma po_kept x y : PropStable.prom_kept x y -> PQ Q x -> PQ Q y.
Proof. intros [H1 H2] [H3 H4]. split; [rewrite H1; exact H3|]. unfold promised in *. rewrite H2. exact H4. Qed.
Lemma po_prim x y : PQ Q x -> allowed x y -> PQ Q y.
Proof.
  intros HB H. destruct H as [s c|s es|s ss Hp Hn Hb|s ss s' a Hp He|s n HPR Hn|s e Hd Hc|s n e sy s' a Ha He|s n e sy s' a Hl Hm He|s i s' r Ht He|s i s' r Hs He].
  - exact HB.
  - apply (po_kept s); [split; reflexivity|exact HB].
  - apply (po_kept s); [|exact HB]. unfold i_append_stopsign, cache_append_stopsign. cbn. rewrite Hb. split; reflexivity.
  - apply (po_kept s); [|exact HB]. unfold i_set_stopsign in He. destruct (c_ss (i_ca s)); cbn in He; injection He as <- _; split; reflexivity.
  - split; apply HQ; exact HPR.
  - apply (po_kept s); [split; reflexivity|exact HB].
  - apply (po_kept s); [eapply PropStable.sync_prom; eauto|exact HB].
  - apply (po_kept s); [eapply PropStable.sync_prom; eauto|exact HB].
  - apply (po_kept s); [eapply PropStable.trim_prom; eauto|exact HB].
  - apply (po_kept s); [eapply PropStable.snap_prom; eauto|exact HB].
Qed.
End Kept.

(** ** One call *)
Definition call_fine (c : call) : Prop := match c with CHandle m => msg_ok m | _ => True end.
Lemma may_ok o c : node_ok o -> call_fine c -> may_call (fun _ _ _ => True) (fun _ => True) True True True True True okb o c.
Proof.
  intros (HB & [HP _] & _) Hf. destruct c as [e|cc0 meta| |i|i l|q| |q|[m|m]]; cbn [may_call]; auto.
  - intros n [_ Hn]. apply (hb_ok (o_ble o) (role_of o) (get_promise o) HB HP). exact Hn.
  - destruct HB as (_ & H2 & _). split; [exact H2|]. cbn. lia.
  - cbn in Hf. unfold okm in Hf. unfold may_handle. destruct (pm_msg m) as [| | | | | | | | |cp| |]; auto. destruct cp; auto.
Qed.
Lemma sp_handle_ble o c : node_ok o -> call_fine c -> call_ok C o c.
Proof.
  intros (HB & [HP _] & _) Hf. destruct c; cbn [call_ok]; auto.
  - apply (hb_ok (o_ble o) (role_of o) (get_promise o) HB HP).
  - destruct HB as (_ & H2 & _). split; [exact H2|]. cbn. lia.
Qed.
Lemma exec_ok o c o' r : node_ok o -> call_fine c -> exec o c = Ok (o', r) -> node_ok o'.
Proof.
  intros HN Hf He. pose proof HN as (HB & HP & HK). split; [|split].
  - apply PropElect.exec_ble in He. destruct c as [e|cc0 meta| |i|i l|q| |q|[m|m]]; try (rewrite He; exact HB).
    + destruct (PropElect.due _); rewrite He; [|exact HB]. destruct HP as [HP _]. apply (hb_ok (o_ble o) (role_of o) (get_promise o) HB HP).
    + rewrite He. unfold ble_handle. destruct (bm_msg m) as [k|k]; [exact HB|]. unfold handle_reply. destruct (_ && _) eqn:Hc; [|exact HB]. apply andb_true_iff in Hc. destruct Hc as [_ Hc]. apply Nat.eqb_eq in Hc.
      destruct HB as (H1 & H2 & H3 & H4). split; [exact H1|]. split; [exact H2|]. split; [exact H3|]. cbn. intros x Hx. apply in_app_or in Hx. destruct Hx as [Hx|[<-|[]]]; [auto|congruence].
  - destruct (exec_prims _ (fun _ => True) _ _ _ _ _ _ o c o' r I (may_ok o c HN Hf) I He) as [Hp _]. exact (prims_inv _ _ _ _ _ _ _ _ PO (po_prim _ (fun b X => or_intror X)) _ _ Hp HP).
  - pose proof (exec_k C o c HK (sp_handle_ble o c HN Hf)) as X. rewrite He in X. exact X.
Qed.
Lemma crash_q (Q : ballot -> Prop) o c st : (forall b, okb b -> Q b) -> PQ Q (s_is (o_sp o)) -> node_ok o -> call_fine c -> In st (crash_points o c) -> Q (promised st).
Proof.
  intros HQ HP HN Hf Hin. destruct (crash_prims _ (fun _ => True) _ _ _ _ _ _ o c st I (may_ok o c HN Hf) I Hin) as [->|(is & Hp & Hi)]; [apply HP|].
  destruct (prims_tr _ _ _ _ _ _ _ _ (PQ Q) _ _ (po_prim Q HQ) Hp HP eq_refl) as [_ X]. destruct (X st Hi) as (y & [_ Y] & <-). exact Y.
Qed.
Lemma crash_ok o c st : node_ok o -> call_fine c -> In st (crash_points o c) -> okp (promised st).
Proof. intros HN. apply (crash_q okp); [intros b X; right; exact X|apply HN|exact HN]. Qed.
Lemma build_ok sc st o : okp (promised st) -> build cc sc st = BOk o -> node_ok o.
Proof.
  intros Hp. unfold build. destruct (config_validate cc sc); [|discriminate]. destruct (sp_with _ _ _ _ _) as [x|] eqn:Hw; [|discriminate]. intros X. injection X as <-. split; [|].
  - cbn [o_ble]. unfold ble_with. unfold promised in Hp. destruct (ms_prom st) as [v|]; [destruct (beq v bdef) eqn:Hb; cbn [negb]|].
    2: { split; [reflexivity|]. split; [reflexivity|]. split; [|intros r []]. destruct Hp as [Hp|Hp]; [|exact Hp]. apply beq_spec in Hp. congruence. }
    all: split; [reflexivity|]; split; [reflexivity|]; split; [split; [reflexivity|cbn; unfold initial_round; lia]|intros r []].
  - cbn [o_sp]. unfold sp_with in Hw. destruct (peers_of cc (sc_pid sc)) as [|p0 pr]; [discriminate|]. unfold PQ, promised in *.
    destruct (ms_prom st) as [v|]; injection Hw as <-; (split; [split; cbn; first [exact Hp|left; reflexivity]|]; split; [discriminate|]).
    + cbn [s_out]. apply Forall_forall. intros m Hm. change (In m (map (fun p => mkPM (sc_pid sc) p (MPrepareReq v)) (p0 :: pr))) in Hm. apply in_map_iff in Hm. destruct Hm as (q & <- & _). exact I.
    + constructor.
Qed.

(** ** Steps *)
Lemma event_fine s p ev c : sys_ok s -> event_call s p ev = Some c -> call_fine c.
Proof.
  intros [_ HM] He. destruct ev as [c0|src k]; cbn in He.
  - destruct c0; try discriminate; injection He as <-; exact I.
  - destruct (nth_error (net s src p) k) as [m|] eqn:Hn; [|discriminate]. injection He as <-. apply (HM src p). eapply nth_error_In; eauto.
Qed.
Lemma step_ok s a s' : sys_ok s -> exec_action cc s a = Some s' -> sys_ok s'.
Proof.
  intros HS Ha. pose proof HS as [HN HM]. destruct a as [p ev|p|src dst k|p ev j sc]; cbn in Ha.
  - destruct (nodes s p) as [o|] eqn:Hp; [|discriminate]. destruct (event_call s p ev) as [c|] eqn:Hc; [|discriminate]. destruct (exec o c) as [[o' r]|] eqn:He; [|discriminate]. injection Ha as <-.
    split; [|intros a b m Hm; apply (HM a b); exact (PropStable.event_net_in s p ev a b m Hm)]. intros q oq. cbn. unfold upd1. destruct (q =? p); [|apply HN]. intros X. injection X as <-.
    apply (exec_ok o c o' r); auto; [exact (HN p o Hp)|eapply event_fine; eauto].
  - destruct (nodes s p) as [o|] eqn:Hp; [|discriminate]. pose proof (HN p o Hp) as (HB & HPo & HK1 & HK2). unfold take_outgoing_messages, sp_take_outgoing in Ha. cbn in Ha. injection Ha as <-. split.
    + intros q oq. cbn. unfold upd1. destruct (q =? p); [|apply HN]. intros X. injection X as <-. split; [exact HB|]. split; [exact HPo|]. split; [exact HK1|constructor].
    + intros a b m Hm. cbn in Hm. apply NoPanic.send_all_in in Hm. destruct Hm as [Hm|Hm]; [eapply HM; eauto|]. apply in_app_or in Hm. destruct Hm as [Hm|Hm]; apply in_map_iff in Hm; destruct Hm as (x & <- & Hx); [|exact I].
      rewrite Forall_forall in HK2. exact (HK2 x Hx).
  - injection Ha as <-. split; [exact HN|]. intros a b m Hm. apply (HM a b). exact (PropStable.event_net_in s dst (EDeliver src k) a b m Hm).
  - destruct (nodes s p) as [o|] eqn:Hp; [|discriminate]. destruct (event_call s p ev) as [c|] eqn:Hc; [|discriminate]. destruct (nth_error (crash_points o c) j) as [st|] eqn:Hj; [|discriminate]. destruct (sc_pid sc =? p); [|discriminate].
    destruct (build cc sc st) as [| |o'] eqn:Hb; try discriminate. injection Ha as <-. split; [|intros a b m Hm; apply (HM a b); exact (PropStable.event_net_in s p ev a b m Hm)].
    intros q oq. cbn. unfold upd1. destruct (q =? p); [|apply HN]. intros X. injection X as <-. apply (build_ok sc st); [|exact Hb]. apply (crash_ok o c); [exact (HN p o Hp)|eapply event_fine; eauto|eapply nth_error_In; eauto].
Qed.
Lemma run_ok l : forall s s', sys_ok s -> run cc s l = Some s' -> sys_ok s'.
Proof. induction l as [|a l IH]; cbn; intros s s' H Hr; [injection Hr as <-; exact H|]. destruct (exec_action cc s a) as [s1|] eqn:Ha; [|discriminate]. apply (IH s1); [eapply step_ok; eauto|exact Hr]. Qed.
Lemma init_ok scs : sys_ok (init_sys cc scs).
Proof.
  split; [|intros p q m []]. intros p o. cbn. destruct (_ && _); [|discriminate]. destruct (build cc (scs p) ms_default) as [| |o'] eqn:Hb; try discriminate. intros X. injection X as <-. apply (build_ok (scs p) ms_default); [left; reflexivity|exact Hb].
Qed.
Lemma reach_ok scs l s : reaches cc scs l s -> sys_ok s.
Proof. apply run_ok, init_ok. Qed.
End Inv.

(** A restart with a promise in the storage. *)
Lemma restart_build cc sc st o : promised st <> bdef -> build cc sc st = BOk o ->
  b_n (own_ballot o) = 0 /\ role_of o = (Follower, PhRecover) /\ election_view o = get_promise o /\ b_cfg (own_ballot o) <> 0.
Proof.
  intros Hp. unfold build. destruct (config_validate cc sc) eqn:Hv; [|discriminate]. destruct (sp_with _ _ _ _ _) as [x|] eqn:Hw; [|discriminate]. intros X. injection X as <-.
  assert (Hc : cc_id cc <> 0). { unfold config_validate, cluster_validate in Hv. rewrite !andb_true_iff, negb_true_iff, Nat.eqb_neq in Hv. tauto. }
  unfold sp_with in Hw. destruct (peers_of cc (sc_pid sc)) as [|p0 pr]; [discriminate|]. unfold promised in Hp. destruct (ms_prom st) as [v|]; [|congruence]. injection Hw as <-.
  unfold own_ballot, role_of, election_view, get_promise, ble_with. cbn [o_ble o_sp]. destruct (beq v bdef) eqn:Hb; [apply beq_spec in Hb; congruence|]. cbn. auto.
Qed.
Lemma restart_step cc scs l s p ev j sc s' o o' : reaches cc scs l s -> exec_action cc s (ACrash p ev j sc) = Some s' ->
  nodes s p = Some o -> get_promise o <> bdef -> nodes s' p = Some o' ->
  b_n (own_ballot o') = 0 /\ role_of o' = (Follower, PhRecover) /\ election_view o' = get_promise o' /\ b_cfg (own_ballot o') <> 0.
Proof.
  intros Hr Ha Hp Hb Hp'. pose proof (PropLocal.cluster_server_state _ _ _ _ _ _ Hr Hp) as Hss. apply reach_ok in Hr. cbn in Ha. rewrite Hp in Ha.
  destruct (event_call s p ev) as [c|] eqn:Hc; [|discriminate]. destruct (nth_error (crash_points o c) j) as [st|] eqn:Hj; [|discriminate]. destruct (sc_pid sc =? p); [|discriminate].
  destruct (build cc sc st) as [| |o1] eqn:Hbd; try discriminate. injection Ha as <-. cbn in Hp'. unfold upd1 in Hp'. rewrite Nat.eqb_refl in Hp'. injection Hp' as <-. apply (restart_build cc sc st); [|exact Hbd].
  assert (HN : node_ok cc o) by exact (proj1 Hr p o Hp).
  apply (crash_q cc (fun b => b <> bdef) o c); [intros b [_ X] ->; cbn in X; lia|split; [exact Hb|]|exact HN|eapply event_fine; eauto|eapply nth_error_In; eauto].
  pose proof (PropLocal.C10_promise_is_persisted o Hss) as X. unfold storage in X. rewrite <- X. exact Hb.
Qed.

(** [b] is a ballot of the configuration [cc] that a server can be elected with: rounds start at 1. *)
Definition usable (cc : cluster_config) (b : ballot) : Prop := b_cfg b = cc_id cc /\ 1 <= b_n b.

(** C60.  At every moment of every execution, whatever is lost, reordered or crashes: all the ballots
    that servers follow, have promised, lead with or ask promises for are usable. *)
Theorem C60_ballots_in_use_are_usable :
  forall cc scs l s p o, reaches cc scs l s -> nodes s p = Some o ->
  usable cc (election_view o) /\
  (get_promise o = bdef \/ usable cc (get_promise o)) /\
  (fst (role_of o) = Leader -> usable cc (leader_ballot o)) /\
  (forall q m n d na ac, In m (outgoing o) \/ In (MsgSP m) (net s p q) -> pm_msg m = MPrepare n d na ac -> usable cc n).
Proof.
  intros cc scs l s p o Hr Hp. apply reach_ok in Hr. destruct Hr as [HN HM]. destruct (HN p o Hp) as ((_ & _ & H3 & _) & [HP _] & HK1 & HK2). split; [exact H3|]. split; [exact HP|]. split; [exact HK1|].
  intros q m n d na ac [Hm|Hm] Hn.
  - rewrite Forall_forall in HK2. specialize (HK2 m Hm). unfold okm in HK2. rewrite Hn in HK2. exact HK2.
  - specialize (HM p q _ Hm). cbn in HM. unfold okm in HM. rewrite Hn in HM. exact HM.
Qed.

(** The ballot of a server that restarts after it has promised something has number 0.  So no server,
    the restarted one included, follows this ballot, has promised it or leads with it. *)
Theorem C60_restarted_server_is_nobodys_leader :
  forall cc scs l s p ev j sc s' o o',
  reaches cc scs l s -> exec_action cc s (ACrash p ev j sc) = Some s' ->
  nodes s p = Some o -> get_promise o <> bdef -> nodes s' p = Some o' ->
  b_n (own_ballot o') = 0 /\ role_of o' = (Follower, PhRecover) /\ election_view o' = get_promise o' /\
  forall q oq, nodes s' q = Some oq ->
    election_view oq <> own_ballot o' /\ get_promise oq <> own_ballot o' /\ (fst (role_of oq) = Leader -> leader_ballot oq <> own_ballot o').
Proof.
  intros cc scs l s p ev j sc s' o o' Hr Ha Hp Hb Hp'.
  assert (HS' : sys_ok cc s') by (eapply step_ok; [eapply reach_ok; eauto|exact Ha]).
  assert (H0 : b_n (own_ballot o') = 0 /\ role_of o' = (Follower, PhRecover) /\ election_view o' = get_promise o' /\ b_cfg (own_ballot o') <> 0).
  { eapply restart_step; eauto. }
  destruct H0 as (H0 & H1 & H2 & H3). split; [exact H0|]. split; [exact H1|]. split; [exact H2|]. intros q oq Hq. destruct HS' as [HN _]. destruct (HN q oq Hq) as ((_ & _ & [_ K3] & _) & [KP _] & KK & _).
  split; [|split].
  - unfold election_view. intros X. rewrite X in K3. lia.
  - intros X. unfold get_promise in X. destruct KP as [KP|[_ KP]]; [|rewrite X in KP; lia]. rewrite X in KP. rewrite KP in H3. apply H3. reflexivity.
  - intros Hl X. destruct (KK Hl) as [_ Y]. unfold leader_ballot in X. rewrite X in Y. lia.
Qed.

(** The number stays 0 until an election timeout of this server.  The server then follows itself, or
    it has meanwhile promised a larger ballot and follows that one. *)
Theorem C60_number_0_until_own_timeout :
  forall o c o' r, exec o c = Ok (o', r) -> b_n (own_ballot o') <> b_n (own_ballot o) ->
  c = CTick /\ election_due o /\
  (election_view o' = own_ballot o' \/ (election_view o' = get_promise o /\ blt (own_ballot o') (get_promise o) = true)).
Proof.
  intros o c o' r He Hn. apply PropElect.exec_ble in He. unfold own_ballot, election_view in *. destruct c as [e|cc0 meta| |i|i l|q| |q|[m|m]]; try (rewrite He in Hn; cbn in Hn; congruence).
  - destruct (PropElect.due (o_eclk o)) eqn:Hd; [|rewrite He in Hn; congruence]. split; [reflexivity|]. split; [apply Nat.eqb_eq; exact Hd|]. rewrite He in *. clear He Hd. unfold hb_timeout in *. cbn [fst] in *.
    destruct (PropElect.update_leader_view (o_ble o)) as (v & _ & Hu). rewrite Hu in *. set (b1 := update_happiness _ _) in *. set (prom := get_promise o) in *. change (e_leader (new_hb_round (check_takeover b1))) with (e_leader (check_takeover b1)) in *.
    assert (K : e_ballot (check_takeover b1) = e_ballot (o_ble o) \/ e_leader (check_takeover b1) = e_ballot (check_takeover b1)).
    { unfold check_takeover. destruct (negb (e_happy b1)); [|left; reflexivity]. destruct (_ && _); [right; reflexivity|left; reflexivity]. }
    destruct (bgt prom (e_leader (check_takeover b1))) eqn:Hg.
    + destruct (b_pid prom =? _); [left; reflexivity|]. cbn in *. destruct K as [K|K]; [congruence|]. right. split; [reflexivity|]. rewrite K, bgt_blt in Hg. exact Hg.
    + cbn in *. destruct K as [K|K]; [congruence|left; exact K].
  - rewrite He in Hn. unfold ble_handle in Hn. destruct (bm_msg m); [cbn in Hn; congruence|]. unfold handle_reply in Hn. destruct (_ && _); cbn in Hn; congruence.
Qed.
End WithEntry.

(** ** Case *)
Section Case.
Local Existing Instance plain.

(** Server 2 leads with ballot number 2, crashes and restarts.  Its own ballot then has number 0, like that
    of server 3, which restarted before; all three have promised the former ballot of server 2. *)
Definition crash60 := ACrash 2 (ECall CTick) 0 (scs 2).
Definition sys60 := match exec_action cc3 sys_case3 crash60 with Some s => s | None => sys_case3 end.
Lemma step60 : exec_action cc3 sys_case3 crash60 = Some sys60.
Proof.
  assert (H : match exec_action cc3 sys_case3 crash60 with Some _ => true | None => false end = true) by (vm_compute; reflexivity).
  unfold sys60. destruct (exec_action cc3 sys_case3 crash60) as [s|]; [reflexivity|discriminate].
Qed.
Example C60_case :
  reaches cc3 scs ((acts_case1 ++ acts_case2) ++ acts_case3) sys_case3 /\ exec_action cc3 sys_case3 crash60 = Some sys60 /\
  obs sys_case3 2 (fun o => (role_of o, leader_ballot o)) = Some ((Leader, PhAccept), mkB 1 2 0 2) /\
  map (fun p => obs sys60 p (fun o => (own_ballot o, election_view o, get_promise o))) [1; 2; 3] =
    [Some (mkB 1 1 0 1, mkB 1 1 0 1, mkB 1 2 0 2); Some (mkB 1 0 0 2, mkB 1 2 0 2, mkB 1 2 0 2); Some (mkB 1 0 0 3, mkB 1 1 0 1, mkB 1 2 0 2)] /\
  obs sys60 2 role_of = Some (Follower, PhRecover).
Proof. split; [exact case_reach3|]. split; [exact step60|]. split; [|split]; vm_compute; reflexivity. Qed.
End Case.
Print Assumptions C60_ballots_in_use_are_usable.
Print Assumptions C60_restarted_server_is_nobodys_leader.
Print Assumptions C60_number_0_until_own_timeout.
