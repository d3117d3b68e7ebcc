(** * Moving a cluster step by step

    Single steps of a cluster in which only some servers and the messages between them take part, with the
    calls that [okc] permits.  (Facts about the model, used for the theorems about progress.) *)
From Coq Require Import List Arith Bool Lia.
Import ListNotations.
From Verif Require Import Types Config MemStore Internal LeaderState SeqPaxos Ble Omni System Basics Scen Spec Refute Ghost GhostOps Inv Op LeadLinks SysInv Reads Agree PropAgreement Local Frame PropLocal PropCalls NoPanic PropNoPanic Progress Takeover.

Section WithEntry.
Context {E : EntryT}.

(** A step in which only servers of [Q] and messages between them take part: a call that [okc] permits,
    the oldest message of a link is delivered, a message is lost, outgoing messages are fetched.
    Nobody crashes. *)
Definition within_calls (okc : node_id -> call -> Prop) (Q : list node_id) (a : action) : Prop :=
  match a with
  | ADo q (ECall c) => okc q c
  | ADo q (EDeliver r k) => k = 0 /\ In q Q /\ In r Q
  | AFetch q => In q Q
  | ADrop r q _ => In r Q /\ In q Q
  | ACrash _ _ _ _ => False
  end.

Definition calm (c : call) : Prop := ~ compaction_call c /\ ~ reconfiguration_call c.

Section Run.
Context (Hus : use_snapshots = false) (cc : cluster_config) (scs : node_id -> server_config) (Hg : good_config cc scs).
Context (Q : list node_id) (okc : node_id -> call -> Prop) (Hok : forall q c, okc q c -> calm c).

Definition Good (s : sys) : Prop := exists l, reaches cc scs l s /\ all_steps h1h2 cc (init_sys cc scs) l /\ only_calls calm l.
Definition goes (s s' : sys) : Prop := exists l, run cc s l = Some s' /\ all_steps h1h2 cc s l /\ Forall (within_calls okc Q) l.

Lemma steps_join P l1 : forall l2 s s1, all_steps P cc s l1 -> run cc s l1 = Some s1 -> all_steps P cc s1 l2 -> all_steps P cc s (l1 ++ l2).
Proof.
  induction l1 as [|a l1 IH]; cbn; intros l2 s s1 H Hr H2; [injection Hr as <-; auto|]. destruct H as [H1 H]. split; auto.
  destruct (exec_action cc s a); [eapply IH; eauto|discriminate].
Qed.
Lemma run_join l1 : forall l2 s s1 s2, run cc s l1 = Some s1 -> run cc s1 l2 = Some s2 -> run cc s (l1 ++ l2) = Some s2.
Proof. induction l1 as [|a l1 IH]; cbn; intros l2 s s1 s2 H1 H2; [congruence|]. destruct (exec_action cc s a); [eauto|discriminate]. Qed.
Lemma goes_refl s : goes s s.
Proof. exists []. cbn. auto. Qed.
Lemma goes_trans a b c : goes a b -> goes b c -> goes a c.
Proof.
  intros (l1 & A1 & A2 & A3) (l2 & B1 & B2 & B3). exists (l1 ++ l2). split; [eapply run_join; eauto|]. split; [eapply steps_join; eauto|]. apply Forall_app. auto.
Qed.
Lemma goes_one s a s' : exec_action cc s a = Some s' -> h1h2 s a -> within_calls okc Q a -> goes s s'.
Proof. intros H1 H2 H3. exists [a]. cbn. rewrite H1. auto. Qed.

Lemma good_run s l s' : Good s -> run cc s l = Some s' -> all_steps h1h2 cc s l -> only_calls calm l -> Good s'.
Proof.
  intros (l0 & R & A & C) R1 A1 C1. exists (l0 ++ l). split; [eapply run_join; eauto|]. split; [eapply steps_join; eauto|].
  intros a q c Ha. apply in_app_iff in Ha. destruct Ha; [eapply C|eapply C1]; eauto.
Qed.
Lemma within_calm l : Forall (within_calls okc Q) l -> only_calls calm l.
Proof.
  intros H a q c Ha He. rewrite Forall_forall in H. specialize (H a Ha). destruct a as [r [c0|]| | |]; cbn in *; try discriminate; [|contradiction].
  injection He as -> ->. apply (Hok _ _ H).
Qed.
Lemma goes_good s s' : Good s -> goes s s' -> Good s'.
Proof. intros H (l & A & B & C). eapply good_run; eauto. apply within_calm; auto. Qed.

Lemma good_inv s : Good s -> exists G, SysInv cc G s.
Proof. intros (l & R & A & _). destruct Hg as (Hv & H0 & _). eapply one_moment; eauto. Qed.
Lemma good_qs s : Good s -> QS nss cc s.
Proof.
  intros (l & R & _ & C). apply (quiet_moment Hus nss cc scs l); auto; [|exists l, []; split; [symmetry; apply app_nil_r|exact R]].
  apply quiet_of. intros a q c Ha He. destruct (C a q c Ha He) as [H1 H2]. split; auto. intros c1 m ->. apply H2. exact I.
Qed.

(** *** The servers of [Q] are there *)
Lemma build_some sc : config_validate cc sc = true -> peers_of cc (sc_pid sc) <> [] -> forall st, exists o, build cc sc st = BOk o.
Proof.
  intros H H1 st. unfold build. rewrite H. unfold sp_with. destruct (peers_of cc (sc_pid sc)); [contradiction|]. destruct (ms_prom st); eexists; reflexivity.
Qed.
Lemma run_nodes l : forall s s' q, run cc s l = Some s' -> nodes s q <> None -> nodes s' q <> None.
Proof.
  induction l as [|a l IH]; cbn; intros s s' q H Hq; [injection H as <-; auto|]. destruct (exec_action cc s a) as [s1|] eqn:He; [|discriminate]. apply (IH s1 s' q H).
  destruct a as [r ev|r|a b k|r ev j sc]; cbn in He.
  - destruct (nodes s r); [|discriminate]. destruct (event_call s r ev); [|discriminate]. destruct (exec _ _) as [[o' x]|]; [|discriminate]. injection He as <-. cbn. unfold upd1. destruct (q =? r); [discriminate|auto].
  - destruct (nodes s r) as [o|]; [|discriminate]. destruct (take_outgoing_messages o []). injection He as <-. cbn. unfold upd1. destruct (q =? r); [discriminate|auto].
  - injection He as <-. exact Hq.
  - destruct (nodes s r); [|discriminate]. destruct (event_call s r ev); [|discriminate]. destruct (nth_error _ _); [|discriminate]. destruct (_ =? _); [|discriminate]. destruct (build _ _ _); try discriminate. injection He as <-. cbn. unfold upd1. destruct (q =? r); [discriminate|auto].
Qed.
Lemma good_node s q : Good s -> In q (cc_nodes cc) -> (exists r, In r (cc_nodes cc) /\ r <> q) -> exists o, nodes s q = Some o.
Proof.
  intros (l & Hr & _) Hq Y. assert (X : nodes s q <> None); [|destruct (nodes s q); [eauto|contradiction]].
  apply (run_nodes l _ _ q Hr). cbn. destruct Hg as (_ & _ & Hs). destruct (Hs q Hq) as [V1 V2].
  assert (X : existsb (Nat.eqb q) (cc_nodes cc) = true). { apply existsb_exists. exists q. split; [exact Hq|apply Nat.eqb_refl]. }
  rewrite X, V2, Nat.eqb_refl. cbn [andb]. destruct (build_some (scs q) V1) with (st := ms_default) as [o ->]; [|discriminate].
  rewrite V2.
  destruct Y as (r & R1 & R2). assert (Z : In r (peers_of cc q)). { unfold peers_of. apply filter_In. split; [exact R1|]. apply negb_true_iff, Nat.eqb_neq, R2. }
  intros W. rewrite W in Z. destruct Z.
Qed.

(** *** Single steps *)
Definition onlyn (q : node_id) (s s' : sys) : Prop := forall z, z <> q -> nodes s' z = nodes s z.

Lemma do_exec s q ev o c : Good s -> nodes s q = Some o -> event_call s q ev = Some c -> (forall c0, ev = ECall c0 -> calm c0) ->
  exists o' r, exec o c = Ok (o', r) /\ exec_action cc s (ADo q ev) = Some (mkSys (upd1 (nodes s) q (Some o')) (event_net s q ev)).
Proof.
  intros HG Ho Hc Hev. pose proof (good_qs s HG) as HS. destruct (qs_node _ _ _ HS _ _ Ho) as [Hq Hqt].
  destruct (quiet_exec Hus nss cc q o c Hq Hqt) as (o' & r & Hx & _).
  - apply (event_quiet nss cc s q ev c HS Hc). intros a Ha. unfold quiet_action. rewrite Ha. destruct ev as [c0|]; [|exact I]. destruct (Hev c0 eq_refl) as [E1 E2]. destruct c0; cbn in E1, E2; try exact I; tauto.
  - exists o', r. split; auto. cbn. rewrite Ho, Hc, Hx. reflexivity.
Qed.

Lemma upd1_same {A} (f : node_id -> A) q x : upd1 f q x q = x.
Proof. unfold upd1. rewrite Nat.eqb_refl. reflexivity. Qed.
Lemma upd1_other {A} (f : node_id -> A) q x z : z <> q -> upd1 f q x z = f z.
Proof. intros H. unfold upd1. apply Nat.eqb_neq in H. rewrite H. reflexivity. Qed.
Lemma upd2_same {A} (f : node_id -> node_id -> A) a b x : upd2 f a b x a b = x.
Proof. unfold upd2. rewrite !Nat.eqb_refl. reflexivity. Qed.
Lemma upd2_other {A} (f : node_id -> node_id -> A) a b x c d : c <> a \/ d <> b -> upd2 f a b x c d = f c d.
Proof. intros H. unfold upd2. destruct (Nat.eqb_spec c a), (Nat.eqb_spec d b); cbn; auto. destruct H; contradiction. Qed.

(** One explicit step. *)
Definition does (s : sys) (a : action) (s' : sys) : Prop := exec_action cc s a = Some s' /\ h1h2 s a.
Lemma does_goes s a s' : does s a s' -> within_calls okc Q a -> goes s s'.
Proof. intros [H1 H2] H. apply (goes_one s a s' H1 H2 H). Qed.

Lemma deliver_x s q r m t o : Good s -> nodes s q = Some o -> net s r q = MsgSP m :: t ->
  (is_promise_msg (MsgSP m) = true -> forall x, In x (s_out (o_sp o)) -> pm_to x = r -> is_acceptdecide x = false) ->
  exists s' x, does s (ADo q (EDeliver r 0)) s' /\ sp_handle (rest o) m = Ok x /\ nodes s' q = Some (set_sp (start_call o) x) /\ onlyn q s s' /\ net s' r q = t /\
    (forall a b, a <> r \/ b <> q -> net s' a b = net s a b).
Proof.
  intros HG Ho Hn Hd. assert (Hc : event_call s q (EDeliver r 0) = Some (CHandle (MsgSP m))) by (cbn; rewrite Hn; reflexivity).
  destruct (do_exec s q (EDeliver r 0) o _ HG Ho Hc) as (o' & x & Hx & Ha); [discriminate|].
  unfold exec in Hx. cbn [exec_call handle_incoming] in Hx. apply bind_inv in Hx. destruct Hx as (o1 & H1 & H2). injection H2 as <- _. apply bind_inv in H1. destruct H1 as (y & H1 & H2). injection H2 as <-.
  eexists. exists y. split; [|split; [exact H1|]].
  - split; [exact Ha|]. split; [apply fifo_syncs_in_order; reflexivity|]. unfold drained. cbn [action_event]. rewrite Ho, Hn. cbn [nth_error]. exact Hd.
  - cbn. split; [apply upd1_same|]. split; [intros z Hz; apply upd1_other; auto|]. rewrite Hn. split; [apply upd2_same|]. intros a b Hab. apply upd2_other. exact Hab.
Qed.
Lemma deliver s q r m t o : Good s -> In q Q -> In r Q -> nodes s q = Some o -> net s r q = MsgSP m :: t ->
  (is_promise_msg (MsgSP m) = true -> forall x, In x (s_out (o_sp o)) -> pm_to x = r -> is_acceptdecide x = false) ->
  exists s' x, goes s s' /\ sp_handle (rest o) m = Ok x /\ nodes s' q = Some (set_sp (start_call o) x) /\ onlyn q s s' /\ net s' r q = t /\
    (forall a b, a <> r \/ b <> q -> net s' a b = net s a b).
Proof.
  intros HG Hq Hr Ho Hn Hd. destruct (deliver_x s q r m t o HG Ho Hn Hd) as (s' & x & A1 & A2). exists s', x. split; [|exact A2]. apply (does_goes _ _ _ A1). cbn. auto.
Qed.

Lemma fetch_x s q o : nodes s q = Some o ->
  exists s', does s (AFetch q) s' /\ nodes s' q = Some (set_ble (set_sp o (fetched (o_sp o))) (e_set_out (o_ble o) [])) /\ onlyn q s s' /\
    (forall b, exists t, net s' q b = net s q b ++ map MsgSP (tob b (s_out (o_sp o))) ++ t /\ (e_out (o_ble o) = [] -> t = [])) /\
    (forall a b, a <> q -> net s' a b = net s a b).
Proof.
  intros Ho. eexists. split.
  - split; [cbn; rewrite Ho; reflexivity|split; exact I].
  - cbn. split; [apply upd1_same|]. split; [intros z Hz; apply upd1_other; auto|]. split.
    + intros b. rewrite send_all_net, Nat.eqb_refl, filter_app. eexists. split; [apply f_equal; apply f_equal2; [|reflexivity]|intros ->; reflexivity].
      clear. unfold tob. generalize (s_out (o_sp o)). induction l as [|x l IH]; [reflexivity|]. cbn. destruct (pm_to x =? b); cbn; rewrite IH; reflexivity.
    + intros a b Ha. rewrite send_all_net. apply Nat.eqb_neq in Ha. rewrite Ha. reflexivity.
Qed.
Lemma fetch s q o : Good s -> In q Q -> nodes s q = Some o ->
  exists s', goes s s' /\ nodes s' q = Some (set_ble (set_sp o (fetched (o_sp o))) (e_set_out (o_ble o) [])) /\ onlyn q s s' /\
    (forall b, exists t, net s' q b = net s q b ++ map MsgSP (tob b (s_out (o_sp o))) ++ t /\ (e_out (o_ble o) = [] -> t = [])) /\
    (forall a b, a <> q -> net s' a b = net s a b).
Proof. intros _ Hq Ho. destruct (fetch_x s q o Ho) as (s' & A1 & A2). exists s'. split; [|exact A2]. apply (does_goes _ _ _ A1). exact Hq. Qed.

Lemma dropn a b l1 : In a Q -> In b Q -> forall l2 s, Good s -> net s a b = l1 ++ l2 ->
  exists s', goes s s' /\ (forall z, nodes s' z = nodes s z) /\ net s' a b = l2 /\ (forall c d, c <> a \/ d <> b -> net s' c d = net s c d).
Proof.
  intros Ha Hb. induction l1 as [|x l1 IH]; intros l2 s HG Hn.
  - exists s. split; [apply goes_refl|]. auto.
  - assert (G1 : goes s (mkSys (nodes s) (upd2 (net s) a b (l1 ++ l2)))).
    { eapply (goes_one s (ADrop a b 0)); [cbn; rewrite Hn; reflexivity|split; exact I|split; auto]. }
    destruct (IH l2 _ (goes_good _ _ HG G1)) as (s' & A1 & A2 & A3 & A4); [apply upd2_same|].
    exists s'. split; [eapply goes_trans; eauto|]. split; auto. split; auto. intros c d Hcd. rewrite A4; auto. cbn. apply upd2_other; auto.
Qed.
Lemma dropall a b s : In a Q -> In b Q -> Good s ->
  exists s', goes s s' /\ (forall z, nodes s' z = nodes s z) /\ net s' a b = [] /\ (forall c d, c <> a \/ d <> b -> net s' c d = net s c d).
Proof. intros Ha Hb HG. apply (dropn a b (net s a b) Ha Hb [] s HG). symmetry. apply app_nil_r. Qed.

(** A permitted call. *)
Lemma do_call s q c o : Good s -> okc q c -> event_call s q (ECall c) = Some c -> nodes s q = Some o ->
  exists o' r, exec o c = Ok (o', r) /\ goes s (mkSys (upd1 (nodes s) q (Some o')) (net s)).
Proof.
  intros HG Hc Hv Ho. destruct (do_exec s q (ECall c) o c HG Ho Hv) as (o' & r & Hx & Ha). { intros c0 X. injection X as <-. apply (Hok _ _ Hc). }
  exists o', r. split; auto. apply (goes_one _ _ _ Ha); [split; exact I|exact Hc].
Qed.
(** Facts about the servers at rest. *)
Lemma rest_facts s q o : Good s -> nodes s q = Some o ->
  s_pid (rest o) = q /\ CI nss (s_is (rest o)) /\ syncN nss (l_maxsync (s_ls (o_sp o))) /\ s_bss (o_sp o) = None /\
  exists k, length (l_proms (s_ls (o_sp o))) = k /\ length (l_seqs (s_ls (o_sp o))) = k /\ Forall (fun x => 1 <= x <= k) (cc_nodes cc).
Proof.
  intros HG Ho. destruct (qs_node _ _ _ (good_qs s HG) _ _ Ho) as [_ [_ (k & u & [F1 F2 F3 F4] & Hk) [C0 C1 C2 C3 C4 C5]]].
  split; [exact C0|]. split; [exact C1|]. split; [exact C4|]. split. { change (s_bss (rest o)) with (s_bss (o_sp o)) in C5. destruct (s_bss (o_sp o)); [destruct C5|reflexivity]. }
  exists k. split; [apply (lv_proms _ _ _ F3)|]. split; [apply (lv_seqs _ _ _ F3)|exact Hk].
Qed.
Lemma vget_range {A} (v : list A) q : 1 <= q <= length v -> vget v q <> None.
Proof.
  intros H. unfold vget, pid_to_idx, sub_chk. destruct (Nat.leb_spec 1 q); [|lia]. intros X. apply nth_error_None in X. lia.
Qed.

Lemma dec_le s q o : Good s -> nodes s q = Some o -> i_dec (s_is (o_sp o)) <= i_acc (s_is (o_sp o)) /\ i_acc (s_is (o_sp o)) = cnt (i_st (s_is (o_sp o))).
Proof.
  intros HG Ho. destruct (good_inv s HG) as (G & HS). destruct (rest_facts s q o HG Ho) as (_ & C1 & _).
  assert (S1 : i_ss (s_is (o_sp o)) = None) by exact (ci_none _ C1).
  assert (O1 : osp s q = Some (o_sp o)) by (unfold osp; rewrite Ho; reflexivity). pose proof (y_N _ _ _ HS _ _ O1) as N1.
  pose proof (co_ss _ _ (n_coh _ _ _ _ N1)) as M1. unfold i_ss in S1. rewrite S1 in M1. symmetry in M1.
  pose proof (co_acc _ _ (n_coh _ _ _ _ N1)) as K1. rewrite M1 in K1. unfold i_acc, i_dec. rewrite K1, (co_dec _ _ (n_coh _ _ _ _ N1)). split; [|reflexivity].
  destruct (st_cov _ _ _ _ (n_st _ _ _ _ N1)) as [U|U]; [exact U|contradiction].
Qed.

End Run.
End WithEntry.
