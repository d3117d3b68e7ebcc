(** * C04, C10, C29, C33, C43: facts about every server, under every schedule *)
From Coq Require Import List Arith Bool Lia.
Import ListNotations.
From Verif Require Import Types Config MemStore Internal LeaderState SeqPaxos Ble Omni System Basics Scen Spec Reads Refute PropAgreement Local.

Section WithEntry.
Context {E : EntryT}.

Definition any (_ : T) : Prop := True.
Lemma any_all l : Forall any l.
Proof. rewrite Forall_forall. unfold any. auto. Qed.
Lemma any_call c : callA any c.
Proof. destruct c as [| | | | | | | |[m|m]]; cbn; unfold any; auto. destruct (pm_msg m); cbn; auto using any_all. destruct (pr_sync p); cbn; auto using any_all. Qed.
Lemma ble_refl b : ble b b = true.
Proof. apply ble_spec. right. unfold bal_same. auto. Qed.
Lemma ble_tr a b c : ble a b = true -> ble b c = true -> ble a c = true.
Proof. rewrite !ble_spec. unfold bal_lt, bal_same. lia. Qed.

(** The invariant of one server. *)
Definition Own (A : T -> Prop) (o : omni) : Prop := Loc (promised (storage o)) A (s_out (o_sp o)) (rest o).

Lemma own_from b A q o : Loc b A q (o_sp o) -> Own A o.
Proof. intros H. apply loc_rest in H. eapply loc_mono; eauto. apply ble_refl. Qed.
Lemma own_build A cc sc st o : build cc sc st = BOk o -> Forall A (ms_log st) -> ms_comp st = ms_trim st -> Own A o.
Proof. intros Hb Hl Hc. eapply own_from, build_loc; eauto. Qed.
Lemma own_exec A o c o' r : Own A o -> callA A c -> exec o c = Ok (o', r) -> Own A o' /\ ble (promised (storage o)) (promised (storage o')) = true /\ qext (s_out (o_sp o)) (s_out (o_sp o')).
Proof.
  intros H Hc He. pose proof (exec_ok _ _ _ o c H Hc) as X. rewrite He in X. cbn in X. split; [eapply own_from; eauto|]. split; [apply (il_st _ _ _ (lc_is _ _ _ _ X))|apply (lc_q _ _ _ _ X)].
Qed.
Lemma own_crash A o c st : Own A o -> callA A c -> In st (crash_points o c) -> ble (promised (storage o)) (promised st) = true /\ Forall A (ms_log st) /\ ms_comp st = ms_trim st.
Proof. intros H Hc Hin. apply (crash_ok _ _ _ o c st H Hc Hin). Qed.
Lemma own_take A o buf o' l : Own A o -> take_outgoing_messages o buf = (o', l) -> Own A o' /\ storage o' = storage o.
Proof.
  intros H Ht. pose proof (take_ok _ _ _ _ _ _ _ H Ht) as X. split; [|unfold take_outgoing_messages in Ht; destruct (sp_take_outgoing _ _) as [s2 l2] eqn:Hs; injection Ht as <- <-; unfold sp_take_outgoing in Hs; destruct buf; injection Hs as <- <-; reflexivity].
  eapply loc_mono; [exact X| |auto]. apply ble_refl.
Qed.
Lemma build_prom cc sc st o : build cc sc st = BOk o -> promised (storage o) = promised st.
Proof.
  unfold build. destruct (config_validate cc sc); [|discriminate]. unfold sp_with. destruct (peers_of _ _); [discriminate|]. unfold promised at 2.
  destruct (ms_prom st); intros X; injection X as <-; reflexivity.
Qed.
Lemma own_step o o' : Own any o -> server_step o o' -> Own any o' /\ ble (promised (storage o)) (promised (storage o')) = true.
Proof.
  intros H Hs. destruct Hs as [o c o' r He|o buf o' l Ht|o c st cc sc o' Hin Hb].
  - destruct (own_exec _ _ _ _ _ H (any_call c) He) as (X1 & X2 & _). auto.
  - destruct (own_take _ _ _ _ _ H Ht) as [X1 ->]. split; auto. apply ble_refl.
  - destruct (own_crash _ _ _ _ H (any_call c) Hin) as (X1 & X2 & X3). split; [eapply own_build; eauto|]. rewrite (build_prom _ _ _ _ Hb). auto.
Qed.
Lemma own_lives o o' : Own any o -> lives o o' -> Own any o' /\ ble (promised (storage o)) (promised (storage o')) = true.
Proof.
  intros H Hl. induction Hl; [split; auto; apply ble_refl|]. destruct (IHHl H) as [X1 X2]. destruct (own_step _ _ X1 H0) as [Y1 Y2]. split; auto. eapply ble_tr; eauto.
Qed.
Lemma own_state o : server_state o -> Own any o.
Proof. intros (cc & sc & o0 & Hb & Hl). eapply own_lives; eauto. eapply own_build; eauto. apply any_all. Qed.

Lemma prom_persisted A o : Own A o -> get_promise o = promised (storage o).
Proof. intros H. apply (h_prom _ (il_coh _ _ _ (lc_is _ _ _ _ H))). Qed.

(** C10.  The promise that is in the storage never decreases: over any call with any
    argument and any incoming message, over a crash at any storage write with recovery. *)
Theorem C10_promise_never_decreases :
  forall o o', server_state o -> lives o o' -> ble (get_promise o) (get_promise o') = true.
Proof.
  intros o o' Ho Hl. apply own_state in Ho. destruct (own_lives _ _ Ho Hl) as [X1 X2]. rewrite (prom_persisted _ _ Ho), (prom_persisted _ _ X1). exact X2.
Qed.

Theorem C10_promise_never_decreases_at_any_write :
  forall o c st, server_state o -> In st (crash_points o c) -> ble (get_promise o) (promised st) = true.
Proof.
  intros o c st Ho Hin. apply own_state in Ho. rewrite (prom_persisted _ _ Ho). apply (own_crash _ _ _ _ Ho (any_call c) Hin).
Qed.

Theorem C10_promise_is_persisted : forall o, server_state o -> get_promise o = promised (storage o).
Proof. intros o Ho. apply own_state in Ho. eapply prom_persisted; eauto. Qed.

(** C29, for five of the six cached values: they are the persistent ones, in every state. *)
Theorem C29_cache_is_persistent_partial :
  forall o, server_state o ->
    get_promise o = promised (storage o) /\
    i_around (s_is (o_sp o)) = accepted_round (storage o) /\
    get_decided_idx o = ms_dec (storage o) /\
    get_compacted_idx o = ms_comp (storage o) /\
    i_ss (s_is (o_sp o)) = ms_ss (storage o).
Proof. intros o Ho. apply own_state in Ho. destruct (il_coh _ _ _ (lc_is _ _ _ _ Ho)). repeat split; auto. Qed.

(** So these are the same after a restart. *)
Theorem C29_restart_keeps_indexes_partial :
  forall o cc sc o', server_state o -> build cc sc (storage o) = BOk o' ->
    get_promise o' = get_promise o /\ get_decided_idx o' = get_decided_idx o /\ get_compacted_idx o' = get_compacted_idx o /\
    i_ss (s_is (o_sp o')) = i_ss (s_is (o_sp o)).
Proof.
  intros o cc sc o' Ho Hb. destruct (C29_cache_is_persistent_partial o Ho) as (X1 & X2 & X3 & X4 & X5). rewrite X1, X3, X4, X5. clear - Hb.
  unfold build in Hb. destruct (config_validate cc sc); [|discriminate]. unfold sp_with in Hb. destruct (peers_of _ _); [discriminate|].
  unfold promised. destruct (ms_prom (storage o)); injection Hb as <-; auto.
Qed.

(** C33.  All queued messages are handed over, once and in order, and nothing else. *)
Theorem C33_take_outgoing_messages :
  forall o buf o' l, take_outgoing_messages o buf = (o', l) ->
    l = buf ++ map MsgSP (s_out (o_sp o)) ++ map MsgBLE (e_out (o_ble o)) /\
    s_out (o_sp o') = [] /\ e_out (o_ble o') = [].
Proof.
  intros o buf o' l. unfold take_outgoing_messages, sp_take_outgoing. destruct buf; intros X; injection X as <- <-; auto.
  rewrite <- app_assoc. auto.
Qed.

(** Between two calls of [take_outgoing_messages], the messages stay in the queue in their
    order, new ones are added at the end, and the only changes are those of [ext1]: more
    entries in an AcceptDecide, a newer decided index, a newer accepted index. *)
Theorem C33_queue_only_grows :
  forall o c o' r, server_state o -> exec o c = Ok (o', r) ->
    exists old new, s_out (o_sp o') = old ++ new /\ Forall2 ext1 (s_out (o_sp o)) old.
Proof. intros o c o' r Ho He. apply own_state in Ho. apply (own_exec _ _ _ _ _ Ho (any_call c) He). Qed.

(** The remembered position of the last AcceptDecide of a peer is the position of an
    AcceptDecide for this peer in the queue, and that of the last Accepted is the position
    of an Accepted. *)
Theorem C33_positions_in_queue :
  forall o, server_state o ->
    (forall p b k, get_latest_accept_meta (s_ls (o_sp o)) p = Some (Some (b, k)) ->
       exists m, nth_error (s_out (o_sp o)) k = Some m /\ pm_to m = p /\ is_acceptdecide m = true) /\
    (forall b k, s_lam (o_sp o) = Some (b, k) -> exists m, nth_error (s_out (o_sp o)) k = Some m /\ exists n a, pm_msg m = MAccepted n a).
Proof.
  intros o Ho. apply own_state in Ho. split.
  - intros p b k Hk. unfold get_latest_accept_meta, vget, pid_to_idx, sub_chk in Hk. destruct (Nat.leb_spec 1 p); [|discriminate].
    destruct (lc_am _ _ _ _ Ho _ _ _ Hk) as (m & H1 & H2 & H3). exists m. repeat split; auto. lia.
  - intros b k Hk. destruct (lc_lam _ _ _ _ Ho _ _ Hk) as (m & H1 & H2). exists m. split; auto. unfold is_acceptedm in H2. destruct (pm_msg m); try discriminate. eauto.
Qed.

(** C43.  No call of this list writes to the storage. *)
Theorem C43_no_storage_write :
  forall o,
    (forall buf o' l, take_outgoing_messages o buf = (o', l) -> storage o' = storage o) /\
    (forall p st, In st (crash_points o (CSetPriority p)) -> st = storage o) /\
    (forall p o' r, exec o (CSetPriority p) = Ok (o', r) -> storage o' = storage o) /\
    (forall m st, In st (crash_points o (CHandle (MsgBLE m))) -> st = storage o) /\
    (forall m o' r, exec o (CHandle (MsgBLE m)) = Ok (o', r) -> storage o' = storage o /\ s_out (o_sp o') = s_out (o_sp o)).
Proof.
  intros o. split; [|split; [|split; [|split]]].
  - intros buf o' l Ht. unfold take_outgoing_messages, sp_take_outgoing in Ht. destruct buf; injection Ht as <- <-; reflexivity.
  - intros p st [<-|[]]. reflexivity.
  - intros p o' r X. injection X as <- <-. reflexivity.
  - intros m st [<-|[]]. reflexivity.
  - intros m o' r X. injection X as <- <-. auto.
Qed.

(** ** Clusters *)

Definition netA (A : T -> Prop) (m : message) : Prop := match m with MsgSP x => pmA A (pm_msg x) | MsgBLE _ => True end.
Definition AllOwn (A : T -> Prop) (s : sys) : Prop :=
  (forall p o, nodes s p = Some o -> Own A o) /\ (forall p q m, In m (net s p q) -> netA A m).

Definition actA (A : T -> Prop) (a : action) : Prop :=
  match action_event a with Some (_, ECall (CAppend e)) => A e | _ => True end.

Lemma remove_nth_in {B} (l : list B) k x : In x (remove_nth l k) -> In x l.
Proof. revert k. induction l as [|y l IH]; intros [|k]; cbn; auto. intros [->|H]; eauto. Qed.
Lemma event_netA A s p ev : AllOwn A s -> forall a b m, In m (event_net s p ev a b) -> netA A m.
Proof.
  intros [_ Hn] a b m. destruct ev as [c|src k]; cbn; [apply Hn|]. unfold upd2. destruct (_ && _); [|apply Hn]. intros Hin. apply remove_nth_in in Hin. eauto.
Qed.
Lemma event_callA A s p ev c : AllOwn A s -> match ev with ECall (CAppend e) => A e | _ => True end -> event_call s p ev = Some c -> callA A c.
Proof.
  intros [_ Hn] Ha. destruct ev as [c0|src k]; cbn.
  - destruct c0; intros X; try discriminate; injection X as <-; cbn; auto.
  - destruct (nth_error _ _) as [m|] eqn:Hk; cbn; [|discriminate]. intros X. injection X as <-. apply nth_error_In in Hk. apply Hn in Hk. destruct m; auto.
Qed.
Lemma send_allA A p l : Forall (netA A) l -> forall n, (forall a b m, In m (n a b) -> netA A m) -> forall a b m, In m (send_all n p l a b) -> netA A m.
Proof.
  induction 1 as [|x l Hx Hl IH]; cbn; auto. intros n Hn. apply IH. intros a b m. unfold send_one, upd2. destruct (_ && _); [|apply Hn].
  rewrite in_app_iff. intros [H|[<-|[]]]; eauto.
Qed.

Lemma allown_step A cc s a s' : AllOwn A s -> actA A a -> exec_action cc s a = Some s' -> AllOwn A s'.
Proof.
  intros H Ha. pose proof H as [Hs Hn]. destruct a as [p ev|p|src dst k|p ev j sc]; cbn [exec_action].
  - destruct (nodes s p) as [o|] eqn:Ho; [|discriminate]. destruct (event_call s p ev) as [c|] eqn:Hc; [|discriminate].
    destruct (exec o c) as [[o' r]|] eqn:He; [|discriminate]. intros X. injection X as <-.
    assert (Hca : callA A c) by exact (event_callA A s p ev c H Ha Hc). destruct (own_exec _ _ _ _ _ (Hs _ _ Ho) Hca He) as [X1 _]. split; cbn.
    + intros q x. unfold upd1. destruct (q =? p); [intros X; injection X as <-; auto|apply Hs].
    + apply event_netA; auto.
  - destruct (nodes s p) as [o|] eqn:Ho; [|discriminate]. destruct (take_outgoing_messages o []) as [o' l] eqn:Ht. intros X. injection X as <-.
    pose proof (Hs _ _ Ho) as Hoo. destruct (own_take _ _ _ _ _ Hoo Ht) as [X1 _]. split; cbn.
    + intros q x. unfold upd1. destruct (q =? p); [intros X; injection X as <-; auto|apply Hs].
    + apply send_allA; auto. apply C33_take_outgoing_messages in Ht. destruct Ht as [-> _]. cbn. rewrite Forall_app. split; apply Forall_map; [exact (lc_out _ _ _ _ Hoo)|]. rewrite Forall_forall. cbn. auto.
  - intros X. injection X as <-. split; cbn; auto. intros a b m. unfold upd2. destruct (_ && _); [|apply Hn]. intros Hin. apply remove_nth_in in Hin. eauto.
  - destruct (nodes s p) as [o|] eqn:Ho; [|discriminate]. destruct (event_call s p ev) as [c|] eqn:Hc; [|discriminate].
    destruct (nth_error (crash_points o c) j) as [st|] eqn:Hj; [|discriminate]. destruct (sc_pid sc =? p); [|discriminate].
    destruct (build cc sc st) as [| |o'] eqn:Hb; try discriminate. intros X. injection X as <-.
    assert (Hca : callA A c) by exact (event_callA A s p ev c H Ha Hc). apply nth_error_In in Hj. destruct (own_crash _ _ _ _ (Hs _ _ Ho) Hca Hj) as (_ & X1 & X2). split; cbn.
    + intros q x. unfold upd1. destruct (q =? p); [intros X; injection X as <-; eapply own_build; eauto|apply Hs].
    + apply event_netA; auto.
Qed.
Lemma allown_run A cc l : forall s s', AllOwn A s -> Forall (actA A) l -> run cc s l = Some s' -> AllOwn A s'.
Proof.
  induction l as [|a l IH]; cbn; intros s s' H Hl Hr; [injection Hr as <-; auto|]. destruct (exec_action cc s a) as [s1|] eqn:Ha; [|discriminate].
  inversion Hl; subst. apply (IH s1 s'); auto. eapply allown_step; eauto.
Qed.
Lemma allown_init A cc scs : AllOwn A (init_sys cc scs).
Proof.
  split; cbn; [|tauto]. intros p o. destruct (_ && _); [|discriminate]. destruct (build cc (scs p) ms_default) eqn:Hb; try discriminate. intros X. injection X as <-.
  eapply own_build; eauto. constructor.
Qed.

(** C04.  Whatever a server reports, as decided or not, was appended before: at any moment of
    any run, with loss and reordering of messages, crashes at any write, and the outgoing
    messages fetched at any time. *)
Theorem C04_validity :
  forall cc scs l s p i x e, reaches cc scs l s -> server_reports s p i x -> (x = LDecided e \/ x = LUndecided e) -> appended l e.
Proof.
  intros cc scs l s p i x e Hr (o & Ho & Hrep) Hx.
  assert (H : AllOwn (appended l) s).
  { eapply allown_run; [apply allown_init| |exact Hr]. rewrite Forall_forall. intros a Ha. unfold actA. destruct (action_event a) as [[q [[]|]]|] eqn:Hae; auto. exists a, q. auto. }
  destruct H as [H _]. specialize (H _ _ Ho). pose proof (il_st _ _ _ (lc_is _ _ _ _ H)) as (_ & HA & _).
  apply reports_stored in Hrep. specialize (Hrep e Hx). rewrite Forall_forall in HA. apply HA.
  destruct Hrep as ((_ & Hn) & _). eapply nth_error_In; eauto.
Qed.

(** Every server of a cluster lives a life as above, so the theorems of this file hold for
    the servers of every run. *)
Lemma lives_trans o1 o2 o3 : lives o1 o2 -> lives o2 o3 -> lives o1 o3.
Proof. intros H1 H2. induction H2 as [|o a b _ IH Hs]; auto. eapply lv_step; [apply IH; auto|exact Hs]. Qed.
Lemma step_lives cc s a s' p o : exec_action cc s a = Some s' -> nodes s p = Some o -> exists o', nodes s' p = Some o' /\ lives o o'.
Proof.
  intros He Ho. destruct a as [q ev|q|src dst k|q ev j sc]; cbn [exec_action] in He.
  - destruct (nodes s q) as [x|] eqn:Hq; [|discriminate]. destruct (event_call s q ev) as [c|]; [|discriminate]. destruct (exec x c) as [[x' r]|] eqn:Hx; [|discriminate].
    injection He as <-. cbn. unfold upd1. destruct (Nat.eqb_spec p q) as [->|]; [|eauto using lv_refl]. exists x'. split; auto. rewrite Hq in Ho. injection Ho as <-. eapply lv_step; [apply lv_refl|eapply sv_call; eauto].
  - destruct (nodes s q) as [x|] eqn:Hq; [|discriminate]. destruct (take_outgoing_messages x []) as [x' l] eqn:Hx.
    injection He as <-. cbn. unfold upd1. destruct (Nat.eqb_spec p q) as [->|]; [|eauto using lv_refl]. exists x'. split; auto. rewrite Hq in Ho. injection Ho as <-. eapply lv_step; [apply lv_refl|eapply sv_take; eauto].
  - injection He as <-. eauto using lv_refl.
  - destruct (nodes s q) as [x|] eqn:Hq; [|discriminate]. destruct (event_call s q ev) as [c|]; [|discriminate]. destruct (nth_error (crash_points x c) j) as [st|] eqn:Hj; [|discriminate].
    destruct (sc_pid sc =? q); [|discriminate]. destruct (build cc sc st) as [| |x'] eqn:Hb; try discriminate.
    injection He as <-. cbn. unfold upd1. destruct (Nat.eqb_spec p q) as [->|]; [|eauto using lv_refl]. exists x'. split; auto. rewrite Hq in Ho. injection Ho as <-. apply nth_error_In in Hj. eapply lv_step; [apply lv_refl|eapply sv_crash; eauto].
Qed.
Lemma run_lives cc l : forall s s' p o, run cc s l = Some s' -> nodes s p = Some o -> exists o', nodes s' p = Some o' /\ lives o o'.
Proof.
  induction l as [|a l IH]; cbn; intros s s' p o Hr Ho; [injection Hr as <-; eauto using lv_refl|]. destruct (exec_action cc s a) as [s1|] eqn:Ha; [|discriminate].
  destruct (step_lives _ _ _ _ _ _ Ha Ho) as (o1 & H1 & L1). destruct (IH _ _ _ _ Hr H1) as (o2 & H2 & L2). exists o2. split; auto. eapply lives_trans; eauto.
Qed.
Theorem cluster_server_state : forall cc scs l s p o, reaches cc scs l s -> nodes s p = Some o -> server_state o.
Proof.
  intros cc scs l s p o Hr Ho. unfold reaches in Hr.
  assert (H0 : exists o0, nodes (init_sys cc scs) p = Some o0).
  { destruct (nodes (init_sys cc scs) p) as [x|] eqn:Hx; eauto. exfalso. assert (Hn : nodes s p = None); [|congruence]. clear Ho. revert Hx Hr. generalize (init_sys cc scs). clear.
    induction l as [|a l IH]; cbn; intros s0 Hx Hr; [injection Hr as <-; auto|]. destruct (exec_action cc s0 a) as [s1|] eqn:Ha; [|discriminate]. apply (IH s1); auto. clear IH Hr.
    assert (Hu : forall (y : omni) q, nodes s0 q = Some y -> forall z, upd1 (nodes s0) q (Some z) p = None).
    { intros y q Hy z. unfold upd1. destruct (Nat.eqb_spec p q); auto. congruence. }
    destruct a as [q ev|q|src dst k|q ev j sc]; cbn [exec_action] in Ha.
    - destruct (nodes s0 q) eqn:Hq; [|discriminate]. destruct (event_call _ _ _); [|discriminate]. destruct (exec _ _) as [[x' r]|]; [|discriminate]. injection Ha as <-. cbn. eauto.
    - destruct (nodes s0 q) eqn:Hq; [|discriminate]. destruct (take_outgoing_messages _ _). injection Ha as <-. cbn. eauto.
    - injection Ha as <-. auto.
    - destruct (nodes s0 q) eqn:Hq; [|discriminate]. destruct (event_call _ _ _); [|discriminate]. destruct (nth_error _ _); [|discriminate]. destruct (_ =? _); [|discriminate].
      destruct (build _ _ _); try discriminate. injection Ha as <-. cbn. eauto. }
  destruct H0 as [o0 H0]. destruct (run_lives _ _ _ _ _ _ Hr H0) as (o' & H1 & H2). rewrite Ho in H1. injection H1 as <-.
  cbn in H0. destruct (_ && _); [|discriminate]. destruct (build cc (scs p) ms_default) as [| |x] eqn:Hb; try discriminate. injection H0 as ->.
  exists cc, (scs p), o0. auto.
Qed.

(** C10 for the servers of a cluster. *)
Theorem C10_promise_never_decreases_in_cluster :
  forall cc scs l1 l2 s1 s2 p o1, reaches cc scs l1 s1 -> run cc s1 l2 = Some s2 -> nodes s1 p = Some o1 ->
  exists o2, nodes s2 p = Some o2 /\ ble (get_promise o1) (get_promise o2) = true.
Proof.
  intros cc scs l1 l2 s1 s2 p o1 H1 H2 Ho. destruct (run_lives _ _ _ _ _ _ H2 Ho) as (o2 & X1 & X2). exists o2. split; auto.
  apply C10_promise_never_decreases; auto. eapply cluster_server_state; eauto.
Qed.

End WithEntry.

Print Assumptions C10_promise_never_decreases.
Print Assumptions C10_promise_never_decreases_at_any_write.
Print Assumptions C10_promise_is_persisted.
Print Assumptions C29_cache_is_persistent_partial.
Print Assumptions C29_restart_keeps_indexes_partial.
Print Assumptions C33_take_outgoing_messages.
Print Assumptions C33_queue_only_grows.
Print Assumptions C33_positions_in_queue.
Print Assumptions C43_no_storage_write.
Print Assumptions C04_validity.
Print Assumptions cluster_server_state.
Print Assumptions C10_promise_never_decreases_in_cluster.

(** ** The run of PropAgreement.v as a case *)
Section Case.
Local Existing Instance plain.

Example C04_case :
  server_reports sys_case2 3 3 (LDecided (14 : @T plain)) /\ appended (acts_case1 ++ acts_case2) (14 : @T plain) /\
  appended (acts_case1 ++ acts_case2) (13 : @T plain) /\ ~ appended (acts_case1 ++ acts_case2) (15 : @T plain).
Proof.
  split; [apply shows_ok; vm_compute; reflexivity|].
  split; [exists (ADo 3 (ECall (CAppend (14 : @T plain)))), 3; split; [vm_compute; tauto|reflexivity]|].
  split; [exists (ADo 1 (ECall (CAppend (13 : @T plain)))), 1; split; [vm_compute; tauto|reflexivity]|].
  intros (a & p & Hin & He).
  assert (H : forallb (fun a => match action_event a with Some (_, ECall (CAppend e)) => negb (Nat.eqb e 15) | _ => true end) (acts_case1 ++ acts_case2) = true) by (vm_compute; reflexivity).
  rewrite forallb_forall in H. specialize (H a Hin). rewrite He in H. cbn in H. discriminate H.
Qed.

(** Server 3 crashes after the first write of a call, and its promise grows later. *)
Example C10_case :
  obs sys_case1 3 get_promise = Some (mkB 1 1 0 1) /\ obs sys_case2 3 get_promise = Some (mkB 1 2 0 2) /\
  obs sys_case2 3 (fun o => promised (storage o)) = Some (mkB 1 2 0 2) /\ run cc3 sys_case1 acts_case2 = Some sys_case2.
Proof.
  split; [vm_compute; reflexivity|]. split; [vm_compute; reflexivity|]. split; [vm_compute; reflexivity|].
  apply is_some_eta. vm_compute. reflexivity.
Qed.

Example C29_case :
  obs sys_case3 3 (fun o => (get_promise o, accepted_round (storage o), get_decided_idx o, get_compacted_idx o, ms_ss (storage o))) =
    Some (mkB 1 2 0 2, mkB 1 2 0 2, 5, 2, Some (mkSS cc_next None)).
Proof. vm_compute. reflexivity. Qed.

(** Two appends at the leader before the messages are fetched: one AcceptDecide for each peer
    that is extended, at the remembered positions. *)
Definition acts_case_q := Eval vm_compute in acts_of cc3 sys_case1 [ append 1 21; append 1 22 ].
Example C33_case :
  match run cc3 sys_case1 (firstn 1 acts_case_q), run cc3 sys_case1 acts_case_q with
  | Some s, Some s' =>
      obs s 1 (fun o => map (fun m => (pm_to m, pm_msg m)) (s_out (o_sp o))) =
        Some [(2, MAcceptDecide (mkB 1 1 0 1) (mkSeq 1 6) 2 [21]); (3, MAcceptDecide (mkB 1 1 0 1) (mkSeq 1 6) 2 [21])] /\
      obs s' 1 (fun o => map (fun m => (pm_to m, pm_msg m)) (s_out (o_sp o))) =
        Some [(2, MAcceptDecide (mkB 1 1 0 1) (mkSeq 1 6) 2 [21; 22]); (3, MAcceptDecide (mkB 1 1 0 1) (mkSeq 1 6) 2 [21; 22])] /\
      obs s' 1 (fun o => (get_latest_accept_meta (s_ls (o_sp o)) 2, get_latest_accept_meta (s_ls (o_sp o)) 3)) =
        Some (Some (Some (mkB 1 1 0 1, 0)), Some (Some (mkB 1 1 0 1, 1)))
  | _, _ => False
  end.
Proof. vm_compute. auto. Qed.

Example C43_case : obs sys_case2 2 (fun o => match exec o (CHandle (MsgBLE (mkBM 3 2 (HbRequest 7)))) with
    Ok (o', _) => (length (e_out (o_ble o)), length (e_out (o_ble o')), ms_log (storage o')) | _ => (0, 0, []) end) = Some (0, 1, [11; 12; 13; 14]).
Proof. vm_compute. reflexivity. Qed.
End Case.
