(** * Two configurations one after the other

    docs/omnipaxos/reconfiguration.md tells the user to start a new OmniPaxos instance on every
    server of the next configuration, with a new storage, once a server shows the decided stop
    sign.  The messages that the crate hands to the application ([Message], messages.rs
    252-258) do not say which configuration they belong to: the server ids are the same in both,
    and the order of ballots (ballot_leader_election.rs 53-57) does not compare [config_id].
    Here two clusters run side by side, and a message of one of them may also be handed to the
    instance of the other one on the server it is addressed to. *)
From Coq Require Import List Arith Bool Lia.
Import ListNotations.
From Verif Require Import Types Config MemStore Internal LeaderState SeqPaxos Ble Omni System Basics Ghost GhostOps Inv
  StoreOps SyncOps Op FollowerOps RecvOps LeadLinks LeadSend LeadLoop LeadApp LeadRecv LeadMaj SysInv Spec.

Section WithEntry.
Context {E : EntryT}.

Record duo := mkDuo { d_old : sys; d_new : sys }.

(** Steps.  [XOld a] and [XNew a]: a step of one cluster (System.v).
    [XToNew src dst k None]: the [k]-th message that the old instance of [src] sent to [dst] is
    handed to the new instance of [dst] ([handle_incoming], omni_paxos.rs 331-336).
    [XToNew src dst k (Some (j, sc))]: the same, and [dst] is killed after its [j]-th storage write
    and built again.  [XToOld]: the other direction. *)
Inductive xaction :=
| XOld (a : action)
| XNew (a : action)
| XToNew (src dst : node_id) (k : nat) (cr : option (nat * server_config))
| XToOld (src dst : node_id) (k : nat) (cr : option (nat * server_config)).

(** The message [m] is handed to server [p] of the cluster [s]. *)
Definition hand (cc : cluster_config) (s : sys) (p : node_id) (m : message) (cr : option (nat * server_config)) : option sys :=
  match nodes s p with
  | Some o =>
      match cr with
      | None =>
          match exec o (CHandle m) with
          | Ok (o', _) => Some (mkSys (upd1 (nodes s) p (Some o')) (net s))
          | Panic _ => None
          end
      | Some (j, sc) =>
          match nth_error (crash_points o (CHandle m)) j with
          | Some st =>
              if sc_pid sc =? p then
                match build cc sc st with
                | BOk o' => Some (mkSys (upd1 (nodes s) p (Some o')) (net s))
                | _ => None
                end
              else None
          | None => None
          end
      end
  | None => None
  end.
Definition without (s : sys) (src dst : node_id) (k : nat) : sys :=
  mkSys (nodes s) (upd2 (net s) src dst (remove_nth (net s src dst) k)).

Definition exec_x (c1 c2 : cluster_config) (d : duo) (x : xaction) : option duo :=
  match x with
  | XOld a => option_map (fun s => mkDuo s (d_new d)) (exec_action c1 (d_old d) a)
  | XNew a => option_map (fun s => mkDuo (d_old d) s) (exec_action c2 (d_new d) a)
  | XToNew src dst k cr =>
      match nth_error (net (d_old d) src dst) k with
      | Some m => option_map (fun s => mkDuo (without (d_old d) src dst k) s) (hand c2 (d_new d) dst m cr)
      | None => None
      end
  | XToOld src dst k cr =>
      match nth_error (net (d_new d) src dst) k with
      | Some m => option_map (fun s => mkDuo s (without (d_new d) src dst k)) (hand c1 (d_old d) dst m cr)
      | None => None
      end
  end.

Fixpoint xrun (c1 c2 : cluster_config) (d : duo) (l : list xaction) : option duo :=
  match l with
  | [] => Some d
  | x :: r => match exec_x c1 c2 d x with Some d' => xrun c1 c2 d' r | None => None end
  end.
Fixpoint all_xsteps (P : duo -> xaction -> Prop) (c1 c2 : cluster_config) (d : duo) (l : list xaction) : Prop :=
  match l with
  | [] => True
  | x :: r => P d x /\ match exec_x c1 c2 d x with Some d' => all_xsteps P c1 c2 d' r | None => True end
  end.
Definition init_duo (c1 c2 : cluster_config) (sc1 sc2 : node_id -> server_config) : duo := mkDuo (init_sys c1 sc1) (init_sys c2 sc2).
Definition xreaches (c1 c2 : cluster_config) (sc1 sc2 : node_id -> server_config) (l : list xaction) (d : duo) : Prop :=
  xrun c1 c2 (init_duo c1 c2 sc1 sc2) l = Some d.
Definition xmoment (c1 c2 : cluster_config) (sc1 sc2 : node_id -> server_config) (l : list xaction) (d : duo) : Prop :=
  exists l1 l2, l = l1 ++ l2 /\ xreaches c1 c2 sc1 sc2 l1 d.

(** [a] and [b] count as the same in the order of ballots. *)
Definition same_rank (a b : ballot) : Prop := b_n a = b_n b /\ b_prio a = b_prio b /\ b_pid a = b_pid b.

(** A message of the other configuration that may reach server [o]: not a trim request; a
    Prepare only if the server has promised a higher ballot; a message of a leader only if its
    ballot does not count as the promised one. *)
Definition may_cross (o : omni) (m : message) : Prop :=
  match m with
  | MsgSP m =>
      match pm_msg m with
      | MPrepare n _ _ _ => blt n (get_promise o) = true
      | MAcceptSync n _ _ _ | MAcceptDecide n _ _ _ | MAcceptStopSign n _ _ | MDecide n _ _ => ~ same_rank n (get_promise o)
      | MCompaction (CmpTrim _) => False
      | _ => True
      end
  | MsgBLE _ => True
  end.
(** H1 and H2 in each cluster, and [may_cross] for the messages between them. *)
Definition crosses_ok (d : duo) (x : xaction) : Prop :=
  match x with
  | XOld a => h1h2 (d_old d) a
  | XNew a => h1h2 (d_new d) a
  | XToNew src dst k _ => forall m o, nth_error (net (d_old d) src dst) k = Some m -> nodes (d_new d) dst = Some o -> may_cross o m
  | XToOld src dst k _ => forall m o, nth_error (net (d_new d) src dst) k = Some m -> nodes (d_old d) dst = Some o -> may_cross o m
  end.

Lemma xrun_app c1 c2 l1 l2 d d2 : xrun c1 c2 d (l1 ++ l2) = Some d2 -> exists d1, xrun c1 c2 d l1 = Some d1 /\ xrun c1 c2 d1 l2 = Some d2.
Proof.
  revert d. induction l1 as [|x l1 IH]; intros d H; cbn [xrun app] in *; eauto. destruct (exec_x c1 c2 d x); [|discriminate]. auto.
Qed.
Lemma all_xsteps_app c1 c2 P l1 l2 d d1 : all_xsteps P c1 c2 d (l1 ++ l2) -> xrun c1 c2 d l1 = Some d1 ->
  all_xsteps P c1 c2 d l1 /\ all_xsteps P c1 c2 d1 l2.
Proof.
  revert d. induction l1 as [|x l1 IH]; intros d H R; cbn [xrun app all_xsteps] in *.
  - injection R as <-. auto.
  - destruct H as [H1 H2]. destruct (exec_x c1 c2 d x) as [d'|]; [|discriminate]. destruct (IH d' H2 R). auto.
Qed.
Lemma xmoments_ordered c1 c2 sc1 sc2 P l d1 d2 : all_xsteps P c1 c2 (init_duo c1 c2 sc1 sc2) l -> xmoment c1 c2 sc1 sc2 l d1 -> xmoment c1 c2 sc1 sc2 l d2 ->
  exists l1 l2, all_xsteps P c1 c2 (init_duo c1 c2 sc1 sc2) (l1 ++ l2) /\
    ((xreaches c1 c2 sc1 sc2 l1 d1 /\ xreaches c1 c2 sc1 sc2 (l1 ++ l2) d2) \/ (xreaches c1 c2 sc1 sc2 l1 d2 /\ xreaches c1 c2 sc1 sc2 (l1 ++ l2) d1)).
Proof.
  intros Hh (a1 & b1 & E1 & R1) (a2 & b2 & E2 & R2).
  assert (Hp : forall a b s, l = a ++ b -> xreaches c1 c2 sc1 sc2 a s -> all_xsteps P c1 c2 (init_duo c1 c2 sc1 sc2) a).
  { intros a b s -> R. destruct (all_xsteps_app c1 c2 P a b _ _ Hh R). auto. }
  assert (Hx : forall (a b a' b' : list xaction), l = a ++ b -> l = a' ++ b' -> length a <= length a' -> a ++ skipn (length a) a' = a').
  { intros a b a' b' F1 F2 Hle.
    assert (Hf : firstn (length a) l = firstn (length a) a') by (rewrite F2, firstn_app; replace (length a - length a') with 0 by lia; cbn; apply app_nil_r).
    rewrite F1, firstn_app, Nat.sub_diag, firstn_all in Hf. cbn in Hf. rewrite app_nil_r in Hf. rewrite Hf at 1. apply firstn_skipn. }
  destruct (le_lt_dec (length a1) (length a2)) as [Hle|Hlt].
  - exists a1, (skipn (length a1) a2). rewrite (Hx a1 b1 a2 b2); auto. split; eauto.
  - exists a2, (skipn (length a2) a1). rewrite (Hx a2 b2 a1 b1); auto; [|lia]. split; eauto.
Qed.

(** ** What the messages of the other configuration are *)

(** A message to [b] of a configuration with the id [C]. *)
Definition of_conf (C : nat) (b : node_id) (m : pmessage) : Prop :=
  pm_from m <> b /\
  match pm_msg m with
  | MPrepare n _ _ _ | MAcceptSync n _ _ _ | MAcceptDecide n _ _ _ | MDecide n _ _ | MAcceptStopSign n _ _ => b_cfg n = C /\ b_pid n <> b
  | MPromise pr => b_cfg (pr_n pr) = C
  | MAccepted n _ => b_cfg n = C
  | _ => True
  end.

Section Source.
Context (cc : cluster_config) (H0 : ~ In 0 (nds cc)).
Lemma net_of_conf G s a b m : SysInv cc G s -> In (MsgSP m) (net s a b) -> b <> 0 -> of_conf (cc_id cc) b m.
Proof.
  intros HS Hm Hb. destruct (y_net _ _ _ HS a b m Hm) as (Hf & Hne & Ha). pose proof (y_G _ _ _ HS) as HG.
  assert (Hin : In (pm_msg m) (vlink s a b)).
  { unfold vlink. apply in_app_iff. left. unfold pmsgs. apply in_flat_map. exists (MsgSP m). split; [exact Hm|left; reflexivity]. }
  destruct (y_link _ _ _ HS a b Hne) as [(L1 & _ & L3 & _) _]. rewrite Forall_forall in L1, L3. specialize (L1 _ Hin). specialize (L3 _ Hin).
  assert (Hw : forall n, gM G n <> None -> b_pid n <> 0 -> b_cfg n = cc_id cc).
  { intros n Hn Hp. destruct (g_wM _ _ HG n Hn) as [->|[Hw _]]; [exfalso; apply Hp; reflexivity|exact Hw]. }
  assert (Ha0 : a <> 0) by (intros ->; apply H0; exact Ha).
  split; [rewrite Hf; exact Hne|]. destruct L1 as [_ L1]. unfold posok in L3.
  destruct (pm_msg m) as [n|n d na ac|pr|n sq d sy|n sq d es|n ac|n|n sq d|es|c|n sq ss|ss]; auto.
  - destruct L1 as [Hp Hc]. split; [|congruence]. destruct Hc as [Hc|[_ Hc]]; [|apply Hw; congruence]. apply (g_wC _ _ HG n). congruence.
  - destruct L1 as [_ Hc]. apply (g_wC _ _ HG). apply Hc.
  - destruct L1 as [Hp _]. split; [|congruence]. apply Hw; [|congruence]. apply (L3 n sq); auto.
  - destruct L1 as [Hp _]. split; [|congruence]. apply Hw; [|congruence]. apply (L3 n sq); auto.
  - destruct L1 as [Hp Hc]. apply Hw; [|congruence]. unfold acov in Hc. destruct (gA G a n) as [[c ss]|] eqn:Hx; [|contradiction].
    destruct (g_acc _ _ HG a n c ss Hx) as (_ & l & Hl & _). congruence.
  - destruct L1 as [Hp _]. split; [|congruence]. apply Hw; [|congruence]. apply (L3 n sq); auto.
  - destruct L1 as [Hp _]. split; [|congruence]. apply Hw; [|congruence]. apply (L3 n sq); auto.
Qed.
End Source.

(** ** Handling such a message *)
Section Handle.
Context {X : octx}.

Lemma foreign_handled G o m C : Op G (o_sp o) -> of_conf C xp m -> C <> 0 -> C <> cc_id xcc -> may_cross o (MsgSP m) -> room G (o_sp o) (pendm (pm_msg m)) -> good G (sp_handle (o_sp o) m).
Proof.
  intros HO [Hne Hf] HC0 HC Hm Hrm. cbn in Hm. unfold get_promise in Hm. pose proof (ok_N _ _ _ HO) as HN. pose proof (ok_G _ _ _ HO) as HG.
  set (s := o_sp o) in *.
  assert (Hpr : i_prom (s_is s) = gP G xp) by exact (op_prom_eq _ _ _ HO).
  assert (Hno : forall n, b_cfg n = C -> n <> gP G xp).
  { intros n Hn ->. destruct (g_wP _ _ HG xp) as [Hb|[Hb _]]; [rewrite Hb in Hn; cbn in Hn; congruence|congruence]. }
  assert (Hcv : forall n, ~ same_rank n (i_prom (s_is s)) -> b_pid n <> xp -> exists s', check_valid_ballot s n = (s', false) /\ good G (Ok s')).
  { intros n Hn Hp. unfold check_valid_ballot. pose proof (bcmp_spec (i_prom (s_is s)) n) as Hb. destruct (bcmp (i_prom (s_is s)) n) eqn:Hc.
    - exfalso. apply Hn. unfold bal_same in Hb. unfold same_rank. intuition.
    - eexists. split; [reflexivity|]. destruct (op_reconnected G s (b_pid n) HO) as (G1 & [L1 _] & O1). exists G1. auto.
    - eexists. split; [reflexivity|]. apply good_ok, op_push; auto. split; [auto|exact I]. }
  assert (Hln : s_role s = Leader -> forall n, b_cfg n = C -> beq n (l_n (s_ls s)) = false).
  { intros Hr n Hn. destruct (beq n (l_n (s_ls s))) eqn:Hb; [|reflexivity]. apply beq_spec in Hb. exfalso. apply (Hno n Hn). rewrite Hb.
    pose proof (n_role _ _ _ _ HN) as HR. rewrite Hr in HR. destruct (s_phase s); try contradiction; [apply (lp_n _ _ _ _ HR)|apply (la_n _ _ _ _ HR)]. }
  unfold sp_handle. destruct (pm_msg m) as [n|n d na ac|pr|n sq d sy|n sq d es|n ac|n|n sq d|es|c|n sq ss|ss].
  - apply preparereq_ok; auto.
  - unfold handle_prepare. rewrite blt_spec in Hm.
    assert (X1 : blt (i_prom (s_is s)) n = false) by (destruct (blt (i_prom (s_is s)) n) eqn:Hx; auto; apply blt_spec in Hx; unfold bal_lt in *; lia).
    assert (X2 : beq (i_prom (s_is s)) n = false) by (destruct (beq (i_prom (s_is s)) n) eqn:Hx; auto; apply beq_spec in Hx; rewrite Hx in Hm; unfold bal_lt in *; lia).
    rewrite X1, X2. apply good_ok; auto.
  - destruct (s_role s) eqn:Hr; [apply good_ok; auto|]. destruct (s_phase s); try (apply good_ok; auto; fail);
      [unfold handle_promise_prepare|unfold handle_promise_accept]; rewrite Hln; auto; apply good_ok; auto.
  - unfold handle_acceptsync. destruct (Hcv n Hm (proj2 Hf)) as (s' & -> & K). exact K.
  - unfold handle_acceptdecide. destruct (Hcv n Hm (proj2 Hf)) as (s' & -> & K). exact K.
  - unfold handle_accepted. destruct (role_eqb (s_role s) Leader) eqn:Hr; [|rewrite andb_false_r; apply good_ok; auto].
    rewrite Hln; auto; [apply good_ok; auto|]. destruct (s_role s); [discriminate|reflexivity].
  - apply notaccepted_ok; auto.
  - unfold handle_decide. destruct (Hcv n Hm (proj2 Hf)) as (s' & -> & K). exact K.
  - apply forwarded_proposal_ok; auto.
  - destruct c as [i|i]; [contradiction|]. eapply (compaction_ok G s (CmpSnapshot i) (pm_from m)); auto. split; auto.
  - unfold handle_accept_stopsign. destruct (Hcv n Hm (proj2 Hf)) as (s' & -> & K). exact K.
  - apply forwarded_stopsign_ok; auto.
Qed.
End Handle.

(** ** Steps *)
Section Hand.
Context (cc : cluster_config) (Hv : cluster_validate cc = true) (H0 : ~ In 0 (nds cc)).

Definition foreign (p : node_id) (o : omni) (m : message) : Prop :=
  may_cross o m /\ match m with MsgSP m => exists C, of_conf C p m /\ C <> 0 /\ C <> cc_id cc | MsgBLE _ => True end.

Lemma foreign_goodo G s p o m (HS : SysInv cc G s) : nodes s p = Some o -> foreign p o m ->
  @goodo E (sctx cc Hv H0 G s p (nni s p (net s)) nothing (upto 0) HS) _ G (exec o (CHandle m)).
Proof.
  intros Ho [Hm Hf]. assert (Hosp : osp s p = Some (o_sp o)) by (unfold osp; rewrite Ho; reflexivity).
  assert (Hn : netafter s p (ECall CTick) (net s)) by (left; reflexivity).
  pose proof (sctx_op cc Hv H0 G s p (nni s p (net s)) nothing (upto 0) HS _ Hosp (fun a _ => nni_sub s p (ECall CTick) (net s) a Hn)) as HO.
  assert (Hrm : roomt nothing (upto 0) G (pendt nothing (o_sp o))) by exact (roomt_le _ _ _ _ _ (Nat.le_add_r _ _) (roomt_nothing G (o_sp o) CTick)).
  specialize (HO Hrm). unfold exec, exec_call. apply goodo1_o. destruct m as [m|m]; cbn [handle_incoming].
  - destruct Hf as (C & Hc & Hc0 & HcC). apply goodo_sp; [exact (y_ble _ _ _ HS p o Ho)|].
    apply (foreign_handled (X := sctx cc Hv H0 G s p (nni s p (net s)) nothing (upto 0) HS) G (start_call o) m C); auto.
    exact (roomt_nothing G (o_sp o) (CHandle (MsgSP m))).
  - split; [exists G; split; [apply glp_refl|exact HO]|]. apply bleinv_handle. exact (y_ble _ _ _ HS p o Ho).
Qed.

Lemma hand_inv G s p o m cr s' : SysInv cc G s -> nodes s p = Some o -> foreign p o m -> hand cc s p m cr = Some s' ->
  exists G', gle G G' /\ SysInv cc G' s'.
Proof.
  intros HS Ho Hf Hh. pose proof (foreign_goodo G s p o m HS Ho Hf) as HG. unfold hand in Hh. rewrite Ho in Hh.
  assert (Hosp : osp s p = Some (o_sp o)) by (unfold osp; rewrite Ho; reflexivity).
  assert (Hn : netafter s p (ECall CTick) (net s)) by (left; reflexivity). destruct cr as [[j sc]|].
  - destruct (nth_error (crash_points o (CHandle m)) j) as [st|] eqn:Hst; [|discriminate]. apply nth_error_In in Hst.
    destruct (Nat.eqb_spec (sc_pid sc) p) as [Hsc|]; [|discriminate]. destruct (build cc sc st) as [| |o'] eqn:HB; try discriminate. injection Hh as <-.
    destruct Hst as [<-|Hin].
    { destruct (crash_inv_n cc Hv H0 nothing (upto 0) G s p (ECall CTick) (net s) o CTick (i_st (s_is (o_sp o))) sc o' HS Ho eq_refl I Hn (roomt_nothing G _ CTick) (or_introl eq_refl) Hsc HB) as (G' & [L _] & S' & _). eauto. }
    assert (Hsafe : @Safe E (sctx cc Hv H0 G s p (nni s p (net s)) nothing (upto 0) HS) st).
    { destruct (exec o (CHandle m)) as [[o1 r]|tr]; cbn in HG.
      - destruct HG as [(G' & L & O') _]. pose proof (ok_tr _ _ _ O') as HT. rewrite Forall_forall in HT. auto.
      - rewrite Forall_forall in HG. auto. }
    destruct Hsafe as (G1 & L1 & HG1 & HS1 & Hi & Hout & HR). cbn [xcc xp xnin xoth sctx xG0] in *.
    destruct (build_inv cc G1 p sc st o' HG1 HS1 (n_in _ _ _ _ (y_N _ _ _ HS p _ Hosp)) Hsc HB) as (HN & HBl & Hr & HV & Ho').
    exists G1. split; [apply L1|].
    eapply (sysinv_put cc G s p (nni s p (net s)) HS G1 o'); auto.
    + eauto.
    + intros a Ha. specialize (Hi a Ha). rewrite sother_ne in Hi by auto. eapply linv_vle; eauto.
    + intros b Hb. specialize (Hout b Hb). unfold rb in Hout. cbn [xnout xoth sctx] in Hout. rewrite sother_ne in Hout by auto. split.
      * apply lcore_snocs; auto. destruct Ho' as [->|[bl ->]]; [constructor|]. rewrite Forall_forall. intros m' Hm.
        unfold outs in Hm. apply in_map_iff in Hm. destruct Hm as (x & <- & Hm). apply filter_In in Hm. destruct Hm as [Hm _].
        apply in_map_iff in Hm. destruct Hm as (q & <- & _). split; [reflexivity|]. split; [auto|exact I].
      * intros s0 Hs0. injection Hs0 as <-. split; intros Hr'; congruence.
    + intros b Hb Hr'. congruence.
    + apply (y_net _ _ _ HS).
  - destruct (exec o (CHandle m)) as [[o' r]|]; [|discriminate]. injection Hh as <-. cbn in HG. destruct HG as [(G' & L & O') HB].
    exists G'. split; [apply L|]. eapply (op_sctx cc Hv H0 G s p (ECall CTick) (net s)); eauto.
Qed.

Lemma act_inv G s a s' : SysInv cc G s -> h1h2 s a -> exec_action cc s a = Some s' -> exists G', gle G G' /\ SysInv cc G' s'.
Proof.
  intros HS Hh Ha. destruct (step_inv cc Hv H0 G s a s' HS Hh Ha) as (G' & L & S'). eauto.
Qed.
End Hand.

Section Duo.
Context (c1 c2 : cluster_config) (Hv1 : cluster_validate c1 = true) (Hz1 : ~ In 0 (nds c1))
  (Hv2 : cluster_validate c2 = true) (Hz2 : ~ In 0 (nds c2)) (Hid : cc_id c1 <> cc_id c2).

Lemma valid_id cc : cluster_validate cc = true -> cc_id cc <> 0.
Proof. unfold cluster_validate. rewrite !andb_true_iff, negb_true_iff, Nat.eqb_neq. tauto. Qed.

(** A message of the cluster [s] handed to the cluster [t]. *)
Lemma cross_foreign cs ct G G' s t src dst k m o : ~ In 0 (nds cs) -> ~ In 0 (nds ct) -> cluster_validate cs = true -> cc_id cs <> cc_id ct ->
  SysInv cs G s -> SysInv ct G' t -> nth_error (net s src dst) k = Some m -> nodes t dst = Some o -> may_cross o m -> foreign ct dst o m.
Proof.
  intros Hzs Hzt Hvs Hne HS HT Hk Ho Hm. split; [exact Hm|]. destruct m as [m|m]; [|exact I]. exists (cc_id cs).
  split; [|split; [apply valid_id; exact Hvs|exact Hne]]. apply (net_of_conf cs Hzs G s src dst m HS (nth_error_In _ _ Hk)).
  intros ->. apply Hzt. assert (Hosp : osp t 0 = Some (o_sp o)) by (unfold osp; rewrite Ho; reflexivity). exact (n_in _ _ _ _ (y_N _ _ _ HT 0 _ Hosp)).
Qed.

Lemma xstep_inv G1 G2 d x d' : SysInv c1 G1 (d_old d) -> SysInv c2 G2 (d_new d) -> crosses_ok d x -> exec_x c1 c2 d x = Some d' ->
  exists G1' G2', gle G1 G1' /\ gle G2 G2' /\ SysInv c1 G1' (d_old d') /\ SysInv c2 G2' (d_new d').
Proof.
  intros S1 S2 Hok He. destruct x as [a|a|src dst k cr|src dst k cr]; cbn [exec_x] in He; cbn [crosses_ok] in Hok.
  - destruct (exec_action c1 (d_old d) a) as [s|] eqn:Ha; [|discriminate]. injection He as <-.
    destruct (act_inv c1 Hv1 Hz1 G1 _ _ _ S1 Hok Ha) as (G' & L & S'). exists G', G2. split; [exact L|]. split; [apply gle_refl|]. split; [exact S'|exact S2].
  - destruct (exec_action c2 (d_new d) a) as [s|] eqn:Ha; [|discriminate]. injection He as <-.
    destruct (act_inv c2 Hv2 Hz2 G2 _ _ _ S2 Hok Ha) as (G' & L & S'). exists G1, G'. split; [apply gle_refl|]. split; [exact L|]. split; [exact S1|exact S'].
  - destruct (nth_error (net (d_old d) src dst) k) as [m|] eqn:Hk; [|discriminate]. destruct (hand c2 (d_new d) dst m cr) as [s|] eqn:Hh; [|discriminate]. injection He as <-.
    destruct (nodes (d_new d) dst) as [o|] eqn:Ho; [|unfold hand in Hh; rewrite Ho in Hh; discriminate].
    destruct (hand_inv c2 Hv2 Hz2 G2 _ dst o m cr s S2 Ho) as (G' & L & S'); [|exact Hh|].
    { eapply (cross_foreign c1 c2); eauto. }
    exists G1, G'. split; [apply gle_refl|]. split; [exact L|]. split; [apply drop_inv; auto|exact S'].
  - destruct (nth_error (net (d_new d) src dst) k) as [m|] eqn:Hk; [|discriminate]. destruct (hand c1 (d_old d) dst m cr) as [s|] eqn:Hh; [|discriminate]. injection He as <-.
    destruct (nodes (d_old d) dst) as [o|] eqn:Ho; [|unfold hand in Hh; rewrite Ho in Hh; discriminate].
    destruct (hand_inv c1 Hv1 Hz1 G1 _ dst o m cr s S1 Ho) as (G' & L & S'); [|exact Hh|].
    { eapply (cross_foreign c2 c1); eauto. }
    exists G', G2. split; [exact L|]. split; [apply gle_refl|]. split; [exact S'|apply drop_inv; auto].
Qed.

Lemma xrun_inv l : forall G1 G2 d d', SysInv c1 G1 (d_old d) -> SysInv c2 G2 (d_new d) -> all_xsteps crosses_ok c1 c2 d l -> xrun c1 c2 d l = Some d' ->
  exists G1' G2', gle G1 G1' /\ gle G2 G2' /\ SysInv c1 G1' (d_old d') /\ SysInv c2 G2' (d_new d').
Proof.
  induction l as [|x l IH]; intros G1 G2 d d' S1 S2 Hl Hr; cbn [xrun all_xsteps] in *.
  - injection Hr as <-. exists G1, G2. split; [apply gle_refl|]. split; [apply gle_refl|]. auto.
  - destruct Hl as [Hx Hl]. destruct (exec_x c1 c2 d x) as [d1|] eqn:He; [|discriminate].
    destruct (xstep_inv G1 G2 d x d1 S1 S2 Hx He) as (A1 & A2 & L1 & L2 & T1 & T2).
    destruct (IH A1 A2 d1 d' T1 T2 Hl Hr) as (B1 & B2 & M1 & M2 & U1 & U2). exists B1, B2.
    split; [eapply gle_trans; eauto|]. split; [eapply gle_trans; eauto|]. auto.
Qed.

Lemma xtwo_moments sc1 sc2 l1 l2 d1 d2 : all_xsteps crosses_ok c1 c2 (init_duo c1 c2 sc1 sc2) (l1 ++ l2) ->
  xreaches c1 c2 sc1 sc2 l1 d1 -> xreaches c1 c2 sc1 sc2 (l1 ++ l2) d2 ->
  (exists G1 G2, SysInv c1 G1 (d_old d1) /\ SysInv c1 G2 (d_old d2) /\ gle G1 G2) /\
  (exists G1 G2, SysInv c2 G1 (d_new d1) /\ SysInv c2 G2 (d_new d2) /\ gle G1 G2).
Proof.
  unfold xreaches. intros Hh R1 R2. destruct (xrun_app _ _ _ _ _ _ R2) as (d1' & R1' & R12).
  assert (d1' = d1) by congruence. subst d1'. destruct (all_xsteps_app _ _ _ _ _ _ _ Hh R1) as [A1 A2].
  destruct (xrun_inv l1 G00 G00 (init_duo c1 c2 sc1 sc2) d1 (init_inv c1 sc1) (init_inv c2 sc2) A1 R1) as (G1 & G2 & _ & _ & S1 & S2).
  destruct (xrun_inv l2 G1 G2 d1 d2 S1 S2 A2 R12) as (G1' & G2' & L1 & L2 & T1 & T2).
  split; eauto.
Qed.
End Duo.
End WithEntry.
