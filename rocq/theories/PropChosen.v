(** * C57: a leader decides what it knows to be accepted by a write quorum *)
From Coq Require Import List Arith Bool Lia.
Import ListNotations.
From Verif Require Import Types Config MemStore Internal LeaderState SeqPaxos Ble Omni System Basics Scen Spec Refute Local Frame Ghost GhostOps Inv SysInv Agree Chosen PropRefuted PropAgreement.
From Verif Require Takeover PropElect.

Section WithEntry.
Context {E : EntryT}.

(** ** Specification *)

(** The index that the leader [o] has recorded for the server [q], from its Accepted messages
    (for itself: from its own log); [None] if there is no such server. *)
Definition acknowledged (o : omni) (q : nat) : option nat := vget (l_accs (s_ls (o_sp o))) q.
(** [n] servers are a write quorum of the cluster. *)
Definition write_enough (cc : cluster_config) (n : nat) : Prop :=
  match cc_flex cc with Some f => fq_write f <= n | None => length (cc_nodes cc) < n + n end.

(** ** Lemmas *)
Lemma enough_q cc p n : In p (cc_nodes cc) -> write_enough cc n -> is_accept_quorum (quorum_of cc p) n = true.
Proof.
  intros Hp. unfold write_enough, quorum_of, quorum_with. destruct (cc_flex cc) as [f|]; cbn [is_accept_quorum fq_write]; intros H; apply Nat.leb_le; auto.
  assert (X : length (peers_of cc p) + 1 <= length (cc_nodes cc)).
  { unfold peers_of. clear H. induction (cc_nodes cc) as [|x l IH]; [destruct Hp|]. cbn [filter]. destruct (Nat.eqb_spec x p) as [->|Hne]; cbn [negb length].
    - pose proof (filter_length_le (fun x => negb (x =? p)) l). lia.
    - destruct Hp as [->|Hp]; [congruence|]. specialize (IH Hp). lia. }
  pose proof (Nat.div_lt_upper_bound (length (peers_of cc p) + 1) 2 n ltac:(lia) ltac:(lia)). lia.
Qed.

Definition CHO (o : omni) : Prop :=
  is_accept_quorum (l_quorum (s_ls (o_sp o))) 1 = false /\
  CH (s_pid (o_sp o)) (s_peers (o_sp o)) (maxpid o) (l_quorum (s_ls (o_sp o))) (o_sp o).
Lemma build_cho cc sc st o : build cc sc st = BOk o -> CHO o.
Proof.
  intros H. destruct (build_f cc sc st o H) as (F & _). revert H. unfold build. destruct (config_validate cc sc) eqn:Hv; [|discriminate]. unfold sp_with. destruct (peers_of cc (sc_pid sc)) as [|p0 pr]; [discriminate|].
  intros H. split.
  2: { split; [exact F|]. destruct (ms_prom st); injection H as <-; discriminate. }
  assert (X : l_quorum (s_ls (o_sp o)) = quorum_with (cc_flex cc) (length (p0 :: pr) + 1)) by (destruct (ms_prom st); injection H as <-; reflexivity).
  rewrite X. unfold config_validate, cluster_validate in Hv. rewrite !andb_true_iff in Hv. destruct Hv as [[[_ Hf] _] _]. unfold quorum_with. destruct (cc_flex cc) as [f|]; cbn [is_accept_quorum fq_write].
  - rewrite !andb_true_iff in Hf. destruct Hf as [[_ [Hf _]] _]. apply Nat.leb_le in Hf. apply Nat.leb_gt. lia.
  - apply Nat.leb_gt. cbn [length]. pose proof (Nat.div_le_mono 2 (S (length pr) + 1) 2 ltac:(lia) ltac:(lia)) as Y. change (2 / 2) with 1 in Y. lia.
Qed.
Lemma exec_cho o c o' r : CHO o -> apt (s_pid (o_sp o)) (o_sp o) c -> exec o c = Ok (o', r) -> CHO o'.
Proof.
  intros [H1 H2] Ha He. pose proof (exec_c _ _ _ _ H1 o c H2 Ha) as X. rewrite He in X. cbn [coko] in X. pose proof (proj1 X) as F.
  unfold CHO, maxpid. rewrite (fr_pid _ _ _ _ _ F), (fr_peers _ _ _ _ _ F), (lv_max _ _ _ (fr_ls _ _ _ _ _ F)), (lv_q _ _ _ (fr_ls _ _ _ _ _ F)). split; auto.
Qed.
Lemma take_cho o o' l : CHO o -> take_outgoing_messages o [] = (o', l) -> CHO o'.
Proof.
  intros [H1 H2] He. pose proof (take_c _ _ _ _ o [] o' l H2 He) as X. pose proof (proj1 X) as F.
  unfold CHO, maxpid. rewrite (fr_pid _ _ _ _ _ F), (fr_peers _ _ _ _ _ F), (lv_max _ _ _ (fr_ls _ _ _ _ _ F)), (lv_q _ _ _ (fr_ls _ _ _ _ _ F)). split; auto.
Qed.
Definition allch (s : sys) : Prop := forall p o, nodes s p = Some o -> CHO o.

Lemma leader_facts cc G p s : NodeInv cc G p s -> s_role s = Leader -> i_prom (s_is s) = l_n (s_ls s) /\ b_pid (l_n (s_ls s)) = p.
Proof.
  intros N Hr. pose proof (n_role _ _ _ _ N) as R. rewrite Hr in R. pose proof (co_prom _ _ (n_coh _ _ _ _ N)) as A. pose proof (st_prom _ _ _ _ (n_st _ _ _ _ N)) as B. unfold i_prom.
  destruct (s_phase s); try contradiction; destruct R; split; congruence.
Qed.
Lemma event_apt cc G s p o ev c : SysInv cc G s -> nodes s p = Some o -> event_call s p ev = Some c -> apt (s_pid (o_sp o)) (o_sp o) c.
Proof.
  intros S N Hc. pose proof (node_inv cc G s p o S N) as I. destruct ev as [c0|src k]; cbn in Hc; [destruct c0; try discriminate; injection Hc as <-; exact Logic.I|].
  destruct (nth_error (net s src p) k) as [m0|] eqn:Hk; [|discriminate]. cbn in Hc. injection Hc as <-. destruct m0 as [m|m]; [|exact Logic.I]. cbn [apt]. apply nth_error_In in Hk.
  destruct (y_net _ _ _ S src p m Hk) as (Hf & Hne & Hin).
  assert (Mi : minv cc G src p (pm_msg m)).
  { destruct (y_link _ _ _ S src p Hne) as [(A & _) _]. rewrite Forall_forall in A. apply A. unfold vlink. apply in_app_iff. left. clear - Hk.
    induction (net s src p) as [|x l IH]; [destruct Hk|]. destruct Hk as [->|Hk]; [left; reflexivity|]. cbn. destruct x; [right|]; auto. }
  destruct (pm_msg m) as [n|n d na a|pr|n q d sy|n q d es|n a|n|n q d|es|c|n q ss|ss]; try exact Logic.I.
  - rewrite (n_pid _ _ _ _ I). split; [congruence|]. intros Hr Hp -> Hs. destruct Mi as (_ & _ & Mi). unfold acov in Mi. pose proof (n_role _ _ _ _ I) as R. rewrite Hr, Hp in R. destruct R as [_ _ R3 R4 _ _ _].
    destruct R4 as (l & R4 & R5 & R6). pose proof (n_coh _ _ _ _ I) as C. unfold i_ss in Hs. rewrite (co_ss _ _ C) in Hs. specialize (R6 Hs). pose proof (co_acc _ _ C) as A. rewrite Hs in A. unfold i_acc. rewrite A.
    destruct (gA G src (l_n (s_ls (o_sp o)))) as [[c ss]|] eqn:Hg; [|destruct Mi]. destruct (g_acc _ _ (y_G _ _ _ S) _ _ _ _ Hg) as (_ & l' & L1 & L2). rewrite R4 in L1. injection L1 as <-. destruct ss; [rewrite R5, Hs in L2; congruence|].
    destruct Mi as [Mi|Mi]; [|discriminate]. lia.
  - intros Hr Hb. destruct (leader_facts cc G p _ I Hr) as [P1 P2]. destruct Mi as (_ & M2 & _). rewrite P1 in Hb. apply Hne. rewrite <- M2, <- P2. unfold bcmp in Hb.
    destruct (Nat.compare _ _) eqn:B1; try discriminate. destruct (Nat.compare (b_prio _) _) eqn:B2; try discriminate. apply Nat.compare_eq in Hb. auto.
Qed.
Lemma step_ch cc G s a s' : SysInv cc G s -> allch s -> exec_action cc s a = Some s' -> allch s'.
Proof.
  intros S H He q oq Hq. destruct a as [p ev|p|src dst k|p ev j sc]; cbn in He.
  - destruct (nodes s p) as [o|] eqn:Ho; [|discriminate]. destruct (event_call s p ev) as [c|] eqn:Hc; [|discriminate].
    destruct (exec o c) as [[o' r]|] eqn:Hx; [|discriminate]. injection He as <-. cbn in Hq. unfold upd1 in Hq. destruct (q =? p); [|eapply H; eauto]. injection Hq as <-.
    eapply exec_cho; [eapply H; eauto| |exact Hx]. eapply event_apt; eauto.
  - destruct (nodes s p) as [o|] eqn:Ho; [|discriminate]. destruct (take_outgoing_messages o []) as [o' l] eqn:Ht. injection He as <-. cbn in Hq. unfold upd1 in Hq. destruct (q =? p); [|eapply H; eauto]. injection Hq as <-.
    eapply take_cho; [eapply H; eauto|reflexivity].
  - injection He as <-. eapply H; eauto.
  - destruct (nodes s p) as [o|] eqn:Ho; [|discriminate]. destruct (event_call s p ev) as [c|] eqn:Hc; [|discriminate].
    destruct (nth_error (crash_points o c) j) as [st|]; [|discriminate]. destruct (_ =? p); [|discriminate].
    destruct (build cc sc st) as [| |o'] eqn:Hb; try discriminate. injection He as <-. cbn in Hq. unfold upd1 in Hq. destruct (q =? p); [|eapply H; eauto]. injection Hq as <-. eapply build_cho; eauto.
Qed.
Lemma run_ch cc (Hv : cluster_validate cc = true) (H0 : ~ In 0 (nds cc)) l : forall G s s', SysInv cc G s -> allch s -> all_steps h1h2 cc s l -> run cc s l = Some s' -> exists G', SysInv cc G' s' /\ allch s'.
Proof.
  induction l as [|a l IH]; intros G s s' S C Hl Hr; cbn in *.
  - injection Hr as <-. eauto.
  - destruct Hl as [Ha Hl]. destruct (exec_action cc s a) as [s1|] eqn:He; [|discriminate]. destruct (step_inv cc Hv H0 G s a s1 S Ha He) as (G1 & _ & S1). apply (IH G1 s1 s'); auto. exact (step_ch cc G s a s1 S C He).
Qed.
Lemma reach_ch cc scs l s : good_config cc scs -> all_steps h1h2 cc (init_sys cc scs) l -> reaches cc scs l s -> exists G, SysInv cc G s /\ allch s.
Proof.
  intros (Hv & H0 & _) A R. eapply run_ch; eauto; [apply init_inv|]. intros p o Ho. cbn in Ho. destruct (_ && _); [|discriminate]. destruct (build _ _ _) eqn:Hb; try discriminate. injection Ho as <-. eapply build_cho; eauto.
Qed.

(** ** Theorems *)

(** C57 (what holds, 1): when the acknowledgement of index [k] arrives and a write quorum,
    including its sender, has then acknowledged [k] or more, the leader decides [k]. *)
Theorem C57_last_acknowledgement_decides_partial :
  forall cc scs, good_config cc scs ->
  forall l, all_steps h1h2 cc (init_sys cc scs) l ->
  forall s, reaches cc scs l s ->
  forall p o, nodes s p = Some o -> role_of o = (Leader, PhAccept) ->
  forall q k o' r, exec o (CHandle (MsgSP (mkPM q p (MAccepted (leader_ballot o) k)))) = Ok (o', r) ->
  forall W, NoDup W -> write_enough cc (length W) -> (forall x, In x W -> x = q \/ exists a, acknowledged o x = Some a /\ k <= a) ->
  k <= get_decided_idx o'.
Proof.
  intros cc scs Hg l Hl s R p o N Hrp q k o' r He W ND HW HA. destruct (reach_ch cc scs l s Hg Hl R) as (G & S & _). pose proof (node_inv cc G s p o S N) as I.
  unfold role_of in Hrp. injection Hrp as Hr Hp. unfold exec in He. cbn [exec_call handle_incoming] in He. unfold handle_incoming in He. change (s_ls (o_sp (start_call o))) with (s_ls (o_sp o)) in *.
  unfold sp_handle in He. cbn [pm_msg pm_from] in He. unfold handle_accepted in He. change (l_n (s_ls (o_sp (start_call o)))) with (leader_ballot o) in He.
  assert (B : beq (leader_ballot o) (leader_ballot o) = true) by (apply beq_spec; reflexivity). rewrite B in He. change (s_role (o_sp (start_call o))) with (s_role (o_sp o)) in He. change (s_phase (o_sp (start_call o))) with (s_phase (o_sp o)) in He. rewrite Hr, Hp in He. cbn [role_eqb phase_eqb andb] in He.
  destruct (set_accepted_idx _ q k) as [ls|] eqn:Hs; [|discriminate]. cbn [lift bind s_ls set_ls s_is] in He.
  assert (Hch : is_chosen ls k = true).
  { unfold is_chosen. assert (Hq : l_quorum ls = quorum_of cc p). { revert Hs. unfold set_accepted_idx. destruct (vset _ _ _); cbn; [|discriminate]. intros X. injection X as <-. exact (n_q _ _ _ _ I). }
    rewrite Hq. eapply waq_mono; [apply enough_q; [exact (n_in _ _ _ _ I)|exact HW]|]. apply Takeover.count_ge; auto. intros x Hx. rewrite (setacc_v _ _ _ _ Hs x). destruct (Nat.eqb_spec x q) as [->|Hne].
    - exists k. split; auto. apply Nat.leb_refl.
    - destruct (HA x Hx) as [->|(a & Ha & Hle)]; [congruence|]. exists a. split; [exact Ha|apply Nat.leb_le; auto]. }
  rewrite Hch, andb_true_r in He. destruct (Nat.ltb_spec (i_dec (s_is (o_sp (start_call o)))) k) as [Hlt|Hge].
  2: { cbn [bind] in He. injection He as <- _. exact Hge. }
  destruct (get_promised_followers _) as [ps|]; [|discriminate]. cbn [lift bind] in He.
  match type of He with bind (bind (for_each ?a ?b ?c) _) _ = _ => pose proof (for_each_k c) as FK; specialize (FK ltac:(intros s1 x; unfold handle_accepted_to; apply lift_k; intros [idx|] _; [cbn; apply k_mod|apply send_decide_k]) b a a (kp_refl a)); destruct (for_each a b c) as [s2|] eqn:Hf; [|discriminate] end.
  cbn [bind] in He. injection He as <- _. cbn [kpr] in FK. destruct FK as [FK|FK].
  - exfalso. assert (Z : forall l0 s0 s1, s_role s0 = Leader -> for_each s0 l0 (handle_accepted_to k) = Ok s1 -> s_role s1 = Leader).
    { induction l0 as [|x l0 IH]; cbn; intros s0 s1 Y K; [injection K as <-; auto|]. destruct (handle_accepted_to k s0 x) as [s3|] eqn:H3; [|discriminate]. cbn in K. eapply IH; [|exact K].
      unfold handle_accepted_to in H3. destruct (get_latest_accdec s0 x) as [[i|]|]; cbn in H3; try discriminate; [injection H3 as <-; unfold mod_accdec; destruct (nth_error _ _); auto|].
      unfold send_decide in H3. destruct (next_seq_num _ _) as [[l2 sq]|]; cbn in H3; [|discriminate]. injection H3 as <-. exact Y. }
    apply Z in Hf; [congruence|exact Hr].
  - destruct FK as (_ & _ & _ & FK & _). exact FK.
Qed.

(** C57 (what holds, 2): if the members of a write quorum other than the leader have all
    acknowledged exactly [k], and the leader has accepted [k], then it has decided [k].  Above
    all, if two servers are a write quorum, whatever a follower has acknowledged is decided. *)
Theorem C57_equal_acknowledgements_are_decided_partial :
  forall cc scs, good_config cc scs ->
  forall l, all_steps h1h2 cc (init_sys cc scs) l ->
  forall s, reaches cc scs l s ->
  forall p o, nodes s p = Some o -> role_of o = (Leader, PhAccept) ->
  forall F k, NoDup F -> ~ In p F -> write_enough cc (S (length F)) ->
  (forall q, In q F -> acknowledged o q = Some k) -> (exists a, acknowledged o p = Some a /\ k <= a) ->
  k <= get_decided_idx o.
Proof.
  intros cc scs Hg l Hl s R p o N Hrp F k ND Hp HW HF Ha. destruct (reach_ch cc scs l s Hg Hl R) as (G & S & C). pose proof (node_inv cc G s p o S N) as I.
  unfold role_of in Hrp. injection Hrp as Hr Hph. specialize (C p o N). destruct C as [_ C]. pose proof (ch_ca _ _ _ _ _ C Hr Hph) as [_ _ _ A]. apply (A k F). rewrite (n_pid _ _ _ _ I). repeat split; auto.
  rewrite (n_q _ _ _ _ I). apply enough_q; auto. exact (n_in _ _ _ _ I).
Qed.

(** C57 (what holds, 3): without a stop sign a leader has recorded for itself its accepted
    index, and for nobody more than that. *)
Theorem C57_nobody_acknowledges_more_than_the_leader :
  forall cc scs, good_config cc scs ->
  forall l, all_steps h1h2 cc (init_sys cc scs) l ->
  forall s, reaches cc scs l s ->
  forall p o, nodes s p = Some o -> role_of o = (Leader, PhAccept) -> ms_ss (storage o) = None ->
  acknowledged o p = Some (ms_trim (storage o) + length (ms_log (storage o))) /\
  forall q k, acknowledged o q = Some k -> k <= ms_trim (storage o) + length (ms_log (storage o)).
Proof.
  intros cc scs Hg l Hl s R p o N Hrp Hss. destruct (reach_ch cc scs l s Hg Hl R) as (G & S & C). pose proof (node_inv cc G s p o S N) as I.
  unfold role_of in Hrp. injection Hrp as Hr Hph. specialize (C p o N). destruct C as [_ C]. pose proof (ch_ca _ _ _ _ _ C Hr Hph) as [A1 A2 _ _]. rewrite (n_pid _ _ _ _ I) in A1.
  pose proof (n_coh _ _ _ _ I) as Co. pose proof (co_acc _ _ Co) as Ca. unfold storage in *. rewrite Hss in Ca. unfold i_acc in *. rewrite Ca in *. split; [exact A1|]. intros q k Hk. apply (A2 ltac:(unfold i_ss; rewrite (co_ss _ _ Co); exact Hss) q k Hk).
Qed.
End WithEntry.

(** ** The full claim is false

    leader.rs 316-345 asks only whether the index in the Accepted message just received is
    chosen.  If the acknowledgements of two followers alternate, each a step ahead of the last
    one of the other, the index received is never yet chosen, and the smaller one that has
    become chosen is not looked for. *)
Section Starve.
Local Existing Instance plain.
Import PropElect.

Definition round_with (e q : nat) : list (@cmd plain) := [ Call 1 (CAppend e); Fetch [1]; DeliverN 1 q 2; Fetch [q]; Deliver q 1 ].
Definition sch_c57 : list cmd :=
  [ Call 1 CTryLeader; Settle [1;2;3] 4;
    Call 1 (CAppend 11); Fetch [1]; DeliverN 1 3 1; Fetch [3]; Deliver 3 1 ] ++
  round_with 12 2 ++ round_with 13 3 ++ round_with 14 2 ++ round_with 15 3 ++ round_with 16 2.
Definition acts_c57 := Eval vm_compute in acts_of cc5 ini5 sch_c57.
Definition sys_c57 := match run cc5 ini5 acts_c57 with Some s => s | None => ini5 end.
Lemma c57_reach : reaches cc5 scs5 acts_c57 sys_c57.
Proof. apply is_some_eta. vm_compute. reflexivity. Qed.
Lemma c57_steps : forallb fifob acts_c57 = true /\ drained_run cc5 ini5 acts_c57 = true.
Proof. vm_compute. auto. Qed.
(** Servers 1, 2 and 3 have the first five entries, and 1 has recorded it. *)
Example C57_starved :
  obs sys_c57 1 (fun o => (role_of o, l_accs (s_ls (o_sp o)), get_decided_idx o)) = Some ((Leader, PhAccept), [6; 6; 5; 0; 0], 0) /\
  map (fun p => obs sys_c57 p (fun o => ms_log (storage o))) [1; 2; 3] =
    [ Some [11; 12; 13; 14; 15; 16]; Some [11; 12; 13; 14; 15; 16]; Some [11; 12; 13; 14; 15] ].
Proof. vm_compute. auto. Qed.
Definition accs_b (o : omni) : bool :=
  match role_of o with (Leader, PhAccept) => true | _ => false end && (get_decided_idx o =? 0) &&
  forallb (fun q => match acknowledged o q with Some a => 5 <=? a | None => false end) [1; 2; 3].
Lemma c57_witness : exists o, nodes sys_c57 1 = Some o /\ accs_b o = true.
Proof.
  assert (X : match nodes sys_c57 1 with Some o => accs_b o | None => false end = true) by (vm_compute; reflexivity).
  destruct (nodes sys_c57 1) as [o|]; [|discriminate X]. exists o. auto.
Qed.
Lemma accs_ok o : accs_b o = true -> role_of o = (Leader, PhAccept) /\ get_decided_idx o = 0 /\ forall q, In q [1; 2; 3] -> exists a, acknowledged o q = Some a /\ 5 <= a.
Proof.
  unfold accs_b. rewrite !andb_true_iff, forallb_forall. intros [[A B] C]. split; [destruct (role_of o) as [[] []]; try discriminate A; reflexivity|]. split; [apply Nat.eqb_eq; exact B|].
  intros q Hq. specialize (C q Hq). cbv beta in C. destruct (acknowledged o q) as [a|]; [|discriminate]. exists a. split; auto. apply Nat.leb_le. exact C.
Qed.
Lemma c57_quiet : forall q, In q [1; 2; 3] -> net sys_c57 q 1 = [].
Proof. intros q [<-|[<-|[<-|[]]]]; vm_compute; reflexivity. Qed.
End Starve.

(** C57 is false: a leader has recorded that each server of a write quorum has accepted the
    first five entries, nothing from them is under way, and it has decided nothing. *)
Theorem C57_acknowledged_by_quorum_is_decided_refuted :
  exists (E : EntryT) cc scs acts s p o W k,
    good_config cc scs /\ Forall fifo acts /\ all_steps drained cc (init_sys cc scs) acts /\ reaches cc scs acts s /\ nodes s p = Some o /\
    role_of o = (Leader, PhAccept) /\ NoDup W /\ write_enough cc (length W) /\
    (forall q, In q W -> exists a, acknowledged o q = Some a /\ k <= a) /\
    (forall q, In q W -> net s q p = []) /\ get_decided_idx o < k.
Proof.
  destruct c57_witness as (o & Ho & X). apply accs_ok in X. destruct X as (X1 & X2 & X3). destruct c57_steps as [S1 S2]. exists plain, PropElect.cc5, PropElect.scs5, acts_c57, sys_c57, 1, o, [1; 2; 3], 5.
  split; [exact PropElect.good5|]. split; [apply fifob_ok; exact S1|]. split; [apply drained_run_ok; exact S2|]. split; [exact c57_reach|]. split; [exact Ho|]. split; [exact X1|].
  split; [repeat constructor; cbn; lia|]. split; [unfold write_enough; cbn; lia|]. split; [exact X3|]. split; [exact c57_quiet|]. rewrite X2. lia.
Qed.

(** ** Concrete cases *)
Section Case.
Local Existing Instance plain.
Import PropElect.
(** The same run up to a leader that has six entries, with Accepted 6 of server 3 on the way
    as the last action: the other two of [1; 2; 3] have acknowledged 6. *)
Definition sch_all : list cmd := sch_c57 ++ [ Fetch [1]; Deliver 1 3; Fetch [3] ].
Definition acts_all := Eval vm_compute in acts_of cc5 ini5 sch_all.
Definition sys_all := match run cc5 ini5 acts_all with Some s => s | None => ini5 end.
Lemma all_reach : reaches cc5 scs5 acts_all sys_all.
Proof. apply is_some_eta. vm_compute. reflexivity. Qed.
Definition sys_all' := match exec_action cc5 sys_all (ADo 1 (EDeliver 3 0)) with Some s => s | None => ini5 end.
Example C57_case :
  forallb fifob acts_all = true /\ drained_run cc5 ini5 acts_all = true /\
  net sys_all 3 1 = [ MsgSP (mkPM 3 1 (MAccepted (mkB 1 1 0 1) 6)) ] /\
  obs sys_all 1 (fun o => (role_of o, leader_ballot o, map (acknowledged o) [1; 2; 3], get_decided_idx o)) = Some ((Leader, PhAccept), mkB 1 1 0 1, [Some 6; Some 6; Some 5], 0) /\
  obs sys_all' 1 (fun o => (map (acknowledged o) [1; 2; 3], get_decided_idx o)) = Some ([Some 6; Some 6; Some 6], 6) /\
  write_enough cc5 3 /\ ~ write_enough cc5 2.
Proof.
  do 5 (split; [vm_compute; reflexivity|]). split; unfold write_enough; cbn; lia.
Qed.
End Case.

Print Assumptions C57_acknowledged_by_quorum_is_decided_refuted.
Print Assumptions C57_last_acknowledgement_decides_partial.
Print Assumptions C57_equal_acknowledgements_are_decided_partial.
Print Assumptions C57_nobody_acknowledges_more_than_the_leader.
