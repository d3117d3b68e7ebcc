(** * Agreement, stability, durability in every execution of the cluster

    All theorems are about arbitrary runs (lists of actions of System.v) from the
    initial state under H1 and H2 ([h1h2]); a run includes API
    calls, deliveries, losses, and crashes at arbitrary storage writes. *)
From Coq Require Import List Arith Bool Lia.
Import ListNotations.
From Verif Require Import Types Config MemStore Internal LeaderState SeqPaxos Ble Omni System Basics Ghost GhostOps Inv Op SysInv Spec Reads Agree Scen Refute.

Section WithEntry.
Context {E : EntryT}.

(** Two moments of a run are ordered. *)
Lemma moments_ordered cc scs l s1 s2 : all_steps h1h2 cc (init_sys cc scs) l -> moment cc scs l s1 -> moment cc scs l s2 ->
  exists l1 l2, all_steps h1h2 cc (init_sys cc scs) (l1 ++ l2) /\
    ((reaches cc scs l1 s1 /\ reaches cc scs (l1 ++ l2) s2) \/ (reaches cc scs l1 s2 /\ reaches cc scs (l1 ++ l2) s1)).
Proof.
  intros Hh (a1 & b1 & E1 & R1) (a2 & b2 & E2 & R2).
  assert (Hp : forall a b s, l = a ++ b -> reaches cc scs a s -> all_steps h1h2 cc (init_sys cc scs) a).
  { intros a b s -> R. destruct (all_steps_app cc h1h2 a b _ _ Hh R). auto. }
  destruct (le_lt_dec (length a1) (length a2)) as [Hle|Hlt].
  - exists a1, (skipn (length a1) a2). assert (Ha : a1 ++ skipn (length a1) a2 = a2).
    { assert (Hf : firstn (length a1) l = firstn (length a1) a2) by (rewrite E2, firstn_app; replace (length a1 - length a2) with 0 by lia; cbn; apply app_nil_r).
      rewrite E1, firstn_app, Nat.sub_diag, firstn_all in Hf. cbn in Hf. rewrite app_nil_r in Hf. rewrite Hf at 1. apply firstn_skipn. }
    rewrite Ha. split; eauto.
  - exists a2, (skipn (length a2) a1). assert (Ha : a2 ++ skipn (length a2) a1 = a1).
    { assert (Hf : firstn (length a2) l = firstn (length a2) a1) by (rewrite E1, firstn_app; replace (length a2 - length a1) with 0 by lia; cbn; apply app_nil_r).
      rewrite E2, firstn_app, Nat.sub_diag, firstn_all in Hf. cbn in Hf. rewrite app_nil_r in Hf. rewrite Hf at 1. apply firstn_skipn. }
    rewrite Ha. split; eauto.
Qed.

Lemma node_inv cc G s p o : SysInv cc G s -> nodes s p = Some o -> NodeInv cc G p (o_sp o).
Proof. intros HS Hn. apply (y_N _ _ _ HS). unfold osp. rewrite Hn. reflexivity. Qed.

(** C01: two servers that show a decided entry at the same index, at whatever moments of
    the run, show the same entry. *)
Theorem C01_agreement :
  forall cc scs, good_config cc scs ->
  forall l, all_steps h1h2 cc (init_sys cc scs) l ->
  forall s1 s2, moment cc scs l s1 -> moment cc scs l s2 ->
  forall p q i e1 e2, server_reports s1 p i (LDecided e1) -> server_reports s2 q i (LDecided e2) -> e1 = e2.
Proof.
  intros cc scs (Hv & H0 & _) l Hh s1 s2 M1 M2.
  assert (Main : forall l1 l2 s1 s2, all_steps h1h2 cc (init_sys cc scs) (l1 ++ l2) -> reaches cc scs l1 s1 -> reaches cc scs (l1 ++ l2) s2 ->
    forall p q i e1 e2, server_reports s1 p i (LDecided e1) -> server_reports s2 q i (LDecided e2) -> e1 = e2).
  { clear - Hv H0. intros l1 l2 s1 s2 Hh R1 R2 p q i e1 e2 (o1 & N1 & P1) (o2 & N2 & P2).
    destruct (two_moments cc Hv H0 scs l1 l2 s1 s2 Hh R1 R2) as (G1 & G2 & S1 & S2 & L & _).
    destruct (reports_decided cc Hv H0 G1 p o1 i e1 (y_G _ _ _ S1) (node_inv _ _ _ _ _ S1 N1) P1) as (_ & _ & F1).
    destruct (reports_decided cc Hv H0 G2 q o2 i e2 (y_G _ _ _ S2) (node_inv _ _ _ _ _ S2 N2) P2) as (_ & _ & F2).
    pose proof (fixed_agree cc Hv H0 G2 i _ _ (y_G _ _ _ S2) (fixed_gle cc _ _ _ _ L F1) F2). congruence. }
  destruct (moments_ordered _ _ _ _ _ Hh M1 M2) as (l1 & l2 & Hh' & [[R1 R2]|[R1 R2]]); intros p q i e1 e2 A B.
  - eapply Main; eauto.
  - symmetry. eapply Main; eauto.
Qed.

(** C05: after a server has shown entry [e] as decided at index [i], every later [read] of
    that index at that server succeeds, and returns [e] or says that the index was compacted;
    and whatever entry any read function shows at that index is [e]. *)
Theorem C05_decided_stable :
  forall cc scs, good_config cc scs ->
  forall l1 l2, all_steps h1h2 cc (init_sys cc scs) (l1 ++ l2) ->
  forall s1 s2, reaches cc scs l1 s1 -> reaches cc scs (l1 ++ l2) s2 ->
  forall p i e o2, server_reports s1 p i (LDecided e) -> nodes s2 p = Some o2 ->
  (read o2 i = RSome (LDecided e) \/ read o2 i = RSome (LUndecided e) \/
   (i < get_compacted_idx o2 /\
    (read o2 i = RSome (LTrimmed (get_compacted_idx o2)) \/
     exists sn, read o2 i = RSome (LSnapshotted (get_compacted_idx o2) sn)))) /\
  (forall e', reports o2 i (LDecided e') \/ reports o2 i (LUndecided e') -> e' = e).
Proof.
  intros cc scs (Hv & H0 & _) l1 l2 Hh s1 s2 R1 R2 p i e o2 (o1 & N1 & P1) N2.
  destruct (two_moments cc Hv H0 scs l1 l2 s1 s2 Hh R1 R2) as (G1 & G2 & S1 & S2 & L & _).
  pose proof (node_inv _ _ _ _ _ S1 N1) as I1. pose proof (node_inv _ _ _ _ _ S2 N2) as I2.
  destruct (decided_later cc Hv H0 G1 G2 p o1 o2 i e (y_G _ _ _ S1) (y_G _ _ _ S2) L I1 I2 P1) as [Hd Hl]. split.
  - destruct Hd as [Ht|Hs].
    + right. right. assert (Hc : get_compacted_idx o2 = ms_trim (i_st (s_is (o_sp o2)))).
      { unfold get_compacted_idx, i_comp. rewrite (co_comp _ _ (n_coh _ _ _ _ I2)). apply (st_comp _ _ _ _ (n_st _ _ _ _ I2)). }
      split; [lia|]. rewrite (read_compacted cc G2 p o2 i I2 Ht). destruct (ms_snap (i_st (s_is (o_sp o2)))) as [sn|]; eauto.
    + rewrite (read_stored cc G2 p o2 i e (y_G _ _ _ S2) I2 Hs). destruct (i <? get_decided_idx o2); auto.
  - intros e' He'. assert (Hs : stored (i_st (s_is (o_sp o2))) i e').
    { destruct He' as [H|H]; destruct (reports_stored _ _ _ H e') as [X _]; auto; [left|right]; reflexivity. }
    destruct (stored_at cc G2 p _ i e' (y_G _ _ _ S2) (n_st _ _ _ _ I2) Hs) as (l & Hgl & Hx). rewrite (Hl l Hgl) in Hx. congruence.
Qed.

(** C07, agreement: [is_reconfigured] never names two different stop signs. *)
Theorem C07_reconfiguration_agreement :
  forall cc scs, good_config cc scs ->
  forall l, all_steps h1h2 cc (init_sys cc scs) l ->
  forall s1 s2, moment cc scs l s1 -> moment cc scs l s2 ->
  forall p q o1 o2 ss1 ss2, nodes s1 p = Some o1 -> nodes s2 q = Some o2 ->
    is_reconfigured o1 = Some ss1 -> is_reconfigured o2 = Some ss2 -> ss1 = ss2.
Proof.
  intros cc scs (Hv & H0 & _) l Hh s1 s2 M1 M2.
  assert (Main : forall l1 l2 s1 s2, all_steps h1h2 cc (init_sys cc scs) (l1 ++ l2) -> reaches cc scs l1 s1 -> reaches cc scs (l1 ++ l2) s2 ->
    forall p q o1 o2 ss1 ss2, nodes s1 p = Some o1 -> nodes s2 q = Some o2 ->
    is_reconfigured o1 = Some ss1 -> is_reconfigured o2 = Some ss2 -> ss1 = ss2).
  { clear - Hv H0. intros l1 l2 s1 s2 Hh R1 R2 p q o1 o2 ss1 ss2 N1 N2 P1 P2.
    destruct (two_moments cc Hv H0 scs l1 l2 s1 s2 Hh R1 R2) as (G1 & G2 & S1 & S2 & L & _).
    destruct (reconf_stop cc Hv H0 G1 p o1 ss1 (y_G _ _ _ S1) (node_inv _ _ _ _ _ S1 N1) P1) as (b1 & m1 & k1 & C1 & M1 & K1 & A1).
    destruct (reconf_stop cc Hv H0 G2 q o2 ss2 (y_G _ _ _ S2) (node_inv _ _ _ _ _ S2 N2) P2) as (b2 & m2 & k2 & C2 & M2 & K2 & A2).
    destruct (le_M _ _ L _ _ M1) as (m1' & M1' & Ll). apply (lle_at _ _ _ _ Ll) in A1.
    eapply (stops_agree cc Hv H0 G2 b1 b2); eauto using chosen_gle. apply (y_G _ _ _ S2). }
  destruct (moments_ordered _ _ _ _ _ Hh M1 M2) as (l1 & l2 & Hh' & [[R1 R2]|[R1 R2]]); intros p q o1 o2 ss1 ss2 N1 N2 A B.
  - eapply Main; eauto.
  - symmetry. eapply Main; eauto.
Qed.

Lemma read_stop_decided o k ss : read o k = RSome (LStopSign ss true) -> is_reconfigured o = Some ss /\ k + 1 = get_decided_idx o.
Proof.
  unfold read, i_read, is_reconfigured, sp_is_reconfigured, get_decided_idx. set (s := s_is (o_sp o)). intros H.
  destruct (k + 1 =? 0); [discriminate|]. replace (k + 1 - 1) with k in H by lia.
  destruct (get_entry_type s k (i_comp s) (i_acc s)) as [[| |ss']|] eqn:Ht; [| | |discriminate].
  - destruct (create_read_log_entries s k (k + 1)) as [es|] eqn:Hc; [|discriminate].
    exfalso. unfold create_read_log_entries in Hc.
    destruct (ms_get_entries (i_st s) k (k + 1)) as [l|]; [|discriminate]. injection Hc as <-.
    destruct (rev (mark_entries (i_dec s) k l)) as [|x r] eqn:Hrev; [discriminate|]. injection H as ->.
    assert (Hin : In (LStopSign ss true) (mark_entries (i_dec s) k l)) by (apply in_rev; rewrite Hrev; left; reflexivity).
    apply In_nth_error in Hin. destruct Hin as [j Hj]. apply mark_nth in Hj. destruct Hj as (e & _ & Hx). destruct (k + j <? i_dec s); discriminate.
  - unfold create_compacted_entry in H. cbn in H. destruct (ms_snap (i_st s)); discriminate.
  - cbn in H. injection H as -> Hd. unfold get_entry_type in Ht. destruct (k <? i_comp s); [discriminate|].
    destruct (k + 1 <? i_acc s); [discriminate|]. destruct (Nat.eqb_spec (k + 1) (i_acc s)) as [Hk|]; [|discriminate].
    destruct (i_ss s) as [ss0|] eqn:Hss; [|discriminate]. injection Ht as ->. rewrite Hd. split; auto.
    unfold stopsign_is_decided in Hd. destruct (c_ss (i_ca s)); [|discriminate]. apply Nat.eqb_eq in Hd. unfold i_acc in Hk. unfold i_dec. lia.
Qed.

Lemma stop_before_entries cc scs : cluster_validate cc = true -> ~ In 0 (cc_nodes cc) ->
  forall l, all_steps h1h2 cc (init_sys cc scs) l ->
  forall s1 s2, moment cc scs l s1 -> moment cc scs l s2 ->
  forall p q o ss i e, nodes s1 p = Some o -> is_reconfigured o = Some ss -> server_reports s2 q i (LDecided e) ->
  i + 1 < get_decided_idx o.
Proof.
  intros Hv H0 l Hh s1 s2 M1 M2 p q o ss i e N1 P1 (o2 & N2 & P2).
  assert (Main : forall G1 G2 G, SysInv cc G1 s1 -> SysInv cc G2 s2 -> gle G1 G -> gle G2 G -> GInv cc G -> i + 1 < get_decided_idx o).
  { clear - Hv H0 N1 P1 N2 P2. intros G1 G2 G S1 S2 L1 L2 HG.
    destruct (reconf_stop cc Hv H0 G1 p o ss (y_G _ _ _ S1) (node_inv _ _ _ _ _ S1 N1) P1) as (b & m & k & C & M & K & A).
    destruct (reports_decided cc Hv H0 G2 q o2 i e (y_G _ _ _ S2) (node_inv _ _ _ _ _ S2 N2) P2) as (_ & _ & F).
    destruct (le_M _ _ L1 _ _ M) as (m' & M' & Ll). apply (lle_at _ _ _ _ Ll) in A.
    pose proof (stop_final cc Hv H0 G b m' _ k ss i e HG (chosen_gle cc _ _ _ _ L1 C) M' K A (fixed_gle cc _ _ _ _ L2 F)). lia. }
  destruct (moments_ordered _ _ _ _ _ Hh M1 M2) as (l1 & l2 & Hh' & [[R1 R2]|[R1 R2]]);
    destruct (two_moments cc Hv H0 scs l1 l2 _ _ Hh' R1 R2) as (G1 & G2 & S1 & S2 & L & _).
  - apply (Main G1 G2 G2); auto using gle_refl. apply (y_G _ _ _ S2).
  - apply (Main G2 G1 G2); auto using gle_refl. apply (y_G _ _ _ S2).
Qed.

(** C07, finality: no server, before or after, shows a decided normal entry at or after the
    index at which some server shows the stop sign as decided. *)
Theorem C07_reconfiguration_final :
  forall cc scs, good_config cc scs ->
  forall l, all_steps h1h2 cc (init_sys cc scs) l ->
  forall s1 s2, moment cc scs l s1 -> moment cc scs l s2 ->
  forall p q o k ss i e, nodes s1 p = Some o -> read o k = RSome (LStopSign ss true) ->
    server_reports s2 q i (LDecided e) -> i < k.
Proof.
  intros cc scs (Hv & H0 & _) l Hh s1 s2 M1 M2 p q o k ss i e N1 P1 R2.
  destruct (read_stop_decided _ _ _ P1) as [Hr Hk]. pose proof (stop_before_entries cc scs Hv H0 l Hh s1 s2 M1 M2 p q o ss i e N1 Hr R2). lia.
Qed.

(** The same with [is_reconfigured] and the decided index. *)
Theorem C07_reconfigured_final :
  forall cc scs, good_config cc scs ->
  forall l, all_steps h1h2 cc (init_sys cc scs) l ->
  forall s1 s2, moment cc scs l s1 -> moment cc scs l s2 ->
  forall p q o ss i e, nodes s1 p = Some o -> is_reconfigured o = Some ss ->
    server_reports s2 q i (LDecided e) -> i + 1 < get_decided_idx o.
Proof. intros cc scs (Hv & H0 & _). apply stop_before_entries; auto. Qed.

(** ** Storage *)

Lemma storage_inv cc G s p st : cluster_validate cc = true -> ~ In 0 (cc_nodes cc) -> SysInv cc G s -> storage_at s p st ->
  exists G1, gle G G1 /\ GInv cc G1 /\ StInv cc G1 p st.
Proof.
  intros Hv H0 HS (o & Hn & [->|(ev & c & He & Hh & Hin)]).
  - exists G. split; [apply gle_refl|]. split; [apply (y_G _ _ _ HS)|]. apply (n_st _ _ _ _ (node_inv _ _ _ _ _ HS Hn)).
  - assert (Hh' : h12 s p ev).
    { destruct Hh as [Hf Hd]. destruct ev as [c0|src k]; cbn; auto. split; [exact Hf|]. intros o0 m Ho0 Hm. cbn in Hd. rewrite Ho0, Hm in Hd. exact Hd. }
    destruct (crash_safe cc Hv H0 G s p ev o c st HS Hn He Hh' Hin) as (G1 & L & HG & HSt & _). exists G1. destruct L; auto.
Qed.

Lemma acov_covers cc G p st k : StInv cc G p st -> acov G p (accepted_round st) k -> covers st k.
Proof.
  intros HS Ha i Hi. destruct (st_arnd _ _ _ _ HS) as (c & Hc & Hcc). change (arnd st) with (accepted_round st) in Hc. unfold acov in Ha. rewrite Hc in Ha.
  destruct (le_lt_dec (ms_trim st) i) as [Ht|]; auto. right.
  destruct (nth_error (ms_log st) (i - ms_trim st)) as [e|] eqn:Hn; [left; exists e; split; auto|]. right.
  apply nth_error_None in Hn. split; [|lia]. intros Hs. rewrite Hs in *. specialize (Hcc eq_refl). unfold cnt in Hcc. cbn in Ha. destruct Ha; [lia|discriminate].
Qed.

Lemma sent_minv cc G s p q m : SysInv cc G s -> in_transit s p q m -> p <> q -> minv cc G p q m.
Proof.
  intros HS Ht Hpq. destruct (y_link _ _ _ HS p q Hpq) as [(A & _) _]. rewrite Forall_forall in A. apply A.
  unfold vlink. apply in_app_iff. destruct Ht as [H|(o & Hn & H)].
  - left. unfold pmsgs. apply in_flat_map. exists (MsgSP (mkPM p q m)). split; auto. left. reflexivity.
  - right. unfold nouts, osp. rewrite Hn. cbn. unfold outs. apply in_map_iff. exists (mkPM p q m). split; auto.
    apply filter_In. split; auto. cbn. apply Nat.eqb_refl.
Qed.

Lemma ble_ble a b : ble_ a b -> ble a b = true.
Proof. intros [H| ->]; apply ble_spec; auto. right. unfold bal_same. auto. Qed.

(** C12: once [p] has sent Accepted for index [idx] in ballot [n], its storage, at every
    later moment and at every storage write, has an accepted round of at least [n]; and
    as long as the round is [n] it holds everything below [idx]. *)
Theorem C12_accepted_durable :
  forall cc scs, good_config cc scs ->
  forall l1 l2, all_steps h1h2 cc (init_sys cc scs) (l1 ++ l2) ->
  forall s1 s2, reaches cc scs l1 s1 -> reaches cc scs (l1 ++ l2) s2 ->
  forall p q n idx, p <> q -> in_transit s1 p q (MAccepted n idx) ->
  forall st, storage_at s2 p st ->
    ble n (accepted_round st) = true /\ (accepted_round st = n -> covers st idx).
Proof.
  intros cc scs (Hv & H0 & _) l1 l2 Hh s1 s2 R1 R2 p q n idx Hpq Ht st Hst.
  destruct (two_moments cc Hv H0 scs l1 l2 s1 s2 Hh R1 R2) as (G1 & G2 & S1 & S2 & L & _).
  destruct (sent_minv cc G1 s1 p q _ S1 Ht Hpq) as (_ & _ & Ha).
  destruct (storage_inv cc G2 s2 p st Hv H0 S2 Hst) as (G3 & L3 & HG3 & HS3).
  pose proof (gle_acov _ _ _ _ _ (gle_trans _ _ _ L L3) Ha) as Ha3. split.
  - assert (Hb : ble_ n (arnd st)). { apply (st_max _ _ _ _ HS3). unfold acov in Ha3. destruct (gA G3 p n); [discriminate|destruct Ha3]. }
    apply ble_ble; auto.
  - intros <-. eapply acov_covers; eauto.
Qed.

(** C11: two servers that act as leader in the same ballot, at whatever moments, are the
    same server. *)
Theorem C11_one_leader_per_ballot :
  forall cc scs, good_config cc scs ->
  forall l, all_steps h1h2 cc (init_sys cc scs) l ->
  forall s1 s2, moment cc scs l s1 -> moment cc scs l s2 ->
  forall p q o1 o2, nodes s1 p = Some o1 -> nodes s2 q = Some o2 ->
    s_role (o_sp o1) = Leader -> s_role (o_sp o2) = Leader ->
    l_n (s_ls (o_sp o1)) = l_n (s_ls (o_sp o2)) -> p = q.
Proof.
  intros cc scs (Hv & H0 & _) l Hh s1 s2 M1 M2 p q o1 o2 N1 N2 R1 R2 Hn.
  assert (Main : forall s p o, moment cc scs l s -> nodes s p = Some o -> s_role (o_sp o) = Leader -> b_pid (l_n (s_ls (o_sp o))) = p).
  { clear - Hv H0 Hh. intros s p o (l1 & l2 & -> & R) N Hl. destruct (all_steps_app cc h1h2 l1 l2 _ _ Hh R) as [A _].
    destruct (one_moment cc Hv H0 scs l1 s A R) as [G S]. pose proof (n_role _ _ _ _ (node_inv _ _ _ _ _ S N)) as Hr. rewrite Hl in Hr.
    destruct (s_phase (o_sp o)); try contradiction; [apply (lp_pid _ _ _ _ Hr)|apply (la_pid _ _ _ _ Hr)]. }
  rewrite <- (Main s1 p o1 M1 N1 R1), <- (Main s2 q o2 M2 N2 R2). congruence.
Qed.

(** C11: the entries of one accepted round are the same at all servers and moments; at one
    server they are only compacted, never removed or rewritten, while it stays in the round;
    and the entries of an AcceptSync of the round are the same too. *)
Theorem C11_round_entries_never_rewritten :
  forall cc scs, good_config cc scs ->
  forall l1 l2, all_steps h1h2 cc (init_sys cc scs) (l1 ++ l2) ->
  forall s1 s2, reaches cc scs l1 s1 -> reaches cc scs (l1 ++ l2) s2 ->
  forall p o1 i e, nodes s1 p = Some o1 -> stored (i_st (s_is (o_sp o1))) i e ->
  forall n, accepted_round (i_st (s_is (o_sp o1))) = n ->
    (forall q st e', storage_at s2 q st -> accepted_round st = n -> stored st i e' -> e' = e) /\
    (forall st, storage_at s2 p st -> accepted_round st = n -> i < ms_trim st \/ stored st i e) /\
    (forall a b sq d sy j e', a <> b -> in_transit s2 a b (MAcceptSync n sq d sy) ->
       nth_error (sy_suffix sy) j = Some e' -> sy_idx sy + j = i -> e' = e).
Proof.
  intros cc scs (Hv & H0 & _) l1 l2 Hh s1 s2 R1 R2 p o1 i e N1 Hs n Hn.
  destruct (two_moments cc Hv H0 scs l1 l2 s1 s2 Hh R1 R2) as (G1 & G2 & S1 & S2 & L & _).
  pose proof (n_st _ _ _ _ (node_inv _ _ _ _ _ S1 N1)) as I1. pose proof (y_G _ _ _ S1) as HG1.
  destruct (stored_at cc G1 p _ i e HG1 I1 Hs) as (m & Hm & Hx). change (arnd (i_st (s_is (o_sp o1)))) with (accepted_round (i_st (s_is (o_sp o1)))) in Hm.
  rewrite Hn in Hm. destruct (le_M _ _ L _ _ Hm) as (m2 & Hm2 & Lm). pose proof (lle_at _ _ _ _ Lm Hx) as Hx2. split; [|split].
  - intros q st e' Hst Hr Hs'. destruct (storage_inv cc G2 s2 q st Hv H0 S2 Hst) as (G3 & L3 & HG3 & HS3).
    destruct (stored_at cc G3 q _ i e' HG3 HS3 Hs') as (m3 & Hm3 & Hx3). change (arnd st) with (accepted_round st) in Hm3. rewrite Hr in Hm3.
    destruct (le_M _ _ L3 _ _ Hm2) as (m3' & Hm3' & Lm3). apply (lle_at _ _ _ _ Lm3) in Hx2. congruence.
  - intros st Hst Hr. destruct (storage_inv cc G2 s2 p st Hv H0 S2 Hst) as (G3 & L3 & HG3 & HS3).
    destruct (le_M _ _ L3 _ _ Hm2) as (m3' & Hm3' & Lm3). eapply (acov_stored cc G3 p st i e m3'); auto.
    + change (arnd st) with (accepted_round st). rewrite Hr, <- Hn. eapply gle_acov; [exact (gle_trans _ _ _ L L3)|]. eapply (stored_acov cc G1 p); eauto.
    + change (arnd st) with (accepted_round st). congruence.
    + eapply lle_at; eauto.
  - intros a b sq d sy j e' Hab Ht Hj <-. destruct (sent_minv cc G2 s2 a b _ S2 Ht Hab) as (_ & _ & c & ss & (m3 & Hm3 & Hsy & _) & _).
    specialize (Hsy j e' Hj). congruence.
Qed.

(** C13: what a server has decided is held by a write quorum, in an accepted round that is
    at least the ballot in which it was decided: at the same moment, at every later one, and
    at every storage write.  Entries held there are those that were shown as decided. *)
Theorem C13_decided_held_by_write_quorum :
  forall cc scs, good_config cc scs ->
  forall l1 l2, all_steps h1h2 cc (init_sys cc scs) (l1 ++ l2) ->
  forall s1 s2, reaches cc scs l1 s1 -> reaches cc scs (l1 ++ l2) s2 ->
  forall p o, nodes s1 p = Some o -> 0 < get_decided_idx o ->
  exists b W r, ble b (accepted_round (i_st (s_is (o_sp o)))) = true /\
    NoDup W /\ incl W (cc_nodes cc) /\ In r (cc_nodes cc) /\
    is_accept_quorum (quorum_with (cc_flex cc) (length (peers_of cc r) + 1)) (length W) = true /\
    forall q st, In q W -> storage_at s2 q st ->
      ble b (accepted_round st) = true /\ covers st (get_decided_idx o) /\
      (forall i e e', reports o i (LDecided e) -> stored st i e' -> e' = e).
Proof.
  intros cc scs (Hv & H0 & _) l1 l2 Hh s1 s2 R1 R2 p o N Hd.
  destruct (two_moments cc Hv H0 scs l1 l2 s1 s2 Hh R1 R2) as (G1 & G2 & S1 & S2 & L & _).
  pose proof (node_inv _ _ _ _ _ S1 N) as I1. pose proof (n_st _ _ _ _ I1) as T1. pose proof (y_G _ _ _ S1) as HG1.
  pose proof (st_dec _ _ _ _ T1) as Hdec. rewrite <- (co_dec _ _ (n_coh _ _ _ _ I1)) in Hdec.
  destruct Hdec as [Hz|(b & Hb & Hc)]; [unfold get_decided_idx, i_dec in Hd; lia|].
  destruct Hc as (W & r & HW & HI & Hr & Hq & Ha). exists b, W, r. split; [apply ble_ble; auto|].
  split; auto. split; auto. split; auto. split; [exact Hq|]. intros q st Hin Hst.
  assert (Hc : chosen cc G1 b (get_decided_idx o)) by (exists W, r; auto).
  destruct (storage_inv cc G2 s2 q st Hv H0 S2 Hst) as (G3 & L3 & HG3 & HS3). pose proof (gle_trans _ _ _ L L3) as L13.
  pose proof (gle_acov _ _ _ _ _ L13 (Ha q Hin)) as Ha3.
  assert (Hb3 : ble_ b (arnd st)). { apply (st_max _ _ _ _ HS3). unfold acov in Ha3. destruct (gA G3 q b); [discriminate|destruct Ha3]. }
  split; [apply ble_ble; auto|].
  assert (Hc3 : chosen cc G3 b (get_decided_idx o)) by (eapply chosen_gle; eauto).
  split.
  - eapply acov_covers; eauto. change (accepted_round st) with (arnd st). eapply (acov_later cc Hv H0 G3 q b (arnd st)); eauto.
    + right. reflexivity.
    + destruct (st_arnd _ _ _ _ HS3) as (c & -> & _). discriminate.
  - intros i e e' Hrep Hs'. destruct (reports_decided cc Hv H0 G1 p o i e HG1 I1 Hrep) as (Hs & Hi & F).
    apply (fixed_gle cc _ _ _ _ L13) in F. destruct (stored_at cc G3 q st i e' HG3 HS3 Hs') as (m & Hm & Hx).
    assert (F' : fixed cc G3 i (Ent e')).
    { assert (Hd' : decok cc G3 (arnd st) (get_decided_idx o)) by (right; exists b; auto).
      destruct (dec_fixed cc Hv H0 G3 (arnd st) (get_decided_idx o) i m (Ent e') HG3 Hd') as (b' & _ & _ & F'); auto.
      unfold get_decided_idx, i_dec. rewrite (co_dec _ _ (n_coh _ _ _ _ I1)). exact Hi. }
    pose proof (fixed_agree cc Hv H0 G3 i _ _ HG3 F F'). congruence.
Qed.

(** C41 (first half): at a server without stop sign the decided index does not exceed the
    length of the log. *)
Theorem C41_decided_le_accepted :
  forall cc scs, good_config cc scs ->
  forall l, all_steps h1h2 cc (init_sys cc scs) l -> forall s, reaches cc scs l s ->
  forall p o, nodes s p = Some o -> ms_ss (i_st (s_is (o_sp o))) = None ->
    get_decided_idx o <= i_acc (s_is (o_sp o)) /\
    i_acc (s_is (o_sp o)) = ms_trim (i_st (s_is (o_sp o))) + length (ms_log (i_st (s_is (o_sp o)))).
Proof.
  intros cc scs (Hv & H0 & _) l Hh s R p o N Hss. destruct (one_moment cc Hv H0 scs l s Hh R) as [G S].
  pose proof (node_inv _ _ _ _ _ S N) as I. pose proof (n_coh _ _ _ _ I) as HC. pose proof (n_st _ _ _ _ I) as HT.
  pose proof (co_acc _ _ HC) as Ha. rewrite Hss in Ha. unfold get_decided_idx, i_dec, i_acc. rewrite Ha, (co_dec _ _ HC). split; [|reflexivity].
  destruct (st_cov _ _ _ _ HT); [assumption|congruence].
Qed.

End WithEntry.

Print Assumptions C01_agreement.
Print Assumptions C05_decided_stable.
Print Assumptions C07_reconfiguration_agreement.
Print Assumptions C07_reconfiguration_final.
Print Assumptions C07_reconfigured_final.
Print Assumptions C11_one_leader_per_ballot.
Print Assumptions C11_round_entries_never_rewritten.
Print Assumptions C12_accepted_durable.
Print Assumptions C13_decided_held_by_write_quorum.
Print Assumptions C41_decided_le_accepted.

(** ** A concrete run with a crash, two leaders, and a reconfiguration

    Used to show that the hypotheses of the theorems can be met. *)
Section Case.
Local Existing Instance plain.

Definition sch_case1 : list cmd :=
  [ Settle [1;2;3] 2; Call 1 CTryLeader; Settle [1;2;3] 3; append 1 11; append 2 12; Settle [1;2;3] 4 ].
Definition acts_case1 := Eval vm_compute in acts_of cc3 ini sch_case1.
Definition sys_case1 := match run cc3 ini acts_case1 with Some s => s | None => ini end.
Definition sch_case2 : list cmd :=
  [ append 1 13; Fetch [1]; DeliverN 1 2 1; Do (ACrash 3 (EDeliver 1 0) 1 (scs 3)); Fetch [2]; 
    Call 2 CTryLeader; Settle [2;3] 4; append 3 14; Settle [2;3] 4 ].
Definition acts_case2 := Eval vm_compute in acts_of cc3 sys_case1 sch_case2.
Definition sys_case2 := match run cc3 sys_case1 acts_case2 with Some s => s | None => ini end.
Definition sch_case3 : list cmd :=
  [ Call 2 (CReconfigure cc_next None); Settle [2;3] 4; Settle [1;2;3] 4;
    Call 2 (CTrim (Some 2)); Settle [1;2;3] 2 ].
Definition acts_case3 := Eval vm_compute in acts_of cc3 sys_case2 sch_case3.
Definition sys_case3 := match run cc3 sys_case2 acts_case3 with Some s => s | None => ini end.

Lemma h1h2_run cc l : forall s, forallb fifob l = true -> drained_run cc s l = true -> all_steps h1h2 cc s l.
Proof.
  induction l as [|a l IH]; cbn; intros s Hf Hd; auto. apply andb_true_iff in Hf, Hd. destruct Hf as [F1 F2], Hd as [D1 D2].
  split; [split|].
  - pose proof (fifob_ok [a]) as H. cbn in H. rewrite F1 in H. specialize (H eq_refl). apply fifo_syncs_in_order. inversion H; auto.
  - apply drainedb_ok; auto.
  - destruct (exec_action cc s a); auto.
Qed.

Lemma case_steps : all_steps h1h2 cc3 ini (acts_case1 ++ acts_case2 ++ acts_case3).
Proof. apply h1h2_run; vm_compute; reflexivity. Qed.
Lemma is_some_eta {A} (o : option A) d : match o with Some _ => true | None => false end = true -> o = Some (match o with Some x => x | None => d end).
Proof. destruct o; [reflexivity|discriminate]. Qed.
Lemma case_reach1 : reaches cc3 scs acts_case1 sys_case1.
Proof. apply is_some_eta. vm_compute. reflexivity. Qed.
Lemma run_app_ok cc l1 l2 (s s1 : sys) r : run cc s l1 = Some s1 -> run cc s1 l2 = r -> run cc s (l1 ++ l2) = r.
Proof. revert s. induction l1 as [|a l1 IH]; cbn; intros s H1 H2; [congruence|]. destruct (exec_action cc s a); [auto|discriminate]. Qed.
Lemma case_reach2 : reaches cc3 scs (acts_case1 ++ acts_case2) sys_case2.
Proof. eapply run_app_ok; [exact case_reach1|]. apply is_some_eta. vm_compute. reflexivity. Qed.
Lemma case_reach3 : reaches cc3 scs ((acts_case1 ++ acts_case2) ++ acts_case3) sys_case3.
Proof. eapply run_app_ok; [exact case_reach2|]. apply is_some_eta. vm_compute. reflexivity. Qed.

Lemma moment_case1 : moment cc3 scs ((acts_case1 ++ acts_case2) ++ acts_case3) sys_case1.
Proof. exists acts_case1, (acts_case2 ++ acts_case3). rewrite app_assoc. split; [reflexivity|exact case_reach1]. Qed.
Lemma moment_case3 : moment cc3 scs ((acts_case1 ++ acts_case2) ++ acts_case3) sys_case3.
Proof. exists ((acts_case1 ++ acts_case2) ++ acts_case3), []. rewrite app_nil_r. split; [reflexivity|exact case_reach3]. Qed.

(** C01, C05: server 1 shows 12 as decided at index 1 before the failover; after it server 3,
    that crashed in between, shows index 3 and server 1 shows index 0 as compacted. *)
Example C01_case :
  server_reports sys_case1 1 1 (LDecided (12 : @T plain)) /\ server_reports sys_case2 3 1 (LDecided (12 : @T plain)) /\
  server_reports sys_case2 3 3 (LDecided (14 : @T plain)).
Proof. split; [|split]; apply shows_ok; vm_compute; reflexivity. Qed.
Example C05_case :
  server_reports sys_case1 1 1 (LDecided (12 : @T plain)) /\ obs sys_case3 1 (fun o => read o 1) = Some (RSome (LTrimmed 2)) /\
  obs sys_case2 1 (fun o => read o 1) = Some (RSome (LDecided 12)).
Proof. split; [apply shows_ok; vm_compute; reflexivity|vm_compute; auto]. Qed.

(** C07: all three servers report the stop sign, at index 4. *)
Example C07_case :
  map (fun p => obs sys_case3 p is_reconfigured) [1; 2; 3] = [Some (Some (mkSS cc_next None)); Some (Some (mkSS cc_next None)); Some (Some (mkSS cc_next None))] /\
  obs sys_case3 3 (fun o => read o 4) = Some (RSome (LStopSign (mkSS cc_next None) true)) /\
  server_reports sys_case3 3 3 (LDecided (14 : @T plain)).
Proof. split; [vm_compute; reflexivity|]. split; [vm_compute; reflexivity|]. apply shows_ok. vm_compute. reflexivity. Qed.

(** C11: server 1 leads in ballot 1 before and after, server 2 in ballot 2. *)
Example C11_case :
  obs sys_case1 1 (fun o => (s_role (o_sp o), l_n (s_ls (o_sp o)))) = Some (Leader, mkB 1 1 0 1) /\
  obs sys_case2 1 (fun o => (s_role (o_sp o), l_n (s_ls (o_sp o)))) = Some (Leader, mkB 1 1 0 1) /\
  obs sys_case2 2 (fun o => (s_role (o_sp o), l_n (s_ls (o_sp o)))) = Some (Leader, mkB 1 2 0 2) /\
  obs sys_case1 1 (fun o => accepted_round (i_st (s_is (o_sp o)))) = Some (mkB 1 1 0 1) /\
  obs sys_case2 1 (fun o => (accepted_round (i_st (s_is (o_sp o))), ms_log (i_st (s_is (o_sp o))))) = Some (mkB 1 1 0 1, [11; 12; 13]).
Proof. vm_compute. auto 10. Qed.

(** C12: server 2 has sent Accepted for index 3 and is in that round. *)
Definition sch_case_acc : list cmd := [ append 1 13; Fetch [1]; DeliverN 1 2 1; Fetch [2] ].
Definition acts_case_acc := Eval vm_compute in acts_of cc3 sys_case1 sch_case_acc.
Definition sys_case_acc := match run cc3 sys_case1 acts_case_acc with Some s => s | None => ini end.
Example C12_case :
  reaches cc3 scs (acts_case1 ++ acts_case_acc) sys_case_acc /\ all_steps h1h2 cc3 ini (acts_case1 ++ acts_case_acc) /\
  in_transit sys_case_acc 2 1 (MAccepted (mkB 1 1 0 1) 3) /\
  obs sys_case_acc 2 (fun o => (accepted_round (i_st (s_is (o_sp o))), ms_log (i_st (s_is (o_sp o))))) = Some (mkB 1 1 0 1, [11; 12; 13]).
Proof.
  split; [eapply run_app_ok; [exact case_reach1|]; apply is_some_eta; vm_compute; reflexivity|].
  split; [apply h1h2_run; vm_compute; reflexivity|]. split; [left; vm_compute; auto|vm_compute; reflexivity].
Qed.

(** C13: server 1 has decided index 2 before the failover. *)
Example C13_case : obs sys_case1 1 get_decided_idx = Some 2 /\
  map (fun q => obs sys_case3 q (fun o => (ms_trim (i_st (s_is (o_sp o))), ms_log (i_st (s_is (o_sp o)))))) [1; 2; 3] =
    [Some (2, [13; 14]); Some (2, [13; 14]); Some (2, [13; 14])].
Proof. vm_compute. auto. Qed.

(** C41. *)
Example C41_case : obs sys_case2 1 (fun o => (get_decided_idx o, i_acc (s_is (o_sp o)), ms_ss (i_st (s_is (o_sp o))))) = Some (2, 3, None).
Proof. vm_compute. reflexivity. Qed.
End Case.
