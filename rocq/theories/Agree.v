(** * Consequences of the cluster invariant *)
From Coq Require Import List Arith Bool Lia.
Import ListNotations.
From Verif Require Import Types Config MemStore Internal LeaderState SeqPaxos Ble Omni System Basics Ghost GhostOps Inv SysInv Spec Reads.

Section WithEntry.
Context {E : EntryT}.
Context (cc : cluster_config) (Hv : cluster_validate cc = true) (H0 : ~ In 0 (nds cc)).

(** Two moments of one execution. *)
Lemma run_app l1 : forall l2 s0 s2, run cc s0 (l1 ++ l2) = Some s2 -> exists s1, run cc s0 l1 = Some s1 /\ run cc s1 l2 = Some s2.
Proof.
  induction l1 as [|a l1 IH]; intros l2 s0 s2 H; cbn in *; eauto. destruct (exec_action cc s0 a); [|discriminate]. auto.
Qed.
Lemma all_steps_app P l1 : forall l2 s0 s1, all_steps P cc s0 (l1 ++ l2) -> run cc s0 l1 = Some s1 ->
  all_steps P cc s0 l1 /\ all_steps P cc s1 l2.
Proof.
  induction l1 as [|a l1 IH]; intros l2 s0 s1 H Hr; cbn in *.
  - injection Hr as <-. auto.
  - destruct H as [H1 H2]. destruct (exec_action cc s0 a); [|discriminate]. destruct (IH _ _ _ H2 Hr). auto.
Qed.

Lemma two_moments scs l1 l2 s1 s2 : all_steps h1h2 cc (init_sys cc scs) (l1 ++ l2) ->
  reaches cc scs l1 s1 -> reaches cc scs (l1 ++ l2) s2 ->
  exists G1 G2, SysInv cc G1 s1 /\ SysInv cc G2 s2 /\ gle G1 G2 /\ run cc s1 l2 = Some s2.
Proof.
  unfold reaches. intros Hh R1 R2. destruct (run_app _ _ _ _ R2) as (s1' & R1' & R12).
  assert (s1' = s1) by congruence. subst s1'. destruct (all_steps_app _ _ _ _ _ Hh R1) as [A1 A2].
  destruct (run_inv cc Hv H0 l1 (G00) _ s1 (init_inv cc scs) A1 R1) as (G1 & _ & S1).
  destruct (run_inv cc Hv H0 l2 G1 _ s2 S1 A2 R12) as (G2 & L & S2). exists G1, G2. auto.
Qed.

Lemma one_moment scs l s : all_steps h1h2 cc (init_sys cc scs) l -> reaches cc scs l s -> exists G, SysInv cc G s.
Proof.
  intros A R. destruct (run_inv cc Hv H0 l (G00) _ s (init_inv cc scs) A R) as (G & _ & S). eauto.
Qed.

(** What is stored belongs to the log of the accepted round. *)
Lemma stored_at G p st i e : GInv cc G -> StInv cc G p st -> stored st i e ->
  exists l, gM G (arnd st) = Some l /\ at_ l i = Some (Ent e).
Proof.
  intros HG HS [Hi He]. destruct (stinv_M cc G p st HG HS) as [l Hl]. exists l. split; auto.
  pose proof (st_log _ _ _ _ HS l _ e Hl He) as H. replace (ms_trim st + (i - ms_trim st)) with i in H by lia. exact H.
Qed.

Lemma stored_cnt st i e : stored st i e -> i < cnt st.
Proof.
  intros [Hi He]. unfold cnt. assert (i - ms_trim st < length (ms_log st)) by (apply nth_error_Some; congruence). lia.
Qed.

Lemma decok_chosen G a d i : decok cc G a d -> i < d -> exists b, ble_ b a /\ chosen cc G b (i + 1).
Proof.
  intros [->|(b & Hb & Hc)] Hi; [lia|]. exists b. split; auto. eapply chosen_le; [|exact Hc]. lia.
Qed.

(** A decided entry at [i]. *)
Definition fixed (G : ghost) (i : nat) (x : cell) : Prop :=
  exists b l, chosen cc G b (i + 1) /\ gM G b = Some l /\ at_ l i = Some x.

Lemma fixed_gle G G' i x : gle G G' -> fixed G i x -> fixed G' i x.
Proof.
  intros L (b & l & Hc & Hl & Hx). destruct (le_M _ _ L _ _ Hl) as (l' & Hl' & Hll). exists b, l'.
  split; [eapply chosen_gle; eauto|]. split; auto. eapply lle_at; eauto.
Qed.
Lemma fixed_agree G i x y : GInv cc G -> fixed G i x -> fixed G i y -> x = y.
Proof.
  intros HG (b & l & Hc & Hl & Hx) (b' & l' & Hc' & Hl' & Hy).
  pose proof (chosen_chosen cc Hv H0 G b b' _ _ l l' HG Hc Hc' Hl Hl') as A. destruct (A i) as (z & Hz & Hz'); [lia|]. congruence.
Qed.

(** A decided index and the log of the accepted round. *)
Lemma dec_fixed G a d i l x : GInv cc G -> decok cc G a d -> i < d -> gM G a = Some l -> at_ l i = Some x ->
  exists b, ble_ b a /\ chosen cc G b (i + 1) /\ fixed G i x.
Proof.
  intros HG Hd Hi Hl Hx. destruct (decok_chosen _ _ _ _ Hd Hi) as (b & Hb & Hc).
  destruct (chosen_M cc Hv G b _ HG Hc) as (lb & Hlb & _).
  pose proof (chosen_agree_M cc Hv H0 G b a _ lb l HG Hb Hc Hlb Hl) as A. destruct (A i) as (z & Hz & Hz'); [lia|].
  exists b. split; auto. split; auto. exists b, lb. split; auto. split; auto. congruence.
Qed.

Lemma reports_decided G p o i e : GInv cc G -> NodeInv cc G p (o_sp o) -> reports o i (LDecided e) ->
  stored (i_st (s_is (o_sp o))) i e /\ i < ms_dec (i_st (s_is (o_sp o))) /\ fixed G i (Ent e).
Proof.
  intros HG HN Hr. destruct (reports_stored _ _ _ Hr e (or_introl eq_refl)) as (Hs & Hd & _). specialize (Hd eq_refl).
  unfold i_dec in Hd. rewrite (co_dec _ _ (n_coh _ _ _ _ HN)) in Hd. split; auto. split; auto.
  pose proof (n_st _ _ _ _ HN) as HS. destruct (stored_at _ _ _ _ _ HG HS Hs) as (l & Hl & Hx).
  destruct (dec_fixed G _ _ i l _ HG (st_dec _ _ _ _ HS) Hd Hl Hx) as (b & _ & _ & F). exact F.
Qed.

(** The coverage of the accepted round. *)
Lemma stored_acov G p st i e : StInv cc G p st -> stored st i e -> acov G p (arnd st) (i + 1).
Proof.
  intros HS Hs. apply stored_cnt in Hs. destruct (st_arnd _ _ _ _ HS) as (c & Hc & Hcc). unfold acov. rewrite Hc.
  destruct (ms_ss st); cbn; auto. left. rewrite Hcc; auto. lia.
Qed.

(** Later storage states of the same server. *)
Lemma later_round G1 G2 p st1 st2 : gle G1 G2 -> StInv cc G1 p st1 -> StInv cc G2 p st2 -> ble_ (arnd st1) (arnd st2).
Proof.
  intros L S1 S2. apply (st_max _ _ _ _ S2). destruct (st_arnd _ _ _ _ S1) as (c & Hc & _).
  destruct (le_A _ _ L _ _ _ Hc) as (a & -> & _). discriminate.
Qed.

Lemma acov_later G p a a' k b : GInv cc G -> chosen cc G b k -> ble_ b a -> ble_ a a' -> acov G p a k -> gA G p a' <> None ->
  acov G p a' k.
Proof.
  intros HG Hc Hb Ha Hk Hj. destruct Ha as [Ha| <-]; auto. apply (g_init _ _ HG); auto.
  destruct (chosen_M cc Hv G b _ HG Hc) as (lb & Hlb & _).
  eapply agree_ecov_r. eapply (chosen_agree cc Hv H0 G HG a' b k lb); auto.
  - destruct (gA G p a') as [[c ss]|] eqn:Hx; [|congruence]. destruct (g_acc _ _ HG _ _ _ _ Hx) as (_ & l & Hl & _). congruence.
  - eapply ble_lt_trans; eauto.
Qed.

(** A covered index whose cell is an entry is stored or compacted. *)
Lemma acov_stored G p st i e l : StInv cc G p st -> acov G p (arnd st) (i + 1) -> gM G (arnd st) = Some l -> at_ l i = Some (Ent e) ->
  i < ms_trim st \/ stored st i e.
Proof.
  intros HS Ha Hl He. assert (Hi : i < cnt st).
  { destruct (le_lt_dec (cnt st) i) as [Hle|]; auto. exfalso. destruct (st_arnd _ _ _ _ HS) as (c & Hc & Hcc). unfold acov in Ha. rewrite Hc in Ha.
    destruct (ms_ss st) as [ss|] eqn:Hss; cbn in Ha.
    - pose proof (st_ss _ _ _ _ HS l ss i Hl Hss Hle). congruence.
    - rewrite (Hcc eq_refl) in Ha. destruct Ha; [lia|discriminate]. }
  destruct (le_lt_dec (ms_trim st) i) as [Ht|]; auto. right. split; auto.
  destruct (nth_error (ms_log st) (i - ms_trim st)) as [e'|] eqn:Hn.
  - pose proof (st_log _ _ _ _ HS l _ e' Hl Hn) as H. replace (ms_trim st + (i - ms_trim st)) with i in H by lia. congruence.
  - apply nth_error_None in Hn. unfold cnt in Hi. lia.
Qed.

(** Once decided at a server, stored there or compacted. *)
Lemma decided_later G1 G2 p o1 o2 i e : GInv cc G1 -> GInv cc G2 -> gle G1 G2 -> NodeInv cc G1 p (o_sp o1) -> NodeInv cc G2 p (o_sp o2) ->
  reports o1 i (LDecided e) ->
  let st := i_st (s_is (o_sp o2)) in
  (i < ms_trim st \/ stored st i e) /\
  (forall l, gM G2 (arnd st) = Some l -> at_ l i = Some (Ent e)).
Proof.
  intros HG1 HG2 L N1 N2 Hr st. destruct (reports_decided _ _ _ _ _ HG1 N1 Hr) as (Hs & Hd & F1).
  pose proof (n_st _ _ _ _ N1) as S1. pose proof (n_st _ _ _ _ N2) as S2. fold st in S2.
  destruct (stored_at _ _ _ _ _ HG1 S1 Hs) as (l1 & Hl1 & Hx1).
  destruct (dec_fixed G1 _ _ i l1 _ HG1 (st_dec _ _ _ _ S1) Hd Hl1 Hx1) as (b & Hb & Hc & _).
  pose proof (later_round _ _ _ _ _ L S1 S2) as Hle.
  destruct (stinv_M cc G2 p st HG2 S2) as [l2 Hl2].
  assert (Hx2 : at_ l2 i = Some (Ent e)).
  { destruct (chosen_M cc Hv G1 b _ HG1 Hc) as (lb & Hlb & _). destruct (le_M _ _ L _ _ Hlb) as (lb2 & Hlb2 & Ll).
    pose proof (chosen_agree_M cc Hv H0 G1 b _ _ lb l1 HG1 Hb Hc Hlb Hl1) as A. destruct (A i) as (z & Hz & Hz'); [lia|].
    pose proof (chosen_agree_M cc Hv H0 G2 b (arnd st) (i + 1) lb2 l2 HG2) as A2.
    destruct (A2 (ble_trans _ _ _ Hb Hle) (chosen_gle cc _ _ _ _ L Hc) Hlb2 Hl2 i) as (y & Hy & Hy'); [lia|].
    apply (lle_at _ _ _ _ Ll) in Hz. congruence. }
  split; [|intros l Hl; congruence].
  eapply acov_stored; eauto. eapply (acov_later G2 p (arnd (i_st (s_is (o_sp o1))))); eauto.
  - eapply chosen_gle; eauto.
  - eapply gle_acov; eauto. eapply stored_acov; eauto.
  - destruct (st_arnd _ _ _ _ S2) as (c & -> & _). discriminate.
Qed.

(** [read] of a stored entry. *)
Lemma read_stored G p o i e : GInv cc G -> NodeInv cc G p (o_sp o) -> stored (i_st (s_is (o_sp o))) i e ->
  read o i = RSome (if i <? get_decided_idx o then LDecided e else LUndecided e).
Proof.
  intros HG HN Hs. pose proof (n_coh _ _ _ _ HN) as HC. pose proof (n_st _ _ _ _ HN) as HS.
  set (is := s_is (o_sp o)) in *. assert (Hcomp : i_comp is = ms_trim (i_st is)).
  { unfold i_comp. rewrite (co_comp _ _ HC). apply (st_comp _ _ _ _ HS). }
  pose proof (stored_cnt _ _ _ Hs) as Hcnt. destruct Hs as [Hi He].
  assert (Hacc : get_entry_type is i (i_comp is) (i_acc is) = Some IxEntry).
  { unfold get_entry_type. rewrite Hcomp. destruct (Nat.ltb_spec i (ms_trim (i_st is))); [lia|].
    pose proof (co_acc _ _ HC) as Ha. unfold i_acc, i_ss. rewrite (co_ss _ _ HC).
    destruct (stinv_M cc G p (i_st is) HG HS) as [l Hl].
    pose proof (st_log _ _ _ _ HS l _ e Hl He) as Hx. apply at_len in Hx.
    destruct (ms_ss (i_st is)) as [ss|].
    - specialize (Ha l Hl). destruct (Nat.ltb_spec (i + 1) (c_acc (i_ca is))); auto. lia.
    - rewrite Ha. destruct (Nat.ltb_spec (i + 1) (cnt (i_st is))); auto. destruct (Nat.eqb_spec (i + 1) (cnt (i_st is))); auto. lia. }
  unfold read. fold is. unfold i_read. replace (i + 1 =? 0) with false by (symmetry; apply Nat.eqb_neq; lia).
  replace (i + 1 - 1) with i by lia. rewrite Hacc.
  unfold create_read_log_entries, ms_get_entries, sub_chk.
  destruct (Nat.leb_spec (ms_trim (i_st is)) i); [|lia]. destruct (Nat.leb_spec (ms_trim (i_st is)) (i + 1)); [|lia].
  unfold slice_get. replace (i + 1 - ms_trim (i_st is)) with (S (i - ms_trim (i_st is))) by lia.
  unfold cnt in Hcnt. destruct (Nat.leb_spec (i - ms_trim (i_st is)) (S (i - ms_trim (i_st is)))); [|lia].
  destruct (Nat.leb_spec (S (i - ms_trim (i_st is))) (length (ms_log (i_st is)))); [|lia]. cbn [andb].
  replace (S (i - ms_trim (i_st is)) - (i - ms_trim (i_st is))) with 1 by lia.
  assert (Hk : forall (l : list T) k x, nth_error l k = Some x -> firstn 1 (skipn k l) = [x]).
  { induction l as [|y l IH]; intros [|k] x Hx; cbn in *; try discriminate; auto. congruence. }
  rewrite (Hk _ _ _ He). reflexivity.
Qed.

Lemma read_compacted G p o i : NodeInv cc G p (o_sp o) -> i < ms_trim (i_st (s_is (o_sp o))) ->
  read o i = RSome (match ms_snap (i_st (s_is (o_sp o))) with Some sn => LSnapshotted (get_compacted_idx o) sn | None => LTrimmed (get_compacted_idx o) end).
Proof.
  intros HN Hi. pose proof (n_coh _ _ _ _ HN) as HC. pose proof (n_st _ _ _ _ HN) as HS.
  set (is := s_is (o_sp o)) in *. assert (Hcomp : i_comp is = ms_trim (i_st is)).
  { unfold i_comp. rewrite (co_comp _ _ HC). apply (st_comp _ _ _ _ HS). }
  unfold read. fold is. unfold i_read. replace (i + 1 =? 0) with false by (symmetry; apply Nat.eqb_neq; lia).
  replace (i + 1 - 1) with i by lia. unfold get_entry_type. rewrite Hcomp. destruct (Nat.ltb_spec i (ms_trim (i_st is))); [|lia].
  unfold create_compacted_entry, get_compacted_idx. fold is. rewrite Hcomp. cbn [rev app]. destruct (ms_snap (i_st is)); reflexivity.
Qed.

(** A decided stop sign. *)
Lemma reconf_stop G p o ss : GInv cc G -> NodeInv cc G p (o_sp o) -> is_reconfigured o = Some ss ->
  exists b l k, chosen cc G b (get_decided_idx o) /\ gM G b = Some l /\ k < get_decided_idx o /\ at_ l k = Some (Stop ss).
Proof.
  intros HG HN Hr. pose proof (n_coh _ _ _ _ HN) as HC. pose proof (n_st _ _ _ _ HN) as HS.
  unfold is_reconfigured, sp_is_reconfigured, stopsign_is_decided, i_ss in Hr. unfold get_decided_idx, i_dec.
  set (is := s_is (o_sp o)) in *. destruct (c_ss (i_ca is)) as [ss'|] eqn:Hss; [|discriminate].
  destruct (Nat.eqb_spec (c_dec (i_ca is)) (c_acc (i_ca is))) as [Hd|]; [|discriminate]. injection Hr as ->.
  pose proof (co_acc _ _ HC) as Ha. rewrite (co_ss _ _ HC) in Hss. rewrite Hss in Ha.
  destruct (stinv_M cc G p (i_st is) HG HS) as [l Hl]. specialize (Ha l Hl).
  assert (Hls : ll_ss l = Some ss). { rewrite <- Hss. eapply stinv_ss; eauto. congruence. }
  pose proof (st_dec _ _ _ _ HS) as Hdec. rewrite <- (co_dec _ _ HC) in Hdec.
  destruct Hdec as [Hz|(b & Hb & Hc)]; [lia|]. destruct (chosen_M cc Hv G b _ HG Hc) as (lb & Hlb & _).
  exists b, lb, (len l). split; auto. split; auto. split; [lia|].
  pose proof (chosen_agree_M cc Hv H0 G b (arnd (i_st is)) _ lb l HG Hb Hc Hlb Hl) as A. destruct (A (len l)) as (z & Hz & Hz'); [lia|].
  rewrite Hz. unfold at_, len in Hz'. rewrite Hls in Hz'. destruct (nth_error (ll_es l) (length (ll_es l))) as [e|] eqn:Hn.
  - apply nth_error_Some_lt in Hn || (assert (Hlt : length (ll_es l) < length (ll_es l)) by (apply nth_error_Some; congruence)). lia.
  - cbn in Hz'. congruence.
Qed.

Lemma stops_agree G b1 b2 d1 d2 l1 l2 k1 k2 s1 s2 : GInv cc G -> chosen cc G b1 d1 -> chosen cc G b2 d2 ->
  gM G b1 = Some l1 -> gM G b2 = Some l2 -> k1 < d1 -> k2 < d2 -> at_ l1 k1 = Some (Stop s1) -> at_ l2 k2 = Some (Stop s2) -> s1 = s2.
Proof.
  intros HG C1 C2 L1 L2 K1 K2 A1 A2. pose proof (chosen_chosen cc Hv H0 G b1 b2 d1 d2 l1 l2 HG C1 C2 L1 L2) as A.
  apply at_stop in A1 as B1. apply at_stop in A2 as B2.
  destruct (le_lt_dec d1 d2).
  - destruct (A k1) as (z & Hz & Hz'); [lia|]. rewrite A1 in Hz. injection Hz as <-. apply at_stop in Hz'. destruct B2, Hz'. congruence.
  - destruct (A k2) as (z & Hz & Hz'); [lia|]. rewrite A2 in Hz'. injection Hz' as <-. apply at_stop in Hz. destruct B1, Hz. congruence.
Qed.

Lemma stop_final G b l d k ss j e : GInv cc G -> chosen cc G b d -> gM G b = Some l -> k < d -> at_ l k = Some (Stop ss) ->
  fixed G j (Ent e) -> j < k.
Proof.
  intros HG C L K A (b2 & l2 & C2 & L2 & A2). pose proof (chosen_chosen cc Hv H0 G b b2 d (j + 1) l l2 HG C C2 L L2) as Ag.
  destruct (le_lt_dec k j) as [Hkj|]; auto. exfalso.
  destruct (Ag k) as (z & Hz & Hz'); [lia|]. rewrite A in Hz. injection Hz as <-. pose proof (at_stop_ge _ _ j _ Hz' Hkj). congruence.
Qed.

(** Entries of two servers in the same accepted round. *)
Lemma same_round G1 G2 p q st1 st2 i e1 e2 : GInv cc G1 -> GInv cc G2 -> gle G1 G2 -> StInv cc G1 p st1 -> StInv cc G2 q st2 ->
  arnd st1 = arnd st2 -> stored st1 i e1 -> stored st2 i e2 -> e1 = e2.
Proof.
  intros HG1 HG2 L S1 S2 Hr A1 A2. destruct (stored_at _ _ _ _ _ HG1 S1 A1) as (l1 & Hl1 & X1).
  destruct (stored_at _ _ _ _ _ HG2 S2 A2) as (l2 & Hl2 & X2). destruct (le_M _ _ L _ _ Hl1) as (l1' & Hl1' & Ll).
  apply (lle_at _ _ _ _ Ll) in X1. rewrite Hr in Hl1'. congruence.
Qed.

End WithEntry.
