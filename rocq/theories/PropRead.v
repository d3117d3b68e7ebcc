(** * Reading

    C21 and the part of C22 that holds. *)
From Coq Require Import List Arith Bool Lia.
Import ListNotations.
From Verif Require Import Types Config MemStore Internal LeaderState SeqPaxos Ble Omni System Spec Basics Scen Refute
  PropRefuted PropAgreement Reads Local PropLocal PropCalls.

Section WithEntry.
Context {E : EntryT}.

(** What the reads need of a server state. *)
Record readable (s : istore) : Prop := {
  rd_dec : i_dec s = ms_dec (i_st s);
  rd_comp : i_comp s = ms_comp (i_st s);
  rd_ss : i_ss s = ms_ss (i_st s);
  rd_trim : ms_comp (i_st s) = ms_trim (i_st s)
}.

Lemma state_readable o : server_state o -> readable (s_is (o_sp o)).
Proof.
  intros H. apply own_state in H. pose proof (lc_is _ _ _ _ H) as HI. destruct (il_coh _ _ _ HI). destruct (il_st _ _ _ HI) as (_ & _ & Hc).
  constructor; auto.
Qed.

Lemma slice_whole (l : list T) a b : a <= b -> b <= length l -> slice_get l a b = Some (firstn (b - a) (skipn a l)).
Proof. intros H1 H2. unfold slice_get. rewrite (proj2 (Nat.leb_le _ _) H1), (proj2 (Nat.leb_le _ _) H2). reflexivity. Qed.

Lemma shown_marks st l : forall idx, (forall j e, nth_error l j = Some e -> stored st (idx + j) e) ->
  Forall2 (shown st) (seq idx (length l)) (mark_entries (ms_dec st) idx l).
Proof.
  induction l as [|e l IH]; intros idx H; cbn [length seq mark_entries]; constructor.
  - left. exists e. split; [replace idx with (idx + 0) by lia; apply H; reflexivity|]. destruct (Nat.ltb_spec idx (ms_dec st)); auto.
  - apply IH. intros j x Hj. replace (S idx + j) with (idx + S j) by lia. apply H. exact Hj.
Qed.

Lemma read_piece s from to : readable s -> ms_comp (i_st s) <= from -> from <= to -> to <= ms_comp (i_st s) + length (ms_log (i_st s)) ->
  exists l, create_read_log_entries s from to = Some l /\ Forall2 (shown (i_st s)) (seq from (to - from)) l.
Proof.
  intros [R1 R2 R3 R4] H1 H2 H3. unfold create_read_log_entries, ms_get_entries, sub_chk. rewrite R4 in *.
  rewrite (proj2 (Nat.leb_le _ _) H1). destruct (Nat.leb_spec (ms_trim (i_st s)) to); [|lia].
  set (a := from - ms_trim (i_st s)). set (b := to - ms_trim (i_st s)).
  rewrite (slice_whole (ms_log (i_st s)) a b) by (unfold a, b; lia). eexists. split; [reflexivity|].
  assert (Hl : length (firstn (b - a) (skipn a (ms_log (i_st s)))) = to - from).
  { rewrite firstn_length, skipn_length. unfold a, b. lia. }
  rewrite R1, <- Hl. apply shown_marks. intros j e Hj.
  assert (Hs : slice_get (ms_log (i_st s)) a b = Some (firstn (b - a) (skipn a (ms_log (i_st s))))) by (apply slice_whole; unfold a, b; lia).
  destruct (slice_nth _ _ _ _ _ _ Hs Hj) as [N _]. split; [lia|]. replace (from + j - ms_trim (i_st s)) with (a + j) by (unfold a; lia). exact N.
Qed.

Lemma shown_stop s : readable s -> i_acc s = log_end (i_st s) -> forall ss, i_ss s = Some ss ->
  shown (i_st s) (ms_comp (i_st s) + length (ms_log (i_st s))) (LStopSign ss (stopsign_is_decided (i_ca s))).
Proof.
  intros [R1 R2 R3 R4] Ha ss Hss. right. exists ss, (stopsign_is_decided (i_ca s)). rewrite <- R3. repeat split; auto.
  - unfold stopsign_is_decided. fold (i_ss s). rewrite Hss. intros H. apply Nat.eqb_eq in H. fold (i_dec s) (i_acc s) in H. rewrite Ha in H.
    unfold log_end in H. rewrite <- R3, Hss in H. lia.
  - intros H. unfold stopsign_is_decided. fold (i_ss s). rewrite Hss. apply Nat.eqb_eq. fold (i_dec s) (i_acc s). rewrite Ha.
    unfold log_end. rewrite <- R3, Hss. lia.
Qed.

Lemma shown_comp s : readable s -> shown_compacted (i_st s) (create_compacted_entry s (i_comp s)).
Proof. intros [R1 R2 R3 R4]. unfold shown_compacted, create_compacted_entry. rewrite R2. destruct (ms_snap (i_st s)); reflexivity. Qed.

Lemma seq_one a : seq a 1 = [a].
Proof. reflexivity. Qed.

Lemma i_read_range s : readable s -> i_acc s = log_end (i_st s) -> forall lo hi,
  start_of lo < end_of (i_st s) hi ->
  (log_end (i_st s) < end_of (i_st s) hi -> i_read s lo hi = Some None) /\
  (end_of (i_st s) hi <= log_end (i_st s) ->
     exists l, i_read s lo hi = Some (Some l) /\ shown_range (i_st s) (start_of lo) (end_of (i_st s) hi) l).
Proof.
  intros HR Ha lo hi Hne. unfold i_read. fold (start_of lo). set (from := start_of lo) in *.
  replace (match hi with Included i => i + 1 | Excluded e => e | Unbounded => i_acc s end) with (end_of (i_st s) hi)
    by (destruct hi; cbn; auto).
  set (to := end_of (i_st s) hi) in *. clearbody from to. destruct (Nat.eqb_spec to 0); [lia|]. cbn zeta.
  pose proof (shown_comp _ HR) as HC. pose proof (shown_stop _ HR Ha) as HS.
  pose proof HR as [R1 R2 R3 R4]. rewrite Ha, R2. rewrite R2 in HC.
  set (st := i_st s) in *. set (len := length (ms_log st)) in *.
  assert (He : log_end st = ms_comp st + len + match i_ss s with Some _ => 1 | None => 0 end) by (unfold log_end; rewrite R3; reflexivity).
  split.
  - intros Hout. unfold get_entry_type. destruct (Nat.ltb_spec (to - 1) (ms_comp st)); [lia|].
    destruct (Nat.ltb_spec (to - 1 + 1) (log_end st)); [lia|]. destruct (Nat.eqb_spec (to - 1 + 1) (log_end st)); [lia|]. reflexivity.
  - intros Hin. destruct (Nat.ltb_spec (to - 1) (ms_comp st)) as [Hc|Hc].
    { unfold get_entry_type at 1. rewrite (proj2 (Nat.ltb_lt _ _) Hc). eexists. split; [reflexivity|].
      exists [create_compacted_entry s (ms_comp st)], []. split; [reflexivity|]. destruct (Nat.ltb_spec from (ms_comp st)); [|lia].
      split; [eauto|]. replace (to - Nat.max from (ms_comp st)) with 0 by lia. constructor. }
    assert (Hfc : forall r, from < ms_comp st -> Forall2 (shown st) (seq (ms_comp st) (to - ms_comp st)) r ->
      shown_range st from to (create_compacted_entry s (ms_comp st) :: r)).
    { intros r Hf F. exists [create_compacted_entry s (ms_comp st)], r. split; [reflexivity|]. rewrite (proj2 (Nat.ltb_lt _ _) Hf).
      split; [eauto|]. replace (Nat.max from (ms_comp st)) with (ms_comp st) by lia. auto. }
    assert (Hfn : forall r, ms_comp st <= from -> Forall2 (shown st) (seq from (to - from)) r -> shown_range st from to r).
    { intros r Hf F. exists [], r. split; [reflexivity|]. destruct (Nat.ltb_spec from (ms_comp st)); [lia|]. split; [reflexivity|].
      replace (Nat.max from (ms_comp st)) with from by lia. auto. }
    assert (Htype : get_entry_type s (to - 1) (ms_comp st) (log_end st) =
      match i_ss s with Some ss => if to =? log_end st then Some (IxStopSign ss) else Some IxEntry | None => Some IxEntry end).
    { unfold get_entry_type. destruct (Nat.ltb_spec (to - 1) (ms_comp st)); [lia|]. replace (to - 1 + 1) with to by lia.
      destruct (Nat.ltb_spec to (log_end st)), (Nat.eqb_spec to (log_end st)); try lia; destruct (i_ss s); reflexivity. }
    assert (Ftype : get_entry_type s from (ms_comp st) (log_end st) =
      if from <? ms_comp st then Some IxCompacted else
      match i_ss s with Some ss => if from + 1 =? log_end st then Some (IxStopSign ss) else Some IxEntry | None => Some IxEntry end).
    { unfold get_entry_type. destruct (Nat.ltb_spec from (ms_comp st)); [reflexivity|].
      destruct (Nat.ltb_spec (from + 1) (log_end st)), (Nat.eqb_spec (from + 1) (log_end st)); try lia; destruct (i_ss s); reflexivity. }
    assert (Hpiece : forall a b, ms_comp st <= a -> a <= b -> b <= ms_comp st + len ->
      exists l, create_read_log_entries s a b = Some l /\ Forall2 (shown st) (seq a (b - a)) l) by (intros; apply read_piece; auto).
    rewrite Htype, Ftype. destruct (i_ss s) as [ss|] eqn:Hss.
    + specialize (HS ss eq_refl). destruct (Nat.eqb_spec to (log_end st)) as [Ht|Ht].
      * assert (Htail : forall a l, ms_comp st <= a -> a <= ms_comp st + len -> Forall2 (shown st) (seq a (to - 1 - a)) l ->
          Forall2 (shown st) (seq a (to - a)) (l ++ [LStopSign ss (stopsign_is_decided (i_ca s))])).
        { intros a l A1 A2 F. replace (to - a) with ((to - 1 - a) + 1) by lia. rewrite seq_app. apply Forall2_app; auto.
          rewrite seq_one. replace (a + (to - 1 - a)) with (ms_comp st + len) by lia. constructor; auto. }
        destruct (Nat.ltb_spec from (ms_comp st)).
        -- destruct (Hpiece (ms_comp st) (to - 1)) as (l & -> & F); try lia. eexists. split; [reflexivity|]. apply Hfc; auto. apply Htail; auto; lia.
        -- destruct (Nat.eqb_spec (from + 1) (log_end st)).
           ++ eexists. split; [reflexivity|]. apply Hfn; auto. replace (to - from) with 1 by lia. rewrite seq_one.
              replace from with (ms_comp st + len) by lia. constructor; auto.
           ++ destruct (Hpiece from (to - 1)) as (l & -> & F); try lia. eexists. split; [reflexivity|]. apply Hfn; auto. apply Htail; auto; lia.
      * destruct (Nat.ltb_spec from (ms_comp st)).
        -- destruct (Hpiece (ms_comp st) to) as (l & -> & F); try lia. eexists. split; [reflexivity|]. apply Hfc; auto.
        -- destruct (Nat.eqb_spec (from + 1) (log_end st)); [lia|]. destruct (Hpiece from to) as (l & -> & F); try lia. eexists. split; [reflexivity|]. apply Hfn; auto.
    + destruct (Nat.ltb_spec from (ms_comp st)).
      * destruct (Hpiece (ms_comp st) to) as (l & -> & F); try lia. eexists. split; [reflexivity|]. apply Hfc; auto.
      * destruct (Hpiece from to) as (l & -> & F); try lia. eexists. split; [reflexivity|]. apply Hfn; auto.
Qed.

(** C21: [read_entries] of a non-empty range. *)
Theorem C21_read_entries :
  forall o, server_state o -> matched o -> forall lo hi, start_of lo < end_of (storage o) hi ->
  (log_end (storage o) < end_of (storage o) hi -> read_entries o lo hi = RNone) /\
  (end_of (storage o) hi <= log_end (storage o) ->
     exists l, read_entries o lo hi = RSome l /\ shown_range (storage o) (start_of lo) (end_of (storage o) hi) l).
Proof.
  intros o Ho Hm lo hi Hne. destruct (i_read_range _ (state_readable o Ho) Hm lo hi Hne) as [A B]. unfold read_entries, to_rr. split.
  - intros H. rewrite (A H). reflexivity.
  - intros H. destruct (B H) as (l & -> & S). eauto.
Qed.

(** C21: [read] of one index. *)
Theorem C21_read :
  forall o, server_state o -> matched o -> forall i,
  (log_end (storage o) <= i -> read o i = RNone) /\
  (i < ms_comp (storage o) -> exists x, read o i = RSome x /\ shown_compacted (storage o) x) /\
  (ms_comp (storage o) <= i < log_end (storage o) -> exists x, read o i = RSome x /\ shown (storage o) i x).
Proof.
  intros o Ho Hm i. destruct (i_read_range _ (state_readable o Ho) Hm (Included i) (Excluded (i + 1))) as [A B]; [cbn; lia|].
  cbn [start_of end_of] in *. fold (storage o) in *. unfold read.
  assert (Hlen : ms_comp (storage o) <= log_end (storage o)) by (unfold log_end; lia).
  split; [|split].
  - intros H. rewrite A by lia. reflexivity.
  - intros H. destruct B as (l & -> & c & r & -> & Hc & F); [lia|]. rewrite (proj2 (Nat.ltb_lt _ _) H) in Hc. destruct Hc as (x & -> & Hx).
    replace (i + 1 - Nat.max i (ms_comp (storage o))) with 0 in F by lia. inversion F; subst. exists x. split; [reflexivity|auto].
  - intros [H1 H2]. destruct B as (l & -> & c & r & -> & Hc & F); [lia|]. destruct (Nat.ltb_spec i (ms_comp (storage o))); [lia|]. subst c.
    replace (Nat.max i (ms_comp (storage o))) with i in F by lia. replace (i + 1 - i) with 1 in F by lia. rewrite seq_one in F.
    inversion F as [|? x ? r' Fx Fr]; subst. inversion Fr; subst. exists x. split; [reflexivity|auto].
Qed.

(** C21: [read_decided_suffix]: the range up to the decided index. *)
Theorem C21_read_decided_suffix :
  forall o, server_state o -> matched o -> get_decided_idx o <= log_end (storage o) -> forall from,
  (ms_dec (storage o) <= from -> read_decided_suffix o from = RNone) /\
  (from < ms_dec (storage o) ->
     exists l, read_decided_suffix o from = RSome l /\ shown_range (storage o) from (ms_dec (storage o)) l).
Proof.
  intros o Ho Hm Hd from. pose proof (state_readable o Ho) as HR. unfold read_decided_suffix, i_read_decided_suffix, get_decided_idx in *.
  rewrite (rd_dec _ HR) in *. fold (storage o) in *. split; intros H.
  - destruct (Nat.ltb_spec from (ms_dec (storage o))); [lia|]. reflexivity.
  - rewrite (proj2 (Nat.ltb_lt _ _) H). destruct (i_read_range _ HR Hm (Included from) (Excluded (ms_dec (storage o)))) as [_ B]; [exact H|].
    cbn [start_of end_of] in B. destruct (B Hd) as (l & -> & S). exists l. split; [reflexivity|exact S].
Qed.

(** Every server of a cluster (under H1 and H2) that holds no stop sign is in
    such a state; so is every server right after its construction from a storage. *)
Theorem C21_matched_in_clusters :
  forall cc scs, good_config cc scs ->
  forall l, all_steps h1h2 cc (init_sys cc scs) l -> forall s, reaches cc scs l s ->
  forall p o, nodes s p = Some o -> ms_ss (storage o) = None ->
    matched o /\ get_decided_idx o <= log_end (storage o).
Proof.
  intros cc scs Hg l Hh s R p o N Hss. pose proof (cluster_server_state _ _ _ _ _ _ R N) as Ho. destruct (C41_decided_le_accepted cc scs Hg l Hh s R p o N Hss) as [A B].
  pose proof (rd_trim _ (state_readable o Ho)) as Ht. unfold matched, log_end. rewrite Hss. fold (storage o) in *. rewrite B in *. rewrite Ht. lia.
Qed.

Theorem C21_matched_after_build :
  forall cc sc st o, build cc sc st = BOk o -> matched o.
Proof.
  intros cc sc st o H. unfold matched, storage. unfold build in H. destruct (config_validate cc sc); [|discriminate].
  unfold sp_with in H. destruct (peers_of cc (sc_pid sc)); [discriminate|]. destruct (ms_prom st); injection H as <-; cbn; unfold log_end, ms_log_len; cbn;
    destruct (ms_ss st); lia.
Qed.

(** C22, the part that holds: the empty range [k..k] panics in one situation only, namely when
    [k] is the index of the stop sign and the index before it is not compacted. *)
Theorem C22_empty_range_panics_iff_partial :
  forall o, server_state o -> forall k,
  read_entries o (Included k) (Excluded k) = RPanic <->
  (ms_ss (storage o) <> None /\ k + 1 = i_acc (s_is (o_sp o)) /\ ms_comp (storage o) < k).
Proof.
  intros o Ho k. destruct (state_readable o Ho) as [R1 R2 R3 R4]. unfold read_entries, storage, i_read. cbn zeta.
  set (s := s_is (o_sp o)) in *. rewrite <- R3, <- R2. rewrite <- R2 in R4. clear R1 R2 R3. clearbody s. clear Ho.
  destruct (Nat.eqb_spec k 0); [subst; cbn; split; [discriminate|lia]|].
  assert (Hok : i_comp s <= k -> exists l, create_read_log_entries s k k = Some l).
  { intros H. unfold create_read_log_entries, ms_get_entries, sub_chk. destruct (Nat.leb_spec (ms_trim (i_st s)) k); [|lia]. eauto. }
  unfold get_entry_type. destruct (Nat.ltb_spec (k - 1) (i_comp s)); [cbn; split; [discriminate|lia]|].
  replace (k - 1 + 1) with k by lia. destruct (Nat.ltb_spec k (i_acc s)).
  - destruct (Nat.ltb_spec k (i_comp s)); [lia|]. destruct (Nat.ltb_spec (k + 1) (i_acc s)).
    + destruct Hok as (l & ->); [lia|]. cbn. split; [discriminate|lia].
    + destruct (Nat.eqb_spec (k + 1) (i_acc s)); [|lia]. destruct (i_ss s) as [ss|] eqn:Hss.
      * cbn. split; auto. intros _. split; [discriminate|lia].
      * destruct Hok as (l & ->); [lia|]. cbn. split; [discriminate|]. intros [H' _]. congruence.
  - destruct (Nat.eqb_spec k (i_acc s)); [|cbn; split; [discriminate|lia]].
    destruct (Nat.ltb_spec k (i_comp s)); [lia|]. destruct (Nat.ltb_spec (k + 1) (i_acc s)); [lia|]. destruct (Nat.eqb_spec (k + 1) (i_acc s)); [lia|].
    destruct (i_ss s); cbn; split; try discriminate; lia.
Qed.

End WithEntry.

(** ** Concrete cases *)
Section Case.
Local Existing Instance plain.

(** Server 1 holds 4 entries, two of them trimmed, and a decided stop sign. *)
Example C21_case :
  (exists o, nodes sys_case3 1 = Some o /\ server_state o /\ matched o /\ get_decided_idx o <= log_end (storage o)) /\
  obs sys_case3 1 (fun o => (ms_comp (storage o), log_end (storage o))) = Some (2, 5) /\
  obs sys_case3 1 (fun o => map (fun r => read_entries o (Included (fst r)) (Excluded (snd r))) [(0, 1); (0, 3); (2, 4); (3, 5); (4, 5); (3, 6)]) =
    Some [RSome [LTrimmed 2]; RSome [LTrimmed 2; LDecided 13]; RSome [LDecided 13; LDecided 14];
          RSome [LDecided 14; LStopSign (mkSS cc_next None) true]; RSome [LStopSign (mkSS cc_next None) true]; RNone].
Proof.
  split; [|vm_compute; auto].
  assert (W : exists o, nodes sys_case3 1 = Some o /\ (i_acc (s_is (o_sp o)) =? log_end (storage o)) && (get_decided_idx o <=? log_end (storage o)) = true).
  { eexists. split; [vm_compute; reflexivity|vm_compute; reflexivity]. }
  destruct W as (o & N & T). apply andb_true_iff in T. destruct T as [T1 T2]. exists o. split; [exact N|].
  split; [exact (cluster_server_state _ _ _ _ 1 o case_reach3 N)|]. split; [apply Nat.eqb_eq; exact T1|apply Nat.leb_le; exact T2].
Qed.
(** At the index 4 of the stop sign the empty range panics, elsewhere not. *)
Example C22_case :
  obs sys_case3 1 (fun o => map (fun k => read_entries o (Included k) (Excluded k)) [0; 1; 3; 4; 5; 6]) =
    Some [RNone; RSome [LTrimmed 2]; RSome []; RPanic; RNone; RNone].
Proof. vm_compute. reflexivity. Qed.
End Case.

Print Assumptions C21_read_entries.
Print Assumptions C21_read.
Print Assumptions C21_read_decided_suffix.
Print Assumptions C21_matched_in_clusters.
Print Assumptions C21_matched_after_build.
Print Assumptions C22_empty_range_panics_iff_partial.
