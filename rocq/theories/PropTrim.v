(** * C23, C24, C37: trim at one server, validation of configurations *)
From Coq Require Import List Arith Bool Lia.
Import ListNotations.
From Verif Require Import Types Config MemStore Internal LeaderState SeqPaxos Ble Omni System Basics Scen Spec Refute PropAgreement Local Frame PropLocal PropCalls.

Section WithEntry.
Context {E : EntryT}.

(** ** C23 *)

Lemma oc_refl st : only_compacted st st.
Proof. split; [auto|]. split; [tauto|]. auto. Qed.
Lemma nth_skipn {A} (l : list A) a j : nth_error (skipn a l) j = nth_error l (a + j).
Proof. revert l. induction a as [|a IH]; intros l; [reflexivity|]. destruct l; cbn; [destruct j; reflexivity|apply IH]. Qed.
Lemma oc_write st m new ops : ms_comp st = ms_trim st -> ms_comp st < new ->
  (ops = [OpTrim new; OpSetComp new] \/ exists sn, ops = [OpTrim new; OpSetComp new; OpSetSnapshot sn]) ->
  ms_write st ops = Some m -> only_compacted st m /\ ms_comp m = new /\ ms_trim m = new.
Proof.
  intros Hc Hn Ho Hw.
  assert (W : exists sn, m = mkMS (skipn (Nat.min (new - ms_trim st) (length (ms_log st))) (ms_log st)) (ms_prom st) (ms_around st) (ms_dec st) new new sn (ms_ss st)).
  { unfold sub_chk in *. destruct Ho as [->|[sn ->]]; cbn in Hw; unfold ms_do_trim, sub_chk in Hw; destruct (Nat.leb_spec (ms_trim st) new); try lia; cbn in Hw; injection Hw as <-; eexists; reflexivity. }
  destruct W as [sn ->]. cbn. split; [|auto]. split; [cbn; lia|]. split; [|cbn; auto]. cbn [ms_comp]. intros i e Hi. unfold stored. cbn [ms_trim ms_log].
  rewrite nth_skipn. set (len := length (ms_log st)) in *. destruct (Nat.le_gt_cases (new - ms_trim st) len).
  - rewrite Nat.min_l by lia. replace (new - ms_trim st + (i - new)) with (i - ms_trim st) by lia. split; intros [? ?]; split; auto; lia.
  - rewrite Nat.min_r by lia. assert (N1 : nth_error (ms_log st) (len + (i - new)) = None) by (apply nth_error_None; fold len; lia).
    assert (N2 : nth_error (ms_log st) (i - ms_trim st) = None) by (apply nth_error_None; fold len; lia). rewrite N1, N2. split; intros [_ X]; discriminate X.
Qed.

(** What [try_trim] does. *)
Lemma trim_cases s i s' r : ms_comp (i_st s) = ms_trim (i_st s) -> c_comp (i_ca s) = ms_comp (i_st s) -> try_trim s i = Ok (s', r) ->
  match r with
  | Some e => s' = s /\ i_dec s < i /\ e = UndecidedIndex (i_dec s)
  | None => i <= i_dec s /\ only_compacted (i_st s) (i_st s') /\ c_batch (i_ca s') = c_batch (i_ca s) /\ i_acc s' = i_acc s /\ i_dec s' = i_dec s /\ i_ss s' = i_ss s /\
            i_prom s' = i_prom s /\ i_around s' = i_around s /\
            i_comp s' = Nat.max (i_comp s) (if (i =? i_dec s) && stopsign_is_decided (i_ca s) then i - 1 else i) /\ i_comp s' = ms_comp (i_st s')
  end.
Proof.
  intros H1 H2. unfold try_trim. destruct (dec_without_ss s) as [ld|] eqn:Hd; [|discriminate].
  assert (Main : forall new, i <= i_dec s -> new = (if (i =? i_dec s) && stopsign_is_decided (i_ca s) then i - 1 else i) -> (if i_comp s <? new then
          m <- ilift s (ms_write (i_st s) [OpTrim new; OpSetComp new]) ;;
          let s := put_st s m in Ok (set_ca s (c_set_comp (i_ca s) new), None : option compaction_err) else Ok (s, None)) = Ok (s', r) ->
    match r with
  | Some e => s' = s /\ i_dec s < i /\ e = UndecidedIndex (i_dec s)
  | None => i <= i_dec s /\ only_compacted (i_st s) (i_st s') /\ c_batch (i_ca s') = c_batch (i_ca s) /\ i_acc s' = i_acc s /\ i_dec s' = i_dec s /\ i_ss s' = i_ss s /\
            i_prom s' = i_prom s /\ i_around s' = i_around s /\
            i_comp s' = Nat.max (i_comp s) (if (i =? i_dec s) && stopsign_is_decided (i_ca s) then i - 1 else i) /\ i_comp s' = ms_comp (i_st s')
  end).
  { intros new Hle <-. destruct (Nat.ltb_spec (i_comp s) new).
    - unfold ilift. destruct (ms_write _ _) as [m|] eqn:Hw; [|discriminate]. cbn [bind]. intros X. injection X as <- <-.
      assert (Hn : ms_comp (i_st s) < new) by (unfold i_comp in *; lia). destruct (oc_write _ _ _ _ H1 Hn (or_introl eq_refl) Hw) as (O1 & O2 & O3).
      split; [auto|]. split; [exact O1|]. cbn. unfold i_comp in *. cbn. rewrite O2. repeat split; auto. lia.
    - intros X. injection X as <- <-. split; [auto|]. split; [apply oc_refl|]. unfold i_comp in *. repeat split; auto. lia. }
  unfold dec_without_ss in Hd. destruct (Nat.compare_spec i (i_dec s)) as [X|X|X].
  - apply Main; [lia|]. subst i. rewrite Nat.eqb_refl. cbn [andb]. destruct (stopsign_is_decided _); [|congruence]. unfold sub_chk in Hd. destruct (1 <=? i_dec s); congruence.
  - apply Main; [lia|]. destruct (Nat.eqb_spec i (i_dec s)); [lia|reflexivity].
  - intros Y. injection Y as <- <-. auto.
Qed.

(** [trim] at a server that does not lead. *)
Theorem C23_trim_not_leader :
  forall o i, fst (role_of o) <> Leader ->
  exists o', exec o (CTrim i) = Ok (o', RCompact (Some (NotCurrentLeader (b_pid (get_promise o))))) /\ same_state o o'.
Proof.
  intros o i H. unfold role_of in H. cbn [fst] in H. unfold exec. cbn [exec_call]. unfold sp_trim. change (s_role (o_sp (start_call o))) with (s_role (o_sp o)).
  destruct (s_role (o_sp o)); [|congruence]. eexists. split; [reflexivity|]. unfold same_state. destruct o; reflexivity.
Qed.

Lemma min_all l m x : fold_left Nat.min l m <= m /\ (In x l -> fold_left Nat.min l m <= x).
Proof. revert m. induction l as [|y l IH]; cbn; intros m; [split; [lia|tauto]|]. destruct (IH (Nat.min m y)) as [H1 H2]. split; [lia|]. intros [->|Hx]; auto. lia. Qed.
Lemma min_ge l : forall m k, k <= m -> (forall x, In x l -> k <= x) -> k <= fold_left Nat.min l m.
Proof. induction l as [|y l IH]; cbn; intros m k Hm Hl; auto. apply IH; auto. specialize (Hl y (or_introl eq_refl)). lia. Qed.

(** A successful [trim] happens at a leader, only up to an index that is decided there and that
    all servers of the cluster acknowledged.  The requested index is the new compacted index
    unless it is not larger than the old one (and the index of a decided stop sign is kept). *)
Theorem C23_trim_success :
  forall o i o', server_state o -> exec o (CTrim i) = Ok (o', RCompact None) ->
  fst (role_of o) = Leader /\
  exists k, match i with Some i => k = i | None => True end /\
    k <= get_decided_idx o /\ (forall p, member o p -> 1 <= p -> acknowledged o p k) /\
    get_compacted_idx o' = Nat.max (get_compacted_idx o) (if (k =? get_decided_idx o) && stopsign_is_decided (i_ca (s_is (o_sp o))) then k - 1 else k).
Proof.
  intros o i o' Hs He. pose proof (own_state _ Hs) as Hl. pose proof (framed_state _ Hs) as (Hf & Hp & Hps).
  pose proof (lc_is _ _ _ _ Hl) as Hi. destruct (il_st _ _ _ Hi) as (_ & _ & Ht). pose proof (h_comp _ (il_coh _ _ _ Hi)) as Hc.
  unfold exec in He. cbn [exec_call] in He. unfold sp_trim in He. fold (rest o) in He. change (s_role (rest o)) with (fst (role_of o)) in He. destruct (fst (role_of o)); [discriminate|]. split; [reflexivity|].
  assert (La : length (l_accs (s_ls (o_sp o))) = maxpid o) by apply (lv_accs _ _ _ (fr_ls _ _ _ _ _ Hf)).
  unfold get_min_all_accepted_idx in He. change (s_ls (rest o)) with (s_ls (o_sp o)) in He. destruct (l_accs (s_ls (o_sp o))) as [|a0 ar] eqn:Ha; [discriminate|]. cbn [lift bind] in He.
  set (mn := fold_left Nat.min ar a0) in *.
  assert (Hack : forall k p, k <= mn -> member o p -> 1 <= p -> acknowledged o p k).
  { intros k p Hk Hm H1. assert (Hlt : p - 1 < length (l_accs (s_ls (o_sp o)))). { rewrite Ha, La. destruct Hm as [->|Hm]; [unfold own_pid; lia|]. rewrite Forall_forall in Hps. destruct (Hps _ Hm). lia. }
    destruct (nth_error (l_accs (s_ls (o_sp o))) (p - 1)) as [a|] eqn:Hn; [|apply nth_error_None in Hn; lia]. exists a. split; [exact Hn|]. apply nth_error_In in Hn. rewrite Ha in Hn.
    destruct (min_all ar a0 a) as [M1 M2]. fold mn in M1, M2. destruct Hn as [->|Hn]; [lia|]. specialize (M2 Hn). lia. }
  assert (Main : forall k, k <= mn -> match i with Some i => k = i | None => True end -> ('(s, r) <- ('(is, r) <- try_trim (s_is (rest o)) k ;; match r with None => Ok (push_all (set_is (rest o) is) (s_peers (set_is (rest o) is)) (MCompaction (CmpTrim k)), None) | Some e => Ok (set_is (rest o) is, Some e) end) ;; Ok (set_sp (start_call o) s, RCompact r)) = Ok (o', RCompact None) ->
    exists k, match i with Some i => k = i | None => True end /\ k <= get_decided_idx o /\ (forall p, member o p -> 1 <= p -> acknowledged o p k) /\
    get_compacted_idx o' = Nat.max (get_compacted_idx o) (if (k =? get_decided_idx o) && stopsign_is_decided (i_ca (s_is (o_sp o))) then k - 1 else k)).
  { intros k Hk Hik. destruct (try_trim (s_is (rest o)) k) as [[is r]|] eqn:Htr; [|discriminate]. cbn [bind]. pose proof (trim_cases _ _ _ _ Ht Hc Htr) as C. destruct r as [e|]; [discriminate|]. cbn [bind].
    intros X. injection X as <-. destruct C as (C1 & _ & _ & _ & _ & _ & _ & _ & C2 & _). exists k. split; [auto|]. split; [exact C1|]. split; [auto|].
    assert (Hp2 : forall m l s, s_is (push_all s l m) = s_is s). { intros m l. unfold push_all. induction l as [|p l IH]; cbn; intros s; auto. apply (IH (push s p m)). }
    unfold get_compacted_idx at 1. cbn [o_sp set_sp]. rewrite Hp2. exact C2. }
  destruct i as [i|]; [|eapply Main; [reflexivity|exact I|exact He]]. destruct (Nat.leb_spec i mn) as [H1|H1]; [|discriminate]. eapply Main; [exact H1|reflexivity|exact He].
Qed.

(** In every case, and also when the request of a leader arrives, nothing but entries below the
    compacted index is removed, and an error means that nothing happened. *)
Definition trim_request (o : omni) (c : call) : Prop :=
  (exists i, c = CTrim i) \/ exists from to i, c = CHandle (MsgSP (mkPM from to (MCompaction (CmpTrim i)))).
Theorem C23_trim_keeps_the_rest :
  forall o c o' r, server_state o -> trim_request o c -> exec o c = Ok (o', r) ->
  only_compacted (storage o) (storage o') /\ get_compacted_idx o <= get_compacted_idx o' /\ get_compacted_idx o' = ms_comp (storage o') /\
  get_decided_idx o' = get_decided_idx o /\ get_promise o' = get_promise o /\ role_of o' = role_of o /\
  (forall e, r = RCompact (Some e) -> same_state o o').
Proof.
  intros o c o' r Hs Hc He. pose proof (own_state _ Hs) as Hl. pose proof (lc_is _ _ _ _ Hl) as Hi. destruct (il_st _ _ _ Hi) as (_ & _ & Ht). pose proof (h_comp _ (il_coh _ _ _ Hi)) as Hcm.
  assert (Hp2 : forall m l s, s_is (push_all s l m) = s_is s /\ s_role (push_all s l m) = s_role s /\ s_phase (push_all s l m) = s_phase s).
  { intros m l. unfold push_all. induction l as [|p l IH]; cbn; intros s; auto. apply (IH (push s p m)). }
  assert (Hsame : forall s0, s0 = rest o -> (only_compacted (storage o) (i_st (s_is s0)) /\ i_comp (s_is (o_sp o)) <= i_comp (s_is s0) /\ i_comp (s_is s0) = ms_comp (i_st (s_is s0)) /\
     i_dec (s_is s0) = i_dec (s_is (o_sp o)) /\ i_prom (s_is s0) = i_prom (s_is (o_sp o)))) .
  { intros s0 ->. split; [apply oc_refl|]. split; [apply Nat.le_refl|]. split; [exact Hcm|]. auto. }
  assert (Htr : forall k is x, try_trim (s_is (rest o)) k = Ok (is, x) -> (only_compacted (storage o) (i_st is) /\ i_comp (s_is (o_sp o)) <= i_comp is /\ i_comp is = ms_comp (i_st is) /\
     i_dec is = i_dec (s_is (o_sp o)) /\ i_prom is = i_prom (s_is (o_sp o))) /\ (x <> None -> is = s_is (rest o))).
  { intros k is x Hk. pose proof (trim_cases _ _ _ _ Ht Hcm Hk) as C. destruct x as [e|].
    - destruct C as (-> & _). split; [|auto]. split; [apply oc_refl|]. split; [apply Nat.le_refl|]. split; [exact Hcm|]. auto.
    - destruct C as (C1 & C2 & C3 & C4 & C5 & C6 & C7 & C8 & C9 & C10). split; [|congruence]. split; [exact C2|]. split; [|auto]. change (i_comp (s_is (o_sp o))) with (i_comp (s_is (rest o))). lia. }
  destruct Hc as [[i ->]|(from & to & i & ->)].
  - unfold exec in He. cbn [exec_call] in He. unfold sp_trim in He. fold (rest o) in He. change (s_role (rest o)) with (s_role (o_sp o)) in He. destruct (s_role (o_sp o)) eqn:Hr.
    + injection He as <- <-. destruct (Hsame (rest o) eq_refl) as (S1 & S2 & S3 & S4 & S5). split; [exact S1|]. split; [exact S2|]. split; [exact S3|]. split; [exact S4|]. split; [exact S5|]. split; [reflexivity|]. intros e _. destruct o; reflexivity.
    + destruct (get_min_all_accepted_idx _) as [mn|]; cbn [lift bind] in He; [|discriminate].
      assert (Main : forall k, ('(s, r) <- ('(is, r) <- try_trim (s_is (rest o)) k ;; match r with None => Ok (push_all (set_is (rest o) is) (s_peers (set_is (rest o) is)) (MCompaction (CmpTrim k)), None) | Some e => Ok (set_is (rest o) is, Some e) end) ;; Ok (set_sp (start_call o) s, RCompact r)) = Ok (o', r) ->
        only_compacted (storage o) (storage o') /\ get_compacted_idx o <= get_compacted_idx o' /\ get_compacted_idx o' = ms_comp (storage o') /\
        get_decided_idx o' = get_decided_idx o /\ get_promise o' = get_promise o /\ role_of o' = role_of o /\ (forall e, r = RCompact (Some e) -> same_state o o')).
      { intros k. destruct (try_trim (s_is (rest o)) k) as [[is x]|] eqn:Hk; [|discriminate]. destruct (Htr _ _ _ Hk) as [(S1 & S2 & S3 & S4 & S5) S6]. cbn [bind]. destruct x as [e|]; intros X; injection X as <- <-.
        - assert (Hx : is = s_is (rest o)) by (apply S6; discriminate). split; [exact S1|]. split; [exact S2|]. split; [exact S3|]. split; [exact S4|]. split; [exact S5|]. split; [reflexivity|]. intros e0 _. subst is. destruct o as [s ? ? ? ?]; destruct s; reflexivity.
        - destruct (Hp2 (MCompaction (CmpTrim k)) (s_peers (o_sp o)) (set_is (rest o) is)) as (P1 & P2 & P3). unfold storage, get_compacted_idx, get_decided_idx, get_promise, role_of in *. cbn [o_sp set_sp]. rewrite P1, P2, P3.
          split; [exact S1|]. split; [exact S2|]. split; [exact S3|]. split; [exact S4|]. split; [exact S5|]. split; [reflexivity|]. discriminate. }
      destruct i as [i|]; [|apply (Main mn); exact He]. destruct (i <=? mn); [apply (Main i); exact He|]. injection He as <- <-.
      destruct (Hsame (rest o) eq_refl) as (S1 & S2 & S3 & S4 & S5). split; [exact S1|]. split; [exact S2|]. split; [exact S3|]. split; [exact S4|]. split; [exact S5|]. split; [reflexivity|]. intros e _. destruct o; reflexivity.
  - unfold exec in He. cbn [exec_call handle_incoming sp_handle pm_msg handle_compaction] in He. fold (rest o) in He. destruct (try_trim (s_is (rest o)) i) as [[is x]|] eqn:Hk; [|discriminate]. cbn [bind] in He. injection He as <- <-.
    destruct (Htr _ _ _ Hk) as [(S1 & S2 & S3 & S4 & S5) _]. split; [exact S1|]. split; [exact S2|]. split; [exact S3|]. split; [exact S4|]. split; [exact S5|]. split; [reflexivity|]. discriminate.
Qed.

(** ** C24 *)

(** For pids without gaps: every pid up to the largest one is a server of the cluster. *)
Theorem C24_trim_contiguous_pids_partial :
  forall o k, server_state o -> fst (role_of o) = Leader ->
  (forall p, 1 <= p <= maxpid o -> member o p) ->
  0 < k -> k <= get_decided_idx o -> (forall p, member o p -> 1 <= p -> acknowledged o p k) ->
  exists o', exec o (CTrim (Some k)) = Ok (o', RCompact None).
Proof.
  intros o k Hs Hr Hgap H0 Hd Hack. pose proof (own_state _ Hs) as Hl. pose proof (framed_state _ Hs) as (Hf & Hp & Hps).
  pose proof (lc_is _ _ _ _ Hl) as Hi. destruct (il_st _ _ _ Hi) as (_ & _ & Ht). pose proof (h_comp _ (il_coh _ _ _ Hi)) as Hc.
  unfold exec. cbn [exec_call]. unfold sp_trim. fold (rest o). change (s_role (rest o)) with (fst (role_of o)). rewrite Hr.
  assert (La : length (l_accs (s_ls (o_sp o))) = maxpid o) by apply (lv_accs _ _ _ (fr_ls _ _ _ _ _ Hf)).
  unfold get_min_all_accepted_idx. change (s_ls (rest o)) with (s_ls (o_sp o)).
  assert (Hall : forall x, In x (l_accs (s_ls (o_sp o))) -> k <= x).
  { intros x Hx. apply In_nth_error in Hx. destruct Hx as [j Hj]. assert (j < maxpid o) by (rewrite <- La; apply nth_error_Some; congruence).
    destruct (Hack (j + 1)) as (a & A1 & A2); [apply Hgap; lia|lia|]. replace (j + 1 - 1) with j in A1 by lia. congruence. }
  destruct (l_accs (s_ls (o_sp o))) as [|a0 ar]; [cbn in La; lia|]. cbn [lift bind].
  assert (Hmn : k <= fold_left Nat.min ar a0) by (apply min_ge; [apply Hall; left; auto|intros; apply Hall; right; auto]). apply Nat.leb_le in Hmn. rewrite Hmn.
  assert (Main : exists is, try_trim (s_is (rest o)) k = Ok (is, None)).
  { unfold try_trim. change (i_dec (s_is (rest o))) with (get_decided_idx o).
    assert (Hdw : exists d, dec_without_ss (s_is (rest o)) = Some d). { unfold dec_without_ss. change (i_dec (s_is (rest o))) with (get_decided_idx o). destruct (stopsign_is_decided _); [|eauto]. unfold sub_chk. destruct (Nat.leb_spec 1 (get_decided_idx o)); [eauto|lia]. }
    destruct Hdw as [d ->].
    assert (Go : forall new, exists is, (if i_comp (s_is (rest o)) <? new then
          m <- ilift (s_is (rest o)) (ms_write (i_st (s_is (rest o))) [OpTrim new; OpSetComp new]) ;;
          let s := put_st (s_is (rest o)) m in Ok (set_ca s (c_set_comp (i_ca s) new), None : option compaction_err) else Ok (s_is (rest o), None)) = Ok (is, None)).
    { intros new. destruct (Nat.ltb_spec (i_comp (s_is (rest o))) new); [|eauto]. cbn [ms_write ms_op]. unfold ms_do_trim, sub_chk. unfold i_comp in *. destruct (Nat.leb_spec (ms_trim (i_st (s_is (rest o)))) new); [|lia]. eexists. reflexivity. }
    destruct (Nat.compare_spec k (get_decided_idx o)); [apply Go|apply Go|lia]. }
  destruct Main as [is ->]. cbn [bind]. eauto.
Qed.

(** ** C37 *)

(** The documented conditions: at least two nodes, a configuration id, and flexible quorums that
    lie in 2..number of nodes, overlap, and have a read quorum at least as large as the write quorum. *)
Theorem C37_validate_iff_safe :
  forall c, cluster_validate c = true <->
  2 <= length (cc_nodes c) /\ cc_id c <> 0 /\
  (forall f, cc_flex c = Some f ->
     length (cc_nodes c) < fq_read f + fq_write f /\ 2 <= fq_read f <= length (cc_nodes c) /\ 2 <= fq_write f <= length (cc_nodes c) /\ fq_write f <= fq_read f).
Proof.
  intros c. unfold cluster_validate. rewrite !andb_true_iff, negb_true_iff, Nat.eqb_neq, Nat.ltb_lt. destruct (cc_flex c) as [f|].
  - rewrite !andb_true_iff, !Nat.leb_le, Nat.ltb_lt. split.
    + intros [[H1 H2] H3]. split; [lia|]. split; [auto|]. intros f0 X. injection X as <-. lia.
    + intros (H1 & H2 & H3). specialize (H3 f eq_refl). repeat split; try lia; auto.
  - split; [intros [[H1 H2] _]; split; [lia|]; split; [auto|discriminate]|intros (H1 & H2 & _); split; auto].
Qed.
(** [build] returns an error exactly if one of the documented conditions on the cluster and on the
    server fails, whatever is in the storage. *)
Theorem C37_build_rejects_iff :
  forall cc sc st, build cc sc st = BErr <->
  ~ (2 <= length (cc_nodes cc) /\ cc_id cc <> 0 /\
     (forall f, cc_flex cc = Some f ->
        length (cc_nodes cc) < fq_read f + fq_write f /\ 2 <= fq_read f <= length (cc_nodes cc) /\ 2 <= fq_write f <= length (cc_nodes cc) /\ fq_write f <= fq_read f) /\
     sc_pid sc <> 0 /\ sc_buffer sc <> 0 /\ sc_batch sc <> 0 /\ sc_election sc <> 0 /\ sc_resend sc <> 0 /\
     In (sc_pid sc) (cc_nodes cc)).
Proof.
  intros cc sc st. assert (H : build cc sc st = BErr <-> config_validate cc sc = false).
  { unfold build. destruct (config_validate cc sc); [|tauto]. split; [|discriminate]. destruct (sp_with _ _ _ _ _); discriminate. }
  assert (He : existsb (Nat.eqb (sc_pid sc)) (cc_nodes cc) = true <-> In (sc_pid sc) (cc_nodes cc)).
  { rewrite existsb_exists. split; [intros (x & Hx & Hq); apply Nat.eqb_eq in Hq; congruence|intros Hi; exists (sc_pid sc); split; [exact Hi|apply Nat.eqb_refl]]. }
  rewrite H, <- not_true_iff_false. unfold config_validate, server_validate. rewrite !andb_true_iff, !negb_true_iff, !Nat.eqb_neq, C37_validate_iff_safe, He. tauto.
Qed.
(** A validated configuration without repeated node ids can be built at each of its nodes with an
    empty storage. *)
Theorem C37_validated_builds_partial :
  forall cc sc, NoDup (cc_nodes cc) -> config_validate cc sc = true -> exists o, build cc sc ms_default = BOk o.
Proof.
  intros cc sc Hnd Hv. unfold build. rewrite Hv. unfold config_validate, cluster_validate in Hv. rewrite !andb_true_iff in Hv. destruct Hv as [[[[Hn _] _] _] He]. apply Nat.ltb_lt in Hn.
  unfold sp_with. assert (Hp : peers_of cc (sc_pid sc) <> []).
  { unfold peers_of. destruct (cc_nodes cc) as [|a [|b l]]; cbn in Hn; try lia. inversion Hnd as [|x y Hx Hy]; subst. cbn. destruct (Nat.eqb_spec a (sc_pid sc)) as [->|]; [|discriminate]. cbn. destruct (Nat.eqb_spec b (sc_pid sc)) as [->|]; [exfalso; apply Hx; left; auto|discriminate]. }
  destruct (peers_of cc (sc_pid sc)) as [|p0 pr]; [congruence|]. cbn. eauto.
Qed.
End WithEntry.

(** ** Concrete cases *)
Section Case.
Local Existing Instance plain.

(** Server 2 leads, has decided 4 entries and a stop sign and is compacted up to 2; server 1 follows. *)
Definition after_trim (o : omni) (c : call) :=
  match exec o c with
  | Ok (o', r) => Some (r, get_compacted_idx o', ms_log (storage o'))
  | Panic _ => None
  end.
Example C23_case :
  obs sys_case3 2 (fun o => (role_of o, get_decided_idx o, get_compacted_idx o, l_accs (s_ls (o_sp o)), ms_log (storage o))) =
    Some ((Leader, PhAccept), 5, 2, [5; 5; 5], [13; 14]) /\
  obs sys_case3 2 (fun o => map (fun i => after_trim o (CTrim i)) [Some 1; Some 3; Some 5; Some 6; None]) =
    Some [Some (RCompact None, 2, [13; 14]); Some (RCompact None, 3, [14]); Some (RCompact None, 4, []);
          Some (RCompact (Some (NotAllDecided 5)), 2, [13; 14]); Some (RCompact None, 4, [])] /\
  obs sys_case3 1 (fun o => map (fun c => after_trim o c) [CTrim (Some 3); CHandle (MsgSP (mkPM 2 1 (MCompaction (CmpTrim 3))))]) =
    Some [Some (RCompact (Some (NotCurrentLeader 2)), 2, [13; 14]); Some (RUnit, 3, [14])].
Proof. vm_compute. auto. Qed.
Example C24_case : obs sys_case3 2 (fun o => (maxpid o, own_pid o, s_peers (o_sp o))) = Some (3, 2, [1; 3]).
Proof. vm_compute. reflexivity. Qed.
Example C37_case :
  cluster_validate (mkCC 1 [1; 2; 3; 4; 5] (Some (mkFlex 4 2))) = true /\ cluster_validate (mkCC 1 [1; 2; 3; 4; 5] (Some (mkFlex 3 2))) = false /\
  config_validate cc3 (scs 1) = true /\
  map (fun sc => match build cc3 sc ms_default with BErr => false | _ => true end)
    [mkSC 1 50 1 10 1 20 0; mkSC 0 50 1 10 1 20 0; mkSC 1 0 1 10 1 20 0; mkSC 1 50 0 10 1 20 0; mkSC 1 50 1 0 1 20 0; mkSC 1 50 1 10 0 20 0; mkSC 1 50 1 10 1 0 0; mkSC 4 50 1 10 1 20 0] =
    [true; false; false; false; false; false; true; false] /\
  NoDup (cc_nodes cc3).
Proof. split; [reflexivity|]. split; [reflexivity|]. split; [reflexivity|]. split; [vm_compute; reflexivity|]. repeat constructor; cbn; lia. Qed.
End Case.

Print Assumptions C23_trim_not_leader.
Print Assumptions C23_trim_success.
Print Assumptions C23_trim_keeps_the_rest.
Print Assumptions C24_trim_contiguous_pids_partial.
Print Assumptions C37_validate_iff_safe.
Print Assumptions C37_build_rejects_iff.
Print Assumptions C37_validated_builds_partial.
