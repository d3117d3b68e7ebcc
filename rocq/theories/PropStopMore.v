(** * C08, C39, C40: what holds about stop signs where the full claims fail *)
From Coq Require Import List Arith Bool Lia.
Import ListNotations.
From Verif Require Import Types Config MemStore Internal LeaderState SeqPaxos Ble Omni System Basics Scen Spec Refute Ghost GhostOps Inv Op RecvOps LeadLinks SysInv Reads Agree PropAgreement Local Frame PropLocal PropCalls NoPanic PropNoPanic Takeover.

Section WithEntry.
Context {E : EntryT}.

(** ** C40 *)

(** C40, the part that holds: a Decide for the accepted index, in the ballot the server follows and
    with the number that comes next in its session, makes it report its stop sign as decided. *)
Theorem C40_expected_decide_partial :
  forall o m n k ss,
    m = mkPM (b_pid n) (s_pid (o_sp o)) (MDecide n (mkSeq (sq_sess (s_cseq (o_sp o))) (sq_ctr (s_cseq (o_sp o)) + 1)) k) ->
    get_promise o = n -> snd (role_of o) = PhAccept -> i_ss (s_is (o_sp o)) = Some ss ->
    k = i_acc (s_is (o_sp o)) -> get_decided_idx o <= k ->
    exists o' r, exec o (CHandle (MsgSP m)) = Ok (o', r) /\ is_reconfigured o' = Some ss.
Proof.
  intros o m n k ss -> Hn Hph Hss Hk Hd. unfold exec. cbn [exec_call handle_incoming start_call o_sp set_sp sp_handle pm_msg pm_from].
  set (s := set_is (o_sp o) _). unfold handle_decide, check_valid_ballot. change (i_prom (s_is s)) with (get_promise o). rewrite Hn, bcmp_refl. cbn [andb].
  change (s_phase s) with (snd (role_of o)). rewrite Hph. cbn [phase_eqb]. unfold handle_sequence_num, check_msg_status. cbn [sq_sess sq_ctr].
  change (s_cseq s) with (s_cseq (o_sp o)). rewrite !Nat.eqb_refl. cbn [andb]. unfold update_decided. cbn [s_is set_cseq].
  change (i_dec (s_is s)) with (get_decided_idx o). change (i_acc (s_is s)) with (i_acc (s_is (o_sp o))).
  unfold is_reconfigured, sp_is_reconfigured, stopsign_is_decided. destruct (Nat.leb_spec k (get_decided_idx o)).
  - cbn [bind]. do 2 eexists. split; [reflexivity|]. cbn. unfold i_ss in *. cbn. rewrite Hss.
    assert (X : c_dec (i_ca (s_is (o_sp o))) = c_acc (i_ca (s_is (o_sp o)))) by (unfold get_decided_idx, i_dec, i_acc in *; lia). rewrite X, Nat.eqb_refl. reflexivity.
  - rewrite <- Hk, Nat.ltb_irrefl. cbn [bind]. do 2 eexists. split; [reflexivity|]. cbn. unfold i_ss in *. cbn. rewrite Hss, Hk. unfold i_acc. rewrite Nat.eqb_refl. reflexivity.
Qed.

(** ** C39 *)
Lemma accsync_keep p s s' : send_accsync s p = Ok s' -> s_is s' = s_is s /\ s_bss s' = s_bss s.
Proof. intros H1. unfold send_accsync in H1. cbn zeta in H1. repeat (apply lift_bind in H1; destruct H1 as (? & _ & H1)). destruct x3 as [ls sq]. injection H1 as <-. auto. Qed.
Lemma accsyncs_keep ps : forall s s', for_each s ps send_accsync = Ok s' -> s_is s' = s_is s /\ s_bss s' = s_bss s.
Proof.
  induction ps as [|p ps IH]; cbn [for_each]; intros s s' H; [injection H as <-; auto|]. apply bind_inv in H. destruct H as (s1 & H1 & H). destruct (IH _ _ H) as [A B]. rewrite A, B.
  apply (accsync_keep _ _ _ H1).
Qed.

(** C39, the part that holds: a server that becomes the leader (it handles the Promise that completes
    its read quorum) has a stop sign in its log afterwards, its own buffered one unless the log it takes over
    has one already. *)
Theorem C39_buffered_stopsign_at_takeover_partial :
  forall o m pr ss o' r,
    pm_msg m = MPromise pr -> role_of o = (Leader, PhPrepare) -> s_bss (o_sp o) = Some ss ->
    exec o (CHandle (MsgSP m)) = Ok (o', r) -> role_of o' = (Leader, PhAccept) ->
    exists ss', i_ss (s_is (o_sp o')) = Some ss' /\ (s_bss (o_sp o') = None -> ss' = ss /\ ms_ss (storage o') = Some ss).
Proof.
  intros o m pr ss o' r Hm Hro Hb He Hro'. unfold exec in He. cbn [exec_call handle_incoming] in He. apply bind_inv in He. destruct He as (o1 & H1 & H2). injection H2 as <- _.
  apply bind_inv in H1. destruct H1 as (s' & H1 & H2). injection H2 as <-. unfold sp_handle in H1. rewrite Hm in H1.
  assert (exists s, o_sp (start_call o) = s) as (s & Es) by eauto. rewrite Es in H1. assert (R : (s_role s, s_phase s) = (Leader, PhPrepare)) by (rewrite <- Es; exact Hro). assert (Bs : s_bss s = Some ss) by (rewrite <- Es; exact Hb).
  injection R as R1 R2. rewrite R1, R2 in H1. change ((s_role s', s_phase s') = (Leader, PhAccept)) in Hro'. injection Hro' as R3 R4. change (o_sp (set_sp (start_call o) s')) with s'.
  unfold handle_promise_prepare in H1. destruct (beq _ _); [|injection H1 as <-; congruence]. apply lift_bind in H1. destruct H1 as ([ls maj] & _ & H1).
  destruct maj; [|injection H1 as <-; cbn in R4; congruence]. unfold handle_majority_promises, take_max_promise_sync in H1. cbn zeta in H1. cbn [s_ls set_ls s_is] in H1.
  apply bind_inv in H1. destruct H1 as ([is acc] & _ & H1). unfold storage. change (o_sp (set_sp (start_call o) s')) with s'.
  unfold accepted_reconfiguration in H1. cbn [s_is set_is] in H1. destruct (i_ss is) as [ss0|] eqn:Hi.
  - cbn zeta in H1. apply lift_bind in H1. destruct H1 as (ls1 & _ & H1). apply lift_bind in H1. destruct H1 as (ps & _ & H1). apply accsyncs_keep in H1. destruct H1 as [A B]. rewrite A, B. cbn. exists ss0. split; [exact Hi|]. rewrite Bs. discriminate.
  - cbn [s_bprops set_is set_ls] in H1.
    match type of H1 with (let '(_, _) := (let '(_, _) := ?e in _) in _) = _ => assert (X : exists s2 a2, e = (s2, a2) /\ s_bss s2 = Some ss) end.
    { destruct (s_bprops s) as [|e es]; [do 2 eexists; split; [reflexivity|exact Bs]|]. destruct (append_entries_without_batching _ _) as [is1 a1]. do 2 eexists. split; [reflexivity|exact Bs]. }
    destruct X as (s2 & a2 & X1 & X2). rewrite X1, X2 in H1. cbn zeta in H1. apply lift_bind in H1. destruct H1 as (ls1 & _ & H1). apply lift_bind in H1. destruct H1 as (ps & _ & H1).
    apply accsyncs_keep in H1. destruct H1 as [A B]. rewrite A. exists ss. cbn. unfold i_append_stopsign, cache_append_stopsign. cbn. destruct (c_batch (i_ca (s_is s2))); cbn; auto.
Qed.

(** ** C08 *)

(** The stop sign is decided, as far as the cache of the server tells. *)
Definition KC (c : cache) : Prop := c_ss c <> None /\ c_dec c = c_acc c /\ c_batch c = [].
Definition K (s : sp) : Prop := KC (i_ca (s_is s)).
Definition kok (r : res sp) : Prop := match r with Ok s => K s | Panic _ => True end.
Definition kok2 {B} (r : res (sp * B)) : Prop := match r with Ok (s, _) => K s | Panic _ => True end.
Lemma lift_k {B} s (o : option B) (f : B -> res sp) : (forall b, o = Some b -> kok (f b)) -> kok (bind (lift s o) f).
Proof. intros Hf. destruct o; cbn; auto. Qed.
Lemma bind_k (r : res sp) f : kok r -> (forall s, K s -> kok (f s)) -> kok (bind r f).
Proof. destruct r; cbn; auto. Qed.
Lemma for_each_k f l : (forall s p, K s -> kok (f s p)) -> forall s, K s -> kok (for_each s l f).
Proof. intros Hf. induction l as [|p l IH]; cbn; intros s H; auto. pose proof (Hf s p H) as X. destruct (f s p); cbn in *; auto. Qed.
Lemma push_all_k m l : forall s, K s -> K (push_all s l m).
Proof. unfold push_all. induction l as [|p l IH]; cbn; intros s H; [exact H|]. apply IH; exact H. Qed.
Lemma mod_k s k f : K s -> K (mod_accdec s k f).
Proof. intros H. unfold mod_accdec. destruct (nth_error _ _); exact H. Qed.
Lemma flush_k is : KC (i_ca is) -> KC (i_ca (fst (flush_batch is))).
Proof. intros (A & B & C). unfold flush_batch, append_entries_without_batching. cbn. unfold i_acc. cbn. rewrite C. cbn. split; [exact A|]. split; [cbn; rewrite Nat.add_0_r; exact B|reflexivity]. Qed.
Lemma accrec_k s : K s -> accepted_reconfiguration s = true.
Proof. intros (A & _). unfold accepted_reconfiguration, i_ss. destruct (c_ss _); [reflexivity|contradiction]. Qed.

Lemma reply_k s n a : K s -> kok (reply_accepted s n a).
Proof. intros H. unfold reply_accepted. apply lift_k. intros [idx|] _; [apply mod_k; auto|exact H]. Qed.
Lemma reconnected_k s p : K s -> K (reconnected s p).
Proof. intros H. unfold reconnected. destruct (p =? s_pid s); auto. destruct (p =? sp_leader s); exact H. Qed.
Lemma cvb_k s b : K s -> K (fst (check_valid_ballot s b)).
Proof. intros H. unfold check_valid_ballot. destruct (bcmp _ _); cbn [fst]; auto. apply reconnected_k; auto. Qed.
Lemma seqnum_k s q from : K s -> K (fst (handle_sequence_num s q from)).
Proof. intros H. unfold handle_sequence_num. destruct (check_msg_status _ _); cbn [fst]; auto. apply reconnected_k; auto. Qed.
Lemma update_decided_k s d : K s -> K (fst (update_decided s d)).
Proof.
  intros H. pose proof H as (A & B & C). unfold update_decided. unfold i_dec, i_acc. destruct (Nat.leb_spec d (c_dec (i_ca (s_is s)))); auto. rewrite <- B.
  replace (c_dec (i_ca (s_is s)) <? d) with true by (symmetry; apply Nat.ltb_lt; lia).
  destruct (flush_batch (s_is s)) as [is a] eqn:Hf. assert (X := f_equal snd Hf). assert (Y := f_equal fst Hf). cbn [fst snd] in *. subst is. unfold flush_batch, append_entries_without_batching in X. cbn in X. unfold i_acc in X. cbn in X. rewrite C in X. cbn in X. subst a.
  destruct (flush_k _ H) as (A' & B' & C'). split; [exact A'|]. split; [|exact C']. cbn. unfold flush_batch, append_entries_without_batching. cbn. unfold i_acc. cbn. rewrite C. cbn. lia.
Qed.
Lemma send_prepare_k l : forall s, K s -> K (fold_left send_prepare l s).
Proof. induction l as [|p l IH]; cbn; intros s H; [exact H|]. apply IH. exact H. Qed.
Lemma send_ad_k es s : K s -> kok (send_acceptdecide s es).
Proof.
  intros H. unfold send_acceptdecide. apply lift_k. intros l _. apply for_each_k; auto. intros s1 p H1. unfold send_acceptdecide_to. apply lift_k. intros [k|] _; [apply mod_k; auto|].
  apply lift_k. intros l1 _. apply lift_k. intros [l2 q] _. exact H1.
Qed.
Lemma handle_leader_k s n : K s -> kok (handle_leader s n).
Proof.
  intros H. unfold handle_leader. destruct (_ || _); [exact H|]. destruct (_ =? _); [|exact H]. cbn zeta. apply lift_k. intros [ls b] _. apply push_all_k.
  pose proof (flush_k _ H) as X. exact X.
Qed.
Lemma prepare_k s n d na a from : K s -> kok (handle_prepare s n d na a from).
Proof.
  intros H. unfold handle_prepare. destruct (_ || _); [|exact H]. cbn zeta. match goal with |- kok (bind ?e ?f) => destruct e end; [|exact I]. pose proof (flush_k _ H) as X. exact X.
Qed.
Lemma try_trim_k is i : KC (i_ca is) -> match try_trim is i with Ok (is', _) => KC (i_ca is') | Panic _ => True end.
Proof.
  intros H. unfold try_trim. destruct (dec_without_ss is) as [ld|]; [|exact I]. 
  assert (X : forall new, match (if i_comp is <? new then m <- ilift is (ms_write (i_st is) [OpTrim new; OpSetComp new]) ;; let s := put_st is m in Ok (set_ca s (c_set_comp (i_ca s) new), None) else Ok (is, @None compaction_err)) with Ok (is', _) => KC (i_ca is') | Panic _ => True end).
  { intros new. destruct (_ <? _); [|exact H]. destruct (ms_write _ _); cbn; auto. }
  destruct (Nat.compare _ _); [apply X|apply X|exact H].
Qed.
Lemma try_snap_k is i : KC (i_ca is) -> match try_snapshot is i with Ok (is', _) => KC (i_ca is') | Panic _ => True end.
Proof.
  intros H. unfold try_snapshot. destruct (dec_without_ss is) as [ld|]; [|exact I]. cbn zeta.
  match goal with |- context [if i_comp is <? ?z then _ else _] => idtac end.
  assert (X : forall new, match (if i_comp is <? new then
          match create_snapshot is new with
          | CPanic => ipanic is
          | CErr e => Ok (is, Some e)
          | COk sn =>
              m <- ilift is (ms_write (i_st is) [OpTrim new; OpSetComp new; OpSetSnapshot (Some sn)]) ;;
              let s := put_st is m in Ok (set_ca s (c_set_comp (i_ca s) new), None)
          end
        else Ok (is, None)) with Ok (is', _) => KC (i_ca is') | Panic _ => True end).
  { intros new. destruct (_ <? _); [|exact H]. destruct (create_snapshot _ _); [|exact H|exact I]. destruct (ms_write _ _); cbn; auto. }
  destruct i as [i|]; [destruct (Nat.compare _ _); [apply X|apply X|exact H]|apply X].
Qed.
Lemma resend_leader_k s : K s -> kok (resend_messages_leader s).
Proof.
  intros H. unfold resend_messages_leader. destruct (s_phase s); [| |exact H|exact H].
  - apply lift_k. intros l _. apply send_prepare_k; auto.
  - apply bind_k.
    + destruct (i_ss (s_is s)) as [ss|]; [|exact H]. apply lift_k. intros l _. apply for_each_k; auto. intros s1 p H1. unfold resend_ss_to, send_decide, send_accept_stopsign.
      destruct (stopsign_is_decided _); [apply lift_k; intros [? ?] _; exact H1|]. apply lift_k. intros a _. destruct (a =? _); [exact H1|apply lift_k; intros [? ?] _; exact H1].
    + intros s1 H1. apply lift_k. intros l _. apply send_prepare_k; auto.
Qed.
Lemma tick_k o : K (o_sp o) -> match tick o with Ok o' => K (o_sp o') | Panic _ => True end.
Proof.
  intros H. unfold tick. destruct (clock_tick (o_eclk o)) as [ec f1]. set (o1 := mkOmni _ _ _ _ _).
  assert (B1 : match (if f1 then election_timeout o1 else Ok o1) with Ok o' => K (o_sp o') | Panic _ => True end).
  { destruct f1; [|exact H]. unfold election_timeout. destruct (hb_timeout _ _ _) as [b [n|]]; [|exact H]. pose proof (handle_leader_k _ n H) as X. change (o_sp o1) with (o_sp o). destruct (handle_leader _ _); cbn; auto. }
  destruct (if f1 then _ else _) as [o2|]; [|exact I]. cbn [bind]. destruct (clock_tick (o_rclk o2)) as [rc f2]. set (o3 := mkOmni _ _ _ _ _).
  assert (B2 : match (if f2 then s <- resend_message_timeout (o_sp o3) ;; Ok (set_sp o3 s) else Ok o3) with Ok o' => K (o_sp o') | Panic _ => True end).
  { destruct f2; [|exact B1]. assert (X : kok (resend_message_timeout (o_sp o3))). { unfold resend_message_timeout. destruct (s_role _); [|apply resend_leader_k; exact B1]. unfold resend_messages_follower. destruct (s_phase _); try exact B1; [destruct (s_cprom _); [exact B1|]|]; unfold send_preparereq_to_all_peers; apply push_all_k; exact B1. }
    destruct (resend_message_timeout _); cbn; auto. }
  destruct (if f2 then _ else _) as [o4|]; [|exact I]. cbn [bind]. destruct (clock_tick (o_fclk o4)) as [fc f3]. set (o5 := mkOmni _ _ _ _ _).
  destruct f3; [|exact B2]. assert (X : kok (flush_batch_timeout (o_sp o5))).
  { unfold flush_batch_timeout. destruct (s_role _), (s_phase _); try exact B2.
    - unfold flush_batch_follower. pose proof (flush_k _ B2) as Y. change (s_is (o_sp o5)) with (s_is (o_sp o4)). destruct (flush_batch _) as [is a]. cbn [fst] in Y. destruct (_ <? _); [apply reply_k|]; exact Y.
    - unfold flush_batch_leader, flush_batch_and_get_entries. change (s_is (o_sp o5)) with (s_is (o_sp o4)). destruct B2 as (Y1 & Y2 & Y3). rewrite Y3. cbn. split; auto. }
  destruct (flush_batch_timeout _); cbn; auto.
Qed.

(** The messages after which it may end: an AcceptSync, the Promise for which a candidate waits, an
    Accepted. *)
Definition resync (o : omni) (m : message) : Prop :=
  match m with
  | MsgSP (mkPM _ _ (MAcceptSync _ _ _ _)) | MsgSP (mkPM _ _ (MAccepted _ _)) => True
  | MsgSP (mkPM _ _ (MPromise _)) => role_of o = (Leader, PhPrepare)
  | _ => False
  end.
Lemma stopsign_k s n sq ss : K s -> kok (handle_accept_stopsign s n sq ss).
Proof.
  intros H. unfold handle_accept_stopsign. pose proof (cvb_k s n H) as H1. destruct (check_valid_ballot s n) as [s1 v]. cbn [fst] in H1. destruct (_ && _); [|exact H1].
  pose proof (seqnum_k s1 sq (b_pid n) H1) as H2. destruct (handle_sequence_num _ _ _) as [s2 st]. cbn [fst] in H2. destruct st; try exact H2.
  pose proof (flush_k _ H2) as H3. cbn [s_is set_is]. set (is := fst (flush_batch (s_is s2))) in *. destruct H3 as (A & B & C). unfold i_set_stopsign. destruct (c_ss (i_ca is)); [|contradiction]. cbn [bind].
  apply reply_k. split; [discriminate|]. split; [exact B|exact C].
Qed.
Lemma decide_k s n sq d : K s -> kok (handle_decide s n sq d).
Proof.
  intros H. unfold handle_decide. pose proof (cvb_k s n H) as H1. destruct (check_valid_ballot s n) as [s1 v]. cbn [fst] in H1. destruct (_ && _); [|exact H1].
  pose proof (seqnum_k s1 sq (b_pid n) H1) as H2. destruct (handle_sequence_num _ _ _) as [s2 st]. cbn [fst] in H2. destruct st; try exact H2.
  pose proof (update_decided_k s2 d H2) as H3. destruct (update_decided s2 d) as [s3 r]. cbn [fst] in H3. destruct r; [apply reply_k|]; exact H3.
Qed.
Lemma acceptdecide_k s n sq d es : K s -> (bcmp (i_prom (s_is s)) n = Eq -> s_phase s = PhAccept -> check_msg_status (s_cseq s) sq = Expected -> es = []) ->
  kok (handle_acceptdecide s n sq d es).
Proof.
  intros H Hes. unfold handle_acceptdecide. unfold check_valid_ballot. destruct (bcmp _ n) eqn:Hb; cbn [andb]; [|apply (reconnected_k s _ H)|exact H].
  destruct (role_eqb _ _); cbn [andb]; [|exact H]. destruct (s_phase s) eqn:Hp; cbn [phase_eqb]; try exact H. unfold handle_sequence_num.
  destruct (check_msg_status _ _) eqn:Hst; [|apply (reconnected_k s _ H)|exact H]. rewrite (Hes eq_refl eq_refl eq_refl).
  assert (X : KC (i_ca (fst (append_entries_and_get_accepted_idx (s_is (set_cseq s sq)) [])))).
  { pose proof H as (A & B & C). unfold append_entries_and_get_accepted_idx, cache_append_entries, take_entries_if_batch_is_full. cbn. rewrite C. cbn. destruct (_ <=? 0); cbn; [|split; auto].
    unfold i_acc. cbn. split; [exact A|]. split; [cbn; rewrite Nat.add_0_r; exact B|reflexivity]. }
  destruct (append_entries_and_get_accepted_idx _ _) as [is r1]. cbn [fst] in X. assert (Y : K (set_is (set_cseq s sq) is)) by exact X.
  apply (update_decided_k _ d) in Y. destruct (update_decided _ d) as [s2 r2]. cbn [fst] in Y. destruct r2; [apply reply_k; exact Y|]. destruct r1; [apply reply_k|]; exact Y.
Qed.
Lemma sp_handle_k o m : K (o_sp o) -> ~ resync o (MsgSP m) ->
  (forall n sq d es, pm_msg m = MAcceptDecide n sq d es -> bcmp (i_prom (s_is (o_sp o))) n = Eq -> s_phase (o_sp o) = PhAccept -> check_msg_status (s_cseq (o_sp o)) sq = Expected -> es = []) ->
  kok (sp_handle (o_sp (start_call o)) m).
Proof.
  intros H0 Hm Had. assert (H : K (o_sp (start_call o))) by exact H0. unfold sp_handle. destruct m as [from to m]. cbn [pm_msg pm_from] in *. destruct m; try (exfalso; apply Hm; exact I).
  - unfold handle_preparereq. destruct (_ && _); [|exact H]. apply lift_k. intros ? _. apply lift_k. intros ? _. exact H.
  - apply prepare_k; auto.
  - cbn in Hm. unfold role_of in Hm. change (s_role (o_sp (start_call o))) with (s_role (o_sp o)). change (s_phase (o_sp (start_call o))) with (s_phase (o_sp o)).
    destruct (s_role (o_sp o)); [exact H|]. destruct (s_phase (o_sp o)); [exfalso; apply Hm; reflexivity| |exact H|exact H].
    unfold handle_promise_accept. destruct (beq _ _); [|exact H]. apply lift_k. intros [ls b] _.
    match goal with |- kok ?e => destruct e as [s'|] eqn:Hs; [|exact I] end. apply accsync_keep in Hs. destruct Hs as [Hs _]. unfold kok, K. rewrite Hs. exact H.
  - apply acceptdecide_k; auto. intros A B C. apply (Had _ _ _ _ eq_refl A B C).
  - unfold handle_notaccepted. destruct (_ && _); [|exact H]. apply lift_k. intros ? _. exact H.
  - apply decide_k; auto.
  - unfold handle_forwarded_proposal. rewrite (accrec_k _ H). exact H.
  - unfold handle_compaction. destruct c.
    + pose proof (try_trim_k _ i H) as X. destruct (try_trim _ _) as [[is r]|]; cbn; auto.
    + unfold sp_snapshot. pose proof (try_snap_k _ i H) as X. destruct (try_snapshot _ _) as [[is [r|]]|]; cbn; auto.
  - apply stopsign_k; auto.
  - unfold handle_forwarded_stopsign. rewrite (accrec_k _ H). exact H.
Qed.

Lemma sp_trim_k s i s' r : K s -> sp_trim s i = Ok (s', r) -> K s'.
Proof.
  intros HK H. unfold sp_trim in H. destruct (s_role s); [injection H as <- _; exact HK|]. apply lift_bind in H. destruct H as (mn & _ & H). cbn zeta in H.
  assert (X : forall j, (' (is, r) <- try_trim (s_is s) j ;; let s := set_is s is in match r with Some e => Ok (s, Some e) | None => Ok (push_all s (s_peers s) (MCompaction (CmpTrim j)), None) end) = Ok (s', r) -> K s').
  { intros j Hj. apply bind_inv in Hj. destruct Hj as ([is [e|]] & Hj & Hk); injection Hk as <- _; pose proof (try_trim_k _ j HK) as Y; rewrite Hj in Y; [exact Y|apply push_all_k; exact Y]. }
  destruct i as [i|]; [destruct (i <=? mn)|]; [apply (X i); exact H|injection H as <- _; exact HK|apply (X mn); exact H].
Qed.
Lemma exec_k o c o' r : K (o_sp o) -> (forall m, c = CHandle (MsgSP m) -> kok (sp_handle (o_sp (start_call o)) m)) -> exec o c = Ok (o', r) -> K (o_sp o').
Proof.
  intros H0 Hm H. unfold exec in H. assert (HK : K (o_sp (start_call o))) by exact H0. set (o0 := start_call o) in *. clearbody o0. clear H0 o. destruct c; cbn [exec_call] in H.
  - unfold sp_append in H. rewrite (accrec_k _ HK) in H. injection H as <- _. exact HK.
  - unfold reconfigure in H. destruct (cluster_validate _); [|injection H as <- _; exact HK]. unfold sp_reconfigure in H. rewrite (accrec_k _ HK) in H. injection H as <- _. exact HK.
  - pose proof (tick_k o0 HK) as X. destruct (tick o0); cbn in H; [injection H as <- _; exact X|discriminate].
  - apply bind_inv in H. destruct H as ([s1 r1] & H & H2). injection H2 as <- _. apply (sp_trim_k _ _ _ _ HK H).
  - unfold sp_snapshot in H. pose proof (try_snap_k _ i HK) as Y. destruct (try_snapshot _ _) as [[is [e|]]|]; cbn in H; [injection H as <- _; exact Y| |discriminate].
    injection H as <- _. destruct local_only; [exact Y|]. apply push_all_k. exact Y.
  - injection H as <- _. apply reconnected_k. exact HK.
  - unfold try_become_leader in H. pose proof (handle_leader_k _ (set_n (e_ballot (o_ble o0)) (b_n (sp_promise (o_sp o0)) + 1)) HK) as X. destruct (handle_leader _ _); cbn in H; [|discriminate]. injection H as <- _. exact X.
  - injection H as <- _. exact HK.
  - unfold handle_incoming in H. destruct m as [m|m]; [|injection H as <- _; exact HK]. specialize (Hm m eq_refl). destruct (sp_handle _ m); cbn in H; [|discriminate]. injection H as <- _. exact Hm.
Qed.

(** In the cluster, a server that has the stop sign of its ballot gets no entries any more. *)
Lemma no_more_entries cc G s p o src m n sq d es : cluster_validate cc = true -> ~ In 0 (cc_nodes cc) -> SysInv cc G s ->
  nodes s p = Some o -> In (MsgSP m) (net s src p) -> pm_msg m = MAcceptDecide n sq d es -> i_ss (s_is (o_sp o)) <> None ->
  bcmp (i_prom (s_is (o_sp o))) n = Eq -> s_phase (o_sp o) = PhAccept -> check_msg_status (s_cseq (o_sp o)) sq = Expected -> es = [].
Proof.
  intros Hv H0 HS N Hin Hm Hss Hb Hph Hst. pose proof (node_inv cc G s p o HS N) as HN. destruct (y_net _ _ _ HS _ _ _ Hin) as (_ & Hne & _).
  destruct (y_link _ _ _ HS src p Hne) as [(A & _ & B & C) _].
  assert (Hv' : In (MAcceptDecide n sq d es) (vlink s src p)). { unfold vlink. apply in_or_app. left. unfold pmsgs. apply in_flat_map. exists (MsgSP m). split; [exact Hin|]. left. exact Hm. }
  rewrite Forall_forall in A, B. destruct (A _ Hv') as [_ (Hp & HM & _)]. destruct (B _ Hv' n sq Hp eq_refl) as (_ & Hle & _ & Hlen & _).
  pose proof (y_G _ _ _ HS) as HG.
  assert (E1 : i_prom (s_is (o_sp o)) = n).
  { pose proof (co_prom _ _ (n_coh _ _ _ _ HN)) as X. pose proof (st_prom _ _ _ _ (n_st _ _ _ _ HN)) as Y. unfold i_prom in Hb |- *. rewrite X, Y in Hb. rewrite X, Y.
    apply (wfb_eq cc); auto; [apply (g_wP _ _ HG)|apply (g_wM _ _ HG); exact HM|]. pose proof (bcmp_spec (gP G p) n) as Z. rewrite Hb in Z. exact Z. }
  assert (V : oview s p = Some (Inv.view (o_sp o))). { unfold oview, osp. rewrite N. reflexivity. }
  destruct (C _ V n Hp E1) as [C1 _]. destruct (C1 Hph) as (_ & _ & _ & C2). cbn [rv_ss rv_cseq Inv.view] in C2. destruct (i_ss (s_is (o_sp o))); [|contradiction]. cbn in C2. destruct C2 as [C2 _].
  destruct (expected_spec _ _ Hst) as [Hs _]. rewrite Hs, C2 in Hlen. destruct es; auto. cbn in Hlen. lia.
Qed.

Lemma run_one cc s0 l s a s' : run cc s0 l = Some s -> exec_action cc s a = Some s' -> run cc s0 (l ++ [a]) = Some s'.
Proof.
  intros H He. revert s0 H. induction l as [|b l IH]; cbn; intros s0 H; [injection H as ->; rewrite He; reflexivity|]. destruct (exec_action cc s0 b); [|discriminate]. auto.
Qed.

(** The action [a] makes [p] handle such a message, or restarts it. *)
Definition disturbs (s : sys) (a : action) (p : node_id) : Prop :=
  (exists src k m o, action_event a = Some (p, EDeliver src k) /\ nth_error (net s src p) k = Some m /\ nodes s p = Some o /\ resync o m) \/
  (exists ev j sc, a = ACrash p ev j sc).

(** C08, the part that holds: what [is_reconfigured] reports changes only when the server is synchronised
    by a leader, takes over as a leader, gets an Accepted, or restarts. *)
Theorem C08_reconfigured_stays_partial :
  forall cc scs, good_config cc scs ->
  forall l a, all_steps h1h2 cc (init_sys cc scs) (l ++ [a]) -> forall s, reaches cc scs l s ->
  forall s', exec_action cc s a = Some s' ->
  forall p o o' ss, nodes s p = Some o -> nodes s' p = Some o' -> is_reconfigured o = Some ss -> ~ disturbs s a p ->
    is_reconfigured o' = Some ss.
Proof.
  intros cc scs HG l a Hh s R s' He p o o' ss N N' Hr Hd.
  assert (R' : reaches cc scs (l ++ [a]) s'). { unfold reaches in *. apply (run_one _ _ _ _ _ _ R He). }
  assert (Hl : all_steps h1h2 cc (init_sys cc scs) l). { apply (all_steps_app cc _ l [a] _ s Hh R). }
  assert (Main : K (o_sp o')).
  2:{ destruct Main as (A & B & _). destruct (is_reconfigured o') as [ss'|] eqn:Hr'.
      - f_equal. symmetry. refine (C07_reconfiguration_agreement cc scs HG _ Hh s s' _ _ p p o o' ss ss' N N' Hr Hr'); [exists l, [a]; auto|exists (l ++ [a]), []; rewrite app_nil_r; auto].
      - exfalso. unfold is_reconfigured, sp_is_reconfigured, stopsign_is_decided, i_ss in Hr'. rewrite B, Nat.eqb_refl in Hr'. destruct (c_ss (i_ca (s_is (o_sp o')))); [discriminate|]. apply A. reflexivity. }
  destruct HG as (Hv & H0 & _). destruct (one_moment cc Hv H0 scs l s Hl R) as [G HS]. pose proof (node_inv cc G s p o HS N) as HN.
  assert (HK : K (o_sp o)).
  { unfold is_reconfigured, sp_is_reconfigured, stopsign_is_decided, i_ss in Hr. destruct (c_ss (i_ca (s_is (o_sp o)))) as [x|] eqn:Hx; [|discriminate].
    destruct (Nat.eqb_spec (c_dec (i_ca (s_is (o_sp o)))) (c_acc (i_ca (s_is (o_sp o))))); [|discriminate]. split; [rewrite Hx; discriminate|]. split; [assumption|].
    apply (n_bss _ _ _ _ HN). rewrite <- (co_ss _ _ (n_coh _ _ _ _ HN)), Hx. discriminate. }
  destruct a as [q ev|q|src dst k|q ev j sc]; cbn in He.
  - destruct (nodes s q) as [oq|] eqn:Ho; [|discriminate]. destruct (event_call s q ev) as [c|] eqn:Hc; [|discriminate].
    destruct (exec oq c) as [[o1 r]|] eqn:Hx; [|discriminate]. injection He as <-. cbn in N'. unfold upd1 in N'. destruct (Nat.eqb_spec p q) as [->|]; [|rewrite N in N'; injection N' as ->; exact HK].
    injection N' as ->. rewrite N in Ho. injection Ho as <-. refine (exec_k o c o' r HK _ Hx). intros m ->.
    destruct ev as [c0|src k]; cbn in Hc; [destruct c0; discriminate|]. destruct (nth_error (net s src q) k) as [x|] eqn:Hk; [|discriminate]. injection Hc as ->.
    apply sp_handle_k; [exact HK| |].
    + intros Hre. apply Hd. left. exists src, k, (MsgSP m), o. auto.
    + intros n sq d es Hm. apply (no_more_entries cc G s q o src m n sq d es Hv H0 HS N (nth_error_In _ _ Hk) Hm). apply HK.
  - destruct (nodes s q) as [oq|] eqn:Ho; [|discriminate]. injection He as <-. cbn in N'. unfold upd1 in N'.
    destruct (Nat.eqb_spec p q) as [->|]; [|rewrite N in N'; injection N' as ->; exact HK]. rewrite N in Ho. injection Ho as <-. injection N' as <-. exact HK.
  - injection He as <-. cbn in N'. rewrite N in N'. injection N' as ->. exact HK.
  - destruct (nodes s q) as [oq|] eqn:Ho; [|discriminate]. destruct (event_call s q ev) as [c|] eqn:Hc; [|discriminate].
    destruct (nth_error (crash_points oq c) j) as [st|] eqn:Hst; [|discriminate].
    destruct (Nat.eqb_spec (sc_pid sc) q) as [Hsc|]; [|discriminate].
    destruct (build cc sc st) as [| |o1] eqn:Hb; try discriminate. injection He as <-. cbn in N'. unfold upd1 in N'.
    destruct (Nat.eqb_spec p q) as [->|]; [|rewrite N in N'; injection N' as ->; exact HK]. exfalso. apply Hd. right. eauto.
Qed.
End WithEntry.
Print Assumptions C08_reconfigured_stays_partial.
Print Assumptions C40_expected_decide_partial.
Print Assumptions C39_buffered_stopsign_at_takeover_partial.

(** ** Cases *)
Section Case.
Local Existing Instance plain.
Definition ssn : stopsign := mkSS cc_next None.
(** Server 1 leads and reconfigures: server 2 accepts, and the Decide waits on the link to server 2. *)
Definition sch_stop : list cmd :=
  [ Settle [1;2;3] 2; Call 1 CTryLeader; Settle [1;2;3] 3; append 1 11; Settle [1;2;3] 3;
    Call 1 (CReconfigure cc_next None); Fetch [1]; Deliver 1 2; Fetch [2]; Deliver 2 1; Fetch [1] ].
Definition acts_stop := Eval vm_compute in acts_of cc3 ini sch_stop.
Definition sys_stop := match run cc3 ini acts_stop with Some s => s | None => ini end.
Lemma reach_stop : reaches cc3 scs acts_stop sys_stop.
Proof. apply is_some_eta. vm_compute. reflexivity. Qed.
(** Afterwards server 1 is made to take over once more. *)
Definition act_more : action := ADo 1 (ECall CTryLeader).
Lemma not_disturbed (s : @sys plain) q c p : ~ disturbs s (ADo q (ECall c)) p.
Proof. intros [(src & k & m & o & H & _)|(ev & j & sc & H)]; discriminate. Qed.
Example C08_stays_case :
  good_config cc3 scs /\ all_steps h1h2 cc3 (init_sys cc3 scs) (acts_stop ++ [act_more]) /\ reaches cc3 scs acts_stop sys_stop /\
  obs sys_stop 1 is_reconfigured = Some (Some ssn) /\ ~ disturbs sys_stop act_more 1 /\
  match exec_action cc3 sys_stop act_more with Some s' => obs s' 1 (fun o => (is_reconfigured o, role_of o)) = Some (Some ssn, (Leader, PhPrepare)) | None => False end.
Proof.
  split; [exact good3|]. split; [apply h1h2_run; vm_compute; reflexivity|]. split; [exact reach_stop|]. split; [vm_compute; reflexivity|]. split; [apply not_disturbed|]. vm_compute. reflexivity.
Qed.
Example C40_expected_case :
  match net sys_stop 1 2 with
  | MsgSP (mkPM f t (MDecide n sq k)) :: _ =>
      obs sys_stop 2 (fun o => (s_pid (o_sp o), get_promise o, role_of o)) = Some (t, n, (Follower, PhAccept)) /\ f = b_pid n /\
      obs sys_stop 2 (fun o => (sq_sess (s_cseq (o_sp o)), sq_ctr (s_cseq (o_sp o)) + 1)) = Some (sq_sess sq, sq_ctr sq) /\
      obs sys_stop 2 (fun o => (i_ss (s_is (o_sp o)), i_acc (s_is (o_sp o)), get_decided_idx o, is_reconfigured o)) = Some (Some ssn, k, 1, None) /\ k = 2
  | _ => False
  end.
Proof. vm_compute. repeat split. Qed.

(** Server 2 buffers a stop sign, becomes a candidate, and the Promise of server 3 arrives. *)
Definition sch_buf : list cmd := [ Call 2 (CReconfigure cc_next None); Call 2 CTryLeader; Fetch [2]; Deliver 2 3; Fetch [3] ].
Definition sys_buf := match run cc3 ini (acts_of cc3 ini sch_buf) with Some s => s | None => ini end.
Example C39_takeover_case :
  obs sys_buf 2 (fun o => (s_bss (o_sp o), role_of o)) = Some (Some ssn, (Leader, PhPrepare)) /\
  match net sys_buf 3 2 with
  | MsgSP m :: _ =>
      (exists pr, pm_msg m = MPromise pr) /\
      match obs sys_buf 2 (fun o => exec o (CHandle (MsgSP m))) with
      | Some (Ok (o', _)) => role_of o' = (Leader, PhAccept) /\ s_bss (o_sp o') = None /\ ms_ss (storage o') = Some ssn
      | _ => False
      end
  | _ => False
  end.
Proof. vm_compute. repeat split. eexists. reflexivity. Qed.
End Case.
