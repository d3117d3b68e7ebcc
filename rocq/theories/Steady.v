(** * The handlers while a leader stays in office

    What each handler returns when a server of the quorum asks the leader to synchronise it, and when the leader
    replicates one more entry.  (Facts about the model; the theorems about the cluster are in PropSteady.) *)
From Coq Require Import List Arith Bool Lia.
Import ListNotations.
From Verif Require Import Types Config MemStore Internal LeaderState SeqPaxos Ble Omni System Basics Spec Ghost GhostOps Inv Op LeadLinks LeadRecv Local Frame NoPanic Takeover.

Section WithEntry.
Context {E : EntryT}.

Definition nxt (x : seqnum) : seqnum := mkSeq (sq_sess x) (sq_ctr x + 1).
Lemma nxt_expected x : check_msg_status x (nxt x) = Expected.
Proof. unfold check_msg_status, nxt. cbn. rewrite !Nat.eqb_refl. reflexivity. Qed.

(** ** Asking the leader *)
Lemma reconnected_f s p : p <> s_pid s ->
  s_is (reconnected s p) = s_is s /\ s_pid (reconnected s p) = s_pid s /\ s_out (reconnected s p) = s_out s ++ [mkPM (s_pid s) p (MPrepareReq (i_prom (s_is s)))]
  /\ (b_pid (i_prom (s_is s)) = p -> s_phase (reconnected s p) = PhRecover).
Proof.
  intros H. unfold reconnected. apply Nat.eqb_neq in H. rewrite H. unfold sp_leader, sp_promise. destruct (Nat.eqb_spec p (b_pid (i_prom (s_is s)))) as [X|X]; cbn.
  - auto.
  - split; auto. split; auto. split; auto. intros Y. congruence.
Qed.

Lemma preparereq_f s m q s' : handle_preparereq s m q = Ok s' -> s_role s = Leader -> ble m (l_n (s_ls s)) = true ->
  s_is s' = s_is s /\ s_pid s' = s_pid s /\ s_role s' = Leader /\ s_phase s' = s_phase s /\ l_n (s_ls s') = l_n (s_ls s) /\ l_seqs (s_ls s') = l_seqs (s_ls s)
  /\ (forall r, r <> q -> promd (s_ls s') r <-> promd (s_ls s) r)
  /\ s_out s' = s_out s ++ [mkPM (s_pid s) q (MPrepare (l_n (s_ls s)) (i_dec (s_is s)) (i_around (s_is s)) (i_acc (s_is s)))].
Proof.
  intros H H1 H2. unfold handle_preparereq in H. rewrite H1, H2 in H. cbn [role_eqb andb] in H. apply lift_bind in H. destruct H as (l1 & A1 & H). apply lift_bind in H. destruct H as (l2 & A2 & H). injection H as <-.
  unfold reset_promise in A1. destruct (vset _ _ _) as [v|] eqn:Hv; [|discriminate]. injection A1 as <-. unfold set_latest_accept_meta in A2. destruct (vset (l_accmeta _) _ _) as [w|]; [|discriminate]. injection A2 as <-.
  cbn. do 6 (split; [auto|]). split; [|reflexivity]. intros r Hr. unfold promd. cbn. rewrite (vget_vset _ _ _ _ r Hv). apply Nat.eqb_neq in Hr. rewrite Hr. reflexivity.
Qed.

Lemma prepare_f s n d na a from s' : handle_prepare s n d na a from = Ok s' -> blt (i_prom (s_is s)) n = true \/ (i_prom (s_is s) = n /\ s_phase s = PhRecover) ->
  s_role s' = Follower /\ s_phase s' = PhPrepare /\ i_prom (s_is s') = n /\ s_pid s' = s_pid s /\ c_bsize (i_ca (s_is s')) = c_bsize (i_ca (s_is s))
  /\ exists pr, pr_n pr = n /\ s_out s' = s_out s ++ [mkPM (s_pid s) from (MPromise pr)].
Proof.
  intros H H1. unfold handle_prepare in H. assert (X : blt (i_prom (s_is s)) n || (beq (i_prom (s_is s)) n && phase_eqb (s_phase s) PhRecover) = true).
  { destruct H1 as [->|[-> ->]]; [reflexivity|]. rewrite beq_refl. apply orb_true_r. }
  rewrite X in H. cbn zeta in H. apply bind_inv in H. destruct H as (sy & _ & H). injection H as <-.
  cbn. repeat (split; [reflexivity|]). eexists. split; [|reflexivity]. reflexivity.
Qed.

Lemma accsync_any s to s' x : send_accsync s to = Ok s' -> vget (l_seqs (s_ls s)) to = Some x ->
  exists sy, sent s s' to (mkSeq (sq_sess x + 1) 1) (MAcceptSync (l_n (s_ls s)) (mkSeq (sq_sess x + 1) 1) (i_dec (s_is s)) sy).
Proof.
  intros H H0. unfold send_accsync in H. cbn zeta in H. apply lift_bind in H. destruct H as (m & _ & H). apply lift_bind in H. destruct H as (fd & _ & H).
  apply lift_bind in H. destruct H as (sy & _ & H). apply lift_bind in H. destruct H as (l1 & H1 & H). apply lift_bind in H. destruct H as ([l2 sq] & H2 & H). injection H as <-.
  destruct (incr_f _ _ _ _ H1 H0) as (v1 & -> & V1). assert (Y : vget (l_seqs (l_set_seqs (s_ls s) v1)) to = Some (mkSeq (sq_sess x + 1) 0)). { cbn. rewrite V1, Nat.eqb_refl. reflexivity. }
  destruct (next_f _ _ _ _ _ H2 Y) as (v2 & -> & -> & V2). exists sy. constructor.
  - constructor; reflexivity.
  - reflexivity.
  - intros r. cbn. rewrite V2. cbn. destruct (Nat.eqb_spec r to) as [->|N]; [reflexivity|]. rewrite V1. destruct (Nat.eqb_spec r to); [contradiction|reflexivity].
Qed.

Lemma promise_accept_f s pr q s' x : handle_promise_accept s pr q = Ok s' -> pr_n pr = l_n (s_ls s) -> vget (l_seqs (s_ls s)) q = Some x ->
  s_is s' = s_is s /\ s_pid s' = s_pid s /\ s_role s' = s_role s /\ s_phase s' = s_phase s /\ l_n (s_ls s') = l_n (s_ls s)
  /\ (forall r, promd (s_ls s') r <-> r = q \/ promd (s_ls s) r)
  /\ (forall r, vget (l_seqs (s_ls s')) r = if r =? q then Some (mkSeq (sq_sess x + 1) 1) else vget (l_seqs (s_ls s)) r)
  /\ exists sy, s_out s' = s_out s ++ [mkPM (s_pid s) q (MAcceptSync (l_n (s_ls s)) (mkSeq (sq_sess x + 1) 1) (i_dec (s_is s)) sy)].
Proof.
  intros H Hn Hx. unfold handle_promise_accept in H. rewrite Hn, beq_refl in H. apply lift_bind in H. destruct H as ([ls maj] & H1 & H).
  pose proof (setp_f _ _ _ _ _ _ H1) as (X1 & X2 & X3 & X4 & X5 & X6 & X7 & X8).
  destruct (accsync_any _ _ _ x H) as (sy & [S1 S2 S3]); [cbn; congruence|]. cbn in S2, S3.
  split; [rewrite (sm_is _ _ S1); auto|]. split; [rewrite (sm_pid _ _ S1); auto|]. split; [rewrite (sm_role _ _ S1); auto|]. split; [rewrite (sm_ph _ _ S1); auto|]. split; [rewrite (sm_n _ _ S1); auto|].
  split; [intros r; unfold promd; rewrite (sm_proms _ _ S1); apply X6|]. split; [intros r; rewrite S3, X2; reflexivity|]. exists sy. rewrite S2, X1. reflexivity.
Qed.

Lemma sync_bs is n d sy is' a : sync_log is n d sy = Ok (is', a) -> CI nss is -> syncN nss sy -> c_bsize (i_ca is') = c_bsize (i_ca is).
Proof.
  intros H HC HS. unfold sync_log in H. cbn zeta in H. destruct sy as [sy|].
  - destruct HS as [HS1 HS2]. rewrite HS1 in H. cbn [bind] in H. destruct (sy_ss sy); [destruct HS2|].
    pose proof (ci_none is HC) as Hn. unfold i_ss in H, Hn. cbn in H. rewrite Hn in H. apply bind_inv in H. destruct H as (m & _ & H). injection H as <- <-. auto.
  - apply bind_inv in H. destruct H as (m & _ & H). injection H as <- <-. auto.
Qed.

Lemma acceptsync_any s n sq d sy from s' : handle_acceptsync s n sq d sy from = Ok s' -> i_prom (s_is s) = n -> s_role s = Follower -> s_phase s = PhPrepare ->
  CI nss (s_is s) -> syncN nss (Some sy) ->
  s_role s' = Follower /\ s_phase s' = PhAccept /\ s_cseq s' = sq /\ i_prom (s_is s') = n /\ i_dec (s_is s') = d /\ c_batch (i_ca (s_is s')) = c_batch (i_ca (s_is s))
  /\ c_bsize (i_ca (s_is s')) = c_bsize (i_ca (s_is s)).
Proof.
  intros H Hn Hr Hph HC HS. unfold handle_acceptsync, check_valid_ballot in H. rewrite Hn in H. rewrite bcmp_refl, Hr, Hph in H. cbn [role_eqb phase_eqb andb] in H.
  cbn zeta in H. cbn [s_is set_cprom] in H. apply bind_inv in H. destruct H as ([is a] & H1 & H). destruct (sync_f _ _ _ _ _ _ H1 HC HS) as (C1 & C2 & C3 & C4 & C5). pose proof (sync_bs _ _ _ _ _ _ H1 HC HS) as C6.
  cbn [s_is set_is] in H. rewrite (ci_none _ C1) in H.
  unfold forward_buffered_proposals in H. cbn [s_bprops set_is set_cprom] in H. injection H as <-.
  destruct (s_bprops s) as [|b bs]; [|unfold forward_proposals; destruct (_ && _)]; cbn; repeat split; congruence.
Qed.

(** ** One more entry *)
Lemma send_ad_f d es s to s' x : send_acceptdecide_to d es s to = Ok s' -> (forall y, vget (l_accmeta (s_ls s)) to = Some y -> y = None) -> vget (l_seqs (s_ls s)) to = Some x ->
  s_is s' = s_is s /\ s_pid s' = s_pid s /\ s_role s' = s_role s /\ s_phase s' = s_phase s /\ l_n (s_ls s') = l_n (s_ls s) /\ l_proms (s_ls s') = l_proms (s_ls s) /\ l_accs (s_ls s') = l_accs (s_ls s) /\ l_quorum (s_ls s') = l_quorum (s_ls s)
  /\ s_out s' = s_out s ++ [mkPM (s_pid s) to (MAcceptDecide (l_n (s_ls s)) (nxt x) d es)]
  /\ (forall r, vget (l_seqs (s_ls s')) r = if r =? to then Some (nxt x) else vget (l_seqs (s_ls s)) r)
  /\ (forall r, r <> to -> vget (l_accmeta (s_ls s')) r = vget (l_accmeta (s_ls s)) r).
Proof.
  intros H H0 H1. unfold send_acceptdecide_to in H. apply lift_bind in H. destruct H as (r & Hr & H). unfold get_latest_accdec, get_latest_accept_meta in Hr.
  destruct (vget (l_accmeta (s_ls s)) to) as [y|] eqn:Hy; [|discriminate]. rewrite (H0 y eq_refl) in Hr. injection Hr as <-.
  apply lift_bind in H. destruct H as (l1 & A1 & H). unfold set_latest_accept_meta in A1. destruct (vset _ _ _) as [w|] eqn:Hw; [|discriminate]. injection A1 as <-.
  apply lift_bind in H. destruct H as ([l2 sq] & H2 & H). injection H as <-. destruct (next_f _ _ _ _ x H2) as (v & -> & -> & V); [exact H1|]. cbn.
  do 8 (split; [reflexivity|]). split; [reflexivity|]. split; [exact V|]. intros r0 Hr0. rewrite (vget_vset _ _ _ _ r0 Hw). apply Nat.eqb_neq in Hr0. rewrite Hr0. reflexivity.
Qed.

Lemma send_ads_f d es ps : forall s s', for_each s ps (send_acceptdecide_to d es) = Ok s' -> NoDup ps -> (forall q, In q ps -> forall y, vget (l_accmeta (s_ls s)) q = Some y -> y = None) -> (forall q, In q ps -> vget (l_seqs (s_ls s)) q <> None) ->
  s_is s' = s_is s /\ s_pid s' = s_pid s /\ s_role s' = s_role s /\ s_phase s' = s_phase s /\ l_n (s_ls s') = l_n (s_ls s) /\ l_proms (s_ls s') = l_proms (s_ls s) /\ l_accs (s_ls s') = l_accs (s_ls s) /\ l_quorum (s_ls s') = l_quorum (s_ls s)
  /\ (forall r x, In r ps -> vget (l_seqs (s_ls s)) r = Some x -> vget (l_seqs (s_ls s')) r = Some (nxt x) /\ tob r (s_out s') = tob r (s_out s) ++ [mkPM (s_pid s) r (MAcceptDecide (l_n (s_ls s)) (nxt x) d es)])
  /\ (forall r, ~ In r ps -> vget (l_seqs (s_ls s')) r = vget (l_seqs (s_ls s)) r /\ tob r (s_out s') = tob r (s_out s)).
Proof.
  induction ps as [|p ps IH]; intros s s' H ND HA HS; cbn [for_each] in H.
  - injection H as <-. do 8 (split; [reflexivity|]). split; [intros r x []|]. auto.
  - apply bind_inv in H. destruct H as (s1 & H1 & H). inversion ND as [|a b N1 N2]; subst.
    destruct (vget (l_seqs (s_ls s)) p) as [x|] eqn:Hx; [|exfalso; apply (HS p (or_introl eq_refl)); exact Hx].
    destruct (send_ad_f _ _ _ _ _ x H1 (HA p (or_introl eq_refl)) Hx) as (Y1 & Y2 & Y3 & Y4 & Y5 & Y6 & Y7 & Y8 & Y9 & Y10 & Y11).
    assert (NE : forall q, In q ps -> q <> p) by (intros q Hq ->; contradiction).
    destruct (IH _ _ H N2) as (I1 & I2 & I3 & I4 & I5 & I6 & I7 & I8 & I9 & I10).
    { intros q Hq. rewrite Y11 by auto. apply HA. right. auto. }
    { intros q Hq. rewrite Y10. destruct (q =? p); [discriminate|]. apply HS. right. auto. }
    split; [congruence|]. split; [congruence|]. split; [congruence|]. split; [congruence|]. split; [congruence|]. split; [congruence|]. split; [congruence|]. split; [congruence|]. split.
    + intros r x0 Hr Hx0. destruct (Nat.eq_dec r p) as [->|Np].
      * destruct (I10 p N1) as [J1 J2]. rewrite J1, J2, Y10, Y9, tob_app, tob_one, Nat.eqb_refl. assert (x0 = x) by congruence. subst. auto.
      * destruct Hr as [Hr|Hr]; [congruence|]. destruct (I9 r x0 Hr) as [J1 J2]; [rewrite Y10; apply Nat.eqb_neq in Np; rewrite Np; exact Hx0|]. split; auto. rewrite J2, Y9, tob_app, tob_one. destruct (Nat.eqb_spec p r); [congruence|].
        rewrite app_nil_r, Y2, Y5. reflexivity.
    + intros r Hr. assert (Np : r <> p) by (intros ->; apply Hr; left; auto). destruct (I10 r) as [J1 J2]; [intros X; apply Hr; right; auto|]. rewrite J1, J2, Y10, Y9, tob_app, tob_one.
      destruct (Nat.eqb_spec r p); [contradiction|]. destruct (Nat.eqb_spec p r); [congruence|]. rewrite app_nil_r. auto.
Qed.

(** A batch of one entry. *)
Lemma full_one (c : cache) es : c_bsize c <= 1 -> c_batch c = [] -> es <> [] -> take_entries_if_batch_is_full (c_set_batch c (c_batch c ++ es)) = (c_set_batch c [], Some es).
Proof.
  intros H1 H2 H3. unfold take_entries_if_batch_is_full. cbn. rewrite H2. cbn. destruct (Nat.leb_spec (c_bsize c) (length es)) as [L|L]; [reflexivity|].
  destruct es; [contradiction|]. cbn in L. lia.
Qed.

Lemma append_acc s e s' r : sp_append s e = Ok (s', r) -> i_ss (s_is s) = None -> s_role s = Leader -> s_phase s = PhAccept -> c_bsize (i_ca (s_is s)) <= 1 -> c_batch (i_ca (s_is s)) = [] ->
  (forall q y, vget (l_accmeta (s_ls s)) q = Some y -> y = None) -> s_out s = [] -> length (l_seqs (s_ls s)) = length (l_proms (s_ls s)) ->
  s_pid s' = s_pid s /\ s_role s' = Leader /\ s_phase s' = PhAccept /\ l_n (s_ls s') = l_n (s_ls s) /\ (forall q, promd (s_ls s') q <-> promd (s_ls s) q) /\ l_quorum (s_ls s') = l_quorum (s_ls s)
  /\ i_prom (s_is s') = i_prom (s_is s) /\ i_dec (s_is s') = i_dec (s_is s) /\ i_acc (s_is s') = i_acc (s_is s) + 1 /\ ms_log (i_st (s_is s')) = ms_log (i_st (s_is s)) ++ [e]
  /\ c_bsize (i_ca (s_is s')) = c_bsize (i_ca (s_is s)) /\ vget (l_accs (s_ls s')) (s_pid s) = Some (i_acc (s_is s'))
  /\ (forall q x, q <> b_pid (l_n (s_ls s)) -> promd (s_ls s) q -> vget (l_seqs (s_ls s)) q = Some x ->
        vget (l_seqs (s_ls s')) q = Some (nxt x) /\ tob q (s_out s') = [mkPM (s_pid s) q (MAcceptDecide (l_n (s_ls s)) (nxt x) (i_dec (s_is s)) [e])]).
Proof.
  intros H H1 H2 H3 H4 H5 H6 H7 H8. unfold sp_append, accepted_reconfiguration in H. rewrite H1 in H. apply bind_inv in H. destruct H as (s1 & H & X). injection X as <- _.
  unfold propose_entry in H. rewrite H2, H3 in H. unfold accept_entry_leader, append_entry_with_batching, cache_append_entry in H. rewrite full_one in H by (auto; discriminate).
  cbn [flush_if_full_batch append_entries_without_batching] in H. apply lift_bind in H. destruct H as (ls & HA & H). unfold set_accepted_idx in HA. destruct (vset _ _ _) as [va|] eqn:Hva; [|discriminate]. injection HA as <-.
  unfold send_acceptdecide in H. apply lift_bind in H. destruct H as (ps & HF & H). destruct (gpf_spec _ _ HF) as [ND FS]. cbn in FS.
  destruct (send_ads_f _ _ _ _ _ H ND) as (Y1 & Y2 & Y3 & Y4 & Y5 & Y6 & Y7 & Y8 & Y9 & Y10).
  { intros q _ y. apply H6. }
  { intros q Hq X. cbn in X. apply FS in Hq. destruct Hq as (_ & m & Hm). apply vget_in in Hm. destruct Hm as [Hm1 Hm2]. destruct (nth_error (l_seqs (s_ls s)) (q - 1)) as [x|] eqn:Hx.
    - assert (Z : vget (l_seqs (s_ls s)) q = Some x). { replace q with (S (q - 1)) by lia. apply LeadLinks.vget_nth. exact Hx. } congruence.
    - apply nth_error_None in Hx. assert (q - 1 < length (l_proms (s_ls s))) by (apply nth_error_Some; congruence). lia. }
  cbn in Y1, Y2, Y3, Y4, Y5, Y6, Y7, Y8, Y9.
  split; [auto|]. split; [congruence|]. split; [congruence|]. split; [auto|]. split; [intros q; unfold promd; rewrite Y6; reflexivity|]. split; [auto|].
  rewrite Y1. cbn. split; [reflexivity|]. split; [reflexivity|]. split; [reflexivity|]. split; [reflexivity|]. split; [reflexivity|]. split.
  - rewrite Y7. rewrite (vget_vset _ _ _ _ (s_pid s) Hva). rewrite Nat.eqb_refl. reflexivity.
  - intros q x Q1 Q2 Q3. destruct (Y9 q x) as [J1 J2]; auto; [apply FS; auto|]. split; auto. rewrite J2, H7. reflexivity.
Qed.

(** The follower appends and answers. *)
Lemma acceptdecide_f s n x d e s' : handle_acceptdecide s n (nxt x) d [e] = Ok s' -> i_prom (s_is s) = n -> s_role s = Follower -> s_phase s = PhAccept -> s_cseq s = x ->
  c_bsize (i_ca (s_is s)) <= 1 -> c_batch (i_ca (s_is s)) = [] -> s_out s = [] -> d <= i_dec (s_is s) ->
  s_pid s' = s_pid s /\ s_role s' = Follower /\ s_phase s' = PhAccept /\ s_cseq s' = nxt x /\ i_prom (s_is s') = n /\ i_dec (s_is s') = i_dec (s_is s) /\ i_acc (s_is s') = i_acc (s_is s) + 1
  /\ ms_log (i_st (s_is s')) = ms_log (i_st (s_is s)) ++ [e] /\ c_bsize (i_ca (s_is s')) = c_bsize (i_ca (s_is s))
  /\ s_out s' = [mkPM (s_pid s) (b_pid n) (MAccepted n (i_acc (s_is s) + 1))].
Proof.
  intros H Hn Hr Hph Hq H4 H5 H6 H7. unfold handle_acceptdecide, check_valid_ballot in H. rewrite Hn, bcmp_refl, Hr, Hph in H. cbn [role_eqb phase_eqb andb] in H.
  unfold handle_sequence_num in H. rewrite Hq, nxt_expected in H. cbn zeta iota in H. unfold append_entries_and_get_accepted_idx, cache_append_entries in H. cbn [s_is set_cseq] in H. rewrite full_one in H by (auto; discriminate).
  cbn [append_entries_without_batching] in H. unfold update_decided in H. cbn [s_is set_is] in H. replace (d <=? _) with true in H by (symmetry; apply Nat.leb_le; exact H7).
  unfold reply_accepted in H. apply lift_bind in H. destruct H as (r & Hl & H). assert (r = None).
  { unfold get_latest_accepted in Hl. cbn in Hl. rewrite H6 in Hl. destruct (s_lam s) as [[b k]|]; [|injection Hl as <-; reflexivity]. destruct (beq b n); [|injection Hl as <-; reflexivity]. destruct k; discriminate. }
  subst r. injection H as <-. cbn. rewrite H6. repeat (split; [first [assumption|reflexivity]|]). reflexivity.
Qed.

(** The leader counts. *)
Definition wait (p : node_id) (n : ballot) (R : list node_id) (sq : node_id -> seqnum) (lg : list T) (d N : nat) (ds : list node_id) (s : sp) : Prop :=
  s_pid s = p /\ s_role s = Leader /\ s_phase s = PhAccept /\ l_n (s_ls s) = n /\ i_prom (s_is s) = n /\ ms_log (i_st (s_is s)) = lg /\ i_acc (s_is s) = N /\ c_bsize (i_ca (s_is s)) <= 1
  /\ length (l_seqs (s_ls s)) = length (l_proms (s_ls s))
  /\ (forall q, In q R -> promd (s_ls s) q) /\ (forall q, In q (p :: ds) -> vget (l_accs (s_ls s)) q = Some N) /\ (forall q y, vget (l_accmeta (s_ls s)) q = Some y -> y = None)
  /\ ((i_dec (s_is s) = d /\ s_out s = [] /\ (forall q, In q R -> vget (l_seqs (s_ls s)) q = Some (sq q)) /\ (d < N -> ds = [] \/ is_chosen (s_ls s) N = false))
      \/ (i_dec (s_is s) = N /\ forall q, In q R -> tob q (s_out s) = [mkPM p q (MDecide n (nxt (sq q)) N)] /\ vget (l_seqs (s_ls s)) q = Some (nxt (sq q)))).

Lemma decide_to_any d s to s' x : handle_accepted_to d s to = Ok s' -> (forall y, vget (l_accmeta (s_ls s)) to = Some y -> y = None) -> vget (l_seqs (s_ls s)) to = Some x ->
  sent s s' to (nxt x) (MDecide (l_n (s_ls s)) (nxt x) d).
Proof.
  intros H H0 H1. unfold handle_accepted_to in H. apply lift_bind in H. destruct H as (r & Hr & H). unfold get_latest_accdec, get_latest_accept_meta in Hr.
  destruct (vget (l_accmeta (s_ls s)) to) as [y|] eqn:Hx; [|discriminate]. rewrite (H0 y eq_refl) in Hr. injection Hr as <-.
  unfold send_decide in H. apply lift_bind in H. destruct H as ([l sq] & H2 & H). injection H as <-. destruct (next_f _ _ _ _ _ H2 H1) as (v & -> & -> & V).
  constructor; [constructor; reflexivity|reflexivity|]. exact V.
Qed.
Lemma decide_all_any d ps : forall s s', for_each s ps (handle_accepted_to d) = Ok s' -> NoDup ps -> (forall q, In q ps -> vget (l_seqs (s_ls s)) q <> None) -> (forall q y, vget (l_accmeta (s_ls s)) q = Some y -> y = None) ->
  same s s' /\ length (l_seqs (s_ls s')) = length (l_seqs (s_ls s)) /\ (forall r x, In r ps -> vget (l_seqs (s_ls s)) r = Some x -> tob r (s_out s') = tob r (s_out s) ++ [mkPM (s_pid s) r (MDecide (l_n (s_ls s)) (nxt x) d)] /\ vget (l_seqs (s_ls s')) r = Some (nxt x))
  /\ (forall r, ~ In r ps -> tob r (s_out s') = tob r (s_out s) /\ vget (l_seqs (s_ls s')) r = vget (l_seqs (s_ls s)) r).
Proof.
  induction ps as [|p ps IH]; intros s s' H ND H0 HA; cbn [for_each] in H.
  - injection H as <-. split; [apply same_refl|]. split; [reflexivity|]. split; [intros r x []|]. auto.
  - apply bind_inv in H. destruct H as (s1 & H1 & H). inversion ND as [|a b N1 N2]; subst.
    destruct (vget (l_seqs (s_ls s)) p) as [x|] eqn:Hx; [|exfalso; apply (H0 p (or_introl eq_refl)); exact Hx].
    pose proof (decide_to_any _ _ _ _ x H1 (HA p) Hx) as [Y1 Y2 Y3].
    assert (LL : length (l_seqs (s_ls s1)) = length (l_seqs (s_ls s))).
    { unfold handle_accepted_to in H1. apply lift_bind in H1. destruct H1 as (r & _ & H1). destruct r; [injection H1 as <-; unfold mod_accdec; destruct (nth_error _ _); reflexivity|].
      unfold send_decide in H1. apply lift_bind in H1. destruct H1 as ([l sq] & H2 & H1). injection H1 as <-. cbn [push set_out set_ls s_ls]. unfold next_seq_num in H2. destruct (vget _ _); [|discriminate]. destruct (vset _ _ _) as [v|] eqn:Hv; [|discriminate]. injection H2 as <- _. cbn. apply (vset_len _ _ _ _ Hv). }
    destruct (IH _ _ H N2) as (I1 & I0 & I2 & I3).
    { intros q Hq. rewrite Y3. destruct (q =? p); [discriminate|]. apply H0. right. auto. }
    { intros q y. rewrite (sm_am _ _ Y1). apply HA. }
    split; [exact (same_trans _ _ _ Y1 I1)|]. split; [congruence|]. split.
    + intros r x0 Hr Hx0. destruct (Nat.eq_dec r p) as [->|Np].
      * destruct (I3 p N1) as [J1 J2]. rewrite J1, J2, Y2, Y3, tob_app, tob_one, Nat.eqb_refl. assert (x0 = x) by congruence. subst. auto.
      * destruct Hr as [Hr|Hr]; [congruence|]. destruct (I2 r x0 Hr) as [J1 J2]; [rewrite Y3; apply Nat.eqb_neq in Np; rewrite Np; exact Hx0|]. rewrite J1, J2, Y2, tob_app, tob_one. destruct (Nat.eqb_spec p r); [congruence|].
        rewrite app_nil_r, (sm_pid _ _ Y1), (sm_n _ _ Y1). auto.
    + intros r Hr. assert (Np : r <> p) by (intros ->; apply Hr; left; auto). destruct (I3 r) as [J1 J2]; [intros X; apply Hr; right; auto|]. rewrite J1, J2, Y2, Y3, tob_app, tob_one.
      destruct (Nat.eqb_spec p r); [congruence|]. destruct (Nat.eqb_spec r p); [congruence|]. rewrite app_nil_r. auto.
Qed.

Lemma accepted_any p n R sq lg d N ds s q s' : handle_accepted s n N q = Ok s' -> wait p n R sq lg d N ds s -> p = b_pid n -> ~ In p R -> In q R -> wait p n R sq lg d N (q :: ds) s'.
Proof.
  intros H (W1 & W2 & W3 & W4 & W5 & W6 & W7 & W8 & W9 & W10 & W11 & W12 & W13) Hp NP Hq. unfold handle_accepted in H. rewrite W4, beq_refl, W2, W3 in H. cbn [role_eqb phase_eqb andb] in H. apply lift_bind in H. destruct H as (ls & HA & H).
  unfold set_accepted_idx in HA. destruct (vset _ _ _) as [va|] eqn:Hva; [|discriminate]. injection HA as <-. cbn zeta in H. cbn [s_is s_ls set_ls] in H.
  assert (VA : forall r, vget va r = if r =? q then Some N else vget (l_accs (s_ls s)) r) by (intros r; apply (vget_vset _ _ _ _ r Hva)).
  assert (VD : forall r, In r (p :: q :: ds) -> vget va r = Some N).
  { intros r Hr. rewrite VA. destruct (Nat.eqb_spec r q); auto. apply W11. destruct Hr as [Hr|[Hr|Hr]]; [left; auto|congruence|right; auto]. }
  destruct ((i_dec (s_is s) <? N) && is_chosen (l_set_accs (s_ls s) va) N) eqn:Hc.
  - apply andb_true_iff in Hc. destruct Hc as [Hc1 Hc2]. apply Nat.ltb_lt in Hc1. destruct W13 as [(Z1 & Z2 & Z3 & Z4)|(Z1 & _)]; [|lia].
    apply lift_bind in H. destruct H as (ps & HF & H). destruct (gpf_spec _ _ HF) as [ND' FS]. cbn in FS.
    destruct (decide_all_any _ _ _ _ H ND') as (S1 & S0 & S2 & S3); cbn; auto.
    { intros r Hr X. apply FS in Hr. destruct Hr as (_ & m & Hm). apply vget_in in Hm. destruct Hm as [Hm1 Hm2]. destruct (nth_error (l_seqs (s_ls s)) (r - 1)) as [x|] eqn:Hx.
      - assert (Z : vget (l_seqs (s_ls s)) r = Some x). { replace r with (S (r - 1)) by lia. apply LeadLinks.vget_nth. exact Hx. } congruence.
      - apply nth_error_None in Hx. assert (r - 1 < length (l_proms (s_ls s))) by (apply nth_error_Some; congruence). lia. }
    cbn in S0, S2, S3. unfold wait. rewrite (sm_is _ _ S1), (sm_pid _ _ S1), (sm_role _ _ S1), (sm_ph _ _ S1), (sm_n _ _ S1), (sm_accs _ _ S1), (sm_am _ _ S1), S0, (sm_proms _ _ S1). unfold promd. rewrite (sm_proms _ _ S1). cbn.
    do 9 (split; [assumption|]). split; [exact W10|]. split; [exact VD|]. split; [exact W12|]. right. split; [reflexivity|].
    intros r Hr. destruct (S2 r (sq r)) as [J1 J2]; [apply FS; split; [intros ->; apply NP; congruence|apply W10; auto]|auto|]. rewrite J1, J2, Z2, W4, W1. auto.
  - injection H as <-. unfold wait. cbn. do 9 (split; [assumption|]). split; [exact W10|]. split; [exact VD|]. split; [exact W12|].
    destruct W13 as [(Z1 & Z2 & Z3 & Z4)|(Z1 & Z2)]; [|right; auto]. left. split; auto. split; auto. split; auto. intros L. right.
    apply andb_false_iff in Hc. destruct Hc as [Hc|Hc]; auto. apply Nat.ltb_ge in Hc. lia.
Qed.

(** The follower decides. *)
Lemma decide_any s n x d s' : handle_decide s n (nxt x) d = Ok s' -> i_prom (s_is s) = n -> s_phase s = PhAccept -> s_cseq s = x -> i_dec (s_is s) <= d -> d = i_acc (s_is s) ->
  s_role s' = s_role s /\ s_phase s' = PhAccept /\ s_pid s' = s_pid s /\ s_cseq s' = nxt x /\ i_prom (s_is s') = n /\ i_dec (s_is s') = d /\ i_acc (s_is s') = d /\ s_out s' = s_out s /\ c_bsize (i_ca (s_is s')) = c_bsize (i_ca (s_is s)) /\ ms_log (i_st (s_is s')) = ms_log (i_st (s_is s)).
Proof.
  intros H Hn Hph Hq Hd Ha. unfold handle_decide, check_valid_ballot in H. rewrite Hn, bcmp_refl, Hph in H. cbn [phase_eqb andb] in H. unfold handle_sequence_num in H. rewrite Hq, nxt_expected in H. cbn zeta iota in H.
  unfold update_decided in H. cbn [s_is set_cseq] in H. destruct (Nat.leb_spec d (i_dec (s_is s))).
  - injection H as <-. cbn. repeat split; auto; lia.
  - rewrite <- Ha, Nat.ltb_irrefl in H. injection H as <-. cbn. repeat split; auto. 
Qed.
End WithEntry.
